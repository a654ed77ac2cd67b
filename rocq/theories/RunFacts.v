(** Runs of points: success, size, the difference condition in terms of the cloud, and
    the set of writes performed by the decoder. *)
From Verif Require Export BuildFacts.

(** ** Success of the encoders *)
Definition piece_in (view : list Z) (p : Z * nat * lossk) : Prop :=
  let '(off, sz, _) := p in 0 <= off /\ off + Z.of_nat sz <= zlen view.
Lemma floatn_encode_total ops view lanes : forall prev,
  (length lanes <= length prev)%nat ->
  Forall (piece_in view) (map (fun l => (fst l, 4%nat, KN (snd l))) lanes) ->
  exists r, floatn_encode ops lanes prev view = Ok r.
Proof.
  induction lanes as [|[o r] lanes IH]; intros prev Hl HP; [cbn; eauto|].
  destruct prev as [|p prev]; cbn [length] in Hl; [lia|]. cbn [map fst snd floatn_encode] in *.
  inversion HP as [|? ? Hp HP']; subst. cbv [piece_in] in Hp. destruct Hp as [H1 H2]. rewrite rd_sub_ok by assumption. cbn [bind].
  destruct (lane_encode ops r p (le_val (sub o 4 view))) as [p' out].
  destruct (IH prev ltac:(lia) HP') as ([ps outs] & ->). cbn. eauto.
Qed.
Lemma enc_step_total ops e d offs st view : pair_ed e d offs -> st_inv e st ->
  Forall (piece_in view) (pieces e) -> exists st' bs, enc_step ops e st view = Ok (st', bs).
Proof.
  intros HP HI HF. inversion HP; subst; cbn [pieces enc_step st_inv] in *.
  1-6: inversion HF as [|? ? Hp _]; subst; cbv [piece_in] in Hp; destruct Hp as [H1 H2]; rewrite rd_sub_ok by assumption; cbn [bind].
  - eauto.
  - eauto.
  - destruct (isnan32 _); eauto.
  - destruct (isnan64 _); eauto.
  - eauto.
  - destruct (gor_encode st (le_val (sub off 8 view))) as [s b]. eauto.
  - assert (Hd : exists z, (if (length lanes <? 4)%nat then rd 0 4 view else Ok []) = Ok z).
    { destruct (length lanes <? 4)%nat; [|eauto]. destruct lanes as [|[o r] lanes]; [cbn in *; lia|].
      inversion HF as [|? ? Hp _]; subst. cbv [piece_in fst] in Hp. destruct Hp as [H1 H2]. rewrite rd_sub_ok by (cbn in *; lia). eauto. }
    destruct Hd as (z & ->). cbn [bind].
    destruct (floatn_encode_total ops view lanes (s_vec st)) as ([v out] & ->); [lia|exact HF|]. cbn. eauto.
Qed.
Lemma enc_point_total ops es ds offs : pairs es ds offs -> forall sts view,
  Forall2 st_inv es sts -> Forall (piece_in view) (all_pieces es) ->
  exists sts' bs, enc_point ops es sts view = Ok (sts', bs).
Proof.
  induction 1 as [|e d offs es ds offs' HP HPs IH]; intros sts view HI HF.
  - inversion HI; subst. cbn. eauto.
  - inversion HI as [|? st ? sts1 HI1 HI2]; subst. unfold all_pieces in HF. cbn [flat_map] in HF. apply Forall_app in HF.
    destruct HF as [HF1 HF2]. destruct (enc_step_total ops e d offs st view HP HI1 HF1) as (st' & b & E).
    destruct (IH sts1 view HI2 HF2) as (sts' & bs & E2). cbn. rewrite E. cbn. rewrite E2. cbn. eauto.
Qed.
(** States after a point satisfy the invariant even without the difference condition. *)
Lemma floatn_encode_inv ops view lanes : forall prev ps out,
  floatn_encode ops lanes prev view = Ok (ps, out) ->
  length ps = length lanes /\ Forall (fun p => -2147483648 <= p < 2147483648) ps /\
  bytes out /\ (length lanes <= length out <= 5 * length lanes)%nat.
Proof.
  induction lanes as [|[o r] lanes IH]; intros prev ps out HE; cbn in HE.
  - injection HE as <- <-. repeat split; constructor.
  - destruct prev as [|p prev]; [discriminate|].
    apply bind_ok in HE. destruct HE as (xb & _ & HE). unfold lane_encode in HE.
    destruct (isnan32 (le_val xb)); apply bind_ok in HE; destruct HE as ([ps1 o1] & HE1 & HE);
      injection HE as <- <-; destruct (IH _ _ _ HE1) as (H1 & H2 & H3 & H4).
    + cbn. repeat split; try lia; constructor; auto; unfold is_byte; lia.
    + pose proof (encodeVarint64_length32 (s32 (s32 (qN ops r (le_val xb)) - p)) (s32_range _)).
      cbn [length]. rewrite app_length. repeat split; try lia.
      * constructor; auto. apply s32_range.
      * apply bytes_app. split; [apply encodeVarint64_bytes|auto].
Qed.
Lemma enc_step_inv ops e d offs st view st' bs : pair_ed e d offs -> st_inv e st -> bytes view ->
  enc_step ops e st view = Ok (st', bs) -> st_inv e st' /\ bytes bs /\ (length bs <= enc_max e)%nat.
Proof.
  intros HP HI Hv HE. inversion HP; subst; cbn [enc_step st_inv enc_max] in *;
    apply bind_ok in HE; destruct HE as (xb & Hr & HE).
  1-6: apply rd_sub in Hr; destruct Hr as (-> & Hl & Ho).
  - injection HE as <- <-. repeat split; auto using sub_bytes; lia.
  - injection HE as <- <-. cbn [set_prev s_prev]. pose proof (to_int64_range t (sub off (SizeOf t) view)).
    repeat split; try lia; try apply encodeVarint64_bytes; apply encodeVarint64_length.
  - destruct (isnan32 _); injection HE as <- <-; cbn [set_prev s_prev].
    + repeat split; cbn; try lia. repeat constructor; lia.
    + pose proof (s64_range (q32 ops r (le_val (sub off 4 view)))).
      repeat split; try lia; try apply encodeVarint64_bytes; apply encodeVarint64_length.
  - destruct (isnan64 _); injection HE as <- <-; cbn [set_prev s_prev].
    + repeat split; cbn; try lia. repeat constructor; lia.
    + pose proof (s64_range (q64 ops r (le_val (sub off 8 view)))).
      repeat split; try lia; try apply encodeVarint64_bytes; apply encodeVarint64_length.
  - injection HE as <- <-. cbn [set_prev s_prev]. rewrite le_bytes_length.
    pose proof (le_val_range _ (sub_bytes off sz view Hv)) as Hcr. unfold zlen in Hcr. rewrite Hl in Hcr.
    repeat split; try lia; try apply le_bytes_bytes.
  - pose proof (le_val_range _ (sub_bytes off 8 view Hv)) as Hcr. unfold zlen in Hcr. rewrite Hl in Hcr.
    change (256 ^ Z.of_nat 8) with (2 ^ 64) in Hcr.
    assert (HE2 : gor_encode st (le_val (sub off 8 view)) = (st', bs)) by congruence.
    destruct (gor_roundtrip st _ st' bs [] HI Hcr (Forall_nil _) HE2) as (_ & HI' & _ & Hb & Hlen).
    unfold zlen in Hlen. split; [exact HI'|]. split; [exact Hb|lia].
  - apply bind_ok in HE. destruct HE as ([v out] & HE1 & HE). injection HE as <- <-.
    destruct (floatn_encode_inv _ _ _ _ _ _ HE1) as (H1 & H2 & H3 & H4). destruct HI as [HI1 HI2].
    cbn [set_vec s_vec]. repeat split; auto; try lia.
    + rewrite app_length, skipn_length. lia.
    + apply Forall_app. split; [exact H2|]. apply skipn_Forall. exact HI2.
Qed.
Lemma enc_point_inv ops es ds offs : pairs es ds offs -> forall sts view sts' bs,
  Forall2 st_inv es sts -> bytes view -> enc_point ops es sts view = Ok (sts', bs) ->
  Forall2 st_inv es sts' /\ bytes bs /\ (length bs <= sum_nat (map enc_max es))%nat.
Proof.
  induction 1 as [|e d offs es ds offs' HP HPs IH]; intros sts view sts' bs HI Hv HE.
  - inversion HI; subst. cbn in HE. injection HE as <- <-. repeat split; auto; constructor.
  - inversion HI as [|? st ? sts1 HI1 HI2]; subst. cbn [enc_point] in HE.
    apply bind_ok in HE. destruct HE as ((st' & o1) & HE1 & HE).
    apply bind_ok in HE. destruct HE as ((sts2 & o2) & HE2 & HE). injection HE as <- <-.
    destruct (enc_step_inv _ _ _ _ _ _ _ _ HP HI1 Hv HE1) as (H1 & H2 & H3).
    destruct (IH _ _ _ _ HI2 Hv HE2) as (H4 & H5 & H6).
    repeat split; [constructor; auto|apply bytes_app; auto|]. rewrite app_length. cbn. unfold sum_nat in *. lia.
Qed.

(** [n] points (or all there are) are encoded when every piece lies inside a point. *)
Definition piece_step (step : nat) (p : Z * nat * lossk) : Prop :=
  let '(off, sz, _) := p in 0 <= off /\ off + Z.of_nat sz <= Z.of_nat step.
Lemma piece_step_in step view ps : (step <= length view)%nat -> Forall (piece_step step) ps -> Forall (piece_in view) ps.
Proof.
  intros Hs. apply Forall_impl. intros [[o s] k] H. unfold piece_in, piece_step, zlen in *. lia.
Qed.
Lemma enc_points_total ops es ds offs step : pairs es ds offs -> (0 < step)%nat ->
  Forall (piece_step step) (all_pieces es) ->
  forall n sts cloud, Forall2 st_inv es sts -> bytes cloud -> has_points n step cloud ->
  exists bs, enc_points_v4 ops es step n sts cloud = Ok (skipn (n * step) cloud, bs) /\
             bytes bs /\ (length bs <= n * sum_nat (map enc_max es))%nat.
Proof.
  intros HP Hst HF. induction n as [|n IH]; intros sts cloud HI Hc Hn.
  - exists []. cbn. repeat split; constructor.
  - unfold has_points in *. cbn [enc_points_v4].
    destruct cloud as [|c0 cl] eqn:Ec; [cbn in Hn; lia|]. rewrite <- Ec in *. clear Ec c0 cl.
    destruct (enc_point_total ops es ds offs HP sts cloud HI) as (sts' & o1 & E1).
    { apply (piece_step_in step); auto. lia. }
    rewrite E1. cbn [bind]. unfold trim_front.
    destruct (Nat.ltb_spec (length cloud) step); [lia|]. cbn [bind].
    destruct (enc_point_inv ops es ds offs HP sts cloud sts' o1 HI Hc E1) as (HI' & Hb1 & Hl1).
    destruct (IH sts' (skipn step cloud) HI') as (o2 & E2 & Hb2 & Hl2).
    { apply bytes_skipn. exact Hc. }
    { rewrite skipn_length. lia. }
    rewrite E2. cbn [bind]. exists (o1 ++ o2). rewrite skipn_skipn. split; [do 3 f_equal; lia|].
    split; [apply bytes_app; auto|]. rewrite app_length. lia.
Qed.

(** ** Writes *)
Lemma stores_of_combine offs bss :
  stores_of offs bss = flat_map (fun ob => store (fst ob) (snd ob)) (combine offs bss).
Proof. revert bss; induction offs; intros [|]; cbn; auto. now rewrite IHoffs. Qed.

Lemma in_run_writes ops es offs step dstep n : forall base cloud w,
  In w (run_writes ops es offs step dstep n base cloud) <->
  exists j s, (j < n)%nat /\ In s (pstores ops es offs (skipn (j * step) cloud)) /\
              w = (base + Z.of_nat j * dstep + fst s, snd s).
Proof.
  induction n as [|n IH]; intros base cloud w; cbn [run_writes].
  - split; [intros []|]. intros (j & s & H & _). lia.
  - rewrite in_app_iff, in_map_iff, IH. split.
    + intros [(s & <- & Hs)|(j & s & Hj & Hs & ->)].
      * exists O, s. split; [lia|]. split; [exact Hs|]. unfold shift_w. f_equal. lia.
      * exists (S j), s. split; [lia|]. rewrite skipn_skipn in Hs. replace (S j * step)%nat with (j * step + step)%nat by lia.
        split; [exact Hs|]. f_equal. lia.
    + intros (j & s & Hj & Hs & ->). destruct j as [|j].
      * left. exists s. split; [|exact Hs]. unfold shift_w. f_equal. lia.
      * right. exists j, s. split; [lia|]. rewrite skipn_skipn. replace (j * step + step)%nat with (S j * step)%nat by lia.
        split; [exact Hs|]. f_equal. lia.
Qed.

(** Field pairs: decoder field, (encoder field, kind). *)
Definition fpairs (i i' : info) : list (field * (field * lossk)) := combine (i_fields i') (fks i).
Definition sel_pairs (sel : ftype -> bool) (l : list (field * (field * lossk))) :=
  filter (fun p => sel (f_type (fst (snd p)))) l.

Lemma combine_filter {A B} (p : A -> bool) (q : B -> bool) (l : list A) (l' : list B) :
  Forall2 (fun a b => p a = q b) l l' -> combine (filter p l) (filter q l') = filter (fun ab => q (snd ab)) (combine l l').
Proof.
  induction 1 as [|a b l l' H _ IH]; [reflexivity|]. cbn. rewrite H. destruct (q b); cbn; now rewrite IH.
Qed.
Lemma fks_shape i i' : same_codec i i' ->
  Forall2 (fun f' fk => same_shape (fst fk) f') (i_fields i') (fks i).
Proof.
  intros (HS & _). unfold fks. pose proof (kinds_length i) as Hk. revert Hk. generalize (kinds i).
  induction HS as [|f f' l l' H _ IH]; intros [|k ks] Hk; cbn in *; try lia; constructor; auto.
Qed.
Lemma Forall2_mp {A B} (P Q : A -> B -> Prop) l l' : (forall a b, P a b -> Q a b) -> Forall2 P l l' -> Forall2 Q l l'.
Proof. intros H. induction 1; constructor; auto. Qed.
Lemma combine_map2 {A B C D} (g : A -> C) (h : B -> D) l l' :
  combine (map g l) (map h l') = map (fun p => (g (fst p), h (snd p))) (combine l l').
Proof. revert l'; induction l; intros [|]; cbn; auto. now f_equal. Qed.

Lemma pstores_fields ops i i' sel es ds view : same_codec i i' -> regular_pairs i i' sel es ds ->
  pstores ops es (map f_off (filter (fun f => sel (f_type f)) (i_fields i'))) view =
  flat_map (fun p => store (f_off (fst p)) (recon ops (snd (snd p)) (sub (f_off (fst (snd p))) (SizeOf (f_type (fst (snd p)))) view)))
           (sel_pairs sel (fpairs i i')).
Proof.
  intros HS [_ HC]. unfold pstores. rewrite stores_of_combine, HC, map_map, combine_map2.
  rewrite combine_filter.
  2:{ eapply Forall2_mp; [|apply (fks_shape i i' HS)]. cbn. intros f' fk [-> _]. reflexivity. }
  unfold sel_pairs, fpairs. rewrite flat_map_concat_map, map_map, <- flat_map_concat_map. reflexivity.
Qed.

(** The writes that a decoder of points [lo, lo+n) is to perform, as a set. *)
Definition target (ops : float_ops) (i i' : info) (sel : ftype -> bool) (cloud : list Z) (lo n : nat) (w : Z * list Z) : Prop :=
  exists j f' f k, (lo <= j < lo + n)%nat /\ In (f', (f, k)) (fpairs i i') /\ sel (f_type f) = true /\
    f_off f' <> kSkip /\ w = (Z.of_nat j * i_step i' + f_off f', recon ops k (fbytes i f cloud j)).

Lemma sub_skipn off sz n view : 0 <= off -> sub off sz (skipn n view) = sub (Z.of_nat n + off) sz view.
Proof. intros. unfold sub. rewrite skipn_skipn. do 2 f_equal. lia. Qed.

Lemma in_run_target ops i i' sel es ds cloud lo n step : same_codec i i' -> regular_pairs i i' sel es ds ->
  i_step i = Z.of_nat step -> Forall (fun f => 0 <= f_off f) (i_fields i) ->
  forall w, In w (run_writes ops es (map f_off (filter (fun f => sel (f_type f)) (i_fields i'))) step (i_step i') n
                             (Z.of_nat lo * i_step i') (skipn (lo * step) cloud)) <->
  target ops i i' sel cloud lo n w.
Proof.
  intros HS HR Hst Hoff w. rewrite in_run_writes. unfold target.
  assert (Hof : forall f' f k, In (f', (f, k)) (fpairs i i') -> 0 <= f_off f).
  { intros f' f k H. apply in_combine_r in H. apply in_combine_l in H. rewrite Forall_forall in Hoff. auto. }
  assert (HFB : forall f j, 0 <= f_off f -> sub (f_off f) (SizeOf (f_type f)) (skipn (j * step) (skipn (lo * step) cloud)) = fbytes i f cloud (lo + j)).
  { intros f j H. unfold fbytes. rewrite !sub_skipn by lia. f_equal. rewrite Hst. lia. }
  split.
  - intros (j & s & Hj & Hs & ->). rewrite (pstores_fields ops i i' sel es ds) in Hs by assumption.
    apply in_flat_map in Hs. destruct Hs as ([f' [f k]] & Hp & Hs). cbn [fst snd] in Hs.
    unfold sel_pairs in Hp. apply filter_In in Hp. destruct Hp as [Hp Hsel]. cbn [fst snd] in Hsel.
    unfold store in Hs. destruct (f_off f' =? kSkip) eqn:Ek; [destruct Hs|]. destruct Hs as [<-|[]].
    exists (lo + j)%nat, f', f, k. cbn [fst snd]. repeat split; try lia; auto.
    f_equal; [lia|]. rewrite HFB by eauto. reflexivity.
  - intros (j & f' & f & k & Hj & Hp & Hsel & Hk & ->).
    exists (j - lo)%nat, (f_off f', recon ops k (fbytes i f cloud j)). split; [lia|]. split; [|cbn [fst snd]; f_equal; rewrite Nat2Z.inj_sub by lia; lia].
    rewrite (pstores_fields ops i i' sel es ds) by assumption. apply in_flat_map.
    exists (f', (f, k)). split; [apply filter_In; auto|]. cbn [fst snd]. unfold store.
    destruct (f_off f' =? kSkip) eqn:Ek; [lia|]. left. rewrite HFB by eauto. replace (lo + (j - lo))%nat with j by lia. reflexivity.
Qed.

(** ** The difference condition *)
Definition delta_of (e : fenc) (fk : field * lossk) : Prop :=
  match e with
  | EInt off t => off = f_off (fst fk) /\ t = f_type (fst fk) /\ snd fk = KId /\ is_int_type t
  | ELossy32 off r => off = f_off (fst fk) /\ FLOAT32 = f_type (fst fk) /\ snd fk = K32 r
  | ELossy64 off r => off = f_off (fst fk) /\ FLOAT64 = f_type (fst fk) /\ snd fk = K64 r
  | _ => True
  end.
Lemma create_delta i f e : known_enc i -> CreateCompatibleEncoder i f = Ok e -> delta_of e (f, fkind i f).
Proof.
  unfold known_enc, CreateCompatibleEncoder, fkind, lossy_kind, has_res, res_of. intros HK HE.
  destruct (f_type f) eqn:Et; try discriminate;
  destruct (i_enc i); try (exfalso; exact HK); cbn [is_lossy andb negb] in *;
  destruct (f_res f) as [r|]; cbn [andb negb is_lossy] in *;
  repeat match goal with H : (if ?c then _ else _) = Ok _ |- _ => destruct c; try discriminate end;
  injection HE as <-; cbn; rewrite ?Et; auto.
Qed.
Definition deltas_from (fs : list (field * lossk)) (e : fenc) : Prop :=
  is_delta e = true -> exists fk, In fk fs /\ delta_of e fk.
Lemma mapM_delta i : known_enc i -> forall fs es, mapM (CreateCompatibleEncoder i) fs = Ok es ->
  Forall (deltas_from (map (fun f => (f, fkind i f)) fs)) es.
Proof.
  intros HK. induction fs as [|f fs IH]; intros es H; cbn in H.
  - injection H as <-. constructor.
  - apply bind_ok in H. destruct H as (e & H1 & H). apply bind_ok in H. destruct H as (es1 & H2 & H). injection H as <-.
    constructor.
    + intros _. exists (f, fkind i f). split; [left; reflexivity|]. now apply create_delta.
    + eapply Forall_impl; [|apply IH; eauto]. intros a Ha Hd. destruct (Ha Hd) as (fk & Hin & Hfk). exists fk. split; [right; auto|auto].
Qed.
Lemma build_delta i sel le re : known_enc i ->
  leading_encoder i = Ok le ->
  mapM (CreateCompatibleEncoder i) (filter sel (skipn (LeadingLossyFloatFieldCount i) (i_fields i))) = Ok re ->
  Forall (deltas_from (fks i)) (le ++ re).
Proof.
  intros HK HL HR. apply Forall_app. split.
  - unfold leading_encoder in HL. destruct (_ =? 0)%nat; [injection HL as <-; constructor|].
    destruct (existsb _ _); [discriminate|]. injection HL as <-. constructor; [|constructor]. intros H. discriminate.
  - eapply Forall_impl; [|apply (mapM_delta i HK _ _ HR)]. intros e He Hd. destruct (He Hd) as (fk & Hin & Hfk).
    exists fk. split; [|exact Hfk]. rewrite fks_split by exact HK. apply in_or_app. right.
    apply in_map_iff in Hin. destruct Hin as (f & <- & Hf). apply filter_In in Hf. apply in_map_iff. exists f. tauto.
Qed.
Lemma build_v4_delta i es : known_enc i -> BuildV4Encoders i = Ok es -> Forall (deltas_from (fks i)) es.
Proof.
  intros HK HE. unfold BuildV4Encoders in HE. destruct (i_enc i) eqn:Ee.
  - injection HE as <-. apply Forall_forall. intros e He. apply in_map_iff in He. destruct He as (f & <- & _). intros H. discriminate.
  - apply bind_ok in HE. destruct HE as (le & HLE & HE). apply bind_ok in HE. destruct HE as (re & HRE & HE). injection HE as <-.
    apply (build_delta i (fun _ => true)); auto. now rewrite filter_true.
  - apply bind_ok in HE. destruct HE as (le & HLE & HE). apply bind_ok in HE. destruct HE as (re & HRE & HE). injection HE as <-.
    apply (build_delta i (fun _ => true)); auto. now rewrite filter_true.
  - apply bind_ok in HE. destruct HE as (le & HLE & HE). apply bind_ok in HE. destruct HE as (re & HRE & HE). injection HE as <-.
    apply (build_delta i (fun _ => true)); auto. now rewrite filter_true.
Qed.

Lemma int_value_spec t bs : is_int_type t -> bytes bs -> length bs = SizeOf t -> int_value t bs = Some (to_int64 t bs).
Proof.
  intros Ht Hb Hl. pose proof (le_val_range bs Hb) as Hr. unfold zlen in Hr. unfold int_value, to_int64, zlen, s64, s32.
  rewrite Hl in *.
  destruct t; try (exfalso; exact Ht); cbn [SizeOf int_signed andb] in *;
    change (256 ^ Z.of_nat 2) with 65536 in *; change (256 ^ Z.of_nat 4) with 4294967296 in *;
    change (256 ^ Z.of_nat 8) with 18446744073709551616 in *; f_equal;
    repeat match goal with |- context [if ?c then _ else _] => destruct c eqn:?E end; lia.
Qed.
Definition opt0 (o : option Z) : Z := match o with Some v => v | None => 0 end.
Lemma qcur_coded ops e fk view : is_delta e = true -> delta_of e fk -> bytes view ->
  piece_in view (piece_of fk) ->
  qcur ops e view = opt0 (coded_value ops (f_type (fst fk)) (snd fk) (sub (f_off (fst fk)) (SizeOf (f_type (fst fk))) view)).
Proof.
  destruct fk as [f k]. cbn [fst snd]. intros Hd HO Hv Hp. cbv [piece_of piece_in fst snd] in Hp. destruct Hp as [H1 H2].
  destruct e; try discriminate; cbn [delta_of qcur fst snd] in *.
  - destruct HO as (-> & -> & -> & Ht). cbn [coded_value]. rewrite int_value_spec; auto using sub_bytes, sub_length.
  - destruct HO as (-> & <- & ->). cbn [coded_value SizeOf]. destruct (isnan32 _); reflexivity.
  - destruct HO as (-> & <- & ->). cbn [coded_value SizeOf]. destruct (isnan64 _); reflexivity.
Qed.

Lemma run_deltas_intro ops es step n : forall pv cloud lo,
  (forall j, (lo <= j < lo + n)%nat -> Forall (delta_pv ops (if (j =? lo)%nat then pv else Some (skipn ((j - lo - 1) * step) cloud)) (skipn ((j - lo) * step) cloud)) es) ->
  run_deltas ops es step n pv cloud.
Proof.
  induction n as [|n IH]; intros pv cloud lo H; cbn [run_deltas]; [exact I|]. split.
  - specialize (H lo ltac:(lia)). rewrite Nat.eqb_refl, Nat.sub_diag in H. exact H.
  - apply (IH (Some cloud) (skipn step cloud) (S lo)). intros j Hj.
    specialize (H j ltac:(lia)). replace (j =? lo)%nat with false in H by (symmetry; apply Nat.eqb_neq; lia).
    rewrite !skipn_skipn.
    replace ((j - S lo) * step + step)%nat with ((j - lo) * step)%nat by nia.
    destruct (Nat.eqb_spec j (S lo)) as [->|Hne].
    + replace (S lo - lo - 1)%nat with O in H by lia. exact H.
    + replace ((j - S lo - 1) * step + step)%nat with ((j - lo - 1) * step)%nat by nia. exact H.
Qed.

(** From the specification's condition on the cloud to the encoders' condition in one chunk. *)
Lemma deltas_ok_run ops i ppc cloud es c n step : known_enc i -> Forall (deltas_from (fks i)) es ->
  layout_ok i -> i_step i = Z.of_nat step -> bytes cloud -> (0 < ppc)%nat -> (n <= ppc)%nat ->
  ((c * ppc + n) * step <= length cloud)%nat ->
  deltas_ok ops i ppc cloud ->
  run_deltas ops es step n None (skipn (c * ppc * step) cloud).
Proof.
  intros HK HF HL Hst Hc Hp Hn Hlen HD. apply run_deltas_intro with (lo := O). intros j Hj.
  rewrite Nat.sub_0_r, !skipn_skipn. apply Forall_forall. intros e He. rewrite Forall_forall in HF. specialize (HF e He).
  destruct (is_delta e) eqn:Ed.
  2:{ destruct e; try discriminate; exact I. }
  destruct (HF Ed) as ([f k] & Hin & HO).
  unfold deltas_ok in HD. rewrite Forall_forall in HD. specialize (HD (f, k) Hin). cbn [fst snd] in HD.
  unfold deltas_ok_field in HD. specialize (HD (c * ppc + j)%nat).
  destruct HL as [Hs HLf]. rewrite Forall_forall in HLf.
  assert (Hf : 0 <= f_off f /\ f_off f + Z.of_nat (SizeOf (f_type f)) <= i_step i) by (apply HLf; apply in_combine_l in Hin; exact Hin).
  assert (HB : forall m, (S m * step <= length cloud)%nat ->
     qcur ops e (skipn (m * step) cloud) = opt0 (coded_value ops (f_type f) k (fbytes i f cloud m))).
  { intros m Hm. rewrite (qcur_coded ops e (f, k)); auto using bytes_skipn.
    - cbn [fst snd]. unfold fbytes. rewrite sub_skipn by lia. do 3 f_equal. rewrite Hst. lia.
    - unfold piece_in, piece_of, zlen. cbn [fst snd]. rewrite skipn_length. lia. }
  assert (HM : ((c * ppc + j) mod ppc)%nat = j) by (rewrite Nat.add_comm, Nat.mod_add, Nat.mod_small by lia; reflexivity).
  rewrite HM in HD.
  assert (Hsz : Z.of_nat (S (c * ppc + j)) * i_step i <= zlen cloud) by (unfold zlen; nia).
  replace (j * step + c * ppc * step)%nat with ((c * ppc + j) * step)%nat by lia.
  assert (HB1 := HB (c * ppc + j)%nat ltac:(nia)).
  assert (HPrev : (match (if (j =? 0)%nat then None else Some (skipn ((j - 1) * step + c * ppc * step) cloud)) with
                   | None => 0 | Some v => qcur ops e v end) =
                  (if (j =? 0)%nat then 0 else match coded_value ops (f_type f) k (fbytes i f cloud (c * ppc + j - 1)) with Some p => p | None => 0 end)).
  { destruct (Nat.eqb_spec j 0); [reflexivity|].
    replace ((j - 1) * step + c * ppc * step)%nat with ((c * ppc + j - 1) * step)%nat by nia.
    rewrite HB by nia. reflexivity. }
  assert (HV : forall v, coded_value ops (f_type f) k (fbytes i f cloud (c * ppc + j)) = Some v -> qcur ops e (skipn ((c * ppc + j) * step) cloud) = v).
  { intros v Hv. rewrite HB1, Hv. reflexivity. }
  assert (HFB : sub (f_off f) (SizeOf (f_type f)) (skipn ((c * ppc + j) * step) cloud) = fbytes i f cloud (c * ppc + j)).
  { unfold fbytes. rewrite sub_skipn by lia. f_equal. rewrite Hst. lia. }
  destruct e; try discriminate; cbn [delta_of fst snd] in HO; unfold delta_pv; rewrite HPrev.
  - destruct HO as (-> & -> & -> & Ht). cbn [coded_value] in *.
    assert (HIV : int_value (f_type f) (fbytes i f cloud (c * ppc + j)) = Some (to_int64 (f_type f) (fbytes i f cloud (c * ppc + j)))).
    { apply int_value_spec; auto; rewrite <- HFB; [apply sub_bytes, bytes_skipn; exact Hc|].
      apply sub_length; unfold zlen; rewrite ?skipn_length; nia. }
    rewrite (HV _ HIV). apply HD; auto.
  - destruct HO as (-> & Ht & ->). rewrite <- Ht in *. cbn [SizeOf] in HFB. rewrite HFB. intros Hnn.
    cbn [coded_value] in HV, HD |- *. rewrite Hnn in HV, HD. rewrite (HV _ eq_refl). apply HD; auto.
  - destruct HO as (-> & Ht & ->). rewrite <- Ht in *. cbn [SizeOf] in HFB. rewrite HFB. intros Hnn.
    cbn [coded_value] in HV, HD |- *. rewrite Hnn in HV, HD. rewrite (HV _ eq_refl). apply HD; auto.
Qed.
