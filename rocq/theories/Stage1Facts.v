(** Encoders on their own: which encoders are built, that they succeed on every cloud whose
    layout is sound, and how large their output can get. *)
From Verif Require Export ChunkV5Facts Api.

Definition fmaxz (opt : enc_opt) (f : field) : Z :=
  match MaxSerializedFieldSize f opt with Ok m => m | _ => 0 end.
Lemma max_fields_sum fs opt : forall m, max_fields_size fs opt = Ok m -> m = sumz (map (fmaxz opt) fs).
Proof.
  induction fs as [|f fs IH]; intros m H; cbn [max_fields_size] in H.
  - injection H as <-. reflexivity.
  - apply bind_ok in H. destruct H as (a & H1 & H). apply bind_ok in H. destruct H as (b & H2 & H). injection H as <-.
    unfold sumz in *. cbn [map fold_right]. unfold fmaxz at 1. rewrite H1, (IH _ H2). reflexivity.
Qed.
Lemma fmaxz_nonneg opt f : 0 <= fmaxz opt f.
Proof. unfold fmaxz, MaxSerializedFieldSize. destruct (f_type f), (is_lossy opt && has_res f); lia. Qed.
Lemma sumz_app l l' : sumz (l ++ l') = sumz l + sumz l'.
Proof. unfold sumz. induction l; cbn; lia. Qed.
Lemma sumz_filter {A} (g : A -> Z) (p : A -> bool) l :
  sumz (map g l) = sumz (map g (filter p l)) + sumz (map g (filter (fun x => negb (p x)) l)).
Proof. unfold sumz. induction l as [|x l IH]; [reflexivity|]. cbn [map fold_right filter]. destruct (p x); cbn [negb map fold_right]; lia. Qed.
Lemma sumz_nonneg {A} (g : A -> Z) l : (forall x, 0 <= g x) -> 0 <= sumz (map g l).
Proof. intros H. unfold sumz. induction l as [|x l IH]; cbn [map fold_right]; [lia|]. specialize (H x). lia. Qed.

Definition enc_wf (es : list fenc) : Prop := exists ds offs, pairs es ds offs.
Lemma create_wf i f e : CreateCompatibleEncoder i f = Ok e -> exists d o, pair_ed e d [o].
Proof.
  unfold CreateCompatibleEncoder. intros HE.
  destruct (f_type f) eqn:Et; try discriminate;
  repeat match goal with H : (if ?c then _ else _) = Ok _ |- _ => destruct c; try discriminate end;
  try (destruct (i_enc i)); try discriminate; injection HE as <-;
  first [ exists (DCopy 0 (SizeOf FLOAT32)), 0; apply P_copy
        | exists (DCopy 0 (SizeOf INT8)), 0; apply P_copy
        | exists (DCopy 0 (SizeOf UINT8)), 0; apply P_copy
        | exists (DGorilla 0), 0; apply P_gor
        | (exists (DXor 0 4), 0; apply P_xor; lia) | (exists (DXor 0 8), 0; apply P_xor; lia)
        | eexists (DLossy32 0 _), 0; apply P_l32 | eexists (DLossy64 0 _), 0; apply P_l64
        | eexists (DInt 0 (SizeOf _)), 0; apply P_int; exact I ].
Qed.
Lemma mapM_wf i : forall fs es, mapM (CreateCompatibleEncoder i) fs = Ok es -> enc_wf es /\
  Z.of_nat (sum_nat (map enc_max es)) <= sumz (map (fmaxz (i_enc i)) fs).
Proof.
  induction fs as [|f fs IH]; intros es H; cbn [mapM] in H.
  - injection H as <-. split; [exists [], []; constructor|]. cbn. lia.
  - apply bind_ok in H. destruct H as (e & H1 & H). apply bind_ok in H. destruct H as (es1 & H2 & H). injection H as <-.
    destruct (IH _ H2) as ((ds & offs & HP) & HS). destruct (create_wf i f e H1) as (d & o & Hd). split.
    + exists (d :: ds), ([o] ++ offs). constructor; auto.
    + destruct (create_max i f e H1) as (m & Hm & Hle & _). unfold sumz in *. cbn [map fold_right].
      unfold sum_nat in *. cbn [fold_right]. unfold fmaxz at 1. rewrite Hm. lia.
Qed.
Lemma mapM_pieces i : coded_enc i -> forall fs es, mapM (CreateCompatibleEncoder i) fs = Ok es ->
  all_pieces es = map piece_of (map (fun f => (f, fkind i f)) fs).
Proof.
  intros HK. induction fs as [|f fs IH]; intros es H; cbn [mapM] in H.
  - injection H as <-. reflexivity.
  - apply bind_ok in H. destruct H as (e & H1 & H). apply bind_ok in H. destruct H as (es1 & H2 & H). injection H as <-.
    unfold all_pieces in *. cbn [flat_map map]. rewrite (IH _ H2). f_equal.
    clear - HK H1. unfold coded_enc, CreateCompatibleEncoder, fkind, piece_of, lossy_kind in *. cbn [fst snd]. unfold has_res, res_of in *.
    destruct (f_type f) eqn:Et; try discriminate; destruct (i_enc i); try (exfalso; exact HK); cbn [is_lossy andb negb] in *;
    destruct (f_res f) as [r|]; cbn [andb negb is_lossy] in *;
    repeat match goal with H : (if ?c then _ else _) = Ok _ |- _ => destruct c; try discriminate end;
    injection H1 as <-; reflexivity.
Qed.
Lemma lead_cases i : let n := LeadingLossyFloatFieldCount i in
  (n = 0 \/ ((n = 3 \/ n = 4) /\ is_lossy (i_enc i) = true))%nat /\ (n <= lead_run (i_fields i))%nat.
Proof.
  cbn. unfold LeadingLossyFloatFieldCount. rewrite lead_run_spec. destruct (is_lossy (i_enc i)); [|lia].
  destruct ((lead_run (i_fields i) =? 3)%nat || (lead_run (i_fields i) =? 4)%nat) eqn:E; [|lia].
  apply orb_true_iff in E. rewrite !Nat.eqb_eq in E. lia.
Qed.
Lemma lead_wf i le : leading_encoder i = Ok le ->
  enc_wf le /\ Z.of_nat (sum_nat (map enc_max le)) <= sumz (map (fmaxz (i_enc i)) (firstn (LeadingLossyFloatFieldCount i) (i_fields i))) /\
  all_pieces le = map piece_of (map (fun f => (f, vector_kind f)) (firstn (LeadingLossyFloatFieldCount i) (i_fields i))).
Proof.
  intros HE. unfold leading_encoder in HE. destruct (lead_cases i) as [Hc Hn]. cbv zeta in Hc, Hn.
  set (n := LeadingLossyFloatFieldCount i) in *.
  destruct (n =? 0)%nat eqn:E0.
  - injection HE as <-. apply Nat.eqb_eq in E0. rewrite E0. split; [exists [], []; constructor|]. split; cbn; [lia|reflexivity].
  - apply Nat.eqb_neq in E0. destruct (existsb _ _); [discriminate|]. injection HE as <-.
    destruct Hc as [Hc|[Hc Hl]]; [lia|].
    assert (Hlen : length (firstn n (i_fields i)) = n).
    { rewrite firstn_length. pose proof (lead_run_le (i_fields i)). lia. }
    pose proof (lead_run_fields (i_fields i) n Hn) as HF.
    split; [|split].
    + eexists. eexists. apply (pairs_cons _ (DFloatN (lanes_of (firstn n (i_fields i))))); [|constructor].
      constructor; [reflexivity|]. unfold lanes_of. rewrite map_length, Hlen. lia.
    + cbn [map enc_max]. unfold sum_nat. cbn [fold_right]. unfold lanes_of. rewrite map_length, Hlen.
      rewrite <- Hlen at 1. clear - HF Hl. unfold sumz. induction HF as [|f l [Ht (r & Hr)] _ IH]; [cbn; lia|].
      cbn [map fold_right length]. unfold fmaxz at 1, MaxSerializedFieldSize, has_res. rewrite Ht, Hr, Hl. cbn [andb]. lia.
    + unfold all_pieces. cbn [flat_map pieces]. rewrite app_nil_r. unfold lanes_of. rewrite !map_map.
      clear - HF. induction HF as [|f l [Ht (r & Hr)] _ IH]; [reflexivity|]. cbn [map]. rewrite IH. f_equal.
      unfold piece_of, vector_kind, res_of. cbn [fst snd]. rewrite Ht, Hr. reflexivity.
Qed.
Lemma enc_wf_app es es' : enc_wf es -> enc_wf es' -> enc_wf (es ++ es').
Proof. intros (ds & o & H) (ds' & o' & H'). exists (ds ++ ds'), (o ++ o'). now apply pairs_app. Qed.
Lemma sum_nat_app l l' : sum_nat (l ++ l') = (sum_nat l + sum_nat l')%nat.
Proof. unfold sum_nat. induction l; cbn; lia. Qed.

(** What the builders guarantee about the per-point encoders of the selected fields. *)
Definition built (i : info) (sel : ftype -> bool) (es : list fenc) : Prop :=
  enc_wf es /\ all_pieces es = map piece_of (filter (fun fk => sel (f_type (fst fk))) (fks i)) /\
  Z.of_nat (sum_nat (map enc_max es)) <= sumz (map (fmaxz (i_enc i)) (filter (fun f => sel (f_type f)) (i_fields i))) /\
  Forall (deltas_from (fks i)) es.
Lemma build_wf i sel le re : coded_enc i -> sel FLOAT32 = true ->
  leading_encoder i = Ok le ->
  mapM (CreateCompatibleEncoder i) (filter (fun f => sel (f_type f)) (skipn (LeadingLossyFloatFieldCount i) (i_fields i))) = Ok re ->
  built i sel (le ++ re).
Proof.
  intros HC Hsel HL HR. pose proof (coded_known i HC) as HK.
  destruct (lead_wf i le HL) as (W1 & S1 & P1). destruct (mapM_wf i _ _ HR) as (W2 & S2). pose proof (mapM_pieces i HC _ _ HR) as P2.
  destruct (lead_cases i) as [_ Hle]. cbv zeta in Hle. set (n := LeadingLossyFloatFieldCount i) in *.
  assert (F1 : filter (fun f => sel (f_type f)) (firstn n (i_fields i)) = firstn n (i_fields i)).
  { apply filter_all. eapply Forall_impl; [|apply (lead_run_fields (i_fields i) n Hle)]. cbn. intros f [-> _]. exact Hsel. }
  split; [now apply enc_wf_app|]. split; [|split].
  - unfold all_pieces in *. rewrite flat_map_app, P1, P2, fks_split, filter_app, map_app by exact HK. fold n. f_equal.
    + rewrite filter_map. cbn [fst]. rewrite F1. reflexivity.
    + rewrite filter_map. reflexivity.
  - rewrite <- (firstn_skipn n (i_fields i)), filter_app, F1, !map_app, sumz_app, sum_nat_app. lia.
  - eapply build_delta; eauto.
Qed.
Lemma build_v4_wf i es m : known_enc i -> BuildV4Encoders i = Ok es -> MaxSerializedPointSize i = Ok m ->
  built i (fun _ => true) es /\ Z.of_nat (sum_nat (map enc_max es)) <= m.
Proof.
  intros HK HE HM. pose proof HE as HE0. pose proof HK as HK0. unfold BuildV4Encoders in HE.
  assert (HB : built i (fun _ => true) es).
  { destruct (i_enc i) eqn:Ee; try (unfold known_enc in HK; rewrite Ee in HK; destruct HK).
    - injection HE as <-. split; [|split; [|split]].
      + clear. unfold enc_wf. induction (i_fields i) as [|f fs (ds & offs & IH)]; [exists [], []; constructor|].
        cbn [map]. exists (DCopy 0 (SizeOf (f_type f)) :: ds), ([0] ++ offs). constructor; auto. apply P_copy.
      + rewrite filter_true. unfold fks, kinds. rewrite Ee. rewrite combine_map, map_map.
        unfold all_pieces. clear. induction (i_fields i); [reflexivity|]. cbn. now f_equal.
      + rewrite filter_true. unfold MaxSerializedPointSize in HM. rewrite Ee in *. revert m HM. clear. generalize (i_fields i) as fs. 
        induction fs as [|f fs IH]; intros m HM; [cbn; lia|]. cbn [max_fields_size] in HM.
        apply bind_ok in HM. destruct HM as (a & H1 & HM). apply bind_ok in HM. destruct HM as (b & H2 & HM).
        specialize (IH _ H2). unfold sumz, sum_nat in *. cbn [map fold_right enc_max]. unfold fmaxz at 1. rewrite H1.
        enough (Z.of_nat (SizeOf (f_type f)) <= a) by lia. clear - H1. unfold MaxSerializedFieldSize in H1. cbn [is_lossy andb] in H1.
        destruct (f_type f); try discriminate; injection H1 as <-; cbn; lia.
      + apply build_v4_delta; auto. 
    - apply bind_ok in HE. destruct HE as (le & HL & HE). apply bind_ok in HE. destruct HE as (re & HR & HE). injection HE as <-.
      apply build_wf; auto; [unfold coded_enc; now rewrite Ee|]. now rewrite filter_true.
    - apply bind_ok in HE. destruct HE as (le & HL & HE). apply bind_ok in HE. destruct HE as (re & HR & HE). injection HE as <-.
      apply build_wf; auto; [unfold coded_enc; now rewrite Ee|]. now rewrite filter_true. }
  split; [exact HB|]. destruct HB as (_ & _ & H & _). rewrite filter_true in H. unfold MaxSerializedPointSize in HM.
  rewrite (max_fields_sum _ _ _ HM). exact H.
Qed.

(** ** The V5 plan *)
Definition regular (t : ftype) : bool := negb (isV5AdaptiveIntType t).
Definition mk_afield (f : field) : afield := mkA (f_off f) (f_type f).
Definition adaptive_fields (i : info) : list field := filter (fun f => isV5AdaptiveIntType (f_type f)) (i_fields i).
Lemma v5_lossy i : UsesV5Codec i = true -> i_enc i = ENC_LOSSY /\ 5 <= i_version i.
Proof.
  unfold UsesV5Codec. intros H. apply andb_true_iff in H. destruct H as [H _]. apply andb_true_iff in H. destruct H as [H1 H2].
  split; [|lia]. destruct (i_enc i); try discriminate. reflexivity.
Qed.
Lemma adaptive_skip i : filter (fun f => isV5AdaptiveIntType (f_type f)) (skipn (LeadingLossyFloatFieldCount i) (i_fields i)) = adaptive_fields i.
Proof.
  unfold adaptive_fields. destruct (lead_cases i) as [_ Hle]. cbv zeta in Hle. set (n := LeadingLossyFloatFieldCount i) in *.
  rewrite <- (firstn_skipn n (i_fields i)) at 2. rewrite filter_app.
  replace (filter _ (firstn n (i_fields i))) with (@nil field); [reflexivity|].
  pose proof (lead_run_fields (i_fields i) n Hle) as HF. clear - HF. induction HF as [|f l [Ht _] _ IH]; [reflexivity|].
  cbn [filter]. rewrite Ht. cbn. exact IH.
Qed.
Lemma v5_get i : UsesV5Codec i = true -> getV5AdaptiveFields i = map mk_afield (adaptive_fields i).
Proof.
  intros H. destruct (v5_lossy i H) as [He _]. unfold getV5AdaptiveFields. rewrite He. cbn [is_lossy]. now rewrite adaptive_skip.
Qed.
Lemma v5_nonempty i : UsesV5Codec i = true -> adaptive_fields i <> [].
Proof.
  intros H. rewrite <- adaptive_skip. unfold UsesV5Codec in H. apply andb_true_iff in H. destruct H as [_ H].
  apply existsb_exists in H. destruct H as (f & Hin & Hf). intros E.
  assert (X : In f []) by (rewrite <- E; apply filter_In; auto). destruct X.
Qed.
Lemma plan_spec i es afs m : UsesV5Codec i = true -> BuildV5Plan i = Ok (es, afs) -> MaxSerializedPointSize i = Ok m ->
  built i regular es /\ afs = map mk_afield (adaptive_fields i) /\
  Z.of_nat (sum_nat (map enc_max es)) + 10 * zlen afs <= m.
Proof.
  intros HU HB HM. destruct (v5_lossy i HU) as [He _]. unfold BuildV5Plan in HB. rewrite He in HB. cbn [is_lossy andb] in HB.
  apply bind_ok in HB. destruct HB as (le & HL & HB). apply bind_ok in HB. destruct HB as (re & HR & HB).
  apply (f_equal (fun r => match r with Ok x => x | _ => (es, afs) end)) in HB. apply pair_equal_spec in HB. destruct HB as [<- <-].
  assert (HBu : built i regular (le ++ re)) by (apply build_wf; auto; unfold coded_enc; rewrite He; exact I).
  split; [exact HBu|]. rewrite adaptive_skip. change (map (fun f => mkA (f_off f) (f_type f)) ?l) with (map mk_afield l). split; [reflexivity|].
  destruct HBu as (_ & _ & HS & _).
  unfold MaxSerializedPointSize in HM. rewrite (max_fields_sum _ _ _ HM).
  rewrite (sumz_filter _ (fun f => regular (f_type f))).
  enough (sumz (map (fmaxz (i_enc i)) (filter (fun x => negb (regular (f_type x))) (i_fields i))) = 10 * zlen (map mk_afield (adaptive_fields i))) by lia.
  unfold adaptive_fields, regular. clear. unfold zlen, sumz. rewrite map_length. induction (i_fields i) as [|f fs IH]; [reflexivity|]. cbn [filter].
  rewrite negb_involutive. destruct (isV5AdaptiveIntType (f_type f)) eqn:E; [|exact IH].
  assert (F : fmaxz (i_enc i) f = 10) by (unfold fmaxz, MaxSerializedFieldSize; destruct (f_type f); cbn in E; try discriminate; reflexivity).
  cbn [map fold_right length]. rewrite IH, F. lia.
Qed.

(** ** Encoding one chunk *)
Lemma piece_step_layout i sel es step : layout_ok i -> i_step i = Z.of_nat step -> built i sel es ->
  Forall (piece_step step) (all_pieces es).
Proof.
  intros [_ HL] Hst (_ & HP & _). rewrite HP. apply Forall_map, Forall_forall. intros [f k] Hin. apply filter_In in Hin. destruct Hin as [Hin _].
  apply in_combine_l in Hin. rewrite Forall_forall in HL. specialize (HL f Hin). unfold piece_step, piece_of. cbn [fst snd]. lia.
Qed.
Lemma chunk_enc ops i sel es step cloud lo n : built i sel es -> layout_ok i -> i_step i = Z.of_nat step -> bytes cloud ->
  ((lo + n) * step <= length cloud)%nat ->
  exists bs, enc_points_v4 ops es step n (resets es) (skipn (lo * step) cloud) = Ok (skipn ((lo + n) * step) cloud, bs) /\
    bytes bs /\ zlen bs <= Z.of_nat n * Z.of_nat (sum_nat (map enc_max es)).
Proof.
  intros HB HL Hst Hc Hlen. pose proof (piece_step_layout i sel es step HL Hst HB) as HP. destruct HB as ((ds & offs & HW) & _).
  assert (H0 : (0 < step)%nat) by (destruct HL; lia).
  destruct (enc_points_total ops es ds offs step HW H0 HP n (resets es) (skipn (lo * step) cloud)) as (bs & E & Hb & Hl).
  - apply resets_inv.
  - apply bytes_skipn, Hc.
  - unfold has_points. rewrite skipn_length. lia.
  - exists bs. rewrite skipn_skipn in E. replace (n * step + lo * step)%nat with ((lo + n) * step)%nat in E by lia.
    split; [exact E|]. split; [exact Hb|]. unfold zlen. nia.
Qed.

(** ** Decoding one chunk *)
Definition any (t : ftype) : bool := true.
Lemma v4_chunk_dec ops i i' es ds minb ppc cloud c n bs step : known_enc i -> same_codec i i' ->
  BuildV4Encoders i = Ok es -> BuildV4Decoders i' = Ok (ds, minb) ->
  layout_ok i -> i_step i = Z.of_nat step -> 0 <= i_step i' -> bytes cloud -> (0 < ppc)%nat -> (0 < n <= ppc)%nat ->
  ((c * ppc + n) * step <= length cloud)%nat -> deltas_ok ops i ppc cloud ->
  enc_points_v4 ops es step n (resets es) (skipn (c * ppc * step) cloud) = Ok (skipn ((c * ppc + n) * step) cloud, bs) ->
  exists ws, (forall w, In w ws <-> target ops i i' any cloud (c * ppc) n w) /\
    forall mem mem' rest, bytes rest -> Z.of_nat (c * ppc + n) * i_step i' <= zlen mem -> do_writes ws mem = Ok mem' ->
      DecodeV4Stage1Chunk ops ds minb (bs ++ rest) (i_step i') n (Z.of_nat (c * ppc) * i_step i') mem =
      Ok (rest, Z.of_nat (c * ppc + n) * i_step i', mem').
Proof.
  intros HK HS HE HD HL Hst Hst' Hc Hp Hn Hlen HDe HEn.
  destruct (build_v4_pairs i i' es ds minb HK HS HE HD) as [HR Hm].
  pose proof HR as [HP _].
  assert (H0 : (0 < step)%nat) by (destruct HL; lia).
  eexists. split.
  - intros w. apply (in_run_target ops i i' any es ds cloud (c * ppc) n step HS HR Hst).
    destruct HL as [_ HLf]. eapply Forall_impl; [|exact HLf]. cbn. tauto.
  - intros mem mem' rest Hr Hz HW. unfold DecodeV4Stage1Chunk. replace (0 <? n)%nat with true by (symmetry; apply Nat.ltb_lt; lia).
    destruct (chunk_roundtrip ops es ds _ step (i_step i') minb HP ltac:(lia) H0 n (resets ds) None
                (skipn (c * ppc * step) cloud) (skipn ((c * ppc + n) * step) cloud) bs rest (Z.of_nat (c * ppc) * i_step i') mem mem') as (E & _).
    + replace (resets ds) with (resets es); [apply resets_inv|]. apply resets_len. clear - HP. induction HP; cbn; auto.
    + replace (resets ds) with (resets es); [apply resets_prev|]. apply resets_len. clear - HP. induction HP; cbn; auto.
    + apply (deltas_ok_run ops i ppc); auto; [|lia]. now apply build_v4_delta.
    + unfold has_points. rewrite skipn_length. lia.
    + apply bytes_skipn, Hc.
    + exact Hr.
    + replace (resets ds) with (resets es); [exact HEn|]. apply resets_len. clear - HP. induction HP; cbn; auto.
    + lia.
    + exact Hst'.
    + exact HW.
    + rewrite E. do 3 f_equal. lia.
Qed.

(** *** V5 chunks *)
Lemma dec_points_v4_v5 ops ds minb step n : forall sts input base mem inp' b' mem',
  dec_points_v4 ops ds minb step n sts input base mem = Ok (inp', b', mem') ->
  dec_points_v5 ops ds step n sts input base mem = Ok (inp', mem').
Proof.
  induction n as [|n IH]; intros sts input base mem inp' b' mem' H; cbn [dec_points_v4 dec_points_v5] in *.
  - congruence.
  - destruct (length input <? minb)%nat; [discriminate|]. destruct (_ <? step); [discriminate|].
    apply bind_ok in H. destruct H as (((sts1 & i1) & m1) & -> & H). cbn [bind]. eauto.
Qed.
Lemma section_of_type a a' bss m bs : a_type a = a_type a' -> section_of a bss m bs -> section_of a' bss m bs.
Proof.
  intros Ht. destruct m; cbn [section_of]; unfold sec_delta, sec_drle, sec_rle, sec_pal, vals, a_size; rewrite Ht; auto.
Qed.
Lemma sections_decode (col : afield -> list (list Z)) base step' n (Q : afield * option amode -> amode * list Z -> Prop) :
  0 < n <= 65535 ->
  forall afs afs', Forall2 (fun a a' => a_type a = a_type a') afs afs' -> forall m0s ms secs,
  length m0s = length afs -> length ms = length afs -> length secs = length afs ->
  Forall (fun a => is_int_type (a_type a) /\ zlen (col a) = n /\ Forall (field_bytes a) (col a) /\ okdiffs (diffs 0 (vals a (col a)))) afs ->
  Forall2 (fun am0 mb => section_of (fst am0) (col (fst am0)) (fst mb) (snd mb) /\ Q am0 mb) (combine afs m0s) (combine ms secs) ->
  forall rest mem mem', bytes (concat secs) -> bytes rest -> n <= zlen mem ->
  do_writes (flat_map (fun p => sec_writes (snd p) base step' 0 (col (fst p))) (combine afs afs')) mem = Ok mem' ->
  decode_sections afs' base step' n (concat secs ++ rest) mem = Ok (rest, mem').
Proof.
  intros Hn afs afs' HT. induction HT as [|a a' afs afs' Ht HT IH]; intros [|m0 m0s] [|m ms] [|bs secs] L0 L1 L2 HF HS rest mem mem' Hb Hr Hz HW;
    cbn [length] in *; try lia.
  - cbn in *. congruence.
  - cbn [combine flat_map decode_sections concat] in *. inversion HF as [|? ? (Hi & Hl & Hfb & Ho) HF']; subst.
    inversion HS as [|? ? ? ? [HS1 _] HS2]; subst. cbn [fst snd] in *. apply bytes_app in Hb. destruct Hb as [Hb1 Hb2].
    rewrite do_writes_app in HW. apply bind_ok in HW. destruct HW as (m1 & HW1 & HW2).
    assert (Hsz : a_size a' = a_size a) by (unfold a_size; now rewrite Ht).
    rewrite <- app_assoc. rewrite (section_decodes a' base step' (zlen (col a)) (col a) m bs (concat secs ++ rest) mem).
    + rewrite HW1. cbn [bind]. eapply (IH m0s ms secs); eauto; try lia.
      pose proof (do_writes_inv _ _ _ HW1) as [_ E]. unfold zlen in *. rewrite E. exact Hz.
    + now rewrite <- Ht.
    + eapply Forall_impl; [|exact Hfb]. unfold field_bytes. now rewrite Hsz.
    + reflexivity.
    + exact Hn.
    + exact Hz.
    + unfold vals in *. now rewrite <- Ht.
    + now apply (section_of_type a).
    + apply bytes_app; auto.
Qed.

Lemma fks_fst i : map fst (fks i) = i_fields i.
Proof.
  unfold fks. pose proof (kinds_length i) as H. revert H. generalize (kinds i). induction (i_fields i); intros [|] H; cbn in *; try lia; [reflexivity|].
  f_equal. auto.
Qed.
Lemma adaptive_pairs i i' : same_codec i i' ->
  combine (adaptive_fields i') (adaptive_fields i) =
  map (fun p => (fst p, fst (snd p))) (sel_pairs isV5AdaptiveIntType (fpairs i i')).
Proof.
  intros HS. unfold adaptive_fields. rewrite <- (fks_fst i), filter_map.
  rewrite <- (map_id (filter _ (i_fields i'))), combine_map2.
  rewrite (combine_filter (fun f => isV5AdaptiveIntType (f_type f)) (fun fk => isV5AdaptiveIntType (f_type (fst fk)))); [reflexivity|].
  eapply Forall2_mp; [|apply (fks_shape i i' HS)]. cbn. intros f' fk [-> _]. reflexivity.
Qed.
Lemma adaptive_kind i f k : In (f, k) (fks i) -> known_enc i -> isV5AdaptiveIntType (f_type f) = true -> k = KId.
Proof.
  intros Hin HK Ht. rewrite fks_split in Hin by exact HK. apply in_app_or in Hin. destruct Hin as [Hin|Hin]; apply in_map_iff in Hin; destruct Hin as (g & E & Hg); apply pair_equal_spec in E; destruct E as [-> <-].
  - destruct (lead_cases i) as [_ Hle]. pose proof (lead_run_fields (i_fields i) _ Hle) as HF. rewrite Forall_forall in HF.
    destruct (HF f Hg) as [E _]. rewrite E in Ht. discriminate.
  - unfold fkind. destruct (is_lossy (i_enc i)); [|reflexivity]. unfold lossy_kind. destruct (f_type f); try discriminate; reflexivity.
Qed.
Lemma in_sec_writes a base step' : forall bss i w, In w (sec_writes a base step' i bss) <->
  exists j bs, nth_error bss j = Some bs /\ w = (base + (i + Z.of_nat j) * step' + a_off a, bs).
Proof.
  induction bss as [|b bss IH]; intros i w; cbn [sec_writes].
  - split; [intros []|]. intros (j & bs & H & _). destruct j; discriminate.
  - cbn [In]. rewrite IH. split.
    + intros [<-|(j & bs & H & ->)]; [exists O, b|exists (S j), bs]; (split; [assumption || reflexivity|]); f_equal; lia.
    + intros ([|j] & bs & H & ->); cbn in H; [left|right].
      * injection H as <-. f_equal. lia.
      * exists j, bs. split; [exact H|]. f_equal. lia.
Qed.
Definition no_skip_adaptive (i : info) : Prop := Forall (fun f => isV5AdaptiveIntType (f_type f) = true -> f_off f <> kSkip) (i_fields i).

Lemma in_adaptive_target ops i i' cloud lo n step : same_codec i i' -> known_enc i -> i_step i = Z.of_nat step -> no_skip_adaptive i' ->
  Forall (fun f => 0 <= f_off f) (i_fields i) ->
  forall w, In w (flat_map (fun p => sec_writes (snd p) (Z.of_nat lo * i_step i') (i_step i') 0 (column (fst p) step n (skipn (lo * step) cloud)))
                   (combine (map mk_afield (adaptive_fields i)) (map mk_afield (adaptive_fields i')))) <->
  target ops i i' isV5AdaptiveIntType cloud lo n w.
Proof.
  intros HS HK Hst HN Hoff w. rewrite in_flat_map, combine_map2.
  assert (HB : forall f j, 0 <= f_off f -> sub (a_off (mk_afield f)) (a_size (mk_afield f)) (skipn (j * step) (skipn (lo * step) cloud)) = fbytes i f cloud (lo + j)).
  { intros f j H. unfold fbytes, a_size. cbn [mk_afield a_off a_type]. rewrite !sub_skipn by lia. f_equal. rewrite Hst. lia. }
  assert (HC : forall f' f, In (f, f') (combine (adaptive_fields i) (adaptive_fields i')) <->
               exists k, In (f', (f, k)) (fpairs i i') /\ isV5AdaptiveIntType (f_type f) = true).
  { intros f' f. transitivity (In (f', f) (combine (adaptive_fields i') (adaptive_fields i))).
    - clear. generalize (adaptive_fields i) (adaptive_fields i'). induction l as [|x l IH]; intros [|y l']; cbn; try tauto.
      rewrite IH. split; (intros [E|E]; [left; congruence|right; exact E]).
    - rewrite adaptive_pairs by exact HS. rewrite in_map_iff. split.
      + intros ([g' [g k]] & E & Hin). cbn [fst snd] in E. apply pair_equal_spec in E. destruct E as [<- <-]. apply filter_In in Hin. exists k. exact Hin.
      + intros (k & H1 & H2). exists (f', (f, k)). split; [reflexivity|]. apply filter_In. auto. }
  unfold target. split.
  - intros (p & Hp & Hw). apply in_map_iff in Hp. destruct Hp as ([f f'] & <- & Hff). cbn [fst snd] in *. apply HC in Hff.
    destruct Hff as (k & Hin & Ht). apply in_sec_writes in Hw. destruct Hw as (j & bs & Hj & ->).
    assert (Hfk : In (f, k) (fks i)) by (apply in_combine_r in Hin; exact Hin).
    assert (k = KId) by (eapply adaptive_kind; eauto). subst k.
    assert (Hof : 0 <= f_off f) by (rewrite Forall_forall in Hoff; apply Hoff; apply in_combine_l in Hfk; exact Hfk).
    assert (Hjn : (j < n)%nat) by (rewrite <- (column_length (mk_afield f) step n (skipn (lo * step) cloud)); apply nth_error_Some; congruence).
    unfold column in Hj. rewrite nth_error_map in Hj.
    assert (Hs : nth_error (seq 0 n) j = Some j) by (rewrite (nth_error_nth' _ O) by (rewrite seq_length; lia); rewrite seq_nth by lia; reflexivity).
    rewrite Hs in Hj. cbn in Hj. apply (f_equal (fun o => match o with Some x => x | None => bs end)) in Hj. 
    exists (lo + j)%nat, f', f, KId. split; [lia|]. split; [exact Hin|]. split; [exact Ht|]. split.
    + unfold no_skip_adaptive in HN. rewrite Forall_forall in HN. apply HN.
      * apply in_combine_l in Hin. exact Hin.
      * pose proof (fks_shape i i' HS) as HF. unfold fpairs in Hin. clear - HF Hin Ht.
        induction HF as [|x y l l' [E _] _ IH]; cbn in Hin; [destruct Hin|]. destruct Hin as [H|H]; [|auto].
        apply pair_equal_spec in H. destruct H as [-> ->]. cbn in E. now rewrite <- E.
    + cbn [recon]. rewrite <- Hj. rewrite <- HB by exact Hof. cbn [mk_afield a_off]. f_equal. lia.
  - intros (j & f' & f & k & Hj & Hin & Ht & Hk & ->).
    assert (Hfk : In (f, k) (fks i)) by (apply in_combine_r in Hin; exact Hin).
    assert (k = KId) by (eapply adaptive_kind; eauto). subst k.
    assert (Hof : 0 <= f_off f) by (rewrite Forall_forall in Hoff; apply Hoff; apply in_combine_l in Hfk; exact Hfk).
    exists (mk_afield f, mk_afield f'). split.
    + apply in_map_iff. exists (f, f'). split; [reflexivity|]. apply HC. eauto.
    + cbn [fst snd]. apply in_sec_writes. exists (j - lo)%nat, (fbytes i f cloud j). split.
      * unfold column. rewrite nth_error_map. rewrite (nth_error_nth' _ O) by (rewrite seq_length; lia). rewrite seq_nth by lia. cbn [option_map].
        f_equal. cbn [Nat.add]. rewrite HB by exact Hof. f_equal. lia.
      * cbn [recon mk_afield a_off]. f_equal. rewrite Nat2Z.inj_sub by lia. lia.
Qed.

Lemma is_int_adaptive t : isV5AdaptiveIntType t = true <-> is_int_type t.
Proof. destruct t; cbn; split; auto; try discriminate; tauto. Qed.
Lemma okdiffs_intro : forall vs prev,
  (forall j v, nth_error vs j = Some v -> s64 (v - match j with O => prev | S k => match nth_error vs k with Some p => p | None => 0 end end) <> INT64_MIN) ->
  okdiffs (diffs prev vs).
Proof.
  induction vs as [|v vs IH]; intros prev H; cbn [diffs]; [constructor|]. constructor.
  - specialize (H O v eq_refl). cbn in H. pose proof (s64_range (v - prev)). unfold INT64_MIN in *. lia.
  - apply IH. intros j w Hj. specialize (H (S j) w Hj). destruct j; exact H.
Qed.
Lemma nth_column a step n view j : (j < n)%nat -> nth_error (column a step n view) j = Some (sub (a_off a) (a_size a) (skipn (j * step) view)).
Proof.
  intros H. unfold column. rewrite nth_error_map. rewrite (nth_error_nth' _ O) by (rewrite seq_length; lia). rewrite seq_nth by lia. reflexivity.
Qed.
Lemma deltas_ok_column ops i ppc cloud c n step f : known_enc i -> layout_ok i -> i_step i = Z.of_nat step -> bytes cloud ->
  (0 < ppc)%nat -> (n <= ppc)%nat -> ((c * ppc + n) * step <= length cloud)%nat -> deltas_ok ops i ppc cloud ->
  In f (adaptive_fields i) ->
  okdiffs (diffs 0 (vals (mk_afield f) (column (mk_afield f) step n (skipn (c * ppc * step) cloud)))).
Proof.
  intros HK HL Hst Hc Hp Hn Hlen HD Hf. unfold adaptive_fields in Hf. apply filter_In in Hf. destruct Hf as [Hf Ht].
  assert (Hk : exists k, In (f, k) (fks i)).
  { rewrite <- fks_fst in Hf. apply in_map_iff in Hf. destruct Hf as ([g k] & E & H). cbn in E. subst g. eauto. }
  destruct Hk as (k & Hk). assert (k = KId) by (eapply adaptive_kind; eauto). subst k.
  unfold deltas_ok in HD. rewrite Forall_forall in HD. specialize (HD (f, KId) Hk). cbn [fst snd] in HD. unfold deltas_ok_field in HD. cbn [coded_value] in HD.
  apply is_int_adaptive in Ht. destruct HL as [Hs HLf]. rewrite Forall_forall in HLf. specialize (HLf f Hf).
  set (a := mk_afield f) in *.
  assert (HB : forall j, (j < n)%nat -> sub (a_off a) (a_size a) (skipn (j * step) (skipn (c * ppc * step) cloud)) = fbytes i f cloud (c * ppc + j)).
  { intros j Hj. unfold fbytes, a_size. cbn [a mk_afield a_off a_type]. rewrite !sub_skipn by lia. f_equal. rewrite Hst. lia. }
  assert (HI : forall j, (j < n)%nat -> int_value (f_type f) (fbytes i f cloud (c * ppc + j)) = Some (to_int64 (f_type f) (fbytes i f cloud (c * ppc + j)))).
  { intros j Hj. rewrite <- HB by exact Hj. apply int_value_spec; auto.
    - apply sub_bytes, bytes_skipn, bytes_skipn, Hc.
    - apply sub_length; cbn [a mk_afield a_off a_type]; [tauto|]. unfold zlen. rewrite !skipn_length. unfold a_size. cbn. nia. }
  apply okdiffs_intro. intros j v Hj. unfold vals in *. rewrite nth_error_map in Hj.
  assert (Hjn : (j < n)%nat).
  { destruct (Nat.lt_ge_cases j n); [auto|]. rewrite (proj2 (nth_error_None _ _)) in Hj by (rewrite column_length; lia). discriminate. }
  rewrite nth_column in Hj by exact Hjn. cbn in Hj. apply (f_equal (fun o => match o with Some x => x | None => v end)) in Hj. rewrite HB in Hj by exact Hjn.
  specialize (HD (c * ppc + j)%nat v).
  assert (HM : ((c * ppc + j) mod ppc)%nat = j) by (rewrite Nat.add_comm, Nat.mod_add, Nat.mod_small by lia; reflexivity).
  rewrite HM in HD. rewrite HI in HD by exact Hjn. cbn in HD. rewrite Hj in HD.
  specialize (HD ltac:(unfold zlen; nia) eq_refl). destruct j as [|j]; [exact HD|].
  cbn [Nat.eqb] in HD. replace (c * ppc + S j - 1)%nat with (c * ppc + j)%nat in HD by lia. rewrite HI in HD by lia.
  rewrite nth_error_map, nth_column by lia. cbn [option_map]. rewrite HB by lia. exact HD.
Qed.

Lemma v5_same i i' : same_codec i i' -> UsesV5Codec i = UsesV5Codec i'.
Proof.
  intros HS. unfold UsesV5Codec. rewrite (lead_count_shape i i' HS). destruct HS as (HS & -> & ->). f_equal.
  pose proof (Forall2_skipn _ (LeadingLossyFloatFieldCount i') _ _ HS) as HF. clear HS. revert HF.
  generalize (skipn (LeadingLossyFloatFieldCount i') (i_fields i)) (skipn (LeadingLossyFloatFieldCount i') (i_fields i')).
  induction 1 as [|f f' l l' [E _] _ IH]; [reflexivity|]. cbn. now rewrite E, IH.
Qed.
Lemma build_v5_pairs i i' es afs ds : same_codec i i' -> UsesV5Codec i = true ->
  BuildV5Plan i = Ok (es, afs) -> BuildV5Decoders i' = Ok ds -> regular_pairs i i' regular es ds.
Proof.
  intros HS HU HB HD. destruct (v5_lossy i HU) as [He _]. unfold BuildV5Plan in HB. rewrite He in HB. cbn [is_lossy andb] in HB.
  apply bind_ok in HB. destruct HB as (le & HL & HB). apply bind_ok in HB. destruct HB as (re & HR & HB).
  apply (f_equal (fun r => match r with Ok x => x | _ => (es, afs) end)) in HB. apply pair_equal_spec in HB. destruct HB as [<- _].
  unfold BuildV5Decoders in HD. apply bind_ok in HD. destruct HD as (ld & HLD & HD). apply bind_ok in HD. destruct HD as (rd & HRD & HD). injection HD as <-.
  apply build_pairs; auto. unfold coded_enc. rewrite He. exact I.
Qed.

(** The stage-1 bytes of a V5 chunk: per-point part and the sections. *)
Definition v5_chunk_bytes ops (es : list fenc) afs step n view (bs : list Z) : Prop :=
  exists o secs m0s ms (Q : afield * option amode -> amode * list Z -> Prop),
    enc_points_v4 ops es step n (resets es) view = Ok (skipn (n * step) view, o) /\
    bs = o ++ concat secs /\ bytes o /\ bytes (concat secs) /\
    length m0s = length afs /\ length ms = length afs /\ length secs = length afs /\
    Forall2 (fun am0 mb => section_of (fst am0) (column (fst am0) step n view) (fst mb) (snd mb) /\ Q am0 mb) (combine afs m0s) (combine ms secs).

Lemma v5_chunk_dec ops i i' es afs ds ppc cloud c n bs step : same_codec i i' -> UsesV5Codec i = true ->
  BuildV5Plan i = Ok (es, afs) -> afs = map mk_afield (adaptive_fields i) -> BuildV5Decoders i' = Ok ds -> built i regular es ->
  layout_ok i -> i_step i = Z.of_nat step -> 0 < i_step i' -> no_skip_adaptive i' -> bytes cloud -> (0 < ppc)%nat -> (0 < n <= ppc)%nat ->
  Z.of_nat n <= 65535 ->
  ((c * ppc + n) * step <= length cloud)%nat -> deltas_ok ops i ppc cloud ->
  v5_chunk_bytes ops es afs step n (skipn (c * ppc * step) cloud) bs ->
  exists ws, (forall w, In w ws <-> target ops i i' any cloud (c * ppc) n w) /\
    forall mem mem', Z.of_nat (c * ppc + n) * i_step i' <= zlen mem -> do_writes ws mem = Ok mem' ->
      DecodeV5Stage1Chunk ops i' ds bs n (Z.of_nat (c * ppc) * i_step i') mem =
      Ok (Z.of_nat (c * ppc + n) * i_step i', mem').
Proof.
  intros HS HU HB Hafs HD HBu HL Hst Hst' HN Hc Hp Hn Hn2 Hlen HDe (o & secs & m0s & ms & Q & HE & -> & Ho & Hsb & L0 & L1 & L2 & HSe).
  pose proof (build_v5_pairs i i' es afs ds HS HU HB HD) as HR. pose proof HR as [HP _].
  destruct (v5_lossy i HU) as [He _]. assert (HK : known_enc i) by (unfold known_enc; now rewrite He).
  assert (H0 : (0 < step)%nat) by (destruct HL; lia).
  assert (Hoff : Forall (fun f => 0 <= f_off f) (i_fields i)) by (destruct HL as [_ HLf]; eapply Forall_impl; [|exact HLf]; cbn; tauto).
  set (w1 := run_writes ops es (map f_off (filter (fun f => regular (f_type f)) (i_fields i'))) step (i_step i') n
                             (Z.of_nat (c * ppc) * i_step i') (skipn (c * ppc * step) cloud)).
  set (w2 := flat_map (fun p => sec_writes (snd p) (Z.of_nat (c * ppc) * i_step i') (i_step i') 0 (column (fst p) step n (skipn (c * ppc * step) cloud)))
                   (combine afs (map mk_afield (adaptive_fields i')))).
  exists (w1 ++ w2). split.
  - intros w. rewrite in_app_iff. unfold w1, w2. rewrite (in_run_target ops i i' regular es ds cloud (c * ppc) n step HS HR Hst Hoff).
    rewrite Hafs, (in_adaptive_target ops i i' cloud (c * ppc) n step HS HK Hst HN Hoff). unfold target, any, regular. split.
    + intros [(j & f' & f & k & H1 & H2 & H3 & H4 & H5)|(j & f' & f & k & H1 & H2 & H3 & H4 & H5)]; exists j, f', f, k; auto.
    + intros (j & f' & f & k & H1 & H2 & H3 & H4 & H5). destruct (isV5AdaptiveIntType (f_type f)) eqn:E; [right|left]; exists j, f', f, k; rewrite E; auto.
  - intros mem mem' Hz HW. rewrite do_writes_app in HW. apply bind_ok in HW. destruct HW as (m1 & HW1 & HW2).
    unfold DecodeV5Stage1Chunk. replace (n =? 0)%nat with false by (symmetry; apply Nat.eqb_neq; lia).
    replace (zlen mem - Z.of_nat (c * ppc) * i_step i' <? Z.of_nat n * i_step i') with false by (symmetry; apply Z.ltb_ge; lia).
    assert (Hres : resets ds = resets es) by (apply resets_len; clear - HP; induction HP; cbn; auto).
    destruct (chunk_roundtrip ops es ds _ step (i_step i') O HP ltac:(lia) H0 n (resets ds) None
                (skipn (c * ppc * step) cloud) (skipn (n * step) (skipn (c * ppc * step) cloud)) o (concat secs) (Z.of_nat (c * ppc) * i_step i') mem m1) as (E & _).
    + rewrite Hres. apply resets_inv.
    + rewrite Hres. apply resets_prev.
    + apply (deltas_ok_run ops i ppc); auto; [|lia]. apply HBu.
    + unfold has_points. rewrite skipn_length. lia.
    + apply bytes_skipn, Hc.
    + exact Hsb.
    + rewrite Hres. exact HE.
    + lia.
    + lia.
    + exact HW1.
    + rewrite (dec_points_v4_v5 _ _ _ _ _ _ _ _ _ _ _ _ E). cbn [bind].
      rewrite (v5_get i') by (rewrite <- (v5_same i i' HS); exact HU).
      assert (Hm1 : length m1 = length mem) by (apply do_writes_inv in HW1; tauto).
      pose proof (sections_decode (fun a => column a step n (skipn (c * ppc * step) cloud)) (Z.of_nat (c * ppc) * i_step i') (i_step i') (Z.of_nat n) Q) as SD.
      specialize (SD ltac:(lia) afs (map mk_afield (adaptive_fields i'))).
      replace (concat secs) with (concat secs ++ []) by apply app_nil_r.
      rewrite (SD) with (m0s := m0s) (ms := ms) (rest := []) (mem' := mem'); auto; try (constructor; fail).
      * cbn [bind]. do 2 f_equal. lia.
      * rewrite Hafs. unfold adaptive_fields. destruct HS as (HSf & _).
        clear - HSf. induction HSf as [|f f' l l' [E _] _ IH]; cbn [filter map]; [constructor|]. rewrite E. destruct (isV5AdaptiveIntType (f_type f')); [|exact IH].
        cbn [map]. constructor; [exact E|exact IH].
      * rewrite Hafs. apply Forall_map, Forall_forall. intros f Hf. split; [|split; [|split]].
        -- apply is_int_adaptive. unfold adaptive_fields in Hf. apply filter_In in Hf. tauto.
        -- unfold zlen. now rewrite column_length.
        -- apply column_bytes; [apply bytes_skipn, Hc| unfold has_points; rewrite skipn_length; lia|].
           destruct HL as [_ HLf]. rewrite Forall_forall in HLf. unfold adaptive_fields in Hf. apply filter_In in Hf. specialize (HLf f (proj1 Hf)).
           unfold afield_in, a_size. cbn [mk_afield a_off a_type]. lia.
        -- eapply deltas_ok_column; eauto. lia.
      * unfold zlen in *. rewrite Hm1. nia.
Qed.
