(** Where the decoder writes: every byte it changes belongs to a declared field of a
    declared point, whatever the data. *)
From Verif Require Import Base Varint BaseFacts VarintFacts Types Floats Fields Codec V5 Api Spec WriteFacts CloudFacts HostileFacts RoundTrip.

(** [mem'] differs from [mem] only at positions in [P]. *)
Definition conf (P : Z -> Prop) (mem mem' : list Z) : Prop :=
  length mem' = length mem /\ (forall x, (x < length mem)%nat -> ~ P (Z.of_nat x) -> nth_error mem' x = nth_error mem x).
Lemma conf_refl P m : conf P m m.
Proof. split; auto. Qed.
Lemma conf_trans P a b c : conf P a b -> conf P b c -> conf P a c.
Proof. intros [H1 H2] [H3 H4]. split; [lia|]. intros x Hx Hn. rewrite H4 by (auto; lia). auto. Qed.
Lemma conf_mono (P Q : Z -> Prop) a b : (forall x, P x -> Q x) -> conf P a b -> conf Q a b.
Proof. intros H [H1 H2]. split; [exact H1|]. intros x Hx Hn. apply H2; auto. Qed.
Lemma wr_conf pos bs mem mem' : wr pos bs mem = Ok mem' -> conf (fun x => pos <= x < pos + zlen bs) mem mem'.
Proof.
  intros H. pose proof (wr_inv _ _ _ _ H) as (H1 & H2 & E & El). split; [exact El|]. intros x Hx Hn. cbn beta in Hn. rewrite (wr_nth _ _ _ _ _ H). unfold zlen in *.
  destruct (_ && _)%nat eqn:EE; [|reflexivity]. lia.
Qed.

(** *** The places a field decoder may write to, relative to the point *)
Definition dec_places (d : fdec) : list (Z * nat) :=
  match d with
  | DCopy off sz | DInt off sz | DXor off sz => [(off, sz)]
  | DLossy32 off _ => [(off, 4%nat)]
  | DLossy64 off _ | DGorilla off => [(off, 8%nat)]
  | DFloatN lanes => map (fun l => (fst l, 4%nat)) lanes
  end.
Definition in_places (pl : list (Z * nat)) (s : Z * list Z) : Prop :=
  exists sz, In (fst s, sz) pl /\ fst s <> kSkip /\ length (snd s) = sz.
Lemma store_places off bs sz pl : length bs = sz -> In (off, sz) pl -> Forall (in_places pl) (store off bs).
Proof.
  intros H Hin. unfold store. destruct (off =? kSkip) eqn:E; [constructor|]. constructor; [|constructor]. exists sz. cbn [fst snd]. repeat split; auto. lia.
Qed.
Lemma in_places_incl pl pl' s : (forall p, In p pl -> In p pl') -> in_places pl s -> in_places pl' s.
Proof. intros H (sz & A & B & C). exists sz. auto. Qed.
Lemma floatn_places ops lanes : forall prev input v rest ss, floatn_decode ops lanes prev input = Ok (v, rest, ss) ->
  Forall (in_places (map (fun l => (fst l, 4%nat)) lanes)) ss.
Proof.
  induction lanes as [|[off r] lanes IH]; intros prev input v rest ss H; cbn [floatn_decode] in H.
  - assert (ss = []) by congruence. subst. constructor.
  - destruct prev as [|p prev]; [discriminate|]. destruct input as [|b0 rest0]; [discriminate|].
    apply bind_ok in H. destruct H as ([[v0 bits] input'] & _ & H). apply bind_ok in H. destruct H as ([[vs i2] st] & H2 & H).
    assert (ss = store off (le_bytes 4 bits) ++ st) by congruence. subst ss. apply Forall_app. split.
    + eapply store_places; [apply le_bytes_length|]. cbn. now left.
    + eapply Forall_impl; [|eapply IH; exact H2]. intros s. apply in_places_incl. intros q Hq. cbn. now right.
Qed.
Lemma dec_step_places ops d st input st' rest ss : dec_step ops d st input = Ok (st', rest, ss) -> Forall (in_places (dec_places d)) ss.
Proof.
  destruct d as [off sz|off sz|off r|off r|off sz|off|lanes]; cbn [dec_step dec_places]; intros H.
  - destruct (length input <? sz)%nat eqn:E; [destruct (off =? kSkip); discriminate|]. assert (ss = store off (firstn sz input)) by congruence. subst.
    eapply store_places; [|left; reflexivity]. rewrite firstn_length. lia.
  - apply bind_ok in H. destruct H as ([diff c] & _ & H). cbv zeta in H. match type of H with Ok (_, _, ?s) = _ => assert (ss = s) by congruence end. subst.
    eapply store_places; [apply le_bytes_length|now left].
  - destruct input as [|b0 r0]; [discriminate|]. destruct (b0 =? 0).
    + match type of H with Ok (_, _, ?s) = _ => assert (ss = s) by congruence end. subst. eapply store_places; [apply le_bytes_length|now left].
    + apply bind_ok in H. destruct H as ([diff c] & _ & H). cbv zeta in H. match type of H with Ok (_, _, ?s) = _ => assert (ss = s) by congruence end. subst.
      eapply store_places; [apply le_bytes_length|now left].
  - destruct input as [|b0 r0]; [discriminate|]. destruct (b0 =? 0).
    + match type of H with Ok (_, _, ?s) = _ => assert (ss = s) by congruence end. subst. eapply store_places; [apply le_bytes_length|now left].
    + apply bind_ok in H. destruct H as ([diff c] & _ & H). cbv zeta in H. match type of H with Ok (_, _, ?s) = _ => assert (ss = s) by congruence end. subst.
      eapply store_places; [apply le_bytes_length|now left].
  - destruct (length input <? sz)%nat eqn:E; [discriminate|]. cbv zeta in H. match type of H with Ok (_, _, ?s) = _ => assert (ss = s) by congruence end. subst.
    eapply store_places; [apply le_bytes_length|now left].
  - apply bind_ok in H. destruct H as ([[s1 v] r1] & _ & H). match type of H with Ok (_, _, ?s) = _ => assert (ss = s) by congruence end. subst.
    eapply store_places; [apply le_bytes_length|now left].
  - destruct input as [|b0 r0]; [discriminate|]. apply bind_ok in H. destruct H as ([[v r1] s1] & H1 & H). assert (ss = s1) by congruence. subst.
    eapply floatn_places; exact H1.
Qed.

(** *** A point *)
Definition at_places (base : Z) (pl : list (Z * nat)) (x : Z) : Prop :=
  exists off sz, In (off, sz) pl /\ off <> kSkip /\ base + off <= x < base + off + Z.of_nat sz.
Lemma do_stores_conf base pl ss : forall mem mem', Forall (in_places pl) ss -> do_stores base ss mem = Ok mem' -> conf (at_places base pl) mem mem'.
Proof.
  induction ss as [|[off bs] ss IH]; intros mem mem' HF H; cbn [do_stores] in H.
  - assert (mem' = mem) by congruence. subst. apply conf_refl.
  - apply bind_ok in H. destruct H as (m1 & H1 & H). inversion HF as [|? ? Hh Ht]; subst. destruct Hh as (sz & A & B & C). cbn [fst snd] in *.
    eapply conf_trans; [|eapply IH; eauto]. eapply conf_mono; [|eapply wr_conf; exact H1]. cbn beta. intros x Hx. exists off, sz. unfold zlen in Hx. repeat split; auto; lia.
Qed.
Definition all_places (ds : list fdec) : list (Z * nat) := flat_map dec_places ds.
Lemma at_places_incl base pl pl' x : (forall p, In p pl -> In p pl') -> at_places base pl x -> at_places base pl' x.
Proof. intros H (o & s & A & B & C). exists o, s. auto. Qed.
Lemma dec_point_conf ops ds : forall sts input base mem sts' input' mem', dec_point ops ds sts input base mem = Ok (sts', input', mem') ->
  conf (at_places base (all_places ds)) mem mem'.
Proof.
  induction ds as [|d ds IH]; intros sts input base mem sts' input' mem' H; destruct sts as [|st sts]; cbn [dec_point] in H; try discriminate.
  - assert (mem' = mem) by congruence. subst. apply conf_refl.
  - apply bind_ok in H. destruct H as ([[s1 i1] ss] & H1 & H). apply bind_ok in H. destruct H as (m1 & H2 & H).
    apply bind_ok in H. destruct H as ([[s2 i2] m2] & H3 & H). assert (mem' = m2) by congruence. subst m2.
    eapply conf_trans.
    + eapply conf_mono; [|eapply do_stores_conf; [eapply dec_step_places; exact H1|exact H2]]. intros x. apply at_places_incl. intros p Hp. unfold all_places. cbn. apply in_or_app. now left.
    + eapply conf_mono; [|eapply IH; exact H3]. intros x. apply at_places_incl. intros p Hp. unfold all_places. cbn. apply in_or_app. now right.
Qed.
(** Points [lo] to [lo + n - 1], [step] bytes apart. *)
Definition pts_places (step : Z) (pl : list (Z * nat)) (lo n : Z) (x : Z) : Prop :=
  exists j, lo <= j < lo + n /\ at_places (j * step) pl x.
Lemma pts_sub step pl lo n lo' n' x : lo' <= lo -> lo + n <= lo' + n' -> pts_places step pl lo n x -> pts_places step pl lo' n' x.
Proof. intros H1 H2 (j & Hj & H). exists j. split; [lia|exact H]. Qed.

Lemma dec_points_v5_conf ops ds step n : forall lo sts input mem input' mem',
  dec_points_v5 ops ds step n sts input (lo * step) mem = Ok (input', mem') -> conf (pts_places step (all_places ds) lo (Z.of_nat n)) mem mem'.
Proof.
  induction n as [|n IH]; intros lo sts input mem input' mem' H; cbn [dec_points_v5] in H.
  - assert (mem' = mem) by congruence. subst. apply conf_refl.
  - apply bind_ok in H. destruct H as ([[s1 i1] m1] & H1 & H). replace (lo * step + step) with ((lo + 1) * step) in H by lia.
    eapply conf_trans.
    + eapply conf_mono; [|eapply dec_point_conf; exact H1]. intros x Hx. exists lo. split; [lia|exact Hx].
    + eapply conf_mono; [|eapply IH; exact H]. intros x. apply pts_sub; lia.
Qed.
Lemma dec_points_v4_conf ops ds minb step n : forall lo sts input mem input' base' mem',
  dec_points_v4 ops ds minb step n sts input (lo * step) mem = Ok (input', base', mem') ->
  base' = (lo + Z.of_nat n) * step /\ conf (pts_places step (all_places ds) lo (Z.of_nat n)) mem mem'.
Proof.
  induction n as [|n IH]; intros lo sts input mem input' base' mem' H; cbn [dec_points_v4] in H.
  - assert (mem' = mem /\ base' = lo * step) as [-> ->] by (split; congruence). split; [lia|apply conf_refl].
  - destruct (length input <? minb)%nat; [discriminate|]. destruct (zlen mem - lo * step <? step); [discriminate|].
    apply bind_ok in H. destruct H as ([[s1 i1] m1] & H1 & H). replace (lo * step + step) with ((lo + 1) * step) in H by lia.
    destruct (IH _ _ _ _ _ _ _ H) as [E C]. split; [lia|].
    eapply conf_trans.
    + eapply conf_mono; [|eapply dec_point_conf; exact H1]. intros x Hx. exists lo. split; [lia|exact Hx].
    + eapply conf_mono; [|exact C]. intros x. apply pts_sub; lia.
Qed.
(** Without a point count: any number of points. *)
Definition any_places (step : Z) (pl : list (Z * nat)) (x : Z) : Prop := exists j, 0 <= j /\ at_places (j * step) pl x.
Lemma dec_points_v4_all_conf ops ds minb step fuel : forall lo sts input mem input' base' mem', 0 <= lo ->
  dec_points_v4_all ops ds minb step fuel sts input (lo * step) mem = Ok (input', base', mem') ->
  conf (any_places step (all_places ds)) mem mem'.
Proof.
  induction fuel as [|n IH]; intros lo sts input mem input' base' mem' Hlo H; cbn [dec_points_v4_all] in H; [discriminate|].
  destruct input as [|b0 input]; [assert (mem' = mem) by congruence; subst; apply conf_refl|].
  destruct (length (b0 :: input) <? minb)%nat; [discriminate|]. destruct (zlen mem - lo * step <? step); [discriminate|].
  apply bind_ok in H. destruct H as ([[s1 i1] m1] & H1 & H). replace (lo * step + step) with ((lo + 1) * step) in H by lia.
  eapply conf_trans.
  - eapply conf_mono; [|eapply dec_point_conf; exact H1]. intros x Hx. exists lo. split; [lia|exact Hx].
  - eapply IH; [|exact H]; lia.
Qed.

(** *** The V5 sections *)
Section SectionConf.
  Variables (a : afield) (lo step npts : Z).
  Definition sec_place (x : Z) : Prop :=
    exists j, 0 <= j < npts /\ lo * step + j * step + a_off a <= x < lo * step + j * step + a_off a + Z.of_nat (a_size a).
  Lemma put_conf i v mem mem' : 0 <= i < npts -> put_value a (lo * step) step i v mem = Ok mem' -> conf sec_place mem mem'.
  Proof.
    intros Hi H. unfold put_value in H. apply wr_conf in H. eapply conf_mono; [|exact H]. cbn beta. unfold zlen. rewrite le_bytes_length. intros x Hx. exists i. lia.
  Qed.
  Lemma dec_delta_conf n : forall i prev input mem input' mem', 0 <= i -> i + Z.of_nat n <= npts ->
    dec_delta a (lo * step) step n i prev input mem = Ok (input', mem') -> conf sec_place mem mem'.
  Proof.
    induction n as [|n IH]; intros i prev input mem input' mem' Hi Hn H; cbn [dec_delta] in H.
    - assert (mem' = mem) by congruence. subst. apply conf_refl.
    - apply bind_ok in H. destruct H as ([d c] & _ & H). cbv zeta in H. apply bind_ok in H. destruct H as (m1 & H1 & H).
      eapply conf_trans; [eapply put_conf; [|exact H1]; lia|]. eapply IH; [| |exact H]; lia.
  Qed.
  Lemma dec_indexes_conf n : forall i bits sc held pal ptr mem mem', 0 <= i -> i + Z.of_nat n <= npts ->
    dec_indexes a (lo * step) step n i bits sc held pal ptr mem = Ok mem' -> conf sec_place mem mem'.
  Proof.
    induction n as [|n IH]; intros i bits sc held pal ptr mem mem' Hi Hn H; cbn [dec_indexes] in H.
    - assert (mem' = mem) by congruence. subst. apply conf_refl.
    - apply bind_ok in H. destruct H as ([[[idx s1] h1] p1] & _ & H). destruct (nth_error pal (Z.to_nat idx)) as [v|]; [|discriminate].
      apply bind_ok in H. destruct H as (m1 & H1 & H). eapply conf_trans; [eapply put_conf; [|exact H1]; lia|]. eapply IH; [| |exact H]; lia.
  Qed.
  Lemma fill_run_conf fuel : forall i len value mem i' mem', 0 <= i -> i + Z.max 0 len <= npts ->
    fill_run a (lo * step) step fuel i len value mem = Ok (i', mem') -> i' = i + Z.max 0 len /\ conf sec_place mem mem'.
  Proof.
    induction fuel as [|k IH]; intros i len value mem i' mem' Hi Hn H; cbn [fill_run] in H.
    - destruct (len <=? 0) eqn:E; [|discriminate]. assert (i' = i /\ mem' = mem) as [-> ->] by (split; congruence). split; [lia|apply conf_refl].
    - destruct (len <=? 0) eqn:E.
      + assert (i' = i /\ mem' = mem) as [-> ->] by (split; congruence). split; [lia|apply conf_refl].
      + apply bind_ok in H. destruct H as (m1 & H1 & H). apply IH in H; [|lia|lia]. destruct H as [E1 C]. split; [lia|].
        eapply conf_trans; [eapply put_conf; [|exact H1]; lia|exact C].
  Qed.
  Lemma fill_run_len fuel : forall i len value mem r, fill_run a (lo * step) step fuel i len value mem = Ok r -> len <= Z.of_nat fuel.
  Proof.
    induction fuel as [|k IH]; intros i len value mem r H; cbn [fill_run] in H; destruct (len <=? 0) eqn:E; try lia; try discriminate.
    apply bind_ok in H. destruct H as (m1 & _ & H). apply IH in H. lia.
  Qed.
  Lemma fill_drun_conf fuel : forall i len prev diff mem i' p' mem', 0 <= i -> i + Z.max 0 len <= npts ->
    fill_delta_run a (lo * step) step fuel i len prev diff mem = Ok (i', p', mem') -> i' = i + Z.max 0 len /\ conf sec_place mem mem'.
  Proof.
    induction fuel as [|k IH]; intros i len prev diff mem i' p' mem' Hi Hn H; cbn [fill_delta_run] in H.
    - destruct (len <=? 0) eqn:E; [|discriminate]. assert (i' = i /\ mem' = mem) as [-> ->] by (split; congruence). split; [lia|apply conf_refl].
    - destruct (len <=? 0) eqn:E.
      + assert (i' = i /\ mem' = mem) as [-> ->] by (split; congruence). split; [lia|apply conf_refl].
      + cbv zeta in H. apply bind_ok in H. destruct H as (m1 & H1 & H). apply IH in H; [|lia|lia]. destruct H as [E1 C]. split; [lia|].
        eapply conf_trans; [eapply put_conf; [|exact H1]; lia|exact C].
  Qed.
  Lemma fill_drun_len fuel : forall i len prev diff mem r, fill_delta_run a (lo * step) step fuel i len prev diff mem = Ok r -> len <= Z.of_nat fuel.
  Proof.
    induction fuel as [|k IH]; intros i len prev diff mem r H; cbn [fill_delta_run] in H; destruct (len <=? 0) eqn:E; try lia; try discriminate.
    cbv zeta in H. apply bind_ok in H. destruct H as (m1 & _ & H). apply IH in H. lia.
  Qed.
  Variable Hsmall : npts < 4611686018427387904.
  (** The 64-bit sum in the length check does not wrap on a run that was written. *)
  Lemma run_fits oi v (mem : list Z) : 0 <= oi <= npts -> 0 <= v -> v <= Z.of_nat (S (length mem)) -> zlen mem < 4611686018427387904 ->
    (npts <? u64 (oi + v)) = false -> oi + Z.max 0 v <= npts.
  Proof. unfold zlen. intros H1 H2 H3 H4 H5. rewrite u64_id in H5 by lia. lia. Qed.
  Lemma dec_rle_conf fuel : forall r oi input mem input' mem', 0 <= oi <= npts -> zlen mem < 4611686018427387904 ->
    dec_rle a (lo * step) step npts fuel r oi input mem = Ok (input', mem') -> conf sec_place mem mem'.
  Proof.
    induction fuel as [|k IH]; intros r oi input mem input' mem' Ho Hm H; cbn [dec_rle] in H.
    - destruct (r <=? 0); [|discriminate]. destruct (oi =? npts); [|discriminate]. assert (mem' = mem) by congruence. subst. apply conf_refl.
    - destruct (r <=? 0).
      { destruct (oi =? npts); [|discriminate]. assert (mem' = mem) by congruence. subst. apply conf_refl. }
      destruct (length input <? a_size a)%nat; [discriminate|]. cbv zeta in H. apply bind_ok in H. destruct H as ([v rest] & H1 & H).
      destruct (npts <? u64 (oi + v)) eqn:E; [discriminate|]. apply bind_ok in H. destruct H as ([oi' m1] & H2 & H).
      pose proof (readU_range a _ _ _ H1) as Hv. pose proof (fill_run_len _ _ _ _ _ _ H2) as Hl.
      assert (Hf : oi + Z.max 0 v <= npts) by (eapply run_fits; eauto; lia).
      apply fill_run_conf in H2; [|lia|exact Hf]. destruct H2 as [-> C]. eapply conf_trans; [exact C|]. eapply IH; [| |exact H]; [lia|]. unfold zlen in *. destruct C as [-> _]. exact Hm.
  Qed.
  Lemma dec_drle_conf fuel : forall r oi prev input mem input' mem', 0 <= oi <= npts -> zlen mem < 4611686018427387904 ->
    dec_delta_rle a (lo * step) step npts fuel r oi prev input mem = Ok (input', mem') -> conf sec_place mem mem'.
  Proof.
    induction fuel as [|k IH]; intros r oi prev input mem input' mem' Ho Hm H; cbn [dec_delta_rle] in H.
    - destruct (r <=? 0); [|discriminate]. destruct (oi =? npts); [|discriminate]. assert (mem' = mem) by congruence. subst. apply conf_refl.
    - destruct (r <=? 0).
      { destruct (oi =? npts); [|discriminate]. assert (mem' = mem) by congruence. subst. apply conf_refl. }
      apply bind_ok in H. destruct H as ([d c] & _ & H). apply bind_ok in H. destruct H as ([v rest] & H1 & H).
      destruct (npts <? u64 (oi + v)) eqn:E; [discriminate|]. apply bind_ok in H. destruct H as ([[oi' p'] m1] & H2 & H).
      pose proof (readU_range a _ _ _ H1) as Hv. pose proof (fill_drun_len _ _ _ _ _ _ _ H2) as Hl.
      assert (Hf : oi + Z.max 0 v <= npts) by (eapply run_fits; eauto; lia).
      apply fill_drun_conf in H2; [|lia|exact Hf]. destruct H2 as [-> C]. eapply conf_trans; [exact C|]. eapply IH; [| |exact H]; [lia|]. unfold zlen in *. destruct C as [-> _]. exact Hm.
  Qed.
  Variable Hn0 : 0 <= npts.
  Lemma decode_section_conf input mem input' mem' : zlen mem < 4611686018427387904 ->
    decode_section a (lo * step) step npts input mem = Ok (input', mem') -> conf sec_place mem mem'.
  Proof.
    intros Hm H. unfold decode_section in H. destruct input as [|mode input]; [discriminate|].
    destruct mode as [|[[q|q|]|[q|q|]|]|q]; try discriminate.
    - eapply dec_delta_conf; [| |exact H]; lia.
    - apply bind_ok in H. destruct H as ([c i1] & _ & H). eapply dec_drle_conf; [| |exact H]; [lia|exact Hm].
    - apply bind_ok in H. destruct H as ([c i1] & _ & H). eapply dec_rle_conf; [| |exact H]; [lia|exact Hm].
    - apply bind_ok in H. destruct H as ([c i1] & _ & H). destruct (c =? 0); [discriminate|]. apply bind_ok in H. destruct H as ([pal i2] & _ & H).
      cbv zeta in H. destruct (length i2 <? _)%nat; [discriminate|]. apply bind_ok in H. destruct H as (m1 & H1 & H).
      assert (mem' = m1) by congruence. subst. eapply dec_indexes_conf; [| |exact H1]; lia.
  Qed.
End SectionConf.
Lemma decode_sections_conf afs pl lo step npts : 0 <= npts < 4611686018427387904 ->
  Forall (fun a => a_off a <> kSkip /\ In (a_off a, a_size a) pl) afs -> forall input mem input' mem', zlen mem < 4611686018427387904 ->
  decode_sections afs (lo * step) step npts input mem = Ok (input', mem') -> conf (pts_places step pl lo npts) mem mem'.
Proof.
  intros Hn HF. induction HF as [|a afs [Ha Hin] HF IH]; intros input mem input' mem' Hm H; cbn [decode_sections] in H.
  - assert (mem' = mem) by congruence. subst. apply conf_refl.
  - apply bind_ok in H. destruct H as ([i1 m1] & H1 & H). apply decode_section_conf in H1; [|lia|lia|exact Hm].
    eapply conf_trans.
    + eapply conf_mono; [|exact H1]. intros x (j & Hj & Hx). exists (lo + j). split; [lia|]. exists (a_off a), (a_size a). repeat split; auto; lia.
    + eapply IH; [|exact H]. unfold zlen in *. destruct H1 as [-> _]. exact Hm.
Qed.

(** *** The decoder objects write where the fields are *)
Definition field_places (fs : list field) : list (Z * nat) := map (fun f => (f_off f, SizeOf (f_type f))) fs.
Lemma create_places i f d : CreateCompatibleDecoder i f = Ok d -> dec_places d = [(f_off f, SizeOf (f_type f))].
Proof.
  unfold CreateCompatibleDecoder. cbv zeta. destruct (f_type f); cbn [SizeOf]; intros H;
  repeat match type of H with context [if ?c then _ else _] => destruct c | context [match i_enc i with _ => _ end] => destruct (i_enc i) end; try discriminate; try (assert (d = ltac:(match type of H with Ok ?v = _ => exact v end)) by congruence; subst; reflexivity).
Qed.
Lemma create_list_places i fs : forall ds, mapM (CreateCompatibleDecoder i) fs = Ok ds -> all_places ds = field_places fs.
Proof.
  induction fs as [|f fs IH]; intros ds H; cbn [mapM] in H; [assert (ds = []) by congruence; subst; reflexivity|].
  apply bind_ok in H. destruct H as (d & H1 & H). apply bind_ok in H. destruct H as (ds' & H2 & H). assert (ds = d :: ds') by congruence. subst.
  unfold all_places, field_places in *. cbn. rewrite (create_places _ _ _ H1), (IH _ H2). reflexivity.
Qed.
Lemma firstn_lossy_float fs : forall n, (n <= leading_lossy fs)%nat -> Forall (fun f => f_type f = FLOAT32) (firstn n fs).
Proof.
  induction fs as [|f fs IH]; intros n Hn; [rewrite firstn_nil; constructor|]. destruct n; [constructor|]. cbn [leading_lossy] in Hn. cbn [firstn].
  destruct (is_float32 (f_type f) && has_res f) eqn:E; [|lia]. apply andb_prop in E. destruct E as [E _]. constructor; [destruct (f_type f); try discriminate; reflexivity|]. apply IH. lia.
Qed.
Lemma lead_le i : (LeadingLossyFloatFieldCount i <= leading_lossy (i_fields i))%nat.
Proof. unfold LeadingLossyFloatFieldCount. destruct (is_lossy (i_enc i)); [|lia]. repeat match goal with |- context [if ?c then _ else _] => destruct c eqn:? end; try lia. Qed.
Lemma leading_places i ds p : leading_decoder i = Ok ds -> In p (all_places ds) -> In p (field_places (i_fields i)).
Proof.
  unfold leading_decoder. cbv zeta. destruct (_ =? 0)%nat; [intros H; assert (ds = []) by congruence; subst; contradiction|]. destruct (existsb _ _); [discriminate|].
  intros H. match type of H with Ok ?v = _ => assert (ds = v) by congruence end. subst. unfold all_places. cbn. rewrite app_nil_r. unfold lanes_of. rewrite map_map. cbn [fst].
  pose proof (firstn_lossy_float (i_fields i) _ (lead_le i)) as HF. rewrite Forall_forall in HF. intros Hin. apply in_map_iff in Hin. destruct Hin as (f & <- & Hf).
  pose proof (HF _ Hf) as Ht. apply in_map_iff. exists f. rewrite Ht. split; [reflexivity|]. rewrite <- (firstn_skipn (LeadingLossyFloatFieldCount i) (i_fields i)). apply in_or_app. now left.
Qed.
Lemma skipn_in {A} n (l : list A) x : In x (skipn n l) -> In x l.
Proof. intros H. rewrite <- (firstn_skipn n l). apply in_or_app. now right. Qed.
Lemma field_places_incl fs fs' p : (forall f, In f fs -> In f fs') -> In p (field_places fs) -> In p (field_places fs').
Proof. intros H Hp. apply in_map_iff in Hp. destruct Hp as (f & E & Hf). apply in_map_iff. exists f. auto. Qed.
Lemma updateDecoders_places i ds minb p : updateDecoders i = Ok (ds, minb) -> In p (all_places ds) -> In p (field_places (i_fields i)).
Proof.
  unfold updateDecoders. destruct (UsesV5Codec i).
  - intros H. apply bind_ok in H. destruct H as (ds' & H & E). assert (ds' = ds) by congruence. subst. unfold BuildV5Decoders in H.
    apply bind_ok in H. destruct H as (l & H1 & H). apply bind_ok in H. destruct H as (r & H2 & H). assert (ds = l ++ r) by congruence. subst.
    unfold all_places. rewrite flat_map_app. intros Hp. apply in_app_or in Hp. destruct Hp as [Hp|Hp]; [eapply leading_places; eauto|].
    apply create_list_places in H2. unfold all_places in H2. rewrite H2 in Hp. eapply field_places_incl; [|exact Hp]. intros f Hf. apply filter_In in Hf. eapply skipn_in, Hf.
  - unfold BuildV4Decoders. intros H. destruct (i_enc i) eqn:EE.
    1: { cbv zeta in H. match type of H with Ok (?v, _) = _ => assert (ds = v) by congruence end. subst. unfold all_places. intros Hp. apply in_flat_map in Hp. destruct Hp as (d & Hd & Hp).
         apply in_map_iff in Hd. destruct Hd as (f & <- & Hf). cbn in Hp. destruct Hp as [<-|[]]. apply in_map_iff. exists f. auto. }
    all: apply bind_ok in H; destruct H as (l & H1 & H); apply bind_ok in H; destruct H as (r & H2 & H); cbv zeta in H; assert (ds = l ++ r) by congruence; subst;
      unfold all_places; rewrite flat_map_app; intros Hp; apply in_app_or in Hp; (destruct Hp as [Hp|Hp]; [eapply leading_places; eauto|]);
      apply create_list_places in H2; unfold all_places in H2; rewrite H2 in Hp; (eapply field_places_incl; [|exact Hp]); intros f Hf; eapply skipn_in, Hf.
Qed.
(** Adaptive integer fields. *)
Definition adaptive_stored (i : info) : Prop :=
  UsesV5Codec i = true -> Forall (fun f => isV5AdaptiveIntType (f_type f) = true -> stored f = true) (i_fields i).
Lemma adaptive_places i : adaptive_stored i -> UsesV5Codec i = true ->
  Forall (fun a => a_off a <> kSkip /\ In (a_off a, a_size a) (field_places (i_fields i))) (getV5AdaptiveFields i).
Proof.
  intros HA HU. specialize (HA HU). unfold getV5AdaptiveFields. destruct (is_lossy (i_enc i)); [|constructor]. apply Forall_forall. intros a Ha.
  apply in_map_iff in Ha. destruct Ha as (f & <- & Hf). apply filter_In in Hf. destruct Hf as [Hf Ht]. apply skipn_in in Hf. rewrite Forall_forall in HA. specialize (HA _ Hf Ht).
  unfold a_size. cbn [a_off a_type]. split; [unfold stored in HA; lia|]. apply in_map_iff. exists f. auto.
Qed.

(** *** Chunks and the whole stream *)
Section Whole.
  Variables (ops : float_ops) (L : libs) (i : info).
  Variable Hstep : 0 < i_step i.
  Variable HA : adaptive_stored i.
  Definition PL := field_places (i_fields i).
  Lemma decodeChunk_conf ds minb chunk buf expected lo mem buf' base' mem' : updateDecoders i = Ok (ds, minb) -> (0 < expected)%nat -> 0 <= lo ->
    zlen mem < 4611686018427387904 ->
    decodeChunk ops L i ds minb chunk buf expected (lo * i_step i) mem = Ok (buf', base', mem') ->
    base' = (lo + Z.of_nat expected) * i_step i /\ conf (pts_places (i_step i) PL lo (Z.of_nat expected)) mem mem'.
  Proof.
    intros HD He Hlo Hm H. assert (HP : forall x, pts_places (i_step i) (all_places ds) lo (Z.of_nat expected) x -> pts_places (i_step i) PL lo (Z.of_nat expected) x).
    { intros x (j & Hj & Hx). exists j. split; [exact Hj|]. eapply at_places_incl; [|exact Hx]. intros p. now apply (updateDecoders_places i ds minb). }
    unfold decodeChunk in H. cbv zeta in H. apply bind_ok in H. destruct H as ([view b1] & _ & H). destruct (UsesV5Codec i) eqn:EU.
    - apply bind_ok in H. destruct H as ([b2 m2] & H1 & H). assert (base' = b2 /\ mem' = m2) as [-> ->] by (split; congruence).
      unfold DecodeV5Stage1Chunk in H1. replace (expected =? 0)%nat with false in H1 by lia. cbv zeta in H1. destruct (zlen mem - lo * i_step i <? Z.of_nat expected * i_step i) eqn:EC; [discriminate|].
      apply bind_ok in H1. destruct H1 as ([i1 m1] & H2 & H1). apply bind_ok in H1. destruct H1 as ([i2 m3] & H3 & H1).
      destruct i2; [|discriminate]. assert (b2 = lo * i_step i + Z.of_nat expected * i_step i /\ m2 = m3) as [-> ->] by (split; congruence). split; [lia|].
      apply dec_points_v5_conf in H2. eapply conf_trans; [eapply conf_mono; [exact HP|exact H2]|].
      assert (Hm1 : zlen m1 < 4611686018427387904) by (unfold zlen in *; destruct H2 as [-> _]; exact Hm).
      eapply decode_sections_conf; [|now apply adaptive_places| |exact H3]; [|exact Hm1]. nia.
    - apply bind_ok in H. destruct H as ([[i1 b2] m2] & H1 & H). assert (base' = b2 /\ mem' = m2) as [-> ->] by (split; congruence).
      unfold DecodeV4Stage1Chunk in H1. replace (0 <? expected)%nat with true in H1 by lia. apply dec_points_v4_conf in H1. destruct H1 as [E C]. split; [exact E|].
      eapply conf_mono; [exact HP|exact C].
  Qed.
  Lemma dec_loop_conf ppc ds minb (Hppc : (0 < ppc)%nat) : updateDecoders i = Ok (ds, minb) -> forall fuel data buf points lo mem buf' mem',
    0 <= points -> 0 <= lo -> zlen mem < 4611686018427387904 ->
    dec_loop ops L ppc i ds minb fuel data buf points (lo * i_step i) mem = Ok (buf', mem') ->
    conf (pts_places (i_step i) PL lo points) mem mem'.
  Proof.
    intros HD. induction fuel as [|k IH]; intros data buf points lo mem buf' mem' Hp Hlo Hm H; cbn [dec_loop] in H.
    - destruct data; [|discriminate]. destruct (points =? 0); [|discriminate]. assert (mem' = mem) by congruence. subst. apply conf_refl.
    - destruct data as [|b data]; [destruct (points =? 0); [|discriminate]; assert (mem' = mem) by congruence; subst; apply conf_refl|].
      destruct (points =? 0) eqn:E0; [discriminate|]. apply bind_ok in H. destruct H as ([size d1] & _ & H). destruct (zlen d1 <? size); [discriminate|]. cbv zeta in H.
      apply bind_ok in H. destruct H as ([[b1 base1] m1] & H1 & H). apply decodeChunk_conf in H1; [|exact HD|lia|exact Hlo|exact Hm]. destruct H1 as [-> C].
      rewrite Z2Nat.id in * by lia. eapply conf_trans.
      + eapply conf_mono; [|exact C]. intros x. apply pts_sub; lia.
      + eapply conf_mono; [|eapply IH; [| | |exact H]]; [intros x; apply pts_sub; lia|lia|lia|]. unfold zlen in *. destruct C as [-> _]. exact Hm.
  Qed.
  Lemma decode_conf ppc data buf mem buf' mem' : (0 < ppc)%nat -> zlen mem < 4611686018427387904 -> 3 <= i_version i ->
    decode ops L ppc i data buf mem = Ok (buf', mem') -> conf (pts_places (i_step i) PL 0 (u64 (i_width i * i_height i))) mem mem'.
  Proof.
    intros Hppc Hm Hv H. unfold decode in H. apply bind_ok in H. destruct H as ([ds minb] & HD & H). destruct (has_magic data); [discriminate|].
    destruct (3 <=? i_version i) eqn:E; [|lia]. change 0 with (0 * i_step i) in H. eapply dec_loop_conf; [exact Hppc|exact HD| | | |exact H]; try exact Hm; try lia. unfold u64. lia.
  Qed.
  Lemma decode_conf_old ppc data buf mem buf' mem' : i_version i < 3 ->
    decode ops L ppc i data buf mem = Ok (buf', mem') -> conf (any_places (i_step i) PL) mem mem'.
  Proof.
    intros Hv H. unfold decode in H. apply bind_ok in H. destruct H as ([ds minb] & HD & H). destruct (has_magic data); [discriminate|].
    destruct (3 <=? i_version i) eqn:E; [lia|]. apply bind_ok in H. destruct H as ([[b1 base1] m1] & H1 & H). assert (mem' = m1) by congruence. subst m1.
    unfold decodeChunk in H1. cbv zeta in H1. apply bind_ok in H1. destruct H1 as ([view b2] & _ & H1).
    assert (EU : UsesV5Codec i = false) by (unfold UsesV5Codec; replace (5 <=? i_version i) with false by lia; reflexivity). rewrite EU in H1.
    apply bind_ok in H1. destruct H1 as ([[i1 b3] m2] & H2 & H1). assert (mem' = m2) by congruence. subst m2. unfold DecodeV4Stage1Chunk in H2. cbn [Nat.ltb Nat.leb] in H2.
    change 0 with (0 * i_step i) in H2. apply dec_points_v4_all_conf in H2; [|lia]. eapply conf_mono; [|exact H2].
    intros x (j & Hj & Hx). exists j. split; [exact Hj|]. eapply at_places_incl; [|exact Hx]. intros p. now apply (updateDecoders_places i ds minb).
  Qed.
  (** Every chunk is checked against the room left *)
  Lemma dec_points_v4_room ds minb : forall n sts input lo mem r, dec_points_v4 ops ds minb (i_step i) n sts input (lo * i_step i) mem = Ok r -> (0 < n)%nat -> (lo + Z.of_nat n) * i_step i <= zlen mem.
  Proof.
    induction n as [|n IH]; intros sts input lo mem r H Hn; [lia|]. cbn [dec_points_v4] in H. destruct (length input <? minb)%nat; [discriminate|]. destruct (zlen mem - lo * i_step i <? i_step i) eqn:EC; [discriminate|].
    apply bind_ok in H. destruct H as ([[s1 i1] m1] & H1 & H). apply dec_point_conf in H1. destruct H1 as [Hl _]. destruct n as [|n]; [lia|].
    replace (lo * i_step i + i_step i) with ((lo + 1) * i_step i) in H by lia. apply IH in H; [|lia]. unfold zlen in *. rewrite Hl in H. lia.
  Qed.
  Lemma decodeChunk_room ds minb chunk buf expected lo mem r : (0 < expected)%nat ->
    decodeChunk ops L i ds minb chunk buf expected (lo * i_step i) mem = Ok r -> (lo + Z.of_nat expected) * i_step i <= zlen mem.
  Proof.
    intros He H. unfold decodeChunk in H. cbv zeta in H. apply bind_ok in H. destruct H as ([view b1] & _ & H). destruct (UsesV5Codec i).
    - apply bind_ok in H. destruct H as ([b2 m2] & H1 & _). unfold DecodeV5Stage1Chunk in H1. replace (expected =? 0)%nat with false in H1 by lia. cbv zeta in H1.
      destruct (zlen mem - lo * i_step i <? Z.of_nat expected * i_step i) eqn:EC; [discriminate|]. lia.
    - apply bind_ok in H. destruct H as ([[i1 b2] m2] & H1 & _). unfold DecodeV4Stage1Chunk in H1. replace (0 <? expected)%nat with true in H1 by lia. now apply dec_points_v4_room in H1.
  Qed.
  Lemma dec_loop_room ppc ds minb (Hppc : (0 < ppc)%nat) : updateDecoders i = Ok (ds, minb) -> forall fuel data buf points lo mem r,
    0 <= points -> 0 <= lo -> zlen mem < 4611686018427387904 ->
    dec_loop ops L ppc i ds minb fuel data buf points (lo * i_step i) mem = Ok r -> 0 < points -> (lo + points) * i_step i <= zlen mem.
  Proof.
    intros HD. induction fuel as [|k IH]; intros data buf points lo mem r Hp Hlo Hm H H0; cbn [dec_loop] in H.
    - destruct data; [|discriminate]. destruct (points =? 0) eqn:E; [lia|discriminate].
    - destruct data as [|b data]; [destruct (points =? 0) eqn:E; [lia|discriminate]|].
      destruct (points =? 0) eqn:E0; [discriminate|]. apply bind_ok in H. destruct H as ([size d1] & _ & H). destruct (zlen d1 <? size); [discriminate|]. cbv zeta in H.
      apply bind_ok in H. destruct H as ([[b1 base1] m1] & H1 & H). pose proof H1 as HR. apply decodeChunk_room in HR; [|lia]. apply decodeChunk_conf in H1; [|exact HD|lia|exact Hlo|exact Hm]. destruct H1 as [-> [Hl _]].
      rewrite Z2Nat.id in * by lia. destruct (Z.eq_dec (points - Z.min points (Z.of_nat ppc)) 0) as [Ez|Ez]; [nia|].
      apply IH in H; [| | | |]; try lia; unfold zlen in *; rewrite Hl in *; [|exact Hm]. replace (lo + points) with (lo + Z.min points (Z.of_nat ppc) + (points - Z.min points (Z.of_nat ppc))) by lia. exact H.
  Qed.
  Lemma decode_room ppc data buf mem r : (0 < ppc)%nat -> zlen mem < 4611686018427387904 -> 3 <= i_version i ->
    decode ops L ppc i data buf mem = Ok r -> u64 (i_width i * i_height i) * i_step i <= zlen mem.
  Proof.
    intros Hppc Hm Hv H. unfold decode in H. apply bind_ok in H. destruct H as ([ds minb] & HD & H). destruct (has_magic data); [discriminate|].
    destruct (3 <=? i_version i) eqn:E; [|lia]. change 0 with (0 * i_step i) in H. pose proof (zlen_nonneg mem). destruct (Z.eq_dec (u64 (i_width i * i_height i)) 0) as [->|Ez]; [lia|].
    assert (0 <= u64 (i_width i * i_height i)) by (unfold u64; lia). apply dec_loop_room in H; try assumption; lia.
  Qed.
End Whole.
