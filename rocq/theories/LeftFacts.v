(** The memory left behind by a decode that may have been stopped by an exception, for C94. *)
From Verif Require Import Base BaseFacts VarintFacts Types Floats Fields Codec V5 Api Spec HostileFacts ConfineFacts Left.
From Coq Require Import Lia.
Open Scope Z_scope.

(** *** It agrees with the functions that return normally *)
Lemma left_point_ok ops ds : forall sts input base mem sts' input' mem', dec_point ops ds sts input base mem = Ok (sts', input', mem') -> left_point ops ds sts input base mem = mem'.
Proof.
  induction ds as [|d ds IH]; intros sts input base mem sts' input' mem' H; destruct sts as [|st sts]; cbn [dec_point left_point] in *; try discriminate; [congruence|].
  apply bind_ok in H. destruct H as ([[s1 i1] ss] & H1 & H). apply bind_ok in H. destruct H as (m1 & H2 & H). apply bind_ok in H. destruct H as ([[s2 i2] m2] & H3 & H).
  rewrite H1, H2. rewrite (IH _ _ _ _ _ _ _ H3). congruence.
Qed.
Lemma left_points_v4_ok ops ds minb step n : forall sts input base mem i' b' mem', dec_points_v4 ops ds minb step n sts input base mem = Ok (i', b', mem') -> left_points_v4 ops ds minb step n sts input base mem = mem'.
Proof.
  induction n as [|n IH]; intros sts input base mem i' b' mem' H; cbn [dec_points_v4 left_points_v4] in *; [congruence|].
  destruct (length input <? minb)%nat; [discriminate|]. destruct (zlen mem - base <? step); [discriminate|].
  apply bind_ok in H. destruct H as ([[s1 i1] m1] & H1 & H). rewrite H1. exact (IH _ _ _ _ _ _ _ H).
Qed.
Lemma left_points_v4_all_ok ops ds minb step n : forall sts input base mem i' b' mem', dec_points_v4_all ops ds minb step n sts input base mem = Ok (i', b', mem') -> left_points_v4_all ops ds minb step n sts input base mem = mem'.
Proof.
  induction n as [|n IH]; intros sts input base mem i' b' mem' H; cbn [dec_points_v4_all left_points_v4_all] in *; [discriminate|].
  destruct input as [|x input]; [congruence|].
  destruct (length (x :: input) <? minb)%nat; [discriminate|]. destruct (zlen mem - base <? step); [discriminate|].
  apply bind_ok in H. destruct H as ([[s1 i1] m1] & H1 & H). rewrite H1. exact (IH _ _ _ _ _ _ _ H).
Qed.
Lemma left_points_v5_ok ops ds step n : forall sts input base mem i' mem', dec_points_v5 ops ds step n sts input base mem = Ok (i', mem') -> left_points_v5 ops ds step n sts input base mem = mem'.
Proof.
  induction n as [|n IH]; intros sts input base mem i' mem' H; cbn [dec_points_v5 left_points_v5] in *; [congruence|].
  apply bind_ok in H. destruct H as ([[s1 i1] m1] & H1 & H). rewrite H1. exact (IH _ _ _ _ _ _ H).
Qed.
Section Sec.
  Variables (a : afield) (base step npts : Z).
  Lemma left_delta_ok n : forall i prev input mem i' mem', dec_delta a base step n i prev input mem = Ok (i', mem') -> left_delta a base step n i prev input mem = mem'.
  Proof.
    induction n as [|n IH]; intros i prev input mem i' mem' H; cbn [dec_delta left_delta] in *; [congruence|].
    apply bind_ok in H. destruct H as ([d c] & H1 & H). rewrite H1. cbv zeta in *. apply bind_ok in H. destruct H as (m1 & H2 & H). rewrite H2. exact (IH _ _ _ _ _ _ H).
  Qed.
  Lemma left_indexes_ok n : forall i bits sc held pal ptr mem mem', dec_indexes a base step n i bits sc held pal ptr mem = Ok mem' -> left_indexes a base step n i bits sc held pal ptr mem = mem'.
  Proof.
    induction n as [|n IH]; intros i bits sc held pal ptr mem mem' H; cbn [dec_indexes left_indexes] in *; [congruence|].
    apply bind_ok in H. destruct H as ([[[idx s1] h1] p1] & H1 & H). rewrite H1. destruct (nth_error pal (Z.to_nat idx)) as [v|]; [|discriminate].
    apply bind_ok in H. destruct H as (m1 & H2 & H). rewrite H2. exact (IH _ _ _ _ _ _ _ _ H).
  Qed.
  Lemma left_rle_ok fuel : forall r oi input mem i' mem', dec_rle a base step npts fuel r oi input mem = Ok (i', mem') -> left_rle a base step npts fuel r oi input mem = mem'.
  Proof.
    induction fuel as [|k IH]; intros r oi input mem i' mem' H; cbn [dec_rle left_rle] in *.
    - destruct (r <=? 0); [|discriminate]. destruct (oi =? npts); [congruence|discriminate].
    - destruct (r <=? 0); [destruct (oi =? npts); [congruence|discriminate]|]. destruct (length input <? a_size a)%nat; [discriminate|]. cbv zeta in *.
      apply bind_ok in H. destruct H as ([v rest] & H1 & H). rewrite H1. destruct (npts <? u64 (oi + v)); [discriminate|].
      apply bind_ok in H. destruct H as ([oi' m1] & H2 & H). rewrite H2. exact (IH _ _ _ _ _ _ H).
  Qed.
  Lemma left_drle_ok fuel : forall r oi prev input mem i' mem', dec_delta_rle a base step npts fuel r oi prev input mem = Ok (i', mem') -> left_delta_rle a base step npts fuel r oi prev input mem = mem'.
  Proof.
    induction fuel as [|k IH]; intros r oi prev input mem i' mem' H; cbn [dec_delta_rle left_delta_rle] in *.
    - destruct (r <=? 0); [|discriminate]. destruct (oi =? npts); [congruence|discriminate].
    - destruct (r <=? 0); [destruct (oi =? npts); [congruence|discriminate]|].
      apply bind_ok in H. destruct H as ([d c] & H0 & H). rewrite H0. apply bind_ok in H. destruct H as ([v rest] & H1 & H). rewrite H1. destruct (npts <? u64 (oi + v)); [discriminate|].
      apply bind_ok in H. destruct H as ([[oi' p'] m1] & H2 & H). rewrite H2. exact (IH _ _ _ _ _ _ _ H).
  Qed.
  Lemma left_section_ok input mem i' mem' : decode_section a base step npts input mem = Ok (i', mem') -> left_section a base step npts input mem = mem'.
  Proof.
    intros H. unfold decode_section, left_section in *. destruct input as [|mode input]; [discriminate|].
    destruct mode as [|[[q|q|]|[q|q|]|]|q]; try discriminate.
    - exact (left_delta_ok _ _ _ _ _ _ _ H).
    - apply bind_ok in H. destruct H as ([c i1] & E & H). rewrite E. exact (left_drle_ok _ _ _ _ _ _ _ _ H).
    - apply bind_ok in H. destruct H as ([c i1] & E & H). rewrite E. exact (left_rle_ok _ _ _ _ _ _ _ H).
    - apply bind_ok in H. destruct H as ([c i1] & E & H). rewrite E. destruct (c =? 0); [discriminate|]. apply bind_ok in H. destruct H as ([pal i2] & E2 & H). rewrite E2.
      cbv zeta in *. destruct (length i2 <? _)%nat; [discriminate|]. apply bind_ok in H. destruct H as (m1 & H1 & H). rewrite (left_indexes_ok _ _ _ _ _ _ _ _ _ H1). congruence.
  Qed.
End Sec.
Lemma left_sections_ok afs base step npts : forall input mem i' mem', decode_sections afs base step npts input mem = Ok (i', mem') -> left_sections afs base step npts input mem = mem'.
Proof.
  induction afs as [|a afs IH]; intros input mem i' mem' H; cbn [decode_sections left_sections] in *; [congruence|].
  apply bind_ok in H. destruct H as ([i1 m1] & H1 & H). rewrite H1. exact (IH _ _ _ _ H).
Qed.
Lemma left_chunk_ok ops L i ds minb chunk buf n base mem b' base' mem' : decodeChunk ops L i ds minb chunk buf n base mem = Ok (b', base', mem') ->
  left_chunk ops L i ds minb chunk buf n base mem = mem'.
Proof.
  intros H. unfold decodeChunk, left_chunk in *. cbv zeta in *. apply bind_ok in H. destruct H as ([view b1] & E & H). rewrite E. destruct (UsesV5Codec i).
  - apply bind_ok in H. destruct H as ([b2 m2] & H1 & H). assert (mem' = m2) by congruence. subst m2. unfold DecodeV5Stage1Chunk, left_V5Chunk in *.
    destruct (n =? 0)%nat; [discriminate|]. cbv zeta in *. destruct (zlen mem - base <? _); [discriminate|].
    apply bind_ok in H1. destruct H1 as ([i1 m1] & H2 & H1). rewrite H2. apply bind_ok in H1. destruct H1 as ([i2 m3] & H3 & H1). rewrite (left_sections_ok _ _ _ _ _ _ _ _ H3). destruct i2; [congruence|discriminate].
  - apply bind_ok in H. destruct H as ([[i1 b2] m2] & H1 & H). assert (mem' = m2) by congruence. subst m2. unfold DecodeV4Stage1Chunk, left_V4Chunk in *. destruct (0 <? n)%nat.
    + exact (left_points_v4_ok _ _ _ _ _ _ _ _ _ _ _ _ H1).
    + exact (left_points_v4_all_ok _ _ _ _ _ _ _ _ _ _ _ _ H1).
Qed.
Lemma left_loop_ok ops L ppc i ds minb : forall fuel data buf points base mem b' mem', dec_loop ops L ppc i ds minb fuel data buf points base mem = Ok (b', mem') ->
  left_loop ops L ppc i ds minb fuel data buf points base mem = mem'.
Proof.
  induction fuel as [|k IH]; intros data buf points base mem b' mem' H; destruct data as [|x data]; cbn [dec_loop left_loop] in *; try discriminate.
  - destruct (points =? 0); [congruence|discriminate].
  - destruct (points =? 0); [congruence|discriminate].
  - destruct (points =? 0); [discriminate|]. apply bind_ok in H. destruct H as ([size d1] & E & H). rewrite E. destruct (zlen d1 <? size); [discriminate|]. cbv zeta in *.
    apply bind_ok in H. destruct H as ([[b1 base1] m1] & H1 & H). rewrite H1. exact (IH _ _ _ _ _ _ _ H).
Qed.
Lemma decode_left_ok ops L ppc i data buf mem b' mem' : decode ops L ppc i data buf mem = Ok (b', mem') -> decode_left ops L ppc i data buf mem = mem'.
Proof.
  unfold decode, decode_left. intros H. apply bind_ok in H. destruct H as ([ds minb] & E & H). rewrite E. destruct (has_magic data); [discriminate|].
  destruct (3 <=? i_version i); [exact (left_loop_ok _ _ _ _ _ _ _ _ _ _ _ _ _ _ H)|].
  apply bind_ok in H. destruct H as ([[b1 base1] m1] & H1 & H). rewrite (left_chunk_ok _ _ _ _ _ _ _ _ _ _ _ _ _ H1). congruence.
Qed.

(** *** Where it may differ from the memory before *)
Lemma left_point_conf ops ds : forall sts input base mem, conf (at_places base (all_places ds)) mem (left_point ops ds sts input base mem).
Proof.
  induction ds as [|d ds IH]; intros sts input base mem; destruct sts as [|st sts]; cbn [left_point]; try apply conf_refl.
  destruct (dec_step ops d st input) as [[[s1 i1] ss]| |] eqn:H1; try apply conf_refl. destruct (do_stores base ss mem) as [m1| |] eqn:H2; try apply conf_refl.
  eapply conf_trans.
  - eapply conf_mono; [|eapply do_stores_conf; [eapply dec_step_places; exact H1|exact H2]]. intros x. apply at_places_incl. intros p Hp. unfold all_places. cbn. apply in_or_app. now left.
  - eapply conf_mono; [|apply IH]. intros x. apply at_places_incl. intros p Hp. unfold all_places. cbn. apply in_or_app. now right.
Qed.
Lemma left_points_v5_conf ops ds step n : forall lo sts input mem, conf (pts_places step (all_places ds) lo (Z.of_nat n)) mem (left_points_v5 ops ds step n sts input (lo * step) mem).
Proof.
  induction n as [|n IH]; intros lo sts input mem; cbn [left_points_v5]; [apply conf_refl|].
  assert (HL : conf (pts_places step (all_places ds) lo (Z.of_nat (S n))) mem (left_point ops ds sts input (lo * step) mem)).
  { eapply conf_mono; [|apply left_point_conf]. intros x Hx. exists lo. split; [lia|exact Hx]. }
  destruct (dec_point ops ds sts input (lo * step) mem) as [[[s1 i1] m1]| |] eqn:H1; try exact HL.
  replace (lo * step + step) with ((lo + 1) * step) by lia. eapply conf_trans.
  - eapply conf_mono; [|eapply dec_point_conf; exact H1]. intros x Hx. exists lo. split; [lia|exact Hx].
  - eapply conf_mono; [|apply IH]. intros x. apply pts_sub; lia.
Qed.
Lemma left_points_v4_conf ops ds minb step n : forall lo sts input mem, conf (pts_places step (all_places ds) lo (Z.of_nat n)) mem (left_points_v4 ops ds minb step n sts input (lo * step) mem).
Proof.
  induction n as [|n IH]; intros lo sts input mem; cbn [left_points_v4]; [apply conf_refl|].
  destruct (length input <? minb)%nat; [apply conf_refl|]. destruct (zlen mem - lo * step <? step); [apply conf_refl|].
  assert (HL : conf (pts_places step (all_places ds) lo (Z.of_nat (S n))) mem (left_point ops ds sts input (lo * step) mem)).
  { eapply conf_mono; [|apply left_point_conf]. intros x Hx. exists lo. split; [lia|exact Hx]. }
  destruct (dec_point ops ds sts input (lo * step) mem) as [[[s1 i1] m1]| |] eqn:H1; try exact HL.
  replace (lo * step + step) with ((lo + 1) * step) by lia. eapply conf_trans.
  - eapply conf_mono; [|eapply dec_point_conf; exact H1]. intros x Hx. exists lo. split; [lia|exact Hx].
  - eapply conf_mono; [|apply IH]. intros x. apply pts_sub; lia.
Qed.
Lemma left_points_v4_all_conf ops ds minb step n : forall lo sts input mem, 0 <= lo -> conf (any_places step (all_places ds)) mem (left_points_v4_all ops ds minb step n sts input (lo * step) mem).
Proof.
  induction n as [|n IH]; intros lo sts input mem Hlo; cbn [left_points_v4_all]; [apply conf_refl|].
  destruct input as [|b0 input]; [apply conf_refl|].
  destruct (length (b0 :: input) <? minb)%nat; [apply conf_refl|]. destruct (zlen mem - lo * step <? step); [apply conf_refl|].
  assert (HL : conf (any_places step (all_places ds)) mem (left_point ops ds sts (b0 :: input) (lo * step) mem)).
  { eapply conf_mono; [|apply left_point_conf]. intros x Hx. exists lo. split; [lia|exact Hx]. }
  destruct (dec_point ops ds sts (b0 :: input) (lo * step) mem) as [[[s1 i1] m1]| |] eqn:H1; try exact HL.
  replace (lo * step + step) with ((lo + 1) * step) by lia. eapply conf_trans.
  - eapply conf_mono; [|eapply dec_point_conf; exact H1]. intros x Hx. exists lo. split; [lia|exact Hx].
  - apply IH. lia.
Qed.
Section SecConf.
  Variables (a : afield) (lo step npts : Z).
  Notation SP := (sec_place a lo step npts).
  Lemma left_delta_conf n : forall i prev input mem, 0 <= i -> i + Z.of_nat n <= npts -> conf SP mem (left_delta a (lo * step) step n i prev input mem).
  Proof.
    induction n as [|n IH]; intros i prev input mem Hi Hn; cbn [left_delta]; [apply conf_refl|].
    destruct (decodeVarint input) as [[d c]| |]; try apply conf_refl. cbv zeta. destruct (put_value a (lo * step) step i _ mem) as [m1| |] eqn:H1; try apply conf_refl.
    eapply conf_trans; [eapply put_conf; [|exact H1]; lia|]. apply IH; lia.
  Qed.
  Lemma left_indexes_conf n : forall i bits sc held pal ptr mem, 0 <= i -> i + Z.of_nat n <= npts -> conf SP mem (left_indexes a (lo * step) step n i bits sc held pal ptr mem).
  Proof.
    induction n as [|n IH]; intros i bits sc held pal ptr mem Hi Hn; cbn [left_indexes]; [apply conf_refl|].
    destruct (readBitpackedIndex bits sc held ptr) as [[[[idx s1] h1] p1]| |]; try apply conf_refl. destruct (nth_error pal (Z.to_nat idx)) as [v|]; [|apply conf_refl].
    destruct (put_value a (lo * step) step i v mem) as [m1| |] eqn:H1; try apply conf_refl. eapply conf_trans; [eapply put_conf; [|exact H1]; lia|]. apply IH; lia.
  Qed.
  Variable Hsmall : npts < 4611686018427387904.
  Lemma left_rle_conf fuel : forall r oi input mem, 0 <= oi <= npts -> zlen mem < 4611686018427387904 -> conf SP mem (left_rle a (lo * step) step npts fuel r oi input mem).
  Proof.
    induction fuel as [|k IH]; intros r oi input mem Ho Hm; cbn [left_rle]; destruct (r <=? 0); try apply conf_refl.
    destruct (length input <? a_size a)%nat; [apply conf_refl|]. cbv zeta. destruct (readUVarint _) as [[v rest]| |] eqn:H1; try apply conf_refl.
    destruct (npts <? u64 (oi + v)) eqn:E; [apply conf_refl|]. destruct (fill_run _ _ _ _ _ _ _ _) as [[oi' m1]| |] eqn:H2; try apply conf_refl.
    pose proof (readU_range a _ _ _ H1) as Hv. pose proof (fill_run_len _ _ _ _ _ _ _ _ _ H2) as Hl.
    assert (Hf : oi + Z.max 0 v <= npts) by (eapply run_fits; eauto; lia).
    eapply fill_run_conf in H2; [|lia|exact Hf]. destruct H2 as [-> C]. eapply conf_trans; [exact C|]. apply IH; [lia|]. unfold zlen in *. destruct C as [-> _]. exact Hm.
  Qed.
  Lemma left_drle_conf fuel : forall r oi prev input mem, 0 <= oi <= npts -> zlen mem < 4611686018427387904 -> conf SP mem (left_delta_rle a (lo * step) step npts fuel r oi prev input mem).
  Proof.
    induction fuel as [|k IH]; intros r oi prev input mem Ho Hm; cbn [left_delta_rle]; destruct (r <=? 0); try apply conf_refl.
    destruct (decodeVarint input) as [[d c]| |]; try apply conf_refl. destruct (readUVarint _) as [[v rest]| |] eqn:H1; try apply conf_refl.
    destruct (npts <? u64 (oi + v)) eqn:E; [apply conf_refl|]. destruct (fill_delta_run _ _ _ _ _ _ _ _ _) as [[[oi' p'] m1]| |] eqn:H2; try apply conf_refl.
    pose proof (readU_range a _ _ _ H1) as Hv. pose proof (fill_drun_len _ _ _ _ _ _ _ _ _ _ H2) as Hl.
    assert (Hf : oi + Z.max 0 v <= npts) by (eapply run_fits; eauto; lia).
    eapply fill_drun_conf in H2; [|lia|exact Hf]. destruct H2 as [-> C]. eapply conf_trans; [exact C|]. apply IH; [lia|]. unfold zlen in *. destruct C as [-> _]. exact Hm.
  Qed.
  Lemma left_section_conf input mem : 0 <= npts -> zlen mem < 4611686018427387904 -> conf SP mem (left_section a (lo * step) step npts input mem).
  Proof.
    intros Hn0 Hm. unfold left_section. destruct input as [|mode input]; [apply conf_refl|].
    destruct mode as [|[[q|q|]|[q|q|]|]|q]; try apply conf_refl.
    - apply left_delta_conf; lia.
    - destruct (take_uint 4 input) as [[c i1]| |]; try apply conf_refl. apply left_drle_conf; [lia|exact Hm].
    - destruct (take_uint 4 input) as [[c i1]| |]; try apply conf_refl. apply left_rle_conf; [lia|exact Hm].
    - destruct (take_uint 2 input) as [[c i1]| |]; try apply conf_refl. destruct (c =? 0); [apply conf_refl|]. destruct (dec_palette a (Z.to_nat c) i1) as [[pal i2]| |]; try apply conf_refl.
      cbv zeta. destruct (length i2 <? _)%nat; [apply conf_refl|]. apply left_indexes_conf; lia.
  Qed.
End SecConf.
Lemma left_sections_conf afs pl lo step npts : 0 <= npts < 4611686018427387904 -> Forall (fun a => a_off a <> kSkip /\ In (a_off a, a_size a) pl) afs ->
  forall input mem, zlen mem < 4611686018427387904 -> conf (pts_places step pl lo npts) mem (left_sections afs (lo * step) step npts input mem).
Proof.
  intros Hn HF. induction HF as [|a afs [Ha Hin] HF IH]; intros input mem Hm; cbn [left_sections]; [apply conf_refl|].
  assert (HP : forall x, sec_place a lo step npts x -> pts_places step pl lo npts x).
  { intros x (j & Hj & Hx). exists (lo + j). split; [lia|]. exists (a_off a), (a_size a). repeat split; auto; lia. }
  assert (HL : conf (pts_places step pl lo npts) mem (left_section a (lo * step) step npts input mem)).
  { eapply conf_mono; [exact HP|]. apply left_section_conf; [lia|lia|exact Hm]. }
  destruct (decode_section a (lo * step) step npts input mem) as [[i1 m1]| |] eqn:H1; try exact HL.
  apply decode_section_conf in H1; [|lia|lia|exact Hm]. eapply conf_trans; [eapply conf_mono; [exact HP|exact H1]|]. apply IH. unfold zlen in *. destruct H1 as [-> _]. exact Hm.
Qed.

Section Whole.
  Variables (ops : float_ops) (L : libs) (i : info).
  Variable Hstep : 0 < i_step i.
  Variable HA : adaptive_stored i.
  Lemma left_chunk_conf ds minb chunk buf expected lo mem : updateDecoders i = Ok (ds, minb) -> (0 < expected)%nat -> 0 <= lo -> zlen mem < 4611686018427387904 ->
    conf (pts_places (i_step i) (PL i) lo (Z.of_nat expected)) mem (left_chunk ops L i ds minb chunk buf expected (lo * i_step i) mem).
  Proof.
    intros HD He Hlo Hm. assert (HP : forall x, pts_places (i_step i) (all_places ds) lo (Z.of_nat expected) x -> pts_places (i_step i) (PL i) lo (Z.of_nat expected) x).
    { intros x (j & Hj & Hx). exists j. split; [exact Hj|]. eapply at_places_incl; [|exact Hx]. intros p. now apply (updateDecoders_places i ds minb). }
    unfold left_chunk. cbv zeta. destruct (DecompressChunk L (i_comp i) chunk buf _) as [[view b1]| |]; try apply conf_refl. destruct (UsesV5Codec i) eqn:EU.
    - unfold left_V5Chunk. replace (expected =? 0)%nat with false by lia. destruct (zlen mem - lo * i_step i <? Z.of_nat expected * i_step i) eqn:EC; [apply conf_refl|].
      destruct (dec_points_v5 ops ds (i_step i) expected (resets ds) view (lo * i_step i) mem) as [[i1 m1]| |] eqn:H2.
      2,3: eapply conf_mono; [exact HP|apply left_points_v5_conf].
      apply dec_points_v5_conf in H2. eapply conf_trans; [eapply conf_mono; [exact HP|exact H2]|].
      assert (Hm1 : zlen m1 < 4611686018427387904) by (unfold zlen in *; destruct H2 as [-> _]; exact Hm).
      apply left_sections_conf; [nia|now apply adaptive_places|exact Hm1].
    - unfold left_V4Chunk. replace (0 <? expected)%nat with true by lia. eapply conf_mono; [exact HP|apply left_points_v4_conf].
  Qed.
  Lemma left_loop_conf ppc ds minb (Hppc : (0 < ppc)%nat) : updateDecoders i = Ok (ds, minb) -> forall fuel data buf points lo mem,
    0 <= points -> 0 <= lo -> zlen mem < 4611686018427387904 ->
    conf (pts_places (i_step i) (PL i) lo points) mem (left_loop ops L ppc i ds minb fuel data buf points (lo * i_step i) mem).
  Proof.
    intros HD. induction fuel as [|k IH]; intros data buf points lo mem Hp Hlo Hm; destruct data as [|b data]; cbn [left_loop]; try apply conf_refl.
    destruct (points =? 0) eqn:E0; [apply conf_refl|]. destruct (take_uint 4 (b :: data)) as [[size d1]| |]; try apply conf_refl. destruct (zlen d1 <? size); [apply conf_refl|]. cbv zeta.
    assert (HL : conf (pts_places (i_step i) (PL i) lo points) mem (left_chunk ops L i ds minb (firstn (Z.to_nat size) d1) buf (Z.to_nat (Z.min points (Z.of_nat ppc))) (lo * i_step i) mem)).
    { eapply conf_mono; [|apply left_chunk_conf; [exact HD|lia|exact Hlo|exact Hm]]. rewrite Z2Nat.id by lia. intros x. apply pts_sub; lia. }
    destruct (decodeChunk ops L i ds minb _ _ _ _ _) as [[[b1 base1] m1]| |] eqn:H1; try exact HL. clear HL.
    apply (decodeChunk_conf ops L i Hstep HA) in H1; [|exact HD|lia|exact Hlo|exact Hm]. destruct H1 as [-> C]. rewrite Z2Nat.id in * by lia. eapply conf_trans.
    - eapply conf_mono; [|exact C]. intros x. apply pts_sub; lia.
    - eapply conf_mono; [|apply IH]; [intros x; apply pts_sub; lia|lia|lia|]. unfold zlen in *. destruct C as [-> _]. exact Hm.
  Qed.
  Lemma decode_left_conf ppc data buf mem : (0 < ppc)%nat -> zlen mem < 4611686018427387904 -> 3 <= i_version i ->
    conf (pts_places (i_step i) (PL i) 0 (u64 (i_width i * i_height i))) mem (decode_left ops L ppc i data buf mem).
  Proof.
    intros Hppc Hm Hv. unfold decode_left. destruct (updateDecoders i) as [[ds minb]| |] eqn:HD; try apply conf_refl. destruct (has_magic data); [apply conf_refl|].
    replace (3 <=? i_version i) with true by lia. apply (left_loop_conf ppc ds minb Hppc HD (S (length data)) data buf _ 0 mem); [unfold u64; lia|lia|exact Hm].
  Qed.
End Whole.
Lemma decode_left_conf_old ops L i ppc data buf mem : i_version i < 3 -> conf (any_places (i_step i) (PL i)) mem (decode_left ops L ppc i data buf mem).
Proof.
  intros Hv. unfold decode_left. destruct (updateDecoders i) as [[ds minb]| |] eqn:HD; try apply conf_refl. destruct (has_magic data); [apply conf_refl|].
  replace (3 <=? i_version i) with false by lia. unfold left_chunk. cbv zeta. destruct (DecompressChunk L (i_comp i) data buf _) as [[view b1]| |]; try apply conf_refl.
  assert (EU : UsesV5Codec i = false) by (unfold UsesV5Codec; replace (5 <=? i_version i) with false by lia; reflexivity). rewrite EU. unfold left_V4Chunk. change (0 <? 0)%nat with false. cbv iota.
  eapply conf_mono; [|apply (left_points_v4_all_conf ops ds minb (i_step i) (S (length mem)) 0 (resets ds) view mem); lia].
  intros x (j & Hj & Hx). exists j. split; [exact Hj|]. eapply at_places_incl; [|exact Hx]. intros p. now apply (updateDecoders_places i ds minb).
Qed.
