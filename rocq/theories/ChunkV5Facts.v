(** V5 chunks: streaming emission equals batch emission; one chunk encodes to the
    per-point bytes followed by one section per adaptive field, and decodes back. *)
From Verif Require Export V5Facts.

(** ** Streaming = batch *)
Definition stream_bss (a : afield) (m : amode) (x : stream) (bss : list (list Z)) : stream :=
  fold_left (fun x bs => stream_value m (a_size a) x (to_int64 (a_type a) bs) (le_val bs)) bss x.
Lemma stream_bss_app a m x b1 b2 : stream_bss a m x (b1 ++ b2) = stream_bss a m (stream_bss a m x b1) b2.
Proof. unfold stream_bss. apply fold_left_app. Qed.

Lemma stream_delta a bss : forall x,
  x_bytes (stream_bss a DeltaVarint x bss) = x_bytes x ++ flat_map encodeVarint64 (diffs (x_prev x) (vals a bss)).
Proof.
  unfold stream_bss, vals. induction bss as [|bs bss IH]; intros x; cbn [fold_left map diffs flat_map].
  - now rewrite app_nil_r.
  - rewrite IH. unfold stream_value, appendDeltaValue. cbn [x_bytes x_prev]. now rewrite <- app_assoc.
Qed.
Lemma stream_drle a bss : forall x, x_has x = true -> 1 <= x_len x -> x_len x + zlen bss < 18446744073709551616 ->
  0 <= x_count x -> x_count x + zlen bss + 1 < 4294967296 ->
  let rs := run_groups (x_diff x) (x_len x) (diffs (x_prev x) (vals a bss)) in
  let y := flushDeltaRleRun (stream_bss a DeltaRle x bss) in
  x_bytes y = x_bytes x ++ flat_map enc_drle_run rs /\ x_count y = x_count x + zlen rs.
Proof.
  unfold vals. induction bss as [|bs bss IH]; intros x Hh Hl Hl2 Hc Hc2; cbn [map diffs run_groups].
  - cbn zeta. unfold stream_bss, flushDeltaRleRun. cbn [fold_left]. rewrite Hh. cbn [x_bytes x_count flat_map]. rewrite app_nil_r.
    change (zlen (@nil (list Z))) with 0 in *. unfold zlen. cbn [length]. split; [reflexivity|]. unfold u32. lia.
  - rewrite zlen_cons in *. pose proof (zlen_nonneg bss) as Hz0.
    change (stream_bss a DeltaRle x (bs :: bss)) with (stream_bss a DeltaRle (appendDeltaRleValue x (to_int64 (a_type a) bs)) bss).
    assert (EA : appendDeltaRleValue x (to_int64 (a_type a) bs) =
      if s64 (to_int64 (a_type a) bs - x_prev x) =? x_diff x
      then mkS (x_bytes x) (x_count x) (to_int64 (a_type a) bs) (x_diff x) (x_raw x) (u64 (x_len x + 1)) true
      else mkS (x_bytes x ++ enc_drle_run (x_diff x, x_len x)) (u32 (x_count x + 1)) (to_int64 (a_type a) bs)
               (s64 (to_int64 (a_type a) bs - x_prev x)) (x_raw x) 1 true).
    { unfold appendDeltaRleValue, flushDeltaRleRun, enc_drle_run. cbn [x_has x_diff x_bytes x_count x_prev x_raw x_len fst snd]. rewrite Hh. reflexivity. }
    rewrite EA. clear EA. set (v := to_int64 (a_type a) bs).
    destruct (Z.eqb_spec (s64 (v - x_prev x)) (x_diff x)) as [Ed|Ed].
    + cbn zeta. assert (EU : u64 (x_len x + 1) = x_len x + 1) by (apply u64_id; lia).
      match goal with |- context [stream_bss a DeltaRle ?xx bss] => specialize (IH xx) end.
      cbn [x_has x_diff x_bytes x_count x_prev x_raw x_len] in IH. rewrite EU in *. apply IH; auto; lia.
    + cbn zeta. assert (EU : u32 (x_count x + 1) = x_count x + 1) by (apply u32_id; lia).
      match goal with |- context [stream_bss a DeltaRle ?xx bss] => specialize (IH xx) end.
      cbn [x_has x_diff x_bytes x_count x_prev x_raw x_len] in IH. rewrite EU in *.
      destruct IH as [I1 I2]; auto; try lia. rewrite I1, I2, zlen_cons. cbn [flat_map]. rewrite <- app_assoc. split; [reflexivity|lia].
Qed.
Lemma stream_rle a bss : forall x, x_has x = true -> 1 <= x_len x -> x_len x + zlen bss < 18446744073709551616 ->
  0 <= x_count x -> x_count x + zlen bss + 1 < 4294967296 ->
  let rs := run_groups (x_raw x) (x_len x) (rawsof bss) in
  let y := flushRleRun (a_size a) (stream_bss a Rle x bss) in
  x_bytes y = x_bytes x ++ flat_map (enc_rle_run (a_size a)) rs /\ x_count y = x_count x + zlen rs.
Proof.
  unfold rawsof. induction bss as [|bs bss IH]; intros x Hh Hl Hl2 Hc Hc2; cbn [map run_groups].
  - cbn zeta. unfold stream_bss, flushRleRun. cbn [fold_left]. rewrite Hh. cbn [x_bytes x_count flat_map]. rewrite app_nil_r.
    change (zlen (@nil (list Z))) with 0 in *. unfold zlen. cbn [length]. split; [reflexivity|]. unfold u32. lia.
  - rewrite zlen_cons in *. pose proof (zlen_nonneg bss) as Hz0.
    change (stream_bss a Rle x (bs :: bss)) with (stream_bss a Rle (appendRleValue (a_size a) x (le_val bs)) bss).
    assert (EA : appendRleValue (a_size a) x (le_val bs) =
      if le_val bs =? x_raw x
      then mkS (x_bytes x) (x_count x) (x_prev x) (x_diff x) (x_raw x) (u64 (x_len x + 1)) true
      else mkS (x_bytes x ++ enc_rle_run (a_size a) (x_raw x, x_len x)) (u32 (x_count x + 1)) (x_prev x) (x_diff x) (le_val bs) 1 true).
    { unfold appendRleValue, flushRleRun, enc_rle_run. cbn [x_has x_diff x_bytes x_count x_prev x_raw x_len fst snd]. rewrite Hh. reflexivity. }
    rewrite EA. clear EA.
    destruct (Z.eqb_spec (le_val bs) (x_raw x)) as [Ed|Ed].
    + cbn zeta. assert (EU : u64 (x_len x + 1) = x_len x + 1) by (apply u64_id; lia).
      match goal with |- context [stream_bss a Rle ?xx bss] => specialize (IH xx) end.
      cbn [x_has x_diff x_bytes x_count x_prev x_raw x_len] in IH. rewrite EU in *. apply IH; auto; lia.
    + cbn zeta. assert (EU : u32 (x_count x + 1) = x_count x + 1) by (apply u32_id; lia).
      match goal with |- context [stream_bss a Rle ?xx bss] => specialize (IH xx) end.
      cbn [x_has x_diff x_bytes x_count x_prev x_raw x_len] in IH. rewrite EU in *.
      destruct IH as [I1 I2]; auto; try lia. rewrite I1, I2, zlen_cons. cbn [flat_map]. rewrite <- app_assoc. split; [reflexivity|lia].
Qed.
Lemma patch_spec b c rest n p d r l h : patch_count (mkS (b :: le_bytes 4 c ++ rest) n p d r l h) = b :: le_bytes 4 n ++ rest.
Proof.
  unfold patch_count. cbn [x_bytes x_count].
  change (skipn 5 (b :: ?l)) with (skipn 4 l). rewrite (skipn_app_len 4) by apply le_bytes_length. reflexivity.
Qed.
Lemma patch_count_eq x b c rest n : x_bytes x = b :: le_bytes 4 c ++ rest -> x_count x = n -> patch_count x = b :: le_bytes 4 n ++ rest.
Proof. destruct x as [b0 c0 p0 d0 r0 l0 h0]. cbn [x_bytes x_count]. intros -> ->. apply patch_spec. Qed.

(** The streamed section is the section of the mode over all the values. *)
Lemma finish_section_spec a m bss : m <> Palette -> zlen bss < 2147483648 ->
  section_of a bss m (finish_section m (a_size a) (stream_bss a m (snd (begin_section m)) bss)).
Proof.
  intros Hm Hn. destruct m; [|congruence| |]; cbn [section_of finish_section begin_section snd].
  - rewrite stream_delta. reflexivity.
  - unfold sec_rle. destruct bss as [|bs bss]; [reflexivity|]. rewrite zlen_cons in Hn. pose proof (zlen_nonneg bss).
    unfold rawsof. cbn [map runs].
    destruct (stream_rle a bss (mkS ([2] ++ le_bytes 4 0) 0 0 0 (le_val bs) 1 true)) as [I1 I2]; cbn [x_has x_len x_count]; try reflexivity; try lia.
    change (stream_bss a Rle (mkS ([2] ++ le_bytes 4 0) 0 0 0 0 0 false) (bs :: bss)) with (stream_bss a Rle (mkS ([2] ++ le_bytes 4 0) 0 0 0 (le_val bs) 1 true) bss).
    cbn [x_bytes x_raw x_len x_count app] in I1, I2. eapply patch_count_eq; [exact I1|exact I2].
  - unfold sec_drle. destruct bss as [|bs bss]; [reflexivity|]. rewrite zlen_cons in Hn. pose proof (zlen_nonneg bss).
    unfold vals. cbn [map diffs runs].
    destruct (stream_drle a bss (mkS ([3] ++ le_bytes 4 0) 0 (to_int64 (a_type a) bs) (s64 (to_int64 (a_type a) bs - 0)) 0 1 true)) as [I1 I2]; cbn [x_has x_len x_count]; try reflexivity; try lia.
    change (stream_bss a DeltaRle (mkS ([3] ++ le_bytes 4 0) 0 0 0 0 0 false) (bs :: bss)) with (stream_bss a DeltaRle (mkS ([3] ++ le_bytes 4 0) 0 (to_int64 (a_type a) bs) (s64 (to_int64 (a_type a) bs - 0)) 0 1 true) bss).
    cbn [x_bytes x_diff x_prev x_len x_count app] in I1, I2. eapply patch_count_eq; [exact I1|exact I2].
Qed.

(** ** Encoder state of one field: [bss] has been collected in this chunk *)
Definition coll (a : afield) (bss : list (list Z)) (s : astate) : Prop :=
  tab_wf (as_tab s) /\
  match as_mode s with
  | None => as_values s = vals a bss /\ as_raws s = rawsof bss
  | Some Palette => as_raws s = rawsof bss /\ as_streaming s = false
  | Some m => as_streaming s = true /\ as_stream s = stream_bss a m (snd (begin_section m)) bss
  end.
Lemma prepare_coll a s : tab_wf (as_tab s) -> coll a [] (prepare_chunk s) /\ as_mode (prepare_chunk s) = as_mode s.
Proof. intros H. unfold prepare_chunk, coll. destruct (as_mode s) as [[]|]; cbn; auto. Qed.
Lemma collect_coll a bss s view : coll a bss s -> 0 <= a_off a -> a_off a + Z.of_nat (a_size a) <= zlen view ->
  exists s', collect a s view = Ok s' /\ coll a (bss ++ [sub (a_off a) (a_size a) view]) s' /\ as_mode s' = as_mode s.
Proof.
  intros [HT H] H1 H2. unfold collect. rewrite rd_sub_ok by assumption. cbn [bind].
  unfold coll, vals, rawsof in *. destruct (as_mode s) as [[]|] eqn:Em; eexists; (split; [reflexivity|]); cbn [as_mode as_tab as_values as_raws as_streaming as_stream]; rewrite ?map_app;
    destruct H as [A B]; (split; [split; [exact HT|]|reflexivity]); rewrite ?A, ?B, ?stream_bss_app; auto.
Qed.
Lemma stream_values_bss a m bss x : m <> Palette ->
  stream_values m (a_size a) x (vals a bss) (rawsof bss) = stream_bss a m x bss.
Proof.
  intros Hm. unfold stream_bss, vals, rawsof. revert x.
  destruct m; [|congruence| |]; cbn [stream_values]; induction bss as [|bs bss IH]; intros x; cbn [map fold_left]; auto.
Qed.
(** Which mode is committed: a mode of minimal section size for the values seen. *)
Definition best_mode (a : afield) (bss : list (list Z)) (m : amode) : Prop :=
  m = selectBestAdaptiveIntMode (encodedDeltaVarintSectionSize (vals a bss))
        (encodedPaletteSectionSize (firsts [] (rawsof bss)) (a_size a) (zlen (rawsof bss)))
        (encodedRleSectionSize (rawsof bss) (a_size a)) (encodedDeltaRleSectionSize (vals a bss)).
Lemma commit_coll a bss s : coll a bss s -> as_mode s = None -> zlen bss < 2147483648 ->
  exists m t, commit a s = Ok (m, mkAS (as_values s) (as_raws s) t (Some m) (as_streaming s) (as_stream s)) /\ tab_wf t /\ best_mode a bss m.
Proof.
  intros [HT H] Hm Hn. unfold commit. rewrite Hm in *. destruct H as [H1 H2].
  assert (zlen (rawsof bss) = zlen bss) by (unfold zlen, rawsof; now rewrite map_length).
  destruct (buildPalette_spec (as_tab s) (rawsof bss) HT ltac:(lia)) as (t & idx & E & HW & _).
  rewrite H2, E. cbn [bind]. eexists _, t. split; [reflexivity|]. split; [exact HW|]. unfold best_mode. now rewrite H1.
Qed.
Lemma commit_probe_coll a bss s : coll a bss s -> as_mode s = None -> zlen bss < 2147483648 ->
  exists s' m, commit_probe a s = Ok s' /\ coll a bss s' /\ as_mode s' = Some m /\ best_mode a bss m.
Proof.
  intros HC Hm Hn. destruct (commit_coll a bss s HC Hm Hn) as (m & t & E & HW & HB).
  unfold commit_probe. rewrite E. cbn [bind]. destruct HC as [HT H]. rewrite Hm in H. destruct H as [H1 H2].
  cbn [as_values as_raws as_tab]. rewrite H1, H2.
  destruct m; cbn [begin_section]; eexists _, _; (split; [reflexivity|]); cbn [as_mode as_tab as_raws as_streaming as_stream coll];
    unfold coll; cbn [as_mode as_tab as_raws as_streaming as_stream]; (split; [split; [exact HW|]|split; [reflexivity|exact HB]]); auto;
    (split; [reflexivity|]); rewrite stream_values_bss by discriminate; reflexivity.
Qed.

Lemma append_section_coll a bss s : coll a bss s -> zlen bss < 2147483648 ->
  exists m bs, section_of a bss m bs /\
    (as_mode s = None -> best_mode a bss m) /\ (forall m0, as_mode s = Some m0 -> m = m0) /\
    forall cap, zlen bs <= cap -> exists s', append_section a s cap = Ok (s', bs, cap - zlen bs) /\ tab_wf (as_tab s') /\ as_mode s' = Some m.
Proof.
  intros HC Hn. unfold append_section. pose proof HC as HC0. destruct HC as [HT H].
  assert (Hz : zlen (rawsof bss) = zlen bss) by (unfold zlen, rawsof; now rewrite map_length).
  destruct (as_mode s) as [m|] eqn:Em.
  - destruct m.
    + exists DeltaVarint. eexists. split; [apply (finish_section_spec a DeltaVarint bss); [discriminate|lia]|]. split; [discriminate|]. split; [congruence|].
      intros cap Hcap. destruct H as [-> ->]. eexists. rewrite emit_spec; unfold items_bytes, chk; cbn [flat_map snd]; rewrite app_nil_r; [|exact Hcap].
      cbn [bind]. split; [reflexivity|]. auto.
    + destruct H as [H1 H2]. destruct (buildPalette_spec (as_tab s) (rawsof bss) HT ltac:(lia)) as (t & idx & E & HW & _ & HI).
      exists Palette, (sec_pal a (firsts [] (rawsof bss)) idx). split; [exists idx; auto|]. split; [discriminate|]. split; [congruence|].
      intros cap Hcap. rewrite H1, H2, E. cbn [bind]. rewrite emit_spec, batch_pal by (rewrite batch_pal; exact Hcap). cbn [bind].
      eexists. split; [reflexivity|]. cbn. auto.
    + exists Rle. eexists. split; [apply (finish_section_spec a Rle bss); [discriminate|lia]|]. split; [discriminate|]. split; [congruence|].
      intros cap Hcap. destruct H as [-> ->]. eexists. rewrite emit_spec; unfold items_bytes, chk; cbn [flat_map snd]; rewrite app_nil_r; [|exact Hcap].
      cbn [bind]. split; [reflexivity|]. auto.
    + exists DeltaRle. eexists. split; [apply (finish_section_spec a DeltaRle bss); [discriminate|lia]|]. split; [discriminate|]. split; [congruence|].
      intros cap Hcap. destruct H as [-> ->]. eexists. rewrite emit_spec; unfold items_bytes, chk; cbn [flat_map snd]; rewrite app_nil_r; [|exact Hcap].
      cbn [bind]. split; [reflexivity|]. auto.
  - destruct (commit_coll a bss s HC0 Em Hn) as (m & t & E & HW & HB). destruct H as [H1 H2].
    rewrite E. cbn [bind as_values as_raws as_tab as_streaming as_stream]. rewrite H1, H2.
    destruct (buildPalette_spec t (rawsof bss) HW ltac:(lia)) as (t' & idx & E' & HW' & _ & HI).
    exists m. destruct m.
    + exists (sec_delta a bss). split; [reflexivity|]. split; [auto|]. split; [discriminate|]. intros cap Hcap.
      rewrite emit_spec, batch_delta by (rewrite batch_delta; exact Hcap). cbn [bind]. eexists. split; [reflexivity|]. cbn. auto.
    + exists (sec_pal a (firsts [] (rawsof bss)) idx). split; [exists idx; auto|]. split; [auto|]. split; [discriminate|]. intros cap Hcap.
      rewrite E'. cbn [bind]. rewrite emit_spec, batch_pal by (rewrite batch_pal; exact Hcap). cbn [bind]. eexists. split; [reflexivity|]. cbn. auto.
    + exists (sec_rle a bss). split; [reflexivity|]. split; [auto|]. split; [discriminate|]. intros cap Hcap.
      rewrite emit_spec, batch_rle by (rewrite batch_rle; exact Hcap). cbn [bind]. eexists. split; [reflexivity|]. cbn. auto.
    + exists (sec_drle a bss). split; [reflexivity|]. split; [auto|]. split; [discriminate|]. intros cap Hcap.
      rewrite emit_spec, batch_drle by (rewrite batch_drle; exact Hcap). cbn [bind]. eexists. split; [reflexivity|]. cbn. auto.
Qed.

(** ** The per-point part *)
Fixpoint reg_run (ops : float_ops) (es : list fenc) (step n : nat) (sts : list fstate) (view : list Z) : res (list fstate * list Z) :=
  match n with
  | O => Ok (sts, [])
  | S k =>
      do '(sts1, o1) <- enc_point ops es sts view ;
      do '(sts2, o2) <- reg_run ops es step k sts1 (skipn step view) ;
      Ok (sts2, o1 ++ o2)
  end.
Lemma enc_points_reg ops es step n : (0 < step)%nat -> forall sts cloud rest o, has_points n step cloud ->
  enc_points_v4 ops es step n sts cloud = Ok (rest, o) -> exists sts', reg_run ops es step n sts cloud = Ok (sts', o).
Proof.
  intros Hst. induction n as [|n IH]; intros sts cloud rest o Hn H; cbn [enc_points_v4 reg_run] in *.
  - injection H as <- <-. eauto.
  - unfold has_points in Hn. destruct cloud as [|c0 cl] eqn:Ec; [cbn in Hn; lia|]. rewrite <- Ec in *.
    apply bind_ok in H. destruct H as ((sts1 & o1) & -> & H). apply bind_ok in H. destruct H as (c1 & HT & H).
    apply bind_ok in H. destruct H as ((r1 & o2) & H2 & H). injection H as <- <-.
    unfold trim_front in HT. destruct (length cloud <? step)%nat; [discriminate|]. injection HT as <-.
    apply IH in H2. 2:{ unfold has_points. rewrite skipn_length. lia. }
    destruct H2 as (s2 & E). cbn [bind]. rewrite E. cbn [bind]. eauto.
Qed.
Lemma reg_run_app ops es step n1 : forall n2 sts view sts' o, reg_run ops es step (n1 + n2) sts view = Ok (sts', o) ->
  exists sts1 o1 o2, reg_run ops es step n1 sts view = Ok (sts1, o1) /\
    reg_run ops es step n2 sts1 (skipn (n1 * step) view) = Ok (sts', o2) /\ o = o1 ++ o2.
Proof.
  induction n1 as [|n1 IH]; intros n2 sts view sts' o H; cbn [Nat.add reg_run] in *.
  - exists sts, [], o. auto.
  - apply bind_ok in H. destruct H as ((sts1 & o1) & -> & H). apply bind_ok in H. destruct H as ((sts2 & o2) & H2 & H).
    injection H as <- <-. destruct (IH _ _ _ _ _ H2) as (s1 & p1 & p2 & E1 & E2 & ->).
    exists s1, (o1 ++ p1), p2. split; [cbn [bind]; rewrite E1; reflexivity|]. split; [|now rewrite app_assoc].
    rewrite skipn_skipn in E2. replace (S n1 * step)%nat with (n1 * step + step)%nat by lia. exact E2.
Qed.

(** Column of field [a] over [n] points. *)
Definition column (a : afield) (step n : nat) (view : list Z) : list (list Z) :=
  map (fun j => sub (a_off a) (a_size a) (skipn (j * step) view)) (seq 0 n).
Lemma column_S a step n view : column a step (S n) view = sub (a_off a) (a_size a) view :: column a step n (skipn step view).
Proof.
  unfold column. cbn [seq map skipn Nat.mul]. f_equal. rewrite <- seq_shift, map_map. apply map_ext. intros j.
  rewrite skipn_skipn. do 2 f_equal. lia.
Qed.
Lemma column_app a step n1 n2 view : column a step (n1 + n2) view = column a step n1 view ++ column a step n2 (skipn (n1 * step) view).
Proof.
  revert view; induction n1 as [|n1 IH]; intros view; [reflexivity|]. cbn [Nat.add]. rewrite !column_S, IH. cbn [app].
  rewrite skipn_skipn. do 4 f_equal. lia.
Qed.
Lemma column_length a step n view : length (column a step n view) = n.
Proof. unfold column. now rewrite map_length, seq_length. Qed.
Definition afield_in (step : nat) (a : afield) : Prop := 0 <= a_off a /\ a_off a + Z.of_nat (a_size a) <= Z.of_nat step.
Lemma column_bytes a step n view : bytes view -> has_points n step view -> afield_in step a -> Forall (field_bytes a) (column a step n view).
Proof.
  intros Hv Hn [H1 H2]. unfold column. apply Forall_map, Forall_forall. intros j Hj. apply in_seq in Hj. split.
  - apply sub_bytes, bytes_skipn, Hv.
  - apply sub_length; auto. unfold has_points, zlen in *. rewrite skipn_length. nia.
Qed.

Lemma map2M_spec {A B C} (g : A -> B -> res C) (P : A -> B -> Prop) (Q : A -> B -> C -> Prop) l l' :
  (forall a b, P a b -> exists c, g a b = Ok c /\ Q a b c) -> Forall2 P l l' ->
  exists l'', map2M g l l' = Ok l'' /\ Forall2 (fun a c => exists b, In b l' /\ Q a b c) l l''.
Proof.
  intros H. induction 1 as [|a b l l' Hab HF IH]; [exists []; split; [reflexivity|constructor]|].
  destruct (H a b Hab) as (c & E & HQ). destruct IH as (l'' & E2 & HF2). cbn [map2M]. rewrite E. cbn [bind]. rewrite E2. cbn [bind].
  exists (c :: l''). split; [reflexivity|]. constructor; [exists b; split; [left|]; auto|].
  eapply Forall2_mp; [|exact HF2]. cbn. intros x y (z & Hz & Hq). exists z. split; [right|]; auto.
Qed.

(** All fields agree on being committed, with [committed] giving the common status. *)
Definition status (b : bool) (s : astate) : Prop := uncommitted s = b.
Definition colls (col : afield -> list (list Z)) (b : bool) (a : afield) (s : astate) : Prop := coll a (col a) s /\ status b s.

Lemma enc_range_spec ops es afs step : (0 < step)%nat -> Forall (afield_in step) afs -> forall n sts view sts' o ass col b,
  reg_run ops es step n sts view = Ok (sts', o) -> has_points n step view ->
  Forall2 (colls col b) afs ass ->
  exists ass', enc_range ops es afs step n sts ass view = Ok (sts', ass', o, skipn (n * step) view) /\
    Forall2 (colls (fun a => col a ++ column a step n view) b) afs ass' /\
    map as_mode ass' = map as_mode ass.
Proof.
  intros Hst HA. induction n as [|n IH]; intros sts view sts' o ass col b HR Hn HC; cbn [reg_run enc_range] in *.
  - injection HR as <- <-. exists ass. split; [reflexivity|]. split; [|reflexivity]. eapply Forall2_mp; [|exact HC]. intros a s H. unfold colls in *.
    unfold column. cbn [seq map]. now rewrite app_nil_r.
  - apply bind_ok in HR. destruct HR as ((sts1 & o1) & HE & HR). apply bind_ok in HR. destruct HR as ((sts2 & o2) & HE2 & HR). injection HR as <- <-.
    rewrite HE. cbn [bind].
    assert (HM : exists ass1, map2M (fun a s => collect a s view) afs ass = Ok ass1 /\
                 Forall2 (colls (fun a => col a ++ [sub (a_off a) (a_size a) view]) b) afs ass1 /\ map as_mode ass1 = map as_mode ass).
    { clear - HC HA Hn. revert HA. induction HC as [|a s afs ass [H1 H2] HC IH]; intros HA; [exists []; repeat split; constructor|].
      inversion HA as [|? ? [Ha1 Ha2] HA']; subst. destruct (IH HA') as (ass1 & E & HF & HMo).
      destruct (collect_coll a (col a) s view H1 Ha1) as (s' & Es & Hs & Hm). { unfold has_points, zlen in *. nia. }
      cbn [map2M]. rewrite Es. cbn [bind]. rewrite E. cbn [bind]. exists (s' :: ass1). split; [reflexivity|]. split; [|cbn; congruence].
      constructor; auto. split; auto. unfold status, uncommitted in *. now rewrite Hm. }
    destruct HM as (ass1 & -> & HC1 & HM1). cbn [bind].
    assert (Hn' : has_points n step (skipn step view)) by (unfold has_points in *; rewrite skipn_length; lia).
    destruct (IH sts1 (skipn step view) sts2 o2 ass1 _ b HE2 Hn' HC1) as (ass2 & E2 & HC2 & HM2).
    rewrite E2. cbn [bind]. exists ass2. split; [|split].
    + rewrite skipn_skipn. replace (n * step + step)%nat with (S n * step)%nat by lia. reflexivity.
    + eapply Forall2_mp; [|exact HC2]. intros a s H. unfold colls in *. rewrite <- app_assoc in H. rewrite column_S. exact H.
    + congruence.
Qed.

Lemma Forall2_map_l {A B C} (P : B -> C -> Prop) (g : A -> B) l l' : Forall2 (fun a c => P (g a) c) l l' -> Forall2 P (map g l) l'.
Proof. induction 1; cbn; constructor; auto. Qed.
Lemma Forall2_map_r {A B C} (P : A -> C -> Prop) (g : B -> C) l l' : Forall2 (fun a c => P a (g c)) l l' -> Forall2 P l (map g l').
Proof. induction 1; cbn; constructor; auto. Qed.

(** The mode of a field in a chunk, given the mode [m0] committed before. *)
Definition mode_rule (probe : nat) (a : afield) (bss : list (list Z)) (m0 : option amode) (m : amode) : Prop :=
  match m0 with
  | Some m1 => m = m1
  | None => best_mode a (firstn probe bss) m
  end.
Definition chunk_sections (probe : nat) (afs : list afield) (step n : nat) (view : list Z) (m0s : list (option amode)) (ms : list amode) (secs : list (list Z)) : Prop :=
  Forall2 (fun am0 mb => section_of (fst am0) (column (fst am0) step n view) (fst mb) (snd mb) /\
                         mode_rule probe (fst am0) (column (fst am0) step n view) (snd am0) (fst mb))
          (combine afs m0s) (combine ms secs) /\ length ms = length afs /\ length secs = length afs.

Lemma append_sections_spec col b afs : forall ass, Forall2 (colls col b) afs ass -> Forall (fun a => zlen (col a) < 2147483648) afs ->
  exists ms secs, length ms = length afs /\ length secs = length afs /\
    Forall2 (fun am0 mb => section_of (fst am0) (col (fst am0)) (fst mb) (snd mb) /\
       (snd am0 = None -> best_mode (fst am0) (col (fst am0)) (fst mb)) /\ (forall m0, snd am0 = Some m0 -> fst mb = m0))
      (combine afs (map as_mode ass)) (combine ms secs) /\
    forall cap, zlen (concat secs) <= cap ->
      exists ass', append_sections afs ass cap = Ok (ass', concat secs) /\
        Forall (fun s => tab_wf (as_tab s)) ass' /\ map as_mode ass' = map Some ms.
Proof.
  induction afs as [|a afs IH]; intros ass HC HN; inversion HC as [|? s ? ass0 H1 H2]; subst.
  - exists [], []. repeat split; auto; try constructor. intros cap _. exists []. cbn. auto.
  - inversion HN; subst. destruct (IH ass0 H2 ltac:(assumption)) as (ms & secs & L1 & L2 & HF & HA).
    destruct (append_section_coll a (col a) s (proj1 H1) ltac:(assumption)) as (m & bs & HS & HB & HM & HE).
    exists (m :: ms), (bs :: secs). cbn [length]. split; [lia|]. split; [lia|]. split.
    + cbn [map combine]. constructor; auto.
    + intros cap Hcap. cbn [concat] in Hcap. rewrite zlen_app in Hcap. pose proof (zlen_nonneg (concat secs)).
      destruct (HE cap ltac:(lia)) as (s' & Es & HT & Hm). destruct (HA (cap - zlen bs) ltac:(lia)) as (ass' & E & HW & HMo).
      cbn [append_sections]. rewrite Es. cbn [bind]. rewrite E. cbn [bind]. exists (s' :: ass'). cbn [concat map]. split; [reflexivity|].
      split; [constructor; auto|]. congruence.
Qed.

Lemma sections_size (col : afield -> list (list Z)) n afs : forall m0s ms secs (Q : afield * option amode -> amode * list Z -> Prop),
  Forall (fun a => is_int_type (a_type a) /\ zlen (col a) = n /\ Forall (field_bytes a) (col a)) afs -> 0 < n <= 65535 ->
  length ms = length afs -> length secs = length afs -> length m0s = length afs ->
  Forall2 (fun am0 mb => section_of (fst am0) (col (fst am0)) (fst mb) (snd mb) /\ Q am0 mb) (combine afs m0s) (combine ms secs) ->
  bytes (concat secs) /\ zlen (concat secs) <= (zlen afs * (5 + 10 * n) + wides afs * n).
Proof.
  induction afs as [|a afs IH]; intros [|m0 m0s] [|m ms] [|bs secs] Q HF Hn L1 L2 L3 HS; cbn [length] in *; try lia.
  - split; [apply Forall_nil|]. unfold wides, zlen. cbn [concat filter length]. lia.
  - cbn [combine] in HS. inversion HS as [|? ? ? ? [H1 _] H2]; subst. inversion HF as [|? ? (Ht & Hz & Hb) HF']; subst.
    cbn [fst snd] in H1. destruct (section_size a (col a) m bs Ht Hn Hb H1) as [S1 S2].
    destruct (IH m0s ms secs Q HF' Hn) as [I1 I2]; auto; try lia.
    cbn [concat]. split; [apply bytes_app; auto|]. rewrite zlen_app, zlen_cons, wides_cons. lia.
Qed.
Lemma colls_mode_none col afs : forall ass, Forall2 (colls col true) afs ass -> Forall (fun s => as_mode s = None) ass.
Proof.
  induction afs; intros ass H; inversion H as [|? s ? ? [_ H1] H2]; subst; constructor; auto.
  unfold status, uncommitted in H1. destruct (as_mode s); [discriminate|reflexivity].
Qed.
Lemma commit_probes col afs : forall ass, Forall2 (colls col true) afs ass -> Forall (fun a => zlen (col a) < 2147483648) afs ->
  exists ass' ms, map2M commit_probe afs ass = Ok ass' /\ Forall2 (colls col false) afs ass' /\ length ms = length afs /\
    map as_mode ass' = map Some ms /\ Forall2 (fun a m => best_mode a (col a) m) afs ms.
Proof.
  induction afs as [|a afs IH]; intros ass H HN; inversion H as [|? s ? ass0 [H1 H1'] H2]; subst.
  - exists [], []. cbn. repeat split; constructor.
  - inversion HN; subst. destruct (IH ass0 H2 ltac:(assumption)) as (ass' & ms & E & HC & HL & HM & HB).
    assert (Hm : as_mode s = None) by (unfold status, uncommitted in H1'; destruct (as_mode s); [discriminate|reflexivity]).
    destruct (commit_probe_coll a (col a) s H1 Hm ltac:(assumption)) as (s' & m & Es & Hs & Hm' & Hb).
    cbn [map2M]. rewrite Es. cbn [bind]. rewrite E. cbn [bind]. exists (s' :: ass'), (m :: ms).
    split; [reflexivity|]. split; [constructor; auto; split; auto; unfold status, uncommitted; now rewrite Hm'|].
    split; [cbn; lia|]. split; [cbn; congruence|constructor; auto].
Qed.
Lemma existsb_status b afs ass : Forall2 (fun (_ : afield) s => status b s) afs ass -> afs <> [] -> existsb uncommitted ass = b.
Proof.
  intros H. induction H as [|a s afs ass H1 H2 IH]; [congruence|]. intros _. cbn. rewrite H1.
  destruct b; [reflexivity|]. cbn. destruct afs; [inversion H2; reflexivity|]. apply IH. discriminate.
Qed.
Lemma map_Some_inj {A} (l l' : list A) : map Some l = map Some l' -> l = l'.
Proof. revert l'; induction l; intros [|] H; cbn in H; try discriminate; [reflexivity|]. injection H as <- H. f_equal; auto. Qed.

Lemma enc_chunk_v5_spec ops es afs step probe cap n ass view b o rest :
  (0 < step)%nat -> Forall (afield_in step) afs -> Forall (fun a => is_int_type (a_type a)) afs -> bytes view ->
  has_points n step view -> (0 < n)%nat -> Z.of_nat n <= 65535 -> afs <> [] ->
  Forall2 (fun (_ : afield) s => tab_wf (as_tab s) /\ status b s) afs ass ->
  enc_points_v4 ops es step n (resets es) view = Ok (rest, o) ->
  zlen o + (zlen afs * (5 + 10 * Z.of_nat n) + wides afs * Z.of_nat n) <= cap ->
  exists ass' ms secs,
    enc_chunk_v5 ops es afs step probe cap n ass view = Ok (ass', o ++ concat secs) /\
    chunk_sections probe afs step n view (map as_mode ass) ms secs /\
    bytes (concat secs) /\ zlen (concat secs) <= (zlen afs * (5 + 10 * Z.of_nat n) + wides afs * Z.of_nat n) /\
    Forall2 (fun (_ : afield) s => tab_wf (as_tab s) /\ status false s) afs ass' /\
    map as_mode ass' = map Some ms.
Proof.
  intros Hst HA HT Hv Hn Hn0 Hn1 Hne HS HE Hcap.
  destruct (enc_points_reg ops es step n Hst _ _ _ _ Hn HE) as (sts' & HR).
  set (ass1 := map prepare_chunk ass).
  assert (HC1 : Forall2 (colls (fun _ => []) b) afs ass1).
  { unfold ass1. apply Forall2_map_r. eapply Forall2_mp; [|exact HS]. intros a s [H1 H2]. destruct (prepare_coll a s H1) as [P1 P2].
    split; auto. unfold status, uncommitted in *. now rewrite P2. }
  assert (HM1 : map as_mode ass1 = map as_mode ass).
  { unfold ass1. rewrite map_map. clear - HS. induction HS as [|a s afs ass [H _] _ IH]; [reflexivity|]. cbn. f_equal; auto.
    now apply (prepare_coll a). }
  assert (Hlen : length ass = length afs) by (symmetry; eapply Forall2_length; eauto).
  assert (Hcols : Forall (fun a => is_int_type (a_type a) /\ zlen (column a step n view) = Z.of_nat n /\ Forall (field_bytes a) (column a step n view)) afs).
  { apply Forall_forall. intros a Ha. rewrite Forall_forall in HA, HT. split; [auto|]. split.
    - unfold zlen. now rewrite column_length.
    - apply column_bytes; auto. }
  (* shared end *)
  assert (FIN : forall ass2 bb, Forall2 (colls (fun a => column a step n view) bb) afs ass2 ->
    forall K : afield -> option amode -> amode -> Prop, (forall m0 a m, In (a, m0) (combine afs (map as_mode ass2)) -> (m0 = None -> best_mode a (column a step n view) m) -> (forall m1, m0 = Some m1 -> m = m1) -> K a m0 m) ->
    exists ms secs, length ms = length afs /\ length secs = length afs /\
      Forall2 (fun am0 mb => section_of (fst am0) (column (fst am0) step n view) (fst mb) (snd mb) /\ K (fst am0) (snd am0) (fst mb)) (combine afs (map as_mode ass2)) (combine ms secs) /\
      bytes (concat secs) /\ zlen (concat secs) <= (zlen afs * (5 + 10 * Z.of_nat n) + wides afs * Z.of_nat n) /\
      exists ass', append_sections afs ass2 (cap - zlen o) = Ok (ass', concat secs) /\
        Forall (fun s => tab_wf (as_tab s)) ass' /\ map as_mode ass' = map Some ms).
  { intros ass2 bb HC2 K HK.
    destruct (append_sections_spec (fun a => column a step n view) bb afs ass2 HC2) as (ms & secs & L1 & L2 & HF & HAp).
    { eapply Forall_impl; [|exact Hcols]. cbn. intros a (_ & -> & _). lia. }
    exists ms, secs. split; [exact L1|]. split; [exact L2|].
    assert (HF2 : Forall2 (fun am0 mb => section_of (fst am0) (column (fst am0) step n view) (fst mb) (snd mb) /\ K (fst am0) (snd am0) (fst mb)) (combine afs (map as_mode ass2)) (combine ms secs)).
    { clear - HF HK. revert HF HK. generalize (combine ms secs). induction (combine afs (map as_mode ass2)) as [|[a m0] l IH]; intros l' HF HK; inversion HF as [|? ? ? ? (X1 & X2 & X3) X4]; subst; constructor.
      - split; [exact X1|]. cbn [fst snd] in *. apply HK; auto. left; reflexivity.
      - apply IH; auto. intros. apply HK; auto. right; auto. }
    split; [exact HF2|].
    assert (Hl2 : length (map as_mode ass2) = length afs) by (rewrite map_length; symmetry; eapply Forall2_length; eauto).
    destruct (sections_size (fun a => column a step n view) (Z.of_nat n) afs (map as_mode ass2) ms secs _ Hcols ltac:(lia) L1 L2 Hl2 HF2) as [B1 B2].
    split; [exact B1|]. split; [exact B2|]. apply HAp. lia. }
  assert (DONE : forall ass' ms, length ms = length afs -> Forall (fun s => tab_wf (as_tab s)) ass' -> map as_mode ass' = map Some ms ->
    Forall2 (fun (_ : afield) s => tab_wf (as_tab s) /\ status false s) afs ass').
  { clear. intros ass' ms. revert ass' ms. induction afs as [|a afs IH]; intros [|s ass'] [|m ms] HL HF HM; cbn in *; try discriminate; constructor.
    - inversion HF; subst. injection HM as HM _. split; auto. unfold status, uncommitted. now rewrite HM.
    - inversion HF; subst. injection HM as _ HM. eapply IH; eauto. }
  assert (Hex : existsb uncommitted ass1 = b).
  { apply (existsb_status b afs); auto. eapply Forall2_mp; [|exact HC1]. intros a s [_ H]. exact H. }
  unfold enc_chunk_v5. fold ass1. rewrite Hex.
  destruct (b && (probe <? n)%nat) eqn:Ep.
  - (* probe, commit, stream the rest *)
    apply andb_true_iff in Ep. destruct Ep as [-> Ep]. apply Nat.ltb_lt in Ep.
    replace n with (probe + (n - probe))%nat in HR by lia.
    apply reg_run_app in HR. destruct HR as (sts1 & o1 & o2 & HR1 & HR2 & ->).
    assert (Hn2 : has_points probe step view) by (unfold has_points in *; nia).
    destruct (enc_range_spec ops es afs step Hst HA probe _ view _ _ ass1 _ true HR1 Hn2 HC1) as (ass2 & E2 & HC2 & HM2).
    rewrite E2. cbn [bind]. cbn [app] in HC2.
    destruct (commit_probes (fun a => column a step probe view) afs ass2 HC2) as (ass3 & ms3 & E3 & HC3 & HL3 & HM3 & HB3).
    { eapply Forall_impl; [|exact HT]. intros a _. unfold zlen. rewrite column_length. lia. }
    rewrite E3. cbn [bind].
    assert (Hn3 : has_points (n - probe) step (skipn (probe * step) view)) by (unfold has_points in *; rewrite skipn_length; nia).
    destruct (enc_range_spec ops es afs step Hst HA (n - probe) _ _ _ _ ass3 _ false HR2 Hn3 HC3) as (ass4 & E4 & HC4 & HM4).
    rewrite E4. cbn [bind].
    assert (HC5 : Forall2 (colls (fun a => column a step n view) false) afs ass4).
    { eapply Forall2_mp; [|exact HC4]. intros a s H. unfold colls in *. rewrite <- column_app in H. replace (probe + (n - probe))%nat with n in H by lia. exact H. }
    destruct (FIN ass4 false HC5 (fun a m0 m => m0 = Some m)) as (ms & secs & L1 & L2 & HF & B1 & B2 & ass' & EA & HW & HMo).
    { intros m0 a m Hin HN HSo. destruct m0 as [m1|]; [f_equal; symmetry; auto|]. exfalso. rewrite HM4, HM3 in Hin.
      apply in_combine_r, in_map_iff in Hin. destruct Hin as (? & ? & _). discriminate. }
    replace (cap <? zlen (o1 ++ o2)) with false by (pose proof (zlen_nonneg (concat secs)); symmetry; apply Z.ltb_ge; nia).
    rewrite EA. cbn [bind]. exists ass', ms, secs. split; [reflexivity|]. repeat split; auto.
    + assert (Hmm : ms = ms3).
      { rewrite HM4, HM3 in HF. apply map_Some_inj. clear - HF L1 L2 HL3. revert ms secs ms3 L1 L2 HL3 HF.
        induction afs as [|a afs IH]; intros [|m ms] [|bs secs] [|m3 ms3] L1 L2 L3 HF; cbn in *; try lia; [reflexivity|].
        inversion HF as [|? ? ? ? [_ X] X2]; subst. cbn in X. injection X as ->. f_equal. eapply (IH ms secs ms3); eauto. }
      subst ms3. rewrite HM4, HM3 in HF.
      assert (HNn : Forall (fun m0 => m0 = None) (map as_mode ass)).
      { rewrite <- HM1. apply Forall_map, (colls_mode_none (fun _ => []) afs). exact HC1. }
      clear - HF HB3 HNn L1 L2 Hlen Ep. 
      assert (Hlm : length (map as_mode ass) = length afs) by now rewrite map_length. revert HF HNn Hlm. generalize (map as_mode ass) as m0s. clear Hlen ass.
      revert ms secs L1 L2 HB3. induction afs as [|a afs IH]; intros [|m ms] [|bs secs] L1 L2 HB m0s HF HNn Hlm; destruct m0s as [|m0 m0s]; cbn in *; try lia; [constructor|].
      inversion HF as [|? ? ? ? [X1 _] X2]; subst. inversion HB as [|? ? ? ? Y1 Y2]; subst. inversion HNn; subst. constructor.
      * cbn [fst snd mode_rule] in *. split; [exact X1|].
        replace n with (probe + (n - probe))%nat by lia. rewrite column_app, firstn_app_len by apply column_length. exact Y1.
      * apply IH; auto.
    + eapply DONE; eauto.
  - (* one pass *)
    destruct (enc_range_spec ops es afs step Hst HA n _ view _ _ ass1 _ b HR Hn HC1) as (ass2 & E2 & HC2 & HM2).
    rewrite E2. cbn [bind]. cbn [app] in HC2.
    destruct (FIN ass2 b HC2 (fun a m0 m => mode_rule probe a (column a step n view) m0 m)) as (ms & secs & L1 & L2 & HF & B1 & B2 & ass' & EA & HW & HMo).
    { intros m0 a m Hin HN HSo. destruct m0 as [m1|]; cbn [mode_rule]; [auto|].
      assert (Hbt : b = true).
      { rewrite HM2 in Hin. apply in_combine_r, in_map_iff in Hin. destruct Hin as (s & Hs1 & Hs2).
        assert (G : Forall (fun s => status b s) ass1) by (clear - HC1; induction HC1 as [|? ? ? ? [_ ?] ? ?]; constructor; auto).
        rewrite Forall_forall in G. specialize (G s Hs2). unfold status, uncommitted in G. rewrite Hs1 in G. auto. }
      rewrite Hbt in Ep. cbn [andb] in Ep. apply Nat.ltb_ge in Ep. rewrite firstn_all2 by (rewrite column_length; lia). auto. }
    replace (cap <? zlen o) with false by (pose proof (zlen_nonneg (concat secs)); symmetry; apply Z.ltb_ge; nia).
    rewrite EA. cbn [bind]. exists ass', ms, secs. split; [reflexivity|]. rewrite HM2, HM1 in HF. repeat split; auto.
    eapply DONE; eauto.
Qed.
