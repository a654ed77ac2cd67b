(** Proofs about one integer column of the V5 codec. *)
From Verif Require Import Base BaseFacts Varint VarintFacts Types Floats Fields Codec V5 Spec SeqSpec.
From Verif Require Import GorillaFacts FieldFacts WriteFacts CodecFacts BuildFacts RunFacts SectionFacts PaletteFacts V5Facts ChunkV5Facts Stage1Facts SeqFacts.

Lemma collect_all_coll a : forall views bss s, coll a bss s -> Forall (has_field (a_off a) (a_size a)) views ->
  exists s', collect_all a s views = Ok s' /\ coll a (bss ++ col_bytes a views) s' /\ as_mode s' = as_mode s.
Proof.
  induction views as [|v vs IH]; intros bss s HC HF.
  - exists s. cbn. rewrite app_nil_r. auto.
  - inversion HF as [|? ? (H1 & H2 & H3) HF']; subst. destruct (collect_coll a bss s v HC H2 H3) as (s1 & E & HC1 & HM).
    destruct (IH _ s1 HC1 HF') as (s2 & E2 & HC2 & HM2). exists s2. cbn [collect_all]. rewrite E. cbn [bind]. split; [exact E2|].
    rewrite <- app_assoc in HC2. split; [exact HC2|congruence].
Qed.
Lemma table_wf t : table_after t -> tab_wf t.
Proof.
  induction 1 as [|t raws t' pal idx H IH Hn E]; [exact tab_wf_init|]. destruct (buildPalette_spec t raws IH Hn) as (t2 & idx2 & E2 & HW & _).
  rewrite E in E2. injection E2 as -> -> ->. exact HW.
Qed.
Lemma field_section_spec a t m0 views : is_int_type (a_type a) -> table_after t -> Forall (has_field (a_off a) (a_size a)) views ->
  0 < zlen views <= 65535 ->
  exists m bs, section_of a (col_bytes a views) m bs /\ (m0 = None -> best_mode a (col_bytes a views) m) /\ (forall m1, m0 = Some m1 -> m = m1) /\
    bytes bs /\ 1 <= zlen bs <= 5 + 11 * zlen views /\ (forall cap, zlen bs <= cap -> field_section a t m0 views cap = Ok bs).
Proof.
  intros HI HT HF Hn. unfold field_section.
  assert (HFb : Forall (field_bytes a) (col_bytes a views)).
  { unfold col_bytes. apply Forall_map. eapply Forall_impl; [|exact HF]. intros v (H1 & H2 & H3). split; [now apply sub_bytes|now apply sub_length]. }
  assert (Hz : zlen (col_bytes a views) = zlen views) by (unfold col_bytes, zlen; now rewrite map_length).
  destruct (prepare_coll a (mkAS [] [] t m0 false stream0) (table_wf t HT)) as [HC HM].
  destruct (collect_all_coll a views [] _ HC HF) as (s & E & HC2 & HM2). cbn [app] in HC2.
  destruct (append_section_coll a (col_bytes a views) s HC2 ltac:(rewrite Hz; lia)) as (m & bs & HS & HB & HMo & HA).
  rewrite HM2, HM in *. cbn [as_mode] in *.
  destruct (section_size a (col_bytes a views) m bs HI ltac:(rewrite Hz; lia) HFb HS) as [Hb Hs0]. rewrite Hz in Hs0.
  assert (Hs : 1 <= zlen bs <= 5 + 11 * zlen views).
  { pose proof (wide1_range a). assert ((10 + wide1 a) * zlen views <= 11 * zlen views) by (apply Z.mul_le_mono_nonneg_r; lia). lia. }
  exists m, bs. repeat (split; [assumption|]). intros cap Hcap. rewrite E. cbn [bind]. destruct (HA cap Hcap) as (s' & -> & _). reflexivity.
Qed.

(** The section decodes to the column. *)
Lemma stored_column a base step bss mem : 0 <= base + a_off a -> Z.of_nat (a_size a) <= step -> Forall (field_bytes a) bss ->
  base + a_off a + (zlen bss - 1) * step + Z.of_nat (a_size a) <= zlen mem -> (0 < a_size a)%nat ->
  exists mem', do_writes (sec_writes a base step 0 bss) mem = Ok mem' /\ column_stored (a_off a) (a_size a) base step bss mem mem'.
Proof.
  intros H0 Hst HF Hr Hsz.
  assert (HIn : forall w, In w (sec_writes a base step 0 bss) -> exists j bs, nth_error bss j = Some bs /\ w = (base + Z.of_nat j * step + a_off a, bs) /\ length bs = a_size a /\ (j < length bss)%nat).
  { intros w Hw. apply in_sec_writes in Hw. destruct Hw as (j & bs & Hj & ->). exists j, bs. split; [exact Hj|]. split; [f_equal; lia|].
    split; [apply nth_error_In in Hj; rewrite Forall_forall in HF; apply HF, Hj|]. apply nth_error_Some. congruence. }
  destruct (do_writes_ok (sec_writes a base step 0 bss) mem) as (mem' & E & HL).
  { apply Forall_forall. intros w Hw. destruct (HIn w Hw) as (j & bs & Hj & -> & Hl & Hjl). unfold in_range, zlen in *. cbn [fst snd]. rewrite Hl.
    assert (Z.of_nat j * step <= (Z.of_nat (length bss) - 1) * step) by nia. nia. }
  exists mem'. split; [exact E|]. split; [exact HL|]. split.
  - intros j bs Hj. assert (Hw : In (base + Z.of_nat j * step + a_off a, bs) (sec_writes a base step 0 bss)).
    { apply in_sec_writes. exists j, bs. split; [exact Hj|]. f_equal. }
    destruct (HIn _ Hw) as (j' & bs' & Hj' & Hw' & Hl & Hjl). apply pair_equal_spec in Hw'. destruct Hw' as [_ <-].
    rewrite <- Hl. assert (Hjl2 : (j < length bss)%nat) by (apply nth_error_Some; congruence).
    apply holds_sub.
    + nia.
    + unfold zlen in *. rewrite Hl. rewrite HL. assert (Z.of_nat j * step <= (Z.of_nat (length bss) - 1) * step) by nia. lia.
    + apply (do_writes_holds _ _ _ _ E Hw). apply Forall_forall. intros w2 Hw2. destruct (HIn _ Hw2) as (j2 & bs2 & Hj2 & -> & Hl2 & Hjl3).
      destruct (Nat.eq_dec j j2) as [->|Hne].
      * rewrite Hj in Hj2. injection Hj2 as <-. intros x _ _. reflexivity.
      * apply compat_disjoint. cbn [fst snd]. unfold zlen. rewrite Hl, Hl2. destruct (Nat.lt_ge_cases j j2); [left|right]; nia.
  - intros x Hx Hout. apply (do_writes_untouched _ _ _ _ E). apply Forall_forall. intros w Hw. destruct (HIn _ Hw) as (j & bs & Hj & -> & Hl & Hjl). cbn [fst snd]. unfold zlen. rewrite Hl. apply Hout. exact Hjl.
Qed.

Lemma okdiffs_jumps a bss : is_int_type (a_type a) -> Forall (field_bytes a) bss -> forall p,
  jumps_ok p (map (fun bs => int_value (a_type a) bs) bss) -> okdiffs (diffs p (vals a bss)).
Proof.
  intros HI HF. induction HF as [|bs bss [Hb Hl] HF IH]; intros p HJ; [constructor|]. cbn [map jumps_ok vals diffs] in *.
  rewrite (int_value_spec (a_type a) bs HI Hb Hl) in HJ. destruct HJ as [J1 J2]. constructor; [|apply IH; exact J2].
  pose proof (s64_min (to_int64 (a_type a) bs - p)) as HM. unfold INT64_MIN in HM.
  assert (-9223372036854775808 <= s64 (to_int64 (a_type a) bs - p) < 9223372036854775808).
  { unfold s64. pose proof (Z.mod_pos_bound (to_int64 (a_type a) bs - p + 9223372036854775808) 18446744073709551616 ltac:(lia)). lia. }
  assert (s64 (to_int64 (a_type a) bs - p) <> -9223372036854775808) by (intros E; apply J1, HM, E). lia.
Qed.

(** distinct_in_order is what the palette construction computes *)
Lemma firsts_filter l : forall seen, firsts seen l = filter (fun x => negb (existsb (Z.eqb x) seen)) (distinct_in_order l).
Proof.
  induction l as [|v l IH]; intros seen; [reflexivity|]. cbn [firsts distinct_in_order filter].
  destruct (in_dec Z.eq_dec v seen) as [Hi|Hi].
  - replace (existsb (Z.eqb v) seen) with true by (symmetry; apply existsb_exists; exists v; split; [exact Hi|apply Z.eqb_refl]). cbn [negb]. rewrite IH.
    assert (HH : forall l2, filter (fun x => negb (existsb (Z.eqb x) seen)) l2 = filter (fun x => negb (existsb (Z.eqb x) seen)) (filter (fun x => negb (x =? v)) l2)); [|apply HH].
    induction l2 as [|x l2 IHl]; [reflexivity|]. cbn [filter]. destruct (Z.eqb_spec x v) as [->|Hx]; cbn [negb].
    + replace (existsb (Z.eqb v) seen) with true by (symmetry; apply existsb_exists; exists v; split; [exact Hi|apply Z.eqb_refl]). exact IHl.
    + cbn [filter]. destruct (existsb (Z.eqb x) seen); cbn [negb]; [exact IHl|]. now rewrite IHl.
  - replace (existsb (Z.eqb v) seen) with false.
    2:{ symmetry. apply not_true_is_false. intros H. apply existsb_exists in H. destruct H as (y & Hy & E). apply Z.eqb_eq in E. subst. contradiction. }
    cbn [negb]. f_equal. rewrite IH.
    assert (HH : forall l2, filter (fun x => negb (existsb (Z.eqb x) (seen ++ [v]))) l2 = filter (fun x => negb (existsb (Z.eqb x) seen)) (filter (fun x => negb (x =? v)) l2)); [|apply HH].
    induction l2 as [|x l2 IHl]; [reflexivity|]. cbn [filter]. rewrite existsb_app. cbn [existsb]. rewrite orb_false_r. destruct (Z.eqb_spec x v) as [->|Hx]; cbn [negb].
    + rewrite orb_true_r. exact IHl.
    + rewrite orb_false_r. cbn [filter]. destruct (existsb (Z.eqb x) seen); cbn [negb]; [exact IHl|]. now rewrite IHl.
Qed.
Lemma firsts_distinct l : firsts [] l = distinct_in_order l.
Proof. rewrite firsts_filter. apply filter_all. apply Forall_forall. reflexivity. Qed.

Lemma unpack_spec bits : 0 <= bits <= 32 -> forall idx scratch held ptr X,
  Forall (fun i => 0 <= i < 2 ^ bits) idx -> 0 <= held < 8 -> 0 <= scratch < 2 ^ held -> bytes ptr ->
  bits * zlen idx <= held + 8 * zlen ptr ->
  scratch + 2 ^ held * le_val ptr = pack_val bits idx + 2 ^ (bits * zlen idx) * X ->
  unpack (length idx) bits scratch held ptr = Ok idx.
Proof.
  intros Hb. induction idx as [|i idx IH]; intros scratch held ptr X HF Hh Hs HP Hr HV; [reflexivity|].
  inversion HF as [|? ? Hi HF']; subst. rewrite zlen_cons in Hr, HV. pose proof (zlen_nonneg idx).
  destruct (readIndex_spec bits scratch held ptr Hb Hh Hs HP ltac:(nia)) as (s' & h' & p' & E & H1 & H2 & H3 & H4 & H5).
  cbn [unpack length]. rewrite E. cbn [bind].
  assert (EP : 2 ^ (bits * (1 + zlen idx)) = 2 ^ bits * 2 ^ (bits * zlen idx)) by (rewrite <- Z.pow_add_r by nia; f_equal; nia).
  cbn [pack_val] in HV. rewrite EP in HV. pose proof (pow2_pos bits ltac:(lia)) as HPb.
  assert (EM : (scratch + 2 ^ held * le_val ptr) mod 2 ^ bits = i).
  { rewrite HV. replace (i + 2 ^ bits * pack_val bits idx + 2 ^ bits * 2 ^ (bits * zlen idx) * X) with (i + (pack_val bits idx + 2 ^ (bits * zlen idx) * X) * 2 ^ bits) by nia.
    rewrite Z_mod_plus_full. apply Z.mod_small. exact Hi. }
  assert (ED : (scratch + 2 ^ held * le_val ptr) / 2 ^ bits = pack_val bits idx + 2 ^ (bits * zlen idx) * X).
  { rewrite HV. replace (i + 2 ^ bits * pack_val bits idx + 2 ^ bits * 2 ^ (bits * zlen idx) * X) with (i + (pack_val bits idx + 2 ^ (bits * zlen idx) * X) * 2 ^ bits) by nia.
    rewrite Z_div_plus_full by lia. rewrite Z.div_small by exact Hi. reflexivity. }
  rewrite EM. rewrite (IH s' h' p' X); auto; [nia|]. rewrite H5. exact ED.
Qed.

(** Choice of the mode *)
Lemma select_best d p r q : let m := selectBestAdaptiveIntMode d p r q in
  let sz m' := match m' with DeltaVarint => d | Palette => p | Rle => r | DeltaRle => q end in
  forall m', sz m <= sz m' /\ (sz m = sz m' -> mode_code m <= mode_code m').
Proof.
  cbn zeta. unfold selectBestAdaptiveIntMode. destruct (Z.ltb_spec p d), (Z.ltb_spec r d), (Z.ltb_spec r p), (Z.ltb_spec q d), (Z.ltb_spec q p), (Z.ltb_spec q r);
    intros []; cbn [mode_code]; try lia.
Qed.
Lemma section_mode_byte a bss m bs : section_of a bss m bs -> hd (-1) bs = mode_code m.
Proof. destruct m; cbn [section_of mode_code]; intros H; try (subst; reflexivity). destruct H as (idx & -> & _). reflexivity. Qed.
Lemma section_len a bss m bs : 0 < zlen bss < 4294967296 -> section_of a bss m bs ->
  zlen bs = match m with DeltaVarint => encodedDeltaVarintSectionSize (vals a bss)
            | Palette => encodedPaletteSectionSize (firsts [] (rawsof bss)) (a_size a) (zlen (rawsof bss))
            | Rle => encodedRleSectionSize (rawsof bss) (a_size a) | DeltaRle => encodedDeltaRleSectionSize (vals a bss) end.
Proof.
  intros Hn. destruct m; cbn [section_of]; intros H.
  - subst. symmetry. apply size_delta.
  - destruct H as (idx & -> & H). symmetry. apply size_pal; assumption.
  - subst. symmetry. apply size_rle. lia.
  - subst. symmetry. apply size_drle. lia.
Qed.
