(** Sizes of the V5 sections against what MaxCompressedSize assumes. *)
From Verif Require Import Base BaseFacts Varint VarintFacts Types Floats Fields Codec V5 Api Spec LibSpec SeqSpec.
From Verif Require Import GorillaFacts FieldFacts WriteFacts CodecFacts BuildFacts RunFacts SectionFacts PaletteFacts V5Facts ChunkV5Facts Stage1Facts ApiFacts CloudFacts RoundTrip CloudRT LocalFacts SeqFacts ColumnFacts CloudApi.

Definition small62 (d : Z) : Prop := -4611686018427387904 < d < 4611686018427387904.
Lemma varint9 v : small62 v -> (length (encodeVarint64 v) <= 9)%nat.
Proof.
  unfold small62. intros Hv. unfold encodeVarint64. rewrite zigzag1_spec by lia. apply (uvarint_length_le _ 8).
  - change (128 ^ Z.of_nat 9) with 9223372036854775808. unfold u64. destruct (0 <=? v) eqn:E; rewrite Z.mod_small by lia; lia.
  - unfold u64. apply Z.mod_pos_bound. lia.
Qed.
Lemma section_tight a bss m bs : is_int_type (a_type a) -> 0 < zlen bss <= 65535 -> Forall (field_bytes a) bss ->
  section_of a bss m bs -> (m = DeltaRle -> Forall small62 (diffs 0 (vals a bss))) -> zlen bs <= 5 + 10 * zlen bss.
Proof.
  intros Ht Hn HF HS HD. pose proof (a_size_le a Ht) as Hsz.
  assert (Lr : zlen (rawsof bss) = zlen bss) by (unfold zlen, rawsof; now rewrite map_length).
  assert (Ld : zlen (diffs 0 (vals a bss)) = zlen bss) by (unfold zlen, vals; now rewrite diffs_length, map_length).
  assert (HU : forall v, 1 <= v <= 65535 -> zlen (uvarint v) <= v /\ 1 <= zlen (uvarint v)).
  { intros v Hv. unfold zlen. pose proof (uvarint_length_le v 2). change (128 ^ Z.of_nat 3) with 2097152 in H.
    destruct (Z_le_gt_dec v 127); [|lia]. rewrite uvarint_eq by lia. replace (127 <? v) with false by lia. cbn. lia. }
  destruct m; cbn [section_of] in HS.
  - subst. unfold sec_delta. rewrite zlen_cons, zlen_flat_map. pose proof (sumz_le (fun x => zlen (encodeVarint64 x)) 10 (diffs 0 (vals a bss))) as H.
    rewrite Ld in H. specialize (H ltac:(intros; unfold zlen; pose proof (encodeVarint64_length x); lia)). lia.
  - destruct HS as (idx & -> & HI). pose proof (firsts_pos bss ltac:(lia)) as Hp. rewrite <- (size_pal a bss idx) by (auto; lia). unfold encodedPaletteSectionSize. rewrite Lr.
    destruct (bitsForPaletteIndex_spec (zlen (firsts [] (rawsof bss)))) as (B0 & B1 & B2); [lia|].
    assert (bitsForPaletteIndex (zlen (firsts [] (rawsof bss))) <= 16) by (apply B2; change (2 ^ 16) with 65536; lia).
    set (P := zlen (firsts [] (rawsof bss))) in *. set (b := bitsForPaletteIndex P) in *.
    assert (b * zlen bss <= 16 * zlen bss) by nia. assert (P * Z.of_nat (a_size a) <= 8 * zlen bss) by nia.
    assert (0 <= b * zlen bss) by nia. assert (0 <= P * Z.of_nat (a_size a)) by nia. lia.
  - subst. unfold sec_rle. destruct (runs_spec (rawsof bss)) as (E1 & E2 & E3). rewrite Lr in E2. set (rs := runs (rawsof bss)) in *.
    assert (HB : Forall (fun r => 1 <= snd r) rs) by (eapply Forall_impl; [|exact E2]; cbn; lia).
    pose proof (expand_len rs HB) as HX. rewrite E1, Lr in HX. rewrite Forall_forall in E2.
    rewrite zlen_cons, zlen_app, zlen_le, zlen_flat_map. change (Z.of_nat 4) with 4.
    assert (Hle : sumz (map (fun x => zlen (enc_rle_run (a_size a) x)) rs) <= sumz (map (fun r => 10 * snd r) rs)).
    { clear - E2 HU Hn Hsz. unfold sumz. induction rs as [|r rs IH]; cbn [map fold_right]; [lia|].
      specialize (IH (fun x Hx => E2 x (or_intror Hx))). specialize (E2 r (or_introl eq_refl)).
      unfold enc_rle_run at 1. rewrite zlen_app, zlen_le. destruct (HU (snd r) ltac:(lia)). lia. }
    assert (Hs : sumz (map (fun r => 10 * snd r) rs) = 10 * sumz (map snd rs)).
    { clear. unfold sumz. induction rs as [|r rs IH]; cbn [map fold_right]; lia. }
    lia.
  - subst. specialize (HD eq_refl). unfold sec_drle. destruct (runs_spec (diffs 0 (vals a bss))) as (E1 & E2 & E3). rewrite Ld in E2. set (rs := runs (diffs 0 (vals a bss))) in *.
    assert (HB : Forall (fun r => 1 <= snd r) rs) by (eapply Forall_impl; [|exact E2]; cbn; lia).
    pose proof (expand_len rs HB) as HX. rewrite E1, Ld in HX.
    rewrite zlen_cons, zlen_app, zlen_le, zlen_flat_map. change (Z.of_nat 4) with 4.
    assert (HR : Forall (fun r => small62 (fst r)) rs).
    { rewrite <- E1 in HD. clear - HD HB. induction rs as [|r rs IH]; constructor.
      - inversion HB as [|? ? HB1 HB2]. unfold expand in HD; cbn [flat_map] in HD. apply (proj1 (Forall_forall _ _) HD). apply in_or_app. left.
        destruct (Z.to_nat (snd r)) eqn:E; [lia|]. cbn. now left.
      - inversion HB as [|? ? HB1 HB2]. apply IH; [|exact HB2]. unfold expand in HD. cbn [flat_map] in HD. apply Forall_app in HD. apply HD. }
    rewrite Forall_forall in E2, HR.
    assert (Hle : sumz (map (fun x => zlen (enc_drle_run x)) rs) <= sumz (map (fun r => 10 * snd r) rs)).
    { clear - E2 HR HU Hn. unfold sumz. induction rs as [|r rs IH]; cbn [map fold_right]; [lia|].
      specialize (IH (fun x Hx => E2 x (or_intror Hx)) (fun x Hx => HR x (or_intror Hx))). specialize (E2 r (or_introl eq_refl)). specialize (HR r (or_introl eq_refl)).
      unfold enc_drle_run at 1. rewrite zlen_app. pose proof (varint9 _ HR). destruct (HU (snd r) ltac:(lia)). unfold zlen in *. lia. }
    assert (Hs : sumz (map (fun r => 10 * snd r) rs) = 10 * sumz (map snd rs)).
    { clear. unfold sumz. induction rs as [|r rs IH]; cbn [map fold_right]; lia. }
    lia.
Qed.

Lemma diffs_small : forall vs prev,
  (forall j v, nth_error vs j = Some v -> small62 (s64 (v - match j with O => prev | S k => match nth_error vs k with Some p => p | None => 0 end end))) ->
  Forall small62 (diffs prev vs).
Proof.
  induction vs as [|v vs IH]; intros prev H; cbn [diffs]; [constructor|]. constructor.
  - exact (H O v eq_refl).
  - apply IH. intros j w Hj. specialize (H (S j) w Hj). destruct j; exact H.
Qed.
Lemma diffs32 : forall vs prev, -4294967296 < prev < 4294967296 -> Forall (fun v => -4294967296 < v < 4294967296) vs -> Forall small62 (diffs prev vs).
Proof.
  induction vs as [|v vs IH]; intros prev Hp HF; cbn [diffs]; [constructor|]. inversion HF; subst. constructor; [|now apply IH].
  unfold small62. replace (s64 (v - prev)) with (v - prev) by (symmetry; apply s64_id; lia). lia.
Qed.
Lemma vals32 a bss : a_type a = INT16 \/ a_type a = UINT16 \/ a_type a = INT32 \/ a_type a = UINT32 -> Forall (field_bytes a) bss ->
  Forall (fun v => -4294967296 < v < 4294967296) (vals a bss).
Proof.
  intros Ht HF. unfold vals. apply Forall_map. eapply Forall_impl; [|exact HF]. intros bs [Hb Hl]. pose proof (le_val_range bs Hb) as Hr.
  unfold a_size in Hl. unfold to_int64. unfold zlen in *. rewrite Hl in *.
  assert (HI : forall x, -4294967296 < x < 4294967296 -> s64 x = x) by (intros; apply s64_id; lia).
  destruct Ht as [E|[E|[E|E]]]; rewrite E in *; cbn [SizeOf int_signed andb] in *.
  - change (256 ^ Z.of_nat 2) with 65536 in *. destruct (_ <=? _); rewrite HI; lia.
  - change (256 ^ Z.of_nat 2) with 65536 in *. rewrite HI; lia.
  - change (256 ^ Z.of_nat 4) with 4294967296 in *. destruct (Z.leb_spec (4294967296 / 2) (le_val bs)); rewrite HI; lia.
  - change (256 ^ Z.of_nat 4) with 4294967296 in *. rewrite HI; lia.
Qed.

(** The bounds per chunk *)
Lemma column_fields a step k view : afield_in step a -> bytes view -> (k * step <= length view)%nat -> Forall (field_bytes a) (column a step k view).
Proof.
  intros [H1 H2] Hb Hl. unfold column. apply Forall_map, Forall_forall. intros j Hj. apply in_seq in Hj.
  split; [apply sub_bytes, bytes_skipn, Hb|]. apply sub_length; [exact H1|]. unfold zlen. rewrite skipn_length. nia.
Qed.
Lemma afields_in i : layout_ok i -> Forall (fun a => is_int_type (a_type a) /\ afield_in (Z.to_nat (i_step i)) a) (map mk_afield (adaptive_fields i)).
Proof.
  intros [Hs HL]. apply Forall_map, Forall_forall. intros f Hf. unfold adaptive_fields in Hf. apply filter_In in Hf. destruct Hf as [Hf Hi]. cbn [mk_afield a_type].
  split; [now apply is_int_adaptive|]. rewrite Forall_forall in HL. specialize (HL f Hf). unfold afield_in, a_size. cbn [mk_afield a_off a_type]. lia.
Qed.
Lemma chunk_tight ops i ppc cloud ms c k bs m : UsesV5Codec i = true -> layout_ok i -> known_enc i -> bytes cloud -> MaxSerializedPointSize i = Ok m ->
  (0 < k <= ppc)%nat -> Z.of_nat ppc <= 65535 -> ((c * ppc + k) * Z.to_nat (i_step i) <= length cloud)%nat ->
  (forall es afs a mo sec, BuildV5Plan i = Ok (es, afs) -> In (a, mo) (combine afs ms) ->
     let col := column a (Z.to_nat (i_step i)) k (skipn (c * ppc * Z.to_nat (i_step i)) cloud) in
     is_int_type (a_type a) -> Forall (field_bytes a) col -> section_of a col mo sec -> zlen sec <= 5 + 10 * zlen col) ->
  chunk_rel ops i ppc cloud ms c k bs -> zlen bs <= assumed i m (Z.of_nat k).
Proof.
  intros HU HL HK Hc Hm Hk Hp Hlen HD HC. unfold chunk_rel in HC. unfold assumed. rewrite HU in *. set (step := Z.to_nat (i_step i)) in *.
  destruct HC as (es & afs & HB & o & secs & HE & -> & Ho & Hsb & _ & Hms & Hss & HF). specialize (HD es afs). 
  destruct (plan_spec i es afs m HU HB Hm) as (HBu & HA & Hs).
  assert (Hst : i_step i = Z.of_nat step) by (destruct HL; unfold step; lia).
  destruct (chunk_enc ops i regular es step cloud (c * ppc) k HBu HL Hst Hc Hlen) as (o' & HE' & _ & Ho').
  rewrite HE in HE'. apply ok_pair in HE'. destruct HE' as [_ <-]. rewrite zlen_app.
  assert (Hsec : zlen (concat secs) <= zlen afs * (5 + 10 * Z.of_nat k)).
  { pose proof (afields_in i HL) as HAI. fold step in HAI. rewrite <- HA in HAI.
    assert (HD' : forall a mo sec, In (a, mo) (combine afs ms) -> is_int_type (a_type a) -> Forall (field_bytes a) (column a step k (skipn (c * ppc * step) cloud)) ->
       section_of a (column a step k (skipn (c * ppc * step) cloud)) mo sec -> zlen sec <= 5 + 10 * zlen (column a step k (skipn (c * ppc * step) cloud))) by (intros a mo sec HI; now apply (HD a mo sec HB HI)).
    clear HA Hs HB HD HE Ho Hsb. revert ms secs HD' Hms Hss HF. induction afs as [|a afs IH]; intros [|mo ms] [|sec secs] HD' Hms Hss HF; cbn [length] in Hms, Hss; try (exfalso; lia); [change (0 <= 0); lia|].
    cbn [combine] in HF. inversion HF as [|? ? ? ? HF1 HF2]; subst. inversion HAI as [|? ? [Hi Hin] HAI2]; subst. cbn [concat fst snd] in *. rewrite zlen_app, zlen_cons.
    assert (Hz : zlen (column a step k (skipn (c * ppc * step) cloud)) = Z.of_nat k) by (unfold zlen; now rewrite column_length).
    assert (zlen sec <= 5 + 10 * Z.of_nat k).
    { rewrite <- Hz. apply (HD' a mo sec); [now left|exact Hi| |exact HF1].
      apply column_fields; [exact Hin|now apply bytes_skipn|]. rewrite skipn_length. nia. }
    specialize (IH HAI2 ms secs (fun a' m' s' H => HD' a' m' s' (or_intror H)) ltac:(lia) ltac:(lia) HF2). nia. }
  assert (Hfl : zlen afs <= zlen (i_fields i)).
  { rewrite HA. unfold adaptive_fields, zlen. rewrite map_length. clear. generalize (i_fields i). intros l. induction l as [|f l IH]; cbn [filter length]; [lia|]. destruct (isV5AdaptiveIntType _); cbn [length]; lia. }
  pose proof (zlen_nonneg afs). nia.
Qed.

(** A mode chosen on the whole column is never larger than DeltaVarint. *)
Lemma best_tight a bss m bs : 0 < zlen bss < 4294967296 -> best_mode a bss m -> section_of a bss m bs -> zlen bs <= 5 + 10 * zlen bss.
Proof.
  intros Hn HB HS. rewrite (section_len a bss m bs Hn HS). unfold best_mode in HB. 
  pose proof (select_best (encodedDeltaVarintSectionSize (vals a bss)) (encodedPaletteSectionSize (firsts [] (rawsof bss)) (a_size a) (zlen (rawsof bss))) (encodedRleSectionSize (rawsof bss) (a_size a)) (encodedDeltaRleSectionSize (vals a bss)) DeltaVarint) as H.
  cbn zeta in H. rewrite <- HB in H. destruct H as [H _].
  assert (encodedDeltaVarintSectionSize (vals a bss) <= 5 + 10 * zlen bss); [|lia].
  rewrite size_delta. unfold sec_delta. rewrite zlen_cons, zlen_flat_map. pose proof (sumz_le (fun x => zlen (encodeVarint64 x)) 10 (diffs 0 (vals a bss))) as H1.
  assert (Ld : zlen (diffs 0 (vals a bss)) = zlen bss) by (unfold zlen, vals; now rewrite diffs_length, map_length).
  rewrite Ld in H1. specialize (H1 ltac:(intros; unfold zlen; pose proof (encodeVarint64_length x); lia)). lia.
Qed.
