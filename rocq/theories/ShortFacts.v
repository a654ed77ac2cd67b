(** Facts for C86: sizes of the integer sections from the shape of a column. *)
From Coq Require Import FinFun.
From Verif Require Import Base BaseFacts Varint VarintFacts Types Floats Fields Codec V5 Api Spec LibSpec SeqSpec ShortSpec.
From Verif Require Import GorillaFacts FieldFacts WriteFacts CodecFacts BuildFacts RunFacts SectionFacts PaletteFacts V5Facts ChunkV5Facts Stage1Facts ApiFacts CloudFacts RoundTrip CloudRT LocalFacts SeqFacts ColumnFacts CloudApi SizeFacts.

Lemma groups_changes l : forall cur len, zlen (run_groups cur len l) = 1 + changes (cur :: l).
Proof.
  induction l as [|x l IH]; intros cur len; [reflexivity|]. cbn [run_groups]. change (changes (cur :: x :: l)) with ((if cur =? x then 0 else 1) + changes (x :: l)). rewrite (Z.eqb_sym cur x).
  destruct (x =? cur) eqn:E; [|rewrite zlen_cons, IH; lia]. apply Z.eqb_eq in E. subst x. rewrite IH. lia.
Qed.
Lemma runs_changes l : l <> [] -> zlen (runs l) = 1 + changes l.
Proof. destruct l as [|x l]; [congruence|]. intros _. apply groups_changes. Qed.
Lemma changes_nonneg l : 0 <= changes l.
Proof. induction l as [|x [|y l] IH]; try (cbn; lia). change (changes (x :: y :: l)) with ((if x =? y then 0 else 1) + changes (y :: l)). destruct (x =? y); lia. Qed.

Lemma uv3 v : 1 <= v <= 65535 -> 1 <= encodedUVarintSize v <= 3.
Proof.
  intros H. rewrite encodedUVarintSize_spec by lia. pose proof (uvarint_length_le v 2) as L. change (128 ^ Z.of_nat 3) with 2097152 in L.
  specialize (L ltac:(lia) ltac:(lia)). unfold zlen. lia.
Qed.
Lemma v10 v : 1 <= encodedVarint64Size v <= 10.
Proof. unfold encodedVarint64Size, zlen. pose proof (encodeVarint64_length v). lia. Qed.
Lemma v1 v : -63 <= v <= 63 -> encodedVarint64Size v = 1.
Proof.
  intros H. unfold encodedVarint64Size, encodeVarint64. rewrite zigzag1_spec by lia. pose proof (uvarint_length_le (u64 ((if 0 <=? v then 2 * v else - 2 * v - 1) + 1)) 0) as L.
  unfold zlen. change (128 ^ Z.of_nat 1) with 128 in L. unfold u64 in *. destruct (0 <=? v) eqn:E; rewrite ?Z.mod_small in * by lia; specialize (L ltac:(lia) ltac:(lia)); lia.
Qed.

(** *** Upper bounds for each mode *)
Lemma drle_le vs : 0 < zlen vs <= 65535 -> encodedDeltaRleSectionSize vs <= 5 + 13 * (1 + changes (diffs 0 vs)).
Proof.
  intros Hn. unfold encodedDeltaRleSectionSize. destruct (runs_spec (diffs 0 vs)) as (_ & E2 & _). rewrite Forall_forall in E2.
  assert (Ld : zlen (diffs 0 vs) = zlen vs) by (unfold zlen; now rewrite diffs_length). rewrite Ld in E2.
  rewrite <- runs_changes by (intros E; rewrite E in Ld; unfold zlen in *; cbn in Ld; lia).
  pose proof (sumz_le (fun r : Z * Z => encodedVarint64Size (fst r) + encodedUVarintSize (snd r)) 13 (runs (diffs 0 vs))) as H. cbn beta in H.
  specialize (H ltac:(intros r Hr; specialize (E2 r Hr); pose proof (v10 (fst r)); pose proof (uv3 (snd r) ltac:(lia)); lia)). lia.
Qed.
Lemma rle_le raws sz : 0 < zlen raws <= 65535 -> encodedRleSectionSize raws sz <= 5 + (Z.of_nat sz + 3) * (1 + changes raws).
Proof.
  intros Hn. unfold encodedRleSectionSize. destruct (runs_spec raws) as (_ & E2 & _). rewrite Forall_forall in E2.
  rewrite <- runs_changes by (intros E; rewrite E in Hn; unfold zlen in Hn; cbn in Hn; lia).
  pose proof (sumz_le (fun r : Z * Z => Z.of_nat sz + encodedUVarintSize (snd r)) (Z.of_nat sz + 3) (runs raws)) as H. cbn beta in H.
  specialize (H ltac:(intros r Hr; specialize (E2 r Hr); pose proof (uv3 (snd r) ltac:(lia)); lia)). lia.
Qed.
Lemma bits_log n : 1 <= n < 2 ^ 64 -> bitsForPaletteIndex n = Z.log2_up n.
Proof.
  intros Hn. destruct (bitsForPaletteIndex_spec n Hn) as (H0 & H1 & H2). apply Z.le_antisymm.
  - apply H2; [apply Z.log2_up_nonneg|]. apply Z.log2_log2_up_spec. lia.
  - apply Z.log2_up_le_pow2 in H1; lia.
Qed.
Lemma delta_le vs : vs <> [] -> Forall (fun d => -63 <= d <= 63) (tl (diffs 0 vs)) -> encodedDeltaVarintSectionSize vs <= 10 + zlen vs.
Proof.
  destruct vs as [|v vs]; [congruence|]. intros _. cbn [diffs tl]. intros H. unfold encodedDeltaVarintSectionSize. cbn [diffs map sumz fold_right].
  pose proof (v10 (s64 (v - 0))) as Hv. pose proof (sumz_le encodedVarint64Size 1 (diffs v vs)) as HS. rewrite Forall_forall in H.
  specialize (HS ltac:(intros x Hx; rewrite v1 by (apply H; exact Hx); lia)). unfold sumz in HS. unfold zlen in *. rewrite diffs_length in HS. cbn [length]. lia.
Qed.
(** *** Lower bounds *)
Lemma sumz_ge {A} (f : A -> Z) c l : (forall x, In x l -> c <= f x) -> c * zlen l <= sumz (map f l).
Proof.
  unfold sumz, zlen. induction l as [|x l IH]; intros H; cbn [map fold_right length]; [lia|].
  specialize (IH (fun y Hy => H y (or_intror Hy))). specialize (H x (or_introl eq_refl)). lia.
Qed.
Lemma delta_ge vs : 1 + zlen vs <= encodedDeltaVarintSectionSize vs.
Proof.
  unfold encodedDeltaVarintSectionSize. pose proof (sumz_ge encodedVarint64Size 1 (diffs 0 vs) ltac:(intros; apply v10)) as H.
  unfold zlen in *. rewrite diffs_length in H. lia.
Qed.
Lemma rle_ge raws sz : 0 < zlen raws <= 65535 -> 1 + changes raws <= encodedRleSectionSize raws sz.
Proof.
  intros Hn. unfold encodedRleSectionSize. destruct (runs_spec raws) as (_ & E2 & _). rewrite Forall_forall in E2.
  rewrite <- runs_changes by (intros E; rewrite E in Hn; unfold zlen in Hn; cbn in Hn; lia).
  pose proof (sumz_ge (fun r : Z * Z => Z.of_nat sz + encodedUVarintSize (snd r)) 1 (runs raws)) as H. cbn beta in H.
  specialize (H ltac:(intros r Hr; specialize (E2 r Hr); pose proof (uv3 (snd r) ltac:(lia)); lia)). lia.
Qed.
Lemma pal_ge pal sz count : (1 <= sz)%nat -> 0 <= bitsForPaletteIndex (zlen pal) * count -> zlen pal <= encodedPaletteSectionSize pal sz count.
Proof. intros H H2. unfold encodedPaletteSectionSize. pose proof (zlen_nonneg pal). assert (0 <= (bitsForPaletteIndex (zlen pal) * count + 7) / 8) by (apply Z.div_pos; lia). nia. Qed.
Lemma changes_nodup l : NoDup l -> l <> [] -> 1 + changes l = zlen l.
Proof.
  induction l as [|x [|y l] IH]; intros H H0; [congruence|reflexivity|]. inversion H as [|? ? Hn Hd]. change (changes (x :: y :: l)) with ((if x =? y then 0 else 1) + changes (y :: l)).
  destruct (Z.eqb_spec x y) as [E|E]; [exfalso; apply Hn; left; auto|]. rewrite zlen_cons. specialize (IH Hd ltac:(discriminate)). lia.
Qed.
Lemma distinct_nodup l : NoDup l -> distinct_in_order l = l.
Proof.
  induction 1 as [|x l Hn Hd IH]; [reflexivity|]. cbn [distinct_in_order]. rewrite IH. f_equal. rewrite filter_all; [reflexivity|].
  apply Forall_forall. intros y Hy. destruct (Z.eqb_spec y x) as [E|E]; [subst; contradiction|reflexivity].
Qed.
Lemma distinct_repeat x k : distinct_in_order (repeat x (S k)) = [x].
Proof.
  induction k as [|k IH]; [reflexivity|]. change (repeat x (S (S k))) with (x :: repeat x (S k)). cbn [distinct_in_order]. rewrite IH. cbn [filter]. rewrite Z.eqb_refl. reflexivity.
Qed.
Lemma changes_repeat x k : changes (repeat x k) = 0.
Proof. induction k as [|[|k] IH]; [reflexivity|reflexivity|]. change (repeat x (S (S k))) with (x :: x :: repeat x k). change (changes (x :: x :: repeat x k)) with ((if x =? x then 0 else 1) + changes (repeat x (S k))). rewrite Z.eqb_refl, IH. reflexivity. Qed.
Lemma changes_cons_repeat y x k : changes (y :: repeat x k) <= 1.
Proof. destruct k as [|k]; [cbn; lia|]. change (changes (y :: repeat x (S k))) with ((if y =? x then 0 else 1) + changes (repeat x (S k))). rewrite changes_repeat. destruct (y =? x); lia. Qed.

(** *** Arithmetic progressions *)
Definition prog (b d : Z) (k : nat) : list Z := map (fun j => b + Z.of_nat j * d) (seq 0 k).
Lemma prog_S b d k : prog b d (S k) = b :: prog (b + d) d k.
Proof.
  unfold prog. cbn [seq map]. f_equal; [lia|]. rewrite <- seq_shift, map_map. apply map_ext. intros j. lia.
Qed.
Lemma prog_length b d k : length (prog b d k) = k.
Proof. unfold prog. now rewrite map_length, seq_length. Qed.
Lemma diffs_prog d : forall k b, diffs b (prog (b + d) d k) = repeat (s64 d) k.
Proof.
  induction k as [|k IH]; intros b; [reflexivity|]. rewrite prog_S. cbn [diffs repeat]. rewrite IH. do 2 f_equal. lia.
Qed.
Lemma prog_const b k : prog b 0 k = repeat b k.
Proof. induction k as [|k IH]; [reflexivity|]. rewrite prog_S. cbn [repeat]. f_equal. rewrite Z.add_0_r. exact IH. Qed.
Lemma prog_nodup b d k : d <> 0 -> NoDup (prog b d k).
Proof.
  intros Hd. unfold prog. apply FinFun.Injective_map_NoDup; [|apply seq_NoDup]. intros x y H. assert ((Z.of_nat x - Z.of_nat y) * d = 0) by lia. nia.
Qed.
Lemma prog_drle b d k : (0 < k)%nat -> Z.of_nat k <= 65535 -> encodedDeltaRleSectionSize (prog b d k) <= 31.
Proof.
  intros H0 H1. assert (Hz : zlen (prog b d k) = Z.of_nat k) by (unfold zlen; now rewrite prog_length).
  pose proof (drle_le (prog b d k) ltac:(lia)) as H. destruct k as [|k]; [lia|]. rewrite prog_S in *. cbn [diffs] in H. rewrite diffs_prog in H.
  pose proof (changes_cons_repeat (s64 (b - 0)) (s64 d) k). lia.
Qed.
(** raw values are determined by the integers and vice versa *)
Lemma raws_of_vals a bss : is_int_type (a_type a) -> Forall (field_bytes a) bss -> rawsof bss = map (fun v => v mod 256 ^ Z.of_nat (a_size a)) (vals a bss).
Proof.
  intros Ht HF. unfold rawsof, vals. rewrite map_map. apply map_ext_in. intros bs Hbs. rewrite Forall_forall in HF. destruct (HF bs Hbs) as [Hb Hl].
  rewrite <- (to_int64_bytes (a_type a) bs Ht Hb Hl) at 1. apply le_val_le_bytes.
Qed.
Lemma nodup_raws a bss : Forall (field_bytes a) bss -> NoDup (vals a bss) -> NoDup (rawsof bss).
Proof.
  intros HF. unfold rawsof, vals. induction HF as [|bs bss [Hb Hl] HF IH]; cbn [map]; intros H; [constructor|]. inversion H as [|? ? Hn Hd]; subst. constructor; [|auto].
  intros Hin. apply Hn. apply in_map_iff in Hin. destruct Hin as (bs' & E & Hin). rewrite Forall_forall in HF. destruct (HF bs' Hin) as [Hb' Hl'].
  apply in_map_iff. exists bs'. split; [|exact Hin]. unfold to_int64, zlen. rewrite E, Hl, Hl'. reflexivity.
Qed.
Definition mode_size (a : afield) (bss : list (list Z)) (m : amode) : Z :=
  match m with DeltaVarint => encodedDeltaVarintSectionSize (vals a bss)
  | Palette => encodedPaletteSectionSize (firsts [] (rawsof bss)) (a_size a) (zlen (rawsof bss))
  | Rle => encodedRleSectionSize (rawsof bss) (a_size a) | DeltaRle => encodedDeltaRleSectionSize (vals a bss) end.
Lemma best_le a bss mo m : best_mode a bss mo -> mode_size a bss mo <= mode_size a bss m.
Proof.
  intros ->. match goal with |- context [selectBestAdaptiveIntMode ?d ?p ?r ?q] => pose proof (select_best d p r q m) as HH end. cbn zeta in HH.
  unfold mode_size. destruct (selectBestAdaptiveIntMode _ _ _ _), m; exact (proj1 HH).
Qed.
Lemma int_size a : is_int_type (a_type a) -> (2 <= a_size a <= 8)%nat.
Proof. unfold a_size. destruct (a_type a); intros H; try contradiction; cbn; lia. Qed.
(** The mode chosen for a progression suits every later piece of it. *)
Lemma prog_mode a pre bss mo b0 b1 d k0 k : is_int_type (a_type a) -> Forall (field_bytes a) pre -> Forall (field_bytes a) bss ->
  vals a pre = prog b0 d k0 -> vals a bss = prog b1 d k -> (0 < k)%nat -> Z.of_nat k <= 65535 -> (32 <= k0)%nat -> Z.of_nat k0 <= 65535 ->
  best_mode a pre mo -> mode_size a bss mo <= 31.
Proof.
  intros Ht F0 F1 V0 V1 Hk Hk1 Hk0 Hk01 HB. pose proof (int_size a Ht) as Hsz.
  pose proof (best_le a pre mo DeltaRle HB) as HL. cbn [mode_size] in HL. rewrite V0 in HL. pose proof (prog_drle b0 d k0 ltac:(lia) Hk01) as HD.
  assert (Lp : zlen (prog b0 d k0) = Z.of_nat k0) by (unfold zlen; now rewrite prog_length).
  assert (Lr0 : zlen (rawsof pre) = Z.of_nat k0) by (rewrite <- Lp, <- V0; unfold zlen, rawsof, vals; now rewrite !map_length).
  assert (Lr : zlen (rawsof bss) = Z.of_nat k) by (rewrite <- (prog_length b1 d k), <- V1; unfold zlen, rawsof, vals; now rewrite !map_length).
  assert (N1 : rawsof pre <> []) by (intros E; rewrite E in Lr0; unfold zlen in Lr0; cbn in Lr0; lia).
  destruct (Z.eq_dec d 0) as [->|Hd].
  - destruct mo; cbn [mode_size] in *.
    + rewrite V0 in HL. pose proof (delta_ge (prog b0 0 k0)). lia.
    + rewrite firsts_distinct, (raws_of_vals a bss Ht F1), V1, prog_const, map_repeat.
      destruct k as [|k]; [lia|]. rewrite distinct_repeat. unfold encodedPaletteSectionSize. change (bitsForPaletteIndex (zlen [b1 mod 256 ^ Z.of_nat (a_size a)])) with 0.
      rewrite Z.mul_0_l. change ((0 + 7) / 8) with 0. unfold zlen. cbn [length]. lia.
    + pose proof (rle_le (rawsof bss) (a_size a) ltac:(lia)) as H. rewrite (raws_of_vals a bss Ht F1), V1, prog_const, map_repeat, changes_repeat in H.
      rewrite (raws_of_vals a bss Ht F1), V1, prog_const, map_repeat. lia.
    + rewrite V1. now apply prog_drle.
  - assert (ND : NoDup (rawsof pre)) by (apply (nodup_raws a pre F0); rewrite V0; now apply prog_nodup).
    destruct mo; cbn [mode_size] in *.
    + rewrite V0 in HL. pose proof (delta_ge (prog b0 d k0)). lia.
    + rewrite firsts_distinct, distinct_nodup in HL by exact ND.
      assert (0 <= bitsForPaletteIndex (zlen (rawsof pre))) by (apply bitsForPaletteIndex_spec; change (2 ^ 64) with 18446744073709551616; lia).
      pose proof (pal_ge (rawsof pre) (a_size a) (zlen (rawsof pre)) ltac:(lia) ltac:(nia)). lia.
    + pose proof (rle_ge (rawsof pre) (a_size a) ltac:(lia)) as H. rewrite changes_nodup in H by assumption. lia.
    + rewrite V1. now apply prog_drle.
Qed.

(** *** Maps *)
Lemma changes_map g l : changes (map g l) <= changes l.
Proof.
  induction l as [|x [|y l] IH]; [cbn; lia|cbn; lia|]. change (map g (x :: y :: l)) with (g x :: g y :: map g l).
  change (changes (g x :: g y :: map g l)) with ((if g x =? g y then 0 else 1) + changes (map g (y :: l))).
  change (changes (x :: y :: l)) with ((if x =? y then 0 else 1) + changes (y :: l)).
  destruct (Z.eqb_spec x y) as [->|E]; [rewrite Z.eqb_refl; lia|]. destruct (g x =? g y); lia.
Qed.
Lemma distinct_in l x : In x (distinct_in_order l) -> In x l.
Proof. revert x. induction l as [|v l IH]; intros x; cbn [distinct_in_order]; [tauto|]. intros [H|H]; [now left|]. apply filter_In in H. right. apply IH, H. Qed.
Lemma filter_map_inj (g : Z -> Z) v l : (forall x, In x l -> g x = g v -> x = v) -> filter (fun x => negb (x =? g v)) (map g l) = map g (filter (fun x => negb (x =? v)) l).
Proof.
  induction l as [|x l IH]; intros H; [reflexivity|]. cbn [map filter]. rewrite IH by (intros y Hy; apply H; now right).
  destruct (Z.eqb_spec (g x) (g v)) as [E|E].
  - rewrite (H x (or_introl eq_refl) E), Z.eqb_refl. reflexivity.
  - destruct (Z.eqb_spec x v) as [->|E2]; [congruence|reflexivity].
Qed.
Lemma distinct_map g l : (forall x y, In x l -> In y l -> g x = g y -> x = y) -> distinct_in_order (map g l) = map g (distinct_in_order l).
Proof.
  induction l as [|v l IH]; intros H; [reflexivity|]. cbn [map distinct_in_order]. rewrite IH by (intros x y Hx Hy; apply H; now right). f_equal.
  apply filter_map_inj. intros x Hx. apply H; [right; now apply distinct_in|now left].
Qed.
Lemma diffs_differences l : forall x, diffs x l = map s64 (differences (x :: l)).
Proof.
  induction l as [|y l IH]; intros x; [reflexivity|]. cbn [diffs]. rewrite IH. reflexivity.
Qed.
Lemma vals_inj a bss x y : is_int_type (a_type a) -> Forall (field_bytes a) bss -> In x (vals a bss) -> In y (vals a bss) ->
  x mod 256 ^ Z.of_nat (a_size a) = y mod 256 ^ Z.of_nat (a_size a) -> x = y.
Proof.
  intros Ht HF Hx Hy E. rewrite Forall_forall in HF. unfold vals in *. apply in_map_iff in Hx, Hy. destruct Hx as (b & <- & Hb), Hy as (b' & <- & Hb').
  destruct (HF b Hb) as [B1 L1], (HF b' Hb') as [B2 L2]. 
  assert (Q : le_val b = le_val b').
  { rewrite <- (to_int64_bytes (a_type a) b Ht B1 L1), <- (to_int64_bytes (a_type a) b' Ht B2 L2), !le_val_le_bytes. exact E. }
  unfold to_int64, zlen. rewrite Q, L1, L2. reflexivity.
Qed.

(** *** What each mode costs, from the integers *)
Definition mode_cost (sz : nat) (vs : list Z) (m : amode) : Z :=
  match m with
  | DeltaVarint => 1 + 10 * zlen vs
  | Palette => let D := zlen (distinct_in_order vs) in 3 + D * Z.of_nat sz + (Z.log2_up D * zlen vs + 7) / 8
  | Rle => 5 + (Z.of_nat sz + 3) * (1 + changes vs)
  | DeltaRle => 5 + 13 * (2 + changes (differences vs))
  end.
Lemma mode_size_le a bss m : is_int_type (a_type a) -> Forall (field_bytes a) bss -> 0 < zlen bss <= 65535 -> mode_size a bss m <= mode_cost (a_size a) (vals a bss) m.
Proof.
  intros Ht HF Hn. assert (Lr : zlen (rawsof bss) = zlen bss) by (unfold zlen, rawsof; now rewrite map_length).
  assert (Lv : zlen (vals a bss) = zlen bss) by (unfold zlen, vals; now rewrite map_length).
  destruct m; cbn [mode_size mode_cost].
  - unfold encodedDeltaVarintSectionSize. pose proof (sumz_le encodedVarint64Size 10 (diffs 0 (vals a bss)) ltac:(intros; apply v10)) as H. unfold zlen in *. rewrite diffs_length in H. lia.
  - rewrite firsts_distinct, (raws_of_vals a bss Ht HF), distinct_map by (intros x y Hx Hy; now apply (vals_inj a bss)).
    unfold encodedPaletteSectionSize. unfold zlen at 1 2 3. rewrite !map_length. fold (zlen (distinct_in_order (vals a bss))). fold (zlen (vals a bss)).
    rewrite bits_log; [lia|]. pose proof (firsts_pos bss ltac:(lia)) as Hp. rewrite firsts_distinct, (raws_of_vals a bss Ht HF), distinct_map in Hp by (intros x y Hx Hy; now apply (vals_inj a bss)).
    unfold zlen at 1 2 in Hp. rewrite map_length in Hp. fold (zlen (distinct_in_order (vals a bss))) in Hp. change (2 ^ 64) with 18446744073709551616. lia.
  - pose proof (rle_le (rawsof bss) (a_size a) ltac:(lia)) as H. rewrite (raws_of_vals a bss Ht HF) in *.
    pose proof (changes_map (fun v => v mod 256 ^ Z.of_nat (a_size a)) (vals a bss)). nia.
  - pose proof (drle_le (vals a bss) ltac:(lia)) as H. destruct (vals a bss) as [|v vs]; [unfold zlen in Lv; cbn in Lv; unfold zlen in Hn; lia|].
    cbn [diffs] in H. rewrite diffs_differences in H.
    assert (C : changes (s64 (v - 0) :: map s64 (differences (v :: vs))) <= 1 + changes (map s64 (differences (v :: vs)))).
    { destruct (map s64 (differences (v :: vs))) as [|y l]; [cbn; lia|]. change (changes (s64 (v - 0) :: y :: l)) with ((if s64 (v - 0) =? y then 0 else 1) + changes (y :: l)). destruct (_ =? _); lia. }
    pose proof (changes_map s64 (differences (v :: vs))). lia.
Qed.
Lemma small_steps a bss : vals a bss <> [] -> Forall (fun d => -63 <= d <= 63) (differences (vals a bss)) -> mode_size a bss DeltaVarint <= 10 + zlen (vals a bss).
Proof.
  intros H0 HF. cbn [mode_size]. apply delta_le; [exact H0|]. destruct (vals a bss) as [|v vs]; [congruence|]. cbn [diffs tl]. rewrite diffs_differences.
  apply Forall_map. eapply Forall_impl; [|exact HF]. cbn beta. intros d Hd. rewrite s64_id; lia.
Qed.
