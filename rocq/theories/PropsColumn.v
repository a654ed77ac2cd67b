(** Properties C11, C13-C16: integer columns of the V5 codec. *)
From Verif Require Import Base BaseFacts Varint VarintFacts Types Floats Fields Codec V5 Spec SeqSpec.
From Verif Require Import GorillaFacts FieldFacts WriteFacts CodecFacts BuildFacts RunFacts SectionFacts PaletteFacts V5Facts ChunkV5Facts Stage1Facts SeqFacts ColumnFacts PropsField.

Lemma int_type_is t : int_type t -> is_int_type t.
Proof. unfold int_type, is_int_type. intuition subst; exact I. Qed.
Lemma col_field_bytes a views : Forall (has_field (a_off a) (a_size a)) views -> Forall (field_bytes a) (col_bytes a views).
Proof. intros HF. unfold col_bytes. apply Forall_map. eapply Forall_impl; [|exact HF]. intros v (H1 & H2 & H3). split; [now apply sub_bytes|now apply sub_length]. Qed.
Lemma col_len a views : zlen (col_bytes a views) = zlen views.
Proof. unfold col_bytes, zlen. now rewrite map_length. Qed.

(** * C11 *)
(** Whatever mode was committed ([m0]) or is chosen ([None]), and whatever earlier columns
    left in the palette table, the section written for any 1..65535 points decodes to the
    same bytes at the field's place in every point, touches nothing else and consumes
    exactly its own bytes. *)
Theorem C11_section_roundtrip : forall a a' t m0 views base step mem rest cap, int_type (a_type a) -> a_type a' = a_type a ->
  table_after t -> Forall (has_field (a_off a) (a_size a)) views -> 0 < zlen views <= 65535 ->
  jumps_ok 0 (map (int_value (a_type a)) (col_bytes a views)) ->
  bytes rest -> 5 + 11 * zlen views <= cap ->
  0 <= base + a_off a' -> Z.of_nat (a_size a) <= step ->
  base + a_off a' + (zlen views - 1) * step + Z.of_nat (a_size a) <= zlen mem ->
  exists bs mem', field_section a t m0 views cap = Ok bs /\
    decode_section a' base step (zlen views) (bs ++ rest) mem = Ok (rest, mem') /\
    column_stored (a_off a') (a_size a) base step (col_bytes a views) mem mem'.
Proof.
  intros a a' t m0 views base step mem rest cap HI HT' HT HF Hn HJ HR Hcap H0 Hst Hr. apply int_type_is in HI.
  destruct (field_section_spec a t m0 views HI HT HF Hn) as (m & bs & HS & _ & _ & Hb & Hs & HA).
  pose proof (col_field_bytes a views HF) as HFb.
  assert (Hsz : a_size a' = a_size a) by (unfold a_size; now rewrite HT').
  assert (HFb' : Forall (field_bytes a') (col_bytes a views)) by (eapply Forall_impl; [|exact HFb]; unfold field_bytes; rewrite Hsz; auto).
  pose proof (col_len a views) as Hz. pose proof (a_size_le a HI) as Hsl.
  destruct (stored_column a' base step (col_bytes a views) mem) as (mem' & E & HC); rewrite ?Hsz, ?Hz; auto; [lia|].
  exists bs, mem'. split; [apply HA; lia|]. split; [|rewrite <- Hsz; exact HC].
  rewrite (section_decodes a' base step (zlen views) (col_bytes a views) m bs rest mem); auto.
  - rewrite E. reflexivity.
  - now rewrite HT'.
  - (* n <= zlen mem *) assert (zlen views - 1 <= (zlen views - 1) * step) by nia. lia.
  - apply okdiffs_jumps; [now rewrite HT'|exact HFb'|rewrite HT'; exact HJ].
  - apply (section_of_type a a'); [now rewrite HT'|exact HS].
Qed.
Print Assumptions C11_section_roundtrip.
Example C11_case : let a := mkA 1 UINT16 in let views := [[7;1;0]; [7;1;0]; [7;200;0]] in
  Forall (has_field (a_off a) (a_size a)) views /\ jumps_ok 0 (map (int_value (a_type a)) (col_bytes a views)) /\
  field_section a ptab_init None views 100 = Ok [0;3;1;143;3] /\
  field_section a ptab_init (Some Palette) views 100 = Ok [1;2;0;1;0;200;0;4] /\
  field_section a ptab_init (Some Rle) views 100 = Ok [2;2;0;0;0;1;0;2;200;0;1] /\
  field_section a ptab_init (Some DeltaRle) views 100 = Ok [3;3;0;0;0;3;1;1;1;143;3;1].
Proof. split; [repeat constructor; unfold is_byte, zlen; cbn; lia|]. split; [vm_compute; intuition discriminate|]. vm_compute. auto. Qed.

(** * C13 *)
(** The bytes streamed value by value into a committed section are those the batch
    encoder of that mode produces for the whole column. *)
Definition batch_items (a : afield) (m : amode) (views : list (list Z)) : list (bool * list Z) :=
  let values := map (to_int64 (a_type a)) (col_bytes a views) in
  let raws := map le_val (col_bytes a views) in
  match m with
  | DeltaVarint => deltaVarintSection values
  | DeltaRle => deltaRleSection values
  | _ => rleSection raws (a_size a)
  end.
Theorem C13_stream_eq_batch : forall a t m views cap, int_type (a_type a) -> table_after t -> m <> Palette ->
  Forall (has_field (a_off a) (a_size a)) views -> 0 < zlen views <= 65535 -> 5 + 11 * zlen views <= cap ->
  exists bs cap', field_section a t (Some m) views cap = Ok bs /\ emit (batch_items a m views) cap = Ok (bs, cap').
Proof.
  intros a t m views cap HI HT Hm HF Hn Hcap. apply int_type_is in HI.
  destruct (field_section_spec a t (Some m) views HI HT HF Hn) as (m' & bs & HS & _ & HM & Hb & Hs & HA).
  rewrite (HM m eq_refl) in HS. exists bs, (cap - zlen bs). split; [apply HA; lia|].
  assert (E : items_bytes (batch_items a m views) = bs).
  { unfold batch_items. destruct m; [|congruence| |]; cbn [section_of] in HS; rewrite ?batch_delta, ?batch_rle, ?batch_drle, HS; reflexivity. }
  rewrite emit_spec; rewrite E; [reflexivity|lia].
Qed.
Print Assumptions C13_stream_eq_batch.
Example C13_case : let a := mkA 0 INT32 in let views := [[1;0;0;0]; [3;0;0;0]; [5;0;0;0]; [5;0;0;0]] in
  Forall (has_field (a_off a) (a_size a)) views /\
  field_section a ptab_init (Some DeltaRle) views 100 = Ok [3;3;0;0;0;3;1;5;2;1;1] /\ emit (batch_items a DeltaRle views) 100 = Ok ([3;3;0;0;0;3;1;5;2;1;1], 89).
Proof. split; [repeat constructor; unfold is_byte, zlen; cbn; lia|]. vm_compute. auto. Qed.

(** * C14 *)
(** For every column and every table left by earlier columns the lookup terminates; the
    palette is the list of distinct values in order of first appearance, and each index
    points to the value it stands for. *)
Lemma Forall2_nth {A B} (P : A -> B -> Prop) l l' : Forall2 P l l' -> forall j b, nth_error l' j = Some b -> exists a, nth_error l j = Some a /\ P a b.
Proof. induction 1 as [|a b l l' H H2 IH]; intros [|j] c Hj; cbn in *; try discriminate; [injection Hj as <-; eauto|auto]. Qed.
Theorem C14_palette : forall t raws, table_after t -> zlen raws < 2147483648 ->
  exists t' idx, buildPaletteIndexes t raws = Ok (t', distinct_in_order raws, idx) /\ table_after t' /\
    NoDup (distinct_in_order raws) /\ length idx = length raws /\
    (forall j v, nth_error raws j = Some v -> exists i, nth_error idx j = Some i /\ 0 <= i < zlen (distinct_in_order raws) /\
       nth_error (distinct_in_order raws) (Z.to_nat i) = Some v).
Proof.
  intros t raws HT Hn. destruct (buildPalette_spec t raws (table_wf t HT) Hn) as (t' & idx & E & HW & HN & HI).
  rewrite (firsts_distinct raws) in *. exists t', idx. split; [exact E|]. split; [econstructor; eauto|]. split; [exact HN|].
  split; [apply (Forall2_length _ _ _ HI)|]. intros j v Hj. apply (Forall2_nth _ _ _ HI j v Hj).
Qed.
(** Equal values have equal indexes, distinct values distinct indexes, whatever the table. *)
Theorem C14_palette_indexes : forall t raws t' pal idx j k v w i1 i2, table_after t -> zlen raws < 2147483648 ->
  buildPaletteIndexes t raws = Ok (t', pal, idx) ->
  nth_error raws j = Some v -> nth_error raws k = Some w -> nth_error idx j = Some i1 -> nth_error idx k = Some i2 ->
  (v = w <-> i1 = i2).
Proof.
  intros t raws t' pal idx j k v w i1 i2 HT Hn E Hv Hw H1 H2. destruct (C14_palette t raws HT Hn) as (t2 & idx2 & E2 & _ & HN & HL & HI).
  rewrite E in E2. injection E2 as -> -> ->. destruct (HI j v Hv) as (a & Ha & Ra & Pa). destruct (HI k w Hw) as (b & Hb & Rb & Pb).
  assert (a = i1) by congruence. assert (b = i2) by congruence. subst. split.
  - intros ->. rewrite <- Pb in Pa. apply (proj1 (NoDup_nth_error _) HN) in Pa; [lia|unfold zlen in *; lia].
  - intros ->. congruence.
Qed.
Print Assumptions C14_palette.
Print Assumptions C14_palette_indexes.
Example C14_case : exists t', buildPaletteIndexes ptab_init [7;5;7;9;5] = Ok (t', [7;5;9], [0;1;0;2;1]) /\ distinct_in_order [7;5;7;9;5] = [7;5;9].
Proof. eexists. split; vm_compute; reflexivity. Qed.

(** * C15 *)
(** Packed indexes: length ceil(bits*n/8); exactly that many bytes are enough to read all
    of them back (an access behind them would be UB in the model). *)
Theorem C15_bitpack : forall idx bits, 0 <= bits <= 32 -> Forall (fun i => 0 <= i < 2 ^ bits) idx ->
  zlen (packIndexes idx bits) = (bits * zlen idx + 7) / 8 /\ bytes (packIndexes idx bits) /\
  unpack (length idx) bits 0 0 (packIndexes idx bits) = Ok idx.
Proof.
  intros idx bits Hb HF. destruct (packIndexes_spec bits idx Hb HF) as (H1 & H2 & H3). split; [exact H2|]. split; [exact H1|].
  apply (unpack_spec bits Hb idx 0 0 _ 0); auto; try lia.
Qed.
Print Assumptions C15_bitpack.
Example C15_case : packIndexes [5;0;7;1;6;2;3] 3 = [197;99;13] /\ unpack 7 3 0 0 [197;99;13] = Ok [5;0;7;1;6;2;3].
Proof. vm_compute. auto. Qed.
(** The number of bits is the least that can hold all palette indexes. *)
Theorem C15_palette_bits : forall n, 1 <= n < 2 ^ 64 -> n <= 2 ^ bitsForPaletteIndex n /\ (forall c, 0 <= c -> n <= 2 ^ c -> bitsForPaletteIndex n <= c).
Proof. intros n H. destruct (bitsForPaletteIndex_spec n H) as (_ & A & B). auto. Qed.
Print Assumptions C15_palette_bits.

(** * C16 *)
(** When the mode is chosen on the points [views], the section written is no larger than
    the section any other mode would have produced, and on equal size its mode byte is
    the smaller one (delta 0, palette 1, RLE 2, delta-RLE 3). *)
Theorem C16_mode_minimal : forall a t views cap, int_type (a_type a) -> table_after t ->
  Forall (has_field (a_off a) (a_size a)) views -> 0 < zlen views <= 65535 -> 5 + 11 * zlen views <= cap ->
  exists bs, field_section a t None views cap = Ok bs /\
  forall m, exists bs', field_section a t (Some m) views cap = Ok bs' /\ hd (-1) bs' = mode_code m /\
    zlen bs <= zlen bs' /\ (zlen bs = zlen bs' -> hd (-1) bs <= hd (-1) bs').
Proof.
  intros a t views cap HI HT HF Hn Hcap. apply int_type_is in HI. pose proof (col_len a views) as Hz.
  destruct (field_section_spec a t None views HI HT HF Hn) as (m1 & bs & HS & HB & _ & _ & Hs & HA). specialize (HB eq_refl).
  exists bs. split; [apply HA; lia|]. intros m.
  destruct (field_section_spec a t (Some m) views HI HT HF Hn) as (m2 & bs' & HS' & _ & HM & _ & Hs' & HA'). rewrite (HM m eq_refl) in HS'.
  exists bs'. split; [apply HA'; lia|]. rewrite (section_mode_byte _ _ _ _ HS), (section_mode_byte _ _ _ _ HS'). split; [reflexivity|].
  rewrite (section_len a _ m1 bs ltac:(rewrite Hz; lia) HS), (section_len a _ m bs' ltac:(rewrite Hz; lia) HS'). unfold best_mode in HB. subst m1.
  match goal with |- context [selectBestAdaptiveIntMode ?d ?p ?r ?q] => pose proof (select_best d p r q m) as HH end. cbn zeta in HH.
  destruct (selectBestAdaptiveIntMode _ _ _ _), m; exact HH.
Qed.
Print Assumptions C16_mode_minimal.
Example C16_case : let a := mkA 0 UINT16 in let views := [[1;0];[1;0];[1;0];[1;0];[1;0];[1;0];[1;0]] in
  Forall (has_field (a_off a) (a_size a)) views /\ field_section a ptab_init None views 100 = Ok [1;1;0;1;0].
Proof. split; [repeat constructor; unfold is_byte, zlen; cbn; lia|]. vm_compute. auto. Qed.
