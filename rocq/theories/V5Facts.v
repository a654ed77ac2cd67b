(** V5 sections end to end: every mode decodes to the collected values, streaming and
    batch emission agree, sizes are bounded, the predicted sizes are the real ones. *)
From Verif Require Export PaletteFacts.

(** ** Emission *)
Definition items_bytes (items : list (bool * list Z)) : list Z := flat_map snd items.
Lemma emit_spec items : forall cap, zlen (items_bytes items) <= cap ->
  emit items cap = Ok (items_bytes items, cap - zlen (items_bytes items)).
Proof.
  induction items as [|[c bs] items IH]; intros cap H; cbn [emit].
  - cbn. unfold zlen. cbn. now rewrite Z.sub_0_r.
  - unfold items_bytes in *. cbn [flat_map snd] in *. rewrite zlen_app in *. pose proof (zlen_nonneg (flat_map snd items)).
    replace (cap <? zlen bs) with false by lia. rewrite IH by lia. cbn [bind]. do 2 f_equal. lia.
Qed.
Lemma emit_ok items : forall cap out cap', emit items cap = Ok (out, cap') -> out = items_bytes items.
Proof.
  induction items as [|[c bs] items IH]; intros cap out cap' H; cbn [emit] in H.
  - injection H as <- <-. reflexivity.
  - destruct (cap <? zlen bs); [destruct c; discriminate|]. apply bind_ok in H. destruct H as ((o & c') & H1 & H). injection H as <- <-.
    unfold items_bytes in *. cbn [flat_map snd]. f_equal. eauto.
Qed.
Lemma items_raw {A} (g : A -> list Z) l : items_bytes (map (fun x => raw (g x)) l) = flat_map g l.
Proof. unfold items_bytes. induction l; cbn; [reflexivity|]. now f_equal. Qed.
Lemma items_chk {A} (g : A -> list Z) l : items_bytes (map (fun x => chk (g x)) l) = flat_map g l.
Proof. unfold items_bytes. induction l; cbn; [reflexivity|]. now f_equal. Qed.
Lemma items_app a b : items_bytes (a ++ b) = items_bytes a ++ items_bytes b.
Proof. unfold items_bytes. apply flat_map_app. Qed.

(** ** The bytes of a section *)
Definition sec_delta (a : afield) (bss : list (list Z)) : list Z := 0 :: flat_map encodeVarint64 (diffs 0 (vals a bss)).
Definition sec_drle (a : afield) (bss : list (list Z)) : list Z :=
  let rs := runs (diffs 0 (vals a bss)) in 3 :: le_bytes 4 (zlen rs) ++ flat_map enc_drle_run rs.
Definition sec_rle (a : afield) (bss : list (list Z)) : list Z :=
  let rs := runs (rawsof bss) in 2 :: le_bytes 4 (zlen rs) ++ flat_map (enc_rle_run (a_size a)) rs.
Definition sec_pal (a : afield) (pal idx : list Z) : list Z :=
  1 :: le_bytes 2 (zlen pal) ++ flat_map (le_bytes (a_size a)) pal ++ packIndexes idx (bitsForPaletteIndex (zlen pal)).
Definition section_of (a : afield) (bss : list (list Z)) (m : amode) (bs : list Z) : Prop :=
  match m with
  | DeltaVarint => bs = sec_delta a bss
  | DeltaRle => bs = sec_drle a bss
  | Rle => bs = sec_rle a bss
  | Palette => exists idx, bs = sec_pal a (firsts [] (rawsof bss)) idx /\
      Forall2 (fun i v => 0 <= i < zlen (firsts [] (rawsof bss)) /\ nth_error (firsts [] (rawsof bss)) (Z.to_nat i) = Some v) idx (rawsof bss)
  end.

Lemma batch_delta values : items_bytes (deltaVarintSection values) = 0 :: flat_map encodeVarint64 (diffs 0 values).
Proof. unfold deltaVarintSection, items_bytes. cbn [flat_map snd chk app]. f_equal. apply (items_raw encodeVarint64). Qed.
Lemma items_two {A} (g h : A -> list Z) b1 b2 l :
  items_bytes (flat_map (fun r => [(b1, g r); (b2, h r)]) l) = flat_map (fun r => g r ++ h r) l.
Proof. unfold items_bytes. induction l; cbn; [reflexivity|]. now rewrite <- app_assoc, IHl. Qed.
Lemma batch_drle values : items_bytes (deltaRleSection values) =
  3 :: le_bytes 4 (zlen (runs (diffs 0 values))) ++ flat_map enc_drle_run (runs (diffs 0 values)).
Proof.
  unfold deltaRleSection. unfold items_bytes at 1. unfold flat_map at 1. cbn [snd chk app].
  f_equal. f_equal. apply (items_two (fun r => encodeVarint64 (fst r)) (fun r => uvarint (snd r))).
Qed.
Lemma batch_rle raws sz : items_bytes (rleSection raws sz) =
  2 :: le_bytes 4 (zlen (runs raws)) ++ flat_map (enc_rle_run sz) (runs raws).
Proof.
  unfold rleSection. unfold items_bytes at 1. unfold flat_map at 1. cbn [snd chk app].
  f_equal. f_equal. apply (items_two (fun r => le_bytes sz (fst r)) (fun r => uvarint (snd r))).
Qed.
Lemma batch_pal a pal idx : items_bytes (paletteSection pal idx (a_size a)) = sec_pal a pal idx.
Proof.
  unfold paletteSection, sec_pal. unfold items_bytes. cbn [flat_map snd chk app]. f_equal. f_equal.
  rewrite flat_map_app. cbn [flat_map snd]. rewrite app_nil_r. f_equal. apply (items_chk (le_bytes (a_size a))).
Qed.

(** ** Section decoding *)
Lemma vals_in64 a bss : Forall in64 (vals a bss).
Proof. unfold vals. apply Forall_map, Forall_forall. intros x _. apply to_int64_range. Qed.
Lemma vals_bytes a bss : is_int_type (a_type a) -> Forall (field_bytes a) bss -> map (le_bytes (a_size a)) (vals a bss) = bss.
Proof.
  intros Ht. induction 1 as [|bs bss [Hb Hl] _ IH]; [reflexivity|]. unfold vals in *. cbn [map]. rewrite IH. f_equal. now apply to_int64_bytes.
Qed.
Lemma raws_bytes a bss : Forall (field_bytes a) bss -> map (le_bytes (a_size a)) (rawsof bss) = bss.
Proof.
  induction 1 as [|bs bss [Hb Hl] _ IH]; [reflexivity|]. unfold rawsof in *. cbn [map]. rewrite IH. f_equal. now apply le_bytes_of_len.
Qed.
Lemma raws_range a bss : Forall (field_bytes a) bss -> Forall (fun v => 0 <= v < 256 ^ Z.of_nat (a_size a)) (rawsof bss).
Proof.
  unfold rawsof. intros H. apply Forall_map. eapply Forall_impl; [|exact H]. intros bs [Hb Hl]. cbn.
  pose proof (le_val_range bs Hb) as Hr. unfold zlen in Hr. now rewrite Hl in Hr.
Qed.
Lemma run_groups_fst (P : Z -> Prop) l : forall cur len, P cur -> Forall P l -> Forall (fun r => P (fst r)) (run_groups cur len l).
Proof.
  induction l as [|x l IH]; intros cur len Hc Hl; cbn [run_groups]; [constructor; auto|]. inversion Hl; subst.
  destruct (x =? cur); auto.
Qed.
Lemma runs_fst (P : Z -> Prop) l : Forall P l -> Forall (fun r => P (fst r)) (runs l).
Proof. intros H. destruct H; cbn [runs]; [constructor|]. now apply run_groups_fst. Qed.
Lemma Forall_and {A} (P Q : A -> Prop) l : Forall P l -> Forall Q l -> Forall (fun x => P x /\ Q x) l.
Proof. induction 1; intros H'; inversion H'; subst; constructor; auto. Qed.
Lemma firsts_Forall (P : Z -> Prop) l : forall seen, Forall P l -> Forall P (firsts seen l).
Proof. induction l; intros seen H; cbn; [constructor|]. inversion H; subst. destruct (in_dec _ _ _); auto. Qed.

Lemma le4 n rest : 0 <= n < 4294967296 -> take_uint 4 (le_bytes 4 n ++ rest) = Ok (n, rest).
Proof.
  intros H. unfold take_uint. rewrite app_length, le_bytes_length.
  replace (4 + length rest <? 4)%nat with false by (symmetry; apply Nat.ltb_ge; lia).
  rewrite firstn_app_len, skipn_app_len by apply le_bytes_length. rewrite le_val_le_bytes, Z.mod_small; auto.
Qed.
Lemma le2 n rest : 0 <= n < 65536 -> take_uint 2 (le_bytes 2 n ++ rest) = Ok (n, rest).
Proof.
  intros H. unfold take_uint. rewrite app_length, le_bytes_length.
  replace (2 + length rest <? 2)%nat with false by (symmetry; apply Nat.ltb_ge; lia).
  rewrite firstn_app_len, skipn_app_len by apply le_bytes_length. rewrite le_val_le_bytes, Z.mod_small; auto.
Qed.
Lemma Forall2_length {A B} (P : A -> B -> Prop) l l' : Forall2 P l l' -> length l = length l'.
Proof. induction 1; cbn; auto. Qed.
Lemma Forall2_nth_map pal idx raws : Forall2 (fun i v => 0 <= i < zlen pal /\ nth_error pal (Z.to_nat i) = Some v) idx raws ->
  map (fun k => nth (Z.to_nat k) pal 0) idx = raws /\ Forall (fun i => 0 <= i < zlen pal) idx.
Proof.
  induction 1 as [|i v idx raws [H1 H2] _ [IH1 IH2]]; [split; constructor|]. cbn. split; [|constructor; auto].
  rewrite IH1. f_equal. now apply nth_error_nth.
Qed.

Lemma section_decodes a base step n bss m bs rest mem :
  is_int_type (a_type a) -> Forall (field_bytes a) bss -> n = zlen bss -> 0 < n <= 65535 -> n <= zlen mem ->
  okdiffs (diffs 0 (vals a bss)) -> section_of a bss m bs -> bytes rest ->
  decode_section a base step n (bs ++ rest) mem =
    do m <- do_writes (sec_writes a base step 0 bss) mem ; Ok (rest, m).
Proof.
  intros Ht HF Hn Hn2 Hm Hd HS Hrest. pose proof (vals_bytes a bss Ht HF) as HV. pose proof (raws_bytes a bss HF) as HR.
  assert (Hlen : zlen (diffs 0 (vals a bss)) = n) by (unfold zlen, vals in *; rewrite diffs_length, map_length; auto).
  destruct m; cbn [section_of] in HS.
  - subst bs. unfold sec_delta. cbn [app decode_section]. rewrite dec_delta_spec; auto.
    + now rewrite sums_diffs, HV by apply vals_in64.
    + unfold zlen in Hlen. lia.
  - destruct HS as (idx & -> & HI). unfold sec_pal. set (pal := firsts [] (rawsof bss)) in *.
    assert (Hpl : 0 < zlen pal <= n).
    { pose proof (firsts_length (rawsof bss) []) as HL. fold pal in HL. unfold rawsof in HL. rewrite map_length in HL.
      split; [|unfold zlen in *; lia].
      destruct bss as [|b bss']; [unfold zlen in Hn; cbn in Hn; lia|]. unfold pal. cbn. unfold zlen. cbn. lia. }
    cbn [app decode_section]. rewrite <- !app_assoc, le2 by lia. cbn [bind].
    replace (zlen pal =? 0) with false by lia.
    replace (Z.to_nat (zlen pal)) with (length pal) by (unfold zlen; lia).
    rewrite dec_palette_spec by (apply firsts_Forall, raws_range; auto). cbn [bind].
    set (bits := bitsForPaletteIndex (zlen pal)).
    destruct (bitsForPaletteIndex_spec (zlen pal)) as (B0 & B1 & B2); [lia|]. fold bits in B0, B1, B2.
    assert (B16 : bits <= 16) by (apply B2; change (2 ^ 16) with 65536; lia).
    destruct (Forall2_nth_map _ _ _ HI) as (HN & HI2).
    assert (Hil : length idx = length bss). { apply Forall2_length in HI. unfold rawsof in HI. rewrite map_length in HI. exact HI. }
    assert (HI3 : Forall (fun i => 0 <= i < 2 ^ bits) idx) by (eapply Forall_impl; [|exact HI2]; cbn; lia).
    destruct (packIndexes_spec bits idx ltac:(lia) HI3) as (P1 & P2 & P3).
    assert (Hzi : zlen idx = n) by (unfold zlen in *; lia).
    assert (Hib : length (packIndexes idx bits) = Z.to_nat ((bits * n + 7) / 8)) by (rewrite <- Hzi; unfold zlen in P2 |- *; lia).
    replace (length (packIndexes idx bits ++ rest) <? Z.to_nat ((bits * n + 7) / 8))%nat with false
      by (symmetry; apply Nat.ltb_ge; rewrite app_length; lia).
    replace (Z.to_nat n) with (length idx) by (unfold zlen in Hzi; lia).
    rewrite (dec_indexes_spec a base step bits pal ltac:(lia) idx 0 0 0 _ mem
               (2 ^ (8 * zlen (packIndexes idx bits) - bits * n) * le_val rest)); auto; try lia.
    + rewrite skipn_app_len by exact Hib. rewrite <- map_map with (g := le_bytes (a_size a)) (f := fun k => nth (Z.to_nat k) pal 0), HN, HR. reflexivity.
    + eapply Forall_impl; [|exact (Forall_and _ _ _ HI3 HI2)]. cbn. lia.
    + apply bytes_app. auto.
    + rewrite zlen_app, P2, Hzi. pose proof (zlen_nonneg rest). lia.
    + rewrite le_val_app, P3, Hzi. change (2 ^ 0) with 1. rewrite Z.add_0_l, Z.mul_1_l.
      rewrite Z.mul_assoc, <- Z.pow_add_r by (rewrite ?P2, ?Hzi; lia). f_equal. f_equal.
      change 256 with (2 ^ 8). rewrite <- Z.pow_mul_r by (unfold zlen; lia). f_equal. lia.
  - subst bs. unfold sec_rle. cbn [app decode_section]. destruct (runs_spec (rawsof bss)) as (E1 & E2 & E3).
    set (rs := runs (rawsof bss)) in *.
    assert (Hz : zlen (rawsof bss) = n) by (unfold zlen, rawsof in *; rewrite map_length; auto).
    rewrite <- app_assoc, le4 by (unfold zlen in *; lia). cbn [bind].
    rewrite dec_rle_spec; auto; try lia.
    + now rewrite E1, HR.
    + apply Forall_and; [eapply Forall_impl; [|exact E2]; cbn; lia|]. apply (runs_fst (fun v => 0 <= v < _)). now apply raws_range.
    + rewrite E1. lia.
    + rewrite app_length. pose proof (flat_map_len_ge (enc_rle_run (a_size a)) rs) as HL.
      enough (length rs <= length (flat_map (enc_rle_run (a_size a)) rs))%nat by lia. apply HL.
      intros r Hr. unfold enc_rle_run. rewrite app_length. rewrite Forall_forall in E2. specialize (E2 r Hr).
      pose proof (uvarint_length (snd r) ltac:(lia)). lia.
  - subst bs. unfold sec_drle. cbn [app decode_section]. destruct (runs_spec (diffs 0 (vals a bss))) as (E1 & E2 & E3).
    set (rs := runs (diffs 0 (vals a bss))) in *.
    rewrite <- app_assoc, le4 by (unfold zlen in *; lia). cbn [bind].
    rewrite dec_delta_rle_spec; auto; try lia.
    + now rewrite E1, sums_diffs, HV by apply vals_in64.
    + apply Forall_and; [eapply Forall_impl; [|exact E2]; cbn; lia|]. apply (runs_fst (fun v => -9223372036854775808 < v < _)). exact Hd.
    + rewrite E1. lia.
    + rewrite app_length. pose proof (flat_map_len_ge enc_drle_run rs) as HL.
      enough (length rs <= length (flat_map enc_drle_run rs))%nat by lia. apply HL.
      intros r Hr. unfold enc_drle_run. rewrite app_length. pose proof (encodeVarint64_length (fst r)). lia.
Qed.

(** ** Sizes *)
Lemma zlen_flat_map {A} (g : A -> list Z) l : zlen (flat_map g l) = sumz (map (fun x => zlen (g x)) l).
Proof. induction l; cbn; [reflexivity|]. rewrite zlen_app, IHl. reflexivity. Qed.
Lemma zlen_cons {A} (x : A) l : zlen (x :: l) = 1 + zlen l.
Proof. unfold zlen. cbn [length]. lia. Qed.
Lemma zlen_le n v : zlen (le_bytes n v) = Z.of_nat n.
Proof. unfold zlen. now rewrite le_bytes_length. Qed.
Lemma sumz_ext {A} (f g : A -> Z) l : (forall x, In x l -> f x = g x) -> sumz (map f l) = sumz (map g l).
Proof. intros H. f_equal. now apply map_ext_in. Qed.
Lemma sumz_le {A} (f : A -> Z) c l : (forall x, In x l -> f x <= c) -> sumz (map f l) <= c * zlen l.
Proof.
  unfold sumz, zlen. induction l as [|x l IH]; intros H; cbn [map fold_right length]; [lia|].
  specialize (IH (fun y Hy => H y (or_intror Hy))). specialize (H x (or_introl eq_refl)). lia.
Qed.
Lemma size_delta a bss : encodedDeltaVarintSectionSize (vals a bss) = zlen (sec_delta a bss).
Proof. unfold encodedDeltaVarintSectionSize, sec_delta. rewrite zlen_cons, zlen_flat_map. reflexivity. Qed.
Lemma size_drle a bss : zlen bss < 4294967296 -> encodedDeltaRleSectionSize (vals a bss) = zlen (sec_drle a bss).
Proof.
  intros Hn. unfold encodedDeltaRleSectionSize, sec_drle. rewrite zlen_cons, zlen_app, zlen_le, zlen_flat_map.
  destruct (runs_spec (diffs 0 (vals a bss))) as (_ & E2 & _). rewrite Forall_forall in E2.
  assert (L : zlen (diffs 0 (vals a bss)) = zlen bss) by (unfold zlen, vals; now rewrite diffs_length, map_length).
  change (Z.of_nat 4) with 4. rewrite (sumz_ext _ (fun x => zlen (enc_drle_run x))); [lia|].
  intros r Hr. specialize (E2 r Hr). unfold enc_drle_run, encodedVarint64Size. rewrite zlen_app, encodedUVarintSize_spec by lia. reflexivity.
Qed.
Lemma size_rle a bss : zlen bss < 4294967296 -> encodedRleSectionSize (rawsof bss) (a_size a) = zlen (sec_rle a bss).
Proof.
  intros Hn. unfold encodedRleSectionSize, sec_rle. rewrite zlen_cons, zlen_app, zlen_le, zlen_flat_map.
  destruct (runs_spec (rawsof bss)) as (_ & E2 & _). rewrite Forall_forall in E2.
  assert (L : zlen (rawsof bss) = zlen bss) by (unfold zlen, rawsof; now rewrite map_length).
  change (Z.of_nat 4) with 4. rewrite (sumz_ext _ (fun x => zlen (enc_rle_run (a_size a) x))); [lia|].
  intros r Hr. specialize (E2 r Hr). unfold enc_rle_run. rewrite zlen_app, zlen_le, encodedUVarintSize_spec by lia. reflexivity.
Qed.
Lemma firsts_pos bss : 0 < zlen bss -> 0 < zlen (firsts [] (rawsof bss)) <= zlen bss.
Proof.
  intros H. pose proof (firsts_length (rawsof bss) []) as HL. unfold rawsof in *. rewrite map_length in HL.
  split; [|unfold zlen in *; lia]. destruct bss as [|b bss']; [unfold zlen in H; cbn in H; lia|]. cbn. unfold zlen. cbn. lia.
Qed.
Lemma size_pal a bss idx : 0 < zlen bss < 4294967296 -> 
  Forall2 (fun i v => 0 <= i < zlen (firsts [] (rawsof bss)) /\ nth_error (firsts [] (rawsof bss)) (Z.to_nat i) = Some v) idx (rawsof bss) ->
  encodedPaletteSectionSize (firsts [] (rawsof bss)) (a_size a) (zlen (rawsof bss)) = zlen (sec_pal a (firsts [] (rawsof bss)) idx).
Proof.
  intros Hn HI. pose proof (firsts_pos bss ltac:(lia)) as Hp. set (pal := firsts [] (rawsof bss)) in *.
  unfold encodedPaletteSectionSize, sec_pal. rewrite zlen_cons, !zlen_app, zlen_le, zlen_flat_map.
  destruct (bitsForPaletteIndex_spec (zlen pal)) as (B0 & B1 & B2); [lia|].
  assert (B32 : bitsForPaletteIndex (zlen pal) <= 32) by (apply B2; change (2 ^ 32) with 4294967296; lia).
  destruct (Forall2_nth_map _ _ _ HI) as (_ & HI2).
  destruct (packIndexes_spec (bitsForPaletteIndex (zlen pal)) idx ltac:(lia)) as (_ & -> & _).
  { eapply Forall_impl; [|exact HI2]; cbn; lia. }
  assert (zlen idx = zlen (rawsof bss)) by (apply Forall2_length in HI; unfold zlen; lia).
  rewrite H. change (Z.of_nat 2) with 2.
  rewrite (sumz_ext _ (fun _ => Z.of_nat (a_size a))) by (intros; apply zlen_le).
  assert (G : forall l : list Z, sumz (map (fun _ => Z.of_nat (a_size a)) l) = zlen l * Z.of_nat (a_size a)).
  { induction l; [reflexivity|]. rewrite zlen_cons. cbn [map sumz fold_right]. unfold sumz in IHl. lia. }
  rewrite G. lia.
Qed.
Lemma a_size_le a : is_int_type (a_type a) -> (2 <= a_size a <= 8)%nat.
Proof. unfold a_size. destruct (a_type a); intros H; try (exfalso; exact H); cbn; lia. Qed.
(** 1 for a 64-bit column. *)
Definition wide1 (a : afield) : Z := if (a_size a =? 8)%nat then 1 else 0.
Definition wides (afs : list afield) : Z := zlen (filter (fun a => (a_size a =? 8)%nat) afs).
Lemma wides_cons a afs : wides (a :: afs) = wide1 a + wides afs.
Proof. unfold wides, wide1, zlen. cbn [filter]. destruct (_ =? _)%nat; cbn [length]; lia. Qed.
Lemma wide1_range a : 0 <= wide1 a <= 1.
Proof. unfold wide1. destruct (_ =? _)%nat; lia. Qed.
Lemma wides_range afs : 0 <= wides afs <= zlen afs.
Proof. induction afs as [|a l IH]; [unfold wides, zlen; cbn; lia|]. rewrite wides_cons, zlen_cons. pose proof (wide1_range a). lia. Qed.
Lemma narrow_diffs a bss : is_int_type (a_type a) -> a_size a <> 8%nat -> Forall (field_bytes a) bss ->
  Forall (fun d => -8589934592 <= d <= 8589934592) (diffs 0 (vals a bss)).
Proof.
  intros Ht Hs HF. assert (HV : Forall (fun v => -2147483648 <= v < 4294967296) (vals a bss)).
  { unfold vals. apply Forall_map. eapply Forall_impl; [|exact HF]. intros bs [Hb Hl]. cbv beta. pose proof (le_val_range bs Hb) as HR. unfold zlen in HR. rewrite Hl in HR.
    unfold to_int64, zlen in *. rewrite Hl. unfold a_size in *. destruct (a_type a); try (exfalso; exact Ht); cbn [SizeOf int_signed andb] in *; try (exfalso; apply Hs; reflexivity);
      try change (256 ^ Z.of_nat 2) with 65536 in *; try change (256 ^ Z.of_nat 4) with 4294967296 in *; rewrite ?andb_true_l;
      match goal with |- context [if ?c then _ else _] => destruct c eqn:Ec | _ => idtac end; rewrite s64_id; lia. }
  revert HV. assert (H0 : -2147483648 <= 0 < 4294967296) by lia. revert H0. generalize 0 as p. generalize (vals a bss) as vs.
  induction vs as [|v vs IH]; intros p Hp HV; cbn [diffs]; constructor.
  - pose proof (Forall_inv HV). cbv beta in *. rewrite s64_id by lia. lia.
  - apply IH; [exact (Forall_inv HV)|exact (Forall_inv_tail HV)].
Qed.
Lemma in_expand r rs : In r rs -> 1 <= snd r -> In (fst r) (expand rs).
Proof.
  induction rs as [|q rs IH]; intros Hi H1; [destruct Hi|]. cbn [expand flat_map]. apply in_or_app. destruct Hi as [-> |Hi]; [left|right; auto].
  replace (Z.to_nat (snd r)) with (S (Z.to_nat (snd r - 1))) by lia. left. reflexivity.
Qed.
Lemma narrow_varint v : -8589934592 <= v <= 8589934592 -> (length (encodeVarint64 v) <= 9)%nat.
Proof.
  intros Hv. unfold encodeVarint64. apply uvarint_length_le.
  - change (128 ^ Z.of_nat 9) with 9223372036854775808. rewrite zigzag1_spec by lia. unfold u64. destruct (0 <=? v) eqn:E; lia.
  - apply zigzag1_range.
Qed.
(** Never more than 10 bytes per point (11 in a 64-bit column) and 5 of header. *)
Lemma section_size a bss m bs : is_int_type (a_type a) -> 0 < zlen bss <= 65535 -> Forall (field_bytes a) bss ->
  section_of a bss m bs -> bytes bs /\ 1 <= zlen bs <= 5 + (10 + wide1 a) * zlen bss.
Proof.
  intros Ht Hn HF HS. pose proof (a_size_le a Ht) as Hsz. pose proof (wide1_range a) as Hw. assert (Hwn : 0 <= wide1 a * zlen bss) by nia.
  assert (Hnar : a_size a <> 8%nat -> Forall (fun d => -8589934592 <= d <= 8589934592) (diffs 0 (vals a bss))) by (intros; apply narrow_diffs; auto).
  assert (Hw4 : wide1 a = 0 -> (a_size a <= 4)%nat).
  { unfold wide1. destruct (a_size a =? 8)%nat eqn:E; [discriminate|]. intros _. apply Nat.eqb_neq in E. revert E. unfold a_size. destruct (a_type a); try (exfalso; exact Ht); cbn; lia. }
  assert (Lr : zlen (rawsof bss) = zlen bss) by (unfold zlen, rawsof; now rewrite map_length).
  assert (Ld : zlen (diffs 0 (vals a bss)) = zlen bss) by (unfold zlen, vals; now rewrite diffs_length, map_length).
  assert (HU : forall v, 1 <= v <= 65535 -> 1 <= zlen (uvarint v) <= 3).
  { intros v Hv. unfold zlen. pose proof (uvarint_length_le v 2). change (128 ^ Z.of_nat 3) with 2097152 in H. lia. }
  destruct m; cbn [section_of] in HS.
  - subst. unfold sec_delta. split.
    + constructor; [unfold is_byte; lia|]. apply Forall_flat_map, Forall_forall. intros; apply encodeVarint64_bytes.
    + rewrite zlen_cons, zlen_flat_map. pose proof (sumz_le (fun x => zlen (encodeVarint64 x)) 10 (diffs 0 (vals a bss))) as H.
      rewrite Ld in H. pose proof (zlen_nonneg (flat_map encodeVarint64 (diffs 0 (vals a bss)))) as H'. rewrite zlen_flat_map in H'.
      specialize (H ltac:(intros; unfold zlen; pose proof (encodeVarint64_length x); lia)). lia.
  - destruct HS as (idx & -> & HI). split.
    + unfold sec_pal. constructor; [unfold is_byte; lia|]. apply bytes_app. split; [apply le_bytes_bytes|]. apply bytes_app. split.
      * apply Forall_flat_map, Forall_forall. intros; apply le_bytes_bytes.
      * pose proof (firsts_pos bss ltac:(lia)) as Hp. destruct (Forall2_nth_map _ _ _ HI) as (_ & HI2).
        destruct (bitsForPaletteIndex_spec (zlen (firsts [] (rawsof bss)))) as (B0 & B1 & B2); [lia|].
        apply packIndexes_spec; [split; [lia|]; apply B2; change (2 ^ 32) with 4294967296; lia|].
        eapply Forall_impl; [|exact HI2]; cbn; lia.
    + pose proof (firsts_pos bss ltac:(lia)) as Hp. rewrite <- (size_pal a bss idx) by (auto; lia). unfold encodedPaletteSectionSize. rewrite Lr.
      destruct (bitsForPaletteIndex_spec (zlen (firsts [] (rawsof bss)))) as (B0 & B1 & B2); [lia|].
      assert (bitsForPaletteIndex (zlen (firsts [] (rawsof bss))) <= 16) by (apply B2; change (2 ^ 16) with 65536; lia).
      set (P := zlen (firsts [] (rawsof bss))) in *. set (b := bitsForPaletteIndex P) in *.
      assert (b * zlen bss <= 16 * zlen bss) by nia. assert (P * Z.of_nat (a_size a) <= 8 * zlen bss) by nia.
      assert (0 <= b * zlen bss) by nia. assert (0 <= P * Z.of_nat (a_size a)) by nia. lia.
  - subst. unfold sec_rle. destruct (runs_spec (rawsof bss)) as (_ & E2 & E3). rewrite Lr in E2. set (rs := runs (rawsof bss)) in *.
    rewrite Forall_forall in E2. split.
    + constructor; [unfold is_byte; lia|]. apply bytes_app. split; [apply le_bytes_bytes|].
      apply Forall_flat_map, Forall_forall. intros r Hr. apply bytes_app. split; [apply le_bytes_bytes|apply uvarint_bytes]. specialize (E2 r Hr). lia.
    + rewrite zlen_cons, zlen_app, zlen_le, zlen_flat_map. change (Z.of_nat 4) with 4.
      pose proof (sumz_le (fun x => zlen (enc_rle_run (a_size a) x)) (10 + wide1 a) rs) as H.
      pose proof (zlen_nonneg (flat_map (enc_rle_run (a_size a)) rs)) as H'. rewrite zlen_flat_map in H'.
      assert (zlen rs <= zlen bss) by (unfold zlen in *; lia).
      specialize (H ltac:(intros r Hr; unfold enc_rle_run; rewrite zlen_app, zlen_le; specialize (E2 r Hr); specialize (HU (snd r) ltac:(lia)); lia)).
      assert ((10 + wide1 a) * zlen rs <= (10 + wide1 a) * zlen bss) by (apply Z.mul_le_mono_nonneg_l; lia). lia.
  - subst. unfold sec_drle. destruct (runs_spec (diffs 0 (vals a bss))) as (E1 & E2 & E3). rewrite Ld in E2. set (rs := runs (diffs 0 (vals a bss))) in *.
    assert (HB : Forall (fun r => 1 <= snd r) rs) by (eapply Forall_impl; [|exact E2]; cbn; lia).
    pose proof (expand_len rs HB) as HX. rewrite E1, Ld in HX.
    rewrite Forall_forall in E2. split.
    + constructor; [unfold is_byte; lia|]. apply bytes_app. split; [apply le_bytes_bytes|].
      apply Forall_flat_map, Forall_forall. intros r Hr. apply bytes_app. split; [apply encodeVarint64_bytes|apply uvarint_bytes]. specialize (E2 r Hr). lia.
    + rewrite zlen_cons, zlen_app, zlen_le, zlen_flat_map. change (Z.of_nat 4) with 4.
      pose proof (zlen_nonneg (flat_map enc_drle_run rs)) as H'. rewrite zlen_flat_map in H'.
      assert (Hle : sumz (map (fun x => zlen (enc_drle_run x)) rs) <= sumz (map (fun r => (10 + wide1 a) * snd r) rs)).
      { assert (HV : Forall (fun r => zlen (encodeVarint64 (fst r)) <= 9 + wide1 a) rs).
        { rewrite Forall_forall. intros r Hr. unfold wide1. destruct (a_size a =? 8)%nat eqn:E8; [pose proof (encodeVarint64_length (fst r)); unfold zlen; lia|].
          apply Nat.eqb_neq in E8. specialize (Hnar E8). rewrite Forall_forall in Hnar. specialize (E2 r Hr).
          assert (HIn : In (fst r) (diffs 0 (vals a bss))) by (rewrite <- E1; apply in_expand; [exact Hr|lia]).
          pose proof (narrow_varint _ (Hnar _ HIn)). unfold zlen. lia. }
        clear - E2 HU Hn HV Hw. unfold sumz. induction rs as [|r rs IH]; cbn [map fold_right]; [lia|].
        specialize (IH (fun x Hx => E2 x (or_intror Hx)) (Forall_inv_tail HV)). pose proof (Forall_inv HV) as HV1. cbv beta in HV1. specialize (E2 r (or_introl eq_refl)).
        unfold enc_drle_run at 1. rewrite zlen_app. pose proof (encodeVarint64_length (fst r)).
        assert (HL : zlen (uvarint (snd r)) <= snd r).
        { destruct (Z_le_gt_dec (snd r) 127).
          - rewrite uvarint_eq by lia. replace (127 <? snd r) with false by lia. unfold zlen; cbn; lia.
          - specialize (HU (snd r) ltac:(lia)). lia. }
        assert ((10 + wide1 a) * snd r >= 10 + wide1 a + (snd r - 1)) by nia. lia. }
      assert (Hs : sumz (map (fun r => (10 + wide1 a) * snd r) rs) = (10 + wide1 a) * sumz (map snd rs)).
      { clear. unfold sumz. induction rs as [|r rs IH]; cbn [map fold_right]; lia. }
      lia.
Qed.
