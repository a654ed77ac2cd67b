(** Field encoders and decoders: each decoder inverts its encoder. *)
From Verif Require Export GorillaFacts Spec.

(** The parts of a point an encoder covers. *)
Definition pieces (e : fenc) : list (Z * nat * lossk) :=
  match e with
  | ECopy off sz => [(off, sz, KId)]
  | EInt off t => [(off, SizeOf t, KId)]
  | ELossy32 off r => [(off, 4%nat, K32 r)]
  | ELossy64 off r => [(off, 8%nat, K64 r)]
  | EXor off sz => [(off, sz, KId)]
  | EGorilla off => [(off, 8%nat, KId)]
  | EFloatN lanes => map (fun l => (fst l, 4%nat, KN (snd l))) lanes
  end.

Definition is_int_type (t : ftype) : Prop :=
  match t with INT16 | UINT16 | INT32 | UINT32 | INT64 | UINT64 => True | _ => False end.

(** Encoder [e] and decoder [d] are a pair; [offs]: where the decoder stores each piece. *)
Inductive pair_ed : fenc -> fdec -> list Z -> Prop :=
| P_copy off sz o : pair_ed (ECopy off sz) (DCopy o sz) [o]
| P_int off t o : is_int_type t -> pair_ed (EInt off t) (DInt o (SizeOf t)) [o]
| P_l32 off r o : pair_ed (ELossy32 off r) (DLossy32 o r) [o]
| P_l64 off r o : pair_ed (ELossy64 off r) (DLossy64 o r) [o]
| P_xor off sz o : (sz <= 8)%nat -> pair_ed (EXor off sz) (DXor o sz) [o]
| P_gor off o : pair_ed (EGorilla off) (DGorilla o) [o]
| P_N lanes lanes' : map snd lanes = map snd lanes' -> (1 <= length lanes <= 4)%nat ->
    pair_ed (EFloatN lanes) (DFloatN lanes') (map fst lanes').

Definition piece_bytes (ops : float_ops) (view : list Z) (p : Z * nat * lossk) : list Z :=
  let '(off, sz, k) := p in recon ops k (sub off sz view).
Fixpoint stores_of (offs : list Z) (bss : list (list Z)) : list (Z * list Z) :=
  match offs, bss with
  | o :: offs', bs :: bss' => store o bs ++ stores_of offs' bss'
  | _, _ => []
  end.

Definition st_inv (e : fenc) (st : fstate) : Prop :=
  match e with
  | ECopy _ _ => True
  | EInt _ _ | ELossy32 _ _ | ELossy64 _ _ => -9223372036854775808 <= s_prev st < 9223372036854775808
  | EXor _ sz => 0 <= s_prev st < 256 ^ Z.of_nat sz
  | EGorilla _ => gor_inv st
  | EFloatN _ => length (s_vec st) = 4%nat /\ Forall (fun p => -2147483648 <= p < 2147483648) (s_vec st)
  end.
Lemma st_inv_reset e : st_inv e reset_state.
Proof.
  destruct e; cbn [st_inv reset_state s_prev s_vec]; auto; try lia.
  - apply gor_inv_reset.
  - split; [reflexivity|]. repeat constructor; lia.
Qed.

(** The delta written at this step is not the one value the varint cannot carry. *)
Definition delta_ok (ops : float_ops) (e : fenc) (st : fstate) (view : list Z) : Prop :=
  match e with
  | EInt off t => s64 (to_int64 t (sub off (SizeOf t) view) - s_prev st) <> INT64_MIN
  | ELossy32 off r => isnan32 (le_val (sub off 4 view)) = false ->
      s64 (s64 (q32 ops r (le_val (sub off 4 view))) - s_prev st) <> INT64_MIN
  | ELossy64 off r => isnan64 (le_val (sub off 8 view)) = false ->
      s64 (s64 (q64 ops r (le_val (sub off 8 view))) - s_prev st) <> INT64_MIN
  | _ => True
  end.

Lemma sub_bytes off sz view : bytes view -> bytes (sub off sz view).
Proof. intros. unfold sub. auto using bytes_firstn, bytes_skipn. Qed.
Lemma sub_length off sz view : 0 <= off -> off + Z.of_nat sz <= zlen view -> length (sub off sz view) = sz.
Proof. intros. unfold sub, zlen in *. rewrite firstn_length, skipn_length. lia. Qed.
Lemma rd_sub off sz view bs : rd off sz view = Ok bs ->
  bs = sub off sz view /\ length bs = sz /\ 0 <= off /\ off + Z.of_nat sz <= zlen view.
Proof. intros H. apply rd_inv in H. unfold sub. tauto. Qed.
Lemma rd_sub_ok off sz view : 0 <= off -> off + Z.of_nat sz <= zlen view -> rd off sz view = Ok (sub off sz view).
Proof. apply rd_ok. Qed.

Lemma s64_delta a b : -9223372036854775808 <= a < 9223372036854775808 ->
  s64 (b + s64 (a - b)) = a.
Proof. intros. unfold s64. lia. Qed.
Lemma s32_delta a b : -2147483648 <= a < 2147483648 -> s32 (s32 (s32 (a - b)) + b) = a.
Proof. intros. unfold s32. lia. Qed.

Lemma skipn_app_len {A} n (l1 l2 : list A) : length l1 = n -> skipn n (l1 ++ l2) = l2.
Proof. intros <-. rewrite skipn_app, skipn_all, Nat.sub_diag. reflexivity. Qed.
Lemma firstn_app_len {A} n (l1 l2 : list A) : length l1 = n -> firstn n (l1 ++ l2) = l1.
Proof. intros <-. rewrite firstn_app, firstn_all, Nat.sub_diag. apply app_nil_r. Qed.

Lemma le_bytes_of_len n bs : length bs = n -> bytes bs -> le_bytes n (le_val bs) = bs.
Proof. intros <-. apply le_bytes_le_val. Qed.

Lemma to_int64_range t bs : -9223372036854775808 <= to_int64 t bs < 9223372036854775808.
Proof. unfold to_int64. apply s64_range. Qed.

Lemma to_int64_bytes t bs : is_int_type t -> bytes bs -> length bs = SizeOf t ->
  le_bytes (SizeOf t) (to_int64 t bs) = bs.
Proof.
  intros Ht Hb Hl.
  assert (E : to_int64 t bs mod 256 ^ Z.of_nat (SizeOf t) = le_val bs mod 256 ^ Z.of_nat (SizeOf t)).
  { pose proof (le_val_range bs Hb) as Hr. unfold zlen in Hr. unfold to_int64, s64, zlen. rewrite Hl in *.
    destruct t; try (exfalso; exact Ht); cbn [SizeOf int_signed andb] in *;
    change (256 ^ Z.of_nat 2) with 65536 in *; change (256 ^ Z.of_nat 4) with 4294967296 in *;
    change (256 ^ Z.of_nat 8) with 18446744073709551616 in *; 
    repeat match goal with |- context [if ?c then _ else _] => destruct c eqn:?E end; lia. }
  apply le_bytes_ext in E. rewrite E. rewrite <- Hl. apply le_bytes_le_val. exact Hb.
Qed.

(** A delta varint in front of the stream: non-zero first byte, decodes to itself. *)
Lemma varint_front v rest : -9223372036854775808 < v < 9223372036854775808 ->
  exists b l, encodeVarint64 v ++ rest = b :: l /\ (b =? 0) = false.
Proof.
  intros Hv. destruct (encodeVarint64_hd v Hv) as (b & l & -> & Hb). exists b, (l ++ rest). cbn. split; [reflexivity|]. lia.
Qed.

Lemma floatn_roundtrip ops view : bytes view ->
  forall lanes lanes' prev prev' bs rest,
  map snd lanes = map snd lanes' ->
  Forall (fun p => -2147483648 <= p < 2147483648) prev ->
  floatn_encode ops lanes prev view = Ok (prev', bs) ->
  floatn_decode ops lanes' prev (bs ++ rest) =
    Ok (prev', rest, stores_of (map fst lanes') (map (piece_bytes ops view) (map (fun l => (fst l, 4%nat, KN (snd l))) lanes))) /\
  Forall (fun p => -2147483648 <= p < 2147483648) prev' /\ length prev' = length lanes /\ bytes bs /\
  (length lanes <= length bs <= 5 * length lanes)%nat.
Proof.
  intros Hv. induction lanes as [|[off r] lanes IH]; intros [|[o' r'] lanes'] prev prev' bs rest Hs Hp HE;
    cbn [map] in Hs; try discriminate.
  - cbn in HE. injection HE as <- <-. cbn. repeat split; constructor.
  - cbn [snd] in Hs. injection Hs as -> Hs. cbn [floatn_encode] in HE.
    destruct prev as [|p prev]; [discriminate|].
    apply bind_ok in HE. destruct HE as (xb & Hrd & HE).
    apply rd_sub in Hrd. destruct Hrd as (Exb & Hlx & Ho1 & Ho2). 
    inversion Hp as [|? ? Hp1 Hp2]; subst.
    unfold lane_encode in HE.
    destruct (isnan32 (le_val (sub off 4 view))) eqn:En.
    + apply bind_ok in HE. destruct HE as ((ps & outs) & HE1 & HE). injection HE as <- <-.
      destruct (IH lanes' prev ps outs rest Hs Hp2 HE1) as (HD & Hps & Hpl & Hbs & Hln).
      cbn [app floatn_decode]. change (0 =? 0) with true. cbn [bind]. rewrite HD. cbn [bind].
      split; [|repeat split].
      * cbn [map stores_of fst snd piece_bytes recon]. rewrite En. reflexivity.
      * constructor; [lia|exact Hps].
      * cbn. lia.
      * constructor; [unfold is_byte; lia|exact Hbs].
      * cbn [length]. lia.
      * cbn [length]. lia.
    + apply bind_ok in HE. destruct HE as ((ps & outs) & HE1 & HE). injection HE as <- <-.
      destruct (IH lanes' prev ps outs rest Hs Hp2 HE1) as (HD & Hps & Hpl & Hbs & Hln).
      set (v := s32 (qN ops r' (le_val (sub off 4 view)))) in *.
      pose proof (s32_range (qN ops r' (le_val (sub off 4 view)))) as Hvr. fold v in Hvr.
      pose proof (s32_range (v - p)) as Hdr.
      rewrite <- app_assoc. cbn [floatn_decode].
      pose proof (decodeVarint_encode (s32 (v - p)) (outs ++ rest) ltac:(lia)) as HDv.
      destruct (varint_front (s32 (v - p)) (outs ++ rest) ltac:(lia)) as (b & l & El & Eb).
      rewrite El. rewrite Eb. rewrite <- El. rewrite HDv. cbn [bind].
      rewrite skipn_app_len by reflexivity. rewrite HD. cbn [bind].
      rewrite s32_delta by lia.
      pose proof (encodeVarint64_length32 (s32 (v - p)) Hdr).
      split; [|repeat split].
      * cbn [map stores_of fst snd piece_bytes recon]. rewrite En. reflexivity.
      * constructor; [lia|exact Hps].
      * cbn. lia.
      * apply bytes_app. split; [apply encodeVarint64_bytes|exact Hbs].
      * rewrite app_length. cbn [length]. lia.
      * rewrite app_length. cbn [length]. lia.
Qed.

Definition enc_max (e : fenc) : nat :=
  match e with
  | ECopy _ sz => sz
  | EInt _ _ | ELossy32 _ _ | ELossy64 _ _ => 10
  | EXor _ sz => sz
  | EGorilla _ => 10
  | EFloatN lanes => 5 * length lanes
  end.

Lemma skipn_Forall {A} (P : A -> Prop) n l : Forall P l -> Forall P (skipn n l).
Proof. apply Forall_skipn. Qed.

(** The simulation: from equal states, the decoder consumes exactly what the encoder
    wrote, reaches the same state, and stores the reconstruction of every piece. *)
Lemma step_roundtrip ops e d offs st st' view bs rest :
  pair_ed e d offs -> st_inv e st -> delta_ok ops e st view -> bytes view -> bytes rest ->
  enc_step ops e st view = Ok (st', bs) ->
  dec_step ops d st (bs ++ rest) = Ok (st', rest, stores_of offs (map (piece_bytes ops view) (pieces e))) /\
  st_inv e st' /\ bytes bs /\ (min_input_bytes d <= length bs <= enc_max e)%nat.
Proof.
  intros HP HI HD Hv Hr HE.
  inversion HP; subst; cbn [enc_step dec_step pieces map stores_of piece_bytes recon st_inv enc_max min_input_bytes delta_ok] in *.
  - (* copy *)
    apply bind_ok in HE. destruct HE as (xb & Hrd & HE). apply rd_sub in Hrd. destruct Hrd as (-> & Hl & Ho).
    injection HE as <- <-. rewrite app_length.
    replace (length (sub off sz view) + length rest <? sz)%nat with false by (symmetry; apply Nat.ltb_ge; lia).
    rewrite skipn_app_len, firstn_app_len, app_nil_r by exact Hl.
    repeat split; auto using sub_bytes; lia.
  - (* int *)
    apply bind_ok in HE. destruct HE as (xb & Hrd & HE). apply rd_sub in Hrd. destruct Hrd as (-> & Hl & Ho).
    injection HE as <- <-.
    set (v := to_int64 t (sub off (SizeOf t) view)) in *.
    pose proof (to_int64_range t (sub off (SizeOf t) view)) as Hvr. fold v in Hvr.
    pose proof (s64_range (v - s_prev st)) as Hdr.
    assert (-9223372036854775808 < s64 (v - s_prev st)) by (unfold INT64_MIN in HD; lia).
    rewrite decodeVarint_encode by lia. cbn [bind].
    rewrite skipn_app_len by reflexivity. rewrite s64_delta by lia.
    pose proof (encodeVarint64_length (s64 (v - s_prev st))).
    repeat split; cbn [set_prev s_prev]; try lia.
    + rewrite app_nil_r. unfold v. rewrite to_int64_bytes; auto using sub_bytes.
    + apply encodeVarint64_bytes.
  - (* lossy float *)
    apply bind_ok in HE. destruct HE as (xb & Hrd & HE). apply rd_sub in Hrd. destruct Hrd as (-> & Hl & Ho).
    destruct (isnan32 (le_val (sub off 4 view))) eqn:En; cbv zeta in HE.
    + injection HE as <- <-. cbn [app]. change (0 =? 0) with true. cbv iota. rewrite app_nil_r.
      repeat split; cbn [set_prev s_prev length]; try lia. repeat constructor; lia.
    + injection HE as <- <-.
      set (v := s64 (q32 ops r (le_val (sub off 4 view)))) in *.
      pose proof (s64_range (q32 ops r (le_val (sub off 4 view)))) as Hvr. fold v in Hvr.
      pose proof (s64_range (v - s_prev st)) as Hdr. specialize (HD eq_refl).
      assert (-9223372036854775808 < s64 (v - s_prev st)) by (unfold INT64_MIN in HD; lia).
      destruct (varint_front (s64 (v - s_prev st)) rest ltac:(lia)) as (b & l & El & Eb).
      rewrite El, Eb. rewrite <- El.
      rewrite decodeVarint_encode by lia. cbn [bind].
      rewrite skipn_app_len by reflexivity. rewrite s64_delta by lia.
      pose proof (encodeVarint64_length (s64 (v - s_prev st))).
      rewrite app_nil_r.
      repeat split; cbn [set_prev s_prev]; try lia. apply encodeVarint64_bytes.
  - (* lossy double *)
    apply bind_ok in HE. destruct HE as (xb & Hrd & HE). apply rd_sub in Hrd. destruct Hrd as (-> & Hl & Ho).
    destruct (isnan64 (le_val (sub off 8 view))) eqn:En; cbv zeta in HE.
    + injection HE as <- <-. cbn [app]. change (0 =? 0) with true. cbv iota. rewrite app_nil_r.
      repeat split; cbn [set_prev s_prev length]; try lia. repeat constructor; lia.
    + injection HE as <- <-.
      set (v := s64 (q64 ops r (le_val (sub off 8 view)))) in *.
      pose proof (s64_range (q64 ops r (le_val (sub off 8 view)))) as Hvr. fold v in Hvr.
      pose proof (s64_range (v - s_prev st)) as Hdr. specialize (HD eq_refl).
      assert (-9223372036854775808 < s64 (v - s_prev st)) by (unfold INT64_MIN in HD; lia).
      destruct (varint_front (s64 (v - s_prev st)) rest ltac:(lia)) as (b & l & El & Eb).
      rewrite El, Eb. rewrite <- El.
      rewrite decodeVarint_encode by lia. cbn [bind].
      rewrite skipn_app_len by reflexivity. rewrite s64_delta by lia.
      pose proof (encodeVarint64_length (s64 (v - s_prev st))).
      rewrite app_nil_r.
      repeat split; cbn [set_prev s_prev]; try lia. apply encodeVarint64_bytes.
  - (* xor *)
    apply bind_ok in HE. destruct HE as (xb & Hrd & HE). apply rd_sub in Hrd. destruct Hrd as (-> & Hl & Ho).
    injection HE as <- <-.
    pose proof (le_val_range _ (sub_bytes off sz view Hv)) as Hcr. unfold zlen in Hcr. rewrite Hl in Hcr.
    rewrite app_length, le_bytes_length.
    replace (sz + length rest <? sz)%nat with false by (symmetry; apply Nat.ltb_ge; lia).
    rewrite skipn_app_len, firstn_app_len by apply le_bytes_length.
    assert (Hxr : 0 <= Z.lxor (le_val (sub off sz view)) (s_prev st) < 256 ^ Z.of_nat sz).
    { rewrite pow256_2 in * by lia. apply lxor_bound; lia. }
    rewrite le_val_le_bytes, Z.mod_small, lxor_cancel by exact Hxr.
    rewrite app_nil_r.
    rewrite (le_bytes_of_len sz _ Hl) by auto using sub_bytes.
    repeat split; cbn [set_prev s_prev]; try lia; try apply le_bytes_bytes.
  - (* gorilla *)
    apply bind_ok in HE. destruct HE as (xb & Hrd & HE). apply rd_sub in Hrd. destruct Hrd as (-> & Hl & Ho).
    pose proof (le_val_range _ (sub_bytes off 8 view Hv)) as Hcr. unfold zlen in Hcr. rewrite Hl in Hcr.
    change (256 ^ Z.of_nat 8) with (2 ^ 64) in Hcr.
    assert (HE2 : gor_encode st (le_val (sub off 8 view)) = (st', bs)) by congruence.
    destruct (gor_roundtrip st _ st' bs rest HI Hcr Hr HE2) as (HG & HI' & _ & Hb & Hlen).
    rewrite HG. cbn [bind]. rewrite app_nil_r.
    unfold zlen in Hlen.
    rewrite (le_bytes_of_len 8 _ Hl) by auto using sub_bytes.
    repeat split; try tauto; try lia; try apply HI'.
  - (* FloatN *)
    apply bind_ok in HE. destruct HE as (z & _ & HE). 
    apply bind_ok in HE. destruct HE as ((v & out) & HE1 & HE). injection HE as <- <-.
    destruct HI as [HI1 HI2].
    destruct (floatn_roundtrip ops view Hv lanes lanes' (s_vec st) v out rest H HI2 HE1) as (HDc & Hps & Hpl & Hbs & Hln).
    destruct (out ++ rest) as [|b l] eqn:El.
    { exfalso. apply (f_equal (@length Z)) in El. rewrite app_length in El. cbn in El. lia. }
    rewrite <- El in *. rewrite HDc. cbn [bind].
    assert (Hll : length lanes' = length lanes).
    { rewrite <- (map_length snd lanes), H, map_length. reflexivity. }
    repeat split; cbn [set_vec s_vec]; try lia; auto.
    + rewrite app_length, skipn_length. lia.
    + apply Forall_app. split; [exact Hps|]. apply skipn_Forall. exact HI2.
Qed.
