(** Proofs about Varint.v. *)
From Verif Require Export BaseFacts Varint.

Local Opaque Z.shiftl Z.shiftr Z.lor Z.land Z.lxor.

(** ** zig-zag *)
Lemma zigzag1_spec v :
  -9223372036854775808 <= v < 9223372036854775808 ->
  zigzag1 v = u64 ((if 0 <=? v then 2 * v else - 2 * v - 1) + 1).
Proof.
  intros Hv. unfold zigzag1.
  rewrite (shiftr_div v 63), (shiftl_mul v 1) by lia.
  change (2 ^ 1) with 2. change (2 ^ 63) with 9223372036854775808.
  destruct (Z.leb_spec 0 v).
  - replace (v / 9223372036854775808) with 0 by lia. rewrite Z.lxor_0_r. unfold u64, s64. lia.
  - replace (v / 9223372036854775808) with (-1) by lia.
    rewrite Z.lxor_m1_r. unfold Z.lnot. unfold u64, s64. lia.
Qed.

Lemma zigzag1_range v : 0 <= zigzag1 v < 18446744073709551616.
Proof. unfold zigzag1. apply u64_range. Qed.

Lemma zigzag1_nonmin v :
  -9223372036854775808 < v < 9223372036854775808 -> 1 <= zigzag1 v < 18446744073709551616.
Proof. intros Hv. rewrite zigzag1_spec by lia. unfold u64. destruct (0 <=? v) eqn:E; lia. Qed.

Lemma zigzag1_min : zigzag1 INT64_MIN = 0.
Proof. vm_compute. reflexivity. Qed.

Lemma unzigzag1_spec u :
  1 <= u < 18446744073709551616 ->
  unzigzag1 u = Ok (if (u - 1) mod 2 =? 0 then (u - 1) / 2 else - ((u - 1) / 2) - 1).
Proof.
  intros Hu. unfold unzigzag1. destruct (Z.eqb_spec u 0); [lia|]. f_equal.
  rewrite land1, shiftr_div by lia. change (2 ^ 1) with 2.
  destruct (Z.eqb_spec ((u - 1) mod 2) 0) as [E|E].
  - rewrite E. change (u64 (- 0)) with 0. rewrite Z.lxor_0_r. unfold s64. lia.
  - replace ((u - 1) mod 2) with 1 by lia.
    change (u64 (- (1))) with (Z.ones 64).
    rewrite lxor_ones; [|lia|]; change (2 ^ 64) with 18446744073709551616; unfold s64; lia.
Qed.

Lemma unzigzag1_zigzag1 v :
  -9223372036854775808 < v < 9223372036854775808 -> unzigzag1 (zigzag1 v) = Ok v.
Proof.
  intros Hv. rewrite unzigzag1_spec by (apply zigzag1_nonmin; lia).
  rewrite zigzag1_spec by lia. f_equal. unfold u64.
  destruct (0 <=? v) eqn:E; destruct (_ =? 0) eqn:E2; lia.
Qed.

(** ** 7-bit groups *)
Lemma uvarint_loop_enough k1 k2 v :
  0 <= v < 128 ^ Z.of_nat k1 -> (0 < k1)%nat -> (k1 <= k2)%nat -> uvarint_loop k1 v = uvarint_loop k2 v.
Proof.
  revert k2 v; induction k1 as [|k1 IH]; intros k2 v Hv H0 H12; [lia|].
  destruct k2 as [|k2]; [lia|]. cbn [uvarint_loop].
  destruct (127 <? v) eqn:E; [|reflexivity].
  rewrite shiftr_div by lia. change (2 ^ 7) with 128. f_equal.
  rewrite Nat2Z.inj_succ, Z.pow_succ_r in Hv by lia.
  destruct k1 as [|k1].
  - change (128 ^ Z.of_nat 0) with 1 in Hv. lia.
  - apply IH; [|lia|lia].
    split; [lia|]. apply Z.div_lt_upper_bound; lia.
Qed.

Lemma uvarint_loop_S k v :
  uvarint_loop (S k) v =
    if 127 <? v then Z.lor (Z.land v 127) 128 :: uvarint_loop k (Z.shiftr v 7) else [v].
Proof. reflexivity. Qed.

(** The defining equation of the encoding loop, without fuel. *)
Lemma uvarint_eq v :
  0 <= v < 18446744073709551616 ->
  uvarint v = if 127 <? v then (v mod 128 + 128) :: uvarint (v / 128) else [v].
Proof.
  intros Hv. unfold uvarint at 1. rewrite uvarint_loop_S.
  destruct (127 <? v) eqn:E; [|reflexivity].
  rewrite land127, lor128, shiftr_div by lia. change (2 ^ 7) with 128. f_equal.
  apply uvarint_loop_enough; [|lia|lia].
  change (128 ^ Z.of_nat 9) with 9223372036854775808. lia.
Qed.

Lemma uvarint_ind (P : Z -> Prop) :
  (forall v, 0 <= v <= 127 -> P v) ->
  (forall v, 127 < v < 18446744073709551616 -> P (v / 128) -> P v) ->
  forall v, 0 <= v < 18446744073709551616 -> P v.
Proof.
  intros H0 HS v Hv.
  assert (G : forall n v, 0 <= v < 128 ^ Z.of_nat n -> v < 18446744073709551616 -> P v).
  { clear v Hv. induction n as [|n IH]; intros v Hv Hv2.
    - change (128 ^ Z.of_nat 0) with 1 in Hv. apply H0. lia.
    - destruct (Z.leb_spec v 127); [apply H0; lia|]. apply HS; [lia|]. apply IH; [|lia].
      rewrite Nat2Z.inj_succ, Z.pow_succ_r in Hv by lia.
      split; [lia|]. apply Z.div_lt_upper_bound; lia. }
  apply (G 10%nat); [|lia].
  change (128 ^ Z.of_nat 10) with 1180591620717411303424. lia.
Qed.

Lemma uvarint_bytes v : 0 <= v < 18446744073709551616 -> bytes (uvarint v).
Proof.
  revert v. apply (uvarint_ind (fun v => bytes (uvarint v))); intros v Hv; [|intros IH];
    rewrite uvarint_eq by lia; destruct (127 <? v) eqn:E; try lia.
  - repeat constructor; lia.
  - constructor; [unfold is_byte; lia|exact IH].
Qed.

(** Number of 7-bit groups. *)
Lemma uvarint_length_le v n :
  0 <= v < 128 ^ Z.of_nat (S n) -> v < 18446744073709551616 -> (1 <= length (uvarint v) <= S n)%nat.
Proof.
  revert v; induction n as [|n IH]; intros v Hv Hv2; rewrite uvarint_eq by lia.
  - change (128 ^ Z.of_nat 1) with 128 in Hv.
    destruct (127 <? v) eqn:E; [lia|simpl; lia].
  - destruct (127 <? v) eqn:E; [|simpl; lia]. cbn [length].
    rewrite Nat2Z.inj_succ, Z.pow_succ_r in Hv by lia.
    specialize (IH (v / 128)). lapply IH; [intros IH'; lapply IH'; lia|].
    split; [lia|]. apply Z.div_lt_upper_bound; lia.
Qed.
Lemma uvarint_length v : 0 <= v < 18446744073709551616 -> (1 <= length (uvarint v) <= 10)%nat.
Proof.
  intros Hv. apply uvarint_length_le; [|lia].
  change (128 ^ Z.of_nat 10) with 1180591620717411303424. lia.
Qed.

Lemma uvarint_zero v : 0 <= v < 18446744073709551616 -> hd 1 (uvarint v) = 0 -> v = 0.
Proof. intros Hv. rewrite uvarint_eq by lia. destruct (127 <? v) eqn:E; cbn [hd]; lia. Qed.

Lemma encodedUVarintSize_spec v :
  0 <= v < 18446744073709551616 -> encodedUVarintSize v = zlen (uvarint v).
Proof.
  intros Hv. unfold encodedUVarintSize.
  assert (G : forall k v n, (0 < k)%nat -> 0 <= v < 128 ^ Z.of_nat k -> v < 18446744073709551616 ->
             encodedUVarintSize_loop k v n = n - 1 + zlen (uvarint v)).
  { clear v Hv. induction k as [|k IH]; intros v n Hk Hv Hv2; [lia|].
    cbn [encodedUVarintSize_loop]. rewrite uvarint_eq by lia.
    destruct (127 <? v) eqn:E; [|unfold zlen; simpl length; lia].
    rewrite shiftr_div by lia. change (2 ^ 7) with 128.
    rewrite Nat2Z.inj_succ, Z.pow_succ_r in Hv by lia.
    destruct k as [|k]; [change (128 ^ Z.of_nat 0) with 1 in Hv; lia|].
    rewrite IH; [|lia| |lia].
    - unfold zlen. cbn [length]. lia.
    - split; [lia|]. apply Z.div_lt_upper_bound; lia. }
  rewrite G; [lia|lia| |lia].
  change (128 ^ Z.of_nat 10) with 1180591620717411303424. lia.
Qed.

(** ** readUVarint *)
Lemma lor_step value p s :
  0 <= s <= 63 -> 0 <= value < 2 ^ s -> 0 <= p < 128 -> value + p * 2 ^ s < 18446744073709551616 ->
  Z.lor value (u64 (Z.shiftl p s)) = value + p * 2 ^ s.
Proof.
  intros Hs Hv Hp Ht. rewrite shiftl_mul by lia. rewrite u64_id by nia.
  apply lor_disjoint_add; lia.
Qed.

Lemma readUVarint_loop_app v :
  0 <= v < 18446744073709551616 ->
  forall k rest s acc, 0 <= s -> 0 <= acc < 2 ^ s -> acc + v * 2 ^ s < 18446744073709551616 ->
  s < 64 -> (7 * Z.of_nat (length (uvarint v)) + s <= 70) ->
  (length (uvarint v) <= k)%nat ->
  readUVarint_loop k (uvarint v ++ rest) s acc = Ok (acc + v * 2 ^ s, rest).
Proof.
  revert v. apply (uvarint_ind (fun v => forall k rest s acc, 0 <= s -> 0 <= acc < 2 ^ s ->
     acc + v * 2 ^ s < 18446744073709551616 -> s < 64 -> (7 * Z.of_nat (length (uvarint v)) + s <= 70) ->
     (length (uvarint v) <= k)%nat ->
     readUVarint_loop k (uvarint v ++ rest) s acc = Ok (acc + v * 2 ^ s, rest))).
  - intros v Hv k rest s acc Hs Hacc Ht Hs64 _. rewrite uvarint_eq by lia.
    destruct (127 <? v) eqn:E; [lia|]. cbn [length app].
    intros Hk. destruct k as [|k]; [lia|]. cbn [readUVarint_loop].
    rewrite land128_byte, land127 by lia. rewrite (Z.mod_small v) by lia.
    rewrite lor_step by lia.
    destruct (v <? 128) eqn:E2; [reflexivity|lia].
  - intros v Hv IH k rest s acc Hs Hacc Ht Hs64. rewrite uvarint_eq by lia.
    destruct (127 <? v) eqn:E; [|lia]. cbn [length app].
    pose proof (uvarint_length (v / 128)) as HL. lapply HL; [clear HL; intros HL|lia].
    intros H70 Hk. destruct k as [|k]; [lia|]. cbn [readUVarint_loop].
    assert (E2p : 2 ^ (s + 7) = 2 ^ s * 128) by (rewrite Z.pow_add_r by lia; reflexivity).
    assert (P2 : 0 < 2 ^ s) by (apply Z.pow_pos_nonneg; lia).
    rewrite land128_byte, land127 by lia.
    replace ((v mod 128 + 128) mod 128) with (v mod 128) by lia.
    rewrite lor_step; [|lia|lia|lia|].
    2:{ assert (v mod 128 <= v) by lia. nia. }
    destruct (v mod 128 + 128 <? 128) eqn:E3; [lia|].
    destruct (64 <=? s + 7) eqn:E4; [lia|].
    rewrite IH; [|lia| | |lia|lia|lia].
    + f_equal. f_equal. rewrite E2p. set (q := v / 128). assert (v = 128 * q + v mod 128) by lia. nia.
    + rewrite E2p. split; [nia|]. assert (v mod 128 <= 127) by lia. nia.
    + rewrite E2p. set (q := v / 128). assert (v = 128 * q + v mod 128) by lia. nia.
Qed.

Lemma readUVarint_app v rest :
  0 <= v < 18446744073709551616 -> readUVarint (uvarint v ++ rest) = Ok (v, rest).
Proof.
  intros Hv. unfold readUVarint. pose proof (uvarint_length v Hv).
  rewrite readUVarint_loop_app; change (2 ^ 0) with 1; try lia. do 2 f_equal. lia.
Qed.

(** readUVarint never has undefined behaviour and consumes a non-empty prefix of
    at most ten bytes. *)
Lemma readUVarint_loop_safe k input s acc :
  0 <= s -> s <= 63 -> (70 <= 7 * Z.of_nat k + s) ->
  match readUVarint_loop k input s acc with
  | Ok (_, rest) => exists pre, input = pre ++ rest /\ (1 <= length pre)%nat /\ 7 * Z.of_nat (length pre) + s <= 70
  | Throw => True
  | UB => False
  end.
Proof.
  revert input s acc; induction k as [|k IH]; intros input s acc Hs Hs2 Hk; [lia|].
  cbn [readUVarint_loop]. destruct input as [|b rest]; [exact I|].
  destruct (Z.land b 128 =? 0).
  - exists [b]. simpl. repeat split; lia.
  - destruct (64 <=? s + 7) eqn:E; [exact I|].
    specialize (IH rest (s + 7) (Z.lor acc (u64 (Z.shiftl (Z.land b 127) s)))).
    lapply IH; [clear IH; intros IH|lia]. lapply IH; [clear IH; intros IH|lia]. lapply IH; [clear IH; intros IH|lia].
    destruct (readUVarint_loop k rest (s + 7) _) as [[x r]| |]; auto.
    destruct IH as (pre & -> & H1 & H2). exists (b :: pre). simpl length. repeat split; lia.
Qed.
Lemma readUVarint_safe input :
  match readUVarint input with
  | Ok (_, rest) => exists pre, input = pre ++ rest /\ (1 <= length pre <= 10)%nat
  | Throw => True
  | UB => False
  end.
Proof.
  pose proof (readUVarint_loop_safe 11 input 0 0) as H.
  unfold readUVarint. lapply H; [clear H; intros H|lia]. lapply H; [clear H; intros H|lia]. lapply H; [clear H; intros H|lia].
  destruct (readUVarint_loop 11 input 0 0) as [[x r]| |]; auto.
  destruct H as (pre & -> & H1 & H2). exists pre. split; [reflexivity|lia].
Qed.

(** ** decodeVarint *)
Lemma byte_at_app l1 b l2 i : length l1 = i -> byte_at (l1 ++ b :: l2) i = Ok b.
Proof. intros <-. unfold byte_at. rewrite nth_error_app2, Nat.sub_diag by lia. reflexivity. Qed.

Lemma varint_loop_app v :
  0 <= v < 18446744073709551616 ->
  forall k pre rest max s acc, 0 <= s -> 0 <= acc < 2 ^ s -> acc + v * 2 ^ s < 18446744073709551616 ->
  s < 64 -> (7 * Z.of_nat (length (uvarint v)) + s <= 70) ->
  (length (uvarint v) <= k)%nat -> (length pre + length (uvarint v) <= max)%nat ->
  varint_loop k (pre ++ uvarint v ++ rest) max (length pre) s acc
    = Ok (acc + v * 2 ^ s, (length pre + length (uvarint v))%nat).
Proof.
  revert v. apply (uvarint_ind (fun v => forall k pre rest max s acc, 0 <= s -> 0 <= acc < 2 ^ s ->
     acc + v * 2 ^ s < 18446744073709551616 -> s < 64 -> (7 * Z.of_nat (length (uvarint v)) + s <= 70) ->
     (length (uvarint v) <= k)%nat -> (length pre + length (uvarint v) <= max)%nat ->
     varint_loop k (pre ++ uvarint v ++ rest) max (length pre) s acc
       = Ok (acc + v * 2 ^ s, (length pre + length (uvarint v))%nat))).
  - intros v Hv k pre rest max s acc Hs Hacc Ht Hs64 _. rewrite uvarint_eq by lia.
    destruct (127 <? v) eqn:E; [lia|]. cbn [length app].
    intros Hk Hmax. destruct k as [|k]; [lia|]. cbn [varint_loop].
    destruct (max <=? length pre)%nat eqn:Em; [lia|].
    rewrite byte_at_app by reflexivity. cbn [bind].
    rewrite land128_byte, land127 by lia. rewrite (Z.mod_small v) by lia.
    assert (P2 : 0 < 2 ^ s) by (apply Z.pow_pos_nonneg; lia).
    destruct ((64 <=? s) || (s =? 63) && (1 <? v)) eqn:E2.
    { assert (s = 63 /\ 2 <= v) as [-> ?] by lia.
      change (2 ^ 63) with 9223372036854775808 in *. lia. }
    rewrite lor_step by lia.
    destruct (v <? 128) eqn:E3; [|lia]. f_equal. f_equal. lia.
  - intros v Hv IH k pre rest max s acc Hs Hacc Ht Hs64. rewrite uvarint_eq by lia.
    destruct (127 <? v) eqn:E; [|lia]. cbn [length app].
    pose proof (uvarint_length (v / 128)) as HL. lapply HL; [clear HL; intros HL|lia].
    intros H70 Hk Hmax. destruct k as [|k]; [lia|]. cbn [varint_loop].
    destruct (max <=? length pre)%nat eqn:Em; [lia|].
    rewrite byte_at_app by reflexivity. cbn [bind].
    assert (E2p : 2 ^ (s + 7) = 2 ^ s * 128) by (rewrite Z.pow_add_r by lia; reflexivity).
    assert (P2 : 0 < 2 ^ s) by (apply Z.pow_pos_nonneg; lia).
    rewrite land128_byte, land127 by lia.
    replace ((v mod 128 + 128) mod 128) with (v mod 128) by lia.
    destruct ((64 <=? s) || (s =? 63) && (1 <? v mod 128)) eqn:E5; [lia|].
    rewrite lor_step; [|lia|lia|lia|].
    2:{ assert (v mod 128 <= v) by lia. nia. }
    destruct (v mod 128 + 128 <? 128) eqn:E3; [lia|].
    destruct (63 <=? s) eqn:E4; [lia|].
    specialize (IH k (pre ++ [v mod 128 + 128]) rest max (s + 7) (acc + v mod 128 * 2 ^ s)).
    rewrite app_length in IH. cbn [length] in IH.
    replace (length pre + 1)%nat with (S (length pre)) in IH by lia.
    rewrite <- app_assoc in IH. cbn [app] in IH.
    rewrite IH; [|lia| | |lia|lia|lia|lia].
    + f_equal. f_equal; [|lia]. rewrite E2p. set (q := v / 128). assert (v = 128 * q + v mod 128) by lia. nia.
    + rewrite E2p. split; [nia|]. assert (v mod 128 <= 127) by lia. nia.
    + rewrite E2p. set (q := v / 128). assert (v = 128 * q + v mod 128) by lia. nia.
Qed.

Lemma decodeVarint_uvarint u rest :
  1 <= u < 18446744073709551616 ->
  decodeVarint (uvarint u ++ rest) =
    do v <- unzigzag1 u; Ok (v, length (uvarint u)).
Proof.
  intros Hu. unfold decodeVarint, decodeVarint_mem.
  assert (HL := uvarint_length u). lapply HL; [clear HL; intros HL|lia].
  rewrite app_length.
  destruct (length (uvarint u) + length rest =? 0)%nat eqn:E0; [lia|].
  assert (Hloop := varint_loop_app u).
  lapply Hloop; [clear Hloop; intros Hloop|lia].
  specialize (Hloop 11%nat [] rest (length (uvarint u) + length rest)%nat 0 0).
  cbn [app length] in Hloop. change (2 ^ 0) with 1 in Hloop.
  rewrite !Z.mul_1_r, !Z.add_0_l, !Nat.add_0_l in Hloop.
  assert (Hloop' : varint_loop 11 (uvarint u ++ rest) (length (uvarint u) + length rest) 0 0 0 = Ok (u, length (uvarint u))).
  { apply Hloop; lia. } clear Hloop.
  rewrite uvarint_eq in * by lia.
  destruct (127 <? u) eqn:E.
  - cbn [app]. unfold byte_at at 1. cbn [nth_error bind].
    rewrite land128_byte by lia.
    destruct (u mod 128 + 128 <? 128) eqn:E1; [lia|].
    rewrite (uvarint_eq (u / 128)) in * by lia.
    destruct (127 <? u / 128) eqn:E2.
    + cbn [app length]. destruct (2 <=? S (S (length (uvarint (u / 128 / 128)))) + length rest)%nat eqn:E3; [|lia].
      unfold byte_at at 1. cbn [nth_error bind].
      rewrite land128_byte by lia.
      destruct ((u / 128) mod 128 + 128 <? 128) eqn:E4; [lia|].
      cbn [app length] in Hloop'. rewrite Hloop'. cbn [bind]. reflexivity.
    + cbn [app length]. destruct (2 <=? 2 + length rest)%nat eqn:E3; [|lia].
      unfold byte_at at 1. cbn [nth_error bind].
      rewrite land128_byte by lia.
      destruct (u / 128 <? 128) eqn:E4; [|lia]. cbn [bind].
      rewrite land127.
      rewrite (shiftl_mul _ 7) by lia. rewrite u64_id by (change (2 ^ 7) with 128; lia).
      rewrite lor_disjoint_add by (change (2 ^ 7) with 128; lia).
      change (2 ^ 7) with 128.
      replace ((u mod 128 + 128) mod 128 + u / 128 * 128) with u by lia. reflexivity.
  - cbn [app]. unfold byte_at at 1. cbn [nth_error bind length].
    rewrite land128_byte by lia. destruct (u <? 128) eqn:E1; [|lia]. reflexivity.
Qed.

Lemma decodeVarint_encode v rest :
  -9223372036854775808 < v < 9223372036854775808 ->
  decodeVarint (encodeVarint64 v ++ rest) = Ok (v, length (encodeVarint64 v)).
Proof.
  intros Hv. unfold encodeVarint64. rewrite decodeVarint_uvarint by (apply zigzag1_nonmin; lia).
  rewrite unzigzag1_zigzag1 by lia. reflexivity.
Qed.

Lemma encodeVarint64_length v : (1 <= length (encodeVarint64 v) <= 10)%nat.
Proof. apply uvarint_length, zigzag1_range. Qed.
Lemma encodeVarint64_bytes v : bytes (encodeVarint64 v).
Proof. apply uvarint_bytes, zigzag1_range. Qed.

(** The first byte is zero only for INT64_MIN. *)
Lemma encodeVarint64_hd v :
  -9223372036854775808 < v < 9223372036854775808 ->
  exists b l, encodeVarint64 v = b :: l /\ b <> 0.
Proof.
  intros Hv. unfold encodeVarint64. pose proof (zigzag1_nonmin v Hv) as Hz.
  rewrite uvarint_eq by lia.
  destruct (127 <? zigzag1 v) eqn:E.
  - exists (zigzag1 v mod 128 + 128), (uvarint (zigzag1 v / 128)). split; [reflexivity|lia].
  - exists (zigzag1 v), []. split; [reflexivity|lia].
Qed.

(** int32-sized deltas need at most five bytes. *)
Lemma encodeVarint64_length32 v :
  -2147483648 <= v < 2147483648 -> (1 <= length (encodeVarint64 v) <= 5)%nat.
Proof.
  intros Hv. unfold encodeVarint64. apply uvarint_length_le.
  - change (128 ^ Z.of_nat 5) with 34359738368. rewrite zigzag1_spec by lia. unfold u64. destruct (0 <=? v) eqn:E; lia.
  - apply zigzag1_range.
Qed.

(** ** decodeVarint on arbitrary memory *)
Lemma varint_loop_safe k mem max i s acc :
  (max <= length mem)%nat -> 0 <= s <= 69 -> 70 <= 7 * Z.of_nat k + s ->
  match varint_loop k mem max i s acc with
  | Ok (_, n) => (i < n <= max)%nat
  | Throw => True
  | UB => False
  end.
Proof.
  intros Hm. revert i s acc; induction k as [|k IH]; intros i s acc Hs Hk; [lia|].
  cbn [varint_loop]. destruct (max <=? i)%nat eqn:E; [exact I|].
  unfold byte_at. destruct (nth_error mem i) as [b|] eqn:Eb.
  2:{ apply nth_error_None in Eb. lia. }
  cbn [bind]. destruct (_ || _); [exact I|].
  destruct (Z.land b 128 =? 0); [cbn beta iota; lia|].
  destruct (63 <=? s) eqn:E2; [exact I|].
  specialize (IH (S i) (s + 7) (Z.lor acc (u64 (Z.shiftl (Z.land b 127) s)))).
  lapply IH; [clear IH; intros IH|lia]. lapply IH; [clear IH; intros IH|lia].
  destruct (varint_loop k mem max (S i) (s + 7) _) as [[x n]| |]; auto. lia.
Qed.

Lemma firstn_nth_error {A} (l1 l2 : list A) n i :
  firstn n l1 = firstn n l2 -> (i < n)%nat -> nth_error l1 i = nth_error l2 i.
Proof.
  revert l1 l2 i; induction n as [|n IH]; intros l1 l2 i H Hi; [lia|].
  destruct l1, l2; simpl in H; try discriminate; [reflexivity|].
  injection H as -> H. destruct i; simpl; [reflexivity|]. apply IH; [exact H|lia].
Qed.

Lemma varint_loop_prefix k mem1 mem2 max i s acc :
  firstn max mem1 = firstn max mem2 -> varint_loop k mem1 max i s acc = varint_loop k mem2 max i s acc.
Proof.
  intros Hp. revert i s acc; induction k as [|k IH]; intros i s acc; [reflexivity|].
  cbn [varint_loop]. destruct (Nat.leb_spec max i); [reflexivity|].
  assert (EN : nth_error mem1 i = nth_error mem2 i) by (apply (firstn_nth_error mem1 mem2 max); auto; lia).
  unfold byte_at. rewrite EN. destruct (nth_error mem2 i); [|reflexivity]. cbn [bind].
  destruct (_ || _); [reflexivity|]. destruct (_ =? _); [reflexivity|]. destruct (_ <=? _); [reflexivity|]. apply IH.
Qed.

Lemma unzigzag1_noub u : unzigzag1 u <> UB.
Proof. unfold unzigzag1. destruct (_ =? _); discriminate. Qed.

Lemma decodeVarint_mem_safe mem max :
  (max <= length mem)%nat ->
  match decodeVarint_mem mem max with
  | Ok (_, n) => (1 <= n <= max)%nat
  | Throw => True
  | UB => False
  end.
Proof.
  intros Hm. unfold decodeVarint_mem. destruct (max =? 0)%nat eqn:E0; [exact I|].
  unfold byte_at at 1. destruct (nth_error mem 0) as [b0|] eqn:Eb.
  2:{ apply nth_error_None in Eb. lia. }
  cbn [bind]. destruct (Z.land b0 128 =? 0).
  - cbn [bind]. pose proof (unzigzag1_noub b0). destruct (unzigzag1 b0); cbn [bind]; cbn beta iota; auto; lia.
  - assert (HLoop := varint_loop_safe 11 mem max 0 0 0 Hm).
    lapply HLoop; [clear HLoop; intros HLoop|lia]. lapply HLoop; [clear HLoop; intros HLoop|lia].
    destruct (2 <=? max)%nat eqn:E2.
    + unfold byte_at at 1. destruct (nth_error mem 1) as [b1|] eqn:Eb1.
      2:{ apply nth_error_None in Eb1. lia. }
      cbn [bind]. destruct (Z.land b1 128 =? 0).
      * cbn [bind]. match goal with |- context [unzigzag1 ?u] => pose proof (unzigzag1_noub u); destruct (unzigzag1 u) end; cbn [bind]; cbn beta iota; auto; lia.
      * destruct (varint_loop 11 mem max 0 0 0) as [[u n]| |]; cbn [bind]; auto.
        pose proof (unzigzag1_noub u). destruct (unzigzag1 u); cbn [bind]; cbn beta iota; auto; lia.
    + cbn [bind]. destruct (varint_loop 11 mem max 0 0 0) as [[u n]| |]; cbn [bind]; auto.
      pose proof (unzigzag1_noub u). destruct (unzigzag1 u); cbn [bind]; cbn beta iota; auto; lia.
Qed.

Lemma decodeVarint_mem_prefix mem1 mem2 max :
  firstn max mem1 = firstn max mem2 -> decodeVarint_mem mem1 max = decodeVarint_mem mem2 max.
Proof.
  intros Hp. unfold decodeVarint_mem. destruct (max =? 0)%nat eqn:E0; [reflexivity|].
  unfold byte_at. rewrite (firstn_nth_error mem1 mem2 max 0) by (auto; lia).
  rewrite (varint_loop_prefix 11 mem1 mem2) by exact Hp.
  destruct (nth_error mem2 0); [|reflexivity]. cbn [bind].
  destruct (_ =? 0); [reflexivity|].
  destruct (2 <=? max)%nat eqn:E2; [|reflexivity].
  rewrite (firstn_nth_error mem1 mem2 max 1) by (auto; lia). reflexivity.
Qed.

Global Arguments encodeVarint64 : simpl never.
Global Arguments decodeVarint : simpl never.
Global Arguments decodeVarint_mem : simpl never.
Global Arguments readUVarint : simpl never.
Global Arguments uvarint : simpl never.
(** The one- and two-byte fast paths agree with the general loop. *)
Lemma byte_at_byte mem i b : bytes mem -> byte_at mem i = Ok b -> 0 <= b < 256.
Proof. unfold byte_at. destruct (nth_error mem i) eqn:E; intros HB H; [|discriminate]. injection H as <-. apply nth_error_In in E. exact (proj1 (Forall_forall _ _) HB _ E). Qed.
Lemma small_land b : 0 <= b < 256 -> Z.land b 128 = 0 -> Z.land b 127 = b /\ b < 128.
Proof.
  intros Hb H. assert (forall n, (n < 256)%nat -> Z.land (Z.of_nat n) 128 = 0 -> Z.land (Z.of_nat n) 127 = Z.of_nat n /\ Z.of_nat n < 128).
  { assert (A : forallb (fun n => negb (Z.land (Z.of_nat n) 128 =? 0) || ((Z.land (Z.of_nat n) 127 =? Z.of_nat n) && (Z.of_nat n <? 128))) (seq 0 256) = true) by (vm_compute; reflexivity).
    rewrite forallb_forall in A. intros n Hn H0. specialize (A n ltac:(apply in_seq; lia)). rewrite H0 in A. cbn [negb orb Z.eqb] in A. apply andb_true_iff in A. lia. }
  specialize (H0 (Z.to_nat b) ltac:(lia)). rewrite Z2Nat.id in H0 by lia. auto.
Qed.
Lemma fast_paths mem max : bytes mem -> (0 < max)%nat ->
  decodeVarint_mem mem max = do '(uval, count) <- varint_loop 11 mem max 0 0 0 ; do v <- unzigzag1 uval ; Ok (v, count).
Proof.
  intros HB Hm. unfold decodeVarint_mem. replace (max =? 0)%nat with false by (symmetry; apply Nat.eqb_neq; lia).
  destruct (byte_at mem 0) as [b0| |] eqn:E0; cbn [bind].
  2,3: cbn [varint_loop]; replace (max <=? 0)%nat with false by (symmetry; apply Nat.leb_gt; lia); rewrite E0; reflexivity.
  pose proof (byte_at_byte _ _ _ HB E0) as B0.
  destruct (Z.land b0 128 =? 0) eqn:L0.
  - apply Z.eqb_eq in L0. destruct (small_land b0 B0 L0) as [S1 S2]. cbn [varint_loop]. replace (max <=? 0)%nat with false by (symmetry; apply Nat.leb_gt; lia). rewrite E0. cbn [bind]. rewrite S1, L0.
    cbn [Z.leb Z.eqb Z.compare orb andb]. rewrite Z.shiftl_0_r. rewrite Z.lor_0_l. unfold u64. rewrite Z.mod_small by lia. reflexivity.
  - destruct (2 <=? max)%nat eqn:M2; [|reflexivity]. apply Nat.leb_le in M2. destruct (byte_at mem 1) as [b1| |] eqn:E1; cbn [bind].
    2,3: cbn [varint_loop]; replace (max <=? 0)%nat with false by (symmetry; apply Nat.leb_gt; lia); rewrite E0; cbn [bind]; rewrite L0; cbn [Z.leb Z.eqb Z.compare orb andb Z.add];
         replace (max <=? 1)%nat with false by (symmetry; apply Nat.leb_gt; lia); rewrite E1; reflexivity.
    pose proof (byte_at_byte _ _ _ HB E1) as B1. destruct (Z.land b1 128 =? 0) eqn:L1; [|reflexivity]. cbn [bind].
    apply Z.eqb_eq in L1. destruct (small_land b1 B1 L1) as [S1 S2].
    cbn [varint_loop]. replace (max <=? 0)%nat with false by (symmetry; apply Nat.leb_gt; lia). rewrite E0. cbn [bind]. rewrite L0. cbn [Z.leb Z.eqb Z.compare orb andb Z.add].
    replace (max <=? 1)%nat with false by (symmetry; apply Nat.leb_gt; lia). rewrite E1. cbn [bind Z.leb Z.eqb Z.compare orb andb Z.add]. rewrite S1, L1. cbn [Z.eqb].
    rewrite Z.shiftl_0_r, Z.lor_0_l. f_equal. unfold u64 at 2. rewrite (Z.mod_small (Z.land b0 127)); [reflexivity|].
    change 127 with (Z.ones 7). rewrite Z.land_ones by lia. pose proof (Z.mod_pos_bound b0 (2^7) ltac:(lia)). lia.
Qed.
