(** Quantising a dequantised value gives the same integer back, as long as the integer has three
    bits less than the format's precision. *)
From Coq Require Import ZArith Reals Psatz List Bool.
From Coq Require Import Floats.SpecFloat.
From Flocq Require Import Core Relative BinarySingleNaN.
From Verif Require Import Base BaseFacts Types Floats ErrorSpec FloatReal PropsError.
Open Scope Z_scope.
Open Scope R_scope.

Section Again.
Variables prec emax : Z.
Hypothesis Hp : (24 <= prec <= 53)%Z.
Hypothesis He : (128 <= emax)%Z.
Notation u := (bpow radix2 (- prec)).
Notation rnd := (round radix2 (SpecFloat.fexp prec emax) ZnearestE).

Lemma int_exact v : (Z.abs v <= 2 ^ (prec - 3))%Z -> rnd (IZR v) = IZR v.
Proof.
  intros Hv. apply round_generic; [apply valid_rnd_N|].
  assert (E : IZR v = F2R (Float radix2 v 0)) by (unfold F2R; cbn; ring). rewrite E.
  apply generic_format_F2R. intros Hn. unfold cexp, SpecFloat.fexp, SpecFloat.emin.
  assert (M : (mag radix2 (F2R (Float radix2 v 0)) <= prec)%Z).
  { apply mag_le_bpow; [rewrite <- E; apply IZR_neq; exact Hn|]. rewrite <- E, <- abs_IZR. rewrite <- (IZR_Zpower radix2) by lia. apply IZR_lt.
    apply Z.le_lt_trans with (1 := Hv). change (radix_val radix2) with 2%Z. apply Z.pow_lt_mono_r; lia. }
  lia.
Qed.

Lemma again rd imin imax fm fr r e1 v :
  (forall m e, (0 < m)%Z -> Rabs (IZR (rd m e) - IZR m * powerRZ 2 e) <= / 2) ->
  (Z.abs v <= 2 ^ (prec - 3))%Z -> IZR imin <= - 2 * bpow radix2 (prec - 3) - 2 -> 2 * bpow radix2 (prec - 3) + 2 <= IZR imax ->
  is_val prec emax fr r -> is_val prec emax fm (1 / r * (1 + e1)) -> Rabs e1 <= 9 / 8 * u ->
  bpow radix2 (-100) <= r <= bpow radix2 60 ->
  exists y, is_val prec emax (SFmul prec emax (SpecFloat.binary_normalize prec emax v 0 false) fr) y /\
    forall fy, is_val prec emax fy y -> sf_to_int rd imin imax (SFmul prec emax fy fm) = v.
Proof.
  intros N Hv I1 I2 Fr Fm E1 Hr.
  assert (Hp0 : (0 < prec)%Z) by lia. assert (Hpe : (prec < emax)%Z) by lia.
  pose proof (u_small prec Hp) as U.
  assert (r0 : 0 < r) by (pose proof (bpow_gt_0 radix2 (-100)); lra).
  set (t := bpow radix2 (SpecFloat.emin prec emax - 1)).
  assert (T1 : 0 <= t) by apply bpow_ge_0.
  assert (T2 : t <= u * r / 8).
  { apply Rle_trans with (u * bpow radix2 (-100) / 8).
    - unfold t, Rdiv. change (/ 8) with (bpow radix2 (-3)). rewrite <- !bpow_plus. apply bpow_le. unfold SpecFloat.emin. lia.
    - unfold Rdiv. apply Rmult_le_compat_r; [lra|]. apply Rmult_le_compat_l; lra. }
  assert (T3 : t <= u / 8).
  { unfold t, Rdiv. change (/ 8) with (bpow radix2 (-3)). rewrite <- bpow_plus. apply bpow_le. unfold SpecFloat.emin. lia. }
  set (B := bpow radix2 (prec - 3)).
  assert (VB : Rabs (IZR v) <= B).
  { unfold B. rewrite <- abs_IZR, <- (IZR_Zpower radix2) by lia. apply IZR_le. exact Hv. }
  assert (UB : u * B = / 8).
  { unfold B. rewrite <- bpow_plus. replace (- prec + (prec - 3))%Z with (-3)%Z by ring. reflexivity. }
  assert (B50 : B <= bpow radix2 50) by (apply bpow_le; lia).
  assert (B1 : 1 <= B) by (unfold B; change 1 with (bpow radix2 0); apply bpow_le; lia).
  assert (big : bpow radix2 125 <= bpow radix2 (emax - 1)) by (apply bpow_le; lia).
  assert (b50 : bpow radix2 50 = 1125899906842624) by reflexivity.
  assert (b65 : bpow radix2 65 <= bpow radix2 125) by (apply bpow_le; lia).
  assert (b65v : bpow radix2 65 = 36893488147419103232) by reflexivity.
  pose proof (int_val prec emax Hp0 Hpe v ltac:(lra)) as V2. rewrite (int_exact v Hv) in V2.
  assert (FR : Rabs (IZR v * r) <= bpow radix2 (emax - 1)).
  { apply Rle_trans with (bpow radix2 125); [|exact big]. rewrite Rabs_mult, (Rabs_right r) by lra.
    change 125%Z with (65 + 60)%Z. rewrite bpow_plus. apply Rmult_le_compat; [apply Rabs_pos|lra|lra|lra]. }
  pose proof (mul_val prec emax Hp0 Hpe _ _ _ _ V2 Fr FR) as V3.
  destruct (rnd_err prec emax Hp0 (IZR v * r)) as (e4 & h4 & E4 & H4 & D4). fold t in H4.
  exists (rnd (IZR v * r)). split; [exact V3|]. intros fy Fy.
  set (y := rnd (IZR v * r)) in *. set (P := (1 + e4) * (1 + e1)).
  assert (HP : Rabs (P - 1) <= 22 / 10 * u).
  { unfold P. rewrite Rmult_comm. apply prod_small; [lra|rewrite one_plus; lra|rewrite one_plus; lra]. }
  assert (YM : y * (1 / r * (1 + e1)) = IZR v * P + h4 / r * (1 + e1)).
  { rewrite D4. unfold P. field. lra. }
  assert (G : Rabs (h4 / r * (1 + e1)) <= u / 4).
  { rewrite Rabs_mult. unfold Rdiv at 1. rewrite Rabs_mult, (Rabs_right (/ r)) by (apply Rle_ge, Rlt_le, Rinv_0_lt_compat; lra).
    assert (A1 : Rabs (1 + e1) <= 2) by (eapply Rle_trans; [apply Rabs_triang|]; rewrite Rabs_R1; lra).
    assert (A2 : Rabs h4 * / r <= u / 8).
    { apply Rmult_le_reg_r with r; [lra|]. rewrite Rmult_assoc, Rinv_l by lra. lra. }
    apply Rle_trans with (u / 8 * 2); [|lra]. apply Rmult_le_compat; [|apply Rabs_pos|exact A2|exact A1].
    apply Rmult_le_pos; [apply Rabs_pos|apply Rlt_le, Rinv_0_lt_compat; lra]. }
  set (g := h4 / r * (1 + e1)) in *.
  assert (YB : Rabs (y * (1 / r * (1 + e1))) <= 11 / 10 * B).
  { rewrite YM. eapply Rle_trans; [apply Rabs_triang|]. rewrite Rabs_mult.
    assert (AP : Rabs P <= 1 + / 100).
    { replace P with (1 + (P - 1)) by ring. eapply Rle_trans; [apply Rabs_triang|]. rewrite Rabs_R1. lra. }
    assert (Rabs (IZR v) * Rabs P <= B * (1 + / 100)) by (apply Rmult_le_compat; try apply Rabs_pos; assumption). lra. }
  pose proof (mul_val prec emax Hp0 Hpe _ _ _ _ Fy Fm ltac:(lra)) as V4.
  destruct (rnd_err prec emax Hp0 (y * (1 / r * (1 + e1)))) as (e2 & h2 & E2 & H2 & D2). fold t in H2.
  set (p := rnd (y * (1 / r * (1 + e1)))) in *.
  assert (PV : Rabs (p - IZR v) <= 41 / 100).
  { rewrite D2, YM. replace ((IZR v * P + g) * (1 + e2) + h2 - IZR v) with (IZR v * (P * (1 + e2) - 1) + g * (1 + e2) + h2) by ring.
    assert (HQ : Rabs (P * (1 + e2) - 1) <= 3203 / 1000 * u).
    { eapply Rle_trans; [apply (mul_err _ (1 + e2) _ u HP); rewrite one_plus; exact E2|]. nra. }
    eapply Rle_trans; [apply Rabs_triang|]. eapply Rle_trans; [apply Rplus_le_compat_r, Rabs_triang|]. rewrite !Rabs_mult.
    assert (A1 : Rabs (1 + e2) <= 2) by (eapply Rle_trans; [apply Rabs_triang|]; rewrite Rabs_R1; lra).
    assert (Q1 : Rabs (IZR v) * Rabs (P * (1 + e2) - 1) <= B * (3203 / 1000 * u)) by (apply Rmult_le_compat; try apply Rabs_pos; assumption).
    assert (Q2 : Rabs g * Rabs (1 + e2) <= u / 4 * 2) by (apply Rmult_le_compat; try apply Rabs_pos; assumption).
    replace (B * (3203 / 1000 * u)) with (3203 / 1000 * (u * B)) in Q1 by ring. rewrite UB in Q1. lra. }
  pose proof (Rabs_le_inv _ _ PV) as PV'. pose proof (Rabs_le_inv _ _ VB) as VB'.
  fold B in I1, I2.
  pose proof (to_int_near prec emax rd imin imax _ _ N V4 ltac:(lra)) as Q.
  pose proof (Rabs_le_inv _ _ Q) as Q'. set (q := sf_to_int rd imin imax (SFmul prec emax fy fm)) in *.
  assert (q < v + 1)%Z by (apply lt_IZR; rewrite plus_IZR; lra). assert (v - 1 < q)%Z by (apply lt_IZR; rewrite minus_IZR; lra). lia.
Qed.
End Again.

(** ** The three pipelines *)
Lemma again32 rb v : finite32 rb -> usable (float_of rb) -> (Z.abs v <= 2097152)%Z ->
  finite32 (dequant32 rb v) /\ quant32 rb (dequant32 rb v) = v.
Proof.
  intros Fr Hr Hv. destruct (mult32_val rb Fr Hr) as (e1 & E1 & Vm). destruct (usable_pos _ Hr) as [P RR].
  destruct (again 24 128 ltac:(lia) ltac:(lia) round_away INT64_MIN INT64_MAX (mult32 rb) (sf32 rb) (float_of rb) e1 v round_away_near Hv) as (y & V & A); try assumption.
  - change (bpow radix2 (24 - 3)) with 2097152. change (IZR INT64_MIN) with (-9223372036854775808). lra.
  - change (bpow radix2 (24 - 3)) with 2097152. change (IZR INT64_MAX) with (9223372036854775807). lra.
  - apply val32; exact Fr.
  - destruct (bits32 _ _ V) as [F Y]. split; [exact F|]. apply A. rewrite <- Y. apply val32, F.
Qed.
Lemma again64 rb v : finite32 rb -> usable (float_of rb) -> (Z.abs v <= 1125899906842624)%Z ->
  finite64 (dequant64 rb v) /\ quant64 rb (dequant64 rb v) = v.
Proof.
  intros Fr Hr Hv. pose proof (widen _ _ (val32 _ Fr)) as W. destruct (recip 53 1024 _ _ ltac:(lia) ltac:(lia) W Hr) as (e1 & E1 & Vm). destruct (usable_pos _ Hr) as [P RR].
  destruct (again 53 1024 ltac:(lia) ltac:(lia) round_away INT64_MIN INT64_MAX (mult64 rb) (to64 (sf32 rb)) (float_of rb) e1 v round_away_near Hv) as (y & V & A); try assumption.
  - change (bpow radix2 (53 - 3)) with 1125899906842624. change (IZR INT64_MIN) with (-9223372036854775808). lra.
  - change (bpow radix2 (53 - 3)) with 1125899906842624. change (IZR INT64_MAX) with (9223372036854775807). lra.
  - pose proof (bpow_gt_0 radix2 (- (53))). lra.
  - destruct (bits64 _ _ V) as [F Y]. split; [exact F|]. apply A. rewrite <- Y. apply val64, F.
Qed.
Lemma againN rd rb v : (forall m e, (0 < m)%Z -> Rabs (IZR (rd m e) - IZR m * powerRZ 2 e) <= / 2) ->
  finite32 rb -> usable (float_of rb) -> (Z.abs v <= 2097152)%Z ->
  finite32 (dequantN rb v) /\ sf_to_int rd INT32_MIN 2147483647 (SFmul 24 128 (sf32 (dequantN rb v)) (multN rb)) = v.
Proof.
  intros N Fr Hr Hv. destruct (recip 24 128 _ _ ltac:(lia) ltac:(lia) (val32 rb Fr) Hr) as (e1 & E1 & Vm). destruct (usable_pos _ Hr) as [P RR].
  destruct (again 24 128 ltac:(lia) ltac:(lia) rd INT32_MIN 2147483647 (multN rb) (sf32 rb) (float_of rb) e1 v N Hv) as (y & V & A); try assumption.
  - change (bpow radix2 (24 - 3)) with 2097152. change (IZR INT32_MIN) with (-2147483648). lra.
  - change (bpow radix2 (24 - 3)) with 2097152. lra.
  - apply val32; exact Fr.
  - pose proof (bpow_gt_0 radix2 (- (24))). lra.
  - destruct (bits32 _ _ V) as [F Y]. split; [exact F|]. apply A. rewrite <- Y. apply val32, F.
Qed.
