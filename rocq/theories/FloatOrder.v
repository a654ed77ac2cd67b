(** Facts for C85: the quantiser keeps the order and the sign. *)
From Coq Require Import ZArith Reals Psatz Bool.
From Coq Require Import Floats.SpecFloat.
From Flocq Require Import Core Relative BinarySingleNaN.
From Verif Require Import Base Floats ErrorSpec FloatReal.
Open Scope Z_scope.
Open Scope R_scope.

(** *** Floats with equal or opposite values *)
Section Unique.
Variables prec emax : Z.
Hypothesis Hp : (0 < prec)%Z.
Hypothesis Hpe : (prec < emax)%Z.
Instance prec_gt : Prec_gt_0 prec := Hp.
Instance prec_lt : Prec_lt_emax prec emax := Hpe.

Lemma val_zero s v : is_val prec emax (S754_zero s) v -> v = 0.
Proof. intros (_ & _ & H). symmetry. exact H. Qed.
Lemma val_finite_nz s m e v : is_val prec emax (S754_finite s m e) v -> v <> 0.
Proof.
  intros (_ & _ & H) E. rewrite E in H. cbn [SF2R] in H. apply eq_0_F2R in H. destruct s; discriminate H.
Qed.
Lemma val_opp f v : is_val prec emax f v -> is_val prec emax (SFopp f) (- v).
Proof.
  intros (H1 & H2 & H3). destruct f as [s|s| |s m e]; try discriminate H2; cbn [SFopp].
  - split; [exact H1|]. split; [exact H2|]. cbn in *. subst v. lra.
  - split; [exact H1|]. split; [exact H2|]. cbn [SF2R] in *. rewrite <- H3. rewrite <- F2R_Zopp. f_equal. f_equal. destruct s; reflexivity.
Qed.
Lemma val_unique f g v : is_val prec emax f v -> is_val prec emax g v -> v <> 0 -> f = g.
Proof.
  intros Hf Hg Hv. destruct (is_val_B prec emax f v Hf) as (B1 & E1 & F1 & R1). destruct (is_val_B prec emax g v Hg) as (B2 & E2 & F2 & R2).
  rewrite <- E1, <- E2. f_equal. apply B2R_inj.
  - destruct B1; try discriminate F1; [|reflexivity]. exfalso. apply Hv. rewrite <- R1. reflexivity.
  - destruct B2; try discriminate F2; [|reflexivity]. exfalso. apply Hv. rewrite <- R2. reflexivity.
  - congruence.
Qed.
Lemma to_int_zero rd imin imax f : is_val prec emax f 0 -> sf_to_int rd imin imax f = 0%Z.
Proof.
  intros H. destruct f as [s|s| |s m e]; [reflexivity|destruct H as (_ & H & _); discriminate H|destruct H as (_ & H & _); discriminate H|].
  now apply val_finite_nz in H.
Qed.
Lemma to_int_same rd imin imax f g v : is_val prec emax f v -> is_val prec emax g v -> sf_to_int rd imin imax f = sf_to_int rd imin imax g.
Proof.
  intros Hf Hg. destruct (Req_dec v 0) as [E|E].
  - subst v. rewrite !to_int_zero; auto.
  - now rewrite (val_unique f g v).
Qed.
(** rounding to the nearest integer keeps the order, whichever way it treats ties *)
Lemma to_int_le rd imin imax f g p q :
  (forall m e, (0 < m)%Z -> Rabs (IZR (rd m e) - IZR m * powerRZ 2 e) <= / 2) ->
  is_val prec emax f p -> is_val prec emax g q -> IZR imin + / 2 <= p <= IZR imax - / 2 -> IZR imin + / 2 <= q <= IZR imax - / 2 ->
  p <= q -> (sf_to_int rd imin imax f <= sf_to_int rd imin imax g)%Z.
Proof.
  intros N Hf Hg Rp Rq [L|L].
  - pose proof (to_int_near prec emax rd imin imax f p N Hf Rp) as A. pose proof (to_int_near prec emax rd imin imax g q N Hg Rq) as B.
    apply Rabs_le_inv in A. apply Rabs_le_inv in B. destruct (Z.le_gt_cases (sf_to_int rd imin imax f) (sf_to_int rd imin imax g)) as [H|H]; [exact H|].
    assert (K : (sf_to_int rd imin imax g + 1 <= sf_to_int rd imin imax f)%Z) by lia. apply IZR_le in K. rewrite plus_IZR in K. lra.
  - subst q. rewrite (to_int_same rd imin imax f g p); auto. lia.
Qed.
Lemma to_int_opp rd imin imax f g p :
  (forall m e, (0 < m)%Z -> Rabs (IZR (rd m e) - IZR m * powerRZ 2 e) <= / 2) ->
  is_val prec emax f p -> is_val prec emax g (- p) -> IZR imin + / 2 <= p <= IZR imax - / 2 -> IZR imin + / 2 <= - p <= IZR imax - / 2 ->
  sf_to_int rd imin imax g = (- sf_to_int rd imin imax f)%Z.
Proof.
  intros N Hf Hg Rp Rq. rewrite (to_int_same rd imin imax g (SFopp f) (- p) Hg (val_opp f p Hf)).
  pose proof (to_int_near prec emax rd imin imax f p N Hf Rp) as A. pose proof (to_int_near prec emax rd imin imax _ _ N (val_opp f p Hf) Rq) as B.
  pose proof Hf as (_ & Fin & _). destruct f as [s|s| |s m e]; try discriminate Fin; [reflexivity|].
  cbn [SFopp] in *. unfold sf_to_int in *. cbv zeta in *. set (k := rd (Z.pos m) e) in *.
  assert (Hk : cond_Zopp (negb s) k = (- cond_Zopp s k)%Z) by (destruct s; cbn; lia). rewrite Hk in *. set (v := cond_Zopp s k) in *.
  pose proof (N (Z.pos m) e eq_refl) as M. fold k in M.
  assert (Hv : Rabs (IZR v - p) <= / 2).
  { destruct Hf as (_ & _ & <-). unfold SF2R, F2R. cbn [Fnum Fexp]. rewrite bpow_powerRZ. change (IZR radix2) with 2. unfold v. destruct s; cbn [cond_Zopp]; [|exact M].
    change (Z.neg m) with (- Z.pos m)%Z. rewrite !opp_IZR. rewrite <- Rabs_Ropp.
    replace (- (- IZR k - - IZR (Z.pos m) * powerRZ 2 e)) with (IZR k - IZR (Z.pos m) * powerRZ 2 e) by ring. exact M. }
  apply Rabs_le_inv in Hv.
  assert (imin <= v)%Z by (apply le_IZR; lra). assert (v <= imax)%Z by (apply le_IZR; lra).
  assert (imin <= - v)%Z by (apply le_IZR; rewrite opp_IZR; lra). assert (- v <= imax)%Z by (apply le_IZR; rewrite opp_IZR; lra).
  destruct (Z.leb_spec imin v); [|lia]. destruct (Z.leb_spec v imax); [|lia]. destruct (Z.leb_spec imin (- v)); [|lia]. destruct (Z.leb_spec (- v) imax); [|lia]. reflexivity.
Qed.
End Unique.

Section Pipe.
Variables prec emax : Z.
Hypothesis Hp : (24 <= prec <= 53)%Z.
Hypothesis He : (128 <= emax)%Z.
Notation u := (bpow radix2 (- prec)).
Notation rnd := (round radix2 (SpecFloat.fexp prec emax) ZnearestE).

(** The decoded value, exactly. *)
Lemma pipeline_exact rd imin imax K fx fm fr x r e1 :
  (forall m e, (0 < m)%Z -> Rabs (IZR (rd m e) - IZR m * powerRZ 2 e) <= / 2) ->
  1 <= K <= bpow radix2 62 ->
  IZR imin + / 2 <= - (9 / 8 * K + 1) -> 9 / 8 * K + 1 <= IZR imax - / 2 ->
  is_val prec emax fx x -> is_val prec emax fr r -> is_val prec emax fm (1 / r * (1 + e1)) ->
  Rabs e1 <= 9 / 8 * u ->
  bpow radix2 (-100) <= r <= bpow radix2 60 -> Rabs x <= K * r ->
  let p := rnd (x * (1 / r * (1 + e1))) in
  let q := sf_to_int rd imin imax (SFmul prec emax fx fm) in
  is_val prec emax (SFmul prec emax fx fm) p /\ IZR imin + / 2 <= p <= IZR imax - / 2 /\
  is_val prec emax (SFmul prec emax (SpecFloat.binary_normalize prec emax q 0 false) fr) (rnd (rnd (IZR q) * r)).
Proof.
  intros N HK I1 I2 Fx Fr Fm E1 Hr Hx p0 q0. unfold p0. clear p0.
  assert (Hp0 : (0 < prec)%Z) by lia. assert (Hpe : (prec < emax)%Z) by lia.
  pose proof (u_small prec ltac:(lia)) as U.
  assert (r0 : 0 < r) by (pose proof (bpow_gt_0 radix2 (-100)); lra).
  set (t := bpow radix2 (SpecFloat.emin prec emax - 1)).
  assert (T1 : 0 <= t) by apply bpow_ge_0.
  assert (T2 : t <= u * r / 8).
  { apply Rle_trans with (u * bpow radix2 (-100) / 8).
    - unfold t, Rdiv. change (/ 8) with (bpow radix2 (-3)). rewrite <- !bpow_plus. apply bpow_le.
      unfold SpecFloat.emin. lia.
    - unfold Rdiv. apply Rmult_le_compat_r; [lra|]. apply Rmult_le_compat_l; lra. }
  assert (T3 : t <= u / 8).
  { unfold t, Rdiv. change (/ 8) with (bpow radix2 (-3)). rewrite <- bpow_plus. apply bpow_le.
      unfold SpecFloat.emin. lia. }
  (* product with the multiplier *)
  assert (XM : Rabs (x * (1 / r * (1 + e1))) <= 801 / 800 * K).
  { rewrite !Rabs_mult. unfold Rdiv. rewrite Rmult_1_l. rewrite (Rabs_right (/ r)) by (apply Rle_ge, Rlt_le, Rinv_0_lt_compat; lra).
    assert (A : Rabs (1 + e1) <= 801 / 800).
    { eapply Rle_trans; [apply Rabs_triang|]. rewrite Rabs_R1. lra. }
    assert (Bx : Rabs x * / r <= K).
    { apply Rmult_le_reg_r with r; [lra|]. rewrite Rmult_assoc, Rinv_l by lra. lra. }
    rewrite <- Rmult_assoc. rewrite (Rmult_comm (801 * / 800)). apply Rmult_le_compat; try lra; [|apply Rabs_pos].
    apply Rmult_le_pos; [apply Rabs_pos|apply Rlt_le, Rinv_0_lt_compat; lra]. }
  assert (b62 : bpow radix2 62 = 4611686018427387904) by reflexivity.
  assert (big : bpow radix2 125 <= bpow radix2 (emax - 1)) by (apply bpow_le; lia).
  assert (b63 : 801 / 800 * K <= bpow radix2 63) by (change (bpow radix2 63) with 9223372036854775808; lra).
  assert (b125 : bpow radix2 65 <= bpow radix2 125) by (apply bpow_le; lia).
  assert (b65 : bpow radix2 63 <= bpow radix2 65) by (apply bpow_le; lia).
  pose proof (mul_val prec emax Hp0 Hpe _ _ _ _ Fx Fm ltac:(lra)) as V1.
  destruct (rnd_err prec emax Hp0 (x * (1 / r * (1 + e1)))) as (e2 & h2 & E2 & H2 & D2).
  fold t in H2. set (p := round radix2 (SpecFloat.fexp prec emax) ZnearestE (x * (1 / r * (1 + e1)))) in *.
  assert (Pb : Rabs p <= 9 / 8 * K + 1).
  { rewrite D2. eapply Rle_trans; [apply Rabs_triang|]. apply Rplus_le_compat; [|lra].
    rewrite Rabs_mult. apply Rle_trans with (801 / 800 * K * (1 + / 1000)); [|lra].
    apply Rmult_le_compat; [apply Rabs_pos|apply Rabs_pos|exact XM|].
    eapply Rle_trans; [apply Rabs_triang|]. rewrite Rabs_R1. lra. }
  pose proof (Rabs_le_inv _ _ Pb) as Pb'.
  pose proof (to_int_near prec emax rd imin imax _ _ N V1 ltac:(lra)) as Q.
  set (q := sf_to_int rd imin imax (SFmul prec emax fx fm)) in *.
  assert (Qb : Rabs (IZR q) <= 9 / 8 * K + 2).
  { replace (IZR q) with ((IZR q - p) + p) by ring. eapply Rle_trans; [apply Rabs_triang|]. lra. }
  assert (b65v : bpow radix2 65 = 36893488147419103232) by reflexivity.
  pose proof (int_val prec emax Hp0 Hpe q ltac:(lra)) as V2.
  destruct (rnd_int prec emax Hp0 Hpe q) as (e3 & E3 & D3).
  set (f := round radix2 (SpecFloat.fexp prec emax) ZnearestE (IZR q)) in *.
  assert (Fb : Rabs f <= bpow radix2 65).
  { rewrite D3, Rabs_mult. apply Rle_trans with ((9 / 8 * K + 2) * (1 + / 1000)); [|lra].
    apply Rmult_le_compat; [apply Rabs_pos|apply Rabs_pos|exact Qb|].
    eapply Rle_trans; [apply Rabs_triang|]. rewrite Rabs_R1. lra. }
  assert (FR : Rabs (f * r) <= bpow radix2 (emax - 1)).
  { apply Rle_trans with (bpow radix2 125); [|exact big].
    rewrite Rabs_mult, (Rabs_right r) by lra.
    change 125%Z with (65 + 60)%Z. rewrite bpow_plus.
    apply Rmult_le_compat; [apply Rabs_pos|lra|exact Fb|lra]. }
  pose proof (mul_val prec emax Hp0 Hpe _ _ _ _ V2 Fr FR) as V3.
  split; [exact V1|]. split; [lra|]. exact V3.
Qed.

Lemma rnd_le x y : x <= y -> rnd x <= rnd y.
Proof. intros H. apply round_le; [apply fexp_correct; red; lia|apply valid_rnd_N|exact H]. Qed.
Lemma rnd_opp x : rnd (- x) = - rnd x.
Proof. apply round_NE_opp. Qed.

(** Two values through the same field. *)
Lemma pipeline_order rd imin imax K fx1 fx2 fm fr x1 x2 r e1 :
  (forall m e, (0 < m)%Z -> Rabs (IZR (rd m e) - IZR m * powerRZ 2 e) <= / 2) ->
  1 <= K <= bpow radix2 62 ->
  IZR imin + / 2 <= - (9 / 8 * K + 1) -> 9 / 8 * K + 1 <= IZR imax - / 2 ->
  is_val prec emax fx1 x1 -> is_val prec emax fx2 x2 -> is_val prec emax fr r -> is_val prec emax fm (1 / r * (1 + e1)) ->
  Rabs e1 <= 9 / 8 * u ->
  bpow radix2 (-100) <= r <= bpow radix2 60 -> Rabs x1 <= K * r -> Rabs x2 <= K * r ->
  let out fx := SFmul prec emax (SpecFloat.binary_normalize prec emax (sf_to_int rd imin imax (SFmul prec emax fx fm)) 0 false) fr in
  exists y1 y2, is_val prec emax (out fx1) y1 /\ is_val prec emax (out fx2) y2 /\ (x1 <= x2 -> y1 <= y2) /\ (x2 = - x1 -> y2 = - y1).
Proof.
  intros N HK I1 I2 F1 F2 Fr Fm E1 Hr H1 H2 out.
  destruct (pipeline_exact rd imin imax K fx1 fm fr x1 r e1 N HK I1 I2 F1 Fr Fm E1 Hr H1) as (V1 & R1 & Y1).
  destruct (pipeline_exact rd imin imax K fx2 fm fr x2 r e1 N HK I1 I2 F2 Fr Fm E1 Hr H2) as (V2 & R2 & Y2).
  eexists _, _. split; [exact Y1|]. split; [exact Y2|].
  assert (Hp0 : (0 < prec)%Z) by lia. assert (Hpe : (prec < emax)%Z) by lia.
  assert (r0 : 0 < r) by (pose proof (bpow_gt_0 radix2 (-100)); lra).
  assert (Um : 0 < 1 / r * (1 + e1)).
  { apply Rmult_lt_0_compat; [apply Rdiv_lt_0_compat; lra|]. pose proof (u_small prec ltac:(lia)). apply Rabs_le_inv in E1. lra. }
  split.
  - intros L. apply rnd_le. apply Rmult_le_compat_r; [lra|]. apply rnd_le. apply IZR_le.
    eapply (to_int_le prec emax); [exact N|exact V1|exact V2|exact R1|exact R2|]. apply rnd_le. apply Rmult_le_compat_r; lra.
  - intros E. rewrite <- rnd_opp. f_equal. rewrite <- Ropp_mult_distr_l_reverse. f_equal. rewrite <- rnd_opp. f_equal. rewrite <- opp_IZR. f_equal.
    assert (EP : rnd (x2 * (1 / r * (1 + e1))) = - rnd (x1 * (1 / r * (1 + e1)))) by (rewrite <- rnd_opp; f_equal; rewrite E; ring).
    rewrite EP in V2, R2. eapply (to_int_opp prec emax); [exact N|exact V1|exact V2|exact R1|exact R2].
Qed.
End Pipe.
