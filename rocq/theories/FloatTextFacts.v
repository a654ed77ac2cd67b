(** Facts about the decimal text of floats in headers (FloatText.v). *)
From Coq Require Import ZArith Reals Psatz List Bool.
From Flocq Require Import Core.
From Verif Require Import Base BaseFacts Types Header ErrorSpec FloatText.
Import ListNotations.
Open Scope Z_scope.

(** *** Rounding an integer ratio *)
Lemma round_div_ratio a b a' b' : 0 < b -> 0 < b' -> a * b' = a' * b -> round_div a b = round_div a' b'.
Proof.
  intros Hb Hb' E. unfold round_div. assert (Q : a / b = a' / b').
  { rewrite <- (Z.div_mul_cancel_r a b b') by lia. rewrite <- (Z.div_mul_cancel_r a' b' b) by lia. rewrite E, (Z.mul_comm b b'). reflexivity. }
  pose proof (Z.div_mod a b ltac:(lia)) as D1. pose proof (Z.div_mod a' b' ltac:(lia)) as D2. rewrite Q in *. set (q := a' / b') in *. set (r := a mod b) in *. set (r' := a' mod b') in *.
  assert (R1 : r * b' = r' * b) by nia. replace (2 * r <? b) with (2 * r' <? b'). 2: { apply Bool.eq_true_iff_eq. rewrite !Z.ltb_lt. nia. }
  replace (b <? 2 * r) with (b' <? 2 * r'); [reflexivity|]. apply Bool.eq_true_iff_eq. rewrite !Z.ltb_lt. nia.
Qed.
Lemma round_div_NE a b : 0 < b -> round_div a b = ZnearestE (IZR a / IZR b).
Proof.
  intros Hb. unfold round_div, Znearest. rewrite Zfloor_div by lia. pose proof (Z.div_mod a b ltac:(lia)) as D. pose proof (Z.mod_pos_bound a b Hb) as Hr. set (q := a / b) in *. set (r := a mod b) in *.
  assert (Hb' : (0 < IZR b)%R) by (apply IZR_lt; lia). assert (E : (IZR a / IZR b - IZR q = IZR r / IZR b)%R) by (rewrite D, plus_IZR, mult_IZR; field; lra). rewrite E.
  assert (G : forall c, Rcompare (IZR r / IZR b) (/ 2) = c <-> Z.compare (2 * r) b = c).
  { intros c. replace (IZR r / IZR b)%R with (IZR r * / IZR b)%R by reflexivity. rewrite <- (Rcompare_mult_r (2 * IZR b)) by lra. replace (IZR r * / IZR b * (2 * IZR b))%R with (IZR (2 * r)) by (rewrite mult_IZR; field; lra). replace (/ 2 * (2 * IZR b))%R with (IZR b) by field. rewrite Rcompare_IZR. reflexivity. }
  assert (C : r <> 0 -> Zceil (IZR a / IZR b) = q + 1).
  { intros N. apply Zceil_imp. rewrite plus_IZR, minus_IZR, plus_IZR. assert (0 < IZR r / IZR b < 1)%R; [|lra]. assert (0 < IZR r < IZR b)%R by (split; apply IZR_lt; lia). split; [apply Rdiv_lt_0_compat; lra|]. apply (Rmult_lt_reg_r (IZR b)); [lra|]. unfold Rdiv. rewrite Rmult_assoc, Rinv_l by lra. lra. }
  destruct (Rcompare (IZR r / IZR b) (/ 2)); pose proof (proj1 (G _) eq_refl) as ZC.
  - apply Z.compare_eq in ZC. replace (2 * r <? b) with false by lia. replace (b <? 2 * r) with false by lia. destruct (Z.even q); cbn [negb]; [reflexivity|]. symmetry. apply C. lia.
  - rewrite Z.compare_lt_iff in ZC. replace (2 * r <? b) with true by lia. reflexivity.
  - rewrite Z.compare_gt_iff in ZC. replace (2 * r <? b) with false by lia. replace (b <? 2 * r) with true by lia. symmetry. apply C. lia.
Qed.
(** *** Powers *)
Definition radix10 : radix := Build_radix 10 eq_refl.
Notation b10 := (bpow radix10).
Notation b2 := (bpow radix2).
Lemma pow_bpow (r : radix) k : 0 <= k -> IZR (Zpower r k) = bpow r k.
Proof. intros H. now rewrite <- IZR_Zpower. Qed.
Lemma pow10 k : 0 <= k -> IZR (10 ^ k) = b10 k.
Proof. intros H. exact (pow_bpow radix10 k H). Qed.
Lemma pow2 k : 0 <= k -> IZR (2 ^ k) = b2 k.
Proof. intros H. exact (pow_bpow radix2 k H). Qed.
Lemma scale10_val num den k a b : 0 < den -> scale10 num den k = (a, b) -> 0 < b /\ (IZR a / IZR b = IZR num / IZR den * b10 k)%R.
Proof.
  intros Hd. unfold scale10. assert (D : (0 < IZR den)%R) by (apply IZR_lt; lia). destruct (Z.leb_spec 0 k) as [Hk|Hk]; intros E; assert (a = fst (a, b)) by reflexivity; assert (b = snd (a, b)) by reflexivity; rewrite <- E in *; cbn [fst snd] in *; subst.
  - split; [exact Hd|]. rewrite mult_IZR, pow10 by lia. field. lra.
  - split; [apply Z.mul_pos_pos; [lia|apply Z.pow_pos_nonneg; lia]|]. rewrite mult_IZR, pow10 by lia. replace k with (- (- k)) at 2 by lia. rewrite (bpow_opp radix10 (- k)). pose proof (bpow_gt_0 radix10 (- k)). field. lra.
Qed.
Lemma ratio_le a b : 0 < b -> (b <= a <-> (1 <= IZR a / IZR b)%R).
Proof.
  intros Hb. assert (B : (0 < IZR b)%R) by (apply IZR_lt; lia). split; intros H.
  - apply (Rmult_le_reg_r (IZR b)); [lra|]. unfold Rdiv. rewrite Rmult_assoc, Rinv_l by lra. rewrite Rmult_1_l, Rmult_1_r. apply IZR_le. lia.
  - apply le_IZR. apply (Rmult_le_compat_r (IZR b)) in H; [|lra]. unfold Rdiv in H. rewrite Rmult_assoc, Rinv_l in H by lra. lra.
Qed.
Lemma decimal_exp_spec num den v : 0 < den -> (v = IZR num / IZR den)%R -> forall n lo, (b10 lo <= v < b10 (lo + Z.of_nat n))%R ->
  let x := decimal_exp n lo num den in lo <= x < lo + Z.of_nat n /\ (b10 x <= v < b10 (x + 1))%R.
Proof.
  intros Hd Hv. induction n as [|n IH]; intros lo H; cbv zeta.
  - exfalso. replace (lo + Z.of_nat 0) with lo in H by lia. lra.
  - cbn [decimal_exp]. destruct (scale10 num den (- (lo + Z.of_nat n))) as [a b] eqn:E. destruct (scale10_val _ _ _ _ _ Hd E) as [Hb HV]. rewrite <- Hv in HV.
    assert (G : b <= a <-> (b10 (lo + Z.of_nat n) <= v)%R).
    { rewrite (ratio_le a b Hb), HV. rewrite bpow_opp. pose proof (bpow_gt_0 radix10 (lo + Z.of_nat n)) as P. split; intros K.
      - apply (Rmult_le_compat_r _ _ _ (Rlt_le _ _ P)) in K. rewrite Rmult_assoc, Rinv_l in K by lra. lra.
      - apply (Rmult_le_reg_r _ _ _ P). rewrite Rmult_assoc, Rinv_l by lra. lra. }
    destruct (Z.leb_spec b a) as [L|L].
    + split; [lia|]. split; [apply G; exact L|]. replace (lo + Z.of_nat n + 1) with (lo + Z.of_nat (S n)) by lia. apply H.
    + destruct (IH lo) as [I1 I2]; [split; [apply H|]; apply Rnot_le_lt; intros K; apply G in K; lia|]. split; [lia|exact I2].
Qed.
Lemma binary_exp_spec num den v : 0 < den -> (v = IZR num / IZR den)%R -> forall n lo, (b2 lo <= v < b2 (lo + Z.of_nat n))%R ->
  let x := binary_exp n lo num den in lo <= x < lo + Z.of_nat n /\ (b2 x <= v < b2 (x + 1))%R.
Proof.
  intros Hd Hv. assert (D : (0 < IZR den)%R) by (apply IZR_lt; lia). assert (VD : (IZR num = v * IZR den)%R) by (rewrite Hv; field; lra).
  induction n as [|n IH]; intros lo H; cbv zeta.
  - exfalso. replace (lo + Z.of_nat 0) with lo in H by lia. lra.
  - cbn [binary_exp]. set (x := lo + Z.of_nat n).
    assert (G : (if 0 <=? x then den * 2 ^ x <=? num else den <=? num * 2 ^ (- x)) = true <-> (b2 x <= v)%R).
    { pose proof (bpow_gt_0 radix2 x) as P. destruct (Z.leb_spec 0 x) as [Hx|Hx]; rewrite Z.leb_le.
      - rewrite <- (pow2 x Hx) in *. split; intros K.
        + apply IZR_le in K. rewrite mult_IZR, VD in K. apply (Rmult_le_reg_r (IZR den)); [lra|]. lra.
        + apply le_IZR. rewrite mult_IZR, VD. apply (Rmult_le_compat_r (IZR den)) in K; lra.
      - assert (EQ : (b2 x * IZR (2 ^ (- x)) = 1)%R) by (rewrite pow2 by lia; rewrite <- bpow_plus; replace (x + - x) with 0 by lia; reflexivity). set (w := IZR (2 ^ (- x))) in *.
        assert (W : (0 < w)%R) by (apply IZR_lt, Z.pow_pos_nonneg; lia). split; intros K.
        + apply IZR_le in K. rewrite mult_IZR, VD in K. fold w in K. apply (Rmult_le_reg_r w); [exact W|]. rewrite EQ. apply (Rmult_le_reg_r (IZR den)); [exact D|]. lra.
        + apply le_IZR. rewrite mult_IZR, VD. fold w. apply (Rmult_le_compat_r w) in K; [|lra]. rewrite EQ in K. apply (Rmult_le_compat_r (IZR den)) in K; lra. }
    destruct (if 0 <=? x then den * 2 ^ x <=? num else den <=? num * 2 ^ (- x)).
    + split; [unfold x; lia|]. split; [apply G; reflexivity|]. replace (x + 1) with (lo + Z.of_nat (S n)) by (unfold x; lia). apply H.
    + destruct (IH lo) as [I1 I2]; [split; [apply H|]; apply Rnot_le_lt; intros K; apply G in K; discriminate|]. split; [lia|exact I2].
Qed.
(** *** strtof's rounding *)
Lemma binary_exp_ratio num den num' den' : 0 < den -> 0 < den' -> num * den' = num' * den -> forall n lo, binary_exp n lo num den = binary_exp n lo num' den'.
Proof.
  intros Hd Hd' E. induction n as [|n IH]; intros lo; [reflexivity|]. cbn [binary_exp]. rewrite IH. set (x := lo + Z.of_nat n).
  assert (G : (if 0 <=? x then den * 2 ^ x <=? num else den <=? num * 2 ^ (- x)) = (if 0 <=? x then den' * 2 ^ x <=? num' else den' <=? num' * 2 ^ (- x))); [|rewrite G; reflexivity].
  destruct (0 <=? x) eqn:Hx; apply Bool.eq_true_iff_eq; rewrite !Z.leb_le.
  - assert (0 < 2 ^ x) by (apply Z.pow_pos_nonneg; lia). set (w := 2 ^ x) in *. split; intros K; nia.
  - assert (0 < 2 ^ (- x)) by (apply Z.pow_pos_nonneg; lia). set (w := 2 ^ (- x)) in *. split; intros K; nia.
Qed.
Lemma round_f32_ratio num den num' den' : 0 < den -> 0 < den' -> num * den' = num' * den -> round_f32 num den = round_f32 num' den'.
Proof.
  intros Hd Hd' E. unfold round_f32. rewrite (binary_exp_ratio num den num' den' Hd Hd' E). set (x := Z.max _ _). cbv zeta.
  destruct (if 0 <=? x - 23 then (num, den * 2 ^ (x - 23)) else (num * 2 ^ (- (x - 23)), den)) as [a b] eqn:EA. destruct (if 0 <=? x - 23 then (num', den' * 2 ^ (x - 23)) else (num' * 2 ^ (- (x - 23)), den')) as [a' b'] eqn:EB.
  assert (G : 0 < b /\ 0 < b' /\ a * b' = a' * b).
  { destruct (0 <=? x - 23) eqn:Hx; assert (a = fst (a, b)) by reflexivity; assert (b = snd (a, b)) by reflexivity; assert (a' = fst (a', b')) by reflexivity; assert (b' = snd (a', b')) by reflexivity; rewrite <- EA, <- EB in *; cbn [fst snd] in *; subst.
    - assert (0 < 2 ^ (x - 23)) by (apply Z.pow_pos_nonneg; lia). set (w := 2 ^ (x - 23)) in *. nia.
    - assert (0 < 2 ^ (- (x - 23))) by (apply Z.pow_pos_nonneg; lia). set (w := 2 ^ (- (x - 23))) in *. nia. }
  destruct G as (Hb & Hb' & G). rewrite (round_div_ratio a b a' b' Hb Hb' G). set (m := round_div a' b').
  replace (m * b =? a) with (m * b' =? a'); [reflexivity|]. apply Bool.eq_true_iff_eq. rewrite !Z.eqb_eq. nia.
Qed.
Lemma float_of_parts x m : -126 <= x <= 126 -> 8388608 <= m <= 16777216 ->
  let r := (x + 126) * 8388608 + m in (8388608 <= r < 2139095040)%Z /\ float_of r = (IZR m * b2 (x - 23))%R.
Proof.
  intros Hx Hm r. split; [unfold r; lia|]. unfold float_of, value. cbv zeta. change (2 ^ 23) with 8388608. change (2 ^ 8) with 256. change (2 ^ (23 + 8)) with 2147483648.
  replace (r / 2147483648) with 0 by (symmetry; apply Z.div_small; unfold r; lia). cbn [Z.odd]. rewrite Rmult_1_l. destruct (Z.eq_dec m 16777216) as [-> | Hm'].
  - replace (r mod 8388608) with 0 by (unfold r; symmetry; rewrite Z.add_comm; rewrite Z_mod_plus_full; reflexivity). replace ((r / 8388608) mod 256) with (x + 128) by (unfold r; replace ((x + 126) * 8388608 + 16777216) with ((x + 128) * 8388608) by ring; rewrite Z.div_mul by lia; symmetry; apply Z.mod_small; lia).
    replace (x + 128 =? 0) with false by lia. change (8388608 + 0) with 8388608. change (2 ^ (8 - 1)) with 128. rewrite powerRZ_Zpower || idtac. change 2%R with (IZR radix2). rewrite <- bpow_powerRZ. replace (x + 128 + 1 - 128 - 23) with ((x - 23) + 1) by ring. rewrite bpow_plus. change (b2 1) with 2%R. lra.
  - replace (r mod 8388608) with (m - 8388608) by (unfold r; replace ((x + 126) * 8388608 + m) with ((m - 8388608) + (x + 127) * 8388608) by ring; rewrite Z_mod_plus_full; symmetry; apply Z.mod_small; lia).
    replace ((r / 8388608) mod 256) with (x + 127). 2: { unfold r. replace ((x + 126) * 8388608 + m) with ((m - 8388608) + (x + 127) * 8388608) by ring. rewrite Z.div_add by lia. rewrite (Z.div_small (m - 8388608)) by lia. symmetry. apply Z.mod_small. lia. }
    replace (x + 127 =? 0) with false by lia. replace (8388608 + (m - 8388608)) with m by ring. change (2 ^ (8 - 1)) with 128. change 2%R with (IZR radix2). rewrite <- bpow_powerRZ. f_equal. f_equal. lia.
Qed.
Definition to_float (v : R) : R := round radix2 (FLT_exp (-149) 24) ZnearestE v.
Lemma round_f32_spec num den v : 0 < den -> (v = IZR num / IZR den)%R -> (b2 (-126) <= v < b2 127)%R ->
  exists b, round_f32 num den = Some b /\ 8388608 <= b < 2139095040 /\ float_of b = to_float v.
Proof.
  intros Hd Hv H. unfold round_f32. destruct (binary_exp_spec num den v Hd Hv 300 (-150)) as [X1 X2].
  { split; [apply Rle_trans with (b2 (-126)); [apply bpow_le; lia|apply H]|apply Rlt_trans with (b2 127); [apply H|apply bpow_lt; lia]]. }
  set (x0 := binary_exp 300 (-150) num den) in *.
  assert (Hx : -126 <= x0 <= 126). { split; [assert (-126 < x0 + 1); [|lia]|assert (x0 < 127); [|lia]]; apply (lt_bpow radix2); lra. }
  replace (Z.max (-126) x0) with x0 by lia. cbv zeta. destruct (if 0 <=? x0 - 23 then (num, den * 2 ^ (x0 - 23)) else (num * 2 ^ (- (x0 - 23)), den)) as [a b] eqn:EA.
  assert (D : (0 < IZR den)%R) by (apply IZR_lt; lia).
  assert (G : 0 < b /\ (IZR a / IZR b = v * b2 (- (x0 - 23)))%R).
  { destruct (Z.leb_spec 0 (x0 - 23)) as [K|K]; assert (a = fst (a, b)) by reflexivity; assert (b = snd (a, b)) by reflexivity; rewrite <- EA in *; cbn [fst snd] in *; subst a b.
    - split; [apply Z.mul_pos_pos; [lia|apply Z.pow_pos_nonneg; lia]|]. rewrite mult_IZR, pow2 by lia. rewrite bpow_opp, Hv. pose proof (bpow_gt_0 radix2 (x0 - 23)). field. lra.
    - split; [exact Hd|]. rewrite mult_IZR, pow2 by lia. rewrite Hv. field. lra. }
  destruct G as [Hb HV]. rewrite (round_div_NE a b Hb), HV. set (w := (v * b2 (- (x0 - 23)))%R).
  assert (W : (8388608 <= w < 16777216)%R).
  { assert (E1 : (b2 x0 * b2 (- (x0 - 23)) = 8388608)%R) by (rewrite <- bpow_plus; replace (x0 + - (x0 - 23)) with 23 by lia; reflexivity). assert (E2 : (b2 (x0 + 1) * b2 (- (x0 - 23)) = 16777216)%R) by (rewrite <- bpow_plus; replace (x0 + 1 + - (x0 - 23)) with 24 by lia; reflexivity).
    pose proof (bpow_gt_0 radix2 (- (x0 - 23))) as P. unfold w. split; [rewrite <- E1; apply Rmult_le_compat_r; lra|rewrite <- E2; apply Rmult_lt_compat_r; lra]. }
  assert (M : 8388608 <= ZnearestE w <= 16777216).
  { split; [rewrite <- (Zrnd_IZR ZnearestE 8388608)|rewrite <- (Zrnd_IZR ZnearestE 16777216)]; apply Zrnd_le; try typeclasses eauto; lra. }
  set (m := ZnearestE w) in *. replace (m <? 8388608) with false by lia. cbn [andb]. destruct (float_of_parts x0 m Hx M) as [R1 R2]. replace (2139095040 <=? (x0 + 126) * 8388608 + m) with false by lia.
  eexists. split; [reflexivity|]. split; [exact R1|]. rewrite R2. unfold to_float, round, F2R, scaled_mantissa, cexp, FLT_exp. cbn [Fnum Fexp].
  assert (MG : mag radix2 v = (x0 + 1) :> Z). { apply mag_unique_pos. replace (x0 + 1 - 1) with x0 by lia. exact X2. }
  rewrite MG. replace (Z.max (x0 + 1 - 24) (-149)) with (x0 - 23) by lia. reflexivity.
Qed.
(** *** The digits printed *)
Lemma frac_val b : 0 < b < 2139095040 -> exists num den, f32_frac b = (num, den) /\ 0 < num /\ 0 < den /\ (IZR num / IZR den = float_of b)%R.
Proof.
  intros Hb. unfold f32_frac, f32_expo, f32_mant. set (e := (b / 8388608) mod 256). set (m := b mod 8388608).
  assert (Hq : b / 8388608 < 256) by (apply Z.div_lt_upper_bound; lia). assert (Hq0 : 0 <= b / 8388608) by (apply Z.div_pos; lia).
  assert (He : e = b / 8388608) by (apply Z.mod_small; lia). assert (Hm : 0 <= m < 8388608) by (apply Z.mod_pos_bound; lia). assert (DM : b = 8388608 * e + m) by (rewrite He; apply Z.div_mod; lia).
  set (M := if e =? 0 then m else m + 8388608). set (E := (if e =? 0 then 1 else e) - 150).
  assert (HM : 0 < M) by (unfold M; destruct (Z.eqb_spec e 0); lia).
  assert (V : float_of b = (IZR M * b2 E)%R).
  { unfold float_of, value. cbv zeta. change (2 ^ 23) with 8388608. change (2 ^ 8) with 256. change (2 ^ (23 + 8)) with 2147483648. rewrite (Z.div_small b 2147483648) by lia. cbn [Z.odd]. rewrite Rmult_1_l. fold e m. unfold M, E.
    change 2%R with (IZR radix2). rewrite <- !bpow_powerRZ. change (2 ^ (8 - 1)) with 128. destruct (e =? 0); [f_equal; f_equal; lia|f_equal; [f_equal; lia|f_equal; lia]]. }
  rewrite V. destruct (Z.leb_spec 0 E) as [K|K].
  - exists (M * 2 ^ E), 1. split; [reflexivity|]. split; [apply Z.mul_pos_pos; [lia|apply Z.pow_pos_nonneg; lia]|]. split; [lia|]. rewrite mult_IZR, pow2 by lia. field.
  - exists M, (2 ^ (- E)). split; [reflexivity|]. split; [exact HM|]. split; [apply Z.pow_pos_nonneg; lia|]. rewrite pow2 by lia. rewrite bpow_opp. pose proof (bpow_gt_0 radix2 E). field. lra.
Qed.
Definition g6_text (d x : Z) : list Z :=
  let ds := fixed_digits 6 d in
  if (x <? -4) || (6 <=? x) then with_fraction (firstn 1 ds) (skipn 1 ds) ++ [101; if x <? 0 then 45 else 43] ++ fixed_digits 2 (Z.abs x)
  else if 0 <=? x then with_fraction (firstn (Z.to_nat (x + 1)) ds) (skipn (Z.to_nat (x + 1)) ds)
  else with_fraction [48] (repeat 48 (Z.to_nat (- x - 1)) ++ ds).
Lemma near_NE w n : (Rabs (w - IZR n) < / 2)%R -> ZnearestE w = n.
Proof. intros H. apply Znearest_imp. exact H. Qed.
Lemma NE_near w : (Rabs (w - IZR (ZnearestE w)) <= / 2)%R.
Proof. exact (Znearest_half _ w). Qed.
Lemma print_digits b v : 0 < b < 2139095040 -> v = float_of b -> (b10 (-46) <= v < b10 44)%R ->
  exists d x, print_g6 b = g6_text d x /\ 100000 <= d <= 999999 /\ -46 <= x <= 44 /\ (Rabs (v * b10 (5 - x) - IZR d) <= / 2)%R /\
    forall d' x', 100000 <= d' <= 999999 -> (Rabs (v * b10 (5 - x') - IZR d') <= IZR d' * / 16777216)%R -> d = d' /\ x = x'.
Proof.
  intros Hb Hv Hr. destruct (frac_val b Hb) as (num & den & HF & Hn & Hd & HV). rewrite <- Hv in HV. symmetry in HV.
  destruct (decimal_exp_spec num den v Hd HV 90 (-46) Hr) as [X1 X2]. set (x0 := decimal_exp 90 (-46) num den) in *.
  destruct (scale10 num den (5 - x0)) as [a c] eqn:ES. destruct (scale10_val _ _ _ _ _ Hd ES) as [Hc HW]. rewrite <- HV in HW. set (w := (v * b10 (5 - x0))%R) in *.
  assert (W : (100000 <= w < 1000000)%R).
  { assert (E1 : (b10 x0 * b10 (5 - x0) = 100000)%R) by (rewrite <- bpow_plus; replace (x0 + (5 - x0)) with 5 by lia; reflexivity). assert (E2 : (b10 (x0 + 1) * b10 (5 - x0) = 1000000)%R) by (rewrite <- bpow_plus; replace (x0 + 1 + (5 - x0)) with 6 by lia; reflexivity).
    pose proof (bpow_gt_0 radix10 (5 - x0)) as P. unfold w. split; [rewrite <- E1; apply Rmult_le_compat_r; lra|rewrite <- E2; apply Rmult_lt_compat_r; lra]. }
  assert (M : 100000 <= ZnearestE w <= 1000000).
  { split; [rewrite <- (Zrnd_IZR ZnearestE 100000)|rewrite <- (Zrnd_IZR ZnearestE 1000000)]; apply Zrnd_le; try typeclasses eauto; lra. }
  assert (HP : print_g6 b = let '(d, x) := if ZnearestE w =? 1000000 then (100000, x0 + 1) else (ZnearestE w, x0) in g6_text d x).
  { unfold print_g6. unfold f32_neg. replace (2147483648 <=? b) with false by lia. replace (f32_expo b =? 255) with false. 2: { symmetry. apply Z.eqb_neq. unfold f32_expo. rewrite Z.mod_small; [|split; [apply Z.div_pos; lia|apply Z.div_lt_upper_bound; lia]]. assert (b / 8388608 < 255) by (apply Z.div_lt_upper_bound; lia). lia. }
    rewrite HF. replace (num =? 0) with false by lia. fold x0. rewrite ES, (round_div_NE a c Hc), HW. fold w. destruct (ZnearestE w =? 1000000); reflexivity. }
  pose proof (NE_near w) as NW.
  assert (U : forall d' x', 100000 <= d' <= 999999 -> (Rabs (v * b10 (5 - x') - IZR d') <= IZR d' * / 16777216)%R ->
    (ZnearestE w = d' /\ x0 = x') \/ (ZnearestE w = 1000000 /\ d' = 100000 /\ x0 = x' - 1)).
  { intros d' x' Hd' H. assert (D1 : (100000 <= IZR d' <= 999999)%R) by (split; apply IZR_le; lia). pose proof (Rabs_le_inv _ _ H) as H'. set (w' := (v * b10 (5 - x'))%R) in *.
    assert (VW : (v = w' * b10 (x' - 5))%R) by (unfold w'; rewrite Rmult_assoc, <- bpow_plus; replace (5 - x' + (x' - 5)) with 0 by lia; cbn; ring).
    pose proof (bpow_gt_0 radix10 (x' - 5)) as P. assert (EX : forall q, (b10 (x' - 5 + q) = b10 q * b10 (x' - 5))%R) by (intros q; rewrite bpow_plus; ring).
    destruct (Rle_or_lt 100000 w') as [L|L].
    - left. assert (x0 = x').
      { assert (x' <= x0 /\ x0 <= x'); [|lia]. split.
        - assert (x' < x0 + 1); [|lia]. apply (lt_bpow radix10). apply Rle_lt_trans with v; [|apply X2]. rewrite VW. replace x' with (x' - 5 + 5) at 1 by lia. rewrite EX. change (b10 5) with 100000%R. apply Rmult_le_compat_r; lra.
        - assert (x0 < x' + 1); [|lia]. apply (lt_bpow radix10). apply Rle_lt_trans with v; [apply X2|]. rewrite VW. replace (x' + 1) with (x' - 5 + 6) by lia. rewrite EX. change (b10 6) with 1000000%R. apply Rmult_lt_compat_r; lra. }
      subst x'. split; [|reflexivity]. apply near_NE. fold w in w'. eapply Rle_lt_trans; [exact H|]. lra.
    - right. assert (d' = 100000). { assert (d' < 100001); [|lia]. apply lt_IZR. lra. } subst d'. assert (x0 = x' - 1).
      { assert (x' - 1 <= x0 /\ x0 <= x' - 1); [|lia]. split.
        - assert (x' - 1 < x0 + 1); [|lia]. apply (lt_bpow radix10). apply Rle_lt_trans with v; [|apply X2]. rewrite VW. replace (x' - 1) with (x' - 5 + 4) at 1 by lia. rewrite EX. change (b10 4) with 10000%R. apply Rmult_le_compat_r; lra.
        - assert (x0 < x'); [|lia]. apply (lt_bpow radix10). apply Rle_lt_trans with v; [apply X2|]. rewrite VW. replace x' with (x' - 5 + 5) at 2 by lia. rewrite EX. change (b10 5) with 100000%R. apply Rmult_lt_compat_r; lra. }
      split; [|split; [reflexivity|assumption]]. apply near_NE. replace w with (10 * w')%R. 2: { unfold w, w'. replace (5 - x0) with (5 - x' + 1) by lia. rewrite bpow_plus. change (b10 1) with 10%R. ring. }
      apply Rabs_lt. lra. }
  destruct (Z.eqb_spec (ZnearestE w) 1000000) as [K|K].
  - exists 100000, (x0 + 1). split; [exact HP|]. split; [lia|]. split; [lia|]. split.
    + rewrite K in NW. replace (v * b10 (5 - (x0 + 1)))%R with (w * / 10)%R. 2: { unfold w. replace (5 - x0) with (5 - (x0 + 1) + 1) by lia. rewrite bpow_plus. change (b10 1) with 10%R. field. }
      apply Rabs_le_inv in NW. apply Rabs_le. lra.
    + intros d' x' Hd' H. destruct (U d' x' Hd' H) as [[U1 U2]|(U1 & U2 & U3)]; lia.
  - exists (ZnearestE w), x0. split; [exact HP|]. split; [lia|]. split; [lia|]. split; [exact NW|].
    intros d' x' Hd' H. destruct (U d' x' Hd' H) as [[U1 U2]|(U1 & U2 & U3)]; [auto|congruence].
Qed.
(** *** Reading the text back *)
Notation all_digits s := (Forall (fun c => 48 <= c <= 57) s).
Lemma isdigit_iff c : isdigit c = true <-> 48 <= c <= 57.
Proof. unfold isdigit. lia. Qed.
Lemma value_acc s : forall a, fold_left (fun a c => 10 * a + (c - 48)) s a = a * 10 ^ zlen s + value_of s.
Proof.
  unfold value_of. induction s as [|c s IH]; intros a; [cbn [fold_left]; change (zlen (@nil Z)) with 0; rewrite Z.pow_0_r; lia|]. cbn [fold_left]. rewrite IH, (IH (10 * 0 + (c - 48))). replace (zlen (c :: s)) with (zlen s + 1) by (unfold zlen; cbn [length]; lia). pose proof (zlen_nonneg s). rewrite Z.pow_add_r by lia. change (10 ^ 1) with 10. ring.
Qed.
Lemma value_app a b : value_of (a ++ b) = value_of a * 10 ^ zlen b + value_of b.
Proof. unfold value_of at 1. rewrite fold_left_app. fold (value_of a). apply value_acc. Qed.
Lemma value_zeros k : value_of (repeat 48 k) = 0.
Proof. induction k as [|k IH]; [reflexivity|]. change (repeat 48 (S k)) with ([48] ++ repeat 48 k). rewrite value_app, IH. reflexivity. Qed.
Lemma fixed_facts n : forall v, 0 <= v -> all_digits (fixed_digits n v) /\ length (fixed_digits n v) = n /\ value_of (fixed_digits n v) = v mod 10 ^ Z.of_nat n.
Proof.
  induction n as [|n IH]; intros v Hv; [repeat split; [constructor|rewrite Z.mod_1_r; reflexivity]|]. cbn [fixed_digits]. destruct (IH (v / 10) ltac:(apply Z.div_pos; lia)) as (I1 & I2 & I3). pose proof (Z.mod_pos_bound v 10 ltac:(lia)). split; [|split].
  - apply Forall_app. split; [exact I1|constructor; [lia|constructor]].
  - rewrite app_length, I2. cbn. lia.
  - rewrite value_app, I3. change (zlen [48 + v mod 10]) with 1. change (10 ^ 1) with 10. unfold value_of. cbn [fold_left]. rewrite Nat2Z.inj_succ, Z.pow_succ_r by lia. rewrite Z.rem_mul_r by (try lia; apply Z.pow_nonzero; lia). lia.
Qed.
Lemma strip_spec s : exists k, s = strip_zeros s ++ repeat 48 k.
Proof.
  assert (D : forall s, exists k, s = repeat 48 k ++ drop_zeros s).
  { induction s0 as [|c s0 (k & IH)]; [exists O; reflexivity|]. cbn [drop_zeros]. destruct (Z.eqb_spec c 48) as [-> | N]; [exists (S k); cbn [repeat app]; congruence|exists O; reflexivity]. }
  destruct (D (rev s)) as (k & H). exists k. unfold strip_zeros. rewrite <- (rev_involutive s) at 1. rewrite H at 1. rewrite rev_app_distr. f_equal. clear. induction k as [|k IH]; [reflexivity|]. cbn [repeat rev]. rewrite IH. clear. induction k as [|k IH]; [reflexivity|]. cbn [repeat app]. rewrite IH. reflexivity.
Qed.
Lemma take_all a : all_digits a -> forall r, (match r with c :: _ => isdigit c = false | [] => True end) -> take_digits (a ++ r) = (a, r).
Proof.
  induction 1 as [|c a Hc _ IH]; intros r Hr.
  - cbn [app]. destruct r as [|c r]; [reflexivity|]. cbn [take_digits]. rewrite Hr. reflexivity.
  - cbn [app take_digits]. rewrite (proj2 (isdigit_iff c) Hc). rewrite (IH r Hr). reflexivity.
Qed.

Lemma scale10_ratio m k m' k' : 0 < m -> 0 < m' -> (IZR m * b10 k = IZR m' * b10 k')%R -> forall num den num' den', scale10 m 1 k = (num, den) -> scale10 m' 1 k' = (num', den') -> round_f32 num den = round_f32 num' den'.
Proof.
  intros Hm Hm' H num den num' den' E E'. destruct (scale10_val m 1 k _ _ ltac:(lia) E) as [D V]. destruct (scale10_val m' 1 k' _ _ ltac:(lia) E') as [D' V'].
  apply round_f32_ratio; try assumption. apply eq_IZR. rewrite !mult_IZR. assert (0 < IZR den)%R by (apply IZR_lt; lia). assert (0 < IZR den')%R by (apply IZR_lt; lia).
  assert (VV : (IZR num / IZR den = IZR num' / IZR den')%R) by (rewrite V, V'; unfold Rdiv; change (IZR 1) with 1%R; rewrite !Rinv_1, !Rmult_1_r; exact H).
  replace (IZR num) with (IZR num / IZR den * IZR den)%R by (field; lra). rewrite VV. field. lra.
Qed.
(** the exponent part *)
Definition exp_part (tail : list Z) (ex : Z) : Prop :=
  (tail = [] /\ ex = 0) \/ (exists sgn ed, tail = 101 :: sgn :: ed /\ all_digits ed /\ ((sgn = 45 /\ ex = - value_of ed) \/ (sgn = 43 /\ ex = value_of ed))).
Definition parse_unsigned (neg : bool) (s1 : list Z) : option Z :=
  let '(int, s2) := take_digits s1 in
  let '(frac, s3) := match s2 with 46 :: t => take_digits t | t => ([], t) end in
  match int ++ frac with
  | [] => None
  | _ =>
      let ex := match s3 with
                | c :: t => if (c =? 101) || (c =? 69) then
                    let '(eneg, t1) := match t with 45 :: u => (true, u) | 43 :: u => (false, u) | u => (false, u) end in
                    let '(ed, _) := take_digits t1 in if (eneg : bool) then - value_of ed else value_of ed
                  else 0
                | [] => 0
                end in
      let m := value_of (int ++ frac) in
      let sg := if (neg : bool) then 2147483648 else 0 in
      if m =? 0 then Some sg
      else
        let '(num, den) := scale10 m 1 (ex - zlen frac) in
        match round_f32 num den with Some r => Some (r + sg) | None => None end
  end.
Lemma first_digit c s : 48 <= c <= 57 -> parse_f32 (c :: s) = parse_unsigned false (c :: s).
Proof.
  intros Hc. assert (Q : c = 48 \/ c = 49 \/ c = 50 \/ c = 51 \/ c = 52 \/ c = 53 \/ c = 54 \/ c = 55 \/ c = 56 \/ c = 57) by lia.
  repeat (destruct Q as [-> | Q]; [reflexivity|]). subst c. reflexivity.
Qed.
Lemma parse_parts int frac tail ex : int <> [] -> all_digits int -> all_digits frac -> exp_part tail ex -> 0 < value_of (int ++ frac) ->
  forall num den, scale10 (value_of (int ++ frac)) 1 (ex - zlen frac) = (num, den) ->
  parse_f32 ((if list_eq_dec Z.eq_dec frac [] then int else int ++ [46] ++ frac) ++ tail) = round_f32 num den.
Proof.
  intros Hi Di Df Ht Hv num den HS. set (s := (if list_eq_dec Z.eq_dec frac [] then int else int ++ [46] ++ frac) ++ tail).
  assert (SP : exists r, s = int ++ r /\ (match r with c :: _ => isdigit c = false | [] => True end) /\ (match r with 46 :: t => take_digits t | t => ([], t) end) = (frac, tail)).
  { assert (TN : match tail with c :: _ => isdigit c = false | [] => True end) by (destruct Ht as [[-> _]|(sgn & ed & -> & _)]; [exact I|reflexivity]).
    unfold s. destruct (list_eq_dec Z.eq_dec frac []) as [-> | Hf].
    - exists tail. split; [reflexivity|]. split; [exact TN|]. destruct Ht as [[-> _]|(sgn & ed & -> & _)]; reflexivity.
    - exists ([46] ++ frac ++ tail). split; [rewrite <- !app_assoc; reflexivity|]. split; [reflexivity|]. cbn [app]. apply (take_all frac Df tail TN). }
  destruct SP as (r & Es & Hr & HR). rewrite Es. destruct int as [|c int]; [congruence|]. change ((c :: int) ++ r) with (c :: (int ++ r)). rewrite (first_digit c (int ++ r) (Forall_inv Di)). change (c :: int ++ r) with ((c :: int) ++ r).
  unfold parse_unsigned. rewrite (take_all _ Di r Hr), HR. change ((c :: int) ++ frac) with (c :: int ++ frac). cbv iota. change (c :: int ++ frac) with ((c :: int) ++ frac).
  set (m := value_of ((c :: int) ++ frac)) in *.
  assert (EX : match tail with
        | c :: t => if (c =? 101) || (c =? 69) then
              let '(eneg, t1) := match t with 45 :: u => (true, u) | 43 :: u => (false, u) | u => (false, u) end in
              let '(ed, _) := take_digits t1 in if (eneg : bool) then - value_of ed else value_of ed
            else 0
        | [] => 0
        end = ex).
  { destruct Ht as [[-> ->]|(sgn & ed & -> & De & [[-> ->]|[-> ->]])]; [reflexivity| |]; cbn [Z.eqb orb]; pose proof (take_all ed De [] I) as T; rewrite app_nil_r in T; change ((101 =? 101) || (101 =? 69)) with true; cbv iota; rewrite T; reflexivity. }
  rewrite EX. replace (m =? 0) with false by lia. rewrite HS. destruct (round_f32 num den) as [q|]; [|reflexivity]. f_equal. lia.
Qed.
Lemma parse_fraction int frac tail ex : int <> [] -> all_digits int -> all_digits frac -> exp_part tail ex -> 0 < value_of (int ++ frac) ->
  forall num den, scale10 (value_of (int ++ frac)) 1 (ex - zlen frac) = (num, den) -> parse_f32 (with_fraction int frac ++ tail) = round_f32 num den.
Proof.
  intros Hi Di Df Ht Hv num den HS. destruct (strip_spec frac) as (k & Ek). set (f := strip_zeros frac) in *.
  assert (W : with_fraction int frac = if list_eq_dec Z.eq_dec f [] then int else int ++ [46] ++ f). { unfold with_fraction. fold f. destruct f; destruct (list_eq_dec _ _ _); congruence. }
  assert (Df' : all_digits f) by (rewrite Ek in Df; apply Forall_app in Df; apply Df).
  assert (VE : value_of (int ++ frac) = value_of (int ++ f) * 10 ^ Z.of_nat k).
  { rewrite Ek at 1. rewrite app_assoc, value_app, value_zeros. unfold zlen. rewrite repeat_length. lia. }
  assert (LE : zlen frac = zlen f + Z.of_nat k) by (rewrite Ek at 1; rewrite zlen_app; unfold zlen; rewrite repeat_length; reflexivity).
  assert (P : 0 < 10 ^ Z.of_nat k) by (apply Z.pow_pos_nonneg; lia). assert (Hv' : 0 < value_of (int ++ f)) by nia.
  rewrite W. destruct (scale10 (value_of (int ++ f)) 1 (ex - zlen f)) as [num' den'] eqn:E'. rewrite (parse_parts int f tail ex Hi Di Df' Ht Hv' num' den' E').
  assert (RE : (IZR (value_of (int ++ f)) * b10 (ex - zlen f) = IZR (value_of (int ++ frac)) * b10 (ex - zlen frac))%R).
  { rewrite VE, LE, mult_IZR, pow10 by lia. rewrite Rmult_assoc, <- bpow_plus. f_equal. f_equal. lia. }
  exact (scale10_ratio _ _ _ _ Hv' Hv RE _ _ _ _ E' HS).
Qed.
Lemma parse_text d x : 100000 <= d <= 999999 -> -99 <= x <= 99 -> forall num den, scale10 d 1 (x - 5) = (num, den) -> parse_f32 (g6_text d x) = round_f32 num den.
Proof.
  intros Hd Hx num den HS. destruct (fixed_facts 6 d ltac:(lia)) as (D1 & D2 & D3). change (10 ^ Z.of_nat 6) with 1000000 in D3. rewrite Z.mod_small in D3 by lia. unfold g6_text. set (ds := fixed_digits 6 d) in *. cbv zeta.
  assert (SP : forall k, (1 <= k <= 6)%nat -> firstn k ds <> [] /\ all_digits (firstn k ds) /\ all_digits (skipn k ds) /\ value_of (firstn k ds ++ skipn k ds) = d /\ zlen (skipn k ds) = 6 - Z.of_nat k).
  { intros k Hk. rewrite firstn_skipn. split; [intros E; apply (f_equal (@length Z)) in E; rewrite firstn_length in E; cbn in E; lia|]. split; [apply Forall_firstn; exact D1|]. split; [apply Forall_skipn; exact D1|]. split; [exact D3|]. unfold zlen. rewrite skipn_length. lia. }
  destruct ((x <? -4) || (6 <=? x)) eqn:C1.
  - destruct (SP 1%nat ltac:(lia)) as (S1 & S2 & S3 & S4 & S5). destruct (fixed_facts 2 (Z.abs x) ltac:(lia)) as (X1 & X2 & X3). change (10 ^ Z.of_nat 2) with 100 in X3. rewrite Z.mod_small in X3 by lia.
    apply (parse_fraction _ _ _ x S1 S2 S3); [|rewrite S4; lia|rewrite S4, S5; exact HS]. right. eexists. eexists. split; [reflexivity|]. split; [exact X1|]. rewrite X3. destruct (x <? 0) eqn:C2; [left|right]; lia.
  - destruct (0 <=? x) eqn:C2.
    + destruct (SP (Z.to_nat (x + 1)) ltac:(lia)) as (S1 & S2 & S3 & S4 & S5). rewrite <- (app_nil_r (with_fraction _ _)). apply (parse_fraction _ _ _ 0 S1 S2 S3); [left; auto|rewrite S4; lia|rewrite S4, S5]. rewrite <- HS. f_equal. lia.
    + rewrite <- (app_nil_r (with_fraction _ _)). assert (Z1 : all_digits (repeat 48 (Z.to_nat (- x - 1)) ++ ds)). { apply Forall_app. split; [|exact D1]. apply Forall_forall. intros c Hc. apply repeat_spec in Hc. lia. }
      assert (V : value_of ([48] ++ repeat 48 (Z.to_nat (- x - 1)) ++ ds) = d). { rewrite app_assoc, value_app. change ([48] ++ repeat 48 (Z.to_nat (- x - 1))) with (repeat 48 (S (Z.to_nat (- x - 1)))). rewrite value_zeros. lia. }
      apply (parse_fraction [48] _ _ 0); [discriminate|constructor; [lia|constructor]|exact Z1|left; auto|rewrite V; lia|]. rewrite V. rewrite <- HS. f_equal. rewrite zlen_app. unfold zlen. rewrite repeat_length. lia.
Qed.
