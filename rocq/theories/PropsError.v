(** C09: error of the lossy float quantiser, in real numbers. *)
From Coq Require Import ZArith Reals Psatz List Bool.
From Coq Require Import Floats.SpecFloat.
From Flocq Require Import Core Relative BinarySingleNaN.
From Verif Require Import Base BaseFacts Types Floats Api Spec LibSpec ErrorSpec FloatReal LocalFacts Cases PropsCloud.
Open Scope Z_scope.
Open Scope R_scope.

(** ** One value *)
Lemma val32 b : finite32 b -> is_val 24 128 (sf32 b) (float_of b).
Proof. intros H. apply (sf_bits_val 23 8); [reflexivity|reflexivity|reflexivity|exact H]. Qed.
Lemma val64 b : finite64 b -> is_val 53 1024 (sf64 b) (double_of b).
Proof. intros H. apply (sf_bits_val 52 11); [reflexivity|reflexivity|reflexivity|exact H]. Qed.
Lemma bits32 f v : is_val 24 128 f v -> finite32 (b32 f) /\ float_of (b32 f) = v.
Proof. intros H. apply (bits_val 23 8); [reflexivity|reflexivity|reflexivity|exact H]. Qed.
Lemma bits64 f v : is_val 53 1024 f v -> finite64 (b64 f) /\ double_of (b64 f) = v.
Proof. intros H. apply (bits_val 52 11); [reflexivity|reflexivity|reflexivity|exact H]. Qed.

Lemma one_val prec emax : (0 < prec)%Z -> (prec < emax)%Z -> is_val prec emax (SpecFloat.binary_normalize prec emax 1 0 false) 1.
Proof.
  intros A B. pose proof (int_val prec emax A B 1) as H.
  assert (E : round radix2 (SpecFloat.fexp prec emax) ZnearestE (IZR 1) = 1).
  { apply round_generic; [apply valid_rnd_N|]. change 1 with (bpow radix2 0).
    apply generic_format_bpow. unfold SpecFloat.fexp, SpecFloat.emin. lia. }
  rewrite E in H. apply H. rewrite Rabs_R1. change 1 with (bpow radix2 0). apply bpow_le. lia.
Qed.

(** widening is exact *)
Lemma widen f x : is_val 24 128 f x -> is_val 53 1024 (to64 f) x.
Proof.
  intros H. destruct (is_val_B 24 128 f x H) as (B & _ & _ & HB).
  assert (L : Rabs x <= bpow radix2 (1024 - 1)).
  { rewrite <- HB. apply Rlt_le. eapply Rlt_le_trans; [apply abs_B2R_lt_emax|]. apply bpow_le. lia. }
  pose proof (sf_round_val 53 1024 eq_refl eq_refl 24 128 f x H L) as V.
  rewrite round_generic in V; [exact V|apply valid_rnd_N|].
  apply generic_inclusion_mag with (SpecFloat.fexp 24 128).
  - intros _. unfold SpecFloat.fexp, SpecFloat.emin. lia.
  - rewrite <- HB. apply generic_format_B2R.
Qed.

Lemma usable_pos r : usable r -> 0 < r /\ bpow radix2 (-100) <= r <= bpow radix2 60.
Proof.
  unfold usable. rewrite !pw2. intros H. split; [|exact H]. pose proof (bpow_gt_0 radix2 (-100)). lra.
Qed.
Lemma inv_range r : usable r -> bpow radix2 (-60) <= 1 / r <= bpow radix2 100.
Proof.
  intros H. destruct (usable_pos r H) as [P [A B]]. unfold Rdiv. rewrite Rmult_1_l. split.
  - change (-60)%Z with (- (60))%Z. rewrite bpow_opp. apply Rinv_le; lra.
  - change 100%Z with (- (-100))%Z. rewrite bpow_opp. apply Rinv_le; [apply bpow_gt_0|lra].
Qed.
Lemma abs_inv r : usable r -> Rabs (1 / r) = 1 / r.
Proof. intros H. pose proof (inv_range r H). pose proof (bpow_gt_0 radix2 (-60)). apply Rabs_right. lra. Qed.

Lemma recip prec emax f r : (24 <= prec <= 53)%Z -> (128 <= emax)%Z -> is_val prec emax f r -> usable r ->
  exists e, Rabs e <= bpow radix2 (- prec) /\
    is_val prec emax (SFdiv prec emax (SpecFloat.binary_normalize prec emax 1 0 false) f) (1 / r * (1 + e)).
Proof.
  intros Hp He F Hr. pose proof (inv_range r Hr) as I. destruct (usable_pos r Hr) as [P _].
  assert (Hp0 : (0 < prec)%Z) by lia. assert (Hpe : (prec < emax)%Z) by lia.
  assert (A : Rabs (1 / r) <= bpow radix2 (emax - 1)).
  { rewrite abs_inv by exact Hr. apply Rle_trans with (1 := proj2 I). apply bpow_le. lia. }
  assert (N0 : r <> 0) by lra.
  pose proof (div_val prec emax Hp0 Hpe _ _ _ _ (one_val prec emax Hp0 Hpe) F N0 A) as V.
  destruct (rnd_rel prec emax Hp0 (1 / r)) as (e & E1 & E2).
  { rewrite abs_inv by exact Hr. apply Rle_trans with (2 := proj1 I). apply bpow_le. unfold SpecFloat.emin. lia. }
  exists e. split; [exact E1|]. rewrite <- E2. exact V.
Qed.

Lemma mult32_val res : finite32 res -> usable (float_of res) ->
  exists e, Rabs e <= 9 / 8 * bpow radix2 (-24) /\ is_val 24 128 (mult32 res) (1 / float_of res * (1 + e)).
Proof.
  intros F Hr. set (r := float_of res) in *. pose proof (widen _ _ (val32 _ F)) as W. fold r in W.
  destruct (recip 53 1024 _ r ltac:(lia) ltac:(lia) W Hr) as (e0 & E0 & V0).
  pose proof (inv_range r Hr) as I. set (x := 1 / r * (1 + e0)) in *.
  assert (U : bpow radix2 (-53) <= / 1000).
  { apply Rle_trans with (bpow radix2 (-24)); [apply bpow_le; lia|]. change (bpow radix2 (-24)) with (/ 16777216). lra. }
  change (bpow radix2 (- (53))) with (bpow radix2 (-53)) in E0.
  assert (E0' := Rabs_le_inv _ _ E0).
  assert (X : bpow radix2 (-61) <= x <= bpow radix2 101).
  { unfold x. change (-61)%Z with (-60 + -1)%Z. change 101%Z with (100 + 1)%Z. rewrite !bpow_plus.
    change (bpow radix2 (-1)) with (/ 2). change (bpow radix2 1) with 2.
    pose proof (bpow_gt_0 radix2 (-60)). split; apply Rmult_le_compat; lra. }
  assert (AX : Rabs x = x) by (apply Rabs_right; pose proof (bpow_gt_0 radix2 (-61)); lra).
  assert (L : Rabs x <= bpow radix2 (128 - 1)).
  { rewrite AX. apply Rle_trans with (1 := proj2 X). apply bpow_le. lia. }
  pose proof (sf_round_val 24 128 eq_refl eq_refl 53 1024 _ x V0 L) as V.
  destruct (rnd_rel 24 128 eq_refl x) as (e & E1 & E2).
  { rewrite AX. apply Rle_trans with (2 := proj1 X). apply bpow_le. unfold SpecFloat.emin. lia. }
  rewrite E2 in V. exists ((1 + e0) * (1 + e) - 1). split.
  - change (bpow radix2 (- (24))) with (bpow radix2 (-24)) in E1.
    assert (K : bpow radix2 (-53) <= / 16 * bpow radix2 (-24)).
    { change (/ 16) with (bpow radix2 (-4)). rewrite <- bpow_plus. apply bpow_le. lia. }
    assert (U24 : 0 < bpow radix2 (-24) <= / 1000).
    { split; [apply bpow_gt_0|]. change (bpow radix2 (-24)) with (/ 16777216). lra. }
    eapply Rle_trans; [apply (mul_err _ _ (/ 16 * bpow radix2 (-24)) (bpow radix2 (-24)))|].
    + rewrite one_plus. lra.
    + rewrite one_plus. exact E1.
    + nra.
  - replace (1 / r * (1 + ((1 + e0) * (1 + e) - 1))) with (x * (1 + e)) by (unfold x; ring). exact V.
Qed.

Lemma z62 : 1 <= bpow radix2 62 <= bpow radix2 62.
Proof. split; [|lra]. change 1 with (bpow radix2 0). apply bpow_le. lia. Qed.

(** FLOAT32 field outside the vector group: any |x| up to 2^62 steps. *)
Theorem C09_bound32 : forall rb xb, let r := float_of rb in let x := float_of xb in
  finite32 rb -> usable r -> finite32 xb -> Rabs x <= powerRZ 2 62 * r ->
  let yb := dequant32 rb (quant32 rb xb) in
  finite32 yb /\ Rabs (float_of yb - x) <= bound32 r x.
Proof.
  intros rb xb r x Fr Hr Fx Hx yb.
  destruct (mult32_val rb Fr Hr) as (e1 & E1 & Vm). fold r in Vm.
  destruct (usable_pos r Hr) as [P RR]. rewrite pw2 in Hx.
  destruct (pipeline 24 128 ltac:(lia) ltac:(lia) round_away INT64_MIN INT64_MAX (bpow radix2 62)
    (sf32 xb) (mult32 rb) (sf32 rb) x r e1 round_away_near z62) as (y & V & B); try assumption.
  - change (bpow radix2 62) with 4611686018427387904. change (IZR INT64_MIN) with (-9223372036854775808). lra.
  - change (bpow radix2 62) with 4611686018427387904. change (IZR INT64_MAX) with (9223372036854775807). lra.
  - apply val32; exact Fx.
  - apply val32; exact Fr.
  - destruct (bits32 _ _ V) as [F Y]. split; [exact F|]. unfold bound32. rewrite pw2.
    change (Rabs (float_of (b32 (SFmul 24 128 (z32 (quant32 rb xb)) (sf32 rb))) - x) <= r / 2 + bpow radix2 (-24) * (5 * Rabs x + 2 * r)).
    replace (float_of (b32 (SFmul 24 128 (z32 (quant32 rb xb)) (sf32 rb)))) with y by (symmetry; exact Y). exact B.
Qed.

(** FLOAT64 field; the resolution is still a float. *)
Theorem C09_bound64 : forall rb xb, let r := float_of rb in let x := double_of xb in
  finite32 rb -> usable r -> finite64 xb -> Rabs x <= powerRZ 2 62 * r ->
  let yb := dequant64 rb (quant64 rb xb) in
  finite64 yb /\ Rabs (double_of yb - x) <= bound64 r x.
Proof.
  intros rb xb r x Fr Hr Fx Hx yb.
  pose proof (widen _ _ (val32 _ Fr)) as W. fold r in W.
  destruct (recip 53 1024 _ r ltac:(lia) ltac:(lia) W Hr) as (e1 & E1 & Vm).
  destruct (usable_pos r Hr) as [P RR]. rewrite pw2 in Hx.
  destruct (pipeline 53 1024 ltac:(lia) ltac:(lia) round_away INT64_MIN INT64_MAX (bpow radix2 62)
    (sf64 xb) (mult64 rb) (to64 (sf32 rb)) x r e1 round_away_near z62) as (y & V & B); try assumption.
  - change (bpow radix2 62) with 4611686018427387904. change (IZR INT64_MIN) with (-9223372036854775808). lra.
  - change (bpow radix2 62) with 4611686018427387904. change (IZR INT64_MAX) with (9223372036854775807). lra.
  - apply val64; exact Fx.
  - pose proof (bpow_gt_0 radix2 (- (53))). lra.
  - destruct (bits64 _ _ V) as [F Y]. split; [exact F|]. unfold bound64. rewrite pw2.
    change (Rabs (double_of (b64 (SFmul 53 1024 (z64 (quant64 rb xb)) (to64 (sf32 rb)))) - x) <= r / 2 + bpow radix2 (-53) * (5 * Rabs x + 2 * r)).
    replace (double_of (b64 (SFmul 53 1024 (z64 (quant64 rb xb)) (to64 (sf32 rb))))) with y by (symmetry; exact Y). exact B.
Qed.

(** The vector group (x, y, z, i): 32-bit integers, |x| up to 2^30 steps; with and without SSE. *)
Lemma boundN rd rb xb : (forall m e, (0 < m)%Z -> Rabs (IZR (rd m e) - IZR m * powerRZ 2 e) <= / 2) ->
  let r := float_of rb in let x := float_of xb in
  finite32 rb -> usable r -> finite32 xb -> Rabs x <= powerRZ 2 30 * r ->
  let yb := dequantN rb (sf_to_int rd INT32_MIN 2147483647 (SFmul 24 128 (sf32 xb) (multN rb))) in
  finite32 yb /\ Rabs (float_of yb - x) <= bound32 r x.
Proof.
  intros N r x Fr Hr Fx Hx yb.
  destruct (recip 24 128 _ r ltac:(lia) ltac:(lia) (val32 rb Fr) Hr) as (e1 & E1 & Vm).
  destruct (usable_pos r Hr) as [P RR]. rewrite pw2 in Hx.
  destruct (pipeline 24 128 ltac:(lia) ltac:(lia) rd INT32_MIN 2147483647 (bpow radix2 30)
    (sf32 xb) (multN rb) (sf32 rb) x r e1 N) as (y & V & B); try assumption.
  - split; [change 1 with (bpow radix2 0)|]; apply bpow_le; lia.
  - change (bpow radix2 30) with 1073741824. change (IZR INT32_MIN) with (-2147483648). lra.
  - change (bpow radix2 30) with 1073741824. lra.
  - apply val32; exact Fx.
  - apply val32; exact Fr.
  - pose proof (bpow_gt_0 radix2 (- (24))). lra.
  - destruct (bits32 _ _ V) as [F Y]. split; [exact F|]. unfold bound32. rewrite pw2.
    change (Rabs (float_of (b32 (SFmul 24 128 (z32 (sf_to_int rd INT32_MIN 2147483647 (SFmul 24 128 (sf32 xb) (multN rb)))) (sf32 rb))) - x) <= r / 2 + bpow radix2 (-24) * (5 * Rabs x + 2 * r)).
    replace (float_of (b32 (SFmul 24 128 (z32 (sf_to_int rd INT32_MIN 2147483647 (SFmul 24 128 (sf32 xb) (multN rb)))) (sf32 rb)))) with y by (symmetry; exact Y). exact B.
Qed.
Theorem C09_boundN : forall rb xb, let r := float_of rb in let x := float_of xb in
  finite32 rb -> usable r -> finite32 xb -> Rabs x <= powerRZ 2 30 * r ->
  (let yb := dequantN rb (quantN_sse rb xb) in finite32 yb /\ Rabs (float_of yb - x) <= bound32 r x) /\
  (let yb := dequantN rb (quantN_scalar rb xb) in finite32 yb /\ Rabs (float_of yb - x) <= bound32 r x).
Proof.
  intros rb xb r x Fr Hr Fx Hx. split.
  - exact (boundN round_even rb xb round_even_near Fr Hr Fx Hx).
  - exact (boundN round_away rb xb round_away_near Fr Hr Fx Hx).
Qed.

(** ** Whole clouds *)
Lemma to_int_range rd imin imax f : (imin <= 0 <= imax)%Z -> (imin <= sf_to_int rd imin imax f <= imax)%Z.
Proof.
  intros H. unfold sf_to_int. destruct f as [s|s| |s m e]; try lia.
  cbv zeta. destruct (Z.leb_spec imin (cond_Zopp s (rd (Z.pos m) e))), (Z.leb_spec (cond_Zopp s (rd (Z.pos m) e)) imax); cbn [andb]; lia.
Qed.
Lemma finite_nan32 b : finite32 b -> isnan32 b = false.
Proof.
  intros [H1 H2]. unfold isnan32. change (2 ^ 23)%Z with 8388608%Z in H2. change (2 ^ 8)%Z with 256%Z in H2.
  destruct (Z.eqb_spec ((b / 8388608) mod 256) 255) as [E|E]; [|reflexivity]. exfalso. apply H2. exact E.
Qed.
Lemma finite_nan64 b : finite64 b -> isnan64 b = false.
Proof.
  intros [H1 H2]. unfold isnan64. change (2 ^ 52)%Z with 4503599627370496%Z in H2. change (2 ^ 11)%Z with 2048%Z in H2.
  destruct (Z.eqb_spec ((b / 4503599627370496) mod 2048) 2047) as [E|E]; [|reflexivity]. exfalso. apply H2. exact E.
Qed.
Lemma finite_u32 b : finite32 b -> (0 <= b < 4294967296)%Z.
Proof. intros [H _]. exact H. Qed.
Lemma finite_u64 b : finite64 b -> (0 <= b < 18446744073709551616)%Z.
Proof. intros [H _]. exact H. Qed.

(** which quantiser a lossy field goes through *)
Lemma lead_run_float fs f : In f (firstn (lead_run fs) fs) -> f_type f = FLOAT32.
Proof.
  induction fs as [|[nm o t r] fs IH]; cbn [lead_run]; [intros []|].
  destruct t; try (intros []; fail). destruct r as [r|]; [|intros []].
  cbn [firstn]. intros [<- | H]; [reflexivity|apply IH; exact H].
Qed.
Lemma combine_map {A B} (g : A -> B) l a b : In (a, b) (combine l (map g l)) -> In a l /\ b = g a.
Proof.
  induction l as [|x l IH]; cbn; [intros []|]. intros [H|H]; [injection H as <- <-; auto|]. destruct (IH H). auto.
Qed.
Lemma combine_app2 {A B} (a b : list A) (c d : list B) : length a = length c ->
  combine (a ++ b) (c ++ d) = combine a c ++ combine b d.
Proof.
  revert c. induction a as [|x a IH]; intros [|y c] H; try discriminate H; [reflexivity|].
  cbn. f_equal. apply IH. injection H as H. exact H.
Qed.
Lemma kind_cases i f k : i_enc i = ENC_LOSSY -> In (f, k) (combine (i_fields i) (kinds i)) ->
  (f_type f = FLOAT32 /\ k = vector_kind f) \/ k = lossy_kind f.
Proof.
  intros HE. unfold kinds. rewrite HE. set (n := lead_run (i_fields i)).
  destruct ((n =? 3)%nat || (n =? 4)%nat).
  - rewrite <- (firstn_skipn n (i_fields i)) at 1. rewrite combine_app2 by (rewrite map_length; reflexivity).
    intros H. apply in_app_or in H. destruct H as [H|H]; apply combine_map in H; destruct H as [H ->]; [left|right; reflexivity].
    split; [|reflexivity]. apply lead_run_float with (i_fields i). exact H.
  - intros H. apply combine_map in H. destruct H as [_ ->]. right. reflexivity.
Qed.

Lemma recon32 ops rb xb bs : ops = sse_ops \/ ops = scalar_ops -> le_val bs = xb ->
  finite32 rb -> usable (float_of rb) -> finite32 xb -> Rabs (float_of xb) <= powerRZ 2 30 * float_of rb ->
  forall k, k = K32 rb \/ k = KN rb ->
  finite32 (le_val (recon ops k bs)) /\ Rabs (float_of (le_val (recon ops k bs)) - float_of xb) <= bound32 (float_of rb) (float_of xb).
Proof.
  intros HO HX Fr Hr Fx Hx k HK.
  assert (Hx' : Rabs (float_of xb) <= powerRZ 2 62 * float_of rb).
  { apply Rle_trans with (1 := Hx). apply Rmult_le_compat_r; [destruct (usable_pos _ Hr); lra|].
    rewrite !pw2. apply bpow_le. lia. }
  destruct HK as [-> | ->]; cbn [recon]; rewrite HX, (finite_nan32 xb Fx).
  - assert (E : u32 (d32 ops rb (s64 (q32 ops rb xb))) = dequant32 rb (quant32 rb xb)).
    { assert (Q : s64 (quant32 rb xb) = quant32 rb xb).
      { apply s64_id. pose proof (to_int_range round_away INT64_MIN INT64_MAX (SFmul 24 128 (sf32 xb) (mult32 rb)) ltac:(unfold INT64_MIN, INT64_MAX; lia)) as H.
        change (INT64_MIN <= quant32 rb xb <= INT64_MAX)%Z in H. unfold INT64_MIN, INT64_MAX in H. lia. }
      destruct HO as [-> | ->]; cbn [d32 q32 sse_ops scalar_ops]; rewrite Q; unfold u32; apply Z.mod_small;
      apply finite_u32; exact (proj1 (C09_bound32 rb xb Fr Hr Fx Hx')). }
    rewrite E. pose proof (C09_bound32 rb xb Fr Hr Fx Hx') as H. cbv zeta in H.
    rewrite le_val_le_bytes, Z.mod_small; [exact H|]. apply finite_u32. exact (proj1 H).
  - destruct (C09_boundN rb xb Fr Hr Fx Hx) as [H1 H2]. cbv zeta in H1, H2.
    assert (W : forall rd, (forall m e, (0 < m)%Z -> Rabs (IZR (rd m e) - IZR m * powerRZ 2 e) <= / 2) ->
       let q := sf_to_int rd INT32_MIN 2147483647 (SFmul 24 128 (sf32 xb) (multN rb)) in
       u32 (dequantN rb (s32 q)) = dequantN rb q).
    { intros rd N q. assert (Q : s32 q = q).
      { apply s32_id. pose proof (to_int_range rd INT32_MIN 2147483647 (SFmul 24 128 (sf32 xb) (multN rb)) ltac:(unfold INT32_MIN; lia)) as H.
        fold q in H. unfold INT32_MIN in H. lia. }
      rewrite Q. unfold u32. apply Z.mod_small. apply finite_u32. exact (proj1 (boundN rd rb xb N Fr Hr Fx Hx)). }
    destruct HO as [-> | ->]; cbn [dN qN sse_ops scalar_ops].
    + pose proof (W round_even round_even_near) as E. cbv zeta in E. fold (quantN_sse rb xb) in E. rewrite E.
      rewrite le_val_le_bytes, Z.mod_small; [exact H1|]. apply finite_u32. exact (proj1 H1).
    + pose proof (W round_away round_away_near) as E. cbv zeta in E. fold (quantN_scalar rb xb) in E. rewrite E.
      rewrite le_val_le_bytes, Z.mod_small; [exact H2|]. apply finite_u32. exact (proj1 H2).
Qed.

Lemma recon64 ops rb xb bs : ops = sse_ops \/ ops = scalar_ops -> le_val bs = xb ->
  finite32 rb -> usable (float_of rb) -> finite64 xb -> Rabs (double_of xb) <= powerRZ 2 62 * float_of rb ->
  finite64 (le_val (recon ops (K64 rb) bs)) /\
  Rabs (double_of (le_val (recon ops (K64 rb) bs)) - double_of xb) <= bound64 (float_of rb) (double_of xb).
Proof.
  intros HO HX Fr Hr Fx Hx. cbn [recon]. rewrite HX, (finite_nan64 xb Fx).
  pose proof (C09_bound64 rb xb Fr Hr Fx Hx) as H. cbv zeta in H.
  assert (E : u64 (d64 ops rb (s64 (q64 ops rb xb))) = dequant64 rb (quant64 rb xb)).
  { assert (Q : s64 (quant64 rb xb) = quant64 rb xb).
    { apply s64_id. pose proof (to_int_range round_away INT64_MIN INT64_MAX (SFmul 53 1024 (sf64 xb) (mult64 rb)) ltac:(unfold INT64_MIN, INT64_MAX; lia)) as H'.
      change (INT64_MIN <= quant64 rb xb <= INT64_MAX)%Z in H'. unfold INT64_MIN, INT64_MAX in H'. lia. }
    destruct HO as [-> | ->]; cbn [d64 q64 sse_ops scalar_ops]; rewrite Q; unfold u64; apply Z.mod_small; apply finite_u64; exact (proj1 H). }
  rewrite E. rewrite le_val_le_bytes, Z.mod_small; [exact H|]. apply finite_u64. exact (proj1 H).
Qed.

(** What the encoder made of [cloud], decoded: every finite sample of a field with a usable
    resolution comes back finite, within the bound of the original, at every point. *)
Theorem C09_cloud : forall ops L ppc probe i i' hdr0 e cloud hdr body n buf mem buf' mem',
  ops = sse_ops \/ ops = scalar_ops ->
  libs_ok L -> bytes hdr0 -> encode_side ppc i cloud -> decode_side i i' -> deltas_ok ops i ppc cloud ->
  encoder_of ops L ppc probe i (Ok hdr0) e -> produces ops L ppc probe e cloud hdr body ->
  (zlen body < 1431260227)%Z -> (zlen cloud = Z.of_nat n * i_step i)%Z -> declares i' n ->
  (Z.of_nat n * i_step i' <= zlen mem)%Z -> i_enc i = ENC_LOSSY ->
  decode ops L ppc i' body buf mem = Ok (buf', mem') ->
  forall (a j : nat) f f' rb, (j < n)%nat ->
    nth_error (i_fields i) a = Some f -> nth_error (i_fields i') a = Some f' -> stored f' = true ->
    f_res f = Some rb -> finite32 rb -> usable (float_of rb) ->
    let r := float_of rb in
    (f_type f = FLOAT32 ->
       let xb := le_val (sub (Z.of_nat j * i_step i + f_off f) 4 cloud) in
       let yb := le_val (sub (Z.of_nat j * i_step i' + f_off f') 4 mem') in
       finite32 xb -> Rabs (float_of xb) <= powerRZ 2 30 * r ->
       finite32 yb /\ Rabs (float_of yb - float_of xb) <= bound32 r (float_of xb)) /\
    (f_type f = FLOAT64 ->
       let xb := le_val (sub (Z.of_nat j * i_step i + f_off f) 8 cloud) in
       let yb := le_val (sub (Z.of_nat j * i_step i' + f_off f') 8 mem') in
       finite64 xb -> Rabs (double_of xb) <= powerRZ 2 62 * r ->
       finite64 yb /\ Rabs (double_of yb - double_of xb) <= bound64 r (double_of xb)).
Proof.
  intros ops L ppc probe i i' hdr0 e cloud hdr body n buf mem buf' mem' HO HL Hh HES HDS HD HEo HPr Hz Hlen Hdec Hm HLy HOk a j f f' rb Hj Hf Hf' Hst Hres Fr Hr r.
  destruct (C17_never_wrong ops L ppc probe i i' hdr0 e cloud hdr body n buf mem HL Hh HES HDS HD HEo HPr Hz Hlen Hdec Hm) as [(b2 & m2 & E & R)|E]; [|congruence].
  assert (m2 = mem') by congruence. subst m2.
  assert (LK : length (kinds i) = length (i_fields i)).
  { unfold kinds. rewrite HLy. destruct (_ || _); [|apply map_length]. rewrite app_length, !map_length, <- app_length, firstn_skipn. reflexivity. }
  assert (La : (a < length (i_fields i))%nat) by (apply nth_error_Some; congruence).
  destruct (nth_error (kinds i) a) as [k|] eqn:Ek; [|apply nth_error_None in Ek; lia].
  assert (HC : forall (A B : Type) (l1 : list A) (l2 : list B) n x y, nth_error l1 n = Some x -> nth_error l2 n = Some y -> nth_error (combine l1 l2) n = Some (x, y)).
  { clear. intros A B l1. induction l1 as [|a1 l1 IH]; intros [|b1 l2] [|n] x y H1 H2; cbn in *; try discriminate; [congruence|eauto]. }
  pose proof (HC _ _ _ _ _ _ _ Hf Ek) as H1. pose proof (HC _ _ _ _ _ _ _ Hf' H1) as H2.
  apply nth_error_In in H1. apply nth_error_In in H2.
  destruct R as (_ & R & _). specialize (R j f' f k Hj H2 Hst). unfold fbytes in R.
  pose proof (kind_cases i f k HLy H1) as KC.
  split; intros HT xb yb Fx Hx; rewrite HT in R; cbn [SizeOf] in R; unfold yb; rewrite R.
  - apply recon32; try assumption; [reflexivity|]. destruct KC as [[_ ->] | ->].
    + right. unfold vector_kind. rewrite Hres. reflexivity.
    + left. unfold lossy_kind. rewrite HT, Hres. reflexivity.
  - destruct KC as [[KC _] | ->]; [congruence|]. unfold lossy_kind. rewrite HT, Hres.
    apply recon64; try assumption. reflexivity.
Qed.

(** Up to 2^20 steps from zero (2^49 for doubles) the bound is less than one step. *)
Theorem C09_one_step : forall r x, 0 < r ->
  (Rabs x <= powerRZ 2 20 * r -> bound32 r x < r) /\ (Rabs x <= powerRZ 2 49 * r -> bound64 r x < r).
Proof.
  intros r x Hr. unfold bound32, bound64. rewrite !pw2.
  change (bpow radix2 20) with 1048576. change (bpow radix2 49) with 562949953421312.
  change (bpow radix2 (-24)) with (/ 16777216). change (bpow radix2 (-53)) with (/ 9007199254740992). split; intros H; lra.
Qed.
(** ** Half a step is not enough *)
(** 1 mm: at 75.3 m the decoded sample is more than half a step away, at 92 km more than
    seven steps; at 1 m (exactly representable step counts) still more than half a step. *)
Definition mm : Z := 981668463.
Theorem C09_half_resolution_refuted : exists rb xb1 xb2 xb3,
  finite32 rb /\ usable (float_of rb) /\
  (finite32 xb1 /\ 0 < float_of xb1 < 1 /\ Rabs (float_of (dequant32 rb (quant32 rb xb1)) - float_of xb1) > float_of rb / 2) /\
  (finite32 xb2 /\ 75 < float_of xb2 < 76 /\ Rabs (float_of (dequant32 rb (quant32 rb xb2)) - float_of xb2) > float_of rb / 2) /\
  (finite32 xb3 /\ 92068 < float_of xb3 < 92069 /\ Rabs (float_of (dequant32 rb (quant32 rb xb3)) - float_of xb3) > 7 * float_of rb).
Proof.
  assert (FE : forall b m e, finite32 b -> (b / 2 ^ 31 = 0)%Z -> ((b / 2 ^ 23) mod 2 ^ 8 =? 0)%Z = false -> (2 ^ 23 + b mod 2 ^ 23)%Z = m -> ((b / 2 ^ 23) mod 2 ^ 8 - 150)%Z = (- (Z.pos e))%Z ->
     float_of b = IZR m * / (2 ^ Pos.to_nat e)).
  { intros b m e _ H1 H2 H3 H4. unfold float_of, value. cbv zeta. change (23 + 8)%Z with 31%Z. rewrite H1, H2, H3.
    replace ((b / 2 ^ 23) mod 2 ^ 8 + 1 - 2 ^ (8 - 1) - 23)%Z with (- Z.pos e)%Z by (rewrite <- H4; change (2 ^ (8 - 1))%Z with 128%Z; ring).
    cbn [Z.odd Z.opp powerRZ]. ring. }
  exists mm, 1059070149%Z, 1117167354%Z, 1202967122%Z.
  assert (R0 : float_of 981668463 = 8589935 * / (2 ^ 33)) by (apply (FE 981668463%Z 8589935%Z 33%positive); [split; [split; [discriminate|reflexivity]|discriminate]|reflexivity|reflexivity|reflexivity|reflexivity]).
  assert (X1 : float_of 1059070149 = 10494149 * / (2 ^ 24)) by (apply (FE 1059070149%Z 10494149%Z 24%positive); [split; [split; [discriminate|reflexivity]|discriminate]|reflexivity|reflexivity|reflexivity|reflexivity]).
  assert (Y1 : float_of 1059078538 = 10502538 * / (2 ^ 24)) by (apply (FE 1059078538%Z 10502538%Z 24%positive); [split; [split; [discriminate|reflexivity]|discriminate]|reflexivity|reflexivity|reflexivity|reflexivity]).
  assert (Q1 : dequant32 mm (quant32 mm 1059070149) = 1059078538%Z) by (vm_compute; reflexivity).
  assert (X2 : float_of 1117167354 = 9871098 * / (2 ^ 17)) by (apply (FE 1117167354%Z 9871098%Z 17%positive); [split; [split; [discriminate|reflexivity]|discriminate]|reflexivity|reflexivity|reflexivity|reflexivity]).
  assert (Y2 : float_of 1117167420 = 9871164 * / (2 ^ 17)) by (apply (FE 1117167420%Z 9871164%Z 17%positive); [split; [split; [discriminate|reflexivity]|discriminate]|reflexivity|reflexivity|reflexivity|reflexivity]).
  assert (Q2 : dequant32 mm (quant32 mm 1117167354) = 1117167420%Z) by (vm_compute; reflexivity).
  assert (X3 : float_of 1202967122 = 11784786 * / (2 ^ 7)) by (apply (FE 1202967122%Z 11784786%Z 7%positive); [split; [split; [discriminate|reflexivity]|discriminate]|reflexivity|reflexivity|reflexivity|reflexivity]).
  assert (Y3 : float_of 1202967121 = 11784785 * / (2 ^ 7)) by (apply (FE 1202967121%Z 11784785%Z 7%positive); [split; [split; [discriminate|reflexivity]|discriminate]|reflexivity|reflexivity|reflexivity|reflexivity]).
  assert (Q3 : dequant32 mm (quant32 mm 1202967122) = 1202967121%Z) by (vm_compute; reflexivity).
  unfold mm in *. rewrite Q1, Q2, Q3, X1, X2, X3, Y1, Y2, Y3, R0.
  split; [split; [split; [discriminate|reflexivity]|discriminate]|].
  split.
  { unfold usable. rewrite !pw2. split.
    - apply Rle_trans with (bpow radix2 (-20)); [apply bpow_le; lia|]. change (bpow radix2 (-20)) with (/ 1048576). lra.
    - apply Rle_trans with (bpow radix2 0); [change (bpow radix2 0) with 1; lra|]. apply bpow_le. lia. }
  split; [|split].
  - split; [split; [split; [discriminate|reflexivity]|discriminate]|]. split; [lra|]. rewrite Rabs_right; lra.
  - split; [split; [split; [discriminate|reflexivity]|discriminate]|]. split; [lra|]. rewrite Rabs_right; lra.
  - split; [split; [split; [discriminate|reflexivity]|discriminate]|]. split; [lra|]. rewrite Rabs_left; lra.
Qed.
Print Assumptions C09_bound32.
Print Assumptions C09_bound64.
Print Assumptions C09_boundN.
Print Assumptions C09_cloud.
Print Assumptions C09_half_resolution_refuted.
Print Assumptions C09_one_step.

(** The hypotheses are met: the scan of C17_case (which shows the others), its x of 1.5 at 1 mm. *)
Lemma milli_val : float_of mm = 8589935 * / (2 ^ 33).
Proof. unfold float_of, value. cbn -[pow powerRZ]. change (Z.pos_sub 118 127) with (-9)%Z. cbn -[pow]. rewrite Rmult_1_l. reflexivity. Qed.
Lemma milli_usable : usable (float_of mm).
Proof.
  rewrite milli_val. unfold usable. rewrite !pw2. split.
  - apply Rle_trans with (bpow radix2 (-20)); [apply bpow_le; lia|]. change (bpow radix2 (-20)) with (/ 1048576). lra.
  - apply Rle_trans with (bpow radix2 0); [change (bpow radix2 0) with 1; lra|]. apply bpow_le. lia.
Qed.
Example C09_case : let i := scan 5 3 COMP_NONE in
  i_enc i = ENC_LOSSY /\ nth_error (i_fields i) 0 = Some (fld 120 0 FLOAT32 (Some mm)) /\ finite32 mm /\ usable (float_of mm) /\
  let xb := le_val (sub (Z.of_nat 0 * i_step i + 0) 4 scan_cloud) in
  xb = 1069547520%Z /\ finite32 xb /\ float_of xb = 3 / 2 /\ Rabs (float_of xb) <= powerRZ 2 20 * float_of mm.
Proof.
  cbv zeta. split; [reflexivity|]. split; [reflexivity|]. split; [split; [split; [discriminate|reflexivity]|discriminate]|].
  split; [exact milli_usable|].
  assert (E : le_val (sub (Z.of_nat 0 * i_step (scan 5 3 COMP_NONE) + 0) 4 scan_cloud) = 1069547520%Z) by (vm_compute; reflexivity).
  rewrite E. split; [reflexivity|]. split; [split; [split; [discriminate|reflexivity]|discriminate]|].
  assert (V : float_of 1069547520 = 3 / 2).
  { replace (float_of 1069547520) with (1 * (12582912 * powerRZ 2 (-23))); [change (-23)%Z with (- 23)%Z; rewrite pw2; change (bpow radix2 (- 23)) with (/ 8388608); lra|]. reflexivity. }
  rewrite V. split; [reflexivity|]. rewrite milli_val, pw2, Rabs_right by lra. change (bpow radix2 20) with 1048576. lra.
Qed.
