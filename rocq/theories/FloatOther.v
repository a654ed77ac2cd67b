(** The decoder's multiplication with a resolution that is off by one part in 2^17. *)
From Coq Require Import ZArith Reals Psatz List Bool.
From Coq Require Import Floats.SpecFloat.
From Flocq Require Import Core Relative BinarySingleNaN.
From Verif Require Import Base BaseFacts Types Floats Api Spec LibSpec ErrorSpec FloatReal PropsError.
Open Scope Z_scope.
Open Scope R_scope.

Lemma second prec emax f v fr r fr' r' : (24 <= prec <= 53)%Z -> (128 <= emax)%Z ->
  is_val prec emax f v -> is_val prec emax fr r -> is_val prec emax fr' r' ->
  bpow radix2 (-100) <= r <= bpow radix2 60 -> Rabs (r' - r) <= / 131072 * r -> Rabs v <= bpow radix2 64 ->
  exists y y', is_val prec emax (SFmul prec emax f fr) y /\ is_val prec emax (SFmul prec emax f fr') y' /\
    Rabs (y' - y) <= / 131072 * (33 / 32 * Rabs y + r / 32).
Proof.
  intros Hp He V Fr Fr' Hr Hd Hv. assert (Hp0 : (0 < prec)%Z) by lia. assert (Hpe : (prec < emax)%Z) by lia.
  pose proof (bpow_gt_0 radix2 (-100)) as P100. assert (r0 : 0 < r) by lra. apply Rabs_le_inv in Hd.
  set (u := bpow radix2 (- prec)). assert (U : 0 < u <= / 16777216).
  { split; [apply bpow_gt_0|]. change (/ 16777216) with (bpow radix2 (-24)). apply bpow_le. lia. }
  set (t := bpow radix2 (SpecFloat.emin prec emax - 1)). assert (T1 : 0 <= t) by apply bpow_ge_0.
  assert (T2 : t <= / 134217728 * r).
  { apply Rle_trans with (/ 134217728 * bpow radix2 (-100)); [|lra]. change (/ 134217728) with (bpow radix2 (-27)). unfold t. rewrite <- bpow_plus. apply bpow_le. unfold SpecFloat.emin. lia. }
  assert (big : bpow radix2 126 <= bpow radix2 (emax - 1)) by (apply bpow_le; lia).
  assert (B126 : bpow radix2 64 * bpow radix2 60 * 2 = bpow radix2 125) by (rewrite <- bpow_plus; change 2 with (bpow radix2 1); rewrite <- bpow_plus; reflexivity).
  assert (B1 : bpow radix2 125 <= bpow radix2 126) by (apply bpow_le; lia).
  pose proof (bpow_gt_0 radix2 64) as P64. pose proof (bpow_gt_0 radix2 60) as P60.
  assert (W : Rabs (v * r) <= bpow radix2 64 * bpow radix2 60) by (rewrite Rabs_mult, (Rabs_right r) by lra; apply Rmult_le_compat; [apply Rabs_pos|lra|exact Hv|lra]).
  assert (W' : Rabs (v * r') <= bpow radix2 64 * (bpow radix2 60 * 2)) by (rewrite Rabs_mult, (Rabs_right r') by lra; apply Rmult_le_compat; [apply Rabs_pos|lra|exact Hv|lra]).
  assert (PP : 0 < bpow radix2 64 * bpow radix2 60) by (apply Rmult_lt_0_compat; assumption).
  pose proof (mul_val prec emax Hp0 Hpe _ _ _ _ V Fr ltac:(lra)) as V1.
  pose proof (mul_val prec emax Hp0 Hpe _ _ _ _ V Fr' ltac:(lra)) as V2.
  destruct (rnd_err prec emax Hp0 (v * r)) as (e & h & E & H & D). destruct (rnd_err prec emax Hp0 (v * r')) as (e' & h' & E' & H' & D'). fold t in H, H'. fold u in E, E'.
  eexists. eexists. split; [exact V1|]. split; [exact V2|]. rewrite D, D'. clear V1 V2 V Fr Fr' D D' B126 B1 big W W' PP P64 P60.
  set (w := v * r). set (d := (r' - r) / r). assert (Ed : v * r' = w * (1 + d)) by (unfold w, d; field; lra). rewrite Ed.
  assert (Dd : Rabs d <= / 131072).
  { unfold d. apply Rabs_le. split; [apply Rmult_le_reg_r with r|apply Rmult_le_reg_r with r]; try assumption; unfold Rdiv; rewrite ?Rmult_assoc, Rinv_l by lra; lra. }
  set (a := Rabs w). assert (A0 : 0 <= a) by apply Rabs_pos. set (y := w * (1 + e) + h).
  assert (Y : a <= Rabs y + u * a + t).
  { unfold a at 1. replace w with (y - (w * e + h)) at 1 by (unfold y; ring). eapply Rle_trans; [apply Rabs_triang|]. rewrite Rabs_Ropp. assert (Rabs (w * e + h) <= u * a + t); [|lra]. eapply Rle_trans; [apply Rabs_triang|]. rewrite Rabs_mult. fold a. assert (a * Rabs e <= a * u) by (apply Rmult_le_compat_l; lra). lra. }
  assert (AU : u * a <= / 16777216 * a) by (apply Rmult_le_compat_r; lra).
  replace (w * (1 + d) * (1 + e') + h' - y) with (w * (d + e' + d * e' - e) + (h' - h)) by (unfold y; ring).
  assert (C : Rabs (d + e' + d * e' - e) <= / 131072 + 3 * / 16777216).
  { assert (DE : Rabs (d * e') <= / 131072 * / 16777216) by (rewrite Rabs_mult; apply Rmult_le_compat; try apply Rabs_pos; lra). apply Rabs_le_inv in DE. pose proof (Rabs_le_inv _ _ Dd). pose proof (Rabs_le_inv _ _ E). pose proof (Rabs_le_inv _ _ E'). apply Rabs_le. lra. }
  eapply Rle_trans; [apply Rabs_triang|]. assert (HH : Rabs (h' - h) <= 2 * t) by (apply Rabs_le_inv in H; apply Rabs_le_inv in H'; apply Rabs_le; lra). rewrite Rabs_mult. fold a.
  assert (a * Rabs (d + e' + d * e' - e) <= a * (/ 131072 + 3 * / 16777216)) by (apply Rmult_le_compat_l; lra). lra.
Qed.
Lemma int_small prec emax q : (24 <= prec <= 53)%Z -> (128 <= emax)%Z -> (-9223372036854775808 <= q <= 9223372036854775807)%Z ->
  exists v, is_val prec emax (SpecFloat.binary_normalize prec emax q 0 false) v /\ Rabs v <= bpow radix2 64.
Proof.
  intros Hp He Hq. assert (Hp0 : (0 < prec)%Z) by lia. assert (Hpe : (prec < emax)%Z) by lia. assert (Q : Rabs (IZR q) <= bpow radix2 63).
  { change (bpow radix2 63) with (IZR 9223372036854775808). rewrite <- abs_IZR. apply IZR_le. lia. }
  pose proof (int_val prec emax Hp0 Hpe q) as V. eexists. split; [apply V; eapply Rle_trans; [exact Q|apply bpow_le; lia]|]. destruct (rnd_int prec emax Hp0 Hpe q) as (e & E & ->). rewrite Rabs_mult.
  replace (bpow radix2 64) with (bpow radix2 63 * 2) by (change 2 with (bpow radix2 1); rewrite <- bpow_plus; reflexivity). apply Rmult_le_compat; [apply Rabs_pos|apply Rabs_pos|exact Q|]. eapply Rle_trans; [apply Rabs_triang|]. rewrite Rabs_R1. assert (bpow radix2 (- prec) <= 1) by (change 1 with (bpow radix2 0); apply bpow_le; lia). lra.
Qed.

(** Decoded with the resolution [rb'] instead of [rb]. *)
Definition off17 (rb rb' : Z) : Prop := finite32 rb' /\ Rabs (float_of rb' - float_of rb) <= powerRZ 2 (-17) * float_of rb.
Lemma p17 : powerRZ 2 (-17) = / 131072.
Proof. rewrite pw2. reflexivity. Qed.
Lemma other32 rb rb' q : finite32 rb -> usable (float_of rb) -> off17 rb rb' -> (-9223372036854775808 <= q <= 9223372036854775807)%Z ->
  finite32 (dequant32 rb' q) /\ Rabs (float_of (dequant32 rb' q) - float_of (dequant32 rb q)) <= / 131072 * (33 / 32 * Rabs (float_of (dequant32 rb q)) + float_of rb / 32).
Proof.
  intros Fr Hr [Fr' Hd] Hq. rewrite p17 in Hd. destruct (int_small 24 128 q ltac:(lia) ltac:(lia) Hq) as (v & V & Bv). destruct (usable_pos _ Hr) as [_ RR].
  destruct (second 24 128 _ v _ _ _ _ ltac:(lia) ltac:(lia) V (val32 rb Fr) (val32 rb' Fr') RR Hd Bv) as (y & y' & Y & Y' & B). destruct (bits32 _ _ Y) as [F E]. destruct (bits32 _ _ Y') as [F' E'].
  unfold dequant32. unfold z32. split; [exact F'|]. rewrite E, E'. exact B.
Qed.
Lemma other64 rb rb' q : finite32 rb -> usable (float_of rb) -> off17 rb rb' -> (-9223372036854775808 <= q <= 9223372036854775807)%Z ->
  finite64 (dequant64 rb' q) /\ Rabs (double_of (dequant64 rb' q) - double_of (dequant64 rb q)) <= / 131072 * (33 / 32 * Rabs (double_of (dequant64 rb q)) + float_of rb / 32).
Proof.
  intros Fr Hr [Fr' Hd] Hq. rewrite p17 in Hd. destruct (int_small 53 1024 q ltac:(lia) ltac:(lia) Hq) as (v & V & Bv). destruct (usable_pos _ Hr) as [_ RR].
  destruct (second 53 1024 _ v _ _ _ _ ltac:(lia) ltac:(lia) V (widen _ _ (val32 rb Fr)) (widen _ _ (val32 rb' Fr')) RR Hd Bv) as (y & y' & Y & Y' & B). destruct (bits64 _ _ Y) as [F E]. destruct (bits64 _ _ Y') as [F' E'].
  unfold dequant64. unfold z64. split; [exact F'|]. rewrite E, E'. exact B.
Qed.
(** The bounds of C09 with the header's error on top. *)
Definition header_err (r x : R) : R := powerRZ 2 (-16) * (Rabs x + r).
Lemma sum_err b y y' x r : 0 < r -> b <= r / 2 + / 16777216 * (5 * Rabs x + 2 * r) -> Rabs (y - x) <= b -> Rabs (y' - y) <= / 131072 * (33 / 32 * Rabs y + r / 32) -> Rabs (y' - x) <= b + header_err r x.
Proof.
  intros Hr Hb H1 H2. unfold header_err. rewrite pw2. change (bpow radix2 (-16)) with (/ 65536). assert (HY : Rabs y <= Rabs x + b).
  { replace y with (x + (y - x)) by ring. eapply Rle_trans; [apply Rabs_triang|]. lra. }
  replace (y' - x) with ((y' - y) + (y - x)) by ring. eapply Rle_trans; [apply Rabs_triang|]. pose proof (Rabs_pos x). lra.
Qed.
