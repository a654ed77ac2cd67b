(** C85: the lossy float coding keeps order and sign. *)
From Coq Require Import ZArith Reals Psatz List Bool.
From Coq Require Import Floats.SpecFloat.
From Flocq Require Import Core Relative BinarySingleNaN.
From Verif Require Import Base BaseFacts Types Floats Api Spec LibSpec ErrorSpec FloatReal FloatOrder LocalFacts Cases PropsCloud PropsError.
Open Scope Z_scope.
Open Scope R_scope.

(** Sorted and sign-symmetric: what two decoded values [y1 y2] owe the originals [x1 x2]. *)
Definition keeps (x1 x2 y1 y2 : R) : Prop :=
  (x1 <= x2 -> y1 <= y2) /\ (x2 <= x1 -> y2 <= y1) /\ (x2 = - x1 -> y2 = - y1) /\
  (0 <= x1 -> 0 <= y1) /\ (x1 <= 0 -> y1 <= 0) /\ (0 <= x2 -> 0 <= y2) /\ (x2 <= 0 -> y2 <= 0).

Section One.
Variables prec emax : Z.
Hypothesis Hp : (24 <= prec <= 53)%Z.
Hypothesis He : (128 <= emax)%Z.
Definition near (rd : Z -> Z -> Z) : Prop := forall m e, (0 < m)%Z -> Rabs (IZR (rd m e) - IZR m * powerRZ 2 e) <= / 2.

Lemma val_fun f a b : is_val prec emax f a -> is_val prec emax f b -> a = b.
Proof. intros (_ & _ & A) (_ & _ & B). congruence. Qed.
Lemma zero_val : is_val prec emax (S754_zero false) 0.
Proof. split; [reflexivity|]. split; reflexivity. Qed.

Lemma pipe_keeps rd imin imax K fx1 fx2 fm fr x1 x2 r e1 :
  near rd -> 1 <= K <= bpow radix2 62 ->
  IZR imin + / 2 <= - (9 / 8 * K + 1) -> 9 / 8 * K + 1 <= IZR imax - / 2 ->
  is_val prec emax fx1 x1 -> is_val prec emax fx2 x2 -> is_val prec emax fr r -> is_val prec emax fm (1 / r * (1 + e1)) ->
  Rabs e1 <= 9 / 8 * bpow radix2 (- prec) ->
  bpow radix2 (-100) <= r <= bpow radix2 60 -> Rabs x1 <= K * r -> Rabs x2 <= K * r ->
  let out fx := SFmul prec emax (SpecFloat.binary_normalize prec emax (sf_to_int rd imin imax (SFmul prec emax fx fm)) 0 false) fr in
  exists y1 y2, is_val prec emax (out fx1) y1 /\ is_val prec emax (out fx2) y2 /\ keeps x1 x2 y1 y2.
Proof.
  intros N HK I1 I2 F1 F2 Fr Fm E1 Hr H1 H2 out.
  assert (H0 : Rabs 0 <= K * r).
  { rewrite Rabs_R0. apply Rmult_le_pos; [lra|]. pose proof (bpow_gt_0 radix2 (-100)). lra. }
  pose proof (fun a b xa xb Fa Fb Ha Hb => pipeline_order prec emax Hp He rd imin imax K a b fm fr xa xb r e1 N HK I1 I2 Fa Fb Fr Fm E1 Hr Ha Hb) as PO.
  cbv zeta in PO. fold (out fx1) in PO.
  destruct (PO _ _ _ _ F1 F2 H1 H2) as (y1 & y2 & V1 & V2 & L12 & O12).
  destruct (PO _ _ _ _ F2 F1 H2 H1) as (y2' & y1' & V2' & V1' & L21 & _).
  destruct (PO _ _ _ _ zero_val zero_val H0 H0) as (z & z' & Vz & Vz' & _ & Oz).
  destruct (PO _ _ _ _ zero_val F1 H0 H1) as (z1 & y1a & Vz1 & V1a & Lz1 & _).
  destruct (PO _ _ _ _ F1 zero_val H1 H0) as (y1b & z2 & V1b & Vz2 & L1z & _).
  destruct (PO _ _ _ _ zero_val F2 H0 H2) as (z3 & y2a & Vz3 & V2a & Lz2 & _).
  destruct (PO _ _ _ _ F2 zero_val H2 H0) as (y2b & z4 & V2b & Vz4 & L2z & _).
  fold (out fx1) in *. fold (out fx2) in *. fold (out (S754_zero false)) in *.
  assert (z' = z) by (eapply val_fun; eassumption). subst z'.
  assert (Z : z = 0) by (specialize (Oz ltac:(lra)); lra). subst z.
  assert (z1 = 0) by (eapply val_fun; eassumption). assert (z2 = 0) by (eapply val_fun; eassumption).
  assert (z3 = 0) by (eapply val_fun; eassumption). assert (z4 = 0) by (eapply val_fun; eassumption).
  assert (y2' = y2) by (eapply val_fun; eassumption). assert (y1' = y1) by (eapply val_fun; eassumption).
  assert (y1a = y1) by (eapply val_fun; eassumption). assert (y1b = y1) by (eapply val_fun; eassumption).
  assert (y2a = y2) by (eapply val_fun; eassumption). assert (y2b = y2) by (eapply val_fun; eassumption).
  subst. exists y1, y2. split; [exact V1|]. split; [exact V2|]. unfold keeps. auto 10.
Qed.
End One.

(** ** One field *)
Lemma recon32_pipe ops rb k : ops = sse_ops \/ ops = scalar_ops -> finite32 rb -> usable (float_of rb) ->
  k = K32 rb \/ k = KN rb ->
  exists rd imin imax fm e1, near rd /\
    IZR imin + / 2 <= - (9 / 8 * bpow radix2 30 + 1) /\ 9 / 8 * bpow radix2 30 + 1 <= IZR imax - / 2 /\
    is_val 24 128 fm (1 / float_of rb * (1 + e1)) /\ Rabs e1 <= 9 / 8 * bpow radix2 (- (24)) /\
    forall bs, finite32 (le_val bs) -> Rabs (float_of (le_val bs)) <= powerRZ 2 30 * float_of rb ->
    le_val (recon ops k bs) =
    b32 (SFmul 24 128 (SpecFloat.binary_normalize 24 128 (sf_to_int rd imin imax (SFmul 24 128 (sf32 (le_val bs)) fm)) 0 false) (sf32 rb)).
Proof.
  intros HO Fr Hr HK.
  assert (b30 : bpow radix2 30 = 1073741824) by reflexivity.
  destruct HK as [-> | ->].
  - destruct (mult32_val rb Fr Hr) as (e1 & E1 & Vm).
    exists round_away, INT64_MIN, INT64_MAX, (mult32 rb), e1.
    split; [exact round_away_near|].
    split; [rewrite b30; change (IZR INT64_MIN) with (-9223372036854775808); lra|].
    split; [rewrite b30; change (IZR INT64_MAX) with (9223372036854775807); lra|].
    split; [exact Vm|]. split; [exact E1|]. intros bs Fx Hx. set (xb := le_val bs) in *.
    assert (Hx' : Rabs (float_of xb) <= powerRZ 2 62 * float_of rb).
    { apply Rle_trans with (1 := Hx). apply Rmult_le_compat_r; [destruct (usable_pos _ Hr); lra|]. rewrite !pw2. apply bpow_le. lia. }
    cbn [recon]. fold xb. rewrite (finite_nan32 xb Fx).
    assert (Q : s64 (quant32 rb xb) = quant32 rb xb).
    { apply s64_id. pose proof (to_int_range round_away INT64_MIN INT64_MAX (SFmul 24 128 (sf32 xb) (mult32 rb)) ltac:(unfold INT64_MIN, INT64_MAX; lia)) as H.
      change (INT64_MIN <= quant32 rb xb <= INT64_MAX)%Z in H. unfold INT64_MIN, INT64_MAX in H. lia. }
    assert (E : u32 (d32 ops rb (s64 (q32 ops rb xb))) = dequant32 rb (quant32 rb xb)).
    { destruct HO as [-> | ->]; cbn [d32 q32 sse_ops scalar_ops]; rewrite Q; unfold u32; apply Z.mod_small;
      apply finite_u32; exact (proj1 (C09_bound32 rb xb Fr Hr Fx Hx')). }
    rewrite E, le_val_le_bytes, Z.mod_small; [reflexivity|]. apply finite_u32. exact (proj1 (C09_bound32 rb xb Fr Hr Fx Hx')).
  - destruct (recip 24 128 _ _ ltac:(lia) ltac:(lia) (val32 rb Fr) Hr) as (e1 & E1 & Vm).
    assert (exists rd, near rd /\ forall x, s32 (qN ops rb x) = sf_to_int rd INT32_MIN 2147483647 (SFmul 24 128 (sf32 x) (multN rb))) as (rd & N & HQ).
    { assert (W : forall rd x, s32 (sf_to_int rd INT32_MIN 2147483647 (SFmul 24 128 (sf32 x) (multN rb))) = sf_to_int rd INT32_MIN 2147483647 (SFmul 24 128 (sf32 x) (multN rb))).
      { intros rd x. apply s32_id. pose proof (to_int_range rd INT32_MIN 2147483647 (SFmul 24 128 (sf32 x) (multN rb)) ltac:(unfold INT32_MIN; lia)) as H.
        unfold INT32_MIN in *. lia. }
      destruct HO as [-> | ->]; [exists round_even|exists round_away].
      - split; [exact round_even_near|]. intros x. exact (W round_even x).
      - split; [exact round_away_near|]. intros x. exact (W round_away x). }
    exists rd, INT32_MIN, 2147483647%Z, (multN rb), e1.
    split; [exact N|].
    split; [rewrite b30; change (IZR INT32_MIN) with (-2147483648); lra|].
    split; [rewrite b30; lra|].
    split; [exact Vm|]. split; [pose proof (bpow_gt_0 radix2 (- (24))); lra|]. intros bs Fx Hx. set (xb := le_val bs) in *.
    cbn [recon]. fold xb. rewrite (finite_nan32 xb Fx).
    assert (D : dN ops = dequantN) by (destruct HO as [-> | ->]; reflexivity). rewrite D, HQ.
    pose proof (proj1 (boundN rd rb xb N Fr Hr Fx Hx)) as B. cbv zeta in B.
    rewrite le_val_le_bytes. unfold u32. rewrite !Z.mod_small; [reflexivity| |]; try (apply finite_u32; exact B).
    rewrite Z.mod_small; apply finite_u32; exact B.
Qed.
Lemma recon64_pipe ops rb : ops = sse_ops \/ ops = scalar_ops -> finite32 rb -> usable (float_of rb) ->
  exists e1, is_val 53 1024 (mult64 rb) (1 / float_of rb * (1 + e1)) /\ Rabs e1 <= 9 / 8 * bpow radix2 (- (53)) /\
    forall bs, finite64 (le_val bs) -> Rabs (double_of (le_val bs)) <= powerRZ 2 62 * float_of rb ->
    le_val (recon ops (K64 rb) bs) =
    b64 (SFmul 53 1024 (SpecFloat.binary_normalize 53 1024 (sf_to_int round_away INT64_MIN INT64_MAX (SFmul 53 1024 (sf64 (le_val bs)) (mult64 rb))) 0 false) (to64 (sf32 rb))).
Proof.
  intros HO Fr Hr. pose proof (widen _ _ (val32 _ Fr)) as W.
  destruct (recip 53 1024 _ _ ltac:(lia) ltac:(lia) W Hr) as (e1 & E1 & Vm).
  exists e1. split; [exact Vm|]. split; [pose proof (bpow_gt_0 radix2 (- (53))); lra|].
  intros bs Fx Hx. set (xb := le_val bs) in *. cbn [recon]. fold xb. rewrite (finite_nan64 xb Fx).
  pose proof (C09_bound64 rb xb Fr Hr Fx Hx) as H. cbv zeta in H.
  assert (Q : s64 (quant64 rb xb) = quant64 rb xb).
  { apply s64_id. pose proof (to_int_range round_away INT64_MIN INT64_MAX (SFmul 53 1024 (sf64 xb) (mult64 rb)) ltac:(unfold INT64_MIN, INT64_MAX; lia)) as H'.
    change (INT64_MIN <= quant64 rb xb <= INT64_MAX)%Z in H'. unfold INT64_MIN, INT64_MAX in H'. lia. }
  assert (E : u64 (d64 ops rb (s64 (q64 ops rb xb))) = dequant64 rb (quant64 rb xb)).
  { destruct HO as [-> | ->]; cbn [d64 q64 sse_ops scalar_ops]; rewrite Q; unfold u64; apply Z.mod_small; apply finite_u64; exact (proj1 H). }
  rewrite E, le_val_le_bytes, Z.mod_small; [reflexivity|]. apply finite_u64. exact (proj1 H).
Qed.

Lemma recon32_keeps ops rb k b1 b2 : ops = sse_ops \/ ops = scalar_ops -> finite32 rb -> usable (float_of rb) ->
  k = K32 rb \/ k = KN rb ->
  let x b := float_of (le_val b) in
  finite32 (le_val b1) -> finite32 (le_val b2) -> Rabs (x b1) <= powerRZ 2 30 * float_of rb -> Rabs (x b2) <= powerRZ 2 30 * float_of rb ->
  keeps (x b1) (x b2) (x (recon ops k b1)) (x (recon ops k b2)).
Proof.
  intros HO Fr Hr HK x F1 F2 H1 H2. unfold x in *.
  destruct (recon32_pipe ops rb k HO Fr Hr HK) as (rd & imin & imax & fm & e1 & N & I1 & I2 & Vm & E1 & EQ).
  rewrite (EQ b1 F1 H1), (EQ b2 F2 H2). rewrite pw2 in H1, H2.
  destruct (usable_pos _ Hr) as [_ RR].
  destruct (pipe_keeps 24 128 ltac:(lia) ltac:(lia) rd imin imax (bpow radix2 30) _ _ fm (sf32 rb) _ _ _ e1 N
    ltac:(split; [change 1 with (bpow radix2 0)|]; apply bpow_le; lia) I1 I2 (val32 _ F1) (val32 _ F2) (val32 _ Fr) Vm E1 RR H1 H2) as (y1 & y2 & V1 & V2 & KP).
  rewrite (proj2 (bits32 _ _ V1)), (proj2 (bits32 _ _ V2)). exact KP.
Qed.
Lemma recon64_keeps ops rb b1 b2 : ops = sse_ops \/ ops = scalar_ops -> finite32 rb -> usable (float_of rb) ->
  let x b := double_of (le_val b) in
  finite64 (le_val b1) -> finite64 (le_val b2) -> Rabs (x b1) <= powerRZ 2 62 * float_of rb -> Rabs (x b2) <= powerRZ 2 62 * float_of rb ->
  keeps (x b1) (x b2) (x (recon ops (K64 rb) b1)) (x (recon ops (K64 rb) b2)).
Proof.
  intros HO Fr Hr x F1 F2 H1 H2. unfold x in *.
  destruct (recon64_pipe ops rb HO Fr Hr) as (e1 & Vm & E1 & EQ).
  rewrite (EQ b1 F1 H1), (EQ b2 F2 H2). rewrite pw2 in H1, H2.
  destruct (usable_pos _ Hr) as [_ RR].
  assert (b62 : bpow radix2 62 = 4611686018427387904) by reflexivity.
  destruct (pipe_keeps 53 1024 ltac:(lia) ltac:(lia) round_away INT64_MIN INT64_MAX (bpow radix2 62) _ _ (mult64 rb) (to64 (sf32 rb)) _ _ _ e1 round_away_near z62
    ltac:(rewrite b62; change (IZR INT64_MIN) with (-9223372036854775808); lra) ltac:(rewrite b62; change (IZR INT64_MAX) with (9223372036854775807); lra)
    (val64 _ F1) (val64 _ F2) (widen _ _ (val32 _ Fr)) Vm E1 RR H1 H2) as (y1 & y2 & V1 & V2 & KP).
  rewrite (proj2 (bits64 _ _ V1)), (proj2 (bits64 _ _ V2)). exact KP.
Qed.

(** ** Whole clouds: any two points [j1 j2] of any field with a usable resolution. *)
Theorem C85_order : forall ops L ppc probe i i' hdr0 e cloud hdr body n buf mem buf' mem',
  ops = sse_ops \/ ops = scalar_ops ->
  libs_ok L -> bytes hdr0 -> encode_side ppc i cloud -> decode_side i i' -> deltas_ok ops i ppc cloud ->
  encoder_of ops L ppc probe i (Ok hdr0) e -> produces ops L ppc probe e cloud hdr body ->
  (zlen body < 1431260227)%Z -> (zlen cloud = Z.of_nat n * i_step i)%Z -> declares i' n ->
  (Z.of_nat n * i_step i' <= zlen mem)%Z -> i_enc i = ENC_LOSSY ->
  decode ops L ppc i' body buf mem = Ok (buf', mem') ->
  forall (a j1 j2 : nat) f f' rb, (j1 < n)%nat -> (j2 < n)%nat ->
    nth_error (i_fields i) a = Some f -> nth_error (i_fields i') a = Some f' -> stored f' = true ->
    f_res f = Some rb -> finite32 rb -> usable (float_of rb) ->
    let r := float_of rb in
    (f_type f = FLOAT32 ->
       let xb j := le_val (sub (Z.of_nat j * i_step i + f_off f) 4 cloud) in
       let yb j := le_val (sub (Z.of_nat j * i_step i' + f_off f') 4 mem') in
       finite32 (xb j1) -> finite32 (xb j2) -> Rabs (float_of (xb j1)) <= powerRZ 2 30 * r -> Rabs (float_of (xb j2)) <= powerRZ 2 30 * r ->
       keeps (float_of (xb j1)) (float_of (xb j2)) (float_of (yb j1)) (float_of (yb j2))) /\
    (f_type f = FLOAT64 ->
       let xb j := le_val (sub (Z.of_nat j * i_step i + f_off f) 8 cloud) in
       let yb j := le_val (sub (Z.of_nat j * i_step i' + f_off f') 8 mem') in
       finite64 (xb j1) -> finite64 (xb j2) -> Rabs (double_of (xb j1)) <= powerRZ 2 62 * r -> Rabs (double_of (xb j2)) <= powerRZ 2 62 * r ->
       keeps (double_of (xb j1)) (double_of (xb j2)) (double_of (yb j1)) (double_of (yb j2))).
Proof.
  intros ops L ppc probe i i' hdr0 e cloud hdr body n buf mem buf' mem' HO HL Hh HES HDS HD HEo HPr Hz Hlen Hdec Hm HLy HOk a j1 j2 f f' rb Hj1 Hj2 Hf Hf' Hst Hres Fr Hr r.
  destruct (C17_never_wrong ops L ppc probe i i' hdr0 e cloud hdr body n buf mem HL Hh HES HDS HD HEo HPr Hz Hlen Hdec Hm) as [(b2 & m2 & E & R)|E]; [|congruence].
  assert (m2 = mem') by congruence. subst m2.
  assert (LK : length (kinds i) = length (i_fields i)).
  { unfold kinds. rewrite HLy. destruct (_ || _); [|apply map_length]. rewrite app_length, !map_length, <- app_length, firstn_skipn. reflexivity. }
  assert (La : (a < length (i_fields i))%nat) by (apply nth_error_Some; congruence).
  destruct (nth_error (kinds i) a) as [k|] eqn:Ek; [|apply nth_error_None in Ek; lia].
  assert (HC : forall (A B : Type) (l1 : list A) (l2 : list B) n x y, nth_error l1 n = Some x -> nth_error l2 n = Some y -> nth_error (combine l1 l2) n = Some (x, y)).
  { clear. intros A B l1. induction l1 as [|a1 l1 IH]; intros [|b1 l2] [|n] x y H1 H2; cbn in *; try discriminate; [congruence|eauto]. }
  pose proof (HC _ _ _ _ _ _ _ Hf Ek) as H1. pose proof (HC _ _ _ _ _ _ _ Hf' H1) as H2.
  apply nth_error_In in H1. apply nth_error_In in H2.
  destruct R as (_ & R & _). pose proof (R j1 f' f k Hj1 H2 Hst) as R1. pose proof (R j2 f' f k Hj2 H2 Hst) as R2. unfold fbytes in R1, R2.
  pose proof (kind_cases i f k HLy H1) as KC.
  split; intros HT xb yb F1 F2 X1 X2; rewrite HT in R1, R2; cbn [SizeOf] in R1, R2; unfold yb, xb; rewrite R1, R2.
  - apply (recon32_keeps ops rb k _ _ HO Fr Hr); try assumption. destruct KC as [[_ ->] | ->].
    + right. unfold vector_kind. rewrite Hres. reflexivity.
    + left. unfold lossy_kind. rewrite HT, Hres. reflexivity.
  - destruct KC as [[KC _] | ->]; [congruence|]. unfold lossy_kind. rewrite HT, Hres.
    apply (recon64_keeps ops rb _ _ HO Fr Hr); assumption.
Qed.
Print Assumptions C85_order.

(** A decoded coordinate never leaves the box of the originals by changing side of zero, but
    beyond the range both promises fail: at 1 mm, 3000 km decodes negative in the vector group. *)
Lemma pos_value b m (e : positive) : (b / 2 ^ 31 = 0)%Z -> ((b / 2 ^ 23) mod 2 ^ 8 =? 0)%Z = false -> (2 ^ 23 + b mod 2 ^ 23)%Z = m ->
  ((b / 2 ^ 23) mod 2 ^ 8 - 150)%Z = (- (Z.pos e))%Z -> float_of b = IZR m * / (2 ^ Pos.to_nat e).
Proof.
  intros H1 H2 H3 H4. unfold float_of, value. cbv zeta. change (23 + 8)%Z with 31%Z. rewrite H1, H2, H3.
  replace ((b / 2 ^ 23) mod 2 ^ 8 + 1 - 2 ^ (8 - 1) - 23)%Z with (- Z.pos e)%Z by (rewrite <- H4; change (2 ^ (8 - 1))%Z with 128%Z; ring).
  cbn [Z.odd Z.opp powerRZ]. ring.
Qed.
Lemma neg_value b m (e : positive) : (b / 2 ^ 31 = 1)%Z -> ((b / 2 ^ 23) mod 2 ^ 8 =? 0)%Z = false -> (2 ^ 23 + b mod 2 ^ 23)%Z = m ->
  ((b / 2 ^ 23) mod 2 ^ 8 - 150)%Z = (- (Z.pos e))%Z -> float_of b = - (IZR m * / (2 ^ Pos.to_nat e)).
Proof.
  intros H1 H2 H3 H4. unfold float_of, value. cbv zeta. change (23 + 8)%Z with 31%Z. rewrite H1, H2, H3.
  replace ((b / 2 ^ 23) mod 2 ^ 8 + 1 - 2 ^ (8 - 1) - 23)%Z with (- Z.pos e)%Z by (rewrite <- H4; change (2 ^ (8 - 1))%Z with 128%Z; ring).
  cbn [Z.odd Z.opp powerRZ]. ring.
Qed.
Ltac fin := split; [split; [discriminate|reflexivity]|discriminate].
Theorem C85_out_of_range_refuted : exists rb b1 b2,
  let x b := float_of (le_val b) in
  finite32 rb /\ usable (float_of rb) /\ finite32 (le_val b1) /\ finite32 (le_val b2) /\
  0 < x b1 < x b2 /\
  forall ops, ops = sse_ops \/ ops = scalar_ops -> 0 < x (recon ops (KN rb) b1) /\ x (recon ops (KN rb) b2) < 0.
Proof.
  exists mm, [0; 0; 192; 63]%Z, [0; 27; 55; 74]%Z. cbv beta zeta.
  change (le_val [0; 0; 192; 63]%Z) with 1069547520%Z. change (le_val [0; 27; 55; 74]%Z) with 1245125376%Z.
  split; [fin|]. split; [exact milli_usable|]. split; [fin|]. split; [fin|].
  assert (X1 : float_of 1069547520 = 12582912 * / (2 ^ 23)) by (apply (pos_value 1069547520%Z 12582912%Z 23%positive); reflexivity).
  assert (X2 : float_of 1245125376 = 12000000 * / (2 ^ 2)) by (apply (pos_value 1245125376%Z 12000000%Z 2%positive); reflexivity).
  split; [rewrite X1, X2; lra|].
  intros ops HO.
  assert (E1 : le_val (recon ops (KN mm) [0; 0; 192; 63]%Z) = 1069547521%Z) by (destruct HO as [-> | ->]; vm_compute; reflexivity).
  assert (E2 : le_val (recon ops (KN mm) [0; 27; 55; 74]%Z) = 3389198959%Z) by (destruct HO as [-> | ->]; vm_compute; reflexivity).
  assert (Y1 : float_of 1069547521 = 12582913 * / (2 ^ 23)) by (apply (pos_value 1069547521%Z 12582913%Z 23%positive); reflexivity).
  rewrite E1, E2, Y1.
  assert (Y2 : float_of 3389198959 = - (8589935 * / (2 ^ 2))) by (apply (neg_value 3389198959%Z 8589935%Z 2%positive); reflexivity).
  rewrite Y2. lra.
Qed.
Print Assumptions C85_out_of_range_refuted.

(** Order is kept within one build only: half a step is coded as 0 with SSE and as 1 without. *)
Theorem C85_builds_refuted : exists rb b,
  let x b := float_of (le_val b) in
  finite32 rb /\ usable (float_of rb) /\ finite32 (le_val b) /\ Rabs (x b) <= powerRZ 2 30 * float_of rb /\
  x (recon sse_ops (KN rb) b) < x (recon scalar_ops (KN rb) b).
Proof.
  exists 1065353216%Z, [0; 0; 0; 63]%Z. cbv beta zeta. change (le_val [0; 0; 0; 63]%Z) with 1056964608%Z.
  assert (V : float_of 1065353216 = 8388608 * / (2 ^ 23)) by (apply (pos_value 1065353216%Z 8388608%Z 23%positive); reflexivity).
  assert (X : float_of 1056964608 = 8388608 * / (2 ^ 24)) by (apply (pos_value 1056964608%Z 8388608%Z 24%positive); reflexivity).
  assert (V1 : float_of 1065353216 = 1) by (rewrite V; lra).
  split; [fin|]. split.
  { rewrite V1. unfold usable. rewrite !pw2. change 1 with (bpow radix2 0). split; apply bpow_le; lia. }
  split; [fin|]. split.
  { rewrite V1, X, Rabs_right, pw2 by lra. change (bpow radix2 30) with 1073741824. lra. }
  assert (E1 : le_val (recon sse_ops (KN 1065353216%Z) [0; 0; 0; 63]%Z) = 0%Z) by (vm_compute; reflexivity).
  assert (E2 : le_val (recon scalar_ops (KN 1065353216%Z) [0; 0; 0; 63]%Z) = 1065353216%Z) by (vm_compute; reflexivity).
  rewrite E1, E2, V1. replace (float_of 0) with (1 * (0 * powerRZ 2 (-149))) by reflexivity. lra.
Qed.
Print Assumptions C85_builds_refuted.

(** The hypotheses are met: the scan of C17_case (which shows the others): y of points 0 and 1 is -2.25 and 3. *)
Example C85_case : let i := scan 5 3 COMP_NONE in
  i_enc i = ENC_LOSSY /\ nth_error (i_fields i) 1 = Some (fld 121 4 FLOAT32 (Some mm)) /\ finite32 mm /\ usable (float_of mm) /\
  let xb j := le_val (sub (Z.of_nat j * i_step i + 4) 4 scan_cloud) in
  finite32 (xb 0%nat) /\ finite32 (xb 1%nat) /\ float_of (xb 0%nat) = - (9 / 4) /\ float_of (xb 1%nat) = 3 /\
  Rabs (float_of (xb 0%nat)) <= powerRZ 2 30 * float_of mm /\ Rabs (float_of (xb 1%nat)) <= powerRZ 2 30 * float_of mm.
Proof.
  cbv beta zeta. split; [reflexivity|]. split; [reflexivity|]. split; [fin|]. split; [exact milli_usable|].
  assert (E0 : le_val (sub (Z.of_nat 0 * i_step (scan 5 3 COMP_NONE) + 4) 4 scan_cloud) = 3222274048%Z) by (vm_compute; reflexivity).
  assert (E1 : le_val (sub (Z.of_nat 1 * i_step (scan 5 3 COMP_NONE) + 4) 4 scan_cloud) = 1077936128%Z) by (vm_compute; reflexivity).
  rewrite E0, E1. split; [fin|]. split; [fin|].
  assert (X0 : float_of 3222274048 = - (9437184 * / (2 ^ 22))) by (apply (neg_value 3222274048%Z 9437184%Z 22%positive); reflexivity).
  assert (X1 : float_of 1077936128 = 12582912 * / (2 ^ 22)) by (apply (pos_value 1077936128%Z 12582912%Z 22%positive); reflexivity).
  assert (V0 : float_of 3222274048 = - (9 / 4)) by (rewrite X0; lra).
  assert (V1 : float_of 1077936128 = 3) by (rewrite X1; lra).
  rewrite V0, V1, milli_val, pw2. change (bpow radix2 30) with 1073741824.
  split; [reflexivity|]. split; [reflexivity|]. rewrite Rabs_left, Rabs_right by lra. split; lra.
Qed.
