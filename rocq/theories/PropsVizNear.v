(** C74: thinning a cloud for visualisation leaves no finite point without a close neighbour. *)
From Coq Require Import ZArith Reals Psatz List Bool Sorting.Sorted.
From Coq Require Import Floats.SpecFloat.
From Flocq Require Import Core Relative BinarySingleNaN.
From Verif Require Import Base BaseFacts Types Floats Fields Codec V5 Api Spec LibSpec ErrorSpec FloatReal CloudFacts LocalFacts Cases PropsCloud PropsError.
From Verif Require Mcap.
From Verif Require Import Header PropsHeader Cdr Ros RosFacts PropsRos RosViz PropsViz Pcl PropsPcl PropsWasm PropsEntry.
Import ListNotations.
Open Scope Z_scope.

(** *** The voxel index of a coordinate is close to the coordinate over the resolution *)
Lemma ticks_near rb xb : finite32 rb -> usable (float_of rb) -> finite32 xb -> (Rabs (float_of xb) <= 1048575 * float_of rb)%R ->
  (Rabs (IZR (ticks rb xb) * float_of rb - float_of xb) <= float_of rb / 2 + bpow radix2 (-24) * (3 * Rabs (float_of xb) + float_of rb / 2))%R /\ axis_range (ticks rb xb).
Proof.
  intros Fr Hr Fx Hx. pose proof (val32 xb Fx) as Vx. destruct (recip 24 128 _ _ ltac:(lia) ltac:(lia) (val32 rb Fr) Hr) as (e1 & E1 & Vm).
  fold (multN rb) in Vm. change (SFdiv 24 128 (SpecFloat.binary_normalize 24 128 1 0 false) (sf32 rb)) with (multN rb) in Vm.
  destruct (usable_pos _ Hr) as [P RR]. set (r := float_of rb) in *. set (x := float_of xb) in *. change (- (24))%Z with (-24)%Z in E1.
  assert (U : bpow radix2 (-24) = (/ 16777216)%R) by reflexivity. rewrite U in *.
  destruct (rnd_err 24 128 ltac:(lia) (x * (1 / r * (1 + e1)))%R) as (e2 & h2 & E2 & H2 & D2). change (- (24))%Z with (-24)%Z in E2. rewrite U in E2.
  assert (T : (bpow radix2 (SpecFloat.emin 24 128 - 1) <= / 268435456)%R) by (change (/ 268435456)%R with (bpow radix2 (-28)); apply bpow_le; unfold SpecFloat.emin; lia).
  assert (HP : (Rabs ((1 + e1) * (1 + e2) - 1) <= 22 / 10 * / 16777216)%R).
  { apply prod_small; [lra|rewrite one_plus; lra|rewrite one_plus; lra]. }
  set (w := ((1 + e1) * (1 + e2) - 1)%R) in *. set (y := (x / r)%R).
  assert (Hy : (Rabs y <= 1048575)%R).
  { unfold y, Rdiv. rewrite Rabs_mult, (Rabs_right (/ r)) by (apply Rle_ge, Rlt_le, Rinv_0_lt_compat; lra). apply Rmult_le_reg_r with r; [lra|]. rewrite Rmult_assoc, Rinv_l by lra. lra. }
  assert (DD : (round radix2 (SpecFloat.fexp 24 128) ZnearestE (x * (1 / r * (1 + e1))) - y = y * w + h2)%R) by (rewrite D2; unfold w, y; field; lra).
  assert (B : (Rabs (round radix2 (SpecFloat.fexp 24 128) ZnearestE (x * (1 / r * (1 + e1))) - y) <= Rabs y * (22 / 10 * / 16777216) + / 268435456)%R).
  { rewrite DD. eapply Rle_trans; [apply Rabs_triang|]. rewrite Rabs_mult. apply Rplus_le_compat; [|lra]. apply Rmult_le_compat_l; [apply Rabs_pos|exact HP]. }
  assert (XM : (Rabs (x * (1 / r * (1 + e1))) <= bpow radix2 127)%R).
  { replace (x * (1 / r * (1 + e1)))%R with (y * (1 + e1))%R by (unfold y; field; lra). rewrite Rabs_mult. apply Rle_trans with (bpow radix2 22); [|apply bpow_le; lia]. change (bpow radix2 22) with 4194304%R.
    assert (Rabs (1 + e1) <= 2)%R by (eapply Rle_trans; [apply Rabs_triang|]; rewrite Rabs_R1; lra). replace 4194304%R with (2097152 * 2)%R by lra. apply Rmult_le_compat; try apply Rabs_pos; lra. }
  pose proof (mul_val 24 128 ltac:(lia) ltac:(lia) _ _ _ _ Vx Vm XM) as V1. fold x in V1.
  set (p := round radix2 (SpecFloat.fexp 24 128) ZnearestE (x * (1 / r * (1 + e1)))) in *.
  assert (Pb : (Rabs p <= 1048575 + 2 / 10)%R).
  { replace p with ((p - y) + y)%R by ring. eapply Rle_trans; [apply Rabs_triang|]. lra. }
  pose proof (Rabs_le_inv _ _ Pb) as Pb'.
  pose proof (to_int_near 24 128 round_away INT64_MIN INT64_MAX _ _ round_away_near V1 ltac:(change (IZR INT64_MIN) with (-9223372036854775808)%R; change (IZR INT64_MAX) with 9223372036854775807%R; lra)) as Q.
  set (q := sf_to_int round_away INT64_MIN INT64_MAX (SFmul 24 128 (sf32 xb) (multN rb))) in *. pose proof (Rabs_le_inv _ _ Q) as Q'.
  assert (Qlo : -1048576 < q) by (apply lt_IZR; lra). assert (Qhi : q < 1048576) by (apply lt_IZR; lra).
  assert (TQ : ticks rb xb = q) by (unfold ticks; fold q; apply s32_id; lia). rewrite TQ. split; [|unfold axis_range; lia].
  replace (IZR q * r - x)%R with (((IZR q - p) + (p - y)) * r)%R by (unfold y; field; lra). rewrite Rabs_mult, (Rabs_right r) by lra.
  assert (XY : (Rabs x = Rabs y * r)%R). { replace x with (y * r)%R at 1 by (unfold y; field; lra). rewrite Rabs_mult, (Rabs_right r) by lra. reflexivity. }
  rewrite XY. assert (A : (Rabs ((IZR q - p) + (p - y)) <= / 2 + (Rabs y * (22 / 10 * / 16777216) + / 268435456))%R) by (eapply Rle_trans; [apply Rabs_triang|]; lra).
  eapply Rle_trans; [apply Rmult_le_compat_r; [lra|exact A]|]. pose proof (Rabs_pos y). assert (0 <= Rabs y * r)%R by (apply Rmult_le_pos; lra). nra.
Qed.

(** *** The points of the thinned cloud *)
Lemma concat_at (step : nat) (ps : list (list Z)) k : Forall (fun p => length p = step) ps -> (k < length ps)%nat ->
  firstn step (skipn (k * step) (concat ps)) = nth k ps [].
Proof.
  revert k. induction ps as [|p ps IH]; intros k HF Hk; [cbn in Hk; lia|]. pose proof (Forall_inv HF) as Hp. cbn beta in Hp. cbn [concat]. destruct k as [|k].
  - cbn [nth Nat.mul skipn]. rewrite firstn_app, Hp, Nat.sub_diag. cbn [firstn]. rewrite app_nil_r. rewrite <- Hp. apply firstn_all.
  - cbn [nth length] in *. rewrite skipn_app. rewrite skipn_all2 by nia. cbn [app]. replace (S k * step - length p)%nat with (k * step)%nat by nia. apply IH; [exact (Forall_inv_tail HF)|lia].
Qed.
Lemma sub_within o m (step : nat) k (l : list Z) : 0 <= o -> 0 <= m -> o + m <= Z.of_nat step ->
  sub (Z.of_nat k * Z.of_nat step + o) (Z.to_nat m) l = sub o (Z.to_nat m) (firstn step (skipn (k * step) l)).
Proof.
  intros Ho Hm Hs. unfold sub. rewrite skipn_firstn_comm, firstn_firstn, Nat.min_l by lia. rewrite skipn_skipn. f_equal. f_equal. nia.
Qed.
Lemma coord_point o step data j a : 0 <= o -> o + 12 <= step -> 0 <= a <= 2 -> coord o step data j a = le_val (sub (o + 4 * a) 4 (point step data j)).
Proof.
  intros Ho Hs Ha. unfold coord, point. f_equal. rewrite <- (Z2Nat.id step) at 1 by lia. replace (Z.of_nat j * Z.of_nat (Z.to_nat step) + o + 4 * a) with (Z.of_nat j * Z.of_nat (Z.to_nat step) + (o + 4 * a)) by ring.
  change 4%nat with (Z.to_nat 4). rewrite (sub_within (o + 4 * a) 4 (Z.to_nat step) j data) by lia. unfold sub. f_equal. f_equal. f_equal. f_equal. nia.
Qed.
Lemma point_length step data n j : 0 <= step -> (j < n)%nat -> Z.of_nat n * step <= zlen data -> length (point step data j) = Z.to_nat step.
Proof. intros Hs Hj Hn. unfold point, sub. rewrite firstn_length, skipn_length. unfold zlen in Hn. nia. Qed.
Lemma point_of_kept step data js k n : 0 <= step -> (forall j, In j js -> (j < n)%nat) -> Z.of_nat n * step <= zlen data -> (k < length js)%nat ->
  point step (concat (map (point step data) js)) k = point step data (nth k js O).
Proof.
  intros Hs HJ Hn Hk. unfold point at 1, sub. replace (Z.to_nat (Z.of_nat k * step)) with (k * Z.to_nat step)%nat by nia. rewrite concat_at.
  - rewrite (nth_indep _ [] (point step data O)) by (rewrite map_length; exact Hk). apply map_nth.
  - apply Forall_forall. intros p Hp. apply in_map_iff in Hp. destruct Hp as (j & <- & Hj). apply (point_length step data n); auto.
  - rewrite map_length. exact Hk.
Qed.

(** A cloud's point [j], coordinate [a] (0, 1, 2), as a number, and whether it is one. *)
Definition at_ (o : Z) (c : ros_cloud) (j : nat) (a : Z) : Z := le_val (sub (Z.of_nat j * r_step c + o + 4 * a) 4 (r_data c)).
Definition number (o : Z) (c : ros_cloud) (j : nat) : Prop := forall a, 0 <= a <= 2 -> finite32 (at_ o c j a).
(** within 2^20 - 1 steps of the origin *)
Definition in_box (r : R) (o : Z) (c : ros_cloud) (j : nat) : Prop := forall a, 0 <= a <= 2 -> (Rabs (float_of (at_ o c j a)) <= 1048575 * r)%R.
(** one step, plus the rounding of float arithmetic *)
Definition neighbour (r x y : R) : Prop := (Rabs (x - y) <= r + powerRZ 2 (-24) * (3 * (Rabs x + Rabs y) + r))%R.
Lemma at_bytes o c j a : bytes (r_data c) -> 0 <= at_ o c j a < 4294967296.
Proof.
  intros Hb. unfold at_, sub. set (l := firstn 4 _). assert (bytes l) by (apply bytes_firstn, bytes_skipn; exact Hb). pose proof (le_val_range l H) as B. unfold zlen in B. assert (length l <= 4)%nat by (unfold l; rewrite firstn_length; lia).
  assert (256 ^ Z.of_nat (length l) <= 256 ^ 4) by (apply Z.pow_le_mono_r; lia). change (256 ^ 4) with 4294967296 in *. lia.
Qed.
Lemma finite_number o c j : bytes (r_data c) -> (finite o (r_step c) (r_data c) j <-> number o c j).
Proof.
  intros Hb. unfold finite, number. change (coord o (r_step c) (r_data c) j) with (at_ o c j).
  assert (G : forall a, finite_bits (at_ o c j a) <-> finite32 (at_ o c j a)).
  { intros a. pose proof (at_bytes o c j a Hb). unfold finite_bits, finite32, ErrorSpec.finite_bits. change (2 ^ (23 + 8 + 1)) with 4294967296. change (2 ^ 23) with 8388608. change (2 ^ 8) with 256. change (256 - 1) with 255. tauto. }
  rewrite !G. split; [intros (A & B & C) a Ha|intros H; repeat split; apply H; lia]. assert (Q : a = 0 \/ a = 1 \/ a = 2) by lia. destruct Q as [-> | [-> | ->]]; assumption.
Qed.
(** Every finite point keeps a neighbour within one voxel along each axis, itself a point of the
    original cloud, no later in it. *)
Theorem C74_neighbour_kept c o r : triple c o r -> 0 <= o -> o + 12 <= r_step c < 4294967296 -> 1 <= zlen (r_data c) / r_step c < 4294967296 -> bytes (r_data c) ->
  usable (float_of r) -> let n := Z.to_nat (zlen (r_data c) / r_step c) in
  (forall j, (j < n)%nat -> number o c j -> in_box (float_of r) o c j) ->
  exists c', applyVizLossyPreprocessing c = Ok c' /\
    forall j, (j < n)%nat -> number o c j -> exists k i, (k < Z.to_nat (r_width c'))%nat /\ (i <= j)%nat /\
      sub (Z.of_nat k * r_step c') (Z.to_nat (r_step c')) (r_data c') = sub (Z.of_nat i * r_step c) (Z.to_nat (r_step c)) (r_data c) /\
      number o c' k /\ forall a, 0 <= a <= 2 -> neighbour (float_of r) (float_of (at_ o c' k a)) (float_of (at_ o c j a)).
Proof.
  intros HT Ho Hs Hn Hb Hu n HB. destruct (C44_viz_subset c o r HT Ho Hs Hn) as (c' & js & E & SS & HJ & HD & HW & _ & _ & _ & _ & _ & _ & _ & HS & _). fold n in HJ.
  exists c'. split; [exact E|]. intros j Hj Fj. pose proof (proj2 (finite_number o c j Hb) Fj) as Fj'.
  destruct (C44_every_voxel_kept o (r_step c) r (r_data c) n j Hj Fj') as (i & Hi & HK & HC). pose proof HK as (Hin & Fi & _). apply HJ in HK.
  assert (Hr : finite32 r). { destruct HT as (? & ? & ? & ? & _ & Hr). unfold finite32, ErrorSpec.finite_bits. change (2 ^ (23 + 8 + 1)) with 4294967296. change (2 ^ 23) with 8388608. change (2 ^ 8) with 256. split; [lia|]. Z.div_mod_to_equations. lia. }
  assert (Fi' : number o c i) by (apply finite_number; assumption).
  assert (HV : voxel o (r_step c) r (r_data c) i = voxel o (r_step c) r (r_data c) j).
  { apply in_range_cell; [| |exact HC]; unfold voxel; repeat split; apply (ticks_near r _ Hr Hu); try (apply Fi'; lia); try (apply Fj; lia); try (apply (HB i Hin Fi'); lia); apply (HB j Hj Fj); lia. }
  destruct (In_nth _ _ O HK) as (k & Hk & HNk). exists k, i. split; [rewrite HW; unfold zlen; lia|]. split; [exact Hi|].
  assert (Hnz : Z.of_nat n * r_step c <= zlen (r_data c)). { unfold n. rewrite Z2Nat.id by lia. pose proof (Z.mul_div_le (zlen (r_data c)) (r_step c) ltac:(lia)). lia. }
  assert (HP : point (r_step c) (r_data c') k = point (r_step c) (r_data c) i).
  { rewrite HD, (point_of_kept _ _ _ _ n); [rewrite HNk; reflexivity|lia|intros m Hm; apply HJ in Hm; apply Hm|exact Hnz|exact Hk]. }
  assert (HA : forall a, 0 <= a <= 2 -> at_ o c' k a = at_ o c i a).
  { intros a Ha. unfold at_. rewrite HS. change (coord o (r_step c) (r_data c') k a = coord o (r_step c) (r_data c) i a). rewrite !coord_point by lia. rewrite HP. reflexivity. }
  rewrite HS. split; [exact HP|]. split; [intros a Ha; rewrite HA by exact Ha; apply Fi'; exact Ha|]. intros a Ha. rewrite HA by exact Ha. unfold neighbour. rewrite pw2.
  assert (HTk : ticks r (at_ o c i a) = ticks r (at_ o c j a)).
  { unfold voxel in HV. change (coord o (r_step c) (r_data c) i) with (at_ o c i) in HV. change (coord o (r_step c) (r_data c) j) with (at_ o c j) in HV. assert (Q : a = 0 \/ a = 1 \/ a = 2) by lia. destruct Q as [-> | [-> | ->]]; congruence. }
  destruct (ticks_near r _ Hr Hu (Fi' a Ha) (HB i Hin Fi' a Ha)) as [Ti _]. destruct (ticks_near r _ Hr Hu (Fj a Ha) (HB j Hj Fj a Ha)) as [Tj _]. rewrite HTk in Ti.
  set (q := IZR (ticks r (at_ o c j a))) in *. set (x := float_of (at_ o c i a)) in *. set (y := float_of (at_ o c j a)) in *. replace (x - y)%R with ((q * float_of r - y) - (q * float_of r - x))%R by ring.
  eapply Rle_trans; [apply Rabs_triang|]. rewrite Rabs_Ropp. lra.
Qed.
Print Assumptions C74_neighbour_kept.

(** No two of the points kept are at the same place. *)
Theorem C74_no_duplicates c o r : triple c o r -> 0 <= o -> o + 12 <= r_step c < 4294967296 -> 1 <= zlen (r_data c) / r_step c < 4294967296 ->
  exists c', applyVizLossyPreprocessing c = Ok c' /\
    forall k k', (k < k' < Z.to_nat (r_width c'))%nat -> exists a, 0 <= a <= 2 /\ at_ o c' k a <> at_ o c' k' a.
Proof.
  intros HT Ho Hs Hn. destruct (C44_viz_subset c o r HT Ho Hs Hn) as (c' & js & E & SS & HJ & HD & HW & _ & _ & _ & _ & _ & _ & _ & HS & _). set (n := Z.to_nat _) in *.
  exists c'. split; [exact E|]. intros k k' Hk. assert (Hl : (k' < length js)%nat) by (rewrite HW in Hk; unfold zlen in Hk; lia).
  assert (Hnz : Z.of_nat n * r_step c <= zlen (r_data c)). { unfold n. rewrite Z2Nat.id by lia. pose proof (Z.mul_div_le (zlen (r_data c)) (r_step c) ltac:(lia)). lia. }
  assert (HA : forall m, (m < length js)%nat -> forall a, 0 <= a <= 2 -> at_ o c' m a = coord o (r_step c) (r_data c) (nth m js O) a).
  { intros m Hm a Ha. unfold at_. rewrite HS. change (coord o (r_step c) (r_data c') m a = coord o (r_step c) (r_data c) (nth m js O) a). rewrite !coord_point by lia.
    rewrite HD, (point_of_kept _ _ _ _ n); [reflexivity|lia|intros q Hq; apply HJ in Hq; apply Hq|exact Hnz|exact Hm]. }
  assert (K1 : kept o (r_step c) r (r_data c) n (nth k js O)) by (apply HJ, nth_In; lia). assert (K2 : kept o (r_step c) r (r_data c) n (nth k' js O)) by (apply HJ, nth_In; lia).
  assert (Hlt : (nth k js O < nth k' js O)%nat).
  { clear - SS Hk Hl. revert k k' Hk Hl. induction SS as [|x l SS IH HF]; intros k k' Hk Hl; [cbn in Hl; lia|]. destruct k' as [|k']; [lia|]. cbn [nth length] in *. destruct k as [|k].
    - rewrite Forall_forall in HF. apply HF, nth_In. lia.
    - apply IH; lia. }
  destruct K2 as (_ & _ & K2). specialize (K2 _ Hlt (proj1 (proj2 K1))).
  destruct (Z.eq_dec (at_ o c' k 0) (at_ o c' k' 0)) as [E0|E0]; [|exists 0; split; [lia|exact E0]].
  destruct (Z.eq_dec (at_ o c' k 1) (at_ o c' k' 1)) as [E1|E1]; [|exists 1; split; [lia|exact E1]].
  destruct (Z.eq_dec (at_ o c' k 2) (at_ o c' k' 2)) as [E2|E2]; [|exists 2; split; [lia|exact E2]].
  exfalso. apply K2. rewrite !HA in E0, E1, E2 by lia. unfold voxel. rewrite E0, E1, E2. repeat split; reflexivity.
Qed.
Print Assumptions C74_no_duplicates.

(** ** Through a recording: mcap_converter with --viz, then decoding *)
Definition viz_info (zstd : bool) (c : ros_cloud) : info :=
  mkInfo (r_fields c) (r_width c) (r_height c) (r_step c) ENC_LOSSY [] (if zstd then COMP_NONE else COMP_ZSTD) true 5.
(** Every finite point of the original message has a point of the decoded one within a step and a
    half along each axis (plus float rounding), and every point of the decoded message is one of the
    original's finite points, up to the accuracy of the resolution (C09). *)
Definition covers (r x y : R) : Prop := (Rabs (x - y) <= 3 / 2 * r + powerRZ 2 (-24) * (12 * (Rabs y + r)))%R.
Theorem C74_recording ft ops L ppc probe prof default zstd data c cv o r msg msg2 : let i := viz_info zstd cv in
  let n := Z.to_nat (zlen (r_data c) / r_step c) in
  x86_or_scalar ops -> libs_ok L -> NoDup (map fst prof) -> getDeserializedPointCloudMessage data = Ok c -> ros_ok c -> dds (r_cdr c) -> c_endian (r_cdr c) = LITTLE -> bytes (r_data c) ->
  triple (profiled_cloud prof default c) o r -> 0 <= o -> o + 12 <= r_step c -> 1 <= zlen (r_data c) / r_step c -> usable (float_of r) ->
  (forall j, (j < n)%nat -> number o c j -> in_box (float_of r) o c j) ->
  applyVizLossyPreprocessing (profiled_cloud prof default c) = Ok cv ->
  encode_side ppc i (r_data cv) -> decode_side i i -> deltas_ok ops i ppc (r_data cv) -> yaml_header_info ft i -> exact_resolutions ft i -> byte_texts ft i ->
  Mcap.encode_payload ft ops L ppc probe prof default zstd true data = Ok msg -> zlen msg < 1431260227 ->
  Mcap.decode_payload ft ops L ppc msg = Ok msg2 ->
  exists c2, getDeserializedPointCloudMessage msg2 = Ok c2 /\
    r_sec c2 = r_sec c /\ r_nsec c2 = r_nsec c /\ r_frame c2 = r_frame c /\ r_step c2 = r_step c /\ r_dense c2 = r_dense c /\ r_height c2 = 1 /\ zlen (r_data c2) = r_width c2 * r_step c2 /\
    (forall j, (j < n)%nat -> number o c j -> exists k, (k < Z.to_nat (r_width c2))%nat /\ number o c2 k /\ forall a, 0 <= a <= 2 -> covers (float_of r) (float_of (at_ o c2 k a)) (float_of (at_ o c j a))) /\
    (forall k, (k < Z.to_nat (r_width c2))%nat -> exists j, (j < n)%nat /\ number o c j /\ number o c2 k /\
       forall a, 0 <= a <= 2 -> (Rabs (float_of (at_ o c2 k a) - float_of (at_ o c j a)) <= bound32 (float_of r) (float_of (at_ o c j a)))%R).
Proof.
  intros i n HO HLi HN HG Hok Hd Hle Hb HT Ho Hs Hn Hu HB HV HES HDS HD HY HX Hbt HE HZ HDc.
  set (cp := profiled_cloud prof default c) in *.
  assert (Hst : r_step c < 4294967296) by apply Hok. assert (Hln : zlen (r_data c) / r_step c < 4294967296). { assert (zlen (r_data c) < 4294967296) by apply Hok. apply Z.div_lt_upper_bound; nia. }
  destruct (C44_viz_subset cp o r HT Ho (conj Hs Hst) (conj Hn Hln)) as (c' & js & E & SS & HJ & HDt & HW & HH & HRow & HF & HCd & HSec & HNs & HFr & HS & HDn).
  destruct (C74_neighbour_kept cp o r HT Ho (conj Hs Hst) (conj Hn Hln) Hb Hu HB) as (c'' & E' & HK).
  assert (c'' = cv) by congruence. subst c''. assert (c' = cv) by congruence. subst c'. clear E E'.
  change (r_data cp) with (r_data c) in *. change (r_step cp) with (r_step c) in *. fold n in HJ, HK. change (Z.to_nat (zlen (r_data c) / r_step c)) with n in HJ.
  assert (Hnz : Z.of_nat n * r_step c <= zlen (r_data c)). { unfold n. rewrite Z2Nat.id by lia. pose proof (Z.mul_div_le (zlen (r_data c)) (r_step c) ltac:(lia)). lia. }
  assert (JN : forall j, In j js -> (j < n)%nat) by (intros j Hj; apply HJ in Hj; apply Hj).
  assert (HZd : zlen (r_data cv) = r_width cv * r_step c).
  { rewrite HDt, HW. assert (JL : forall l, (forall j, In j l -> (j < n)%nat) -> zlen (concat (map (point (r_step c) (r_data c)) l)) = zlen l * r_step c); [|apply JL; exact JN].
    induction l as [|j l IH]; intros Hl; [reflexivity|]. cbn [map concat]. rewrite zlen_app, IH by (intros; apply Hl; now right). unfold zlen at 1. rewrite (point_length _ _ n) by (auto; lia || (apply Hl; now left)). unfold zlen. cbn [length]. lia. }
  assert (HWn : 0 <= r_width cv <= zlen (r_data c) / r_step c).
  { rewrite HW. unfold zlen at 1 2. split; [lia|]. assert (LJ : (length js <= n)%nat); [|unfold n in LJ; lia]. rewrite <- (seq_length n 0). apply NoDup_incl_length; [|intros j Hj; apply in_seq; specialize (JN j Hj); lia].
    clear - SS. induction SS as [|j js SS IH HF]; constructor; auto. intros HI. rewrite Forall_forall in HF. apply HF in HI. lia. }
  assert (Hokv : ros_ok cv).
  { destruct (profile_ok prof default c HN Hok) as (H1 & H2 & H3 & H4 & H5 & H6 & H7 & H8 & H9 & H10 & H11). fold cp in H1, H2, H3, H4, H5, H6, H7, H8, H9, H10, H11. change (r_data cp) with (r_data c) in *. change (r_step cp) with (r_step c) in *.
    unfold ros_ok. rewrite HSec, HNs, HFr, HH, HF, HS, HDn. split; [exact H1|]. split; [exact H2|]. split; [exact H3|]. split; [unfold u32_range; lia|]. split; [unfold u32_range; lia|]. split; [unfold zlen in *; rewrite map_length; exact H6|].
    split; [|split; [exact H8|split; [rewrite HRow; apply u32_in|split; [|exact H11]]]].
    - apply Forall_map. eapply Forall_impl; [|exact H7]. intros f (A1 & A2 & A3 & A4). destruct (f_type f) eqn:ET; try (unfold ros_field_ok; rewrite ?ET; auto). destruct (f_res f); unfold ros_field_ok; cbn [f_name f_off f_type]; rewrite ?ET; auto.
    - rewrite HZd. pose proof (Z.mul_div_le (zlen (r_data c)) (r_step c) ltac:(lia)). nia. }
  unfold Mcap.encode_payload in HE. rewrite HG in HE. cbn [bind] in HE. fold (profiled_cloud prof default c) in HE. fold cp in HE. rewrite HV in HE. cbn [bind] in HE.
  assert (Ei : (if zstd then mkInfo (i_fields (toEncodingInfo cv)) (i_width (toEncodingInfo cv)) (i_height (toEncodingInfo cv)) (i_step (toEncodingInfo cv)) (i_enc (toEncodingInfo cv)) (i_cfg (toEncodingInfo cv)) COMP_NONE (i_threads (toEncodingInfo cv)) (i_version (toEncodingInfo cv)) else toEncodingInfo cv) = i).
  { unfold i, viz_info. destruct zstd; reflexivity. }
  rewrite Ei in HE. clear Ei.
  assert (HCp : zlen (r_data cv) = r_width cv * r_height cv * r_step cv) by (rewrite HZd, HH, HS; ring).
  destruct (message_again ft ops L ppc probe cv i msg HLi Hokv ltac:(rewrite HCd; exact Hd) ltac:(rewrite HCd; exact Hle) eq_refl eq_refl eq_refl HCp HES HDS HD HY HX Hbt HE HZ) as (c1 & HG1 & HR).
  unfold Mcap.decode_payload in HDc. rewrite HG1 in HDc. cbn [bind] in HDc. destruct HR as [(m2 & data2 & E & _ & HG2 & HR)|E]; [|congruence].
  assert (m2 = msg2) by congruence. subst m2. set (c2 := parsed (r_cdr cv) cv (u32 (r_step cv * r_width cv)) data2) in *. exists c2. split; [exact HG2|].
  assert (Hpos : 0 < r_step c) by lia.
  assert (Hw : (length (r_data cv) / Z.to_nat (i_step i))%nat = Z.to_nat (r_width cv)).
  { apply Nat2Z.inj. change (i_step i) with (r_step cv). rewrite HS. rewrite Nat2Z.inj_div, !Z2Nat.id by lia. fold (zlen (r_data cv)). rewrite HZd. apply Z.div_mul. lia. }
  rewrite Hw in HR. assert (HZ2 : zlen data2 = zlen (r_data cv)) by (destruct HR as (HR & _); unfold zlen; rewrite HR, repeat_length; reflexivity).
  split; [exact HSec|]. split; [exact HNs|]. split; [exact HFr|]. split; [exact HS|]. split; [exact HDn|]. split; [exact HH|]. split.
  { change (zlen data2 = r_width cv * r_step cv). rewrite HZ2, HZd, HS. reflexivity. }
  change (r_width c2) with (r_width cv). change (i_step i) with (r_step cv) in *.
  assert (Hr : finite32 r). { destruct HT as (? & ? & ? & ? & _ & Hr). unfold finite32, ErrorSpec.finite_bits. change (2 ^ (23 + 8 + 1)) with 4294967296. change (2 ^ 23) with 8388608. change (2 ^ 8) with 256. split; [lia|]. Z.div_mod_to_equations. lia. }
  destruct HT as (n0 & n1 & n2 & rest & HFp & Hrr). rewrite HFp in HF. cbn [map f_type f_res] in HF.
  assert (NR : forall a, 0 <= a <= 2 -> field_near r (r_step cv) (o + 4 * a) (Z.to_nat (r_width cv)) (r_data cv) data2).
  { intros a Ha. assert (Hg : exists nm, In (mkField nm (o + 4 * a) FLOAT32 (Some r)) (i_fields i)).
    { unfold i, viz_info. cbn [i_fields]. rewrite HF. assert (Q : a = 0 \/ a = 1 \/ a = 2) by lia. destruct Q as [-> | [-> | ->]]; [exists n0; left; f_equal; lia|exists n1; right; left; f_equal; lia|exists n2; right; right; left; f_equal; lia]. }
    destruct Hg as (nm & Hg). change (r_step cv) with (i_step i). apply (restored_near ops i _ _ _ _ HR eq_refl _ r HO (conj Hr Hu) Hg); [|reflexivity|reflexivity]. apply (layout_inside ft i); [apply HES|exact HY|exact Hg|cbn; lia]. }
  assert (AT : forall k a, (k < Z.to_nat (r_width cv))%nat -> 0 <= a <= 2 -> finite32 (at_ o cv k a) -> (Rabs (float_of (at_ o cv k a)) <= 1048575 * float_of r)%R ->
    finite32 (at_ o c2 k a) /\ (Rabs (float_of (at_ o c2 k a) - float_of (at_ o cv k a)) <= bound32 (float_of r) (float_of (at_ o cv k a)))%R).
  { intros k a Hk Ha Fk Bk. destruct (NR a Ha k Hk) as [G _]. unfold at_ in *. change (r_step c2) with (r_step cv). change (r_data c2) with data2. replace (Z.of_nat k * r_step cv + o + 4 * a) with (Z.of_nat k * r_step cv + (o + 4 * a)) in * by ring.
    apply G; [exact Fk|]. eapply Rle_trans; [exact Bk|]. apply Rmult_le_compat_r; [destruct (usable_pos _ Hu); lra|]. rewrite pw2. change (bpow radix2 30) with 1073741824%R. lra. }
  assert (KO : forall k, (k < Z.to_nat (r_width cv))%nat -> exists j, (j < n)%nat /\ number o c j /\ forall a, 0 <= a <= 2 -> at_ o cv k a = at_ o c j a).
  { intros k Hk. assert (Hl : (k < length js)%nat) by (rewrite HW in Hk; unfold zlen in Hk; lia). pose proof (nth_In js O Hl) as HI. apply HJ in HI. destruct HI as (I1 & I2 & _). exists (nth k js O). split; [exact I1|]. split; [apply finite_number; [exact Hb|exact I2]|].
    intros a Ha. unfold at_. rewrite HS. change (coord o (r_step c) (r_data cv) k a = coord o (r_step c) (r_data c) (nth k js O) a). rewrite !coord_point by lia.
    rewrite HDt, (point_of_kept _ _ _ _ n); [reflexivity|lia|exact JN|exact Hnz|exact Hl]. }
  split.
  - intros j Hj Nj. destruct (HK j Hj Nj) as (k & q & Hk & Hq & _ & Nk & Ck). exists k. split; [exact Hk|]. destruct (KO k Hk) as (j' & Hj' & Nj' & Ej').
    assert (BX : forall a, 0 <= a <= 2 -> (Rabs (float_of (at_ o cv k a)) <= 1048575 * float_of r)%R) by (intros a Ha; rewrite Ej' by exact Ha; apply (HB j' Hj' Nj' a Ha)).
    split; [intros a Ha; exact (proj1 (AT k a Hk Ha (Nk a Ha) (BX a Ha)))|]. intros a Ha. destruct (AT k a Hk Ha (Nk a Ha) (BX a Ha)) as [_ D1]. specialize (Ck a Ha). change (at_ o cp j a) with (at_ o c j a) in Ck.
    unfold neighbour in Ck. unfold covers. unfold bound32 in D1. rewrite pw2 in *. change (bpow radix2 (-24)) with (/ 16777216)%R in *.
    set (z := float_of (at_ o c2 k a)) in *. set (x := float_of (at_ o cv k a)) in *. set (y := float_of (at_ o c j a)) in *. destruct (usable_pos _ Hu) as [P _]. set (rr := float_of r) in *.
    assert (X : (Rabs x <= Rabs y + Rabs (x - y))%R). { replace x with (y + (x - y))%R at 1 by ring. apply Rabs_triang. }
    replace (z - y)%R with ((z - x) + (x - y))%R by ring. eapply Rle_trans; [apply Rabs_triang|]. pose proof (Rabs_pos y). pose proof (Rabs_pos x). pose proof (Rabs_pos (x - y)). lra.
  - intros k Hk. destruct (KO k Hk) as (j & Hj & Nj & Ej). exists j. split; [exact Hj|]. split; [exact Nj|].
    assert (A : forall a, 0 <= a <= 2 -> finite32 (at_ o c2 k a) /\ (Rabs (float_of (at_ o c2 k a) - float_of (at_ o c j a)) <= bound32 (float_of r) (float_of (at_ o c j a)))%R).
    { intros a Ha. rewrite <- (Ej a Ha). apply AT; [exact Hk|exact Ha|rewrite Ej by exact Ha; apply Nj; exact Ha|rewrite Ej by exact Ha; apply (HB j Hj Nj a Ha)]. }
    split; [intros a Ha; apply A; exact Ha|intros a Ha; apply A; exact Ha].
Qed.
Print Assumptions C74_recording.

(** ** A case: four points, the second in the voxel of the first, the third not finite *)
Lemma small_value b : 0 <= b < 4294967296 -> (b / 8388608) mod 256 <= 130 -> (Rabs (float_of b) <= 16)%R.
Proof.
  intros Hb He. unfold float_of, value. cbv zeta. change (2 ^ 23) with 8388608. change (2 ^ 8) with 256. set (m := b mod 8388608). set (e := (b / 8388608) mod 256) in *.
  assert (Hm : 0 <= m < 8388608) by (apply Z.mod_pos_bound; lia). assert (He0 : 0 <= e) by (apply Z.mod_pos_bound; lia).
  rewrite Rabs_mult. replace (Rabs (if Z.odd (b / 2 ^ (23 + 8)) then -1 else 1)) with 1%R by (destruct (Z.odd _); [rewrite Rabs_left; lra|rewrite Rabs_R1; reflexivity]). rewrite Rmult_1_l.
  assert (G : forall k q, 0 <= k <= 16777216 -> q <= -20 -> (Rabs (IZR k * powerRZ 2 q) <= 16)%R).
  { intros k q Hk Hq. rewrite pw2. assert (0 <= IZR k <= 16777216)%R by (split; apply IZR_le; lia). pose proof (bpow_gt_0 radix2 q). rewrite Rabs_right by (apply Rle_ge, Rmult_le_pos; lra).
    assert (bpow radix2 q <= bpow radix2 (-20))%R by (apply bpow_le; lia). change (bpow radix2 (-20)) with (/ 1048576)%R in *. apply Rle_trans with (16777216 * / 1048576)%R; [|lra]. apply Rmult_le_compat; lra. }
  destruct (e =? 0); apply G; try lia; try (change (2 ^ (8 - 1)) with 128; lia).
Qed.
From Verif Require Import FloatText ApiFacts YamlFacts YamlRT.
Definition thin_cloud : ros_cloud :=
  mkRos (mkCdr LITTLE PLAIN_CDR DDS_CDR) 17 5 [109] 2 2 (r_fields rec_cloud) 24 48
    (rec_point 1069547520 3222274048 1065353216 7 4614256656552045848 ++ rec_point 1069548359 3222274048 1065353216 8 4614256656552045848 ++
     rec_point 0 2139095040 1065353216 500 4613303445314885481 ++ rec_point 0 1077936128 1065353216 500 4613303445314885481) 1.
Definition thinned : ros_cloud :=
  mkRos (mkCdr LITTLE PLAIN_CDR DDS_CDR) 17 5 [109] 1 2
    [mkField [120] 0 FLOAT32 (Some 981668463); mkField [121] 4 FLOAT32 (Some 981668463); mkField [122] 8 FLOAT32 (Some 981668463); mkField [116] 16 FLOAT64 (Some 981668463); mkField [105] 14 UINT8 None] 24 48
    (rec_point 1069547520 3222274048 1065353216 7 4614256656552045848 ++ rec_point 0 1077936128 1065353216 500 4613303445314885481) 1.
Example C74_case : let c := thin_cloud in let cv := thinned in let i := viz_info false cv in let cp := profiled_cloud rec_profile (Some 981668463) c in
  libs_ok store_libs /\ NoDup (map fst rec_profile) /\ getDeserializedPointCloudMessage (raw_message c) = Ok c /\ ros_ok c /\ dds (r_cdr c) /\ bytes (r_data c) /\
  triple cp 0 981668463 /\ zlen (r_data c) / r_step c = 4 /\ usable (float_of 981668463) /\
  (forall j, (j < 4)%nat -> number 0 c j -> in_box (float_of 981668463) 0 c j) /\ number 0 c 0 /\ number 0 c 1 /\ ~ number 0 c 2 /\
  applyVizLossyPreprocessing cp = Ok cv /\ encode_side 2 i (r_data cv) /\ decode_side i i /\ deltas_ok sse_ops i 2 (r_data cv) /\
  yaml_header_info gnu_text i /\ exact_resolutions gnu_text i /\ byte_texts gnu_text i /\
  exists msg msg2, Mcap.encode_payload gnu_text sse_ops store_libs 2 4096 rec_profile (Some 981668463) false true (raw_message c) = Ok msg /\ zlen msg < 1431260227 /\
    Mcap.decode_payload gnu_text sse_ops store_libs 2 msg = Ok msg2.
Proof.
  cbv zeta. split; [apply store_libs_ok|]. split; [repeat constructor; cbn; intuition congruence|]. split; [vm_compute; reflexivity|]. split.
  { unfold ros_ok, u32_range, thin_cloud. cbn [r_sec r_nsec r_frame r_height r_width r_fields r_step r_row r_data r_dense rec_cloud]. do 2 (split; [lia|]). split; [reflexivity|]. do 2 (split; [lia|]). split; [reflexivity|].
    split; [|split; [lia|split; [lia|split; [vm_compute; reflexivity|lia]]]]. apply Forall_forall. intros f Hf. cbn in Hf. unfold ros_field_ok, u32_range. repeat (destruct Hf as [<-|Hf]; [vm_compute; repeat split; congruence|]). contradiction. }
  assert (Hb : bytes (r_data thin_cloud)) by (apply bytesb; vm_compute; reflexivity).
  split; [split; reflexivity|]. split; [exact Hb|]. split.
  { exists [120], [121], [122], [mkField [116] 16 FLOAT64 (Some 981668463); mkField [105] 14 UINT8 None]. split; [vm_compute; reflexivity|lia]. }
  split; [vm_compute; reflexivity|]. split; [exact milli_usable|]. split.
  { intros j Hj Nj a Ha. apply Rle_trans with 16%R; [|change 981668463 with mm; rewrite milli_val; lra].
    assert (Qa : a = 0 \/ a = 1 \/ a = 2) by lia. specialize (Nj a Ha). apply small_value; [apply at_bytes; exact Hb|].
    destruct j as [|[|[|[|j]]]]; [| | | |lia]; destruct Qa as [-> | [-> | ->]]; try (vm_compute; discriminate).
    exfalso. destruct Nj as [_ Nj]. apply Nj. vm_compute. reflexivity. }
  assert (FN : forall j, (forallb (fun a => isfinite32 (at_ 0 thin_cloud j a)) [0; 1; 2]) = true -> number 0 thin_cloud j).
  { intros j H. apply finite_number; [exact Hb|]. unfold finite. rewrite !finite_bits_spec. cbn [forallb] in H. rewrite !andb_true_iff in H. change (coord 0 (r_step thin_cloud) (r_data thin_cloud) j) with (at_ 0 thin_cloud j). tauto. }
  split; [apply FN; vm_compute; reflexivity|]. split; [apply FN; vm_compute; reflexivity|]. split; [intros H; destruct (H 1 ltac:(lia)) as [_ H1]; apply H1; vm_compute; reflexivity|].
  split; [vm_compute; reflexivity|]. split.
  { split; [split; [reflexivity|repeat constructor; cbn; lia]|]. split; [exact I|]. split; [|apply bytesb; vm_compute; reflexivity]. split; [lia|]. split; [lia|vm_compute; discriminate]. }
  split.
  { split; [split; [repeat constructor|auto]|]. split; [split; [reflexivity|repeat constructor; cbn; lia]|]. split; [left; cbn; repeat constructor; cbn; lia|]. split; [repeat constructor|]. split; [repeat constructor|split; [reflexivity|vm_compute; discriminate]]. }
  split; [apply (deltas_okb_ok _ _ _ _ 2); [vm_compute; reflexivity|reflexivity|vm_compute; reflexivity]|]. 
  split.
  { unfold yaml_header_info, viz_info. cbn [i_version i_width i_height i_step i_enc i_comp i_cfg i_fields thinned r_width r_height r_step r_fields]. change (2 ^ 32) with 4294967296. do 4 (split; [lia|]). split; [exact I|]. split; [exact I|]. split; [left; reflexivity|].
    assert (G : forall n o t r, safeb n = true -> 0 <= o < 4294967296 -> (t = FLOAT32 \/ t = FLOAT64 \/ t = UINT8) -> (r = None \/ r = Some 981668463) -> yaml_header_field gnu_text (mkField n o t r)).
    { intros n o t r Hn Hoo Ht Hr. split; [now apply safeb_ok|]. split; [cbn [f_off]; change (2 ^ 32) with 4294967296; lia|]. split; [destruct Ht as [-> | [-> | ->]]; exact I|]. destruct Hr as [-> | ->]; [exact I|]. cbn [f_res]. split; [apply safeb_ok; vm_compute; reflexivity|]. split; [vm_compute; discriminate|vm_compute; discriminate]. }
    repeat (apply Forall_cons; [apply G; [reflexivity|lia|auto|auto]|]); apply Forall_nil. }
  split; [unfold exact_resolutions, viz_info; cbn [i_fields thinned r_fields]; repeat (apply Forall_cons; [first [exact I | vm_compute; reflexivity]|]); apply Forall_nil|].
  split; [split; [constructor|]; unfold viz_info; cbn [i_fields thinned r_fields]; repeat (apply Forall_cons; [split; [apply bytesb; reflexivity|first [apply gnu_bytes | exact I]]|]); apply Forall_nil|].
  do 2 eexists. split; [vm_compute; reflexivity|]. split; [vm_compute; reflexivity|]. vm_compute; reflexivity.
Qed.
