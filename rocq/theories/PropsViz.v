(** C44, C45, C46: preprocessing of ROS clouds. *)
From Coq Require Import Sorting.Sorted.
From Verif Require Import Base BaseFacts Types Floats Spec Cdr Ros RosViz.

(** * C45 *)
Definition axis_range (q : Z) : Prop := - 1048576 <= q <= 1048575.
(** Two voxel coordinates are the same on every axis, modulo 2^21. *)
Definition same_cell (a b : Z * Z * Z) : Prop :=
  let '(ax, ay, az) := a in let '(bx, by_, bz) := b in
  ax mod 2097152 = bx mod 2097152 /\ ay mod 2097152 = by_ mod 2097152 /\ az mod 2097152 = bz mod 2097152.
Definition voxel_key (v : Z * Z * Z) : Z := let '(x, y, z) := v in packVoxelKey21 x y z.

Lemma axis_mod q : axis q = (q + 1048576) mod 2097152.
Proof.
  unfold axis, kAxisMask, u64. change 2097151 with (Z.ones 21). rewrite Z.land_ones by lia. change (2 ^ 21) with 2097152.
  change 18446744073709551616 with (2097152 * 8796093022208). rewrite Z.rem_mul_r by lia. rewrite (Z.mul_comm 2097152 (_ mod _)), Z.mod_add by lia. apply Z.mod_mod. lia.
Qed.
Lemma axis_bound q : 0 <= axis q < 2097152.
Proof. rewrite axis_mod. apply Z.mod_pos_bound. lia. Qed.
Lemma bits_high a n m : 0 <= n -> n <= m -> 0 <= a < 2 ^ n -> Z.testbit a m = false.
Proof.
  intros Hn Hm Ha. apply Z.testbit_false; [lia|]. rewrite Z.div_small; [reflexivity|]. split; [lia|]. apply Z.lt_le_trans with (2 ^ n); [lia|]. apply Z.pow_le_mono_r; lia.
Qed.
Lemma lor_shift a b n : 0 <= n -> 0 <= a < 2 ^ n -> Z.lor a (Z.shiftl b n) = a + b * 2 ^ n.
Proof.
  intros Hn Ha. rewrite <- (Z.shiftl_mul_pow2 b n Hn). rewrite (Z.add_nocarry_lxor a (Z.shiftl b n)).
  - apply eq_sym, Z.lxor_lor. apply Z.bits_inj'. intros m Hm. rewrite Z.land_spec, Z.bits_0. destruct (Z.ltb_spec m n).
    + rewrite Z.shiftl_spec_low by lia. apply andb_false_r.
    + rewrite (bits_high a n m) by lia. reflexivity.
  - apply Z.bits_inj'. intros m Hm. rewrite Z.land_spec, Z.bits_0. destruct (Z.ltb_spec m n).
    + rewrite Z.shiftl_spec_low by lia. apply andb_false_r.
    + rewrite (bits_high a n m) by lia. reflexivity.
Qed.
Lemma key_sum x y z : packVoxelKey21 x y z = axis x + axis y * 2097152 + axis z * 4398046511104.
Proof.
  unfold packVoxelKey21. pose proof (axis_bound x) as Bx. pose proof (axis_bound y) as By. pose proof (axis_bound z) as Bz.
  rewrite !Z.shiftl_mul_pow2 by lia. change (2 ^ 21) with 2097152. change (2 ^ 42) with 4398046511104. unfold u64. rewrite !Z.mod_small by lia.
  change 2097152 with (2 ^ 21) at 1. rewrite <- Z.shiftl_mul_pow2 by lia. rewrite lor_shift by (change (2 ^ 21) with 2097152; lia). change (2 ^ 21) with 2097152.
  change 4398046511104 with (2 ^ 42) at 1. rewrite <- (Z.shiftl_mul_pow2 (axis z) 42) by lia. rewrite lor_shift by (change (2 ^ 42) with 4398046511104; lia). change (2 ^ 42) with 4398046511104. reflexivity.
Qed.
Lemma axis_eq p q : axis p = axis q <-> p mod 2097152 = q mod 2097152.
Proof. rewrite !axis_mod. pose proof (Z.div_mod p 2097152 ltac:(lia)). pose proof (Z.div_mod q 2097152 ltac:(lia)). Z.div_mod_to_equations. lia. Qed.

(** Two voxels have the same key exactly when they are the same cell modulo 2^21 on each axis. *)
Theorem C45_key_equal_iff a b : voxel_key a = voxel_key b <-> same_cell a b.
Proof.
  destruct a as [[ax ay] az], b as [[bx by_] bz]. unfold voxel_key, same_cell. rewrite !key_sum, <- !axis_eq.
  pose proof (axis_bound ax). pose proof (axis_bound ay). pose proof (axis_bound az). pose proof (axis_bound bx). pose proof (axis_bound by_). pose proof (axis_bound bz).
  split; [|intros (-> & -> & ->); reflexivity]. intros H5. lia.
Qed.
Lemma in_range_cell a b : (let '(x, y, z) := a in axis_range x /\ axis_range y /\ axis_range z) -> (let '(x, y, z) := b in axis_range x /\ axis_range y /\ axis_range z) -> same_cell a b -> a = b.
Proof.
  destruct a as [[ax ay] az], b as [[bx by_] bz]. unfold axis_range, same_cell. intros (A1 & A2 & A3) (B1 & B2 & B3) (H1 & H2 & H3).
  assert (forall p q, - 1048576 <= p <= 1048575 -> - 1048576 <= q <= 1048575 -> p mod 2097152 = q mod 2097152 -> p = q) as G by (intros p q Hp Hq E; Z.div_mod_to_equations; lia).
  rewrite (G _ _ A1 B1 H1), (G _ _ A2 B2 H2), (G _ _ A3 B3 H3). reflexivity.
Qed.
Theorem C45_key_injective x y z x' y' z' :
  axis_range x -> axis_range y -> axis_range z -> axis_range x' -> axis_range y' -> axis_range z' ->
  packVoxelKey21 x y z = packVoxelKey21 x' y' z' -> x = x' /\ y = y' /\ z = z'.
Proof.
  intros A1 A2 A3 B1 B2 B3 H. apply (C45_key_equal_iff (x, y, z) (x', y', z')) in H. apply in_range_cell in H; auto. inversion H. auto.
Qed.
Theorem C45_out_of_range_refuted : exists x x', 0 <= x <= 2147483647 /\ 0 <= x' <= 2147483647 /\ x <> x' /\ packVoxelKey21 x 0 0 = packVoxelKey21 x' 0 0.
Proof. exists 0, 2097152. repeat split; (vm_compute; congruence) || reflexivity. Qed.
Example C45_case : axis_range (-1048576) /\ axis_range 1048575 /\ packVoxelKey21 (-1048576) 1048575 0 <> packVoxelKey21 1048575 (-1048576) 0.
Proof. unfold axis_range. split; [lia|]. split; [lia|]. vm_compute. discriminate. Qed.

(** * C46 *)
(** What a profile with an optional default does to a list of fields. *)
Inductive profiled (p : profile) (default : option Z) : list field -> list field -> Prop :=
| pr_nil : profiled p default [] []
| pr_removed f fs out r : In (f_name f, r) p -> r = 0 \/ r = 2147483648 (* 0.0 or -0.0 *) -> profiled p default fs out -> profiled p default (f :: fs) out
| pr_listed f fs out r : In (f_name f, r) p -> r <> 0 -> r <> 2147483648 -> profiled p default fs out ->
    profiled p default (f :: fs) (mkField (f_name f) (f_off f) (f_type f) (Some r) :: out)
| pr_default f fs out d : ~ In (f_name f) (map fst p) -> f_type f = FLOAT32 -> default = Some d -> profiled p default fs out ->
    profiled p default (f :: fs) (mkField (f_name f) (f_off f) (f_type f) (Some d) :: out)
| pr_kept f fs out : ~ In (f_name f) (map fst p) -> f_type f <> FLOAT32 \/ default = None -> profiled p default fs out -> profiled p default (f :: fs) (f :: out).
Lemma find_in p name r : NoDup (map fst p) -> In (name, r) p -> profile_find p name = Some r.
Proof.
  induction p as [|[k q] p IH]; [contradiction|]. cbn [map fst profile_find]. intros HN H. inversion HN as [|? ? N1 N2]; subst. destruct H as [H|H].
  - assert (k = name /\ q = r) as [-> ->] by (split; congruence). destruct (list_eq_dec _ _ _); congruence.
  - destruct (list_eq_dec Z.eq_dec k name) as [->|]; [|now apply IH]. exfalso. apply N1. change name with (fst (name, r)). now apply in_map.
Qed.
Lemma find_none p name : ~ In name (map fst p) -> profile_find p name = None.
Proof. induction p as [|[k q] p IH]; [reflexivity|]. cbn [map fst profile_find In]. intros H. destruct (list_eq_dec Z.eq_dec k name); [exfalso; auto|]. apply IH. auto. Qed.
Lemma find_some_in p name r : profile_find p name = Some r -> In (name, r) p.
Proof. induction p as [|[k q] p IH]; [discriminate|]. cbn [profile_find]. destruct (list_eq_dec Z.eq_dec k name) as [->|]; [|right; auto]. intros H. left. congruence. Qed.
Lemma find_none_in p name : profile_find p name = None -> ~ In name (map fst p).
Proof. induction p as [|[k q] p IH]; [auto|]. cbn [profile_find map fst In]. destruct (list_eq_dec Z.eq_dec k name); [discriminate|]. intros H [H1|H1]; [auto|now apply IH]. Qed.
Theorem C46_profile_semantics p default fields out : NoDup (map fst p) ->
  (profiled p default fields out <-> out = applyResolutionProfile p fields default).
Proof.
  intros HN. unfold applyResolutionProfile. cbv zeta. split.
  - induction 1 as [|f fs out r HI Hr _ IH|f fs out r HI Hr Hr' _ IH|f fs out d HI Ht -> _ IH|f fs out HI Ht _ IH]; [reflexivity|..]; cbn [filter].
    + rewrite (find_in _ _ _ HN HI). replace (f32_is0 r) with true by (destruct Hr; subst; reflexivity). exact IH.
    + rewrite (find_in _ _ _ HN HI). replace (f32_is0 r) with false by (unfold f32_is0; lia). cbn [negb map]. rewrite (find_in _ _ _ HN HI), <- IH. reflexivity.
    + rewrite (find_none _ _ HI). cbn [negb map]. rewrite (find_none _ _ HI), Ht, <- IH. cbn [is_float32]. unfold set_res. now rewrite Ht.
    + rewrite (find_none _ _ HI). cbn [negb map]. rewrite (find_none _ _ HI), <- IH. destruct Ht as [Ht| ->]; [|reflexivity]. destruct default; [|reflexivity]. destruct (f_type f); try reflexivity. congruence.
  - intros ->. induction fields as [|f fs IH]; [constructor|]. cbn [filter]. destruct (profile_find p (f_name f)) as [r|] eqn:E.
    + pose proof (find_some_in _ _ _ E) as HI. destruct (f32_is0 r) eqn:E0; cbn [negb].
      * apply pr_removed with r; [exact HI|unfold f32_is0 in E0; lia|exact IH].
      * cbn [map]. rewrite E. unfold set_res. apply pr_listed; [exact HI|unfold f32_is0 in E0; lia|unfold f32_is0 in E0; lia|exact IH].
    + pose proof (find_none_in _ _ E) as HI. cbn [negb map]. rewrite E. destruct default as [d|]; [|apply pr_kept; auto]. destruct (is_float32 (f_type f)) eqn:ET.
      * unfold set_res. apply pr_default; auto. destruct (f_type f); congruence || discriminate ET.
      * apply pr_kept; auto. left. intros H. rewrite H in ET. discriminate.
Qed.
(** In particular the positions and types of the surviving fields are unchanged and in order. *)
Theorem C46_positions_kept p default fields : NoDup (map fst p) ->
  map (fun f => (f_name f, f_off f, f_type f)) (applyResolutionProfile p fields default) =
  map (fun f => (f_name f, f_off f, f_type f)) (filter (fun f => negb (existsb (fun kr => if list_eq_dec Z.eq_dec (fst kr) (f_name f) then (snd kr =? 0) || (snd kr =? 2147483648) else false) p)) fields).
Proof.
  intros HN. unfold applyResolutionProfile. cbv zeta. rewrite map_map.
  assert (G : forall f, existsb (fun kr => if list_eq_dec Z.eq_dec (fst kr) (f_name f) then (snd kr =? 0) || (snd kr =? 2147483648) else false) p = match profile_find p (f_name f) with Some r => f32_is0 r | None => false end).
  { intros f. clear fields. induction p as [|[k r] p IH]; [reflexivity|]. cbn [existsb profile_find fst snd]. inversion HN as [|? ? N1 N2]; subst. specialize (IH N2). destruct (list_eq_dec Z.eq_dec k (f_name f)) as [->|]; [|exact IH].
    rewrite IH. rewrite (find_none p (f_name f) N1). apply orb_false_r. }
  induction fields as [|f fs IH]; [reflexivity|]. cbn [filter]. rewrite G. destruct (negb _); [|exact IH]. cbn [map]. f_equal; [|exact IH].
  destruct (profile_find p (f_name f)); [reflexivity|]. destruct default; [|reflexivity]. destruct (is_float32 _); reflexivity.
Qed.
Example C46_case : let p := [([120], 981668463); ([114], 0)] in
  NoDup (map fst p) /\
  applyResolutionProfile p [mkField [120] 0 FLOAT32 None; mkField [114] 4 UINT16 None; mkField [105] 6 FLOAT32 None; mkField [116] 10 FLOAT64 None] (Some 1008981770) =
    [mkField [120] 0 FLOAT32 (Some 981668463); mkField [105] 6 FLOAT32 (Some 1008981770); mkField [116] 10 FLOAT64 None].
Proof. split; [|reflexivity]. constructor; [intros [H|[]]; discriminate|]. constructor; [intros []|constructor]. Qed.
(** A listed resolution is given to fields of every type, also integers. *)
Theorem C46_integer_resolution_refuted : exists p f, f_type f = UINT16 /\ f_res f = None /\
  applyResolutionProfile p [f] None = [mkField (f_name f) (f_off f) UINT16 (Some 981668463)].
Proof. exists [([114], 981668463)], (mkField [114] 0 UINT16 None). auto. Qed.

(** * C44 *)
(** A binary32 pattern that is neither infinite nor NaN: the exponent is not all ones. *)
Definition finite_bits (b : Z) : Prop := (b / 8388608) mod 256 <> 255.
Lemma finite_bits_spec b : finite_bits b <-> isfinite32 b = true.
Proof. unfold finite_bits, isfinite32. rewrite negb_true_iff, Z.eqb_neq. reflexivity. Qed.
Section Viz.
  Variables (o step res : Z) (data : list Z).
  (** coordinates of point [j], whether they are finite, and its voxel *)
  Definition coord (j : nat) (a : Z) : Z := le_val (sub (Z.of_nat j * step + o + 4 * a) 4 data).
  Definition finite (j : nat) : Prop := finite_bits (coord j 0) /\ finite_bits (coord j 1) /\ finite_bits (coord j 2).
  Definition voxel (j : nat) : Z * Z * Z := (ticks res (coord j 0), ticks res (coord j 1), ticks res (coord j 2)).
  Definition point (j : nat) : list Z := sub (Z.of_nat j * step) (Z.to_nat step) data.
  Definition kept (n : nat) (j : nat) : Prop :=
    (j < n)%nat /\ finite j /\ forall k, (k < j)%nat -> finite k -> ~ same_cell (voxel k) (voxel j).

  Hypotheses (Ho : 0 <= o) (Hs : o + 12 <= step).
  Lemma rd_coord j a n : (j < n)%nat -> Z.of_nat n * step <= zlen data -> 0 <= a <= 2 -> rd (Z.of_nat j * step + o + 4 * a) 4 data = Ok (sub (Z.of_nat j * step + o + 4 * a) 4 data).
  Proof. intros Hj Hn Ha. unfold sub. apply rd_ok; change (Z.of_nat 4) with 4; nia. Qed.
  Lemma rd_point j n : (j < n)%nat -> Z.of_nat n * step <= zlen data -> rd (Z.of_nat j * step) (Z.to_nat step) data = Ok (point j).
  Proof. intros Hj Hn. unfold point, sub. apply rd_ok; [nia|]. rewrite Z2Nat.id by lia. nia. Qed.
  Lemma loop_spec : forall n i seen, Z.of_nat (i + n) * step <= zlen data ->
    exists js, viz_loop o (o + 4) (o + 8) res step data n (Z.of_nat i) seen = Ok (map point js) /\ StronglySorted lt js /\
      forall j, In j js <-> (i <= j < i + n)%nat /\ finite j /\ ~ In (voxel_key (voxel j)) seen /\ forall k, (i <= k < j)%nat -> finite k -> ~ same_cell (voxel k) (voxel j).
  Proof.
    induction n as [|n IH]; intros i seen Hn; cbn [viz_loop].
    - exists []. split; [reflexivity|]. split; [constructor|]. intros j. split; [contradiction|]. intros [H _]. lia.
    - replace (Z.of_nat i * step + o) with (Z.of_nat i * step + o + 4 * 0) by lia. replace (Z.of_nat i * step + (o + 4)) with (Z.of_nat i * step + o + 4 * 1) by lia. replace (Z.of_nat i * step + (o + 8)) with (Z.of_nat i * step + o + 4 * 2) by lia.
      rewrite !(rd_coord i _ (i + S n)) by lia. cbn [bind]. fold (coord i 0) (coord i 1) (coord i 2). replace (Z.of_nat i + 1) with (Z.of_nat (S i)) by lia.
      assert (DF : (finite i /\ (negb (isfinite32 (coord i 0)) || negb (isfinite32 (coord i 1)) || negb (isfinite32 (coord i 2))) = false) \/ (~ finite i /\ (negb (isfinite32 (coord i 0)) || negb (isfinite32 (coord i 1)) || negb (isfinite32 (coord i 2))) = true)).
      { unfold finite. rewrite !finite_bits_spec. destruct (isfinite32 (coord i 0)), (isfinite32 (coord i 1)), (isfinite32 (coord i 2)); cbn; intuition congruence. }
      assert (HnS : Z.of_nat (S i + n) * step <= zlen data) by (replace (S i + n)%nat with (i + S n)%nat by lia; exact Hn).
      assert (Skip : forall js, (~ finite i \/ In (voxel_key (voxel i)) seen) ->
        (forall j, In j js <-> (S i <= j < S i + n)%nat /\ finite j /\ ~ In (voxel_key (voxel j)) seen /\ forall k, (S i <= k < j)%nat -> finite k -> ~ same_cell (voxel k) (voxel j)) ->
        (forall j, In j js <-> (i <= j < i + S n)%nat /\ finite j /\ ~ In (voxel_key (voxel j)) seen /\ forall k, (i <= k < j)%nat -> finite k -> ~ same_cell (voxel k) (voxel j))).
      { intros js HSk HJ j. rewrite HJ. split.
        - intros (H1 & H2 & H3 & H4). split; [lia|]. split; [exact H2|]. split; [exact H3|]. intros k Hk Fk. destruct (Nat.eq_dec k i) as [->|]; [|apply H4; [lia|exact Fk]].
          destruct HSk as [HSk|HSk]; [contradiction|]. intros HSC. apply C45_key_equal_iff in HSC. rewrite HSC in HSk. contradiction.
        - intros (H1 & H2 & H3 & H4). destruct (Nat.eq_dec j i) as [->|]; [destruct HSk; contradiction|]. split; [lia|]. split; [exact H2|]. split; [exact H3|]. intros k Hk. apply H4. lia. }
      destruct DF as [[F ->]|[F ->]].
      + change (packVoxelKey21 (ticks res (coord i 0)) (ticks res (coord i 1)) (ticks res (coord i 2))) with (voxel_key (voxel i)). set (key := voxel_key (voxel i)).
        destruct (existsb (Z.eqb key) seen) eqn:EX.
        * assert (HIn : In key seen) by (apply existsb_exists in EX; destruct EX as (x & Hx & E); apply Z.eqb_eq in E; congruence).
          destruct (IH (S i) seen HnS) as (js & E & S1 & J). exists js. split; [exact E|]. split; [exact S1|]. apply Skip; [right; exact HIn|exact J].
        * assert (HNi : ~ In key seen). { intros HIn. apply not_true_iff_false in EX. apply EX, existsb_exists. exists key. split; [exact HIn|apply Z.eqb_refl]. }
          rewrite (rd_point i (i + S n)) by lia. cbn [bind]. destruct (IH (S i) (key :: seen) HnS) as (js & E & S1 & J). rewrite E. cbn [bind]. exists (i :: js). split; [reflexivity|]. split.
          { constructor; [exact S1|]. apply Forall_forall. intros j Hj. apply J in Hj. lia. }
          intros j. cbn [In]. rewrite J. split.
          { intros [<-|(H1 & H2 & H3 & H4)].
            - split; [lia|]. split; [exact F|]. split; [exact HNi|]. intros k Hk. lia.
            - split; [lia|]. split; [exact H2|]. split; [intros HI; apply H3; now right|]. intros k Hk Fk. destruct (Nat.eq_dec k i) as [->|]; [|apply H4; [lia|exact Fk]].
              intros HSC. apply C45_key_equal_iff in HSC. apply H3. left. exact HSC. }
          { intros (H1 & H2 & H3 & H4). destruct (Nat.eq_dec j i) as [->|Hne]; [now left|right]. split; [lia|]. split; [exact H2|]. split.
            - intros [HI|HI]; [|contradiction]. apply (H4 i ltac:(lia) F). apply C45_key_equal_iff. exact HI.
            - intros k Hk. apply H4. lia. }
      + destruct (IH (S i) seen HnS) as (js & E & S1 & J). exists js. split; [exact E|]. split; [exact S1|]. apply Skip; [left; exact F|exact J].
  Qed.
End Viz.

(** The geometry triple: the first three fields are FLOAT32 with one resolution [r], consecutive
    from offset [o]; [r] is positive and finite. *)
Definition triple (c : ros_cloud) (o r : Z) : Prop :=
  exists n0 n1 n2 rest, r_fields c = mkField n0 o FLOAT32 (Some r) :: mkField n1 (o + 4) FLOAT32 (Some r) :: mkField n2 (o + 8) FLOAT32 (Some r) :: rest /\
  0 < r < 2139095040.
(** The points kept are, in order, those with finite coordinates whose voxel was not met before;
    nothing else of the cloud changes but the dimensions and the resolution of FLOAT64 fields that
    had none. *)
Theorem C44_viz_subset c o r :
  triple c o r -> 0 <= o -> o + 12 <= r_step c < 4294967296 -> 1 <= zlen (r_data c) / r_step c < 4294967296 ->
  let n := Z.to_nat (zlen (r_data c) / r_step c) in
  exists c' js, applyVizLossyPreprocessing c = Ok c' /\ StronglySorted lt js /\
    (forall j, In j js <-> kept o (r_step c) r (r_data c) n j) /\
    r_data c' = concat (map (point (r_step c) (r_data c)) js) /\
    r_width c' = zlen js /\ r_height c' = 1 /\ r_row c' = (r_step c * zlen js) mod 4294967296 /\
    r_fields c' = map (fun f => match f_type f, f_res f with FLOAT64, None => mkField (f_name f) (f_off f) FLOAT64 (Some 897988541 (* 1e-6f *)) | _, _ => f end) (r_fields c) /\
    r_cdr c' = r_cdr c /\ r_sec c' = r_sec c /\ r_nsec c' = r_nsec c /\ r_frame c' = r_frame c /\ r_step c' = r_step c /\ r_dense c' = r_dense c.
Proof.
  intros (n0 & n1 & n2 & rest & HF & Hr) Ho Hs Hn n.
  assert (Hdiv : Z.of_nat n * r_step c <= zlen (r_data c)). { unfold n. rewrite Z2Nat.id by lia. pose proof (Z.mul_div_le (zlen (r_data c)) (r_step c) ltac:(lia)). lia. }
  destruct (loop_spec o (r_step c) r (r_data c) Ho ltac:(lia) n 0 [] Hdiv) as (js & E & S1 & J). change (Z.of_nat 0) with 0 in E.
  assert (LJ : (length js <= n)%nat).
  { rewrite <- (seq_length n 0). apply NoDup_incl_length; [|intros j Hj; apply in_seq; apply J in Hj; lia].
    clear - S1. induction S1 as [|j js S1 IH HF]; constructor; auto. intros HI. rewrite Forall_forall in HF. apply HF in HI. lia. }
  assert (ZJ : zlen (map (point (r_step c) (r_data c)) js) = zlen js) by (unfold zlen; now rewrite map_length).
  assert (SJ : u32 (zlen js) = zlen js). { apply Z.mod_small. unfold zlen. split; [lia|]. unfold n in LJ. lia. }
  assert (EA : applyVizLossyPreprocessing c = Ok (mkRos (r_cdr c) (r_sec c) (r_nsec c) (r_frame c) 1 (zlen js) (map quantize_times (r_fields c)) (r_step c) (u32 (r_step c * zlen js)) (concat (map (point (r_step c) (r_data c)) js)) (r_dense c))).
  { unfold applyVizLossyPreprocessing, viz_rewrite. rewrite HF at 1. cbn [f_res f_type is_float32 andb f_off]. replace (r_step c =? 0) with false by lia.
    assert (EQ : f32_eq r r = true). { unfold f32_eq, isnan32. rewrite Z.eqb_refl. replace ((r / 8388608) mod 256 =? 255) with false; [reflexivity|]. symmetry. apply Z.eqb_neq. Z.div_mod_to_equations. lia. }
    rewrite EQ. unfold u32 at 1 2. rewrite !Z.mod_small by lia. rewrite !Z.eqb_refl. cbn [andb]. replace ((0 <? r) && (r <? 2139095040)) with true by lia.
    replace (length (r_data c) / Z.to_nat (r_step c))%nat with n. 2: { unfold n, zlen. rewrite <- (Z2Nat.id (r_step c)) at 1 by lia. rewrite <- Nat2Z.inj_div, Nat2Z.id. reflexivity. }
    replace (n =? 0)%nat with false by (symmetry; apply Nat.eqb_neq; unfold n; lia). rewrite E. cbn [bind]. cbv zeta. rewrite ZJ, SJ. reflexivity. }
  eexists. exists js. split; [exact EA|]. split; [exact S1|]. split.
  { intros j. rewrite J. unfold kept. split.
    - intros (H1 & H2 & _ & H3). split; [lia|]. split; [exact H2|]. intros k Hk. apply H3. lia.
    - intros (H1 & H2 & H3). split; [lia|]. split; [exact H2|]. split; [intros []|]. intros k Hk. apply H3. lia. }
  cbn [r_data r_width r_height r_row r_fields r_cdr r_sec r_nsec r_frame r_step r_dense]. do 4 (split; [reflexivity|]). split; [|repeat split; reflexivity].
  apply map_ext. intros f. unfold quantize_times, set_res. destruct (f_type f) eqn:ET; try reflexivity.
Qed.
(** When the voxels of the finite points lie within 2^20 of the origin, points are dropped only in
    favour of an earlier point of the very same voxel, and every voxel keeps one. *)
Definition voxels_in_range (o step r : Z) (data : list Z) (n : nat) : Prop :=
  forall j, (j < n)%nat -> finite o step data j -> let '(x, y, z) := voxel o step r data j in axis_range x /\ axis_range y /\ axis_range z.
Theorem C44_kept_iff_first_of_voxel o step r data n j : voxels_in_range o step r data n ->
  (kept o step r data n j <-> (j < n)%nat /\ finite o step data j /\ forall k, (k < j)%nat -> finite o step data k -> voxel o step r data k <> voxel o step r data j).
Proof.
  intros HR. unfold kept. split; intros (H1 & H2 & H3); (split; [exact H1|]); (split; [exact H2|]); intros k Hk Fk HE.
  - apply (H3 k Hk Fk). rewrite HE. unfold same_cell. destruct (voxel o step r data j) as [[? ?] ?]. auto.
  - apply (H3 k Hk Fk). apply in_range_cell; [apply (HR k); [lia|exact Fk]|apply (HR j); assumption|exact HE].
Qed.
Lemma bounded_search (P : nat -> Prop) (dec : forall k, {P k} + {~ P k}) n : (exists k, (k < n)%nat /\ P k) \/ (forall k, (k < n)%nat -> ~ P k).
Proof.
  induction n as [|n [(k & Hk & HP)|IH]]; [right; lia|left; exists k; split; [lia|exact HP]|]. destruct (dec n) as [H|H]; [left; exists n; auto|right]. intros k Hk. destruct (Nat.eq_dec k n) as [->|]; [exact H|apply IH; lia].
Qed.
Theorem C44_every_voxel_kept o step r data n j : (j < n)%nat -> finite o step data j ->
  exists k, (k <= j)%nat /\ kept o step r data n k /\ same_cell (voxel o step r data k) (voxel o step r data j).
Proof.
  induction j as [j IH] using (well_founded_induction lt_wf). intros Hj Fj.
  assert (DF : forall k, {finite o step data k} + {~ finite o step data k}).
  { intros k. unfold finite, finite_bits. 
    destruct (Z.eq_dec ((coord o step data k 0 / 8388608) mod 256) 255); [right; tauto|]. destruct (Z.eq_dec ((coord o step data k 1 / 8388608) mod 256) 255); [right; tauto|].
    destruct (Z.eq_dec ((coord o step data k 2 / 8388608) mod 256) 255); [right; tauto|left; auto]. }
  assert (DC : forall k, {same_cell (voxel o step r data k) (voxel o step r data j)} + {~ same_cell (voxel o step r data k) (voxel o step r data j)}).
  { intros k. destruct (Z.eq_dec (voxel_key (voxel o step r data k)) (voxel_key (voxel o step r data j))) as [E|E]; [left; now apply C45_key_equal_iff|right; intros H; apply E; now apply C45_key_equal_iff]. }
  destruct (bounded_search (fun k => finite o step data k /\ same_cell (voxel o step r data k) (voxel o step r data j))
    ltac:(intros k; destruct (DF k); [destruct (DC k); [left; auto|right; tauto]|right; tauto]) j) as [(k & Hk & Fk & SC)|HN].
  - destruct (IH k Hk ltac:(lia) Fk) as (m & H1 & H2 & H3). exists m. split; [lia|]. split; [exact H2|].
    apply C45_key_equal_iff. apply C45_key_equal_iff in H3, SC. congruence.
  - exists j. split; [lia|]. split; [|apply C45_key_equal_iff; reflexivity]. split; [exact Hj|]. split; [exact Fj|]. intros k Hk Fk SC. exact (HN k Hk (conj Fk SC)).
Qed.
(** Without a geometry triple (too few fields, another type, no resolution, different resolutions,
    a resolution that is not positive and finite, or fields that are not adjacent), and for a cloud
    without a point, nothing happens. *)
Theorem C44_no_triple c : Forall (fun f => 0 <= f_off f < 4294967296 - 8) (r_fields c) ->
  (forall o r, ~ triple c o r) \/ zlen (r_data c) < r_step c \/ r_step c = 0 -> applyVizLossyPreprocessing c = Ok c.
Proof.
  unfold applyVizLossyPreprocessing, viz_rewrite. intros HO H. destruct (r_fields c) as [|f0 [|f1 [|f2 rest]]] eqn:HF; try reflexivity. destruct (r_step c =? 0) eqn:HS; [reflexivity|].
  destruct (f_res f0) as [r0|] eqn:R0; [|reflexivity]. destruct (f_res f1) as [r1|] eqn:R1; [|reflexivity]. destruct (f_res f2) as [r2|] eqn:R2; [|reflexivity].
  match goal with |- context [if ?g then _ else _] => destruct g eqn:G; [|reflexivity] end.
  match goal with |- context [if ?g then _ else _] => destruct g eqn:P; [|reflexivity] end.
  rewrite !andb_true_iff in G. destruct G as ((((((T0 & T1) & T2) & E1) & E2) & O1) & O2).
  assert (EQ : forall r, f32_eq r0 r = true -> r = r0).
  { intros r E. unfold f32_eq in E. rewrite !andb_true_iff, orb_true_iff, andb_true_iff in E. destruct E as [_ [E|[E _]]]; [lia|]. unfold f32_is0 in E. lia. }
  apply EQ in E1, E2. subst r1 r2. pose proof (Forall_inv HO) as H0. cbn beta in H0. unfold u32 in O1, O2. rewrite Z.mod_small in O1, O2 by lia. apply Z.eqb_eq in O1, O2.
  destruct f0 as [m0 o0 t0 s0], f1 as [m1 o1 t1 s1], f2 as [m2 o2 t2 s2]. cbn [f_type f_res f_off] in *. subst.
  destruct t0; try discriminate T0. destruct t1; try discriminate T1. destruct t2; try discriminate T2.
  destruct H as [H|[H|H]]; [exfalso; apply (H o0 r0); exists m0, m1, m2, rest; split; [exact HF|lia]| |lia].
  replace (length (r_data c) / Z.to_nat (r_step c))%nat with O; [reflexivity|]. symmetry. apply Nat.div_small. unfold zlen in H. lia.
Qed.
(** *** Limits *)
Definition viz_fields (o : Z) : list field := [mkField [120] o FLOAT32 (Some 981668463); mkField [121] (o + 4) FLOAT32 (Some 981668463); mkField [122] (o + 8) FLOAT32 (Some 981668463)].
Definition viz_cloud (o : Z) (data : list Z) : ros_cloud := mkRos (mkCdr LITTLE PLAIN_CDR DDS_CDR) 0 0 [] 1 2 (viz_fields o) 12 24 data 1.
(** Two points 2097.152 m apart (resolution 1 mm), or one at 1e30 and one at the origin, count as
    one voxel: the second is dropped. *)
Theorem C44_far_points_refuted : exists data1 data2 c1 c2,
  data1 = le_bytes 4 0 ++ le_bytes 4 0 ++ le_bytes 4 0 ++ le_bytes 4 1157829231 (* 2097.152 *) ++ le_bytes 4 0 ++ le_bytes 4 0 /\
  data2 = le_bytes 4 0 ++ le_bytes 4 0 ++ le_bytes 4 0 ++ le_bytes 4 1900671690 (* 1e30 *) ++ le_bytes 4 0 ++ le_bytes 4 0 /\
  applyVizLossyPreprocessing (viz_cloud 0 data1) = Ok c1 /\ r_width c1 = 1 /\ applyVizLossyPreprocessing (viz_cloud 0 data2) = Ok c2 /\ r_width c2 = 1.
Proof. do 4 eexists. split; [reflexivity|]. split; [reflexivity|]. split; [vm_compute; reflexivity|]. split; [reflexivity|]. split; [vm_compute; reflexivity|]. reflexivity. Qed.
(** The offsets are not checked against the point step: a field offset beyond the point reads
    outside the message. *)
Theorem C44_field_offset_refuted : exists c, triple c 13 981668463 /\ zlen (r_data c) = 2 * r_step c /\ applyVizLossyPreprocessing c = UB.
Proof. exists (viz_cloud 13 (repeat 0 24)). split; [exists [120], [121], [122], []; split; [reflexivity|lia]|]. split; [reflexivity|]. vm_compute. reflexivity. Qed.
Example C44_case : let c := mkRos (mkCdr LITTLE PLAIN_CDR DDS_CDR) 0 0 [] 1 5 (viz_fields 0 ++ [mkField [116] 12 FLOAT64 None]) 20 100
    (concat (map (fun v => le_bytes 4 v ++ le_bytes 4 0 ++ le_bytes 4 1065353216 ++ le_bytes 8 7) [1065353216; 2143289344; 1065353217; 0; 0])) 1 in
  triple c 0 981668463 /\ exists c', applyVizLossyPreprocessing c = Ok c' /\ r_width c' = 2 /\ zlen (r_data c') = 40 /\ map f_res (r_fields c') = [Some 981668463; Some 981668463; Some 981668463; Some 897988541].
Proof. cbv zeta. split; [exists [120], [121], [122], [mkField [116] 12 FLOAT64 None]; split; [reflexivity|lia]|]. eexists. split; [vm_compute; reflexivity|]. repeat split. Qed.

(** y has another resolution: nothing is dropped, although the second point repeats the first. *)
Example C44_no_triple_case : let fs := [mkField [120] 0 FLOAT32 (Some 981668463); mkField [121] 4 FLOAT32 (Some 1008981770); mkField [122] 8 FLOAT32 (Some 981668463)] in
  let c := mkRos (mkCdr LITTLE PLAIN_CDR DDS_CDR) 0 0 [] 1 2 fs 12 24 (repeat 0 24) 1 in
  Forall (fun f => 0 <= f_off f < 4294967296 - 8) (r_fields c) /\ (forall o r, ~ triple c o r).
Proof. cbv zeta. split; [repeat constructor; cbn; lia|]. intros o r (n0 & n1 & n2 & rest & E & _). cbn [r_fields] in E. inversion E. congruence. Qed.

Print Assumptions C44_viz_subset.
Print Assumptions C44_kept_iff_first_of_voxel.
Print Assumptions C44_every_voxel_kept.
Print Assumptions C44_no_triple.
Print Assumptions C44_far_points_refuted.
Print Assumptions C44_field_offset_refuted.
Print Assumptions C45_key_equal_iff.
Print Assumptions C45_key_injective.
Print Assumptions C45_out_of_range_refuted.
Print Assumptions C46_profile_semantics.
Print Assumptions C46_positions_kept.
Print Assumptions C46_integer_resolution_refuted.
