(** C95: a cloud that goes through several encodings, one after the other. *)
From Coq Require Import ZArith Reals Psatz List Bool.
From Verif Require Import Base BaseFacts Types Floats Fields Codec V5 Api Spec LibSpec ErrorSpec FloatReal LocalFacts CodeFacts ApiFacts CloudApi Cases PropsCloud PropsError PropsBuilds FloatAgain PropsRecode RoundTrip PropsCompare.
Open Scope Z_scope.

(** One generation: the cloud [c] of [n] points is encoded with the settings [i] (by any encoder object
    with these settings, on any build) and the stream decoded (on any build), giving [c']. *)
Inductive generation (ppc n : nat) (i : info) (c c' : list Z) : Prop :=
| generation_intro (o1 o2 : float_ops) (L : libs) (probe : nat) (hdr0 : list Z) (e : encoder) (hdr body buf mem x : list Z) :
    build o1 -> build o2 -> libs_ok L -> bytes hdr0 ->
    encode_side ppc i c -> decode_side i i -> deltas_ok o1 i ppc c ->
    encoder_of o1 L ppc probe i (Ok hdr0) e -> produces o1 L ppc probe e c hdr body -> zlen body < 1431260227 ->
    zlen c = Z.of_nat n * i_step i -> declares i n -> zlen mem = Z.of_nat n * i_step i ->
    decode o2 L ppc i body buf mem = Ok (x, c') -> generation ppc n i c c'.
(** Any number of generations, each with its own settings. *)
Inductive generations (ppc n : nat) : list info -> list Z -> list Z -> Prop :=
| no_generation c : generations ppc n [] c c
| one_more i is c c1 c' : generation ppc n i c c1 -> generations ppc n is c1 c' -> generations ppc n (i :: is) c c'.

(** In the layout [i] the field number [a] has the type [t] and stands at byte [off] of points of [step] bytes. *)
Definition field_at (a : nat) (t : ftype) (off step : Z) (i : info) : Prop :=
  i_step i = step /\ exists f, nth_error (i_fields i) a = Some f /\ f_type f = t /\ f_off f = off /\ stored f = true.
(** The resolution at which the settings [i] quantise the field number [a], a floating-point field; None: not quantised. *)
Definition resolution_of (a : nat) (i : info) : option Z :=
  match i_enc i, nth_error (i_fields i) a with ENC_LOSSY, Some f => f_res f | _, _ => None end.
(** The sum of these resolutions, and the sum of the error bounds for samples of size [A]. *)
Fixpoint all_steps (a : nat) (is : list info) : R :=
  match is with [] => 0 | i :: t => (match resolution_of a i with Some rb => float_of rb | None => 0 end + all_steps a t)%R end.
Fixpoint drift (bound : R -> R -> R) (a : nat) (A : R) (is : list info) : R :=
  match is with [] => 0 | i :: t => (match resolution_of a i with Some rb => bound (float_of rb) A | None => 0 end + drift bound a A t)%R end.
(** Every resolution in use is usable and not too fine for samples of size [A]. *)
Definition in_reach (reach : Z) (a : nat) (A : R) (is : list info) : Prop :=
  forall i rb, In i is -> resolution_of a i = Some rb -> finite32 rb /\ usable (float_of rb) /\ (A <= powerRZ 2 reach * float_of rb)%R.

(** ** One generation *)
Lemma generation_kept ppc n i c c' a j f : generation ppc n i c c' -> (j < n)%nat -> nth_error (i_fields i) a = Some f -> stored f = true ->
  i_enc i <> ENC_LOSSY \/ f_res f = None \/ (f_type f <> FLOAT32 /\ f_type f <> FLOAT64) ->
  sub (Z.of_nat j * i_step i + f_off f) (SizeOf (f_type f)) c' = sub (Z.of_nat j * i_step i + f_off f) (SizeOf (f_type f)) c.
Proof.
  intros G Hj Hf HSt HX. destruct G as [o1 o2 L probe hdr0 e hdr body buf mem x B1 B2 HLi Hh ES HDS D H1 P Z1 L1 Hdec Hm K].
  rewrite (build_decode o2 o1) in K by assumption.
  destruct (C17_never_wrong o1 L ppc probe i i hdr0 e c hdr body n buf mem HLi Hh ES HDS D H1 P Z1 L1 Hdec ltac:(lia)) as [(y1 & w1 & Y1 & R1)|Y1]; [|congruence].
  assert (w1 = c') by congruence. subst w1. destruct R1 as (_ & R1 & _).
  assert (Hk : exists k, In (f, k) (combine (i_fields i) (kinds i)) /\ k = KId).
  { assert (HKl : length (kinds i) = length (i_fields i)) by apply BuildFacts.kinds_length.
    destruct (nth_error (kinds i) a) as [k|] eqn:Ek.
    2:{ apply nth_error_None in Ek. assert (nth_error (i_fields i) a <> None) by congruence. apply nth_error_Some in H. lia. }
    assert (Hin : In (f, k) (combine (i_fields i) (kinds i))).
    { clear - Hf Ek. revert a Hf Ek. generalize (kinds i). induction (i_fields i) as [|g l IH]; intros ks a Hf Ek; destruct a, ks; cbn in *; try discriminate; [left; congruence|right; eapply IH; eauto]. }
    exists k. split; [exact Hin|]. destruct (i_enc i) eqn:EE.
    1,3,4: unfold kinds in Hin; rewrite EE, BuildFacts.combine_map in Hin; apply in_map_iff in Hin; destruct Hin as (y & Ey & _); congruence.
    destruct (kind_cases i f k EE Hin) as [[HT ->] | ->].
    - destruct HX as [HX|[HX|[HX _]]]; [congruence| |congruence]. unfold vector_kind. rewrite HX. reflexivity.
    - unfold lossy_kind. destruct HX as [HX|[HX|[HX1 HX2]]]; [congruence| |].
      + destruct (f_type f); try reflexivity; rewrite HX; reflexivity.
      + destruct (f_type f); try reflexivity; congruence. }
  destruct Hk as (k & Hin & ->). pose proof (R1 j f f KId Hj (diag _ _ _ _ Hin) HSt) as E1. cbn [recon] in E1. unfold fbytes in E1. exact E1.
Qed.
Lemma generation_error ppc n i c c' a j f rb : generation ppc n i c c' -> (j < n)%nat -> nth_error (i_fields i) a = Some f -> stored f = true ->
  i_enc i = ENC_LOSSY -> f_res f = Some rb -> finite32 rb -> usable (float_of rb) ->
  let r := float_of rb in
  (f_type f = FLOAT32 ->
     let xb := le_val (sub (Z.of_nat j * i_step i + f_off f) 4 c) in let yb := le_val (sub (Z.of_nat j * i_step i + f_off f) 4 c') in
     finite32 xb -> (Rabs (float_of xb) <= powerRZ 2 30 * r)%R -> finite32 yb /\ (Rabs (float_of yb - float_of xb) <= bound32 r (float_of xb))%R) /\
  (f_type f = FLOAT64 ->
     let xb := le_val (sub (Z.of_nat j * i_step i + f_off f) 8 c) in let yb := le_val (sub (Z.of_nat j * i_step i + f_off f) 8 c') in
     finite64 xb -> (Rabs (double_of xb) <= powerRZ 2 62 * r)%R -> finite64 yb /\ (Rabs (double_of yb - double_of xb) <= bound64 r (double_of xb))%R).
Proof.
  intros G Hj Hf HSt HE Hr F U r. destruct G as [o1 o2 L probe hdr0 e hdr body buf mem x B1 B2 HLi Hh ES HDS D H1 P Z1 L1 Hdec Hm K].
  rewrite (build_decode o2 o1) in K by assumption.
  exact (C09_cloud o1 L ppc probe i i hdr0 e c hdr body n buf mem x c' B1 HLi Hh ES HDS D H1 P Z1 L1 Hdec ltac:(lia) HE K a j f f rb Hj Hf Hf HSt Hr F U).
Qed.

(** ** Fields no generation quantises
    They keep their bytes, however many generations there are. *)
Theorem C95_exact : forall ppc n is c c' a t off step j,
  generations ppc n is c c' -> Forall (field_at a t off step) is -> (j < n)%nat ->
  (t <> FLOAT32 /\ t <> FLOAT64) \/ Forall (fun i => resolution_of a i = None) is ->
  sub (Z.of_nat j * step + off) (SizeOf t) c' = sub (Z.of_nat j * step + off) (SizeOf t) c.
Proof.
  intros ppc n is c c' a t off step j G. induction G as [c|i is c c1 c' G1 _ IH]; intros HF Hj HX; [reflexivity|].
  apply Forall_cons_iff in HF. destruct HF as [(Es & f & Ef & Et & Eo & HSt) HF]. rewrite IH; [|exact HF|exact Hj|].
  2:{ destruct HX as [HX|HX]; [left; exact HX|right]. now apply Forall_cons_iff in HX. }
  subst t off step. apply (generation_kept ppc n i c c1 a j f G1 Hj Ef HSt).
  destruct HX as [HX|HX]; [right; right; exact HX|]. apply Forall_inv in HX. unfold resolution_of in HX. rewrite Ef in HX. destruct (i_enc i); [left; discriminate|right; left; exact HX|left; discriminate|left; discriminate].
Qed.
Print Assumptions C95_exact.

(** ** NaN
    A NaN stays a NaN, whatever the settings of the generations. *)
Definition not_a_number (t : ftype) (b : Z) : bool := match t with FLOAT32 => isnan32 b | FLOAT64 => isnan64 b | _ => false end.
Lemma generation_nan ppc n i c c' a j f : generation ppc n i c c' -> (j < n)%nat -> nth_error (i_fields i) a = Some f -> stored f = true ->
  let at_j (c : list Z) := le_val (sub (Z.of_nat j * i_step i + f_off f) (SizeOf (f_type f)) c) in
  not_a_number (f_type f) (at_j c) = true -> not_a_number (f_type f) (at_j c') = true.
Proof.
  intros G Hj Hf HSt at_j HN. destruct G as [o1 o2 L probe hdr0 e hdr body buf mem x B1 B2 HLi Hh ES HDS D H1 P Z1 L1 Hdec Hm K].
  rewrite (build_decode o2 o1) in K by assumption.
  destruct (C17_never_wrong o1 L ppc probe i i hdr0 e c hdr body n buf mem HLi Hh ES HDS D H1 P Z1 L1 Hdec ltac:(lia)) as [(y1 & w1 & Y1 & R1)|Y1]; [|congruence].
  assert (w1 = c') by congruence. subst w1. destruct R1 as (_ & R1 & _).
  assert (HKl : length (kinds i) = length (i_fields i)) by apply BuildFacts.kinds_length.
  destruct (nth_error (kinds i) a) as [k|] eqn:Ek.
  2:{ apply nth_error_None in Ek. assert (HSome : nth_error (i_fields i) a <> None) by congruence. apply nth_error_Some in HSome. lia. }
  assert (Hin : In (f, k) (combine (i_fields i) (kinds i))).
  { clear - Hf Ek. revert a Hf Ek. generalize (kinds i). induction (i_fields i) as [|g l IH]; intros ks a Hf Ek; destruct a, ks; cbn in *; try discriminate; [left; congruence|right; eapply IH; eauto]. }
  pose proof (R1 j f f k Hj (diag _ _ _ _ Hin) HSt) as E1. unfold fbytes in E1. unfold at_j in *. rewrite E1. clear E1 R1 K P D.
  assert (HC : k = KId \/ (f_type f = FLOAT32 /\ exists r, k = KN r) \/ k = lossy_kind f).
  { destruct (i_enc i) eqn:EE.
    1,3,4: unfold kinds in Hin; rewrite EE, BuildFacts.combine_map in Hin; apply in_map_iff in Hin; destruct Hin as (y & Ey & _); left; congruence.
    destruct (kind_cases i f k EE Hin) as [[HT ->] | ->]; [|right; right; reflexivity].
    unfold vector_kind. destruct (f_res f) as [r|]; [right; left; split; [exact HT|exists r; reflexivity]|left; reflexivity]. }
  destruct HC as [-> | [[HT [r ->]] | ->]]; [exact HN| |].
  - rewrite HT in *. cbn [recon not_a_number SizeOf] in *. rewrite HN. reflexivity.
  - unfold lossy_kind. destruct (f_type f) eqn:HT; cbn [not_a_number SizeOf] in *; try discriminate HN; (destruct (f_res f) as [r|]; [|exact HN]); cbn [recon]; rewrite HN; reflexivity.
Qed.
Theorem C95_nan : forall ppc n is c c' a t off step j, let at_j (c : list Z) := le_val (sub (Z.of_nat j * step + off) (SizeOf t) c) in
  generations ppc n is c c' -> Forall (field_at a t off step) is -> (j < n)%nat ->
  not_a_number t (at_j c) = true -> not_a_number t (at_j c') = true.
Proof.
  intros ppc n is c c' a t off step j at_j G. induction G as [c|i is c c1 c' G1 _ IH]; intros HF Hj HN; [exact HN|].
  apply Forall_cons_iff in HF. destruct HF as [(Es & f & Ef & Et & Eo & HSt) HF]. apply IH; [exact HF|exact Hj|]. clear IH HF. unfold at_j in *. subst t off step.
  apply (generation_nan ppc n i c c1 a j f G1 Hj Ef HSt). exact HN.
Qed.
Print Assumptions C95_nan.

(** ** Quantised fields *)
Open Scope R_scope.
Lemma bound32_mono r x A : Rabs x <= A -> bound32 r x <= bound32 r A.
Proof. intros H. unfold bound32. assert (0 < powerRZ 2 (-24)) by (apply powerRZ_lt; lra). assert (Rabs A = A) as -> by (apply Rabs_pos_eq; pose proof (Rabs_pos x); lra). nra. Qed.
Lemma bound64_mono r x A : Rabs x <= A -> bound64 r x <= bound64 r A.
Proof. intros H. unfold bound64. assert (0 < powerRZ 2 (-53)) by (apply powerRZ_lt; lra). assert (Rabs A = A) as -> by (apply Rabs_pos_eq; pose proof (Rabs_pos x); lra). nra. Qed.
Lemma usable_gt0 r : usable r -> 0 < r.
Proof. intros [H _]. assert (0 < powerRZ 2 (-100)) by (apply powerRZ_lt; lra). lra. Qed.
Lemma steps_nonneg a is : (forall i rb, In i is -> resolution_of a i = Some rb -> finite32 rb /\ usable (float_of rb)) -> 0 <= all_steps a is.
Proof.
  induction is as [|i is IH]; intros H; cbn [all_steps]; [lra|]. assert (0 <= all_steps a is) by (apply IH; intros; eapply H; [right|]; eassumption).
  destruct (resolution_of a i) as [rb|] eqn:E; [|lra]. destruct (H i rb (or_introl eq_refl) E) as [_ U]. apply usable_gt0 in U. lra.
Qed.
Lemma pow_up a b r : (a <= b)%Z -> 0 <= r -> powerRZ 2 a * r <= powerRZ 2 b * r.
Proof. intros H Hr. apply Rmult_le_compat_r; [exact Hr|]. rewrite !pw2. now apply Raux.bpow_le. Qed.
Section Drift.
Variables (t : ftype) (size : nat) (reach far : Z) (finite : Z -> Prop) (val : Z -> R) (bound : R -> R -> R) (a : nat) (off step : Z) (ppc n j : nat).
Hypothesis Hsize : SizeOf t = size.
Hypothesis Hfar : (reach <= far)%Z.
Hypothesis Hj : (j < n)%nat.
Hypothesis Hmono : forall r x A, Rabs x <= A -> bound r x <= bound r A.
Hypothesis Hone : forall r x, 0 < r -> Rabs x <= powerRZ 2 reach * r -> bound r x < r.
Definition at_j (c : list Z) : Z := le_val (sub (Z.of_nat j * step + off) size c).
Hypothesis Herr : forall i c c' f rb, generation ppc n i c c' -> i_step i = step -> nth_error (i_fields i) a = Some f -> stored f = true -> f_type f = t -> f_off f = off ->
  i_enc i = ENC_LOSSY -> f_res f = Some rb -> finite32 rb -> usable (float_of rb) ->
  finite (at_j c) -> Rabs (val (at_j c)) <= powerRZ 2 far * float_of rb -> finite (at_j c') /\ Rabs (val (at_j c') - val (at_j c)) <= bound (float_of rb) (val (at_j c)).
Lemma drift_gen is c c' : generations ppc n is c c' -> Forall (field_at a t off step) is ->
  forall A, in_reach reach a A is -> finite (at_j c) -> Rabs (val (at_j c)) + all_steps a is <= A ->
  finite (at_j c') /\ Rabs (val (at_j c') - val (at_j c)) <= drift bound a A is.
Proof.
  intros G. induction G as [c|i is c c1 c' G1 _ IH]; intros HF A HR Fx HA.
  { split; [exact Fx|]. cbn [drift]. rewrite Rminus_diag_eq by reflexivity. rewrite Rabs_R0. lra. }
  apply Forall_cons_iff in HF. destruct HF as [(Es & f & Ef & Et & Eo & HSt) HF].
  assert (HR' : in_reach reach a A is) by (intros i0 rb0 H0; apply HR; right; exact H0).
  assert (HN : 0 <= all_steps a is) by (apply steps_nonneg; intros i0 rb0 H0 H1; destruct (HR' i0 rb0 H0 H1) as (X1 & X2 & _); auto).
  cbn [drift all_steps] in *. destruct (resolution_of a i) as [rb|] eqn:ER.
  - destruct (HR i rb (or_introl eq_refl) ER) as (F & U & HAr). pose proof (usable_gt0 _ U) as HP. pose proof (Rabs_pos (val (at_j c))) as HAp.
    unfold resolution_of in ER. rewrite Ef in ER. destruct (i_enc i) eqn:EE; try discriminate ER.
    assert (HB : Rabs (val (at_j c)) <= powerRZ 2 reach * float_of rb) by lra.
    destruct (Herr i c c1 f rb G1 Es Ef HSt Et Eo EE ER F U Fx) as [F1 B1]; [pose proof (pow_up reach far (float_of rb) Hfar ltac:(lra)); lra|].
    pose proof (Hone _ _ HP HB) as HB1. pose proof (Hmono (float_of rb) (val (at_j c)) A ltac:(lra)) as HB2.
    assert (H1 : Rabs (val (at_j c1)) <= Rabs (val (at_j c)) + float_of rb).
    { replace (val (at_j c1)) with ((val (at_j c1) - val (at_j c)) + val (at_j c)) by ring. eapply Rle_trans; [apply Rabs_triang|]. lra. }
    destruct (IH HF A HR' F1 ltac:(lra)) as [F2 B2]. split; [exact F2|].
    replace (val (at_j c') - val (at_j c)) with ((val (at_j c') - val (at_j c1)) + (val (at_j c1) - val (at_j c))) by ring. eapply Rle_trans; [apply Rabs_triang|]. lra.
  - assert (E : at_j c1 = at_j c).
    { unfold at_j. f_equal. rewrite <- Hsize, <- Et, <- Es, <- Eo. apply (generation_kept ppc n i c c1 a j f G1 Hj Ef HSt).
      unfold resolution_of in ER. rewrite Ef in ER. destruct (i_enc i); [left; discriminate|right; left; exact ER|left; discriminate|left; discriminate]. }
    destruct (IH HF A HR') as [F2 B2]; [rewrite E; exact Fx|rewrite E; lra|]. split; [exact F2|]. rewrite E in B2. lra.
Qed.
End Drift.
(** The sum of the bounds is less than the sum of the resolutions (or both are zero). *)
Lemma drift_steps bound reach a A : (forall r x, 0 < r -> Rabs x <= powerRZ 2 reach * r -> bound r x < r) -> 0 <= A ->
  forall is, in_reach reach a A is -> drift bound a A is <= all_steps a is /\ (0 < all_steps a is -> drift bound a A is < all_steps a is).
Proof.
  intros H HA. induction is as [|i is IH]; intros HR; cbn [drift all_steps]; [lra|].
  destruct (IH (fun i0 rb0 H0 => HR i0 rb0 (or_intror H0))) as [I1 I2].
  destruct (resolution_of a i) as [rb|] eqn:E; [|split; [lra|intros HH; specialize (I2 ltac:(lra)); lra]].
  destruct (HR i rb (or_introl eq_refl) E) as (_ & U & HB). pose proof (usable_gt0 _ U). pose proof (H (float_of rb) A ltac:(lra) ltac:(rewrite Rabs_pos_eq by exact HA; exact HB)). lra.
Qed.

(** A finite FLOAT32 sample of size at most [A - all_steps] after any generations: it is still finite and the errors
    of the generations add up, to less than the sum of the resolutions. *)
Theorem C95_drift32 : forall ppc n is c c' a off step j A, let at_j (c : list Z) := le_val (sub (Z.of_nat j * step + off) 4 c) in
  generations ppc n is c c' -> Forall (field_at a FLOAT32 off step) is -> (j < n)%nat -> in_reach 20 a A is ->
  finite32 (at_j c) -> Rabs (float_of (at_j c)) + all_steps a is <= A ->
  finite32 (at_j c') /\ Rabs (float_of (at_j c') - float_of (at_j c)) <= drift bound32 a A is /\
  drift bound32 a A is <= all_steps a is /\ (0 < all_steps a is -> Rabs (float_of (at_j c') - float_of (at_j c)) < all_steps a is).
Proof.
  intros ppc n is c c' a off step j A at_j0 G HF Hj HR Fx HA.
  assert (Hone : forall r x, 0 < r -> Rabs x <= powerRZ 2 20 * r -> bound32 r x < r) by (intros r x Hr Hx; now apply C09_one_step).
  destruct (drift_gen FLOAT32 4 20 30 finite32 float_of bound32 a off step ppc n j eq_refl ltac:(lia) Hj bound32_mono Hone) with (is := is) (c := c) (c' := c') (A := A) as [F B]; try assumption.
  - intros i c0 c0' f rb G0 Es Ef HSt Et Eo EE ER F U. unfold at_j. clear - G0 Es Ef HSt Et Eo EE ER F U Hj. subst step off. exact (proj1 (generation_error ppc n i c0 c0' a j f rb G0 Hj Ef HSt EE ER F U) Et).
  - split; [exact F|]. split; [exact B|]. assert (H0 : 0 <= all_steps a is) by (apply steps_nonneg; intros i0 rb0 H0 H1; destruct (HR i0 rb0 H0 H1) as (X1 & X2 & _); auto).
    destruct (drift_steps bound32 20 a A Hone ltac:(pose proof (Rabs_pos (float_of (at_j0 c))); lra) is HR) as [D1 D2]. split; [exact D1|]. intros HH. specialize (D2 HH). unfold at_j in B. fold (at_j0 c') in B. fold (at_j0 c) in B. lra.
Qed.
Theorem C95_drift64 : forall ppc n is c c' a off step j A, let at_j (c : list Z) := le_val (sub (Z.of_nat j * step + off) 8 c) in
  generations ppc n is c c' -> Forall (field_at a FLOAT64 off step) is -> (j < n)%nat -> in_reach 49 a A is ->
  finite64 (at_j c) -> Rabs (double_of (at_j c)) + all_steps a is <= A ->
  finite64 (at_j c') /\ Rabs (double_of (at_j c') - double_of (at_j c)) <= drift bound64 a A is /\
  drift bound64 a A is <= all_steps a is /\ (0 < all_steps a is -> Rabs (double_of (at_j c') - double_of (at_j c)) < all_steps a is).
Proof.
  intros ppc n is c c' a off step j A at_j0 G HF Hj HR Fx HA.
  assert (Hone : forall r x, 0 < r -> Rabs x <= powerRZ 2 49 * r -> bound64 r x < r) by (intros r x Hr Hx; now apply C09_one_step).
  destruct (drift_gen FLOAT64 8 49 62 finite64 double_of bound64 a off step ppc n j eq_refl ltac:(lia) Hj bound64_mono Hone) with (is := is) (c := c) (c' := c') (A := A) as [F B]; try assumption.
  - intros i c0 c0' f rb G0 Es Ef HSt Et Eo EE ER F U. unfold at_j. clear - G0 Es Ef HSt Et Eo EE ER F U Hj. subst step off. exact (proj2 (generation_error ppc n i c0 c0' a j f rb G0 Hj Ef HSt EE ER F U) Et).
  - split; [exact F|]. split; [exact B|]. assert (H0 : 0 <= all_steps a is) by (apply steps_nonneg; intros i0 rb0 H0 H1; destruct (HR i0 rb0 H0 H1) as (X1 & X2 & _); auto).
    destruct (drift_steps bound64 49 a A Hone ltac:(pose proof (Rabs_pos (double_of (at_j0 c))); lra) is HR) as [D1 D2]. split; [exact D1|]. intros HH. specialize (D2 HH). unfold at_j in B. fold (at_j0 c') in B. fold (at_j0 c) in B. lra.
Qed.
Print Assumptions C95_drift32.
Print Assumptions C95_drift64.

(** ** A concrete chain
    One point with x = 1, compressed at resolution 2 and then at resolution 3: it becomes 2, then 3. *)
Lemma f32_val : forall b m e, (b / 2 ^ 31 = 0)%Z -> ((b / 2 ^ 23) mod 2 ^ 8 =? 0)%Z = false -> (2 ^ 23 + b mod 2 ^ 23)%Z = m -> ((b / 2 ^ 23) mod 2 ^ 8 - 150)%Z = (- (Z.pos e))%Z ->
  float_of b = IZR m * / (2 ^ Pos.to_nat e).
Proof.
  intros b m e H1 H2 H3 H4. unfold float_of, value. cbv zeta. change (23 + 8)%Z with 31%Z. rewrite H1, H2, H3.
  replace ((b / 2 ^ 23) mod 2 ^ 8 + 1 - 2 ^ (8 - 1) - 23)%Z with (- Z.pos e)%Z by (rewrite <- H4; change (2 ^ (8 - 1))%Z with 128%Z; ring).
  cbn [Z.odd Z.opp powerRZ]. ring.
Qed.
Lemma val_one : float_of 1065353216 = 1.
Proof. rewrite (f32_val 1065353216 8388608 23) by reflexivity. change (Pos.to_nat 23) with 23%nat. lra. Qed.
Lemma val_two : float_of 1073741824 = 2.
Proof. rewrite (f32_val 1073741824 8388608 22) by reflexivity. change (Pos.to_nat 22) with 22%nat. lra. Qed.
Lemma val_three : float_of 1077936128 = 3.
Proof. rewrite (f32_val 1077936128 12582912 22) by reflexivity. change (Pos.to_nat 22) with 22%nat. lra. Qed.
Lemma small_usable r : 1 <= r <= 4 -> usable r.
Proof.
  intros H. unfold usable. rewrite !pw2. split.
  - apply Rle_trans with (Raux.bpow Zaux.radix2 0); [apply Raux.bpow_le; lia|]. change (Raux.bpow Zaux.radix2 0) with 1. lra.
  - apply Rle_trans with (Raux.bpow Zaux.radix2 2); [change (Raux.bpow Zaux.radix2 2) with 4; lra|]. apply Raux.bpow_le. lia.
Qed.
Close Scope R_scope.
Definition drift_info (r : Z) : info := mkInfo [fld 120 0 FLOAT32 (Some r); fld 105 4 INT32 None] 1 1 8 ENC_LOSSY [] COMP_NONE false 5.
Definition drift_cloud (x : Z) : list Z := le_bytes 4 x ++ [7; 0; 0; 0].
Lemma drift_step r x y : r = 1073741824 \/ r = 1077936128 -> x = 1065353216 \/ x = 1073741824 ->
  match PointcloudEncoder (drift_info r) (Ok []) with
  | Ok e => let run := encode_vec sse_ops store_libs 2 4096 e (drift_cloud x) [] in
            (match fst (fst run) with Ok t => (t =? zlen (snd (fst run))) && list_eqb (firstn (length (e_hdr e)) (snd (fst run))) (e_hdr e) | _ => false end) = true /\
            zlen (snd (fst run)) < 1431260227 /\
            decode sse_ops store_libs 2 (drift_info r) (snd (fst run)) [] (repeat 0 8) = Ok ([], drift_cloud y)
  | _ => False end ->
  generation 2 1 (drift_info r) (drift_cloud x) (drift_cloud y).
Proof.
  intros Hr Hx H. destruct (PointcloudEncoder (drift_info r) (Ok [])) as [e| |] eqn:EE; [|contradiction|contradiction]. cbv zeta in H. destruct H as (H1 & H2 & H3).
  destruct (new_produces sse_ops store_libs 2 4096 (drift_info r) [] e (drift_cloud x) EE H1) as [P1 P2]. cbn [length skipn] in P2.
  assert (Hb : bytes (drift_cloud x)) by (destruct Hx as [-> | ->]; apply bytesb; vm_compute; reflexivity).
  eapply (generation_intro 2 1 _ _ _ sse_ops sse_ops store_libs 4096 [] e); [left; reflexivity|left; reflexivity|exact store_libs_ok|constructor| | | |exact P1|exact P2|exact H2| | | |exact H3].
  - split; [split; [reflexivity|repeat constructor; cbn; lia]|]. split; [exact I|]. split; [|exact Hb]. split; [lia|]. split; [lia|vm_compute; discriminate].
  - split; [split; [repeat constructor|auto]|]. split; [split; [reflexivity|repeat constructor; cbn; lia]|]. split; [left; cbn; repeat constructor; cbn; lia|].
    split; [destruct Hr as [-> | ->]; repeat constructor|]. split; [repeat constructor|split; [reflexivity|cbn; lia]].
  - destruct Hr as [-> | ->], Hx as [-> | ->]; (apply (deltas_okb_ok _ _ _ _ 1); [vm_compute; reflexivity|reflexivity|vm_compute; reflexivity]).
  - destruct Hx as [-> | ->]; reflexivity.
  - reflexivity.
  - reflexivity.
Qed.
Definition drift_chain : list info := [drift_info 1073741824; drift_info 1077936128].
Lemma drift_run : generations 2 1 drift_chain (drift_cloud 1065353216) (drift_cloud 1077936128).
Proof.
  apply one_more with (drift_cloud 1073741824); [apply drift_step; [now left|now left|vm_compute; repeat split; reflexivity]|].
  apply one_more with (drift_cloud 1077936128); [apply drift_step; [now right|now right|vm_compute; repeat split; reflexivity]|]. constructor.
Qed.
Lemma drift_fields : Forall (field_at 0 FLOAT32 0 8) drift_chain /\ Forall (field_at 1 INT32 4 8) drift_chain.
Proof. split; (constructor; [|constructor; [|constructor]]); (split; [reflexivity|]); eexists; (split; [reflexivity|]); repeat split. Qed.
Example C95_case : exists is c c', generations 2 1 is c c' /\ Forall (field_at 0 FLOAT32 0 8) is /\ Forall (field_at 1 INT32 4 8) is /\ in_reach 20 0 6 is /\
  let at_0 (c : list Z) := le_val (sub (Z.of_nat 0 * 8 + 0) 4 c) in
  finite32 (at_0 c) /\ float_of (at_0 c) = 1%R /\ all_steps 0 is = 5%R /\ float_of (at_0 c') = 3%R.
Proof.
  exists drift_chain, (drift_cloud 1065353216), (drift_cloud 1077936128). split; [exact drift_run|]. split; [apply drift_fields|]. split; [apply drift_fields|]. split.
  { intros i rb [<-|[<-|[]]] H; cbn in H; injection H as <-; rewrite ?val_two, ?val_three.
    - split; [split; [split; [discriminate|reflexivity]|discriminate]|]. split; [apply small_usable; lra|]. rewrite pw2. change (Raux.bpow Zaux.radix2 20) with 1048576%R. lra.
    - split; [split; [split; [discriminate|reflexivity]|discriminate]|]. split; [apply small_usable; lra|]. rewrite pw2. change (Raux.bpow Zaux.radix2 20) with 1048576%R. lra. }
  cbv zeta. change (le_val (sub (Z.of_nat 0 * 8 + 0) 4 (drift_cloud 1065353216))) with 1065353216. change (le_val (sub (Z.of_nat 0 * 8 + 0) 4 (drift_cloud 1077936128))) with 1077936128.
  split; [split; [split; [discriminate|reflexivity]|discriminate]|]. split; [exact val_one|]. split; [|exact val_three].
  unfold drift_chain. cbn [all_steps resolution_of drift_info i_enc i_fields nth_error fld f_res]. rewrite val_two, val_three. lra.
Qed.
(** The errors do add up: it is not true that the error stays within the bound of the coarsest resolution used
    (here 1.5 and rounding; the point has moved by 2). *)
Theorem C95_coarsest_refuted : ~ (forall ppc n is c c' a off step j A worst, let at_j (c : list Z) := le_val (sub (Z.of_nat j * step + off) 4 c) in
  generations ppc n is c c' -> Forall (field_at a FLOAT32 off step) is -> (j < n)%nat -> in_reach 20 a A is ->
  finite32 (at_j c) -> (Rabs (float_of (at_j c)) + all_steps a is <= A)%R ->
  (forall i rb, In i is -> resolution_of a i = Some rb -> (float_of rb <= worst)%R) ->
  (Rabs (float_of (at_j c') - float_of (at_j c)) <= bound32 worst (float_of (at_j c)))%R).
Proof.
  intros H. specialize (H 2%nat 1%nat drift_chain (drift_cloud 1065353216) (drift_cloud 1077936128) 0%nat 0 8 0%nat 6%R 3%R). cbv beta zeta in H.
  change (le_val (sub (Z.of_nat 0 * 8 + 0) 4 (drift_cloud 1065353216))) with 1065353216 in H. change (le_val (sub (Z.of_nat 0 * 8 + 0) 4 (drift_cloud 1077936128))) with 1077936128 in H.
  rewrite val_one, val_three in H.
  assert (HB : (Rabs (3 - 1) <= bound32 3 1)%R).
  { apply H; [exact drift_run|apply drift_fields|lia| |split; [split; [discriminate|reflexivity]|discriminate]| |].
    - intros i rb [<-|[<-|[]]] E; cbn in E; injection E as <-; rewrite ?val_two, ?val_three.
      + split; [split; [split; [discriminate|reflexivity]|discriminate]|]. split; [apply small_usable; lra|]. rewrite pw2. change (Raux.bpow Zaux.radix2 20) with 1048576%R. lra.
      + split; [split; [split; [discriminate|reflexivity]|discriminate]|]. split; [apply small_usable; lra|]. rewrite pw2. change (Raux.bpow Zaux.radix2 20) with 1048576%R. lra.
    - unfold drift_chain. cbn [all_steps resolution_of drift_info i_enc i_fields nth_error fld f_res]. rewrite val_two, val_three, Rabs_right; lra.
    - intros i rb [<-|[<-|[]]] E; cbn in E; injection E as <-; rewrite ?val_two, ?val_three; lra. }
  unfold bound32 in HB. rewrite pw2 in HB. change (Raux.bpow Zaux.radix2 (-24)) with (/ 16777216)%R in HB. rewrite !Rabs_right in HB by lra. lra.
Qed.
Print Assumptions C95_coarsest_refuted.
