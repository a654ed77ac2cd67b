(** C59, C60: what decoding does to the output buffer, for any data it accepts. *)
From Verif Require Import Base BaseFacts Types Floats Fields Codec V5 Api Spec LibSpec RoundTrip PropsHostile ConfineFacts SyncFacts.

(** *** Specification vocabulary *)
(** Byte [x] of the output buffer belongs to one of the first [n] points: it lies in a
    field of the layout that has a place there (is not skipped). *)
Definition in_field (i : info) (n : Z) (x : nat) : Prop :=
  exists j f, 0 <= j < n /\ In f (i_fields i) /\ stored f = true /\
    j * i_step i + f_off f <= Z.of_nat x < j * i_step i + f_off f + Z.of_nat (SizeOf (f_type f)).
(** The number of points a layout declares (a 64-bit product). *)
Definition declared (i : info) : Z := u64 (i_width i * i_height i).
(** With the version-5 codec integer columns cannot be skipped (C35_skip_v5_refuted). *)
Definition skips_supported (i : info) : Prop :=
  UsesV5Codec i = true -> forall f, In f (i_fields i) -> wide_int f -> stored f = true.

Lemma adaptive_wide f : isV5AdaptiveIntType (f_type f) = true -> wide_int f.
Proof. unfold wide_int. destruct (f_type f); intros H; try discriminate H; auto 10. Qed.
Lemma skips_adaptive i : skips_supported i -> adaptive_stored i.
Proof. intros H HU. apply Forall_forall. intros f Hf Ht. apply H; auto. now apply adaptive_wide. Qed.
Lemma places_field i n x : pts_places (i_step i) (PL i) 0 n (Z.of_nat x) <-> in_field i n x.
Proof.
  unfold pts_places, in_field, at_places, PL, field_places. split.
  - intros (j & Hj & o & s & Hin & Hk & Hx). apply in_map_iff in Hin. destruct Hin as (f & E & Hf). exists j, f.
    assert (o = f_off f /\ s = SizeOf (f_type f)) as [-> ->] by (split; congruence). split; [lia|]. split; [exact Hf|]. split; [unfold stored; lia|exact Hx].
  - intros (j & f & Hj & Hf & Hs & Hx). exists j. split; [lia|]. exists (f_off f), (SizeOf (f_type f)). split; [apply in_map_iff; exists f; auto|]. split; [unfold stored in Hs; lia|exact Hx].
Qed.

(** * C59 *)
(** Whatever the data (produced by this encoder, by another one, or forged), when decode
    returns normally it has changed no byte of the output buffer other than those of the
    stored fields of the declared points. *)
Theorem C59_decode_writes_only_fields : forall ops L ppc i data buf mem buf' mem',
  (0 < ppc)%nat -> 0 < i_step i -> 3 <= i_version i -> skips_supported i -> zlen mem < 4611686018427387904 ->
  decode ops L ppc i data buf mem = Ok (buf', mem') ->
  length mem' = length mem /\
  (forall x, (x < length mem)%nat -> ~ in_field i (declared i) x -> nth_error mem' x = nth_error mem x).
Proof.
  intros ops L ppc i data buf mem buf' mem' Hp Hs Hv HA Hm H. apply decode_conf in H; auto; [|now apply skips_adaptive]. destruct H as [H1 H2]. split; [exact H1|].
  intros x Hx Hn. apply H2; [exact Hx|]. intros HP. apply Hn. now apply places_field.
Qed.
(** In particular, when the stored fields lie inside the point, nothing past the declared
    points changes: a decoder may be pointed into a larger buffer. *)
Theorem C59_nothing_past_the_points : forall ops L ppc i data buf mem buf' mem',
  (0 < ppc)%nat -> 0 < i_step i -> 3 <= i_version i -> skips_supported i -> zlen mem < 4611686018427387904 ->
  (forall f, In f (i_fields i) -> stored f = true -> 0 <= f_off f /\ f_off f + Z.of_nat (SizeOf (f_type f)) <= i_step i) ->
  decode ops L ppc i data buf mem = Ok (buf', mem') ->
  skipn (Z.to_nat (declared i * i_step i)) mem' = skipn (Z.to_nat (declared i * i_step i)) mem.
Proof.
  intros ops L ppc i data buf mem buf' mem' Hp Hs Hv HA Hm HF H. destruct (C59_decode_writes_only_fields _ _ _ _ _ _ _ _ _ Hp Hs Hv HA Hm H) as [H1 H2].
  assert (HD : 0 <= declared i) by (unfold declared, u64; lia).
  assert (EX : forall (k : nat), nth_error (skipn (Z.to_nat (declared i * i_step i)) mem') k = nth_error (skipn (Z.to_nat (declared i * i_step i)) mem) k).
  { intros k. rewrite !nth_error_skipn_add. destruct (le_lt_dec (length mem) (Z.to_nat (declared i * i_step i) + k)) as [Hge|Hlt].
    - rewrite !(proj2 (nth_error_None _ _)); [reflexivity|lia|lia].
    - apply H2; [exact Hlt|]. intros (j & f & Hj & Hf & Hst & Hx). specialize (HF _ Hf Hst). nia. }
  remember (skipn (Z.to_nat (declared i * i_step i)) mem') as a eqn:Ea. remember (skipn (Z.to_nat (declared i * i_step i)) mem) as b eqn:Eb. clear - EX.
  revert b EX. induction a as [|x a IH]; intros [|y b] EX; [reflexivity|specialize (EX O); discriminate|specialize (EX O); discriminate|].
  f_equal; [specialize (EX O); cbn in EX; congruence|]. apply IH. intros k. exact (EX (S k)).
Qed.
(** Every declared point is decoded, and has its place in the output buffer: a buffer too
    small for the declared points is never accepted. *)
Theorem C59_room_for_every_point : forall ops L ppc i data buf mem buf' mem',
  (0 < ppc)%nat -> 0 < i_step i -> 3 <= i_version i -> skips_supported i -> zlen mem < 4611686018427387904 ->
  decode ops L ppc i data buf mem = Ok (buf', mem') -> declared i * i_step i <= zlen mem.
Proof. intros ops L ppc i data buf mem buf' mem' Hp Hs Hv HA Hm H. unfold declared. eapply decode_room; [exact Hs|now apply skips_adaptive|exact Hp|exact Hm|exact Hv|exact H]. Qed.
(** Data of versions 1 and 2 has no point count in its framing: the points decoded are as
    many as the data holds, but only their fields are written. *)
Theorem C59_old_versions : forall ops L ppc i data buf mem buf' mem',
  i_version i < 3 -> decode ops L ppc i data buf mem = Ok (buf', mem') ->
  length mem' = length mem /\
  (forall x, (x < length mem)%nat -> (forall n, ~ in_field i n x) -> nth_error mem' x = nth_error mem x).
Proof.
  intros ops L ppc i data buf mem buf' mem' Hv H. apply decode_conf_old in H; auto. destruct H as [H1 H2]. split; [exact H1|].
  intros x Hx Hn. apply H2; [exact Hx|]. intros (j & Hj & HP). apply (Hn (j + 1)). apply places_field. exists j. split; [lia|exact HP].
Qed.
Print Assumptions C59_decode_writes_only_fields.
Print Assumptions C59_nothing_past_the_points.
Print Assumptions C59_room_for_every_point.
Print Assumptions C59_old_versions.

(** * C60 *)
(** Whatever the data, the outcome and the bytes of every stored field of every declared
    point are a function of the data: what the output buffer held before does not matter. *)
Theorem C60_fields_from_data_only : forall ops L ppc i data buf mem1 mem2 buf' mem1',
  (0 < ppc)%nat -> 3 <= i_version i -> length mem2 = length mem1 ->
  decode ops L ppc i data buf mem1 = Ok (buf', mem1') ->
  exists mem2', decode ops L ppc i data buf mem2 = Ok (buf', mem2') /\ length mem2' = length mem1' /\
    (forall x, (x < length mem1')%nat -> in_field i (declared i) x -> nth_error mem1' x = nth_error mem2' x).
Proof.
  intros ops L ppc i data buf mem1 mem2 buf' mem1' Hp Hv HL H. destruct (decode_sync _ _ _ _ _ _ _ mem2 _ _ Hp Hv HL H) as (m2 & E & H1 & H2). exists m2. split; [exact E|].
  split; [exact H1|]. intros x Hx HF. apply H2; [exact Hx|]. now apply places_field.
Qed.
(** Decoding the same data again over its own result changes nothing. *)
Theorem C60_idempotent : forall ops L ppc i data buf mem buf' mem',
  (0 < ppc)%nat -> 0 < i_step i -> 3 <= i_version i -> skips_supported i -> zlen mem < 4611686018427387904 ->
  decode ops L ppc i data buf mem = Ok (buf', mem') ->
  decode ops L ppc i data buf mem' = Ok (buf', mem').
Proof.
  intros ops L ppc i data buf mem buf' mem' Hp Hs Hv HA Hm H. pose proof (C59_decode_writes_only_fields _ _ _ _ _ _ _ _ _ Hp Hs Hv HA Hm H) as [H1 H2].
  destruct (C60_fields_from_data_only _ _ _ _ _ _ _ mem' _ _ Hp Hv H1 H) as (m2 & E & H3 & H4). rewrite E. do 2 f_equal.
  assert (Hm' : zlen mem' < 4611686018427387904) by (unfold zlen in *; lia).
  pose proof (C59_decode_writes_only_fields _ _ _ _ _ _ _ _ _ Hp Hs Hv HA Hm' E) as [H5 H6].
  assert (EX : forall k, nth_error m2 k = nth_error mem' k).
  { intros k. destruct (le_lt_dec (length mem') k) as [Hge|Hlt].
    - rewrite !(proj2 (nth_error_None _ _)); [reflexivity|lia|lia].
    - assert (HDec : in_field i (declared i) k \/ ~ in_field i (declared i) k).
      { assert (Hin : forall j, 0 <= j -> (Exists (fun f => stored f = true /\ j * i_step i + f_off f <= Z.of_nat k < j * i_step i + f_off f + Z.of_nat (SizeOf (f_type f))) (i_fields i)) \/ ~ (Exists (fun f => stored f = true /\ j * i_step i + f_off f <= Z.of_nat k < j * i_step i + f_off f + Z.of_nat (SizeOf (f_type f))) (i_fields i))).
        { intros j Hj. generalize (i_fields i). intros fs. induction fs as [|f fs [IH|IH]]; [right; intros HE; inversion HE|left; now right|].
          destruct (stored f) eqn:Es; [|right; intros HE; inversion HE as [? ? [HX _]|? ? HX]; subst; [congruence|now apply IH]].
          destruct (Z_le_gt_dec (j * i_step i + f_off f) (Z.of_nat k)); [|right; intros HE; inversion HE as [? ? [_ HX]|? ? HX]; subst; [lia|now apply IH]].
          destruct (Z_lt_le_dec (Z.of_nat k) (j * i_step i + f_off f + Z.of_nat (SizeOf (f_type f)))); [left; left; auto|right; intros HE; inversion HE as [? ? [_ HX]|? ? HX]; subst; [lia|now apply IH]]. }
        assert (Hup : forall n : nat, (exists j, 0 <= j < Z.of_nat n /\ Exists (fun f => stored f = true /\ j * i_step i + f_off f <= Z.of_nat k < j * i_step i + f_off f + Z.of_nat (SizeOf (f_type f))) (i_fields i)) \/ ~ (exists j, 0 <= j < Z.of_nat n /\ Exists (fun f => stored f = true /\ j * i_step i + f_off f <= Z.of_nat k < j * i_step i + f_off f + Z.of_nat (SizeOf (f_type f))) (i_fields i))).
        { induction n as [|n [IH|IH]].
          - right. intros (j & Hj & _). lia.
          - left. destruct IH as (j & Hj & HX). exists j. split; [lia|exact HX].
          - destruct (Hin (Z.of_nat n) ltac:(lia)) as [HX|HX]; [left; exists (Z.of_nat n); split; [lia|exact HX]|]. right. intros (j & Hj & HY). destruct (Z.eq_dec j (Z.of_nat n)) as [->|]; [now apply HX|]. apply IH. exists j. split; [lia|exact HY]. }
        assert (HD : 0 <= declared i) by (unfold declared, u64; lia).
        destruct (Hup (Z.to_nat (declared i))) as [(j & Hj & HX)|HX].
        - left. apply Exists_exists in HX. destruct HX as (f & Hf & Hs1 & Hx). exists j, f. split; [lia|auto].
        - right. intros (j & f & Hj & Hf & Hs1 & Hx). apply HX. exists j. split; [lia|]. apply Exists_exists. exists f. auto. }
      destruct HDec as [HI|HI]; [symmetry; apply H4; [lia|exact HI]|apply H6; auto]. }
  clear - EX. revert mem' EX. induction m2 as [|x a IH]; intros [|y b] EX; [reflexivity|specialize (EX O); discriminate|specialize (EX O); discriminate|].
  f_equal; [specialize (EX O); cbn in EX; congruence|]. apply IH. intros k. exact (EX (S k)).
Qed.
Print Assumptions C60_fields_from_data_only.
Print Assumptions C60_idempotent.

(** A version-5 layout with padding and data no encoder of this library writes (runs of
    one point in a run-length section), decoded into two different larger buffers. *)
Definition forged_layout : info := lay [fld 0 UINT8 None; fld 2 UINT16 None] 5 ENC_LOSSY 5 2.
Definition forged : list Z := [13;0;0;0; 7;8; 2; 2;0;0;0; 5;1;1; 5;1;1].
Example C59_case :
  0 < i_step forged_layout /\ skips_supported forged_layout /\ UsesV5Codec forged_layout = true /\ declared forged_layout = 2 /\
  decode sse_ops store_libs 4 forged_layout forged [] (repeat 255 12) = Ok ([], [7;255;5;1;255; 8;255;5;1;255; 255;255]) /\
  decode sse_ops store_libs 4 forged_layout forged [] (repeat 0 12) = Ok ([], [7;0;5;1;0; 8;0;5;1;0; 0;0]) /\
  in_field forged_layout 2 7 /\ ~ in_field forged_layout 2 4.
Proof.
  split; [reflexivity|]. split. { intros _ f Hf _. cbn in Hf. destruct Hf as [<-|[<-|[]]]; reflexivity. }
  split; [reflexivity|]. split; [reflexivity|]. split; [vm_compute; reflexivity|]. split; [vm_compute; reflexivity|]. split.
  - exists 1, (fld 2 UINT16 None). cbn. split; [lia|]. split; [now right; left|]. split; [reflexivity|lia].
  - intros (j & f & Hj & Hf & _ & Hx). cbn in Hf. destruct Hf as [<-|[<-|[]]]; cbn in Hx; lia.
Qed.
