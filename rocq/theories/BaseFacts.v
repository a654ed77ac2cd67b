(** Facts about Base.v. *)
From Verif Require Export Base.
From Coq Require Export ZifyBool ZifyNat ZifyN.
Ltac Zify.zify_post_hook ::= Z.div_mod_to_equations.

Arguments Z.mul : simpl never.
Arguments Z.add : simpl never.
Arguments Z.sub : simpl never.
Arguments Z.pow : simpl never.
Arguments Z.modulo : simpl never.
Arguments Z.div : simpl never.
Arguments Z.of_nat : simpl never.
Arguments Z.to_nat : simpl never.

(** Inversion of the outcome monad. *)
Lemma bind_ok {A B} (m : res A) (k : A -> res B) b :
  bind m k = Ok b -> exists a, m = Ok a /\ k a = Ok b.
Proof. destruct m; simpl; intros H; try discriminate; eauto. Qed.

Ltac bind_inv H :=
  let a := fresh "a" in let Ha := fresh "Ha" in
  apply bind_ok in H; destruct H as [a [Ha H]].

(** ** Machine integers *)
Lemma u64_id x : 0 <= x < 18446744073709551616 -> u64 x = x.
Proof. unfold u64; intros; lia. Qed.
Lemma s64_id x : -9223372036854775808 <= x < 9223372036854775808 -> s64 x = x.
Proof. unfold s64; intros; lia. Qed.
Lemma u32_id x : 0 <= x < 4294967296 -> u32 x = x.
Proof. unfold u32; intros; lia. Qed.
Lemma s32_id x : -2147483648 <= x < 2147483648 -> s32 x = x.
Proof. unfold s32; intros; lia. Qed.
Lemma u64_range x : 0 <= u64 x < 18446744073709551616.
Proof. unfold u64; lia. Qed.
Lemma s64_range x : -9223372036854775808 <= s64 x < 9223372036854775808.
Proof. unfold s64; lia. Qed.
Lemma s32_range x : -2147483648 <= s32 x < 2147483648.
Proof. unfold s32; lia. Qed.
Lemma s64_u64 x : s64 (u64 x) = s64 x.
Proof. unfold s64, u64; lia. Qed.
Lemma u64_s64 x : u64 (s64 x) = u64 x.
Proof. unfold s64, u64; lia. Qed.

(** ** Bits *)
Definition all_bytes : list Z := map Z.of_nat (seq 0 256).
Lemma all_bytes_in b : 0 <= b < 256 -> In b all_bytes.
Proof.
  intros Hb. unfold all_bytes. apply in_map_iff. exists (Z.to_nat b).
  split; [lia|]. apply in_seq. lia.
Qed.
Lemma byte_sweep (P : Z -> bool) :
  forallb P all_bytes = true -> forall b, 0 <= b < 256 -> P b = true.
Proof. intros H b Hb. rewrite forallb_forall in H. apply H, all_bytes_in, Hb. Qed.

Lemma land127 x : Z.land x 127 = x mod 128.
Proof. change 127 with (Z.ones 7). rewrite Z.land_ones by lia. reflexivity. Qed.
Lemma land255 x : Z.land x 255 = x mod 256.
Proof. change 255 with (Z.ones 8). rewrite Z.land_ones by lia. reflexivity. Qed.
Lemma land1 x : Z.land x 1 = x mod 2.
Proof. change 1 with (Z.ones 1) at 1. rewrite Z.land_ones by lia. reflexivity. Qed.
Lemma land128_byte b : 0 <= b < 256 -> (Z.land b 128 =? 0) = (b <? 128).
Proof.
  intros Hb. apply eqb_prop.
  apply (byte_sweep (fun b => Bool.eqb (Z.land b 128 =? 0) (b <? 128))); [vm_compute; reflexivity|exact Hb].
Qed.
Lemma lor128 x : Z.lor (x mod 128) 128 = x mod 128 + 128.
Proof.
  assert (H : (Z.lor (x mod 128) 128 =? x mod 128 + 128) || (128 <=? x mod 128) = true).
  { apply (byte_sweep (fun b => (Z.lor b 128 =? b + 128) || (128 <=? b)) ltac:(vm_compute; reflexivity)). lia. }
  lia.
Qed.
Lemma shiftr_div x n : 0 <= n -> Z.shiftr x n = x / 2 ^ n.
Proof. apply Z.shiftr_div_pow2. Qed.
Lemma shiftl_mul x n : 0 <= n -> Z.shiftl x n = x * 2 ^ n.
Proof. apply Z.shiftl_mul_pow2. Qed.

Lemma lor_disjoint_add a b n :
  0 <= n -> 0 <= a < 2 ^ n -> Z.lor a (b * 2 ^ n) = a + b * 2 ^ n.
Proof.
  intros Hn Ha. rewrite <- Z.shiftl_mul_pow2 by lia.
  assert (HL : Z.land a (Z.shiftl b n) = 0).
  { apply Z.bits_inj'. intros i Hi. rewrite Z.land_spec, Z.bits_0.
    destruct (Z.ltb_spec i n).
    - rewrite Z.shiftl_spec_low by lia. apply andb_false_r.
    - rewrite <- (Z.mod_small a (2 ^ n)) by lia.
      rewrite Z.mod_pow2_bits_high by lia. reflexivity. }
  rewrite Z.add_nocarry_lxor by exact HL. symmetry. apply Z.lxor_lor. exact HL.
Qed.

Lemma lxor_ones a n : 0 <= n -> 0 <= a < 2 ^ n -> Z.lxor a (Z.ones n) = 2 ^ n - 1 - a.
Proof.
  intros Hn Ha.
  assert (HL : Z.land a (Z.lxor a (Z.ones n)) = 0).
  { apply Z.bits_inj'. intros i Hi. rewrite Z.land_spec, Z.lxor_spec, Z.bits_0.
    destruct (Z.ltb_spec i n).
    - rewrite Z.ones_spec_low by lia. destruct (Z.testbit a i); reflexivity.
    - rewrite <- (Z.mod_small a (2 ^ n)) by lia.
      rewrite Z.mod_pow2_bits_high by lia. reflexivity. }
  apply Z.add_nocarry_lxor in HL.
  rewrite <- Z.lxor_assoc, Z.lxor_nilpotent, Z.lxor_0_l in HL.
  pose proof (Z.ones_equiv n) as EO. lia.
Qed.

Lemma lxor_bound a b n : 0 <= n -> 0 <= a < 2 ^ n -> 0 <= b < 2 ^ n -> 0 <= Z.lxor a b < 2 ^ n.
Proof.
  intros Hn Ha Hb.
  assert (E : Z.lxor a b = Z.lxor a b mod 2 ^ n).
  { rewrite <- Z.land_ones by lia. apply Z.bits_inj'. intros i Hi.
    rewrite Z.land_spec, !Z.lxor_spec. destruct (Z.ltb_spec i n).
    - rewrite Z.ones_spec_low by lia. now rewrite andb_true_r.
    - rewrite Z.ones_spec_high by lia. rewrite andb_false_r.
      rewrite <- (Z.mod_small a (2 ^ n)), <- (Z.mod_small b (2 ^ n)) by lia.
      rewrite !Z.mod_pow2_bits_high by lia. reflexivity. }
  rewrite E. apply Z.mod_pos_bound. apply Z.pow_pos_nonneg; lia.
Qed.

Lemma lxor_cancel a b : Z.lxor (Z.lxor a b) b = a.
Proof. rewrite Z.lxor_assoc, Z.lxor_nilpotent, Z.lxor_0_r. reflexivity. Qed.

(** ** Little-endian conversions *)
Lemma le_bytes_length n v : length (le_bytes n v) = n.
Proof. revert v; induction n as [|n IH]; intros; simpl; [reflexivity|]. now rewrite IH. Qed.
Lemma le_bytes_bytes n v : bytes (le_bytes n v).
Proof.
  revert v; induction n as [|n IH]; intros; simpl; constructor; [|apply IH].
  unfold is_byte. lia.
Qed.
Lemma pow256_S n : 256 ^ Z.of_nat (S n) = 256 * 256 ^ Z.of_nat n.
Proof. rewrite Nat2Z.inj_succ, Z.pow_succ_r by lia. reflexivity. Qed.
Lemma pow256_pos n : 0 < 256 ^ Z.of_nat n.
Proof. apply Z.pow_pos_nonneg; lia. Qed.
Lemma le_val_le_bytes n v : le_val (le_bytes n v) = v mod 256 ^ Z.of_nat n.
Proof.
  revert v; induction n as [|n IH]; intros; cbn [le_val le_bytes].
  - change (256 ^ Z.of_nat 0) with 1. now rewrite Z.mod_1_r.
  - rewrite IH, pow256_S.
    pose proof (pow256_pos n).
    rewrite Z.rem_mul_r by lia. reflexivity.
Qed.
Lemma le_val_range l : bytes l -> 0 <= le_val l < 256 ^ zlen l.
Proof.
  unfold zlen. induction l as [|b l IH]; intros H; cbn [le_val length].
  - cbn. lia.
  - inversion H as [|? ? Hb Hl]; subst. specialize (IH Hl). rewrite pow256_S.
    unfold is_byte in Hb. nia.
Qed.
Lemma le_bytes_le_val l : bytes l -> le_bytes (length l) (le_val l) = l.
Proof.
  induction l as [|b l IH]; intros H; cbn [le_val length le_bytes]; [reflexivity|].
  inversion H as [|? ? Hb Hl]; subst. unfold is_byte in Hb.
  replace ((b + 256 * le_val l) mod 256) with b by lia.
  replace ((b + 256 * le_val l) / 256) with (le_val l) by lia.
  now rewrite IH.
Qed.
Lemma le_bytes_mod n v m : (n <= m)%nat -> le_bytes n (v mod 256 ^ Z.of_nat m) = le_bytes n v.
Proof.
  revert v m; induction n as [|n IH]; intros v m Hm; cbn [le_bytes]; [reflexivity|].
  destruct m as [|m]; [lia|]. rewrite pow256_S.
  pose proof (pow256_pos m) as Hp.
  f_equal.
  - rewrite Z.rem_mul_r by lia.
    rewrite Z.mul_comm, Z.mod_add by lia. apply Z.mod_mod. lia.
  - rewrite Z.rem_mul_r by lia.
    replace ((v mod 256 + 256 * ((v / 256) mod 256 ^ Z.of_nat m)) / 256)
      with ((v / 256) mod 256 ^ Z.of_nat m).
    + apply IH. lia.
    + rewrite Z.mul_comm, Z.div_add by lia. rewrite (Z.div_small (v mod 256)); lia.
Qed.
Lemma le_bytes_ext n v w :
  v mod 256 ^ Z.of_nat n = w mod 256 ^ Z.of_nat n -> le_bytes n v = le_bytes n w.
Proof.
  intros E. rewrite <- (le_bytes_mod n v n), <- (le_bytes_mod n w n), E by lia. reflexivity.
Qed.

Lemma bytes_app l1 l2 : bytes (l1 ++ l2) <-> bytes l1 /\ bytes l2.
Proof. unfold bytes. apply Forall_app. Qed.
Lemma Forall_firstn {A} (P : A -> Prop) n l : Forall P l -> Forall P (firstn n l).
Proof. revert l; induction n; intros [|x l] H; simpl; try constructor; inversion H; subst; auto. Qed.
Lemma Forall_skipn {A} (P : A -> Prop) n l : Forall P l -> Forall P (skipn n l).
Proof. revert l; induction n; intros [|x l] H; simpl; auto. inversion H; auto. Qed.
Lemma bytes_firstn n l : bytes l -> bytes (firstn n l).
Proof. apply Forall_firstn. Qed.
Lemma bytes_skipn n l : bytes l -> bytes (skipn n l).
Proof. apply Forall_skipn. Qed.
Lemma zlen_app {A} (l1 l2 : list A) : zlen (l1 ++ l2) = zlen l1 + zlen l2.
Proof. unfold zlen. rewrite app_length. lia. Qed.
Lemma zlen_nonneg {A} (l : list A) : 0 <= zlen l.
Proof. unfold zlen. lia. Qed.

(** ** Buffer reads and writes *)
Lemma rd_ok off len l :
  0 <= off -> off + Z.of_nat len <= zlen l ->
  rd off len l = Ok (firstn len (skipn (Z.to_nat off) l)).
Proof. intros H1 H2. unfold rd. destruct ((0 <=? off) && (off + Z.of_nat len <=? zlen l)) eqn:E; [reflexivity|lia]. Qed.
Lemma rd_inv off len l bs :
  rd off len l = Ok bs ->
  0 <= off /\ off + Z.of_nat len <= zlen l /\ bs = firstn len (skipn (Z.to_nat off) l) /\ length bs = len.
Proof.
  unfold rd. destruct ((0 <=? off) && (off + Z.of_nat len <=? zlen l)) eqn:E; [|discriminate].
  intros [= <-]. unfold zlen in *. repeat split; try lia.
  rewrite firstn_length, skipn_length. lia.
Qed.
Lemma rd_bytes off len l bs : rd off len l = Ok bs -> bytes l -> bytes bs.
Proof. intros H Hl. apply rd_inv in H. destruct H as (_ & _ & -> & _). apply bytes_firstn, bytes_skipn, Hl. Qed.
Lemma rd_not_throw off len l : rd off len l <> Throw.
Proof. unfold rd. destruct (_ && _); discriminate. Qed.
Lemma wr_ok off bs l :
  0 <= off -> off + zlen bs <= zlen l ->
  wr off bs l = Ok (firstn (Z.to_nat off) l ++ bs ++ skipn (Z.to_nat off + length bs) l).
Proof. intros H1 H2. unfold wr. destruct ((0 <=? off) && (off + zlen bs <=? zlen l)) eqn:E; [reflexivity|lia]. Qed.
Lemma wr_inv off bs l l' :
  wr off bs l = Ok l' ->
  0 <= off /\ off + zlen bs <= zlen l /\
  l' = firstn (Z.to_nat off) l ++ bs ++ skipn (Z.to_nat off + length bs) l /\ length l' = length l.
Proof.
  unfold wr. destruct ((0 <=? off) && (off + zlen bs <=? zlen l)) eqn:E; [|discriminate].
  intros [= <-]. unfold zlen in *. repeat split; try lia.
  rewrite !app_length, firstn_length, skipn_length. lia.
Qed.
Lemma nth_error_firstn_lt {A} (l : list A) n i : (i < n)%nat -> nth_error (firstn n l) i = nth_error l i.
Proof. revert l i; induction n as [|n IH]; intros [|x l] [|i] H; simpl; try reflexivity; try lia. apply IH. lia. Qed.
Lemma nth_error_skipn_add {A} (l : list A) n i : nth_error (skipn n l) i = nth_error l (n + i).
Proof. revert l; induction n as [|n IH]; intros [|x l]; simpl; try reflexivity; [now destruct i|apply IH]. Qed.
Lemma wr_nth off bs l l' i :
  wr off bs l = Ok l' ->
  nth_error l' i =
    (if (Z.to_nat off <=? i)%nat && (i <? Z.to_nat off + length bs)%nat
     then nth_error bs (i - Z.to_nat off)
     else nth_error l i).
Proof.
  intros H. apply wr_inv in H. destruct H as (H1 & H2 & -> & _). unfold zlen in *.
  destruct ((Z.to_nat off <=? i)%nat && (i <? Z.to_nat off + length bs)%nat) eqn:E.
  - rewrite nth_error_app2; rewrite firstn_length; [|lia].
    rewrite nth_error_app1 by lia. f_equal. lia.
  - destruct (Nat.ltb_spec i (Z.to_nat off)).
    + rewrite nth_error_app1 by (rewrite firstn_length; lia).
      apply nth_error_firstn_lt. lia.
    + rewrite nth_error_app2; rewrite firstn_length; [|lia].
      rewrite nth_error_app2 by lia. rewrite nth_error_skipn_add. f_equal. lia.
Qed.
Lemma wr_bytes off bs l l' : wr off bs l = Ok l' -> bytes bs -> bytes l -> bytes l'.
Proof.
  intros H Hb Hl. apply wr_inv in H. destruct H as (_ & _ & -> & _).
  rewrite !bytes_app. repeat split; auto using bytes_firstn, bytes_skipn.
Qed.
Lemma trim_front_app n l1 l2 : length l1 = n -> trim_front n (l1 ++ l2) = Ok l2.
Proof.
  intros <-. unfold trim_front. rewrite app_length.
  destruct (Nat.ltb_spec (length l1 + length l2) (length l1)); [lia|].
  f_equal. rewrite skipn_app, skipn_all, Nat.sub_diag. reflexivity.
Qed.

Lemma skipn_skipn {A} x y (l : list A) : skipn x (skipn y l) = skipn (x + y) l.
Proof.
  revert x l; induction y as [|y IH]; intros x l.
  - rewrite Nat.add_0_r. reflexivity.
  - rewrite <- plus_n_Sm. destruct l as [|a l]; [now rewrite !skipn_nil|]. cbn [skipn]. apply IH.
Qed.
