(** Facts about the hash set: Robin Hood hashing keeps its order, so the probe finds every key. *)
From Verif Require Import Base BaseFacts Types Floats RosViz HashSet.
From Coq Require Import Arith.
Open Scope nat_scope.

(** ** Positions on the ring *)
Section Ring.
  Variables (N : nat).
  Hypothesis (HN : 0 < N).
  Definition cyc (p i : nat) : nat := (p + i) mod N.
  Definition nx (p : nat) : nat := S p mod N.
  Lemma cyc_lt p i : cyc p i < N. Proof. apply Nat.mod_upper_bound. lia. Qed.
  Lemma nx_lt p : nx p < N. Proof. apply Nat.mod_upper_bound. lia. Qed.
  Lemma cyc_0 p : p < N -> cyc p 0 = p. Proof. intros H. unfold cyc. rewrite Nat.add_0_r. now apply Nat.mod_small. Qed.
  Lemma cyc_S p i : cyc p (S i) = nx (cyc p i).
  Proof. unfold cyc, nx. rewrite Nat.add_succ_r, <- (Nat.add_1_r (p + i)), <- (Nat.add_1_r ((p + i) mod N)), Nat.add_mod_idemp_l by lia. reflexivity. Qed.
  Lemma cyc_nx p i : cyc (nx p) i = cyc p (S i).
  Proof. unfold cyc, nx. rewrite Nat.add_mod_idemp_l by lia. f_equal. lia. Qed.
  Lemma cyc_cyc p i j : cyc (cyc p i) j = cyc p (i + j).
  Proof. unfold cyc. rewrite Nat.add_mod_idemp_l by lia. f_equal. lia. Qed.
  Lemma cyc_inj p i j : i < N -> j < N -> cyc p i = cyc p j -> i = j.
  Proof.
    unfold cyc. intros Hi Hj E. rewrite (Nat.div_mod_eq p N) in E. rewrite !(Nat.add_comm (N * (p / N))), <- !Nat.add_assoc, !(Nat.add_comm (N * (p / N))), !Nat.add_assoc in E.
    rewrite !(Nat.mul_comm N), !Nat.mod_add in E by lia. pose proof (Nat.mod_upper_bound p N ltac:(lia)) as Hp. set (q := p mod N) in *.
    destruct (le_lt_dec N (q + i)) as [A|A], (le_lt_dec N (q + j)) as [B|B].
    - rewrite (Nat.mod_eq (q + i)), (Nat.mod_eq (q + j)) in E by lia. replace ((q + i) / N) with 1 in E by (apply (Nat.div_unique _ _ 1 (q + i - N)); lia). replace ((q + j) / N) with 1 in E by (apply (Nat.div_unique _ _ 1 (q + j - N)); lia). lia.
    - rewrite (Nat.mod_eq (q + i)) in E by lia. rewrite (Nat.mod_small (q + j)) in E by lia. replace ((q + i) / N) with 1 in E by (apply (Nat.div_unique _ _ 1 (q + i - N)); lia). lia.
    - rewrite (Nat.mod_eq (q + j)) in E by lia. rewrite (Nat.mod_small (q + i)) in E by lia. replace ((q + j) / N) with 1 in E by (apply (Nat.div_unique _ _ 1 (q + j - N)); lia). lia.
    - rewrite !Nat.mod_small in E by lia. lia.
  Qed.
  Lemma cyc_onto p q : p < N -> q < N -> exists i, i < N /\ q = cyc p i.
  Proof.
    intros Hp Hq. unfold cyc. destruct (le_lt_dec p q) as [A|A].
    - exists (q - p). split; [lia|]. replace (p + (q - p)) with q by lia. symmetry. now apply Nat.mod_small.
    - exists (q + N - p). split; [lia|]. replace (p + (q + N - p)) with (q + 1 * N) by lia. rewrite Nat.mod_add by lia. symmetry. now apply Nat.mod_small.
  Qed.
  Lemma cyc_N p : p < N -> cyc p N = p.
  Proof. intros H. unfold cyc. replace (p + N) with (p + 1 * N) by lia. rewrite Nat.mod_add by lia. now apply Nat.mod_small. Qed.
End Ring.

(** ** Access *)
Definition nb (bk : list bucket) (p : nat) : bucket := nth p bk (0, 0)%Z.
Definition dd (bk : list bucket) (p : nat) : Z := fst (nb bk p).
Definition ix (bk : list bucket) (p : nat) : Z := snd (nb bk p).
Lemma at_ok bk p : p < length bk -> bucket_at bk (Z.of_nat p) = Ok (nb bk p).
Proof. intros H. unfold bucket_at. destruct (Z.leb_spec 0 (Z.of_nat p)); [|lia]. rewrite Nat2Z.id, (nth_error_nth' bk (0, 0)%Z H). reflexivity. Qed.
Definition upd (p : nat) (b : bucket) (bk : list bucket) : list bucket := firstn p bk ++ b :: skipn (S p) bk.
Lemma set_ok bk p b : p < length bk -> set_bucket bk (Z.of_nat p) b = Ok (upd p b bk).
Proof. intros H. unfold set_bucket, zlen. destruct (Z.leb_spec 0 (Z.of_nat p)); [|lia]. destruct (Z.ltb_spec (Z.of_nat p) (Z.of_nat (length bk))); [|lia]. cbn [andb]. rewrite Nat2Z.id. reflexivity. Qed.
Lemma upd_length p b bk : p < length bk -> length (upd p b bk) = length bk.
Proof. intros H. unfold upd. rewrite app_length, firstn_length. cbn [length]. rewrite skipn_length. lia. Qed.
Lemma upd_same p b bk : p < length bk -> nb (upd p b bk) p = b.
Proof. intros H. unfold nb, upd. rewrite app_nth2 by (rewrite firstn_length; lia). rewrite firstn_length, Nat.min_l, Nat.sub_diag by lia. reflexivity. Qed.
Lemma nth_skipn_shift {A} (l : list A) k n d : nth n (skipn k l) d = nth (k + n) l d.
Proof. revert k. induction l as [|a l IH]; intros [|k]; cbn [skipn Nat.add nth]; try reflexivity; [destruct n; reflexivity|]. apply IH. Qed.
Lemma nth_firstn_lt {A} (l : list A) k n d : n < k -> nth n (firstn k l) d = nth n l d.
Proof. revert k n. induction l as [|a l IH]; intros [|k] [|n] H; cbn [firstn nth]; try reflexivity; try lia. apply IH. lia. Qed.
Lemma upd_other p q b bk : p < length bk -> q <> p -> nb (upd p b bk) q = nb bk q.
Proof.
  intros H Hq. unfold nb, upd. destruct (le_lt_dec p q) as [A|A].
  - rewrite app_nth2 by (rewrite firstn_length; lia). rewrite firstn_length, Nat.min_l by lia. destruct (q - p) as [|k] eqn:E; [lia|]. cbn [nth]. rewrite nth_skipn_shift. f_equal. lia.
  - rewrite app_nth1 by (rewrite firstn_length; lia). now apply nth_firstn_lt.
Qed.
Lemma next_ok bk p : p < length bk -> (zlen bk < 4294967296)%Z -> next bk (Z.of_nat p) = Z.of_nat (nx (length bk) p).
Proof.
  intros H HL. unfold next, nx, zlen, u32 in *. rewrite Z.mod_small by lia. destruct (Z.eqb_spec (Z.of_nat p + 1) (Z.of_nat (length bk))) as [E|E].
  - assert (S p = length bk) as -> by lia. rewrite Nat.mod_same by lia. reflexivity.
  - rewrite Nat.mod_small by lia. lia.
Qed.

(** ** Placing a bucket *)
Lemma place_spec N : 0 < N -> (Z.of_nat N < 4294967296)%Z -> forall m fuel b p bk, length bk = N -> p < N -> m < N -> m < fuel ->
  (forall i, i < m -> dd bk (cyc N p i) <> 0%Z) -> dd bk (cyc N p m) = 0%Z ->
  exists bk', place_and_shift_up fuel b (Z.of_nat p) bk = Ok bk' /\ length bk' = N /\ nb bk' p = b /\
    (forall i, i < m -> nb bk' (cyc N p (S i)) = (dist_inc (dd bk (cyc N p i)), ix bk (cyc N p i))) /\
    (forall q, q < N -> (forall i, i <= m -> q <> cyc N p i) -> nb bk' q = nb bk q).
Proof.
  intros HN HL. induction m as [|m IH]; intros fuel b p bk Hl Hp Hm Hf Hne He; destruct fuel as [|fuel]; try lia; cbn [place_and_shift_up]; rewrite at_ok by lia; cbn [bind].
  - rewrite cyc_0 in He by assumption. unfold dd in He. rewrite He. cbn [Z.eqb]. rewrite set_ok by lia. exists (upd p b bk). split; [reflexivity|]. split; [rewrite upd_length; lia|]. split; [apply upd_same; lia|].
    split; [intros i Hi; lia|]. intros q Hq HI. apply upd_other; [lia|]. specialize (HI 0 (le_n 0)). rewrite cyc_0 in HI; assumption.
  - pose proof (Hne 0 ltac:(lia)) as H0. rewrite cyc_0 in H0 by assumption. unfold dd in H0. destruct (Z.eqb_spec 0 (fst (nb bk p))) as [E|E]; [congruence|]. rewrite set_ok by lia. cbn [bind]. rewrite next_ok by (unfold zlen; lia). rewrite Hl.
    set (bk1 := upd p b bk). assert (L1 : length bk1 = N) by (unfold bk1; rewrite upd_length; lia).
    assert (SAME : forall i, S i < N -> nb bk1 (cyc N (nx N p) i) = nb bk (cyc N p (S i))).
    { intros i Hi. rewrite cyc_nx by assumption. apply upd_other; [lia|]. intros K. assert (S i = 0); [|lia]. apply (cyc_inj N HN p); [lia|lia|]. rewrite K, cyc_0; auto. }
    destruct (IH fuel (dist_inc (fst (nb bk p)), snd (nb bk p)) (nx N p) bk1 L1 (nx_lt N HN p) ltac:(lia) ltac:(lia)) as (bk' & E1 & E2 & E3 & E4 & E5).
    + intros i Hi. unfold dd. rewrite SAME by lia. apply Hne. lia.
    + unfold dd. rewrite SAME by lia. exact He.
    + exists bk'. split; [exact E1|]. split; [exact E2|]. split; [|split].
      * rewrite E5; [apply upd_same; lia|assumption|]. intros i Hi K. rewrite cyc_nx in K by assumption. assert (0 = S i); [|lia]. apply (cyc_inj N HN p); [lia|lia|]. rewrite <- K, cyc_0; auto.
      * intros [|i] Hi.
        -- rewrite cyc_S, !cyc_0 by assumption. exact E3.
        -- rewrite <- (cyc_nx N HN p (S i)), E4 by lia. unfold dd, ix. rewrite SAME by lia. reflexivity.
      * intros q Hq HI. rewrite E5; [apply upd_other; [lia|]|assumption|].
        -- specialize (HI 0 ltac:(lia)). rewrite cyc_0 in HI; assumption.
        -- intros i Hi. rewrite cyc_nx by assumption. apply HI. lia.
Qed.

(** ** Occupied buckets *)
Definition occupied (bk : list bucket) : list nat := filter (fun p => negb (dd bk p =? 0)%Z) (seq 0 (length bk)).
Lemma occ_spec bk p : In p (occupied bk) <-> p < length bk /\ dd bk p <> 0%Z.
Proof. unfold occupied. rewrite filter_In, in_seq, negb_true_iff, Z.eqb_neq. split; intros (A & B); split; try assumption; lia. Qed.
Lemma run_occ bk h m : 0 < length bk -> m <= length bk -> (forall i, i < m -> dd bk (cyc (length bk) h i) <> 0%Z) -> m <= length (occupied bk).
Proof.
  intros HN Hm H. rewrite <- (seq_length m 0), <- (map_length (cyc (length bk) h)). apply NoDup_incl_length.
  - apply NoDup_nth with (d := 0). intros i j Hi Hj E. rewrite map_length, seq_length in Hi, Hj.
    rewrite !(nth_indep (map _ _) 0 (cyc (length bk) h 0)) in E by (rewrite map_length, seq_length; lia). rewrite !map_nth, !seq_nth in E by lia. apply (cyc_inj (length bk) HN h); [lia|lia|exact E].
  - intros p Hp. apply in_map_iff in Hp. destruct Hp as (i & <- & Hi). apply in_seq in Hi. apply occ_spec. split; [now apply cyc_lt|]. apply H. lia.
Qed.
Lemma first_empty bk h : length (occupied bk) < length bk -> exists e, e < length bk /\ e <= length (occupied bk) /\ dd bk (cyc (length bk) h e) = 0%Z /\ forall i, i < e -> dd bk (cyc (length bk) h i) <> 0%Z.
Proof.
  intros H. assert (HN : 0 < length bk) by lia.
  assert (D : forall n, (exists e, e < n /\ dd bk (cyc (length bk) h e) = 0%Z /\ forall i, i < e -> dd bk (cyc (length bk) h i) <> 0%Z) \/ (forall i, i < n -> dd bk (cyc (length bk) h i) <> 0%Z)).
  { induction n as [|n [(e & A & B & C)|IH]]; [right; lia|left; exists e; split; [lia|auto]|]. destruct (Z.eq_dec (dd bk (cyc (length bk) h n)) 0) as [E|E].
    - left. exists n. auto.
    - right. intros i Hi. destruct (Nat.eq_dec i n) as [->|Hn]; [exact E|apply IH; lia]. }
  destruct (D (length bk)) as [(e & A & B & C)|F]; [|exfalso; pose proof (run_occ bk h (length bk) HN (le_n _) F); lia].
  exists e. split; [exact A|]. split; [apply (run_occ bk h); [exact HN|lia|exact C]|]. auto.
Qed.

(** ** The invariant *)
Section Size.
  Variables (k : Z).
  Hypothesis (Hk : (2 <= k <= 31)%Z).
  Definition size : nat := Z.to_nat (2 ^ k).
  Lemma pow_range : (4 <= 2 ^ k <= 2147483648)%Z.
  Proof. split; [change 4%Z with (2 ^ 2)%Z|change 2147483648%Z with (2 ^ 31)%Z]; apply Z.pow_le_mono_r; lia. Qed.
  Lemma size_Z : Z.of_nat size = (2 ^ k)%Z.
  Proof. unfold size. rewrite Z2Nat.id; [reflexivity|pose proof pow_range; lia]. Qed.
  Lemma size_pos : 0 < size. Proof. pose proof size_Z. pose proof pow_range. lia. Qed.
  Lemma size_4 : 4 <= size. Proof. pose proof size_Z. pose proof pow_range. lia. Qed.
  Lemma size_u32 : (Z.of_nat size < 4294967296)%Z. Proof. pose proof size_Z. pose proof pow_range. lia. Qed.
End Size.

Section Invariant.
  Variables (hash : Z -> Z) (k : Z).
  Hypothesis (Hh : forall x, (0 <= hash x < 18446744073709551616)%Z).
  Hypothesis (Hk : (2 <= k <= 31)%Z).
  Definition home (key : Z) : nat := Z.to_nat (bucket_idx_from_hash (64 - k) (hash key)).
  Definition D (key : Z) (i : nat) : Z := (256 * (Z.of_nat i + 1) + hash key mod 256)%Z.
  Definition limit : Z := 16777214%Z.

  Local Notation size := (HashSetFacts.size k).
  Local Notation size_pos := (HashSetFacts.size_pos k Hk).
  Local Notation size_4 := (HashSetFacts.size_4 k Hk).
  Local Notation size_u32 := (HashSetFacts.size_u32 k Hk).
  Local Notation size_Z := (HashSetFacts.size_Z k Hk).
  Local Notation pow_range := (HashSetFacts.pow_range k Hk).
  Lemma home_eq key : bucket_idx_from_hash (64 - k) (hash key) = Z.of_nat (home key) /\ home key < size.
  Proof.
    unfold home. pose proof (Hh key) as H. pose proof pow_range as P. pose proof size_Z as S.
    assert (B : (0 <= Z.shiftr (hash key) (64 - k) < 2 ^ k)%Z).
    { rewrite Z.shiftr_div_pow2 by lia. split; [apply Z.div_pos; [lia|apply Z.pow_pos_nonneg; lia]|]. apply Z.div_lt_upper_bound; [apply Z.pow_pos_nonneg; lia|]. rewrite <- Z.pow_add_r by lia. replace (64 - k + k)%Z with 64%Z by lia. change (2 ^ 64)%Z with 18446744073709551616%Z. lia. }
    unfold bucket_idx_from_hash, u32. rewrite Z.mod_small by (change (2 ^ 32)%Z with 4294967296%Z; lia). split; lia.
  Qed.
  Lemma daf_eq key : dist_and_fingerprint_from_hash (hash key) = D key 0.
  Proof.
    unfold dist_and_fingerprint_from_hash, D, u32. rewrite (Z.land_ones _ 8) by lia. change (2 ^ 8)%Z with 256%Z. change (2 ^ 32)%Z with (256 * 16777216)%Z.
    assert (E : ((hash key mod (256 * 16777216)) mod 256 = hash key mod 256)%Z).
    { rewrite Z.rem_mul_r by lia. rewrite (Z.mul_comm 256), Z.mod_add by lia. apply Z.mod_mod. lia. }
    change 4294967296%Z with (256 * 16777216)%Z. rewrite E. pose proof (Z.mod_pos_bound (hash key) 256 ltac:(lia)) as B. set (f := (hash key mod 256)%Z) in *.
    pose proof (lor_disjoint_add f 1 8 ltac:(lia) ltac:(change (2 ^ 8)%Z with 256%Z; lia)) as L. change (1 * 2 ^ 8)%Z with 256%Z in L. rewrite Z.lor_comm, L. lia.
  Qed.
  Lemma D_inc key i : (Z.of_nat i + 1 <= limit)%Z -> dist_inc (D key i) = D key (S i).
  Proof. unfold dist_inc, D, u32, limit. intros H. pose proof (Z.mod_pos_bound (hash key) 256 ltac:(lia)). rewrite Z.mod_small; lia. Qed.
  Lemma D_ge key i : (256 <= D key i)%Z.
  Proof. unfold D. pose proof (Z.mod_pos_bound (hash key) 256 ltac:(lia)). lia. Qed.
  Lemma D_S key i : D key (S i) = (D key i + 256)%Z. Proof. unfold D. lia. Qed.

  Record inv (vals : list Z) (bk : list bucket) : Prop := {
    i_len : length bk = size;
    i_cons : forall p, p < size -> dd bk p <> 0%Z -> exists v j key, nth_error vals v = Some key /\ ix bk p = Z.of_nat v /\ j < size /\ p = cyc size (home key) j /\ dd bk p = D key j;
    i_compl : forall v, v < length vals -> exists p, p < size /\ dd bk p <> 0%Z /\ ix bk p = Z.of_nat v;
    i_uniq : forall p q, p < size -> q < size -> dd bk p <> 0%Z -> dd bk q <> 0%Z -> ix bk p = ix bk q -> p = q;
    i_ord : forall p, p < size -> (512 <= dd bk (nx size p) -> dd bk (nx size p) <= dd bk p + 256)%Z }.

  Lemma inv_fresh bk : length bk = size -> (forall p, dd bk p = 0%Z) -> inv [] bk.
  Proof.
    intros L Z. constructor; [exact L| | | |]; try (intros; rewrite Z in *; congruence || lia).
    intros v Hv. cbn [length] in Hv. lia.
  Qed.

  Section Facts.
    Variables (vals : list Z) (bk : list bucket).
    Hypothesis (I : inv vals bk).
    Hypothesis (HV : (zlen vals <= limit)%Z).
    Hypothesis (HF : length vals < size).

    Lemma occ_vals : length (occupied bk) <= length vals.
    Proof.
      rewrite <- (map_length (fun p => Z.to_nat (ix bk p)) (occupied bk)), <- (seq_length (length vals) 0). apply NoDup_incl_length.
      - assert (ND : NoDup (occupied bk)) by (apply NoDup_filter, seq_NoDup).
        assert (INJ : forall l, incl l (occupied bk) -> NoDup l -> NoDup (map (fun p => Z.to_nat (ix bk p)) l)).
        { induction l as [|p l IH]; intros HI N; cbn [map]; [constructor|]. inversion N as [|p' l' N1 N2]; subst. constructor; [|apply IH; [intros q Hq; apply HI; now right|exact N2]].
          rewrite in_map_iff. intros (q & E & Hq). apply N1. replace p with q; [exact Hq|].
          destruct (proj1 (occ_spec bk p) (HI p (or_introl eq_refl))) as (A1 & A2). destruct (proj1 (occ_spec bk q) (HI q (or_intror Hq))) as (B1 & B2). rewrite (i_len _ _ I) in A1, B1.
          apply (i_uniq _ _ I); try assumption. destruct (i_cons _ _ I p A1 A2) as (v & ? & ? & _ & Ev & _). destruct (i_cons _ _ I q B1 B2) as (w & ? & ? & _ & Ew & _). rewrite Ev, Ew, !Nat2Z.id in E. congruence. }
        apply INJ; [apply incl_refl|exact ND].
      - intros x Hx. apply in_map_iff in Hx. destruct Hx as (p & <- & Hp). destruct (proj1 (occ_spec bk p) Hp) as (A1 & A2). rewrite (i_len _ _ I) in A1.
        destruct (i_cons _ _ I p A1 A2) as (v & j & key & En & Ev & _). rewrite Ev, Nat2Z.id, in_seq. assert (v < length vals); [|lia]. apply nth_error_Some. congruence.
    Qed.
    Lemma empty_after h : exists e, e < size /\ e <= length vals /\ dd bk (cyc size h e) = 0%Z /\ forall i, i < e -> dd bk (cyc size h i) <> 0%Z.
    Proof.
      pose proof occ_vals as O. destruct (first_empty bk h) as (e & A & B & C). { rewrite (i_len _ _ I). lia. } rewrite (i_len _ _ I) in *. exists e. split; [exact A|]. split; [lia|exact C].
    Qed.
    Lemma chain key : forall j, dd bk (cyc size (home key) j) = D key j -> forall i, i <= j -> (D key i <= dd bk (cyc size (home key) i))%Z.
    Proof.
      intros j E. assert (G : forall n, n <= j -> (D key (j - n) <= dd bk (cyc size (home key) (j - n)))%Z).
      { induction n as [|n IH]; intros Hn; [rewrite Nat.sub_0_r, E; lia|]. specialize (IH ltac:(lia)). replace (j - n) with (S (j - S n)) in IH by lia. rewrite cyc_S, D_S in IH by apply size_pos.
        pose proof (i_ord _ _ I (cyc size (home key) (j - S n)) (cyc_lt _ size_pos _ _)) as OR. pose proof (D_ge key (j - S n)). specialize (OR ltac:(lia)). lia. }
      intros i Hi. specialize (G (j - i) ltac:(lia)). replace (j - (j - i)) with i in G by lia. exact G.
    Qed.
    (** a distance is at most the number of values *)
    Lemma dist_bound p v j key : p < size -> dd bk p = D key j -> p = cyc size (home key) j -> nth_error vals v = Some key -> j < size -> S j <= length vals.
    Proof.
      intros Hp E P _ Hj. rewrite P in E. pose proof (chain key j E) as C. etransitivity; [|apply occ_vals]. rewrite <- (i_len _ _ I) in Hj. apply (run_occ bk (home key)); [lia|lia|]. rewrite (i_len _ _ I). intros i Hi.
      pose proof (C i ltac:(lia)). pose proof (D_ge key i). lia.
    Qed.

    (** ** Insertion *)
    Lemma insertion key i0 v b fuel : v = Z.of_nat (length vals) -> b = (D key i0, v) -> i0 < size -> size < fuel ->
      (forall i, i < i0 -> (D key i <= dd bk (cyc size (home key) i))%Z) -> (dd bk (cyc size (home key) i0) <= D key i0)%Z ->
      exists bk', place_and_shift_up fuel b (Z.of_nat (cyc size (home key) i0)) bk = Ok bk' /\ inv (vals ++ [key]) bk'.
    Proof.
      intros Ev Eb Hi0 Hfuel Hbefore Hat. set (p0 := cyc size (home key) i0) in *. assert (Hp0 : p0 < size) by apply (cyc_lt _ size_pos).
      destruct (empty_after p0) as (m & Hm & Hml & Hm0 & Hmne).
      destruct (place_spec size size_pos size_u32 m fuel b p0 bk (i_len _ _ I) Hp0 Hm ltac:(lia) Hmne Hm0) as (bk' & E1 & E2 & E3 & E4 & E5).
      exists bk'. split; [exact E1|].
      assert (R0 : forall r, r < size -> r = 0 \/ (exists s, r = S s /\ s < m) \/ m < r) by (intros [|r] Hr; [now left|]; destruct (le_lt_dec (S r) m); [right; left; exists r; split; [reflexivity|lia]|right; right; lia]).
      assert (C0 : nb bk' (cyc size p0 0) = b) by (rewrite cyc_0; assumption).
      assert (CH : forall r, m < r -> r < size -> nb bk' (cyc size p0 r) = nb bk (cyc size p0 r)).
      { intros r Hr1 Hr2. apply E5; [apply (cyc_lt _ size_pos)|]. intros i Hi K. apply (cyc_inj _ size_pos) in K; lia. }
      assert (OLD : forall p, p < size -> dd bk p <> 0%Z -> exists w j key', nth_error vals w = Some key' /\ w < length vals /\ ix bk p = Z.of_nat w /\ S j < size /\ (Z.of_nat j + 1 <= limit)%Z /\ p = cyc size (home key') j /\ dd bk p = D key' j).
      { intros p Hp Hd. destruct (i_cons _ _ I p Hp Hd) as (w & j & key' & A1 & A2 & A3 & A4 & A5). exists w, j, key'. pose proof (dist_bound p w j key' Hp A5 A4 A1 A3) as B. unfold zlen in HV.
        split; [exact A1|]. split; [apply nth_error_Some; congruence|]. split; [exact A2|]. split; [lia|]. split; [lia|]. split; assumption. }
      assert (CM : forall r, r < m -> exists w j key', nth_error vals w = Some key' /\ w < length vals /\ ix bk (cyc size p0 r) = Z.of_nat w /\ S j < size /\ cyc size p0 r = cyc size (home key') j /\ dd bk (cyc size p0 r) = D key' j /\ nb bk' (cyc size p0 (S r)) = (D key' (S j), Z.of_nat w)).
      { intros r Hr. destruct (OLD (cyc size p0 r) (cyc_lt _ size_pos _ _) (Hmne r Hr)) as (w & j & key' & A1 & A2 & A3 & A4 & A5 & A6 & A7). exists w, j, key'. repeat (split; [assumption|]). rewrite (E4 r Hr), A7, A3, D_inc by assumption. reflexivity. }
      constructor.
      - exact E2.
      - intros q Hq Hd. destruct (cyc_onto _ size_pos p0 q Hp0 Hq) as (r & Hr & ->). destruct (R0 r Hr) as [-> | [(s & -> & Hs) | Hs]].
        + unfold dd, ix. rewrite C0, Eb. cbn [fst snd]. exists (length vals), i0, key. rewrite nth_error_app2, Nat.sub_diag by lia. rewrite cyc_0 by assumption. auto.
        + destruct (CM s Hs) as (w & j & key' & A1 & A2 & A3 & A4 & A5 & A6 & A7). exists w, (S j), key'. unfold dd, ix. rewrite A7. cbn [fst snd]. rewrite nth_error_app1 by assumption. rewrite !cyc_S by apply size_pos. rewrite A5. auto.
        + unfold dd, ix in *. rewrite (CH r Hs Hr) in *. destruct (i_cons _ _ I _ Hq Hd) as (w & j & key' & A1 & A2 & A3 & A4 & A5). exists w, j, key'. rewrite nth_error_app1 by (apply nth_error_Some; congruence). auto.
      - intros w Hw. rewrite app_length in Hw. cbn [length] in Hw. destruct (Nat.eq_dec w (length vals)) as [->|Hne].
        + exists p0. split; [exact Hp0|]. unfold dd, ix. rewrite E3, Eb. cbn [fst snd]. pose proof (D_ge key i0). split; [lia|exact Ev].
        + destruct (i_compl _ _ I w ltac:(lia)) as (p & Hp & Hd & Hx). destruct (cyc_onto _ size_pos p0 p Hp0 Hp) as (r & Hr & ->). destruct (lt_eq_lt_dec r m) as [[Hs | ->] | Hs]; [|contradiction|].
          * exists (cyc size p0 (S r)). split; [apply (cyc_lt _ size_pos)|]. destruct (CM r Hs) as (w' & j & key' & A1 & A2 & A3 & A4 & A5 & A6 & A7). unfold dd, ix. rewrite A7. cbn [fst snd]. pose proof (D_ge key' (S j)). split; [lia|]. congruence.
          * exists (cyc size p0 r). split; [exact Hp|]. unfold dd, ix in *. rewrite (CH r Hs Hr). auto.
      - assert (IXLT : forall r, r < size -> r <> 0 -> dd bk' (cyc size p0 r) <> 0%Z -> exists s, s < size /\ dd bk (cyc size p0 s) <> 0%Z /\ ix bk' (cyc size p0 r) = ix bk (cyc size p0 s) /\ ix bk' (cyc size p0 r) <> v /\ (r = S s /\ s < m \/ r = s /\ m < s)).
        { intros r Hr Hr0 Hd. destruct (R0 r Hr) as [-> | [(s & -> & Hs) | Hs]]; [contradiction| |].
          - exists s. destruct (CM s Hs) as (w & j & key' & A1 & A2 & A3 & A4 & A5 & A6 & A7). split; [lia|]. split; [apply Hmne; assumption|]. unfold ix at 1 3. rewrite A7. cbn [snd]. split; [congruence|]. split; [lia|left; auto].
          - exists r. unfold dd, ix in *. rewrite (CH r Hs Hr) in *. destruct (OLD _ (cyc_lt _ size_pos p0 r) Hd) as (w & j & key' & A1 & A2 & A3 & _). unfold ix in A3. split; [exact Hr|]. split; [exact Hd|]. split; [reflexivity|]. split; [lia|right; auto]. }
        intros p q Hp Hq Hdp Hdq E. destruct (cyc_onto _ size_pos p0 p Hp0 Hp) as (r & Hr & ->). destruct (cyc_onto _ size_pos p0 q Hp0 Hq) as (s & Hs & ->).
        assert (X0 : ix bk' (cyc size p0 0) = v) by (unfold ix; rewrite C0, Eb; reflexivity).
        destruct (Nat.eq_dec r 0) as [->|Hr0], (Nat.eq_dec s 0) as [->|Hs0].
        + reflexivity.
        + destruct (IXLT s Hs Hs0 Hdq) as (? & _ & _ & _ & ? & _). congruence.
        + destruct (IXLT r Hr Hr0 Hdp) as (? & _ & _ & _ & ? & _). congruence.
        + destruct (IXLT r Hr Hr0 Hdp) as (r' & R1 & R2 & R3 & _ & R4). destruct (IXLT s Hs Hs0 Hdq) as (s' & S1 & S2 & S3 & _ & S4).
          assert (r' = s'). { apply (cyc_inj _ size_pos p0); try assumption. apply (i_uniq _ _ I); try assumption; try apply (cyc_lt _ size_pos). congruence. }
          f_equal. lia.
      - intros q Hq. destruct (cyc_onto _ size_pos p0 q Hp0 Hq) as (r & Hr & ->). rewrite <- cyc_S by apply size_pos. pose proof size_4 as S4.
        assert (D0 : dd bk' (cyc size p0 0) = D key i0) by (unfold dd; rewrite C0, Eb; reflexivity).
        assert (DM : forall r, r < m -> dd bk' (cyc size p0 (S r)) = (dd bk (cyc size p0 r) + 256)%Z) by (intros x Hx; destruct (CM x Hx) as (w & j & key' & A1 & A2 & A3 & A4 & A5 & A6 & A7); unfold dd at 1; rewrite A7, A6, D_S; reflexivity).
        assert (DH : forall r, m < r -> r < size -> dd bk' (cyc size p0 r) = dd bk (cyc size p0 r)) by (intros x Hx1 Hx2; unfold dd; now rewrite CH).
        destruct (Nat.eq_dec (S r) size) as [Er|Er].
        + rewrite Er, (cyc_N _ size_pos) by assumption. rewrite cyc_0 in D0 by assumption. rewrite D0. intros H512. destruct i0 as [|i1]; [exfalso; unfold D in H512; pose proof (Z.mod_pos_bound (hash key) 256 ltac:(lia)); lia|].
          assert (PQ : cyc size p0 r = cyc size (home key) i1).
          { unfold p0. rewrite (cyc_cyc _ size_pos). replace (S i1 + r) with (i1 + size) by lia. rewrite <- (cyc_cyc _ size_pos). apply (cyc_N _ size_pos). apply (cyc_lt _ size_pos). }
          pose proof (Hbefore i1 ltac:(lia)) as B. rewrite <- PQ in B. pose proof (D_ge key i1). rewrite D_S. destruct (le_lt_dec r m) as [L|L].
          * assert (r = m) by lia. subst r. lia.
          * rewrite (DH r) by lia. lia.
        + assert (Hr1 : S r < size) by lia. destruct (lt_eq_lt_dec r m) as [[L|L]|L].
          * rewrite DM by assumption. intros _. destruct r as [|r].
            -- rewrite D0. rewrite cyc_0 by assumption. lia.
            -- rewrite DM by lia. pose proof (i_ord _ _ I (cyc size p0 r) (cyc_lt _ size_pos _ _)) as OR. rewrite <- cyc_S in OR by apply size_pos. pose proof (Hmne r ltac:(lia)) as N. destruct (CM r ltac:(lia)) as (? & j & key' & _ & _ & _ & _ & _ & A6 & _). pose proof (D_ge key' j). lia.
          * subst r. rewrite (DH (S m)) by lia. pose proof (i_ord _ _ I (cyc size p0 m) (cyc_lt _ size_pos _ _)) as OR. rewrite <- cyc_S in OR by apply size_pos. lia.
          * rewrite !DH by lia. pose proof (i_ord _ _ I (cyc size p0 r) (cyc_lt _ size_pos _ _)) as OR. rewrite <- cyc_S in OR by apply size_pos. exact OR.
    Qed.

    (** ** The two probes *)
    Lemma next_cyc h i : next bk (Z.of_nat (cyc size h i)) = Z.of_nat (cyc size h (S i)).
    Proof. rewrite next_ok; [|rewrite (i_len _ _ I); apply (cyc_lt _ size_pos)|unfold zlen; rewrite (i_len _ _ I); apply size_u32]. rewrite (i_len _ _ I), cyc_S by apply size_pos. reflexivity. Qed.
    Lemma nwl_spec key e : e < size -> e <= length vals -> dd bk (cyc size (home key) e) = 0%Z ->
      forall n i fuel, i + n = e -> n < fuel -> (forall i', i' < i -> (D key i' <= dd bk (cyc size (home key) i'))%Z) ->
      exists i0, next_while_less fuel (D key i) (Z.of_nat (cyc size (home key) i)) bk = Ok (D key i0, Z.of_nat (cyc size (home key) i0)) /\ i0 < size /\
        (forall i', i' < i0 -> (D key i' <= dd bk (cyc size (home key) i'))%Z) /\ (dd bk (cyc size (home key) i0) <= D key i0)%Z.
    Proof.
      intros He Hel He0. induction n as [|n IH]; intros i fuel Hi Hf HB; destruct fuel as [|fuel]; try lia; cbn [next_while_less]; rewrite at_ok by (rewrite (i_len _ _ I); apply (cyc_lt _ size_pos)); cbn [bind]; fold (dd bk (cyc size (home key) i)).
      - assert (i = e) as -> by lia. pose proof (D_ge key e). destruct (Z.ltb_spec (D key e) (dd bk (cyc size (home key) e))); [lia|]. exists e. split; [reflexivity|]. split; [exact He|]. split; [exact HB|lia].
      - destruct (Z.ltb_spec (D key i) (dd bk (cyc size (home key) i))) as [L|L].
        + rewrite D_inc by (unfold zlen in HV; lia). rewrite next_cyc. apply IH; [lia|lia|]. intros i' Hi'. destruct (Nat.eq_dec i' i) as [->|Hn]; [lia|apply HB; lia].
        + exists i. split; [reflexivity|]. split; [lia|]. split; [exact HB|exact L].
    Qed.
    Lemma probe_spec key e : e < size -> e <= length vals -> dd bk (cyc size (home key) e) = 0%Z ->
      forall n i fuel, i + n = e -> n < fuel -> (forall i', i' < i -> (D key i' <= dd bk (cyc size (home key) i'))%Z) ->
      (forall v j, nth_error vals v = Some key -> dd bk (cyc size (home key) j) = D key j -> ix bk (cyc size (home key) j) = Z.of_nat v -> i <= j) ->
      (probe_for fuel key (vals ++ [key]) (D key i) (Z.of_nat (cyc size (home key) i)) bk = Ok None /\ In key vals) \/
      (exists i0, probe_for fuel key (vals ++ [key]) (D key i) (Z.of_nat (cyc size (home key) i)) bk = Ok (Some (D key i0, Z.of_nat (cyc size (home key) i0))) /\ ~ In key vals /\ i0 < size /\
        (forall i', i' < i0 -> (D key i' <= dd bk (cyc size (home key) i'))%Z) /\ (dd bk (cyc size (home key) i0) <= D key i0)%Z).
    Proof.
      intros He Hel He0. induction n as [|n IH]; intros i fuel Hi Hf HB HN; destruct fuel as [|fuel]; try lia; cbn [probe_for]; rewrite at_ok by (rewrite (i_len _ _ I); apply (cyc_lt _ size_pos)); cbn [bind]; fold (dd bk (cyc size (home key) i)) (ix bk (cyc size (home key) i)).
      all: assert (STOP : (dd bk (cyc size (home key) i) < D key i)%Z -> ~ In key vals).
      1,3: intros L HI; apply In_nth_error in HI; destruct HI as (v & Ev); destruct (i_compl _ _ I v) as (p & Hp & Hd & Hx); [apply nth_error_Some; congruence|];
           destruct (i_cons _ _ I p Hp Hd) as (w & j & key' & A1 & A2 & A3 & A4 & A5); assert (w = v) as -> by lia; assert (key' = key) as -> by congruence; subst p;
           pose proof (HN v j Ev A5 A2) as HJ; pose proof (chain key j A5 i HJ); lia.
      - assert (i = e) as -> by lia. pose proof (D_ge key e). destruct (Z.leb_spec (D key e) (dd bk (cyc size (home key) e))); [lia|]. right. exists e. split; [reflexivity|]. split; [apply STOP; lia|]. split; [exact He|]. split; [exact HB|lia].
      - destruct (Z.leb_spec (D key i) (dd bk (cyc size (home key) i))) as [L|L].
        + assert (HB' : forall i', i' < S i -> (D key i' <= dd bk (cyc size (home key) i'))%Z) by (intros i' Hi'; destruct (Nat.eq_dec i' i) as [->|Hn]; [lia|apply HB; lia]).
          assert (GO : (forall v, nth_error vals v = Some key -> dd bk (cyc size (home key) i) = D key i -> ix bk (cyc size (home key) i) = Z.of_nat v -> False) -> (forall v j, nth_error vals v = Some key -> dd bk (cyc size (home key) j) = D key j -> ix bk (cyc size (home key) j) = Z.of_nat v -> S i <= j)).
          { intros X v j A1 A2 A3. pose proof (HN v j A1 A2 A3). destruct (Nat.eq_dec j i) as [->|Hn]; [exfalso; eapply X; eassumption|lia]. }
          destruct (Z.eqb_spec (D key i) (dd bk (cyc size (home key) i))) as [Q|Q].
          * pose proof (D_ge key i). destruct (i_cons _ _ I (cyc size (home key) i) (cyc_lt _ size_pos _ _) ltac:(lia)) as (w & j & key' & A1 & A2 & _). rewrite A2, Nat2Z.id, nth_error_app1 by (apply nth_error_Some; congruence). rewrite A1. cbn [bind].
            destruct (Z.eqb_spec key' key) as [->|Hne].
            -- left. split; [reflexivity|]. eapply nth_error_In; eassumption.
            -- rewrite D_inc by (unfold zlen in HV; lia). rewrite next_cyc. apply IH; [lia|lia|exact HB'|]. apply GO. intros v B1 B2 B3. assert (v = w) as -> by lia. congruence.
          * cbn [bind]. rewrite D_inc by (unfold zlen in HV; lia). rewrite next_cyc. apply IH; [lia|lia|exact HB'|]. apply GO. intros v B1 B2 B3. lia.
        + right. exists i. split; [reflexivity|]. split; [apply STOP; exact L|]. split; [lia|]. split; [exact HB|lia].
    Qed.
    Lemma nwl key fuel : size < fuel -> exists i0, next_while_less fuel (dist_and_fingerprint_from_hash (hash key)) (bucket_idx_from_hash (64 - k) (hash key)) bk = Ok (D key i0, Z.of_nat (cyc size (home key) i0)) /\ i0 < size /\
        (forall i', i' < i0 -> (D key i' <= dd bk (cyc size (home key) i'))%Z) /\ (dd bk (cyc size (home key) i0) <= D key i0)%Z.
    Proof.
      intros Hf. destruct (empty_after (home key)) as (e & A & B & C & _). destruct (home_eq key) as (H1 & H2). rewrite daf_eq, H1.
      pose proof (nwl_spec key e A B C e 0 fuel ltac:(lia) ltac:(lia) ltac:(intros i' Hi'; lia)) as P. rewrite cyc_0 in P by exact H2. exact P.
    Qed.
    Lemma probe key fuel : size < fuel ->
      (probe_for fuel key (vals ++ [key]) (dist_and_fingerprint_from_hash (hash key)) (bucket_idx_from_hash (64 - k) (hash key)) bk = Ok None /\ In key vals) \/
      (exists i0, probe_for fuel key (vals ++ [key]) (dist_and_fingerprint_from_hash (hash key)) (bucket_idx_from_hash (64 - k) (hash key)) bk = Ok (Some (D key i0, Z.of_nat (cyc size (home key) i0))) /\ ~ In key vals /\ i0 < size /\
        (forall i', i' < i0 -> (D key i' <= dd bk (cyc size (home key) i'))%Z) /\ (dd bk (cyc size (home key) i0) <= D key i0)%Z).
    Proof.
      intros Hf. destruct (empty_after (home key)) as (e & A & B & C & _). destruct (home_eq key) as (H1 & H2). rewrite daf_eq, H1.
      pose proof (probe_spec key e A B C e 0 fuel ltac:(lia) ltac:(lia) ltac:(intros i' Hi'; lia) ltac:(intros; lia)) as P. rewrite cyc_0 in P by exact H2. exact P.
    Qed.
  End Facts.

  Lemma fill_ok : forall vals' vals bk, inv vals bk -> (zlen (vals ++ vals') <= limit)%Z -> length (vals ++ vals') < size ->
    exists bk', fill hash (64 - k) vals' (zlen vals) bk = Ok bk' /\ inv (vals ++ vals') bk'.
  Proof.
    induction vals' as [|key vals' IH]; intros vals bk I HV HF; cbn [fill].
    - rewrite app_nil_r. exists bk. auto.
    - assert (HV1 : (zlen vals + 1 <= limit)%Z) by (rewrite zlen_app in HV; unfold zlen in *; cbn [length] in HV; lia). assert (HF1 : length vals < size) by (rewrite app_length in HF; lia).
      destruct (nwl vals bk I ltac:(lia) HF1 key (S (length bk)) ltac:(rewrite (i_len _ _ I); lia)) as (i0 & E & A & B & C). rewrite E. cbn [bind].
      destruct (insertion vals bk I ltac:(lia) HF1 key i0 (zlen vals) _ (S (length bk)) eq_refl eq_refl A ltac:(rewrite (i_len _ _ I); lia) B C) as (bk1 & E1 & I1). rewrite E1. cbn [bind].
      replace (u32 (zlen vals + 1)) with (zlen (vals ++ [key])) by (rewrite zlen_app; unfold zlen, u32, limit in *; cbn [length]; rewrite Z.mod_small; lia).
      replace (vals ++ key :: vals') with ((vals ++ [key]) ++ vals') in * by (rewrite <- app_assoc; reflexivity).
      apply IH; assumption.
  Qed.
End Invariant.
