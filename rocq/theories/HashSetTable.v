(** Facts about the hash set: what each call does to the whole table. *)
From Verif Require Import Base BaseFacts Types Floats RosViz HashSet HashSetFacts.
Open Scope Z_scope.

Section Table.
  Variables (hash : Z -> Z).
  Hypothesis (Hh : forall x, 0 <= hash x < 18446744073709551616).
  Definition tinv (t : table) : Prop :=
    exists k, 2 <= k <= 31 /\ t_shifts t = 64 - k /\ t_capacity t = max_load (2 ^ k) /\ inv hash k (t_values t) (t_buckets t) /\ zlen (t_values t) <= max_load (2 ^ k) /\ zlen (t_values t) <= limit.

  Lemma load_lt k : 2 <= k <= 31 -> 3 <= max_load (2 ^ k) < 2 ^ k.
  Proof.
    intros H. pose proof (pow_range k H) as P. unfold max_load. split; [apply Z.div_le_lower_bound; lia|apply Z.div_lt_upper_bound; lia].
  Qed.
  Lemma load_fits k (vals : list Z) : 2 <= k <= 31 -> zlen vals <= max_load (2 ^ k) -> (length vals < size k)%nat.
  Proof. intros H L. pose proof (load_lt k H). pose proof (size_Z k H). unfold zlen in L. lia. Qed.
  Lemma num_buckets k : 2 <= k <= 31 -> calc_num_buckets (64 - k) = 2 ^ k.
  Proof. intros H. pose proof (pow_range k H). unfold calc_num_buckets, max_size. replace (64 - (64 - k)) with k by lia. lia. Qed.
  Lemma fresh_cap k : 2 <= k <= 31 -> fresh_capacity (64 - k) = max_load (2 ^ k).
  Proof.
    intros H. pose proof (pow_range k H). pose proof (load_lt k H). unfold fresh_capacity. rewrite num_buckets by exact H. unfold max_size. destruct (Z.eqb_spec (2 ^ k) 4294967296); [lia|]. unfold u32. apply Z.mod_small. lia.
  Qed.
  Lemma fresh_inv k : 2 <= k <= 31 -> inv hash k [] (fresh_buckets (64 - k)).
  Proof.
    intros H. unfold fresh_buckets. rewrite num_buckets by exact H. fold (size k). apply inv_fresh; [exact Hh|apply repeat_length|]. intros p. unfold dd, nb.
    assert (E : forall n p, nth p (repeat (0, 0) n) (0, 0) = (0, 0)) by (induction n as [|n IH]; intros [|q]; cbn [repeat nth]; auto). now rewrite E.
  Qed.
  Lemma rebuild_ok k vals : 2 <= k <= 31 -> zlen vals <= max_load (2 ^ k) -> zlen vals <= limit ->
    exists t, rebuild hash (64 - k) vals = Ok t /\ t_values t = vals /\ tinv t.
  Proof.
    intros H L1 L2. unfold rebuild. destruct (fill_ok hash k Hh H vals [] (fresh_buckets (64 - k)) (fresh_inv k H) L2 (load_fits k vals H L1)) as (bk & E & I).
    change (zlen []) with 0 in E. rewrite E. cbn [bind]. eexists. split; [reflexivity|]. split; [reflexivity|]. exists k. cbn [t_shifts t_capacity t_values t_buckets]. rewrite fresh_cap by exact H. auto 8.
  Qed.
  Lemma new_ok : tinv new_table.
  Proof. exists 2. unfold new_table. change initial_shifts with (64 - 2). cbn [t_shifts t_capacity t_values t_buckets]. rewrite fresh_cap by lia. pose proof (load_lt 2 ltac:(lia)). change (zlen []) with 0. split; [lia|]. split; [reflexivity|]. split; [reflexivity|]. split; [apply fresh_inv; lia|]. unfold limit. lia. Qed.
  Lemma clear_ok t : tinv t -> tinv (clear t) /\ t_values (clear t) = [].
  Proof.
    intros (k & H & A & B & I & C & D). split; [|reflexivity]. exists k. unfold clear. cbn [t_shifts t_capacity t_values t_buckets]. pose proof (load_lt k H). change (zlen []) with 0. repeat (split; [assumption|]).
    split; [|unfold limit; lia]. apply inv_fresh; [exact Hh|rewrite map_length; apply (i_len _ _ _ _ I)|]. intros p. unfold dd, nb. change (0, 0) with ((fun _ : bucket => (0, 0)) (0, 0)) at 2. rewrite map_nth. reflexivity.
  Qed.
  Lemma shifts_ok s : s <= 1073741824 -> forall fuel k, 2 <= k <= 31 -> (Z.to_nat (31 - k) < fuel)%nat ->
    exists k', calc_shifts fuel (64 - k) s = Ok (64 - k') /\ 2 <= k' <= 31 /\ s <= max_load (2 ^ k').
  Proof.
    intros Hs. induction fuel as [|fuel IH]; intros k H Hf; [lia|]. cbn [calc_shifts]. rewrite num_buckets by exact H. destruct (Z.ltb_spec 0 (64 - k)); [|lia]. cbn [andb].
    destruct (Z.ltb_spec (max_load (2 ^ k)) s) as [L|L].
    - assert (k <> 31) by (intros ->; change (max_load (2 ^ 31)) with 1717986944 in L; lia). replace (64 - k - 1) with (64 - (k + 1)) by lia. apply IH; lia.
    - exists k. auto.
  Qed.
  Lemma reserve_ok n t : 0 <= n <= 1073741824 -> tinv t -> exists t', reserve hash n t = Ok t' /\ tinv t' /\ t_values t' = t_values t.
  Proof.
    intros Hn T. pose proof T as (k & H & A & B & I & C & E). unfold reserve, calc_shifts_for_size. change initial_shifts with (64 - 2).
    destruct (shifts_ok (Z.max (Z.min n max_size) (zlen (t_values t))) ltac:(unfold max_size, limit in *; lia) 62 2 ltac:(lia) ltac:(lia)) as (k' & E1 & H' & L'). rewrite E1. cbn [bind].
    destruct ((0 =? zlen (t_buckets t)) || (64 - k' <? t_shifts t)).
    - destruct (rebuild_ok k' (t_values t) H' ltac:(lia) E) as (t' & R1 & R2 & R3). exists t'. auto.
    - exists t. auto.
  Qed.
  Lemma insert_ok key t : tinv t -> In key (t_values t) \/ zlen (t_values t) < limit ->
    exists t', tinv t' /\ if existsb (Z.eqb key) (t_values t) then insert hash key t = Ok (false, t') /\ t' = t else insert hash key t = Ok (true, t') /\ t_values t' = t_values t ++ [key].
  Proof.
    intros T HR. pose proof T as (k & H & A & B & I & C & E). unfold insert. rewrite A. pose proof (load_fits k _ H C) as HF.
    assert (EX : existsb (Z.eqb key) (t_values t) = true <-> In key (t_values t)).
    { rewrite existsb_exists. split; [intros (x & X & Y); apply Z.eqb_eq in Y; now subst|]. intros X. exists key. split; [exact X|apply Z.eqb_refl]. }
    destruct (probe hash k Hh H (t_values t) (t_buckets t) I E HF key (S (length (t_buckets t)))) as [(P & IN)|(i0 & P & NI & Hi0 & PB & PA)].
    - rewrite (i_len _ _ _ _ I). lia.
    - rewrite P. cbn [bind]. exists t. split; [exact T|]. rewrite (proj2 EX IN). auto.
    - rewrite P. cbn [bind]. destruct HR as [HR|HR]; [contradiction|]. assert (existsb (Z.eqb key) (t_values t) = false) as -> by (destruct (existsb (Z.eqb key) (t_values t)); [exfalso; apply NI, EX; reflexivity|reflexivity]).
      assert (ZL : zlen (t_values t ++ [key]) = zlen (t_values t) + 1) by (rewrite zlen_app; reflexivity). rewrite B, ZL. destruct (Z.ltb_spec (max_load (2 ^ k)) (zlen (t_values t) + 1)) as [L|L].
      + unfold increase_size. rewrite B, A. pose proof (load_lt k H) as LD. pose proof (pow_range k H) as PR. destruct (Z.eqb_spec (max_load (2 ^ k)) max_size) as [Q|Q]; [unfold max_size in Q; lia|].
        assert (k <> 31) by (intros ->; change (max_load (2 ^ 31)) with 1717986944 in L; unfold limit in *; lia). replace (64 - k - 1) with (64 - (k + 1)) by lia.
        assert (GR : max_load (2 ^ k) + 1 <= max_load (2 ^ (k + 1))).
        { rewrite Z.pow_add_r by lia. change (2 ^ 1) with 2. unfold max_load in *. assert (2 * (2 ^ k * 13421773 / 16777216) <= 2 ^ k * 2 * 13421773 / 16777216); [|lia]. apply Z.div_le_lower_bound; [lia|]. pose proof (Z.mul_div_le (2 ^ k * 13421773) 16777216 ltac:(lia)). lia. }
        destruct (rebuild_ok (k + 1) (t_values t ++ [key]) ltac:(lia) ltac:(lia) ltac:(lia)) as (t' & R1 & R2 & R3). rewrite R1. cbn [bind]. exists t'. auto.
      + destruct (insertion hash k Hh H (t_values t) (t_buckets t) I E HF key i0 (u32 (zlen (t_values t) + 1 - 1)) (D hash key i0, u32 (zlen (t_values t) + 1 - 1)) (S (length (t_buckets t)))) as (bk & E1 & I1); try assumption; try reflexivity.
        * unfold u32, zlen, limit in *. rewrite Z.mod_small; lia.
        * rewrite (i_len _ _ _ _ I). lia.
        * rewrite E1. cbn [bind]. eexists. split; [|split; [reflexivity|reflexivity]]. exists k. cbn [t_shifts t_capacity t_values t_buckets]. rewrite ZL. split; [exact H|]. split; [reflexivity|]. split; [reflexivity|]. split; [exact I1|]. lia.
  Qed.
End Table.

Lemma wyhash_range x : 0 <= wyhash x < 18446744073709551616.
Proof.
  unfold wyhash. set (r := x * 11400714819323198485). cbv zeta.
  assert (U : forall a, 0 <= u64 a < 2 ^ 64) by (intros a; unfold u64; apply Z.mod_pos_bound; lia).
  change 18446744073709551616 with (2 ^ 64). generalize (U r) (U (Z.shiftr r 64)). generalize (u64 r) (u64 (Z.shiftr r 64)). intros a b HA HB.
  split; [apply Z.lxor_nonneg; lia|]. destruct (Z.eq_dec (Z.lxor a b) 0) as [->|NZ]; [lia|].
  assert (0 <= Z.lxor a b) by (apply Z.lxor_nonneg; lia).
  apply Z.log2_lt_pow2; [lia|]. eapply Z.le_lt_trans; [apply Z.log2_lxor; lia|]. apply Z.max_lub_lt.
  - destruct (Z.eq_dec a 0) as [->|]; [cbn; lia|]. apply Z.log2_lt_pow2; lia.
  - destruct (Z.eq_dec b 0) as [->|]; [cbn; lia|]. apply Z.log2_lt_pow2; lia.
Qed.
