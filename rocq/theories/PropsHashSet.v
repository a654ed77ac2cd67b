(** C79: the hash set behind the preprocessing answers as a set, for every hash function and every
    history of calls, and the points kept are those of the model with a list (RosViz.v). *)
From Verif Require Import Base BaseFacts Types Floats RosViz HashSet HashSetFacts HashSetTable.
Open Scope Z_scope.

(** ** The specification *)
Inductive call := Clear | Reserve (n : Z) | Insert (key : Z).
Definition has (key : Z) (s : list Z) : bool := existsb (Z.eqb key) s.
Definition add (key : Z) (s : list Z) : list Z := if has key s then s else key :: s.
(** what insert must answer: is the key new since the last clear?  [s] is what is in the set. *)
Fixpoint expected (s : list Z) (calls : list call) : list bool :=
  match calls with
  | [] => []
  | Clear :: r => expected [] r
  | Reserve _ :: r => expected s r
  | Insert key :: r => negb (has key s) :: expected (add key s) r
  end.
(** at most 16777214 (2^24 - 2) different keys at a time, and no reserve above 2^30 *)
Fixpoint fits (s : list Z) (calls : list call) : Prop :=
  match calls with
  | [] => True
  | Clear :: r => fits [] r
  | Reserve n :: r => 0 <= n <= 1073741824 /\ fits s r
  | Insert key :: r => zlen (add key s) <= 16777214 /\ fits (add key s) r
  end.
(** the calls made one after the other on the table *)
Fixpoint run (hash : Z -> Z) (calls : list call) (t : table) : res (list bool * table) :=
  match calls with
  | [] => Ok ([], t)
  | Clear :: r => run hash r (clear t)
  | Reserve n :: r => do t' <- reserve hash n t ; run hash r t'
  | Insert key :: r => do '(new, t') <- insert hash key t ; do '(a, t'') <- run hash r t' ; Ok (new :: a, t'')
  end.

Definition same (s vals : list Z) : Prop := zlen s = zlen vals /\ forall x, In x s <-> In x vals.
Lemma has_in x s : has x s = true <-> In x s.
Proof. unfold has. rewrite existsb_exists. split; [intros (y & A & B); apply Z.eqb_eq in B; now subst|]. intros A. exists x. split; [exact A|apply Z.eqb_refl]. Qed.
Lemma same_has s vals x : same s vals -> existsb (Z.eqb x) vals = has x s.
Proof. intros (_ & H). apply eq_true_iff_eq. change (existsb (Z.eqb x) vals) with (has x vals). rewrite !has_in. symmetry. apply H. Qed.
Lemma same_add s vals x : same s vals -> has x s = false -> same (x :: s) (vals ++ [x]).
Proof.
  intros (L & H) _. split; [rewrite zlen_app; unfold zlen in *; cbn [length]; lia|]. intros y. rewrite in_app_iff. cbn [In]. rewrite (H y). tauto.
Qed.

Section AnyHash.
  Variables (hash : Z -> Z).
  Hypothesis (Hh : forall x, 0 <= hash x < 2 ^ 64).
  Lemma step s key t : tinv hash t -> same s (t_values t) -> zlen (add key s) <= 16777214 ->
    exists t', insert hash key t = Ok (negb (has key s), t') /\ tinv hash t' /\ same (add key s) (t_values t').
  Proof.
    intros T S L. unfold add in *. destruct (has key s) eqn:E.
    - assert (R : In key (t_values t)) by (apply (proj2 S), has_in; exact E). destruct (insert_ok hash Hh key t T (or_introl R)) as (t' & T' & X). rewrite (same_has s _ key S), E in X. destruct X as (X & ->). exists t. auto.
    - destruct (insert_ok hash Hh key t T) as (t' & T' & X). { right. destruct S as (SL & _). unfold limit, zlen in *. cbn [length] in L. lia. }
      rewrite (same_has s _ key S), E in X. destruct X as (X & V). exists t'. split; [exact X|]. split; [exact T'|]. rewrite V. apply same_add; assumption.
  Qed.
  Lemma run_ok calls : forall s t, tinv hash t -> same s (t_values t) -> fits s calls -> exists t', run hash calls t = Ok (expected s calls, t') /\ tinv hash t'.
  Proof.
    induction calls as [|[|n|key] r IH]; intros s t T S F; cbn [run expected fits] in *.
    - exists t. auto.
    - destruct (clear_ok hash Hh t T) as (T' & V). apply IH; [exact T'|rewrite V; split; [reflexivity|tauto]|exact F].
    - destruct F as (Hn & F). destruct (reserve_ok hash Hh n t Hn T) as (t' & E & T' & V). rewrite E. cbn [bind]. apply IH; [exact T'|rewrite V; exact S|exact F].
    - destruct F as (L & F). destruct (step s key t T S L) as (t' & E & T' & S'). rewrite E. cbn [bind]. destruct (IH (add key s) t' T' S' F) as (t'' & E' & T''). rewrite E'. exists t''. auto.
  Qed.
  Lemma loop_ok ox oy oz res step_ data : forall n i s t out, tinv hash t -> same s (t_values t) -> viz_loop ox oy oz res step_ data n i s = Ok out -> zlen s + zlen out <= 16777214 ->
    exists t', viz_loop_set hash ox oy oz res step_ data n i t = Ok (out, t') /\ tinv hash t'.
  Proof.
    induction n as [|n IH]; intros i s t out T S E L; cbn [viz_loop viz_loop_set] in *.
    - exists t. split; [congruence|exact T].
    - destruct (rd (i * step_ + ox) 4 data) as [bx| |]; cbn [bind] in *; try discriminate. destruct (rd (i * step_ + oy) 4 data) as [by_| |]; cbn [bind] in *; try discriminate. destruct (rd (i * step_ + oz) 4 data) as [bz| |]; cbn [bind] in *; try discriminate.
      destruct (negb (isfinite32 (le_val bx)) || negb (isfinite32 (le_val by_)) || negb (isfinite32 (le_val bz))); [now apply (IH _ s)|].
      set (key := packVoxelKey21 _ _ _) in *. fold (has key s) in E. assert (LA : zlen (add key s) <= 16777214).
      { unfold add. destruct (has key s); [pose proof (zlen_nonneg out); lia|]. destruct (rd (i * step_) (Z.to_nat step_) data) as [p| |]; cbn [bind] in E; try discriminate. destruct (viz_loop _ _ _ _ _ _ _ _ _) as [rest| |]; cbn [bind] in E; try discriminate.
        assert (out = p :: rest) as -> by congruence. unfold zlen in *. cbn [length] in *. lia. }
      destruct (step s key t T S LA) as (t' & E1 & T' & S'). rewrite E1. cbn [bind]. unfold add in *. destruct (has key s) eqn:HS; cbn [negb].
      + now apply (IH _ s).
      + destruct (rd (i * step_) (Z.to_nat step_) data) as [p| |]; cbn [bind] in *; try discriminate. destruct (viz_loop ox oy oz res step_ data n (i + 1) (key :: s)) as [rest| |] eqn:R; cbn [bind] in E; try discriminate.
        assert (out = p :: rest) as -> by congruence. destruct (IH _ _ t' rest T' S' R) as (t'' & E2 & T''); [unfold zlen in *; cbn [length] in *; lia|]. rewrite E2. cbn [bind]. exists t''. auto.
  Qed.
End AnyHash.

(** The set never crashes, never throws, never loops, and each insert says exactly whether the key is new:
    from a new set, for every hash function and every history. *)
Theorem C79_hash_set (hash : Z -> Z) (calls : list call) :
  (forall x, 0 <= hash x < 2 ^ 64) -> fits [] calls -> exists t, run hash calls new_table = Ok (expected [] calls, t).
Proof.
  intros Hh F. destruct (run_ok hash Hh calls [] new_table (new_ok hash Hh)) as (t & E & _); [split; [reflexivity|tauto]|exact F|]. exists t. exact E.
Qed.
Print Assumptions C79_hash_set.

(** The hash of the code is one of these functions. *)
Theorem C79_wyhash (calls : list call) : fits [] calls -> exists t, run wyhash calls new_table = Ok (expected [] calls, t).
Proof. apply C79_hash_set. exact wyhash_range. Qed.
Print Assumptions C79_wyhash.

(** ** The preprocessing: its set lives as long as the thread, so a call starts from what the earlier calls left *)
Record pass := mkPass { p_x : Z; p_y : Z; p_z : Z; p_res : Z; p_step : Z; p_data : list Z; p_n : nat }.
Definition kept_by_list (c : pass) : res (list (list Z)) := viz_loop (p_x c) (p_y c) (p_z c) (p_res c) (p_step c) (p_data c) (p_n c) 0 [].
Fixpoint kept_by_set (passes : list pass) (t : table) : res (list (list (list Z))) :=
  match passes with
  | [] => Ok []
  | c :: r => do '(out, t') <- thinned wyhash (p_x c) (p_y c) (p_z c) (p_res c) (p_step c) (p_data c) (p_n c) t ; do outs <- kept_by_set r t' ; Ok (out :: outs)
  end.
Theorem C79_thinning (passes : list pass) (outs : list (list (list Z))) :
  Forall2 (fun c out => kept_by_list c = Ok out /\ Z.of_nat (p_n c) <= 2 ^ 30 /\ zlen out <= 16777214) passes outs ->
  kept_by_set passes new_table = Ok outs.
Proof.
  generalize new_table (new_ok wyhash wyhash_range). intros t T F. revert t T. induction F as [|c out passes outs (E & Hn & Ho) F IH]; intros t T; cbn [kept_by_set]; [reflexivity|].
  unfold thinned. destruct (clear_ok wyhash wyhash_range t T) as (T1 & V1). destruct (reserve_ok wyhash wyhash_range (Z.of_nat (p_n c)) (clear t) ltac:(change (2 ^ 30) with 1073741824 in Hn; lia) T1) as (t2 & E2 & T2 & V2). rewrite E2. cbn [bind].
  destruct (loop_ok wyhash wyhash_range (p_x c) (p_y c) (p_z c) (p_res c) (p_step c) (p_data c) (p_n c) 0 [] t2 out T2) as (t3 & E3 & T3); [rewrite V2, V1; split; [reflexivity|tauto]|exact E|exact Ho|]. rewrite E3. cbn [bind]. rewrite (IH t3 T3). reflexivity.
Qed.
Print Assumptions C79_thinning.

(** Nine keys into a new set of four buckets: it grows twice; then it is cleared. *)
Definition some_calls : list call := map Insert [5; 6; 7; 5; 8; 9; 10; 11; 12; 6; 13] ++ [Reserve 40; Insert 13; Insert 14; Clear; Insert 13; Insert 13].
Example C79_case : fits [] some_calls /\ expected [] some_calls = [true; true; true; false; true; true; true; true; true; false; true; false; true; true; false] /\
  exists t, run wyhash some_calls new_table = Ok (expected [] some_calls, t) /\ zlen (t_buckets t) = 64 /\ t_values t = [13].
Proof. split; [cbn; unfold zlen; cbn; lia|]. split; [reflexivity|]. eexists. split; [vm_compute; reflexivity|]. split; reflexivity. Qed.
(** every key in one bucket, all fingerprints equal *)
Example C79_case_collisions : exists t, run (fun _ => 7) some_calls new_table = Ok (expected [] some_calls, t).
Proof. eexists. vm_compute. reflexivity. Qed.
(** one point twice and another: two calls on one thread, with 1 m of resolution *)
Definition one_pass : pass := mkPass 0 4 8 1065353216 12 (concat (map (le_bytes 4) [1065353216; 0; 0; 1065353216; 0; 0; 1073741824; 0; 0])) 3.
Example C79_case_thinning : exists out, zlen out = 2 /\ Forall2 (fun c out => kept_by_list c = Ok out /\ Z.of_nat (p_n c) <= 2 ^ 30 /\ zlen out <= 16777214) [one_pass; one_pass] [out; out].
Proof. eexists. split; [|repeat constructor]. all: try (vm_compute; reflexivity). all: vm_compute; discriminate. Qed.
