(** The hash set of the preprocessing: ankerl::unordered_dense::set<uint64_t>.
    Models include/cloudini_lib/contrib/ankerl/unordered_dense.h ("UD"), the members that
    src/ros_msg_utils.cpp:296-322 uses (construction, clear, reserve, insert), and that use.
    A bucket is (m_dist_and_fingerprint, m_value_idx); containers are lists; an access outside of
    a container is [UB], and so is a loop that does not end (the loops take as fuel one more than
    the number of buckets).
    Simplifications: the iterator in the result of insert is left out; allocation succeeds. *)
From Verif Require Import Base Types Floats Cdr Ros RosViz.

(** UD 429-435 *)
Definition bucket := (Z * Z)%type.
(** UD 942-949 *)
Record table := mkTab { t_values : list Z; t_buckets : list bucket; t_capacity : Z; t_shifts : Z }.

(** UD 966-968 *)
Definition bucket_at (bk : list bucket) (i : Z) : res bucket :=
  if 0 <=? i then match nth_error bk (Z.to_nat i) with Some b => Ok b | None => UB end else UB.
Definition set_bucket (bk : list bucket) (i : Z) (b : bucket) : res (list bucket) :=
  if (0 <=? i) && (i <? zlen bk) then Ok (firstn (Z.to_nat i) bk ++ b :: skipn (S (Z.to_nat i)) bk) else UB.
(** UD 951-958; uint32_t arithmetic *)
Definition next (bk : list bucket) (i : Z) : Z := if u32 (i + 1) =? zlen bk then 0 else u32 (i + 1).
(** UD 970-972 *)
Definition dist_inc (x : Z) : Z := u32 (x + 256).
(** UD 996-1002 *)
Definition dist_and_fingerprint_from_hash (hash : Z) : Z := Z.lor 256 (Z.land (u32 hash) 255).
Definition bucket_idx_from_hash (shifts hash : Z) : Z := u32 (Z.shiftr hash shifts).

(** UD 1025-1032 *)
Fixpoint place_and_shift_up (fuel : nat) (b : bucket) (place : Z) (bk : list bucket) : res (list bucket) :=
  match fuel with
  | O => UB
  | S k =>
      do old <- bucket_at bk place ;
      if 0 =? fst old then set_bucket bk place b
      else do bk' <- set_bucket bk place b ; place_and_shift_up k (dist_inc (fst old), snd old) (next bk place) bk'
  end.
(** UD 1012-1023, the loop *)
Fixpoint next_while_less (fuel : nat) (daf idx : Z) (bk : list bucket) : res (Z * Z) :=
  match fuel with
  | O => UB
  | S k =>
      do b <- bucket_at bk idx ;
      if daf <? fst b then next_while_less k (dist_inc daf) (next bk idx) bk else Ok (daf, idx)
  end.

(** UD 1485-1489: 2^32 for an uint32_t index *)
Definition max_size : Z := 4294967296.
(** UD 1045-1047 *)
Definition calc_num_buckets (shifts : Z) : Z := Z.min max_size (2 ^ (64 - shifts)).
(** static_cast<float>(num) * 0.8F as an integer; num is a power of two, so the product is exact:
    0.8F is 13421773 / 2^24 *)
Definition max_load (num : Z) : Z := num * 13421773 / 16777216.
Definition initial_shifts : Z := 62.
(** UD 1049-1055, the loop; [fuel] is the number of values shifts can take *)
Fixpoint calc_shifts (fuel : nat) (shifts s : Z) : res Z :=
  match fuel with
  | O => UB                                            (* 64 bits: std::size_t{1} << 64 *)
  | S k => if (0 <? shifts) && (max_load (calc_num_buckets shifts) <? s) then calc_shifts k (shifts - 1) s else Ok shifts
  end.
Definition calc_shifts_for_size (s : Z) : res Z := calc_shifts 62 initial_shifts s.
(** UD 1090-1108 allocate_buckets_from_shift, after deallocate_buckets or on a new table: the buckets
    are value-initialised *)
Definition fresh_buckets (shifts : Z) : list bucket := repeat (0, 0) (Z.to_nat (calc_num_buckets shifts)).
Definition fresh_capacity (shifts : Z) : Z :=
  if calc_num_buckets shifts =? max_size then max_size else u32 (max_load (calc_num_buckets shifts)).

Section Table.
  Variable (hash : Z -> Z).                            (* mixed_hash, UD 979-994 *)
  (** UD 1120-1130: the buckets of the values from index [v] on *)
  Fixpoint fill (shifts : Z) (vals : list Z) (v : Z) (bk : list bucket) : res (list bucket) :=
    match vals with
    | [] => Ok bk
    | key :: vals' =>
        do '(daf, idx) <- next_while_less (S (length bk)) (dist_and_fingerprint_from_hash (hash key)) (bucket_idx_from_hash shifts (hash key)) bk ;
        do bk' <- place_and_shift_up (S (length bk)) (daf, v) idx bk ;
        fill shifts vals' (u32 (v + 1)) bk'
    end.
  (** allocate and UD 1120-1130 clear_and_fill_buckets_from_values *)
  Definition rebuild (shifts : Z) (vals : list Z) : res table :=
    do bk <- fill shifts vals 0 (fresh_buckets shifts) ;
    Ok (mkTab vals bk (fresh_capacity shifts) shifts).
  (** UD 1132-1144; [vals] includes the new value; std::overflow_error at the maximal size *)
  Definition increase_size (t : table) (vals : list Z) : res table :=
    if t_capacity t =? max_size then Throw else rebuild (t_shifts t - 1) vals.
  (** UD 1304-1318, with no initial size *)
  Definition new_table : table := mkTab [] (fresh_buckets initial_shifts) (fresh_capacity initial_shifts) initial_shifts.
  (** UD 1492-1495 *)
  Definition clear (t : table) : table := mkTab [] (map (fun _ => (0, 0)) (t_buckets t)) (t_capacity t) (t_shifts t).
  (** UD 2040-2053 *)
  Definition reserve (capa : Z) (t : table) : res table :=
    let capa := Z.min capa max_size in
    do shifts <- calc_shifts_for_size (Z.max capa (zlen (t_values t))) ;
    if (0 =? zlen (t_buckets t)) || (shifts <? t_shifts t) then rebuild shifts (t_values t) else Ok t.
  (** UD 1662-1691, the loop: [None] if the key is there, else where it goes.  [vals] ends with the key. *)
  Fixpoint probe_for (fuel : nat) (key : Z) (vals : list Z) (daf idx : Z) (bk : list bucket) : res (option (Z * Z)) :=
    match fuel with
    | O => UB
    | S k =>
        do b <- bucket_at bk idx ;
        if daf <=? fst b then
          do same <- (if daf =? fst b then match nth_error vals (Z.to_nat (snd b)) with Some x => Ok (x =? key) | None => UB end else Ok false) ;
          if same : bool then Ok None else probe_for k key vals (dist_inc daf) (next bk idx) bk
        else Ok (Some (daf, idx))
    end.
  (** UD 1497-1499, 1662-1691 insert; the second member of the result *)
  Definition insert (key : Z) (t : table) : res (bool * table) :=
    let vals := t_values t ++ [key] in
    do r <- probe_for (S (length (t_buckets t))) key vals (dist_and_fingerprint_from_hash (hash key)) (bucket_idx_from_hash (t_shifts t) (hash key)) (t_buckets t) ;
    match r with
    | None => Ok (false, t)                            (* the value is popped again *)
    | Some (daf, idx) =>
        if t_capacity t <? zlen vals then              (* is_full *)
          do t' <- increase_size t vals ; Ok (true, t')
        else
          do bk <- place_and_shift_up (S (length (t_buckets t))) (daf, u32 (zlen vals - 1)) idx (t_buckets t) ;
          Ok (true, mkTab vals bk (t_capacity t) (t_shifts t))
    end.

  (** src/ros_msg_utils.cpp:303-324 with the set, as [RosViz.viz_loop] with its list *)
  Fixpoint viz_loop_set (ox oy oz res step : Z) (data : list Z) (n : nat) (i : Z) (seen : table) : Base.res (list (list Z) * table) :=
    match n with
    | O => Ok ([], seen)
    | S k =>
        do bx <- rd (i * step + ox) 4 data ;
        do by_ <- rd (i * step + oy) 4 data ;
        do bz <- rd (i * step + oz) 4 data ;
        let x := le_val bx in let y := le_val by_ in let z := le_val bz in
        if negb (isfinite32 x) || negb (isfinite32 y) || negb (isfinite32 z) then viz_loop_set ox oy oz res step data k (i + 1) seen
        else
          do '(new, seen') <- insert (packVoxelKey21 (ticks res x) (ticks res y) (ticks res z)) seen ;
          if negb new then viz_loop_set ox oy oz res step data k (i + 1) seen'
          else
            do p <- rd (i * step) (Z.to_nat step) data ;
            do '(rest, seen'') <- viz_loop_set ox oy oz res step data k (i + 1) seen' ;
            Ok (p :: rest, seen'')
    end.
  (** src/ros_msg_utils.cpp:296-324: [seen] is thread_local, [t] is what earlier calls left in it *)
  Definition thinned (ox oy oz res step : Z) (data : list Z) (n : nat) (t : table) : Base.res (list (list Z) * table) :=
    do t' <- reserve (Z.of_nat n) (clear t) ;
    viz_loop_set ox oy oz res step data n 0 t'.
End Table.

(** UD 384-396 with wyhash::hash and mum, UD 158-164, 188-191, 266-268: the 128-bit product with a constant,
    folded.  hash<uint64_t> is avalanching, so mixed_hash adds nothing. *)
Definition wyhash (x : Z) : Z :=
  let r := x * 11400714819323198485 in Z.lxor (u64 r) (u64 (Z.shiftr r 64)).
