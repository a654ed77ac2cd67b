(** RosPointCloud2 objects and their memory.  Models include/cloudini_lib/ros_msg_utils.hpp:56-153
    ("RMH") and the rebinding at src/ros_msg_utils.cpp:325-328 ("RM").

    Memory is a map from block names to bytes.  A pointer is a block and an offset.  std::vector is
    the usual block / size / capacity triple; copy assignment reuses the block when its capacity is
    enough, otherwise allocates before freeing (libstdc++).  Every operation carries the block an
    allocation inside it would get: any block not allocated at that moment, so block names are
    reused in any way.  bad_alloc is not modelled. *)
From Verif Require Import Base Types Cdr Ros RosViz.

Definition heap : Type := Z -> option (list Z).
Definition hupd (h : heap) (b : Z) (v : option (list Z)) : heap := fun x => if x =? b then v else h x.

(** std::vector<uint8_t>; without capacity it has no block. *)
Record vec := mkVec { v_blk : Z; v_size : nat; v_cap : nat }.
Definition vnull : vec := mkVec 0 0 0.
(** ConstBufferView: pointer (block, offset) and size *)
Record view := mkView { w_blk : Z; w_off : nat; w_size : nat }.
(** The members of RosPointCloud2 (RMH 133-149): [o_data] and [o_owned] are the two that involve
    memory; the values of all the others are in [o_meta], whose own bytes are not used. *)
Record obj := mkObj { o_meta : ros_cloud; o_data : view; o_owned : vec }.
Record world := mkWorld { w_heap : heap; w_objs : Z -> option obj }.
Definition oupd (m : Z -> option obj) (x : Z) (v : option obj) : Z -> option obj := fun y => if y =? x then v else m y.

Definition with_data (c : ros_cloud) (l : list Z) : ros_cloud :=
  mkRos (r_cdr c) (r_sec c) (r_nsec c) (r_frame c) (r_height c) (r_width c) (r_fields c) (r_step c) (r_row c) l (r_dense c).
(** RMH 133-149: the default member values *)
Definition cloud0 : ros_cloud := mkRos (mkCdr LITTLE PLAIN_CDR DDS_CDR) 0 0 [] 1 0 [] 0 0 [] 1.

(** Reading the bytes a view designates *)
Definition read_view (h : heap) (w : view) : res (list Z) :=
  if (w_size w =? 0)%nat then Ok []
  else match h (w_blk w) with
       | Some l => if (w_off w + w_size w <=? length l)%nat then Ok (firstn (w_size w) (skipn (w_off w) l)) else UB
       | None => UB
       end.
(** The cloud an object denotes: its members, and the bytes behind its view *)
Definition denotes (h : heap) (o : obj) : res ros_cloud := do l <- read_view h (o_data o) ; Ok (with_data (o_meta o) l).

(** *** std::vector *)
Definition vec_bytes (h : heap) (v : vec) : res (list Z) := read_view h (mkView (v_blk v) 0 (v_size v)).
Definition vec_free (h : heap) (v : vec) : heap := if (v_cap v =? 0)%nat then h else hupd h (v_blk v) None.
(** a new block of [l] followed by [pad] spare bytes; [a] must not be in use *)
Definition vec_new (h : heap) (a : Z) (l : list Z) (pad : nat) : res (heap * vec) :=
  if (length l + pad =? 0)%nat then Ok (h, vnull)
  else match h a with
       | None => Ok (hupd h a (Some (l ++ repeat 0 pad)), mkVec a (length l) (length l + pad))
       | Some _ => Throw
       end.
(** dst = src (copy assignment) with [l] the bytes of src *)
Definition vec_assign (h : heap) (a : Z) (dst : vec) (l : list Z) : res (heap * vec) :=
  if (length l <=? v_cap dst)%nat then
    if (length l =? 0)%nat then Ok (h, mkVec (v_blk dst) 0 (v_cap dst))
    else match h (v_blk dst) with
         | Some old => if (length l <=? length old)%nat then Ok (hupd h (v_blk dst) (Some (l ++ skipn (length l) old)), mkVec (v_blk dst) (length l) (v_cap dst)) else UB
         | None => UB
         end
  else do '(h, v) <- vec_new h a l 0 ; Ok (vec_free h dst, v).

(** *** RosPointCloud2 *)
(** RMH 152-154 dataViewsOwnedData *)
Definition views_owned (o : obj) : bool :=
  negb (v_size (o_owned o) =? 0)%nat &&
  ((w_blk (o_data o) =? v_blk (o_owned o)) && (w_off (o_data o) =? 0)%nat) && (w_size (o_data o) =? v_size (o_owned o))%nat.
Definition whole (v : vec) : view := mkView (v_blk v) 0 (v_size v).
(** RMH 156-160 rebindOwnedDataView, and the same test in the moves (RMH 88, 122) *)
Definition rebind (source : obj) (v : vec) : view := if views_owned source then whole v else o_data source.

(** RMH 58-72: the copy constructor *)
Definition copy_new (h : heap) (a : Z) (s : obj) : res (heap * obj) :=
  do l <- vec_bytes h (o_owned s) ;
  do '(h, v) <- vec_new h a l 0 ;
  Ok (h, mkObj (o_meta s) (rebind s v) v).
(** What is left of a moved-from object: strings and vectors are emptied (RMH 76-86), [data] is not *)
Definition hollow (s : obj) : obj :=
  mkObj (mkRos (r_cdr (o_meta s)) (r_sec (o_meta s)) (r_nsec (o_meta s)) [] (r_height (o_meta s)) (r_width (o_meta s)) [] (r_step (o_meta s)) (r_row (o_meta s)) [] (r_dense (o_meta s)))
        (o_data s) vnull.
(** RMH 74-91: the move constructor: the new object, and what is left of the source *)
Definition move_new (s : obj) : obj * obj := (mkObj (o_meta s) (rebind s (o_owned s)) (o_owned s), hollow s).
(** RMH 93-110: copy assignment of different objects *)
Definition copy_assign (h : heap) (a : Z) (d s : obj) : res (heap * obj) :=
  do l <- vec_bytes h (o_owned s) ;
  do '(h, v) <- vec_assign h a (o_owned d) l ;
  Ok (h, mkObj (o_meta s) (rebind s v) v).
(** RMH 112-131: move assignment of different objects; the old block of the destination is freed *)
Definition move_assign (h : heap) (d s : obj) : heap * obj * obj :=
  (vec_free h (o_owned d), mkObj (o_meta s) (rebind s (o_owned s)) (o_owned s), hollow s).

(** *** What a program does with such objects *)
Inductive op :=
| Default (d : Z)                               (* RosPointCloud2 d; *)
| Parsed (d : Z) (c : ros_cloud) (w : view)     (* d = the result of reading a message: members [c], data = w, a view into the message (RM 54-97) *)
| SetView (d : Z) (w : view)                    (* d.data = w, a view of a buffer of the caller *)
| CopyNew (d s : Z)                             (* RosPointCloud2 d(s); *)
| MoveNew (d s : Z)                             (* RosPointCloud2 d(std::move(s)); *)
| Assign (d s : Z)                              (* d = s; *)
| MoveAssign (d s : Z)                          (* d = std::move(s); *)
| Viz (d : Z)                                   (* applyVizLossyPreprocessing(d); *)
| Poke (d : Z) (i : nat) (b : Z)                (* d.owned_data[i] = b; *)
| Destroy (d : Z).

Definition live (w : world) (x : Z) : res obj := match w_objs w x with Some o => Ok o | None => Throw end.
Definition free_name (w : world) (x : Z) : res unit := match w_objs w x with Some _ => Throw | None => Ok tt end.
(** [Throw] marks steps that are no program (unknown object, allocator answering with a block in
    use); [UB] an access outside of allocated memory. *)
Definition step (w : world) (o : op) (a : Z) : res world :=
  let h := w_heap w in let m := w_objs w in
  match o with
  | Default d => do u <- free_name w d ; Ok (mkWorld h (oupd m d (Some (mkObj cloud0 (mkView 0 0 0) vnull))))
  | Parsed d c v => do u <- free_name w d ; Ok (mkWorld h (oupd m d (Some (mkObj (with_data c []) v vnull))))
  | SetView d v => do x <- live w d ; Ok (mkWorld h (oupd m d (Some (mkObj (o_meta x) v (o_owned x)))))
  | CopyNew d s => do u <- free_name w d ; do y <- live w s ; do '(h, x) <- copy_new h a y ; Ok (mkWorld h (oupd m d (Some x)))
  | MoveNew d s => do u <- free_name w d ; do y <- live w s ; let '(x, y) := move_new y in Ok (mkWorld h (oupd (oupd m s (Some y)) d (Some x)))
  | Assign d s => do x <- live w d ; do y <- live w s ; if d =? s then Ok w else do '(h, x) <- copy_assign h a x y ; Ok (mkWorld h (oupd m d (Some x)))
  | MoveAssign d s =>
      do x <- live w d ; do y <- live w s ; if d =? s then Ok w else let '(h, x, y) := move_assign h x y in Ok (mkWorld h (oupd (oupd m s (Some y)) d (Some x)))
  | Viz d =>
      do x <- live w d ; do c <- denotes h x ; do r <- viz_rewrite c ;
      match r with
      | None => Ok w
      | Some c' => do '(h, v) <- vec_new h a (r_data c') (length (r_data c) - length (r_data c')) ;
                   Ok (mkWorld (vec_free h (o_owned x)) (oupd m d (Some (mkObj (with_data c' []) (whole v) v))))
      end
  | Poke d i b =>
      do x <- live w d ; do l <- vec_bytes h (o_owned x) ;
      if (i <? length l)%nat then
        match h (v_blk (o_owned x)) with
        | Some blk => Ok (mkWorld (hupd h (v_blk (o_owned x)) (Some (firstn i blk ++ b :: skipn (S i) blk))) m)
        | None => UB
        end
      else UB
  | Destroy d => do x <- live w d ; Ok (mkWorld (vec_free h (o_owned x)) (oupd m d None))
  end.
Fixpoint run (w : world) (l : list (op * Z)) : res world :=
  match l with [] => Ok w | (o, a) :: l' => do w <- step w o a ; run w l' end.
