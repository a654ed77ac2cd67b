(** Specification for C87: the bytes each value of a field takes (no code of the library here). *)
From Verif Require Import Base Types Floats Fields Spec.

(** How a field is coded: in a fixed number of bytes, by its step from the value before, or
    (FLOAT64 without resolution, from version 4) by the bits that changed. *)
Inductive style := Fixed (n : Z) | Steps | Windowed.
Definition style_of (i : info) (f : field) (k : lossk) : style :=
  match k with
  | KId =>
      match i_enc i with
      | ENC_NONE => Fixed (Z.of_nat (SizeOf (f_type f)))
      | _ =>
          match f_type f with
          | INT8 | UINT8 => Fixed 1
          | FLOAT32 => Fixed 4
          | FLOAT64 => match f_res f with None => if 4 <=? i_version i then Windowed else Fixed 8 | Some _ => Fixed 8 end
          | INT16 | UINT16 | INT32 | UINT32 | INT64 | UINT64 => Steps
          | UNKNOWN | FT_OTHER _ => Fixed 0
          end
      end
  | _ => Steps
  end.
(** The integer that stands for a value: the integer itself, or the number of resolution
    steps; [None] for NaN. *)
Definition number (ops : float_ops) (t : ftype) (k : lossk) (bs : list Z) : option Z :=
  match k with
  | KN r => if isnan32 (le_val bs) then None else Some (s32 (qN ops r (le_val bs)))
  | _ => coded_value ops t k bs
  end.
(** One byte for steps of at most 63, two for at most 8191, ... (128 ^ n / 2 - 1). *)
Definition step_bytes (d : Z) : Z := 1 + Z.log2 ((if d <? 0 then - 2 * d else 2 * d + 1) mod 2 ^ 64) / 7.
Definition wrap (k : lossk) (d : Z) : Z := match k with KN _ => s32 d | _ => s64 d end.
(** FLOAT64 values coded by the bits that changed.  The first value of a chunk takes 8 bytes, a
    repeated value one.  Otherwise the changed bits are written as a window of bit positions
    [hi] .. [lo]: the window of the last change if all changed bits are in it (2 bits and the
    window), else a new one, down from the highest changed bit, but at least from bit 32, to
    the lowest (13 bits and the window). *)
Definition changed (p c : list Z) : Z := Z.lxor (le_val p) (le_val c).
Definition highest (x : Z) : Z := Z.log2 x.
Definition lowest (x : Z) : Z := match find (Z.testbit x) (map Z.of_nat (seq 0 64)) with Some b => b | None => 64 end.
Definition in_window (x hi lo : Z) : bool := (highest x <=? hi) && (lo <=? lowest x).
Definition new_window (x : Z) : Z * Z := (Z.max 32 (highest x), lowest x).
(** The window after the values [past], nearest first. *)
Fixpoint window (past : list (list Z)) : option (Z * Z) :=
  match past with
  | c :: past' =>
      match past' with
      | p :: _ =>
          let x := changed p c in
          if x =? 0 then window past'
          else match window past' with
               | Some (hi, lo) => if in_window x hi lo then Some (hi, lo) else Some (new_window x)
               | None => Some (new_window x)
               end
      | [] => None
      end
  | [] => None
  end.
Definition bits_to_bytes (n : Z) : Z := (n + 7) / 8.
Definition changed_bytes (past : list (list Z)) (c : list Z) : Z :=
  match past with
  | [] => 8
  | p :: _ =>
      let x := changed p c in
      let fresh := let (hi, lo) := new_window x in bits_to_bytes (13 + (hi - lo + 1)) in
      if x =? 0 then 1
      else match window past with
           | Some (hi, lo) => if in_window x hi lo then bits_to_bytes (2 + (hi - lo + 1)) else fresh
           | None => fresh
           end
  end.
(** [past]: the values of the field in the points before, in the same chunk, nearest first. *)
Definition value_bytes (ops : float_ops) (i : info) (f : field) (k : lossk) (past : list (list Z)) (cur : list Z) : Z :=
  match style_of i f k with
  | Fixed n => n
  | Steps =>
      match number ops (f_type f) k cur with
      | None => 1
      | Some v => step_bytes (wrap k (v - match past with
                                          | p :: _ => match number ops (f_type f) k p with Some q => q | None => 0 end
                                          | [] => 0
                                          end))
      end
  | Windowed => changed_bytes past cur
  end.
(** All fields of point [j], with chunks of [ppc] points. *)
Definition point_bytes (ops : float_ops) (i : info) (ppc : nat) (cloud : list Z) (fs : list (field * lossk)) (j : nat) : Z :=
  fold_right (fun fk s => value_bytes ops i (fst fk) (snd fk) (map (fun r => fbytes i (fst fk) cloud (j - 1 - r)) (seq 0 (j mod ppc))) (fbytes i (fst fk) cloud j) + s) 0 fs.
Definition cloud_bytes (ops : float_ops) (i : info) (ppc : nat) (cloud : list Z) (fs : list (field * lossk)) (n : nat) : Z :=
  fold_right (fun j s => point_bytes ops i ppc cloud fs j + s) 0 (seq 0 n).
(** The fields that are not 16- to 64-bit integers. *)
Definition not_int (fk : field * lossk) : bool :=
  match f_type (fst fk) with INT16 | UINT16 | INT32 | UINT32 | INT64 | UINT64 => false | _ => true end.
(** Every step from one point to the next within a chunk is of at most 63. *)
Definition gentle (ops : float_ops) (i : info) (ppc : nat) (cloud : list Z) (fs : list (field * lossk)) (n : nat) : Prop :=
  forall f k j v, In (f, k) fs -> style_of i f k = Steps -> (j < n)%nat -> (j mod ppc <> 0)%nat -> number ops (f_type f) k (fbytes i f cloud j) = Some v ->
  exists p, number ops (f_type f) k (fbytes i f cloud (j - 1)) = Some p /\ -63 <= v - p <= 63.
Definition unit_bytes (i : info) (fs : list (field * lossk)) : Z :=
  fold_right (fun fk s => match style_of i (fst fk) (snd fk) with Fixed n => n | Steps => 1 | Windowed => 10 end + s) 0 fs.
