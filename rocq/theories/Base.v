(** Base definitions shared by the whole model: outcomes, bytes, machine
    integers, buffer reads and writes.  Model file: no property proofs here. *)
From Coq Require Export ZArith List Bool Lia.
Export ListNotations.
Open Scope Z_scope.

(** Outcome of a C++ call: normal result, a C++ exception (any type), or
    undefined behaviour (out-of-bounds access, over-wide shift). *)
Inductive res (A : Type) : Type :=
| Ok (a : A)
| Throw
| UB.
Arguments Ok {A} a.
Arguments Throw {A}.
Arguments UB {A}.

Definition bind {A B} (m : res A) (k : A -> res B) : res B :=
  match m with Ok a => k a | Throw => Throw | UB => UB end.

Notation "'do' x <- m ; k" := (bind m (fun x => k))
  (at level 200, x ident, m at level 100, k at level 200, right associativity).
Notation "'do' ' p <- m ; k" := (bind m (fun x => match x with p => k end))
  (at level 200, p pattern, m at level 100, k at level 200, right associativity).

(** The size_t / uint64_t and int64_t / int32_t views of an unbounded integer. *)
Definition u64 (x : Z) : Z := x mod 18446744073709551616.
Definition s64 (x : Z) : Z := (x + 9223372036854775808) mod 18446744073709551616 - 9223372036854775808.
Definition u32 (x : Z) : Z := x mod 4294967296.
Definition s32 (x : Z) : Z := (x + 2147483648) mod 4294967296 - 2147483648.

Definition INT64_MIN : Z := -9223372036854775808.
Definition INT64_MAX : Z := 9223372036854775807.
Definition INT32_MIN : Z := -2147483648.

(** Well-formedness: every element is a byte. *)
Definition is_byte (b : Z) : Prop := 0 <= b < 256.
Definition bytes (l : list Z) : Prop := Forall is_byte l.

(** memcpy of an n-byte little-endian object from/to a buffer (x86-64). *)
Fixpoint le_bytes (n : nat) (v : Z) : list Z :=
  match n with
  | O => []
  | S k => v mod 256 :: le_bytes k (v / 256)
  end.
Fixpoint le_val (l : list Z) : Z :=
  match l with
  | [] => 0
  | b :: l' => b + 256 * le_val l'
  end.

Definition zlen {A} (l : list A) : Z := Z.of_nat (length l).

(** Read [len] bytes at byte offset [off] of a buffer; outside the buffer: UB. *)
Definition rd (off : Z) (len : nat) (l : list Z) : res (list Z) :=
  if (0 <=? off) && (off + Z.of_nat len <=? zlen l)
  then Ok (firstn len (skipn (Z.to_nat off) l))
  else UB.

(** Overwrite the bytes at offset [off]; outside the buffer: UB. *)
Definition wr (off : Z) (bs : list Z) (l : list Z) : res (list Z) :=
  if (0 <=? off) && (off + zlen bs <=? zlen l)
  then Ok (firstn (Z.to_nat off) l ++ bs ++ skipn (Z.to_nat off + length bs) l)
  else UB.

(** Span::trim_front: include/cloudini_lib/contrib/span.hpp:90-96.  The span is
    the list of its remaining elements; [n] is a size_t. *)
Definition trim_front (n : nat) (l : list Z) : res (list Z) :=
  if Nat.ltb (length l) n then Throw else Ok (skipn n l).
