(** Specification vocabulary for C09: the real number denoted by the bit pattern of an
    IEEE-754 binary number with [mw] mantissa bits and [ew] exponent bits. *)
From Coq Require Import ZArith Reals.
Open Scope R_scope.

Definition value (mw ew : Z) (b : Z) : R :=
  let m := (b mod 2 ^ mw)%Z in
  let e := ((b / 2 ^ mw) mod 2 ^ ew)%Z in
  (if Z.odd (b / 2 ^ (mw + ew)) then -1 else 1) *
  (if (e =? 0)%Z then IZR m * powerRZ 2 (2 - 2 ^ (ew - 1) - mw)
   else IZR (2 ^ mw + m) * powerRZ 2 (e + 1 - 2 ^ (ew - 1) - mw)).

(** neither an infinity nor a NaN *)
Definition finite_bits (mw ew : Z) (b : Z) : Prop :=
  (0 <= b < 2 ^ (mw + ew + 1))%Z /\ ((b / 2 ^ mw) mod 2 ^ ew <> 2 ^ ew - 1)%Z.

(** float and double *)
Definition float_of := value 23 8.
Definition double_of := value 52 11.
Definition finite32 := finite_bits 23 8.
Definition finite64 := finite_bits 52 11.

(** A usable resolution: between 2^-100 and 2^60. *)
Definition usable (r : R) : Prop := powerRZ 2 (-100) <= r <= powerRZ 2 60.
(** Half a step, plus the rounding of the library's float (double) arithmetic. *)
Definition bound32 (r x : R) : R := r / 2 + powerRZ 2 (-24) * (5 * Rabs x + 2 * r).
Definition bound64 (r x : R) : R := r / 2 + powerRZ 2 (-53) * (5 * Rabs x + 2 * r).
