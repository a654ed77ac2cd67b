(** Floating-point operations on bit patterns, using the standard library's
    executable IEEE-754 specification [SpecFloat] (round to nearest even).
    Covers the arithmetic of
    - include/cloudini_lib/field_encoder.hpp:95-111 (constructor) and :342-357 (encode),
    - include/cloudini_lib/field_decoder.hpp (FieldDecoderFloat_Lossy::decode),
    - src/field_encoder.cpp:24-50, src/field_decoder.cpp:24-40,69,
    - include/cloudini_lib/intrinsics.hpp:288-300. *)
From Verif Require Import Base.
From Coq Require Import Floats.SpecFloat.

(** bit pattern -> spec_float.  [mw]: mantissa bits, [ew]: exponent bits. *)
Definition sf_of_bits (mw ew : Z) (b : Z) : spec_float :=
  let m := b mod 2 ^ mw in
  let e := (b / 2 ^ mw) mod 2 ^ ew in
  let s := Z.odd (b / 2 ^ (mw + ew)) in
  let emin := 3 - 2 ^ (ew - 1) - (mw + 1) in
  if e =? 0 then
    match m with Zpos p => S754_finite s p emin | _ => S754_zero s end
  else if e =? 2 ^ ew - 1 then
    (if m =? 0 then S754_infinity s else S754_nan)
  else
    match m + 2 ^ mw with Zpos p => S754_finite s p (e + emin - 1) | _ => S754_nan end.

(** spec_float -> bit pattern; NaN becomes the default quiet NaN. *)
Definition bits_of_sf (mw ew : Z) (f : spec_float) : Z :=
  let sbit (s : bool) := if s then 2 ^ (mw + ew) else 0 in
  let emin := 3 - 2 ^ (ew - 1) - (mw + 1) in
  match f with
  | S754_zero s => sbit s
  | S754_infinity s => sbit s + (2 ^ ew - 1) * 2 ^ mw
  | S754_nan => (2 ^ ew - 1) * 2 ^ mw + 2 ^ (mw - 1)
  | S754_finite s m e =>
      if Zpos m <? 2 ^ mw then sbit s + Zpos m
      else sbit s + (e - emin + 1) * 2 ^ mw + (Zpos m - 2 ^ mw)
  end.

Definition sf32 := sf_of_bits 23 8.
Definition b32 := bits_of_sf 23 8.
Definition sf64 := sf_of_bits 52 11.
Definition b64 := bits_of_sf 52 11.

(** std::isnan on the bit pattern *)
Definition isnan32 (b : Z) : bool := ((b / 8388608) mod 256 =? 255) && negb (b mod 8388608 =? 0).
Definition isnan64 (b : Z) : bool :=
  ((b / 4503599627370496) mod 2048 =? 2047) && negb (b mod 4503599627370496 =? 0).

(** std::numeric_limits<T>::quiet_NaN() *)
Definition qnan32 : Z := 2143289344.           (* 0x7FC00000 *)
Definition qnan64 : Z := 9221120237041090560.  (* 0x7FF8000000000000 *)

(** [res <= 0.0] for a float bit pattern: NaN compares false. *)
Definition f32_le0 (b : Z) : bool :=
  negb (isnan32 b) && ((2147483648 <=? b) || (b =? 0)).
(** [1.0F/res <= 0.0F] (field_encoder.cpp:34-35): true exactly for negative values,
    -0, and +infinity. *)
Definition f32_inv_le0 (b : Z) : bool :=
  negb (isnan32 b) && ((2147483648 <=? b) || (b =? 2139095040)).

(** widening / narrowing / integer conversions (round to nearest even) *)
Definition sf_round (prec emax : Z) (f : spec_float) : spec_float :=
  match f with
  | S754_finite s m e => binary_normalize prec emax (cond_Zopp s (Zpos m)) e s
  | _ => f
  end.
Definition to64 := sf_round 53 1024.
Definition to32 := sf_round 24 128.
Definition z32 (v : Z) : spec_float := binary_normalize 24 128 v 0 false.
Definition z64 (v : Z) : spec_float := binary_normalize 53 1024 v 0 false.
Definition one64 : spec_float := z64 1.
Definition one32 : spec_float := z32 1.

(** std::round: nearest integer, halfway away from zero (exact result). *)
Definition round_away (m e : Z) : Z :=
  if 0 <=? e then m * 2 ^ e else (m + 2 ^ (- e - 1)) / 2 ^ (- e).
(** _mm_round_ps(_MM_FROUND_TO_NEAREST_INT): nearest integer, ties to even. *)
Definition round_even (m e : Z) : Z :=
  if 0 <=? e then m * 2 ^ e
  else
    let d := 2 ^ (- e) in
    let q := m / d in let r := m mod d in
    if 2 * r <? d then q else if d <? 2 * r then q + 1 else if Z.even q then q else q + 1.

(** rounding followed by conversion to a signed integer of the given range; the
    x86 conversion instructions return the minimum for anything unrepresentable
    (undefined behaviour in C++). *)
Definition sf_to_int (rnd : Z -> Z -> Z) (imin imax : Z) (f : spec_float) : Z :=
  match f with
  | S754_zero _ => 0
  | S754_finite s m e =>
      let v := cond_Zopp s (rnd (Zpos m) e) in
      if (imin <=? v) && (v <=? imax) then v else imin
  | _ => imin
  end.

(** The quantiser/dequantiser operations used by the lossy codecs; all arguments and
    results are bit patterns (resolution first) or integers. *)
Record float_ops := mkFloatOps {
  q32 : Z -> Z -> Z;    (* FieldEncoderFloat_Lossy<float>:  int64 of round(x * float(1.0/res)) *)
  d32 : Z -> Z -> Z;    (* FieldDecoderFloat_Lossy<float>:  float(v) * res *)
  q64 : Z -> Z -> Z;    (* ... <double>, resolution still a float *)
  d64 : Z -> Z -> Z;
  qN : Z -> Z -> Z;     (* FieldEncoderFloatN_Lossy: int32 of round(x * (1.0F/res)) *)
  dN : Z -> Z -> Z      (* FieldDecoderFloatN_Lossy: float(v) * res *)
}.

(** field_encoder.hpp:102 [multiplier_(1.0 / resolution)]: the quotient is computed in
    double (1.0 is a double literal) and then converted to FloatType. *)
Definition mult32 (res : Z) : spec_float := to32 (SFdiv 53 1024 one64 (to64 (sf32 res))).
Definition mult64 (res : Z) : spec_float := SFdiv 53 1024 one64 (to64 (sf32 res)).
(** field_encoder.cpp:34 [1.0F / resolution], single precision *)
Definition multN (res : Z) : spec_float := SFdiv 24 128 one32 (sf32 res).

(** field_encoder.hpp:351 *)
Definition quant32 (res x : Z) : Z :=
  sf_to_int round_away INT64_MIN INT64_MAX (SFmul 24 128 (sf32 x) (mult32 res)).
Definition quant64 (res x : Z) : Z :=
  sf_to_int round_away INT64_MIN INT64_MAX (SFmul 53 1024 (sf64 x) (mult64 res)).
(** field_decoder.hpp, FieldDecoderFloat_Lossy::decode: static_cast<FloatType>(value) * multiplier_ *)
Definition dequant32 (res v : Z) : Z := b32 (SFmul 24 128 (z32 v) (sf32 res)).
Definition dequant64 (res v : Z) : Z := b64 (SFmul 53 1024 (z64 v) (to64 (sf32 res))).
(** field_encoder.cpp:49-50 with intrinsics.hpp:289-292 (SSE4.1 build) *)
Definition quantN_sse (res x : Z) : Z :=
  sf_to_int round_even INT32_MIN 2147483647 (SFmul 24 128 (sf32 x) (multN res)).
(** intrinsics.hpp:294-298 (build without SSE4.1) *)
Definition quantN_scalar (res x : Z) : Z :=
  sf_to_int round_away INT32_MIN 2147483647 (SFmul 24 128 (sf32 x) (multN res)).
(** field_decoder.cpp:69 *)
Definition dequantN (res v : Z) : Z := b32 (SFmul 24 128 (z32 v) (sf32 res)).

Definition sse_ops : float_ops :=
  mkFloatOps quant32 dequant32 quant64 dequant64 quantN_sse dequantN.
Definition scalar_ops : float_ops :=
  mkFloatOps quant32 dequant32 quant64 dequant64 quantN_scalar dequantN.
