(** Varint coding.  Models
    - cloudini_lib/include/cloudini_lib/encoding_utils.hpp:55-67 (encodeVarint64)
      and :98-148 (decodeVarint);
    - cloudini_lib/src/v5_codec.cpp:160-194 (appendUVarint, readUVarint) and
      :244-256 (encodedUVarintSize, encodedVarint64Size). *)
From Verif Require Import Base.

(** encoding_utils.hpp:56-57: zig-zag then +1 ("reserving value 0 for NaN").
    [value] is an int64; the increment wraps in uint64. *)
Definition zigzag1 (value : Z) : Z :=
  u64 (u64 (Z.lxor (s64 (Z.shiftl value 1)) (Z.shiftr value 63)) + 1).

(** encoding_utils.hpp:59-65 and v5_codec.cpp:160-174: the 7-bit group loop.
    Ten iterations suffice for a uint64 ([uvarint_eq] in VarintFacts removes the fuel). *)
Fixpoint uvarint_loop (fuel : nat) (val : Z) : list Z :=
  match fuel with
  | O => []
  | S k =>
      if 127 <? val
      then Z.lor (Z.land val 127) 128 :: uvarint_loop k (Z.shiftr val 7)
      else [val]
  end.
Definition uvarint (val : Z) : list Z := uvarint_loop 10 val.

(** encoding_utils.hpp:55-67: bytes written by encodeVarint64. *)
Definition encodeVarint64 (value : Z) : list Z := uvarint (zigzag1 value).

(** Reading byte [i] of the memory behind the pointer; outside: UB. *)
Definition byte_at (mem : list Z) (i : nat) : res Z :=
  match nth_error mem i with Some b => Ok b | None => UB end.

(** encoding_utils.hpp:117-139: the general loop.  [i] = ptr - buf.  The fuel is
    never exhausted (VarintFacts.varint_loop_fuel); exhaustion is mapped to UB. *)
Fixpoint varint_loop (fuel : nat) (mem : list Z) (max_size i : nat) (shift uval : Z) : res (Z * nat) :=
  match fuel with
  | O => UB
  | S k =>
      if (max_size <=? i)%nat then Throw
      else
        do byte <- byte_at mem i ;
        let payload := Z.land byte 127 in
        if (64 <=? shift) || ((shift =? 63) && (1 <? payload)) then Throw
        else
          let uval' := Z.lor uval (u64 (Z.shiftl payload shift)) in
          if Z.land byte 128 =? 0 then Ok (uval', S i)
          else if 63 <=? shift then Throw
          else varint_loop k mem max_size (S i) (shift + 7) uval'
  end.

(** encoding_utils.hpp:141-147: un-zig-zag; 0 is the NaN marker. *)
Definition unzigzag1 (uval : Z) : res Z :=
  if uval =? 0 then Throw
  else
    let u := uval - 1 in
    Ok (s64 (Z.lxor (Z.shiftr u 1) (u64 (- (Z.land u 1))))).

(** encoding_utils.hpp:98-148.  Returns (value, consumed). [mem] is the memory
    behind [buf], [max_size] the size argument. *)
Definition decodeVarint_mem (mem : list Z) (max_size : nat) : res (Z * nat) :=
  if (max_size =? 0)%nat then Throw
  else
    do b0 <- byte_at mem 0 ;
    do '(uval, count) <-
      (if Z.land b0 128 =? 0 then Ok (b0, 1%nat)
       else
         do fast <- (if (2 <=? max_size)%nat
                     then (do b1 <- byte_at mem 1 ; Ok (if Z.land b1 128 =? 0 then Some b1 else None))
                     else Ok None) ;
         match fast with
         | Some b1 => Ok (Z.lor (Z.land b0 127) (u64 (Z.shiftl b1 7)), 2%nat)
         | None => varint_loop 11 mem max_size 0 0 0
         end) ;
    do v <- unzigzag1 uval ;
    Ok (v, count).

(** The callers pass a span: [max_size] is the span's size. *)
Definition decodeVarint (buf : list Z) : res (Z * nat) := decodeVarint_mem buf (length buf).

(** v5_codec.cpp:176-194 readUVarint: consumes the span.  Fuel: the shift reaches
    64 after ten bytes; exhaustion is mapped to UB and proved unreachable. *)
Fixpoint readUVarint_loop (fuel : nat) (input : list Z) (shift value : Z) : res (Z * list Z) :=
  match fuel with
  | O => UB
  | S k =>
      match input with
      | [] => Throw
      | byte :: rest =>
          let value' := Z.lor value (u64 (Z.shiftl (Z.land byte 127) shift)) in
          if Z.land byte 128 =? 0 then Ok (value', rest)
          else
            let shift' := shift + 7 in
            if 64 <=? shift' then Throw
            else readUVarint_loop k rest shift' value'
      end
  end.
Definition readUVarint (input : list Z) : res (Z * list Z) := readUVarint_loop 11 input 0 0.

(** v5_codec.cpp:244-251 *)
Fixpoint encodedUVarintSize_loop (fuel : nat) (value : Z) (n : Z) : Z :=
  match fuel with
  | O => n
  | S k => if 127 <? value then encodedUVarintSize_loop k (Z.shiftr value 7) (n + 1) else n
  end.
Definition encodedUVarintSize (value : Z) : Z := encodedUVarintSize_loop 10 value 1.
(** v5_codec.cpp:253-256 *)
Definition encodedVarint64Size (value : Z) : Z := zlen (encodeVarint64 value).
