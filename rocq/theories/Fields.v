(** Field encoders and decoders.  Models
    - cloudini_lib/include/cloudini_lib/field_encoder.hpp (line numbers "E.."),
    - cloudini_lib/include/cloudini_lib/field_decoder.hpp (line numbers "D.."),
    - cloudini_lib/src/field_encoder.cpp, src/field_decoder.cpp.

    An encoder object is its constructor data ([fenc]) plus its mutable state
    ([fstate]).  All classes share one state record; each uses its own components. *)
From Verif Require Import Base Varint Types Floats.

Record fstate := mkState {
  s_prev : Z;        (* prev_value_ (int64) or prev_bits_ *)
  s_first : bool;    (* Gorilla first_ *)
  s_lead : Z;        (* Gorilla prev_leading_, 255 = sentinel *)
  s_trail : Z;       (* Gorilla prev_trailing_ *)
  s_vec : list Z     (* FloatN prev_vect_, one int32 per lane in use *)
}.
(** reset(): E86-88, E110-112, E131-133, E168-175, E329-331 and the decoders' twins.
    bit_buf_/bit_count_ are zero outside a call (E300-305, D296-299), so they are not
    part of the state kept between calls. *)
Definition reset_state : fstate := mkState 0 true 255 0 [0;0;0;0].

(** *** Integers: E69-73 of encoding_utils.hpp ToInt64<T>, per field type. *)
Definition int_signed (t : ftype) : bool :=
  match t with INT16 | INT32 | INT64 | INT8 => true | _ => false end.
Definition to_int64 (t : ftype) (bs : list Z) : Z :=
  let v := le_val bs in
  let w := 256 ^ zlen bs in
  s64 (if int_signed t && (w / 2 <=? v) then v - w else v).

(** *** Gorilla bit buffer, encoder side: E182-241 *)
(** E216-222 and E233-239: emit whole bytes. At most eight iterations (64/8). *)
Fixpoint drain (fuel : nat) (buf cnt : Z) (out : list Z) : Z * Z * list Z :=
  match fuel with
  | O => (buf, cnt, out)
  | S k =>
      if 8 <=? cnt
      then drain k (Z.shiftr buf 8) (cnt - 8) (out ++ [Z.land buf 255])
      else (buf, cnt, out)
  end.
(** E199-241 putBits: (bit_buf_, bit_count_, bytes so far) -> same. *)
Definition putBits (b : Z * Z * list Z) (bits nbits : Z) : Z * Z * list Z :=
  let '(buf, cnt, out) := b in
  let bits := if nbits <? 64 then Z.land bits (Z.shiftl 1 nbits - 1) else bits in
  let space := 64 - cnt in
  if space <? nbits then
    let low_mask := if space =? 64 then 18446744073709551615 else Z.shiftl 1 space - 1 in
    let low_bits := Z.land bits low_mask in
    let buf := Z.lor buf (u64 (Z.shiftl low_bits cnt)) in
    let '(buf, cnt, out) := drain 8 buf (cnt + space) out in
    let remaining := nbits - space in
    let high_bits := Z.shiftr bits space in
    let buf := Z.lor buf (u64 (Z.shiftl high_bits cnt)) in
    drain 8 buf (cnt + remaining) out
  else
    let buf := Z.lor buf (u64 (Z.shiftl bits cnt)) in
    drain 8 buf (cnt + nbits) out.

(** std::countl_zero / std::countr_zero of a uint64. *)
Definition clz64 (x : Z) : Z := if x =? 0 then 64 else 63 - Z.log2 x.
Fixpoint ctz_loop (fuel : nat) (x : Z) : Z :=
  match fuel with
  | O => 0
  | S k => if Z.odd x then 0 else 1 + ctz_loop k (x / 2)
  end.
Definition ctz64 (x : Z) : Z := if x =? 0 then 64 else ctz_loop 64 x.

(** E300-305: flush the partial byte so that each value is byte aligned. *)
Definition gor_align (b : Z * Z * list Z) : list Z :=
  let '(buf, cnt, out) := b in
  if 0 <? cnt then out ++ [Z.land buf 255] else out.

(** E244-304 FieldEncoderFloat_Gorilla<double>::encode on the 64-bit pattern. *)
Definition gor_encode (st : fstate) (cur : Z) : fstate * list Z :=
  let b0 := (0, 0, []) in
  if s_first st then
    (mkState cur false (s_lead st) (s_trail st) (s_vec st), gor_align (putBits b0 cur 64))
  else
    let x := Z.lxor cur (s_prev st) in
    if x =? 0 then
      (mkState cur false (s_lead st) (s_trail st) (s_vec st), gor_align (putBits b0 0 1))
    else
      let b := putBits b0 1 1 in
      let leading := clz64 x in
      let trailing := ctz64 x in
      if negb (s_lead st =? 255) && (s_lead st <=? leading) && (s_trail st <=? trailing) then
        let b := putBits b 0 1 in
        let meaningful := 64 - s_lead st - s_trail st in
        let b := putBits b (Z.shiftr x (s_trail st)) meaningful in
        (mkState cur false (s_lead st) (s_trail st) (s_vec st), gor_align b)
      else
        let b := putBits b 1 1 in
        let stored := if 31 <? leading then 31 else leading in
        let meaningful := 64 - stored - trailing in
        let b := putBits b stored 5 in
        let b := putBits b (meaningful - 1) 6 in
        let b := putBits b (Z.shiftr x trailing) meaningful in
        (mkState cur false stored trailing (s_vec st), gor_align b).

(** *** Gorilla decoder side: D195-250 *)
(** D200-208 fillOne *)
Definition fillOne (s : Z * Z * list Z) : res (Z * Z * list Z) :=
  let '(buf, cnt, input) := s in
  match input with
  | [] => Throw
  | byte :: rest =>
      if 64 <=? cnt then UB   (* shift by bit_count_ >= 64 *)
      else Ok (Z.lor buf (u64 (Z.shiftl byte cnt)), cnt + 8, rest)
  end.
(** [while (bit_count_ < n) fillOne();] at most nine iterations. *)
Fixpoint fill (fuel : nat) (n : Z) (s : Z * Z * list Z) : res (Z * Z * list Z) :=
  match fuel with
  | O => UB
  | S k =>
      let '(buf, cnt, input) := s in
      if cnt <? n then (do s' <- fillOne s ; fill k n s') else Ok s
  end.
Definition mask64 (n : Z) : Z := if n <? 64 then Z.shiftl 1 n - 1 else 18446744073709551615.
(** D196-252 getBits *)
Definition getBits (nbits : Z) (s : Z * Z * list Z) : res (Z * (Z * Z * list Z)) :=
  let '(buf, cnt, input) := s in
  if (56 <? nbits) || (56 <? cnt) then
    let phase1 := Z.min nbits cnt in
    let low := Z.land buf (mask64 phase1) in
    let buf := if phase1 <? 64 then Z.shiftr buf phase1 else 0 in
    let cnt := cnt - phase1 in
    let remaining := nbits - phase1 in
    if remaining =? 0 then Ok (low, (buf, cnt, input))
    else
      do '(buf, cnt, input) <- fill 10 remaining (buf, cnt, input) ;
      let high := Z.land buf (mask64 remaining) in
      let buf := if remaining <? 64 then Z.shiftr buf remaining else 0 in
      Ok (Z.lor low (u64 (Z.shiftl high phase1)), (buf, cnt - remaining, input))
  else
    do '(buf, cnt, input) <- fill 10 nbits (buf, cnt, input) ;
    Ok (Z.land buf (mask64 nbits), (Z.shiftr buf nbits, cnt - nbits, input)).

Definition u8 (x : Z) : Z := x mod 256.

(** D255-299 FieldDecoderFloat_Gorilla<double>::decode: returns the value bits. The
    [bits << trailing] shifts by 64 or more are undefined behaviour. *)
Definition gor_decode (st : fstate) (input : list Z) : res (fstate * Z * list Z) :=
  let s0 := (0, 0, input) in
  if s_first st then
    do '(raw, (_, _, rest)) <- getBits 64 s0 ;
    Ok (mkState raw false (s_lead st) (s_trail st) (s_vec st), raw, rest)
  else
    do '(flag, s) <- getBits 1 s0 ;
    if flag =? 0 then
      let '(_, _, rest) := s in
      Ok (mkState (s_prev st) false (s_lead st) (s_trail st) (s_vec st), s_prev st, rest)
    else
      do '(control, s) <- getBits 1 s ;
      if control =? 0 then
        let meaningful := u8 (64 - s_lead st - s_trail st) in
        do '(bits, (_, _, rest)) <- getBits meaningful s ;
        if 64 <=? s_trail st then UB
        else
          let x := u64 (Z.shiftl bits (s_trail st)) in
          let v := Z.lxor x (s_prev st) in
          Ok (mkState v false (s_lead st) (s_trail st) (s_vec st), v, rest)
      else
        do '(stored, s) <- getBits 5 s ;
        do '(m1, s) <- getBits 6 s ;
        let meaningful := u8 (m1 + 1) in
        do '(bits, (_, _, rest)) <- getBits meaningful s ;
        let trailing := u8 (64 - stored - meaningful) in
        if 64 <=? trailing then UB
        else
          let x := u64 (Z.shiftl bits trailing) in
          let v := Z.lxor x (s_prev st) in
          Ok (mkState v false stored trailing (s_vec st), v, rest).

(** *** Encoder objects *)
Inductive fenc :=
| ECopy (off : Z) (sz : nat)              (* E51-67 *)
| EInt (off : Z) (t : ftype)              (* E71-94 *)
| ELossy32 (off res : Z)                  (* E98-118, E342-357, FloatType = float *)
| ELossy64 (off res : Z)                  (* same, FloatType = double *)
| EXor (off : Z) (sz : nat)               (* E122-139, E360-370; sz = 4 or 8 *)
| EGorilla (off : Z)                      (* E156-312, FloatType = double *)
| EFloatN (lanes : list (Z * Z)).         (* field_encoder.cpp:24-91; (offset, resolution) *)

(** field_encoder.cpp:42-91, one lane: the delta against the previous quantised value
    is an int32 subtraction (wraps in SIMD); NaN writes the marker 0 and resets the lane. *)
Definition lane_encode (ops : float_ops) (res prev x : Z) : Z * list Z :=
  let v := s32 (qN ops res x) in
  if isnan32 x then (0, [0])
  else (v, encodeVarint64 (s32 (v - prev))).

Fixpoint floatn_encode (ops : float_ops) (lanes : list (Z * Z)) (prev : list Z) (view : list Z)
  : res (list Z * list Z) :=
  match lanes with
  | [] => Ok ([], [])
  | (off, res) :: lanes' =>
      match prev with
      | [] => UB                          (* never: prev_vect_ has four lanes, lanes <= 4 *)
      | p :: prev' =>
          do bs <- rd off 4 view ;
          let '(p', out) := lane_encode ops res p (le_val bs) in
          do '(ps, outs) <- floatn_encode ops lanes' prev' view ;
          Ok (p' :: ps, out ++ outs)
      end
  end.

Definition set_prev (st : fstate) (v : Z) : fstate :=
  mkState v (s_first st) (s_lead st) (s_trail st) (s_vec st).
Definition set_vec (st : fstate) (l : list Z) : fstate :=
  mkState (s_prev st) (s_first st) (s_lead st) (s_trail st) l.

(** encode(point_view, output): new state and the bytes appended to the output.
    [view] is the input cloud from the current point to its end: the encoders read
    through the raw pointer [point_view.data() + offset_]. *)
Definition enc_step (ops : float_ops) (e : fenc) (st : fstate) (view : list Z) : res (fstate * list Z) :=
  match e with
  | ECopy off sz =>                                             (* E56-60 *)
      do bs <- rd off sz view ; Ok (st, bs)
  | EInt off t =>                                               (* E78-85 *)
      do bs <- rd off (SizeOf t) view ;
      let value := to_int64 t bs in
      Ok (set_prev st value, encodeVarint64 (s64 (value - s_prev st)))
  | ELossy32 off res =>                                         (* E343-357 *)
      do bs <- rd off 4 view ;
      let x := le_val bs in
      if isnan32 x then Ok (set_prev st 0, [0])
      else
        let value := s64 (q32 ops res x) in
        Ok (set_prev st value, encodeVarint64 (s64 (value - s_prev st)))
  | ELossy64 off res =>
      do bs <- rd off 8 view ;
      let x := le_val bs in
      if isnan64 x then Ok (set_prev st 0, [0])
      else
        let value := s64 (q64 ops res x) in
        Ok (set_prev st value, encodeVarint64 (s64 (value - s_prev st)))
  | EXor off sz =>                                              (* E360-370 *)
      do bs <- rd off sz view ;
      let cur := le_val bs in
      Ok (set_prev st cur, le_bytes sz (Z.lxor cur (s_prev st)))
  | EGorilla off =>
      do bs <- rd off 8 view ;
      Ok (gor_encode st (le_val bs))
  | EFloatN lanes =>
      (* unused lanes read a float at offset 0 (offset_ defaults to 0) *)
      do '_ <- (if (length lanes <? 4)%nat then rd 0 4 view else Ok []) ;
      do '(v, out) <- floatn_encode ops lanes (s_vec st) view ;
      Ok (set_vec st (v ++ skipn (length v) (s_vec st)), out)
  end.

(** *** Decoder objects *)
Inductive fdec :=
| DCopy (off : Z) (sz : nat)              (* D55-75 *)
| DInt (off : Z) (sz : nat)               (* D78-106 *)
| DLossy32 (off res : Z)                  (* D109-130, D330-352 *)
| DLossy64 (off res : Z)
| DXor (off : Z) (sz : nat)               (* D133-152, D355-370 *)
| DGorilla (off : Z)                      (* D156-299 *)
| DFloatN (lanes : list (Z * Z)).         (* field_decoder.cpp:24-86 *)

(** Stores requested by a decoder: (offset in the point, bytes); nothing for the
    skip marker [kDecodeButSkipStore]. *)
Definition store (off : Z) (bs : list Z) : list (Z * list Z) :=
  if off =? kSkip then [] else [(off, bs)].

(** field_decoder.cpp:54-72, all lanes. *)
Fixpoint floatn_decode (ops : float_ops) (lanes : list (Z * Z)) (prev : list Z) (input : list Z)
  : res (list Z * list Z * list (Z * list Z)) :=
  match lanes with
  | [] => Ok ([], input, [])
  | (off, res) :: lanes' =>
      match prev with
      | [] => UB
      | p :: prev' =>
          match input with
          | [] => Throw
          | b0 :: rest0 =>
              do '(v, bits, input') <-
                (if b0 =? 0 then Ok (0, qnan32, rest0)
                 else
                   do '(diff, count) <- decodeVarint input ;
                   let v := s32 (s32 diff + p) in
                   Ok (v, u32 (dN ops res v), skipn count input)) ;
              do '(vs, input'', stores) <- floatn_decode ops lanes' prev' input' ;
              Ok (v :: vs, input'', store off (le_bytes 4 bits) ++ stores)
          end
      end
  end.

(** decode(input, dest): new state, remaining input, stores into the point. *)
Definition dec_step (ops : float_ops) (d : fdec) (st : fstate) (input : list Z)
  : res (fstate * list Z * list (Z * list Z)) :=
  match d with
  | DCopy off sz =>                                             (* D62-67 *)
      if (length input <? sz)%nat
      then (if off =? kSkip then Throw else UB)
      else Ok (st, skipn sz input, store off (firstn sz input))
  | DInt off sz =>                                              (* D87-97 *)
      do '(diff, count) <- decodeVarint input ;
      let value := s64 (s_prev st + diff) in
      Ok (set_prev st value, skipn count input, store off (le_bytes sz value))
  | DLossy32 off res =>                                         (* D331-352 *)
      match input with
      | [] => UB                                                (* input.data()[0] *)
      | b0 :: rest =>
          if b0 =? 0 then Ok (set_prev st 0, rest, store off (le_bytes 4 qnan32))
          else
            do '(diff, count) <- decodeVarint input ;
            let value := s64 (s_prev st + diff) in
            Ok (set_prev st value, skipn count input, store off (le_bytes 4 (u32 (d32 ops res value))))
      end
  | DLossy64 off res =>
      match input with
      | [] => UB
      | b0 :: rest =>
          if b0 =? 0 then Ok (set_prev st 0, rest, store off (le_bytes 8 qnan64))
          else
            do '(diff, count) <- decodeVarint input ;
            let value := s64 (s_prev st + diff) in
            Ok (set_prev st value, skipn count input, store off (le_bytes 8 (u64 (d64 ops res value))))
      end
  | DXor off sz =>                                              (* D356-369 *)
      if (length input <? sz)%nat then UB
      else
        let cur := Z.lxor (le_val (firstn sz input)) (s_prev st) in
        Ok (set_prev st cur, skipn sz input, store off (le_bytes sz cur))
  | DGorilla off =>
      do '(st', v, rest) <- gor_decode st input ;
      Ok (st', rest, store off (le_bytes 8 v))
  | DFloatN lanes =>
      match input with
      | [] => Throw                                             (* field_decoder.cpp:44-46 *)
      | _ =>
          do '(v, rest, stores) <- floatn_decode ops lanes (s_vec st) input ;
          Ok (set_vec st (v ++ skipn (length v) (s_vec st)), rest, stores)
      end
  end.

(** minInputBytes(): D58, D83, D116, D138, D164, field_decoder.cpp:40 *)
Definition min_input_bytes (d : fdec) : nat :=
  match d with
  | DCopy _ sz => sz
  | DInt _ _ => 1
  | DLossy32 _ _ | DLossy64 _ _ => 1
  | DXor _ sz => sz
  | DGorilla _ => 0
  | DFloatN lanes => length lanes
  end.

(** Perform the stores of one decoder call into the output memory, [base] being the
    position of the current point. *)
Fixpoint do_stores (base : Z) (ss : list (Z * list Z)) (mem : list Z) : res (list Z) :=
  match ss with
  | [] => Ok mem
  | (off, bs) :: ss' => do mem' <- wr (base + off) bs mem ; do_stores base ss' mem'
  end.
