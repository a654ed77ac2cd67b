(** The V5 adaptive integer codec.  Models cloudini_lib/src/v5_codec.cpp ("V5 n-m" are
    its line numbers).  The chunk size (kPointsPerChunk) and the probe length
    (kAdaptiveModeProbePoints) are parameters of the functions that use them. *)
From Verif Require Import Base Varint Types Floats Fields Codec.

(** V5 33-38 *)
Inductive amode := DeltaVarint | Palette | Rle | DeltaRle.
Definition mode_code (m : amode) : Z :=
  match m with DeltaVarint => 0 | Palette => 1 | Rle => 2 | DeltaRle => 3 end.

(** V5 81-93 *)
Definition isV5AdaptiveIntType (t : ftype) : bool :=
  match t with INT16 | UINT16 | INT32 | UINT32 | INT64 | UINT64 => true | _ => false end.

(** The constant part of V5AdaptiveIntField (V5 40-45). *)
Record afield := mkA { a_off : Z; a_type : ftype }.
Definition a_size (a : afield) : nat := SizeOf (a_type a).

(** *** Differences and runs *)
(** V5 258-266, 425-432: consecutive differences, int64 arithmetic. *)
Fixpoint diffs (prev : Z) (vs : list Z) : list Z :=
  match vs with
  | [] => []
  | v :: vs' => s64 (v - prev) :: diffs v vs'
  end.
(** V5 269-287 forEachDeltaRun (on differences) and 305-313, 478-487 (on raw values):
    maximal runs of equal elements, as (element, length). *)
Fixpoint run_groups (cur len : Z) (l : list Z) : list (Z * Z) :=
  match l with
  | [] => [(cur, len)]
  | x :: l' => if x =? cur then run_groups cur (len + 1) l' else (cur, len) :: run_groups x 1 l'
  end.
Definition runs (l : list Z) : list (Z * Z) :=
  match l with [] => [] | x :: l' => run_groups x 1 l' end.

(** *** Palette: V5 196-242, 318-385 *)
(** V5 197-208 *)
Fixpoint bits_loop (fuel : nat) (bits m : Z) : Z :=
  match fuel with
  | O => bits
  | S k => if 0 <? m then bits_loop k (bits + 1) (Z.shiftr m 1) else bits
  end.
Definition bitsForPaletteIndex (n : Z) : Z := if n <=? 1 then 0 else bits_loop 64 0 (n - 1).

(** V5 210-229 appendBitpackedIndexes *)
Fixpoint pack_drain (fuel : nat) (scratch held : Z) (out : list Z) : Z * Z * list Z :=
  match fuel with
  | O => (scratch, held, out)
  | S k =>
      if 8 <=? held then pack_drain k (Z.shiftr scratch 8) (held - 8) (out ++ [Z.land scratch 255])
      else (scratch, held, out)
  end.
Fixpoint pack_loop (bits : Z) (idx : list Z) (scratch held : Z) (out : list Z) : list Z :=
  match idx with
  | [] => if 0 <? held then out ++ [Z.land scratch 255] else out
  | i :: idx' =>
      let scratch := Z.lor scratch (u64 (Z.shiftl i held)) in
      let '(scratch, held, out) := pack_drain 32 scratch (held + bits) out in
      pack_loop bits idx' scratch held out
  end.
Definition packIndexes (idx : list Z) (bits : Z) : list Z :=
  if bits =? 0 then [] else pack_loop bits idx 0 0 [].

(** V5 318-324 *)
Fixpoint pow2_loop (fuel : nat) (out v : Z) : Z :=
  match fuel with
  | O => out
  | S k => if out <? v then pow2_loop k (u64 (Z.shiftl out 1)) v else out
  end.
Definition nextPowerOfTwo (v : Z) : Z := pow2_loop 64 1 v.
(** V5 326-333 *)
Definition hashPaletteValue (v : Z) : Z :=
  let v := Z.lxor v (Z.shiftr v 30) in
  let v := u64 (v * 13787848793156543929) in
  let v := Z.lxor v (Z.shiftr v 27) in
  let v := u64 (v * 10723151780598845931) in
  Z.lxor v (Z.shiftr v 31).

(** palette_slots, palette_slot_generations, palette_generation *)
Record ptab := mkT { t_slots : list Z; t_gens : list Z; t_gen : Z }.
Definition ptab_init : ptab := mkT [] [] 1.
(** V5 335-347 *)
Definition preparePaletteTable (t : ptab) (count : Z) : ptab :=
  let slot_count := nextPowerOfTwo (Z.max 16 (count * 2)) in
  if zlen (t_slots t) <? slot_count then
    mkT (repeat 0 (Z.to_nat slot_count)) (repeat 0 (Z.to_nat slot_count)) (t_gen t)
  else
    let g := u32 (t_gen t + 1) in
    if g =? 0 then mkT (t_slots t) (map (fun _ => 0) (t_gens t)) 1
    else mkT (t_slots t) (t_gens t) g.

Fixpoint set_nth (n : nat) (v : Z) (l : list Z) : list Z :=
  match l, n with
  | [], _ => []
  | _ :: l', O => v :: l'
  | x :: l', S k => x :: set_nth k v l'
  end.
(** V5 349-369.  [fuel]: number of slots; exhaustion would be an endless loop. *)
Fixpoint probe (fuel : nat) (t : ptab) (pal : list Z) (value : Z) (slot : Z) : res (ptab * list Z * Z) :=
  match fuel with
  | O => UB
  | S k =>
      match nth_error (t_gens t) (Z.to_nat slot), nth_error (t_slots t) (Z.to_nat slot) with
      | Some g, Some s =>
          if negb (g =? t_gen t) then
            let index := u32 (zlen pal) in
            Ok (mkT (set_nth (Z.to_nat slot) (u32 (index + 1)) (t_slots t))
                    (set_nth (Z.to_nat slot) (t_gen t) (t_gens t)) (t_gen t), pal ++ [value], index)
          else
            let index := u32 (s - 1) in
            match nth_error pal (Z.to_nat index) with
            | None => UB
            | Some p =>
                if p =? value then Ok (t, pal, index)
                else probe k t pal value (Z.land (slot + 1) (zlen (t_slots t) - 1))
            end
      | _, _ => UB
      end
  end.
Definition addPaletteValue (t : ptab) (pal : list Z) (value : Z) : res (ptab * list Z * Z) :=
  probe (length (t_slots t)) t pal value (Z.land (hashPaletteValue value) (zlen (t_slots t) - 1)).
Fixpoint addAll (t : ptab) (pal : list Z) (raws : list Z) : res (ptab * list Z * list Z) :=
  match raws with
  | [] => Ok (t, pal, [])
  | v :: raws' =>
      do '(t1, pal1, i) <- addPaletteValue t pal v ;
      do '(t2, pal2, idx) <- addAll t1 pal1 raws' ;
      Ok (t2, pal2, i :: idx)
  end.
(** V5 371-385 buildPaletteIndexes: new table, palette, palette_indexes *)
Definition buildPaletteIndexes (t : ptab) (raws : list Z) : res (ptab * list Z * list Z) :=
  addAll (preparePaletteTable t (zlen raws)) [] raws.

(** *** Predicted section sizes: V5 244-316, 387-391 *)
Definition sumz (l : list Z) : Z := fold_right Z.add 0 l.
Definition encodedDeltaVarintSectionSize (values : list Z) : Z :=
  1 + sumz (map encodedVarint64Size (diffs 0 values)).
Definition encodedDeltaRleSectionSize (values : list Z) : Z :=
  5 + sumz (map (fun r => encodedVarint64Size (fst r) + encodedUVarintSize (snd r)) (runs (diffs 0 values))).
Definition encodedRleSectionSize (raws : list Z) (sz : nat) : Z :=
  5 + sumz (map (fun r => Z.of_nat sz + encodedUVarintSize (snd r)) (runs raws)).
Definition encodedPaletteSectionSize (pal : list Z) (sz : nat) (count : Z) : Z :=
  3 + zlen pal * Z.of_nat sz + (bitsForPaletteIndex (zlen pal) * count + 7) / 8.
(** V5 393-409 *)
Definition selectBestAdaptiveIntMode (delta pal rle drle : Z) : amode :=
  let '(m, best) := if pal <? delta then (Palette, pal) else (DeltaVarint, delta) in
  let '(m, best) := if rle <? best then (Rle, rle) else (m, best) in
  if drle <? best then DeltaRle else m.

(** *** Output into the stage buffer *)
(** An output step: [(true, bs)] goes through a size check that throws (appendByte,
    appendRawBits, encode<T>), [(false, bs)] is written through a raw pointer without a
    check (encodeVarint64 into out.data()).  [cap]: bytes left in the stage buffer.
    A multi-byte appendUVarint is one checked step. *)
Fixpoint emit (items : list (bool * list Z)) (cap : Z) : res (list Z * Z) :=
  match items with
  | [] => Ok ([], cap)
  | (checked, bs) :: items' =>
      if cap <? zlen bs then (if checked : bool then Throw else UB)
      else do '(out, cap') <- emit items' (cap - zlen bs) ; Ok (bs ++ out, cap')
  end.
Definition chk (bs : list Z) : bool * list Z := (true, bs).
Definition raw (bs : list Z) : bool * list Z := (false, bs).

(** *** Batch sections: V5 423-491 *)
Definition deltaVarintSection (values : list Z) : list (bool * list Z) :=
  chk [0] :: map (fun d => raw (encodeVarint64 d)) (diffs 0 values).
Definition deltaRleSection (values : list Z) : list (bool * list Z) :=
  let rs := runs (diffs 0 values) in
  chk [3] :: chk (le_bytes 4 (zlen rs)) ::
  flat_map (fun r => [raw (encodeVarint64 (fst r)); chk (uvarint (snd r))]) rs.
Definition paletteSection (pal idx : list Z) (sz : nat) : list (bool * list Z) :=
  chk [1] :: chk (le_bytes 2 (zlen pal)) :: map (fun v => chk (le_bytes sz v)) pal ++
  [chk (packIndexes idx (bitsForPaletteIndex (zlen pal)))].
Definition rleSection (raws : list Z) (sz : nat) : list (bool * list Z) :=
  let rs := runs raws in
  chk [2] :: chk (le_bytes 4 (zlen rs)) ::
  flat_map (fun r => [chk (le_bytes sz (fst r)); chk (uvarint (snd r))]) rs.

(** *** Streaming sections: V5 493-658 *)
Record stream := mkS {
  x_bytes : list Z;   (* section_bytes *)
  x_count : Z;        (* stream_run_count *)
  x_prev : Z;         (* stream_prev_value *)
  x_diff : Z;         (* stream_run_diff *)
  x_raw : Z;          (* stream_run_raw *)
  x_len : Z;          (* stream_run_len *)
  x_has : bool        (* stream_has_run *)
}.
Definition stream0 : stream := mkS [] 0 0 0 0 0 false.
(** V5 493-533 beginCommittedAdaptiveIntSection: (streaming_section, stream).
    run_count_offset is always 1 when it is used. *)
Definition begin_section (m : amode) : bool * stream :=
  match m with
  | DeltaVarint => (true, mkS [0] 0 0 0 0 0 false)
  | DeltaRle => (true, mkS ([3] ++ le_bytes 4 0) 0 0 0 0 0 false)
  | Rle => (true, mkS ([2] ++ le_bytes 4 0) 0 0 0 0 0 false)
  | Palette => (false, stream0)
  end.
(** V5 535-543 *)
Definition flushDeltaRleRun (x : stream) : stream :=
  if x_has x then
    mkS (x_bytes x ++ encodeVarint64 (x_diff x) ++ uvarint (x_len x)) (u32 (x_count x + 1))
        (x_prev x) (x_diff x) (x_raw x) (x_len x) false
  else x.
(** V5 545-562 *)
Definition appendDeltaRleValue (x : stream) (value : Z) : stream :=
  let diff := s64 (value - x_prev x) in
  let x := mkS (x_bytes x) (x_count x) value (x_diff x) (x_raw x) (x_len x) (x_has x) in
  if negb (x_has x) then mkS (x_bytes x) (x_count x) (x_prev x) diff (x_raw x) 1 true
  else if diff =? x_diff x then
    mkS (x_bytes x) (x_count x) (x_prev x) (x_diff x) (x_raw x) (u64 (x_len x + 1)) (x_has x)
  else
    let x := flushDeltaRleRun x in
    mkS (x_bytes x) (x_count x) (x_prev x) diff (x_raw x) 1 true.
(** V5 564-572 *)
Definition flushRleRun (sz : nat) (x : stream) : stream :=
  if x_has x then
    mkS (x_bytes x ++ le_bytes sz (x_raw x) ++ uvarint (x_len x)) (u32 (x_count x + 1))
        (x_prev x) (x_diff x) (x_raw x) (x_len x) false
  else x.
(** V5 574-589 *)
Definition appendRleValue (sz : nat) (x : stream) (value : Z) : stream :=
  if negb (x_has x) then mkS (x_bytes x) (x_count x) (x_prev x) (x_diff x) value 1 true
  else if value =? x_raw x then
    mkS (x_bytes x) (x_count x) (x_prev x) (x_diff x) (x_raw x) (u64 (x_len x + 1)) (x_has x)
  else
    let x := flushRleRun sz x in
    mkS (x_bytes x) (x_count x) (x_prev x) (x_diff x) value 1 true.
(** V5 593-598, 613-618 *)
Definition appendDeltaValue (x : stream) (value : Z) : stream :=
  mkS (x_bytes x ++ encodeVarint64 (s64 (value - x_prev x))) (x_count x) value
      (x_diff x) (x_raw x) (x_len x) (x_has x).
(** patchU32(section_bytes, 1, count): V5 156-158 *)
Definition patch_count (x : stream) : list Z :=
  firstn 1 (x_bytes x) ++ le_bytes 4 (x_count x) ++ skipn 5 (x_bytes x).
(** V5 644-658 finishCommittedAdaptiveIntSection: the finished section bytes *)
Definition finish_section (m : amode) (sz : nat) (x : stream) : list Z :=
  match m with
  | DeltaVarint | Palette => x_bytes x
  | DeltaRle => patch_count (flushDeltaRleRun x)
  | Rle => patch_count (flushRleRun sz x)
  end.

(** *** Per-field encoder state *)
(** The variable part of V5AdaptiveIntField.  palette and palette_indexes are rebuilt
    before every use (V5 706-708, 413), so they are not kept here. *)
Record astate := mkAS {
  as_values : list Z; as_raws : list Z; as_tab : ptab;
  as_mode : option amode;        (* committed / committed_mode *)
  as_streaming : bool; as_stream : stream }.
Definition astate0 : astate := mkAS [] [] ptab_init None false stream0.

(** V5 411-421, 387-409: commitAdaptiveIntMode + analyzeAdaptiveIntField *)
Definition commit (a : afield) (s : astate) : res (amode * astate) :=
  match as_mode s with
  | Some m => Ok (m, s)
  | None =>
      do '(t, pal, _) <- buildPaletteIndexes (as_tab s) (as_raws s) ;
      let m := selectBestAdaptiveIntMode
                 (encodedDeltaVarintSectionSize (as_values s))
                 (encodedPaletteSectionSize pal (a_size a) (zlen (as_raws s)))
                 (encodedRleSectionSize (as_raws s) (a_size a))
                 (encodedDeltaRleSectionSize (as_values s)) in
      Ok (m, mkAS (as_values s) (as_raws s) t (Some m) (as_streaming s) (as_stream s))
  end.

(** V5 660-681 prepareAdaptiveIntFieldForChunk *)
Definition prepare_chunk (s : astate) : astate :=
  match as_mode s with
  | Some m => let '(b, x) := begin_section m in mkAS [] [] (as_tab s) (Some m) b x
  | None => mkAS [] [] (as_tab s) None false (mkS [] (x_count (as_stream s)) (x_prev (as_stream s)) (x_diff (as_stream s)) (x_raw (as_stream s)) (x_len (as_stream s)) (x_has (as_stream s)))
  end.

(** V5 591-609, 683-692 collectAdaptiveIntValue: the field's bytes are read through a raw
    pointer into the cloud ([view]: the cloud from the current point on). *)
Definition stream_value (m : amode) (sz : nat) (x : stream) (value rawv : Z) : stream :=
  match m with
  | DeltaVarint => appendDeltaValue x value
  | DeltaRle => appendDeltaRleValue x value
  | Rle => appendRleValue sz x rawv
  | Palette => x
  end.
Definition collect (a : afield) (s : astate) (view : list Z) : res astate :=
  do bs <- rd (a_off a) (a_size a) view ;
  let value := to_int64 (a_type a) bs in
  let rawv := le_val bs in
  match as_mode s with
  | None => Ok (mkAS (as_values s ++ [value]) (as_raws s ++ [rawv]) (as_tab s) None (as_streaming s) (as_stream s))
  | Some Palette =>
      Ok (mkAS (as_values s) (as_raws s ++ [rawv]) (as_tab s) (Some Palette) (as_streaming s) (as_stream s))
  | Some m => Ok (mkAS (as_values s) (as_raws s) (as_tab s) (Some m) (as_streaming s)
                       (stream_value m (a_size a) (as_stream s) value rawv))
  end.

(** V5 611-642: commit + begin + appendProbeValuesToCommittedSection (V5 938-942) *)
Definition stream_values (m : amode) (sz : nat) (x : stream) (values raws : list Z) : stream :=
  match m with
  | Rle => fold_left (fun x r => stream_value m sz x 0 r) raws x
  | _ => fold_left (fun x v => stream_value m sz x v 0) values x
  end.
Definition commit_probe (a : afield) (s : astate) : res astate :=
  do '(m, s1) <- commit a s ;
  let '(b, x) := begin_section m in
  let x' := if b : bool then stream_values m (a_size a) x (as_values s1) (as_raws s1) else x in
  Ok (mkAS (as_values s1) (as_raws s1) (as_tab s1) (Some m) b x').

(** V5 694-717 appendCommittedAdaptiveIntSection *)
Definition append_section (a : afield) (s : astate) (cap : Z) : res (astate * list Z * Z) :=
  let batch s1 m :=
    match m with
    | Palette =>
        do '(t, pal, idx) <- buildPaletteIndexes (as_tab s1) (as_raws s1) ;
        do '(out, cap') <- emit (paletteSection pal idx (a_size a)) cap ;
        Ok (mkAS (as_values s1) (as_raws s1) t (Some m) (as_streaming s1) (as_stream s1), out, cap')
    | _ =>
        do '(out, cap') <- emit (match m with
                                 | DeltaVarint => deltaVarintSection (as_values s1)
                                 | DeltaRle => deltaRleSection (as_values s1)
                                 | _ => rleSection (as_raws s1) (a_size a)
                                 end) cap ;
        Ok (s1, out, cap')
    end in
  match as_mode s with
  | None => do '(m, s1) <- commit a s ; batch s1 m
  | Some m =>
      if as_streaming s then
        let bs := finish_section m (a_size a) (as_stream s) in
        do '(out, cap') <- emit [chk bs] cap ;
        Ok (s, out, cap')
      else batch s m
  end.

(** *** Encoding a chunk: V5 900-963 *)
Fixpoint map2M {A B C} (g : A -> B -> res C) (l : list A) (l' : list B) : res (list C) :=
  match l, l' with
  | a :: l1, b :: l2 => do c <- g a b ; do cs <- map2M g l1 l2 ; Ok (c :: cs)
  | [], [] => Ok []
  | _, _ => UB
  end.
(** V5 920-932 encode_point_range: [n] points from [view] on *)
Fixpoint enc_range (ops : float_ops) (es : list fenc) (afs : list afield) (step n : nat)
         (sts : list fstate) (ass : list astate) (view : list Z)
  : res (list fstate * list astate * list Z * list Z) :=
  match n with
  | O => Ok (sts, ass, [], view)
  | S k =>
      do '(sts1, o1) <- enc_point ops es sts view ;
      do ass1 <- map2M (fun a s => collect a s view) afs ass ;
      do '(sts2, ass2, o2, view') <- enc_range ops es afs step k sts1 ass1 (skipn step view) ;
      Ok (sts2, ass2, o1 ++ o2, view')
  end.
Fixpoint append_sections (afs : list afield) (ass : list astate) (cap : Z) : res (list astate * list Z) :=
  match afs, ass with
  | a :: afs', s :: ass' =>
      do '(s1, o1, cap1) <- append_section a s cap ;
      do '(ss, o2) <- append_sections afs' ass' cap1 ;
      Ok (s1 :: ss, o1 ++ o2)
  | [], [] => Ok ([], [])
  | _, _ => UB
  end.
Definition uncommitted (s : astate) : bool := match as_mode s with None => true | Some _ => false end.
Definition enc_chunk_v5 (ops : float_ops) (es : list fenc) (afs : list afield) (step probe : nat) (cap : Z)
           (n : nat) (ass : list astate) (view : list Z) : res (list astate * list Z) :=
  let ass1 := map prepare_chunk ass in
  do '(ass2, regular) <-
    (if existsb uncommitted ass1 && (probe <? n)%nat then
       do '(sts1, ass2, o1, view1) <- enc_range ops es afs step probe (resets es) ass1 view ;
       do ass3 <- map2M commit_probe afs ass2 ;
       do '(_, ass4, o2, _) <- enc_range ops es afs step (n - probe) sts1 ass3 view1 ;
       Ok (ass4, o1 ++ o2)
     else
       do '(_, ass2, o1, _) <- enc_range ops es afs step n (resets es) ass1 view ;
       Ok (ass2, o1)) ;
  if cap <? zlen regular then UB      (* regular encoders write without a check *)
  else
    do '(ass5, sections) <- append_sections afs ass2 (cap - zlen regular) ;
    Ok (ass5, regular ++ sections).

(** V5 719-739 buildV5Plan *)
Definition BuildV5Plan (i : info) : res (list fenc * list afield) :=
  let rest := skipn (LeadingLossyFloatFieldCount i) (i_fields i) in
  let adaptive f := is_lossy (i_enc i) && isV5AdaptiveIntType (f_type f) in
  do lead <- leading_encoder i ;
  do regular <- mapM (CreateCompatibleEncoder i) (filter (fun f => negb (adaptive f)) rest) ;
  Ok (lead ++ regular, map (fun f => mkA (f_off f) (f_type f)) (filter adaptive rest)).

(** V5 883-892 *)
Definition UsesV5Codec (i : info) : bool :=
  (5 <=? i_version i) && is_lossy (i_enc i) &&
  existsb (fun f => isV5AdaptiveIntType (f_type f)) (skipn (LeadingLossyFloatFieldCount i) (i_fields i)).
(** V5 894-898 *)
Definition V5StageBufferSize (i : info) (ppc : Z) : res Z :=
  do m <- MaxSerializedPointSize i ;
  Ok (ppc * (Z.max (i_step i) m + 64) + zlen (i_fields i) * 64 + 1024).

(** *** Decoding: V5 764-879 *)
Section SectionDecode.
  Variables (a : afield) (base step : Z) (npts : Z).
  (** writeRawBitsToPoint(value, bytes, output_base + i*step + offset): no check, so a
      write outside the output is UB.  [a_off a] is the offset as given: the skip
      marker is not looked at. *)
  Definition put_value (i : Z) (value : Z) (mem : list Z) : res (list Z) :=
    wr (base + i * step + a_off a) (le_bytes (a_size a) value) mem.

  (** V5 780-792 *)
  Fixpoint dec_delta (n : nat) (i prev : Z) (input mem : list Z) : res (list Z * list Z) :=
    match n with
    | O => Ok (input, mem)
    | S k =>
        do '(diff, count) <- decodeVarint input ;
        let value := s64 (prev + diff) in
        do mem' <- put_value i value mem ;
        dec_delta k (i + 1) value (skipn count input) mem'
    end.

  (** V5 231-242 readBitpackedIndex; the pointer is not checked against the input. *)
  Fixpoint idx_fill (fuel : nat) (bits scratch held : Z) (ptr : list Z) : res (Z * Z * list Z) :=
    match fuel with
    | O => UB
    | S k =>
        if held <? bits then
          match ptr with
          | [] => UB
          | b :: ptr' => idx_fill k bits (Z.lor scratch (u64 (Z.shiftl b held))) (held + 8) ptr'
          end
        else Ok (scratch, held, ptr)
    end.
  Definition readBitpackedIndex (bits scratch held : Z) (ptr : list Z) : res (Z * Z * Z * list Z) :=
    if bits =? 0 then Ok (0, scratch, held, ptr)
    else
      do '(scratch, held, ptr) <- idx_fill 16 bits scratch held ptr ;
      Ok (Z.land scratch (Z.shiftl 1 bits - 1), Z.shiftr scratch bits, held - bits, ptr).
  (** V5 818-825 *)
  Fixpoint dec_indexes (n : nat) (i bits scratch held : Z) (pal ptr mem : list Z) : res (list Z) :=
    match n with
    | O => Ok mem
    | S k =>
        do '(idx, scratch, held, ptr) <- readBitpackedIndex bits scratch held ptr ;
        match nth_error pal (Z.to_nat idx) with
        | None => Throw
        | Some v => do mem' <- put_value i v mem ; dec_indexes k (i + 1) bits scratch held pal ptr mem'
        end
    end.
  (** V5 801-808 *)
  Fixpoint dec_palette (n : nat) (input : list Z) : res (list Z * list Z) :=
    match n with
    | O => Ok ([], input)
    | S k =>
        if (length input <? a_size a)%nat then Throw
        else
          do '(pal, rest) <- dec_palette k (skipn (a_size a) input) ;
          Ok (le_val (firstn (a_size a) input) :: pal, rest)
    end.

  (** Inner loop of V5 842-845: [len] writes.  [fuel] is the size of the output plus
      one: with a non-zero point step every write is at a new position, so a longer
      run leaves the buffer before the fuel is used up. *)
  Fixpoint fill_run (fuel : nat) (i len value : Z) (mem : list Z) : res (Z * list Z) :=
    if len <=? 0 then Ok (i, mem)
    else match fuel with
         | O => UB
         | S k => do mem' <- put_value i value mem ; fill_run k (i + 1) (len - 1) value mem'
         end.
  (** V5 828-849; [fuel] bounds run_count by the input (each run consumes bytes). *)
  Fixpoint dec_rle (fuel : nat) (r : Z) (out_index : Z) (input mem : list Z) : res (list Z * list Z) :=
    if r <=? 0 then (if out_index =? npts then Ok (input, mem) else Throw)
    else match fuel with
         | O => UB
         | S k =>
             if (length input <? a_size a)%nat then Throw
             else
               let value := le_val (firstn (a_size a) input) in
               do '(run_len, rest) <- readUVarint (skipn (a_size a) input) ;
               if npts <? u64 (out_index + run_len) then Throw
               else
                 do '(out_index', mem') <- fill_run (S (length mem)) out_index run_len value mem ;
                 dec_rle k (r - 1) out_index' rest mem'
         end.
  (** Inner loop of V5 864-871. *)
  Fixpoint fill_delta_run (fuel : nat) (i len prev diff : Z) (mem : list Z) : res (Z * Z * list Z) :=
    if len <=? 0 then Ok (i, prev, mem)
    else match fuel with
         | O => UB
         | S k =>
             let value := s64 (prev + diff) in
             do mem' <- put_value i value mem ; fill_delta_run k (i + 1) (len - 1) value diff mem'
         end.
  (** V5 851-876 *)
  Fixpoint dec_delta_rle (fuel : nat) (r out_index prev : Z) (input mem : list Z) : res (list Z * list Z) :=
    if r <=? 0 then (if out_index =? npts then Ok (input, mem) else Throw)
    else match fuel with
         | O => UB
         | S k =>
             do '(diff, count) <- decodeVarint input ;
             do '(run_len, rest) <- readUVarint (skipn count input) ;
             if npts <? u64 (out_index + run_len) then Throw
             else
               do '(out_index', prev', mem') <- fill_delta_run (S (length mem)) out_index run_len prev diff mem ;
               dec_delta_rle k (r - 1) out_index' prev' rest mem'
         end.

  (** decode<T>(input): encoding_utils.hpp decode() with its size check *)
  Definition take_uint (n : nat) (input : list Z) : res (Z * list Z) :=
    if (length input <? n)%nat then Throw else Ok (le_val (firstn n input), skipn n input).

  (** V5 764-879 decodeV5AdaptiveIntSection: remaining input and output memory *)
  Definition decode_section (input mem : list Z) : res (list Z * list Z) :=
    match input with
    | [] => Throw
    | mode :: input =>
        match mode with
        | 0 => dec_delta (Z.to_nat npts) 0 0 input mem
        | 1 =>
            do '(count, input) <- take_uint 2 input ;
            if count =? 0 then Throw
            else
              do '(pal, input) <- dec_palette (Z.to_nat count) input ;
              let bits := bitsForPaletteIndex count in
              let index_bytes := Z.to_nat ((bits * npts + 7) / 8) in
              if (length input <? index_bytes)%nat then Throw
              else
                do mem' <- dec_indexes (Z.to_nat npts) 0 bits 0 0 pal input mem ;
                Ok (skipn index_bytes input, mem')
        | 2 =>
            do '(count, input) <- take_uint 4 input ;
            dec_rle (S (length input)) count 0 input mem
        | 3 =>
            do '(count, input) <- take_uint 4 input ;
            dec_delta_rle (S (length input)) count 0 0 input mem
        | _ => Throw
        end
    end.
End SectionDecode.

Fixpoint decode_sections (afs : list afield) (base step npts : Z) (input mem : list Z) : res (list Z * list Z) :=
  match afs with
  | [] => Ok (input, mem)
  | a :: afs' =>
      do '(input', mem') <- decode_section a base step npts input mem ;
      decode_sections afs' base step npts input' mem'
  end.

(** V5 741-762 getV5AdaptiveFields *)
Definition getV5AdaptiveFields (i : info) : list afield :=
  if is_lossy (i_enc i) then
    map (fun f => mkA (f_off f) (f_type f))
        (filter (fun f => isV5AdaptiveIntType (f_type f)) (skipn (LeadingLossyFloatFieldCount i) (i_fields i)))
  else [].
(** V5 965-982 BuildV5Decoders *)
Definition BuildV5Decoders (i : info) : res (list fdec) :=
  do lead <- leading_decoder i ;
  do rest <- mapM (CreateCompatibleDecoder i)
                  (filter (fun f => negb (isV5AdaptiveIntType (f_type f))) (skipn (LeadingLossyFloatFieldCount i) (i_fields i))) ;
  Ok (lead ++ rest).

(** V5 993-1001: the point-wise part, without any size check on the input *)
Fixpoint dec_points_v5 (ops : float_ops) (ds : list fdec) (step : Z) (n : nat) (sts : list fstate)
         (input : list Z) (base : Z) (mem : list Z) : res (list Z * list Z) :=
  match n with
  | O => Ok (input, mem)
  | S k =>
      do '(sts', input', mem') <- dec_point ops ds sts input base mem ;
      dec_points_v5 ops ds step k sts' input' (base + step) mem'
  end.
(** V5 984-1012 DecodeV5Stage1Chunk: new output position and memory *)
Definition DecodeV5Stage1Chunk (ops : float_ops) (i : info) (ds : list fdec) (input : list Z)
           (expected : nat) (base : Z) (mem : list Z) : res (Z * list Z) :=
  if (expected =? 0)%nat then Throw
  else
    let output_bytes := Z.of_nat expected * i_step i in
    if zlen mem - base <? output_bytes then Throw
    else
      do '(input1, mem1) <- dec_points_v5 ops ds (i_step i) expected (resets ds) input base mem ;
      do '(input2, mem2) <- decode_sections (getV5AdaptiveFields i) base (i_step i) (Z.of_nat expected) input1 mem1 ;
      match input2 with
      | [] => Ok (base + output_bytes, mem2)
      | _ => Throw
      end.
