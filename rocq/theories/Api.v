(** The public encoder and decoder objects.  Models
    - cloudini_lib/src/chunk_writer.cpp ("CW"),
    - cloudini_lib/src/codec_common.cpp:200-299 ("CC"),
    - cloudini_lib/src/cloudini.cpp:249-292, 430-684 ("CL"),
    - cloudini_lib/src/v5_codec.cpp:900-963 (the chunk loop).
    The single-threaded paths; the threaded path is in Worker.v.
    Simplifications: memory allocation always succeeds; sizes are unbounded integers
    except where a cast or wrap is written out.  kPointsPerChunk and
    kAdaptiveModeProbePoints are the parameters [ppc] and [probe]. *)
From Verif Require Import Base Varint Types Floats Fields Codec V5.

(** *** The external compressors (liblz4, libzstd) *)
(** [compress src dst]: number of bytes produced ([None]: error, or a result <= 0 for
    LZ4) and the new contents of the destination buffer.
    [decompress src cap]: the decompressed bytes, [None] on error. *)
Record codec_lib := mkLib {
  c_compress : list Z -> list Z -> option Z * list Z;
  c_decompress : list Z -> Z -> option (list Z);
  c_bound : Z -> Z }.
Record libs := mkLibs { lz4 : codec_lib; zstd : codec_lib }.

Definition INT_MAX : Z := 2147483647.
Definition UINT32_MAX : Z := 4294967295.

(** *** Writing into the caller's buffer *)
(** The buffer [w_mem] is the whole span given to encode(); output_view_ is the part
    from [w_pos] on.  [w_sts]: mutable states of the encoder objects encoders_. *)
Record wstate := mkW { w_pos : Z; w_mem : list Z; w_sts : list fstate }.
Definition act (A : Type) := wstate -> res A * wstate.
Definition ret {A} (a : A) : act A := fun w => (Ok a, w).
Definition fail {A} : act A := fun w => (Throw, w).
Definition abind {A B} (m : act A) (k : A -> act B) : act B :=
  fun w => match m w with
           | (Ok a, w') => k a w'
           | (Throw, w') => (Throw, w')
           | (UB, w') => (UB, w')
           end.
Notation "'perform' x <- m ; k" := (abind m (fun x => k)) (at level 200, x name, m at level 100, k at level 200, right associativity).
(** output_view_.size() *)
Definition avail (w : wstate) : Z := zlen (w_mem w) - w_pos w.
(** memcpy to output_view_ + [at_pos], outside the buffer: UB *)
Definition put_at (pos : Z) (bs : list Z) : act unit := fun w =>
  match wr pos bs (w_mem w) with
  | Ok m => (Ok tt, mkW (w_pos w) m (w_sts w))
  | Throw => (Throw, w)
  | UB => (UB, w)
  end.
(** output_view_.trim_front(n) *)
Definition advance (n : Z) : act unit := fun w =>
  if avail w <? n then (Throw, w) else (Ok tt, mkW (w_pos w + n) (w_mem w) (w_sts w)).

(** CC 219-258: the call of the compressor and the handling of its result *)
Definition run_compressor (c : codec_lib) (src : list Z) : act Z := fun w =>
  let '(r, dst') := c_compress c src (skipn (Z.to_nat (w_pos w)) (w_mem w)) in
  let w' := mkW (w_pos w) (firstn (Z.to_nat (w_pos w)) (w_mem w) ++ dst') (w_sts w) in
  match r with
  | None => (Throw, w')
  | Some n => if UINT32_MAX <? n then (Throw, w') else abind (advance n) (fun _ => ret n) w'
  end.
(** CC 219-258 CompressChunk: compresses [src] at output_view_, returns the size. *)
Definition CompressChunk (L : libs) (opt : comp_opt) (src : list Z) : act Z := fun w =>
  if UINT32_MAX <? zlen src then (Throw, w)
  else match opt with
       | COMP_LZ4 => if (INT_MAX <? zlen src) || (INT_MAX <? avail w) then (Throw, w) else run_compressor (lz4 L) src w
       | COMP_ZSTD => run_compressor (zstd L) src w
       | COMP_NONE | COMP_OTHER _ => (Throw, w)
       end.

(** CW 27-48 WriteStage1Chunk *)
Definition WriteStage1Chunk (L : libs) (opt : comp_opt) (data : list Z) : act Z := fun w =>
  if UINT32_MAX <? zlen data then (Throw, w)
  else match opt with
       | COMP_NONE =>
           if avail w <? 4 then (Throw, w)
           else
             (perform _ <- put_at (w_pos w) (le_bytes 4 (zlen data)) ;
              perform _ <- advance 4 ;
              fun w1 =>
                if avail w1 <? zlen data then (Throw, w1)
                else (perform _ <- put_at (w_pos w1) data ; perform _ <- advance (zlen data) ; ret (zlen data + 4)) w1) w
       | _ =>
           (perform _ <- advance 4 ;
            perform n <- CompressChunk L opt data ;
            perform _ <- put_at (w_pos w) (le_bytes 4 n) ;
            ret (n + 4)) w
       end.

(** *** Stage 1, V4 codec *)
(** reset() of each class: field_encoder.hpp:62, 87-89, 110-112, 131-133, 168-175, 329-331 *)
Definition enc_reset (e : fenc) (st : fstate) : fstate :=
  match e with
  | ECopy _ _ => st
  | EInt _ _ | ELossy32 _ _ | ELossy64 _ _ | EXor _ _ => set_prev st 0
  | EGorilla _ => mkState 0 true 255 0 (s_vec st)
  | EFloatN _ => set_vec st [0;0;0;0]
  end.
Fixpoint resetEncoders (es : list fenc) (sts : list fstate) : list fstate :=
  match es, sts with
  | e :: es', st :: sts' => enc_reset e st :: resetEncoders es' sts'
  | _, _ => []
  end.
(** v4_codec.cpp:66-83 EncodeV4Stage1Chunk: final encoder states, remaining cloud, bytes *)
Fixpoint enc_points_obj (ops : float_ops) (es : list fenc) (step : nat) (n : nat) (sts : list fstate)
         (cloud : list Z) : res (list fstate * list Z * list Z) :=
  match n with
  | O => Ok (sts, cloud, [])
  | S k =>
      match cloud with
      | [] => Ok (sts, [], [])
      | _ =>
          do '(sts', o1) <- enc_point ops es sts cloud ;
          do cloud' <- trim_front step cloud ;
          do '(sts'', rest, o2) <- enc_points_obj ops es step k sts' cloud' ;
          Ok (sts'', rest, o1 ++ o2)
      end
  end.
Definition EncodeV4Stage1Chunk (ops : float_ops) (es : list fenc) (step ppc : nat) (sts : list fstate)
           (cloud : list Z) : res (list fstate * list Z * list Z) :=
  enc_points_obj ops es step ppc (resetEncoders es sts) cloud.

(** CL 608-615: [cap] is the stage buffer's capacity; the encoders write through raw
    pointers, so exceeding it is UB.  [fuel] bounds the chunks. *)
Fixpoint v4_loop (ops : float_ops) (L : libs) (opt : comp_opt) (es : list fenc) (step ppc : nat) (cap : Z)
         (fuel : nat) (remaining : list Z) : act Z := fun w =>
  match remaining with
  | [] => (Ok 0, w)
  | _ =>
      match fuel with
      | O => (UB, w)
      | S k =>
          match EncodeV4Stage1Chunk ops es step ppc (w_sts w) remaining with
          | Ok (sts', rest, bs) =>
              let w1 := mkW (w_pos w) (w_mem w) sts' in
              if cap <? zlen bs then (UB, w1)
              else (perform n <- WriteStage1Chunk L opt bs ;
                    perform m <- v4_loop ops L opt es step ppc cap k rest ; ret (n + m)) w1
          | Throw => (Throw, w)
          | UB => (UB, w)
          end
      end
  end.

(** v5_codec.cpp:908-962: [left] points remain, [view] is the cloud from the first of them *)
Fixpoint v5_loop (ops : float_ops) (L : libs) (opt : comp_opt) (es : list fenc) (afs : list afield)
         (step ppc probe : nat) (cap : Z) (fuel : nat) (left : nat) (ass : list astate) (view : list Z) : act Z :=
  fun w =>
  match left with
  | O => (Ok 0, w)
  | _ =>
      match fuel with
      | O => (UB, w)
      | S k =>
          let n := Nat.min left ppc in
          match enc_chunk_v5 ops es afs step probe cap n ass view with
          | Ok (ass', bs) =>
              (perform c <- WriteStage1Chunk L opt bs ;
               perform m <- v5_loop ops L opt es afs step ppc probe cap k (left - n) ass' (skipn (n * step) view) ;
               ret (c + m)) w
          | Throw => (Throw, w)
          | UB => (UB, w)
          end
      end
  end.

(** *** CL 249-292 MaxCompressedSize; [hdr]: length of the header when it is included *)
Definition chunk_bound (L : libs) (i : info) (maxpp : Z) (n : Z) : res Z :=
  let sz := n * maxpp + (if UsesV5Codec i then zlen (i_fields i) * 32 + 1024 else 0) in
  match i_comp i with
  | COMP_NONE => Ok (4 + sz)
  | COMP_LZ4 => if INT_MAX <? sz then Throw else Ok (4 + c_bound (lz4 L) sz)
  | COMP_ZSTD => Ok (4 + c_bound (zstd L) sz)
  | COMP_OTHER _ => Throw
  end.
Fixpoint chunks_bound (L : libs) (i : info) (maxpp : Z) (ppc : nat) (chunks : nat) (left : nat) : res Z :=
  match chunks with
  | O => Ok 0
  | S k =>
      let n := Nat.min left ppc in
      do a <- chunk_bound L i maxpp (Z.of_nat n) ;
      do b <- chunks_bound L i maxpp ppc k (left - n) ;
      Ok (a + b)
  end.
Definition chunks_count (ppc points : nat) : nat :=
  (points / ppc + (if (points mod ppc =? 0)%nat then 0 else 1))%nat.
Definition MaxCompressedSize (L : libs) (ppc : nat) (i : info) (points : nat) (hdr : Z) : res Z :=
  if i_step i =? 0 then Throw
  else
    do m <- MaxSerializedPointSize i ;
    do t <- chunks_bound L i m ppc (chunks_count ppc points) points ;
    Ok (hdr + t).

(** *** The encoder object: CL 430-438 (constructor), [e_sts] its mutable part *)
Record encoder := mkEnc { e_info : info; e_hdr : list Z; e_es : list fenc; e_sts : list fstate }.
(** [hdr]: the result of EncodeHeader (Yaml.v), which may throw *)
Definition PointcloudEncoder (i : info) (hdr : res (list Z)) : res encoder :=
  do h <- hdr ;
  if UsesV5Codec i then Ok (mkEnc i h [] [])
  else do es <- BuildV4Encoders i ; Ok (mkEnc i h es (resets es)).

(** CL 588-617: the stage-1 loop *)
Definition encode_body (ops : float_ops) (L : libs) (ppc probe : nat) (e : encoder) (cloud : list Z) (n : nat) : act Z :=
  fun w =>
  let i := e_info e in
  let step := Z.to_nat (i_step i) in
  if UsesV5Codec i then
    match V5StageBufferSize i (Z.of_nat ppc), BuildV5Plan i with
    | Ok cap, Ok (es, afs) =>
        v5_loop ops L (i_comp i) es afs step ppc probe cap (S n) n (map (fun _ => astate0) afs) cloud w
    | UB, _ | _, UB => (UB, w)
    | _, _ => (Throw, w)
    end
  else
    match MaxSerializedPointSize i with
    | Ok m => v4_loop ops L (i_comp i) (e_es e) step ppc (Z.of_nat ppc * Z.max (i_step i) m) (S n) cloud w
    | Throw => (Throw, w)
    | UB => (UB, w)
    end.

(** CL 573-618: header, then the chunks *)
Definition encode_write (ops : float_ops) (L : libs) (ppc probe : nat) (e : encoder) (cloud : list Z) (n : nat) (hdr : list Z) : act Z :=
  perform _ <- put_at 0 hdr ;
  perform _ <- advance (zlen hdr) ;
  perform m <- encode_body ops L ppc probe e cloud n ;
  ret (zlen hdr + m).
(** CL 522-623 encode(cloud_data, output, write_header): result, buffer, object *)
Definition encode_view (ops : float_ops) (L : libs) (ppc probe : nat) (e : encoder) (cloud out : list Z) (write_header : bool)
  : res Z * list Z * encoder :=
  let i := e_info e in
  if i_step i =? 0 then (Throw, out, e)
  else if negb (zlen cloud mod i_step i =? 0) then (Throw, out, e)
  else
    let n := (length cloud / Z.to_nat (i_step i))%nat in
    let hdr := if write_header then e_hdr e else [] in
    match MaxCompressedSize L ppc i n 0 with
    | Throw => (Throw, out, e)
    | UB => (UB, out, e)
    | Ok need =>
        if zlen out <? need + zlen hdr then (Throw, out, e)
        else
          let '(r, w) := encode_write ops L ppc probe e cloud n hdr (mkW 0 out (e_sts e)) in
          (r, w_mem w, mkEnc i (e_hdr e) (e_es e) (w_sts w))
    end.

(** std::vector::resize *)
Definition resize (n : Z) (v : list Z) : list Z :=
  firstn (Z.to_nat n) v ++ repeat 0 (Z.to_nat n - length v).
(** CL 501-520 encode(cloud_data, vector): result, vector, object *)
Definition encode_vec (ops : float_ops) (L : libs) (ppc probe : nat) (e : encoder) (cloud out : list Z)
  : res Z * list Z * encoder :=
  let i := e_info e in
  if i_step i =? 0 then (Throw, out, e)
  else if negb (zlen cloud mod i_step i =? 0) then (Throw, out, e)
  else
    let n := (length cloud / Z.to_nat (i_step i))%nat in
    match MaxCompressedSize L ppc i n (zlen (e_hdr e)) with
    | Throw => (Throw, out, e)
    | UB => (UB, out, e)
    | Ok sz =>
        match wr 0 (e_hdr e) (resize sz out) with
        | Ok out1 =>
            let h := length (e_hdr e) in
            let '(r, tail, e') := encode_view ops L ppc probe e cloud (skipn h out1) false in
            let out2 := firstn h out1 ++ tail in
            match r with
            | Ok added => (Ok (zlen (e_hdr e) + added), resize (zlen (e_hdr e) + added) out2, e')
            | r => (r, out2, e')
            end
        | _ => (UB, resize sz out, e)
        end
    end.

(** *** Decoder: CL 627-684 *)
(** CC 260-299 DecompressChunk: the encoded view and the (grown) scratch buffer *)
Definition DecompressChunk (L : libs) (opt : comp_opt) (chunk buf : list Z) (max : Z) : res (list Z * list Z) :=
  let run (c : codec_lib) :=
    let buf1 := if zlen buf <? max then resize max buf else buf in
    match c_decompress c chunk max with
    | None => Throw
    | Some r =>
        do buf2 <- wr 0 r buf1 ;
        Ok (firstn (length r) buf2, buf2)
    end in
  match opt with
  | COMP_NONE => Ok (chunk, buf)
  | COMP_LZ4 => if (INT_MAX <? zlen chunk) || (INT_MAX <? max) then Throw else run (lz4 L)
  | COMP_ZSTD => run (zstd L)
  | COMP_OTHER _ => Throw
  end.

(** CL 627-633 updateDecoders *)
Definition updateDecoders (i : info) : res (list fdec * nat) :=
  if UsesV5Codec i then (do ds <- BuildV5Decoders i ; Ok (ds, O)) else BuildV4Decoders i.

(** CL 669-682 decodeChunk: scratch buffer, output position, output memory *)
Definition decodeChunk (ops : float_ops) (L : libs) (i : info) (ds : list fdec) (minb : nat)
           (chunk buf : list Z) (expected : nat) (base : Z) (mem : list Z) : res (list Z * Z * list Z) :=
  let max := u64 (u64 (i_width i * i_height i) * i_step i) in
  do '(view, buf') <- DecompressChunk L (i_comp i) chunk buf max ;
  if UsesV5Codec i then
    do '(base', mem') <- DecodeV5Stage1Chunk ops i ds view expected base mem ;
    Ok (buf', base', mem')
  else
    do '(_, base', mem') <- DecodeV4Stage1Chunk ops ds minb view (i_step i) expected base mem ;
    Ok (buf', base', mem').

(** CL 646-664.  [points]: points_remaining.  Every turn consumes at least four bytes,
    so [fuel] = number of bytes + 1 is enough. *)
Fixpoint dec_loop (ops : float_ops) (L : libs) (ppc : nat) (i : info) (ds : list fdec) (minb : nat)
         (fuel : nat) (data buf : list Z) (points base : Z) (mem : list Z) : res (list Z * list Z) :=
  match data with
  | [] => if points =? 0 then Ok (buf, mem) else Throw
  | _ =>
      match fuel with
      | O => UB
      | S k =>
          if points =? 0 then Throw
          else
            do '(size, data1) <- take_uint 4 data ;
            if zlen data1 <? size then Throw
            else
              let n := Z.min points (Z.of_nat ppc) in
              do '(buf', base', mem') <-
                decodeChunk ops L i ds minb (firstn (Z.to_nat size) data1) buf (Z.to_nat n) base mem ;
              dec_loop ops L ppc i ds minb k (skipn (Z.to_nat size) data1) buf' (points - n) base' mem'
      end
  end.

(** kMagicHeader = "CLOUDINI_V" *)
Definition magic : list Z := [67;76;79;85;68;73;78;73;95;86].
Definition list_eqb (a b : list Z) : bool := if list_eq_dec Z.eq_dec a b then true else false.
Definition has_magic (data : list Z) : bool :=
  (length magic <=? length data)%nat && list_eqb (firstn (length magic) data) magic.

(** CL 635-667 decode(info, compressed_data, output); [buf]: decompressed_buffer_ *)
Definition decode (ops : float_ops) (L : libs) (ppc : nat) (i : info) (data buf out : list Z) : res (list Z * list Z) :=
  do '(ds, minb) <- updateDecoders i ;
  if has_magic data then Throw
  else if 3 <=? i_version i then
    dec_loop ops L ppc i ds minb (S (length data)) data buf (u64 (i_width i * i_height i)) 0 out
  else
    do '(buf', _, mem') <- decodeChunk ops L i ds minb data buf O 0 out ;
    Ok (buf', mem').
