(** The codec with a size_t of limited width, and the WebAssembly entry points of the real target.
    Models the same code as Api.v and Wasm.v, with every product and sum of type size_t reduced
    modulo [W] (2^32 on wasm32, 2^64 elsewhere):
    - src/cloudini.cpp:249-292, 501-623, 635-682 ("CL");
    - src/v5_codec.cpp:894-898, 984-1012 ("V5");
    - src/wasm_functions.cpp ("WA").
    Only the functions in which such an expression occurs are repeated; a run length of the V5
    decoder is a uint64_t on both targets (V5 838, 862), positions are compared with the end of the
    output at the first access outside it, which comes before an address could wrap.
    Emscripten without the -pthread option (CMakeLists.txt:150-186 gives none) cannot start threads:
    std::thread throws std::system_error.  [spawn] says whether a thread can be started. *)
From Verif Require Import Base Types Floats Fields Codec V5 Api Header Ros Wasm.

Section Size.
  Variable W : Z.
  Definition szw (x : Z) : Z := x mod W.

  (** *** Decoder *)
  (** V5 984-1012: [output_bytes] is a size_t *)
  Definition DecodeV5Stage1Chunk_w (ops : float_ops) (i : info) (ds : list fdec) (input : list Z)
             (expected : nat) (base : Z) (mem : list Z) : res (Z * list Z) :=
    if (expected =? 0)%nat then Throw
    else
      let output_bytes := szw (Z.of_nat expected * i_step i) in
      if zlen mem - base <? output_bytes then Throw
      else
        do '(input1, mem1) <- dec_points_v5 ops ds (i_step i) expected (resets ds) input base mem ;
        do '(input2, mem2) <- decode_sections (getV5AdaptiveFields i) base (i_step i) (Z.of_nat expected) input1 mem1 ;
        match input2 with
        | [] => Ok (base + output_bytes, mem2)
        | _ => Throw
        end.
  (** CL 669-682 *)
  Definition decodeChunk_w (ops : float_ops) (L : libs) (i : info) (ds : list fdec) (minb : nat)
             (chunk buf : list Z) (expected : nat) (base : Z) (mem : list Z) : res (list Z * Z * list Z) :=
    let max := szw (szw (i_width i * i_height i) * i_step i) in
    do '(view, buf') <- DecompressChunk L (i_comp i) chunk buf max ;
    if UsesV5Codec i then
      do '(base', mem') <- DecodeV5Stage1Chunk_w ops i ds view expected base mem ;
      Ok (buf', base', mem')
    else
      do '(_, base', mem') <- DecodeV4Stage1Chunk ops ds minb view (i_step i) expected base mem ;
      Ok (buf', base', mem').
  (** CL 646-664 *)
  Fixpoint dec_loop_w (ops : float_ops) (L : libs) (ppc : nat) (i : info) (ds : list fdec) (minb : nat)
           (fuel : nat) (data buf : list Z) (points base : Z) (mem : list Z) : res (list Z * list Z) :=
    match data with
    | [] => if points =? 0 then Ok (buf, mem) else Throw
    | _ =>
        match fuel with
        | O => UB
        | S k =>
            if points =? 0 then Throw
            else
              do '(size, data1) <- take_uint 4 data ;
              if zlen data1 <? size then Throw
              else
                let n := Z.min points (Z.of_nat ppc) in
                do '(buf', base', mem') <-
                  decodeChunk_w ops L i ds minb (firstn (Z.to_nat size) data1) buf (Z.to_nat n) base mem ;
                dec_loop_w ops L ppc i ds minb k (skipn (Z.to_nat size) data1) buf' (points - n) base' mem'
        end
    end.
  (** CL 635-667 *)
  Definition decode_w (ops : float_ops) (L : libs) (ppc : nat) (i : info) (data buf out : list Z) : res (list Z * list Z) :=
    do '(ds, minb) <- updateDecoders i ;
    if has_magic data then Throw
    else if 3 <=? i_version i then
      dec_loop_w ops L ppc i ds minb (S (length data)) data buf (szw (i_width i * i_height i)) 0 out
    else
      do '(buf', _, mem') <- decodeChunk_w ops L i ds minb data buf O 0 out ;
      Ok (buf', mem').

  (** *** Sizes *)
  (** codec_common.cpp:61-67 *)
  Definition point_size_w (i : info) : res Z := do m <- MaxSerializedPointSize i ; Ok (szw m).
  (** CL 262-289: one chunk.  The sum of the chunks is reduced once, in [MaxCompressedSize_w]. *)
  Definition chunk_bound_w (L : libs) (i : info) (maxpp : Z) (n : Z) : res Z :=
    let sz := szw (n * maxpp + (if UsesV5Codec i then zlen (i_fields i) * 32 + 1024 else 0)) in
    match i_comp i with
    | COMP_NONE => Ok (4 + sz)
    | COMP_LZ4 => if INT_MAX <? sz then Throw else Ok (4 + c_bound (lz4 L) sz)
    | COMP_ZSTD => Ok (4 + c_bound (zstd L) sz)
    | COMP_OTHER _ => Throw
    end.
  Fixpoint chunks_bound_w (L : libs) (i : info) (maxpp : Z) (ppc : nat) (chunks : nat) (left : nat) : res Z :=
    match chunks with
    | O => Ok 0
    | S k =>
        let n := Nat.min left ppc in
        do a <- chunk_bound_w L i maxpp (Z.of_nat n) ;
        do b <- chunks_bound_w L i maxpp ppc k (left - n) ;
        Ok (a + b)
    end.
  (** CL 249-292 *)
  Definition MaxCompressedSize_w (L : libs) (ppc : nat) (i : info) (points : nat) (hdr : Z) : res Z :=
    if i_step i =? 0 then Throw
    else
      do m <- point_size_w i ;
      do t <- chunks_bound_w L i m ppc (chunks_count ppc points) points ;
      Ok (szw (hdr + t)).
  (** V5 894-898 *)
  Definition V5StageBufferSize_w (i : info) (ppc : Z) : res Z :=
    do m <- point_size_w i ;
    Ok (szw (ppc * (Z.max (i_step i) m + 64) + zlen (i_fields i) * 64 + 1024)).

  (** *** Encoder *)
  (** CL 588-617 *)
  Definition encode_body_w (ops : float_ops) (L : libs) (ppc probe : nat) (e : encoder) (cloud : list Z) (n : nat) : act Z :=
    fun w =>
    let i := e_info e in
    let step := Z.to_nat (i_step i) in
    if UsesV5Codec i then
      match V5StageBufferSize_w i (Z.of_nat ppc), BuildV5Plan i with
      | Ok cap, Ok (es, afs) =>
          v5_loop ops L (i_comp i) es afs step ppc probe cap (S n) n (map (fun _ => astate0) afs) cloud w
      | UB, _ | _, UB => (UB, w)
      | _, _ => (Throw, w)
      end
    else
      match point_size_w i with
      | Ok m => v4_loop ops L (i_comp i) (e_es e) step ppc (szw (Z.of_nat ppc * Z.max (i_step i) m)) (S n) cloud w
      | Throw => (Throw, w)
      | UB => (UB, w)
      end.
  (** CL 573-618 *)
  Definition encode_write_w (ops : float_ops) (L : libs) (ppc probe : nat) (e : encoder) (cloud : list Z) (n : nat) (hdr : list Z) : act Z :=
    perform _ <- put_at 0 hdr ;
    perform _ <- advance (zlen hdr) ;
    perform m <- encode_body_w ops L ppc probe e cloud n ;
    ret (zlen hdr + m).
  (** CL 522-623 *)
  Definition encode_view_w (ops : float_ops) (L : libs) (ppc probe : nat) (e : encoder) (cloud out : list Z) (write_header : bool)
    : res Z * list Z * encoder :=
    let i := e_info e in
    if i_step i =? 0 then (Throw, out, e)
    else if negb (zlen cloud mod i_step i =? 0) then (Throw, out, e)
    else
      let n := (length cloud / Z.to_nat (i_step i))%nat in
      let hdr := if write_header then e_hdr e else [] in
      match MaxCompressedSize_w L ppc i n 0 with
      | Throw => (Throw, out, e)
      | UB => (UB, out, e)
      | Ok need =>
          if zlen out <? szw (need + zlen hdr) then (Throw, out, e)
          else
            let '(r, w) := encode_write_w ops L ppc probe e cloud n hdr (mkW 0 out (e_sts e)) in
            (r, w_mem w, mkEnc i (e_hdr e) (e_es e) (w_sts w))
      end.
  (** CL 501-520 *)
  Definition encode_vec_w (ops : float_ops) (L : libs) (ppc probe : nat) (e : encoder) (cloud out : list Z)
    : res Z * list Z * encoder :=
    let i := e_info e in
    if i_step i =? 0 then (Throw, out, e)
    else if negb (zlen cloud mod i_step i =? 0) then (Throw, out, e)
    else
      let n := (length cloud / Z.to_nat (i_step i))%nat in
      match MaxCompressedSize_w L ppc i n (zlen (e_hdr e)) with
      | Throw => (Throw, out, e)
      | UB => (UB, out, e)
      | Ok sz =>
          match wr 0 (e_hdr e) (resize sz out) with
          | Ok out1 =>
              let h := length (e_hdr e) in
              let '(r, tail, e') := encode_view_w ops L ppc probe e cloud (skipn h out1) false in
              let out2 := firstn h out1 ++ tail in
              match r with
              | Ok added => (Ok (zlen (e_hdr e) + added), resize (zlen (e_hdr e) + added) out2, e')
              | r => (r, out2, e')
              end
          | _ => (UB, resize sz out, e)
          end
      end.
  (** CL 430-441, the constructor; a thread is started unless the options say otherwise *)
  Definition wants_thread (i : info) : bool := match i_comp i with COMP_NONE => false | _ => i_threads i end.
  Definition new_encoder_w (ft : float_text) (spawn : bool) (i : info) : res encoder :=
    do e <- new_encoder ft i ;
    if wants_thread i && negb spawn then Throw else Ok e.

  (** *** Entry points *)
  Section Entry.
    Variables (spawn : bool) (ft : float_text) (ops : float_ops) (L : libs) (ppc probe : nat).
    (** WA 56-91 *)
    Definition ComputeCompressedSize_w (msg : list Z) (r : Z) : res Z :=
      match (do c <- getDeserializedPointCloudMessage msg ;
             do e <- new_encoder_w ft spawn (message_info c r) ;
             if negb (zlen (r_data c) =? size32 (r_width c) (r_height c) (r_step c)) && ((r_width c =? 0) || (r_height c =? 0)) then Ok 0
             else let '(n, _, _) := encode_vec_w ops L ppc probe e (r_data c) [] in do n <- n ; Ok (u32 n)) with
      | Throw => Ok 0
      | x => x
      end.
    (** WA 144-167 *)
    Definition DecodeCompressedData_w (data out : list Z) : res Z * list Z :=
      or_zero (DecodeHeader ft data) out (fun '(i, rest) =>
        let size := size32 (i_width i) (i_height i) (i_step i) in
        if zlen out <? size then (UB, out)
        else or_zero (decode_w ops L ppc i rest [] (firstn (Z.to_nat size) out)) out (fun '(_, mem) => (Ok size, mem ++ skipn (Z.to_nat size) out))).
    (** WA 123-142 *)
    Definition DecodeCompressedMessage_w (msg out : list Z) : res Z * list Z :=
      match getDeserializedPointCloudMessage msg with
      | Ok c => DecodeCompressedData_w (r_data c) out
      | Throw => (Throw, out)
      | UB => (UB, out)
      end.
    (** WA 169-214 *)
    Definition EncodePointcloudMessage_w (msg : list Z) (r : Z) (out : list Z) : res Z * list Z :=
      or_zero (getDeserializedPointCloudMessage msg) out (fun c =>
        let i := message_info c r in
        if negb (zlen (r_data c) =? size32 (r_width c) (r_height c) (r_step c)) then (Ok 0, out)
        else or_zero (new_encoder_w ft spawn i) out (fun e =>
          if i_step i =? 0 then (UB, out)
          else or_zero (MaxCompressedSize_w L ppc i (length (r_data c) / Z.to_nat (i_step i)) (zlen (e_hdr e))) out (fun max =>
            if max <=? zlen msg then
              if zlen out <? zlen msg then (UB, out)
              else
                let '(n, mem, _) := encode_view_w ops L ppc probe e (r_data c) (firstn (length msg) out) true in
                let out' := mem ++ skipn (length msg) out in
                or_zero n out' (fun n => (Ok (u32 n), out'))
            else
              let '(n, buf, _) := encode_vec_w ops L ppc probe e (r_data c) [] in
              or_zero n out (fun n => if zlen msg <? n then (Ok 0, out) else emit (firstn (Z.to_nat n) buf) out)))).
    (** WA 216-250 *)
    Definition EncodePointcloudData_w (yaml data out : list Z) : res Z * list Z :=
      or_zero (EncodingInfoFromYAML ft yaml) out (fun i =>
        if negb (zlen data =? size32 (i_width i) (i_height i) (i_step i)) then (Ok 0, out)
        else or_zero (new_encoder_w ft spawn i) out (fun e =>
          let '(n, buf, _) := encode_vec_w ops L ppc probe e data [] in
          or_zero n out (fun n => if zlen data <? n then (Ok 0, out) else emit (firstn (Z.to_nat n) buf) out))).
  End Entry.
End Size.
