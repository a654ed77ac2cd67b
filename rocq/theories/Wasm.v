(** The WebAssembly entry points.  Models src/wasm_functions.cpp ("WA").
    Pointers: an input is the bytes of the given size; [out] is the memory from the output pointer to
    the end of what the caller allocated there, and writing beyond it is [UB].  Results: the returned
    number and the new contents of [out]; [Throw] is an exception that leaves the function.
    Simplifications: size_t has the 64 bits of the other models and threads can be started
    (Size32.v and C82 say when 32 bits make no difference, and what happens without threads); after a failed decode the output
    memory is modelled as unchanged (the decoder may have written to the part it was given); a
    BufferView larger than [out] counts as [UB] as soon as it is passed on.  Console output is left
    out, allocation always succeeds. *)
From Verif Require Import Base Types Floats V5 Api Header Ros.

Section Wasm.
  Variables (ft : float_text) (ops : float_ops) (L : libs) (ppc probe : nat).
  (** try { return ...; } catch (const std::exception&) { return 0; } *)
  Definition or_zero {A} (r : res A) (out : list Z) (k : A -> res Z * list Z) : res Z * list Z :=
    match r with Ok a => k a | Throw => (Ok 0, out) | UB => (UB, out) end.
  (** std::memcpy to the output pointer; returns the size *)
  Definition emit (bs out : list Z) : res Z * list Z :=
    match wr 0 bs out with Ok out' => (Ok (u32 (zlen bs)), out') | _ => (UB, out) end.

  (** WA 25-43 *)
  Definition cldn_GetHeaderAsYAML (data out : list Z) : res Z * list Z :=
    or_zero (DecodeHeader ft data) out (fun '(i, _) => emit (EncodingInfoToYAML ft i) out).
  (** WA 45-54 *)
  Definition cldn_GetHeaderAsYAMLFromDDS (msg out : list Z) : res Z * list Z :=
    or_zero (getDeserializedPointCloudMessage msg) out (fun c => cldn_GetHeaderAsYAML (r_data c) out).
  (** WA 63-69, 178-184: every FLOAT32 field gets the resolution *)
  Definition with_resolution (r : Z) (f : field) : field :=
    mkField (f_name f) (f_off f) (f_type f) (match f_type f with FLOAT32 => Some r | _ => f_res f end).
  Definition message_info (c : ros_cloud) (r : Z) : info :=
    let i := toEncodingInfo c in
    mkInfo (map (with_resolution r) (i_fields i)) (i_width i) (i_height i) (i_step i) (i_enc i) (i_cfg i) (i_comp i) (i_threads i) (i_version i).
  (** uint32_t products: WA 76, 101, 155, 187, 222 *)
  Definition size32 (w h step : Z) : Z := u32 (u32 (w * h) * step).
  Definition new_encoder (i : info) : res encoder := do h <- EncodeHeader ft i HYaml ; PointcloudEncoder i (Ok h).
  (** WA 56-91 *)
  Definition cldn_ComputeCompressedSize (msg : list Z) (r : Z) : res Z :=
    match (do c <- getDeserializedPointCloudMessage msg ;
           do e <- new_encoder (message_info c r) ;
           if negb (zlen (r_data c) =? size32 (r_width c) (r_height c) (r_step c)) && ((r_width c =? 0) || (r_height c =? 0)) then Ok 0
           else let '(n, _, _) := encode_vec ops L ppc probe e (r_data c) [] in do n <- n ; Ok (u32 n)) with
    | Throw => Ok 0
    | x => x
    end.
  (** WA 93-103 *)
  Definition cldn_GetDecompressedSize (msg : list Z) : res Z :=
    match getDeserializedPointCloudMessage msg with Ok c => Ok (size32 (r_height c) (r_width c) (r_step c)) | Throw => Ok 0 | UB => UB end.
  (** WA 105-121 *)
  Definition cldn_ConvertCompressedMsgToPointCloud2Msg (msg out : list Z) : res Z * list Z :=
    or_zero (do c <- getDeserializedPointCloudMessage msg ; convertCompressedCloudToPointCloud2 ft ops L ppc c) out (fun m => emit m out).
  (** WA 144-167 *)
  Definition cldn_DecodeCompressedData (data out : list Z) : res Z * list Z :=
    or_zero (DecodeHeader ft data) out (fun '(i, rest) =>
      let size := size32 (i_width i) (i_height i) (i_step i) in
      if zlen out <? size then (UB, out)
      else or_zero (decode ops L ppc i rest [] (firstn (Z.to_nat size) out)) out (fun '(_, mem) => (Ok size, mem ++ skipn (Z.to_nat size) out))).
  (** WA 123-142: the message is parsed outside the try block *)
  Definition cldn_DecodeCompressedMessage (msg out : list Z) : res Z * list Z :=
    match getDeserializedPointCloudMessage msg with
    | Ok c => cldn_DecodeCompressedData (r_data c) out
    | Throw => (Throw, out)
    | UB => (UB, out)
    end.
  (** WA 169-214 *)
  Definition cldn_EncodePointcloudMessage (msg : list Z) (r : Z) (out : list Z) : res Z * list Z :=
    or_zero (getDeserializedPointCloudMessage msg) out (fun c =>
      let i := message_info c r in
      if negb (zlen (r_data c) =? size32 (r_width c) (r_height c) (r_step c)) then (Ok 0, out)
      else or_zero (new_encoder i) out (fun e =>
        if i_step i =? 0 then (UB, out)                                       (* WA 193: a division by zero *)
        else or_zero (MaxCompressedSize L ppc i (length (r_data c) / Z.to_nat (i_step i)) (zlen (e_hdr e))) out (fun max =>
          if max <=? zlen msg then
            if zlen out <? zlen msg then (UB, out)
            else
              let '(n, mem, _) := encode_view ops L ppc probe e (r_data c) (firstn (length msg) out) true in
              let out' := mem ++ skipn (length msg) out in
              or_zero n out' (fun n => (Ok (u32 n), out'))
          else
            let '(n, buf, _) := encode_vec ops L ppc probe e (r_data c) [] in
            or_zero n out (fun n => if zlen msg <? n then (Ok 0, out) else emit (firstn (Z.to_nat n) buf) out)))).
  (** WA 216-250; [yaml]: the characters before the terminating NUL *)
  Definition cldn_EncodePointcloudData (yaml data out : list Z) : res Z * list Z :=
    or_zero (EncodingInfoFromYAML ft yaml) out (fun i =>
      if negb (zlen data =? size32 (i_width i) (i_height i) (i_step i)) then (Ok 0, out)
      else or_zero (new_encoder i) out (fun e =>
        let '(n, buf, _) := encode_vec ops L ppc probe e data [] in
        or_zero n out (fun n => if zlen data <? n then (Ok 0, out) else emit (firstn (Z.to_nat n) buf) out))).
End Wasm.
