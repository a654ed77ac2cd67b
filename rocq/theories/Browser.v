(** The JavaScript callers of the WebAssembly functions.
    Models cloudini_foxglove/src/PointCloudConverter.tsx ("FX", a Foxglove message converter) and
    cloudini_web/main.js ("WM", a page that shows how much a recording could be compressed).
    Both put data in the heap of the WebAssembly module with _malloc, call a function of Wasm.v and
    _free what they allocated.
    The heap: the list of live blocks, each a pointer and its contents.  [alloc heap n] is what
    _malloc(n) answers: a pointer (0: no memory) and what the block holds; nothing is assumed here
    about it.  _free of a pointer that is not live is [UB].
    Simplifications: JavaScript numbers are integers (exact below 2^53; sizes beyond that are never
    allocated, the heap has at most 128 MB); arguments of _malloc are reduced modulo 2^32 as at the
    WebAssembly boundary; an uint32_t result arrives in JavaScript as a signed number, and a
    negative one makes the Uint8Array constructor throw; HEAPU8 exists and has [heap_len] bytes
    whenever it is asked; console output and the promise of the loader are left out. *)
From Verif Require Import Base Types Floats V5 Api Header Ros Pcl Transport Wasm.

Definition heap := list (Z * list Z).
(** _free; Throw is not a result *)
Fixpoint free (p : Z) (h : heap) : res heap :=
  match h with
  | [] => UB
  | (q, c) :: h' => if q =? p then Ok h' else do h'' <- free p h' ; Ok ((q, c) :: h'')
  end.
(** FX 96-97, WM 189: [if (p) _free(p)] for each of [ps] *)
Fixpoint free_all (ps : list Z) (h : heap) : res heap :=
  match ps with
  | [] => Ok h
  | p :: ps' => if p =? 0 then free_all ps' h else do h' <- free p h ; free_all ps' h'
  end.

Section Foxglove.
  Variables (ft : float_text) (ops : float_ops) (L : libs) (ppc : nat).
  Variables (alloc : heap -> Z -> Z * list Z) (heap_len : Z).
  (** FX 95-98: the [finally] block runs whatever the outcome *)
  Definition finally {A} (ps : list Z) (h : heap) (r : res A) : res A * heap :=
    match r with
    | UB => (UB, h)
    | _ => match free_all ps h with Ok h' => (r, h') | _ => (UB, h) end
    end.
  (** FX 24-36: the message but for its data *)
  Definition decodedMsg (m : comp_msg) (data : list Z) : pc2_msg :=
    mkMsg (k_header m) (k_height m) (k_width m) (k_fields m) false (k_step m) (k_step m * k_width m) data (k_dense m).
  (** FX 77-89, the call and what becomes of its result; the first member: the size returned *)
  Definition received (r : res Z * list Z) : res (list Z) :=
    match r with
    | (Ok n, out) =>
        if n =? 0 then Throw                                       (* FX 78-80 *)
        else if s32 n <? 0 then Throw                              (* FX 87: RangeError *)
        else Ok (firstn (Z.to_nat n) out)                          (* the function returns no size larger than its block *)
    | (Throw, _) => Throw
    | (UB, _) => UB
    end.
  (** FX 17-101; [loaded]: wasmModule is set.  The second result is the heap afterwards. *)
  Definition convertPointCloudWasm (loaded : bool) (h : heap) (m : comp_msg) : res pc2_msg * heap :=
    if negb loaded then (Throw, h)
    else if k_width m * k_height m =? 0 then (Ok (decodedMsg m []), h)
    else
      let bufferSize := zlen (k_data m) in
      if heap_len <? 4 * bufferSize then (Throw, h)                (* FX 54-59 *)
      else
        let '(inputDataPtr, _) := alloc h (u32 bufferSize) in
        if inputDataPtr =? 0 then (Throw, h)
        else
          let h1 := (inputDataPtr, k_data m) :: h in
          let decompressedSize := k_height m * k_width m * k_step m in
          let '(outputDataPtr, old) := alloc h1 (u32 decompressedSize) in
          if outputDataPtr =? 0 then finally [inputDataPtr; outputDataPtr] h1 Throw
          else
            let r := cldn_DecodeCompressedData ft ops L ppc (k_data m) old in
            let h2 := (outputDataPtr, snd r) :: h1 in
            finally [inputDataPtr; outputDataPtr] h2 (do data <- received r ; Ok (decodedMsg m data)).
End Foxglove.

(** ** The page *)
(** What the reader of @mcap/core knows: channels with their topics and the names of their schemas
    (undefined if the schema is missing), and the messages in the order of reading. *)
Record channel := mkChan { ch_id : Z; ch_topic : list Z; ch_schema : option (list Z) }.
Record message := mkMess { ms_channel : Z; ms_data : list Z }.
Record recording := mkRec { rec_channels : list channel; rec_messages : list message }.
(** reader.readMessages({topics: [topic]}): those of every channel of that topic *)
Definition readMessages (r : recording) (topic : list Z) : list message :=
  filter (fun m => existsb (fun c => (ch_id c =? ms_channel m) && (if list_eq_dec Z.eq_dec (ch_topic c) topic then true else false)) (rec_channels r)) (rec_messages r).
Record totals := mkTot { t_count : Z; t_size : Z; t_compressed : Z }.

Section Page.
  Variables (target : list Z) (compute : list Z -> res Z) (alloc : heap -> Z -> Z * list Z) (heap_len : Z).
  (** WM 124-140 *)
  Definition foundChannels (r : recording) : list channel :=
    filter (fun c => match ch_schema c with Some s => if list_eq_dec Z.eq_dec s target then true else false | None => false end) (rec_channels r).
  (** WM 158-206: one message.  [compute] is cldn_ComputeCompressedSize with 0.001; [Throw] is an
      exception out of the module, which leaves the block allocated (WM 188-189).  A size of 2^31 or
      more would count as negative. *)
  Definition analyzeMessage (t : totals) (h : heap) (m : message) : res (totals * heap) :=
    let dataSize := zlen (ms_data m) in
    let t1 := mkTot (t_count t + 1) (t_size t + dataSize) (t_compressed t) in
    if heap_len <? 4 * dataSize then Ok (t1, h)
    else
      let '(dataPtr, _) := alloc h (u32 dataSize) in
      if dataPtr =? 0 then UB                                      (* WM 184-185: writes to address 0 on *)
      else
        let h1 := (dataPtr, ms_data m) :: h in
        match compute (ms_data m) with
        | Ok n => do h2 <- free dataPtr h1 ; Ok (mkTot (t_count t1) (t_size t1) (t_compressed t1 + s32 n), h2)
        | Throw => Ok (t1, h1)
        | UB => UB
        end.
  Fixpoint analyzeMessages (t : totals) (h : heap) (ms : list message) : res (totals * heap) :=
    match ms with
    | [] => Ok (t, h)
    | m :: ms' => do '(t', h') <- analyzeMessage t h m ; analyzeMessages t' h' ms'
    end.
  (** WM 148-216 *)
  Fixpoint analyzeChannels (r : recording) (h : heap) (cs : list channel) : res (list totals * heap) :=
    match cs with
    | [] => Ok ([], h)
    | c :: cs' =>
        do '(t, h1) <- analyzeMessages (mkTot 0 0 0) h (readMessages r (ch_topic c)) ;
        do '(ts, h2) <- analyzeChannels r h1 cs' ;
        Ok (t :: ts, h2)
    end.
  (** WM 86-222 analyzeFile: grandTotalSize and grandTotalCompressed, the numbers on the page.
      Simplification: the texts shown (megabytes and ratio, rounded) are left out. *)
  Definition grand (f : totals -> Z) (ts : list totals) : Z := fold_left (fun sum t => sum + f t) ts 0.
  Definition analyzeFile (r : recording) (h : heap) : res (Z * Z * heap) :=
    do '(ts, h') <- analyzeChannels r h (foundChannels r) ;
    Ok (grand t_size ts, grand t_compressed ts, h').
End Page.

(** The module cloudini_wasm.js of the page is linked with DISABLE_EXCEPTION_CATCHING
    (cloudini_lib/CMakeLists.txt:175), unlike the one of the Foxglove extension (:184): what the
    functions of Wasm.v would catch leaves them as an exception.
    wasm_functions.cpp 56-91 without the effect of its catch clause (86-89). *)
Definition compute_uncaught (ft : float_text) (ops : float_ops) (L : libs) (ppc probe : nat) (r : Z) (msg : list Z) : res Z :=
  do c <- getDeserializedPointCloudMessage msg ;
  do e <- new_encoder ft (message_info c r) ;
  if negb (zlen (r_data c) =? size32 (r_width c) (r_height c) (r_step c)) && ((r_width c =? 0) || (r_height c =? 0)) then Ok 0
  else let '(n, _, _) := encode_vec ops L ppc probe e (r_data c) [] in do n <- n ; Ok (u32 n).
