(** Codec selection and the V4 chunk codec.  Models
    - cloudini_lib/src/codec_common.cpp:29-218 ("CC"),
    - cloudini_lib/src/v4_codec.cpp ("V4"). *)
From Verif Require Import Base Varint Types Floats Fields.

Definition has_res (f : field) : bool := match f_res f with Some _ => true | None => false end.
Definition res_of (f : field) : Z := match f_res f with Some r => r | None => 0 end.
Definition is_float32 (t : ftype) : bool := match t with FLOAT32 => true | _ => false end.
Definition is_lossy (e : enc_opt) : bool := match e with ENC_LOSSY => true | _ => false end.

(** CC 29-59 MaxSerializedFieldSize; unsupported types throw. *)
Definition MaxSerializedFieldSize (f : field) (opt : enc_opt) : res Z :=
  match f_type f with
  | INT16 | UINT16 | INT32 | UINT32 | INT64 | UINT64 => Ok 10
  | FLOAT32 => Ok (if is_lossy opt && has_res f then 10 else 7)
  | FLOAT64 => Ok (if is_lossy opt && has_res f then 10 else 11)
  | INT8 | UINT8 => Ok 1
  | UNKNOWN | FT_OTHER _ => Throw
  end.

(** CC 61-67 *)
Fixpoint max_fields_size (fs : list field) (opt : enc_opt) : res Z :=
  match fs with
  | [] => Ok 0
  | f :: fs' => do a <- MaxSerializedFieldSize f opt ; do b <- max_fields_size fs' opt ; Ok (a + b)
  end.
Definition MaxSerializedPointSize (i : info) : res Z := max_fields_size (i_fields i) (i_enc i).

(** CC 69-82 *)
Fixpoint leading_lossy (fs : list field) : nat :=
  match fs with
  | f :: fs' => if is_float32 (f_type f) && has_res f then S (leading_lossy fs') else O
  | [] => O
  end.
Definition LeadingLossyFloatFieldCount (i : info) : nat :=
  if is_lossy (i_enc i) then
    let n := leading_lossy (i_fields i) in
    if (n =? 3)%nat || (n =? 4)%nat then n else O
  else O.

Definition lanes_of (fs : list field) : list (Z * Z) := map (fun f => (f_off f, res_of f)) fs.

(** CC 84-98 with the constructor checks of field_encoder.cpp:24-40 *)
Definition leading_encoder (i : info) : res (list fenc) :=
  let n := LeadingLossyFloatFieldCount i in
  if (n =? 0)%nat then Ok []
  else
    let lanes := lanes_of (firstn n (i_fields i)) in
    if existsb (fun l => f32_inv_le0 (snd l)) lanes then Throw else Ok [EFloatN lanes].
(** CC 100-114 with field_decoder.cpp:24-41 *)
Definition leading_decoder (i : info) : res (list fdec) :=
  let n := LeadingLossyFloatFieldCount i in
  if (n =? 0)%nat then Ok []
  else
    let lanes := lanes_of (firstn n (i_fields i)) in
    if existsb (fun l => f32_le0 (snd l)) lanes then Throw else Ok [DFloatN lanes].

(** CC 116-153.  The lossy constructors throw when the resolution is <= 0 (E103-105). *)
Definition CreateCompatibleEncoder (i : info) (f : field) : res fenc :=
  let off := f_off f in
  match f_type f with
  | FLOAT32 =>
      if is_lossy (i_enc i) && has_res f then
        (if f32_le0 (res_of f) then Throw else Ok (ELossy32 off (res_of f)))
      else match i_enc i with
           | ENC_LOSSLESS => Ok (EXor off 4)
           | _ => Ok (ECopy off (SizeOf FLOAT32))
           end
  | FLOAT64 =>
      if is_lossy (i_enc i) && has_res f then
        (if f32_le0 (res_of f) then Throw else Ok (ELossy64 off (res_of f)))
      else if negb (has_res f) && (4 <=? i_version i) then Ok (EGorilla off)
      else Ok (EXor off 8)
  | INT16 | INT32 | UINT16 | UINT32 | UINT64 | INT64 => Ok (EInt off (f_type f))
  | INT8 | UINT8 => Ok (ECopy off (SizeOf (f_type f)))
  | UNKNOWN | FT_OTHER _ => Throw
  end.

(** CC 155-198 *)
Definition CreateCompatibleDecoder (i : info) (f : field) : res fdec :=
  let off := f_off f in
  let lossy32 := if f32_le0 (res_of f) then Throw else Ok (DLossy32 off (res_of f)) in
  let lossy64 := if f32_le0 (res_of f) then Throw else Ok (DLossy64 off (res_of f)) in
  match f_type f with
  | FLOAT32 =>
      if is_lossy (i_enc i) && has_res f then lossy32
      else match i_enc i with
           | ENC_LOSSLESS => Ok (DXor off 4)
           | _ => if has_res f then lossy32 else Ok (DCopy off (SizeOf FLOAT32))
           end
  | FLOAT64 =>
      if is_lossy (i_enc i) && has_res f then lossy64
      else if has_res f && negb (match i_enc i with ENC_LOSSLESS => true | _ => false end) then lossy64
      else if negb (has_res f) && (4 <=? i_version i) then Ok (DGorilla off)
      else Ok (DXor off 8)
  | INT16 | INT32 | UINT16 | UINT32 | UINT64 | INT64 => Ok (DInt off (SizeOf (f_type f)))
  | INT8 | UINT8 => Ok (DCopy off (SizeOf (f_type f)))
  | UNKNOWN | FT_OTHER _ => Throw
  end.

Fixpoint mapM {A B} (g : A -> res B) (l : list A) : res (list B) :=
  match l with
  | [] => Ok []
  | x :: l' => do y <- g x ; do ys <- mapM g l' ; Ok (y :: ys)
  end.

(** V4 26-40 *)
Definition BuildV4Encoders (i : info) : res (list fenc) :=
  match i_enc i with
  | ENC_NONE => Ok (map (fun f => ECopy (f_off f) (SizeOf (f_type f))) (i_fields i))
  | _ =>
      do lead <- leading_encoder i ;
      do rest <- mapM (CreateCompatibleEncoder i) (skipn (LeadingLossyFloatFieldCount i) (i_fields i)) ;
      Ok (lead ++ rest)
  end.

(** V4 42-64 *)
Definition sum_nat (l : list nat) : nat := fold_right Nat.add O l.
Definition BuildV4Decoders (i : info) : res (list fdec * nat) :=
  match i_enc i with
  | ENC_NONE =>
      let ds := map (fun f => DCopy (f_off f) (SizeOf (f_type f))) (i_fields i) in
      Ok (ds, sum_nat (map (fun f => SizeOf (f_type f)) (i_fields i)))
  | _ =>
      do lead <- leading_decoder i ;
      do rest <- mapM (CreateCompatibleDecoder i) (skipn (LeadingLossyFloatFieldCount i) (i_fields i)) ;
      let ds := lead ++ rest in
      Ok (ds, sum_nat (map min_input_bytes ds))
  end.

(** One pass of all encoders over a point (V4 74-76, also v5_codec.cpp:924-926). *)
Fixpoint enc_point (ops : float_ops) (es : list fenc) (sts : list fstate) (view : list Z)
  : res (list fstate * list Z) :=
  match es, sts with
  | e :: es', st :: sts' =>
      do '(st', o1) <- enc_step ops e st view ;
      do '(sts'', o2) <- enc_point ops es' sts' view ;
      Ok (st' :: sts'', o1 ++ o2)
  | [], [] => Ok ([], [])
  | _, _ => UB
  end.

(** The loop of V4 66-83 EncodeV4Stage1Chunk on encoders in states [sts]; returns the
    remaining cloud and the chunk's stage-1 bytes.  [n] bounds the loop
    ([points_in_current_chunk < points_per_chunk]); flush() appends nothing.  The version
    that keeps the encoder states is [enc_points_obj] in Api.v. *)
Fixpoint enc_points_v4 (ops : float_ops) (es : list fenc) (step : nat) (n : nat) (sts : list fstate)
         (cloud : list Z) : res (list Z * list Z) :=
  match n with
  | O => Ok (cloud, [])
  | S k =>
      match cloud with
      | [] => Ok ([], [])
      | _ =>
          do '(sts', o1) <- enc_point ops es sts cloud ;
          do cloud' <- trim_front step cloud ;
          do '(rest, o2) <- enc_points_v4 ops es step k sts' cloud' ;
          Ok (rest, o1 ++ o2)
      end
  end.
(** The states of freshly constructed (or reset) objects. *)
Definition resets {A} (l : list A) : list fstate := map (fun _ => reset_state) l.

(** One pass of all decoders over a point (V4 96-98, v5_codec.cpp:999-1001). [base]:
    position of the point in the output memory. *)
Fixpoint dec_point (ops : float_ops) (ds : list fdec) (sts : list fstate) (input : list Z)
         (base : Z) (mem : list Z) : res (list fstate * list Z * list Z) :=
  match ds, sts with
  | d :: ds', st :: sts' =>
      do '(st', input', ss) <- dec_step ops d st input ;
      do mem' <- do_stores base ss mem ;
      do '(sts'', input'', mem'') <- dec_point ops ds' sts' input' base mem' ;
      Ok (st' :: sts'', input'', mem'')
  | [], [] => Ok ([], input, mem)
  | _, _ => UB
  end.

(** V4 85-117 DecodeV4Stage1Chunk.  The output span is memory [mem] from position
    [base] on (to its end); each decoded point advances it by [step].
    First variant: expected_points > 0 (V4 102-108). *)
Fixpoint dec_points_v4 (ops : float_ops) (ds : list fdec) (minb : nat) (step : Z) (n : nat)
         (sts : list fstate) (input : list Z) (base : Z) (mem : list Z) : res (list Z * Z * list Z) :=
  match n with
  | O => Ok (input, base, mem)
  | S k =>
      if (length input <? minb)%nat then Throw
      else if zlen mem - base <? step then Throw
      else
        do '(sts', input', mem') <- dec_point ops ds sts input base mem ;
        dec_points_v4 ops ds minb step k sts' input' (base + step) mem'
  end.
(** Second variant: expected_points == 0, until the input is empty (V4 109-116). With an
    empty decoder list or zero-width decoders the loop ends when the output is
    exhausted; [fuel] is the caller's bound and exhaustion is UB (a real infinite loop
    is possible when point_step = 0). *)
Fixpoint dec_points_v4_all (ops : float_ops) (ds : list fdec) (minb : nat) (step : Z) (fuel : nat)
         (sts : list fstate) (input : list Z) (base : Z) (mem : list Z) : res (list Z * Z * list Z) :=
  match fuel with
  | O => UB
  | S k =>
      match input with
      | [] => Ok (input, base, mem)
      | _ =>
          if (length input <? minb)%nat then Throw
          else if zlen mem - base <? step then Throw
          else
            do '(sts', input', mem') <- dec_point ops ds sts input base mem ;
            dec_points_v4_all ops ds minb step k sts' input' (base + step) mem'
      end
  end.
Definition DecodeV4Stage1Chunk (ops : float_ops) (ds : list fdec) (minb : nat) (input : list Z)
           (step : Z) (expected : nat) (base : Z) (mem : list Z) : res (list Z * Z * list Z) :=
  if (0 <? expected)%nat
  then dec_points_v4 ops ds minb step expected (resets ds) input base mem
  else dec_points_v4_all ops ds minb step (S (length mem)) (resets ds) input base mem.
