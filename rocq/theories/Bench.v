(** The codec benchmark: tools/src/mcap_codec_benchmark.cpp ("BM"), run with --mode and --decode-replay
    --hash.  A recording is what the mcap reader delivers (Mcap.v).  Not modelled: timing, the printed
    table, --explain, files, the runs over several modes at once and without --decode-replay (their
    encoding step is [bench_encode] for each mode; they compute no fingerprint). *)
From Verif Require Import Base Types Floats Codec Api Header Cdr Ros RosViz Mcap.
Open Scope Z_scope.
Open Scope list_scope.

(** BM 103-109 fnv1a *)
Fixpoint fnv1a (h : Z) (data : list Z) : Z :=
  match data with [] => h | b :: data' => fnv1a (u64 (Z.lxor h b * 1099511628211)) data' end.
(** BM 541 *)
Definition fnv_basis : Z := 14695981039346656037.

(** BM 266-279: --resolution (float bits), --max-messages, --sample-every, --zstd, and the mode: its
    version (4 or 5) and whether it is a "-viz" mode. *)
Record bench_options := mkBench { bo_res : Z; bo_max : Z; bo_every : Z; bo_zstd : bool; bo_version : Z; bo_viz : bool }.
(** BM 116-128 configureMode, and again for the viz modes BM 437-441; the info is that of the cloud *)
Definition bench_info (o : bench_options) (c : ros_cloud) : info :=
  let i := toEncodingInfo c in
  mkInfo (i_fields i) (i_width i) (i_height i) (i_step i) ENC_LOSSY (i_cfg i) (if bo_zstd o then COMP_ZSTD else COMP_NONE) (i_threads i) (bo_version o).

(** std::vector::resize when the vector is shorter: BM 450-452, 543-545 *)
Definition grow (n : Z) (buf : list Z) : list Z :=
  if zlen buf <? n then buf ++ repeat 0 (Z.to_nat (n - zlen buf)) else buf.

(** BM 93-101 DecodeSample *)
Record sample := mkSample { sm_info : info; sm_data : list Z; sm_need : Z }.
(** One measured message: the message, the cloud handed to the encoder and the sample, if any *)
Record measured := mkMeas { me_msg : message; me_cloud : ros_cloud; me_sample : option sample }.

(** BM 330-336: the topics of the channels whose schema is PointCloud2 *)
Definition cloud_topic (rec : recording) (id : Z) : option (list Z) :=
  match find_channel (rc_channels rec) id with
  | Some c =>
      match find_schema (rc_schemas rec) (ch_schema c) with
      | Some s => if leqb (s_name s) pointcloud_schema_name then Some (ch_topic c) else None
      | None => None
      end
  | None => None
  end.
(** std::map<std::string, uint64_t> seen, BM 381: lookup and increment (missing entries are 0) *)
Fixpoint seen_get (s : list (list Z * Z)) (t : list Z) : Z :=
  match s with [] => 0 | (a, n) :: s' => if leqb a t then n else seen_get s' t end.
Fixpoint seen_inc (s : list (list Z * Z)) (t : list Z) : list (list Z * Z) :=
  match s with [] => [(t, 1)] | (a, n) :: s' => if leqb a t then (a, u64 (n + 1)) :: s' else (a, n) :: seen_inc s' t end.

Section Bench.
  Variables (ft : float_text) (ops : float_ops) (L : libs) (ppc probe : nat).
  Variable o : bench_options.

  (** BM 396-411: parse, resolutions, skip the empty ones; [None]: "continue" *)
  Definition bench_parse (data : list Z) : res (option ros_cloud) :=
    match getDeserializedPointCloudMessage data with
    | Ok c =>
        let c := mkRos (r_cdr c) (r_sec c) (r_nsec c) (r_frame c) (r_height c) (r_width c)
                   (applyResolutionProfile [] (r_fields c) (Some (bo_res o))) (r_step c) (r_row c) (r_data c) (r_dense c) in
        Ok (if (zlen (r_data c) =? 0) || (r_step c =? 0) then None else Some c)
    | Throw => Ok None
    | UB => UB
    end.
  (** BM 433-442: the thinning of the viz modes; it is outside the try block *)
  Definition bench_cloud (c : ros_cloud) : res ros_cloud := if bo_viz o then applyVizLossyPreprocessing c else Ok c.
  (** BM 445-464: encode into the buffer of the mode, which only grows; exceptions are caught.
      Result: the encoded bytes (if any) and the buffer. *)
  Definition bench_encode (ebuf : list Z) (c : ros_cloud) : res (option (list Z) * list Z) :=
    let i := bench_info o c in
    match (do e <- PointcloudEncoder i (EncodeHeader ft i HYaml) ;
           if i_step i =? 0 then UB
           else do max <- MaxCompressedSize L ppc i (length (r_data c) / Z.to_nat (i_step i)) (zlen (e_hdr e)) ; Ok (e, max)) with
    | Throw => Ok (None, ebuf)
    | UB => UB
    | Ok (e, max) =>
        let '(r, out, _) := encode_view ops L ppc probe e (r_data c) (grow max ebuf) true in
        match r with
        | Ok size => Ok (Some (firstn (Z.to_nat size) out), out)
        | Throw => Ok (None, out)
        | UB => UB
        end
    end.
  (** BM 480-504: the header is parsed and the sample kept *)
  Definition bench_sample (enc : list Z) : res (option sample) :=
    match DecodeHeader ft enc with
    | Ok (i, rest) => Ok (Some (mkSample i rest (u64 (u64 (i_width i * i_height i) * i_step i))))
    | Throw => Ok None
    | UB => UB
    end.
  (** BM 387-528: the loop over the messages *)
  Fixpoint bench_loop (rec : recording) (seen : list (list Z * Z)) (ebuf : list Z) (l : list message) : res (list measured) :=
    match l with
    | [] => Ok []
    | m :: l' =>
        match cloud_topic rec (m_chan m) with
        | None => bench_loop rec seen ebuf l'
        | Some t =>
            let seen := seen_inc seen t in
            let k := seen_get seen t in
            if negb (bo_max o =? 0) && (bo_max o <? k) then bench_loop rec seen ebuf l'
            else if negb ((k - 1) mod (Z.max 1 (bo_every o)) =? 0) then bench_loop rec seen ebuf l'
            else
              do p <- bench_parse (m_data m) ;
              match p with
              | None => bench_loop rec seen ebuf l'
              | Some c =>
                  do c <- bench_cloud c ;
                  do '(enc, ebuf) <- bench_encode ebuf c ;
                  do s <- match enc with None => Ok None | Some d => bench_sample d end ;
                  do rest <- bench_loop rec seen ebuf l' ;
                  Ok (mkMeas m c s :: rest)
              end
        end
    end.
  (** BM 505, 511: the samples in order *)
  Fixpoint samples (l : list measured) : list sample :=
    match l with
    | [] => []
    | m :: l' => match me_sample m with Some s => s :: samples l' | None => samples l' end
    end.
  (** BM 542-552: the fingerprint pass; a new decoder for each sample, the output buffer only grows.
      Exceptions of decode are not caught here.  Result: the outputs that are hashed. *)
  Fixpoint replay (dbuf : list Z) (l : list sample) : res (list (list Z)) :=
    match l with
    | [] => Ok []
    | s :: l' =>
        let dbuf := grow (sm_need s) dbuf in
        let n := Z.to_nat (sm_need s) in
        do '(_, out) <- decode ops L ppc (sm_info s) (sm_data s) [] (firstn n dbuf) ;
        do rest <- replay (out ++ skipn n dbuf) l' ;
        Ok (out :: rest)
    end.
  Fixpoint hash_all (h : Z) (outs : list (list Z)) : Z :=
    match outs with [] => h | out :: outs' => hash_all (fnv1a h out) outs' end.
  (** BM 338-341 and 526-529: nothing to measure, nothing is printed ([None]) *)
  Definition fingerprint (rec : recording) : res (option Z) :=
    do ms <- bench_loop rec [] [] (rc_messages rec) ;
    match ms with
    | [] => Ok None
    | _ => do outs <- replay [] (samples ms) ; Ok (Some (hash_all fnv_basis outs))
    end.
End Bench.
