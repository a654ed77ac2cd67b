(** The recording tools.  Models tools/src/mcap_converter.cpp ("MC") and tools/src/mcap_cutter.cpp
    ("MU").  The mcap library is not part of the repository; a recording is what its reader delivers:
    schemas and channels (maps, listed here by ascending id), and the messages in reading order.
    Not modelled: files and their errors, chunking and compression of the file, timing statistics,
    printing. *)
From Verif Require Import Base Types Floats Codec Api Header Cdr Ros RosViz.
From Coq Require Import String.
Open Scope Z_scope.
Open Scope list_scope.

Record schema := mkSchema { s_id : Z; s_name : list Z; s_enc : list Z; s_data : list Z }.
Record channel := mkChannel { ch_id : Z; ch_topic : list Z; ch_enc : list Z; ch_schema : Z; ch_meta : list (list Z * list Z) }.
Record message := mkMsg { m_chan : Z; m_seq : Z; m_log : Z; m_pub : Z; m_data : list Z }.
(** [rc_metadata], [rc_attachments]: the metadata and attachment records, opaque *)
Record recording := mkRec { rc_schemas : list schema; rc_channels : list channel; rc_messages : list message; rc_metadata : list (list Z); rc_attachments : list (list Z) }.

(** include/cloudini_lib/ros_message_definitions.hpp 19-20 *)
Definition pointcloud_schema_name : list Z := str "sensor_msgs/msg/PointCloud2".
Definition compressed_schema_name : list Z := str "point_cloud_interfaces/msg/CompressedPointCloud2".

Definition leqb (a b : list Z) : bool := if list_eq_dec Z.eq_dec a b then true else false.
Fixpoint find_schema (l : list schema) (id : Z) : option schema :=
  match l with [] => None | s :: l' => if s_id s =? id then Some s else find_schema l' id end.
Fixpoint find_channel (l : list channel) (id : Z) : option channel :=
  match l with [] => None | c :: l' => if ch_id c =? id then Some c else find_channel l' id end.
(** std::map: insertion of a new key, lookup with at() *)
Fixpoint lookup (m : list (Z * Z)) (k : Z) : option Z :=
  match m with [] => None | (a, b) :: m' => if a =? k then Some b else lookup m' k end.
Definition at_ (m : list (Z * Z)) (k : Z) : res Z := match lookup m k with Some v => Ok v | None => Throw end.
Definition u16 (x : Z) : Z := x mod 65536.

Section Tools.
  (** the message definition texts, ros_message_definitions.hpp 22-91, 93-173 *)
  Variables (pointcloud_schema_data compressed_schema_data : list Z).

  (** MC 47-53 (and MU 62-68): the schema of every channel is looked up and dereferenced *)
  Fixpoint check_schemas (schemas : list schema) (cs : list channel) : res unit :=
    match cs with
    | [] => Ok tt
    | c :: cs' => match find_schema schemas (ch_schema c) with Some _ => check_schemas schemas cs' | None => UB end
    end.

  (** MC 85-104: one schema of the output; ids are given out by McapWriter::addSchema, 1, 2, ... *)
  Definition new_schema (encoding : bool) (s : schema) (id : Z) : schema :=
    let name := s_name s in let data := s_data s in
    let '(name, data) := if encoding && leqb name pointcloud_schema_name then (compressed_schema_name, compressed_schema_data) else (name, data) in
    let '(name, data) := if negb encoding && leqb name compressed_schema_name then (pointcloud_schema_name, pointcloud_schema_data) else (name, data) in
    mkSchema id name (s_enc s) data.
  Fixpoint add_schemas (encoding : bool) (l : list schema) (n : Z) : list schema * list (Z * Z) :=
    match l with
    | [] => ([], [])
    | s :: l' => let id := u16 (n + 1) in let '(out, m) := add_schemas encoding l' (n + 1) in (new_schema encoding s id :: out, (s_id s, id) :: m)
    end.
  (** MC 106-112: channels; their metadata map is not passed on *)
  Fixpoint add_channels (smap : list (Z * Z)) (l : list channel) (n : Z) : res (list channel * list (Z * Z)) :=
    match l with
    | [] => Ok ([], [])
    | c :: l' =>
        do sid <- at_ smap (ch_schema c) ;
        let id := u16 (n + 1) in
        do '(out, m) <- add_channels smap l' (n + 1) ;
        Ok (mkChannel id (ch_topic c) (ch_enc c) sid [] :: out, (ch_id c, id) :: m)
    end.

  (** MC 174-222 and 264-296: the loop over the messages; [conv] is applied to the payload of the
      messages whose schema is called [name]. *)
  Fixpoint convert_messages (rec : recording) (cmap : list (Z * Z)) (name : list Z) (conv : list Z -> res (list Z)) (l : list message) : res (list message) :=
    match l with
    | [] => Ok []
    | m :: l' =>
        do id <- at_ cmap (m_chan m) ;
        match find_channel (rc_channels rec) (m_chan m) with
        | None => UB
        | Some c =>
            match find_schema (rc_schemas rec) (ch_schema c) with
            | None => UB
            | Some s =>
                do data <- (if leqb (s_name s) name then conv (m_data m) else Ok (m_data m)) ;
                do rest <- convert_messages rec cmap name conv l' ;
                Ok (mkMsg id (m_seq m) (m_log m) (m_pub m) data :: rest)
            end
        end
    end.
  Definition convert_recording (encoding : bool) (name : list Z) (conv : list Z -> res (list Z)) (rec : recording) : res recording :=
    do u <- check_schemas (rc_schemas rec) (rc_channels rec) ;
    let '(schemas, smap) := add_schemas encoding (rc_schemas rec) 0 in
    do '(channels, cmap) <- add_channels smap (rc_channels rec) 0 ;
    do messages <- convert_messages rec cmap name conv (rc_messages rec) ;
    Ok (mkRec schemas channels messages (rc_metadata rec) []).

  Section Clouds.
    Variables (ft : float_text) (ops : float_ops) (L : libs) (ppc probe : nat).
    (** MC 186-208: one cloud; [zstd]: the writer compresses with ZSTD *)
    Definition encode_payload (prof : profile) (default : option Z) (zstd viz : bool) (data : list Z) : res (list Z) :=
      do c <- getDeserializedPointCloudMessage data ;
      let c := mkRos (r_cdr c) (r_sec c) (r_nsec c) (r_frame c) (r_height c) (r_width c) (applyResolutionProfile prof (r_fields c) default) (r_step c) (r_row c) (r_data c) (r_dense c) in
      do c <- (if viz then applyVizLossyPreprocessing c else Ok c) ;
      let i := toEncodingInfo c in
      let i := if zstd then mkInfo (i_fields i) (i_width i) (i_height i) (i_step i) (i_enc i) (i_cfg i) COMP_NONE (i_threads i) (i_version i) else i in
      convertPointCloud2ToCompressedCloud ft ops L ppc probe c i.
    (** MC 145-225 encodePointClouds *)
    Definition encodePointClouds (prof : profile) (default : option Z) (zstd viz : bool) (rec : recording) : res recording :=
      convert_recording true pointcloud_schema_name (encode_payload prof default zstd viz) rec.
    (** MC 241-298 decodePointClouds *)
    Definition decode_payload (data : list Z) : res (list Z) :=
      do c <- getDeserializedPointCloudMessage data ; convertCompressedCloudToPointCloud2 ft ops L ppc c.
    Definition decodePointClouds (rec : recording) : res recording := convert_recording false compressed_schema_name decode_payload rec.
  End Clouds.

  (** *** McapCutter::cut, MU 40-146.  [order]: the channels in the order the reader's unordered_map
      enumerates them. *)
  (** MU 59-69 *)
  Fixpoint cloud_channels (schemas : list schema) (order : list channel) : res (list channel) :=
    match order with
    | [] => Ok []
    | c :: l =>
        match find_schema schemas (ch_schema c) with
        | None => UB
        | Some s => do rest <- cloud_channels schemas l ; Ok (if leqb (s_name s) pointcloud_schema_name then c :: rest else rest)
        end
    end.
  (** MU 95-101 *)
  Fixpoint cut_channels (l : list channel) (n : Z) : list channel * list (Z * Z) :=
    match l with
    | [] => ([], [])
    | c :: l' => let id := u16 (n + 1) in let '(out, m) := cut_channels l' (n + 1) in (mkChannel id (ch_topic c) (str "cdr") 1 [] :: out, (ch_id c, id) :: m)
    end.
  (** MU 107: message_counts, absent keys count 0 *)
  Definition count_of (counts : list (Z * Z)) (k : Z) : Z := match lookup counts k with Some v => v | None => 0 end.
  (** MU 116-139 *)
  Fixpoint cut_messages (max : Z) (cmap : list (Z * Z)) (counts : list (Z * Z)) (l : list message) : res (list message) :=
    match l with
    | [] => Ok []
    | m :: l' =>
        match lookup cmap (m_chan m) with
        | None => cut_messages max cmap counts l'
        | Some id =>
            if max <=? count_of counts (m_chan m) then cut_messages max cmap counts l'
            else do rest <- cut_messages max cmap ((m_chan m, count_of counts (m_chan m) + 1) :: counts) l' ;
                 Ok (mkMsg id (m_seq m) (m_log m) (m_pub m) (m_data m) :: rest)
        end
    end.
  (** [None]: no cloud channel, no output file (MU 71-74) *)
  Definition cut (order : list channel) (max : Z) (rec : recording) : res (option recording) :=
    do pcs <- cloud_channels (rc_schemas rec) order ;
    match pcs with
    | [] => Ok None
    | _ =>
        let '(channels, cmap) := cut_channels pcs 0 in
        do messages <- cut_messages max cmap [] (rc_messages rec) ;
        Ok (Some (mkRec [mkSchema 1 pointcloud_schema_name (str "ros2msg") pointcloud_schema_data] channels messages [] []))
    end.
End Tools.

(** *** McapConverter::addProfile, MC 299-352 *)
(** MC 300-309 split *)
Fixpoint split_on (d : Z) (l : list Z) : list (list Z) :=
  match l with
  | [] => [[]]
  | x :: l' => if x =? d then [] :: split_on d l' else match split_on d l' with t :: ts => (x :: t) :: ts | [] => [[x]] end
  end.
(** MC 312-322 trimSpaces; isspace of the C locale *)
Definition isspace (c : Z) : bool := (c =? 32) || ((9 <=? c) && (c <=? 13)).
Fixpoint drop_spaces (l : list Z) : list Z := match l with x :: l' => if isspace x then drop_spaces l' else l | [] => [] end.
Definition trimSpaces (l : list Z) : list Z := rev (drop_spaces (rev (drop_spaces l))).
Section Profile.
  (** std::stof, [None] when it throws *)
  Variable stof : list Z -> option Z.
  (** profile_resolutions_[k] = r *)
  Fixpoint pset (p : profile) (k : list Z) (r : Z) : profile :=
    match p with [] => [(k, r)] | (a, b) :: p' => if leqb a k then (a, r) :: p' else (a, b) :: pset p' k r end.
  (** MC 327-351: one token *)
  Definition add_token (p : profile) (t : list Z) : res profile :=
    match split_on 58 t with
    | [a; b] =>
        let name := trimSpaces a in let v := trimSpaces b in
        do r <- (if leqb v (str "remove") then Ok 0 else match stof v with Some r => Ok r | None => Throw end) ;
        Ok (if leqb name (str "xyz") then pset (pset (pset p (str "x") r) (str "y") r) (str "z") r else pset p name r)
    | _ => Throw
    end.
  Fixpoint add_tokens (p : profile) (ts : list (list Z)) : res profile :=
    match ts with [] => Ok p | t :: ts' => do p <- add_token p t ; add_tokens p ts' end.
  Definition addProfile (p : profile) (text : list Z) : res profile := add_tokens p (split_on 59 text).
End Profile.

(** tools/src/cloudini_rosbag_converter.cpp 313-317: a profile kept in a file is read with
    [file >> profile], one word of it. *)
Fixpoint take_word (l : list Z) : list Z := match l with [] => [] | x :: l' => if isspace x then [] else x :: take_word l' end.
Definition profile_from_file (content : list Z) : list Z := take_word (drop_spaces content).
