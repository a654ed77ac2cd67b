(** ROS point cloud messages.  Models src/ros_msg_utils.cpp ("RM") and
    include/cloudini_lib/ros_msg_utils.hpp ("RMH").
    Simplifications: [data] is the contents of the view (where the view points is modelled in
    RosObj.v); a bool is its byte (0 or 1); memory allocation always succeeds. *)
From Verif Require Import Base Types Floats V5 Api Header Cdr.

(** RMH 51-55, 58-153.  [r_sec] is the int32_t stamp_sec as its 32 bits. *)
Record ros_cloud := mkRos {
  r_cdr : cdr_header; r_sec : Z; r_nsec : Z; r_frame : list Z; r_height : Z; r_width : Z;
  r_fields : list field; r_step : Z; r_row : Z; r_data : list Z; r_dense : Z }.

(** RM 68-81: one field; the resolution is std::nullopt *)
Definition read_field (h : cdr_header) (d : dstate) : res (field * dstate) :=
  do '(name, d) <- dec_string h d ;
  do '(off, d) <- dec_num h 4 d ;
  do '(type, d) <- dec_num h 1 d ;
  do '(_, d) <- dec_num h 4 d ;
  Ok (mkField name off (ftype_of_code type) None, d).
Fixpoint read_fields (h : cdr_header) (n : nat) (d : dstate) : res (list field * dstate) :=
  match n with
  | O => Ok ([], d)
  | S k => do '(f, d) <- read_field h d ; do '(fs, d) <- read_fields h k d ; Ok (f :: fs, d)
  end.
(** RM 54-90 readPointCloud2MessageCommon *)
Definition readPointCloud2MessageCommon (h : cdr_header) (d : dstate) : res (ros_cloud * dstate) :=
  do '(sec, d) <- dec_num h 4 d ;
  do '(nsec, d) <- dec_num h 4 d ;
  do '(frame, d) <- dec_string h d ;
  do '(height, d) <- dec_num h 4 d ;
  do '(width, d) <- dec_num h 4 d ;
  do '(n, d) <- dec_num h 4 d ;
  do '(fields, d) <- read_fields h (Z.to_nat n) d ;
  do '(_, d) <- dec_num h 1 d ;
  do '(step, d) <- dec_num h 4 d ;
  do '(row, d) <- dec_num h 4 d ;
  do '(data, d) <- dec_buffer h d ;
  do '(dense, d) <- dec_num h 1 d ;
  Ok (mkRos h sec nsec frame height width fields step row data dense, d).
(** RM 92-97 *)
Definition getDeserializedPointCloudMessage (msg : list Z) : res ros_cloud :=
  do '(h, d) <- cdr_open DDS_CDR msg ; do '(c, _) <- readPointCloud2MessageCommon h d ; Ok c.

(** RM 111-116 *)
Fixpoint write_fields (h : cdr_header) (fs : list field) (s : list Z) : res (list Z) :=
  match fs with
  | [] => Ok s
  | f :: fs' =>
      do s <- enc_string h (f_name f) s ;
      write_fields h fs' (enc_num h 4 1 (enc_num h 1 (ftype_code (f_type f)) (enc_num h 4 (f_off f) s)))
  end.
(** RM 99-121 writePointCloudHeader.  The encoder's header is that of the cloud. *)
Definition writePointCloudHeader (c : ros_cloud) (s : list Z) : res (list Z) :=
  let h := r_cdr c in
  do s <- enc_string h (r_frame c) (enc_num h 4 (r_nsec c) (enc_num h 4 (r_sec c) s)) ;
  do s <- write_fields h (r_fields c) (enc_num h 4 (zlen (r_fields c) mod 4294967296) (enc_num h 4 (r_width c) (enc_num h 4 (r_height c) s))) ;
  Ok (enc_num h 4 (u32 (r_step c * r_width c)) (enc_num h 4 (r_step c) (enc_num h 1 0 s))).
(** RM 123-132 *)
Definition toEncodingInfo (c : ros_cloud) : info :=
  mkInfo (r_fields c) (r_width c) (r_height c) (r_step c) ENC_LOSSY [] COMP_ZSTD true kEncodingVersion.

Section Convert.
  Variables (ft : float_text) (ops : float_ops) (L : libs) (ppc probe : nat).
  (** RM 135-165 convertCompressedCloudToPointCloud2: the output message *)
  Definition convertCompressedCloudToPointCloud2 (c : ros_cloud) : res (list Z) :=
    let h := r_cdr c in
    let size := u32 (u32 (r_width c * r_height c) * r_step c) in
    do s <- writePointCloudHeader c (cdr_begin h) ;
    let s := enc_num h 4 size s in
    if size =? 0 then Ok (enc_num h 1 (r_dense c) s)
    else
      do '(i, rest) <- DecodeHeader ft (r_data c) ;
      do '(_, mem) <- decode ops L ppc i rest [] (repeat 0 (Z.to_nat size)) ;
      Ok (enc_num h 1 (r_dense c) (s ++ mem)).
  (** std::string("cloudini"), RM 183, 212 *)
  Definition format_name : list Z := [99; 108; 111; 117; 100; 105; 110; 105].
  (** RM 167-213 convertPointCloud2ToCompressedCloud.  The encoder used is the single-threaded one
      (PropsWorker.v: the threaded one returns the same bytes). *)
  Definition convertPointCloud2ToCompressedCloud (c : ros_cloud) (i : info) : res (list Z) :=
    let h := r_cdr c in
    do s <- writePointCloudHeader c (cdr_begin h) ;
    let size_at := zlen s in
    let s := enc_num h 4 0 s in
    if zlen (r_data c) =? 0 then enc_string h format_name (enc_num h 1 (r_dense c) s)
    else if i_step i =? 0 then Throw
    else
      do header <- EncodeHeader ft i HYaml ;
      do max <- MaxCompressedSize L ppc i (length (r_data c) / Z.to_nat (i_step i)) (zlen header) ;
      do e <- PointcloudEncoder i (Ok header) ;
      let '(r, out, _) := encode_view ops L ppc probe e (r_data c) (repeat 0 (Z.to_nat max)) true in
      do size <- r ;
      do msg <- wr size_at (le_bytes 4 size) (s ++ out) ;
      enc_string h format_name (enc_num h 1 (r_dense c) (resize (zlen s + size) msg)).
End Convert.
