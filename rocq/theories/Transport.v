(** The ROS package.  Models /repo/cloudini_ros/src/conversion_utils.cpp ("CU"),
    cloudini_publisher_plugin.cpp ("PUB"), cloudini_subscriber_plugin.cpp ("SUB") and
    topic_converter.cpp ("TC").  The message classes rosidl generates are records of their
    public members; what the middleware does with a message (serialising it, delivering it)
    is not part of the repository.
    Simplifications: the encoder used is the single-threaded one (PropsWorker.v: the threaded
    one returns the same bytes); memory allocation always succeeds; logging and statistics are
    left out; a parameter is its value. *)
From Verif Require Import Base Types Floats Codec V5 Api Header Cdr Ros RosViz Pcl.

(** std_msgs/msg/Header; [h_sec] is an int32_t as its 32 bits *)
Record msg_header := mkMH { h_sec : Z; h_nsec : Z; h_frame : list Z }.
(** sensor_msgs/msg/PointCloud2; a PointField has the members of [pcl_field] *)
Record pc2_msg := mkMsg {
  m_header : msg_header; m_height : Z; m_width : Z; m_fields : list pcl_field; m_big : bool;
  m_step : Z; m_row : Z; m_data : list Z; m_dense : bool }.
(** point_cloud_interfaces/msg/CompressedPointCloud2; a new message has empty strings *)
Record comp_msg := mkComp {
  k_header : msg_header; k_height : Z; k_width : Z; k_fields : list pcl_field; k_big : bool;
  k_step : Z; k_row : Z; k_data : list Z; k_dense : bool; k_format : list Z }.

(** CU 25-43 ConvertToEncodingInfo; [res] is a float *)
Definition msg_field (res : Z) (f : pcl_field) : field :=
  let t := ftype_of_code (pf_type f) in
  mkField (pf_name f) (pf_off f) t (if Codec.is_float32 t then Some res else None).
Definition msg_info (m : pc2_msg) (res : Z) : info :=
  default_info (map (msg_field res) (m_fields m)) (m_width m) (m_height m) (m_step m).
(** CU 54-75 ConvertToRosPointCloud2; the cloud's cdr_header has its default members
    (nanocdr.hpp:42-46).  is_bigendian is copied to a member nothing reads. *)
Definition default_cdr : cdr_header := mkCdr LITTLE PLAIN_CDR DDS_CDR.
Definition bool_byte (b : bool) : Z := if b then 1 else 0.
Definition ConvertToRosPointCloud2 (m : pc2_msg) : ros_cloud :=
  mkRos default_cdr (h_sec (m_header m)) (h_nsec (m_header m)) (h_frame (m_header m)) (m_height m) (m_width m)
    (map (fun f => mkField (pf_name f) (pf_off f) (ftype_of_code (pf_type f)) None) (m_fields m))
    (m_step m) (m_row m) (m_data m) (bool_byte (m_dense m)).
Definition with_fields (c : ros_cloud) (fs : list field) : ros_cloud :=
  mkRos (r_cdr c) (r_sec c) (r_nsec c) (r_frame c) (r_height c) (r_width c) fs (r_step c) (r_row c) (r_data c) (r_dense c).

Section Node.
  Variables (ft : float_text) (ops : float_ops) (L : libs) (ppc probe : nat).
  (** CU 45-52 ReadEncodingInfo *)
  Definition ReadEncodingInfo (m : comp_msg) : res info :=
    if list_eq_dec Z.eq_dec (k_format m) format_name then (do '(i, _) <- DecodeHeader ft (k_data m) ; Ok i) else Throw.
  (** CU 77-83, and TC 169-171: compress a parsed or converted cloud with one resolution for all
      FLOAT32 fields *)
  Definition compress_cloud (c : ros_cloud) (res : Z) : Base.res (list Z) :=
    let c := with_fields c (applyResolutionProfile [] (r_fields c) (Some res)) in
    convertPointCloud2ToCompressedCloud ft ops L ppc probe c (toEncodingInfo c).
  Definition SerializeCompressedPointCloud2 (m : pc2_msg) (res : Z) : Base.res (list Z) :=
    compress_cloud (ConvertToRosPointCloud2 m) res.

  (** PUB 53-80 encodeTyped; [resolution] is the double member resolution_ *)
  Definition encodeTyped (resolution : Z) (raw : pc2_msg) : res comp_msg :=
    let '(r, out) := encode_with ft ops L ppc probe (msg_info raw (narrow resolution)) (m_data raw) (resize (zlen (m_data raw)) []) in
    do new_size <- r ;
    Ok (mkComp (m_header raw) (m_height raw) (m_width raw) (m_fields raw) false (m_step raw) (m_row raw) (resize new_size out) (m_dense raw) []).

  (** SUB 46-58: the fields of the message against those of the stream *)
  Fixpoint fields_agree (ms : list pcl_field) (fs : list field) : bool :=
    match ms, fs with
    | [], [] => true
    | m :: ms', f :: fs' => seqb (pf_name m) (f_name f) && (pf_off m =? f_off f) && (pf_type m =? ftype_code (f_type f)) && fields_agree ms' fs'
    | _, _ => false
    end.
  (** SUB 29-79 decodeTyped; [buf] is the scratch buffer of decoder_, which lives as long as the
      subscriber.  The size of the result is computed in 32 bits (SUB 73). *)
  Definition decodeTyped (m : comp_msg) (buf : list Z) : res (pc2_msg * list Z) :=
    do '(i, rest) <- DecodeHeader ft (k_data m) ;
    if negb (k_width m =? i_width i) || negb (k_height m =? i_height i) then Throw
    else if negb (k_step m =? i_step i) then Throw
    else if negb (fields_agree (k_fields m) (i_fields i)) then Throw
    else
      let size := u32 (u32 (k_step m * k_width m) * k_height m) in
      do '(buf', data) <- decode ops L ppc i rest buf (resize size []) ;
      Ok (mkMsg (k_header m) (i_height i) (i_width i) (k_fields m) false (k_step m) (k_row m) data (k_dense m), buf').

  (** TC 155-181, the converter node's callback: what it publishes ([None]: nothing) for the
      serialised message [raw].  [resolution] is a double, applyResolutionProfile takes an
      optional<float>. *)
  Definition callback (compressing : bool) (resolution : Z) (subscribers : nat) (raw : list Z) : res (option (list Z)) :=
    if (subscribers =? 0)%nat then Ok None
    else
      do c <- getDeserializedPointCloudMessage raw ;
      do out <- (if compressing then compress_cloud c (narrow resolution) else convertCompressedCloudToPointCloud2 ft ops L ppc c) ;
      Ok (Some out).
End Node.

(** *** TC 69-102 adapt_request_to_offers *)
(** rmw_qos_reliability_policy_t and rmw_qos_durability_policy_t *)
Inductive reliability := REL_SYSTEM_DEFAULT | REL_RELIABLE | REL_BEST_EFFORT | REL_UNKNOWN | REL_BEST_AVAILABLE.
Inductive durability := DUR_SYSTEM_DEFAULT | DUR_TRANSIENT_LOCAL | DUR_VOLATILE | DUR_UNKNOWN | DUR_BEST_AVAILABLE.
Record qos := mkQos { q_rel : reliability; q_dur : durability }.
(** rclcpp::QoS(depth): rmw_qos_profile_default's policies *)
Definition default_qos : qos := mkQos REL_RELIABLE DUR_VOLATILE.
Definition is_reliable (q : qos) : bool := match q_rel q with REL_RELIABLE => true | _ => false end.
Definition is_transient (q : qos) : bool := match q_dur q with DUR_TRANSIENT_LOCAL => true | _ => false end.
Definition adapt_request_to_offers (endpoints : list qos) : qos :=
  match endpoints with
  | [] => default_qos
  | _ =>
      let reliable := List.length (filter is_reliable endpoints) in
      let transient := List.length (filter is_transient endpoints) in
      mkQos (if (reliable =? List.length endpoints)%nat then REL_RELIABLE else REL_BEST_EFFORT)
            (if (transient =? List.length endpoints)%nat then DUR_TRANSIENT_LOCAL else DUR_VOLATILE)
  end.
