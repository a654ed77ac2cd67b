(** PCL clouds.  Models src/pcl_conversion.cpp ("PC") and include/cloudini_lib/pcl_conversion.hpp
    ("PCH").  The PCL library itself is not part of the repository: its two cloud types are given
    by their public members, loading a PCD file is a parameter.
    Simplifications: the encoder used is the single-threaded one (PropsWorker.v: the threaded one
    returns the same bytes); memory allocation always succeeds; printing to std::cout is left out;
    points and bytes added by resize() are zero (true of std::vector<uint8_t>; a new PCL point also
    has 1.0f in its padding, which no theorem relies on). *)
From Verif Require Import Base Types Floats Codec V5 Api Header.
From Coq Require Import String Floats.SpecFloat.
Open Scope Z_scope.
Open Scope list_scope.

(** pcl::PCLPointField: name, offset, datatype (a uint8_t), count *)
Record pcl_field := mkPF { pf_name : list Z; pf_off : Z; pf_type : Z; pf_count : Z }.
(** pcl::PCLPointCloud2; [pc_header] (sequence number, stamp, frame id) is never touched *)
Record pcl_cloud := mkPC {
  pc_header : list Z; pc_height : Z; pc_width : Z; pc_fields : list pcl_field; pc_big : bool;
  pc_step : Z; pc_row : Z; pc_data : list Z; pc_dense : bool }.

(** *** ConvertToEncodingInfo, PC 127-180 *)
(** PC 141-169: the datatype codes INT8 = 1, UINT8, INT16, UINT16, INT32, UINT32, FLOAT32, FLOAT64 = 8 *)
Definition pcl_type (code : Z) : ftype :=
  match code with
  | 1 => INT8 | 2 => UINT8 | 3 => INT16 | 4 => UINT16 | 5 => INT32 | 6 => UINT32 | 7 => FLOAT32 | 8 => FLOAT64
  | _ => UNKNOWN
  end.
(** PC 172: [resolution_XYZ > 0.0] on the bits of a double; :173 the narrowing to float *)
Definition f64_gt0 (b : Z) : bool := (0 <? b) && (b <=? 9218868437227405312).
Definition narrow (b : Z) : Z := b32 (to32 (sf64 b)).
Definition pcl_point_field (res : Z) (f : pcl_field) : field :=
  let t := pcl_type (pf_type f) in
  mkField (pf_name f) (pf_off f) t (if Codec.is_float32 t && f64_gt0 res then Some (narrow res) else None).
(** cloudini.hpp:79-91: the default members of EncodingInfo *)
Definition default_info (fs : list field) (w h step : Z) : info := mkInfo fs w h step ENC_LOSSY [] COMP_ZSTD true kEncodingVersion.
Definition ConvertToEncodingInfo (c : pcl_cloud) (res : Z) : info :=
  default_info (map (pcl_point_field res) (pc_fields c)) (pc_width c) (pc_height c) (pc_step c).

(** *** ReadEncodingInfoFromPCD, PC 25-107 *)
(** PC 25-36 splitString *)
Fixpoint splitString (d : Z) (l : list Z) : list (list Z) :=
  match l with
  | [] => [[]]
  | x :: l' => if x =? d then [] :: splitString d l' else match splitString d l' with t :: ts => (x :: t) :: ts | [] => [[x]] end
  end.
(** An istream: the characters left, and whether eofbit is set *)
Record istream := mkIn { in_rest : list Z; in_eof : bool }.
Fixpoint until (d : Z) (l : list Z) : list Z * option (list Z) :=
  match l with [] => ([], None) | x :: l' => if x =? d then ([], Some l') else let '(a, r) := until d l' in (x :: a, r) end.
(** std::getline: once eofbit is set the sentry fails and the string keeps its value *)
Definition getline (s : istream) (line : list Z) : list Z * istream :=
  if in_eof s then (line, s)
  else match until 10 (in_rest s) with (l, Some r) => (l, mkIn r false) | (l, None) => (l, mkIn [] true) end.
(** line.substr(0, line.find(c)) *)
Definition cut_at (c : Z) (l : list Z) : list Z := fst (until c l).
Definition seqb (a b : list Z) : bool := if list_eq_dec Z.eq_dec a b then true else false.
Record pcd_lists := mkPL { pl_names : list (list Z); pl_sizes : list (list Z); pl_types : list (list Z) }.
(** PC 45-69: the loop.  [None]: not finished after [fuel] turns. *)
Fixpoint read_lines (fuel : nat) (s : istream) (line : list Z) (p : pcd_lists) : option pcd_lists :=
  match fuel with
  | O => None
  | S k =>
      let '(line, s) := getline s line in
      let line := cut_at 10 (cut_at 13 (cut_at 35 line)) in
      match splitString 32 line with
      | [] => read_lines k s line p                                 (* never: PC 34 *)
      | key :: words =>
          if seqb key (str "DATA") then Some p
          else
            let p := if seqb key (str "FIELDS") then mkPL words (pl_sizes p) (pl_types p)
                     else if seqb key (str "SIZE") then mkPL (pl_names p) words (pl_types p)
                     else if seqb key (str "TYPE") then mkPL (pl_names p) (pl_sizes p) words
                     else p in
            match line with [] => Some p | _ => read_lines k s line p end
      end
  end.
(** PC 82-103 *)
Definition pcd_type (t : list Z) (bytes : Z) : ftype :=
  if seqb t (str "F") && (bytes =? 4) then FLOAT32
  else if seqb t (str "I") then (if bytes =? 1 then INT8 else if bytes =? 2 then INT16 else if bytes =? 4 then INT32 else UNKNOWN)
  else if seqb t (str "U") then (if bytes =? 1 then UINT8 else if bytes =? 2 then UINT16 else if bytes =? 4 then UINT32 else if bytes =? 8 then UINT64 else UNKNOWN)
  else UNKNOWN.
(** std::map<std::string, FieldType> as a function: operator[] and at() *)
Definition type_map : Type := list Z -> option ftype.
Definition put (m : type_map) (k : list Z) (t : ftype) : type_map := fun n => if seqb k n then Some t else m n.
Fixpoint build_map (names sizes types : list (list Z)) (m : type_map) : res type_map :=
  match names, sizes, types with
  | n :: names', s :: sizes', t :: types' => do b <- stoi s ; build_map names' sizes' types' (put m n (pcd_type t b))
  | _, _, _ => Ok m
  end.
Definition ReadEncodingInfoFromPCD (fuel : nat) (text : list Z) : option (res type_map) :=
  match read_lines fuel (mkIn text false) [] (mkPL [] [] []) with
  | None => None
  | Some p =>
      Some (if negb (List.length (pl_names p) =? List.length (pl_sizes p))%nat || negb (List.length (pl_names p) =? List.length (pl_types p))%nat then Throw
            else build_map (pl_names p) (pl_sizes p) (pl_types p) (fun _ => None))
  end.

(** *** Encoding and decoding *)
Section Convert.
  Variables (ft : float_text) (ops : float_ops) (L : libs) (ppc probe : nat).
  (** an encoder for [i] and its encode(vector): result and vector *)
  Definition encode_with (i : info) (data out : list Z) : res Z * list Z :=
    match (do hdr <- EncodeHeader ft i HYaml ; PointcloudEncoder i (Ok hdr)) with
    | Ok e => let '(r, out, _) := encode_vec ops L ppc probe e data out in (r, out)
    | Throw => (Throw, out)
    | UB => (UB, out)
    end.
  (** PC 212-219 *)
  Definition PCLPointCloudEncode (c : pcl_cloud) (res : Z) (out : list Z) : Base.res Z * list Z :=
    encode_with (ConvertToEncodingInfo c res) (pc_data c) out.
  (** PC 230-236: the types PCL does not know are looked up in the PCD header *)
  Fixpoint fix_types (m : type_map) (fs : list field) : Base.res (list field) :=
    match fs with
    | [] => Ok []
    | f :: fs' =>
        do t <- (match f_type f with UNKNOWN => match m (f_name f) with Some t => Ok t | None => Throw end | t => Ok t end) ;
        do rest <- fix_types m fs' ;
        Ok (mkField (f_name f) (f_off f) t (f_res f) :: rest)
    end.
  (** PC 221-240: [c] is the cloud PCL loaded from the file with contents [text] *)
  Definition encode_pcd (fuel : nat) (c : pcl_cloud) (text : list Z) (res : Z) (out : list Z) : option (Base.res Z * list Z) :=
    match ReadEncodingInfoFromPCD fuel text with
    | None => None
    | Some r =>
        Some (match (do m <- r ; fix_types m (i_fields (ConvertToEncodingInfo c res))) with
              | Ok fs => encode_with (default_info fs (pc_width c) (pc_height c) (pc_step c)) (pc_data c) out
              | Throw => (Throw, out)
              | UB => (UB, out)
              end)
    end.
  (** PC 242-272; the members are set before the data is decoded, so an exception leaves them
      changed (the model returns the cloud only on success) *)
  Definition pcl_field_of (f : field) : pcl_field := mkPF (f_name f) (f_off f) (ftype_code (f_type f)) 1.
  Definition PCLPointCloudDecode (data : list Z) (c : pcl_cloud) : Base.res pcl_cloud :=
    do '(i, rest) <- DecodeHeader ft data ;
    let size := u32 (u32 (i_width i * i_height i) * i_step i) in
    do '(_, mem) <- decode ops L ppc i rest [] (resize size (pc_data c)) ;
    Ok (mkPC (pc_header c) (i_height i) (i_width i) (map pcl_field_of (i_fields i)) false (i_step i) (u32 (i_width i * i_step i)) mem true).

  (** *** pcl::PointCloud<PointT>: PointT is its size and its fields *)
  Record point_type := mkPT { pt_size : Z; pt_fields : list (list Z * Z * option Z) }.
  (** PC 182-210: PointXYZ (16 bytes) and PointXYZI (32 bytes, intensity at 16), with the given
      resolution for x, y, z ([None]: no resolution) *)
  Definition xyz : point_type := mkPT 16 [(str "x", 0, Some 0); (str "y", 4, Some 0); (str "z", 8, Some 0)].
  Definition xyzi : point_type := mkPT 32 [(str "x", 0, Some 0); (str "y", 4, Some 0); (str "z", 8, Some 0); (str "intensity", 16, None)].
  Definition pt_info (t : point_type) (w h res : Z) : info :=
    default_info (map (fun '(n, o, r) => mkField n o FLOAT32 (match r with Some _ => Some res | None => None end)) (pt_fields t)) w h (pt_size t).
  (** pcl::PointCloud: width, height and the bytes of [points] *)
  Record pt_cloud := mkPt { pt_width : Z; pt_height : Z; pt_points : list Z }.
  (** PCH 109-124 PointcloudEncode; [res] is a double, narrowed by PointField's optional<float> *)
  Definition PointcloudEncode (t : point_type) (c : pt_cloud) (res : Z) (out : list Z) : Base.res Z * list Z :=
    encode_with (pt_info t (pt_width c) (pt_height c) (narrow res)) (pt_points c) (resize (zlen (pt_points c) + 1024) out).
  Definition is_float32 (t : ftype) : bool := match t with FLOAT32 => true | _ => false end.
  (** PCH 138-156: offsets of the fields of the header in PointT *)
  Fixpoint find_offset (l : list (list Z * Z * option Z)) (name : list Z) : option Z :=
    match l with [] => None | (n, o, _) :: l' => if seqb n name then Some o else find_offset l' name end.
  Fixpoint adapt (t : point_type) (fs : list field) : Base.res (list field) :=
    match fs with
    | [] => Ok []
    | f :: fs' =>
        do o <- (match find_offset (pt_fields t) (f_name f) with
                 | Some o => if is_float32 (f_type f) then Ok o else Throw
                 | None => Ok kSkip
                 end) ;
        do rest <- adapt t fs' ;
        Ok (mkField (f_name f) o (f_type f) (f_res f) :: rest)
    end.
  (** PCH 126-162 PointcloudDecode.  The point step stays that of the header. *)
  Definition PointcloudDecode (t : point_type) (data : list Z) (c : pt_cloud) : Base.res pt_cloud :=
    do '(i, rest) <- DecodeHeader ft data ;
    do fs <- adapt t (i_fields i) ;
    let i' := mkInfo fs (i_width i) (i_height i) (i_step i) (i_enc i) (i_cfg i) (i_comp i) (i_threads i) (i_version i) in
    do '(_, mem) <- decode ops L ppc i' rest [] (resize (u32 (i_width i * i_height i) * pt_size t) (pt_points c)) ;
    Ok (mkPt (i_width i) (i_height i) mem).
End Convert.
