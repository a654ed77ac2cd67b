(** Facts about the ROS message conversions. *)
From Verif Require Import Base BaseFacts Types Floats V5 Api ApiFacts Header Cdr CdrFacts Ros.

(** ** The message types, as in sensor_msgs/msg/PointCloud2 and
    point_cloud_interfaces/msg/CompressedPointCloud2 (the comment at RMH 31-49) *)
Definition field_type : ctype := TStruct [TString (* name *); TNum 4 (* offset *); TNum 1 (* datatype *); TNum 4 (* count *)].
Definition header_types : list ctype :=
  [TNum 4; TNum 4; TString (* stamp and frame id *); TNum 4 (* height *); TNum 4 (* width *); TVector field_type; TNum 1 (* is_bigendian *);
   TNum 4 (* point_step *); TNum 4 (* row_step *)].
Definition pc2_type : ctype := TStruct (header_types ++ [TBuffer (* data *); TNum 1 (* is_dense *)]).
Definition compressed_type : ctype := TStruct (header_types ++ [TBuffer; TNum 1; TString (* format *)]).
Definition field_value (count : Z) (f : field) : cval := VList [VBytes (f_name f); VNum (f_off f); VNum (ftype_code (f_type f)); VNum count].
Definition header_values (c : ros_cloud) (fields : list cval) (bigendian row : Z) : list cval :=
  [VNum (r_sec c); VNum (r_nsec c); VBytes (r_frame c); VNum (r_height c); VNum (r_width c); VList fields; VNum bigendian; VNum (r_step c); VNum row].

Definition fproj (v : cval) : field :=
  match v with VList [VBytes name; VNum off; VNum type; VNum _] => mkField name off (ftype_of_code type) None | _ => mkField [] 0 UNKNOWN None end.
Lemma read_field_eq h d : read_field h d = do '(v, d1) <- cdr_decode h field_type d ; Ok (fproj v, d1).
Proof.
  unfold read_field, field_type. cbn [cdr_decode]. destruct (dec_string h d) as [[? d1]| |]; cbn [bind]; try reflexivity.
  destruct (dec_num h 4 d1) as [[? d2]| |]; cbn [bind]; try reflexivity. destruct (dec_num h 1 d2) as [[? d3]| |]; cbn [bind]; try reflexivity.
  destruct (dec_num h 4 d3) as [[? d4]| |]; cbn [bind]; reflexivity.
Qed.
Lemma read_fields_eq h n d : read_fields h n d = do '(vs, d1) <- dec_list (cdr_decode h field_type) n d ; Ok (map fproj vs, d1).
Proof.
  revert d. induction n as [|n IH]; intros d; [reflexivity|]. cbn [read_fields dec_list]. rewrite read_field_eq. destruct (cdr_decode h field_type d) as [[v d1]| |]; cbn [bind]; try reflexivity.
  rewrite IH. destruct (dec_list _ n d1) as [[vs d2]| |]; reflexivity.
Qed.
Definition cproj (h : cdr_header) (v : cval) : ros_cloud :=
  match v with
  | VList [VNum sec; VNum nsec; VBytes frame; VNum height; VNum width; VList fs; VNum _; VNum step; VNum row; VBytes data; VNum dense] =>
      mkRos h sec nsec frame height width (map fproj fs) step row data dense
  | _ => mkRos h 0 0 [] 0 0 [] 0 0 [] 0
  end.
Lemma read_common_eq h d : readPointCloud2MessageCommon h d = do '(v, d1) <- cdr_decode h pc2_type d ; Ok (cproj h v, d1).
Proof.
  unfold readPointCloud2MessageCommon, pc2_type, header_types. cbn [cdr_decode app].
  destruct (dec_num h 4 d) as [[? d1]| |]; cbn [bind]; try reflexivity. destruct (dec_num h 4 d1) as [[? d2]| |]; cbn [bind]; try reflexivity.
  destruct (dec_string h d2) as [[? d3]| |]; cbn [bind]; try reflexivity. destruct (dec_num h 4 d3) as [[? d4]| |]; cbn [bind]; try reflexivity.
  destruct (dec_num h 4 d4) as [[? d5]| |]; cbn [bind]; try reflexivity. destruct (dec_num h 4 d5) as [[n d6]| |]; cbn [bind]; try reflexivity.
  rewrite read_fields_eq. unfold field_type. destruct (dec_list _ (Z.to_nat n) d6) as [[vs d7]| |]; cbn [bind]; try reflexivity.
  destruct (dec_num h 1 d7) as [[? d8]| |]; cbn [bind]; try reflexivity. destruct (dec_num h 4 d8) as [[? d9]| |]; cbn [bind]; try reflexivity.
  destruct (dec_num h 4 d9) as [[? d10]| |]; cbn [bind]; try reflexivity. destruct (dec_buffer h d10) as [[? d11]| |]; cbn [bind]; try reflexivity.
  destruct (dec_num h 1 d11) as [[? d12]| |]; cbn [bind]; reflexivity.
Qed.
Lemma write_fields_eq h fs s : write_fields h fs s = enc_list (cdr_encode h field_type) (map (field_value 1) fs) s.
Proof.
  revert s. induction fs as [|f fs IH]; intros s; [reflexivity|]. cbn [write_fields map enc_list]. unfold field_type at 1, field_value at 1. cbn [cdr_encode].
  destruct (enc_string h (f_name f) s) as [s1| |]; cbn [bind]; try reflexivity. apply IH.
Qed.
Lemma write_header_eq c s : writePointCloudHeader c s =
  cdr_encode (r_cdr c) (TStruct header_types) (VList (header_values c (map (field_value 1) (r_fields c)) 0 (u32 (r_step c * r_width c)))) s.
Proof.
  unfold writePointCloudHeader, header_types, header_values. cbn [cdr_encode]. cbn [bind]. destruct (enc_string _ (r_frame c) _) as [s1| |]; cbn [bind]; try reflexivity.
  rewrite write_fields_eq. replace (zlen (map (field_value 1) (r_fields c))) with (zlen (r_fields c)) by (unfold zlen; now rewrite map_length).
  destruct (enc_list _ _ _) as [s2| |]; reflexivity.
Qed.
Lemma encode_struct_app h ts1 ts2 vs1 vs2 s : length ts1 = length vs1 ->
  cdr_encode h (TStruct (ts1 ++ ts2)) (VList (vs1 ++ vs2)) s = do s1 <- cdr_encode h (TStruct ts1) (VList vs1) s ; cdr_encode h (TStruct ts2) (VList vs2) s1.
Proof.
  revert vs1 s. induction ts1 as [|t ts1 IH]; intros [|v vs1] s H; try discriminate H; [reflexivity|]. cbn [app]. injection H as H. specialize (IH vs1). cbn [cdr_encode] in *.
  destruct (cdr_encode h t v s) as [s1| |]; cbn [bind]; try reflexivity. now apply IH.
Qed.

(** ** Well-formed clouds: the members are values of their C++ types *)
Definition u32_range (x : Z) : Prop := 0 <= x < 4294967296.
Definition ros_field_ok (f : field) : Prop :=
  zlen (f_name f) < 4294967295 /\ u32_range (f_off f) /\ 0 <= ftype_code (f_type f) < 256 /\ ftype_of_code (ftype_code (f_type f)) = f_type f.
Definition ros_ok (c : ros_cloud) : Prop :=
  u32_range (r_sec c) /\ u32_range (r_nsec c) /\ zlen (r_frame c) < 4294967295 /\ u32_range (r_height c) /\ u32_range (r_width c) /\
  zlen (r_fields c) < 4294967296 /\ Forall ros_field_ok (r_fields c) /\ u32_range (r_step c) /\ u32_range (r_row c) /\
  zlen (r_data c) < 4294967296 /\ 0 <= r_dense c < 256.
Lemma num4 x : u32_range x -> (4 = 1 \/ 4 = 2 \/ 4 = 4 \/ 4 = 8)%nat /\ 0 <= x < 256 ^ Z.of_nat 4.
Proof. intros H. split; [auto|exact H]. Qed.
Lemma num1 x : 0 <= x < 256 -> (1 = 1 \/ 1 = 2 \/ 1 = 4 \/ 1 = 8)%nat /\ 0 <= x < 256 ^ Z.of_nat 1.
Proof. intros H. split; [auto|exact H]. Qed.
Lemma u32_in x : u32_range (u32 x).
Proof. apply Z.mod_pos_bound. lia. Qed.
Lemma field_fits count f : u32_range count -> ros_field_ok f -> fits field_type (field_value count f).
Proof. intros Hc (H1 & H2 & H3 & _). unfold field_type, field_value. cbn [fits]. split; [exact H1|]. split; [now apply num4|]. split; [now apply num1|]. split; [now apply num4|exact I]. Qed.
Lemma fields_fit counts fs : Forall ros_field_ok fs -> Forall u32_range counts -> Forall (fits field_type) (map (fun cf => field_value (fst cf) (snd cf)) (combine counts fs)).
Proof.
  intros HF. revert counts. induction HF as [|f fs Hf HF IH]; intros [|n counts] HC; cbn [combine map]; try constructor; inversion HC; subst.
  - cbn [fst snd]. now apply field_fits.
  - now apply IH.
Qed.
Lemma ones_map fs : map (field_value 1) fs = map (fun cf => field_value (fst cf) (snd cf)) (combine (repeat 1 (length fs)) fs).
Proof. induction fs as [|f fs IH]; [reflexivity|]. cbn [map length repeat combine fst snd]. now rewrite IH. Qed.
Lemma ones_range n : Forall u32_range (repeat 1 n).
Proof. apply Forall_forall. intros x Hx. apply repeat_spec in Hx. subst. unfold u32_range. lia. Qed.
(** The fields of a parsed message have no resolution *)
Definition plain_field (f : field) : field := mkField (f_name f) (f_off f) (f_type f) None.
Lemma fproj_fields counts fs : Forall ros_field_ok fs -> length counts = length fs -> map fproj (map (fun cf => field_value (fst cf) (snd cf)) (combine counts fs)) = map plain_field fs.
Proof.
  intros HF. revert counts. induction HF as [|f fs Hf HF IH]; intros [|n counts] HL; try discriminate HL; cbn [combine map fst snd]; [reflexivity|]. injection HL as HL. rewrite (IH counts HL).
  f_equal. destruct Hf as (_ & _ & _ & H). cbn [fproj field_value]. now rewrite H.
Qed.
(** The value of a message with the header of [c], the given counts, byte-order flag, row step and
    data *)
Definition pc2_value (c : ros_cloud) (counts : list Z) (bigendian row : Z) (data : list Z) : cval :=
  VList (header_values c (map (fun cf => field_value (fst cf) (snd cf)) (combine counts (r_fields c))) bigendian row ++ [VBytes data; VNum (r_dense c)]).
Definition parsed (h : cdr_header) (c : ros_cloud) (row : Z) (data : list Z) : ros_cloud :=
  mkRos h (r_sec c) (r_nsec c) (r_frame c) (r_height c) (r_width c) (map plain_field (r_fields c)) (r_step c) row data (r_dense c).
Lemma pc2_fits c counts bigendian row data : ros_ok c -> Forall u32_range counts -> length counts = length (r_fields c) -> 0 <= bigendian < 256 -> u32_range row -> zlen data < 4294967296 ->
  fits pc2_type (pc2_value c counts bigendian row data).
Proof.
  intros (H1 & H2 & H3 & H4 & H5 & H6 & H7 & H8 & H9 & H10 & H11) HC HL HB HR HD. unfold pc2_type, pc2_value, header_types, header_values. cbn [app fits].
  split; [now apply num4|]. split; [now apply num4|]. split; [exact H3|]. split; [now apply num4|]. split; [now apply num4|].
  split; [split; [unfold zlen in *; rewrite map_length, combine_length, HL, Nat.min_id; exact H6|now apply fields_fit]|].
  split; [now apply num1|]. split; [now apply num4|]. split; [now apply num4|]. split; [exact HD|]. split; [now apply num1|exact I].
Qed.
Lemma cproj_value h c counts bigendian row data : ros_ok c -> length counts = length (r_fields c) -> cproj h (pc2_value c counts bigendian row data) = parsed h c row data.
Proof. intros H HL. unfold pc2_value, header_values. cbn [app cproj]. rewrite fproj_fields; [reflexivity|apply H|exact HL]. Qed.
(** The header is one a Decoder with the default version reads back *)
Definition dds (h : cdr_header) : Prop := c_encoding h = PLAIN_CDR /\ c_version h = DDS_CDR.
Lemma open_begin h rest : dds h -> cdr_open DDS_CDR (cdr_begin h ++ rest) = Ok (h, (O, rest)).
Proof. destruct h as [[|] e v]; intros [H1 H2]; cbn [c_encoding c_version] in *; subst; reflexivity. Qed.
Lemma parse_message h v msg rest : dds h -> fits pc2_type v -> cdr_encode h pc2_type v (cdr_begin h) = Ok msg -> getDeserializedPointCloudMessage (msg ++ rest) = Ok (cproj h v).
Proof.
  intros Hh Hf HE. destruct (rt_all h pc2_type v (cdr_begin h) Hf ltac:(cbn; lia)) as (bs & E & D). rewrite E in HE. assert (HM : msg = cdr_begin h ++ bs) by congruence. subst msg. clear HE. unfold getDeserializedPointCloudMessage.
  rewrite <- app_assoc, open_begin by exact Hh. cbn [bind]. rewrite read_common_eq. specialize (D rest). change (length (cdr_begin h) - 4)%nat with O in D. rewrite D. reflexivity.
Qed.

(** ** After a four-byte number the storage is aligned *)
Lemma align4 h pos : (pos mod 4 = 0)%nat -> alignment h 4 pos = O.
Proof. intros H. unfold alignment. cbn [Nat.eqb]. rewrite H. reflexivity. Qed.
Lemma align4_pads h pos : ((pos + alignment h 4 pos) mod 4 = 0)%nat.
Proof.
  unfold alignment. cbn [Nat.eqb]. pose proof (Nat.mod_upper_bound pos 4 ltac:(lia)) as B. rewrite Nat.add_mod by lia.
  destruct (pos mod 4)%nat as [|[|[|[|k]]]]; try reflexivity. lia.
Qed.
Lemma enc4_length h x s : (4 <= length s)%nat -> ((length (enc_num h 4 x s) - 4) mod 4 = 0)%nat.
Proof.
  intros HL. unfold enc_num. cbn [Nat.leb]. rewrite !app_length, repeat_length, wire_length, le_bytes_length.
  replace (length s + (alignment h 4 (length s - 4) + 4) - 4)%nat with ((length s - 4) + alignment h 4 (length s - 4) + 1 * 4)%nat by lia. rewrite Nat.mod_add by lia. apply align4_pads.
Qed.
Lemma enc_num_length h size x s : (length s <= length (enc_num h size x s))%nat.
Proof. unfold enc_num. rewrite app_length. lia. Qed.
Lemma enc_string_length h b s s' : enc_string h b s = Ok s' -> (length s <= length s')%nat.
Proof. unfold enc_string. destruct (_ <=? _); [discriminate|]. intros H. injection H as <-. pose proof (enc_num_length h 4 (zlen b + 1) s). rewrite app_length. lia. Qed.
Lemma write_fields_length h fs s s' : write_fields h fs s = Ok s' -> (length s <= length s')%nat.
Proof.
  revert s. induction fs as [|f fs IH]; intros s H; cbn [write_fields] in H; [injection H as <-; lia|]. apply bind_ok in H. destruct H as (s1 & H1 & H2). apply enc_string_length in H1. apply IH in H2.
  pose proof (enc_num_length h 4 (f_off f) s1) as A. pose proof (enc_num_length h 1 (ftype_code (f_type f)) (enc_num h 4 (f_off f) s1)) as B.
  pose proof (enc_num_length h 4 1 (enc_num h 1 (ftype_code (f_type f)) (enc_num h 4 (f_off f) s1))) as C. lia.
Qed.
Lemma header_aligned c s s' : (4 <= length s)%nat -> writePointCloudHeader c s = Ok s' -> (4 <= length s')%nat /\ ((length s' - 4) mod 4 = 0)%nat.
Proof.
  intros HL H. unfold writePointCloudHeader in H. cbv zeta in H. set (h := r_cdr c) in *. apply bind_ok in H. destruct H as (s1 & H1 & H). apply bind_ok in H. destruct H as (s2 & H2 & H). injection H as <-.
  apply enc_string_length in H1. apply write_fields_length in H2.
  pose proof (enc_num_length h 4 (r_sec c) s). pose proof (enc_num_length h 4 (r_nsec c) (enc_num h 4 (r_sec c) s)).
  pose proof (enc_num_length h 4 (r_height c) s1) as A1. pose proof (enc_num_length h 4 (r_width c) (enc_num h 4 (r_height c) s1)) as A2.
  pose proof (enc_num_length h 4 (zlen (r_fields c) mod 4294967296) (enc_num h 4 (r_width c) (enc_num h 4 (r_height c) s1))) as A3.
  pose proof (enc_num_length h 1 0 s2) as A4. pose proof (enc_num_length h 4 (r_step c) (enc_num h 1 0 s2)) as A5.
  split; [pose proof (enc_num_length h 4 (u32 (r_step c * r_width c)) (enc_num h 4 (r_step c) (enc_num h 1 0 s2))); lia|]. apply enc4_length. lia.
Qed.
Lemma enc4_aligned h x s : ((length s - 4) mod 4 = 0)%nat -> enc_num h 4 x s = s ++ wire (c_endian h) (le_bytes 4 x).
Proof. intros H. unfold enc_num. cbn [Nat.leb]. now rewrite align4. Qed.
Lemma header_ok c : ros_ok c -> exists s, writePointCloudHeader c (cdr_begin (r_cdr c)) = Ok s.
Proof.
  intros H. pose proof (pc2_fits c (repeat 1 (length (r_fields c))) 0 (u32 (r_step c * r_width c)) [] H (ones_range _) (repeat_length _ _) ltac:(lia) (u32_in _) ltac:(unfold zlen; cbn; lia)) as F.
  destruct (rt_all (r_cdr c) pc2_type _ (cdr_begin (r_cdr c)) F ltac:(cbn; lia)) as (bs & E & _). unfold pc2_type, pc2_value in E. rewrite encode_struct_app in E by reflexivity. rewrite <- ones_map in E.
  rewrite write_header_eq. apply bind_ok in E. destruct E as (s & E & _). eauto.
Qed.
(** The message with header and data is the CDR serialisation of a PointCloud2 *)
Lemma pc2_message c s data : writePointCloudHeader c (cdr_begin (r_cdr c)) = Ok s ->
  cdr_encode (r_cdr c) pc2_type (pc2_value c (repeat 1 (length (r_fields c))) 0 (u32 (r_step c * r_width c)) data) (cdr_begin (r_cdr c)) =
  Ok (enc_num (r_cdr c) 1 (r_dense c) (enc_buffer (r_cdr c) data s)).
Proof. intros H. unfold pc2_type, pc2_value. rewrite encode_struct_app by reflexivity. rewrite <- ones_map, <- write_header_eq, H. reflexivity. Qed.
(** The parsed form of either message *)
Lemma parse_written c s data rest : ros_ok c -> dds (r_cdr c) -> zlen data < 4294967296 -> writePointCloudHeader c (cdr_begin (r_cdr c)) = Ok s ->
  getDeserializedPointCloudMessage (enc_num (r_cdr c) 1 (r_dense c) (enc_buffer (r_cdr c) data s) ++ rest) = Ok (parsed (r_cdr c) c (u32 (r_step c * r_width c)) data).
Proof.
  intros H Hh HD HW. pose proof (pc2_fits c (repeat 1 (length (r_fields c))) 0 (u32 (r_step c * r_width c)) data H (ones_range _) (repeat_length _ _) ltac:(lia) (u32_in _) HD) as F.
  rewrite (parse_message _ _ _ rest Hh F (pc2_message c s data HW)). now rewrite cproj_value by (try exact H; apply repeat_length).
Qed.
Lemma header_begin_aligned c s : writePointCloudHeader c (cdr_begin (r_cdr c)) = Ok s -> (4 <= length s)%nat /\ ((length s - 4) mod 4 = 0)%nat.
Proof. apply header_aligned. cbn. lia. Qed.
