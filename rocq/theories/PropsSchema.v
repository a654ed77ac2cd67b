(** C83: the schema texts stored with the converted recordings describe the recorded messages. *)
From Coq Require Import String.
From Verif Require Import Base BaseFacts Types Floats V5 Api Spec LibSpec Header Cdr CdrFacts Ros RosFacts RosViz Mcap CloudFacts PropsCloud Cases PropsHeader FloatText PropsRos PropsMcap PropsPcl PropsWasm PropsEntry LengthFacts SchemaText SchemaSpec CdrFacts SchemaFacts.

(** ** Specification *)
(** [read_by_schema] (SchemaSpec) is a reader that only knows the ROS message definition language and
    CDR.  A cloud as it must appear to such a reader, by member name: *)
Definition field_record (count : Z) (f : field) : sval :=
  SRec [(str "name", SText (f_name f)); (str "offset", SNum (f_off f)); (str "datatype", SNum (ftype_code (f_type f))); (str "count", SNum count)].
Definition header_record (c : ros_cloud) : sval :=
  SRec [(str "stamp", SRec [(str "sec", SNum (to_signed true 4 (r_sec c))); (str "nanosec", SNum (r_nsec c))]); (str "frame_id", SText (r_frame c))].
Definition common_record (c : ros_cloud) (counts : list Z) (bigendian row : Z) : list (list Z * sval) :=
  [(str "header", header_record c); (str "height", SNum (r_height c)); (str "width", SNum (r_width c));
   (str "fields", SItems (map (fun cf => field_record (fst cf) (snd cf)) (combine counts (r_fields c))));
   (str "is_bigendian", SNum bigendian); (str "point_step", SNum (r_step c)); (str "row_step", SNum row)].
(** A PointCloud2 with the given data *)
Definition cloud_record (c : ros_cloud) (counts : list Z) (bigendian row : Z) (data : list Z) : sval :=
  SRec (common_record c counts bigendian row ++ [(str "data", SItems (map SNum data)); (str "is_dense", SNum (r_dense c))]).
(** A CompressedPointCloud2 with the given payload and format *)
Definition compressed_record (c : ros_cloud) (counts : list Z) (bigendian row : Z) (payload format : list Z) : sval :=
  SRec (common_record c counts bigendian row ++ [(str "compressed_data", SItems (map SNum payload)); (str "is_dense", SNum (r_dense c)); (str "format", SText format)]).

(** ** The texts *)
Definition field_stype : stype := SMsg [(str "name", SString); (str "offset", SPrim false 4); (str "datatype", SPrim false 1); (str "count", SPrim false 4)].
Definition common_stype : list (list Z * stype) :=
  [(str "header", SMsg [(str "stamp", SMsg [(str "sec", SPrim true 4); (str "nanosec", SPrim false 4)]); (str "frame_id", SString)]);
   (str "height", SPrim false 4); (str "width", SPrim false 4); (str "fields", SSeq field_stype);
   (str "is_bigendian", SPrim false 1); (str "point_step", SPrim false 4); (str "row_step", SPrim false 4)].
Definition cloud_stype : stype := SMsg (common_stype ++ [(str "data", SSeq (SPrim false 1)); (str "is_dense", SPrim false 1)]).
Definition compressed_stype : stype := SMsg (common_stype ++ [(str "compressed_data", SSeq (SPrim false 1)); (str "is_dense", SPrim false 1); (str "format", SString)]).
Lemma cloud_schema : schema_type pointcloud_schema_name pointcloud_schema_data = Some cloud_stype.
Proof. vm_compute. reflexivity. Qed.
Lemma compressed_schema : schema_type compressed_schema_name compressed_schema_data = Some compressed_stype.
Proof. vm_compute. reflexivity. Qed.

(** ** Nested and flat *)
Definition nest (v : cval) : cval :=
  match v with
  | VList (VNum sec :: VNum nsec :: VBytes frame :: vs) => VList (VList [VList [VNum sec; VNum nsec]; VBytes frame] :: vs)
  | _ => v
  end.
Lemma field_erase : erase field_stype = field_type.
Proof. reflexivity. Qed.
Lemma nest_encode h ts sec nsec frame vs s :
  cdr_encode h (TStruct (TNum 4 :: TNum 4 :: TString :: ts)) (VList (VNum sec :: VNum nsec :: VBytes frame :: vs)) s =
  cdr_encode h (TStruct (TStruct [TStruct [TNum 4; TNum 4]; TString] :: ts)) (nest (VList (VNum sec :: VNum nsec :: VBytes frame :: vs))) s.
Proof. cbn [nest cdr_encode bind]. destruct (enc_string h frame _) as [s1| |]; reflexivity. Qed.
Lemma nest_decode h ts d v d' :
  cdr_decode h (TStruct (TStruct [TStruct [TNum 4; TNum 4]; TString] :: ts)) d = Ok (v, d') ->
  exists sec nsec frame vs, v = VList (VList [VList [VNum sec; VNum nsec]; VBytes frame] :: vs) /\
    cdr_decode h (TStruct (TNum 4 :: TNum 4 :: TString :: ts)) d = Ok (VList (VNum sec :: VNum nsec :: VBytes frame :: vs), d').
Proof.
  cbn [cdr_decode]. destruct (dec_num h 4 d) as [[sec d1]| |]; cbn [bind]; try discriminate. destruct (dec_num h 4 d1) as [[nsec d2]| |]; cbn [bind]; try discriminate.
  destruct (dec_string h d2) as [[frame d3]| |]; cbn [bind]; try discriminate.
  match goal with |- context [?F ts d3] => destruct (F ts d3) as [[vs d4]| |]; cbn [bind]; try discriminate end.
  intros H. injection H as <- <-. exists sec, nsec, frame, vs. split; reflexivity.
Qed.

Lemma field_label cfs : map (label field_stype) (map (fun cf => field_value (fst cf) (snd cf)) cfs) = map (fun cf => field_record (fst cf) (snd cf)) cfs.
Proof. rewrite map_map. apply map_ext. intros [n f]. reflexivity. Qed.
Lemma cloud_label c counts bigendian row data : label cloud_stype (nest (pc2_value c counts bigendian row data)) = cloud_record c counts bigendian row data.
Proof. unfold pc2_value, cloud_record, common_record, header_record. cbn [header_values app nest label cloud_stype common_stype map]. rewrite <- field_label. reflexivity. Qed.
Lemma compressed_label c payload : label compressed_stype (nest (compressed_value c payload)) =
  compressed_record c (repeat 1 (length (r_fields c))) 0 (u32 (r_step c * r_width c)) payload format_name.
Proof.
  unfold compressed_value, compressed_record, common_record, header_record. cbn [header_values app nest label compressed_stype common_stype map]. rewrite ones_map, <- field_label. reflexivity.
Qed.

Lemma read_begin h name text t rest v d : schema_type name text = Some t -> dds h -> read_value (big h) t (O, rest) = Some (v, d) ->
  read_by_schema name text (cdr_begin h ++ rest) = Some (v, snd d).
Proof.
  intros HS [H1 H2] HR. unfold read_by_schema. rewrite HS. destruct h as [e enc ver]. cbn [c_encoding c_version c_endian] in *. subst enc. unfold big in HR. cbn [c_endian] in HR.
  destruct e; [change (cdr_begin (mkCdr BIG PLAIN_CDR ver)) with [0; 0; 0; 0]|change (cdr_begin (mkCdr LITTLE PLAIN_CDR ver)) with [0; 1; 0; 0]]; cbn [app]; cbn [Z.eqb Pos.eqb orb]; rewrite HR; reflexivity.
Qed.
(** A serialised value, read by a schema whose type it has. *)
Lemma read_written h name text t v msg : schema_type name text = Some t -> dds h -> fits (erase t) v -> cdr_encode h (erase t) v (cdr_begin h) = Ok msg ->
  read_by_schema name text msg = Some (label t v, []).
Proof.
  intros HS Hd HF HE. destruct (reads_all h (proj2 Hd) t v (cdr_begin h) HF ltac:(cbn; lia)) as (bs & E & D). assert (HM : msg = cdr_begin h ++ bs) by congruence. subst msg.
  specialize (D []). rewrite app_nil_r in D. change (length (cdr_begin h) - 4)%nat with O in D. rewrite (read_begin h name text t bs _ _ HS Hd D). reflexivity.
Qed.
Lemma nest_fits ts sec nsec frame vs : fits (TStruct (TNum 4 :: TNum 4 :: TString :: ts)) (VList (VNum sec :: VNum nsec :: VBytes frame :: vs)) ->
  fits (TStruct (TStruct [TStruct [TNum 4; TNum 4]; TString] :: ts)) (nest (VList (VNum sec :: VNum nsec :: VBytes frame :: vs))).
Proof. cbn [fits nest]. intros (H1 & H2 & H3 & H4). auto. Qed.
Lemma cloud_written h c counts bigendian row data msg : dds h -> fits pc2_type (pc2_value c counts bigendian row data) ->
  cdr_encode h pc2_type (pc2_value c counts bigendian row data) (cdr_begin h) = Ok msg ->
  read_by_schema pointcloud_schema_name pointcloud_schema_data msg = Some (cloud_record c counts bigendian row data, []).
Proof.
  intros Hd HF HE. rewrite <- cloud_label. apply (read_written h _ _ _ _ _ cloud_schema Hd).
  - exact (nest_fits _ _ _ _ _ HF).
  - rewrite <- HE. symmetry. exact (nest_encode h _ _ _ _ _ _).
Qed.
Lemma compressed_fits c payload : ros_ok c -> zlen payload < 4294967296 -> fits compressed_type (compressed_value c payload).
Proof.
  intros H HP. pose proof (pc2_fits c (repeat 1 (length (r_fields c))) 0 (u32 (r_step c * r_width c)) payload H (ones_range _) (repeat_length _ _) ltac:(lia) (u32_in _) HP) as F.
  unfold compressed_type, compressed_value, pc2_type, pc2_value in *. rewrite ones_map. cbn [header_types header_values app fits] in *. repeat (destruct F as [? F]; split; [assumption|]).
  split; [|exact I]. reflexivity.
Qed.

(** ** Every parsed message is a value of its C++ type *)
Lemma jump_spec n d d' : jump n d = Ok d' -> snd d' = skipn n (snd d) /\ (n <= length (snd d))%nat.
Proof. unfold jump, trim_front. destruct (_ <? _)%nat eqn:E; [discriminate|]. cbn [bind]. intros H. injection H as <-. apply Nat.ltb_ge in E. auto. Qed.
Definition smaller (d d' : dstate) : Prop := bytes (snd d') /\ zlen (snd d') <= zlen (snd d).
Lemma jump_smaller n d d' : bytes (snd d) -> jump n d = Ok d' -> smaller d d'.
Proof. intros Hb H. destruct (jump_spec _ _ _ H) as [E _]. unfold smaller. rewrite E. split; [now apply bytes_skipn|]. unfold zlen. rewrite skipn_length. lia. Qed.
Lemma bytes_wire e bs : bytes bs -> bytes (wire e bs).
Proof. destruct e; [|auto]. apply Forall_rev. Qed.
Lemma num_read h size d x d' : bytes (snd d) -> dec_num h size d = Ok (x, d') -> 0 <= x < 256 ^ Z.of_nat size /\ smaller d d'.
Proof.
  intros Hb. unfold dec_num. destruct (jump _ d) as [d1| |] eqn:E1; cbn [bind]; try discriminate. destruct (length (snd d1) <? size)%nat eqn:E2; [discriminate|].
  destruct (jump size d1) as [d2| |] eqn:E3; cbn [bind]; try discriminate. intros H. apply ok_pair in H. destruct H as [<- <-]. apply Nat.ltb_ge in E2.
  destruct (jump_smaller _ _ _ Hb E1) as [B1 Z1]. destruct (jump_smaller _ _ _ B1 E3) as [B2 Z2]. split; [|split; [exact B2|lia]].
  match goal with |- 0 <= le_val ?w < _ => pose proof (le_val_range w) as HR; assert (HL : zlen w = Z.of_nat size) by (unfold zlen; rewrite wire_length, firstn_length; lia) end.
  rewrite HL in HR. apply HR. apply bytes_wire. now apply bytes_firstn.
Qed.
Lemma string_read h d s d' : bytes (snd d) -> dec_string h d = Ok (s, d') -> zlen s <= zlen (snd d) /\ smaller d d'.
Proof.
  intros Hb. unfold dec_string. destruct (dec_num h 4 d) as [[n d1]| |] eqn:E1; cbn [bind]; try discriminate. destruct (num_read _ _ _ _ _ Hb E1) as [Hn [B1 Z1]].
  destruct (zlen (snd d1) <? n) eqn:E2; [discriminate|]. destruct (jump _ d1) as [d2| |] eqn:E3; cbn [bind]; try discriminate. intros H. apply ok_pair in H. destruct H as [<- <-].
  destruct (jump_smaller _ _ _ B1 E3) as [B2 Z2]. split; [|split; [exact B2|lia]].
  assert (HR : forall l : list Z, zlen (removelast l) <= zlen l).
  { intros l. destruct l as [|a l]; [cbn; lia|]. rewrite removelast_firstn_len. unfold zlen. rewrite firstn_length. lia. }
  assert (HF : zlen (firstn (Z.to_nat n) (snd d1)) <= zlen (snd d1)) by (unfold zlen; rewrite firstn_length; lia).
  destruct (_ && _); [specialize (HR (firstn (Z.to_nat n) (snd d1)))|]; lia.
Qed.
Lemma code_code n : 0 <= n < 256 -> 0 <= ftype_code (ftype_of_code n) < 256 /\ ftype_of_code (ftype_code (ftype_of_code n)) = ftype_of_code n /\ ftype_code (ftype_of_code n) = n.
Proof.
  intros Hn. assert (HE : ftype_code (ftype_of_code n) = n). { unfold ftype_of_code. destruct n as [|p|p]; try reflexivity; try lia. do 5 (destruct p as [p|p|]; try reflexivity). }
  rewrite HE. auto.
Qed.
Lemma fields_read h n : forall d fs d', bytes (snd d) -> zlen (snd d) < 4294967295 -> read_fields h n d = Ok (fs, d') -> length fs = n /\ Forall ros_field_ok fs /\ smaller d d'.
Proof.
  induction n as [|n IH]; intros d fs d' Hb Hz; cbn [read_fields].
  - intros H. apply ok_pair in H. destruct H as [<- <-]. split; [reflexivity|]. split; [constructor|]. split; [exact Hb|lia].
  - unfold read_field. destruct (dec_string h d) as [[name d1]| |] eqn:E1; cbn [bind]; try discriminate. destruct (string_read _ _ _ _ Hb E1) as [Hs [B1 Z1]].
    destruct (dec_num h 4 d1) as [[off d2]| |] eqn:E2; cbn [bind]; try discriminate. destruct (num_read _ _ _ _ _ B1 E2) as [Ho [B2 Z2]].
    destruct (dec_num h 1 d2) as [[ty d3]| |] eqn:E3; cbn [bind]; try discriminate. destruct (num_read _ _ _ _ _ B2 E3) as [Ht [B3 Z3]].
    destruct (dec_num h 4 d3) as [[cn d4]| |] eqn:E4; cbn [bind]; try discriminate. destruct (num_read _ _ _ _ _ B3 E4) as [_ [B4 Z4]].
    destruct (read_fields h n d4) as [[fs' d5]| |] eqn:E5; cbn [bind]; try discriminate. intros H. apply ok_pair in H. destruct H as [<- <-].
    destruct (IH _ _ _ B4 ltac:(lia) E5) as (L & F & [B5 Z5]). split; [cbn [length]; lia|]. split; [|split; [exact B5|lia]]. constructor; [|exact F].
    change (256 ^ Z.of_nat 4) with 4294967296 in Ho. change (256 ^ Z.of_nat 1) with 256 in Ht. destruct (code_code ty Ht) as (C1 & C2 & _).
    unfold ros_field_ok, u32_range. cbn [f_name f_off f_type]. repeat split; try lia; exact C2.
Qed.
Lemma message_ok msg c : bytes msg -> zlen msg < 4294967295 -> getDeserializedPointCloudMessage msg = Ok c -> ros_ok c /\ dds (r_cdr c).
Proof.
  intros Hb Hz. unfold getDeserializedPointCloudMessage. destruct (cdr_open DDS_CDR msg) as [[h d0]| |] eqn:EO; cbn [bind]; try discriminate.
  assert (HO : dds h /\ bytes (snd d0) /\ zlen (snd d0) < 4294967295).
  { revert EO. unfold cdr_open. destruct msg as [|b0 [|b1 [|b2 [|b3 rest]]]]; try discriminate; destruct (negb (b0 =? 0)); try discriminate.
    change (XCDRv1 <=? DDS_CDR) with false. cbv iota. destruct (_ =? PLAIN_CDR2); cbn [bind]; try discriminate. destruct (_ =? PL_CDR); cbn [bind]; try discriminate.
    destruct (Z.land b1 254 =? PLAIN_CDR) eqn:EP; cbn [bind]; try discriminate. destruct (_ || _); try discriminate. intros H. apply ok_pair in H. destruct H as [<- <-].
    cbn [snd]. split; [split; [cbn [c_encoding]; now apply Z.eqb_eq in EP|reflexivity]|]. split; [now do 4 apply Forall_inv_tail in Hb|]. unfold zlen in *. cbn [length] in Hz. lia. }
  destruct HO as (Hd & B0 & Z0). unfold readPointCloud2MessageCommon.
  destruct (dec_num h 4 d0) as [[sec d1]| |] eqn:E1; cbn [bind]; try discriminate. destruct (num_read _ _ _ _ _ B0 E1) as [H1 [B1 Z1]].
  destruct (dec_num h 4 d1) as [[nsec d2]| |] eqn:E2; cbn [bind]; try discriminate. destruct (num_read _ _ _ _ _ B1 E2) as [H2 [B2 Z2]].
  destruct (dec_string h d2) as [[frame d3]| |] eqn:E3; cbn [bind]; try discriminate. destruct (string_read _ _ _ _ B2 E3) as [H3 [B3 Z3]].
  destruct (dec_num h 4 d3) as [[hei d4]| |] eqn:E4; cbn [bind]; try discriminate. destruct (num_read _ _ _ _ _ B3 E4) as [H4 [B4 Z4]].
  destruct (dec_num h 4 d4) as [[wid d5]| |] eqn:E5; cbn [bind]; try discriminate. destruct (num_read _ _ _ _ _ B4 E5) as [H5 [B5 Z5]].
  destruct (dec_num h 4 d5) as [[n d6]| |] eqn:E6; cbn [bind]; try discriminate. destruct (num_read _ _ _ _ _ B5 E6) as [H6 [B6 Z6]].
  destruct (read_fields h (Z.to_nat n) d6) as [[fs d7]| |] eqn:E7; cbn [bind]; try discriminate. destruct (fields_read _ _ _ _ _ B6 ltac:(lia) E7) as (L7 & F7 & [B7 Z7]).
  destruct (dec_num h 1 d7) as [[be d8]| |] eqn:E8; cbn [bind]; try discriminate. destruct (num_read _ _ _ _ _ B7 E8) as [_ [B8 Z8]].
  destruct (dec_num h 4 d8) as [[step d9]| |] eqn:E9; cbn [bind]; try discriminate. destruct (num_read _ _ _ _ _ B8 E9) as [H9 [B9 Z9]].
  destruct (dec_num h 4 d9) as [[row d10]| |] eqn:E10; cbn [bind]; try discriminate. destruct (num_read _ _ _ _ _ B9 E10) as [H10 [B10 Z10]].
  unfold dec_buffer. destruct (dec_num h 4 d10) as [[n2 d11]| |] eqn:E11; cbn [bind]; try discriminate. destruct (num_read _ _ _ _ _ B10 E11) as [H11 [B11 Z11]].
  destruct (_ <? n2) eqn:E12; [discriminate|]. destruct (jump _ d11) as [d12| |] eqn:E13; cbn [bind]; try discriminate. destruct (jump_smaller _ _ _ B11 E13) as [B12 Z12].
  destruct (dec_num h 1 d12) as [[dense d13]| |] eqn:E14; cbn [bind]; try discriminate. destruct (num_read _ _ _ _ _ B12 E14) as [H14 _].
  intros H. injection H as <-. change (256 ^ Z.of_nat 4) with 4294967296 in *. change (256 ^ Z.of_nat 1) with 256 in *. split; [|exact Hd].
  unfold ros_ok, u32_range. cbn [r_sec r_nsec r_frame r_height r_width r_fields r_step r_row r_data r_dense].
  repeat (split; [first [lia|exact F7|unfold zlen; lia]|]). split; [unfold zlen; rewrite firstn_length; lia|lia].
Qed.

(** ** What the library parses is what a reader sees *)
Lemma field_shape h d v d' : bytes (snd d) -> cdr_decode h field_type d = Ok (v, d') -> (exists n, v = field_value n (fproj v)) /\ bytes (snd d').
Proof.
  intros Hb. unfold field_type. cbn [cdr_decode].
  destruct (dec_string h d) as [[name d1]| |] eqn:E1; cbn [bind]; try discriminate. destruct (string_read _ _ _ _ Hb E1) as [_ [B1 _]].
  destruct (dec_num h 4 d1) as [[off d2]| |] eqn:E2; cbn [bind]; try discriminate. destruct (num_read _ _ _ _ _ B1 E2) as [_ [B2 _]].
  destruct (dec_num h 1 d2) as [[ty d3]| |] eqn:E3; cbn [bind]; try discriminate. destruct (num_read _ _ _ _ _ B2 E3) as [Ht [B3 _]].
  destruct (dec_num h 4 d3) as [[cn d4]| |] eqn:E4; cbn [bind]; try discriminate. destruct (num_read _ _ _ _ _ B3 E4) as [_ [B4 _]].
  intros H. apply ok_pair in H. destruct H as [<- <-]. split; [|exact B4]. exists cn. unfold fproj, field_value. cbn [f_name f_off f_type].
  change (256 ^ Z.of_nat 1) with 256 in Ht. now rewrite (proj2 (proj2 (code_code ty Ht))).
Qed.
Lemma fields_shape h n : forall d vs d', bytes (snd d) -> dec_list (cdr_decode h field_type) n d = Ok (vs, d') ->
  (exists counts, length counts = length vs /\ vs = map (fun cf => field_value (fst cf) (snd cf)) (combine counts (map fproj vs))) /\ bytes (snd d').
Proof.
  induction n as [|n IH]; intros d vs d' Hb; cbn [dec_list].
  - intros H. apply ok_pair in H. destruct H as [<- <-]. split; [now exists []|exact Hb].
  - destruct (cdr_decode h field_type d) as [[v d1]| |] eqn:E1; cbn [bind]; try discriminate. destruct (field_shape _ _ _ _ Hb E1) as [(cn & HV) B1].
    destruct (dec_list _ n d1) as [[vs' d2]| |] eqn:E2; cbn [bind]; try discriminate. intros H. apply ok_pair in H. destruct H as [<- <-].
    destruct (IH _ _ _ B1 E2) as [(counts & HL & HM) B2]. split; [|exact B2]. exists (cn :: counts). split; [cbn [length]; congruence|]. cbn [map combine fst snd]. now rewrite <- HV, <- HM.
Qed.
Lemma cloud_shape h d v d' : bytes (snd d) -> cdr_decode h pc2_type d = Ok (v, d') ->
  exists counts bigendian, length counts = length (r_fields (cproj h v)) /\ v = pc2_value (cproj h v) counts bigendian (r_row (cproj h v)) (r_data (cproj h v)).
Proof.
  intros B0. unfold pc2_type, header_types. cbn [app cdr_decode].
  destruct (dec_num h 4 d) as [[sec d1]| |] eqn:E1; cbn [bind]; try discriminate. destruct (num_read _ _ _ _ _ B0 E1) as [_ [B1 _]].
  destruct (dec_num h 4 d1) as [[nsec d2]| |] eqn:E2; cbn [bind]; try discriminate. destruct (num_read _ _ _ _ _ B1 E2) as [_ [B2 _]].
  destruct (dec_string h d2) as [[frame d3]| |] eqn:E3; cbn [bind]; try discriminate. destruct (string_read _ _ _ _ B2 E3) as [_ [B3 _]].
  destruct (dec_num h 4 d3) as [[hei d4]| |] eqn:E4; cbn [bind]; try discriminate. destruct (num_read _ _ _ _ _ B3 E4) as [_ [B4 _]].
  destruct (dec_num h 4 d4) as [[wid d5]| |] eqn:E5; cbn [bind]; try discriminate. destruct (num_read _ _ _ _ _ B4 E5) as [_ [B5 _]].
  destruct (dec_num h 4 d5) as [[n d6]| |] eqn:E6; cbn [bind]; try discriminate. destruct (num_read _ _ _ _ _ B5 E6) as [_ [B6 _]].
  match goal with |- context [dec_list ?F ?k d6] => change F with (cdr_decode h field_type) end.
  destruct (dec_list (cdr_decode h field_type) (Z.to_nat n) d6) as [[vs d7]| |] eqn:E7; cbn [bind]; try discriminate. destruct (fields_shape _ _ _ _ _ B6 E7) as [(counts & HL & HM) _].
  destruct (dec_num h 1 d7) as [[be d8]| |]; cbn [bind]; try discriminate. destruct (dec_num h 4 d8) as [[step d9]| |]; cbn [bind]; try discriminate.
  destruct (dec_num h 4 d9) as [[row d10]| |]; cbn [bind]; try discriminate. destruct (dec_buffer h d10) as [[data d11]| |]; cbn [bind]; try discriminate.
  destruct (dec_num h 1 d11) as [[dense d12]| |]; cbn [bind]; try discriminate. intros H. apply ok_pair in H. destruct H as [<- _]. exists counts, be.
  cbn [cproj r_fields r_row r_data r_sec r_nsec r_frame r_height r_width r_step r_dense]. split; [now rewrite map_length|]. unfold pc2_value, header_values. cbn [app r_fields r_row r_data r_sec r_nsec r_frame r_height r_width r_step r_dense]. now rewrite <- HM.
Qed.
Lemma schema_reads name text t msg v rest : schema_type name text = Some t -> stype_ok t -> bytes msg -> read_by_schema name text msg = Some (v, rest) ->
  exists h d d' u, cdr_open DDS_CDR msg = Ok (h, d) /\ bytes (snd d) /\ cdr_decode h (erase t) d = Ok (u, d') /\ label t u = v.
Proof.
  intros HS Hok Hb. unfold read_by_schema. rewrite HS. destruct msg as [|b0 [|b1 [|b2 [|b3 l]]]]; try (destruct b0; discriminate); try (destruct b0, b2; discriminate); try discriminate.
  assert (H0 : b0 = 0 \/ b0 <> 0) by lia. destruct H0 as [-> |H0]; [|destruct b0; [contradiction|discriminate|discriminate]].
  assert (H2 : b2 = 0 \/ b2 <> 0) by lia. destruct H2 as [-> |H2]; [|destruct b2; [contradiction|discriminate|discriminate]].
  assert (H3 : b3 = 0 \/ b3 <> 0) by lia. destruct H3 as [-> |H3]; [|destruct b3; [contradiction|discriminate|discriminate]].
  destruct ((b1 =? 0) || (b1 =? 1)) eqn:E; [|discriminate]. destruct (read_value (b1 =? 0) t (O, l)) as [[sv d']|] eqn:ER; [|discriminate]. intros H. injection H as <- _.
  assert (HE : b1 = 0 \/ b1 = 1) by lia. set (h := mkCdr (if b1 =? 0 then BIG else LITTLE) PLAIN_CDR DDS_CDR).
  assert (HB : big h = (b1 =? 0)) by (destruct HE as [-> | ->]; reflexivity). rewrite <- HB in ER.
  destruct (sim_all h eq_refl t Hok _ _ _ ER) as (u & HD & HL). exists h, (O, l), d', u. split; [destruct HE as [-> | ->]; reflexivity|]. split; [now do 4 apply Forall_inv_tail in Hb|]. auto.
Qed.
Lemma cloud_ok : stype_ok cloud_stype /\ stype_ok compressed_stype.
Proof. split; cbn; unfold sizes_ok; tauto. Qed.

(** * C83: messages read *)
(** A PointCloud2 message in a recording, read by the tool's schema text, has the content the
    library parses: nothing is read differently by the library. *)
Theorem C83_parsed_cloud msg v rest : bytes msg -> read_by_schema pointcloud_schema_name pointcloud_schema_data msg = Some (v, rest) ->
  exists c counts bigendian, getDeserializedPointCloudMessage msg = Ok c /\ length counts = length (r_fields c) /\ v = cloud_record c counts bigendian (r_row c) (r_data c).
Proof.
  intros Hb HR. destruct (schema_reads _ _ _ _ _ _ cloud_schema (proj1 cloud_ok) Hb HR) as (h & d & d' & u & HO & B & HD & <-).
  destruct (nest_decode h _ _ _ _ HD) as (sec & nsec & frame & vs & -> & HF). change (cdr_decode h pc2_type d = Ok (VList (VNum sec :: VNum nsec :: VBytes frame :: vs), d')) in HF.
  destruct (cloud_shape _ _ _ _ B HF) as (counts & be & HL & HV). set (w := VList (VNum sec :: VNum nsec :: VBytes frame :: vs)) in *. exists (cproj h w), counts, be. split; [|split; [exact HL|]].
  - unfold getDeserializedPointCloudMessage. rewrite HO. cbn [bind]. rewrite read_common_eq, HF. reflexivity.
  - rewrite <- cloud_label. rewrite <- HV. reflexivity.
Qed.
(** The same for CompressedPointCloud2 messages. *)
Theorem C83_parsed_compressed msg v rest : bytes msg -> read_by_schema compressed_schema_name compressed_schema_data msg = Some (v, rest) ->
  exists c counts bigendian format, getDeserializedPointCloudMessage msg = Ok c /\ length counts = length (r_fields c) /\ v = compressed_record c counts bigendian (r_row c) (r_data c) format.
Proof.
  intros Hb HR. destruct (schema_reads _ _ _ _ _ _ compressed_schema (proj2 cloud_ok) Hb HR) as (h & d & d' & u & HO & B & HD & <-).
  destruct (nest_decode h _ _ _ _ HD) as (sec & nsec & frame & vs & -> & HF). change (cdr_decode h (TStruct ((header_types ++ [TBuffer; TNum 1]) ++ [TString])) d = Ok (VList (VNum sec :: VNum nsec :: VBytes frame :: vs), d')) in HF.
  rewrite dec_struct_eq, dec_struct_app in HF. destruct (dec_struct h (header_types ++ [TBuffer; TNum 1]) d) as [[v1 d1]| |] eqn:E1; cbn [bind] in HF; try discriminate.
  cbn [dec_struct cdr_decode] in HF. destruct (dec_string h d1) as [[format d2]| |]; cbn [bind] in HF; try discriminate. apply ok_pair in HF. destruct HF as [HF _].
  assert (E2 : cdr_decode h pc2_type d = Ok (VList v1, d1)) by (unfold pc2_type; rewrite dec_struct_eq, E1; reflexivity).
  destruct (cloud_shape _ _ _ _ B E2) as (counts & be & HL & HV). exists (cproj h (VList v1)), counts, be, format. split; [|split; [exact HL|]].
  - unfold getDeserializedPointCloudMessage. rewrite HO. cbn [bind]. rewrite read_common_eq, E2. reflexivity.
  - set (c := cproj h (VList v1)) in *. injection HV as HV. injection HF as HF. rewrite HV in HF. unfold header_values in HF. cbn [app] in HF. injection HF as <- <- <- <-.
    unfold compressed_record, common_record, header_record. cbn [label compressed_stype common_stype app map]. rewrite <- field_label. reflexivity.
Qed.

(** * C83: messages written *)
Definition ones (c : ros_cloud) : list Z := repeat 1 (length (r_fields c)).
(** A compressed message, read by the tool's schema text: every byte of the message belongs to the
    value, which has the stamp, frame, dimensions, fields and density of the cloud, and the payload the
    encoder produced. *)
Theorem C83_compressed_message ft ops L ppc probe c i msg : libs_ok L -> encode_side ppc i (r_data c) -> (forall hdr, EncodeHeader ft i HYaml = Ok hdr -> bytes hdr) ->
  ros_ok c -> dds (r_cdr c) -> c_endian (r_cdr c) = LITTLE -> convertPointCloud2ToCompressedCloud ft ops L ppc probe c i = Ok msg -> zlen msg < 4294967296 ->
  exists payload, is_payload ft ops L ppc probe c i payload /\
    read_by_schema compressed_schema_name compressed_schema_data msg = Some (compressed_record c (ones c) 0 (u32 (r_step c * r_width c)) payload (str "cloudini"), []).
Proof.
  intros HLi HES Hb Hok Hd Hle HC HZ. destruct (compress_payload _ _ _ _ _ _ _ _ HLi HES Hb HC) as (s & payload & HW & HP & HM). exists payload. split; [exact HP|].
  assert (HPZ : zlen payload < 4294967296).
  { unfold enc_string in HM. destruct (_ <=? _); [discriminate|]. assert (E : msg = enc_num (r_cdr c) 4 (zlen format_name + 1) (enc_num (r_cdr c) 1 (r_dense c) (s ++ le_bytes 4 (zlen payload) ++ payload)) ++ format_name ++ [0]) by congruence.
    rewrite E in HZ. unfold enc_num in HZ. rewrite !zlen_app in HZ. unfold zlen in *. lia. }
  pose proof (header_begin_aligned _ _ HW) as [_ HA]. rewrite (buffer_little _ _ _ Hle HA HPZ) in HM.
  assert (HE : cdr_encode (r_cdr c) compressed_type (compressed_value c payload) (cdr_begin (r_cdr c)) = Ok msg).
  { unfold compressed_type, compressed_value. rewrite encode_struct_app by reflexivity. rewrite <- write_header_eq, HW. cbn [bind cdr_encode]. rewrite HM. reflexivity. }
  change (str "cloudini") with format_name. rewrite <- compressed_label. apply (read_written _ _ _ _ _ _ compressed_schema Hd).
  - exact (nest_fits _ _ _ _ _ (compressed_fits c payload Hok HPZ)).
  - rewrite <- HE. symmetry. exact (nest_encode _ _ _ _ _ _ _).
Qed.
(** Any decompressed message, whatever was in the payload: the value has the stamp, frame,
    dimensions, fields and density of the compressed one and a data member of the declared size. *)
Theorem C83_decompressed_message ft ops L ppc c msg : ros_ok c -> dds (r_cdr c) -> convertCompressedCloudToPointCloud2 ft ops L ppc c = Ok msg ->
  exists data, zlen data = u32 (u32 (r_width c * r_height c) * r_step c) /\
    read_by_schema pointcloud_schema_name pointcloud_schema_data msg = Some (cloud_record c (ones c) 0 (u32 (r_step c * r_width c)) data, []).
Proof.
  intros Hok Hd HC. unfold convertCompressedCloudToPointCloud2 in HC. cbv zeta in HC. apply bind_ok in HC. destruct HC as (s & HW & HC). pose proof (header_begin_aligned _ _ HW) as [_ HA].
  set (size := u32 (u32 (r_width c * r_height c) * r_step c)) in *. assert (HS : 0 <= size < 4294967296) by apply u32_in.
  assert (HD : exists data, zlen data = size /\ enc_num (r_cdr c) 1 (r_dense c) (enc_buffer (r_cdr c) data s) = msg).
  { destruct (Z.eqb_spec size 0) as [E0|E0].
    - exists []. split; [unfold zlen; cbn [length]; lia|]. unfold enc_buffer. cbv zeta. change (zlen [] mod 4294967296) with 0. cbn [Z.to_nat firstn]. rewrite app_nil_r. rewrite E0 in HC. congruence.
    - apply bind_ok in HC. destruct HC as ((i & rest) & _ & HC). apply bind_ok in HC. destruct HC as ((b & mem) & HDec & HC). exists mem.
      pose proof (decode_length _ _ _ _ _ _ _ _ _ HDec) as HL. rewrite repeat_length in HL. assert (HZ : zlen mem = size) by (unfold zlen; lia). split; [exact HZ|].
      unfold enc_buffer. cbv zeta. rewrite HZ, Z.mod_small by lia. replace (Z.to_nat size) with (length mem). rewrite firstn_all. congruence. }
  destruct HD as (data & HZ & <-). exists data. split; [exact HZ|]. apply (cloud_written (r_cdr c)); [exact Hd| |exact (pc2_message c s data HW)].
  apply pc2_fits; try assumption; [apply ones_range|apply repeat_length|lia|apply u32_in|lia].
Qed.

(** * C83: recordings *)
(** A message of a decoded recording, compared to the original.  Compressed clouds become messages
    that their own schema text describes; for everything else nothing changes. *)
Definition decoded_reads (a b : option seen) : Prop :=
  exists x y, a = Some x /\ b = Some y /\
    (x_sname x = compressed_schema_name -> exists c data, getDeserializedPointCloudMessage (x_data x) = Ok c /\ zlen data = u32 (u32 (r_width c * r_height c) * r_step c) /\
       x_sname y = pointcloud_schema_name /\ read_by_schema (x_sname y) (x_sdata y) (x_data y) = Some (cloud_record c (ones c) 0 (u32 (r_step c * r_width c)) data, [])) /\
    (x_sname x <> compressed_schema_name -> read_by_schema (x_sname y) (x_sdata y) (x_data y) = read_by_schema (x_sname x) (x_sdata x) (x_data x)).
Lemma forall2_in {A B} (P Q : A -> B -> Prop) la lb : (forall a b, In a la -> P a b -> Q a b) -> Forall2 P la lb -> Forall2 Q la lb.
Proof. intros H F. induction F as [|a b la lb Hab F IH]; constructor; [apply H; [now left|exact Hab]|]. apply IH. intros a' b' Ha. apply H. now right. Qed.
Theorem C83_decoded_recording ft ops L ppc rec : well_formed rec ->
  (forall x, In (Some x) (contents rec) -> x_sname x = compressed_schema_name -> bytes (x_data x) /\ zlen (x_data x) < 4294967295 /\ exists d, decode_payload ft ops L ppc (x_data x) = Ok d) ->
  exists out, decodePointClouds pointcloud_schema_data compressed_schema_data ft ops L ppc rec = Ok out /\ Forall2 decoded_reads (contents rec) (contents out).
Proof.
  intros HW HC. destruct (C54_decode_recording pointcloud_schema_data compressed_schema_data ft ops L ppc rec HW) as (out & HO & _ & HF & _). { intros x Hx Hn. apply (HC x Hx Hn). }
  exists out. split; [exact HO|]. refine (forall2_in _ _ _ _ _ HF). intros a b Ha (x & y & -> & -> & _ & _ & _ & _ & _ & _ & H). exists x, y. do 2 (split; [reflexivity|]).
  change (converted_name false) with compressed_schema_name in H. cbn [converted_to] in H. destruct (list_eq_dec Z.eq_dec (x_sname x) compressed_schema_name) as [E|E].
  - split; [|intros N; contradiction]. intros _. destruct H as [HS HD]. destruct (HC x Ha E) as (Hb & Hz & _). unfold decode_payload in HD. apply bind_ok in HD. destruct HD as (c & HG & HD).
    destruct (message_ok _ _ Hb Hz HG) as [Hok Hd]. destruct (C83_decompressed_message _ _ _ _ _ _ Hok Hd HD) as (data & HZ & HR). exists c, data. split; [exact HG|]. split; [exact HZ|].
    assert (S1 : x_sname y = pointcloud_schema_name) by congruence. assert (S2 : x_sdata y = pointcloud_schema_data) by congruence. split; [exact S1|]. rewrite S1, S2. exact HR.
  - split; [intros N; contradiction|]. intros _. destruct H as (H1 & H2 & H3). congruence.
Qed.
(** Encoding a recording with a profile, without visualisation filtering. *)
Definition encoded_reads (prof : profile) (default : option Z) (a b : option seen) : Prop :=
  exists x y, a = Some x /\ b = Some y /\
    (x_sname x = pointcloud_schema_name -> exists c payload, getDeserializedPointCloudMessage (x_data x) = Ok c /\ x_sname y = compressed_schema_name /\
       let c' := profiled_cloud prof default c in
       read_by_schema (x_sname y) (x_sdata y) (x_data y) = Some (compressed_record c' (ones c') 0 (u32 (r_step c * r_width c)) payload (str "cloudini"), [])) /\
    (x_sname x <> pointcloud_schema_name -> read_by_schema (x_sname y) (x_sdata y) (x_data y) = read_by_schema (x_sname x) (x_sdata x) (x_data x)).
Definition encodable ft ops L ppc probe (prof : profile) (default : option Z) (zstd : bool) (data : list Z) : Prop :=
  bytes data /\ zlen data < 4294967295 /\
  (exists c, getDeserializedPointCloudMessage data = Ok c /\ c_endian (r_cdr c) = LITTLE /\
     let i := recording_info prof default zstd c in encode_side ppc i (r_data c) /\ byte_texts ft i) /\
  exists d, encode_payload ft ops L ppc probe prof default zstd false data = Ok d /\ zlen d < 4294967296.
Theorem C83_encoded_recording ft ops L ppc probe prof default zstd rec : libs_ok L -> NoDup (map fst prof) -> well_formed rec ->
  (forall x, In (Some x) (contents rec) -> x_sname x = pointcloud_schema_name -> encodable ft ops L ppc probe prof default zstd (x_data x)) ->
  exists out, encodePointClouds pointcloud_schema_data compressed_schema_data ft ops L ppc probe prof default zstd false rec = Ok out /\
    Forall2 (encoded_reads prof default) (contents rec) (contents out).
Proof.
  intros HLi HN HW HC. destruct (C54_encode_recording pointcloud_schema_data compressed_schema_data ft ops L ppc probe prof default zstd false rec HW) as (out & HO & _ & HF & _).
  { intros x Hx Hn. destruct (HC x Hx Hn) as (_ & _ & _ & d & Hd & _). eauto. }
  exists out. split; [exact HO|]. refine (forall2_in _ _ _ _ _ HF). intros a b Ha (x & y & -> & -> & _ & _ & _ & _ & _ & _ & H). exists x, y. do 2 (split; [reflexivity|]).
  change (converted_name true) with pointcloud_schema_name in H. cbn [converted_to] in H. destruct (list_eq_dec Z.eq_dec (x_sname x) pointcloud_schema_name) as [E|E].
  - split; [|intros N; contradiction]. intros _. destruct H as [HS HD]. destruct (HC x Ha E) as (Hb & Hz & (c & HG & Hle & HES & HBT) & (d & Hd' & Hzd)).
    assert (d = x_data y) by congruence. subst d. destruct (message_ok _ _ Hb Hz HG) as [Hok Hd].
    unfold encode_payload in HD. rewrite HG in HD. cbn [bind] in HD. fold (profiled_cloud prof default c) in HD. set (cp := profiled_cloud prof default c) in *. set (i := recording_info prof default zstd c) in *.
    match type of HD with convertPointCloud2ToCompressedCloud _ _ _ _ _ _ ?j = _ => replace j with i in HD by (unfold i, recording_info; destruct zstd; reflexivity) end.
    destruct (C83_compressed_message ft ops L ppc probe cp i (x_data y) HLi HES) as (payload & _ & HR); try assumption.
    { intros hdr. apply (header_bytes ft i hdr); [unfold i; cbn; lia|exact HBT]. }
    { exact (profile_ok _ _ _ HN Hok). }
    exists c, payload. split; [exact HG|]. assert (S1 : x_sname y = compressed_schema_name) by congruence. assert (S2 : x_sdata y = compressed_schema_data) by congruence. split; [exact S1|]. cbv zeta. rewrite S1, S2. exact HR.
  - split; [intros N; contradiction|]. intros _. destruct H as (H1 & H2 & H3). congruence.
Qed.

(** * C83: the datatype codes *)
(** The datatype of a field is the constant of that name in the schema texts; the two 64-bit integer
    types have none: a reader of the schema cannot know them. *)
Definition ros_types : list (ftype * list Z) :=
  [(INT8, str "INT8"); (UINT8, str "UINT8"); (INT16, str "INT16"); (UINT16, str "UINT16"); (INT32, str "INT32"); (UINT32, str "UINT32"); (FLOAT32, str "FLOAT32"); (FLOAT64, str "FLOAT64")].
Theorem C83_datatype_codes text : text = pointcloud_schema_data \/ text = compressed_schema_data ->
  (forall t n, In (t, n) ros_types -> forall v, In (n, v) (schema_constants text) <-> v = ftype_code t) /\
  (forall n, ~ In (n, ftype_code INT64) (schema_constants text)) /\ (forall n, ~ In (n, ftype_code UINT64) (schema_constants text)).
Proof.
  assert (E : schema_constants text = map (fun tn => (snd tn, ftype_code (fst tn))) ros_types -> (forall t n, In (t, n) ros_types -> forall v, In (n, v) (schema_constants text) <-> v = ftype_code t) /\
    (forall n, ~ In (n, ftype_code INT64) (schema_constants text)) /\ (forall n, ~ In (n, ftype_code UINT64) (schema_constants text))).
  { intros ->. split; [|split; intros n H; repeat (destruct H as [H|H]; [vm_compute in H; discriminate H|]); exact H].
    intros t n H v. split.
    - intros HI. repeat (destruct H as [H|H]; [injection H as <- <-; repeat (destruct HI as [HI|HI]; [vm_compute in HI; first [discriminate HI|injection HI as <-; reflexivity]|]); contradiction|]). contradiction.
    - intros ->. now apply (in_map (fun tn => (snd tn, ftype_code (fst tn)))) in H. }
  intros [-> | ->]; apply E; vm_compute; reflexivity.
Qed.

(** ** Cases *)
(** Recordings with one cloud message and one text message. *)
Definition two_messages (name text data : list Z) : recording := mkRec
  [mkSchema 3 name (str "ros2msg") text; mkSchema 7 (str "std_msgs/msg/String") (str "ros2msg") (str "string data")]
  [mkChannel 2 (str "/points") (str "cdr") 3 []; mkChannel 4 (str "/chatter") (str "cdr") 7 []]
  [mkMsg 2 0 10 10 data; mkMsg 4 0 11 11 [0; 1; 0; 0; 3; 0; 0; 0; 104; 105; 0]] [] [].
Lemma two_wf name text data : well_formed (two_messages name text data).
Proof. unfold well_formed. split; [cbn; nodup|]. split; [cbn; nodup|]. split; [reflexivity|]. split; [reflexivity|]. split; intros x H; cbn in H |- *; repeat (destruct H as [<-|H]; [cbn; auto|]); contradiction. Qed.
Lemma two_cloud name text data x : In (Some x) (contents (two_messages name text data)) -> x_sname x = name -> name <> str "std_msgs/msg/String" -> x_data x = data.
Proof.
  intros [H|[H|[]]] HN Hne.
  - apply (f_equal (option_map x_data)) in H. change (Some data = Some (x_data x)) in H. congruence.
  - apply (f_equal (option_map x_sname)) in H. change (Some (str "std_msgs/msg/String") = Some (x_sname x)) in H. congruence.
Qed.
Definition recorded (m : option seen) : option (sval * list Z) := match m with Some x => read_by_schema (x_sname x) (x_sdata x) (x_data x) | None => None end.
(** The cloud of C72_mcap_case meets the hypotheses of C83_encoded_recording, and its encoding those of
    C83_decoded_recording; both recordings read by their schemas. *)
Example C83_encode_case : let rec := two_messages pointcloud_schema_name pointcloud_schema_data (raw_message rec_cloud) in
  libs_ok store_libs /\ NoDup (map fst rec_profile) /\ well_formed rec /\
  (forall x, In (Some x) (contents rec) -> x_sname x = pointcloud_schema_name -> encodable gnu_text sse_ops store_libs 2 4096 rec_profile (Some 981668463) false (x_data x)) /\
  map recorded (contents rec) = [Some (cloud_record rec_cloud (ones rec_cloud) 0 48 (r_data rec_cloud), []); Some (SRec [(str "data", SText (str "hi"))], [])].
Proof.
  intros rec. destruct C72_mcap_case as (_ & HLi & HN & HG & Hok & Hd & _ & HES & _ & _ & _ & _ & HBT & (msg & msg2 & c2 & HE & HZ & HD & _)). split; [exact HLi|]. split; [exact HN|]. split; [apply two_wf|].
  split; [|vm_compute; reflexivity]. intros x Hx Hn. rewrite (two_cloud _ _ _ x Hx Hn) by (vm_compute; discriminate). clear x Hx Hn.
  split; [apply bytesb; vm_compute; reflexivity|]. split; [vm_compute; reflexivity|]. split.
  - exists rec_cloud. split; [exact HG|]. split; [reflexivity|]. split; [exact HES|exact HBT].
  - exists msg. split; [exact HE|lia].
Qed.
Lemma encoded_bytes msg : encode_payload gnu_text sse_ops store_libs 2 4096 rec_profile (Some 981668463) false false (raw_message rec_cloud) = Ok msg -> bytes msg.
Proof.
  assert (EB : match encode_payload gnu_text sse_ops store_libs 2 4096 rec_profile (Some 981668463) false false (raw_message rec_cloud) with Ok l => forallb (fun b => (0 <=? b) && (b <? 256)) l | _ => false end = true) by (vm_compute; reflexivity).
  intros HE. rewrite HE in EB. now apply bytesb.
Qed.
Example C83_decode_case : exists msg, encode_payload gnu_text sse_ops store_libs 2 4096 rec_profile (Some 981668463) false false (raw_message rec_cloud) = Ok msg /\
  let rec := two_messages compressed_schema_name compressed_schema_data msg in well_formed rec /\
  forall x, In (Some x) (contents rec) -> x_sname x = compressed_schema_name -> bytes (x_data x) /\ zlen (x_data x) < 4294967295 /\ exists d, decode_payload gnu_text sse_ops store_libs 2 (x_data x) = Ok d.
Proof.
  destruct C72_mcap_case as (_ & _ & _ & _ & _ & _ & _ & _ & _ & _ & _ & _ & _ & (msg & msg2 & c2 & HE & HZ & HD & _)). exists msg. split; [exact HE|]. intros rec. split; [apply two_wf|].
  intros x Hx Hn. rewrite (two_cloud _ _ _ x Hx Hn) by (vm_compute; discriminate). split; [now apply encoded_bytes|]. split; [lia|]. exists msg2. exact HD.
Qed.
Print Assumptions C83_parsed_cloud.
Print Assumptions C83_parsed_compressed.
Print Assumptions C83_compressed_message.
Print Assumptions C83_decompressed_message.
Print Assumptions C83_decoded_recording.
Print Assumptions C83_encoded_recording.
Print Assumptions C83_datatype_codes.
