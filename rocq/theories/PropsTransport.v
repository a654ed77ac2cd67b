(** C61 .. C65: the ROS package. *)
From Verif Require Import Base BaseFacts Types Floats V5 Api Spec LibSpec Header Cdr CdrFacts Ros RosFacts RosViz HostileFacts CloudFacts RoundTrip LocalFacts CloudApi
  PropsStage1 PropsCloud PropsFit PropsHeader PropsRos FloatText Cases ApiFacts PropsConfine Pcl PropsPcl Transport.
From Coq Require Import String.
Notation length := List.length.
Notation concat := List.concat.
Open Scope Z_scope.
Open Scope list_scope.

(** ** Specification *)
(** What the middleware makes of a message: its CDR serialisation (C41), after the definitions of
    sensor_msgs/msg/PointCloud2 and point_cloud_interfaces/msg/CompressedPointCloud2. *)
Definition point_field_value (f : pcl_field) : cval := VList [VBytes (pf_name f); VNum (pf_off f); VNum (pf_type f); VNum (pf_count f)].
Definition pc2_wire (h : cdr_header) (m : pc2_msg) (raw : list Z) : Prop :=
  cdr_encode h pc2_type (VList [VNum (h_sec (m_header m)); VNum (h_nsec (m_header m)); VBytes (h_frame (m_header m)); VNum (m_height m); VNum (m_width m);
    VList (map point_field_value (m_fields m)); VNum (bool_byte (m_big m)); VNum (m_step m); VNum (m_row m); VBytes (m_data m); VNum (bool_byte (m_dense m))]) (cdr_begin h) = Ok raw.
Definition comp_wire (h : cdr_header) (k : comp_msg) (raw : list Z) : Prop :=
  cdr_encode h compressed_type (VList [VNum (h_sec (k_header k)); VNum (h_nsec (k_header k)); VBytes (h_frame (k_header k)); VNum (k_height k); VNum (k_width k);
    VList (map point_field_value (k_fields k)); VNum (bool_byte (k_big k)); VNum (k_step k); VNum (k_row k); VBytes (k_data k); VNum (bool_byte (k_dense k)); VBytes (k_format k)]) (cdr_begin h) = Ok raw.
(** The members are values of their types *)
Definition field_ok (f : pcl_field) : Prop := zlen (pf_name f) < 4294967295 /\ u32_range (pf_off f) /\ 0 <= pf_type f < 256 /\ u32_range (pf_count f).
Definition msg_ok (m : pc2_msg) : Prop :=
  u32_range (h_sec (m_header m)) /\ u32_range (h_nsec (m_header m)) /\ zlen (h_frame (m_header m)) < 4294967295 /\ u32_range (m_height m) /\ u32_range (m_width m) /\
  zlen (m_fields m) < 4294967296 /\ Forall field_ok (m_fields m) /\ u32_range (m_step m) /\ u32_range (m_row m) /\ zlen (m_data m) < 4294967296.
(** The cloud is complete and C17's and C30's conditions hold for it *)
Definition sendable (ft : float_text) (ops : float_ops) (ppc : nat) (i : info) (m : pc2_msg) : Prop :=
  complete (m_width m) (m_height m) (m_step m) (m_data m) /\ encode_side ppc i (m_data m) /\ decode_side i i /\ deltas_ok ops i ppc (m_data m) /\
  yaml_header_info ft i /\ exact_resolutions ft i /\ byte_texts ft i.
(** The decoder's scratch buffer takes the worst chunk *)
Definition points (m : pc2_msg) : nat := (length (m_data m) / Z.to_nat (m_step m))%nat.
Definition fits_scratch (ppc : nat) (i : info) (m : pc2_msg) : Prop :=
  tight_chunk i (Z.of_nat (Nat.min (points m) ppc)) <= zlen (m_data m) /\ zlen (m_data m) <= 2147483647.
(** [data] holds every field of every point of [m], as encode/decode restore them, and zeros elsewhere *)
Definition cloud_restored (ops : float_ops) (i : info) (m : pc2_msg) (data : list Z) : Prop :=
  restored ops i i (points m) (m_data m) (repeat 0 (length (m_data m))) data.
Definition one_element (f : pcl_field) : pcl_field := mkPF (pf_name f) (pf_off f) (pf_type f) 1.

(** ** Proofs *)
Lemma code_code n : ftype_code (ftype_of_code n) = n.
Proof. destruct n as [|[[[[p|p|]|[p|p|]|]|[[p|p|]|[p|p|]|]|]|[[[p|p|]|[p|p|]|]|[[p|p|]|[p|p|]|]|]|]|p]; reflexivity. Qed.
Lemma fields_value (g : Z -> Z) fs : map (fun cf => field_value (fst cf) (snd cf)) (combine (map (fun f => g (pf_count f)) fs) (map (fun f => mkField (pf_name f) (pf_off f) (ftype_of_code (pf_type f)) None) fs)) =
  map (fun f => VList [VBytes (pf_name f); VNum (pf_off f); VNum (pf_type f); VNum (g (pf_count f))]) fs.
Proof. induction fs as [|f fs IH]; [reflexivity|]. cbn [map combine fst snd]. rewrite IH. unfold field_value at 1. cbn [f_name f_off f_type]. now rewrite code_code. Qed.
Lemma cloud_ok m : msg_ok m -> ros_ok (ConvertToRosPointCloud2 m).
Proof.
  intros (H1 & H2 & H3 & H4 & H5 & H6 & H7 & H8 & H9 & H10). unfold ros_ok, ConvertToRosPointCloud2. cbn [r_sec r_nsec r_frame r_height r_width r_fields r_step r_row r_data r_dense].
  do 5 (split; [assumption|]). split; [unfold zlen in *; now rewrite map_length|]. split; [|repeat (split; [assumption|]); destruct (m_dense m); cbn; lia].
  apply Forall_map. eapply Forall_impl; [|exact H7]. intros f (A & B & C & _). unfold ros_field_ok. cbn [f_name f_off f_type]. rewrite code_code. auto.
Qed.
Lemma pc2_wire_value h m raw : pc2_wire h m raw <->
  cdr_encode h pc2_type (pc2_value (ConvertToRosPointCloud2 m) (map pf_count (m_fields m)) (bool_byte (m_big m)) (m_row m) (m_data m)) (cdr_begin h) = Ok raw.
Proof. unfold pc2_wire, pc2_value, header_values. cbn [ConvertToRosPointCloud2 r_sec r_nsec r_frame r_height r_width r_fields r_step r_row r_data r_dense]. rewrite (fields_value (fun x => x)). reflexivity. Qed.
Lemma pc2_parsed h m raw : dds h -> msg_ok m -> pc2_wire h m raw -> getDeserializedPointCloudMessage raw = Ok (parsed h (ConvertToRosPointCloud2 m) (m_row m) (m_data m)).
Proof.
  intros Hh Hm Hw. apply pc2_wire_value in Hw. pose proof Hm as (_ & _ & _ & _ & _ & _ & HF & _ & HR & HD). eapply (C42_parse_message h (ConvertToRosPointCloud2 m)); [now apply cloud_ok|exact Hh| | | |exact Hw].
  - apply Forall_map. eapply Forall_impl; [|exact HF]. intros f (_ & _ & _ & H). exact H.
  - cbn [ConvertToRosPointCloud2 r_fields]. now rewrite !map_length.
  - destruct (m_big m); cbn; lia.
Qed.
(** A compressed message is read by the same parser: the members before [format] are those of PointCloud2 *)
Lemma comp_parsed h k raw : dds h -> msg_ok (mkMsg (k_header k) (k_height k) (k_width k) (k_fields k) (k_big k) (k_step k) (k_row k) (k_data k) (k_dense k)) -> comp_wire h k raw ->
  getDeserializedPointCloudMessage raw = Ok (parsed h (ConvertToRosPointCloud2 (mkMsg (k_header k) (k_height k) (k_width k) (k_fields k) (k_big k) (k_step k) (k_row k) (k_data k) (k_dense k))) (k_row k) (k_data k)).
Proof.
  set (m := mkMsg (k_header k) (k_height k) (k_width k) (k_fields k) (k_big k) (k_step k) (k_row k) (k_data k) (k_dense k)). intros Hh Hm Hw. unfold comp_wire in Hw.
  change (compressed_type) with (TStruct ((header_types ++ [TBuffer; TNum 1]) ++ [TString])) in Hw.
  match type of Hw with cdr_encode _ _ (VList [?a;?b;?c;?d;?e;?f;?g;?x;?y;?z;?u;?v]) _ = _ => change (VList [a;b;c;d;e;f;g;x;y;z;u;v]) with (VList ([a;b;c;d;e;f;g;x;y;z;u] ++ [v])) in Hw end.
  rewrite encode_struct_app in Hw by reflexivity. apply bind_ok in Hw. destruct Hw as (s & H1 & H2). change (pc2_wire h m s) in H1.
  cbn [cdr_encode] in H2. apply bind_ok in H2. destruct H2 as (s2 & H2 & H3). assert (s2 = raw) by congruence. subst s2. clear H3. unfold enc_string in H2. destruct (_ <=? _); [discriminate|].
  assert (E : raw = enc_num h 4 (zlen (k_format k) + 1) s ++ k_format k ++ [0]) by congruence. subst raw. unfold enc_num. rewrite <- !app_assoc.
  apply pc2_wire_value in H1. pose proof (cloud_ok m Hm) as Ho. pose proof Hm as (_ & _ & _ & _ & _ & _ & HF & _ & HR & HD).
  assert (HC : Forall u32_range (map pf_count (m_fields m))) by (apply Forall_map; eapply Forall_impl; [|exact HF]; intros f (_ & _ & _ & H); exact H).
  assert (HL : length (map pf_count (m_fields m)) = length (r_fields (ConvertToRosPointCloud2 m))) by (cbn [ConvertToRosPointCloud2 r_fields]; now rewrite !map_length).
  assert (HB : 0 <= bool_byte (m_big m) < 256) by (destruct (m_big m); cbn; lia).
  pose proof (pc2_fits _ _ _ (m_row m) (m_data m) Ho HC HL HB HR HD) as F.
  rewrite (parse_message h _ s _ Hh F H1). now rewrite cproj_value.
Qed.

Section Node.
  Variables (ft : float_text) (ops : float_ops) (L : libs) (ppc probe : nat).
  Notation encodeTyped := (encodeTyped ft ops L ppc probe).
  Notation decodeTyped := (decodeTyped ft ops L ppc).
  Notation callback := (callback ft ops L ppc probe).

  (** The payload of a message: what an encoder made of the cloud *)
  Definition is_stream (i : info) (data payload : list Z) : Prop :=
    exists hdr e body, EncodeHeader ft i HYaml = Ok hdr /\ encoder_of ops L ppc probe i (Ok hdr) e /\ produces ops L ppc probe e data hdr body /\ payload = hdr ++ body.
  Lemma msg_info_fields m res : i_fields (msg_info m res) = map (msg_field res) (m_fields m).
  Proof. reflexivity. Qed.
  Lemma points_count m : 0 < m_step m -> complete (m_width m) (m_height m) (m_step m) (m_data m) -> Z.of_nat (points m) = m_width m * m_height m.
  Proof. intros Hs (_ & _ & Hsz & _). unfold points. rewrite Nat2Z.inj_div, Z2Nat.id by lia. fold (zlen (m_data m)). rewrite Hsz. apply Z.div_mul. lia. Qed.
  Lemma agree_self res ms : fields_agree ms (map (msg_field res) ms) = true.
  Proof.
    induction ms as [|f ms IH]; [reflexivity|]. cbn [map fields_agree]. rewrite IH. unfold msg_field at 1 2 3. cbn [f_name f_off f_type]. rewrite code_code, !Z.eqb_refl.
    unfold seqb. destruct (list_eq_dec Z.eq_dec (pf_name f) (pf_name f)); [reflexivity|congruence].
  Qed.
  Lemma agree_spec ms : forall fs, fields_agree ms fs = true <-> Forall2 (fun m f => pf_name m = f_name f /\ pf_off m = f_off f /\ pf_type m = ftype_code (f_type f)) ms fs.
  Proof.
    induction ms as [|m ms IH]; intros [|f fs]; cbn [fields_agree].
    - split; [constructor|reflexivity].
    - split; [discriminate|intros H; inversion H].
    - split; [discriminate|intros H; inversion H].
    - rewrite !andb_true_iff, IH. unfold seqb. split.
      + intros (((A & B) & C) & D). constructor; [|exact D]. destruct (list_eq_dec Z.eq_dec (pf_name m) (f_name f)); [|discriminate]. repeat split; [assumption|lia|lia].
      + intros H. inversion H as [|? ? ? ? (A & B & C) D]; subst. rewrite A. destruct (list_eq_dec Z.eq_dec (f_name f) (f_name f)); [|congruence]. rewrite B, C, !Z.eqb_refl. auto.
  Qed.
  Lemma wrap_size a b c : u32 (u32 (a * b) * c) = u32 (b * c * a).
  Proof. unfold u32. rewrite Zmult_mod_idemp_l. f_equal. ring. Qed.
  Lemma resize_nil k : resize k [] = repeat 0 (Z.to_nat k).
  Proof. unfold resize. rewrite firstn_nil. cbn [length app]. now rewrite Nat.sub_0_r. Qed.

  (** The subscriber on a stream made from [raw] *)
  Lemma subscriber_decodes res raw comp : let i := msg_info raw res in libs_ok L -> sendable ft ops ppc i raw ->
    k_height comp = m_height raw -> k_width comp = m_width raw -> k_step comp = m_step raw -> map one_element (k_fields comp) = map one_element (m_fields raw) ->
    is_stream i (m_data raw) (k_data comp) -> zlen (k_data comp) < 1431260227 -> forall buf,
    let good := exists data buf', decodeTyped comp buf = Ok (mkMsg (k_header comp) (m_height raw) (m_width raw) (k_fields comp) false (m_step raw) (k_row comp) data (k_dense comp), buf') /\ cloud_restored ops i raw data in
    (good \/ decodeTyped comp buf = Throw) /\ (fits_scratch ppc i raw -> good).
  Proof.
    intros i HLi (HCm & HES & HDS & HD & HY & HX & Hb) E1 E2 E3 E4 (hdr & e & body & HH & HEo & HPr & HPl) Hz buf good.
    destruct (C30_yaml_header_exact ft i body HY HX) as (hdr' & HH' & HDH). assert (hdr' = hdr) by congruence. subst hdr'. rewrite <- HPl in HDH. set (i1 := stored_yaml (i_fields i) i) in *.
    pose proof (zlen_nonneg (m_data raw)) as N0. assert (Hpos : 0 < m_step raw) by apply HES. pose proof (points_count raw Hpos HCm) as Hn. destruct HCm as (Hw & Hh & Hsz & Hz32). set (n := points raw) in *.
    assert (Hlen : zlen (m_data raw) = Z.of_nat n * i_step i) by (rewrite Hn; exact Hsz).
    assert (HDc : decodeTyped comp buf = do '(buf', data) <- decode ops L ppc i1 body buf (repeat 0 (length (m_data raw))) ;
      Ok (mkMsg (k_header comp) (m_height raw) (m_width raw) (k_fields comp) false (m_step raw) (k_row comp) data (k_dense comp), buf')).
    { unfold Transport.decodeTyped. rewrite HDH. cbn [bind]. unfold i1. cbn [stored_yaml i_width i_height i_step i_fields]. rewrite E1, E2, E3. change (i_width i) with (m_width raw). change (i_height i) with (m_height raw). change (i_step i) with (m_step raw). rewrite !Z.eqb_refl. cbn [negb orb].
      change (i_fields i) with (map (msg_field res) (m_fields raw)). replace (fields_agree (k_fields comp) (map (msg_field res) (m_fields raw))) with true.
      - cbn [negb]. cbv zeta. rewrite wrap_size, <- Hsz. unfold u32. rewrite Z.mod_small by lia. rewrite resize_nil. replace (Z.to_nat (zlen (m_data raw))) with (length (m_data raw)) by (unfold zlen; lia). reflexivity.
      - symmetry. apply agree_spec. assert (A : Forall2 (fun m f => pf_name m = f_name f /\ pf_off m = f_off f /\ pf_type m = ftype_code (f_type f)) (m_fields raw) (map (msg_field res) (m_fields raw))) by (apply agree_spec, agree_self).
        clear - A E4. revert E4. generalize (k_fields comp). induction A as [|m f ms fs (A1 & A2 & A3) A IH]; intros [|g gs] E4; cbn [map] in E4; try discriminate; [constructor|]. unfold one_element in E4 at 1 3. constructor; [|apply IH; congruence].
        assert (pf_name g = pf_name m /\ pf_off g = pf_off m /\ pf_type g = pf_type m) as (B1 & B2 & B3) by (repeat split; congruence). rewrite B1, B2, B3. auto. }
    assert (Hbody : zlen body < 1431260227). { rewrite HPl, zlen_app in Hz. pose proof (zlen_nonneg hdr). lia. }
    assert (HDS1 : decode_side i i1) by exact HDS.
    assert (Hdec : declares i1 n). { unfold declares, i1. cbn [stored_yaml i_width i_height]. change (i_width i) with (m_width raw). change (i_height i) with (m_height raw). rewrite Hn. apply Z.mod_small. nia. }
    assert (Hmem : Z.of_nat n * i_step i1 <= zlen (repeat 0 (length (m_data raw)))). { change (i_step i1) with (i_step i). rewrite <- Hlen. unfold zlen. rewrite repeat_length. lia. }
    assert (Hhb : bytes hdr) by (apply (header_bytes ft i); [apply (version_range ft i HY)|assumption..]).
    assert (FIN : (exists buf' mem', decode ops L ppc i1 body buf (repeat 0 (length (m_data raw))) = Ok (buf', mem') /\ restored ops i i1 n (m_data raw) (repeat 0 (length (m_data raw))) mem') -> good).
    { intros (buf' & mem' & A & B). exists mem', buf'. rewrite HDc, A. split; [reflexivity|exact B]. }
    split.
    - destruct (C17_never_wrong ops L ppc probe i i1 hdr e (m_data raw) hdr body n buf _ HLi Hhb HES HDS1 HD HEo HPr Hbody Hlen Hdec Hmem) as [G|G]; [left; now apply FIN|right]. rewrite HDc, G. reflexivity.
    - intros [F1 F2]. apply FIN. rewrite Hlen in F1, F2. exact (C17_roundtrip_fits ops L ppc probe i i1 hdr e (m_data raw) hdr body n buf _ HLi Hhb HES HDS1 HD HEo HPr (or_intror eq_refl) Hbody Hlen Hdec Hmem F1 F2).
  Qed.

  (** * C61: the point_cloud_transport plugin *)
  Lemma encodeTyped_stream resolution raw comp : let i := msg_info raw (narrow resolution) in libs_ok L -> sendable ft ops ppc i raw -> encodeTyped resolution raw = Ok comp ->
    is_stream i (m_data raw) (k_data comp) /\ comp = mkComp (m_header raw) (m_height raw) (m_width raw) (m_fields raw) false (m_step raw) (m_row raw) (k_data comp) (m_dense raw) [].
  Proof.
    intros i HLi (HCm & HES & HDS & HD & HY & HX & Hb) H. unfold Transport.encodeTyped in H. fold i in H. destruct (encode_with ft ops L ppc probe i (m_data raw) (resize (zlen (m_data raw)) [])) as [r out] eqn:EE.
    apply bind_ok in H. destruct H as (total & -> & H).
    assert (Ho : bytes (resize (zlen (m_data raw)) [])) by (rewrite resize_nil; apply zeros_bytes).
    destruct (encoded_stream ft ops L ppc probe i (m_data raw) _ total out HLi HES ltac:(apply HY) Hb Ho EE) as (hdr & e & body & HH & HEo & HPr & HO & Ht).
    assert (HR : resize total out = out). { rewrite Ht. unfold resize. assert (Z.to_nat (zlen out) = length out) as -> by (unfold zlen; lia). rewrite firstn_all, Nat.sub_diag. cbn [repeat]. apply app_nil_r. }
    rewrite HR in H. assert (HK : k_data comp = out) by (assert (K : comp = mkComp (m_header raw) (m_height raw) (m_width raw) (m_fields raw) false (m_step raw) (m_row raw) out (m_dense raw) []) by congruence; rewrite K; reflexivity).
    rewrite HK. split; [exists hdr, e, body; auto|congruence].
  Qed.
  (** The subscriber gives back the published cloud, with every field of every point restored as by
      encode/decode and zeros elsewhere, or throws; it does not throw when the scratch buffer of its
      decoder takes the worst chunk.  What the decoder's scratch buffer held does not matter. *)
  Theorem C61_plugin_roundtrip resolution raw comp : let i := msg_info raw (narrow resolution) in libs_ok L -> sendable ft ops ppc i raw -> encodeTyped resolution raw = Ok comp ->
    comp = mkComp (m_header raw) (m_height raw) (m_width raw) (m_fields raw) false (m_step raw) (m_row raw) (k_data comp) (m_dense raw) [] /\
    (zlen (k_data comp) < 1431260227 -> forall buf,
      let good := exists data buf', decodeTyped comp buf = Ok (mkMsg (m_header raw) (m_height raw) (m_width raw) (m_fields raw) false (m_step raw) (m_row raw) data (m_dense raw), buf') /\ cloud_restored ops i raw data in
      (good \/ decodeTyped comp buf = Throw) /\ (fits_scratch ppc i raw -> good)).
  Proof.
    intros i HLi HS HE. destruct (encodeTyped_stream _ _ _ HLi HS HE) as [HSt HC]. split; [exact HC|]. intros Hz buf.
    assert (k_header comp = m_header raw /\ k_height comp = m_height raw /\ k_width comp = m_width raw /\ k_step comp = m_step raw /\ k_fields comp = m_fields raw /\ k_row comp = m_row raw /\ k_dense comp = m_dense raw) as (K1 & K2 & K3 & K4 & K5 & K6 & K7) by (rewrite HC; repeat split; reflexivity).
    assert (K5' : map one_element (k_fields comp) = map one_element (m_fields raw)) by now rewrite K5.
    pose proof (subscriber_decodes (narrow resolution) raw comp HLi HS K2 K3 K4 K5' HSt Hz buf) as G. rewrite K1, K5, K6, K7 in G. exact G.
  Qed.

  (** * C62: what the subscriber checks *)
  (** Whatever the message: when the subscriber returns a cloud, the stream inside it declares the
      dimensions, the point step and the names, offsets and types of the fields of the message, and the
      cloud has all of these. *)
  Theorem C62_subscriber_checks m buf r buf' : decodeTyped m buf = Ok (r, buf') ->
    exists i rest, DecodeHeader ft (k_data m) = Ok (i, rest) /\ i_width i = k_width m /\ i_height i = k_height m /\ i_step i = k_step m /\
      Forall2 (fun p f => pf_name p = f_name f /\ pf_off p = f_off f /\ pf_type p = ftype_code (f_type f)) (k_fields m) (i_fields i) /\
      r = mkMsg (k_header m) (k_height m) (k_width m) (k_fields m) false (k_step m) (k_row m) (m_data r) (k_dense m).
  Proof.
    intros H. unfold Transport.decodeTyped in H. apply bind_ok in H. destruct H as ([i rest] & HDH & H). exists i, rest. split; [exact HDH|].
    destruct (negb (k_width m =? i_width i) || negb (k_height m =? i_height i)) eqn:E1; [discriminate|]. destruct (negb (k_step m =? i_step i)) eqn:E2; [discriminate|]. destruct (negb (fields_agree (k_fields m) (i_fields i))) eqn:E3; [discriminate|].
    cbv zeta in H. apply bind_ok in H. destruct H as ([b d] & _ & H). apply orb_false_iff in E1. destruct E1 as [E0 E1]. apply negb_false_iff in E0, E1, E2, E3. apply agree_spec in E3.
    assert (i_width i = k_width m /\ i_height i = k_height m /\ i_step i = k_step m) as (A & B & C) by lia. do 3 (split; [assumption|]). split; [exact E3|].
    rewrite A, B in H. assert (HR : r = mkMsg (k_header m) (k_height m) (k_width m) (k_fields m) false (k_step m) (k_row m) d (k_dense m)) by congruence. rewrite HR. reflexivity.
  Qed.
  (** Its data has the full size width * height * point_step, although the code computes it in 32
      bits: when that overflows, the decoder throws.  (Versions 1 and 2 do not say how many points
      follow; C59's [skips_supported] excludes integer fields at the reserved offset 2^32 - 1.) *)
  Theorem C62_full_size m buf r buf' i rest : (0 < ppc)%nat -> DecodeHeader ft (k_data m) = Ok (i, rest) -> 3 <= i_version i -> skips_supported i -> u32_range (k_width m) -> u32_range (k_height m) -> u32_range (k_step m) -> 0 < k_step m ->
    decodeTyped m buf = Ok (r, buf') -> zlen (m_data r) = k_width m * k_height m * k_step m.
  Proof.
    intros Hp HDH HV HS Hw Hh Hst Hpos H. unfold u32_range in *. unfold Transport.decodeTyped in H. rewrite HDH in H. cbn [bind] in H.
    destruct (negb (k_width m =? i_width i) || negb (k_height m =? i_height i)) eqn:E1; [discriminate|]. destruct (negb (k_step m =? i_step i)) eqn:E2; [discriminate|]. destruct (negb (fields_agree (k_fields m) (i_fields i))); [discriminate|].
    cbv zeta in H. apply bind_ok in H. destruct H as ([b d] & HDec & H). apply orb_false_iff in E1. destruct E1 as [E0 E1]. apply negb_false_iff in E0, E1, E2. assert (HR : m_data r = d) by (assert (K : r = mkMsg (k_header m) (i_height i) (i_width i) (k_fields m) false (k_step m) (k_row m) d (k_dense m)) by congruence; rewrite K; reflexivity). rewrite HR.
    rewrite wrap_size in HDec. set (size := u32 (k_width m * k_height m * k_step m)) in *. assert (H0 : 0 <= size < 4294967296) by (unfold size, u32; lia).
    assert (Hz : zlen (resize size []) = size) by (apply resize_zlen; lia). assert (Hpos' : 0 < i_step i) by lia. assert (Hm62 : zlen (resize size []) < 4611686018427387904) by lia.
    pose proof (C59_room_for_every_point _ _ _ _ _ _ _ _ _ Hp Hpos' HV HS Hm62 HDec) as HRoom.
    destruct (C59_decode_writes_only_fields _ _ _ _ _ _ _ _ _ Hp Hpos' HV HS Hm62 HDec) as [Hl _].
    assert (Hd : zlen d = size) by (unfold zlen in *; rewrite Hl; exact Hz). rewrite Hd. rewrite Hz in HRoom. unfold declared, u64 in HRoom. rewrite Z.mod_small in HRoom by nia. replace (i_width i) with (k_width m) in HRoom by lia. replace (i_height i) with (k_height m) in HRoom by lia. replace (i_step i) with (k_step m) in HRoom by lia.
    unfold size, u32 in *. apply Z.mod_small. nia.
  Qed.

  (** * C63: the converter nodes *)
  (** Without subscribers nothing is published, and nothing is read. *)
  Theorem C63_no_subscribers compressing resolution raw : callback compressing resolution 0 raw = Ok None.
  Proof. reflexivity. Qed.
  Lemma profile_default fs res : applyResolutionProfile [] fs (Some res) = map (fun f => if is_float32 (f_type f) then set_res res f else f) fs.
  Proof.
    unfold applyResolutionProfile. cbn [profile_find]. f_equal. induction fs as [|f fs IH]; [reflexivity|]. cbn [filter negb]. f_equal. exact IH.
  Qed.
  Lemma converter_info h m row data res : let c := parsed h (ConvertToRosPointCloud2 m) row data in
    toEncodingInfo (with_fields c (applyResolutionProfile [] (r_fields c) (Some res))) = msg_info m res.
  Proof.
    intros c. unfold toEncodingInfo, msg_info, default_info, c, parsed, with_fields. rewrite profile_default. cbn [r_fields r_width r_height r_step ConvertToRosPointCloud2]. f_equal.
    rewrite !map_map. apply map_ext. intros f. unfold msg_field, plain_field, set_res. cbn [f_name f_off f_type f_res]. unfold Codec.is_float32, is_float32. destruct (ftype_of_code (pf_type f)); reflexivity.
  Qed.
  Lemma converter_fields h m row data res : let c := parsed h (ConvertToRosPointCloud2 m) row data in
    map (field_value 1) (applyResolutionProfile [] (r_fields c) (Some res)) = map (fun f => point_field_value (one_element f)) (m_fields m) /\
    map plain_field (applyResolutionProfile [] (r_fields c) (Some res)) = map (fun f => mkField (pf_name f) (pf_off f) (ftype_of_code (pf_type f)) None) (m_fields m).
  Proof.
    intros c. unfold c, parsed. rewrite profile_default. cbn [r_fields ConvertToRosPointCloud2]. rewrite !map_map.
    split; apply map_ext; intros f; unfold field_value, point_field_value, one_element, plain_field, set_res; cbn [pf_name pf_off pf_type pf_count f_name f_off f_type]; destruct (is_float32 (ftype_of_code (pf_type f))); cbn [f_name f_off f_type]; rewrite ?code_code; reflexivity.
  Qed.

  (** [k]: the compressed form of [m]: its stamp, frame, dimensions, fields and density *)
  Definition compressed_form (m : pc2_msg) (k : comp_msg) : Prop :=
    k = mkComp (m_header m) (m_height m) (m_width m) (map one_element (m_fields m)) false (m_step m) (u32 (m_step m * m_width m)) (k_data k) (m_dense m) format_name.
  Definition delivered (i : info) (m m2 : pc2_msg) : Prop :=
    m2 = mkMsg (m_header m) (m_height m) (m_width m) (map one_element (m_fields m)) false (m_step m) (u32 (m_step m * m_width m)) (m_data m2) (m_dense m) /\ cloud_restored ops i m (m_data m2).
  Lemma row_ok x : u32_range (u32 x).
  Proof. apply u32_in. Qed.
  (** Compressing a parsed or converted cloud *)
  Lemma compress_wire h m row res out : dds h -> c_endian h = LITTLE -> msg_ok m -> u32_range row -> let i := msg_info m res in let c := parsed h (ConvertToRosPointCloud2 m) row (m_data m) in
    libs_ok L -> sendable ft ops ppc i m -> compress_cloud ft ops L ppc probe c res = Ok out ->
    exists k, compressed_form m k /\ ((m_data m = [] /\ k_data k = []) \/ is_stream i (m_data m) (k_data k)) /\ (zlen (k_data k) < 4294967296 -> comp_wire h k out).
  Proof.
    intros Hh Hle Hm Hrow i c HLi (HCm & HES & HDS & HD & HY & HX & Hb) HC. unfold compress_cloud in HC. cbv zeta in HC. unfold c in HC. rewrite (converter_info h m row (m_data m) res) in HC. fold i c in HC.
    set (c' := with_fields c (applyResolutionProfile [] (r_fields c) (Some res))) in *.
    assert (Hok : ros_ok c'). { pose proof (cloud_ok m Hm) as Ho. assert (Hp : ros_ok c) by (apply parsed_ok; [exact Ho|exact Hrow|apply Hm]). destruct Hp as (H1 & H2 & H3 & H4 & H5 & H6 & H7 & H8). unfold c', ros_ok, with_fields. cbn [r_sec r_nsec r_frame r_height r_width r_fields r_step r_row r_data r_dense].
      do 5 (split; [assumption|]). rewrite profile_default. split; [unfold zlen in *; now rewrite map_length|]. split; [|exact H8]. apply Forall_map. eapply Forall_impl; [|exact H7]. intros f Hf. destruct (is_float32 (f_type f)); exact Hf. }
    destruct (C42_compress ft ops L ppc probe c' i out HLi HES (fun hdr HH => header_bytes ft i hdr (version_range ft i HY) Hb HH) Hok Hh Hle HC) as (payload & HP & HG).
    exists (mkComp (m_header m) (m_height m) (m_width m) (map one_element (m_fields m)) false (m_step m) (u32 (m_step m * m_width m)) payload (m_dense m) format_name).
    split; [reflexivity|]. cbn [k_data]. split; [exact HP|]. intros HZ. destruct (HG HZ) as [HG1 _]. unfold comp_wire. cbn [k_header k_height k_width k_fields k_big k_step k_row k_data k_dense k_format].
    rewrite <- HG1. change (r_cdr c') with h. unfold compressed_value, header_values. change (r_fields c') with (applyResolutionProfile [] (r_fields c) (Some res)). destruct (converter_fields h m row (m_data m) res) as [HF _]. fold c in HF. rewrite HF, map_map. reflexivity.
  Qed.
  (** Decompressing: any payload made from the cloud *)
  Lemma decompress_wire h m k raw res : dds h -> c_endian h = LITTLE -> msg_ok m -> let i := msg_info m res in
    libs_ok L -> sendable ft ops ppc i m -> k_header k = m_header m -> k_height k = m_height m -> k_width k = m_width m -> k_step k = m_step m -> u32_range (k_row k) -> map one_element (k_fields k) = map one_element (m_fields m) -> Forall u32_range (map pf_count (k_fields k)) -> k_dense k = m_dense m ->
    ((m_data m = [] /\ k_data k = []) \/ is_stream i (m_data m) (k_data k)) -> comp_wire h k raw -> zlen (k_data k) < 1431260227 -> forall resolution n,
    let good := exists out m2, callback false resolution (S n) raw = Ok (Some out) /\ pc2_wire h m2 out /\ delivered i m m2 in
    (good \/ callback false resolution (S n) raw = Throw) /\ (fits_scratch ppc i m -> good).
  Proof.
    intros Hh Hle Hm i HLi (HCm & HES & HDS & HD & HY & HX & Hb) K1 K2 K3 K4 K5 K6 K7 K8 HP HW HZ resolution n good.
    set (km := mkMsg (k_header k) (k_height k) (k_width k) (k_fields k) (k_big k) (k_step k) (k_row k) (k_data k) (k_dense k)).
    assert (HF : Forall field_ok (k_fields k)).
    { destruct Hm as (_ & _ & _ & _ & _ & _ & HF & _). clear - HF K6 K7. revert K6 K7. generalize (k_fields k). induction HF as [|f fs (A & B & C & D) HF IH]; intros [|g gs] E G; cbn [map] in E; try discriminate; [constructor|]. cbn [map] in G. inversion G as [|? ? G1 G2]; subst. constructor; [|apply IH; [congruence|exact G2]].
      unfold one_element in E at 1 3. assert (pf_name g = pf_name f /\ pf_off g = pf_off f /\ pf_type g = pf_type f) as (E1 & E2 & E3) by (repeat split; congruence). unfold field_ok. rewrite E1, E2, E3. auto. }
    assert (Hkm : msg_ok km). { destruct Hm as (H1 & H2 & H3 & H4 & H5 & H6 & H7 & H8 & H9 & H10). unfold msg_ok, km. cbn [m_header m_height m_width m_fields m_step m_row m_data]. rewrite K1, K2, K3, K4. do 5 (split; [assumption|]). split; [|split; [exact HF|]; split; [assumption|]; split; [assumption|lia]].
      apply (f_equal (@length pcl_field)) in K6. rewrite !map_length in K6. unfold zlen in *. now rewrite K6. }
    pose proof (comp_parsed h k raw Hh Hkm HW) as HPar. fold km in HPar.
    (* the cloud the conversion sees *)
    set (c := mkRos h (h_sec (m_header m)) (h_nsec (m_header m)) (h_frame (m_header m)) (m_height m) (m_width m) (map (fun f => mkField (pf_name f) (pf_off f) (ftype_of_code (pf_type f)) None) (m_fields m)) (m_step m) (m_row m) (m_data m) (bool_byte (m_dense m))).
    assert (Hc : ros_ok c) by (pose proof (cloud_ok m Hm) as Ho; exact Ho).
    assert (E1 : parsed h (ConvertToRosPointCloud2 km) (k_row k) (k_data k) = parsed h c (k_row k) (k_data k)).
    { unfold parsed, c, km, ConvertToRosPointCloud2. cbn [r_sec r_nsec r_frame r_height r_width r_fields r_step r_dense m_header m_height m_width m_fields m_step m_dense]. rewrite K1, K2, K3, K4, K8. f_equal. rewrite !map_map. unfold plain_field. cbn [f_name f_off f_type].
      assert (G : forall fs, map (fun f => mkField (pf_name f) (pf_off f) (ftype_of_code (pf_type f)) None) fs = map (fun f => mkField (pf_name f) (pf_off f) (ftype_of_code (pf_type f)) None) (map one_element fs)) by (intros fs; rewrite map_map; reflexivity). rewrite (G (k_fields k)), K6, <- G. reflexivity. }
    rewrite E1 in HPar.
    assert (HPl : is_payload ft ops L ppc probe c i (k_data k)) by exact HP.
    destruct (decompress_payload ft ops L ppc probe c i (k_row k) (k_data k) HLi Hc Hh Hle eq_refl eq_refl eq_refl) as [G1 G2]; try assumption.
    { apply HCm. } { intros hdr HH. apply (header_bytes ft i hdr (version_range ft i HY) Hb HH). }
    change (r_cdr c) with h in G1, G2.
    assert (HCb : callback false resolution (S n) raw = do out <- convertCompressedCloudToPointCloud2 ft ops L ppc (parsed h c (k_row k) (k_data k)) ; Ok (Some out)) by (unfold Transport.callback; cbn [Nat.eqb]; rewrite HPar; reflexivity).
    assert (FIN : restores ft ops L ppc c i (parsed h c (k_row k) (k_data k)) -> good).
    { intros (msg2 & data2 & A & B & _ & D). exists msg2, (mkMsg (m_header m) (m_height m) (m_width m) (map one_element (m_fields m)) false (m_step m) (u32 (m_step m * m_width m)) data2 (m_dense m)).
      rewrite HCb, A. split; [reflexivity|]. split; [|split; [reflexivity|exact D]]. unfold pc2_wire. cbn [m_header m_height m_width m_fields m_big m_step m_row m_data m_dense]. rewrite <- B. unfold pc2_value, header_values. rewrite <- ones_map. unfold c. cbn [r_cdr r_sec r_nsec r_frame r_height r_width r_fields r_step r_row r_data r_dense].
      assert (HFV : map (field_value 1) (map (fun f => mkField (pf_name f) (pf_off f) (ftype_of_code (pf_type f)) None) (m_fields m)) = map point_field_value (map one_element (m_fields m))) by (rewrite !map_map; apply map_ext; intros f; unfold field_value, point_field_value, one_element; cbn [pf_name pf_off pf_type pf_count f_name f_off f_type]; now rewrite code_code).
      rewrite HFV. reflexivity. }
    split.
    - destruct G1 as [G1|G1]; [left; now apply FIN|right]. rewrite HCb, G1. reflexivity.
    - intros HFS. apply FIN, G2. unfold capacity_ok. cbn [i_comp msg_info default_info i]. destruct HFS as [F1 F2]. assert (Hpos : 0 < m_step m) by apply HES. pose proof (points_count m Hpos HCm) as Hn. destruct HCm as (_ & _ & Hsz & _). change (r_data c) with (m_data m). change (i_step i) with (m_step m). fold (points m).
      replace (Z.of_nat (points m) * m_step m) with (zlen (m_data m)) by (rewrite Hn; exact Hsz). split; assumption.
  Qed.
  Theorem C63_converter_roundtrip h m raw resolution n out : dds h -> c_endian h = LITTLE -> msg_ok m -> pc2_wire h m raw ->
    let i := msg_info m (narrow resolution) in libs_ok L -> sendable ft ops ppc i m -> callback true resolution (S n) raw = Ok (Some out) ->
    exists k, compressed_form m k /\ (zlen (k_data k) < 1431260227 -> comp_wire h k out /\ forall resolution2 n2,
      let good := exists out2 m2, callback false resolution2 (S n2) out = Ok (Some out2) /\ pc2_wire h m2 out2 /\ delivered i m m2 in
      (good \/ callback false resolution2 (S n2) out = Throw) /\ (fits_scratch ppc i m -> good)).
  Proof.
    intros Hh Hle Hm HW i HLi HS H. unfold Transport.callback in H. cbn [Nat.eqb] in H. rewrite (pc2_parsed h m raw Hh Hm HW) in H. cbn [bind] in H. apply bind_ok in H. destruct H as (out' & HC & H). assert (out' = out) by congruence. subst out'.
    destruct (compress_wire h m (m_row m) (narrow resolution) out Hh Hle Hm ltac:(apply Hm) HLi HS HC) as (k & HK & HP & HWk). exists k. split; [exact HK|]. intros HZ. specialize (HWk ltac:(lia)). split; [exact HWk|]. intros r2 n2.
    assert (k_header k = m_header m /\ k_height k = m_height m /\ k_width k = m_width m /\ k_step k = m_step m /\ k_row k = u32 (m_step m * m_width m) /\ k_fields k = map one_element (m_fields m) /\ k_dense k = m_dense m) as (K1 & K2 & K3 & K4 & K5 & K6 & K7) by (rewrite HK; repeat split; reflexivity).
    apply (decompress_wire h m k out (narrow resolution) Hh Hle Hm HLi HS K1 K2 K3 K4); try assumption.
    - rewrite K5. apply u32_in.
    - rewrite K6, map_map. reflexivity.
    - rewrite K6, map_map. apply Forall_forall. intros x Hx. apply in_map_iff in Hx. destruct Hx as (y & <- & _). cbn [pf_count one_element]. unfold u32_range. lia.
  Qed.

  (** * C64: plugin, converter nodes and SerializeCompressedPointCloud2 understand each other *)
  (** A cloud published by the plugin and decompressed by a node *)
  Theorem C64_plugin_to_converter resolution m comp h raw : let i := msg_info m (narrow resolution) in libs_ok L -> sendable ft ops ppc i m -> msg_ok m ->
    encodeTyped resolution m = Ok comp -> dds h -> c_endian h = LITTLE -> comp_wire h comp raw -> zlen (k_data comp) < 1431260227 -> forall resolution2 n,
    let good := exists out m2, callback false resolution2 (S n) raw = Ok (Some out) /\ pc2_wire h m2 out /\ delivered i m m2 in
    (good \/ callback false resolution2 (S n) raw = Throw) /\ (fits_scratch ppc i m -> good).
  Proof.
    intros i HLi HS Hm HE Hh Hle HW HZ r2 n. destruct (encodeTyped_stream _ _ _ HLi HS HE) as [HSt HC].
    assert (k_header comp = m_header m /\ k_height comp = m_height m /\ k_width comp = m_width m /\ k_step comp = m_step m /\ k_fields comp = m_fields m /\ k_row comp = m_row m /\ k_dense comp = m_dense m) as (K1 & K2 & K3 & K4 & K5 & K6 & K7) by (rewrite HC; repeat split; reflexivity).
    apply (decompress_wire h m comp raw (narrow resolution) Hh Hle Hm HLi HS K1 K2 K3 K4); try assumption.
    - rewrite K6. apply Hm.
    - now rewrite K5.
    - rewrite K5. apply Forall_map. destruct Hm as (_ & _ & _ & _ & _ & _ & HF & _). eapply Forall_impl; [|exact HF]. intros f (_ & _ & _ & H). exact H.
    - now right.
  Qed.
  (** The subscriber on the compressed form of a cloud with points *)
  Lemma subscriber_form res m k : let i := msg_info m res in libs_ok L -> sendable ft ops ppc i m -> compressed_form m k -> is_stream i (m_data m) (k_data k) -> zlen (k_data k) < 1431260227 -> forall buf,
    let good := exists m2 buf', decodeTyped k buf = Ok (m2, buf') /\ delivered i m m2 in
    (good \/ decodeTyped k buf = Throw) /\ (fits_scratch ppc i m -> good).
  Proof.
    intros i HLi HS HK HSt HZ buf good.
    assert (k_header k = m_header m /\ k_height k = m_height m /\ k_width k = m_width m /\ k_step k = m_step m /\ k_row k = u32 (m_step m * m_width m) /\ k_fields k = map one_element (m_fields m) /\ k_dense k = m_dense m) as (K1 & K2 & K3 & K4 & K5 & K6 & K7) by (rewrite HK; repeat split; reflexivity).
    assert (K6' : map one_element (k_fields k) = map one_element (m_fields m)) by (rewrite K6, map_map; reflexivity).
    destruct (subscriber_decodes res m k HLi HS K2 K3 K4 K6' HSt HZ buf) as [G1 G2]. fold i in G1, G2.
    assert (FIN : (exists data buf', decodeTyped k buf = Ok (mkMsg (k_header k) (m_height m) (m_width m) (k_fields k) false (m_step m) (k_row k) data (k_dense k), buf') /\ cloud_restored ops i m data) -> good).
    { intros (data & buf' & A & B). exists (mkMsg (k_header k) (m_height m) (m_width m) (k_fields k) false (m_step m) (k_row k) data (k_dense k)), buf'. split; [exact A|]. split; [|exact B]. rewrite K1, K5, K6, K7. reflexivity. }
    split; [destruct G1 as [G1|G1]; auto|auto].
  Qed.
  (** A cloud with points compressed by a node and received by the plugin *)
  Theorem C64_converter_to_plugin h m raw resolution n out : dds h -> c_endian h = LITTLE -> msg_ok m -> pc2_wire h m raw ->
    let i := msg_info m (narrow resolution) in libs_ok L -> sendable ft ops ppc i m -> m_data m <> [] -> callback true resolution (S n) raw = Ok (Some out) ->
    exists k, compressed_form m k /\ (zlen (k_data k) < 1431260227 -> comp_wire h k out /\ forall buf,
      let good := exists m2 buf', decodeTyped k buf = Ok (m2, buf') /\ delivered i m m2 in
      (good \/ decodeTyped k buf = Throw) /\ (fits_scratch ppc i m -> good)).
  Proof.
    intros Hh Hle Hm HW i HLi HS Hne H. unfold Transport.callback in H. cbn [Nat.eqb] in H. rewrite (pc2_parsed h m raw Hh Hm HW) in H. cbn [bind] in H. apply bind_ok in H. destruct H as (out' & HC & H). assert (out' = out) by congruence. subst out'.
    destruct (compress_wire h m (m_row m) (narrow resolution) out Hh Hle Hm ltac:(apply Hm) HLi HS HC) as (k & HK & HP & HWk). exists k. split; [exact HK|]. intros HZ. specialize (HWk ltac:(lia)). split; [exact HWk|]. intros buf.
    destruct HP as [[HP _]|HP]; [contradiction|]. exact (subscriber_form (narrow resolution) m k HLi HS HK HP HZ buf).
  Qed.
  (** The serialised message is that of the compressed form, which the plugin and the node decode *)
  Theorem C64_serialized_message m res out : msg_ok m ->
    let i := msg_info m res in libs_ok L -> sendable ft ops ppc i m -> m_data m <> [] -> SerializeCompressedPointCloud2 ft ops L ppc probe m res = Ok out ->
    exists k, compressed_form m k /\ (zlen (k_data k) < 1431260227 -> comp_wire default_cdr k out /\
      (exists i', ReadEncodingInfo ft k = Ok i' /\ i_fields i' = i_fields i /\ i_width i' = m_width m /\ i_height i' = m_height m /\ i_step i' = m_step m) /\
      (forall buf, let good := exists m2 buf', decodeTyped k buf = Ok (m2, buf') /\ delivered i m m2 in
        (good \/ decodeTyped k buf = Throw) /\ (fits_scratch ppc i m -> good)) /\
      (forall resolution2 n, let good := exists out2 m2, callback false resolution2 (S n) out = Ok (Some out2) /\ pc2_wire default_cdr m2 out2 /\ delivered i m m2 in
        (good \/ callback false resolution2 (S n) out = Throw) /\ (fits_scratch ppc i m -> good))).
  Proof.
    intros Hm i HLi HS Hne HC. unfold SerializeCompressedPointCloud2 in HC.
    assert (E : ConvertToRosPointCloud2 m = parsed default_cdr (ConvertToRosPointCloud2 m) (m_row m) (m_data m)).
    { unfold parsed, ConvertToRosPointCloud2. cbn [r_sec r_nsec r_frame r_height r_width r_fields r_step r_dense]. f_equal. rewrite map_map. reflexivity. }
    rewrite E in HC. assert (Hd : dds default_cdr) by (split; reflexivity).
    destruct (compress_wire default_cdr m (m_row m) res out Hd eq_refl Hm ltac:(apply Hm) HLi HS HC) as (k & HK & HP & HWk). exists k. split; [exact HK|]. intros HZ. specialize (HWk ltac:(lia)). split; [exact HWk|].
    destruct HP as [[HP _]|HP]; [contradiction|].
    assert (k_header k = m_header m /\ k_height k = m_height m /\ k_width k = m_width m /\ k_step k = m_step m /\ k_row k = u32 (m_step m * m_width m) /\ k_fields k = map one_element (m_fields m) /\ k_dense k = m_dense m /\ k_format k = format_name) as (K1 & K2 & K3 & K4 & K5 & K6 & K7 & K8) by (rewrite HK; repeat split; reflexivity).
    split.
    { destruct HS as (_ & _ & _ & _ & HY & HX & _). destruct HP as (hdr & e & body & HH & _ & _ & HPl). fold i in HH. destruct (C30_yaml_header_exact ft i body HY HX) as (hdr' & HH' & HDH). assert (hdr' = hdr) by congruence. subst hdr'. rewrite <- HPl in HDH.
      exists (stored_yaml (i_fields i) i). unfold ReadEncodingInfo. rewrite K8, HDH. destruct (list_eq_dec Z.eq_dec format_name format_name); [|congruence]. repeat split; reflexivity. }
    split; [intros buf; exact (subscriber_form res m k HLi HS HK HP HZ buf)|]. intros r2 n2.
    apply (decompress_wire default_cdr m k out res Hd eq_refl Hm HLi HS K1 K2 K3 K4); try assumption.
    - rewrite K5. apply u32_in.
    - rewrite K6, map_map. reflexivity.
    - rewrite K6, map_map. apply Forall_forall. intros x Hx. apply in_map_iff in Hx. destruct Hx as (y & <- & _). cbn [pf_count one_element]. unfold u32_range. lia.
    - now right.
  Qed.
End Node.

(** * C65: the quality of service the converter node requests *)
(** Specification (the ROS 2 rules): a subscription gets messages from a publisher unless it asks for
    reliable delivery and the publisher offers less, or for transient-local durability and the
    publisher offers less. *)
Definition compatible (request offer : qos) : Prop :=
  (q_rel request = REL_RELIABLE -> q_rel offer = REL_RELIABLE) /\ (q_dur request = DUR_TRANSIENT_LOCAL -> q_dur offer = DUR_TRANSIENT_LOCAL).
Lemma count_all {A} (p : A -> bool) l : (length (filter p l) =? length l)%nat = true <-> Forall (fun x => p x = true) l.
Proof.
  rewrite Nat.eqb_eq. induction l as [|x l IH]; cbn [filter length]; [split; [constructor|reflexivity]|]. assert (HL : (length (filter p l) <= length l)%nat) by (clear; induction l as [|y l IH]; cbn [filter length]; [lia|]; destruct (p y); cbn [length]; lia).
  destruct (p x) eqn:E; cbn [length].
  - rewrite Nat.succ_inj_wd, IH. split; [now constructor|intros H; now inversion H].
  - split; [lia|intros H; inversion H; congruence].
Qed.
(** The node receives from every publisher known when it starts, and asks for the most that allows. *)
Theorem C65_request_matches_offers endpoints : endpoints <> [] ->
  let request := adapt_request_to_offers endpoints in
  Forall (compatible request) endpoints /\
  forall other, Forall (compatible other) endpoints ->
    (q_rel other = REL_RELIABLE -> q_rel request = REL_RELIABLE) /\ (q_dur other = DUR_TRANSIENT_LOCAL -> q_dur request = DUR_TRANSIENT_LOCAL).
Proof.
  intros Hne request. unfold request, adapt_request_to_offers. destruct endpoints as [|q qs] eqn:EQ; [congruence|]. rewrite <- EQ in *. cbv zeta. clear request EQ q qs. cbn [q_rel q_dur].
  assert (HR : forall x, is_reliable x = true <-> q_rel x = REL_RELIABLE) by (intros [r d]; destruct r; cbn; split; congruence).
  assert (HT : forall x, is_transient x = true <-> q_dur x = DUR_TRANSIENT_LOCAL) by (intros [r d]; destruct d; cbn; split; congruence).
  split.
  - apply Forall_forall. intros x Hx. split; cbn [q_rel q_dur].
    + destruct (_ =? _)%nat eqn:E; [|discriminate]. intros _. apply count_all in E. rewrite Forall_forall in E. now apply HR, E.
    + destruct (length (filter is_transient endpoints) =? _)%nat eqn:E; [|discriminate]. intros _. apply count_all in E. rewrite Forall_forall in E. now apply HT, E.
  - intros other HO. rewrite Forall_forall in HO. split; intros H.
    + replace (length (filter is_reliable endpoints) =? length endpoints)%nat with true; [reflexivity|]. symmetry. apply count_all, Forall_forall. intros x Hx. apply HR. now apply HO.
    + replace (length (filter is_transient endpoints) =? length endpoints)%nat with true; [reflexivity|]. symmetry. apply count_all, Forall_forall. intros x Hx. apply HT. now apply HO.
Qed.
(** Started before its publisher it asks for reliable delivery, and never hears from a best-effort
    publisher (the usual choice for sensor data). *)
Theorem C65_no_publisher_yet_refuted : exists offer, q_rel offer = REL_BEST_EFFORT /\ ~ compatible (adapt_request_to_offers []) offer.
Proof. exists (mkQos REL_BEST_EFFORT DUR_VOLATILE). split; [reflexivity|]. intros [H _]. specialize (H eq_refl). discriminate. Qed.

(** * What goes wrong *)
Definition cloud_msg (w h row : Z) (big : bool) (data : list Z) : pc2_msg :=
  mkMsg (mkMH 1700000000 250000000 (str "map")) h w [mkPF (str "x") 0 7 1; mkPF (str "y") 4 7 1; mkPF (str "z") 8 7 1] big 16 row data true.
Definition two_points : list Z := pt_points point_cloud.
(** A big-endian cloud arrives with the same field bytes, marked little-endian. *)
Theorem C61_big_endian_refuted : exists raw comp r buf, m_big raw = true /\ encodeTyped gnu_text sse_ops store_libs 2 4096 half raw = Ok comp /\
  decodeTyped gnu_text sse_ops store_libs 2 comp [] = Ok (r, buf) /\ m_big r = false /\ sub 0 12 (m_data r) = sub 0 12 (m_data raw).
Proof. exists (cloud_msg 2 1 32 true two_points). eexists _, _, _. split; [reflexivity|]. split; [vm_compute; reflexivity|]. split; [vm_compute; reflexivity|]. vm_compute. split; reflexivity. Qed.
(** A cloud whose rows are padded is published without complaint and rejected by every subscriber. *)
Theorem C61_padded_rows_refuted : exists raw comp, msg_ok raw /\ zlen (m_data raw) = m_row raw * m_height raw /\ m_width raw * m_step raw < m_row raw /\
  encodeTyped gnu_text sse_ops store_libs 2 4096 half raw = Ok comp /\ decodeTyped gnu_text sse_ops store_libs 2 comp [] = Throw.
Proof.
  exists (cloud_msg 1 2 32 false (two_points ++ two_points)). eexists. split.
  { unfold msg_ok, cloud_msg, u32_range. cbn [m_header h_sec h_nsec h_frame m_height m_width m_fields m_step m_row m_data]. do 2 (split; [lia|]). split; [vm_compute; reflexivity|]. do 2 (split; [lia|]). split; [vm_compute; reflexivity|]. split; [|split; [lia|split; [lia|vm_compute; reflexivity]]].
    repeat (apply Forall_cons; [unfold field_ok, u32_range; cbn [pf_off pf_type pf_count pf_name]; split; [vm_compute; reflexivity|lia]|]). apply Forall_nil. }
  split; [vm_compute; reflexivity|]. split; [vm_compute; reflexivity|]. split; [vm_compute; reflexivity|vm_compute; reflexivity].
Qed.
(** A field outside the point makes the publisher and the node read outside the message. *)
Theorem C63_field_outside_refuted : exists raw m, pc2_wire default_cdr m raw /\ m_width m * m_height m * m_step m = zlen (m_data m) /\
  callback gnu_text sse_ops store_libs 2 4096 true half 1 raw = UB /\ encodeTyped gnu_text sse_ops store_libs 2 4096 half m = UB.
Proof.
  eexists _, (mkMsg (mkMH 1 2 (str "map")) 1 2 [mkPF (str "x") 1000 7 1] false 16 32 two_points true). split; [vm_compute; reflexivity|]. split; [vm_compute; reflexivity|]. split; [vm_compute; reflexivity|vm_compute; reflexivity].
Qed.
(** An empty cloud goes from node to node, but not from a node to the plugin: its compressed data is
    empty. *)
Theorem C64_empty_refuted : exists m raw k out, pc2_wire default_cdr m raw /\ callback gnu_text sse_ops store_libs 2 4096 true half 1 raw = Ok (Some out) /\
  comp_wire default_cdr k out /\ decodeTyped gnu_text sse_ops store_libs 2 k [] = Throw /\
  (exists out2 m2, callback gnu_text sse_ops store_libs 2 4096 false half 1 out = Ok (Some out2) /\ pc2_wire default_cdr m2 out2 /\ m_data m2 = [] /\ m_width m2 = m_width m).
Proof.
  exists (cloud_msg 0 1 0 false []). eexists. exists (mkComp (mkMH 1700000000 250000000 (str "map")) 1 0 (m_fields (cloud_msg 0 1 0 false [])) false 16 0 [] true format_name). eexists.
  split; [vm_compute; reflexivity|]. split; [vm_compute; reflexivity|]. split; [vm_compute; reflexivity|]. split; [vm_compute; reflexivity|]. eexists _, (cloud_msg 0 1 0 false []). split; [vm_compute; reflexivity|]. split; [vm_compute; reflexivity|]. split; reflexivity.
Qed.
(** The plugin leaves [format] empty: ReadEncodingInfo rejects its messages. *)
Theorem C64_format_refuted : exists raw comp, encodeTyped gnu_text sse_ops store_libs 2 4096 half raw = Ok comp /\ ReadEncodingInfo gnu_text comp = Throw /\ exists i rest, DecodeHeader gnu_text (k_data comp) = Ok (i, rest).
Proof. exists (cloud_msg 2 1 32 false two_points). eexists. split; [vm_compute; reflexivity|]. split; [vm_compute; reflexivity|]. eexists _, _. vm_compute. reflexivity. Qed.

(** *** The hypotheses are met *)
Lemma cloud_sendable : let m := cloud_msg 2 1 32 false two_points in sendable gnu_text sse_ops 2 (msg_info m (narrow half)) m /\ msg_ok m /\ fits_scratch 2 (msg_info m (narrow half)) m.
Proof.
  cbv zeta. split; [|split].
  - split; [repeat split; vm_compute; congruence|]. split.
    { split; [split; [reflexivity|repeat constructor; cbn; lia]|]. split; [exact I|]. split; [|apply bytesb; vm_compute; reflexivity]. split; [lia|]. split; [lia|vm_compute; discriminate]. }
    split.
    { split; [split; [repeat constructor|auto]|]. split; [split; [reflexivity|repeat constructor; cbn; lia]|]. split; [left; cbn; repeat constructor; cbn; lia|]. split; [repeat constructor|]. split; [repeat constructor|split; [reflexivity|vm_compute; discriminate]]. }
    split; [apply (deltas_okb_ok _ _ _ _ 2); [vm_compute; reflexivity|reflexivity|vm_compute; reflexivity]|]. split.
    { unfold yaml_header_info, cloud_msg, msg_info, default_info. cbn [i_version i_width i_height i_step i_enc i_comp i_cfg i_fields m_width m_height m_step m_fields]. change (2 ^ 32) with 4294967296. do 4 (split; [unfold kEncodingVersion; lia|]). split; [exact I|]. split; [exact I|]. split; [left; reflexivity|].
      assert (G : forall n o, safeb n = true -> 0 <= o < 4294967296 -> yaml_header_field gnu_text (mkField n o FLOAT32 (Some (narrow half)))).
      { intros n o Hn Hoo. split; [now apply safeb_ok|]. split; [cbn [f_off]; change (2 ^ 32) with 4294967296; lia|]. split; [exact I|]. split; [apply safeb_ok; vm_compute; reflexivity|]. split; [vm_compute; discriminate|vm_compute; discriminate]. }
      cbn [map]. unfold msg_field. cbn [pf_name pf_off pf_type ftype_of_code Codec.is_float32]. repeat (apply Forall_cons; [apply G; [reflexivity|lia]|]); apply Forall_nil. }
    split; [cbn; repeat constructor; vm_compute; reflexivity|]. split; [constructor|]; unfold cloud_msg, msg_info, default_info; cbn [i_fields map m_fields]; repeat (apply Forall_cons; [split; [apply str_bytes|apply gnu_bytes]|]); apply Forall_nil.
  - unfold msg_ok, cloud_msg, u32_range. cbn [m_header h_sec h_nsec h_frame m_height m_width m_fields m_step m_row m_data]. do 2 (split; [lia|]). split; [vm_compute; reflexivity|]. do 2 (split; [lia|]). split; [vm_compute; reflexivity|]. split; [|split; [lia|split; [lia|vm_compute; reflexivity]]].
    repeat (apply Forall_cons; [unfold field_ok, u32_range; cbn [pf_off pf_type pf_count pf_name]; split; [vm_compute; reflexivity|lia]|]). apply Forall_nil.
  - split; vm_compute; discriminate.
Qed.
Example C61_case : exists comp r buf, encodeTyped gnu_text sse_ops store_libs 2 4096 half (cloud_msg 2 1 32 false two_points) = Ok comp /\ zlen (k_data comp) < 1431260227 /\ decodeTyped gnu_text sse_ops store_libs 2 comp [1;2;3] = Ok (r, buf) /\ m_data r = two_points.
Proof. eexists _, _, _. split; [vm_compute; reflexivity|]. split; [vm_compute; reflexivity|]. split; [vm_compute; reflexivity|vm_compute; reflexivity]. Qed.
Example C63_case : exists raw out k out2, pc2_wire default_cdr (cloud_msg 2 1 32 false two_points) raw /\ callback gnu_text sse_ops store_libs 2 4096 true half 1 raw = Ok (Some out) /\ zlen out < 1431260227 /\ comp_wire default_cdr k out /\
  callback gnu_text sse_ops store_libs 2 4096 false half 1 out = Ok (Some out2) /\ pc2_wire default_cdr (cloud_msg 2 1 32 false two_points) out2.
Proof.
  assert (H : exists raw out comp, pc2_wire default_cdr (cloud_msg 2 1 32 false two_points) raw /\ callback gnu_text sse_ops store_libs 2 4096 true half 1 raw = Ok (Some out) /\ encodeTyped gnu_text sse_ops store_libs 2 4096 half (cloud_msg 2 1 32 false two_points) = Ok comp /\ zlen out < 1431260227 /\
    comp_wire default_cdr (mkComp (k_header comp) (k_height comp) (k_width comp) (k_fields comp) false 16 32 (k_data comp) true format_name) out).
  { eexists _, _, _. split; [vm_compute; reflexivity|]. split; [vm_compute; reflexivity|]. split; [vm_compute; reflexivity|]. split; [vm_compute; reflexivity|vm_compute; reflexivity]. }
  destruct H as (raw & out & comp & H1 & H2 & H3 & H4 & H5). exists raw, out. eexists. 
  assert (H6 : exists raw out out2, pc2_wire default_cdr (cloud_msg 2 1 32 false two_points) raw /\ callback gnu_text sse_ops store_libs 2 4096 true half 1 raw = Ok (Some out) /\ callback gnu_text sse_ops store_libs 2 4096 false half 1 out = Ok (Some out2) /\ pc2_wire default_cdr (cloud_msg 2 1 32 false two_points) out2).
  { eexists _, _, _. split; [vm_compute; reflexivity|]. split; [vm_compute; reflexivity|]. split; [vm_compute; reflexivity|vm_compute; reflexivity]. }
  destruct H6 as (raw' & out' & out2 & A & B & C & D). assert (raw' = raw) by (unfold pc2_wire in *; congruence). subst raw'. assert (out' = out) by congruence. subst out'. exists out2. repeat split; eassumption.
Qed.
Print Assumptions C61_plugin_roundtrip.
Print Assumptions C61_big_endian_refuted.
Print Assumptions C61_padded_rows_refuted.
Print Assumptions C62_subscriber_checks.
Print Assumptions C62_full_size.
Print Assumptions C63_no_subscribers.
Print Assumptions C63_converter_roundtrip.
Print Assumptions C63_field_outside_refuted.
Print Assumptions C64_plugin_to_converter.
Print Assumptions C64_converter_to_plugin.
Print Assumptions C64_serialized_message.
Print Assumptions C64_empty_refuted.
Print Assumptions C64_format_refuted.
Print Assumptions C65_request_matches_offers.
Print Assumptions C65_no_publisher_yet_refuted.
