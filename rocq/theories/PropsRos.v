(** C42, C43: ROS PointCloud2 messages. *)
From Verif Require Import Base BaseFacts Types Floats V5 Api Spec LibSpec Header Cdr CdrFacts PropsCdr Ros RosFacts HostileFacts CloudFacts RoundTrip LocalFacts CloudApi PropsCloud PropsFit PropsHeader.

(** ** Specification *)
(** A PointCloud2 or CompressedPointCloud2 message is the CDR serialisation (C41) of a value of
    [pc2_type] or [compressed_type] (RosFacts: the ROS message definitions).  [ros_ok c]: the members
    of [c] are values of their C++ types; [dds h]: a plain CDR header; [pc2_value]: the message value
    of a cloud with the given element counts, is_bigendian flag, row step and data; [parsed]: the
    cloud parsed from it, with no resolutions. *)
Definition compressed_value (c : ros_cloud) (payload : list Z) : cval :=
  VList (header_values c (map (field_value 1) (r_fields c)) 0 (u32 (r_step c * r_width c)) ++ [VBytes payload; VNum (r_dense c); VBytes format_name]).

(** * C42: parsing *)
(** Every PointCloud2 message, whatever its byte order, element counts and is_bigendian flag, is
    parsed to its content. *)
Theorem C42_parse_message h c counts bigendian msg :
  ros_ok c -> dds h -> Forall u32_range counts -> length counts = length (r_fields c) -> 0 <= bigendian < 256 ->
  cdr_encode h pc2_type (pc2_value c counts bigendian (r_row c) (r_data c)) (cdr_begin h) = Ok msg ->
  getDeserializedPointCloudMessage msg = Ok (parsed h c (r_row c) (r_data c)).
Proof.
  intros H Hh HC HL HB HE. pose proof (pc2_fits c counts bigendian (r_row c) (r_data c) H HC HL HB ltac:(apply H) ltac:(apply H)) as F.
  rewrite <- (app_nil_r msg). rewrite (parse_message h _ msg [] Hh F HE). now rewrite cproj_value.
Qed.
(** A message that is too short or lies about its lengths throws; four bytes suffice for that. *)
Theorem C42_hostile_message msg : 4 <= zlen msg -> getDeserializedPointCloudMessage msg <> UB.
Proof.
  intros HL. pose proof (C41_hostile_message DDS_CDR pc2_type msg HL) as H. unfold read_message in H. unfold getDeserializedPointCloudMessage.
  destruct (cdr_open DDS_CDR msg) as [[h d]| |]; cbn [bind] in *; [|congruence|congruence]. rewrite read_common_eq. destruct (cdr_decode h pc2_type d) as [[v d1]| |]; cbn [bind] in *; congruence.
Qed.

(** * C42: compressing *)
Section Convert.
  Variables (ft : float_text) (ops : float_ops) (L : libs) (ppc probe : nat).
  Notation compress := (convertPointCloud2ToCompressedCloud ft ops L ppc probe).
  Notation decompress := (convertCompressedCloudToPointCloud2 ft ops L ppc).

  Lemma patch_size s x b size out : 0 <= size <= zlen out -> length x = 4%nat -> length b = 4%nat ->
    (do msg <- wr (zlen s) b ((s ++ x) ++ out) ; Ok (resize (zlen (s ++ x) + size) msg)) = Ok (s ++ b ++ firstn (Z.to_nat size) out).
  Proof.
    intros Hs Hx Hb. unfold wr. pose proof (zlen_nonneg s) as N. assert (Zx : zlen x = 4) by (unfold zlen; lia). assert (Zb : zlen b = 4) by (unfold zlen; lia).
    replace ((0 <=? zlen s) && (zlen s + zlen b <=? zlen ((s ++ x) ++ out))) with true by (symmetry; apply andb_true_iff; rewrite !zlen_app; split; lia).
    cbn [bind]. f_equal. assert (Zs : Z.to_nat (zlen s) = length s) by (unfold zlen; lia). rewrite Zs.
    replace (firstn (length s) ((s ++ x) ++ out)) with s by (rewrite <- app_assoc, firstn_app, firstn_all, Nat.sub_diag; cbn [firstn]; now rewrite app_nil_r).
    replace (skipn (length s + length b) ((s ++ x) ++ out)) with out by (rewrite Hb, <- Hx, <- app_length, skipn_app, skipn_all, Nat.sub_diag; reflexivity).
    unfold resize. rewrite zlen_app, Zx. assert (Zo : (Z.to_nat size <= length out)%nat) by (unfold zlen in Hs; lia).
    replace (Z.to_nat (zlen s + 4 + size)) with (length (s ++ b) + Z.to_nat size)%nat by (rewrite app_length, Hb; unfold zlen; lia).
    rewrite app_assoc, firstn_app_2. match goal with |- context [repeat 0 ?k] => replace k with O by (rewrite !app_length; lia) end. cbn [repeat]. rewrite app_nil_r, <- app_assoc. reflexivity.
  Qed.
  (** What the conversion does *)
  Lemma compress_shape c i msg : compress c i = Ok msg ->
    exists s, writePointCloudHeader c (cdr_begin (r_cdr c)) = Ok s /\
    ((r_data c = [] /\ enc_string (r_cdr c) format_name (enc_num (r_cdr c) 1 (r_dense c) (enc_num (r_cdr c) 4 0 s)) = Ok msg) \/
     (exists hdr e cap total out e', EncodeHeader ft i HYaml = Ok hdr /\ PointcloudEncoder i (Ok hdr) = Ok e /\
        encode_view ops L ppc probe e (r_data c) (repeat 0 cap) true = (Ok total, out, e') /\
        (0 <= total <= zlen out -> enc_string (r_cdr c) format_name (enc_num (r_cdr c) 1 (r_dense c) (s ++ le_bytes 4 total ++ firstn (Z.to_nat total) out)) = Ok msg))).
  Proof.
    unfold convertPointCloud2ToCompressedCloud. cbv zeta. intros H. apply bind_ok in H. destruct H as (s & HW & H). exists s. split; [exact HW|].
    pose proof (header_begin_aligned _ _ HW) as [HL HA].
    destruct (Z.eqb_spec (zlen (r_data c)) 0) as [E0|E0].
    - left. split; [|exact H]. destruct (r_data c); [reflexivity|]. unfold zlen in E0. cbn [length] in E0. lia.
    - right. destruct (i_step i =? 0); [discriminate|]. apply bind_ok in H. destruct H as (hdr & HH & H). apply bind_ok in H. destruct H as (mx & HM & H).
      apply bind_ok in H. destruct H as (e & HE & H).
      destruct (encode_view ops L ppc probe e (r_data c) (repeat 0 (Z.to_nat mx)) true) as [[r out] e'] eqn:EV. apply bind_ok in H. destruct H as (total & Hr & H). subst r.
      exists hdr, e, (Z.to_nat mx), total, out, e'. split; [exact HH|]. split; [exact HE|]. split; [exact EV|]. intros HT.
      rewrite (enc4_aligned _ _ _ HA) in H. pose proof (patch_size s (wire (c_endian (r_cdr c)) (le_bytes 4 0)) (le_bytes 4 total) total out HT) as HP.
      rewrite wire_length, !le_bytes_length in HP. specialize (HP eq_refl eq_refl).
      destruct (wr (zlen s) (le_bytes 4 total) _) as [m| |]; cbn [bind] in *; try discriminate HP. assert (HR : resize (zlen (s ++ wire (c_endian (r_cdr c)) (le_bytes 4 0)) + total) m = s ++ le_bytes 4 total ++ firstn (Z.to_nat total) out) by congruence.
      rewrite HR in H. exact H.
  Qed.
  Lemma zeros_bytes n : bytes (repeat 0 n).
  Proof. apply Forall_forall. intros x Hx. apply repeat_spec in Hx. subst. unfold is_byte. lia. Qed.
  (** The payload the encoder produced *)
  Definition is_payload (c : ros_cloud) (i : info) (payload : list Z) : Prop :=
    (r_data c = [] /\ payload = []) \/
    (exists hdr e body, EncodeHeader ft i HYaml = Ok hdr /\ encoder_of ops L ppc probe i (Ok hdr) e /\ produces ops L ppc probe e (r_data c) hdr body /\ payload = hdr ++ body).
  Lemma compress_payload c i msg : libs_ok L -> encode_side ppc i (r_data c) -> (forall hdr, EncodeHeader ft i HYaml = Ok hdr -> bytes hdr) -> compress c i = Ok msg ->
    exists s payload, writePointCloudHeader c (cdr_begin (r_cdr c)) = Ok s /\ is_payload c i payload /\
      enc_string (r_cdr c) format_name (enc_num (r_cdr c) 1 (r_dense c) (s ++ le_bytes 4 (zlen payload) ++ payload)) = Ok msg.
  Proof.
    intros HLi HES Hb HC. destruct (compress_shape c i msg HC) as (s & HW & [(E0 & HM)|(hdr & e & cap & total & out & e' & HH & HE & HV & HM)]).
    - exists s, []. split; [exact HW|]. split; [left; auto|]. pose proof (header_begin_aligned _ _ HW) as [HL HA]. rewrite (enc4_aligned _ _ _ HA) in HM.
      rewrite app_nil_r. change (le_bytes 4 (zlen [])) with [0;0;0;0]. rewrite <- HM. destruct (c_endian (r_cdr c)); reflexivity.
    - assert (HEo : encoder_of ops L ppc probe i (Ok hdr) e) by now constructor.
      destruct (encoder_of_ready _ _ _ _ _ _ _ HEo) as (HR & HI & Hh & _). injection Hh as Hh. destruct HES as (H1 & H2 & H3 & H4). rewrite <- HI in H1, H2, H3.
      destruct (encode_view_chunks _ _ _ _ _ _ _ _ _ _ _ HR HLi H1 H2 H4 (zeros_bytes cap) ltac:(rewrite <- Hh; apply Hb, HH) ltac:(apply H3) (limits_v5 _ _ H3) HV) as (n & ms & bss & ps & _ & A & B & C).
      rewrite <- Hh in *. set (body := concat (map frame ps)) in *. pose proof (zlen_nonneg hdr). pose proof (zlen_nonneg body).
      exists s, (hdr ++ body). split; [exact HW|]. assert (HZ : zlen (hdr ++ body) = total) by (rewrite zlen_app; lia). split.
      + right. exists hdr, e, body. split; [exact HH|]. split; [exact HEo|]. split; [|reflexivity]. left. exists (repeat 0 cap), true, total, out, e'. split; [apply zeros_bytes|]. split; [exact HV|]. split; [exact A|]. split; [exact HZ|]. exact Hh.
      + rewrite HZ, <- A. apply HM. lia.
  Qed.
  Lemma buffer_little h s payload : c_endian h = LITTLE -> ((length s - 4) mod 4 = 0)%nat -> zlen payload < 4294967296 -> s ++ le_bytes 4 (zlen payload) ++ payload = enc_buffer h payload s.
  Proof.
    intros HE HA HZ. unfold enc_buffer. cbv zeta. pose proof (zlen_nonneg payload). rewrite Z.mod_small by lia. rewrite enc4_aligned by exact HA. rewrite HE. cbn [wire].
    replace (Z.to_nat (zlen payload)) with (length payload) by (unfold zlen; lia). now rewrite firstn_all, <- app_assoc.
  Qed.
  (** The compressed message is a CompressedPointCloud2 with the stamp, frame, dimensions, fields and
      density of the cloud; its data is what the encoder produced, and it is parsed back. *)
  Theorem C42_compress c i msg : libs_ok L -> encode_side ppc i (r_data c) -> (forall hdr, EncodeHeader ft i HYaml = Ok hdr -> bytes hdr) ->
    ros_ok c -> dds (r_cdr c) -> c_endian (r_cdr c) = LITTLE -> compress c i = Ok msg ->
    exists payload, is_payload c i payload /\ (zlen payload < 4294967296 ->
      cdr_encode (r_cdr c) compressed_type (compressed_value c payload) (cdr_begin (r_cdr c)) = Ok msg /\
      getDeserializedPointCloudMessage msg = Ok (parsed (r_cdr c) c (u32 (r_step c * r_width c)) payload)).
  Proof.
    intros HLi HES Hb Hok Hd Hle HC. destruct (compress_payload c i msg HLi HES Hb HC) as (s & payload & HW & HP & HM). exists payload. split; [exact HP|]. intros HZ.
    pose proof (header_begin_aligned _ _ HW) as [HL HA]. rewrite (buffer_little _ _ _ Hle HA HZ) in HM. split.
    - unfold compressed_type, compressed_value. rewrite encode_struct_app by reflexivity. rewrite <- write_header_eq, HW. cbn [bind cdr_encode]. rewrite HM. reflexivity.
    - unfold enc_string in HM. destruct (_ <=? _); [discriminate|]. assert (HM' : msg = enc_num (r_cdr c) 4 (zlen format_name + 1) (enc_num (r_cdr c) 1 (r_dense c) (enc_buffer (r_cdr c) payload s)) ++ format_name ++ [0]) by congruence.
      subst msg. unfold enc_num at 1. rewrite <- !app_assoc. apply parse_written; assumption.
  Qed.
  Lemma parsed_ok c row payload h : ros_ok c -> u32_range row -> zlen payload < 4294967296 -> ros_ok (parsed h c row payload).
  Proof.
    intros (H1 & H2 & H3 & H4 & H5 & H6 & H7 & H8 & H9 & H10 & H11) HR HP. unfold ros_ok, parsed. cbn [r_sec r_nsec r_frame r_height r_width r_fields r_step r_row r_data r_dense].
    do 5 (split; [assumption|]). split; [unfold zlen in *; now rewrite map_length|]. split; [apply Forall_map; eapply Forall_impl; [|exact H7]; intros f Hf; exact Hf|]. auto.
  Qed.
  (** Compressing a message, parsing the result, decompressing that and parsing again: the decoder
      either throws or returns the same message, with every field of every point restored as by
      encode/decode (C17), other bytes of the points zero and row_step normalised.  It does not throw
      when the decoder's scratch buffer takes the worst chunk, or without compression. *)
  Definition restores (c : ros_cloud) (i : info) (c1 : ros_cloud) : Prop :=
    exists msg2 data2, decompress c1 = Ok msg2 /\
      (* it is the CDR serialisation of a PointCloud2 *)
      cdr_encode (r_cdr c) pc2_type (pc2_value c (repeat 1 (length (r_fields c))) 0 (u32 (r_step c * r_width c)) data2) (cdr_begin (r_cdr c)) = Ok msg2 /\
      getDeserializedPointCloudMessage msg2 = Ok (parsed (r_cdr c) c (u32 (r_step c * r_width c)) data2) /\
      restored ops i i (length (r_data c) / Z.to_nat (i_step i)) (r_data c) (repeat 0 (length (r_data c))) data2.
  Definition capacity_ok (i : info) (n : nat) : Prop :=
    match i_comp i with
    | COMP_NONE => True
    | COMP_LZ4 | COMP_ZSTD => tight_chunk i (Z.of_nat (Nat.min n ppc)) <= Z.of_nat n * i_step i /\ Z.of_nat n * i_step i <= 2147483647
    | COMP_OTHER _ => False
    end.
  Lemma decompress_payload c i row payload :
    libs_ok L -> ros_ok c -> dds (r_cdr c) -> c_endian (r_cdr c) = LITTLE ->
    i_width i = r_width c -> i_height i = r_height c -> i_step i = r_step c -> zlen (r_data c) = r_width c * r_height c * r_step c ->
    encode_side ppc i (r_data c) -> decode_side i i -> deltas_ok ops i ppc (r_data c) ->
    yaml_header_info ft i -> Forall (fun f => match f_res f with Some r => ft_parse ft (ft_print ft r) = Some r | None => True end) (i_fields i) ->
    (forall hdr, EncodeHeader ft i HYaml = Ok hdr -> bytes hdr) ->
    u32_range row -> is_payload c i payload -> zlen payload < 1431260227 ->
    let c1 := parsed (r_cdr c) c row payload in
    (restores c i c1 \/ decompress c1 = Throw) /\ (capacity_ok i (length (r_data c) / Z.to_nat (i_step i)) -> restores c i c1).
  Proof.
    intros HLi Hok Hd Hle HWi HHi HSi Hsz HES HDS HD HY HX Hb Hrow HP HZ c1.
    assert (Hok1 : ros_ok c1) by (apply parsed_ok; [exact Hok|exact Hrow|lia]).
    destruct (header_ok c1 Hok1) as (s1 & HW1). pose proof (header_begin_aligned _ _ HW1) as [_ HA1].
    set (n := (length (r_data c) / Z.to_nat (i_step i))%nat). assert (Hpos : 0 < i_step i) by apply HES.
    assert (Hzl : zlen (r_data c) < 4294967296) by apply Hok. pose proof (zlen_nonneg (r_data c)) as N0.
    assert (Hw : 0 <= r_width c /\ 0 <= r_height c) by (destruct Hok as (_ & _ & _ & [? _] & [? _] & _); auto). destruct Hw as [Hw1 Hw2].
    assert (Hn : Z.of_nat n = r_width c * r_height c).
    { unfold n. rewrite Nat2Z.inj_div, Z2Nat.id by lia. fold (zlen (r_data c)). rewrite Hsz, <- HSi. apply Z.div_mul. lia. }
    assert (HU : u32 (u32 (r_width c * r_height c) * r_step c) = zlen (r_data c)).
    { unfold u32. rewrite (Z.mod_small (r_width c * r_height c)) by nia. rewrite Hsz. apply Z.mod_small. lia. }
    assert (PM : forall data2, zlen data2 = zlen (r_data c) -> cdr_encode (r_cdr c) pc2_type (pc2_value c (repeat 1 (length (r_fields c))) 0 (u32 (r_step c * r_width c)) data2) (cdr_begin (r_cdr c)) = Ok (enc_num (r_cdr c) 1 (r_dense c) (enc_num (r_cdr c) 4 (zlen (r_data c)) s1 ++ data2))).
    { intros data2 HZ2. rewrite (enc4_aligned _ _ _ HA1), Hle. cbn [wire]. rewrite <- HZ2, <- app_assoc, (buffer_little (r_cdr c1) s1 data2 Hle HA1) by lia.
      etransitivity; [|exact (pc2_message c1 s1 data2 HW1)]. unfold pc2_value, c1, parsed. cbn [r_cdr r_sec r_nsec r_frame r_height r_width r_fields r_step r_row r_data r_dense]. rewrite <- !ones_map, map_map. reflexivity. }
    assert (PR : forall data2, zlen data2 = zlen (r_data c) -> getDeserializedPointCloudMessage (enc_num (r_cdr c) 1 (r_dense c) (enc_num (r_cdr c) 4 (zlen (r_data c)) s1 ++ data2)) = Ok (parsed (r_cdr c) c (u32 (r_step c * r_width c)) data2)).
    { intros data2 HZ2. rewrite (enc4_aligned _ _ _ HA1), Hle. cbn [wire]. rewrite <- HZ2, <- app_assoc, (buffer_little (r_cdr c1) s1 data2 Hle HA1) by lia.
      rewrite <- (app_nil_r (enc_num _ _ _ _)). change (r_cdr c) with (r_cdr c1) at 1. change (r_dense c) with (r_dense c1) at 1. rewrite (parse_written c1 s1 data2 [] Hok1 Hd ltac:(lia) HW1).
      unfold parsed, c1, parsed. cbn [r_cdr r_sec r_nsec r_frame r_height r_width r_fields r_step r_row r_data r_dense]. do 2 f_equal. rewrite map_map. reflexivity. }
    assert (HDc : decompress c1 =
      if zlen (r_data c) =? 0 then Ok (enc_num (r_cdr c) 1 (r_dense c) (enc_num (r_cdr c) 4 (zlen (r_data c)) s1))
      else do '(i0, rest) <- DecodeHeader ft payload ; do '(_, mem) <- decode ops L ppc i0 rest [] (repeat 0 (Z.to_nat (zlen (r_data c)))) ; Ok (enc_num (r_cdr c) 1 (r_dense c) (enc_num (r_cdr c) 4 (zlen (r_data c)) s1 ++ mem))).
    { unfold convertCompressedCloudToPointCloud2. cbv zeta. rewrite HW1. cbn [bind]. change (r_width c1) with (r_width c). change (r_height c1) with (r_height c). change (r_step c1) with (r_step c). rewrite HU. reflexivity. }
    destruct (Z.eqb_spec (zlen (r_data c)) 0) as [E0|E0].
    { assert (ED : r_data c = []) by (destruct (r_data c); [reflexivity|unfold zlen in E0; cbn [length] in E0; lia]).
      assert (R : restores c i c1); [|split; [left; exact R|intros _; exact R]]. exists (enc_num (r_cdr c) 1 (r_dense c) (enc_num (r_cdr c) 4 (zlen (r_data c)) s1)), []. split; [exact HDc|]. split; [rewrite (PM [] ltac:(rewrite ED; reflexivity)); now rewrite app_nil_r|]. split.
      - rewrite <- (PR [] ltac:(rewrite ED; reflexivity)). now rewrite app_nil_r.
      - rewrite ED. unfold restored. cbn [length repeat]. split; [reflexivity|]. split; [intros j f' f k Hj; rewrite Nat.div_0_l in Hj by lia; lia|intros x Hx; lia]. }
    destruct HP as [[HP _]|(hdr & e & body & HH & HEo & HPr & HPl)]; [rewrite HP in E0; unfold zlen in E0; cbn [length] in E0; lia|].
    destruct (C30_yaml_header_exact ft i body HY HX) as (hdr' & HH' & HDH). assert (hdr' = hdr) by congruence. subst hdr'.
    rewrite HPl, HDH in HDc. cbn [bind] in HDc. set (i1 := stored_yaml (i_fields i) i) in *.
    assert (HDS1 : decode_side i i1) by exact HDS.
    assert (Hdec : declares i1 n). { unfold declares, i1, stored_yaml. cbn [i_width i_height]. rewrite HWi, HHi, Hn. apply Z.mod_small. nia. }
    assert (Hlen : zlen (r_data c) = Z.of_nat n * i_step i) by (rewrite Hn, HSi; exact Hsz).
    assert (Hmem : Z.of_nat n * i_step i1 <= zlen (repeat 0 (Z.to_nat (zlen (r_data c))))). { change (i_step i1) with (i_step i). rewrite <- Hlen. unfold zlen at 2. rewrite repeat_length. lia. }
    assert (Hbody : zlen body < 1431260227). { rewrite HPl, zlen_app in HZ. pose proof (zlen_nonneg hdr). lia. }
    assert (FIN : (exists buf' mem', decode ops L ppc i1 body [] (repeat 0 (Z.to_nat (zlen (r_data c)))) = Ok (buf', mem') /\ restored ops i i1 n (r_data c) (repeat 0 (Z.to_nat (zlen (r_data c)))) mem') -> restores c i c1).
    { intros (buf' & mem' & E1 & E2). exists (enc_num (r_cdr c) 1 (r_dense c) (enc_num (r_cdr c) 4 (zlen (r_data c)) s1 ++ mem')), mem'. rewrite HDc, E1. cbn [bind].
      assert (Zd : Z.to_nat (zlen (r_data c)) = length (r_data c)) by (unfold zlen; lia). rewrite Zd in E2.
      assert (Z2 : zlen mem' = zlen (r_data c)) by (destruct E2 as (E2 & _); unfold zlen; rewrite E2, repeat_length; reflexivity).
      split; [reflexivity|]. split; [now apply PM|]. split; [now apply PR|exact E2]. }
    split.
    - destruct (C17_never_wrong ops L ppc probe i i1 hdr e (r_data c) hdr body n [] (repeat 0 (Z.to_nat (zlen (r_data c)))) HLi (Hb hdr HH) HES HDS1 HD HEo HPr Hbody Hlen Hdec Hmem) as [R|R]; [left; apply FIN, R|right]. rewrite HDc, R. reflexivity.
    - intros HCap. apply FIN. unfold capacity_ok in HCap. fold n in HCap. destruct (i_comp i) eqn:EC; [|destruct HCap as [HC1 HC2]..|contradiction].
      + exact (C17_roundtrip ops L ppc probe i i1 hdr e (r_data c) hdr body n [] _ HLi (Hb hdr HH) HES HDS1 HD HEo HPr EC Hbody Hlen Hdec Hmem).
      + exact (C17_roundtrip_fits ops L ppc probe i i1 hdr e (r_data c) hdr body n [] _ HLi (Hb hdr HH) HES HDS1 HD HEo HPr (or_introl EC) Hbody Hlen Hdec Hmem HC1 HC2).
      + exact (C17_roundtrip_fits ops L ppc probe i i1 hdr e (r_data c) hdr body n [] _ HLi (Hb hdr HH) HES HDS1 HD HEo HPr (or_intror EC) Hbody Hlen Hdec Hmem HC1 HC2).
  Qed.
  Theorem C42_message_roundtrip c i msg :
    libs_ok L -> ros_ok c -> dds (r_cdr c) -> c_endian (r_cdr c) = LITTLE ->
    (* the encoding info describes the message, and the message is complete *)
    i_width i = r_width c -> i_height i = r_height c -> i_step i = r_step c -> zlen (r_data c) = r_width c * r_height c * r_step c ->
    (* C17's and C30's conditions *)
    encode_side ppc i (r_data c) -> decode_side i i -> deltas_ok ops i ppc (r_data c) ->
    yaml_header_info ft i -> Forall (fun f => match f_res f with Some r => ft_parse ft (ft_print ft r) = Some r | None => True end) (i_fields i) ->
    (forall hdr, EncodeHeader ft i HYaml = Ok hdr -> bytes hdr) ->
    compress c i = Ok msg ->
    exists payload, is_payload c i payload /\ (zlen payload < 1431260227 ->
      exists c1, getDeserializedPointCloudMessage msg = Ok c1 /\ r_data c1 = payload /\ (restores c i c1 \/ decompress c1 = Throw) /\
        (capacity_ok i (length (r_data c) / Z.to_nat (i_step i)) -> restores c i c1)).
  Proof.
    intros HLi Hok Hd Hle HWi HHi HSi Hsz HES HDS HD HY HX Hb HC. destruct (C42_compress c i msg HLi HES Hb Hok Hd Hle HC) as (payload & HP & HG). exists payload. split; [exact HP|]. intros HZ.
    destruct (HG ltac:(lia)) as [_ HG2]. clear HG. set (c1 := parsed (r_cdr c) c (u32 (r_step c * r_width c)) payload) in *. exists c1. split; [exact HG2|]. split; [reflexivity|].
    apply decompress_payload; try assumption. apply u32_in.
  Qed.

  (** * C43: a big-endian header *)
  (** what a big-endian reader takes the little-endian size for *)
  Definition swapped (x : Z) : Z := be_val (le_bytes 4 x).
  Fixpoint dec_struct (h : cdr_header) (ts : list ctype) (d : dstate) : res (list cval * dstate) :=
    match ts with
    | [] => Ok ([], d)
    | t :: ts' => do '(v, d1) <- cdr_decode h t d ; do '(vs, d2) <- dec_struct h ts' d1 ; Ok (v :: vs, d2)
    end.
  Lemma dec_struct_eq h ts d : cdr_decode h (TStruct ts) d = do '(vs, d1) <- dec_struct h ts d ; Ok (VList vs, d1).
  Proof.
    cbn [cdr_decode]. match goal with |- bind (?go ts d) _ = _ => assert (G : forall d, go ts d = dec_struct h ts d) end.
    { clear d. induction ts as [|t ts IH]; intros d; [reflexivity|]. cbn [dec_struct]. destruct (cdr_decode h t d) as [[v d1]| |]; cbn [bind]; try reflexivity. now rewrite IH. }
    now rewrite G.
  Qed.
  Lemma dec_struct_app h ts1 ts2 d : dec_struct h (ts1 ++ ts2) d = do '(v1, d1) <- dec_struct h ts1 d ; do '(v2, d2) <- dec_struct h ts2 d1 ; Ok (v1 ++ v2, d2).
  Proof.
    revert d. induction ts1 as [|t ts1 IH]; intros d; cbn [app dec_struct bind].
    - destruct (dec_struct h ts2 d) as [[v d1]| |]; reflexivity.
    - destruct (cdr_decode h t d) as [[v d1]| |]; cbn [bind]; try reflexivity. rewrite IH. destruct (dec_struct h ts1 d1) as [[v1 d2]| |]; cbn [bind]; try reflexivity.
      destruct (dec_struct h ts2 d2) as [[v2 d3]| |]; reflexivity.
  Qed.
  Lemma decode_struct_app h ts1 ts2 d : cdr_decode h (TStruct (ts1 ++ ts2)) d =
    do '(v1, d1) <- cdr_decode h (TStruct ts1) d ; do '(v2, d2) <- cdr_decode h (TStruct ts2) d1 ;
    Ok (VList (match v1, v2 with VList a, VList b => a ++ b | _, _ => [] end), d2).
  Proof.
    rewrite !dec_struct_eq, dec_struct_app. destruct (dec_struct h ts1 d) as [[v1 d1]| |]; cbn [bind]; try reflexivity. rewrite dec_struct_eq.
    destruct (dec_struct h ts2 d1) as [[v2 d2]| |]; reflexivity.
  Qed.
  Lemma le_val_rev bs : le_val (rev bs) = be_val bs.
  Proof. rewrite <- be_val_rev, rev_involutive. reflexivity. Qed.
  Lemma big_length c s tail : ros_ok c -> dds (r_cdr c) -> writePointCloudHeader c (cdr_begin (r_cdr c)) = Ok s ->
    forall b, length b = 4%nat -> c_endian (r_cdr c) = BIG ->
    getDeserializedPointCloudMessage (s ++ b ++ tail) =
    (if zlen tail <? be_val b then Throw
     else match dec_num (r_cdr c) 1 ((length s - 4 + 4 + Z.to_nat (be_val b))%nat, skipn (Z.to_nat (be_val b)) tail) with
          | Ok (dense, _) => Ok (mkRos (r_cdr c) (r_sec c) (r_nsec c) (r_frame c) (r_height c) (r_width c) (map plain_field (r_fields c)) (r_step c) (u32 (r_step c * r_width c)) (firstn (Z.to_nat (be_val b)) tail) dense)
          | Throw => Throw | UB => UB end).
  Proof.
    intros Hok Hd HW b Hb HB. pose proof (header_begin_aligned _ _ HW) as [HL HA].
    set (hv := header_values c (map (field_value 1) (r_fields c)) 0 (u32 (r_step c * r_width c))).
    assert (HF : CdrFacts.fits (TStruct header_types) (VList hv)).
    { pose proof (pc2_fits c (repeat 1 (length (r_fields c))) 0 (u32 (r_step c * r_width c)) [] Hok (ones_range _) (repeat_length _ _) ltac:(lia) (u32_in _) ltac:(unfold zlen; cbn; lia)) as F.
      unfold pc2_type, pc2_value in F. rewrite <- ones_map in F. fold hv in F. unfold hv, header_values, header_types in *. cbn [app CdrFacts.fits] in F |- *. destruct F as (F1 & F2 & F3 & F4 & F5 & F6 & F7 & F8 & F9 & _). do 8 (split; [assumption|]). split; [assumption|exact I]. }
    destruct (rt_all (r_cdr c) _ _ (cdr_begin (r_cdr c)) HF ltac:(cbn; lia)) as (bs & E & D). unfold hv in E. rewrite <- write_header_eq, HW in E. assert (Es : s = cdr_begin (r_cdr c) ++ bs) by congruence.
    assert (Lbs : (length s - 4 = length bs)%nat) by (rewrite Es, app_length; cbn; lia).
    unfold getDeserializedPointCloudMessage. rewrite Es at 1. rewrite <- app_assoc, open_begin by exact Hd. cbn [bind]. rewrite read_common_eq. unfold pc2_type. rewrite decode_struct_app.
    specialize (D (b ++ tail)). change (length (cdr_begin (r_cdr c)) - 4)%nat with O in D. cbn [Nat.add] in D. rewrite D. cbn [bind cdr_decode]. unfold dec_buffer.
    assert (DN : dec_num (r_cdr c) 4 (length bs, b ++ tail) = Ok (be_val b, ((length bs + 4)%nat, tail))).
    { unfold dec_num. cbn [fst snd]. rewrite align4 by (rewrite <- Lbs; exact HA). change (jump 0 (length bs, b ++ tail)) with (Ok ((length bs + 0)%nat, b ++ tail)). cbn [bind snd].
      replace (length (b ++ tail) <? 4)%nat with false by (symmetry; apply Nat.ltb_ge; rewrite app_length; lia). rewrite <- Hb. rewrite (jump_app b tail) by reflexivity. cbn [bind].
      rewrite firstn_app, firstn_all, Nat.sub_diag. cbn [firstn]. rewrite app_nil_r. rewrite Hb. cbn [Nat.leb]. rewrite HB. cbn [wire]. rewrite le_val_rev, Nat.add_0_r. reflexivity. }
    rewrite DN. cbn [bind snd]. destruct (zlen tail <? be_val b) eqn:EZ; [reflexivity|]. unfold jump. cbn [fst snd]. unfold trim_front.
    replace (length tail <? Z.to_nat (be_val b))%nat with false by (symmetry; apply Nat.ltb_ge; unfold zlen in EZ; lia). cbn [bind]. rewrite Lbs.
    destruct (dec_num (r_cdr c) 1 _) as [[dense d2]| |]; cbn [bind]; try reflexivity. unfold hv, header_values. cbn [app cproj]. do 2 f_equal. rewrite ones_map. apply fproj_fields; [apply Hok|apply repeat_length].
  Qed.
  (** The compressed message of any cloud with a big-endian header is rejected, or read with a
      payload of the byte-swapped length; below 65519 bytes of payload it is always rejected. *)
  Theorem C43_big_endian c i msg : libs_ok L -> encode_side ppc i (r_data c) -> (forall hdr, EncodeHeader ft i HYaml = Ok hdr -> bytes hdr) ->
    ros_ok c -> dds (r_cdr c) -> c_endian (r_cdr c) = BIG -> compress c i = Ok msg ->
    exists payload, is_payload c i payload /\
      (getDeserializedPointCloudMessage msg = Throw \/ exists c1, getDeserializedPointCloudMessage msg = Ok c1 /\ zlen (r_data c1) = swapped (zlen payload)) /\
      (0 < zlen payload < 65519 -> getDeserializedPointCloudMessage msg = Throw).
  Proof.
    intros HLi HES Hb Hok Hd HB HC. destruct (compress_payload c i msg HLi HES Hb HC) as (s & payload & HW & HP & HM). exists payload. split; [exact HP|].
    assert (TL : exists tail, msg = s ++ le_bytes 4 (zlen payload) ++ (payload ++ tail) /\ zlen tail <= 17).
    { unfold enc_string in HM. change (4294967296 <=? zlen format_name + 1) with false in HM. cbv iota in HM.
      set (p := s ++ le_bytes 4 (zlen payload) ++ payload) in *.
      assert (HM' : msg = enc_num (r_cdr c) 4 (zlen format_name + 1) (enc_num (r_cdr c) 1 (r_dense c) p) ++ format_name ++ [0]) by congruence.
      unfold enc_num in HM' at 2. cbn [Nat.leb repeat app] in HM'. unfold enc_num in HM'. cbn [Nat.leb] in HM'. set (pad := alignment _ _ _) in HM'.
      assert (HP4 : (pad < 4)%nat). { unfold pad, alignment. cbn [Nat.eqb]. change (4 - 1)%nat with (Nat.ones 2). rewrite Nat.land_ones. apply Nat.mod_upper_bound. discriminate. }
      unfold p in HM'. rewrite <- !app_assoc in HM'. eexists. split; [exact HM'|]. rewrite !zlen_app. unfold zlen. rewrite !wire_length, repeat_length, !le_bytes_length. cbn [length format_name]. lia. }
    destruct TL as (tail & -> & HT). rewrite (big_length c s (payload ++ tail) Hok Hd HW (le_bytes 4 (zlen payload)) (le_bytes_length _ _) HB). fold (swapped (zlen payload)).
    assert (SN : 0 <= swapped (zlen payload)). { unfold swapped. rewrite <- le_val_rev. apply le_val_range. apply Forall_rev. apply le_bytes_bytes. }
    split.
    - destruct (Z.ltb_spec (zlen (payload ++ tail)) (swapped (zlen payload))); [now left|]. match goal with |- context [match ?x with _ => _ end] => destruct x as [[dense d]| |] eqn:ED end.
      + right. eexists. split; [reflexivity|]. cbn [r_data]. unfold zlen in *. rewrite firstn_length. lia.
      + now left.
      + now apply dec_num_no_ub in ED.
    - intros HS. replace (zlen (payload ++ tail) <? swapped (zlen payload)) with true; [reflexivity|]. symmetry. apply Z.ltb_lt. rewrite zlen_app. set (z := zlen payload) in *.
      assert (65536 <= swapped z); [|lia]. unfold swapped. cbn [le_bytes be_val fold_left]. 
      pose proof (Z.mod_pos_bound z 256 ltac:(lia)). pose proof (Z.mod_pos_bound (z / 256) 256 ltac:(lia)). pose proof (Z.mod_pos_bound (z / 256 / 256) 256 ltac:(lia)). pose proof (Z.mod_pos_bound (z / 256 / 256 / 256) 256 ltac:(lia)).
      pose proof (Z.div_mod z 256 ltac:(lia)). pose proof (Z.div_mod (z / 256) 256 ltac:(lia)). lia.
  Qed.
End Convert.

(** * C42: the size of the decompressed cloud is computed in 32 bits *)
(** A message whose width * height * point_step is a multiple of 2^32 is "decompressed", whatever
    its payload, to an empty cloud that still has these dimensions. *)
Theorem C42_size_wraps_refuted : exists c, ros_ok c /\ 0 < r_width c * r_height c * r_step c /\
  forall ft ops L ppc payload, exists msg c2,
    convertCompressedCloudToPointCloud2 ft ops L ppc (parsed (r_cdr c) c (r_row c) payload) = Ok msg /\
    getDeserializedPointCloudMessage msg = Ok c2 /\ r_width c2 = r_width c /\ r_height c2 = r_height c /\ r_step c2 = r_step c /\ r_data c2 = [].
Proof.
  exists (mkRos (mkCdr LITTLE PLAIN_CDR DDS_CDR) 1 2 [109] 65536 4096 [mkField [120] 0 INT32 None] 16 1048576 [] 1).
  split; [|split; [reflexivity|]].
  { unfold ros_ok, u32_range, zlen. cbn [r_sec r_nsec r_frame r_height r_width r_fields r_step r_row r_data r_dense length]. do 6 (split; [lia|]). split; [|lia].
    constructor; [|constructor]. unfold ros_field_ok, u32_range. vm_compute. repeat split; congruence. }
  intros ft ops L ppc payload. do 2 eexists. split; [vm_compute; reflexivity|]. split; [vm_compute; reflexivity|]. auto.
Qed.

(** *** Concrete cases *)
From Coq Require Import String.
From Verif Require Import FloatText Cases ApiFacts.
Definition msg_cloud (e : endianness) : ros_cloud :=
  mkRos (mkCdr e PLAIN_CDR DDS_CDR) 1700000000 250000000 [109; 97; 112] 1 3 (map plain_field scan_fields) 32 96 scan_cloud 1.
Lemma msg_cloud_ok e : ros_ok (msg_cloud e).
Proof.
  unfold ros_ok, u32_range, msg_cloud. cbn [r_sec r_nsec r_frame r_height r_width r_fields r_step r_row r_data r_dense]. do 2 (split; [lia|]). split; [reflexivity|]. do 2 (split; [lia|]). split; [reflexivity|].
  split; [|split; [lia|split; [lia|split; [vm_compute; reflexivity|lia]]]]. apply Forall_forall. intros f Hf. cbn in Hf. unfold ros_field_ok, u32_range.
  repeat (destruct Hf as [<-|Hf]; [vm_compute; repeat split; congruence|]). contradiction.
Qed.
Lemma scan_yaml : yaml_header_info gnu_text (scan 5 3 COMP_NONE) /\
  Forall (fun f => match f_res f with Some r => ft_parse gnu_text (ft_print gnu_text r) = Some r | None => True end) (i_fields (scan 5 3 COMP_NONE)).
Proof.
  split.
  - unfold yaml_header_info, scan. cbn [i_version i_width i_height i_step i_enc i_comp i_cfg i_fields]. do 4 (split; [lia|]). split; [exact I|]. split; [exact I|]. split; [left; reflexivity|].
    assert (R : forall r, safeb (print_g6 r) = true -> print_g6 r <> str "null"%string -> parse_f32 (print_g6 r) <> None -> yaml_safe (ft_print gnu_text r) /\ ft_print gnu_text r <> str "null"%string /\ ft_parse gnu_text (ft_print gnu_text r) <> None).
    { intros r A B C. split; [now apply safeb_ok|]. split; assumption. }
    unfold scan_fields, fld. do 3 (constructor; [split; [apply safeb_ok; reflexivity|split; [cbn [f_off]; lia|split; [exact I|cbn [f_res]; apply R; vm_compute; congruence]]]|]).
    do 3 (constructor; [split; [apply safeb_ok; reflexivity|split; [cbn [f_off]; lia|split; exact I]]|]). constructor.
  - unfold scan, scan_fields, fld. cbn [i_fields f_res]. do 3 (constructor; [vm_compute; reflexivity|]). do 3 (constructor; [exact I|]). constructor.
Qed.
Lemma scan_sides : encode_side 2 (scan 5 3 COMP_NONE) scan_cloud /\ decode_side (scan 5 3 COMP_NONE) (scan 5 3 COMP_NONE).
Proof.
  split.
  - split; [apply scan_layout|]. split; [exact I|]. split; [|apply scan_bytes]. split; [lia|]. split; [lia|vm_compute; discriminate].
  - split; [apply scan_same|]. split; [apply scan_out_layout|]. split; [apply scan_consistent|]. split; [apply scan_resolutions|]. split; [|split; [reflexivity|cbn; lia]]. repeat constructor.
Qed.
(** The hypotheses of C42_message_roundtrip are met by a scan of three points, and both
    conversions run. *)
Example C42_case : let c := msg_cloud LITTLE in let i := scan 5 3 COMP_NONE in
  libs_ok store_libs /\ ros_ok c /\ dds (r_cdr c) /\ i_width i = r_width c /\ i_height i = r_height c /\ i_step i = r_step c /\ zlen (r_data c) = r_width c * r_height c * r_step c /\
  encode_side 2 i (r_data c) /\ decode_side i i /\ deltas_ok sse_ops i 2 (r_data c) /\ yaml_header_info gnu_text i /\
  (forall hdr, EncodeHeader gnu_text i HYaml = Ok hdr -> bytes hdr) /\ capacity_ok 2 i 3 /\
  exists msg c1 msg2 c2, convertPointCloud2ToCompressedCloud gnu_text sse_ops store_libs 2 4096 c i = Ok msg /\ getDeserializedPointCloudMessage msg = Ok c1 /\
    convertCompressedCloudToPointCloud2 gnu_text sse_ops store_libs 2 c1 = Ok msg2 /\ getDeserializedPointCloudMessage msg2 = Ok c2 /\
    r_frame c2 = [109; 97; 112] /\ r_fields c2 = map plain_field scan_fields /\ sub 24 8 (r_data c2) = le_bytes 8 (u64 (-3)).
Proof.
  cbv zeta. split; [apply store_libs_ok|]. split; [apply msg_cloud_ok|]. split; [split; reflexivity|]. do 4 (split; [vm_compute; reflexivity|]). split; [apply scan_sides|]. split; [apply scan_sides|].
  split; [apply scan_deltas|]. split; [apply scan_yaml|]. split; [intros hdr HH; assert (HE : EncodeHeader gnu_text (scan 5 3 COMP_NONE) HYaml = EncodeHeader gnu_text (scan 5 3 COMP_NONE) HYaml) by reflexivity; rewrite HH in HE at 1;
    vm_compute in HE; assert (HX : hdr = match EncodeHeader gnu_text (scan 5 3 COMP_NONE) HYaml with Ok h => h | _ => [] end) by (vm_compute; congruence); rewrite HX; apply bytesb; vm_compute; reflexivity|]. split; [exact I|].
  do 4 eexists. split; [vm_compute; reflexivity|]. split; [vm_compute; reflexivity|]. split; [vm_compute; reflexivity|]. split; [vm_compute; reflexivity|]. vm_compute. repeat split.
Qed.
(** The same scan with a big-endian header: a compressed message is written, and rejected. *)
Theorem C43_big_endian_refuted : exists c i msg, ros_ok c /\ dds (r_cdr c) /\ encode_side 2 i (r_data c) /\
  convertPointCloud2ToCompressedCloud gnu_text sse_ops store_libs 2 4096 c i = Ok msg /\ getDeserializedPointCloudMessage msg = Throw.
Proof.
  exists (msg_cloud BIG), (scan 5 3 COMP_NONE). eexists. split; [apply msg_cloud_ok|]. split; [split; reflexivity|]. split; [apply scan_sides|]. split; [vm_compute; reflexivity|]. vm_compute. reflexivity.
Qed.

Print Assumptions C42_parse_message.
Print Assumptions C42_hostile_message.
Print Assumptions C42_compress.
Print Assumptions C42_message_roundtrip.
Print Assumptions C42_size_wraps_refuted.
Print Assumptions C43_big_endian.
Print Assumptions C43_big_endian_refuted.
