(** C81: the header inspector. *)
From Verif Require Import Base BaseFacts Types Floats Codec Api Header Cdr Ros RosViz Mcap PropsMcap Inspector LibSpec Spec Stage1Facts ApiFacts CloudFacts RoundTrip LocalFacts CloudApi PropsCloud PropsFit PropsHeader PropsCdr RosFacts HostileFacts PropsRos.
From Coq Require Import String.
Open Scope Z_scope.
Open Scope list_scope.
Notation length := List.length.

(** * Specification *)
Definition compressed_message (rec : recording) (m : message) : Prop := exists x, describe rec m = Some x /\ x_sname x = compressed_schema_name.
Definition compressed_topic (rec : recording) : Prop := exists c s, In c (rc_channels rec) /\ In s (rc_schemas rec) /\ ch_schema c = s_id s /\ s_name s = compressed_schema_name.
(** [m] is the first message, in reading order, on a topic with compressed clouds. *)
Definition first_compressed (rec : recording) (m : message) : Prop :=
  exists before after, rc_messages rec = before ++ m :: after /\ compressed_message rec m /\ Forall (fun m' => ~ compressed_message rec m') before.
(** The header of a payload can be read. *)
Definition readable (ft : float_text) (m : message) (i : info) : Prop :=
  exists pc rest, getDeserializedPointCloudMessage (m_data m) = Ok pc /\ DecodeHeader ft (r_data pc) = Ok (i, rest).

(** * Proofs *)
Section Inspect.
  Variable ft : float_text.
  Lemma find_schema_nodup : forall l s, NoDup (map s_id l) -> In s l -> find_schema l (s_id s) = Some s.
  Proof.
    induction l as [|a l IH]; [contradiction|]. intros s HN [->|Hs]; cbn [find_schema]; [now rewrite Z.eqb_refl|]. cbn [map] in HN. inversion HN as [|? ? N1 N2]; subst.
    destruct (Z.eqb_spec (s_id a) (s_id s)) as [E|E]; [|auto]. exfalso. apply N1. rewrite E. now apply in_map.
  Qed.
  Lemma find_channel_nodup : forall l c, NoDup (map ch_id l) -> In c l -> find_channel l (ch_id c) = Some c.
  Proof.
    induction l as [|a l IH]; [contradiction|]. intros s HN [->|Hs]; cbn [find_channel]; [now rewrite Z.eqb_refl|]. cbn [map] in HN. inversion HN as [|? ? N1 N2]; subst.
    destruct (Z.eqb_spec (ch_id a) (ch_id s)) as [E|E]; [|auto]. exfalso. apply N1. rewrite E. now apply in_map.
  Qed.
  Lemma channels_spec schemas : forall cs, (forall c, In c cs -> In (ch_schema c) (map s_id schemas)) -> exists ids, compressed_channels schemas cs = Ok ids /\
    forall id, In id ids <-> exists c s, In c cs /\ ch_id c = id /\ find_schema schemas (ch_schema c) = Some s /\ s_name s = compressed_schema_name.
  Proof.
    induction cs as [|c cs IH]; intros H; cbn [compressed_channels].
    - exists []. split; [reflexivity|]. intros id. split; [intros []|intros (c & s & [] & _)].
    - destruct (find_schema_in _ _ (H c (or_introl eq_refl))) as (s & Fs & _). rewrite Fs. destruct (IH (fun d hd => H d (or_intror hd))) as (ids & E & HI). rewrite E. cbn [bind]. eexists. split; [reflexivity|].
      intros id. destruct (leqb (s_name s) compressed_schema_name) eqn:EL.
      + apply leqb_eq in EL. cbn [In]. rewrite HI. split.
        * intros [<-|(d & t & H1 & H2 & H3 & H4)]; [exists c, s; auto|exists d, t; auto].
        * intros (d & t & [<-|H1] & H2 & H3 & H4); [now left|right; exists d, t; auto].
      + rewrite HI. split.
        * intros (d & t & H1 & H2 & H3 & H4). exists d, t. split; [now right|auto].
        * intros (d & t & [<-|H1] & H2 & H3 & H4); [|exists d, t; auto]. assert (t = s) by congruence. subst t. assert (leqb (s_name s) compressed_schema_name = true) by now apply leqb_eq. congruence.
  Qed.
  Lemma in_ids rec ids m : well_formed rec -> (forall id, In id ids <-> exists c s, In c (rc_channels rec) /\ ch_id c = id /\ find_schema (rc_schemas rec) (ch_schema c) = Some s /\ s_name s = compressed_schema_name) ->
    existsb (Z.eqb (m_chan m)) ids = true <-> compressed_message rec m.
  Proof.
    intros (W1 & W2 & W3 & W4 & W5 & W6) HI. rewrite existsb_exists. split.
    - intros (id & H1 & H2). apply Z.eqb_eq in H2. subst id. apply HI in H1. destruct H1 as (c & s & H1 & H2 & H3 & H4). unfold compressed_message, describe. rewrite <- H2, (find_channel_nodup _ _ W2 H1), H3. eexists. split; [reflexivity|exact H4].
    - intros (x & H1 & H2). unfold describe in H1. destruct (find_channel (rc_channels rec) (m_chan m)) as [c|] eqn:EC; [|discriminate]. destruct (find_schema (rc_schemas rec) (ch_schema c)) as [s|] eqn:ES; [|discriminate].
      exists (m_chan m). split; [|apply Z.eqb_refl]. apply HI. exists c, s. assert (IC : In c (rc_channels rec) /\ ch_id c = m_chan m).
      { clear - EC. induction (rc_channels rec) as [|a l IH]; [discriminate|]. cbn [find_channel] in EC. destruct (Z.eqb_spec (ch_id a) (m_chan m)); [assert (a = c) by congruence; subst; split; [now left|assumption]|]. destruct (IH EC). split; [now right|assumption]. }
      destruct IC as [IC1 IC2]. split; [exact IC1|]. split; [exact IC2|]. split; [exact ES|]. assert (E : x_sname x = s_name s) by (replace x with (mkSeen (ch_topic c) (ch_enc c) (s_name s) (s_enc s) (s_data s) (m_seq m) (m_log m) (m_pub m) (m_data m)) by congruence; reflexivity). congruence.
  Qed.
  Lemma first_spec rec ids : (forall m, existsb (Z.eqb (m_chan m)) ids = true <-> compressed_message rec m) -> forall l,
    (Forall (fun m => ~ compressed_message rec m) l /\ first_message ft rec ids l = Ok None) \/
    (exists before m after c, l = before ++ m :: after /\ compressed_message rec m /\ Forall (fun m' => ~ compressed_message rec m') before /\ find_channel (rc_channels rec) (m_chan m) = Some c /\
      first_message ft rec ids l = (do pc <- getDeserializedPointCloudMessage (m_data m) ; do '(i, _) <- DecodeHeader ft (r_data pc) ; Ok (Some (show_info ft (ch_topic c) (m_log m) (zlen (m_data m)) (zlen (r_data pc)) i)))).
  Proof.
    intros HI. induction l as [|m l IH]; [left; split; [constructor|reflexivity]|]. cbn [first_message]. destruct (existsb (Z.eqb (m_chan m)) ids) eqn:EE; cbn [negb].
    - right. pose proof EE as EC. apply HI in EC. pose proof EC as (x & D & _). unfold describe in D. destruct (find_channel (rc_channels rec) (m_chan m)) as [c|] eqn:EF; [|discriminate].
      exists [], m, l, c. split; [reflexivity|]. split; [exact EC|]. split; [constructor|]. split; [exact EF|reflexivity].
    - assert (NC : ~ compressed_message rec m) by (intros H; apply HI in H; congruence). destruct IH as [[F E]|(b & m' & a & c & E1 & E2 & E3 & E4 & E5)].
      + left. split; [constructor; assumption|exact E].
      + right. exists (m :: b), m', a, c. split; [rewrite E1; reflexivity|]. split; [exact E2|]. split; [constructor; assumption|]. split; [exact E4|exact E5].
  Qed.

  (** On every well-formed recording whose first compressed message has at least the four bytes of a
      CDR header, the inspector ends with a status.  It describes the first message, in reading
      order, on a compressed topic, and only that one; the status is 0 exactly when there was
      nothing to describe because no topic is compressed, or the header could be read. *)
  Theorem C81_inspect rec : well_formed rec -> (forall m, first_compressed rec m -> 4 <= zlen (m_data m)) ->
    exists status r, inspect ft rec = Ok (status, r) /\
      (r = None -> (status = 0 /\ ~ compressed_topic rec) \/ (status = 1 /\ compressed_topic rec /\ forall m i, first_compressed rec m -> ~ readable ft m i)) /\
      (forall p, r = Some p -> status = 0 /\ exists m x i, first_compressed rec m /\ describe rec m = Some x /\ readable ft m i /\
        p_topic p = x_topic x /\ p_time p = m_log m /\ p_size p = zlen (m_data m) /\ p_version p = i_version i /\ p_width p = i_width i /\ p_height p = i_height i /\ p_step p = i_step i /\ p_yaml p = EncodingInfoToYAML ft i /\
        (p_points p - i_width i * i_height i) mod 4294967296 = 0 /\ (p_bytes p - i_width i * i_height i * i_step i) mod 4294967296 = 0 /\ p_count p = zlen (i_fields i) /\
        map l_name (p_fields p) = map f_name (i_fields i) /\ map l_offset (p_fields p) = map f_off (i_fields i) /\ map l_type (p_fields p) = map (fun f => FieldTypeToString (f_type f)) (i_fields i)).
  Proof.
    intros W H4. pose proof W as (W1 & W2 & W3 & W4 & W5 & W6). unfold inspect. destruct (channels_spec (rc_schemas rec) (rc_channels rec) W5) as (ids & EI & HI). rewrite EI. cbn [bind].
    assert (TOP : compressed_topic rec <-> ids <> []).
    { split.
      - intros (c & s & H1 & H2 & H3 & H5) HE. assert (In (ch_id c) ids) by (apply HI; exists c, s; rewrite H3; auto using find_schema_nodup). rewrite HE in H. contradiction.
      - intros HN. destruct ids as [|id ids]; [contradiction|]. destruct (proj1 (HI id) (or_introl eq_refl)) as (c & s & H1 & H2 & H3 & H5). destruct (find_schema_in _ _ (W5 c H1)) as (s' & F1 & F2 & F3). assert (s' = s) by congruence. subst s'. exists c, s. auto. }
    assert (EXI : forall m, existsb (Z.eqb (m_chan m)) ids = true <-> compressed_message rec m) by (intros m; now apply in_ids).
    destruct ids as [|id0 ids0] eqn:EIDS.
    { exists 0, None. split; [reflexivity|]. split; [|discriminate]. intros _. left. split; [reflexivity|]. intros HT. apply TOP in HT. now apply HT. }
    rewrite <- EIDS in *. assert (HT : compressed_topic rec) by (apply TOP; congruence).
    destruct (first_spec rec ids EXI (rc_messages rec)) as [[F E]|(b & m & a & c & E1 & E2 & E3 & E4 & E5)].
    - rewrite E. exists 1, None. split; [reflexivity|]. split; [|discriminate]. intros _. right. split; [reflexivity|]. split; [exact HT|].
      intros m i (b & a & E1 & E2 & _). exfalso. rewrite Forall_forall in F. apply (F m); [|exact E2]. rewrite E1. apply in_or_app. right. now left.
    - rewrite E5. assert (FC : first_compressed rec m) by (exists b, a; auto).
      assert (UNI : forall m', first_compressed rec m' -> m' = m).
      { intros m' (b' & a' & E1' & E2' & E3'). rewrite E1 in E1'. clear - E1' E2 E2' E3 E3'. revert b' E1' E3'. induction b as [|x b IH]; intros [|x' b'] E1' E3'; cbn [app] in E1'.
        - congruence.
        - exfalso. apply (Forall_inv E3'). assert (x' = m) by congruence. subst. exact E2.
        - exfalso. apply (Forall_inv E3). assert (x = m') by congruence. subst. exact E2'.
        - apply (IH (Forall_inv_tail E3) b'); [congruence|]. exact (Forall_inv_tail E3'). }
      destruct E2 as (x & D & SN). pose proof D as D'. unfold describe in D'. rewrite E4 in D'. destruct (find_schema (rc_schemas rec) (ch_schema c)) as [s|] eqn:ES; [|discriminate].
      assert (TX : x_topic x = ch_topic c) by (replace x with (mkSeen (ch_topic c) (ch_enc c) (s_name s) (s_enc s) (s_data s) (m_seq m) (m_log m) (m_pub m) (m_data m)) by congruence; reflexivity).
      pose proof (C42_hostile_message (m_data m) (H4 m FC)) as NU. destruct (getDeserializedPointCloudMessage (m_data m)) as [pc| |] eqn:EG; cbn [bind]; [|exists 1, None|congruence].
      + pose proof (C32_decode_header_safe ft (r_data pc)) as PS. destruct (DecodeHeader ft (r_data pc)) as [[i rest]| |] eqn:ED; cbn [bind]; [|exists 1, None|contradiction].
        * exists 0. eexists. split; [reflexivity|]. split; [discriminate|]. intros p Hp. split; [reflexivity|]. replace p with (show_info ft (ch_topic c) (m_log m) (zlen (m_data m)) (zlen (r_data pc)) i) by congruence.
          exists m, x, i. split; [exact FC|]. split; [exact D|]. split; [exists pc, rest; auto|]. unfold show_info. cbn [p_topic p_time p_size p_version p_width p_height p_step p_yaml p_points p_bytes p_count p_fields]. rewrite TX.
          do 8 (split; [reflexivity|]). split. { unfold u32. rewrite Zminus_mod_idemp_l, Z.sub_diag. reflexivity. }
          split. { unfold u32. rewrite Z.mul_mod_idemp_l by lia. rewrite Zminus_mod_idemp_l, Z.sub_diag. reflexivity. }
          split; [reflexivity|]. rewrite !map_map. cbn [show_field l_name l_offset l_type]. auto.
        * split; [reflexivity|]. split; [|discriminate]. intros _. right. split; [reflexivity|]. split; [exact HT|]. intros m' i FC' (pc' & rest & R1 & R2). rewrite (UNI m' FC') in R1. congruence.
      + split; [reflexivity|]. split; [|discriminate]. intros _. right. split; [reflexivity|]. split; [exact HT|]. intros m' i FC' (pc' & rest & R1 & R2). rewrite (UNI m' FC') in R1. congruence.
  Qed.
End Inspect.

(** What is printed for a message the converter wrote: the dimensions, fields and options it was
    encoded with, and the true number of points and of bytes, when these are below 2^32. *)
Section Report.
  Variables (ft : float_text) (ops : float_ops) (L : libs) (ppc probe : nat).
  Notation compress := (convertPointCloud2ToCompressedCloud ft ops L ppc probe).
  Theorem C81_report rec m c i :
    well_formed rec -> first_compressed rec m -> compress c i = Ok (m_data m) ->
    libs_ok L -> encode_side ppc i (r_data c) -> (forall hdr, EncodeHeader ft i HYaml = Ok hdr -> bytes hdr) ->
    ros_ok c -> dds (r_cdr c) -> c_endian (r_cdr c) = LITTLE -> r_data c <> [] -> zlen (m_data m) < 4294967296 ->
    yaml_header_info ft i -> Forall (fun f => match f_res f with Some r => ft_parse ft (ft_print ft r) = Some r | None => True end) (i_fields i) ->
    exists p, inspect ft rec = Ok (0, Some p) /\
      p_width p = i_width i /\ p_height p = i_height i /\ p_step p = i_step i /\ p_version p = i_version i /\
      p_enc p = EncodingToString (i_enc i) /\ p_comp p = CompressionToString (i_comp i) /\
      map l_name (p_fields p) = map f_name (i_fields i) /\ map l_offset (p_fields p) = map f_off (i_fields i) /\ map l_type (p_fields p) = map (fun f => FieldTypeToString (f_type f)) (i_fields i) /\
      Forall2 (fun l f => forall r, f_res f = Some r -> l_resolution l = ft_print ft r) (p_fields p) (i_fields i) /\
      (0 <= i_width i * i_height i * i_step i < 4294967296 -> 0 < i_step i -> p_points p = i_width i * i_height i /\ p_bytes p = i_width i * i_height i * i_step i).
  Proof.
    intros W FC HC HL HES Hb Hok Hd Hle HNE HZ HY HX.
    destruct (compress_payload ft ops L ppc probe c i (m_data m) HL HES Hb HC) as (s & payload & HW & HP & HM).
    unfold enc_string in HM. destruct (_ <=? _); [discriminate|]. assert (HM' : m_data m = enc_num (r_cdr c) 4 (zlen format_name + 1) (enc_num (r_cdr c) 1 (r_dense c) (s ++ le_bytes 4 (zlen payload) ++ payload)) ++ format_name ++ [0]) by congruence. clear HM.
    assert (HZ' : zlen payload < 4294967296).
    { rewrite HM' in HZ. unfold enc_num in HZ. rewrite !zlen_app in HZ. repeat match type of HZ with context [zlen ?x] => lazymatch goal with | H : 0 <= zlen x |- _ => fail | _ => pose proof (zlen_nonneg x) end end. lia. }
    pose proof (header_begin_aligned _ _ HW) as [HLs HA]. rewrite (buffer_little _ _ _ Hle HA HZ') in HM'.
    assert (HG : getDeserializedPointCloudMessage (m_data m) = Ok (parsed (r_cdr c) c (u32 (r_step c * r_width c)) payload)).
    { rewrite HM'. unfold enc_num at 1. rewrite <- !app_assoc. apply parse_written; assumption. }
    destruct HP as [[HP _]|(hdr & e & body & HH & _ & _ & HPl)]; [contradiction|].
    destruct (C30_yaml_header_exact ft i body HY HX) as (hdr' & HH' & HDH). assert (hdr' = hdr) by congruence. subst hdr'.
    assert (HD : DecodeHeader ft (r_data (parsed (r_cdr c) c (u32 (r_step c * r_width c)) payload)) = Ok (stored_yaml (i_fields i) i, body)) by (cbn [parsed r_data]; rewrite HPl; exact HDH).
    assert (RD : readable ft m (stored_yaml (i_fields i) i)) by (exists (parsed (r_cdr c) c (u32 (r_step c * r_width c)) payload), body; auto).
    pose proof W as (W1 & W2 & W3 & W4 & W5 & W6). unfold inspect. destruct (channels_spec (rc_schemas rec) (rc_channels rec) W5) as (ids & EI & HI). rewrite EI. cbn [bind].
    assert (EXI : forall m, existsb (Z.eqb (m_chan m)) ids = true <-> compressed_message rec m) by (intros m'; now apply in_ids).
    destruct FC as (b & a & E1 & E2 & E3).
    assert (NE : exists id0 ids0, ids = id0 :: ids0). { destruct ids as [|x y]; [|eauto]. apply EXI in E2. discriminate. }
    destruct NE as (id0 & ids0 & EIDS). destruct (first_spec ft rec ids EXI (rc_messages rec)) as [[F _]|(b' & m' & a' & ch & E1' & E2' & E3' & E4' & E5')].
    { exfalso. rewrite Forall_forall in F. apply (F m); [|exact E2]. rewrite E1. apply in_or_app. right. now left. }
    assert (m' = m).
    { rewrite E1 in E1'. clear - E1' E2 E2' E3 E3'. revert b' E1' E3'. induction b as [|x b IH]; intros [|x' b'] E1' E3'; cbn [app] in E1'.
      - congruence.
      - exfalso. apply (Forall_inv E3'). assert (x' = m) by congruence. subst. exact E2.
      - exfalso. apply (Forall_inv E3). assert (x = m') by congruence. subst. exact E2'.
      - apply (IH (Forall_inv_tail E3) b'); [congruence|]. exact (Forall_inv_tail E3'). }
    subst m'. rewrite EIDS, <- EIDS, E5', HG. cbn [bind]. rewrite HD. cbn [bind]. eexists. split; [reflexivity|]. unfold show_info, stored_yaml. cbn [p_width p_height p_step p_version p_enc p_comp p_fields p_points p_bytes i_width i_height i_step i_version i_enc i_comp i_fields].
    do 6 (split; [reflexivity|]). rewrite !map_map. cbn [show_field l_name l_offset l_type]. do 3 (split; [reflexivity|]). split.
    - generalize (i_fields i). intros l. induction l as [|f l IH]; cbn [map]; constructor; [|exact IH]. intros r Hr. cbn [show_field l_resolution]. now rewrite Hr.
    - intros HB HS. unfold u32. assert (HWH : 0 <= i_width i * i_height i < 4294967296) by nia. change (2 ^ 32) with 4294967296. rewrite (Z.mod_small (i_width i * i_height i)) by exact HWH. split; [reflexivity|]. apply Z.mod_small. lia.
  Qed.
End Report.

(** The exit status of the program.  Success means that help was asked for, or that the file is a
    recording and either something was described or no topic is compressed. *)
Theorem C81_status ft help file : (forall rec, file = Some (mkInput true true (Some rec)) -> well_formed rec /\ forall m, first_compressed rec m -> 4 <= zlen (m_data m)) ->
  exists status r, inspector_main ft help file = Ok (status, r) /\ (status = 0 \/ status = 1 /\ r = None) /\
    (status = 0 -> help = true \/ exists rec, file = Some (mkInput true true (Some rec)) /\ (r <> None \/ ~ compressed_topic rec)).
Proof.
  intros HF. unfold inspector_main. destruct help; [exists 0, None; split; [reflexivity|]; split; auto|].
  destruct file as [[[|] [|] [rec|]]|]; cbn [in_mcap in_exists in_rec negb]; try (exists 1, None; split; [reflexivity|]; split; [auto|discriminate]).
  destruct (HF rec eq_refl) as [W H4]. destruct (C81_inspect ft rec W H4) as (status & r & E & HN & HS). exists status, r. split; [exact E|]. destruct r as [p|].
  - destruct (HS p eq_refl) as [-> _]. split; [now left|]. intros _. right. exists rec. split; [reflexivity|]. left. discriminate.
  - destruct (HN eq_refl) as [[-> NT]|(-> & T & _)]; (split; [auto|]); [|discriminate]. intros _. right. exists rec. split; [reflexivity|]. now right.
Qed.

(** * Concrete cases *)
From Verif Require Import FloatText Cases.
Definition on_topic (payload : list Z) : recording :=
  mkRec [mkSchema 1 (str "std_msgs/msg/String"%string) (str "ros2msg"%string) [1]; mkSchema 2 compressed_schema_name (str "ros2msg"%string) [2]]
    [mkChannel 1 (str "/chatter"%string) (str "cdr"%string) 1 []; mkChannel 5 (str "/points"%string) (str "cdr"%string) 2 []] [mkMsg 1 0 10 10 [1; 2]; mkMsg 5 0 11 11 payload] [] [].
Lemma on_topic_wf payload : well_formed (on_topic payload).
Proof. unfold well_formed, on_topic. cbn [rc_schemas rc_channels rc_messages map s_id ch_id]. split; [nodup|]. split; [nodup|]. split; [reflexivity|]. split; [reflexivity|]. split; intros x [<-|[<-|[]]]; cbn; auto. Qed.
Lemma on_topic_first payload : first_compressed (on_topic payload) (mkMsg 5 0 11 11 payload).
Proof.
  exists [mkMsg 1 0 10 10 [1; 2]], []. split; [reflexivity|]. split; [eexists; split; reflexivity|]. constructor; [|constructor]. intros (x & D & E).
  pose (X := mkSeen (str "/chatter"%string) (str "cdr"%string) (str "std_msgs/msg/String"%string) (str "ros2msg"%string) [1] 0 10 10 [1; 2]). change (Some X = Some x) in D. assert (EX : X = x) by congruence.
  rewrite <- EX in E. vm_compute in E. discriminate E.
Qed.
Definition payload_of (c : ros_cloud) (i : info) : list Z := match convertPointCloud2ToCompressedCloud gnu_text sse_ops store_libs 2 4096 c i with Ok m => m | _ => [] end.
Definition scan_payload : list Z := Eval vm_compute in payload_of (msg_cloud LITTLE) (scan 5 3 COMP_NONE).
(** The hypotheses of C81_report are met by a scan of three points. *)
Example C81_case : well_formed (on_topic scan_payload) /\ first_compressed (on_topic scan_payload) (mkMsg 5 0 11 11 scan_payload) /\
  convertPointCloud2ToCompressedCloud gnu_text sse_ops store_libs 2 4096 (msg_cloud LITTLE) (scan 5 3 COMP_NONE) = Ok scan_payload /\ r_data (msg_cloud LITTLE) <> [] /\ zlen scan_payload < 4294967296 /\
  exists p, inspect gnu_text (on_topic scan_payload) = Ok (0, Some p) /\ p_topic p = str "/points"%string /\ p_points p = 3 /\ p_bytes p = 96 /\ hd [] (map l_resolution (p_fields p)) = str "0.001"%string.
Proof.
  split; [apply on_topic_wf|]. split; [apply on_topic_first|]. split; [vm_compute; reflexivity|]. split; [vm_compute; discriminate|]. split; [vm_compute; reflexivity|].
  eexists. split; [vm_compute; reflexivity|]. split; [reflexivity|]. split; [reflexivity|]. split; reflexivity.
Qed.
Definition bare (v : list Z) : list Z := match writePointCloudHeader (mkRos (mkCdr LITTLE PLAIN_CDR DDS_CDR) 0 0 [] 1 1 [] 4 4 [] 1) (cdr_begin (mkCdr LITTLE PLAIN_CDR DDS_CDR)) with Ok s => enc_num (mkCdr LITTLE PLAIN_CDR DDS_CDR) 1 1 (s ++ le_bytes 4 (zlen v) ++ v) | _ => [] end.
Definition header_of (i : info) : list Z := match EncodeHeader gnu_text i HYaml with Ok h => h | _ => [] end.
Definition big_info : info := mkInfo [mkField [120] 0 FLOAT32 (Some f32_one)] 65536 32768 16 ENC_LOSSY [] COMP_NONE true 5.
Definition big_payload : list Z := Eval vm_compute in bare (header_of big_info).
(** A cloud of 2^31 points of 16 bytes is described as one of 0 bytes. *)
Theorem C81_bytes_refuted : exists rec i rest p, well_formed rec /\ getDeserializedPointCloudMessage big_payload <> Throw /\ first_compressed rec (mkMsg 5 0 11 11 big_payload) /\
  DecodeHeader gnu_text (header_of big_info) = Ok (i, rest) /\ i_width i * i_height i * i_step i = 2 ^ 35 /\ inspect gnu_text rec = Ok (0, Some p) /\ p_bytes p = 0.
Proof.
  exists (on_topic big_payload), big_info, []. eexists. split; [apply on_topic_wf|]. split; [vm_compute; discriminate|]. split; [apply on_topic_first|]. split; [vm_compute; reflexivity|]. split; [reflexivity|]. split; [vm_compute; reflexivity|]. reflexivity.
Qed.
Definition plain_info (r : option Z) : info := mkInfo [mkField [120] 0 FLOAT32 r] 1 1 4 ENC_LOSSY [] COMP_NONE true 5.
(** The list of fields does not tell a field without resolution from one with resolution 1. *)
Theorem C81_resolution_refuted : exists p q, inspect gnu_text (on_topic (bare (header_of (plain_info None)))) = Ok (0, Some p) /\ inspect gnu_text (on_topic (bare (header_of (plain_info (Some f32_one))))) = Ok (0, Some q) /\
  p_fields p = p_fields q /\ p_yaml p <> p_yaml q.
Proof. eexists _, _. split; [vm_compute; reflexivity|]. split; [vm_compute; reflexivity|]. split; [reflexivity|]. cbn [p_yaml]. discriminate. Qed.
(** An empty cloud has no header: if the first message is one, the program fails although later
    messages could be described. *)
Definition empty_payload : list Z := Eval vm_compute in payload_of (mkRos (mkCdr LITTLE PLAIN_CDR DDS_CDR) 0 0 [] 1 0 [plain_field (mkField [120] 0 FLOAT32 None)] 4 0 [] 1) (plain_info None).
Theorem C81_empty_refuted : getDeserializedPointCloudMessage empty_payload <> Throw /\ 4 <= zlen empty_payload /\ inspect gnu_text (on_topic empty_payload) = Ok (1, None).
Proof. split; [vm_compute; discriminate|]. split; [vm_compute; discriminate|]. vm_compute. reflexivity. Qed.
(** A message shorter than a CDR header is read beyond its end. *)
Theorem C81_short_refuted : inspect gnu_text (on_topic [0; 1]) = UB.
Proof. vm_compute. reflexivity. Qed.
Print Assumptions C81_inspect.
Print Assumptions C81_report.
Print Assumptions C81_status.
Print Assumptions C81_bytes_refuted.
Print Assumptions C81_resolution_refuted.
Print Assumptions C81_empty_refuted.
Print Assumptions C81_short_refuted.
