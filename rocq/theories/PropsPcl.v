(** C56, C57: PCL clouds. *)
From Verif Require Import Base BaseFacts Types Floats V5 Api Spec LibSpec Header Pcl HostileFacts CloudFacts RoundTrip LocalFacts CloudApi PropsStage1 PropsCloud PropsFit PropsHeader FloatText Cases ApiFacts.
From Coq Require Import String.
Notation length := List.length.
Notation concat := List.concat.
Open Scope Z_scope.
Open Scope list_scope.

(** ** Specification *)
(** The cloud is complete: [width * height] points of [point_step] bytes, sizes in 32 bits. *)
Definition complete (w h step : Z) (data : list Z) : Prop := 0 <= w /\ 0 <= h /\ zlen data = w * h * step /\ zlen data < 4294967296.
(** C30's condition: the resolution survives its text form. *)
Definition exact_resolutions (ft : float_text) (i : info) : Prop :=
  Forall (fun f => match f_res f with Some r => ft_parse ft (ft_print ft r) = Some r | None => True end) (i_fields i).
(** Field names, the configuration text and the printed resolutions are strings of bytes. *)
Definition byte_texts (ft : float_text) (i : info) : Prop :=
  bytes (i_cfg i) /\ Forall (fun f => bytes (f_name f) /\ match f_res f with Some r => bytes (ft_print ft r) | None => True end) (i_fields i).

Lemma bytes_app a b : bytes a -> bytes b -> bytes (a ++ b).
Proof. intros. apply Forall_app. auto. Qed.
Lemma str_bytes s : bytes (str s).
Proof. unfold str. apply Forall_forall. intros x Hx. apply in_map_iff in Hx. destruct Hx as (c & <- & _). unfold is_byte. destruct c as [[] [] [] [] [] [] [] []]; cbn; lia. Qed.
Lemma dec_bytes v : bytes (dec_text v).
Proof.
  unfold dec_text. assert (G : forall k v acc, bytes acc -> bytes (dec_loop_digits k v acc)); [|apply G; constructor].
  induction k as [|k IH]; intros w acc H; cbn [dec_loop_digits]; [assumption|]. assert (B : bytes ((48 + w mod 10) :: acc)) by (constructor; [unfold is_byte; pose proof (Z.mod_pos_bound w 10 ltac:(lia)); lia|assumption]).
  cbv zeta. destruct (w <? 10); [exact B|now apply IH].
Qed.
Lemma header_bytes ft i hdr : 0 <= i_version i < 256 -> byte_texts ft i -> EncodeHeader ft i HYaml = Ok hdr -> bytes hdr.
Proof.
  intros HV [HC HF] H. cbn [EncodeHeader] in H. assert (E : hdr = magic_version (i_version i) ++ nl ++ EncodingInfoToYAML ft i ++ [0]) by congruence. rewrite E. clear E H.
  assert (NL : bytes nl) by (constructor; [unfold is_byte; lia|constructor]).
  apply bytes_app; [|apply bytes_app; [exact NL|apply bytes_app; [|constructor; [unfold is_byte; lia|constructor]]]].
  - unfold magic_version. apply bytes_app; [apply bytesb; reflexivity|]. pose proof (Z.mod_pos_bound (i_version i) 10 ltac:(lia)). assert (0 <= i_version i / 10 < 26) by (split; [apply Z.div_pos; lia|apply Z.div_lt_upper_bound; lia]).
    constructor; [unfold is_byte; lia|]. constructor; [unfold is_byte; lia|constructor].
  - unfold EncodingInfoToYAML, EncodingToString, CompressionToString.
    repeat (apply bytes_app; [first [apply str_bytes | apply dec_bytes | exact NL]|]).
    apply bytes_app.
    { destruct (i_cfg i) as [|c cfg]; [constructor|]. apply bytes_app; [apply str_bytes|]. apply bytes_app; [exact HC|exact NL]. }
    repeat (apply bytes_app; [first [apply str_bytes | apply dec_bytes | exact NL]|]).
    induction HF as [|f fs [Hn Hr] HF IH]; [constructor|]. cbn [map concat]. apply bytes_app; [|exact IH]. unfold field_yaml, FieldTypeToString.
    repeat (apply bytes_app; [first [apply str_bytes | apply dec_bytes | exact NL | exact Hn]|]).
    destruct (f_res f); repeat (apply bytes_app; [first [apply str_bytes | exact Hr]|]); exact NL.
Qed.
(** The texts of the GNU library are bytes. *)
Lemma fixed_bytes n v : bytes (fixed_digits n v).
Proof. revert v. induction n as [|n IH]; intros v; cbn [fixed_digits]; [constructor|]. apply bytes_app; [apply IH|]. constructor; [unfold is_byte; pose proof (Z.mod_pos_bound v 10 ltac:(lia)); lia|constructor]. Qed.
Lemma drop_zeros_bytes l : bytes l -> bytes (drop_zeros l).
Proof. induction 1 as [|x l Hx HF IH]; [constructor|]. cbn [drop_zeros]. destruct (x =? 48); [exact IH|]. now constructor. Qed.
Lemma fraction_bytes a b : bytes a -> bytes b -> bytes (with_fraction a b).
Proof.
  intros Ha Hb. unfold with_fraction. assert (HS : bytes (strip_zeros b)) by (unfold strip_zeros; apply Forall_rev, drop_zeros_bytes, Forall_rev; exact Hb).
  destruct (strip_zeros b); [exact Ha|]. apply bytes_app; [exact Ha|]. apply bytes_app; [|exact HS]. constructor; [unfold is_byte; lia|constructor].
Qed.
Lemma gnu_bytes r : bytes (ft_print gnu_text r).
Proof.
  cbn [ft_print gnu_text]. unfold print_g6. cbv zeta. assert (HS : bytes (if f32_neg r then [45] else [])) by (destruct (f32_neg r); [constructor; [unfold is_byte; lia|constructor]|constructor]).
  destruct (f32_expo r =? 255); [apply bytes_app; [exact HS|destruct (f32_mant r =? 0); apply str_bytes]|]. destruct (f32_frac r) as [num den]. destruct (num =? 0); [apply bytes_app; [exact HS|apply str_bytes]|].
  destruct (scale10 num den _) as [a c]. destruct (if round_div a c =? 1000000 then _ else _) as [d x]. pose proof (fixed_bytes 6 d) as HD. set (ds := fixed_digits 6 d) in *. apply bytes_app; [exact HS|].
  assert (H1 : forall k, bytes (firstn k ds) /\ bytes (skipn k ds)) by (intros k; apply Forall_app; now rewrite firstn_skipn).
  destruct ((x <? -4) || (6 <=? x)).
  - apply bytes_app; [apply fraction_bytes; apply H1|]. apply bytes_app; [|apply fixed_bytes]. constructor; [unfold is_byte; lia|]. constructor; [unfold is_byte; destruct (x <? 0); lia|constructor].
  - destruct (0 <=? x); [apply fraction_bytes; apply H1|]. apply fraction_bytes; [constructor; [unfold is_byte; lia|constructor]|]. apply bytes_app; [|exact HD]. apply Forall_forall. intros y Hy. apply repeat_spec in Hy. subst y. unfold is_byte. lia.
Qed.

Lemma version_range ft i : yaml_header_info ft i -> 0 <= i_version i < 256.
Proof. intros (H & _). lia. Qed.

Section Pcl.
  Variables (ft : float_text) (ops : float_ops) (L : libs) (ppc probe : nat).
  Notation encode_with := (encode_with ft ops L ppc probe).

  (** What encode_with wrote *)
  Lemma encoded_stream i data out total out' : libs_ok L -> encode_side ppc i data -> 2 <= i_version i <= 5 -> byte_texts ft i -> bytes out -> encode_with i data out = (Ok total, out') ->
    exists hdr e body, EncodeHeader ft i HYaml = Ok hdr /\ encoder_of ops L ppc probe i (Ok hdr) e /\ produces ops L ppc probe e data hdr body /\ out' = hdr ++ body /\ total = zlen out'.
  Proof.
    intros HLi HES HV Hb Ho HE. unfold Pcl.encode_with in HE. destruct (EncodeHeader ft i HYaml) as [hdr| |] eqn:HH; cbn [bind] in HE; try discriminate. destruct (PointcloudEncoder i (Ok hdr)) as [e| |] eqn:HP; try discriminate.
    destruct (encode_vec ops L ppc probe e data out) as [[r o] e'] eqn:EV. assert (r = Ok total /\ o = out') as [-> ->] by (split; congruence).
    assert (HEo : encoder_of ops L ppc probe i (Ok hdr) e) by now constructor. destruct (encoder_of_ready _ _ _ _ _ _ _ HEo) as (HR & HI & Hh & _). assert (Hh' : hdr = e_hdr e) by congruence.
    destruct HES as (H1 & H2 & H3 & H4). rewrite <- HI in H1, H2, H3.
    destruct (encode_vec_chunks _ _ _ _ _ _ _ _ _ _ HR HLi H1 H2 H4 Ho ltac:(rewrite <- Hh'; apply (header_bytes ft i); [lia|assumption..]) ltac:(apply H3) (limits_v5 _ _ H3) EV) as (_ & _ & HS). destruct (HS total eq_refl) as (n & ms & bss & ps & _ & E1 & E2).
    exists hdr, e, (concat (map frame ps)). split; [reflexivity|]. split; [exact HEo|]. rewrite Hh'. split; [|auto].
    right. exists out, total, out', e'. split; [exact Ho|]. split; [exact EV|]. split; [exact E1|]. split; [now rewrite <- E1|reflexivity].
  Qed.
  Lemma stream_decodes i data out total out' n : libs_ok L -> encode_side ppc i data -> byte_texts ft i -> bytes out -> deltas_ok ops i ppc data ->
    yaml_header_info ft i -> exact_resolutions ft i -> zlen data = Z.of_nat n * i_step i ->
    encode_with i data out = (Ok total, out') -> zlen out' < 1431260227 ->
    exists rest, DecodeHeader ft out' = Ok (stored_yaml (i_fields i) i, rest) /\
      forall i' buf mem, decode_side i i' -> declares i' n -> Z.of_nat n * i_step i' <= zlen mem ->
        ((exists buf' mem', decode ops L ppc i' rest buf mem = Ok (buf', mem') /\ restored ops i i' n data mem mem') \/ decode ops L ppc i' rest buf mem = Throw) /\
        (i_comp i = COMP_ZSTD -> tight_chunk i (Z.of_nat (Nat.min n ppc)) <= Z.of_nat n * i_step i' -> Z.of_nat n * i_step i' <= 2147483647 ->
           exists buf' mem', decode ops L ppc i' rest buf mem = Ok (buf', mem') /\ restored ops i i' n data mem mem').
  Proof.
    intros HLi HES Hb Ho HD HY HX Hlen HE Hz. destruct (encoded_stream _ _ _ _ _ HLi HES ltac:(apply HY) Hb Ho HE) as (hdr & e & body & HH & HEo & HPr & -> & _).
    destruct (C30_yaml_header_exact ft i body HY HX) as (hdr' & HH' & HDH). assert (hdr' = hdr) by congruence. subst hdr'. exists body. split; [exact HDH|].
    assert (Hbody : zlen body < 1431260227). { rewrite zlen_app in Hz. pose proof (zlen_nonneg hdr). lia. }
    intros i' buf mem HDS Hdec Hmem. split.
    - exact (C17_never_wrong ops L ppc probe i i' hdr e data hdr body n buf mem HLi (header_bytes ft i hdr (version_range ft i HY) Hb HH) HES HDS HD HEo HPr Hbody Hlen Hdec Hmem).
    - intros EC HC1 HC2. exact (C17_roundtrip_fits ops L ppc probe i i' hdr e data hdr body n buf mem HLi (header_bytes ft i hdr (version_range ft i HY) Hb HH) HES HDS HD HEo HPr (or_intror EC) Hbody Hlen Hdec Hmem HC1 HC2).
  Qed.
  Lemma resize_zlen k l : 0 <= k -> zlen (resize k l) = k.
  Proof. intros H. unfold resize, zlen. rewrite app_length, firstn_length, repeat_length. lia. Qed.

  (** * C56: pcl::PCLPointCloud2 *)
  (** [c2] is the decoded cloud: dimensions, step and fields of [c], and the points restored as by
      encode/decode; the header of the target cloud [c0] is untouched, bytes that belong to no field
      keep what the target's storage held. *)
  Definition pcl_restored (i : info) (c c0 c2 : pcl_cloud) : Prop :=
    pc_header c2 = pc_header c0 /\ pc_width c2 = pc_width c /\ pc_height c2 = pc_height c /\ pc_step c2 = pc_step c /\
    pc_row c2 = (pc_width c * pc_step c) mod 2 ^ 32 /\ pc_big c2 = false /\ pc_dense c2 = true /\
    map pf_name (pc_fields c2) = map pf_name (pc_fields c) /\ map pf_off (pc_fields c2) = map pf_off (pc_fields c) /\
    map pf_type (pc_fields c2) = map pf_type (pc_fields c) /\ Forall (fun f => pf_count f = 1) (pc_fields c2) /\
    restored ops i i (length (pc_data c) / Z.to_nat (pc_step c)) (pc_data c) (resize (zlen (pc_data c)) (pc_data c0)) (pc_data c2).
  Theorem C56_pcl_roundtrip c resolution out total out' c0 : let i := ConvertToEncodingInfo c resolution in
    libs_ok L -> complete (pc_width c) (pc_height c) (pc_step c) (pc_data c) -> Forall (fun f => 1 <= pf_type f <= 8) (pc_fields c) ->
    encode_side ppc i (pc_data c) -> decode_side i i -> deltas_ok ops i ppc (pc_data c) -> yaml_header_info ft i -> exact_resolutions ft i -> byte_texts ft i -> bytes out ->
    PCLPointCloudEncode ft ops L ppc probe c resolution out = (Ok total, out') ->
    total = zlen out' /\ (zlen out' < 1431260227 ->
      ((exists c2, PCLPointCloudDecode ft ops L ppc out' c0 = Ok c2 /\ pcl_restored i c c0 c2) \/ PCLPointCloudDecode ft ops L ppc out' c0 = Throw) /\
      (let n := (length (pc_data c) / Z.to_nat (pc_step c))%nat in
       tight_chunk i (Z.of_nat (Nat.min n ppc)) <= zlen (pc_data c) -> zlen (pc_data c) <= 2147483647 ->
       exists c2, PCLPointCloudDecode ft ops L ppc out' c0 = Ok c2 /\ pcl_restored i c c0 c2)).
  Proof.
    intros i HLi (Hw & Hh & Hsz & Hz32) HT HES HDS HD HY HX Hb Ho HE. unfold PCLPointCloudEncode in HE. fold i in HE. set (data := pc_data c) in *. set (n := (length data / Z.to_nat (pc_step c))%nat).
    split; [destruct (encoded_stream _ _ _ _ _ HLi HES ltac:(apply HY) Hb Ho HE) as (_ & _ & _ & _ & _ & _ & _ & Ht); exact Ht|]. intros Hz.
    assert (Hpos : 0 < pc_step c) by apply HES. pose proof (zlen_nonneg data) as N0.
    assert (Hn : Z.of_nat n = pc_width c * pc_height c). { unfold n. rewrite Nat2Z.inj_div, Z2Nat.id by lia. fold (zlen data). rewrite Hsz. apply Z.div_mul. lia. }
    assert (Hlen : zlen data = Z.of_nat n * i_step i) by (rewrite Hn; exact Hsz).
    destruct (stream_decodes i data out total out' n HLi HES Hb Ho HD HY HX Hlen HE Hz) as (rest & HDH & HR).
    assert (HU : u32 (u32 (pc_width c * pc_height c) * pc_step c) = zlen data). { unfold u32. rewrite (Z.mod_small (pc_width c * pc_height c)) by nia. rewrite <- Hsz. apply Z.mod_small. lia. }
    destruct (HR (stored_yaml (i_fields i) i) [] (resize (zlen data) (pc_data c0))) as [HR1 HR2]; clear HR.
    { exact HDS. } { unfold declares. cbn [stored_yaml i_width i_height]. change (i_width i) with (pc_width c). change (i_height i) with (pc_height c). rewrite Hn. apply Z.mod_small. nia. }
    { rewrite resize_zlen by lia. change (i_step (stored_yaml (i_fields i) i)) with (i_step i). lia. }
    assert (HDc : PCLPointCloudDecode ft ops L ppc out' c0 = do '(_, mem) <- decode ops L ppc (stored_yaml (i_fields i) i) rest [] (resize (zlen data) (pc_data c0)) ;
      Ok (mkPC (pc_header c0) (pc_height c) (pc_width c) (map pcl_field_of (i_fields i)) false (pc_step c) (u32 (pc_width c * pc_step c)) mem true)).
    { unfold PCLPointCloudDecode. rewrite HDH. cbn [bind]. cbv zeta. cbn [stored_yaml i_width i_height i_step i_fields]. change (i_width i) with (pc_width c). change (i_height i) with (pc_height c). change (i_step i) with (pc_step c). rewrite HU. reflexivity. }
    assert (FIN : (exists buf' mem', decode ops L ppc (stored_yaml (i_fields i) i) rest [] (resize (zlen data) (pc_data c0)) = Ok (buf', mem') /\ restored ops i (stored_yaml (i_fields i) i) n data (resize (zlen data) (pc_data c0)) mem') ->
      exists c2, PCLPointCloudDecode ft ops L ppc out' c0 = Ok c2 /\ pcl_restored i c c0 c2).
    { intros (buf' & mem' & E1 & E2). rewrite HDc, E1. cbn [bind]. eexists. split; [reflexivity|]. unfold pcl_restored. cbn [pc_header pc_width pc_height pc_step pc_row pc_big pc_dense pc_fields pc_data].
      do 7 (split; [reflexivity|]). unfold i at 1 2 3 4, ConvertToEncodingInfo, default_info. cbn [i_fields]. rewrite !map_map. cbn [pf_name pf_off pf_type pcl_field_of pcl_point_field f_name f_off f_type].
      do 2 (split; [reflexivity|]). split; [|split; [apply Forall_forall; intros f Hf; apply in_map_iff in Hf; destruct Hf as (x & <- & _); reflexivity|exact E2]].
      apply map_ext_in. intros f Hf. rewrite Forall_forall in HT. apply HT in Hf. unfold pcl_field_of, pcl_point_field. cbn [pf_type f_type]. assert (K : pf_type f = 1 \/ pf_type f = 2 \/ pf_type f = 3 \/ pf_type f = 4 \/ pf_type f = 5 \/ pf_type f = 6 \/ pf_type f = 7 \/ pf_type f = 8) by lia.
      destruct K as [K|[K|[K|[K|[K|[K|[K|K]]]]]]]; rewrite K; reflexivity. }
    split.
    - destruct HR1 as [HR1|HR1]; [left; now apply FIN|right]. rewrite HDc, HR1. reflexivity.
    - intros n0 HC1 HC2. change n0 with n in HC1. apply FIN, HR2; [reflexivity| |]; change (i_step (stored_yaml (i_fields i) i)) with (i_step i); rewrite <- Hlen; assumption.
  Qed.

  (** * C57: pcl::PointCloud<PointT> *)
  (** Where PointT keeps the member called [name]; all its members are FLOAT32. *)
  Definition member_of (t : point_type) (name : list Z) : option Z := find_offset (pt_fields t) name.
  (** The header's fields, each at its place in PointT or skipped. *)
  Definition placed (t : point_type) (f : field) : field := mkField (f_name f) (match member_of t (f_name f) with Some o => o | None => kSkip end) (f_type f) (f_res f).
  Definition view_as (t : point_type) (i : info) : info := mkInfo (map (placed t) (i_fields i)) (i_width i) (i_height i) (i_step i) (i_enc i) (i_cfg i) (i_comp i) true (i_version i).
  Definition types_agree (t : point_type) (f : field) : Prop := member_of t (f_name f) <> None -> f_type f = FLOAT32.
  Lemma adapt_ok t fs : Forall (types_agree t) fs -> adapt t fs = Ok (map (placed t) fs).
  Proof.
    induction 1 as [|f fs Hf HF IH]; [reflexivity|]. cbn [adapt map]. unfold placed at 1. unfold types_agree, member_of in *. destruct (find_offset (pt_fields t) (f_name f)) as [o|].
    - rewrite Hf by discriminate. cbn [is_float32 bind]. rewrite IH. reflexivity.
    - cbn [bind]. rewrite IH. reflexivity.
  Qed.
  Lemma adapt_bad t fs : ~ Forall (types_agree t) fs -> adapt t fs = Throw.
  Proof.
    induction fs as [|f fs IH]; intros H; [exfalso; apply H; constructor|]. cbn [adapt].
    assert (D : types_agree t f \/ ~ types_agree t f). { unfold types_agree, member_of. destruct (find_offset (pt_fields t) (f_name f)); [|left; congruence]. destruct (f_type f); first [left; reflexivity | right; intros K; discriminate (K ltac:(discriminate))]. }
    destruct D as [D|D].
    - assert (E : exists o, (match find_offset (pt_fields t) (f_name f) with Some o => if is_float32 (f_type f) then Ok o else Throw | None => Ok kSkip end) = Ok o).
      { unfold types_agree, member_of in D. destruct (find_offset _ _); [|eauto]. rewrite D by discriminate. cbn. eauto. }
      destruct E as (o & ->). cbn [bind]. rewrite IH; [reflexivity|]. intros K. apply H. now constructor.
    - unfold types_agree, member_of in D. destruct (find_offset _ _) as [o|]; [|exfalso; apply D; congruence]. destruct (f_type f) eqn:E; try reflexivity. exfalso. apply D. reflexivity.
  Qed.
  (** A header field with the name of a member of PointT and another type: always rejected. *)
  Theorem C57_type_mismatch t stream i rest c0 : DecodeHeader ft stream = Ok (i, rest) -> Exists (fun f => member_of t (f_name f) <> None /\ f_type f <> FLOAT32) (i_fields i) ->
    PointcloudDecode ft ops L ppc t stream c0 = Throw.
  Proof.
    intros HD HE. unfold PointcloudDecode. rewrite HD. cbn [bind]. rewrite adapt_bad; [reflexivity|]. intros K. rewrite Exists_exists in HE. destruct HE as (f & Hf & H1 & H2). rewrite Forall_forall in K. apply H2, (K f Hf H1).
  Qed.
  (** A stream whose points are as large as PointT, decoded into a pcl::PointCloud<PointT>: every
      member of PointT that is a field of the stream has, in every point, the value encode/decode
      gives it, all other bytes of the points keep what the points held. *)
  Theorem C57_typed_decode t i data out total out' c0 : let i' := view_as t i in let n := (length data / Z.to_nat (i_step i))%nat in
    libs_ok L -> complete (i_width i) (i_height i) (i_step i) data -> i_comp i = COMP_ZSTD ->
    encode_side ppc i data -> decode_side i i' -> deltas_ok ops i ppc data -> yaml_header_info ft i -> exact_resolutions ft i -> byte_texts ft i -> bytes out ->
    i_step i = pt_size t -> Forall (types_agree t) (i_fields i) ->
    encode_with i data out = (Ok total, out') -> zlen out' < 1431260227 ->
    let good := exists c2, PointcloudDecode ft ops L ppc t out' c0 = Ok c2 /\ pt_width c2 = i_width i /\ pt_height c2 = i_height i /\
      restored ops i i' n data (resize (zlen data) (pt_points c0)) (pt_points c2) in
    (good \/ PointcloudDecode ft ops L ppc t out' c0 = Throw) /\
    (tight_chunk i (Z.of_nat (Nat.min n ppc)) <= zlen data -> zlen data <= 2147483647 -> good).
  Proof.
    intros i' n HLi (Hw & Hh & Hsz & Hz32) HZ HES HDS HD HY HX Hb Ho Hst HT HE Hz good.
    assert (Hpos : 0 < i_step i) by apply HES. pose proof (zlen_nonneg data) as N0.
    assert (Hn : Z.of_nat n = i_width i * i_height i). { unfold n. rewrite Nat2Z.inj_div, Z2Nat.id by lia. fold (zlen data). rewrite Hsz. apply Z.div_mul. lia. }
    assert (Hlen : zlen data = Z.of_nat n * i_step i) by (rewrite Hn; exact Hsz).
    destruct (stream_decodes i data out total out' n HLi HES Hb Ho HD HY HX Hlen HE Hz) as (rest & HDH & HR).
    destruct (HR i' [] (resize (zlen data) (pt_points c0))) as [HR1 HR2]; clear HR.
    { exact HDS. } { unfold declares, i', view_as. cbn [i_width i_height]. rewrite <- Hn. apply Z.mod_small. assert (Z.of_nat n <= zlen data) by (rewrite Hlen; nia). lia. }
    { rewrite resize_zlen by lia. change (i_step i') with (i_step i). lia. }
    assert (HDc : PointcloudDecode ft ops L ppc t out' c0 = do '(_, mem) <- decode ops L ppc i' rest [] (resize (zlen data) (pt_points c0)) ; Ok (mkPt (i_width i) (i_height i) mem)).
    { unfold PointcloudDecode. rewrite HDH. cbn [bind stored_yaml i_fields]. rewrite adapt_ok by exact HT. cbn [bind]. cbv zeta. cbn [stored_yaml i_width i_height i_step i_enc i_cfg i_comp i_threads i_version].
      replace (u32 (i_width i * i_height i) * pt_size t) with (zlen data); [reflexivity|]. unfold u32. assert (Z.of_nat n <= zlen data) by (rewrite Hlen; nia). rewrite Z.mod_small by lia. rewrite <- Hst. exact Hsz. }
    assert (FIN : (exists buf' mem', decode ops L ppc i' rest [] (resize (zlen data) (pt_points c0)) = Ok (buf', mem') /\ restored ops i i' n data (resize (zlen data) (pt_points c0)) mem') -> good).
    { intros (buf' & mem' & E1 & E2). unfold good. rewrite HDc, E1. cbn [bind]. eexists. split; [reflexivity|]. auto. }
    split.
    - destruct HR1 as [HR1|HR1]; [left; now apply FIN|right]. rewrite HDc, HR1. reflexivity.
    - intros HC1 HC2. apply FIN, HR2; [exact HZ| |]; change (i_step i') with (i_step i); rewrite <- Hlen; assumption.
  Qed.

  (** * C57: PointXYZ and PointXYZI clouds always come back *)
  (** A usable resolution: positive or NaN as a float, with a text that YAML carries and that is read
      back as the same float. *)
  Definition usable_resolution (r : Z) : Prop :=
    f32_le0 r = false /\ yaml_safe (ft_print ft r) /\ ft_print ft r <> str "null" /\ ft_parse ft (ft_print ft r) = Some r /\ bytes (ft_print ft r).
  Theorem C57_point_roundtrip t c resolution out total out' c0 : t = xyz \/ t = xyzi ->
    let i := pt_info t (pt_width c) (pt_height c) (narrow resolution) in
    libs_ok L -> (0 < ppc)%nat -> Z.of_nat ppc <= 65535 ->
    complete (pt_width c) (pt_height c) (pt_size t) (pt_points c) -> pt_width c < 2 ^ 32 -> pt_height c < 2 ^ 32 -> bytes (pt_points c) -> zlen (pt_points c) <= 2147483647 ->
    usable_resolution (narrow resolution) -> bytes out ->
    PointcloudEncode ft ops L ppc probe t c resolution out = (Ok total, out') ->
    total = zlen out' /\ (zlen out' < 1431260227 ->
      exists c2, PointcloudDecode ft ops L ppc t out' c0 = Ok c2 /\ pt_width c2 = pt_width c /\ pt_height c2 = pt_height c /\
        restored ops i i (length (pt_points c) / Z.to_nat (pt_size t)) (pt_points c) (resize (zlen (pt_points c)) (pt_points c0)) (pt_points c2)).
  Proof.
    intros Ht i HLi Hp1 Hp2 HCm Hw Hh HB HM (HR0 & HR1 & HR2 & HR3 & HR4) Ho HE. unfold PointcloudEncode in HE. fold i in HE. destruct HCm as (Hw0 & Hh0 & Hsz & Hz32).
    set (r := narrow resolution) in *. set (data := pt_points c) in *. change (2 ^ 32) with 4294967296 in *.
    assert (Hst : i_step i = pt_size t) by reflexivity. assert (Hs0 : 16 <= pt_size t <= 32) by (destruct Ht as [-> | ->]; cbn; lia).
    assert (Hof : bytes (resize (zlen data + 1024) out)). { unfold resize. apply bytes_app; [|apply Forall_forall; intros x Hx; apply repeat_spec in Hx; subst x; unfold is_byte; lia]. apply Forall_forall. intros x Hx. apply (proj1 (Forall_forall _ _) Ho). rewrite <- (firstn_skipn (Z.to_nat (zlen data + 1024)) out). apply in_or_app. now left. }
    assert (HES : encode_side ppc i data).
    { split; [split; [rewrite Hst; lia|destruct Ht as [-> | ->]; cbn; repeat constructor; cbn; lia]|]. split; [exact I|]. split; [|exact HB]. split; [exact Hp1|]. split; [exact Hp2|]. destruct Ht as [-> | ->]; vm_compute; discriminate. }
    assert (EI : view_as t i = i) by (destruct Ht as [-> | ->]; reflexivity).
    assert (HDS : decode_side i (view_as t i)).
    { rewrite EI. destruct Ht as [-> | ->]; (split; [split; [unfold i; cbn; repeat constructor|split; reflexivity]|]; split; [split; [cbn; lia|unfold i; cbn; repeat constructor; cbn; lia]|]; split; [left; unfold i; cbn; repeat constructor; cbn; lia|]; split; [unfold resolutions_ok, i; cbn; repeat constructor; cbn; assumption|]; split; [unfold ints_stored, i; cbn; repeat constructor|split; [reflexivity|vm_compute; discriminate]]). }
    assert (HD : deltas_ok ops i ppc data).
    { assert (G : forall f k, f_type f = FLOAT32 -> match k with KN _ | KId => True | _ => False end -> deltas_ok_field ops i ppc data f k). { intros f k Hf Hk j v _ Hv. exfalso. unfold coded_value in Hv. rewrite Hf in Hv. destruct k; try contradiction; discriminate. }
      destruct Ht as [-> | ->]; unfold deltas_ok; cbn; repeat constructor; apply G; cbn; auto. }
    assert (HT : Forall (types_agree t) (i_fields i)) by (destruct Ht as [-> | ->]; cbn; repeat constructor; intros _; reflexivity).
    assert (HX : exact_resolutions ft i) by (destruct Ht as [-> | ->]; cbn; repeat constructor; assumption).
    assert (Hby : byte_texts ft i). { split; [constructor|]. destruct Ht as [-> | ->]; cbn; repeat constructor; try assumption; cbn; unfold is_byte; lia. }
    assert (HYf : Forall (yaml_header_field ft) (i_fields i)).
    { assert (G : forall n o rr, safeb n = true -> 0 <= o < 4294967296 -> (rr = Some r \/ rr = None) -> yaml_header_field ft (mkField n o FLOAT32 rr)).
      { intros n o rr Hn Hoo Hrr. split; [now apply safeb_ok|]. split; [cbn [f_off]; change (2 ^ 32) with 4294967296; lia|]. split; [exact I|]. cbn [f_res]. destruct Hrr as [-> | ->]; [|exact I]. split; [assumption|]. split; [assumption|]. rewrite HR3. discriminate. }
      destruct Ht as [-> | ->]; unfold i; cbn -[yaml_header_field]; repeat (apply Forall_cons; [apply G; [reflexivity|lia|auto]|]); apply Forall_nil. }
    assert (HY : yaml_header_info ft i).
    { unfold yaml_header_info. split; [split; vm_compute; discriminate|]. change (2 ^ 32) with 4294967296. split; [cbn; lia|]. split; [cbn; lia|]. split; [rewrite Hst; lia|]. split; [exact I|]. split; [exact I|]. split; [left; reflexivity|exact HYf]. }
    split; [destruct (encoded_stream _ _ _ _ _ HLi HES ltac:(apply HY) Hby Hof HE) as (_ & _ & _ & _ & _ & _ & _ & Htt); exact Htt|]. intros Hz.
    destruct (C57_typed_decode t i data _ total out' c0 HLi ltac:(repeat split; assumption) eq_refl HES HDS HD HY HX Hby Hof Hst HT HE Hz) as [_ G].
    rewrite EI in G. apply G; [|exact HM].
    set (n := (length data / Z.to_nat (i_step i))%nat).
    assert (Hn : Z.of_nat n * pt_size t = zlen data). { unfold n. rewrite Nat2Z.inj_div, Z2Nat.id by lia. fold (zlen data). rewrite Hst, Hsz, Z.div_mul by lia. reflexivity. }
    rewrite <- Hn. assert (HK : tight_point i <= pt_size t /\ 0 <= tight_point i /\ int_fields i = []) by (destruct Ht as [-> | ->]; vm_compute; repeat split; discriminate). destruct HK as (K1 & K2 & K3). unfold tight_chunk. rewrite K3. change (zlen (@nil field)) with 0. nia.
  Qed.
End Pcl.

(** * What goes wrong *)
(** A field with several elements: one remains, the others are lost without notice. *)
Definition pair_cloud : pcl_cloud := mkPC [] 1 1 [mkPF (str "v") 0 7 2] false 8 8 [0;0;128;63;0;0;0;64] true.
Theorem C56_count_refuted : exists c total out' c2, PCLPointCloudEncode gnu_text sse_ops store_libs 2 4096 c 0 [] = (Ok total, out') /\
  PCLPointCloudDecode gnu_text sse_ops store_libs 2 out' (mkPC [] 0 0 [] false 0 0 [] false) = Ok c2 /\
  map pf_count (pc_fields c) = [2] /\ map pf_count (pc_fields c2) = [1] /\ sub 4 4 (pc_data c) = [0;0;0;64] /\ sub 4 4 (pc_data c2) = [0;0;0;0].
Proof. exists pair_cloud. eexists _, _, _. split; [vm_compute; reflexivity|]. split; [vm_compute; reflexivity|]. vm_compute. repeat split. Qed.
(** A positive resolution below the range of float is accepted by the encoder and makes the stream
    undecodable. *)
Definition tiny : Z := 3859002664735258655.   (* 1e-50 *)
Definition point_cloud : pt_cloud := mkPt 2 1 [0;0;128;63;0;0;0;64;0;0;64;64;0;0;0;0;0;0;144;192;0;0;0;63;0;0;224;64;0;0;0;0].
Theorem C56_tiny_resolution_refuted : exists c resolution total out', f64_gt0 resolution = true /\
  PCLPointCloudEncode gnu_text sse_ops store_libs 2 4096 c resolution [] = (Ok total, out') /\
  PCLPointCloudDecode gnu_text sse_ops store_libs 2 out' (mkPC [] 0 0 [] false 0 0 [] false) = Throw.
Proof.
  exists (mkPC [] 1 2 [mkPF (str "x") 0 7 1; mkPF (str "y") 4 7 1; mkPF (str "z") 8 7 1] false 16 32 (pt_points point_cloud) true), tiny. eexists _, _. split; [reflexivity|]. split; [vm_compute; reflexivity|]. vm_compute. reflexivity.
Qed.
(** A stream of 16-byte points decoded as 32-byte points: no error, and the second point lies in the
    first one's bytes; the other way round is rejected. *)
Definition millimetre : Z := 4562254508917369340.   (* 0.001 *)
Definition half : Z := 4602678819172646912.   (* 0.5 *)
Theorem C57_step_refuted : exists c total out', PointcloudEncode gnu_text sse_ops store_libs 2 4096 xyz c half [] = (Ok total, out') /\ pt_width c * pt_height c = 2 /\
  exists good bad, PointcloudDecode gnu_text sse_ops store_libs 2 xyz out' (mkPt 0 0 []) = Ok good /\ PointcloudDecode gnu_text sse_ops store_libs 2 xyzi out' (mkPt 0 0 []) = Ok bad /\
    sub 16 12 (pt_points good) = sub 16 12 (pt_points c) /\ zlen (pt_points bad) = 64 /\ sub 32 12 (pt_points bad) = repeat 0 12 /\ sub 16 12 (pt_points bad) = sub 16 12 (pt_points c).
Proof. exists point_cloud. eexists _, _. split; [vm_compute; reflexivity|]. split; [reflexivity|]. eexists _, _. split; [vm_compute; reflexivity|]. split; [vm_compute; reflexivity|]. vm_compute. repeat split. Qed.
Theorem C57_larger_step_rejected : exists total out', PointcloudEncode gnu_text sse_ops store_libs 2 4096 xyzi (mkPt 1 1 (pt_points point_cloud)) millimetre [] = (Ok total, out') /\
  PointcloudDecode gnu_text sse_ops store_libs 2 xyz out' (mkPt 0 0 []) = Throw.
Proof. eexists _, _. split; [vm_compute; reflexivity|]. vm_compute. reflexivity. Qed.

(** *** The hypotheses are met *)
Example C57_case : libs_ok store_libs /\ complete (pt_width point_cloud) (pt_height point_cloud) (pt_size xyz) (pt_points point_cloud) /\ bytes (pt_points point_cloud) /\ usable_resolution gnu_text (narrow millimetre) /\
  exists total out', PointcloudEncode gnu_text sse_ops store_libs 2 4096 xyz point_cloud millimetre [] = (Ok total, out') /\ zlen out' < 1431260227.
Proof.
  split; [apply store_libs_ok|]. split; [repeat split; vm_compute; congruence|]. split; [apply bytesb; reflexivity|]. split.
  - split; [vm_compute; reflexivity|]. split; [apply safeb_ok; vm_compute; reflexivity|]. split; [vm_compute; discriminate|]. split; [vm_compute; reflexivity|]. apply gnu_bytes.
  - eexists _, _. split; [vm_compute; reflexivity|]. vm_compute. reflexivity.
Qed.
Definition scan_pcl : pcl_cloud :=
  mkPC [1;2;3] 1 2 [mkPF (str "x") 0 7 1; mkPF (str "y") 4 7 1; mkPF (str "z") 8 7 1; mkPF (str "t") 16 8 1] false 32 64 (pt_points point_cloud ++ pt_points point_cloud) true.
Example C56_case : let c := scan_pcl in let i := ConvertToEncodingInfo c millimetre in
  complete (pc_width c) (pc_height c) (pc_step c) (pc_data c) /\ Forall (fun f => 1 <= pf_type f <= 8) (pc_fields c) /\
  encode_side 2 i (pc_data c) /\ decode_side i i /\ deltas_ok sse_ops i 2 (pc_data c) /\ yaml_header_info gnu_text i /\ exact_resolutions gnu_text i /\ byte_texts gnu_text i /\
  tight_chunk i 2 <= zlen (pc_data c) /\ exists total out', PCLPointCloudEncode gnu_text sse_ops store_libs 2 4096 c millimetre [] = (Ok total, out') /\ zlen out' < 1431260227.
Proof.
  cbv zeta. split; [repeat split; vm_compute; congruence|]. split; [repeat constructor; cbn; lia|]. split.
  { split; [split; [reflexivity|repeat constructor; cbn; lia]|]. split; [exact I|]. split; [|apply bytesb; vm_compute; reflexivity]. split; [lia|]. split; [lia|vm_compute; discriminate]. }
  split.
  { split; [split; [repeat constructor|auto]|]. split; [split; [reflexivity|repeat constructor; cbn; lia]|]. split; [left; cbn; repeat constructor; cbn; lia|]. split; [repeat constructor|]. split; [repeat constructor|split; [reflexivity|vm_compute; discriminate]]. }
  split; [apply (deltas_okb_ok _ _ _ _ 2); [vm_compute; reflexivity|reflexivity|vm_compute; reflexivity]|]. split.
  { unfold yaml_header_info, scan_pcl, ConvertToEncodingInfo, default_info. cbn [i_version i_width i_height i_step i_enc i_comp i_cfg i_fields pc_width pc_height pc_step pc_fields]. change (2 ^ 32) with 4294967296. do 4 (split; [unfold kEncodingVersion; lia|]). split; [exact I|]. split; [exact I|]. split; [left; reflexivity|].
    assert (G : forall n o t, safeb n = true -> 0 <= o < 4294967296 -> (t = FLOAT32 \/ t = FLOAT64) -> yaml_header_field gnu_text (mkField n o t (if Codec.is_float32 t && f64_gt0 millimetre then Some (narrow millimetre) else None))).
    { intros n o t Hn Hoo Ht. split; [now apply safeb_ok|]. split; [cbn [f_off]; change (2 ^ 32) with 4294967296; lia|]. destruct Ht as [-> | ->]; (split; [exact I|]); [|exact I]. split; [apply safeb_ok; vm_compute; reflexivity|]. split; [vm_compute; discriminate|vm_compute; discriminate]. }
    cbn [map]. unfold pcl_point_field. cbn [pf_name pf_off pf_type pcl_type]. repeat (apply Forall_cons; [apply G; [reflexivity|lia|auto]|]); apply Forall_nil. }
  split; [cbn; repeat constructor; vm_compute; reflexivity|]. split; [split; [constructor|]; unfold scan_pcl, ConvertToEncodingInfo, default_info; cbn [i_fields map pc_fields]; repeat (apply Forall_cons; [split; [apply str_bytes|first [apply gnu_bytes | exact I]]|]); apply Forall_nil|]. split; [vm_compute; discriminate|].
  eexists _, _. split; [vm_compute; reflexivity|]. vm_compute. reflexivity.
Qed.
Print Assumptions C56_pcl_roundtrip.
Print Assumptions C56_count_refuted.
Print Assumptions C56_tiny_resolution_refuted.
Print Assumptions C57_type_mismatch.
Print Assumptions C57_typed_decode.
Print Assumptions C57_point_roundtrip.
Print Assumptions C57_step_refuted.
Print Assumptions C57_larger_step_rejected.
