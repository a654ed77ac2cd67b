(** C52, C58: the WebAssembly entry points. *)
From Verif Require Import Base BaseFacts Types Floats V5 Api Spec LibSpec Header Ros Wasm HostileFacts CloudFacts RoundTrip LocalFacts CloudApi PropsStage1 PropsCloud PropsBuffer PropsFit PropsHeader HeaderFacts YamlRT FloatText Cases ApiFacts Pcl PropsPcl Cdr PropsRos.
From Coq Require Import String.
Notation length := List.length.
Notation concat := List.concat.
Open Scope Z_scope.
Open Scope list_scope.

(** ** Specification *)
(** A function that was told its output may take [cap] bytes: it returns normally, a number up to
    [cap], and does not touch what lies behind. *)
Definition within (cap : Z) (out : list Z) (r : res Z * list Z) : Prop :=
  exists n, fst r = Ok n /\ 0 <= n <= cap /\ zlen (snd r) = zlen out /\ skipn (Z.to_nat cap) (snd r) = skipn (Z.to_nat cap) out.
(** The first [n] bytes of [s] are a stream an encoder for [i] produces for [data]. *)
Definition stream_of ft ops L ppc probe (i : info) (data : list Z) (n : Z) (s : list Z) : Prop :=
  exists hdr e body, EncodeHeader ft i HYaml = Ok hdr /\ encoder_of ops L ppc probe i (Ok hdr) e /\ produces ops L ppc probe e data hdr body /\
    firstn (Z.to_nat n) s = hdr ++ body /\ n = zlen (hdr ++ body).

Lemma wr_fits bs out : zlen bs <= zlen out -> wr 0 bs out = Ok (bs ++ skipn (length bs) out).
Proof. intros H. unfold wr. destruct (_ && _) eqn:E; [reflexivity|]. lia. Qed.
Lemma skipn_emit (bs out : list Z) cap : zlen bs <= cap -> skipn (Z.to_nat cap) (bs ++ skipn (length bs) out) = skipn (Z.to_nat cap) out.
Proof. intros H. unfold zlen in H. rewrite skipn_app, (skipn_all2 bs) by lia. cbn [app]. rewrite skipn_skipn. f_equal. lia. Qed.

Section Wasm.
  Variables (ft : float_text) (ops : float_ops) (L : libs) (ppc probe : nat).
  Local Notation stream_of := (stream_of ft ops L ppc probe).

  Lemma emit_within bs out cap : zlen bs <= cap -> cap <= zlen out -> cap < 4294967296 -> within cap out (emit bs out) /\ snd (emit bs out) = bs ++ skipn (length bs) out /\ fst (emit bs out) = Ok (zlen bs).
  Proof.
    intros H1 H2 H3. unfold emit. rewrite wr_fits by lia. cbn [fst snd]. assert (HU : u32 (zlen bs) = zlen bs) by (unfold u32; apply Z.mod_small; pose proof (zlen_nonneg bs); lia). rewrite HU.
    split; [|split; reflexivity]. exists (zlen bs). cbn [fst snd]. split; [reflexivity|]. pose proof (zlen_nonneg bs). split; [lia|]. split; [|now apply skipn_emit].
    unfold zlen in *. rewrite app_length, skipn_length. lia.
  Qed.
  Lemma zero_within out cap : 0 <= cap -> within cap out (Ok 0, out).
  Proof. intros H. exists 0. cbn. repeat split; lia. Qed.

  Lemma ctor_defined i hdr : PointcloudEncoder i (Ok hdr) <> UB.
  Proof. unfold PointcloudEncoder. cbn [bind]. destruct (UsesV5Codec i); [discriminate|]. apply bind_not_UB; [apply v4_encoders_defined|discriminate]. Qed.
  (** what the two branches of the encoders leave *)
  Lemma vec_stream i data e hdr r buf e' : libs_ok L -> encode_side ppc i data -> bytes hdr -> EncodeHeader ft i HYaml = Ok hdr -> PointcloudEncoder i (Ok hdr) = Ok e ->
    encode_vec ops L ppc probe e data [] = (r, buf, e') -> r <> UB /\ forall n, r = Ok n -> n = zlen buf /\ stream_of i data n buf.
  Proof.
    intros HLi HES Hb HH HP EV. assert (HEo : encoder_of ops L ppc probe i (Ok hdr) e) by now constructor. destruct (encoder_of_ready _ _ _ _ _ _ _ HEo) as (HR & HI & Hh & _). assert (Hh' : hdr = e_hdr e) by congruence.
    destruct HES as (H1 & H2 & H3 & H4). rewrite <- HI in H1, H2, H3.
    destruct (encode_vec_chunks _ _ _ _ _ _ _ _ _ _ HR HLi H1 H2 H4 ltac:(constructor) ltac:(rewrite <- Hh'; exact Hb) ltac:(apply H3) (limits_v5 _ _ H3) EV) as (HU & _ & HS). split; [exact HU|].
    intros n ->. destruct (HS n eq_refl) as (m & ms & bss & ps & _ & E1 & E2). split; [exact E2|].
    exists hdr, e, (concat (map frame ps)). split; [exact HH|]. split; [exact HEo|]. rewrite Hh'. split; [|split].
    - right. exists [], n, buf, e'. split; [constructor|]. split; [exact EV|]. split; [exact E1|]. split; [now rewrite <- E1|reflexivity].
    - rewrite <- E1. apply firstn_all2. unfold zlen in E2. lia.
    - rewrite <- E1. exact E2.
  Qed.
  Lemma view_stream i data e hdr out r mem e' : libs_ok L -> encode_side ppc i data -> bytes hdr -> EncodeHeader ft i HYaml = Ok hdr -> PointcloudEncoder i (Ok hdr) = Ok e -> bytes out ->
    encode_view ops L ppc probe e data out true = (r, mem, e') -> r <> UB /\ length mem = length out /\ forall n, r = Ok n -> 0 <= n <= zlen out /\ stream_of i data n mem.
  Proof.
    intros HLi HES Hb HH HP Ho EV. assert (HEo : encoder_of ops L ppc probe i (Ok hdr) e) by now constructor. destruct (encoder_of_ready _ _ _ _ _ _ _ HEo) as (HR & HI & Hh & _). assert (Hh' : hdr = e_hdr e) by congruence.
    destruct (C27_in_bounds _ _ _ _ _ _ _ _ _ _ _ _ _ HLi Hb HES HEo Ho EV) as (HU & HLn & HT). split; [exact HU|]. split; [exact HLn|]. intros n ->. specialize (HT n eq_refl). split; [exact HT|].
    destruct HES as (H1 & H2 & H3 & H4). rewrite <- HI in H1, H2, H3.
    destruct (encode_view_chunks _ _ _ _ _ _ _ _ _ _ _ HR HLi H1 H2 H4 Ho ltac:(rewrite <- Hh'; exact Hb) ltac:(apply H3) (limits_v5 _ _ H3) EV) as (m & ms & bss & ps & _ & E1 & E2).
    assert (EL : n = zlen (e_hdr e ++ concat (map frame ps))). { rewrite <- E1. unfold zlen. rewrite firstn_length, HLn. unfold zlen in HT. lia. }
    exists hdr, e, (concat (map frame ps)). split; [exact HH|]. split; [exact HEo|]. rewrite Hh'. split; [|split; [exact E1|exact EL]].
    left. exists out, true, n, mem, e'. split; [exact Ho|]. split; [exact EV|]. split; [exact E1|]. split; [now rewrite <- EL|reflexivity].
  Qed.

  (** A PointCloud2 message whose cloud is laid out properly, an output of at least the size of the
      message: the function returns, writes at most that many bytes, and what it returns, if not 0,
      is the size of the stream at the output. *)
  Theorem C52_encode_message msg r out c : let i := message_info c r in let w := cldn_EncodePointcloudMessage ft ops L ppc probe msg r out in
    libs_ok L -> bytes out -> zlen msg < 2 ^ 32 -> zlen msg <= zlen out ->
    getDeserializedPointCloudMessage msg = Ok c -> encode_side ppc i (r_data c) -> byte_texts ft i ->
    within (zlen msg) out w /\ (fst w = Ok 0 \/ exists n, fst w = Ok n /\ stream_of i (r_data c) n (snd w)).
  Proof.
    intros i w HLi Ho H32 Hm HG HES Hb. change (2 ^ 32) with 4294967296 in H32. pose proof (zlen_nonneg msg) as M0. assert (ZW := zero_within out (zlen msg) M0).
    unfold w, cldn_EncodePointcloudMessage, or_zero. rewrite HG. fold i. destruct (negb _); [split; [exact ZW|now left]|]. unfold new_encoder.
    destruct (EncodeHeader ft i HYaml) as [hdr| |] eqn:HH; [|discriminate HH..]. cbn [bind]. assert (Hh : bytes hdr) by (apply (header_bytes ft i); [change (i_version i) with 5; lia|assumption..]).
    destruct (PointcloudEncoder i (Ok hdr)) as [e| |] eqn:HP; [|split; [exact ZW|now left]|exfalso; revert HP; apply ctor_defined].
    destruct (i_step i =? 0) eqn:E0; [exfalso; destruct HES as ((Hs & _) & _); lia|]. destruct (MaxCompressedSize _ _ _ _ _) as [max| |] eqn:EM; [|split; [exact ZW|now left]|now apply max_size_defined in EM].
    destruct (max <=? zlen msg).
    - destruct (Z.ltb_spec (zlen out) (zlen msg)); [lia|]. set (view := firstn (length msg) out). assert (HV : length view = length msg) by (unfold view, zlen in *; rewrite firstn_length; lia).
      assert (Hbv : bytes view) by (apply Forall_app with (l2 := skipn (length msg) out); unfold view; now rewrite firstn_skipn).
      destruct (encode_view ops L ppc probe e (r_data c) view true) as [[n mem] e'] eqn:EV. destruct (view_stream _ _ _ _ _ _ _ _ HLi HES Hh HH HP Hbv EV) as (HU & HLn & HS). rewrite HV in HLn.
      assert (TL : zlen (mem ++ skipn (length msg) out) = zlen out /\ skipn (Z.to_nat (zlen msg)) (mem ++ skipn (length msg) out) = skipn (Z.to_nat (zlen msg)) out).
      { unfold zlen in *. rewrite Nat2Z.id. split; [rewrite app_length, skipn_length; lia|]. rewrite <- HLn. rewrite skipn_app, skipn_all, Nat.sub_diag. reflexivity. }
      destruct TL as (TL1 & TL2). destruct n as [n| |]; [| |congruence]; cbn [fst snd].
      + destruct (HS n eq_refl) as (HR & ST). assert (HVz : zlen view = zlen msg) by (unfold zlen; now rewrite HV). assert (HN : u32 n = n) by (unfold u32; apply Z.mod_small; lia). rewrite HN.
        split; [exists n; cbn [fst snd]; repeat split; [lia|lia|exact TL1|exact TL2]|]. right. exists n. split; [reflexivity|].
        destruct ST as (hdr1 & e1 & body & A & B & C & D & E). exists hdr1, e1, body. split; [exact A|]. split; [exact B|]. split; [exact C|]. split; [|exact E]. rewrite firstn_app.
        replace (Z.to_nat n - length mem)%nat with 0%nat by (unfold zlen in *; lia). cbn [firstn]. rewrite app_nil_r. exact D.
      + split; [exists 0; cbn [fst snd]; repeat split; [lia|lia|exact TL1|exact TL2]|now left].
    - destruct (encode_vec ops L ppc probe e (r_data c) []) as [[n buf] e'] eqn:EV. destruct (vec_stream _ _ _ _ _ _ _ HLi HES Hh HH HP EV) as (HU & HS). destruct n as [n| |]; [|split; [exact ZW|now left]|congruence].
      destruct (HS n eq_refl) as (En & ST). destruct (Z.ltb_spec (zlen msg) n); [split; [exact ZW|now left]|].
      assert (EB : firstn (Z.to_nat n) buf = buf) by (apply firstn_all2; unfold zlen in En; lia). rewrite EB.
      destruct (emit_within buf out (zlen msg) ltac:(lia) Hm H32) as (W1 & W2 & W3). split; [exact W1|]. right. exists n. rewrite W3, W2, En. split; [reflexivity|].
      rewrite En in ST. destruct ST as (hdr1 & e1 & body & A & B & C & D & E). exists hdr1, e1, body. split; [exact A|]. split; [exact B|]. split; [exact C|]. split; [|exact E].
      rewrite <- D, firstn_app. unfold zlen at 2. rewrite Nat2Z.id, Nat.sub_diag. cbn [firstn]. apply app_nil_r.
  Qed.
  (** Anything that is not a message: 0, and nothing is written. *)
  (** cldn_ComputeCompressedSize answers 0 or the size (modulo 2^32) of an encoding of the message:
      header and chunks. *)
  Theorem C52_compute_size msg r c : let i := message_info c r in let w := cldn_ComputeCompressedSize ft ops L ppc probe msg r in
    libs_ok L -> getDeserializedPointCloudMessage msg = Ok c -> encode_side ppc i (r_data c) -> byte_texts ft i ->
    w = Ok 0 \/ exists n s, w = Ok (n mod 2 ^ 32) /\ n = zlen s /\ stream_of i (r_data c) n s.
  Proof.
    intros i w HLi HG HES Hb. unfold w, cldn_ComputeCompressedSize. rewrite HG. cbn [bind]. fold i. unfold new_encoder.
    destruct (EncodeHeader ft i HYaml) as [hdr| |] eqn:HH; [|discriminate HH..]. cbn [bind]. assert (Hh : bytes hdr) by (apply (header_bytes ft i); [change (i_version i) with 5; lia|assumption..]).
    destruct (PointcloudEncoder i (Ok hdr)) as [e| |] eqn:HP; cbn [bind]; [|now left|exfalso; revert HP; apply ctor_defined].
    destruct (negb _ && _); [now left|]. destruct (encode_vec ops L ppc probe e (r_data c) []) as [[n buf] e'] eqn:EV. destruct (vec_stream _ _ _ _ _ _ _ HLi HES Hh HH HP EV) as (HU & HS).
    destruct n as [n| |]; cbn [bind]; [|now left|congruence]. right. exists n, buf. split; [reflexivity|]. exact (HS n eq_refl).
  Qed.
  Theorem C52_encode_bad_message msg r out : getDeserializedPointCloudMessage msg = Throw -> cldn_EncodePointcloudMessage ft ops L ppc probe msg r out = (Ok 0, out).
  Proof. intros H. unfold cldn_EncodePointcloudMessage, or_zero. now rewrite H. Qed.

  (** The same for raw data with a YAML description; the limit is the size of the data. *)
  Theorem C52_encode_data yaml data out i : let w := cldn_EncodePointcloudData ft ops L ppc probe yaml data out in
    libs_ok L -> bytes out -> zlen data < 2 ^ 32 -> zlen data <= zlen out ->
    EncodingInfoFromYAML ft yaml = Ok i -> 0 <= i_version i < 256 -> encode_side ppc i data -> byte_texts ft i ->
    within (zlen data) out w /\ (fst w = Ok 0 \/ exists n, fst w = Ok n /\ stream_of i data n (snd w)).
  Proof.
    intros w HLi Ho H32 Hm HG HV HES Hb. change (2 ^ 32) with 4294967296 in H32. pose proof (zlen_nonneg data) as M0. assert (ZW := zero_within out (zlen data) M0).
    unfold w, cldn_EncodePointcloudData, or_zero. rewrite HG. destruct (negb _); [split; [exact ZW|now left]|]. unfold new_encoder.
    destruct (EncodeHeader ft i HYaml) as [hdr| |] eqn:HH; [|discriminate HH..]. cbn [bind]. assert (Hh : bytes hdr) by (now apply (header_bytes ft i)).
    destruct (PointcloudEncoder i (Ok hdr)) as [e| |] eqn:HP; [|split; [exact ZW|now left]|exfalso; revert HP; apply ctor_defined].
    destruct (encode_vec ops L ppc probe e data []) as [[n buf] e'] eqn:EV. destruct (vec_stream _ _ _ _ _ _ _ HLi HES Hh HH HP EV) as (HU & HS). destruct n as [n| |]; [|split; [exact ZW|now left]|congruence].
    destruct (HS n eq_refl) as (En & ST). destruct (Z.ltb_spec (zlen data) n); [split; [exact ZW|now left]|].
    assert (EB : firstn (Z.to_nat n) buf = buf) by (apply firstn_all2; unfold zlen in En; lia). rewrite EB.
    destruct (emit_within buf out (zlen data) ltac:(lia) Hm H32) as (W1 & W2 & W3). split; [exact W1|]. right. exists n. rewrite W3, W2, En. split; [reflexivity|].
    rewrite En in ST. destruct ST as (hdr1 & e1 & body & A & B & C & D & E). exists hdr1, e1, body. split; [exact A|]. split; [exact B|]. split; [exact C|]. split; [|exact E].
    rewrite <- D, firstn_app. unfold zlen at 2. rewrite Nat2Z.id, Nat.sub_diag. cbn [firstn]. apply app_nil_r.
  Qed.

  (** ** Decoding *)
  (** A stream for a complete cloud, in an output with room for the cloud: the restored points are
      written and their size is returned, or 0 is returned; never anything else. *)
  Definition decoded (i : info) (data out : list Z) (r : res Z * list Z) : Prop :=
    exists mem, r = (Ok (zlen data), mem ++ skipn (length data) out) /\ restored ops i i (length data / Z.to_nat (i_step i)) data (firstn (length data) out) mem.
  Theorem C52_decode_data i data n s out : let r := cldn_DecodeCompressedData ft ops L ppc (firstn (Z.to_nat n) s) out in
    libs_ok L -> complete (i_width i) (i_height i) (i_step i) data -> encode_side ppc i data -> decode_side i i -> deltas_ok ops i ppc data ->
    yaml_header_info ft i -> exact_resolutions ft i -> byte_texts ft i -> i_comp i = COMP_ZSTD ->
    stream_of i data n s -> n < 1431260227 -> zlen data <= zlen out ->
    (decoded i data out r \/ r = (Ok 0, out)) /\
    (tight_chunk i (Z.of_nat (Nat.min (length data / Z.to_nat (i_step i)) ppc)) <= zlen data -> zlen data <= 2147483647 -> decoded i data out r).
  Proof.
    intros r HLi (Hw & Hh & Hsz & Hz32) HES HDS HD HY HX Hb HZ (hdr & e & body & HH & HEo & HPr & E1 & E2) Hn Hm.
    destruct (C30_yaml_header_exact ft i body HY HX) as (hdr' & HH' & HDH). assert (hdr' = hdr) by congruence. subst hdr'.
    assert (Hbody : zlen body < 1431260227). { rewrite zlen_app in E2. pose proof (zlen_nonneg hdr). lia. }
    assert (Hpos : 0 < i_step i) by apply HES. pose proof (zlen_nonneg data) as N0. set (np := (length data / Z.to_nat (i_step i))%nat).
    assert (Hnp : Z.of_nat np = i_width i * i_height i). { unfold np. rewrite Nat2Z.inj_div, Z2Nat.id by lia. fold (zlen data). rewrite Hsz. apply Z.div_mul. lia. }
    assert (Hlen : zlen data = Z.of_nat np * i_step i) by (rewrite Hnp; exact Hsz).
    assert (HU : size32 (i_width i) (i_height i) (i_step i) = zlen data). { unfold size32, u32. rewrite (Z.mod_small (i_width i * i_height i)) by nia. rewrite <- Hsz. apply Z.mod_small. lia. }
    set (i' := stored_yaml (i_fields i) i) in *. set (mem := firstn (length data) out).
    assert (Hmem : zlen mem = zlen data) by (unfold mem, zlen in *; rewrite firstn_length; lia).
    assert (Hdec : declares i' np). { unfold declares. cbn [i' stored_yaml i_width i_height]. rewrite Hnp. apply Z.mod_small. nia. }
    assert (Hbh := header_bytes ft i hdr (version_range ft i HY) Hb HH).
    assert (HR : r = or_zero (decode ops L ppc i' body [] mem) out (fun '(_, mem) => (Ok (zlen data), mem ++ skipn (length data) out))).
    { unfold r, cldn_DecodeCompressedData. rewrite E1, HDH. cbn [or_zero]. cbv zeta. change (i_width i') with (i_width i). change (i_height i') with (i_height i). change (i_step i') with (i_step i). rewrite HU.
      destruct (Z.ltb_spec (zlen out) (zlen data)); [lia|]. unfold mem. replace (Z.to_nat (zlen data)) with (length data) by (unfold zlen; now rewrite Nat2Z.id). reflexivity. }
    assert (Hroom : Z.of_nat np * i_step i' <= zlen mem) by (change (i_step i') with (i_step i); lia).
    assert (FIN : (exists buf' mem', decode ops L ppc i' body [] mem = Ok (buf', mem') /\ restored ops i i' np data mem mem') -> decoded i data out r).
    { intros (buf' & mem' & D1 & D2). exists mem'. rewrite HR, D1. cbn [or_zero]. split; [reflexivity|exact D2]. }
    split.
    - destruct (C17_never_wrong ops L ppc probe i i' hdr e data hdr body np [] mem HLi Hbh HES HDS HD HEo HPr Hbody Hlen Hdec Hroom) as [K|K]; [left; now apply FIN|right]. rewrite HR, K. reflexivity.
    - intros HC1 HC2. apply FIN. exact (C17_roundtrip_fits ops L ppc probe i i' hdr e data hdr body np [] mem HLi Hbh HES HDS HD HEo HPr (or_intror HZ) Hbody Hlen Hdec Hroom ltac:(change (i_step i') with (i_step i); rewrite <- Hlen; exact HC1) ltac:(change (i_step i') with (i_step i); rewrite <- Hlen; exact HC2)).
  Qed.

  (** ** Header text *)
  Lemma version_char v : 2 <= v <= 5 -> as_uint8 (dec_text v) = Ok (48 + v).
  Proof. intros H. assert (K : v = 2 \/ v = 3 \/ v = 4 \/ v = 5) by lia. destruct K as [-> | [-> | [-> | ->]]]; reflexivity. Qed.
  (** cldn_GetHeaderAsYAML of any stream with a YAML header returns the text of the header, provided
      the caller reserved enough memory for it (it is not told how much). *)
  Theorem C58_header_text i body out : yaml_header_info ft i -> exact_resolutions ft i -> zlen (EncodingInfoToYAML ft i) < 2 ^ 32 -> zlen (EncodingInfoToYAML ft i) <= zlen out ->
    exists hdr n out', EncodeHeader ft i HYaml = Ok hdr /\ cldn_GetHeaderAsYAML ft (hdr ++ body) out = (Ok n, out') /\ firstn (Z.to_nat n) out' = EncodingInfoToYAML ft i /\ n = zlen (EncodingInfoToYAML ft i).
  Proof.
    intros HY HX H32 Hm. change (2 ^ 32) with 4294967296 in H32. destruct (C30_yaml_header_exact ft i body HY HX) as (hdr & HH & HDH). exists hdr.
    assert (ET : EncodingInfoToYAML ft (stored_yaml (i_fields i) i) = EncodingInfoToYAML ft i) by reflexivity.
    unfold cldn_GetHeaderAsYAML. rewrite HDH. cbn [or_zero]. rewrite ET. destruct (emit_within _ out _ (Z.le_refl _) Hm H32) as (_ & W2 & W3). destruct (emit _ out) as [a b]. cbn [fst snd] in *. subst a b.
    eexists _, _. split; [exact HH|]. split; [reflexivity|]. split; [|reflexivity]. rewrite firstn_app. unfold zlen. rewrite Nat2Z.id, firstn_all, Nat.sub_diag. cbn [firstn]. apply app_nil_r.
  Qed.
  (** cldn_EncodePointcloudData given that text: the stream it returns is never decodable, because
      the version in the text is read as a character ('5' is version 53). *)
  Theorem C58_encode_data_undecodable i data out n out' out2 : yaml_header_info ft i -> exact_resolutions ft i -> byte_texts ft i ->
    libs_ok L -> bytes out -> zlen data < 2 ^ 32 -> zlen data <= zlen out -> encode_side ppc i data ->
    cldn_EncodePointcloudData ft ops L ppc probe (EncodingInfoToYAML ft i) data out = (Ok n, out') -> n <> 0 ->
    cldn_DecodeCompressedData ft ops L ppc (firstn (Z.to_nat n) out') out2 = (Ok 0, out2).
  Proof.
    intros HY HX Hb HLi Ho H32 Hm HES HE Hn. destruct (from_yaml_rt ft i (yaml_ready ft i HY)) as (ver & Hv & HF). assert (HV : 2 <= i_version i <= 5) by apply HY. rewrite (version_char _ HV) in Hv. assert (ver = 48 + i_version i) by congruence. subst ver.
    assert (ER : map (reread ft) (i_fields i) = i_fields i).
    { unfold exact_resolutions in HX. clear - HX. induction HX as [|f fs Hf HX IH]; [reflexivity|]. cbn [map]. rewrite IH. f_equal. unfold reread. destruct f as [a o t q]. cbn [f_name f_off f_type f_res] in *. destruct q as [q|]; [now rewrite Hf|reflexivity]. }
    rewrite ER in HF. set (j := mkInfo _ _ _ _ _ _ _ _ _) in HF.
    pose proof (C52_encode_data (EncodingInfoToYAML ft i) data out j HLi Ho H32 Hm HF ltac:(cbn; lia) HES Hb) as (_ & K). cbv zeta in K. rewrite HE in K. cbn [fst snd] in K. destruct K as [K|(m & Em & hdr & e & body & HH & _ & _ & E1 & _)]; [congruence|].
    assert (m = n) by congruence. subst m. rewrite E1. cbn [EncodeHeader] in HH. change (i_version j) with (48 + i_version i) in HH. assert (Eh : hdr = magic_version (48 + i_version i) ++ nl ++ EncodingInfoToYAML ft j ++ [0]) by congruence. rewrite Eh. rewrite <- !app_assoc. unfold cldn_DecodeCompressedData.
    assert (DT : forall t, DecodeHeader ft (magic_version (48 + i_version i) ++ t) = Throw).
    { intros t. unfold DecodeHeader. assert (EV : i_version i = 2 \/ i_version i = 3 \/ i_version i = 4 \/ i_version i = 5) by lia.
      assert (EL : zlen (magic_version (48 + i_version i) ++ t) <? zlen magic + 2 = false). { apply Z.ltb_ge. rewrite zlen_app. change (zlen (magic_version (48 + i_version i))) with 12. change (zlen magic) with 10. pose proof (zlen_nonneg t). lia. }
      rewrite EL. assert (RD : rd 0 (length magic) (magic_version (48 + i_version i) ++ t) = Ok magic).
      { unfold rd. change (Z.of_nat (length magic)) with 10. assert (EL2 : (0 <=? 0) && (0 + 10 <=? zlen (magic_version (48 + i_version i) ++ t)) = true) by (change (zlen magic) with 10 in EL; lia). rewrite EL2. reflexivity. }
      rewrite RD. cbn [bind]. assert (EQ : list_eqb magic magic = true) by reflexivity. rewrite EQ. cbn [negb].
      assert (TF : trim_front (length magic) (magic_version (48 + i_version i) ++ t) = Ok ([48 + (48 + i_version i) / 10; 48 + (48 + i_version i) mod 10] ++ t)) by reflexivity.
      rewrite TF. cbn [bind app]. assert (R2 : rd 0 2 (48 + (48 + i_version i) / 10 :: 48 + (48 + i_version i) mod 10 :: t) = Ok [48 + (48 + i_version i) / 10; 48 + (48 + i_version i) mod 10]).
      { unfold rd. rewrite !zlen_cons. pose proof (zlen_nonneg t). change (Z.of_nat 2) with 2. destruct ((0 <=? 0) && _) eqn:E; [reflexivity|lia]. }
      rewrite R2. cbn [bind]. unfold trim_front at 1. cbn [length Nat.ltb Nat.leb bind]. destruct EV as [-> | [-> | [-> | ->]]]; reflexivity. }
    rewrite DT. reflexivity.
  Qed.
End Wasm.

(** *** Concrete messages *)
(** A PointCloud2 message as ROS writes it, with [data] as its data. *)
Definition raw_message (c : ros_cloud) : list Z :=
  match writePointCloudHeader c (cdr_begin (r_cdr c)) with
  | Ok s => enc_num (r_cdr c) 1 (r_dense c) (enc_num (r_cdr c) 4 (zlen (r_data c)) s ++ r_data c)
  | _ => []
  end.
Definition xyz_fields : list field := [mkField (str "x") 0 FLOAT32 None; mkField (str "y") 4 FLOAT32 None; mkField (str "z") 8 FLOAT32 None].
Definition wide_cloud (w step : Z) (data : list Z) : ros_cloud :=
  mkRos (mkCdr LITTLE PLAIN_CDR DDS_CDR) 1700000000 0 [109; 97; 112] 1 w xyz_fields step (w * step) data 1.
Definition millimetre32 : Z := 981668463.
Definition a_point (step : nat) (k : Z) : list Z := [0;0;128;63;0;0;0;64;0;0;64;64 + k] ++ repeat 0 (step - 12).
Definition row (step : nat) (n : nat) : list Z := flat_map (fun j => a_point step (Z.of_nat j mod 2)) (seq 0 n).
(** 80 points of 64 bytes: encoded straight into the output; of 16 bytes: through a vector. *)
Definition big_points : ros_cloud := wide_cloud 80 64 (row 64 80).
Definition small_points : ros_cloud := wide_cloud 80 16 (row 16 80).
Local Notation enc_msg c out := (cldn_EncodePointcloudMessage gnu_text sse_ops store_libs 128 4096 (raw_message c) millimetre32 out).
Local Notation dec_data := (cldn_DecodeCompressedData gnu_text sse_ops store_libs 128).
Lemma parsed_back (c : ros_cloud) : c = big_points \/ c = small_points -> getDeserializedPointCloudMessage (raw_message c) = Ok c.
Proof. intros [-> | ->]; vm_compute; reflexivity. Qed.
Lemma repeat_bytes x n : is_byte x -> bytes (repeat x n).
Proof. intros H. apply Forall_forall. intros y Hy. apply repeat_spec in Hy. now subst. Qed.
Lemma row_bytes step n : bytes (row step n).
Proof.
  unfold row. apply Forall_forall. intros x Hx. apply in_flat_map in Hx. destruct Hx as (j & _ & Hx). unfold a_point in Hx. pose proof (Z.mod_pos_bound (Z.of_nat j) 2 ltac:(lia)) as HM. apply in_app_or in Hx. destruct Hx as [Hx|Hx].
  - cbn [In] in Hx. unfold is_byte. lia.
  - apply repeat_spec in Hx. subst x. unfold is_byte. lia.
Qed.
Lemma wide_side w step data : 12 <= step -> bytes data -> encode_side 128 (message_info (wide_cloud w step data) millimetre32) data.
Proof.
  intros Hs Hd. split; [split; [cbn; lia|]|split; [exact I|split; [split; [lia|split; [lia|vm_compute; discriminate]]|exact Hd]]].
  repeat (apply Forall_cons; [cbn [f_off f_type with_resolution SizeOf message_info i_step toEncodingInfo wide_cloud r_step]; split; cbn; lia|]). apply Forall_nil.
Qed.
Lemma wide_texts w step data : byte_texts gnu_text (message_info (wide_cloud w step data) millimetre32).
Proof. split; [constructor|]. repeat (apply Forall_cons; [split; [apply str_bytes|apply gnu_bytes]|]). apply Forall_nil. Qed.
Lemma wide_decode w step data : 12 <= step -> let i := message_info (wide_cloud w step data) millimetre32 in decode_side i i.
Proof.
  intros Hs i. assert (EF : i_fields i = [mkField (str "x") 0 FLOAT32 (Some millimetre32); mkField (str "y") 4 FLOAT32 (Some millimetre32); mkField (str "z") 8 FLOAT32 (Some millimetre32)]) by reflexivity.
  assert (ES : i_step i = step) by reflexivity. split; [|split; [|split; [|split; [|split; [|split; [reflexivity|vm_compute; discriminate]]]]]].
  - split; [|split; reflexivity]. rewrite EF. repeat (apply Forall2_cons; [split; reflexivity|]). apply Forall2_nil.
  - split; [lia|]. rewrite EF, ES. repeat (apply Forall_cons; [intros _; cbn [f_off f_type SizeOf]; lia|]). apply Forall_nil.
  - left. rewrite EF. repeat (constructor; [first [cbn; lia | repeat (constructor; [cbn; lia|]); constructor]|]). cbn. repeat constructor; cbn; lia.
  - unfold resolutions_ok. rewrite EF. repeat (apply Forall_cons; [reflexivity|]). apply Forall_nil.
  - unfold ints_stored. rewrite EF. repeat (apply Forall_cons; [intros _; reflexivity|]). apply Forall_nil.
Qed.
Lemma wide_yaml w step data : 0 <= w < 2 ^ 32 -> 0 <= step < 2 ^ 32 -> yaml_header_info gnu_text (message_info (wide_cloud w step data) millimetre32).
Proof.
  intros Hw Hs. change (2 ^ 32) with 4294967296 in *. unfold yaml_header_info. change (2 ^ 32) with 4294967296. split; [vm_compute; split; discriminate|]. split; [exact Hw|]. split; [cbn; lia|]. split; [exact Hs|].
  split; [exact I|]. split; [exact I|]. split; [left; reflexivity|].
  repeat (apply Forall_cons; [split; [apply safeb_ok; vm_compute; reflexivity|split; [change (2 ^ 32) with 4294967296; cbn; lia|split; [exact I|split; [apply safeb_ok; vm_compute; reflexivity|split; vm_compute; discriminate]]]]|]). apply Forall_nil.
Qed.
(** The hypotheses of C52_encode_message and C52_decode_data are met, on both paths of the encoder. *)
Example C52_case : forall c, c = big_points \/ c = small_points -> let out := repeat 7 (length (raw_message c) + 3) in let i := message_info c millimetre32 in
  libs_ok store_libs /\ bytes out /\ zlen (raw_message c) < 2 ^ 32 /\ zlen (raw_message c) <= zlen out /\ getDeserializedPointCloudMessage (raw_message c) = Ok c /\ encode_side 128 i (r_data c) /\ byte_texts gnu_text i /\
  complete (i_width i) (i_height i) (i_step i) (r_data c) /\ decode_side i i /\ deltas_ok sse_ops i 128 (r_data c) /\ yaml_header_info gnu_text i /\ exact_resolutions gnu_text i /\
  tight_chunk i (Z.of_nat (Nat.min (length (r_data c) / Z.to_nat (i_step i)) 128)) <= zlen (r_data c) /\
  exists out', enc_msg c out = (Ok 714, out') /\ (let d := dec_data (firstn 714 out') (repeat 9 (length (r_data c))) in fst d = Ok (zlen (r_data c)) /\ sub 0 8 (snd d) = sub 0 8 (r_data c)).
Proof.
  intros c Hc out i. split; [apply store_libs_ok|]. split; [apply repeat_bytes; unfold is_byte; lia|]. split; [destruct Hc as [-> | ->]; vm_compute; reflexivity|].
  split; [unfold out, zlen; rewrite repeat_length; lia|]. split; [now apply parsed_back|].
  split; [destruct Hc as [-> | ->]; apply wide_side; try lia; apply row_bytes|]. split; [destruct Hc as [-> | ->]; apply wide_texts|].
  split; [destruct Hc as [-> | ->]; repeat split; vm_compute; congruence|].
  split.
  { destruct Hc as [-> | ->]; apply wide_decode; lia. }
  split; [destruct Hc as [-> | ->]; (apply (deltas_okb_ok _ _ _ _ 80); [vm_compute; reflexivity|reflexivity|vm_compute; reflexivity])|].
  split; [destruct Hc as [-> | ->]; apply wide_yaml; lia|]. split; [destruct Hc as [-> | ->]; repeat (apply Forall_cons; [vm_compute; reflexivity|]); apply Forall_nil|].
  split; [destruct Hc as [-> | ->]; vm_compute; discriminate|].
  destruct Hc as [-> | ->]; (eexists; split; [vm_compute; reflexivity|]; split; vm_compute; reflexivity).
Qed.

(** ** What does not hold *)
(** A message whose payload describes a larger cloud than the message itself: a caller who allocates
    cldn_GetDecompressedSize bytes gets a write beyond them (the same stream decoded into a larger
    memory changes the bytes there). *)
Definition lying_message : list Z :=
  match convertPointCloud2ToCompressedCloud gnu_text sse_ops store_libs 128 4096 (wide_cloud 80 16 (row 16 80)) (message_info small_points millimetre32) with
  | Ok m => match getDeserializedPointCloudMessage m with Ok c => raw_message (wide_cloud 2 16 (r_data c)) | _ => [] end
  | _ => []
  end.
Theorem C52_decode_capacity_refuted : exists msg, cldn_GetDecompressedSize msg = Ok 32 /\
  fst (cldn_DecodeCompressedMessage gnu_text sse_ops store_libs 128 msg (repeat 9 32)) = UB /\
  exists n out', cldn_DecodeCompressedMessage gnu_text sse_ops store_libs 128 msg (repeat 9 (Z.to_nat 1500)) = (Ok n, out') /\ nth 32 out' 9 <> 9.
Proof. exists lying_message. split; [vm_compute; reflexivity|]. split; [vm_compute; reflexivity|]. eexists _, _. split; [vm_compute; reflexivity|]. vm_compute. discriminate. Qed.
(** An empty cloud with point_step 0: a division by zero, not the documented 0. *)
Theorem C52_zero_step_refuted : exists c, getDeserializedPointCloudMessage (raw_message c) = Ok c /\
  cldn_EncodePointcloudMessage gnu_text sse_ops store_libs 128 4096 (raw_message c) millimetre32 (raw_message c) = (UB, raw_message c).
Proof. exists (wide_cloud 0 0 []). split; [vm_compute; reflexivity|]. vm_compute. reflexivity. Qed.
(** A malformed message: the exception leaves cldn_DecodeCompressedMessage, while the other entry
    points report 0. *)
Theorem C52_uncaught_refuted : exists msg out, cldn_DecodeCompressedMessage gnu_text sse_ops store_libs 128 msg out = (Throw, out) /\
  cldn_EncodePointcloudMessage gnu_text sse_ops store_libs 128 4096 msg millimetre32 out = (Ok 0, out) /\ cldn_GetDecompressedSize msg = Ok 0.
Proof. exists [0; 1; 0; 0; 7], []. split; [vm_compute; reflexivity|]. split; vm_compute; reflexivity. Qed.
(** cldn_ComputeCompressedSize answers for a message cldn_EncodePointcloudMessage rejects: half of
    the points are missing. *)
Theorem C52_size_of_incomplete_refuted : exists c n, getDeserializedPointCloudMessage (raw_message c) = Ok c /\ zlen (r_data c) <> r_width c * r_height c * r_step c /\
  cldn_ComputeCompressedSize gnu_text sse_ops store_libs 128 4096 (raw_message c) millimetre32 = Ok n /\ 0 < n /\
  fst (enc_msg c (raw_message c)) = Ok 0.
Proof. exists (wide_cloud 80 16 (row 16 40)). eexists. split; [vm_compute; reflexivity|]. split; [vm_compute; discriminate|]. split; [vm_compute; reflexivity|]. split; [reflexivity|]. vm_compute. reflexivity. Qed.
(** Data encoded with the text cldn_GetHeaderAsYAML returns: the hypotheses of
    C58_encode_data_undecodable are met, something is returned and it cannot be decoded. *)
Theorem C58_encode_data_refuted : exists i data out n out', yaml_header_info gnu_text i /\ exact_resolutions gnu_text i /\ byte_texts gnu_text i /\ bytes out /\ zlen data <= zlen out /\ encode_side 128 i data /\
  cldn_EncodePointcloudData gnu_text sse_ops store_libs 128 4096 (EncodingInfoToYAML gnu_text i) data out = (Ok n, out') /\ 0 < n /\ firstn 12 out' = str "CLOUDINI_V53" /\
  dec_data (firstn (Z.to_nat n) out') (repeat 9 (length data)) = (Ok 0, repeat 9 (length data)).
Proof.
  exists (message_info small_points millimetre32), (row 16 80), (repeat 9 (length (row 16 80))). eexists _, _. split; [apply wide_yaml; lia|].
  split; [repeat (apply Forall_cons; [vm_compute; reflexivity|]); apply Forall_nil|]. split; [apply wide_texts|]. split; [apply repeat_bytes; unfold is_byte; lia|]. split; [unfold zlen; rewrite repeat_length; lia|].
  split; [apply wide_side; [lia|apply row_bytes]|]. split; [vm_compute; reflexivity|]. split; [reflexivity|]. split; [vm_compute; reflexivity|]. vm_compute. reflexivity.
Qed.

Print Assumptions C52_encode_message.
Print Assumptions C52_compute_size.
Print Assumptions C52_encode_bad_message.
Print Assumptions C52_encode_data.
Print Assumptions C52_decode_data.
Print Assumptions C52_decode_capacity_refuted.
Print Assumptions C52_zero_step_refuted.
Print Assumptions C52_uncaught_refuted.
Print Assumptions C52_size_of_incomplete_refuted.
Print Assumptions C58_header_text.
Print Assumptions C58_encode_data_undecodable.
Print Assumptions C58_encode_data_refuted.
