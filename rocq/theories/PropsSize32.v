(** C82: the WebAssembly target, where size_t has 32 bits. *)
From Verif Require Import Base BaseFacts Types Floats Fields Codec V5 Api Spec LibSpec Header FloatText HeaderFacts Ros Wasm Size32 CloudFacts RoundTrip LocalFacts CloudApi PropsStage1 PropsCloud PropsRos PropsWasm.
From Coq Require Import String.
Notation length := List.length.
Notation concat := List.concat.
Open Scope Z_scope.
Open Scope list_scope.

(** ** Specification *)
(** A declared cloud whose number of points and number of bytes a size_t can hold. *)
Definition declared_fits (W : Z) (i : info) : Prop :=
  0 <= i_width i /\ 0 <= i_height i /\ 0 <= i_step i /\
  i_width i * i_height i < W /\ i_width i * i_height i * i_step i < W.
(** The working memory of the encoder for one chunk of [ppc] points, computed without wrapping. *)
Definition stage_fits (W : Z) (ppc : nat) (i : info) : Prop :=
  forall m, MaxSerializedPointSize i = Ok m ->
    0 <= m < W /\ Z.of_nat ppc * (Z.max (i_step i) m + 64) + zlen (i_fields i) * 64 + 1024 < W.
(** The worst case of the encoded cloud with its header. *)
Definition output_fits (W : Z) (L : libs) (ppc : nat) (i : info) (n : nat) (hdr : Z) : Prop :=
  forall t, MaxCompressedSize L ppc i n hdr = Ok t -> t < W.

(** ** Decoder *)
Lemma v5_chunk_w W ops i ds input expected base mem : 0 <= i_step i -> Z.of_nat expected * i_step i < W ->
  DecodeV5Stage1Chunk_w W ops i ds input expected base mem = DecodeV5Stage1Chunk ops i ds input expected base mem.
Proof.
  intros Hs HW. unfold DecodeV5Stage1Chunk_w, DecodeV5Stage1Chunk, szw. rewrite Z.mod_small by nia. reflexivity.
Qed.
Lemma chunk_w W ops L i ds minb chunk buf expected base mem : 0 < W <= 18446744073709551616 -> declared_fits W i -> Z.of_nat expected * i_step i < W ->
  decodeChunk_w W ops L i ds minb chunk buf expected base mem = decodeChunk ops L i ds minb chunk buf expected base mem.
Proof.
  intros HW (H1 & H2 & H3 & H4 & H5) HE. unfold decodeChunk_w, decodeChunk, szw, u64.
  assert (0 <= i_width i * i_height i) by nia. assert (0 <= i_width i * i_height i * i_step i) by nia.
  rewrite (Z.mod_small (i_width i * i_height i) W) by lia. rewrite (Z.mod_small (i_width i * i_height i) 18446744073709551616) by lia.
  rewrite (Z.mod_small _ W) by lia. rewrite (Z.mod_small _ 18446744073709551616) by lia.
  destruct (DecompressChunk _ _ _ _ _) as [[view buf']| |]; [|reflexivity|reflexivity]. cbn [bind].
  destruct (UsesV5Codec i); [|reflexivity]. now rewrite v5_chunk_w.
Qed.
Lemma loop_w W ops L ppc i ds minb fuel : 0 < W <= 18446744073709551616 -> declared_fits W i ->
  forall data buf points base mem, 0 <= points <= i_width i * i_height i ->
  dec_loop_w W ops L ppc i ds minb fuel data buf points base mem = dec_loop ops L ppc i ds minb fuel data buf points base mem.
Proof.
  intros HW HF. induction fuel as [|k IH]; intros data buf points base mem HP; destruct data as [|b data]; try reflexivity.
  cbn [dec_loop_w dec_loop]. destruct (points =? 0) eqn:E; [reflexivity|]. destruct (take_uint 4 (b :: data)) as [[size data1]| |]; [|reflexivity|reflexivity]. cbn [bind].
  destruct (zlen data1 <? size); [reflexivity|]. rewrite chunk_w; try assumption.
  - destruct (decodeChunk _ _ _ _ _ _ _ _ _ _) as [[[buf' base'] mem']| |]; [|reflexivity|reflexivity]. cbn [bind]. apply IH. lia.
  - destruct HF as (H1 & H2 & H3 & H4 & H5). rewrite Z2Nat.id by lia. assert (Z.min points (Z.of_nat ppc) <= i_width i * i_height i) by lia. nia.
Qed.

(** * C82 *)
(** The 32-bit decoder does what the 64-bit decoder does, on every input whatsoever. *)
Theorem C82_decode : forall W ops L ppc i data buf mem, 0 < W <= 18446744073709551616 -> declared_fits W i ->
  decode_w W ops L ppc i data buf mem = decode ops L ppc i data buf mem.
Proof.
  intros W ops L ppc i data buf mem HW HF. unfold decode_w, decode. destruct (updateDecoders i) as [[ds minb]| |]; [|reflexivity|reflexivity]. cbn [bind].
  destruct (has_magic data); [reflexivity|]. pose proof HF as (H1 & H2 & H3 & H4 & H5).
  destruct (3 <=? i_version i).
  - unfold szw, u64. rewrite !Z.mod_small by nia. apply loop_w; try assumption. nia.
  - rewrite chunk_w by (try assumption; cbn; lia). reflexivity.
Qed.

(** ** Encoder *)
Lemma point_size W ppc i : stage_fits W ppc i -> point_size_w W i = MaxSerializedPointSize i.
Proof.
  intros H. unfold point_size_w. destruct (MaxSerializedPointSize i) as [m| |] eqn:E; [|reflexivity|reflexivity]. cbn [bind]. destruct (H m E) as (Hm & _).
  unfold szw. now rewrite Z.mod_small.
Qed.
Definition known_comp (i : info) : Prop := match i_comp i with COMP_OTHER _ => False | _ => True end.
(** What a chunk of [n] points may occupy before compression *)
Lemma chunk_bound_eq W L i m n : 0 <= m -> 0 <= n -> n * m + zlen (i_fields i) * 32 + 1024 < W -> chunk_bound_w W L i m n = chunk_bound L i m n.
Proof.
  intros Hm Hn HW. unfold chunk_bound_w, chunk_bound, szw. pose proof (zlen_nonneg (i_fields i)). rewrite Z.mod_small; [reflexivity|]. destruct (UsesV5Codec i); nia.
Qed.
Lemma chunks_bound_eq W L i m ppc chunks : 0 <= m -> Z.of_nat ppc * m + zlen (i_fields i) * 32 + 1024 < W -> forall left,
  chunks_bound_w W L i m ppc chunks left = chunks_bound L i m ppc chunks left.
Proof.
  intros Hm HW. induction chunks as [|k IH]; intros left; [reflexivity|]. cbn [chunks_bound_w chunks_bound]. rewrite chunk_bound_eq by (try lia; nia).
  destruct (chunk_bound _ _ _ _); [|reflexivity|reflexivity]. cbn [bind]. rewrite IH. reflexivity.
Qed.
Lemma max_size_eq W L ppc i n hdr : stage_fits W ppc i -> output_fits W L ppc i n hdr -> (forall t, MaxCompressedSize L ppc i n hdr = Ok t -> 0 <= t) ->
  MaxCompressedSize_w W L ppc i n hdr = MaxCompressedSize L ppc i n hdr.
Proof.
  intros HS HO HP. pose proof (point_size _ _ _ HS) as HPS. unfold MaxCompressedSize_w. rewrite HPS. revert HO HP. unfold output_fits, MaxCompressedSize.
  destruct (i_step i =? 0); [reflexivity|]. destruct (MaxSerializedPointSize i) as [m| |] eqn:E; [|reflexivity|reflexivity]. cbn [bind].
  destruct (HS m E) as (Hm & HM). pose proof (zlen_nonneg (i_fields i)) as HZ. rewrite chunks_bound_eq by nia.
  destruct (chunks_bound _ _ _ _ _ _) as [t| |]; [|reflexivity|reflexivity]. cbn [bind]. intros HO HP. unfold szw. rewrite Z.mod_small; [reflexivity|]. split; [now apply HP|now apply HO].
Qed.
Lemma bounds_nonneg L i m ppc chunks : libs_ok L -> 0 <= m -> forall left t, chunks_bound L i m ppc chunks left = Ok t -> 0 <= t.
Proof.
  intros (H1 & H2) Hm. induction chunks as [|k IH]; intros left t; cbn [chunks_bound]; [intros [= <-]; lia|].
  destruct (chunk_bound L i m (Z.of_nat (Nat.min left ppc))) as [a| |] eqn:EA; try discriminate. cbn [bind].
  destruct (chunks_bound L i m ppc k _) as [b| |] eqn:EB; try discriminate. cbn [bind]. intros [= <-]. apply IH in EB.
  assert (0 <= a); [|lia]. revert EA. unfold chunk_bound. pose proof (zlen_nonneg (i_fields i)).
  assert (HZ : 0 <= Z.of_nat (Nat.min left ppc) * m + (if UsesV5Codec i then zlen (i_fields i) * 32 + 1024 else 0)) by (destruct (UsesV5Codec i); nia).
  destruct (i_comp i); try discriminate.
  - intros [= <-]. lia.
  - destruct (INT_MAX <? _); [discriminate|]. intros [= <-]. pose proof (lib_nonneg _ H1 _ HZ). lia.
  - intros [= <-]. pose proof (lib_nonneg _ H2 _ HZ). lia.
Qed.
Lemma max_nonneg W L ppc i n hdr t : libs_ok L -> stage_fits W ppc i -> 0 <= hdr -> MaxCompressedSize L ppc i n hdr = Ok t -> 0 <= t.
Proof.
  intros HL HS Hh. unfold MaxCompressedSize. destruct (i_step i =? 0); [discriminate|]. destruct (MaxSerializedPointSize i) as [m| |] eqn:E; try discriminate. cbn [bind].
  destruct (HS m E) as (Hm & _). destruct (chunks_bound _ _ _ _ _ _) as [x| |] eqn:EB; try discriminate. cbn [bind]. intros [= <-]. apply bounds_nonneg in EB; try assumption; lia.
Qed.
Lemma max_shift L ppc i n hdr : MaxCompressedSize L ppc i n hdr = (do t <- MaxCompressedSize L ppc i n 0 ; Ok (hdr + t)).
Proof.
  unfold MaxCompressedSize. destruct (i_step i =? 0); [reflexivity|]. destruct (MaxSerializedPointSize i) as [m| |]; [|reflexivity|reflexivity]. cbn [bind].
  destruct (chunks_bound _ _ _ _ _ _) as [x| |]; reflexivity.
Qed.
Lemma output_fits_less W L ppc i n h h' : 0 <= h <= h' -> output_fits W L ppc i n h' -> output_fits W L ppc i n h.
Proof.
  intros Hh H t. rewrite max_shift. destruct (MaxCompressedSize L ppc i n 0) as [x| |] eqn:E; try discriminate. cbn [bind]. intros [= <-].
  specialize (H (h' + x)). rewrite max_shift, E in H. specialize (H eq_refl). lia.
Qed.
Lemma body_eq W ops L ppc probe e cloud n w : stage_fits W ppc (e_info e) -> 0 <= i_step (e_info e) ->
  encode_body_w W ops L ppc probe e cloud n w = encode_body ops L ppc probe e cloud n w.
Proof.
  intros HS Hst. unfold encode_body_w, encode_body, V5StageBufferSize_w, V5StageBufferSize. rewrite (point_size _ _ _ HS).
  destruct (MaxSerializedPointSize (e_info e)) as [m| |] eqn:E; [|reflexivity|reflexivity]. cbn [bind]. destruct (HS m E) as (Hm & HM). pose proof (zlen_nonneg (i_fields (e_info e))) as HZ.
  unfold szw. rewrite !Z.mod_small by nia. reflexivity.
Qed.
Lemma write_eq W ops L ppc probe e cloud n hdr w : stage_fits W ppc (e_info e) -> 0 <= i_step (e_info e) ->
  encode_write_w W ops L ppc probe e cloud n hdr w = encode_write ops L ppc probe e cloud n hdr w.
Proof.
  intros HS Hst. unfold encode_write_w, encode_write, abind. destruct (put_at 0 hdr w) as [[u| |] w1]; [|reflexivity|reflexivity].
  destruct (advance (zlen hdr) w1) as [[u'| |] w2]; [|reflexivity|reflexivity]. now rewrite body_eq.
Qed.
Section Encode.
  Variables (W : Z) (ops : float_ops) (L : libs) (ppc probe : nat).
  Hypothesis HL : libs_ok L.
  Lemma view_eq e cloud out (wh : bool) : stage_fits W ppc (e_info e) -> 0 <= i_step (e_info e) ->
    output_fits W L ppc (e_info e) (length cloud / Z.to_nat (i_step (e_info e))) (if wh then zlen (e_hdr e) else 0) ->
    encode_view_w W ops L ppc probe e cloud out wh = encode_view ops L ppc probe e cloud out wh.
  Proof.
    intros HS Hst HO. unfold encode_view_w, encode_view. set (i := e_info e) in *. destruct (i_step i =? 0); [reflexivity|]. destruct (negb _); [reflexivity|].
    set (n := (length cloud / Z.to_nat (i_step i))%nat) in *.
    assert (Hz : zlen (if wh then e_hdr e else []) = if wh then zlen (e_hdr e) else 0) by (destruct wh; reflexivity). rewrite Hz. clear Hz.
    set (h := if wh then zlen (e_hdr e) else 0) in *. assert (Hh : 0 <= h) by (unfold h; destruct wh; [apply zlen_nonneg|lia]).
    rewrite max_size_eq; [|exact HS|exact (output_fits_less _ _ _ _ _ 0 h ltac:(lia) HO)|intros t Ht; exact (max_nonneg W L ppc i n 0 t HL HS ltac:(lia) Ht)].
    destruct (MaxCompressedSize L ppc i n 0) as [need| |] eqn:E; [|reflexivity|reflexivity].
    pose proof (max_nonneg W L ppc i n 0 need HL HS ltac:(lia) E) as Hn. specialize (HO (h + need)). rewrite max_shift, E in HO. specialize (HO eq_refl).
    unfold szw. rewrite Z.mod_small by lia. destruct (zlen out <? need + h); [reflexivity|]. rewrite write_eq by assumption. reflexivity.
  Qed.
  Lemma vec_eq e cloud out : stage_fits W ppc (e_info e) -> 0 <= i_step (e_info e) ->
    output_fits W L ppc (e_info e) (length cloud / Z.to_nat (i_step (e_info e))) (zlen (e_hdr e)) ->
    encode_vec_w W ops L ppc probe e cloud out = encode_vec ops L ppc probe e cloud out.
  Proof.
    intros HS Hst HO. unfold encode_vec_w, encode_vec. destruct (i_step (e_info e) =? 0); [reflexivity|]. destruct (negb _); [reflexivity|].
    rewrite max_size_eq; [|exact HS|exact HO|intros t Ht; exact (max_nonneg W L ppc _ _ _ t HL HS (zlen_nonneg _) Ht)].
    destruct (MaxCompressedSize _ _ _ _ _); [|reflexivity|reflexivity]. destruct (wr 0 _ _); [|reflexivity|reflexivity].
    rewrite view_eq; [reflexivity|exact HS|exact Hst|]. apply (output_fits_less _ _ _ _ _ 0 (zlen (e_hdr e))); [pose proof (zlen_nonneg (e_hdr e)); lia|exact HO].
  Qed.
End Encode.
(** The 32-bit encoder does what the 64-bit encoder does. *)
Theorem C82_encode : forall W ops L ppc probe e cloud out (wh : bool), libs_ok L -> 0 <= i_step (e_info e) ->
  stage_fits W ppc (e_info e) -> output_fits W L ppc (e_info e) (length cloud / Z.to_nat (i_step (e_info e))) (zlen (e_hdr e)) ->
  encode_view_w W ops L ppc probe e cloud out wh = encode_view ops L ppc probe e cloud out wh /\
  encode_vec_w W ops L ppc probe e cloud out = encode_vec ops L ppc probe e cloud out.
Proof.
  intros W ops L ppc probe e cloud out wh HL Hst HS HO. split; [|now apply vec_eq]. apply view_eq; try assumption.
  destruct wh; [exact HO|]. apply (output_fits_less _ _ _ _ _ 0 (zlen (e_hdr e))); [pose proof (zlen_nonneg (e_hdr e)); lia|exact HO].
Qed.

(** What a 64-bit machine encoded is restored by the 32-bit decoder. *)
Theorem C82_native_to_wasm : forall W ops L ppc probe i i' hdr0 e cloud hdr body n buf mem,
  0 < W <= 18446744073709551616 -> declared_fits W i' ->
  libs_ok L -> bytes hdr0 -> encode_side ppc i cloud -> decode_side i i' -> deltas_ok ops i ppc cloud ->
  encoder_of ops L ppc probe i (Ok hdr0) e -> produces ops L ppc probe e cloud hdr body ->
  zlen body < 1431260227 -> zlen cloud = Z.of_nat n * i_step i -> declares i' n -> Z.of_nat n * i_step i' <= zlen mem ->
  (exists buf' mem', decode_w W ops L ppc i' body buf mem = Ok (buf', mem') /\ restored ops i i' n cloud mem mem') \/
  (i_comp i <> COMP_NONE /\ decode_w W ops L ppc i' body buf mem = Throw).
Proof.
  intros W ops L ppc probe i i' hdr0 e cloud hdr body n buf mem HW HF HL Hh HES HDS HD HEo HPr Hz Hlen Hdec Hm. rewrite C82_decode by assumption.
  destruct (C17_never_wrong ops L ppc probe i i' hdr0 e cloud hdr body n buf mem HL Hh HES HDS HD HEo HPr Hz Hlen Hdec Hm) as [H|H]; [now left|].
  destruct (i_comp i) eqn:EC; try (right; split; [discriminate|exact H]).
  left. exact (C17_roundtrip ops L ppc probe i i' hdr0 e cloud hdr body n buf mem HL Hh HES HDS HD HEo HPr EC Hz Hlen Hdec Hm).
Qed.

(** ** Entry points *)
Definition wasm_word : Z := 4294967296.
Definition sizes_fit (L : libs) (ppc : nat) (ft : float_text) (i : info) (data : list Z) : Prop :=
  0 <= i_step i /\ stage_fits wasm_word ppc i /\
  forall hdr, EncodeHeader ft i HYaml = Ok hdr -> output_fits wasm_word L ppc i (length data / Z.to_nat (i_step i)) (zlen hdr).
Lemma new_encoder_parts ft i e : new_encoder ft i = Ok e -> e_info e = i /\ EncodeHeader ft i HYaml = Ok (e_hdr e).
Proof.
  unfold new_encoder, PointcloudEncoder. cbn [EncodeHeader bind]. destruct (UsesV5Codec i); [intros [= <-]; auto|].
  destruct (BuildV4Encoders i); cbn [bind]; try discriminate. intros [= <-]. auto.
Qed.
Section Entry.
  Variables (ft : float_text) (ops : float_ops) (L : libs) (ppc probe : nat).
  Hypothesis HL : libs_ok L.
  Lemma spawned i : new_encoder_w ft true i = new_encoder ft i.
  Proof. unfold new_encoder_w. rewrite andb_false_r. destruct (new_encoder ft i); reflexivity. Qed.
  Lemma fits_of i e data : new_encoder ft i = Ok e -> sizes_fit L ppc ft i data ->
    e_info e = i /\ 0 <= i_step (e_info e) /\ stage_fits wasm_word ppc (e_info e) /\ output_fits wasm_word L ppc (e_info e) (length data / Z.to_nat (i_step (e_info e))) (zlen (e_hdr e)).
  Proof. intros HN (H1 & H2 & H3). destruct (new_encoder_parts _ _ _ HN) as (-> & HH). auto. Qed.
  Lemma data_eq data out : (forall i rest, DecodeHeader ft data = Ok (i, rest) -> declared_fits wasm_word i) ->
    DecodeCompressedData_w wasm_word ft ops L ppc data out = cldn_DecodeCompressedData ft ops L ppc data out.
  Proof.
    intros H. unfold DecodeCompressedData_w, cldn_DecodeCompressedData. destruct (DecodeHeader ft data) as [[i rest]| |] eqn:E; cbn [or_zero]; [|reflexivity|reflexivity].
    rewrite C82_decode; [reflexivity|unfold wasm_word; lia|exact (H i rest eq_refl)].
  Qed.
End Entry.
(** The functions a page calls behave as C52, C58, C77 and C78 say of their 64-bit model. *)
Theorem C82_entry_points : forall ft ops L ppc probe, libs_ok L ->
  (forall data out, (forall i rest, DecodeHeader ft data = Ok (i, rest) -> declared_fits wasm_word i) ->
     DecodeCompressedData_w wasm_word ft ops L ppc data out = cldn_DecodeCompressedData ft ops L ppc data out) /\
  (forall msg out, (forall c i rest, getDeserializedPointCloudMessage msg = Ok c -> DecodeHeader ft (r_data c) = Ok (i, rest) -> declared_fits wasm_word i) ->
     DecodeCompressedMessage_w wasm_word ft ops L ppc msg out = cldn_DecodeCompressedMessage ft ops L ppc msg out) /\
  (forall msg r out, (forall c, getDeserializedPointCloudMessage msg = Ok c -> sizes_fit L ppc ft (message_info c r) (r_data c)) ->
     EncodePointcloudMessage_w wasm_word true ft ops L ppc probe msg r out = cldn_EncodePointcloudMessage ft ops L ppc probe msg r out /\
     ComputeCompressedSize_w wasm_word true ft ops L ppc probe msg r = cldn_ComputeCompressedSize ft ops L ppc probe msg r) /\
  (forall yaml data out, (forall i, EncodingInfoFromYAML ft yaml = Ok i -> sizes_fit L ppc ft i data) ->
     EncodePointcloudData_w wasm_word true ft ops L ppc probe yaml data out = cldn_EncodePointcloudData ft ops L ppc probe yaml data out).
Proof.
  intros ft ops L ppc probe HL. split; [|split; [|split]].
  - intros data out H. now apply data_eq.
  - intros msg out H. unfold DecodeCompressedMessage_w, cldn_DecodeCompressedMessage. destruct (getDeserializedPointCloudMessage msg) as [c| |] eqn:E; [|reflexivity|reflexivity].
    apply data_eq. intros i rest. now apply H.
  - intros msg r out H. split.
    + unfold EncodePointcloudMessage_w, cldn_EncodePointcloudMessage. destruct (getDeserializedPointCloudMessage msg) as [c| |] eqn:E; cbn [or_zero]; [|reflexivity|reflexivity].
      specialize (H c eq_refl). destruct (negb _); [reflexivity|]. rewrite spawned. destruct (new_encoder ft (message_info c r)) as [e| |] eqn:EN; cbn [or_zero]; [|reflexivity|reflexivity].
      destruct (fits_of _ _ _ _ _ _ EN H) as (HI & F1 & F2 & F3). destruct (i_step (message_info c r) =? 0); [reflexivity|]. rewrite <- HI.
      rewrite max_size_eq; [|exact F2|exact F3|intros t Ht; exact (max_nonneg wasm_word L ppc _ _ _ t HL F2 (zlen_nonneg _) Ht)].
      destruct (MaxCompressedSize _ _ _ _ _) as [mx| |]; cbn [or_zero]; [|reflexivity|reflexivity].
      rewrite !(proj2 (C82_encode wasm_word ops L ppc probe e (r_data c) [] true HL F1 F2 F3)).
      rewrite (proj1 (C82_encode wasm_word ops L ppc probe e (r_data c) (firstn (length msg) out) true HL F1 F2 F3)). reflexivity.
    + unfold ComputeCompressedSize_w, cldn_ComputeCompressedSize. destruct (getDeserializedPointCloudMessage msg) as [c| |] eqn:E; cbn [bind]; [|reflexivity|reflexivity].
      specialize (H c eq_refl). rewrite spawned. destruct (new_encoder ft (message_info c r)) as [e| |] eqn:EN; cbn [bind]; [|reflexivity|reflexivity].
      destruct (fits_of _ _ _ _ _ _ EN H) as (HI & F1 & F2 & F3). rewrite (proj2 (C82_encode wasm_word ops L ppc probe e (r_data c) [] true HL F1 F2 F3)). reflexivity.
  - intros yaml data out H. unfold EncodePointcloudData_w, cldn_EncodePointcloudData. destruct (EncodingInfoFromYAML ft yaml) as [i| |] eqn:E; cbn [or_zero]; [|reflexivity|reflexivity].
    specialize (H i eq_refl). destruct (negb _); [reflexivity|]. rewrite spawned. destruct (new_encoder ft i) as [e| |] eqn:EN; cbn [or_zero]; [|reflexivity|reflexivity].
    destruct (fits_of _ _ _ _ _ _ EN H) as (HI & F1 & F2 & F3). rewrite (proj2 (C82_encode wasm_word ops L ppc probe e data [] true HL F1 F2 F3)). reflexivity.
Qed.

(** Without threads every encoding function answers 0 and writes nothing, unless the header text asks
    for no compression. *)
Lemma no_spawn ft i : wants_thread i = true -> new_encoder_w ft false i = Throw.
Proof.
  intros H. unfold new_encoder_w. rewrite H. cbn [andb negb]. unfold new_encoder. cbn [EncodeHeader bind]. destruct (PointcloudEncoder _ _) eqn:E; [reflexivity|reflexivity|].
  exfalso. exact (ctor_defined _ _ E).
Qed.
Theorem C82_no_threads : forall W ft ops L ppc probe,
  (forall msg r out, 4 <= zlen msg ->
     ComputeCompressedSize_w W false ft ops L ppc probe msg r = Ok 0 /\ EncodePointcloudMessage_w W false ft ops L ppc probe msg r out = (Ok 0, out)) /\
  (forall yaml data out, (forall i, EncodingInfoFromYAML ft yaml = Ok i -> i_comp i <> COMP_NONE) ->
     EncodePointcloudData_w W false ft ops L ppc probe yaml data out = (Ok 0, out)).
Proof.
  intros W ft ops L ppc probe. split.
  - intros msg r out Hm. pose proof (C42_hostile_message msg Hm) as HU. unfold ComputeCompressedSize_w, EncodePointcloudMessage_w.
    destruct (getDeserializedPointCloudMessage msg) as [c| |]; [|auto|congruence]. cbn [bind or_zero]. rewrite no_spawn by reflexivity. cbn [bind or_zero]. split; [reflexivity|]. destruct (negb _); reflexivity.
  - intros yaml data out H. unfold EncodePointcloudData_w. pose proof (from_yaml_def ft yaml) as HU. destruct (EncodingInfoFromYAML ft yaml) as [i| |] eqn:E; [|reflexivity|congruence].
    specialize (H i eq_refl). cbn [or_zero]. destruct (negb _); [reflexivity|]. rewrite no_spawn; [reflexivity|]. unfold wants_thread.
    assert (i_threads i = true). { revert E. unfold EncodingInfoFromYAML. intros E. repeat (apply bind_ok in E; destruct E as (? & _ & E)). injection E as <-. reflexivity. }
    destruct (i_comp i); congruence.
Qed.
Print Assumptions C82_decode.
Print Assumptions C82_encode.
Print Assumptions C82_native_to_wasm.
Print Assumptions C82_entry_points.
Print Assumptions C82_no_threads.

(** ** Sizes that do not fit *)
(** One point of 128 KiB (three floats and padding): 64-bit machines encode it, with a 32-bit size_t the
    working memory has 32768 * 131072 = 2^32 = 0 bytes and the encoders write behind it. *)
Definition wide_info : info :=
  mkInfo [mkField (str "x") 0 FLOAT32 (Some 981668463); mkField (str "y") 4 FLOAT32 (Some 981668463); mkField (str "z") 8 FLOAT32 (Some 981668463)]
         1 1 131072 ENC_LOSSY [] COMP_NONE true 5.
Definition wide_cloud : list Z := List.repeat 0 (Z.to_nat 131072).
Theorem C82_wide_point_refuted : exists i cloud e, layout_ok i /\ known_enc i /\ bytes cloud /\ zlen cloud = i_step i /\ declared_fits wasm_word i /\
  PointcloudEncoder i (Ok []) = Ok e /\
  fst (fst (encode_vec sse_ops store_libs (Z.to_nat 32768) (Z.to_nat 4096) e cloud [])) = Ok 7 /\
  fst (fst (encode_vec_w wasm_word sse_ops store_libs (Z.to_nat 32768) (Z.to_nat 4096) e cloud [])) = UB.
Proof.
  exists wide_info, wide_cloud. destruct (PointcloudEncoder wide_info (Ok [])) as [e| |] eqn:E; [|discriminate E|discriminate E].
  exists e. split; [split; [reflexivity|]; repeat constructor; cbn; lia|]. split; [exact I|]. split; [apply Forall_forall; intros x Hx; apply repeat_spec in Hx; subst; unfold is_byte; lia|].
  split; [vm_compute; reflexivity|]. split; [vm_compute; intuition congruence|]. split; [reflexivity|].
  assert (Ee : match PointcloudEncoder wide_info (Ok []) with Ok x => x = e | _ => False end) by (rewrite E; reflexivity).
  vm_compute in Ee. rewrite <- Ee. split; vm_compute; reflexivity.
Qed.
(** A stream of a few bytes whose header declares 32768 such points with an integer field: 64-bit
    machines refuse it, with a 32-bit size_t the output needs 0 bytes and is written behind. *)
Definition wrap_info : info := mkInfo [mkField (str "t") 0 INT32 None] 32768 1 131072 ENC_LOSSY [] COMP_NONE true 5.
Definition wrap_stream : list Z := Eval vm_compute in match EncodeHeader gnu_text wrap_info HYaml with Ok h => h ++ [2; 0; 0; 0; 0; 3] | _ => [] end.
Theorem C82_wrapped_size_refuted : exists data, bytes data /\ zlen data < 256 /\
  cldn_DecodeCompressedData gnu_text sse_ops store_libs (Z.to_nat 32768) data [] = (Ok 0, []) /\
  DecodeCompressedData_w wasm_word gnu_text sse_ops store_libs (Z.to_nat 32768) data [] = (UB, []).
Proof.
  exists wrap_stream. split; [unfold wrap_stream, bytes; repeat (constructor; [unfold is_byte; lia|]); constructor|]. split; [vm_compute; reflexivity|].
  split; vm_compute; reflexivity.
Qed.
Print Assumptions C82_wide_point_refuted.
Print Assumptions C82_wrapped_size_refuted.

(** The hypotheses are met, with the real chunk size and a VGA-sized organised cloud of 32-byte points. *)
Definition vga_info : info :=
  mkInfo [mkField (str "x") 0 FLOAT32 (Some 981668463); mkField (str "y") 4 FLOAT32 (Some 981668463); mkField (str "z") 8 FLOAT32 (Some 981668463); mkField (str "t") 16 INT64 None]
         640 480 32 ENC_LOSSY [] COMP_ZSTD true 5.
Example C82_case : declared_fits wasm_word vga_info /\ stage_fits wasm_word (Z.to_nat 32768) vga_info /\
  output_fits wasm_word store_libs (Z.to_nat 32768) vga_info (Z.to_nat 307200) 1000 /\
  exists t, MaxCompressedSize store_libs (Z.to_nat 32768) vga_info (Z.to_nat 307200) 1000 = Ok t /\ 9000000 < t.
Proof.
  assert (HM : exists t, MaxCompressedSize store_libs (Z.to_nat 32768) vga_info (Z.to_nat 307200) 1000 = Ok t /\ 9000000 < t < wasm_word).
  { destruct (MaxCompressedSize store_libs (Z.to_nat 32768) vga_info (Z.to_nat 307200) 1000) as [t| |] eqn:E.
    - exists t. split; [reflexivity|]. assert (HB : match MaxCompressedSize store_libs (Z.to_nat 32768) vga_info (Z.to_nat 307200) 1000 with Ok t => (9000000 <? t) && (t <? wasm_word) | _ => false end = true) by (vm_compute; reflexivity).
      rewrite E in HB. lia.
    - assert (HB : match MaxCompressedSize store_libs (Z.to_nat 32768) vga_info (Z.to_nat 307200) 1000 with Ok t => true | _ => false end = true) by (vm_compute; reflexivity). rewrite E in HB. discriminate HB.
    - assert (HB : match MaxCompressedSize store_libs (Z.to_nat 32768) vga_info (Z.to_nat 307200) 1000 with Ok t => true | _ => false end = true) by (vm_compute; reflexivity). rewrite E in HB. discriminate HB. }
  destruct HM as (t & HM & Ht). split; [vm_compute; intuition congruence|]. split.
  { intros m Hm. vm_compute in Hm. injection Hm as <-. split; [unfold wasm_word; lia|]. vm_compute. reflexivity. }
  split; [intros u Hu; rewrite HM in Hu; assert (u = t) by congruence; lia|]. exists t. split; [exact HM|lia].
Qed.
