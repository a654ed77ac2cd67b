(** Properties C17-C22, C25-C27, C34, C35, C39, C40: whole clouds through the encoder and
    decoder objects. *)
From Verif Require Import Base BaseFacts Varint VarintFacts Types Floats Fields Codec V5 Api Spec LibSpec SeqSpec.
From Verif Require Import GorillaFacts FieldFacts WriteFacts CodecFacts BuildFacts RunFacts SectionFacts PaletteFacts V5Facts ChunkV5Facts Stage1Facts ApiFacts CloudFacts RoundTrip CloudRT LocalFacts SeqFacts ColumnFacts CloudApi Cases PropsField PropsColumn PropsStage1.

(** *** Vocabulary *)
(** One of the two encode overloads, called on [cloud], succeeded and produced [hdr]
    (nothing, or the encoder's header) followed by [body]. *)
Definition produces (ops : float_ops) (L : libs) (ppc probe : nat) (e : encoder) (cloud hdr body : list Z) : Prop :=
  (exists out (wh : bool) total out' e', bytes out /\ encode_view ops L ppc probe e cloud out wh = (Ok total, out', e') /\
     firstn (Z.to_nat total) out' = hdr ++ body /\ zlen (hdr ++ body) = total /\ hdr = (if wh then e_hdr e else [])) \/
  (exists out total out' e', bytes out /\ encode_vec ops L ppc probe e cloud out = (Ok total, out', e') /\
     out' = hdr ++ body /\ zlen (hdr ++ body) = total /\ hdr = e_hdr e).
(** Limits of the model of the V5 codec: at most 65535 points per chunk (the library: 32768)
    and at most 64 columns of 64-bit integers (the stage buffer
    has 64 spare bytes per point and such a column can take 11 bytes where 10 are counted). *)
Definition int_fields (i : info) : list field :=
  filter (fun f => match f_type f with INT16 | UINT16 | INT32 | UINT32 | INT64 | UINT64 => true | _ => false end) (i_fields i).
(** The 64-bit integer fields. *)
Definition wide_int_fields (i : info) : list field :=
  filter (fun f => match f_type f with INT64 | UINT64 => true | _ => false end) (i_fields i).
Definition chunk_limits (ppc : nat) (i : info) : Prop := (0 < ppc)%nat /\ Z.of_nat ppc <= 65535 /\ zlen (wide_int_fields i) <= 64.
(** What the encoding side must satisfy. *)
Definition encode_side (ppc : nat) (i : info) (cloud : list Z) : Prop :=
  layout_ok i /\ known_enc i /\ chunk_limits ppc i /\ bytes cloud.
(** The decoding side: same fields, possibly elsewhere or skipped, stored fields inside the
    point and not overlapping, usable resolutions, no integer field skipped. *)
Definition decode_side (i i' : info) : Prop :=
  same_fields i i' /\ out_layout_ok i' /\ consistent_output i i' /\ resolutions_ok i' /\ ints_stored i' /\
  i_comp i' = i_comp i /\ 3 <= i_version i'.
(** The declared number of points is that of the cloud. *)
Definition declares (i' : info) (n : nat) : Prop := (i_width i' * i_height i') mod 18446744073709551616 = Z.of_nat n.

Lemma limits_v5 ppc i : chunk_limits ppc i -> v5_limits ppc i.
Proof.
  intros (_ & H1 & H2) _. split; [exact H1|]. assert (E : wides (map mk_afield (adaptive_fields i)) = zlen (wide_int_fields i)); [|lia].
  unfold wides, wide_int_fields, adaptive_fields, zlen. f_equal. induction (i_fields i) as [|f l IH]; [reflexivity|]. cbn [filter].
  unfold isV5AdaptiveIntType in *. destruct f as [fn fo ft fr]. cbn [f_type] in *.
  destruct ft; cbn [map filter]; unfold a_size; cbn; rewrite ?IH; try reflexivity; cbn [length]; try (f_equal; exact IH); exact IH.
Qed.
Lemma produces_chunks ops L ppc probe i e hdr0 cloud hdr body : libs_ok L -> bytes hdr0 -> encode_side ppc i cloud ->
  encoder_of ops L ppc probe i (Ok hdr0) e -> produces ops L ppc probe e cloud hdr body ->
  exists n ms bss ps, chunks_of ops L ppc probe i cloud n ms bss ps /\ body = concat (map frame ps).
Proof.
  intros HLi Hh0 (HL & HK & HCl & Hc) HEo HPr. pose proof (limits_v5 _ _ HCl) as Hv5. destruct HCl as (Hp & _).
  destruct (encoder_of_ready _ _ _ _ _ _ _ HEo) as (HR & HI & Hh & _). injection Hh as Hh. rewrite Hh in Hh0. rewrite <- HI in *.
  destruct HPr as [(out & wh & total & out' & e' & Ho & HE & E1 & E2 & E3)|(out & total & out' & e' & Ho & HE & E1 & E2 & E3)].
  - destruct (encode_view_chunks _ _ _ _ _ _ _ _ _ _ _ HR HLi HL HK Hc Ho Hh0 Hp Hv5 HE) as (n & ms & bss & ps & A & B & _).
    exists n, ms, bss, ps. split; [exact A|]. rewrite E1, E3 in B. apply app_inv_head in B. exact B.
  - destruct (encode_vec_chunks _ _ _ _ _ _ _ _ _ _ HR HLi HL HK Hc Ho Hh0 Hp Hv5 HE) as (_ & _ & HS). destruct (HS total eq_refl) as (n & ms & bss & ps & A & B & _).
    exists n, ms, bss, ps. split; [exact A|]. rewrite E1, E3 in B. apply app_inv_head in B. exact B.
Qed.
Lemma frames_no_magic ps : Forall (fun p => zlen p <= UINT32_MAX) ps -> zlen (concat (map frame ps)) < 1431260227 -> has_magic (concat (map frame ps)) = false.
Proof.
  intros HF Hz. destruct ps as [|p ps]; [reflexivity|]. cbn [map concat] in *. unfold has_magic. apply andb_false_iff.
  destruct (Nat.leb_spec (length magic) (length (frame p ++ concat (map frame ps)))) as [_|]; [right|now left]. unfold list_eqb. destruct (list_eq_dec _ _ _) as [E|]; [|reflexivity]. exfalso.
  apply (f_equal (firstn 4)) in E. rewrite firstn_firstn in E. unfold frame in E. rewrite <- app_assoc in E.
  change (Nat.min 4 (length magic)) with 4%nat in E. rewrite firstn_app, le_bytes_length, Nat.sub_diag, firstn_O, app_nil_r in E.
  rewrite firstn_all2 in E by now rewrite le_bytes_length. apply (f_equal le_val) in E. pose proof (Forall_inv HF) as H4. cbn beta in H4. unfold UINT32_MAX in H4.
  pose proof (zlen_nonneg p). rewrite le_val_le_bytes, Z.mod_small in E by (change (256 ^ Z.of_nat 4) with 4294967296; lia).
  change (le_val (firstn 4 magic)) with 1431260227 in E. unfold frame at 1 in Hz. rewrite !zlen_app in Hz. pose proof (zlen_nonneg (concat (map frame ps))). pose proof (zlen_nonneg (le_bytes 4 (zlen p))). lia.
Qed.

(** * C17: decode (encode cloud) = cloud *)
Lemma chunks_decode ops L ppc probe i i' cloud n ms bss ps buf mem : encode_side ppc i cloud -> decode_side i i' -> deltas_ok ops i ppc cloud ->
  chunks_of ops L ppc probe i cloud n ms bss ps -> (UsesV5Codec i = false -> exists es, BuildV4Encoders i = Ok es) ->
  zlen (concat (map frame ps)) < 1431260227 -> declares i' n -> Z.of_nat n * i_step i' <= zlen mem ->
  (Forall (fun bs => fits (i_comp i) bs (dec_cap i')) bss ->
     exists buf' mem', decode ops L ppc i' (concat (map frame ps)) buf mem = Ok (buf', mem') /\ restored ops i i' n cloud mem mem') /\
  (~ Forall (fun bs => fits (i_comp i) bs (dec_cap i')) bss -> decode ops L ppc i' (concat (map frame ps)) buf mem = Throw).
Proof.
  intros (HL & HK & HCl & Hc) (HS & HO & HC & HR & HN & Hcm & Hver) HD (Hlen & HSt & HPs & _ & HP5 & HM) HB4 Hz Hdec Hm. pose proof (limits_v5 _ _ HCl) as Hv5. destruct HCl as (Hp & _).
  rewrite <- Hcm in *. apply (decode_chunks ops L ppc i i' cloud n ms HK HS HL HO HC HR (fun _ => ints_no_skip i' HN) Hv5 Hc (Nat.eq_le_incl _ _ (eq_sym Hlen)) Hp HD bss ps); auto.
  - intros _. destruct (UsesV5Codec i); [destruct (HP5 eq_refl) as (es & afs & ->); cbn; eauto|apply HB4; reflexivity].
  - apply frames_no_magic; [|exact Hz]. clear - HPs. induction HPs as [|bs p bss ps (_ & _ & H) _ IH]; constructor; auto.
Qed.
Lemma encoder_v4 ops L ppc probe i hdr e : encoder_of ops L ppc probe i hdr e -> UsesV5Codec i = false -> exists es, BuildV4Encoders i = Ok es.
Proof. intros H HU. destruct (encoder_of_ready _ _ _ _ _ _ _ H) as (HR & HI & _). unfold enc_ready in HR. rewrite HI in HR. destruct (HR HU) as [HB _]. eauto. Qed.

(** Without compression: what encode produced is decoded to the cloud.  [e]: any encoder
    object for [i], however often used before; [n]: number of points. *)
Theorem C17_roundtrip : forall ops L ppc probe i i' hdr0 e cloud hdr body n buf mem,
  libs_ok L -> bytes hdr0 -> encode_side ppc i cloud -> decode_side i i' -> deltas_ok ops i ppc cloud ->
  encoder_of ops L ppc probe i (Ok hdr0) e -> produces ops L ppc probe e cloud hdr body ->
  i_comp i = COMP_NONE -> zlen body < 1431260227 ->
  zlen cloud = Z.of_nat n * i_step i -> declares i' n -> Z.of_nat n * i_step i' <= zlen mem ->
  exists buf' mem', decode ops L ppc i' body buf mem = Ok (buf', mem') /\ restored ops i i' n cloud mem mem'.
Proof.
  intros ops L ppc probe i i' hdr0 e cloud hdr body n buf mem HLi Hh HES HDS HD HEo HPr HN Hz Hlen Hdec Hm.
  destruct (produces_chunks _ _ _ _ _ _ _ _ _ _ HLi Hh HES HEo HPr) as (n' & ms & bss & ps & HC & ->).
  assert (n' = n). { destruct HC as (HC & _). destruct HES as ((Hs & _) & _). unfold zlen in Hlen. rewrite HC in Hlen. nia. } subst n'.
  apply (chunks_decode ops L ppc probe i i' cloud n ms bss ps buf mem HES HDS HD HC (encoder_v4 _ _ _ _ _ _ _ HEo) Hz Hdec Hm).
  rewrite HN. apply Forall_forall. intros; exact I.
Qed.
Print Assumptions C17_roundtrip.

(** With any compression option, decoding never returns anything else: it restores the
    cloud or throws (C18 shows that it does throw for some clouds). *)
Theorem C17_never_wrong : forall ops L ppc probe i i' hdr0 e cloud hdr body n buf mem,
  libs_ok L -> bytes hdr0 -> encode_side ppc i cloud -> decode_side i i' -> deltas_ok ops i ppc cloud ->
  encoder_of ops L ppc probe i (Ok hdr0) e -> produces ops L ppc probe e cloud hdr body ->
  zlen body < 1431260227 -> zlen cloud = Z.of_nat n * i_step i -> declares i' n -> Z.of_nat n * i_step i' <= zlen mem ->
  (exists buf' mem', decode ops L ppc i' body buf mem = Ok (buf', mem') /\ restored ops i i' n cloud mem mem') \/
  decode ops L ppc i' body buf mem = Throw.
Proof.
  intros ops L ppc probe i i' hdr0 e cloud hdr body n buf mem HLi Hh HES HDS HD HEo HPr Hz Hlen Hdec Hm.
  destruct (produces_chunks _ _ _ _ _ _ _ _ _ _ HLi Hh HES HEo HPr) as (n' & ms & bss & ps & HC & ->).
  assert (n' = n). { destruct HC as (HC & _). destruct HES as ((Hs & _) & _). unfold zlen in Hlen. rewrite HC in Hlen. nia. } subst n'.
  destruct (chunks_decode ops L ppc probe i i' cloud n ms bss ps buf mem HES HDS HD HC (encoder_v4 _ _ _ _ _ _ _ HEo) Hz Hdec Hm) as [H1 H2].
  assert (Hdc : Forall (fun bs => fits (i_comp i) bs (dec_cap i')) bss \/ ~ Forall (fun bs => fits (i_comp i) bs (dec_cap i')) bss).
  { clear. induction bss as [|bs bss IH]; [left; constructor|].
    assert (Hb : fits (i_comp i) bs (dec_cap i') \/ ~ fits (i_comp i) bs (dec_cap i')) by (unfold fits; destruct (i_comp i); lia).
    destruct Hb as [Hb|Hb]; [|right; intros H; inversion H; contradiction]. destruct IH as [IH|IH]; [left; constructor; assumption|right; intros H; inversion H; contradiction]. }
  destruct Hdc; auto.
Qed.
Print Assumptions C17_never_wrong.

(** Worst size of a chunk of [k] points: at most 11 bytes per multi-byte field value and
    five bytes per column. *)
Definition worst_point (i : info) : Z :=
  fold_right (fun f s => match f_type f with INT8 | UINT8 => 1 | _ => 11 end + s) 0 (i_fields i).
Definition worst_chunk (i : info) (k : Z) : Z := k * worst_point i + 5 * zlen (i_fields i).
Lemma worst_max i m : MaxSerializedPointSize i = Ok m -> m + zlen (int_fields i) <= worst_point i.
Proof.
  unfold MaxSerializedPointSize, worst_point, int_fields. revert m. induction (i_fields i) as [|f l IH]; cbn [max_fields_size fold_right filter]; intros m H.
  - injection H as <-. reflexivity.
  - apply bind_ok in H. destruct H as (a & Ha & H). apply bind_ok in H. destruct H as (b & Hb & H). injection H as <-. specialize (IH b Hb).
    unfold MaxSerializedFieldSize in Ha. destruct (f_type f); try discriminate Ha; injection Ha as <-; rewrite ?zlen_cons; try lia; destruct (_ && _); lia.
Qed.
Lemma int_fields_le i : zlen (int_fields i) <= zlen (i_fields i).
Proof. unfold int_fields, zlen. induction (i_fields i) as [|f l IH]; cbn [filter length]; [lia|]. destruct (f_type f); cbn [length]; lia. Qed.
Lemma chunk_worst ops i ppc cloud ms c k bs : known_enc i -> (exists m, MaxSerializedPointSize i = Ok m) -> (k <= ppc)%nat -> chunk_rel ops i ppc cloud ms c k bs -> zlen bs <= worst_chunk i (Z.of_nat k).
Proof.
  intros HK (m & Hm) Hk HC. pose proof (worst_max i m Hm) as HW. unfold worst_chunk. pose proof (int_fields_le i) as HI. pose proof (zlen_nonneg (int_fields i)) as HI0. unfold chunk_rel in HC. destruct (UsesV5Codec i) eqn:HU.
  - destruct HC as (es & afs & HB & o & secs & _ & _ & _ & _ & Hz & _). destruct (plan_spec i es afs m HU HB Hm) as (_ & HA & Hs).
    assert (Ha : zlen afs = zlen (int_fields i)) by (rewrite HA; unfold zlen; rewrite map_length; reflexivity). pose proof (wides_range afs) as Hwr.
    assert (wides afs * Z.of_nat k <= zlen afs * Z.of_nat k) by (apply Z.mul_le_mono_nonneg_r; lia). rewrite Ha in *. nia.
  - destruct HC as (es & HB & _ & _ & Hz). destruct (build_v4_wf i es m HK HB Hm) as (_ & Hs). nia.
Qed.
Lemma dec_cap_declared i' n : declares i' n -> Z.of_nat n * i_step i' < 18446744073709551616 -> 0 < i_step i' -> dec_cap i' = Z.of_nat n * i_step i'.
Proof. unfold declares, dec_cap, u64. intros -> H H1. apply Z.mod_small. nia. Qed.

(** LZ4 and ZSTD: the cloud comes back whenever the decoder's scratch buffer, sized after
    the decoded cloud, takes the worst chunk. *)
Theorem C17_roundtrip_compressed : forall ops L ppc probe i i' hdr0 e cloud hdr body n buf mem,
  libs_ok L -> bytes hdr0 -> encode_side ppc i cloud -> decode_side i i' -> deltas_ok ops i ppc cloud ->
  encoder_of ops L ppc probe i (Ok hdr0) e -> produces ops L ppc probe e cloud hdr body ->
  i_comp i = COMP_LZ4 \/ i_comp i = COMP_ZSTD -> zlen body < 1431260227 ->
  zlen cloud = Z.of_nat n * i_step i -> declares i' n -> Z.of_nat n * i_step i' <= zlen mem ->
  worst_chunk i (Z.of_nat (Nat.min n ppc)) <= Z.of_nat n * i_step i' -> Z.of_nat n * i_step i' <= 2147483647 ->
  exists buf' mem', decode ops L ppc i' body buf mem = Ok (buf', mem') /\ restored ops i i' n cloud mem mem'.
Proof.
  intros ops L ppc probe i i' hdr0 e cloud hdr body n buf mem HLi Hh HES HDS HD HEo HPr HN Hz Hlen Hdec Hm Hw Hmax.
  destruct (produces_chunks _ _ _ _ _ _ _ _ _ _ HLi Hh HES HEo HPr) as (n' & ms & bss & ps & HC & ->).
  assert (n' = n). { destruct HC as (HC & _). destruct HES as ((Hs & _) & _). unfold zlen in Hlen. rewrite HC in Hlen. nia. } subst n'.
  apply (chunks_decode ops L ppc probe i i' cloud n ms bss ps buf mem HES HDS HD HC (encoder_v4 _ _ _ _ _ _ _ HEo) Hz Hdec Hm).
  rewrite (dec_cap_declared i' n Hdec) by (try lia; apply HDS). destruct HC as (_ & HSt & _ & _ & _ & HM). destruct HES as (_ & HK & (Hp & _) & _).
  assert (HF : Forall (fun bs => zlen bs <= Z.of_nat n * i_step i') bss).
  { eapply (stage1_forall (fun c k bs => chunk_rel ops i ppc cloud ms c k bs /\ (k <= Nat.min n ppc)%nat)).
    - intros c k bs [H1 H2]. pose proof (chunk_worst ops i ppc cloud ms c k bs HK HM ltac:(lia) H1) as H3.
      assert (worst_chunk i (Z.of_nat k) <= worst_chunk i (Z.of_nat (Nat.min n ppc))); [|lia].
      unfold worst_chunk. assert (0 <= worst_point i) by (unfold worst_point; clear; induction (i_fields i) as [|f l IH]; cbn; [lia|destruct (f_type f); lia]). nia.
    - eapply stage1_impl; [|exact Hp|exact HSt]. cbn beta. intros c k bs H1 H2 H3 H4. split; [exact H4|]. nia. }
  eapply Forall_impl; [|exact HF]. intros bs Hb. destruct HN as [-> | ->]; cbn [fits]; unfold INT_MAX; cbn beta in Hb; lia.
Qed.
Print Assumptions C17_roundtrip_compressed.

(** The hypotheses are met: a new encoder for [i], and its encode(vector) of [cloud]. *)
Definition total_of {A B C} (r : res A * B * C) (d : A) : A := match fst (fst r) with Ok t => t | _ => d end.
Lemma new_produces ops L ppc probe i hdr e cloud : PointcloudEncoder i (Ok hdr) = Ok e ->
  (let r := encode_vec ops L ppc probe e cloud [] in
   match fst (fst r) with Ok t => (t =? zlen (snd (fst r))) && list_eqb (firstn (length (e_hdr e)) (snd (fst r))) (e_hdr e) | _ => false end) = true ->
  encoder_of ops L ppc probe i (Ok hdr) e /\
  produces ops L ppc probe e cloud hdr (skipn (length hdr) (snd (fst (encode_vec ops L ppc probe e cloud [])))).
Proof.
  intros HE H. split; [now constructor|]. destruct (new_ready i (Ok hdr) e HE) as (_ & _ & Hh). injection Hh as Hh. rewrite Hh. cbv zeta in H.
  destruct (encode_vec ops L ppc probe e cloud []) as [[[t| |] out'] e'] eqn:EV; cbn [fst snd] in *; try discriminate H. apply andb_true_iff in H. destruct H as [H1 H2].
  apply Z.eqb_eq in H1. unfold list_eqb in H2. destruct (list_eq_dec _ _ _) as [H3|]; [|discriminate H2].
  right. exists [], t, out', e'. split; [constructor|]. split; [exact EV|]. 
  assert (E : e_hdr e ++ skipn (length (e_hdr e)) out' = out') by (rewrite <- H3 at 1; rewrite firstn_skipn; reflexivity). rewrite E. auto.
Qed.
Example C17_case : let i := scan 5 3 COMP_NONE in let hdr := [67;76;79;85;68] in
  libs_ok store_libs /\ bytes hdr /\ encode_side 2 i scan_cloud /\ decode_side i i /\ deltas_ok sse_ops i 2 scan_cloud /\
  exists e body, encoder_of sse_ops store_libs 2 4096 i (Ok hdr) e /\ produces sse_ops store_libs 2 4096 e scan_cloud hdr body /\
    zlen body = 75 /\ zlen scan_cloud = Z.of_nat 3 * i_step i /\ declares i 3 /\ Z.of_nat 3 * i_step i <= zlen (repeat 255 100) /\
    match decode sse_ops store_libs 2 i body [] (repeat 255 100) with
    | Ok (_, mem') => sub 12 4 mem' = [7;0;255;255] /\ sub 24 8 mem' = le_bytes 8 (u64 (-3)) /\ sub 88 12 mem' = le_bytes 8 (2 ^ 40) ++ [255;255;255;255]
    | _ => False
    end.
Proof.
  cbv zeta. split; [apply store_libs_ok|]. split; [apply bytesb; reflexivity|]. split.
  { split; [apply scan_layout|]. split; [exact I|]. split; [|apply scan_bytes]. split; [lia|]. split; [lia|vm_compute; discriminate]. }
  split.
  { split; [apply scan_same|]. split; [apply scan_out_layout|]. split; [apply scan_consistent|]. split; [apply scan_resolutions|]. split; [|split; [reflexivity|cbn; lia]].
    repeat constructor. }
  split; [apply scan_deltas|].
  pose (e := match PointcloudEncoder (scan 5 3 COMP_NONE) (Ok [67;76;79;85;68]) with Ok e => e | _ => mkEnc (scan 5 3 COMP_NONE) [] [] [] end).
  exists e, (skipn 5 (snd (fst (encode_vec sse_ops store_libs 2 4096 e scan_cloud [])))).
  destruct (new_produces sse_ops store_libs 2 4096 (scan 5 3 COMP_NONE) [67;76;79;85;68] e scan_cloud) as [H1 H2]; [vm_compute; reflexivity|vm_compute; reflexivity|].
  split; [exact H1|]. split; [exact H2|]. split; [vm_compute; reflexivity|]. split; [reflexivity|]. split; [reflexivity|]. split; [vm_compute; discriminate|].
  vm_compute. repeat split.
Qed.
(** The same scan, all fields used, compressed with a compressor that only stores: the
    scratch buffer (3 points of 32 bytes) does not take the worst chunk, so the third
    theorem says nothing for it; it does for 100-byte points. *)
Definition wide (w : Z) : info := mkInfo scan_fields w 1 100 ENC_LOSSY [] COMP_LZ4 false 5.
Example C17_compressed_case : let i := wide 3 in let cloud := flat_map (fun j => sub (32 * j) 32 scan_cloud ++ repeat 0 68) [0;1;2] in
  encode_side 2 i cloud /\ decode_side i i /\ deltas_ok sse_ops i 2 cloud /\
  exists e body, encoder_of sse_ops store_libs 2 4096 i (Ok []) e /\ produces sse_ops store_libs 2 4096 e cloud [] body /\
    zlen body < 1431260227 /\ zlen cloud = Z.of_nat 3 * i_step i /\ declares i 3 /\ worst_chunk i (Z.of_nat (Nat.min 3 2)) <= Z.of_nat 3 * i_step i <= 2147483647 /\
    zlen body = 77.
Proof.
  cbv zeta. split.
  { split; [split; [reflexivity|repeat constructor; cbn; lia]|]. split; [exact I|]. split; [|apply bytesb; vm_compute; reflexivity]. split; [lia|]. split; [lia|vm_compute; discriminate]. }
  split.
  { split; [split; [repeat constructor|auto]|]. split; [split; [reflexivity|repeat constructor; cbn; lia]|]. split; [left; cbn; repeat constructor; cbn; lia|]. split; [repeat constructor|]. split; [repeat constructor|split; [reflexivity|cbn; lia]]. }
  split; [apply (deltas_okb_ok _ _ _ _ 3); [vm_compute; reflexivity|reflexivity|vm_compute; reflexivity]|].
  set (cloud := flat_map _ _).
  pose (e := match PointcloudEncoder (wide 3) (Ok []) with Ok e => e | _ => mkEnc (wide 3) [] [] [] end).
  exists e, (skipn 0 (snd (fst (encode_vec sse_ops store_libs 2 4096 e cloud [])))).
  destruct (new_produces sse_ops store_libs 2 4096 (wide 3) [] e cloud) as [H1 H2]; [vm_compute; reflexivity|vm_compute; reflexivity|].
  split; [exact H1|]. split; [exact H2|]. split; [vm_compute; reflexivity|]. split; [vm_compute; reflexivity|]. split; [reflexivity|]. split; [split; vm_compute; discriminate|]. vm_compute. reflexivity.
Qed.
