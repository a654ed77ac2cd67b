(** C77, C78: the JavaScript callers. *)
From Verif Require Import Base BaseFacts Types Floats V5 Api Spec LibSpec Header Ros Wasm HostileFacts CloudFacts RoundTrip LocalFacts CloudApi PropsStage1 PropsCloud PropsBuffer PropsFit PropsHeader HeaderFacts YamlRT FloatText Cases ApiFacts Pcl PropsPcl Cdr PropsRos PropsWasm Transport PropsTransport PropsEntry Browser.
From Coq Require Import String Permutation.
Notation length := List.length.
Notation concat := List.concat.
Open Scope Z_scope.
Open Scope list_scope.

(** ** Specification *)
(** _malloc(n): no memory, or a block of n bytes that is not in use *)
Definition allocator (alloc : heap -> Z -> Z * list Z) : Prop :=
  forall h n, 0 <= n -> let '(p, c) := alloc h n in p = 0 \/ (p <> 0 /\ ~ In p (map fst h) /\ zlen c = n).

(** ** Proofs *)
Lemma free_head p c h : free p ((p, c) :: h) = Ok h.
Proof. cbn [free]. now rewrite Z.eqb_refl. Qed.
Lemma free_second p c q d h : q <> p -> free p ((q, d) :: (p, c) :: h) = Ok ((q, d) :: h).
Proof. intros H. cbn [free]. destruct (Z.eqb_spec q p); [contradiction|]. now rewrite Z.eqb_refl. Qed.

Section Foxglove.
  Variables (ft : float_text) (ops : float_ops) (L : libs) (ppc probe : nat).
  Variables (alloc : heap -> Z -> Z * list Z) (heap_len : Z).
  Local Notation convert := (convertPointCloudWasm ft ops L ppc alloc heap_len).

  Lemma finally_one {A} p c h (r : res A) : p <> 0 -> r <> UB -> finally [p; 0] ((p, c) :: h) r = (r, h).
  Proof. intros Hp Hr. unfold finally, free_all. destruct (Z.eqb_spec p 0); [contradiction|]. rewrite free_head. change (0 =? 0) with true. cbn [bind]. destruct r; [reflexivity|reflexivity|contradiction]. Qed.
  Lemma finally_two {A} p c q d h (r : res A) : p <> 0 -> q <> 0 -> q <> p -> r <> UB -> finally [p; q] ((q, d) :: (p, c) :: h) r = (r, h).
  Proof.
    intros Hp Hq Hpq Hr. unfold finally, free_all. destruct (Z.eqb_spec p 0); [contradiction|]. destruct (Z.eqb_spec q 0); [contradiction|]. rewrite free_second by exact Hpq. cbn [bind]. rewrite free_head. cbn [bind]. destruct r; [reflexivity|reflexivity|contradiction].
  Qed.
  (** the converter, once both blocks are there *)
  Lemma convert_runs h m p c q old : allocator alloc -> k_width m * k_height m <> 0 -> 4 * zlen (k_data m) <= heap_len -> zlen (k_data m) < 4294967296 ->
    alloc h (zlen (k_data m)) = (p, c) -> p <> 0 -> alloc ((p, k_data m) :: h) (u32 (k_height m * k_width m * k_step m)) = (q, old) -> q <> 0 ->
    let r := do data <- received (cldn_DecodeCompressedData ft ops L ppc (k_data m) old) ; Ok (decodedMsg m data) in
    zlen old = u32 (k_height m * k_width m * k_step m) /\ (r <> UB -> convert true h m = (r, h)) /\ (r = UB -> fst (convert true h m) = UB).
  Proof.
    intros HA Hn Hh Hz Ep Hp Eq Hq r. pose proof (HA ((p, k_data m) :: h) (u32 (k_height m * k_width m * k_step m)) ltac:(unfold u32; apply Z.mod_pos_bound; reflexivity)) as Hq'. rewrite Eq in Hq'. destruct Hq' as [?|(_ & HI & HL)]; [contradiction|].
    assert (Hpq : q <> p) by (intros ->; apply HI; left; reflexivity). split; [exact HL|].
    assert (E : convert true h m = finally [p; q] ((q, snd (cldn_DecodeCompressedData ft ops L ppc (k_data m) old)) :: (p, k_data m) :: h) r).
    { unfold convertPointCloudWasm. cbn [negb]. destruct (Z.eqb_spec (k_width m * k_height m) 0); [contradiction|]. cbv zeta. destruct (Z.ltb_spec heap_len (4 * zlen (k_data m))); [lia|].
      replace (u32 (zlen (k_data m))) with (zlen (k_data m)) by (symmetry; apply Z.mod_small; pose proof (zlen_nonneg (k_data m)); lia). rewrite Ep. destruct (Z.eqb_spec p 0); [contradiction|]. rewrite Eq. destruct (Z.eqb_spec q 0); [contradiction|]. reflexivity. }
    rewrite E. split; [intros Hr; now apply finally_two|intros ->; reflexivity].
  Qed.

  (** * C77: the Foxglove converter *)
  (** A message of the publisher plugin, a loaded module and room for the two blocks: the published
      cloud comes back with every field of every point restored as by encode/decode, or the converter
      throws; it does not throw when the decoder's scratch buffer takes the worst chunk.  Bytes that
      belong to no field are what the heap block held.  The heap is left as it was found. *)
  Theorem C77_foxglove_roundtrip resolution raw comp h p c q old : let i := msg_info raw (narrow resolution) in
    libs_ok L -> sendable ft ops ppc i raw -> encodeTyped ft ops L ppc probe resolution raw = Ok comp -> m_data raw <> [] -> zlen (k_data comp) < 1431260227 ->
    allocator alloc -> 4 * zlen (k_data comp) <= heap_len -> alloc h (zlen (k_data comp)) = (p, c) -> p <> 0 -> alloc ((p, k_data comp) :: h) (zlen (m_data raw)) = (q, old) -> q <> 0 ->
    let good := exists data, convert true h comp = (Ok (mkMsg (m_header raw) (m_height raw) (m_width raw) (m_fields raw) false (m_step raw) (m_step raw * m_width raw) data (m_dense raw)), h) /\
      restored ops i i (PropsTransport.points raw) (m_data raw) old data in
    (good \/ convert true h comp = (Throw, h)) /\ (fits_scratch ppc i raw -> good).
  Proof.
    intros i HLi HS HE Hne Hz HA Hh Ep Hp Eq Hq good. destruct (encodeTyped_stream ft ops L ppc probe resolution raw comp HLi HS HE) as [HSt HC]. fold i in HSt.
    destruct HS as (HCm & HES & HDS & HD & HY & HX & Hb).
    assert (k_header comp = m_header raw /\ k_height comp = m_height raw /\ k_width comp = m_width raw /\ k_step comp = m_step raw /\ k_fields comp = m_fields raw /\ k_dense comp = m_dense raw) as (K1 & K2 & K3 & K4 & K5 & K6) by (rewrite HC; repeat split; reflexivity).
    pose proof HCm as (Hw & Hhh & Hsz & Hz32). pose proof (zlen_nonneg (m_data raw)) as N0. assert (N1 : 0 < zlen (m_data raw)) by (unfold zlen; destruct (m_data raw); [contradiction|cbn [length]; lia]).
    assert (HU : u32 (k_height comp * k_width comp * k_step comp) = zlen (m_data raw)). { rewrite K2, K3, K4, Hsz. unfold u32. rewrite (Z.mul_comm (m_height raw)). apply Z.mod_small. rewrite <- Hsz. lia. }
    rewrite <- HU in Eq. destruct (convert_runs h comp p c q old HA ltac:(rewrite K2, K3; intros E0; rewrite E0 in Hsz; lia) Hh ltac:(lia) Ep Hp Eq Hq) as (HL & R1 & R2).
    assert (HSO : stream_of ft ops L ppc probe i (m_data raw) (zlen (k_data comp)) (k_data comp)).
    { destruct HSt as (hdr & e & body & A & B & D & E). exists hdr, e, body. split; [exact A|]. split; [exact B|]. split; [exact D|]. split; [|now rewrite <- E]. rewrite <- E. apply firstn_all2. unfold zlen. lia. }
    assert (HF : firstn (Z.to_nat (zlen (k_data comp))) (k_data comp) = k_data comp) by (apply firstn_all2; unfold zlen; lia).
    pose proof (C52_decode_data ft ops L ppc probe i (m_data raw) _ _ old HLi HCm HES HDS HD HY HX Hb eq_refl HSO Hz ltac:(rewrite HL, HU; lia)) as (G1 & G2). rewrite HF in G1, G2.
    assert (FIN : decoded ops i (m_data raw) old (cldn_DecodeCompressedData ft ops L ppc (k_data comp) old) -> good \/ convert true h comp = (Throw, h)).
    { intros (mem & E & HR). rewrite E in R1. unfold received in R1. destruct (Z.eqb_spec (zlen (m_data raw)) 0); [lia|]. destruct (s32 (zlen (m_data raw)) <? 0); [right; apply R1; discriminate|].
      assert (Hml : length mem = length (m_data raw)). { destruct HR as (HR1 & _). rewrite HR1, firstn_length. unfold zlen in *. lia. }
      left. exists mem. cbn [bind] in R1. rewrite R1 by discriminate. unfold decodedMsg. rewrite K1, K2, K3, K4, K5, K6. split.
      - replace (firstn (Z.to_nat (zlen (m_data raw))) (mem ++ skipn (length (m_data raw)) old)) with mem; [reflexivity|]. unfold zlen. rewrite Nat2Z.id, <- Hml, firstn_app, firstn_all, Nat.sub_diag. symmetry. apply app_nil_r.
      - replace old with (firstn (length (m_data raw)) old) by (apply firstn_all2; unfold zlen in HL; rewrite HU in HL; unfold zlen in HL; lia). exact HR. }
    assert (FIN2 : zlen (m_data raw) <= 2147483647 -> decoded ops i (m_data raw) old (cldn_DecodeCompressedData ft ops L ppc (k_data comp) old) -> good).
    { intros HB HDd. destruct (FIN HDd) as [G|G]; [exact G|exfalso]. destruct HDd as (mem & E & HR). rewrite E in R1. unfold received in R1. destruct (Z.eqb_spec (zlen (m_data raw)) 0); [lia|]. rewrite s32_id in R1 by lia. destruct (Z.ltb_spec (zlen (m_data raw)) 0); [lia|].
      cbn [bind] in R1. rewrite R1 in G by discriminate. discriminate. }
    split.
    - destruct G1 as [G|G]; [exact (FIN G)|right]. rewrite G in R1. unfold received in R1. cbn [Z.eqb bind] in R1. apply R1. discriminate.
    - intros (F1 & F2). apply FIN2; [exact F2|]. apply G2; [exact F1|exact F2].
  Qed.

  (** Whatever the message and whatever is wrong with it: both blocks are freed, each once, whether a
      cloud is returned or an exception thrown.  The only way to undefined behaviour is through the
      decoder, given a block of the size the message declares. *)
  Theorem C77_frees_everything loaded h m : allocator alloc -> zlen (k_data m) < 4294967296 ->
    (fst (convert loaded h m) <> UB -> snd (convert loaded h m) = h) /\
    (fst (convert loaded h m) = UB -> exists old, zlen old = u32 (k_height m * k_width m * k_step m) /\ fst (cldn_DecodeCompressedData ft ops L ppc (k_data m) old) = UB).
  Proof.
    intros HA Hz. destruct loaded; [|unfold convertPointCloudWasm; cbn [negb fst snd]; split; [reflexivity|discriminate]].
    assert (HB : 0 <= zlen (k_data m)) by apply zlen_nonneg.
    destruct (Z.eq_dec (k_width m * k_height m) 0) as [E0|E0]; [unfold convertPointCloudWasm; cbn [negb]; rewrite E0; cbn [Z.eqb fst snd]; split; [reflexivity|discriminate]|].
    destruct (Z.ltb_spec heap_len (4 * zlen (k_data m))) as [E1|E1].
    { unfold convertPointCloudWasm. cbn [negb]. destruct (Z.eqb_spec (k_width m * k_height m) 0); [contradiction|]. cbv zeta. destruct (Z.ltb_spec heap_len (4 * zlen (k_data m))); [|lia]. cbn [fst snd]. split; [reflexivity|discriminate]. }
    destruct (alloc h (zlen (k_data m))) as [p c] eqn:Ep. destruct (Z.eq_dec p 0) as [Hp|Hp].
    { unfold convertPointCloudWasm. cbn [negb]. destruct (Z.eqb_spec (k_width m * k_height m) 0); [contradiction|]. cbv zeta. destruct (Z.ltb_spec heap_len (4 * zlen (k_data m))); [lia|].
      replace (u32 (zlen (k_data m))) with (zlen (k_data m)) by (symmetry; apply Z.mod_small; lia). rewrite Ep, Hp. cbn [Z.eqb fst snd]. split; [reflexivity|discriminate]. }
    destruct (alloc ((p, k_data m) :: h) (u32 (k_height m * k_width m * k_step m))) as [q old] eqn:Eq. destruct (Z.eq_dec q 0) as [Hq|Hq].
    { assert (E : convert true h m = (Throw, h)); [|rewrite E; cbn [fst snd]; split; [reflexivity|discriminate]].
      unfold convertPointCloudWasm. cbn [negb]. destruct (Z.eqb_spec (k_width m * k_height m) 0); [contradiction|]. cbv zeta. destruct (Z.ltb_spec heap_len (4 * zlen (k_data m))); [lia|].
      replace (u32 (zlen (k_data m))) with (zlen (k_data m)) by (symmetry; apply Z.mod_small; lia). rewrite Ep. destruct (Z.eqb_spec p 0); [contradiction|]. rewrite Eq, Hq. change (0 =? 0) with true. cbv iota. apply finally_one; [exact Hp|discriminate]. }
    destruct (convert_runs h m p c q old HA E0 E1 Hz Ep Hp Eq Hq) as (HL & R1 & R2). cbv zeta in R1, R2.
    set (r := do data <- received (cldn_DecodeCompressedData ft ops L ppc (k_data m) old) ; Ok (decodedMsg m data)) in *.
    assert (D : r = UB \/ r <> UB) by (destruct r; [right; discriminate|right; discriminate|now left]). destruct D as [D|D].
    - split; [intros K; exfalso; apply K; now apply R2|intros _]. exists old. split; [exact HL|]. revert D. subst r. unfold cldn_DecodeCompressedData, or_zero.
      destruct (DecodeHeader ft (k_data m)) as [[i rest]| |]; cbn [received bind fst]; [|discriminate|reflexivity]. cbv zeta. set (size := size32 (i_width i) (i_height i) (i_step i)). assert (Hs : 0 <= size) by (apply Z.mod_pos_bound; reflexivity).
      destruct (Z.ltb_spec (zlen old) size) as [K|K]; cbn [received bind fst]; [reflexivity|]. destruct (decode ops L ppc i rest [] (firstn (Z.to_nat size) old)) as [[b mem]| |] eqn:ED; cbn [received bind fst]; [|discriminate|reflexivity].
      destruct (size =? 0); [discriminate|]. destruct (s32 size <? 0); discriminate.
    - split; [intros _; now rewrite R1|intros K; rewrite R1 in K by exact D; contradiction].
  Qed.
  (** Before the module is loaded the converter throws, and an empty cloud needs no decoding. *)
  Theorem C77_without_decoding h m : convert false h m = (Throw, h) /\
    (k_width m = 0 \/ k_height m = 0 -> convert true h m = (Ok (mkMsg (k_header m) (k_height m) (k_width m) (k_fields m) false (k_step m) (k_step m * k_width m) [] (k_dense m)), h)).
  Proof. split; [reflexivity|]. intros H. unfold convertPointCloudWasm. cbn [negb]. replace (k_width m * k_height m) with 0 by (destruct H as [-> | ->]; ring). reflexivity. Qed.
End Foxglove.

(** What that means for the values, as C72_ros says for the ROS subscriber. *)
Theorem C77_values ft ops ppc m rb old data : x86_or_scalar ops -> let i := msg_info m rb in sendable ft ops ppc i m -> restored ops i i (PropsTransport.points m) (m_data m) old data ->
  let n := Z.to_nat (m_width m * m_height m) in
  forall f, In f (m_fields m) ->
    (pf_type f = 7 -> usable_bits rb -> field_near rb (m_step m) (pf_off f) n (m_data m) data) /\
    (1 <= pf_type f <= 8 -> pf_type f <> 7 -> field_kept (m_step m) (pf_off f) (pcl_size (pf_type f)) n (m_data m) data).
Proof.
  intros HO i (HC & HES & HDS & HD & HY & HX & Hb) HR n f Hf. unfold PropsTransport.points in HR. assert (Hpos : 0 < m_step m) by apply HES.
  assert (Hn : (length (m_data m) / Z.to_nat (m_step m))%nat = n).
  { destruct HC as (Hw & Hh & Hsz & _). unfold n. apply Nat2Z.inj. rewrite Nat2Z.inj_div, !Z2Nat.id by lia. fold (zlen (m_data m)). rewrite Hsz. apply Z.div_mul. lia. }
  rewrite Hn in HR. set (g := msg_field rb f).
  assert (Hg : In g (i_fields i)) by (unfold i, msg_info, default_info; cbn [i_fields]; apply in_map; exact Hf).
  assert (HS : 1 <= pf_type f <= 8 -> SizeOf (f_type g) = pcl_size (pf_type f) /\ (1 <= SizeOf (f_type g))%nat).
  { intros Ht. unfold g, msg_field. cbn [f_type]. destruct (type_codes _ Ht) as [K|[K|[K|[K|[K|[K|[K|K]]]]]]]; rewrite K; split; cbn; try reflexivity; lia. }
  change (m_step m) with (i_step i). change (pf_off f) with (f_off g). split.
  - intros K Hu. destruct (HS ltac:(lia)) as (_ & HS1). apply (restored_near ops i n _ _ _ HR eq_refl g rb HO Hu Hg); [|unfold g, msg_field; cbn [f_type]; rewrite K; reflexivity|unfold g, msg_field; cbn [f_res]; rewrite K; reflexivity].
    apply (layout_inside ft i); [apply HES|exact HY|exact Hg|exact HS1].
  - intros Ht K. destruct (HS Ht) as (HS0 & HS1). rewrite <- HS0. apply (restored_kept ops i n _ _ _ HR eq_refl g Hg).
    + apply (layout_inside ft i); [apply HES|exact HY|exact Hg|exact HS1].
    + left. unfold g, msg_field. cbn [f_res]. destruct (type_codes _ Ht) as [J|[J|[J|[J|[J|[J|[J|J]]]]]]]; rewrite J in *; try reflexivity. contradiction.
Qed.

(** *** A case, and what is not true *)
(** an allocator whose fresh blocks hold [fill] everywhere *)
Definition bump (fill : Z) (h : heap) (n : Z) : Z * list Z := (1 + fold_right Z.max 0 (map fst h), repeat fill (Z.to_nat n)).
Lemma bump_allocator fill : allocator (bump fill).
Proof.
  intros h n Hn. unfold bump. right. assert (B : 0 <= fold_right Z.max 0 (map fst h) /\ forall p, In p (map fst h) -> p <= fold_right Z.max 0 (map fst h)).
  { induction (map fst h) as [|x l (IH1 & IH2)]; cbn [fold_right]; [split; [lia|intros p []]|]. split; [lia|]. intros p [<-|H]; [lia|]. specialize (IH2 p H). lia. }
  destruct B as (B1 & B2). split; [lia|]. split; [intros H; specialize (B2 _ H); lia|]. unfold zlen. rewrite repeat_length, Z2Nat.id; [reflexivity|exact Hn].
Qed.
Definition demo_heap : heap := [(64, [1; 2; 3])].
Definition fox (fill : Z) (m : comp_msg) : res pc2_msg * heap := convertPointCloudWasm gnu_text sse_ops store_libs 2 (bump fill) 67108864 true demo_heap m.
(** The hypotheses of C77_foxglove_roundtrip are met by C61's case (see C61_case). *)
Example C77_case : exists comp r, encodeTyped gnu_text sse_ops store_libs 2 4096 half (cloud_msg 2 1 32 false two_points) = Ok comp /\ zlen (k_data comp) < 1431260227 /\ 4 * zlen (k_data comp) <= 67108864 /\
  fox 170 comp = (Ok r, demo_heap) /\ m_row r = 32 /\ m_data r <> [].
Proof. eexists _, _. split; [vm_compute; reflexivity|]. split; [vm_compute; reflexivity|]. split; [vm_compute; discriminate|]. split; [vm_compute; reflexivity|]. split; [reflexivity|]. vm_compute. discriminate. Qed.

(** The converter trusts the sizes in the message: if the stream inside was made for more points, the
    decoder writes past the end of the block. *)
Theorem C77_size_mismatch_refuted : exists comp m, encodeTyped gnu_text sse_ops store_libs 2 4096 half (cloud_msg 2 1 32 false two_points) = Ok comp /\
  m = mkComp (k_header comp) 1 1 (k_fields comp) false 16 16 (k_data comp) true [] /\ fst (fox 170 m) = UB.
Proof. eexists _, _. split; [vm_compute; reflexivity|]. split; [reflexivity|]. vm_compute. reflexivity. Qed.
(** If it was made for fewer, a cloud with too little data is returned (the mismatch is only logged). *)
Theorem C77_short_data_refuted : exists comp m r, encodeTyped gnu_text sse_ops store_libs 2 4096 half (cloud_msg 2 1 32 false two_points) = Ok comp /\
  m = mkComp (k_header comp) 1 3 (k_fields comp) false 16 48 (k_data comp) true [] /\ fox 170 m = (Ok r, demo_heap) /\ m_row r * m_height r = 48 /\ zlen (m_data r) = 32.
Proof. eexists _, _, _. split; [vm_compute; reflexivity|]. split; [reflexivity|]. split; [vm_compute; reflexivity|]. vm_compute. split; reflexivity. Qed.
(** The bytes between the fields are uninitialised memory of the module: the same message gives
    different clouds. *)
Theorem C77_deterministic_refuted : exists comp r1 r2, encodeTyped gnu_text sse_ops store_libs 2 4096 half (cloud_msg 2 1 32 false two_points) = Ok comp /\
  fox 170 comp = (Ok r1, demo_heap) /\ fox 85 comp = (Ok r2, demo_heap) /\ m_data r1 <> m_data r2.
Proof. eexists _, _, _. split; [vm_compute; reflexivity|]. split; [vm_compute; reflexivity|]. split; [vm_compute; reflexivity|]. vm_compute. discriminate. Qed.

(** * C78: the page *)
(** ** Specification *)
Definition on_target (target : list Z) (r : recording) (m : message) : Prop := exists c, In c (rec_channels r) /\ ch_id c = ms_channel m /\ ch_schema c = Some target.
(** A recording in which the page counts each message once: the ids of the channels are distinct, no
    two PointCloud2 channels have the same topic, and no other channel has a topic of theirs. *)
Definition plain_topics (target : list Z) (r : recording) : Prop :=
  NoDup (map ch_id (rec_channels r)) /\
  (forall c d, In c (rec_channels r) -> In d (rec_channels r) -> ch_schema c = Some target -> ch_topic c = ch_topic d -> c = d).
(** the sum of [f] over the messages of the PointCloud2 channels *)
Inductive sum_over (P : message -> Prop) (f : message -> Z) : list message -> Z -> Prop :=
| Sum_nil : sum_over P f [] 0
| Sum_in m ms s : P m -> sum_over P f ms s -> sum_over P f (m :: ms) (f m + s)
| Sum_out m ms s : ~ P m -> sum_over P f ms s -> sum_over P f (m :: ms) s.
(** _malloc never fails *)
Definition enough_memory (alloc : heap -> Z -> Z * list Z) : Prop := forall h n, fst (alloc h n) <> 0.
(** what the page takes for the compressed size of one message *)
Definition counted (compute : list Z -> res Z) (heap_len : Z) (m : message) : Z :=
  if heap_len <? 4 * zlen (ms_data m) then 0 else match compute (ms_data m) with Ok n => s32 n | _ => 0 end.

(** ** Proofs *)
Definition sum_list (f : message -> Z) (ms : list message) : Z := fold_right (fun m s => f m + s) 0 ms.
Section Page.
  Variables (compute : list Z -> res Z) (alloc : heap -> Z -> Z * list Z) (heap_len : Z).
  Local Notation msgs := (analyzeMessages compute alloc heap_len).
  Local Notation chans := (analyzeChannels compute alloc heap_len).
  Hypothesis (HA : enough_memory alloc).

  Lemma one_message t h m : compute (ms_data m) <> UB -> exists h', analyzeMessage compute alloc heap_len t h m =
    Ok (mkTot (t_count t + 1) (t_size t + zlen (ms_data m)) (t_compressed t + counted compute heap_len m), h') /\ (compute (ms_data m) <> Throw -> h' = h).
  Proof.
    intros HU. unfold analyzeMessage, counted. cbv zeta. destruct (Z.ltb_spec heap_len (4 * zlen (ms_data m))) as [E|E]; [exists h; rewrite Z.add_0_r; split; reflexivity|].
    pose proof (HA h (u32 (zlen (ms_data m)))) as Hp. destruct (alloc h (u32 (zlen (ms_data m)))) as [p c]. cbn [fst] in Hp. destruct (Z.eqb_spec p 0); [contradiction|].
    destruct (compute (ms_data m)) as [n0| |] eqn:EC.
    - rewrite free_head. cbn [bind t_count t_size t_compressed]. exists h. split; [reflexivity|trivial].
    - eexists. rewrite Z.add_0_r. split; [reflexivity|]. intros HT. contradiction.
    - contradiction.
  Qed.
  Lemma all_messages ms : Forall (fun m => compute (ms_data m) <> UB) ms -> forall t h, exists h', msgs t h ms =
    Ok (mkTot (t_count t + zlen ms) (t_size t + sum_list (fun m => zlen (ms_data m)) ms) (t_compressed t + sum_list (counted compute heap_len) ms), h') /\ (Forall (fun m => compute (ms_data m) <> Throw) ms -> h' = h).
  Proof.
    induction ms as [|m ms IH]; intros HU t h; cbn [analyzeMessages sum_list fold_right].
    - exists h. split; [|trivial]. unfold zlen. cbn [length]. change (Z.of_nat 0) with 0. rewrite !Z.add_0_r. destruct t; reflexivity.
    - destruct (one_message t h m (Forall_inv HU)) as (h1 & E1 & F1). rewrite E1. cbn [bind]. destruct (IH (Forall_inv_tail HU) (mkTot (t_count t + 1) (t_size t + zlen (ms_data m)) (t_compressed t + counted compute heap_len m)) h1) as (h2 & E2 & F2). rewrite E2. exists h2. cbn [t_count t_size t_compressed]. split.
      + fold (sum_list (fun m => zlen (ms_data m)) ms) (sum_list (counted compute heap_len) ms). replace (zlen (m :: ms)) with (1 + zlen ms) by (unfold zlen; cbn [length]; lia). rewrite !Z.add_assoc. reflexivity.
      + intros HT. rewrite (F2 (Forall_inv_tail HT)). apply F1. exact (Forall_inv HT).
  Qed.
  Lemma all_channels r : forall cs, (forall c, In c cs -> Forall (fun m => compute (ms_data m) <> UB) (readMessages r (ch_topic c))) -> forall h, exists h', chans r h cs =
    Ok (map (fun c => mkTot (zlen (readMessages r (ch_topic c))) (sum_list (fun m => zlen (ms_data m)) (readMessages r (ch_topic c))) (sum_list (counted compute heap_len) (readMessages r (ch_topic c)))) cs, h') /\
    ((forall c, In c cs -> Forall (fun m => compute (ms_data m) <> Throw) (readMessages r (ch_topic c))) -> h' = h).
  Proof.
    induction cs as [|c cs IH]; intros HU h; cbn [analyzeChannels map]; [exists h; split; [reflexivity|trivial]|].
    destruct (all_messages (readMessages r (ch_topic c)) (HU c (or_introl eq_refl)) (mkTot 0 0 0) h) as (h1 & E1 & F1). rewrite E1. cbn [bind t_count t_size t_compressed]. destruct (IH (fun d Hd => HU d (or_intror Hd)) h1) as (h2 & E2 & F2). rewrite E2. cbn [bind]. exists h2. split; [reflexivity|].
    intros HT. rewrite (F2 (fun d Hd => HT d (or_intror Hd))). apply F1. apply HT. now left.
  Qed.
End Page.
Lemma grand_sum f ts : grand f ts = fold_right (fun t s => f t + s) 0 ts.
Proof.
  unfold grand. assert (G : forall a, fold_left (fun s t => s + f t) ts a = a + fold_right (fun t s => f t + s) 0 ts); [|rewrite (G 0); lia].
  induction ts as [|t ts IH]; intros a; cbn [fold_left fold_right]; [lia|]. rewrite IH. lia.
Qed.
(** exchange of the sums *)
Lemma sums_swap (g : message -> Z) (b : channel -> message -> bool) cs ms :
  fold_right (fun c s => sum_list g (filter (b c) ms) + s) 0 cs = fold_right (fun m s => g m * Z.of_nat (length (filter (fun c => b c m) cs)) + s) 0 ms.
Proof.
  set (cnt := fun cs m => Z.of_nat (length (filter (fun c => b c m) cs))).
  assert (C0 : forall m, cnt [] m = 0) by reflexivity.
  assert (C1 : forall c cs m, cnt (c :: cs) m = (if b c m then 1 else 0) + cnt cs m). { intros c l m. unfold cnt. cbn [filter]. destruct (b c m); [cbn [length]; rewrite Nat2Z.inj_succ|]; lia. }
  change (fold_right (fun c s => sum_list g (filter (b c) ms) + s) 0 cs = fold_right (fun m s => g m * cnt cs m + s) 0 ms). clearbody cnt.
  induction cs as [|c cs IH].
  - induction ms as [|m ms IHm]; cbn [fold_right] in *; [reflexivity|]. rewrite <- IHm, C0. ring.
  - cbn [fold_right]. rewrite IH. clear IH. induction ms as [|m ms IHm]; cbn [fold_right filter]; [reflexivity|]. rewrite <- IHm, C1. destruct (b c m); cbn [sum_list fold_right]; fold (sum_list g (filter (b c) ms)); ring.
Qed.
Lemma foundb target c : (match ch_schema c with Some s => if list_eq_dec Z.eq_dec s target then true else false | None => false end) = true <-> ch_schema c = Some target.
Proof. destruct (ch_schema c) as [s|]; [|split; discriminate]. destruct (list_eq_dec Z.eq_dec s target) as [->|N]; [split; reflexivity|]. split; [discriminate|congruence]. Qed.
Lemma one_elt {A} (l : list A) x : NoDup l -> In x l -> (forall y, In y l -> y = x) -> length l = 1%nat.
Proof. intros H Hx HL. destruct l as [|a [|b l]]; [contradiction|reflexivity|]. exfalso. inversion H as [|? ? N _]; subst. apply N. left. rewrite (HL a), (HL b); cbn; auto. Qed.
Lemma ids_unique cs (c d : channel) : NoDup (map ch_id cs) -> In c cs -> In d cs -> ch_id c = ch_id d -> c = d.
Proof.
  induction cs as [|a cs IH]; cbn [map In]; [contradiction|]. intros H Hc Hd E. inversion H as [|? ? N HN]; subst.
  destruct Hc as [<-|Hc], Hd as [<-|Hd]; [reflexivity|exfalso; apply N; rewrite E; now apply in_map|exfalso; apply N; rewrite <- E; now apply in_map|now apply IH].
Qed.
Lemma nodup_map {A B} (f : A -> B) l : NoDup (map f l) -> NoDup l.
Proof. induction l as [|a l IH]; cbn [map]; intros H; [constructor|]. inversion H as [|? ? N HN]; subst. constructor; [|now apply IH]. intros K. apply N. now apply in_map. Qed.

Section Count.
  Variables (target : list Z) (r : recording).
  Definition reads (c : channel) (m : message) : bool := existsb (fun d => (ch_id d =? ms_channel m) && (if list_eq_dec Z.eq_dec (ch_topic d) (ch_topic c) then true else false)) (rec_channels r).
  Lemma reads_spec c m : reads c m = true <-> exists d, In d (rec_channels r) /\ ch_id d = ms_channel m /\ ch_topic d = ch_topic c.
  Proof.
    unfold reads. rewrite existsb_exists. split; intros (d & Hd & H); exists d; (split; [exact Hd|]).
    - apply andb_true_iff in H. destruct H as (H1 & H2). split; [lia|]. destruct (list_eq_dec Z.eq_dec (ch_topic d) (ch_topic c)); [assumption|discriminate].
    - destruct H as (H1 & H2). rewrite H1, Z.eqb_refl, H2. destruct (list_eq_dec Z.eq_dec (ch_topic c) (ch_topic c)); [reflexivity|contradiction].
  Qed.
  Lemma counted_once m : plain_topics target r -> on_target target r m -> length (filter (fun c => reads c m) (foundChannels target r)) = 1%nat.
  Proof.
    intros (H1 & H2) (c0 & Hc & Hi & Hs). apply (one_elt _ c0).
    - apply NoDup_filter, NoDup_filter. exact (nodup_map _ _ H1).
    - apply filter_In. split; [apply filter_In; split; [exact Hc|now apply foundb]|]. apply reads_spec. exists c0. auto.
    - intros y Hy. apply filter_In in Hy. destruct Hy as (Hy & Hb). apply filter_In in Hy. destruct Hy as (Hy & Hf). apply foundb in Hf. apply reads_spec in Hb. destruct Hb as (d & Hd & E1 & E2).
      assert (d = c0) by (apply (ids_unique (rec_channels r)); [assumption..|congruence]). subst d. apply H2; auto.
  Qed.
  Lemma counted_never m : plain_topics target r -> ~ on_target target r m -> filter (fun c => reads c m) (foundChannels target r) = [].
  Proof.
    intros (H1 & H2) HN. destruct (filter (fun c => reads c m) (foundChannels target r)) as [|y l] eqn:E; [reflexivity|exfalso]. assert (Hy : In y (filter (fun c => reads c m) (foundChannels target r))) by (rewrite E; now left).
    apply filter_In in Hy. destruct Hy as (Hy & Hb). apply filter_In in Hy. destruct Hy as (Hy & Hf). apply foundb in Hf. apply reads_spec in Hb. destruct Hb as (d & Hd & E1 & E2).
    assert (y = d) by (apply H2; auto). subst y. apply HN. exists d. auto.
  Qed.
  Lemma weighted g s : plain_topics target r -> forall ms, sum_over (on_target target r) g ms s -> fold_right (fun m s => g m * Z.of_nat (length (filter (fun c => reads c m) (foundChannels target r))) + s) 0 ms = s.
  Proof.
    intros HP ms H. induction H as [|m ms s Hm _ IH|m ms s Hm _ IH]; cbn [fold_right]; [reflexivity|..]; rewrite IH.
    - rewrite counted_once by assumption. lia.
    - rewrite counted_never by assumption. cbn [length]. lia.
  Qed.
End Count.
Lemma read_on_target target r (P : message -> Prop) : plain_topics target r -> (forall m, In m (rec_messages r) -> on_target target r m -> P m) -> forall c, In c (foundChannels target r) -> Forall P (readMessages r (ch_topic c)).
Proof.
  intros (_ & H2) H c Hc. apply Forall_forall. intros m Hm. apply filter_In in Hm. destruct Hm as (Hm & Hb). apply H; [exact Hm|]. apply (proj1 (reads_spec r c m)) in Hb. destruct Hb as (d & Hd & E1 & E2).
  apply filter_In in Hc. destruct Hc as (Hc & Hf). apply foundb in Hf. assert (c = d) by (apply H2; auto). subst c. exists d. auto.
Qed.
Lemma sum_total target r g : forall ms, exists s, sum_over (on_target target r) g ms s.
Proof.
  induction ms as [|m ms (s & IH)]; [exists 0; constructor|].
  assert (D : on_target target r m \/ ~ on_target target r m).
  { destruct (existsb (fun c => (ch_id c =? ms_channel m) && (match ch_schema c with Some s => if list_eq_dec Z.eq_dec s target then true else false | None => false end)) (rec_channels r)) eqn:E.
    - left. apply existsb_exists in E. destruct E as (c & Hc & E). apply andb_true_iff in E. destruct E as (E1 & E2). apply foundb in E2. exists c. split; [exact Hc|]. split; [lia|exact E2].
    - right. intros (c & Hc & E1 & E2). assert (K : existsb (fun c => (ch_id c =? ms_channel m) && (match ch_schema c with Some s => if list_eq_dec Z.eq_dec s target then true else false | None => false end)) (rec_channels r) = true); [|congruence].
      apply existsb_exists. exists c. split; [exact Hc|]. apply andb_true_iff. split; [lia|now apply foundb]. }
  destruct D; eexists; [apply Sum_in; eassumption|apply Sum_out; eassumption].
Qed.

(** The numbers on the page: the sizes of the messages of all PointCloud2 channels, and the compressed
    sizes of those that are not too large for the module.  The heap is as before when the module
    throws no exception. *)
Theorem C78_totals target compute alloc heap_len r h : enough_memory alloc -> plain_topics target r -> (forall m, In m (rec_messages r) -> on_target target r m -> compute (ms_data m) <> UB) ->
  exists size packed h', analyzeFile target compute alloc heap_len r h = Ok (size, packed, h') /\
    sum_over (on_target target r) (fun m => zlen (ms_data m)) (rec_messages r) size /\ sum_over (on_target target r) (counted compute heap_len) (rec_messages r) packed /\
    ((forall m, In m (rec_messages r) -> on_target target r m -> compute (ms_data m) <> Throw) -> h' = h).
Proof.
  intros HA HP HU. destruct (all_channels compute alloc heap_len HA r (foundChannels target r) (read_on_target target r _ HP HU) h) as (h' & E & F).
  destruct (sum_total target r (fun m => zlen (ms_data m)) (rec_messages r)) as (s1 & S1). destruct (sum_total target r (counted compute heap_len) (rec_messages r)) as (s2 & S2).
  exists s1, s2, h'. split; [|split; [exact S1|split; [exact S2|intros HT; exact (F (read_on_target target r _ HP HT))]]]. unfold analyzeFile. rewrite E. cbn [bind].
  assert (G : forall (f : totals -> Z) (k : channel -> totals) g, (forall c, f (k c) = sum_list g (readMessages r (ch_topic c))) -> forall s, sum_over (on_target target r) g (rec_messages r) s -> grand f (map k (foundChannels target r)) = s).
  { intros f k g Hk s Hs. rewrite grand_sum. etransitivity; [|exact (weighted target r g s HP _ Hs)]. rewrite <- (sums_swap g (reads r)). generalize (foundChannels target r). intros l. induction l as [|c cs IH]; cbn [map fold_right]; [reflexivity|]. rewrite IH, Hk. reflexivity. }
  match goal with |- Ok (grand _ (map ?k _), _, _) = _ => rewrite (G t_size k (fun m => zlen (ms_data m)) (fun c => eq_refl) s1 S1), (G t_compressed k (counted compute heap_len) (fun c => eq_refl) s2 S2) end. reflexivity.
Qed.

(** The two builds of the module, one that catches C++ exceptions and one that does not, give the same
    numbers (but see C78_leak_refuted). *)
Theorem C78_same_numbers ft ops L ppc probe target alloc heap_len r h h2 : enough_memory alloc ->
  let caught := fun d => cldn_ComputeCompressedSize ft ops L ppc probe d millimetre32 in let uncaught := compute_uncaught ft ops L ppc probe millimetre32 in
  (forall m, In m (rec_messages r) -> on_target target r m -> caught (ms_data m) <> UB) -> plain_topics target r ->
  exists size packed h1 h3, analyzeFile target caught alloc heap_len r h = Ok (size, packed, h1) /\ analyzeFile target uncaught alloc heap_len r h2 = Ok (size, packed, h3) /\ h1 = h.
Proof.
  intros HA caught uncaught HU HP.
  assert (R : forall d, caught d = match uncaught d with Throw => Ok 0 | x => x end) by reflexivity.
  assert (HU2 : forall m, In m (rec_messages r) -> on_target target r m -> uncaught (ms_data m) <> UB). { intros m Hi Ho K. apply (HU m Hi Ho). rewrite R, K. reflexivity. }
  assert (HT : forall d, caught d <> Throw). { intros d. rewrite R. destruct (uncaught d); discriminate. }
  assert (HCt : forall m, counted caught heap_len m = counted uncaught heap_len m). { intros m. unfold counted. destruct (heap_len <? 4 * zlen (ms_data m)); [reflexivity|]. rewrite R. destruct (uncaught (ms_data m)); reflexivity. }
  destruct (C78_totals target caught alloc heap_len r h HA HP HU) as (s & p & h1 & E & S1 & S2 & F). destruct (C78_totals target uncaught alloc heap_len r h2 HA HP HU2) as (s' & p' & h3 & E' & S1' & S2' & _).
  assert (D : forall P f g ms a, (forall m, f m = g m) -> sum_over P f ms a -> forall b, sum_over P g ms b -> a = b).
  { intros P f g ms a Hfg H. induction H as [|m ms s0 Hm _ IH|m ms s0 Hm _ IH]; intros b Hb; inversion Hb; subst; try contradiction; [reflexivity|rewrite Hfg; f_equal|]; now apply IH. }
  exists s, p, h1, h3. rewrite E, E'. rewrite (D _ _ _ _ _ (fun m => eq_refl) S1 _ S1'), (D _ _ _ _ _ HCt S2 _ S2'). split; [reflexivity|]. split; [reflexivity|]. apply F. intros m _ _. apply HT.
Qed.
(** Each number that is summed up is 0 or the size of an encoding with a resolution of a millimetre. *)
Theorem C78_one_message ft ops L ppc probe heap_len m c : let i := message_info c millimetre32 in let compute := fun d => cldn_ComputeCompressedSize ft ops L ppc probe d millimetre32 in
  libs_ok L -> getDeserializedPointCloudMessage (ms_data m) = Ok c -> encode_side ppc i (r_data c) -> byte_texts ft i ->
  counted compute heap_len m = 0 \/ exists n s, n = zlen s /\ stream_of ft ops L ppc probe i (r_data c) n s /\ (n < 2147483648 -> counted compute heap_len m = n).
Proof.
  intros i compute HLi HG HES Hb. unfold counted. destruct (heap_len <? 4 * zlen (ms_data m)); [now left|].
  destruct (C52_compute_size ft ops L ppc probe (ms_data m) millimetre32 c HLi HG HES Hb) as [E|(n & s & E & En & ST)]; unfold compute; rewrite E; [now left|]. right. exists n, s. split; [exact En|]. split; [exact ST|].
  intros Hn. pose proof (zlen_nonneg s). rewrite Z.mod_small by (change (2 ^ 32) with 4294967296; lia). apply s32_id. lia.
Qed.

(** *** A case, and what is not true *)
Definition pc2_schema : list Z := str "sensor_msgs/msg/PointCloud2".
Definition demo_page (compute : list Z -> res Z) (r : recording) (h : heap) : res (Z * Z * heap) := analyzeFile pc2_schema compute (bump 0) 67108864 r h.
Definition page_compute (d : list Z) : res Z := cldn_ComputeCompressedSize gnu_text sse_ops store_libs 128 4096 d millimetre32.
Definition page_uncaught : list Z -> res Z := compute_uncaught gnu_text sse_ops store_libs 128 4096 millimetre32.
Definition demo_recording : recording :=
  mkRec [mkChan 1 (str "/points") (Some pc2_schema); mkChan 2 (str "/imu") (Some (str "sensor_msgs/msg/Imu")); mkChan 3 (str "/front/points") (Some pc2_schema); mkChan 4 (str "/odd") None]
        [mkMess 1 (raw_message small_points); mkMess 2 [1; 2; 3]; mkMess 3 (raw_message big_points); mkMess 1 (raw_message big_points); mkMess 4 [7]; mkMess 3 [0; 1; 0; 0; 5]].
Example C78_case : plain_topics pc2_schema demo_recording /\ enough_memory (bump 0) /\ (forall m, In m (rec_messages demo_recording) -> page_compute (ms_data m) <> UB) /\ exists size packed, demo_page page_compute demo_recording demo_heap = Ok (size, packed, demo_heap) /\
  size = zlen (raw_message small_points) + 2 * zlen (raw_message big_points) + 5 /\ 0 < packed.
Proof.
  split; [|split; [|split]].
  - split; [repeat constructor; cbn; intuition discriminate|]. intros c d Hc Hd. cbn in Hc, Hd. destruct Hc as [<-|[<-|[<-|[<-|[]]]]], Hd as [<-|[<-|[<-|[<-|[]]]]]; cbn; intros H1 H2; try reflexivity; discriminate.
  - intros h n. pose proof (bump_allocator 0 h 0 ltac:(lia)) as K. cbn in K |- *. destruct (fold_right Z.max 0 (map fst h)) eqn:E; try discriminate. destruct p; try discriminate. intros _. assert (0 <= fold_right Z.max 0 (map fst h)); [|lia].
    clear. induction (map fst h); cbn [fold_right]; lia.
  - intros m Hm. cbn in Hm. destruct Hm as [<-|[<-|[<-|[<-|[<-|[<-|[]]]]]]]; vm_compute; discriminate.
  - eexists _, _. split; [vm_compute; reflexivity|]. split; vm_compute; reflexivity.
Qed.
(** Two channels of one topic (two publishers, or a recording that was interrupted): every message is
    counted twice. *)
Theorem C78_shared_topic_refuted : exists r, NoDup (map ch_id (rec_channels r)) /\ Forall (fun m => on_target pc2_schema r m) (rec_messages r) /\ exists size packed, demo_page page_compute r [] = Ok (size, packed, []) /\
  size = 2 * fold_right (fun m s => zlen (ms_data m) + s) 0 (rec_messages r) /\ 0 < size.
Proof.
  exists (mkRec [mkChan 1 (str "/points") (Some pc2_schema); mkChan 2 (str "/points") (Some pc2_schema)] [mkMess 1 (raw_message small_points); mkMess 2 (raw_message big_points)]). split; [repeat constructor; cbn; intuition discriminate|]. split.
  - constructor; [eexists; split; [left; reflexivity|split; reflexivity]|]. constructor; [eexists; split; [right; left; reflexivity|split; reflexivity]|constructor].
  - eexists _, _. split; [vm_compute; reflexivity|]. split; vm_compute; reflexivity.
Qed.
(** Messages that are too large for the module count as compressed to nothing: a recording of only such
    messages is shown with a compressed size of 0. *)
Theorem C78_large_messages_refuted : forall compute alloc heap_len data h, heap_len < 4 * zlen data ->
  analyzeFile pc2_schema compute alloc heap_len (mkRec [mkChan 1 (str "/points") (Some pc2_schema)] [mkMess 1 data]) h = Ok (zlen data, 0, h).
Proof.
  intros compute alloc heap_len data h H. unfold analyzeFile. change (foundChannels pc2_schema (mkRec [mkChan 1 (str "/points") (Some pc2_schema)] [mkMess 1 data])) with [mkChan 1 (str "/points") (Some pc2_schema)].
  cbn [analyzeChannels ch_topic]. change (readMessages (mkRec [mkChan 1 (str "/points") (Some pc2_schema)] [mkMess 1 data]) (str "/points")) with [mkMess 1 data]. cbn [analyzeMessages]. unfold analyzeMessage. cbn [ms_data t_count t_size t_compressed].
  cbv zeta. destruct (Z.ltb_spec heap_len (4 * zlen data)); [|lia]. cbn [bind grand fold_left t_size t_compressed]. reflexivity.
Qed.
(** With the page's build of the module, a message that cannot be read leaves its block allocated. *)
Theorem C78_leak_refuted : exists r size packed b, demo_page page_uncaught r [] = Ok (size, packed, [b]) /\ zlen (snd b) = size /\ 0 < size /\ demo_page page_compute r [] = Ok (size, packed, []).
Proof. exists (mkRec [mkChan 1 (str "/points") (Some pc2_schema)] [mkMess 1 [0; 1; 0; 0; 5]]). eexists _, _, _. split; [vm_compute; reflexivity|]. split; [reflexivity|]. split; [reflexivity|]. vm_compute. reflexivity. Qed.

Print Assumptions C77_foxglove_roundtrip.
Print Assumptions C77_frees_everything.
Print Assumptions C77_without_decoding.
Print Assumptions C77_values.
Print Assumptions C77_size_mismatch_refuted.
Print Assumptions C77_short_data_refuted.
Print Assumptions C77_deterministic_refuted.
Print Assumptions C78_totals.
Print Assumptions C78_same_numbers.
Print Assumptions C78_one_message.
Print Assumptions C78_shared_topic_refuted.
Print Assumptions C78_large_messages_refuted.
Print Assumptions C78_leak_refuted.
