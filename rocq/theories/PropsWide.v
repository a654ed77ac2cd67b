(** C88: buffers that are always large enough, and clouds for which none is. *)
From Verif Require Import Base BaseFacts Varint VarintFacts Types Floats Fields Codec V5 Api Spec LibSpec SeqSpec.
From Verif Require Import GorillaFacts FieldFacts WriteFacts CodecFacts BuildFacts RunFacts SectionFacts PaletteFacts V5Facts ChunkV5Facts Stage1Facts ApiFacts CloudFacts RoundTrip CloudRT LocalFacts SeqFacts ColumnFacts CloudApi SizeFacts Cases PropsField PropsColumn PropsStage1 PropsCloud PropsFit PropsSize WideFacts.

(** ** Specification *)
(** What a chunk of [bytes] bytes may take in the output, with its length prefix. *)
Definition framed (L : libs) (opt : comp_opt) (bytes : Z) : Z :=
  4 + match opt with COMP_LZ4 => c_bound (lz4 L) bytes | COMP_ZSTD => c_bound (zstd L) bytes | _ => bytes end.
(** Header, then for each chunk what a full chunk of most expensive points may take. *)
Definition ample (L : libs) (ppc : nat) (i : info) (n : nat) (hdr : Z) : Z :=
  hdr + Z.of_nat ((n + ppc - 1) / ppc) * framed L (i_comp i) (tight_chunk i (Z.of_nat (Nat.min n ppc))).

(** ** An ample buffer *)
Lemma rooms_ample L opt ppc B (P : nat -> nat -> list Z -> Prop) : libs_ok L -> (0 < ppc)%nat -> B <= 2113929216 ->
  forall c left bss, (forall c' k bs, (0 < k <= Nat.min left ppc)%nat -> (c <= c')%nat -> P c' k bs -> zlen bs <= B) ->
  stage1 P ppc c left bss ->
  rooms L opt bss <= Z.of_nat ((left + ppc - 1) / ppc) * framed L opt B /\ Forall (fun bs => zlen bs <= B) bss.
Proof.
  intros [H4 HZ] Hp HB c left bss HP HS. induction HS as [c|c left bs bss Hl HPc HS IH].
  - split; [|constructor]. cbn [rooms fold_right]. rewrite Nat.add_0_l, Nat.div_small by lia. lia.
  - set (k := Nat.min left ppc) in *. destruct IH as (I1 & I2); [intros; apply (HP c' k0); auto; lia|].
    pose proof (HP c k bs ltac:(unfold k; lia) (le_n c) HPc) as Hz. pose proof (zlen_nonneg bs) as Hzn.
    split; [|constructor; [exact Hz|exact I2]]. cbn [rooms fold_right]. fold (rooms L opt bss).
    assert (E : ((left + ppc - 1) / ppc = S ((left - k + ppc - 1) / ppc))%nat).
    { unfold k. destruct (Nat.le_gt_cases left ppc) as [G|G].
      - rewrite Nat.min_l by lia. rewrite Nat.sub_diag, Nat.add_0_l, (Nat.div_small (ppc - 1)) by lia. replace (left + ppc - 1)%nat with (left - 1 + 1 * ppc)%nat by lia. rewrite Nat.div_add, Nat.div_small by lia. lia.
      - rewrite Nat.min_r by lia. replace (left + ppc - 1)%nat with (left - ppc + ppc - 1 + 1 * ppc)%nat by lia. rewrite Nat.div_add by lia. lia. }
    rewrite E, Nat2Z.inj_succ. enough (room L opt (zlen bs) <= framed L opt B) by lia.
    unfold room, framed. destruct opt; try lia.
    + pose proof (lib_mono _ H4 (zlen bs) B ltac:(lia)). unfold LIB_MAX in *. lia.
    + pose proof (lib_mono _ HZ (zlen bs) B ltac:(lia)). unfold LIB_MAX in *. lia.
Qed.
Theorem C88_ample : forall ops L ppc probe i hdr0 e cloud n out (wh : bool) need,
  libs_ok L -> bytes hdr0 -> encode_side ppc i cloud -> known_types i -> enc_resolutions_ok i -> tight_chunk i (Z.of_nat (Nat.min n ppc)) <= 2113929216 ->
  encoder_of ops L ppc probe i (Ok hdr0) e -> zlen cloud = Z.of_nat n * i_step i ->
  MaxCompressedSize L ppc i n (if wh then zlen hdr0 else 0) = Ok need -> bytes out -> need <= zlen out ->
  ample L ppc i n (if wh then zlen hdr0 else 0) <= zlen out -> (i_comp i = COMP_LZ4 -> zlen out <= 2147483647) ->
  exists total out' e', encode_view ops L ppc probe e cloud out wh = (Ok total, out', e') /\ 0 <= total <= zlen out /\ length out' = length out.
Proof.
  intros ops L ppc probe i hdr0 e cloud n out wh need HLi Hh (HL & HK & HCl & Hc) HT HER HBd HEo Hz HMC Ho Hroom Hample HLz.
  destruct (known_max i HT) as (m & HM). pose proof (limits_v5 _ _ HCl) as Hv5. destruct HCl as (Hp & Hp5 & _).
  destruct (encoder_of_ready _ _ _ _ _ _ _ HEo) as (HR & HI & Hhd & _). injection Hhd as ->. subst i.
  destruct (points_of cloud _ n (proj1 HL) Hz) as (Hn & Hmod & Hlen).
  enough (exists total out' e', encode_view ops L ppc probe e cloud out wh = (Ok total, out', e')) as (total & out' & e' & E).
  { exists total, out', e'. split; [exact E|].
    destruct (encode_view_spec _ _ _ _ _ _ _ _ _ _ _ HR HLi HL HK Hc Ho Hh Hp Hv5 E) as (_ & S2 & _ & HOk).
    split; [|exact S2]. destruct (HOk total eq_refl) as (n1 & ms1 & bss1 & ps1 & _ & _ & _ & _ & _ & A6 & A7).
    pose proof (zlen_nonneg (if wh then e_hdr e else [])). pose proof (zlen_nonneg (concat (map frame ps1))). unfold zlen in A7 |- *. rewrite S2 in A7. unfold zlen in *. lia. }
  set (i := e_info e) in *. unfold encode_view. fold i.
  assert (Hs0 : 0 < i_step i) by apply HL. replace (i_step i =? 0) with false by lia. rewrite Hmod, Hn. cbn [negb Z.eqb].
  unfold MaxCompressedSize in HMC |- *. replace (i_step i =? 0) with false in HMC |- * by lia. rewrite HM in HMC |- *. cbn [bind] in HMC |- *.
  apply bind_ok in HMC. destruct HMC as (t & Ht & HMC). assert (Hneed : (if wh then zlen (e_hdr e) else 0) + t = need) by congruence. clear HMC. rewrite Ht. cbn [bind].
  set (hdr := if wh then e_hdr e else []).
  assert (Hhb : bytes hdr) by (unfold hdr; destruct wh; [exact Hh|constructor]).
  assert (Hhz : (if wh then zlen (e_hdr e) else 0) = zlen hdr) by (unfold hdr; destruct wh; reflexivity). rewrite Hhz in Hneed, Hample.
  replace (zlen out <? 0 + t + zlen hdr) with false by lia.
  assert (Ht0 : 0 <= t).
  { pose proof (max_size_nonneg L ppc i n 0 t HLi (Z.le_refl 0)) as H. apply H. unfold MaxCompressedSize. replace (i_step i =? 0) with false by lia. rewrite HM. cbn [bind]. now rewrite Ht. }
  destruct (write_header hdr out (e_sts e) Hhb Ho ltac:(lia)) as (w1 & HK1 & HW1).
  unfold encode_write. rewrite (HK1 _ (fun _ => perform m <- encode_body ops L ppc probe e cloud n ; ret (zlen hdr + m))).
  assert (Hw1 : w_ok w1) by apply HW1.
  assert (HsT : w_sts w1 = e_sts e) by (destruct HW1 as ((_ & _ & H & _) & _); exact H).
  assert (HP0 : exists es afs, UsesV5Codec i = false \/ BuildV5Plan i = Ok (es, afs)) by (destruct (plan_ok i HT HER) as (es & afs & H); eauto).
  destruct (body_spec ops L ppc probe e cloud n m HR HL HK Hc Hlen Hp Hv5 HM HP0) as (ms & bss & HS & HBM & HBody). fold i in HS, HBM, HBody.
  destruct (HBody w1) as (sts' & EB). { intros HU. rewrite HsT. apply HR, HU. }
  unfold abind. rewrite EB. unfold lift.
  assert (Hbb : Forall bytes bss) by (eapply stage1_forall; [|exact HS]; intros c k bs; apply chunk_rel_bytes).
  assert (HST : exists r w2, write_all L (i_comp i) bss w1 = (Ok r, w2)).
  { destruct (Nat.eq_dec n 0) as [Hn0|Hn0]; [rewrite Hn0 in HS; inversion HS; [|lia]; exists 0, w1; reflexivity|].
    destruct (rooms_ample L (i_comp i) ppc (tight_chunk i (Z.of_nat (Nat.min n ppc))) (chunk_rel ops i ppc cloud ms) HLi Hp HBd 0 n bss) as [HRB1 HRB2]; [|exact HS|].
    { intros c k bs Hk _ HC. pose proof (chunk_tight ops i ppc cloud ms c k bs HK ltac:(eauto) ltac:(lia) HC) as H.
      enough (tight_chunk i (Z.of_nat k) <= tight_chunk i (Z.of_nat (Nat.min n ppc))) by lia.
      unfold tight_chunk. pose proof (cost_nonneg (fks i)). change (tight_point i) with (cost_sum (fks i)). nia. }
    unfold ample in Hample.
    pose proof (wrote_avail _ _ _ HW1) as Hav. unfold avail in Hav at 2. cbn [w_pos w_mem] in Hav.
    apply (write_all_total L (i_comp i) bss HLi Hbb w1 Hw1); [|lia].
    eapply Forall_impl; [|exact HRB2]. intros bs Hbs. cbv beta in Hbs. assert (Hbs2 : zlen bs <= 2113929216) by (eapply Z.le_trans; [exact Hbs|exact HBd]). unfold small, LIB_MAX. change UINT32_MAX with 4294967295. destruct (i_comp i) eqn:EC.
    - split; [lia|exact I].
    - split; [lia|]. split; [lia|]. pose proof (zlen_nonneg hdr). specialize (HLz eq_refl). change INT_MAX with 2147483647. lia.
    - split; lia.
    - exfalso. clear - Ht Hp EC Hn0. rewrite (chunks_count_S ppc n Hp) in Ht by lia. cbn [chunks_bound] in Ht. unfold chunk_bound in Ht. rewrite EC in Ht. discriminate Ht. }
  destruct HST as (r & w2 & E). rewrite E. cbn [fst snd ret]. eexists _, _, _. reflexivity.
Qed.
Print Assumptions C88_ample.
(** Four INT64 values in chunks of two, compressed: 3000 bytes are ample. *)
Example C88_ample_case : let i := one64 5 4 COMP_ZSTD in let cloud := cloud64 [0; 4611686018427387904; 0; 4611686018427387904] in
  libs_ok store_libs /\ bytes [1; 2; 3] /\ encode_side 2 i cloud /\ known_types i /\ enc_resolutions_ok i /\ tight_chunk i (Z.of_nat (Nat.min 4 2)) <= 2113929216 /\
  (exists e, encoder_of sse_ops store_libs 2 1 i (Ok [1; 2; 3]) e) /\ zlen cloud = Z.of_nat 4 * i_step i /\
  (exists need, MaxCompressedSize store_libs 2 i 4 3 = Ok need /\ need <= 3000) /\ ample store_libs 2 i 4 3 <= 3000 /\ zlen (repeat 0 (Z.to_nat 3000)) = 3000.
Proof.
  cbv zeta. split; [apply store_libs_ok|]. split; [apply bytesb; reflexivity|]. split.
  { split; [split; [reflexivity|repeat constructor; cbn; lia]|]. split; [exact I|]. split; [split; [lia|split; [lia|vm_compute; discriminate]]|apply cloud64_bytes]. }
  split; [repeat constructor|]. split; [repeat constructor|]. split; [vm_compute; discriminate|].
  split; [eexists; apply eo_new; reflexivity|]. split; [reflexivity|]. split; [eexists; split; [vm_compute; reflexivity|lia]|]. split; [vm_compute; discriminate|]. unfold zlen. rewrite repeat_length. lia.
Qed.

(** ** Clouds no buffer is large enough for *)
(** Sixty-five INT64 columns, lossy mode, no compression; [names] are one byte long. *)
Definition int64_columns (m : nat) (w : Z) : info :=
  mkInfo (map (fun k => fld (33 + Z.of_nat k) (8 * Z.of_nat k) INT64 None) (seq 0 m)) w 1 (8 * Z.of_nat m) ENC_LOSSY [] COMP_NONE false 5.
(** Every column of a point holds the same value. *)
Definition alike (m : nat) (vs : list Z) : list Z := flat_map (fun v => concat (repeat (le_bytes 8 v) m)) vs.

Lemma rep_length (w : list Z) m : length (concat (repeat w m)) = (m * length w)%nat.
Proof. induction m as [|m IH]; [reflexivity|]. cbn [repeat concat]. rewrite app_length, IH. lia. Qed.
Lemma alike_bytes m vs : bytes (alike m vs).
Proof.
  unfold alike. induction vs as [|v vs IH]; cbn [flat_map]; [constructor|]. apply bytes_app. split; [|exact IH].
  clear IH. induction m as [|m IHm]; cbn [repeat concat]; [constructor|]. apply bytes_app. split; [apply le_bytes_bytes|exact IHm].
Qed.
Lemma alike_length m vs : length (alike m vs) = (length vs * (m * 8))%nat.
Proof. unfold alike. induction vs as [|v vs IH]; [reflexivity|]. cbn [flat_map length]. rewrite app_length, rep_length, le_bytes_length, IH. lia. Qed.
Lemma alike_skip m k : forall vs, skipn (k * (m * 8)) (alike m vs) = alike m (skipn k vs).
Proof.
  induction k as [|k IH]; intros vs; [reflexivity|]. destruct vs as [|v vs]; [now rewrite !skipn_nil|]. unfold alike. cbn [flat_map skipn].
  replace (S k * (m * 8))%nat with (k * (m * 8) + length (concat (repeat (le_bytes 8 v) m)))%nat by (rewrite rep_length, le_bytes_length; lia). rewrite <- skipn_skipn, skipn_app, skipn_all, Nat.sub_diag. cbn [skipn app]. apply IH.
Qed.
Lemma alike_column m j k : (j < m)%nat -> forall vs, (k <= length vs)%nat -> column (mkA (8 * Z.of_nat j) INT64) (m * 8) k (alike m vs) = map (le_bytes 8) (firstn k vs).
Proof.
  intros Hj. induction k as [|k IH]; intros vs Hk; [reflexivity|]. destruct vs as [|v vs]; [cbn in Hk; lia|]. rewrite column_S. cbn [firstn map]. f_equal.
  - unfold sub. cbn [a_off a_size a_type]. change (a_size (mkA (8 * Z.of_nat j) INT64)) with 8%nat. unfold alike. cbn [flat_map]. replace (Z.to_nat (8 * Z.of_nat j)) with (j * 8)%nat by lia.
    rewrite skipn_app, rep_length, le_bytes_length. replace (j * 8 - m * 8)%nat with O by lia. cbn [skipn].
    assert (E : forall j m, (j < m)%nat -> exists r, skipn (j * 8) (concat (repeat (le_bytes 8 v) m)) = le_bytes 8 v ++ r).
    { clear. induction j as [|j IH]; intros [|m] H; try lia; [eexists; reflexivity|]. destruct (IH m ltac:(lia)) as (r & E). exists r. cbn [repeat concat].
      replace (S j * 8)%nat with (j * 8 + length (le_bytes 8 v))%nat by (rewrite le_bytes_length; lia). rewrite <- skipn_skipn, skipn_app, skipn_all, Nat.sub_diag. cbn [skipn app]. exact E. }
    destruct (E j m Hj) as (r & ->). rewrite <- app_assoc. replace 8%nat with (length (le_bytes 8 v)) at 1 by apply le_bytes_length. rewrite firstn_app, firstn_all, Nat.sub_diag, firstn_O, app_nil_r. reflexivity.
  - replace (m * 8)%nat with (1 * (m * 8))%nat at 2 by lia. rewrite alike_skip. cbn [skipn]. apply IH. cbn in Hk. lia.
Qed.
Lemma none_defined L ppc i n h mp : i_comp i = COMP_NONE -> MaxSerializedPointSize i = Ok mp -> MaxCompressedSize L ppc i n h = UB -> False.
Proof.
  intros Hc HM. unfold MaxCompressedSize. destruct (i_step i =? 0); [discriminate|]. rewrite HM. cbn [bind].
  assert (H : forall c n, chunks_bound L i mp ppc c n <> UB).
  { clear n. intros c. induction c as [|c IH]; intros n; [discriminate|]. cbn [chunks_bound]. unfold chunk_bound. rewrite Hc. cbv beta zeta. cbn [bind].
    specialize (IH (n - Nat.min n ppc)%nat). destruct (chunks_bound L i mp ppc c (n - Nat.min n ppc)); cbn [bind]; congruence. }
  specialize (H (chunks_count ppc n) n). destruct (chunks_bound L i mp ppc (chunks_count ppc n) n); cbn [bind]; congruence.
Qed.
Lemma wide_view ops L ppc probe n m w vs e out wh mp s1 s2 : libs_ok L -> bytes (e_hdr e) -> bytes out -> e_info e = int64_columns m w -> (0 < m)%nat ->
  BuildV5Plan (int64_columns m w) = Ok ([], map (fun j => mkA (8 * Z.of_nat j) INT64) (seq 0 m)) -> UsesV5Codec (int64_columns m w) = true -> MaxSerializedPointSize (int64_columns m w) = Ok mp ->
  layout_ok (int64_columns m w) -> (0 < ppc)%nat -> Z.of_nat ppc <= 65535 -> (n = ppc + ppc)%nat -> length vs = n -> Forall (fun v => 0 <= v < 9223372036854775808) vs ->
  (forall mo, best_mode a64 (firstn probe (map (le_bytes 8) (firstn ppc vs))) mo -> mo = DeltaRle) ->
  encodedDeltaRleSectionSize (firstn ppc vs) = s1 -> encodedDeltaRleSectionSize (firstn ppc (skipn ppc vs)) = s2 ->
  let cap := Z.of_nat ppc * (Z.max (8 * Z.of_nat m) mp + 64) + Z.of_nat m * 64 + 1024 in
  Z.of_nat m * s1 <= cap < Z.of_nat m * s2 -> 0 <= cap ->
  fst (fst (encode_view ops L ppc probe e (alike m vs) out wh)) = Throw.
Proof.
  intros HLi Hh Ho Hi Hm HP HU HM HL Hp Hp2 Hn Hvl HV Hmode Hs1 Hs2 cap Hc1 Hc0. set (i := int64_columns m w) in *. set (afs := map (fun j => mkA (8 * Z.of_nat j) INT64) (seq 0 m)) in *.
  unfold encode_view. rewrite Hi. assert (Hst : i_step i = 8 * Z.of_nat m) by reflexivity. rewrite Hst. replace (8 * Z.of_nat m =? 0) with false by lia.
  destruct (negb (zlen (alike m vs) mod (8 * Z.of_nat m) =? 0)); [reflexivity|].
  replace (Z.to_nat (8 * Z.of_nat m)) with (m * 8)%nat by lia. rewrite alike_length, Nat.div_mul, Hvl by lia.
  destruct (MaxCompressedSize L ppc i n 0) as [t| |] eqn:EM; [|reflexivity|].
  2: { exfalso. apply (none_defined L ppc i n 0 mp eq_refl HM EM). }
  set (hdr := if wh then e_hdr e else []). assert (Hhb : bytes hdr) by (unfold hdr; destruct wh; [exact Hh|constructor]).
  pose proof (max_size_nonneg L ppc i n 0 t HLi (Z.le_refl 0) EM) as Ht.
  destruct (zlen out <? t + zlen hdr) eqn:EZ; [reflexivity|].
  destruct (write_header hdr out (e_sts e) Hhb Ho ltac:(lia)) as (w1 & HK1 & HW1).
  unfold encode_write. rewrite (HK1 _ (fun _ => perform k <- encode_body ops L ppc probe e (alike m vs) n ; ret (zlen hdr + k))).
  assert (Hw1 : w_ok w1) by apply HW1. unfold abind. unfold encode_body. rewrite Hi, HU. unfold V5StageBufferSize. rewrite HM, Hst. cbn [bind]. rewrite HP.
  replace (Z.to_nat (8 * Z.of_nat m)) with (m * 8)%nat by lia.
  replace (zlen (i_fields i)) with (Z.of_nat m) by (unfold i, zlen; cbn [int64_columns i_fields]; now rewrite map_length, seq_length). fold cap.
  pose proof (wide_loop ops L i afs (m * 8) ppc probe n cap mp (alike m vs) vs s1 s2 HU HP HM HL) as HWL.
  match goal with |- context [v5_loop ?a ?b ?c ?d ?e0 ?f ?g ?h ?j ?k ?l ?o ?p ?q] => assert (ET : fst (v5_loop a b c d e0 f g h j k l o p q) = Throw); [|destruct (v5_loop a b c d e0 f g h j k l o p q) as [r w2]; cbn [fst] in ET; rewrite ET; reflexivity] end.
  apply HWL; auto; try lia.
  - apply alike_bytes.
  - rewrite alike_length, Hvl. lia.
  - unfold afs. apply Forall_map, Forall_forall. reflexivity.
  - intros c Hc. unfold afs. apply Forall_map, Forall_forall. intros j Hj. apply in_seq in Hj. rewrite alike_skip. apply alike_column; [lia|]. rewrite skipn_length. nia.
  - unfold afs, zlen. rewrite map_length, seq_length. exact Hc1.
Qed.
(** With the library's own constants: 65536 points of 65 equal INT64 columns, no
    compression.  However large the buffer, and also for the vector overload, which
    sizes its own buffer, encode throws. *)
Theorem C88_refuted : exists i cloud,
  layout_ok i /\ bytes cloud /\ known_types i /\ enc_resolutions_ok i /\ zlen cloud = 65536 * i_step i /\ i_comp i = COMP_NONE /\
  zlen (i_fields i) = 65 /\
  (forall hdr0, exists e, PointcloudEncoder i (Ok hdr0) = Ok e) /\
  forall ops L hdr0 e out wh, libs_ok L -> bytes hdr0 -> bytes out -> encoder_of ops L (Z.to_nat 32768) (Z.to_nat 4096) i (Ok hdr0) e ->
    fst (fst (encode_view ops L (Z.to_nat 32768) (Z.to_nat 4096) e cloud out wh)) = Throw /\
    fst (fst (encode_vec ops L (Z.to_nat 32768) (Z.to_nat 4096) e cloud out)) = Throw.
Proof.
  exists (int64_columns 65 65536), (alike 65 jumpy).
  assert (HL : layout_ok (int64_columns 65 65536)).
  { split; [reflexivity|]. unfold int64_columns. cbn [i_fields i_step]. apply Forall_map, Forall_forall. intros k Hk. apply in_seq in Hk. cbn. lia. }
  split; [exact HL|]. split; [apply alike_bytes|].
  split; [unfold known_types, int64_columns; cbn [i_fields]; apply Forall_map, Forall_forall; intros k _; exact I|].
  split; [unfold enc_resolutions_ok, int64_columns; cbn [i_fields]; apply Forall_map, Forall_forall; intros k _; cbn; exact I|].
  split; [unfold zlen; rewrite alike_length, jumpy_length; change (i_step (int64_columns 65 65536)) with 520; lia|].
  split; [reflexivity|]. split; [reflexivity|]. split; [intros hdr0; eexists; reflexivity|].
  intros ops L hdr0 e out wh HLi Hh Ho HE. destruct (encoder_of_ready _ _ _ _ _ _ _ HE) as (_ & HI & Hhd & _). assert (He : e_hdr e = hdr0) by congruence. clear HE Hhd.
  assert (HV : forall out wh, bytes out -> fst (fst (encode_view ops L (Z.to_nat 32768) (Z.to_nat 4096) e (alike 65 jumpy) out wh)) = Throw).
  { clear out wh Ho. intros out wh Ho. apply (wide_view ops L (Z.to_nat 32768) (Z.to_nat 4096) (Z.to_nat 65536) 65 65536 jumpy e out wh 650 315389 360444); try lia.
    - exact HLi.
    - rewrite He. exact Hh.
    - exact Ho.
    - exact HI.
    - vm_compute. reflexivity.
    - vm_compute. reflexivity.
    - vm_compute. reflexivity.
    - exact HL.
    - apply jumpy_length.
    - apply jumpy_range.
    - exact jumpy_mode.
    - exact jumpy_size1.
    - exact jumpy_size2. }
  split; [apply HV, Ho|].
  unfold encode_vec. rewrite HI. change (i_step (int64_columns 65 65536)) with 520. change (520 =? 0) with false. cbv iota.
  destruct (negb (zlen (alike 65 jumpy) mod 520 =? 0)); [reflexivity|].
  match goal with |- context [MaxCompressedSize L ?a ?b ?c ?d] => destruct (MaxCompressedSize L a b c d) as [sz| |] eqn:EM; [|reflexivity|] end.
  2: { exfalso. refine (none_defined L _ _ _ _ 650 _ _ EM); vm_compute; reflexivity. }
  pose proof (max_size_nonneg L _ _ _ _ _ HLi (zlen_nonneg (e_hdr e)) EM) as Hsz. pose proof (zlen_nonneg (e_hdr e)).
  assert (HW : exists m1, wr 0 (e_hdr e) (resize sz out) = Ok m1 /\ bytes m1).
  { assert (E : wr 0 (e_hdr e) (resize sz out) = Ok (e_hdr e ++ skipn (length (e_hdr e)) (resize sz out))).
    { rewrite wr_ok; [reflexivity|lia|]. rewrite CloudApi.resize_length by lia. lia. }
    eexists. split; [exact E|]. eapply wr_bytes; [exact E|rewrite He; exact Hh|apply resize_bytes, Ho]. }
  destruct HW as (m1 & EW & Hm1). rewrite EW. cbv zeta.
  match goal with |- context [encode_view ?a ?b ?c ?d e ?f ?o ?g] => pose proof (HV o g) as HT; destruct (encode_view a b c d e f o g) as [[r tail] e'] end. cbn [fst] in HT.
  rewrite HT by (apply bytes_skipn, Hm1). reflexivity.
Qed.
Print Assumptions C88_refuted.
