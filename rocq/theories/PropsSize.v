(** Properties C25-C27: output sizes. *)
From Verif Require Import Base BaseFacts Varint VarintFacts Types Floats Fields Codec V5 Api Spec LibSpec SeqSpec.
From Verif Require Import GorillaFacts FieldFacts WriteFacts CodecFacts BuildFacts RunFacts SectionFacts PaletteFacts V5Facts ChunkV5Facts Stage1Facts ApiFacts CloudFacts RoundTrip CloudRT LocalFacts SeqFacts ColumnFacts CloudApi SizeFacts Cases PropsField PropsColumn PropsStage1 PropsCloud.

(** The cloud uses the adaptive integer sections (version 5, LOSSY, an integer field). *)
Definition adaptive (i : info) : Prop := 5 <= i_version i /\ i_enc i = ENC_LOSSY /\ int_fields i <> [].
Lemma adaptive_v5 i : adaptive i <-> UsesV5Codec i = true.
Proof.
  unfold adaptive, UsesV5Codec. rewrite !andb_true_iff.
  assert (E : int_fields i = adaptive_fields i) by reflexivity. rewrite E. 
  assert (HX : is_lossy (i_enc i) = true <-> i_enc i = ENC_LOSSY) by (destruct (i_enc i); cbn; split; congruence). rewrite HX.
  split.
  - intros (H1 & H2 & H3). split; [split; [lia|exact H2]|]. rewrite <- adaptive_skip in H3. destruct (filter _ _) as [|f l] eqn:EF in H3; [congruence|].
    apply existsb_exists. exists f. assert (In f (filter (fun f => isV5AdaptiveIntType (f_type f)) (skipn (LeadingLossyFloatFieldCount i) (i_fields i)))) by (rewrite EF; now left). now apply filter_In in H.
  - intros ((H1 & H2) & H3). split; [lia|]. split; [exact H2|]. apply existsb_exists in H3. destruct H3 as (f & Hf & Ht). intros H.
    assert (HI : In f (adaptive_fields i)) by (rewrite <- adaptive_skip; now apply filter_In). rewrite H in HI. destruct HI.
Qed.
(** Resolutions the encoder accepts: neither the resolution nor its reciprocal is <= 0. *)
Definition enc_resolutions_ok (i : info) : Prop :=
  Forall (fun f => match f_res f with Some r => f32_le0 r = false /\ f32_inv_le0 r = false | None => True end) (i_fields i).
Lemma create_enc_ok i f : match f_res f with Some r => f32_le0 r = false /\ f32_inv_le0 r = false | None => True end -> known_type (f_type f) ->
  exists e, CreateCompatibleEncoder i f = Ok e.
Proof.
  intros Hr Ht. unfold CreateCompatibleEncoder, res_of, has_res. destruct (f_res f) as [r|].
  - destruct Hr as [Hr _]. rewrite Hr. destruct (f_type f); cbn in Ht; try contradiction; try (eexists; reflexivity); destruct (i_enc i); cbn; eauto.
  - destruct (f_type f); cbn in Ht; try contradiction; try (eexists; reflexivity); destruct (i_enc i); cbn; eauto; destruct (4 <=? i_version i); eauto.
Qed.
Lemma mapM_enc_ok i fs : Forall (fun f => match f_res f with Some r => f32_le0 r = false /\ f32_inv_le0 r = false | None => True end /\ known_type (f_type f)) fs ->
  exists es, mapM (CreateCompatibleEncoder i) fs = Ok es.
Proof.
  induction 1 as [|f fs [H1 H2] _ IH]; cbn [mapM]; [eauto|]. destruct (create_enc_ok i f H1 H2) as (e & ->). destruct IH as (es & ->). cbn. eauto.
Qed.
Lemma leading_enc_ok i : enc_resolutions_ok i -> exists le, leading_encoder i = Ok le.
Proof.
  intros HR. unfold leading_encoder. destruct (_ =? 0)%nat; [eauto|].
  assert (E : existsb (fun l : Z * Z => f32_inv_le0 (snd l)) (lanes_of (firstn (LeadingLossyFloatFieldCount i) (i_fields i))) = false); [|rewrite E; eauto].
  destruct (lead_cases i) as [_ Hle]. pose proof (lead_run_fields (i_fields i) _ Hle) as HF.
  apply Forall_firstn with (n := LeadingLossyFloatFieldCount i) in HR.
  remember (firstn (LeadingLossyFloatFieldCount i) (i_fields i)) as l. clear Heql. unfold lanes_of.
  induction l as [|f l IH]; cbn [map existsb]; [reflexivity|].
  inversion HR as [|? ? H1 H2]; inversion HF as [|? ? H3 H4]; subst. rewrite IH by assumption. destruct H3 as [_ (r & Er)].
  cbn [snd]. unfold res_of. rewrite Er in *. destruct H1 as [_ H1]. now rewrite H1.
Qed.
Lemma plan_ok i : known_types i -> enc_resolutions_ok i -> exists es afs, BuildV5Plan i = Ok (es, afs).
Proof.
  intros HT HR. unfold BuildV5Plan. destruct (leading_enc_ok i HR) as (le & ->). cbn [bind].
  set (rest := filter _ (skipn _ _)).
  destruct (mapM_enc_ok i rest) as (es & ->); [|cbn; eauto].
  apply Forall_forall. intros f Hf. unfold rest in Hf. apply filter_In in Hf. destruct Hf as [Hf _].
  assert (Hin : In f (i_fields i)) by (rewrite <- (firstn_skipn (LeadingLossyFloatFieldCount i)); apply in_or_app; now right).
  split; [exact (proj1 (Forall_forall _ _) HR f Hin)|exact (proj1 (Forall_forall _ _) HT f Hin)].
Qed.
Lemma points_of (cloud : list Z) s n : 0 < s -> zlen cloud = Z.of_nat n * s -> (length cloud / Z.to_nat s)%nat = n /\ zlen cloud mod s = 0 /\ length cloud = (n * Z.to_nat s)%nat.
Proof.
  intros Hs H. assert (Hl : length cloud = (n * Z.to_nat s)%nat) by (unfold zlen in H; nia).
  split; [rewrite Hl; apply Nat.div_mul; lia|]. split; [rewrite H; apply Z.mod_mul; lia|exact Hl].
Qed.

(** * C25: a buffer of MaxCompressedSize bytes is enough (no adaptive sections).
    [need]: what MaxCompressedSize returned for [n] points, with or without the header.
    Chunks must stay below the largest input the compressors take. *)
Definition bounded (ppc : nat) (i : info) : Prop := Z.of_nat ppc * worst_point i + 32 * zlen (i_fields i) + 1024 <= 2113929216.
Lemma worst_point_ge i m : MaxSerializedPointSize i = Ok m -> m <= worst_point i.
Proof. intros H. pose proof (worst_max i m H). pose proof (zlen_nonneg (int_fields i)). lia. Qed.
Lemma bounded_limit ppc i m : MaxSerializedPointSize i = Ok m -> bounded ppc i -> assumed i m (Z.of_nat ppc) <= size_limit (i_comp i).
Proof.
  intros Hm H. unfold bounded, assumed, size_limit, LIB_MAX, UINT32_MAX in *. pose proof (worst_point_ge i m Hm). pose proof (zlen_nonneg (i_fields i)).
  assert (Z.of_nat ppc * m <= Z.of_nat ppc * worst_point i) by nia. destruct (UsesV5Codec i), (i_comp i); lia.
Qed.
Theorem C25_v4_bound : forall ops L ppc probe i hdr0 e cloud n out (wh : bool) need,
  libs_ok L -> bytes hdr0 -> encode_side ppc i cloud -> known_types i -> bounded ppc i ->
  encoder_of ops L ppc probe i (Ok hdr0) e -> ~ adaptive i ->
  zlen cloud = Z.of_nat n * i_step i -> MaxCompressedSize L ppc i n (if wh then zlen hdr0 else 0) = Ok need ->
  bytes out -> need <= zlen out -> (i_comp i = COMP_LZ4 -> zlen out <= 2147483647) ->
  exists total out' e', encode_view ops L ppc probe e cloud out wh = (Ok total, out', e') /\ 0 <= total <= need /\ length out' = length out.
Proof.
  intros ops L ppc probe i hdr0 e cloud n out wh need HLi Hh (HL & HK & HCl & Hc) HT HBd HEo HNA Hz HM Ho Hroom Hlz.
  destruct (known_max i HT) as (m & Hm). pose proof (limits_v5 _ _ HCl) as Hv5. destruct HCl as (Hp & _).
  destruct (encoder_of_ready _ _ _ _ _ _ _ HEo) as (HR & HI & Hhd & _). injection Hhd as ->. subst i.
  destruct (points_of cloud _ n (proj1 HL) Hz) as (Hn & Hmod & Hlen).
  assert (HU : UsesV5Codec (e_info e) = false) by (destruct (UsesV5Codec (e_info e)) eqn:E; [exfalso; apply HNA, adaptive_v5, E|reflexivity]).
  destruct (encode_total ops L ppc probe e cloud out wh need m) as (total & out' & e' & E & Hle); auto.
  - now rewrite Hn.
  - now apply bounded_limit.
  - congruence.
  - intros ms c k bs _ Hk _ _ HC. unfold chunk_rel in HC. rewrite HU in HC. destruct HC as (es & HB & _ & _ & HC).
    destruct (build_v4_wf _ es m HK HB Hm) as [_ Hw]. unfold assumed. rewrite HU. nia.
  - exists total, out', e'. split; [exact E|].
    destruct (encode_view_spec _ _ _ _ _ _ _ _ _ _ _ HR HLi HL HK Hc Ho Hh Hp Hv5 E) as (_ & S2 & _ & _).
    destruct (encode_view_chunks _ _ _ _ _ _ _ _ _ _ _ HR HLi HL HK Hc Ho Hh Hp Hv5 E) as (n' & ms & bss & ps & _ & _ & Ht & _).
    split; [|exact S2]. split; [|exact Hle]. rewrite Ht. pose proof (zlen_nonneg (if wh then e_hdr e else [])). pose proof (zlen_nonneg (concat (map frame ps))). lia.
Qed.
Print Assumptions C25_v4_bound.

(** * C26: the same for clouds with adaptive sections, with a restriction *)
(** Consecutive values of the 64-bit integer fields inside a chunk (0 before the first)
    differ by less than 2^62, modulo 2^64. *)
Definition small_jumps (i : info) (ppc : nat) (cloud : list Z) : Prop :=
  forall f j v, In f (i_fields i) -> f_type f = INT64 \/ f_type f = UINT64 -> Z.of_nat (S j) * i_step i <= zlen cloud ->
    int_value (f_type f) (fbytes i f cloud j) = Some v ->
    let d := s64 (v - (if (j mod ppc =? 0)%nat then 0
                       else match int_value (f_type f) (fbytes i f cloud (j - 1)) with Some p => p | None => 0 end)) in
    -4611686018427387904 < d < 4611686018427387904.
Lemma small_column i ppc cloud c k f : layout_ok i -> bytes cloud -> (k <= ppc)%nat -> (0 < ppc)%nat ->
  ((c * ppc + k) * Z.to_nat (i_step i) <= length cloud)%nat -> small_jumps i ppc cloud -> In f (adaptive_fields i) -> f_type f = INT64 \/ f_type f = UINT64 ->
  Forall small62 (diffs 0 (vals (mk_afield f) (column (mk_afield f) (Z.to_nat (i_step i)) k (skipn (c * ppc * Z.to_nat (i_step i)) cloud)))).
Proof.
  intros [Hs HLf] Hc Hn Hp Hlen HD Hf Ht. set (step := Z.to_nat (i_step i)) in *. assert (Hst : i_step i = Z.of_nat step) by (unfold step; lia).
  unfold adaptive_fields in Hf. apply filter_In in Hf. destruct Hf as [Hf Hta]. apply is_int_adaptive in Hta.
  rewrite Forall_forall in HLf. specialize (HLf f Hf). set (a := mk_afield f) in *. rename k into n.
  assert (HB : forall j, (j < n)%nat -> sub (a_off a) (a_size a) (skipn (j * step) (skipn (c * ppc * step) cloud)) = fbytes i f cloud (c * ppc + j)).
  { intros j Hj. unfold fbytes, a_size. cbn [a mk_afield a_off a_type]. rewrite !sub_skipn by lia. f_equal. rewrite Hst. lia. }
  assert (HI : forall j, (j < n)%nat -> int_value (f_type f) (fbytes i f cloud (c * ppc + j)) = Some (to_int64 (f_type f) (fbytes i f cloud (c * ppc + j)))).
  { intros j Hj. rewrite <- HB by exact Hj. apply int_value_spec; auto.
    - apply sub_bytes, bytes_skipn, bytes_skipn, Hc.
    - apply sub_length; cbn [a mk_afield a_off a_type]; [tauto|]. unfold zlen. rewrite !skipn_length. unfold a_size. cbn. nia. }
  apply diffs_small. intros j v Hj. unfold vals in *. rewrite nth_error_map in Hj.
  assert (Hjn : (j < n)%nat).
  { destruct (Nat.lt_ge_cases j n); [auto|]. rewrite (proj2 (nth_error_None _ _)) in Hj by (rewrite column_length; lia). discriminate. }
  rewrite nth_column in Hj by exact Hjn. cbn in Hj. apply (f_equal (fun o => match o with Some x => x | None => v end)) in Hj. rewrite HB in Hj by exact Hjn.
  specialize (HD f (c * ppc + j)%nat v Hf Ht).
  assert (HM : ((c * ppc + j) mod ppc)%nat = j) by (rewrite Nat.add_comm, Nat.mod_add, Nat.mod_small by lia; reflexivity).
  rewrite HM in HD. rewrite HI in HD by exact Hjn. cbn zeta in HD. rewrite Hj in HD.
  specialize (HD ltac:(unfold zlen; nia) eq_refl). destruct j as [|j]; [exact HD|].
  cbn [Nat.eqb] in HD. replace (c * ppc + S j - 1)%nat with (c * ppc + j)%nat in HD by lia. rewrite HI in HD by lia.
  rewrite nth_error_map, nth_column by lia. cbn [option_map]. rewrite HB by lia. exact HD.
Qed.

(** MaxCompressedSize is enough if the 64-bit columns have no large jumps, or if the
    encoder sees the whole cloud before it chooses the modes. *)
Theorem C26_v5_bound : forall ops L ppc probe i hdr0 e cloud n out (wh : bool) need,
  libs_ok L -> bytes hdr0 -> encode_side ppc i cloud -> known_types i -> enc_resolutions_ok i -> bounded ppc i ->
  encoder_of ops L ppc probe i (Ok hdr0) e -> adaptive i -> small_jumps i ppc cloud \/ (n <= Nat.min probe ppc)%nat ->
  zlen cloud = Z.of_nat n * i_step i -> MaxCompressedSize L ppc i n (if wh then zlen hdr0 else 0) = Ok need ->
  bytes out -> need <= zlen out -> (i_comp i = COMP_LZ4 -> zlen out <= 2147483647) ->
  exists total out' e', encode_view ops L ppc probe e cloud out wh = (Ok total, out', e') /\ 0 <= total <= need /\ length out' = length out.
Proof.
  intros ops L ppc probe i hdr0 e cloud n out wh need HLi Hh (HL & HK & HCl & Hc) HT HER HBd HEo HNA HJ Hz HM Ho Hroom Hlz.
  destruct (known_max i HT) as (m & Hm). pose proof (limits_v5 _ _ HCl) as Hv5. destruct HCl as (Hp & Hp5 & _).
  destruct (encoder_of_ready _ _ _ _ _ _ _ HEo) as (HR & HI & Hhd & _). injection Hhd as ->. subst i.
  destruct (points_of cloud _ n (proj1 HL) Hz) as (Hn & Hmod & Hlen). apply adaptive_v5 in HNA.
  set (i := e_info e) in *.
  destruct (encode_total ops L ppc probe e cloud out wh need m) as (total & out' & e' & E & Hle); auto.
  - fold i. now rewrite Hn.
  - now apply bounded_limit.
  - intros _. now apply plan_ok.
  - fold i. rewrite Hn. intros ms c k bs HBM Hk Hck Hend HC. specialize (HBM HNA).
    apply (chunk_tight ops i ppc cloud ms c k bs m HNA HL HK Hc Hm Hk Hp5); [rewrite Hlen; nia| |exact HC].
    intros es afs a mo sec HB Hin col Hti Hfb HS.
    assert (Hcl : zlen col = Z.of_nat k) by (unfold col, zlen; now rewrite column_length).
    destruct HJ as [HJ|HJ].
    + apply (section_tight a col mo sec Hti ltac:(lia) Hfb HS). intros _.
      destruct (plan_spec i es afs m HNA HB Hm) as (_ & HA & _).
      apply in_combine_l in Hin. rewrite HA in Hin. apply in_map_iff in Hin. destruct Hin as (f & <- & Hf).
      assert (Hcase : (f_type f = INT64 \/ f_type f = UINT64) \/ (a_type (mk_afield f) = INT16 \/ a_type (mk_afield f) = UINT16 \/ a_type (mk_afield f) = INT32 \/ a_type (mk_afield f) = UINT32)).
      { cbn [mk_afield a_type] in *. destruct (f_type f); try contradiction Hti; auto 6. }
      destruct Hcase as [H64|H32].
      * apply small_column; auto; [lia|rewrite Hlen; nia].
      * apply diffs32; [lia|]. apply vals32; assumption.
    + assert (c = O) by (destruct c; [reflexivity|exfalso; nia]). subst c. assert (Hkn : k = n) by (cbn in *; lia). subst k.
      assert (Hbest : best_mode a col mo).
      { specialize (HBM es afs HB). clear - Hin HBM HJ. unfold col. cbn [Nat.mul skipn].
        assert (HG : forall afs ms, Forall2 (fun a mo => best_mode a (firstn probe (column a (Z.to_nat (i_step i)) (Nat.min n ppc) cloud)) mo) afs ms -> In (a, mo) (combine afs ms) ->
           best_mode a (firstn probe (column a (Z.to_nat (i_step i)) (Nat.min n ppc) cloud)) mo).
        { induction 1 as [|x y l l' H1 H2 IH]; cbn [combine In]; [tauto|]. intros [[= <- <-]|H]; auto. }
        specialize (HG afs ms HBM Hin). rewrite Nat.min_l in HG by lia. rewrite firstn_all2 in HG by (rewrite column_length; lia). exact HG. }
      apply (best_tight a col mo sec); [lia|exact Hbest|exact HS].
  - exists total, out', e'. split; [exact E|].
    destruct (encode_view_spec _ _ _ _ _ _ _ _ _ _ _ HR HLi HL HK Hc Ho Hh Hp Hv5 E) as (_ & S2 & _ & _).
    destruct (encode_view_chunks _ _ _ _ _ _ _ _ _ _ _ HR HLi HL HK Hc Ho Hh Hp Hv5 E) as (n' & ms & bss & ps & _ & _ & Ht & _).
    split; [|exact S2]. split; [|exact Hle]. rewrite Ht. pose proof (zlen_nonneg (if wh then e_hdr e else [])). pose proof (zlen_nonneg (concat (map frame ps))). lia.
Qed.
Print Assumptions C26_v5_bound.

(** *** Concrete instances *)
(** One INT64 field per point. *)
Definition one64 (v w : Z) (opt : comp_opt) : info := mkInfo [fld 105 0 INT64 None] w 1 8 ENC_LOSSY [] opt false v.
Definition cloud64 (vs : list Z) : list Z := flat_map (fun v => le_bytes 8 v) vs.
Lemma cloud64_bytes vs : bytes (cloud64 vs).
Proof. unfold cloud64. induction vs as [|v vs IH]; cbn [flat_map]; [constructor|]. apply bytes_app. split; [apply le_bytes_bytes|exact IH]. Qed.
Lemma cloud64_length vs : length (cloud64 vs) = (length vs * 8)%nat.
Proof. unfold cloud64. induction vs as [|v vs IH]; [reflexivity|]. cbn [flat_map length]. rewrite app_length, le_bytes_length, IH. lia. Qed.
Lemma cloud64_skip k : forall vs, skipn (k * 8) (cloud64 vs) = cloud64 (skipn k vs).
Proof.
  induction k as [|k IH]; intros vs; [reflexivity|]. destruct vs as [|v vs]; [now rewrite !skipn_nil|]. unfold cloud64. cbn [flat_map skipn].
  replace (S k * 8)%nat with (k * 8 + length (le_bytes 8 v))%nat by (rewrite le_bytes_length; lia). rewrite <- skipn_skipn, skipn_app, skipn_all, Nat.sub_diag. cbn [skipn app]. apply IH.
Qed.
Definition a64 : afield := mkA 0 INT64.
Lemma cloud64_column k : forall vs, (k <= length vs)%nat -> column a64 8 k (cloud64 vs) = map (le_bytes 8) (firstn k vs).
Proof.
  induction k as [|k IH]; intros vs Hk; [reflexivity|]. destruct vs as [|v vs]; [cbn in Hk; lia|]. rewrite column_S. cbn [firstn map]. f_equal.
  change 8%nat with (1 * 8)%nat at 2. rewrite cloud64_skip. cbn [skipn]. apply IH. cbn in Hk. lia.
Qed.
(** 4096 zeros, then 0 and 2^62 in turn: 65536 points. *)
Definition jumpy : list Z := repeat 0 (Z.to_nat 4096) ++ concat (repeat [0; 4611686018427387904] (Z.to_nat 30720)).

Lemma one64_chunk ppc vs ms c k bs : (k <= length vs - c * ppc)%nat -> Forall (fun v => 0 <= v < 9223372036854775808) vs ->
  chunk_rel sse_ops (one64 5 65536 COMP_NONE) ppc (cloud64 vs) ms c k bs -> ms = [DeltaRle] -> (0 < k)%nat -> Z.of_nat k < 4294967296 ->
  zlen bs = encodedDeltaRleSectionSize (firstn k (skipn (c * ppc) vs)).
Proof.
  intros Hk HV HC -> H0 Hk2. unfold chunk_rel in HC. change (UsesV5Codec (one64 5 65536 COMP_NONE)) with true in HC. cbv iota in HC.
  destruct HC as (es & afs & HB & o & secs & HE & -> & _ & _ & _ & Hms & Hss & HF). change (BuildV5Plan (one64 5 65536 COMP_NONE)) with (Ok (@nil fenc, [a64])) in HB. apply ok_pair in HB. destruct HB as [<- <-].
  cbn [length] in *. destruct secs as [|sec [|? ?]]; try discriminate Hss. cbn [combine] in HF. inversion HF as [|? ? ? ? HF1 _]; subst. cbn [fst snd] in HF1.
  change (Z.to_nat (i_step (one64 5 65536 COMP_NONE))) with 8%nat in *. rewrite cloud64_skip, cloud64_column in HF1 by (rewrite skipn_length; lia).
  assert (Ho : o = []).
  { clear - HE. revert HE. generalize (skipn (c * ppc * 8) (cloud64 vs)) (skipn ((c * ppc + k) * 8) (cloud64 vs)) (resets (@nil fenc)). intros l l' sts. revert l o sts. induction k as [|k IH]; intros l o sts H; cbn [enc_points_v4] in H.
    - apply ok_pair in H. now destruct H.
    - destruct l as [|b l0]; [apply ok_pair in H; now destruct H|]. cbn [enc_point] in H. destruct sts as [|st sts]; cbn [bind] in H; [|discriminate H].
      destruct (trim_front 8 (b :: l0)) as [l1| |]; cbn [bind] in H; try discriminate H. apply bind_ok in H. destruct H as ((r & o2) & H1 & H2). apply ok_pair in H2. destruct H2 as [-> <-]. cbn. exact (IH _ _ _ H1). }
  subst o. cbn [concat app]. rewrite app_nil_r.
  assert (Hl : 0 < zlen (map (le_bytes 8) (firstn k (skipn (c * ppc) vs))) < 4294967296) by (unfold zlen; rewrite map_length, firstn_length, skipn_length; lia).
  rewrite (section_len a64 _ DeltaRle sec Hl HF1). f_equal.
  unfold vals. rewrite map_map. rewrite <- (map_id (firstn k (skipn (c * ppc) vs))) at 2. apply map_ext_in. intros v Hv.
  assert (HvR : 0 <= v < 9223372036854775808) by (apply (proj1 (Forall_forall _ _) HV); rewrite <- (firstn_skipn (c * ppc) vs); apply in_or_app; right; rewrite <- (firstn_skipn k); apply in_or_app; left; exact Hv).
  unfold to_int64. cbn [a64 a_type int_signed andb]. rewrite zlen_le, le_val_le_bytes. change (256 ^ Z.of_nat 8) with 18446744073709551616. rewrite Z.mod_small by lia.
  replace (18446744073709551616 / 2 <=? v) with false by (symmetry; apply Z.leb_gt; change (18446744073709551616 / 2) with 9223372036854775808; lia). apply s64_id. lia.
Qed.
Lemma jumpy_length : length jumpy = Z.to_nat 65536.
Proof.
  unfold jumpy. rewrite app_length, repeat_length. assert (H : forall n, length (concat (repeat [0; 4611686018427387904] n)) = (2 * n)%nat).
  { induction n as [|n IH]; [reflexivity|]. cbn [repeat concat app length]. rewrite IH. lia. }
  rewrite H. lia.
Qed.
(** The sizes, symbolically (so that the kernel need not run over 65536 values). *)
Definition alt (n : nat) : list Z := concat (repeat [0; 4611686018427387904] n).
Lemma alt_length n : length (alt n) = (2 * n)%nat.
Proof. induction n as [|n IH]; [reflexivity|]. unfold alt in *. cbn [repeat concat app length]. rewrite IH. lia. Qed.
Lemma alt_app n m : alt (n + m) = alt n ++ alt m.
Proof. unfold alt. now rewrite repeat_app, concat_app. Qed.
Lemma firstn_first {A} n (a b : list A) : length a = n -> firstn n (a ++ b) = a.
Proof. intros <-. rewrite firstn_app, Nat.sub_diag, firstn_O, app_nil_r. apply firstn_all. Qed.
Lemma skipn_first {A} n (a b : list A) : length a = n -> skipn n (a ++ b) = b.
Proof. intros <-. rewrite skipn_app, Nat.sub_diag, skipn_all. reflexivity. Qed.
Lemma jumpy_parts : jumpy = repeat 0 (Z.to_nat 4096) ++ alt (Z.to_nat 14336) ++ alt (Z.to_nat 16384).
Proof. rewrite <- alt_app. replace (Z.to_nat 14336 + Z.to_nat 16384)%nat with (Z.to_nat 30720) by lia. exact (eq_refl jumpy). Qed.
Lemma jumpy_range : Forall (fun v => 0 <= v < 9223372036854775808) jumpy.
Proof.
  unfold jumpy. apply Forall_app. split.
  - apply Forall_forall. intros v Hv. apply repeat_spec in Hv. subst v. lia.
  - apply Forall_forall. intros v Hv. apply in_concat in Hv. destruct Hv as (l & Hl & Hv). apply repeat_spec in Hl. subst l.
    destruct Hv as [<- | [<- | []]]; lia.
Qed.
Lemma diffs_zeros k l : diffs 0 (repeat 0 k ++ l) = repeat 0 k ++ diffs 0 l.
Proof. induction k as [|k IH]; [reflexivity|]. cbn [repeat app diffs]. rewrite IH. reflexivity. Qed.
Lemma diffs_alt n : diffs 4611686018427387904 (alt n) = concat (repeat [-4611686018427387904; 4611686018427387904] n).
Proof. induction n as [|n IH]; [reflexivity|]. unfold alt in *. cbn [repeat concat app diffs]. rewrite IH. reflexivity. Qed.
Lemma groups_zeros k l : forall len, run_groups 0 len (repeat 0 k ++ l) = run_groups 0 (len + Z.of_nat k) l.
Proof.
  induction k as [|k IH]; intros len; [cbn [repeat app]; f_equal; lia|]. cbn [repeat app run_groups]. change (0 =? 0) with true. cbn match.
  rewrite IH. f_equal. lia.
Qed.
Lemma groups_alt n : run_groups 4611686018427387904 1 (concat (repeat [-4611686018427387904; 4611686018427387904] n)) =
  (4611686018427387904, 1) :: concat (repeat [(-4611686018427387904, 1); (4611686018427387904, 1)] n).
Proof.
  induction n as [|n IH]; [reflexivity|]. cbn [repeat concat app run_groups].
  change (-4611686018427387904 =? 4611686018427387904) with false. change (4611686018427387904 =? -4611686018427387904) with false. cbn match. rewrite IH. reflexivity.
Qed.
Lemma sum_alt n : sumz (map (fun r => encodedVarint64Size (fst r) + encodedUVarintSize (snd r)) (concat (repeat [(-4611686018427387904, 1); (4611686018427387904, 1)] n))) = 22 * Z.of_nat n.
Proof.
  induction n as [|n IH]; [reflexivity|]. cbn [repeat concat app map sumz fold_right]. unfold sumz in IH. rewrite IH. cbn [fst snd].
  change (encodedVarint64Size (-4611686018427387904)) with 10. change (encodedVarint64Size 4611686018427387904) with 10. change (encodedUVarintSize 1) with 1. lia.
Qed.
(** [k] zeros, then [n] (at least one) alternations. *)
Lemma alt_size k n : encodedDeltaRleSectionSize (repeat 0 k ++ alt (S n)) = 5 + (1 + encodedUVarintSize (1 + Z.of_nat k)) + 11 + 22 * Z.of_nat n.
Proof.
  unfold encodedDeltaRleSectionSize. rewrite diffs_zeros. 
  assert (E : diffs 0 (alt (S n)) = 0 :: 4611686018427387904 :: concat (repeat [-4611686018427387904; 4611686018427387904] n)).
  { change (alt (S n)) with (0 :: 4611686018427387904 :: alt n). cbn [diffs]. rewrite diffs_alt. reflexivity. }
  rewrite E.
  assert (E2 : runs (repeat 0 k ++ 0 :: 4611686018427387904 :: concat (repeat [-4611686018427387904; 4611686018427387904] n)) =
    (0, 1 + Z.of_nat k) :: (4611686018427387904, 1) :: concat (repeat [(-4611686018427387904, 1); (4611686018427387904, 1)] n)).
  { destruct k as [|k].
    - cbn [repeat app runs run_groups]. change (4611686018427387904 =? 0) with false. cbn match. rewrite groups_alt. reflexivity.
    - cbn [repeat app runs]. rewrite groups_zeros. cbn [run_groups]. change (0 =? 0) with true. change (4611686018427387904 =? 0) with false. cbn match. rewrite groups_alt. f_equal. f_equal. lia. }
  rewrite E2. cbn [map sumz fold_right fst snd]. pose proof (sum_alt n) as HS. unfold sumz in HS. rewrite HS.
  change (encodedVarint64Size 0) with 1. change (encodedVarint64Size 4611686018427387904) with 10. change (encodedUVarintSize 1) with 1. lia.
Qed.
Lemma zeros_best k mo : 14 < Z.of_nat (S k) -> 0 <= encodedUVarintSize (Z.of_nat (S k)) <= 2 ->
  best_mode a64 (map (le_bytes 8) (repeat 0 (S k))) mo -> mo = DeltaRle.
Proof.
  intros Hk Hu ->. 
  assert (E1 : vals a64 (map (le_bytes 8) (repeat 0 (S k))) = repeat 0 (S k)).
  { unfold vals. rewrite map_map. generalize (S k). intros m. induction m as [|m IH]; [reflexivity|]. cbn [repeat map]. rewrite IH. reflexivity. }
  assert (E2 : rawsof (map (le_bytes 8) (repeat 0 (S k))) = repeat 0 (S k)).
  { unfold rawsof. rewrite map_map. generalize (S k). intros m. induction m as [|m IH]; [reflexivity|]. cbn [repeat map]. rewrite IH. reflexivity. }
  rewrite E1, E2.
  assert (E3 : diffs 0 (repeat 0 (S k)) = repeat 0 (S k)) by (rewrite <- (app_nil_r (repeat 0 (S k))) at 1; rewrite diffs_zeros; apply app_nil_r).
  assert (E4 : runs (repeat 0 (S k)) = [(0, Z.of_nat (S k))]).
  { cbn [repeat runs]. rewrite <- (app_nil_r (repeat 0 k)), groups_zeros. cbn [run_groups]. do 2 f_equal. lia. }
  assert (E5 : firsts [] (repeat 0 (S k)) = [0]).
  { cbn [repeat firsts]. destruct (in_dec Z.eq_dec 0 []) as [[]|_]. f_equal. cbn [app]. induction k as [|k IH]; [reflexivity|].
    cbn [repeat firsts]. destruct (in_dec Z.eq_dec 0 [0]) as [_|N]; [|destruct N; now left]. clear - k. induction k as [|k IH]; [reflexivity|].
    cbn [repeat firsts]. destruct (in_dec Z.eq_dec 0 [0]) as [_|N]; [exact IH|destruct N; now left]. }
  assert (E6 : encodedDeltaVarintSectionSize (repeat 0 (S k)) = 1 + Z.of_nat (S k)).
  { unfold encodedDeltaVarintSectionSize. rewrite E3. f_equal. generalize (S k). intros m. induction m as [|m IH]; [reflexivity|]. cbn [repeat map sumz fold_right]. unfold sumz in IH. rewrite IH.
    change (encodedVarint64Size 0) with 1. lia. }
  rewrite E6. unfold encodedDeltaRleSectionSize, encodedRleSectionSize. rewrite E3, E4, E5. cbn [map sumz fold_right fst snd].
  change (encodedVarint64Size 0) with 1. change (Z.of_nat (a_size a64)) with 8.
  assert (E7 : encodedPaletteSectionSize [0] (a_size a64) (zlen (repeat 0 (S k))) = 11) by reflexivity. rewrite E7.

  unfold selectBestAdaptiveIntMode.
  destruct (11 <? 1 + Z.of_nat (S k)) eqn:B1; [|lia].
  destruct (5 + (8 + encodedUVarintSize (Z.of_nat (S k)) + 0) <? 11) eqn:B2; [lia|].
  destruct (5 + (1 + encodedUVarintSize (Z.of_nat (S k)) + 0) <? 11) eqn:B3; [reflexivity|lia].
Qed.
Lemma part_mode k ppc j n m mo : j = S k -> (j <= ppc)%nat -> 14 < Z.of_nat (S k) -> 0 <= encodedUVarintSize (Z.of_nat (S k)) <= 2 ->
  best_mode a64 (firstn j (map (le_bytes 8) (firstn ppc (repeat 0 j ++ alt n ++ alt m)))) mo -> mo = DeltaRle.
Proof.
  intros Hj Hp H1 H2. rewrite firstn_map, firstn_firstn, Nat.min_l by lia. rewrite firstn_first by apply repeat_length. rewrite Hj. now apply zeros_best.
Qed.
Lemma part_size1 j n m ppc : (ppc = j + 2 * S n)%nat ->
  encodedDeltaRleSectionSize (firstn ppc (skipn 0 (repeat 0 j ++ alt (S n) ++ alt m))) = 5 + (1 + encodedUVarintSize (1 + Z.of_nat j)) + 11 + 22 * Z.of_nat n.
Proof. intros H. rewrite skipn_O, app_assoc, firstn_first by (rewrite app_length, repeat_length, alt_length; lia). apply alt_size. Qed.
Lemma part_size2 j n m ppc k2 : (ppc = j + 2 * n)%nat -> (k2 = 2 * S m)%nat ->
  encodedDeltaRleSectionSize (firstn k2 (skipn ppc (repeat 0 j ++ alt n ++ alt (S m)))) = 18 + 22 * Z.of_nat m.
Proof.
  intros H Hk. rewrite app_assoc, skipn_first by (rewrite app_length, repeat_length, alt_length; lia). rewrite firstn_all2 by (rewrite alt_length; lia).
  pose proof (alt_size 0 m) as E. cbn [repeat app] in E. rewrite E. change (encodedUVarintSize (1 + Z.of_nat 0)) with 1. lia.
Qed.
Lemma to_nat_S a : 0 <= a -> Z.to_nat (a + 1) = S (Z.to_nat a).
Proof. intros H. rewrite Z2Nat.inj_add by lia. change (Z.to_nat 1) with 1%nat. lia. Qed.
Lemma jumpy_mode mo : best_mode a64 (firstn (Z.to_nat 4096) (map (le_bytes 8) (firstn (Z.to_nat 32768) jumpy))) mo -> mo = DeltaRle.
Proof.
  rewrite jumpy_parts. apply (part_mode (Z.to_nat 4095)).
  - exact (to_nat_S 4095 ltac:(lia)).
  - lia.
  - lia.
  - rewrite <- to_nat_S, Z2Nat.id by lia. vm_compute. split; discriminate.
Qed.
Lemma size1 j n m ppc : Z.of_nat j = 4096 -> Z.of_nat n = 14336 -> Z.of_nat ppc = 32768 ->
  encodedDeltaRleSectionSize (firstn ppc (skipn 0 (repeat 0 j ++ alt n ++ alt m))) = 315389.
Proof.
  intros Hj Hn Hp. destruct n as [|n]; [lia|]. rewrite (part_size1 j n m ppc ltac:(lia)). rewrite Hj. replace (Z.of_nat n) with 14335 by lia. reflexivity.
Qed.
Lemma size2 j n m ppc k2 : Z.of_nat j = 4096 -> Z.of_nat n = 14336 -> Z.of_nat m = 16384 -> Z.of_nat ppc = 32768 -> Z.of_nat k2 = 32768 ->
  encodedDeltaRleSectionSize (firstn k2 (skipn ppc (repeat 0 j ++ alt n ++ alt m))) = 360444.
Proof.
  intros Hj Hn Hm Hp Hk. destruct m as [|m]; [lia|]. rewrite (part_size2 j n m ppc k2 ltac:(lia) ltac:(lia)). lia.
Qed.
Lemma jumpy_size1 : encodedDeltaRleSectionSize (firstn (Z.to_nat 32768) (skipn 0 jumpy)) = 315389.
Proof. rewrite jumpy_parts. apply size1; apply Z2Nat.id; lia. Qed.
Lemma jumpy_size2 : encodedDeltaRleSectionSize (firstn (Z.to_nat 32768) (skipn (Z.to_nat 32768) jumpy)) = 360444.
Proof. rewrite jumpy_parts. apply size2; apply Z2Nat.id; lia. Qed.
Lemma nat_mul a b : 0 <= a -> 0 <= b -> (Z.to_nat a * Z.to_nat b)%nat = Z.to_nat (a * b).
Proof. intros. symmetry. apply Z2Nat.inj_mul; assumption. Qed.

Lemma jump_throws ppc probe N k2 vs L out e s1 s2 : libs_ok L -> bytes out -> e = mkEnc (one64 5 65536 COMP_NONE) [] [] [] ->
  length vs = N -> N = (ppc + k2)%nat -> (0 < k2 <= ppc)%nat -> Z.of_nat ppc <= 65535 -> Forall (fun v => 0 <= v < 9223372036854775808) vs ->
  (forall mo, best_mode a64 (firstn probe (map (le_bytes 8) (firstn ppc vs))) mo -> mo = DeltaRle) ->
  encodedDeltaRleSectionSize (firstn ppc (skipn 0 vs)) = s1 -> encodedDeltaRleSectionSize (firstn k2 (skipn ppc vs)) = s2 ->
  zlen out < 8 + s1 + s2 ->
  fst (fst (encode_view sse_ops L ppc probe e (cloud64 vs) out false)) = Throw.
Proof.
  intros HLi Ho He HN HN2 Hk2 Hp5 HV HM Hs1 Hs2 Hout. pose (i := one64 5 65536 COMP_NONE).
  assert (HL : layout_ok i) by (split; [reflexivity|repeat constructor; cbn; lia]).
  assert (HCL : chunk_limits ppc i) by (split; [lia|split; [lia|vm_compute; discriminate]]).
  assert (HR : enc_ready e) by (subst e; intros H; vm_compute in H; discriminate).
  assert (Hi : e_info e = i) by (subst e; reflexivity). assert (Hh : e_hdr e = []) by (subst e; reflexivity). clear He.
  destruct (encode_view sse_ops L ppc probe e (cloud64 vs) out false) as [[r out'] e'] eqn:E. cbn [fst].
  pose proof (limits_v5 _ _ HCL) as Hv5. destruct HCL as (Hp & _). rewrite <- Hi in HL, Hv5.
  assert (Hhb : bytes (e_hdr e)) by (rewrite Hh; constructor). assert (HK : known_enc (e_info e)) by (rewrite Hi; exact I).
  destruct (encode_view_spec _ _ _ _ _ _ _ _ _ _ _ HR HLi HL HK (cloud64_bytes _) Ho Hhb Hp Hv5 E) as (HU & Hlo & _ & HOk).
  destruct r as [total| |]; [exfalso|reflexivity|congruence].
  destruct (HOk total eq_refl) as (n & ms & bss & ps & A1 & A2 & A3 & A4 & A5 & A6 & A7). rewrite Hi in *. clear HOk E HR HL HK Hv5.
  change (Z.to_nat (i_step i)) with 8%nat in *. rewrite cloud64_length, HN in A1. assert (Hn : n = N) by lia. subst n.
  destruct (A4 eq_refl ltac:(lia)) as (es & afs & HB & HBM). change (BuildV5Plan i) with (Ok (@nil fenc, [a64])) in HB. apply ok_pair in HB. destruct HB as [<- <-].
  rewrite Nat.min_r in HBM by lia. inversion HBM as [|? mo ? ms' HB1 HB2]; subst ms. inversion HB2; subst ms'. clear HBM HB2. rewrite cloud64_column in HB1 by (rewrite HN; lia).
  apply HM in HB1. subst mo.
  inversion A2 as [|? ? b1 bss1 Hg0 HC1 HS1 Hq1 Hq2 Hq3]; [lia|]. subst bss. clear Hq1 Hq2. rewrite Nat.min_r in HC1, HS1 by lia.
  inversion HS1 as [|? ? b2 bss2 Hg1 HC2 HS2 Hq1 Hq2 Hq4]; [lia|]. subst bss1. clear Hq1 Hq2. rewrite Nat.min_l in HC2 by lia.
  apply one64_chunk in HC1; [|rewrite HN; lia|exact HV|reflexivity|lia|lia].
  apply one64_chunk in HC2; [|rewrite HN; lia|exact HV|reflexivity|lia|lia].
  replace (N - ppc)%nat with k2 in HC2 by lia.
  rewrite Nat.mul_1_l, Hs2 in HC2. rewrite Nat.mul_0_l, Hs1 in HC1.
  inversion A3 as [|? p1 ? ps1 (P1 & _) A3']; subst ps. inversion A3' as [|? p2 ? ps2 (P2 & _) A3'']; subst ps1. cbn [i one64 i_comp payload] in P1, P2. rewrite P1, P2 in *.
  cbn [map concat] in A6. rewrite A6 in A7. rewrite !zlen_app in A7. unfold frame in A7. rewrite !zlen_app, HC1, HC2 in A7. rewrite !zlen_le in A7.
  pose proof (zlen_nonneg (concat (map (fun p => le_bytes 4 (zlen p) ++ p) ps2))). change (zlen (@nil Z)) with 0 in A7. unfold zlen in A7, Hout. rewrite Hlo in A7. unfold zlen in *. lia.
Qed.
(** With the library's own constants (chunks of 32768 points, 4096 probed), no
    compression and a buffer of exactly the size MaxCompressedSize asks for, encode
    throws. *)
Theorem C26_refuted : exists i cloud need e,
  encode_side (Z.to_nat 32768) i cloud /\ known_types i /\ enc_resolutions_ok i /\ bounded (Z.to_nat 32768) i /\ adaptive i /\
  zlen cloud = 65536 * i_step i /\
  (forall ops L, encoder_of ops L (Z.to_nat 32768) (Z.to_nat 4096) i (Ok []) e) /\
  (forall L, MaxCompressedSize L (Z.to_nat 32768) i (Z.to_nat 65536) 0 = Ok need) /\
  (forall L out, libs_ok L -> bytes out -> zlen out = need ->
     fst (fst (encode_view sse_ops L (Z.to_nat 32768) (Z.to_nat 4096) e cloud out false)) = Throw).
Proof.
  exists (one64 5 65536 COMP_NONE), (cloud64 jumpy), 657480, (mkEnc (one64 5 65536 COMP_NONE) [] [] []).
  split; [split; [split; [reflexivity|repeat constructor; cbn; lia]|split; [exact I|split; [split; [lia|split; [lia|vm_compute; discriminate]]|apply cloud64_bytes]]]|]. split; [repeat constructor|]. split; [repeat constructor|].
  split; [unfold bounded; rewrite Z2Nat.id by lia; vm_compute; discriminate|]. split; [apply adaptive_v5; reflexivity|].
  split; [unfold zlen; rewrite cloud64_length, jumpy_length; change (i_step (one64 5 65536 COMP_NONE)) with 8; lia|].
  split; [intros ops L; apply eo_new; reflexivity|]. split; [intros L; vm_compute; reflexivity|].
  intros L out HLi Ho Hout.
  apply (jump_throws (Z.to_nat 32768) (Z.to_nat 4096) (Z.to_nat 65536) (Z.to_nat 32768) jumpy L out _ 315389 360444 HLi Ho); try lia.
  - reflexivity.
  - apply jumpy_length.
  - apply jumpy_range.
  - exact jumpy_mode.
  - exact jumpy_size1.
  - exact jumpy_size2.
Qed.
Print Assumptions C26_refuted.
