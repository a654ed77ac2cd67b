(** Whole-cloud round trip. *)
From Verif Require Import Base BaseFacts Varint VarintFacts Types Floats Fields Codec V5 Api Spec LibSpec
  GorillaFacts FieldFacts WriteFacts CodecFacts BuildFacts RunFacts SectionFacts PaletteFacts V5Facts ChunkV5Facts Stage1Facts ApiFacts CloudFacts.

(** ** The decoder can be built *)
Lemma create_dec_ok i f : match f_res f with Some r => f32_le0 r = false | None => True end -> known_type (f_type f) ->
  exists d, CreateCompatibleDecoder i f = Ok d.
Proof.
  intros Hr Ht. unfold CreateCompatibleDecoder, res_of, has_res. destruct (f_res f) as [r|].
  - rewrite Hr. destruct (f_type f); cbn in Ht; try contradiction; try (eexists; reflexivity); destruct (i_enc i); cbn; eauto.
  - destruct (f_type f); cbn in Ht; try contradiction; try (eexists; reflexivity); destruct (i_enc i); cbn; eauto; destruct (4 <=? i_version i); eauto.
Qed.
Lemma mapM_dec_ok i fs : Forall (fun f => match f_res f with Some r => f32_le0 r = false | None => True end /\ known_type (f_type f)) fs ->
  exists ds, mapM (CreateCompatibleDecoder i) fs = Ok ds.
Proof.
  induction 1 as [|f fs [H1 H2] _ IH]; cbn [mapM]; [eauto|]. destruct (create_dec_ok i f H1 H2) as (d & ->). destruct IH as (ds & ->). cbn. eauto.
Qed.
Lemma create_enc_type i f e : CreateCompatibleEncoder i f = Ok e -> known_type (f_type f).
Proof. unfold CreateCompatibleEncoder. destruct (f_type f); cbn; try discriminate; auto. Qed.
Lemma mapM_enc_types i : forall fs es, mapM (CreateCompatibleEncoder i) fs = Ok es -> Forall (fun f => known_type (f_type f)) fs.
Proof.
  induction fs as [|f fs IH]; cbn [mapM]; intros es H; [constructor|].
  apply bind_ok in H. destruct H as (e & E & H). apply bind_ok in H. destruct H as (es' & E' & _). constructor; [eapply create_enc_type; eauto|eauto].
Qed.
Lemma leading_dec_ok i : resolutions_ok i -> exists ld, leading_decoder i = Ok ld.
Proof.
  intros HR. unfold leading_decoder. destruct (_ =? 0)%nat; [eauto|].
  assert (E : existsb (fun l : Z * Z => f32_le0 (snd l)) (lanes_of (firstn (LeadingLossyFloatFieldCount i) (i_fields i))) = false); [|rewrite E; eauto].
  destruct (lead_cases i) as [_ Hle]. pose proof (lead_run_fields (i_fields i) _ Hle) as HF.
  apply Forall_firstn with (n := LeadingLossyFloatFieldCount i) in HR.
  remember (firstn (LeadingLossyFloatFieldCount i) (i_fields i)) as l. clear Heql. unfold lanes_of.
  induction l as [|f l IH]; cbn [map existsb]; [reflexivity|].
  inversion HR as [|? ? H1 H2]; inversion HF as [|? ? H3 H4]; subst. rewrite IH by assumption. destruct H3 as [_ (r & Er)].
  cbn [snd]. unfold res_of. rewrite Er in *. now rewrite H1.
Qed.
Lemma Forall2_types fs fs' : Forall2 same_shape fs fs' -> Forall (fun f => known_type (f_type f)) fs -> Forall (fun f => known_type (f_type f)) fs'.
Proof. induction 1 as [|f f' l l' [E _] _ IH]; intros H; constructor; inversion H; subst; [now rewrite <- E|auto]. Qed.
Lemma build_v4_dec_ok i i' es : same_codec i i' -> BuildV4Encoders i = Ok es -> resolutions_ok i' ->
  exists ds minb, BuildV4Decoders i' = Ok (ds, minb).
Proof.
  intros HS HE HR. pose proof HS as (HSf & Ee & _). unfold BuildV4Encoders in HE. unfold BuildV4Decoders. rewrite <- Ee. destruct (i_enc i) eqn:Ei; [eauto| | |];
  (apply bind_ok in HE; destruct HE as (le & E1 & HE); apply bind_ok in HE; destruct HE as (re & E2 & _);
   destruct (leading_dec_ok i' HR) as (ld & ->); cbn [bind];
   destruct (mapM_dec_ok i' (skipn (LeadingLossyFloatFieldCount i') (i_fields i'))) as (ds & ->); [|cbn; eauto];
   apply Forall_and; [apply Forall_skipn, HR|];
   rewrite <- (lead_count_shape i i' HS); eapply Forall2_types; [apply Forall2_skipn, HSf|]; eapply mapM_enc_types; eauto).
Qed.
Lemma build_v5_dec_ok i i' es afs : same_codec i i' -> UsesV5Codec i = true -> BuildV5Plan i = Ok (es, afs) -> resolutions_ok i' ->
  exists ds, BuildV5Decoders i' = Ok ds.
Proof.
  intros HS HU HE HR. pose proof HS as (HSf & Ee & _). unfold BuildV5Plan in HE. unfold BuildV5Decoders.
  apply bind_ok in HE; destruct HE as (le & E1 & HE); apply bind_ok in HE; destruct HE as (re & E2 & _).
  destruct (leading_dec_ok i' HR) as (ld & ->); cbn [bind].
  destruct (mapM_dec_ok i' (filter (fun f => negb (isV5AdaptiveIntType (f_type f))) (skipn (LeadingLossyFloatFieldCount i') (i_fields i')))) as (ds & ->); [|cbn; eauto].
  destruct (v5_lossy i HU) as [He _]. rewrite He in E2. cbn [is_lossy andb] in E2.
  apply Forall_and.
  - apply Forall_forall. intros f Hf. apply filter_In in Hf. destruct Hf as [Hf _]. apply Forall_skipn with (n := LeadingLossyFloatFieldCount i') in HR.
    rewrite Forall_forall in HR. now apply HR.
  - rewrite <- (lead_count_shape i i' HS). eapply Forall2_types; [|eapply mapM_enc_types; exact E2].
    apply Forall2_filter; [|apply Forall2_skipn, HSf]. intros a b [-> _]. reflexivity.
Qed.

(** ** Writes of a whole cloud *)
Lemma kind_type i f k : In (f, k) (fks i) -> match k with KId => True | K32 _ | KN _ => f_type f = FLOAT32 | K64 _ => f_type f = FLOAT64 end.
Proof.
  unfold fks, kinds. intros H. 
  assert (HL : forall fs, In (f, k) (combine fs (map lossy_kind fs)) -> match k with KId => True | K32 _ | KN _ => f_type f = FLOAT32 | K64 _ => f_type f = FLOAT64 end).
  { intros fs. rewrite combine_map. intros Hi. apply in_map_iff in Hi. destruct Hi as (g & [= <- <-] & _). unfold lossy_kind. destruct (f_type g), (f_res g); auto. }
  assert (HI : In (f, k) (combine (i_fields i) (map (fun _ => KId) (i_fields i))) -> match k with KId => True | K32 _ | KN _ => f_type f = FLOAT32 | K64 _ => f_type f = FLOAT64 end).
  { intros Hi. rewrite combine_map in Hi. apply in_map_iff in Hi. destruct Hi as (g & [= <- <-] & _). exact I. }
  destruct (i_enc i); [exact (HI H)| |exact (HI H)|exact (HI H)]. set (n := lead_run (i_fields i)) in *.
  destruct (_ || _); [|exact (HL _ H)]. rewrite <- (firstn_skipn n (i_fields i)) in H at 1. rewrite combine_app in H by (now rewrite map_length).
  apply in_app_iff in H. destruct H as [H|H]; [|exact (HL _ H)].
  rewrite combine_map in H. apply in_map_iff in H. destruct H as (g & [= <- <-] & Hg).
  pose proof (lead_run_fields (i_fields i) n (le_n _)) as HF. rewrite Forall_forall in HF. destruct (HF g Hg) as [Ht (r & Hr)].
  unfold vector_kind. now rewrite Hr.
Qed.
Lemma recon_length ops i f k bs : In (f, k) (fks i) -> length bs = SizeOf (f_type f) -> length (recon ops k bs) = SizeOf (f_type f).
Proof.
  intros H Hl. apply kind_type in H. destruct k; cbn [recon]; [exact Hl| | |]; rewrite H, le_bytes_length; reflexivity.
Qed.
Definition inside (i' : info) (f' : field) : Prop := 0 <= f_off f' /\ f_off f' + Z.of_nat (SizeOf (f_type f')) <= i_step i'.
Lemma stored_skip f : stored f = true <-> f_off f <> kSkip.
Proof. unfold stored. destruct (Z.eqb_spec (f_off f) kSkip); cbn; intuition congruence. Qed.

Lemma fpairs_fields i i' f' f k : same_codec i i' -> In (f', (f, k)) (fpairs i i') ->
  In f' (i_fields i') /\ In (f, k) (fks i) /\ In f (i_fields i) /\ same_shape f f'.
Proof.
  intros HS H. pose proof (fks_shape i i' HS) as HF. unfold fpairs in H.
  assert (H1 : In f' (i_fields i')) by (eapply in_combine_l; eauto). assert (H2 : In (f, k) (fks i)) by (eapply in_combine_r; eauto).
  split; [exact H1|]. split; [exact H2|]. split; [unfold fks in H2; eapply in_combine_l; eauto|].
  clear H1 H2. revert H. induction HF as [|a b l l' HX HF IH]; cbn [combine]; intros [].
  - injection H as -> ->. exact HX.
  - auto.
Qed.

Lemma fbytes_length i f cloud j n : layout_ok i -> In f (i_fields i) -> Z.of_nat n * i_step i <= zlen cloud -> (j < n)%nat ->
  length (fbytes i f cloud j) = SizeOf (f_type f).
Proof.
  intros [H0 HL] Hf Hl Hj. rewrite Forall_forall in HL. specialize (HL f Hf). unfold fbytes. apply sub_length; nia.
Qed.

Lemma disjoint_pairs {B} (fs : list field) : disjoint_fields (filter stored fs) -> forall (l : list B) p q,
  In p (combine fs l) -> In q (combine fs l) -> stored (fst p) = true -> stored (fst q) = true ->
  p = q \/ f_off (fst p) + Z.of_nat (SizeOf (f_type (fst p))) <= f_off (fst q) \/ f_off (fst q) + Z.of_nat (SizeOf (f_type (fst q))) <= f_off (fst p).
Proof.
  induction fs as [|f fs IH]; cbn [filter combine]; intros HD l p q Hp Hq Sp Sq; [contradiction|].
  destruct l as [|b l]; [contradiction|]. cbn [combine In] in Hp, Hq.
  assert (HD' : disjoint_fields (filter stored fs)) by (destruct (stored f); [apply HD|exact HD]).
  destruct Hp as [<-|Hp], Hq as [<-|Hq]; cbn [fst] in *.
  - now left.
  - right. rewrite Sp in HD. destruct HD as [HD _]. rewrite Forall_forall in HD. destruct q as [g b']. cbn [fst] in *.
    apply in_combine_l in Hq. apply HD. apply filter_In. auto.
  - right. rewrite Sq in HD. destruct HD as [HD _]. rewrite Forall_forall in HD. destruct p as [g b']. cbn [fst] in *.
    apply in_combine_l in Hp. assert (Hx : In g (filter stored fs)) by (apply filter_In; auto). specialize (HD g Hx). tauto.
  - eauto.
Qed.

Lemma combine_In_map {A B C} (g : A -> C) (h : B -> C) (l : list A) : forall (l' : list B) a b, map g l = map h l' -> In (a, b) (combine l l') -> g a = h b.
Proof.
  induction l as [|x l IH]; intros [|y l'] a b E H; cbn in *; try contradiction; try discriminate.
  injection E as E1 E2. destruct H as [[= -> ->]|H]; [exact E1|eauto].
Qed.
Lemma fks_all_id i f k : Forall (fun k => k = KId) (kinds i) -> In (f, k) (fks i) -> k = KId.
Proof. intros H Hi. unfold fks in Hi. apply in_combine_r in Hi. rewrite Forall_forall in H. auto. Qed.

Lemma same_offsets i i' g f k : map f_off (i_fields i) = map f_off (i_fields i') -> In (g, (f, k)) (fpairs i i') -> f_off f = f_off g.
Proof.
  intros Hoff Hp. unfold fpairs in Hp.
  symmetry. apply (combine_In_map f_off (fun p : field * lossk => f_off (fst p)) (i_fields i') (fks i) g (f, k)); [|exact Hp].
  rewrite <- Hoff. rewrite <- (map_map fst f_off). now rewrite fks_fst.
Qed.
Lemma target_compat ops i i' cloud n w w' : same_codec i i' -> layout_ok i -> out_layout_ok i' -> consistent_output i i' ->
  Z.of_nat n * i_step i <= zlen cloud ->
  target ops i i' any cloud 0 n w -> target ops i i' any cloud 0 n w' -> compat w w'.
Proof.
  intros HS HL [Hs' HO] HC Hlen (j1 & g1 & f1 & k1 & Hj1 & Hp1 & _ & Hk1 & ->) (j2 & g2 & f2 & k2 & Hj2 & Hp2 & _ & Hk2 & ->).
  destruct (fpairs_fields i i' g1 f1 k1 HS Hp1) as (A1 & B1 & C1 & [T1 _]). destruct (fpairs_fields i i' g2 f2 k2 HS Hp2) as (A2 & B2 & C2 & [T2 _]).
  rewrite Forall_forall in HO. pose proof (HO g1 A1 (proj2 (stored_skip g1) Hk1)) as [O1 O1']. pose proof (HO g2 A2 (proj2 (stored_skip g2) Hk2)) as [O2 O2'].
  pose proof (recon_length ops i f1 k1 _ B1 (fbytes_length i f1 cloud j1 n HL C1 Hlen ltac:(lia))) as L1.
  pose proof (recon_length ops i f2 k2 _ B2 (fbytes_length i f2 cloud j2 n HL C2 Hlen ltac:(lia))) as L2.
  rewrite T1 in L1. rewrite T2 in L2.
  destruct HC as [HD|(HK & Hst & Hoff)].
  - destruct (Nat.lt_trichotomy j1 j2) as [H|[H|H]].
    + apply compat_disjoint. left. cbn [fst snd]. unfold zlen. rewrite L1. nia.
    + subst j2. destruct (disjoint_pairs (i_fields i') HD (fks i) _ _ Hp1 Hp2 (proj2 (stored_skip g1) Hk1) (proj2 (stored_skip g2) Hk2)) as [E|E].
      * inversion E; subst. intros x _ _. reflexivity.
      * apply compat_disjoint. cbn [fst snd] in *. unfold zlen. rewrite L1, L2. lia.
    + apply compat_disjoint. right. cbn [fst snd]. unfold zlen. rewrite L2. nia.
  - rewrite (fks_all_id i f1 k1 HK B1), (fks_all_id i f2 k2 HK B2). cbn [recon]. unfold fbytes. rewrite Hst.
    assert (E1 : f_off f1 = f_off g1) by (eapply same_offsets; eauto).
    assert (E2 : f_off f2 = f_off g2) by (eapply same_offsets; eauto).
    rewrite E1, E2. apply compat_sub; nia.
Qed.

Lemma restored_intro ops i i' cloud n ws mem mem' : same_codec i i' -> layout_ok i -> out_layout_ok i' -> consistent_output i i' ->
  Z.of_nat n * i_step i <= zlen cloud -> (forall w, In w ws <-> target ops i i' any cloud 0 n w) ->
  do_writes ws mem = Ok mem' -> Z.of_nat n * i_step i' <= zlen mem -> restored ops i i' n cloud mem mem'.
Proof.
  intros HS HL HO HC Hlen Hws HW Hm. destruct (do_writes_inv ws mem mem' HW) as [_ Hml]. split; [exact Hml|].
  pose proof HO as [Hs' HOf]. rewrite Forall_forall in HOf. split.
  - intros j f' f k Hj Hp Hst. change (In (f', (f, k)) (fpairs i i')) in Hp.
    destruct (fpairs_fields i i' f' f k HS Hp) as (A & B & C & [T _]).
    pose proof (HOf f' A Hst) as [O1 O2]. apply stored_skip in Hst.
    assert (Ht : target ops i i' any cloud 0 n (Z.of_nat j * i_step i' + f_off f', recon ops k (fbytes i f cloud j))).
    { exists j, f', f, k. repeat split; auto; lia. }
    pose proof (recon_length ops i f k _ B (fbytes_length i f cloud j n HL C Hlen Hj)) as Lr.
    assert (HH : holds mem' (Z.of_nat j * i_step i' + f_off f', recon ops k (fbytes i f cloud j))).
    { eapply do_writes_holds; [exact HW|apply Hws, Ht|]. apply Forall_forall. intros w' Hw'. apply Hws in Hw'. eapply target_compat; eauto. }
    rewrite <- Lr. apply holds_sub; [nia| |exact HH]. unfold zlen. rewrite Lr, Hml, T. unfold zlen in Hm. nia.
  - intros x Hx Hout. eapply do_writes_untouched; [exact HW|]. apply Forall_forall. intros w Hw. apply Hws in Hw.
    destruct Hw as (j & f' & f & k & Hj & Hp & _ & Hk & ->). destruct (fpairs_fields i i' f' f k HS Hp) as (A & B & C & [T _]).
    cbn [fst snd]. unfold zlen. rewrite (recon_length ops i f k _ B (fbytes_length i f cloud j n HL C Hlen ltac:(lia))), T.
    apply Hout; [lia|exact A|now apply stored_skip].
Qed.
Lemma target_in_range ops i i' cloud n w : same_codec i i' -> layout_ok i -> out_layout_ok i' -> Z.of_nat n * i_step i <= zlen cloud ->
  target ops i i' any cloud 0 n w -> forall m, Z.of_nat n * i_step i' <= m -> in_range m w.
Proof.
  intros HS HL [Hs' HO] Hlen (j & f' & f & k & Hj & Hp & _ & Hk & ->) m Hm. rewrite Forall_forall in HO.
  destruct (fpairs_fields i i' f' f k HS Hp) as (A & B & C & [T _]). pose proof (HO f' A (proj2 (stored_skip f') Hk)) as [O1 O2].
  unfold in_range. cbn [fst snd]. unfold zlen. rewrite (recon_length ops i f k _ B (fbytes_length i f cloud j n HL C Hlen ltac:(lia))), T. nia.
Qed.

(** ** encode *)
Definition enc_ready (e : encoder) : Prop :=
  UsesV5Codec (e_info e) = false -> BuildV4Encoders (e_info e) = Ok (e_es e) /\ Forall2 resettable (e_es e) (e_sts e).
Lemma new_ready i hdr e : PointcloudEncoder i hdr = Ok e -> enc_ready e /\ e_info e = i /\ hdr = Ok (e_hdr e).
Proof.
  unfold PointcloudEncoder, enc_ready. intros H. apply bind_ok in H. destruct H as (h & -> & H). destruct (UsesV5Codec i) eqn:U.
  - injection H as <-. cbn. split; [congruence|auto].
  - apply bind_ok in H. destruct H as (es & E & H). injection H as <-. cbn. split; [intros _; split; [exact E|apply resets_resettable]|auto].
Qed.
Definition sts_kept {A} (m : act A) : Prop := forall w, w_sts (snd (m w)) = w_sts w.
Lemma obl_kept {A} (m : act A) : oblivious m -> sts_kept m.
Proof. intros H w. specialize (H w (w_sts w)). replace (with_sts w (w_sts w)) with w in H by (destruct w; reflexivity). rewrite H. reflexivity. Qed.

Lemma v4_loop_ready ops L opt es step ppc cap fuel : forall rem w, Forall2 resettable es (w_sts w) ->
  Forall2 resettable es (w_sts (snd (v4_loop ops L opt es step ppc cap fuel rem w))).
Proof.
  induction fuel as [|fuel IH]; intros rem w HR; cbn [v4_loop]; destruct rem as [|b rem]; try exact HR.
  unfold EncodeV4Stage1Chunk. rewrite (reset_all es _ HR).
  destruct (enc_points_obj ops es step ppc (resets es) (b :: rem)) as [[[sts' rest] bs]| |] eqn:E; try exact HR.
  assert (HR' : Forall2 resettable es sts').
  { revert E. generalize (resets_resettable es). generalize (resets es). generalize (b :: rem). clear. intros cloud sts. revert sts cloud sts' rest bs.
    induction ppc as [|n IH]; intros sts cloud sts' rest bs HR HE; cbn [enc_points_obj] in HE.
    - injection HE as <- <- <-. exact HR.
    - destruct cloud as [|b cloud]; [injection HE as <- <- <-; exact HR|].
      apply bind_ok in HE. destruct HE as ((st1 & o1) & E1 & HE). apply bind_ok in HE. destruct HE as (c1 & E2 & HE).
      apply bind_ok in HE. destruct HE as (((s2 & r1) & o2) & E3 & HE). apply ok_pair in HE. destruct HE as [HE _]. apply pair_equal_spec in HE. destruct HE as [<- _].
      eapply IH; [|exact E3]. eapply enc_point_resettable; eauto. }
  destruct (cap <? zlen bs); [exact HR'|]. unfold abind.
  pose proof (obl_kept _ (obl_write L opt bs) (mkW (w_pos w) (w_mem w) sts')) as K. cbn [w_sts] in K.
  destruct (WriteStage1Chunk L opt bs (mkW (w_pos w) (w_mem w) sts')) as [[n| |] w1]; cbn [snd] in *; try (rewrite K; exact HR').
  specialize (IH rest w1). rewrite K in IH. specialize (IH HR').
  destruct (v4_loop ops L opt es step ppc cap fuel rest w1) as [[m| |] w2]; exact IH.
Qed.
Lemma v5_loop_kept ops L opt es afs step ppc probe cap fuel : forall left ass view, sts_kept (v5_loop ops L opt es afs step ppc probe cap fuel left ass view).
Proof.
  induction fuel as [|fuel IH]; intros left ass view w; cbn [v5_loop]; destruct left as [|left]; try reflexivity.
  destruct (enc_chunk_v5 _ _ _ _ _ _ _ _ _) as [[ass' bs]| |]; try reflexivity. unfold abind.
  pose proof (obl_kept _ (obl_write L opt bs) w) as K. destruct (WriteStage1Chunk L opt bs w) as [[n| |] w1]; cbn [snd] in *; try exact K.
  match goal with |- context [v5_loop ops L opt es afs step ppc probe cap fuel ?l ass' ?v w1] => specialize (IH l ass' v w1);
    destruct (v5_loop ops L opt es afs step ppc probe cap fuel l ass' v w1) as [[m| |] w2] end; cbn [snd] in *; unfold ret; cbn [snd]; congruence.
Qed.

Lemma body_ready ops L ppc probe e cloud n w : UsesV5Codec (e_info e) = false -> Forall2 resettable (e_es e) (w_sts w) ->
  Forall2 resettable (e_es e) (w_sts (snd (encode_body ops L ppc probe e cloud n w))).
Proof.
  intros HU HR. unfold encode_body. rewrite HU. destruct (MaxSerializedPointSize _); try exact HR. apply v4_loop_ready, HR.
Qed.
Lemma encode_view_ready ops L ppc probe e cloud out wh r out' e' : enc_ready e ->
  encode_view ops L ppc probe e cloud out wh = (r, out', e') -> enc_ready e' /\ e_info e' = e_info e /\ e_hdr e' = e_hdr e /\ e_es e' = e_es e.
Proof.
  intros HR HE. unfold encode_view in HE.
  destruct (i_step (e_info e) =? 0); [injection HE as <- <- <-; auto|].
  destruct (negb _); [injection HE as <- <- <-; auto|].
  destruct (MaxCompressedSize _ _ _ _ _) as [need| |]; [|injection HE as <- <- <-; auto|injection HE as <- <- <-; auto].
  destruct (zlen out <? _); [injection HE as <- <- <-; auto|].
  set (hdr := if wh then e_hdr e else []) in HE. set (n := (_ / _)%nat) in HE.
  destruct (encode_write ops L ppc probe e cloud n hdr (mkW 0 out (e_sts e))) as [r0 w0] eqn:EX.
  unfold encode_write in EX.
  injection HE as <- <- <-. cbn [e_info e_hdr e_es]. split; [|auto]. unfold enc_ready. cbn [e_info e_es e_sts]. intros HU. destruct (HR HU) as [HB HF].
  split; [exact HB|]. unfold abind in EX. 
  pose proof (obl_kept _ (obl_put 0 hdr) (mkW 0 out (e_sts e))) as K1. destruct (put_at 0 hdr (mkW 0 out (e_sts e))) as [[[]| |] w1]; cbn [snd w_sts] in K1;
    try (injection EX as _ <-; rewrite K1; exact HF).
  pose proof (obl_kept _ (obl_advance (zlen hdr)) w1) as K2. destruct (advance (zlen hdr) w1) as [[[]| |] w2]; cbn [snd w_sts] in K2;
    try (injection EX as _ <-; rewrite K2, K1; exact HF).
  assert (K3 : Forall2 resettable (e_es e) (w_sts w2)) by (rewrite K2, K1; exact HF).
  pose proof (body_ready ops L ppc probe e cloud n w2 HU K3) as K4. destruct (encode_body _ _ _ _ _ _ _ _) as [[m| |] w3]; cbn [snd] in K4;
    injection EX as _ <-; exact K4.
Qed.

(** The stage-1 bytes of chunk [c] of [cloud], which has [k] points. *)
Definition chunk_rel (ops : float_ops) (i : info) (ppc : nat) (cloud : list Z) (ms : list amode) (c k : nat) (bs : list Z) : Prop :=
  let step := Z.to_nat (i_step i) in
  if UsesV5Codec i then exists es afs, BuildV5Plan i = Ok (es, afs) /\ v5_chunk ops es afs step ppc cloud ms c k bs
  else exists es, BuildV4Encoders i = Ok es /\ v4_chunk ops es step ppc cloud c k bs.
Lemma chunk_rel_bytes ops i ppc cloud ms c k bs : chunk_rel ops i ppc cloud ms c k bs -> bytes bs.
Proof.
  unfold chunk_rel. destruct (UsesV5Codec i).
  - intros (es & afs & _ & o & secs & _ & -> & H1 & H2 & _). apply bytes_app. auto.
  - intros (es & _ & _ & H & _). exact H.
Qed.
(** Limits on the V5 codec under which its stage buffer is large enough. *)
Definition v5_limits (ppc : nat) (i : info) : Prop := UsesV5Codec i = true -> Z.of_nat ppc <= 65535 /\ wides (map mk_afield (adaptive_fields i)) <= 64.

Lemma body_spec ops L ppc probe e cloud n m : enc_ready e -> layout_ok (e_info e) -> known_enc (e_info e) -> bytes cloud ->
  length cloud = (n * Z.to_nat (i_step (e_info e)))%nat -> (0 < ppc)%nat -> v5_limits ppc (e_info e) -> MaxSerializedPointSize (e_info e) = Ok m ->
  (exists es afs, UsesV5Codec (e_info e) = false \/ BuildV5Plan (e_info e) = Ok (es, afs)) ->
  exists ms bss, stage1 (chunk_rel ops (e_info e) ppc cloud ms) ppc 0 n bss /\
    (UsesV5Codec (e_info e) = true -> n <> O -> exists es afs, BuildV5Plan (e_info e) = Ok (es, afs) /\
       Forall2 (fun a mo => best_mode a (firstn probe (column a (Z.to_nat (i_step (e_info e))) (Nat.min n ppc) cloud)) mo) afs ms) /\
    forall w, (UsesV5Codec (e_info e) = false -> Forall2 resettable (e_es e) (w_sts w)) ->
      exists sts', encode_body ops L ppc probe e cloud n w = lift (write_all L (i_comp (e_info e)) bss w) sts'.
Proof.
  intros HR HL HK Hc Hlen Hp Hv5 Hm (es0 & afs0 & HP0). set (i := e_info e) in *. set (step := Z.to_nat (i_step i)) in *.
  assert (Hst : i_step i = Z.of_nat step) by (destruct HL; unfold step; lia).
  unfold encode_body. fold i. fold step. unfold chunk_rel. fold step. rewrite Hm. destruct (UsesV5Codec i) eqn:HU.
  - destruct HP0 as [|HP0]; [discriminate|]. unfold V5StageBufferSize. rewrite Hm. cbn [bind]. rewrite HP0.
    destruct (plan_spec i es0 afs0 m HU HP0 Hm) as (HB & HA & Hsum). destruct (Hv5 HU) as [Hpp HAl].
    assert (HAn : afs0 <> []) by (rewrite HA; pose proof (v5_nonempty i HU); destruct (adaptive_fields i); [congruence|discriminate]).
    assert (Hzl : zlen afs0 = zlen (adaptive_fields i)) by (rewrite HA; unfold zlen; now rewrite map_length).
    assert (Hfl : zlen (adaptive_fields i) <= zlen (i_fields i)).
    { unfold adaptive_fields, zlen. clear. generalize (i_fields i). intros l. induction l as [|f l IH]; cbn [filter length]; [lia|]. destruct (isV5AdaptiveIntType _); cbn [length]; lia. }
    set (cap := Z.of_nat ppc * (Z.max (i_step i) m + 64) + zlen (i_fields i) * 64 + 1024).
    assert (Hcap : Z.of_nat ppc * Z.of_nat (sum_nat (map enc_max es0)) + (zlen afs0 * (5 + 10 * Z.of_nat ppc) + wides afs0 * Z.of_nat ppc) <= cap).
    { unfold cap. pose proof (zlen_nonneg (adaptive_fields i)). rewrite Hzl in *.
      assert (Z.of_nat ppc * (Z.of_nat (sum_nat (map enc_max es0)) + 10 * zlen (adaptive_fields i)) <= Z.of_nat ppc * Z.max (i_step i) m) by nia.
      assert (wides afs0 * Z.of_nat ppc <= 64 * Z.of_nat ppc) by (rewrite HA; apply Z.mul_le_mono_nonneg_r; lia). lia. }
    destruct (v5_loop_all ops L (i_comp i) i es0 afs0 step ppc probe cap cloud n HB HA HAn HL Hst Hc Hlen Hp Hpp Hcap) as [Hn0|(ms & Hms & HBM & bss & HS & HW)].
    + exists [], []. subst n. split; [constructor|]. split; [congruence|]. intros w _. exists (w_sts w). destruct w; reflexivity.
    + exists ms, bss. split; [|split].
      * eapply stage1_impl; [|exact Hp|exact HS]. intros c k bs _ _ _ H. eauto.
      * intros _ _. eauto.
      * intros w _. exists (w_sts w). rewrite (HW (S n) w) by lia. unfold lift.
        pose proof (obl_kept _ (obl_write_all L (i_comp i) bss) w) as K. destruct (write_all L (i_comp i) bss w) as [r w']. cbn [fst snd] in *.
        rewrite <- K. destruct w'; reflexivity.
  - destruct (HR HU) as [HB HF]. fold i in HB. destruct (build_v4_wf i (e_es e) m HK HB Hm) as (HBu & Hsum).
    destruct (v4_loop_all ops L (i_comp i) i (e_es e) step ppc (Z.of_nat ppc * Z.max (i_step i) m) cloud n HBu HL Hst Hc Hlen Hp ltac:(nia) n 0%nat) as (bss & HS & HW).
    { right. lia. }
    exists [], bss. split; [|split; [congruence|]].
    + eapply stage1_impl; [|exact Hp|exact HS]. intros c k bs _ _ _ H. eauto.
    + intros w HRw. destruct (HW (S n) w cloud ltac:(lia) ltac:(now rewrite Nat.sub_diag) ltac:(lia) (HRw eq_refl)) as (sts' & E & _). exists sts'. exact E.
Qed.

Lemma bind_not_UB {A B} (m : res A) (k : A -> res B) : m <> UB -> (forall a, k a <> UB) -> bind m k <> UB.
Proof. intros Hm Hk. destruct m; cbn [bind]; try discriminate; auto. Qed.
Lemma max_point_defined i : MaxSerializedPointSize i <> UB.
Proof.
  unfold MaxSerializedPointSize. induction (i_fields i) as [|f l IH]; cbn [max_fields_size]; [discriminate|].
  apply bind_not_UB; [unfold MaxSerializedFieldSize; destruct (f_type f), (i_enc i); discriminate|]. intros a.
  apply bind_not_UB; [exact IH|]. discriminate.
Qed.
Lemma chunk_bound_defined L i m n : chunk_bound L i m n <> UB.
Proof. unfold chunk_bound. destruct (i_comp i); try discriminate. destruct (INT_MAX <? _); discriminate. Qed.
Lemma max_size_defined L ppc i n h : MaxCompressedSize L ppc i n h <> UB.
Proof.
  unfold MaxCompressedSize. destruct (i_step i =? 0); [discriminate|]. apply bind_not_UB; [apply max_point_defined|]. intros m.
  apply bind_not_UB; [|discriminate]. generalize (chunks_count ppc n). intros k. revert n. induction k as [|k IH]; intros n; cbn [chunks_bound]; [discriminate|].
  apply bind_not_UB; [apply chunk_bound_defined|]. intros a. apply bind_not_UB; [apply IH|discriminate].
Qed.
Lemma max_point_nonneg i m : MaxSerializedPointSize i = Ok m -> 0 <= m.
Proof. intros HM. unfold MaxSerializedPointSize in HM. rewrite (max_fields_sum _ _ _ HM). apply sumz_nonneg; apply fmaxz_nonneg. Qed.
Lemma chunk_bound_nonneg L i m n t : libs_ok L -> 0 <= m -> 0 <= n -> chunk_bound L i m n = Ok t -> 4 <= t.
Proof.
  intros [H4 HZ] Hm Hn. unfold chunk_bound. set (sz := n * m + _).
  assert (Hsz : 0 <= sz) by (unfold sz; pose proof (zlen_nonneg (i_fields i)); destruct (UsesV5Codec i); nia).
  destruct (i_comp i); try discriminate.
  - intros [= <-]. lia.
  - destruct (INT_MAX <? sz); [discriminate|]. intros [= <-]. pose proof (lib_nonneg _ H4 sz Hsz). lia.
  - intros [= <-]. pose proof (lib_nonneg _ HZ sz Hsz). lia.
Qed.
Lemma max_size_nonneg L ppc i n h t : libs_ok L -> 0 <= h -> MaxCompressedSize L ppc i n h = Ok t -> h <= t.
Proof.
  intros HL Hh. unfold MaxCompressedSize. destruct (i_step i =? 0); [discriminate|]. intros H. apply bind_ok in H. destruct H as (m & Hm & H).
  apply max_point_nonneg in Hm. apply bind_ok in H. destruct H as (s & Hs & H). injection H as <-. assert (0 <= s); [|lia].
  revert s Hs. generalize (chunks_count ppc n). intros k. revert n. induction k as [|k IH]; intros n s Hs; cbn [chunks_bound] in Hs; [injection Hs as <-; lia|].
  apply bind_ok in Hs. destruct Hs as (a & Ha & Hs). apply bind_ok in Hs. destruct Hs as (b & Hb & Hs). injection Hs as <-.
  apply chunk_bound_nonneg in Ha; auto; [|lia]. apply IH in Hb. lia.
Qed.

Lemma mapM_defined {A B} (g : A -> res B) l : (forall x, g x <> UB) -> mapM g l <> UB.
Proof. intros Hg. induction l as [|x l IH]; cbn [mapM]; [discriminate|]. apply bind_not_UB; [apply Hg|]. intros y. apply bind_not_UB; [exact IH|discriminate]. Qed.
Lemma create_enc_defined i f : CreateCompatibleEncoder i f <> UB.
Proof.
  unfold CreateCompatibleEncoder. destruct (f_type f); try discriminate.
  - destruct (_ && _); [destruct (f32_le0 _); discriminate|]. destruct (i_enc i); discriminate.
  - destruct (_ && _); [destruct (f32_le0 _); discriminate|]. destruct (_ && _); discriminate.
Qed.
Lemma leading_enc_defined i : leading_encoder i <> UB.
Proof. unfold leading_encoder. destruct (_ =? 0)%nat; [discriminate|]. destruct (existsb _ _); discriminate. Qed.
Lemma plan_defined i : BuildV5Plan i <> UB.
Proof.
  unfold BuildV5Plan. apply bind_not_UB; [apply leading_enc_defined|]. intros a.
  apply bind_not_UB; [apply mapM_defined, create_enc_defined|discriminate].
Qed.
Lemma v4_encoders_defined i : BuildV4Encoders i <> UB.
Proof.
  unfold BuildV4Encoders. destruct (i_enc i); try discriminate; (apply bind_not_UB; [apply leading_enc_defined|]; intros a;
  apply bind_not_UB; [apply mapM_defined, create_enc_defined|discriminate]).
Qed.

Lemma write_header hdr out sts : bytes hdr -> bytes out -> zlen hdr <= zlen out ->
  exists w, (forall B (k : unit -> act B), (perform _ <- put_at 0 hdr ; perform _ <- advance (zlen hdr) ; k tt) (mkW 0 out sts) = k tt w) /\ wrote (mkW 0 out sts) w hdr.
Proof.
  intros Hh Ho Hz. pose proof (zlen_nonneg out) as Hnn. destruct (put_advance hdr (mkW 0 out sts)) as (w & E & HW); auto.
  - split; cbn; [lia|exact Ho].
  - unfold avail. cbn. lia.
  - exists w. split; [|exact HW]. intros B k. cbn [w_pos] in E. unfold abind in E |- *.
    destruct (put_at 0 hdr (mkW 0 out sts)) as [[[]| |] w1]; try discriminate E. rewrite E. reflexivity.
Qed.

Lemma encode_view_spec ops L ppc probe e cloud out wh r out' e' : enc_ready e -> libs_ok L -> layout_ok (e_info e) -> known_enc (e_info e) ->
  bytes cloud -> bytes out -> bytes (e_hdr e) -> (0 < ppc)%nat -> v5_limits ppc (e_info e) ->
  encode_view ops L ppc probe e cloud out wh = (r, out', e') ->
  r <> UB /\ length out' = length out /\ bytes out' /\
  forall total, r = Ok total ->
  exists n ms bss ps, length cloud = (n * Z.to_nat (i_step (e_info e)))%nat /\
    stage1 (chunk_rel ops (e_info e) ppc cloud ms) ppc 0 n bss /\
    Forall2 (fun bs p => payload L (i_comp (e_info e)) bs p /\ bytes p /\ zlen p <= UINT32_MAX) bss ps /\
    (UsesV5Codec (e_info e) = true -> n <> O -> exists es afs, BuildV5Plan (e_info e) = Ok (es, afs) /\
       Forall2 (fun a mo => best_mode a (firstn probe (column a (Z.to_nat (i_step (e_info e))) (Nat.min n ppc) cloud)) mo) afs ms) /\
    firstn (Z.to_nat total) out' = (if wh then e_hdr e else []) ++ concat (map frame ps) /\
    total = zlen (if wh then e_hdr e else []) + zlen (concat (map frame ps)) /\ total <= zlen out'.
Proof.
  intros HR HLi HL HK Hc Ho Hh Hp Hv5 HE. set (i := e_info e) in *. unfold encode_view in HE. fold i in HE.
  assert (Hs0 : 0 < i_step i) by apply HL.
  replace (i_step i =? 0) with false in HE by lia.
  destruct (Z.eqb_spec (zlen cloud mod i_step i) 0) as [Hmod|]; cbn [negb] in HE.
  2:{ injection HE as <- <- <-. split; [discriminate|]. split; [reflexivity|]. split; [exact Ho|discriminate]. }
  set (n := (length cloud / Z.to_nat (i_step i))%nat) in *.
  assert (Hlen : length cloud = (n * Z.to_nat (i_step i))%nat).
  { unfold n. pose proof (Nat.div_mod (length cloud) (Z.to_nat (i_step i)) ltac:(lia)) as HDM.
    assert (Hm0 : (length cloud mod Z.to_nat (i_step i) = 0)%nat).
    { apply Nat2Z.inj. rewrite Nat2Z.inj_mod by lia. rewrite Z2Nat.id by lia. exact Hmod. }
    rewrite Hm0 in HDM. rewrite Nat.mul_comm. lia. }
  destruct (MaxCompressedSize L ppc i n 0) as [need| |] eqn:EM.
  2:{ injection HE as <- <- <-. split; [discriminate|]. split; [reflexivity|]. split; [exact Ho|discriminate]. }
  2:{ exfalso. now apply (max_size_defined L ppc i n 0). }
  assert (HM : exists m, MaxSerializedPointSize i = Ok m).
  { unfold MaxCompressedSize in EM. replace (i_step i =? 0) with false in EM by lia. destruct (MaxSerializedPointSize i); cbn in EM; try discriminate. eauto. }
  destruct HM as (m & HM). set (hdr := if wh then e_hdr e else []) in *.
  assert (Hhb : bytes hdr) by (unfold hdr; destruct wh; [exact Hh|constructor]).
  destruct (Z.ltb_spec (zlen out) (need + zlen hdr)) as [|Hroom].
  { injection HE as <- <- <-. split; [discriminate|]. split; [reflexivity|]. split; [exact Ho|discriminate]. }
  assert (Hneed : 0 <= need) by (eapply max_size_nonneg; eauto; lia).
  destruct (write_header hdr out (e_sts e) Hhb Ho ltac:(lia)) as (w1 & HK1 & HW1).
  unfold encode_write in HE. rewrite (HK1 _ (fun _ => perform m <- encode_body ops L ppc probe e cloud n ; ret (zlen hdr + m))) in HE.
  assert (Hw0 : w_ok (mkW 0 out (e_sts e))) by (split; cbn; [pose proof (zlen_nonneg out); lia|exact Ho]).
  assert (Hw1 : w_ok w1) by apply HW1.
  assert (HsT : w_sts w1 = e_sts e) by (destruct HW1 as ((_ & _ & H & _) & _); exact H).
  assert (HP0 : (exists es afs, UsesV5Codec i = false \/ BuildV5Plan i = Ok (es, afs)) \/ (UsesV5Codec i = true /\ (BuildV5Plan i = Throw \/ BuildV5Plan i = UB))).
  { destruct (UsesV5Codec i); [|left; exists [], []; auto]. destruct (BuildV5Plan i) as [[es afs]| |]; [left; eauto|right; auto|right; auto]. }
  destruct HP0 as [HP0|[HU HP0]].
  - destruct (body_spec ops L ppc probe e cloud n m HR HL HK Hc Hlen Hp Hv5 HM HP0) as (ms & bss & HS & HBM & HBody). fold i in HS, HBM, HBody.
    destruct (HBody w1) as (sts' & EB). { intros HU. rewrite HsT. apply HR, HU. }
    unfold abind in HE. rewrite EB in HE. unfold lift in HE. 
    assert (Hbb : Forall bytes bss) by (eapply stage1_forall; [|exact HS]; intros c k bs; apply chunk_rel_bytes).
    destruct (write_all L (i_comp i) bss w1) as [r2 w2] eqn:EW. cbn [fst snd] in HE.
    destruct (write_all_spec L (i_comp i) bss HLi Hbb w1 r2 w2 Hw1 EW) as (HX & HnU & HOk).
    pose proof (extends_trans _ _ _ Hw0 (proj1 HW1) HX) as HX0.
    assert (HLO : length (w_mem w2) = length out) by apply HX0. assert (HBO : bytes (w_mem w2)) by apply HX0.
    destruct r2 as [t| |]; [|injection HE as <- <- <-; cbn [with_sts w_mem]; split; [discriminate|]; split; [exact HLO|]; split; [exact HBO|discriminate]|congruence].
    cbn [ret] in HE. injection HE as <- <- <-. cbn [with_sts w_mem]. split; [discriminate|]. split; [exact HLO|]. split; [exact HBO|].
    intros total [= <-]. destruct (HOk t eq_refl) as (ps & Hps & -> & HWa). exists n, ms, bss, ps.
    split; [exact Hlen|]. split; [exact HS|]. split; [exact Hps|]. split; [exact HBM|].
    pose proof (wrote_trans _ _ _ _ _ Hw0 HW1 HWa) as (HX2 & HP2 & HF2). cbn [w_pos] in HP2. rewrite zlen_app, Z.add_0_l in HP2.
    split; [|split; [reflexivity|]].
    + rewrite <- HP2. exact HF2.
    + destruct HX2 as ((HX2 & _) & _). lia.
  - assert (HEB : exists r0, encode_body ops L ppc probe e cloud n w1 = (r0, w1) /\ (r0 = Throw \/ r0 = UB) /\ (BuildV5Plan i = Throw -> r0 = Throw)).
    { unfold encode_body. fold i. rewrite HU. unfold V5StageBufferSize. rewrite HM. cbn [bind]. destruct HP0 as [->| ->]; eauto 10. exists UB. split; [reflexivity|]. split; [auto|discriminate]. }
    pose proof (plan_defined i) as HNU.
    destruct HEB as (r0 & EB & _ & HT). destruct HP0 as [HP0|HP0]; [|congruence]. rewrite (HT HP0) in EB.
    unfold abind in HE. rewrite EB in HE. injection HE as <- <- <-. split; [discriminate|].
    destruct HW1 as ((A1 & A2 & _) & _). split; [exact A2|]. split; [apply A1|discriminate].
Qed.
