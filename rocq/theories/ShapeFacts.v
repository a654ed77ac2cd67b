(** Names, width and height take no part in the coding of the points. *)
From Verif Require Import Base BaseFacts Types Floats Fields Codec V5 Api Spec LibSpec BuildFacts RunFacts ApiFacts CloudFacts RoundTrip LocalFacts CloudApi PropsCloud StreamSpec StreamFacts RenameSpec.
Open Scope Z_scope.

Definition like (f g : field) : Prop := f_off f = f_off g /\ f_type f = f_type g /\ f_res f = f_res g.
Lemma layout_like i i' : same_layout i i' -> Forall2 like (i_fields i) (i_fields i').
Proof.
  intros [H _]. revert H. generalize (i_fields i'). induction (i_fields i) as [|f l IH]; intros [|g l'] H; cbn [map] in H; try discriminate; constructor; [|apply IH; congruence].
  unfold like. assert (E : (f_off f, f_type f, f_res f) = (f_off g, f_type g, f_res g)) by congruence. split; [congruence|]. split; congruence.
Qed.
Lemma like_skipn n : forall l l', Forall2 like l l' -> Forall2 like (skipn n l) (skipn n l').
Proof. induction n as [|n IH]; intros l l' H; [exact H|]. destruct H; cbn [skipn]; [constructor|auto]. Qed.
Lemma like_firstn n : forall l l', Forall2 like l l' -> Forall2 like (firstn n l) (firstn n l').
Proof. induction n as [|n IH]; intros l l' H; [constructor|]. destruct H; cbn [firstn]; constructor; auto. Qed.
Lemma like_filter p l l' : (forall f g, like f g -> p f = p g) -> Forall2 like l l' -> Forall2 like (filter p l) (filter p l').
Proof. intros HP H. induction H as [|f g l l' Hf H IH]; cbn [filter]; [constructor|]. rewrite (HP f g Hf). destruct (p g); [constructor; assumption|assumption]. Qed.
Lemma like_map {A} (h : field -> A) l l' : (forall f g, like f g -> h f = h g) -> Forall2 like l l' -> map h l = map h l'.
Proof. intros HP H. induction H as [|f g l l' Hf H IH]; cbn [map]; [reflexivity|]. now rewrite (HP f g Hf), IH. Qed.
Lemma like_mapM {A} (h h' : field -> res A) l l' : (forall f g, like f g -> h f = h' g) -> Forall2 like l l' -> mapM h l = mapM h' l'.
Proof. intros HP H. induction H as [|f g l l' Hf H IH]; cbn [mapM]; [reflexivity|]. now rewrite (HP f g Hf), IH. Qed.
Lemma like_existsb p l l' : (forall f g, like f g -> p f = p g) -> Forall2 like l l' -> existsb p l = existsb p l'.
Proof. intros HP H. induction H as [|f g l l' Hf H IH]; cbn [existsb]; [reflexivity|]. now rewrite (HP f g Hf), IH. Qed.
Lemma like_zlen l l' : Forall2 like l l' -> zlen l = zlen l'.
Proof. intros H. unfold zlen. f_equal. induction H; cbn [length]; congruence. Qed.
Lemma like_res f g : like f g -> has_res f = has_res g /\ res_of f = res_of g.
Proof. intros (_ & _ & H). unfold has_res, res_of. rewrite H. auto. Qed.
Lemma like_leading l l' : Forall2 like l l' -> leading_lossy l = leading_lossy l'.
Proof.
  intros H. induction H as [|f g l l' Hf H IH]; cbn [leading_lossy]; [reflexivity|]. destruct (like_res f g Hf) as [-> _]. destruct Hf as (_ & -> & _). now rewrite IH.
Qed.
Lemma like_lanes l l' : Forall2 like l l' -> lanes_of l = lanes_of l'.
Proof. intros H. apply like_map; [|exact H]. intros f g Hf. destruct (like_res f g Hf) as [_ ->]. destruct Hf as (-> & _). reflexivity. Qed.

Section Two.
Variables i i' : info.
Hypothesis HS : same_layout i i'.
Lemma like_all : Forall2 like (i_fields i) (i_fields i').
Proof. apply layout_like, HS. Qed.
Lemma like_enc : i_enc i = i_enc i'.
Proof. apply HS. Qed.
Lemma like_count : LeadingLossyFloatFieldCount i = LeadingLossyFloatFieldCount i'.
Proof. unfold LeadingLossyFloatFieldCount. rewrite like_enc, (like_leading _ _ like_all). reflexivity. Qed.
Lemma like_rest : Forall2 like (skipn (LeadingLossyFloatFieldCount i) (i_fields i)) (skipn (LeadingLossyFloatFieldCount i') (i_fields i')).
Proof. rewrite like_count. apply like_skipn, like_all. Qed.
Lemma like_lead_enc : leading_encoder i = leading_encoder i'.
Proof. unfold leading_encoder. rewrite like_count. rewrite (like_lanes _ _ (like_firstn _ _ _ like_all)). reflexivity. Qed.
Lemma like_lead_dec : leading_decoder i = leading_decoder i'.
Proof. unfold leading_decoder. rewrite like_count. rewrite (like_lanes _ _ (like_firstn _ _ _ like_all)). reflexivity. Qed.
Lemma like_create_enc f g : like f g -> CreateCompatibleEncoder i f = CreateCompatibleEncoder i' g.
Proof.
  intros H. destruct (like_res f g H) as [R1 R2]. destruct H as (H1 & H2 & _). unfold CreateCompatibleEncoder. rewrite H1, H2, R1, R2, like_enc.
  destruct HS as (_ & _ & _ & _ & ->). reflexivity.
Qed.
Lemma like_create_dec f g : like f g -> CreateCompatibleDecoder i f = CreateCompatibleDecoder i' g.
Proof.
  intros H. destruct (like_res f g H) as [R1 R2]. destruct H as (H1 & H2 & _). unfold CreateCompatibleDecoder. rewrite H1, H2, R1, R2, like_enc.
  destruct HS as (_ & _ & _ & _ & ->). reflexivity.
Qed.
Lemma like_adaptive f g : like f g -> isV5AdaptiveIntType (f_type f) = isV5AdaptiveIntType (f_type g).
Proof. intros (_ & -> & _). reflexivity. Qed.
Lemma like_v4_enc : BuildV4Encoders i = BuildV4Encoders i'.
Proof.
  unfold BuildV4Encoders. rewrite <- like_enc, <- like_lead_enc, <- (like_mapM _ _ _ _ like_create_enc like_rest).
  rewrite (like_map _ _ _ (fun f g H => f_equal2 ECopy (proj1 H) (f_equal SizeOf (proj1 (proj2 H)))) like_all). reflexivity.
Qed.
Lemma like_v4_dec : BuildV4Decoders i = BuildV4Decoders i'.
Proof.
  unfold BuildV4Decoders. rewrite <- like_enc, <- like_lead_dec, <- (like_mapM _ _ _ _ like_create_dec like_rest).
  rewrite (like_map _ _ _ (fun f g H => f_equal2 DCopy (proj1 H) (f_equal SizeOf (proj1 (proj2 H)))) like_all).
  rewrite (like_map _ _ _ (fun f g H => f_equal SizeOf (proj1 (proj2 H))) like_all). reflexivity.
Qed.
Lemma like_uses : UsesV5Codec i = UsesV5Codec i'.
Proof.
  unfold UsesV5Codec. rewrite <- like_enc, <- (like_existsb _ _ _ like_adaptive like_rest). destruct HS as (_ & _ & _ & _ & ->). reflexivity.
Qed.
Lemma like_plan : BuildV5Plan i = BuildV5Plan i'.
Proof.
  unfold BuildV5Plan. rewrite <- like_enc, <- like_lead_enc. pose (p := fun f => is_lossy (i_enc i) && isV5AdaptiveIntType (f_type f)). cbv zeta.
  assert (HP : forall f g, like f g -> p f = p g) by (intros f g H; unfold p; now rewrite (like_adaptive f g H)).
  assert (E1 := like_mapM _ _ _ _ like_create_enc (like_filter (fun f => negb (p f)) _ _ (fun f g H => f_equal negb (HP f g H)) like_rest)).
  assert (E2 := like_map _ _ _ (fun f g H => f_equal2 mkA (proj1 H) (proj1 (proj2 H))) (like_filter p _ _ HP like_rest)).
  destruct (leading_encoder i); cbn [bind]; [|reflexivity|reflexivity]. subst p. cbv beta in E1, E2.
  match goal with |- bind ?x _ = bind ?y _ => change (x = y) in E1; rewrite <- E1; destruct x; cbn [bind]; [|reflexivity|reflexivity] end.
  match goal with |- Ok (_, ?x) = Ok (_, ?y) => change (x = y) in E2; rewrite E2; reflexivity end.
Qed.
Lemma like_v5_dec : BuildV5Decoders i = BuildV5Decoders i'.
Proof.
  unfold BuildV5Decoders. rewrite <- like_lead_dec.
  rewrite <- (like_mapM _ _ _ _ like_create_dec (like_filter (fun f => negb (isV5AdaptiveIntType (f_type f))) _ _ (fun f g H => f_equal negb (like_adaptive f g H)) like_rest)). reflexivity.
Qed.
Lemma like_afields : getV5AdaptiveFields i = getV5AdaptiveFields i'.
Proof.
  unfold getV5AdaptiveFields. rewrite <- like_enc.
  rewrite (like_map _ _ _ (fun f g H => f_equal2 mkA (proj1 H) (proj1 (proj2 H))) (like_filter _ _ _ like_adaptive like_rest)). reflexivity.
Qed.
Lemma like_max : MaxSerializedPointSize i = MaxSerializedPointSize i'.
Proof.
  unfold MaxSerializedPointSize. rewrite <- like_enc. generalize (i_enc i). intros e. induction like_all as [|f g l l' Hf H IH]; cbn [max_fields_size]; [reflexivity|]. rewrite IH.
  destruct (like_res f g Hf) as [R1 _]. unfold MaxSerializedFieldSize. rewrite R1. destruct Hf as (_ & -> & _). reflexivity.
Qed.
Lemma like_stage ppc : V5StageBufferSize i ppc = V5StageBufferSize i' ppc.
Proof. unfold V5StageBufferSize. rewrite like_max, (like_zlen _ _ like_all). destruct HS as (_ & -> & _). reflexivity. Qed.
Lemma like_bound L ppc n hdr : MaxCompressedSize L ppc i n hdr = MaxCompressedSize L ppc i' n hdr.
Proof.
  unfold MaxCompressedSize. rewrite like_max. destruct HS as (_ & -> & _). destruct (_ =? 0); [reflexivity|]. destruct (MaxSerializedPointSize i') as [m| |]; cbn [bind]; [|reflexivity|reflexivity].
  assert (E : forall c left, chunks_bound L i m ppc c left = chunks_bound L i' m ppc c left); [|now rewrite E].
  induction c as [|c IH]; intros left; cbn [chunks_bound]; [reflexivity|]. rewrite IH. unfold chunk_bound. rewrite like_uses, (like_zlen _ _ like_all). destruct HS as (_ & _ & _ & -> & _). reflexivity.
Qed.
Lemma like_body ops L ppc probe e e' cloud n : e_info e = i -> e_info e' = i' -> e_es e = e_es e' ->
  encode_body ops L ppc probe e cloud n = encode_body ops L ppc probe e' cloud n.
Proof.
  intros H1 H2 HE. unfold encode_body. cbv zeta. rewrite H1, H2, HE.
  rewrite like_uses, like_stage, like_plan, like_max. destruct HS as (_ & -> & _ & -> & _). reflexivity.
Qed.
Lemma like_view ops L ppc probe e e' cloud out wh : e_info e = i -> e_info e' = i' -> e_es e = e_es e' -> e_hdr e = e_hdr e' -> e_sts e = e_sts e' ->
  fst (encode_view ops L ppc probe e cloud out wh) = fst (encode_view ops L ppc probe e' cloud out wh).
Proof.
  intros H1 H2 HE HH HT. unfold encode_view. rewrite H1, H2. replace (i_step i') with (i_step i) by apply HS. rewrite like_bound, HH, HT.
  destruct (_ =? 0); [reflexivity|]. destruct (negb _); [reflexivity|]. destruct (MaxCompressedSize _ _ _ _ _); [|reflexivity|reflexivity].
  destruct (zlen out <? _); [reflexivity|]. unfold encode_write. rewrite (like_body ops L ppc probe e e' cloud _ H1 H2 HE).
  destruct (abind _ _ _) as [r w]. reflexivity.
Qed.
Lemma like_vec ops L ppc probe e e' cloud out : e_info e = i -> e_info e' = i' -> e_es e = e_es e' -> e_hdr e = e_hdr e' -> e_sts e = e_sts e' ->
  fst (encode_vec ops L ppc probe e cloud out) = fst (encode_vec ops L ppc probe e' cloud out).
Proof.
  intros H1 H2 HE HH HT. unfold encode_vec. rewrite H1, H2. replace (i_step i') with (i_step i) by apply HS. rewrite like_bound, HH.
  destruct (_ =? 0); [reflexivity|]. destruct (negb _); [reflexivity|]. destruct (MaxCompressedSize _ _ _ _ _) as [sz| |]; [|reflexivity|reflexivity].
  destruct (wr 0 _ _) as [o1| |]; [|reflexivity|reflexivity].
  pose proof (like_view ops L ppc probe e e' cloud (skipn (length (e_hdr e')) o1) false H1 H2 HE HH HT) as HV.
  destruct (encode_view ops L ppc probe e _ _ _) as [[r1 t1] x1], (encode_view ops L ppc probe e' _ _ _) as [[r2 t2] x2]. cbn [fst] in HV.
  apply pair_equal_spec in HV. destruct HV as [<- <-]. destruct r1; reflexivity.
Qed.
Lemma like_produces ops L ppc probe e e' cloud hdr body : e_info e = i -> e_info e' = i' -> e_es e = e_es e' -> e_hdr e = e_hdr e' -> e_sts e = e_sts e' ->
  produces ops L ppc probe e' cloud hdr body -> produces ops L ppc probe e cloud hdr body.
Proof.
  intros HI HI' HE HH HT [(out & wh & total & out' & x & Ho & H & E1 & E2 & E3)|(out & total & out' & x & Ho & H & E1 & E2 & E3)]; [left|right].
  - pose proof (like_view ops L ppc probe e e' cloud out wh HI HI' HE HH HT) as HF. rewrite H in HF.
    destruct (encode_view ops L ppc probe e cloud out wh) as [[r o] e2'] eqn:EV. cbn [fst] in HF. apply pair_equal_spec in HF. destruct HF as [-> ->].
    exists out, wh, total, out', e2'. rewrite HH. repeat (split; [assumption|]). assumption.
  - pose proof (like_vec ops L ppc probe e e' cloud out HI HI' HE HH HT) as HF. rewrite H in HF.
    destruct (encode_vec ops L ppc probe e cloud out) as [[r o] e2'] eqn:EV. cbn [fst] in HF. apply pair_equal_spec in HF. destruct HF as [-> ->].
    exists out, total, out', e2'. rewrite HH. repeat (split; [assumption|]). assumption.
Qed.
Lemma like_new h h' e e' : PointcloudEncoder i (Ok h) = Ok e -> PointcloudEncoder i' (Ok h') = Ok e' -> e_es e = e_es e'.
Proof.
  unfold PointcloudEncoder. cbn [bind]. rewrite like_uses, like_v4_enc. destruct (UsesV5Codec i').
  - intros H H'. assert (E : e = mkEnc i h [] []) by congruence. assert (E' : e' = mkEnc i' h' [] []) by congruence. now subst.
  - destruct (BuildV4Encoders i') as [es| |]; cbn [bind]; [|discriminate|discriminate].
    intros H H'. assert (E : e = mkEnc i h es (resets es)) by congruence. assert (E' : e' = mkEnc i' h' es (resets es)) by congruence. now subst.
Qed.
Lemma like_decode ops L ppc data buf mem : same_points i i' -> decode ops L ppc i data buf mem = decode ops L ppc i' data buf mem.
Proof.
  intros HP. unfold same_points in HP.
  assert (EC : forall ds minb chunk buf expected base mem, decodeChunk ops L i ds minb chunk buf expected base mem = decodeChunk ops L i' ds minb chunk buf expected base mem).
  { intros. unfold decodeChunk, DecodeV5Stage1Chunk. rewrite HP, like_uses, like_afields. destruct HS as (_ & -> & _ & -> & _). reflexivity. }
  assert (EL : forall ds minb fuel data buf points base mem, dec_loop ops L ppc i ds minb fuel data buf points base mem = dec_loop ops L ppc i' ds minb fuel data buf points base mem).
  { induction fuel as [|k IH]; intros d b p base m; cbn [dec_loop]; [reflexivity|]. destruct d as [|x d]; [reflexivity|]. destruct (p =? 0); [reflexivity|].
    destruct (take_uint 4 (x :: d)) as [[size d1]| |]; cbn [bind]; [|reflexivity|reflexivity]. destruct (zlen d1 <? size); [reflexivity|]. rewrite EC.
    destruct (decodeChunk _ _ _ _ _ _ _ _ _ _) as [[[b2 base2] m2]| |]; cbn [bind]; [|reflexivity|reflexivity]. apply IH. }
  unfold decode, updateDecoders. rewrite like_uses, like_v5_dec, like_v4_dec. destruct (if UsesV5Codec i' then _ else _) as [[ds minb]| |]; cbn [bind]; [|reflexivity|reflexivity].
  destruct (has_magic data); [reflexivity|]. replace (i_version i') with (i_version i) by apply HS. rewrite <- HP. destruct (3 <=? i_version i); [apply EL|]. rewrite EC. reflexivity.
Qed.
End Two.
