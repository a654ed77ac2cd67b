(** The encoder reads only field bytes; earlier calls leave no trace. *)
From Verif Require Import Base BaseFacts Varint VarintFacts Types Floats Fields Codec V5 Api Spec LibSpec.
From Verif Require Import GorillaFacts FieldFacts WriteFacts CodecFacts BuildFacts RunFacts SectionFacts PaletteFacts V5Facts ChunkV5Facts Stage1Facts ApiFacts CloudFacts RoundTrip.

(** ** Locality *)
(** [v1] and [v2] agree at the places [ps] (offset, size) of every point. *)
Definition vagree (ps : list (Z * nat)) (step : nat) (v1 v2 : list Z) : Prop :=
  length v1 = length v2 /\
  forall j, Forall (fun p => 0 <= fst p -> sub (fst p) (snd p) (skipn (j * step) v1) = sub (fst p) (snd p) (skipn (j * step) v2)) ps.
Definition place (p : Z * nat * lossk) : Z * nat := fst p.
Definition same_rd (ps : list (Z * nat)) (v1 v2 : list Z) : Prop :=
  length v1 = length v2 /\ Forall (fun p => rd (fst p) (snd p) v1 = rd (fst p) (snd p) v2) ps.

Lemma vagree_rd ps step v1 v2 : vagree ps step v1 v2 -> same_rd ps v1 v2.
Proof.
  intros [HL H]. split; [exact HL|]. specialize (H O). cbn [Nat.mul skipn] in H. rewrite Forall_forall in *. intros p Hp. specialize (H p Hp).
  unfold rd, zlen. rewrite HL. destruct (Z.leb_spec 0 (fst p)); [|reflexivity]. destruct (_ <=? _); [|reflexivity]. cbn [andb].
  f_equal. apply H. assumption.
Qed.
Lemma vagree_skip ps step n v1 v2 : vagree ps step v1 v2 -> vagree ps step (skipn (n * step) v1) (skipn (n * step) v2).
Proof.
  intros [HL H]. split; [rewrite !skipn_length; lia|]. intros j. specialize (H (n + j)%nat).
  rewrite !skipn_skipn. replace (j * step + n * step)%nat with ((n + j) * step)%nat by lia. exact H.
Qed.
Lemma same_rd_incl ps qs v1 v2 : incl qs ps -> same_rd ps v1 v2 -> same_rd qs v1 v2.
Proof. intros HI [HL H]. split; [exact HL|]. rewrite Forall_forall in *. auto. Qed.

Lemma floatn_local ops v1 v2 lanes : forall prev, same_rd (map (fun l : Z * Z => (fst l, 4%nat)) lanes) v1 v2 ->
  floatn_encode ops lanes prev v1 = floatn_encode ops lanes prev v2.
Proof.
  induction lanes as [|[off r] lanes IH]; intros prev [HL H]; cbn [floatn_encode]; [reflexivity|]. destruct prev as [|p prev]; [reflexivity|].
  inversion H as [|? ? H1 H2]; subst. cbn [fst snd] in H1. rewrite H1. destruct (rd off 4 v2); cbn [bind]; try reflexivity.
  destruct (lane_encode ops r p (le_val a)). rewrite (IH prev); [reflexivity|]. now split.
Qed.
Lemma enc_step_local ops e st v1 v2 : same_rd (map place (pieces e)) v1 v2 -> enc_step ops e st v1 = enc_step ops e st v2.
Proof.
  intros [HL H]. destruct e; cbn [enc_step pieces map place fst] in *;
    try (inversion H as [|? ? H1 _]; subst; cbn [fst snd] in H1; rewrite H1; reflexivity).
  assert (E0 : rd 0 4 v1 = UB <-> rd 0 4 v2 = UB).
  { unfold rd, zlen. rewrite HL. destruct (_ && _); split; intros; try discriminate; reflexivity. }
  rewrite (floatn_local ops v1 v2 lanes (s_vec st)).
  - destruct (length lanes <? 4)%nat; [|reflexivity]. pose proof (rd_not_throw 0 4 v1). pose proof (rd_not_throw 0 4 v2).
    destruct (rd 0 4 v1), (rd 0 4 v2); cbn [bind]; try reflexivity; try congruence; destruct E0 as [E1 E2]; try discriminate (E1 eq_refl); discriminate (E2 eq_refl).
  - split; [exact HL|]. rewrite map_map in H. exact H.
Qed.
Lemma enc_point_local ops es : forall sts v1 v2, same_rd (map place (all_pieces es)) v1 v2 -> enc_point ops es sts v1 = enc_point ops es sts v2.
Proof.
  induction es as [|e es IH]; intros sts v1 v2 H; cbn [enc_point]; [reflexivity|]. destruct sts as [|st sts]; [reflexivity|].
  cbn [all_pieces flat_map] in H. rewrite map_app in H.
  rewrite (enc_step_local ops e st v1 v2), (IH sts v1 v2); [reflexivity| |]; eapply same_rd_incl; try exact H; intros x Hx; apply in_or_app; auto.
Qed.
Lemma nil_local (v1 v2 : list Z) : length v1 = length v2 -> v1 = [] <-> v2 = [].
Proof. destruct v1, v2; cbn; intros; try discriminate; split; congruence. Qed.

(** Results about clouds: the same outcome, with the remaining views in agreement. *)
Inductive same_res {A} (ps : list (Z * nat)) (step : nat) : res (A * list Z * list Z) -> res (A * list Z * list Z) -> Prop :=
| sr_ok a v1 v2 o : vagree ps step v1 v2 -> same_res ps step (Ok (a, v1, o)) (Ok (a, v2, o))
| sr_throw : same_res ps step Throw Throw
| sr_ub : same_res ps step UB UB.

Lemma obj_local ops es step ps n : incl (map place (all_pieces es)) ps -> forall sts v1 v2, vagree ps step v1 v2 ->
  same_res ps step (enc_points_obj ops es step n sts v1) (enc_points_obj ops es step n sts v2).
Proof.
  intros HI. induction n as [|n IH]; intros sts v1 v2 HV; cbn [enc_points_obj]; [now constructor|].
  pose proof HV as [HL _]. destruct v1 as [|b1 v1], v2 as [|b2 v2]; cbn in HL; try discriminate; [now constructor|].
  rewrite (enc_point_local ops es sts (b1 :: v1) (b2 :: v2)) by (eapply same_rd_incl; [exact HI|]; eapply vagree_rd; eauto).
  destruct (enc_point ops es sts (b2 :: v2)) as [[sts' o1]| |]; cbn [bind]; try constructor.
  unfold trim_front. destruct HV as [HL' HV]. rewrite HL'. destruct (_ <? _)%nat; cbn [bind]; [constructor|].
  assert (HV' : vagree ps step (skipn (1 * step) (b1 :: v1)) (skipn (1 * step) (b2 :: v2))) by (apply vagree_skip; now split).
  rewrite Nat.mul_1_l in HV'. specialize (IH sts' _ _ HV').
  destruct IH; cbn [bind]; now constructor.
Qed.

Lemma v4_loop_local ops L opt es step ppc cap ps : incl (map place (all_pieces es)) ps -> forall fuel v1 v2 w, vagree ps step v1 v2 ->
  v4_loop ops L opt es step ppc cap fuel v1 w = v4_loop ops L opt es step ppc cap fuel v2 w.
Proof.
  intros HI. induction fuel as [|fuel IH]; intros v1 v2 w HV; cbn [v4_loop]; pose proof HV as [HL _].
  - destruct v1, v2; cbn in HL; try discriminate; reflexivity.
  - destruct v1 as [|b1 v1], v2 as [|b2 v2]; cbn in HL; try discriminate; [reflexivity|].
    unfold EncodeV4Stage1Chunk. destruct (obj_local ops es step ps ppc HI (resetEncoders es (w_sts w)) _ _ HV) as [a r1 r2 o HV'| |]; try reflexivity.
    destruct (cap <? zlen o); [reflexivity|]. unfold abind. destruct (WriteStage1Chunk L opt o _) as [[m| |] w1]; try reflexivity.
    rewrite (IH r1 r2 w1 HV'). reflexivity.
Qed.

Lemma map2M_ext {A B C} (g h : A -> B -> res C) l : (forall a b, In a l -> g a b = h a b) -> forall l', map2M g l l' = map2M h l l'.
Proof.
  induction l as [|a l IH]; intros H l'; destruct l' as [|b l']; cbn [map2M]; try reflexivity.
  rewrite (H a b) by now left. rewrite IH; [reflexivity|]. intros; apply H; now right.
Qed.
Definition aplace (a : afield) : Z * nat := (a_off a, a_size a).
Inductive same_res4 {A B} (ps : list (Z * nat)) (step : nat) : res (A * B * list Z * list Z) -> res (A * B * list Z * list Z) -> Prop :=
| sr4_ok a b o v1 v2 : vagree ps step v1 v2 -> same_res4 ps step (Ok (a, b, o, v1)) (Ok (a, b, o, v2))
| sr4_throw : same_res4 ps step Throw Throw
| sr4_ub : same_res4 ps step UB UB.
Lemma range_local ops es afs step ps n : incl (map place (all_pieces es)) ps -> incl (map aplace afs) ps -> forall sts ass v1 v2, vagree ps step v1 v2 ->
  same_res4 ps step (enc_range ops es afs step n sts ass v1) (enc_range ops es afs step n sts ass v2).
Proof.
  intros HI HA. induction n as [|n IH]; intros sts ass v1 v2 HV; cbn [enc_range]; [now constructor|].
  pose proof (vagree_rd _ _ _ _ HV) as HR.
  rewrite (enc_point_local ops es sts v1 v2) by (eapply same_rd_incl; [exact HI|exact HR]).
  destruct (enc_point ops es sts v2) as [[sts' o1]| |]; cbn [bind]; try constructor.
  rewrite (map2M_ext (fun a s => collect a s v1) (fun a s => collect a s v2)).
  2:{ intros a s Ha. unfold collect. destruct HR as [_ HR]. rewrite Forall_forall in HR. specialize (HR (aplace a) (HA _ (in_map aplace _ _ Ha))).
      cbn [aplace fst snd] in HR. rewrite HR. reflexivity. }
  destruct (map2M (fun a s => collect a s v2) afs ass); cbn [bind]; try constructor.
  assert (HV' : vagree ps step (skipn (1 * step) v1) (skipn (1 * step) v2)) by (apply vagree_skip, HV).
  rewrite Nat.mul_1_l in HV'. destruct (IH sts' a _ _ HV'); cbn [bind]; now constructor.
Qed.
Lemma chunk_v5_local ops es afs step probe cap n ass ps v1 v2 : incl (map place (all_pieces es)) ps -> incl (map aplace afs) ps -> vagree ps step v1 v2 ->
  enc_chunk_v5 ops es afs step probe cap n ass v1 = enc_chunk_v5 ops es afs step probe cap n ass v2.
Proof.
  intros HI HA HV. unfold enc_chunk_v5.
  match goal with |- bind ?X ?f = bind ?Y ?g => assert (E : X = Y) end; [|rewrite E; reflexivity].
  destruct (_ && _).
  - destruct (range_local ops es afs step ps probe HI HA (resets es) (map prepare_chunk ass) v1 v2 HV) as [s1 a1 o1 r1 r2 HV1| |]; cbn [bind]; try reflexivity.
    destruct (map2M commit_probe afs a1) as [a2| |]; cbn [bind]; try reflexivity.
    destruct (range_local ops es afs step ps (n - probe) HI HA s1 a2 r1 r2 HV1); reflexivity.
  - destruct (range_local ops es afs step ps n HI HA (resets es) (map prepare_chunk ass) v1 v2 HV); reflexivity.
Qed.
Lemma v5_loop_local ops L opt es afs step ppc probe cap ps : incl (map place (all_pieces es)) ps -> incl (map aplace afs) ps ->
  forall fuel left ass v1 v2 w, vagree ps step v1 v2 ->
  v5_loop ops L opt es afs step ppc probe cap fuel left ass v1 w = v5_loop ops L opt es afs step ppc probe cap fuel left ass v2 w.
Proof.
  intros HI HA. induction fuel as [|fuel IH]; intros left ass v1 v2 w HV; cbn [v5_loop]; destruct left as [|left]; try reflexivity.
  rewrite (chunk_v5_local ops es afs step probe cap _ ass ps v1 v2 HI HA HV).
  destruct (enc_chunk_v5 _ _ _ _ _ _ _ _ v2) as [[ass' bs]| |]; try reflexivity. unfold abind.
  destruct (WriteStage1Chunk L opt bs w) as [[m| |] w1]; try reflexivity.
  rewrite (IH _ ass' (skipn (Nat.min (S left) ppc * step) v1) (skipn (Nat.min (S left) ppc * step) v2) w1 (vagree_skip _ _ _ _ _ HV)). reflexivity.
Qed.

(** The places the encoders read are the fields. *)
Definition field_places (i : info) : list (Z * nat) := map (fun f => (f_off f, SizeOf (f_type f))) (i_fields i).
Lemma built_places i sel es : built i sel es -> incl (map place (all_pieces es)) (field_places i).
Proof.
  intros (_ & HP & _ & _). rewrite HP. rewrite map_map. intros x Hx. apply in_map_iff in Hx. destruct Hx as ([f k] & <- & Hf).
  apply filter_In in Hf. destruct Hf as [Hf _]. unfold place, piece_of. cbn [fst snd]. unfold field_places.
  apply (in_map (fun f => (f_off f, SizeOf (f_type f)))). rewrite <- (fks_fst i). apply (in_map fst) in Hf. exact Hf.
Qed.
Lemma adaptive_places i : incl (map aplace (map mk_afield (adaptive_fields i))) (field_places i).
Proof.
  rewrite map_map. intros x Hx. apply in_map_iff in Hx. destruct Hx as (f & <- & Hf). unfold adaptive_fields in Hf. apply filter_In in Hf.
  unfold field_places, aplace, a_size. cbn [mk_afield a_off a_type]. apply (in_map (fun f => (f_off f, SizeOf (f_type f)))). tauto.
Qed.

Lemma fields_vagree i c1 c2 : 0 < i_step i -> length c1 = length c2 ->
  (forall f j, In f (i_fields i) -> fbytes i f c1 j = fbytes i f c2 j) -> vagree (field_places i) (Z.to_nat (i_step i)) c1 c2.
Proof.
  intros H0 HL H. split; [exact HL|]. intros j. apply Forall_forall. intros p Hp. apply in_map_iff in Hp. destruct Hp as (f & <- & Hf). cbn [fst snd].
  intros Ho. rewrite !sub_skipn by exact Ho. specialize (H f j Hf). unfold fbytes in H.
  replace (Z.of_nat (j * Z.to_nat (i_step i)) + f_off f) with (Z.of_nat j * i_step i + f_off f) by nia. exact H.
Qed.

Theorem encode_reads_fields_only ops L ppc probe e c1 c2 out wh : enc_ready e -> known_enc (e_info e) -> 0 <= i_step (e_info e) -> length c1 = length c2 ->
  (forall f j, In f (i_fields (e_info e)) -> fbytes (e_info e) f c1 j = fbytes (e_info e) f c2 j) ->
  encode_view ops L ppc probe e c1 out wh = encode_view ops L ppc probe e c2 out wh.
Proof.
  intros HR HK Hs HL HF. set (i := e_info e) in *. unfold encode_view. fold i. replace (zlen c1) with (zlen c2) by (unfold zlen; now rewrite HL). rewrite HL.
  destruct (Z.eqb_spec (i_step i) 0) as [|H0]; [reflexivity|]. destruct (negb _); [reflexivity|].
  set (n := (length c2 / Z.to_nat (i_step i))%nat). destruct (MaxCompressedSize L ppc i n 0) as [need| |]; try reflexivity.
  set (hdr := if wh then e_hdr e else []). destruct (zlen out <? need + zlen hdr); [reflexivity|].
  pose proof (fields_vagree i c1 c2 ltac:(lia) HL HF) as HV.
  assert (EB : forall w, encode_body ops L ppc probe e c1 n w = encode_body ops L ppc probe e c2 n w).
  { intros w. unfold encode_body. fold i. destruct (MaxSerializedPointSize i) as [m| |] eqn:HM.
    2,3: unfold V5StageBufferSize; rewrite HM; destruct (UsesV5Codec i); reflexivity.
    destruct (UsesV5Codec i) eqn:HU.
    - destruct (V5StageBufferSize i (Z.of_nat ppc)) as [cap| |]; try reflexivity. destruct (BuildV5Plan i) as [[es afs]| |] eqn:HB; try reflexivity.
      destruct (plan_spec i es afs m HU HB HM) as (HBu & HA & _). eapply v5_loop_local; [eapply built_places, HBu| |exact HV].
      rewrite HA. apply adaptive_places.
    - destruct (HR HU) as [HB _]. fold i in HB. destruct (build_v4_wf i (e_es e) m HK HB HM) as (HBu & _).
      eapply v4_loop_local; [eapply built_places, HBu|exact HV]. }
  unfold encode_write, abind. destruct (put_at 0 hdr _) as [[[]| |] w1]; try reflexivity. destruct (advance (zlen hdr) w1) as [[[]| |] w2]; try reflexivity.
  rewrite EB. reflexivity.
Qed.

(** ** History *)
Definition same_w (w1 w2 : wstate) : Prop := w_pos w1 = w_pos w2 /\ w_mem w1 = w_mem w2.
Definition same_o {A} (x y : res A * wstate) : Prop := fst x = fst y /\ same_w (snd x) (snd y).
Lemma obl_same {A} (m : act A) w1 w2 : oblivious m -> same_w w1 w2 -> same_o (m w1) (m w2).
Proof.
  intros HO [H1 H2]. replace w2 with (with_sts w1 (w_sts w2)) by (destruct w1, w2; unfold with_sts; cbn in *; congruence).
  rewrite HO. unfold lift, same_o, same_w. cbn. auto.
Qed.
Lemma v4_loop_history ops L opt es step ppc cap : forall fuel rem w1 w2, same_w w1 w2 ->
  Forall2 resettable es (w_sts w1) -> Forall2 resettable es (w_sts w2) ->
  same_o (v4_loop ops L opt es step ppc cap fuel rem w1) (v4_loop ops L opt es step ppc cap fuel rem w2).
Proof.
  induction fuel as [|fuel IH]; intros rem w1 w2 HW HR1 HR2; cbn [v4_loop]; destruct rem as [|b rem]; try (split; [reflexivity|exact HW]).
  unfold EncodeV4Stage1Chunk. rewrite (reset_all es _ HR1), (reset_all es _ HR2).
  destruct (enc_points_obj ops es step ppc (resets es) (b :: rem)) as [[[sts' rest] bs]| |] eqn:E; try (split; [reflexivity|exact HW]).
  assert (HR : Forall2 resettable es sts').
  { revert E. generalize (resets_resettable es). generalize (resets es). generalize (b :: rem). clear. intros cloud sts. revert sts cloud sts' rest bs.
    induction ppc as [|n IH]; intros sts cloud sts' rest bs HR HE; cbn [enc_points_obj] in HE.
    - injection HE as <- <- <-. exact HR.
    - destruct cloud as [|b cloud]; [injection HE as <- <- <-; exact HR|].
      apply bind_ok in HE. destruct HE as ((st1 & o1) & E1 & HE). apply bind_ok in HE. destruct HE as (c1 & E2 & HE).
      apply bind_ok in HE. destruct HE as (((s2 & r1) & o2) & E3 & HE). apply ok_pair in HE. destruct HE as [HE _]. apply pair_equal_spec in HE. destruct HE as [<- _].
      eapply IH; [|exact E3]. eapply enc_point_resettable; eauto. }
  destruct HW as [HW1 HW2]. rewrite HW1, HW2. set (w := mkW (w_pos w2) (w_mem w2) sts').
  destruct (cap <? zlen bs); [split; [reflexivity|split; reflexivity]|]. unfold abind.
  destruct (WriteStage1Chunk L opt bs w) as [[n| |] w']; split; try reflexivity; split; reflexivity.
Qed.

Lemma body_history ops L ppc probe e1 e2 cloud n w1 w2 : e_info e1 = e_info e2 -> e_es e1 = e_es e2 -> same_w w1 w2 ->
  (UsesV5Codec (e_info e2) = false -> Forall2 resettable (e_es e2) (w_sts w1) /\ Forall2 resettable (e_es e2) (w_sts w2)) ->
  same_o (encode_body ops L ppc probe e1 cloud n w1) (encode_body ops L ppc probe e2 cloud n w2).
Proof.
  intros HI HE HW HR. unfold encode_body. rewrite HI, HE. destruct (UsesV5Codec (e_info e2)).
  - destruct (V5StageBufferSize (e_info e2) (Z.of_nat ppc)) as [cap| |], (BuildV5Plan (e_info e2)) as [[es afs]| |]; try (split; [reflexivity|exact HW]).
    assert (HO : forall fuel left ass view, oblivious (v5_loop ops L (i_comp (e_info e2)) es afs (Z.to_nat (i_step (e_info e2))) ppc probe cap fuel left ass view)).
    { clear. induction fuel as [|fuel IH]; intros left ass view w sts; cbn [v5_loop]; destruct left as [|left]; try reflexivity.
      destruct (enc_chunk_v5 _ _ _ _ _ _ _ _ _) as [[ass' bs]| |]; try reflexivity.
      apply obl_bind; [apply obl_write|intros m]. apply obl_bind; [apply IH|intros m2]. apply obl_ret. }
    apply obl_same; [apply HO|exact HW].
  - destruct (HR eq_refl) as [HR1 HR2]. destruct (MaxSerializedPointSize (e_info e2)); try (split; [reflexivity|exact HW]). now apply v4_loop_history.
Qed.
Lemma bind_same {A B} (m1 m2 : act A) (k1 k2 : A -> act B) w1 w2 : same_o (m1 w1) (m2 w2) ->
  (forall a, fst (m1 w1) = Ok a -> same_w (snd (m1 w1)) (snd (m2 w2)) -> same_o (k1 a (snd (m1 w1))) (k2 a (snd (m2 w2)))) ->
  same_o (abind m1 k1 w1) (abind m2 k2 w2).
Proof.
  intros [H1 H2] HK. unfold abind. destruct (m1 w1) as [r1 x1], (m2 w2) as [r2 x2]. cbn [fst snd] in *. subst r2.
  destruct r1; [now apply HK|split; auto|split; auto].
Qed.

(** Two encoder objects for the same info give the same result and the same output. *)
Theorem encode_view_history ops L ppc probe e1 e2 cloud out wh : e_info e1 = e_info e2 -> e_hdr e1 = e_hdr e2 -> e_es e1 = e_es e2 ->
  enc_ready e1 -> enc_ready e2 ->
  fst (encode_view ops L ppc probe e1 cloud out wh) = fst (encode_view ops L ppc probe e2 cloud out wh).
Proof.
  intros HI HH HE HR1 HR2. unfold encode_view. rewrite HI, HH.
  destruct (_ =? 0); [reflexivity|]. destruct (negb _); [reflexivity|]. destruct (MaxCompressedSize _ _ _ _ _); try reflexivity.
  destruct (zlen out <? _); [reflexivity|]. set (hdr := if wh then e_hdr e2 else []). set (n := (_ / _)%nat).
  assert (HS : same_o (encode_write ops L ppc probe e1 cloud n hdr (mkW 0 out (e_sts e1))) (encode_write ops L ppc probe e2 cloud n hdr (mkW 0 out (e_sts e2)))).
  { unfold encode_write. pose proof (obl_kept _ (obl_put 0 hdr)) as K1. pose proof (obl_kept _ (obl_advance (zlen hdr))) as K2.
    apply bind_same; [apply obl_same; [apply obl_put|split; reflexivity]|]. intros _ _ HW1.
    apply bind_same; [apply obl_same; [apply obl_advance|exact HW1]|]. intros _ _ HW2.
    apply bind_same.
    - apply body_history; auto. intros HU. rewrite !K2, !K1. cbn [w_sts]. destruct (HR2 HU) as [_ HF2].
      unfold enc_ready in HR1. rewrite HI, HE in HR1. destruct (HR1 HU) as [_ HF1]. auto.
    - intros m _ HW3. split; [reflexivity|exact HW3]. }
  destruct (encode_write ops L ppc probe e1 cloud n hdr _) as [r1 w1], (encode_write ops L ppc probe e2 cloud n hdr _) as [r2 w2].
  destruct HS as [HS1 [_ HS2]]. cbn [fst snd] in *. now rewrite HS1, HS2.
Qed.
Theorem encode_vec_history ops L ppc probe e1 e2 cloud out : e_info e1 = e_info e2 -> e_hdr e1 = e_hdr e2 -> e_es e1 = e_es e2 ->
  enc_ready e1 -> enc_ready e2 ->
  fst (encode_vec ops L ppc probe e1 cloud out) = fst (encode_vec ops L ppc probe e2 cloud out).
Proof.
  intros HI HH HE HR1 HR2. unfold encode_vec. rewrite HI, HH.
  destruct (_ =? 0); [reflexivity|]. destruct (negb _); [reflexivity|]. destruct (MaxCompressedSize _ _ _ _ _); try reflexivity.
  destruct (wr 0 _ _); try reflexivity.
  pose proof (encode_view_history ops L ppc probe e1 e2 cloud (skipn (length (e_hdr e2)) a0) false HI HH HE HR1 HR2) as H.
  destruct (encode_view ops L ppc probe e1 _ _ _) as [[r1 t1] x1], (encode_view ops L ppc probe e2 _ _ _) as [[r2 t2] x2]. cbn [fst] in H.
  apply pair_equal_spec in H. destruct H as [<- <-]. destruct r1; reflexivity.
Qed.
Lemma encode_vec_ready ops L ppc probe e cloud out r out' e' : enc_ready e ->
  encode_vec ops L ppc probe e cloud out = (r, out', e') -> enc_ready e' /\ e_info e' = e_info e /\ e_hdr e' = e_hdr e /\ e_es e' = e_es e.
Proof.
  intros HR HE. unfold encode_vec in HE.
  destruct (i_step (e_info e) =? 0); [injection HE as <- <- <-; auto|].
  destruct (negb _); [injection HE as <- <- <-; auto|].
  destruct (MaxCompressedSize _ _ _ _ _) as [sz| |]; [|injection HE as <- <- <-; auto|injection HE as <- <- <-; auto].
  destruct (wr 0 _ _) as [o1| |]; [|injection HE as <- <- <-; auto|injection HE as <- <- <-; auto].
  destruct (encode_view ops L ppc probe e cloud (skipn (length (e_hdr e)) o1) false) as [[r1 t1] e1] eqn:EV.
  pose proof (encode_view_ready _ _ _ _ _ _ _ _ _ _ _ HR EV) as H. destruct r1; injection HE as <- <- <-; exact H.
Qed.

(** An encoder object that can occur: constructed, then used any number of times, with
    successful and failing calls. *)
Inductive encoder_of (ops : float_ops) (L : libs) (ppc probe : nat) (i : info) (hdr : res (list Z)) : encoder -> Prop :=
| eo_new e : PointcloudEncoder i hdr = Ok e -> encoder_of ops L ppc probe i hdr e
| eo_view e cloud out wh r out' e' : encoder_of ops L ppc probe i hdr e ->
    encode_view ops L ppc probe e cloud out wh = (r, out', e') -> encoder_of ops L ppc probe i hdr e'
| eo_vec e cloud out r out' e' : encoder_of ops L ppc probe i hdr e ->
    encode_vec ops L ppc probe e cloud out = (r, out', e') -> encoder_of ops L ppc probe i hdr e'.
Lemma encoder_of_ready ops L ppc probe i hdr e : encoder_of ops L ppc probe i hdr e ->
  enc_ready e /\ e_info e = i /\ hdr = Ok (e_hdr e) /\ exists e0, PointcloudEncoder i hdr = Ok e0 /\ e_es e = e_es e0.
Proof.
  induction 1 as [e H|e cloud out wh r out' e' H IH HE|e cloud out r out' e' H IH HE].
  - destruct (new_ready i hdr e H) as (A & B & C). eauto 10.
  - destruct IH as (A & B & C & e0 & D1 & D2). destruct (encode_view_ready _ _ _ _ _ _ _ _ _ _ _ A HE) as (A' & B' & C' & D').
    rewrite B', C', D'. eauto 10.
  - destruct IH as (A & B & C & e0 & D1 & D2). destruct (encode_vec_ready _ _ _ _ _ _ _ _ _ _ A HE) as (A' & B' & C' & D').
    rewrite B', C', D'. eauto 10.
Qed.
Lemma encoder_of_same ops L ppc probe i hdr e1 e2 : encoder_of ops L ppc probe i hdr e1 -> encoder_of ops L ppc probe i hdr e2 ->
  e_info e1 = e_info e2 /\ e_hdr e1 = e_hdr e2 /\ e_es e1 = e_es e2 /\ enc_ready e1 /\ enc_ready e2.
Proof.
  intros H1 H2. destruct (encoder_of_ready _ _ _ _ _ _ _ H1) as (A1 & B1 & C1 & f1 & D1 & E1). destruct (encoder_of_ready _ _ _ _ _ _ _ H2) as (A2 & B2 & C2 & f2 & D2 & E2).
  rewrite D1 in D2. injection D2 as <-. rewrite C1 in C2. injection C2 as C2. split; [congruence|]. split; [congruence|]. split; [congruence|]. auto.
Qed.

(** ** Decoder objects: decompressed_buffer_ is scratch *)
Definition forget {A B} (r : res (A * B)) : res B := match r with Ok (_, b) => Ok b | Throw => Throw | UB => UB end.
Lemma decompress_scratch L opt chunk b1 b2 max : libs_ok L -> bytes chunk -> 0 <= max ->
  match DecompressChunk L opt chunk b1 max, DecompressChunk L opt chunk b2 max with
  | Ok (v1, _), Ok (v2, _) => v1 = v2
  | Throw, Throw => True
  | _, _ => False
  end.
Proof.
  intros [H4 HZ] Hb Hm. unfold DecompressChunk.
  assert (HR : forall c, compressor_ok c -> match match c_decompress c chunk max with None => Throw | Some r => do buf2 <- wr 0 r (if zlen b1 <? max then resize max b1 else b1); Ok (firstn (length r) buf2, buf2) end,
      match c_decompress c chunk max with None => Throw | Some r => do buf2 <- wr 0 r (if zlen b2 <? max then resize max b2 else b2); Ok (firstn (length r) buf2, buf2) end with
    | Ok (v1, _), Ok (v2, _) => v1 = v2 | Throw, Throw => True | _, _ => False end).
  { intros c Hc. pose proof (lib_dec c Hc chunk max) as Hd. destruct (c_decompress c chunk max) as [r|]; [|exact I].
    destruct (Hd r Hb eq_refl) as [Hr _].
    assert (HW : forall b, exists b', wr 0 r (if zlen b <? max then resize max b else b) = Ok b' /\ firstn (length r) b' = r).
    { intros b. set (x := if _ <? _ then _ else _). assert (Hx : zlen r <= zlen x) by (unfold x; destruct (Z.ltb_spec (zlen b) max); [rewrite resize_length|]; lia).
      rewrite wr_ok by lia. eexists. split; [reflexivity|]. change (firstn (Z.to_nat 0) x ++ r ++ skipn (Z.to_nat 0 + length r) x) with (r ++ skipn (length r) x).
      rewrite firstn_app, firstn_all, Nat.sub_diag. apply app_nil_r. }
    destruct (HW b1) as (x1 & -> & E1). destruct (HW b2) as (x2 & -> & E2). cbn [bind]. congruence. }
  destruct opt; [reflexivity| | |exact I].
  - destruct (_ || _); [exact I|]. now apply HR.
  - now apply HR.
Qed.
Lemma chunk_scratch ops L i ds minb chunk b1 b2 k base mem : libs_ok L -> bytes chunk ->
  match decodeChunk ops L i ds minb chunk b1 k base mem, decodeChunk ops L i ds minb chunk b2 k base mem with
  | Ok (_, p1, m1), Ok (_, p2, m2) => p1 = p2 /\ m1 = m2
  | Throw, Throw | UB, UB => True
  | _, _ => False
  end.
Proof.
  intros HL Hb. unfold decodeChunk.
  pose proof (decompress_scratch L (i_comp i) chunk b1 b2 (u64 (u64 (i_width i * i_height i) * i_step i)) HL Hb ltac:(unfold u64; apply Z.mod_pos_bound; lia)) as H.
  destruct (DecompressChunk L (i_comp i) chunk b1 _) as [[v1 x1]| |], (DecompressChunk L (i_comp i) chunk b2 _) as [[v2 x2]| |]; cbn [bind]; try contradiction; try exact I.
  subst v2. destruct (UsesV5Codec i).
  - destruct (DecodeV5Stage1Chunk _ _ _ _ _ _ _) as [[p m]| |]; cbn [bind]; auto.
  - destruct (DecodeV4Stage1Chunk _ _ _ _ _ _ _ _) as [[[x p] m]| |]; cbn [bind]; auto.
Qed.
Lemma bytes_take n data size data1 : bytes data -> take_uint n data = Ok (size, data1) -> bytes data1.
Proof.
  unfold take_uint. intros Hb. destruct (_ <? _)%nat; [discriminate|]. intros H. apply ok_pair in H. destruct H as [_ <-]. apply bytes_skipn, Hb.
Qed.
Theorem decode_history ops L ppc i data b1 b2 mem : libs_ok L -> bytes data ->
  forget (decode ops L ppc i data b1 mem) = forget (decode ops L ppc i data b2 mem).
Proof.
  intros HL Hd. unfold decode. destruct (updateDecoders i) as [[ds minb]| |]; cbn [bind]; try reflexivity. destruct (has_magic data); [reflexivity|].
  destruct (3 <=? i_version i).
  - generalize (S (length data)), (u64 (i_width i * i_height i)), 0. intros fuel. revert data b1 b2 mem Hd.
    induction fuel as [|fuel IH]; intros data b1 b2 mem Hd points base; cbn [dec_loop]; destruct data as [|b data]; try (destruct (points =? 0); reflexivity); try reflexivity.
    destruct (points =? 0); [reflexivity|]. destruct (take_uint 4 (b :: data)) as [[size data1]| |] eqn:ET; cbn [bind]; try reflexivity.
    pose proof (bytes_take _ _ _ _ Hd ET) as Hd1. destruct (zlen data1 <? size); [reflexivity|].
    pose proof (chunk_scratch ops L i ds minb (firstn (Z.to_nat size) data1) b1 b2 (Z.to_nat (Z.min points (Z.of_nat ppc))) base mem HL (bytes_firstn _ _ Hd1)) as HC.
    destruct (decodeChunk ops L i ds minb _ b1 _ _ _) as [[[x1 p1] m1]| |], (decodeChunk ops L i ds minb _ b2 _ _ _) as [[[x2 p2] m2]| |]; cbn [bind]; try contradiction; try reflexivity.
    destruct HC as [<- <-]. apply IH, bytes_skipn, Hd1.
  - pose proof (chunk_scratch ops L i ds minb data b1 b2 O 0 mem HL Hd) as HC.
    destruct (decodeChunk ops L i ds minb data b1 _ _ _) as [[[x1 p1] m1]| |], (decodeChunk ops L i ds minb data b2 _ _ _) as [[[x2 p2] m2]| |]; cbn [bind]; try contradiction; try reflexivity.
    destruct HC as [_ <-]. reflexivity.
Qed.
