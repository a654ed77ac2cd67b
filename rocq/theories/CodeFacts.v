(** What an encoder makes of a cloud depends only on the code of each field of each point:
    the bytes of an exactly coded field, the quantised integer (or "NaN") of a lossy one.
    Two builds ([o1], [o2]) or two clouds that agree on the codes give the same stream. *)
From Verif Require Import Base BaseFacts Varint VarintFacts Types Floats Fields Codec V5 Api Spec LibSpec.
From Verif Require Import GorillaFacts FieldFacts WriteFacts CodecFacts BuildFacts RunFacts SectionFacts PaletteFacts V5Facts ChunkV5Facts Stage1Facts ApiFacts CloudFacts RoundTrip LocalFacts.

(** Specification: the code of a field value. *)
Inductive code := Exact (bs : list Z) | Quantised (v : Z) | NotANumber.
Definition code_of (ops : float_ops) (k : lossk) (bs : list Z) : code :=
  match k with
  | KId => Exact bs
  | K32 r => if isnan32 (le_val bs) then NotANumber else Quantised (s64 (q32 ops r (le_val bs)))
  | K64 r => if isnan64 (le_val bs) then NotANumber else Quantised (s64 (q64 ops r (le_val bs)))
  | KN r => if isnan32 (le_val bs) then NotANumber else Quantised (s32 (qN ops r (le_val bs)))
  end.

Section Two.
Variables o1 o2 : float_ops.

Definition cplace := (Z * nat * lossk)%type.
Definition same_at (p : cplace) (v1 v2 : list Z) : Prop :=
  match rd (fst (fst p)) (snd (fst p)) v1, rd (fst (fst p)) (snd (fst p)) v2 with
  | Ok b1, Ok b2 => code_of o1 (snd p) b1 = code_of o2 (snd p) b2
  | UB, UB => True
  | _, _ => False
  end.
Definition cagree (ps : list cplace) (step : nat) (v1 v2 : list Z) : Prop :=
  (length v1 = length v2 /\ Forall (fun p => (0 < snd (fst p))%nat \/ snd p = KId) ps) /\
  forall j, Forall (fun p => 0 <= fst (fst p) -> (0 < snd (fst p))%nat -> Z.of_nat (j * step) + fst (fst p) + Z.of_nat (snd (fst p)) <= zlen v1 ->
     code_of o1 (snd p) (sub (fst (fst p)) (snd (fst p)) (skipn (j * step) v1)) =
     code_of o2 (snd p) (sub (fst (fst p)) (snd (fst p)) (skipn (j * step) v2))) ps.
Definition same_pt (ps : list cplace) (v1 v2 : list Z) : Prop :=
  length v1 = length v2 /\ Forall (fun p => same_at p v1 v2) ps.

Lemma cagree_pt ps step v1 v2 : cagree ps step v1 v2 -> same_pt ps v1 v2.
Proof.
  intros [[HL HS] H]. split; [exact HL|]. specialize (H O). cbn [Nat.mul skipn] in H. rewrite Forall_forall in *. intros p Hp. specialize (H p Hp). specialize (HS p Hp).
  unfold same_at, rd. unfold zlen in *. rewrite HL. destruct (Z.leb_spec 0 (fst (fst p))); [|exact I].
  destruct (Z.leb_spec (fst (fst p) + Z.of_nat (snd (fst p))) (Z.of_nat (length v2))); cbn [andb]; [|exact I].
  destruct (Nat.eq_dec (snd (fst p)) 0) as [E|E].
  - destruct HS as [HS|HS]; [lia|]. rewrite E, HS. reflexivity.
  - apply H; [assumption|lia|]. rewrite HL. cbn. lia.
Qed.
Lemma cagree_skip ps step n v1 v2 : cagree ps step v1 v2 -> cagree ps step (skipn (n * step) v1) (skipn (n * step) v2).
Proof.
  intros [[HL HS] H]. split; [split; [rewrite !skipn_length; lia|exact HS]|]. intros j. specialize (H (n + j)%nat).
  rewrite !skipn_skipn. replace (j * step + n * step)%nat with ((n + j) * step)%nat by lia. rewrite Forall_forall in *. intros p Hp H1 H0 H2.
  apply H; [exact Hp|exact H1|exact H0|]. unfold zlen in *. rewrite skipn_length in H2. lia.
Qed.
Lemma same_pt_incl ps qs v1 v2 : incl qs ps -> same_pt ps v1 v2 -> same_pt qs v1 v2.
Proof. intros HI [HL H]. split; [exact HL|]. rewrite Forall_forall in *. auto. Qed.

Lemma lane_code r p b1 b2 : code_of o1 (KN r) b1 = code_of o2 (KN r) b2 -> lane_encode o1 r p (le_val b1) = lane_encode o2 r p (le_val b2).
Proof.
  unfold code_of, lane_encode. destruct (isnan32 (le_val b1)), (isnan32 (le_val b2)); try discriminate; [reflexivity|].
  intros H. assert (E : s32 (qN o1 r (le_val b1)) = s32 (qN o2 r (le_val b2))) by congruence. rewrite E. reflexivity.
Qed.
Lemma floatn_code v1 v2 lanes : forall prev, same_pt (map (fun l : Z * Z => (fst l, 4%nat, KN (snd l))) lanes) v1 v2 ->
  floatn_encode o1 lanes prev v1 = floatn_encode o2 lanes prev v2.
Proof.
  induction lanes as [|[off r] lanes IH]; intros prev [HL H]; cbn [floatn_encode]; [reflexivity|]. destruct prev as [|p prev]; [reflexivity|].
  cbn [map] in H. pose proof (Forall_inv H) as H1. pose proof (Forall_inv_tail H) as H2. unfold same_at in H1. cbn [fst snd] in H1.
  destruct (rd off 4 v1), (rd off 4 v2); try contradiction; cbn [bind]; [|reflexivity].
  rewrite (lane_code r p _ _ H1). destruct (lane_encode o2 r p (le_val a0)). rewrite (IH prev); [reflexivity|]. now split.
Qed.
Lemma enc_step_code e st v1 v2 : same_pt (pieces e) v1 v2 -> enc_step o1 e st v1 = enc_step o2 e st v2.
Proof.
  intros [HL H].
  assert (ID : forall off sz, Forall (fun p => same_at p v1 v2) [(off, sz, KId)] -> rd off sz v1 = rd off sz v2).
  { intros off sz H1. apply Forall_inv in H1. unfold same_at in H1. cbn [fst snd code_of] in H1.
    destruct (rd off sz v1), (rd off sz v2); try contradiction; [congruence|reflexivity]. }
  destruct e; cbn [enc_step pieces] in *; try (rewrite (ID _ _ H); reflexivity).
  - apply Forall_inv in H. unfold same_at in H. cbn [fst snd code_of] in H.
    destruct (rd off 4 v1), (rd off 4 v2); try contradiction; cbn [bind]; [|reflexivity].
    destruct (isnan32 (le_val a)), (isnan32 (le_val a0)); try discriminate; [reflexivity|].
    assert (E : s64 (q32 o1 res (le_val a)) = s64 (q32 o2 res (le_val a0))) by congruence. rewrite E. reflexivity.
  - apply Forall_inv in H. unfold same_at in H. cbn [fst snd code_of] in H.
    destruct (rd off 8 v1), (rd off 8 v2); try contradiction; cbn [bind]; [|reflexivity].
    destruct (isnan64 (le_val a)), (isnan64 (le_val a0)); try discriminate; [reflexivity|].
    assert (E : s64 (q64 o1 res (le_val a)) = s64 (q64 o2 res (le_val a0))) by congruence. rewrite E. reflexivity.
  - assert (E0 : rd 0 4 v1 = UB <-> rd 0 4 v2 = UB).
    { unfold rd, zlen. rewrite HL. destruct (_ && _); split; intros; try discriminate; reflexivity. }
    rewrite (floatn_code v1 v2 lanes (s_vec st)) by (split; [exact HL|exact H]).
    destruct (length lanes <? 4)%nat; [|reflexivity]. pose proof (rd_not_throw 0 4 v1). pose proof (rd_not_throw 0 4 v2).
    destruct (rd 0 4 v1), (rd 0 4 v2); cbn [bind]; try reflexivity; try congruence; destruct E0 as [E1 E2]; try discriminate (E1 eq_refl); discriminate (E2 eq_refl).
Qed.
Lemma enc_point_code es : forall sts v1 v2, same_pt (all_pieces es) v1 v2 -> enc_point o1 es sts v1 = enc_point o2 es sts v2.
Proof.
  induction es as [|e es IH]; intros sts v1 v2 H; cbn [enc_point]; [reflexivity|]. destruct sts as [|st sts]; [reflexivity|].
  unfold all_pieces in H. cbn [flat_map] in H.
  rewrite (enc_step_code e st v1 v2), (IH sts v1 v2); [reflexivity| |]; eapply same_pt_incl; try exact H; intros x Hx; apply in_or_app; auto.
Qed.

Inductive csame {A} (ps : list cplace) (step : nat) : res (A * list Z * list Z) -> res (A * list Z * list Z) -> Prop :=
| cs_ok a v1 v2 o : cagree ps step v1 v2 -> csame ps step (Ok (a, v1, o)) (Ok (a, v2, o))
| cs_throw : csame ps step Throw Throw
| cs_ub : csame ps step UB UB.

Lemma obj_code es step ps n : incl (all_pieces es) ps -> forall sts v1 v2, cagree ps step v1 v2 ->
  csame ps step (enc_points_obj o1 es step n sts v1) (enc_points_obj o2 es step n sts v2).
Proof.
  intros HI. induction n as [|n IH]; intros sts v1 v2 HV; cbn [enc_points_obj]; [now constructor|].
  pose proof HV as [[HL _] _]. destruct v1 as [|b1 v1], v2 as [|b2 v2]; cbn in HL; try discriminate; [now constructor|].
  rewrite (enc_point_code es sts (b1 :: v1) (b2 :: v2)) by (eapply same_pt_incl; [exact HI|]; eapply cagree_pt; eauto).
  destruct (enc_point o2 es sts (b2 :: v2)) as [[sts' x1]| |]; cbn [bind]; try constructor.
  unfold trim_front. pose proof HV as [[HL' _] _]. rewrite HL'. destruct (_ <? _)%nat; cbn [bind]; [constructor|].
  assert (HV' : cagree ps step (skipn (1 * step) (b1 :: v1)) (skipn (1 * step) (b2 :: v2))) by (apply cagree_skip; exact HV).
  rewrite Nat.mul_1_l in HV'. specialize (IH sts' _ _ HV').
  destruct IH; cbn [bind]; now constructor.
Qed.
Lemma v4_loop_code L opt es step ppc cap ps : incl (all_pieces es) ps -> forall fuel v1 v2 w, cagree ps step v1 v2 ->
  v4_loop o1 L opt es step ppc cap fuel v1 w = v4_loop o2 L opt es step ppc cap fuel v2 w.
Proof.
  intros HI. induction fuel as [|fuel IH]; intros v1 v2 w HV; cbn [v4_loop]; pose proof HV as [[HL _] _].
  - destruct v1, v2; cbn in HL; try discriminate; reflexivity.
  - destruct v1 as [|b1 v1], v2 as [|b2 v2]; cbn in HL; try discriminate; [reflexivity|].
    unfold EncodeV4Stage1Chunk. destruct (obj_code es step ps ppc HI (resetEncoders es (w_sts w)) _ _ HV) as [a r1 r2 o HV'| |]; try reflexivity.
    destruct (cap <? zlen o); [reflexivity|]. unfold abind. destruct (WriteStage1Chunk L opt o _) as [[m| |] w1]; try reflexivity.
    rewrite (IH r1 r2 w1 HV'). reflexivity.
Qed.

Definition acplace (a : afield) : cplace := (a_off a, a_size a, KId).
Inductive csame4 {A B} (ps : list cplace) (step : nat) : res (A * B * list Z * list Z) -> res (A * B * list Z * list Z) -> Prop :=
| cs4_ok a b o v1 v2 : cagree ps step v1 v2 -> csame4 ps step (Ok (a, b, o, v1)) (Ok (a, b, o, v2))
| cs4_throw : csame4 ps step Throw Throw
| cs4_ub : csame4 ps step UB UB.
Lemma range_code es afs step ps n : incl (all_pieces es) ps -> incl (map acplace afs) ps -> forall sts ass v1 v2, cagree ps step v1 v2 ->
  csame4 ps step (enc_range o1 es afs step n sts ass v1) (enc_range o2 es afs step n sts ass v2).
Proof.
  intros HI HA. induction n as [|n IH]; intros sts ass v1 v2 HV; cbn [enc_range]; [now constructor|].
  pose proof (cagree_pt _ _ _ _ HV) as HR.
  rewrite (enc_point_code es sts v1 v2) by (eapply same_pt_incl; [exact HI|exact HR]).
  destruct (enc_point o2 es sts v2) as [[sts' x1]| |]; cbn [bind]; try constructor.
  rewrite (map2M_ext (fun a s => collect a s v1) (fun a s => collect a s v2)).
  2:{ intros a s Ha. unfold collect. destruct HR as [_ HR]. rewrite Forall_forall in HR. specialize (HR (acplace a) (HA _ (in_map acplace _ _ Ha))).
      unfold same_at in HR. cbn [acplace fst snd code_of] in HR. destruct (rd (a_off a) (a_size a) v1), (rd (a_off a) (a_size a) v2); try contradiction; [|reflexivity].
      assert (E : a0 = a1) by congruence. rewrite E. reflexivity. }
  destruct (map2M (fun a s => collect a s v2) afs ass); cbn [bind]; try constructor.
  assert (HV' : cagree ps step (skipn (1 * step) v1) (skipn (1 * step) v2)) by (apply cagree_skip, HV).
  rewrite Nat.mul_1_l in HV'. destruct (IH sts' a _ _ HV'); cbn [bind]; now constructor.
Qed.
Lemma chunk_v5_code es afs step probe cap n ass ps v1 v2 : incl (all_pieces es) ps -> incl (map acplace afs) ps -> cagree ps step v1 v2 ->
  enc_chunk_v5 o1 es afs step probe cap n ass v1 = enc_chunk_v5 o2 es afs step probe cap n ass v2.
Proof.
  intros HI HA HV. unfold enc_chunk_v5.
  match goal with |- bind ?X ?f = bind ?Y ?g => assert (E : X = Y) end; [|rewrite E; reflexivity].
  destruct (_ && _).
  - destruct (range_code es afs step ps probe HI HA (resets es) (map prepare_chunk ass) v1 v2 HV) as [s1 a1 x1 r1 r2 HV1| |]; cbn [bind]; try reflexivity.
    destruct (map2M commit_probe afs a1) as [a2| |]; cbn [bind]; try reflexivity.
    destruct (range_code es afs step ps (n - probe) HI HA s1 a2 r1 r2 HV1); reflexivity.
  - destruct (range_code es afs step ps n HI HA (resets es) (map prepare_chunk ass) v1 v2 HV); reflexivity.
Qed.
Lemma v5_loop_code L opt es afs step ppc probe cap ps : incl (all_pieces es) ps -> incl (map acplace afs) ps ->
  forall fuel left ass v1 v2 w, cagree ps step v1 v2 ->
  v5_loop o1 L opt es afs step ppc probe cap fuel left ass v1 w = v5_loop o2 L opt es afs step ppc probe cap fuel left ass v2 w.
Proof.
  intros HI HA. induction fuel as [|fuel IH]; intros left ass v1 v2 w HV; cbn [v5_loop]; destruct left as [|left]; try reflexivity.
  rewrite (chunk_v5_code es afs step probe cap _ ass ps v1 v2 HI HA HV).
  destruct (enc_chunk_v5 _ _ _ _ _ _ _ _ v2) as [[ass' bs]| |]; try reflexivity. unfold abind.
  destruct (WriteStage1Chunk L opt bs w) as [[m| |] w1]; try reflexivity.
  rewrite (IH _ ass' (skipn (Nat.min (S left) ppc * step) v1) (skipn (Nat.min (S left) ppc * step) v2) w1 (cagree_skip _ _ _ _ _ HV)). reflexivity.
Qed.

Definition field_codes (i : info) : list cplace := map piece_of (fks i).
Lemma built_codes i sel es : built i sel es -> incl (all_pieces es) (field_codes i).
Proof.
  intros (_ & HP & _ & _). rewrite HP. intros x Hx. apply in_map_iff in Hx. destruct Hx as (fk & <- & Hf).
  apply filter_In in Hf. apply in_map. tauto.
Qed.
Lemma int_kind i f k : In (f, k) (fks i) -> isV5AdaptiveIntType (f_type f) = true -> k = KId.
Proof.
  unfold fks, kinds. intros H HT.
  assert (HL : forall fs, In (f, k) (combine fs (map lossy_kind fs)) -> k = KId).
  { intros fs HI. rewrite combine_map in HI. apply in_map_iff in HI. destruct HI as (x & E & _). assert (k = lossy_kind f) by congruence. subst k.
    unfold lossy_kind. destruct (f_type f); try discriminate HT; reflexivity. }
  destruct (i_enc i); try (rewrite combine_map in H; apply in_map_iff in H; destruct H as (x & E & _); congruence).
  destruct (_ || _); [|now apply (HL (i_fields i))]. set (n := lead_run (i_fields i)) in *.
  rewrite <- (firstn_skipn n (i_fields i)) in H at 1. rewrite combine_app in H by (rewrite map_length; reflexivity).
  apply in_app_or in H. destruct H as [H|H]; [|now apply HL in H].
  exfalso. rewrite combine_map in H. apply in_map_iff in H. destruct H as (x & E & Hx). assert (x = f) by congruence. subst x. unfold n in Hx. clear -Hx HT.
  induction (i_fields i) as [|g fs IH]; [destruct Hx|]. cbn [lead_run] in Hx. destruct g as [nm off t r]. destruct t; try destruct Hx. destruct r as [r|]; [|destruct Hx].
  cbn [firstn] in Hx. destruct Hx as [<-|Hx]; [discriminate HT|auto].
Qed.
Lemma adaptive_codes i : length (kinds i) = length (i_fields i) -> incl (map acplace (map mk_afield (adaptive_fields i))) (field_codes i).
Proof.
  intros HK. rewrite map_map. intros x Hx. apply in_map_iff in Hx. destruct Hx as (f & <- & Hf). unfold adaptive_fields in Hf. apply filter_In in Hf. destruct Hf as [Hf HT].
  assert (HI : exists k, In (f, k) (fks i)).
  { unfold fks. clear HT. revert Hf HK. generalize (i_fields i) (kinds i). induction l as [|a l IH]; intros [|k l0] H1 H2; try (now destruct H1); try discriminate.
    destruct H1 as [<-|H1]; [exists k; now left|]. destruct (IH l0 H1) as (k' & Hk); [now injection H2|]. exists k'. now right. }
  destruct HI as (k & HI). pose proof (int_kind i f k HI HT) as ->. apply (in_map piece_of) in HI. exact HI.
Qed.
Lemma kinds_len i : length (kinds i) = length (i_fields i).
Proof.
  unfold kinds. destruct (i_enc i); try apply map_length. destruct (_ || _); [|apply map_length].
  rewrite app_length, !map_length, <- app_length, firstn_skipn. reflexivity.
Qed.

(** The two clouds have the same length and the same code at every field of every point. *)
Definition same_codes (i : info) (c1 c2 : list Z) : Prop :=
  length c1 = length c2 /\
  forall j f k, In (f, k) (combine (i_fields i) (kinds i)) -> Z.of_nat j * i_step i + f_off f + Z.of_nat (SizeOf (f_type f)) <= zlen c1 ->
    code_of o1 k (fbytes i f c1 j) = code_of o2 k (fbytes i f c2 j).

Lemma kind_size i : Forall (fun p : cplace => (0 < snd (fst p))%nat \/ snd p = KId) (field_codes i).
Proof.
  apply Forall_forall. intros p Hp. apply in_map_iff in Hp. destruct Hp as ([f k] & <- & H). unfold piece_of. cbn [fst snd].
  unfold fks, kinds in H.
  assert (HL : forall fs, In (f, k) (combine fs (map lossy_kind fs)) -> (0 < SizeOf (f_type f))%nat \/ k = KId).
  { intros fs HI. rewrite combine_map in HI. apply in_map_iff in HI. destruct HI as (x & E & _). assert (k = lossy_kind f) by congruence. subst k.
    unfold lossy_kind. destruct (f_type f); try (right; reflexivity); left; cbn; lia. }
  destruct (i_enc i); try (rewrite combine_map in H; apply in_map_iff in H; destruct H as (x & E & _); right; congruence).
  destruct (_ || _); [|now apply (HL (i_fields i))]. set (n := lead_run (i_fields i)) in *.
  rewrite <- (firstn_skipn n (i_fields i)) in H at 1. rewrite combine_app in H by (rewrite map_length; reflexivity).
  apply in_app_or in H. destruct H as [H|H]; [|now apply HL in H].
  left. rewrite combine_map in H. apply in_map_iff in H. destruct H as (x & E & Hx). assert (x = f) by congruence. subst x. unfold n in Hx. clear -Hx.
  induction (i_fields i) as [|g fs IH]; [destruct Hx|]. cbn [lead_run] in Hx. destruct g as [nm off t r]. destruct t; try destruct Hx. destruct r as [r|]; [|destruct Hx].
  cbn [firstn] in Hx. destruct Hx as [<-|Hx]; [cbn; lia|auto].
Qed.
Lemma codes_cagree i c1 c2 : 0 < i_step i -> same_codes i c1 c2 -> cagree (field_codes i) (Z.to_nat (i_step i)) c1 c2.
Proof.
  intros H0 [HL H]. split; [split; [exact HL|apply kind_size]|]. intros j. apply Forall_forall. intros p Hp. apply in_map_iff in Hp. destruct Hp as ([f k] & <- & Hf).
  unfold piece_of. cbn [fst snd]. intros Ho _ Hz. rewrite !sub_skipn by exact Ho. specialize (H j f k Hf). unfold fbytes in H.
  replace (Z.of_nat (j * Z.to_nat (i_step i)) + f_off f) with (Z.of_nat j * i_step i + f_off f) by nia. apply H. nia.
Qed.

Theorem encode_view_codes L ppc probe e c1 c2 out wh : enc_ready e -> known_enc (e_info e) -> 0 <= i_step (e_info e) ->
  same_codes (e_info e) c1 c2 ->
  encode_view o1 L ppc probe e c1 out wh = encode_view o2 L ppc probe e c2 out wh.
Proof.
  intros HR HK Hs HC. pose proof HC as [HL _]. set (i := e_info e) in *. unfold encode_view. fold i. replace (zlen c1) with (zlen c2) by (unfold zlen; now rewrite HL). rewrite HL.
  destruct (Z.eqb_spec (i_step i) 0) as [|H0]; [reflexivity|]. destruct (negb _); [reflexivity|].
  set (n := (length c2 / Z.to_nat (i_step i))%nat). destruct (MaxCompressedSize L ppc i n 0) as [need| |]; try reflexivity.
  set (hdr := if wh then e_hdr e else []). destruct (zlen out <? need + zlen hdr); [reflexivity|].
  pose proof (codes_cagree i c1 c2 ltac:(lia) HC) as HV.
  assert (EB : forall w, encode_body o1 L ppc probe e c1 n w = encode_body o2 L ppc probe e c2 n w).
  { intros w. unfold encode_body. fold i. destruct (MaxSerializedPointSize i) as [m| |] eqn:HM.
    2,3: unfold V5StageBufferSize; rewrite HM; destruct (UsesV5Codec i); reflexivity.
    destruct (UsesV5Codec i) eqn:HU.
    - destruct (V5StageBufferSize i (Z.of_nat ppc)) as [cap| |]; try reflexivity. destruct (BuildV5Plan i) as [[es afs]| |] eqn:HB; try reflexivity.
      destruct (plan_spec i es afs m HU HB HM) as (HBu & HA & _). eapply v5_loop_code; [eapply built_codes, HBu| |exact HV].
      rewrite HA. apply adaptive_codes, kinds_len.
    - destruct (HR HU) as [HB _]. fold i in HB. destruct (build_v4_wf i (e_es e) m HK HB HM) as (HBu & _).
      eapply v4_loop_code; [eapply built_codes, HBu|exact HV]. }
  unfold encode_write, abind. destruct (put_at 0 hdr _) as [[[]| |] w1]; try reflexivity. destruct (advance (zlen hdr) w1) as [[[]| |] w2]; try reflexivity.
  rewrite EB. reflexivity.
Qed.
Theorem encode_vec_codes L ppc probe e c1 c2 out : enc_ready e -> known_enc (e_info e) -> 0 <= i_step (e_info e) ->
  same_codes (e_info e) c1 c2 ->
  encode_vec o1 L ppc probe e c1 out = encode_vec o2 L ppc probe e c2 out.
Proof.
  intros HR HK Hs HC. pose proof HC as [HL _]. unfold encode_vec. replace (zlen c1) with (zlen c2) by (unfold zlen; now rewrite HL). rewrite ?HL.
  destruct (_ =? 0); [reflexivity|]. destruct (negb _); [reflexivity|]. destruct (MaxCompressedSize _ _ _ _ _); try reflexivity.
  destruct (wr 0 _ _); try reflexivity. rewrite (encode_view_codes L ppc probe e c1 c2 _ false HR HK Hs HC). reflexivity.
Qed.
End Two.

(** ** Decoders of builds that dequantise alike *)
Section Dec.
Variables o1 o2 : float_ops.
Hypothesis H32 : forall r v, d32 o1 r v = d32 o2 r v.
Hypothesis H64 : forall r v, d64 o1 r v = d64 o2 r v.
Hypothesis HN : forall r v, dN o1 r v = dN o2 r v.
Lemma floatn_dec_same lanes : forall prev input, floatn_decode o1 lanes prev input = floatn_decode o2 lanes prev input.
Proof.
  induction lanes as [|[off r] lanes IH]; intros prev input; cbn [floatn_decode]; [reflexivity|].
  destruct prev as [|p prev]; [reflexivity|]. destruct input as [|b0 rest]; [reflexivity|].
  destruct (b0 =? 0); cbn [bind]; [rewrite IH; reflexivity|].
  destruct (decodeVarint (b0 :: rest)) as [[diff count]| |]; cbn [bind]; [|reflexivity|reflexivity]. rewrite HN, IH. reflexivity.
Qed.
Lemma dec_step_same d st input : dec_step o1 d st input = dec_step o2 d st input.
Proof.
  destruct d; cbn [dec_step]; try reflexivity.
  - destruct input as [|b0 rest]; [reflexivity|]. destruct (b0 =? 0); [reflexivity|].
    destruct (decodeVarint (b0 :: rest)) as [[diff count]| |]; cbn [bind]; [|reflexivity|reflexivity]. rewrite H32. reflexivity.
  - destruct input as [|b0 rest]; [reflexivity|]. destruct (b0 =? 0); [reflexivity|].
    destruct (decodeVarint (b0 :: rest)) as [[diff count]| |]; cbn [bind]; [|reflexivity|reflexivity]. rewrite H64. reflexivity.
  - destruct input as [|b0 rest]; [reflexivity|]. rewrite floatn_dec_same. reflexivity.
Qed.
Lemma dec_point_same ds : forall sts input base mem, dec_point o1 ds sts input base mem = dec_point o2 ds sts input base mem.
Proof.
  induction ds as [|d ds IH]; intros sts input base mem; cbn [dec_point]; [reflexivity|]. destruct sts as [|st sts]; [reflexivity|].
  rewrite dec_step_same. destruct (dec_step o2 d st input) as [[[st' input'] ss]| |]; cbn [bind]; try reflexivity.
  destruct (do_stores _ _ _); cbn [bind]; try reflexivity. rewrite IH. reflexivity.
Qed.
Lemma dec_points_v4_same ds minb step n : forall sts input base mem, dec_points_v4 o1 ds minb step n sts input base mem = dec_points_v4 o2 ds minb step n sts input base mem.
Proof.
  induction n as [|n IH]; intros sts input base mem; cbn [dec_points_v4]; [reflexivity|]. destruct (_ <? _)%nat; [reflexivity|]. destruct (zlen mem - base <? step); [reflexivity|].
  rewrite dec_point_same. destruct (dec_point o2 ds sts input base mem) as [[[sts' input'] mem']| |]; cbn [bind]; try reflexivity. apply IH.
Qed.
Lemma dec_points_v4_all_same ds minb step n : forall sts input base mem, dec_points_v4_all o1 ds minb step n sts input base mem = dec_points_v4_all o2 ds minb step n sts input base mem.
Proof.
  induction n as [|n IH]; intros sts input base mem; cbn [dec_points_v4_all]; [reflexivity|]. destruct input as [|b input]; [reflexivity|].
  destruct (_ <? _)%nat; [reflexivity|]. destruct (zlen mem - base <? step); [reflexivity|].
  rewrite dec_point_same. destruct (dec_point o2 ds sts (b :: input) base mem) as [[[sts' input'] mem']| |]; cbn [bind]; try reflexivity. apply IH.
Qed.
Lemma dec_points_v5_same ds step n : forall sts input base mem, dec_points_v5 o1 ds step n sts input base mem = dec_points_v5 o2 ds step n sts input base mem.
Proof.
  induction n as [|n IH]; intros sts input base mem; cbn [dec_points_v5]; [reflexivity|].
  rewrite dec_point_same. destruct (dec_point o2 ds sts input base mem) as [[[sts' input'] mem']| |]; cbn [bind]; try reflexivity. apply IH.
Qed.
Lemma chunk_same L i ds minb view buf n base mem : decodeChunk o1 L i ds minb view buf n base mem = decodeChunk o2 L i ds minb view buf n base mem.
Proof.
  unfold decodeChunk. destruct (DecompressChunk _ _ _ _ _) as [[v x]| |]; cbn [bind]; try reflexivity.
  destruct (UsesV5Codec i).
  - unfold DecodeV5Stage1Chunk. rewrite dec_points_v5_same. reflexivity.
  - unfold DecodeV4Stage1Chunk. rewrite dec_points_v4_same, dec_points_v4_all_same. reflexivity.
Qed.
Theorem decode_same L ppc i data buf mem : decode o1 L ppc i data buf mem = decode o2 L ppc i data buf mem.
Proof.
  unfold decode. destruct (updateDecoders i) as [[ds minb]| |]; cbn [bind]; try reflexivity. destruct (has_magic data); [reflexivity|].
  destruct (3 <=? i_version i); [|rewrite chunk_same; reflexivity].
  generalize (S (length data)), (u64 (i_width i * i_height i)), 0. intros fuel. revert data buf mem.
  induction fuel as [|fuel IH]; intros data buf mem points base; cbn [dec_loop]; [reflexivity|]. destruct data as [|b data]; [reflexivity|].
  destruct (points =? 0); [reflexivity|]. destruct (take_uint 4 (b :: data)) as [[size data1]| |]; cbn [bind]; try reflexivity.
  destruct (zlen data1 <? size); [reflexivity|]. rewrite chunk_same.
  destruct (decodeChunk o2 L i ds minb _ buf _ _ _) as [[[x1 p1] m1]| |]; cbn [bind]; try reflexivity. apply IH.
Qed.
End Dec.
