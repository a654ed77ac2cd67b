(** Decoding with other resolutions in the header: the decoder uses a field's resolution only in its last
    multiplication, so decoding with resolutions changed by [rho] is decoding with multiplications changed by
    [rho]. *)
From Verif Require Import Base BaseFacts Varint Types Floats Fields Codec V5 Api.
From Coq Require Import Lia.
Open Scope Z_scope.

Definition ren_field (rho : Z -> Z) (f : field) : field := mkField (f_name f) (f_off f) (f_type f) (option_map rho (f_res f)).
Definition ren_info (rho : Z -> Z) (i : info) : info :=
  mkInfo (map (ren_field rho) (i_fields i)) (i_width i) (i_height i) (i_step i) (i_enc i) (i_cfg i) (i_comp i) (i_threads i) (i_version i).
Definition ren_ops (rho : Z -> Z) (ops : float_ops) : float_ops :=
  mkFloatOps (q32 ops) (fun r v => d32 ops (rho r) v) (q64 ops) (fun r v => d64 ops (rho r) v) (qN ops) (fun r v => dN ops (rho r) v).
Definition ren_dec (rho : Z -> Z) (d : fdec) : fdec :=
  match d with
  | DLossy32 off r => DLossy32 off (rho r)
  | DLossy64 off r => DLossy64 off (rho r)
  | DFloatN lanes => DFloatN (map (fun l => (fst l, rho (snd l))) lanes)
  | d => d
  end.
(** Usable exactly when the original is. *)
Definition ren_ok (rho : Z -> Z) (f : field) : Prop := match f_res f with Some r => f32_le0 (rho r) = f32_le0 r | None => True end.

Section Ren.
Context (rho : Z -> Z) (ops : float_ops).
Notation ops' := (ren_ops rho ops).

Lemma floatn_ren lanes : forall prev input, floatn_decode ops (map (fun l => (fst l, rho (snd l))) lanes) prev input = floatn_decode ops' lanes prev input.
Proof.
  induction lanes as [|[off r] lanes IH]; intros prev input; [reflexivity|]. cbn [map fst snd floatn_decode]. destruct prev as [|p prev]; [reflexivity|]. destruct input as [|b0 rest]; [reflexivity|]. cbn [ren_ops dN].
  match goal with |- bind ?a _ = bind ?a _ => destruct a as [[[v bits] input']| |]; [|reflexivity|reflexivity] end. cbn [bind]. rewrite IH. reflexivity.
Qed.
Lemma step_ren d st input : dec_step ops (ren_dec rho d) st input = dec_step ops' d st input.
Proof. destruct d; try reflexivity. cbn [ren_dec dec_step]. destruct input; [reflexivity|]. rewrite floatn_ren. reflexivity. Qed.
Lemma point_ren ds : forall sts input base mem, dec_point ops (map (ren_dec rho) ds) sts input base mem = dec_point ops' ds sts input base mem.
Proof.
  induction ds as [|d ds IH]; intros sts input base mem; destruct sts as [|st sts]; try reflexivity. cbn [map dec_point]. rewrite step_ren. destruct (dec_step ops' d st input) as [[[st' i'] ss]| |]; [|reflexivity|reflexivity]. cbn [bind]. destruct (do_stores base ss mem); [|reflexivity|reflexivity]. cbn [bind]. rewrite IH. reflexivity.
Qed.
Lemma resets_ren ds : resets (map (ren_dec rho) ds) = resets ds.
Proof. unfold resets. now rewrite map_map. Qed.
Lemma points_ren4 ds minb step n : forall sts input base mem, dec_points_v4 ops (map (ren_dec rho) ds) minb step n sts input base mem = dec_points_v4 ops' ds minb step n sts input base mem.
Proof.
  induction n as [|n IH]; intros; [reflexivity|]. cbn [dec_points_v4]. rewrite point_ren. do 2 match goal with |- (if ?c then _ else _) = _ => destruct c; [reflexivity|] end. destruct (dec_point ops' ds sts input base mem) as [[[a b] c]| |]; [|reflexivity|reflexivity]. cbn [bind]. apply IH.
Qed.
Lemma points_ren4_all ds minb step n : forall sts input base mem, dec_points_v4_all ops (map (ren_dec rho) ds) minb step n sts input base mem = dec_points_v4_all ops' ds minb step n sts input base mem.
Proof.
  induction n as [|n IH]; intros; [reflexivity|]. cbn [dec_points_v4_all]. rewrite point_ren. destruct input as [|c0 input]; [reflexivity|]. do 2 match goal with |- (if ?c then _ else _) = _ => destruct c; [reflexivity|] end. destruct (dec_point ops' ds sts (c0 :: input) base mem) as [[[a b] c]| |]; [|reflexivity|reflexivity]. cbn [bind]. apply IH.
Qed.
Lemma stage1_ren4 ds minb input step expected base mem : DecodeV4Stage1Chunk ops (map (ren_dec rho) ds) minb input step expected base mem = DecodeV4Stage1Chunk ops' ds minb input step expected base mem.
Proof. unfold DecodeV4Stage1Chunk. rewrite resets_ren, points_ren4, points_ren4_all. reflexivity. Qed.
Lemma points_ren5 ds step n : forall sts input base mem, dec_points_v5 ops (map (ren_dec rho) ds) step n sts input base mem = dec_points_v5 ops' ds step n sts input base mem.
Proof.
  induction n as [|n IH]; intros; [reflexivity|]. cbn [dec_points_v5]. rewrite point_ren. destruct (dec_point ops' ds sts input base mem) as [[[a b] c]| |]; [|reflexivity|reflexivity]. cbn [bind]. apply IH.
Qed.
Lemma has_res_ren f : has_res (ren_field rho f) = has_res f.
Proof. unfold has_res, ren_field. cbn [f_res]. now destruct (f_res f). Qed.
Lemma leading_ren fs : leading_lossy (map (ren_field rho) fs) = leading_lossy fs.
Proof. induction fs as [|f fs IH]; [reflexivity|]. cbn [map leading_lossy]. rewrite has_res_ren, IH. reflexivity. Qed.
Lemma lead_count_ren i : LeadingLossyFloatFieldCount (ren_info rho i) = LeadingLossyFloatFieldCount i.
Proof. unfold LeadingLossyFloatFieldCount. cbn [ren_info i_enc i_fields]. now rewrite leading_ren. Qed.
Lemma filter_ren (g : ftype -> bool) fs : filter (fun f => g (f_type f)) (map (ren_field rho) fs) = map (ren_field rho) (filter (fun f => g (f_type f)) fs).
Proof. induction fs as [|f fs IH]; [reflexivity|]. cbn [map filter ren_field f_type]. destruct (g (f_type f)); [cbn [map]; now rewrite IH|exact IH]. Qed.
Lemma skipn_map {A B} (g : A -> B) n l : skipn n (map g l) = map g (skipn n l).
Proof. revert l. induction n; intros [|a l]; cbn; auto. Qed.
Lemma adaptive_ren i : getV5AdaptiveFields (ren_info rho i) = getV5AdaptiveFields i.
Proof.
  unfold getV5AdaptiveFields. rewrite lead_count_ren. cbn [ren_info i_enc i_fields]. destruct (is_lossy (i_enc i)); [|reflexivity]. rewrite skipn_map, (filter_ren isV5AdaptiveIntType), map_map. reflexivity.
Qed.
Lemma stage1_ren5 i ds input expected base mem : DecodeV5Stage1Chunk ops (ren_info rho i) (map (ren_dec rho) ds) input expected base mem = DecodeV5Stage1Chunk ops' i ds input expected base mem.
Proof. unfold DecodeV5Stage1Chunk. rewrite adaptive_ren, resets_ren, points_ren5. reflexivity. Qed.
Lemma uses_ren i : UsesV5Codec (ren_info rho i) = UsesV5Codec i.
Proof.
  unfold UsesV5Codec. rewrite lead_count_ren. cbn [ren_info i_enc i_version i_fields]. f_equal. rewrite skipn_map. induction (skipn (LeadingLossyFloatFieldCount i) (i_fields i)) as [|f fs IH]; [reflexivity|]. cbn [map existsb ren_field f_type]. now rewrite IH.
Qed.
Lemma chunk_ren L i ds minb chunk buf expected base mem : decodeChunk ops L (ren_info rho i) (map (ren_dec rho) ds) minb chunk buf expected base mem = decodeChunk ops' L i ds minb chunk buf expected base mem.
Proof.
  unfold decodeChunk. rewrite uses_ren. cbn [ren_info i_width i_height i_step i_comp]. destruct (DecompressChunk L (i_comp i) chunk buf _) as [[view buf']| |]; [|reflexivity|reflexivity]. cbn [bind]. destruct (UsesV5Codec i); [rewrite stage1_ren5; reflexivity|rewrite stage1_ren4; reflexivity].
Qed.
Lemma loop_ren L ppc i ds minb fuel : forall data buf points base mem, dec_loop ops L ppc (ren_info rho i) (map (ren_dec rho) ds) minb fuel data buf points base mem = dec_loop ops' L ppc i ds minb fuel data buf points base mem.
Proof.
  induction fuel as [|k IH]; intros; destruct data as [|d data]; try reflexivity. cbn [dec_loop]. destruct (points =? 0); [reflexivity|]. destruct (take_uint 4 (d :: data)) as [[size data1]| |]; [|reflexivity|reflexivity]. cbn [bind]. destruct (zlen data1 <? size); [reflexivity|]. cbv zeta. rewrite chunk_ren.
  match goal with |- bind ?a _ = bind ?a _ => destruct a as [[[b1 b2] b3]| |]; [|reflexivity|reflexivity] end. cbn [bind]. apply IH.
Qed.
Lemma min_ren d : min_input_bytes (ren_dec rho d) = min_input_bytes d.
Proof. destruct d; try reflexivity. cbn [ren_dec min_input_bytes]. now rewrite ?map_length. Qed.
Lemma create_ren i f : ren_ok rho f -> CreateCompatibleDecoder (ren_info rho i) (ren_field rho f) = bind (CreateCompatibleDecoder i f) (fun d => Ok (ren_dec rho d)).
Proof.
  intros H. unfold CreateCompatibleDecoder. rewrite has_res_ren. cbn [ren_info i_enc i_version ren_field f_off f_type]. unfold ren_ok in H. unfold has_res, res_of. cbn [ren_field f_res].
  destruct (f_res f) as [r|]; cbn [option_map]; [rewrite H|]; destruct (f_type f), (i_enc i); try reflexivity; cbn [is_lossy andb negb]; try (destruct (f32_le0 r); reflexivity); try (destruct (4 <=? i_version i); reflexivity).
Qed.
Lemma mapM_ren i fs : Forall (ren_ok rho) fs -> mapM (CreateCompatibleDecoder (ren_info rho i)) (map (ren_field rho) fs) = bind (mapM (CreateCompatibleDecoder i) fs) (fun ds => Ok (map (ren_dec rho) ds)).
Proof.
  induction 1 as [|f fs Hf _ IH]; [reflexivity|]. cbn [map mapM]. rewrite create_ren by assumption. destruct (CreateCompatibleDecoder i f); [|reflexivity|reflexivity]. cbn [bind]. rewrite IH. destruct (mapM (CreateCompatibleDecoder i) fs); reflexivity.
Qed.
Lemma lanes_ren fs : Forall (fun f => ren_ok rho f /\ has_res f = true) fs -> lanes_of (map (ren_field rho) fs) = map (fun l => (fst l, rho (snd l))) (lanes_of fs) /\
  existsb (fun l => f32_le0 (snd l)) (lanes_of (map (ren_field rho) fs)) = existsb (fun l => f32_le0 (snd l)) (lanes_of fs).
Proof.
  induction 1 as [|f fs [Hf Hr] _ [IH1 IH2]]; [split; reflexivity|]. unfold lanes_of in *. cbn [map existsb snd]. unfold ren_ok in Hf. unfold has_res in Hr. unfold res_of. cbn [ren_field f_off f_res]. destruct (f_res f) as [r|]; [|discriminate]. cbn [option_map fst snd]. rewrite Hf. split; [f_equal; exact IH1|f_equal; exact IH2].
Qed.
Lemma leading_has fs : Forall (fun f => has_res f = true) (firstn (leading_lossy fs) fs).
Proof. induction fs as [|f fs IH]; [constructor|]. cbn [leading_lossy]. destruct (is_float32 (f_type f) && has_res f) eqn:E; [|constructor]. cbn [firstn]. constructor; [now apply Bool.andb_true_iff in E|exact IH]. Qed.
Lemma firstn_map' {A B} (g : A -> B) n l : firstn n (map g l) = map g (firstn n l).
Proof. revert l. induction n; intros [|a l]; cbn; f_equal; auto. Qed.
Lemma lead_ren i : Forall (ren_ok rho) (i_fields i) -> leading_decoder (ren_info rho i) = bind (leading_decoder i) (fun ds => Ok (map (ren_dec rho) ds)).
Proof.
  intros H. unfold leading_decoder. rewrite lead_count_ren. cbn [ren_info i_fields]. set (n := LeadingLossyFloatFieldCount i). destruct (n =? 0)%nat eqn:E0; [reflexivity|]. cbv zeta. rewrite firstn_map'.
  assert (F : Forall (fun f => ren_ok rho f /\ has_res f = true) (firstn n (i_fields i))).
  { assert (HH : Forall (fun f => has_res f = true) (firstn n (i_fields i))).
    { unfold n, LeadingLossyFloatFieldCount. destruct (is_lossy (i_enc i)); [|constructor]. cbv zeta. destruct ((leading_lossy (i_fields i) =? 3)%nat || (leading_lossy (i_fields i) =? 4)%nat); [apply leading_has|constructor]. }
    apply Forall_forall. intros f Hf. rewrite Forall_forall in HH. split; [|exact (HH f Hf)]. rewrite Forall_forall in H. apply H. rewrite <- (firstn_skipn n (i_fields i)). apply in_or_app. now left. }
  destruct (lanes_ren _ F) as [L1 L2]. rewrite L2. destruct (existsb _ (lanes_of (firstn n (i_fields i)))); [reflexivity|]. cbn [bind map ren_dec]. rewrite L1. reflexivity.
Qed.
Lemma forall_skipn {A} (P : A -> Prop) n l : Forall P l -> Forall P (skipn n l).
Proof. intros H. apply Forall_forall. intros x Hx. rewrite Forall_forall in H. apply H. rewrite <- (firstn_skipn n l). apply in_or_app. now right. Qed.
Lemma update_ren i : Forall (ren_ok rho) (i_fields i) -> updateDecoders (ren_info rho i) = bind (updateDecoders i) (fun p => Ok (map (ren_dec rho) (fst p), snd p)).
Proof.
  intros H. unfold updateDecoders. rewrite uses_ren. destruct (UsesV5Codec i).
  - unfold BuildV5Decoders. rewrite lead_ren, lead_count_ren by assumption. cbn [ren_info i_fields]. destruct (leading_decoder i) as [lead| |]; [|reflexivity|reflexivity]. cbn [bind]. rewrite skipn_map, (filter_ren (fun t => negb (isV5AdaptiveIntType t))). change (mkInfo _ _ _ _ _ _ _ _ _) with (ren_info rho i). rewrite mapM_ren.
    2: { apply Forall_forall. intros f Hf. apply filter_In in Hf. destruct Hf as [Hf _]. pose proof (forall_skipn _ (LeadingLossyFloatFieldCount i) _ H) as K. rewrite Forall_forall in K. exact (K f Hf). }
    destruct (mapM (CreateCompatibleDecoder i) _); [|reflexivity|reflexivity]. cbn [bind fst snd]. now rewrite map_app.
  - unfold BuildV4Decoders. rewrite lead_ren, lead_count_ren by assumption. cbn [ren_info i_enc i_fields].
    assert (G : bind (bind (leading_decoder i) (fun ds => Ok (map (ren_dec rho) ds))) (fun lead => bind (mapM (CreateCompatibleDecoder (ren_info rho i)) (skipn (LeadingLossyFloatFieldCount i) (map (ren_field rho) (i_fields i)))) (fun rest => let ds := lead ++ rest in Ok (ds, sum_nat (map min_input_bytes ds)))) =
      bind (bind (leading_decoder i) (fun lead => bind (mapM (CreateCompatibleDecoder i) (skipn (LeadingLossyFloatFieldCount i) (i_fields i))) (fun rest => let ds := lead ++ rest in Ok (ds, sum_nat (map min_input_bytes ds))))) (fun p => Ok (map (ren_dec rho) (fst p), snd p))).
    { destruct (leading_decoder i) as [lead| |]; [|reflexivity|reflexivity]. cbn [bind]. rewrite skipn_map, mapM_ren by (apply forall_skipn; assumption). destruct (mapM (CreateCompatibleDecoder i) _) as [ds| |]; [|reflexivity|reflexivity]. cbn [bind fst snd]. rewrite <- map_app, map_map. f_equal. f_equal. f_equal. apply map_ext. apply min_ren. }
    destruct (i_enc i); [|exact G|exact G|exact G]. rewrite !map_map. cbn [bind fst snd]. f_equal. f_equal. rewrite map_map. reflexivity.
Qed.
Theorem decode_ren L ppc i data buf out : Forall (ren_ok rho) (i_fields i) -> decode ops L ppc (ren_info rho i) data buf out = decode ops' L ppc i data buf out.
Proof.
  intros H. unfold decode. rewrite update_ren by assumption. destruct (updateDecoders i) as [[ds minb]| |]; [|reflexivity|reflexivity]. cbn [bind fst snd]. destruct (has_magic data); [reflexivity|]. change (i_version (ren_info rho i)) with (i_version i). destruct (3 <=? i_version i).
  - rewrite loop_ren. reflexivity.
  - rewrite chunk_ren. reflexivity.
Qed.
End Ren.
