(** Encoded clouds put one after the other, for PropsJoin.v. *)
From Verif Require Import Base BaseFacts Varint VarintFacts Types Floats Fields Codec V5 Api Spec LibSpec SeqSpec.
From Verif Require Import GorillaFacts FieldFacts WriteFacts CodecFacts BuildFacts RunFacts SectionFacts PaletteFacts V5Facts ChunkV5Facts Stage1Facts ApiFacts CloudFacts RoundTrip CloudRT LocalFacts SeqFacts ColumnFacts CloudApi Cases PropsField PropsColumn PropsStage1 PropsCloud PropsSize PropsFrame PropsChunks.

(** ** Bytes behind the points of a chunk do not matter *)
Lemma rd_more off sz v post bs : rd off sz v = Ok bs -> rd off sz (v ++ post) = Ok bs.
Proof.
  unfold rd. destruct ((0 <=? off) && (off + Z.of_nat sz <=? zlen v)) eqn:E; [|discriminate]. apply andb_prop in E. destruct E as [E1 E2]. intros H.
  assert (Hl : (Z.to_nat off + sz <= length v)%nat) by (unfold zlen in E2; lia).
  replace ((0 <=? off) && (off + Z.of_nat sz <=? zlen (v ++ post))) with true by (symmetry; apply andb_true_intro; rewrite zlen_app; pose proof (zlen_nonneg post); lia).
  rewrite <- H. f_equal. rewrite skipn_app, firstn_app. replace (sz - length (skipn (Z.to_nat off) v))%nat with O by (rewrite skipn_length; lia). cbn [firstn]. apply app_nil_r.
Qed.
Lemma lanes_more ops v post lanes : forall prev r, floatn_encode ops lanes prev v = Ok r -> floatn_encode ops lanes prev (v ++ post) = Ok r.
Proof.
  induction lanes as [|[off res] lanes IH]; intros prev r H; cbn [floatn_encode] in *; [exact H|]. destruct prev as [|p prev]; [discriminate H|].
  apply bind_ok in H. destruct H as (bs & H1 & H). rewrite (rd_more _ _ _ post _ H1). cbn [bind]. destruct (lane_encode ops res p (le_val bs)) as [p' out].
  apply bind_ok in H. destruct H as ((ps & outs) & H2 & H). rewrite (IH _ _ H2). exact H.
Qed.
Lemma step_more ops e st v post r : enc_step ops e st v = Ok r -> enc_step ops e st (v ++ post) = Ok r.
Proof.
  intros H. destruct e; cbn [enc_step] in *; apply bind_ok in H; destruct H as (bs & H1 & H); try (rewrite (rd_more _ _ _ post _ H1); exact H).
  assert (E : (if (length lanes <? 4)%nat then rd 0 4 (v ++ post) else Ok []) = Ok bs) by (destruct (length lanes <? 4)%nat; [apply rd_more, H1|exact H1]). rewrite E. cbn [bind].
  apply bind_ok in H. destruct H as ((x & out) & H2 & H). rewrite (lanes_more _ _ _ _ _ _ H2). exact H.
Qed.
Lemma point_more ops es v post : forall sts r, enc_point ops es sts v = Ok r -> enc_point ops es sts (v ++ post) = Ok r.
Proof.
  induction es as [|e es IH]; intros sts r H; destruct sts as [|st sts]; cbn [enc_point] in *; try exact H.
  apply bind_ok in H. destruct H as ((s1 & o1) & H1 & H). rewrite (step_more _ _ _ _ post _ H1). cbn [bind].
  apply bind_ok in H. destruct H as ((s2 & o2) & H2 & H). rewrite (IH _ _ H2). exact H.
Qed.
Lemma points_more ops es step post k : (0 < step)%nat -> forall sts v rest o, (k * step <= length v)%nat ->
  enc_points_v4 ops es step k sts v = Ok (rest, o) -> enc_points_v4 ops es step k sts (v ++ post) = Ok (rest ++ post, o).
Proof.
  intros Hs. induction k as [|k IH]; intros sts v rest o Hl H; cbn [enc_points_v4] in *.
  - apply ok_pair in H. destruct H as [<- <-]. reflexivity.
  - destruct v as [|b v]; [cbn [length] in Hl; nia|]. cbn [app]. change (b :: v ++ post) with ((b :: v) ++ post). set (w := b :: v) in *.
    apply bind_ok in H. destruct H as ((s1 & o1) & H1 & H). rewrite (point_more _ _ _ post _ _ H1). cbn [bind].
    unfold trim_front in *. replace (length w <? step)%nat with false in H by (symmetry; apply Nat.ltb_ge; nia). cbn [bind] in H.
    replace (length (w ++ post) <? step)%nat with false by (symmetry; apply Nat.ltb_ge; rewrite app_length; nia). cbn [bind].
    apply bind_ok in H. destruct H as ((r2 & o2) & H2 & H). apply ok_pair in H. destruct H as [<- <-].
    rewrite skipn_app. replace (step - length w)%nat with O by nia. cbn [skipn]. assert (Hq : (k * step <= length (skipn step w))%nat) by (rewrite skipn_length; nia). rewrite (IH _ _ _ _ Hq H2). reflexivity.
Qed.
Lemma sub_more off sz v post : 0 <= off -> off + Z.of_nat sz <= zlen v -> sub off sz (v ++ post) = sub off sz v.
Proof.
  intros H0 H1. unfold sub. assert (Hl : (Z.to_nat off + sz <= length v)%nat) by (unfold zlen in H1; nia).
  rewrite skipn_app, firstn_app. replace (sz - length (skipn (Z.to_nat off) v))%nat with O by (rewrite skipn_length; nia). cbn [firstn]. apply app_nil_r.
Qed.
Lemma column_more a step k v post : afield_in step a -> (k * step <= length v)%nat -> column a step k (v ++ post) = column a step k v.
Proof.
  intros [H1 H2] Hl. unfold column. apply map_ext_in. intros j Hj. apply in_seq in Hj.
  rewrite skipn_app. apply sub_more; [exact H1|]. unfold zlen. rewrite skipn_length. nia.
Qed.
(** A chunk of [A] is a chunk of [pre ++ A ++ post]. *)
Lemma chunk_rel_in ops i ppc pre A post ms q c k bs m : layout_ok i -> MaxSerializedPointSize i = Ok m -> let step := Z.to_nat (i_step i) in
  length pre = (q * ppc * step)%nat -> ((c * ppc + k) * step <= length A)%nat ->
  chunk_rel ops i ppc A ms c k bs -> chunk_rel ops i ppc (pre ++ A ++ post) ms (q + c) k bs.
Proof.
  intros HL HM step Hpre HA. assert (Hs : (0 < step)%nat) by (unfold step; destruct HL; lia).
  assert (ES : forall x, ((c * ppc) * step <= x -> x <= length A -> skipn (q * ppc * step + x) (pre ++ A ++ post) = skipn x A ++ post)%nat).
  { intros x _ Hx. rewrite <- Hpre, Nat.add_comm, <- skipn_skipn, skipn_app, skipn_all, Nat.sub_diag. cbn [skipn app]. rewrite skipn_app. replace (x - length A)%nat with O by lia. reflexivity. }
  assert (E1 : skipn ((q + c) * ppc * step) (pre ++ A ++ post) = skipn (c * ppc * step) A ++ post) by (rewrite <- ES by nia; f_equal; nia).
  assert (E2 : skipn (((q + c) * ppc + k) * step) (pre ++ A ++ post) = skipn ((c * ppc + k) * step) A ++ post) by (rewrite <- ES by nia; f_equal; nia).
  assert (Hv : (k * step <= length (skipn (c * ppc * step) A))%nat) by (rewrite skipn_length; nia).
  unfold chunk_rel. fold step. destruct (UsesV5Codec i) eqn:HU.
  - intros (es & afs & HB & o & secs & H1 & H2 & H3 & H4 & H5 & H6 & H7 & H8). exists es, afs. split; [exact HB|]. exists o, secs. rewrite E1, E2.
    split; [apply points_more; assumption|]. repeat (split; [assumption|]).
    destruct (plan_spec i es afs m HU HB HM) as (_ & HAf & _).
    assert (HAi : Forall (afield_in step) afs).
    { rewrite HAf. apply Forall_map, Forall_forall. intros f Hf. unfold adaptive_fields in Hf. apply filter_In in Hf. destruct HL as [_ HLf]. rewrite Forall_forall in HLf. specialize (HLf f (proj1 Hf)). unfold afield_in, a_size. cbn [mk_afield a_off a_type]. unfold step. lia. }
    clear - H8 HAi Hv. induction H8 as [|a mb l l' H _ IH]; [constructor|]. inversion HAi; subst. constructor; [|auto]. rewrite column_more by assumption. exact H.
  - intros (es & HB & H1 & H2 & H3). exists es. split; [exact HB|]. split; [|auto]. rewrite E1, E2. apply points_more; assumption.
Qed.
Lemma stage1_app (P : nat -> nat -> list Z -> Prop) ppc : (0 < ppc)%nat -> forall q c n A B, stage1 P ppc c (q * ppc) A -> stage1 P ppc (c + q) n B -> stage1 P ppc c (q * ppc + n) (A ++ B).
Proof.
  intros Hp. induction q as [|q IH]; intros c n A B HA HB.
  - inversion HA; [|lia]. subst. cbn [Nat.mul Nat.add app]. rewrite Nat.add_0_r in HB. exact HB.
  - inversion HA as [|? ? b A' Hl H1 H2]; [lia|]. subst. cbn [app]. rewrite Nat.min_r in H1, H2 by nia.
    constructor; [nia|rewrite Nat.min_r by nia; exact H1|]. rewrite Nat.min_r by nia. replace (S q * ppc + n - ppc)%nat with (q * ppc + n)%nat by nia.
    apply IH; [replace (q * ppc)%nat with (S q * ppc - ppc)%nat by nia; exact H2|]. replace (S c + q)%nat with (c + S q)%nat by lia. exact HB.
Qed.
(** shifting the chunk numbers *)
Lemma stage1_shift (P Q : nat -> nat -> list Z -> Prop) ppc q N : (0 < ppc)%nat -> (forall c k bs, (0 < k <= ppc)%nat -> (c * ppc + k <= N)%nat -> P c k bs -> Q (q + c)%nat k bs) ->
  forall c left bss, (left = O \/ c * ppc + left <= N)%nat -> stage1 P ppc c left bss -> stage1 Q ppc (q + c) left bss.
Proof.
  intros Hp H c left bss Hn HS. induction HS as [c|c left bs bss Hl HP HS IH]; [constructor|]. destruct Hn as [|Hn]; [lia|]. constructor; [exact Hl|apply H; [lia|lia|exact HP]|].
  replace (S (q + c)) with (q + S c)%nat by lia. apply IH. destruct (Nat.le_gt_cases left ppc); [left|right]; nia.
Qed.
(** ** Steps between points of joined clouds *)
Lemma fbytes_more i f A B j : layout_ok i -> In f (i_fields i) -> Z.of_nat (S j) * i_step i <= zlen A -> fbytes i f (A ++ B) j = fbytes i f A j.
Proof. intros [Hs HL] Hf Hj. rewrite Forall_forall in HL. specialize (HL f Hf). unfold fbytes. apply sub_more; nia. Qed.
Lemma deltas_app ops i ppc q A B : layout_ok i -> (0 < ppc)%nat -> length A = (q * ppc * Z.to_nat (i_step i))%nat -> deltas_ok ops i ppc A -> deltas_ok ops i ppc B -> deltas_ok ops i ppc (A ++ B).
Proof.
  intros HL Hp HA DA DB. pose proof (proj1 HL) as Hs. unfold deltas_ok in *. rewrite Forall_forall in *. intros fk Hfk j v Hj Hv. pose proof Hfk as Hf. destruct fk as [f k]. apply in_combine_l in Hf. cbn [fst snd] in *.
  specialize (DA (f, k) Hfk). specialize (DB (f, k) Hfk). cbn [fst snd] in *.
  destruct (Nat.lt_ge_cases j (q * ppc)) as [G|G].
  - assert (Hz : Z.of_nat (S j) * i_step i <= zlen A) by (unfold zlen; rewrite HA; nia). rewrite fbytes_more in Hv by assumption. rewrite (fbytes_more i f A B (j - 1)) by (try assumption; nia). apply DA; assumption.
  - pose (j' := (j - q * ppc)%nat). assert (Ej : j = (q * ppc + j')%nat) by (unfold j'; lia).
    assert (EB : forall x, fbytes i f (A ++ B) (q * ppc + x)%nat = fbytes i f B x).
    { intros x. rewrite <- (fbytes_shift i f (A ++ B) (q * ppc) x HL Hf). f_equal. rewrite <- HA, skipn_app, skipn_all, Nat.sub_diag. reflexivity. }
    rewrite Ej in Hv |- *. rewrite EB in Hv. rewrite (Nat.add_comm (q * ppc) j'), Nat.mod_add, (Nat.add_comm j') by lia.
    assert (Hz : Z.of_nat (S j') * i_step i <= zlen B) by (rewrite zlen_app in Hj; unfold zlen in *; rewrite HA in Hj; nia).
    specialize (DB j' v Hz Hv). destruct (Nat.eqb_spec (j' mod ppc) 0) as [Hm|Hm]; [exact DB|].
    assert (j' <> O) by (intros ->; apply Hm, Nat.mod_0_l; lia). replace (q * ppc + j' - 1)%nat with (q * ppc + (j' - 1))%nat by lia. rewrite EB. exact DB.
Qed.
