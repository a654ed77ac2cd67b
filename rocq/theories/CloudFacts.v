(** Facts about whole clouds: the chunk loops write the chunks' stage-1 bytes, and the
    decoder's loop reads them back. *)
From Verif Require Import Base BaseFacts Varint VarintFacts Types Floats Fields Codec V5 Api Spec LibSpec
  GorillaFacts FieldFacts WriteFacts CodecFacts BuildFacts RunFacts SectionFacts PaletteFacts V5Facts ChunkV5Facts Stage1Facts ApiFacts.

(** ** Encoder objects keep no history across reset() *)
Definition resettable (e : fenc) (st : fstate) : Prop := enc_reset e st = reset_state.
Lemma ok_pair {A B} (a c : A) (b d : B) : Ok (a, b) = Ok (c, d) -> a = c /\ b = d.
Proof. intros H. inversion H. auto. Qed.
Lemma gor_vec st cur : s_vec (fst (gor_encode st cur)) = s_vec st.
Proof.
  unfold gor_encode. cbv zeta. destruct (s_first st); [reflexivity|]. destruct (_ =? 0); [reflexivity|].
  destruct (_ && _); reflexivity.
Qed.
Lemma enc_step_resettable ops e st view st' o : resettable e st -> enc_step ops e st view = Ok (st', o) -> resettable e st'.
Proof.
  unfold resettable. intros HR HE. destruct e; cbn [enc_step enc_reset] in *.
  - apply bind_ok in HE. destruct HE as (bs & _ & E). apply ok_pair in E. destruct E as [<- _]. exact HR.
  - apply bind_ok in HE. destruct HE as (bs & _ & E). apply ok_pair in E. destruct E as [<- _]. exact HR.
  - apply bind_ok in HE. destruct HE as (bs & _ & E). destruct (isnan32 _); apply ok_pair in E; destruct E as [<- _]; exact HR.
  - apply bind_ok in HE. destruct HE as (bs & _ & E). destruct (isnan64 _); apply ok_pair in E; destruct E as [<- _]; exact HR.
  - apply bind_ok in HE. destruct HE as (bs & _ & E). apply ok_pair in E. destruct E as [<- _]. exact HR.
  - apply bind_ok in HE. destruct HE as (bs & _ & E). pose proof (gor_vec st (le_val bs)) as G.
    destruct (gor_encode st (le_val bs)) as [st1 o1]. apply ok_pair in E. destruct E as [<- _]. cbn [fst] in G. rewrite G. exact HR.
  - apply bind_ok in HE. destruct HE as (? & _ & HE). apply bind_ok in HE. destruct HE as ((ps & outs) & _ & E). apply ok_pair in E. destruct E as [<- _]. exact HR.
Qed.
Lemma enc_point_resettable ops view es : forall sts sts' o, Forall2 resettable es sts ->
  enc_point ops es sts view = Ok (sts', o) -> Forall2 resettable es sts'.
Proof.
  induction es as [|e es IH]; intros sts sts' o HR HE; inversion HR; subst; cbn [enc_point] in HE.
  - apply ok_pair in HE. destruct HE as [<- _]. constructor.
  - apply bind_ok in HE. destruct HE as ((st1 & o1) & E1 & HE). apply bind_ok in HE. destruct HE as ((sts1 & o2) & E2 & HE).
    apply ok_pair in HE. destruct HE as [<- _]. constructor; [eapply enc_step_resettable; eauto|eapply IH; eauto].
Qed.
Lemma enc_points_obj_v4 ops es step n : forall sts cloud rest bs, Forall2 resettable es sts ->
  enc_points_v4 ops es step n sts cloud = Ok (rest, bs) ->
  exists sts', enc_points_obj ops es step n sts cloud = Ok (sts', rest, bs) /\ Forall2 resettable es sts'.
Proof.
  induction n as [|n IH]; intros sts cloud rest bs HR HE; cbn [enc_points_v4 enc_points_obj] in *.
  - apply ok_pair in HE. destruct HE as [<- <-]. eauto.
  - destruct cloud as [|b cloud]; [apply ok_pair in HE; destruct HE as [<- <-]; eauto|].
    apply bind_ok in HE. destruct HE as ((st1 & o1) & E1 & HE). rewrite E1. cbn [bind].
    apply bind_ok in HE. destruct HE as (c1 & E2 & HE). rewrite E2. cbn [bind].
    apply bind_ok in HE. destruct HE as ((r1 & o2) & E3 & HE). apply ok_pair in HE. destruct HE as [<- <-].
    destruct (IH st1 c1 r1 o2 (enc_point_resettable _ _ _ _ _ _ HR E1) E3) as (sts' & E4 & R4). rewrite E4. cbn [bind]. eauto.
Qed.
Lemma reset_all es : forall sts, Forall2 resettable es sts -> resetEncoders es sts = resets es.
Proof. induction es as [|e es IH]; intros sts H; inversion H; subst; cbn; [reflexivity|]. unfold resettable in *. rewrite IH by assumption. now f_equal. Qed.
Lemma resets_resettable es : Forall2 resettable es (resets es).
Proof. induction es as [|e es IH]; cbn; constructor; [destruct e; reflexivity|exact IH]. Qed.

(** ** The list of stage-1 chunks *)
(** [P c n bs]: [bs] are the stage-1 bytes of chunk number [c], which has [n] points. *)
Inductive stage1 (P : nat -> nat -> list Z -> Prop) (ppc : nat) : nat -> nat -> list (list Z) -> Prop :=
| stage1_nil c : stage1 P ppc c 0 []
| stage1_cons c left bs bss : (0 < left)%nat -> P c (Nat.min left ppc) bs ->
    stage1 P ppc (S c) (left - Nat.min left ppc) bss -> stage1 P ppc c left (bs :: bss).

Lemma chunks_count_0 ppc : (0 < ppc)%nat -> chunks_count ppc 0 = O.
Proof. intros. unfold chunks_count. rewrite Nat.div_0_l, Nat.mod_0_l by lia. reflexivity. Qed.
Lemma chunks_count_S ppc left : (0 < ppc)%nat -> (0 < left)%nat ->
  chunks_count ppc left = S (chunks_count ppc (left - Nat.min left ppc)).
Proof.
  intros Hp Hl. unfold chunks_count. destruct (Nat.le_gt_cases left ppc) as [H|H].
  - rewrite Nat.min_l by lia. rewrite Nat.sub_diag, (Nat.div_0_l ppc), (Nat.mod_0_l ppc) by lia. cbn [Nat.eqb Nat.add].
    destruct (Nat.eq_dec left ppc) as [->|Hne].
    + rewrite Nat.div_same, Nat.mod_same by lia. reflexivity.
    + rewrite Nat.div_small, Nat.mod_small by lia. destruct (Nat.eqb_spec left 0); lia.
  - rewrite Nat.min_r by lia. assert (E : left = ((left - ppc) + 1 * ppc)%nat) by lia.
    rewrite E at 1 2. rewrite Nat.div_add, Nat.mod_add by lia. lia.
Qed.
Lemma stage1_length P ppc c left bss : (0 < ppc)%nat -> stage1 P ppc c left bss -> length bss = chunks_count ppc left.
Proof.
  intros Hp H. induction H as [c|c left bs bss Hl HP H IH]; cbn [length].
  - now rewrite chunks_count_0.
  - rewrite IH. symmetry. now apply chunks_count_S.
Qed.
Lemma stage1_impl (P Q : nat -> nat -> list Z -> Prop) ppc c left bss :
  (forall c' n bs, (0 < n <= ppc)%nat -> (c <= c')%nat -> (c' * ppc + n <= c * ppc + left)%nat -> P c' n bs -> Q c' n bs) ->
  (0 < ppc)%nat -> stage1 P ppc c left bss -> stage1 Q ppc c left bss.
Proof.
  intros HI Hp H. induction H as [c|c left bs bss Hl HP H IH]; constructor; auto.
  - apply HI; auto; nia.
  - destruct (Nat.le_gt_cases left ppc) as [Hc|Hc].
    + rewrite Nat.min_l in * by lia. rewrite Nat.sub_diag in *. inversion H; [constructor|lia].
    + rewrite Nat.min_r in * by lia. apply IH. intros c' n bs' H1 H2 H3. apply HI; auto; nia.
Qed.
Lemma stage1_forall (P : nat -> nat -> list Z -> Prop) (R : list Z -> Prop) ppc c left bss : (forall c n bs, P c n bs -> R bs) -> stage1 P ppc c left bss -> Forall R bss.
Proof. intros HI H. induction H; constructor; eauto. Qed.

(** Writing the same chunks with different encoder states changes nothing else. *)
Definition same_out (x y : res Z * wstate) : Prop :=
  fst x = fst y /\ w_pos (snd x) = w_pos (snd y) /\ w_mem (snd x) = w_mem (snd y).
Definition with_sts (w : wstate) (sts : list fstate) : wstate := mkW (w_pos w) (w_mem w) sts.
Definition lift {A} (r : res A * wstate) sts : res A * wstate := (fst r, with_sts (snd r) sts).
Definition oblivious {A} (m : act A) : Prop := forall w sts, m (with_sts w sts) = lift (m w) sts.
Lemma obl_ret {A} (a : A) : oblivious (ret a).
Proof. intros w sts. reflexivity. Qed.
Lemma obl_bind {A B} (m : act A) (k : A -> act B) : oblivious m -> (forall a, oblivious (k a)) -> oblivious (abind m k).
Proof.
  intros Hm Hk w sts. unfold abind. rewrite Hm. unfold lift. destruct (m w) as [[a| |] w']; cbn [fst snd]; try reflexivity. apply Hk.
Qed.
Lemma obl_put p bs : oblivious (put_at p bs).
Proof. intros w sts. unfold put_at, with_sts, lift. cbn [w_mem w_pos w_sts]. destruct (wr p bs (w_mem w)); reflexivity. Qed.
Lemma obl_advance n : oblivious (advance n).
Proof. intros w sts. unfold advance, avail, with_sts, lift. cbn [w_mem w_pos w_sts]. destruct (_ <? _); reflexivity. Qed.
Lemma obl_run c bs : oblivious (run_compressor c bs).
Proof.
  intros w sts. unfold run_compressor. cbn [with_sts w_pos w_mem w_sts].
  destruct (c_compress c bs _) as [[n|] dst']; [|reflexivity]. destruct (_ <? _); [reflexivity|].
  apply (obl_bind (advance n) (fun _ => ret n) (obl_advance n) (fun _ => obl_ret n) (mkW (w_pos w) (firstn (Z.to_nat (w_pos w)) (w_mem w) ++ dst') (w_sts w))).
Qed.
Lemma obl_compress L opt bs : oblivious (CompressChunk L opt bs).
Proof.
  intros w sts. unfold CompressChunk. destruct (_ <? _); [reflexivity|]. unfold avail. cbn [with_sts w_pos w_mem w_sts].
  destruct opt; try reflexivity; [destruct (_ || _); [reflexivity|]|]; apply (obl_run _ bs w sts).
Qed.
Lemma obl_write L opt bs : oblivious (WriteStage1Chunk L opt bs).
Proof.
  intros w sts. unfold WriteStage1Chunk. destruct (_ <? _); [reflexivity|].
  assert (HC : (perform _ <- advance 4; perform n <- CompressChunk L opt bs; perform _ <- put_at (w_pos w) (le_bytes 4 n); ret (n + 4)) (with_sts w sts) =
               lift ((perform _ <- advance 4; perform n <- CompressChunk L opt bs; perform _ <- put_at (w_pos w) (le_bytes 4 n); ret (n + 4)) w) sts).
  { apply obl_bind; [apply obl_advance|intros _]. apply obl_bind; [apply obl_compress|intros n].
    apply obl_bind; [apply obl_put|intros _]. apply obl_ret. }
  destruct opt; try exact HC.
  unfold avail at 1 3. cbn [with_sts w_pos w_mem w_sts]. destruct (_ <? _); [reflexivity|].
  apply obl_bind; [apply obl_put|intros _]. apply obl_bind; [apply obl_advance|intros _].
  intros w1 sts1. unfold avail. cbn [with_sts w_pos w_mem w_sts]. destruct (_ <? _); [reflexivity|].
  apply obl_bind; [apply obl_put|intros _]. apply obl_bind; [apply obl_advance|intros _]. apply obl_ret.
Qed.
Lemma obl_write_all L opt bss : oblivious (write_all L opt bss).
Proof.
  induction bss as [|bs bss IH]; cbn [write_all]; [apply obl_ret|].
  apply obl_bind; [apply obl_write|intros n]. apply obl_bind; [exact IH|intros m]. apply obl_ret.
Qed.

(** ** V4 loop *)
Definition v4_chunk (ops : float_ops) (es : list fenc) (step ppc : nat) (cloud : list Z) (c k : nat) (bs : list Z) : Prop :=
  enc_points_v4 ops es step k (resets es) (skipn (c * ppc * step) cloud) = Ok (skipn ((c * ppc + k) * step) cloud, bs) /\
  bytes bs /\ zlen bs <= Z.of_nat k * Z.of_nat (sum_nat (map enc_max es)).
Lemma enc_points_more ops es step k : forall k' sts cloud bs, enc_points_v4 ops es step k sts cloud = Ok ([], bs) -> (k <= k')%nat ->
  enc_points_v4 ops es step k' sts cloud = Ok ([], bs).
Proof.
  induction k as [|k IH]; intros k' sts cloud bs HE Hk.
  - cbn in HE. injection HE as -> <-. destruct k'; reflexivity.
  - destruct k' as [|k']; [lia|]. cbn [enc_points_v4] in *. destruct cloud as [|b cloud]; [exact HE|].
    apply bind_ok in HE. destruct HE as ((st1 & o1) & E1 & HE). rewrite E1. cbn [bind].
    apply bind_ok in HE. destruct HE as (c1 & E2 & HE). rewrite E2. cbn [bind].
    apply bind_ok in HE. destruct HE as ((r1 & o2) & E3 & HE). apply ok_pair in HE. destruct HE as [-> <-].
    rewrite (IH k' st1 c1 o2 E3) by lia. reflexivity.
Qed.
Lemma v4_loop_all ops L opt i es step ppc cap cloud n : built i any es -> layout_ok i -> i_step i = Z.of_nat step -> bytes cloud ->
  length cloud = (n * step)%nat -> (0 < ppc)%nat -> Z.of_nat ppc * Z.of_nat (sum_nat (map enc_max es)) <= cap ->
  forall left c, (left = O \/ c * ppc + left = n)%nat ->
  exists bss, stage1 (v4_chunk ops es step ppc cloud) ppc c left bss /\
    forall fuel w rem, (left < fuel)%nat -> rem = skipn ((n - left) * step) cloud -> (left <= n)%nat -> Forall2 resettable es (w_sts w) ->
    exists sts', v4_loop ops L opt es step ppc cap fuel rem w = lift (write_all L opt bss w) sts' /\ Forall2 resettable es sts'.
Proof.
  intros HB HL Hst Hc Hlen Hp Hcap left. assert (H0 : (0 < step)%nat) by (destruct HL; lia).
  induction left as [left IH] using (well_founded_induction Wf_nat.lt_wf). intros c Hleft. destruct left as [|left'].
  - exists []. split; [constructor|]. intros fuel w rem Hf -> _ HR. exists (w_sts w). split; [|exact HR].
    rewrite skipn_all2 by (rewrite Hlen; nia). destruct fuel; [lia|]. cbn [v4_loop write_all]. destruct w; reflexivity.
  - set (left := S left') in *. set (k := Nat.min left ppc). destruct Hleft as [|Hn]; [lia|].
    destruct (chunk_enc ops i any es step cloud (c * ppc) k HB HL Hst Hc ltac:(rewrite Hlen; unfold k; nia)) as (bs & HE & Hb & Hsz).
    destruct (IH (left - k)%nat ltac:(unfold k; lia) (S c)) as (bss & HS & HW).
    { unfold k. destruct (Nat.le_gt_cases left ppc); [left|right]; nia. }
    exists (bs :: bss). split.
    { constructor; [lia| |exact HS]. split; [exact HE|]. split; assumption. }
    intros fuel w rem Hf Hrem _ HR. destruct fuel as [|fuel]; [lia|].
    replace (n - left)%nat with (c * ppc)%nat in Hrem by lia.
    assert (Hne : exists b rem', rem = b :: rem').
    { destruct rem as [|b rem']; [|eauto]. exfalso. symmetry in Hrem. apply (f_equal (@length Z)) in Hrem. rewrite skipn_length in Hrem. cbn in Hrem. rewrite Hlen in Hrem.
      assert (E : (c * ppc * step + left * step = n * step)%nat) by (rewrite <- Hn, Nat.mul_add_distr_r; reflexivity).
      assert (0 < left * step)%nat by (unfold left; nia). lia. }
    assert (HE' : enc_points_v4 ops es step ppc (resets es) rem = Ok (skipn ((n - (left - k)) * step) cloud, bs)).
    { rewrite Hrem. destruct (Nat.le_gt_cases ppc left) as [H|H].
      - unfold k in *. rewrite Nat.min_r in * by lia. replace (n - (left - ppc))%nat with (c * ppc + ppc)%nat by lia. exact HE.
      - unfold k in *. rewrite Nat.min_l in * by lia. replace (n - (left - left))%nat with n by lia. rewrite (skipn_all2 (n := (n * step)%nat)) by (rewrite Hlen; lia).
        apply (enc_points_more ops es step left); [|lia]. rewrite HE. f_equal. f_equal. apply skipn_all2. rewrite Hlen. nia. }
    destruct (enc_points_obj_v4 ops es step ppc (resets es) rem _ bs (resets_resettable es) HE') as (sts1 & HO & HR1).
    cbn [v4_loop]. destruct Hne as (b & rem' & Hr). rewrite Hr. rewrite <- Hr. unfold EncodeV4Stage1Chunk. rewrite (reset_all es _ HR), HO.
    replace (cap <? zlen bs) with false by (symmetry; apply Z.ltb_ge; unfold k in Hsz; nia).
    cbn [write_all]. change (mkW (w_pos w) (w_mem w) sts1) with (with_sts w sts1).
    unfold abind. rewrite (obl_write L opt bs w sts1). unfold lift at 1. destruct (WriteStage1Chunk L opt bs w) as [[m| |] w1]; cbn [fst snd].
    + destruct (HW fuel (with_sts w1 sts1) (skipn ((n - (left - k)) * step) cloud) ltac:(lia) eq_refl ltac:(lia) HR1) as (sts2 & E2 & HR2).
      exists sts2. split; [|exact HR2]. rewrite E2. rewrite (obl_write_all L opt bss w1 sts1). unfold lift. cbn [fst snd].
      destruct (write_all L opt bss w1) as [[m2| |] w2]; reflexivity.
    + exists sts1. split; [reflexivity|exact HR1].
    + exists sts1. split; [reflexivity|exact HR1].
Qed.

(** ** V5 loop *)
Definition v5_chunk (ops : float_ops) (es : list fenc) (afs : list afield) (step ppc : nat) (cloud : list Z) (ms : list amode) (c k : nat) (bs : list Z) : Prop :=
  exists o secs, enc_points_v4 ops es step k (resets es) (skipn (c * ppc * step) cloud) = Ok (skipn ((c * ppc + k) * step) cloud, o) /\
    bs = o ++ concat secs /\ bytes o /\ bytes (concat secs) /\
    zlen bs <= Z.of_nat k * Z.of_nat (sum_nat (map enc_max es)) + (zlen afs * (5 + 10 * Z.of_nat k) + wides afs * Z.of_nat k) /\
    length ms = length afs /\ length secs = length afs /\
    Forall2 (fun a mb => section_of a (column a step k (skipn (c * ppc * step) cloud)) (fst mb) (snd mb)) afs (combine ms secs).
Lemma v5_chunk_weaken ops es afs step ppc cloud ms c k bs : v5_chunk ops es afs step ppc cloud ms c k bs ->
  v5_chunk_bytes ops es afs step k (skipn (c * ppc * step) cloud) bs.
Proof.
  intros (o & secs & HE & -> & H1 & H2 & _ & H4 & H5 & H6). exists o, secs, (map Some ms), ms, (fun _ _ => True).
  split; [rewrite HE; f_equal; f_equal; rewrite skipn_skipn; f_equal; lia|].
  split; [reflexivity|]. split; [exact H1|]. split; [exact H2|]. split; [now rewrite map_length|]. split; [exact H4|]. split; [exact H5|].
  clear HE. revert ms secs H2 H4 H5 H6. induction afs as [|a afs IH]; intros ms secs H2 H4 H5 H6; destruct ms as [|m ms], secs as [|s secs]; try discriminate; cbn in *; constructor.
  - inversion H6; subst. auto.
  - inversion H6; subst. apply IH; auto. apply bytes_app in H2. tauto.
Qed.
Lemma mode_rule_some probe col afs : forall ms0 ms secs, length ms0 = length afs -> length ms = length afs -> length secs = length afs ->
  Forall2 (fun (am0 : afield * option amode) (mb : amode * list Z) => section_of (fst am0) (col (fst am0)) (fst mb) (snd mb) /\ mode_rule probe (fst am0) (col (fst am0)) (snd am0) (fst mb))
     (combine afs (map Some ms0)) (combine ms secs) ->
  ms = ms0 /\ Forall2 (fun a mb => section_of a (col a) (fst mb) (snd mb)) afs (combine ms secs).
Proof.
  induction afs as [|a afs IH]; intros ms0 ms secs H0 H1 H2 H; destruct ms0 as [|m0 ms0], ms as [|m ms], secs as [|s secs]; try discriminate; cbn in *.
  - split; constructor.
  - inversion H as [|? ? ? ? [Ha Hb] Hr]; subst. cbn in Ha, Hb. subst m0. destruct (IH ms0 ms secs) as [-> HF]; auto.
Qed.
Lemma mode_rule_none probe col afs : forall (m0s : list (option amode)) ms secs, Forall (fun m => m = None) m0s -> length m0s = length afs -> length ms = length afs -> length secs = length afs ->
  Forall2 (fun (am0 : afield * option amode) (mb : amode * list Z) => section_of (fst am0) (col (fst am0)) (fst mb) (snd mb) /\ mode_rule probe (fst am0) (col (fst am0)) (snd am0) (fst mb))
     (combine afs m0s) (combine ms secs) ->
  Forall2 (fun a m => best_mode a (firstn probe (col a)) m) afs ms /\ Forall2 (fun a mb => section_of a (col a) (fst mb) (snd mb)) afs (combine ms secs).
Proof.
  induction afs as [|a afs IH]; intros ms0 ms secs HN H0 H1 H2 H; destruct ms0 as [|m0 ms0], ms as [|m ms], secs as [|s secs]; try discriminate; cbn in *.
  - split; constructor.
  - inversion H as [|? ? ? ? [Ha Hb] Hr]; subst. inversion HN; subst. cbn in Ha, Hb. destruct (IH ms0 ms secs) as [HX HF]; auto.
Qed.

Section V5Loop.
  Variables (ops : float_ops) (L : libs) (opt : comp_opt) (i : info) (es : list fenc) (afs : list afield).
  Variables (step ppc probe : nat) (cap : Z) (cloud : list Z) (n : nat).
  Hypotheses (HB : built i regular es) (HA : afs = map mk_afield (adaptive_fields i)) (HAn : afs <> [])
    (HL : layout_ok i) (Hst : i_step i = Z.of_nat step) (Hc : bytes cloud)
    (Hlen : length cloud = (n * step)%nat) (Hp : (0 < ppc)%nat) (Hp2 : Z.of_nat ppc <= 65535)
    (Hcap : Z.of_nat ppc * Z.of_nat (sum_nat (map enc_max es)) + (zlen afs * (5 + 10 * Z.of_nat ppc) + wides afs * Z.of_nat ppc) <= cap).

  Lemma v5_one_chunk c k ass b : (0 < k <= ppc)%nat -> (c * ppc + k <= n)%nat ->
    Forall2 (fun (_ : afield) s => tab_wf (as_tab s) /\ status b s) afs ass ->
    exists ass' ms secs o,
      enc_chunk_v5 ops es afs step probe cap k ass (skipn (c * ppc * step) cloud) = Ok (ass', o ++ concat secs) /\
      enc_points_v4 ops es step k (resets es) (skipn (c * ppc * step) cloud) = Ok (skipn ((c * ppc + k) * step) cloud, o) /\ bytes o /\
      chunk_sections probe afs step k (skipn (c * ppc * step) cloud) (map as_mode ass) ms secs /\
      bytes (concat secs) /\
      zlen (o ++ concat secs) <= Z.of_nat k * Z.of_nat (sum_nat (map enc_max es)) + (zlen afs * (5 + 10 * Z.of_nat k) + wides afs * Z.of_nat k) /\
      Forall2 (fun (_ : afield) s => tab_wf (as_tab s) /\ status false s) afs ass' /\
      map as_mode ass' = map Some ms.
  Proof.
    intros Hk Hle HF. assert (H0 : (0 < step)%nat) by (destruct HL; lia).
    destruct (chunk_enc ops i regular es step cloud (c * ppc) k HB HL Hst Hc ltac:(rewrite Hlen; nia)) as (o & HE & Hb & Hsz).
    assert (Hmono : Z.of_nat k * Z.of_nat (sum_nat (map enc_max es)) + (zlen afs * (5 + 10 * Z.of_nat k) + wides afs * Z.of_nat k) <= cap).
    { pose proof (wides_range afs) as Hwr. assert (Z.of_nat k <= Z.of_nat ppc) by lia. assert (wides afs * Z.of_nat k <= wides afs * Z.of_nat ppc) by nia. nia. }
    destruct (enc_chunk_v5_spec ops es afs step probe cap k ass (skipn (c * ppc * step) cloud) b o (skipn ((c * ppc + k) * step) cloud)) as (ass' & ms & secs & E1 & E2 & E3 & E4 & E5 & E6).
    - exact H0.
    - rewrite HA. apply Forall_map, Forall_forall. intros f Hf. unfold adaptive_fields in Hf. apply filter_In in Hf.
      destruct HL as [_ HLf]. rewrite Forall_forall in HLf. specialize (HLf f (proj1 Hf)). unfold afield_in, a_size. cbn [mk_afield a_off a_type]. lia.
    - rewrite HA. apply Forall_map, Forall_forall. intros f Hf. unfold adaptive_fields in Hf. apply filter_In in Hf. cbn. apply is_int_adaptive. tauto.
    - apply bytes_skipn, Hc.
    - unfold has_points. rewrite skipn_length, Hlen. nia.
    - lia.
    - lia.
    - exact HAn.
    - exact HF.
    - exact HE.
    - pose proof (zlen_nonneg afs). lia.
    - exists ass', ms, secs, o. rewrite zlen_app. repeat (split; [assumption|]). split; [lia|]. split; assumption.
  Qed.

  Lemma as_length (P : afield -> astate -> Prop) ass : Forall2 P afs ass -> length ass = length afs.
  Proof. intros H. symmetry. eapply Forall2_length; eauto. Qed.

  (** later chunks: the modes are committed *)
  Lemma v5_loop_rest ms : length ms = length afs -> forall left c ass, (left = O \/ c * ppc + left = n)%nat ->
    Forall2 (fun (_ : afield) s => tab_wf (as_tab s) /\ status false s) afs ass -> map as_mode ass = map Some ms ->
    exists bss, stage1 (v5_chunk ops es afs step ppc cloud ms) ppc c left bss /\
      forall fuel w, (left < fuel)%nat ->
      v5_loop ops L opt es afs step ppc probe cap fuel left ass (skipn (c * ppc * step) cloud) w = write_all L opt bss w.
  Proof.
    intros Hms left. induction left as [left IH] using (well_founded_induction Wf_nat.lt_wf). intros c ass Hleft HF Hm. destruct left as [|left'].
    - exists []. split; [constructor|]. intros fuel w Hf. destruct fuel; [lia|]. reflexivity.
    - set (left := S left') in *. set (k := Nat.min left ppc). destruct Hleft as [|Hn]; [lia|].
      destruct (v5_one_chunk c k ass false ltac:(unfold k; lia) ltac:(unfold k; lia) HF) as (ass' & ms' & secs & o & E1 & E2 & E3 & (E4 & E4a & E4b) & E5 & E6 & E7 & E8).
      rewrite Hm in E4. destruct (mode_rule_some probe (fun a => column a step k (skipn (c * ppc * step) cloud)) afs ms ms' secs Hms E4a E4b E4) as (-> & HFS).
      destruct (IH (left - k)%nat ltac:(unfold k; lia) (S c) ass') as (bss & HS & HW); auto.
      { unfold k. destruct (Nat.le_gt_cases left ppc); [left|right]; nia. }
      exists ((o ++ concat secs) :: bss). split.
      { constructor; [lia| |exact HS]. exists o, secs. auto 10. }
      intros fuel w Hf. destruct fuel as [|fuel]; [lia|]. cbn [v5_loop]. fold left. fold k. unfold left at 1. rewrite E1.
      cbn [write_all]. unfold abind. destruct (WriteStage1Chunk L opt (o ++ concat secs) w) as [[m| |] w1]; try reflexivity.
      assert (Hv : forall fuel w0, (left - k < fuel)%nat -> v5_loop ops L opt es afs step ppc probe cap fuel (left - k) ass' (skipn (k * step) (skipn (c * ppc * step) cloud)) w0 = write_all L opt bss w0).
      { intros fuel0 w0 Hf0. destruct (Nat.eq_dec (left - k) 0) as [H0|H0].
        - rewrite H0 in HS |- *. inversion HS; [|lia]. destruct fuel0; [lia|]. reflexivity.
        - rewrite <- (HW fuel0 w0) by lia. f_equal. rewrite skipn_skipn. f_equal. unfold k in *. nia. }
      rewrite Hv by (unfold k; lia). reflexivity.
  Qed.

  Lemma v5_loop_all : (n = 0)%nat \/ exists ms, length ms = length afs /\
    Forall2 (fun a m => best_mode a (firstn probe (column a step (Nat.min n ppc) cloud)) m) afs ms /\
    exists bss, stage1 (v5_chunk ops es afs step ppc cloud ms) ppc 0 n bss /\
      forall fuel w, (n < fuel)%nat ->
      v5_loop ops L opt es afs step ppc probe cap fuel n (map (fun _ => astate0) afs) cloud w = write_all L opt bss w.
  Proof.
    destruct (Nat.eq_dec n 0) as [H0|H0]; [left; exact H0|right]. set (k := Nat.min n ppc).
    set (ass := map (fun _ : afield => astate0) afs).
    assert (HF : Forall2 (fun (_ : afield) s => tab_wf (as_tab s) /\ status true s) afs ass).
    { unfold ass. clear. induction afs as [|a l IH]; cbn; constructor; auto. split; [apply tab_wf_init|reflexivity]. }
    destruct (v5_one_chunk 0 k ass true ltac:(unfold k; lia) ltac:(unfold k; lia) HF) as (ass' & ms & secs & o & E1 & E2 & E3 & (E4 & E4a & E4b) & E5 & E6 & E7 & E8).
    cbn [Nat.mul skipn] in E1, E2, E4.
    assert (HN : Forall (fun m : option amode => m = None) (map as_mode ass)).
    { unfold ass. rewrite map_map. apply Forall_map, Forall_forall. reflexivity. }
    destruct (mode_rule_none probe (fun a => column a step k cloud) afs (map as_mode ass) ms secs HN) as (HBM & HFS); auto.
    { rewrite map_length. eapply as_length; eauto. }
    exists ms. split; [exact E4a|]. split; [exact HBM|].
    destruct (v5_loop_rest ms E4a (n - k)%nat 1%nat ass') as (bss & HS & HW); auto.
    { unfold k. destruct (Nat.le_gt_cases n ppc); [left|right]; nia. }
    exists ((o ++ concat secs) :: bss). split.
    { constructor; [lia| |exact HS]. exists o, secs. cbn [Nat.mul skipn]. auto 10. }
    intros fuel w Hf. destruct fuel as [|fuel]; [lia|]. cbn [v5_loop].
    assert (HM : forall A (a b : A), match n with O => a | S _ => b end = b) by (intros; clear - H0; destruct n; [lia|reflexivity]).
    rewrite HM. fold k. fold ass. rewrite E1.
    cbn [write_all]. unfold abind. destruct (WriteStage1Chunk L opt (o ++ concat secs) w) as [[m| |] w1]; try reflexivity.
    assert (Hv : forall fuel w0, (n - k < fuel)%nat -> v5_loop ops L opt es afs step ppc probe cap fuel (n - k) ass' (skipn (k * step) cloud) w0 = write_all L opt bss w0).
    { intros fuel0 w0 Hf0. destruct (Nat.eq_dec (n - k) 0) as [Hz|Hz].
      - rewrite Hz in HS |- *. inversion HS; [|lia]. destruct fuel0; [lia|]. reflexivity.
      - rewrite <- (HW fuel0 w0) by lia. f_equal. f_equal. unfold k in *. nia. }
    rewrite Hv by (unfold k; lia). reflexivity.
  Qed.
End V5Loop.

(** ** Decoding the chunks *)
Definition fits (opt : comp_opt) (bs : list Z) (max : Z) : Prop :=
  match opt with
  | COMP_NONE => True
  | COMP_LZ4 => zlen bs <= max <= INT_MAX
  | COMP_ZSTD => zlen bs <= max
  | COMP_OTHER _ => False
  end.
Lemma resize_length n v : 0 <= n -> zlen (resize n v) = n.
Proof. intros. unfold resize, zlen. rewrite app_length, firstn_length, repeat_length. lia. Qed.
Lemma decompress_ok L opt bs p buf max : payload L opt bs p -> fits opt bs max ->
  exists buf', DecompressChunk L opt p buf max = Ok (bs, buf').
Proof.
  intros HP HF. unfold DecompressChunk.
  assert (HX : forall c, c_decompress c p max = Some bs -> zlen bs <= max -> exists buf',
    match c_decompress c p max with
    | Some r => do buf2 <- wr 0 r (if zlen buf <? max then resize max buf else buf); Ok (firstn (length r) buf2, buf2)
    | None => Throw end = Ok (bs, buf')).
  { intros c Hc Hm. rewrite Hc. set (b1 := if _ <? _ then _ else _).
    assert (Hb : zlen bs <= zlen b1) by (unfold b1; pose proof (zlen_nonneg bs); destruct (Z.ltb_spec (zlen buf) max); [rewrite resize_length|]; lia).
    rewrite wr_ok by lia. cbn [bind]. eexists. apply f_equal. apply pair_equal_spec. split; [|reflexivity].
    change (firstn (Z.to_nat 0) b1 ++ bs ++ skipn (Z.to_nat 0 + length bs) b1) with (bs ++ skipn (length bs) b1).
    rewrite firstn_app, firstn_all, Nat.sub_diag. apply app_nil_r. }
  destruct opt as [| | |x]; cbn [payload fits] in *.
  - subst p. eauto.
  - destruct HP as [HP1 HP2]. replace (INT_MAX <? zlen p) with false by lia. replace (INT_MAX <? max) with false by lia. cbn [orb]. apply HX; [rewrite HP2; replace (zlen bs <=? max) with true by lia; reflexivity|lia].
  - apply HX; auto. rewrite HP. replace (zlen bs <=? max) with true by lia; reflexivity.
  - contradiction.
Qed.

Lemma frame_nonempty p : frame p <> [].
Proof. unfold frame. cbn [le_bytes app]. discriminate. Qed.
Lemma target_split ops i i' cloud lo n1 n2 w : target ops i i' any cloud lo (n1 + n2) w <->
  target ops i i' any cloud lo n1 w \/ target ops i i' any cloud (lo + n1) n2 w.
Proof.
  unfold target. split.
  - intros (j & f' & f & k & H1 & H2). destruct (Nat.lt_ge_cases j (lo + n1)); [left|right]; exists j, f', f, k; split; try tauto; lia.
  - intros [(j & f' & f & k & H1 & H2)|(j & f' & f & k & H1 & H2)]; exists j, f', f, k; split; try tauto; lia.
Qed.
Lemma target_zero ops i i' cloud lo w : ~ target ops i i' any cloud lo 0 w.
Proof. intros (j & f' & f & k & H & _). lia. Qed.

Section DecLoop.
  Variables (ops : float_ops) (L : libs) (ppc : nat) (i i' : info) (cloud : list Z) (ds : list fdec) (minb : nat).
  Variable P : nat -> nat -> list Z -> Prop.
  Let max := u64 (u64 (i_width i' * i_height i') * i_step i').
  Hypotheses (Hppc : (0 < ppc)%nat).
  (** what the stage-1 decoder does with a chunk *)
  Hypothesis HP : forall c k bs, (0 < k <= ppc)%nat -> P c k bs ->
    exists ws, (forall w, In w ws <-> target ops i i' any cloud (c * ppc) k w) /\
    forall mem mem', Z.of_nat (c * ppc + k) * i_step i' <= zlen mem -> do_writes ws mem = Ok mem' ->
      (if UsesV5Codec i' then DecodeV5Stage1Chunk ops i' ds bs k (Z.of_nat (c * ppc) * i_step i') mem
       else do '(_, base', mem') <- DecodeV4Stage1Chunk ops ds minb bs (i_step i') k (Z.of_nat (c * ppc) * i_step i') mem; Ok (base', mem'))
      = Ok (Z.of_nat (c * ppc + k) * i_step i', mem').

  Lemma decodeChunk_ok c k bs p : (0 < k <= ppc)%nat -> P c k bs -> payload L (i_comp i') bs p -> fits (i_comp i') bs max ->
    exists ws, (forall w, In w ws <-> target ops i i' any cloud (c * ppc) k w) /\
    forall buf mem mem', Z.of_nat (c * ppc + k) * i_step i' <= zlen mem -> do_writes ws mem = Ok mem' ->
      exists buf', decodeChunk ops L i' ds minb p buf k (Z.of_nat (c * ppc) * i_step i') mem =
        Ok (buf', Z.of_nat (c * ppc + k) * i_step i', mem').
  Proof.
    intros Hk HPc Hpl Hf. destruct (HP c k bs Hk HPc) as (ws & Hws & HD). exists ws. split; [exact Hws|].
    intros buf mem mem' Hm HW. unfold decodeChunk. fold max.
    destruct (decompress_ok L (i_comp i') bs p buf max Hpl Hf) as (buf' & E). rewrite E. cbn [bind]. exists buf'.
    specialize (HD mem mem' Hm HW). destruct (UsesV5Codec i').
    - rewrite HD. reflexivity.
    - destruct (DecodeV4Stage1Chunk ops ds minb bs (i_step i') k (Z.of_nat (c * ppc) * i_step i') mem) as [[[x y] z]| |]; try discriminate HD.
      cbn [bind] in *. apply ok_pair in HD. destruct HD as [-> ->]. reflexivity.
  Qed.

  Lemma dec_loop_ok c left bss : stage1 P ppc c left bss -> Forall (fun bs => fits (i_comp i') bs max) bss ->
    0 <= i_step i' ->
    forall ps, Forall2 (fun bs p => payload L (i_comp i') bs p /\ bytes p /\ zlen p <= UINT32_MAX) bss ps ->
    exists ws, (forall w, In w ws <-> target ops i i' any cloud (c * ppc) left w) /\
    forall fuel buf mem mem', (length (concat (map frame ps)) < fuel)%nat -> Z.of_nat (c * ppc + left) * i_step i' <= zlen mem -> do_writes ws mem = Ok mem' ->
      exists buf', dec_loop ops L ppc i' ds minb fuel (concat (map frame ps)) buf (Z.of_nat left) (Z.of_nat (c * ppc) * i_step i') mem = Ok (buf', mem').
  Proof.
    intros HS HF Hst'. induction HS as [c|c left bs bss Hl HPc HS IH]; intros ps Hps.
    - inversion Hps; subst. exists []. split.
      + intros w. split; [intros []|]. intros Ht. exfalso. eapply target_zero; eauto.
      + intros fuel buf mem mem' Hfu _ HW. cbn in HW. injection HW as <-. exists buf. destruct fuel; [cbn in Hfu; lia|]. reflexivity.
    - inversion Hps as [|? p ? ps' (Hp1 & Hp2 & Hp3) Hps']; subst. inversion HF as [|? ? HF1 HF2]; subst.
      set (k := Nat.min left ppc) in *.
      destruct (decodeChunk_ok c k bs p ltac:(unfold k; lia) HPc Hp1 HF1) as (ws1 & Hw1 & HD1).
      destruct (IH HF2 ps' Hps') as (ws2 & Hw2 & HD2). exists (ws1 ++ ws2). split.
      + intros w. rewrite in_app_iff, Hw1, Hw2. replace left with (k + (left - k))%nat at 2 by (unfold k; lia).
        rewrite target_split. destruct (Nat.le_gt_cases left ppc) as [H|H].
        * replace (left - k)%nat with O by (unfold k; lia). pose proof (target_zero ops i i' cloud (S c * ppc) w).
          pose proof (target_zero ops i i' cloud (c * ppc + k) w). tauto.
        * replace (S c * ppc)%nat with (c * ppc + k)%nat by (unfold k; lia). tauto.
      + intros fuel buf mem mem' Hfu Hm HW. rewrite do_writes_app in HW. apply bind_ok in HW. destruct HW as (m1 & HW1 & HW2).
        assert (Hm1 : length m1 = length mem) by (apply do_writes_inv in HW1; tauto).
        cbn [map concat] in *. destruct fuel as [|fuel]; [lia|]. cbn [dec_loop].
        assert (Hne : exists b l, frame p ++ concat (map frame ps') = b :: l) by (unfold frame; cbn [le_bytes app]; eauto).
        destruct Hne as (b & l & Hne). rewrite Hne. rewrite <- Hne. clear b l Hne.
        replace (Z.of_nat left =? 0) with false by lia.
        assert (Hz : 0 <= zlen p < 4294967296) by (pose proof (zlen_nonneg p); unfold UINT32_MAX in Hp3; lia).
        unfold frame at 1. rewrite <- app_assoc, (le4 (zlen p)) by exact Hz. cbn [bind].
        replace (zlen (p ++ concat (map frame ps')) <? zlen p) with false by (rewrite zlen_app; pose proof (zlen_nonneg (concat (map frame ps'))); lia).
        replace (Z.to_nat (zlen p)) with (length p) by (unfold zlen; lia).
        rewrite firstn_app, firstn_all, Nat.sub_diag, skipn_app, skipn_all, Nat.sub_diag. cbn [firstn skipn app]. rewrite app_nil_r.
        replace (Z.to_nat (Z.min (Z.of_nat left) (Z.of_nat ppc))) with k by (unfold k; lia).
        destruct (HD1 buf mem m1) as (buf1 & E1); auto.
        { assert (Z.of_nat (c * ppc + k) <= Z.of_nat (c * ppc + left)) by (unfold k; lia). nia. }
        rewrite E1. cbn [bind].
        replace (Z.of_nat left - Z.min (Z.of_nat left) (Z.of_nat ppc)) with (Z.of_nat (left - k)) by (unfold k; lia).
        rewrite app_length in Hfu. unfold frame at 1 in Hfu. rewrite app_length, le_bytes_length in Hfu.
        destruct (Nat.le_gt_cases left ppc) as [H|H].
        * assert (Ek : (left - k = 0)%nat) by (unfold k; lia). rewrite Ek in *. inversion HS; [subst|lia]. inversion Hps'; subst.
          assert (Hnil : ws2 = []). { destruct ws2 as [|w0 ws2]; [reflexivity|]. exfalso. eapply target_zero. apply Hw2. now left. }
          subst ws2. cbn in HW2. injection HW2 as <-. exists buf1. destruct fuel; reflexivity.
        * replace (c * ppc + k)%nat with (S c * ppc)%nat by (unfold k; lia).
          apply (HD2 fuel buf1 m1 mem'); auto; [lia|]. unfold zlen in *. rewrite Hm1.
          replace (S c * ppc + (left - k))%nat with (c * ppc + left)%nat by (unfold k; lia). exact Hm.
  Qed.
End DecLoop.
