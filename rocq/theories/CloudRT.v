(** Whole clouds: decoding what was encoded. *)
From Verif Require Import Base BaseFacts Varint VarintFacts Types Floats Fields Codec V5 Api Spec LibSpec.
From Verif Require Import GorillaFacts FieldFacts WriteFacts CodecFacts BuildFacts RunFacts SectionFacts PaletteFacts V5Facts ChunkV5Facts Stage1Facts ApiFacts CloudFacts RoundTrip.

(** The scratch capacity the decoder gives the decompressor. *)
Definition dec_cap (i : info) : Z := u64 (u64 (i_width i * i_height i) * i_step i).

Lemma decompress_throws L opt bs p buf max : payload L opt bs p -> ~ fits opt bs max -> DecompressChunk L opt p buf max = Throw.
Proof.
  intros HP HF. unfold DecompressChunk. destruct opt as [| | |x]; cbn [payload fits] in *.
  - tauto.
  - destruct HP as [HP1 HP2]. destruct (_ || _) eqn:E; [reflexivity|]. apply orb_false_iff in E. rewrite HP2.
    destruct (Z.leb_spec (zlen bs) max); [lia|reflexivity].
  - rewrite HP. destruct (Z.leb_spec (zlen bs) max); [tauto|reflexivity].
  - contradiction.
Qed.

Section Decode.
  Variables (ops : float_ops) (L : libs) (ppc : nat) (i i' : info) (cloud : list Z) (n : nat) (ms : list amode).
  Hypotheses (HK : known_enc i) (HS : same_codec i i') (HL : layout_ok i) (HO : out_layout_ok i') (HC : consistent_output i i')
    (HR : resolutions_ok i') (HN : UsesV5Codec i = true -> no_skip_adaptive i') (HV5 : v5_limits ppc i)
    (Hc : bytes cloud) (Hlen : (n * Z.to_nat (i_step i) <= length cloud)%nat) (Hp : (0 < ppc)%nat) (HD : deltas_ok ops i ppc cloud).
  Let P := chunk_rel ops i ppc cloud ms.

  Lemma step_nat : i_step i = Z.of_nat (Z.to_nat (i_step i)).
  Proof. destruct HL; lia. Qed.

  Lemma chunk_decodes ds minb : updateDecoders i' = Ok (ds, minb) -> (exists m, MaxSerializedPointSize i = Ok m) ->
    forall c k bs, (0 < k <= ppc)%nat -> (c * ppc + k <= n)%nat -> P c k bs ->
    exists ws, (forall w, In w ws <-> target ops i i' any cloud (c * ppc) k w) /\
    forall mem mem', Z.of_nat (c * ppc + k) * i_step i' <= zlen mem -> do_writes ws mem = Ok mem' ->
      (if UsesV5Codec i' then DecodeV5Stage1Chunk ops i' ds bs k (Z.of_nat (c * ppc) * i_step i') mem
       else do '(_, base', mem') <- DecodeV4Stage1Chunk ops ds minb bs (i_step i') k (Z.of_nat (c * ppc) * i_step i') mem; Ok (base', mem'))
      = Ok (Z.of_nat (c * ppc + k) * i_step i', mem').
  Proof.
    intros HUD (m & Hm) c k bs Hk Hck HP. unfold updateDecoders in HUD. rewrite <- (v5_same i i' HS) in *. unfold P, chunk_rel in HP. destruct HO as [HO0 _].
    destruct (UsesV5Codec i) eqn:HU.
    - destruct HP as (es & afs & HB & HP). apply bind_ok in HUD. destruct HUD as (ds' & HBD & HUD). apply ok_pair in HUD. destruct HUD as [<- <-].
      destruct (plan_spec i es afs m HU HB Hm) as (HBu & HA & _). destruct (HV5 HU) as [Hpp _].
      destruct (v5_chunk_dec ops i i' es afs ds' ppc cloud c k bs (Z.to_nat (i_step i))) as (ws & H1 & H2); auto; try apply step_nat; try lia; [nia|eapply v5_chunk_weaken; eauto|].
      eauto.
    - destruct HP as (es & HB & HP & Hb & _).
      destruct (v4_chunk_dec ops i i' es ds minb ppc cloud c k bs (Z.to_nat (i_step i))) as (ws & H1 & H2); auto; try apply step_nat; try lia; [nia|].
      exists ws. split; [exact H1|]. intros mem mem' Hmem HW. specialize (H2 mem mem' [] (Forall_nil _) Hmem HW). rewrite app_nil_r in H2. rewrite H2. reflexivity.
  Qed.

  Lemma decoders_exist bss : stage1 P ppc 0 n bss -> (n = O -> exists es, (if UsesV5Codec i then (do '(es, _) <- BuildV5Plan i; Ok es) else BuildV4Encoders i) = Ok es) ->
    exists ds minb, updateDecoders i' = Ok (ds, minb).
  Proof.
    intros HSt HB0. unfold updateDecoders. rewrite <- (v5_same i i' HS).
    assert (HB : exists es, (if UsesV5Codec i then (do '(es, _) <- BuildV5Plan i; Ok es) else BuildV4Encoders i) = Ok es).
    { inversion HSt as [|c left bs bss' Hl HPc]; subst; [auto|]. unfold P, chunk_rel in HPc. destruct (UsesV5Codec i).
      - destruct HPc as (es & afs & -> & _). exists es. reflexivity.
      - destruct HPc as (es & -> & _). eauto. }
    destruct HB as (es & HB). destruct (UsesV5Codec i) eqn:HU.
    - apply bind_ok in HB. destruct HB as ((es' & afs) & HB & _). destruct (build_v5_dec_ok i i' es' afs HS HU HB HR) as (ds & ->). cbn. eauto.
    - destruct (build_v4_dec_ok i i' es HS HB HR) as (ds & minb & ->). eauto.
  Qed.

  (** A chunk that does not fit the scratch buffer makes the decoder throw. *)
  Lemma dec_loop_throws ds minb (HPd : forall c k bs, (0 < k <= ppc)%nat -> (c * ppc + k <= n)%nat -> P c k bs ->
    exists ws, (forall w, In w ws <-> target ops i i' any cloud (c * ppc) k w) /\
    forall mem mem', Z.of_nat (c * ppc + k) * i_step i' <= zlen mem -> do_writes ws mem = Ok mem' ->
      (if UsesV5Codec i' then DecodeV5Stage1Chunk ops i' ds bs k (Z.of_nat (c * ppc) * i_step i') mem
       else do '(_, base', mem') <- DecodeV4Stage1Chunk ops ds minb bs (i_step i') k (Z.of_nat (c * ppc) * i_step i') mem; Ok (base', mem'))
      = Ok (Z.of_nat (c * ppc + k) * i_step i', mem')) :
    forall c left bss, stage1 P ppc c left bss -> (left = O \/ c * ppc + left = n)%nat -> ~ Forall (fun bs => fits (i_comp i') bs (dec_cap i')) bss ->
    forall ps, Forall2 (fun bs p => payload L (i_comp i') bs p /\ bytes p /\ zlen p <= UINT32_MAX) bss ps ->
    forall fuel buf mem, (length (concat (map frame ps)) < fuel)%nat -> Z.of_nat n * i_step i' <= zlen mem ->
      dec_loop ops L ppc i' ds minb fuel (concat (map frame ps)) buf (Z.of_nat left) (Z.of_nat (c * ppc) * i_step i') mem = Throw.
  Proof.
    intros c left bss HSt. induction HSt as [c|c left bs bss Hl HPc HSt IH]; intros Hn HF ps Hps fuel buf mem Hfu Hm; [exfalso; apply HF; constructor|].
    inversion Hps as [|? p ? ps' (Hp1 & Hp2 & Hp3) Hps']; subst. set (k := Nat.min left ppc) in *. destruct Hn as [|Hn]; [lia|].
    cbn [map concat] in *. destruct fuel as [|fuel]; [lia|]. cbn [dec_loop].
    assert (Hne : exists b l, frame p ++ concat (map frame ps') = b :: l) by (unfold frame; cbn [le_bytes app]; eauto).
    destruct Hne as (b & l & Hne). rewrite Hne. rewrite <- Hne. clear b l Hne.
    replace (Z.of_nat left =? 0) with false by lia.
    assert (Hz : 0 <= zlen p < 4294967296) by (pose proof (zlen_nonneg p); unfold UINT32_MAX in Hp3; lia).
    unfold frame at 1. rewrite <- app_assoc, (le4 (zlen p)) by exact Hz. cbn [bind].
    replace (zlen (p ++ concat (map frame ps')) <? zlen p) with false by (rewrite zlen_app; pose proof (zlen_nonneg (concat (map frame ps'))); lia).
    replace (Z.to_nat (zlen p)) with (length p) by (unfold zlen; lia).
    rewrite firstn_app, firstn_all, Nat.sub_diag, skipn_app, skipn_all, Nat.sub_diag. cbn [firstn skipn app]. rewrite app_nil_r.
    replace (Z.to_nat (Z.min (Z.of_nat left) (Z.of_nat ppc))) with k by (unfold k; lia).
    assert (Hfd : fits (i_comp i') bs (dec_cap i') \/ ~ fits (i_comp i') bs (dec_cap i')) by (unfold fits; destruct (i_comp i'); lia).
    destruct Hfd as [Hfit|Hfit].
    2:{ unfold decodeChunk. fold (dec_cap i'). rewrite (decompress_throws L (i_comp i') bs p buf (dec_cap i') Hp1 Hfit). reflexivity. }
    destruct (HPd c k bs ltac:(unfold k; lia) ltac:(unfold k; lia) HPc) as (ws & Hws & HD1).
    destruct HO as [HO0 HO1].
    assert (HW : exists mem', do_writes ws mem = Ok mem').
    { destruct (do_writes_ok ws mem) as (mm & HH & _); [|now exists mm]. apply Forall_forall. intros w Hw. apply Hws in Hw.
      apply (target_in_range ops i i' cloud n w HS HL (conj HO0 HO1)); [unfold zlen; destruct HL; nia| |exact Hm].
      destruct Hw as (j & f' & f & q & Hj & Hrest). exists j, f', f, q. split; [unfold k in *; lia|exact Hrest]. }
    destruct HW as (mem' & HW). assert (Hl' : length mem' = length mem) by (apply do_writes_inv in HW; tauto).
    assert (Hck : Z.of_nat (c * ppc + k) * i_step i' <= zlen mem) by (assert (Z.of_nat (c * ppc + k) <= Z.of_nat n) by (unfold k; lia); nia).
    specialize (HD1 mem mem' Hck HW).
    assert (HDC : exists buf', decodeChunk ops L i' ds minb p buf k (Z.of_nat (c * ppc) * i_step i') mem = Ok (buf', Z.of_nat (c * ppc + k) * i_step i', mem')).
    { unfold decodeChunk. fold (dec_cap i'). destruct (decompress_ok L (i_comp i') bs p buf (dec_cap i') Hp1 Hfit) as (buf' & E). rewrite E. cbn [bind]. exists buf'.
      destruct (UsesV5Codec i').
      - rewrite HD1. reflexivity.
      - destruct (DecodeV4Stage1Chunk ops ds minb bs (i_step i') k (Z.of_nat (c * ppc) * i_step i') mem) as [[[x y] z]| |]; try discriminate HD1.
        cbn [bind] in *. apply ok_pair in HD1. destruct HD1 as [-> ->]. reflexivity. }
    destruct HDC as (buf' & ->). cbn [bind].
    replace (Z.of_nat left - Z.min (Z.of_nat left) (Z.of_nat ppc)) with (Z.of_nat (left - k)) by (unfold k; lia).
    rewrite app_length in Hfu. unfold frame at 1 in Hfu. rewrite app_length, le_bytes_length in Hfu.
    destruct (Nat.le_gt_cases left ppc) as [H|H].
    - exfalso. apply HF. constructor; [exact Hfit|]. assert (Ek : (left - k = 0)%nat) by (unfold k; lia). rewrite Ek in HSt. inversion HSt; [constructor|lia].
    - replace (c * ppc + k)%nat with (S c * ppc)%nat by (unfold k; lia). apply IH; try assumption; [right; unfold k; lia| |lia|unfold zlen in *; lia].
      intros HF'. apply HF. constructor; auto.
  Qed.

  Lemma decode_chunks bss ps data buf mem : stage1 P ppc 0 n bss -> (exists m, MaxSerializedPointSize i = Ok m) ->
    (n = O -> exists es, (if UsesV5Codec i then (do '(es, _) <- BuildV5Plan i; Ok es) else BuildV4Encoders i) = Ok es) ->
    Forall2 (fun bs p => payload L (i_comp i') bs p /\ bytes p /\ zlen p <= UINT32_MAX) bss ps ->
    data = concat (map frame ps) -> has_magic data = false -> 3 <= i_version i' -> u64 (i_width i' * i_height i') = Z.of_nat n ->
    Z.of_nat n * i_step i' <= zlen mem ->
    (Forall (fun bs => fits (i_comp i') bs (dec_cap i')) bss ->
       exists buf' mem', decode ops L ppc i' data buf mem = Ok (buf', mem') /\ restored ops i i' n cloud mem mem') /\
    (~ Forall (fun bs => fits (i_comp i') bs (dec_cap i')) bss -> decode ops L ppc i' data buf mem = Throw).
  Proof.
    intros HSt HM HB0 Hps -> Hmg Hver Hwh Hm. destruct (decoders_exist bss HSt HB0) as (ds & minb & HUD).
    pose proof (chunk_decodes ds minb HUD HM) as HCD. pose proof HO as HO'. destruct HO' as [HO0 HO1].
    assert (Hz : Z.of_nat n * i_step i <= zlen cloud) by (unfold zlen; destruct HL; nia).
    unfold decode. rewrite HUD. cbn [bind]. rewrite Hmg. replace (3 <=? i_version i') with true by lia. rewrite Hwh. split.
    - intros HF.
      destruct (dec_loop_ok ops L ppc i i' cloud ds minb (fun c k bs => P c k bs /\ (c * ppc + k <= n)%nat) Hp) with (c := O) (left := n) (bss := bss) (ps := ps) as (ws & Hws & HDL); auto; [| |lia|].
      + intros c k bs Hk [H1 H2]. apply HCD; auto.
      + eapply stage1_impl; [|exact Hp|exact HSt]. intros c k bs H1 H2 H3 H4. split; [exact H4|]. cbn in H3. lia.
      + cbn [Nat.mul] in Hws.
        assert (HW : exists mem', do_writes ws mem = Ok mem').
        { destruct (do_writes_ok ws mem) as (mm & HH & _); [|now exists mm]. apply Forall_forall. intros w Hw. apply Hws in Hw. eapply target_in_range; eauto. }
        destruct HW as (mem' & HW). destruct (HDL (S (length (concat (map frame ps)))) buf mem mem') as (buf' & E); auto.
        exists buf', mem'. split; [exact E|]. eapply restored_intro; eauto.
    - intros HF. apply (dec_loop_throws ds minb HCD 0%nat n bss HSt); auto.
  Qed.
End Decode.
