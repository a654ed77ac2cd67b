(** The bytes encode() produces do not depend on the buffer it writes to. *)
From Verif Require Import Base BaseFacts Types Floats Fields Codec V5 Api Spec LibSpec BuildFacts RunFacts ApiFacts CloudFacts RoundTrip LocalFacts CloudApi PropsCloud StreamSpec.
Open Scope Z_scope.

Definition made_by (c : codec_lib) (bs p : list Z) : Prop :=
  exists dst n, bytes dst /\ fst (c_compress c bs dst) = Some n /\ p = firstn (Z.to_nat n) (snd (c_compress c bs dst)).
Definition comp_in (L : libs) (opt : comp_opt) (bs p : list Z) : Prop :=
  match opt with
  | COMP_NONE => p = bs
  | COMP_LZ4 => made_by (lz4 L) bs p
  | COMP_ZSTD => made_by (zstd L) bs p
  | COMP_OTHER _ => False
  end.
Lemma comp_in_one L opt bs p1 p2 : steady L opt -> bytes bs -> comp_in L opt bs p1 -> comp_in L opt bs p2 -> p1 = p2.
Proof.
  unfold steady, comp_in. destruct opt; intros HS Hb H1 H2; try contradiction; [congruence| |];
    destruct H1 as (d1 & n1 & B1 & E1 & ->), H2 as (d2 & n2 & B2 & E2 & ->); now apply (HS bs d1 d2 n1 n2).
Qed.

Lemma wrote_one w w1 a b : wrote w w1 a -> wrote w w1 b -> a = b.
Proof. intros (_ & _ & A) (_ & _ & B). rewrite A in B. now apply app_inv_head in B. Qed.
Lemma frame_one p q : frame p = frame q -> p = q.
Proof.
  unfold frame. intros H. apply (f_equal (skipn 4)) in H. rewrite !skipn_app, !skipn_all2 in H by (rewrite le_bytes_length; lia).
  rewrite !le_bytes_length in H. exact H.
Qed.

Lemma run_made c bs w n w' : libs_ok (mkLibs c c) -> bytes bs -> w_ok w -> run_compressor c bs w = (Ok n, w') ->
  exists d, bytes d /\ fst (c_compress c bs d) = Some n /\ 0 < n <= zlen d /\ w_pos w' = w_pos w + n /\ zlen d = zlen (w_mem w) - w_pos w /\
    w_mem w' = firstn (Z.to_nat (w_pos w)) (w_mem w) ++ snd (c_compress c bs d).
Proof.
  intros [HC _] Hb (Hw & Hwb) H. cbn [lz4] in HC. unfold run_compressor in H. set (d := skipn (Z.to_nat (w_pos w)) (w_mem w)) in *. exists d.
  assert (Hd : bytes d) by (apply bytes_skipn, Hwb). split; [exact Hd|].
  destruct (c_compress c bs d) as [r dst'] eqn:E. destruct r as [n0|]; [|discriminate H]. destruct (UINT32_MAX <? n0); [discriminate H|].
  unfold abind, advance, ret in H. destruct (avail _ <? n0); [discriminate H|]. cbn [w_pos w_mem w_sts] in H. apply pair_equal_spec in H. destruct H as [H <-].
  assert (n0 = n) by congruence. subst n0. cbn [fst snd w_pos w_mem].
  assert (E1 : fst (c_compress c bs d) = Some n) by (rewrite E; reflexivity).
  destruct (lib_some c HC bs d n Hb Hd E1) as ((A1 & A2) & _).
  split; [reflexivity|]. split; [lia|]. split; [reflexivity|]. split; [|reflexivity]. unfold d, zlen in *. rewrite skipn_length. lia.
Qed.

Lemma chunk_made c bs w n w' p (go : act Z) : libs_ok (mkLibs c c) -> bytes bs -> w_ok w ->
  (forall w0 m w1, go w0 = (Ok m, w1) -> run_compressor c bs w0 = (Ok m, w1)) ->
  (perform _ <- advance 4 ; perform n <- go ; perform _ <- put_at (w_pos w) (le_bytes 4 n) ; ret (n + 4)) w = (Ok n, w') ->
  wrote w w' (frame p) -> made_by c bs p.
Proof.
  intros HC Hb Hw HG HE HW. pose proof Hw as (Hw0 & Hwb). unfold abind in HE at 1. unfold advance in HE at 1. destruct (Z.ltb_spec (avail w) 4) as [|Hav]; [discriminate HE|]. unfold avail in Hav.
  set (w1 := mkW (w_pos w + 4) (w_mem w) (w_sts w)) in HE. unfold abind in HE at 1. destruct (go w1) as [rc w2] eqn:EG. destruct rc as [m| |]; [|discriminate HE|discriminate HE].
  assert (Hw1 : w_ok w1) by (split; cbn [w1 w_mem w_pos]; [lia|exact Hwb]).
  destruct (run_made c bs w1 m w2 HC Hb Hw1 (HG _ _ _ EG)) as (d & Hd & E & Hm & P2 & Zd & M2). cbn [w1 w_pos w_mem] in P2, Zd, M2.
  exists d, m. split; [exact Hd|]. split; [exact E|].
  destruct HC as [HC _]. cbn [lz4] in HC. pose proof (lib_len c HC bs d) as HL.
  set (q := firstn (Z.to_nat m) (snd (c_compress c bs d))).
  unfold abind, put_at in HE.
  assert (Z2 : zlen (w_mem w2) = zlen (w_mem w)). { rewrite M2. unfold zlen in *. rewrite app_length, firstn_length, HL. lia. }
  assert (Z4 : zlen (le_bytes 4 m) = 4) by (unfold zlen; rewrite le_bytes_length; reflexivity).
  rewrite wr_ok in HE by lia. cbn [ret] in HE. apply pair_equal_spec in HE. destruct HE as [_ <-].
  destruct HW as (_ & HP & HF). cbn [w_pos w_mem] in HP, HF. rewrite P2 in HP, HF.
  assert (Lq : length q = Z.to_nat m) by (unfold q; rewrite firstn_length, HL; unfold zlen in Hm; lia).
  assert (Zp : zlen (frame p) = 4 + zlen p) by (unfold frame; rewrite zlen_app; unfold zlen at 1; rewrite le_bytes_length; reflexivity).
  assert (Hpm : zlen p = m) by lia.
  apply (f_equal (skipn (Z.to_nat (w_pos w) + 4))) in HF.
  assert (A : skipn (Z.to_nat (w_pos w) + 4) (firstn (Z.to_nat (w_pos w)) (w_mem w) ++ frame p) = p).
  { unfold frame. rewrite app_assoc. rewrite skipn_app. rewrite app_length, firstn_length, le_bytes_length.
    replace (Z.to_nat (w_pos w) + 4 - _)%nat with O by (unfold zlen in *; lia). rewrite skipn_all2; [reflexivity|]. rewrite app_length, firstn_length, le_bytes_length. unfold zlen in *. lia. }
  rewrite A in HF. rewrite <- HF. clear HF A. rewrite skipn_firstn_comm. rewrite le_bytes_length.
  rewrite app_assoc, skipn_app. rewrite app_length, firstn_length, le_bytes_length.
  replace (Z.to_nat (w_pos w) + 4 - _)%nat with O by (unfold zlen in *; lia).
  rewrite (skipn_all2 (firstn _ (w_mem w2) ++ _)) by (rewrite app_length, firstn_length, le_bytes_length; unfold zlen in *; lia). cbn [app skipn].
  assert (Lf : length (firstn (Z.to_nat (w_pos w + 4)) (w_mem w)) = (Z.to_nat (w_pos w) + 4)%nat).
  { clear - Hav Hw0. rewrite firstn_length. unfold zlen in *. rewrite Nat.min_l by lia. lia. }
  rewrite M2. rewrite skipn_app. rewrite Lf, Nat.sub_diag. rewrite skipn_all2 by (rewrite Lf; lia). cbn [app skipn]. unfold q. f_equal. lia.
Qed.

Lemma chunk_comp L opt bs w n w' : libs_ok L -> bytes bs -> w_ok w -> WriteStage1Chunk L opt bs w = (Ok n, w') ->
  exists p, comp_in L opt bs p /\ wrote w w' (frame p).
Proof.
  intros HL Hb Hw HE. destruct (write_chunk_spec L opt bs w _ _ HL Hb Hw HE) as (_ & _ & O1 & _). destruct (O1 n eq_refl) as (p & Hp & _ & _ & _ & _ & HW).
  exists p. split; [|exact HW]. destruct HL as [H4 HZ]. unfold WriteStage1Chunk in HE. destruct (UINT32_MAX <? zlen bs); [discriminate HE|].
  destruct opt as [| | |x]; cbn [comp_in payload] in *; [exact Hp| | |contradiction].
  - eapply (chunk_made (lz4 L) bs w n w' p (CompressChunk L COMP_LZ4 bs)); auto; [split; exact H4|].
    intros w0 m w1 HC. unfold CompressChunk in HC. destruct (UINT32_MAX <? zlen bs); [discriminate HC|]. destruct (_ || _); [discriminate HC|]. exact HC.
  - eapply (chunk_made (zstd L) bs w n w' p (CompressChunk L COMP_ZSTD bs)); auto; [split; exact HZ|].
    intros w0 m w1 HC. unfold CompressChunk in HC. destruct (UINT32_MAX <? zlen bs); [discriminate HC|]. exact HC.
Qed.

Lemma all_comp L opt bss : libs_ok L -> Forall bytes bss -> forall w n w', w_ok w -> write_all L opt bss w = (Ok n, w') ->
  exists ps, Forall2 (comp_in L opt) bss ps /\ n = zlen (concat (map frame ps)) /\ wrote w w' (concat (map frame ps)).
Proof.
  intros HL. induction bss as [|bs bss IH]; intros Hb w n w' Hw HE; cbn [write_all] in HE.
  - apply pair_equal_spec in HE. destruct HE as [[= <-] <-]. exists []. split; [constructor|]. split; [reflexivity|]. apply wrote_nil, Hw.
  - inversion Hb as [|? ? Hb1 Hb2]; subst. unfold abind in HE at 1. destruct (WriteStage1Chunk L opt bs w) as [r1 w1] eqn:E1. destruct r1 as [n1| |]; [|discriminate HE|discriminate HE].
    destruct (chunk_comp L opt bs w n1 w1 HL Hb1 Hw E1) as (p & Hp & Wp).
    destruct (write_chunk_spec L opt bs w _ _ HL Hb1 Hw E1) as (X1 & _ & O1 & _). destruct (O1 n1 eq_refl) as (p' & _ & _ & _ & -> & _ & Wp').
    rewrite (wrote_one _ _ _ _ Wp' Wp) in HE.
    unfold abind in HE. destruct (write_all L opt bss w1) as [r2 w2] eqn:E2. destruct r2 as [n2| |]; [|discriminate HE|discriminate HE].
    destruct (IH Hb2 w1 n2 w2 ltac:(apply X1) E2) as (ps & Hps & -> & Wps). cbn [ret] in HE. apply pair_equal_spec in HE. destruct HE as [[= <-] <-].
    exists (p :: ps). split; [constructor; assumption|]. cbn [map concat]. split; [rewrite zlen_app; reflexivity|]. eapply wrote_trans; eauto.
Qed.
Lemma comp_all_one L opt bss ps1 ps2 : steady L opt -> Forall bytes bss -> Forall2 (comp_in L opt) bss ps1 -> Forall2 (comp_in L opt) bss ps2 -> ps1 = ps2.
Proof.
  intros HS Hb H. revert ps2. induction H as [|bs p bss ps1 H1 H IH]; intros ps2 H2; inversion H2; subst; [reflexivity|]. inversion Hb; subst.
  f_equal; [eapply comp_in_one; eauto|]. now apply IH.
Qed.

(** ** Both overloads *)
Lemma view_made_any ops L ppc probe e cloud : enc_ready e -> libs_ok L -> layout_ok (e_info e) -> known_enc (e_info e) ->
  bytes cloud -> (0 < ppc)%nat -> v5_limits ppc (e_info e) ->
  exists bss, Forall bytes bss /\ forall h out wh total out' e', bytes h -> bytes out -> encode_view ops L ppc probe (mkEnc (e_info e) h (e_es e) (e_sts e)) cloud out wh = (Ok total, out', e') ->
    exists ps, Forall2 (comp_in L (i_comp (e_info e))) bss ps /\
      firstn (Z.to_nat total) out' = (if wh then h else []) ++ concat (map frame ps) /\
      total = zlen (if wh then h else []) + zlen (concat (map frame ps)).
Proof.
  intros HR HLi HL HK Hc Hp Hv5. set (i := e_info e) in *. assert (Hs0 : 0 < i_step i) by apply HL.
  assert (NO : (forall h out wh total out' e', bytes h -> bytes out -> encode_view ops L ppc probe (mkEnc i h (e_es e) (e_sts e)) cloud out wh <> (Ok total, out', e')) ->
    exists bss, Forall bytes bss /\ forall h out wh total out' e', bytes h -> bytes out -> encode_view ops L ppc probe (mkEnc i h (e_es e) (e_sts e)) cloud out wh = (Ok total, out', e') ->
    exists ps, Forall2 (comp_in L (i_comp i)) bss ps /\
      firstn (Z.to_nat total) out' = (if wh then h else []) ++ concat (map frame ps) /\
      total = zlen (if wh then h else []) + zlen (concat (map frame ps))).
  { intros H. exists []. split; [constructor|]. intros h out wh total out' e' Hh Ho E. exact (False_ind _ (H h out wh total out' e' Hh Ho E)). }
  destruct (Z.eqb_spec (zlen cloud mod i_step i) 0) as [Hmod|Hmod].
  2:{ apply NO. intros h out wh total out' e' _ _ E. unfold encode_view in E. cbn [e_info e_hdr e_es e_sts] in E. fold i in E. replace (i_step i =? 0) with false in E by lia.
      replace (zlen cloud mod i_step i =? 0) with false in E by lia. discriminate E. }
  set (n := (length cloud / Z.to_nat (i_step i))%nat) in *.
  assert (Hlen : length cloud = (n * Z.to_nat (i_step i))%nat).
  { unfold n. pose proof (Nat.div_mod (length cloud) (Z.to_nat (i_step i)) ltac:(lia)) as HDM.
    assert (Hm0 : (length cloud mod Z.to_nat (i_step i) = 0)%nat).
    { apply Nat2Z.inj. rewrite Nat2Z.inj_mod by lia. rewrite Z2Nat.id by lia. exact Hmod. }
    rewrite Hm0 in HDM. rewrite Nat.mul_comm. lia. }
  destruct (MaxSerializedPointSize i) as [m| |] eqn:HM.
  2,3: apply NO; intros h out wh total out' e' _ _ E; destruct (encode_max _ _ _ _ _ _ _ _ _ _ _ E) as (m & Hm); cbn [e_info] in Hm; fold i in Hm; congruence.
  assert (HP0 : (exists es afs, UsesV5Codec i = false \/ BuildV5Plan i = Ok (es, afs)) \/ (UsesV5Codec i = true /\ forall es afs, BuildV5Plan i <> Ok (es, afs))).
  { destruct (UsesV5Codec i); [|left; exists [], []; auto]. destruct (BuildV5Plan i) as [[es afs]| |]; [left; eauto|right; split; [reflexivity|discriminate]|right; split; [reflexivity|discriminate]]. }
  destruct HP0 as [HP0|[HU HP0]].
  2:{ apply NO. intros h out wh total out' e' _ _ E. destruct (encode_plan _ _ _ _ _ _ _ _ _ _ _ E HU) as (es & afs & H). cbn [e_info] in H. fold i in H. exact (HP0 _ _ H). }
  destruct (body_spec ops L ppc probe e cloud n m HR HL HK Hc Hlen Hp Hv5 HM HP0) as (ms & bss & HS & HBM & HBody). fold i in HS, HBM, HBody.
  assert (Hbb : Forall bytes bss) by (eapply stage1_forall; [|exact HS]; intros c k bs; apply chunk_rel_bytes).
  exists bss. split; [exact Hbb|]. intros h out wh total out' e' Hh Ho HE. unfold encode_view in HE. cbn [e_info e_hdr e_es e_sts] in HE. fold i in HE. replace (i_step i =? 0) with false in HE by lia.
  replace (zlen cloud mod i_step i =? 0) with true in HE by lia. cbn [negb] in HE. fold n in HE.
  destruct (MaxCompressedSize L ppc i n 0) as [need| |] eqn:EM; [|discriminate HE|discriminate HE].
  set (hdr := if wh then h else []) in *.
  assert (Hhb : bytes hdr) by (unfold hdr; destruct wh; [exact Hh|constructor]).
  destruct (Z.ltb_spec (zlen out) (need + zlen hdr)) as [|Hroom]; [discriminate HE|].
  assert (Hneed : 0 <= need) by (eapply max_size_nonneg; eauto; lia).
  destruct (write_header hdr out (e_sts e) Hhb Ho ltac:(lia)) as (w1 & HK1 & HW1).
  change (mkEnc i h (e_es e) (e_sts e)) with (mkEnc (e_info e) h (e_es e) (e_sts e)) in HE.
  unfold encode_write in HE. change (encode_body ops L ppc probe (mkEnc (e_info e) h (e_es e) (e_sts e)) cloud n) with (encode_body ops L ppc probe e cloud n) in HE. rewrite (HK1 _ (fun _ => perform m <- encode_body ops L ppc probe e cloud n ; ret (zlen hdr + m))) in HE.
  assert (Hw0 : w_ok (mkW 0 out (e_sts e))) by (split; cbn; [pose proof (zlen_nonneg out); lia|exact Ho]).
  assert (Hw1 : w_ok w1) by apply HW1.
  assert (HsT : w_sts w1 = e_sts e) by (destruct HW1 as ((_ & _ & H & _) & _); exact H).
  destruct (HBody w1) as (sts' & EB). { intros HU. rewrite HsT. apply HR, HU. }
  unfold abind in HE. rewrite EB in HE. unfold lift in HE.
  destruct (write_all L (i_comp i) bss w1) as [r2 w2] eqn:EW. cbn [fst snd] in HE. destruct r2 as [t| |]; [|discriminate HE|discriminate HE].
  destruct (all_comp L (i_comp i) bss HLi Hbb w1 t w2 Hw1 EW) as (ps & Hps & -> & HWa).
  cbn [ret] in HE. apply pair_equal_spec in HE. destruct HE as [HE _]. apply pair_equal_spec in HE. destruct HE as [HE <-]. cbn [with_sts w_mem].
  assert (Et : zlen hdr + zlen (concat (map frame ps)) = total) by congruence. clear HE. subst total.
  pose proof (wrote_trans _ _ _ _ _ Hw0 HW1 HWa) as (HX2 & HP2 & HF2). cbn [w_pos] in HP2. rewrite zlen_app, Z.add_0_l in HP2.
  exists ps. split; [exact Hps|]. split; [|reflexivity]. rewrite <- HP2. exact HF2.
Qed.
Lemma vec_view ops L ppc probe e cloud out total out' e' : bytes out -> bytes (e_hdr e) -> libs_ok L ->
  encode_vec ops L ppc probe e cloud out = (Ok total, out', e') ->
  exists o t added e2, bytes o /\ encode_view ops L ppc probe e cloud o false = (Ok added, t, e2) /\
    total = zlen (e_hdr e) + added /\ out' = resize total (e_hdr e ++ t).
Proof.
  intros Ho Hh HLi HE. unfold encode_vec in HE.
  destruct (_ =? 0); [discriminate HE|]. destruct (negb _); [discriminate HE|].
  destruct (MaxCompressedSize L ppc (e_info e) _ _) as [sz| |] eqn:EM; [|discriminate HE|discriminate HE].
  assert (Hsz : zlen (e_hdr e) <= sz) by (eapply max_size_nonneg; [exact HLi|apply zlen_nonneg|exact EM]). pose proof (zlen_nonneg (e_hdr e)) as Hz.
  assert (HW : exists o1, wr 0 (e_hdr e) (resize sz out) = Ok o1 /\ bytes o1 /\ firstn (length (e_hdr e)) o1 = e_hdr e).
  { rewrite wr_ok by (rewrite ?resize_length by lia; lia). eexists. split; [reflexivity|]. split.
    - rewrite !bytes_app. split; [apply bytes_firstn, resize_bytes, Ho|]. split; [exact Hh|]. apply bytes_skipn, resize_bytes, Ho.
    - change (Z.to_nat 0) with 0%nat. cbn [firstn app]. rewrite firstn_app, Nat.sub_diag, firstn_O, app_nil_r. apply firstn_all. }
  destruct HW as (o1 & HWr & HWb & HWf). rewrite HWr in HE.
  destruct (encode_view ops L ppc probe e cloud (skipn (length (e_hdr e)) o1) false) as [[r1 tail] e1] eqn:EV.
  destruct r1 as [added| |]; [|discriminate HE|discriminate HE]. rewrite HWf in HE.
  exists (skipn (length (e_hdr e)) o1), tail, added, e1. split; [apply bytes_skipn, HWb|]. split; [exact EV|].
  apply pair_equal_spec in HE. destruct HE as [HE _]. apply pair_equal_spec in HE. destruct HE as [HE <-].
  assert (Et : zlen (e_hdr e) + added = total) by congruence. rewrite Et. split; reflexivity.
Qed.

Lemma produces_made_any ops L ppc probe e cloud : enc_ready e -> libs_ok L -> layout_ok (e_info e) -> known_enc (e_info e) ->
  bytes cloud -> (0 < ppc)%nat -> v5_limits ppc (e_info e) ->
  exists bss, Forall bytes bss /\ forall h hdr body, bytes h -> produces ops L ppc probe (mkEnc (e_info e) h (e_es e) (e_sts e)) cloud hdr body ->
    exists ps, Forall2 (comp_in L (i_comp (e_info e))) bss ps /\ body = concat (map frame ps).
Proof.
  intros HR HLi HL HK Hc Hp Hv5. destruct (view_made_any ops L ppc probe e cloud HR HLi HL HK Hc Hp Hv5) as (bss & Hbb & HV). exists bss. split; [exact Hbb|].
  intros h hdr body Hh [(out & wh & total & out' & e' & Ho & HE & E1 & E2 & E3)|(out & total & out' & e' & Ho & HE & E1 & E2 & E3)].
  - destruct (HV h out wh total out' e' Hh Ho HE) as (ps & Hps & HF & _). exists ps. split; [exact Hps|]. rewrite E1, E3 in HF. now apply app_inv_head in HF.
  - destruct (vec_view _ _ _ _ _ _ _ _ _ _ Ho (Hh : bytes (e_hdr (mkEnc (e_info e) h (e_es e) (e_sts e)))) HLi HE) as (o & t & added & e2 & Hob & EV & Et & Eo). cbn [e_hdr] in *. destruct (HV h o false added t e2 Hh Hob EV) as (ps & Hps & HF & HT).
    cbn [app] in HF, HT. change (zlen []) with 0 in HT. rewrite Z.add_0_l in HT. exists ps. split; [exact Hps|].
    assert (Hl : (Z.to_nat added <= length t)%nat). { apply (f_equal (@length Z)) in HF. rewrite firstn_length in HF. unfold zlen in HT. lia. }
    assert (ER : out' = h ++ concat (map frame ps)).
    { rewrite Eo, Et. unfold resize. pose proof (zlen_nonneg h) as Hz. assert (Ha : 0 <= added) by (rewrite HT; apply zlen_nonneg).
      replace (Z.to_nat (zlen h + added) - _)%nat with O by (rewrite app_length; unfold zlen in *; lia). cbn [repeat]. rewrite app_nil_r.
      rewrite firstn_app. rewrite firstn_all2 by (unfold zlen in *; lia). f_equal. rewrite <- HF. f_equal. unfold zlen in *. lia. }
    rewrite E1, E3 in ER. now apply app_inv_head in ER.
Qed.
Lemma produces_made ops L ppc probe e cloud : enc_ready e -> libs_ok L -> layout_ok (e_info e) -> known_enc (e_info e) ->
  bytes cloud -> bytes (e_hdr e) -> (0 < ppc)%nat -> v5_limits ppc (e_info e) ->
  exists bss, Forall bytes bss /\ forall hdr body, produces ops L ppc probe e cloud hdr body ->
    exists ps, Forall2 (comp_in L (i_comp (e_info e))) bss ps /\ body = concat (map frame ps).
Proof.
  intros HR HLi HL HK Hc Hh Hp Hv5. destruct (produces_made_any ops L ppc probe e cloud HR HLi HL HK Hc Hp Hv5) as (bss & Hbb & HV). exists bss. split; [exact Hbb|].
  intros hdr body HP. apply (HV (e_hdr e) hdr body Hh). destruct e. exact HP.
Qed.
