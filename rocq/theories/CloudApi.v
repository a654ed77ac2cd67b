(** The public API on whole clouds: round trip, framing, size bound. *)
From Verif Require Import Base BaseFacts Varint VarintFacts Types Floats Fields Codec V5 Api Spec LibSpec.
From Verif Require Import GorillaFacts FieldFacts WriteFacts CodecFacts BuildFacts RunFacts SectionFacts PaletteFacts V5Facts ChunkV5Facts Stage1Facts ApiFacts CloudFacts RoundTrip CloudRT LocalFacts.

(** ** MaxCompressedSize is enough *)
(** Worst stage-1 size of a chunk of [k] points assumed by MaxCompressedSize. *)
Definition assumed (i : info) (m : Z) (k : Z) : Z := k * m + (if UsesV5Codec i then zlen (i_fields i) * 32 + 1024 else 0).
Definition size_limit (opt : comp_opt) : Z := match opt with COMP_NONE => UINT32_MAX | _ => LIB_MAX end.
Lemma rooms_bound L i m ppc (P : nat -> nat -> list Z -> Prop) : libs_ok L -> (0 < ppc)%nat -> 0 <= m ->
  assumed i m (Z.of_nat ppc) <= size_limit (i_comp i) ->
  forall c left bss t, (forall c' k bs, (0 < k <= ppc)%nat -> (c <= c')%nat -> P c' k bs -> zlen bs <= assumed i m (Z.of_nat k)) ->
  stage1 P ppc c left bss -> chunks_bound L i m ppc (chunks_count ppc left) left = Ok t ->
  rooms L (i_comp i) bss <= t /\ Forall (fun bs => zlen bs <= size_limit (i_comp i)) bss.
Proof.
  intros [H4 HZ] Hp Hm Hlim c left bss t HP HS. revert t. induction HS as [c|c left bs bss Hl HPc HS IH]; intros t.
  - rewrite (chunks_count_0 ppc Hp). cbn [chunks_bound rooms fold_right]. intros [= <-]. split; [lia|constructor].
  - rewrite (chunks_count_S ppc left Hp Hl). cbn [chunks_bound]. set (k := Nat.min left ppc) in *. intros H.
    apply bind_ok in H. destruct H as (a & Ha & H). apply bind_ok in H. destruct H as (b & Hb & H). injection H as <-.
    destruct (IH) with (t := b) as (I1 & I2); auto; [intros; apply (HP c'); auto; lia|].
    pose proof (HP c k bs ltac:(unfold k; lia) (le_n c) HPc) as Hz. pose proof (zlen_nonneg bs) as Hzn.
    assert (Hle : assumed i m (Z.of_nat k) <= assumed i m (Z.of_nat ppc)) by (unfold assumed; assert (Z.of_nat k <= Z.of_nat ppc) by (unfold k; lia); nia).
    cbn [rooms fold_right]. fold (rooms L (i_comp i) bss). split; [|constructor; [lia|exact I2]].
    enough (room L (i_comp i) (zlen bs) <= a) by lia.
    unfold chunk_bound in Ha. fold (assumed i m (Z.of_nat k)) in Ha. unfold room. destruct (i_comp i); cbn [size_limit] in *; try discriminate.
    + injection Ha as <-. lia.
    + destruct (INT_MAX <? _); [discriminate|]. injection Ha as <-. pose proof (lib_mono _ H4 (zlen bs) (assumed i m (Z.of_nat k))). lia.
    + injection Ha as <-. pose proof (lib_mono _ HZ (zlen bs) (assumed i m (Z.of_nat k))). lia.
Qed.

Lemma write_all_le L opt bss : libs_ok L -> Forall bytes bss -> forall w n w', w_ok w -> write_all L opt bss w = (Ok n, w') -> n <= rooms L opt bss.
Proof.
  intros HL. induction bss as [|bs bss IH]; intros Hb w n w' Hw HE; cbn [write_all] in HE.
  - apply pair_equal_spec in HE. destruct HE as [[= <-] _]. reflexivity.
  - inversion Hb as [|? ? Hb1 Hb2]; subst. unfold abind in HE at 1. destruct (WriteStage1Chunk L opt bs w) as [r1 w1] eqn:E1.
    destruct (write_chunk_spec L opt bs w r1 w1 HL Hb1 Hw E1) as (X1 & _ & O1 & _). destruct r1 as [n1| |]; [|discriminate HE|discriminate HE].
    destruct (O1 n1 eq_refl) as (p & _ & _ & _ & _ & Hn & _). unfold abind in HE. destruct (write_all L opt bss w1) as [r2 w2] eqn:E2.
    destruct r2 as [n2| |]; [|discriminate HE|discriminate HE]. cbn [ret] in HE. apply pair_equal_spec in HE. destruct HE as [[= <-] _].
    specialize (IH Hb2 w1 n2 w2 ltac:(apply X1) E2). cbn [rooms fold_right]. fold (rooms L opt bss). lia.
Qed.

(** What encode needs, beyond a large enough buffer, not to throw. *)
Definition encodable (ppc : nat) (i : info) (out : list Z) : Prop :=
  (exists m, MaxSerializedPointSize i = Ok m /\ assumed i m (Z.of_nat ppc) <= size_limit (i_comp i)) /\
  (i_comp i = COMP_LZ4 -> zlen out <= INT_MAX).

Lemma encode_total ops L ppc probe e cloud out (wh : bool) need m : enc_ready e -> libs_ok L -> layout_ok (e_info e) -> known_enc (e_info e) ->
  bytes cloud -> bytes out -> bytes (e_hdr e) -> (0 < ppc)%nat -> v5_limits ppc (e_info e) ->
  zlen cloud mod i_step (e_info e) = 0 ->
  MaxCompressedSize L ppc (e_info e) (length cloud / Z.to_nat (i_step (e_info e)))%nat (if wh then zlen (e_hdr e) else 0) = Ok need -> need <= zlen out ->
  MaxSerializedPointSize (e_info e) = Ok m -> assumed (e_info e) m (Z.of_nat ppc) <= size_limit (i_comp (e_info e)) ->
  (i_comp (e_info e) = COMP_LZ4 -> zlen out <= INT_MAX) ->
  (UsesV5Codec (e_info e) = true -> exists es afs, BuildV5Plan (e_info e) = Ok (es, afs)) ->
  (forall (ms : list amode) (c k : nat) (bs : list Z), (UsesV5Codec (e_info e) = true -> forall es afs, BuildV5Plan (e_info e) = Ok (es, afs) ->
       Forall2 (fun a mo => best_mode a (firstn probe (column a (Z.to_nat (i_step (e_info e))) (Nat.min (length cloud / Z.to_nat (i_step (e_info e))) ppc) cloud)) mo) afs ms) ->
     (0 < k <= ppc)%nat -> (c * ppc + k <= length cloud / Z.to_nat (i_step (e_info e)))%nat -> (k = ppc \/ c * ppc + k = length cloud / Z.to_nat (i_step (e_info e)))%nat ->
     chunk_rel ops (e_info e) ppc cloud ms c k bs -> zlen bs <= assumed (e_info e) m (Z.of_nat k)) ->
  exists total out' e', encode_view ops L ppc probe e cloud out wh = (Ok total, out', e') /\ total <= need.
Proof.
  intros HR HLi HL HK Hc Ho Hh Hp Hv5 Hmod HMC Hroom HM Hlim HLz HPl HPB. set (i := e_info e) in *. unfold encode_view. fold i.
  assert (Hs0 : 0 < i_step i) by apply HL. replace (i_step i =? 0) with false by lia.
  rewrite Hmod. cbn [negb Z.eqb]. set (n := (length cloud / Z.to_nat (i_step i))%nat) in *.
  assert (Hlen : length cloud = (n * Z.to_nat (i_step i))%nat).
  { unfold n. pose proof (Nat.div_mod (length cloud) (Z.to_nat (i_step i)) ltac:(lia)) as HDM.
    assert (Hm0 : (length cloud mod Z.to_nat (i_step i) = 0)%nat).
    { apply Nat2Z.inj. rewrite Nat2Z.inj_mod by lia. rewrite Z2Nat.id by lia. exact Hmod. }
    rewrite Hm0 in HDM. rewrite Nat.mul_comm. lia. }
  unfold MaxCompressedSize in HMC |- *. replace (i_step i =? 0) with false in HMC |- * by lia. rewrite HM in HMC |- *. cbn [bind] in HMC |- *.
  apply bind_ok in HMC. destruct HMC as (t & Ht & HMC). injection HMC as <-. rewrite Ht. cbn [bind].
  set (hdr := if wh then e_hdr e else []).
  assert (Hhb : bytes hdr) by (unfold hdr; destruct wh; [exact Hh|constructor]).
  assert (Hhz : (if wh then zlen (e_hdr e) else 0) = zlen hdr) by (unfold hdr; destruct wh; reflexivity). rewrite Hhz in Hroom.
  replace (zlen out <? 0 + t + zlen hdr) with false by lia.
  assert (Ht0 : 0 <= t).
  { pose proof (max_size_nonneg L ppc i n 0 t HLi (Z.le_refl 0)) as H. apply H. unfold MaxCompressedSize. replace (i_step i =? 0) with false by lia. rewrite HM. cbn [bind]. now rewrite Ht. }
  destruct (write_header hdr out (e_sts e) Hhb Ho ltac:(lia)) as (w1 & HK1 & HW1).
  unfold encode_write. rewrite (HK1 _ (fun _ => perform m <- encode_body ops L ppc probe e cloud n ; ret (zlen hdr + m))).
  assert (Hw1 : w_ok w1) by apply HW1.
  assert (HsT : w_sts w1 = e_sts e) by (destruct HW1 as ((_ & _ & H & _) & _); exact H).
  assert (HP0 : exists es afs, UsesV5Codec i = false \/ BuildV5Plan i = Ok (es, afs)).
  { destruct (UsesV5Codec i); [|exists [], []; auto]. destruct (HPl eq_refl) as (es & afs & H). eauto. }
  destruct (body_spec ops L ppc probe e cloud n m HR HL HK Hc Hlen Hp Hv5 HM HP0) as (ms & bss & HS & HBM & HBody). fold i in HS, HBM, HBody.
  destruct (HBody w1) as (sts' & EB). { intros HU. rewrite HsT. apply HR, HU. }
  unfold abind. rewrite EB. unfold lift.
  assert (Hbb : Forall bytes bss) by (eapply stage1_forall; [|exact HS]; intros c k bs; apply chunk_rel_bytes).
  assert (HST : exists r w2, write_all L (i_comp i) bss w1 = (Ok r, w2) /\ r <= t).
  { destruct (Nat.eq_dec n 0) as [Hn0|Hn0]; [rewrite Hn0 in HS; inversion HS; [|lia]; exists 0, w1; split; [reflexivity|exact Ht0]|].
    assert (HRB : rooms L (i_comp i) bss <= t /\ Forall (fun bs => zlen bs <= size_limit (i_comp i)) bss).
    { eapply (rooms_bound L i m ppc (fun c k bs => chunk_rel ops i ppc cloud ms c k bs /\ (c * ppc + k <= n)%nat /\ (k = ppc \/ c * ppc + k = n)%nat) HLi Hp (max_point_nonneg i m HM) Hlim 0%nat n bss t); [| |exact Ht].
      - intros c k bs Hk _ (H1 & H2 & H3). apply (HPB ms c k bs); auto. intros HU es afs HB. destruct (HBM HU Hn0) as (es' & afs' & HB' & HF). rewrite HB in HB'. injection HB' as <- <-. exact HF.
      - clear - HS Hp. assert (HG : forall c left bss, stage1 (chunk_rel ops i ppc cloud ms) ppc c left bss -> (left = 0 \/ c * ppc + left = n)%nat ->
            stage1 (fun c k bs => chunk_rel ops i ppc cloud ms c k bs /\ (c * ppc + k <= n)%nat /\ (k = ppc \/ c * ppc + k = n)%nat) ppc c left bss).
          { intros c left bss' H. induction H as [|c left bs bss' Hl HPc H IH]; intros Hn; [constructor|]. destruct Hn as [|Hn]; [lia|]. constructor; auto.
            - split; [exact HPc|]. split; [lia|]. destruct (Nat.le_gt_cases ppc left); [left|right]; lia.
            - apply IH. destruct (Nat.le_gt_cases left ppc); [left|right]; nia. }
          apply HG; [exact HS|right; lia]. }
    destruct HRB as [HRB1 HRB2].
    pose proof (wrote_avail _ _ _ HW1) as Hav. unfold avail in Hav at 2. cbn [w_pos w_mem] in Hav.
    destruct (write_all_total L (i_comp i) bss HLi Hbb w1 Hw1) as (r & w2 & E); [|lia|exists r, w2; split; [exact E|]; pose proof (write_all_le L (i_comp i) bss HLi Hbb w1 r w2 Hw1 E); lia].
    eapply Forall_impl; [|exact HRB2]. intros bs Hbs. unfold small. destruct (i_comp i) eqn:EC; cbn [size_limit] in Hbs; unfold LIB_MAX, UINT32_MAX in *.
    - split; [lia|exact I].
    - split; [lia|]. split; [lia|]. pose proof (zlen_nonneg hdr). specialize (HLz eq_refl). lia.
    - split; lia.
    - exfalso. clear - Ht Hp EC Hn0. rewrite (chunks_count_S ppc n Hp) in Ht by lia. cbn [chunks_bound] in Ht. unfold chunk_bound in Ht. rewrite EC in Ht. discriminate Ht. }
  destruct HST as (r & w2 & E & Hr). rewrite E. cbn [fst snd ret]. eexists _, _, _. split; [reflexivity|lia].
Qed.

(** ** Facts needed for both encode overloads *)
Lemma encode_plan ops L ppc probe e cloud out wh total out' e' : encode_view ops L ppc probe e cloud out wh = (Ok total, out', e') ->
  UsesV5Codec (e_info e) = true -> exists es afs, BuildV5Plan (e_info e) = Ok (es, afs).
Proof.
  unfold encode_view. intros H HU. destruct (_ =? 0); [discriminate|]. destruct (negb _); [discriminate|]. destruct (MaxCompressedSize _ _ _ _ _) as [need| |]; try discriminate.
  destruct (_ <? _); [discriminate|]. unfold encode_write, abind in H. destruct (put_at _ _ _) as [[[]| |] w1]; try discriminate H. destruct (advance _ _) as [[[]| |] w2]; try discriminate H.
  unfold encode_body in H. rewrite HU in H. destruct (V5StageBufferSize _ _) as [cap| |], (BuildV5Plan (e_info e)) as [[es afs]| |]; try discriminate H. eauto.
Qed.
Lemma encode_max ops L ppc probe e cloud out wh total out' e' : encode_view ops L ppc probe e cloud out wh = (Ok total, out', e') ->
  exists m, MaxSerializedPointSize (e_info e) = Ok m.
Proof.
  unfold encode_view. intros H. destruct (i_step (e_info e) =? 0) eqn:E0; [discriminate|]. destruct (negb _); [discriminate|]. destruct (MaxCompressedSize _ _ _ _ _) as [need| |] eqn:EM; try discriminate.
  unfold MaxCompressedSize in EM. rewrite E0 in EM. destruct (MaxSerializedPointSize (e_info e)) as [m| |]; try discriminate EM. eauto.
Qed.
(** Both overloads of encode: the header and the chunks. *)
Definition chunks_of (ops : float_ops) (L : libs) (ppc probe : nat) (i : info) (cloud : list Z) (n : nat) (ms : list amode) (bss ps : list (list Z)) : Prop :=
  length cloud = (n * Z.to_nat (i_step i))%nat /\ stage1 (chunk_rel ops i ppc cloud ms) ppc 0 n bss /\
  Forall2 (fun bs p => payload L (i_comp i) bs p /\ bytes p /\ zlen p <= UINT32_MAX) bss ps /\
  (UsesV5Codec i = true -> n <> O -> exists es afs, BuildV5Plan i = Ok (es, afs) /\
     Forall2 (fun a mo => best_mode a (firstn probe (column a (Z.to_nat (i_step i)) (Nat.min n ppc) cloud)) mo) afs ms) /\
  (UsesV5Codec i = true -> exists es afs, BuildV5Plan i = Ok (es, afs)) /\ (exists m, MaxSerializedPointSize i = Ok m).
Lemma encode_view_chunks ops L ppc probe e cloud out wh total out' e' : enc_ready e -> libs_ok L -> layout_ok (e_info e) -> known_enc (e_info e) ->
  bytes cloud -> bytes out -> bytes (e_hdr e) -> (0 < ppc)%nat -> v5_limits ppc (e_info e) ->
  encode_view ops L ppc probe e cloud out wh = (Ok total, out', e') ->
  exists n ms bss ps, chunks_of ops L ppc probe (e_info e) cloud n ms bss ps /\
    firstn (Z.to_nat total) out' = (if wh then e_hdr e else []) ++ concat (map frame ps) /\
    total = zlen (if wh then e_hdr e else []) + zlen (concat (map frame ps)) /\ total <= zlen out'.
Proof.
  intros HR HLi HL HK Hc Ho Hh Hp Hv5 HE.
  destruct (encode_view_spec ops L ppc probe e cloud out wh (Ok total) out' e' HR HLi HL HK Hc Ho Hh Hp Hv5 HE) as (_ & _ & _ & HS).
  destruct (HS total eq_refl) as (n & ms & bss & ps & A1 & A2 & A3 & A4 & A5 & A6 & A7). exists n, ms, bss, ps. split; [|auto].
  split; [exact A1|]. split; [exact A2|]. split; [exact A3|]. split; [exact A4|]. split; [|eapply encode_max; eauto]. intros HU. eapply encode_plan; eauto.
Qed.
Lemma resize_bytes n v : bytes v -> bytes (resize n v).
Proof. intros H. unfold resize. apply bytes_app. split; [now apply bytes_firstn|]. apply Forall_forall. intros x Hx. apply repeat_spec in Hx. subst. unfold is_byte. lia. Qed.
Lemma resize_length n v : 0 <= n -> zlen (resize n v) = n.
Proof. intros H. unfold resize, zlen. rewrite app_length, firstn_length, repeat_length. lia. Qed.
Lemma resize_prefix n v : 0 <= n <= zlen v -> resize n v = firstn (Z.to_nat n) v.
Proof. intros H. unfold resize, zlen in *. replace (Z.to_nat n - length v)%nat with O by lia. cbn. apply app_nil_r. Qed.
Lemma max_size_hdr L ppc i n h sz : MaxCompressedSize L ppc i n h = Ok sz -> MaxCompressedSize L ppc i n 0 = Ok (sz - h).
Proof.
  unfold MaxCompressedSize. destruct (i_step i =? 0); [discriminate|]. intros H. apply bind_ok in H. destruct H as (m & -> & H). cbn [bind].
  apply bind_ok in H. destruct H as (t & -> & H). cbn [bind]. injection H as <-. f_equal. lia.
Qed.
Lemma encode_vec_chunks ops L ppc probe e cloud out r out' e' : enc_ready e -> libs_ok L -> layout_ok (e_info e) -> known_enc (e_info e) ->
  bytes cloud -> bytes out -> bytes (e_hdr e) -> (0 < ppc)%nat -> v5_limits ppc (e_info e) ->
  encode_vec ops L ppc probe e cloud out = (r, out', e') ->
  r <> UB /\ bytes out' /\ forall total, r = Ok total ->
  exists n ms bss ps, chunks_of ops L ppc probe (e_info e) cloud n ms bss ps /\
    out' = e_hdr e ++ concat (map frame ps) /\ total = zlen out'.
Proof.
  intros HR HLi HL HK Hc Ho Hh Hp Hv5 HE. unfold encode_vec in HE.
  destruct (_ =? 0); [injection HE as <- <- <-; split; [discriminate|split; [exact Ho|discriminate]]|].
  destruct (negb _); [injection HE as <- <- <-; split; [discriminate|split; [exact Ho|discriminate]]|].
  destruct (MaxCompressedSize L ppc (e_info e) _ _) as [sz| |] eqn:EM; [|injection HE as <- <- <-; split; [discriminate|split; [exact Ho|discriminate]]|exfalso; eapply max_size_defined; eauto].
  assert (Hsz : zlen (e_hdr e) <= sz) by (eapply max_size_nonneg; [exact HLi|apply zlen_nonneg|exact EM]). pose proof (zlen_nonneg (e_hdr e)) as Hz.
  assert (HW : exists o1, wr 0 (e_hdr e) (resize sz out) = Ok o1 /\ length o1 = length (resize sz out) /\ bytes o1 /\ firstn (length (e_hdr e)) o1 = e_hdr e).
  { destruct (write_header (e_hdr e) (resize sz out) [] Hh (resize_bytes _ _ Ho)) as (w & HK1 & HW1); [rewrite resize_length; lia|].
    specialize (HK1 unit (fun _ => ret tt)). unfold abind, put_at in HK1. cbn [w_mem w_pos w_sts] in HK1.
    destruct (wr 0 (e_hdr e) (resize sz out)) as [o1| |]; [|discriminate HK1|discriminate HK1]. cbn [w_pos w_mem w_sts] in HK1. unfold advance in HK1. destruct (avail _ <? _); [discriminate HK1|].
    cbn [ret w_mem w_pos w_sts] in HK1. apply pair_equal_spec in HK1. destruct HK1 as [_ <-]. destruct HW1 as ((X1 & X2 & _) & X3 & X4). cbn [w_mem w_pos] in *.
    exists o1. split; [reflexivity|]. split; [exact X2|]. split; [apply X1|]. rewrite Z.add_0_l in X4. unfold zlen in X4. rewrite Nat2Z.id in X4. exact X4. }
  destruct HW as (o1 & HWr & HWl & HWb & HWf). rewrite HWr in HE.
  destruct (encode_view ops L ppc probe e cloud (skipn (length (e_hdr e)) o1) false) as [[r1 tail] e1] eqn:EV.
  destruct (encode_view_spec ops L ppc probe e cloud _ false r1 tail e1 HR HLi HL HK Hc (bytes_skipn _ _ HWb) Hh Hp Hv5 EV) as (S1 & S2 & S3 & _).
  assert (HB2 : bytes (firstn (length (e_hdr e)) o1 ++ tail)) by (apply bytes_app; split; [now apply bytes_firstn|exact S3]).
  destruct r1 as [added| |]; [|injection HE as <- <- <-; split; [discriminate|split; [exact HB2|discriminate]]|congruence].
  injection HE as <- <- <-. split; [discriminate|]. split; [now apply resize_bytes|]. intros total [= <-].
  destruct (encode_view_chunks ops L ppc probe e cloud _ false added tail e1 HR HLi HL HK Hc (bytes_skipn _ _ HWb) Hh Hp Hv5 EV) as (n & ms & bss & ps & A1 & A2 & A3 & A4).
  exists n, ms, bss, ps. split; [exact A1|]. rewrite HWf. cbn [app] in A2, A3. rewrite A3 in *. change (zlen []) with 0 in *. rewrite Z.add_0_l in *.
  pose proof (zlen_nonneg (concat (map frame ps))) as Hcz.
  rewrite resize_prefix by (rewrite zlen_app; lia).
  assert (E : firstn (Z.to_nat (zlen (e_hdr e) + zlen (concat (map frame ps)))) (e_hdr e ++ tail) = e_hdr e ++ concat (map frame ps)).
  { replace (Z.to_nat (zlen (e_hdr e) + zlen (concat (map frame ps)))) with (length (e_hdr e) + Z.to_nat (zlen (concat (map frame ps))))%nat by (unfold zlen; lia).
    rewrite firstn_app_2, A2. reflexivity. }
  rewrite E. split; [reflexivity|]. now rewrite zlen_app.
Qed.
