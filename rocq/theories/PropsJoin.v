(** Property C89: encoded clouds put one after the other, and pieces cut out of one. *)
From Verif Require Import Base BaseFacts Varint VarintFacts Types Floats Fields Codec V5 Api Spec LibSpec SeqSpec.
From Verif Require Import GorillaFacts FieldFacts WriteFacts CodecFacts BuildFacts RunFacts SectionFacts PaletteFacts V5Facts ChunkV5Facts Stage1Facts ApiFacts CloudFacts RoundTrip CloudRT LocalFacts SeqFacts ColumnFacts CloudApi Cases PropsField PropsColumn PropsStage1 PropsCloud PropsSize PropsFrame PropsChunks PropsFit WideFacts PropsWide JoinFacts.

(** * Specification *)
(** [i] with another width and height. *)
Definition sized (w h : Z) (i : info) : info :=
  mkInfo (i_fields i) w h (i_step i) (i_enc i) (i_cfg i) (i_comp i) (i_threads i) (i_version i).
(** [body] is what follows the header in some encoding of [cloud] by some encoder object,
    used before or not, that was built for [i] with whatever width and height. *)
Definition part (ops : float_ops) (L : libs) (ppc probe : nat) (i : info) (cloud body : list Z) : Prop :=
  exists w h hdr0 e hdr, bytes hdr0 /\ encoder_of ops L ppc probe (sized w h i) (Ok hdr0) e /\
    produces ops L ppc probe e cloud hdr body.
(** The cloud fills its chunks: a multiple of [ppc] points. *)
Definition whole_chunks (ppc : nat) (i : info) (cloud : list Z) : Prop :=
  exists q, zlen cloud = Z.of_nat (q * ppc) * i_step i.

(** * Decoding joined streams *)
Definition some_chunk (ops : float_ops) (i : info) (ppc : nat) (cloud : list Z) (c k : nat) (bs : list Z) : Prop :=
  exists ms, chunk_rel ops i ppc cloud ms c k bs.
Definition buildable (i : info) : Prop := exists es, (if UsesV5Codec i then (do '(es, _) <- BuildV5Plan i; Ok es) else BuildV4Encoders i) = Ok es.
Lemma decode_any ops L ppc i i' cloud n bss ps buf mem : encode_side ppc i cloud -> decode_side i i' -> deltas_ok ops i ppc cloud ->
  (n * Z.to_nat (i_step i) <= length cloud)%nat -> stage1 (some_chunk ops i ppc cloud) ppc 0 n bss ->
  Forall2 (fun bs p => payload L (i_comp i) bs p /\ bytes p /\ zlen p <= UINT32_MAX) bss ps ->
  buildable i -> (exists m, MaxSerializedPointSize i = Ok m) ->
  zlen (concat (map frame ps)) < 1431260227 -> declares i' n -> Z.of_nat n * i_step i' <= zlen mem ->
  i_comp i = COMP_NONE \/ worst_chunk i (Z.of_nat (Nat.min n ppc)) <= Z.of_nat n * i_step i' <= 2147483647 ->
  exists buf' mem', decode ops L ppc i' (concat (map frame ps)) buf mem = Ok (buf', mem') /\ restored ops i i' n cloud mem mem'.
Proof.
  intros (HL & HK & HCl & Hc) (HS & HO & HC & HRs & HN & Hcm & Hver) HD Hle HSt Hps (es0 & HB0) HM Hz Hdec Hm Hcap.
  pose proof (limits_v5 _ _ HCl) as Hv5. destruct HCl as (Hp & _). pose proof HO as (HO0 & _).
  assert (Hzc : Z.of_nat n * i_step i <= zlen cloud) by (unfold zlen; destruct HL; nia).
  destruct (decoders_exist ops ppc i i' [] 0 [] HS HRs (fun _ => ints_no_skip i' HN) (Nat.le_0_l _) [] (stage1_nil _ _ _) (fun _ => ex_intro _ es0 HB0)) as (ds & minb & HUD).
  assert (HF : Forall (fun bs => fits (i_comp i') bs (dec_cap i')) bss).
  { rewrite Hcm. destruct Hcap as [-> | [Hw Hmax]]; [apply Forall_forall; intros; exact I|]. rewrite (dec_cap_declared i' n Hdec) by lia.
    assert (HF : Forall (fun bs => zlen bs <= Z.of_nat n * i_step i') bss).
    { eapply (stage1_forall (fun c k bs => some_chunk ops i ppc cloud c k bs /\ (k <= Nat.min n ppc)%nat)).
      - intros c k bs [(ms & H1) H2]. pose proof (chunk_worst ops i ppc cloud ms c k bs HK HM ltac:(lia) H1) as H3.
        assert (worst_chunk i (Z.of_nat k) <= worst_chunk i (Z.of_nat (Nat.min n ppc))); [|lia].
        unfold worst_chunk. assert (0 <= worst_point i) by (unfold worst_point; clear; induction (i_fields i) as [|f l IH]; cbn; [lia|destruct (f_type f); lia]). nia.
      - eapply stage1_impl; [|exact Hp|exact HSt]. cbn beta. intros c k bs H1 H2 H3 H4. split; [exact H4|]. nia. }
    clear - HF Hps Hmax. induction Hps as [|bs p bss ps (Hpl & _) _ IH]; [constructor|]. inversion HF as [|x y HF1 HF2]; subst. constructor; [|auto].
    unfold fits. destruct (i_comp i); unfold INT_MAX; try exact I; try lia. contradiction. }
  destruct (dec_loop_ok ops L ppc i i' cloud ds minb (fun c k bs => some_chunk ops i ppc cloud c k bs /\ (c * ppc + k <= n)%nat) Hp) with (c := O) (left := n) (bss := bss) (ps := ps) as (ws & Hws & HDL); auto; [| |lia| |].
  - intros c k bs Hk [(ms & H1) H2].
    apply (chunk_decodes ops ppc i i' cloud n ms HK HS HL HO (fun _ => ints_no_skip i' HN) Hv5 Hc Hle Hp HD ds minb HUD HM c k bs Hk H2 H1).
  - eapply stage1_impl; [|exact Hp|exact HSt]. intros c k bs H1 H2 H3 H4. split; [exact H4|]. cbn in H3. lia.
  - rewrite Hcm. exact Hps.
  - cbn [Nat.mul] in Hws.
    assert (HW : exists mem', do_writes ws mem = Ok mem').
    { destruct (do_writes_ok ws mem) as (mm & HH & _); [|now exists mm]. apply Forall_forall. intros w Hw. apply Hws in Hw. eapply target_in_range; eauto. }
    destruct HW as (mem' & HW). destruct (HDL (S (length (concat (map frame ps)))) buf mem mem') as (buf' & E); [lia|exact Hm|exact HW|].
    exists buf', mem'. split; [|eapply restored_intro; eauto].
    unfold decode. rewrite HUD. cbn [bind].
    rewrite frames_no_magic; [|clear - Hps; induction Hps as [|bs p bss ps (_ & _ & H) _ IH]; constructor; auto|exact Hz].
    replace (3 <=? i_version i') with true by lia. change (u64 (i_width i' * i_height i')) with ((i_width i' * i_height i') mod 18446744073709551616). rewrite Hdec. exact E.
Qed.

Lemma points_eq i (l : list Z) a b : 0 < i_step i -> length l = (a * Z.to_nat (i_step i))%nat -> zlen l = Z.of_nat b * i_step i -> a = b.
Proof.
  unfold zlen. intros Hs -> H. rewrite Nat2Z.inj_mul, Z2Nat.id in H by lia. apply Z.mul_reg_r in H; lia.
Qed.
Lemma points_len i (l : list Z) b : 0 < i_step i -> zlen l = Z.of_nat b * i_step i -> length l = (b * Z.to_nat (i_step i))%nat.
Proof. unfold zlen. intros Hs H. apply Nat2Z.inj. rewrite H, Nat2Z.inj_mul, Z2Nat.id by lia. reflexivity. Qed.
(** The chunks of joined streams are those of the joined cloud. *)
Lemma join_chunks ops L ppc i : layout_ok i -> (0 < ppc)%nat -> (exists m, MaxSerializedPointSize i = Ok m) -> forall clouds bodies, clouds <> [] ->
  Forall2 (fun cloud body => exists probe n ms bss ps, chunks_of ops L ppc probe i cloud n ms bss ps /\ body = concat (map frame ps)) clouds bodies ->
  Forall (whole_chunks ppc i) (removelast clouds) ->
  exists n bss ps, length (concat clouds) = (n * Z.to_nat (i_step i))%nat /\ stage1 (some_chunk ops i ppc (concat clouds)) ppc 0 n bss /\
    Forall2 (fun bs p => payload L (i_comp i) bs p /\ bytes p /\ zlen p <= UINT32_MAX) bss ps /\ concat bodies = concat (map frame ps).
Proof.
  intros HL Hp (m & HM) clouds bodies Hne HF. pose proof (proj1 HL) as Hs. induction HF as [|A b clouds bodies (probe & n & ms & bss & ps & (Hlen & HSt & HP & _) & Hb) HF IH]; [congruence|]. intros HW.
  destruct clouds as [|B clouds].
  - inversion HF; subst. cbn [concat]. rewrite !app_nil_r. exists n, bss, ps. split; [exact Hlen|]. split; [|split; [exact HP|reflexivity]].
    eapply stage1_impl; [|exact Hp|exact HSt]. intros c k bs _ _ _ H. exists ms. exact H.
  - assert (HW' : whole_chunks ppc i A /\ Forall (whole_chunks ppc i) (removelast (B :: clouds))) by (change (removelast (A :: B :: clouds)) with (A :: removelast (B :: clouds)) in HW; inversion HW; auto).
    destruct HW' as [(q & Hq) HW']. destruct (IH ltac:(discriminate) HW') as (n2 & bss2 & ps2 & Hlen2 & HSt2 & HP2 & Hb2). clear IH.
    set (R0 := concat (B :: clouds)) in *. change (concat (A :: B :: clouds)) with (A ++ R0). change (concat (b :: bodies)) with (b ++ concat bodies).
    assert (n = (q * ppc)%nat) by (apply (points_eq i A); assumption). subst n.
    exists (q * ppc + n2)%nat, (bss ++ bss2), (ps ++ ps2). split; [rewrite app_length; nia|]. split; [|split; [apply Forall2_app; assumption|rewrite map_app, concat_app, Hb, Hb2; reflexivity]].
    apply stage1_app; [exact Hp| |].
    + change O with (0 + 0)%nat. apply (stage1_shift (chunk_rel ops i ppc A ms) (some_chunk ops i ppc (A ++ R0)) ppc 0 (q * ppc) Hp); [|right; lia|exact HSt].
      intros c k bs Hk Hc H. exists ms. apply (chunk_rel_in ops i ppc [] A R0 ms 0 c k bs m HL HM); [reflexivity|rewrite Hlen; nia|exact H].
    + replace (0 + q)%nat with (q + 0)%nat by lia. apply (stage1_shift (some_chunk ops i ppc R0) (some_chunk ops i ppc (A ++ R0)) ppc q n2 Hp); [|right; lia|exact HSt2].
      intros c k bs Hk Hc (ms' & H). exists ms'. replace (A ++ R0) with (A ++ R0 ++ []) by (rewrite app_nil_r; reflexivity).
      apply (chunk_rel_in ops i ppc A R0 [] ms' q c k bs m HL HM); [exact Hlen|rewrite Hlen2; nia|exact H].
Qed.
Lemma deltas_concat ops i ppc clouds : layout_ok i -> (0 < ppc)%nat -> Forall (deltas_ok ops i ppc) clouds -> Forall (whole_chunks ppc i) (removelast clouds) -> deltas_ok ops i ppc (concat clouds).
Proof.
  intros HL Hp HD. pose proof (proj1 HL) as Hs. induction HD as [|A clouds HA HD IH]; intros HW.
  - unfold deltas_ok. apply Forall_forall. intros fk _ j v Hj. change (zlen (concat [])) with 0 in Hj. nia.
  - destruct clouds as [|B clouds]; [cbn [concat]; rewrite app_nil_r; exact HA|].
    change (removelast (A :: B :: clouds)) with (A :: removelast (B :: clouds)) in HW. inversion HW as [|x y (q & Hq) HW']; subst. change (concat (A :: B :: clouds)) with (A ++ concat (B :: clouds)).
    apply (deltas_app ops i ppc q); auto. apply points_len; assumption.
Qed.
Lemma part_chunks ops L ppc probe i cloud body : libs_ok L -> encode_side ppc i cloud -> part ops L ppc probe i cloud body ->
  (exists n ms bss ps, chunks_of ops L ppc probe i cloud n ms bss ps /\ body = concat (map frame ps)) /\ buildable i /\ (exists m, MaxSerializedPointSize i = Ok m).
Proof.
  intros HLi HES (w & h & hdr0 & e & hdr & Hh & HEo & HPr).
  destruct (produces_chunks _ _ _ _ _ _ _ _ _ _ HLi Hh (HES : encode_side ppc (sized w h i) cloud) HEo HPr) as (n & ms & bss & ps & HC & Hb).
  assert (HC' : chunks_of ops L ppc probe i cloud n ms bss ps) by exact HC. clear HC. split; [eauto 10|]. destruct HC' as (_ & _ & _ & _ & HP5 & HM). split; [|exact HM].
  unfold buildable. destruct (UsesV5Codec i) eqn:HU; [destruct (HP5 eq_refl) as (es & afs & ->); cbn; eauto|]. apply (encoder_v4 _ _ _ _ _ _ _ HEo HU).
Qed.
(** Streams of clouds that fill their chunks, and of a last cloud of any size, put one after
    the other without their headers, decode to the clouds put one after the other.  The
    clouds may have been encoded by different encoder objects with different widths and
    heights; only the fields, their encodings and the compression must be the same. *)
Theorem C89_joined : forall ops L ppc probe i i' clouds bodies n buf mem,
  libs_ok L -> clouds <> [] -> encode_side ppc i (concat clouds) -> decode_side i i' -> Forall (deltas_ok ops i ppc) clouds ->
  Forall2 (part ops L ppc probe i) clouds bodies -> Forall (whole_chunks ppc i) (removelast clouds) ->
  zlen (concat bodies) < 1431260227 -> zlen (concat clouds) = Z.of_nat n * i_step i -> declares i' n -> Z.of_nat n * i_step i' <= zlen mem ->
  i_comp i = COMP_NONE \/ worst_chunk i (Z.of_nat (Nat.min n ppc)) <= Z.of_nat n * i_step i' <= 2147483647 ->
  exists buf' mem', decode ops L ppc i' (concat bodies) buf mem = Ok (buf', mem') /\ restored ops i i' n (concat clouds) mem mem'.
Proof.
  intros ops L ppc probe i i' clouds bodies n buf mem HLi Hne HES HDS HD HF HW Hz Hlen Hdec Hm Hcap. pose proof HES as (HL & HK & HCl & Hc). pose proof (proj1 HCl) as Hp. pose proof (proj1 HL) as Hs.
  assert (HA : Forall2 (fun cloud body => (exists probe n ms bss ps, chunks_of ops L ppc probe i cloud n ms bss ps /\ body = concat (map frame ps)) /\ buildable i /\ (exists m, MaxSerializedPointSize i = Ok m)) clouds bodies).
  { clear - HLi HL HK HCl Hc HF. induction HF as [|A b clouds bodies H _ IH]; [constructor|]. cbn [concat] in Hc. apply bytes_app in Hc. destruct Hc as [Hc1 Hc2].
    constructor; [|auto]. destruct (part_chunks ops L ppc probe i A b HLi) as (H1 & H2 & H3); [|exact H|split; [exists probe; exact H1|auto]]. repeat (split; [assumption|]). assumption. }
  assert (HB : buildable i /\ exists m, MaxSerializedPointSize i = Ok m) by (destruct HA as [|A b clouds bodies (_ & H) _]; [congruence|exact H]). destruct HB as [HB HM].
  destruct (join_chunks ops L ppc i HL Hp HM clouds bodies Hne) as (n' & bss & ps & Hl & HSt & HP & Hb).
  { clear - HA. induction HA as [|A b clouds bodies (H & _) _ IH]; constructor; auto. }
  { exact HW. }
  assert (n' = n) by (apply (points_eq i (concat clouds)); assumption). subst n'. rewrite Hb in *.
  apply (decode_any ops L ppc i i' (concat clouds) n bss ps buf mem); auto; [apply deltas_concat; assumption|lia].
Qed.
Print Assumptions C89_joined.

(** * Cutting a stream *)
Lemma stage1_skip (P : nat -> nat -> list Z -> Prop) ppc a : forall c left bss, stage1 P ppc c left bss -> stage1 P ppc (a + c) (left - a * ppc) (skipn a bss).
Proof.
  induction a as [|a IH]; intros c left bss H; [cbn [skipn Nat.mul Nat.add]; rewrite Nat.sub_0_r; exact H|].
  destruct H as [c|c left bs bss Hl HP H]; [cbn [skipn]; rewrite Nat.sub_0_l; constructor|]. cbn [skipn]. specialize (IH _ _ _ H).
  replace (S a + c)%nat with (a + S c)%nat by lia. destruct (Nat.le_gt_cases left ppc) as [G|G].
  - rewrite (Nat.min_l left ppc), Nat.sub_diag, Nat.sub_0_l in IH by lia. replace (left - S a * ppc)%nat with O by lia. exact IH.
  - rewrite Nat.min_r in IH by lia. replace (left - S a * ppc)%nat with (left - ppc - a * ppc)%nat by lia. exact IH.
Qed.
Lemma stage1_first (P : nat -> nat -> list Z -> Prop) ppc m : (0 < ppc)%nat -> forall c left bss, stage1 P ppc c left bss -> stage1 P ppc c (Nat.min (m * ppc) left) (firstn m bss).
Proof.
  intros Hp. induction m as [|m IH]; intros c left bss H; [cbn [firstn Nat.mul]; rewrite Nat.min_0_l; constructor|].
  destruct H as [c|c left bs bss Hl HP H]; [cbn [firstn]; rewrite Nat.min_0_r; constructor|]. cbn [firstn]. specialize (IH _ _ _ H).
  assert (E : Nat.min (Nat.min (S m * ppc) left) ppc = Nat.min left ppc) by lia. constructor; [lia|rewrite E; exact HP|]. rewrite E.
  replace (Nat.min (S m * ppc) left - Nat.min left ppc)%nat with (Nat.min (m * ppc) (left - Nat.min left ppc)) by lia. exact IH.
Qed.
Lemma stage1_back (P Q : nat -> nat -> list Z -> Prop) ppc a : (forall c k bs, P (a + c)%nat k bs -> Q c k bs) -> forall d left bss, stage1 P ppc d left bss -> forall c, d = (a + c)%nat -> stage1 Q ppc c left bss.
Proof.
  intros HI d left bss H. induction H as [d|d left bs bss Hl HP H IH]; intros c E; [constructor|]. subst d. constructor; [exact Hl|apply HI, HP|]. apply IH. lia.
Qed.
Lemma chunk_rel_back ops i ppc cloud ms a c k bs : chunk_rel ops i ppc cloud ms (a + c) k bs -> chunk_rel ops i ppc (skipn (a * ppc * Z.to_nat (i_step i)) cloud) ms c k bs.
Proof.
  assert (E : forall x step, skipn (x * step) (skipn (a * ppc * step) cloud) = skipn ((a * ppc + x) * step) cloud) by (intros; rewrite skipn_skipn; f_equal; lia).
  unfold chunk_rel, v4_chunk, v5_chunk. rewrite !E. replace (a * ppc + c * ppc)%nat with ((a + c) * ppc)%nat by lia. rewrite Nat.add_assoc. replace (a * ppc + c * ppc)%nat with ((a + c) * ppc)%nat by lia. auto.
Qed.
Lemma Forall2_skipn {A B} (Q : A -> B -> Prop) m : forall l l', Forall2 Q l l' -> Forall2 Q (skipn m l) (skipn m l').
Proof. induction m as [|m IH]; intros l l' H; [exact H|]. destruct H; [constructor|]. cbn [skipn]. auto. Qed.
Lemma Forall2_firstn {A B} (Q : A -> B -> Prop) m : forall l l', Forall2 Q l l' -> Forall2 Q (firstn m l) (firstn m l').
Proof. induction m as [|m IH]; intros l l' H; [constructor|]. destruct H; [constructor|]. cbn [firstn]. constructor; auto. Qed.
(** Any run of chunks of a stream is itself the stream of the points of those chunks:
    [a] chunks left out in front, [m] kept. *)
Theorem C89_slice : forall ops L ppc probe i cloud body n,
  libs_ok L -> encode_side ppc i cloud -> deltas_ok ops i ppc cloud -> part ops L ppc probe i cloud body -> zlen cloud = Z.of_nat n * i_step i ->
  exists ps, body = concat (map frame ps) /\ zlen ps = ceil_div (Z.of_nat n) (Z.of_nat ppc) /\
  forall a m i' buf mem, let k := Nat.min (m * ppc) (n - a * ppc) in let slice := concat (map frame (firstn m (skipn a ps))) in
    decode_side i i' -> declares i' k -> Z.of_nat k * i_step i' <= zlen mem -> zlen slice < 1431260227 ->
    i_comp i = COMP_NONE \/ worst_chunk i (Z.of_nat (Nat.min k ppc)) <= Z.of_nat k * i_step i' <= 2147483647 ->
    exists buf' mem', decode ops L ppc i' slice buf mem = Ok (buf', mem') /\
      restored ops i i' k (skipn (a * ppc * Z.to_nat (i_step i)) cloud) mem mem'.
Proof.
  intros ops L ppc probe i cloud body n HLi HES HD HPa Hlen. destruct (part_chunks ops L ppc probe i cloud body HLi HES HPa) as ((n' & ms & bss & ps & HC & Hb) & HB & HM).
  pose proof HES as (HL & HK & HCl & Hc). pose proof (proj1 HCl) as Hp. pose proof (proj1 HL) as Hs. destruct HC as (Hl & HSt & HP & _).
  assert (n' = n) by (apply (points_eq i cloud); assumption). subst n'. exists ps. split; [exact Hb|].
  assert (HPl : length bss = length ps) by (clear - HP; induction HP; cbn; auto).
  split. { rewrite <- count_ceil by exact Hp. rewrite <- (stage1_length _ _ _ _ _ Hp HSt). unfold zlen. now rewrite HPl. }
  intros a m i' buf mem k slice HDS Hdec Hm Hz Hcap.
  apply (decode_any ops L ppc i i' (skipn (a * ppc * Z.to_nat (i_step i)) cloud) k (firstn m (skipn a bss)) (firstn m (skipn a ps)) buf mem); auto.
  - repeat (split; [assumption|]). apply bytes_skipn, Hc.
  - apply deltas_shift; assumption.
  - rewrite skipn_length, Hl. unfold k. nia.
  - apply stage1_first; [exact Hp|]. eapply (stage1_back (chunk_rel ops i ppc cloud ms) (some_chunk ops i ppc (skipn (a * ppc * Z.to_nat (i_step i)) cloud)) ppc a) with (d := (a + 0)%nat); [|apply stage1_skip, HSt|reflexivity].
    intros c k' bs H. exists ms. apply chunk_rel_back, H.
  - apply Forall2_firstn, Forall2_skipn, HP.
Qed.
Print Assumptions C89_slice.

(** * The stream of the joined cloud *)
Lemma stage1_same (P Q : nat -> nat -> list Z -> Prop) ppc : (forall c k bs bs', P c k bs -> Q c k bs' -> bs = bs') -> forall c left bss, stage1 P ppc c left bss -> forall bss', stage1 Q ppc c left bss' -> bss = bss'.
Proof.
  intros HE c left bss H. induction H as [c|c left bs bss Hl HP H IH]; intros bss' H'.
  - inversion H'; [reflexivity|lia].
  - inversion H' as [|? ? bs' bss2 Hl' HQ H2]; [lia|]. subst. rewrite (HE _ _ _ _ HP HQ). f_equal. apply IH, H2.
Qed.
Lemma v4_same ops i ppc cloud c k bs bs' : UsesV5Codec i = false -> some_chunk ops i ppc cloud c k bs -> some_chunk ops i ppc cloud c k bs' -> bs = bs'.
Proof.
  intros HU (ms & H) (ms' & H'). unfold chunk_rel in *. rewrite HU in *. destruct H as (es & HB & H & _). destruct H' as (es' & HB' & H' & _).
  assert (es' = es) by congruence. subst es'. rewrite H in H'. apply ok_pair in H'. apply H'.
Qed.
(** The layouts whose points are coded one by one, without the version 5 columns. *)
Definition by_rows (i : info) : Prop := i_version i < 5 \/ i_enc i = ENC_NONE \/ i_enc i = ENC_LOSSLESS \/ int_fields i = [].
Lemma row_codec i : by_rows i -> UsesV5Codec i = false.
Proof.
  unfold UsesV5Codec. intros [H|[-> | [-> | H]]].
  - destruct (Z.leb_spec 5 (i_version i)); [lia|reflexivity].
  - cbn [is_lossy]. rewrite andb_false_r. reflexivity.
  - cbn [is_lossy]. rewrite andb_false_r. reflexivity.
  - apply andb_false_iff. right. destruct (existsb _ _) eqn:E; [exfalso|reflexivity]. apply existsb_exists in E. destruct E as (f & Hf & Ht).
    assert (Hin : In f (int_fields i)); [|rewrite H in Hin; exact Hin]. apply filter_In. split; [rewrite <- (firstn_skipn (LeadingLossyFloatFieldCount i)); apply in_or_app; right; exact Hf|].
    unfold isV5AdaptiveIntType in Ht. destruct (f_type f); auto.
Qed.
(** Uncompressed and coded point by point, joining the streams is encoding the joined cloud. *)
Theorem C89_same_stream : forall ops L ppc probe probe' i clouds bodies body,
  libs_ok L -> clouds <> [] -> encode_side ppc i (concat clouds) -> i_comp i = COMP_NONE -> by_rows i ->
  Forall2 (part ops L ppc probe i) clouds bodies -> Forall (whole_chunks ppc i) (removelast clouds) ->
  part ops L ppc probe' i (concat clouds) body -> body = concat bodies.
Proof.
  intros ops L ppc probe probe' i clouds bodies body HLi Hne HES HN HU HF HW HPa. pose proof HES as (HL & HK & HCl & Hc). pose proof (proj1 HCl) as Hp. pose proof (proj1 HL) as Hs.
  pose proof (row_codec i HU) as HU'.
  destruct (part_chunks ops L ppc probe' i _ _ HLi HES HPa) as ((n & ms & bss & ps & (Hl & HSt & HP & _) & Hb) & _ & HM).
  destruct (join_chunks ops L ppc i HL Hp HM clouds bodies Hne) as (n' & bss' & ps' & Hl' & HSt' & HP' & Hb'); [|exact HW|].
  { clear - HLi HL HK HCl Hc HF. induction HF as [|A b clouds bodies H _ IH]; [constructor|]. cbn [concat] in Hc. apply bytes_app in Hc. destruct Hc as [Hc1 Hc2].
    constructor; [|auto]. exists probe. apply (part_chunks ops L ppc probe i A b HLi); [repeat (split; [assumption|]); assumption|exact H]. }
  assert (n' = n) by (rewrite Hl in Hl'; apply Nat.mul_cancel_r in Hl'; lia). subst n'.
  assert (E : bss = bss').
  { apply (stage1_same (some_chunk ops i ppc (concat clouds)) (some_chunk ops i ppc (concat clouds)) ppc) with (c := O) (left := n); [intros c k bs bs'; apply v4_same, HU'| |exact HSt'].
    eapply stage1_impl; [|exact Hp|exact HSt]. intros c k bs _ _ _ H. exists ms. exact H. }
  subst bss'. rewrite HN in *. assert (G : forall l q, Forall2 (fun bs p => payload L COMP_NONE bs p /\ bytes p /\ zlen p <= UINT32_MAX) l q -> q = l) by (intros l q H; induction H as [|b p l q (H1 & _) _ IH]; [reflexivity|]; cbn [payload] in H1; congruence).
  rewrite (G _ _ HP) in Hb. rewrite (G _ _ HP') in Hb'. congruence.
Qed.
Print Assumptions C89_same_stream.

(** With the version 5 columns it need not be: the coding of a column is chosen from the
    first points of the cloud.  32768 equal values, then two different ones. *)
Lemma one64_section w ppc vs ms c k bs : (k <= length vs - c * ppc)%nat ->
  chunk_rel sse_ops (one64 5 w COMP_NONE) ppc (cloud64 vs) ms c k bs -> exists mo, ms = [mo] /\ section_of a64 (map (le_bytes 8) (firstn k (skipn (c * ppc) vs))) mo bs.
Proof.
  intros Hk HC. unfold chunk_rel in HC. change (UsesV5Codec (one64 5 w COMP_NONE)) with true in HC. cbv iota in HC.
  destruct HC as (es & afs & HB & o & secs & HE & -> & _ & _ & _ & Hms & Hss & HF). change (BuildV5Plan (one64 5 w COMP_NONE)) with (Ok (@nil fenc, [a64])) in HB. apply ok_pair in HB. destruct HB as [<- <-].
  cbn [length] in *. destruct secs as [|sec [|? ?]]; try discriminate Hss. destruct ms as [|mo [|? ?]]; try discriminate Hms. exists mo. split; [reflexivity|]. cbn [combine] in HF. inversion HF as [|? ? ? ? HF1 _]; subst. cbn [fst snd] in HF1.
  change (Z.to_nat (i_step (one64 5 w COMP_NONE))) with 8%nat in *. rewrite cloud64_skip, cloud64_column in HF1 by (rewrite skipn_length; lia).
  assert (Ho : o = []).
  { clear - HE. revert HE. generalize (skipn (c * ppc * 8) (cloud64 vs)) (skipn ((c * ppc + k) * 8) (cloud64 vs)) (resets (@nil fenc)). intros l l' sts. revert l o sts. induction k as [|k IH]; intros l o sts H; cbn [enc_points_v4] in H.
    - apply ok_pair in H. now destruct H.
    - destruct l as [|b l0]; [apply ok_pair in H; now destruct H|]. cbn [enc_point] in H. destruct sts as [|st sts]; cbn [bind] in H; [|discriminate H].
      destruct (trim_front 8 (b :: l0)) as [l1| |]; cbn [bind] in H; try discriminate H. apply bind_ok in H. destruct H as ((r & o2) & H1 & H2). apply ok_pair in H2. destruct H2 as [-> <-]. cbn. exact (IH _ _ _ H1). }
  subst o. cbn [concat app]. rewrite app_nil_r. exact HF1.
Qed.
Definition pair64 : list Z := [0; 4611686018427387904].
Lemma frame_split p r p' r' : zlen p <= UINT32_MAX -> zlen p' <= UINT32_MAX -> frame p ++ r = frame p' ++ r' -> p = p' /\ r = r'.
Proof.
  unfold frame, UINT32_MAX. intros H H' E. rewrite <- !app_assoc in E. pose proof (zlen_nonneg p). pose proof (zlen_nonneg p').
  assert (E1 : le_bytes 4 (zlen p) = le_bytes 4 (zlen p')) by (apply (f_equal (firstn 4)) in E; exact E).
  assert (E2 : p ++ r = p' ++ r') by (apply (f_equal (skipn 4)) in E; exact E).
  apply (f_equal le_val) in E1. rewrite !le_val_le_bytes in E1. change (256 ^ Z.of_nat 4) with 4294967296 in E1. rewrite !Z.mod_small in E1 by lia.
  assert (E3 : length p = length p') by (unfold zlen in E1; lia). split.
  - apply (f_equal (firstn (length p))) in E2. rewrite firstn_first in E2 by reflexivity. rewrite E3, firstn_first in E2 by reflexivity. exact E2.
  - apply (f_equal (skipn (length p))) in E2. rewrite skipn_app, skipn_all, Nat.sub_diag, E3, skipn_app, skipn_all, Nat.sub_diag in E2. exact E2.
Qed.
Lemma join_differs L ppc probe k w ab a b : libs_ok L -> Z.of_nat ppc = 32768 -> probe = S k -> Z.of_nat probe = 4096 -> let i := one64 5 w COMP_NONE in
  part sse_ops L ppc probe i (cloud64 (repeat 0 ppc)) a -> part sse_ops L ppc probe i (cloud64 pair64) b ->
  part sse_ops L ppc probe i (cloud64 (repeat 0 ppc) ++ cloud64 pair64) ab -> ab <> a ++ b.
Proof.
  intros HLi Hpp Hpr Hpz i Ha Hb Hab E.
  assert (HS : forall vs, encode_side ppc i (cloud64 vs)).
  { intros vs. split; [split; [reflexivity|repeat constructor; cbn; lia]|split; [exact I|split; [split; [lia|split; [lia|vm_compute; discriminate]]|apply cloud64_bytes]]]. }
  assert (EC : cloud64 (repeat 0 ppc) ++ cloud64 pair64 = cloud64 (repeat 0 ppc ++ pair64)) by (symmetry; apply flat_map_app). rewrite EC in Hab.
  assert (Lr : length (repeat 0 ppc) = ppc) by apply repeat_length.
  assert (L2 : length pair64 = 2%nat) by reflexivity.
  destruct (part_chunks sse_ops L ppc probe i _ _ HLi (HS _) Ha) as ((na & msa & bssa & psa & (Hla & HSa & HPa & _) & Eb) & _).
  destruct (part_chunks sse_ops L ppc probe i _ _ HLi (HS _) Hb) as ((nb & msb & bssb & psb & (Hlb & HSb & HPb & HMb & _) & Ebb) & _).
  destruct (part_chunks sse_ops L ppc probe i _ _ HLi (HS _) Hab) as ((n & ms & bss & ps & (Hl & HSt & HP & HM & _) & Eab) & _).
  rewrite Eb, Ebb, Eab in E. clear Eb Ebb Eab Ha Hb Hab.
  change (Z.to_nat (i_step i)) with 8%nat in *. rewrite cloud64_length in Hla, Hlb, Hl. rewrite app_length in Hl. rewrite Lr in *. rewrite L2 in *.
  assert (na = ppc) by lia. assert (nb = 2%nat) by lia. assert (n = (ppc + 2)%nat) by lia. subst na nb n.
  inversion HSa as [|? ? a1 ra Hq Ha1 Ha2]; [lia|]. subst. inversion HPa as [|? pa ? qa (Pa1 & _ & Pa3) Pa4]; subst.
  rewrite Nat.min_id, Nat.sub_diag in Ha2. inversion Ha2; [|lia]. subst. inversion Pa4; subst. clear Ha2 Pa4 HSa HPa.
  inversion HSb as [|? ? b1 rb Hq2 Hb1 Hb2]; subst. inversion HPb as [|? pb ? qb (Pb1 & _ & Pb3) Pb4]; subst.
  rewrite (Nat.min_l 2 ppc) in * by lia. rewrite Nat.sub_diag in Hb2. inversion Hb2; [|lia]. subst. inversion Pb4; subst. clear Hb2 Pb4 HSb HPb.
  inversion HSt as [|? ? c1 rc Hq3 Hc1 Hc2]; [lia|]. subst. inversion HP as [|? pc ? qc (Pc1 & _ & Pc3) Pc4]; subst.
  rewrite (Nat.min_r (ppc + 2) ppc) in * by lia. replace (ppc + 2 - ppc)%nat with 2%nat in Hc2 by lia.
  inversion Hc2 as [|? ? c2 rd Hq4 Hd1 Hd2]; subst. inversion Pc4 as [|? pd ? qd (Pd1 & _ & Pd3) Pd4]; subst.
  rewrite (Nat.min_l 2 ppc) in * by lia. rewrite Nat.sub_diag in Hd2. inversion Hd2; [|lia]. subst. inversion Pd4; subst. clear Hd2 Pd4 Hc2 Pc4 HSt HP.
  cbn [map concat] in E. rewrite !app_nil_r in E. apply frame_split in E; [|assumption|assumption]. destruct E as [_ E].
  assert (E' : frame pd ++ [] = frame pb ++ []) by (rewrite !app_nil_r; exact E). apply frame_split in E'; [|assumption|assumption]. destruct E' as [Epd _]. clear E.
  change (payload L COMP_NONE c2 pd) in Pd1. change (payload L COMP_NONE b1 pb) in Pb1. cbn [payload] in Pd1, Pb1. subst pd pb.
  apply one64_section in Hb1; [|rewrite L2; lia]. destruct Hb1 as (mb & Emb & Sb).
  apply one64_section in Hd1; [|rewrite app_length, Lr, L2; lia]. destruct Hd1 as (md & Emd & Sd). subst msb ms.
  rewrite Nat.mul_1_l, skipn_app, skipn_all2, Lr, Nat.sub_diag in Sd by lia. cbn [skipn app Nat.mul] in Sd, Sb. rewrite firstn_all2 in Sb, Sd by (rewrite L2; lia).
  destruct (HMb eq_refl ltac:(lia)) as (es & afs & HB & HBM). change (BuildV5Plan i) with (Ok (@nil fenc, [a64])) in HB. apply ok_pair in HB. destruct HB as [<- <-].
  inversion HBM as [|? ? ? ? Hmb _]; subst. clear HBM. destruct (HM eq_refl ltac:(lia)) as (es & afs & HB & HBM). change (BuildV5Plan i) with (Ok (@nil fenc, [a64])) in HB. apply ok_pair in HB. destruct HB as [<- <-].
  inversion HBM as [|? ? ? ? Hmd _]; subst. clear HBM. rewrite cloud64_column in Hmb by (rewrite L2; lia). rewrite cloud64_column in Hmd by (rewrite app_length, Lr, L2; lia).
  assert (md = DeltaRle).
  { rewrite firstn_first in Hmd by exact Lr. rewrite firstn_map in Hmd. apply (zeros_best k md); [lia| |].
    - rewrite Hpz. vm_compute. split; discriminate.
    - replace (repeat 0 (S k)) with (firstn (S k) (repeat 0 ppc)); [exact Hmd|]. replace ppc with (S k + (ppc - S k))%nat by lia. rewrite repeat_app. apply firstn_first, repeat_length. }
  subst md. rewrite firstn_all2 in Hmb by (rewrite map_length, firstn_length, L2; lia). rewrite firstn_all2 in Hmb by (rewrite L2; lia).
  assert (Hz : 0 < zlen (map (le_bytes 8) pair64) < 4294967296) by (vm_compute; split; reflexivity).
  pose proof (section_len _ _ _ _ Hz Sb) as Zb. pose proof (section_len _ _ _ _ Hz Sd) as Zd.
  unfold best_mode in Hmb. vm_compute in Hmb. subst mb. rewrite Zb in Zd. vm_compute in Zd. discriminate Zd.
Qed.

Lemma one64_encodable L ppc probe w vs : libs_ok L -> (0 < ppc)%nat -> Z.of_nat ppc <= 65535 -> exists body, part sse_ops L ppc probe (one64 5 w COMP_NONE) (cloud64 vs) body.
Proof.
  intros HLi Hp Hpp. set (i := one64 5 w COMP_NONE). set (n := length vs). pose (e := mkEnc i [] [] []).
  assert (HE : encoder_of sse_ops L ppc probe i (Ok []) e) by (constructor; reflexivity).
  assert (HS : encode_side ppc i (cloud64 vs)) by (split; [split; [reflexivity|repeat constructor; cbn; lia]|split; [exact I|split; [split; [lia|split; [lia|vm_compute; discriminate]]|apply cloud64_bytes]]]).
  assert (HM : exists need, MaxCompressedSize L ppc i n 0 = Ok need).
  { unfold MaxCompressedSize. change (i_step i =? 0) with false. cbv iota. change (MaxSerializedPointSize i) with (Ok 10). cbn [bind].
    assert (G : forall c left, exists t, chunks_bound L i 10 ppc c left = Ok t).
    { intros c. induction c as [|c IH]; intros left; cbn [chunks_bound]; [eauto|]. destruct (IH (left - Nat.min left ppc)%nat) as (t & ->). destruct (0 <? left)%nat; cbn; eauto. }
    destruct (G (chunks_count ppc n) n) as (t & ->). cbn [bind]. eauto. }
  destruct HM as (need & HM). pose (out := repeat 0 (Z.to_nat (Z.max need (ample L ppc i n 0)))).
  assert (Hz : zlen out = Z.max 0 (Z.max need (ample L ppc i n 0))) by (unfold out, zlen; rewrite repeat_length; lia).
  assert (Ho : bytes out) by (unfold out; apply Forall_forall; intros x Hx; apply repeat_spec in Hx; subst; split; lia).
  destruct (C88_ample sse_ops L ppc probe i [] e (cloud64 vs) n out false need) as (total & out' & e' & HEV & Ht & Hl); auto; try lia.
  - constructor.
  - repeat constructor.
  - repeat constructor.
  - unfold tight_chunk. change (tight_point i) with 11. change (zlen (int_fields i)) with 1. lia.
  - unfold zlen. rewrite cloud64_length. change (i_step i) with 8. unfold n. lia.
  - discriminate.
  - exists (firstn (Z.to_nat total) out'), w, 1, [], e, []. split; [constructor|]. split; [exact HE|].
    left. exists out, false, total, out', e'. split; [exact Ho|]. split; [exact HEV|]. cbn [app]. split; [reflexivity|]. split; [|reflexivity]. unfold zlen in *. rewrite firstn_length. lia.
Qed.

(** At the constants of the library: for every two such clouds the streams exist, and the
    stream of the joined cloud is never the two streams joined (which decode all the same). *)
Theorem C89_same_stream_refuted : forall L, libs_ok L -> let ppc := Z.to_nat 32768 in let probe := Z.to_nat 4096 in
  exists i A B, encode_side ppc i (A ++ B) /\ i_comp i = COMP_NONE /\ whole_chunks ppc i A /\
    (exists a b, part sse_ops L ppc probe i A a /\ part sse_ops L ppc probe i B b) /\ (exists ab, part sse_ops L ppc probe i (A ++ B) ab) /\
    forall a b ab, part sse_ops L ppc probe i A a -> part sse_ops L ppc probe i B b -> part sse_ops L ppc probe i (A ++ B) ab -> ab <> a ++ b.
Proof.
  intros L HLi ppc probe. assert (Hpp : Z.of_nat ppc = 32768) by (apply Z2Nat.id; lia). assert (Hpz : Z.of_nat probe = 4096) by (apply Z2Nat.id; lia).
  assert (Hk : probe = S (Z.to_nat 4095)) by (unfold probe; rewrite <- Z2Nat.inj_succ by lia; reflexivity).
  clearbody ppc probe. exists (one64 5 32770 COMP_NONE), (cloud64 (repeat 0 ppc)), (cloud64 pair64).
  assert (EC : cloud64 (repeat 0 ppc) ++ cloud64 pair64 = cloud64 (repeat 0 ppc ++ pair64)) by (symmetry; apply flat_map_app).
  split; [rewrite EC; split; [split; [reflexivity|repeat constructor; cbn; lia]|split; [exact I|split; [split; [lia|split; [lia|vm_compute; discriminate]]|apply cloud64_bytes]]]|].
  split; [reflexivity|]. split; [exists 1%nat; unfold zlen; rewrite cloud64_length, repeat_length; change (i_step (one64 5 32770 COMP_NONE)) with 8; lia|].
  destruct (one64_encodable L ppc probe 32770 (repeat 0 ppc) HLi ltac:(lia) ltac:(lia)) as (a & Ha). destruct (one64_encodable L ppc probe 32770 pair64 HLi ltac:(lia) ltac:(lia)) as (b & Hb).
  split; [exists a, b; split; assumption|]. split; [rewrite EC; apply one64_encodable; [exact HLi|lia|lia]|].
  clear a b Ha Hb. intros a b ab Ha Hb Hab. exact (join_differs L ppc probe (Z.to_nat 4095) 32770 ab a b HLi Hpp Hk Hpz Ha Hb Hab).
Qed.
Print Assumptions C89_same_stream_refuted.
(** The hypotheses are met: the scan of three points in chunks of two, cut into a cloud of
    two points and one of a single point, each encoded by its own encoder, and
    the joined streams decoded. *)
Lemma scan_part w (v : Z) cloud e : PointcloudEncoder (scan v w COMP_NONE) (Ok []) = Ok e ->
  (let r := encode_vec sse_ops store_libs 2 4096 e cloud [] in
   match fst (fst r) with Ok t => (t =? zlen (snd (fst r))) && list_eqb (firstn (length (e_hdr e)) (snd (fst r))) (e_hdr e) | _ => false end) = true ->
  part sse_ops store_libs 2 4096 (scan v 3 COMP_NONE) cloud (snd (fst (encode_vec sse_ops store_libs 2 4096 e cloud []))).
Proof.
  intros HE H. destruct (new_produces sse_ops store_libs 2 4096 (scan v w COMP_NONE) [] e cloud HE H) as [H1 H2].
  exists w, 1, [], e, []. split; [constructor|]. split; [exact H1|exact H2].
Qed.
Definition encoded_scan (v w : Z) (cloud : list Z) : list Z :=
  match PointcloudEncoder (scan v w COMP_NONE) (Ok []) with Ok e => snd (fst (encode_vec sse_ops store_libs 2 4096 e cloud [])) | _ => [] end.
Example C89_case : let i := scan 5 3 COMP_NONE in let A := firstn 64 scan_cloud in let B := skipn 64 scan_cloud in
  let a := encoded_scan 5 2 A in let b := encoded_scan 5 1 B in
  encode_side 2 i (concat [A; B]) /\ decode_side i i /\ Forall (deltas_ok sse_ops i 2) [A; B] /\
  Forall2 (part sse_ops store_libs 2 4096 i) [A; B] [a; b] /\ Forall (whole_chunks 2 i) (removelast [A; B]) /\
  zlen (concat [A; B]) = Z.of_nat 3 * i_step i /\ declares i 3 /\ Z.of_nat 3 * i_step i <= zlen (repeat 255 100) /\ zlen (a ++ b) = 75 /\
  match decode sse_ops store_libs 2 i (a ++ b) [] (repeat 255 100) with
  | Ok (_, mem') => sub 12 4 mem' = [7;0;255;255] /\ sub 24 8 mem' = le_bytes 8 (u64 (-3)) /\ sub 88 12 mem' = le_bytes 8 (2 ^ 40) ++ [255;255;255;255]
  | _ => False
  end.
Proof.
  cbv zeta. change (concat [firstn 64 scan_cloud; skipn 64 scan_cloud]) with scan_cloud.
  split. { split; [apply scan_layout|]. split; [exact I|]. split; [|apply scan_bytes]. split; [lia|]. split; [lia|vm_compute; discriminate]. }
  split. { split; [apply scan_same|]. split; [apply scan_out_layout|]. split; [apply scan_consistent|]. split; [apply scan_resolutions|]. split; [|split; [reflexivity|cbn; lia]]. repeat constructor. }
  split. { constructor; [apply (deltas_okb_ok _ _ _ _ 2); vm_compute; reflexivity|]. constructor; [apply (deltas_okb_ok _ _ _ _ 1); vm_compute; reflexivity|constructor]. }
  split. { unfold encoded_scan. constructor; [apply (scan_part 2); vm_compute; reflexivity|]. constructor; [apply (scan_part 1); vm_compute; reflexivity|constructor]. }
  split. { cbn [removelast]. constructor; [exists 1%nat; reflexivity|constructor]. }
  split; [reflexivity|]. split; [reflexivity|]. split; [vm_compute; discriminate|]. split; [vm_compute; reflexivity|]. vm_compute. repeat split.
Qed.
Example C89_same_stream_case : let i := scan 4 3 COMP_NONE in let A := firstn 64 scan_cloud in let B := skipn 64 scan_cloud in
  by_rows i /\ Forall2 (part sse_ops store_libs 2 4096 i) [A; B] [encoded_scan 4 2 A; encoded_scan 4 1 B] /\
  part sse_ops store_libs 2 4096 i (concat [A; B]) (encoded_scan 4 3 scan_cloud) /\ encoded_scan 4 3 scan_cloud = encoded_scan 4 2 A ++ encoded_scan 4 1 B /\ encoded_scan 4 1 B <> [].
Proof.
  cbv zeta. change (concat [firstn 64 scan_cloud; skipn 64 scan_cloud]) with scan_cloud. split; [left; reflexivity|].
  split. { unfold encoded_scan. constructor; [apply (scan_part 2); vm_compute; reflexivity|]. constructor; [apply (scan_part 1); vm_compute; reflexivity|constructor]. }
  split; [unfold encoded_scan; apply (scan_part 3); vm_compute; reflexivity|]. split; [vm_compute; reflexivity|vm_compute; discriminate].
Qed.
