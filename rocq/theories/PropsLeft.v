(** C94: what a decode that ends with an exception has done to the output buffer. *)
From Verif Require Import Base BaseFacts Types Floats Fields Codec V5 Api Spec LibSpec RoundTrip LocalFacts CodeFacts ApiFacts CloudApi Cases PropsStage1 PropsCloud PropsRecode PropsCompare ConfineFacts SyncFacts PropsConfine PropsFrame PropsJoin DamageFacts PropsDamage Left LeftFacts.
From Verif Require V5Facts.
From Coq Require Import Lia.
Open Scope Z_scope.

(** [decode_left] (Left.v): the output buffer when a call of decode() ends, in whatever way.  When decode
    returns normally it is the output buffer of the model of the other theorems. *)
Theorem C94_normal_return : forall ops L ppc i data buf mem buf' mem', decode ops L ppc i data buf mem = Ok (buf', mem') ->
  decode_left ops L ppc i data buf mem = mem'.
Proof. exact decode_left_ok. Qed.
Print Assumptions C94_normal_return.

(** ** A decode that throws writes no more than one that returns
    Whatever the data: when decode throws, it has changed no byte of the output buffer other than
    those of the stored fields of the declared points (C59 says so when it returns). *)
Theorem C94_writes_only_fields : forall ops L ppc i data buf mem,
  (0 < ppc)%nat -> 0 < i_step i -> 3 <= i_version i -> skips_supported i -> zlen mem < 4611686018427387904 ->
  decode ops L ppc i data buf mem = Throw ->
  let left := decode_left ops L ppc i data buf mem in
  length left = length mem /\
  (forall x, (x < length mem)%nat -> ~ in_field i (declared i) x -> nth_error left x = nth_error mem x).
Proof.
  intros ops L ppc i data buf mem Hp Hs Hv HA Hm _. cbv zeta. apply skips_adaptive in HA. destruct (decode_left_conf ops L i Hs HA ppc data buf mem Hp Hm Hv) as [H1 H2].
  split; [exact H1|]. intros x Hx Hn. apply H2; [exact Hx|]. intros HP. apply Hn. now apply places_field.
Qed.
Print Assumptions C94_writes_only_fields.
Theorem C94_old_versions : forall ops L ppc i data buf mem, i_version i < 3 -> decode ops L ppc i data buf mem = Throw ->
  let left := decode_left ops L ppc i data buf mem in
  length left = length mem /\
  (forall x, (x < length mem)%nat -> (forall n, ~ in_field i n x) -> nth_error left x = nth_error mem x).
Proof.
  intros ops L ppc i data buf mem Hv _. cbv zeta. destruct (decode_left_conf_old ops L i ppc data buf mem Hv) as [H1 H2]. split; [exact H1|].
  intros x Hx Hn. apply H2; [exact Hx|]. intros (j & Hj & HP). apply (Hn (j + 1)). apply places_field. exists j. split; [lia|exact HP].
Qed.
Print Assumptions C94_old_versions.

(** ** The chunks before the one that fails are in the buffer *)
Lemma left_loop_frame ops L ppc i ds minb fuel p tail buf points base mem : zlen p < 4294967296 ->
  left_loop ops L ppc i ds minb (S fuel) (frame p ++ tail) buf points base mem =
  if points =? 0 then mem else
  match decodeChunk ops L i ds minb p buf (Z.to_nat (Z.min points (Z.of_nat ppc))) base mem with
  | Ok (buf', base', mem') => left_loop ops L ppc i ds minb fuel tail buf' (points - Z.min points (Z.of_nat ppc)) base' mem'
  | _ => left_chunk ops L i ds minb p buf (Z.to_nat (Z.min points (Z.of_nat ppc))) base mem
  end.
Proof.
  intros Hp. unfold frame. rewrite <- app_assoc.
  assert (Hne : exists b l, le_bytes 4 (zlen p) ++ p ++ tail = b :: l) by (cbn [le_bytes app]; eauto). destruct Hne as (b & l & Hne). rewrite Hne. cbn [left_loop]. rewrite <- Hne.
  destruct (points =? 0); [reflexivity|]. pose proof (zlen_nonneg p). rewrite V5Facts.le4 by lia. cbv zeta.
  replace (zlen (p ++ tail) <? zlen p) with false by (rewrite zlen_app; pose proof (zlen_nonneg tail); lia).
  assert (El : Z.to_nat (zlen p) = length p) by (unfold zlen; apply Nat2Z.id). rewrite !El, firstn_app, firstn_all, Nat.sub_diag, firstn_O, app_nil_r, skipn_app, skipn_all, Nat.sub_diag. reflexivity.
Qed.
Section Salvage.
Variables (ops : float_ops) (L : libs) (ppc : nat) (i : info) (ds : list fdec) (minb : nat).
Hypothesis Hppc : (0 < ppc)%nat.
Hypothesis Hstep : 0 < i_step i.
Hypothesis HA : adaptive_stored i.
Hypothesis HD : updateDecoders i = Ok (ds, minb).
(** The places of the points after the first [k] chunks. *)
Definition later (k : nat) (lo points : Z) (x : Z) : Prop := exists j, lo + Z.of_nat (k * ppc) <= j < lo + points /\ at_places (j * i_step i) (PL i) x.
Lemma loop_salvage : forall ps fuel fuel' b rest1 rest2 points lo a x1 a', Forall (fun p => zlen p < 4294967296) ps -> (length ps < fuel')%nat ->
  0 <= points -> 0 <= lo -> zlen a < 4611686018427387904 ->
  dec_loop ops L ppc i ds minb fuel (concat (map frame ps) ++ rest1) b points (lo * i_step i) a = Ok (x1, a') ->
  let m := left_loop ops L ppc i ds minb fuel' (concat (map frame ps) ++ rest2) b points (lo * i_step i) a in
  length a' = length m /\ forall x, (x < length a')%nat -> ~ later (length ps) lo points (Z.of_nat x) -> nth_error a' x = nth_error m x.
Proof.
  induction ps as [|p ps IH]; intros fuel fuel' b rest1 rest2 points lo a x1 a' HF Hf Hp Hlo Hm H.
  - cbn [map concat app length] in *. cbv zeta. destruct (dec_loop_conf ops L i Hstep HA ppc ds minb Hppc HD fuel rest1 b points lo a x1 a' Hp Hlo Hm H) as [C1 C2].
    destruct (left_loop_conf ops L i Hstep HA ppc ds minb Hppc HD fuel' rest2 b points lo a Hp Hlo Hm) as [D1 D2]. split; [congruence|].
    intros x Hx Hn. rewrite C1 in Hx. rewrite C2, D2; [reflexivity|exact Hx| |exact Hx|]; intros (j & Hj & HQ); apply Hn; exists j; (split; [lia|exact HQ]).
  - apply Forall_cons_iff in HF. destruct HF as [Hz HF]. cbn [map concat] in *. rewrite <- app_assoc in H. rewrite <- app_assoc.
    destruct fuel as [|fuel]; [unfold frame in H; cbn [le_bytes app dec_loop] in H; discriminate H|]. destruct fuel' as [|fuel']; [lia|].
    rewrite dec_loop_frame in H by exact Hz. cbv zeta. rewrite left_loop_frame by exact Hz. destruct (points =? 0) eqn:E0; [discriminate H|]. apply Z.eqb_neq in E0.
    set (n := Z.min points (Z.of_nat ppc)) in *. assert (Hn : 0 < n <= points) by (unfold n; lia).
    apply bind_ok in H. destruct H as ([[y1 e1] m1] & C & H). rewrite C.
    destruct (decodeChunk_conf ops L i Hstep HA ds minb p b (Z.to_nat n) lo a y1 e1 m1 HD ltac:(lia) Hlo Hm C) as [-> [C1 _]]. rewrite Z2Nat.id in * by lia.
    assert (Hm1 : zlen m1 < 4611686018427387904) by (unfold zlen in *; lia).
    destruct (IH fuel fuel' y1 rest1 rest2 (points - n) (lo + n) m1 x1 a' HF ltac:(cbn [length] in Hf; lia) ltac:(lia) ltac:(lia) Hm1 H) as [E1 E2].
    split; [exact E1|]. intros x Hx HN. apply E2; [exact Hx|]. intros (j & Hj & HQ). apply HN. exists j. split; [|exact HQ]. cbn [length]. unfold n in Hj. lia.
Qed.
End Salvage.
Lemma frame_no_magic p tail : zlen p < 1431260227 -> has_magic (frame p ++ tail) = false.
Proof.
  intros Hz. unfold has_magic. apply Bool.andb_false_iff.
  destruct (Nat.leb_spec (length magic) (length (frame p ++ tail))) as [_|]; [right|now left]. unfold list_eqb. destruct (list_eq_dec _ _ _) as [E|]; [|reflexivity]. exfalso.
  apply (f_equal (firstn 4)) in E. rewrite firstn_firstn in E. unfold frame in E. rewrite <- app_assoc in E.
  change (Nat.min 4 (length magic)) with 4%nat in E. rewrite firstn_app, le_bytes_length, Nat.sub_diag, firstn_O, app_nil_r in E.
  rewrite firstn_all2 in E by now rewrite le_bytes_length. apply (f_equal le_val) in E.
  pose proof (zlen_nonneg p). rewrite le_val_le_bytes, Z.mod_small in E by (change (256 ^ Z.of_nat 4) with 4294967296; lia).
  change (le_val (firstn 4 magic)) with 1431260227 in E. lia.
Qed.

(** A stream of encode() whose chunks are [ps]; only its first [k] chunks have survived, and behind them stands
    anything ([rest]: nothing, half a chunk, damaged chunks, another stream, chunk sizes that are wrong).  However the
    decode of that ends, every stored field of every point of the first [k] chunks is in the output
    buffer as C17 says. *)
Theorem C94_salvage : forall ops L ppc probe i i' cloud body n ps k rest buf mem,
  libs_ok L -> encode_side ppc i cloud -> decode_side i i' -> deltas_ok ops i ppc cloud -> part ops L ppc probe i cloud body ->
  zlen body < 1431260227 -> zlen cloud = Z.of_nat n * i_step i -> declares i' n -> Z.of_nat n * i_step i' <= zlen mem < 4611686018427387904 ->
  i_comp i = COMP_NONE \/ worst_chunk i (Z.of_nat (Nat.min n ppc)) <= Z.of_nat n * i_step i' <= 2147483647 ->
  body = concat (map frame ps) -> payloads ps -> (k <= length ps)%nat ->
  let data := concat (map frame (firstn k ps)) ++ rest in
  decode ops L ppc i' data buf mem <> UB ->
  forall j f' f kd, (j < n)%nat -> In (f', (f, kd)) (combine (i_fields i') (combine (i_fields i) (kinds i))) -> stored f' = true ->
    (j / ppc < k)%nat ->
    sub (Z.of_nat j * i_step i' + f_off f') (SizeOf (f_type f)) (decode_left ops L ppc i' data buf mem) = recon ops kd (fbytes i f cloud j).
Proof.
  intros ops L ppc probe i i' cloud body n ps k rest buf mem HLi HES HDS HD HPa Hz Hlen Hdec Hm Hcap Hb HP Hk. cbv zeta. intros _ j f' f kd Hj Hin Hst Hjk.
  assert (HO : exists buf' m0, decode ops L ppc i' body buf mem = Ok (buf', m0) /\ restored ops i i' n cloud mem m0).
  { pose proof (C89_joined ops L ppc probe i i' [cloud] [body] n buf mem HLi) as HJ. cbn [concat removelast] in HJ. rewrite !app_nil_r in HJ. apply HJ; auto; [discriminate|lia]. }
  destruct HO as (x0 & m0 & H0 & HR). destruct HR as (R1 & R2 & _).
  pose proof HDS as (HS & HO & _ & _ & HN & _ & Hver). pose proof HES as (_ & _ & (Hp & _) & _). destruct HO as [HO0 HO1].
  assert (HA : adaptive_stored i').
  { apply skips_adaptive. intros _ g Hg Hw. unfold ints_stored in HN. rewrite Forall_forall in HN. apply HN; assumption. }
  unfold decode in H0. apply bind_ok in H0. destruct H0 as ([ds minb] & HDc & H0). destruct (has_magic body); [discriminate H0|].
  replace (3 <=? i_version i') with true in H0 by lia. unfold decode_left. rewrite HDc.
  assert (HF : Forall (fun p => zlen p < 4294967296) (firstn k ps)).
  { unfold payloads in HP. change (2 ^ 32) with 4294967296 in HP. apply Forall_forall. intros p Hp0. rewrite Forall_forall in HP. apply HP. rewrite <- (firstn_skipn k ps). apply in_or_app. now left. }
  assert (HMg : has_magic (concat (map frame (firstn k ps)) ++ rest) = false).
  { destruct k as [|k]; [destruct (Nat.nlt_0_r _ Hjk)|]. destruct ps as [|p ps]; [cbn [length] in Hk; lia|]. cbn [firstn map concat]. rewrite <- app_assoc. apply frame_no_magic.
    rewrite Hb in Hz. cbn [map concat] in Hz. unfold frame at 1 in Hz. rewrite !zlen_app in Hz. pose proof (zlen_nonneg (concat (map frame ps))). pose proof (zlen_nonneg (le_bytes 4 (zlen p))). lia. }
  rewrite HMg. replace (3 <=? i_version i') with true by lia.
  rewrite Hb, <- (firstn_skipn k ps) in H0. rewrite map_app, concat_app in H0. unfold declares in Hdec.
  set (pts := u64 (i_width i' * i_height i')) in *. assert (Hpts : 0 <= pts) by (unfold pts, u64; apply Z.mod_pos_bound; lia).
  assert (Hfl : (length (firstn k ps) < S (length (concat (map frame (firstn k ps)) ++ rest)))%nat).
  { rewrite app_length. clear. generalize (length rest) as r. intros r. induction (firstn k ps) as [|p l IH]; [cbn; lia|]. cbn [map concat]. rewrite app_length.
    assert (4 <= length (frame p))%nat by (unfold frame; rewrite app_length, le_bytes_length; lia). cbn [length]. lia. }
  destruct (loop_salvage ops L ppc i' ds minb Hp HO0 HA HDc (firstn k ps) _ _ buf _ rest pts 0 mem x0 m0 HF Hfl Hpts (Z.le_refl 0) ltac:(lia) H0) as [E1 E2].
  change (0 * i_step i') with 0 in *. rewrite firstn_length_le in E2 by exact Hk. set (m := left_loop _ _ _ _ _ _ _ _ _ _ _ _) in *. clearbody m.
  rewrite <- (R2 j f' f kd Hj Hin Hst). symmetry.
  assert (Hf' : In f' (i_fields i')) by (eapply in_combine_l; exact Hin). rewrite Forall_forall in HO1. specialize (HO1 f' Hf' Hst).
  assert (Hty : f_type f = f_type f').
  { destruct HS as [HS _]. clear - HS Hin. revert Hin. generalize (kinds i). induction HS as [|g g' l l' [Hg _] HS IH]; intros ks Hin; [contradiction|].
    destruct ks as [|k0 ks]; [contradiction|]. cbn [combine] in Hin. destruct Hin as [E|Hin]; [congruence|]. eapply IH; exact Hin. }
  apply sub_same; [congruence|nia|]. intros y Hy Hr. apply E2; [exact Hy|]. intros (j2 & Hj2 & (o & sz & Hin2 & Hns & B5)).
  apply in_map_iff in Hin2. destruct Hin2 as (f2 & E & B3). assert (o = f_off f2 /\ sz = SizeOf (f_type f2)) as [-> ->] by (split; congruence).
  pose proof (HDS) as (_ & (_ & HO2) & _). rewrite Forall_forall in HO2. specialize (HO2 f2 B3 ltac:(unfold stored; lia)). rewrite Hty in Hr.
  assert (Hlt : (j < k * ppc)%nat). { pose proof (Nat.div_mod j ppc ltac:(lia)). pose proof (Nat.mod_upper_bound j ppc ltac:(lia)). nia. }
  assert (Hj3 : Z.of_nat j + 1 <= j2) by lia. clear - Hj3 B5 Hr HO1 HO2 HO0. nia.
Qed.
Print Assumptions C94_salvage.

(** ** A stream that ends early
    [tail]: what is left of a chunk that is not all there (not even its size, or fewer bytes than
    its size says). *)
Definition incomplete (tail : list Z) : Prop := zlen tail < 4 \/ zlen (skipn 4 tail) < le_val (firstn 4 tail).
Lemma left_loop_short ops L ppc i ds minb tail : (0 < ppc)%nat -> 0 < i_step i -> adaptive_stored i -> updateDecoders i = Ok (ds, minb) -> incomplete tail ->
  forall ps fuel b points lo a, Forall (fun p => zlen p < 4294967296) ps -> 0 <= points -> 0 <= lo -> zlen a < 4611686018427387904 ->
  conf (pts_places (i_step i) (PL i) lo (Z.min points (Z.of_nat (length ps * ppc)))) a (left_loop ops L ppc i ds minb fuel (concat (map frame ps) ++ tail) b points (lo * i_step i) a).
Proof.
  intros Hppc Hstep HA HD HT. induction ps as [|p ps IH]; intros fuel b points lo a HF Hp Hlo Hm.
  - cbn [map concat app length]. destruct fuel as [|fuel]; [destruct tail; apply conf_refl|]. destruct tail as [|y tail]; [apply conf_refl|]. cbn [left_loop]. destruct (points =? 0); [apply conf_refl|].
    unfold take_uint. destruct (length (y :: tail) <? 4)%nat eqn:E4; [apply conf_refl|]. apply Nat.ltb_ge in E4.
    destruct HT as [HT|HT]; [unfold zlen in HT; lia|]. replace (zlen (skipn 4 (y :: tail)) <? le_val (firstn 4 (y :: tail))) with true by lia. apply conf_refl.
  - apply Forall_cons_iff in HF. destruct HF as [Hz HF]. cbn [map concat]. rewrite <- app_assoc. destruct fuel as [|fuel]; [unfold frame; cbn [le_bytes app left_loop]; apply conf_refl|].
    rewrite left_loop_frame by exact Hz. destruct (points =? 0) eqn:E0; [apply conf_refl|]. apply Z.eqb_neq in E0. set (n := Z.min points (Z.of_nat ppc)) in *. assert (Hn : 0 < n <= points) by (unfold n; lia).
    assert (Hsub : forall x, pts_places (i_step i) (PL i) lo n x -> pts_places (i_step i) (PL i) lo (Z.min points (Z.of_nat (length (p :: ps) * ppc))) x).
    { intros x. apply pts_sub; [lia|]. cbn [length]. unfold n. lia. }
    assert (HL : conf (pts_places (i_step i) (PL i) lo (Z.min points (Z.of_nat (length (p :: ps) * ppc)))) a (left_chunk ops L i ds minb p b (Z.to_nat n) (lo * i_step i) a)).
    { eapply conf_mono; [exact Hsub|]. pose proof (left_chunk_conf ops L i Hstep HA ds minb p b (Z.to_nat n) lo a HD ltac:(lia) Hlo Hm) as HC. rewrite Z2Nat.id in HC by lia. exact HC. }
    destruct (decodeChunk ops L i ds minb p b (Z.to_nat n) (lo * i_step i) a) as [[[y1 e1] m1]| |] eqn:C; try exact HL. clear HL.
    destruct (decodeChunk_conf ops L i Hstep HA ds minb p b (Z.to_nat n) lo a y1 e1 m1 HD ltac:(lia) Hlo Hm C) as [-> C1]. rewrite Z2Nat.id in * by lia.
    assert (Hm1 : zlen m1 < 4611686018427387904) by (destruct C1 as [C1 _]; unfold zlen in *; lia).
    eapply conf_trans; [eapply conf_mono; [exact Hsub|exact C1]|]. eapply conf_mono; [|exact (IH fuel y1 (points - n) (lo + n) m1 HF ltac:(lia) ltac:(lia) Hm1)].
    intros x. apply pts_sub; [lia|]. cbn [length]. unfold n. lia.
Qed.
(** Whatever the chunks [ps]: a byte that belongs to no stored field of the points of these complete chunks is as it was
    before.  With C94_salvage: of a cloud whose stream was cut short, the points of the complete chunks are
    restored and nothing else is touched. *)
Theorem C94_cut_short : forall ops L ppc i ps tail buf mem,
  (0 < ppc)%nat -> 0 < i_step i -> 3 <= i_version i -> skips_supported i -> zlen mem < 4611686018427387904 ->
  payloads ps -> incomplete tail ->
  let data := concat (map frame ps) ++ tail in
  decode ops L ppc i data buf mem <> UB ->
  let left := decode_left ops L ppc i data buf mem in
  length left = length mem /\
  (forall x, (x < length mem)%nat -> ~ in_field i (Z.min (declared i) (Z.of_nat (length ps * ppc))) x -> nth_error left x = nth_error mem x).
Proof.
  intros ops L ppc i ps tail buf mem Hp Hs Hv HA Hm HP HT. cbv zeta. intros _. apply skips_adaptive in HA. unfold decode_left.
  destruct (updateDecoders i) as [[ds minb]| |] eqn:HD; try (split; [reflexivity|intros; reflexivity]). destruct (has_magic _); [split; [reflexivity|intros; reflexivity]|].
  replace (3 <=? i_version i) with true by lia. set (fu := S _). clearbody fu.
  assert (HF : Forall (fun p => zlen p < 4294967296) ps).
  { unfold payloads in HP. change (2 ^ 32) with 4294967296 in HP. eapply Forall_impl; [|exact HP]. intros p [_ H]. exact H. }
  destruct (left_loop_short ops L ppc i ds minb tail Hp Hs HA HD HT ps fu buf (u64 (i_width i * i_height i)) 0 mem HF ltac:(unfold u64; apply Z.mod_pos_bound; lia) (Z.le_refl 0) Hm) as [E1 E2].
  change (0 * i_step i) with 0 in *. split; [exact E1|]. intros x Hx Hn. apply E2; [exact Hx|]. intros HQ. apply Hn. now apply places_field.
Qed.
Print Assumptions C94_cut_short.

(** The first [t] bytes of a stream: [k] chunks are complete. *)
Definition complete_chunks (ps : list (list Z)) (t k : nat) : Prop :=
  (k <= length ps)%nat /\ (length (concat (map frame (firstn k ps))) <= t)%nat /\
  (k = length ps \/ (t < length (concat (map frame (firstn (S k) ps))))%nat).
Lemma complete_exists ps t : exists k, complete_chunks ps t k.
Proof.
  unfold complete_chunks. revert t. induction ps as [|p ps IH]; intros t; [exists O; cbn; auto with arith|].
  destruct (le_lt_dec (length (frame p)) t) as [H|H].
  - destruct (IH (t - length (frame p))%nat) as (k & A & B & C). exists (S k). cbn [firstn map concat length]. rewrite !app_length. split; [lia|]. split; [lia|].
    destruct C as [C|C]; [left; lia|right]. cbn [firstn map concat] in C. destruct ps; cbn [firstn map concat length] in *; rewrite ?app_length in *; cbn [length] in *; lia.
  - exists O. cbn [firstn map concat length]. rewrite app_length. cbn [length]. split; [lia|]. split; [lia|]. right. lia.
Qed.
Lemma cut_frames ps t k : Forall (fun p => zlen p < 4294967296) ps -> complete_chunks ps t k ->
  exists tail, firstn t (concat (map frame ps)) = concat (map frame (firstn k ps)) ++ tail /\ incomplete tail.
Proof.
  intros HF (A & B & C). assert (E : concat (map frame ps) = concat (map frame (firstn k ps)) ++ concat (map frame (skipn k ps))) by (rewrite <- concat_app, <- map_app, firstn_skipn; reflexivity).
  exists (firstn (t - length (concat (map frame (firstn k ps)))) (concat (map frame (skipn k ps)))).
  split; [rewrite E at 1; rewrite firstn_app, firstn_all2 by lia; reflexivity|]. set (q := (t - length (concat (map frame (firstn k ps))))%nat).
  destruct (skipn k ps) as [|p qs] eqn:Es; [left; cbn; rewrite firstn_nil; reflexivity|].
  assert (EK : firstn (S k) ps = firstn k ps ++ [p]).
  { clear - Es. revert ps Es. induction k as [|k IH]; intros [|x ps] Es; try discriminate Es; cbn [skipn] in Es; [cbn; congruence|]. cbn [firstn app]. f_equal. now apply IH. }
  assert (Hq : (q < length (frame p))%nat).
  { destruct C as [->|C]; [rewrite skipn_all in Es; discriminate|]. rewrite EK, map_app, concat_app, app_length in C. cbn [map concat] in C. rewrite app_nil_r in C. unfold q. lia. }
  cbn [map concat]. rewrite firstn_app. replace (q - length (frame p))%nat with O by lia. rewrite firstn_O, app_nil_r.
  assert (Hp : zlen p < 4294967296). { rewrite Forall_forall in HF. apply HF. rewrite <- (firstn_skipn k ps), Es. apply in_or_app. right. now left. }
  unfold frame in *. rewrite app_length, le_bytes_length in Hq. unfold incomplete. destruct (le_lt_dec 4 q) as [H4|H4].
  - right. assert (ET : firstn q (le_bytes 4 (zlen p) ++ p) = le_bytes 4 (zlen p) ++ firstn (q - 4) p).
    { rewrite firstn_app, le_bytes_length. rewrite firstn_all2 by (rewrite le_bytes_length; lia). reflexivity. }
    rewrite ET. assert (E1 : forall z r, firstn 4 (le_bytes 4 z ++ r) = le_bytes 4 z) by reflexivity. assert (E2 : forall z (r : list Z), skipn 4 (le_bytes 4 z ++ r) = r) by reflexivity.
    rewrite E1, E2. pose proof (zlen_nonneg p). rewrite le_val_le_bytes, Z.mod_small by (change (256 ^ Z.of_nat 4) with 4294967296; lia).
    unfold zlen. rewrite firstn_length_le by lia. lia.
  - left. unfold zlen. rewrite firstn_length. lia.
Qed.
(** A stream of encode() of which only the first [t] bytes are there: when decode has thrown, every stored field of the points of the
    complete chunks is restored as C17 says, and every other byte of the buffer is as it was. *)
Theorem C94_truncated : forall ops L ppc probe i i' cloud body n ps t k buf mem,
  libs_ok L -> encode_side ppc i cloud -> decode_side i i' -> deltas_ok ops i ppc cloud -> part ops L ppc probe i cloud body ->
  zlen body < 1431260227 -> zlen cloud = Z.of_nat n * i_step i -> declares i' n -> Z.of_nat n * i_step i' <= zlen mem < 4611686018427387904 ->
  i_comp i = COMP_NONE \/ worst_chunk i (Z.of_nat (Nat.min n ppc)) <= Z.of_nat n * i_step i' <= 2147483647 ->
  body = concat (map frame ps) -> payloads ps -> complete_chunks ps t k ->
  decode ops L ppc i' (firstn t body) buf mem = Throw ->
  let left := decode_left ops L ppc i' (firstn t body) buf mem in
  (forall j f' f kd, (j < n)%nat -> In (f', (f, kd)) (combine (i_fields i') (combine (i_fields i) (kinds i))) -> stored f' = true -> (j / ppc < k)%nat ->
     sub (Z.of_nat j * i_step i' + f_off f') (SizeOf (f_type f)) left = recon ops kd (fbytes i f cloud j)) /\
  length left = length mem /\
  (forall x, (x < length mem)%nat -> ~ in_field i' (Z.of_nat (k * ppc)) x -> nth_error left x = nth_error mem x).
Proof.
  intros ops L ppc probe i i' cloud body n ps t k buf mem HLi HES HDS HD HPa Hz Hlen Hdec Hm Hcap Hb HP HC H. cbv zeta.
  assert (HF : Forall (fun p => zlen p < 4294967296) ps).
  { unfold payloads in HP. change (2 ^ 32) with 4294967296 in HP. eapply Forall_impl; [|exact HP]. intros p [_ Hp]. exact Hp. }
  destruct (cut_frames ps t k HF HC) as (tail & E & HT). destruct HC as (Hk & _). rewrite Hb, E in *. rewrite <- Hb in HPa, Hz.
  assert (HU : decode ops L ppc i' (concat (map frame (firstn k ps)) ++ tail) buf mem <> UB) by (rewrite H; discriminate). split.
  - exact (C94_salvage ops L ppc probe i i' cloud body n ps k tail buf mem HLi HES HDS HD HPa Hz Hlen Hdec Hm Hcap Hb HP Hk HU).
  - pose proof HDS as (_ & [HO0 _] & _ & _ & HN & _ & Hver). pose proof HES as (_ & _ & (Hp & _) & _).
    assert (HS : skips_supported i'). { intros _ g Hg Hw. unfold ints_stored in HN. rewrite Forall_forall in HN. apply HN; assumption. }
    assert (HPk : payloads (firstn k ps)). { unfold payloads in *. apply Forall_forall. intros p Hp0. rewrite Forall_forall in HP. apply HP. rewrite <- (firstn_skipn k ps). apply in_or_app. now left. }
    destruct (C94_cut_short ops L ppc i' (firstn k ps) tail buf mem Hp HO0 Hver HS ltac:(lia) HPk HT HU) as [E1 E2]. split; [exact E1|].
    intros x Hx Hn. apply E2; [exact Hx|]. rewrite firstn_length_le by exact Hk. intros (j & f & Hj & HR). apply Hn. exists j, f. split; [lia|exact HR].
Qed.
Print Assumptions C94_truncated.

(** ** Decoding stops at the first chunk that fails
    Shown for uncompressed streams.  [first_points i m]: the same layout for the first [m] points only. *)
Definition first_points (i : info) (m : Z) : info := mkInfo (i_fields i) m 1 (i_step i) (i_enc i) (i_cfg i) (i_comp i) (i_threads i) (i_version i).
Lemma first_points_decoders i m : updateDecoders (first_points i m) = updateDecoders i.
Proof. destruct i. reflexivity. Qed.
Lemma first_points_chunk ops L i m ds minb p b n base mem : i_comp i = COMP_NONE -> decodeChunk ops L (first_points i m) ds minb p b n base mem = decodeChunk ops L i ds minb p b n base mem.
Proof. intros H. unfold decodeChunk. cbn [first_points i_comp]. rewrite !H. unfold DecompressChunk. destruct i. reflexivity. Qed.
Lemma loop_stops ops L ppc i ds minb m p rest : (0 < ppc)%nat -> 0 < i_step i -> adaptive_stored i -> updateDecoders i = Ok (ds, minb) -> i_comp i = COMP_NONE -> zlen p < 4294967296 ->
  forall ps fuel fuel' b points lo a, Forall (fun p => zlen p < 4294967296) ps -> Z.of_nat ((length ps + 1) * ppc) <= points -> 0 <= lo -> zlen a < 4611686018427387904 ->
  dec_loop ops L ppc (first_points i m) ds minb fuel (concat (map frame (ps ++ [p]))) b (Z.of_nat ((length ps + 1) * ppc)) (lo * i_step i) a = Throw ->
  conf (pts_places (i_step i) (PL i) lo (Z.of_nat ((length ps + 1) * ppc))) a (left_loop ops L ppc i ds minb fuel' (concat (map frame (ps ++ [p])) ++ rest) b points (lo * i_step i) a).
Proof.
  intros Hppc Hstep HA HD HN Hz.
  assert (HC : forall q b lo a k, 0 <= lo -> zlen a < 4611686018427387904 -> conf (pts_places (i_step i) (PL i) lo (Z.of_nat ((k + 1) * ppc))) a (left_chunk ops L i ds minb q b ppc (lo * i_step i) a)).
  { intros q b lo a k Hlo Hm. eapply conf_mono; [|apply (left_chunk_conf ops L i Hstep HA ds minb q b ppc lo a HD Hppc Hlo Hm)]. intros x. apply pts_sub; lia. }
  induction ps as [|q ps IH]; intros fuel fuel' b points lo a HF Hp Hlo Hm H.
  - cbn [app map concat length] in *. rewrite app_nil_r in *. destruct fuel as [|fuel]; [unfold frame in H; cbn [le_bytes app dec_loop] in H; discriminate H|].
    destruct fuel' as [|fuel']; [unfold frame; cbn [le_bytes app left_loop]; apply conf_refl|]. rewrite <- (app_nil_r (frame p)), dec_loop_frame in H by exact Hz. rewrite left_loop_frame by exact Hz.
    replace (Z.of_nat ((0 + 1) * ppc)) with (Z.of_nat ppc) in H by lia. rewrite Z.min_id, Nat2Z.id, first_points_chunk in H by exact HN. replace (Z.of_nat ppc =? 0) with false in H by lia.
    replace (points =? 0) with false by lia. rewrite Z.min_r, Nat2Z.id by lia.
    destruct (decodeChunk ops L i ds minb p b ppc (lo * i_step i) a) as [[[y1 e1] m1]| |] eqn:C; cbn [bind] in H; [|apply HC; assumption|discriminate].
    exfalso. replace (Z.of_nat ppc - Z.of_nat ppc) with 0 in H by lia. destruct fuel; discriminate H.
  - apply Forall_cons_iff in HF. destruct HF as [Hq HF]. cbn [app map concat] in *. rewrite <- app_assoc. destruct fuel as [|fuel]; [unfold frame in H; cbn [le_bytes app dec_loop] in H; discriminate H|].
    destruct fuel' as [|fuel']; [unfold frame; cbn [le_bytes app left_loop]; apply conf_refl|]. rewrite dec_loop_frame in H by exact Hq. rewrite left_loop_frame by exact Hq.
    cbn [length] in *. rewrite Z.min_r, Nat2Z.id, first_points_chunk in H by (exact HN || lia). rewrite Z.min_r, Nat2Z.id by lia.
    replace (Z.of_nat ((S (length ps) + 1) * ppc) =? 0) with false in H by lia. replace (points =? 0) with false by lia.
    destruct (decodeChunk ops L i ds minb q b ppc (lo * i_step i) a) as [[[y1 e1] m1]| |] eqn:C; cbn [bind] in H; [|apply (HC q b lo a (S (length ps))); assumption|discriminate].
    destruct (decodeChunk_conf ops L i Hstep HA ds minb q b ppc lo a y1 e1 m1 HD Hppc Hlo Hm C) as [-> C1].
    replace (Z.of_nat ((S (length ps) + 1) * ppc) - Z.of_nat ppc) with (Z.of_nat ((length ps + 1) * ppc)) in H by lia.
    assert (Hm1 : zlen m1 < 4611686018427387904) by (destruct C1 as [C1 _]; unfold zlen in *; lia).
    eapply conf_trans; [eapply conf_mono; [|exact C1]|eapply conf_mono; [|exact (IH fuel fuel' y1 (points - Z.of_nat ppc) (lo + Z.of_nat ppc) m1 HF ltac:(lia) ltac:(lia) Hm1 H)]]; intros x; apply pts_sub; lia.
Qed.
Lemma magic_app a r : has_magic a = true -> has_magic (a ++ r) = true.
Proof.
  unfold has_magic. rewrite !andb_true_iff, !Nat.leb_le, app_length. intros [H1 H2]. split; [lia|]. rewrite firstn_app. replace (length magic - length a)%nat with O by lia. rewrite firstn_O, app_nil_r. exact H2.
Qed.
(** If the chunks [ps] and [p], taken as the stream of the first (number of [ps] + 1) * ppc points, make decode throw (so one of
    them fails), then decoding a longer stream that begins with them writes nothing past the points of these chunks. *)
Theorem C94_stops_at_failure : forall ops L ppc i ps p rest buf mem,
  (0 < ppc)%nat -> 0 < i_step i -> 3 <= i_version i -> skips_supported i -> zlen mem < 4611686018427387904 -> i_comp i = COMP_NONE ->
  payloads (ps ++ [p]) -> Z.of_nat ((length ps + 1) * ppc) <= declared i ->
  decode ops L ppc (first_points i (Z.of_nat ((length ps + 1) * ppc))) (concat (map frame (ps ++ [p]))) buf mem = Throw ->
  let left := decode_left ops L ppc i (concat (map frame (ps ++ [p])) ++ rest) buf mem in
  length left = length mem /\
  (forall x, (x < length mem)%nat -> ~ in_field i (Z.of_nat ((length ps + 1) * ppc)) x -> nth_error left x = nth_error mem x).
Proof.
  intros ops L ppc i ps p rest buf mem Hp Hs Hv HA Hm HN HP Hdec H. cbv zeta. apply skips_adaptive in HA. unfold decode in H. rewrite first_points_decoders in H. unfold decode_left.
  destruct (updateDecoders i) as [[ds minb]| |] eqn:HD; cbn [bind] in H; [|split; [reflexivity|intros; reflexivity]|discriminate H].
  destruct (has_magic (concat (map frame (ps ++ [p])))) eqn:EM; [rewrite (magic_app _ _ EM); split; [reflexivity|intros; reflexivity]|].
  destruct (has_magic (concat (map frame (ps ++ [p])) ++ rest)); [split; [reflexivity|intros; reflexivity]|]. cbn [first_points i_version i_width i_height] in H. replace (3 <=? i_version i) with true in * by lia. rewrite Z.mul_1_r in H.
  assert (EU : u64 (Z.of_nat ((length ps + 1) * ppc)) = Z.of_nat ((length ps + 1) * ppc)).
  { unfold u64. apply Z.mod_small. unfold declared, u64 in Hdec. match type of Hdec with _ <= ?a mod ?b => pose proof (Z.mod_pos_bound a b ltac:(reflexivity)) end. lia. }
  rewrite EU in H. assert (HF : Forall (fun p => zlen p < 4294967296) (ps ++ [p])).
  { unfold payloads in HP. change (2 ^ 32) with 4294967296 in HP. eapply Forall_impl; [|exact HP]. intros q [_ Hq]. exact Hq. }
  apply Forall_app in HF. destruct HF as [HF Hz]. apply Forall_inv in Hz. change 0 with (0 * i_step i) in H at 1. set (fu := S (length (_ ++ _))).
  destruct (loop_stops ops L ppc i ds minb _ p rest Hp Hs HA HD HN Hz ps _ fu buf (declared i) 0 mem HF Hdec (Z.le_refl 0) Hm H) as [E1 E2].
  unfold declared in *. change (0 * i_step i) with 0 in *. split; [exact E1|]. intros x Hx Hn. apply E2; [exact Hx|]. intros HQ. apply Hn. now apply places_field.
Qed.
Print Assumptions C94_stops_at_failure.

(** ** Concrete cases
    The two points of C91, one per chunk; the second chunk has lost its last bytes.  Decoding throws; the
    first point is in the buffer, and so is the x of the second one, but not its last column. *)
Definition cut_rest : list Z := frame (firstn 12 dmg_p1).
Definition cut_data : list Z := concat (map frame (firstn 1 [dmg_p0; dmg_p1])) ++ cut_rest.
Example C94_case : let i := near_info in let ps := [dmg_p0; dmg_p1] in
  encode_side 1 i near_cloud /\ decode_side i i /\ deltas_ok sse_ops i 1 near_cloud /\
  part sse_ops store_libs 1 4096 i near_cloud (dmg_body ps) /\ zlen (dmg_body ps) < 1431260227 /\ zlen near_cloud = Z.of_nat 2 * i_step i /\ declares i 2 /\
  i_comp i = COMP_NONE /\ skips_supported i /\ 3 <= i_version i /\ payloads ps /\ (1 <= length ps)%nat /\
  decode sse_ops store_libs 1 i cut_data [] (repeat 255 64) = Throw /\
  match dmg_run ps with
  | Ok (_, m) => let left := decode_left sse_ops store_libs 1 i cut_data [] (repeat 255 64) in
                 let s := Z.to_nat (i_step i) in
                 firstn s left = firstn s m /\ left <> m /\ left <> firstn s m ++ skipn s (repeat 255 64)
  | _ => False
  end.
Proof.
  cbv zeta. split; [apply near_sides|]. split; [apply near_sides|]. split; [apply (deltas_okb_ok _ _ _ _ 2); [vm_compute; reflexivity|reflexivity|vm_compute; reflexivity]|].
  split; [exact dmg_part|]. split; [vm_compute; reflexivity|]. split; [reflexivity|]. split; [reflexivity|]. split; [reflexivity|].
  split; [intros _ f Hf _; cbn in Hf; repeat (destruct Hf as [<-|Hf]; [reflexivity|]); contradiction|]. split; [vm_compute; discriminate|].
  split; [apply dmg_payloads; vm_compute; reflexivity|]. split; [cbn; lia|]. split; [vm_compute; reflexivity|]. vm_compute. split; [reflexivity|]. split; discriminate.
Qed.
(** An exception does not mean that the buffer is as it was before. *)
Theorem C94_untouched_refuted : ~ (forall ops L ppc i data buf mem, libs_ok L -> (0 < ppc)%nat -> 0 < i_step i -> 3 <= i_version i ->
  decode ops L ppc i data buf mem = Throw -> decode_left ops L ppc i data buf mem = mem).
Proof.
  intros H. specialize (H sse_ops store_libs 1%nat near_info cut_data [] (repeat 255 64) store_libs_ok ltac:(lia) ltac:(vm_compute; reflexivity) ltac:(vm_compute; discriminate) ltac:(vm_compute; reflexivity)).
  apply (f_equal (firstn 1)) in H. vm_compute in H. discriminate H.
Qed.
Print Assumptions C94_untouched_refuted.
(** ... and the chunk that fails may be half written: bytes of its points differ from what was there. *)
Theorem C94_failing_chunk_untouched_refuted : ~ (forall ops L ppc i ps p buf mem, libs_ok L -> (0 < ppc)%nat -> 0 < i_step i -> 3 <= i_version i -> skips_supported i ->
  payloads (ps ++ [p]) -> decode ops L ppc i (concat (map frame (ps ++ [p]))) buf mem = Throw ->
  forall x, (x < length mem)%nat -> ~ in_field i (Z.of_nat (length ps * ppc)) x ->
    nth_error (decode_left ops L ppc i (concat (map frame (ps ++ [p]))) buf mem) x = nth_error mem x).
Proof.
  intros H. specialize (H sse_ops store_libs 1%nat near_info [dmg_p0] (firstn 12 dmg_p1) [] (repeat 255 64) store_libs_ok ltac:(lia) ltac:(vm_compute; reflexivity) ltac:(vm_compute; discriminate)).
  specialize (H ltac:(intros _ f Hf _; cbn in Hf; repeat (destruct Hf as [<-|Hf]; [reflexivity|]); contradiction) ltac:(apply dmg_payloads; vm_compute; reflexivity) ltac:(vm_compute; reflexivity)).
  specialize (H 32%nat ltac:(cbn; lia)). assert (HN : ~ in_field near_info (Z.of_nat (length [dmg_p0] * 1)) 32).
  { intros (j & f & Hj & Hf & _ & Hx). cbn [length] in Hj. assert (j = 0) by lia. subst j. cbn in Hf. repeat (destruct Hf as [<-|Hf]; [cbn in Hx; lia|]). contradiction. }
  specialize (H HN). vm_compute in H. discriminate H.
Qed.
Print Assumptions C94_failing_chunk_untouched_refuted.
Definition old_near : info := mkInfo (i_fields near_info) (i_width near_info) (i_height near_info) (i_step near_info) (i_enc near_info) (i_cfg near_info) (i_comp near_info) (i_threads near_info) 2.
Example C94_old_case : i_version old_near < 3 /\ decode sse_ops store_libs 1 old_near (skipn 4 cut_data) [] (repeat 255 64) = Throw /\
  decode_left sse_ops store_libs 1 old_near (skipn 4 cut_data) [] (repeat 255 64) <> repeat 255 64.
Proof. split; [vm_compute; reflexivity|]. split; [vm_compute; reflexivity|]. vm_compute. discriminate. Qed.
Definition short_data : list Z := concat (map frame (firstn 1 [dmg_p0; dmg_p1])) ++ firstn 16 (frame dmg_p1).
Example C94_cut_short_case : payloads [dmg_p0] /\ incomplete (firstn 16 (frame dmg_p1)) /\ declared near_info = 2 /\
  decode sse_ops store_libs 1 near_info short_data [] (repeat 255 64) = Throw /\
  exists m, decode_left sse_ops store_libs 1 near_info short_data [] (repeat 255 64) = m ++ repeat 255 32 /\ length m = 32%nat /\ m <> repeat 255 32.
Proof.
  split; [apply dmg_payloads; vm_compute; reflexivity|]. split; [right; vm_compute; reflexivity|]. split; [reflexivity|]. split; [vm_compute; reflexivity|].
  exists (firstn 32 (decode_left sse_ops store_libs 1 near_info short_data [] (repeat 255 64))). split; [vm_compute; reflexivity|]. split; [vm_compute; reflexivity|]. vm_compute. discriminate.
Qed.
Example C94_truncated_case : complete_chunks [dmg_p0; dmg_p1] 31 1 /\ firstn 31 (dmg_body [dmg_p0; dmg_p1]) = short_data.
Proof. split; [|vm_compute; reflexivity]. split; [cbn; lia|]. split; [vm_compute; lia|]. right. vm_compute. lia. Qed.
Example C94_stops_case : i_comp near_info = COMP_NONE /\ payloads ([] ++ [firstn 7 dmg_p0]) /\ declared near_info = 2 /\
  decode sse_ops store_libs 1 (first_points near_info 1) (concat (map frame ([] ++ [firstn 7 dmg_p0]))) [] (repeat 255 64) = Throw /\
  decode sse_ops store_libs 1 near_info (concat (map frame ([] ++ [firstn 7 dmg_p0])) ++ frame dmg_p1) [] (repeat 255 64) = Throw.
Proof. split; [reflexivity|]. split; [apply dmg_payloads; vm_compute; reflexivity|]. split; [reflexivity|]. split; vm_compute; reflexivity. Qed.
