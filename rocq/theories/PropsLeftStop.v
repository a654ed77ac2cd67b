(** C94, for every compression: chunks that make decoding fail leave the points of the chunks after them unwritten. *)
From Verif Require Import Base BaseFacts Types Floats Fields Codec V5 Api Spec LibSpec RoundTrip LocalFacts CodeFacts ApiFacts CloudApi Cases PropsStage1 PropsCloud PropsRecode PropsCompare ConfineFacts SyncFacts PropsConfine PropsFrame PropsJoin DamageFacts PropsDamage Left LeftFacts PropsLeft.
From Verif Require V5Facts.
From Coq Require Import Lia.
Open Scope Z_scope.

Lemma frame_more p t : (length t < length (frame p ++ t))%nat.
Proof. unfold frame. rewrite !app_length. cbn [le_bytes length]. lia. Qed.
Section Stop.
Variables (ops : float_ops) (L : libs) (ppc : nat) (i : info) (ds : list fdec) (minb : nat).
Hypothesis Hppc : (0 < ppc)%nat.
Hypothesis HL : libs_ok L.
Hypothesis Hstep : 0 < i_step i.
Hypothesis HA : adaptive_stored i.
Hypothesis HD : updateDecoders i = Ok (ds, minb).
Definition Empty (x : Z) : Prop := False.
Lemma empty_sync a b : length b = length a -> sync Empty a b.
Proof. intros H. split; [exact H|]. intros x _ []. Qed.
(** Whether a chunk decodes depends neither on the contents of the output buffer nor on the scratch buffer. *)
Lemma chunk_any p b1 b2 n lo a b x1 base1 a' : bytes p -> (0 < n)%nat -> 0 <= lo -> length b = length a -> zlen a < 4611686018427387904 ->
  decodeChunk ops L i ds minb p b1 n (lo * i_step i) a = Ok (x1, base1, a') ->
  exists x2 b', decodeChunk ops L i ds minb p b2 n (lo * i_step i) b = Ok (x2, (lo + Z.of_nat n) * i_step i, b') /\ length b' = length a'.
Proof.
  intros Hb Hn Hlo Hl Hm H.
  destruct (decodeChunk_sync ops L i ds minb p b1 n lo Empty a b x1 base1 a' HD Hn (empty_sync _ _ Hl) H) as (-> & n1 & H3 & [HS _]).
  pose proof (chunk_scratch ops L i ds minb p b1 b2 n (lo * i_step i) b HL Hb) as HC. rewrite H3 in HC.
  destruct (decodeChunk ops L i ds minb p b2 n (lo * i_step i) b) as [[[y2 e2] m2]| |]; [|contradiction|contradiction].
  destruct HC as [<- <-]. exists y2, n1. split; [reflexivity|exact HS].
Qed.
Lemma tail_any : forall qs fuel fuel' b1 b2 points lo a b x a', (length (concat (map frame qs)) < fuel')%nat ->
  Forall (fun p => bytes p /\ zlen p < 4294967296) qs -> 0 <= points -> 0 <= lo -> zlen a < 4611686018427387904 -> length b = length a ->
  dec_loop ops L ppc i ds minb fuel (concat (map frame qs)) b1 points (lo * i_step i) a = Ok (x, a') ->
  exists y b', dec_loop ops L ppc i ds minb fuel' (concat (map frame qs)) b2 points (lo * i_step i) b = Ok (y, b').
Proof.
  induction qs as [|q qs IH]; intros fuel fuel' b1 b2 points lo a b x a' Hf HF Hp Hlo Hm Hl H.
  - cbn [map concat] in *. exists b2, b. destruct fuel; destruct fuel'; cbn [dec_loop] in *; (destruct (points =? 0); [reflexivity|discriminate H]).
  - apply Forall_cons_iff in HF. destruct HF as [[Hb Hz] HF]. cbn [map concat] in *.
    destruct fuel as [|fuel]; [unfold frame in H; cbn [le_bytes app dec_loop] in H; discriminate H|]. destruct fuel' as [|fuel']; [lia|].
    rewrite dec_loop_frame in H by exact Hz. rewrite dec_loop_frame by exact Hz. destruct (points =? 0) eqn:E0; [discriminate H|]. apply Z.eqb_neq in E0.
    set (n := Z.min points (Z.of_nat ppc)) in *. assert (Hn : 0 < n <= points) by (unfold n; lia).
    apply bind_ok in H. destruct H as ([[y1 e1] m1] & C1 & H).
    destruct (decodeChunk_conf ops L i Hstep HA ds minb q b1 (Z.to_nat n) lo a y1 e1 m1 HD ltac:(lia) Hlo Hm C1) as [-> [El _]].
    destruct (chunk_any q b1 b2 (Z.to_nat n) lo a b _ _ _ Hb ltac:(lia) Hlo Hl Hm C1) as (x2 & b' & C2 & El2). rewrite C2. cbn [bind].
    rewrite Z2Nat.id in * by lia. pose proof (frame_more q (concat (map frame qs))) as HF4.
    eapply (IH fuel fuel' y1 x2 (points - n) (lo + n) m1 b' x a'); [clear - HF4 Hf; lia|exact HF|clear - Hn; lia|clear - Hn Hlo; lia| |exact El2|exact H].
    unfold zlen in *. rewrite El. exact Hm.
Qed.
Lemma two_stop : forall ps ps' qs fuel fuel' fl b1 b2 points lo a b x a', length ps' = length ps ->
  (length (concat (map frame (ps' ++ qs))) < fuel')%nat ->
  Forall (fun p => bytes p /\ zlen p < 4294967296) (ps ++ qs) -> Forall (fun p => zlen p < 4294967296) ps' ->
  0 <= points -> 0 <= lo -> zlen a < 4611686018427387904 -> length b = length a ->
  dec_loop ops L ppc i ds minb fuel (concat (map frame (ps ++ qs))) b1 points (lo * i_step i) a = Ok (x, a') ->
  dec_loop ops L ppc i ds minb fuel' (concat (map frame (ps' ++ qs))) b2 points (lo * i_step i) b = Throw ->
  conf (pts_places (i_step i) (PL i) lo (Z.of_nat (length ps * ppc))) b (left_loop ops L ppc i ds minb fl (concat (map frame (ps' ++ qs))) b2 points (lo * i_step i) b).
Proof.
  induction ps as [|p ps IH]; intros [|p' ps'] qs fuel fuel' fl b1 b2 points lo a b x a' Hl Hf HF HF' Hp Hlo Hm Hab H1 H2; try discriminate Hl.
  - exfalso. cbn [app] in *. destruct (tail_any qs fuel fuel' b1 b2 points lo a b x a' Hf HF Hp Hlo Hm Hab H1) as (y & b' & E). rewrite E in H2. discriminate H2.
  - apply Forall_cons_iff in HF. destruct HF as [[Hb Hz] HF]. apply Forall_cons_iff in HF'. destruct HF' as [Hz' HF']. fold (ps ++ qs) in HF.
    cbn [app map concat length] in *. destruct fuel as [|fuel]; [unfold frame in H1; cbn [le_bytes app dec_loop] in H1; discriminate H1|].
    destruct fuel' as [|fuel']; [lia|]. destruct fl as [|fl]; [unfold frame; cbn [le_bytes app left_loop]; apply conf_refl|].
    rewrite dec_loop_frame in H1 by exact Hz. rewrite dec_loop_frame in H2 by exact Hz'. rewrite left_loop_frame by exact Hz'.
    destruct (points =? 0) eqn:E0; [apply conf_refl|]. apply Z.eqb_neq in E0.
    set (n := Z.min points (Z.of_nat ppc)) in *. assert (Hn : 0 < n <= points) by (unfold n; lia). assert (Hn' : n <= Z.of_nat ppc) by (unfold n; lia).
    assert (ESm : Z.of_nat (S (length ps) * ppc) = Z.of_nat ppc + Z.of_nat (length ps * ppc)) by (cbn [Nat.mul]; apply Nat2Z.inj_add).
    assert (Hmb : zlen b < 4611686018427387904) by (unfold zlen in *; lia).
    apply bind_ok in H1. destruct H1 as ([[y1 e1] m1] & C1 & H1).
    destruct (decodeChunk_conf ops L i Hstep HA ds minb p b1 (Z.to_nat n) lo a y1 e1 m1 HD ltac:(lia) Hlo Hm C1) as [-> [El _]].
    destruct (decodeChunk ops L i ds minb p' b2 (Z.to_nat n) (lo * i_step i) b) as [[[y2 e2] m2]| |] eqn:C2; cbn [bind] in H2; [| |discriminate H2].
    + destruct (decodeChunk_conf ops L i Hstep HA ds minb p' b2 (Z.to_nat n) lo b y2 e2 m2 HD ltac:(lia) Hlo Hmb C2) as [-> C3]. pose proof C3 as [El2 _].
      rewrite Z2Nat.id in * by lia. eapply conf_trans; [eapply conf_mono; [|exact C3]; intros z; apply pts_sub; lia|].
      pose proof (frame_more p' (concat (map frame (ps' ++ qs)))) as HF4.
      assert (Hm1 : zlen m1 < 4611686018427387904) by (unfold zlen in *; rewrite El; exact Hm). assert (Hl2 : length m2 = length m1) by (clear - El El2 Hab; congruence).
      eapply conf_mono; [|apply (IH ps' qs fuel fuel' fl y1 y2 (points - n) (lo + n) m1 m2 x a' (eq_add_S _ _ Hl) ltac:(clear - HF4 Hf; lia) HF HF' ltac:(clear - Hn; lia) ltac:(clear - Hn Hlo; lia) Hm1 Hl2 H1 H2)].
      intros z. apply pts_sub; [clear - Hn; lia|]. rewrite ESm. clear - Hn'. lia.
    + eapply conf_mono; [|apply (left_chunk_conf ops L i Hstep HA ds minb p' b2 (Z.to_nat n) lo b HD ltac:(lia) Hlo Hmb)]. intros z. apply pts_sub; [lia|]. rewrite ESm, Z2Nat.id by (clear - Hn; lia). pose proof (Zle_0_nat (length ps * ppc)) as HH. clear - Hn' HH. lia.
Qed.
End Stop.

(** Take a stream that decodes and replace its first chunks [ps] by as many other chunks [ps'].  If decoding
    now throws, then nothing past the points of these chunks has been written: what comes after the damage
    is decoded only when everything before it was. *)
Theorem C94_damaged_start : forall ops L ppc i ps ps' qs buf buf' mem mem' x m,
  libs_ok L -> (0 < ppc)%nat -> 0 < i_step i -> 3 <= i_version i -> skips_supported i ->
  zlen mem < 4611686018427387904 -> length mem' = length mem -> length ps' = length ps ->
  payloads (ps ++ qs) -> payloads ps' ->
  decode ops L ppc i (concat (map frame (ps ++ qs))) buf mem = Ok (x, m) ->
  decode ops L ppc i (concat (map frame (ps' ++ qs))) buf' mem' = Throw ->
  let left := decode_left ops L ppc i (concat (map frame (ps' ++ qs))) buf' mem' in
  length left = length mem' /\
  (forall k, (k < length mem')%nat -> ~ in_field i (Z.of_nat (length ps * ppc)) k -> nth_error left k = nth_error mem' k).
Proof.
  intros ops L ppc i ps ps' qs buf buf' mem mem' x m HL Hp Hs Hv HA Hm Hmm Hl HP HP' H1 H2. cbv zeta. apply skips_adaptive in HA.
  unfold decode in H1, H2. unfold decode_left. apply bind_ok in H1. destruct H1 as ([ds minb] & HD & H1). rewrite HD in *. cbn [bind] in H2.
  destruct (has_magic (concat (map frame (ps ++ qs)))); [discriminate H1|].
  destruct (has_magic (concat (map frame (ps' ++ qs)))); [split; [reflexivity|intros; reflexivity]|].
  replace (3 <=? i_version i) with true in * by lia. change 0 with (0 * i_step i) in H1, H2 |- * at 1.
  assert (HF : Forall (fun p => bytes p /\ zlen p < 4294967296) (ps ++ qs)) by exact HP.
  assert (HF' : Forall (fun p => zlen p < 4294967296) ps').
  { eapply Forall_impl; [|exact HP']. intros q Hq. cbv beta in Hq. exact (proj2 Hq). }
  assert (Hd : 0 <= u64 (i_width i * i_height i)) by (unfold u64; match goal with |- _ <= ?a mod ?b => pose proof (Z.mod_pos_bound a b ltac:(reflexivity)) end; lia).
  destruct (two_stop ops L ppc i ds minb Hp HL Hs HA HD ps ps' qs _ _ (S (length (concat (map frame (ps' ++ qs))))) buf buf' _ 0 mem mem' x m Hl (Nat.lt_succ_diag_r _) HF HF' Hd (Z.le_refl 0) Hm Hmm H1 H2) as [E1 E2].
  split; [exact E1|]. intros k Hk Hn. apply E2; [exact Hk|]. intros HQ. apply Hn. now apply places_field.
Qed.
Print Assumptions C94_damaged_start.

(** The first chunk of the two has lost its end: the second point is left as it was, its chunk being intact. *)
Example C94_damaged_start_case : let i := near_info in
  skips_supported i /\ 3 <= i_version i /\ 0 < i_step i /\ payloads ([dmg_p0] ++ [dmg_p1]) /\ payloads [firstn 7 dmg_p0] /\
  (exists r, decode sse_ops store_libs 1 i (concat (map frame ([dmg_p0] ++ [dmg_p1]))) [] (repeat 0 64) = Ok r) /\
  decode sse_ops store_libs 1 i (concat (map frame ([firstn 7 dmg_p0] ++ [dmg_p1]))) [] (repeat 255 64) = Throw /\
  exists m, decode_left sse_ops store_libs 1 i (concat (map frame ([firstn 7 dmg_p0] ++ [dmg_p1]))) [] (repeat 255 64) = m ++ repeat 255 32.
Proof.
  cbv zeta. split; [intros _ f Hf _; cbn in Hf; repeat (destruct Hf as [<-|Hf]; [reflexivity|]); contradiction|]. split; [vm_compute; discriminate|].
  split; [vm_compute; reflexivity|]. split; [apply dmg_payloads; vm_compute; reflexivity|]. split; [apply dmg_payloads; vm_compute; reflexivity|].
  split; [eexists; vm_compute; reflexivity|]. split; [vm_compute; reflexivity|].
  exists (firstn 32 (decode_left sse_ops store_libs 1 near_info (concat (map frame ([firstn 7 dmg_p0] ++ [dmg_p1]))) [] (repeat 255 64))). vm_compute. reflexivity.
Qed.
(** The same under LZ4, with the library model that stores its input after a tag byte. *)
Definition near_lz4 : info := let i := near_info in mkInfo (i_fields i) (i_width i) (i_height i) (i_step i) (i_enc i) (i_cfg i) COMP_LZ4 (i_threads i) (i_version i).
Example C94_damaged_start_lz4_case :
  (exists r, decode sse_ops store_libs 1 near_lz4 (concat (map frame ([0 :: dmg_p0] ++ [0 :: dmg_p1]))) [] (repeat 0 64) = Ok r) /\
  decode sse_ops store_libs 1 near_lz4 (concat (map frame ([0 :: firstn 7 dmg_p0] ++ [0 :: dmg_p1]))) [] (repeat 255 64) = Throw /\
  exists m, decode_left sse_ops store_libs 1 near_lz4 (concat (map frame ([0 :: firstn 7 dmg_p0] ++ [0 :: dmg_p1]))) [] (repeat 255 64) = m ++ repeat 255 32.
Proof.
  split; [eexists; vm_compute; reflexivity|]. split; [vm_compute; reflexivity|].
  exists (firstn 32 (decode_left sse_ops store_libs 1 near_lz4 (concat (map frame ([0 :: firstn 7 dmg_p0] ++ [0 :: dmg_p1]))) [] (repeat 255 64))). vm_compute. reflexivity.
Qed.
