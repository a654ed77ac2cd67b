(** Two streams that differ in the bytes of some chunks, for C93. *)
From Verif Require Import Base BaseFacts Types Floats Fields Codec V5 Api Spec LibSpec LocalFacts RoundTrip ConfineFacts SyncFacts PropsFrame.
From Coq Require Import Lia.
Open Scope Z_scope.

Section Two.
Variables (ops : float_ops) (L : libs) (ppc : nat) (i : info) (ds : list fdec) (minb : nat).
Hypothesis Hppc : (0 < ppc)%nat.
Hypothesis HL : libs_ok L.
Hypothesis Hstep : 0 < i_step i.
Hypothesis HA : adaptive_stored i.
Hypothesis HD : updateDecoders i = Ok (ds, minb).
(** The places of the points of the chunks that differ. *)
Fixpoint dmg (ps ps' : list (list Z)) (lo points : Z) (x : Z) : Prop :=
  match ps, ps' with
  | p :: t, p' :: t' =>
      let n := Z.min points (Z.of_nat ppc) in
      (p <> p' /\ pts_places (i_step i) (PL i) lo n x) \/ dmg t t' (lo + n) (points - n) x
  | _, _ => False
  end.
Lemma chunk_two p p' b1 b2 n lo P a b x1 base1 a' x2 base2 b' : bytes p -> (0 < n)%nat -> 0 <= lo -> zlen a < 4611686018427387904 -> sync P a b ->
  decodeChunk ops L i ds minb p b1 n (lo * i_step i) a = Ok (x1, base1, a') ->
  decodeChunk ops L i ds minb p' b2 n (lo * i_step i) b = Ok (x2, base2, b') ->
  base1 = (lo + Z.of_nat n) * i_step i /\ base2 = (lo + Z.of_nat n) * i_step i /\ zlen a' = zlen a /\
  sync (fun x => P x /\ ~ (p <> p' /\ pts_places (i_step i) (PL i) lo (Z.of_nat n) x)) a' b'.
Proof.
  intros Hb Hn Hlo Hm HS H1 H2.
  assert (Hm2 : zlen b < 4611686018427387904) by (destruct HS as [E _]; unfold zlen in *; lia).
  destruct (decodeChunk_conf ops L i Hstep HA ds minb p b1 n lo a x1 base1 a' HD Hn Hlo Hm H1) as [E1 [C1 C1']].
  destruct (decodeChunk_conf ops L i Hstep HA ds minb p' b2 n lo b x2 base2 b' HD Hn Hlo Hm2 H2) as [E2 [C2 C2']].
  split; [exact E1|]. split; [exact E2|]. split; [unfold zlen; now rewrite C1|].
  destruct (list_eq_dec Z.eq_dec p p') as [<-|Hne].
  - destruct (decodeChunk_sync ops L i ds minb p b1 n lo P a b x1 base1 a' HD Hn HS H1) as (_ & n1 & H3 & HS1).
    pose proof (chunk_scratch ops L i ds minb p b1 b2 n (lo * i_step i) b HL Hb) as HC. rewrite H3, H2 in HC. destruct HC as [_ <-].
    eapply sync_mono; [|exact HS1]. intros x [Hx _]. now left.
  - destruct HS as [S1 S2]. split; [congruence|]. intros x Hx [HP HN]. rewrite C1 in Hx.
    rewrite C1', C2'; [now apply S2|lia| |exact Hx|]; intros HQ; apply HN; auto.
Qed.
Lemma loop_two : forall ps ps' fuel fuel' b1 b2 points lo P a b x1 a' x2 b', length ps = length ps' ->
  Forall (fun p => bytes p /\ zlen p < 4294967296) ps -> Forall (fun p => zlen p < 4294967296) ps' ->
  0 <= points -> 0 <= lo -> zlen a < 4611686018427387904 -> sync P a b ->
  dec_loop ops L ppc i ds minb fuel (concat (map frame ps)) b1 points (lo * i_step i) a = Ok (x1, a') ->
  dec_loop ops L ppc i ds minb fuel' (concat (map frame ps')) b2 points (lo * i_step i) b = Ok (x2, b') ->
  sync (fun x => P x /\ ~ dmg ps ps' lo points x) a' b'.
Proof.
  assert (Hdone : forall fuel buf points base m x m', dec_loop ops L ppc i ds minb fuel [] buf points base m = Ok (x, m') -> m' = m).
  { intros [|f] buf points base m x m' H; cbn [dec_loop] in H; (destruct (points =? 0); [congruence|discriminate]). }
  induction ps as [|p ps IH]; intros [|p' ps'] fuel fuel' b1 b2 points lo P a b x1 a' x2 b' Hl HF HF' Hp Hlo Hm HS H1 H2; try discriminate Hl.
  - cbn [map concat] in H1, H2. apply Hdone in H1. apply Hdone in H2. subst a' b'. eapply sync_mono; [|exact HS]. intros x [Hx _]. exact Hx.
  - apply Forall_cons_iff in HF. destruct HF as [[Hb Hz] HF]. apply Forall_cons_iff in HF'. destruct HF' as [Hz' HF'].
    cbn [map concat] in H1, H2. destruct fuel as [|fuel]; [unfold frame in H1; cbn [le_bytes app dec_loop] in H1; discriminate H1|].
    destruct fuel' as [|fuel']; [unfold frame in H2; cbn [le_bytes app dec_loop] in H2; discriminate H2|].
    rewrite dec_loop_frame in H1 by exact Hz. rewrite dec_loop_frame in H2 by exact Hz'. destruct (points =? 0) eqn:E0; [discriminate H1|]. apply Z.eqb_neq in E0.
    set (n := Z.min points (Z.of_nat ppc)) in *. assert (Hn : 0 < n <= points) by (unfold n; lia).
    apply bind_ok in H1. destruct H1 as ([[y1 e1] m1] & C1 & H1). apply bind_ok in H2. destruct H2 as ([[y2 e2] m2] & C2 & H2).
    destruct (chunk_two p p' b1 b2 (Z.to_nat n) lo P a b y1 e1 m1 y2 e2 m2 Hb ltac:(lia) Hlo Hm HS C1 C2) as (-> & -> & Ez & HS1).
    rewrite Z2Nat.id in * by lia.
    pose proof (IH ps' fuel fuel' y1 y2 (points - n) (lo + n) _ m1 m2 x1 a' x2 b' ltac:(cbn in Hl; lia) HF HF' ltac:(lia) ltac:(lia) ltac:(lia) HS1 H1 H2) as HR.
    eapply sync_mono; [|exact HR]. intros x [HP HN]. cbn [dmg] in HN. fold n in HN. split; [split; [exact HP|]|]; intros HQ; apply HN; auto.
Qed.
Lemma dmg_inv : forall ps ps' c points x, 0 <= points -> dmg ps ps' (Z.of_nat (c * ppc)) points x ->
  exists k p p', nth_error ps k = Some p /\ nth_error ps' k = Some p' /\ p <> p' /\
    pts_places (i_step i) (PL i) (Z.of_nat ((c + k) * ppc)) (Z.min (points - Z.of_nat (k * ppc)) (Z.of_nat ppc)) x.
Proof.
  induction ps as [|p ps IH]; intros [|p' ps'] c points x Hp H; cbn [dmg] in H; try contradiction.
  destruct H as [[Hne H]|H].
  - exists O, p, p'. do 3 (split; [reflexivity||exact Hne|]). rewrite Nat.add_0_r, Nat.mul_0_l. change (Z.of_nat 0) with 0. rewrite Z.sub_0_r. exact H.
  - destruct (Z.le_gt_cases points (Z.of_nat ppc)) as [G|G].
    + rewrite Z.min_l in H by lia. exfalso. replace (points - points) with 0 in H by lia. clear - H Hppc. revert ps' H. generalize (Z.of_nat (c * ppc) + points). induction ps as [|q ps IH]; intros lo [|q' ps'] H; cbn [dmg] in H; try contradiction.
      rewrite Z.min_l in H by lia. destruct H as [[_ (j & Hj & _)]|H]; [lia|]. eapply IH, H.
    + rewrite Z.min_r in H by lia. replace (Z.of_nat (c * ppc) + Z.of_nat ppc) with (Z.of_nat (S c * ppc)) in H by lia.
      destruct (IH ps' (S c) (points - Z.of_nat ppc) x ltac:(lia) H) as (k & q & q' & H1 & H2 & H3 & H4). exists (S k), q, q'. do 3 (split; [assumption|]).
      replace (c + S k)%nat with (S c + k)%nat by lia. replace (points - Z.of_nat (S k * ppc)) with (points - Z.of_nat ppc - Z.of_nat (k * ppc)) by lia. exact H4.
Qed.
End Two.
