(** Facts about the threaded encoder.  Proof file. *)
From Verif Require Import Base BaseFacts Types V5 Api ApiFacts Worker.

(** *** Writing a list of chunks in one thread *)
Lemma write_all_app L opt P Q : forall w, write_all L opt (P ++ Q) w = (perform n <- write_all L opt P ; perform m <- write_all L opt Q ; ret (n + m)) w.
Proof.
  induction P as [|x P IH]; intros w; cbn [app write_all].
  - unfold abind, ret. destruct (write_all L opt Q w) as [[m| |] v]; f_equal.
  - unfold abind. destruct (WriteStage1Chunk L opt x w) as [[n| |] v]; try reflexivity. rewrite IH. unfold abind, ret.
    destruct (write_all L opt P v) as [[m| |] v']; try reflexivity. destruct (write_all L opt Q v') as [[m'| |] v'']; try reflexivity. f_equal. f_equal. lia.
Qed.
Lemma worker_chunk L opt d w : opt <> COMP_NONE ->
  match worker_compress L opt d w with
  | (Ok n, v) => WriteStage1Chunk L opt d w = (Ok (n + 4), v)
  | (Throw, _) => fst (WriteStage1Chunk L opt d w) = Throw
  | (UB, _) => fst (WriteStage1Chunk L opt d w) = UB
  end.
Proof.
  intros Ho. unfold WriteStage1Chunk, worker_compress.
  assert (E : match opt with COMP_NONE => False | _ => True end) by (destruct opt; [congruence|exact I|exact I|exact I]).
  destruct (UINT32_MAX <? zlen d) eqn:Big.
  - unfold abind. destruct (advance 4 w) as [[u| |] v] eqn:A; try reflexivity.
    + unfold CompressChunk. rewrite Big. reflexivity.
    + unfold advance in A. destruct (avail w <? 4); discriminate A.
  - destruct opt; [contradiction| | |]; (unfold abind, ret; destruct (advance 4 w) as [[u| |] v]; [|reflexivity|reflexivity]; destruct (CompressChunk L _ d v) as [[sz| |] v']; [|reflexivity|reflexivity];
      destruct (put_at (w_pos w) (le_bytes 4 sz) v') as [[t| |] v'']; reflexivity).
Qed.

Ltac oks HW := match type of HW with Some ?x = Some ?r => let H := fresh in assert (H : r = x) by congruence; rewrite H; reflexivity end.
Section Proofs.
  Variables (L : libs) (opt : comp_opt).
  Hypothesis Hopt : opt <> COMP_NONE.
  Definition open_view (k : call) : res unit * wstate := (perform _ <- put_at 0 (k_hdr k) ; advance (zlen (k_hdr k))) (mkW 0 (k_out k) []).
  (** the single-threaded run of a call *)
  Definition seq_call (k : call) : res Z * wstate :=
    (perform _ <- put_at 0 (k_hdr k) ; perform _ <- advance (zlen (k_hdr k)) ; perform m <- write_all L opt (k_chunks k) ; if k_end k then ret (zlen (k_hdr k) + m) else fail) (mkW 0 (k_out k) []).
  Definition agrees (r : option Z * list Z) (k : call) : Prop :=
    match seq_call k with (Ok n, v) => r = (Some n, w_mem v) | _ => fst r = None end.
  (** Conditions on a call: the header fits, the run is defined, stage 1 throws, if at all,
      before its first chunk. *)
  Definition call_ok (k : call) : Prop := zlen (k_hdr k) <= zlen (k_out k) /\ fst (seq_call k) <> UB /\ (k_end k = true \/ k_chunks k = []).
  Lemma open_ok k : call_ok k -> exists v, open_view k = (Ok tt, v).
  Proof.
    intros (H & _). unfold open_view, abind, put_at. pose proof (zlen_nonneg (k_hdr k)) as N. cbn [w_mem w_pos].
    destruct (wr 0 (k_hdr k) (k_out k)) as [m| |] eqn:E; [|unfold wr in E; destruct (_ && _); discriminate E|unfold wr in E; destruct (_ && _) eqn:B; [discriminate E|lia]].
    unfold advance, avail. cbn [w_mem w_pos w_sts]. apply wr_inv in E. destruct E as (_ & _ & _ & E).
    assert (LM : zlen m = zlen (k_out k)) by (unfold zlen; lia).
    replace (zlen m - 0 <? zlen (k_hdr k)) with false by lia. eauto.
  Qed.
  Lemma seq_open k v : open_view k = (Ok tt, v) -> seq_call k = (perform m <- write_all L opt (k_chunks k) ; if k_end k then ret (zlen (k_hdr k) + m) else fail) v.
  Proof.
    unfold open_view, seq_call, abind. destruct (put_at 0 (k_hdr k) (mkW 0 (k_out k) [])) as [[[]| |] v1]; try discriminate. destruct (advance (zlen (k_hdr k)) v1) as [[[]| |] v2]; try discriminate.
    intros E. apply pair_equal_spec in E. destruct E as [_ ->]. reflexivity.
  Qed.

  (** *** The invariant *)
  Definition resting (w : wpc) : Prop := w = WCheck \/ w = WSleep \/ w = WNotify.
  Definition quiet (s : state) : Prop := s_has s = false /\ s_exit s = false /\ s_failed s = false /\ resting (s_w s).
  Definition dead (s : state) : Prop := s_has s = false /\ s_exit s = false /\ s_failed s = true /\ (s_w s = WFailNotify \/ s_w s = WExited).
  (** the worker's side of a call: [Q] chunks were handed over *)
  Inductive busy (k : call) (Q : list (list Z)) (s : state) : Prop :=
  | b_idle v0 n : open_view k = (Ok tt, v0) -> s_has s = false -> s_done s = true -> s_failed s = false -> resting (s_w s) ->
      write_all L opt Q v0 = (Ok n, s_view s) -> s_size s = zlen (k_hdr k) + n -> busy k Q s
  | b_pending v0 P n : open_view k = (Ok tt, v0) -> Q = P ++ [s_back s] -> s_has s = true -> s_done s = false -> s_failed s = false -> resting (s_w s) ->
      (s_w s = WSleep -> exists rest, s_c s = CNotify k rest) -> write_all L opt P v0 = (Ok n, s_view s) -> s_size s = zlen (k_hdr k) + n -> busy k Q s
  | b_work v0 P n : open_view k = (Ok tt, v0) -> Q = P ++ [s_back s] -> s_has s = false -> s_done s = false -> s_failed s = false -> s_w s = WCompress ->
      write_all L opt P v0 = (Ok n, s_view s) -> s_size s = zlen (k_hdr k) + n -> busy k Q s
  | b_publish v0 n m : open_view k = (Ok tt, v0) -> Q <> [] -> s_has s = false -> s_done s = false -> s_failed s = false -> s_w s = WPublish m ->
      write_all L opt Q v0 = (Ok (n + (m + 4)), s_view s) -> s_size s = zlen (k_hdr k) + n -> busy k Q s
  | b_fail v0 : open_view k = (Ok tt, v0) -> s_has s = false -> s_done s = false -> fst (write_all L opt Q v0) = Throw ->
      (s_w s = WFail /\ s_failed s = false \/ (s_w s = WFailNotify \/ s_w s = WExited) /\ s_failed s = true) -> busy k Q s.
  (** a sleeping caller will be notified *)
  Definition to_be_woken (s : state) : Prop := s_done s = true \/ s_failed s = true -> s_w s = WNotify \/ s_w s = WFailNotify.
  Definition caller_inv (s : state) : Prop :=
    match s_c s with
    | CNext | CEnter _ | DExit => quiet s \/ dead s
    | CJoin _ => dead s
    | CClear _ => dead s /\ s_w s = WExited
    | CReset _ => quiet s
    | CView _ => quiet s /\ s_done s = true /\ s_size s = 0
    | CStage k rest => s_exit s = false /\ exists Q, k_chunks k = Q ++ rest /\ busy k Q s
    | CWait k rest => s_exit s = false /\ exists Q, k_chunks k = Q ++ s_front s :: rest /\ busy k Q s
    | CWaitSleep k rest => s_exit s = false /\ to_be_woken s /\ exists Q, k_chunks k = Q ++ s_front s :: rest /\ busy k Q s
    | CSwap k rest => s_exit s = false /\ s_done s = true /\ s_failed s = false /\ exists Q, k_chunks k = Q ++ s_front s :: rest /\ busy k Q s
    | CNotify k rest => s_exit s = false /\ exists Q, k_chunks k = Q ++ rest /\ busy k Q s
    | CFinal k => s_exit s = false /\ k_end k = true /\ busy k (k_chunks k) s
    | CFinalSleep k => s_exit s = false /\ k_end k = true /\ to_be_woken s /\ busy k (k_chunks k) s
    | DNotify => s_exit s = true /\ (resting (s_w s) \/ s_w s = WFailNotify \/ s_w s = WExited)
    | DJoin => s_exit s = true /\ (s_w s = WCheck \/ s_w s = WNotify \/ s_w s = WFailNotify \/ s_w s = WExited)
    | CEnd => s_w s = WExited
    end.
  Definition current (c : cpc) : list call :=
    match c with
    | CEnter k | CJoin k | CClear k | CReset k | CView k | CStage k _ | CWait k _ | CWaitSleep k _ | CSwap k _ | CNotify k _ | CFinal k | CFinalSleep k => [k]
    | _ => []
    end.
  Definition ended (c : cpc) : Prop := match c with DExit | DNotify | DJoin | CEnd => True | _ => False end.
  Definition inv (calls : list call) (s : state) : Prop :=
    caller_inv s /\ (exists past, calls = past ++ current (s_c s) ++ s_calls s /\ Forall2 agrees (s_results s) past) /\ (ended (s_c s) -> s_calls s = []).

  Lemma write_prefix Q T v : fst (write_all L opt Q v) = Throw -> fst (write_all L opt (Q ++ T) v) = Throw.
  Proof. intros H. rewrite write_all_app. unfold abind. destruct (write_all L opt Q v) as [[n| |] v']; cbn [fst] in *; congruence. Qed.
  Lemma write_prefix_ub Q T v : fst (write_all L opt Q v) = UB -> fst (write_all L opt (Q ++ T) v) = UB.
  Proof. intros H. rewrite write_all_app. unfold abind. destruct (write_all L opt Q v) as [[n| |] v']; cbn [fst] in *; congruence. Qed.
  Lemma write_snoc P x v n v' : write_all L opt P v = (Ok n, v') ->
    write_all L opt (P ++ [x]) v = match WriteStage1Chunk L opt x v' with (Ok m, u) => (Ok (n + m), u) | (Throw, u) => (Throw, u) | (UB, u) => (UB, u) end.
  Proof.
    intros H. rewrite write_all_app. unfold abind at 1. rewrite H. cbn [write_all]. unfold abind, ret. destruct (WriteStage1Chunk L opt x v') as [[m| |] u]; try reflexivity. rewrite Z.add_0_r. reflexivity.
  Qed.

  (** One step of the worker during a call. *)
  Lemma busy_wstep k Q T s r : call_ok k -> k_chunks k = Q ++ T -> s_exit s = false -> busy k Q s -> wstep L opt s = Some r ->
    exists s', r = Ok s' /\ busy k Q s' /\ s_exit s' = false /\ s_front s' = s_front s /\ s_calls s' = s_calls s /\ s_results s' = s_results s /\ (s_done s = true -> s_done s' = true /\ s_failed s' = s_failed s) /\
      (s_c s' = s_c s /\ (to_be_woken s -> to_be_woken s') \/ s_c s' = s_c (wake_c s) /\ (s_w s = WNotify \/ s_w s = WFailNotify)).
  Proof.
    intros HK HQ HX HB HW. destruct s as [has done ex failed size front back view w c calls results]; cbn [s_exit] in HX; subst ex.
    assert (WC : forall st, (s_has (wake_c st) = s_has st /\ s_done (wake_c st) = s_done st /\ s_exit (wake_c st) = s_exit st /\ s_failed (wake_c st) = s_failed st /\ s_size (wake_c st) = s_size st /\ s_front (wake_c st) = s_front st) /\
       s_back (wake_c st) = s_back st /\ s_view (wake_c st) = s_view st /\ s_calls (wake_c st) = s_calls st /\ s_results (wake_c st) = s_results st).
    { intros st. unfold wake_c. destruct (s_c st); repeat split; reflexivity. }
    destruct HB as [v0 n O H1 H2 H3 H4 H5 H6|v0 P n O HQ' H1 H2 H3 H4 H7 H5 H6|v0 P n O HQ' H1 H2 H3 H4 H5 H6|v0 n m O HN H1 H2 H3 H4 H5 H6|v0 O H1 H2 H3 H4]; cbn [s_has s_done s_failed s_w s_c s_back s_view s_size s_front] in *.
    - subst has done failed. destruct H4 as [->|[-> | ->]]; unfold wstep in HW; cbn [s_w s_has s_exit orb] in HW; [|discriminate|].
      + assert (E : r = Ok (mkS false true false false size front back view WSleep c calls results)) by oks HW. eexists. split; [exact E|]. cbn.
        split; [eapply b_idle; cbn; eauto; right; left; reflexivity|]. do 4 (split; [reflexivity|]). split; [solve [intros; split; reflexivity | cbn; intros HDd; discriminate HDd]|]. left. split; [reflexivity|]. unfold to_be_woken. cbn. intros HT HD. destruct (HT HD); discriminate.
      + destruct (WC (mkS false true false false size front back view WNotify c calls results)) as ((A1 & A2 & A3 & A4 & A5 & A6) & A7 & A8 & A9 & A10).
        assert (E : r = Ok (set_w (wake_c (mkS false true false false size front back view WNotify c calls results)) WCheck)) by congruence. eexists. split; [exact E|].
        split; [eapply b_idle; cbn [s_has s_done s_failed s_w s_view s_size set_w]; rewrite ?A1, ?A2, ?A4, ?A5, ?A8; cbn; eauto; left; reflexivity|]. cbn [s_exit s_front s_calls s_results s_c set_w]. rewrite A3, A6, A9, A10. do 4 (split; [reflexivity|]). split; [cbn [s_done s_failed set_w]; rewrite A2, A4; cbn; intros HDd; split; [exact HDd|reflexivity]|]. right. split; [reflexivity|left; reflexivity].
    - subst has done failed. destruct H4 as [->|[-> | ->]]; unfold wstep in HW; cbn [s_w s_has s_exit orb] in HW; [|discriminate|].
      + assert (E : r = Ok (mkS false false false false size front back view WCompress c calls results)) by oks HW. eexists. split; [exact E|].
        split; [eapply b_work; cbn; eauto|]. do 4 (split; [reflexivity|]). split; [solve [intros; split; reflexivity | cbn; intros HDd; discriminate HDd]|]. left. split; [reflexivity|]. unfold to_be_woken. cbn. intros _ [HD|HD]; discriminate HD.
      + destruct (WC (mkS true false false false size front back view WNotify c calls results)) as ((A1 & A2 & A3 & A4 & A5 & A6) & A7 & A8 & A9 & A10).
        assert (E : r = Ok (set_w (wake_c (mkS true false false false size front back view WNotify c calls results)) WCheck)) by congruence. eexists. split; [exact E|].
        split; [eapply b_pending; cbn [s_has s_done s_failed s_w s_view s_size s_back s_c set_w]; rewrite ?A1, ?A2, ?A4, ?A5, ?A7, ?A8; cbn; eauto; [left; reflexivity|discriminate]|]. cbn [s_exit s_front s_calls s_results s_c set_w]. rewrite A3, A6, A9, A10. do 4 (split; [reflexivity|]). split; [cbn [s_done s_failed set_w]; rewrite A2, A4; cbn; intros HDd; split; [exact HDd|reflexivity]|]. right. split; [reflexivity|left; reflexivity].
    - subst has done failed w. unfold wstep in HW. cbn [s_w s_back s_view] in HW. pose proof (worker_chunk L opt back view Hopt) as WK. pose proof (write_snoc P back v0 n view H5) as SN. rewrite <- HQ' in SN.
      destruct (worker_compress L opt back view) as [[m| |] v'].
      + rewrite WK in SN. assert (E : r = Ok (mkS false false false false size front back v' (WPublish m) c calls results)) by oks HW. eexists. split; [exact E|].
        split; [eapply b_publish; cbn; eauto; rewrite HQ'; destruct P; discriminate|]. do 4 (split; [reflexivity|]). split; [solve [intros; split; reflexivity | cbn; intros HDd; discriminate HDd]|]. left. split; [reflexivity|]. unfold to_be_woken. cbn. intros _ [HD|HD]; discriminate HD.
      + assert (F : fst (write_all L opt Q v0) = Throw). { rewrite SN. destruct (WriteStage1Chunk L opt back view) as [[?| |] ?]; cbn [fst] in *; congruence. }
        assert (E : r = Ok (mkS false false false false size front back v' WFail c calls results)) by oks HW. eexists. split; [exact E|].
        split; [eapply b_fail; cbn; eauto|]. do 4 (split; [reflexivity|]). split; [solve [intros; split; reflexivity | cbn; intros HDd; discriminate HDd]|]. left. split; [reflexivity|]. unfold to_be_woken. cbn. intros _ [HD|HD]; discriminate HD.
      + exfalso. assert (F : fst (write_all L opt Q v0) = UB). { rewrite SN. destruct (WriteStage1Chunk L opt back view) as [[?| |] ?]; cbn [fst] in *; congruence. }
        apply (write_prefix_ub Q T) in F. rewrite <- HQ in F. destruct HK as (_ & HU & _). apply HU. rewrite (seq_open k v0 O). unfold abind. destruct (write_all L opt (k_chunks k) v0) as [[?| |] ?]; cbn [fst] in *; congruence.
    - subst has done failed w. unfold wstep in HW. cbn [s_w] in HW.
      assert (E : r = Ok (mkS false true false false (size + (m + 4)) front back view WNotify c calls results)) by oks HW. eexists. split; [exact E|].
      split; [eapply b_idle with (n := n + (m + 4)); cbn; eauto; [right; right; reflexivity|lia]|]. do 4 (split; [reflexivity|]). split; [solve [intros; split; reflexivity | cbn; intros HDd; discriminate HDd]|]. left. split; [reflexivity|]. unfold to_be_woken. cbn. intros _ _. left; reflexivity.
    - subst has done. destruct H4 as [[-> ->]|[[-> | ->] ->]]; unfold wstep in HW; cbn [s_w] in HW; [| |discriminate].
      + assert (E : r = Ok (mkS false false false true size front back view WFailNotify c calls results)) by oks HW. eexists. split; [exact E|].
        split; [eapply b_fail; cbn; eauto|]. do 4 (split; [reflexivity|]). split; [solve [intros; split; reflexivity | cbn; intros HDd; discriminate HDd]|]. left. split; [reflexivity|]. unfold to_be_woken. cbn. intros _ _. right; reflexivity.
      + destruct (WC (mkS false false false true size front back view WFailNotify c calls results)) as ((A1 & A2 & A3 & A4 & A5 & A6) & A7 & A8 & A9 & A10).
        assert (E : r = Ok (set_w (wake_c (mkS false false false true size front back view WFailNotify c calls results)) WExited)) by congruence. eexists. split; [exact E|].
        split; [eapply b_fail; cbn [s_has s_done s_failed s_w s_view s_size s_back s_c set_w]; rewrite ?A1, ?A2, ?A4, ?A5, ?A7, ?A8; cbn; eauto|]. cbn [s_exit s_front s_calls s_results s_c set_w]. rewrite A3, A6, A9, A10. do 4 (split; [reflexivity|]). split; [cbn [s_done s_failed set_w]; rewrite A2, A4; cbn; intros HDd; split; [exact HDd|reflexivity]|]. right. split; [reflexivity|right; reflexivity].
  Qed.

  Lemma resting_wstep s r : resting (s_w s) -> s_has s = false -> s_exit s = false -> wake_c s = s -> wstep L opt s = Some r ->
    exists w, resting w /\ r = Ok (set_w s w).
  Proof.
    intros H1 H2 H3 HWk HW. unfold wstep in HW. destruct H1 as [E|[E|E]]; rewrite E in HW; [|discriminate|].
    - rewrite H2, H3 in HW. cbn [orb] in HW. exists WSleep. split; [right; left; reflexivity|congruence].
    - rewrite HWk in HW. exists WCheck. split; [left; reflexivity|congruence].
  Qed.
  Lemma dead_wstep s r : s_w s = WFailNotify \/ s_w s = WExited -> wake_c s = s -> wstep L opt s = Some r -> r = Ok (set_w s WExited) /\ s_w s = WFailNotify.
  Proof. intros [E|E] HWk HW; unfold wstep in HW; rewrite E in HW; [|discriminate]. rewrite HWk in HW. split; [congruence|exact E]. Qed.

  Lemma inv_wstep calls s r : Forall call_ok calls -> inv calls s -> wstep L opt s = Some r -> exists s', r = Ok s' /\ inv calls s'.
  Proof.
    intros HC (HI & (past & HP & HR) & HD) HW.
    assert (Same : forall s', s_c s' = s_c s -> s_calls s' = s_calls s -> s_results s' = s_results s -> caller_inv s' -> inv calls s').
    { intros s' E1 E2 E3 HI'. split; [exact HI'|]. rewrite E1, E2, E3. split; [exists past; split; assumption|assumption]. }
    assert (KO : forall k, In k (current (s_c s)) -> call_ok k).
    { intros k Hk. rewrite Forall_forall in HC. apply HC. rewrite HP. apply in_or_app. right. apply in_or_app. left. exact Hk. }
    assert (Woken : forall c', current c' = current (s_c s) -> (ended c' -> ended (s_c s)) -> forall s', s_c s' = c' -> s_calls s' = s_calls s -> s_results s' = s_results s -> caller_inv s' -> inv calls s').
    { intros c' E0 E0' s' E1 E2 E3 HI'. split; [exact HI'|]. rewrite E1, E2, E3, E0. split; [exists past; split; assumption|auto]. }
    assert (Idle : (quiet s \/ dead s) -> wake_c s = s -> exists w, r = Ok (set_w s w) /\ (quiet s -> quiet (set_w s w)) /\ (dead s -> dead (set_w s w) /\ s_w s <> WExited)).
    { intros H HWk. destruct H as [(Q1 & Q2 & Q3 & Q4)|(Q1 & Q2 & Q3 & Q4)].
      - destruct (resting_wstep s r Q4 Q1 Q2 HWk HW) as (w & Hw & E). exists w. split; [exact E|]. split; [intros _; repeat split; assumption|]. intros (_ & _ & F & _). congruence.
      - destruct (dead_wstep s r Q4 HWk HW) as (E & Ew). exists WExited. split; [exact E|]. split; [intros (_ & _ & F & _); congruence|]. intros _. split; [|rewrite Ew; discriminate]. repeat split; try assumption. right. reflexivity. }
    assert (Wk : match s_c s with CWaitSleep _ _ | CFinalSleep _ => False | _ => True end -> wake_c s = s) by (unfold wake_c; destruct (s_c s); tauto).
    unfold caller_inv in HI. destruct (s_c s) as [|k|k|k|k|k|k rest|k rest|k rest|k rest|k rest|k|k| | | |] eqn:EC; cbn [current] in KO.
    - destruct (Idle HI (Wk I)) as (w & E & A & B). eexists. split; [exact E|]. apply Same; auto; cbn [s_c set_w]; unfold caller_inv; cbn [s_c set_w]; rewrite EC; auto. destruct HI; [left; auto|right; now apply B].
    - destruct (Idle HI (Wk I)) as (w & E & A & B). eexists. split; [exact E|]. apply Same; auto; cbn [s_c set_w]; unfold caller_inv; cbn [s_c set_w]; rewrite EC; auto. destruct HI; [left; auto|right; now apply B].
    - destruct (Idle (or_intror HI) (Wk I)) as (w & E & A & B). eexists. split; [exact E|]. apply Same; auto; cbn [s_c set_w]; unfold caller_inv; cbn [s_c set_w]; rewrite EC; auto. now apply B.
    - destruct HI as [HI HX]. destruct (Idle (or_intror HI) (Wk I)) as (w & E & A & B). destruct (B HI) as [_ B2]. congruence.
    - destruct (Idle (or_introl HI) (Wk I)) as (w & E & A & B). eexists. split; [exact E|]. apply Same; auto; cbn [s_c set_w]; unfold caller_inv; cbn [s_c set_w]; rewrite EC; auto.
    - destruct HI as (HI & HX). destruct (Idle (or_introl HI) (Wk I)) as (w & E & A & B). eexists. split; [exact E|]. apply Same; auto; cbn [s_c set_w]; unfold caller_inv; cbn [s_c set_w]; rewrite EC; auto.
    - destruct HI as (HX & Q & HQ & HB). destruct (busy_wstep k Q rest s r (KO k (or_introl eq_refl)) HQ HX HB HW) as (s' & E & B' & X' & F' & C' & R' & D' & S'). exists s'. split; [exact E|].
      assert (SC : s_c s' = s_c s) by (destruct S' as [[S' _]|[S' _]]; [exact S'|rewrite S', (Wk I); reflexivity]). apply Same; auto; [congruence|]. unfold caller_inv. rewrite SC, EC. split; [exact X'|]. exists Q. split; [congruence|exact B'].
    - destruct HI as (HX & Q & HQ & HB). destruct (busy_wstep k Q _ s r (KO k (or_introl eq_refl)) HQ HX HB HW) as (s' & E & B' & X' & F' & C' & R' & D' & S'). exists s'. split; [exact E|].
      assert (SC : s_c s' = s_c s) by (destruct S' as [[S' _]|[S' _]]; [exact S'|rewrite S', (Wk I); reflexivity]). apply Same; auto; [congruence|]. unfold caller_inv. rewrite SC, EC. split; [exact X'|]. exists Q. split; [congruence|exact B'].
    - destruct HI as (HX & HT & Q & HQ & HB). destruct (busy_wstep k Q _ s r (KO k (or_introl eq_refl)) HQ HX HB HW) as (s' & E & B' & X' & F' & C' & R' & D' & S'). exists s'. split; [exact E|].
      destruct S' as [[SC T']|[SC _]].
      + apply Same; auto; [congruence|]. unfold caller_inv. rewrite SC, EC. split; [exact X'|]. split; [auto|]. exists Q. split; [congruence|exact B'].
      + unfold wake_c in SC. rewrite EC in SC. cbn [s_c set_c] in SC. apply (Woken (CWait k rest)); auto. unfold caller_inv. rewrite SC. split; [exact X'|]. exists Q. split; [congruence|exact B'].
    - destruct HI as (HX & HD' & HF & Q & HQ & HB). destruct (busy_wstep k Q _ s r (KO k (or_introl eq_refl)) HQ HX HB HW) as (s' & E & B' & X' & F' & C' & R' & D' & S'). exists s'. split; [exact E|].
      assert (SC : s_c s' = s_c s) by (destruct S' as [[S' _]|[S' _]]; [exact S'|rewrite S', (Wk I); reflexivity]). destruct (D' HD') as [D1 D2]. apply Same; auto; [congruence|]. unfold caller_inv. rewrite SC, EC. split; [exact X'|]. split; [exact D1|]. split; [congruence|]. exists Q. split; [congruence|exact B'].
    - destruct HI as (HX & Q & HQ & HB). destruct (busy_wstep k Q rest s r (KO k (or_introl eq_refl)) HQ HX HB HW) as (s' & E & B' & X' & F' & C' & R' & D' & S'). exists s'. split; [exact E|].
      assert (SC : s_c s' = s_c s) by (destruct S' as [[S' _]|[S' _]]; [exact S'|rewrite S', (Wk I); reflexivity]). apply Same; auto; [congruence|]. unfold caller_inv. rewrite SC, EC. split; [exact X'|]. exists Q. split; [congruence|exact B'].
    - destruct HI as (HX & HE & HB). destruct (busy_wstep k (k_chunks k) [] s r (KO k (or_introl eq_refl)) ltac:(now rewrite app_nil_r) HX HB HW) as (s' & E & B' & X' & F' & C' & R' & D' & S'). exists s'. split; [exact E|].
      assert (SC : s_c s' = s_c s) by (destruct S' as [[S' _]|[S' _]]; [exact S'|rewrite S', (Wk I); reflexivity]). apply Same; auto; [congruence|]. unfold caller_inv. rewrite SC, EC. auto.
    - destruct HI as (HX & HE & HT & HB). destruct (busy_wstep k (k_chunks k) [] s r (KO k (or_introl eq_refl)) ltac:(now rewrite app_nil_r) HX HB HW) as (s' & E & B' & X' & F' & C' & R' & D' & S'). exists s'. split; [exact E|].
      destruct S' as [[SC T']|[SC _]].
      + apply Same; auto; [congruence|]. unfold caller_inv. rewrite SC, EC. auto.
      + unfold wake_c in SC. rewrite EC in SC. cbn [s_c set_c] in SC. apply (Woken (CFinal k)); auto. unfold caller_inv. rewrite SC. auto.
    - destruct (Idle HI (Wk I)) as (w & E & A & B). eexists. split; [exact E|]. apply Same; auto; cbn [s_c set_w]; unfold caller_inv; cbn [s_c set_w]; rewrite EC; auto. destruct HI; [left; auto|right; now apply B].
    - destruct HI as (HX & HI). unfold wstep in HW. assert (WkE : wake_c s = s) by (apply Wk; exact I). rewrite WkE in HW.
      destruct HI as [[Hw|[Hw|Hw]]|[Hw|Hw]]; rewrite Hw in HW; rewrite ?HX, ?Bool.orb_true_r in HW; try discriminate HW; eexists; (split; [symmetry; apply (f_equal (fun o => match o with Some x => x | None => Throw end)) in HW; exact HW|]);
        apply Same; auto; cbn [s_c set_w]; unfold caller_inv; cbn [s_c s_exit s_w set_w]; rewrite ?EC; auto; split; auto. left. left. reflexivity.
    - destruct HI as (HX & HI). unfold wstep in HW. assert (WkE : wake_c s = s) by (apply Wk; exact I). rewrite WkE in HW.
      destruct HI as [Hw|[Hw|[Hw|Hw]]]; rewrite Hw in HW; rewrite ?HX, ?Bool.orb_true_r in HW; try discriminate HW; eexists; (split; [symmetry; apply (f_equal (fun o => match o with Some x => x | None => Throw end)) in HW; exact HW|]);
        apply Same; auto; cbn [s_c set_w]; unfold caller_inv; cbn [s_c s_exit s_w set_w]; rewrite ?EC; auto; split; auto 6.
    - unfold wstep in HW. rewrite HI in HW. discriminate HW.
  Qed.

  Lemma busy_done k Q s : busy k Q s -> s_done s = true -> exists v0 n, open_view k = (Ok tt, v0) /\ s_has s = false /\ s_failed s = false /\ resting (s_w s) /\ write_all L opt Q v0 = (Ok n, s_view s) /\ s_size s = zlen (k_hdr k) + n.
  Proof. intros [v0 n| | | |] D; try congruence. exists v0, n. auto 10. Qed.
  Lemma busy_failed k Q s : busy k Q s -> s_failed s = true -> exists v0, open_view k = (Ok tt, v0) /\ s_has s = false /\ (s_w s = WFailNotify \/ s_w s = WExited) /\ fst (write_all L opt Q v0) = Throw.
  Proof. intros [| | | |v0 O H1 H2 H3 H4] D; try congruence. exists v0. destruct H4 as [[_ H4]|[H4 _]]; [congruence|]. auto. Qed.
  Lemma resting_not s : resting (s_w s) -> compressing s = false /\ publishing s = false.
  Proof. unfold compressing, publishing. intros [->|[-> | ->]]; auto. Qed.
  (** [busy] looks only at the fields it mentions *)
  Lemma busy_move k Q s s' : busy k Q s -> s_has s' = s_has s -> s_done s' = s_done s -> s_failed s' = s_failed s -> s_size s' = s_size s -> s_back s' = s_back s -> s_view s' = s_view s ->
    s_w s' = s_w s -> (s_w s = WSleep -> s_has s = true -> exists rest, s_c s' = CNotify k rest) -> busy k Q s'.
  Proof.
    intros HB E1 E2 E3 E4 E5 E6 E7 HS. destruct HB as [v0 n O H1 H2 H3 H4 H5 H6|v0 P n O HQ' H1 H2 H3 H4 H7 H5 H6|v0 P n O HQ' H1 H2 H3 H4 H5 H6|v0 n m O HN H1 H2 H3 H4 H5 H6|v0 O H1 H2 H3 H4].
    - eapply b_idle; rewrite ?E1, ?E2, ?E3, ?E4, ?E6, ?E7; eauto.
    - eapply b_pending; rewrite ?E1, ?E2, ?E3, ?E4, ?E5, ?E6, ?E7; eauto.
    - eapply b_work; rewrite ?E1, ?E2, ?E3, ?E4, ?E5, ?E6, ?E7; eauto.
    - eapply b_publish; rewrite ?E1, ?E2, ?E3, ?E4, ?E5, ?E6, ?E7; eauto.
    - eapply b_fail; rewrite ?E1, ?E2, ?E3, ?E4, ?E5, ?E6, ?E7; eauto.
  Qed.
  (** outside CNotify, a pending chunk means the worker is awake *)
  Lemma busy_awake k Q s : busy k Q s -> (forall rest, s_c s <> CNotify k rest) -> ~ (s_w s = WSleep /\ s_has s = true).
  Proof.
    intros HB HN (A & B). destruct HB as [v0 n O H1 H2 H3 H4 H5 H6|v0 P n O HQ' H1 H2 H3 H4 H7 H5 H6|v0 P n O HQ' H1 H2 H3 H4 H5 H6|v0 n m O HN' H1 H2 H3 H4 H5 H6|v0 O H1 H2 H3 H4]; try congruence.
    destruct (H7 A) as (rest & E). exact (HN rest E).
  Qed.
  Lemma inv_cstep calls s r : Forall call_ok calls -> inv calls s -> cstep s = Some r -> exists s', r = Ok s' /\ inv calls s'.
  Proof.
    intros HC (HI & (past & HP & HR) & HD) HW. unfold cstep in HW. unfold caller_inv in HI.
    assert (KO : forall k, In k (current (s_c s)) -> call_ok k).
    { intros k Hk. rewrite Forall_forall in HC. apply HC. rewrite HP. apply in_or_app. right. apply in_or_app. left. exact Hk. }
    (* the two ways a step ends *)
    assert (Go : forall s' c', s_c s' = c' -> current c' = current (s_c s) -> ended c' = ended (s_c s) -> s_calls s' = s_calls s -> s_results s' = s_results s -> caller_inv s' -> inv calls s').
    { intros s' c' E1 E2 E2' E3 E4 HI'. split; [exact HI'|]. rewrite E1, E2, E3, E4. split; [exists past; split; assumption|]. rewrite E2'. exact HD. }
    assert (Fin : forall s' k r', current (s_c s) = [k] -> s_c s' = CNext -> s_calls s' = s_calls s -> s_results s' = s_results s ++ [r'] -> agrees r' k -> (quiet s' \/ dead s') -> inv calls s').
    { intros s' k r' E1 E2 E3 E4 HA HI'. split; [unfold caller_inv; rewrite E2; exact HI'|]. rewrite E2, E3, E4. split; [|intros []]. exists (past ++ [k]). rewrite HP, E1. split; [rewrite <- !app_assoc; reflexivity|]. apply Forall2_app; [exact HR|]. constructor; [exact HA|constructor]. }
    assert (FailAgree : forall k Q T v0 m, k_chunks k = Q ++ T -> open_view k = (Ok tt, v0) -> fst (write_all L opt Q v0) = Throw -> agrees (None, m) k).
    { intros k Q T v0 m E O F. unfold agrees. rewrite (seq_open k v0 O). unfold abind. apply (write_prefix Q T) in F. rewrite <- E in F. destruct (write_all L opt (k_chunks k) v0) as [[?| |] ?]; cbn [fst] in *; congruence. }
    destruct (s_c s) as [|k|k|k|k|k|k rest|k rest|k rest|k rest|k rest|k|k| | | |] eqn:EC; cbn [current] in *.
    - destruct (s_calls s) as [|k ks] eqn:ECa.
      + eexists. split; [oks HW|]. split; [unfold caller_inv; cbn [s_c set_c]; exact HI|]. cbn [s_c set_c current s_calls s_results]. rewrite ECa. split; [exists past; split; assumption|reflexivity].
      + eexists. split; [oks HW|]. split; [unfold caller_inv; cbn [s_c]; exact HI|]. cbn [s_c current s_calls s_results]. split; [exists past; split; assumption|intros []].
    - eexists. split; [oks HW|]. destruct (s_failed s) eqn:EF.
      + apply (Go _ (CJoin k)); auto. unfold caller_inv. cbn [s_c set_c]. destruct HI as [(_ & _ & F & _)|HI]; [congruence|exact HI].
      + apply (Go _ (CReset k)); auto. unfold caller_inv. cbn [s_c set_c]. destruct HI as [HI|(_ & _ & F & _)]; [exact HI|congruence].
    - unfold exited in HW. destruct (s_w s) eqn:EW; try discriminate HW. eexists. split; [oks HW|]. apply (Go _ (CClear k)); auto. unfold caller_inv. cbn [s_c set_c]. split; [exact HI|exact EW].
    - eexists. split; [oks HW|]. apply (Go _ (CReset k)); auto. unfold caller_inv. cbn [s_c set_c]. destruct HI as ((A1 & A2 & A3 & A4) & A5). repeat split; cbn; auto. left. reflexivity.
    - destruct HI as (A1 & A2 & A3 & A4). destruct (resting_not s A4) as (N1 & N2). rewrite N1 in HW. eexists. split; [oks HW|]. apply (Go _ (CView k)); auto. unfold caller_inv. cbn [s_c set_c]. repeat split; cbn; auto.
    - destruct HI as ((A1 & A2 & A3 & A4) & A5 & A6). destruct (resting_not s A4) as (N1 & N2). rewrite N1, N2 in HW. cbn [orb] in HW. destruct (open_ok k (KO k (or_introl eq_refl))) as (v & O). fold (open_view k) in HW. rewrite O in HW.
      eexists. split; [oks HW|]. apply (Go _ (CStage k (k_chunks k))); auto. unfold caller_inv. cbn [s_c set_c]. split; [exact A2|]. exists []. split; [reflexivity|]. eapply b_idle with (n := 0); cbn; eauto. lia.
    - destruct HI as (HX & Q & HQ & HB). destruct rest as [|c rest].
      + rewrite app_nil_r in HQ. eexists. split; [oks HW|]. destruct (k_end k) eqn:EE.
        * apply (Go _ (CFinal k)); auto. unfold caller_inv. cbn [s_c set_c]. split; [exact HX|]. split; [exact EE|]. rewrite HQ. eapply busy_move; eauto. intros Ha Hb. exfalso. apply (busy_awake k Q s HB); [|auto]. intros rest. rewrite EC. discriminate.
        * destruct (KO k (or_introl eq_refl)) as (_ & _ & [K|K]); [congruence|]. rewrite K in HQ. subst Q. destruct (open_ok k (KO k (or_introl eq_refl))) as (v & O).
          assert (BI : quiet s). { destruct HB as [v0 n O' H1 H2 H3 H4 H5 H6|v0 P n O' HQ' H1 H2 H3 H4 H7 H5 H6|v0 P n O' HQ' H1 H2 H3 H4 H5 H6|v0 n m O' HN' H1 H2 H3 H4 H5 H6|v0 O' H1 H2 H3 H4]; [repeat split; assumption|destruct P; discriminate HQ'|destruct P; discriminate HQ'|congruence|discriminate H3]. }
          apply (Fin _ k (None, w_mem (s_view s))); auto. unfold agrees. rewrite (seq_open k v O), EE. unfold abind, fail. destruct (write_all L opt (k_chunks k) v) as [[?| |] ?]; reflexivity.
      + eexists. split; [oks HW|]. apply (Go _ (CWait k rest)); auto. unfold caller_inv. cbn [s_c set_c]. split; [exact HX|]. exists Q. split; [exact HQ|]. eapply busy_move; eauto. intros Ha Hb. exfalso. apply (busy_awake k Q s HB); [|auto]. intros r'. rewrite EC. discriminate.
    - destruct HI as (HX & Q & HQ & HB). eexists. split; [oks HW|]. assert (AW : ~ (s_w s = WSleep /\ s_has s = true)) by (apply (busy_awake k Q s HB); intros r'; rewrite EC; discriminate).
      destruct (s_failed s) eqn:EF; [rewrite Bool.orb_true_r|rewrite Bool.orb_false_r].
      + destruct (busy_failed k Q s HB EF) as (v0 & O & B1 & B2 & B3). apply (Fin _ k (None, w_mem (s_view s))); auto; [eapply FailAgree; eauto|right; repeat split; assumption].
      + destruct (s_done s) eqn:ED.
        * apply (Go _ (CSwap k rest)); auto. unfold caller_inv. cbn [s_c set_c]. split; [exact HX|]. split; [exact ED|]. split; [exact EF|]. exists Q. split; [exact HQ|]. eapply busy_move; eauto. intros Ha Hb. tauto.
        * apply (Go _ (CWaitSleep k rest)); auto. unfold caller_inv. cbn [s_c set_c]. split; [exact HX|]. split; [unfold to_be_woken; cbn; intros [|]; congruence|]. exists Q. split; [exact HQ|]. eapply busy_move; eauto. intros Ha Hb. tauto.
    - discriminate HW.
    - destruct HI as (HX & HDn & HF & Q & HQ & HB). destruct (busy_done k Q s HB HDn) as (v0 & n & O & B1 & B2 & B3 & B4 & B5). destruct (resting_not s B3) as (N1 & N2). rewrite N1 in HW. eexists. split; [oks HW|].
      apply (Go _ (CNotify k rest)); auto. unfold caller_inv. cbn [s_c set_c]. split; [exact HX|]. exists (Q ++ [s_front s]). split; [rewrite <- app_assoc; exact HQ|]. eapply b_pending; cbn; eauto.
    - destruct HI as (HX & Q & HQ & HB). eexists. split; [oks HW|]. apply (Go _ (CStage k rest)); auto; [unfold wake_w; destruct (s_w s); reflexivity|unfold wake_w; destruct (s_w s); reflexivity|].
      unfold caller_inv. cbn [s_c set_c]. split; [unfold wake_w; destruct (s_w s); exact HX|]. exists Q. split; [exact HQ|]. unfold wake_w. destruct (s_w s) eqn:EW; try (eapply busy_move; eauto; rewrite EW; discriminate).
      destruct HB as [v0 n O H1 H2 H3 H4 H5 H6|v0 P n O HQ' H1 H2 H3 H4 H7 H5 H6|v0 P n O HQ' H1 H2 H3 H4 H5 H6|v0 n m O HN H1 H2 H3 H4 H5 H6|v0 O H1 H2 H3 H4]; try congruence.
      + eapply b_idle; cbn; eauto. left. reflexivity.
      + eapply b_pending; cbn; eauto; [left; reflexivity|discriminate].
      + destruct H4 as [[H4 _]|[[H4|H4] _]]; congruence.
    - destruct HI as (HX & HE & HB). assert (AW : ~ (s_w s = WSleep /\ s_has s = true)) by (apply (busy_awake k _ s HB); intros r'; rewrite EC; discriminate).
      destruct (s_failed s) eqn:EF; [rewrite Bool.orb_true_r in HW|rewrite Bool.orb_false_r in HW].
      + eexists. split; [oks HW|]. destruct (busy_failed k _ s HB EF) as (v0 & O & B1 & B2 & B3). apply (Fin _ k (None, w_mem (s_view s))); auto; [eapply FailAgree with (T := []); eauto; now rewrite app_nil_r|right; repeat split; assumption].
      + destruct (s_done s) eqn:ED.
        * destruct (busy_done k _ s HB ED) as (v0 & n & O & B1 & B2 & B3 & B4 & B5). destruct (resting_not s B3) as (N1 & N2). rewrite N1, N2 in HW. cbn [orb] in HW. eexists. split; [oks HW|].
          apply (Fin _ k (Some (s_size s), w_mem (s_view s))); auto; [|left; repeat split; assumption]. unfold agrees. rewrite (seq_open k v0 O), HE. unfold abind, ret. rewrite B4, B5. reflexivity.
        * eexists. split; [oks HW|]. apply (Go _ (CFinalSleep k)); auto. unfold caller_inv. cbn [s_c set_c]. split; [exact HX|]. split; [exact HE|]. split; [unfold to_be_woken; cbn; intros [|]; congruence|]. eapply busy_move; eauto. intros Ha Hb. tauto.
    - discriminate HW.
    - eexists. split; [oks HW|]. apply (Go _ DNotify); auto. unfold caller_inv. cbn [s_c set_c]. split; [reflexivity|]. destruct HI as [(_ & _ & _ & H)|(_ & _ & _ & H)]; cbn; auto.
    - destruct HI as (HX & HI). eexists. split; [oks HW|]. apply (Go _ DJoin); auto; [unfold wake_w; destruct (s_w s); reflexivity|unfold wake_w; destruct (s_w s); reflexivity|].
      unfold caller_inv. cbn [s_c set_c]. unfold wake_w. destruct HI as [[H|[H|H]]|[H|H]]; rewrite H; cbn; rewrite ?HX, ?H; auto 6.
    - unfold exited in HW. destruct (s_w s) eqn:EW; try discriminate HW. eexists. split; [oks HW|]. apply (Go _ CEnd); auto.
    - discriminate HW.
  Qed.
  Lemma inv_spurious calls s s' : inv calls s -> spurious s s' -> inv calls s'.
  Proof.
    intros (HI & (past & HP & HR) & HD) HS. destruct HS as [EW|k rest EC|k EC].
    - split; [|split; [exists past; split; assumption|assumption]]. unfold caller_inv in *. cbn [s_c set_w].
      assert (Qt : quiet s -> quiet (set_w s WCheck)) by (intros (A & B & C & D); repeat split; cbn; auto; left; reflexivity).
      assert (Dd : dead s -> dead (set_w s WCheck)) by (intros (A & B & C & [D|D]); congruence).
      assert (Bs : forall k Q, busy k Q s -> busy k Q (set_w s WCheck)).
      { intros k Q HB. destruct HB as [v0 n O H1 H2 H3 H4 H5 H6|v0 P n O HQ' H1 H2 H3 H4 H7 H5 H6|v0 P n O HQ' H1 H2 H3 H4 H5 H6|v0 n m O HN H1 H2 H3 H4 H5 H6|v0 O H1 H2 H3 H4]; try congruence.
        - eapply b_idle; cbn; eauto. left. reflexivity.
        - eapply b_pending; cbn; eauto; left; reflexivity.
        - destruct H4 as [[H4 _]|[[H4|H4] _]]; congruence. }
      assert (TW : to_be_woken s -> to_be_woken (set_w s WCheck)) by (unfold to_be_woken; cbn; intros H G; destruct (H G); congruence).
      destruct (s_c s) as [|k|k|k|k|k|k rest|k rest|k rest|k rest|k rest|k|k| | | |]; cbn [s_exit s_done s_failed s_size s_front s_w set_w]; try tauto.
      + destruct HI as [HI E]. congruence.
      + destruct HI as (A & Q & B & C). eauto 6.
      + destruct HI as (A & Q & B & C). eauto 6.
      + destruct HI as (A & D & Q & B & C). eauto 8.
      + destruct HI as (A & D & E & Q & B & C). eauto 8.
      + destruct HI as (A & Q & B & C). eauto 6.
      + destruct HI as (A & B & C). auto.
      + destruct HI as (A & B & D & C). auto.
      + destruct HI as (A & _). split; [exact A|]. left. left. reflexivity.
      + congruence.
    - split; [|split; [exists past; rewrite EC in HP; cbn [current s_c set_c s_calls s_results] in *; split; assumption|intros []]]. unfold caller_inv in *. rewrite EC in HI. cbn [s_c set_c]. destruct HI as (A & B & Q & C & D). split; [exact A|]. exists Q. split; [exact C|].
      eapply busy_move; eauto. intros Ha Hb. exfalso. apply (busy_awake k Q s D); [|auto]. intros r'. rewrite EC. discriminate.
    - split; [|split; [exists past; rewrite EC in HP; cbn [current s_c set_c s_calls s_results] in *; split; assumption|intros []]]. unfold caller_inv in *. rewrite EC in HI. cbn [s_c set_c]. destruct HI as (A & B & C & D). split; [exact A|]. split; [exact B|].
      eapply busy_move; eauto. intros Ha Hb. exfalso. apply (busy_awake k _ s D); [|auto]. intros r'. rewrite EC. discriminate.
  Qed.
  Lemma inv_start calls : inv calls (start calls).
  Proof. split; [left; repeat split; left; reflexivity|]. split; [exists []; split; [reflexivity|constructor]|intros []]. Qed.
  Lemma inv_reachable calls s : Forall call_ok calls -> reachable L opt calls s -> inv calls s.
  Proof.
    intros HC H. induction H as [|s s' H IH HS|s s' H IH HS]; [apply inv_start| |eapply inv_spurious; eauto].
    inversion HS as [r HW|r HW]; subst.
    - destruct (inv_cstep calls s _ HC IH HW) as (s1 & E & HI). assert (s' = s1) by congruence. subst. exact HI.
    - destruct (inv_wstep calls s _ HC IH HW) as (s1 & E & HI). assert (s' = s1) by congruence. subst. exact HI.
  Qed.
  Lemma no_race calls s : Forall call_ok calls -> reachable L opt calls s -> forall r, thread_step L opt s r -> exists s', r = Ok s'.
  Proof.
    intros HC HR r HS. pose proof (inv_reachable calls s HC HR) as HI. inversion HS as [r' HW|r' HW]; subst.
    - destruct (inv_cstep calls s _ HC HI HW) as (s1 & E & _). eauto.
    - destruct (inv_wstep calls s _ HC HI HW) as (s1 & E & _). eauto.
  Qed.
  Lemma progress calls s : Forall call_ok calls -> reachable L opt calls s -> s_c s <> CEnd -> exists r, thread_step L opt s r.
  Proof.
    intros HC HR HE. pose proof (inv_reachable calls s HC HR) as (HI & _).
    assert (W : (exists r, wstep L opt s = Some r) -> exists r, thread_step L opt s r) by (intros (r & H); exists r; now apply by_worker).
    assert (C : (exists r, cstep s = Some r) -> exists r, thread_step L opt s r) by (intros (r & H); exists r; now apply by_caller).
    assert (Wk : s_w s <> WSleep -> s_w s <> WExited -> exists r, wstep L opt s = Some r).
    { intros A B. unfold wstep. destruct (s_w s); try congruence; eauto. destruct (worker_compress L opt (s_back s) (s_view s)) as [[?| |] ?]; eauto. }
    assert (Slp : forall k Q, busy k Q s -> to_be_woken s -> (forall rest, s_c s <> CNotify k rest) -> s_w s <> WSleep /\ s_w s <> WExited).
    { intros k Q HB HT HN. pose proof (busy_awake k Q s HB HN) as AW. destruct HB as [v0 n O H1 H2 H3 H4 H5 H6|v0 P n O HQ' H1 H2 H3 H4 H7 H5 H6|v0 P n O HQ' H1 H2 H3 H4 H5 H6|v0 n m O HN' H1 H2 H3 H4 H5 H6|v0 O H1 H2 H3 H4].
      - destruct (HT (or_introl H2)) as [E|E]; rewrite E; split; discriminate.
      - split; [tauto|]. destruct H4 as [E|[E|E]]; rewrite E; discriminate.
      - rewrite H4. split; discriminate.
      - rewrite H4. split; discriminate.
      - destruct H4 as [[H4 _]|[H4 F]]; [rewrite H4; split; discriminate|]. destruct (HT (or_intror F)) as [E|E]; rewrite E; split; discriminate. }
    unfold caller_inv in HI. destruct (s_c s) as [|k|k|k|k|k|k rest|k rest|k rest|k rest|k rest|k|k| | | |] eqn:EC; try (apply C; unfold cstep; rewrite EC; eauto; fail).
    - destruct HI as (_ & _ & _ & [E|E]); [apply W, Wk; rewrite E; discriminate|]. apply C. unfold cstep, exited. rewrite EC, E. eauto.
    - apply C. unfold cstep. rewrite EC. destruct (compressing s); eauto.
    - apply C. unfold cstep. rewrite EC. destruct (compressing s || publishing s); eauto. destruct (abind _ _ _) as [[?| |] ?]; eauto.
    - apply C. unfold cstep. rewrite EC. destruct rest; eauto.
    - destruct HI as (_ & HT & Q & _ & HB). apply W. destruct (Slp k Q HB HT) as (A & B); [discriminate|]. now apply Wk.
    - apply C. unfold cstep. rewrite EC. destruct (compressing s); eauto.
    - apply C. unfold cstep. rewrite EC. destruct (s_done s || s_failed s); eauto. destruct (s_failed s); eauto. destruct (compressing s || publishing s); eauto.
    - destruct HI as (_ & _ & HT & HB). apply W. destruct (Slp k _ HB HT) as (A & B); [discriminate|]. now apply Wk.
    - destruct HI as (_ & [E|[E|[E|E]]]); try (apply W, Wk; rewrite E; discriminate). apply C. unfold cstep, exited. rewrite EC, E. eauto.
    - congruence.
  Qed.
  (** *** Termination: every step of a thread makes this smaller *)
  Definition call_cost (k : call) : nat := (20 * List.length (k_chunks k) + 15)%nat.
  Definition caller_cost (c : cpc) : nat :=
    match c with
    | CNext => 6
    | CEnter k => 6 + 20 * List.length (k_chunks k) + 14
    | CJoin k => 6 + 20 * List.length (k_chunks k) + 13
    | CClear k => 6 + 20 * List.length (k_chunks k) + 12
    | CReset k => 6 + 20 * List.length (k_chunks k) + 9
    | CView k => 6 + 20 * List.length (k_chunks k) + 8
    | CStage k rest => 6 + 20 * List.length rest + 4
    | CWait k rest => 6 + 20 * List.length rest + 4 + 18
    | CWaitSleep k rest => 6 + 20 * List.length rest + 4 + 17
    | CSwap k rest => 6 + 20 * List.length rest + 4 + 16
    | CNotify k rest => 6 + 20 * List.length rest + 4 + 5
    | CFinal k => 6 + 2
    | CFinalSleep k => 6 + 1
    | DExit => 5 | DNotify => 4 | DJoin => 1 | CEnd => 0
    end%nat.
  Definition worker_cost (w : wpc) : nat :=
    match w with WExited => 0 | WSleep => 0 | WCheck => 1 | WNotify => 3 | WFailNotify => 3 | WFail => 4 | WPublish _ => 4 | WCompress => 5 end%nat.
  Definition cost (s : state) : nat :=
    (caller_cost (s_c s) + fold_right (fun k a => call_cost k + a) 0 (s_calls s) + worker_cost (s_w s) + (if s_has s then 6 else 0))%nat.
  Lemma cost_step s s' : thread_step L opt s (Ok s') -> (cost s' < cost s)%nat.
  Proof.
    intros H. inversion H as [r HW|r HW]; subst; unfold cost.
    - unfold cstep in HW. destruct (s_c s) as [|k|k|k|k|k|k rest|k rest|k rest|k rest|k rest|k|k| | | |] eqn:EC.
      + destruct (s_calls s) as [|k ks] eqn:ECa; (match type of HW with Some (Ok ?x) = _ => assert (s' = x) by congruence end; subst s'); cbn [s_c s_calls s_w s_has set_c fold_right caller_cost]; rewrite ?ECa; cbn [fold_right]; unfold call_cost; lia.
      + match type of HW with Some (Ok ?x) = _ => assert (s' = x) by congruence end; subst s'. cbn [s_c s_calls s_w s_has set_c]. destruct (s_failed s); cbn [caller_cost]; lia.
      + destruct (exited s); [|discriminate]. match type of HW with Some (Ok ?x) = _ => assert (s' = x) by congruence end; subst s'. cbn [s_c s_calls s_w s_has set_c caller_cost]. lia.
      + match type of HW with Some (Ok ?x) = _ => assert (s' = x) by congruence end; subst s'. cbn [s_c s_calls s_w s_has set_c set_w set_flags caller_cost worker_cost]. lia.
      + destruct (compressing s); [discriminate|]. match type of HW with Some (Ok ?x) = _ => assert (s' = x) by congruence end; subst s'. cbn [s_c s_calls s_w s_has set_c set_size set_flags caller_cost]. lia.
      + destruct (compressing s || publishing s); [discriminate|]. destruct (abind _ _ _) as [[?| |] v]; try discriminate; (match type of HW with Some (Ok ?x) = _ => assert (s' = x) by congruence end; subst s'); cbn [s_c s_calls s_w s_has set_c set_size set_view finish caller_cost]; lia.
      + destruct rest as [|c rest]; (match type of HW with Some (Ok ?x) = _ => assert (s' = x) by congruence end; subst s').
        * destruct (k_end k); cbn [s_c s_calls s_w s_has set_c finish caller_cost List.length]; lia.
        * cbn [s_c s_calls s_w s_has set_c set_bufs caller_cost List.length]. lia.
      + match type of HW with Some (Ok ?x) = _ => assert (s' = x) by congruence end; subst s'. destruct (s_done s || s_failed s); [destruct (s_failed s)|]; cbn [s_c s_calls s_w s_has set_c finish caller_cost]; lia.
      + discriminate.
      + destruct (compressing s); [discriminate|]. match type of HW with Some (Ok ?x) = _ => assert (s' = x) by congruence end; subst s'. cbn [s_c s_calls s_w s_has set_c set_flags set_bufs caller_cost]. destruct (s_has s); lia.
      + match type of HW with Some (Ok ?x) = _ => assert (s' = x) by congruence end; subst s'. unfold wake_w. destruct (s_w s) eqn:EW; cbn [s_c s_calls s_w s_has set_c set_w caller_cost worker_cost]; rewrite ?EW; cbn [worker_cost]; lia.
      + destruct (s_done s || s_failed s).
        * destruct (s_failed s); [|destruct (compressing s || publishing s); [discriminate|]]; (match type of HW with Some (Ok ?x) = _ => assert (s' = x) by congruence end; subst s'); cbn [s_c s_calls s_w s_has set_c finish caller_cost]; lia.
        * match type of HW with Some (Ok ?x) = _ => assert (s' = x) by congruence end; subst s'. cbn [s_c s_calls s_w s_has set_c caller_cost]. lia.
      + discriminate.
      + match type of HW with Some (Ok ?x) = _ => assert (s' = x) by congruence end; subst s'. cbn [s_c s_calls s_w s_has set_c set_flags caller_cost]. lia.
      + match type of HW with Some (Ok ?x) = _ => assert (s' = x) by congruence end; subst s'. unfold wake_w. destruct (s_w s) eqn:EW; cbn [s_c s_calls s_w s_has set_c set_w caller_cost worker_cost]; rewrite ?EW; cbn [worker_cost]; lia.
      + destruct (exited s); [|discriminate]. match type of HW with Some (Ok ?x) = _ => assert (s' = x) by congruence end; subst s'. cbn [s_c s_calls s_w s_has set_c caller_cost]. lia.
      + discriminate.
    - unfold wstep in HW. destruct (s_w s) as [| | |n| | | |] eqn:EW.
      + match type of HW with Some (Ok ?x) = _ => assert (s' = x) by congruence end; subst s'. destruct (s_has s) eqn:EH; destruct (s_exit s); cbn [orb]; cbn [s_c s_calls s_w s_has set_w set_flags worker_cost]; rewrite ?EH; lia.
      + discriminate.
      + destruct (worker_compress L opt (s_back s) (s_view s)) as [[?| |] ?]; try discriminate; (match type of HW with Some (Ok ?x) = _ => assert (s' = x) by congruence end; subst s'); cbn [s_c s_calls s_w s_has set_w set_view worker_cost]; lia.
      + match type of HW with Some (Ok ?x) = _ => assert (s' = x) by congruence end; subst s'. cbn [s_c s_calls s_w s_has set_w set_size set_flags worker_cost]. lia.
      + match type of HW with Some (Ok ?x) = _ => assert (s' = x) by congruence end; subst s'. unfold wake_c. destruct (s_c s) eqn:EC; cbn [s_c s_calls s_w s_has set_w set_c worker_cost]; rewrite ?EC; cbn [caller_cost]; lia.
      + match type of HW with Some (Ok ?x) = _ => assert (s' = x) by congruence end; subst s'. cbn [s_c s_calls s_w s_has set_w set_flags worker_cost]. lia.
      + match type of HW with Some (Ok ?x) = _ => assert (s' = x) by congruence end; subst s'. unfold wake_c. destruct (s_c s) eqn:EC; cbn [s_c s_calls s_w s_has set_w set_c worker_cost]; rewrite ?EC; cbn [caller_cost]; lia.
      + discriminate.
  Qed.
End Proofs.
