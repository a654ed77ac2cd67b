(** Properties C23, C24, C53: the threaded encoder, under every schedule. *)
From Verif Require Import Base BaseFacts Varint VarintFacts Types Floats Fields Codec V5 Api Spec LibSpec SeqSpec.
From Verif Require Import GorillaFacts FieldFacts WriteFacts CodecFacts BuildFacts RunFacts SectionFacts PaletteFacts V5Facts ChunkV5Facts Stage1Facts ApiFacts CloudFacts RoundTrip CloudRT LocalFacts SeqFacts ColumnFacts CloudApi SizeFacts Cases PropsField PropsColumn PropsStage1 PropsCloud PropsSize PropsBuffer PropsFrame.
From Verif Require Import Worker WorkerFacts WorkerCalls.

(** *** Vocabulary *)
(** One call: cloud, output buffer, whether the header is written. *)
Record job := mkJob { j_cloud : list Z; j_out : list Z; j_hdr : bool }.
(** The jobs pass the checks encode makes before it involves the worker; [calls] are what the
    caller then runs.  (A call that does not pass them throws and touches nothing: C27.) *)
Definition accepted (ops : float_ops) (L : libs) (ppc probe : nat) (e : encoder) (jobs : list job) (calls : list call) : Prop :=
  Forall2 (fun j k => encode_call ops L ppc probe e (j_cloud j) (j_out j) (j_hdr j) = Ok k) jobs calls.
Definition job_ok (ppc : nat) (i : info) (j : job) : Prop := encode_side ppc i (j_cloud j) /\ bytes (j_out j).
(** [r] (size or exception, and the output buffer) is what the job gives without threads. *)
Definition like_single_threaded (ops : float_ops) (L : libs) (ppc probe : nat) (e : encoder) (j : job) (r : option Z * list Z) : Prop :=
  match encode_view ops L ppc probe e (j_cloud j) (j_out j) (j_hdr j) with
  | (Ok n, out, _) => r = (Some n, out)
  | _ => fst r = None
  end.

Lemma accepted_ok ops L ppc probe i hdr0 e j k : libs_ok L -> bytes hdr0 -> encoder_of ops L ppc probe i (Ok hdr0) e -> job_ok ppc i j ->
  encode_call ops L ppc probe e (j_cloud j) (j_out j) (j_hdr j) = Ok k -> call_ok L (i_comp i) k.
Proof.
  intros HLi Hh HEo ((HL & HK & HCl & Hc) & Ho) HC.
  destruct (encode_view ops L ppc probe e (j_cloud j) (j_out j) (j_hdr j)) as [[r out'] e'] eqn:EV.
  destruct (C27_in_bounds ops L ppc probe i hdr0 e _ _ _ _ _ _ HLi Hh (conj HL (conj HK (conj HCl Hc))) HEo Ho EV) as (HU & _).
  destruct (encode_call_run _ _ _ _ _ _ _ _ _ HC) as [R1 R2]. rewrite EV in R1. cbn [fst] in R1.
  destruct (encoder_of_ready _ _ _ _ _ _ _ HEo) as (HR & HI & Hhd & _). assert (hdr0 = e_hdr e) by congruence. subst hdr0. subst i.
  pose proof (limits_v5 _ _ HCl) as Hv5. destruct HCl as (Hp & _).
  unfold encode_call in HC. destruct (Z.eqb_spec (i_step (e_info e)) 0) as [|Hs]; [discriminate|].
  destruct (Z.eqb_spec (zlen (j_cloud j) mod i_step (e_info e)) 0) as [Hmod|]; cbn [negb] in HC; [|discriminate]. cbv zeta in HC.
  set (n := (length (j_cloud j) / Z.to_nat (i_step (e_info e)))%nat) in *. destruct (MaxCompressedSize L ppc (e_info e) n 0) as [need| |] eqn:EM; cbn [bind] in HC; try discriminate.
  assert (Hs0 : 0 < i_step (e_info e)) by apply HL.
  assert (Hlen : length (j_cloud j) = (n * Z.to_nat (i_step (e_info e)))%nat).
  { unfold n. pose proof (Nat.div_mod (length (j_cloud j)) (Z.to_nat (i_step (e_info e))) ltac:(lia)) as HDM.
    assert (Hm0 : (length (j_cloud j) mod Z.to_nat (i_step (e_info e)) = 0)%nat).
    { apply Nat2Z.inj. rewrite Nat2Z.inj_mod by lia. rewrite Z2Nat.id by lia. exact Hmod. }
    rewrite Hm0 in HDM. rewrite Nat.mul_comm. lia. }
  assert (HM : exists m, MaxSerializedPointSize (e_info e) = Ok m).
  { unfold MaxCompressedSize in EM. replace (i_step (e_info e) =? 0) with false in EM by lia. destruct (MaxSerializedPointSize (e_info e)); cbn in EM; try discriminate. eauto. }
  destruct HM as (m & HM). assert (Hneed : 0 <= need) by (eapply max_size_nonneg; eauto; lia).
  destruct (Z.ltb_spec (zlen (j_out j)) (need + zlen (if j_hdr j then e_hdr e else []))) as [|Hroom]; [discriminate|].
  split; [|split; [rewrite <- R1; exact HU|]].
  - destruct (body_chunks ops ppc probe e (j_cloud j) n) as [bss [| |]]; inversion HC; cbn [k_hdr k_out]; lia.
  - destruct (body_chunks_all ops ppc probe e (j_cloud j) n m HR HL HK Hc Hlen Hp Hv5 HM) as [E|E].
    + left. destruct (body_chunks ops ppc probe e (j_cloud j) n) as [bss r0]. cbn [snd] in E. subst r0. inversion HC. reflexivity.
    + right. rewrite E in HC. inversion HC. reflexivity.
Qed.
Lemma accepted_all ops L ppc probe i hdr0 e jobs calls : libs_ok L -> bytes hdr0 -> encoder_of ops L ppc probe i (Ok hdr0) e -> Forall (job_ok ppc i) jobs ->
  accepted ops L ppc probe e jobs calls -> Forall (call_ok L (i_comp i)) calls.
Proof.
  intros HLi Hh HEo HJ HA. induction HA as [|j k jobs calls HA1 HA IH]; [constructor|]. inversion HJ; subst. constructor; [eapply accepted_ok; eauto|auto].
Qed.

(** * C23 *)
(** Whatever the threads do, at every moment the calls that have finished gave what the same
    calls give without threads, on the same object or on any other object of the same
    description; when the object has been destroyed, all calls have finished. *)
Theorem C23_threaded_equals_single_threaded : forall ops L ppc probe i hdr0 e jobs calls s,
  libs_ok L -> bytes hdr0 -> i_comp i <> COMP_NONE -> encoder_of ops L ppc probe i (Ok hdr0) e ->
  Forall (job_ok ppc i) jobs -> accepted ops L ppc probe e jobs calls -> reachable L (i_comp i) calls s ->
  exists finished pending, jobs = finished ++ pending /\
    Forall2 (fun j r => forall e', encoder_of ops L ppc probe i (Ok hdr0) e' -> like_single_threaded ops L ppc probe e' j r) finished (s_results s) /\
    (s_c s = CEnd -> pending = []).
Proof.
  intros ops L ppc probe i hdr0 e jobs calls s HLi Hh Hopt HEo HJ HA HR.
  pose proof (accepted_all _ _ _ _ _ _ _ _ _ HLi Hh HEo HJ HA) as HC.
  destruct (inv_reachable L (i_comp i) Hopt calls s HC HR) as (_ & (past & Hcalls & HF) & Hend).
  assert (HS : exists finished pending, jobs = finished ++ pending /\ accepted ops L ppc probe e finished past /\ accepted ops L ppc probe e pending (current (s_c s) ++ s_calls s)).
  { clear - HA Hcalls. subst calls. revert jobs HA. induction past as [|k past IH]; intros jobs HA; [exists [], jobs; repeat split; [constructor|exact HA]|].
    inversion HA as [|j k' jobs' ? H1 H2]; subst. destruct (IH jobs' H2) as (f & p & -> & Hf & Hp). exists (j :: f), p. split; [reflexivity|]. split; [constructor; assumption|exact Hp]. }
  destruct HS as (finished & pending & -> & Hf & Hp). exists finished, pending. split; [reflexivity|]. split.
  - assert (HEi : e_info e = i) by apply (encoder_of_ready _ _ _ _ _ _ _ HEo).
    clear Hcalls Hend HC HJ HA Hp. revert past Hf HF. generalize (s_results s). intros rs. revert finished. induction rs as [|r rs IH]; intros finished past Hf HF; inversion HF as [|r' k rs' past' HG HF' HX HY]; subst past; inversion Hf as [|j k' fin' past'' HK Hf']; subst; constructor.
    + intros e' HEo'. unfold like_single_threaded. destruct (C19_encoder_history ops L ppc probe (e_info e) (Ok hdr0) e' e (j_cloud j) (j_out j) (j_hdr j) HEo' HEo) as [HH _].
      destruct (encode_call_run _ _ _ _ _ _ _ _ _ HK) as [R1 R2].
      destruct (encode_view ops L ppc probe e (j_cloud j) (j_out j) (j_hdr j)) as [[r1 o1] e1]. destruct (encode_view ops L ppc probe e' (j_cloud j) (j_out j) (j_hdr j)) as [[r2 o2] e2].
      cbn [fst snd] in *. apply pair_equal_spec in HH. destruct HH as [-> ->]. unfold agrees in HG. destruct (seq_call L (i_comp (e_info e)) k) as [[m| |] v]; cbn [fst snd] in *; subst r1 o1; exact HG.
    + eapply IH; eauto.
  - intros HE. rewrite HE in *. cbn [current app] in Hp. specialize (Hend I). rewrite Hend in Hp. inversion Hp. reflexivity.
Qed.
Print Assumptions C23_threaded_equals_single_threaded.

(** * C24 *)
(** No deadlock: until the object is destroyed, some thread can take a step (which is not a
    data race). *)
Theorem C24_no_deadlock : forall ops L ppc probe i hdr0 e jobs calls s,
  libs_ok L -> bytes hdr0 -> i_comp i <> COMP_NONE -> encoder_of ops L ppc probe i (Ok hdr0) e ->
  Forall (job_ok ppc i) jobs -> accepted ops L ppc probe e jobs calls -> reachable L (i_comp i) calls s ->
  s_c s <> CEnd -> exists s', thread_step L (i_comp i) s (Ok s').
Proof.
  intros ops L ppc probe i hdr0 e jobs calls s HLi Hh Hopt HEo HJ HA HR HE. pose proof (accepted_all _ _ _ _ _ _ _ _ _ HLi Hh HEo HJ HA) as HC.
  destruct (progress L (i_comp i) Hopt calls s HC HR HE) as (r & Hr). destruct (no_race L (i_comp i) Hopt calls s HC HR r Hr) as (s' & ->). eauto.
Qed.
Print Assumptions C24_no_deadlock.
(** An execution from [s]: [n] steps of the threads, [m] spurious wake-ups, in any order. *)
Inductive execution (L : libs) (opt : comp_opt) : state -> nat -> nat -> state -> Prop :=
| ex_here s : execution L opt s 0 0 s
| ex_step s n m s' s'' : execution L opt s n m s' -> thread_step L opt s' (Ok s'') -> execution L opt s (S n) m s''
| ex_spurious s n m s' s'' : execution L opt s n m s' -> spurious s' s'' -> execution L opt s n (S m) s''.
(** The number of steps is bounded: by the chunks and calls, plus one per spurious wake-up. *)
Theorem C24_terminates : forall L opt calls n m s,
  execution L opt (start calls) n m s ->
  (n <= 7 + list_sum (map (fun k => 15 + 20 * length (k_chunks k)) calls) + m)%nat.
Proof.
  intros L opt calls n m s H.
  assert (G : (n + cost s <= cost (start calls) + m)%nat).
  { remember (start calls) as s0. clear Heqs0. induction H as [s|s n m s' s'' H IH HS|s n m s' s'' H IH HS]; [lia| |].
    - pose proof (cost_step L opt s' s'' HS). lia.
    - assert (cost s'' = S (cost s')); [|lia]. unfold cost. inversion HS as [E|k rest E|k E]; cbn [s_c s_w s_calls s_has set_w set_c]; rewrite E; cbn [caller_cost worker_cost]; lia. }
  assert (C : (cost (start calls) = 7 + list_sum (map (fun k => 15 + 20 * length (k_chunks k)) calls))%nat).
  { unfold cost. cbn [start s_c s_w s_calls s_has caller_cost worker_cost]. clear. induction calls as [|k calls IH]; [reflexivity|]. cbn [fold_right map list_sum] in *. unfold call_cost at 1. unfold list_sum in *. cbn [fold_right]. lia. }
  lia.
Qed.
Print Assumptions C24_terminates.
(** A call reports an exception exactly when the same call on a new object would, whatever
    happened in the calls before it: a failed call neither hides its failure nor affects the
    next ones. *)
Theorem C24_failure_is_reported_and_local : forall ops L ppc probe i hdr0 e0 jobs calls s r j,
  libs_ok L -> bytes hdr0 -> i_comp i <> COMP_NONE -> PointcloudEncoder i (Ok hdr0) = Ok e0 ->
  Forall (job_ok ppc i) jobs -> accepted ops L ppc probe e0 jobs calls -> reachable L (i_comp i) calls s ->
  forall c, nth_error (s_results s) c = Some r -> nth_error jobs c = Some j ->
  (fst r = None <-> fst (fst (encode_view ops L ppc probe e0 (j_cloud j) (j_out j) (j_hdr j))) = Throw).
Proof.
  intros ops L ppc probe i hdr0 e0 jobs calls s r j HLi Hh Hopt HP HJ HA HR c Hr Hj. pose proof (eo_new ops L ppc probe i (Ok hdr0) e0 HP) as HEo.
  destruct (C23_threaded_equals_single_threaded ops L ppc probe i hdr0 e0 jobs calls s HLi Hh Hopt HEo HJ HA HR) as (fin & pend & -> & HF & _).
  assert (HX : like_single_threaded ops L ppc probe e0 j r /\ job_ok ppc i j).
  { clear HR HA. revert c Hr Hj. induction HF as [|a b fin rs Hab HF IH]; intros c Hr Hj; [destruct c; discriminate|]. cbn [app] in HJ. inversion HJ; subst. destruct c as [|c]; cbn in Hr, Hj.
    - inversion Hr; inversion Hj; subst. auto.
    - eapply IH; eauto. }
  destruct HX as [HX (HSd & Ho)]. unfold like_single_threaded in HX.
  destruct (encode_view ops L ppc probe e0 (j_cloud j) (j_out j) (j_hdr j)) as [[r1 o1] e1] eqn:EV. cbn [fst].
  destruct (C27_in_bounds ops L ppc probe i hdr0 e0 _ _ _ _ _ _ HLi Hh HSd HEo Ho EV) as (HU & _).
  destruct r1; [subst r; cbn; split; discriminate|tauto|congruence].
Qed.
Print Assumptions C24_failure_is_reported_and_local.
(** Once the object is destroyed, the worker has ended. *)
Theorem C24_worker_ends : forall ops L ppc probe i hdr0 e jobs calls s,
  libs_ok L -> bytes hdr0 -> i_comp i <> COMP_NONE -> encoder_of ops L ppc probe i (Ok hdr0) e ->
  Forall (job_ok ppc i) jobs -> accepted ops L ppc probe e jobs calls -> reachable L (i_comp i) calls s ->
  s_c s = CEnd -> s_w s = WExited.
Proof.
  intros ops L ppc probe i hdr0 e jobs calls s HLi Hh Hopt HEo HJ HA HR HE. pose proof (accepted_all _ _ _ _ _ _ _ _ _ HLi Hh HEo HJ HA) as HC.
  destruct (inv_reachable L (i_comp i) Hopt calls s HC HR) as (HI & _). unfold caller_inv in HI. rewrite HE in HI. exact HI.
Qed.
Print Assumptions C24_worker_ends.

(** * C53: no data race, no access outside the output buffer *)
Theorem C53_no_data_race : forall ops L ppc probe i hdr0 e jobs calls s,
  libs_ok L -> bytes hdr0 -> i_comp i <> COMP_NONE -> encoder_of ops L ppc probe i (Ok hdr0) e ->
  Forall (job_ok ppc i) jobs -> accepted ops L ppc probe e jobs calls -> reachable L (i_comp i) calls s ->
  ~ thread_step L (i_comp i) s UB.
Proof.
  intros ops L ppc probe i hdr0 e jobs calls s HLi Hh Hopt HEo HJ HA HR HS. pose proof (accepted_all _ _ _ _ _ _ _ _ _ HLi Hh HEo HJ HA) as HC.
  destruct (no_race L (i_comp i) Hopt calls s HC HR UB HS) as (s' & E). discriminate.
Qed.
Print Assumptions C53_no_data_race.

(** ** Concrete schedules *)
(** A scheduler: [true] lets the caller run, [false] the worker; the other one runs if the
    chosen one cannot. *)
Definition schedule1 (L : libs) (opt : comp_opt) (b : bool) (s : state) : state :=
  let c := match cstep s with Some (Ok s') => Some s' | _ => None end in
  let w := match wstep L opt s with Some (Ok s') => Some s' | _ => None end in
  match (if b then c else w), (if b then w else c) with Some s', _ => s' | None, Some s' => s' | None, None => s end.
Definition schedule (L : libs) (opt : comp_opt) (bs : list bool) (s : state) : state := fold_left (fun s b => schedule1 L opt b s) bs s.
Lemma schedule1_reach L opt calls b s : reachable L opt calls s -> reachable L opt calls (schedule1 L opt b s).
Proof.
  intros H. unfold schedule1. destruct b.
  - destruct (cstep s) as [[s'| |]|] eqn:E; [eapply reach_step; [exact H|now apply by_caller]| | |];
    (destruct (wstep L opt s) as [[s'| |]|] eqn:E'; [eapply reach_step; [exact H|now apply by_worker]|exact H|exact H|exact H]).
  - destruct (wstep L opt s) as [[s'| |]|] eqn:E; [eapply reach_step; [exact H|now apply by_worker]| | |];
    (destruct (cstep s) as [[s'| |]|] eqn:E'; [eapply reach_step; [exact H|now apply by_caller]|exact H|exact H|exact H]).
Qed.
Lemma schedule_reach L opt calls bs : forall s, reachable L opt calls s -> reachable L opt calls (schedule L opt bs s).
Proof. induction bs as [|b bs IH]; intros s H; [exact H|]. cbn. apply IH, schedule1_reach, H. Qed.

(** Two clouds, two chunks each, through the API; a schedule that reaches the end. *)
Definition w_info : info := scan 5 3 COMP_ZSTD.
Definition w_enc : encoder := match PointcloudEncoder w_info (Ok [1;2;3]) with Ok e => e | _ => mkEnc w_info [] [] [] end.
Definition w_jobs : list job := [mkJob scan_cloud (repeat 0 (Z.to_nat 2628)) true; mkJob scan_cloud (repeat 7 (Z.to_nat 2630)) false].
Definition w_calls : list call :=
  map (fun j => match encode_call sse_ops store_libs 2 4096 w_enc (j_cloud j) (j_out j) (j_hdr j) with Ok k => k | _ => mkCall [] [] [] false end) w_jobs.
Definition w_sched : list bool := flat_map (fun k => [true; true; true; false; Nat.odd k]) (seq 0 40).
Example C23_case : encoder_of sse_ops store_libs 2 4096 w_info (Ok [1;2;3]) w_enc /\ Forall (job_ok 2 w_info) w_jobs /\
  accepted sse_ops store_libs 2 4096 w_enc w_jobs w_calls /\ map (fun k => length (k_chunks k)) w_calls = [2%nat; 2%nat] /\
  exists s, reachable store_libs COMP_ZSTD w_calls s /\ s_c s = CEnd /\ map fst (s_results s) = [Some 80; Some 77].
Proof.
  split; [apply eo_new; vm_compute; reflexivity|].
  assert (HB : forall b n, 0 <= b <= 7 -> bytes (repeat b n)) by (intros b n Hb; apply Forall_forall; intros x Hx; apply repeat_spec in Hx; subst x; unfold is_byte; lia).
  split; [constructor; [|constructor; [|constructor]]; (split; [apply scan_encode_side|apply HB; lia])|].
  split; [constructor; [vm_compute; reflexivity|constructor; [vm_compute; reflexivity|constructor]]|]. split; [vm_compute; reflexivity|].
  exists (schedule store_libs COMP_ZSTD w_sched (start w_calls)). split; [apply schedule_reach, reach_start|]. split; vm_compute; reflexivity.
Qed.
(** A call whose compressor fails on the second chunk, then one that succeeds. *)
Definition f_calls : list call := [mkCall (repeat 0 13) [9] [[1;2]; [3;4;5;6]] true; mkCall (repeat 0 30) [9] [[1;2]; [3;4;5;6]] true].
Example C24_case : Forall (call_ok store_libs COMP_ZSTD) f_calls /\ exists s, reachable store_libs COMP_ZSTD f_calls s /\ s_c s = CEnd /\ s_w s = WExited /\
  s_results s = [(None, [9;3;0;0;0;0;1;2;0;0;0;0;0]); (Some 17, [9;3;0;0;0;0;1;2;5;0;0;0;0;3;4;5;6] ++ repeat 0 13)].
Proof.
  split; [constructor; [|constructor; [|constructor]]; (split; [vm_compute; discriminate|split; [vm_compute; discriminate|left; reflexivity]])|].
  exists (schedule store_libs COMP_ZSTD w_sched (start f_calls)). split; [apply schedule_reach, reach_start|]. split; [vm_compute; reflexivity|]. split; vm_compute; reflexivity.
Qed.
(** If stage 1 throws in the caller (memory exhausted, say) while the worker is compressing a
    chunk, and the object is used again, the caller resets the flags and the output view
    without waiting for the worker: a data race.  No cloud makes stage 1 throw there
    (that is part of the theorems above); an exception from an allocation can. *)
Theorem C53_exception_then_reuse_refuted : exists calls s,
  Forall (fun k => zlen (k_hdr k) <= zlen (k_out k) /\ fst (seq_call store_libs COMP_ZSTD k) <> UB) calls /\
  reachable store_libs COMP_ZSTD calls s /\ thread_step store_libs COMP_ZSTD s UB.
Proof.
  exists [mkCall (repeat 0 13) [] [[1;2]] false; mkCall (repeat 0 13) [] [[1;2]] true].
  exists (schedule store_libs COMP_ZSTD [true; true; true; true; true; true; true; true; false; true; true; true] (start [mkCall (repeat 0 13) [] [[1;2]] false; mkCall (repeat 0 13) [] [[1;2]] true])).
  split; [constructor; [|constructor; [|constructor]]; (split; [vm_compute; discriminate|vm_compute; discriminate])|].
  split; [apply schedule_reach, reach_start|]. apply by_caller. vm_compute. reflexivity.
Qed.
Print Assumptions C53_exception_then_reuse_refuted.
