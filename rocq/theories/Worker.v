(** The threaded encoder.  Models cloudini_lib/src/cloudini.cpp ("CL"):
    - :430-451 constructor and destructor,
    - :453-491 compressionWorker,
    - :493-499 waitForCompressionComplete,
    - :535-586, :619-623 the threaded parts of encode(),
    - chunk_writer/codec_common CompressChunk through Api.v.
    Two threads, the caller and the worker, interleaved step by step.  One step is: a
    critical section of mutex_ (none of them blocks inside except by waiting on a condition
    variable), a condition-variable notification, a thread join, or a stretch of unlocked
    code.  A stretch of unlocked code of the worker (470-478) that the caller's next step
    conflicts with is a data race: that step is [UB].
    A condition-variable wait is: evaluate the predicate under the mutex; if false, sleep;
    a sleeping thread is made runnable by a notification or spuriously, then evaluates the
    predicate again.
    Simplifications: stage 1 of a call is given by the list of the chunks it will produce
    ([k_chunks]) and whether it then ends normally or throws ([k_end]); the two scratch
    buffers are their serialized contents; thread creation, mutex and condition-variable
    calls do not fail. *)
From Verif Require Import Base Types Floats Fields Codec V5 Api.

(** One call of encode(cloud, output, write_header) that passed the checks of CL 522-534:
    output buffer, header to write ([[]] without), stage-1 chunks. *)
Record call := mkCall { k_out : list Z; k_hdr : list Z; k_chunks : list (list Z); k_end : bool }.

(** Worker: CL 453-491 *)
Inductive wpc :=
| WCheck                 (* 458-459: to evaluate the predicate of the wait *)
| WSleep                 (* 459: asleep *)
| WCompress              (* 467-476: unlocked *)
| WPublish (n : Z)       (* 478-482: locked *)
| WNotify                (* 484 *)
| WFail                  (* 487-490: locked *)
| WFailNotify            (* 491 *)
| WExited.
(** Caller: CL 522-623 and 441-451.  [k]: the current call, [rest]: its chunks still to be
    produced. *)
Inductive cpc :=
| CNext
| CEnter (k : call)                                   (* 536-541 *)
| CJoin (k : call)                                    (* 543-545 *)
| CClear (k : call)                                   (* 546-551: flags, new thread *)
| CReset (k : call)                                   (* 555-562 *)
| CView (k : call)                                    (* 563-570, 590-605: unlocked *)
| CStage (k : call) (rest : list (list Z))            (* stage 1 of the next chunk into buffer_ *)
| CWait (k : call) (rest : list (list Z))             (* 578 -> 494-499 *)
| CWaitSleep (k : call) (rest : list (list Z))
| CSwap (k : call) (rest : list (list Z))             (* 579-586: locked *)
| CNotify (k : call) (rest : list (list Z))           (* 587 *)
| CFinal (k : call)                                   (* 618-620 -> 494-499, 622 *)
| CFinalSleep (k : call)
| DExit                                               (* 443-446 *)
| DNotify                                             (* 447 *)
| DJoin                                               (* 448 *)
| CEnd.

Record state := mkS {
  s_has : bool;      (* has_data_to_compress_ *)
  s_done : bool;     (* compression_done_ *)
  s_exit : bool;     (* should_exit_ *)
  s_failed : bool;   (* worker_failed_, worker_exception_ *)
  s_size : Z;        (* compressed_size_ *)
  s_front : list Z;  (* buffer_ *)
  s_back : list Z;   (* buffer_compressing_, buffer_compressing_size_ *)
  s_view : wstate;   (* output_view_ and the output buffer *)
  s_w : wpc;
  s_c : cpc;
  s_calls : list call;                        (* calls still to be made *)
  s_results : list (option Z * list Z) }.     (* per finished call: size ([None]: threw), output buffer *)

(** cloudini.hpp:197-215 and CL 436-438: the new object, worker started *)
Definition start (calls : list call) : state :=
  mkS false false false false 0 [] [] (mkW 0 [] []) WCheck CNext calls [].

Definition set_w (s : state) (w : wpc) : state :=
  mkS (s_has s) (s_done s) (s_exit s) (s_failed s) (s_size s) (s_front s) (s_back s) (s_view s) w (s_c s) (s_calls s) (s_results s).
Definition set_c (s : state) (c : cpc) : state :=
  mkS (s_has s) (s_done s) (s_exit s) (s_failed s) (s_size s) (s_front s) (s_back s) (s_view s) (s_w s) c (s_calls s) (s_results s).
Definition set_flags (s : state) (has done exit failed : bool) : state :=
  mkS has done exit failed (s_size s) (s_front s) (s_back s) (s_view s) (s_w s) (s_c s) (s_calls s) (s_results s).
Definition set_size (s : state) (z : Z) : state :=
  mkS (s_has s) (s_done s) (s_exit s) (s_failed s) z (s_front s) (s_back s) (s_view s) (s_w s) (s_c s) (s_calls s) (s_results s).
Definition set_view (s : state) (v : wstate) : state :=
  mkS (s_has s) (s_done s) (s_exit s) (s_failed s) (s_size s) (s_front s) (s_back s) v (s_w s) (s_c s) (s_calls s) (s_results s).
Definition set_bufs (s : state) (f b : list Z) : state :=
  mkS (s_has s) (s_done s) (s_exit s) (s_failed s) (s_size s) f b (s_view s) (s_w s) (s_c s) (s_calls s) (s_results s).
(** The current call ends. *)
Definition finish (s : state) (r : option Z) : state :=
  mkS (s_has s) (s_done s) (s_exit s) (s_failed s) (s_size s) (s_front s) (s_back s) (s_view s) (s_w s) CNext (s_calls s) (s_results s ++ [(r, w_mem (s_view s))]).
(** notify_one / notify_all *)
Definition wake_w (s : state) : state := match s_w s with WSleep => set_w s WCheck | _ => s end.
Definition wake_c (s : state) : state :=
  match s_c s with CWaitSleep k rest => set_c s (CWait k rest) | CFinalSleep k => set_c s (CFinal k) | _ => s end.
(** The worker is in its unlocked stretch, which uses output_view_, the output buffer and
    buffer_compressing_. *)
Definition compressing (s : state) : bool := match s_w s with WCompress => true | _ => false end.
(** The worker is about to update compressed_size_. *)
Definition publishing (s : state) : bool := match s_w s with WPublish _ => true | _ => false end.
Definition exited (s : state) : bool := match s_w s with WExited => true | _ => false end.

(** One step of the caller.  [None]: it cannot run (asleep, joining or finished). *)
Definition cstep (s : state) : option (res state) :=
  match s_c s with
  | CNext => Some (Ok (match s_calls s with
                       | [] => set_c s DExit
                       | k :: ks => mkS (s_has s) (s_done s) (s_exit s) (s_failed s) (s_size s) (s_front s) (s_back s) (s_view s) (s_w s) (CEnter k) ks (s_results s)
                       end))
  | CEnter k => Some (Ok (set_c s (if s_failed s then CJoin k else CReset k)))
  | CJoin k => if exited s then Some (Ok (set_c s (CClear k))) else None
  | CClear k => Some (Ok (set_c (set_w (set_flags s (s_has s) (s_done s) (s_exit s) false) WCheck) (CReset k)))
  | CReset k =>
      if compressing s then Some UB
      else Some (Ok (set_c (set_size (set_flags s false true false (s_failed s)) 0) (CView k)))
  | CView k =>
      if compressing s || publishing s then Some UB
      else match (perform _ <- put_at 0 (k_hdr k) ; advance (zlen (k_hdr k))) (mkW 0 (k_out k) []) with
           | (Ok _, v) => Some (Ok (set_c (set_size (set_view s v) (s_size s + zlen (k_hdr k))) (CStage k (k_chunks k))))
           | (Throw, v) => Some (Ok (finish (set_view s v) None))
           | (UB, _) => Some UB
           end
  | CStage k (c :: rest) => Some (Ok (set_c (set_bufs s c (s_back s)) (CWait k rest)))
  | CStage k [] => Some (Ok (if k_end k then set_c s (CFinal k) else finish s None))
  | CWait k rest =>
      Some (Ok (if s_done s || s_failed s then (if s_failed s then finish s None else set_c s (CSwap k rest))
                else set_c s (CWaitSleep k rest)))
  | CSwap k rest =>
      if compressing s then Some UB
      else Some (Ok (set_c (set_flags (set_bufs s (s_back s) (s_front s)) true false (s_exit s) (s_failed s)) (CNotify k rest)))
  | CNotify k rest => Some (Ok (set_c (wake_w s) (CStage k rest)))
  | CFinal k =>
      if s_done s || s_failed s then
        (if s_failed s then Some (Ok (finish s None))
         else if compressing s || publishing s then Some UB
         else Some (Ok (finish s (Some (s_size s)))))
      else Some (Ok (set_c s (CFinalSleep k)))
  | DExit => Some (Ok (set_c (set_flags s (s_has s) (s_done s) true (s_failed s)) DNotify))
  | DNotify => Some (Ok (set_c (wake_w s) DJoin))
  | DJoin => if exited s then Some (Ok (set_c s CEnd)) else None
  | CWaitSleep _ _ | CFinalSleep _ | CEnd => None
  end.

Section Worker.
  Variables (L : libs) (opt : comp_opt).
  (** CL 467-476 *)
  Definition worker_compress (data : list Z) : act Z := fun w =>
    (perform _ <- advance 4 ;
     perform n <- CompressChunk L opt data ;
     perform _ <- put_at (w_pos w) (le_bytes 4 n) ;
     ret n) w.
  (** One step of the worker. *)
  Definition wstep (s : state) : option (res state) :=
    match s_w s with
    | WCheck =>
        Some (Ok (if s_has s || s_exit s then
                    (if s_exit s then set_w s WExited else set_w (set_flags s false (s_done s) (s_exit s) (s_failed s)) WCompress)
                  else set_w s WSleep))
    | WCompress =>
        match worker_compress (s_back s) (s_view s) with
        | (Ok n, v) => Some (Ok (set_w (set_view s v) (WPublish n)))
        | (Throw, v) => Some (Ok (set_w (set_view s v) WFail))
        | (UB, _) => Some UB
        end
    | WPublish n => Some (Ok (set_w (set_size (set_flags s (s_has s) true (s_exit s) (s_failed s)) (s_size s + (n + 4))) WNotify))
    | WNotify => Some (Ok (set_w (wake_c s) WCheck))
    | WFail => Some (Ok (set_w (set_flags s (s_has s) (s_done s) (s_exit s) true) WFailNotify))
    | WFailNotify => Some (Ok (set_w (wake_c s) WExited))
    | WSleep | WExited => None
    end.
  (** A step of either thread; [UB] is a data race or an access outside the output. *)
  Inductive thread_step (s : state) : res state -> Prop :=
  | by_caller r : cstep s = Some r -> thread_step s r
  | by_worker r : wstep s = Some r -> thread_step s r.
  (** A spurious wake-up. *)
  Inductive spurious (s : state) : state -> Prop :=
  | spurious_worker : s_w s = WSleep -> spurious s (set_w s WCheck)
  | spurious_wait k rest : s_c s = CWaitSleep k rest -> spurious s (set_c s (CWait k rest))
  | spurious_final k : s_c s = CFinalSleep k -> spurious s (set_c s (CFinal k)).
  (** Any schedule. *)
  Inductive reachable (calls : list call) : state -> Prop :=
  | reach_start : reachable calls (start calls)
  | reach_step s s' : reachable calls s -> thread_step s (Ok s') -> reachable calls s'
  | reach_spurious s s' : reachable calls s -> spurious s s' -> reachable calls s'.
End Worker.

(** ** The calls of encode *)
(** Stage 1 of a call as the caller runs it: the chunks it hands to the worker, in order, and
    how it ends.  CL 608-615, compare [v4_loop]. *)
Fixpoint v4_chunks (ops : float_ops) (es : list fenc) (step ppc : nat) (cap : Z) (fuel : nat) (sts : list fstate)
         (remaining : list Z) : list (list Z) * res unit :=
  match remaining with
  | [] => ([], Ok tt)
  | _ =>
      match fuel with
      | O => ([], UB)
      | S k =>
          match EncodeV4Stage1Chunk ops es step ppc sts remaining with
          | Ok (sts', rest, bs) =>
              if cap <? zlen bs then ([], UB)
              else let '(bss, r) := v4_chunks ops es step ppc cap k sts' rest in (bs :: bss, r)
          | Throw => ([], Throw)
          | UB => ([], UB)
          end
      end
  end.
(** v5_codec.cpp:908-962, compare [v5_loop] *)
Fixpoint v5_chunks (ops : float_ops) (es : list fenc) (afs : list afield) (step ppc probe : nat) (cap : Z) (fuel : nat)
         (left : nat) (ass : list astate) (view : list Z) : list (list Z) * res unit :=
  match left with
  | O => ([], Ok tt)
  | _ =>
      match fuel with
      | O => ([], UB)
      | S k =>
          let n := Nat.min left ppc in
          match enc_chunk_v5 ops es afs step probe cap n ass view with
          | Ok (ass', bs) =>
              let '(bss, r) := v5_chunks ops es afs step ppc probe cap k (left - n) ass' (skipn (n * step) view) in (bs :: bss, r)
          | Throw => ([], Throw)
          | UB => ([], UB)
          end
      end
  end.
(** CL 588-617, compare [encode_body] *)
Definition body_chunks (ops : float_ops) (ppc probe : nat) (e : encoder) (cloud : list Z) (n : nat) : list (list Z) * res unit :=
  let i := e_info e in
  let step := Z.to_nat (i_step i) in
  if UsesV5Codec i then
    match V5StageBufferSize i (Z.of_nat ppc), BuildV5Plan i with
    | Ok cap, Ok (es, afs) => v5_chunks ops es afs step ppc probe cap (S n) n (map (fun _ => astate0) afs) cloud
    | UB, _ | _, UB => ([], UB)
    | _, _ => ([], Throw)
    end
  else
    match MaxSerializedPointSize i with
    | Ok m => v4_chunks ops (e_es e) step ppc (Z.of_nat ppc * Z.max (i_step i) m) (S n) (e_sts e) cloud
    | Throw => ([], Throw)
    | UB => ([], UB)
    end.
(** CL 522-534: the checks of encode(cloud, output, write_header), then the call.  [Throw]: the
    checks fail, before the worker is involved.  [UB]: stage 1 leaves its buffer. *)
Definition encode_call (ops : float_ops) (L : libs) (ppc probe : nat) (e : encoder) (cloud out : list Z) (write_header : bool) : res call :=
  let i := e_info e in
  if i_step i =? 0 then Throw
  else if negb (zlen cloud mod i_step i =? 0) then Throw
  else
    let n := (length cloud / Z.to_nat (i_step i))%nat in
    let hdr := if write_header then e_hdr e else [] in
    do need <- MaxCompressedSize L ppc i n 0 ;
    if zlen out <? need + zlen hdr then Throw
    else
      match body_chunks ops ppc probe e cloud n with
      | (bss, Ok _) => Ok (mkCall out hdr bss true)
      | (bss, Throw) => Ok (mkCall out hdr bss false)
      | (_, UB) => UB
      end.
