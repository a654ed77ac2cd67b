(** The desktop application.  Models tools/qt_app/mainwindow.cpp ("MW"; its target is commented out
    in tools/CMakeLists.txt 113-140) in the desktop configuration (USING_WASM not defined).
    A history of the window is a list of events: clicks, with what the user does in the dialog the
    click opens, and steps of the saving loop.  The saving loop hands control back to the window
    (QCoreApplication::processEvents, MW 198 and 214), so clicks can arrive in the middle of a save
    and a second save can start inside the first: [w_stack] is the stack of saves in progress.
    Simplifications: a recording is what the mcap reader delivers (Mcap.v), its summary is always
    readable; re-reading the summary (MW 84, when the dialog is cancelled) has no effect; the
    settings, the labels and the progress bar are not modelled; dialogs are modal, so that no click
    arrives while one is open. *)
From Verif Require Import Base Types Floats Codec Api Header Cdr Ros RosViz Mcap.
Open Scope Z_scope.
Open Scope list_scope.

(** What the user does in the open dialog (MW 66-81): cancels, picks a file that is not a readable
    recording, picks a recording. *)
Inductive picked := PickCancel | PickBad | PickRec (rec : recording).
(** ... in the save dialog (MW 115-137): cancels, picks a place that cannot be written, or a good one. *)
Inductive place := SaveCancel | SaveBad | SaveOpen.
Inductive event :=
| Load (p : picked)          (* the Load button, MW 39-100 *)
| Press (encode : bool) (s : place)  (* the Encode and Decode buttons, MW 102-108 *)
| Advance                    (* one step of the innermost saving loop *)
| WriteError.                (* the next message cannot be written, MW 207-211 *)

(** One activation of processMCAP after its writer was opened.  [sv_bound]: [None] before the loop is
    entered (MW 204); then the reader it iterates over, and the messages left. *)
Record saving := mkSaving { sv_schemas : list schema; sv_channels : list channel; sv_cmap : list (Z * Z); sv_bound : option (Z * list message); sv_done : list message }.
(** [w_reader]: reader_, the object's identity and the recording it delivers; [w_next]: the identity
    of the next reader; [w_saved]: the files written, oldest first. *)
Record window := mkWin { w_reader : option (Z * recording); w_next : Z; w_load : bool; w_encode : bool; w_decode : bool; w_stack : list saving; w_saved : list recording }.
(** MW 30-33 and mainwindow.ui 34-142: Load is enabled, Encode and Decode are not *)
Definition fresh_window : window := mkWin None 0 true false false [] [].

Definition has_schema (name : list Z) (rec : recording) : bool :=
  existsb (fun c => match find_schema (rc_schemas rec) (ch_schema c) with Some s => leqb (s_name s) name | None => false end) (rc_channels rec).
(** MW 84-99: the buttons after a file was opened; the schema of every channel is dereferenced *)
Definition show_reader (w : window) (r : Z * recording) (next : Z) : res window :=
  do u <- check_schemas (rc_schemas (snd r)) (rc_channels (snd r)) ;
  Ok (mkWin (Some r) next (w_load w) (has_schema pointcloud_schema_name (snd r)) (has_schema compressed_schema_name (snd r)) (w_stack w) (w_saved w)).
(** MW 39-100; a disabled button does nothing *)
Definition click_load (w : window) (p : picked) : res window :=
  if negb (w_load w) then Ok w else
  match p with
  | PickCancel => match w_reader w with None => UB | Some r => show_reader w r (w_next w) end
  | PickBad => Ok (mkWin None (w_next w) (w_load w) false false (w_stack w) (w_saved w))
  | PickRec rec => show_reader w (w_next w, rec) (w_next w + 1)
  end.

Section Text.
  (** ros_message_definitions.hpp 93-173 *)
  Variable compressed_schema_data : list Z.
  (** MW 164-176 *)
  Definition qt_schema (encode : bool) (s : schema) (id : Z) : schema :=
    if encode && leqb (s_name s) pointcloud_schema_name then mkSchema id compressed_schema_name (s_enc s) compressed_schema_data
    else if negb encode && leqb (s_name s) compressed_schema_name then mkSchema id pointcloud_schema_name (s_enc s) pointcloud_schema_name
    else mkSchema id (s_name s) (s_enc s) (s_data s).
  (** MW 163-179 *)
  Fixpoint qt_schemas (encode : bool) (l : list schema) (n : Z) : list schema * list (Z * Z) :=
    match l with
    | [] => ([], [])
    | s :: l' => let id := u16 (n + 1) in let '(out, m) := qt_schemas encode l' (n + 1) in (qt_schema encode s id :: out, (s_id s, id) :: m)
    end.
  (** MW 110-198 processMCAP up to the first processEvents; the channels (MW 181-187) are copied as
      in the converter *)
  Definition click_save (w : window) (encode : bool) (s : place) : res window :=
    if negb (if encode then w_encode w else w_decode w) then Ok w else
    let off := fun stack => mkWin (w_reader w) (w_next w) false (w_encode w) (w_decode w) stack (w_saved w) in
    match s with
    | SaveCancel => Ok (off (w_stack w))
    | SaveBad => match w_reader w with None => UB | Some _ => Ok (off (w_stack w)) end
    | SaveOpen =>
        match w_reader w with
        | None => UB
        | Some (id, rec) =>
            let '(schemas, smap) := qt_schemas encode (rc_schemas rec) 0 in
            do '(channels, cmap) <- add_channels smap (rc_channels rec) 0 ;
            Ok (off (mkSaving schemas channels cmap None [] :: w_stack w))
        end
    end.
End Text.

(** MW 217-222: the writer is closed, the buttons are reset *)
Definition finish (w : window) (sv : saving) (rest : list saving) : window :=
  mkWin (w_reader w) (w_next w) true false false rest (w_saved w ++ [mkRec (sv_schemas sv) (sv_channels sv) (sv_done sv) [] []]).
(** Is the reader the loop iterates over still alive? *)
Definition alive (w : window) (id : Z) : bool := match w_reader w with Some (id', _) => id' =? id | None => false end.
(** One step of the innermost loop, MW 204-216; [err]: the write fails *)
Definition advance (w : window) (err : bool) : res window :=
  match w_stack w with
  | [] => Ok w
  | sv :: rest =>
      let put := fun sv' => mkWin (w_reader w) (w_next w) (w_load w) (w_encode w) (w_decode w) (sv' :: rest) (w_saved w) in
      match sv_bound sv with
      | None => match w_reader w with
                | None => UB
                | Some (id, rec) => Ok (put (mkSaving (sv_schemas sv) (sv_channels sv) (sv_cmap sv) (Some (id, rc_messages rec)) (sv_done sv)))
                end
      | Some (id, l) =>
          if negb (alive w id) then UB else
          match l with
          | [] => Ok (finish w sv rest)
          | m :: l' =>
              do cid <- at_ (sv_cmap sv) (m_chan m) ;
              if err then Ok (finish w sv rest)
              else Ok (put (mkSaving (sv_schemas sv) (sv_channels sv) (sv_cmap sv) (Some (id, l')) (sv_done sv ++ [mkMsg cid (m_seq m) (m_log m) (m_pub m) (m_data m)])))
          end
      end
  end.
(** Does the window answer clicks?  Yes when nothing is being saved, and at the processEvents calls of
    the innermost save: before its loop (MW 198), and after its messages number 1, 11, 21, ... (MW 212-215) *)
Definition listening (w : window) : bool :=
  match w_stack w with
  | [] => true
  | sv :: _ => match sv_bound sv with None => true | Some _ => zlen (sv_done sv) mod 10 =? 1 end
  end.
Definition step (ctext : list Z) (w : window) (e : event) : res window :=
  match e with
  | Load p => if listening w then click_load w p else Ok w
  | Press encode s => if listening w then click_save ctext w encode s else Ok w
  | Advance => advance w false
  | WriteError => advance w true
  end.
Fixpoint history (ctext : list Z) (w : window) (es : list event) : res window :=
  match es with [] => Ok w | e :: es' => do w' <- step ctext w e ; history ctext w' es' end.
