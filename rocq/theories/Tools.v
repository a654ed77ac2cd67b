(** The command line tools' main functions as far as files are concerned: which are read as input, where
    the output goes, what is asked, what is written
    (/repo/cloudini_lib/tools/src/cloudini_rosbag_converter.cpp 137-356, mcap_cutter.cpp 172-212,
    pcd_to_cloudini_converter.cpp 65-214).  What the conversion makes of the data is modelled elsewhere
    (Mcap.v, Pcl.v); here only how far it gets. *)
From Verif Require Import Base Types Header Mcap FileSys.
From Coq Require Import String.
Open Scope Z_scope.
Open Scope list_scope.
Notation length := List.length.

Inductive exit := Exit (code : Z) | Terminate.   (* [Terminate]: an exception leaves main *)
Definition run := (exit * list effect)%type.
Definition before (es : list effect) (r : run) : run := (fst r, es ++ snd r).

Definition meta_name : name := str "metadata.yaml".
Definition mcap_ext : name := str ".mcap".

(** * cloudini_rosbag_converter *)
(** How the conversion (converter.open and encodePointClouds / decodePointClouds) goes: it cannot be
    read; no topic to convert; only topics for the other direction; an exception after the output was
    opened; success. *)
Inductive outcome := ReadFailed | NothingToDo | WrongDirection | ConvFailed | Converted.
Record bag_options := mkBag {
  b_input : path; b_output : option path; b_yes : bool;
  b_encode : bool; b_decode : bool; b_viz : bool; b_profile : bool; b_method_ok : bool }.

(** Lines 157-196: the .mcap to read and its metadata.yaml, if any; an exit code otherwise. *)
Definition bag_input (fs : fsys) (input : path) : res (path * option path) :=
  if is_directory fs input then
    let meta := join input meta_name in
    if negb (exists_ fs meta) then Throw
    else match resolve fs input with
         | Some d =>
             match filter (fun n => leqb (extension n) mcap_ext) (entries fs d) with
             | n :: nil => Ok (join input n, Some meta)
             | _ => Throw                                   (* none, or several *)
             end
         | None => Throw
         end
  else if leqb (extension (filename input)) mcap_ext then
    let meta := join (parent_path input) meta_name in
    Ok (input, if exists_ fs meta then Some meta else None)
  else Throw.
Definition suffix (encode : bool) : list Z := if encode then str "_encoded" else str "_decoded".
(** Lines 199-215. [Throw]: canonical() threw. *)
Definition bag_output (fs : fsys) (o : bag_options) (mcap : path) (meta : option path) : res path :=
  do p <- match b_output o, meta with
          | Some p, _ => Ok p
          | None, Some m =>
              do input_dir <- canonical fs (parent_path m) ;
              let out_dir := join (parent_path input_dir) (filename input_dir ++ suffix (b_encode o)) in
              Ok (join out_dir (stem (filename mcap) ++ suffix (b_encode o) ++ mcap_ext))
          | None, None => Ok (mkPath false ((stem (filename mcap) ++ suffix (b_encode o) ++ mcap_ext) :: nil))
          end ;
  Ok (if leqb (extension (filename p)) mcap_ext then p else add_text p mcap_ext).
(** Lines 218-234: [true] when the check passes. *)
Definition bag_safe (fs : fsys) (meta : option path) (out : path) : res bool :=
  match meta with
  | None => Ok true
  | Some m =>
      let dir := parent_path out in
      let dir := if p_empty dir then current_path fs else dir in
      do input_dir <- canonical fs (parent_path m) ;
      do dir <- (if exists_ fs dir then canonical fs dir else Ok dir) ;
      Ok (negb (path_eqb dir input_dir))
  end.
(** Lines 281-356, the try block. *)
Definition bag_convert (fs : fsys) (oc : outcome) (meta : option path) (out : path) : run :=
  match oc with
  | ReadFailed => (Exit 1, nil)
  | NothingToDo => (Exit 0, nil)
  | WrongDirection => (Exit 1, nil)
  | ConvFailed => match open_write fs out with Some n => (Exit 1, Wrote n :: nil) | None => (Exit 1, nil) end
  | Converted =>
      match open_write fs out with
      | None => (Exit 1, nil)
      | Some n =>
          match meta with
          | None => (Exit 0, Wrote n :: nil)
          | Some _ =>
              let dir := parent_path out in
              let dir := if p_empty dir then current_path fs else dir in
              match open_write (add_file fs n) (join dir meta_name) with
              | Some k => (Exit 0, Wrote n :: Wrote k :: nil)
              | None => (Exit 0, Wrote n :: nil)            (* a failed ofstream is not noticed *)
              end
          end
      end
  end.
(** main. [answer]: the reply to the overwrite question is y or Y. *)
Definition bag_main (o : bag_options) (answer : bool) (oc : outcome) (fs : fsys) : run :=
  if p_empty (b_input o) then (Exit 1, nil)                                              (* 132-135 *)
  else if b_encode o && b_decode o then (Exit 1, nil)                                    (* 144-147 *)
  else if negb (b_encode o) && negb (b_decode o) then (Exit 1, nil)                      (* 148-151 *)
  else if b_viz o && negb (b_encode o) then (Exit 1, nil)                                (* 152-155 *)
  else match bag_input fs (b_input o) with
  | Ok (mcap, meta) =>
      match bag_output fs o mcap meta with
      | Ok out =>
          match bag_safe fs meta out with
          | Ok false => (Exit 1, nil)
          | Ok true =>
              match (if negb (p_empty (parent_path out)) && negb (exists_ fs (parent_path out))
                     then create_directories fs (parent_path out) else Ok (fs, nil)) with  (* 237-240 *)
              | Ok (fs1, es) => before es
                  (if b_decode o && b_profile o then (Exit 1, nil)                         (* 242-245 *)
                   else if exists_ fs1 out && negb (b_yes o) && negb answer then (Exit 0, nil)  (* 248-257 *)
                   else if negb (b_method_ok o) then (Exit 1, nil)                         (* 270-274 *)
                   else bag_convert fs1 oc meta out)
              | _ => (Terminate, nil)
              end
          | _ => (Terminate, nil)
          end
      | _ => (Terminate, nil)
      end
  | _ => (Exit 1, nil)
  end.

(** * mcap_cutter, lines 172-212 *)
Record cut_options := mkCut { c_input : path; c_output : option path; c_max : Z }.
(** [No_topics]: the recording has no PointCloud2 topic, cut returns without opening the output. *)
Inductive cut_outcome := CutReadFailed | No_topics | CutFailed | CutDone.
Definition cut_main (o : cut_options) (oc : cut_outcome) (fs : fsys) : run :=
  if negb (leqb (extension (filename (c_input o))) mcap_ext) then (Exit 1, nil)
  else if negb (exists_ fs (c_input o)) then (Exit 1, nil)
  else
    let out := match c_output o with
               | Some p => p
               | None => mkPath false ((stem (filename (c_input o)) ++ str "_cut.mcap") :: nil)
               end in
    let out := if leqb (extension (filename out)) mcap_ext then out else add_text out mcap_ext in
    if c_max o <=? 0 then (Exit 1, nil)
    else match oc with
    | CutReadFailed => (Exit 1, nil)
    | No_topics => (Exit 0, nil)
    | CutFailed => match open_write fs out with Some n => (Exit 1, Wrote n :: nil) | None => (Exit 1, nil) end
    | CutDone => match open_write fs out with Some n => (Exit 0, Wrote n :: nil) | None => (Exit 1, nil) end
    end.

(** * pcd_to_cloudini_converter, lines 113-214; the options for encoding and compression are parsed but not
    used in the conversion (line 134 passes only the resolution). *)
Definition pcd_ext : name := str ".pcd".
Definition cldn_ext : name := str ".cldn".
(** convert_file, lines 113-149. [conv]: PCLPointCloudEncode did not throw. *)
Definition convert_file (fs : fsys) (yes answer conv : bool) (input out : path) : bool * fsys * list effect :=
  if negb (exists_ fs input) then (false, fs, nil)
  else if exists_ fs out && negb yes && negb answer then (false, fs, nil)
  else if negb conv then (false, fs, nil)
  else match open_write fs out with
       | Some n => (true, add_file fs n, Wrote n :: nil)
       | None => (false, fs, nil)
       end.
(** Lines 152-179. *)
Definition pcd_single (fs : fsys) (yes answer conv : bool) (input : path) (output : option path) : run :=
  if negb (leqb (extension (filename input)) pcd_ext) then (Exit 1, nil)
  else
    let out := match output with Some p => p | None => join (parent_path input) (stem (filename input) ++ cldn_ext) end in
    let out := if leqb (extension (filename out)) cldn_ext then out else replace_extension out cldn_ext in
    match convert_file fs yes answer conv input out with
    | (ok, _, es) => (if ok then Exit 0 else Exit 1, es)
    end.
(** Lines 181-211: the entries found when the directory is opened, in its order; one answer and one
    conversion result per entry. *)
Fixpoint pcd_batch_loop (fs : fsys) (yes : bool) (answer conv : name -> bool) (dir : path) (names : list name) : list effect :=
  match names with
  | nil => nil
  | n :: rest =>
      if leqb (extension n) pcd_ext then
        match convert_file fs yes (answer n) (conv n) (join dir n) (join dir (stem n ++ cldn_ext)) with
        | (_, fs1, es) => es ++ pcd_batch_loop fs1 yes answer conv dir rest
        end
      else pcd_batch_loop fs yes answer conv dir rest
  end.
Definition pcd_batch (fs : fsys) (yes : bool) (answer conv : name -> bool) (dir : path) : run :=
  match resolve fs dir with
  | Some d => if is_dir fs d then (Exit 0, pcd_batch_loop fs yes answer conv dir (entries fs d)) else (Exit 1, nil)
  | None => (Exit 1, nil)
  end.
