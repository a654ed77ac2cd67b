(** The bag converter's handling of metadata.yaml
    (/repo/cloudini_lib/tools/src/cloudini_rosbag_converter.cpp, lines 29-74), on texts = lists of
    byte codes.  Positions in a text are [nat]s. *)
From Verif Require Import Base Types Header Mcap.
From Coq Require Import String.
Open Scope Z_scope.
Open Scope list_scope.
Notation length := List.length.

(** [s] starts with [p] (the comparison made at each position by std::string::find). *)
Fixpoint starts_with (p s : list Z) : bool :=
  match p, s with
  | nil, _ => true
  | _, nil => false
  | a :: p', b :: s' => (a =? b) && starts_with p' s'
  end.
(** std::string::find(p, 0), as an offset. *)
Fixpoint find (p s : list Z) : option nat :=
  if starts_with p s then Some 0%nat
  else match s with
       | nil => None
       | _ :: s' => match find p s' with Some k => Some (S k) | None => None end
       end.
(** std::string::find(p, pos), used at lines 31, 53, 55, 58; [pos] beyond the text gives npos. *)
Definition find_from (p s : list Z) (pos : nat) : option nat :=
  if (pos <=? length s)%nat then match find p (skipn pos s) with Some k => Some (pos + k)%nat | None => None end
  else None.

(** replaceAll, lines 29-35: the loop over [pos] on the text being edited in place
    (str.replace(pos, from.size(), to); pos += to.size()).  [fuel] exhausted stands for a loop that
    does not end (an empty [from]); it is given as [UB] and proved not to happen otherwise. *)
Fixpoint replace_loop (fuel : nat) (from to s : list Z) (pos : nat) : res (list Z) :=
  match fuel with
  | O => UB
  | S fuel' =>
      match find_from from s pos with
      | None => Ok s
      | Some p => replace_loop fuel' from to (firstn p s ++ to ++ skipn (p + length from) s) (p + length to)
      end
  end.
Definition replaceAll (s from to : list Z) : res (list Z) := replace_loop (S (length s)) from to s 0.

(** Lines 44-47 *)
Definition old_type (encoding : bool) : list Z := if encoding then pointcloud_schema_name else compressed_schema_name.
Definition new_type (encoding : bool) : list Z := if encoding then compressed_schema_name else pointcloud_schema_name.
(** Lines 61-63: trailing ' ' and '\r' popped. *)
Fixpoint drop_blank (l : list Z) : list Z :=
  match l with
  | c :: l' => if (c =? 32) || (c =? 13) then drop_blank l' else l
  | nil => nil
  end.
Definition trim_back (l : list Z) : list Z := rev (drop_blank (rev l)).
(** Lines 53-63: the first name listed after "relative_file_paths:". *)
Definition listed_name (content : list Z) : option (list Z) :=
  match find_from (str "relative_file_paths:") content 0 with
  | None => None
  | Some rfp =>
      match find_from (str "- ") content rfp with
      | None => None
      | Some dash =>
          let name_start := (dash + 2)%nat in
          let name := match find_from (10 :: nil) content name_start with
                      | Some name_end => firstn (name_end - name_start) (skipn name_start content)
                      | None => skipn name_start content          (* substr(name_start, npos - name_start) *)
                      end in
          Some (trim_back name)
      end
  end.
(** generateMetadataYaml, lines 37-74: from the content read to the content written. *)
Definition generateMetadataYaml (content new_mcap_filename : list Z) (encoding : bool) : res (list Z) :=
  do content1 <- replaceAll content (str "type: " ++ old_type encoding) (str "type: " ++ new_type encoding) ;
  match listed_name content1 with
  | None => Ok content1
  | Some old => if (length old =? 0)%nat then Ok content1 else replaceAll content1 old new_mcap_filename
  end.
