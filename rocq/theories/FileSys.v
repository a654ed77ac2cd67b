(** A file system and the parts of std::filesystem the command line tools call.
    Simplifications: no symbolic links, no permissions, no other process, names are byte strings; error
    reporting other than "not found" is left out.  Paths are given parsed, as a root flag and the list
    of components ([path_of] parses).  The behaviour of each call is that of libstdc++ on POSIX. *)
From Verif Require Import Base Types Header Mcap.
From Coq Require Import String.
Open Scope Z_scope.
Open Scope list_scope.
Notation length := List.length.

Definition name := list Z.
(** A path: absolute or not, and its components; the last one is empty when the text ends in '/'. *)
Record path := mkPath { p_abs : bool; p_comps : list name }.
Definition dot : name := str ".".
Definition dotdot : name := str "..".

(** Splitting a path text at '/'. *)
Fixpoint split_slash (s : list Z) (cur : list Z) : list name :=
  match s with
  | nil => rev cur :: nil
  | c :: s' => if c =? 47 then rev cur :: split_slash s' nil else split_slash s' (c :: cur)
  end.
Definition nonempty (n : name) : bool := match n with nil => false | _ => true end.
Definition path_of (s : list Z) : path :=
  let parts := split_slash s nil in
  let names := filter nonempty parts in
  let trailing := match names, last parts nil with _ :: _, nil => nil :: nil | _, _ => nil end in
  mkPath (match s with c :: _ => c =? 47 | nil => false end) (names ++ trailing).

(** path::empty, parent_path, filename, operator/ (with a relative right side). *)
Definition p_empty (p : path) : bool := match p_abs p, p_comps p with false, nil => true | _, _ => false end.
Definition parent_path (p : path) : path := mkPath (p_abs p) (removelast (p_comps p)).
Definition filename (p : path) : name := last (p_comps p) nil.
Definition join (p : path) (n : name) : path :=
  match p_comps p with
  | nil => mkPath (p_abs p) (n :: nil)
  | cs => mkPath (p_abs p) ((if nonempty (last cs nil) then cs else removelast cs) ++ n :: nil)
  end.
(** path::extension and stem of a file name: the part from the last '.' on, unless that dot is the first
    character; "." and ".." have none. *)
Fixpoint last_dot (s : list Z) : option nat :=
  match s with
  | nil => None
  | c :: s' => match last_dot s' with
               | Some k => Some (S k)
               | None => if c =? 46 then Some 0%nat else None
               end
  end.
Definition dot_at (n : name) : option nat :=
  if leqb n dotdot then None else match last_dot n with Some 0%nat => None | r => r end.
Definition extension (n : name) : name := match dot_at n with Some k => skipn k n | None => nil end.
Definition stem (n : name) : name := match dot_at n with Some k => firstn k n | None => n end.
(** std::string += on the text of a path: goes to the last component. *)
Definition add_text (p : path) (t : list Z) : path :=
  match p_comps p with
  | nil => mkPath (p_abs p) (t :: nil)
  | cs => mkPath (p_abs p) (removelast cs ++ (last cs nil ++ t) :: nil)
  end.
(** path::replace_extension *)
Definition replace_extension (p : path) (t : list Z) : path :=
  match p_comps p with
  | nil => mkPath (p_abs p) (t :: nil)
  | cs => mkPath (p_abs p) (removelast cs ++ (stem (last cs nil) ++ t) :: nil)
  end.

(** * The file system: directories and files named by their components from the root. *)
Definition node := list name.
Record fsys := mkFs { fs_dirs : list node; fs_files : list node; fs_cwd : node }.
Definition node_eqb (a b : node) : bool := if list_eq_dec (list_eq_dec Z.eq_dec) a b then true else false.
Definition mem (n : node) (l : list node) : bool := existsb (node_eqb n) l.
Definition is_dir (fs : fsys) (n : node) : bool := mem n (fs_dirs fs).
Definition is_node (fs : fsys) (n : node) : bool := mem n (fs_dirs fs) || mem n (fs_files fs).
(** One component of a path walked by the kernel from directory [d]. *)
Definition step (fs : fsys) (cur : option node) (c : name) : option node :=
  match cur with
  | None => None
  | Some d =>
      if is_dir fs d then
        if negb (nonempty c) || leqb c dot then Some d
        else if leqb c dotdot then Some (removelast d)
        else if is_node fs (d ++ c :: nil) then Some (d ++ c :: nil) else None
      else None
  end.
Definition start (fs : fsys) (p : path) : node := if p_abs p then nil else fs_cwd fs.
(** The node a path leads to; the empty path leads nowhere (ENOENT). *)
Definition resolve (fs : fsys) (p : path) : option node :=
  if p_empty p then None else fold_left (step fs) (p_comps p) (Some (start fs p)).
Definition exists_ (fs : fsys) (p : path) : bool := match resolve fs p with Some _ => true | None => false end.
Definition is_directory (fs : fsys) (p : path) : bool := match resolve fs p with Some n => is_dir fs n | None => false end.
(** canonical: throws when the path does not exist; canonical("") throws too (std::errc::invalid_argument
    from absolute()). *)
Definition canonical (fs : fsys) (p : path) : res path := match resolve fs p with Some n => Ok (mkPath true n) | None => Throw end.
Definition current_path (fs : fsys) : path := mkPath true (fs_cwd fs).
Definition path_eqb (a b : path) : bool := Bool.eqb (p_abs a) (p_abs b) && node_eqb (p_comps a) (p_comps b).
(** The names in a directory (directory_iterator; the order is the list's). *)
Definition child_of (d n : node) : option name :=
  match n with
  | nil => None
  | _ => if node_eqb (removelast n) d then Some (last n nil) else None
  end.
Fixpoint children (d : node) (l : list node) : list name :=
  match l with
  | nil => nil
  | n :: l' => match child_of d n with Some c => c :: children d l' | None => children d l' end
  end.
Definition entries (fs : fsys) (d : node) : list name := children d (fs_files fs) ++ children d (fs_dirs fs).

(** What a run does to the file system. *)
Inductive effect := Mkdir (n : node) | Wrote (n : node).

(** The directory a path's last component is looked up in. *)
Definition resolve_parent (fs : fsys) (p : path) : option node :=
  fold_left (step fs) (removelast (p_comps p)) (Some (start fs p)).
(** Opening a file for writing (std::ofstream, mcap::FileWriter): creates or truncates it; fails when the
    directory is missing or the name is a directory's. *)
Definition open_write (fs : fsys) (p : path) : option node :=
  match resolve_parent fs p with
  | Some d =>
      let c := last (p_comps p) nil in
      if is_dir fs d && nonempty c && negb (leqb c dot) && negb (leqb c dotdot) && negb (is_dir fs (d ++ c :: nil)) then Some (d ++ c :: nil) else None
  | None => None
  end.
Definition add_file (fs : fsys) (n : node) : fsys := mkFs (fs_dirs fs) (n :: fs_files fs) (fs_cwd fs).
Definition add_dir (fs : fsys) (n : node) : fsys := mkFs (n :: fs_dirs fs) (fs_files fs) (fs_cwd fs).
(** create_directory: fine when the directory is there already. *)
Definition create_directory (fs : fsys) (p : path) : res (fsys * list effect) :=
  match resolve_parent fs p with
  | Some d =>
      if is_dir fs d then
        let n := d ++ last (p_comps p) nil :: nil in
        if is_dir fs n then Ok (fs, nil)
        else if is_node fs n then Throw
        else Ok (add_dir fs n, Mkdir n :: nil)
      else Throw
  | None => Throw
  end.
(** create_directories (libstdc++): the missing components, innermost first, skipping "." and "..";
    walking up until something exists; then each is created, outermost first. [rc]: the components,
    last first. *)
Fixpoint missing (fs : fsys) (abs : bool) (rc : list name) (acc : list path) : res (list path) :=
  match rc with
  | nil => Ok acc
  | f :: rest =>
      let acc' := if leqb f dot || leqb f dotdot then acc else mkPath abs (rev rc) :: acc in
      let pp := mkPath abs (rev rest) in
      if p_empty pp then Ok acc'
      else match resolve fs pp with
           | Some n => if is_dir fs n then Ok acc' else Throw
           | None => missing fs abs rest acc'
           end
  end.
Fixpoint create_all (fs : fsys) (ps : list path) : res (fsys * list effect) :=
  match ps with
  | nil => Ok (fs, nil)
  | p :: ps' =>
      do r1 <- create_directory fs p ;
      do r2 <- create_all (fst r1) ps' ;
      Ok (fst r2, snd r1 ++ snd r2)
  end.
Definition create_directories (fs : fsys) (p : path) : res (fsys * list effect) :=
  if p_empty p then Throw
  else match resolve fs p with
  | Some n => if is_dir fs n then Ok (fs, nil) else Throw
  | None =>
      let cs := p_comps p in
      let cs := if nonempty (last cs nil) then cs else removelast cs in   (* strip any trailing slash *)
      do ps <- missing fs (p_abs p) (rev cs) nil ;
      create_all fs ps
  end.
