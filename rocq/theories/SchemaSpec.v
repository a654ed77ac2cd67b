(** Specification: how a reader that knows nothing of this library (a bag player, a viewer, a
    generic deserialiser) decodes a recorded message from the schema stored with it.
    - the text is a ROS 2 message definition (ros2msg): one definition after another, separated by
      a line of '=' and headed, but the first, by "MSG: package/Name"; '#' starts a comment; a line
      with '=' in it defines a constant; every other line is a type and a name;
    - the payload is CDR: a four-byte header whose second byte says the byte order, then the fields
      in the order of the definition, numbers at multiples of their size, strings and sequences after
      their 32-bit length, the length of a string counting its terminating zero.
    Nothing here refers to the model of the library. *)
From Coq Require Import String.
From Verif Require Import Base Header.

(** ** The definition text *)
Fixpoint split_at (sep : Z -> bool) (l : list Z) : list (list Z) :=
  match l with
  | [] => [[]]
  | c :: l' => if sep c then [] :: split_at sep l' else match split_at sep l' with w :: ws => (c :: w) :: ws | [] => [[c]] end
  end.
Definition text_lines (l : list Z) : list (list Z) := split_at (fun c => c =? 10) l.
Fixpoint uncomment (l : list Z) : list Z := match l with [] => [] | c :: l' => if c =? 35 then [] else c :: uncomment l' end.
Definition words (l : list Z) : list (list Z) :=
  filter (fun w => match w with [] => false | _ => true end) (split_at (fun c => (c =? 32) || (c =? 9) || (c =? 13)) l).
Definition same (a b : list Z) : bool := if list_eq_dec Z.eq_dec a b then true else false.
Definition is_rule (w : list Z) : bool := (3 <=? length w)%nat && forallb (fun c => c =? 61) w.

Inductive dline := Blank | Rule | Name (n : list Z) | Member (t n : list Z) | Bad.
Definition classify (l : list Z) : dline :=
  match words (uncomment l) with
  | [] => Blank
  | [w] => if is_rule w then Rule else Bad
  | [t; n] => if same t (str "MSG:") then Name n else if existsb (fun c => c =? 61) n then Blank else Member t n
  | ws => if existsb (existsb (fun c => c =? 61)) ws then Blank (* a constant *) else Bad
  end.
(** Members of the definition being read, then the other definitions. *)
Definition def : Type := list Z * list (list Z * list Z).
Fixpoint read_defs (name : list Z) (members : list (list Z * list Z)) (l : list (list Z)) : option (list def) :=
  match l with
  | [] => Some [(name, rev members)]
  | x :: l' =>
      match classify x with
      | Blank => read_defs name members l'
      | Member t n => read_defs name ((t, n) :: members) l'
      | Rule =>
          match l' with
          | y :: l'' => match classify y with
                        | Name n => match read_defs n [] l'' with Some ds => Some ((name, rev members) :: ds) | None => None end
                        | _ => None
                        end
          | [] => None
          end
      | _ => None
      end
  end.

(** ** Types *)
(** A number of so many bytes, signed or not; a string; a sequence; a message with named members. *)
Inductive stype := SPrim (signed : bool) (size : nat) | SString | SSeq (t : stype) | SMsg (ms : list (list Z * stype)).
Definition primitive (t : list Z) : option stype :=
  let table := [("bool", SPrim false 1); ("byte", SPrim false 1); ("char", SPrim false 1); ("uint8", SPrim false 1); ("int8", SPrim true 1);
                ("uint16", SPrim false 2); ("int16", SPrim true 2); ("uint32", SPrim false 4); ("int32", SPrim true 4);
                ("uint64", SPrim false 8); ("int64", SPrim true 8); ("float32", SPrim false 4); ("float64", SPrim false 8); ("string", SString)]%string in
  match find (fun e => same (str (fst e)) t) table with Some e => Some (snd e) | None => None end.
Definition package (name : list Z) : list Z := hd [] (split_at (fun c => c =? 47) name).
(** [t] without a final "[]" *)
Definition element (t : list Z) : option (list Z) :=
  match rev t with 93 :: 91 :: r => Some (rev r) | _ => None end.
Definition find_def (ds : list def) (name : list Z) : option def := find (fun d => same (fst d) name) ds.
Section Members.
  Variable typ : list Z -> option stype.
  Fixpoint member_types (l : list (list Z * list Z)) : option (list (list Z * stype)) :=
    match l with
    | [] => Some []
    | (t, n) :: l' => match typ t, member_types l' with Some s, Some r => Some ((n, s) :: r) | _, _ => None end
    end.
End Members.
(** The type called [t] in a definition of package [pkg]: a name without package is in the same one.
    Definitions that contain themselves have no type. *)
Fixpoint type_of (fuel : nat) (ds : list def) (pkg t : list Z) : option stype :=
  match fuel with
  | O => None
  | S k =>
      match element t with
      | Some e => match type_of k ds pkg e with Some s => Some (SSeq s) | None => None end
      | None =>
          match primitive t with
          | Some s => Some s
          | None =>
              let full := if existsb (fun c => c =? 47) t then t else pkg ++ [47] ++ t in
              match find_def ds full with
              | Some d => match member_types (type_of k ds (package full)) (snd d) with Some ms => Some (SMsg ms) | None => None end
              | None => None
              end
          end
      end
  end.
Definition schema_type (name text : list Z) : option stype :=
  match read_defs name [] (text_lines text) with
  | Some ((_, ms) :: ds) =>
      match member_types (type_of (2 * S (length ds)) ds (package name)) ms with Some r => Some (SMsg r) | None => None end
  | _ => None
  end.

(** ** Values *)
Inductive sval := SNum (v : Z) | SText (s : list Z) | SItems (vs : list sval) | SRec (ms : list (list Z * sval)).
Definition state : Type := nat * list Z.     (* position after the header, bytes left *)
Definition take (n : nat) (d : state) : option (list Z * state) :=
  if (length (snd d) <? n)%nat then None else Some (firstn n (snd d), ((fst d + n)%nat, skipn n (snd d))).
Definition bytes_val (big : bool) (bs : list Z) : Z := le_val (if big then rev bs else bs).
Definition read_uint (big : bool) (size : nat) (d : state) : option (Z * state) :=
  match take ((size - fst d mod size) mod size) d with
  | Some (_, d1) => match take size d1 with Some (bs, d2) => Some (bytes_val big bs, d2) | None => None end
  | None => None
  end.
Definition to_signed (signed : bool) (size : nat) (v : Z) : Z :=
  if signed && (256 ^ Z.of_nat size / 2 <=? v) then v - 256 ^ Z.of_nat size else v.
Section Items.
  Variable rd1 : state -> option (sval * state).
  Fixpoint read_items (n : nat) (d : state) : option (list sval * state) :=
    match n with
    | O => Some ([], d)
    | S k => match rd1 d with
             | Some (v, d1) => match read_items k d1 with Some (vs, d2) => Some (v :: vs, d2) | None => None end
             | None => None
             end
    end.
End Items.
Fixpoint read_value (big : bool) (t : stype) (d : state) : option (sval * state) :=
  match t with
  | SPrim signed size => match read_uint big size d with Some (v, d1) => Some (SNum (to_signed signed size v), d1) | None => None end
  | SString =>
      match read_uint big 4 d with
      | Some (n, d1) =>
          match take (Z.to_nat n) d1 with
          | Some (s, d2) => if n =? 0 then Some (SText [], d2) else if last s 1 =? 0 then Some (SText (removelast s), d2) else None
          | None => None
          end
      | None => None
      end
  | SSeq t' =>
      match read_uint big 4 d with
      | Some (n, d1) => match read_items (read_value big t') (Z.to_nat n) d1 with Some (vs, d2) => Some (SItems vs, d2) | None => None end
      | None => None
      end
  | SMsg ms =>
      match (fix go (ms : list (list Z * stype)) (d : state) : option (list (list Z * sval) * state) :=
               match ms with
               | [] => Some ([], d)
               | (n, t') :: ms' =>
                   match read_value big t' d with
                   | Some (v, d1) => match go ms' d1 with Some (vs, d2) => Some ((n, v) :: vs, d2) | None => None end
                   | None => None
                   end
               end) ms d with
      | Some (vs, d1) => Some (SRec vs, d1)
      | None => None
      end
  end.
(** A message, read with the schema of its channel: the value and what is left over. *)
Definition read_by_schema (name text msg : list Z) : option (sval * list Z) :=
  match schema_type name text, msg with
  | Some t, 0 :: e :: 0 :: 0 :: rest =>
      if (e =? 0) || (e =? 1) then match read_value (e =? 0) t (O, rest) with Some (v, d) => Some (v, snd d) | None => None end else None
  | _, _ => None
  end.

(** ** Constants of a definition text: "type NAME=value", with or without spaces *)
Definition decimal (l : list Z) : option Z :=
  match l with [] => None | _ => if forallb (fun c => (48 <=? c) && (c <=? 57)) l then Some (fold_left (fun a c => 10 * a + (c - 48)) l 0) else None end.
Definition constant (l : list Z) : option (list Z * Z) :=
  match split_at (fun c => c =? 61) (uncomment l) with
  | [before; after] => match words before, words after with [_; n], [v] => match decimal v with Some x => Some (n, x) | None => None end | _, _ => None end
  | _ => None
  end.
Definition schema_constants (text : list Z) : list (list Z * Z) :=
  flat_map (fun l => match constant l with Some c => [c] | None => [] end) (text_lines text).
