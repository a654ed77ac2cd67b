(** The Python decoder.  Models cloudini_py/cloudini_decoder.py ("PY").
    Texts are lists of code points.  Parameters: [utf8], bytes.decode('utf-8'); [py_float], float() of
    a text, [None] when it raises.  An exception is [Throw].
    Simplifications: the WebAssembly functions are those of Wasm.v on separate buffers (what the
    caller allocated); allocation succeeds; int() knows the ASCII digits only; header values that
    are not integers where integers are used are [Throw]; printing is left out.
    numpy is not part of the repository: an array made by np.frombuffer with a structured dtype is
    its dtype and its bytes, [dtype_ok] are the conditions np.dtype checks (an empty name counts as
    an error). *)
From Verif Require Import Base Types Floats Api Header Wasm.
From Coq Require Import String.
Notation length := List.length.
Open Scope Z_scope.
Open Scope list_scope.

(** str.isspace *)
Definition py_space (c : Z) : bool :=
  ((9 <=? c) && (c <=? 13)) || ((28 <=? c) && (c <=? 32)) || (c =? 133) || (c =? 160) || (c =? 5760) ||
  ((8192 <=? c) && (c <=? 8202)) || (c =? 8232) || (c =? 8233) || (c =? 8239) || (c =? 8287) || (c =? 12288).
Fixpoint py_lstrip (s : list Z) : list Z := match s with c :: s' => if py_space c then py_lstrip s' else s | [] => [] end.
Definition py_strip (s : list Z) : list Z := rev (py_lstrip (rev (py_lstrip s))).
(** str.split(c) *)
Fixpoint py_split (d : Z) (l : list Z) : list (list Z) :=
  match l with
  | [] => [[]]
  | x :: l' => if x =? d then [] :: py_split d l' else match py_split d l' with t :: ts => (x :: t) :: ts | [] => [[x]] end
  end.
(** str.split(c, 1): [None] when there is no c (a list of one element) *)
Definition py_split1 (d : Z) (l : list Z) : option (list Z * list Z) := find_char d l.
Fixpoint py_startswith (s p : list Z) : bool :=
  match p, s with [], _ => true | a :: p', b :: s' => (a =? b) && py_startswith s' p' | _, [] => false end.
(** int(): a sign, digits, single underscores between digits *)
Fixpoint int_loop (s : list Z) (acc : Z) (after_digit : bool) : option Z :=
  match s with
  | [] => if after_digit then Some acc else None
  | c :: s' => if isdigit c then int_loop s' (10 * acc + (c - 48)) true
               else if (c =? 95) && after_digit then int_loop s' acc false else None
  end.
Definition py_int (s : list Z) : option Z :=
  match py_strip s with
  | 45 :: s' => match int_loop s' 0 false with Some v => Some (- v) | None => None end
  | 43 :: s' => int_loop s' 0 false
  | s' => int_loop s' 0 false
  end.

Inductive py_value := VNone | VInt (v : Z) | VFloat (v : Z) | VStr (s : list Z).
(** a dict in insertion order *)
Definition py_dict : Type := list (list Z * py_value).
Fixpoint dset (d : py_dict) (k : list Z) (v : py_value) : py_dict :=
  match d with [] => [(k, v)] | (a, b) :: d' => if list_eqb a k then (a, v) :: d' else (a, b) :: dset d' k v end.
Fixpoint dget (d : py_dict) (k : list Z) : option py_value :=
  match d with [] => None | (a, b) :: d' => if list_eqb a k then Some b else dget d' k end.

(** *** numpy *)
Inductive np_type := np_float32 | np_float64 | np_uint8 | np_uint16 | np_uint32 | np_int8 | np_int16 | np_int32.
Definition np_size (t : np_type) : nat :=
  match t with np_float32 | np_uint32 | np_int32 => 4 | np_float64 => 8 | np_uint16 | np_int16 => 2 | np_uint8 | np_int8 => 1 end%nat.
Record column := mkCol { col_name : list Z; col_type : np_type; col_off : Z }.
Inductive ndarray :=
| Structured (cols : list column) (itemsize count : Z) (data : list Z)
| Bytes (data : list Z)                      (* one dimension *)
| Rows (count width : Z) (data : list Z).    (* reshape((count, width)) *)
Fixpoint distinct (l : list (list Z)) : bool :=
  match l with [] => true | x :: l' => negb (existsb (list_eqb x) l') && distinct l' end.
Definition dtype_ok (cols : list column) (itemsize : Z) : bool :=
  distinct (map col_name cols) && forallb (fun c => negb (list_eqb (col_name c) [])) cols &&
  forallb (fun c => (0 <=? col_off c) && (col_off c + Z.of_nat (np_size (col_type c)) <=? itemsize)) cols && (0 <? itemsize).
(** np.frombuffer(data, dtype, count) *)
Definition frombuffer (cols : list column) (itemsize count : Z) (data : list Z) : res ndarray :=
  if negb (dtype_ok cols itemsize) then Throw
  else if (count <? 0) || (zlen data <? count * itemsize) then Throw
  else Ok (Structured cols itemsize count data).
(** what indexing gives: arr[name][p] *)
Fixpoint find_col (cols : list column) (name : list Z) : option column :=
  match cols with [] => None | c :: cols' => if list_eqb (col_name c) name then Some c else find_col cols' name end.
Definition np_item (a : ndarray) (name : list Z) (p : Z) : option (np_type * list Z) :=
  match a with
  | Structured cols itemsize count data =>
      match find_col cols name with
      | Some c => if (0 <=? p) && (p <? count) then Some (col_type c, firstn (np_size (col_type c)) (skipn (Z.to_nat (p * itemsize + col_off c)) data)) else None
      | None => None
      end
  | _ => None
  end.

Section Decoder.
  Variables (utf8 : list Z -> res (list Z)) (py_float : list Z -> option Z).

  (** PY 199-211 *)
  Definition parse_yaml_value (s : list Z) : py_value :=
    if list_eqb s (str "null") || list_eqb s (str "None") then VNone
    else match py_int s with
         | Some v => VInt v
         | None => match py_float s with Some v => VFloat v | None => VStr s end
         end.

  (** PY 240-283: the loop over the lines *)
  Record pstate := mkP { p_header : py_dict; p_fields : list py_dict; p_current : option py_dict; p_in : bool }.
  Definition close (s : pstate) : list py_dict := match p_current s with Some (x :: d) => p_fields s ++ [x :: d] | _ => p_fields s end.
  Definition parse_line (s : pstate) (line : list Z) : pstate :=
    let t := py_strip line in
    if py_startswith t (str "fields:") then mkP (p_header s) (p_fields s) (p_current s) true
    else if p_in s then
      if py_startswith t (str "- name:") then
        let name := match py_split1 58 t with Some (_, v) => py_strip v | None => [] end in
        mkP (p_header s) (close s) (Some [(str "name", VStr name)]) true
      else match py_split1 58 t with
           | Some (k, v) =>
               if py_startswith t (str "-") then s
               else match p_current s with
                    | Some d => mkP (p_header s) (p_fields s) (Some (dset d (py_strip k) (parse_yaml_value (py_strip v)))) true
                    | None => s
                    end
           | None => s
           end
    else match py_split1 58 t with
         | Some (k, v) => mkP (dset (p_header s) (py_strip k) (parse_yaml_value (py_strip v))) (p_fields s) (p_current s) false
         | None => s
         end.
  (** the dict and its entry 'fields' *)
  Record header := mkHeader { hd_values : py_dict; hd_fields : list py_dict }.
  Definition parse_header (text : list Z) : header :=
    let s := fold_left parse_line (py_split 10 text) (mkP [] [] None false) in
    mkHeader (p_header s) (close s).

  (** dict.get(key, 0) where an int is needed *)
  Definition int_of (d : py_dict) (k : list Z) : res Z :=
    match dget d k with None => Ok 0 | Some (VInt v) => Ok v | Some _ => Throw end.
  (** PY 344-353: type_map.get(f.get('type', 'UINT8'), np.uint8) *)
  Definition type_of (d : py_dict) : np_type :=
    match dget d (str "type") with
    | Some (VStr t) =>
        if list_eqb t (str "FLOAT32") then np_float32 else if list_eqb t (str "FLOAT64") then np_float64
        else if list_eqb t (str "UINT8") then np_uint8 else if list_eqb t (str "UINT16") then np_uint16
        else if list_eqb t (str "UINT32") then np_uint32 else if list_eqb t (str "INT8") then np_int8
        else if list_eqb t (str "INT16") then np_int16 else if list_eqb t (str "INT32") then np_int32
        else np_uint8
    | _ => np_uint8
    end.
  (** PY 359-367: the fields sorted by offset (sorted() is stable) *)
  Fixpoint insert (c : column) (l : list column) : list column :=
    match l with [] => [c] | x :: l' => if col_off c <=? col_off x then c :: l else x :: insert c l' end.
  Fixpoint sort (l : list column) : list column := match l with [] => [] | c :: l' => insert c (sort l') end.
  Fixpoint columns (fs : list py_dict) : res (list column) :=
    match fs with
    | [] => Ok []
    | f :: fs' =>
        do o <- int_of f (str "offset") ;
        do n <- (match dget f (str "name") with Some (VStr n) => Ok n | _ => Throw end) ;
        do rest <- columns fs' ;
        Ok (mkCol n (type_of f) o :: rest)
    end.
  (** PY 317-386 bytes_to_numpy *)
  Definition bytes_to_numpy (data : list Z) (h : header) : res ndarray :=
    do w <- int_of (hd_values h) (str "width") ;
    do hh <- int_of (hd_values h) (str "height") ;
    do step <- int_of (hd_values h) (str "point_step") ;
    let num := w * hh in
    let fallback := if (0 <? num) && (0 <? step) then (if zlen data =? num * step then Ok (Rows num step data) else Throw) else Ok (Bytes data) in
    match hd_fields h with
    | [] => fallback
    | fs => match (do cols <- columns fs ; frombuffer (sort cols) step num data) with Ok a => Ok a | _ => fallback end
    end.
  (** msg[-n:] *)
  Definition py_tail (n : Z) (l : list Z) : list Z :=
    if n =? 0 then l else if n <? 0 then skipn (Z.to_nat (- n)) l else skipn (length l - Z.to_nat n) l.
  (** PY 289-315 *)
  Definition extract_data (msg : list Z) (h : header) : res ndarray :=
    do w <- int_of (hd_values h) (str "width") ;
    do hh <- int_of (hd_values h) (str "height") ;
    do step <- int_of (hd_values h) (str "point_step") ;
    let expected := w * hh * step in
    bytes_to_numpy (if expected <=? zlen msg then py_tail expected msg else msg) h.

  Variables (ft : float_text) (ops : float_ops) (L : libs) (ppc : nat).
  (** PY 213-287; [yaml]: the contents of the 4096 bytes allocated at PY 225-226.  [None]: {} *)
  Definition get_header_info (msg yaml : list Z) : res (option header) :=
    let '(n, mem) := cldn_GetHeaderAsYAMLFromDDS ft msg yaml in
    do n <- n ;
    if n =? 0 then Ok None
    else do text <- utf8 (firstn (Z.to_nat n) mem) ; Ok (Some (parse_header text)).
  (** PY 148-197; [out]: the contents of the 32 MB allocated at PY 121 *)
  Definition decode_message (msg yaml out : list Z) : res (ndarray * header) :=
    let '(n, mem) := cldn_DecodeCompressedMessage ft ops L ppc msg out in
    do n <- n ;
    if n =? 0 then Throw
    else
      do h <- get_header_info msg yaml ;
      match h with
      | None => Throw
      | Some h =>
          match dget (hd_values h) (str "width") with
          | None => Throw
          | Some _ => do a <- extract_data (firstn (Z.to_nat n) mem) h ; Ok (a, h)
          end
      end.
End Decoder.
