(** The cloud header.  Models
    - cloudini_lib/src/cloudini.cpp:48-230 (enum names, YAML writer and reader),
      :232-247 (ComputeHeaderSize), :294-428 (EncodeHeader, DecodeHeader): "CL";
    - cloudini_lib/include/cloudini_lib/yaml_parser.hpp: "YP";
    - encode/decode of encoding_utils.hpp:34-55 and :75-95.
    Strings are lists of byte values. *)
From Coq Require Import String Ascii.
From Verif Require Import Base Types V5 Api.

Definition str (s : string) : list Z := map (fun c => Z.of_N (N_of_ascii c)) (list_ascii_of_string s).

(** operator<<(ostream, float) and std::stof: the C++ library's float formatting, a
    parameter.  [ft_parse s = None]: std::stof throws. *)
Record float_text := mkFT { ft_print : Z -> list Z; ft_parse : list Z -> option Z }.

(** *** Names: CL 48-102 ToString *)
Definition FieldTypeToString (t : ftype) : list Z :=
  str match t with
      | INT8 => "INT8" | UINT8 => "UINT8" | INT16 => "INT16" | UINT16 => "UINT16" | INT32 => "INT32" | UINT32 => "UINT32"
      | FLOAT32 => "FLOAT32" | FLOAT64 => "FLOAT64" | INT64 => "INT64" | UINT64 => "UINT64"
      | UNKNOWN | FT_OTHER _ => "UNKNOWN"
      end.
Definition EncodingToString (e : enc_opt) : list Z :=
  str match e with ENC_NONE => "NONE" | ENC_LOSSY => "LOSSY" | ENC_LOSSLESS => "LOSSLESS" | ENC_OTHER _ => "UNKNOWN" end.
Definition CompressionToString (c : comp_opt) : list Z :=
  str match c with COMP_NONE => "NONE" | COMP_LZ4 => "LZ4" | COMP_ZSTD => "ZSTD" | COMP_OTHER _ => "UNKNOWN" end.

(** std::isspace in the C locale *)
Definition isspace (c : Z) : bool := (c =? 32) || ((9 <=? c) && (c <=? 13)).
Definition isdigit (c : Z) : bool := (48 <=? c) && (c <=? 57).
Fixpoint drop_space (s : list Z) : list Z :=
  match s with c :: s' => if isspace c then drop_space s' else s | [] => [] end.
(** the leading decimal digits as a number; [None]: no digit *)
Fixpoint digits (s : list Z) (acc : option Z) : option Z :=
  match s with
  | c :: s' => if isdigit c then digits s' (Some (10 * match acc with Some a => a | None => 0 end + (c - 48))) else acc
  | [] => acc
  end.
(** sign, then digits *)
Definition signed_digits (s : list Z) : bool * option Z :=
  match drop_space s with
  | 45 :: s' => (true, digits s' None)
  | 43 :: s' => (false, digits s' None)
  | s' => (false, digits s' None)
  end.
(** std::stoi: throws without a digit or outside int *)
Definition stoi (s : list Z) : res Z :=
  match signed_digits s with
  | (_, None) => Throw
  | (neg, Some v) => let v := if (neg : bool) then - v else v in if (v <? -2147483648) || (2147483647 <? v) then Throw else Ok v
  end.
(** istringstream >> uint32_t with the fail() check of YP 104-111: a negative number wraps *)
Definition as_uint32 (s : list Z) : res Z :=
  match signed_digits s with
  | (_, None) => Throw
  | (neg, Some v) => if 4294967295 <? v then Throw else Ok (u32 (if (neg : bool) then - v else v))
  end.
(** istringstream >> uint8_t: the first character that is not white space *)
Definition as_uint8 (s : list Z) : res Z := match drop_space s with c :: _ => Ok c | [] => Throw end.

(** CL 104-163 *)
Definition EncodingOptionsFromString (s : list Z) : res enc_opt :=
  if list_eqb s (str "NONE") then Ok ENC_NONE
  else if list_eqb s (str "LOSSY") then Ok ENC_LOSSY
  else if list_eqb s (str "LOSSLESS") then Ok ENC_LOSSLESS
  else do v <- stoi s ; if (0 <=? v) && (v <=? 2) then Ok (enc_of_code v) else Throw.
Definition CompressionOptionFromString (s : list Z) : res comp_opt :=
  if list_eqb s (str "NONE") then Ok COMP_NONE
  else if list_eqb s (str "LZ4") then Ok COMP_LZ4
  else if list_eqb s (str "ZSTD") then Ok COMP_ZSTD
  else do v <- stoi s ; if (0 <=? v) && (v <=? 2) then Ok (comp_of_code v) else Throw.
Definition FieldTypeFromString (s : list Z) : res ftype :=
  if list_eqb s (str "INT8") then Ok INT8 else if list_eqb s (str "UINT8") then Ok UINT8
  else if list_eqb s (str "INT16") then Ok INT16 else if list_eqb s (str "UINT16") then Ok UINT16
  else if list_eqb s (str "INT32") then Ok INT32 else if list_eqb s (str "UINT32") then Ok UINT32
  else if list_eqb s (str "FLOAT32") then Ok FLOAT32 else if list_eqb s (str "FLOAT64") then Ok FLOAT64
  else if list_eqb s (str "INT64") then Ok INT64 else if list_eqb s (str "UINT64") then Ok UINT64
  else do v <- stoi s ; if (0 <=? v) && (v <=? 10) then Ok (ftype_of_code v) else Throw.

(** *** CL 165-193 EncodingInfoToYAML *)
(** operator<<(ostream, unsigned): decimal, no leading zeros.  Ten digits are enough for a
    uint32. *)
Fixpoint dec_loop_digits (fuel : nat) (v : Z) (acc : list Z) : list Z :=
  match fuel with
  | O => acc
  | S k => let acc' := (48 + v mod 10) :: acc in if v <? 10 then acc' else dec_loop_digits k (v / 10) acc'
  end.
Definition dec_text (v : Z) : list Z := dec_loop_digits 10 v [].
Definition nl : list Z := [10].
Section Text.
  Variable ft : float_text.
  Definition field_yaml (f : field) : list Z :=
    str "  - name: " ++ f_name f ++ nl ++
    str "    offset: " ++ dec_text (f_off f) ++ nl ++
    str "    type: " ++ FieldTypeToString (f_type f) ++ nl ++
    (match f_res f with
     | Some r => str "    resolution: " ++ ft_print ft r ++ nl
     | None => str "    resolution: null" ++ nl
     end).
  Definition EncodingInfoToYAML (i : info) : list Z :=
    str "version: " ++ dec_text (i_version i) ++ nl ++
    str "width: " ++ dec_text (i_width i) ++ nl ++
    str "height: " ++ dec_text (i_height i) ++ nl ++
    str "point_step: " ++ dec_text (i_step i) ++ nl ++
    str "encoding_opt: " ++ EncodingToString (i_enc i) ++ nl ++
    str "compression_opt: " ++ CompressionToString (i_comp i) ++ nl ++
    (match i_cfg i with [] => [] | cfg => str "encoding_config: " ++ cfg ++ nl end) ++
    str "fields:" ++ nl ++
    concat (map field_yaml (i_fields i)).
End Text.

(** *** The YAML parser *)
(** YP 20-23 *)
Inductive node := NNull | NStr (s : list Z) | NSeq (l : list node) | NMap (m : list (list Z * node)).

(** YP 172-183 splitLines *)
Fixpoint splitLines_acc (s cur : list Z) : list (list Z) :=
  match s with
  | [] => match cur with [] => [] | _ => [rev cur] end
  | c :: s' => if c =? 10 then rev cur :: splitLines_acc s' [] else splitLines_acc s' (c :: cur)
  end.
Definition splitLines (s : list Z) : list (list Z) := splitLines_acc s [].

(** YP 371-406 *)
Fixpoint getIndentation (line : list Z) : Z :=
  match line with
  | c :: l => if c =? 32 then 1 + getIndentation l else if c =? 9 then 4 + getIndentation l else 0
  | [] => 0
  end.
Definition trim_end (s : list Z) : list Z := rev (drop_space (rev s)).
(** position of a character, as the text before it and after it *)
Fixpoint find_char (c : Z) (s : list Z) : option (list Z * list Z) :=
  match s with
  | [] => None
  | x :: s' => if x =? c then Some ([], s') else match find_char c s' with Some (a, b) => Some (x :: a, b) | None => None end
  end.
Definition trim (s : list Z) : list Z :=
  match drop_space s with
  | [] => []
  | s1 =>
      let s2 := trim_end s1 in
      match find_char 35 s2 with
      | Some (before, _) => trim_end before
      | None => s2
      end
  end.
(** YP 358-367 *)
Fixpoint skipEmptyLines (ls : list (list Z)) : list (list Z) :=
  match ls with
  | l :: ls' => match trim l with [] => skipEmptyLines ls' | c :: _ => if c =? 35 then skipEmptyLines ls' else ls end
  | [] => []
  end.
Definition starts_item (s : list Z) : option (list Z) := match s with 45 :: 32 :: r => Some r | _ => None end.

(** YP 193-356.  The parser position is the list of remaining lines.  [fuel]: every turn
    of a loop consumes a line; exhaustion is UB and proved unreachable. *)
Fixpoint parseNode (fuel : nat) (base : Z) (ls : list (list Z)) : res (node * list (list Z)) :=
  match fuel with
  | O => UB
  | S k =>
      match skipEmptyLines ls with
      | [] => Ok (NNull, [])
      | line :: ls' =>
          if getIndentation line <? base then Ok (NNull, line :: ls')
          else
            let t := trim line in
            match starts_item t with
            | Some _ => do '(seq, rest) <- parseSequence k base (line :: ls') ; Ok (NSeq seq, rest)
            | None =>
                match find_char 58 t with
                | Some _ => do '(m, rest) <- parseMapping k base (line :: ls') ; Ok (NMap m, rest)
                | None => Ok (NStr t, line :: ls')          (* the line is not consumed *)
                end
            end
      end
  end
(** YP 223-310 *)
with parseSequence (fuel : nat) (base : Z) (ls : list (list Z)) : res (list node * list (list Z)) :=
  match fuel with
  | O => UB
  | S k =>
      match skipEmptyLines ls with
      | [] => Ok ([], [])
      | line :: ls' =>
          let indent := getIndentation line in
          if indent <? base then Ok ([], line :: ls')
          else
            match starts_item (trim line) with
            | None => Ok ([], line :: ls')
            | Some item =>
                do '(n, rest) <-
                  (match item with
                   | [] => parseNode k (indent + 2) ls'
                   | _ =>
                       match find_char 58 item with
                       | Some (key, value) =>
                           let first := match trim value with [] => [] | v => [(trim key, NStr v)] end in
                           do '(more, rest) <- parseItemKeys k indent ls' ;
                           Ok (NMap (first ++ more), rest)
                       | None => Ok (NStr item, ls')
                       end
                   end) ;
                do '(ns, rest') <- parseSequence k base rest ;
                Ok (n :: ns, rest')
            end
      end
  end
(** YP 264-296: the further keys of a sequence item *)
with parseItemKeys (fuel : nat) (indent : Z) (ls : list (list Z)) : res (list (list Z * node) * list (list Z)) :=
  match fuel with
  | O => UB
  | S k =>
      match skipEmptyLines ls with
      | [] => Ok ([], [])
      | line :: ls' =>
          let next_indent := getIndentation line in
          if next_indent <=? indent then Ok ([], line :: ls')
          else
            match find_char 58 (trim line) with
            | None => Ok ([], line :: ls')
            | Some (key, value) =>
                do '(n, rest) <- (match trim value with [] => parseNode k (next_indent + 2) ls' | v => Ok (NStr v, ls') end) ;
                do '(more, rest') <- parseItemKeys k indent rest ;
                Ok ((trim key, n) :: more, rest')
            end
      end
  end
(** YP 312-356 *)
with parseMapping (fuel : nat) (base : Z) (ls : list (list Z)) : res (list (list Z * node) * list (list Z)) :=
  match fuel with
  | O => UB
  | S k =>
      match skipEmptyLines ls with
      | [] => Ok ([], [])
      | line :: ls' =>
          let indent := getIndentation line in
          if negb (indent =? base) then Ok ([], line :: ls')
          else
            match find_char 58 (trim line) with
            | None => Ok ([], line :: ls')
            | Some (key, value) =>
                do '(n, rest) <- (match trim value with [] => parseNode k (indent + 2) ls' | v => Ok (NStr v, ls') end) ;
                do '(more, rest') <- parseMapping k base rest ;
                Ok ((trim key, n) :: more, rest')
            end
      end
  end.
(** YP 185-191 parseDocument *)
Definition yaml_parse (s : list Z) : res node :=
  let ls := splitLines s in
  match ls with
  | [] => Ok NNull
  | _ => do '(n, _) <- parseNode (2 * List.length ls + 2) 0 ls ; Ok n
  end.

(** YP 51-80 accessors *)
Definition as_string (n : node) : res (list Z) := match n with NStr s => Ok s | _ => Throw end.
Fixpoint lookup (m : list (list Z * node)) (key : list Z) : node :=
  match m with (k, v) :: m' => if list_eqb k key then v else lookup m' key | [] => NNull end.
Definition get (n : node) (key : list Z) : res node := match n with NMap m => Ok (lookup m key) | _ => Throw end.
Definition get_str (n : node) (key : list Z) : res (list Z) := do v <- get n key ; as_string v.

Section FromYaml.
  Variable ft : float_text.
  (** CL 215-227 *)
  Definition field_from (n : node) : res field :=
    do name <- get_str n (str "name") ;
    do o <- get_str n (str "offset") ; do off <- as_uint32 o ;
    do t <- get_str n (str "type") ; do ty <- FieldTypeFromString t ;
    do r <- get_str n (str "resolution") ;
    if list_eqb r (str "null") then Ok (mkField name off ty None)
    else match ft_parse ft r with None => Throw | Some v => Ok (mkField name off ty (Some v)) end.
  Fixpoint fields_from (l : list node) : res (list field) :=
    match l with [] => Ok [] | n :: l' => do f <- field_from n ; do fs <- fields_from l' ; Ok (f :: fs) end.
  (** CL 195-230 EncodingInfoFromYAML *)
  Definition EncodingInfoFromYAML (s : list Z) : res info :=
    do root <- yaml_parse s ;
    do v <- get_str root (str "version") ; do version <- as_uint8 v ;
    do w <- get_str root (str "width") ; do width <- as_uint32 w ;
    do h <- get_str root (str "height") ; do height <- as_uint32 h ;
    do p <- get_str root (str "point_step") ; do step <- as_uint32 p ;
    do e <- get_str root (str "encoding_opt") ; do enc <- EncodingOptionsFromString e ;
    do c <- get_str root (str "compression_opt") ; do comp <- CompressionOptionFromString c ;
    do cfg <- get root (str "encoding_config") ;
    do fs <- get root (str "fields") ;
    do fields <- (match fs with NSeq l => fields_from l | _ => Ok [] end) ;
    Ok (mkInfo fields width height step enc (match cfg with NStr s => s | _ => [] end) comp true version).
End FromYaml.

(** *** EncodeHeader, CL 294-344 *)
Inductive header_encoding := HBinary | HYaml.
(** CL 232-247 *)
Definition ComputeHeaderSize (fs : list field) : Z :=
  zlen magic + 2 + 4 + 4 + 4 + 1 + 1 + 2 + fold_right (fun f a => zlen (f_name f) + 2 + 4 + 1 + 4 + a) 0 fs.
(** CL 297-305 *)
Definition magic_version (v : Z) : list Z := magic ++ [48 + v / 10; 48 + v mod 10].
(** encoding_utils.hpp:44-55: the length is truncated to 16 bits, and so is the text *)
Definition encode_string (s : list Z) : list Z :=
  le_bytes 2 (zlen s) ++ firstn (Z.to_nat (zlen s mod 65536)) s.
(** -1.0f *)
Definition minus_one : Z := 3212836864.
Definition field_binary (f : field) : list Z :=
  encode_string (f_name f) ++ le_bytes 4 (f_off f) ++ le_bytes 1 (ftype_code (f_type f)) ++
  le_bytes 4 (match f_res f with Some r => r | None => minus_one end).
(** Writing a text of bytes into a zero-filled buffer of [size] bytes; encode() throws when
    it does not fit. *)
Definition into (size : Z) (bs : list Z) : res (list Z) :=
  if size <? zlen bs then Throw else Ok (bs ++ repeat 0 (Z.to_nat (size - zlen bs))).
Definition EncodeHeader (ft : float_text) (i : info) (h : header_encoding) : res (list Z) :=
  match h with
  | HYaml => Ok (magic_version (i_version i) ++ nl ++ EncodingInfoToYAML ft i ++ [0])
  | HBinary =>
      into (ComputeHeaderSize (i_fields i))
        (magic_version (i_version i) ++
         le_bytes 4 (i_width i) ++ le_bytes 4 (i_height i) ++ le_bytes 4 (i_step i) ++
         le_bytes 1 (enc_code (i_enc i)) ++ le_bytes 1 (comp_code (i_comp i)) ++ le_bytes 2 (zlen (i_fields i)) ++
         concat (map field_binary (i_fields i)))
  end.

(** *** DecodeHeader, CL 346-428 *)
Definition char_to_num (c : Z) : Z := if isdigit c then c - 48 else 0.
(** encoding_utils.hpp:75-95 *)
Definition take (n : nat) (input : list Z) : res (list Z * list Z) :=
  if (List.length input <? n)%nat then Throw else Ok (firstn n input, skipn n input).
Definition decode_string (input : list Z) : res (list Z * list Z) :=
  do '(len, input) <- take_uint 2 input ; take (Z.to_nat len) input.
(** [res > 0] on the bits of a float *)
Definition f32_gt0 (r : Z) : bool := (0 <? r) && (r <=? 2139095040).
Definition decode_field (input : list Z) : res (field * list Z) :=
  do '(name, input) <- decode_string input ;
  do '(off, input) <- take_uint 4 input ;
  do '(ty, input) <- take_uint 1 input ;
  do '(r, input) <- take_uint 4 input ;
  Ok (mkField name off (ftype_of_code ty) (if f32_gt0 r then Some r else None), input).
Fixpoint decode_fields (n : nat) (input : list Z) : res (list field * list Z) :=
  match n with
  | O => Ok ([], input)
  | S k => do '(f, input) <- decode_field input ; do '(fs, input) <- decode_fields k input ; Ok (f :: fs, input)
  end.
Definition kEncodingVersion : Z := 5.
(** CL 395-427: the binary part *)
Definition binary (version : Z) (input : list Z) : res (info * list Z) :=
  do '(w, input) <- take_uint 4 input ;
  do '(h, input) <- take_uint 4 input ;
  do '(p, input) <- take_uint 4 input ;
  do '(e, input) <- take_uint 1 input ;
  do '(c, input) <- take_uint 1 input ;
  do '(n, input) <- take_uint 2 input ;
  do '(fs, input) <- decode_fields (Z.to_nat n) input ;
  Ok (mkInfo fs w h p (enc_of_code e) [] (comp_of_code c) true version, input).
(** The header and the remaining input.  The first two reads after the size check are
    raw: [rd]. *)
Definition DecodeHeader (ft : float_text) (input : list Z) : res (info * list Z) :=
  if zlen input <? zlen magic + 2 then Throw
  else
    do m <- rd 0 (List.length magic) input ;
    if negb (list_eqb m magic) then Throw
    else
      do input <- trim_front (List.length magic) input ;
      do v <- rd 0 2 input ;
      let version := (char_to_num (nth 0 v 0) * 10 + char_to_num (nth 1 v 0)) mod 256 in
      do input <- trim_front 2 input ;
      if (version <? 2) || (kEncodingVersion <? version) then Throw
      else
        match input with
        | 10 :: c :: _ =>
            if c =? 123 then
              binary version input
            else
              do input <- trim_front 1 input ;
              match find_char 0 input with
              | None => Throw
              | Some (yaml, rest) =>
                  do i <- EncodingInfoFromYAML ft yaml ;
                  Ok (mkInfo (i_fields i) (i_width i) (i_height i) (i_step i) (i_enc i) (i_cfg i) (i_comp i) (i_threads i) version, rest)
              end
        | _ => binary version input
        end.
