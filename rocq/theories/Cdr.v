(** CDR serialisation.  Models include/cloudini_lib/contrib/nanocdr.hpp ("CDR"). *)
From Verif Require Import Base.

(** CDR 33-37; the enumerators as their values. *)
Definition DDS_CDR : Z := 1.
Definition XCDRv1 : Z := 2.
Definition XCDRv2 : Z := 3.
Definition PLAIN_CDR : Z := 0.
Definition PL_CDR : Z := 2.
Definition PLAIN_CDR2 : Z := 4.
Inductive endianness := BIG | LITTLE.
Definition endian_code (e : endianness) : Z := match e with BIG => 0 | LITTLE => 1 end.
(** CDR 42-46 CdrHeader *)
Record cdr_header := mkCdr { c_endian : endianness; c_encoding : Z; c_version : Z }.
(** CDR 291, 378 align64_ *)
Definition align64 (h : cdr_header) : nat := if c_version h =? XCDRv2 then 4 else 8.
(** CDR 135-138 and 196-199 alignment(): [size] is a power of two, [pos] the distance from the
    origin (four bytes after the start of the message). *)
Definition alignment (h : cdr_header) (size pos : nat) : nat :=
  let size' := if (size =? 8)%nat then align64 h else size in
  Nat.land (size' - pos mod size') (size' - 1).
(** memcpy of a value and swapEndianness (CDR 234-250): the host is little-endian
    (CDR 224-231). *)
Definition wire (e : endianness) (bs : list Z) : list Z := match e with LITTLE => bs | BIG => rev bs end.

(** *** Encoder (CDR 149-200).  The storage is the message so far, including the four header
    bytes. *)
(** CDR 373-387 the constructor of Encoder *)
Definition cdr_begin (h : cdr_header) : list Z := [0; Z.lor (endian_code (c_endian h)) (c_encoding h); 0; 0].
(** CDR 390-412 encode(const T&) of an arithmetic type of [size] bytes *)
Definition enc_num (h : cdr_header) (size : nat) (v : Z) (storage : list Z) : list Z :=
  let pad := if (2 <=? size)%nat then alignment h size (length storage - 4) else O in
  storage ++ repeat 0 pad ++ wire (if (2 <=? size)%nat then c_endian h else LITTLE) (le_bytes size v).
(** CDR 418-425 encode(const std::string&).  The length plus one is a uint32_t; when it wraps the
    copy overruns the storage. *)
Definition enc_string (h : cdr_header) (s : list Z) (storage : list Z) : res (list Z) :=
  if 4294967296 <=? zlen s + 1 then UB else Ok (enc_num h 4 (zlen s + 1) storage ++ s ++ [0]).
(** CDR 427-433 encode(const ConstBuffer&): at most 2^32 - 1 bytes are written *)
Definition enc_buffer (h : cdr_header) (b : list Z) (storage : list Z) : list Z :=
  let len := zlen b mod 4294967296 in
  enc_num h 4 len storage ++ firstn (Z.to_nat len) b.

(** *** Decoder (CDR 83-140): the distance of the read position from the origin, and the bytes
    left. *)
Definition dstate : Type := nat * list Z.
Definition jump (n : nat) (d : dstate) : res dstate := do r <- trim_front n (snd d) ; Ok ((fst d + n)%nat, r).
(** CDR 252-293, the constructor of Decoder.  Reading ptr[0..3] of a message shorter than four bytes is undefined. *)
Definition cdr_open (default_version : Z) (msg : list Z) : res (cdr_header * dstate) :=
  match msg with
  | b0 :: b1 :: b2 :: b3 :: rest =>
      if negb (b0 =? 0) then Throw
      else
        let e := if Z.land b1 1 =? 0 then BIG else LITTLE in
        let enc := Z.land b1 254 in
        do version <-
          (if enc =? PLAIN_CDR2 then (if XCDRv1 <=? default_version then Ok XCDRv2 else Throw)
           else if enc =? PL_CDR then (if XCDRv1 <=? default_version then Ok XCDRv1 else Throw)
           else if enc =? PLAIN_CDR then Ok (if XCDRv1 <=? default_version then XCDRv1 else default_version)
           else Throw) ;
        if negb (b2 =? 0) || negb (b3 =? 0) then Throw
        else Ok (mkCdr e enc version, (O, rest))
  | b0 :: _ => if negb (b0 =? 0) then Throw else UB
  | [] => UB
  end.
(** CDR 345-366 decode(T&) of an arithmetic type *)
Definition dec_num (h : cdr_header) (size : nat) (d : dstate) : res (Z * dstate) :=
  do d1 <- jump (alignment h size (fst d)) d ;
  if (length (snd d1) <? size)%nat then Throw
  else
    do d2 <- jump size d1 ;
    Ok (le_val (wire (if (2 <=? size)%nat then c_endian h else LITTLE) (firstn size (snd d1))), d2).
(** CDR 312-332 decode(std::string&) *)
Definition dec_string (h : cdr_header) (d : dstate) : res (list Z * dstate) :=
  do '(len, d1) <- dec_num h 4 d ;
  if zlen (snd d1) <? len then Throw
  else
    do d2 <- jump (Z.to_nat len) d1 ;
    let s := firstn (Z.to_nat len) (snd d1) in
    Ok ((if (0 <? len) && (last s 1 =? 0) then removelast s else s), d2).
(** CDR 334-342 decode(ConstBuffer&) *)
Definition dec_buffer (h : cdr_header) (d : dstate) : res (list Z * dstate) :=
  do '(len, d1) <- dec_num h 4 d ;
  if zlen (snd d1) <? len then Throw
  else do d2 <- jump (Z.to_nat len) d1 ; Ok (firstn (Z.to_nat len) (snd d1), d2).

(** *** Composite types: std::vector, std::array (CDR 296-310, 436-449) and structs through
    TypeDefinition (CDR 367-370, 412-415) *)
Inductive ctype := TNum (size : nat) | TString | TBuffer | TVector (t : ctype) | TArray (n : nat) (t : ctype) | TStruct (ts : list ctype).
Inductive cval := VNum (v : Z) | VBytes (s : list Z) | VList (vs : list cval).

Section Folds.
  Variable enc : cval -> list Z -> res (list Z).
  Fixpoint enc_list (vs : list cval) (storage : list Z) : res (list Z) :=
    match vs with [] => Ok storage | v :: vs' => do s <- enc v storage ; enc_list vs' s end.
  Variable dec : dstate -> res (cval * dstate).
  Fixpoint dec_list (n : nat) (d : dstate) : res (list cval * dstate) :=
    match n with
    | O => Ok ([], d)
    | S k => do '(v, d1) <- dec d ; do '(vs, d2) <- dec_list k d1 ; Ok (v :: vs, d2)
    end.
End Folds.
(** encode of a value of type [t]; the value's shape is that of the type in every C++ program
    ([Throw] for the other shapes is never reached) *)
Fixpoint cdr_encode (h : cdr_header) (t : ctype) (v : cval) (storage : list Z) : res (list Z) :=
  match t, v with
  | TNum size, VNum x => Ok (enc_num h size x storage)
  | TString, VBytes s => enc_string h s storage
  | TBuffer, VBytes s => Ok (enc_buffer h s storage)
  | TVector t', VList vs => enc_list (cdr_encode h t') vs (enc_num h 4 (zlen vs mod 4294967296) storage)
  | TArray _ t', VList vs => enc_list (cdr_encode h t') vs storage
  | TStruct ts, VList vs =>
      (fix go (ts : list ctype) (vs : list cval) (s : list Z) : res (list Z) :=
         match ts, vs with
         | t' :: ts', v' :: vs' => do s' <- cdr_encode h t' v' s ; go ts' vs' s'
         | [], [] => Ok s
         | _, _ => Throw
         end) ts vs storage
  | _, _ => Throw
  end.
(** decode of a value of type [t].  (out.resize(len) may throw std::bad_alloc: not modelled.) *)
Fixpoint cdr_decode (h : cdr_header) (t : ctype) (d : dstate) : res (cval * dstate) :=
  match t with
  | TNum size => do '(x, d1) <- dec_num h size d ; Ok (VNum x, d1)
  | TString => do '(s, d1) <- dec_string h d ; Ok (VBytes s, d1)
  | TBuffer => do '(s, d1) <- dec_buffer h d ; Ok (VBytes s, d1)
  | TVector t' => do '(len, d1) <- dec_num h 4 d ; do '(vs, d2) <- dec_list (cdr_decode h t') (Z.to_nat len) d1 ; Ok (VList vs, d2)
  | TArray n t' => do '(vs, d1) <- dec_list (cdr_decode h t') n d ; Ok (VList vs, d1)
  | TStruct ts =>
      do '(vs, d1) <-
        (fix go (ts : list ctype) (d : dstate) : res (list cval * dstate) :=
           match ts with
           | [] => Ok ([], d)
           | t' :: ts' => do '(v, d1) <- cdr_decode h t' d ; do '(vs, d2) <- go ts' d1 ; Ok (v :: vs, d2)
           end) ts d ;
      Ok (VList vs, d1)
  end.
