(** Driving one field encoder over a sequence of points and one field decoder over the
    bytes.  Not code of the library: it is how the chunk codecs (v4_codec.cpp:74-76,
    96-98) use one field's objects, isolated from the other fields. *)
From Verif Require Import Base Varint Types Floats Fields Codec V5 Spec.

(** Bytes appended by encode() for the points [views] in turn; [st]: encoder state. *)
Fixpoint encode_all (ops : float_ops) (e : fenc) (st : fstate) (views : list (list Z)) : res (list (list Z)) :=
  match views with
  | [] => Ok []
  | v :: views' => do '(st', b) <- enc_step ops e st v ; do bs <- encode_all ops e st' views' ; Ok (b :: bs)
  end.
(** [n] calls of decode(): the stores of each call, (offset in the point, bytes), and the
    remaining input. *)
Fixpoint decode_all (ops : float_ops) (d : fdec) (st : fstate) (n : nat) (input : list Z)
  : res (list (list (Z * list Z)) * list Z) :=
  match n with
  | O => Ok ([], input)
  | S k => do '(st', input', ss) <- dec_step ops d st input ;
           do '(sss, rest) <- decode_all ops d st' k input' ; Ok (ss :: sss, rest)
  end.
(** Each difference between consecutive values, starting from 0, is not 2^63 modulo
    2^64; [None] (a NaN) counts as 0 and is not subject to the condition. *)
Fixpoint jumps_ok (prev : Z) (vs : list (option Z)) : Prop :=
  match vs with
  | [] => True
  | Some v :: vs' => (v - prev) mod 18446744073709551616 <> 9223372036854775808 /\ jumps_ok v vs'
  | None :: vs' => jumps_ok 0 vs'
  end.
(** A point that contains [sz] bytes at [off]. *)
Definition has_field (off : Z) (sz : nat) (v : list Z) : Prop := bytes v /\ 0 <= off /\ off + Z.of_nat sz <= zlen v.

(** *** One integer column of the V5 codec *)
(** collectAdaptiveIntValue for the points [views] in turn. *)
Fixpoint collect_all (a : afield) (s : astate) (views : list (list Z)) : res astate :=
  match views with
  | [] => Ok s
  | v :: views' => do s' <- collect a s v ; collect_all a s' views'
  end.
(** The section written for a chunk with the points [views]: [m0] is the mode committed
    by an earlier chunk (streaming sections), [None]: first chunk, mode still to be
    chosen; [t]: the palette table left by earlier columns; [cap]: room. *)
Definition field_section (a : afield) (t : ptab) (m0 : option amode) (views : list (list Z)) (cap : Z) : res (list Z) :=
  do s <- collect_all a (prepare_chunk (mkAS [] [] t m0 false stream0)) views ;
  do '(_, bs, _) <- append_section a s cap ; Ok bs.
(** The palette tables that can be left behind by any sequence of earlier columns. *)
Inductive table_after : ptab -> Prop :=
| table_new : table_after ptab_init
| table_next t raws t' pal idx : table_after t -> zlen raws < 2147483648 ->
    buildPaletteIndexes t raws = Ok (t', pal, idx) -> table_after t'.
(** The distinct elements in order of first appearance: scan from the end, dropping the
    later occurrences. *)
Fixpoint distinct_in_order (l : list Z) : list Z :=
  match l with
  | [] => []
  | v :: l' => v :: filter (fun x => negb (x =? v)) (distinct_in_order l')
  end.
(** Reading [n] packed indexes. *)
Fixpoint unpack (n : nat) (bits scratch held : Z) (ptr : list Z) : res (list Z) :=
  match n with
  | O => Ok []
  | S k => do '(i, scratch, held, ptr) <- readBitpackedIndex bits scratch held ptr ;
           do l <- unpack k bits scratch held ptr ; Ok (i :: l)
  end.
(** Values of the field in the points, as signed integers / raw bits. *)
Definition col_bytes (a : afield) (views : list (list Z)) : list (list Z) := map (sub (a_off a) (a_size a)) views.
(** [mem'] holds the field bytes [bss] at the field's place in consecutive points from
    [base] on, and is otherwise [mem]. *)
Definition column_stored (off : Z) (sz : nat) (base step : Z) (bss : list (list Z)) (mem mem' : list Z) : Prop :=
  length mem' = length mem /\
  (forall j bs, nth_error bss j = Some bs -> sub (base + Z.of_nat j * step + off) sz mem' = bs) /\
  (forall x, (x < length mem)%nat ->
     (forall j, (j < length bss)%nat -> ~ (base + Z.of_nat j * step + off <= Z.of_nat x < base + Z.of_nat j * step + off + Z.of_nat sz)) ->
     nth_error mem' x = nth_error mem x).
