(** Vocabulary of C91: when the bytes of an external compressor depend on its source only. *)
From Verif Require Import Base Types Api.

(** [c] gives the same bytes for the same source whatever buffer it writes to, as long as it
    succeeds.  (liblz4 does; libzstd does when the buffer has ZSTD_compressBound bytes.) *)
Definition same_in_any_room (c : codec_lib) : Prop :=
  forall src d1 d2 n1 n2, bytes src -> bytes d1 -> bytes d2 ->
    fst (c_compress c src d1) = Some n1 -> fst (c_compress c src d2) = Some n2 ->
    firstn (Z.to_nat n1) (snd (c_compress c src d1)) = firstn (Z.to_nat n2) (snd (c_compress c src d2)).
(** What the second stage must satisfy; nothing when there is none. *)
Definition steady (L : libs) (opt : comp_opt) : Prop :=
  match opt with
  | COMP_LZ4 => same_in_any_room (lz4 L)
  | COMP_ZSTD => same_in_any_room (zstd L)
  | COMP_NONE | COMP_OTHER _ => True
  end.
