(** What is assumed of the external compressors (liblz4, libzstd): hypotheses of the
    theorems about compressed clouds, not axioms.  A concrete instance shows they can be
    met together. *)
From Verif Require Import Base Types Api.

(** Largest source both libraries accept: LZ4_MAX_INPUT_SIZE (LZ4_compressBound is 0
    above it); ZSTD's limit is larger. *)
Definition LIB_MAX : Z := 2113929216.

Record compressor_ok (c : codec_lib) : Prop := {
  (* the destination buffer keeps its size *)
  lib_len : forall src dst, length (snd (c_compress c src dst)) = length dst;
  lib_bytes : forall src dst, bytes src -> bytes dst -> bytes (snd (c_compress c src dst));
  (* a positive result is the length of a prefix of the destination that decompresses to
     the source, for every sufficient capacity, and is refused for every smaller one *)
  lib_some : forall src dst n, bytes src -> bytes dst -> fst (c_compress c src dst) = Some n ->
    0 < n <= zlen dst /\ n <= c_bound c (zlen src) /\
    forall cap, c_decompress c (firstn (Z.to_nat n) (snd (c_compress c src dst))) cap = (if zlen src <=? cap then Some src else None);
  (* with at least [c_bound] bytes of room it does not fail on a source of supported size *)
  lib_bound : forall src dst, zlen src <= LIB_MAX -> c_bound c (zlen src) <= zlen dst -> fst (c_compress c src dst) <> None;
  lib_mono : forall a b, 0 <= a <= b -> b <= LIB_MAX -> c_bound c a <= c_bound c b;
  lib_u32 : forall a, 0 <= a <= LIB_MAX -> c_bound c a <= UINT32_MAX;
  lib_nonneg : forall a, 0 <= a -> 0 <= c_bound c a;
  (* the result depends on the source and the room only *)
  lib_pure : forall src d1 d2, length d1 = length d2 ->
    fst (c_compress c src d1) = fst (c_compress c src d2) /\
    forall n, fst (c_compress c src d1) = Some n ->
      firstn (Z.to_nat n) (snd (c_compress c src d1)) = firstn (Z.to_nat n) (snd (c_compress c src d2));
  (* decompression stays within the capacity *)
  lib_dec : forall src cap r, bytes src -> c_decompress c src cap = Some r -> zlen r <= cap /\ bytes r }.
Definition libs_ok (L : libs) : Prop := compressor_ok (lz4 L) /\ compressor_ok (zstd L).

(** The compressed form [p] of the stage-1 bytes [bs]. *)
Definition payload (L : libs) (opt : comp_opt) (bs p : list Z) : Prop :=
  match opt with
  | COMP_NONE => p = bs
  | COMP_LZ4 => zlen p <= INT_MAX /\ forall cap, c_decompress (lz4 L) p cap = (if zlen bs <=? cap then Some bs else None)
  | COMP_ZSTD => forall cap, c_decompress (zstd L) p cap = (if zlen bs <=? cap then Some bs else None)
  | COMP_OTHER _ => False
  end.
(** A chunk in the output: four-byte little-endian size, then the payload. *)
Definition frame (p : list Z) : list Z := le_bytes 4 (zlen p) ++ p.

(** A compressor that stores a tag byte and the source. *)
Definition store_lib : codec_lib := mkLib
  (fun src dst => if zlen dst <? zlen src + 1 then (None, dst)
                  else (Some (zlen src + 1), 0 :: src ++ skipn (S (length src)) dst))
  (fun src cap => match src with
                  | 0 :: r => if zlen r <=? cap then Some r else None
                  | _ => None
                  end)
  (fun n => n + 1).
Definition store_libs : libs := mkLibs store_lib store_lib.
