(** Data types of the public API.  Models
    cloudini_lib/include/cloudini_lib/basic_types.hpp:27-95 and
    cloudini_lib/include/cloudini_lib/cloudini.hpp:33-111. *)
From Verif Require Import Base.

(** basic_types.hpp:28-45.  [FT_OTHER n]: a byte cast to the enum that names no
    enumerator (cloudini.cpp:419 casts any byte of a binary header). *)
Inductive ftype :=
| UNKNOWN | INT8 | UINT8 | INT16 | UINT16 | INT32 | UINT32 | FLOAT32 | FLOAT64 | INT64 | UINT64
| FT_OTHER (n : Z).

Definition ftype_code (t : ftype) : Z :=
  match t with
  | UNKNOWN => 0 | INT8 => 1 | UINT8 => 2 | INT16 => 3 | UINT16 => 4 | INT32 => 5 | UINT32 => 6
  | FLOAT32 => 7 | FLOAT64 => 8 | INT64 => 9 | UINT64 => 10 | FT_OTHER n => n
  end.
(** static_cast<FieldType>(byte) *)
Definition ftype_of_code (n : Z) : ftype :=
  match n with
  | 0 => UNKNOWN | 1 => INT8 | 2 => UINT8 | 3 => INT16 | 4 => UINT16 | 5 => INT32 | 6 => UINT32
  | 7 => FLOAT32 | 8 => FLOAT64 | 9 => INT64 | 10 => UINT64 | _ => FT_OTHER n
  end.

(** basic_types.hpp:73-95 SizeOf *)
Definition SizeOf (t : ftype) : nat :=
  match t with
  | INT8 | UINT8 => 1
  | INT16 | UINT16 => 2
  | INT32 | UINT32 | FLOAT32 => 4
  | FLOAT64 | INT64 | UINT64 => 8
  | UNKNOWN | FT_OTHER _ => 0
  end.

(** cloudini.hpp:33-43 and :46-53, with the out-of-range casts of cloudini.cpp:405,408 *)
Inductive enc_opt := ENC_NONE | ENC_LOSSY | ENC_LOSSLESS | ENC_OTHER (n : Z).
Inductive comp_opt := COMP_NONE | COMP_LZ4 | COMP_ZSTD | COMP_OTHER (n : Z).
Definition enc_code e := match e with ENC_NONE => 0 | ENC_LOSSY => 1 | ENC_LOSSLESS => 2 | ENC_OTHER n => n end.
Definition comp_code c := match c with COMP_NONE => 0 | COMP_LZ4 => 1 | COMP_ZSTD => 2 | COMP_OTHER n => n end.
Definition enc_of_code n := match n with 0 => ENC_NONE | 1 => ENC_LOSSY | 2 => ENC_LOSSLESS | _ => ENC_OTHER n end.
Definition comp_of_code n := match n with 0 => COMP_NONE | 1 => COMP_LZ4 | 2 => COMP_ZSTD | _ => COMP_OTHER n end.

(** basic_types.hpp:47-67.  Names are byte strings, the resolution is the bit
    pattern of the float. *)
Record field := mkField { f_name : list Z; f_off : Z; f_type : ftype; f_res : option Z }.

(** basic_types.hpp:71 *)
Definition kSkip : Z := 4294967295.

(** cloudini.hpp:65-111 *)
Record info := mkInfo {
  i_fields : list field; i_width : Z; i_height : Z; i_step : Z;
  i_enc : enc_opt; i_cfg : list Z; i_comp : comp_opt; i_threads : bool; i_version : Z }.

(** codec_common.hpp: kPointsPerChunk = 32 * 1024 *)
Definition kPointsPerChunk : nat := Z.to_nat 32768.
