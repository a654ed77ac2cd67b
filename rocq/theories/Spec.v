(** Specification vocabulary used by the theorem statements about encode/decode.  It
    mentions only the public data types and the raw cloud bytes, none of the codec. *)
From Verif Require Import Base Types Floats.

(** [sub off sz l]: the [sz] bytes of [l] at offset [off]. *)
Definition sub (off : Z) (sz : nat) (l : list Z) : list Z := firstn sz (skipn (Z.to_nat off) l).

(** What a field value goes through: nothing ([KId]) or quantisation with the bit
    pattern [r] of the field's resolution, in one of the three float pipelines. *)
Inductive lossk := KId | K32 (r : Z) | K64 (r : Z) | KN (r : Z).
(** The bytes of the field after a round trip, given the bytes before. *)
Definition recon (ops : float_ops) (k : lossk) (bs : list Z) : list Z :=
  match k with
  | KId => bs
  | K32 r => le_bytes 4 (if isnan32 (le_val bs) then qnan32 else u32 (d32 ops r (s64 (q32 ops r (le_val bs)))))
  | K64 r => le_bytes 8 (if isnan64 (le_val bs) then qnan64 else u64 (d64 ops r (s64 (q64 ops r (le_val bs)))))
  | KN r => le_bytes 4 (if isnan32 (le_val bs) then qnan32 else u32 (dN ops r (s32 (qN ops r (le_val bs)))))
  end.

(** Number of leading fields that are FLOAT32 with a resolution. *)
Fixpoint lead_run (fs : list field) : nat :=
  match fs with
  | {| f_type := FLOAT32; f_res := Some _ |} :: fs' => S (lead_run fs')
  | _ => O
  end.
(** Kind of one field in a LOSSY cloud, outside the leading vector group. *)
Definition lossy_kind (f : field) : lossk :=
  match f_type f, f_res f with
  | FLOAT32, Some r => K32 r
  | FLOAT64, Some r => K64 r
  | _, _ => KId
  end.
Definition vector_kind (f : field) : lossk := match f_res f with Some r => KN r | None => KId end.
Definition kinds (i : info) : list lossk :=
  match i_enc i with
  | ENC_LOSSY =>
      let n := lead_run (i_fields i) in
      if (n =? 3)%nat || (n =? 4)%nat
      then map vector_kind (firstn n (i_fields i)) ++ map lossy_kind (skipn n (i_fields i))
      else map lossy_kind (i_fields i)
  | _ => map (fun _ => KId) (i_fields i)
  end.

(** Signed value of an integer field, sign- or zero-extended and reinterpreted as int64. *)
Definition int_value (t : ftype) (bs : list Z) : option Z :=
  match t with
  | INT16 => Some (let v := le_val bs in if 32768 <=? v then v - 65536 else v)
  | UINT16 | UINT32 => Some (le_val bs)
  | INT32 => Some (s32 (le_val bs))
  | INT64 | UINT64 => Some (s64 (le_val bs))
  | _ => None
  end.
(** The integer that is delta coded for a field value; [None]: NaN, or not delta coded
    with 64-bit differences. *)
Definition coded_value (ops : float_ops) (t : ftype) (k : lossk) (bs : list Z) : option Z :=
  match k with
  | KId => int_value t bs
  | K32 r => if isnan32 (le_val bs) then None else Some (s64 (q32 ops r (le_val bs)))
  | K64 r => if isnan64 (le_val bs) then None else Some (s64 (q64 ops r (le_val bs)))
  | KN _ => None
  end.

(** Bytes of field [f] in point [j] of a cloud. *)
Definition fbytes (i : info) (f : field) (cloud : list Z) (j : nat) : list Z :=
  sub (Z.of_nat j * i_step i + f_off f) (SizeOf (f_type f)) cloud.

(** No coded difference between a point and its predecessor in the same chunk (0 at
    the start of a chunk and after a NaN) is congruent to -2^63 modulo 2^64: the one
    difference the varint code cannot carry (its code is the NaN marker). *)
Definition deltas_ok_field (ops : float_ops) (i : info) (ppc : nat) (cloud : list Z) (f : field) (k : lossk) : Prop :=
  forall j v, Z.of_nat (S j) * i_step i <= zlen cloud ->
    coded_value ops (f_type f) k (fbytes i f cloud j) = Some v ->
    s64 (v - (if (j mod ppc =? 0)%nat then 0
              else match coded_value ops (f_type f) k (fbytes i f cloud (j - 1)) with Some p => p | None => 0 end))
    <> INT64_MIN.
Definition deltas_ok (ops : float_ops) (i : info) (ppc : nat) (cloud : list Z) : Prop :=
  Forall (fun fk => deltas_ok_field ops i ppc cloud (fst fk) (snd fk)) (combine (i_fields i) (kinds i)).

(** A layout whose fields lie inside the point. *)
Definition layout_ok (i : info) : Prop :=
  0 < i_step i /\
  Forall (fun f => 0 <= f_off f /\ f_off f + Z.of_nat (SizeOf (f_type f)) <= i_step i) (i_fields i).
Definition known_enc (i : info) : Prop :=
  match i_enc i with ENC_OTHER _ => False | _ => True end.
Definition known_type (t : ftype) : Prop :=
  match t with UNKNOWN | FT_OTHER _ => False | _ => True end.
(** No two fields of the list share a byte. *)
Fixpoint disjoint_fields (fs : list field) : Prop :=
  match fs with
  | [] => True
  | f :: fs' =>
      Forall (fun g => f_off f + Z.of_nat (SizeOf (f_type f)) <= f_off g \/
                       f_off g + Z.of_nat (SizeOf (f_type g)) <= f_off f) fs' /\ disjoint_fields fs'
  end.

(** *** Vocabulary for whole-cloud statements *)
(** A field that is stored by the decoder: its offset is not the skip marker. *)
Definition stored (f : field) : bool := negb (f_off f =? kSkip).
(** Every stored field of the decoding layout lies inside the point. *)
Definition out_layout_ok (i : info) : Prop :=
  0 < i_step i /\
  Forall (fun f => stored f = true -> 0 <= f_off f /\ f_off f + Z.of_nat (SizeOf (f_type f)) <= i_step i) (i_fields i).
(** The fields of [i'] are those of [i], possibly at other offsets: same type and
    resolution, in the same order; same encoding option and version. *)
Definition same_fields (i i' : info) : Prop :=
  Forall2 (fun f f' => f_type f = f_type f' /\ f_res f = f_res f') (i_fields i) (i_fields i') /\
  i_enc i = i_enc i' /\ i_version i = i_version i'.
(** Either no two stored fields overlap, or nothing is quantised and all fields stay
    where they were (overlapping fields then agree). *)
Definition consistent_output (i i' : info) : Prop :=
  disjoint_fields (filter stored (i_fields i')) \/
  (Forall (fun k => k = KId) (kinds i) /\ i_step i = i_step i' /\ map f_off (i_fields i) = map f_off (i_fields i')).
(** [mem'] is the output buffer [mem] after [n] points were restored: every stored field
    of every point has the expected bytes, all other bytes are unchanged. *)
Definition restored (ops : float_ops) (i i' : info) (n : nat) (cloud mem mem' : list Z) : Prop :=
  length mem' = length mem /\
  (forall j f' f k, (j < n)%nat -> In (f', (f, k)) (combine (i_fields i') (combine (i_fields i) (kinds i))) ->
     stored f' = true ->
     sub (Z.of_nat j * i_step i' + f_off f') (SizeOf (f_type f)) mem' = recon ops k (fbytes i f cloud j)) /\
  (forall x, (x < length mem)%nat ->
     (forall j f', (j < n)%nat -> In f' (i_fields i') -> stored f' = true ->
        ~ (Z.of_nat j * i_step i' + f_off f' <= Z.of_nat x < Z.of_nat j * i_step i' + f_off f' + Z.of_nat (SizeOf (f_type f')))) ->
     nth_error mem' x = nth_error mem x).
(** The resolutions are usable by the decoder: NaN or greater than zero. *)
Definition resolutions_ok (i : info) : Prop :=
  Forall (fun f => match f_res f with Some r => f32_le0 r = false | None => True end) (i_fields i).
