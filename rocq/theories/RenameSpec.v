(** Vocabulary of C92: what of an EncodingInfo matters for the compressed points. *)
From Verif Require Import Base Types.

(** Field by field the same offset, type and resolution (names may differ); the same point step,
    encoding, compression and version.  Width, height, threads and the configuration text are free. *)
Definition same_layout (i i' : info) : Prop :=
  map (fun f => (f_off f, f_type f, f_res f)) (i_fields i) = map (fun f => (f_off f, f_type f, f_res f)) (i_fields i') /\
  i_step i = i_step i' /\ i_enc i = i_enc i' /\ i_comp i = i_comp i' /\ i_version i = i_version i'.
(** The same number of points, as the decoder computes it (a 64-bit product). *)
Definition same_points (i i' : info) : Prop := u64 (i_width i * i_height i) = u64 (i_width i' * i_height i').
