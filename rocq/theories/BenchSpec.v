(** Vocabulary for the statements about the codec benchmark (PropsBench.v). *)
From Verif Require Import Base Types Floats Codec Api Spec Header Ros Mcap Bench PropsCloud PropsHeader PropsPcl.
Open Scope Z_scope.
Open Scope list_scope.

(** Messages of topic [t] in a list *)
Definition of_topic (rec : recording) (t : list Z) (m : message) : bool :=
  match cloud_topic rec (m_chan m) with Some u => leqb u t | None => false end.
Definition topic_count (rec : recording) (t : list Z) (l : list message) : Z := zlen (filter (of_topic rec t) l).
(** The same run with another version of the format and with or without stage-2 compression *)
Definition codec (o : bench_options) (v : Z) (z : bool) : bench_options := mkBench (bo_res o) (bo_max o) (bo_every o) z v (bo_viz o).
(** The message was encoded and its header read back; the code of the cloud is below 1.4 GB *)
Definition kept (m : measured) : Prop := exists s, me_sample m = Some s /\ zlen (sm_data s) < 1431260227.
(** The cloud is complete and meets the conditions of C17 and C30 *)
Definition bench_ok (ft : float_text) (ops : float_ops) (ppc : nat) (o : bench_options) (c : ros_cloud) : Prop :=
  let i := bench_info o c in
  0 <= r_width c /\ 0 <= r_height c /\ zlen (r_data c) = r_width c * r_height c * r_step c /\ zlen (r_data c) < 4294967296 /\
  encode_side ppc i (r_data c) /\ decode_side i i /\ deltas_ok ops i ppc (r_data c) /\ yaml_header_info ft i /\
  Forall (fun f => match f_res f with Some r => ft_parse ft (ft_print ft r) = Some r | None => True end) (i_fields i) /\ byte_texts ft i.
