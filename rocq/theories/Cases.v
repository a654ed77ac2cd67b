(** Concrete clouds used to show that hypotheses of the theorems can be met. *)
From Verif Require Import Base Types Floats Spec.

(** Boolean form of [deltas_ok], to check it on a literal cloud of [n] points. *)
Definition delta_okb (ops : float_ops) (i : info) (ppc : nat) (cloud : list Z) (f : field) (k : lossk) (j : nat) : bool :=
  match coded_value ops (f_type f) k (fbytes i f cloud j) with
  | None => true
  | Some v => negb (s64 (v - (if (j mod ppc =? 0)%nat then 0
       else match coded_value ops (f_type f) k (fbytes i f cloud (j - 1)) with Some p => p | None => 0 end)) =? INT64_MIN)
  end.
Definition deltas_okb (ops : float_ops) (i : info) (ppc : nat) (cloud : list Z) (n : nat) : bool :=
  forallb (fun fk => forallb (delta_okb ops i ppc cloud (fst fk) (snd fk)) (seq 0 n)) (combine (i_fields i) (kinds i)).
Lemma deltas_okb_ok ops i ppc cloud n : deltas_okb ops i ppc cloud n = true -> 0 < i_step i -> zlen cloud = Z.of_nat n * i_step i ->
  deltas_ok ops i ppc cloud.
Proof.
  unfold deltas_okb, deltas_ok. rewrite forallb_forall. intros H Hs Hl. apply Forall_forall. intros fk Hfk. specialize (H fk Hfk).
  rewrite forallb_forall in H. intros j v Hj Hv. specialize (H j). unfold delta_okb in H. rewrite Hv in H.
  assert (Hin : In j (seq 0 n)) by (apply in_seq; nia). specialize (H Hin). apply Bool.negb_true_iff, Z.eqb_neq in H. exact H.
Qed.
Lemma bytesb l : forallb (fun b => (0 <=? b) && (b <? 256)) l = true -> bytes l.
Proof.
  rewrite forallb_forall. intros H. apply Forall_forall. intros x Hx. specialize (H x Hx). apply Bool.andb_true_iff in H. unfold is_byte. lia.
Qed.

(** 0.001f *)
Definition milli : Z := 981668463.
Definition fld (n off : Z) (t : ftype) (r : option Z) : field := mkField [n] off t r.
(** x y z with resolution, a 16-bit ring, two bytes of padding, a double without
    resolution and a 64-bit integer. *)
Definition scan_fields : list field :=
  [fld 120 0 FLOAT32 (Some milli); fld 121 4 FLOAT32 (Some milli); fld 122 8 FLOAT32 (Some milli);
   fld 114 12 UINT16 None; fld 116 16 FLOAT64 None; fld 105 24 INT64 None].
Definition scan (version w : Z) (opt : comp_opt) : info := mkInfo scan_fields w 1 32 ENC_LOSSY [] opt false version.
(** 1.5, -2.25, NaN, 7, pad, pi, -3; 0.0, 3.0, 1e30, 500, pad, e, 2^40 *)
Definition scan_point (x y z ring t id : Z) : list Z :=
  le_bytes 4 x ++ le_bytes 4 y ++ le_bytes 4 z ++ le_bytes 2 ring ++ [170;187] ++ le_bytes 8 t ++ le_bytes 8 (u64 id).
Definition scan_cloud : list Z :=
  scan_point 1069547520 3222274048 2143289344 7 4614256656552045848 (-3) ++
  scan_point 0 1077936128 1900671690 500 4613303445314885481 (2 ^ 40) ++
  scan_point 1069547520 3222274048 1065353216 500 4613303445314885481 (2 ^ 40).
Lemma scan_bytes : bytes scan_cloud.
Proof. apply bytesb. vm_compute. reflexivity. Qed.
Lemma scan_layout v w c : layout_ok (scan v w c).
Proof. split; [reflexivity|]. repeat constructor; cbn; lia. Qed.
Lemma scan_out_layout v w c : out_layout_ok (scan v w c).
Proof. split; [reflexivity|]. repeat constructor; cbn; lia. Qed.
Lemma scan_consistent v w c v' w' c' : consistent_output (scan v w c) (scan v' w' c').
Proof. left. cbn. repeat constructor; cbn; lia. Qed.
Lemma scan_resolutions v w c : resolutions_ok (scan v w c).
Proof. repeat constructor. Qed.
Lemma scan_same v w c w' c' : same_fields (scan v w c) (scan v w' c').
Proof. split; [|auto]. repeat constructor. Qed.
Lemma scan_deltas v w c : deltas_ok sse_ops (scan v w c) 2 scan_cloud.
Proof. apply (deltas_okb_ok _ _ _ _ 3); [vm_compute; reflexivity|reflexivity|reflexivity]. Qed.
Lemma scan_deltas_ppc v w c : deltas_ok sse_ops (scan v w c) 3 scan_cloud.
Proof. apply (deltas_okb_ok _ _ _ _ 3); [vm_compute; reflexivity|reflexivity|reflexivity]. Qed.
