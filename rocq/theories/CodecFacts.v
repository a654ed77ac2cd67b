(** V4 chunk codec: encoder/decoder selection agrees, a chunk round-trips. *)
From Verif Require Export WriteFacts Codec.

(** ** Lists of encoder/decoder pairs *)
Inductive pairs : list fenc -> list fdec -> list Z -> Prop :=
| pairs_nil : pairs [] [] []
| pairs_cons e d offs es ds offs' :
    pair_ed e d offs -> pairs es ds offs' -> pairs (e :: es) (d :: ds) (offs ++ offs').

Lemma pairs_app es ds offs es' ds' offs' :
  pairs es ds offs -> pairs es' ds' offs' -> pairs (es ++ es') (ds ++ ds') (offs ++ offs').
Proof.
  induction 1; intros H'; cbn; [exact H'|]. rewrite <- app_assoc. constructor; auto.
Qed.
Lemma pair_ed_offs e d offs : pair_ed e d offs -> length offs = length (pieces e).
Proof.
  inversion 1; subst; cbn; try reflexivity. rewrite !map_length.
  match goal with E : map snd _ = map snd _ |- _ => apply (f_equal (@length _)) in E; rewrite !map_length in E; auto end.
Qed.
Lemma stores_of_app o1 o2 b1 b2 : length o1 = length b1 ->
  stores_of (o1 ++ o2) (b1 ++ b2) = stores_of o1 b1 ++ stores_of o2 b2.
Proof.
  revert b1; induction o1 as [|o o1 IH]; intros [|b b1] H; cbn in *; try lia; [reflexivity|].
  rewrite IH, app_assoc by lia. reflexivity.
Qed.

Definition all_pieces (es : list fenc) := flat_map pieces es.
Definition pstores (ops : float_ops) (es : list fenc) (offs : list Z) (view : list Z) : list (Z * list Z) :=
  stores_of offs (map (piece_bytes ops view) (all_pieces es)).

(** ** One point *)
Lemma point_roundtrip ops es ds offs : pairs es ds offs ->
  forall sts sts' view bs rest base mem,
  Forall2 st_inv es sts -> Forall2 (fun e st => delta_ok ops e st view) es sts ->
  bytes view -> bytes rest ->
  enc_point ops es sts view = Ok (sts', bs) ->
  dec_point ops ds sts (bs ++ rest) base mem =
    (do mem' <- do_stores base (pstores ops es offs view) mem ; Ok (sts', rest, mem')) /\
  Forall2 st_inv es sts' /\ bytes bs /\
  (sum_nat (map min_input_bytes ds) <= length bs <= sum_nat (map enc_max es))%nat.
Proof.
  induction 1 as [|e d offs es ds offs' HP HPs IH]; intros sts sts' view bs rest base mem HI HD Hv Hr HE.
  - inversion HI; subst. cbn in HE. injection HE as <- <-. cbn. repeat split; auto; constructor.
  - inversion HI as [|? st ? sts1 HI1 HI2]; subst. inversion HD as [|? ? ? ? HD1 HD2]; subst.
    cbn [enc_point] in HE. apply bind_ok in HE. destruct HE as ((st' & o1) & HE1 & HE).
    apply bind_ok in HE. destruct HE as ((sts2 & o2) & HE2 & HE). injection HE as <- <-.
    cbn [dec_point]. rewrite <- app_assoc.
    destruct (IH sts1 sts2 view o2 rest base mem HI2 HD2 Hv Hr HE2) as (_ & _ & Hb2 & _).
    destruct (step_roundtrip ops e d offs st st' view o1 (o2 ++ rest) HP HI1 HD1 Hv) as (HS & HI' & Hb1 & Hm); auto.
    { apply bytes_app; auto. }
    rewrite HS. cbn [bind].
    unfold pstores, all_pieces. cbn [flat_map]. rewrite map_app, stores_of_app.
    2:{ rewrite map_length. eapply pair_ed_offs; eauto. }
    destruct (IH sts1 sts2 view o2 rest base mem HI2 HD2 Hv Hr HE2) as (_ & HI2' & _ & Hm2).
    split; [|split; [constructor; auto|split; [apply bytes_app; auto|]]].
    + rewrite !do_stores_writes, map_app, do_writes_app.
      destruct (do_writes (map (shift_w base) (stores_of offs (map (piece_bytes ops view) (pieces e)))) mem) as [m1| |]; cbn [bind]; try reflexivity.
      destruct (IH sts1 sts2 view o2 rest base m1 HI2 HD2 Hv Hr HE2) as (-> & _).
      unfold pstores, all_pieces. rewrite do_stores_writes.
      destruct (do_writes (map (shift_w base) (stores_of offs' (map (piece_bytes ops view) (flat_map pieces es)))) m1); reflexivity.
    + cbn [map sum_nat fold_right]. rewrite app_length. unfold sum_nat in *. lia.
Qed.

(** ** The difference condition, in terms of the previous point *)
Definition qcur (ops : float_ops) (e : fenc) (view : list Z) : Z :=
  match e with
  | EInt off t => to_int64 t (sub off (SizeOf t) view)
  | ELossy32 off r => if isnan32 (le_val (sub off 4 view)) then 0 else s64 (q32 ops r (le_val (sub off 4 view)))
  | ELossy64 off r => if isnan64 (le_val (sub off 8 view)) then 0 else s64 (q64 ops r (le_val (sub off 8 view)))
  | _ => 0
  end.
Definition is_delta (e : fenc) : bool := match e with EInt _ _ | ELossy32 _ _ | ELossy64 _ _ => true | _ => false end.
Lemma enc_step_prev ops e st view st' bs : enc_step ops e st view = Ok (st', bs) -> is_delta e = true ->
  s_prev st' = qcur ops e view.
Proof.
  destruct e; cbn; try discriminate; intros H _; apply bind_ok in H; destruct H as (xb & Hr & H);
    apply rd_sub in Hr; destruct Hr as (-> & _).
  - injection H as <- <-. reflexivity.
  - destruct (isnan32 _); injection H as <- <-; reflexivity.
  - destruct (isnan64 _); injection H as <- <-; reflexivity.
Qed.
Definition prev_ok (ops : float_ops) (pv : option (list Z)) (e : fenc) (st : fstate) : Prop :=
  is_delta e = true -> s_prev st = match pv with None => 0 | Some v => qcur ops e v end.
Definition delta_pv (ops : float_ops) (pv : option (list Z)) (view : list Z) (e : fenc) : Prop :=
  match e with
  | EInt _ _ => s64 (qcur ops e view - match pv with None => 0 | Some v => qcur ops e v end) <> INT64_MIN
  | ELossy32 off r => isnan32 (le_val (sub off 4 view)) = false ->
      s64 (qcur ops e view - match pv with None => 0 | Some v => qcur ops e v end) <> INT64_MIN
  | ELossy64 off r => isnan64 (le_val (sub off 8 view)) = false ->
      s64 (qcur ops e view - match pv with None => 0 | Some v => qcur ops e v end) <> INT64_MIN
  | _ => True
  end.
Lemma delta_pv_ok ops pv view e st : prev_ok ops pv e st -> delta_pv ops pv view e -> delta_ok ops e st view.
Proof.
  unfold prev_ok. intros HP. destruct e; cbn [delta_pv delta_ok is_delta] in *; auto; rewrite HP by reflexivity; cbn [qcur]; auto.
  - intros H Hn. specialize (H Hn). rewrite Hn in H. exact H.
  - intros H Hn. specialize (H Hn). rewrite Hn in H. exact H.
Qed.
Lemma enc_point_prev ops es : forall sts view sts' bs, enc_point ops es sts view = Ok (sts', bs) ->
  Forall2 (prev_ok ops (Some view)) es sts'.
Proof.
  induction es as [|e es IH]; intros [|st sts] view sts' bs H; cbn in H; try discriminate.
  - injection H as <- <-. constructor.
  - apply bind_ok in H. destruct H as ((st' & o1) & HE1 & H).
    apply bind_ok in H. destruct H as ((sts2 & o2) & HE2 & H). injection H as <- <-.
    constructor; [|eauto]. intros Hd. eapply enc_step_prev; eauto.
Qed.
Lemma resets_inv es : Forall2 st_inv es (resets es).
Proof. induction es; cbn; constructor; auto using st_inv_reset. Qed.
Lemma resets_prev ops es : Forall2 (prev_ok ops None) es (resets es).
Proof. induction es; cbn; constructor; auto. intros _. reflexivity. Qed.
Lemma resets_len {A B} (l : list A) (l' : list B) : length l = length l' -> resets l = resets l'.
Proof. unfold resets. revert l'; induction l as [|a l IH]; intros [|b l'] H; cbn in *; try lia; [reflexivity|]. f_equal. apply IH. lia. Qed.

(** ** A run of points of one chunk *)
(** Writes of points [j .. j+n) relative to the chunk's first point. *)
Fixpoint run_writes (ops : float_ops) (es : list fenc) (offs : list Z) (step : nat) (dstep : Z) (n : nat)
         (base : Z) (cloud : list Z) : list (Z * list Z) :=
  match n with
  | O => []
  | S k => map (shift_w base) (pstores ops es offs cloud) ++
           run_writes ops es offs step dstep k (base + dstep) (skipn step cloud)
  end.
Fixpoint run_deltas (ops : float_ops) (es : list fenc) (step : nat) (n : nat) (pv : option (list Z)) (cloud : list Z) : Prop :=
  match n with
  | O => True
  | S k => Forall (delta_pv ops pv cloud) es /\ run_deltas ops es step k (Some cloud) (skipn step cloud)
  end.
(** [n] whole points are available *)
Definition has_points (n step : nat) (cloud : list Z) : Prop := (n * step <= length cloud)%nat.

Lemma Forall2_impl_mix {A B} (P R : A -> B -> Prop) (D : A -> Prop) l l' :
  (forall a b, P a b -> D a -> R a b) -> Forall2 P l l' -> Forall D l -> Forall2 R l l'.
Proof. intros H HP. induction HP; intros HD; inversion HD; subst; constructor; auto. Qed.

Lemma chunk_roundtrip ops es ds offs step dstep minb : pairs es ds offs ->
  (minb <= sum_nat (map min_input_bytes ds))%nat -> (0 < step)%nat ->
  forall n sts pv cloud rest bs rest2 base mem mem',
  Forall2 st_inv es sts -> Forall2 (prev_ok ops pv) es sts -> run_deltas ops es step n pv cloud ->
  has_points n step cloud -> bytes cloud -> bytes rest2 ->
  enc_points_v4 ops es step n sts cloud = Ok (rest, bs) ->
  base + Z.of_nat n * dstep <= zlen mem -> 0 <= dstep ->
  do_writes (run_writes ops es offs step dstep n base cloud) mem = Ok mem' ->
  dec_points_v4 ops ds minb dstep n sts (bs ++ rest2) base mem = Ok (rest2, base + Z.of_nat n * dstep, mem') /\
  bytes bs /\ rest = skipn (n * step) cloud /\
  (n * minb <= length bs <= n * sum_nat (map enc_max es))%nat.
Proof.
  intros HP Hmin Hstep. induction n as [|n IH]; intros sts pv cloud rest bs rest2 base mem mem' HI HV HD Hn Hc Hr HE Hb Hds HW.
  - cbn in HE. injection HE as <- <-. cbn in HW. injection HW as <-. cbn [dec_points_v4 app].
    replace (base + Z.of_nat 0 * dstep) with base by lia. repeat split; try constructor; lia.
  - cbn [enc_points_v4] in HE. unfold has_points in Hn.
    destruct cloud as [|c0 cl] eqn:Ec; [cbn in Hn; lia|]. rewrite <- Ec in *. clear Ec c0 cl.
    apply bind_ok in HE. destruct HE as ((sts1 & o1) & HE1 & HE).
    apply bind_ok in HE. destruct HE as (cloud1 & HT & HE).
    unfold trim_front in HT. destruct (Nat.ltb_spec (length cloud) step) as [|Hls]; [discriminate|]. injection HT as <-.
    apply bind_ok in HE. destruct HE as ((rest1 & o2) & HE2 & HE). injection HE as <- <-.
    cbn [run_deltas] in HD. destruct HD as [HD1 HD2].
    cbn [run_writes] in HW. rewrite do_writes_app in HW. apply bind_ok in HW. destruct HW as (m1 & HW1 & HW2).
    assert (HDo : Forall2 (fun e st => delta_ok ops e st cloud) es sts).
    { eapply (Forall2_impl_mix (prev_ok ops pv)); [|exact HV|exact HD1]. intros. eapply delta_pv_ok; eauto. }
    pose proof (do_writes_inv _ _ _ HW1) as [_ Hlm].
    assert (HPR := fun r H => point_roundtrip ops es ds offs HP sts sts1 cloud o1 r base mem HI HDo Hc H HE1).
    destruct (HPR [] (Forall_nil _)) as (_ & HI1 & Hb1 & Hm1).
    destruct (IH sts1 (Some cloud) (skipn step cloud) rest1 o2 rest2 (base + dstep) m1 mem') as (HDec & Hb2 & Hrest & Hlen); auto.
    { eapply enc_point_prev; eauto. }
    { unfold has_points. rewrite skipn_length. lia. }
    { apply bytes_skipn; auto. }
    { unfold zlen in *. rewrite Hlm. lia. }
    destruct (HPR (o2 ++ rest2)) as (HDp & _); [apply bytes_app; auto|].
    cbn [dec_points_v4]. rewrite <- app_assoc.
    replace (length (o1 ++ o2 ++ rest2) <? minb)%nat with false
      by (symmetry; apply Nat.ltb_ge; rewrite app_length; lia).
    replace (zlen mem - base <? dstep) with false by (symmetry; apply Z.ltb_ge; lia).
    rewrite HDp, do_stores_writes, HW1. cbn [bind]. rewrite HDec.
    split; [|split; [apply bytes_app; auto|split]].
    + do 3 f_equal. lia.
    + rewrite Hrest, skipn_skipn. f_equal. lia.
    + rewrite app_length. lia.
Qed.
