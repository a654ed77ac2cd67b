(** Sequences of writes into the output buffer, and what the buffer holds afterwards. *)
From Verif Require Export BaseFacts Fields FieldFacts.

Definition do_writes (ws : list (Z * list Z)) (mem : list Z) : res (list Z) := do_stores 0 ws mem.
Definition shift_w (base : Z) (w : Z * list Z) : Z * list Z := (base + fst w, snd w).

Lemma do_stores_writes base ss mem : do_stores base ss mem = do_writes (map (shift_w base) ss) mem.
Proof.
  unfold do_writes. revert mem; induction ss as [|[o bs] ss IH]; intros mem; [reflexivity|].
  cbn [do_stores map shift_w fst snd]. rewrite Z.add_0_l. destruct (wr (base + o) bs mem); cbn [bind]; auto.
Qed.
Lemma do_writes_app w1 w2 mem : do_writes (w1 ++ w2) mem = do mem' <- do_writes w1 mem ; do_writes w2 mem'.
Proof.
  unfold do_writes. revert mem; induction w1 as [|[o bs] ss IH]; intros mem; [reflexivity|].
  cbn [do_stores app]. destruct (wr (0 + o) bs mem); cbn [bind]; auto.
Qed.

Definition in_range (n : Z) (w : Z * list Z) : Prop := 0 <= fst w /\ fst w + zlen (snd w) <= n.
Lemma do_writes_ok ws mem : Forall (in_range (zlen mem)) ws ->
  exists mem', do_writes ws mem = Ok mem' /\ length mem' = length mem.
Proof.
  unfold do_writes. revert mem; induction ws as [|[o bs] ss IH]; intros mem H.
  - exists mem. auto.
  - inversion H as [|? ? [H1 H2] H3]; subst. cbn [fst snd] in *. cbn [do_stores].
    rewrite Z.add_0_l. rewrite (wr_ok o bs mem H1 H2). cbn [bind].
    set (m1 := firstn _ _ ++ _).
    assert (E : length m1 = length mem).
    { unfold m1. rewrite !app_length, firstn_length, skipn_length. unfold zlen in *. lia. }
    destruct (IH m1) as (m' & -> & El); [unfold zlen in *; rewrite E; exact H3|].
    exists m'. rewrite El. auto.
Qed.
Lemma do_writes_inv ws mem mem' : do_writes ws mem = Ok mem' ->
  Forall (in_range (zlen mem)) ws /\ length mem' = length mem.
Proof.
  unfold do_writes. revert mem; induction ws as [|[o bs] ss IH]; intros mem H.
  - cbn in H. injection H as <-. auto.
  - cbn [do_stores] in H. apply bind_ok in H. destruct H as (m1 & H1 & H). apply wr_inv in H1.
    destruct H1 as (Ha & Hb & _ & Hl). rewrite Z.add_0_l in *. apply IH in H. destruct H as [H Hl'].
    unfold zlen in *. rewrite Hl in *. split; [|lia]. constructor; [|exact H]. unfold in_range, zlen. cbn. lia.
Qed.
Lemma do_writes_bytes ws mem mem' : do_writes ws mem = Ok mem' -> bytes mem -> Forall (fun w => bytes (snd w)) ws -> bytes mem'.
Proof.
  unfold do_writes. revert mem; induction ws as [|[o bs] ss IH]; intros mem H Hm Hw.
  - cbn in H. injection H as <-. auto.
  - cbn [do_stores] in H. apply bind_ok in H. destruct H as (m1 & H1 & H). inversion Hw; subst.
    eapply IH; eauto. eapply wr_bytes; eauto.
Qed.

(** Two writes agree wherever they overlap. *)
Definition compat (w w' : Z * list Z) : Prop :=
  forall x, fst w <= x < fst w + zlen (snd w) -> fst w' <= x < fst w' + zlen (snd w') ->
  nth_error (snd w) (Z.to_nat (x - fst w)) = nth_error (snd w') (Z.to_nat (x - fst w')).
Definition holds (mem : list Z) (w : Z * list Z) : Prop :=
  forall x, fst w <= x < fst w + zlen (snd w) ->
  nth_error mem (Z.to_nat x) = nth_error (snd w) (Z.to_nat (x - fst w)).

Lemma wr_holds o bs mem m1 : wr o bs mem = Ok m1 -> holds m1 (o, bs).
Proof.
  intros H x Hx. cbn [fst snd] in *. pose proof (wr_inv _ _ _ _ H) as (Ho & _). rewrite (wr_nth _ _ _ _ _ H).
  unfold zlen in Hx.
  replace ((Z.to_nat o <=? Z.to_nat x)%nat && (Z.to_nat x <? Z.to_nat o + length bs)%nat) with true by lia.
  f_equal. lia.
Qed.
Lemma wr_keeps o bs mem m1 w : wr o bs mem = Ok m1 -> 0 <= fst w -> holds mem w -> compat w (o, bs) -> holds m1 w.
Proof.
  intros H Hw0 Hm Hc x Hx. pose proof (wr_inv _ _ _ _ H) as (Ho & _). rewrite (wr_nth _ _ _ _ _ H).
  destruct ((Z.to_nat o <=? Z.to_nat x)%nat && (Z.to_nat x <? Z.to_nat o + length bs)%nat) eqn:E.
  - rewrite (Hc x Hx); cbn [fst snd]; [f_equal; lia|unfold zlen; lia].
  - apply Hm. exact Hx.
Qed.

Lemma do_writes_keeps ws mem mem' w : do_writes ws mem = Ok mem' -> 0 <= fst w -> holds mem w ->
  Forall (compat w) ws -> holds mem' w.
Proof.
  unfold do_writes. revert mem; induction ws as [|[o bs] ss IH]; intros mem H H0 Hm Hc.
  - cbn in H. injection H as <-. exact Hm.
  - cbn [do_stores] in H. apply bind_ok in H. destruct H as (m1 & H1 & H). rewrite Z.add_0_l in H1.
    inversion Hc; subst. eapply IH; eauto. eapply wr_keeps; eauto.
Qed.
Lemma do_writes_holds ws mem mem' w : do_writes ws mem = Ok mem' -> In w ws ->
  Forall (compat w) ws -> holds mem' w.
Proof.
  unfold do_writes. revert mem; induction ws as [|[o bs] ss IH]; intros mem H Hin Hc; [destruct Hin|].
  cbn [do_stores] in H. apply bind_ok in H. destruct H as (m1 & H1 & H). rewrite Z.add_0_l in H1.
  inversion Hc; subst. destruct Hin as [<-|Hin]; [|eauto].
  eapply do_writes_keeps; eauto.
  - cbn. apply wr_inv in H1. lia.
  - eapply wr_holds; eauto.
Qed.
Lemma do_writes_untouched ws mem mem' i : do_writes ws mem = Ok mem' ->
  Forall (fun w => ~ (fst w <= Z.of_nat i < fst w + zlen (snd w))) ws -> nth_error mem' i = nth_error mem i.
Proof.
  unfold do_writes. revert mem; induction ws as [|[o bs] ss IH]; intros mem H Hc.
  - cbn in H. injection H as <-. reflexivity.
  - cbn [do_stores] in H. apply bind_ok in H. destruct H as (m1 & H1 & H). rewrite Z.add_0_l in H1.
    inversion Hc as [|? ? Hn Hc']; subst. cbn [fst snd] in Hn. rewrite (IH _ H Hc').
    pose proof (wr_inv _ _ _ _ H1) as (Ho & _). rewrite (wr_nth _ _ _ _ _ H1). unfold zlen in Hn.
    destruct ((Z.to_nat o <=? i)%nat && (i <? Z.to_nat o + length bs)%nat) eqn:E; [lia|reflexivity].
Qed.

Lemma nth_error_ext {A} (l l' : list A) : length l = length l' ->
  (forall i, (i < length l)%nat -> nth_error l i = nth_error l' i) -> l = l'.
Proof.
  revert l'; induction l as [|a l IH]; intros [|b l'] Hl H; cbn in Hl; try lia; [reflexivity|].
  pose proof (H 0%nat ltac:(cbn; lia)) as H0. cbn in H0. injection H0 as ->. f_equal.
  apply IH; [lia|]. intros i Hi. apply (H (S i)). cbn. lia.
Qed.
Lemma holds_sub mem p bs : 0 <= p -> p + zlen bs <= zlen mem -> holds mem (p, bs) -> sub p (length bs) mem = bs.
Proof.
  intros Hp Hb H. apply nth_error_ext.
  - apply sub_length; unfold zlen in *; lia.
  - intros i Hi. rewrite sub_length in Hi by (unfold zlen in *; lia). unfold sub.
    rewrite nth_error_firstn_lt, nth_error_skipn_add by lia.
    specialize (H (p + Z.of_nat i)). cbn [fst snd] in H. unfold zlen in H.
    rewrite Z2Nat.inj_add, Nat2Z.id in H by lia. rewrite H by lia. f_equal. lia.
Qed.
Lemma compat_disjoint w w' : fst w + zlen (snd w) <= fst w' \/ fst w' + zlen (snd w') <= fst w -> compat w w'.
Proof. intros H x H1 H2. lia. Qed.
(** Two writes taken from the same buffer always agree. *)
Lemma compat_sub p n p' n' (l : list Z) : 0 <= p -> 0 <= p' ->
  compat (p, sub p n l) (p', sub p' n' l).
Proof.
  intros Hp Hp' x H1 H2. cbn [fst snd] in *. unfold sub, zlen in *.
  rewrite firstn_length in *.
  rewrite !nth_error_firstn_lt, !nth_error_skipn_add by lia. f_equal. lia.
Qed.
