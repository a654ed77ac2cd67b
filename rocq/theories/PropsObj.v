(** C47: copies and moves of cloud messages. *)
From Verif Require Import Base BaseFacts Types Cdr Ros RosViz RosObj.

(** * Specification: message objects are plain values.
    An object that is alive holds either an unspecified value (it was moved from) or a cloud; the
    flag says whether the cloud's bytes are the object's own or those of a buffer of the caller. *)
Definition values : Type := Z -> option (option (bool * ros_cloud)).
Definition vset (m : values) (x : Z) (v : option (option (bool * ros_cloud))) : values := fun y => if y =? x then v else m y.
Definition nobody : values := fun _ => None.
(** [None]: not a correct program (unknown objects, views outside of the caller's buffers [ext], use
    of the value of a moved-from object, ...). *)
Definition spec_step (ext : heap) (m : values) (o : op) : option values :=
  match o with
  | Default d => match m d with None => Some (vset m d (Some (Some (false, cloud0)))) | _ => None end
  | Parsed d c w => match m d, read_view ext w with None, Ok l => Some (vset m d (Some (Some (false, with_data c l)))) | _, _ => None end
  | SetView d w =>
      match m d, read_view ext w with
      | Some (Some (_, c)), Ok l => Some (vset m d (Some (Some (false, with_data c l))))
      | Some None, Ok l => Some m
      | _, _ => None
      end
  | CopyNew d s => match m d, m s with None, Some v => Some (vset m d (Some v)) | _, _ => None end
  | MoveNew d s => match m d, m s with None, Some v => Some (vset (vset m s (Some None)) d (Some v)) | _, _ => None end
  | Assign d s => match m d, m s with Some _, Some v => Some (vset m d (Some v)) | _, _ => None end
  | MoveAssign d s => match m d, m s with Some _, Some v => Some (if d =? s then m else vset (vset m s (Some None)) d (Some v)) | _, _ => None end
  | Viz d => match m d with
             | Some (Some (own, c)) => match viz_rewrite c with Ok None => Some m | Ok (Some c') => Some (vset m d (Some (Some (true, c')))) | _ => None end
             | _ => None
             end
  | Poke d i b => match m d with
                  | Some (Some (true, c)) =>
                      if (i <? length (r_data c))%nat then Some (vset m d (Some (Some (true, with_data c (firstn i (r_data c) ++ b :: skipn (S i) (r_data c)))))) else None
                  | _ => None
                  end
  | Destroy d => match m d with Some _ => Some (vset m d None) | None => None end
  end.
Fixpoint spec_run (ext : heap) (m : values) (l : list op) : option values :=
  match l with [] => Some m | o :: l' => match spec_step ext m o with Some m => spec_run ext m l' | None => None end end.

(** * Invariant *)
Section Inv.
  Variable ext : heap.
  Definition vec_ok (h : heap) (v : vec) : Prop :=
    (v_cap v = O /\ v_size v = O) \/
    (v_cap v <> O /\ (v_size v <= v_cap v)%nat /\ ext (v_blk v) = None /\ exists blk, h (v_blk v) = Some blk /\ length blk = v_cap v).
  Definition good (h : heap) (o : obj) (v : bool * ros_cloud) : Prop :=
    with_data (o_meta o) (r_data (snd v)) = snd v /\
    if fst v then w_size (o_data o) = v_size (o_owned o) /\ (v_size (o_owned o) <> O -> o_data o = whole (o_owned o)) /\ vec_bytes h (o_owned o) = Ok (r_data (snd v))
    else read_view ext (o_data o) = Ok (r_data (snd v)).
  Definition matches (h : heap) (v : option (option (bool * ros_cloud))) (o : option obj) : Prop :=
    match v, o with
    | None, None => True
    | Some v, Some o => vec_ok h (o_owned o) /\ match v with Some v => good h o v | None => True end
    | _, _ => False
    end.
  Definition keeps (h : heap) : Prop := forall b l, ext b = Some l -> h b = Some l.
  Definition Inv (m : values) (w : world) : Prop :=
    keeps (w_heap w) /\ (forall x, matches (w_heap w) (m x) (w_objs w x)) /\
    (forall x y o p, x <> y -> w_objs w x = Some o -> w_objs w y = Some p -> v_cap (o_owned o) <> O -> v_cap (o_owned p) <> O -> v_blk (o_owned o) <> v_blk (o_owned p)).

  Lemma read_agree h h' w : (w_size w <> O -> h' (w_blk w) = h (w_blk w)) -> read_view h' w = read_view h w.
  Proof. intros H. unfold read_view. destruct (w_size w =? 0)%nat eqn:E; [reflexivity|]. rewrite H by lia. reflexivity. Qed.
  Lemma read_keeps h w l : keeps h -> read_view ext w = Ok l -> read_view h w = Ok l.
  Proof.
    intros HK H. rewrite <- H. unfold read_view in *. destruct (w_size w =? 0)%nat; [reflexivity|]. destruct (ext (w_blk w)) as [b|] eqn:E; [|discriminate]. now rewrite (HK _ _ E).
  Qed.
  Lemma vec_ok_bytes h v : vec_ok h v -> exists l, vec_bytes h v = Ok l /\ length l = v_size v.
  Proof.
    intros [[H1 H2]|(H1 & H2 & H3 & blk & H4 & H5)]; unfold vec_bytes, read_view; cbn [w_size w_blk w_off].
    - rewrite H2. exists []. auto.
    - destruct (v_size v =? 0)%nat eqn:E; [exists []; split; [reflexivity|cbn; lia]|]. rewrite H4. replace (0 + v_size v <=? length blk)%nat with true by (symmetry; apply Nat.leb_le; lia). eexists. split; [reflexivity|]. rewrite firstn_length, skipn_length. lia.
  Qed.
  Lemma vec_ok_agree h h' v : (v_cap v <> O -> h' (v_blk v) = h (v_blk v)) -> vec_ok h v -> vec_ok h' v.
  Proof. intros HA [H|(H1 & H2 & H3 & blk & H4 & H5)]; [now left|right]. split; [exact H1|]. split; [exact H2|]. split; [exact H3|]. exists blk. rewrite HA by exact H1. auto. Qed.
  Lemma bytes_agree h h' v : vec_ok h v -> (v_cap v <> O -> h' (v_blk v) = h (v_blk v)) -> vec_bytes h' v = vec_bytes h v.
  Proof. intros HV HA. apply read_agree. cbn [w_size w_blk]. intros HS. apply HA. destruct HV as [[H1 H2]|(H1 & _)]; [congruence|exact H1]. Qed.
  Lemma matches_agree h h' v o : (forall p, o = Some p -> v_cap (o_owned p) <> O -> h' (v_blk (o_owned p)) = h (v_blk (o_owned p))) -> matches h v o -> matches h' v o.
  Proof.
    intros HA. unfold matches. destruct v as [v|], o as [o|]; auto. specialize (HA o eq_refl). intros [H1 H2]. split; [eapply vec_ok_agree; eauto|]. destruct v as [[own c]|]; [|exact I].
    destruct H2 as [H2 H3]. split; [exact H2|]. cbn [fst snd] in *. destruct own; [|exact H3]. rewrite (bytes_agree _ _ _ H1 HA). exact H3.
  Qed.
  Lemma inv_upd m h objs h' d v o : Inv m (mkWorld h objs) -> keeps h' ->
    (forall y p, y <> d -> objs y = Some p -> v_cap (o_owned p) <> O -> h' (v_blk (o_owned p)) = h (v_blk (o_owned p))) ->
    matches h' v o ->
    (forall q y p, o = Some q -> y <> d -> objs y = Some p -> v_cap (o_owned q) <> O -> v_cap (o_owned p) <> O -> v_blk (o_owned q) <> v_blk (o_owned p)) ->
    Inv (vset m d v) (mkWorld h' (oupd objs d o)).
  Proof.
    intros (I1 & I2 & I3) HK HA HM HD. cbn [w_heap w_objs] in *. split; [exact HK|]. split; cbn [w_heap w_objs].
    - intros x. unfold vset, oupd. destruct (x =? d) eqn:E; [exact HM|]. apply matches_agree with h; [|apply I2]. intros p Hp. apply (HA x); [lia|exact Hp].
    - intros x y p q Hne Hx Hy Cx Cy. unfold oupd in *. destruct (x =? d) eqn:Ex, (y =? d) eqn:Ey.
      + lia.
      + apply (HD p y q); auto. lia.
      + apply not_eq_sym. apply (HD q x p); auto. lia.
      + apply (I3 x y); auto.
  Qed.
  Lemma keeps_upd h b v : keeps h -> ext b = None -> keeps (hupd h b v).
  Proof. intros HK HN x l Hx. unfold hupd. destruct (x =? b) eqn:E; [|auto]. apply Z.eqb_eq in E. subst. congruence. Qed.
  Lemma fresh_ext h a : keeps h -> h a = None -> ext a = None.
  Proof. intros HK HN. destruct (ext a) as [l|] eqn:E; [|reflexivity]. rewrite (HK _ _ E) in HN. discriminate. Qed.
  Lemma keeps_free h v : keeps h -> vec_ok h v -> keeps (vec_free h v).
  Proof. intros HK [[H1 H2]|(H1 & H2 & H3 & _)]; unfold vec_free; [now rewrite H1|]. destruct (v_cap v =? 0)%nat; [exact HK|]. now apply keeps_upd. Qed.
  Lemma free_other h v b : (v_cap v <> O -> b <> v_blk v) -> vec_free h v b = h b.
  Proof. intros H. unfold vec_free, hupd. destruct (v_cap v =? 0)%nat eqn:E; [reflexivity|]. destruct (b =? v_blk v) eqn:E2; [exfalso; apply H; lia|reflexivity]. Qed.
  (** allocation *)
  Lemma vec_new_ok h a l pad : keeps h -> match vec_new h a l pad with
    | Ok (h', v) => keeps h' /\ vec_ok h' v /\ vec_bytes h' v = Ok l /\ v_size v = length l /\ (forall b, h b <> None -> h' b = h b) /\ (v_cap v <> O -> v_blk v = a /\ h a = None)
    | Throw => h a <> None
    | UB => False
    end.
  Proof.
    intros HK. unfold vec_new. destruct (length l + pad =? 0)%nat eqn:E.
    - assert (l = []) as -> by (destruct l; [reflexivity|cbn in E; discriminate]). split; [exact HK|]. split; [left; auto|]. split; [reflexivity|]. split; [reflexivity|]. split; [auto|]. cbn. congruence.
    - destruct (h a) as [x|] eqn:EA; [discriminate|]. pose proof (fresh_ext h a HK EA) as HE. split; [now apply keeps_upd|].
      assert (HL : length (l ++ repeat 0 pad) = (length l + pad)%nat) by (now rewrite app_length, repeat_length).
      split. { right. cbn [v_cap v_size v_blk]. split; [lia|]. split; [lia|]. split; [exact HE|]. eexists. split; [unfold hupd; rewrite Z.eqb_refl; reflexivity|exact HL]. }
      split. { unfold vec_bytes, read_view. cbn [w_size w_blk w_off v_blk v_size]. destruct (length l =? 0)%nat eqn:E0; [destruct l; [reflexivity|discriminate]|]. unfold hupd. rewrite Z.eqb_refl, HL.
               replace (0 + length l <=? length l + pad)%nat with true by (symmetry; apply Nat.leb_le; lia). cbn [skipn]. rewrite firstn_app, Nat.sub_diag, firstn_all, app_nil_r. reflexivity. }
      split; [reflexivity|]. split; [|auto]. intros b Hb. unfold hupd. destruct (b =? a) eqn:E2; [|reflexivity]. apply Z.eqb_eq in E2. congruence.
  Qed.
  (** copy assignment of vectors *)
  Lemma vec_assign_ok h a d l : keeps h -> vec_ok h d -> match vec_assign h a d l with
    | Ok (h', v) => keeps h' /\ vec_ok h' v /\ vec_bytes h' v = Ok l /\ v_size v = length l /\
        (forall b, h b <> None -> (v_cap d <> O -> b <> v_blk d) -> h' b = h b) /\ (v_cap v <> O -> (v_cap d <> O /\ v_blk v = v_blk d) \/ h (v_blk v) = None)
    | Throw => h a <> None
    | UB => False
    end.
  Proof.
    intros HK HV. unfold vec_assign. destruct (length l <=? v_cap d)%nat eqn:E; [apply Nat.leb_le in E; destruct (length l =? 0)%nat eqn:E0|].
    - assert (l = []) as -> by (destruct l; [reflexivity|cbn in E0; discriminate]). split; [exact HK|]. split.
      { destruct HV as [[H1 H2]|(H1 & H2 & H3)]; [left; auto|right]. split; [exact H1|]. split; [cbn; lia|]. exact H3. }
      split; [reflexivity|]. split; [reflexivity|]. split; [auto|]. cbn. auto.
    - destruct HV as [[H1 H2]|(H1 & H2 & H3 & old & H4 & H5)]; [lia|]. rewrite H4. replace (length l <=? length old)%nat with true by (symmetry; apply Nat.leb_le; lia).
      split; [now apply keeps_upd|]. assert (HL : length (l ++ skipn (length l) old) = v_cap d) by (rewrite app_length, skipn_length; lia).
      split. { right. cbn [v_cap v_size v_blk]. split; [exact H1|]. split; [exact E|]. split; [exact H3|]. eexists. split; [unfold hupd; rewrite Z.eqb_refl; reflexivity|exact HL]. }
      split. { unfold vec_bytes, read_view. cbn [w_size w_blk w_off v_blk v_size]. rewrite E0. unfold hupd. rewrite Z.eqb_refl, HL.
               replace (0 + length l <=? v_cap d)%nat with true by (symmetry; apply Nat.leb_le; lia). cbn [skipn]. rewrite firstn_app, Nat.sub_diag, firstn_all, app_nil_r. reflexivity. }
      split; [reflexivity|]. split; [|auto]. intros b _ Hb. unfold hupd. destruct (b =? v_blk d) eqn:E2; [|reflexivity]. exfalso. apply Hb; [exact H1|lia].
    - pose proof (vec_new_ok h a l 0 HK) as HN. destruct (vec_new h a l 0) as [[h' v]| |]; cbn [bind]; [|exact HN|exact HN]. destruct HN as (N1 & N2 & N3 & N4 & N5 & N6).
      assert (HV' : vec_ok h' d). { apply vec_ok_agree with h; [|exact HV]. intros Hc. apply N5. destruct HV as [[H1 _]|(_ & _ & _ & blk & H4 & _)]; congruence. }
      assert (HD : v_cap v <> O -> v_cap d <> O -> v_blk v <> v_blk d).
      { intros Cv Cd Heq. destruct (N6 Cv) as [Hb HA]. destruct HV as [[H1 _]|(_ & _ & _ & blk & H4 & _)]; [congruence|]. rewrite <- Heq, Hb in H4. congruence. }
      split; [now apply keeps_free|]. split. { apply vec_ok_agree with h'; [|exact N2]. intros Cv. apply free_other. auto. }
      split. { rewrite <- N3. apply bytes_agree; [exact N2|]. intros Cv. apply free_other. auto. }
      split; [exact N4|]. split. { intros b Hb Hd. rewrite free_other by exact Hd. now apply N5. }
      intros Cv. right. destruct (N6 Cv) as [-> HA]. exact HA.
  Qed.
  (** the rebound view *)
  Lemma rebind_good h h' s v own c : good h s (own, c) -> vec_ok h (o_owned s) -> vec_ok h' v -> v_size v = v_size (o_owned s) ->
    (vec_bytes h (o_owned s) = Ok (r_data c) -> vec_bytes h' v = Ok (r_data c)) ->
    good h' (mkObj (o_meta s) (rebind s v) v) (own, c).
  Proof.
    intros [G1 G2] HS HV' HZ HB. split; [exact G1|]. cbn [fst snd o_data o_owned] in *. unfold rebind, views_owned. destruct own.
    - destruct G2 as (G2 & G3 & G4). destruct (v_size (o_owned s) =? 0)%nat eqn:E; cbn [negb andb].
      + split; [lia|]. split; [lia|]. auto.
      + rewrite (G3 ltac:(lia)). replace (w_blk (whole (o_owned s))) with (v_blk (o_owned s)) by reflexivity. replace (w_off (whole (o_owned s))) with O by reflexivity. replace (w_size (whole (o_owned s))) with (v_size (o_owned s)) by reflexivity. rewrite Z.eqb_refl, !Nat.eqb_refl. cbn [andb]. split; [reflexivity|]. split; [reflexivity|]. auto.
    - destruct (_ && _ && _) eqn:E; [|exact G2]. exfalso. apply andb_prop in E. destruct E as [E E3]. apply andb_prop in E. destruct E as [E1 E2]. apply andb_prop in E2. destruct E2 as [E2 _].
      apply negb_true_iff, Nat.eqb_neq in E1. apply Z.eqb_eq in E2. apply Nat.eqb_eq in E3.
      destruct HS as [[? ?]|(_ & _ & HX & _)]; [congruence|]. unfold read_view in G2. rewrite E3, E2, HX in G2. destruct (v_size (o_owned s) =? 0)%nat eqn:E4; [apply Nat.eqb_eq in E4; lia|]. discriminate.
  Qed.
  Lemma good_denotes h o own c : keeps h -> good h o (own, c) -> denotes h o = Ok c.
  Proof.
    intros HK [G1 G2]. cbn [fst snd] in *. unfold denotes.
    assert (R : read_view h (o_data o) = Ok (r_data c)).
    { destruct own; [|now apply read_keeps]. destruct G2 as (G2 & G3 & G4). destruct (Nat.eq_dec (v_size (o_owned o)) 0) as [E|E].
      - unfold vec_bytes, read_view in G4. unfold read_view. cbn [w_size] in *. rewrite G2, E in *. exact G4.
      - rewrite (G3 E). exact G4. }
    rewrite R. cbn [bind]. now rewrite G1.
  Qed.

  Lemma inv_live m h objs x v : Inv m (mkWorld h objs) -> m x = Some v -> exists o, objs x = Some o /\ vec_ok h (o_owned o) /\ match v with Some v => good h o v | None => True end.
  Proof. intros (_ & I2 & _) E. specialize (I2 x). rewrite E in I2. unfold matches in I2. cbn [w_objs w_heap] in I2. destruct (objs x) as [o|]; [|contradiction]. exists o. auto. Qed.
  Lemma inv_dead m h objs x : Inv m (mkWorld h objs) -> m x = None -> objs x = None.
  Proof. intros (_ & I2 & _) E. specialize (I2 x). rewrite E in I2. unfold matches in I2. cbn [w_objs w_heap] in I2. destruct (objs x); [contradiction|reflexivity]. Qed.
  Lemma inv_ext m m' w : (forall x, m x = m' x) -> Inv m w -> Inv m' w.
  Proof. intros HE (I1 & I2 & I3). split; [exact I1|]. split; [|exact I3]. intros x. rewrite <- HE. apply I2. Qed.

  Theorem step_ok m w o a m' : Inv m w -> spec_step ext m o = Some m' ->
    match step w o a with Ok w' => Inv m' w' | Throw => w_heap w a <> None | UB => False end.
  Proof.
    intros HI HS. destruct w as [h objs]. pose proof HI as (HK & I2 & I3). cbn [w_heap w_objs] in *.
    destruct o as [d|d c v|d v|d s|d s|d s|d s|d|d i b|d]; cbn [spec_step] in HS; unfold step, live, free_name; cbn [w_heap w_objs]; cbv zeta.
    - (* Default *) destruct (m d) eqn:E; [discriminate|]. rewrite (inv_dead _ _ _ _ HI E). cbn [bind]. replace m' with (vset m d (Some (Some (false, cloud0)))) by congruence.
      apply inv_upd with h; auto; [|intros q y p Hq; replace q with (mkObj cloud0 (mkView 0 0 0) vnull) by congruence; cbn; congruence]. split; [left; auto|]. split; reflexivity.
    - (* Parsed *) destruct (m d) eqn:E; [discriminate|]. destruct (read_view ext v) as [l| |] eqn:EV; try discriminate. rewrite (inv_dead _ _ _ _ HI E). cbn [bind].
      replace m' with (vset m d (Some (Some (false, with_data c l)))) by congruence.
      apply inv_upd with h; auto; [|intros q y p Hq; replace q with (mkObj (with_data c []) v vnull) by congruence; cbn; congruence]. split; [left; auto|]. split; [reflexivity|]. exact EV.
    - (* SetView *) destruct (m d) as [x|] eqn:E; [|discriminate]. destruct (inv_live _ _ _ _ _ HI E) as (y & Hy & V1 & G). rewrite Hy. cbn [bind].
      assert (HD : forall q z p, Some (mkObj (o_meta y) v (o_owned y)) = Some q -> z <> d -> objs z = Some p -> v_cap (o_owned q) <> O -> v_cap (o_owned p) <> O -> v_blk (o_owned q) <> v_blk (o_owned p)).
      { intros q z p Hq Hz Hp. replace q with (mkObj (o_meta y) v (o_owned y)) by congruence. cbn [o_owned]. apply (I3 d z); auto. }
      destruct x as [[own c]|]; (destruct (read_view ext v) as [l| |] eqn:EV; try discriminate).
      + replace m' with (vset m d (Some (Some (false, with_data c l)))) by congruence. apply inv_upd with h; auto. split; [exact V1|]. split; [|exact EV]. cbn [fst snd o_meta o_data] in *.
        destruct G as [G _]. cbn [snd] in G. rewrite <- G. reflexivity.
      + replace m' with m by congruence. apply inv_ext with (vset m d (Some None)). { intros z. unfold vset. destruct (z =? d) eqn:EZ; [|reflexivity]. apply Z.eqb_eq in EZ. now subst. }
        apply inv_upd with h; auto. split; [exact V1|exact I].
    - (* CopyNew *) destruct (m d) eqn:E; [discriminate|]. destruct (m s) as [x|] eqn:ES; [|discriminate]. replace m' with (vset m d (Some x)) by congruence. rewrite (inv_dead _ _ _ _ HI E). cbn [bind].
      destruct (inv_live _ _ _ _ _ HI ES) as (y & Hy & V1 & G). cbn [w_objs w_heap] in *. rewrite Hy. cbn [bind]. unfold copy_new. destruct (vec_ok_bytes _ _ V1) as (l & HL & LL). rewrite HL. cbn [bind].
      pose proof (vec_new_ok h a l 0 HK) as HN. destruct (vec_new h a l 0) as [[h' v]| |]; cbn [bind]; [|exact HN|exact HN]. destruct HN as (N1 & N2 & N3 & N4 & N5 & N6).
      assert (Hin : forall z p, objs z = Some p -> v_cap (o_owned p) <> O -> h (v_blk (o_owned p)) <> None).
      { intros z p Hp Cp. specialize (I2 z). rewrite Hp in I2. unfold matches in I2. destruct (m z); [|contradiction]. destruct I2 as [[[A _]|(_ & _ & _ & blk & A & _)] _]; congruence. }
      apply inv_upd with h; auto.
      + intros z p _ Hp Cp. apply N5. eauto.
      + split; [exact N2|]. destruct x as [[own c]|]; [|exact I]. apply rebind_good with h; auto; [congruence|]. intros HB. congruence.
      + intros q z p Hq Hz Hp. replace q with (mkObj (o_meta y) (rebind y v) v) by congruence. cbn [o_owned]. intros Cv Cp Heq. destruct (N6 Cv) as [Hb HA]. apply (Hin z p Hp Cp). congruence.
    - (* MoveNew *) destruct (m d) eqn:E; [discriminate|]. destruct (m s) as [x|] eqn:ES; [|discriminate]. replace m' with (vset (vset m s (Some None)) d (Some x)) by congruence. rewrite (inv_dead _ _ _ _ HI E). cbn [bind].
      destruct (inv_live _ _ _ _ _ HI ES) as (y & Hy & V1 & G). cbn [w_objs w_heap] in *. rewrite Hy. cbn [bind]. unfold move_new.
      assert (Hds : d <> s) by congruence.
      apply inv_upd with h; auto.
      + apply inv_upd with h; auto; [split; [left; auto|exact I]|]. intros q z p Hq. replace q with (hollow y) by congruence. cbn. congruence.
      + split; [exact V1|]. destruct x as [[own c]|]; [|exact I]. apply rebind_good with h; auto.
      + intros q z p Hq Hz Hp. replace q with (mkObj (o_meta y) (rebind y (o_owned y)) (o_owned y)) by congruence. cbn [o_owned]. unfold oupd in Hp. destruct (z =? s) eqn:EZ.
        * replace p with (hollow y) by congruence. cbn. congruence.
        * apply (I3 s z); auto. lia.
    - (* Assign *) destruct (m d) as [x0|] eqn:E; [|discriminate]. destruct (m s) as [x|] eqn:ES; [|discriminate]. replace m' with (vset m d (Some x)) by congruence.
      destruct (inv_live _ _ _ _ _ HI E) as (y0 & Hy0 & V0 & _). destruct (inv_live _ _ _ _ _ HI ES) as (y & Hy & V1 & G). cbn [w_objs w_heap] in *. rewrite Hy0, Hy. cbn [bind].
      destruct (d =? s) eqn:EDS. { apply Z.eqb_eq in EDS. subst. apply inv_ext with m; [|exact HI]. intros z. unfold vset. destruct (z =? s) eqn:EZ; [|reflexivity]. apply Z.eqb_eq in EZ. congruence. }
      unfold copy_assign. destruct (vec_ok_bytes _ _ V1) as (l & HL & LL). rewrite HL. cbn [bind].
      pose proof (vec_assign_ok h a (o_owned y0) l HK V0) as HN. destruct (vec_assign h a (o_owned y0) l) as [[h' v]| |]; cbn [bind]; [|exact HN|exact HN]. destruct HN as (N1 & N2 & N3 & N4 & N5 & N6).
      assert (Hin : forall z p, objs z = Some p -> v_cap (o_owned p) <> O -> h (v_blk (o_owned p)) <> None).
      { intros z p Hp Cp. specialize (I2 z). rewrite Hp in I2. unfold matches in I2. destruct (m z); [|contradiction]. destruct I2 as [[[A _]|(_ & _ & _ & blk & A & _)] _]; congruence. }
      apply inv_upd with h; auto.
      + intros z p Hz Hp Cp. apply N5; [eauto|]. intros C0. apply (I3 z d); auto.
      + split; [exact N2|]. destruct x as [[own c]|]; [|exact I]. apply rebind_good with h; auto; [congruence|]. intros HB. congruence.
      + intros q z p Hq Hz Hp. replace q with (mkObj (o_meta y) (rebind y v) v) by congruence. cbn [o_owned]. intros Cv Cp Heq. destruct (N6 Cv) as [[C0 Hb]|HA].
        * apply (I3 d z y0 p); auto. congruence.
        * apply (Hin z p Hp Cp). congruence.
    - (* MoveAssign *) destruct (m d) as [x0|] eqn:E; [|discriminate]. destruct (m s) as [x|] eqn:ES; [|discriminate].
      destruct (inv_live _ _ _ _ _ HI E) as (y0 & Hy0 & V0 & _). destruct (inv_live _ _ _ _ _ HI ES) as (y & Hy & V1 & G). cbn [w_objs w_heap] in *. rewrite Hy0, Hy. cbn [bind].
      destruct (d =? s) eqn:EDS. { replace m' with m by congruence. exact HI. }
      replace m' with (vset (vset m s (Some None)) d (Some x)) by congruence. apply Z.eqb_neq in EDS. unfold move_assign.
      assert (HF : forall z p, z <> d -> objs z = Some p -> v_cap (o_owned p) <> O -> vec_free h (o_owned y0) (v_blk (o_owned p)) = h (v_blk (o_owned p))).
      { intros z p Hz Hp Cp. apply free_other. intros C0. apply (I3 z d); auto. }
      assert (HA : v_cap (o_owned y) <> O -> vec_free h (o_owned y0) (v_blk (o_owned y)) = h (v_blk (o_owned y))) by (intros Cy; apply (HF s y); auto).
      apply inv_upd with h; auto.
      + apply inv_upd with h; auto; [split; [left; auto|exact I]|]. intros q z p Hq. replace q with (hollow y) by congruence. cbn. congruence.
      + now apply keeps_free.
      + intros z p Hz Hp Cp. unfold oupd in Hp. destruct (z =? s) eqn:EZ; [replace p with (hollow y) in Cp by congruence; cbn in Cp; congruence|]. eapply HF; eauto.
      + split; [eapply vec_ok_agree; eauto|]. destruct x as [[own c]|]; [|exact I]. apply rebind_good with h; auto; [eapply vec_ok_agree; eauto|]. intros HB. rewrite <- HB. apply bytes_agree; auto.
      + intros q z p Hq Hz Hp. replace q with (mkObj (o_meta y) (rebind y (o_owned y)) (o_owned y)) by congruence. cbn [o_owned]. unfold oupd in Hp. destruct (z =? s) eqn:EZ.
        * replace p with (hollow y) by congruence. cbn. congruence.
        * apply (I3 s z); auto. lia.
    - (* Viz *) destruct (m d) as [[[own c]|]|] eqn:E; try discriminate. destruct (inv_live _ _ _ _ _ HI E) as (y & Hy & V1 & G). cbn [w_objs w_heap] in *. rewrite Hy. cbn [bind].
      rewrite (good_denotes _ _ _ _ HK G). cbn [bind]. destruct (viz_rewrite c) as [[c'|]| |]; try discriminate; cbn [bind]; [|replace m' with m by congruence; exact HI].
      replace m' with (vset m d (Some (Some (true, c')))) by congruence.
      pose proof (vec_new_ok h a (r_data c') (length (r_data c) - length (r_data c')) HK) as HN. destruct (vec_new h a (r_data c') _) as [[h' v]| |]; cbn [bind]; [|exact HN|exact HN]. destruct HN as (N1 & N2 & N3 & N4 & N5 & N6).
      assert (Hin : forall z p, objs z = Some p -> v_cap (o_owned p) <> O -> h (v_blk (o_owned p)) <> None).
      { intros z p Hp Cp. specialize (I2 z). rewrite Hp in I2. unfold matches in I2. destruct (m z); [|contradiction]. destruct I2 as [[[A _]|(_ & _ & _ & blk & A & _)] _]; congruence. }
      assert (V1' : vec_ok h' (o_owned y)) by (apply vec_ok_agree with h; [|exact V1]; intros Cy; apply N5; eauto).
      assert (HF : v_cap v <> O -> vec_free h' (o_owned y) (v_blk v) = h' (v_blk v)).
      { intros Cv. apply free_other. intros Cy Heq. destruct (N6 Cv) as [Hb HA]. apply (Hin d y Hy Cy). congruence. }
      apply inv_upd with h; auto.
      + now apply keeps_free.
      + intros z p Hz Hp Cp. rewrite free_other; [apply N5; eauto|]. intros Cy. apply (I3 z d); auto.
      + split; [eapply vec_ok_agree; eauto|]. split; [destruct c'; reflexivity|]. cbn [fst snd o_data o_owned]. split; [reflexivity|]. split; [reflexivity|]. rewrite <- N3. apply bytes_agree; auto.
      + intros q z p Hq Hz Hp. replace q with (mkObj (with_data c' []) (whole v) v) by congruence. cbn [o_owned]. intros Cv Cp Heq. destruct (N6 Cv) as [Hb HA]. apply (Hin z p Hp Cp). congruence.
    - (* Poke *) destruct (m d) as [[[[] c]|]|] eqn:E; try discriminate. destruct (i <? length (r_data c))%nat eqn:Ei; [|discriminate]. apply Nat.ltb_lt in Ei.
      destruct (inv_live _ _ _ _ _ HI E) as (y & Hy & V1 & G). cbn [w_objs w_heap] in *. rewrite Hy. cbn [bind]. destruct G as [G1 (G2 & G3 & G4)]. cbn [fst snd] in *. rewrite G4. cbn [bind].
      replace (i <? length (r_data c))%nat with true by (symmetry; now apply Nat.ltb_lt).
      destruct (vec_ok_bytes _ _ V1) as (l & HL & LL). assert (l = r_data c) by congruence. subst l.
      destruct V1 as [[C0 S0]|(C0 & S0 & X0 & blk & B0 & B1)]; [lia|]. rewrite B0.
      set (h' := hupd h (v_blk (o_owned y)) (Some (firstn i blk ++ b :: skipn (S i) blk))).
      set (l' := firstn i (r_data c) ++ b :: skipn (S i) (r_data c)) in *. replace m' with (vset m d (Some (Some (true, with_data c l')))) by congruence.
      assert (EB : r_data c = firstn (v_size (o_owned y)) blk).
      { unfold vec_bytes, read_view in HL. cbn [w_size w_blk w_off] in HL. rewrite B0 in HL. replace (v_size (o_owned y) =? 0)%nat with false in HL by (symmetry; apply Nat.eqb_neq; lia).
        replace (0 + v_size (o_owned y) <=? length blk)%nat with true in HL by (symmetry; apply Nat.leb_le; lia). cbn [skipn] in HL. congruence. }
      assert (LB : length (firstn i blk ++ b :: skipn (S i) blk) = v_cap (o_owned y)). { rewrite app_length. cbn [length]. rewrite firstn_length, skipn_length. lia. }
      assert (V' : vec_ok h' (o_owned y)). { right. split; [exact C0|]. split; [exact S0|]. split; [exact X0|]. eexists. split; [unfold h', hupd; rewrite Z.eqb_refl; reflexivity|exact LB]. }
      assert (BY : vec_bytes h' (o_owned y) = Ok l').
      { unfold vec_bytes, read_view. cbn [w_size w_blk w_off]. replace (v_size (o_owned y) =? 0)%nat with false by (symmetry; apply Nat.eqb_neq; lia). unfold h' at 1, hupd. rewrite Z.eqb_refl, LB.
        replace (0 + v_size (o_owned y) <=? v_cap (o_owned y))%nat with true by (symmetry; apply Nat.leb_le; lia). cbn [skipn]. f_equal. unfold l'. rewrite EB.
        set (n := v_size (o_owned y)) in *. replace n with (i + S (n - S i))%nat by lia. set (k := (n - S i)%nat).
        rewrite firstn_app. rewrite firstn_length. replace (i + S k - Nat.min i (length blk))%nat with (S k) by lia. rewrite firstn_firstn. replace (Nat.min (i + S k) i) with i by lia. cbn [firstn].
        rewrite firstn_firstn. replace (Nat.min i (i + S k)) with i by lia. f_equal. f_equal. rewrite skipn_firstn_comm. f_equal. lia. }
      assert (HD : forall x, matches h' (vset m d (Some (Some (true, with_data c l'))) x) (oupd objs d (Some y) x)) .
      { intros x. unfold vset, oupd. destruct (x =? d) eqn:EX.
        - split; [exact V'|]. split; [|cbn [fst snd r_data with_data]; auto]. cbn [fst snd r_data with_data]. rewrite <- G1. reflexivity.
        - apply matches_agree with h; [|apply I2]. intros p Hp Cp. unfold h', hupd. destruct (v_blk (o_owned p) =? v_blk (o_owned y)) eqn:EQ; [|reflexivity]. exfalso. apply (I3 x d p y); auto; lia. }
      split; [|split]; cbn [w_heap w_objs].
      + now apply keeps_upd.
      + intros x. specialize (HD x). unfold oupd in HD. destruct (x =? d) eqn:EX; [|exact HD]. apply Z.eqb_eq in EX. subst x. rewrite Hy. exact HD.
      + exact I3.
    - (* Destroy *) destruct (m d) as [x|] eqn:E; [|discriminate]. destruct (inv_live _ _ _ _ _ HI E) as (y & Hy & V1 & _). cbn [w_objs w_heap] in *. rewrite Hy. cbn [bind].
      replace m' with (vset m d None) by congruence. apply inv_upd with h; auto; [now apply keeps_free| |exact I|congruence].
      intros z p Hz Hp Cp. apply free_other. intros Cy. apply (I3 z d); auto.
  Qed.
  Lemma run_ok : forall l m w m', Inv m w -> spec_run ext m (map fst l) = Some m' -> match run w l with Ok w' => Inv m' w' | Throw => True | UB => False end.
  Proof.
    induction l as [|[o a] l IH]; intros m w m' HI HS; cbn [map fst spec_run run] in *; [replace m' with m by congruence; exact HI|].
    destruct (spec_step ext m o) as [m1|] eqn:E; [|discriminate]. pose proof (step_ok m w o a m1 HI E) as H. destruct (step w o a) as [w1| |]; cbn [bind]; [|exact I|exact H]. now apply IH with m1.
  Qed.
End Inv.

(** Whatever the program and wherever the allocator puts things: no access outside of allocated
    memory happens, every object that was not moved from denotes exactly its value, its view lies in
    its own storage or in the caller's buffer, distinct objects own distinct storage, and the
    caller's buffers are untouched.  ([Throw]: the allocator returned a block in use.) *)
Theorem C47_objects_are_values ext history m :
  spec_run ext nobody (map fst history) = Some m ->
  match run (mkWorld ext (fun _ => None)) history with
  | UB => False
  | Throw => True
  | Ok w =>
      (forall x, match m x with
                 | None => w_objs w x = None
                 | Some None => exists o, w_objs w x = Some o
                 | Some (Some (own, c)) => exists o, w_objs w x = Some o /\ denotes (w_heap w) o = Ok c /\
                     (w_size (o_data o) = O \/ if own then o_data o = whole (o_owned o) else ext (w_blk (o_data o)) <> None)
                 end) /\
      (forall x y o p, x <> y -> w_objs w x = Some o -> w_objs w y = Some p -> v_size (o_owned o) <> O -> v_size (o_owned p) <> O -> v_blk (o_owned o) <> v_blk (o_owned p)) /\
      (forall b l, ext b = Some l -> w_heap w b = Some l)
  end.
Proof.
  intros HS. assert (HI : Inv ext nobody (mkWorld ext (fun _ => None))).
  { split; [intros b l H; exact H|]. split; [intros x; exact I|]. intros x y o p _ H. discriminate H. }
  pose proof (run_ok ext history _ _ _ HI HS) as H. destruct (run _ history) as [w| |]; [|exact I|exact H]. destruct H as (I1 & I2 & I3). split; [|split; [|exact I1]].
  - intros x. specialize (I2 x). unfold matches in I2. destruct (m x) as [[[own c]|]|]; destruct (w_objs w x) as [o|]; try contradiction; [|eauto|reflexivity].
    exists o. split; [reflexivity|]. destruct I2 as [V G]. split; [eapply good_denotes; eauto|]. destruct G as [G1 G2]. cbn [fst snd] in *. destruct own.
    + destruct G2 as (G2 & G3 & _). destruct (Nat.eq_dec (v_size (o_owned o)) 0); [left; lia|right; auto].
    + unfold read_view in G2. destruct (w_size (o_data o) =? 0)%nat eqn:E; [left; now apply Nat.eqb_eq|right]. destruct (ext (w_blk (o_data o))); [discriminate|discriminate G2].
  - intros x y o p Hne Hx Hy So Sp. pose proof (I2 x) as Mx. pose proof (I2 y) as My. rewrite Hx in Mx. rewrite Hy in My. unfold matches in Mx, My. destruct (m x); [|contradiction]. destruct (m y); [|contradiction].
    destruct Mx as [[[? ?]|(Cx & _)] _]; [congruence|]. destruct My as [[[? ?]|(Cy & _)] _]; [congruence|]. apply (I3 x y); auto.
Qed.

(** Every such program has an execution: it runs to its end if the allocator always returns blocks
    never used before. *)
Lemma new_blocks h a l pad h' v : vec_new h a l pad = Ok (h', v) -> forall b, h' b <> None -> h b <> None \/ b = a.
Proof.
  unfold vec_new. destruct (_ =? 0)%nat; [intros H; replace h' with h by congruence; auto|]. destruct (h a); [discriminate|]. intros H. replace h' with (hupd h a (Some (l ++ repeat 0 pad))) by congruence.
  intros b Hb. unfold hupd in Hb. destruct (b =? a) eqn:E; [right; lia|auto].
Qed.
Lemma free_blocks h v b : vec_free h v b <> None -> h b <> None.
Proof. unfold vec_free, hupd. destruct (_ =? 0)%nat; [auto|]. destruct (b =? v_blk v); [congruence|auto]. Qed.
Lemma assign_blocks h a d l h' v : vec_assign h a d l = Ok (h', v) -> forall b, h' b <> None -> h b <> None \/ b = a.
Proof.
  unfold vec_assign. destruct (length l <=? v_cap d)%nat; [destruct (length l =? 0)%nat|].
  - intros H. replace h' with h by congruence. auto.
  - destruct (h (v_blk d)) as [old|] eqn:E; [|discriminate]. destruct (length l <=? length old)%nat; [|discriminate]. intros H. replace h' with (hupd h (v_blk d) (Some (l ++ skipn (length l) old))) by congruence.
    intros b Hb. unfold hupd in Hb. destruct (b =? v_blk d) eqn:E2; [|auto]. apply Z.eqb_eq in E2. left. congruence.
  - destruct (vec_new h a l 0) as [[h1 v1]| |] eqn:E; cbn [bind]; try discriminate. intros H. replace h' with (vec_free h1 d) by congruence. intros b Hb. apply free_blocks in Hb. eapply new_blocks; eauto.
Qed.
Lemma ok_heap h m w : Ok (mkWorld h m) = Ok w -> w_heap w = h.
Proof. intros H. replace w with (mkWorld h m) by congruence. reflexivity. Qed.
Lemma step_blocks w o a w' : step w o a = Ok w' -> forall b, w_heap w' b <> None -> w_heap w b <> None \/ b = a.
Proof.
  destruct w as [h objs]. unfold step, live, free_name. cbn [w_heap w_objs]. cbv zeta. destruct o as [d|d c v|d v|d s|d s|d s|d s|d|d i b0|d].
  - destruct (objs d); cbn [bind]; [discriminate|]. intros H. replace w' with (mkWorld h (oupd objs d (Some (mkObj cloud0 (mkView 0 0 0) vnull)))) by congruence. auto.
  - destruct (objs d); cbn [bind]; [discriminate|]. intros H. replace w' with (mkWorld h (oupd objs d (Some (mkObj (with_data c []) v vnull)))) by congruence. auto.
  - destruct (objs d) as [x|]; cbn [bind]; [|discriminate]. intros H. replace w' with (mkWorld h (oupd objs d (Some (mkObj (o_meta x) v (o_owned x))))) by congruence. auto.
  - destruct (objs d); cbn [bind]; [discriminate|]. destruct (objs s) as [y|]; cbn [bind]; [|discriminate]. unfold copy_new. destruct (vec_bytes h (o_owned y)) as [l| |]; cbn [bind]; try discriminate.
    destruct (vec_new h a l 0) as [[h1 v1]| |] eqn:E; cbn [bind]; try discriminate. intros H. assert (w_heap w' = h1) as -> by (replace w' with (mkWorld h1 (oupd objs d (Some (mkObj (o_meta y) (rebind y v1) v1)))) by congruence; reflexivity). eapply new_blocks; eauto.
  - destruct (objs d); cbn [bind]; [discriminate|]. destruct (objs s) as [y|]; cbn [bind]; [|discriminate]. unfold move_new. intros H. assert (w_heap w' = h) as -> by (exact (ok_heap _ _ _ H)). auto.
  - destruct (objs d) as [x|]; cbn [bind]; [|discriminate]. destruct (objs s) as [y|]; cbn [bind]; [|discriminate]. destruct (d =? s). { intros H. replace w' with (mkWorld h objs) by congruence. auto. }
    unfold copy_assign. destruct (vec_bytes h (o_owned y)) as [l| |]; cbn [bind]; try discriminate.
    destruct (vec_assign h a (o_owned x) l) as [[h1 v1]| |] eqn:E; cbn [bind]; try discriminate. intros H. assert (w_heap w' = h1) as -> by (replace w' with (mkWorld h1 (oupd objs d (Some (mkObj (o_meta y) (rebind y v1) v1)))) by congruence; reflexivity). eapply assign_blocks; eauto.
  - destruct (objs d) as [x|]; cbn [bind]; [|discriminate]. destruct (objs s) as [y|]; cbn [bind]; [|discriminate]. destruct (d =? s). { intros H. replace w' with (mkWorld h objs) by congruence. auto. }
    unfold move_assign. intros H. assert (w_heap w' = vec_free h (o_owned x)) as -> by (exact (ok_heap _ _ _ H)). intros b Hb. left. eapply free_blocks; eauto.
  - destruct (objs d) as [x|]; cbn [bind]; [|discriminate]. destruct (denotes h x) as [c| |]; cbn [bind]; try discriminate. destruct (viz_rewrite c) as [[c'|]| |]; cbn [bind]; try discriminate.
    + destruct (vec_new h a (r_data c') _) as [[h1 v1]| |] eqn:E; cbn [bind]; try discriminate. intros H. assert (w_heap w' = vec_free h1 (o_owned x)) as -> by (exact (ok_heap _ _ _ H)).
      intros b Hb. apply free_blocks in Hb. eapply new_blocks; eauto.
    + intros H. replace w' with (mkWorld h objs) by congruence. auto.
  - destruct (objs d) as [x|]; cbn [bind]; [|discriminate]. destruct (vec_bytes h (o_owned x)) as [l| |]; cbn [bind]; try discriminate. destruct (i <? length l)%nat; [|discriminate]. destruct (h (v_blk (o_owned x))) as [blk|] eqn:E; [|discriminate].
    intros H. assert (w_heap w' = hupd h (v_blk (o_owned x)) (Some (firstn i blk ++ b0 :: skipn (S i) blk))) as -> by (exact (ok_heap _ _ _ H)).
    intros b Hb. unfold hupd in Hb. destruct (b =? v_blk (o_owned x)) eqn:E2; [|auto]. apply Z.eqb_eq in E2. left. congruence.
  - destruct (objs d) as [x|]; cbn [bind]; [|discriminate]. intros H. assert (w_heap w' = vec_free h (o_owned x)) as -> by (exact (ok_heap _ _ _ H)). intros b Hb. left. eapply free_blocks; eauto.
Qed.
Theorem C47_programs_run ext history m : spec_run ext nobody (map fst history) = Some m ->
  NoDup (map snd history) -> (forall a, In a (map snd history) -> ext a = None) ->
  exists w, run (mkWorld ext (fun _ => None)) history = Ok w.
Proof.
  intros HS. assert (HI : Inv ext nobody (mkWorld ext (fun _ => None))).
  { split; [intros b l H; exact H|]. split; [intros x; exact I|]. intros x y o p _ H. discriminate H. }
  intros HN HX. assert (HX' : forall a, In a (map snd history) -> w_heap (mkWorld ext (fun _ => None)) a = None) by exact HX. clear HX.
  revert HI HS HN HX'. generalize nobody as m0. generalize (mkWorld ext (fun _ => None)) as w. induction history as [|[o a] l IH]; intros w m0 HI HS HN HX; cbn [map fst snd spec_run run] in *; [eauto|].
  destruct (spec_step ext m0 o) as [m1|] eqn:E; [|discriminate]. pose proof (step_ok ext m0 w o a m1 HI E) as H. inversion HN as [|? ? N1 N2]; subst.
  destruct (step w o a) as [w1| |] eqn:ES; cbn [bind]; [|exfalso; apply H, HX; now left|contradiction].
  apply (IH w1 m1); auto. intros b Hb. destruct (w_heap w1 b) as [l0|] eqn:Eb; [|reflexivity]. exfalso. destruct (step_blocks w o a w1 ES b ltac:(congruence)) as [Hb'|Hb']; [|subst; contradiction]. apply Hb', HX. now right.
Qed.

(** The promise does not extend to moved-from objects: their view still designates the storage that
    was moved away, so after the new owner is destroyed, reading it reads freed memory. *)
Definition viz_fields : list field := [mkField [120] 0 FLOAT32 (Some 981668463); mkField [121] 4 FLOAT32 (Some 981668463); mkField [122] 8 FLOAT32 (Some 981668463)].
Definition viz_cloud : ros_cloud := mkRos (mkCdr LITTLE PLAIN_CDR DDS_CDR) 0 0 [] 1 2 viz_fields 12 24 [] 1.
Definition message : heap := fun b => if b =? 100 then Some (repeat 0 4 ++ repeat 0 24) else None.
Theorem C47_moved_from_refuted : exists program m, spec_run message nobody (map fst program) = Some m /\
  m 1 = Some None /\ exists w o, run (mkWorld message (fun _ => None)) program = Ok w /\ w_objs w 1 = Some o /\ w_size (o_data o) = 12%nat /\ denotes (w_heap w) o = UB.
Proof.
  exists [(Parsed 1 viz_cloud (mkView 100 4 24), 1); (Viz 1, 2); (MoveNew 2 1, 3); (Destroy 2, 4)]. eexists. split; [vm_compute; reflexivity|]. split; [reflexivity|]. do 2 eexists. split; [vm_compute; reflexivity|]. repeat split.
Qed.
(** A program using every operation. *)
Example C47_case : let program := [(Default 1, 1); (Parsed 2 viz_cloud (mkView 100 4 24), 2); (CopyNew 3 2, 3); (Viz 3, 4); (CopyNew 4 3, 5); (Poke 3 1 7, 6); (Assign 1 4, 7); (MoveNew 5 3, 8);
     (MoveAssign 3 5, 9); (Assign 3 3, 10); (Destroy 4, 11); (SetView 5 (mkView 100 0 3), 12); (Assign 5 1, 13); (MoveAssign 5 1, 14)] in
  NoDup (map snd program) /\ (forall a, In a (map snd program) -> message a = None) /\
  exists m, spec_run message nobody (map fst program) = Some m /\ m 4 = None /\ m 1 = Some None /\
    (exists c, m 3 = Some (Some (true, c)) /\ r_data c = [0; 7; 0; 0; 0; 0; 0; 0; 0; 0; 0; 0]) /\ (exists c, m 5 = Some (Some (true, c)) /\ r_data c = repeat 0 12).
Proof.
  cbv zeta. split. { cbn. repeat (constructor; [cbn; lia|]). constructor. } split. { cbn. intros a H. unfold message. destruct (a =? 100) eqn:E; [lia|reflexivity]. }
  eexists. split; [vm_compute; reflexivity|]. split; [reflexivity|]. split; [reflexivity|]. split; eexists; (split; [reflexivity|reflexivity]).
Qed.
Print Assumptions C47_objects_are_values.
Print Assumptions C47_programs_run.
Print Assumptions C47_moved_from_refuted.
