(** Decoding into two output buffers of the same size: the bytes of the declared fields
    come out the same, whatever the buffers held before. *)
From Verif Require Import Base Varint BaseFacts VarintFacts Types Floats Fields Codec V5 Api Spec WriteFacts CloudFacts HostileFacts RoundTrip ConfineFacts.

Definition sync (P : Z -> Prop) (a b : list Z) : Prop :=
  length b = length a /\ (forall x, (x < length a)%nat -> P (Z.of_nat x) -> nth_error a x = nth_error b x).
Lemma sync_mono (P Q : Z -> Prop) a b : (forall x, Q x -> P x) -> sync P a b -> sync Q a b.
Proof. intros H [H1 H2]. split; auto. Qed.
Definition union (P Q : Z -> Prop) (x : Z) : Prop := P x \/ Q x.
Lemma wr_sync P pos bs a b a' : sync P a b -> wr pos bs a = Ok a' ->
  exists b', wr pos bs b = Ok b' /\ sync (union P (fun x => pos <= x < pos + zlen bs)) a' b'.
Proof.
  intros [H1 H2] H. pose proof (wr_inv _ _ _ _ H) as (Hp & Hl & _ & El).
  destruct (wr pos bs b) as [b'| |] eqn:E.
  - exists b'. split; [reflexivity|]. pose proof (wr_inv _ _ _ _ E) as (_ & _ & _ & El'). split; [congruence|]. intros x Hx HP.
    rewrite (wr_nth _ _ _ _ _ H), (wr_nth _ _ _ _ _ E). destruct (_ && _)%nat eqn:EE; [reflexivity|]. apply H2; [lia|]. destruct HP as [HP|HP]; [exact HP|]. cbn beta in HP. unfold zlen in *. lia.
  - exfalso. unfold wr in E. destruct (_ && _); discriminate.
  - exfalso. unfold wr, zlen in *. rewrite H1 in E. replace ((0 <=? pos) && (pos + Z.of_nat (length bs) <=? Z.of_nat (length a))) with true in E by lia. discriminate.
Qed.

(** *** A field decoder stores every place it has *)
Definition places_of (ss : list (Z * list Z)) : list (Z * nat) := map (fun s => (fst s, length (snd s))) ss.
Definition live (pl : list (Z * nat)) : list (Z * nat) := filter (fun p => negb (fst p =? kSkip)) pl.
Lemma store_live off bs sz : length bs = sz -> places_of (store off bs) = live [(off, sz)].
Proof. intros <-. unfold store, live. cbn [filter fst]. destruct (off =? kSkip); reflexivity. Qed.
Lemma floatn_live ops lanes : forall prev input v rest ss, floatn_decode ops lanes prev input = Ok (v, rest, ss) ->
  places_of ss = live (map (fun l => (fst l, 4%nat)) lanes).
Proof.
  induction lanes as [|[off r] lanes IH]; intros prev input v rest ss H; cbn [floatn_decode] in H.
  - assert (ss = []) by congruence. subst. reflexivity.
  - destruct prev as [|p prev]; [discriminate|]. destruct input as [|b0 rest0]; [discriminate|].
    apply bind_ok in H. destruct H as ([[v0 bits] input'] & _ & H). apply bind_ok in H. destruct H as ([[vs i2] st] & H2 & H).
    assert (ss = store off (le_bytes 4 bits) ++ st) by congruence. subst ss. apply IH in H2. unfold places_of in *. rewrite map_app, H2.
    change (live (map (fun l => (fst l, 4%nat)) ((off, r) :: lanes))) with (filter (fun p : Z * nat => negb (fst p =? kSkip)) ((off, 4%nat) :: map (fun l => (fst l, 4%nat)) lanes)).
    cbn [filter fst]. unfold store. destruct (off =? kSkip); reflexivity.
Qed.
Lemma dec_step_live ops d st input st' rest ss : dec_step ops d st input = Ok (st', rest, ss) -> places_of ss = live (dec_places d).
Proof.
  destruct d as [off sz|off sz|off r|off r|off sz|off|lanes]; cbn [dec_step dec_places]; intros H.
  - destruct (length input <? sz)%nat eqn:E; [destruct (off =? kSkip); discriminate|]. assert (ss = store off (firstn sz input)) by congruence. subst.
    apply store_live. rewrite firstn_length. lia.
  - apply bind_ok in H. destruct H as ([diff c] & _ & H). cbv zeta in H. match type of H with Ok (_, _, ?s) = _ => assert (ss = s) by congruence end. subst.
    apply store_live, le_bytes_length.
  - destruct input as [|b0 r0]; [discriminate|]. destruct (b0 =? 0).
    + match type of H with Ok (_, _, ?s) = _ => assert (ss = s) by congruence end. subst. apply store_live, le_bytes_length.
    + apply bind_ok in H. destruct H as ([diff c] & _ & H). cbv zeta in H. match type of H with Ok (_, _, ?s) = _ => assert (ss = s) by congruence end. subst.
      apply store_live, le_bytes_length.
  - destruct input as [|b0 r0]; [discriminate|]. destruct (b0 =? 0).
    + match type of H with Ok (_, _, ?s) = _ => assert (ss = s) by congruence end. subst. apply store_live, le_bytes_length.
    + apply bind_ok in H. destruct H as ([diff c] & _ & H). cbv zeta in H. match type of H with Ok (_, _, ?s) = _ => assert (ss = s) by congruence end. subst.
      apply store_live, le_bytes_length.
  - destruct (length input <? sz)%nat eqn:E; [discriminate|]. cbv zeta in H. match type of H with Ok (_, _, ?s) = _ => assert (ss = s) by congruence end. subst.
    apply store_live, le_bytes_length.
  - apply bind_ok in H. destruct H as ([[s1 v] r1] & _ & H). match type of H with Ok (_, _, ?s) = _ => assert (ss = s) by congruence end. subst.
    apply store_live, le_bytes_length.
  - destruct input as [|b0 r0]; [discriminate|]. apply bind_ok in H. destruct H as ([[v r1] s1] & H1 & H). assert (ss = s1) by congruence. subst.
    eapply floatn_live; exact H1.
Qed.

(** *** A point *)
Definition at_live (base : Z) (pl : list (Z * nat)) (x : Z) : Prop :=
  exists off sz, In (off, sz) pl /\ base + off <= x < base + off + Z.of_nat sz.
Lemma at_live_places base pl x : at_places base pl x -> at_live base (live pl) x.
Proof. intros (o & s & A & B & C). exists o, s. split; [|exact C]. unfold live. apply filter_In. split; [exact A|]. cbn [fst]. lia. Qed.
Lemma do_stores_sync base ss : forall P a b a', sync P a b -> do_stores base ss a = Ok a' ->
  exists b', do_stores base ss b = Ok b' /\ sync (union P (at_live base (places_of ss))) a' b'.
Proof.
  induction ss as [|[off bs] ss IH]; intros P a b a' HS H; cbn [do_stores] in H |- *.
  - exists b. assert (a' = a) by congruence. subst. split; [reflexivity|]. eapply sync_mono; [|exact HS]. intros x [Hx|(o & s & [] & _)]; exact Hx.
  - apply bind_ok in H. destruct H as (m1 & H1 & H). destruct (wr_sync _ _ _ _ _ _ HS H1) as (b1 & -> & HS1). cbn [bind].
    destruct (IH _ _ _ _ HS1 H) as (b' & E & HS2). exists b'. split; [exact E|]. eapply sync_mono; [|exact HS2].
    intros x [Hx|(o & s & Hin & Hx)]; [left; now left|]. cbn [places_of map] in Hin. destruct Hin as [Hin|Hin].
    + assert (o = off /\ s = length bs) as [-> ->] by (cbn [fst snd] in Hin; split; congruence). left. right. unfold zlen. lia.
    + right. exists o, s. auto.
Qed.
Lemma dec_point_sync ops ds : forall sts input base P a b sts' input' a', sync P a b -> dec_point ops ds sts input base a = Ok (sts', input', a') ->
  exists b', dec_point ops ds sts input base b = Ok (sts', input', b') /\ sync (union P (at_places base (all_places ds))) a' b'.
Proof.
  induction ds as [|d ds IH]; intros sts input base P a b sts' input' a' HS H; destruct sts as [|st sts]; cbn [dec_point] in H |- *; try discriminate.
  - exists b. assert (sts' = [] /\ input' = input /\ a' = a) as (-> & -> & ->) by (repeat split; congruence). split; [reflexivity|].
    eapply sync_mono; [|exact HS]. intros x [Hx|(o & s & [] & _)]; exact Hx.
  - apply bind_ok in H. destruct H as ([[s1 i1] ss] & H1 & H). rewrite H1. cbn [bind]. apply bind_ok in H. destruct H as (m1 & H2 & H).
    destruct (do_stores_sync _ _ _ _ _ _ HS H2) as (b1 & -> & HS1). cbn [bind].
    apply bind_ok in H. destruct H as ([[s2 i2] m2] & H3 & H). assert (sts' = s1 :: s2 /\ input' = i2 /\ a' = m2) as (-> & -> & ->) by (repeat split; congruence).
    destruct (IH _ _ _ _ _ _ _ _ _ HS1 H3) as (b2 & -> & HS2). cbn [bind]. exists b2. split; [reflexivity|]. eapply sync_mono; [|exact HS2].
    intros x [Hx|Hx]; [left; now left|]. destruct Hx as (o & s & Hin & Hk & Hx). unfold all_places in Hin. cbn in Hin. apply in_app_or in Hin. destruct Hin as [Hin|Hin].
    + left. right. rewrite (dec_step_live _ _ _ _ _ _ _ H1). apply at_live_places. exists o, s. auto.
    + right. exists o, s. auto.
Qed.
Lemma pts_split step pl lo n x : 0 <= n -> pts_places step pl lo (1 + n) x -> at_places (lo * step) pl x \/ pts_places step pl (lo + 1) n x.
Proof. intros Hn (j & Hj & Hx). destruct (Z.eq_dec j lo) as [->|]; [now left|]. right. exists j. split; [lia|exact Hx]. Qed.
Lemma dec_points_v5_sync ops ds step n : forall lo sts input P a b input' a', sync P a b ->
  dec_points_v5 ops ds step n sts input (lo * step) a = Ok (input', a') ->
  exists b', dec_points_v5 ops ds step n sts input (lo * step) b = Ok (input', b') /\ sync (union P (pts_places step (all_places ds) lo (Z.of_nat n))) a' b'.
Proof.
  induction n as [|n IH]; intros lo sts input P a b input' a' HS H; cbn [dec_points_v5] in H |- *.
  - exists b. assert (input' = input /\ a' = a) as (-> & ->) by (split; congruence). split; [reflexivity|]. eapply sync_mono; [|exact HS]. intros x [Hx|(j & Hj & _)]; [exact Hx|lia].
  - apply bind_ok in H. destruct H as ([[s1 i1] m1] & H1 & H). destruct (dec_point_sync _ _ _ _ _ _ _ _ _ _ _ HS H1) as (b1 & -> & HS1). cbn [bind].
    replace (lo * step + step) with ((lo + 1) * step) in H |- * by lia. destruct (IH _ _ _ _ _ _ _ _ HS1 H) as (b' & E & HS2). exists b'. split; [exact E|].
    eapply sync_mono; [|exact HS2]. replace (Z.of_nat (S n)) with (1 + Z.of_nat n) by lia. intros x [Hx|Hx]; [left; now left|]. apply pts_split in Hx; [|lia]. destruct Hx as [Hx|Hx]; [left; now right|now right].
Qed.
Lemma dec_points_v4_sync ops ds minb step n : forall lo sts input P a b input' base' a', sync P a b ->
  dec_points_v4 ops ds minb step n sts input (lo * step) a = Ok (input', base', a') ->
  exists b', dec_points_v4 ops ds minb step n sts input (lo * step) b = Ok (input', base', b') /\ sync (union P (pts_places step (all_places ds) lo (Z.of_nat n))) a' b'.
Proof.
  induction n as [|n IH]; intros lo sts input P a b input' base' a' HS H; cbn [dec_points_v4] in H |- *.
  - exists b. assert (input' = input /\ base' = lo * step /\ a' = a) as (-> & -> & ->) by (repeat split; congruence). split; [reflexivity|]. eapply sync_mono; [|exact HS]. intros x [Hx|(j & Hj & _)]; [exact Hx|lia].
  - destruct (length input <? minb)%nat; [discriminate|]. assert (EZ : zlen b = zlen a) by (unfold zlen; destruct HS as [-> _]; reflexivity). rewrite EZ. destruct (zlen a - lo * step <? step); [discriminate|].
    apply bind_ok in H. destruct H as ([[s1 i1] m1] & H1 & H). destruct (dec_point_sync _ _ _ _ _ _ _ _ _ _ _ HS H1) as (b1 & -> & HS1). cbn [bind].
    replace (lo * step + step) with ((lo + 1) * step) in H |- * by lia. destruct (IH _ _ _ _ _ _ _ _ _ HS1 H) as (b' & E & HS2). exists b'. split; [exact E|].
    eapply sync_mono; [|exact HS2]. replace (Z.of_nat (S n)) with (1 + Z.of_nat n) by lia. intros x [Hx|Hx]; [left; now left|]. apply pts_split in Hx; [|lia]. destruct Hx as [Hx|Hx]; [left; now right|now right].
Qed.

(** *** Sections *)
Section SectionSync.
  Variables (a : afield) (lo step npts : Z).
  (** Points [i] to [k - 1] of the chunk. *)
  Definition sec_span (i k : Z) (x : Z) : Prop :=
    exists j, i <= j < k /\ lo * step + j * step + a_off a <= x < lo * step + j * step + a_off a + Z.of_nat (a_size a).
  Lemma span_ext P i k m m' : i < k -> sync (union (union P (fun x => lo * step + i * step + a_off a <= x < lo * step + i * step + a_off a + Z.of_nat (a_size a))) (sec_span (i + 1) k)) m m' ->
    sync (union P (sec_span i k)) m m'.
  Proof.
    intros Hi. apply sync_mono. intros x [Hx|(j & Hj & Hx)]; [left; now left|]. destruct (Z.eq_dec j i) as [->|]; [left; now right|]. right. exists j. split; [lia|exact Hx].
  Qed.
  Lemma span_empty P i k m m' : k <= i -> sync P m m' -> sync (union P (sec_span i k)) m m'.
  Proof. intros H. apply sync_mono. intros x [Hx|(j & Hj & _)]; [exact Hx|lia]. Qed.
  Lemma put_sync P i v m m' m1 : sync P m m' -> put_value a (lo * step) step i v m = Ok m1 ->
    exists m1', put_value a (lo * step) step i v m' = Ok m1' /\
    sync (union P (fun x => lo * step + i * step + a_off a <= x < lo * step + i * step + a_off a + Z.of_nat (a_size a))) m1 m1'.
  Proof.
    intros HS H. unfold put_value in *. destruct (wr_sync _ _ _ _ _ _ HS H) as (m1' & E & HS1). exists m1'. split; [exact E|]. eapply sync_mono; [|exact HS1].
    intros x [Hx|Hx]; [now left|right]. unfold zlen. rewrite le_bytes_length. exact Hx.
  Qed.
  Lemma dec_delta_sync n : forall i prev input P m m' input' m1, sync P m m' -> dec_delta a (lo * step) step n i prev input m = Ok (input', m1) ->
    exists m1', dec_delta a (lo * step) step n i prev input m' = Ok (input', m1') /\ sync (union P (sec_span i (i + Z.of_nat n))) m1 m1'.
  Proof.
    induction n as [|n IH]; intros i prev input P m m' input' m1 HS H; cbn [dec_delta] in H |- *.
    - exists m'. assert (input' = input /\ m1 = m) as (-> & ->) by (split; congruence). split; [reflexivity|]. apply span_empty; [lia|exact HS].
    - apply bind_ok in H. destruct H as ([d c] & E & H). rewrite E. cbn [bind]. cbv zeta in H |- *. apply bind_ok in H. destruct H as (m2 & H1 & H).
      destruct (put_sync _ _ _ _ _ _ HS H1) as (m2' & -> & HS1). cbn [bind]. destruct (IH _ _ _ _ _ _ _ _ HS1 H) as (m1' & E1 & HS2). exists m1'. split; [exact E1|].
      apply span_ext; [lia|]. replace (i + Z.of_nat (S n)) with (i + 1 + Z.of_nat n) by lia. exact HS2.
  Qed.
  Lemma dec_indexes_sync n : forall i bits sc held pal ptr P m m' m1, sync P m m' -> dec_indexes a (lo * step) step n i bits sc held pal ptr m = Ok m1 ->
    exists m1', dec_indexes a (lo * step) step n i bits sc held pal ptr m' = Ok m1' /\ sync (union P (sec_span i (i + Z.of_nat n))) m1 m1'.
  Proof.
    induction n as [|n IH]; intros i bits sc held pal ptr P m m' m1 HS H; cbn [dec_indexes] in H |- *.
    - exists m'. assert (m1 = m) as -> by congruence. split; [reflexivity|]. apply span_empty; [lia|exact HS].
    - apply bind_ok in H. destruct H as ([[[idx s1] h1] p1] & E & H). rewrite E. cbn [bind]. destruct (nth_error pal (Z.to_nat idx)) as [v|]; [|discriminate].
      apply bind_ok in H. destruct H as (m2 & H1 & H).
      destruct (put_sync _ _ _ _ _ _ HS H1) as (m2' & -> & HS1). cbn [bind]. destruct (IH _ _ _ _ _ _ _ _ _ _ HS1 H) as (m1' & E1 & HS2). exists m1'. split; [exact E1|].
      apply span_ext; [lia|]. replace (i + Z.of_nat (S n)) with (i + 1 + Z.of_nat n) by lia. exact HS2.
  Qed.
  Lemma fill_run_sync fuel : forall i len value P m m' i' m1, sync P m m' -> fill_run a (lo * step) step fuel i len value m = Ok (i', m1) ->
    i <= i' /\ exists m1', fill_run a (lo * step) step fuel i len value m' = Ok (i', m1') /\ sync (union P (sec_span i i')) m1 m1'.
  Proof.
    induction fuel as [|k IH]; intros i len value P m m' i' m1 HS H; cbn [fill_run] in H |- *; destruct (len <=? 0) eqn:E; try discriminate.
    1,2: assert (i' = i /\ m1 = m) as (-> & ->) by (split; congruence); split; [lia|]; exists m'; split; [reflexivity|]; apply span_empty; [lia|exact HS].
    apply bind_ok in H. destruct H as (m2 & H1 & H). destruct (put_sync _ _ _ _ _ _ HS H1) as (m2' & -> & HS1). cbn [bind].
    destruct (IH _ _ _ _ _ _ _ _ HS1 H) as (Hi & m1' & E1 & HS2). split; [lia|]. exists m1'. split; [exact E1|]. apply span_ext; [lia|exact HS2].
  Qed.
  Lemma fill_drun_sync fuel : forall i len prev diff P m m' i' p' m1, sync P m m' -> fill_delta_run a (lo * step) step fuel i len prev diff m = Ok (i', p', m1) ->
    i <= i' /\ exists m1', fill_delta_run a (lo * step) step fuel i len prev diff m' = Ok (i', p', m1') /\ sync (union P (sec_span i i')) m1 m1'.
  Proof.
    induction fuel as [|k IH]; intros i len prev diff P m m' i' p' m1 HS H; cbn [fill_delta_run] in H |- *; destruct (len <=? 0) eqn:E; try discriminate.
    1,2: assert (i' = i /\ p' = prev /\ m1 = m) as (-> & -> & ->) by (repeat split; congruence); split; [lia|]; exists m'; split; [reflexivity|]; apply span_empty; [lia|exact HS].
    cbv zeta in H |- *. apply bind_ok in H. destruct H as (m2 & H1 & H). destruct (put_sync _ _ _ _ _ _ HS H1) as (m2' & -> & HS1). cbn [bind].
    destruct (IH _ _ _ _ _ _ _ _ _ _ HS1 H) as (Hi & m1' & E1 & HS2). split; [lia|]. exists m1'. split; [exact E1|]. apply span_ext; [lia|exact HS2].
  Qed.
  Lemma span_join P i k l m m' : sync (union (union P (sec_span i k)) (sec_span k l)) m m' -> sync (union P (sec_span i l)) m m'.
  Proof.
    apply sync_mono. intros x [Hx|(j & Hj & Hx)]; [left; now left|]. destruct (Z_lt_le_dec j k); [left; right|right]; exists j; (split; [lia|exact Hx]).
  Qed.
  Lemma dec_rle_sync fuel : forall r oi input P m m' input' m1, sync P m m' -> dec_rle a (lo * step) step npts fuel r oi input m = Ok (input', m1) ->
    exists m1', dec_rle a (lo * step) step npts fuel r oi input m' = Ok (input', m1') /\ sync (union P (sec_span oi npts)) m1 m1'.
  Proof.
    induction fuel as [|k IH]; intros r oi input P m m' input' m1 HS H; cbn [dec_rle] in H |- *; destruct (r <=? 0); try discriminate.
    1,2: destruct (oi =? npts) eqn:E; [|discriminate]; assert (input' = input /\ m1 = m) as (-> & ->) by (split; congruence); exists m'; split; [reflexivity|]; apply span_empty; [lia|exact HS].
    destruct (length input <? a_size a)%nat; [discriminate|]. cbv zeta in H |- *. apply bind_ok in H. destruct H as ([v rest] & E & H). rewrite E. cbn [bind].
    destruct (npts <? u64 (oi + v)); [discriminate|]. apply bind_ok in H. destruct H as ([oi' m2] & H2 & H).
    destruct (fill_run_sync _ _ _ _ _ _ _ _ _ HS H2) as (_ & m2' & E2 & HS1). assert (EL : length m' = length m) by apply HS. rewrite EL, E2. cbn [bind].
    destruct (IH _ _ _ _ _ _ _ _ HS1 H) as (m1' & E1 & HS2). exists m1'. split; [exact E1|]. eapply span_join; exact HS2.
  Qed.
  Lemma dec_drle_sync fuel : forall r oi prev input P m m' input' m1, sync P m m' -> dec_delta_rle a (lo * step) step npts fuel r oi prev input m = Ok (input', m1) ->
    exists m1', dec_delta_rle a (lo * step) step npts fuel r oi prev input m' = Ok (input', m1') /\ sync (union P (sec_span oi npts)) m1 m1'.
  Proof.
    induction fuel as [|k IH]; intros r oi prev input P m m' input' m1 HS H; cbn [dec_delta_rle] in H |- *; destruct (r <=? 0); try discriminate.
    1,2: destruct (oi =? npts) eqn:E; [|discriminate]; assert (input' = input /\ m1 = m) as (-> & ->) by (split; congruence); exists m'; split; [reflexivity|]; apply span_empty; [lia|exact HS].
    apply bind_ok in H. destruct H as ([d c] & Ed & H). rewrite Ed. cbn [bind]. apply bind_ok in H. destruct H as ([v rest] & E & H). rewrite E. cbn [bind].
    destruct (npts <? u64 (oi + v)); [discriminate|]. apply bind_ok in H. destruct H as ([[oi' p'] m2] & H2 & H).
    destruct (fill_drun_sync _ _ _ _ _ _ _ _ _ _ _ HS H2) as (_ & m2' & E2 & HS1). assert (EL : length m' = length m) by apply HS. rewrite EL, E2. cbn [bind].
    destruct (IH _ _ _ _ _ _ _ _ _ HS1 H) as (m1' & E1 & HS2). exists m1'. split; [exact E1|]. eapply span_join; exact HS2.
  Qed.
  Variable Hn0 : 0 <= npts.
  Lemma decode_section_sync P input m m' input' m1 : sync P m m' -> decode_section a (lo * step) step npts input m = Ok (input', m1) ->
    exists m1', decode_section a (lo * step) step npts input m' = Ok (input', m1') /\ sync (union P (sec_span 0 npts)) m1 m1'.
  Proof.
    intros HS H. unfold decode_section in H |- *. destruct input as [|mode input]; [discriminate|].
    destruct mode as [|[[q|q|]|[q|q|]|]|q]; try discriminate.
    - apply dec_delta_sync with (P := P) (m' := m') in H; [|exact HS]. rewrite Z2Nat.id, Z.add_0_l in H by lia. exact H.
    - apply bind_ok in H. destruct H as ([c i1] & E & H). rewrite E. cbn [bind]. eapply dec_drle_sync; eauto.
    - apply bind_ok in H. destruct H as ([c i1] & E & H). rewrite E. cbn [bind]. eapply dec_rle_sync; eauto.
    - apply bind_ok in H. destruct H as ([c i1] & E & H). rewrite E. cbn [bind]. destruct (c =? 0); [discriminate|]. apply bind_ok in H. destruct H as ([pal i2] & E2 & H). rewrite E2. cbn [bind].
      cbv zeta in H |- *. destruct (length i2 <? _)%nat; [discriminate|]. apply bind_ok in H. destruct H as (m2 & H1 & H).
      assert (input' = skipn (Z.to_nat ((bitsForPaletteIndex c * npts + 7) / 8)) i2 /\ m1 = m2) as (-> & ->) by (split; congruence).
      apply dec_indexes_sync with (P := P) (m' := m') in H1; [|exact HS]. rewrite Z2Nat.id, Z.add_0_l in H1 by lia. destruct H1 as (m1' & -> & HS1). cbn [bind]. exists m1'. split; [reflexivity|exact HS1].
  Qed.
End SectionSync.
Definition secs_places (afs : list afield) : list (Z * nat) := map (fun a => (a_off a, a_size a)) afs.
Lemma decode_sections_sync afs lo step npts : 0 <= npts -> forall P input m m' input' m1, sync P m m' ->
  decode_sections afs (lo * step) step npts input m = Ok (input', m1) ->
  exists m1', decode_sections afs (lo * step) step npts input m' = Ok (input', m1') /\ sync (union P (pts_places step (secs_places afs) lo npts)) m1 m1'.
Proof.
  intros Hn. induction afs as [|a afs IH]; intros P input m m' input' m1 HS H; cbn [decode_sections] in H |- *.
  - exists m'. assert (input' = input /\ m1 = m) as (-> & ->) by (split; congruence). split; [reflexivity|]. eapply sync_mono; [|exact HS]. intros x [Hx|(j & Hj & o & s & [] & _)]; exact Hx.
  - apply bind_ok in H. destruct H as ([i1 m2] & H1 & H). destruct (decode_section_sync _ _ _ _ Hn _ _ _ _ _ _ HS H1) as (m2' & -> & HS1). cbn [bind].
    destruct (IH _ _ _ _ _ _ HS1 H) as (m1' & E & HS2). exists m1'. split; [exact E|]. eapply sync_mono; [|exact HS2].
    intros x [Hx|(j & Hj & o & s & Hin & Hk & Hx)]; [left; now left|]. unfold secs_places in Hin. cbn [map] in Hin. destruct Hin as [Hin|Hin].
    + assert (o = a_off a /\ s = a_size a) as [-> ->] by (split; congruence). left. right. exists (j - lo). split; [lia|]. lia.
    + right. exists j. split; [exact Hj|]. exists o, s. auto.
Qed.

(** *** The declared fields are covered *)
Definition covered (ds : list fdec) (afs : list afield) (fs : list field) : Prop :=
  forall p, In p (field_places fs) -> In p (all_places ds) \/ In p (secs_places afs).
Lemma leading_covers i ds f : leading_decoder i = Ok ds -> In f (firstn (LeadingLossyFloatFieldCount i) (i_fields i)) -> In (f_off f, SizeOf (f_type f)) (all_places ds).
Proof.
  unfold leading_decoder. cbv zeta. destruct (_ =? 0)%nat eqn:E0; [intros _ Hf; apply Nat.eqb_eq in E0; rewrite E0 in Hf; contradiction|]. destruct (existsb _ _); [discriminate|].
  intros H Hf. match type of H with Ok ?v = _ => assert (ds = v) by congruence end. subst. unfold all_places. cbn. rewrite app_nil_r. unfold lanes_of. rewrite map_map. cbn [fst].
  pose proof (firstn_lossy_float (i_fields i) _ (lead_le i)) as HF. rewrite Forall_forall in HF. apply in_map_iff. exists f. rewrite (HF _ Hf). auto.
Qed.
Lemma updateDecoders_covers i ds minb : updateDecoders i = Ok (ds, minb) ->
  covered ds (if UsesV5Codec i then getV5AdaptiveFields i else []) (i_fields i).
Proof.
  unfold updateDecoders. destruct (UsesV5Codec i) eqn:EU; intros H p Hp; apply in_map_iff in Hp; destruct Hp as (f & <- & Hf).
  - apply bind_ok in H. destruct H as (ds' & H & E). assert (ds' = ds) by congruence. subst. unfold BuildV5Decoders in H.
    apply bind_ok in H. destruct H as (l & H1 & H). apply bind_ok in H. destruct H as (r & H2 & H). assert (ds = l ++ r) by congruence. subst.
    rewrite <- (firstn_skipn (LeadingLossyFloatFieldCount i) (i_fields i)) in Hf. apply in_app_or in Hf. destruct Hf as [Hf|Hf].
    + left. unfold all_places. rewrite flat_map_app. apply in_or_app. left. now apply (leading_covers i l f).
    + destruct (isV5AdaptiveIntType (f_type f)) eqn:Et.
      * right. unfold getV5AdaptiveFields. unfold UsesV5Codec in EU. apply andb_prop in EU. destruct EU as [EU _]. apply andb_prop in EU. destruct EU as [_ ->].
        unfold secs_places. rewrite map_map. apply in_map_iff. exists f. split; [reflexivity|]. apply filter_In. auto.
      * left. unfold all_places. rewrite flat_map_app. apply in_or_app. right. apply create_list_places in H2. unfold all_places in H2. rewrite H2.
        apply in_map_iff. exists f. split; [reflexivity|]. apply filter_In. rewrite Et. auto.
  - left. unfold BuildV4Decoders in H. destruct (i_enc i) eqn:EE.
    1: { cbv zeta in H. match type of H with Ok (?v, _) = _ => assert (ds = v) by congruence end. subst. unfold all_places. apply in_flat_map. eexists. split; [apply in_map_iff; exists f; split; [reflexivity|exact Hf]|]. now left. }
    all: apply bind_ok in H; destruct H as (l & H1 & H); apply bind_ok in H; destruct H as (r & H2 & H); cbv zeta in H; assert (ds = l ++ r) by congruence; subst;
      unfold all_places; rewrite flat_map_app; apply in_or_app; rewrite <- (firstn_skipn (LeadingLossyFloatFieldCount i) (i_fields i)) in Hf; apply in_app_or in Hf;
      (destruct Hf as [Hf|Hf]; [left; now apply (leading_covers i l f)|right]); apply create_list_places in H2; unfold all_places in H2; rewrite H2; apply in_map_iff; exists f; auto.
Qed.

(** *** Chunks and streams *)
Section Whole.
  Variables (ops : float_ops) (L : libs) (i : info).
  Lemma decodeChunk_sync ds minb chunk buf expected lo P a b buf' base' a' : updateDecoders i = Ok (ds, minb) -> (0 < expected)%nat -> sync P a b ->
    decodeChunk ops L i ds minb chunk buf expected (lo * i_step i) a = Ok (buf', base', a') ->
    base' = (lo + Z.of_nat expected) * i_step i /\ exists b', decodeChunk ops L i ds minb chunk buf expected (lo * i_step i) b = Ok (buf', base', b') /\
    sync (union P (pts_places (i_step i) (PL i) lo (Z.of_nat expected))) a' b'.
  Proof.
    intros HD He HS H. pose proof (updateDecoders_covers _ _ _ HD) as HC.
    unfold decodeChunk in H |- *. cbv zeta in H |- *. apply bind_ok in H. destruct H as ([view b1] & E & H). rewrite E. cbn [bind]. destruct (UsesV5Codec i) eqn:EU.
    - apply bind_ok in H. destruct H as ([b2 m2] & H1 & H). assert (buf' = b1 /\ base' = b2 /\ a' = m2) as (-> & -> & ->) by (repeat split; congruence).
      unfold DecodeV5Stage1Chunk in H1 |- *. replace (expected =? 0)%nat with false in H1 |- * by lia. cbv zeta in H1 |- *.
      assert (EZ : zlen b = zlen a) by (unfold zlen; destruct HS as [-> _]; reflexivity). rewrite EZ. destruct (zlen a - lo * i_step i <? Z.of_nat expected * i_step i) eqn:EC; [discriminate|].
      apply bind_ok in H1. destruct H1 as ([i1 m1] & H2 & H1). apply bind_ok in H1. destruct H1 as ([i2 m3] & H3 & H1).
      destruct i2; [|discriminate]. assert (b2 = lo * i_step i + Z.of_nat expected * i_step i /\ m2 = m3) as [-> ->] by (split; congruence).
      destruct (dec_points_v5_sync _ _ _ _ _ _ _ _ _ _ _ _ HS H2) as (n1 & -> & HS1). cbn [bind].
      apply decode_sections_sync with (P := union P (pts_places (i_step i) (all_places ds) lo (Z.of_nat expected))) (m' := n1) in H3; [|lia|exact HS1]. destruct H3 as (n3 & -> & HS3). cbn [bind]. split; [lia|]. exists n3. split; [reflexivity|].
      eapply sync_mono; [|exact HS3]. intros x [Hx|(j & Hj & o & s & Hin & Hk & Hx)]; [left; now left|]. destruct (HC _ Hin) as [Hp|Hp].
      + left. right. exists j. split; [exact Hj|]. exists o, s. auto.
      + right. exists j. split; [exact Hj|]. exists o, s. auto.
    - apply bind_ok in H. destruct H as ([[i1 b2] m2] & H1 & H). assert (buf' = b1 /\ base' = b2 /\ a' = m2) as (-> & -> & ->) by (repeat split; congruence).
      unfold DecodeV4Stage1Chunk in H1 |- *. replace (0 <? expected)%nat with true in H1 |- * by lia.
      destruct (dec_points_v4_sync _ _ _ _ _ _ _ _ _ _ _ _ _ _ HS H1) as (n1 & -> & HS1). cbn [bind]. apply dec_points_v4_conf in H1. destruct H1 as [E1 _]. split; [exact E1|].
      exists n1. split; [reflexivity|]. eapply sync_mono; [|exact HS1]. intros x [Hx|(j & Hj & o & s & Hin & Hk & Hx)]; [now left|]. destruct (HC _ Hin) as [Hp|[]].
      right. exists j. split; [exact Hj|]. exists o, s. auto.
  Qed.
  Lemma dec_loop_sync ppc ds minb (Hppc : (0 < ppc)%nat) : updateDecoders i = Ok (ds, minb) -> forall fuel data buf points lo P a b buf' a',
    0 <= points -> sync P a b ->
    dec_loop ops L ppc i ds minb fuel data buf points (lo * i_step i) a = Ok (buf', a') ->
    exists b', dec_loop ops L ppc i ds minb fuel data buf points (lo * i_step i) b = Ok (buf', b') /\ sync (union P (pts_places (i_step i) (PL i) lo points)) a' b'.
  Proof.
    intros HD. induction fuel as [|k IH]; intros data buf points lo P a b buf' a' Hp HS H; cbn [dec_loop] in H |- *; (destruct data as [|b0 data]; [|try discriminate]).
    1,2: destruct (points =? 0) eqn:E0; [|discriminate]; assert (buf' = buf /\ a' = a) as (-> & ->) by (split; congruence); exists b; split; [reflexivity|];
      eapply sync_mono; [|exact HS]; intros x [Hx|(j & Hj & _)]; [exact Hx|lia].
    destruct (points =? 0) eqn:E0; [discriminate|]. apply bind_ok in H. destruct H as ([size d1] & E & H). rewrite E. cbn [bind]. destruct (zlen d1 <? size); [discriminate|]. cbv zeta in H |- *.
    apply bind_ok in H. destruct H as ([[b1 base1] m1] & H1 & H). apply decodeChunk_sync with (P := P) (b := b) in H1; [|exact HD|lia|exact HS]. destruct H1 as (-> & n1 & -> & HS1). cbn [bind].
    rewrite Z2Nat.id in * by lia. pose proof (fun q => IH _ _ _ _ _ _ _ _ _ q HS1 H) as IH'. destruct IH' as (b' & E2 & HS2); [lia|]. exists b'. split; [exact E2|]. eapply sync_mono; [|exact HS2].
    intros x [Hx|(j & Hj & Hx)]; [left; now left|]. destruct (Z_lt_le_dec j (lo + Z.min points (Z.of_nat ppc))); [left; right|right]; exists j; (split; [lia|exact Hx]).
  Qed.
  Lemma decode_sync ppc data buf a b buf' a' : (0 < ppc)%nat -> 3 <= i_version i -> length b = length a ->
    decode ops L ppc i data buf a = Ok (buf', a') ->
    exists b', decode ops L ppc i data buf b = Ok (buf', b') /\ sync (pts_places (i_step i) (PL i) 0 (u64 (i_width i * i_height i))) a' b'.
  Proof.
    intros Hppc Hv HL H. unfold decode in H |- *. apply bind_ok in H. destruct H as ([ds minb] & HD & H). rewrite HD. cbn [bind]. destruct (has_magic data); [discriminate|].
    destruct (3 <=? i_version i) eqn:E; [|lia]. change 0 with (0 * i_step i) in H |- * at 1. apply (dec_loop_sync ppc ds minb Hppc HD _ _ _ _ _ (fun _ => False) a b) in H; [| |split; [exact HL|intros ? ? []]].
    - destruct H as (b' & E2 & HS). exists b'. split; [exact E2|]. eapply sync_mono; [|exact HS]. intros x Hx. now right.
    - unfold u64. lia.
  Qed.
End Whole.
