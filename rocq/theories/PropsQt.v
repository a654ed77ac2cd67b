(** C80: the desktop application. *)
From Verif Require Import Base BaseFacts Types Floats Codec Api Header Cdr Ros RosViz Mcap PropsMcap QtApp.
From Coq Require Import String.
Open Scope Z_scope.
Open Scope list_scope.
Notation length := List.length.

(** * Specification *)
(** What the application makes of a message: topic, encodings, numbers and payload are as they were;
    only the name and the text of the schema change, and only for the kind of cloud that is converted. *)
Definition relabelled (ctext : list Z) (encode : bool) (a b : option seen) : Prop :=
  exists x y, a = Some x /\ b = Some y /\
    x_topic y = x_topic x /\ x_enc y = x_enc x /\ x_senc y = x_senc x /\ x_seq y = x_seq x /\ x_log y = x_log x /\ x_pub y = x_pub x /\ x_data y = x_data x /\
    if list_eq_dec Z.eq_dec (x_sname x) (if encode then pointcloud_schema_name else compressed_schema_name)
    then (if encode then x_sname y = compressed_schema_name /\ x_sdata y = ctext else x_sname y = pointcloud_schema_name /\ x_sdata y = pointcloud_schema_name)
    else x_sname y = x_sname x /\ x_sdata y = x_sdata x.
(** A user who does not cancel the open dialog before a first file is loaded, opens well-formed
    recordings, and does not press Encode or Decode while a save is in progress. *)
Definition allowed (w : window) (e : event) : Prop :=
  match e with
  | Load PickCancel => w_reader w <> None
  | Load (PickRec rec) => well_formed rec
  | Press _ _ => w_stack w = []
  | _ => True
  end.
Fixpoint careful (ctext : list Z) (w : window) (es : list event) : Prop :=
  match es with
  | [] => True
  | e :: es' => allowed w e /\ forall w', step ctext w e = Ok w' -> careful ctext w' es'
  end.

(** * Proofs *)
Section Qt.
  Variable ctext : list Z.
  Notation qname := (converted_name). Notation cvt := (fun d : list Z => @Ok (list Z) d).

  Lemma qt_schema_eq encode s id : qt_schema ctext encode s id = Mcap.new_schema pointcloud_schema_name ctext encode s id.
  Proof.
    unfold qt_schema, Mcap.new_schema. destruct encode; cbn [andb negb].
    - destruct (leqb (s_name s) pointcloud_schema_name); reflexivity.
    - destruct (leqb (s_name s) compressed_schema_name); reflexivity.
  Qed.
  Lemma qt_schemas_eq encode : forall l n, qt_schemas ctext encode l n = Mcap.add_schemas pointcloud_schema_name ctext encode l n.
  Proof. induction l as [|s l IH]; intros n; [reflexivity|]. cbn [qt_schemas Mcap.add_schemas]. rewrite IH. destruct (add_schemas _ _ _ _ _). now rewrite qt_schema_eq. Qed.

  (** the message as the loop writes it *)
  Definition copied (cmap : list (Z * Z)) (m m' : message) : Prop :=
    at_ cmap (m_chan m) = Ok (m_chan m') /\ m_seq m' = m_seq m /\ m_log m' = m_log m /\ m_pub m' = m_pub m /\ m_data m' = m_data m.

  Lemma relabelled_of encode a b : converted pointcloud_schema_name ctext encode cvt a b -> relabelled ctext encode a b.
  Proof.
    intros (x & y & E1 & E2 & H1 & H2 & H3 & H4 & H5 & H6 & H7). exists x, y. do 8 (split; [assumption|]).
    unfold converted_name, converted_to in H7. destruct encode.
    - destruct (list_eq_dec Z.eq_dec (x_sname x) pointcloud_schema_name).
      + destruct H7 as [A B]. split; [congruence|]. split; congruence.
      + destruct H7 as (A & B & C). split; [assumption|]. split; assumption.
    - destruct (list_eq_dec Z.eq_dec (x_sname x) compressed_schema_name).
      + destruct H7 as [A B]. split; [congruence|]. split; congruence.
      + destruct H7 as (A & B & C). split; [assumption|]. split; assumption.
  Qed.

  Definition with_messages (rec : recording) (l : list message) : recording := mkRec (rc_schemas rec) (rc_channels rec) l (rc_metadata rec) (rc_attachments rec).
  Lemma wf_prefix rec l : well_formed rec -> (forall m, In m l -> In m (rc_messages rec)) -> well_formed (with_messages rec l).
  Proof. intros (W1 & W2 & W3 & W4 & W5 & W6) H. unfold well_formed, with_messages. cbn [rc_schemas rc_channels rc_messages]. do 5 (split; [assumption|]). auto. Qed.

  Lemma convert_copied rec cmap name : well_formed rec -> forall l done, (forall m, In m l -> In m (rc_messages rec)) -> Forall2 (copied cmap) l done ->
    forall rec', rc_schemas rec' = rc_schemas rec -> rc_channels rec' = rc_channels rec -> convert_messages rec' cmap name cvt l = Ok done.
  Proof.
    intros (W1 & W2 & W3 & W4 & W5 & W6) l done Hl HF rec' E1 E2. revert Hl. induction HF as [|m m' l done (H1 & H2 & H3 & H4 & H5) HF IH]; intros Hl; cbn [convert_messages]; [reflexivity|].
    rewrite H1. cbn [bind]. rewrite E1, E2. destruct (find_channel_in _ _ (W6 m (Hl m (or_introl eq_refl)))) as (c & -> & Ic & _). destruct (find_schema_in _ _ (W5 c Ic)) as (s & -> & _).
    replace (if leqb (s_name s) name then Ok (m_data m) else Ok (m_data m)) with (Ok (m_data m)) by (destruct (leqb _ _); reflexivity). cbn [bind]. rewrite IH by (intros x Hx; apply Hl; now right). cbn [bind].
    destruct m' as [a b c' d e]. cbn [m_chan m_seq m_log m_pub m_data] in *. subst. reflexivity.
  Qed.

  (** What a save starts with, for a well-formed recording. *)
  Definition opened (encode : bool) (rec : recording) (sv : saving) : Prop :=
    exists smap, qt_schemas ctext encode (rc_schemas rec) 0 = (sv_schemas sv, smap) /\ add_channels smap (rc_channels rec) 0 = Ok (sv_channels sv, sv_cmap sv).
  Lemma opening encode rec : well_formed rec -> exists schemas smap channels cmap, qt_schemas ctext encode (rc_schemas rec) 0 = (schemas, smap) /\ add_channels smap (rc_channels rec) 0 = Ok (channels, cmap) /\
    forall m, In m (rc_messages rec) -> exists id, at_ cmap (m_chan m) = Ok id.
  Proof.
    intros (W1 & W2 & W3 & W4 & W5 & W6). destruct (qt_schemas ctext encode (rc_schemas rec) 0) as [schemas smap] eqn:ES. exists schemas, smap. pose proof ES as ES'. rewrite qt_schemas_eq in ES'.
    destruct (add_schemas_spec _ _ _ _ _ _ _ ES' (Z.le_refl 0) ltac:(lia) W1) as (S1 & S2 & S3 & S4 & S5).
    assert (HS : forall c, In c (rc_channels rec) -> exists sid, lookup smap (ch_schema c) = Some sid).
    { intros c Hc. destruct (find_schema_in _ _ (W5 c Hc)) as (s & Hs & _). destruct (S5 _ _ Hs) as (id & Hid & _). eauto. }
    destruct (add_channels_spec smap (rc_channels rec) 0 (Z.le_refl 0) ltac:(lia) W2 HS) as (channels & cmap & EC & C0 & C1 & C2 & C3 & C4 & C5).
    exists channels, cmap. split; [reflexivity|]. split; [exact EC|]. intros m Hm. destruct (find_channel_in _ _ (W6 m Hm)) as (c & Fc & _). destruct (C5 _ _ Fc) as (id & sid & L1 & _). exists id. unfold at_. now rewrite L1.
  Qed.
  Lemma saved_contents encode rec sv l : well_formed rec -> opened encode rec sv -> (forall m, In m l -> In m (rc_messages rec)) -> Forall2 (copied (sv_cmap sv)) l (sv_done sv) ->
    Forall2 (relabelled ctext encode) (map (describe rec) l) (contents (mkRec (sv_schemas sv) (sv_channels sv) (sv_done sv) [] [])) /\ map ch_topic (sv_channels sv) = map ch_topic (rc_channels rec).
  Proof.
    intros W (smap & E1 & E2) Hl HF. pose proof (wf_prefix rec l W Hl) as W'.
    destruct (convert_spec pointcloud_schema_name ctext encode cvt (with_messages rec l) W' ltac:(eauto)) as (out & HO & _ & HF2 & HT & _).
    unfold Mcap.convert_recording in HO. cbn [with_messages rc_schemas rc_channels rc_messages rc_metadata] in HO. destruct (check_schemas _ _); try discriminate. cbn [bind] in HO.
    rewrite <- qt_schemas_eq, E1 in HO. rewrite E2 in HO. cbn [bind] in HO. rewrite (convert_copied rec (sv_cmap sv) (converted_name encode) W l (sv_done sv) Hl HF (with_messages rec l) eq_refl eq_refl) in HO. cbn [bind] in HO.
    assert (EO : out = mkRec (sv_schemas sv) (sv_channels sv) (sv_done sv) (rc_metadata rec) []) by congruence. subst out. split; [|exact HT].
    unfold contents in *. cbn [rc_messages] in *. rewrite <- (map_ext (describe (with_messages rec l)) (describe rec) (fun m => eq_refl)).
    rewrite (map_ext (describe (mkRec (sv_schemas sv) (sv_channels sv) (sv_done sv) [] [])) (describe (mkRec (sv_schemas sv) (sv_channels sv) (sv_done sv) (rc_metadata rec) [])) (fun m => eq_refl)).
    cbn [with_messages rc_messages] in HF2. fold (with_messages rec l) in HF2. clear - HF2.
    induction HF2; constructor; [now apply relabelled_of|assumption].
  Qed.

  (** *** The invariant of careful histories *)
  Definition saved_ok (es : list event) (out : recording) : Prop :=
    exists rec encode k, In (Load (PickRec rec)) es /\ Forall2 (relabelled ctext encode) (firstn k (contents rec)) (contents out) /\ map ch_topic (rc_channels out) = map ch_topic (rc_channels rec) /\
      (~ In WriteError es -> length (contents rec) <= k)%nat.
  Definition in_save (id : Z) (rec : recording) (sv : saving) : Prop :=
    exists encode, opened encode rec sv /\
      match sv_bound sv with
      | None => sv_done sv = []
      | Some (id', l) => id' = id /\ exists d, rc_messages rec = d ++ l /\ Forall2 (copied (sv_cmap sv)) d (sv_done sv)
      end.
  Definition inv (es : list event) (w : window) : Prop :=
    (match w_reader w with
     | None => w_encode w = false /\ w_decode w = false /\ w_stack w = []
     | Some (id, rec) => well_formed rec /\ In (Load (PickRec rec)) es /\
         (w_encode w = true -> has_schema pointcloud_schema_name rec = true) /\ (w_decode w = true -> has_schema compressed_schema_name rec = true) /\
         (w_stack w = [] \/ exists sv, w_stack w = [sv] /\ w_load w = false /\ in_save id rec sv)
     end) /\ Forall (saved_ok es) (w_saved w).
  Lemma saved_ok_more es e out : saved_ok es out -> (e = WriteError -> False) -> saved_ok (es ++ [e]) out.
  Proof. intros (rec & encode & k & H1 & H2 & H3 & H4) HE. exists rec, encode, k. split; [apply in_or_app; now left|]. split; [exact H2|]. split; [exact H3|]. intros HN. apply H4. intros Hi. apply HN. apply in_or_app. now left. Qed.
  Lemma saved_ok_error es out : saved_ok es out -> saved_ok (es ++ [WriteError]) out.
  Proof. intros (rec & encode & k & H1 & H2 & H3 & H4). exists rec, encode, k. split; [apply in_or_app; now left|]. split; [exact H2|]. split; [exact H3|]. intros HN. exfalso. apply HN. apply in_or_app. right. now left. Qed.
  Lemma saved_ok_app es e out : saved_ok es out -> saved_ok (es ++ [e]) out.
  Proof. intros H. destruct e; try (apply saved_ok_more; [exact H|discriminate]). now apply saved_ok_error. Qed.
  Lemma inv_weak es e w : inv es w -> inv (es ++ [e]) w.
  Proof.
    intros [H1 H2]. split; [|eapply Forall_impl; [|exact H2]; intros a Ha; now apply saved_ok_app]. destruct (w_reader w) as [[id rec]|]; [|exact H1].
    destruct H1 as (A & B & C). split; [exact A|]. split; [apply in_or_app; now left|exact C].
  Qed.

  Lemma inv_load es w p : inv es w -> allowed w (Load p) -> exists w', click_load w p = Ok w' /\ inv (es ++ [Load p]) w'.
  Proof.
    intros HI HA. unfold click_load. destruct (w_load w) eqn:EL; cbn [negb]; [|exists w; split; [reflexivity|now apply inv_weak]].
    assert (ST : w_stack w = []). { destruct HI as [HI _]. destruct (w_reader w) as [[id rec]|]; [|tauto]. destruct HI as (_ & _ & _ & _ & [E|(sv & _ & F & _)]); [exact E|congruence]. }
    assert (SV : Forall (saved_ok (es ++ [Load p])) (w_saved w)) by (destruct HI as [_ HI]; eapply Forall_impl; [|exact HI]; intros a Ha; now apply saved_ok_app).
    assert (SR : forall r next, well_formed (snd r) -> In (Load (PickRec (snd r))) (es ++ [Load p]) -> exists w', show_reader w r next = Ok w' /\ inv (es ++ [Load p]) w').
    { intros [id rec] next W Hin. cbn [snd] in *. unfold show_reader. cbn [snd]. rewrite check_ok by apply W. cbn [bind]. eexists. split; [reflexivity|]. split; [|exact SV]. cbn [w_reader w_encode w_decode w_stack].
      split; [exact W|]. split; [exact Hin|]. split; [auto|]. split; [auto|]. now left. }
    destruct p as [| |rec]; cbn [allowed] in HA.
    - destruct (w_reader w) as [[id rec]|] eqn:ER; [|contradiction]. destruct HI as [HI _]. rewrite ER in HI. destruct HI as (W & Hin & _). apply SR; [exact W|]. apply in_or_app. now left.
    - eexists. split; [reflexivity|]. split; [|exact SV]. cbn [w_reader w_encode w_decode w_stack]. auto.
    - apply SR; [exact HA|]. apply in_or_app. right. now left.
  Qed.
  Lemma inv_press es w encode s : inv es w -> w_stack w = [] -> exists w', click_save ctext w encode s = Ok w' /\ inv (es ++ [Press encode s]) w'.
  Proof.
    intros HI HS. unfold click_save. destruct (if encode then w_encode w else w_decode w) eqn:EB; cbn [negb]; [|exists w; split; [reflexivity|now apply inv_weak]].
    apply (inv_weak _ (Press encode s)) in HI. destruct HI as [HI SV]. destruct (w_reader w) as [[id rec]|] eqn:ER; [|destruct HI as (A & B & _); destruct encode; congruence].
    destruct HI as (W & Hin & HE & HD & _).
    assert (OFF : inv (es ++ [Press encode s]) (mkWin (Some (id, rec)) (w_next w) false (w_encode w) (w_decode w) (w_stack w) (w_saved w))).
    { split; [|exact SV]. cbn [w_reader w_encode w_decode w_stack]. do 4 (split; [assumption|]). now left. }
    destruct s; [eexists; split; [reflexivity|exact OFF]..|].
    destruct (opening encode rec W) as (schemas & smap & channels & cmap & E1 & E2 & _). rewrite E1, E2. cbn [bind]. eexists. split; [reflexivity|]. split; [|exact SV]. cbn [w_reader w_encode w_decode w_stack w_load].
    do 4 (split; [assumption|]). right. rewrite HS. eexists. split; [reflexivity|]. split; [reflexivity|]. exists encode. split; [exists smap; split; assumption|]. reflexivity.
  Qed.
  Lemma inv_finish es e w id rec sv k : well_formed rec -> inv es w -> w_reader w = Some (id, rec) -> In (Load (PickRec rec)) es -> forall encode d l, opened encode rec sv -> rc_messages rec = d ++ l -> Forall2 (copied (sv_cmap sv)) d (sv_done sv) ->
    (k = length d)%nat -> (~ In WriteError (es ++ [e]) -> l = []) -> inv (es ++ [e]) (finish w sv []).
  Proof.
    intros W HI ER Hin encode d l HO EM HF Ek HL. destruct (saved_contents encode rec sv d W HO ltac:(intros m Hm; rewrite EM; apply in_or_app; now left) HF) as [HC HT].
    unfold finish. split; cbn [w_reader w_encode w_decode w_stack w_saved].
    - rewrite ER. split; [exact W|]. split; [apply in_or_app; now left|]. split; [discriminate|]. split; [discriminate|]. now left.
    - apply Forall_app. split; [destruct HI as [_ HI]; eapply Forall_impl; [|exact HI]; intros a Ha; now apply saved_ok_app|]. constructor; [|constructor].
      exists rec, encode, (length d). split; [apply in_or_app; now left|]. split; [|split; [exact HT|]].
      + unfold contents at 1. rewrite EM, map_app, firstn_app, map_length, Nat.sub_diag, firstn_O, app_nil_r, firstn_all2 by (rewrite map_length; apply Nat.le_refl). exact HC.
      + intros HN. unfold contents. rewrite map_length, EM, (HL HN), app_nil_r. apply Nat.le_refl.
  Qed.
  Lemma inv_advance es w err : inv es w -> exists w', advance w err = Ok w' /\ inv (es ++ [if err then WriteError else Advance]) w'.
  Proof.
    intros HI. unfold advance. destruct (w_stack w) as [|sv rest] eqn:ES; [exists w; split; [reflexivity|now apply inv_weak]|].
    pose proof HI as [HR SV]. destruct (w_reader w) as [[id rec]|] eqn:ER; [|destruct HR as (_ & _ & HR); congruence]. destruct HR as (W & Hin & HE & HD & [HN|(sv' & E' & EL & encode & HO & HB)]); [congruence|].
    assert (sv' = sv) by congruence. assert (rest = []) by congruence. subst sv' rest.
    assert (SV' : Forall (saved_ok (es ++ [if err then WriteError else Advance])) (w_saved w)) by (eapply Forall_impl; [|exact SV]; intros a Ha; now apply saved_ok_app).
    destruct (sv_bound sv) as [[id' l]|] eqn:EB.
    - destruct HB as (-> & d & EM & HF). unfold alive. rewrite ER, Z.eqb_refl. cbn [negb]. destruct l as [|m l].
      + eexists. split; [reflexivity|]. eapply inv_finish; eauto.
      + destruct (opening encode rec W) as (schemas & smap & channels & cmap & E1 & E2 & HM). destruct HO as (smap' & E1' & E2'). assert (smap' = smap) by congruence. subst smap'. assert (cmap = sv_cmap sv) by congruence. subst cmap.
        destruct (HM m ltac:(rewrite EM; apply in_or_app; right; now left)) as (cid & EC). rewrite EC. cbn [bind]. destruct err.
        * eexists. split; [reflexivity|]. eapply inv_finish; eauto. { exists smap; split; eauto. } intros HN. exfalso. apply HN. apply in_or_app. right. now left.
        * eexists. split; [reflexivity|]. split; [|exact SV']. cbn [w_reader w_encode w_decode w_stack w_load]. split; [exact W|]. split; [apply in_or_app; now left|]. split; [exact HE|]. split; [exact HD|]. right. eexists. split; [reflexivity|]. split; [exact EL|].
          exists encode. split; [exists smap; split; assumption|]. cbn [sv_bound sv_cmap sv_done]. split; [reflexivity|]. exists (d ++ [m]). split; [rewrite EM, <- app_assoc; reflexivity|]. apply Forall2_app; [exact HF|]. constructor; [|constructor].
          unfold copied. cbn [m_chan m_seq m_log m_pub m_data]. rewrite EC. auto.
    - eexists. split; [reflexivity|]. split; [|exact SV']. cbn [w_reader w_encode w_decode w_stack w_load]. split; [exact W|]. split; [apply in_or_app; now left|]. split; [exact HE|]. split; [exact HD|]. right. eexists. split; [reflexivity|]. split; [exact EL|].
      exists encode. destruct HO as (smap & E1 & E2). split; [exists smap; split; assumption|]. cbn [sv_bound sv_cmap sv_done]. split; [reflexivity|]. exists []. split; [reflexivity|]. rewrite HB. constructor.
  Qed.
  Lemma inv_step es w e : inv es w -> allowed w e -> exists w', step ctext w e = Ok w' /\ inv (es ++ [e]) w'.
  Proof.
    intros HI HA. destruct e as [p|encode s| |]; cbn [step].
    - destruct (listening w); [now apply inv_load|exists w; split; [reflexivity|now apply inv_weak]].
    - destruct (listening w); [now apply inv_press|exists w; split; [reflexivity|now apply inv_weak]].
    - exact (inv_advance es w false HI).
    - exact (inv_advance es w true HI).
  Qed.
  Lemma inv_run : forall es es0 w, inv es0 w -> careful ctext w es -> exists w', history ctext w es = Ok w' /\ inv (es0 ++ es) w'.
  Proof.
    induction es as [|e es IH]; intros es0 w HI HC; cbn [history].
    - exists w. rewrite app_nil_r. auto.
    - destruct HC as [HA HC]. destruct (inv_step es0 w e HI HA) as (w' & E & HI'). rewrite E. cbn [bind]. destruct (IH _ _ HI' (HC w' E)) as (w2 & H1 & H2). exists w2. split; [exact H1|]. now rewrite <- app_assoc in H2.
  Qed.

  (** A careful session never crashes.  Every file it writes holds the messages of a recording the
      user had opened, in order and with unchanged topics, times and payloads - all of them, unless a
      write failed, and then the first ones.  Encode is offered only while a recording with a
      PointCloud2 topic is loaded, Decode only with a compressed one, and the recording being
      saved is not replaced while it is saved. *)
  Theorem C80_sessions es : careful ctext fresh_window es -> exists w, history ctext fresh_window es = Ok w /\
    Forall (fun out => exists rec encode k, In (Load (PickRec rec)) es /\ Forall2 (relabelled ctext encode) (firstn k (contents rec)) (contents out) /\ map ch_topic (rc_channels out) = map ch_topic (rc_channels rec) /\
      (~ In WriteError es -> length (contents rec) <= k)%nat) (w_saved w) /\
    (w_encode w = true -> exists id rec, w_reader w = Some (id, rec) /\ has_schema pointcloud_schema_name rec = true) /\
    (w_decode w = true -> exists id rec, w_reader w = Some (id, rec) /\ has_schema compressed_schema_name rec = true) /\
    (w_stack w <> [] -> w_load w = false).
  Proof.
    intros HC. destruct (inv_run es [] fresh_window) as (w & HW & HI); [split; [cbn; auto|constructor]|exact HC|]. cbn [app] in HI. exists w. split; [exact HW|]. destruct HI as [HI SV]. split; [exact SV|].
    destruct (w_reader w) as [[id rec]|].
    - destruct HI as (_ & _ & HE & HD & HS). split; [intros E; exists id, rec; auto|]. split; [intros E; exists id, rec; auto|]. intros HN. destruct HS as [E|(sv & _ & E & _)]; [contradiction|exact E].
    - destruct HI as (A & B & C). split; [congruence|]. split; [congruence|]. contradiction.
  Qed.

  Lemma loop_all rec id : well_formed rec -> forall encode l d sv w, opened encode rec sv -> rc_messages rec = d ++ l -> Forall2 (copied (sv_cmap sv)) d (sv_done sv) -> sv_bound sv = Some (id, l) ->
    w_reader w = Some (id, rec) -> w_stack w = [sv] ->
    exists done, history ctext w (repeat Advance (length l + 1)) = Ok (mkWin (w_reader w) (w_next w) true false false [] (w_saved w ++ [mkRec (sv_schemas sv) (sv_channels sv) done [] []])) /\ Forall2 (copied (sv_cmap sv)) (rc_messages rec) done.
  Proof.
    intros W encode. induction l as [|m l IH]; intros d sv w HO EM HF EB ER ES.
    - exists (sv_done sv). cbn [length Nat.add repeat history step]. unfold advance, alive. rewrite ES, EB, ER, Z.eqb_refl. cbn [negb bind history]. unfold finish. rewrite ER. split; [reflexivity|]. now rewrite EM, app_nil_r.
    - cbn [length Nat.add repeat history step]. unfold advance, alive. rewrite ES, EB, ER, Z.eqb_refl. cbn [negb].
      destruct (opening encode rec W) as (schemas & smap & channels & cmap & E1 & E2 & HM). pose proof HO as (smap' & E1' & E2'). assert (smap' = smap) by congruence. subst smap'. assert (cmap = sv_cmap sv) by congruence. subst cmap.
      destruct (HM m ltac:(rewrite EM; apply in_or_app; right; now left)) as (cid & EC). rewrite EC. cbn [bind].
      match goal with |- context [history ctext ?w' _] => set (w1 := w') end.
      match goal with w1 := context [mkSaving ?a ?b ?c ?d' ?e] |- _ => set (sv1 := mkSaving a b c d' e) in * end.
      destruct (IH (d ++ [m]) sv1 w1) as (done & HH & HD).
      + exists smap. split; assumption.
      + rewrite EM, <- app_assoc. reflexivity.
      + apply Forall2_app; [exact HF|]. constructor; [|constructor]. split; [exact EC|auto].
      + reflexivity.
      + reflexivity.
      + reflexivity.
      + exists done. split; [exact HH|exact HD].
  Qed.
  (** One undisturbed save, from any window with nothing in progress: the whole recording is written,
      relabelled, and the window is left ready to load another one. *)
  Theorem C80_save w id rec (encode : bool) : well_formed rec -> w_stack w = [] -> w_reader w = Some (id, rec) -> (if encode then w_encode w else w_decode w) = true ->
    exists out, history ctext w (Press encode SaveOpen :: repeat Advance (length (rc_messages rec) + 2)) = Ok (mkWin (Some (id, rec)) (w_next w) true false false [] (w_saved w ++ [out])) /\
      Forall2 (relabelled ctext encode) (contents rec) (contents out) /\ map ch_topic (rc_channels out) = map ch_topic (rc_channels rec).
  Proof.
    intros W ES ER EB. replace (length (rc_messages rec) + 2)%nat with (S (length (rc_messages rec) + 1)) by lia. cbn [repeat history step]. unfold listening. rewrite ES. unfold click_save. rewrite EB. cbn [negb]. rewrite ER.
    destruct (opening encode rec W) as (schemas & smap & channels & cmap & E1 & E2 & HM). rewrite E1, E2. cbn [bind]. unfold advance at 1. rewrite ES. cbn [w_stack sv_bound w_reader bind].
    match goal with |- context [history ctext ?w' _] => set (w1 := w') end.
    pose (sv1 := mkSaving schemas channels cmap (Some (id, rc_messages rec)) []).
    assert (HO : opened encode rec sv1) by (exists smap; split; assumption).
    destruct (loop_all rec id W encode (rc_messages rec) [] sv1 w1 HO eq_refl ltac:(constructor) eq_refl eq_refl eq_refl) as (done & HH & HD).
    rewrite HH. exists (mkRec schemas channels done [] []). split; [reflexivity|].
    assert (HO2 : opened encode rec (mkSaving schemas channels cmap None done)) by (exists smap; split; assumption).
    exact (saved_contents encode rec (mkSaving schemas channels cmap None done) (rc_messages rec) W HO2 (fun m h => h) HD).
  Qed.
End Qt.

(** * What the application does not do *)
From Verif Require Import LibSpec ApiFacts Cases FloatText PropsRos.
Definition qt_history (es : list event) : res window := history [7] fresh_window es.
(** [example_rec] has two PointCloud2 topics; a careful session that saves it, with a click that the
    disabled Load button ignores, and a second one whose disk fills up. *)
Definition session1 : list event := [Load (PickRec example_rec); Load PickCancel; Press true SaveOpen; Advance; Advance; Load (PickRec example_rec)] ++ List.repeat Advance 5.
Definition session2 : list event := session1 ++ [Load (PickRec example_rec); Press true SaveOpen; Advance; Advance; Advance; WriteError].
Ltac careful_tac := cbn [careful allowed]; repeat match goal with
  | |- True => exact I
  | |- _ /\ _ => split
  | |- forall _, _ -> _ => let E := fresh in intros ? E; vm_compute in E; match type of E with Ok ?a = Ok ?b => assert (a = b) by congruence; subst; clear E | _ => congruence end; cbn [careful allowed]
  | |- well_formed _ => exact example_wf
  | |- _ = _ => reflexivity
  | |- _ <> None => discriminate
  end.
Example C80_sessions_case : careful [7] fresh_window session2 /\ exists w a b, qt_history session2 = Ok w /\ w_saved w = [a; b] /\
  map (option_map x_data) (contents a) = [Some [1]; Some [2]; Some [3]; Some [4]; Some [5]] /\ map (option_map x_data) (contents b) = [Some [1]; Some [2]] /\
  map (option_map x_sname) (contents b) = [Some compressed_schema_name; Some (str "std_msgs/msg/String"%string)].
Proof.
  split; [unfold session2, session1; cbn [app List.repeat]; careful_tac|]. eexists _, _, _. split; [vm_compute; reflexivity|]. split; [reflexivity|]. split; [vm_compute; reflexivity|]. split; vm_compute; reflexivity.
Qed.

(** Pressing Encode again while a save runs starts a second save inside the first; when it ends, Load
    is enabled although the first save still reads the file, and loading another recording destroys
    the reader under it. *)
Theorem C80_reentrant_refuted : exists es, (forall e, In e es -> match e with Load (PickRec rec) => well_formed rec | Load _ => False | WriteError => False | Press _ s => s = SaveOpen | Advance => True end) /\ qt_history es = UB.
Proof.
  exists ([Load (PickRec example_rec); Press true SaveOpen; Advance; Advance; Press true SaveOpen] ++ List.repeat Advance 7 ++ [Load (PickRec example_rec); Advance]). split; [|vm_compute; reflexivity].
  intros e He. cbn [app List.repeat In] in He. repeat (destruct He as [<-|He]; [first [exact example_wf|reflexivity|exact I]|]). contradiction.
Qed.
(** If that happens before the first message is read, the file saved under the first recording's
    topics holds the messages of the second. *)
Theorem C80_mixed_refuted : exists a b es w out, well_formed a /\ well_formed b /\ qt_history es = Ok w /\ In out (w_saved w) /\
  (forall e, In e es -> match e with Load p => p = PickRec a \/ p = PickRec b | WriteError => False | Press _ s => s = SaveOpen | Advance => True end) /\
  map (option_map x_topic) (contents out) = [Some (str "/points"%string)] /\ map (option_map x_data) (contents out) = [Some [66]] /\
  map (option_map x_topic) (contents b) = [Some (str "/front/points"%string)] /\ map (option_map x_data) (contents a) = [Some [65]].
Proof.
  set (one := fun topic d => mkRec [mkSchema 1 pointcloud_schema_name (str "ros2msg"%string) [1]] [mkChannel 1 topic (str "cdr"%string) 1 []] [mkMsg 1 0 10 10 [d]] [] []).
  assert (W : forall t d, well_formed (one t d)).
  { intros t d. unfold well_formed, one. cbn [rc_schemas rc_channels rc_messages map s_id ch_id]. split; [nodup|]. split; [nodup|]. split; [reflexivity|]. split; [reflexivity|]. split; intros x [<-|[]]; now left. }
  exists (one (str "/points"%string) 65), (one (str "/front/points"%string) 66), ([Load (PickRec (one (str "/points"%string) 65)); Press true SaveOpen; Press true SaveOpen; Advance; Advance; Advance; Load (PickRec (one (str "/front/points"%string) 66)); Advance; Advance; Advance]). eexists _, _.
  split; [apply W|]. split; [apply W|]. split; [vm_compute; reflexivity|]. split; [right; left; reflexivity|]. split.
  { intros e He. cbn [In] in He. repeat (destruct He as [<-|He]; [first [now left|now right|reflexivity|exact I]|]). contradiction. }
  split; [vm_compute; reflexivity|]. split; [vm_compute; reflexivity|]. split; vm_compute; reflexivity.
Qed.
(** Cancelling the open dialog of a new window, or after a file that could not be opened, dereferences
    a null pointer. *)
Theorem C80_cancel_refuted : qt_history [Load PickCancel] = UB /\ qt_history [Load PickBad; Load PickCancel] = UB.
Proof. split; reflexivity. Qed.
(** After cancelling the save dialog (or choosing a place that cannot be written) no other file can be
    loaded: the Load button stays disabled until something is saved. *)
Theorem C80_stuck_refuted w id rec (encode : bool) s : s <> SaveOpen -> w_stack w = [] -> w_reader w = Some (id, rec) -> (if encode then w_encode w else w_decode w) = true ->
  exists w', step [7] w (Press encode s) = Ok w' /\ forall ps, history [7] w' (map Load ps) = Ok w' /\ w_reader w' = Some (id, rec).
Proof.
  intros HS ES ER EB. cbn [step]. unfold listening. rewrite ES. unfold click_save. rewrite EB, ER, ES. cbn [negb].
  exists (mkWin (Some (id, rec)) (w_next w) false (w_encode w) (w_decode w) [] (w_saved w)). split; [destruct s; [reflexivity|reflexivity|contradiction]|]. intros ps. split; [|reflexivity].
  induction ps as [|p ps IH]; [reflexivity|]. cbn [map history step]. unfold listening, click_load. cbn [w_stack w_load negb bind]. exact IH.
Qed.
(** The payloads are not converted.  For a recording of one real PointCloud2 message, which the
    converter encodes: what the application saves is labelled CompressedPointCloud2 and cannot be decoded. *)
Definition cloud_payload : list Z := Eval vm_compute in
  match (do m <- convertPointCloud2ToCompressedCloud gnu_text sse_ops store_libs 2 4096 (msg_cloud LITTLE) (scan 5 3 COMP_NONE) ; do c <- getDeserializedPointCloudMessage m ; convertCompressedCloudToPointCloud2 gnu_text sse_ops store_libs 2 c) with Ok m => m | _ => [] end.
Definition cloud_rec : recording := mkRec [mkSchema 1 pointcloud_schema_name (str "ros2msg"%string) [1]] [mkChannel 1 (str "/points"%string) (str "cdr"%string) 1 []] [mkMsg 1 0 10 10 cloud_payload] [] [].
Definition or_else (r : res recording) : recording := match r with Ok x => x | _ => cloud_rec end.
Definition encoded_rec : recording := Eval vm_compute in or_else (encodePointClouds [1] [7] gnu_text sse_ops store_libs 2 4096 [] None false false cloud_rec).
Definition decoded_rec : recording := Eval vm_compute in or_else (decodePointClouds [1] [7] gnu_text sse_ops store_libs 2 encoded_rec).
Definition window_after (es : list event) : window := match qt_history es with Ok w => w | _ => fresh_window end.
Definition app_encode_window : window := Eval vm_compute in window_after (Load (PickRec cloud_rec) :: Press true SaveOpen :: List.repeat Advance 3).
Definition app_encoded : recording := Eval vm_compute in match w_saved app_encode_window with r :: _ => r | [] => cloud_rec end.
Definition app_decode_window : window := Eval vm_compute in window_after (Load (PickRec encoded_rec) :: Press false SaveOpen :: List.repeat Advance 3).
Definition app_decoded : recording := Eval vm_compute in match w_saved app_decode_window with r :: _ => r | [] => cloud_rec end.
Lemma one_wf rec : rc_schemas rec = [mkSchema 1 (s_name (hd (mkSchema 0 [] [] []) (rc_schemas rec))) (s_enc (hd (mkSchema 0 [] [] []) (rc_schemas rec))) (s_data (hd (mkSchema 0 [] [] []) (rc_schemas rec)))] ->
  map ch_id (rc_channels rec) = [1] -> map ch_schema (rc_channels rec) = [1] -> map m_chan (rc_messages rec) = [1] -> well_formed rec.
Proof.
  intros E1 E2 E3 E4. unfold well_formed. rewrite E1, E2. cbn [map s_id]. split; [nodup|]. split; [nodup|]. split; [reflexivity|].
  split. { unfold zlen. rewrite <- (map_length ch_id), E2. reflexivity. }
  split; intros x Hx. - apply (in_map ch_schema) in Hx. now rewrite E3 in Hx. - apply (in_map m_chan) in Hx. now rewrite E4 in Hx.
Qed.
Theorem C80_encode_refuted : well_formed cloud_rec /\
  (exists enc dec, encodePointClouds [1] [7] gnu_text sse_ops store_libs 2 4096 [] None false false cloud_rec = Ok enc /\ decodePointClouds [1] [7] gnu_text sse_ops store_libs 2 enc = Ok dec) /\
  exists w out, qt_history (Load (PickRec cloud_rec) :: Press true SaveOpen :: List.repeat Advance 3) = Ok w /\ w_saved w = [out] /\
    map (option_map x_sname) (contents out) = [Some compressed_schema_name] /\ decodePointClouds [1] [7] gnu_text sse_ops store_libs 2 out = Throw.
Proof.
  split; [apply one_wf; reflexivity|]. split. { exists encoded_rec, decoded_rec. split; vm_compute; reflexivity. }
  exists app_encode_window, app_encoded. split; [vm_compute; reflexivity|]. split; [reflexivity|]. split; vm_compute; reflexivity.
Qed.
(** Decode is no better, and the schema text it writes is the schema's name. *)
Definition app_cloud : ros_cloud := Eval vm_compute in match rc_messages app_decoded with m :: _ => match getDeserializedPointCloudMessage (m_data m) with Ok c => c | _ => msg_cloud LITTLE end | [] => msg_cloud LITTLE end.
Theorem C80_decode_refuted : exists rec w out c, encodePointClouds [1] [7] gnu_text sse_ops store_libs 2 4096 [] None false false cloud_rec = Ok rec /\ well_formed rec /\
  qt_history (Load (PickRec rec) :: Press false SaveOpen :: List.repeat Advance 3) = Ok w /\ w_saved w = [out] /\
  map (option_map x_sname) (contents out) = [Some pointcloud_schema_name] /\ map (option_map x_sdata) (contents out) = [Some pointcloud_schema_name] /\
  match contents out with [Some x] => getDeserializedPointCloudMessage (x_data x) = Ok c | _ => False end /\ zlen (r_data c) <> r_width c * r_height c * r_step c.
Proof.
  exists encoded_rec, app_decode_window, app_decoded, app_cloud. split; [vm_compute; reflexivity|]. split; [apply one_wf; reflexivity|].
  split; [vm_compute; reflexivity|]. split; [reflexivity|]. split; [vm_compute; reflexivity|]. split; [vm_compute; reflexivity|]. split; [vm_compute; reflexivity|]. vm_compute. discriminate.
Qed.
Print Assumptions C80_sessions.
Print Assumptions C80_save.
Print Assumptions C80_reentrant_refuted.
Print Assumptions C80_mixed_refuted.
Print Assumptions C80_cancel_refuted.
Print Assumptions C80_stuck_refuted.
Print Assumptions C80_encode_refuted.
Print Assumptions C80_decode_refuted.
