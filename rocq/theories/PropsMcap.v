(** C48 (cutting), C54 (converting recordings), C55 (profile texts). *)
From Coq Require Import Sorting.Permutation.
From Verif Require Import Base BaseFacts Types Floats Codec Api Header Cdr Ros RosViz Mcap.
From Coq Require Import String.
Open Scope Z_scope.
Open Scope list_scope.
Notation length := List.length.

(** * What a reader of a recording sees of a message: its channel's topic and encoding, its schema,
    the message's own numbers and payload.  (Channel and schema ids are not observable but through
    these.) *)
Record seen := mkSeen { x_topic : list Z; x_enc : list Z; x_sname : list Z; x_senc : list Z; x_sdata : list Z; x_seq : Z; x_log : Z; x_pub : Z; x_data : list Z }.
Definition describe (rec : recording) (m : message) : option seen :=
  match find_channel (rc_channels rec) (m_chan m) with
  | None => None
  | Some c => match find_schema (rc_schemas rec) (ch_schema c) with
              | None => None
              | Some s => Some (mkSeen (ch_topic c) (ch_enc c) (s_name s) (s_enc s) (s_data s) (m_seq m) (m_log m) (m_pub m) (m_data m))
              end
  end.
Definition contents (rec : recording) : list (option seen) := map (describe rec) (rc_messages rec).
(** Distinct 16-bit ids, and every reference resolves. *)
Definition well_formed (rec : recording) : Prop :=
  NoDup (map s_id (rc_schemas rec)) /\ NoDup (map ch_id (rc_channels rec)) /\
  zlen (rc_schemas rec) < 65536 /\ zlen (rc_channels rec) < 65536 /\
  (forall c, In c (rc_channels rec) -> In (ch_schema c) (map s_id (rc_schemas rec))) /\
  (forall m, In m (rc_messages rec) -> In (m_chan m) (map ch_id (rc_channels rec))).

Lemma leqb_eq a b : leqb a b = true <-> a = b.
Proof. unfold leqb. destruct (list_eq_dec Z.eq_dec a b); split; congruence. Qed.
Lemma leqb_refl a : leqb a a = true.
Proof. now apply leqb_eq. Qed.
Lemma find_schema_in l id : In id (map s_id l) -> exists s, find_schema l id = Some s /\ In s l /\ s_id s = id.
Proof.
  induction l as [|a l IH]; [contradiction|]. cbn [map In find_schema]. intros H. destruct (Z.eqb_spec (s_id a) id) as [E|E]; [exists a; auto|]. destruct H as [H|H]; [contradiction|]. destruct (IH H) as (s & H1 & H2 & H3). exists s. auto.
Qed.
Lemma find_channel_in l id : In id (map ch_id l) -> exists s, find_channel l id = Some s /\ In s l /\ ch_id s = id.
Proof.
  induction l as [|a l IH]; [contradiction|]. cbn [map In find_channel]. intros H. destruct (Z.eqb_spec (ch_id a) id) as [E|E]; [exists a; auto|]. destruct H as [H|H]; [contradiction|]. destruct (IH H) as (s & H1 & H2 & H3). exists s. auto.
Qed.

Section Convert.
  Variables (ptext ctext : list Z).
  Notation add_schemas := (add_schemas ptext ctext). Notation convert_recording := (convert_recording ptext ctext). Notation new_schema := (new_schema ptext ctext).
  Definition converted_name (encoding : bool) : list Z := if encoding then pointcloud_schema_name else compressed_schema_name.
  Definition converted_to (encoding : bool) : list Z * list Z := if encoding then (compressed_schema_name, ctext) else (pointcloud_schema_name, ptext).
  (** A message of a converted recording, compared to the original: clouds get the other schema and
      the converted payload, everything else is as it was. *)
  Definition converted (encoding : bool) (conv : list Z -> res (list Z)) (a b : option seen) : Prop :=
    exists x y, a = Some x /\ b = Some y /\
      x_topic y = x_topic x /\ x_enc y = x_enc x /\ x_senc y = x_senc x /\ x_seq y = x_seq x /\ x_log y = x_log x /\ x_pub y = x_pub x /\
      if list_eq_dec Z.eq_dec (x_sname x) (converted_name encoding)
      then (x_sname y, x_sdata y) = converted_to encoding /\ conv (x_data x) = Ok (x_data y)
      else x_sname y = x_sname x /\ x_sdata y = x_sdata x /\ x_data y = x_data x.

  Lemma new_schema_spec encoding s id : exists name data, new_schema encoding s id = mkSchema id name (s_enc s) data /\
    (name, data) = if list_eq_dec Z.eq_dec (s_name s) (converted_name encoding) then converted_to encoding else (s_name s, s_data s).
  Proof.
    unfold Mcap.new_schema. assert (HNE : compressed_schema_name <> pointcloud_schema_name) by (vm_compute; discriminate).
    destruct encoding; cbn [converted_name converted_to andb negb]; unfold leqb.
    - destruct (list_eq_dec Z.eq_dec (s_name s) pointcloud_schema_name); eexists _, _; split; reflexivity.
    - destruct (list_eq_dec Z.eq_dec (s_name s) compressed_schema_name); eexists _, _; split; reflexivity.
  Qed.
  Lemma u16_small x : 0 <= x < 65536 -> u16 x = x.
  Proof. apply Z.mod_small. Qed.
  Lemma add_schemas_spec encoding : forall l n out m, add_schemas encoding l n = (out, m) -> 0 <= n -> n + zlen l < 65536 -> NoDup (map s_id l) ->
    map fst m = map s_id l /\ (forall j, In j (map s_id out) -> n < j <= n + zlen l) /\ NoDup (map s_id out) /\ length out = length l /\
    forall k s, find_schema l k = Some s -> exists id, lookup m k = Some id /\ n < id <= n + zlen l /\ find_schema out id = Some (new_schema encoding s id).
  Proof.
    induction l as [|s l IH]; intros n out m H Hn HL HN; cbn [Mcap.add_schemas] in H.
    - replace out with (@nil schema) by congruence. replace m with (@nil (Z * Z)) by congruence. split; [reflexivity|]. split; [intros j []|]. split; [constructor|]. split; [reflexivity|]. intros k s. discriminate.
    - destruct (add_schemas encoding l (n + 1)) as [out' m'] eqn:E. rewrite u16_small in H by (unfold zlen in HL; cbn [length] in HL; lia).
      replace out with (new_schema encoding s (n + 1) :: out') by congruence. replace m with ((s_id s, n + 1) :: m') by congruence.
      assert (ZS : zlen (s :: l) = zlen l + 1) by (unfold zlen; cbn [length]; lia). inversion HN as [|? ? N1 N2]; subst. destruct (IH (n + 1) out' m' E ltac:(lia) ltac:(lia) N2) as (H1 & H2 & H3 & H4 & H5). pose proof (zlen_nonneg l) as ZN.
      assert (SID : s_id (new_schema encoding s (n + 1)) = n + 1) by (destruct (new_schema_spec encoding s (n + 1)) as (? & ? & -> & _); reflexivity).
      cbn [map fst]. rewrite H1. split; [reflexivity|]. rewrite SID. split. { intros j [<-|Hj]; [lia|]. apply H2 in Hj. lia. }
      split. { constructor; [|exact H3]. intros Hi. apply H2 in Hi. lia. } split; [cbn [length]; lia|].
      intros k s0. cbn [find_schema lookup]. destruct (Z.eqb_spec (s_id s) k) as [Ek|Ek].
      + intros Hs. replace s0 with s by congruence. exists (n + 1). split; [reflexivity|]. split; [lia|]. rewrite SID, Z.eqb_refl. reflexivity.
      + intros Hs. destruct (H5 k s0 Hs) as (id & L1 & L2 & L3). exists id. split; [exact L1|]. split; [lia|]. rewrite SID. replace (n + 1 =? id) with false by lia. exact L3.
  Qed.
  Lemma add_channels_spec smap : forall l n, 0 <= n -> n + zlen l < 65536 -> NoDup (map ch_id l) -> (forall c, In c l -> exists sid, lookup smap (ch_schema c) = Some sid) ->
    exists out m, add_channels smap l n = Ok (out, m) /\ map ch_topic out = map ch_topic l /\ (forall j, In j (map ch_id out) -> n < j <= n + zlen l) /\ NoDup (map ch_id out) /\ length out = length l /\
    (forall c', In c' out -> exists c, In c l /\ lookup smap (ch_schema c) = Some (ch_schema c')) /\
    forall k c, find_channel l k = Some c -> exists id sid, lookup m k = Some id /\ n < id <= n + zlen l /\ lookup smap (ch_schema c) = Some sid /\ find_channel out id = Some (mkChannel id (ch_topic c) (ch_enc c) sid []).
  Proof.
    induction l as [|c l IH]; intros n Hn HL HN HS; cbn [add_channels].
    - exists [], []. split; [reflexivity|]. split; [reflexivity|]. split; [intros j []|]. split; [constructor|]. split; [reflexivity|]. split; [intros c' []|]. intros k c. discriminate.
    - unfold at_. destruct (HS c (or_introl eq_refl)) as (sid & ES). rewrite ES. cbn [bind]. cbv zeta. assert (ZS : zlen (c :: l) = zlen l + 1) by (unfold zlen; cbn [length]; lia). rewrite u16_small by (pose proof (zlen_nonneg l); lia).
      inversion HN as [|? ? N1 N2]; subst. destruct (IH (n + 1) ltac:(lia) ltac:(lia) N2 (fun x hx => HS x (or_intror hx))) as (out & m & E & H0 & H1 & H2 & H3 & H4 & H5). rewrite E. cbn [bind]. pose proof (zlen_nonneg l) as ZN.
      eexists _, _. split; [reflexivity|]. cbn [map ch_topic ch_id]. split; [f_equal; exact H0|]. split. { intros j [<-|Hj]; [lia|]. apply H1 in Hj. lia. }
      split. { constructor; [|exact H2]. intros Hi. apply H1 in Hi. lia. } split; [cbn [length]; lia|]. split.
      { intros c' [<-|Hc]; [exists c; split; [now left|exact ES]|]. destruct (H4 c' Hc) as (d & D1 & D2). exists d. split; [now right|exact D2]. }
      intros k c0. cbn [find_channel lookup ch_id]. destruct (Z.eqb_spec (ch_id c) k) as [Ek|Ek].
      + intros Hc. replace c0 with c by congruence. exists (n + 1), sid. split; [reflexivity|]. split; [lia|]. split; [exact ES|]. rewrite Z.eqb_refl. reflexivity.
      + intros Hc. destruct (H5 k c0 Hc) as (id & sd & L1 & L2 & L3 & L4). exists id, sd. split; [exact L1|]. split; [lia|]. split; [exact L3|]. replace (n + 1 =? id) with false by lia. exact L4.
  Qed.
  Lemma check_ok schemas : forall cs, (forall c, In c cs -> In (ch_schema c) (map s_id schemas)) -> check_schemas schemas cs = Ok tt.
  Proof. induction cs as [|c cs IH]; [reflexivity|]. cbn [check_schemas]. intros H. destruct (find_schema_in _ _ (H c (or_introl eq_refl))) as (s & -> & _). apply IH. intros d Hd. apply H. now right. Qed.

  Theorem convert_spec encoding conv rec : well_formed rec ->
    (forall m x, In m (rc_messages rec) -> describe rec m = Some x -> x_sname x = converted_name encoding -> exists d, conv (x_data x) = Ok d) ->
    exists out, convert_recording encoding (converted_name encoding) conv rec = Ok out /\ well_formed out /\
      Forall2 (converted encoding conv) (contents rec) (contents out) /\
      map ch_topic (rc_channels out) = map ch_topic (rc_channels rec) /\ rc_metadata out = rc_metadata rec.
  Proof.
    intros (W1 & W2 & W3 & W4 & W5 & W6) HC. unfold Mcap.convert_recording. rewrite check_ok by exact W5. cbn [bind].
    destruct (add_schemas encoding (rc_schemas rec) 0) as [schemas smap] eqn:ES. destruct (add_schemas_spec _ _ _ _ _ ES (Z.le_refl 0) ltac:(lia) W1) as (S1 & S2 & S3 & S4 & S5).
    assert (HS : forall c, In c (rc_channels rec) -> exists sid, lookup smap (ch_schema c) = Some sid).
    { intros c Hc. destruct (find_schema_in _ _ (W5 c Hc)) as (s & Hs & _). destruct (S5 _ _ Hs) as (id & Hid & _). eauto. }
    destruct (add_channels_spec smap (rc_channels rec) 0 (Z.le_refl 0) ltac:(lia) W2 HS) as (channels & cmap & EC & C0 & C1 & C2 & C3 & C4 & C5). rewrite EC. cbn [bind].
    set (out := fun ms => mkRec schemas channels ms (rc_metadata rec) []).
    assert (HM : forall l, (forall m, In m l -> In m (rc_messages rec)) -> exists ms, convert_messages rec cmap (converted_name encoding) conv l = Ok ms /\
      (forall m, In m ms -> In (m_chan m) (map ch_id channels)) /\ forall ms', Forall2 (converted encoding conv) (map (describe rec) l) (map (describe (out ms')) ms)).
    { induction l as [|m l IH]; intros Hl; cbn [convert_messages].
      - exists []. split; [reflexivity|]. split; [intros m []|]. intros ms'. constructor.
      - destruct (IH (fun x hx => Hl x (or_intror hx))) as (ms & E & M1 & M2). destruct (find_channel_in _ _ (W6 m (Hl m (or_introl eq_refl)))) as (c & Fc & Ic & _). destruct (C5 _ _ Fc) as (id & sid & L1 & L2 & L3 & L4).
        unfold at_. rewrite L1. cbn [bind]. rewrite Fc. destruct (find_schema_in _ _ (W5 c Ic)) as (s & Fs & _). rewrite Fs. destruct (S5 _ _ Fs) as (sid' & K1 & K2 & K3). assert (sid' = sid) by congruence. subst sid'.
        destruct (new_schema_spec encoding s sid) as (name & data & EN & EQ). rewrite EN in K3.
        set (x := mkSeen (ch_topic c) (ch_enc c) (s_name s) (s_enc s) (s_data s) (m_seq m) (m_log m) (m_pub m) (m_data m)). assert (Dx : describe rec m = Some x) by (unfold describe; rewrite Fc, Fs; reflexivity).
        assert (Hd : exists d, (if leqb (s_name s) (converted_name encoding) then conv (m_data m) else Ok (m_data m)) = Ok d).
        { destruct (leqb (s_name s) (converted_name encoding)) eqn:EL; [|eauto]. apply leqb_eq in EL. exact (HC m x (Hl m (or_introl eq_refl)) Dx EL). }
        destruct Hd as (d & Hd). rewrite Hd. cbn [bind]. rewrite E. cbn [bind]. eexists. split; [reflexivity|]. split.
        { intros m' [<-|Hm]; [|auto]. cbn [m_chan]. clear - L4. induction channels as [|a l IH]; [discriminate|]. cbn [find_channel map In] in *. destruct (Z.eqb_spec (ch_id a) id); [now left|right; auto]. }
        intros ms'. cbn [map]. constructor; [|apply M2]. unfold converted. exists x. eexists. split; [exact Dx|]. unfold describe, out. cbn [rc_channels rc_schemas m_chan]. rewrite L4. cbn [ch_schema]. rewrite K3. split; [reflexivity|].
        cbn [x_topic x_enc x_senc x_seq x_log x_pub x_sname x_sdata x_data ch_topic ch_enc s_name s_enc s_data m_seq m_log m_pub m_data x]. do 6 (split; [reflexivity|]). unfold leqb in Hd. destruct (list_eq_dec Z.eq_dec (s_name s) (converted_name encoding)).
        + split; [exact EQ|exact Hd].
        + split; [congruence|]. split; [congruence|]. congruence. }
    destruct (HM (rc_messages rec) (fun m h => h)) as (ms & EM & M1 & M2). rewrite EM. cbn [bind]. exists (out ms). split; [reflexivity|]. split.
    { unfold well_formed, out. cbn [rc_schemas rc_channels rc_messages]. split; [exact S3|]. split; [exact C2|]. split; [unfold zlen in *; lia|]. split; [unfold zlen in *; lia|]. split; [|exact M1].
      intros c' Hc'. destruct (C4 c' Hc') as (c & Ic & Lc). destruct (find_schema_in _ _ (W5 c Ic)) as (s & Fs & _). destruct (S5 _ _ Fs) as (sid & K1 & _ & K3). assert (sid = ch_schema c') by congruence. subst sid.
      clear - K3. induction schemas as [|a l IH]; [discriminate|]. cbn [find_schema map In] in *. destruct (Z.eqb_spec (s_id a) (ch_schema c')); [now left|right; auto]. }
    split; [apply M2|]. split; [exact C0|reflexivity].
  Qed.
End Convert.

(** * C54 *)
Section Clouds.
  Variables (ptext ctext : list Z) (ft : float_text) (ops : float_ops) (L : libs) (ppc probe : nat) (prof : profile) (default : option Z) (zstd viz : bool).
  Notation encode_file := (encodePointClouds ptext ctext ft ops L ppc probe prof default zstd viz).
  Notation decode_file := (decodePointClouds ptext ctext ft ops L ppc).
  Notation encode_cloud := (encode_payload ft ops L ppc probe prof default zstd viz).
  Notation decode_cloud := (decode_payload ft ops L ppc).
  Definition named (name : list Z) (a : option seen) : Prop := exists x, a = Some x /\ x_sname x = name.
  (** Encoding a recording: as many messages, in the same order, on the same topics, with the same
      times; clouds are converted one by one, everything else is bit for bit what it was. *)
  Theorem C54_encode_recording rec : well_formed rec ->
    (forall x, In (Some x) (contents rec) -> x_sname x = pointcloud_schema_name -> exists d, encode_cloud (x_data x) = Ok d) ->
    exists out, encode_file rec = Ok out /\ well_formed out /\ Forall2 (converted ptext ctext true encode_cloud) (contents rec) (contents out) /\
      map ch_topic (rc_channels out) = map ch_topic (rc_channels rec) /\ rc_metadata out = rc_metadata rec.
  Proof. intros HW HC. apply (convert_spec ptext ctext true); [exact HW|]. intros m x Hm Hx. apply HC. unfold contents. rewrite <- Hx. now apply in_map. Qed.
  Theorem C54_decode_recording rec : well_formed rec ->
    (forall x, In (Some x) (contents rec) -> x_sname x = compressed_schema_name -> exists d, decode_cloud (x_data x) = Ok d) ->
    exists out, decode_file rec = Ok out /\ well_formed out /\ Forall2 (converted ptext ctext false decode_cloud) (contents rec) (contents out) /\
      map ch_topic (rc_channels out) = map ch_topic (rc_channels rec) /\ rc_metadata out = rc_metadata rec.
  Proof. intros HW HC. apply (convert_spec ptext ctext false); [exact HW|]. intros m x Hm Hx. apply HC. unfold contents. rewrite <- Hx. now apply in_map. Qed.
  (** Encoding and then decoding a recording that had no compressed clouds in it: every message is
      as it was, but clouds whose payload went through both conversions and whose schema text is
      the tool's. *)
  Definition returned (a b : option seen) : Prop :=
    exists x y, a = Some x /\ b = Some y /\
      x_topic y = x_topic x /\ x_enc y = x_enc x /\ x_senc y = x_senc x /\ x_seq y = x_seq x /\ x_log y = x_log x /\ x_pub y = x_pub x /\ x_sname y = x_sname x /\
      if list_eq_dec Z.eq_dec (x_sname x) pointcloud_schema_name
      then x_sdata y = ptext /\ exists z, encode_cloud (x_data x) = Ok z /\ decode_cloud z = Ok (x_data y)
      else x_sdata y = x_sdata x /\ x_data y = x_data x.
  Theorem C54_recording_roundtrip rec : well_formed rec -> ~ Exists (named compressed_schema_name) (contents rec) ->
    (forall x, In (Some x) (contents rec) -> x_sname x = pointcloud_schema_name -> exists z d, encode_cloud (x_data x) = Ok z /\ decode_cloud z = Ok d) ->
    exists mid out, encode_file rec = Ok mid /\ decode_file mid = Ok out /\ Forall2 returned (contents rec) (contents out) /\
      map ch_topic (rc_channels out) = map ch_topic (rc_channels rec) /\ rc_metadata out = rc_metadata rec.
  Proof.
    intros HW HN HC. destruct (C54_encode_recording rec HW) as (mid & EM & WM & FM & TM & MM). { intros x Hx Hn. destruct (HC x Hx Hn) as (z & d & Hz & _). eauto. }
    destruct (C54_decode_recording mid WM) as (out & EO & WO & FO & TO & MO).
    { intros y Hy Hn. clear EM. induction FM as [|a b la lb Hab FM IH]; [contradiction|]. destruct Hy as [Hy|Hy].
      - destruct Hab as (x & y' & -> & Hb & _ & _ & _ & _ & _ & _ & Hif). assert (y' = y) by congruence. subst y'. change (converted_name true) with pointcloud_schema_name in Hif. destruct (list_eq_dec Z.eq_dec (x_sname x) pointcloud_schema_name) as [E|E].
        + destruct Hif as [_ Hz]. destruct (HC x (or_introl eq_refl) E) as (z & d & Hz' & Hd). exists d. congruence.
        + destruct Hif as (Hs & _). exfalso. apply HN. left. exists x. split; [reflexivity|congruence].
      - apply IH; auto. intros x Hx. apply HC. now right. }
    exists mid, out. split; [exact EM|]. split; [exact EO|]. split; [|split; congruence]. clear - FM FO HN. revert FO. generalize (contents out) as lo. induction FM as [|a b la lb Hab FM IH]; intros lo FO; inversion FO as [|? o ? lo' Hbo FO']; subst; constructor.
    - destruct Hab as (x & y & -> & -> & A1 & A2 & A3 & A4 & A5 & A6 & A7). destruct Hbo as (y' & w & Hy & -> & B1 & B2 & B3 & B4 & B5 & B6 & B7). assert (y' = y) by congruence. subst y'.
      exists x, w. do 2 (split; [reflexivity|]). do 6 (split; [congruence|]). change (converted_name true) with pointcloud_schema_name in A7. change (converted_name false) with compressed_schema_name in B7. cbn [converted_to] in A7, B7.
      destruct (list_eq_dec Z.eq_dec (x_sname x) pointcloud_schema_name) as [E|E].
      + destruct A7 as [A7 A8]. assert (EY : x_sname y = compressed_schema_name) by congruence. destruct (list_eq_dec Z.eq_dec (x_sname y) compressed_schema_name) as [_|]; [|contradiction]. destruct B7 as [B7 B8]. split; [congruence|]. split; [congruence|]. eauto.
      + destruct A7 as (A7 & A8 & A9). destruct (list_eq_dec Z.eq_dec (x_sname y) compressed_schema_name) as [EY|_]; [exfalso; apply HN; left; exists x; split; [reflexivity|congruence]|]. destruct B7 as (B7 & B8 & B9). split; [congruence|]. split; congruence.
    - apply IH; [|exact FO']. intros HE. apply HN. now right.
  Qed.
End Clouds.

(** * C48 *)
(** Cutting at [n] messages per channel: [takes n cloud before l out] says that [out] are, in order,
    the messages of [l] that are clouds and have fewer than [n] messages of their channel before
    them ([before] included). *)
Definition on_channel (k : Z) (l : list message) : list message := filter (fun m => m_chan m =? k) l.
Inductive takes (n : Z) (cloud : message -> Prop) : list message -> list message -> list message -> Prop :=
| takes_end before : takes n cloud before [] []
| takes_one before m l out : cloud m -> zlen (on_channel (m_chan m) before) < n -> takes n cloud (before ++ [m]) l out -> takes n cloud before (m :: l) (m :: out)
| leaves_one before m l out : ~ cloud m \/ n <= zlen (on_channel (m_chan m) before) -> takes n cloud (before ++ [m]) l out -> takes n cloud before (m :: l) out.
Lemma on_app k a b : on_channel k (a ++ b) = on_channel k a ++ on_channel k b.
Proof. apply filter_app. Qed.
Lemma on_cons k m l : on_channel k (m :: l) = if m_chan m =? k then m :: on_channel k l else on_channel k l.
Proof. reflexivity. Qed.
(** Channel by channel this is the first [n]. *)
Theorem C48_per_channel n cloud k l out : 0 <= n -> takes n cloud [] l out ->
  ((forall m, In m l -> m_chan m = k -> cloud m) -> on_channel k out = firstn (Z.to_nat n) (on_channel k l)) /\
  ((forall m, In m l -> m_chan m = k -> ~ cloud m) -> on_channel k out = []).
Proof.
  intros Hn H. cut (forall before, takes n cloud before l out ->
    ((forall m, In m l -> m_chan m = k -> cloud m) -> on_channel k out = firstn (Z.to_nat (n - zlen (on_channel k before))) (on_channel k l)) /\
    ((forall m, In m l -> m_chan m = k -> ~ cloud m) -> on_channel k out = [])).
  { intros G. destruct (G [] H) as [G1 G2]. split; [|exact G2]. intros HC. rewrite (G1 HC). change (zlen (on_channel k [])) with 0. now rewrite Z.sub_0_r. }
  clear H. intros before H. induction H as [before|before m l out Hc Hz H IH|before m l out Hc H IH].
  - split; [intros _; now rewrite firstn_nil|reflexivity].
  - destruct IH as [IH1 IH2]. split.
    + intros HC. rewrite !on_cons. destruct (Z.eqb_spec (m_chan m) k) as [E|E].
      * rewrite (IH1 (fun x hx => HC x (or_intror hx))), on_app, on_cons. rewrite E in *. rewrite Z.eqb_refl. cbn [on_channel filter]. rewrite zlen_app. change (zlen [m]) with 1. pose proof (zlen_nonneg (on_channel k before)).
        replace (Z.to_nat (n - zlen (on_channel k before))) with (S (Z.to_nat (n - (zlen (on_channel k before) + 1)))) by lia. reflexivity.
      * rewrite (IH1 (fun x hx => HC x (or_intror hx))), on_app, on_cons. replace (m_chan m =? k) with false by lia. cbn [on_channel filter]. now rewrite app_nil_r.
    + intros HC. rewrite on_cons. destruct (Z.eqb_spec (m_chan m) k) as [E|E]; [exfalso; apply (HC m (or_introl eq_refl) E Hc)|]. apply IH2. intros x hx. apply HC. now right.
  - destruct IH as [IH1 IH2]. split.
    + intros HC. rewrite (IH1 (fun x hx => HC x (or_intror hx))), !on_app, !on_cons. cbn [on_channel filter]. destruct (Z.eqb_spec (m_chan m) k) as [E|E].
      * destruct Hc as [Hc|Hc]; [exfalso; apply Hc, HC; [now left|exact E]|]. rewrite E in *. rewrite zlen_app. change (zlen [m]) with 1. replace (Z.to_nat (n - (zlen (on_channel k before) + 1))) with O by lia. replace (Z.to_nat (n - zlen (on_channel k before))) with O by lia. reflexivity.
      * now rewrite app_nil_r.
    + intros HC. apply IH2. intros x hx. apply HC. now right.
Qed.
Definition is_cloud (rec : recording) (m : message) : Prop := exists x, describe rec m = Some x /\ x_sname x = pointcloud_schema_name.
(** How a message that was taken looks like in the output. *)
Definition taken (ptext : list Z) (a b : option seen) : Prop :=
  exists x y, a = Some x /\ b = Some y /\ y = mkSeen (x_topic x) (str "cdr") pointcloud_schema_name (str "ros2msg") ptext (x_seq x) (x_log x) (x_pub x) (x_data x).

Lemma cloud_channels_spec schemas : forall order, (forall c, In c order -> In (ch_schema c) (map s_id schemas)) ->
  exists pcs, cloud_channels schemas order = Ok pcs /\ (forall c, In c pcs <-> In c order /\ exists s, find_schema schemas (ch_schema c) = Some s /\ s_name s = pointcloud_schema_name) /\
    (NoDup (map ch_id order) -> NoDup (map ch_id pcs)) /\ (length pcs <= length order)%nat.
Proof.
  induction order as [|c l IH]; intros H; cbn [cloud_channels].
  - exists []. split; [reflexivity|]. split; [|split; auto]. intros c. split; [intros []|intros [[] _]].
  - destruct (find_schema_in _ _ (H c (or_introl eq_refl))) as (s & Fs & _). rewrite Fs. destruct (IH (fun x hx => H x (or_intror hx))) as (pcs & E & H1 & H2 & H3). rewrite E. cbn [bind].
    destruct (leqb (s_name s) pointcloud_schema_name) eqn:EL.
    + apply leqb_eq in EL. eexists. split; [reflexivity|]. split; [|split].
      * intros d. cbn [In]. rewrite H1. split; [intros [<-|[A B]]; [split; [now left|eauto]|split; [now right|exact B]]|]. intros [[<-|A] B]; [now left|right; auto].
      * cbn [map]. intros HN. inversion HN as [|? ? N1 N2]; subst. constructor; [|auto]. intros HI. apply N1. apply in_map_iff in HI. destruct HI as (d & D1 & D2). apply H1 in D2. apply in_map_iff. exists d. tauto.
      * cbn [length]. lia.
    + assert (NE : s_name s <> pointcloud_schema_name) by (intros HE; apply leqb_eq in HE; congruence). exists pcs. split; [reflexivity|]. split; [|split].
      * intros d. cbn [In]. rewrite H1. split; [intros [A B]; split; [now right|exact B]|]. intros [[<-|A] (s' & B1 & B2)]; [congruence|]. split; [exact A|eauto].
      * cbn [map]. intros HN. inversion HN; auto.
      * cbn [length]. lia.
Qed.
Lemma cut_channels_spec : forall l n out m, cut_channels l n = (out, m) -> 0 <= n -> n + zlen l < 65536 -> NoDup (map ch_id l) ->
  (forall k id, lookup m k = Some id -> n < id) /\
  (forall k, lookup m k <> None -> In k (map ch_id l)) /\
  forall c, In c l -> exists id, lookup m (ch_id c) = Some id /\ n < id <= n + zlen l /\ find_channel out id = Some (mkChannel id (ch_topic c) (str "cdr") 1 []).
Proof.
  induction l as [|c l IH]; intros n out m H Hn HL HN; cbn [cut_channels] in H.
  - replace m with (@nil (Z * Z)) by congruence. split; [intros k id; discriminate|]. split; [intros k Hk; now elim Hk|intros c []].
  - destruct (cut_channels l (n + 1)) as [out' m'] eqn:E. assert (ZS : zlen (c :: l) = zlen l + 1) by (unfold zlen; cbn [length]; lia). pose proof (zlen_nonneg l). rewrite u16_small in H by lia.
    set (c' := mkChannel (n + 1) (ch_topic c) (str "cdr") 1 []) in *. replace out with (c' :: out') by congruence. replace m with ((ch_id c, n + 1) :: m') by congruence.
    inversion HN as [|? ? N1 N2]; subst. destruct (IH (n + 1) out' m' E ltac:(lia) ltac:(lia) N2) as (H1 & H2 & H3). split; [|split].
    + intros k id. cbn [lookup]. destruct (ch_id c =? k); [intros A; replace id with (n + 1) by congruence; lia|]. intros A. apply H1 in A. lia.
    + intros k. cbn [lookup map In]. destruct (Z.eqb_spec (ch_id c) k); [now left|]. intros A. right. auto.
    + intros d [<-|Hd].
      * exists (n + 1). cbn [lookup find_channel]. rewrite Z.eqb_refl. split; [reflexivity|]. split; [lia|]. unfold c' at 1. cbn [ch_id]. now rewrite Z.eqb_refl.
      * destruct (H3 d Hd) as (id & L1 & L2 & L3). exists id. cbn [lookup find_channel]. destruct (Z.eqb_spec (ch_id c) (ch_id d)) as [Ek|]; [exfalso; apply N1; rewrite Ek; now apply in_map|]. split; [exact L1|]. split; [lia|]. unfold c' at 1. cbn [ch_id]. replace (n + 1 =? id) with false by lia. exact L3.
Qed.

Theorem C48_cut ptext rec order n :
  well_formed rec -> Permutation order (rc_channels rec) -> 0 < n ->
  (exists c s, In c (rc_channels rec) /\ find_schema (rc_schemas rec) (ch_schema c) = Some s /\ s_name s = pointcloud_schema_name) ->
  exists out kept, cut ptext order n rec = Ok (Some out) /\ takes n (is_cloud rec) [] (rc_messages rec) kept /\ Forall2 (taken ptext) (map (describe rec) kept) (contents out).
Proof.
  intros (W1 & W2 & W3 & W4 & W5 & W6) HP Hn (c0 & s0 & I0 & F0 & N0). unfold cut.
  destruct (cloud_channels_spec (rc_schemas rec) order) as (pcs & EP & P1 & P2 & P3). { intros c Hc. apply W5. now apply (Permutation_in _ HP). }
  rewrite EP. cbn [bind]. assert (NE : pcs <> []). { intros HE. assert (HI : In c0 pcs) by (apply P1; split; [now apply (Permutation_in _ (Permutation_sym HP))|eauto]). rewrite HE in HI. contradiction. }
  destruct pcs as [|pc pcs']; [contradiction|]. set (pcs := pc :: pcs') in *. destruct (cut_channels pcs 0) as [channels cmap] eqn:EC.
  assert (HND : NoDup (map ch_id pcs)) by (apply P2; apply Permutation_NoDup with (map ch_id (rc_channels rec)); [apply Permutation_map, Permutation_sym, HP|exact W2]).
  assert (HL : 0 + zlen pcs < 65536). { rewrite (Permutation_length HP) in P3. unfold zlen in *. lia. }
  destruct (cut_channels_spec pcs 0 channels cmap EC (Z.le_refl 0) HL HND) as (M1 & M2 & M3).
  set (out := fun ms => mkRec [mkSchema 1 pointcloud_schema_name (str "ros2msg") ptext] channels ms [] []).
  assert (G : forall l before counts, (forall m, In m l -> In m (rc_messages rec)) -> (forall k, count_of counts k = Z.min n (zlen (on_channel k before)) \/ lookup cmap k = None) ->
    exists ms kept, cut_messages n cmap counts l = Ok ms /\ takes n (is_cloud rec) before l kept /\ forall ms', Forall2 (taken ptext) (map (describe rec) kept) (map (describe (out ms')) ms)).
  { induction l as [|m l IH]; intros before counts Hl HK; cbn [cut_messages].
    - exists [], []. split; [reflexivity|]. split; [constructor|]. intros ms'. constructor.
    - destruct (find_channel_in _ _ (W6 m (Hl m (or_introl eq_refl)))) as (c & Fc & Ic & Eid). destruct (find_schema_in _ _ (W5 c Ic)) as (s & Fs & _).
      set (x := mkSeen (ch_topic c) (ch_enc c) (s_name s) (s_enc s) (s_data s) (m_seq m) (m_log m) (m_pub m) (m_data m)). assert (Dx : describe rec m = Some x) by (unfold describe; rewrite Fc, Fs; reflexivity).
      assert (Hskip : forall k, zlen (on_channel k (before ++ [m])) = zlen (on_channel k before) + if m_chan m =? k then 1 else 0). { intros k. rewrite on_app, zlen_app, on_cons. destruct (m_chan m =? k); reflexivity. }
      destruct (lookup cmap (m_chan m)) as [id|] eqn:EL.
      + assert (HIn : In c pcs).
        { assert (A : In (m_chan m) (map ch_id pcs)) by (apply M2; congruence). apply in_map_iff in A. destruct A as (d & D1 & D2). assert (d = c); [|now subst]. apply P1 in D2. destruct D2 as [D2 _]. apply (Permutation_in _ HP) in D2.
          clear - W2 D2 Ic D1 Eid. assert (HE : ch_id d = ch_id c) by congruence. clear D1 Eid. induction (rc_channels rec) as [|a l IH]; [contradiction|]. cbn [map] in W2. inversion W2 as [|? ? N1 N2]; subst. destruct D2 as [<-|D2], Ic as [<-|Ic]; auto; exfalso; apply N1; [rewrite HE|rewrite <- HE]; now apply in_map. }
        pose proof HIn as HP1. apply P1 in HP1. destruct HP1 as [_ (s' & Fs' & Ns)]. assert (s' = s) by congruence. subst s'. assert (HCl : is_cloud rec m) by (exists x; split; [exact Dx|exact Ns]).
        destruct (M3 c HIn) as (id' & L1 & L2 & L3). rewrite Eid in L1. assert (id' = id) by congruence. subst id'. destruct (HK (m_chan m)) as [HK'|HK']; [|congruence].
        destruct (Z.leb_spec n (count_of counts (m_chan m))) as [Hle|Hgt].
        * destruct (IH (before ++ [m]) counts (fun y hy => Hl y (or_intror hy))) as (ms & kept & E & T & F). { intros k. destruct (HK k) as [A|A]; [left|now right]. rewrite Hskip. destruct (Z.eqb_spec (m_chan m) k) as [<-|]; lia. }
          exists ms, kept. split; [exact E|]. split; [apply leaves_one; [right; lia|exact T]|exact F].
        * destruct (IH (before ++ [m]) ((m_chan m, count_of counts (m_chan m) + 1) :: counts) (fun y hy => Hl y (or_intror hy))) as (ms & kept & E & T & F).
          { intros k. unfold count_of at 1. cbn [lookup]. rewrite Hskip. destruct (Z.eqb_spec (m_chan m) k) as [<-|]; [left; lia|]. destruct (HK k) as [A|A]; [left|now right]. unfold count_of in A. lia. }
          rewrite E. cbn [bind]. eexists _, (m :: kept). split; [reflexivity|]. split; [apply takes_one; [exact HCl|lia|exact T]|]. intros ms'. cbn [map]. constructor; [|apply F]. exists x. eexists. split; [exact Dx|].
          unfold describe, out. cbn [rc_channels rc_schemas m_chan]. rewrite L3. cbn [ch_schema find_schema s_id Z.eqb Pos.eqb]. split; [reflexivity|]. reflexivity.
      + assert (HNC : ~ is_cloud rec m).
        { intros (x' & Hx' & Nx). assert (x' = x) by congruence. subst x'. cbn [x_sname x] in Nx. assert (HIn : In c pcs) by (apply P1; split; [now apply (Permutation_in _ (Permutation_sym HP))|eauto]). destruct (M3 c HIn) as (id & L1 & _). rewrite Eid in L1. congruence. }
        destruct (IH (before ++ [m]) counts (fun y hy => Hl y (or_intror hy))) as (ms & kept & E & T & F). { intros k. destruct (HK k) as [A|A]; [|now right]. destruct (Z.eqb_spec (m_chan m) k) as [<-|E]; [now right|left]. rewrite Hskip. replace (m_chan m =? k) with false by lia. lia. }
        exists ms, kept. split; [exact E|]. split; [apply leaves_one; [now left|exact T]|exact F]. }
  destruct (G (rc_messages rec) [] [] (fun m h => h)) as (ms & kept & E & T & F). { intros k. left. change (count_of [] k) with 0. change (zlen (on_channel k [])) with 0. lia. }
  rewrite E. cbn [bind]. exists (out ms), kept. split; [reflexivity|]. split; [exact T|apply F].
Qed.
(** Without a cloud channel nothing is written. *)
Theorem C48_nothing_to_cut ptext rec order n : well_formed rec -> Permutation order (rc_channels rec) ->
  (forall c s, In c (rc_channels rec) -> find_schema (rc_schemas rec) (ch_schema c) = Some s -> s_name s <> pointcloud_schema_name) -> cut ptext order n rec = Ok None.
Proof.
  intros (W1 & W2 & W3 & W4 & W5 & W6) HP HN. unfold cut. destruct (cloud_channels_spec (rc_schemas rec) order) as (pcs & EP & P1 & _). { intros c Hc. apply W5. now apply (Permutation_in _ HP). }
  rewrite EP. cbn [bind]. destruct pcs as [|c pcs]; [reflexivity|]. exfalso. destruct (proj1 (P1 c) (or_introl eq_refl)) as [A (s & B1 & B2)]. apply (HN c s); auto. now apply (Permutation_in _ HP).
Qed.

(** *** Cases and limits *)
Definition example_rec : recording := mkRec
  [mkSchema 3 pointcloud_schema_name (str "ros2msg") [1]; mkSchema 7 (str "std_msgs/msg/String") (str "ros2msg") [2]]
  [mkChannel 2 (str "/points") (str "cdr") 3 [(str "offered_qos_profiles", [5])]; mkChannel 4 (str "/chatter") (str "cdr") 7 []; mkChannel 9 (str "/points2") (str "cdr") 3 []]
  [mkMsg 2 0 10 10 [1]; mkMsg 4 0 11 11 [2]; mkMsg 2 1 12 12 [3]; mkMsg 9 0 13 13 [4]; mkMsg 2 2 14 14 [5]] [[6]] [[8]].
Ltac nodup := repeat (constructor; [cbn [In]; lia|]); constructor.
Lemma example_wf : well_formed example_rec.
Proof. unfold well_formed. split; [cbn; nodup|]. split; [cbn; nodup|]. split; [reflexivity|]. split; [reflexivity|]. split; intros x H; cbn in H |- *; repeat (destruct H as [<-|H]; [cbn; auto|]); contradiction. Qed.
Example C48_case : well_formed example_rec /\ exists out, cut [9] (rev (rc_channels example_rec)) 2 example_rec = Ok (Some out) /\
  map (option_map x_data) (contents out) = [Some [1]; Some [3]; Some [4]] /\ map (option_map x_topic) (contents out) = [Some (str "/points"); Some (str "/points"); Some (str "/points2")].
Proof. split; [exact example_wf|]. eexists. split; [vm_compute; reflexivity|]. split; vm_compute; reflexivity. Qed.
(** With any payload conversion: here one that appends a byte. *)
Example C54_case : well_formed example_rec /\ exists out, convert_recording [1] [2] true pointcloud_schema_name (fun d => Ok (d ++ [0])) example_rec = Ok out /\
  map (option_map x_data) (contents out) = [Some [1; 0]; Some [2]; Some [3; 0]; Some [4; 0]; Some [5; 0]] /\ rc_metadata out = [[6]].
Proof. split; [exact example_wf|]. eexists. split; [vm_compute; reflexivity|]. split; vm_compute; reflexivity. Qed.
(** Not everything of a recording survives: channel metadata (for instance QoS profiles) and
    attachments are dropped. *)
Theorem C54_metadata_dropped_refuted : exists rec out, well_formed rec /\ convert_recording [1] [2] true pointcloud_schema_name (fun d => Ok d) rec = Ok out /\
  map ch_meta (rc_channels rec) <> map ch_meta (rc_channels out) /\ rc_attachments rec <> rc_attachments out.
Proof. exists example_rec. eexists. split; [exact example_wf|]. split; [vm_compute; reflexivity|]. split; vm_compute; discriminate. Qed.
(** A channel without schema (id 0, which MCAP allows) makes the tools dereference a null pointer. *)
Theorem C54_no_schema_refuted : exists rec, (forall m, In m (rc_messages rec) -> In (m_chan m) (map ch_id (rc_channels rec))) /\
  convert_recording [1] [2] true pointcloud_schema_name (fun d => Ok d) rec = UB /\ cut [1] (rc_channels rec) 1 rec = UB.
Proof. exists (mkRec [] [mkChannel 1 (str "/raw") (str "json") 0 []] [mkMsg 1 0 0 0 [1]] [] []). split; [intros m [<-|[]]; cbn; auto|]. split; reflexivity. Qed.
Print Assumptions C48_cut.
Print Assumptions C48_per_channel.
Print Assumptions C48_nothing_to_cut.
Print Assumptions C54_encode_recording.
Print Assumptions C54_decode_recording.
Print Assumptions C54_recording_roundtrip.
Print Assumptions C54_metadata_dropped_refuted.
Print Assumptions C54_no_schema_refuted.
