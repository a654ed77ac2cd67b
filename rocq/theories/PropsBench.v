(** Property C90: what the codec benchmark measures, and what its fingerprint says. *)
From Coq Require Import String List.
From Verif Require Import Base BaseFacts Types Floats Codec Api Spec LibSpec Header Cdr Ros RosViz Mcap Bench BenchSpec BenchFacts.
From Verif Require Import ApiFacts RoundTrip CloudApi LocalFacts PropsStage1 PropsCloud PropsHeader RosFacts PropsRos PropsPcl Cases FloatText.
Open Scope Z_scope.
Open Scope list_scope.

(** *** Vocabulary *)
(** The messages at which the benchmark looks: those of the PointCloud2 topics which have [k] earlier messages
    of the same topic, [k] being a multiple of --sample-every and less than --max-messages (if that is not 0). *)
Definition looked_at (o : bench_options) (rec : recording) (l : list message) (p : nat) (m : message) : Prop :=
  nth_error l p = Some m /\ exists t k, cloud_topic rec (m_chan m) = Some t /\ k = topic_count rec t (firstn p l) /\
    (bo_max o = 0 \/ k < bo_max o) /\ (Z.max 1 (bo_every o) | k).
(** Such a message is measured when it is a PointCloud2 message with at least one byte of points. *)
Definition a_cloud (o : bench_options) (m : message) (c : ros_cloud) : Prop :=
  exists c0, getDeserializedPointCloudMessage (m_data m) = Ok c0 /\ 0 < zlen (r_data c0) /\ r_step c0 <> 0 /\
    c = mkRos (r_cdr c0) (r_sec c0) (r_nsec c0) (r_frame c0) (r_height c0) (r_width c0)
          (map (fun f => match f_type f with FLOAT32 => set_res (bo_res o) f | _ => f end) (r_fields c0)) (r_step c0) (r_row c0) (r_data c0) (r_dense c0).
(** [ms] has exactly the members of the list whose positions satisfy [P], in order *)
Inductive picks {A} (P : nat -> A -> Prop) : nat -> list A -> list A -> Prop :=
| picks_nil p : picks P p [] []
| picks_take p x l ms : P p x -> picks P (S p) l ms -> picks P p (x :: l) (x :: ms)
| picks_skip p x l ms : ~ P p x -> picks P (S p) l ms -> picks P p (x :: l) ms.

Lemma parse_cloud o m c : bench_parse o (m_data m) = Ok (Some c) <-> a_cloud o m c.
Proof.
  unfold bench_parse, a_cloud.
  assert (EF : forall fs, applyResolutionProfile [] fs (Some (bo_res o)) = map (fun f => match f_type f with FLOAT32 => set_res (bo_res o) f | _ => f end) fs).
  { intros fs. unfold applyResolutionProfile. cbn [profile_find]. induction fs as [|f fs IH]; [reflexivity|]. cbn [filter negb map] in *. rewrite IH. f_equal. unfold RosViz.is_float32. destruct (f_type f); reflexivity. }
  destruct (getDeserializedPointCloudMessage (m_data m)) as [c0| |]; [|split; [discriminate|intros (c0 & H & _); discriminate]|split; [discriminate|intros (c0 & H & _); discriminate]].
  cbv zeta. cbn [r_data r_step r_fields r_cdr r_sec r_nsec r_frame r_height r_width r_row r_dense]. rewrite EF. pose proof (zlen_nonneg (r_data c0)). split.
  - destruct (Z.eqb_spec (zlen (r_data c0)) 0) as [E1|E1]; cbn [orb]; [discriminate|]. destruct (Z.eqb_spec (r_step c0) 0) as [E2|E2]; [discriminate|]. intros Hc. exists c0. split; [reflexivity|]. split; [lia|]. split; [exact E2|congruence].
  - intros (c1 & E & H1 & H2 & ->). assert (c1 = c0) by congruence. subst c1. destruct (Z.eqb_spec (zlen (r_data c0)) 0) as [E1|E1]; [lia|]. destruct (Z.eqb_spec (r_step c0) 0) as [E2|E2]; [contradiction|]. reflexivity.
Qed.
Lemma wanted_spec o rec l p m : nth_error l p = Some m -> (wanted o rec (firstn p l) m = true <-> looked_at o rec l p m /\ exists c, a_cloud o m c).
Proof.
  intros Hm. unfold wanted, looked_at. destruct (cloud_topic rec (m_chan m)) as [t|].
  2:{ split; [discriminate|]. intros [(_ & t & k & H & _) _]. discriminate. }
  cbv zeta. rewrite !Bool.andb_true_iff, Bool.orb_true_iff, !Z.eqb_eq, Z.ltb_lt.
  assert (HP : match bench_parse o (m_data m) with Ok (Some _) => true | _ => false end = true <-> exists c, a_cloud o m c).
  { destruct (bench_parse o (m_data m)) as [[c|]| |] eqn:E.
    - split; [|reflexivity]. intros _. exists c. now apply parse_cloud.
    - split; [discriminate|]. intros (c & Hc). apply parse_cloud in Hc. congruence.
    - split; [discriminate|]. intros (c & Hc). apply parse_cloud in Hc. congruence.
    - split; [discriminate|]. intros (c & Hc). apply parse_cloud in Hc. congruence. }
  rewrite HP. assert (HD : topic_count rec t (firstn p l) mod Z.max 1 (bo_every o) = 0 <-> (Z.max 1 (bo_every o) | topic_count rec t (firstn p l))) by (apply Z.mod_divide; lia).
  rewrite HD. split.
  - intros [[H1 H2] H3]. split; [|exact H3]. split; [exact Hm|]. exists t, (topic_count rec t (firstn p l)). auto.
  - intros [(_ & t' & k & E & -> & H1 & H2) H3]. assert (t' = t) by congruence. subst t'. auto.
Qed.
Lemma chosen_picks o rec l : forall l' pre, l = pre ++ l' -> picks (fun p m => looked_at o rec l p m /\ exists c, a_cloud o m c) (length pre) l' (chosen o rec l (seq (length pre) (length l'))).
Proof.
  induction l' as [|m l' IH]; intros pre El; [constructor|]. unfold chosen. cbn [length seq flat_map].
  assert (Hm : nth_error l (length pre) = Some m) by (rewrite El, nth_error_app2, Nat.sub_diag by lia; reflexivity). rewrite Hm.
  assert (EL : S (length pre) = length (pre ++ [m])) by (rewrite app_length; cbn [length]; lia).
  assert (H : picks (fun p m => looked_at o rec l p m /\ exists c, a_cloud o m c) (S (length pre)) l' (chosen o rec l (seq (S (length pre)) (length l')))).
  { rewrite EL. apply IH. now rewrite <- app_assoc. }
  unfold chosen in H. destruct (wanted o rec (firstn (length pre) l) m) eqn:EW; cbn [app].
  - apply picks_take; [now apply wanted_spec|exact H].
  - apply picks_skip; [|exact H]. intros HN. apply wanted_spec in HN; [congruence|exact Hm].
Qed.
Lemma loop_clouds ft ops L ppc probe o rec l : forall seen ebuf ms, bench_loop ft ops L ppc probe o rec seen ebuf l = Ok ms ->
  Forall (fun m => exists c, a_cloud o (me_msg m) c /\ (if bo_viz o then applyVizLossyPreprocessing c else Ok c) = Ok (me_cloud m)) ms.
Proof.
  induction l as [|m l IH]; intros seen ebuf ms H; cbn [bench_loop] in H; [assert (ms = []) by congruence; subst; constructor|].
  destruct (cloud_topic rec (m_chan m)) as [t|]; [|exact (IH _ _ _ H)]. cbv zeta in H.
  destruct (negb (bo_max o =? 0) && _); [exact (IH _ _ _ H)|]. destruct (negb (_ =? 0)); [exact (IH _ _ _ H)|].
  apply bind_ok in H. destruct H as (p & HP & H). destruct p as [c|]; [|exact (IH _ _ _ H)].
  apply bind_ok in H. destruct H as (c' & HC & H). apply bind_ok in H. destruct H as ([enc ebuf'] & HE & H). apply bind_ok in H. destruct H as (s & HS & H). apply bind_ok in H. destruct H as (rest & HR & H).
  assert (ms = mkMeas m c' s :: rest) by congruence. subst ms. constructor; [|exact (IH _ _ _ HR)]. cbn [me_msg me_cloud]. exists c. split; [now apply parse_cloud|exact HC].
Qed.

(** * C90 *)
(** Exactly the wanted messages are measured, in order; the cloud that is encoded is the one in the message,
    with the resolution of the command line on its 32-bit float fields, thinned in the viz modes. *)
Theorem C90_measured : forall ft ops L ppc probe o rec ms, zlen (rc_messages rec) < 18446744073709551616 ->
  bench_loop ft ops L ppc probe o rec [] [] (rc_messages rec) = Ok ms ->
  picks (fun p m => looked_at o rec (rc_messages rec) p m /\ exists c, a_cloud o m c) 0 (rc_messages rec) (map me_msg ms) /\
  Forall (fun m => exists c, a_cloud o (me_msg m) c /\ (if bo_viz o then applyVizLossyPreprocessing c else Ok c) = Ok (me_cloud m)) ms.
Proof.
  intros ft ops L ppc probe o rec ms Hz H. split; [|eapply loop_clouds; exact H].
  rewrite (loop_chosen ft ops L ppc probe o rec (rc_messages rec) [] [] [] ms (fun t => eq_refl) Hz H). exact (chosen_picks o rec (rc_messages rec) (rc_messages rec) [] eq_refl).
Qed.
Print Assumptions C90_measured.

Lemma viz_loop_no_throw ox oy oz res step data k : forall i seen, viz_loop ox oy oz res step data k i seen <> Throw.
Proof.
  assert (HR : forall o n v, rd o n v <> Throw) by (intros o n v; unfold rd; destruct (_ && _); discriminate).
  induction k as [|k IH]; intros i seen; cbn [viz_loop]; [discriminate|].
  destruct (rd (i * step + ox) 4 data) as [bx| |] eqn:E1; cbn [bind]; [|destruct (HR _ _ _ E1)|discriminate].
  destruct (rd (i * step + oy) 4 data) as [by_| |] eqn:E2; cbn [bind]; [|destruct (HR _ _ _ E2)|discriminate].
  destruct (rd (i * step + oz) 4 data) as [bz| |] eqn:E3; cbn [bind]; [|destruct (HR _ _ _ E3)|discriminate].
  cbv zeta. match goal with |- context [negb (isfinite32 ?a) || _ || _] => destruct (negb (isfinite32 a) || negb (isfinite32 (le_val by_)) || negb (isfinite32 (le_val bz))) end; [apply IH|].
  destruct (existsb _ seen); [apply IH|].
  destruct (rd (i * step) (Z.to_nat step) data) as [p| |] eqn:E4; cbn [bind]; [|destruct (HR _ _ _ E4)|discriminate].
  match goal with |- context [viz_loop _ _ _ _ _ _ _ (i + 1) (?key :: seen)] => specialize (IH (i + 1) (key :: seen)); destruct (viz_loop ox oy oz res step data k (i + 1) (key :: seen)) end; cbn [bind]; congruence.
Qed.
Lemma viz_no_throw c : applyVizLossyPreprocessing c <> Throw.
Proof.
  unfold applyVizLossyPreprocessing. destruct (viz_rewrite c) as [r| |] eqn:E; cbn [bind]; [discriminate| |discriminate]. intros _. unfold viz_rewrite in E.
  destruct (r_fields c) as [|f0 [|f1 [|f2 fs]]]; try discriminate. destruct (r_step c =? 0); [discriminate|].
  destruct (f_res f0); [|discriminate]. destruct (f_res f1); [|discriminate]. destruct (f_res f2); [|discriminate].
  match type of E with (if ?b then _ else _) = _ => destruct b end; [|discriminate]. match type of E with (if ?b then _ else _) = _ => destruct b end; [|discriminate].
  cbv zeta in E. match type of E with (if ?b then _ else _) = _ => destruct b end; [discriminate|].
  match type of E with bind ?x _ = _ => destruct x as [out| |] eqn:EL end; cbn [bind] in E; [discriminate|exact (viz_loop_no_throw _ _ _ _ _ _ _ _ _ EL)|discriminate].
Qed.
(** No message ends the measuring pass with an exception: not one that is no PointCloud2 or incomplete, not one
    that cannot be encoded. *)
Theorem C90_no_exception : forall ft ops L ppc probe o rec, bench_loop ft ops L ppc probe o rec [] [] (rc_messages rec) <> Throw.
Proof.
  intros ft ops L ppc probe o rec. generalize (@nil (list Z * Z)) as seen, (@nil Z) as ebuf. induction (rc_messages rec) as [|m l IH]; intros seen ebuf H; cbn [bench_loop] in H; [discriminate|].
  destruct (cloud_topic rec (m_chan m)) as [t|]; [|exact (IH _ _ H)]. cbv zeta in H.
  destruct (negb (bo_max o =? 0) && _); [exact (IH _ _ H)|]. destruct (negb (_ =? 0)); [exact (IH _ _ H)|].
  destruct (bench_parse o (m_data m)) as [p| |] eqn:HP; cbn [bind] in H; [| |discriminate].
  2:{ unfold bench_parse in HP. destruct (getDeserializedPointCloudMessage (m_data m)); discriminate. }
  destruct p as [c|]; [|exact (IH _ _ H)].
  destruct (bench_cloud o c) as [c'| |] eqn:HC; cbn [bind] in H; [| |discriminate].
  2:{ unfold bench_cloud in HC. destruct (bo_viz o); [|discriminate]. exact (viz_no_throw c HC). }
  destruct (bench_encode ft ops L ppc probe o ebuf c') as [[enc ebuf']| |] eqn:HE; cbn [bind] in H; [| |discriminate].
  2:{ unfold bench_encode in HE. cbv zeta in HE. match type of HE with (match ?x with Ok _ => _ | Throw => _ | UB => _ end) = _ => destruct x as [[e max]| |] end; [|discriminate|discriminate].
      destruct (encode_view _ _ _ _ _ _ _ _) as [[r out] ?]. destruct r; discriminate. }
  destruct (match enc with None => Ok None | Some d => bench_sample ft d end) as [s| |] eqn:HS; cbn [bind] in H; [| |discriminate].
  2:{ destruct enc as [d|]; [|discriminate]. unfold bench_sample in HS. destruct (DecodeHeader ft d) as [[]| |]; discriminate. }
  destruct (bench_loop ft ops L ppc probe o rec _ _ l) as [rest| |] eqn:HR; cbn [bind] in H; [discriminate|exact (IH _ _ HR)|discriminate].
Qed.
Print Assumptions C90_no_exception.

(** The fingerprint does not depend on the codec: runs that differ in the version of the format and in
    stage-2 compression, and that encode every measured message, print the same fingerprint.
    [bench_ok]: the message is complete and meets the conditions of C17 and C30. *)
Theorem C90_same_fingerprint : forall ft ops L ppc probe o v1 z1 v2 z2 rec ms1 ms2 h1 h2,
  libs_ok L -> zlen (rc_messages rec) < 18446744073709551616 ->
  bench_loop ft ops L ppc probe (codec o v1 z1) rec [] [] (rc_messages rec) = Ok ms1 ->
  bench_loop ft ops L ppc probe (codec o v2 z2) rec [] [] (rc_messages rec) = Ok ms2 ->
  Forall (fun m => bench_ok ft ops ppc (codec o v1 z1) (me_cloud m) /\ kept m) ms1 ->
  Forall (fun m => bench_ok ft ops ppc (codec o v2 z2) (me_cloud m) /\ kept m) ms2 ->
  fingerprint ft ops L ppc probe (codec o v1 z1) rec = Ok h1 -> fingerprint ft ops L ppc probe (codec o v2 z2) rec = Ok h2 -> h1 = h2.
Proof.
  intros ft ops L ppc probe o v1 z1 v2 z2 rec ms1 ms2 h1 h2 HLi Hz H1 H2 F1 F2 P1 P2.
  assert (F1a : Forall (fun m => bench_ok ft ops ppc (codec o v1 z1) (me_cloud m)) ms1) by (eapply Forall_impl; [|exact F1]; cbv beta; tauto).
  assert (F1b : Forall kept ms1) by (eapply Forall_impl; [|exact F1]; cbv beta; tauto).
  assert (F2a : Forall (fun m => bench_ok ft ops ppc (codec o v2 z2) (me_cloud m)) ms2) by (eapply Forall_impl; [|exact F2]; cbv beta; tauto).
  assert (F2b : Forall kept ms2) by (eapply Forall_impl; [|exact F2]; cbv beta; tauto).
  assert (HB : bytes []) by constructor.
  pose proof (loop_good ft ops L ppc probe _ _ _ _ _ _ HLi HB H1 F1a) as G1. pose proof (loop_good ft ops L ppc probe _ _ _ _ _ _ HLi HB H2 F2a) as G2.
  pose proof (loop_chosen ft ops L ppc probe _ rec (rc_messages rec) [] [] [] ms1 (fun t => eq_refl) Hz H1) as C1.
  pose proof (loop_chosen ft ops L ppc probe _ rec (rc_messages rec) [] [] [] ms2 (fun t => eq_refl) Hz H2) as C2.
  assert (HM : map me_msg ms1 = map me_msg ms2) by (rewrite C1, C2; reflexivity).
  assert (HC : map me_cloud ms1 = map me_cloud ms2).
  { clear - HM G1 G2. revert ms2 HM G2. induction G1 as [|m1 ms1 [(c & A & B) _] G1 IH]; intros [|m2 ms2] HM G2; try discriminate HM; [reflexivity|]. cbn [map] in *.
    pose proof (Forall_inv G2) as [(c2 & A2 & B2) _]. assert (E : me_msg m1 = me_msg m2) by congruence. rewrite <- E in A2. change (bench_parse (codec o v2 z2)) with (bench_parse (codec o v1 z1)) in A2. change (bench_cloud (codec o v2 z2)) with (bench_cloud (codec o v1 z1)) in B2.
    assert (c2 = c) by congruence. subst c2. f_equal; [congruence|]. apply IH; [congruence|exact (Forall_inv_tail G2)]. }
  unfold fingerprint in P1, P2. rewrite H1 in P1. rewrite H2 in P2. cbn [bind] in P1, P2.
  destruct ms1 as [|m1 t1]; destruct ms2 as [|m2 t2]; try discriminate HC; [congruence|].
  apply bind_ok in P1. destruct P1 as (o1 & R1 & P1). apply bind_ok in P2. destruct P2 as (o2 & R2 & P2).
  assert (o1 = o2); [|congruence].
  refine (replay_same ft ops L ppc o v1 z1 v2 z2 (m1 :: t1) (m2 :: t2) [] o1 o2 HC F1b F2b F1a _ _ R1 R2).
  - eapply Forall_impl; [|exact G1]. cbv beta. tauto.
  - eapply Forall_impl; [|exact G2]. cbv beta. tauto.
Qed.
Print Assumptions C90_same_fingerprint.

(** The fingerprint is a function of the decoded bytes, one after the other ... *)
Theorem C90_fingerprint_of_bytes : forall ft ops L ppc probe o rec h, fingerprint ft ops L ppc probe o rec = Ok (Some h) ->
  exists ms outs, bench_loop ft ops L ppc probe o rec [] [] (rc_messages rec) = Ok ms /\ replay ops L ppc [] (samples ms) = Ok outs /\ h = fnv1a fnv_basis (concat outs).
Proof.
  intros ft ops L ppc probe o rec h H. unfold fingerprint in H. apply bind_ok in H. destruct H as (ms & HL & H). exists ms. destruct ms as [|m ms]; [discriminate|].
  apply bind_ok in H. destruct H as (outs & HR & H). exists outs. split; [exact HL|]. split; [exact HR|]. rewrite <- hash_concat. congruence.
Qed.
Print Assumptions C90_fingerprint_of_bytes.
(** ... and one wrong byte among them always changes it ... *)
Theorem C90_one_wrong_byte : forall a b c d, bytes (a ++ b :: d) -> bytes (a ++ c :: d) -> b <> c ->
  fnv1a fnv_basis (a ++ b :: d) <> fnv1a fnv_basis (a ++ c :: d).
Proof.
  intros a b c d H1 H2 Hn H. apply Forall_app in H1. destruct H1 as [_ H1]. apply Forall_app in H2. destruct H2 as [_ H2]. rewrite !fnv_app, !fnv_cons in H.
  apply fnv_inj in H; [|exact (Forall_inv_tail H1)|apply fnv_step_range..]. apply fnv_step_right in H; [contradiction|apply fnv_range; unfold fnv_basis; lia|exact (Forall_inv H1)|exact (Forall_inv H2)].
Qed.
Print Assumptions C90_one_wrong_byte.

(** *** Concrete cases *)
Definition wire_of (c : ros_cloud) : list Z :=
  match cdr_encode (r_cdr c) pc2_type (pc2_value c (repeat 1 (length (r_fields c))) 0 (r_row c) (r_data c)) (cdr_begin (r_cdr c)) with Ok m => m | _ => [] end.
Definition two_topics (ds : list (Z * list Z)) : recording :=
  mkRec [mkSchema 1 pointcloud_schema_name (str "ros2msg") []; mkSchema 2 (str "sensor_msgs/msg/Imu") (str "ros2msg") []]
    [mkChannel 1 (str "/front") (str "cdr") 1 []; mkChannel 2 (str "/imu") (str "cdr") 2 []; mkChannel 3 (str "/rear") (str "cdr") 1 []]
    (map (fun d => mkMsg (fst d) 0 0 0 (snd d)) ds) [] [].
(** One cloud with a single 64-bit value; and the same followed by a cloud with a single zero byte *)
Definition le_cdr : cdr_header := mkCdr LITTLE PLAIN_CDR DDS_CDR.
Definition value_cloud : ros_cloud := mkRos le_cdr 1 0 [109] 1 1 [mkField [118] 0 UINT64 None] 8 8 [213; 107; 185; 83; 66; 135; 8; 54] 1.
Definition zero_cloud (n : nat) : ros_cloud := mkRos le_cdr 2 0 [109] 1 (Z.of_nat n) [mkField [118] 0 UINT8 None] 1 (Z.of_nat n) (repeat 0 n) 1.
Definition v5_options (every : Z) : bench_options := mkBench milli 0 every false 5 false.
(** ... but equal fingerprints do not mean equal outputs: here a whole cloud more is decoded. *)
Theorem C90_equal_outputs_refuted : exists rec1 rec2 ms1 ms2 outs1 outs2 h,
  let o := v5_options 1 in
  fingerprint gnu_text sse_ops store_libs 2 4096 o rec1 = Ok (Some h) /\ fingerprint gnu_text sse_ops store_libs 2 4096 o rec2 = Ok (Some h) /\
  bench_loop gnu_text sse_ops store_libs 2 4096 o rec1 [] [] (rc_messages rec1) = Ok ms1 /\ replay sse_ops store_libs 2 [] (samples ms1) = Ok outs1 /\
  bench_loop gnu_text sse_ops store_libs 2 4096 o rec2 [] [] (rc_messages rec2) = Ok ms2 /\ replay sse_ops store_libs 2 [] (samples ms2) = Ok outs2 /\
  length outs1 = 1%nat /\ length outs2 = 2%nat.
Proof.
  exists (two_topics [(1, wire_of value_cloud)]), (two_topics [(1, wire_of value_cloud); (3, wire_of (zero_cloud 5))]). do 5 eexists.
  split; [vm_compute; reflexivity|]. split; [vm_compute; reflexivity|]. split; [vm_compute; reflexivity|]. split; [vm_compute; reflexivity|]. split; [vm_compute; reflexivity|]. split; [vm_compute; reflexivity|]. split; reflexivity.
Qed.
Print Assumptions C90_equal_outputs_refuted.

(** Decoding errors are not caught in the fingerprint pass: with stage-2 compression, one small cloud of large
    values (C18) ends the program, although every message was encoded; without it there is a fingerprint. *)
Theorem C90_always_a_fingerprint_refuted : exists rec ms h,
  bench_loop gnu_text sse_ops store_libs 2 4096 (codec (v5_options 1) 5 true) rec [] [] (rc_messages rec) = Ok ms /\ length ms = 1%nat /\ Forall kept ms /\
  fingerprint gnu_text sse_ops store_libs 2 4096 (codec (v5_options 1) 5 true) rec = Throw /\
  fingerprint gnu_text sse_ops store_libs 2 4096 (codec (v5_options 1) 5 false) rec = Ok (Some h).
Proof.
  exists (two_topics [(1, wire_of value_cloud)]). do 2 eexists. split; [vm_compute; reflexivity|]. split; [reflexivity|].
  split; [constructor; [|constructor]; eexists; split; [reflexivity|vm_compute; reflexivity]|]. split; vm_compute; reflexivity.
Qed.
Print Assumptions C90_always_a_fingerprint_refuted.

(** The hypotheses are met: two topics with scans of three points and another topic, one message in two, with
    the V4 codec uncompressed and with the V5 codec and stage-2 compression; three messages are measured. *)
Definition scans : recording :=
  let d := wire_of (msg_cloud LITTLE) in two_topics [(1, d); (2, [1; 2]); (1, wire_of value_cloud); (3, d); (1, [0; 1; 0; 0; 9]); (1, d); (3, d); (1, d)].
Definition scan_options : bench_options := mkBench milli 0 2 false 4 false.
Definition measured_scan : ros_cloud := mkRos le_cdr 1700000000 250000000 [109; 97; 112] 1 3 scan_fields 32 96 scan_cloud 1.
Definition run (v : Z) (z : bool) : list measured :=
  match bench_loop gnu_text sse_ops store_libs 2 4096 (codec scan_options v z) scans [] [] (rc_messages scans) with Ok ms => ms | _ => [] end.
Definition keptb (m : measured) : bool := match me_sample m with Some s => zlen (sm_data s) <? 1431260227 | None => false end.
Lemma scan_bench v z : v = 4 \/ v = 5 -> bench_ok gnu_text sse_ops 2 (codec scan_options v z) measured_scan.
Proof.
  intros Hv. unfold bench_ok. cbv zeta. cbn [measured_scan r_width r_height r_step r_data]. split; [lia|]. split; [lia|]. split; [vm_compute; reflexivity|]. split; [vm_compute; reflexivity|].
  set (cp := if z then COMP_ZSTD else COMP_NONE).
  change (bench_info (codec scan_options v z) measured_scan) with (mkInfo scan_fields 3 1 32 ENC_LOSSY [] cp true v).
  split. { split; [exact (scan_layout v 3 cp)|]. split; [exact I|]. split; [|apply scan_bytes]. split; [lia|]. split; [lia|vm_compute; discriminate]. }
  split. { split; [exact (scan_same v 3 cp 3 cp)|]. split; [exact (scan_out_layout v 3 cp)|]. split; [exact (scan_consistent v 3 cp v 3 cp)|]. split; [exact (scan_resolutions v 3 cp)|]. split; [repeat constructor|]. split; [reflexivity|cbn [i_version]; lia]. }
  split; [exact (scan_deltas v 3 cp)|]. destruct scan_yaml as [(_ & Y2 & Y3 & Y4 & Y5 & Y6 & Y7 & Y8) YX].
  split. { split; [cbn [i_version]; lia|]. split; [exact Y2|]. split; [exact Y3|]. split; [exact Y4|]. split; [exact I|]. split; [unfold cp; destruct z; exact I|]. split; [exact Y7|exact Y8]. }
  split; [exact YX|]. split; [constructor|]. apply Forall_forall. intros f Hf. cbn [i_fields scan_fields In] in Hf.
  repeat (destruct Hf as [<-|Hf]; [split; [apply bytesb; vm_compute; reflexivity|cbn [f_res fld]; first [exact I|apply bytesb; vm_compute; reflexivity]]|]). contradiction.
Qed.
Lemma run_ok v z c ms : bench_ok gnu_text sse_ops 2 (codec scan_options v z) c -> map me_cloud ms = [c; c; c] -> forallb keptb ms = true ->
  Forall (fun m => bench_ok gnu_text sse_ops 2 (codec scan_options v z) (me_cloud m) /\ kept m) ms.
Proof.
  intros HB HM HK. rewrite forallb_forall in HK. apply Forall_forall. intros m Hm. split.
  - assert (HI : In (me_cloud m) [c; c; c]) by (rewrite <- HM; apply in_map; exact Hm).
    destruct HI as [E|[E|[E|[]]]]; rewrite <- E; exact HB.
  - specialize (HK m Hm). unfold keptb in HK. unfold kept. destruct (me_sample m) as [s|]; [|discriminate]. exists s. split; [reflexivity|]. apply Z.ltb_lt. exact HK.
Qed.
Example C90_case : exists h,
  bench_loop gnu_text sse_ops store_libs 2 4096 (codec scan_options 4 false) scans [] [] (rc_messages scans) = Ok (run 4 false) /\
  bench_loop gnu_text sse_ops store_libs 2 4096 (codec scan_options 5 true) scans [] [] (rc_messages scans) = Ok (run 5 true) /\
  Forall (fun m => bench_ok gnu_text sse_ops 2 (codec scan_options 4 false) (me_cloud m) /\ kept m) (run 4 false) /\
  Forall (fun m => bench_ok gnu_text sse_ops 2 (codec scan_options 5 true) (me_cloud m) /\ kept m) (run 5 true) /\
  length (run 4 false) = 3%nat /\
  fingerprint gnu_text sse_ops store_libs 2 4096 (codec scan_options 4 false) scans = Ok (Some h) /\
  fingerprint gnu_text sse_ops store_libs 2 4096 (codec scan_options 5 true) scans = Ok (Some h) /\
  map sm_data (samples (run 4 false)) <> map sm_data (samples (run 5 true)).
Proof.
  eexists. split; [vm_compute; reflexivity|]. split; [vm_compute; reflexivity|].
  split; [apply (run_ok 4 false measured_scan); [apply scan_bench; left; reflexivity|vm_compute; reflexivity|vm_compute; reflexivity]|]. split; [apply (run_ok 5 true measured_scan); [apply scan_bench; right; reflexivity|vm_compute; reflexivity|vm_compute; reflexivity]|].
  split; [vm_compute; reflexivity|]. split; [vm_compute; reflexivity|]. split; [vm_compute; reflexivity|]. vm_compute. discriminate.
Qed.
Example C90_one_wrong_byte_case : bytes ([1; 2] ++ 3 :: [4]) /\ bytes ([1; 2] ++ 5 :: [4]) /\ fnv1a fnv_basis [1; 2; 3; 4] = 13725386680924731485.
Proof. split; [apply bytesb; reflexivity|]. split; [apply bytesb; reflexivity|]. vm_compute. reflexivity. Qed.
