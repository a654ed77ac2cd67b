(** C72: how accurate a cloud is after each of the ways to compress and decompress it, in terms of
    the fields of the caller's cloud and the resolution the caller passes. *)
From Coq Require Import ZArith Reals Psatz List Bool Lia.
From Verif Require Import Base BaseFacts Types Floats Fields Codec V5 Api Spec LibSpec ErrorSpec FloatReal CloudFacts LocalFacts Cases PropsCloud PropsError.
From Verif Require Mcap.
From Verif Require Import Header PropsHeader Cdr Ros RosFacts PropsRos RosViz PropsViz Pcl PropsPcl Transport PropsTransport Wasm PropsWasm.
Import ListNotations.
Open Scope Z_scope.

(** ** Specification *)
(** a binary32 NaN *)
Definition nan_bits (b : Z) : Prop := (b / 8388608) mod 256 = 255 /\ b mod 8388608 <> 0.
(** The [sz] bytes at offset [off] of each of the first [n] points (of [step] bytes each) are the
    same in both clouds. *)
Definition field_kept (step off : Z) (sz n : nat) (a b : list Z) : Prop :=
  forall j, (j < n)%nat -> sub (Z.of_nat j * step + off) sz b = sub (Z.of_nat j * step + off) sz a.
(** The floats there are within the bound for the resolution [rb] (C09) of the original; NaN stays
    NaN. *)
Definition field_near (rb step off : Z) (n : nat) (a b : list Z) : Prop :=
  forall j, (j < n)%nat ->
    let xb := le_val (sub (Z.of_nat j * step + off) 4 a) in
    let yb := le_val (sub (Z.of_nat j * step + off) 4 b) in
    let r := float_of rb in
    (finite32 xb -> (Rabs (float_of xb) <= powerRZ 2 30 * r)%R -> finite32 yb /\ (Rabs (float_of yb - float_of xb) <= bound32 r (float_of xb))%R) /\
    (nan_bits xb -> nan_bits yb).
(** The same for doubles. *)
Definition nan_bits64 (b : Z) : Prop := (b / 4503599627370496) mod 2048 = 2047 /\ b mod 4503599627370496 <> 0.
Definition field_near64 (rb step off : Z) (n : nat) (a b : list Z) : Prop :=
  forall j, (j < n)%nat ->
    let xb := le_val (sub (Z.of_nat j * step + off) 8 a) in
    let yb := le_val (sub (Z.of_nat j * step + off) 8 b) in
    let r := float_of rb in
    (finite64 xb -> (Rabs (double_of xb) <= powerRZ 2 62 * r)%R -> finite64 yb /\ (Rabs (double_of yb - double_of xb) <= bound64 r (double_of xb))%R) /\
    (nan_bits64 xb -> nan_bits64 yb).
Definition usable_bits (rb : Z) : Prop := finite32 rb /\ usable (float_of rb).
Definition x86_or_scalar (ops : float_ops) : Prop := ops = sse_ops \/ ops = scalar_ops.

(** ** From [restored] *)
Lemma nan_bits_spec b : nan_bits b <-> isnan32 b = true.
Proof.
  unfold nan_bits, isnan32. rewrite andb_true_iff, Z.eqb_eq, negb_true_iff, Z.eqb_neq. reflexivity.
Qed.
Lemma nan_bits64_spec b : nan_bits64 b <-> isnan64 b = true.
Proof.
  unfold nan_bits64, isnan64. rewrite andb_true_iff, Z.eqb_eq, negb_true_iff, Z.eqb_neq. reflexivity.
Qed.
Lemma combine3 {A B} (l : list A) (k : list B) : length k = length l -> forall x, In x l -> exists y, In (x, (x, y)) (combine l (combine l k)) /\ In (x, y) (combine l k).
Proof.
  revert k. induction l as [|a l IH]; intros k Hk x Hx; [destruct Hx|]. destruct k as [|b k]; [discriminate Hk|]. cbn [combine]. destruct Hx as [-> | Hx].
  - exists b. split; left; reflexivity.
  - destruct (IH k ltac:(cbn in Hk; lia) x Hx) as (y & H1 & H2). exists y. split; right; assumption.
Qed.
Lemma kinds_length i : length (kinds i) = length (i_fields i).
Proof.
  unfold kinds. destruct (i_enc i); try apply map_length. destruct (_ || _); [|apply map_length].
  rewrite app_length, !map_length, <- app_length, firstn_skipn. reflexivity.
Qed.
Section Restored.
  Variables (ops : float_ops) (i : info) (n : nat) (data mem data2 : list Z).
  Hypotheses (HR : restored ops i i n data mem data2) (HE : i_enc i = ENC_LOSSY).
  Lemma restored_kept f : In f (i_fields i) -> stored f = true -> f_res f = None \/ (f_type f <> FLOAT32 /\ f_type f <> FLOAT64) ->
    field_kept (i_step i) (f_off f) (SizeOf (f_type f)) n data data2.
  Proof.
    intros Hf Hs Hr j Hj. destruct (combine3 _ _ (kinds_length i) f Hf) as (k & H1 & H2). destruct HR as (_ & R1 & _). rewrite (R1 j f f k Hj H1 Hs).
    assert (E : k = KId).
    { destruct (kind_cases i f k HE H2) as [[HT ->] | ->]; unfold vector_kind, lossy_kind; destruct Hr as [Hr|[N1 N2]]; try contradiction; rewrite ?Hr; [reflexivity|destruct (f_type f); reflexivity|].
      destruct (f_type f); try reflexivity; congruence. }
    rewrite E. reflexivity.
  Qed.
  Lemma restored_near f rb : x86_or_scalar ops -> usable_bits rb -> In f (i_fields i) -> stored f = true -> f_type f = FLOAT32 -> f_res f = Some rb ->
    field_near rb (i_step i) (f_off f) n data data2.
  Proof.
    intros HO (Fr & Hu) Hf Hs HT Hr j Hj. cbv zeta. destruct (combine3 _ _ (kinds_length i) f Hf) as (k & H1 & H2). destruct HR as (_ & R1 & _).
    pose proof (R1 j f f k Hj H1 Hs) as E. rewrite HT in E. unfold fbytes in E. rewrite HT in E. change (SizeOf FLOAT32) with 4%nat in E. rewrite E.
    assert (HK : k = K32 rb \/ k = KN rb).
    { destruct (kind_cases i f k HE H2) as [[_ ->] | ->]; unfold vector_kind, lossy_kind; rewrite ?HT, Hr; auto. }
    split.
    - intros Fx Hx. apply (recon32 ops rb); try assumption; reflexivity.
    - intros HN. apply nan_bits_spec in HN. apply nan_bits_spec. destruct HK as [-> | ->]; cbn [recon]; rewrite HN; rewrite le_val_le_bytes; reflexivity.
  Qed.
  Lemma restored_near64 f rb : x86_or_scalar ops -> usable_bits rb -> In f (i_fields i) -> stored f = true -> f_type f = FLOAT64 -> f_res f = Some rb ->
    field_near64 rb (i_step i) (f_off f) n data data2.
  Proof.
    intros HO (Fr & Hu) Hf Hs HT Hr j Hj. cbv zeta. destruct (combine3 _ _ (kinds_length i) f Hf) as (k & H1 & H2). destruct HR as (_ & R1 & _).
    pose proof (R1 j f f k Hj H1 Hs) as E. rewrite HT in E. unfold fbytes in E. rewrite HT in E. change (SizeOf FLOAT64) with 8%nat in E. rewrite E.
    assert (HK : k = K64 rb).
    { destruct (kind_cases i f k HE H2) as [[K _] | ->]; [congruence|]. unfold lossy_kind; rewrite HT, Hr; auto. }
    subst k. split.
    - intros Fx Hx. apply (recon64 ops rb); try assumption; reflexivity.
    - intros HN. apply nan_bits64_spec in HN. apply nan_bits64_spec. cbn [recon]; rewrite HN; rewrite le_val_le_bytes; reflexivity.
  Qed.
End Restored.
(** a field inside a point of less than 2^32 bytes is not at the reserved offset *)
Lemma inside_stored f step : 0 <= f_off f -> f_off f + 1 <= step -> step < 4294967296 -> stored f = true.
Proof. intros H1 H2 H3. unfold stored, kSkip. rewrite negb_true_iff, Z.eqb_neq. lia. Qed.

(** ** PCLPointCloudEncode / PCLPointCloudDecode *)
(** Size of the PCL types INT8 = 1, UINT8 = 2, INT16 = 3, UINT16 = 4, INT32 = 5, UINT32 = 6,
    FLOAT32 = 7, FLOAT64 = 8 *)
Definition pcl_size (code : Z) : nat := nth (Z.to_nat code) [0; 1; 1; 2; 2; 4; 4; 4; 8]%nat 0%nat.
Lemma layout_inside ft i f : layout_ok i -> yaml_header_info ft i -> In f (i_fields i) -> (1 <= SizeOf (f_type f))%nat -> stored f = true.
Proof.
  intros (_ & HL) HY Hf Hs. rewrite Forall_forall in HL. specialize (HL f Hf). destruct HY as (_ & _ & _ & HY & _). change (2 ^ 32) with 4294967296 in HY.
  apply (inside_stored f (i_step i)); lia.
Qed.
Lemma type_codes t : 1 <= t <= 8 -> t = 1 \/ t = 2 \/ t = 3 \/ t = 4 \/ t = 5 \/ t = 6 \/ t = 7 \/ t = 8.
Proof. lia. Qed.
(** PCL clouds: with a positive resolution, FLOAT32 fields are within the error bound, all other
    fields keep their bytes; with a resolution that is zero or negative, all fields do.  (The
    resolution is a double; it is rounded to float.) *)
Theorem C72_pcl ft ops L ppc probe c resolution out total out' c0 c2 : let i := ConvertToEncodingInfo c resolution in
  x86_or_scalar ops -> libs_ok L -> complete (pc_width c) (pc_height c) (pc_step c) (pc_data c) -> Forall (fun f => 1 <= pf_type f <= 8) (pc_fields c) ->
  encode_side ppc i (pc_data c) -> decode_side i i -> deltas_ok ops i ppc (pc_data c) -> yaml_header_info ft i -> exact_resolutions ft i -> byte_texts ft i -> bytes out ->
  PCLPointCloudEncode ft ops L ppc probe c resolution out = (Ok total, out') -> zlen out' < 1431260227 ->
  PCLPointCloudDecode ft ops L ppc out' c0 = Ok c2 ->
  let n := Z.to_nat (pc_width c * pc_height c) in
  forall f, In f (pc_fields c) ->
    (pf_type f = 7 -> 0 < resolution < 9218868437227405312 (* positive, finite *) -> usable_bits (narrow resolution) ->
       field_near (narrow resolution) (pc_step c) (pf_off f) n (pc_data c) (pc_data c2)) /\
    (pf_type f <> 7 \/ resolution = 0 \/ 2 ^ 63 <= resolution < 2 ^ 64 (* zero or negative *) ->
       field_kept (pc_step c) (pf_off f) (pcl_size (pf_type f)) n (pc_data c) (pc_data c2)).
Proof.
  intros i HO HLi HC HT HES HDS HD HY HX Hb Ho HE Hz HDc n f Hf.
  destruct (C56_pcl_roundtrip ft ops L ppc probe c resolution out total out' c0 HLi HC HT HES HDS HD HY HX Hb Ho HE) as (_ & H). destruct (H Hz) as ([(c2' & E & HP)|E] & _); [|congruence].
  assert (c2' = c2) by congruence. subst c2'. clear H E HDc HE.
  destruct HP as (_ & _ & _ & _ & _ & _ & _ & _ & _ & _ & _ & HR).
  assert (Hpos : 0 < pc_step c) by apply HES.
  assert (Hn : (length (pc_data c) / Z.to_nat (pc_step c))%nat = n).
  { destruct HC as (Hw & Hh & Hsz & _). unfold n. apply Nat2Z.inj. rewrite Nat2Z.inj_div, !Z2Nat.id by lia. fold (zlen (pc_data c)). rewrite Hsz. apply Z.div_mul. lia. }
  rewrite Hn in HR. set (g := pcl_point_field resolution f).
  assert (Hg : In g (i_fields i)) by (unfold i, ConvertToEncodingInfo, default_info; cbn [i_fields]; apply in_map; exact Hf).
  assert (Ht : 1 <= pf_type f <= 8) by (rewrite Forall_forall in HT; auto).
  assert (HSz : SizeOf (f_type g) = pcl_size (pf_type f) /\ (1 <= SizeOf (f_type g))%nat).
  { unfold g, pcl_point_field. cbn [f_type]. destruct (type_codes _ Ht) as [K|[K|[K|[K|[K|[K|[K|K]]]]]]]; rewrite K; split; cbn; try reflexivity; lia. }
  destruct HSz as [HSz HS1]. assert (Hst : stored g = true) by (apply (layout_inside ft i); [apply HES|exact HY|exact Hg|exact HS1]).
  change (pc_step c) with (i_step i). change (pf_off f) with (f_off g). split.
  - intros K Hr Hu. apply (restored_near ops i n _ _ _ HR eq_refl g (narrow resolution) HO Hu Hg Hst); unfold g, pcl_point_field; cbn [f_type f_res]; rewrite K; [reflexivity|].
    cbn [pcl_type Codec.is_float32 andb]. unfold f64_gt0. replace ((0 <? resolution) && (resolution <=? 9218868437227405312)) with true by (symmetry; apply andb_true_iff; lia). reflexivity.
  - intros K. rewrite <- HSz. apply (restored_kept ops i n _ _ _ HR eq_refl g Hg Hst). left. unfold g, pcl_point_field; cbn [f_res].
    assert (E : Codec.is_float32 (pcl_type (pf_type f)) && f64_gt0 resolution = false); [|rewrite E; reflexivity].
    destruct K as [K|K].
    + destruct (type_codes _ Ht) as [J|[J|[J|[J|[J|[J|[J|J]]]]]]]; rewrite J in *; try reflexivity. contradiction.
    + rewrite andb_false_iff. right. unfold f64_gt0. change (2 ^ 63) with 9223372036854775808 in K. lia.
Qed.

(** ** pcl::PointCloud<PointXYZ> and <PointXYZI> *)
(** x, y, z are floats at offsets 0, 4, 8; intensity is a float at offset 16, kept exactly. *)
Theorem C72_points ft ops L ppc probe t c resolution out total out' c0 c2 : t = xyz \/ t = xyzi ->
  let step := match t with mkPT s _ => s end in
  x86_or_scalar ops -> libs_ok L -> (0 < ppc)%nat -> Z.of_nat ppc <= 65535 ->
  complete (pt_width c) (pt_height c) step (pt_points c) -> pt_width c < 2 ^ 32 -> pt_height c < 2 ^ 32 -> bytes (pt_points c) -> zlen (pt_points c) <= 2147483647 ->
  usable_resolution ft (narrow resolution) -> usable_bits (narrow resolution) -> bytes out ->
  PointcloudEncode ft ops L ppc probe t c resolution out = (Ok total, out') -> zlen out' < 1431260227 ->
  PointcloudDecode ft ops L ppc t out' c0 = Ok c2 ->
  let n := Z.to_nat (pt_width c * pt_height c) in
  (t = xyz -> step = 16) /\ (t = xyzi -> step = 32) /\
  Forall (fun o => field_near (narrow resolution) step o n (pt_points c) (pt_points c2)) [0; 4; 8] /\
  (t = xyzi -> field_kept step 16 4 n (pt_points c) (pt_points c2)).
Proof.
  intros Ht step HO HLi Hp1 Hp2 HC Hw Hh HB HM HU1 HU2 Ho HE Hz HDc n. change (match t with mkPT s _ => s end) with (pt_size t) in step.
  destruct (C57_point_roundtrip ft ops L ppc probe t c resolution out total out' c0 Ht HLi Hp1 Hp2 HC Hw Hh HB HM HU1 Ho HE) as (_ & H). destruct (H Hz) as (c2' & E & _ & _ & HR).
  assert (c2' = c2) by congruence. subst c2'. clear H E HDc HE.
  assert (Hs0 : 16 <= pt_size t) by (destruct Ht as [-> | ->]; cbn; lia).
  assert (Hn : (length (pt_points c) / Z.to_nat (pt_size t))%nat = n).
  { destruct HC as (Hw0 & Hh0 & Hsz & _). unfold n. apply Nat2Z.inj. rewrite Nat2Z.inj_div, !Z2Nat.id by lia. fold (zlen (pt_points c)). rewrite Hsz. apply Z.div_mul. unfold step. lia. }
  rewrite Hn in HR. split; [intros E; unfold step; rewrite E; reflexivity|]. split; [intros E; unfold step; rewrite E; reflexivity|].
  set (i := pt_info t (pt_width c) (pt_height c) (narrow resolution)) in *.
  assert (G : forall nm o, In (mkField nm o FLOAT32 (Some (narrow resolution))) (i_fields i) -> 0 <= o <= 8 -> field_near (narrow resolution) step o n (pt_points c) (pt_points c2)).
  { intros nm o Hi Hoo. pose proof (restored_near ops i n _ _ _ HR eq_refl _ (narrow resolution) HO HU2 Hi) as K. cbn [f_off f_type f_res] in K. apply K; try reflexivity.
    unfold stored, kSkip. cbn [f_off]. rewrite negb_true_iff, Z.eqb_neq. lia. }
  split.
  - destruct Ht as [-> | ->]; (apply Forall_cons; [eapply G; [left; reflexivity|lia]|]; apply Forall_cons; [eapply G; [right; left; reflexivity|lia]|]; apply Forall_cons; [eapply G; [right; right; left; reflexivity|lia]|apply Forall_nil]).
  - intros E. assert (Hi : exists nm, In (mkField nm 16 FLOAT32 None) (i_fields i)) by (unfold i; rewrite E; eexists; right; right; right; left; reflexivity). destruct Hi as (nm & Hi).
    pose proof (restored_kept ops i n _ _ _ HR eq_refl _ Hi eq_refl) as K. cbn [f_off f_type f_res SizeOf] in K. apply K. now left.
Qed.

(** ** The Wasm entry points *)
Lemma read_fields_plain h : forall n d fs d', read_fields h n d = Ok (fs, d') -> Forall (fun f => f_res f = None) fs.
Proof.
  induction n as [|n IH]; intros d fs d' H; cbn [read_fields] in H.
  - apply ok_pair in H. destruct H as [<- _]. constructor.
  - apply bind_ok in H. destruct H as ((f & d1) & H1 & H). apply bind_ok in H. destruct H as ((fs1 & d2) & H2 & H). apply ok_pair in H. destruct H as [<- _].
    constructor; [|exact (IH _ _ _ H2)]. unfold read_field in H1.
    apply bind_ok in H1. destruct H1 as ((a1 & e1) & _ & H1). apply bind_ok in H1. destruct H1 as ((a2 & e2) & _ & H1). apply bind_ok in H1. destruct H1 as ((a3 & e3) & _ & H1). apply bind_ok in H1. destruct H1 as ((a4 & e4) & _ & H1).
    apply ok_pair in H1. destruct H1 as [<- _]. reflexivity.
Qed.
(** the fields of a parsed message have no resolution *)
Lemma parsed_plain msg c : getDeserializedPointCloudMessage msg = Ok c -> Forall (fun f => f_res f = None) (r_fields c).
Proof.
  intros H. unfold getDeserializedPointCloudMessage in H. apply bind_ok in H. destruct H as ((h & d) & _ & H). apply bind_ok in H. destruct H as ((c' & d') & H & HC). assert (c' = c) by congruence. subst c'. clear HC.
  unfold readPointCloud2MessageCommon in H. do 6 (apply bind_ok in H; destruct H as ((? & ?) & _ & H)). apply bind_ok in H. destruct H as ((fs & ?) & HF & H). do 5 (apply bind_ok in H; destruct H as ((? & ?) & _ & H)).
  apply ok_pair in H. destruct H as [<- _]. cbn [r_fields]. exact (read_fields_plain _ _ _ _ _ HF).
Qed.
Lemma sub_app off sz (a b : list Z) : 0 <= off -> off + Z.of_nat sz <= zlen a -> sub off sz (a ++ b) = sub off sz a.
Proof.
  intros H0 H. unfold sub, zlen in *. rewrite skipn_app, firstn_app, skipn_length. replace (sz - (length a - Z.to_nat off))%nat with O by lia. rewrite firstn_O, app_nil_r. reflexivity.
Qed.
Lemma kept_app step off sz n a b x : 0 <= step -> 0 <= off -> off + Z.of_nat sz <= step -> Z.of_nat n * step <= zlen b -> field_kept step off sz n a b -> field_kept step off sz n a (b ++ x).
Proof. intros H1 H2 H3 H4 H j Hj. rewrite sub_app; [exact (H j Hj)|nia|nia]. Qed.
Lemma near_app rb step off n a b x : 0 <= step -> 0 <= off -> off + 4 <= step -> Z.of_nat n * step <= zlen b -> field_near rb step off n a b -> field_near rb step off n a (b ++ x).
Proof. intros H1 H2 H3 H4 H j Hj. cbv zeta. rewrite sub_app; [exact (H j Hj)|nia|change (Z.of_nat 4) with 4; nia]. Qed.
(** A PointCloud2 message encoded with resolution [r], and the result decoded: what comes out, if
    anything does, has the FLOAT32 fields within the bound for [r] and all other fields unchanged. *)
Theorem C72_wasm ft ops L ppc probe msg r out c n s out2 m mem : let i := message_info c r in
  x86_or_scalar ops -> libs_ok L -> bytes out -> zlen msg < 2 ^ 32 -> zlen msg <= zlen out -> getDeserializedPointCloudMessage msg = Ok c ->
  complete (r_width c) (r_height c) (r_step c) (r_data c) -> encode_side ppc i (r_data c) -> decode_side i i -> deltas_ok ops i ppc (r_data c) ->
  yaml_header_info ft i -> exact_resolutions ft i -> byte_texts ft i ->
  cldn_EncodePointcloudMessage ft ops L ppc probe msg r out = (Ok n, s) -> 0 < n < 1431260227 -> zlen (r_data c) <= zlen out2 ->
  cldn_DecodeCompressedData ft ops L ppc (firstn (Z.to_nat n) s) out2 = (Ok m, mem) -> 0 < m ->
  m = zlen (r_data c) /\ let pts := Z.to_nat (r_width c * r_height c) in forall f, In f (r_fields c) ->
    (f_type f = FLOAT32 -> usable_bits r -> field_near r (r_step c) (f_off f) pts (r_data c) mem) /\
    (f_type f <> FLOAT32 -> field_kept (r_step c) (f_off f) (SizeOf (f_type f)) pts (r_data c) mem).
Proof.
  intros i HO HLi Ho H32 Hm HG HC HES HDS HD HY HX Hb HE Hn Hz HDc Hm0.
  destruct (C52_encode_message ft ops L ppc probe msg r out c HLi Ho H32 Hm HG HES Hb) as (_ & [K|(n' & K & ST)]); rewrite HE in K; cbn [fst snd] in *.
  { assert (n = 0) by congruence. lia. }
  assert (n' = n) by congruence. subst n'. rewrite HE in ST. cbn [snd] in ST.
  destruct (C52_decode_data ft ops L ppc probe i (r_data c) n s out2 HLi HC HES HDS HD HY HX Hb eq_refl ST ltac:(lia) Hz) as ([K1|K1] & _); rewrite HDc in K1.
  2: { assert (m = 0) by congruence. lia. }
  destruct K1 as (mem' & E & HR). assert (EM : m = zlen (r_data c)) by congruence. assert (EM2 : mem = mem' ++ skipn (length (r_data c)) out2) by congruence. clear E.
  split; [exact EM|]. intros f Hf. set (pts := Z.to_nat (r_width c * r_height c)). assert (Hpos : 0 < r_step c) by apply HES.
  assert (Hp : (length (r_data c) / Z.to_nat (i_step i))%nat = pts).
  { destruct HC as (Hw0 & Hh0 & Hsz & _). unfold pts. change (i_step i) with (r_step c). apply Nat2Z.inj. rewrite Nat2Z.inj_div, !Z2Nat.id by lia. fold (zlen (r_data c)). rewrite Hsz. apply Z.div_mul. lia. }
  rewrite Hp in HR. set (g := with_resolution r f).
  assert (Hg : In g (i_fields i)) by (unfold i, message_info; cbn [i_fields toEncodingInfo]; apply in_map; exact Hf).
  assert (HN : f_res f = None) by (pose proof (parsed_plain _ _ HG) as P; rewrite Forall_forall in P; auto).
  assert (HL : 0 <= f_off f /\ f_off f + Z.of_nat (SizeOf (f_type f)) <= r_step c). { destruct HES as ((_ & HL) & _). rewrite Forall_forall in HL. exact (HL g Hg). }
  assert (Hsz : Z.of_nat pts * r_step c <= zlen mem').
  { destruct HR as (HR & _). unfold zlen. rewrite HR, firstn_length. destruct HC as (Hw0 & Hh0 & Hsz & _). unfold zlen in *. unfold pts. rewrite Z2Nat.id by lia. lia. }
  rewrite EM2. split.
  - intros HT Hu. rewrite HT in HL. cbn [SizeOf] in HL. apply near_app; try lia. change (r_step c) with (i_step i). change (f_off f) with (f_off g).
    apply (restored_near ops i pts _ _ _ HR eq_refl g r HO Hu Hg); [|exact HT|unfold g, with_resolution; cbn [f_res]; rewrite HT; reflexivity].
    apply (layout_inside ft i); [apply HES|exact HY|exact Hg|]. change (f_type g) with (f_type f). rewrite HT. cbn. lia.
  - intros HT. apply kept_app; try lia. destruct (SizeOf (f_type f)) as [|sz] eqn:ES; [intros j _; reflexivity|]. rewrite <- ES. change (r_step c) with (i_step i). change (f_off f) with (f_off g). change (f_type f) with (f_type g).
    apply (restored_kept ops i pts _ _ _ HR eq_refl g Hg).
    + apply (layout_inside ft i); [apply HES|exact HY|exact Hg|]. change (f_type g) with (f_type f). lia.
    + left. unfold g, with_resolution. cbn [f_res]. destruct (f_type f); try exact HN. contradiction.
Qed.

(** ** ROS: plugin, converter node, serialised message *)
(** [cloud_restored]: what C61, C63 and C64 deliver.  Codes as in PCL. *)
Theorem C72_ros ft ops ppc m rb data : x86_or_scalar ops -> let i := msg_info m rb in sendable ft ops ppc i m -> cloud_restored ops i m data ->
  let n := Z.to_nat (m_width m * m_height m) in
  forall f, In f (m_fields m) ->
    (pf_type f = 7 -> usable_bits rb -> field_near rb (m_step m) (pf_off f) n (m_data m) data) /\
    (1 <= pf_type f <= 8 -> pf_type f <> 7 -> field_kept (m_step m) (pf_off f) (pcl_size (pf_type f)) n (m_data m) data).
Proof.
  intros HO i (HC & HES & HDS & HD & HY & HX & Hb) HR n f Hf. unfold cloud_restored, PropsTransport.points in HR. assert (Hpos : 0 < m_step m) by apply HES.
  assert (Hn : (length (m_data m) / Z.to_nat (m_step m))%nat = n).
  { destruct HC as (Hw & Hh & Hsz & _). unfold n. apply Nat2Z.inj. rewrite Nat2Z.inj_div, !Z2Nat.id by lia. fold (zlen (m_data m)). rewrite Hsz. apply Z.div_mul. lia. }
  rewrite Hn in HR. set (g := msg_field rb f).
  assert (Hg : In g (i_fields i)) by (unfold i, msg_info, default_info; cbn [i_fields]; apply in_map; exact Hf).
  assert (HS : 1 <= pf_type f <= 8 -> SizeOf (f_type g) = pcl_size (pf_type f) /\ (1 <= SizeOf (f_type g))%nat).
  { intros Ht. unfold g, msg_field. cbn [f_type]. destruct (type_codes _ Ht) as [K|[K|[K|[K|[K|[K|[K|K]]]]]]]; rewrite K; split; cbn; try reflexivity; lia. }
  change (m_step m) with (i_step i). change (pf_off f) with (f_off g). split.
  - intros K Hu. destruct (HS ltac:(lia)) as (_ & HS1). apply (restored_near ops i n _ _ _ HR eq_refl g rb HO Hu Hg); [|unfold g, msg_field; cbn [f_type]; rewrite K; reflexivity|unfold g, msg_field; cbn [f_res]; rewrite K; reflexivity].
    apply (layout_inside ft i); [apply HES|exact HY|exact Hg|exact HS1].
  - intros Ht K. destruct (HS Ht) as (HS0 & HS1). rewrite <- HS0. apply (restored_kept ops i n _ _ _ HR eq_refl g Hg).
    + apply (layout_inside ft i); [apply HES|exact HY|exact Hg|exact HS1].
    + left. unfold g, msg_field. cbn [f_res]. destruct (type_codes _ Ht) as [J|[J|[J|[J|[J|[J|[J|J]]]]]]]; rewrite J in *; try reflexivity. contradiction.
Qed.

(** ** Recordings: the converter *)
(** What the converter promises for a field [f], given a profile and an optional default: its own
    resolution if the profile names it, the default for other FLOAT32 fields, else exactly. *)
Definition field_as_profiled (prof : list (list Z * Z)) (default : option Z) (step : Z) (n : nat) (a b : list Z) (f : field) : Prop :=
  (forall r, In (f_name f, r) prof -> r <> 0 -> r <> 2147483648 (* not 0.0, -0.0 *) ->
     (f_type f = FLOAT32 -> usable_bits r -> field_near r step (f_off f) n a b) /\
     (f_type f = FLOAT64 -> usable_bits r -> field_near64 r step (f_off f) n a b) /\
     (f_type f <> FLOAT32 -> f_type f <> FLOAT64 -> field_kept step (f_off f) (SizeOf (f_type f)) n a b)) /\
  (~ In (f_name f) (map fst prof) -> f_type f = FLOAT32 -> forall d, default = Some d -> usable_bits d -> field_near d step (f_off f) n a b) /\
  (~ In (f_name f) (map fst prof) -> f_type f <> FLOAT32 \/ default = None -> field_kept step (f_off f) (SizeOf (f_type f)) n a b).
(** the cloud and the encoding info the converter works with *)
Definition profiled_cloud (prof : list (list Z * Z)) (default : option Z) (c : ros_cloud) : ros_cloud :=
  mkRos (r_cdr c) (r_sec c) (r_nsec c) (r_frame c) (r_height c) (r_width c) (applyResolutionProfile prof (r_fields c) default) (r_step c) (r_row c) (r_data c) (r_dense c).
Definition recording_info (prof : list (list Z * Z)) (default : option Z) (zstd : bool) (c : ros_cloud) : info :=
  mkInfo (applyResolutionProfile prof (r_fields c) default) (r_width c) (r_height c) (r_step c) ENC_LOSSY [] (if zstd then COMP_NONE else COMP_ZSTD) true 5.
Lemma profile_fields p default fs : NoDup (map fst p) ->
  Forall (fun g => exists f, In f fs /\ f_name g = f_name f /\ f_off g = f_off f /\ f_type g = f_type f) (applyResolutionProfile p fs default) /\
  (length (applyResolutionProfile p fs default) <= length fs)%nat.
Proof.
  intros HN. pose proof (proj2 (C46_profile_semantics p default fs _ HN) eq_refl) as H. induction H as [|f fs out r HI Hr _ IH|f fs out r HI Hr Hr' _ IH|f fs out d HI Ht _ _ IH|f fs out HI Ht _ IH]; [split; [constructor|apply Nat.le_refl]|..]; destruct IH as [IH1 IH2].
  2,3,4: (split; [|cbn [length]; lia]; constructor; [exists f; split; [now left|]; split; [reflexivity|]; split; reflexivity|]).
  - split; [|cbn [length]; lia]. eapply Forall_impl; [|exact IH1]. intros g (x & A & B). exists x. split; [now right|exact B].
  - eapply Forall_impl; [|exact IH1]. intros g (x & A & B). exists x. split; [now right|exact B].
  - eapply Forall_impl; [|exact IH1]. intros g (x & A & B). exists x. split; [now right|exact B].
  - eapply Forall_impl; [|exact IH1]. intros g (x & A & B). exists x. split; [now right|exact B].
Qed.
Lemma profile_ok p default c : NoDup (map fst p) -> ros_ok c -> ros_ok (profiled_cloud p default c).
Proof.
  intros HN (H1 & H2 & H3 & H4 & H5 & H6 & H7 & H8 & H9 & H10 & H11). destruct (profile_fields p default (r_fields c) HN) as [A B]. unfold ros_ok, profiled_cloud. cbn [r_sec r_nsec r_frame r_height r_width r_fields r_step r_row r_data r_dense].
  do 5 (split; [assumption|]). split; [unfold zlen in *; lia|]. split; [|auto]. eapply Forall_impl; [|exact A]. intros g (f & Hf & E1 & E2 & E3). rewrite Forall_forall in H7. destruct (H7 f Hf) as (K1 & K2 & K3 & K4). unfold ros_field_ok. rewrite E1, E2, E3. auto.
Qed.
Lemma profile_removed p default fs f : NoDup (map fst p) -> Forall (fun f => f_res f = None) fs ->
  (In f (map plain_field (applyResolutionProfile p fs default)) <-> In f fs /\ ~ In (f_name f, 0) p /\ ~ In (f_name f, 2147483648) p).
Proof.
  intros HN HP. pose proof (proj2 (C46_profile_semantics p default fs _ HN) eq_refl) as H.
  assert (U : forall n a b, In (n, a) p -> In (n, b) p -> a = b). { intros n a b A B. pose proof (find_in _ _ _ HN A). pose proof (find_in _ _ _ HN B). congruence. }
  assert (V : forall n, ~ In n (map fst p) -> forall r, ~ In (n, r) p). { intros n A r B. apply A. change n with (fst (n, r)). now apply in_map. }
  assert (E : forall g : field, f_res g = None -> mkField (f_name g) (f_off g) (f_type g) None = g) by (intros [] Hg; cbn in *; congruence).
  induction H as [|g fs out r HI Hr _ IH|g fs out r HI Hr Hr' _ IH|g fs out d HI Ht _ _ IH|g fs out HI Ht _ IH]; [cbn; tauto|..]; pose proof (Forall_inv HP) as P1; specialize (IH (Forall_inv_tail HP)).
  - rewrite IH. split; [intros (A & B); split; [now right|exact B]|]. intros ([A|A] & B1 & B2); [subst g|now split]. exfalso. destruct Hr as [-> | ->]; tauto.
  - cbn [map In]. rewrite IH. unfold plain_field. cbn [f_name f_off f_type]. rewrite (E g P1). split; [|tauto]. intros [A|A]; [subst g; split; [now left|]|tauto]. split; intros B; pose proof (U _ _ _ HI B); congruence.
  - cbn [map In]. rewrite IH. unfold plain_field. cbn [f_name f_off f_type]. rewrite (E g P1). split; [|tauto]. intros [A|A]; [subst g; split; [now left|]|tauto]. split; apply V; exact HI.
  - cbn [map In]. rewrite IH. unfold plain_field. rewrite (E g P1). split; [|tauto]. intros [A|A]; [subst g; split; [now left|]|tauto]. split; apply V; exact HI.
Qed.
Lemma profile_listed p default fs f r : NoDup (map fst p) -> In f fs -> In (f_name f, r) p -> r <> 0 -> r <> 2147483648 ->
  In (mkField (f_name f) (f_off f) (f_type f) (Some r)) (applyResolutionProfile p fs default).
Proof.
  intros HN Hf Hr N1 N2. unfold applyResolutionProfile. cbv zeta. apply in_map_iff. exists f. rewrite (find_in _ _ _ HN Hr). split; [reflexivity|]. apply filter_In. split; [exact Hf|]. rewrite (find_in _ _ _ HN Hr). unfold f32_is0. lia.
Qed.
Lemma profile_default p fs f d : In f fs -> ~ In (f_name f) (map fst p) -> f_type f = FLOAT32 ->
  In (mkField (f_name f) (f_off f) (f_type f) (Some d)) (applyResolutionProfile p fs (Some d)).
Proof.
  intros Hf Hr HT. unfold applyResolutionProfile. cbv zeta. apply in_map_iff. exists f. rewrite (find_none _ _ Hr), HT. split; [unfold set_res; rewrite HT; reflexivity|]. apply filter_In. split; [exact Hf|]. rewrite (find_none _ _ Hr). reflexivity.
Qed.
Lemma profile_kept p default fs f : In f fs -> ~ In (f_name f) (map fst p) -> f_type f <> FLOAT32 \/ default = None -> In f (applyResolutionProfile p fs default).
Proof.
  intros Hf Hr HT. unfold applyResolutionProfile. cbv zeta. apply in_map_iff. exists f. rewrite (find_none _ _ Hr). split.
  - destruct default as [d|]; [|reflexivity]. destruct HT as [HT|]; [|discriminate]. destruct (f_type f); try reflexivity. contradiction.
  - apply filter_In. split; [exact Hf|]. rewrite (find_none _ _ Hr). reflexivity.
Qed.
Lemma message_again ft ops L ppc probe c i msg :
  libs_ok L -> ros_ok c -> dds (r_cdr c) -> c_endian (r_cdr c) = LITTLE ->
  i_width i = r_width c -> i_height i = r_height c -> i_step i = r_step c -> zlen (r_data c) = r_width c * r_height c * r_step c ->
  encode_side ppc i (r_data c) -> decode_side i i -> deltas_ok ops i ppc (r_data c) -> yaml_header_info ft i -> exact_resolutions ft i -> byte_texts ft i ->
  convertPointCloud2ToCompressedCloud ft ops L ppc probe c i = Ok msg -> zlen msg < 1431260227 ->
  exists c1, getDeserializedPointCloudMessage msg = Ok c1 /\ (restores ft ops L ppc c i c1 \/ convertCompressedCloudToPointCloud2 ft ops L ppc c1 = Throw).
Proof.
  intros HLi Hok Hd Hle HWi HHi HSi Hsz HES HDS HD HY HX Hb0 HC HZ.
  assert (Hb : forall hdr, EncodeHeader ft i HYaml = Ok hdr -> bytes hdr) by (intros hdr; apply (header_bytes ft i hdr); [destruct HY; lia|exact Hb0]). clear Hb0.
  destruct (compress_payload ft ops L ppc probe c i msg HLi HES Hb HC) as (s & payload & HW & HP & HM).
  assert (HL : zlen payload <= zlen msg).
  { unfold enc_string in HM. destruct (_ <=? _); [discriminate|]. assert (E : msg = enc_num (r_cdr c) 4 (zlen format_name + 1) (enc_num (r_cdr c) 1 (r_dense c) (s ++ le_bytes 4 (zlen payload) ++ payload)) ++ format_name ++ [0]) by congruence. rewrite E.
    unfold enc_num. rewrite !zlen_app. unfold zlen. lia. }
  pose proof (header_begin_aligned _ _ HW) as [_ HA]. assert (HP32 : zlen payload < 4294967296) by lia. rewrite (buffer_little _ _ _ Hle HA HP32) in HM.
  exists (parsed (r_cdr c) c (u32 (r_step c * r_width c)) payload). split.
  - unfold enc_string in HM. destruct (_ <=? _); [discriminate|]. assert (HM' : msg = enc_num (r_cdr c) 4 (zlen format_name + 1) (enc_num (r_cdr c) 1 (r_dense c) (enc_buffer (r_cdr c) payload s)) ++ format_name ++ [0]) by congruence.
    subst msg. unfold enc_num at 1. rewrite <- !app_assoc. apply parse_written; assumption.
  - apply (decompress_payload ft ops L ppc probe c i); try assumption; [apply u32_in|lia].
Qed.
(** A recorded message: after encoding with a profile (and without visualisation filtering) and
    decoding, it has the same stamp, frame, dimensions and density; the fields the profile removes
    (resolution 0) are gone, the others are as promised. *)
Theorem C72_mcap ft ops L ppc probe prof default zstd data c msg msg2 : let i := recording_info prof default zstd c in
  x86_or_scalar ops -> libs_ok L -> NoDup (map fst prof) -> getDeserializedPointCloudMessage data = Ok c -> ros_ok c -> dds (r_cdr c) -> c_endian (r_cdr c) = LITTLE ->
  complete (r_width c) (r_height c) (r_step c) (r_data c) -> encode_side ppc i (r_data c) -> decode_side i i -> deltas_ok ops i ppc (r_data c) ->
  yaml_header_info ft i -> exact_resolutions ft i -> byte_texts ft i ->
  Mcap.encode_payload ft ops L ppc probe prof default zstd false data = Ok msg -> zlen msg < 1431260227 ->
  Mcap.decode_payload ft ops L ppc msg = Ok msg2 ->
  exists c2, getDeserializedPointCloudMessage msg2 = Ok c2 /\
    r_sec c2 = r_sec c /\ r_nsec c2 = r_nsec c /\ r_frame c2 = r_frame c /\ r_width c2 = r_width c /\ r_height c2 = r_height c /\ r_step c2 = r_step c /\ r_dense c2 = r_dense c /\ zlen (r_data c2) = zlen (r_data c) /\
    (forall f, In f (r_fields c2) <-> In f (r_fields c) /\ ~ In (f_name f, 0) prof /\ ~ In (f_name f, 2147483648) prof) /\
    Forall (field_as_profiled prof default (r_step c) (Z.to_nat (r_width c * r_height c)) (r_data c) (r_data c2)) (r_fields c).
Proof.
  intros i HO HLi HN HG Hok Hd Hle HC HES HDS HD HY HX Hb HE HZ HDc.
  unfold Mcap.encode_payload in HE. rewrite HG in HE. cbn [bind] in HE. fold (profiled_cloud prof default c) in HE. set (cp := profiled_cloud prof default c) in *.
  assert (Ei : (if zstd then mkInfo (i_fields (toEncodingInfo cp)) (i_width (toEncodingInfo cp)) (i_height (toEncodingInfo cp)) (i_step (toEncodingInfo cp)) (i_enc (toEncodingInfo cp)) (i_cfg (toEncodingInfo cp)) COMP_NONE (i_threads (toEncodingInfo cp)) (i_version (toEncodingInfo cp)) else toEncodingInfo cp) = i).
  { unfold i, recording_info. destruct zstd; reflexivity. }
  rewrite Ei in HE. clear Ei.
  assert (HCp : zlen (r_data cp) = r_width cp * r_height cp * r_step cp) by apply HC.
  destruct (message_again ft ops L ppc probe cp i msg HLi (profile_ok _ _ _ HN Hok) Hd Hle eq_refl eq_refl eq_refl HCp HES HDS HD HY HX Hb HE HZ) as (c1 & HG1 & HR).
  unfold Mcap.decode_payload in HDc. rewrite HG1 in HDc. cbn [bind] in HDc. destruct HR as [(m2 & data2 & E & _ & HG2 & HR)|E]; [|congruence].
  assert (m2 = msg2) by congruence. subst m2. exists (parsed (r_cdr cp) cp (u32 (r_step cp * r_width cp)) data2). split; [exact HG2|].
  assert (Hpos : 0 < r_step c) by apply HES. destruct HC as (Hw & Hh & Hsz & _).
  assert (Hn : (length (r_data c) / Z.to_nat (r_step c))%nat = Z.to_nat (r_width c * r_height c)).
  { apply Nat2Z.inj. rewrite Nat2Z.inj_div, !Z2Nat.id by lia. fold (zlen (r_data c)). rewrite Hsz. apply Z.div_mul. lia. }
  change (r_data cp) with (r_data c) in HR. change (i_step i) with (r_step c) in HR. rewrite Hn in HR. set (n := Z.to_nat (r_width c * r_height c)) in *.
  unfold parsed. cbn [r_sec r_nsec r_frame r_height r_width r_fields r_step r_row r_data r_dense].
  do 7 (split; [reflexivity|]). split; [destruct HR as (HR & _); unfold zlen; rewrite HR, repeat_length; reflexivity|].
  pose proof (parsed_plain _ _ HG) as HP. split; [intros f; exact (profile_removed prof default (r_fields c) f HN HP)|].
  assert (ST : forall g, In g (i_fields i) -> (1 <= SizeOf (f_type g))%nat -> stored g = true) by (intros g Hg Hs; exact (layout_inside ft i g (proj1 HES) HY Hg Hs)).
  assert (KP : forall g, In g (i_fields i) -> f_res g = None \/ (f_type g <> FLOAT32 /\ f_type g <> FLOAT64) -> field_kept (r_step c) (f_off g) (SizeOf (f_type g)) n (r_data c) data2).
  { intros g Hg Hr. destruct (SizeOf (f_type g)) as [|sz] eqn:ES; [intros j _; reflexivity|]. rewrite <- ES. change (r_step c) with (i_step i). apply (restored_kept ops i n _ _ _ HR eq_refl g Hg); [apply ST; [exact Hg|lia]|exact Hr]. }
  apply Forall_forall. intros f Hf. split; [|split].
  - intros r Hr N1 N2. pose proof (profile_listed prof default (r_fields c) f r HN Hf Hr N1 N2) as Hg. change (In (mkField (f_name f) (f_off f) (f_type f) (Some r)) (i_fields i)) in Hg.
    split; [|split].
    + intros HT Hu. change (r_step c) with (i_step i). apply (restored_near ops i n _ _ _ HR eq_refl _ r HO Hu Hg); [apply ST; [exact Hg|cbn [f_type]; rewrite HT; cbn; lia]|exact HT|reflexivity].
    + intros HT Hu. change (r_step c) with (i_step i). apply (restored_near64 ops i n _ _ _ HR eq_refl _ r HO Hu Hg); [apply ST; [exact Hg|cbn [f_type]; rewrite HT; cbn; lia]|exact HT|reflexivity].
    + intros T1 T2. apply (KP _ Hg). right. auto.
  - intros HI HT d Ed Hu. assert (Hg : In (mkField (f_name f) (f_off f) (f_type f) (Some d)) (i_fields i)) by (unfold i, recording_info; cbn [i_fields]; rewrite Ed; apply profile_default; assumption).
    change (r_step c) with (i_step i). apply (restored_near ops i n _ _ _ HR eq_refl _ d HO Hu Hg); [apply ST; [exact Hg|cbn [f_type]; rewrite HT; cbn; lia]|exact HT|reflexivity].
  - intros HI HT. pose proof (profile_kept prof default (r_fields c) f Hf HI HT) as Hg. apply (KP _ Hg). left. rewrite Forall_forall in HP. auto.
Qed.

(** ** Cases *)
Lemma milli_bits : usable_bits 981668463.
Proof. split; [split; [split; [discriminate|reflexivity]|discriminate]|exact milli_usable]. Qed.
From Verif Require Import FloatText ApiFacts YamlFacts YamlRT.
(** two points: x y z floats, r (removed by the profile), t a double the profile names *)
Definition rec_point (x y z r t : Z) : list Z := le_bytes 4 x ++ le_bytes 4 y ++ le_bytes 4 z ++ le_bytes 2 r ++ [1; 2] ++ le_bytes 8 t.
Definition rec_cloud : ros_cloud :=
  mkRos (mkCdr LITTLE PLAIN_CDR DDS_CDR) 17 5 [109] 1 2
    [mkField [120] 0 FLOAT32 None; mkField [121] 4 FLOAT32 None; mkField [122] 8 FLOAT32 None; mkField [114] 12 UINT16 None; mkField [116] 16 FLOAT64 None; mkField [105] 14 UINT8 None]
    24 48 (rec_point 1069547520 3222274048 2143289344 7 4614256656552045848 ++ rec_point 0 1077936128 1065353216 500 4613303445314885481) 1.
Definition rec_profile : list (list Z * Z) := [([114], 0); ([116], 981668463); ([120], 981668463)].
Example C72_mcap_case : let c := rec_cloud in let i := recording_info rec_profile (Some 981668463) false c in
  usable_bits 981668463 /\ libs_ok store_libs /\ NoDup (map fst rec_profile) /\ getDeserializedPointCloudMessage (raw_message c) = Ok c /\ ros_ok c /\ dds (r_cdr c) /\
  complete (r_width c) (r_height c) (r_step c) (r_data c) /\ encode_side 2 i (r_data c) /\ decode_side i i /\ deltas_ok sse_ops i 2 (r_data c) /\
  yaml_header_info gnu_text i /\ exact_resolutions gnu_text i /\ byte_texts gnu_text i /\
  exists msg msg2 c2, Mcap.encode_payload gnu_text sse_ops store_libs 2 4096 rec_profile (Some 981668463) false false (raw_message c) = Ok msg /\ zlen msg < 1431260227 /\
    Mcap.decode_payload gnu_text sse_ops store_libs 2 msg = Ok msg2 /\ getDeserializedPointCloudMessage msg2 = Ok c2 /\ map f_name (r_fields c2) = [[120]; [121]; [122]; [116]; [105]] /\
    sub 0 4 (r_data c2) <> sub 0 4 (r_data c) /\ sub 14 1 (r_data c2) = [1].
Proof.
  cbv zeta. split; [exact milli_bits|]. split; [apply store_libs_ok|]. split; [repeat constructor; cbn; intuition congruence|]. split; [vm_compute; reflexivity|]. split.
  { unfold ros_ok, u32_range, rec_cloud. cbn [r_sec r_nsec r_frame r_height r_width r_fields r_step r_row r_data r_dense]. do 2 (split; [lia|]). split; [reflexivity|]. do 2 (split; [lia|]). split; [reflexivity|].
    split; [|split; [lia|split; [lia|split; [vm_compute; reflexivity|lia]]]]. apply Forall_forall. intros f Hf. cbn in Hf. unfold ros_field_ok, u32_range. repeat (destruct Hf as [<-|Hf]; [vm_compute; repeat split; congruence|]). contradiction. }
  split; [split; reflexivity|]. split; [repeat split; vm_compute; congruence|]. split.
  { split; [split; [reflexivity|repeat constructor; cbn; lia]|]. split; [exact I|]. split; [|apply bytesb; vm_compute; reflexivity]. split; [lia|]. split; [lia|vm_compute; discriminate]. }
  split.
  { split; [split; [repeat constructor|auto]|]. split; [split; [reflexivity|repeat constructor; cbn; lia]|]. split; [left; cbn; repeat constructor; cbn; lia|]. split; [repeat constructor|]. split; [repeat constructor|split; [reflexivity|vm_compute; discriminate]]. }
  split; [apply (deltas_okb_ok _ _ _ _ 2); [vm_compute; reflexivity|reflexivity|vm_compute; reflexivity]|]. 
  assert (E : applyResolutionProfile rec_profile (r_fields rec_cloud) (Some 981668463) = [mkField [120] 0 FLOAT32 (Some 981668463); mkField [121] 4 FLOAT32 (Some 981668463); mkField [122] 8 FLOAT32 (Some 981668463); mkField [116] 16 FLOAT64 (Some 981668463); mkField [105] 14 UINT8 None]) by (vm_compute; reflexivity).
  split.
  { unfold yaml_header_info, recording_info. rewrite E. cbn [i_version i_width i_height i_step i_enc i_comp i_cfg i_fields rec_cloud r_width r_height r_step]. change (2 ^ 32) with 4294967296. do 4 (split; [lia|]). split; [exact I|]. split; [exact I|]. split; [left; reflexivity|].
    assert (G : forall n o t r, safeb n = true -> 0 <= o < 4294967296 -> (t = FLOAT32 \/ t = FLOAT64 \/ t = UINT8) -> (r = None \/ r = Some 981668463) -> yaml_header_field gnu_text (mkField n o t r)).
    { intros n o t r Hn Hoo Ht Hr. split; [now apply safeb_ok|]. split; [cbn [f_off]; change (2 ^ 32) with 4294967296; lia|]. split; [destruct Ht as [-> | [-> | ->]]; exact I|]. destruct Hr as [-> | ->]; [exact I|]. cbn [f_res]. split; [apply safeb_ok; vm_compute; reflexivity|]. split; [vm_compute; discriminate|vm_compute; discriminate]. }
    repeat (apply Forall_cons; [apply G; [reflexivity|lia|auto|auto]|]); apply Forall_nil. }
  split; [unfold exact_resolutions, recording_info; rewrite E; cbn [i_fields]; repeat (apply Forall_cons; [first [exact I | vm_compute; reflexivity]|]); apply Forall_nil|].
  split; [split; [constructor|]; unfold recording_info; rewrite E; cbn [i_fields]; repeat (apply Forall_cons; [split; [apply bytesb; reflexivity|first [apply gnu_bytes | exact I]]|]); apply Forall_nil|].
  do 3 eexists. split; [vm_compute; reflexivity|]. split; [vm_compute; reflexivity|]. split; [vm_compute; reflexivity|]. split; [vm_compute; reflexivity|]. split; [reflexivity|]. split; [vm_compute; congruence|vm_compute; reflexivity].
Qed.
(** The hypotheses of C72_pcl, C72_points, C72_wasm and C72_ros are those of C56_case, C57_case,
    C52_case and C61_case, with this resolution: *)
Example C72_case : usable_bits (narrow millimetre) /\ usable_bits millimetre32 /\ 0 < millimetre < 9218868437227405312.
Proof. split; [exact milli_bits|]. split; [exact milli_bits|]. split; vm_compute; reflexivity. Qed.
Print Assumptions C72_pcl.
Print Assumptions C72_points.
Print Assumptions C72_wasm.
Print Assumptions C72_ros.
Print Assumptions C72_mcap.
