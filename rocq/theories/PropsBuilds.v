(** C67: the SSE4.1 build and the portable build of the library interoperate. *)
From Coq Require Import Floats.SpecFloat.
From Verif Require Import Base BaseFacts Types Floats Fields Codec V5 Api Spec LibSpec BuildFacts Stage1Facts CloudFacts LocalFacts CodeFacts Cases PropsCloud.

(** ** Decoding does not depend on the build *)
Theorem C67_decode : forall L ppc i data buf mem,
  decode sse_ops L ppc i data buf mem = decode scalar_ops L ppc i data buf mem.
Proof. intros. apply decode_same; reflexivity. Qed.
Print Assumptions C67_decode.

(** ** A cloud encoded by one build is restored by the other
    The result is what the encoding build would have restored itself. *)
Definition build (ops : float_ops) : Prop := ops = sse_ops \/ ops = scalar_ops.
Lemma build_decode o1 o2 L ppc i data buf mem : build o1 -> build o2 -> decode o1 L ppc i data buf mem = decode o2 L ppc i data buf mem.
Proof. intros [-> | ->] [-> | ->]; try reflexivity; [|symmetry]; apply C67_decode. Qed.
Theorem C67_round_trip : forall o1 o2 L ppc probe i i' hdr0 e cloud hdr body n buf mem,
  build o1 -> build o2 ->
  libs_ok L -> bytes hdr0 -> encode_side ppc i cloud -> decode_side i i' -> deltas_ok o1 i ppc cloud ->
  encoder_of o1 L ppc probe i (Ok hdr0) e -> produces o1 L ppc probe e cloud hdr body ->
  zlen body < 1431260227 ->
  zlen cloud = Z.of_nat n * i_step i -> declares i' n -> Z.of_nat n * i_step i' <= zlen mem ->
  ((exists buf' mem', decode o2 L ppc i' body buf mem = Ok (buf', mem') /\ restored o1 i i' n cloud mem mem') \/
   (i_comp i <> COMP_NONE /\ decode o2 L ppc i' body buf mem = Throw)).
Proof.
  intros o1 o2 L ppc probe i i' hdr0 e cloud hdr body n buf mem B1 B2 HL Hh HES HDS HD HEo HPr Hz Hlen Hdec Hm.
  rewrite (build_decode o2 o1) by assumption.
  destruct (C17_never_wrong o1 L ppc probe i i' hdr0 e cloud hdr body n buf mem HL Hh HES HDS HD HEo HPr Hz Hlen Hdec Hm) as [H|H]; [left; exact H|].
  destruct (i_comp i) eqn:EC; try (right; split; [discriminate|exact H]).
  left. exact (C17_roundtrip o1 L ppc probe i i' hdr0 e cloud hdr body n buf mem HL Hh HES HDS HD HEo HPr EC Hz Hlen Hdec Hm).
Qed.
Print Assumptions C67_round_trip.

(** ** Encoding: the builds differ only on ties
    [tie rb xb]: the float product of the sample with bit pattern [xb] and the reciprocal of
    the resolution [rb] is [m * 2^e] with a fractional part of exactly one half. *)
Definition tie (rb xb : Z) : Prop :=
  match SFmul 24 128 (sf32 xb) (SFdiv 24 128 one32 (sf32 rb)) with
  | S754_finite _ m e => e < 0 /\ 2 * (Z.pos m mod 2 ^ (- e)) = 2 ^ (- e)
  | _ => False
  end.
(** The leading three or four FLOAT32 fields with a resolution form the vector group; it is the
    only place where the builds round differently. *)
Definition no_ties (i : info) (cloud : list Z) : Prop :=
  forall a f rb j, i_enc i = ENC_LOSSY -> lead_run (i_fields i) = 3%nat \/ lead_run (i_fields i) = 4%nat ->
    (a < lead_run (i_fields i))%nat -> nth_error (i_fields i) a = Some f -> f_res f = Some rb ->
    Z.of_nat (S j) * i_step i <= zlen cloud -> ~ tie rb (le_val (fbytes i f cloud j)).

Lemma round_agree m e : 0 < m -> ~ (e < 0 /\ 2 * (m mod 2 ^ (- e)) = 2 ^ (- e)) -> round_even m e = round_away m e.
Proof.
  intros Hm HT. unfold round_even, round_away. destruct (Z.leb_spec 0 e) as [|He]; [reflexivity|].
  set (d := 2 ^ (- e)) in *. assert (Hd : 2 ^ (- e - 1) * 2 = d).
  { unfold d. replace (- e) with (- e - 1 + 1) at 2 by lia. rewrite Z.pow_add_r by lia. reflexivity. }
  set (h := 2 ^ (- e - 1)) in *. assert (Hh : 0 < h) by (apply Z.pow_pos_nonneg; lia).
  pose proof (Z.div_mod m d ltac:(lia)) as E. pose proof (Z.mod_pos_bound m d ltac:(lia)) as Hb.
  cbv zeta. set (q := m / d) in *. set (r := m mod d) in *.
  destruct (Z.ltb_spec (2 * r) d) as [L|L].
  - apply (Z.div_unique _ _ _ (r + h)); lia.
  - destruct (Z.ltb_spec d (2 * r)) as [G|G].
    + apply (Z.div_unique _ _ _ (r + h - d)); lia.
    + exfalso. apply HT. split; [exact He|lia].
Qed.
Lemma quant_agree rb xb : ~ tie rb xb -> quantN_sse rb xb = quantN_scalar rb xb.
Proof.
  unfold tie, quantN_sse, quantN_scalar, multN. intros H. destruct (SFmul 24 128 (sf32 xb) _) as [s|s| |s m e]; try reflexivity.
  unfold sf_to_int. rewrite (round_agree (Z.pos m) e); [reflexivity|lia|exact H].
Qed.
Lemma nth_firstn {A} (l : list A) n x : In x (firstn n l) -> exists a, (a < n)%nat /\ nth_error l a = Some x.
Proof.
  intros H. apply In_nth_error in H. destruct H as (a & Ha). assert (La : (a < length (firstn n l))%nat) by (apply nth_error_Some; congruence).
  rewrite firstn_length in La. exists a. split; [lia|]. rewrite <- (firstn_skipn n l). rewrite nth_error_app1; [exact Ha|]. rewrite firstn_length. lia.
Qed.
Lemma lead_float fs f : In f (firstn (lead_run fs) fs) -> f_type f = FLOAT32.
Proof.
  induction fs as [|[nm o t r] fs IH]; cbn [lead_run]; [intros []|].
  destruct t; try (intros []; fail). destruct r as [r|]; [|intros []].
  cbn [firstn]. intros [<- | H]; [reflexivity|apply IH; exact H].
Qed.
Lemma builds_codes i cloud : layout_ok i -> zlen cloud mod i_step i = 0 -> no_ties i cloud -> same_codes sse_ops scalar_ops i cloud cloud.
Proof.
  intros [Hs HF] Hm HT. split; [reflexivity|]. intros j f k Hf Hz. rewrite Forall_forall in HF.
  assert (HP : In f (i_fields i)) by (apply in_combine_l in Hf; exact Hf). destruct (HF f HP) as [Ho Ho2].
  destruct k as [|r|r|r]; cbn [code_of sse_ops scalar_ops q32 q64 qN]; try reflexivity.
  destruct (isnan32 _); [reflexivity|]. f_equal. f_equal. apply quant_agree.
  unfold kinds in Hf. destruct (i_enc i) eqn:EE; try (rewrite combine_map in Hf; apply in_map_iff in Hf; destruct Hf as (x & E & _); congruence).
  assert (NL : forall fs, ~ In (f, KN r) (combine fs (map lossy_kind fs))).
  { intros fs HI. rewrite combine_map in HI. apply in_map_iff in HI. destruct HI as (x & E & _). assert (E2 : lossy_kind f = KN r) by congruence.
    unfold lossy_kind in E2. destruct (f_type f); try discriminate; destruct (f_res f); discriminate. }
  destruct (_ || _) eqn:EN; [|now destruct (NL (i_fields i))]. set (n := lead_run (i_fields i)) in *.
  rewrite <- (firstn_skipn n (i_fields i)) in Hf at 1. rewrite combine_app in Hf by (rewrite map_length; reflexivity).
  apply in_app_or in Hf. destruct Hf as [Hf|Hf]; [|now destruct (NL _ Hf)].
  rewrite combine_map in Hf. apply in_map_iff in Hf. destruct Hf as (x & E & Hx). assert (x = f) by congruence. subst x.
  assert (E2 : vector_kind f = KN r) by congruence. unfold vector_kind in E2. destruct (f_res f) as [r0|] eqn:ER; [|discriminate]. assert (r0 = r) by congruence. subst r0.
  destruct (nth_firstn _ _ _ Hx) as (a & Ha & Hn).
  apply (HT a f r j EE); auto.
  - apply orb_true_iff in EN. destruct EN as [EN|EN]; apply Nat.eqb_eq in EN; auto.
  - apply Z.mod_divide in Hm; [|lia]. destruct Hm as (q & Hq). rewrite (lead_float _ _ Hx) in Hz. cbn in Hz.
    rewrite Hq in *. assert (Z.of_nat j < q) by nia. nia.
Qed.

(** Any encoder objects of the two builds, however used before: the same outcome and the same
    bytes (clouds of a wrong size included: both throw). *)
Theorem C67_encode : forall L ppc probe i hdr e1 e2 cloud out (wh : bool),
  layout_ok i -> known_enc i ->
  encoder_of sse_ops L ppc probe i hdr e1 -> encoder_of scalar_ops L ppc probe i hdr e2 ->
  no_ties i cloud ->
  fst (encode_view sse_ops L ppc probe e1 cloud out wh) = fst (encode_view scalar_ops L ppc probe e2 cloud out wh) /\
  fst (encode_vec sse_ops L ppc probe e1 cloud out) = fst (encode_vec scalar_ops L ppc probe e2 cloud out).
Proof.
  intros L ppc probe i hdr e1 e2 cloud out wh HL HK H1 H2 HT.
  destruct (encoder_of_ready _ _ _ _ _ _ _ H1) as (R1 & I1 & D1 & f1 & P1 & E1).
  destruct (encoder_of_ready _ _ _ _ _ _ _ H2) as (R2 & I2 & D2 & f2 & P2 & E2).
  assert (Ef : f1 = f2) by congruence. subst f2. assert (EH : e_hdr e1 = e_hdr e2) by congruence. assert (EE : e_es e1 = e_es e2) by congruence.
  destruct (Z.eq_dec (zlen cloud mod i_step i) 0) as [Hm|Hm].
  - pose proof (builds_codes i cloud HL Hm HT) as HC. rewrite <- I1 in HC, HK. assert (Hs : 0 <= i_step (e_info e1)) by (rewrite I1; destruct HL; lia).
    split.
    + rewrite (encode_view_codes sse_ops scalar_ops L ppc probe e1 cloud cloud out wh R1 HK Hs HC). apply encode_view_history; congruence || assumption.
    + rewrite (encode_vec_codes sse_ops scalar_ops L ppc probe e1 cloud cloud out R1 HK Hs HC). apply encode_vec_history; congruence || assumption.
  - unfold encode_view, encode_vec. rewrite I1, I2. destruct (i_step i =? 0); [split; reflexivity|].
    destruct (Z.eqb_spec (zlen cloud mod i_step i) 0) as [|_]; [contradiction|]. split; reflexivity.
Qed.
Print Assumptions C67_encode.

(** The scan of Cases.v (its first three fields are a vector group with resolution 0.01) has no ties. *)
Definition no_tiesb (i : info) (cloud : list Z) : bool :=
  forallb (fun j => forallb (fun f => match f_res f with
    | Some rb => match SFmul 24 128 (sf32 (le_val (fbytes i f cloud j))) (SFdiv 24 128 one32 (sf32 rb)) with
                 | S754_finite _ m e => negb ((e <? 0) && (2 * (Z.pos m mod 2 ^ (- e)) =? 2 ^ (- e)))
                 | _ => true end
    | None => true end) (firstn (lead_run (i_fields i)) (i_fields i))) (seq 0 (length cloud)).
Lemma no_tiesb_ok i cloud : 0 < i_step i -> no_tiesb i cloud = true -> no_ties i cloud.
Proof.
  unfold no_tiesb, no_ties. intros Hs H a f rb j _ _ Ha Hn HR Hj HT. rewrite forallb_forall in H.
  assert (Hi : In j (seq 0 (length cloud))) by (apply in_seq; unfold zlen in Hj; nia). specialize (H j Hi). rewrite forallb_forall in H.
  assert (Hf : In f (firstn (lead_run (i_fields i)) (i_fields i))).
  { rewrite <- (firstn_skipn (lead_run (i_fields i)) (i_fields i)) in Hn. destruct (Nat.lt_ge_cases a (length (firstn (lead_run (i_fields i)) (i_fields i)))) as [La|La].
    - rewrite nth_error_app1 in Hn by exact La. apply nth_error_In in Hn. exact Hn.
    - exfalso. rewrite firstn_length in La. assert (length (i_fields i) <= a)%nat by lia.
      rewrite firstn_skipn in Hn. apply nth_error_None in H0. congruence. }
  specialize (H f Hf). rewrite HR in H. unfold tie in HT. destruct (SFmul _ _ _ _); try contradiction.
  destruct HT as [T1 T2]. apply negb_true_iff, andb_false_iff in H. destruct H as [H|H]; [apply Z.ltb_ge in H; lia|apply Z.eqb_neq in H; contradiction].
Qed.
Example C67_case : let i := scan 5 3 COMP_NONE in
  layout_ok i /\ known_enc i /\ no_ties i scan_cloud /\ (lead_run (i_fields i) = 3)%nat /\
  exists e, PointcloudEncoder i (Ok []) = Ok e /\ encoder_of sse_ops store_libs 2 4096 i (Ok []) e /\ encoder_of scalar_ops store_libs 2 4096 i (Ok []) e.
Proof.
  cbv zeta. split; [apply scan_layout|]. split; [exact I|]. split; [apply no_tiesb_ok; vm_compute; reflexivity|]. split; [vm_compute; reflexivity|].
  destruct (PointcloudEncoder (scan 5 3 COMP_NONE) (Ok [])) as [e| |] eqn:E; [|discriminate E|discriminate E].
  exists e. split; [reflexivity|]. split; constructor; exact E.
Qed.
(** On a tie the streams differ: x = 0.5 with resolution 1 is coded as 0 by the SSE4.1 build
    (ties to even) and as 1 by the portable build (ties away from zero). *)
Definition half_cloud : list Z := le_bytes 4 1056964608 ++ le_bytes 4 1056964608 ++ le_bytes 4 1056964608.
Definition half_info : info :=
  mkInfo [mkField [120] 0 FLOAT32 (Some 1065353216); mkField [121] 4 FLOAT32 (Some 1065353216); mkField [122] 8 FLOAT32 (Some 1065353216)]
    1 1 12 ENC_LOSSY [] COMP_NONE false 5.
Theorem C67_encode_refuted : exists i cloud e, layout_ok i /\ known_enc i /\ PointcloudEncoder i (Ok []) = Ok e /\
  fst (encode_vec sse_ops store_libs 2 4096 e cloud []) = (Ok 7, [3;0;0;0; 1;1;1]) /\
  fst (encode_vec scalar_ops store_libs 2 4096 e cloud []) = (Ok 7, [3;0;0;0; 3;3;3]).
Proof.
  exists half_info, half_cloud. destruct (PointcloudEncoder half_info (Ok [])) as [e| |] eqn:E; [|discriminate E|discriminate E].
  exists e. split; [split; [reflexivity|]; repeat constructor; cbn; lia|]. split; [exact I|]. split; [reflexivity|].
  assert (Ee : match PointcloudEncoder half_info (Ok []) with Ok x => x = e | _ => False end) by (rewrite E; reflexivity).
  vm_compute in Ee. rewrite <- Ee. split; [vm_compute; reflexivity|vm_compute; reflexivity].
Qed.
Print Assumptions C67_encode_refuted.
