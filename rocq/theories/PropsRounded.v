(** C76: a stream whose resolutions the text header cannot hold exactly.  The encoder quantises with
    the caller's resolution, the decoder multiplies with the one it reads from the header. *)
From Coq Require Import ZArith Reals Psatz List Bool Lia.
From Flocq Require Import Core.
From Verif Require Import Base BaseFacts Types Floats Fields Codec V5 Api Spec LibSpec ErrorSpec FloatReal CloudFacts LocalFacts CodeFacts Cases PropsCloud PropsError.
From Verif Require Import ApiFacts Header FloatText PropsHeader PropsPcl PropsEntry PropsResText RenameFacts FloatOther.
Import ListNotations.
Open Scope Z_scope.

(** ** Specification *)
(** As [field_near] and [field_near64] of C72, with one part in 2^16 of the distance and of the
    resolution on top: [header_err r x] = 2^-16 (|x| + r). *)
Definition field_near_header (rb step off : Z) (n : nat) (a b : list Z) : Prop :=
  forall j, (j < n)%nat ->
    let xb := le_val (sub (Z.of_nat j * step + off) 4 a) in
    let yb := le_val (sub (Z.of_nat j * step + off) 4 b) in
    let r := float_of rb in
    (finite32 xb -> (Rabs (float_of xb) <= powerRZ 2 30 * r)%R ->
       finite32 yb /\ (Rabs (float_of yb - float_of xb) <= bound32 r (float_of xb) + header_err r (float_of xb))%R) /\
    (nan_bits xb -> nan_bits yb).
Definition field_near_header64 (rb step off : Z) (n : nat) (a b : list Z) : Prop :=
  forall j, (j < n)%nat ->
    let xb := le_val (sub (Z.of_nat j * step + off) 8 a) in
    let yb := le_val (sub (Z.of_nat j * step + off) 8 b) in
    let r := float_of rb in
    (finite64 xb -> (Rabs (double_of xb) <= powerRZ 2 62 * r)%R ->
       finite64 yb /\ (Rabs (double_of yb - double_of xb) <= bound64 r (double_of xb) + header_err r (double_of xb))%R) /\
    (nan_bits64 xb -> nan_bits64 yb).
Definition restored_rounded (i : info) (n : nat) (cloud mem' : list Z) : Prop :=
  forall f, In f (i_fields i) ->
    (forall r, i_enc i = ENC_LOSSY -> f_type f = FLOAT32 -> f_res f = Some r -> usable_bits r -> field_near_header r (i_step i) (f_off f) n cloud mem') /\
    (forall r, i_enc i = ENC_LOSSY -> f_type f = FLOAT64 -> f_res f = Some r -> usable_bits r -> field_near_header64 r (i_step i) (f_off f) n cloud mem') /\
    (i_enc i <> ENC_LOSSY \/ f_res f = None \/ (f_type f <> FLOAT32 /\ f_type f <> FLOAT64) ->
       field_kept (i_step i) (f_off f) (SizeOf (f_type f)) n cloud mem').

(** ** The encoder does not see [rho] *)
Section Enc.
Context (rho : Z -> Z) (ops : float_ops).
Lemma codes_ren i c : same_codes (ren_ops rho ops) ops i c c.
Proof. split; [reflexivity|]. intros j f k _ _. destruct k; reflexivity. Qed.
Lemma encoder_ren L ppc probe i hdr e : known_enc i -> 0 <= i_step i -> encoder_of ops L ppc probe i hdr e -> encoder_of (ren_ops rho ops) L ppc probe i hdr e.
Proof.
  intros HK Hs. induction 1 as [e H|e cloud out wh r out' e' H IH HE|e cloud out r out' e' H IH HE].
  - now apply eo_new.
  - destruct (encoder_of_ready _ _ _ _ _ _ _ H) as (HR & HI & _). apply (eo_view _ _ _ _ _ _ e cloud out wh r out' e' IH). rewrite <- HE. apply encode_view_codes; rewrite ?HI; try assumption. apply codes_ren.
  - destruct (encoder_of_ready _ _ _ _ _ _ _ H) as (HR & HI & _). apply (eo_vec _ _ _ _ _ _ e cloud out r out' e' IH). rewrite <- HE. apply encode_vec_codes; rewrite ?HI; try assumption. apply codes_ren.
Qed.
Lemma produces_ren L ppc probe i hdr0 e cloud hdr body : known_enc i -> 0 <= i_step i -> encoder_of ops L ppc probe i hdr0 e -> produces ops L ppc probe e cloud hdr body -> produces (ren_ops rho ops) L ppc probe e cloud hdr body.
Proof.
  intros HK Hs HE HP. destruct (encoder_of_ready _ _ _ _ _ _ _ HE) as (HR & HI & _). destruct HP as [(out & wh & total & out' & e' & H1 & H2 & H3)|(out & total & out' & e' & H1 & H2 & H3)].
  - left. exists out, wh, total, out', e'. split; [exact H1|]. split; [|exact H3]. rewrite <- H2. apply encode_view_codes; rewrite ?HI; try assumption. apply codes_ren.
  - right. exists out, total, out', e'. split; [exact H1|]. split; [|exact H3]. rewrite <- H2. apply encode_vec_codes; rewrite ?HI; try assumption. apply codes_ren.
Qed.
Lemma deltas_ren i ppc cloud : deltas_ok ops i ppc cloud -> deltas_ok (ren_ops rho ops) i ppc cloud.
Proof.
  intros H. eapply Forall_impl; [|exact H]. intros [f k] Hf. cbn [fst snd] in *. assert (E : forall bs, coded_value (ren_ops rho ops) (f_type f) k bs = coded_value ops (f_type f) k bs) by (intros bs; destruct k; reflexivity).
  intros j v Hj. rewrite !E. exact (Hf j v Hj).
Qed.
End Enc.

(** ** One value *)
Lemma back32 rb q : finite32 (dequant32 rb q) -> le_val (le_bytes 4 (u32 (dequant32 rb q))) = dequant32 rb q.
Proof. intros H. apply finite_u32 in H. rewrite le_val_le_bytes. unfold u32. change (2 ^ (8 * Z.of_nat 4)) with 4294967296. rewrite !Z.mod_small; rewrite ?Z.mod_small; lia. Qed.
Lemma back64 rb q : finite64 (dequant64 rb q) -> le_val (le_bytes 8 (u64 (dequant64 rb q))) = dequant64 rb q.
Proof. intros H. apply finite_u64 in H. rewrite le_val_le_bytes. unfold u64. change (2 ^ (8 * Z.of_nat 8)) with 18446744073709551616. rewrite !Z.mod_small; rewrite ?Z.mod_small; lia. Qed.
Lemma off_self rb : finite32 rb -> usable (float_of rb) -> off17 rb rb.
Proof. intros F U. split; [exact F|]. destruct (usable_pos _ U) as [P _]. rewrite p17. replace (float_of rb - float_of rb)%R with 0%R by ring. rewrite Rabs_R0. lra. Qed.
Lemma recon32_other rho ops rb xb bs : x86_or_scalar ops -> le_val bs = xb -> finite32 rb -> usable (float_of rb) -> off17 rb (rho rb) -> finite32 xb -> (Rabs (float_of xb) <= powerRZ 2 30 * float_of rb)%R ->
  forall k, k = K32 rb \/ k = KN rb ->
  finite32 (le_val (recon (ren_ops rho ops) k bs)) /\ (Rabs (float_of (le_val (recon (ren_ops rho ops) k bs)) - float_of xb) <= bound32 (float_of rb) (float_of xb) + header_err (float_of rb) (float_of xb))%R.
Proof.
  intros HO HX Fr Hr HF Fx Hx k HK. destruct (recon32 ops rb xb bs HO HX Fr Hr Fx Hx k HK) as [_ B]. destruct (usable_pos _ Hr) as [r0 _].
  assert (Q : exists q, -9223372036854775808 <= q <= 9223372036854775807 /\ recon ops k bs = le_bytes 4 (u32 (dequant32 rb q)) /\ recon (ren_ops rho ops) k bs = le_bytes 4 (u32 (dequant32 (rho rb) q))).
  { destruct HK as [-> | ->]; cbn [recon]; rewrite HX, (finite_nan32 xb Fx).
    - exists (s64 (q32 ops rb xb)). pose proof (s64_range (q32 ops rb xb)). split; [lia|]. destruct HO as [-> | ->]; split; reflexivity.
    - exists (s32 (qN ops rb xb)). pose proof (s32_range (qN ops rb xb)). split; [lia|]. destruct HO as [-> | ->]; split; reflexivity. }
  destruct Q as (q & Hq & E1 & E2). rewrite E1 in B. rewrite E2. destruct (other32 rb rb q Fr Hr (off_self _ Fr Hr) Hq) as [F0 _]. destruct (other32 rb (rho rb) q Fr Hr HF Hq) as [F1 D]. rewrite back32 in B by assumption. rewrite back32 by assumption.
  split; [exact F1|]. apply (sum_err _ (float_of (dequant32 rb q))); try assumption. unfold bound32. rewrite pw2. apply Rle_refl.
Qed.
Lemma recon64_other rho ops rb xb bs : x86_or_scalar ops -> le_val bs = xb -> finite32 rb -> usable (float_of rb) -> off17 rb (rho rb) -> finite64 xb -> (Rabs (double_of xb) <= powerRZ 2 62 * float_of rb)%R ->
  finite64 (le_val (recon (ren_ops rho ops) (K64 rb) bs)) /\ (Rabs (double_of (le_val (recon (ren_ops rho ops) (K64 rb) bs)) - double_of xb) <= bound64 (float_of rb) (double_of xb) + header_err (float_of rb) (double_of xb))%R.
Proof.
  intros HO HX Fr Hr HF Fx Hx. destruct (recon64 ops rb xb bs HO HX Fr Hr Fx Hx) as [_ B]. destruct (usable_pos _ Hr) as [r0 _].
  assert (Q : exists q, -9223372036854775808 <= q <= 9223372036854775807 /\ recon ops (K64 rb) bs = le_bytes 8 (u64 (dequant64 rb q)) /\ recon (ren_ops rho ops) (K64 rb) bs = le_bytes 8 (u64 (dequant64 (rho rb) q))).
  { cbn [recon]; rewrite HX, (finite_nan64 xb Fx). exists (s64 (q64 ops rb xb)). pose proof (s64_range (q64 ops rb xb)). split; [lia|]. destruct HO as [-> | ->]; split; reflexivity. }
  destruct Q as (q & Hq & E1 & E2). rewrite E1 in B. rewrite E2. destruct (other64 rb rb q Fr Hr (off_self _ Fr Hr) Hq) as [F0 _]. destruct (other64 rb (rho rb) q Fr Hr HF Hq) as [F1 D]. rewrite back64 in B by assumption. rewrite back64 by assumption.
  split; [exact F1|]. apply (sum_err _ (double_of (dequant64 rb q))); try assumption. unfold bound64. rewrite pw2. change (bpow radix2 (-53)) with (/ 9007199254740992)%R. pose proof (Rabs_pos (double_of xb)). lra.
Qed.

(** ** What the text does to a resolution *)
Definition from_header (r : Z) : Z := match through_text r with Some r' => r' | None => r end.
Lemma ordinary_off r : ordinary r -> through_text r = Some (from_header r) /\ off17 r (from_header r) /\ 0 < from_header r < 2139095040.
Proof.
  intros (Hb & H). destruct (C75_any r Hb H) as (r' & E & B & D & _). unfold from_header. rewrite E. split; [reflexivity|]. split; [|exact B]. split; [|exact D]. split; [change (2 ^ (23 + 8 + 1)) with 4294967296; lia|]. change (2 ^ 23) with 8388608. change (2 ^ 8) with 256.
  rewrite Z.mod_small; [|split; [apply Z.div_pos; lia|apply Z.div_lt_upper_bound; lia]]. assert (r' / 8388608 < 255) by (apply Z.div_lt_upper_bound; lia). lia.
Qed.
Lemma le0_pos b : 0 < b < 2139095040 -> f32_le0 b = false.
Proof. intros H. unfold f32_le0. destruct (Z.leb_spec 2147483648 b); [lia|]. destruct (Z.eqb_spec b 0); [lia|]. apply andb_false_r. Qed.

(** ** The whole stream *)
Lemma stored_inside i f : layout_ok i -> plain_header i -> In f (i_fields i) -> stored f = true.
Proof.
  intros (_ & HL) (_ & _ & _ & HS & _ & _ & _ & HF) Hf. rewrite Forall_forall in HL, HF. specialize (HL f Hf). destruct (HF f Hf) as (_ & _ & HT). apply (inside_stored f (i_step i)); try lia. destruct (f_type f); cbn in HT; try contradiction; cbn in HL; lia.
Qed.
Section Rounded.
  Variables (rho : Z -> Z) (ops : float_ops) (i i' : info) (n : nat) (cloud mem mem' : list Z).
  Hypotheses (HO : x86_or_scalar ops) (HF : i_fields i' = i_fields i) (HS : i_step i' = i_step i) (HR : restored (ren_ops rho ops) i i' n cloud mem mem').
  Hypothesis Hst : forall f, In f (i_fields i) -> stored f = true.
  Hypothesis Hoff : forall f r, In f (i_fields i) -> f_res f = Some r -> off17 r (rho r).
  Lemma rounded_all : restored_rounded i n cloud mem'.
  Proof.
    intros f Hf. destruct (combine3 _ _ (kinds_length i) f Hf) as (k & H1 & H2). destruct HR as (_ & R1 & _). rewrite HF, HS in R1. pose proof (fun j Hj => R1 j f f k Hj H1 (Hst f Hf)) as E. unfold fbytes in E. split; [|split].
    - intros r HE HT Hr (Fr & Hu) j Hj. cbv zeta. specialize (E j Hj). rewrite HT in E. change (SizeOf FLOAT32) with 4%nat in E. rewrite E.
      assert (HK : k = K32 r \/ k = KN r). { destruct (kind_cases i f k HE H2) as [[_ ->] | ->]; unfold vector_kind, lossy_kind; rewrite ?HT, Hr; auto. }
      split.
      + intros Fx Hx. apply (recon32_other rho ops r); try assumption; [reflexivity|exact (Hoff f r Hf Hr)].
      + intros HN. apply nan_bits_spec in HN. apply nan_bits_spec. destruct HK as [-> | ->]; cbn [recon]; rewrite HN; rewrite le_val_le_bytes; reflexivity.
    - intros r HE HT Hr (Fr & Hu) j Hj. cbv zeta. specialize (E j Hj). rewrite HT in E. change (SizeOf FLOAT64) with 8%nat in E. rewrite E.
      assert (HK : k = K64 r). { destruct (kind_cases i f k HE H2) as [[K _] | ->]; [congruence|]. unfold lossy_kind; rewrite HT, Hr; auto. }
      subst k. split.
      + intros Fx Hx. apply (recon64_other rho ops r); try assumption; [reflexivity|exact (Hoff f r Hf Hr)].
      + intros HN. apply nan_bits64_spec in HN. apply nan_bits64_spec. cbn [recon]; rewrite HN; rewrite le_val_le_bytes; reflexivity.
    - intros Hc j Hj. rewrite (E j Hj). assert (EK : k = KId); [|rewrite EK; reflexivity].
      assert (HNL : i_enc i <> ENC_LOSSY -> k = KId).
      { intros N. unfold kinds in H2. destruct (i_enc i); try congruence; apply in_combine_r in H2; apply in_map_iff in H2; destruct H2 as (x & Ex & _); congruence. }
      destruct Hc as [N|Hc]; [exact (HNL N)|]. destruct (i_enc i) eqn:HE; try (apply HNL; discriminate).
      destruct (kind_cases i f k HE H2) as [[HT ->] | ->]; unfold vector_kind, lossy_kind; destruct Hc as [Hr|[N1 N2]]; try contradiction; rewrite ?Hr; [reflexivity|destruct (f_type f); reflexivity|].
      destruct (f_type f); try reflexivity; congruence.
  Qed.
End Rounded.
(** The stream decodes with the header it carries, to a cloud within the bounds; what a compressor
    makes of it does not matter, except that an expanding chunk may be refused ([worst_chunk], C17). *)
Theorem C76_roundtrip : forall ops L ppc probe i h e cloud body n buf mem,
  x86_or_scalar ops -> libs_ok L -> encode_side ppc i cloud -> decode_side i i -> deltas_ok ops i ppc cloud ->
  plain_header i -> bytes (i_cfg i) -> Forall (fun f => bytes (f_name f)) (i_fields i) ->
  Forall (fun f => match f_res f with Some r => ordinary r | None => True end) (i_fields i) ->
  EncodeHeader gnu_text i HYaml = Ok h -> encoder_of ops L ppc probe i (Ok h) e -> produces ops L ppc probe e cloud h body ->
  zlen body < 1431260227 -> zlen cloud = Z.of_nat n * i_step i -> declares i n -> Z.of_nat n * i_step i <= zlen mem ->
  exists i1, DecodeHeader gnu_text (h ++ body) = Ok (i1, body) /\
    ((exists buf' mem', decode ops L ppc i1 body buf mem = Ok (buf', mem') /\ length mem' = length mem /\ restored_rounded i n cloud mem') \/
     decode ops L ppc i1 body buf mem = Throw) /\
    (i_comp i = COMP_NONE \/ (worst_chunk i (Z.of_nat (Nat.min n ppc)) <= Z.of_nat n * i_step i /\ Z.of_nat n * i_step i <= 2147483647) ->
     decode ops L ppc i1 body buf mem <> Throw).
Proof.
  intros ops L ppc probe i h e cloud body n buf mem HO HLi HES HDS HD HP Hcfg Hnm HOrd HH HEo HPr Hz Hlen Hdec Hm.
  assert (HY : yaml_header_info gnu_text i). { apply (header_ready ordinary); [exact ordinary_range|intros r Hr; destruct (ordinary_off r Hr) as (-> & _); discriminate|exact HP|exact HOrd]. }
  destruct (C30_yaml_header_round_trip gnu_text i body HY) as (h' & HH' & HDh). assert (h' = h) by congruence. subst h'. clear HH'.
  assert (Hb : bytes h). { apply (header_bytes gnu_text i); [destruct HP as (HP & _); lia| |exact HH]. split; [exact Hcfg|]. eapply Forall_impl; [|exact Hnm]. intros f Hf. split; [exact Hf|]. destruct (f_res f); [apply gnu_bytes|exact I]. }
  set (i' := stored_yaml (i_fields i) i).
  assert (E1 : stored_yaml (map (reread_field gnu_text) (i_fields i)) i = ren_info from_header i').
  { unfold ren_info, i', stored_yaml. cbn [i_fields i_width i_height i_step i_enc i_cfg i_comp i_threads i_version]. f_equal. apply map_ext_in. intros f Hf. unfold reread_field, ren_field. f_equal. rewrite Forall_forall in HOrd. specialize (HOrd f Hf). destruct (f_res f) as [r|]; [|reflexivity]. destruct (ordinary_off r HOrd) as (T & _). exact T. }
  exists (stored_yaml (map (reread_field gnu_text) (i_fields i)) i). split; [exact HDh|].
  assert (HRK : Forall (ren_ok from_header) (i_fields i')).
  { eapply Forall_impl; [|exact HOrd]. intros f Hf. unfold ren_ok. cbn beta in Hf. destruct (f_res f) as [r|]; [|exact I]. destruct (ordinary_off r Hf) as (_ & _ & P). destruct Hf as (P' & _). rewrite !le0_pos by assumption. reflexivity. }
  rewrite E1, (decode_ren from_header ops L ppc i' body buf mem HRK). set (o := ren_ops from_header ops).
  assert (HDS' : decode_side i i'). { destruct HDS as (A1 & A2 & A3 & A4 & A5 & A6 & A7). exact (conj A1 (conj A2 (conj A3 (conj A4 (conj A5 (conj A6 A7)))))). }
  assert (HKe : known_enc i) by apply HES. assert (Hs : 0 <= i_step i) by (destruct HES as ((Hs & _) & _); lia).
  pose proof (encoder_ren from_header ops L ppc probe i (Ok h) e HKe Hs HEo) as HEo'. pose proof (produces_ren from_header ops L ppc probe i (Ok h) e cloud h body HKe Hs HEo HPr) as HPr'. pose proof (deltas_ren from_header ops i ppc cloud HD) as HD'. fold o in HEo', HPr', HD'.
  assert (Hoff : forall f r, In f (i_fields i) -> f_res f = Some r -> off17 r (from_header r)). { intros f r Hf Hr. rewrite Forall_forall in HOrd. specialize (HOrd f Hf). rewrite Hr in HOrd. apply (ordinary_off r HOrd). }
  assert (Hst : forall f, In f (i_fields i) -> stored f = true) by (intros f Hf; apply (stored_inside i); [apply HES|exact HP|exact Hf]).
  split.
  - destruct (C17_never_wrong o L ppc probe i i' h e cloud h body n buf mem HLi Hb HES HDS' HD' HEo' HPr' Hz Hlen Hdec Hm) as [(buf' & mem' & H1 & H2)|H1]; [left|right; exact H1]. exists buf', mem'. split; [exact H1|]. split; [apply H2|]. exact (rounded_all from_header ops i i' n cloud mem mem' HO eq_refl eq_refl H2 Hst Hoff).
  - intros HC. assert (KD : exists buf' mem', decode o L ppc i' body buf mem = Ok (buf', mem')).
    { destruct HC as [HC|[HC1 HC2]].
      - destruct (C17_roundtrip o L ppc probe i i' h e cloud h body n buf mem HLi Hb HES HDS' HD' HEo' HPr' HC Hz Hlen Hdec Hm) as (b & m & H1 & _). eauto.
      - destruct (i_comp i) eqn:EC.
        + destruct (C17_roundtrip o L ppc probe i i' h e cloud h body n buf mem HLi Hb HES HDS' HD' HEo' HPr' EC Hz Hlen Hdec Hm) as (b & m & H1 & _). eauto.
        + destruct (C17_roundtrip_compressed o L ppc probe i i' h e cloud h body n buf mem HLi Hb HES HDS' HD' HEo' HPr' (or_introl EC) Hz Hlen Hdec Hm HC1 HC2) as (b & m & H1 & _). eauto.
        + destruct (C17_roundtrip_compressed o L ppc probe i i' h e cloud h body n buf mem HLi Hb HES HDS' HD' HEo' HPr' (or_intror EC) Hz Hlen Hdec Hm HC1 HC2) as (b & m & H1 & _). eauto.
        + exfalso. destruct HP as (_ & _ & _ & _ & _ & HP & _). rewrite EC in HP. exact HP. }
    destruct KD as (b & m & ->). discriminate.
Qed.
Print Assumptions C76_roundtrip.

(** Resolutions of at most six significant digits are what the decoder gets: then the stream restores
    the cloud as if the decoder had been told the resolution (C09, C17). *)
Theorem C76_six_digits : forall ops L ppc probe i h e cloud body n buf mem,
  libs_ok L -> encode_side ppc i cloud -> decode_side i i -> deltas_ok ops i ppc cloud ->
  plain_header i -> bytes (i_cfg i) -> Forall (fun f => bytes (f_name f)) (i_fields i) ->
  Forall (fun f => match f_res f with Some r => written6 r | None => True end) (i_fields i) ->
  EncodeHeader gnu_text i HYaml = Ok h -> encoder_of ops L ppc probe i (Ok h) e -> produces ops L ppc probe e cloud h body ->
  zlen body < 1431260227 -> zlen cloud = Z.of_nat n * i_step i -> declares i n -> Z.of_nat n * i_step i <= zlen mem ->
  exists i1, DecodeHeader gnu_text (h ++ body) = Ok (i1, body) /\
    ((exists buf' mem', decode ops L ppc i1 body buf mem = Ok (buf', mem') /\ restored ops i i n cloud mem mem') \/
     decode ops L ppc i1 body buf mem = Throw) /\
    (i_comp i = COMP_NONE \/ (worst_chunk i (Z.of_nat (Nat.min n ppc)) <= Z.of_nat n * i_step i /\ Z.of_nat n * i_step i <= 2147483647) ->
     decode ops L ppc i1 body buf mem <> Throw).
Proof.
  intros ops L ppc probe i h e cloud body n buf mem HLi HES HDS HD HP Hcfg Hnm HW HH HEo HPr Hz Hlen Hdec Hm.
  destruct (C75_header i body HP HW) as (h' & HH' & HDh). assert (h' = h) by congruence. subst h'. clear HH'.
  assert (Hb : bytes h). { apply (header_bytes gnu_text i); [destruct HP as (HP & _); lia| |exact HH]. split; [exact Hcfg|]. eapply Forall_impl; [|exact Hnm]. intros f Hf. split; [exact Hf|]. destruct (f_res f); [apply gnu_bytes|exact I]. }
  match type of HDh with _ = Ok (?a, _) => set (i' := a) in * end. exists i'. split; [exact HDh|].
  assert (HDS' : decode_side i i'). { destruct HDS as (A1 & A2 & A3 & A4 & A5 & A6 & A7). exact (conj A1 (conj A2 (conj A3 (conj A4 (conj A5 (conj A6 A7)))))). }
  split.
  - exact (C17_never_wrong ops L ppc probe i i' h e cloud h body n buf mem HLi Hb HES HDS' HD HEo HPr Hz Hlen Hdec Hm).
  - intros HC. assert (KD : exists buf' mem', decode ops L ppc i' body buf mem = Ok (buf', mem')).
    { assert (EC0 : i_comp i = COMP_NONE -> exists buf' mem', decode ops L ppc i' body buf mem = Ok (buf', mem')) by (intros EC; destruct (C17_roundtrip ops L ppc probe i i' h e cloud h body n buf mem HLi Hb HES HDS' HD HEo HPr EC Hz Hlen Hdec Hm) as (b & m & H1 & _); eauto).
      destruct HC as [HC|[HC1 HC2]]; [exact (EC0 HC)|]. destruct (i_comp i) eqn:EC; [exact (EC0 eq_refl)| | |].
      + destruct (C17_roundtrip_compressed ops L ppc probe i i' h e cloud h body n buf mem HLi Hb HES HDS' HD HEo HPr (or_introl EC) Hz Hlen Hdec Hm HC1 HC2) as (b & m & H1 & _). eauto.
      + destruct (C17_roundtrip_compressed ops L ppc probe i i' h e cloud h body n buf mem HLi Hb HES HDS' HD HEo HPr (or_intror EC) Hz Hlen Hdec Hm HC1 HC2) as (b & m & H1 & _). eauto.
      + exfalso. destruct HP as (_ & _ & _ & _ & _ & HP & _). rewrite EC in HP. exact HP. }
    destruct KD as (b & m & ->). discriminate.
Qed.
Print Assumptions C76_six_digits.

(** ** A case *)
(** Resolution 1.00000405 (the header says 1); x = 200000, id = 7; x = 1.5, id = 8. *)
Definition odd_res : Z := 1065353250.
Definition odd_info : info := mkInfo [mkField [120] 0 FLOAT32 (Some odd_res); mkField [105;100] 4 UINT16 None] 2 1 6 ENC_LOSSY [] COMP_NONE false 5.
Definition odd_cloud : list Z := le_bytes 4 1212370944 ++ [7;0] ++ le_bytes 4 1069547520 ++ [8;0].
Definition odd_header : list Z := match EncodeHeader gnu_text odd_info HYaml with Ok h => h | _ => [] end.
Definition odd_encoder : encoder := match PointcloudEncoder odd_info (Ok odd_header) with Ok e => e | _ => mkEnc odd_info [] [] [] end.
Definition odd_stream : list Z := snd (fst (encode_vec sse_ops store_libs 2 4096 odd_encoder odd_cloud [])).
Lemma float_val b m e : 0 <= b < 2139095040 -> b = m + 8388608 * e -> 0 < e -> 0 <= m < 8388608 -> float_of b = (IZR (8388608 + m) * powerRZ 2 (e - 150))%R.
Proof.
  intros Hb E He Hm. destruct (float_parts b Hb) as (m' & e' & E1 & E2 & E3 & E4). assert (e' = e /\ m' = m) as [-> ->] by lia. rewrite E4. destruct (Z.eqb_spec e 0); [lia|]. rewrite p2. reflexivity.
Qed.
Lemma odd_value : float_of odd_res = (8388642 / 8388608)%R.
Proof. rewrite (float_val odd_res 34 127) by (unfold odd_res; lia). rewrite pw2. change (bpow radix2 (127 - 150)) with (/ 8388608)%R. reflexivity. Qed.
Lemma odd_ordinary : ordinary odd_res.
Proof. split; [unfold odd_res; lia|]. rewrite odd_value, !p2. assert (bpow radix2 (-125) <= 1)%R by (change 1%R with (bpow radix2 0); apply bpow_le; lia). assert (2 <= bpow radix2 126)%R by (change 2%R with (bpow radix2 1); apply bpow_le; lia). lra. Qed.
Lemma odd_usable : usable_bits odd_res.
Proof.
  split; [split; [split; [discriminate|reflexivity]|discriminate]|]. unfold usable. rewrite odd_value, !pw2. assert (bpow radix2 (-100) <= 1)%R by (change 1%R with (bpow radix2 0); apply bpow_le; lia). assert (2 <= bpow radix2 60)%R by (change 2%R with (bpow radix2 1); apply bpow_le; lia). lra.
Qed.
Example C76_case : libs_ok store_libs /\ encode_side 2 odd_info odd_cloud /\ decode_side odd_info odd_info /\ deltas_ok sse_ops odd_info 2 odd_cloud /\
  plain_header odd_info /\ bytes (i_cfg odd_info) /\ Forall (fun f => bytes (f_name f)) (i_fields odd_info) /\
  Forall (fun f => match f_res f with Some r => ordinary r | None => True end) (i_fields odd_info) /\ usable_bits odd_res /\
  EncodeHeader gnu_text odd_info HYaml = Ok odd_header /\ encoder_of sse_ops store_libs 2 4096 odd_info (Ok odd_header) odd_encoder /\
  (exists body, odd_stream = odd_header ++ body /\ produces sse_ops store_libs 2 4096 odd_encoder odd_cloud odd_header body /\ zlen body = 13) /\
  zlen odd_cloud = Z.of_nat 2 * i_step odd_info /\ declares odd_info 2.
Proof.
  split; [apply store_libs_ok|]. split.
  { split; [split; [reflexivity|repeat constructor; cbn; lia]|]. split; [exact I|]. split; [|apply bytesb; reflexivity]. split; [lia|]. split; [lia|vm_compute; discriminate]. }
  split.
  { split; [split; [repeat constructor|auto]|]. split; [split; [reflexivity|repeat constructor; cbn; lia]|]. split; [left; cbn; repeat constructor; cbn; lia|]. split; [repeat constructor|]. split; [repeat constructor|]. split; [reflexivity|cbn; lia]. }
  split; [apply (deltas_okb_ok _ _ _ _ 2); [vm_compute; reflexivity|reflexivity|reflexivity]|].
  split.
  { unfold plain_header. cbn [odd_info i_version i_width i_height i_step i_comp i_cfg i_fields]. do 4 (split; [lia|]). split; [exact I|]. split; [exact I|]. split; [left; reflexivity|]. repeat (apply Forall_cons; [split; [apply safeb_ok; vm_compute; reflexivity|split; [cbn [f_off]; lia|exact I]]|]). apply Forall_nil. }
  split; [constructor|]. split; [repeat (apply Forall_cons; [apply bytesb; reflexivity|]); apply Forall_nil|]. split; [apply Forall_cons; [exact odd_ordinary|apply Forall_cons; [exact I|apply Forall_nil]]|]. split; [exact odd_usable|]. split; [vm_compute; reflexivity|].
  destruct (new_produces sse_ops store_libs 2 4096 odd_info odd_header odd_encoder odd_cloud) as [H1 H2]; [vm_compute; reflexivity|vm_compute; reflexivity|].
  split; [exact H1|]. split; [|split; reflexivity]. exists (skipn (length odd_header) odd_stream). split; [|split; [exact H2|vm_compute; reflexivity]].
  vm_compute. reflexivity.
Qed.
(** The error of the header is real: that stream, decoded with the header it carries, is off by a whole
    step, and more than C09's bound for the caller's resolution. *)
Theorem C76_header_error_refuted : exists i1 body buf' mem',
  odd_stream = odd_header ++ body /\ DecodeHeader gnu_text odd_stream = Ok (i1, body) /\ decode sse_ops store_libs 2 i1 body [] (repeat 0 12) = Ok (buf', mem') /\
  let x := float_of (le_val (sub 0 4 odd_cloud)) in let y := float_of (le_val (sub 0 4 mem')) in let r := float_of odd_res in
  (Rabs x <= powerRZ 2 20 * r /\ Rabs (y - x) > bound32 r x)%R.
Proof.
  pose (p := DecodeHeader gnu_text odd_stream). pose (i1 := match p with Ok (a, _) => a | _ => odd_info end). pose (body := skipn (length odd_header) odd_stream). pose (q := decode sse_ops store_libs 2 i1 body [] (repeat 0 12)).
  exists i1, body, (match q with Ok (a, _) => a | _ => [] end), (match q with Ok (_, b) => b | _ => [] end). split; [vm_compute; reflexivity|]. split; [vm_compute; reflexivity|]. split; [vm_compute; reflexivity|]. cbv zeta.
  replace (le_val (sub 0 4 odd_cloud)) with 1212370944 by (vm_compute; reflexivity). replace (le_val (sub 0 4 (match q with Ok (_, b) => b | _ => [] end))) with 1212370880 by (vm_compute; reflexivity).
  rewrite (float_val 1212370944 4411392 144) by lia. rewrite (float_val 1212370880 4411328 144) by lia. rewrite odd_value. unfold bound32. rewrite !pw2. change (bpow radix2 (144 - 150)) with (/ 64)%R. change (bpow radix2 20) with 1048576%R. change (bpow radix2 (-24)) with (/ 16777216)%R.
  replace (IZR (8388608 + 4411392) * / 64)%R with 200000%R by (change (8388608 + 4411392)%Z with 12800000%Z; lra). replace (IZR (8388608 + 4411328) * / 64)%R with 199999%R by (change (8388608 + 4411328)%Z with 12799936%Z; lra).
  rewrite (Rabs_right 200000) by lra. replace (199999 - 200000)%R with (-1)%R by ring. rewrite (Rabs_left (-1)) by lra. lra.
Qed.
Print Assumptions C76_case.
Print Assumptions C76_header_error_refuted.
