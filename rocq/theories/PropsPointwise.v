(** C96: what a point decodes to depends on that point, the fields and the kind of encoding only. *)
From Verif Require Import Base BaseFacts Types Floats Fields Codec V5 Api Spec LibSpec LocalFacts CodeFacts ApiFacts CloudApi Cases RoundTrip PropsStage1 PropsCloud PropsBuilds PropsCompare.
From Coq Require Import Lia.
Open Scope Z_scope.

(** The cloud [c] of [n] points goes through an encoder on the build [o] (any object with the settings [i], [ppc] points
    per chunk) and a decoder (any build) with the layout [i'], which turns the output buffer [mem] into [d]. *)
Inductive coded (o : float_ops) (ppc n : nat) (i i' : info) (c mem d : list Z) : Prop :=
| coded_intro (o2 : float_ops) (L : libs) (probe : nat) (hdr0 : list Z) (e : encoder) (hdr body buf x : list Z) :
    build o -> build o2 -> libs_ok L -> bytes hdr0 ->
    encode_side ppc i c -> decode_side i i' -> deltas_ok o i ppc c ->
    encoder_of o L ppc probe i (Ok hdr0) e -> produces o L ppc probe e c hdr body -> zlen body < 1431260227 ->
    zlen c = Z.of_nat n * i_step i -> declares i' n -> Z.of_nat n * i_step i' <= zlen mem ->
    decode o2 L ppc i' body buf mem = Ok (x, d) -> coded o ppc n i i' c mem d.
(** The same fields (names, offsets, types, resolutions, in order) at the same step; both kinds of encoding lossy or neither.
    Width, height, version, compression, threads, header text and chunk size are free. *)
Definition same_cloud_fields (i1 i2 : info) : Prop := i_fields i1 = i_fields i2 /\ i_step i1 = i_step i2.
Definition same_loss (i1 i2 : info) : Prop := i_enc i1 = ENC_LOSSY <-> i_enc i2 = ENC_LOSSY.

Lemma coded_restored o ppc n i i' c mem d : coded o ppc n i i' c mem d -> restored o i i' n c mem d /\ decode_side i i'.
Proof.
  intros [o2 L probe hdr0 e hdr body buf x B1 B2 HLi Hh ES HDS D H1 P Z1 L1 Hdec Hm K]. rewrite (build_decode o2 o) in K by assumption.
  destruct (C17_never_wrong o L ppc probe i i' hdr0 e c hdr body n buf mem HLi Hh ES HDS D H1 P Z1 L1 Hdec Hm) as [(y1 & w1 & Y1 & R1)|Y1]; [|congruence].
  assert (w1 = d) by congruence. subst w1. split; [exact R1|exact HDS].
Qed.
Lemma kinds_same i1 i2 : i_fields i1 = i_fields i2 -> same_loss i1 i2 -> kinds i1 = kinds i2.
Proof.
  intros HF HL. unfold kinds. rewrite HF. destruct HL as [H1 H2]. destruct (i_enc i1), (i_enc i2); try reflexivity; try (specialize (H1 eq_refl); discriminate H1); specialize (H2 eq_refl); discriminate H2.
Qed.

(** ** One cloud, two ways
    Version, compression, threads, chunk size, libraries, encoder history and the build of the decoder do not
    show in the decoded cloud. *)
Theorem C96_settings : forall o ppc1 ppc2 n i1 i1' i2 i2' c mem d1 d2,
  coded o ppc1 n i1 i1' c mem d1 -> coded o ppc2 n i2 i2' c mem d2 ->
  same_cloud_fields i1 i2 -> same_loss i1 i2 -> same_cloud_fields i1' i2' -> d1 = d2.
Proof.
  intros o ppc1 ppc2 n i1 i1' i2 i2' c mem d1 d2 C1 C2 [F S] HL [F' S'].
  destruct (coded_restored _ _ _ _ _ _ _ _ C1) as [R1 (HS & HO & _)]. destruct (coded_restored _ _ _ _ _ _ _ _ C2) as [R2 _].
  assert (R2' : restored o i1 i1' n c mem d2).
  { destruct R2 as (A & B & D). split; [exact A|]. split.
    - intros j f' f k Hj Hin HSt. rewrite F', F, (kinds_same i1 i2 F HL) in Hin. rewrite S'. specialize (B j f' f k Hj Hin HSt). unfold fbytes in *. rewrite S. exact B.
    - intros x Hx HN. apply D; [exact Hx|]. intros j f' Hj Hf. rewrite <- F' in Hf. rewrite <- S'. now apply HN. }
  apply (restored_unique o i1 i1' n c mem d1 d2); [apply BuildFacts.kinds_length| |exact HS|exact HO|exact R1|exact R2'].
  destruct HS as [HS _]. clear - HS. induction HS; cbn; congruence.
Qed.
Print Assumptions C96_settings.

(** ** Two clouds, point by point
    Field number [a] of point [j1] of one cloud and of point [j2] of another: if the bytes agree before, they agree after. *)
Theorem C96_points : forall o ppc1 ppc2 n1 n2 i1 i1' i2 i2' c1 c2 mem1 mem2 d1 d2,
  coded o ppc1 n1 i1 i1' c1 mem1 d1 -> coded o ppc2 n2 i2 i2' c2 mem2 d2 ->
  i_fields i1 = i_fields i2 -> same_loss i1 i2 ->
  forall a f f1 f2 j1 j2, nth_error (i_fields i1) a = Some f -> nth_error (i_fields i1') a = Some f1 -> nth_error (i_fields i2') a = Some f2 ->
  stored f1 = true -> stored f2 = true -> (j1 < n1)%nat -> (j2 < n2)%nat ->
  let size := SizeOf (f_type f) in
  sub (Z.of_nat j1 * i_step i1 + f_off f) size c1 = sub (Z.of_nat j2 * i_step i2 + f_off f) size c2 ->
  sub (Z.of_nat j1 * i_step i1' + f_off f1) size d1 = sub (Z.of_nat j2 * i_step i2' + f_off f2) size d2.
Proof.
  intros o ppc1 ppc2 n1 n2 i1 i1' i2 i2' c1 c2 mem1 mem2 d1 d2 C1 C2 F HL a f f1 f2 j1 j2 Ha H1 H2 S1 S2 Hj1 Hj2 size E.
  destruct (coded_restored _ _ _ _ _ _ _ _ C1) as [(_ & R1 & _) _]. destruct (coded_restored _ _ _ _ _ _ _ _ C2) as [(_ & R2 & _) _].
  assert (HKl : length (kinds i1) = length (i_fields i1)) by apply BuildFacts.kinds_length.
  destruct (nth_error (kinds i1) a) as [k|] eqn:Ek.
  2:{ apply nth_error_None in Ek. assert (HSome : nth_error (i_fields i1) a <> None) by congruence. apply nth_error_Some in HSome. lia. }
  assert (HC : forall (A B : Type) (l1 : list A) (l2 : list B) n x y, nth_error l1 n = Some x -> nth_error l2 n = Some y -> nth_error (combine l1 l2) n = Some (x, y)).
  { clear. intros A B l1. induction l1 as [|a1 l1 IH]; intros [|b1 l2] [|n] x y H1 H2; cbn in *; try discriminate; [congruence|eauto]. }
  pose proof (HC _ _ _ _ _ _ _ Ha Ek) as K0. pose proof (HC _ _ _ _ _ _ _ H1 K0) as K1. pose proof (HC _ _ _ _ _ _ _ H2 K0) as K2.
  apply nth_error_In in K1, K2. unfold size in *. rewrite (R1 j1 f1 f k Hj1 K1 S1). rewrite F, (kinds_same i1 i2 F HL) in K2. rewrite (R2 j2 f2 f k Hj2 K2 S2). unfold fbytes. now rewrite E.
Qed.
Print Assumptions C96_points.
(** So picking points (filtering, reordering, repeating) and compressing commute: if the points of [c2] are those
    of [c1] at the positions [pick], the decoded points are the decoded points at these positions. *)
Theorem C96_selection : forall o ppc1 ppc2 n1 n2 i1 i2 c1 c2 mem1 mem2 d1 d2 (pick : nat -> nat),
  coded o ppc1 n1 i1 i1 c1 mem1 d1 -> coded o ppc2 n2 i2 i2 c2 mem2 d2 -> same_cloud_fields i1 i2 -> same_loss i1 i2 ->
  (forall j, (j < n2)%nat -> (pick j < n1)%nat /\
     sub (Z.of_nat j * i_step i2) (Z.to_nat (i_step i2)) c2 = sub (Z.of_nat (pick j) * i_step i1) (Z.to_nat (i_step i1)) c1) ->
  forall j f, (j < n2)%nat -> In f (i_fields i2) -> stored f = true ->
  sub (Z.of_nat j * i_step i2 + f_off f) (SizeOf (f_type f)) d2 = sub (Z.of_nat (pick j) * i_step i1 + f_off f) (SizeOf (f_type f)) d1.
Proof.
  intros o ppc1 ppc2 n1 n2 i1 i2 c1 c2 mem1 mem2 d1 d2 pick C1 C2 [F S] HL HP j f Hj Hf HSt. destruct (HP j Hj) as [Hp E].
  assert (HLay : layout_ok i2) by (destruct C2 as [? ? ? ? ? ? ? ? ? ? ? ? ? ES ? ? ? ? ? ? ? ? ?]; apply ES).
  destruct HLay as [Hs HLay]. rewrite Forall_forall in HLay. destruct (HLay f Hf) as [O1 O2].
  apply In_nth_error in Hf. destruct Hf as [a Ha]. symmetry.
  apply (C96_points o ppc1 ppc2 n1 n2 i1 i1 i2 i2 c1 c2 mem1 mem2 d1 d2 C1 C2 F HL a f f f (pick j) j); try assumption; try (rewrite F; exact Ha).
  assert (HX : forall p q (l : list Z) k m, 0 <= p -> 0 <= q -> (Z.to_nat q + m <= k)%nat -> sub (p + q) m l = firstn m (skipn (Z.to_nat q) (sub p k l))).
  { clear. intros p q l k m Hp Hq Hk. unfold sub. rewrite skipn_firstn_comm, firstn_firstn, skipn_skipn. f_equal; [lia|]. f_equal. lia. }
  rewrite (HX _ _ c1 (Z.to_nat (i_step i1)) _), (HX _ _ c2 (Z.to_nat (i_step i2)) _); try lia. rewrite S in *. now rewrite E.
Qed.
Print Assumptions C96_selection.

(** ** Two clouds with different fields
    The fields of the leading group of three or four FLOAT32 fields with a resolution are coded together, the others one by one. *)
Definition grouped (i : info) (a : nat) : bool :=
  match i_enc i with
  | ENC_LOSSY => ((lead_run (i_fields i) =? 3)%nat || (lead_run (i_fields i) =? 4)%nat) && (a <? lead_run (i_fields i))%nat
  | _ => false
  end.
Lemma lead_run_le fs : (lead_run fs <= length fs)%nat.
Proof. induction fs as [|[fn fo ft fr] fs IH]; cbn [lead_run length]; [lia|]. destruct ft; try lia. destruct fr; lia. Qed.
Lemma kind_at i a f : nth_error (i_fields i) a = Some f ->
  nth_error (kinds i) a = Some (match i_enc i with ENC_LOSSY => if grouped i a then vector_kind f else lossy_kind f | _ => KId end).
Proof.
  intros H. unfold kinds, grouped. destruct (i_enc i); try (rewrite nth_error_map, H; reflexivity).
  cbv zeta. destruct ((lead_run (i_fields i) =? 3)%nat || (lead_run (i_fields i) =? 4)%nat); cbn [andb]; [|rewrite nth_error_map, H; reflexivity].
  pose proof (lead_run_le (i_fields i)) as HL. destruct (Nat.ltb_spec a (lead_run (i_fields i))) as [Ha|Ha].
  - rewrite nth_error_app1 by (rewrite map_length, firstn_length; lia). rewrite nth_error_map.
    assert (E : nth_error (firstn (lead_run (i_fields i)) (i_fields i)) a = Some f); [|rewrite E; reflexivity].
    pose proof H as H'. rewrite <- (firstn_skipn (lead_run (i_fields i)) (i_fields i)) in H'. rewrite nth_error_app1 in H' by (rewrite firstn_length; lia). exact H'.
  - rewrite nth_error_app2 by (rewrite map_length, firstn_length; lia). rewrite map_length, firstn_length, nth_error_map.
    replace (Nat.min (lead_run (i_fields i)) (length (i_fields i))) with (lead_run (i_fields i)) by lia.
    assert (E : nth_error (skipn (lead_run (i_fields i)) (i_fields i)) (a - lead_run (i_fields i)) = Some f); [|rewrite E; reflexivity].
    pose proof H as H'. rewrite <- (firstn_skipn (lead_run (i_fields i)) (i_fields i)) in H'. rewrite nth_error_app2 in H' by (rewrite firstn_length; lia).
    rewrite firstn_length, Nat.min_l in H' by exact HL. exact H'.
Qed.
(** Dropping, adding, moving or renaming fields before compression changes nothing for a field with the same type and
    resolution that is in the group in both clouds or in neither. *)
Theorem C96_fields : forall o ppc1 ppc2 n1 n2 i1 i1' i2 i2' c1 c2 mem1 mem2 d1 d2,
  coded o ppc1 n1 i1 i1' c1 mem1 d1 -> coded o ppc2 n2 i2 i2' c2 mem2 d2 -> same_loss i1 i2 ->
  forall a1 a2 f1 f2 g1 g2 j1 j2,
  nth_error (i_fields i1) a1 = Some f1 -> nth_error (i_fields i1') a1 = Some g1 -> nth_error (i_fields i2) a2 = Some f2 -> nth_error (i_fields i2') a2 = Some g2 ->
  f_type f1 = f_type f2 -> f_res f1 = f_res f2 -> grouped i1 a1 = grouped i2 a2 ->
  stored g1 = true -> stored g2 = true -> (j1 < n1)%nat -> (j2 < n2)%nat ->
  let size := SizeOf (f_type f1) in
  sub (Z.of_nat j1 * i_step i1 + f_off f1) size c1 = sub (Z.of_nat j2 * i_step i2 + f_off f2) size c2 ->
  sub (Z.of_nat j1 * i_step i1' + f_off g1) size d1 = sub (Z.of_nat j2 * i_step i2' + f_off g2) size d2.
Proof.
  intros o ppc1 ppc2 n1 n2 i1 i1' i2 i2' c1 c2 mem1 mem2 d1 d2 C1 C2 HL a1 a2 f1 f2 g1 g2 j1 j2 A1 G1 A2 G2 ET ER EG S1 S2 Hj1 Hj2 size E.
  destruct (coded_restored _ _ _ _ _ _ _ _ C1) as [(_ & R1 & _) _]. destruct (coded_restored _ _ _ _ _ _ _ _ C2) as [(_ & R2 & _) _].
  assert (HC : forall (A B : Type) (l1 : list A) (l2 : list B) n x y, nth_error l1 n = Some x -> nth_error l2 n = Some y -> nth_error (combine l1 l2) n = Some (x, y)).
  { clear. intros A B l1. induction l1 as [|b1 l1 IH]; intros [|b2 l2] [|n] x y H1 H2; cbn in *; try discriminate; [congruence|eauto]. }
  pose proof (HC _ _ _ _ _ _ _ G1 (HC _ _ _ _ _ _ _ A1 (kind_at i1 a1 f1 A1))) as K1. pose proof (HC _ _ _ _ _ _ _ G2 (HC _ _ _ _ _ _ _ A2 (kind_at i2 a2 f2 A2))) as K2.
  apply nth_error_In in K1, K2. pose proof (R1 j1 g1 f1 _ Hj1 K1 S1) as E1. pose proof (R2 j2 g2 f2 _ Hj2 K2 S2) as E2. unfold fbytes in E1, E2. unfold size in *.
  rewrite E1. rewrite ET. rewrite E2. rewrite ET in E. rewrite E.
  assert (EK : (match i_enc i1 with ENC_LOSSY => if grouped i1 a1 then vector_kind f1 else lossy_kind f1 | _ => KId end) = (match i_enc i2 with ENC_LOSSY => if grouped i2 a2 then vector_kind f2 else lossy_kind f2 | _ => KId end)); [|rewrite EK; reflexivity].
  rewrite EG. unfold vector_kind, lossy_kind. rewrite ET, ER. destruct HL as [H1 H2].
  destruct (i_enc i1), (i_enc i2); try reflexivity; try (specialize (H1 eq_refl); discriminate H1); specialize (H2 eq_refl); discriminate H2.
Qed.
Print Assumptions C96_fields.
(** The encoder's build, too, matters in the group only. *)
Lemma coded_build o ppc n i i' c mem d : coded o ppc n i i' c mem d -> build o.
Proof. intros [? ? ? ? ? ? ? ? ? B]. intros. exact B. Qed.
Lemma recon_builds o1 o2 k bs : build o1 -> build o2 -> (forall r, k <> KN r) -> recon o1 k bs = recon o2 k bs.
Proof. intros [-> | ->] [-> | ->] H; destruct k; try reflexivity; exfalso; eapply H; reflexivity. Qed.
Theorem C96_builds : forall o1 o2 ppc1 ppc2 n1 n2 i1 i1' i2 i2' c1 c2 mem1 mem2 d1 d2,
  coded o1 ppc1 n1 i1 i1' c1 mem1 d1 -> coded o2 ppc2 n2 i2 i2' c2 mem2 d2 -> same_loss i1 i2 ->
  forall a1 a2 f1 f2 g1 g2 j1 j2,
  nth_error (i_fields i1) a1 = Some f1 -> nth_error (i_fields i1') a1 = Some g1 -> nth_error (i_fields i2) a2 = Some f2 -> nth_error (i_fields i2') a2 = Some g2 ->
  f_type f1 = f_type f2 -> f_res f1 = f_res f2 -> grouped i1 a1 = false -> grouped i2 a2 = false ->
  stored g1 = true -> stored g2 = true -> (j1 < n1)%nat -> (j2 < n2)%nat ->
  let size := SizeOf (f_type f1) in
  sub (Z.of_nat j1 * i_step i1 + f_off f1) size c1 = sub (Z.of_nat j2 * i_step i2 + f_off f2) size c2 ->
  sub (Z.of_nat j1 * i_step i1' + f_off g1) size d1 = sub (Z.of_nat j2 * i_step i2' + f_off g2) size d2.
Proof.
  intros o1 o2 ppc1 ppc2 n1 n2 i1 i1' i2 i2' c1 c2 mem1 mem2 d1 d2 C1 C2 HL a1 a2 f1 f2 g1 g2 j1 j2 A1 G1 A2 G2 ET ER EG1 EG2 S1 S2 Hj1 Hj2 size E.
  pose proof (coded_build _ _ _ _ _ _ _ _ C1) as B1. pose proof (coded_build _ _ _ _ _ _ _ _ C2) as B2.
  destruct (coded_restored _ _ _ _ _ _ _ _ C1) as [(_ & R1 & _) _]. destruct (coded_restored _ _ _ _ _ _ _ _ C2) as [(_ & R2 & _) _].
  assert (HC : forall (A B : Type) (l1 : list A) (l2 : list B) n x y, nth_error l1 n = Some x -> nth_error l2 n = Some y -> nth_error (combine l1 l2) n = Some (x, y)).
  { clear. intros A B l1. induction l1 as [|b1 l1 IH]; intros [|b2 l2] [|n] x y H1 H2; cbn in *; try discriminate; [congruence|eauto]. }
  pose proof (HC _ _ _ _ _ _ _ G1 (HC _ _ _ _ _ _ _ A1 (kind_at i1 a1 f1 A1))) as K1. pose proof (HC _ _ _ _ _ _ _ G2 (HC _ _ _ _ _ _ _ A2 (kind_at i2 a2 f2 A2))) as K2.
  apply nth_error_In in K1, K2. pose proof (R1 j1 g1 f1 _ Hj1 K1 S1) as E1. pose proof (R2 j2 g2 f2 _ Hj2 K2 S2) as E2. unfold fbytes in E1, E2. unfold size in *.
  rewrite E1. rewrite ET. rewrite E2. rewrite ET in E. rewrite E.
  assert (EK : (match i_enc i1 with ENC_LOSSY => if grouped i1 a1 then vector_kind f1 else lossy_kind f1 | _ => KId end) = (match i_enc i2 with ENC_LOSSY => if grouped i2 a2 then vector_kind f2 else lossy_kind f2 | _ => KId end)); [|rewrite EK; apply recon_builds; [exact B1|exact B2|rewrite EG2; intros r; unfold lossy_kind; destruct (i_enc i2), (f_type f2), (f_res f2); discriminate]].
  rewrite EG1, EG2. unfold vector_kind, lossy_kind. rewrite ET, ER. destruct HL as [H1 H2].
  destruct (i_enc i1), (i_enc i2); try reflexivity; try (specialize (H1 eq_refl); discriminate H1); specialize (H2 eq_refl); discriminate H2.
Qed.
Print Assumptions C96_builds.

(** ** Concrete cases *)
Definition pw_info (fs : list field) (step w v : Z) (cp : comp_opt) : info := mkInfo fs w 1 step ENC_LOSSY [] cp false v.
Definition pw_ok (ppc n : nat) (i : info) (c mem d : list Z) : Prop :=
  match PointcloudEncoder i (Ok []) with
  | Ok e => let run := encode_vec sse_ops store_libs ppc 4096 e c [] in
            (match fst (fst run) with Ok t => (t =? zlen (snd (fst run))) && list_eqb (firstn (length (e_hdr e)) (snd (fst run))) (e_hdr e) | _ => false end) = true /\
            zlen (snd (fst run)) < 1431260227 /\ match decode sse_ops store_libs ppc i (snd (fst run)) [] mem with Ok (_, m) => m = d | _ => False end
  | _ => False end.
Lemma pw_coded ppc n i c mem d : encode_side ppc i c -> decode_side i i -> deltas_ok sse_ops i ppc c -> zlen c = Z.of_nat n * i_step i -> declares i n -> Z.of_nat n * i_step i <= zlen mem ->
  pw_ok ppc n i c mem d -> coded sse_ops ppc n i i c mem d.
Proof.
  intros ES DS D Z1 Hdec Hm H. unfold pw_ok in H. destruct (PointcloudEncoder i (Ok [])) as [e| |] eqn:EE; [|contradiction|contradiction]. cbv zeta in H. destruct H as (H1 & H2 & H3).
  destruct (new_produces sse_ops store_libs ppc 4096 i [] e c EE H1) as [P1 P2]. cbn [length skipn] in P2.
  destruct (decode sse_ops store_libs ppc i (snd (fst (encode_vec sse_ops store_libs ppc 4096 e c []))) [] mem) as [[x m]| |] eqn:ED; [|contradiction|contradiction]. subst m.
  exact (coded_intro sse_ops ppc n i i c mem d sse_ops store_libs 4096 [] e [] _ [] x (or_introl eq_refl) (or_introl eq_refl) store_libs_ok (Forall_nil _) ES DS D P1 P2 H2 Z1 Hdec Hm ED).
Qed.
(** A quantised x (resolution 2) and a counter; two points, then three points picked from them. *)
Definition pw_fields : list field := [fld 120 0 FLOAT32 (Some 1073741824); fld 105 4 INT32 None].
Definition pw_p : list Z := le_bytes 4 1065353216 ++ [7; 0; 0; 0].
Definition pw_q : list Z := le_bytes 4 1084227584 ++ [9; 0; 0; 0].
Definition pw_i (w v : Z) (cp : comp_opt) : info := pw_info pw_fields 8 w v cp.
Lemma pw_side ppc w v cp c : (ppc = 1 \/ ppc = 2)%nat -> v = 4 \/ v = 5 -> bytes c -> encode_side ppc (pw_i w v cp) c /\ decode_side (pw_i w v cp) (pw_i w v cp).
Proof.
  intros Hp Hv Hb. split.
  - split; [split; [reflexivity|repeat constructor; cbn; lia]|]. split; [exact I|]. split; [|exact Hb]. split; [destruct Hp; lia|]. split; [destruct Hp; lia|destruct Hp as [-> | ->]; vm_compute; discriminate].
  - split; [split; [repeat constructor|auto]|]. split; [split; [reflexivity|repeat constructor; cbn; lia]|]. split; [left; cbn; repeat constructor; cbn; lia|].
    split; [repeat constructor|]. split; [repeat constructor|split; [reflexivity|cbn; lia]].
Qed.
Example C96_case : let A := pw_i 2 5 COMP_NONE in let B := pw_i 2 4 COMP_LZ4 in let C := pw_i 3 4 COMP_LZ4 in
  exists d1 d2, d1 <> pw_p ++ pw_q /\
  coded sse_ops 2 2 A A (pw_p ++ pw_q) (repeat 0 40) d1 /\ coded sse_ops 1 2 B B (pw_p ++ pw_q) (repeat 0 40) d1 /\
  same_cloud_fields A B /\ same_loss A B /\
  coded sse_ops 1 3 C C (pw_q ++ pw_p ++ pw_q) (repeat 255 40) d2 /\ same_cloud_fields A C /\ same_loss A C /\
  (forall j, (j < 3)%nat -> let pick := nth j [1; 0; 1]%nat O in (pick < 2)%nat /\
     sub (Z.of_nat j * 8) 8 (pw_q ++ pw_p ++ pw_q) = sub (Z.of_nat pick * 8) 8 (pw_p ++ pw_q)).
Proof.
  cbv zeta. exists (le_bytes 4 1073741824 ++ [7; 0; 0; 0] ++ le_bytes 4 1086324736 ++ [9; 0; 0; 0] ++ repeat 0 24), (le_bytes 4 1086324736 ++ [9; 0; 0; 0] ++ le_bytes 4 1073741824 ++ [7; 0; 0; 0] ++ le_bytes 4 1086324736 ++ [9; 0; 0; 0] ++ repeat 255 16).
  assert (G : forall ppc n w v cp c mem d, (ppc = 1 \/ ppc = 2)%nat -> v = 4 \/ v = 5 -> bytes c -> deltas_okb sse_ops (pw_i w v cp) ppc c n = true -> zlen c = Z.of_nat n * 8 -> declares (pw_i w v cp) n -> Z.of_nat n * 8 <= zlen mem ->
            pw_ok ppc n (pw_i w v cp) c mem d -> coded sse_ops ppc n (pw_i w v cp) (pw_i w v cp) c mem d).
  { intros ppc n w v cp c mem d Hp Hv Hb Hd Hz Hdec Hm H. destruct (pw_side ppc w v cp c Hp Hv Hb) as [ES DS]. apply pw_coded; try assumption. apply (deltas_okb_ok _ _ _ _ n Hd); [reflexivity|exact Hz]. }
  split; [vm_compute; discriminate|].
  split; [apply G; [now right|now right|apply bytesb; vm_compute; reflexivity|vm_compute; reflexivity|reflexivity|reflexivity|vm_compute; discriminate|vm_compute; repeat split; reflexivity]|].
  split; [apply G; [now left|now left|apply bytesb; vm_compute; reflexivity|vm_compute; reflexivity|reflexivity|reflexivity|vm_compute; discriminate|vm_compute; repeat split; reflexivity]|].
  split; [split; reflexivity|]. split; [split; reflexivity|].
  split; [apply G; [now left|now left|apply bytesb; vm_compute; reflexivity|vm_compute; reflexivity|reflexivity|reflexivity|vm_compute; discriminate|vm_compute; repeat split; reflexivity]|].
  split; [split; reflexivity|]. split; [split; reflexivity|].
  intros j Hj. cbv zeta. destruct j as [|[|[|j]]]; [| | |lia]; (split; [cbn; lia|vm_compute; reflexivity]).
Qed.
(** The other fields of the cloud do matter: the same field (FLOAT32 at resolution 1) with the same sample 0.5 decodes to 1
    on its own and to 0 beside two more such fields, where halves go to the even step. *)
Theorem C96_neighbours_refuted : ~ (forall o ppc n i1 i2 c1 c2 mem1 mem2 d1 d2,
  coded o ppc n i1 i1 c1 mem1 d1 -> coded o ppc n i2 i2 c2 mem2 d2 -> same_loss i1 i2 ->
  forall a f j, nth_error (i_fields i1) a = Some f -> nth_error (i_fields i2) a = Some f -> stored f = true -> (j < n)%nat ->
  let size := SizeOf (f_type f) in
  sub (Z.of_nat j * i_step i1 + f_off f) size c1 = sub (Z.of_nat j * i_step i2 + f_off f) size c2 ->
  sub (Z.of_nat j * i_step i1 + f_off f) size d1 = sub (Z.of_nat j * i_step i2 + f_off f) size d2).
Proof.
  intros H. pose (x := fld 120 0 FLOAT32 (Some 1065353216)).
  pose (i1 := pw_info [x] 4 1 5 COMP_NONE). pose (i2 := pw_info [x; fld 121 4 FLOAT32 (Some 1065353216); fld 122 8 FLOAT32 (Some 1065353216)] 12 1 5 COMP_NONE).
  assert (C1 : coded sse_ops 2 1 i1 i1 (le_bytes 4 1056964608) (repeat 0 4) (le_bytes 4 1065353216)).
  { apply pw_coded.
    - split; [split; [reflexivity|repeat constructor; cbn; lia]|]. split; [exact I|]. split; [|apply bytesb; vm_compute; reflexivity]. split; [lia|]. split; [lia|vm_compute; discriminate].
    - split; [split; [repeat constructor|auto]|]. split; [split; [reflexivity|repeat constructor; cbn; lia]|]. split; [left; cbn; repeat constructor; cbn; lia|].
      split; [repeat constructor|]. split; [repeat constructor|split; [reflexivity|cbn; lia]].
    - apply (deltas_okb_ok _ _ _ _ 1); [vm_compute; reflexivity|reflexivity|vm_compute; reflexivity].
    - reflexivity.
    - reflexivity.
    - vm_compute. discriminate.
    - vm_compute. repeat split; reflexivity. }
  assert (C2 : coded sse_ops 2 1 i2 i2 (le_bytes 4 1056964608 ++ repeat 0 8) (repeat 0 12) (repeat 0 12)).
  { apply pw_coded.
    - split; [split; [reflexivity|repeat constructor; cbn; lia]|]. split; [exact I|]. split; [|apply bytesb; vm_compute; reflexivity]. split; [lia|]. split; [lia|vm_compute; discriminate].
    - split; [split; [repeat constructor|auto]|]. split; [split; [reflexivity|repeat constructor; cbn; lia]|]. split; [left; cbn; repeat constructor; cbn; lia|].
      split; [repeat constructor|]. split; [repeat constructor|split; [reflexivity|cbn; lia]].
    - apply (deltas_okb_ok _ _ _ _ 1); [vm_compute; reflexivity|reflexivity|vm_compute; reflexivity].
    - reflexivity.
    - reflexivity.
    - vm_compute. discriminate.
    - vm_compute. repeat split; reflexivity. }
  specialize (H sse_ops 2%nat 1%nat i1 i2 _ _ _ _ _ _ C1 C2 (conj (fun _ => eq_refl) (fun _ => eq_refl)) 0%nat x 0%nat eq_refl eq_refl eq_refl (Nat.lt_0_succ 0)).
  cbv zeta in H. specialize (H eq_refl). vm_compute in H. discriminate H.
Qed.
Print Assumptions C96_neighbours_refuted.
(** x alone, and x behind a counter: the hypotheses of C96_fields. *)
Example C96_fields_case : let x := Some 1073741824 in let A := pw_info [fld 120 0 FLOAT32 x] 4 1 5 COMP_NONE in let B := pw_info [fld 105 0 INT32 None; fld 121 4 FLOAT32 x] 8 1 4 COMP_LZ4 in
  coded sse_ops 2 1 A A (le_bytes 4 1065353216) (repeat 0 4) (le_bytes 4 1073741824) /\
  coded sse_ops 2 1 B B ([7; 0; 0; 0] ++ le_bytes 4 1065353216) (repeat 0 40) ([7; 0; 0; 0] ++ le_bytes 4 1073741824 ++ repeat 0 32) /\
  same_loss A B /\ grouped A 0 = grouped B 1 /\ (grouped (pw_info [fld 120 0 FLOAT32 x; fld 121 4 FLOAT32 x; fld 122 8 FLOAT32 x] 12 1 5 COMP_NONE) 0 = true).
Proof.
  cbv zeta. split; [|split; [|split; [split; reflexivity|split; reflexivity]]].
  - apply pw_coded.
    + split; [split; [reflexivity|repeat constructor; cbn; lia]|]. split; [exact I|]. split; [|apply bytesb; vm_compute; reflexivity]. split; [lia|]. split; [lia|vm_compute; discriminate].
    + split; [split; [repeat constructor|auto]|]. split; [split; [reflexivity|repeat constructor; cbn; lia]|]. split; [left; cbn; repeat constructor; cbn; lia|].
      split; [repeat constructor|]. split; [repeat constructor|split; [reflexivity|cbn; lia]].
    + apply (deltas_okb_ok _ _ _ _ 1); [vm_compute; reflexivity|reflexivity|vm_compute; reflexivity].
    + reflexivity.
    + reflexivity.
    + vm_compute. discriminate.
    + vm_compute. repeat split; reflexivity.
  - apply pw_coded.
    + split; [split; [reflexivity|repeat constructor; cbn; lia]|]. split; [exact I|]. split; [|apply bytesb; vm_compute; reflexivity]. split; [lia|]. split; [lia|vm_compute; discriminate].
    + split; [split; [repeat constructor|auto]|]. split; [split; [reflexivity|repeat constructor; cbn; lia]|]. split; [left; cbn; repeat constructor; cbn; lia|].
      split; [repeat constructor|]. split; [repeat constructor|split; [reflexivity|cbn; lia]].
    + apply (deltas_okb_ok _ _ _ _ 1); [vm_compute; reflexivity|reflexivity|vm_compute; reflexivity].
    + reflexivity.
    + reflexivity.
    + vm_compute. discriminate.
    + vm_compute. repeat split; reflexivity.
Qed.
