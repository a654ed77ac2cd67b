(** C92: renaming the fields of a compressed cloud, or giving the same number of points another
    width and height, needs a new header only. *)
From Coq Require String Ascii.
Import String.StringSyntax.
Local Open Scope string_scope.
From Verif Require Import Base BaseFacts Types Floats Fields Codec V5 Api Spec LibSpec ErrorSpec Header RoundTrip LocalFacts CodeFacts ApiFacts CloudApi Cases PropsCloud PropsHeader PropsRecode StreamSpec StreamFacts RenameSpec ShapeFacts PropsCompare.
Open Scope Z_scope.

(** ** Encoding
    Two EncodingInfos that agree on offset, type and resolution of every field, on the point step
    and on the stages.  The buffer size asked of the caller is the same, and the call without the
    header gives the same result and leaves the same bytes in the buffer: for every cloud, every
    buffer, whatever the libraries do and whatever was encoded before with either object. *)
Theorem C92_same_call : forall ops L ppc probe i i' hdr hdr' e e' cloud out, same_layout i i' ->
  encoder_of ops L ppc probe i hdr e -> encoder_of ops L ppc probe i' hdr' e' ->
  fst (encode_view ops L ppc probe e cloud out false) = fst (encode_view ops L ppc probe e' cloud out false).
Proof.
  intros ops L ppc probe i i' hdr hdr' e e' cloud out HS H H'.
  destruct (encoder_of_ready _ _ _ _ _ _ _ H) as (R1 & I1 & D1 & f & F & E1).
  destruct (encoder_of_ready _ _ _ _ _ _ _ H') as (R2 & I2 & D2 & f' & F' & E2).
  rewrite D1 in F. rewrite D2 in F'. pose proof (like_new i i' HS _ _ _ _ F F') as HE.
  set (e0 := mkEnc i' (e_hdr e) (e_es e) (e_sts e)).
  assert (A : fst (encode_view ops L ppc probe e cloud out false) = fst (encode_view ops L ppc probe e0 cloud out false)) by (apply (like_view i i' HS); auto).
  set (e1 := mkEnc i' (e_hdr e') (e_es e) (e_sts e)).
  assert (B : fst (encode_view ops L ppc probe e0 cloud out false) = fst (encode_view ops L ppc probe e1 cloud out false)).
  { unfold encode_view, e0, e1. cbn [e_info e_hdr e_es e_sts]. destruct (_ =? 0); [reflexivity|]. destruct (negb _); [reflexivity|].
    destruct (MaxCompressedSize _ _ _ _ _); [|reflexivity|reflexivity]. destruct (zlen out <? _); [reflexivity|].
    unfold encode_write, encode_body. cbn [e_info e_es]. destruct (abind _ _ _) as [r w]. reflexivity. }
  assert (R0 : enc_ready e1).
  { unfold enc_ready, e1. cbn [e_info e_es e_sts]. intros U. unfold enc_ready in R1. rewrite I1, (like_uses i i' HS), (like_v4_enc i i' HS) in R1. exact (R1 U). }
  rewrite A, B. apply encode_view_history; cbn; auto; congruence.
Qed.
Print Assumptions C92_same_call.
Theorem C92_same_buffer_size : forall L ppc i i' n header, same_layout i i' -> MaxCompressedSize L ppc i n header = MaxCompressedSize L ppc i' n header.
Proof. intros. now apply like_bound. Qed.
Print Assumptions C92_same_buffer_size.

(** With the headers, through either overload and with any buffers: the two streams differ in
    their header only. *)
Theorem C92_same_stream : forall ops L ppc probe i i' hdr0 hdr0' e e' cloud h b h' b', same_layout i i' ->
  libs_ok L -> steady L (i_comp i) -> bytes hdr0 -> bytes hdr0' -> encode_side ppc i cloud ->
  encoder_of ops L ppc probe i (Ok hdr0) e -> encoder_of ops L ppc probe i' (Ok hdr0') e' ->
  produces ops L ppc probe e cloud h b -> produces ops L ppc probe e' cloud h' b' -> b = b'.
Proof.
  intros ops L ppc probe i i' hdr0 hdr0' e e' cloud h b h' b' HS HLi HSt Hh Hh' (HL & HK & HCl & Hc) H H' P P'.
  destruct (encoder_of_ready _ _ _ _ _ _ _ H) as (R1 & I1 & D1 & f & F & E1).
  destruct (encoder_of_ready _ _ _ _ _ _ _ H') as (R2 & I2 & D2 & f' & F' & E2).
  pose proof (like_new i i' HS _ _ _ _ F F') as HE. pose proof (limits_v5 _ _ HCl) as Hv5. destruct HCl as (Hp & _).
  assert (Hd : hdr0 = e_hdr e) by congruence. assert (Hd' : hdr0' = e_hdr e') by congruence. subst hdr0 hdr0'.
  assert (P2 : produces ops L ppc probe (mkEnc (e_info e) (e_hdr e') (e_es e) (e_sts e')) cloud h' b').
  { apply (like_produces i i' HS) with (e' := e'); cbn; auto; congruence. }
  assert (R3 : enc_ready (mkEnc (e_info e) (e_hdr e') (e_es e) (e_sts e'))).
  { unfold enc_ready. cbn [e_info e_es e_sts]. intros U. unfold enc_ready in R2. rewrite I1, (like_uses i i' HS) in U. rewrite I2 in R2. rewrite I1, (like_v4_enc i i' HS). destruct (R2 U) as [A B]. split; [congruence|].
    replace (e_es e) with (e_es e') by congruence. exact B. }
  assert (R4 : enc_ready (mkEnc (e_info e) (e_hdr e') (e_es e) (e_sts e))) by exact R1.
  assert (P3 : produces ops L ppc probe (mkEnc (e_info e) (e_hdr e') (e_es e) (e_sts e)) cloud h' b') by (eapply produces_history; [..|exact P2]; auto).
  assert (P0 : produces ops L ppc probe (mkEnc (e_info e) (e_hdr e) (e_es e) (e_sts e)) cloud h b) by (destruct e; exact P).
  rewrite <- I1 in HL, HK, HSt, Hv5.
  destruct (produces_made_any ops L ppc probe e cloud R1 HLi HL HK Hc Hp Hv5) as (bss & Hbb & HM).
  destruct (HM _ _ _ Hh P0) as (ps1 & A1 & ->). destruct (HM _ _ _ Hh' P3) as (ps2 & A2 & ->). now rewrite (comp_all_one _ _ _ _ _ HSt Hbb A1 A2).
Qed.
Print Assumptions C92_same_stream.

(** ** Decoding
    Every input, hostile ones included, is decoded alike: the same points into the same places, or
    the same error. *)
Theorem C92_same_decode : forall ops L ppc i i' data buf mem, same_layout i i' -> same_points i i' ->
  decode ops L ppc i data buf mem = decode ops L ppc i' data buf mem.
Proof. intros. now apply like_decode. Qed.
Print Assumptions C92_same_decode.

(** ** A new header before the old body
    Hence a stream is renamed or reshaped by writing the header of the new EncodingInfo [i'] in
    front of the old body: it is read back as [i'], and the body is decoded as before. *)
Theorem C92_new_header : forall ft ops L ppc i i' body, same_layout i i' -> same_points i i' ->
  (yaml_header_info ft i' -> Forall (fun f => match f_res f with Some r => ft_parse ft (ft_print ft r) = Some r | None => True end) (i_fields i') ->
   exists h j, EncodeHeader ft i' HYaml = Ok h /\ DecodeHeader ft (h ++ body) = Ok (j, body) /\
     i_fields j = i_fields i' /\ i_width j = i_width i' /\ i_height j = i_height i' /\
     forall buf mem, decode ops L ppc j body buf mem = decode ops L ppc i body buf mem) /\
  (header_info i' -> width_unambiguous (i_width i') ->
   exists h j, EncodeHeader ft i' HBinary = Ok h /\ DecodeHeader ft (h ++ body) = Ok (j, body) /\
     i_fields j = i_fields i' /\ i_width j = i_width i' /\ i_height j = i_height i' /\
     forall buf mem, decode ops L ppc j body buf mem = decode ops L ppc i body buf mem).
Proof.
  intros ft ops L ppc i i' body HS HP. split.
  - intros HY HR. destruct (C30_yaml_header_exact ft i' body HY HR) as (h & E & D). exists h, (stored_yaml (i_fields i') i'). split; [exact E|]. split; [exact D|]. do 3 (split; [reflexivity|]).
    intros buf mem. symmetry. apply like_decode; [exact HS|exact HP].
  - intros HB HW. destruct (C28_binary_header_round_trip ft i' body HB HW) as (h & E & _ & D). exists h, (stored_binary i'). split; [exact E|]. split; [exact D|]. do 3 (split; [reflexivity|]).
    intros buf mem. symmetry. apply like_decode; [exact HS|exact HP].
Qed.
Print Assumptions C92_new_header.

(** ** A case
    The two points of C91, one row of two, as a column of two with other field names. *)
Definition renamed (i : info) (w h : Z) : info :=
  mkInfo (map (fun f => mkField (f_name f ++ str "_0") (f_off f) (f_type f) (f_res f)) (i_fields i)) w h (i_step i) (i_enc i) (str "made by hand") (i_comp i) true (i_version i).
Definition made (i : info) (hdr : list Z) : encoder := match PointcloudEncoder i (Ok hdr) with Ok e => e | _ => mkEnc i hdr [] [] end.
Definition made_out (i : info) (hdr : list Z) : list Z := snd (fst (encode_vec sse_ops store_libs 2 4096 (made i hdr) near_cloud [])).
Lemma made_ok i hdr : match PointcloudEncoder i (Ok hdr) with Ok _ => True | _ => False end -> bytes hdr -> e_hdr (made i hdr) = hdr ->
  match encode_vec sse_ops store_libs 2 4096 (made i hdr) near_cloud [] with (Ok n, o, _) => n = zlen o /\ firstn (length hdr) o = hdr | _ => False end ->
  encoder_of sse_ops store_libs 2 4096 i (Ok hdr) (made i hdr) /\
  produces sse_ops store_libs 2 4096 (made i hdr) near_cloud hdr (skipn (length hdr) (made_out i hdr)).
Proof.
  intros HN Hb Hh H. split.
  - apply eo_new. unfold made. destruct (PointcloudEncoder i (Ok hdr)); [reflexivity|contradiction|contradiction].
  - right. unfold made_out. destruct (encode_vec sse_ops store_libs 2 4096 (made i hdr) near_cloud []) as [[r o] e'] eqn:E.
    destruct r as [n| |]; try contradiction. destruct H as [H1 H2]. exists [], n, o, e'. cbn [fst snd]. split; [constructor|]. split; [exact E|].
    assert (A : o = hdr ++ skipn (length hdr) o) by (rewrite <- H2 at 1; now rewrite firstn_skipn). split; [exact A|]. split; [now rewrite <- A|]. now symmetry.
Qed.
Example C92_case : let i := near_info in let i' := renamed near_info 1 2 in let hdr' := str "other" in
  same_layout i i' /\ same_points i i' /\ i_fields i <> i_fields i' /\
  steady store_libs (i_comp i) /\ encode_side 2 i near_cloud /\ bytes hdr' /\ header_info i' /\ width_unambiguous (i_width i') /\
  encoder_of sse_ops store_libs 2 4096 i (Ok []) (made i []) /\ encoder_of sse_ops store_libs 2 4096 i' (Ok hdr') (made i' hdr') /\
  produces sse_ops store_libs 2 4096 (made i []) near_cloud [] (made_out i []) /\
  produces sse_ops store_libs 2 4096 (made i' hdr') near_cloud hdr' (skipn 5 (made_out i' hdr')) /\
  skipn 5 (made_out i' hdr') = made_out i [] /\ made_out i [] <> [].
Proof.
  cbv zeta. split; [repeat (split; [reflexivity|]); reflexivity|]. split; [reflexivity|]. split; [vm_compute; discriminate|]. split; [exact I|].
  split; [apply near_side, bytesb; vm_compute; reflexivity|]. split; [apply bytesb; vm_compute; reflexivity|]. split.
  { unfold header_info. cbn. split; [lia|]. split; [lia|]. split; [lia|]. split; [lia|]. split; [exact I|]. split; [exact I|]. split; [vm_compute; reflexivity|].
    cbn [renamed near_info i_fields map near_fields]. repeat (apply Forall_cons; [unfold header_field; split; [vm_compute; reflexivity|]; cbn; unfold milli; repeat split; (lia || exact I)|]). apply Forall_nil. }
  split; [left; vm_compute; discriminate|].
  destruct (made_ok near_info []) as [A1 A2]; [vm_compute; exact I|constructor|vm_compute; reflexivity|vm_compute; split; reflexivity|].
  destruct (made_ok (renamed near_info 1 2) (str "other")) as [B1 B2]; [vm_compute; exact I|apply bytesb; vm_compute; reflexivity|vm_compute; reflexivity|vm_compute; split; reflexivity|].
  split; [exact A1|]. split; [exact B1|]. split; [exact A2|]. split; [exact B2|]. split; [vm_compute; reflexivity|vm_compute; discriminate].
Qed.
