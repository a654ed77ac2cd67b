(** C33 - C37: decoding data that no encoder produced. *)
From Verif Require Import Base Varint BaseFacts VarintFacts Types Floats Fields Codec V5 Api Spec LibSpec ApiFacts CloudFacts HostileFacts CodecFacts BuildFacts RoundTrip CloudRT LocalFacts CloudApi GorillaFacts GorillaHostile PropsField PropsStage1 PropsCloud PropsBuffer SeqSpec PropsFrame.

(** *** Specification vocabulary *)
(** Outcome without an access outside the input or the output buffer: a result (in an
    output buffer of the same size) or an exception. *)
Definition no_oob (mem : list Z) (r : res (list Z * list Z)) : Prop :=
  match r with Ok (_, mem') => length mem' = length mem | Throw => True | UB => False end.
(** Integer fields of two or more bytes. *)
Definition wide_int (f : field) : Prop :=
  f_type f = INT16 \/ f_type f = UINT16 \/ f_type f = INT32 \/ f_type f = UINT32 \/ f_type f = INT64 \/ f_type f = UINT64.
(** Fields coded in a fixed number of bytes. *)
Definition fixed_field (i : info) (f : field) : Prop :=
  match f_type f with
  | INT8 | UINT8 => True
  | FLOAT32 => f_res f = None \/ i_enc i = ENC_LOSSLESS
  | FLOAT64 => (f_res f = None /\ i_version i < 4) \/ (f_res f <> None /\ i_enc i = ENC_LOSSLESS)
  | _ => False
  end.
Definition lossy_float (f : field) : Prop := f_type f = FLOAT32 /\ f_res f <> None.
(** Every field lies inside the point (no skip marker). *)
Definition all_inside (i : info) : Prop :=
  Forall (fun f => 0 <= f_off f /\ f_off f + Z.of_nat (SizeOf (f_type f)) <= i_step i) (i_fields i).

Lemma mapM_F2 {A B} (g : A -> res B) l : forall r, mapM g l = Ok r -> Forall2 (fun x y => g x = Ok y) l r.
Proof.
  induction l as [|x l IH]; intros r H; cbn [mapM] in H; [assert (r = []) by congruence; subst; constructor|].
  destruct (g x) as [y| |] eqn:E; cbn [bind] in H; try discriminate. destruct (mapM g l) as [ys| |]; cbn [bind] in H; try discriminate.
  assert (r = y :: ys) by congruence. subst r. constructor; auto.
Qed.
Lemma F2_Forall {A B} (R : A -> B -> Prop) (P : A -> Prop) (Q : B -> Prop) l r : (forall x y, R x y -> P x -> Q y) -> Forall2 R l r -> Forall P l -> Forall Q r.
Proof. intros H HF. induction HF; intros HP; constructor; inversion HP; subst; eauto. Qed.
Definition fit_field (step : Z) (f : field) : Prop := stored f = true -> 0 <= f_off f /\ f_off f + Z.of_nat (SizeOf (f_type f)) <= step.
Lemma fit_fit1 step f : fit_field step f -> fit1 step (f_off f) (SizeOf (f_type f)).
Proof. unfold fit_field, fit1, stored. intros H. destruct (f_off f =? kSkip) eqn:E; [left; lia|right; now apply H]. Qed.
Lemma dec_fixed i f d : known_enc i -> CreateCompatibleDecoder i f = Ok d -> fixed_field i f -> fit_field (i_step i) f -> fixed_size d /\ dec_fits (i_step i) d.
Proof.
  intros HK HD HX HF. apply fit_fit1 in HF. unfold CreateCompatibleDecoder, fixed_field, known_enc, has_res in *. destruct (f_type f); try contradiction; cbn [SizeOf] in *.
  - assert (d = DCopy (f_off f) 1) by congruence. subst. split; [exact I|exact HF].
  - assert (d = DCopy (f_off f) 1) by congruence. subst. split; [exact I|exact HF].
  - destruct HX as [E|E].
    + rewrite E, andb_false_r in HD. destruct (i_enc i); cbn in HD; try contradiction; assert (Hd : fixed_size d /\ dec_fits (i_step i) d) by (inversion HD; subst; split; [exact I|exact HF]); exact Hd.
    + rewrite E in HD. cbn [is_lossy andb] in HD. inversion HD; subst. split; [exact I|exact HF].
  - destruct HX as [[E Hv]|[Hr E]].
    + rewrite E, andb_false_r in HD. cbn [negb andb] in HD. destruct (4 <=? i_version i) eqn:E4; [lia|]. inversion HD; subst. split; [exact I|exact HF].
    + rewrite E in HD. destruct (f_res f); [|congruence]. cbn in HD. inversion HD; subst. split; [exact I|exact HF].
Qed.
Lemma dec_int i f d : CreateCompatibleDecoder i f = Ok d -> wide_int f -> fit_field (i_step i) f -> self_checked d /\ dec_fits (i_step i) d.
Proof.
  intros HD HX HF. apply fit_fit1 in HF. unfold CreateCompatibleDecoder in HD. destruct HX as [E|[E|[E|[E|[E|E]]]]]; rewrite E in *; cbn [SizeOf] in *; inversion HD; subst; (split; [exact I|exact HF]).
Qed.
Lemma lead_zero i f fs : i_fields i = f :: fs -> ~ lossy_float f -> LeadingLossyFloatFieldCount i = O.
Proof.
  intros E H. unfold LeadingLossyFloatFieldCount. destruct (is_lossy (i_enc i)); [|reflexivity]. rewrite E. cbn [leading_lossy]. unfold lossy_float in H.
  destruct (is_float32 (f_type f) && has_res f) eqn:E2; [|reflexivity]. apply andb_prop in E2. destruct E2 as [A B]. exfalso. apply H. split; [destruct (f_type f); discriminate || reflexivity|]. unfold has_res in B. destruct (f_res f); [discriminate|discriminate].
Qed.
Lemma wide_not_lossy f : wide_int f -> ~ lossy_float f.
Proof. intros H [E _]. unfold wide_int in H. rewrite E in H. intuition discriminate. Qed.
Lemma fixed_not_lossy i f : i_enc i = ENC_LOSSY -> fixed_field i f -> ~ lossy_float f.
Proof. intros E H [E1 E2]. unfold fixed_field in H. rewrite E1 in H. destruct H as [H|H]; congruence. Qed.
Lemma lead_count_group g b : Forall lossy_float g -> Forall wide_int b -> leading_lossy (g ++ b) = length g.
Proof.
  intros HG HB. induction HG as [|f g [E1 E2] _ IH].
  - cbn. destruct HB as [|f b Hf _]; [reflexivity|]. cbn [leading_lossy]. unfold wide_int in Hf. destruct (f_type f); try reflexivity; intuition discriminate.
  - cbn [app leading_lossy length]. rewrite E1, IH. unfold has_res. destruct (f_res f); [reflexivity|congruence].
Qed.
Lemma lead_fits i g b d : i_fields i = g ++ b -> Forall lossy_float g -> Forall wide_int b -> (length g = 3 \/ length g = 4)%nat -> i_enc i = ENC_LOSSY ->
  Forall (fit_field (i_step i)) (i_fields i) -> LeadingLossyFloatFieldCount i = length g /\ skipn (LeadingLossyFloatFieldCount i) (i_fields i) = b /\
  (leading_decoder i = Ok d -> Forall self_checked d /\ Forall (dec_fits (i_step i)) d).
Proof.
  intros EF HG HB Hl HE HF.
  assert (EC : LeadingLossyFloatFieldCount i = length g).
  { unfold LeadingLossyFloatFieldCount. rewrite HE, EF, lead_count_group by assumption. cbn [is_lossy]. destruct Hl as [-> | ->]; reflexivity. }
  split; [exact EC|]. rewrite EC, EF. split; [rewrite skipn_app, skipn_all, Nat.sub_diag; reflexivity|].
  unfold leading_decoder. rewrite EC. cbv zeta. replace (length g =? 0)%nat with false by lia. rewrite EF, firstn_app, firstn_all, Nat.sub_diag, firstn_O, app_nil_r.
  destruct (existsb _ _); [discriminate|]. intros H. assert (d = [DFloatN (lanes_of g)]) by congruence. subst d.
  split; (constructor; [|constructor]).
  - cbn [self_checked]. unfold lanes_of. rewrite map_length. lia.
  - cbn [dec_fits]. unfold lanes_of. rewrite EF in HF. apply Forall_app in HF. destruct HF as [HF _]. clear - HF HG.
    induction HF as [|f g Hf _ IH]; cbn [map]; constructor; inversion HG as [|? ? [h1 h3] h2]; subst; auto. cbn [fst]. apply fit_fit1 in Hf. rewrite h1 in Hf. exact Hf.
Qed.
Lemma sum_nat_app a b : sum_nat (a ++ b) = (sum_nat a + sum_nat b)%nat.
Proof. induction a as [|x a IH]; [reflexivity|]. unfold sum_nat in *. cbn [app fold_right]. rewrite IH. lia. Qed.

(** * C33 *)
(** Uncompressed codecs (ENCODING NONE): no data, of any length, makes the decoder read or
    write outside its buffers, for any fields, any declared size and any output buffer. *)
Theorem C33_raw_decode_safe : forall ops L ppc i data buf mem, libs_ok L -> (0 < ppc)%nat -> bytes data ->
  i_enc i = ENC_NONE -> out_layout_ok i -> no_oob mem (decode ops L ppc i data buf mem).
Proof.
  intros ops L ppc i data buf mem HL Hp Hby HE [Hs HF].
  assert (HV5 : UsesV5Codec i = false) by (unfold UsesV5Codec; rewrite HE; cbn; now rewrite andb_false_r).
  set (ds := map (fun f => DCopy (f_off f) (SizeOf (f_type f))) (i_fields i)).
  set (minb := sum_nat (map (fun f => SizeOf (f_type f)) (i_fields i))).
  apply (decode_safe ops L ppc i ds minb); auto using updateDecoders_defined.
  - intros d m H. unfold updateDecoders in H. rewrite HV5 in H. unfold BuildV4Decoders in H. rewrite HE in H. fold ds minb in H. split; congruence.
  - intros chunk view n _ _ _. unfold chunk_safe. rewrite HV5. exists ds, []. rewrite app_nil_r. split; [reflexivity|]. split; [|split; [constructor|split]].
    + unfold ds. apply Forall_forall. intros d Hd. apply in_map_iff in Hd. destruct Hd as (f & <- & _). exact I.
    + unfold ds. apply Forall_forall. intros d Hd. apply in_map_iff in Hd. destruct Hd as (f & <- & Hin). cbn [dec_fits]. apply fit_fit1. rewrite Forall_forall in HF. exact (HF f Hin).
    + unfold ds, minb. rewrite map_map. cbn [min_input_bytes]. apply Nat.le_refl.
Qed.

(** Version 4 codec, fields of fixed coded size first, then wide integers. *)
Theorem C33_fixed_then_ints_safe : forall ops L ppc i a b data buf mem, libs_ok L -> (0 < ppc)%nat -> bytes data ->
  known_enc i -> (i_enc i = ENC_LOSSY -> i_version i < 5) -> i_fields i = a ++ b -> Forall (fixed_field i) a -> Forall wide_int b ->
  out_layout_ok i -> no_oob mem (decode ops L ppc i data buf mem).
Proof.
  intros ops L ppc i a b data buf mem HL Hp Hby HK HV EF HA HB HO.
  destruct (i_enc i) eqn:HE; [now apply C33_raw_decode_safe| | |unfold known_enc in HK; rewrite HE in HK; contradiction]; destruct HO as [Hs HF].
  all: assert (HV5 : UsesV5Codec i = false) by
    (unfold UsesV5Codec; rewrite HE; cbn [is_lossy]; try (rewrite andb_false_r; reflexivity); replace (5 <=? i_version i) with false by (specialize (HV eq_refl); lia); reflexivity).
  all: assert (HL0 : LeadingLossyFloatFieldCount i = O) by
    (destruct a as [|f a']; [destruct b as [|f b']; [unfold LeadingLossyFloatFieldCount; rewrite EF; cbn; destruct (is_lossy (i_enc i)); reflexivity|
       apply (lead_zero i f b' EF); inversion HB; subst; now apply wide_not_lossy]|
     try (unfold LeadingLossyFloatFieldCount; rewrite HE; reflexivity); apply (lead_zero i f (a' ++ b) EF); inversion HA; subst; now apply (fixed_not_lossy i)]).
  all: destruct (mapM (CreateCompatibleDecoder i) (i_fields i)) as [ds| |] eqn:EM.
  all: assert (EB : BuildV4Decoders i = match mapM (CreateCompatibleDecoder i) (i_fields i) with Ok rest => Ok (rest, sum_nat (map min_input_bytes rest)) | Throw => Throw | UB => UB end)
    by (unfold BuildV4Decoders, leading_decoder; rewrite HE, HL0; cbn [Nat.eqb bind app]; rewrite skipn_O; destruct (mapM (CreateCompatibleDecoder i) (i_fields i)); reflexivity).
  all: rewrite EM in EB.
  all: try (unfold decode, updateDecoders; rewrite HV5, EB; exact I).
  all: try (exfalso; apply (mapM_def (CreateCompatibleDecoder i) (i_fields i) (dec_defined i)); exact EM).
  all: apply (decode_safe ops L ppc i ds (sum_nat (map min_input_bytes ds))); auto using updateDecoders_defined;
    [intros d m H; unfold updateDecoders in H; rewrite HV5, EB in H; split; congruence|].
  all: intros chunk view n _ _ _; unfold chunk_safe; rewrite HV5.
  all: pose proof (mapM_F2 _ _ _ EM) as F2; rewrite EF in F2; apply Forall2_app_inv_l in F2; destruct F2 as (fx & gs & F2a & F2b & ->).
  all: rewrite EF in HF; apply Forall_app in HF; destruct HF as [HFa HFb].
  all: assert (PA : Forall (fun d => fixed_size d /\ dec_fits (i_step i) d) fx) by
    (apply (F2_Forall (fun x y => CreateCompatibleDecoder i x = Ok y) (fun f => fixed_field i f /\ fit_field (i_step i) f) _ a fx); [intros x y h1 [h2 h3]; now apply (dec_fixed i x)|exact F2a|];
     rewrite Forall_forall in *; intros x Hx; split; [now apply HA|exact (HFa x Hx)]).
  all: assert (PB : Forall (fun d => self_checked d /\ dec_fits (i_step i) d) gs) by
    (apply (F2_Forall (fun x y => CreateCompatibleDecoder i x = Ok y) (fun f => wide_int f /\ fit_field (i_step i) f) _ b gs); [intros x y h1 [h2 h3]; now apply (dec_int i x)|exact F2b|];
     rewrite Forall_forall in *; intros x Hx; split; [now apply HB|exact (HFb x Hx)]).
  all: exists fx, gs; split; [reflexivity|]; split; [eapply Forall_impl; [|exact PA]; cbn beta; tauto|]; split; [eapply Forall_impl; [|exact PB]; cbn beta; tauto|]; split;
    [apply Forall_app; split; [eapply Forall_impl; [|exact PA]|eapply Forall_impl; [|exact PB]]; cbn beta; tauto|].
  all: rewrite map_app, sum_nat_app; lia.
Qed.

(** The stage-1 bytes a chunk [c] stands for. *)
Definition plain (L : libs) (i : info) (c r : list Z) : Prop :=
  match i_comp i with
  | COMP_NONE => r = c
  | COMP_LZ4 => exists cap, c_decompress (lz4 L) c cap = Some r
  | COMP_ZSTD => exists cap, c_decompress (zstd L) c cap = Some r
  | COMP_OTHER _ => False
  end.
(** No part of the data, after decompression, contains a varint of ten bytes within [n] of
    2^64, at any position. *)
Definition no_huge_varint (L : libs) (i : info) (n : nat) (data : list Z) : Prop :=
  forall pre c post r p s v rest, data = pre ++ c ++ post -> plain L i c r -> r = p ++ s ->
    readUVarint s = Ok (v, rest) -> v < 18446744073709551616 - Z.of_nat n.

Lemma views_plain L i c v : libs_ok L -> bytes c -> views L i c v -> plain L i c v.
Proof.
  intros [HL HZ] Hby (buf & buf' & H). unfold DecompressChunk, plain in *. set (max := u64 (u64 (i_width i * i_height i) * i_step i)) in *.
  assert (K : forall lib, compressor_ok lib -> (let buf1 := if zlen buf <? max then resize max buf else buf in
     match c_decompress lib c max with None => Throw | Some r => do buf2 <- wr 0 r buf1 ; Ok (firstn (length r) buf2, buf2) end) = Ok (v, buf') -> c_decompress lib c max = Some v).
  { intros lib Hlib E. cbv zeta in E. destruct (c_decompress lib c max) as [r|]; [|discriminate]. f_equal.
    destruct (wr 0 r (if zlen buf <? max then resize max buf else buf)) as [b2| |] eqn:EW; cbn [bind] in E; try discriminate.
    apply wr_inv in EW. destruct EW as (_ & _ & -> & _). cbn [Z.to_nat] in E. rewrite firstn_O in E. cbn [app] in E.
    rewrite firstn_app, firstn_all, Nat.sub_diag, firstn_O, app_nil_r in E. congruence. }
  destruct (i_comp i) as [| | |n].
  - congruence.
  - destruct ((INT_MAX <? zlen c) || (INT_MAX <? max)); [discriminate|]. exists max. apply K; assumption.
  - exists max. apply K; assumption.
  - discriminate.
Qed.

(** Version 5: the usual layout, quantised XYZ(I) followed by wide integers, or integers
    only.  The one exception is a run length so close to 2^64 that adding a point index to
    it overflows (C36). *)
Theorem C33_group_then_ints_safe : forall ops L ppc i g b data buf mem, libs_ok L -> (0 < ppc)%nat -> Z.of_nat ppc < 9223372036854775808 -> bytes data ->
  i_enc i = ENC_LOSSY -> i_fields i = g ++ b -> Forall lossy_float g -> (length g = 0 \/ length g = 3 \/ length g = 4)%nat -> Forall wide_int b ->
  0 < i_step i -> all_inside i -> (5 <= i_version i -> no_huge_varint L i ppc data) ->
  no_oob mem (decode ops L ppc i data buf mem).
Proof.
  intros ops L ppc i g b data buf mem HL Hp Hp2 Hby HE EF HG Hlg HB Hs HF HN.
  assert (HF' : Forall (fit_field (i_step i)) (i_fields i)). { eapply Forall_impl; [|exact HF]. intros f H _. exact H. }
  assert (HLead : skipn (LeadingLossyFloatFieldCount i) (i_fields i) = b /\
     forall d, leading_decoder i = Ok d -> Forall self_checked d /\ Forall (dec_fits (i_step i)) d).
  { destruct Hlg as [H0|Hl].
    - destruct g; [|discriminate]. cbn [app] in EF.
      assert (L0 : LeadingLossyFloatFieldCount i = O).
      { destruct b as [|f b']; [unfold LeadingLossyFloatFieldCount; rewrite EF; cbn; destruct (is_lossy (i_enc i)); reflexivity|].
        apply (lead_zero i f b' EF). inversion HB; subst. now apply wide_not_lossy. }
      rewrite L0, skipn_O. split; [exact EF|]. intros d H. unfold leading_decoder in H. rewrite L0 in H. cbn in H. assert (d = []) by congruence. subst. split; constructor.
    - split; [apply (lead_fits i g b [] EF HG HB Hl HE HF')|]. intros d. apply (lead_fits i g b d EF HG HB Hl HE HF'). }
  destruct HLead as [HSk HLd].
  destruct (updateDecoders i) as [[ds minb]| |] eqn:EU.
  2:{ unfold decode. rewrite EU. exact I. }
  2:{ now apply updateDecoders_defined in EU. }
  apply (decode_safe ops L ppc i ds minb); auto. { congruence. } { rewrite EU. intros; split; congruence. }
  intros chunk view n Hin Hv Hn. unfold chunk_safe. destruct (UsesV5Codec i) eqn:HV5.
  - assert (Hver : 5 <= i_version i) by (unfold UsesV5Codec in HV5; destruct (5 <=? i_version i) eqn:E5; [lia|discriminate]).
    assert (EA : filter (fun f => negb (isV5AdaptiveIntType (f_type f))) b = []).
    { clear - HB. induction HB as [|f b Hf _ IH]; [reflexivity|]. cbn [filter]. destruct Hf as [E|[E|[E|[E|[E|E]]]]]; rewrite E; exact IH. }
    unfold updateDecoders in EU. rewrite HV5 in EU. unfold BuildV5Decoders in EU. rewrite HSk, EA in EU. cbn [mapM bind] in EU.
    destruct (leading_decoder i) as [lead| |]; cbn [bind] in EU; try discriminate. rewrite app_nil_r in EU. assert (lead = ds) by congruence. subst lead.
    destruct (HLd ds eq_refl) as [S1 S2]. split; [exact S1|]. split; [exact S2|]. split; [|split; [lia|]].
    + unfold getV5AdaptiveFields. rewrite HE. cbn [is_lossy]. rewrite HSk. unfold all_inside in HF. rewrite EF in HF. apply Forall_app in HF. destruct HF as [_ HFb].
      apply Forall_forall. intros x Hx. apply in_map_iff in Hx. destruct Hx as (f & <- & Hf). apply filter_In in Hf. destruct Hf as [Hf _].
      rewrite Forall_forall in HFb. specialize (HFb f Hf). exact HFb.
    + intros (s & v & rest & [p Ep] & Hr & Hv2). destruct Hin as (pre & post & Ed).
      specialize (HN Hver pre chunk post view p s v rest Ed). unfold UINT64_MOD in Hv2.
      assert (v < 18446744073709551616 - Z.of_nat ppc); [|lia]. apply HN; auto. apply views_plain; auto. apply (infix_bytes _ data); [exists pre, post; exact Ed|exact Hby].
  - unfold updateDecoders in EU. rewrite HV5 in EU. unfold BuildV4Decoders in EU. rewrite HE, HSk in EU.
    destruct (leading_decoder i) as [lead| |]; cbn [bind] in EU; try discriminate.
    destruct (mapM (CreateCompatibleDecoder i) b) as [rest| |] eqn:EM; cbn [bind] in EU; try discriminate.
    assert (lead ++ rest = ds) by congruence. subst ds. destruct (HLd lead eq_refl) as [S1 S2].
    assert (PB : Forall (fun d => self_checked d /\ dec_fits (i_step i) d) rest).
    { apply (F2_Forall (fun x y => CreateCompatibleDecoder i x = Ok y) (fun f => wide_int f /\ fit_field (i_step i) f) _ b rest); [intros x y h1 [h2 h3]; now apply (dec_int i x)|now apply mapM_F2|].
      rewrite EF in HF'. apply Forall_app in HF'. destruct HF' as [_ HFb]. rewrite Forall_forall in *. intros x Hx; split; [now apply HB|exact (HFb x Hx)]. }
    exists [], (lead ++ rest). split; [reflexivity|]. split; [constructor|].
    split; [apply Forall_app; split; [exact S1|eapply Forall_impl; [|exact PB]; cbn beta; tauto]|].
    split; [apply Forall_app; split; [exact S2|eapply Forall_impl; [|exact PB]; cbn beta; tauto]|]. cbn. lia.
Qed.

Print Assumptions C33_raw_decode_safe.
Print Assumptions C33_fixed_then_ints_safe.
Print Assumptions C33_group_then_ints_safe.

(** A decoding layout with the given fields. *)
Definition lay (fs : list field) (step : Z) (e : enc_opt) (v : Z) (n : Z) : info := mkInfo fs n 1 step e [] COMP_NONE false v.
Definition fld (off : Z) (t : ftype) (r : option Z) : field := mkField [] off t r.
(** 0.001f *)
Definition res1 : Z := 981668463.
Definition xyz_rest (rest : list field) : list field := fld 0 FLOAT32 (Some res1) :: fld 4 FLOAT32 (Some res1) :: fld 8 FLOAT32 (Some res1) :: rest.
(** The hypotheses of the three theorems are met by ordinary layouts and by data of any
    kind: here with garbage that throws, and with a valid stream that decodes. *)
Example C33_case :
  (let i := lay [fld 0 UINT8 None; fld 1 FLOAT32 None; fld 5 UINT16 None] 8 ENC_LOSSY 4 1 in
   known_enc i /\ i_version i < 5 /\ Forall (fixed_field i) [fld 0 UINT8 None; fld 1 FLOAT32 None] /\ Forall wide_int [fld 5 UINT16 None] /\ out_layout_ok i /\
   decode sse_ops store_libs 4 i [7;0;0;0; 9; 1;2;3;4; 200;1] [] (repeat 0 8) = Ok ([], [9;1;2;3;4;156;255;0]) /\
   decode sse_ops store_libs 4 i [6;0;0;0; 9; 1;2;3;4; 200] [] (repeat 0 8) = Throw) /\
  (let i := lay (xyz_rest [fld 12 UINT16 None]) 16 ENC_LOSSY 5 1 in
   UsesV5Codec i = true /\ Forall lossy_float (xyz_rest []) /\ all_inside i /\
   decode sse_ops store_libs 4 i [6;0;0;0; 1;1;1; 0;8;99] [] (repeat 0 16) = Throw /\
   decode sse_ops store_libs 4 i [5;0;0;0; 1;1;1; 0;8] [] (repeat 7 16) = Ok ([], [0;0;0;0; 0;0;0;0; 0;0;0;0; 252;255; 7;7])).
Proof.
  cbv zeta. split.
  - split; [exact I|]. split; [reflexivity|]. split; [repeat constructor|]. split; [constructor; [right; left; reflexivity|constructor]|].
    split; [|split; vm_compute; reflexivity]. split; [reflexivity|]. repeat constructor; vm_compute; discriminate.
  - split; [reflexivity|]. split; [repeat constructor; discriminate|]. split; [repeat constructor; vm_compute; discriminate|]. split; vm_compute; reflexivity.
Qed.

(** Outside those layouts a truncated chunk makes the decoder read past its end.  Version
    4: a variable-length field eats the bytes the size check reserved for a later one. *)
Theorem C33_truncated_v4_refuted : exists i data,
  layout_ok i /\ i_version i = 4 /\ i_enc i = ENC_LOSSY /\ bytes data /\ forall mem, length mem = 3%nat ->
  decode sse_ops store_libs 4 i data [] mem = UB.
Proof.
  exists (lay [fld 0 UINT16 None; fld 2 UINT8 None] 3 ENC_LOSSY 4 1), [2;0;0;0; 200;1].
  split; [split; [reflexivity|repeat constructor; vm_compute; discriminate]|]. split; [reflexivity|]. split; [reflexivity|].
  split; [repeat constructor; vm_compute; discriminate|]. intros mem Hm. destruct mem as [|a [|b [|c [|? ?]]]]; try discriminate Hm. vm_compute. reflexivity.
Qed.
(** Version 5: no size check at all; an empty chunk is enough. *)
Theorem C33_truncated_v5_refuted : exists i data,
  layout_ok i /\ i_version i = 5 /\ i_enc i = ENC_LOSSY /\ bytes data /\ forall mem, length mem = 3%nat ->
  decode sse_ops store_libs 4 i data [] mem = UB.
Proof.
  exists (lay [fld 0 UINT8 None; fld 1 UINT16 None] 3 ENC_LOSSY 5 1), [0;0;0;0].
  split; [split; [reflexivity|repeat constructor; vm_compute; discriminate]|]. split; [reflexivity|]. split; [reflexivity|].
  split; [repeat constructor; vm_compute; discriminate|]. intros mem Hm. destruct mem as [|a [|b [|c [|? ?]]]]; try discriminate Hm. vm_compute. reflexivity.
Qed.
Print Assumptions C33_truncated_v4_refuted.
Print Assumptions C33_truncated_v5_refuted.

(** * C34 *)
(** A decoding layout may have a field outside the point: the decoder stores outside the
    output (here past its end, with a buffer of exactly the declared size). *)
Theorem C34_decoder_offset_refuted : exists i data,
  i_enc i = ENC_NONE /\ 0 < i_step i /\ bytes data /\
  forall mem, zlen mem = i_width i * i_height i * i_step i -> decode sse_ops store_libs 4 i data [] mem = UB.
Proof.
  exists (lay [fld 3 FLOAT32 None] 4 ENC_NONE 3 1), [4;0;0;0; 1;2;3;4].
  split; [reflexivity|]. split; [reflexivity|]. split; [repeat constructor; vm_compute; discriminate|].
  intros mem Hm. unfold zlen in Hm. cbn in Hm. destruct mem as [|a [|b [|c [|d [|? ?]]]]]; try (cbn [length] in Hm; lia). vm_compute. reflexivity.
Qed.
(** The encoder reads outside the cloud. *)
Theorem C34_encoder_offset_refuted : exists i, i_enc i = ENC_NONE /\ 0 < i_step i /\
  forall e cloud, PointcloudEncoder i (Ok []) = Ok e -> zlen cloud = i_step i ->
    fst (fst (encode_view sse_ops store_libs 4 2 e cloud (repeat 0 100) false)) = UB.
Proof.
  exists (lay [fld 3 FLOAT32 None] 4 ENC_NONE 3 1). split; [reflexivity|]. split; [reflexivity|].
  intros e cloud He Hc. assert (e = mkEnc (lay [fld 3 FLOAT32 None] 4 ENC_NONE 3 1) [] [ECopy 3 4] [reset_state]) by (assert (E : PointcloudEncoder (lay [fld 3 FLOAT32 None] 4 ENC_NONE 3 1) (Ok []) = Ok (mkEnc (lay [fld 3 FLOAT32 None] 4 ENC_NONE 3 1) [] [ECopy 3 4] [reset_state])) by (vm_compute; reflexivity); congruence). subst e.
  unfold zlen in Hc. cbn in Hc. destruct cloud as [|a [|b [|c [|d [|? ?]]]]]; try (cbn [length] in Hc; lia). vm_compute. reflexivity.
Qed.
(** When the encoding layout's fields lie inside the point (part of [encode_side]), every
    read and write of encode is in bounds, whatever the cloud and the buffer. *)
Theorem C34_encoder_in_bounds : forall ops L ppc probe i hdr0 e cloud out (wh : bool),
  libs_ok L -> bytes hdr0 -> encode_side ppc i cloud -> encoder_of ops L ppc probe i (Ok hdr0) e -> bytes out ->
  fst (fst (encode_view ops L ppc probe e cloud out wh)) <> UB.
Proof.
  intros ops L ppc probe i hdr0 e cloud out wh HL Hh HE HO Hb. destruct (encode_view ops L ppc probe e cloud out wh) as [[r out'] e'] eqn:E. cbn [fst].
  now destruct (C27_in_bounds _ _ _ _ _ _ _ _ _ _ _ _ _ HL Hh HE HO Hb E).
Qed.
Print Assumptions C34_decoder_offset_refuted.
Print Assumptions C34_encoder_offset_refuted.
Print Assumptions C34_encoder_in_bounds.

(** * C35 *)
(** Any subset of the fields may be skipped when the V4 codec is used: skipped fields are
    consumed, the stored ones are restored and all other output bytes are unchanged. *)
Definition decode_side_skip (i i' : info) : Prop :=
  same_fields i i' /\ out_layout_ok i' /\ consistent_output i i' /\ resolutions_ok i' /\ i_comp i' = i_comp i /\ 3 <= i_version i'.
Theorem C35_skip_v4 : forall ops L ppc probe i i' hdr0 e cloud hdr body n buf mem,
  libs_ok L -> bytes hdr0 -> encode_side ppc i cloud -> decode_side_skip i i' -> deltas_ok ops i ppc cloud ->
  encoder_of ops L ppc probe i (Ok hdr0) e -> produces ops L ppc probe e cloud hdr body ->
  UsesV5Codec i = false -> i_comp i = COMP_NONE -> zlen body < 1431260227 ->
  zlen cloud = Z.of_nat n * i_step i -> declares i' n -> Z.of_nat n * i_step i' <= zlen mem ->
  exists buf' mem', decode ops L ppc i' body buf mem = Ok (buf', mem') /\ restored ops i i' n cloud mem mem'.
Proof.
  intros ops L ppc probe i i' hdr0 e cloud hdr body n buf mem HLi Hh HES HDS HD HEo HPr HV4 HN Hz Hlen Hdec Hm.
  destruct (produces_chunks _ _ _ _ _ _ _ _ _ _ HLi Hh HES HEo HPr) as (n' & ms & bss & ps & HC & ->).
  assert (n' = n). { destruct HC as (HC & _). destruct HES as ((Hs & _) & _). unfold zlen in Hlen. rewrite HC in Hlen. nia. } subst n'.
  destruct HES as (HL & HK & HCl & Hc). destruct HDS as (HS & HO & HCo & HR & Hcm & Hver). destruct HC as (Hlen' & HSt & HPs & _ & HP5 & HM).
  pose proof (limits_v5 _ _ HCl) as Hv5. destruct HCl as (Hp & _). rewrite <- Hcm in *.
  destruct (decode_chunks ops L ppc i i' cloud n ms HK HS HL HO HCo HR) with (bss := bss) (ps := ps) (data := concat (map frame ps)) (buf := buf) (mem := mem) as [H1 _]; auto.
  - congruence.
  - rewrite Hlen'. apply Nat.le_refl.
  - intros _. destruct (encoder_v4 _ _ _ _ _ _ _ HEo HV4) as (es & ->). rewrite HV4. eauto.
  - apply frames_no_magic; [|exact Hz]. clear - HPs. induction HPs as [|bs p bss ps (_ & _ & H) _ IH]; constructor; auto.
  - apply H1. rewrite HN. apply Forall_forall. intros; exact I.
Qed.
Print Assumptions C35_skip_v4.
Example C35_case :
  let i := lay [fld 0 UINT16 None; fld 2 UINT8 None; fld 3 INT32 None] 7 ENC_LOSSY 4 2 in
  let i' := lay [fld 0 UINT16 None; fld kSkip UINT8 None; fld 2 INT32 None] 6 ENC_LOSSY 4 2 in
  decode_side_skip i i' /\ UsesV5Codec i = false /\
  decode sse_ops store_libs 4 i' [6;0;0;0; 11; 33; 2; 13; 34; 10] [] (repeat 255 13) = Ok ([], [5;0; 255;255;255;255; 11;0; 250;255;255;255; 255]).
Proof.
  cbv zeta. split; [|split; [reflexivity|vm_compute; reflexivity]].
  split; [|split; [|split; [|split; [|split; [reflexivity|vm_compute; discriminate]]]]].
  - split; [repeat constructor|split; reflexivity].
  - split; [reflexivity|]. repeat constructor; vm_compute; discriminate || (intros; discriminate).
  - left. cbn [lay i_fields filter stored fld f_off negb]. change (kSkip =? kSkip) with true. cbn [negb disjoint_fields]. split; [constructor; [left; vm_compute; discriminate|constructor]|split; [constructor|exact I]].
  - repeat constructor.
Qed.
(** With the V5 codec a skipped integer field is stored through the marker, far outside. *)
Theorem C35_skip_v5_refuted : exists i i' cloud hdr body e,
  PointcloudEncoder i (Ok []) = Ok e /\ produces sse_ops store_libs 4 2 e cloud hdr body /\ same_fields i i' /\ out_layout_ok i' /\ i_version i' = 5 /\
  declares i' 1 /\ forall mem, length mem = 4%nat -> decode sse_ops store_libs 4 i' body [] mem = UB.
Proof.
  set (i := lay [fld 0 UINT16 None] 2 ENC_LOSSY 5 1). set (i' := lay [fld kSkip UINT16 None] 2 ENC_LOSSY 5 1).
  exists i, i', [7;0], [], [2;0;0;0; 0;15], (mkEnc i [] [] []).
  split; [reflexivity|]. split.
  { right. exists [], 6, [2;0;0;0; 0;15], (snd (encode_vec sse_ops store_libs 4 2 (mkEnc i [] [] []) [7;0] [])).
    split; [constructor|]. split; [|repeat split]. rewrite (triple_eta (encode_vec _ _ _ _ _ _ _)) at 1. f_equal; vm_compute; reflexivity. }
  split; [split; [repeat constructor|split; reflexivity]|]. split; [split; [reflexivity|repeat constructor; discriminate]|]. split; [reflexivity|]. split; [reflexivity|].
  intros mem Hm. destruct mem as [|a [|b [|c [|d [|? ?]]]]]; try discriminate Hm. vm_compute. reflexivity.
Qed.
Print Assumptions C35_skip_v5_refuted.

(** * C36 *)
(** Run 1 covers the only point, run 2 claims 2^64-1 points: the sum wraps to 0 and passes
    the check. *)
Theorem C36_rle_overflow_refuted : exists i data, layout_ok i /\ bytes data /\
  forall mem, length mem = 2%nat -> decode sse_ops store_libs 4 i data [] mem = UB.
Proof.
  exists (lay [fld 0 UINT16 None] 2 ENC_LOSSY 5 1), [20;0;0;0; 2; 2;0;0;0; 5;0;1; 7;0;255;255;255;255;255;255;255;255;255;1].
  split; [split; [reflexivity|repeat constructor; vm_compute; discriminate]|]. split; [repeat constructor; vm_compute; discriminate|].
  intros mem Hm. destruct mem as [|a [|b [|? ?]]]; try discriminate Hm. vm_compute. reflexivity.
Qed.
Theorem C36_delta_rle_overflow_refuted : exists i data, layout_ok i /\ bytes data /\
  forall mem, length mem = 2%nat -> decode sse_ops store_libs 4 i data [] mem = UB.
Proof.
  exists (lay [fld 0 UINT16 None] 2 ENC_LOSSY 5 1), [18;0;0;0; 3; 2;0;0;0; 11;1; 1;255;255;255;255;255;255;255;255;255;1].
  split; [split; [reflexivity|repeat constructor; vm_compute; discriminate]|]. split; [repeat constructor; vm_compute; discriminate|].
  intros mem Hm. destruct mem as [|a [|b [|? ?]]]; try discriminate Hm. vm_compute. reflexivity.
Qed.
(** Conversely a section of any mode, over any bytes, can only go out of bounds if it
    contains such a varint: absence of run lengths near 2^64 (in particular: all below
    2^63) makes every section safe. *)
Theorem C36_short_runs_safe : forall a base step npts input mem,
  0 <= a_off a -> a_off a + Z.of_nat (a_size a) <= step -> 0 < step -> 0 <= base -> 0 <= npts < 9223372036854775808 ->
  base + npts * step <= zlen mem -> bytes input ->
  (forall p s v rest, input = p ++ s -> readUVarint s = Ok (v, rest) -> v < 9223372036854775808) ->
  match decode_section a base step npts input mem with
  | Ok (rest, mem') => (exists pre, input = pre ++ rest) /\ length mem' = length mem
  | Throw => True
  | UB => False
  end.
Proof.
  intros a base step npts input mem H1 H2 H3 H4 H5 H6 H7 H8.
  apply (section_safe a base step npts (conj H1 H2) H3 H4 H5 input mem H7); [|exact H6].
  intros (s & v & rest & [p Hp] & Hr & Hv). specialize (H8 p s v rest Hp Hr). unfold UINT64_MOD in Hv. lia.
Qed.
Print Assumptions C36_rle_overflow_refuted.
Print Assumptions C36_delta_rle_overflow_refuted.
Print Assumptions C36_short_runs_safe.
Lemma cons_eq (x y : Z) a b : x :: a = y :: b -> x = y /\ a = b.
Proof. intros H. split; congruence. Qed.
(** Sections the theorem accepts: an RLE one with a wrong total throws, a right one decodes. *)
Example C36_case : decode_section (mkA 1 UINT16) 0 3 4 [2; 2;0;0;0; 5;0;1; 7;0;3; 99] (repeat 0 12) = Ok ([99], [0;5;0; 0;7;0; 0;7;0; 0;7;0]) /\
  decode_section (mkA 1 UINT16) 0 3 4 [2; 2;0;0;0; 5;0;1; 7;0;200;1; 99] (repeat 0 12) = Throw /\
  (forall p s v rest, [2; 2;0;0;0; 5;0;1; 7;0;3; 99] = p ++ s -> readUVarint s = Ok (v, rest) -> v < 9223372036854775808).
Proof.
  split; [vm_compute; reflexivity|]. split; [vm_compute; reflexivity|].
  intros p s v rest E H.
  do 13 (destruct p as [|? p]; [cbn [app] in E; subst s; vm_compute in H; first [discriminate H|apply ok_pair in H; destruct H as [<- _]; reflexivity]|cbn [app] in E; first [discriminate E|apply cons_eq in E; destruct E as [_ E]]]).
Qed.

(** * C37 *)
(** The only undefined behaviour the Gorilla decoder has, for any bytes, is the over-wide
    shift; it needs a value whose control bits are 11 and whose five-bit leading count and
    six-bit length add up to more than 64.  The state stays good, so this holds for every
    value of a stream. *)
Definition good_gorilla (st : fstate) : Prop :=
  0 <= s_trail st < 64 /\ ((s_lead st = 255 /\ s_trail st = 0) \/ (0 <= s_lead st <= 31 /\ s_lead st + s_trail st <= 63)).
Theorem C37_gorilla_safe : forall st input, good_gorilla st -> bytes input ->
  match gor_decode st input with
  | Ok (st', _, _) => good_gorilla st'
  | Throw => True
  | UB => let bits := le_val input in bits mod 4 = 3 /\ 64 < (bits / 4) mod 32 + ((bits / 128) mod 64 + 1)
  end.
Proof.
  intros st input HG Hb. pose proof (gor_hostile st input HG Hb) as H. destruct (gor_decode st input) as [[[st' v] r]| |]; cbn [result_ok] in H; auto.
  destruct H as (_ & A & B). split; [exact A|]. lia.
Qed.
Theorem C37_gorilla_start : good_gorilla reset_state.
Proof. exact gor_ok_reset. Qed.
(** Such a stream exists: FLOAT64 lossless, two points. *)
Theorem C37_gorilla_shift_refuted : exists i data, layout_ok i /\ i_enc i = ENC_LOSSLESS /\ bytes data /\
  forall mem, length mem = 16%nat -> decode sse_ops store_libs 4 i data [] mem = UB.
Proof.
  exists (lay [fld 0 FLOAT64 None] 8 ENC_LOSSLESS 5 2), ([18;0;0;0] ++ repeat 0 8 ++ [255;31] ++ repeat 0 8).
  split; [split; [reflexivity|repeat constructor; vm_compute; discriminate]|]. split; [reflexivity|]. split; [repeat constructor; vm_compute; discriminate|].
  intros mem Hm. do 16 (destruct mem as [|? mem]; [discriminate Hm|]). destruct mem; [|discriminate Hm]. vm_compute. reflexivity.
Qed.
Print Assumptions C37_gorilla_safe.
Print Assumptions C37_gorilla_start.
Print Assumptions C37_gorilla_shift_refuted.
