(** Properties C10, C12, C35, C38, C51: one chunk. *)
From Verif Require Import Base BaseFacts Varint VarintFacts Types Floats Fields Codec V5 Api Spec LibSpec SeqSpec.
From Verif Require Import GorillaFacts FieldFacts WriteFacts CodecFacts BuildFacts RunFacts SectionFacts PaletteFacts V5Facts ChunkV5Facts Stage1Facts ApiFacts CloudFacts RoundTrip CloudRT LocalFacts SeqFacts ColumnFacts Cases PropsField PropsColumn.

(** The types are among the enumerators other than UNKNOWN. *)
Definition known_types (i : info) : Prop := Forall (fun f => known_type (f_type f)) (i_fields i).
Lemma known_max i : known_types i -> exists m, MaxSerializedPointSize i = Ok m.
Proof.
  unfold known_types, MaxSerializedPointSize. induction (i_fields i) as [|f l IH]; intros H; cbn [max_fields_size]; [eauto|].
  inversion H; subst. destruct IH as (b & ->); [assumption|]. unfold MaxSerializedFieldSize. destruct (f_type f); cbn in *; try contradiction; eauto.
Qed.

(** * C10 *)
Theorem C10_v4_chunk_roundtrip : forall ops i i' es n ppc cloud rest mem,
  known_enc i -> known_types i -> layout_ok i -> same_fields i i' -> out_layout_ok i' -> consistent_output i i' -> resolutions_ok i' ->
  bytes cloud -> zlen cloud = Z.of_nat n * i_step i -> (0 < n <= ppc)%nat -> deltas_ok ops i ppc cloud ->
  bytes rest -> Z.of_nat n * i_step i' <= zlen mem ->
  BuildV4Encoders i = Ok es ->
  exists bs sts' ds minb mem',
    EncodeV4Stage1Chunk ops es (Z.to_nat (i_step i)) ppc (resets es) cloud = Ok (sts', [], bs) /\
    BuildV4Decoders i' = Ok (ds, minb) /\
    DecodeV4Stage1Chunk ops ds minb (bs ++ rest) (i_step i') n 0 mem = Ok (rest, Z.of_nat n * i_step i', mem') /\
    restored ops i i' n cloud mem mem'.
Proof.
  intros ops i i' es n ppc cloud rest mem HK HT HL HS HO HC HR Hc Hlen Hn HD Hr Hm HB.
  assert (Hst : i_step i = Z.of_nat (Z.to_nat (i_step i))) by (destruct HL; lia). set (step := Z.to_nat (i_step i)) in *.
  destruct (known_max i HT) as (m & HM). destruct (build_v4_wf i es m HK HB HM) as (HBu & _).
  assert (Hlen' : length cloud = (n * step)%nat) by (unfold zlen in Hlen; nia).
  destruct (chunk_enc ops i any es step cloud 0 n HBu HL Hst Hc ltac:(lia)) as (bs & HE & _). cbn [Nat.mul Nat.add skipn] in HE.
  replace (skipn (n * step) cloud) with (@nil Z) in HE by (symmetry; apply skipn_all2; lia).
  pose proof (enc_points_more ops es step n ppc (resets es) cloud bs HE ltac:(lia)) as HE2.
  destruct (enc_points_obj_v4 ops es step ppc (resets es) cloud [] bs (resets_resettable es) HE2) as (sts' & HE3 & _).
  destruct (build_v4_dec_ok i i' es HS HB HR) as (ds & minb & HDb).
  destruct (v4_chunk_dec ops i i' es ds minb ppc cloud 0 n bs step) as (ws & Hws & HDec); auto; try lia.
  { destruct HO; lia. }
  { cbn [Nat.mul Nat.add skipn]. replace (skipn (n * step) cloud) with (@nil Z) by (symmetry; apply skipn_all2; lia). exact HE. }
  cbn [Nat.mul Nat.add] in Hws, HDec.
  assert (HW : exists mem', do_writes ws mem = Ok mem').
  { destruct (do_writes_ok ws mem) as (mm & HH & _); [|now exists mm]. apply Forall_forall. intros w Hw. apply Hws in Hw. eapply target_in_range; eauto; lia. }
  destruct HW as (mem' & HW). exists bs, sts', ds, minb, mem'.
  split; [unfold EncodeV4Stage1Chunk; rewrite (reset_all es _ (resets_resettable es)); exact HE3|]. split; [exact HDb|].
  split; [exact (HDec mem mem' rest Hr Hm HW)|]. eapply restored_intro; eauto; lia.
Qed.
Print Assumptions C10_v4_chunk_roundtrip.
(** A chunk of three points with grouped floats (one NaN, one out of range), a 16-bit and
    a 64-bit integer and a double; decoded into a buffer of 0xFF. *)
Example C10_case : let i := scan 4 3 COMP_NONE in
  known_enc i /\ known_types i /\ layout_ok i /\ same_fields i i /\ out_layout_ok i /\ consistent_output i i /\ resolutions_ok i /\
  bytes scan_cloud /\ zlen scan_cloud = Z.of_nat 3 * i_step i /\ deltas_ok sse_ops i 3 scan_cloud /\
  match BuildV4Encoders i, BuildV4Decoders i with
  | Ok es, Ok (ds, minb) =>
      match EncodeV4Stage1Chunk sse_ops es 32 3 (resets es) scan_cloud with
      | Ok (_, rest, bs) => rest = [] /\ zlen bs = 53 /\
          match DecodeV4Stage1Chunk sse_ops ds minb bs 32 3 0 (repeat 255 96) with
          | Ok (r, b, mem') => r = [] /\ b = 96 /\ sub 12 4 mem' = [7;0;255;255] /\ sub 24 8 mem' = le_bytes 8 (u64 (-3)) /\ sub 80 8 mem' = le_bytes 8 4613303445314885481
          | _ => False
          end
      | _ => False
      end
  | _, _ => False
  end.
Proof.
  cbv zeta. split; [exact I|]. split; [repeat constructor|]. split; [apply scan_layout|]. split; [apply scan_same|]. split; [apply scan_out_layout|].
  split; [apply scan_consistent|]. split; [apply scan_resolutions|]. split; [apply scan_bytes|]. split; [reflexivity|]. split; [apply scan_deltas_ppc|].
  vm_compute. repeat split.
Qed.

(** * C12 *)
(** The states the integer columns can be in at the start of a chunk: before the first
    chunk no mode is committed, afterwards all are; the palette tables are whatever
    earlier columns left. *)
Definition column_states (afs : list afield) (ass : list astate) : Prop :=
  length ass = length afs /\ Forall (fun s => table_after (as_tab s)) ass /\
  (Forall (fun s => as_mode s = None) ass \/ Forall (fun s => as_mode s <> None) ass).
(** Integer fields are not skipped. *)
Definition ints_stored (i : info) : Prop := Forall (fun f => int_type (f_type f) -> stored f = true) (i_fields i).

(** The 64-bit integer columns. *)
Definition wide_columns (afs : list afield) : list afield := filter (fun a => (a_size a =? 8)%nat) afs.

Lemma states_status afs ass : column_states afs ass -> exists b, Forall2 (fun (_ : afield) s => tab_wf (as_tab s) /\ status b s) afs ass.
Proof.
  intros (HL & HT & HM). assert (HG : forall b, Forall (fun s => status b s) ass -> Forall2 (fun (_ : afield) s => tab_wf (as_tab s) /\ status b s) afs ass).
  { intros b. clear HM. revert afs HL. induction ass as [|s ass IH]; intros [|a afs] HL HB; cbn in HL; try lia; constructor.
    - inversion HT; inversion HB; subst. split; [now apply table_wf|assumption].
    - inversion HT; inversion HB; subst. apply IH; auto. }
  destruct HM as [HM|HM]; [exists true|exists false]; apply HG; eapply Forall_impl; try exact HM; unfold status, uncommitted; intros s Hs; [now rewrite Hs|].
  destruct (as_mode s); [reflexivity|congruence].
Qed.
Lemma ints_no_skip i : ints_stored i -> no_skip_adaptive i.
Proof.
  unfold ints_stored, no_skip_adaptive. intros H. eapply Forall_impl; [|exact H]. intros f Hf Ha. apply stored_skip, Hf.
  unfold int_type. destruct (f_type f); try discriminate; auto 10.
Qed.

Lemma v5_chunk_any ops i es afs m ppc probe cap ass cloud n :
  UsesV5Codec i = true -> MaxSerializedPointSize i = Ok m -> layout_ok i -> bytes cloud -> zlen cloud = Z.of_nat n * i_step i ->
  (0 < n <= ppc)%nat -> Z.of_nat ppc <= 65535 -> zlen (wide_columns afs) <= 64 ->
  BuildV5Plan i = Ok (es, afs) -> V5StageBufferSize i (Z.of_nat ppc) = Ok cap -> column_states afs ass ->
  exists ass' ms secs o, enc_chunk_v5 ops es afs (Z.to_nat (i_step i)) probe cap n ass cloud = Ok (ass', o ++ concat secs) /\
    enc_points_v4 ops es (Z.to_nat (i_step i)) n (resets es) cloud = Ok ([], o) /\ bytes o /\
    chunk_sections probe afs (Z.to_nat (i_step i)) n cloud (map as_mode ass) ms secs /\ bytes (concat secs).
Proof.
  intros HU HM HL Hc Hlen Hn Hp Ha HB HV HS.
  assert (Hst : i_step i = Z.of_nat (Z.to_nat (i_step i))) by (destruct HL; lia). set (step := Z.to_nat (i_step i)) in *.
  destruct (plan_spec i es afs m HU HB HM) as (HBu & HA & Hsum).
  assert (Hlen' : length cloud = (n * step)%nat) by (unfold zlen in Hlen; nia).
  assert (HAn : afs <> []) by (rewrite HA; pose proof (v5_nonempty i HU); destruct (adaptive_fields i); [congruence|discriminate]).
  unfold V5StageBufferSize in HV. rewrite HM in HV. cbn [bind] in HV. injection HV as <-.
  set (cap := Z.of_nat ppc * (Z.max (i_step i) m + 64) + zlen (i_fields i) * 64 + 1024).
  assert (Hfl : zlen afs <= zlen (i_fields i)).
  { rewrite HA. unfold adaptive_fields, zlen. rewrite map_length. clear. generalize (i_fields i). intros l. induction l as [|f l IH]; cbn [filter length]; [lia|]. destruct (isV5AdaptiveIntType _); cbn [length]; lia. }
  assert (Hcap : Z.of_nat ppc * Z.of_nat (sum_nat (map enc_max es)) + (zlen afs * (5 + 10 * Z.of_nat ppc) + wides afs * Z.of_nat ppc) <= cap).
  { unfold cap. pose proof (zlen_nonneg afs).
    assert (Z.of_nat ppc * (Z.of_nat (sum_nat (map enc_max es)) + 10 * zlen afs) <= Z.of_nat ppc * Z.max (i_step i) m) by nia.
    assert (wides afs * Z.of_nat ppc <= 64 * Z.of_nat ppc) by (apply Z.mul_le_mono_nonneg_r; [lia|exact Ha]). lia. }
  destruct (states_status afs ass HS) as (b & HF).
  destruct (v5_one_chunk ops i es afs step ppc probe cap cloud n HBu HA HAn HL Hst Hc Hlen' ltac:(lia) ltac:(lia) Hcap 0 n ass b ltac:(lia) ltac:(lia) HF)
    as (ass' & ms & secs & o & E1 & E2 & E3 & E4 & E5 & _).
  cbn [Nat.mul Nat.add skipn] in *. exists ass', ms, secs, o. split; [exact E1|]. split; [|auto].
  rewrite E2. do 2 f_equal. apply skipn_all2. lia.
Qed.
Lemma chunk_v5_bytes ops es afs step probe n cloud m0s ms secs o : enc_points_v4 ops es step n (resets es) cloud = Ok ([], o) -> (length cloud <= n * step)%nat ->
  bytes o -> bytes (concat secs) -> length m0s = length afs -> chunk_sections probe afs step n cloud m0s ms secs ->
  v5_chunk_bytes ops es afs step n cloud (o ++ concat secs).
Proof.
  intros HE Hl Ho Hs H0 (HF & H1 & H2). exists o, secs, m0s, ms. eexists. split; [rewrite HE; do 2 f_equal; symmetry; apply skipn_all2; exact Hl|].
  repeat (split; [auto|]). exact HF.
Qed.

(** Whatever the probe length and whatever state earlier chunks left, a V5 chunk decodes
    to its points and nothing is left over. *)
Theorem C12_v5_chunk_roundtrip : forall ops i i' es afs n ppc probe cap ass cloud mem,
  UsesV5Codec i = true -> known_types i -> layout_ok i -> same_fields i i' -> out_layout_ok i' -> consistent_output i i' -> resolutions_ok i' -> ints_stored i' ->
  bytes cloud -> zlen cloud = Z.of_nat n * i_step i -> (0 < n <= ppc)%nat -> Z.of_nat ppc <= 65535 -> deltas_ok ops i ppc cloud ->
  Z.of_nat n * i_step i' <= zlen mem ->
  BuildV5Plan i = Ok (es, afs) -> zlen (wide_columns afs) <= 64 -> V5StageBufferSize i (Z.of_nat ppc) = Ok cap -> column_states afs ass ->
  exists bs ass' ds mem',
    enc_chunk_v5 ops es afs (Z.to_nat (i_step i)) probe cap n ass cloud = Ok (ass', bs) /\
    BuildV5Decoders i' = Ok ds /\
    DecodeV5Stage1Chunk ops i' ds bs n 0 mem = Ok (Z.of_nat n * i_step i', mem') /\
    restored ops i i' n cloud mem mem'.
Proof.
  intros ops i i' es afs n ppc probe cap ass cloud mem HU HT HL HS HO HC HR HN Hc Hlen Hn Hp HD Hm HB Ha HV HSt.
  destruct (known_max i HT) as (m & HM).
  destruct (v5_chunk_any ops i es afs m ppc probe cap ass cloud n HU HM HL Hc Hlen Hn Hp Ha HB HV HSt) as (ass' & ms & secs & o & E1 & E2 & E3 & E4 & E5).
  assert (Hst : i_step i = Z.of_nat (Z.to_nat (i_step i))) by (destruct HL; lia). set (step := Z.to_nat (i_step i)) in *.
  destruct (plan_spec i es afs m HU HB HM) as (HBu & HA & _).
  assert (Hlen' : length cloud = (n * step)%nat) by (unfold zlen in Hlen; nia).
  destruct (build_v5_dec_ok i i' es afs HS HU HB HR) as (ds & HDb).
  destruct (v5_chunk_dec ops i i' es afs ds ppc cloud 0 n (o ++ concat secs) step) as (ws & Hws & HDec); auto; try lia.
  { destruct HO; lia. }
  { now apply ints_no_skip. }
  { cbn [Nat.mul skipn]. eapply chunk_v5_bytes; eauto; [lia|]. rewrite map_length. destruct HSt; assumption. }
  cbn [Nat.mul Nat.add] in Hws, HDec.
  assert (HW : exists mem', do_writes ws mem = Ok mem').
  { destruct (do_writes_ok ws mem) as (mm & HH & _); [|now exists mm]. apply Forall_forall. intros w Hw. apply Hws in Hw. eapply target_in_range; eauto; lia. }
  destruct HW as (mem' & HW). exists (o ++ concat secs), ass', ds, mem'.
  split; [exact E1|]. split; [exact HDb|]. split; [exact (HDec mem mem' Hm HW)|]. eapply restored_intro; eauto; lia.
Qed.
Print Assumptions C12_v5_chunk_roundtrip.
(** The same three points with the V5 codec, modes probed on two of them. *)
Example C12_case : let i := scan 5 3 COMP_NONE in
  UsesV5Codec i = true /\ known_types i /\ layout_ok i /\ same_fields i i /\ out_layout_ok i /\ consistent_output i i /\ resolutions_ok i /\ ints_stored i /\
  bytes scan_cloud /\ zlen scan_cloud = Z.of_nat 3 * i_step i /\ deltas_ok sse_ops i 3 scan_cloud /\
  match BuildV5Plan i, BuildV5Decoders i, V5StageBufferSize i 3 with
  | Ok (es, afs), Ok ds, Ok cap => zlen afs = 2 /\ column_states afs (map (fun _ => astate0) afs) /\
      match enc_chunk_v5 sse_ops es afs 32 2 cap 3 (map (fun _ => astate0) afs) scan_cloud with
      | Ok (_, bs) => zlen bs = 55 /\
          match DecodeV5Stage1Chunk sse_ops i ds bs 3 0 (repeat 255 96) with
          | Ok (b, mem') => b = 96 /\ sub 12 4 mem' = [7;0;255;255] /\ sub 24 8 mem' = le_bytes 8 (u64 (-3)) /\ sub 80 8 mem' = le_bytes 8 4613303445314885481
          | _ => False
          end
      | _ => False
      end
  | _, _, _ => False
  end.
Proof.
  cbv zeta. split; [reflexivity|]. split; [repeat constructor|]. split; [apply scan_layout|]. split; [apply scan_same|]. split; [apply scan_out_layout|].
  split; [apply scan_consistent|]. split; [apply scan_resolutions|]. split; [repeat constructor|]. split; [apply scan_bytes|]. split; [reflexivity|]. split; [apply scan_deltas_ppc|].
  cbv [BuildV5Plan BuildV5Decoders V5StageBufferSize].
  match goal with |- context [enc_chunk_v5] => idtac end.
  assert (HC : forall afs : list afield, column_states afs (map (fun _ => astate0) afs)).
  { intros afs. split; [apply map_length|]. split; [|left]; apply Forall_map, Forall_forall; intros; [constructor|reflexivity]. }
  match goal with |- match ?A with Ok _ => _ | _ => _ end => let A' := eval vm_compute in A in change A with A' end. cbv beta iota.
  match goal with |- match ?A with Ok _ => _ | _ => _ end => let A' := eval vm_compute in A in change A with A' end. cbv beta iota.
  match goal with |- match ?A with Ok _ => _ | _ => _ end => let A' := eval vm_compute in A in change A with A' end. cbv beta iota.
  split; [reflexivity|]. split; [apply HC|]. vm_compute. repeat split.
Qed.

(** * C51 *)
(** The output buffer after a restore is determined: nothing else about the encoder
    (probe length, modes) can show. *)
Lemma restored_unique ops i i' n cloud mem m1 m2 : length (kinds i) = length (i_fields i) -> length (i_fields i') = length (i_fields i) ->
  same_fields i i' -> out_layout_ok i' -> restored ops i i' n cloud mem m1 -> restored ops i i' n cloud mem m2 -> m1 = m2.
Proof.
  intros HKl HFl HS [Hs HO] (L1 & A1 & B1) (L2 & A2 & B2). apply nth_error_ext; [lia|]. intros x Hx0.
  destruct (Nat.lt_ge_cases x (length mem)) as [Hx|Hx].
  2:{ rewrite (proj2 (nth_error_None m1 x)) by lia. rewrite (proj2 (nth_error_None m2 x)) by lia. reflexivity. }
  set (hit := fun p : nat * field => (stored (snd p) && (Z.of_nat (fst p) * i_step i' + f_off (snd p) <=? Z.of_nat x) &&
     (Z.of_nat x <? Z.of_nat (fst p) * i_step i' + f_off (snd p) + Z.of_nat (SizeOf (f_type (snd p)))))%bool).
  destruct (existsb hit (list_prod (seq 0 n) (i_fields i'))) eqn:E.
  - apply existsb_exists in E. destruct E as ([j f'] & Hin & Hh). apply in_prod_iff in Hin. destruct Hin as [Hj Hf']. apply in_seq in Hj.
    unfold hit in Hh. cbn [fst snd] in Hh. apply andb_true_iff in Hh. destruct Hh as [Hh H3]. apply andb_true_iff in Hh. destruct Hh as [H1 H2].
    assert (HX : exists f k, In (f', (f, k)) (combine (i_fields i') (combine (i_fields i) (kinds i)))).
    { clear - Hf' HKl HFl. revert HKl HFl Hf'. generalize (i_fields i') (i_fields i) (kinds i). induction l as [|a l IH]; intros [|b l'] [|c l''] H1 H2 H3; cbn in *; try lia; try contradiction.
      destruct H3 as [->|H3]; [eauto|]. destruct (IH l' l'' ltac:(lia) ltac:(lia) H3) as (f & k & H). eauto. }
    destruct HX as (f & k & Hp). pose proof (fpairs_fields i i' f' f k HS Hp) as (_ & _ & _ & [HT _]).
    rewrite Forall_forall in HO. destruct (HO f' Hf' H1) as [O1 O2].
    pose proof (A1 j f' f k ltac:(lia) Hp H1) as R1. pose proof (A2 j f' f k ltac:(lia) Hp H1) as R2. rewrite <- R2 in R1.
    set (p := Z.of_nat j * i_step i' + f_off f') in *. assert (Hp0 : 0 <= p) by (unfold p; nia).
    assert (HN : forall m : list Z, nth_error m x = nth_error (sub p (SizeOf (f_type f)) m) (x - Z.to_nat p)).
    { intros m. unfold sub. rewrite nth_error_firstn_lt by (rewrite HT; lia). rewrite nth_error_skipn_add. f_equal. lia. }
    rewrite (HN m1), (HN m2), R1. reflexivity.
  - rewrite B1, B2; auto; intros j f' Hj Hf' Hst HH; apply Bool.not_true_iff_false in E; apply E, existsb_exists; exists (j, f'); (split; [apply in_prod; [apply in_seq; lia|exact Hf']|]);
      unfold hit; cbn [fst snd]; rewrite Hst; cbn [andb]; apply andb_true_iff; lia.
Qed.
(** Two chunks that agree on every field that is not an integer start with the same
    bytes [o], the bytes of the regular fields, whatever the integer columns contain,
    whatever the probe lengths, whatever earlier chunks did. *)
Theorem C51_regular_prefix : forall ops i es afs n ppc probe1 probe2 cap ass1 ass2 c1 c2,
  UsesV5Codec i = true -> known_types i -> layout_ok i ->
  bytes c1 -> bytes c2 -> zlen c1 = Z.of_nat n * i_step i -> zlen c2 = Z.of_nat n * i_step i ->
  (forall f j, In f (i_fields i) -> ~ int_type (f_type f) -> fbytes i f c1 j = fbytes i f c2 j) ->
  (0 < n <= ppc)%nat -> Z.of_nat ppc <= 65535 ->
  BuildV5Plan i = Ok (es, afs) -> zlen (wide_columns afs) <= 64 -> V5StageBufferSize i (Z.of_nat ppc) = Ok cap ->
  column_states afs ass1 -> column_states afs ass2 ->
  exists o s1 s2 ass1' ass2',
    enc_chunk_v5 ops es afs (Z.to_nat (i_step i)) probe1 cap n ass1 c1 = Ok (ass1', o ++ s1) /\
    enc_chunk_v5 ops es afs (Z.to_nat (i_step i)) probe2 cap n ass2 c2 = Ok (ass2', o ++ s2) /\
    enc_points_v4 ops es (Z.to_nat (i_step i)) n (resets es) c1 = Ok ([], o).
Proof.
  intros ops i es afs n ppc probe1 probe2 cap ass1 ass2 c1 c2 HU HT HL H1 H2 L1 L2 HF Hn Hp HB Ha HV S1 S2.
  destruct (known_max i HT) as (m & HM).
  destruct (v5_chunk_any ops i es afs m ppc probe1 cap ass1 c1 n HU HM HL H1 L1 Hn Hp Ha HB HV S1) as (a1 & ms1 & sec1 & o1 & E1 & P1 & _).
  destruct (v5_chunk_any ops i es afs m ppc probe2 cap ass2 c2 n HU HM HL H2 L2 Hn Hp Ha HB HV S2) as (a2 & ms2 & sec2 & o2 & E2 & P2 & _).
  destruct (plan_spec i es afs m HU HB HM) as (HBu & _). set (step := Z.to_nat (i_step i)) in *.
  destruct (enc_points_obj_v4 ops es step n _ _ _ _ (resets_resettable es) P1) as (x1 & Q1 & _).
  destruct (enc_points_obj_v4 ops es step n _ _ _ _ (resets_resettable es) P2) as (x2 & Q2 & _).
  set (rf := filter (fun f => regular (f_type f)) (i_fields i)).
  assert (HI : incl (map place (all_pieces es)) (map (fun f => (f_off f, SizeOf (f_type f))) rf)).
  { destruct HBu as (_ & HPc & _). rewrite HPc, map_map. intros x Hx. apply in_map_iff in Hx. destruct Hx as ([f k] & <- & Hf). apply filter_In in Hf. destruct Hf as [Hf Hr].
    cbn [fst] in Hr. unfold place, piece_of. cbn [fst snd]. apply (in_map (fun f => (f_off f, SizeOf (f_type f)))). apply filter_In. split; [|exact Hr].
    rewrite <- (fks_fst i). apply (in_map fst) in Hf. exact Hf. }
  assert (HVA : vagree (map (fun f => (f_off f, SizeOf (f_type f))) rf) step c1 c2).
  { split; [unfold zlen in *; lia|]. intros j. apply Forall_map, Forall_forall. intros f Hf. apply filter_In in Hf. destruct Hf as [Hf Hr]. cbn [fst snd]. intros Ho.
    rewrite !sub_skipn by exact Ho. specialize (HF f j Hf). unfold fbytes in HF. destruct HL as [Hs _].
    replace (Z.of_nat (j * step) + f_off f) with (Z.of_nat j * i_step i + f_off f) by (unfold step; nia). apply HF.
    unfold regular in Hr. unfold int_type. intros Hi. destruct (f_type f); cbn in Hr; try discriminate; intuition discriminate. }
  pose proof (obj_local ops es step _ n HI (resets es) c1 c2 HVA) as HX. rewrite Q1, Q2 in HX. inversion HX; subst.
  exists o2, (concat sec1), (concat sec2), a1, a2. auto.
Qed.
Print Assumptions C51_regular_prefix.
(** The decoded cloud does not depend on the encoder's probe length, on the modes it
    committed nor on the palette tables. *)
Theorem C51_probe_independent : forall ops i i' es afs n ppc probe1 probe2 cap ass1 ass2 cloud mem,
  UsesV5Codec i = true -> known_types i -> layout_ok i -> same_fields i i' -> out_layout_ok i' -> consistent_output i i' -> resolutions_ok i' -> ints_stored i' ->
  bytes cloud -> zlen cloud = Z.of_nat n * i_step i -> (0 < n <= ppc)%nat -> Z.of_nat ppc <= 65535 -> deltas_ok ops i ppc cloud ->
  Z.of_nat n * i_step i' <= zlen mem ->
  BuildV5Plan i = Ok (es, afs) -> zlen (wide_columns afs) <= 64 -> V5StageBufferSize i (Z.of_nat ppc) = Ok cap -> column_states afs ass1 -> column_states afs ass2 ->
  exists bs1 bs2 ass1' ass2' ds mem',
    enc_chunk_v5 ops es afs (Z.to_nat (i_step i)) probe1 cap n ass1 cloud = Ok (ass1', bs1) /\
    enc_chunk_v5 ops es afs (Z.to_nat (i_step i)) probe2 cap n ass2 cloud = Ok (ass2', bs2) /\
    BuildV5Decoders i' = Ok ds /\
    DecodeV5Stage1Chunk ops i' ds bs1 n 0 mem = Ok (Z.of_nat n * i_step i', mem') /\
    DecodeV5Stage1Chunk ops i' ds bs2 n 0 mem = Ok (Z.of_nat n * i_step i', mem').
Proof.
  intros ops i i' es afs n ppc probe1 probe2 cap ass1 ass2 cloud mem HU HT HL HS HO HC HR HN Hc Hlen Hn Hp HD Hm HB Ha HV S1 S2.
  destruct (C12_v5_chunk_roundtrip ops i i' es afs n ppc probe1 cap ass1 cloud mem) as (bs1 & a1 & ds & m1 & E1 & D1 & X1 & R1); auto.
  destruct (C12_v5_chunk_roundtrip ops i i' es afs n ppc probe2 cap ass2 cloud mem) as (bs2 & a2 & ds2 & m2 & E2 & D2 & X2 & R2); auto.
  assert (ds2 = ds) by congruence. subst ds2.
  assert (m2 = m1).
  { eapply (restored_unique ops i i' n cloud mem); eauto; [apply kinds_length|]. destruct HS as [HF _]. symmetry. eapply Forall2_length; eauto. }
  subst m2. exists bs1, bs2, a1, a2, ds, m1. auto 10.
Qed.
Print Assumptions C51_probe_independent.
(** Probing two of the three points or all of them gives different bytes for the same
    decoded points. *)
Example C51_case : let i := mkInfo [fld 97 0 INT16 None] 4 1 2 ENC_LOSSY [] COMP_NONE false 5 in
  let cloud := [200;0;100;0;44;1;44;1] in
  match BuildV5Plan i, BuildV5Decoders i with
  | Ok (es, afs), Ok ds =>
      match enc_chunk_v5 sse_ops es afs 2 1 10000 4 (map (fun _ => astate0) afs) cloud,
            enc_chunk_v5 sse_ops es afs 2 4 10000 4 (map (fun _ => mkAS [] [] ptab_init (Some Rle) false stream0) afs) cloud with
      | Ok (_, b1), Ok (_, b2) => b1 <> b2 /\
          match DecodeV5Stage1Chunk sse_ops i ds b1 4 0 (repeat 0 8), DecodeV5Stage1Chunk sse_ops i ds b2 4 0 (repeat 0 8) with
          | Ok (_, m1), Ok (_, m2) => m1 = cloud /\ m2 = cloud
          | _, _ => False
          end
      | _, _ => False
      end
  | _, _ => False
  end.
Proof. vm_compute. repeat split; discriminate. Qed.

(** * C16, the mode of a chunk's sections *)
(** The points of a cloud, each as the bytes from its start on. *)
Definition points (step n : nat) (cloud : list Z) : list (list Z) := map (fun j => skipn (j * step) cloud) (seq 0 n).
(** In the first chunk of a cloud the mode of each integer column is the one that is best
    for its first [probe] points (all points of the chunk when it has fewer). *)
Theorem C16_mode_of_chunk : forall ops i es afs n ppc probe cap ass cloud t room,
  UsesV5Codec i = true -> known_types i -> layout_ok i -> bytes cloud -> zlen cloud = Z.of_nat n * i_step i ->
  (0 < n <= ppc)%nat -> Z.of_nat ppc <= 65535 -> (0 < probe)%nat ->
  BuildV5Plan i = Ok (es, afs) -> zlen (wide_columns afs) <= 64 -> V5StageBufferSize i (Z.of_nat ppc) = Ok cap ->
  column_states afs ass -> Forall (fun s => as_mode s = None) ass -> table_after t -> 5 + 11 * Z.of_nat n <= room ->
  exists ass' o secs, enc_chunk_v5 ops es afs (Z.to_nat (i_step i)) probe cap n ass cloud = Ok (ass', o ++ concat secs) /\
    enc_points_v4 ops es (Z.to_nat (i_step i)) n (resets es) cloud = Ok ([], o) /\
    Forall2 (fun a sec => exists best, field_section a t None (firstn probe (points (Z.to_nat (i_step i)) n cloud)) room = Ok best /\
                          hd (-1) sec = hd (-1) best) afs secs.
Proof.
  intros ops i es afs n ppc probe cap ass cloud t room HU HT HL Hc Hlen Hn Hp Hpr HB Ha HV HSt HN Ht Hr.
  destruct (known_max i HT) as (m & HM).
  destruct (v5_chunk_any ops i es afs m ppc probe cap ass cloud n HU HM HL Hc Hlen Hn Hp Ha HB HV HSt) as (ass' & ms & secs & o & E1 & E2 & E3 & (E4 & E4a & E4b) & E5).
  exists ass', o, secs. split; [exact E1|]. split; [exact E2|]. destruct (plan_spec i es afs m HU HB HM) as (_ & HA & _). destruct HL as [Hs HLf].
  set (step := Z.to_nat (i_step i)) in *.
  assert (HN' : Forall (fun m0 : option amode => m0 = None) (map as_mode ass)) by (apply Forall_map; exact HN).
  destruct (mode_rule_none probe (fun a => column a step n cloud) afs (map as_mode ass) ms secs HN') as (HBM & HFS); auto.
  { rewrite map_length. apply HSt. }
  assert (HAf : Forall (fun a => is_int_type (a_type a) /\ afield_in step a) afs).
  { rewrite HA. apply Forall_map, Forall_forall. intros f Hf. unfold adaptive_fields in Hf. apply filter_In in Hf. destruct Hf as [Hf Hi]. cbn [mk_afield a_type].
    split; [now apply is_int_adaptive|]. rewrite Forall_forall in HLf. specialize (HLf f Hf). unfold afield_in, a_size. cbn [mk_afield a_off a_type]. unfold step. lia. }
  clear E1 E4 HB Ha HSt HA HN' E5. revert ms secs HBM HFS E4a E4b. induction afs as [|a afs IH]; intros [|mo ms] [|sec secs] HBM HFS La Lb; cbn in La, Lb; try lia; constructor.
  - inversion HBM as [|? ? ? ? HB1 HB2]; inversion HFS as [|? ? ? ? HS1 HS2]; inversion HAf as [|? ? [Hi Hin] HA2]; subst. cbn [fst snd combine] in HS1.
    set (views := firstn probe (points step n cloud)).
    assert (Hvl : length views = Nat.min probe n) by (unfold views, points; now rewrite firstn_length, map_length, seq_length).
    assert (HCB : col_bytes a views = firstn probe (column a step n cloud)).
    { unfold col_bytes, views, points, column. rewrite <- firstn_map, map_map. reflexivity. }
    assert (HFV : Forall (has_field (a_off a) (a_size a)) views).
    { unfold views. apply Forall_firstn. unfold points. apply Forall_map, Forall_forall. intros j Hj. apply in_seq in Hj. destruct Hin as [I1 I2].
      split; [now apply bytes_skipn|]. split; [exact I1|]. unfold zlen in *. rewrite skipn_length. unfold step in *. nia. }
    destruct (field_section_spec a t None views Hi Ht HFV ltac:(unfold zlen; rewrite Hvl; lia)) as (m1 & best & B1 & B2 & _ & B4 & B5 & B6).
    exists best. split; [apply B6; unfold zlen in *; rewrite Hvl in B5; lia|].
    rewrite (section_mode_byte _ _ _ _ B1), (section_mode_byte _ _ _ _ HS1). f_equal.
    specialize (B2 eq_refl). rewrite HCB in B2. unfold best_mode in *. congruence.
  - inversion HBM as [|? ? ? ? HB1 HB2]; inversion HFS as [|? ? ? ? HS1 HS2]; inversion HAf as [|? ? HA1 HA2]; subst. eapply IH; eauto.
Qed.
Print Assumptions C16_mode_of_chunk.

(** * C38: encoder and decoder choose matching field codecs *)
Lemma chain_of_jumps ops i f e : known_enc i -> CreateCompatibleEncoder i f = Ok e -> forall views pv,
  Forall (has_field (f_off f) (SizeOf (f_type f))) views ->
  (match pv with None => True | Some p => has_field (f_off f) (SizeOf (f_type f)) p end) ->
  jumps_ok (match pv with None => 0 | Some p => opt0 (coded_value ops (f_type f) (fkind i f) (sub (f_off f) (SizeOf (f_type f)) p)) end)
           (map (fun v => coded_value ops (f_type f) (fkind i f) (sub (f_off f) (SizeOf (f_type f)) v)) views) ->
  chain ops e pv views.
Proof.
  intros HK HE. pose proof (create_delta i f e HK HE) as HO.
  assert (HQ : forall v, is_delta e = true -> has_field (f_off f) (SizeOf (f_type f)) v ->
     qcur ops e v = opt0 (coded_value ops (f_type f) (fkind i f) (sub (f_off f) (SizeOf (f_type f)) v))).
  { intros v Hd (V1 & V2 & V3). apply (qcur_coded ops e (f, fkind i f) v Hd HO V1). split; assumption. }
  induction views as [|v vs IH]; intros pv HF Hp HJ; [exact I|]. apply Forall_cons_iff in HF. destruct HF as [Hv HF]. cbn [map jumps_ok chain] in *.
  assert (HD : (is_delta e = true -> forall x, coded_value ops (f_type f) (fkind i f) (sub (f_off f) (SizeOf (f_type f)) v) = Some x ->
              s64 (qcur ops e v - match pv with None => 0 | Some p => qcur ops e p end) <> INT64_MIN) /\
           jumps_ok (opt0 (coded_value ops (f_type f) (fkind i f) (sub (f_off f) (SizeOf (f_type f)) v)))
              (map (fun v => coded_value ops (f_type f) (fkind i f) (sub (f_off f) (SizeOf (f_type f)) v)) vs)).
  { destruct (coded_value ops (f_type f) (fkind i f) (sub (f_off f) (SizeOf (f_type f)) v)) as [x|] eqn:Ex.
    - destruct HJ as [J1 J2]. split; [|exact J2]. intros Hd y Hy. rewrite (HQ v Hd Hv), Ex. cbn [opt0]. rewrite s64_min. intros E. apply J1. rewrite <- E. f_equal. f_equal.
      destruct pv as [p|]; [|reflexivity]. symmetry. now apply HQ.
    - split; [intros _ x Hx; discriminate Hx|exact HJ]. }
  destruct HD as [D1 D2]. split; [|now apply (IH (Some v))].
  destruct e; cbn [delta_pv]; auto; cbn [delta_of fst snd is_delta] in *.
  - destruct HO as (-> & Ht & Hk & Hi). rewrite Hk in D1. cbn [coded_value] in D1.
    destruct Hv as (V1 & V2 & V3). eapply D1; [reflexivity|]. apply int_value_spec; [now rewrite <- Ht|now apply sub_bytes|now apply sub_length].
  - destruct HO as (-> & Ht & Hk). intros Hn. rewrite Hk, <- Ht in D1. cbn [coded_value SizeOf] in D1. rewrite Hn in D1. eapply D1; reflexivity.
  - destruct HO as (-> & Ht & Hk). intros Hn. rewrite Hk, <- Ht in D1. cbn [coded_value SizeOf] in D1. rewrite Hn in D1. eapply D1; reflexivity.
Qed.

(** A usable field resolution: none, or one the decoder accepts. *)
Definition resolution_ok (f : field) : Prop := match f_res f with Some r => f32_le0 r = false | None => True end.
(** For every field type, resolution, encoding option and format version: if the encoder
    accepts the field, the decoder accepts the field of the same type and resolution (at
    any offset, or skipped), and it understands the bytes of that encoder, for any
    sequence of points: it stores the original bytes, quantised when the option is lossy
    and the field is a float with resolution. *)
Theorem C38_dispatch : forall ops i i' f f' e views rest,
  i_enc i = ENC_LOSSY \/ i_enc i = ENC_LOSSLESS -> i_enc i = i_enc i' -> i_version i = i_version i' ->
  f_type f = f_type f' -> f_res f = f_res f' -> resolution_ok f ->
  let k := match i_enc i with ENC_LOSSY => lossy_kind f | _ => KId end in
  let old := fun v => sub (f_off f) (SizeOf (f_type f)) v in
  CreateCompatibleEncoder i f = Ok e -> bytes rest ->
  Forall (has_field (f_off f) (SizeOf (f_type f))) views ->
  jumps_ok 0 (map (fun v => coded_value ops (f_type f) k (old v)) views) ->
  exists d bss, CreateCompatibleDecoder i' f' = Ok d /\ encode_all ops e reset_state views = Ok bss /\
    decode_all ops d reset_state (length views) (concat bss ++ rest) =
      Ok (map (fun v => if stored f' then [(f_off f', recon ops k (old v))] else []) views, rest).
Proof.
  intros ops i i' f f' e views rest HC He Hv Ht Hr HR k old HE Hrest HF HJ.
  assert (HCo : coded_enc i) by (unfold coded_enc; destruct HC as [->| ->]; exact I).
  assert (Hk : k = fkind i f) by (unfold k, fkind; destruct HC as [->| ->]; reflexivity).
  assert (HTk : known_type (f_type f')).
  { rewrite <- Ht. unfold CreateCompatibleEncoder in HE. destruct (f_type f); try discriminate; exact I. }
  destruct (create_dec_ok i' f') as (d & HD); [unfold resolution_ok in HR; now rewrite <- Hr|exact HTk|].
  destruct (create_pair i i' f f' e d HCo He Hv (conj Ht Hr) HE HD) as [HP Hpc].
  assert (HFb : Forall bytes views) by (eapply Forall_impl; [|exact HF]; intros v Hv'; apply Hv').
  assert (HFp : Forall (fun v => Forall (piece_in v) (pieces e)) views).
  { eapply Forall_impl; [|exact HF]. intros v (H1 & H2 & H3). rewrite Hpc. constructor; [split; assumption|constructor]. }
  assert (HCh : chain ops e None views).
  { eapply (chain_of_jumps ops i f e); eauto using coded_known. now rewrite <- Hk. }
  destruct (seq_roundtrip ops e d _ HP views reset_state None rest (st_inv_reset _) (fun _ => eq_refl) HCh HFb HFp Hrest) as (bss & E & _ & _ & _ & HDec).
  exists d, bss. split; [exact HD|]. split; [exact E|]. rewrite HDec. do 2 f_equal. apply map_ext. intros v. rewrite Hpc, <- Hk.
  cbn [map piece_of fst snd stores_of piece_bytes]. unfold store, stored, old. destruct (f_off f' =? kSkip); reflexivity.
Qed.
Print Assumptions C38_dispatch.

(** Whether the leading fields form the vector group, and whether the V5 layout is used,
    is decided alike on both sides; with usable resolutions the decoder accepts the
    group whenever the encoder does. *)
Theorem C38_grouping : forall i i' le, known_enc i -> same_fields i i' -> resolutions_ok i -> leading_encoder i = Ok le ->
  LeadingLossyFloatFieldCount i = LeadingLossyFloatFieldCount i' /\ UsesV5Codec i = UsesV5Codec i' /\
  exists ld, leading_decoder i' = Ok ld /\ length le = length ld.
Proof.
  intros i i' le HK HS HR HE. split; [now apply lead_count_shape|]. split; [now apply v5_same|].
  unfold leading_encoder, leading_decoder in *. rewrite <- (lead_count_shape i i' HS). set (n := LeadingLossyFloatFieldCount i) in *.
  destruct (n =? 0)%nat; [exists []; injection HE as <-; auto|]. destruct (existsb _ _) eqn:E1; [discriminate|]. injection HE as <-.
  destruct (existsb (fun l => f32_le0 (snd l)) (lanes_of (firstn n (i_fields i')))) eqn:E2; [|eexists; split; reflexivity]. exfalso.
  apply existsb_exists in E2. destruct E2 as (l & Hin & Hf'). unfold lanes_of in Hin. apply in_map_iff in Hin. destruct Hin as (f' & <- & Hin). cbn [snd] in Hf'.
  assert (Hn : (n <= lead_run (i_fields i'))%nat).
  { unfold n. rewrite (lead_count_shape i i' HS). unfold LeadingLossyFloatFieldCount. rewrite lead_run_spec. destruct (is_lossy (i_enc i')); [|lia].
    destruct ((lead_run (i_fields i') =? 3)%nat || (lead_run (i_fields i') =? 4)%nat); lia. }
  pose proof (proj1 (Forall_forall _ _) (lead_run_fields (i_fields i') n Hn) f' Hin) as [_ (r & Hr)].
  destruct HS as (HF & _ & _). pose proof (Forall2_firstn _ n _ _ HF) as HFn.
  assert (HX : exists f, In f (i_fields i) /\ f_res f = f_res f').
  { clear E1. assert (HG : exists f, In f (firstn n (i_fields i)) /\ f_res f = f_res f').
    { induction HFn as [|g g' l l' [_ Hg] _ IH]; [destruct Hin|]. destruct Hin as [->|Hin]; [exists g; split; [now left|exact Hg]|].
      destruct (IH Hin) as (x & X1 & X2). exists x. split; [now right|exact X2]. }
    destruct HG as (x & X1 & X2). exists x. split; [|exact X2]. rewrite <- (firstn_skipn n (i_fields i)). apply in_or_app. now left. }
  destruct HX as (f & HI & Hres). unfold resolutions_ok in HR. rewrite Forall_forall in HR. specialize (HR f HI). rewrite Hres in HR.
  unfold res_of in Hf'. rewrite Hr in HR, Hf'. congruence.
Qed.
Print Assumptions C38_grouping.
(** A group of three fields of which the first has resolution 0: the encoder takes it, the
    decoder for the very same layout refuses it. *)
Theorem C38_zero_resolution_refuted : exists i le, known_enc i /\ layout_ok i /\
  leading_encoder i = Ok le /\ leading_decoder i = Throw.
Proof.
  exists (mkInfo [fld 120 0 FLOAT32 (Some 0); fld 121 4 FLOAT32 (Some milli); fld 122 8 FLOAT32 (Some milli)] 4 1 12 ENC_LOSSY [] COMP_NONE false 5).
  eexists. split; [exact I|]. split; [split; [reflexivity|repeat constructor; cbn; lia]|]. split; vm_compute; reflexivity.
Qed.
Print Assumptions C38_zero_resolution_refuted.
(** A lossy FLOAT64 field, moved to another offset. *)
Example C38_case : let i := mkInfo [fld 97 0 FLOAT64 (Some milli)] 4 1 8 ENC_LOSSY [] COMP_NONE false 5 in
  let f := fld 97 0 FLOAT64 (Some milli) in let f' := fld 97 8 FLOAT64 (Some milli) in
  let v := [119;190;159;26;47;221;94;64] in (* 123.456 *)
  resolution_ok f /\ (exists e, CreateCompatibleEncoder i f = Ok e) /\ has_field 0 8 v /\
  jumps_ok 0 (map (fun v => coded_value sse_ops FLOAT64 (lossy_kind f) (sub 0 8 v)) [v; v]) /\ stored f' = true.
Proof.
  cbn zeta. split; [reflexivity|]. split; [eexists; vm_compute; reflexivity|]. split; [split; [apply bytesb; vm_compute; reflexivity|unfold zlen; cbn; lia]|].
  split; [vm_compute; repeat split; discriminate|reflexivity].
Qed.
