(** C86: how short the integer fields become. *)
From Verif Require Import Base BaseFacts Varint VarintFacts Types Floats Fields Codec V5 Api Spec LibSpec SeqSpec ShortSpec BytesSpec.
From Verif Require Import GorillaFacts FieldFacts WriteFacts CodecFacts BuildFacts RunFacts SectionFacts PaletteFacts V5Facts ChunkV5Facts Stage1Facts ApiFacts CloudFacts RoundTrip CloudRT LocalFacts SeqFacts ColumnFacts CloudApi SizeFacts ShortFacts BytesFacts Cases PropsField PropsColumn PropsStage1 PropsCloud PropsFit PropsSize.

(** ** Specification *)
(** The values of an integer field, point by point. *)
Definition field_value (i : info) (f : field) (cloud : list Z) (j : nat) : option Z := int_value (f_type f) (fbytes i f cloud j).
(** Counters, constant columns, regular time stamps: the same difference everywhere. *)
Definition progression (i : info) (f : field) (cloud : list Z) (n : nat) : Prop :=
  exists v0 d, forall j, (j < n)%nat -> field_value i f cloud j = Some (v0 + Z.of_nat j * d).
(** A number of bytes that is enough for the field in [n] points: by the number of distinct
    values, of changes of value, of changes of the step, or because all steps are short. *)
Definition affordable (i : info) (f : field) (cloud : list Z) (n : nat) (cost : Z) : Prop :=
  exists vs, map (field_value i f cloud) (seq 0 n) = map Some vs /\
  let sz := Z.of_nat (SizeOf (f_type f)) in
  let distinct := zlen (distinct_in_order vs) in
  3 + distinct * sz + (Z.log2_up distinct * Z.of_nat n + 7) / 8 <= cost \/
  5 + (sz + 3) * (1 + changes vs) <= cost \/
  5 + 13 * (2 + changes (differences vs)) <= cost \/
  (Forall (fun d => -63 <= d <= 63) (differences vs) /\ 10 + Z.of_nat n <= cost).
(** Most bytes a point takes for its fields other than the 16- to 64-bit integers. *)
Definition other_bytes (i : info) : Z :=
  fold_right (fun fk s => value_cost (fst fk) (snd fk) + s) 0
    (filter (fun fk => match f_type (fst fk) with INT16 | UINT16 | INT32 | UINT32 | INT64 | UINT64 => false | _ => true end) (combine (i_fields i) (kinds i))).

(** ** Proofs *)
Lemma ceil_step left ppc : (0 < left)%nat -> (0 < ppc)%nat -> Z.of_nat ((left + ppc - 1) / ppc) = 1 + Z.of_nat ((left - Nat.min left ppc + ppc - 1) / ppc).
Proof.
  intros Hl Hp. destruct (Nat.le_gt_cases left ppc) as [A|A].
  - rewrite Nat.min_l, Nat.sub_diag by lia. rewrite (Nat.div_small (0 + ppc - 1)) by lia. replace ((left + ppc - 1) / ppc)%nat with 1%nat; [reflexivity|].
    apply (Nat.div_unique _ _ 1 (left - 1)); lia.
  - rewrite Nat.min_r by lia. replace (left + ppc - 1)%nat with (left - ppc + ppc - 1 + 1 * ppc)%nat by lia. rewrite Nat.div_add by lia. lia.
Qed.
Lemma sum_frames (b : bool) (P : nat -> nat -> list Z -> Prop) ppc Y (g : nat -> Z) : (0 < ppc)%nat ->
  (forall c k bs, P c k bs -> near b (zlen bs) (sumn (fun r => g (c * ppc + r)%nat) k + Y)) ->
  forall c left bss, stage1 P ppc c left bss ->
  near b (zlen (concat (map frame bss))) (Z.of_nat ((left + ppc - 1) / ppc) * (4 + Y) + sumn (fun r => g (c * ppc + r)%nat) left).
Proof.
  intros Hp HP c left bss H. induction H as [c|c left bs bss Hl H1 H IH].
  - rewrite Nat.add_0_l, Nat.div_small by lia. apply near_refl.
  - rewrite ceil_step by lia. cbn [map concat]. rewrite zlen_app. unfold frame at 1. rewrite zlen_app, zlen_le. apply HP in H1. change (Z.of_nat 4) with 4.
    assert (E : sumn (fun r => g (c * ppc + r)%nat) left = sumn (fun r => g (c * ppc + r)%nat) (Nat.min left ppc) + sumn (fun r => g (S c * ppc + r)%nat) (left - Nat.min left ppc)).
    { replace left with (Nat.min left ppc + (left - Nat.min left ppc))%nat at 1 by (pose proof (Nat.le_min_l left ppc); lia). rewrite sumn_add. f_equal. apply sumn_ext. intros j Hj. f_equal.
      destruct (Nat.min_spec left ppc) as [[A ->]|[A ->]]; [|lia]. destruct (Nat.min_spec left ppc) as [[_ B]|[B _]]; lia. }
    rewrite E. unfold near in *. destruct H1 as [A1 A2], IH as [B1 B2]. split; [nia|]. intros Eb. specialize (A2 Eb). specialize (B2 Eb). nia.
Qed.
Lemma sumn_const x n : sumn (fun _ => x) n = Z.of_nat n * x.
Proof. induction n as [|n IH]; [reflexivity|]. rewrite sumn_S, IH. nia. Qed.
Lemma ceil_le n ppc m : (0 < ppc)%nat -> (n <= m * ppc)%nat -> Z.of_nat ((n + ppc - 1) / ppc) <= Z.of_nat m.
Proof. intros Hp H. apply inj_le. apply Nat.lt_succ_r. apply Nat.div_lt_upper_bound; nia. Qed.
(** At most [g j] bytes of point [j] outside the sections. *)
Definition others_le (ops : float_ops) (i : info) (ppc : nat) (cloud : list Z) (g : nat -> Z) : Prop :=
  forall es afs c k rest o, BuildV5Plan i = Ok (es, afs) -> (k <= ppc)%nat -> ((c * ppc + k) * Z.to_nat (i_step i) <= length cloud)%nat ->
  enc_points_v4 ops es (Z.to_nat (i_step i)) k (resets es) (skipn (c * ppc * Z.to_nat (i_step i)) cloud) = Ok (rest, o) -> zlen o <= sumn (fun r => g (c * ppc + r)%nat) k.
(** the chunks are full, except perhaps the last *)
Lemma stage1_full (P Q : nat -> nat -> list Z -> Prop) ppc c left bss :
  (forall c' n bs, (0 < n <= ppc)%nat -> (c' * ppc + n <= c * ppc + left)%nat -> (n = ppc \/ c' * ppc + n = c * ppc + left)%nat -> P c' n bs -> Q c' n bs) ->
  (0 < ppc)%nat -> stage1 P ppc c left bss -> stage1 Q ppc c left bss.
Proof.
  intros HI Hp H. induction H as [c|c left bs bss Hl HP H IH]; [constructor|]. pose proof (Nat.le_min_l left ppc). pose proof (Nat.le_min_r left ppc). constructor; [exact Hl| |].
  - apply HI; auto; [split; [apply Nat.min_glb_lt; lia|lia]|nia|]. destruct (Nat.min_spec left ppc) as [[_ ->] | [_ ->]]; [right; lia|left; reflexivity].
  - destruct (Nat.eq_dec (left - Nat.min left ppc) 0) as [E|E]; [rewrite E in *; inversion H; subst; [constructor|lia]|].
    assert (Nat.min left ppc = ppc) by (destruct (Nat.min_spec left ppc) as [[A B]|[A B]]; lia).
    apply IH. intros c2 k b2 J2 J3 J4 J5. apply HI; auto; [nia|]. destruct J4 as [J4|J4]; [left; exact J4|right; nia].
Qed.
Lemma firstn_seq q : forall pr s, firstn pr (seq s q) = seq s (Nat.min pr q).
Proof. induction q as [|q IH]; intros pr s; [rewrite Nat.min_0_r; now destruct pr|]. destruct pr as [|pr]; [reflexivity|]. cbn [seq firstn Nat.min]. f_equal. apply IH. Qed.
Lemma chunk_short ops i ppc cloud ms c k bs m (B : field -> Z) g : others_le ops i ppc cloud g -> (k <= ppc)%nat -> UsesV5Codec i = true -> layout_ok i -> bytes cloud -> MaxSerializedPointSize i = Ok m ->
  ((c * ppc + k) * Z.to_nat (i_step i) <= length cloud)%nat ->
  Forall2 (fun f mo => forall sec, section_of (mk_afield f) (column (mk_afield f) (Z.to_nat (i_step i)) k (skipn (c * ppc * Z.to_nat (i_step i)) cloud)) mo sec -> zlen sec <= B f)
    (adaptive_fields i) ms ->
  chunk_rel ops i ppc cloud ms c k bs -> zlen bs <= sumn (fun r => g (c * ppc + r)%nat) k + sumz (map B (adaptive_fields i)).
Proof.
  intros HG Hkp HU HL Hc Hm Hlen HS HC. unfold chunk_rel in HC. rewrite HU in *. set (step := Z.to_nat (i_step i)) in *.
  destruct HC as (es & afs & HB & o & secs & HE & -> & Ho & Hsb & _ & Hms & Hss & HF).
  destruct (plan_spec i es afs m HU HB Hm) as (HBu & HA & _).
  rewrite zlen_app. pose proof (HG es afs c k _ o HB Hkp Hlen HE) as HQ.
  assert (Hsec : zlen (concat secs) <= sumz (map B (adaptive_fields i))).
  { subst afs. clear - HS HF Hms Hss. revert ms secs HS HF Hms Hss. induction (adaptive_fields i) as [|f fs IH]; intros ms secs HS HF Hms Hss.
    - destruct secs; [unfold sumz, zlen; cbn; lia|discriminate].
    - destruct ms as [|mo ms], secs as [|sec secs]; try discriminate. cbn [map combine] in HF. inversion HF as [|? ? ? ? HF1 HF2]; subst. inversion HS as [|? ? ? ? HS1 HS2]; subst.
      cbn [fst snd] in HF1. cbn [concat map sumz fold_right]. rewrite zlen_app. specialize (HS1 sec HF1). cbn [map length] in Hms, Hss.
      specialize (IH ms secs HS2 HF2 ltac:(lia) ltac:(lia)). unfold sumz in IH. lia. }
  lia.
Qed.
Lemma others_const ops i ppc cloud m : UsesV5Codec i = true -> layout_ok i -> bytes cloud -> MaxSerializedPointSize i = Ok m -> others_le ops i ppc cloud (fun _ => other_bytes i).
Proof.
  intros HU HL Hc Hm es afs c k rest o HB Hk Hlen HE. destruct (plan_spec i es afs m HU HB Hm) as (HBu & HA & _).
  assert (Hst : i_step i = Z.of_nat (Z.to_nat (i_step i))) by (destruct HL; lia).
  destruct (chunk_enc ops i regular es _ cloud (c * ppc) k HBu HL Hst Hc Hlen) as (o' & HE' & _ & Ho').
  rewrite HE in HE'. apply ok_pair in HE'. destruct HE' as [_ <-]. pose proof (built_cost _ _ _ HBu) as HQ.
  assert (HO : cost_sum (filter (fun fk => regular (f_type (fst fk))) (fks i)) = other_bytes i).
  { unfold other_bytes, cost_sum, fks. f_equal. apply filter_ext. intros [f kk]. cbn [fst]. destruct (f_type f); reflexivity. }
  rewrite HO in HQ. rewrite sumn_const. nia.
Qed.
Lemma column_vals i ppc cloud c k f : layout_ok i -> bytes cloud -> In f (adaptive_fields i) -> ((c * ppc + k) * Z.to_nat (i_step i) <= length cloud)%nat ->
  let col := column (mk_afield f) (Z.to_nat (i_step i)) k (skipn (c * ppc * Z.to_nat (i_step i)) cloud) in
  is_int_type (a_type (mk_afield f)) /\ Forall (field_bytes (mk_afield f)) col /\
  col = map (fun j => fbytes i f cloud (c * ppc + j)) (seq 0 k) /\
  forall j, (j < k)%nat -> field_value i f cloud (c * ppc + j) = Some (to_int64 (f_type f) (fbytes i f cloud (c * ppc + j))).
Proof.
  intros HL Hc Hf Hlen col. pose proof HL as [Hs HLf]. set (step := Z.to_nat (i_step i)) in *. assert (Hst : i_step i = Z.of_nat step) by (unfold step; lia).
  pose proof (afields_in i HL) as HAI. rewrite Forall_forall in HAI. destruct (HAI (mk_afield f) (in_map _ _ _ Hf)) as [Hti Hin]. fold step in Hin.
  assert (HF : Forall (field_bytes (mk_afield f)) col) by (apply column_fields; [exact Hin|now apply bytes_skipn|rewrite skipn_length; nia]).
  assert (HB : col = map (fun j => fbytes i f cloud (c * ppc + j)) (seq 0 k)).
  { unfold col, column. apply map_ext. intros j. unfold fbytes, a_size. destruct Hin as [Hoff _]. cbn [mk_afield a_off a_type] in *. rewrite !sub_skipn by lia. f_equal. rewrite Hst. lia. }
  split; [exact Hti|]. split; [exact HF|]. split; [exact HB|]. intros j Hj. unfold field_value. rewrite HB in HF. rewrite Forall_forall in HF.
  destruct (HF (fbytes i f cloud (c * ppc + j))) as [Hb Hl]; [apply in_map_iff; exists j; split; [reflexivity|apply in_seq; lia]|].
  apply int_value_spec; [exact Hti|exact Hb|exact Hl].
Qed.
Lemma prog_column i ppc cloud c k f v0 d n : layout_ok i -> bytes cloud -> In f (adaptive_fields i) -> length cloud = (n * Z.to_nat (i_step i))%nat -> (c * ppc + k <= n)%nat ->
  (forall j, (j < n)%nat -> field_value i f cloud j = Some (v0 + Z.of_nat j * d)) ->
  let col := column (mk_afield f) (Z.to_nat (i_step i)) k (skipn (c * ppc * Z.to_nat (i_step i)) cloud) in
  vals (mk_afield f) col = prog (v0 + Z.of_nat (c * ppc) * d) d k.
Proof.
  intros HL Hc Hf Hlen Hk HP col. destruct (column_vals i ppc cloud c k f HL Hc Hf ltac:(rewrite Hlen; nia)) as (_ & _ & E & HV). fold col in E. rewrite E.
  unfold vals, prog. rewrite map_map. apply map_ext_in. intros j Hj. apply in_seq in Hj. specialize (HV j ltac:(lia)). rewrite HP in HV by lia.
  cbn [mk_afield a_type]. assert (HI : forall x y : Z, Some x = Some y -> y = x) by (intros x y Hq; congruence). apply HI in HV. rewrite HV. lia.
Qed.

(** ** Progressions: a constant number of bytes per field and chunk, whatever the number of points. *)
Lemma progressions_short ops L ppc probe i hdr0 e cloud hdr body n m g :
  (forall mx, MaxSerializedPointSize i = Ok mx -> others_le ops i ppc cloud g) -> libs_ok L -> bytes hdr0 -> encode_side ppc i cloud -> encoder_of ops L ppc probe i (Ok hdr0) e -> produces ops L ppc probe e cloud hdr body ->
  adaptive i -> i_comp i = COMP_NONE -> (32 <= ppc)%nat -> (32 <= probe)%nat ->
  zlen cloud = Z.of_nat n * i_step i -> (n <= m * ppc)%nat ->
  (forall f, In f (int_fields i) -> progression i f cloud n) ->
  zlen body <= Z.of_nat m * (4 + 31 * zlen (int_fields i)) + sumn g n.
Proof.
  intros HG HLi Hh HES HEo HPr HA HN Hp32 Hq32 Hlen Hm HP.
  destruct (produces_chunks _ _ _ _ _ _ _ _ _ _ HLi Hh HES HEo HPr) as (n' & ms & bss & ps & (HC1 & HC2 & HC3 & HC4 & HC5 & (mx & HC6)) & ->).
  destruct HES as (HL & HK & (Hp & Hp5 & _) & Hc).
  assert (n' = n). { destruct HL as (Hs & _). unfold zlen in Hlen. rewrite HC1 in Hlen. nia. } subst n'.
  apply adaptive_v5 in HA.
  assert (HPS : ps = bss). { clear - HC3 HN. induction HC3 as [|b p bs' ps' (H1 & _) _ IH]; [reflexivity|]. rewrite HN in H1. cbn [payload] in H1. congruence. }
  subst ps. clear HC3.
  specialize (HG mx HC6).
  pose proof (zlen_nonneg (int_fields i)) as Hi0.
  enough (near false (zlen (concat (map frame bss))) (Z.of_nat ((n + ppc - 1) / ppc) * (4 + 31 * zlen (int_fields i)) + sumn (fun r => g (0 * ppc + r)%nat) n)) as [HNr _].
  { pose proof (ceil_le n ppc m Hp Hm). change (sumn (fun r => g (0 * ppc + r)%nat) n) with (sumn g n) in HNr. nia. }
  apply (sum_frames false (fun c k bs => zlen bs <= sumn (fun r => g (c * ppc + r)%nat) k + 31 * zlen (int_fields i)) ppc) with (c := O); [exact Hp|intros; split; [assumption|discriminate]|].
  eapply stage1_full; [|exact Hp|exact HC2]. cbn beta. intros c k bs Hk Hend Hfull HC.
  assert (HS : sumz (map (fun _ : field => 31) (adaptive_fields i)) = 31 * zlen (int_fields i)).
  { change (int_fields i) with (adaptive_fields i). clear. unfold sumz, zlen. induction (adaptive_fields i) as [|f l IH]; cbn [map fold_right length]; lia. }
  rewrite <- HS. apply (chunk_short ops i ppc cloud ms c k bs mx (fun _ => 31) g); [exact HG|lia|exact HA|exact HL|exact Hc|exact HC6|rewrite HC1; apply Nat.mul_le_mono_r; lia| |exact HC].
  assert (Hn0 : n <> O) by lia.
  destruct (HC4 HA Hn0) as (es & afs & HBP & HBM). destruct (plan_spec i es afs mx HA HBP HC6) as (_ & HAf & _). subst afs.
  assert (G : forall fs, (forall f, In f fs -> In f (adaptive_fields i)) -> forall ms, Forall2 (fun a mo => best_mode a (firstn probe (column a (Z.to_nat (i_step i)) (Nat.min n ppc) cloud)) mo) (map mk_afield fs) ms ->
     Forall2 (fun f mo => forall sec, section_of (mk_afield f) (column (mk_afield f) (Z.to_nat (i_step i)) k (skipn (c * ppc * Z.to_nat (i_step i)) cloud)) mo sec -> zlen sec <= 31) fs ms);
    [|exact (G _ (fun f H => H) ms HBM)].
  clear ms HC2 HC4 HBM HC HS. induction fs as [|f fs IH]; intros Hin ms HF; inversion HF as [|? mo ? ms' HB1 HB2]; subst; [constructor|constructor; [|apply IH; [intros f2 Hf2; apply Hin; now right|exact HB2]]].
  intros sec HSec. assert (Hf : In f (adaptive_fields i)) by (apply Hin; now left).
  set (a := mk_afield f) in *. set (col := column a (Z.to_nat (i_step i)) k (skipn (c * ppc * Z.to_nat (i_step i)) cloud)) in *.
  assert (Hcl : zlen col = Z.of_nat k) by (unfold col, zlen; now rewrite column_length).
  rewrite (section_len a col mo sec ltac:(lia) HSec). change (mode_size a col mo <= 31).
  destruct (HP f Hf) as (v0 & d & HV).
  destruct (column_vals i ppc cloud c k f HL Hc Hf ltac:(rewrite HC1; apply Nat.mul_le_mono_r; lia)) as (Hti & HFb & _ & _). fold a col in Hti, HFb.
  pose proof (prog_column i ppc cloud c k f v0 d n HL Hc Hf HC1 ltac:(lia) HV) as V1. cbv zeta in V1. fold a col in V1.
  set (k0 := Nat.min probe (Nat.min n ppc)). set (pre := firstn probe (column a (Z.to_nat (i_step i)) (Nat.min n ppc) cloud)) in *.
  destruct (column_vals i ppc cloud 0 (Nat.min n ppc) f HL Hc Hf ltac:(rewrite HC1; apply Nat.mul_le_mono_r; lia)) as (_ & HFp & _ & _).
  pose proof (prog_column i ppc cloud 0 (Nat.min n ppc) f v0 d n HL Hc Hf HC1 ltac:(lia) HV) as V0. cbv zeta in V0. cbn [Nat.mul skipn] in HFp, V0. fold a in HFp, V0.
  assert (Vp : vals a pre = prog (v0 + Z.of_nat 0 * d) d k0).
  { unfold pre, vals. rewrite <- firstn_map. fold (vals a (column a (Z.to_nat (i_step i)) (Nat.min n ppc) cloud)). rewrite V0. unfold prog. rewrite firstn_map. f_equal.
    unfold k0. apply firstn_seq. }
  destruct (Nat.le_gt_cases n (Nat.min probe ppc)) as [Hs|Hs].
  - assert (c = O) by (destruct c; [reflexivity|exfalso; nia]). subst c. 
    assert (Hkn : k = n) by (cbn [Nat.mul Nat.add] in *; lia).
    assert (Epre : pre = col).
    { unfold pre, col. cbn [Nat.mul skipn]. rewrite Nat.min_l by lia. rewrite Hkn. apply firstn_all2. rewrite column_length. lia. }
    rewrite Epre in HB1. pose proof (best_le a col mo DeltaRle HB1) as HD. cbn [mode_size] in HD. rewrite V1 in HD. pose proof (prog_drle (v0 + Z.of_nat (0 * ppc) * d) d k ltac:(lia) ltac:(lia)). lia.
  - apply (prog_mode a pre col mo (v0 + Z.of_nat 0 * d) (v0 + Z.of_nat (c * ppc) * d) d k0 k); auto; try lia.
    + unfold pre. apply Forall_firstn. exact HFp.
Qed.
Theorem C86_progressions : forall ops L ppc probe i hdr0 e cloud hdr body n m,
  libs_ok L -> bytes hdr0 -> encode_side ppc i cloud -> encoder_of ops L ppc probe i (Ok hdr0) e -> produces ops L ppc probe e cloud hdr body ->
  adaptive i -> i_comp i = COMP_NONE -> (32 <= ppc)%nat -> (32 <= probe)%nat ->
  zlen cloud = Z.of_nat n * i_step i -> (n <= m * ppc)%nat ->
  (forall f, In f (int_fields i) -> progression i f cloud n) ->
  zlen body <= Z.of_nat m * (4 + 31 * zlen (int_fields i)) + Z.of_nat n * other_bytes i.
Proof.
  intros ops L ppc probe i hdr0 e cloud hdr body n m HLi Hh HES HEo HPr HA. intros. rewrite <- (sumn_const (other_bytes i) n).
  apply (progressions_short ops L ppc probe i hdr0 e cloud hdr body n m (fun _ => other_bytes i)); auto.
  intros mx Hmx. eapply others_const; [now apply adaptive_v5|apply HES|apply HES|exact Hmx].
Qed.
Print Assumptions C86_progressions.

(** ** Up to 4096 points (all the encoder looks at before it chooses): the cheapest of the four. *)
Lemma shape_short ops L ppc probe i hdr0 e cloud hdr body n (cost : field -> Z) g :
  (forall mx, MaxSerializedPointSize i = Ok mx -> others_le ops i ppc cloud g) -> libs_ok L -> bytes hdr0 -> encode_side ppc i cloud -> encoder_of ops L ppc probe i (Ok hdr0) e -> produces ops L ppc probe e cloud hdr body ->
  adaptive i -> i_comp i = COMP_NONE -> (0 < n <= Nat.min probe ppc)%nat ->
  zlen cloud = Z.of_nat n * i_step i ->
  (forall f, In f (int_fields i) -> affordable i f cloud n (cost f)) ->
  zlen body <= 4 + fold_right (fun f s => cost f + s) 0 (int_fields i) + sumn g n.
Proof.
  intros HG HLi Hh HES HEo HPr HA HN Hn Hlen HP.
  destruct (produces_chunks _ _ _ _ _ _ _ _ _ _ HLi Hh HES HEo HPr) as (n' & ms & bss & ps & (HC1 & HC2 & HC3 & HC4 & HC5 & (mx & HC6)) & ->).
  destruct HES as (HL & HK & (Hp & Hp5 & _) & Hc).
  assert (n' = n). { destruct HL as (Hs & _). unfold zlen in Hlen. rewrite HC1 in Hlen. nia. } subst n'.
  apply adaptive_v5 in HA.
  assert (HPS : ps = bss). { clear - HC3 HN. induction HC3 as [|b p bs' ps' (H1 & _) _ IH]; [reflexivity|]. rewrite HN in H1. cbn [payload] in H1. congruence. }
  subst ps. clear HC3.
  inversion HC2 as [|? ? bs bss1 _ HC Hrest E1 E2 E3]; [lia|]. subst bss. clear E1 E2. rewrite Nat.min_l in HC, Hrest by lia. rewrite Nat.sub_diag in Hrest.
  inversion Hrest; [|lia]. subst bss1. cbn [map concat]. rewrite app_nil_r. unfold frame. rewrite zlen_app, zlen_le. change (Z.of_nat 4) with 4.
  change (fold_right (fun f s => cost f + s) 0 (int_fields i)) with (fold_right (fun f s => cost f + s) 0 (adaptive_fields i)).
  assert (HS : sumz (map cost (adaptive_fields i)) = fold_right (fun f s => cost f + s) 0 (adaptive_fields i)).
  { clear. unfold sumz. induction (adaptive_fields i) as [|f l IH]; cbn [map fold_right]; lia. }
  rewrite <- HS. change (sumn g n) with (sumn (fun r => g (0 * ppc + r)%nat) n).
  enough (zlen bs <= sumn (fun r => g (0 * ppc + r)%nat) n + sumz (map cost (adaptive_fields i))) by lia.
  apply (chunk_short ops i ppc cloud ms 0 n bs mx cost g); [exact (HG mx HC6)|lia|exact HA|exact HL|exact Hc|exact HC6|rewrite HC1; apply Nat.mul_le_mono_r; lia| |exact HC].
  destruct (HC4 HA ltac:(lia)) as (es & afs & HBP & HBM). destruct (plan_spec i es afs mx HA HBP HC6) as (_ & HAf & _). subst afs. rewrite Nat.min_l in HBM by lia.
  assert (G : forall fs, (forall f, In f fs -> In f (adaptive_fields i)) -> forall ms, Forall2 (fun a mo => best_mode a (firstn probe (column a (Z.to_nat (i_step i)) n cloud)) mo) (map mk_afield fs) ms ->
     Forall2 (fun f mo => forall sec, section_of (mk_afield f) (column (mk_afield f) (Z.to_nat (i_step i)) n (skipn (0 * ppc * Z.to_nat (i_step i)) cloud)) mo sec -> zlen sec <= cost f) fs ms);
    [|exact (G _ (fun f H => H) ms HBM)].
  clear ms HC2 HC4 HBM HC HS Hrest. induction fs as [|f fs IH]; intros Hin ms HF; inversion HF as [|? mo ? ms' HB1 HB2]; subst; [constructor|constructor; [|apply IH; [intros f2 Hf2; apply Hin; now right|exact HB2]]].
  intros sec HSec. assert (Hf : In f (adaptive_fields i)) by (apply Hin; now left).
  destruct (column_vals i ppc cloud 0 n f HL Hc Hf ltac:(rewrite HC1; apply Nat.mul_le_mono_r; lia)) as (Hti & HFb & HE & HV). cbn [Nat.mul skipn Nat.add] in *.
  set (a := mk_afield f) in *. set (col := column a (Z.to_nat (i_step i)) n cloud) in *.
  assert (Hcl : zlen col = Z.of_nat n) by (unfold col, zlen; now rewrite column_length).
  rewrite (section_len a col mo sec ltac:(lia) HSec). change (mode_size a col mo <= cost f).
  rewrite firstn_all2 in HB1 by (unfold col; rewrite column_length; lia).
  destruct (HP f Hf) as (vs & HVs & HW).
  assert (EV : vals a col = vs).
  { rewrite HE. unfold vals. rewrite map_map. assert (Q : map (field_value i f cloud) (seq 0 n) = map Some (map (fun j => to_int64 (a_type a) (fbytes i f cloud j)) (seq 0 n))).
    { rewrite map_map. apply map_ext_in. intros j Hj. apply in_seq in Hj. apply HV. lia. }
    rewrite HVs in Q. clear - Q. revert Q. generalize (map (fun j => to_int64 (a_type a) (fbytes i f cloud j)) (seq 0 n)). induction vs as [|v vs IH]; intros [|x l] H; try discriminate; [reflexivity|].
    cbn [map] in H. assert (x = v) by congruence. subst x. f_equal. apply IH. congruence. }
  assert (LV : zlen vs = Z.of_nat n) by (rewrite <- EV, <- Hcl; unfold zlen, vals; now rewrite map_length).
  pose proof (fun m => mode_size_le a col m Hti HFb ltac:(lia)) as HM. rewrite EV in HM. unfold mode_cost in HM. rewrite LV in HM. cbv zeta in HW.
  change (SizeOf (f_type f)) with (a_size a) in HW.
  destruct HW as [HW|[HW|[HW|[HW1 HW2]]]].
  - pose proof (best_le a col mo Palette HB1). specialize (HM Palette). cbn zeta iota in HM. lia.
  - pose proof (best_le a col mo Rle HB1). specialize (HM Rle). cbn zeta iota in HM. lia.
  - pose proof (best_le a col mo DeltaRle HB1). specialize (HM DeltaRle). cbn zeta iota in HM. lia.
  - pose proof (best_le a col mo DeltaVarint HB1). pose proof (small_steps a col) as HSm. rewrite EV, LV in HSm. specialize (HSm ltac:(intros Eq; rewrite Eq in LV; unfold zlen in LV; cbn in LV; lia) HW1). lia.
Qed.
Theorem C86_shape : forall ops L ppc probe i hdr0 e cloud hdr body n (cost : field -> Z),
  libs_ok L -> bytes hdr0 -> encode_side ppc i cloud -> encoder_of ops L ppc probe i (Ok hdr0) e -> produces ops L ppc probe e cloud hdr body ->
  adaptive i -> i_comp i = COMP_NONE -> (0 < n <= Nat.min probe ppc)%nat ->
  zlen cloud = Z.of_nat n * i_step i ->
  (forall f, In f (int_fields i) -> affordable i f cloud n (cost f)) ->
  zlen body <= 4 + fold_right (fun f s => cost f + s) 0 (int_fields i) + Z.of_nat n * other_bytes i.
Proof.
  intros ops L ppc probe i hdr0 e cloud hdr body n cost HLi Hh HES HEo HPr HA. intros. rewrite <- (sumn_const (other_bytes i) n).
  apply (shape_short ops L ppc probe i hdr0 e cloud hdr body n cost (fun _ => other_bytes i)); auto.
  intros mx Hmx. eapply others_const; [now apply adaptive_v5|apply HES|apply HES|exact Hmx].
Qed.
Print Assumptions C86_shape.

(** ** Not beyond what the encoder looks at *)
(** 4096 zeros, then 0 and 2^62 in turn, 32768 points: two distinct values, so that 4115 bytes
    would do, but the mode chosen on the zeros spends more than 300000. *)
Lemma distinct_NoDup l : NoDup (distinct_in_order l).
Proof.
  induction l as [|v l IH]; cbn [distinct_in_order]; constructor; [|now apply NoDup_filter].
  intros H. apply filter_In in H. destruct H as [_ H]. rewrite Z.eqb_refl in H. discriminate.
Qed.
Lemma values64 w vs i : i = one64 5 w COMP_NONE -> Forall (fun v => 0 <= v < 9223372036854775808) vs ->
  map (field_value i (fld 105 0 INT64 None) (cloud64 vs)) (seq 0 (length vs)) = map Some vs.
Proof.
  intros -> HV. set (i := one64 5 w COMP_NONE).
  assert (HL : layout_ok i) by (split; [reflexivity|repeat constructor; cbn; lia]).
  destruct (column_vals i 1 (cloud64 vs) 0 (length vs) (fld 105 0 INT64 None) HL (cloud64_bytes vs) ltac:(left; reflexivity) ltac:(rewrite cloud64_length; change (Z.to_nat (i_step i)) with 8%nat; lia)) as (_ & _ & HE & HF).
  cbn [Nat.mul skipn Nat.add] in HE, HF. change (Z.to_nat (i_step i)) with 8%nat in HE. change (mk_afield (fld 105 0 INT64 None)) with a64 in HE. rewrite cloud64_column, firstn_all in HE by lia.
  erewrite map_ext_in; [|intros j Hj; apply in_seq in Hj; apply HF; lia]. rewrite <- (map_map (fun j => fbytes i (fld 105 0 INT64 None) (cloud64 vs) j) (fun b => Some (to_int64 INT64 b))). cbn [f_type fld].
  rewrite <- HE, map_map. apply map_ext_in. intros v Hv. f_equal. rewrite Forall_forall in HV. specialize (HV v Hv). unfold to_int64. cbn [int_signed andb]. rewrite zlen_le, le_val_le_bytes.
  change (256 ^ Z.of_nat 8) with 18446744073709551616. rewrite Z.mod_small by lia.
  replace (18446744073709551616 / 2 <=? v) with false by (symmetry; apply Z.leb_gt; change (18446744073709551616 / 2) with 9223372036854775808; lia). apply s64_id. lia.
Qed.
Definition e64 : encoder := mkEnc (one64 5 65536 COMP_NONE) [] [] [].
Lemma side64 ppc vs : (0 < ppc)%nat -> Z.of_nat ppc <= 65535 -> encode_side ppc (one64 5 65536 COMP_NONE) (cloud64 vs).
Proof. intros Hp Hp5. split; [split; [reflexivity|repeat constructor; cbn; lia]|split; [exact I|split; [split; [lia|split; [lia|vm_compute; discriminate]]|apply cloud64_bytes]]]. Qed.
Lemma new64 ops L ppc probe : encoder_of ops L ppc probe (one64 5 65536 COMP_NONE) (Ok []) e64.
Proof. apply eo_new. reflexivity. Qed.
Lemma chunk64 ppc probe vs s ms bs : length vs = ppc -> (0 < ppc)%nat -> Z.of_nat ppc <= 65535 -> Forall (fun v => 0 <= v < 9223372036854775808) vs ->
  (forall mo, best_mode a64 (firstn probe (map (le_bytes 8) vs)) mo -> mo = DeltaRle) -> encodedDeltaRleSectionSize vs = s ->
  Forall2 (fun a mo => best_mode a (firstn probe (column a 8 ppc (cloud64 vs))) mo) [a64] ms ->
  chunk_rel sse_ops (one64 5 65536 COMP_NONE) ppc (cloud64 vs) ms 0 ppc bs -> zlen bs = s.
Proof.
  intros HN Hp Hp5 HV HM Hs HBM HC. inversion HBM as [|? mo ? ms' HB1 HB2]; subst ms. inversion HB2; subst ms'. rewrite cloud64_column, (firstn_all2 (n := ppc) vs) in HB1 by lia. apply HM in HB1. subst mo.
  apply one64_chunk in HC; [|rewrite HN; lia|exact HV|reflexivity|exact Hp|lia]. rewrite Nat.mul_0_l, skipn_O, (firstn_all2 (n := ppc) vs) in HC by lia. now rewrite Hs in HC.
Qed.
Lemma long64 ppc probe vs s L hdr body : libs_ok L -> length vs = ppc -> (0 < ppc)%nat -> Z.of_nat ppc <= 65535 -> Forall (fun v => 0 <= v < 9223372036854775808) vs ->
  (forall mo, best_mode a64 (firstn probe (map (le_bytes 8) vs)) mo -> mo = DeltaRle) -> encodedDeltaRleSectionSize vs = s ->
  produces sse_ops L ppc probe e64 (cloud64 vs) hdr body -> zlen body = 4 + s.
Proof.
  intros HLi HN Hp Hp5 HV HM Hs HPr.
  destruct (produces_chunks _ _ _ _ _ _ _ _ _ _ HLi (Forall_nil _) (side64 ppc vs Hp Hp5) (new64 sse_ops L ppc probe) HPr) as (n & ms & bss & ps & (A1 & A2 & A3 & A4 & A5 & _) & ->).
  change (Z.to_nat (i_step (one64 5 65536 COMP_NONE))) with 8%nat in *. rewrite cloud64_length, HN in A1. assert (Hn : n = ppc) by lia. subst n. rewrite Nat.min_l in A4 by lia.
  destruct (A4 eq_refl ltac:(lia)) as (es & afs & HB & HBM). change (BuildV5Plan (one64 5 65536 COMP_NONE)) with (Ok (@nil fenc, [a64])) in HB. apply ok_pair in HB. destruct HB as [<- <-].
  inversion A2 as [|? ? b1 bss1 Hg0 HC1 HS1 Hq1 Hq2 Hq3]; [lia|]. subst bss. clear Hq1 Hq2. rewrite Nat.min_l in HC1, HS1 by lia. rewrite Nat.sub_diag in HS1. inversion HS1; [|lia]. subst bss1.
  apply (chunk64 ppc probe vs s ms b1 HN Hp Hp5 HV HM Hs HBM) in HC1.
  inversion A3 as [|? p1 ? ps1 (P1 & _) A3']; subst ps. inversion A3'; subst ps1. cbn [one64 i_comp payload] in P1. subst p1.
  cbn [map concat]. rewrite app_nil_r. unfold frame. rewrite zlen_app, zlen_le, HC1. reflexivity.
Qed.
Lemma exists64 ppc probe vs s L need : libs_ok L -> length vs = ppc -> (0 < ppc)%nat -> Z.of_nat ppc <= 65535 -> Forall (fun v => 0 <= v < 9223372036854775808) vs ->
  (forall mo, best_mode a64 (firstn probe (map (le_bytes 8) vs)) mo -> mo = DeltaRle) -> encodedDeltaRleSectionSize vs = s ->
  MaxCompressedSize L ppc (one64 5 65536 COMP_NONE) ppc 0 = Ok need -> 0 <= need -> s <= Z.of_nat ppc * 10 + 1056 ->
  exists hdr body, produces sse_ops L ppc probe e64 (cloud64 vs) hdr body.
Proof.
  intros HLi HN Hp Hp5 HV HM Hs HMC Hneed Hsz. destruct (side64 ppc vs Hp Hp5) as (HL & HK & HCL & Hc).
  assert (HR : enc_ready e64) by (intros H; vm_compute in H; discriminate).
  pose proof (limits_v5 _ _ HCL) as Hv5. 
  assert (Hdiv : (length (cloud64 vs) / 8)%nat = ppc) by (rewrite cloud64_length, HN; apply Nat.div_mul; lia).
  assert (Hmod : zlen (cloud64 vs) mod 8 = 0) by (unfold zlen; rewrite cloud64_length, Nat2Z.inj_mul; apply Z.mod_mul; lia).
  set (out := repeat 0 (Z.to_nat need)). assert (Hob : bytes out) by (apply Forall_forall; intros x Hx; apply repeat_spec in Hx; subst x; red; lia).
  assert (Hzo : zlen out = need) by (unfold zlen, out; rewrite repeat_length; lia).
  destruct (encode_total sse_ops L ppc probe e64 (cloud64 vs) out false need 10 HR HLi HL HK Hc Hob (Forall_nil _) Hp Hv5 Hmod) as (total & out' & e' & HE & _).
  - change (Z.to_nat (i_step (e_info e64))) with 8%nat. rewrite Hdiv. exact HMC.
  - lia.
  - reflexivity.
  - unfold assumed. change (UsesV5Codec (e_info e64)) with true. change (zlen (i_fields (e_info e64))) with 1. change (size_limit (i_comp (e_info e64))) with 4294967295. cbv iota. lia.
  - discriminate.
  - intros _. exists [], [a64]. reflexivity.
  - change (Z.to_nat (i_step (e_info e64))) with 8%nat. rewrite Hdiv, Nat.min_id. intros ms c k bs HM2 Hk1 Hk2 Hk3 HC.
    specialize (HM2 eq_refl [] [a64] eq_refl).
    assert (c = 0%nat) by nia. subst c. assert (k = ppc) by lia. subst k. rewrite (chunk64 ppc probe vs s ms bs HN Hp Hp5 HV HM Hs HM2 HC).
    unfold assumed. change (UsesV5Codec (e_info e64)) with true. change (zlen (i_fields (e_info e64))) with 1. cbv iota. lia.
  - destruct (encode_view_spec _ _ _ _ _ _ _ _ _ _ _ HR HLi HL HK Hc Hob (Forall_nil _) Hp Hv5 HE) as (_ & _ & _ & HS).
    destruct (HS total eq_refl) as (n & ms & bss & ps & _ & _ & _ & _ & E1 & E2 & _).
    exists [], (concat (map frame ps)). left. exists out, false, total, out', e'. split; [exact Hob|]. split; [exact HE|]. split; [exact E1|]. split; [rewrite zlen_app; now symmetry|reflexivity].
Qed.

Lemma jump1_distinct j n : (length (distinct_in_order (repeat 0%Z j ++ alt n)) <= 2)%nat.
Proof.
  change 2%nat with (length [0; 4611686018427387904]). apply NoDup_incl_length; [apply distinct_NoDup|]. intros v Hv.
  assert (Hi : In v (repeat 0 j ++ alt n)).
  { revert Hv. generalize (repeat 0%Z j ++ alt n). intros l. induction l as [|x l IH]; cbn [distinct_in_order]; [easy|]. intros [-> | Hv]; [now left|]. right. apply filter_In in Hv. apply IH, Hv. }
  apply in_app_or in Hi. destruct Hi as [Hi|Hi]; [apply repeat_spec in Hi; subst v; now left|].
  unfold alt in Hi. apply in_concat in Hi. destruct Hi as (l & Hl & Hv'). apply repeat_spec in Hl. now subst l.
Qed.
Lemma jump1_range j n : Forall (fun v => 0 <= v < 9223372036854775808) (repeat 0 j ++ alt n).
Proof.
  apply Forall_app. split; apply Forall_forall; intros v Hv; [apply repeat_spec in Hv; subst v; lia|].
  apply in_concat in Hv. destruct Hv as (l & Hl & Hv). apply repeat_spec in Hl. subst l. destruct Hv as [<- | [<- | []]]; lia.
Qed.
Lemma jump1_affordable j n N : N = (j + 2 * n)%nat -> Z.of_nat N = 32768 -> affordable (one64 5 65536 COMP_NONE) (fld 105 0 INT64 None) (cloud64 (repeat 0 j ++ alt n)) N 4115.
Proof.
  intros HN HZ. exists (repeat 0 j ++ alt n). split.
  - replace N with (length (repeat 0 j ++ alt n)) by (rewrite app_length, repeat_length, alt_length; lia). apply (values64 65536 _ _ eq_refl), jump1_range.
  - cbv zeta. left. rewrite HZ. pose proof (jump1_distinct j n) as HD. unfold zlen. change (Z.of_nat (SizeOf (f_type (fld 105 0 INT64 None)))) with 8.
    destruct (length (distinct_in_order (repeat 0 j ++ alt n))) as [|[|[|k]]]; [vm_compute; discriminate..|lia].
Qed.
Lemma jump1_mode k j n mo : j = S k -> 14 < Z.of_nat (S k) -> 0 <= encodedUVarintSize (Z.of_nat (S k)) <= 2 ->
  best_mode a64 (firstn j (map (le_bytes 8) (repeat 0 j ++ alt n))) mo -> mo = DeltaRle.
Proof.
  intros Hj H1 H2 HB. apply (part_mode k (j + 2 * n) j n 0 mo Hj ltac:(lia) H1 H2).
  replace (alt n ++ alt 0) with (alt n) by (unfold alt at 3; cbn [repeat concat]; now rewrite app_nil_r).
  rewrite (firstn_all2 (n := (j + 2 * n)%nat) (repeat 0 j ++ alt n)); [exact HB|]. rewrite app_length, repeat_length, alt_length. lia.
Qed.
Lemma jump1_size j n : Z.of_nat j = 4096 -> Z.of_nat n = 14336 -> encodedDeltaRleSectionSize (repeat 0 j ++ alt n) = 315389.
Proof.
  intros Hj Hn. rewrite <- (size1 j n 0 (j + 2 * n) Hj Hn ltac:(lia)). f_equal.
  replace (alt n ++ alt 0) with (alt n) by (unfold alt at 3; cbn [repeat concat]; now rewrite app_nil_r).
  rewrite skipn_O, firstn_all2; [reflexivity|]. rewrite app_length, repeat_length, alt_length. lia.
Qed.
Theorem C86_probe_refuted : exists i cloud e,
  encode_side (Z.to_nat 32768) i cloud /\ adaptive i /\ i_comp i = COMP_NONE /\ zlen cloud = 32768 * i_step i /\ other_bytes i = 0 /\ zlen (int_fields i) = 1 /\
  (forall ops L, encoder_of ops L (Z.to_nat 32768) (Z.to_nat 4096) i (Ok []) e) /\
  (forall f, In f (int_fields i) -> affordable i f cloud (Z.to_nat 32768) 4115) /\
  (forall L, libs_ok L -> exists hdr body, produces sse_ops L (Z.to_nat 32768) (Z.to_nat 4096) e cloud hdr body) /\
  (forall L hdr body, libs_ok L -> produces sse_ops L (Z.to_nat 32768) (Z.to_nat 4096) e cloud hdr body -> zlen body = 315393).
Proof.
  set (vs := repeat 0 (Z.to_nat 4096) ++ alt (Z.to_nat 14336)).
  assert (HN : length vs = Z.to_nat 32768) by (unfold vs; rewrite app_length, repeat_length, alt_length; lia).
  assert (HV : Forall (fun v => 0 <= v < 9223372036854775808) vs) by apply jump1_range.
  assert (HM : forall mo, best_mode a64 (firstn (Z.to_nat 4096) (map (le_bytes 8) vs)) mo -> mo = DeltaRle).
  { intros mo. apply (jump1_mode (Z.to_nat 4095)); [exact (to_nat_S 4095 ltac:(lia))|lia|]. rewrite <- to_nat_S, Z2Nat.id by lia. vm_compute. split; discriminate. }
  assert (Hs : encodedDeltaRleSectionSize vs = 315389) by (apply jump1_size; lia).
  assert (Haf : affordable (one64 5 65536 COMP_NONE) (fld 105 0 INT64 None) (cloud64 vs) (Z.to_nat 32768) 4115) by (apply jump1_affordable; lia).
  clearbody vs.
  exists (one64 5 65536 COMP_NONE), (cloud64 vs), e64.
  split; [apply side64; lia|]. split; [apply adaptive_v5; reflexivity|]. split; [reflexivity|].
  split; [unfold zlen; rewrite cloud64_length, HN; change (i_step (one64 5 65536 COMP_NONE)) with 8; lia|]. split; [reflexivity|]. split; [reflexivity|].
  split; [intros; apply new64|]. split; [intros f [<- | []]; exact Haf|].
  split.
  - intros L HLi. apply (exists64 _ _ vs 315389 L 328740 HLi HN); try assumption; try lia. vm_compute; reflexivity.
  - intros L hdr body HLi HPr. exact (long64 _ _ vs 315389 L hdr body HLi HN ltac:(lia) ltac:(lia) HV HM Hs HPr).
Qed.
Print Assumptions C86_probe_refuted.

(** The hypotheses are met: a counter, a constant and a byte. *)
Definition counted : info := mkInfo [fld 97 0 UINT32 None; fld 98 4 INT16 None; fld 99 6 UINT8 None] 40 1 7 ENC_LOSSY [] COMP_NONE false 5.
Definition counted_cloud (n : nat) : list Z := flat_map (fun j => le_bytes 4 (1000 + 3 * Z.of_nat j) ++ le_bytes 2 (-7) ++ [Z.of_nat j mod 5]) (seq 0 n).
Lemma counted_value f k v0 d N : (forallb (fun j => match field_value counted f (counted_cloud N) j with Some v => v =? v0 + Z.of_nat j * d | None => false end) (seq 0 k)) = true ->
  forall j, (j < k)%nat -> field_value counted f (counted_cloud N) j = Some (v0 + Z.of_nat j * d).
Proof.
  intros H j Hj. rewrite forallb_forall in H. specialize (H j ltac:(apply in_seq; lia)). destruct (field_value counted f (counted_cloud N) j) as [v|]; [|discriminate]. apply Z.eqb_eq in H. now rewrite H.
Qed.
Lemma counted_side N ppc : (0 < ppc)%nat -> Z.of_nat ppc <= 65535 -> bytes (counted_cloud N) -> encode_side ppc counted (counted_cloud N).
Proof. intros Hp Hp5 Hb. split; [split; [reflexivity|repeat constructor; cbn; lia]|]. split; [exact I|]. split; [|exact Hb]. split; [lia|]. split; [lia|vm_compute; discriminate]. Qed.
Example C86_progressions_case : let cloud := counted_cloud 40 in
  encode_side 32 counted cloud /\ adaptive counted /\ zlen cloud = Z.of_nat 40 * i_step counted /\
  (forall f, In f (int_fields counted) -> progression counted f cloud 40) /\
  exists e body, encoder_of sse_ops store_libs 32 32 counted (Ok []) e /\ produces sse_ops store_libs 32 32 e cloud [] body /\
    zlen body = 78 /\ Z.of_nat 2 * (4 + 31 * zlen (int_fields counted)) + Z.of_nat 40 * other_bytes counted = 172.
Proof.
  cbv zeta. split; [apply counted_side; [lia|lia|apply bytesb; vm_compute; reflexivity]|]. split; [apply adaptive_v5; reflexivity|]. split; [vm_compute; reflexivity|].
  split.
  - intros f [<- | [<- | []]]; [exists 1000, 3|exists (-7), 0]; apply counted_value; vm_compute; reflexivity.
  - pose (e := match PointcloudEncoder counted (Ok []) with Ok e => e | _ => e64 end).
    exists e, (skipn 0 (snd (fst (encode_vec sse_ops store_libs 32 32 e (counted_cloud 40) [])))).
    destruct (new_produces sse_ops store_libs 32 32 counted [] e (counted_cloud 40)) as [H1 H2]; [vm_compute; reflexivity|vm_compute; reflexivity|].
    split; [exact H1|]. split; [exact H2|]. split; vm_compute; reflexivity.
Qed.
Example C86_shape_case : let cloud := counted_cloud 30 in
  encode_side 32 counted cloud /\ zlen cloud = Z.of_nat 30 * i_step counted /\
  (forall f, In f (int_fields counted) -> affordable counted f cloud 30 (if f_off f =? 0 then 31 else 5)) /\
  exists e body, encoder_of sse_ops store_libs 32 32 counted (Ok []) e /\ produces sse_ops store_libs 32 32 e cloud [] body /\
    zlen body = 49 /\ 4 + fold_right (fun f s => (if f_off f =? 0 then 31 else 5) + s) 0 (int_fields counted) + Z.of_nat 30 * other_bytes counted = 70.
Proof.
  cbv zeta. split; [apply counted_side; [lia|lia|apply bytesb; vm_compute; reflexivity]|]. split; [vm_compute; reflexivity|].
  split.
  - intros f [<- | [<- | []]].
    + exists (map (fun j => 1000 + 3 * Z.of_nat j) (seq 0 30)). split; [vm_compute; reflexivity|]. right. right. left. vm_compute. discriminate.
    + exists (repeat (-7) 30). split; [vm_compute; reflexivity|]. left. vm_compute. discriminate.
  - pose (e := match PointcloudEncoder counted (Ok []) with Ok e => e | _ => e64 end).
    exists e, (skipn 0 (snd (fst (encode_vec sse_ops store_libs 32 32 e (counted_cloud 30) [])))).
    destruct (new_produces sse_ops store_libs 32 32 counted [] e (counted_cloud 30)) as [H1 H2]; [vm_compute; reflexivity|vm_compute; reflexivity|].
    split; [exact H1|]. split; [exact H2|]. split; vm_compute; reflexivity.
Qed.
