(** Chunks that do not fit the encoder's own scratch buffer, for PropsWide.v. *)
From Verif Require Import Base BaseFacts Varint VarintFacts Types Floats Fields Codec V5 Api Spec LibSpec SeqSpec.
From Verif Require Import GorillaFacts FieldFacts WriteFacts CodecFacts BuildFacts RunFacts SectionFacts PaletteFacts V5Facts ChunkV5Facts Stage1Facts ApiFacts CloudFacts RoundTrip CloudRT LocalFacts SeqFacts ColumnFacts CloudApi SizeFacts Cases PropsField PropsColumn PropsStage1 PropsCloud PropsFit PropsSize.

(** ** The result of a chunk does not depend on the room it has *)
Lemma emit_cap items : forall cap o c, emit items cap = Ok (o, c) -> c = cap - zlen o /\ (0 <= cap -> 0 <= c) /\ forall cap', zlen o <= cap' -> emit items cap' = Ok (o, cap' - zlen o).
Proof.
  induction items as [|[ck bs] items IH]; intros cap o c H; cbn [emit] in *.
  - apply ok_pair in H. destruct H as [<- <-]. change (zlen (@nil Z)) with 0. split; [lia|]. split; [lia|]. intros. now rewrite Z.sub_0_r.
  - destruct (cap <? zlen bs) eqn:E; [destruct ck; discriminate H|]. apply bind_ok in H. destruct H as ((o1 & c1) & H1 & H2). apply ok_pair in H2. destruct H2 as [<- <-].
    destruct (IH _ _ _ H1) as (A & B & C). pose proof (zlen_nonneg o1). pose proof (zlen_nonneg bs). rewrite zlen_app. split; [lia|]. split; [lia|].
    intros cap' Hc. replace (cap' <? zlen bs) with false by lia. rewrite C by lia. cbn [bind]. do 2 f_equal. lia.
Qed.
Lemma section_cap a s cap s1 o c : append_section a s cap = Ok (s1, o, c) -> c = cap - zlen o /\ (0 <= cap -> 0 <= c) /\ forall cap', zlen o <= cap' -> append_section a s cap' = Ok (s1, o, cap' - zlen o).
Proof.
  unfold append_section. intros H.
  assert (HB : forall s0 m, (match m with
    | Palette => do '(t, pal, idx) <- buildPaletteIndexes (as_tab s0) (as_raws s0) ;
        do '(out, cap') <- emit (paletteSection pal idx (a_size a)) cap ;
        Ok (mkAS (as_values s0) (as_raws s0) t (Some m) (as_streaming s0) (as_stream s0), out, cap')
    | _ => do '(out, cap') <- emit (match m with DeltaVarint => deltaVarintSection (as_values s0) | DeltaRle => deltaRleSection (as_values s0) | _ => rleSection (as_raws s0) (a_size a) end) cap ;
        Ok (s0, out, cap') end) = Ok (s1, o, c) -> c = cap - zlen o /\ (0 <= cap -> 0 <= c) /\ forall cap', zlen o <= cap' ->
    (match m with
    | Palette => do '(t, pal, idx) <- buildPaletteIndexes (as_tab s0) (as_raws s0) ;
        do '(out, cap') <- emit (paletteSection pal idx (a_size a)) cap' ;
        Ok (mkAS (as_values s0) (as_raws s0) t (Some m) (as_streaming s0) (as_stream s0), out, cap')
    | _ => do '(out, cap') <- emit (match m with DeltaVarint => deltaVarintSection (as_values s0) | DeltaRle => deltaRleSection (as_values s0) | _ => rleSection (as_raws s0) (a_size a) end) cap' ;
        Ok (s0, out, cap') end) = Ok (s1, o, cap' - zlen o)).
  { clear H. intros s0 m H.
    assert (HG : forall (S : Type) items (k : S) x, (do '(out, cap') <- emit items cap ; Ok (k, out, cap')) = Ok (x, o, c) ->
      k = x /\ c = cap - zlen o /\ (0 <= cap -> 0 <= c) /\ forall cap', zlen o <= cap' -> (do '(out, cap') <- emit items cap' ; Ok (k, out, cap')) = Ok (x, o, cap' - zlen o)).
    { clear. intros S items k x H. apply bind_ok in H. destruct H as ((o1 & c1) & H1 & H2). assert (E : k = x /\ o1 = o /\ c1 = c) by (repeat split; congruence). destruct E as (-> & -> & ->). clear H2.
      destruct (emit_cap _ _ _ _ H1) as (A & B & C). split; [reflexivity|]. split; [exact A|]. split; [exact B|]. intros cap' Hc. rewrite C by exact Hc. reflexivity. }
    destruct m; try (apply HG in H; tauto).
    apply bind_ok in H. destruct H as (((t & pal) & idx) & H1 & H2). rewrite H1. cbn [bind]. apply HG in H2. tauto. }
  destruct (as_mode s) as [m|] eqn:Em.
  - specialize (HB s m). destruct (as_streaming s); [clear HB|apply HB; exact H]. cbv zeta in *. apply bind_ok in H. destruct H as ((o1 & c1) & H1 & H2).
    assert (E : s = s1 /\ o1 = o /\ c1 = c) by (repeat split; congruence). destruct E as (-> & -> & ->). destruct (emit_cap _ _ _ _ H1) as (A & B & C).
    split; [exact A|]. split; [exact B|]. intros cap' Hc. rewrite C by exact Hc. reflexivity.
  - apply bind_ok in H. destruct H as ((m & s0) & H1 & H2). rewrite H1. cbn [bind]. apply HB. exact H2.
Qed.
Lemma sections_cap afs : forall ass cap ss o, 0 <= cap -> append_sections afs ass cap = Ok (ss, o) -> zlen o <= cap /\ forall cap', zlen o <= cap' -> append_sections afs ass cap' = Ok (ss, o).
Proof.
  induction afs as [|a afs IH]; intros ass cap ss o H0 H; destruct ass as [|s ass]; cbn [append_sections] in *; try discriminate H.
  - apply ok_pair in H. destruct H as [<- <-]. change (zlen (@nil Z)) with 0. split; [lia|reflexivity].
  - apply bind_ok in H. destruct H as (((s1 & o1) & c1) & H1 & H). apply bind_ok in H. destruct H as ((ss1 & o2) & H2 & H3). apply ok_pair in H3. destruct H3 as [<- <-].
    destruct (section_cap _ _ _ _ _ _ H1) as (A & B & C). destruct (IH _ _ _ _ (B H0) H2) as (D & E). rewrite zlen_app. pose proof (zlen_nonneg o1). pose proof (zlen_nonneg o2). split; [lia|].
    intros cap' Hc. rewrite C by lia. cbn [bind]. rewrite E by lia. reflexivity.
Qed.
Lemma chunk_cap ops es afs step probe cap n ass view a bs : enc_chunk_v5 ops es afs step probe cap n ass view = Ok (a, bs) -> zlen bs <= cap /\ forall cap', zlen bs <= cap' -> enc_chunk_v5 ops es afs step probe cap' n ass view = Ok (a, bs).
Proof.
  unfold enc_chunk_v5. intros H. apply bind_ok in H. destruct H as ((a2 & regular) & H1 & H). rewrite H1. cbn [bind].
  destruct (cap <? zlen regular) eqn:E; [discriminate H|]. apply bind_ok in H. destruct H as ((a5 & o) & H2 & H3). apply ok_pair in H3. destruct H3 as [<- <-].
  assert (HC0 : 0 <= cap - zlen regular) by lia. destruct (sections_cap _ _ _ _ _ HC0 H2) as (A & B). rewrite zlen_app. pose proof (zlen_nonneg o). split; [lia|].
  intros cap' Hc. replace (cap' <? zlen regular) with false by lia. rewrite B by lia. reflexivity.
Qed.

(** ** Streamed sections: too little room is an exception *)
Definition streams (s : astate) : Prop := as_mode s <> None /\ as_streaming s = true.
Lemma collect_streams a s view s' : collect a s view = Ok s' -> streams s -> streams s'.
Proof.
  unfold collect, streams. intros H [H1 H2]. apply bind_ok in H. destruct H as (bs & _ & H). cbv zeta in H. destruct (as_mode s) as [m|] eqn:E; [|congruence].
  destruct m; assert (E2 : exists x, s' = x /\ as_mode x <> None /\ as_streaming x = as_streaming s) by (eexists; split; [symmetry; match type of H with Ok ?q = _ => assert (q = s') by congruence; eassumption end|split; [discriminate|reflexivity]]);
    destruct E2 as (x & -> & E3 & E4); split; congruence.
Qed.
Lemma map2_streams view afs : forall ass ass', map2M (fun a s => collect a s view) afs ass = Ok ass' -> length ass' = length ass /\ length ass = length afs /\ (Forall streams ass -> Forall streams ass').
Proof.
  induction afs as [|a afs IH]; intros ass ass' H; destruct ass as [|s ass]; cbn [map2M] in H; try discriminate H.
  - assert (ass' = []) by congruence. subst. auto.
  - apply bind_ok in H. destruct H as (s1 & H1 & H). apply bind_ok in H. destruct H as (ss & H2 & H3). assert (ass' = s1 :: ss) by congruence. subst.
    destruct (IH _ _ H2) as (A & B & C). cbn [length]. split; [lia|]. split; [lia|]. intros HF. inversion HF; subst. constructor; [eapply collect_streams; eauto|auto].
Qed.
Lemma range_streams ops afs step n : forall sts ass view sts' ass' o v', enc_range ops [] afs step n sts ass view = Ok (sts', ass', o, v') ->
  o = [] /\ length ass' = length ass /\ (Forall streams ass -> Forall streams ass').
Proof.
  induction n as [|n IH]; intros sts ass view sts' ass' o v' H; cbn [enc_range] in H.
  - assert (E : ass' = ass /\ o = []) by (split; congruence). destruct E as [-> ->]. auto.
  - apply bind_ok in H. destruct H as ((s1 & o1) & H1 & H). apply bind_ok in H. destruct H as (a1 & H2 & H). apply bind_ok in H. destruct H as ((((s2 & a2) & o2) & v2) & H3 & H).
    assert (E : ass' = a2 /\ o = o1 ++ o2) by (split; congruence). destruct E as [-> ->]. clear H. destruct (IH _ _ _ _ _ _ _ H3) as (-> & B & C). destruct (map2_streams _ _ _ _ H2) as (D & _ & F).
    assert (o1 = []) by (cbn [enc_point] in H1; destruct sts; [congruence|discriminate H1]). subst. split; [reflexivity|]. split; [congruence|auto].
Qed.
Lemma sections_streams afs : forall ass cap, Forall streams ass -> length ass = length afs -> append_sections afs ass cap <> UB.
Proof.
  induction afs as [|a afs IH]; intros ass cap HF Hl; destruct ass as [|s ass]; cbn in Hl; try lia; cbn [append_sections]; [discriminate|].
  inversion HF as [|? ? [H1 H2] H3]; subst. unfold append_section. destruct (as_mode s) as [m|]; [|congruence]. rewrite H2. cbv zeta. cbn [emit chk].
  destruct (cap <? zlen (finish_section m (a_size a) (as_stream s))); [discriminate|]. cbn [bind].
  match goal with |- context [append_sections afs ass ?c] => specialize (IH ass c H3 ltac:(lia)); destruct (append_sections afs ass c) as [[? ?]| |] end; cbn [bind]; congruence.
Qed.
Lemma chunk_throws ops afs step probe cap cap' n ass view a bs : Forall (fun s => as_mode s = Some DeltaRle) ass -> length ass = length afs ->
  enc_chunk_v5 ops [] afs step probe cap' n ass view = Ok (a, bs) -> 0 <= cap < zlen bs -> enc_chunk_v5 ops [] afs step probe cap n ass view = Throw.
Proof.
  intros HM Hl H Hc. destruct (enc_chunk_v5 ops [] afs step probe cap n ass view) as [[a2 bs2]| |] eqn:E; [exfalso|reflexivity|exfalso].
  - destruct (chunk_cap _ _ _ _ _ _ _ _ _ _ _ E) as (A & B). destruct (chunk_cap _ _ _ _ _ _ _ _ _ _ _ H) as (C & D).
    pose proof (B (Z.max cap' cap) ltac:(lia)) as B1. destruct (Z.le_gt_cases (zlen bs2) cap'); [|pose proof (zlen_nonneg bs2); rewrite (D (Z.max cap' cap) ltac:(lia)) in B1; assert (bs = bs2) by congruence; subst; lia].
    rewrite (D (Z.max cap' cap) ltac:(lia)) in B1. assert (bs = bs2) by congruence. subst. lia.
  - revert H E. unfold enc_chunk_v5.
    assert (HU : existsb uncommitted (map prepare_chunk ass) = false).
    { clear - HM. induction HM as [|s ass E HM IH]; [reflexivity|]. cbn [map existsb]. rewrite IH, Bool.orb_false_r. unfold prepare_chunk. rewrite E. reflexivity. }
    rewrite HU. cbn [andb]. assert (HS : Forall streams (map prepare_chunk ass)).
    { apply Forall_map. eapply Forall_impl; [|exact HM]. intros s E. cbv beta in E. unfold prepare_chunk, streams. rewrite E. cbn. split; [discriminate|reflexivity]. }
    intros H. apply bind_ok in H. destruct H as ((a2 & r) & H1 & H). rewrite H1. cbn [bind]. apply bind_ok in H1. destruct H1 as ((((s2 & a3) & o2) & v2) & H3 & H4).
    apply ok_pair in H4. destruct H4 as [-> ->]. destruct (range_streams _ _ _ _ _ _ _ _ _ _ _ H3) as (-> & L1 & F). rewrite map_length in L1.
    change (zlen (@nil Z)) with 0. replace (cap <? 0) with false by lia.
    pose proof (sections_streams afs a2 (cap - 0) (F HS) ltac:(lia)) as HN. destruct (append_sections afs a2 (cap - 0)) as [[? ?]| |]; cbn [bind]; [discriminate|discriminate|congruence].
Qed.

(** ** A cloud of equal INT64 columns *)
Lemma same_vals a bss : a_type a = INT64 -> vals a bss = vals a64 bss.
Proof. intros H. unfold vals. rewrite H. reflexivity. Qed.
Lemma same_best a bss m : a_type a = INT64 -> best_mode a bss m -> best_mode a64 bss m.
Proof. intros H. unfold best_mode, a_size. rewrite (same_vals a bss H), H. exact (fun x => x). Qed.
Lemma drle_len vs sec a : a_type a = INT64 -> vs <> [] -> zlen vs < 4294967296 -> Forall (fun v => 0 <= v < 9223372036854775808) vs ->
  section_of a (map (le_bytes 8) vs) DeltaRle sec -> zlen sec = encodedDeltaRleSectionSize vs.
Proof.
  intros Ha Hn Hl HV HS.
  assert (Hl2 : 0 < zlen (map (le_bytes 8) vs) < 4294967296) by (unfold zlen in *; rewrite map_length; destruct vs; [congruence|cbn [length] in *; lia]).
  rewrite (section_len a _ DeltaRle sec Hl2 HS), (same_vals _ _ Ha). f_equal.
  unfold vals. rewrite map_map. rewrite <- (map_id vs) at 2. apply map_ext_in. intros v Hv.
  pose proof (proj1 (Forall_forall _ _) HV v Hv) as HvR. cbv beta in HvR.
  unfold to_int64. cbn [a64 a_type int_signed andb]. rewrite zlen_le, le_val_le_bytes. change (256 ^ Z.of_nat 8) with 18446744073709551616. rewrite Z.mod_small by lia.
  replace (18446744073709551616 / 2 <=? v) with false by (symmetry; apply Z.leb_gt; change (18446744073709551616 / 2) with 9223372036854775808; lia). apply s64_id. lia.
Qed.
Lemma sections_len vs afs : vs <> [] -> zlen vs < 4294967296 -> Forall (fun v => 0 <= v < 9223372036854775808) vs -> Forall (fun a => a_type a = INT64) afs ->
  forall ms secs (col : afield -> list (list Z)), Forall (fun m => m = DeltaRle) ms -> length ms = length afs -> length secs = length afs ->
  Forall (fun a => col a = map (le_bytes 8) vs) afs ->
  Forall2 (fun a mb => section_of a (col a) (fst mb) (snd mb)) afs (combine ms secs) -> zlen (concat secs) = zlen afs * encodedDeltaRleSectionSize vs.
Proof.
  intros Hn Hl HV HA. induction HA as [|a afs Ha HA IH]; intros ms secs col HM L1 L2 HC HF; destruct ms as [|m ms], secs as [|s secs]; try discriminate.
  - reflexivity.
  - cbn [combine] in HF. inversion HF as [|? ? ? ? F1 F2]; subst. inversion HM as [|? ? M1 M2]; subst. inversion HC as [|? ? C1 C2]; subst. cbn [fst snd] in F1. rewrite C1 in F1.
    cbn [concat]. rewrite zlen_app, (drle_len vs s a Ha Hn Hl HV F1), (IH ms secs col M2 ltac:(cbn in L1; lia) ltac:(cbn in L2; lia) C2 F2). unfold zlen. cbn [length]. rewrite Nat2Z.inj_succ. lia.
Qed.
Section Wide.
  Variables (ops : float_ops) (L : libs) (i : info) (afs : list afield) (step ppc probe n : nat) (cap mp : Z) (cloud vs : list Z) (s1 s2 : Z).
  Hypotheses (HU : UsesV5Codec i = true) (HP : BuildV5Plan i = Ok ([], afs)) (HM : MaxSerializedPointSize i = Ok mp) (HL : layout_ok i) (Hst : i_step i = Z.of_nat step)
    (Hc : bytes cloud) (Hlen : length cloud = (n * step)%nat) (Hp : (0 < ppc)%nat) (Hp2 : Z.of_nat ppc <= 65535) (Hn : (n = ppc + ppc)%nat)
    (HT : Forall (fun a => a_type a = INT64) afs) (HV : Forall (fun v => 0 <= v < 9223372036854775808) vs) (Hvl : length vs = n)
    (HCol : forall c, (c < 2)%nat -> Forall (fun a => column a step ppc (skipn (c * ppc * step) cloud) = map (le_bytes 8) (firstn ppc (skipn (c * ppc) vs))) afs)
    (Hmode : forall mo, best_mode a64 (firstn probe (map (le_bytes 8) (firstn ppc vs))) mo -> mo = DeltaRle)
    (Hs1 : encodedDeltaRleSectionSize (firstn ppc vs) = s1) (Hs2 : encodedDeltaRleSectionSize (firstn ppc (skipn ppc vs)) = s2)
    (Hc1 : zlen afs * s1 <= cap < zlen afs * s2) (Hc0 : 0 <= cap).

  Lemma wide_loop fuel opt w : libs_ok L -> w_ok w -> (1 < fuel)%nat -> fst (v5_loop ops L opt [] afs step ppc probe cap fuel n (map (fun _ => astate0) afs) cloud w) = Throw.
  Proof.
    intros HLi Hw Hf. destruct (plan_spec i [] afs mp HU HP HM) as (HB & HA & Hsum).
    assert (HAn : afs <> []) by (rewrite HA; pose proof (v5_nonempty i HU); destruct (adaptive_fields i); [congruence|discriminate]).
    pose (big := Z.of_nat ppc * Z.of_nat (sum_nat (map enc_max (@nil fenc))) + (zlen afs * (5 + 10 * Z.of_nat ppc) + wides afs * Z.of_nat ppc)).
    set (ass := map (fun _ : afield => astate0) afs).
    assert (HF : Forall2 (fun (_ : afield) s => tab_wf (as_tab s) /\ status true s) afs ass).
    { unfold ass. clear. induction afs as [|a l IH]; cbn; constructor; auto. split; [apply tab_wf_init|reflexivity]. }
    destruct (v5_one_chunk ops i [] afs step ppc probe big cloud n HB HA HAn HL Hst Hc Hlen Hp Hp2 (Z.le_refl _) 0 ppc ass true ltac:(lia) ltac:(lia) HF) as (ass' & ms & secs & o & E1 & E2 & E3 & (E4 & E4a & E4b) & E5 & E6 & E7 & E8).
    cbn [Nat.mul skipn] in E1, E2, E4.
    assert (HN : Forall (fun m : option amode => m = None) (map as_mode ass)).
    { unfold ass. rewrite map_map. apply Forall_map, Forall_forall. reflexivity. }
    assert (Hal : length ass = length afs) by (unfold ass; apply map_length).
    destruct (mode_rule_none probe (fun a => column a step ppc cloud) afs (map as_mode ass) ms secs HN) as (HBM & HFS); auto.
    { rewrite map_length. exact Hal. }
    pose proof (HCol 0%nat ltac:(lia)) as HC0. cbn [Nat.mul skipn] in HC0.
    assert (HMS : Forall (fun m => m = DeltaRle) ms).
    { clear - HBM HC0 HT Hmode. revert HC0 HT. induction HBM as [|a m l ms H1 H2 IH]; intros HC0 HT; [constructor|]. inversion HC0 as [|? ? C1 C2]; subst. inversion HT as [|? ? T1 T2]; subst.
      constructor; [|auto]. rewrite C1 in H1. apply Hmode, (same_best a _ _ T1 H1). }
    assert (Hv1 : firstn ppc vs <> []) by (intros H; apply (f_equal (@length Z)) in H; rewrite firstn_length in H; cbn in H; lia).
    assert (Hv2 : firstn ppc (skipn ppc vs) <> []) by (intros H; apply (f_equal (@length Z)) in H; rewrite firstn_length, skipn_length in H; cbn in H; lia).
    assert (HVs : forall a b, Forall (fun v => 0 <= v < 9223372036854775808) (firstn a (skipn b vs))).
    { intros a b. apply Forall_forall. intros v Hv. apply (proj1 (Forall_forall _ _) HV). rewrite <- (firstn_skipn b vs). apply in_or_app; right. rewrite <- (firstn_skipn a). apply in_or_app; left. exact Hv. }
    assert (Hlz : forall a l, zlen (firstn a (l : list Z)) <= Z.of_nat a) by (intros a l; unfold zlen; rewrite firstn_length; lia).
    assert (Ho : o = []).
    { clear - E2. revert E2. generalize (skipn ((0 + ppc) * step) cloud). generalize cloud. intros l lq. generalize (resets (@nil fenc)). intros sts. revert l o sts. induction ppc as [|k IH]; intros l o sts H; cbn [enc_points_v4] in H.
      - apply ok_pair in H. now destruct H.
      - destruct l as [|b l0]; [apply ok_pair in H; now destruct H|]. cbn [enc_point] in H. destruct sts as [|st sts]; cbn [bind] in H; [|discriminate H].
        destruct (trim_front step (b :: l0)) as [l1| |]; cbn [bind] in H; try discriminate H. apply bind_ok in H. destruct H as ((r & o2) & H1 & H2). apply ok_pair in H2. destruct H2 as [-> <-]. cbn. exact (IH _ _ _ H1). }
    subst o. cbn [app] in *.
    pose proof (sections_len _ afs Hv1 ltac:(specialize (Hlz ppc vs); lia) (HVs ppc 0%nat) HT ms secs (fun a => column a step ppc cloud) HMS E4a E4b HC0 HFS) as Z1. rewrite Hs1 in Z1.
    destruct (chunk_cap _ _ _ _ _ _ _ _ _ _ _ E1) as (_ & K1). specialize (K1 cap ltac:(lia)).
    assert (Hm' : Forall (fun s => as_mode s = Some DeltaRle) ass').
    { clear - E8 HMS. revert ass' E8. induction HMS as [|m ms -> HMS IH]; intros [|s ass'] E; try discriminate E; [constructor|]. cbn [map] in E. constructor; [congruence|apply IH; congruence]. }
    assert (Hl' : length ass' = length afs) by (apply (f_equal (@length _)) in E8; rewrite !map_length in E8; lia).
    destruct (v5_one_chunk ops i [] afs step ppc probe big cloud n HB HA HAn HL Hst Hc Hlen Hp Hp2 (Z.le_refl _) 1 ppc ass' false ltac:(lia) ltac:(lia) E7) as (ass2 & ms2 & secs2 & o2 & G1 & G2 & G3 & (G4 & G4a & G4b) & G5 & G6 & G7 & G8).
    rewrite E8 in G4. destruct (mode_rule_some probe (fun a => column a step ppc (skipn (1 * ppc * step) cloud)) afs ms ms2 secs2 E4a G4a G4b G4) as (-> & HFS2).
    pose proof (HCol 1%nat ltac:(lia)) as HC2. replace (1 * ppc)%nat with ppc in HC2 by lia. replace (1 * ppc)%nat with ppc in HFS2, G1 by lia.
    pose proof (sections_len _ afs Hv2 ltac:(specialize (Hlz ppc (skipn ppc vs)); lia) (HVs ppc ppc) HT ms secs2 (fun a => column a step ppc (skipn (ppc * step) cloud)) HMS E4a G4b HC2 HFS2) as Z2. rewrite Hs2 in Z2.
    assert (K2 : enc_chunk_v5 ops [] afs step probe cap ppc ass' (skipn (ppc * step) cloud) = Throw).
    { apply (chunk_throws ops afs step probe cap big ppc ass' _ ass2 (o2 ++ concat secs2) Hm' Hl' G1). rewrite zlen_app. pose proof (zlen_nonneg o2). lia. }
    assert (HM0 : forall A (a b : A) (k : nat), (0 < k)%nat -> match k with O => a | S _ => b end = b) by (intros A a b [|k] H; [lia|reflexivity]).
    destruct fuel as [|[|fuel]]; [lia|lia|]. cbn [v5_loop]. rewrite HM0 by lia. rewrite Nat.min_r by lia. fold ass. rewrite K1.
    unfold abind at 1. destruct (WriteStage1Chunk L opt (concat secs) w) as [[c| |] w1] eqn:EW; [|reflexivity|].
    - unfold abind at 1. cbn [v5_loop]. replace (n - ppc)%nat with ppc by lia. rewrite HM0 by lia. rewrite Nat.min_id, K2. reflexivity.
    - destruct (write_chunk_spec L opt (concat secs) w _ _ HLi ltac:(assumption) Hw EW) as (_ & Hnu & _). congruence.
  Qed.
End Wide.
