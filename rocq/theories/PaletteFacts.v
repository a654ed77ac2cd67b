(** V5 palette construction: the open-addressing hash table always finds a slot, returned
    indexes are right, the palette has no duplicates. *)
From Verif Require Export SectionFacts.

(** ** Width of an index *)
Lemma bits_loop_spec fuel : forall bits m, 0 <= m < 2 ^ Z.of_nat fuel ->
  exists b, bits_loop fuel bits m = bits + b /\ 0 <= b /\ m < 2 ^ b /\ (forall c, 0 <= c -> m < 2 ^ c -> b <= c).
Proof.
  induction fuel as [|fuel IH]; intros bits m Hm; cbn [bits_loop].
  - change (2 ^ Z.of_nat 0) with 1 in Hm. exists 0. change (2 ^ 0) with 1. repeat split; lia.
  - destruct (0 <? m) eqn:E.
    + rewrite shiftr_div by lia. change (2 ^ 1) with 2.
      rewrite Nat2Z.inj_succ, Z.pow_succ_r in Hm by lia.
      destruct (IH (bits + 1) (m / 2) ltac:(lia)) as (b & -> & H0 & H1 & H2).
      exists (b + 1). rewrite Z.pow_add_r by lia. change (2 ^ 1) with 2. repeat split; try lia.
      intros c Hc Hmc. assert (0 < c). { destruct (Z.eq_dec c 0) as [->|]; [change (2^0) with 1 in Hmc; lia|lia]. }
      specialize (H2 (c - 1) ltac:(lia)). assert (2 ^ c = 2 * 2 ^ (c - 1)) by (rewrite <- Z.pow_succ_r by lia; f_equal; lia).
      specialize (H2 ltac:(lia)). lia.
    + exists 0. change (2 ^ 0) with 1. repeat split; lia.
Qed.
Lemma bitsForPaletteIndex_spec n : 1 <= n < 2 ^ 64 ->
  0 <= bitsForPaletteIndex n /\ n <= 2 ^ bitsForPaletteIndex n /\
  (forall c, 0 <= c -> n <= 2 ^ c -> bitsForPaletteIndex n <= c).
Proof.
  intros Hn. unfold bitsForPaletteIndex. destruct (n <=? 1) eqn:E.
  - change (2 ^ 0) with 1. repeat split; lia.
  - destruct (bits_loop_spec 64 0 (n - 1)) as (b & -> & H0 & H1 & H2). { change (2 ^ Z.of_nat 64) with (2 ^ 64). lia. }
    cbn [Z.add]. rewrite Z.add_0_l. split; [lia|]. split; [lia|]. intros c Hc H. apply H2; lia.
Qed.

Definition pow2 (m : Z) : Prop := exists k, 0 <= k /\ m = 2 ^ k.
Lemma pow2_loop_spec fuel : forall out v k, out = 2 ^ k -> 0 <= k -> k + Z.of_nat fuel <= 64 -> v <= 2 ^ (k + Z.of_nat fuel - 1) -> (0 < fuel)%nat ->
  pow2 (pow2_loop fuel out v) /\ v <= pow2_loop fuel out v.
Proof.
  induction fuel as [|fuel IH]; intros out v k -> Hk Hf Hv H0; [lia|]. cbn [pow2_loop].
  destruct (2 ^ k <? v) eqn:E.
  - destruct fuel as [|fuel].
    { replace (k + Z.of_nat 1 - 1) with k in Hv by lia. lia. }
    assert (Hk2 : 2 ^ (k + 1) = 2 ^ k * 2) by (rewrite Z.pow_add_r by lia; reflexivity).
    assert (Hle : 2 ^ (k + 1) <= 2 ^ 63) by (apply Z.pow_le_mono_r; lia). change (2 ^ 63) with 9223372036854775808 in Hle.
    pose proof (pow2_pos k Hk).
    apply (IH _ v (k + 1)); try lia.
    + rewrite shiftl_mul by lia. change (2 ^ 1) with 2. rewrite u64_id; lia.
    + replace (k + 1 + Z.of_nat (S fuel) - 1) with (k + Z.of_nat (S (S fuel)) - 1) by lia. exact Hv.
  - split; [exists k; auto|lia].
Qed.
Lemma nextPowerOfTwo_spec v : v <= 2 ^ 63 -> pow2 (nextPowerOfTwo v) /\ v <= nextPowerOfTwo v.
Proof. intros Hv. apply (pow2_loop_spec 64 1 v 0); auto; try lia. Qed.

(** ** Hash table *)
Definition tab_wf (t : ptab) : Prop :=
  length (t_gens t) = length (t_slots t) /\ (t_slots t = [] \/ pow2 (zlen (t_slots t))) /\
  1 <= t_gen t < 4294967296 /\ Forall (fun g => 0 <= g <= t_gen t) (t_gens t).
Lemma tab_wf_init : tab_wf ptab_init.
Proof. unfold tab_wf, ptab_init. cbn. repeat split; auto; lia. Qed.

Lemma Forall_repeat {A} (P : A -> Prop) x n : P x -> Forall P (repeat x n).
Proof. intros H. induction n; constructor; auto. Qed.
Lemma prepare_spec t count : tab_wf t -> 0 <= count <= 2 ^ 62 ->
  tab_wf (preparePaletteTable t count) /\ pow2 (zlen (t_slots (preparePaletteTable t count))) /\
  2 * count <= zlen (t_slots (preparePaletteTable t count)) /\ 16 <= zlen (t_slots (preparePaletteTable t count)) /\
  Forall (fun g => g <> t_gen (preparePaletteTable t count)) (t_gens (preparePaletteTable t count)).
Proof.
  intros (H1 & H2 & H3 & H4) Hc. unfold preparePaletteTable.
  destruct (nextPowerOfTwo_spec (Z.max 16 (count * 2))) as (P1 & P2).
  { change (2 ^ 63) with (2 * 2 ^ 62). lia. }
  set (m := nextPowerOfTwo (Z.max 16 (count * 2))) in *.
  destruct (zlen (t_slots t) <? m) eqn:E.
  - assert (Hz : zlen (repeat 0 (Z.to_nat m)) = m) by (unfold zlen; rewrite repeat_length; lia).
    unfold tab_wf. cbn [t_slots t_gens t_gen]. rewrite Hz. repeat split; auto; try lia; try (now right).
    + apply Forall_repeat. lia.
    + apply Forall_repeat. lia.
  - assert (HP : pow2 (zlen (t_slots t))). { destruct H2 as [H2|]; auto. rewrite H2 in E. change (zlen (@nil Z)) with 0 in E. lia. }
    destruct (Z.eqb_spec (u32 (t_gen t + 1)) 0) as [E0|E0]; unfold tab_wf; cbn [t_slots t_gens t_gen].
    + repeat split; auto; try lia; rewrite ?map_length; auto.
      * apply Forall_map, Forall_forall. intros; lia.
      * apply Forall_map, Forall_forall. intros; lia.
    + assert (u32 (t_gen t + 1) = t_gen t + 1) by (unfold u32 in *; lia).
      rewrite H. assert (t_gen t + 1 < 4294967296) by (unfold u32 in *; lia). repeat split; auto; try lia.
      * eapply Forall_impl; [|exact H4]. cbn. lia.
      * eapply Forall_impl; [|exact H4]. cbn. lia.
Qed.

Lemma set_nth_length n v l : length (set_nth n v l) = length l.
Proof. revert n; induction l; intros [|n]; cbn; auto. Qed.
Lemma set_nth_spec n v l i : (n < length l)%nat ->
  nth_error (set_nth n v l) i = if (i =? n)%nat then Some v else nth_error l i.
Proof.
  revert n i; induction l as [|x l IH]; intros n i Hn; cbn in Hn; [lia|].
  destruct n as [|n], i as [|i]; cbn; auto. apply IH. lia.
Qed.
Lemma set_nth_Forall (P : Z -> Prop) n v l : P v -> Forall P l -> Forall P (set_nth n v l).
Proof. intros Hv H. revert n; induction H; intros [|n]; cbn; constructor; auto. Qed.

(** [m] slots, [gen] marks occupied ones. *)
Definition occupied (t : ptab) (s : Z) : Prop := nth_error (t_gens t) (Z.to_nat s) = Some (t_gen t).
Definition slot_holds (t : ptab) (s i : Z) : Prop := occupied t s /\ nth_error (t_slots t) (Z.to_nat s) = Some (i + 1).
Definition home (t : ptab) (v : Z) : Z := hashPaletteValue v mod zlen (t_slots t).
Definition occ_count (t : ptab) : nat := length (filter (Z.eqb (t_gen t)) (t_gens t)).
Record pal_inv (t : ptab) (pal : list Z) : Prop := mkPI {
  pi_wf : tab_wf t;
  pi_pow : pow2 (zlen (t_slots t));
  pi_idx : forall s, 0 <= s < zlen (t_slots t) -> occupied t s -> exists i, slot_holds t s i /\ 0 <= i < zlen pal;
  pi_cnt : (occ_count t <= length pal)%nat;
  pi_path : forall i v, nth_error pal i = Some v -> exists d, 0 <= d < zlen (t_slots t) /\
     slot_holds t ((home t v + d) mod zlen (t_slots t)) (Z.of_nat i) /\
     (forall d', 0 <= d' <= d -> occupied t ((home t v + d') mod zlen (t_slots t)));
  pi_nodup : NoDup pal
}.

Lemma all_occupied t : length (t_gens t) = length (t_slots t) ->
  (forall s, 0 <= s < zlen (t_slots t) -> occupied t s) -> occ_count t = length (t_slots t).
Proof.
  intros Hl H. unfold occ_count. rewrite filter_all; auto. apply Forall_forall. intros g Hg.
  apply In_nth_error in Hg. destruct Hg as (n & Hn).
  assert (n < length (t_gens t))%nat by (apply nth_error_Some; congruence).
  specialize (H (Z.of_nat n) ltac:(unfold zlen; lia)). unfold occupied in H. rewrite Nat2Z.id, Hn in H.
  injection H as ->. apply Z.eqb_refl.
Qed.
Lemma filter_set_nth g n l : (length (filter (Z.eqb g) (set_nth n g l)) <= S (length (filter (Z.eqb g) l)))%nat.
Proof.
  revert n; induction l as [|x l IH]; intros [|n]; cbn; try lia.
  - rewrite Z.eqb_refl. cbn. destruct (g =? x); cbn; lia.
  - specialize (IH n). destruct (g =? x); cbn; lia.
Qed.
Lemma land_mod m x : pow2 m -> Z.land x (m - 1) = x mod m.
Proof. intros (k & Hk & ->). replace (2 ^ k - 1) with (Z.ones k) by (rewrite Z.ones_equiv; lia). apply Z.land_ones. lia. Qed.

Lemma probe_spec t pal value : pal_inv t pal -> (zlen pal < zlen (t_slots t)) -> zlen pal < 2147483648 ->
  forall fuel d, 0 <= d -> Z.of_nat fuel + d = zlen (t_slots t) ->
  (forall d', 0 <= d' < d -> exists i v, slot_holds t ((home t value + d') mod zlen (t_slots t)) i /\
       0 <= i /\ nth_error pal (Z.to_nat i) = Some v /\ v <> value) ->
  exists t' pal' i, probe fuel t pal value ((home t value + d) mod zlen (t_slots t)) = Ok (t', pal', i) /\
    pal_inv t' pal' /\ zlen (t_slots t') = zlen (t_slots t) /\ 0 <= i < zlen pal' /\ nth_error pal' (Z.to_nat i) = Some value /\
    (pal' = pal \/ (pal' = pal ++ [value] /\ ~ In value pal)).
Proof.
  intros HI Hlt Hsm. destruct HI as [HW HP HX HC HPA HN]. set (m := zlen (t_slots t)) in *.
  destruct HW as (HW1 & HW2 & HW3 & HW4).
  assert (Hm0 : 0 < m) by (pose proof (zlen_nonneg pal); lia).
  induction fuel as [|fuel IH]; intros d Hd Hf Hprev.
  - (* all slots occupied: impossible *)
    exfalso. assert (E : occ_count t = length (t_slots t)).
    { apply all_occupied; auto. intros s Hs. fold m in Hs.
      destruct (Hprev ((s - home t value) mod m)) as (i & v & [Ho _] & _).
      { pose proof (Z.mod_pos_bound (s - home t value) m Hm0). lia. }
      rewrite Zplus_mod_idemp_r in Ho. replace (home t value + (s - home t value)) with s in Ho by lia.
      rewrite Z.mod_small in Ho by lia. exact Ho. }
    unfold m, zlen in *. lia.
  - set (slot := (home t value + d) mod m). assert (Hs : 0 <= slot < m) by (apply Z.mod_pos_bound; lia).
    cbn [probe].
    destruct (nth_error (t_gens t) (Z.to_nat slot)) as [g|] eqn:Eg.
    2:{ apply nth_error_None in Eg. unfold m, zlen in *. lia. }
    destruct (nth_error (t_slots t) (Z.to_nat slot)) as [sv|] eqn:Es.
    2:{ apply nth_error_None in Es. unfold m, zlen in *. lia. }
    destruct (Z.eqb_spec g (t_gen t)) as [->|Hg]; cbn [negb].
    + (* occupied *)
      destruct (HX slot Hs Eg) as (i & [Ho Hi] & Hi2). rewrite Es in Hi. injection Hi as ->.
      replace (u32 (i + 1 - 1)) with i by (unfold u32; lia).
      destruct (nth_error pal (Z.to_nat i)) as [v|] eqn:Ev.
      2:{ apply nth_error_None in Ev. unfold zlen in Hi2. lia. }
      destruct (Z.eqb_spec v value) as [->|Hv].
      * exists t, pal, i. repeat split; auto; try lia.
      * replace (Z.land (slot + 1) (zlen (t_slots t) - 1)) with ((home t value + (d + 1)) mod m).
        2:{ fold m. rewrite land_mod by exact HP. unfold slot. rewrite Zplus_mod_idemp_l. f_equal. lia. }
        apply IH; try lia. intros d' Hd'. destruct (Z.eq_dec d' d) as [->|].
        -- exists i, v. repeat split; auto; lia.
        -- apply Hprev. lia.
    + (* free slot *)
      assert (Hfresh : ~ In value pal).
      { intros Hin. apply In_nth_error in Hin. destruct Hin as (n & Hn).
        destruct (HPA n value Hn) as (e & He & [Ho1 Ho2] & Hpath).
        destruct (Z_lt_le_dec e d) as [Hed|Hed].
        - destruct (Hprev e ltac:(lia)) as (i & v & [_ Hi] & Hi0 & Hv & Hne). rewrite Hi in Ho2. injection Ho2 as Ho2.
          assert (i = Z.of_nat n) by lia. subst i. rewrite Nat2Z.id, Hn in Hv. congruence.
        - specialize (Hpath d ltac:(lia)). unfold occupied in Hpath. fold slot in Hpath. rewrite Eg in Hpath. congruence. }
      assert (Hz : u32 (zlen pal) = zlen pal) by (apply u32_id; pose proof (zlen_nonneg pal); lia).
      rewrite Hz. assert (Hz1 : u32 (zlen pal + 1) = zlen pal + 1) by (apply u32_id; pose proof (zlen_nonneg pal); lia). rewrite Hz1.
      set (t' := mkT _ _ _).
      assert (Hm' : zlen (t_slots t') = m) by (unfold t', m, zlen; cbn [t_slots]; now rewrite set_nth_length).
      assert (Hhome : forall v, home t' v = home t v) by (intros; unfold home; now rewrite Hm').
      assert (Hocc : forall s, 0 <= s -> (occupied t' s <-> s = slot \/ occupied t s)).
      { intros s Hs0. unfold occupied, t'. cbn [t_gens t_gen]. rewrite set_nth_spec by (unfold m, zlen in *; lia).
        destruct (Nat.eqb_spec (Z.to_nat s) (Z.to_nat slot)); split; auto; try (left; lia); intros [->|]; auto; try lia. }
      assert (Hsl : forall s i, 0 <= s -> s <> slot -> slot_holds t s i -> slot_holds t' s i).
      { intros s i Hs0 Hne [A B]. split; [apply Hocc; auto|]. unfold t'. cbn [t_slots]. rewrite set_nth_spec by (unfold m, zlen in *; lia).
        destruct (Nat.eqb_spec (Z.to_nat s) (Z.to_nat slot)); [lia|exact B]. }
      assert (Hslot : slot_holds t' slot (zlen pal)).
      { split; [apply Hocc; auto; lia|]. unfold t'. cbn [t_slots]. rewrite set_nth_spec, Nat.eqb_refl by (unfold m, zlen in *; lia). reflexivity. }
      exists t', (pal ++ [value]), (zlen pal). split; [reflexivity|].
      assert (Hzl : zlen (pal ++ [value]) = zlen pal + 1) by (rewrite zlen_app; reflexivity).
      repeat split; auto; try (pose proof (zlen_nonneg pal); lia).
      * unfold t'. cbn [t_gens t_slots]. now rewrite !set_nth_length.
      * right. rewrite Hm'. exact HP.
      * unfold t'; cbn [t_gen]. lia.
      * unfold t'; cbn [t_gen]. lia.
      * unfold t'; cbn [t_gen t_gens]. apply set_nth_Forall; auto. lia.
      * rewrite Hm'. exact HP.
      * intros s Hs1 Ho. rewrite Hm' in Hs1. rewrite Hzl. destruct (Z.eq_dec s slot) as [->|Hne].
        -- exists (zlen pal). split; auto. pose proof (zlen_nonneg pal); lia.
        -- apply Hocc in Ho; [|lia]. destruct Ho as [|Ho]; [lia|]. destruct (HX s Hs1 Ho) as (i & A & B). exists i. split; [apply Hsl; auto; lia|lia].
      * unfold occ_count, t'. cbn [t_gen t_gens]. pose proof (filter_set_nth (t_gen t) (Z.to_nat slot) (t_gens t)).
        unfold occ_count in HC. rewrite app_length. cbn [length]. lia.
      * intros n v Hn. rewrite Hm', Hhome.
        destruct (Nat.eq_dec n (length pal)) as [->|Hnp].
        -- rewrite nth_error_app2, Nat.sub_diag in Hn by lia. cbn in Hn. injection Hn as <-.
           exists d. split; [lia|]. split; [exact Hslot|].
           intros d' Hd'. destruct (Z.eq_dec d' d) as [->|].
           ++ apply Hocc; auto. apply Z.mod_pos_bound; lia.
           ++ apply Hocc; [apply Z.mod_pos_bound; lia|]. right. destruct (Hprev d' ltac:(lia)) as (i & w & [A _] & _). exact A.
        -- assert (n < length pal)%nat. { assert (n < length (pal ++ [value]))%nat by (apply nth_error_Some; congruence). rewrite app_length in H. cbn in H. lia. }
           rewrite nth_error_app1 in Hn by lia. destruct (HPA n v Hn) as (e & He & A & B). exists e. split; [lia|]. split.
           ++ apply Hsl; auto.
              ** apply Z.mod_pos_bound; lia.
              ** intros Heq. destruct A as [A _]. rewrite Heq in A. unfold occupied in A. congruence.
           ++ intros d' Hd'. apply Hocc; [apply Z.mod_pos_bound; lia|]. right. auto.
      * clear - HN Hfresh. induction pal as [|x pal IHp]; cbn; [constructor; auto; constructor|].
        inversion HN; subst. constructor.
        -- rewrite in_app_iff. intros [|[->|[]]]; [auto|]. apply Hfresh. left; auto.
        -- apply IHp; auto. intros H'. apply Hfresh. right; auto.
      * unfold zlen. rewrite Nat2Z.id, nth_error_app2, Nat.sub_diag by lia. reflexivity.
Qed.

Lemma addPaletteValue_spec t pal value : pal_inv t pal -> zlen pal < zlen (t_slots t) -> zlen pal < 2147483648 ->
  exists t' pal' i, addPaletteValue t pal value = Ok (t', pal', i) /\
    pal_inv t' pal' /\ zlen (t_slots t') = zlen (t_slots t) /\ 0 <= i < zlen pal' /\ nth_error pal' (Z.to_nat i) = Some value /\
    (pal' = pal \/ (pal' = pal ++ [value] /\ ~ In value pal)).
Proof.
  intros HI Hlt Hs. unfold addPaletteValue. rewrite land_mod by apply HI.
  destruct (probe_spec t pal value HI Hlt Hs (length (t_slots t)) 0) as (t' & pal' & i & H & R); try lia.
  { unfold zlen. lia. }
  exists t', pal', i. split; auto.
  rewrite Z.add_0_r in H. unfold home in H. rewrite Z.mod_mod in H by (pose proof (zlen_nonneg pal); lia). exact H.
Qed.

(** First occurrences, in order. *)
Fixpoint firsts (seen l : list Z) : list Z :=
  match l with
  | [] => []
  | v :: l' => if in_dec Z.eq_dec v seen then firsts seen l' else v :: firsts (seen ++ [v]) l'
  end.
Lemma addAll_spec raws : forall t pal, pal_inv t pal -> zlen pal + zlen raws <= zlen (t_slots t) -> zlen pal + zlen raws < 2147483648 ->
  exists t' pal' idx, addAll t pal raws = Ok (t', pal', idx) /\ pal_inv t' pal' /\
    pal' = pal ++ firsts pal raws /\
    Forall2 (fun i v => 0 <= i < zlen pal' /\ nth_error pal' (Z.to_nat i) = Some v) idx raws.
Proof.
  induction raws as [|v raws IH]; intros t pal HI H1 H2; cbn [addAll firsts].
  - exists t, pal, []. rewrite app_nil_r. split; [reflexivity|split; [exact HI|split; [reflexivity|constructor]]].
  - assert (Hz : zlen (v :: raws) = zlen raws + 1) by (unfold zlen; cbn [length]; lia). rewrite Hz in *. pose proof (zlen_nonneg raws).
    destruct (addPaletteValue_spec t pal v HI ltac:(lia) ltac:(lia)) as (t1 & pal1 & i & -> & HI1 & Hsz & Hi & Hn & Hp).
    cbn [bind].
    assert (Hl1 : zlen pal1 <= zlen pal + 1). { destruct Hp as [->|[-> _]]; rewrite ?zlen_app; [lia|]. unfold zlen; cbn [length]; lia. }
    destruct (IH t1 pal1 HI1 ltac:(lia) ltac:(lia)) as (t2 & pal2 & idx & -> & HI2 & Hpal & HF).
    cbn [bind]. exists t2, pal2, (i :: idx). split; [reflexivity|]. split; [exact HI2|].
    split.
    + destruct Hp as [->|[-> Hnot]].
      * destruct (in_dec Z.eq_dec v pal) as [|n]; [exact Hpal|]. exfalso. apply n. eapply nth_error_In; eauto.
      * destruct (in_dec Z.eq_dec v pal) as [|n]; [contradiction|]. rewrite Hpal, <- app_assoc. reflexivity.
    + constructor; auto. rewrite Hpal. rewrite zlen_app. pose proof (zlen_nonneg (firsts pal1 raws)). split; [lia|].
      rewrite nth_error_app1; [exact Hn|]. apply nth_error_Some. congruence.
Qed.
Lemma firsts_length l : forall seen, (length (firsts seen l) <= length l)%nat.
Proof. induction l; intros seen; cbn; [lia|]. destruct (in_dec _ _ _); cbn; specialize (IHl seen) as A; specialize (IHl (seen ++ [a])) as B; lia. Qed.
Lemma pal_inv_prepared t count : tab_wf t -> 0 <= count <= 2 ^ 62 -> pal_inv (preparePaletteTable t count) [].
Proof.
  intros HW Hc. destruct (prepare_spec t count HW Hc) as (A & B & C & D & F). split; auto.
  - intros s Hs Ho. exfalso. unfold occupied in Ho. apply nth_error_In in Ho. rewrite Forall_forall in F. now apply (F _ Ho).
  - unfold occ_count. assert (E : filter (Z.eqb (t_gen (preparePaletteTable t count))) (t_gens (preparePaletteTable t count)) = []); [|rewrite E; cbn; lia].
    induction F as [|g l Hg _ IHl]; [reflexivity|]. cbn. destruct (Z.eqb_spec (t_gen (preparePaletteTable t count)) g); [congruence|exact IHl].
  - intros [|i] v Hn; discriminate.
  - constructor.
Qed.
(** The palette of a chunk: the distinct values in order of first occurrence. *)
Lemma buildPalette_spec t raws : tab_wf t -> zlen raws < 2147483648 ->
  exists t' idx, buildPaletteIndexes t raws = Ok (t', firsts [] raws, idx) /\ tab_wf t' /\ NoDup (firsts [] raws) /\
    Forall2 (fun i v => 0 <= i < zlen (firsts [] raws) /\ nth_error (firsts [] raws) (Z.to_nat i) = Some v) idx raws.
Proof.
  intros HW Hn. unfold buildPaletteIndexes. pose proof (zlen_nonneg raws).
  assert (Hc : 0 <= zlen raws <= 2 ^ 62) by (change (2 ^ 62) with 4611686018427387904; lia).
  destruct (prepare_spec t (zlen raws) HW Hc) as (_ & _ & Hm & _).
  destruct (addAll_spec raws _ [] (pal_inv_prepared t (zlen raws) HW Hc)) as (t' & pal' & idx & E & HI & -> & HF).
  - change (zlen (@nil Z)) with 0. lia.
  - change (zlen (@nil Z)) with 0. lia.
  - exists t', idx. rewrite E. cbn [app] in *. split; [reflexivity|]. split; [apply HI|]. split; [apply HI|exact HF].
Qed.

(** ** RLE and DeltaRle section decoders *)
Lemma do_writes_len ws mem m : do_writes ws mem = Ok m -> length m = length mem.
Proof. intros H. apply do_writes_inv in H. tauto. Qed.
Lemma fill_run_spec a base step value : forall fuel len i mem, 0 <= len <= Z.of_nat fuel ->
  fill_run a base step fuel i len value mem =
    do m <- do_writes (sec_writes a base step i (repeat (le_bytes (a_size a) value) (Z.to_nat len))) mem ; Ok (i + len, m).
Proof.
  induction fuel as [|fuel IH]; intros len i mem Hl; cbn [fill_run].
  - destruct (Z.leb_spec len 0); [|lia]. assert (len = 0) by lia. subst. cbn. now rewrite Z.add_0_r.
  - destruct (Z.leb_spec len 0).
    + assert (len = 0) by lia. subst. cbn. now rewrite Z.add_0_r.
    + replace (Z.to_nat len) with (S (Z.to_nat (len - 1))) by lia. cbn [repeat sec_writes].
      rewrite do_writes_cons, put_value_wr. destruct (do_writes [_] mem) as [m| |]; cbn [bind]; try reflexivity.
      rewrite IH by lia. replace (i + 1 + (len - 1)) with (i + len) by lia. reflexivity.
Qed.
Lemma sums_repeat_last d n : forall p, last (sums p (repeat d n)) p = last (sums p (repeat d n)) p.
Proof. reflexivity. Qed.
Lemma last_cons {A} (x : A) l d : last (x :: l) d = last l x.
Proof. revert x d. induction l as [|y l IH]; intros x d; [reflexivity|]. cbn [last]. destruct l; [reflexivity|]. specialize (IH y d). specialize (IH). cbn [last] in *. rewrite IH. clear. revert a y. induction l; intros; cbn; auto. Qed.
Lemma fill_delta_run_spec a base step diff : forall fuel len i prev mem, 0 <= len <= Z.of_nat fuel ->
  fill_delta_run a base step fuel i len prev diff mem =
    do m <- do_writes (sec_writes a base step i (map (le_bytes (a_size a)) (sums prev (repeat diff (Z.to_nat len))))) mem ;
    Ok (i + len, last (sums prev (repeat diff (Z.to_nat len))) prev, m).
Proof.
  induction fuel as [|fuel IH]; intros len i prev mem Hl; cbn [fill_delta_run].
  - destruct (Z.leb_spec len 0); [|lia]. assert (len = 0) by lia. subst. cbn. now rewrite Z.add_0_r.
  - destruct (Z.leb_spec len 0).
    + assert (len = 0) by lia. subst. cbn. now rewrite Z.add_0_r.
    + replace (Z.to_nat len) with (S (Z.to_nat (len - 1))) by lia. cbn [repeat sums map sec_writes].
      rewrite do_writes_cons, put_value_wr. destruct (do_writes [_] mem) as [m| |]; cbn [bind]; try reflexivity.
      rewrite IH by lia. replace (i + 1 + (len - 1)) with (i + len) by lia. rewrite last_cons. reflexivity.
Qed.

Definition enc_rle_run (sz : nat) (r : Z * Z) : list Z := le_bytes sz (fst r) ++ uvarint (snd r).
Definition enc_drle_run (r : Z * Z) : list Z := encodeVarint64 (fst r) ++ uvarint (snd r).
Lemma flat_map_len_ge {A} (g : A -> list Z) l : (forall x, In x l -> (1 <= length (g x))%nat) -> (length l <= length (flat_map g l))%nat.
Proof. induction l as [|x l IH]; intros H; cbn; [lia|]. rewrite app_length. specialize (IH (fun y Hy => H y (or_intror Hy))). specialize (H x (or_introl eq_refl)). lia. Qed.

Lemma expand_len rs : Forall (fun r => 1 <= snd r) rs -> zlen (expand rs) = sumz (map snd rs).
Proof.
  unfold expand, zlen. induction 1 as [|r rs H _ IH]; [reflexivity|]. cbn [flat_map map sumz fold_right].
  rewrite app_length, repeat_length. unfold sumz in IH. lia.
Qed.
Lemma map_repeat {A B} (g : A -> B) x n : map g (repeat x n) = repeat (g x) n.
Proof. induction n; cbn; congruence. Qed.
Lemma dec_rle_spec a base step npts rest : 0 < npts < 18446744073709551616 -> forall rs fuel out_index mem,
  Forall (fun r => 1 <= snd r /\ 0 <= fst r < 256 ^ Z.of_nat (a_size a)) rs ->
  0 <= out_index -> out_index + zlen (expand rs) = npts -> (length rs <= fuel)%nat -> npts <= zlen mem ->
  dec_rle a base step npts fuel (zlen rs) out_index (flat_map (enc_rle_run (a_size a)) rs ++ rest) mem =
    do m <- do_writes (sec_writes a base step out_index (map (le_bytes (a_size a)) (expand rs))) mem ; Ok (rest, m).
Proof.
  intros Hn. induction rs as [|r rs IH]; intros fuel out_index mem Hr H0 Hs Hf Hm.
  - assert (out_index = npts) by (unfold expand, zlen in Hs; cbn in Hs; lia). clear Hs; subst out_index.
    destruct fuel; cbn [dec_rle]; change (zlen (@nil (Z * Z)) <=? 0) with true; cbv iota; rewrite Z.eqb_refl; reflexivity.
  - pose proof (Forall_inv Hr) as [Hr1 Hr2]; pose proof (Forall_inv_tail Hr) as Hr'. destruct fuel as [|fuel]; [cbn in Hf; lia|].
    assert (Hz : zlen (r :: rs) = zlen rs + 1) by (unfold zlen; cbn [length]; lia). pose proof (zlen_nonneg rs).
    replace (flat_map (enc_rle_run (a_size a)) (r :: rs) ++ rest)
      with (le_bytes (a_size a) (fst r) ++ uvarint (snd r) ++ flat_map (enc_rle_run (a_size a)) rs ++ rest)
      by (cbn [flat_map]; change (enc_rle_run (a_size a) r) with (le_bytes (a_size a) (fst r) ++ uvarint (snd r)); now rewrite <- !app_assoc).
    cbn [dec_rle]. rewrite Hz. replace (zlen rs + 1 <=? 0) with false by lia.
    replace (length _ <? a_size a)%nat with false by (symmetry; apply Nat.ltb_ge; rewrite app_length, le_bytes_length; lia).
    rewrite firstn_app_len, skipn_app_len by apply le_bytes_length. rewrite le_val_le_bytes, Z.mod_small by assumption.
    unfold expand in *. cbn [flat_map] in *. rewrite zlen_app in Hs. fold (expand rs) in *. pose proof (zlen_nonneg (expand rs)).
    assert (Hrl : zlen (repeat (fst r) (Z.to_nat (snd r))) = snd r) by (unfold zlen; rewrite repeat_length; lia).
    rewrite Hrl in Hs.
    rewrite readUVarint_app by lia. cbn [bind].
    rewrite u64_id by lia. replace (npts <? out_index + snd r) with false by lia.
    rewrite fill_run_spec by (unfold zlen in *; lia).
    rewrite map_app, map_repeat, sec_writes_app, do_writes_app.
    destruct (do_writes (sec_writes a base step out_index (repeat (le_bytes (a_size a) (fst r)) (Z.to_nat (snd r)))) mem) as [m| |] eqn:Ew; cbn [bind]; try reflexivity.
    replace (zlen rs + 1 - 1) with (zlen rs) by lia.
    rewrite IH; auto; try lia.
    + do 3 f_equal. unfold zlen. rewrite repeat_length. lia.
    + cbn in Hf. lia.
    + apply do_writes_len in Ew. unfold zlen in *. lia.
Qed.
Lemma dec_delta_rle_spec a base step npts rest : 0 < npts < 18446744073709551616 -> forall rs fuel out_index prev mem,
  Forall (fun r => 1 <= snd r /\ -9223372036854775808 < fst r < 9223372036854775808) rs ->
  0 <= out_index -> out_index + zlen (expand rs) = npts -> (length rs <= fuel)%nat -> npts <= zlen mem ->
  dec_delta_rle a base step npts fuel (zlen rs) out_index prev (flat_map enc_drle_run rs ++ rest) mem =
    do m <- do_writes (sec_writes a base step out_index (map (le_bytes (a_size a)) (sums prev (expand rs)))) mem ; Ok (rest, m).
Proof.
  intros Hn. induction rs as [|r rs IH]; intros fuel out_index prev mem Hr H0 Hs Hf Hm.
  - assert (out_index = npts) by (unfold expand, zlen in Hs; cbn in Hs; lia). clear Hs; subst out_index.
    destruct fuel; cbn [dec_delta_rle]; change (zlen (@nil (Z * Z)) <=? 0) with true; cbv iota; rewrite Z.eqb_refl; reflexivity.
  - pose proof (Forall_inv Hr) as [Hr1 Hr2]; pose proof (Forall_inv_tail Hr) as Hr'. destruct fuel as [|fuel]; [cbn in Hf; lia|].
    assert (Hz : zlen (r :: rs) = zlen rs + 1) by (unfold zlen; cbn [length]; lia). pose proof (zlen_nonneg rs).
    replace (flat_map enc_drle_run (r :: rs) ++ rest)
      with (encodeVarint64 (fst r) ++ uvarint (snd r) ++ flat_map enc_drle_run rs ++ rest)
      by (cbn [flat_map]; change (enc_drle_run r) with (encodeVarint64 (fst r) ++ uvarint (snd r)); now rewrite <- !app_assoc).
    cbn [dec_delta_rle]. rewrite Hz. replace (zlen rs + 1 <=? 0) with false by lia.
    rewrite decodeVarint_encode by assumption. cbn [bind]. rewrite skipn_app_len by reflexivity.
    unfold expand in *. cbn [flat_map] in *. rewrite zlen_app in Hs. fold (expand rs) in *. pose proof (zlen_nonneg (expand rs)).
    assert (Hrl : zlen (repeat (fst r) (Z.to_nat (snd r))) = snd r) by (unfold zlen; rewrite repeat_length; lia).
    rewrite Hrl in Hs.
    rewrite readUVarint_app by lia. cbn [bind].
    rewrite u64_id by lia. replace (npts <? out_index + snd r) with false by lia.
    rewrite fill_delta_run_spec by (unfold zlen in *; lia).
    rewrite sums_app, map_app, sec_writes_app, do_writes_app.
    destruct (do_writes (sec_writes a base step out_index (map (le_bytes (a_size a)) (sums prev (repeat (fst r) (Z.to_nat (snd r)))))) mem) as [m| |] eqn:Ew; cbn [bind]; try reflexivity.
    replace (zlen rs + 1 - 1) with (zlen rs) by lia.
    rewrite IH; auto; try lia.
    + do 3 f_equal. unfold zlen. rewrite map_length.
      assert (L : forall l p, length (sums p l) = length l) by (induction l; intros; cbn; auto).
      rewrite L, repeat_length. lia.
    + cbn in Hf. lia.
    + apply do_writes_len in Ew. unfold zlen in *. lia.
Qed.
Lemma dec_palette_spec a pal rest : Forall (fun v => 0 <= v < 256 ^ Z.of_nat (a_size a)) pal ->
  dec_palette a (length pal) (flat_map (le_bytes (a_size a)) pal ++ rest) = Ok (pal, rest).
Proof.
  induction 1 as [|v pal Hv _ IH]; [reflexivity|]. cbn [length dec_palette flat_map]. rewrite <- app_assoc.
  replace (length _ <? a_size a)%nat with false by (symmetry; apply Nat.ltb_ge; rewrite app_length, le_bytes_length; lia).
  rewrite firstn_app_len, skipn_app_len by apply le_bytes_length. rewrite IH. cbn [bind].
  rewrite le_val_le_bytes, Z.mod_small by assumption. reflexivity.
Qed.
