(** The Gorilla decoder on arbitrary bytes.  Proof file. *)
From Verif Require Import Base Varint BaseFacts VarintFacts Types Floats Fields GorillaFacts HostileFacts CloudFacts.

(** ** Gorilla decoder on arbitrary bytes *)
Lemma fill_nub k : forall n buf cnt input, (0 < k)%nat -> 0 <= cnt -> n <= 64 -> n <= cnt + 8 * (Z.of_nat k - 1) ->
  match fill k n (buf, cnt, input) with Ok (b', c', i') => n <= c' /\ c' <= Z.max cnt (n + 7) /\ c' + 8 * zlen i' = cnt + 8 * zlen input | Throw => True | UB => False end.
Proof.
  induction k as [|k IH]; intros n buf cnt input Hk Hc Hn Hf; [lia|]. cbn [fill]. destruct (cnt <? n) eqn:E; [|lia].
  cbn [fillOne]. destruct input as [|b rest]; [exact I|]. destruct (64 <=? cnt) eqn:E6; [lia|]. cbn [bind].
  specialize (IH n (Z.lor buf (u64 (Z.shiftl b cnt))) (cnt + 8) rest ltac:(lia) ltac:(lia) Hn ltac:(lia)).
  destruct (fill k n _) as [[[b' c'] i']| |]; auto. rewrite zlen_cons. lia.
Qed.
Definition cnt_of (s : Z * Z * list Z) : Z := snd (fst s).
Lemma getBits_nub n s : 0 <= cnt_of s < 8 -> 0 <= n <= 64 + cnt_of s ->
  match getBits n s with Ok (_, s') => 0 <= cnt_of s' < 8 /\ cnt_of s' + 8 * zlen (snd s') = cnt_of s + 8 * zlen (snd s) - n | Throw => True | UB => False end.
Proof.
  destruct s as [[buf cnt] input]. unfold cnt_of; cbn [fst snd]. intros Hc Hn. unfold getBits. destruct ((56 <? n) || (56 <? cnt)) eqn:E.
  - assert (56 < n) by lia. rewrite Z.min_r by lia. rewrite Z.sub_diag. destruct (n - cnt =? 0) eqn:E0; [lia|].
    pose proof (fill_nub 10 (n - cnt) (if cnt <? 64 then Z.shiftr buf cnt else 0) 0 input ltac:(lia) ltac:(lia) ltac:(lia) ltac:(cbn; lia)) as F.
    destruct (fill 10 (n - cnt) _) as [[[b' c'] i']| |]; cbn [bind]; auto. cbn [fst snd]. lia.
  - pose proof (fill_nub 10 n buf cnt input ltac:(lia) ltac:(lia) ltac:(lia) ltac:(cbn; lia)) as F.
    destruct (fill 10 n _) as [[[b' c'] i']| |]; cbn [bind]; auto. cbn [fst snd]. lia.
Qed.
Definition gor_ok (st : fstate) : Prop :=
  0 <= s_trail st < 64 /\ ((s_lead st = 255 /\ s_trail st = 0) \/ (0 <= s_lead st <= 31 /\ s_lead st + s_trail st <= 63)).
Lemma gor_ok_reset : gor_ok reset_state.
Proof. split; cbn; [lia|left; lia]. Qed.

(** The reads of one value's control bits, on a long enough input *)
Lemma header_bits input : bytes input -> 2 <= zlen input -> exists s1 s2 s3 s4,
  getBits 1 (0, 0, input) = Ok (le_val input mod 2, s1) /\ getBits 1 s1 = Ok ((le_val input / 2) mod 2, s2) /\
  getBits 5 s2 = Ok ((le_val input / 4) mod 32, s3) /\ getBits 6 s3 = Ok ((le_val input / 128) mod 64, s4) /\ 0 <= cnt_of s4 < 8 /\ cnt_of s2 = 6.
Proof.
  intros Hb Hl. pose proof (GI_init input Hb) as G0.
  destruct (getBits_spec 1 _ _ _ G0 ltac:(lia) ltac:(lia)) as (s1 & p1 & E1 & G1 & _).
  destruct (getBits_spec 1 _ _ _ G1 ltac:(lia) ltac:(lia)) as (s2 & p2 & E2 & G2 & _).
  destruct (getBits_spec 5 _ _ _ G2 ltac:(lia) ltac:(lia)) as (s3 & p3 & E3 & G3 & _).
  destruct (getBits_spec 6 _ _ _ G3 ltac:(lia) ltac:(lia)) as (s4 & p4 & E4 & G4 & _).
  exists s1, s2, s3, s4. split; [exact E1|]. split; [exact E2|].
  change (2 ^ 1) with 2 in *. change (2 ^ 5) with 32 in *. change (2 ^ 6) with 64 in *. rewrite !Z.div_div in E3 by lia. rewrite !Z.div_div in E4 by lia.
  split; [exact E3|]. split; [exact E4|].
  destruct s4 as [[b4 c4] i4]. destruct s2 as [[b2 c2] i2]. unfold GI, cnt_of in *. cbn [fst snd]. split; [lia|]. destruct G2 as (_ & A & _ & B & _). lia.
Qed.
Definition result_ok (st : fstate) (input : list Z) (r : res (fstate * Z * list Z)) : Prop :=
  match r with
  | Ok (st', _, _) => gor_ok st'
  | Throw => True
  | UB => s_first st = false /\ le_val input mod 4 = 3 /\ 64 < (le_val input / 4) mod 32 + (le_val input / 128) mod 64 + 1
  end.
Lemma gor_hostile st input : gor_ok st -> bytes input -> result_ok st input (gor_decode st input).
Proof.
  intros HG Hb. unfold gor_decode. destruct (s_first st) eqn:EF.
  { pose proof (getBits_nub 64 (0, 0, input) ltac:(cbn; lia) ltac:(cbn; lia)) as N. destruct (getBits 64 (0, 0, input)) as [[raw [[b c] r]]| |]; cbn [bind result_ok]; auto; contradiction. }
  pose proof (getBits_nub 1 (0, 0, input) ltac:(cbn; lia) ltac:(cbn; lia)) as N1.
  assert (HB : 2 <= zlen input -> _) by exact (header_bits input Hb).
  destruct (getBits 1 (0, 0, input)) as [[flag s1]| |] eqn:E1; cbn [bind result_ok]; [|exact I|contradiction]. destruct N1 as [N1 T1].
  destruct (flag =? 0) eqn:EFl. { destruct s1 as [[b c] r]. exact HG. }
  pose proof (getBits_nub 1 s1 N1 ltac:(lia)) as N2.
  destruct (getBits 1 s1) as [[control s2]| |] eqn:E2; cbn [bind result_ok]; [|exact I|contradiction]. destruct N2 as [N2 T2].
  destruct (control =? 0) eqn:ECo.
  - unfold cnt_of in T1 at 2. cbn [fst snd] in T1.
    assert (C6 : cnt_of s2 = 6) by (unfold cnt_of in *; lia).
    destruct HG as [HT HL].
    assert (HM : 0 <= u8 (64 - s_lead st - s_trail st) <= 65).
    { unfold u8. destruct HL as [[-> ->]|[A B]]; [cbn; lia|]. rewrite Z.mod_small by lia. lia. }
    pose proof (getBits_nub (u8 (64 - s_lead st - s_trail st)) s2 N2 ltac:(lia)) as N3.
    destruct (getBits (u8 (64 - s_lead st - s_trail st)) s2) as [[bits [[b c] r]]| |]; cbn [bind]; [|exact I|contradiction].
    destruct (64 <=? s_trail st) eqn:ET; [lia|]. split; [exact HT|exact HL].
  - pose proof (getBits_nub 5 s2 N2 ltac:(lia)) as N3.
    destruct (getBits 5 s2) as [[stored s3]| |] eqn:E3; cbn [bind result_ok]; [|exact I|contradiction]. destruct N3 as [N3 T3].
    pose proof (getBits_nub 6 s3 N3 ltac:(lia)) as N4.
    destruct (getBits 6 s3) as [[m1 s4]| |] eqn:E4; cbn [bind result_ok]; [|exact I|contradiction]. destruct N4 as [N4 T4].
    assert (Hz : 2 <= zlen input). { unfold cnt_of in T1 at 2. cbn [fst snd] in T1. pose proof (zlen_nonneg (snd s4)). lia. }
    destruct (HB Hz) as (s1' & s2' & s3' & s4' & F1 & F2 & F3 & F4 & _).
    apply ok_pair in F1. destruct F1 as [Hf <-]. rewrite E2 in F2. apply ok_pair in F2. destruct F2 as [Hco <-].
    rewrite E3 in F3. apply ok_pair in F3. destruct F3 as [Hst <-]. rewrite E4 in F4. apply ok_pair in F4. destruct F4 as [Hm1 <-].
    clear E1 E2 E3 E4 HB.
    assert (R1 : 0 <= stored < 32) by (rewrite Hst; apply Z.mod_pos_bound; lia).
    assert (R2 : 0 <= m1 < 64) by (rewrite Hm1; apply Z.mod_pos_bound; lia).
    assert (Em : u8 (m1 + 1) = m1 + 1) by (unfold u8; apply Z.mod_small; lia). rewrite Em.
    pose proof (getBits_nub (m1 + 1) s4 N4 ltac:(lia)) as N5.
    destruct (getBits (m1 + 1) s4) as [[bits [[b c] r]]| |]; cbn [bind]; [|exact I|contradiction].
    assert (Et : u8 (64 - stored - (m1 + 1)) = if 64 <? stored + m1 + 1 then 64 - stored - (m1 + 1) + 256 else 64 - stored - (m1 + 1)).
    { unfold u8. destruct (64 <? stored + m1 + 1) eqn:E; [|apply Z.mod_small; lia]. rewrite <- (Z.mod_add _ 1 256) by lia. apply Z.mod_small. lia. }
    rewrite Et. destruct (64 <? stored + m1 + 1) eqn:E; (destruct (64 <=? _) eqn:E6; [|try lia]); try lia; cbn [result_ok].
    + split; [exact EF|]. rewrite <- Hst, <- Hm1. set (W := le_val input) in *. clearbody W. split; [|lia].
      assert (M2 : W mod 2 = 1) by (pose proof (Z.mod_pos_bound W 2); lia). assert (M3 : (W / 2) mod 2 = 1) by (pose proof (Z.mod_pos_bound (W / 2) 2); lia).
      clear - M2 M3. pose proof (Z.div_mod W 2 ltac:(lia)). pose proof (Z.div_mod (W / 2) 2 ltac:(lia)). rewrite M2 in *. rewrite M3 in *.
      replace W with (3 + (W / 2 / 2) * 4) by lia. rewrite Z.mod_add by lia. reflexivity.
    + split; cbn [s_trail s_lead]; [lia|right; lia].
Qed.
