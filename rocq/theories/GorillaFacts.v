(** Gorilla bit stream: the decoder inverts the encoder. *)
From Verif Require Export BaseFacts VarintFacts Types Floats Fields.

Local Opaque Z.shiftl Z.shiftr Z.lor Z.land Z.lxor.

Lemma le_val_app l1 l2 : le_val (l1 ++ l2) = le_val l1 + 256 ^ zlen l1 * le_val l2.
Proof.
  induction l1 as [|b l1 IH]; cbn [app le_val].
  - change (256 ^ zlen (@nil Z)) with 1. lia.
  - rewrite IH. unfold zlen. cbn [length]. rewrite pow256_S. lia.
Qed.

Lemma pow256_2 n : 0 <= n -> 256 ^ n = 2 ^ (8 * n).
Proof. intros. change 256 with (2 ^ 8). rewrite <- Z.pow_mul_r by lia. reflexivity. Qed.

Lemma mask_land x n : 0 <= n -> Z.land x (Z.shiftl 1 n - 1) = x mod 2 ^ n.
Proof.
  intros Hn. rewrite Z.shiftl_1_l. replace (2 ^ n - 1) with (Z.ones n).
  - apply Z.land_ones. exact Hn.
  - rewrite Z.ones_equiv. lia.
Qed.
Lemma mask64_land x n : 0 <= n <= 64 -> 0 <= x < 2 ^ 64 -> Z.land x (mask64 n) = x mod 2 ^ n.
Proof.
  intros Hn Hx. unfold mask64. destruct (n <? 64) eqn:E.
  - apply mask_land. lia.
  - replace n with 64 by lia. change 18446744073709551615 with (Z.ones 64). apply Z.land_ones. lia.
Qed.

Lemma pow2_pos n : 0 <= n -> 0 < 2 ^ n.
Proof. intros. apply Z.pow_pos_nonneg; lia. Qed.
Lemma pow2_mono a b : 0 <= a <= b -> 2 ^ a <= 2 ^ b.
Proof. intros. apply Z.pow_le_mono_r; lia. Qed.

(** ** encoder side *)
Lemma drain_spec k buf cnt out :
  0 <= cnt <= 8 * Z.of_nat k + 7 -> 0 <= buf < 2 ^ cnt ->
  exists buf' cnt' o,
    drain k buf cnt out = (buf', cnt', out ++ o) /\ bytes o /\ 0 <= cnt' < 8 /\ 0 <= buf' < 2 ^ cnt' /\
    8 * zlen o + cnt' = cnt /\ le_val o + 256 ^ zlen o * buf' = buf.
Proof.
  revert buf cnt out; induction k as [|k IH]; intros buf cnt out Hc Hb.
  - exists buf, cnt, []. rewrite app_nil_r. cbn [drain]. change (zlen (@nil Z)) with 0. change (256 ^ 0) with 1.
    cbn [le_val]. repeat split; try lia; try constructor.
  - cbn [drain]. destruct (8 <=? cnt) eqn:E.
    + assert (E2 : 2 ^ cnt = 256 * 2 ^ (cnt - 8)).
      { replace cnt with (8 + (cnt - 8)) at 1 by lia. rewrite Z.pow_add_r by lia. reflexivity. }
      rewrite shiftr_div by lia. change (2 ^ 8) with 256.
      assert (Hb2 : 0 <= buf / 256 < 2 ^ (cnt - 8)).
      { split; [lia|]. apply Z.div_lt_upper_bound; lia. }
      destruct (IH (buf / 256) (cnt - 8) (out ++ [Z.land buf 255])) as (b' & c' & o & -> & Ho & Hc' & Hb' & HN & HV); [lia|exact Hb2|].
      exists b', c', (Z.land buf 255 :: o). rewrite <- app_assoc. cbn [app].
      assert (EZ : zlen (Z.land buf 255 :: o) = 1 + zlen o) by (unfold zlen; cbn [length]; lia).
      rewrite EZ. rewrite Z.pow_add_r by (unfold zlen; lia). change (256 ^ 1) with 256.
      cbn [le_val]. rewrite land255. repeat split; try lia.
      constructor; [unfold is_byte; lia|exact Ho].
    + exists buf, cnt, []. rewrite app_nil_r. change (zlen (@nil Z)) with 0. change (256 ^ 0) with 1.
      cbn [le_val]. repeat split; try lia; try constructor.
Qed.

(** [GB b V N]: the bit sink [b] holds the [N]-bit number [V]. *)
Definition GB (b : Z * Z * list Z) (V N : Z) : Prop :=
  let '(buf, cnt, out) := b in
  bytes out /\ 0 <= cnt < 8 /\ 0 <= buf < 2 ^ cnt /\ 8 * zlen out + cnt = N /\
  le_val out + 256 ^ zlen out * buf = V.

Lemma GB_init : GB (0, 0, []) 0 0.
Proof. cbn. repeat split; try lia; try constructor. Qed.

Lemma GB_drain k buf cnt out V N :
  bytes out -> 0 <= cnt <= 8 * Z.of_nat k + 7 -> 0 <= buf < 2 ^ cnt -> 8 * zlen out + cnt = N ->
  le_val out + 256 ^ zlen out * buf = V -> GB (drain k buf cnt out) V N.
Proof.
  intros Ho Hc Hb HN HV.
  destruct (drain_spec k buf cnt out Hc Hb) as (b' & c' & o & -> & Ho' & Hc' & Hb' & HN' & HV').
  unfold GB. rewrite zlen_app, le_val_app. rewrite Z.pow_add_r by (unfold zlen; lia).
  repeat split; try lia.
  apply bytes_app; auto.
Qed.

Lemma putBits_spec b V N bits nbits :
  GB b V N -> 0 <= nbits <= 64 -> 0 <= bits < 2 ^ 64 ->
  GB (putBits b bits nbits) (V + 2 ^ N * (bits mod 2 ^ nbits)) (N + nbits).
Proof.
  destruct b as [[buf cnt] out]. unfold GB at 1. intros (Ho & Hc & Hb & HN & HV) Hn Hbits.
  unfold putBits.
  replace (if nbits <? 64 then Z.land bits (Z.shiftl 1 nbits - 1) else bits) with (bits mod 2 ^ nbits).
  2:{ destruct (nbits <? 64) eqn:E; [now rewrite mask_land by lia|].
      replace nbits with 64 by lia. apply Z.mod_small. lia. }
  set (B := bits mod 2 ^ nbits).
  assert (HB : 0 <= B < 2 ^ nbits) by (apply Z.mod_pos_bound, pow2_pos; lia).
  assert (EN : 2 ^ N = 256 ^ zlen out * 2 ^ cnt).
  { rewrite pow256_2 by (unfold zlen; lia). rewrite <- Z.pow_add_r by (unfold zlen; lia). f_equal. lia. }
  destruct (64 - cnt <? nbits) eqn:E.
  - set (space := 64 - cnt).
    assert (Hcp : 0 < cnt) by lia.
    destruct (space =? 64) eqn:E64; [lia|].
    rewrite mask_land by lia.
    rewrite shiftl_mul by lia.
    set (lo := B mod 2 ^ space). assert (Hlo : 0 <= lo < 2 ^ space) by (apply Z.mod_pos_bound, pow2_pos; lia).
    assert (E64' : 2 ^ 64 = 2 ^ space * 2 ^ cnt) by (rewrite <- Z.pow_add_r by lia; f_equal; lia).
    assert (Hfit : 0 <= lo * 2 ^ cnt < 18446744073709551616).
    { change 18446744073709551616 with (2 ^ 64). rewrite E64'. nia. }
    rewrite u64_id by exact Hfit. rewrite lor_disjoint_add by lia.
    assert (Hb64 : 0 <= buf + lo * 2 ^ cnt < 2 ^ (cnt + space)).
    { replace (cnt + space) with 64 by lia. rewrite E64'. nia. }
    destruct (drain_spec 8 (buf + lo * 2 ^ cnt) (cnt + space) out) as (b1 & c1 & o & -> & Ho1 & Hc1 & Hb1 & HN1 & HV1); [lia|exact Hb64|].
    assert (c1 = 0) by lia. subst c1.
    rewrite shiftr_div by lia. set (hi := B / 2 ^ space).
    rewrite shiftl_mul by lia. change (2 ^ 0) with 1. rewrite Z.mul_1_r.
    assert (Hhi : 0 <= hi < 2 ^ (nbits - space)).
    { split; [apply Z.div_pos; [lia|apply pow2_pos; lia]|]. apply Z.div_lt_upper_bound; [apply pow2_pos; lia|].
      rewrite <- Z.pow_add_r by lia. replace (space + (nbits - space)) with nbits by lia. lia. }
    assert (Hhi64 : hi < 256).
    { eapply Z.lt_le_trans; [apply Hhi|]. change 256 with (2 ^ 8). apply pow2_mono. lia. }
    change (2 ^ 0) with 1 in Hb1. assert (b1 = 0) by lia. subst b1.
    rewrite Z.lor_0_l. rewrite u64_id by lia.
    apply GB_drain; try lia.
    + apply bytes_app; auto.
    + rewrite Z.add_0_l. exact Hhi.
    + rewrite zlen_app. lia.
    + rewrite zlen_app, le_val_app. rewrite Z.pow_add_r by (unfold zlen; lia).
      assert (EB : B = lo + 2 ^ space * hi) by (unfold lo, hi; rewrite (Z.div_mod B (2 ^ space)) at 1; [lia|pose proof (pow2_pos space); lia]).
      assert (Eo : 256 ^ zlen o = 2 ^ cnt * 2 ^ space).
      { rewrite pow256_2 by (unfold zlen; lia). rewrite <- Z.pow_add_r by lia. f_equal. lia. }
      rewrite EN, Eo, <- HV, EB. rewrite Z.mul_0_r, Z.add_0_r in HV1. rewrite HV1. ring.
  - rewrite shiftl_mul by lia.
    assert (E64' : 2 ^ 64 = 2 ^ (64 - cnt) * 2 ^ cnt) by (rewrite <- Z.pow_add_r by lia; f_equal; lia).
    assert (HBs : B < 2 ^ (64 - cnt)).
    { eapply Z.lt_le_trans; [apply HB|]. apply pow2_mono. lia. }
    rewrite u64_id by (change 18446744073709551616 with (2 ^ 64); rewrite E64'; nia).
    rewrite lor_disjoint_add by lia.
    apply GB_drain; [assumption|lia| |lia|].
    + rewrite Z.pow_add_r by lia. nia.
    + rewrite EN, <- HV. ring.
Qed.

Lemma gor_align_spec b V N :
  GB b V N -> 0 <= V < 2 ^ N /\ bytes (gor_align b) /\ le_val (gor_align b) = V /\
              8 * zlen (gor_align b) - 8 < N <= 8 * zlen (gor_align b).
Proof.
  destruct b as [[buf cnt] out]. unfold GB. intros (Ho & Hc & Hb & HN & HV).
  assert (EN : 2 ^ N = 256 ^ zlen out * 2 ^ cnt).
  { rewrite pow256_2 by (unfold zlen; lia). rewrite <- Z.pow_add_r by (unfold zlen; lia). f_equal. lia. }
  pose proof (le_val_range out Ho) as Hr.
  split. { rewrite EN. split; nia. }
  unfold gor_align. destruct (0 <? cnt) eqn:E.
  - rewrite land255, zlen_app, le_val_app. change (zlen [buf mod 256]) with 1. cbn [le_val].
    assert (buf < 256). { eapply Z.lt_le_trans; [apply Hb|]. change 256 with (2 ^ 8). apply pow2_mono. lia. }
    rewrite Z.mod_small by lia. repeat split; try lia.
    apply bytes_app. split; [exact Ho|]. repeat constructor; lia.
  - assert (cnt = 0) by lia. subst cnt. change (2 ^ 0) with 1 in *. assert (buf = 0) by lia. subst buf.
    repeat split; try lia. exact Ho.
Qed.

(** ** decoder side *)
(** [GI s W L]: the bit source [s] still holds the [L]-bit number [W]. *)
Definition GI (s : Z * Z * list Z) (W L : Z) : Prop :=
  let '(buf, cnt, input) := s in
  bytes input /\ 0 <= cnt < 8 /\ 0 <= buf < 2 ^ cnt /\ cnt + 8 * zlen input = L /\
  buf + 2 ^ cnt * le_val input = W.

Lemma fill_spec k n buf cnt input :
  bytes input -> 0 <= cnt <= 64 -> 0 <= buf < 2 ^ cnt -> n <= cnt + 8 * zlen input -> n <= 64 ->
  (cnt mod 8 = 0 \/ n <= 57) -> (0 < k)%nat -> n <= cnt + 8 * (Z.of_nat k - 1) ->
  exists buf' cnt' input' pre,
    fill k n (buf, cnt, input) = Ok (buf', cnt', input') /\ input = pre ++ input' /\
    0 <= buf' < 2 ^ cnt' /\ n <= cnt' <= 64 /\ (cnt' < n + 8 \/ cnt' = cnt) /\
    cnt' + 8 * zlen input' = cnt + 8 * zlen input /\
    buf' + 2 ^ cnt' * le_val input' = buf + 2 ^ cnt * le_val input.
Proof.
  revert buf cnt input; induction k as [|k IH]; intros buf cnt input Hi Hc Hb HL H64 Hm Hk0 Hk; [lia|].
  cbn [fill]. destruct (cnt <? n) eqn:E.
  - cbn [fillOne]. destruct input as [|b rest].
    { exfalso. unfold zlen in HL. cbn [length] in HL. lia. }
    destruct (64 <=? cnt) eqn:E64; [lia|]. cbn [bind].
    inversion Hi as [|? ? Hbyte Hrest]; subst. unfold is_byte in Hbyte.
    assert (P := pow2_pos cnt (proj1 Hc)).
    assert (Ec : 2 ^ (cnt + 8) = 256 * 2 ^ cnt) by (rewrite Z.pow_add_r by lia; change (2 ^ 8) with 256; lia).
    rewrite shiftl_mul by lia.
    rewrite u64_id.
    2:{ change 18446744073709551616 with (2 ^ 64). assert (2 ^ (cnt + 8) <= 2 ^ 64) by (apply pow2_mono; lia). nia. }
    rewrite lor_disjoint_add by lia.
    assert (EZ : zlen (b :: rest) = 1 + zlen rest) by (unfold zlen; cbn [length]; lia).
    destruct (IH (buf + b * 2 ^ cnt) (cnt + 8) rest) as (b' & c' & i' & pre & -> & Hp & H1 & H2 & H3 & H4 & H5);
      [exact Hrest|lia|rewrite Ec; nia|lia|lia|lia|lia|lia|].
    exists b', c', i', (b :: pre). cbn [app le_val].
    repeat split; try lia; try (now f_equal).

  - exists buf, cnt, input, []. repeat split; try lia.
Qed.

Lemma div_pow_add a b n : 0 <= n -> 0 <= a < 2 ^ n -> (a + 2 ^ n * b) / 2 ^ n = b.
Proof.
  intros Hn Ha. pose proof (pow2_pos n Hn). rewrite (Z.mul_comm (2 ^ n)), Z.div_add by lia.
  rewrite Z.div_small by lia. lia.
Qed.
Lemma mod_pow_add a b n m : 0 <= n <= m -> (a + 2 ^ m * b) mod 2 ^ n = a mod 2 ^ n.
Proof.
  intros Hn. replace m with ((m - n) + n) by lia. rewrite Z.pow_add_r by lia.
  replace (2 ^ (m - n) * 2 ^ n * b) with (2 ^ (m - n) * b * 2 ^ n) by ring.
  apply Z.mod_add. pose proof (pow2_pos n). lia.
Qed.
Lemma div_pow_split a b n m : 0 <= n <= m -> (a + 2 ^ m * b) / 2 ^ n = a / 2 ^ n + 2 ^ (m - n) * b.
Proof.
  intros Hn. replace (2 ^ m) with (2 ^ (m - n) * 2 ^ n) by (rewrite <- Z.pow_add_r by lia; f_equal; lia).
  replace (2 ^ (m - n) * 2 ^ n * b) with (2 ^ (m - n) * b * 2 ^ n) by ring.
  apply Z.div_add. pose proof (pow2_pos n). lia.
Qed.

Lemma getBits_spec n s W L :
  GI s W L -> 0 <= n <= 64 -> n <= L ->
  exists s' pre, getBits n s = Ok (W mod 2 ^ n, s') /\ GI s' (W / 2 ^ n) (L - n) /\ snd s = pre ++ snd s'.
Proof.
  destruct s as [[buf cnt] input]. unfold GI at 1. intros (Hi & Hc & Hb & HL & HW) Hn HnL.
  unfold getBits.
  pose proof (pow2_pos cnt (proj1 Hc)) as Pc.
  assert (Hcb : 2 ^ cnt <= 2 ^ 64) by (apply pow2_mono; lia).
  destruct ((56 <? n) || (56 <? cnt)) eqn:E.
  - assert (56 < n) by lia.
    rewrite Z.min_r by lia. rewrite mask64_land by lia.
    rewrite (Z.mod_small buf) by lia.
    replace (cnt <? 64) with true by lia.
    rewrite shiftr_div by lia. rewrite Z.div_small by lia. rewrite Z.sub_diag.
    destruct (n - cnt =? 0) eqn:E0; [lia|].
    destruct (fill_spec 10 (n - cnt) 0 0 input) as (b' & c' & i' & pre & -> & Hp & H1 & H2 & H3 & H4 & H5);
      [exact Hi|lia|cbn; lia|lia|lia|left; reflexivity|lia|cbn; lia|].
    cbn [bind]. change (2 ^ 0) with 1 in H5. rewrite Z.add_0_l, Z.mul_1_l in H5.
    assert (Hc64 : 2 ^ c' <= 2 ^ 64) by (apply pow2_mono; lia).
    rewrite mask64_land by lia.
    set (m := n - cnt) in *.
    assert (Hm : 0 <= b' mod 2 ^ m < 2 ^ m) by (apply Z.mod_pos_bound, pow2_pos; lia).
    rewrite shiftl_mul by lia.
    assert (Hnn : 2 ^ n = 2 ^ m * 2 ^ cnt) by (rewrite <- Z.pow_add_r by lia; f_equal; lia).
    assert (Hn64 : 2 ^ n <= 2 ^ 64) by (apply pow2_mono; lia).
    rewrite u64_id by (change 18446744073709551616 with (2 ^ 64); nia).
    rewrite lor_disjoint_add by lia.
    assert (EW : W = buf + 2 ^ cnt * (b' + 2 ^ c' * le_val i')) by (rewrite H5; lia).
    assert (Esr : (if m <? 64 then Z.shiftr b' m else 0) = b' / 2 ^ m).
    { destruct (m <? 64) eqn:Em; [apply shiftr_div; lia|]. rewrite Z.div_small; [reflexivity|].
      replace m with 64 by lia. lia. }
    rewrite Esr.
    assert (Ediv : W / 2 ^ n = (b' + 2 ^ c' * le_val i') / 2 ^ m).
    { rewrite Hnn, (Z.mul_comm (2 ^ m)), <- Z.div_div by (try apply pow2_pos; lia).
      rewrite EW, div_pow_add by lia. reflexivity. }
    assert (Emod : W mod 2 ^ n = buf + b' mod 2 ^ m * 2 ^ cnt).
    { replace (b' mod 2 ^ m) with ((b' + 2 ^ c' * le_val i') mod 2 ^ m) by (apply mod_pow_add; lia).
      rewrite Hnn, (Z.mul_comm (2 ^ m)). rewrite Z.rem_mul_r by (try apply pow2_pos; try lia; pose proof (pow2_pos m); lia).
      rewrite EW at 1. rewrite (Z.mul_comm (2 ^ cnt) (_ + _)), Z.mod_add, Z.mod_small by lia.
      rewrite EW, div_pow_add by lia. lia. }
    exists (b' / 2 ^ m, c' - m, i'), pre. rewrite Emod. split; [reflexivity|].
    split.
    + unfold GI. rewrite Ediv, div_pow_split by lia.
      repeat split; try lia.
      * rewrite Hp in Hi. apply bytes_app in Hi. tauto.
      * apply Z.div_pos; [lia|apply pow2_pos; lia].
      * apply Z.div_lt_upper_bound; [apply pow2_pos; lia|]. rewrite <- Z.pow_add_r by lia.
        replace (m + (c' - m)) with c' by lia. lia.
    + cbn [snd]. exact Hp.
  - destruct (fill_spec 10 n buf cnt input) as (b' & c' & i' & pre & -> & Hp & H1 & H2 & H3 & H4 & H5);
      [exact Hi|lia|lia|lia|lia|lia|lia|lia|].
    cbn [bind].
    assert (Hc64 : 2 ^ c' <= 2 ^ 64) by (apply pow2_mono; lia).
    rewrite mask64_land by lia. rewrite shiftr_div by lia.
    exists (b' / 2 ^ n, c' - n, i'), pre.
    rewrite <- HW, <- H5. rewrite mod_pow_add by lia. split; [reflexivity|]. split.
    + unfold GI. rewrite div_pow_split by lia.
      repeat split; try lia.
      * rewrite Hp in Hi. apply bytes_app in Hi. tauto.
      * apply Z.div_pos; [lia|apply pow2_pos; lia].
      * apply Z.div_lt_upper_bound; [apply pow2_pos; lia|]. rewrite <- Z.pow_add_r by lia.
        replace (n + (c' - n)) with c' by lia. lia.
    + exact Hp.
Qed.

Lemma GI_init input : bytes input -> GI (0, 0, input) (le_val input) (8 * zlen input).
Proof. intros H. cbn. change (2 ^ 0) with 1. repeat split; try lia. exact H. Qed.

Lemma app_len_inj {A} (a b c d : list A) : length a = length c -> a ++ b = c ++ d -> a = c /\ b = d.
Proof.
  revert c; induction a as [|x a IH]; intros [|y c] H E; cbn in *; try lia; [auto|].
  injection E as -> E. apply IH in E; [|lia]. destruct E. subst. auto.
Qed.
(** When fewer than 8 bits of the value remain, the rest of the byte stream starts there. *)
Lemma GI_rest buf cnt input W L bs rest pre :
  GI (buf, cnt, input) W L -> bs ++ rest = pre ++ input -> 
  8 * zlen rest <= L < 8 * zlen rest + 8 -> input = rest.
Proof.
  unfold GI. intros (Hi & Hc & Hb & HL & HW) E HLr.
  assert (length input = length rest) by (unfold zlen in *; lia).
  assert (length pre = length bs).
  { apply (f_equal (@length Z)) in E. rewrite !app_length in E. lia. }
  symmetry in E. apply app_len_inj in E; [tauto|assumption].
Qed.

Lemma clz64_spec x : 0 < x < 2 ^ 64 -> 0 <= clz64 x <= 63 /\ x < 2 ^ (64 - clz64 x).
Proof.
  intros Hx. unfold clz64. destruct (x =? 0) eqn:E; [lia|].
  pose proof (Z.log2_spec x ltac:(lia)) as [H1 H2]. pose proof (Z.log2_nonneg x).
  assert (Z.log2 x < 64) by (apply Z.log2_lt_pow2; lia).
  split; [lia|]. replace (64 - (63 - Z.log2 x)) with (Z.succ (Z.log2 x)) by lia. exact H2.
Qed.
Lemma ctz_loop_spec k x : 0 < x < 2 ^ Z.of_nat k ->
  0 <= ctz_loop k x < Z.of_nat k /\ x = 2 ^ (ctz_loop k x) * (x / 2 ^ (ctz_loop k x)).
Proof.
  revert x; induction k as [|k IH]; intros x Hx.
  - change (2 ^ Z.of_nat 0) with 1 in Hx. lia.
  - cbn [ctz_loop]. destruct (Z.odd x) eqn:E.
    + change (2 ^ 0) with 1. rewrite Z.div_1_r. lia.
    + assert (Hev : x = 2 * (x / 2)).
      { pose proof (Zodd_mod x) as Ho. rewrite E in Ho. pose proof (Z.div_mod x 2). 
        assert (x mod 2 = 0 \/ x mod 2 = 1) as [?|Hm] by lia; [lia|]. rewrite Hm in Ho. discriminate. }
      rewrite Nat2Z.inj_succ, Z.pow_succ_r in Hx by lia.
      destruct (IH (x / 2)) as [H1 H2]; [lia|].
      split; [lia|]. set (c := ctz_loop k (x / 2)) in *.
      rewrite Z.pow_add_r by lia. change (2 ^ 1) with 2.
      rewrite <- Z.div_div by (try apply pow2_pos; lia). rewrite <- Z.mul_assoc, <- H2. exact Hev.
Qed.
Lemma ctz64_spec x : 0 < x < 2 ^ 64 -> 0 <= ctz64 x < 64 /\ x = 2 ^ (ctz64 x) * (x / 2 ^ (ctz64 x)).
Proof.
  intros Hx. unfold ctz64. destruct (x =? 0) eqn:E; [lia|]. apply (ctz_loop_spec 64). exact Hx.
Qed.
Lemma clz_ctz x : 0 < x < 2 ^ 64 -> clz64 x + ctz64 x <= 63.
Proof.
  intros Hx. destruct (ctz64_spec x Hx) as [H1 H2]. destruct (clz64_spec x Hx) as [H3 H4].
  assert (2 ^ ctz64 x <= x).
  { pose proof (pow2_pos (ctz64 x) (proj1 H1)). assert (0 < x / 2 ^ ctz64 x) by (destruct (Z.eq_dec (x / 2 ^ ctz64 x) 0); [lia|assert (0 <= x / 2 ^ ctz64 x) by (apply Z.div_pos; lia); lia]). nia. }
  assert (2 ^ ctz64 x < 2 ^ (64 - clz64 x)) by lia.
  apply Z.pow_lt_mono_r_iff in H0; lia.
Qed.

(** Taking [n] bits off a source holding [a + 2^n * V' + 2^k * R]. *)
Lemma getBits_take n s a V' k R L :
  GI s (a + 2 ^ n * V' + 2 ^ k * R) L -> 0 <= n <= 64 -> n <= L -> n <= k -> 0 <= a < 2 ^ n ->
  exists s' pre, getBits n s = Ok (a, s') /\ GI s' (V' + 2 ^ (k - n) * R) (L - n) /\ snd s = pre ++ snd s'.
Proof.
  intros HG Hn HL Hk Ha. destruct (getBits_spec n s _ L HG Hn HL) as (s' & pre & E & HG' & Hs).
  rewrite mod_pow_add in E by lia.
  rewrite (Z.mul_comm (2 ^ n)), Z.mod_add, Z.mod_small in E by lia.
  rewrite (Z.mul_comm (2 ^ n)) in HG'.
  rewrite div_pow_split in HG' by lia. rewrite Z.div_add, Z.div_small in HG' by lia.
  rewrite Z.add_0_l in HG'. eauto.
Qed.

Definition gor_inv (st : fstate) : Prop :=
  0 <= s_prev st < 2 ^ 64 /\
  (s_lead st = 255 \/ (0 <= s_lead st <= 31 /\ 0 <= s_trail st /\ s_lead st + s_trail st <= 63)).

Lemma gor_inv_reset : gor_inv reset_state.
Proof. split; cbn; [lia|left; reflexivity]. Qed.

Lemma gor_start bs rest V N :
  bytes bs -> bytes rest -> le_val bs = V -> N <= 8 * zlen bs ->
  GI (0, 0, bs ++ rest) (V + 2 ^ (8 * zlen bs) * le_val rest) (8 * zlen bs + 8 * zlen rest).
Proof.
  intros Hb Hr HV HN. pose proof (GI_init (bs ++ rest)) as H.
  rewrite le_val_app, zlen_app, HV, pow256_2 in H by (unfold zlen; lia).
  replace (8 * (zlen bs + zlen rest)) with (8 * zlen bs + 8 * zlen rest) in H by lia.
  apply H. apply bytes_app; auto.
Qed.

Lemma gor_trail_lt x t : 0 < x < 2 ^ 64 -> 0 <= t <= ctz64 x -> x = 2 ^ t * (x / 2 ^ t).
Proof.
  intros Hx Ht. destruct (ctz64_spec x Hx) as [H1 H2].
  rewrite H2 at 2. replace (ctz64 x) with (t + (ctz64 x - t)) at 1 by lia.
  rewrite Z.pow_add_r by lia. rewrite <- Z.mul_assoc.
  pose proof (pow2_pos t). rewrite (Z.mul_comm (2 ^ t) (_ * _)), Z.div_mul by lia.
  rewrite Z.mul_comm, <- Z.mul_assoc. rewrite H2 at 1.
  replace (ctz64 x) with ((ctz64 x - t) + t) at 1 by lia. rewrite Z.pow_add_r by lia. ring.
Qed.
Lemma gor_meaning x t m : 0 < x -> 0 <= t -> 0 <= m -> x < 2 ^ (m + t) -> 0 <= x / 2 ^ t < 2 ^ m.
Proof.
  intros. pose proof (pow2_pos t). split; [apply Z.div_pos; lia|].
  apply Z.div_lt_upper_bound; [lia|]. rewrite <- Z.pow_add_r by lia. replace (t + m) with (m + t) by lia. lia.
Qed.

Ltac gstep a V' k R HG :=
  match goal with |- context [getBits ?n ?s] =>
    let s' := fresh "s" in let pre := fresh "pre" in let E := fresh "E" in
    let HG' := fresh "HG" in let Hs := fresh "Hs" in
    destruct (getBits_take n s a V' k R _ HG) as (s' & pre & E & HG' & Hs);
    [lia|lia|lia| |rewrite E; clear E; cbn [bind]]
  end.

Lemma gor_roundtrip st cur st' bs rest :
  gor_inv st -> 0 <= cur < 2 ^ 64 -> bytes rest -> gor_encode st cur = (st', bs) ->
  gor_decode st (bs ++ rest) = Ok (st', cur, rest) /\ gor_inv st' /\ s_prev st' = cur /\ bytes bs /\ 1 <= zlen bs <= 10.
Proof.
  intros [Hp Hw] Hc Hr HE. pose proof (zlen_nonneg rest) as Hzr. unfold gor_encode in HE. unfold gor_decode.
  destruct (s_first st) eqn:Ef.
  { apply pair_equal_spec in HE; destruct HE as [<- <-].
    pose proof (putBits_spec _ _ _ cur 64 GB_init ltac:(lia) Hc) as HB.
    rewrite Z.mod_small in HB by lia. change (2 ^ 0) with 1 in HB. rewrite Z.mul_1_l, !Z.add_0_l in HB.
    apply gor_align_spec in HB. destruct HB as (_ & Hb & HV & HN).
    set (bs := gor_align (putBits (0, 0, []) cur 64)) in *.
    clearbody bs.
    pose proof (gor_start bs rest cur 64 Hb Hr HV ltac:(lia)) as HG.
    assert (Hz : zlen bs = 8) by lia.
    rewrite <- (Z.add_0_r cur) in HG at 1. change (cur + 0) with (cur + 2 ^ 64 * 0) in HG.
    gstep cur 0 (8 * zlen bs) (le_val rest) HG; [lia|].
    destruct s as [[b c] inp]. cbn [snd] in Hs.
    assert (inp = rest) by (eapply GI_rest; [exact HG0|exact Hs|]; lia). subst inp.
    repeat split; cbn [s_prev s_lead s_trail]; try lia; try assumption. }
  assert (Hx : 0 <= Z.lxor cur (s_prev st) < 2 ^ 64) by (apply lxor_bound; lia).
  set (x := Z.lxor cur (s_prev st)) in *.
  assert (Hcur : Z.lxor x (s_prev st) = cur) by (unfold x; rewrite Z.lxor_assoc, Z.lxor_nilpotent, Z.lxor_0_r; reflexivity).
  destruct (x =? 0) eqn:Ex.
  { assert (x = 0) by lia. assert (cur = s_prev st) by (apply Z.lxor_eq; unfold x in *; lia).
    apply pair_equal_spec in HE; destruct HE as [<- <-].
    pose proof (putBits_spec _ _ _ 0 1 GB_init ltac:(lia) ltac:(lia)) as HB.
    change (0 + 2 ^ 0 * (0 mod 2 ^ 1)) with 0 in HB. change (0 + 1) with 1 in HB.
    apply gor_align_spec in HB. destruct HB as (_ & Hb & HV & HN).
    set (bs := gor_align (putBits (0, 0, []) 0 1)) in *.
    clearbody bs.
    pose proof (gor_start bs rest 0 1 Hb Hr HV ltac:(lia)) as HG.
    assert (Hz : zlen bs = 1) by lia.
    change (GI (0, 0, bs ++ rest) (0 + 2 ^ 1 * 0 + 2 ^ (8 * zlen bs) * le_val rest) (8 * zlen bs + 8 * zlen rest)) in HG.
    gstep 0 0 (8 * zlen bs) (le_val rest) HG; [lia|].
    change (0 =? 0) with true. cbv iota.
    destruct s as [[b c] inp]. cbn [snd] in Hs.
    assert (inp = rest) by (eapply GI_rest; [exact HG0|exact Hs|]; lia). subst inp.
    repeat split; cbn [s_prev s_lead s_trail]; try lia; try congruence. }
  assert (Hx0 : 0 < x < 2 ^ 64) by lia.
  destruct (clz64_spec x Hx0) as [Hl1 Hl2]. destruct (ctz64_spec x Hx0) as [Ht1 _].
  pose proof (clz_ctz x Hx0) as Hlt.
  pose proof (putBits_spec _ _ _ 1 1 GB_init ltac:(lia) ltac:(lia)) as HB1.
  change (0 + 2 ^ 0 * (1 mod 2 ^ 1)) with 1 in HB1. change (0 + 1) with 1 in HB1.
  destruct (negb (s_lead st =? 255) && (s_lead st <=? clz64 x) && (s_trail st <=? ctz64 x)) eqn:Ew.
  - destruct Hw as [Hw|Hw]; [lia|].
    set (m := 64 - s_lead st - s_trail st) in *.
    assert (Hshift : x = 2 ^ s_trail st * (x / 2 ^ s_trail st)) by (apply gor_trail_lt; lia).
    assert (Hmean : 0 <= x / 2 ^ s_trail st < 2 ^ m).
    { apply gor_meaning; try lia. eapply Z.lt_le_trans; [exact Hl2|]. apply pow2_mono. lia. }
    set (d := x / 2 ^ s_trail st) in *.
    pose proof (putBits_spec _ _ _ 0 1 HB1 ltac:(lia) ltac:(lia)) as HB2.
    change (1 + 2 ^ 1 * (0 mod 2 ^ 1)) with 1 in HB2. change (1 + 1) with 2 in HB2.
    rewrite shiftr_div in HE by lia. fold d in HE.
    assert (Hd64 : 0 <= d < 2 ^ 64) by (split; [lia|]; eapply Z.lt_le_trans; [apply Hmean|]; apply pow2_mono; lia).
    pose proof (putBits_spec _ _ _ d m HB2 ltac:(lia) Hd64) as HB3.
    rewrite (Z.mod_small d) in HB3 by lia.
    apply gor_align_spec in HB3. destruct HB3 as (_ & Hb & HV & HN).
    apply pair_equal_spec in HE; destruct HE as [<- HEb]. rewrite HEb in *. clear HEb.
    pose proof (gor_start bs rest _ (2 + m) Hb Hr HV ltac:(lia)) as HG.
    replace (1 + 2 ^ 2 * d) with (1 + 2 ^ 1 * (0 + 2 ^ 1 * (d + 2 ^ m * 0))) in HG by (change (2 ^ 2) with 4; change (2 ^ 1) with 2; lia).
    gstep 1 (0 + 2 ^ 1 * (d + 2 ^ m * 0)) (8 * zlen bs) (le_val rest) HG; [lia|].
    change (1 =? 0) with false. cbv iota.
    gstep 0 (d + 2 ^ m * 0) (8 * zlen bs - 1) (le_val rest) HG0; [lia|].
    change (0 =? 0) with true. cbv iota.
    assert (Hm8 : u8 m = m) by (unfold u8; apply Z.mod_small; lia).
    fold m. rewrite Hm8.
    gstep d 0 (8 * zlen bs - 1 - 1) (le_val rest) HG1; [lia|].
    destruct s1 as [[b c] inp]. cbn [snd] in Hs1.
    assert (inp = rest).
    { eapply (GI_rest b c inp _ _ bs rest (pre ++ pre0 ++ pre1)); [exact HG2| |lia].
      cbn [snd] in Hs. rewrite Hs, Hs0, Hs1, !app_assoc. reflexivity. }
    subst inp.
    replace (64 <=? s_trail st) with false by lia.
    rewrite shiftl_mul by lia.
    replace (d * 2 ^ s_trail st) with x by lia.
    rewrite u64_id by exact Hx. rewrite Hcur.
    repeat split; cbn [s_prev s_lead s_trail]; try lia; try assumption.
  - set (stored := if 31 <? clz64 x then 31 else clz64 x) in *.
    assert (Hst : 0 <= stored <= 31 /\ stored <= clz64 x) by (unfold stored; destruct (31 <? clz64 x) eqn:?; lia).
    clearbody stored.
    set (t := ctz64 x) in *.
    set (m := 64 - stored - t) in *.
    assert (Hm : 1 <= m <= 64) by lia.
    assert (Hshift : x = 2 ^ t * (x / 2 ^ t)) by (apply gor_trail_lt; lia).
    assert (Hmean : 0 <= x / 2 ^ t < 2 ^ m).
    { apply gor_meaning; try lia. eapply Z.lt_le_trans; [exact Hl2|]. apply pow2_mono. lia. }
    rewrite shiftr_div in HE by lia.
    set (d := x / 2 ^ t) in *.
    pose proof (putBits_spec _ _ _ 1 1 HB1 ltac:(lia) ltac:(lia)) as HB2.
    change (1 + 2 ^ 1 * (1 mod 2 ^ 1)) with 3 in HB2. change (1 + 1) with 2 in HB2.
    pose proof (putBits_spec _ _ _ stored 5 HB2 ltac:(lia) ltac:(lia)) as HB3.
    rewrite (Z.mod_small stored) in HB3 by (change (2 ^ 5) with 32; lia).
    pose proof (putBits_spec _ _ _ (m - 1) 6 HB3 ltac:(lia) ltac:(lia)) as HB4.
    rewrite (Z.mod_small (m - 1)) in HB4 by (change (2 ^ 6) with 64; lia).
    assert (Hd64 : 0 <= d < 2 ^ 64) by (split; [lia|]; eapply Z.lt_le_trans; [apply Hmean|]; apply pow2_mono; lia).
    pose proof (putBits_spec _ _ _ d m HB4 ltac:(lia) Hd64) as HB5.
    rewrite (Z.mod_small d) in HB5 by lia.
    apply gor_align_spec in HB5. destruct HB5 as (_ & Hb & HV & HN).
    apply pair_equal_spec in HE; destruct HE as [<- HEb]. rewrite HEb in *. clear HEb.
    change (2 + 5) with 7 in *. change (7 + 6) with 13 in *.
    pose proof (gor_start bs rest _ (13 + m) Hb Hr HV ltac:(lia)) as HG.
    replace (3 + 2 ^ 2 * stored + 2 ^ 7 * (m - 1) + 2 ^ 13 * d)
      with (1 + 2 ^ 1 * (1 + 2 ^ 1 * (stored + 2 ^ 5 * ((m - 1) + 2 ^ 6 * (d + 2 ^ m * 0))))) in HG
      by (change (2 ^ 2) with 4; change (2 ^ 1) with 2; change (2 ^ 5) with 32; change (2 ^ 6) with 64;
          change (2 ^ 7) with 128; change (2 ^ 13) with 8192; lia).
    gstep 1 (1 + 2 ^ 1 * (stored + 2 ^ 5 * ((m - 1) + 2 ^ 6 * (d + 2 ^ m * 0)))) (8 * zlen bs) (le_val rest) HG; [lia|].
    change (1 =? 0) with false. cbv iota.
    gstep 1 (stored + 2 ^ 5 * ((m - 1) + 2 ^ 6 * (d + 2 ^ m * 0))) (8 * zlen bs - 1) (le_val rest) HG0; [lia|].
    change (1 =? 0) with false. cbv iota.
    gstep stored ((m - 1) + 2 ^ 6 * (d + 2 ^ m * 0)) (8 * zlen bs - 1 - 1) (le_val rest) HG1; [change (2 ^ 5) with 32; lia|].
    gstep (m - 1) (d + 2 ^ m * 0) (8 * zlen bs - 1 - 1 - 5) (le_val rest) HG2; [change (2 ^ 6) with 64; lia|].
    replace (m - 1 + 1) with m by lia.
    assert (Hm8 : u8 m = m) by (unfold u8; apply Z.mod_small; lia).
    rewrite !Hm8.
    gstep d 0 (8 * zlen bs - 1 - 1 - 5 - 6) (le_val rest) HG3; [lia|].
    destruct s3 as [[b c] inp]. cbn [snd] in Hs3.
    assert (inp = rest).
    { eapply (GI_rest b c inp _ _ bs rest (pre ++ pre0 ++ pre1 ++ pre2 ++ pre3)); [exact HG4| |lia].
      cbn [snd] in Hs. rewrite Hs, Hs0, Hs1, Hs2, Hs3, !app_assoc. reflexivity. }
    subst inp.
    replace (64 - stored - m) with t by lia.
    assert (Ht8 : u8 t = t) by (unfold u8; apply Z.mod_small; lia).
    rewrite !Ht8.
    replace (64 <=? t) with false by lia.
    rewrite shiftl_mul by lia.
    replace (d * 2 ^ t) with x by lia.
    rewrite u64_id by exact Hx. rewrite Hcur.
    repeat split; cbn [s_prev s_lead s_trail]; try lia; try assumption.
Qed.
