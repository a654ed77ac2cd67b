(** Facts for C87: the exact number of bytes the per-point encoders write. *)
From Verif Require Import Base BaseFacts Varint VarintFacts Types Floats Fields Codec V5 Api Spec LibSpec SeqSpec BytesSpec.
From Verif Require Import GorillaFacts FieldFacts WriteFacts CodecFacts BuildFacts RunFacts SectionFacts PaletteFacts V5Facts ChunkV5Facts Stage1Facts ApiFacts CloudFacts RoundTrip PropsHostile.

Lemma uvarint_log v : 0 <= v < 2 ^ 64 -> zlen (uvarint v) = 1 + Z.log2 v / 7.
Proof.
  intros Hv. unfold uvarint.
  assert (G : forall fuel v, 0 <= v < 2 ^ (7 * Z.of_nat (S fuel)) -> zlen (uvarint_loop (S fuel) v) = 1 + Z.log2 v / 7).
  { clear. induction fuel as [|fuel IH]; intros v Hv.
    - cbn [uvarint_loop]. replace (127 <? v) with false by (change (2 ^ (7 * Z.of_nat 1)) with 128 in Hv; lia).
      assert (Z.log2 v < 7). { destruct (Z.eq_dec v 0) as [->|]; [cbn; lia|]. apply Z.log2_lt_pow2; change (2 ^ (7 * Z.of_nat 1)) with 128 in Hv; change (2 ^ 7) with 128; lia. }
      pose proof (Z.log2_nonneg v). rewrite Z.div_small by lia. reflexivity.
    - cbn [uvarint_loop]. destruct (Z.ltb_spec 127 v) as [L|L].
      + change (zlen (?a :: ?l)) with (Z.of_nat (S (length l))). rewrite Nat2Z.inj_succ. fold (zlen (uvarint_loop (S fuel) (Z.shiftr v 7))).
        assert (Hs : 0 <= Z.shiftr v 7 < 2 ^ (7 * Z.of_nat (S fuel))).
        { rewrite Z.shiftr_div_pow2 by lia. change (2 ^ 7) with 128. split; [apply Z.div_pos; lia|]. apply Z.div_lt_upper_bound; [lia|].
          replace (7 * Z.of_nat (S (S fuel))) with (7 + 7 * Z.of_nat (S fuel)) in Hv by lia. rewrite Z.pow_add_r in Hv by lia. change (2 ^ 7) with 128 in Hv. lia. }
        pose proof (IH _ Hs) as E. cbn [uvarint_loop] in E |- *. unfold zlen in *. rewrite E. rewrite Z.log2_shiftr by lia.
        assert (7 <= Z.log2 v) by (apply Z.log2_le_pow2; [lia|change (2 ^ 7) with 128; lia]).
        rewrite Z.max_r by lia. replace (Z.log2 v - 7) with (Z.log2 v + (-1) * 7) by lia. rewrite Z.div_add by lia. lia.
      + assert (Z.log2 v < 7). { destruct (Z.eq_dec v 0) as [->|]; [cbn; lia|]. apply Z.log2_lt_pow2; [lia|]. change (2 ^ 7) with 128. lia. }
        pose proof (Z.log2_nonneg v). rewrite Z.div_small by lia. reflexivity. }
  apply G. change (2 ^ (7 * Z.of_nat 10)) with 1180591620717411303424. change (2 ^ 64) with 18446744073709551616 in Hv. lia.
Qed.
Lemma varint_log d : -9223372036854775808 <= d < 9223372036854775808 -> zlen (encodeVarint64 d) = step_bytes d.
Proof.
  intros Hd. unfold encodeVarint64, step_bytes. rewrite zigzag1_spec by exact Hd. unfold u64. change (2 ^ 64) with 18446744073709551616.
  rewrite uvarint_log by (change (2 ^ 64) with 18446744073709551616; apply Z.mod_pos_bound; lia).
  destruct (Z.leb_spec 0 d) as [A|A]; destruct (Z.ltb_spec d 0) as [B|B]; try lia; do 4 f_equal; lia.
Qed.

(** Which fields an encoder object serves. *)
Inductive serves (i : info) : fenc -> list (field * lossk) -> Prop :=
| sv_copy f k : style_of i f k = Fixed (Z.of_nat (SizeOf (f_type f))) -> serves i (ECopy (f_off f) (SizeOf (f_type f))) [(f, k)]
| sv_int f : is_int_type (f_type f) -> style_of i f KId = Steps -> serves i (EInt (f_off f) (f_type f)) [(f, KId)]
| sv_l32 f r : f_type f = FLOAT32 -> serves i (ELossy32 (f_off f) r) [(f, K32 r)]
| sv_l64 f r : f_type f = FLOAT64 -> serves i (ELossy64 (f_off f) r) [(f, K64 r)]
| sv_xor f sz : style_of i f KId = Fixed (Z.of_nat sz) -> serves i (EXor (f_off f) sz) [(f, KId)]
| sv_gor f : f_type f = FLOAT64 -> style_of i f KId = Windowed -> serves i (EGorilla (f_off f)) [(f, KId)]
| sv_vec l : (length l <= 4)%nat -> Forall (fun fr => f_type (fst fr) = FLOAT32) l ->
    serves i (EFloatN (map (fun fr => (f_off (fst fr), snd fr)) l)) (map (fun fr : field * Z => (fst fr, KN (snd fr))) l).

Definition at_f (f : field) (view : list Z) : list Z := sub (f_off f) (SizeOf (f_type f)) view.
Definition last_number (ops : float_ops) (f : field) (k : lossk) (past : list (list Z)) : Z :=
  match past with v :: _ => match number ops (f_type f) k (at_f f v) with Some q => q | None => 0 end | [] => 0 end.
Definition vb (ops : float_ops) (i : info) (prev : list (list Z)) (view : list Z) (fk : field * lossk) : Z :=
  value_bytes ops i (fst fk) (snd fk) (map (at_f (fst fk)) prev) (at_f (fst fk) view).
Definition vbs (ops : float_ops) (i : info) (prev : list (list Z)) (view : list Z) (l : list (field * lossk)) : Z :=
  fold_right (fun fk s => vb ops i prev view fk + s) 0 l.
(** The state of the Gorilla encoder in terms of the values before. *)
Definition gor_track (st : fstate) (past : list (list Z)) : Prop :=
  gor_inv st /\ match past with [] => s_first st = true | p :: _ => s_first st = false /\ s_prev st = le_val p end /\
  match window past with None => s_lead st = 255 | Some (hi, lo) => 0 <= s_lead st <= 31 /\ s_lead st = 63 - hi /\ s_trail st = lo end.
Lemma find_seq_shift (x : Z) n a : 0 <= x -> find (Z.testbit x) (map Z.of_nat (seq (S a) n)) = option_map (Z.add 1) (find (Z.testbit (x / 2)) (map Z.of_nat (seq a n))).
Proof.
  intros Hx. revert a. induction n as [|n IH]; intros a; [reflexivity|]. cbn [seq map find].
  assert (T : Z.testbit (x / 2) (Z.of_nat a) = Z.testbit x (Z.succ (Z.of_nat a))).
  { apply Z.div2_bits. lia. }
  rewrite Nat2Z.inj_succ, T. destruct (Z.testbit x (Z.succ (Z.of_nat a))) eqn:E.
  - cbn [option_map]. f_equal. lia.
  - apply IH.
Qed.
Lemma ctz_find k x : 0 < x < 2 ^ Z.of_nat k -> find (Z.testbit x) (map Z.of_nat (seq 0 k)) = Some (ctz_loop k x).
Proof.
  revert x. induction k as [|k IH]; intros x Hx; [change (2 ^ Z.of_nat 0) with 1 in Hx; lia|].
  cbn [seq map find ctz_loop]. change (Z.of_nat 0) with 0. rewrite Z.bit0_odd. destruct (Z.odd x) eqn:E; [reflexivity|].
  rewrite find_seq_shift by lia. rewrite Nat2Z.inj_succ, Z.pow_succ_r in Hx by lia.
  assert (Hev : x = 2 * (x / 2)).
  { pose proof (Zodd_mod x) as Ho. rewrite E in Ho. pose proof (Z.div_mod x 2). 
    assert (x mod 2 = 0 \/ x mod 2 = 1) as [?|Hm] by lia; [lia|]. rewrite Hm in Ho. discriminate. }
  rewrite IH by lia. reflexivity.
Qed.
Lemma ctz_lowest x : 0 < x < 2 ^ 64 -> ctz64 x = lowest x.
Proof. intros Hx. unfold ctz64, lowest. destruct (x =? 0) eqn:E; [lia|]. rewrite (ctz_find 64) by exact Hx. reflexivity. Qed.
Lemma align_bytes b V N : GB b V N -> zlen (gor_align b) = bits_to_bytes N.
Proof. intros H. apply gor_align_spec in H. destruct H as (_ & _ & _ & H). unfold bits_to_bytes. apply Z.div_unique with (r := N + 7 - 8 * zlen (gor_align b)); lia. Qed.
Lemma gor_size st past cur st' bs : gor_track st past -> 0 <= le_val cur < 2 ^ 64 -> gor_encode st (le_val cur) = (st', bs) ->
  zlen bs = changed_bytes past cur /\ gor_track st' (cur :: past).
Proof.
  intros (HI & HP & HW) Hc HE. pose proof (gor_roundtrip st (le_val cur) st' bs [] HI Hc (Forall_nil _) HE) as (_ & HI' & _).
  destruct HI as [Hp Hl]. unfold gor_encode in HE. unfold gor_track, changed_bytes. destruct past as [|p past].
  { rewrite HP in HE. apply pair_equal_spec in HE. destruct HE as [<- <-]. split; [|split; [exact HI'|split; [split; reflexivity|exact HW]]].
    rewrite (align_bytes _ _ _ (putBits_spec _ _ _ (le_val cur) 64 GB_init ltac:(lia) Hc)). reflexivity. }
  destruct HP as [HF HP]. rewrite HF, HP, Z.lxor_comm in HE. fold (changed p cur) in HE. cbv zeta in HE. cbv zeta. change (window (cur :: p :: past)) with
    (let x := changed p cur in if x =? 0 then window (p :: past) else match window (p :: past) with Some (hi, lo) => if in_window x hi lo then Some (hi, lo) else Some (new_window x) | None => Some (new_window x) end). cbv zeta.
  assert (Hx : 0 <= changed p cur < 2 ^ 64) by (unfold changed; rewrite <- HP; apply lxor_bound; lia). set (x := changed p cur) in *. clearbody x.
  set (w := window (p :: past)) in *. clearbody w. destruct (x =? 0) eqn:E0.
  { apply pair_equal_spec in HE. destruct HE as [<- <-]. split; [|split; [exact HI'|split; [split; reflexivity|exact HW]]].
    rewrite (align_bytes _ _ _ (putBits_spec _ _ _ 0 1 GB_init ltac:(lia) ltac:(lia))). reflexivity. }
  assert (Hx0 : 0 < x < 2 ^ 64) by lia. destruct (clz64_spec x Hx0) as [Hl1 _]. destruct (ctz64_spec x Hx0) as [Ht1 _]. pose proof (clz_ctz x Hx0) as Hlt.
  pose proof (ctz_lowest x Hx0) as HLo. assert (HHi : clz64 x = 63 - highest x) by (unfold clz64, highest; rewrite E0; reflexivity).
  pose proof (putBits_spec _ _ _ 1 1 GB_init ltac:(lia) ltac:(lia)) as HB1.
  assert (HD : forall t, 0 <= t -> 0 <= Z.shiftr x t < 2 ^ 64).
  { intros t Ht. rewrite Z.shiftr_div_pow2 by lia. pose proof (pow2_pos t Ht). split; [apply Z.div_pos; lia|]. apply Z.div_lt_upper_bound; [lia|]. nia. }
  assert (HU : negb (s_lead st =? 255) && (s_lead st <=? clz64 x) && (s_trail st <=? ctz64 x) = match w with Some (hi, lo) => in_window x hi lo | None => false end).
  { destruct w as [[hi lo]|]; [|rewrite HW; reflexivity]. destruct HW as (W1 & W2 & W3). unfold in_window. rewrite <- HLo, W3.
    replace (s_lead st =? 255) with false by lia. cbn [negb andb]. f_equal. apply eq_true_iff_eq. rewrite !Z.leb_le. lia. }
  rewrite HU in HE. clear HU.
  assert (HN : forall y, (if 31 <? clz64 x then 31 else clz64 x) = y -> y = 63 - fst (new_window x)) by (unfold new_window; cbn [fst]; intros y <-; destruct (31 <? clz64 x) eqn:E; lia).
  set (stored := if 31 <? clz64 x then 31 else clz64 x) in *. specialize (HN _ eq_refl). assert (Hst : 0 <= stored <= 31 /\ stored <= clz64 x) by (unfold stored; destruct (31 <? clz64 x) eqn:E; lia). clearbody stored.
  unfold new_window in *. cbn [fst] in HN.
  assert (HFresh : zlen (gor_align (putBits (putBits (putBits (putBits (putBits (0, 0, []) 1 1) 1 1) stored 5) (64 - stored - ctz64 x - 1) 6) (Z.shiftr x (ctz64 x)) (64 - stored - ctz64 x))) =
    bits_to_bytes (13 + (Z.max 32 (highest x) - lowest x + 1))).
  { pose proof (putBits_spec _ _ _ 1 1 HB1 ltac:(lia) ltac:(lia)) as HB2. pose proof (putBits_spec _ _ _ stored 5 HB2 ltac:(lia) ltac:(lia)) as HB3.
    pose proof (putBits_spec _ _ _ (64 - stored - ctz64 x - 1) 6 HB3 ltac:(lia) ltac:(lia)) as HB4.
    pose proof (putBits_spec _ _ _ (Z.shiftr x (ctz64 x)) (64 - stored - ctz64 x) HB4 ltac:(lia) (HD _ (proj1 Ht1))) as HB5.
    rewrite (align_bytes _ _ _ HB5). f_equal. lia. }
  assert (HNew : forall st'' o, (mkState (le_val cur) false stored (ctz64 x) (s_vec st), gor_align (putBits (putBits (putBits (putBits (putBits (0, 0, []) 1 1) 1 1) stored 5) (64 - stored - ctz64 x - 1) 6) (Z.shiftr x (ctz64 x)) (64 - stored - ctz64 x))) = (st'', o) ->
    zlen o = bits_to_bytes (13 + (Z.max 32 (highest x) - lowest x + 1)) /\ (s_first st'' = false /\ s_prev st'' = le_val cur) /\ 0 <= s_lead st'' <= 31 /\ s_lead st'' = 63 - Z.max 32 (highest x) /\ s_trail st'' = lowest x).
  { intros st'' o E. apply pair_equal_spec in E. destruct E as [<- <-]. split; [exact HFresh|]. cbn [s_first s_prev s_lead s_trail]. repeat split; lia. }
  destruct w as [[hi lo]|].
  - destruct (in_window x hi lo) eqn:EI.
    + destruct HW as (W1 & W2 & W3). destruct Hl as [Hl|Hl]; [lia|]. apply pair_equal_spec in HE. destruct HE as [<- <-].
      split; [|split; [exact HI'|split; [split; reflexivity|cbn [s_lead s_trail]; lia]]].
      pose proof (putBits_spec _ _ _ 0 1 HB1 ltac:(lia) ltac:(lia)) as HB2.
      pose proof (putBits_spec _ _ _ (Z.shiftr x (s_trail st)) (64 - s_lead st - s_trail st) HB2 ltac:(lia) (HD (s_trail st) ltac:(lia))) as HB3.
      rewrite (align_bytes _ _ _ HB3). f_equal. lia.
    + destruct (HNew _ _ HE) as (A & B & C). split; [exact A|]. split; [exact HI'|]. split; [exact B|exact C].
  - destruct (HNew _ _ HE) as (A & B & C). split; [exact A|]. split; [exact HI'|]. split; [exact B|exact C].
Qed.
(** The state of an encoder object in terms of the points before. *)
Definition tracks (ops : float_ops) (e : fenc) (l : list (field * lossk)) (st : fstate) (prev : list (list Z)) : Prop :=
  match e, l with
  | (EInt _ _ | ELossy32 _ _ | ELossy64 _ _), (f, k) :: _ => s_prev st = last_number ops f k prev
  | EGorilla _, (f, _) :: _ => gor_track st (map (at_f f) prev)
  | EFloatN _, _ => length (s_vec st) = 4%nat /\ firstn (length l) (s_vec st) = map (fun fk => last_number ops (fst fk) (snd fk) prev) l
  | _, _ => True
  end.
Lemma tracks_reset ops i e l : serves i e l -> tracks ops e l reset_state [].
Proof.
  intros H. inversion H; subst; cbn [tracks reset_state s_prev s_first s_vec last_number]; auto.
  - split; [apply (st_inv_reset (EGorilla 0))|split; reflexivity].
  - split; [reflexivity|]. rewrite map_length, map_map. cbn [last_number]. clear H H1.
    destruct l0 as [|? [|? [|? [|? [|]]]]]; cbn in *; try reflexivity; lia.
Qed.
(** At most, and exactly unless some field is coded by its changed bits. *)
Definition near (b : bool) (x y : Z) : Prop := x <= y /\ (b = true -> x = y).
Lemma near_add b x y x' y' : near b x y -> near b x' y' -> near b (x + x') (y + y').
Proof. unfold near. intros [A B] [C D]. split; [lia|]. intros E. specialize (B E). specialize (D E). lia. Qed.
Lemma near_refl b x : near b x x.
Proof. split; [lia|reflexivity]. Qed.

Lemma at_len f view : rd (f_off f) (SizeOf (f_type f)) view = Ok (at_f f view) \/ rd (f_off f) (SizeOf (f_type f)) view = UB.
Proof. unfold rd, at_f, sub. destruct (_ && _); auto. Qed.
Lemma step_size_z b x : zlen (encodeVarint64 (s64 x)) = step_bytes (s64 x) -> near b (zlen (encodeVarint64 (s64 x))) (step_bytes (s64 x)).
Proof. intros ->. apply near_refl. Qed.
(** The lanes of the vector encoder. *)
Lemma lanes_size ops i view : bytes view -> forall (l : list (field * Z)) vec prev vec' o, Forall (fun fr => f_type (fst fr) = FLOAT32) l ->
  firstn (length l) vec = map (fun fr => last_number ops (fst fr) (KN (snd fr)) prev) l ->
  floatn_encode ops (map (fun fr => (f_off (fst fr), snd fr)) l) vec view = Ok (vec', o) ->
  zlen o = vbs ops i prev view (map (fun fr => (fst fr, KN (snd fr))) l) /\ vec' = map (fun fr => last_number ops (fst fr) (KN (snd fr)) (view :: prev)) l.
Proof.
  intros Hv. induction l as [|[f r] l IH]; intros vec prev vec' o HT HP HE; cbn [map floatn_encode] in HE.
  - apply ok_pair in HE. destruct HE as [<- <-]. split; reflexivity.
  - destruct vec as [|p vec]; [discriminate|]. inversion HT as [|? ? H1 H2]; subst. cbn [fst snd] in *. cbn [length firstn map fst snd] in HP.
    apply bind_ok in HE. destruct HE as (bs & Hr & HE). apply rd_sub in Hr. destruct Hr as (-> & _).
    destruct (lane_encode ops r p (le_val (sub (f_off f) 4 view))) as [p' o1] eqn:EL.
    apply bind_ok in HE. destruct HE as ([ps outs] & HR & HE). apply ok_pair in HE. destruct HE as [<- <-].
    assert (Hp : p = last_number ops f (KN r) prev) by congruence. assert (HP' : firstn (length l) vec = map (fun fr => last_number ops (fst fr) (KN (snd fr)) prev) l) by congruence.
    destruct (IH _ _ _ _ H2 HP' HR) as (E1 & E2). cbn [map vbs fold_right]. fold (vbs ops i prev view (map (fun fr => (fst fr, KN (snd fr))) l)). rewrite zlen_app, E1.
    assert (Hat : at_f f view = sub (f_off f) 4 view) by (unfold at_f; now rewrite H1).
    unfold lane_encode in EL. unfold vb, value_bytes, last_number. cbn [fst snd style_of number wrap]. rewrite Hat.
    destruct (isnan32 (le_val (sub (f_off f) 4 view))); apply pair_equal_spec in EL; destruct EL as [<- <-].
    + split; [reflexivity|]. now rewrite E2.
    + rewrite varint_log by (pose proof (s32_range (s32 (qN ops r (le_val (sub (f_off f) 4 view))) - p)); lia). split; [|now rewrite E2]. f_equal. f_equal. f_equal. f_equal. rewrite Hp.
      unfold last_number. destruct prev; reflexivity.
Qed.
Lemma step_size ops i e l st prev view st' o : serves i e l -> tracks ops e l st prev -> bytes view ->
  enc_step ops e st view = Ok (st', o) -> zlen o = vbs ops i prev view l /\ tracks ops e l st' (view :: prev).
Proof.
  intros HS HT Hv HE. inversion HS; subst; cbn [enc_step] in HE; cbn [tracks] in HT; unfold vbs; cbn [fold_right]; rewrite ?Z.add_0_r; unfold vb; cbn [fst snd].
  - (* copy *) apply bind_ok in HE. destruct HE as (bs & Hr & HE). apply rd_sub in Hr. destruct Hr as (-> & Hl & _). apply ok_pair in HE. destruct HE as [<- <-].
    unfold value_bytes. rewrite H. unfold zlen. rewrite Hl. split; [apply @eq_refl|exact I].
  - (* int *) apply bind_ok in HE. destruct HE as (bs & Hr & HE). apply rd_sub in Hr. destruct Hr as (-> & Hl & _). apply ok_pair in HE. destruct HE as [<- <-].
    fold (at_f f view) in *. assert (HN : number ops (f_type f) KId (at_f f view) = Some (to_int64 (f_type f) (at_f f view))) by (apply int_value_spec; [exact H|apply sub_bytes, Hv|exact Hl]).
    unfold value_bytes. rewrite H0, HN. cbn [wrap]. rewrite varint_log by apply s64_range. rewrite HT. split.
    + destruct prev; reflexivity.
    + cbn [tracks last_number set_prev s_prev]. now rewrite HN.
  - apply bind_ok in HE. destruct HE as (bs & Hr & HE). apply rd_sub in Hr. destruct Hr as (-> & Hl & _). assert (Hat : at_f f view = sub (f_off f) 4 view) by (unfold at_f; now rewrite H).
    unfold value_bytes. cbn [style_of number coded_value wrap]. rewrite Hat.
    cbn [number coded_value]. destruct (isnan32 (le_val (sub (f_off f) 4 view))) eqn:EN; apply ok_pair in HE; destruct HE as [<- <-].
    + split; [apply @eq_refl|]. cbn [tracks last_number set_prev s_prev number coded_value]. now rewrite Hat, EN.
    + rewrite varint_log by apply s64_range. rewrite HT. split; [destruct prev; apply @eq_refl|]. cbn [tracks last_number set_prev s_prev number coded_value]. now rewrite Hat, EN.
  - apply bind_ok in HE. destruct HE as (bs & Hr & HE). apply rd_sub in Hr. destruct Hr as (-> & Hl & _). assert (Hat : at_f f view = sub (f_off f) 8 view) by (unfold at_f; now rewrite H).
    unfold value_bytes. cbn [style_of number coded_value wrap]. rewrite Hat.
    destruct (isnan64 (le_val (sub (f_off f) 8 view))) eqn:EN; apply ok_pair in HE; destruct HE as [<- <-].
    + split; [apply @eq_refl|]. cbn [tracks last_number set_prev s_prev number coded_value]. now rewrite Hat, EN.
    + rewrite varint_log by apply s64_range. rewrite HT. split; [destruct prev; apply @eq_refl|]. cbn [tracks last_number set_prev s_prev number coded_value]. now rewrite Hat, EN.
  - apply bind_ok in HE. destruct HE as (bs & Hr & HE). apply ok_pair in HE. destruct HE as [<- <-].
    unfold value_bytes. rewrite H. rewrite zlen_le. split; [apply @eq_refl|exact I].
  - (* gorilla *) 
    apply bind_ok in HE. destruct HE as (bs & Hr & HE). apply rd_sub in Hr. destruct Hr as (-> & Hl & _). assert (Hat : at_f f view = sub (f_off f) 8 view) by (unfold at_f; now rewrite H).
    rewrite <- Hat in *. unfold value_bytes. rewrite H0.
    destruct (gor_size st (map (at_f f) prev) (at_f f view) st' o HT) as (A1 & A2); [|congruence|split; [exact A1|exact A2]].
    pose proof (le_val_range (at_f f view) ltac:(rewrite Hat; apply sub_bytes, Hv)) as HR. unfold zlen in HR. rewrite Hl in HR. exact HR.
  - (* vector *) apply bind_ok in HE. destruct HE as (_u & _ & HE). apply bind_ok in HE. destruct HE as ([vec' out] & HF & HE). apply ok_pair in HE. destruct HE as [<- <-].
    destruct HT as [H4 HT]. rewrite map_length, map_map in HT. cbn [fst snd] in HT.
    destruct (lanes_size ops i view Hv l0 (s_vec st) prev vec' out H0 HT HF) as (E1 & E2).
    split; [rewrite E1; unfold vbs, vb; apply @eq_refl|]. cbn [tracks set_vec s_vec]. rewrite map_length, map_map. cbn [fst snd].
    assert (Hlv : length vec' = length l0) by (rewrite E2; apply map_length).
    split; [rewrite app_length, skipn_length; lia|]. rewrite <- Hlv at 1. rewrite firstn_app, Nat.sub_diag, firstn_all, firstn_O, app_nil_r. exact E2.
Qed.

(** One point, then a chunk. *)
Definition all_serve (i : info) (es : list fenc) (l : list (field * lossk)) : Prop := exists ls, Forall2 (serves i) es ls /\ concat ls = l.
Lemma vbs_app ops i prev view a c : vbs ops i prev view (a ++ c) = vbs ops i prev view a + vbs ops i prev view c.
Proof. induction a as [|x a IH]; [reflexivity|]. cbn [app vbs fold_right]. fold (vbs ops i prev view (a ++ c)) (vbs ops i prev view a). lia. Qed.
Definition tracks_all (ops : float_ops) (es : list fenc) (ls : list (list (field * lossk))) (sts : list fstate) (prev : list (list Z)) : Prop :=
  Forall2 (fun el st => tracks ops (fst el) (snd el) st prev) (combine es ls) sts.
Lemma point_size ops i view : bytes view -> forall es ls, Forall2 (serves i) es ls ->
  forall sts prev sts' o, tracks_all ops es ls sts prev -> enc_point ops es sts view = Ok (sts', o) ->
  zlen o = vbs ops i prev view (concat ls) /\ tracks_all ops es ls sts' (view :: prev).
Proof.
  intros Hv es ls HS. induction HS as [|e l es ls H HS IH]; intros sts prev sts' o HT HE; inversion HT as [|[e0 l0] st es0 sts0 T1 T2]; subst; cbn [enc_point] in HE.
  - apply ok_pair in HE. destruct HE as [<- <-]. split; [reflexivity|constructor].
  - apply bind_ok in HE. destruct HE as ([st' o1] & E1 & HE). apply bind_ok in HE. destruct HE as ([sts'' o2] & E2 & HE). apply ok_pair in HE. destruct HE as [<- <-]. cbn [fst snd] in T1. cbn [concat] in *.
    destruct (step_size ops i e l st prev view st' o1 H T1 Hv E1) as (A1 & A2).
    destruct (IH sts0 prev sts'' o2 T2 E2) as (B1 & B2).
    rewrite zlen_app, vbs_app. split; [lia|]. constructor; assumption.
Qed.
(** Sum over the points of a chunk. *)
Fixpoint chunk_vbs (ops : float_ops) (i : info) (step : nat) (l : list (field * lossk)) (k : nat) (prev : list (list Z)) (view : list Z) : Z :=
  match k with O => 0 | S k => vbs ops i prev view l + chunk_vbs ops i step l k (view :: prev) (skipn step view) end.
Lemma points_size ops i step es ls : (0 < step)%nat -> Forall2 (serves i) es ls ->
  forall k sts prev view rest o, bytes view -> (k * step <= length view)%nat -> tracks_all ops es ls sts prev -> enc_points_v4 ops es step k sts view = Ok (rest, o) ->
  zlen o = chunk_vbs ops i step (concat ls) k prev view.
Proof.
  intros Hst HS. induction k as [|k IH]; intros sts prev view rest o Hv Hl HT HE; cbn [enc_points_v4] in HE.
  - apply ok_pair in HE. destruct HE as [_ <-]. reflexivity.
  - destruct view as [|x view]; [cbn in Hl; lia|]. set (v := x :: view) in *. clearbody v.
    apply bind_ok in HE. destruct HE as ([sts' o1] & E1 & HE). apply bind_ok in HE. destruct HE as (v' & E2 & HE). apply bind_ok in HE. destruct HE as ([r o2] & E3 & HE). apply ok_pair in HE. destruct HE as [<- <-].
    assert (Hv' : v' = skipn step v). { unfold trim_front in E2. destruct (_ <? _)%nat in E2; [discriminate|]. congruence. } subst v'.
    destruct (point_size ops i v Hv es ls HS sts prev sts' o1 HT E1) as (A1 & A2).
    cbn [chunk_vbs]. rewrite zlen_app, A1. f_equal. apply (IH sts' (v :: prev) _ r o2); [apply bytes_skipn, Hv|rewrite skipn_length; lia|exact A2|exact E3].
Qed.
Lemma tracks_resets ops i es ls : Forall2 (serves i) es ls -> tracks_all ops es ls (resets es) [].
Proof. intros H. unfold tracks_all, resets. induction H as [|e l es ls H HS IH]; cbn [combine map]; constructor; [|exact IH]. eapply tracks_reset, H. Qed.
(** In terms of the points of the cloud. *)
Lemma at_fbytes i f cloud j : layout_ok i -> In f (i_fields i) -> at_f f (skipn (j * Z.to_nat (i_step i)) cloud) = fbytes i f cloud j.
Proof.
  intros [Hs HF] Hin. rewrite Forall_forall in HF. specialize (HF f Hin). unfold at_f, fbytes, sub. rewrite skipn_skipn. do 2 f_equal. rewrite Z2Nat.inj_add by nia. rewrite Z2Nat.inj_mul by lia. rewrite Nat2Z.id. lia.
Qed.
Definition sumn (g : nat -> Z) (n : nat) : Z := fold_right (fun j s => g j + s) 0 (seq 0 n).
Lemma sumn_S g n : sumn g (S n) = sumn g n + g n.
Proof.
  unfold sumn. rewrite seq_S, fold_right_app. cbn [Nat.add fold_right]. generalize (seq 0 n). intros l. induction l as [|x l IH]; cbn [fold_right]; lia.
Qed.
Lemma sumn_add g a c : sumn g (a + c) = sumn g a + sumn (fun j => g (a + j)%nat) c.
Proof. induction c as [|c IH]; [rewrite Nat.add_0_r; unfold sumn at 3; cbn; lia|]. rewrite <- plus_n_Sm, !sumn_S, IH. lia. Qed.
Lemma sumn_ext g h n : (forall j, (j < n)%nat -> g j = h j) -> sumn g n = sumn h n.
Proof. intros H. induction n as [|n IH]; [reflexivity|]. rewrite !sumn_S, IH, H by (intros; try apply H; lia). reflexivity. Qed.
Definition views (i : info) (cloud : list Z) (j m : nat) : list (list Z) := map (fun r => skipn ((j - 1 - r) * Z.to_nat (i_step i)) cloud) (seq 0 m).
Lemma views_S i cloud j m : views i cloud (S j) (S m) = skipn (j * Z.to_nat (i_step i)) cloud :: views i cloud j m.
Proof.
  unfold views. cbn [seq map]. f_equal; [do 2 f_equal; lia|]. rewrite <- seq_shift, map_map. apply map_ext. intros r. do 2 f_equal. lia.
Qed.
Lemma vbs_point ops i ppc cloud l j : layout_ok i -> Forall (fun fk => In (fst fk) (i_fields i)) l ->
  vbs ops i (views i cloud j (j mod ppc)) (skipn (j * Z.to_nat (i_step i)) cloud) l = point_bytes ops i ppc cloud l j.
Proof.
  intros HL HF. unfold vbs, point_bytes. induction HF as [|[f k] l H HF IH]; [reflexivity|]. cbn [fold_right fst snd] in *. rewrite IH. f_equal. unfold vb. cbn [fst snd]. rewrite at_fbytes by assumption.
  f_equal. unfold views. rewrite map_map. apply map_ext. intros r. now rewrite at_fbytes.
Qed.
Lemma chunk_points ops i ppc cloud l : layout_ok i -> Forall (fun fk => In (fst fk) (i_fields i)) l -> (0 < ppc)%nat ->
  forall k j, (j mod ppc + k <= ppc)%nat ->
  chunk_vbs ops i (Z.to_nat (i_step i)) l k (views i cloud j (j mod ppc)) (skipn (j * Z.to_nat (i_step i)) cloud) =
  sumn (fun r => point_bytes ops i ppc cloud l (j + r)) k.
Proof.
  intros HL HF Hp. induction k as [|k IH]; intros j Hj; [reflexivity|]. cbn [chunk_vbs]. rewrite vbs_point by assumption.
  rewrite (sumn_add _ 1 k : sumn _ (S k) = _). unfold sumn at 1. cbn [seq fold_right]. rewrite Nat.add_0_r, Z.add_0_r. f_equal.
  destruct k as [|k]; [reflexivity|].
  assert (Hm : ((S j) mod ppc = S (j mod ppc))%nat).
  { pose proof (Nat.div_mod j ppc ltac:(lia)) as HD. replace (S j) with (j mod ppc + 1 + (j / ppc) * ppc)%nat by lia. rewrite Nat.mod_add by lia. rewrite Nat.mod_small; lia. }
  specialize (IH (S j) ltac:(lia)). rewrite Hm, views_S in IH.
  rewrite skipn_skipn. replace (Z.to_nat (i_step i) + j * Z.to_nat (i_step i))%nat with (S j * Z.to_nat (i_step i))%nat by lia.
  rewrite IH. apply sumn_ext. intros r Hr. f_equal. lia.
Qed.
(** The builders. *)
Lemma create_serves i f e : coded_enc i -> CreateCompatibleEncoder i f = Ok e -> serves i e [(f, fkind i f)].
Proof.
  unfold coded_enc, CreateCompatibleEncoder, fkind, lossy_kind. intros HC HE.
  assert (X : forall x y : fenc, Ok x = Ok y -> x = y) by (intros; congruence).
  destruct (f_type f) eqn:ET; try discriminate HE.
  all: try (apply X in HE; subst e; destruct (is_lossy (i_enc i)); rewrite <- ET; constructor; unfold style_of; rewrite ET; destruct (i_enc i); try contradiction; reflexivity || exact I).
  all: unfold has_res, res_of in HE; destruct (f_res f) as [r|] eqn:ER; destruct (i_enc i) eqn:EE; try contradiction; cbn [is_lossy andb negb] in HE |- *.
  all: try (destruct (f32_le0 r); [discriminate HE|]).
  all: try (destruct (4 <=? i_version i) eqn:EV); apply X in HE; subst e.
  all: try (constructor; (exact ET || (unfold style_of; rewrite ?EE, ?ET, ?ER, ?EV; reflexivity))).
  all: try (change 4%nat with (SizeOf FLOAT32); rewrite <- ET; constructor; unfold style_of; rewrite ?EE, ?ET, ?ER, ?EV; reflexivity).
Qed.
Lemma lead_serves i le : leading_encoder i = Ok le -> all_serve i le (map (fun f => (f, vector_kind f)) (firstn (LeadingLossyFloatFieldCount i) (i_fields i))).
Proof.
  intros HE. unfold leading_encoder in HE. destruct (lead_cases i) as [Hc Hn]. cbv zeta in Hc, Hn. set (n := LeadingLossyFloatFieldCount i) in *.
  destruct (n =? 0)%nat eqn:E0.
  - injection HE as <-. apply Nat.eqb_eq in E0. rewrite E0. exists []. split; [constructor|reflexivity].
  - apply Nat.eqb_neq in E0. destruct (existsb _ _); [discriminate|]. injection HE as <-.
    destruct Hc as [Hc|[Hc Hl]]; [lia|]. pose proof (lead_run_fields (i_fields i) n Hn) as HF.
    assert (Hlen : (length (firstn n (i_fields i)) <= 4)%nat) by (rewrite firstn_length; lia). 
    exists [map (fun f => (f, vector_kind f)) (firstn n (i_fields i))]. split; [|apply app_nil_r]. constructor; [|constructor].
    assert (E1 : lanes_of (firstn n (i_fields i)) = map (fun fr => (f_off (fst fr), snd fr)) (map (fun f => (f, res_of f)) (firstn n (i_fields i)))) by (unfold lanes_of; now rewrite map_map).
    assert (E2 : map (fun f => (f, vector_kind f)) (firstn n (i_fields i)) = map (fun fr : field * Z => (fst fr, KN (snd fr))) (map (fun f => (f, res_of f)) (firstn n (i_fields i)))).
    { rewrite map_map. clear - HF. induction HF as [|f l [Ht (r & Hr)] _ IH]; [reflexivity|]. cbn [map fst snd]. rewrite IH. unfold vector_kind, res_of. now rewrite Hr. }
    rewrite E1, E2. constructor; [rewrite map_length; exact Hlen|].
    clear - HF. induction HF as [|f l [Ht _] _ IH]; cbn [map]; constructor; [exact Ht|exact IH].
Qed.
Lemma mapM_serves i fs re : coded_enc i -> mapM (CreateCompatibleEncoder i) fs = Ok re -> all_serve i re (map (fun f => (f, fkind i f)) fs).
Proof.
  intros HC H. apply mapM_F2 in H. exists (map (fun f => [(f, fkind i f)]) fs). split.
  - induction H as [|f e fs re H1 H IH]; constructor; [now apply create_serves|exact IH].
  - clear. induction fs as [|f fs IH]; [reflexivity|]. cbn [map concat app]. now rewrite IH.
Qed.
Lemma serve_app i a b la lb : all_serve i a la -> all_serve i b lb -> all_serve i (a ++ b) (la ++ lb).
Proof. intros (x & X1 & <-) (y & Y1 & <-). exists (x ++ y). split; [now apply Forall2_app|apply concat_app]. Qed.
Lemma build_serves i (sel : ftype -> bool) le re : coded_enc i -> sel FLOAT32 = true -> leading_encoder i = Ok le ->
  mapM (CreateCompatibleEncoder i) (filter (fun f => sel (f_type f)) (skipn (LeadingLossyFloatFieldCount i) (i_fields i))) = Ok re ->
  all_serve i (le ++ re) (filter (fun fk => sel (f_type (fst fk))) (fks i)).
Proof.
  intros HC Hsel HL HR. pose proof (coded_known i HC) as HK. destruct (lead_cases i) as [_ Hle]. cbv zeta in Hle.
  apply lead_serves in HL. apply mapM_serves in HR; [|exact HC]. set (n := LeadingLossyFloatFieldCount i) in *.
  assert (F1 : filter (fun f => sel (f_type f)) (firstn n (i_fields i)) = firstn n (i_fields i)).
  { apply filter_all. eapply Forall_impl; [|apply (lead_run_fields (i_fields i) n Hle)]. cbn. intros f [-> _]. exact Hsel. }
  rewrite fks_split, filter_app by exact HK. fold n. rewrite !filter_map. cbn [fst]. rewrite F1. now apply serve_app.
Qed.
Lemma v4_serves i es : known_enc i -> BuildV4Encoders i = Ok es -> all_serve i es (fks i).
Proof.
  intros HK HE. unfold BuildV4Encoders in HE.
  assert (X : coded_enc i -> (do lead <- leading_encoder i ; do rest <- mapM (CreateCompatibleEncoder i) (skipn (LeadingLossyFloatFieldCount i) (i_fields i)) ; Ok (lead ++ rest)) = Ok es -> all_serve i es (fks i)).
  { intros HC H. apply bind_ok in H. destruct H as (le & HL & H). apply bind_ok in H. destruct H as (re & HR & H).
    assert (es = le ++ re) by congruence. subst es. pose proof (build_serves i (fun _ => true) le re HC eq_refl HL) as B. rewrite !filter_true in B. now apply B. }
  destruct (i_enc i) eqn:EE; try (apply X; [unfold coded_enc; rewrite EE; exact I|exact HE]).
  - assert (Y : es = map (fun f => ECopy (f_off f) (SizeOf (f_type f))) (i_fields i)) by congruence. subst es. unfold fks, kinds. rewrite EE. rewrite combine_map.
    exists (map (fun f => [(f, KId)]) (i_fields i)). split.
    + clear X HE. induction (i_fields i) as [|f fs IH]; constructor; [|exact IH]. constructor. unfold style_of. now rewrite EE.
    + clear. induction (i_fields i) as [|f fs IH]; [reflexivity|]. cbn [map concat app]. now rewrite IH.
  - unfold known_enc in HK. rewrite EE in HK. destruct HK.
Qed.
Lemma plan_serves i es afs : UsesV5Codec i = true -> BuildV5Plan i = Ok (es, afs) -> all_serve i es (filter (fun fk => regular (f_type (fst fk))) (fks i)).
Proof.
  intros HU HB. destruct (v5_lossy i HU) as [He _]. unfold BuildV5Plan in HB. rewrite He in HB. cbn [is_lossy andb] in HB.
  apply bind_ok in HB. destruct HB as (le & HL & HB). apply bind_ok in HB. destruct HB as (re & HR & HB). apply ok_pair in HB. destruct HB as [<- _].
  apply build_serves; auto. unfold coded_enc. rewrite He. exact I.
Qed.
Lemma fks_fields i : known_enc i -> Forall (fun fk => In (fst fk) (i_fields i)) (fks i).
Proof. intros _. apply Forall_forall. intros [f k] H. unfold fks in H. apply in_combine_l in H. exact H. Qed.
(** ** The regular part of a chunk *)
Lemma chunk_size ops i ppc cloud es l c k rest o : layout_ok i -> bytes cloud -> all_serve i es l -> Forall (fun fk => In (fst fk) (i_fields i)) l ->
  (0 < ppc)%nat -> (k <= ppc)%nat -> ((c * ppc + k) * Z.to_nat (i_step i) <= length cloud)%nat ->
  enc_points_v4 ops es (Z.to_nat (i_step i)) k (resets es) (skipn (c * ppc * Z.to_nat (i_step i)) cloud) = Ok (rest, o) ->
  zlen o = sumn (fun r => point_bytes ops i ppc cloud l (c * ppc + r)) k.
Proof.
  intros HL Hc (ls & HS & <-) HF Hp Hk Hlen HE. assert (Hs : (0 < Z.to_nat (i_step i))%nat) by (destruct HL; lia).
  pose proof (points_size ops i (Z.to_nat (i_step i)) es ls Hs HS k (resets es) [] (skipn (c * ppc * Z.to_nat (i_step i)) cloud) rest o (bytes_skipn _ _ Hc) ltac:(rewrite skipn_length; nia) (tracks_resets ops i es ls HS) HE) as H.
  assert (Hm : ((c * ppc) mod ppc = 0)%nat) by (apply Nat.mod_mul; lia).
  pose proof (chunk_points ops i ppc cloud (concat ls) HL HF Hp k (c * ppc) ltac:(lia)) as E. rewrite Hm in E. unfold views in E. cbn [seq map] in E. now rewrite E in H.
Qed.
