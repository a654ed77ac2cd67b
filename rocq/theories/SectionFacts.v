(** V5 integer sections: runs, bit packing, palette and the four section decoders. *)
From Verif Require Export RunFacts V5.

(** The writes of one adaptive field: value bytes [bss] from point [i] on. *)
Fixpoint sec_writes (a : afield) (base step i : Z) (bss : list (list Z)) : list (Z * list Z) :=
  match bss with
  | [] => []
  | bs :: bss' => (base + i * step + a_off a, bs) :: sec_writes a base step (i + 1) bss'
  end.
Lemma sec_writes_app a base step : forall b1 b2 i,
  sec_writes a base step i (b1 ++ b2) = sec_writes a base step i b1 ++ sec_writes a base step (i + zlen b1) b2.
Proof.
  induction b1 as [|b b1 IH]; intros b2 i; cbn [sec_writes app].
  - unfold zlen. cbn. f_equal. lia.
  - rewrite IH. do 3 f_equal. unfold zlen. cbn [length]. lia.
Qed.
Lemma put_value_wr a base step i v mem :
  put_value a base step i v mem = do_writes [(base + i * step + a_off a, le_bytes (a_size a) v)] mem.
Proof.
  unfold put_value, do_writes. cbn [do_stores]. rewrite Z.add_0_l. destruct (wr _ _ _); reflexivity.
Qed.
Lemma do_writes_cons w ws mem : do_writes (w :: ws) mem = do m <- do_writes [w] mem ; do_writes ws m.
Proof. apply (do_writes_app [w] ws). Qed.

(** ** Runs *)
Definition expand (rs : list (Z * Z)) : list Z := flat_map (fun r => repeat (fst r) (Z.to_nat (snd r))) rs.
Lemma repeat_shift {A} (x : A) n l : repeat x n ++ x :: l = x :: repeat x n ++ l.
Proof. induction n; cbn; [reflexivity|]. now rewrite IHn. Qed.
Lemma run_groups_spec l : forall cur len, 1 <= len ->
  expand (run_groups cur len l) = repeat cur (Z.to_nat len) ++ l /\
  Forall (fun r => 1 <= snd r <= len + zlen l) (run_groups cur len l) /\
  (length (run_groups cur len l) <= S (length l))%nat.
Proof.
  induction l as [|x l IH]; intros cur len Hl; cbn [run_groups].
  - unfold expand. cbn. repeat split; auto. constructor; [|constructor]. unfold zlen. cbn. lia.
  - destruct (Z.eqb_spec x cur) as [->|Hx].
    + destruct (IH cur (len + 1) ltac:(lia)) as (-> & H2 & H3). repeat split.
      * replace (Z.to_nat (len + 1)) with (S (Z.to_nat len)) by lia. cbn. now rewrite repeat_shift.
      * eapply Forall_impl; [|exact H2]. cbn. unfold zlen. cbn [length]. lia.
      * cbn [length]. lia.
    + destruct (IH x 1 ltac:(lia)) as (E & H2 & H3). unfold expand in *. cbn [flat_map fst snd]. rewrite E.
      cbn [Z.to_nat Pos.to_nat Pos.iter_op repeat app length]. repeat split.
      * constructor; [cbn; unfold zlen; lia|]. eapply Forall_impl; [|exact H2]. cbn. unfold zlen. cbn [length]. lia.
      * lia.
Qed.
Lemma runs_spec l : expand (runs l) = l /\ Forall (fun r => 1 <= snd r <= zlen l) (runs l) /\
  (length (runs l) <= length l)%nat.
Proof.
  destruct l as [|x l]; cbn [runs]; [cbn; auto|].
  destruct (run_groups_spec l x 1 ltac:(lia)) as (E & H2 & H3). rewrite E. cbn. repeat split; auto.
  eapply Forall_impl; [|exact H2]. cbn. unfold zlen. cbn [length]. lia.
Qed.

(** ** Values and differences *)
Definition vals (a : afield) (bss : list (list Z)) : list Z := map (to_int64 (a_type a)) bss.
Definition rawsof (bss : list (list Z)) : list Z := map le_val bss.
Definition field_bytes (a : afield) (bs : list Z) : Prop := bytes bs /\ length bs = a_size a.
Definition in64 (v : Z) : Prop := -9223372036854775808 <= v < 9223372036854775808.

(** [prevs p vs]: undo [diffs]. *)
Fixpoint sums (prev : Z) (ds : list Z) : list Z :=
  match ds with [] => [] | d :: ds' => let v := s64 (prev + d) in v :: sums v ds' end.
Lemma sums_diffs vs : forall prev, Forall in64 vs -> sums prev (diffs prev vs) = vs.
Proof.
  induction vs as [|v vs IH]; intros prev H; [reflexivity|]. inversion H; subst. cbn [diffs sums].
  rewrite s64_delta by assumption. f_equal. now apply IH.
Qed.
Lemma diffs_length vs : forall p, length (diffs p vs) = length vs.
Proof. induction vs; intros; cbn; auto. Qed.
Lemma diffs_range vs : forall p, Forall in64 (diffs p vs).
Proof. induction vs; intros; cbn; constructor; auto. apply s64_range. Qed.
Lemma sums_app a b : forall p, sums p (a ++ b) = sums p a ++ sums (last (sums p a) p) b.
Proof.
  induction a as [|d a IH]; intros p; [reflexivity|]. cbn [sums app]. rewrite IH. cbn [app]. f_equal. f_equal.
  f_equal. destruct (sums (s64 (p + d)) a) as [|z l] eqn:E; [reflexivity|].
  cbn [last]. clear. revert z. induction l; intros; cbn; auto.
Qed.

(** A difference list that the varint can carry. *)
Definition okdiffs (ds : list Z) : Prop := Forall (fun d => -9223372036854775808 < d < 9223372036854775808) ds.

(** ** DeltaVarint *)
Lemma dec_delta_spec a base step rest : forall ds n i prev mem,
  okdiffs ds -> n = length ds ->
  dec_delta a base step n i prev (flat_map encodeVarint64 ds ++ rest) mem =
    do m <- do_writes (sec_writes a base step i (map (le_bytes (a_size a)) (sums prev ds))) mem ; Ok (rest, m).
Proof.
  induction ds as [|d ds IH]; intros n i prev mem Hd ->; cbn [length dec_delta flat_map app sums map sec_writes].
  - reflexivity.
  - inversion Hd; subst. rewrite <- app_assoc, decodeVarint_encode by assumption. cbn [bind].
    rewrite skipn_app_len by reflexivity. rewrite do_writes_cons, put_value_wr.
    destruct (do_writes [_] mem) as [m| |]; cbn [bind]; try reflexivity. now apply IH.
Qed.

(** ** Bit packing *)
Fixpoint pack_val (bits : Z) (idx : list Z) : Z :=
  match idx with [] => 0 | i :: idx' => i + 2 ^ bits * pack_val bits idx' end.
Lemma pack_val_nonneg bits idx : 0 <= bits -> Forall (fun i => 0 <= i < 2 ^ bits) idx ->
  0 <= pack_val bits idx < 2 ^ (bits * zlen idx).
Proof.
  intros Hb. induction 1 as [|i idx Hi _ IH]; cbn [pack_val].
  - unfold zlen. cbn. rewrite Z.mul_0_r. cbn. lia.
  - unfold zlen in *. cbn [length]. rewrite Nat2Z.inj_succ. replace (bits * Z.succ (Z.of_nat (length idx))) with (bits + bits * Z.of_nat (length idx)) by lia.
    rewrite Z.pow_add_r by lia. nia.
Qed.
Lemma pack_drain_spec fuel : forall scratch held out, 0 <= held < 8 * Z.of_nat fuel + 8 -> 0 <= scratch < 2 ^ held -> bytes out ->
  let '(s', h', o') := pack_drain fuel scratch held out in
  0 <= h' < 8 /\ 0 <= s' < 2 ^ h' /\ bytes o' /\ 8 * zlen o' + h' = 8 * zlen out + held /\
  le_val o' + 256 ^ zlen o' * s' = le_val out + 256 ^ zlen out * scratch.
Proof.
  induction fuel as [|fuel IH]; intros scratch held out Hh Hs Ho; cbn [pack_drain].
  - repeat split; auto; lia.
  - destruct (8 <=? held) eqn:E.
    2:{ repeat split; auto; lia. }
    assert (H8 : 2 ^ held = 256 * 2 ^ (held - 8)).
    { change 256 with (2 ^ 8). rewrite <- Z.pow_add_r by lia. f_equal. lia. }
    specialize (IH (Z.shiftr scratch 8) (held - 8) (out ++ [Z.land scratch 255])).
    rewrite shiftr_div in * by lia. change (2 ^ 8) with 256 in *. rewrite land255 in *.
    destruct (pack_drain fuel (scratch / 256) (held - 8) (out ++ [scratch mod 256])) as [[s' h'] o'].
    destruct IH as (A & B & C & D & F); [lia|nia| |].
    { apply bytes_app. split; auto. constructor; [unfold is_byte; lia|constructor]. }
    repeat split; auto; try lia.
    + rewrite zlen_app in D. unfold zlen in *. cbn [length] in D. lia.
    + rewrite F, le_val_app, zlen_app. unfold zlen. cbn [length le_val].
      rewrite Z.pow_add_r by lia. change (256 ^ Z.of_nat 1) with 256. 
      set (P := 256 ^ Z.of_nat (length out)). nia.
Qed.
Lemma pack_loop_spec bits : 0 < bits <= 32 -> forall idx scratch held out,
  Forall (fun i => 0 <= i < 2 ^ bits) idx -> 0 <= held < 8 -> 0 <= scratch < 2 ^ held -> bytes out ->
  let o' := pack_loop bits idx scratch held out in
  bytes o' /\ zlen o' = (8 * zlen out + held + bits * zlen idx + 7) / 8 /\
  le_val o' = le_val out + 256 ^ zlen out * (scratch + 2 ^ held * pack_val bits idx).
Proof.
  intros Hb. induction idx as [|i idx IH]; intros scratch held out Hi Hh Hs Ho; cbn [pack_loop pack_val].
  - destruct (0 <? held) eqn:E.
    + rewrite land255. assert (2 ^ held <= 128) by (change 128 with (2 ^ 7); apply Z.pow_le_mono_r; lia).
      rewrite Z.mod_small by lia. rewrite zlen_app, le_val_app. cbn [le_val].
      split; [|split].
      * apply bytes_app. split; auto. constructor; [unfold is_byte; lia|constructor].
      * unfold zlen. cbn [length]. lia.
      * change (zlen (@nil Z)) with 0. ring.
    + assert (held = 0) by lia. subst held. change (2 ^ 0) with 1 in *. assert (scratch = 0) by lia. subst.
      split; [auto|split].
      * unfold zlen. cbn [length]. lia.
      * lia.
  - inversion Hi as [|? ? Hi1 Hi2]; subst.
    assert (Hp : 2 ^ (held + bits) = 2 ^ held * 2 ^ bits) by (apply Z.pow_add_r; lia).
    assert (Hle : 2 ^ (held + bits) <= 2 ^ 40) by (apply Z.pow_le_mono_r; lia). change (2 ^ 40) with 1099511627776 in Hle.
    pose proof (pow2_pos held ltac:(lia)) as Hph.
    assert (E1 : Z.lor scratch (u64 (Z.shiftl i held)) = scratch + i * 2 ^ held).
    { rewrite shiftl_mul, u64_id by nia. rewrite lor_disjoint_add by lia. reflexivity. }
    rewrite E1.
    pose proof (pack_drain_spec 32 (scratch + i * 2 ^ held) (held + bits) out ltac:(lia) ltac:(nia) Ho) as HD.
    destruct (pack_drain 32 (scratch + i * 2 ^ held) (held + bits) out) as [[s' h'] o'].
    destruct HD as (A & B & C & D & F).
    destruct (IH s' h' o' Hi2 A B C) as (G1 & G2 & G3).
    split; [exact G1|split].
    + cbn zeta in *. rewrite G2. unfold zlen in *. cbn [length]. f_equal. lia.
    + cbn zeta in *. rewrite G3.
      assert (E2 : 256 ^ zlen o' * 2 ^ h' = 256 ^ zlen out * 2 ^ (held + bits)).
      { change 256 with (2 ^ 8). rewrite <- !Z.pow_mul_r, <- !Z.pow_add_r by (unfold zlen; lia). f_equal. lia. }
      rewrite Z.mul_add_distr_l, Z.add_assoc, F, Z.mul_assoc, E2, Hp. ring.
Qed.
Lemma packIndexes_spec bits idx : 0 <= bits <= 32 -> Forall (fun i => 0 <= i < 2 ^ bits) idx ->
  bytes (packIndexes idx bits) /\ zlen (packIndexes idx bits) = (bits * zlen idx + 7) / 8 /\
  le_val (packIndexes idx bits) = pack_val bits idx.
Proof.
  intros Hb Hi. unfold packIndexes. destruct (Z.eqb_spec bits 0) as [->|Hn].
  - split; [constructor|split]; [reflexivity|]. cbn [le_val]. change (2 ^ 0) with 1 in Hi. induction Hi; cbn [pack_val]; change (2^0) with 1; lia.
  - destruct (pack_loop_spec bits ltac:(lia) idx 0 0 [] Hi ltac:(lia) ltac:(cbn; lia) ltac:(constructor)) as (A & B & C).
    cbn zeta in *. split; [exact A|split].
    + rewrite B. f_equal.
    + rewrite C. change (256 ^ zlen (@nil Z)) with 1. cbn [le_val]. change (2 ^ 0) with 1. lia.
Qed.

(** Reading: the reader's state stands for [scratch + 2^held * le_val ptr]. *)
Lemma idx_fill_spec bits : 0 < bits <= 32 -> forall fuel scratch held ptr,
  0 <= held -> bits + 8 <= 8 * Z.of_nat fuel + held -> held < bits + 8 -> 0 <= scratch < 2 ^ held -> bytes ptr -> bits <= held + 8 * zlen ptr ->
  exists s' h' p', idx_fill fuel bits scratch held ptr = Ok (s', h', p') /\
    bits <= h' < bits + 8 /\ 0 <= s' < 2 ^ h' /\ bytes p' /\ h' + 8 * zlen p' = held + 8 * zlen ptr /\
    s' + 2 ^ h' * le_val p' = scratch + 2 ^ held * le_val ptr.
Proof.
  intros Hb. induction fuel as [|fuel IH]; intros scratch held ptr Hh Hf Hh8 Hs Hp Hl; cbn [idx_fill]; [lia|].
  destruct (held <? bits) eqn:E.
  - destruct ptr as [|b ptr]; [unfold zlen in Hl; cbn in Hl; lia|]. inversion Hp as [|? ? Hb1 Hp1]; subst. unfold is_byte in Hb1.
    assert (Hph := pow2_pos held Hh).
    assert (Hle : 2 ^ held <= 2 ^ 32) by (apply Z.pow_le_mono_r; lia). change (2 ^ 32) with 4294967296 in Hle.
    assert (E1 : Z.lor scratch (u64 (Z.shiftl b held)) = scratch + b * 2 ^ held).
    { rewrite shiftl_mul, u64_id by nia. rewrite lor_disjoint_add by lia. reflexivity. }
    rewrite E1.
    assert (E2 : 2 ^ (held + 8) = 2 ^ held * 256) by (rewrite Z.pow_add_r by lia; reflexivity).
    unfold zlen in *. cbn [length] in Hl.
    destruct (IH (scratch + b * 2 ^ held) (held + 8) ptr) as (s' & h' & p' & -> & A & B & C & D & F); try lia; try nia; auto.
    exists s', h', p'. repeat split; auto; try lia.
    + cbn [length]. lia.
    + cbn [le_val]. rewrite F, E2. ring.
  - exists scratch, held, ptr. repeat split; auto; lia.
Qed.
Lemma readIndex_spec bits scratch held ptr : 0 <= bits <= 32 -> 0 <= held < 8 -> 0 <= scratch < 2 ^ held -> bytes ptr ->
  bits <= held + 8 * zlen ptr ->
  exists s' h' p', readBitpackedIndex bits scratch held ptr =
      Ok ((scratch + 2 ^ held * le_val ptr) mod 2 ^ bits, s', h', p') /\
    0 <= h' < 8 /\ 0 <= s' < 2 ^ h' /\ bytes p' /\ h' + 8 * zlen p' = held + 8 * zlen ptr - bits /\
    s' + 2 ^ h' * le_val p' = (scratch + 2 ^ held * le_val ptr) / 2 ^ bits.
Proof.
  intros Hb Hh Hs Hp Hl. unfold readBitpackedIndex. destruct (Z.eqb_spec bits 0) as [->|Hn].
  - exists scratch, held, ptr. change (2 ^ 0) with 1. rewrite Z.mod_1_r, Z.div_1_r. repeat split; auto; lia.
  - destruct (idx_fill_spec bits ltac:(lia) 16 scratch held ptr) as (s' & h' & p' & -> & A & B & C & D & F); auto; try lia.
    cbn [bind]. exists (Z.shiftr s' bits), (h' - bits), p'.
    rewrite shiftr_div by lia. rewrite shiftl_mul, Z.mul_1_l by lia.
    replace (2 ^ bits - 1) with (Z.ones bits) by (rewrite Z.ones_equiv; lia).
    rewrite Z.land_ones by lia. rewrite <- F.
    assert (E : 2 ^ h' = 2 ^ bits * 2 ^ (h' - bits)) by (rewrite <- Z.pow_add_r by lia; f_equal; lia).
    pose proof (pow2_pos bits ltac:(lia)). pose proof (pow2_pos (h' - bits) ltac:(lia)).
    split.
    { do 4 f_equal. rewrite E. replace (s' + 2 ^ bits * 2 ^ (h' - bits) * le_val p') with (s' + (2 ^ (h' - bits) * le_val p') * 2 ^ bits) by ring.
      rewrite Z.mod_add by lia. reflexivity. }
    repeat split; auto; try lia.
    + apply Z.div_pos; lia.
    + apply Z.div_lt_upper_bound; lia.
    + rewrite E. replace (s' + 2 ^ bits * 2 ^ (h' - bits) * le_val p') with (s' + (2 ^ (h' - bits) * le_val p') * 2 ^ bits) by ring.
      rewrite Z.div_add by lia. reflexivity.
Qed.
Lemma dec_indexes_spec a base step bits pal : 0 <= bits <= 32 -> forall idx i scratch held ptr mem X,
  Forall (fun i => 0 <= i < 2 ^ bits /\ i < zlen pal) idx ->
  0 <= held < 8 -> 0 <= scratch < 2 ^ held -> bytes ptr ->
  bits * zlen idx <= held + 8 * zlen ptr ->
  scratch + 2 ^ held * le_val ptr = pack_val bits idx + 2 ^ (bits * zlen idx) * X ->
  dec_indexes a base step (length idx) i bits scratch held pal ptr mem =
    do_writes (sec_writes a base step i (map (fun k => le_bytes (a_size a) (nth (Z.to_nat k) pal 0)) idx)) mem.
Proof.
  intros Hb. induction idx as [|k idx IH]; intros i scratch held ptr mem X Hi Hh Hs Hp Hl HV; cbn [length dec_indexes map sec_writes].
  - reflexivity.
  - inversion Hi as [|? ? [Hk1 Hk2] Hi']; subst.
    assert (Hz : zlen (k :: idx) = zlen idx + 1) by (unfold zlen; cbn [length]; lia). rewrite Hz in *.
    pose proof (zlen_nonneg idx) as Hzi.
    destruct (readIndex_spec bits scratch held ptr Hb Hh Hs Hp ltac:(nia)) as (s' & h' & p' & E & A & B & C & D & F).
    rewrite E. cbn [bind]. pose proof (pow2_pos bits ltac:(lia)) as Hpb.
    assert (EV : scratch + 2 ^ held * le_val ptr = k + (pack_val bits idx + 2 ^ (bits * zlen idx) * X) * 2 ^ bits).
    { rewrite HV. cbn [pack_val]. replace (bits * (zlen idx + 1)) with (bits + bits * zlen idx) by lia. rewrite Z.pow_add_r by nia. ring. }
    rewrite EV in *. rewrite Z.mod_add, Z.mod_small by lia. rewrite Z.div_add, (Z.div_small k) in F by lia.
    destruct (nth_error pal (Z.to_nat k)) as [v|] eqn:En.
    2:{ apply nth_error_None in En. unfold zlen in Hk2. lia. }
    rewrite (nth_error_nth pal (Z.to_nat k) 0 En).
    rewrite do_writes_cons, put_value_wr. destruct (do_writes [_] mem) as [m| |]; cbn [bind]; try reflexivity.
    apply (IH (i + 1) s' h' p' m X); auto; nia.
Qed.
