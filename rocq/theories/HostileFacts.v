(** Memory safety of the decoders on arbitrary input: no out-of-bounds access, whatever
    the bytes.  Proof file. *)
From Verif Require Import Base Varint BaseFacts VarintFacts Types Floats Fields Codec V5 Api Spec LibSpec PaletteFacts.

Lemma zlen_cons {A} (x : A) l : zlen (x :: l) = zlen l + 1.
Proof. unfold zlen. cbn [length]. lia. Qed.

Definition suffix (a b : list Z) : Prop := exists pre, b = pre ++ a.
Lemma suffix_refl a : suffix a a. Proof. exists []. reflexivity. Qed.
Lemma suffix_trans a b c : suffix a b -> suffix b c -> suffix a c.
Proof. intros [p ->] [q ->]. exists (q ++ p). now rewrite app_assoc. Qed.
Lemma suffix_skipn n l : suffix (skipn n l) l.
Proof. exists (firstn n l). symmetry. apply firstn_skipn. Qed.
Lemma suffix_cons x l : suffix l (x :: l). Proof. exists [x]. reflexivity. Qed.

(** A store list that stays within a point of [step] bytes. *)
Definition span_ok (step : Z) (ob : Z * list Z) : Prop := 0 <= fst ob /\ fst ob + zlen (snd ob) <= step.
Lemma do_stores_in base step ss : forall mem, Forall (span_ok step) ss -> 0 <= base -> base + step <= zlen mem ->
  exists mem', do_stores base ss mem = Ok mem' /\ length mem' = length mem.
Proof.
  induction ss as [|[o bs] ss IH]; intros mem HF H0 H1; [exists mem; auto|].
  inversion HF as [|x y [Ha Hb] Hc]; subst. cbn [fst snd] in Ha, Hb. cbn [do_stores].
  destruct (wr (base + o) bs mem) as [m1| |] eqn:E.
  - cbn [bind]. apply wr_inv in E. destruct E as (_ & _ & _ & El).
    destruct (IH m1 Hc H0) as (m2 & E2 & El2); [unfold zlen in *; lia|]. exists m2. split; [exact E2|lia].
  - rewrite wr_ok in E by lia. discriminate.
  - rewrite wr_ok in E by lia. discriminate.
Qed.

Definition fit1 (step off : Z) (sz : nat) : Prop := off = kSkip \/ (0 <= off /\ off + Z.of_nat sz <= step).
Definition dec_fits (step : Z) (d : fdec) : Prop :=
  match d with
  | DCopy o s | DInt o s | DXor o s => fit1 step o s
  | DLossy32 o _ => fit1 step o 4
  | DLossy64 o _ | DGorilla o => fit1 step o 8
  | DFloatN ls => Forall (fun l => fit1 step (fst l) 4) ls
  end.
Lemma store_ok step off sz bs : fit1 step off sz -> length bs = sz -> Forall (span_ok step) (store off bs).
Proof.
  intros H E. unfold store. destruct (off =? kSkip) eqn:K; [constructor|]. constructor; [|constructor].
  destruct H as [H|H]; [lia|]. unfold span_ok, zlen; cbn [fst snd]. lia.
Qed.

(** The decoders that check for themselves that enough input is left. *)
Definition self_checked (d : fdec) : Prop :=
  match d with DInt _ _ => True | DFloatN ls => (length ls <= 4)%nat | DCopy o _ => o = kSkip | _ => False end.
(** The decoders that read a fixed number of bytes, unchecked. *)
Definition fixed_size (d : fdec) : Prop := match d with DCopy _ _ | DXor _ _ => True | _ => False end.
Definition st_ok (st : fstate) : Prop := length (s_vec st) = 4%nat.

Lemma floatn_safe ops step : forall lanes prev input, (length lanes <= length prev)%nat -> Forall (fun l => fit1 step (fst l) 4) lanes ->
  match floatn_decode ops lanes prev input with
  | Ok (v, input', ss) => length v = length lanes /\ suffix input' input /\ Forall (span_ok step) ss
  | Throw => True | UB => False end.
Proof.
  induction lanes as [|[off r] lanes IH]; intros prev input Hl HF; cbn [floatn_decode].
  { repeat split; auto using suffix_refl. }
  destruct prev as [|p prev]; [cbn in Hl; lia|]. destruct input as [|b0 rest]; [exact I|].
  inversion HF as [|x y Hx Hy]; subst. cbn [fst] in Hx. cbn [length] in Hl.
  assert (K : forall v bits inp, suffix inp (b0 :: rest) ->
    match (do '(vs, input'', stores) <- floatn_decode ops lanes prev inp ;
           Ok (v :: vs, input'', store off (le_bytes 4 bits) ++ stores)) with
    | Ok (v0, input', ss) => length v0 = S (length lanes) /\ suffix input' (b0 :: rest) /\ Forall (span_ok step) ss
    | Throw => True | UB => False end).
  { intros v bits inp Hs. specialize (IH prev inp ltac:(lia) Hy). destruct (floatn_decode ops lanes prev inp) as [[[vs i2] st2]| |]; cbn [bind]; auto.
    destruct IH as (A & B & C). split; [cbn [length]; lia|]. split; [eapply suffix_trans; eassumption|]. apply Forall_app. split; [|exact C].
    eapply store_ok; [exact Hx|apply le_bytes_length]. }
  destruct (b0 =? 0); cbn [bind].
  - apply K. apply suffix_cons.
  - pose proof (decodeVarint_mem_safe (b0 :: rest) (length (b0 :: rest)) (Nat.le_refl _)) as S0. fold (decodeVarint (b0 :: rest)) in S0.
    destruct (decodeVarint (b0 :: rest)) as [[d c]| |]; cbn [bind]; [|exact I|contradiction]. apply K. apply suffix_skipn.
Qed.

Lemma vec_len st v n : st_ok st -> length v = n -> (n <= 4)%nat -> st_ok (set_vec st (v ++ skipn (length v) (s_vec st))).
Proof. unfold st_ok, set_vec; cbn [s_vec]. intros. rewrite app_length, skipn_length. lia. Qed.

Lemma step_safe ops step d st input : (self_checked d \/ (fixed_size d /\ (min_input_bytes d <= length input)%nat)) ->
  dec_fits step d -> st_ok st ->
  match dec_step ops d st input with
  | Ok (st', input', ss) => st_ok st' /\ suffix input' input /\ Forall (span_ok step) ss /\ (fixed_size d -> length input' = (length input - min_input_bytes d)%nat)
  | Throw => True | UB => False end.
Proof.
  intros HS HF Hst. destruct d as [off sz|off sz|off r|off r|off sz|off|lanes]; cbn [dec_step self_checked fixed_size min_input_bytes dec_fits] in *;
    try (destruct HS as [[]|[[] _]]; fail).
  - destruct (length input <? sz)%nat eqn:E.
    + destruct (off =? kSkip) eqn:K; [exact I|]. destruct HS as [HS|[_ HS]]; lia.
    + split; [exact Hst|]. split; [apply suffix_skipn|]. split; [|intros _; apply skipn_length]. eapply store_ok; [exact HF|]. rewrite firstn_length. lia.
  - pose proof (decodeVarint_mem_safe input (length input) (Nat.le_refl _)) as S0. fold (decodeVarint input) in S0.
    destruct (decodeVarint input) as [[d c]| |]; cbn [bind]; [|exact I|contradiction].
    split; [exact Hst|]. split; [apply suffix_skipn|]. split; [|intros []]. eapply store_ok; [exact HF|apply le_bytes_length].
  - destruct HS as [[]|[_ HS]]. destruct (length input <? sz)%nat eqn:E; [lia|].
    split; [exact Hst|]. split; [apply suffix_skipn|]. split; [|intros _; apply skipn_length]. eapply store_ok; [exact HF|apply le_bytes_length].
  - destruct HS as [HS|[[] _]]. destruct input as [|b0 rest]; [exact I|].
    unfold st_ok in Hst. pose proof (floatn_safe ops step lanes (s_vec st) (b0 :: rest) ltac:(lia) HF) as S0.
    destruct (floatn_decode ops lanes (s_vec st) (b0 :: rest)) as [[[v i2] ss]| |]; cbn [bind]; auto.
    destruct S0 as (A & B & C). split; [eapply vec_len; [exact Hst|exact A|exact HS]|]. split; [exact B|]. split; [exact C|intros []].
Qed.

Definition point_result (ds : list fdec) (input mem : list Z) (r : res (list fstate * list Z * list Z)) : Prop :=
  match r with
  | Ok (sts', input', mem') => length sts' = length ds /\ Forall st_ok sts' /\ suffix input' input /\ length mem' = length mem
  | Throw => True | UB => False end.
Lemma point_cons ops step d ds st sts input base mem :
  (self_checked d \/ (fixed_size d /\ (min_input_bytes d <= length input)%nat)) -> dec_fits step d -> st_ok st -> 0 <= base -> base + step <= zlen mem ->
  (forall input' mem', suffix input' input -> length mem' = length mem -> (fixed_size d -> length input' = (length input - min_input_bytes d)%nat) ->
     point_result ds input' mem' (dec_point ops ds sts input' base mem')) ->
  point_result (d :: ds) input mem (dec_point ops (d :: ds) (st :: sts) input base mem).
Proof.
  intros HS HF Hst Hb Hm HN. cbn [dec_point]. pose proof (step_safe ops step d st input HS HF Hst) as S0.
  destruct (dec_step ops d st input) as [[[st' i'] ss]| |]; cbn [bind]; [|exact I|contradiction].
  destruct S0 as (A & B & C & D). destruct (do_stores_in base step ss mem C Hb Hm) as (m1 & -> & El). cbn [bind].
  specialize (HN i' m1 B El D). destruct (dec_point ops ds sts i' base m1) as [[[s2 i2] m2]| |]; cbn [bind]; cbn [point_result] in *; auto.
  destruct HN as (E1 & E2 & E3 & E4). repeat split; cbn [length]; [lia|constructor; auto|eapply suffix_trans; eassumption|lia].
Qed.
Lemma point_checked ops step ds : Forall self_checked ds -> Forall (dec_fits step) ds -> forall sts input base mem,
  length sts = length ds -> Forall st_ok sts -> 0 <= base -> base + step <= zlen mem ->
  point_result ds input mem (dec_point ops ds sts input base mem).
Proof.
  induction ds as [|d ds IH]; intros HC HF sts input base mem Hl Hst Hb Hm; destruct sts as [|st sts]; cbn in Hl; try lia.
  { cbn. auto using suffix_refl. }
  inversion HC as [|? ? c1 c2]; inversion HF as [|? ? f1 f2]; inversion Hst as [|? ? t1 t2]; subst.
  apply (point_cons ops step); auto. intros i' m' _ El _. apply IH; auto. unfold zlen in *; rewrite El; exact Hm.
Qed.
Lemma point_ordered ops step fx ds : Forall fixed_size fx -> Forall self_checked ds -> Forall (dec_fits step) (fx ++ ds) -> forall sts input base mem,
  length sts = length (fx ++ ds) -> Forall st_ok sts -> 0 <= base -> base + step <= zlen mem -> (sum_nat (map min_input_bytes fx) <= length input)%nat ->
  point_result (fx ++ ds) input mem (dec_point ops (fx ++ ds) sts input base mem).
Proof.
  induction fx as [|d fx IH]; intros HX HC HF sts input base mem Hl Hst Hb Hm Hi; cbn [app] in *.
  { apply (point_checked ops step); auto. }
  destruct sts as [|st sts]; cbn [length] in Hl; [lia|]. cbn [map] in Hi. unfold sum_nat in Hi. cbn [fold_right] in Hi. fold (sum_nat (map min_input_bytes fx)) in Hi.
  inversion HX as [|? ? c1 c2]; inversion HF as [|? ? f1 f2]; inversion Hst as [|? ? t1 t2]; subst.
  apply (point_cons ops step); auto. { right. split; [exact c1|lia]. }
  intros i' m' _ El Ei. specialize (Ei c1). apply IH; auto; try lia. unfold zlen in *; rewrite El; exact Hm.
Qed.

(** Decoder lists that are safe behind the V4 size check. *)
Definition ordered (step : Z) (ds : list fdec) (minb : nat) : Prop :=
  exists fx gs, ds = fx ++ gs /\ Forall fixed_size fx /\ Forall self_checked gs /\ Forall (dec_fits step) ds /\ (sum_nat (map min_input_bytes fx) <= minb)%nat.
Definition v4_result (mem : list Z) (r : res (list Z * Z * list Z)) : Prop :=
  match r with Ok (_, base', mem') => 0 <= base' /\ length mem' = length mem | Throw => True | UB => False end.
Lemma v4_points_safe ops ds minb step : ordered step ds minb -> 0 < step -> forall n sts input base mem,
  length sts = length ds -> Forall st_ok sts -> 0 <= base -> v4_result mem (dec_points_v4 ops ds minb step n sts input base mem).
Proof.
  intros (fx & gs & -> & HX & HC & HF & Hmb) Hs. induction n as [|n IH]; intros sts input base mem Hl Hst Hb; cbn [dec_points_v4].
  { cbn. auto. }
  destruct (length input <? minb)%nat eqn:E1; [exact I|]. destruct (zlen mem - base <? step) eqn:E2; [exact I|].
  pose proof (point_ordered ops step fx gs HX HC HF sts input base mem Hl Hst Hb ltac:(lia) ltac:(lia)) as S0.
  destruct (dec_point ops (fx ++ gs) sts input base mem) as [[[s2 i2] m2]| |]; cbn [bind]; cbn [point_result] in *; auto.
  destruct S0 as (A & B & _ & D). specialize (IH s2 i2 (base + step) m2 A B ltac:(lia)).
  destruct (dec_points_v4 ops (fx ++ gs) minb step n s2 i2 (base + step) m2) as [[[i3 b3] m3]| |]; cbn [v4_result] in *; auto. lia.
Qed.
Lemma v4_all_safe ops ds minb step : ordered step ds minb -> 0 < step -> forall fuel sts input base mem,
  length sts = length ds -> Forall st_ok sts -> 0 <= base -> base <= zlen mem -> zlen mem - base < Z.of_nat fuel -> v4_result mem (dec_points_v4_all ops ds minb step fuel sts input base mem).
Proof.
  intros (fx & gs & -> & HX & HC & HF & Hmb) Hs. induction fuel as [|n IH]; intros sts input base mem Hl Hst Hb Hb2 Hf; cbn [dec_points_v4_all]; [lia|].
  destruct input as [|x input]; [cbn; auto|]. set (inp := x :: input) in *.
  destruct (length inp <? minb)%nat eqn:E1; [exact I|]. destruct (zlen mem - base <? step) eqn:E2; [exact I|].
  pose proof (point_ordered ops step fx gs HX HC HF sts inp base mem Hl Hst Hb ltac:(lia) ltac:(lia)) as S0.
  destruct (dec_point ops (fx ++ gs) sts inp base mem) as [[[s2 i2] m2]| |]; cbn [bind]; cbn [point_result] in *; auto.
  destruct S0 as (A & B & _ & D).
  assert (Hz : zlen m2 = zlen mem) by (unfold zlen; now rewrite D).
  specialize (IH s2 i2 (base + step) m2 A B ltac:(lia) ltac:(lia) ltac:(lia)).
  destruct (dec_points_v4_all ops (fx ++ gs) minb step n s2 i2 (base + step) m2) as [[[i3 b3] m3]| |]; cbn [v4_result] in *; auto. lia.
Qed.
Lemma resets_ok {A} (l : list A) : length (resets l) = length l /\ Forall st_ok (resets l).
Proof. unfold resets. split; [apply map_length|]. induction l; cbn; constructor; auto. reflexivity. Qed.
Lemma v4_chunk_safe ops ds minb step input expected base mem : ordered step ds minb -> 0 < step -> 0 <= base -> (expected = O -> base <= zlen mem) ->
  v4_result mem (DecodeV4Stage1Chunk ops ds minb input step expected base mem).
Proof.
  intros HO Hs Hb Hb2. destruct (resets_ok ds) as [A B]. unfold DecodeV4Stage1Chunk. destruct (0 <? expected)%nat eqn:E.
  - apply v4_points_safe; auto.
  - apply v4_all_safe; auto; [apply Hb2; lia|]. unfold zlen. lia.
Qed.

(** *** V5 sections *)
Definition UINT64_MOD : Z := 18446744073709551616.
(** Some varint of the input, wherever it starts, is a run length that overflows 64 bits
    when added to a point index. *)
Definition overlong (npts : Z) (input : list Z) : Prop :=
  exists s v rest, suffix s input /\ readUVarint s = Ok (v, rest) /\ UINT64_MOD - npts <= v.
Lemma calm_suffix npts a b : suffix a b -> ~ overlong npts b -> ~ overlong npts a.
Proof. intros H N (s & v & r & A & B & C). apply N. exists s, v, r. split; [eapply suffix_trans; eassumption|auto]. Qed.

Section Sec.
  Variables (a : afield) (base step npts : Z).
  Hypothesis Hoff : 0 <= a_off a /\ a_off a + Z.of_nat (a_size a) <= step.
  Hypothesis Hstep : 0 < step.
  Hypothesis Hbase : 0 <= base.
  Hypothesis Hnpts : 0 <= npts < 9223372036854775808.
  Definition room (mem : list Z) : Prop := base + npts * step <= zlen mem.
  Lemma put_ok i v mem : 0 <= i < npts -> room mem -> exists m', put_value a base step i v mem = Ok m' /\ length m' = length mem.
  Proof.
    intros Hi Hr. unfold put_value, room in *. destruct (wr (base + i * step + a_off a) (le_bytes (a_size a) v) mem) as [m1| |] eqn:E.
    - exists m1. apply wr_inv in E. intuition.
    - rewrite wr_ok in E; [discriminate|nia|]. unfold zlen at 1. rewrite le_bytes_length. nia.
    - rewrite wr_ok in E; [discriminate|nia|]. unfold zlen at 1. rewrite le_bytes_length. nia.
  Qed.
  Lemma room_len m m' : length m' = length m -> room m -> room m'.
  Proof. unfold room, zlen. intros ->. auto. Qed.
  Definition sec_result (input mem : list Z) (r : res (list Z * list Z)) : Prop :=
    match r with Ok (input', mem') => suffix input' input /\ length mem' = length mem | Throw => True | UB => False end.

  Lemma delta_safe n : forall i prev input mem, 0 <= i -> i + Z.of_nat n <= npts -> room mem -> sec_result input mem (dec_delta a base step n i prev input mem).
  Proof.
    induction n as [|n IH]; intros i prev input mem Hi Hn Hr; cbn [dec_delta]; [split; auto using suffix_refl|].
    pose proof (decodeVarint_mem_safe input (length input) (Nat.le_refl _)) as S0. fold (decodeVarint input) in S0.
    destruct (decodeVarint input) as [[d c]| |]; cbn [bind]; [|exact I|contradiction].
    destruct (put_ok i (s64 (prev + d)) mem ltac:(lia) Hr) as (m1 & -> & El). cbn [bind].
    specialize (IH (i + 1) (s64 (prev + d)) (skipn c input) m1 ltac:(lia) ltac:(lia) (room_len _ _ El Hr)).
    destruct (dec_delta a base step n (i + 1) (s64 (prev + d)) (skipn c input) m1) as [[i2 m2]| |]; cbn [sec_result] in *; auto.
    destruct IH as [A B]. split; [eapply suffix_trans; [exact A|apply suffix_skipn]|lia].
  Qed.
  Lemma palette_safe n : forall input, match dec_palette a n input with Ok (_, rest) => suffix rest input | Throw => True | UB => False end.
  Proof.
    induction n as [|n IH]; intros input; cbn [dec_palette]; [apply suffix_refl|].
    destruct (length input <? a_size a)%nat; [exact I|]. specialize (IH (skipn (a_size a) input)).
    destruct (dec_palette a n (skipn (a_size a) input)) as [[p r]| |]; cbn [bind]; auto. eapply suffix_trans; [exact IH|apply suffix_skipn].
  Qed.
  Lemma idx_fill_safe bits : 0 <= bits -> forall fuel scratch held ptr, (1 <= fuel)%nat -> 0 <= held -> bits <= held + 8 * Z.of_nat fuel - 8 -> bits <= held + 8 * zlen ptr ->
    exists s h p, idx_fill fuel bits scratch held ptr = Ok (s, h, p) /\ bits <= h /\ h + 8 * zlen p = held + 8 * zlen ptr.
  Proof.
    intros Hb. induction fuel as [|k IH]; intros scratch held ptr Hf1 Hh Hf Hp; cbn [idx_fill].
    - lia.
    - destruct (held <? bits) eqn:E; [|exists scratch, held, ptr; repeat split; lia].
      destruct ptr as [|b ptr]; [unfold zlen in Hp; cbn in Hp; lia|]. rewrite zlen_cons in Hp.
      destruct (IH (Z.lor scratch (u64 (Z.shiftl b held))) (held + 8) ptr ltac:(lia) ltac:(lia) ltac:(lia) ltac:(lia)) as (s & h & p & A & B & C).
      exists s, h, p. rewrite zlen_cons. repeat split; auto; lia.
  Qed.
  Lemma indexes_safe n : forall i bits scratch held pal ptr mem, 0 <= i -> i + Z.of_nat n <= npts -> room mem -> 0 <= bits <= 64 -> 0 <= held ->
    bits * Z.of_nat n <= held + 8 * zlen ptr ->
    match dec_indexes a base step n i bits scratch held pal ptr mem with Ok m => length m = length mem | Throw => True | UB => False end.
  Proof.
    induction n as [|n IH]; intros i bits scratch held pal ptr mem Hi Hn Hr Hb Hh Hp; cbn [dec_indexes]; [reflexivity|].
    assert (K : forall idx scratch held ptr, 0 <= held -> bits * Z.of_nat n <= held + 8 * zlen ptr ->
      match (match nth_error pal (Z.to_nat idx) with None => Throw | Some v => do mem' <- put_value a base step i v mem ; dec_indexes a base step n (i + 1) bits scratch held pal ptr mem' end) with
      | Ok m => length m = length mem | Throw => True | UB => False end).
    { intros idx sc he pt Hhe Hpt. destruct (nth_error pal (Z.to_nat idx)) as [v|]; [|exact I].
      destruct (put_ok i v mem ltac:(lia) Hr) as (m1 & -> & El). cbn [bind].
      specialize (IH (i + 1) bits sc he pal pt m1 ltac:(lia) ltac:(lia) (room_len _ _ El Hr) Hb Hhe Hpt).
      destruct (dec_indexes a base step n (i + 1) bits sc he pal pt m1); auto. lia. }
    unfold readBitpackedIndex. destruct (bits =? 0) eqn:E0; cbn [bind].
    - apply K; [exact Hh|nia].
    - destruct (idx_fill_safe bits ltac:(lia) 16 scratch held ptr ltac:(lia) Hh ltac:(lia) ltac:(nia)) as (s & h & p & -> & B & C). cbn [bind]. apply K; nia.
  Qed.
  Lemma fill_run_safe fuel : forall i len v mem, 0 <= i -> i + len <= npts -> room mem -> len <= Z.of_nat fuel ->
    exists m', fill_run a base step fuel i len v mem = Ok (i + Z.max 0 len, m') /\ length m' = length mem.
  Proof.
    induction fuel as [|k IH]; intros i len v mem Hi Hl Hr Hf; cbn [fill_run].
    - destruct (len <=? 0) eqn:E; [|lia]. exists mem. split; [|reflexivity]. rewrite Z.max_l by lia. now rewrite Z.add_0_r.
    - destruct (len <=? 0) eqn:E; [exists mem; split; [|reflexivity]; rewrite Z.max_l by lia; now rewrite Z.add_0_r|].
      destruct (put_ok i v mem ltac:(lia) Hr) as (m1 & -> & El). cbn [bind].
      destruct (IH (i + 1) (len - 1) v m1 ltac:(lia) ltac:(lia) (room_len _ _ El Hr) ltac:(lia)) as (m2 & E2 & El2). exists m2. split; [|lia].
      rewrite E2. do 2 f_equal. lia.
  Qed.
  Lemma fill_delta_run_safe fuel : forall i len prev diff mem, 0 <= i -> i + len <= npts -> room mem -> len <= Z.of_nat fuel ->
    exists p' m', fill_delta_run a base step fuel i len prev diff mem = Ok (i + Z.max 0 len, p', m') /\ length m' = length mem.
  Proof.
    induction fuel as [|k IH]; intros i len prev diff mem Hi Hl Hr Hf; cbn [fill_delta_run].
    - destruct (len <=? 0) eqn:E; [|lia]. exists prev, mem. split; [|reflexivity]. rewrite Z.max_l by lia. now rewrite Z.add_0_r.
    - destruct (len <=? 0) eqn:E; [exists prev, mem; split; [|reflexivity]; rewrite Z.max_l by lia; now rewrite Z.add_0_r|].
      destruct (put_ok i (s64 (prev + diff)) mem ltac:(lia) Hr) as (m1 & -> & El). cbn [bind].
      destruct (IH (i + 1) (len - 1) (s64 (prev + diff)) diff m1 ltac:(lia) ltac:(lia) (room_len _ _ El Hr) ltac:(lia)) as (p2 & m2 & E2 & El2). exists p2, m2. split; [|lia].
      rewrite E2. do 3 f_equal. lia.
  Qed.
  Lemma readU_range s v rest : readUVarint s = Ok (v, rest) -> 0 <= v < UINT64_MOD.
  Proof.
    unfold readUVarint. assert (G : forall fuel input shift value, 0 <= shift -> 0 <= value < UINT64_MOD -> readUVarint_loop fuel input shift value = Ok (v, rest) -> 0 <= v < UINT64_MOD).
    { induction fuel as [|k IH]; intros input shift value Hs Hv H; cbn [readUVarint_loop] in H; [discriminate|].
      destruct input as [|b r]; [discriminate|].
      assert (Hv' : 0 <= Z.lor value (u64 (Z.shiftl (Z.land b 127) shift)) < UINT64_MOD).
      { pose proof (u64_range (Z.shiftl (Z.land b 127) shift)) as Hu. unfold UINT64_MOD in *. change 18446744073709551616 with (2 ^ 64) in *.
        split; [apply Z.lor_nonneg; lia|]. apply Z.log2_lt_cancel. rewrite Z.log2_lor by lia. rewrite Z.log2_pow2 by lia.
        assert (Hlog : forall z, 0 <= z < 2 ^ 64 -> Z.log2 z < 64) by (intros z Hz; destruct (Z.eq_dec z 0) as [->|]; [reflexivity|apply Z.log2_lt_pow2; lia]).
        apply Z.max_lub_lt; apply Hlog; lia. }
      destruct (Z.land b 128 =? 0); [congruence|]. destruct (64 <=? shift + 7); [discriminate|]. eapply IH; [|exact Hv'|exact H]. lia. }
    apply G; [lia|]. unfold UINT64_MOD. lia.
  Qed.
  Lemma run_cases oi v : 0 <= oi <= npts -> 0 <= v < UINT64_MOD -> (npts <? u64 (oi + v)) = false -> oi + v <= npts \/ UINT64_MOD - npts <= v.
  Proof.
    intros Ho Hv H. unfold u64, UINT64_MOD in *. destruct (Z.lt_ge_cases (oi + v) 18446744073709551616); [|lia].
    rewrite Z.mod_small in H by lia. left. lia.
  Qed.
  Lemma npts_mem mem : room mem -> npts <= zlen mem.
  Proof. unfold room. nia. Qed.
  Lemma rle_safe fuel : forall r oi input mem, ~ overlong npts input -> 0 <= oi <= npts -> room mem -> (length input < fuel)%nat -> sec_result input mem (dec_rle a base step npts fuel r oi input mem).
  Proof.
    induction fuel as [|k IH]; intros r oi input mem HN Ho Hr Hf; [lia|]. cbn [dec_rle].
    destruct (r <=? 0). { destruct (oi =? npts); cbn; auto using suffix_refl. }
    destruct (length input <? a_size a)%nat eqn:E1; [exact I|].
    pose proof (readUVarint_safe (skipn (a_size a) input)) as S0.
    destruct (readUVarint (skipn (a_size a) input)) as [[v rest]| |] eqn:ER; cbn [bind]; [|exact I|contradiction].
    destruct S0 as (pre & Epre & Hpre). pose proof (readU_range _ _ _ ER) as Hv.
    destruct (npts <? u64 (oi + v)) eqn:E2; [exact I|].
    assert (Hsuf : suffix rest input). { eapply suffix_trans; [exists pre; exact Epre|apply suffix_skipn]. }
    assert (Hlen : (length rest < k)%nat). { assert (L : length (skipn (a_size a) input) = length (pre ++ rest)) by now rewrite Epre. rewrite skipn_length, app_length in L. lia. }
    destruct (run_cases oi v Ho Hv E2) as [Hle|Hbig].
    - pose proof (npts_mem mem Hr) as Hnm. unfold zlen in Hnm.
      destruct (fill_run_safe (S (length mem)) oi v (le_val (firstn (a_size a) input)) mem ltac:(lia) Hle Hr ltac:(lia)) as (m1 & -> & El). cbn [bind].
      rewrite Z.max_r by lia. specialize (IH (r - 1) (oi + v) rest m1 (calm_suffix _ _ _ Hsuf HN) ltac:(lia) (room_len _ _ El Hr) Hlen).
      destruct (dec_rle a base step npts k (r - 1) (oi + v) rest m1) as [[i2 m2]| |]; cbn [sec_result] in *; auto.
      destruct IH as [A B]. split; [eapply suffix_trans; eassumption|lia].
    - exfalso. apply HN. exists (skipn (a_size a) input), v, rest. split; [apply suffix_skipn|auto].
  Qed.
  Lemma delta_rle_safe fuel : forall r oi prev input mem, ~ overlong npts input -> 0 <= oi <= npts -> room mem -> (length input < fuel)%nat -> sec_result input mem (dec_delta_rle a base step npts fuel r oi prev input mem).
  Proof.
    induction fuel as [|k IH]; intros r oi prev input mem HN Ho Hr Hf; [lia|]. cbn [dec_delta_rle].
    destruct (r <=? 0). { destruct (oi =? npts); cbn; auto using suffix_refl. }
    pose proof (decodeVarint_mem_safe input (length input) (Nat.le_refl _)) as S1. fold (decodeVarint input) in S1.
    destruct (decodeVarint input) as [[d c]| |]; cbn [bind]; [|exact I|contradiction].
    pose proof (readUVarint_safe (skipn c input)) as S0.
    destruct (readUVarint (skipn c input)) as [[v rest]| |] eqn:ER; cbn [bind]; [|exact I|contradiction].
    destruct S0 as (pre & Epre & Hpre). pose proof (readU_range _ _ _ ER) as Hv.
    destruct (npts <? u64 (oi + v)) eqn:E2; [exact I|].
    assert (Hsuf : suffix rest input). { eapply suffix_trans; [exists pre; exact Epre|apply suffix_skipn]. }
    assert (Hlen : (length rest < k)%nat). { assert (L : length (skipn c input) = length (pre ++ rest)) by now rewrite Epre. rewrite skipn_length, app_length in L. lia. }
    destruct (run_cases oi v Ho Hv E2) as [Hle|Hbig].
    - pose proof (npts_mem mem Hr) as Hnm. unfold zlen in Hnm.
      destruct (fill_delta_run_safe (S (length mem)) oi v prev d mem ltac:(lia) Hle Hr ltac:(lia)) as (p1 & m1 & -> & El). cbn [bind].
      rewrite Z.max_r by lia. specialize (IH (r - 1) (oi + v) p1 rest m1 (calm_suffix _ _ _ Hsuf HN) ltac:(lia) (room_len _ _ El Hr) Hlen).
      destruct (dec_delta_rle a base step npts k (r - 1) (oi + v) p1 rest m1) as [[i2 m2]| |]; cbn [sec_result] in *; auto.
      destruct IH as [A B]. split; [eapply suffix_trans; eassumption|lia].
    - exfalso. apply HN. exists (skipn c input), v, rest. split; [apply suffix_skipn|auto].
  Qed.
  Lemma take_uint_suffix n input : match take_uint n input with Ok (_, rest) => suffix rest input | Throw => True | UB => False end.
  Proof. unfold take_uint. destruct (length input <? n)%nat; [exact I|apply suffix_skipn]. Qed.
  Lemma bits_range count : 1 <= count < 65536 -> 0 <= bitsForPaletteIndex count <= 64.
  Proof. intros H. destruct (bitsForPaletteIndex_spec count) as (A & _ & B); [lia|]. split; [exact A|]. apply B; lia. Qed.
  Lemma section_safe input mem : bytes input -> ~ overlong npts input -> room mem -> sec_result input mem (decode_section a base step npts input mem).
  Proof.
    intros Hby HN Hr. unfold decode_section. destruct input as [|mode rest]; [exact I|].
    assert (Hs : suffix rest (mode :: rest)) by apply suffix_cons. pose proof (calm_suffix _ _ _ Hs HN) as HN'.
    assert (Up : forall inp r, suffix inp (mode :: rest) -> sec_result inp mem r -> sec_result (mode :: rest) mem r).
    { intros inp r H1. unfold sec_result. destruct r as [[i' m']| |]; auto. intros [A B]. split; [eapply suffix_trans; eassumption|exact B]. }
    assert (M0 : sec_result (mode :: rest) mem (dec_delta a base step (Z.to_nat npts) 0 0 rest mem)).
    { eapply Up; [exact Hs|]. apply delta_safe; auto; lia. }
    assert (M2 : sec_result (mode :: rest) mem (do '(count, input) <- take_uint 4 rest ; dec_rle a base step npts (S (length input)) count 0 input mem)).
    { pose proof (take_uint_suffix 4 rest) as T. destruct (take_uint 4 rest) as [[count r2]| |]; cbn [bind]; auto.
      eapply Up; [eapply suffix_trans; eassumption|]. apply rle_safe; auto; try lia. eapply calm_suffix; eassumption. }
    assert (M3 : sec_result (mode :: rest) mem (do '(count, input) <- take_uint 4 rest ; dec_delta_rle a base step npts (S (length input)) count 0 0 input mem)).
    { pose proof (take_uint_suffix 4 rest) as T. destruct (take_uint 4 rest) as [[count r2]| |]; cbn [bind]; auto.
      eapply Up; [eapply suffix_trans; eassumption|]. apply delta_rle_safe; auto; try lia. eapply calm_suffix; eassumption. }
    assert (M1 : sec_result (mode :: rest) mem
      (do '(count, input) <- take_uint 2 rest ; if count =? 0 then Throw else
       do '(pal, input) <- dec_palette a (Z.to_nat count) input ;
       let bits := bitsForPaletteIndex count in let index_bytes := Z.to_nat ((bits * npts + 7) / 8) in
       if (length input <? index_bytes)%nat then Throw else
       do mem' <- dec_indexes a base step (Z.to_nat npts) 0 bits 0 0 pal input mem ; Ok (skipn index_bytes input, mem'))).
    { unfold take_uint. destruct (length rest <? 2)%nat eqn:EL; [exact I|]. cbn [bind].
      set (count := le_val (firstn 2 rest)).
      assert (Hc : 0 <= count < 65536).
      { unfold count. assert (Hb2 : bytes (firstn 2 rest)). { unfold bytes in *. inversion Hby; subst. apply Forall_firstn; assumption. }
        pose proof (le_val_range (firstn 2 rest) Hb2) as R. unfold zlen in R. rewrite firstn_length in R. rewrite Nat.min_l in R by lia. exact R. }
      destruct (count =? 0) eqn:E0; [exact I|]. pose proof (palette_safe (Z.to_nat count) (skipn 2 rest)) as P.
      destruct (dec_palette a (Z.to_nat count) (skipn 2 rest)) as [[pal r2]| |]; cbn [bind]; auto. cbv zeta.
      pose proof (bits_range count ltac:(lia)) as Hbits. set (bits := bitsForPaletteIndex count) in *. clearbody bits.
      destruct (length r2 <? Z.to_nat ((bits * npts + 7) / 8))%nat eqn:EI; [exact I|].
      assert (Hq : bits * npts <= 8 * zlen r2). { unfold zlen. assert (0 <= bits * npts) by nia. pose proof (Z.div_mod (bits * npts + 7) 8 ltac:(lia)). pose proof (Z.mod_pos_bound (bits * npts + 7) 8 ltac:(lia)). lia. }
      pose proof (indexes_safe (Z.to_nat npts) 0 bits 0 0 pal r2 mem ltac:(lia) ltac:(lia) Hr Hbits ltac:(lia) ltac:(lia)) as X.
      destruct (dec_indexes a base step (Z.to_nat npts) 0 bits 0 0 pal r2 mem) as [m1| |]; cbn [bind]; auto. split; [|exact X].
      eapply suffix_trans; [apply suffix_skipn|]. eapply suffix_trans; [exact P|]. eapply suffix_trans; [apply suffix_skipn|exact Hs]. }
    destruct mode as [|p|p]; [exact M0| |exact I].
    destruct p as [p|p|]; [destruct p as [p|p|]; [exact I|exact I|exact M3]|destruct p as [p|p|]; [exact I|exact I|exact M2]|exact M1].
  Qed.
End Sec.

(** *** A V5 chunk whose point-wise decoders check their input themselves *)
Definition int_in (step : Z) (a : afield) : Prop := 0 <= a_off a /\ a_off a + Z.of_nat (a_size a) <= step.
Lemma sections_safe base step npts : 0 < step -> 0 <= base -> 0 <= npts < 9223372036854775808 -> forall afs input mem, Forall (int_in step) afs ->
  bytes input -> ~ overlong npts input -> room base step npts mem -> sec_result input mem (decode_sections afs base step npts input mem).
Proof.
  intros Hs Hb Hn. induction afs as [|a afs IH]; intros input mem HF Hby HN Hr; cbn [decode_sections].
  { split; auto using suffix_refl. }
  inversion HF as [|? ? h1 h2]; subst. pose proof (section_safe a base step npts h1 Hs Hb Hn input mem Hby HN Hr) as S0.
  destruct (decode_section a base step npts input mem) as [[i1 m1]| |]; cbn [bind]; cbn [sec_result] in *; auto. destruct S0 as [A B].
  assert (Hby1 : bytes i1). { destruct A as [pre ->]. unfold bytes in *. apply Forall_app in Hby. apply Hby. }
  specialize (IH i1 m1 h2 Hby1 (calm_suffix _ _ _ A HN) (room_len _ _ _ _ _ B Hr)).
  destruct (decode_sections afs base step npts i1 m1) as [[i2 m2]| |]; cbn [sec_result] in *; auto. destruct IH as [C D].
  split; [eapply suffix_trans; eassumption|lia].
Qed.
Lemma v5_points_safe ops ds step : Forall self_checked ds -> Forall (dec_fits step) ds -> 0 < step -> forall n sts input base mem,
  length sts = length ds -> Forall st_ok sts -> 0 <= base -> base + Z.of_nat n * step <= zlen mem -> sec_result input mem (dec_points_v5 ops ds step n sts input base mem).
Proof.
  intros HC HF Hs. induction n as [|n IH]; intros sts input base mem Hl Hst Hb Hm; cbn [dec_points_v5]; [split; auto using suffix_refl|].
  pose proof (point_checked ops step ds HC HF sts input base mem Hl Hst Hb ltac:(nia)) as S0.
  destruct (dec_point ops ds sts input base mem) as [[[s2 i2] m2]| |]; cbn [bind]; cbn [point_result] in *; auto.
  destruct S0 as (A & B & C & D). specialize (IH s2 i2 (base + step) m2 A B ltac:(lia) ltac:(unfold zlen in *; rewrite D; nia)).
  destruct (dec_points_v5 ops ds step n s2 i2 (base + step) m2) as [[i3 m3]| |]; cbn [sec_result] in *; auto.
  destruct IH as [E F]. split; [eapply suffix_trans; eassumption|lia].
Qed.
Lemma v5_chunk_safe ops i ds input expected base mem : Forall self_checked ds -> Forall (dec_fits (i_step i)) ds -> Forall (int_in (i_step i)) (getV5AdaptiveFields i) ->
  0 < i_step i -> 0 <= base -> Z.of_nat expected < 9223372036854775808 -> bytes input -> ~ overlong (Z.of_nat expected) input ->
  match DecodeV5Stage1Chunk ops i ds input expected base mem with Ok (b', m') => 0 <= b' <= zlen mem /\ length m' = length mem | Throw => True | UB => False end.
Proof.
  intros HC HF HI Hs Hb He Hby HN. unfold DecodeV5Stage1Chunk. destruct (expected =? 0)%nat; [exact I|].
  destruct (zlen mem - base <? Z.of_nat expected * i_step i) eqn:E; [exact I|]. destruct (resets_ok ds) as [R1 R2].
  pose proof (v5_points_safe ops ds (i_step i) HC HF Hs expected (resets ds) input base mem R1 R2 Hb ltac:(lia)) as S0.
  destruct (dec_points_v5 ops ds (i_step i) expected (resets ds) input base mem) as [[i1 m1]| |]; cbn [bind]; cbn [sec_result] in *; auto. destruct S0 as [A B].
  assert (Hby1 : bytes i1). { destruct A as [pre ->]. unfold bytes in *. apply Forall_app in Hby. apply Hby. }
  pose proof (sections_safe base (i_step i) (Z.of_nat expected) Hs Hb ltac:(lia) (getV5AdaptiveFields i) i1 m1 HI Hby1 (calm_suffix _ _ _ A HN)) as S1.
  lapply S1; [clear S1; intros S1|unfold room, zlen in *; rewrite B; lia].
  destruct (decode_sections (getV5AdaptiveFields i) base (i_step i) (Z.of_nat expected) i1 m1) as [[i2 m2]| |]; cbn [bind]; cbn [sec_result] in *; auto. destruct S1 as [_ D].
  destruct i2; [|exact I]. split; [nia|lia].
Qed.

(** *** Whole decode *)
Lemma decompress_safe L opt chunk buf max : libs_ok L -> bytes chunk -> 0 <= max ->
  match DecompressChunk L opt chunk buf max with Ok (view, _) => bytes view /\ (opt = COMP_NONE -> view = chunk) | Throw => True | UB => False end.
Proof.
  intros [HL HZ] Hb Hm.
  assert (K : forall c, compressor_ok c -> match (let buf1 := if zlen buf <? max then resize max buf else buf in
     match c_decompress c chunk max with None => Throw | Some r => do buf2 <- wr 0 r buf1 ; Ok (firstn (length r) buf2, buf2) end) with
     | Ok (view, _) => bytes view | Throw => True | UB => False end).
  { intros c Hc. cbv zeta. destruct (c_decompress c chunk max) as [r|] eqn:E; [|exact I]. destruct (lib_dec c Hc chunk max r Hb E) as [A B].
    rewrite wr_ok; [|lia|]. 2:{ destruct (zlen buf <? max) eqn:E2; [|lia]. unfold zlen, resize in *. rewrite app_length, firstn_length, repeat_length. lia. }
    cbn [bind Z.to_nat]. rewrite firstn_O. cbn [app]. rewrite firstn_app, firstn_all, Nat.sub_diag, firstn_O, app_nil_r. exact B. }
  unfold DecompressChunk. destruct opt as [| | |n].
  - auto.
  - destruct ((INT_MAX <? zlen chunk) || (INT_MAX <? max)); [exact I|]. specialize (K _ HL). cbv zeta in *.
    destruct (match c_decompress (lz4 L) chunk max with Some r => _ | None => _ end) as [[v b]| |]; auto. split; [exact K|discriminate].
  - specialize (K _ HZ). cbv zeta in *.
    destruct (match c_decompress (zstd L) chunk max with Some r => _ | None => _ end) as [[v b]| |]; auto. split; [exact K|discriminate].
  - exact I.
Qed.
(** What a chunk decodes from, when it gets past decompression. *)
Definition views (L : libs) (i : info) (chunk view : list Z) : Prop :=
  exists buf buf', DecompressChunk L (i_comp i) chunk buf (u64 (u64 (i_width i * i_height i) * i_step i)) = Ok (view, buf').
Definition chunk_safe (i : info) (ds : list fdec) (minb : nat) (view : list Z) (expected : nat) : Prop :=
  if UsesV5Codec i then Forall self_checked ds /\ Forall (dec_fits (i_step i)) ds /\ Forall (int_in (i_step i)) (getV5AdaptiveFields i) /\
       Z.of_nat expected < 9223372036854775808 /\ ~ overlong (Z.of_nat expected) view
  else ordered (i_step i) ds minb.
Lemma decodeChunk_safe ops L i ds minb chunk buf expected base mem : libs_ok L -> bytes chunk -> 0 < i_step i -> 0 <= base -> (expected = O -> base <= zlen mem) ->
  (forall view, views L i chunk view -> chunk_safe i ds minb view expected) ->
  match decodeChunk ops L i ds minb chunk buf expected base mem with Ok (_, b', m') => 0 <= b' /\ length m' = length mem | Throw => True | UB => False end.
Proof.
  intros HL Hby Hs Hb Hb2 HC. unfold decodeChunk. set (max := u64 (u64 (i_width i * i_height i) * i_step i)).
  assert (Hm : 0 <= max) by (unfold max; pose proof (u64_range (u64 (i_width i * i_height i) * i_step i)); lia).
  pose proof (decompress_safe L (i_comp i) chunk buf max HL Hby Hm) as S0.
  destruct (DecompressChunk L (i_comp i) chunk buf max) as [[view b1]| |] eqn:ED; cbn [bind]; [|exact I|contradiction]. destruct S0 as [HV _].
  specialize (HC view ltac:(exists buf, b1; exact ED)). unfold chunk_safe in HC. destruct (UsesV5Codec i).
  - destruct HC as (A & B & C & D & E). pose proof (v5_chunk_safe ops i ds view expected base mem A B C Hs Hb D HV E) as S1.
    destruct (DecodeV5Stage1Chunk ops i ds view expected base mem) as [[b' m']| |]; cbn [bind]; auto. lia.
  - pose proof (v4_chunk_safe ops ds minb (i_step i) view expected base mem HC Hs Hb Hb2) as S1.
    destruct (DecodeV4Stage1Chunk ops ds minb view (i_step i) expected base mem) as [[[x b'] m']| |]; cbn [bind]; cbn [v4_result] in *; auto.
Qed.

Definition infix (c data : list Z) : Prop := exists pre post, data = pre ++ c ++ post.
Lemma infix_suffix c a b : infix c a -> suffix a b -> infix c b.
Proof. intros (p & q & ->) [r ->]. exists (r ++ p), q. now rewrite <- app_assoc. Qed.
Lemma infix_firstn n l : infix (firstn n l) l.
Proof. exists [], (skipn n l). cbn [app]. symmetry. apply firstn_skipn. Qed.
Lemma infix_bytes c l : infix c l -> bytes l -> bytes c.
Proof. intros (p & q & ->) H. unfold bytes in *. apply Forall_app in H. destruct H as [_ H]. apply Forall_app in H. apply H. Qed.
Lemma suffix_bytes c l : suffix c l -> bytes l -> bytes c.
Proof. intros [p ->] H. unfold bytes in *. apply Forall_app in H. apply H. Qed.
Lemma suffix_length a b : suffix a b -> (length a <= length b)%nat.
Proof. intros [p ->]. rewrite app_length. lia. Qed.

Lemma dec_loop_safe ops L ppc i ds minb : libs_ok L -> 0 < i_step i -> (0 < ppc)%nat -> forall fuel data buf points base mem,
  bytes data -> 0 <= points -> 0 <= base -> (length data < fuel)%nat ->
  (forall chunk view n, infix chunk data -> views L i chunk view -> (0 < n <= ppc)%nat -> chunk_safe i ds minb view n) ->
  match dec_loop ops L ppc i ds minb fuel data buf points base mem with Ok (_, m') => length m' = length mem | Throw => True | UB => False end.
Proof.
  intros HL Hs Hp. induction fuel as [|k IH]; intros data buf points base mem Hby Hpt Hb Hf HC; [lia|].
  cbn [dec_loop]. destruct data as [|x data']; [destruct (points =? 0); auto|]. set (data := x :: data') in *.
  destruct (points =? 0) eqn:E0; [exact I|]. unfold take_uint. destruct (length data <? 4)%nat eqn:E4; [exact I|]. cbn [bind].
  set (size := le_val (firstn 4 data)). set (data1 := skipn 4 data). destruct (zlen data1 <? size) eqn:E5; [exact I|].
  assert (S1 : suffix data1 data) by apply suffix_skipn. assert (Hby1 : bytes data1) by (eapply suffix_bytes; eassumption).
  set (chunk := firstn (Z.to_nat size) data1).
  assert (I1 : infix chunk data) by (eapply infix_suffix; [apply infix_firstn|exact S1]).
  assert (Hn : (0 < Z.to_nat (Z.min points (Z.of_nat ppc)) <= ppc)%nat) by lia.
  pose proof (decodeChunk_safe ops L i ds minb chunk buf (Z.to_nat (Z.min points (Z.of_nat ppc))) base mem HL (infix_bytes _ _ I1 Hby) Hs Hb ltac:(lia)
     (fun view H => HC chunk view _ I1 H Hn)) as S0.
  destruct (decodeChunk ops L i ds minb chunk buf (Z.to_nat (Z.min points (Z.of_nat ppc))) base mem) as [[[b1 base1] m1]| |]; cbn [bind]; auto.
  destruct S0 as [A B]. set (data2 := skipn (Z.to_nat size) data1).
  assert (S2 : suffix data2 data) by (eapply suffix_trans; [apply suffix_skipn|exact S1]).
  assert (L2 : (length data2 < k)%nat). { unfold data2, data1. rewrite skipn_length, skipn_length. lia. }
  specialize (IH data2 b1 (points - Z.min points (Z.of_nat ppc)) base1 m1 (suffix_bytes _ _ S2 Hby) ltac:(lia) A L2
     (fun c v n H => HC c v n (infix_suffix _ _ _ H S2))).
  destruct (dec_loop ops L ppc i ds minb k data2 b1 (points - Z.min points (Z.of_nat ppc)) base1 m1) as [[b2 m2]| |]; auto. lia.
Qed.

Lemma decode_safe ops L ppc i ds minb data buf mem : libs_ok L -> 0 < i_step i -> (0 < ppc)%nat -> bytes data ->
  updateDecoders i <> UB -> (forall d m, updateDecoders i = Ok (d, m) -> d = ds /\ m = minb) ->
  (forall chunk view n, infix chunk data -> views L i chunk view -> (n <= ppc)%nat -> chunk_safe i ds minb view n) ->
  match decode ops L ppc i data buf mem with Ok (_, m') => length m' = length mem | Throw => True | UB => False end.
Proof.
  intros HL Hs Hp Hby HU HD HC. unfold decode. destruct (updateDecoders i) as [[d m]| |] eqn:E; cbn [bind]; [|exact I|congruence].
  destruct (HD _ _ eq_refl) as [-> ->]. destruct (has_magic data); [exact I|]. destruct (3 <=? i_version i).
  - apply dec_loop_safe; auto; try lia. { pose proof (u64_range (i_width i * i_height i)). lia. } intros chunk view n H1 H2 H3. apply (HC chunk); auto. lia.
  - pose proof (decodeChunk_safe ops L i ds minb data buf O 0 mem HL Hby Hs ltac:(lia)) as S0.
    lapply S0; [clear S0; intros S0|intros _; unfold zlen; lia].
    lapply S0; [clear S0; intros S0|].
    + destruct (decodeChunk ops L i ds minb data buf 0 0 mem) as [[[b1 b2] m1]| |]; cbn [bind]; auto. apply S0.
    + intros view H. apply (HC data); auto; [exists [], []; now rewrite app_nil_r|lia].
Qed.

(** *** Which fields give which decoder *)
Lemma readU_app s t v rest : readUVarint s = Ok (v, rest) -> readUVarint (s ++ t) = Ok (v, rest ++ t).
Proof.
  unfold readUVarint. assert (G : forall fuel s sh va, readUVarint_loop fuel s sh va = Ok (v, rest) -> readUVarint_loop fuel (s ++ t) sh va = Ok (v, rest ++ t)); [|apply G].
  induction fuel as [|k IH]; intros s' sh va H; cbn [readUVarint_loop] in *; [discriminate|]. rename s' into s0.
  destruct s0 as [|b s0]; [discriminate|]. cbn [app]. cbv zeta in *. destruct (Z.land b 128 =? 0); [congruence|]. destruct (64 <=? sh + 7); [discriminate H|]. now apply IH.
Qed.
Lemma overlong_infix n m c data : infix c data -> n <= m -> overlong n c -> overlong m data.
Proof.
  intros (p & q & ->) Hm (s & v & rest & [r ->] & B & C). exists (s ++ q), v, (rest ++ q). split; [|split; [now apply readU_app|lia]].
  exists (p ++ r). now rewrite <- !app_assoc.
Qed.

Lemma dec_defined i f : CreateCompatibleDecoder i f <> UB.
Proof.
  unfold CreateCompatibleDecoder. destruct (f_type f); try discriminate; destruct (i_enc i);
    repeat match goal with |- context [if ?b then _ else _] => destruct b end; discriminate.
Qed.
Lemma lead_defined i : leading_decoder i <> UB.
Proof. unfold leading_decoder. destruct (LeadingLossyFloatFieldCount i =? 0)%nat; [discriminate|]. destruct (existsb _ _); discriminate. Qed.
Lemma mapM_def {A B} (g : A -> res B) l : (forall x, g x <> UB) -> mapM g l <> UB.
Proof.
  intros H. induction l as [|x l IH]; cbn [mapM]; [discriminate|]. specialize (H x). destruct (g x); cbn [bind]; [|discriminate|congruence].
  destruct (mapM g l); cbn [bind]; [discriminate|discriminate|congruence].
Qed.
Lemma updateDecoders_defined i : updateDecoders i <> UB.
Proof.
  unfold updateDecoders, BuildV5Decoders, BuildV4Decoders. pose proof (lead_defined i) as H1.
  assert (H2 : forall l, mapM (CreateCompatibleDecoder i) l <> UB) by (intros; apply mapM_def; apply dec_defined).
  destruct (UsesV5Codec i).
  - destruct (leading_decoder i); cbn [bind]; [|discriminate|congruence]. specialize (H2 (filter (fun f => negb (isV5AdaptiveIntType (f_type f))) (skipn (LeadingLossyFloatFieldCount i) (i_fields i)))).
    destruct (mapM _ _); cbn [bind]; [discriminate|discriminate|congruence].
  - destruct (i_enc i); [discriminate| | |];
    (destruct (leading_decoder i); cbn [bind]; [|discriminate|congruence]; specialize (H2 (skipn (LeadingLossyFloatFieldCount i) (i_fields i)));
     destruct (mapM _ _); cbn [bind]; [discriminate|discriminate|congruence]).
Qed.
