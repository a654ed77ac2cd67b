(** C68: compressing a decompressed cloud again loses nothing more. *)
From Coq Require Import ZArith Reals Psatz List Bool.
From Coq Require Import Floats.SpecFloat.
From Flocq Require Import Core Relative BinarySingleNaN.
From Verif Require Import Base BaseFacts Types Floats Fields Codec V5 Api Spec LibSpec ErrorSpec FloatReal LocalFacts CodeFacts Cases PropsCloud PropsError PropsBuilds FloatAgain.
Open Scope Z_scope.
Open Scope R_scope.

(** ** The quantised integer is small when the sample is *)
Section Small.
Variables prec emax : Z.
Hypothesis Hp : (24 <= prec <= 53)%Z.
Hypothesis He : (128 <= emax)%Z.
Notation u := (bpow radix2 (- prec)).
Lemma small rd imin imax K fx fm x r e1 :
  (forall m e, (0 < m)%Z -> Rabs (IZR (rd m e) - IZR m * powerRZ 2 e) <= / 2) ->
  1 <= K <= bpow radix2 50 -> IZR imin + / 2 <= - (9 / 8 * K + 1) -> 9 / 8 * K + 1 <= IZR imax - / 2 ->
  is_val prec emax fx x -> is_val prec emax fm (1 / r * (1 + e1)) -> Rabs e1 <= 9 / 8 * u -> 0 < r -> Rabs x <= K * r ->
  Rabs (IZR (sf_to_int rd imin imax (SFmul prec emax fx fm))) <= 9 / 8 * K + 2.
Proof.
  intros N HK I1 I2 Fx Fm E1 r0 Hx.
  assert (Hp0 : (0 < prec)%Z) by lia. assert (Hpe : (prec < emax)%Z) by lia.
  pose proof (u_small prec Hp) as U.
  assert (XM : Rabs (x * (1 / r * (1 + e1))) <= 801 / 800 * K).
  { rewrite !Rabs_mult. unfold Rdiv. rewrite Rmult_1_l. rewrite (Rabs_right (/ r)) by (apply Rle_ge, Rlt_le, Rinv_0_lt_compat; lra).
    assert (A : Rabs (1 + e1) <= 801 / 800).
    { eapply Rle_trans; [apply Rabs_triang|]. rewrite Rabs_R1. lra. }
    assert (Bx : Rabs x * / r <= K).
    { apply Rmult_le_reg_r with r; [lra|]. rewrite Rmult_assoc, Rinv_l by lra. lra. }
    rewrite <- Rmult_assoc. rewrite (Rmult_comm (801 * / 800)). apply Rmult_le_compat; try lra; [|apply Rabs_pos].
    apply Rmult_le_pos; [apply Rabs_pos|apply Rlt_le, Rinv_0_lt_compat; lra]. }
  assert (b50 : bpow radix2 50 = 1125899906842624) by reflexivity.
  assert (big : bpow radix2 60 <= bpow radix2 (emax - 1)) by (apply bpow_le; lia).
  assert (b60 : bpow radix2 60 = 1152921504606846976) by reflexivity.
  pose proof (mul_val prec emax Hp0 Hpe _ _ _ _ Fx Fm ltac:(lra)) as V1.
  destruct (rnd_err prec emax Hp0 (x * (1 / r * (1 + e1)))) as (e2 & h2 & E2 & H2 & D2).
  set (t := bpow radix2 (SpecFloat.emin prec emax - 1)) in *.
  assert (T3 : t <= 1) by (unfold t; change 1 with (bpow radix2 0); apply bpow_le; unfold SpecFloat.emin; lia).
  set (p := round radix2 (SpecFloat.fexp prec emax) ZnearestE (x * (1 / r * (1 + e1)))) in *.
  assert (Pb : Rabs p <= 9 / 8 * K + 1).
  { rewrite D2. eapply Rle_trans; [apply Rabs_triang|]. apply Rplus_le_compat; [|lra].
    rewrite Rabs_mult. apply Rle_trans with (801 / 800 * K * (1 + / 1000)); [|lra].
    apply Rmult_le_compat; [apply Rabs_pos|apply Rabs_pos|exact XM|].
    eapply Rle_trans; [apply Rabs_triang|]. rewrite Rabs_R1. lra. }
  pose proof (Rabs_le_inv _ _ Pb) as Pb'.
  pose proof (to_int_near prec emax rd imin imax _ _ N V1 ltac:(lra)) as Q.
  set (q := sf_to_int rd imin imax (SFmul prec emax fx fm)) in *.
  replace (IZR q) with ((IZR q - p) + p) by ring. eapply Rle_trans; [apply Rabs_triang|]. lra.
Qed.
End Small.
Lemma abs_bound v B : Rabs (IZR v) <= IZR B -> (Z.abs v <= B)%Z.
Proof. rewrite <- abs_IZR. apply le_IZR. Qed.

(** ** Samples for which the theorem holds
    a NaN, or a number of at most 2^20 steps (2^49 in a double field). *)
Definition sample32 (rb xb : Z) : Prop :=
  finite32 rb /\ usable (float_of rb) /\
  (isnan32 xb = true \/ (finite32 xb /\ Rabs (float_of xb) <= powerRZ 2 20 * float_of rb)).
Definition sample64 (rb xb : Z) : Prop :=
  finite32 rb /\ usable (float_of rb) /\
  (isnan64 xb = true \/ (finite64 xb /\ Rabs (double_of xb) <= powerRZ 2 49 * float_of rb)).
Definition samples_ok (i : info) (cloud : list Z) : Prop :=
  i_enc i = ENC_LOSSY -> forall f rb j, In f (i_fields i) -> f_res f = Some rb -> (Z.of_nat (S j) * i_step i <= zlen cloud)%Z ->
    (f_type f = FLOAT32 -> sample32 rb (le_val (fbytes i f cloud j))) /\
    (f_type f = FLOAT64 -> sample64 rb (le_val (fbytes i f cloud j))).

Lemma code32 o o' rb bs : build o -> build o' -> sample32 rb (le_val bs) ->
  code_of o' (K32 rb) (recon o (K32 rb) bs) = code_of o (K32 rb) bs.
Proof.
  intros B B' (Fr & Hr & HX). cbn [recon code_of]. set (xb := le_val bs) in *.
  replace (d32 o) with dequant32 by (destruct B as [-> | ->]; reflexivity).
  replace (q32 o) with quant32 by (destruct B as [-> | ->]; reflexivity). replace (q32 o') with quant32 by (destruct B' as [-> | ->]; reflexivity).
  destruct HX as [HX|[Fx Hx]]; [rewrite HX; vm_compute; reflexivity|]. rewrite (finite_nan32 xb Fx).
  assert (Hq : (Z.abs (quant32 rb xb) <= 2097152)%Z).
  { destruct (mult32_val rb Fr Hr) as (e1 & E1 & Vm). destruct (usable_pos _ Hr) as [P _]. rewrite pw2 in Hx. apply abs_bound.
    pose proof (small 24 128 ltac:(lia) ltac:(lia) round_away INT64_MIN INT64_MAX (bpow radix2 20) (sf32 xb) (mult32 rb) (float_of xb) (float_of rb) e1 round_away_near) as S.
    eapply Rle_trans; [apply S|]; try assumption.
    - split; [change 1 with (bpow radix2 0)|]; apply bpow_le; lia.
    - change (bpow radix2 20) with 1048576. change (IZR INT64_MIN) with (-9223372036854775808). lra.
    - change (bpow radix2 20) with 1048576. change (IZR INT64_MAX) with (9223372036854775807). lra.
    - apply val32, Fx.
    - change (bpow radix2 20) with 1048576. lra. }
  destruct (again32 rb _ Fr Hr Hq) as [F Q]. rewrite (s64_id (quant32 rb xb)) by lia.
  rewrite le_val_le_bytes. change (256 ^ Z.of_nat 4)%Z with 4294967296%Z.
  replace ((u32 (dequant32 rb (quant32 rb xb))) mod 4294967296)%Z with (dequant32 rb (quant32 rb xb)).
  2:{ pose proof (finite_u32 _ F). unfold u32. change (2 ^ 32)%Z with 4294967296%Z. rewrite !Z.mod_small; lia. }
  rewrite (finite_nan32 _ F), Q. rewrite (s64_id (quant32 rb xb)) by lia. reflexivity.
Qed.
Lemma code64 o o' rb bs : build o -> build o' -> sample64 rb (le_val bs) ->
  code_of o' (K64 rb) (recon o (K64 rb) bs) = code_of o (K64 rb) bs.
Proof.
  intros B B' (Fr & Hr & HX). cbn [recon code_of]. set (xb := le_val bs) in *.
  replace (d64 o) with dequant64 by (destruct B as [-> | ->]; reflexivity).
  replace (q64 o) with quant64 by (destruct B as [-> | ->]; reflexivity). replace (q64 o') with quant64 by (destruct B' as [-> | ->]; reflexivity).
  destruct HX as [HX|[Fx Hx]]; [rewrite HX; vm_compute; reflexivity|]. rewrite (finite_nan64 xb Fx).
  assert (Hq : (Z.abs (quant64 rb xb) <= 1125899906842624)%Z).
  { pose proof (widen _ _ (val32 _ Fr)) as W. destruct (recip 53 1024 _ _ ltac:(lia) ltac:(lia) W Hr) as (e1 & E1 & Vm). destruct (usable_pos _ Hr) as [P _]. rewrite pw2 in Hx. apply abs_bound.
    pose proof (small 53 1024 ltac:(lia) ltac:(lia) round_away INT64_MIN INT64_MAX (bpow radix2 49) (sf64 xb) (mult64 rb) (double_of xb) (float_of rb) e1 round_away_near) as S.
    eapply Rle_trans; [apply S|]; try assumption.
    - split; [change 1 with (bpow radix2 0)|]; apply bpow_le; lia.
    - change (bpow radix2 49) with 562949953421312. change (IZR INT64_MIN) with (-9223372036854775808). lra.
    - change (bpow radix2 49) with 562949953421312. change (IZR INT64_MAX) with (9223372036854775807). lra.
    - apply val64, Fx.
    - pose proof (bpow_gt_0 radix2 (- (53))). lra.
    - change (bpow radix2 49) with 562949953421312. lra. }
  destruct (again64 rb _ Fr Hr Hq) as [F Q]. rewrite (s64_id (quant64 rb xb)) by lia.
  rewrite le_val_le_bytes. change (256 ^ Z.of_nat 8)%Z with 18446744073709551616%Z.
  replace ((u64 (dequant64 rb (quant64 rb xb))) mod 18446744073709551616)%Z with (dequant64 rb (quant64 rb xb)).
  2:{ pose proof (finite_u64 _ F). unfold u64. change (2 ^ 64)%Z with 18446744073709551616%Z. rewrite !Z.mod_small; lia. }
  rewrite (finite_nan64 _ F), Q. rewrite (s64_id (quant64 rb xb)) by lia. reflexivity.
Qed.
Lemma codeN o o' rb bs : build o -> build o' -> sample32 rb (le_val bs) ->
  code_of o' (KN rb) (recon o (KN rb) bs) = code_of o (KN rb) bs.
Proof.
  intros B B' (Fr & Hr & HX). cbn [recon code_of]. set (xb := le_val bs) in *.
  replace (dN o) with dequantN by (destruct B as [-> | ->]; reflexivity).
  destruct HX as [HX|[Fx Hx]]; [rewrite HX; vm_compute; reflexivity|]. rewrite (finite_nan32 xb Fx).
  assert (RD : forall o, build o -> exists rd, (forall m e, (0 < m)%Z -> Rabs (IZR (rd m e) - IZR m * powerRZ 2 e) <= / 2) /\
    forall x, qN o rb x = sf_to_int rd INT32_MIN 2147483647 (SFmul 24 128 (sf32 x) (multN rb))).
  { intros o0 [-> | ->]; [exists round_even|exists round_away]; (split; [first [exact round_even_near|exact round_away_near]|intros; reflexivity]). }
  destruct (RD o B) as (rd & N & Eq). destruct (RD o' B') as (rd' & N' & Eq'). rewrite Eq'. rewrite Eq.
  set (v := sf_to_int rd INT32_MIN 2147483647 (SFmul 24 128 (sf32 xb) (multN rb))).
  assert (Hq : (Z.abs v <= 2097152)%Z).
  { destruct (recip 24 128 _ _ ltac:(lia) ltac:(lia) (val32 rb Fr) Hr) as (e1 & E1 & Vm). destruct (usable_pos _ Hr) as [P _]. rewrite pw2 in Hx. apply abs_bound.
    pose proof (small 24 128 ltac:(lia) ltac:(lia) rd INT32_MIN 2147483647 (bpow radix2 20) (sf32 xb) (multN rb) (float_of xb) (float_of rb) e1 N) as S.
    eapply Rle_trans; [apply S|]; try assumption.
    - split; [change 1 with (bpow radix2 0)|]; apply bpow_le; lia.
    - change (bpow radix2 20) with 1048576. change (IZR INT32_MIN) with (-2147483648). lra.
    - change (bpow radix2 20) with 1048576. lra.
    - apply val32, Fx.
    - pose proof (bpow_gt_0 radix2 (- (24))). lra.
    - change (bpow radix2 20) with 1048576. lra. }
  destruct (againN rd' rb v N' Fr Hr Hq) as [F Q]. rewrite (s32_id v) by lia.
  rewrite le_val_le_bytes. change (256 ^ Z.of_nat 4)%Z with 4294967296%Z.
  replace ((u32 (dequantN rb v)) mod 4294967296)%Z with (dequantN rb v).
  2:{ pose proof (finite_u32 _ F). unfold u32. change (2 ^ 32)%Z with 4294967296%Z. rewrite !Z.mod_small; lia. }
  rewrite (finite_nan32 _ F), Q. rewrite (s32_id v) by lia. reflexivity.
Qed.

(** ** The theorem *)
Lemma diag {A B} (l : list A) : forall (ks : list B) a b, In (a, b) (combine l ks) -> In (a, (a, b)) (combine l (combine l ks)).
Proof.
  induction l as [|x l IH]; intros [|k ks] a b H; cbn in *; try contradiction. destruct H as [H|H]; [left; congruence|right; auto].
Qed.
Lemma recode_codes o o' i n cloud mem mem' : build o -> build o' -> layout_ok i -> Forall (fun f => stored f = true) (i_fields i) ->
  (zlen cloud = Z.of_nat n * i_step i)%Z -> zlen mem = zlen cloud -> samples_ok i cloud -> restored o i i n cloud mem mem' ->
  same_codes o' o i mem' cloud.
Proof.
  intros B B' [Hs HF] HSt Hlen Hm HS (HL & HR & _). split; [unfold zlen in Hm; lia|]. intros j f k Hf Hz.
  rewrite Forall_forall in HF, HSt. assert (Hin : In f (i_fields i)) by (apply in_combine_l in Hf; exact Hf). destruct (HF f Hin) as [Ho Ho2].
  assert (Hz' : zlen mem' = zlen cloud) by (unfold zlen in *; lia). rewrite Hz' in Hz.
  pose proof (kind_size i) as KS. rewrite Forall_forall in KS. specialize (KS _ (in_map BuildFacts.piece_of _ _ Hf)). unfold BuildFacts.piece_of in KS. cbn [fst snd] in KS.
  destruct (Nat.eq_dec (SizeOf (f_type f)) 0) as [E0|E0].
  { destruct KS as [KS|KS]; [lia|]. subst k. unfold fbytes, sub. rewrite E0. reflexivity. }
  assert (Hj : (j < n)%nat) by (rewrite Hlen in Hz; assert (Z.of_nat j < Z.of_nat n)%Z by nia; lia).
  pose proof (HR j f f k Hj (diag _ _ _ _ Hf) (HSt f Hin)) as E. change (fbytes i f mem' j = recon o k (fbytes i f cloud j)) in E. rewrite E.
  assert (Hs2 : (Z.of_nat (S j) * i_step i <= zlen cloud)%Z) by (rewrite Hlen; nia).
  destruct (i_enc i) eqn:EE.
  1,3,4: assert (EK : k = KId) by (unfold kinds in Hf; rewrite EE, BuildFacts.combine_map in Hf; apply in_map_iff in Hf; destruct Hf as (x & Ex & _); congruence); subst k; reflexivity.
  specialize (HS EE). pose proof (kind_cases i f k EE Hf) as [[HT ->] | ->].
  - unfold vector_kind. destruct (f_res f) as [rb|] eqn:ER; [|reflexivity]. apply codeN; auto. apply (HS f rb j Hin ER Hs2). exact HT.
  - unfold lossy_kind. destruct (f_type f) eqn:HT; try reflexivity; destruct (f_res f) as [rb|] eqn:ER; try reflexivity.
    + apply code32; auto. apply (HS f rb j Hin ER Hs2). exact HT.
    + apply code64; auto. apply (HS f rb j Hin ER Hs2). exact HT.
Qed.

(** [cloud], encoded by one build and decoded by another into a buffer of the same size, gives
    [mem']; any build then encodes [mem'] to exactly the bytes the first one produced from [cloud]
    (in a view or in a vector, with or without header; any encoder objects). *)
Theorem C68_same_stream : forall o1 o2 o3 L ppc probe i hdr0 e1 e3 cloud hdr body n buf mem buf' mem',
  build o1 -> build o2 -> build o3 ->
  libs_ok L -> bytes hdr0 -> encode_side ppc i cloud -> decode_side i i -> deltas_ok o1 i ppc cloud ->
  encoder_of o1 L ppc probe i (Ok hdr0) e1 -> produces o1 L ppc probe e1 cloud hdr body ->
  (zlen body < 1431260227)%Z -> (zlen cloud = Z.of_nat n * i_step i)%Z -> declares i n ->
  Forall (fun f => stored f = true) (i_fields i) -> samples_ok i cloud ->
  zlen mem = zlen cloud -> decode o2 L ppc i body buf mem = Ok (buf', mem') ->
  encoder_of o3 L ppc probe i (Ok hdr0) e3 ->
  forall out (wh : bool),
  fst (encode_view o3 L ppc probe e3 mem' out wh) = fst (encode_view o1 L ppc probe e1 cloud out wh) /\
  fst (encode_vec o3 L ppc probe e3 mem' out) = fst (encode_vec o1 L ppc probe e1 cloud out).
Proof.
  intros o1 o2 o3 L ppc probe i hdr0 e1 e3 cloud hdr body n buf mem buf' mem' B1 B2 B3 HL Hh HES HDS HD HEo HPr Hz Hlen Hdec HSt HS Hm HOk HE3 out wh.
  rewrite (build_decode o2 o1) in HOk by assumption.
  destruct (C17_never_wrong o1 L ppc probe i i hdr0 e1 cloud hdr body n buf mem HL Hh HES HDS HD HEo HPr Hz Hlen Hdec ltac:(lia)) as [(b2 & m2 & E & HR)|E]; [|congruence].
  assert (m2 = mem') by congruence. subst m2. pose proof HES as (HLa & HK & _).
  pose proof (recode_codes o1 o3 i n cloud mem mem' B1 B3 HLa HSt Hlen Hm HS HR) as HC.
  destruct (encoder_of_ready _ _ _ _ _ _ _ HEo) as (R1 & I1 & D1 & f1 & P1 & E1).
  destruct (encoder_of_ready _ _ _ _ _ _ _ HE3) as (R3 & I3 & D3 & f3 & P3 & E3).
  assert (Ef : f1 = f3) by congruence. subst f3.
  assert (Hs : (0 <= i_step (e_info e3))%Z) by (rewrite I3; destruct HLa; lia). rewrite <- I3 in HC, HK.
  split.
  - rewrite (encode_view_codes o3 o1 L ppc probe e3 mem' cloud out wh R3 HK Hs HC). apply encode_view_history; congruence || assumption.
  - rewrite (encode_vec_codes o3 o1 L ppc probe e3 mem' cloud out R3 HK Hs HC). apply encode_vec_history; congruence || assumption.
Qed.
Print Assumptions C68_same_stream.

(** Beyond the bound it is false: 1 mm steps at x = y = z = 4194.3135 m (2^22 steps): the second
    generation differs from the first. *)
Definition far_cloud : list Z := le_bytes 4 1166217858 ++ le_bytes 4 1166217858 ++ le_bytes 4 1166217858.
Definition far_info : info :=
  mkInfo [fld 120 0 FLOAT32 (Some milli); fld 121 4 FLOAT32 (Some milli); fld 122 8 FLOAT32 (Some milli)] 1 1 12 ENC_LOSSY [] COMP_NONE false 5.
Theorem C68_far_refuted : exists i cloud e mem', layout_ok i /\ PointcloudEncoder i (Ok []) = Ok e /\
  (let body := snd (fst (encode_vec sse_ops store_libs 2 4096 e cloud [])) in
   decode sse_ops store_libs 2 i body [] (repeat 0%Z 12) = Ok ([], mem') /\
   snd (fst (encode_vec sse_ops store_libs 2 4096 e mem' [])) <> body).
Proof.
  exists far_info, far_cloud. destruct (PointcloudEncoder far_info (Ok [])) as [e| |] eqn:E; [|discriminate E|discriminate E].
  exists e, (le_bytes 4 1166217857 ++ le_bytes 4 1166217857 ++ le_bytes 4 1166217857).
  split; [split; [reflexivity|]; repeat constructor; cbn; lia|]. split; [reflexivity|].
  assert (Ee : match PointcloudEncoder far_info (Ok []) with Ok x => x = e | _ => False end) by (rewrite E; reflexivity).
  vm_compute in Ee. rewrite <- Ee. split; [vm_compute; reflexivity|vm_compute; discriminate].
Qed.
Print Assumptions C68_far_refuted.

(** *** The hypotheses are met
    Two points: x, y, z at 1 mm (one NaN), a ring number, a double at 1 mm and a 64-bit integer. *)
Definition near_fields : list field :=
  [fld 120 0 FLOAT32 (Some milli); fld 121 4 FLOAT32 (Some milli); fld 122 8 FLOAT32 (Some milli);
   fld 114 12 UINT16 None; fld 116 16 FLOAT64 (Some milli); fld 105 24 INT64 None].
Definition near_info : info := mkInfo near_fields 2 1 32 ENC_LOSSY [] COMP_NONE false 5.
Definition near_cloud : list Z :=
  scan_point 1069547520 3222274048 2143289344 7 4614256656552045848 (-3) ++
  scan_point 0 1077936128 1065353216 500 4613303445314885481 (2 ^ 40).

Lemma expo32 b : finite32 b -> ((b / 2 ^ 23) mod 2 ^ 8 <= 135)%Z -> Rabs (float_of b) <= bpow radix2 9.
Proof.
  intros [_ H] Hle. unfold float_of, value. cbv zeta. set (e := ((b / 2 ^ 23) mod 2 ^ 8)%Z) in *. set (m := (b mod 2 ^ 23)%Z).
  assert (He : (0 <= e)%Z) by (apply Z.mod_pos_bound; reflexivity). assert (Hm : (0 <= m < 8388608)%Z) by (apply Z.mod_pos_bound; reflexivity).
  rewrite Rabs_mult. replace (Rabs (if Z.odd (b / 2 ^ (23 + 8)) then -1 else 1)) with 1 by (destruct (Z.odd _); [rewrite Rabs_left|rewrite Rabs_right]; lra).
  rewrite Rmult_1_l. rewrite !pw2.
  assert (G : forall q s, (0 <= q <= 2 ^ 24)%Z -> (s <= -15)%Z -> Rabs (IZR q * bpow radix2 s) <= bpow radix2 9).
  { intros q s Hq Hs. rewrite Rabs_mult, (Rabs_right (bpow radix2 s)) by (apply Rle_ge, bpow_ge_0).
    rewrite <- abs_IZR. replace 9%Z with (24 + -15)%Z by reflexivity. rewrite bpow_plus.
    apply Rmult_le_compat; [apply IZR_le; lia|apply bpow_ge_0| |apply bpow_le; exact Hs].
    rewrite <- (IZR_Zpower radix2) by lia. apply IZR_le. change (radix2 ^ 24)%Z with 16777216%Z. change (2 ^ 24)%Z with 16777216%Z in Hq. lia. }
  change (2 ^ (8 - 1))%Z with 128%Z. destruct (e =? 0)%Z; apply G; change (2 ^ 23)%Z with 8388608%Z; change (2 ^ 24)%Z with 16777216%Z; lia.
Qed.
Lemma expo64 b : finite64 b -> ((b / 2 ^ 52) mod 2 ^ 11 <= 1031)%Z -> Rabs (double_of b) <= bpow radix2 9.
Proof.
  intros [_ H] Hle. unfold double_of, value. cbv zeta. set (e := ((b / 2 ^ 52) mod 2 ^ 11)%Z) in *. set (m := (b mod 2 ^ 52)%Z).
  assert (He : (0 <= e)%Z) by (apply Z.mod_pos_bound; reflexivity). assert (Hm : (0 <= m < 4503599627370496)%Z) by (apply Z.mod_pos_bound; reflexivity).
  rewrite Rabs_mult. replace (Rabs (if Z.odd (b / 2 ^ (52 + 11)) then -1 else 1)) with 1 by (destruct (Z.odd _); [rewrite Rabs_left|rewrite Rabs_right]; lra).
  rewrite Rmult_1_l. rewrite !pw2.
  assert (G : forall q s, (0 <= q <= 2 ^ 53)%Z -> (s <= -44)%Z -> Rabs (IZR q * bpow radix2 s) <= bpow radix2 9).
  { intros q s Hq Hs. rewrite Rabs_mult, (Rabs_right (bpow radix2 s)) by (apply Rle_ge, bpow_ge_0).
    rewrite <- abs_IZR. replace 9%Z with (53 + -44)%Z by reflexivity. rewrite bpow_plus.
    apply Rmult_le_compat; [apply IZR_le; lia|apply bpow_ge_0| |apply bpow_le; exact Hs].
    rewrite <- (IZR_Zpower radix2) by lia. apply IZR_le. change (radix2 ^ 53)%Z with 9007199254740992%Z. change (2 ^ 53)%Z with 9007199254740992%Z in Hq. lia. }
  change (2 ^ (11 - 1))%Z with 1024%Z. destruct (e =? 0)%Z; apply G; change (2 ^ 52)%Z with 4503599627370496%Z; change (2 ^ 53)%Z with 9007199254740992%Z; lia.
Qed.
Definition near32 (xb : Z) : bool := isnan32 xb || ((0 <=? xb) && (xb <? 4294967296) && ((xb / 2 ^ 23) mod 2 ^ 8 <=? 135))%Z.
Definition near64 (xb : Z) : bool := isnan64 xb || ((0 <=? xb) && (xb <? 18446744073709551616) && ((xb / 2 ^ 52) mod 2 ^ 11 <=? 1031))%Z.
Lemma milli_finite : finite32 milli.
Proof. split; [split; [discriminate|reflexivity]|discriminate]. Qed.
Lemma near32_ok xb : near32 xb = true -> sample32 milli xb.
Proof.
  unfold near32. intros H. split; [exact milli_finite|]. split; [exact milli_usable|]. apply orb_true_iff in H. destruct H as [H|H]; [left; exact H|right].
  apply andb_true_iff in H. destruct H as [H H3]. apply andb_true_iff in H. destruct H as [H1 H2].
  assert (F : finite32 xb). { split; [change (2 ^ (23 + 8 + 1))%Z with 4294967296%Z; lia|]. change (2 ^ 8 - 1)%Z with 255%Z. lia. }
  split; [exact F|]. eapply Rle_trans; [apply expo32; [exact F|lia]|]. change (float_of milli) with (float_of mm). rewrite milli_val, pw2.
  change (bpow radix2 20) with 1048576. change (bpow radix2 9) with 512. lra.
Qed.
Lemma near64_ok xb : near64 xb = true -> sample64 milli xb.
Proof.
  unfold near64. intros H. split; [exact milli_finite|]. split; [exact milli_usable|]. apply orb_true_iff in H. destruct H as [H|H]; [left; exact H|right].
  apply andb_true_iff in H. destruct H as [H H3]. apply andb_true_iff in H. destruct H as [H1 H2].
  assert (F : finite64 xb). { split; [change (2 ^ (52 + 11 + 1))%Z with 18446744073709551616%Z; lia|]. change (2 ^ 11 - 1)%Z with 2047%Z. lia. }
  split; [exact F|]. eapply Rle_trans; [apply expo64; [exact F|lia]|]. change (float_of milli) with (float_of mm). rewrite milli_val, pw2.
  change (bpow radix2 49) with 562949953421312. change (bpow radix2 9) with 512. lra.
Qed.
Lemma near_samples : samples_ok near_info near_cloud.
Proof.
  intros _ f rb j Hf HR Hj. assert (Hj2 : j = 0%nat \/ j = 1%nat) by (change (zlen near_cloud) with 64%Z in Hj; cbn [i_step near_info] in Hj; lia).
  cbn [i_fields near_info near_fields] in Hf. unfold fld in Hf.
  destruct Hj2 as [-> | ->]; repeat (destruct Hf as [<- |Hf]; [cbn [f_res] in HR; try discriminate HR; injection HR as <-; split; intros HT; cbn [f_type] in HT; try discriminate HT; lazymatch goal with |- sample32 _ _ => apply near32_ok; vm_compute; reflexivity | |- _ => apply near64_ok; vm_compute; reflexivity end|]); destruct Hf.
Qed.
Example C68_case : let i := near_info in
  encode_side 2 i near_cloud /\ decode_side i i /\ deltas_ok sse_ops i 2 near_cloud /\ declares i 2 /\
  Forall (fun f => stored f = true) (i_fields i) /\ samples_ok i near_cloud /\
  exists e body mem', encoder_of sse_ops store_libs 2 4096 i (Ok []) e /\ produces sse_ops store_libs 2 4096 e near_cloud [] body /\
    (zlen body < 1431260227)%Z /\ decode sse_ops store_libs 2 i body [] (repeat 255%Z 64) = Ok ([], mem') /\ mem' <> near_cloud.
Proof.
  cbv zeta. split.
  { split; [split; [reflexivity|repeat constructor; cbn; lia]|]. split; [exact I|]. split; [|apply bytesb; vm_compute; reflexivity]. split; [lia|]. split; [lia|vm_compute; discriminate]. }
  split.
  { split; [split; [repeat constructor|auto]|]. split; [split; [reflexivity|repeat constructor; cbn; lia]|]. split; [left; cbn; repeat constructor; cbn; lia|]. split; [repeat constructor|]. split; [repeat constructor|split; [reflexivity|cbn; lia]]. }
  split; [apply (deltas_okb_ok _ _ _ _ 2); [vm_compute; reflexivity|reflexivity|vm_compute; reflexivity]|].
  split; [reflexivity|]. split; [repeat constructor|]. split; [exact near_samples|].
  pose (e := match PointcloudEncoder near_info (Ok []) with Ok e => e | _ => mkEnc near_info [] [] [] end).
  pose (body := skipn 0 (snd (fst (encode_vec sse_ops store_libs 2 4096 e near_cloud [])))).
  exists e, body, (match decode sse_ops store_libs 2 near_info body [] (repeat 255%Z 64) with Ok (_, m) => m | _ => [] end).
  destruct (new_produces sse_ops store_libs 2 4096 near_info [] e near_cloud) as [H1 H2]; [vm_compute; reflexivity|vm_compute; reflexivity|].
  split; [exact H1|]. split; [exact H2|]. split; [vm_compute; reflexivity|]. split; [vm_compute; reflexivity|vm_compute; discriminate].
Qed.
