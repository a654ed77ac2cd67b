(** Real-number meaning of the floating-point operations of Floats.v (proof file).
    Uses Flocq's correctness theorems for the standard library's [SpecFloat]. *)
From Coq Require Import ZArith Reals Psatz Bool.
From Coq Require Import Floats.SpecFloat.
From Flocq Require Import Core Relative BinarySingleNaN.
From Verif Require Import Base Floats ErrorSpec.
Open Scope Z_scope.
Open Scope R_scope.

Definition is_val (prec emax : Z) (f : spec_float) (v : R) : Prop :=
  valid_binary prec emax f = true /\ is_finite_SF f = true /\ SF2R radix2 f = v.

Section Format.
Variables mw ew : Z.
Hypothesis Hmw : (0 < mw)%Z.
Hypothesis Hew : (1 < ew)%Z.
Hypothesis Hlt : (mw + 1 < 2 ^ (ew - 1))%Z.
Notation prec := (mw + 1)%Z.
Notation emax := (2 ^ (ew - 1))%Z.

Lemma sf_bits_val b : finite_bits mw ew b -> is_val prec emax (sf_of_bits mw ew b) (value mw ew b).
Proof.
  intros [Hb He]. unfold sf_of_bits, value. cbv zeta.
  set (m := (b mod 2 ^ mw)%Z) in *. set (e := ((b / 2 ^ mw) mod 2 ^ ew)%Z) in *.
  set (s := Z.odd (b / 2 ^ (mw + ew))).
  assert (Pm : (0 < 2 ^ mw)%Z) by (apply Z.pow_pos_nonneg; lia).
  assert (Pe : (0 < 2 ^ ew)%Z) by (apply Z.pow_pos_nonneg; lia).
  assert (Rm : (0 <= m < 2 ^ mw)%Z) by (apply Z.mod_pos_bound; lia).
  assert (Re : (0 <= e < 2 ^ ew)%Z) by (apply Z.mod_pos_bound; lia).
  assert (Dbl : (2 ^ ew = 2 * 2 ^ (ew - 1))%Z).
  { replace ew with (1 + (ew - 1))%Z at 1 by ring. rewrite Z.pow_add_r by lia. reflexivity. }
  assert (Emin : SpecFloat.emin prec emax = (3 - 2 ^ (ew - 1) - (mw + 1))%Z) by reflexivity.
  assert (Sgn : forall p ex, SF2R radix2 (S754_finite s p ex) =
            (if s then -1 else 1) * (IZR (Zpos p) * powerRZ 2 ex)).
  { intros p ex. unfold SF2R, F2R. cbn [Fnum Fexp]. rewrite bpow_powerRZ. change (IZR radix2) with 2.
    destruct s; cbn [cond_Zopp]; [rewrite opp_IZR|]; ring. }
  destruct (Z.eqb_spec e 0) as [e0 | e0].
  - destruct m as [|p|p] eqn:Em; [| | lia].
    + split; [reflexivity|]. split; [reflexivity|]. cbn. ring.
    + split; [|split; [reflexivity|]].
      * cbv delta [valid_binary bounded canonical_mantissa SpecFloat.fexp] beta iota. rewrite andb_true_iff. split.
        -- apply Zeq_is_eq_bool. rewrite Digits.Zpos_digits2_pos.
           pose proof (Digits.Zdigits_le_Zpower radix2 mw (Zpos p)) as D.
           rewrite Z.abs_eq in D by lia. specialize (D (proj2 Rm)).
           rewrite Z.max_r; rewrite Emin; lia.
        -- apply Z.leb_le. lia.
      * rewrite Sgn. do 2 f_equal. f_equal. lia.
  - destruct (Z.eqb_spec e (2 ^ ew - 1)) as [e1 | e1]; [contradiction|].
    destruct (m + 2 ^ mw)%Z as [|p|p] eqn:Em; [lia| |lia].
    split; [|split; [reflexivity|]].
    + cbv delta [valid_binary bounded canonical_mantissa SpecFloat.fexp] beta iota. rewrite andb_true_iff. split.
      * apply Zeq_is_eq_bool. rewrite Digits.Zpos_digits2_pos.
        assert (D : Digits.Zdigits radix2 (Zpos p) = prec).
        { apply Digits.Zdigits_unique. rewrite Z.abs_eq by lia. rewrite <- Em.
          replace (prec - 1)%Z with mw by ring. change (radix_val radix2) with 2%Z.
          rewrite Z.pow_add_r by lia. change (2 ^ 1)%Z with 2%Z. lia. }
        rewrite D, Emin. lia.
      * apply Z.leb_le. lia.
    + rewrite Sgn. rewrite <- Em. rewrite (Z.add_comm m). do 2 f_equal. f_equal. lia.
Qed.

Lemma bits_val f v : is_val prec emax f v ->
  finite_bits mw ew (bits_of_sf mw ew f) /\ value mw ew (bits_of_sf mw ew f) = v.
Proof.
  intros (Hv & Hf & HR).
  assert (Pm : (0 < 2 ^ mw)%Z) by (apply Z.pow_pos_nonneg; lia).
  assert (Pe : (4 <= 2 ^ ew)%Z).
  { replace ew with (2 + (ew - 2))%Z by ring. rewrite Z.pow_add_r by lia.
    assert (0 < 2 ^ (ew - 2))%Z by (apply Z.pow_pos_nonneg; lia). lia. }
  assert (Dbl : (2 ^ ew = 2 * 2 ^ (ew - 1))%Z).
  { replace ew with (1 + (ew - 1))%Z at 1 by ring. rewrite Z.pow_add_r by lia. reflexivity. }
  assert (Pw : (2 ^ (mw + ew) = 2 ^ mw * 2 ^ ew)%Z) by (apply Z.pow_add_r; lia).
  assert (Pw1 : (2 ^ (mw + ew + 1) = 2 * (2 ^ mw * 2 ^ ew))%Z).
  { rewrite Z.pow_add_r, Pw by lia. ring. }
  (* decomposition of sign / exponent / mantissa *)
  assert (Dec : forall (s : bool) e m, (0 <= e < 2 ^ ew -> 0 <= m < 2 ^ mw ->
     let b := (if s then 2 ^ (mw + ew) else 0) + e * 2 ^ mw + m in
     b mod 2 ^ mw = m /\ (b / 2 ^ mw) mod 2 ^ ew = e /\ Z.odd (b / 2 ^ (mw + ew)) = s
     /\ 0 <= b < 2 ^ (mw + ew + 1))%Z).
  { intros s e m Re Rm b. subst b. rewrite Pw1, Pw.
    set (sg := (if s then 2 ^ mw * 2 ^ ew else 0)%Z).
    assert (Hs : sg = ((if s then 1 else 0) * (2 ^ mw * 2 ^ ew))%Z) by (unfold sg; destruct s; ring).
    assert (Hbit : (0 <= (if s then 1 else 0) <= 1)%Z) by (destruct s; lia).
    set (t := (if s then 1 else 0)%Z) in *.
    assert (Q : ((sg + e * 2 ^ mw + m) / 2 ^ mw = t * 2 ^ ew + e)%Z).
    { symmetry. apply Z.div_unique with m; [left; exact Rm|]. rewrite Hs. ring. }
    assert (Lim : (0 <= e * 2 ^ mw + m < 2 ^ mw * 2 ^ ew)%Z) by nia.
    split; [|split; [|split]].
    - symmetry. apply Z.mod_unique with (t * 2 ^ ew + e)%Z; [left; exact Rm|]. rewrite Hs. ring.
    - rewrite Q. symmetry. apply Z.mod_unique with t; [left; exact Re|ring].
    - replace ((sg + e * 2 ^ mw + m) / (2 ^ mw * 2 ^ ew))%Z with t.
      + unfold t. destruct s; reflexivity.
      + apply Z.div_unique with (e * 2 ^ mw + m)%Z; [left; exact Lim|]. rewrite Hs. ring.
    - rewrite Hs. assert (0 < 2 ^ mw * 2 ^ ew)%Z by nia. nia. }
  destruct f as [s|s| |s m e]; try discriminate Hf.
  - cbn [bits_of_sf]. destruct (Dec s 0%Z 0%Z) as (A & B & C & D); [lia|lia|].
    replace ((if s then 2 ^ (mw + ew) else 0) + 0 * 2 ^ mw + 0)%Z
      with (if s then 2 ^ (mw + ew) else 0)%Z in * by (destruct s; ring).
    split.
    + split; [exact D|]. rewrite B. lia.
    + unfold value. cbv zeta. rewrite A, B, C. cbn. cbn in HR. rewrite <- HR. ring.
  - cbn in Hv. unfold bounded in Hv. apply andb_true_iff in Hv. destruct Hv as [Hc Hm].
    unfold canonical_mantissa in Hc. apply Zeq_bool_eq in Hc. unfold fexp in Hc.
    rewrite Digits.Zpos_digits2_pos in Hc. apply Z.leb_le in Hm.
    assert (Emin : SpecFloat.emin prec emax = (3 - 2 ^ (ew - 1) - (mw + 1))%Z) by reflexivity.
    rewrite Emin in Hc.
    assert (SR : v = (if s then -1 else 1) * (IZR (Zpos m) * powerRZ 2 e)).
    { rewrite <- HR. unfold SF2R, F2R. cbn [Fnum Fexp]. rewrite bpow_powerRZ. change (IZR radix2) with 2.
      destruct s; cbn [cond_Zopp]; [rewrite opp_IZR|]; ring. }
    set (d := Digits.Zdigits radix2 (Zpos m)) in *.
    pose proof (Digits.Zdigits_correct radix2 (Zpos m)) as DG. fold d in DG.
    rewrite Z.abs_eq in DG by lia. change (radix_val radix2) with 2%Z in DG.
    assert (dp : (0 < d)%Z) by (apply Digits.Zdigits_gt_0; lia).
    cbn [bits_of_sf]. cbv zeta.
    destruct (Z.ltb_spec (Zpos m) (2 ^ mw)) as [Lm | Lm].
    + assert (dm : (d <= mw)%Z).
      { apply Digits.Zdigits_le_Zpower. rewrite Z.abs_eq by lia. exact Lm. }
      assert (ee : e = (3 - 2 ^ (ew - 1) - (mw + 1))%Z) by lia.
      destruct (Dec s 0%Z (Zpos m)) as (A & B & C & D); [lia|lia|].
      replace ((if s then 2 ^ (mw + ew) else 0) + 0 * 2 ^ mw + Zpos m)%Z
        with ((if s then 2 ^ (mw + ew) else 0) + Zpos m)%Z in * by ring.
      split.
      * split; [exact D|]. rewrite B. lia.
      * unfold value. cbv zeta. rewrite A, B, C. rewrite SR. rewrite Z.eqb_refl.
        do 2 f_equal. f_equal. lia.
    + assert (dm : (mw < d)%Z).
      { destruct (Z_le_gt_dec d mw) as [H|H]; [|lia].
        assert (2 ^ d <= 2 ^ mw)%Z by (apply Z.pow_le_mono_r; lia). lia. }
      assert (d = prec) by lia.
      assert (Lm2 : (Zpos m < 2 * 2 ^ mw)%Z).
      { replace (2 * 2 ^ mw)%Z with (2 ^ d)%Z; [lia|].
        rewrite H. rewrite Z.pow_add_r by lia. ring. }
      set (E := (e - (3 - 2 ^ (ew - 1) - (mw + 1)) + 1)%Z).
      assert (RE : (1 <= E < 2 ^ ew - 1)%Z) by (unfold E; lia).
      destruct (Dec s E (Zpos m - 2 ^ mw)%Z) as (A & B & C & D); [lia|lia|].
      split.
      * split; [exact D|]. rewrite B. lia.
      * unfold value. cbv zeta. rewrite A, B, C. rewrite SR.
        destruct (Z.eqb_spec E 0) as [z|z]; [lia|].
        replace (2 ^ mw + (Zpos m - 2 ^ mw))%Z with (Zpos m) by ring.
        do 2 f_equal. f_equal. unfold E. lia.
Qed.
End Format.

(** Arithmetic *)
Section Arith.
Variables prec emax : Z.
Hypothesis Hp : (0 < prec)%Z.
Hypothesis Hpe : (prec < emax)%Z.
Let HP : FLX.Prec_gt_0 prec := Hp.
Let HL : Prec_lt_emax prec emax := Hpe.
Notation rnd x := (round radix2 (SpecFloat.fexp prec emax) ZnearestE x).

Lemma round_nearest_even_equiv s m l : round_nearest_even m l = choice_mode mode_NE s m l.
Proof. case l; [reflexivity|intro c]. case c; [ | reflexivity..]. now simpl; unfold Round.cond_incr; case Z.even. Qed.

Lemma binary_round_aux_equiv sx mx ex lx :
  SpecFloat.binary_round_aux prec emax sx mx ex lx
  = BinarySingleNaN.binary_round_aux prec emax mode_NE sx mx ex lx.
Proof.
  unfold SpecFloat.binary_round_aux, BinarySingleNaN.binary_round_aux.
  set (mrse' := shr_fexp _ _ _). case mrse'; intros mrs' e'; simpl.
  now rewrite (round_nearest_even_equiv sx).
Qed.

Lemma binary_round_equiv s m e :
  SpecFloat.binary_round prec emax s m e = BinarySingleNaN.binary_round prec emax mode_NE s m e.
Proof.
  unfold SpecFloat.binary_round, BinarySingleNaN.binary_round, shl_align_fexp.
  set (mez := shl_align _ _ _); case mez as [mz ez]. apply binary_round_aux_equiv.
Qed.

Lemma binary_normalize_equiv m e szero :
  SpecFloat.binary_normalize prec emax m e szero
  = B2SF (BinarySingleNaN.binary_normalize prec emax HP HL mode_NE m e szero).
Proof.
  case m as [ | p | p].
  - now simpl.
  - simpl; rewrite B2SF_SF2B; apply binary_round_equiv.
  - simpl; rewrite B2SF_SF2B; apply binary_round_equiv.
Qed.

Lemma is_val_B f v : is_val prec emax f v ->
  exists B : binary_float prec emax, B2SF B = f /\ is_finite B = true /\ B2R B = v.
Proof.
  intros (H1 & H2 & H3). exists (SF2B f H1). rewrite B2SF_SF2B. split; [reflexivity|].
  rewrite is_finite_SF2B, B2R_SF2B. auto.
Qed.
Lemma B_is_val (B : binary_float prec emax) : is_finite B = true -> is_val prec emax (B2SF B) (B2R B).
Proof.
  intros H. split; [apply valid_binary_B2SF|]. rewrite is_finite_SF_B2SF. split; [exact H|].
  apply SF2R_B2SF.
Qed.

Lemma no_overflow x : Rabs x <= bpow radix2 (emax - 1) -> Rlt_bool (Rabs (rnd x)) (bpow radix2 emax) = true.
Proof.
  intros H. apply Rlt_bool_true.
  apply Rle_lt_trans with (bpow radix2 (emax - 1)); [|apply bpow_lt; lia].
  apply abs_round_le_generic; [apply fexp_correct; exact HP|apply valid_rnd_N| |exact H].
  apply generic_format_bpow. unfold SpecFloat.fexp, SpecFloat.emin. lia.
Qed.

Lemma mul_val f g x y : is_val prec emax f x -> is_val prec emax g y ->
  Rabs (x * y) <= bpow radix2 (emax - 1) -> is_val prec emax (SFmul prec emax f g) (rnd (x * y)).
Proof.
  intros F G H. destruct (is_val_B _ _ F) as (A & <- & fa & <-). destruct (is_val_B _ _ G) as (B & <- & fb & <-).
  assert (E : SFmul prec emax (B2SF A) (B2SF B) = B2SF (@Bmult prec emax HP HL mode_NE A B)).
  { destruct A as [sx|sx| |sx mx ex Bx]; destruct B as [sy|sy| |sy my ey By]; try reflexivity.
    simpl. rewrite B2SF_SF2B. apply binary_round_aux_equiv. }
  rewrite E. pose proof (Bmult_correct prec emax HP HL mode_NE A B) as C.
  cbn [round_mode] in C. rewrite no_overflow in C by exact H. destruct C as (C1 & C2 & _).
  rewrite <- C1. apply B_is_val. rewrite C2, fa, fb. reflexivity.
Qed.

Lemma div_val f g x y : is_val prec emax f x -> is_val prec emax g y -> y <> 0 ->
  Rabs (x / y) <= bpow radix2 (emax - 1) -> is_val prec emax (SFdiv prec emax f g) (rnd (x / y)).
Proof.
  intros F G H0 H. destruct (is_val_B _ _ F) as (A & <- & fa & <-). destruct (is_val_B _ _ G) as (B & <- & fb & <-).
  assert (E : SFdiv prec emax (B2SF A) (B2SF B) = B2SF (@Bdiv prec emax HP HL mode_NE A B)).
  { destruct A as [sx|sx| |sx mx ex Bx]; destruct B as [sy|sy| |sy my ey By]; try reflexivity.
    simpl. rewrite B2SF_SF2B. set (melz := SFdiv_core_binary _ _ _ _ _ _).
    case melz as [[mz ez] lz]. apply binary_round_aux_equiv. }
  rewrite E. pose proof (Bdiv_correct prec emax HP HL mode_NE A B H0) as C.
  cbn [round_mode] in C. rewrite no_overflow in C by exact H. destruct C as (C1 & C2 & _).
  rewrite <- C1. apply B_is_val. rewrite C2, fa. reflexivity.
Qed.

Lemma norm_val m e s : Rabs (F2R (Float radix2 m e)) <= bpow radix2 (emax - 1) ->
  is_val prec emax (SpecFloat.binary_normalize prec emax m e s) (rnd (F2R (Float radix2 m e))).
Proof.
  intros H. rewrite binary_normalize_equiv.
  pose proof (binary_normalize_correct prec emax HP HL mode_NE m e s) as C. cbv zeta in C.
  cbn [round_mode] in C. rewrite no_overflow in C by exact H. destruct C as (C1 & C2 & _).
  rewrite <- C1. apply B_is_val. exact C2.
Qed.

(** conversion from another format *)
Lemma sf_round_val p' e' f x : is_val p' e' f x -> Rabs x <= bpow radix2 (emax - 1) ->
  is_val prec emax (sf_round prec emax f) (rnd x).
Proof.
  intros (H1 & H2 & H3) H. destruct f as [s|s| |s m e]; try discriminate H2.
  - cbn in H3. subst x. rewrite round_0 by apply valid_rnd_N. split; [reflexivity|]. split; reflexivity.
  - cbn [sf_round]. rewrite <- H3. cbn [SF2R]. apply norm_val. cbn [SF2R] in H3. rewrite H3. exact H.
Qed.

Lemma int_val v : Rabs (IZR v) <= bpow radix2 (emax - 1) ->
  is_val prec emax (SpecFloat.binary_normalize prec emax v 0 false) (rnd (IZR v)).
Proof.
  intros H. assert (E : IZR v = F2R (Float radix2 v 0)) by (unfold F2R; cbn; ring).
  rewrite E in *. apply norm_val. exact H.
Qed.

(** rounding error *)
Notation u := (bpow radix2 (- prec)).
Lemma half_bpow k : / 2 * bpow radix2 (k + 1) = bpow radix2 k.
Proof. rewrite bpow_plus. change (bpow radix2 1) with 2. field. Qed.

Lemma rnd_err x : exists e h, Rabs e <= u /\ Rabs h <= bpow radix2 (SpecFloat.emin prec emax - 1)
  /\ rnd x = x * (1 + e) + h.
Proof.
  destruct (error_N_FLT radix2 (SpecFloat.emin prec emax) prec Hp (fun x => negb (Z.even x)) x)
    as (e & h & A & B & _ & D).
  exists e, h. rewrite half_bpow in A. split; [exact A|]. split; [|exact D].
  replace (SpecFloat.emin prec emax) with (SpecFloat.emin prec emax - 1 + 1)%Z in B by ring.
  rewrite half_bpow in B. exact B.
Qed.

Lemma rnd_rel x : bpow radix2 (SpecFloat.emin prec emax + prec - 1) <= Rabs x ->
  exists e, Rabs e <= u /\ rnd x = x * (1 + e).
Proof.
  intros H. destruct (relative_error_N_FLT_ex radix2 (SpecFloat.emin prec emax) prec Hp (fun x => negb (Z.even x)) x H)
    as (e & A & D). exists e. rewrite half_bpow in A. split; [exact A|exact D].
Qed.

Lemma rnd_int v : exists e, Rabs e <= u /\ rnd (IZR v) = IZR v * (1 + e).
Proof.
  destruct (Z.eq_dec v 0) as [->|n].
  - exists 0. rewrite Rabs_R0. split; [apply bpow_ge_0|]. rewrite round_0 by apply valid_rnd_N. ring.
  - apply rnd_rel. apply Rle_trans with 1.
    + change 1 with (bpow radix2 0). apply bpow_le. unfold SpecFloat.emin. lia.
    + rewrite <- abs_IZR. apply IZR_le. lia.
Qed.

(** Rounding to an integer *)
Lemma pw2 e : powerRZ 2 e = bpow radix2 e.
Proof. exact (eq_sym (bpow_powerRZ radix2 e)). Qed.

Lemma round_away_near m e : (0 < m)%Z -> Rabs (IZR (round_away m e) - IZR m * powerRZ 2 e) <= / 2.
Proof.
  intros Hm. unfold round_away. destruct (Z.leb_spec 0 e) as [L|L].
  - rewrite mult_IZR. rewrite pw2. rewrite <- (IZR_Zpower radix2) by exact L.
    change (radix_val radix2) with 2%Z. rewrite Rminus_diag_eq by reflexivity. rewrite Rabs_R0. lra.
  - set (d := (2 ^ (- e - 1))%Z).
    assert (Pd : (0 < d)%Z) by (apply Z.pow_pos_nonneg; lia).
    assert (E2 : (2 ^ (- e) = 2 * d)%Z).
    { unfold d. replace (- e)%Z with (1 + (- e - 1))%Z at 1 by ring. rewrite Z.pow_add_r by lia. reflexivity. }
    rewrite E2.
    assert (Ep : powerRZ 2 e = / IZR (2 * d)).
    { rewrite <- E2. rewrite pw2.
      change 2%Z with (radix_val radix2) at 1. rewrite IZR_Zpower by lia. rewrite bpow_opp, Rinv_inv. reflexivity. }
    rewrite Ep.
    pose proof (Z.div_mod (m + d) (2 * d)) as DM. pose proof (Z.mod_pos_bound (m + d) (2 * d)) as MB.
    set (q := ((m + d) / (2 * d))%Z) in *. set (r := ((m + d) mod (2 * d))%Z) in *.
    assert (Em : m = (2 * d * q + (r - d))%Z) by lia.
    rewrite Em at 1. rewrite plus_IZR, minus_IZR, !mult_IZR.
    assert (0 < IZR d) by (apply IZR_lt; lia).
    assert (0 <= IZR r) by (apply IZR_le; lia).
    assert (IZR r < 2 * IZR d) by (rewrite <- (mult_IZR 2); apply IZR_lt; lia).
    replace (IZR q - (2 * IZR d * IZR q + (IZR r - IZR d)) * / (2 * IZR d)) with ((IZR d - IZR r) * / (2 * IZR d)) by (field; lra).
    apply Rabs_le. split.
    + apply Rmult_le_reg_r with (2 * IZR d); [lra|]. rewrite Rmult_assoc, Rinv_l by lra. lra.
    + apply Rmult_le_reg_r with (2 * IZR d); [lra|]. rewrite Rmult_assoc, Rinv_l by lra. lra.
Qed.

Lemma round_even_near m e : (0 < m)%Z -> Rabs (IZR (round_even m e) - IZR m * powerRZ 2 e) <= / 2.
Proof.
  intros Hm. unfold round_even. destruct (Z.leb_spec 0 e) as [L|L].
  - rewrite mult_IZR. rewrite pw2. rewrite <- (IZR_Zpower radix2) by exact L.
    change (radix_val radix2) with 2%Z. rewrite Rminus_diag_eq by reflexivity. rewrite Rabs_R0. lra.
  - cbv zeta. set (d := (2 ^ (- e))%Z).
    assert (Pd : (0 < d)%Z) by (apply Z.pow_pos_nonneg; lia).
    assert (Ep : powerRZ 2 e = / IZR d).
    { unfold d. rewrite pw2.
      change 2%Z with (radix_val radix2) at 1. rewrite IZR_Zpower by lia. rewrite bpow_opp, Rinv_inv. reflexivity. }
    rewrite Ep.
    pose proof (Z.div_mod m d) as DM. pose proof (Z.mod_pos_bound m d) as MB.
    set (q := (m / d)%Z) in *. set (r := (m mod d)%Z) in *.
    assert (Em : m = (d * q + r)%Z) by lia.
    assert (0 < IZR d) by (apply IZR_lt; lia).
    assert (N : forall k, (0 <= k <= 1)%Z -> (Z.abs (2 * (k * d - r)) <= d)%Z -> Rabs (IZR (q + k) - IZR m * / IZR d) <= / 2).
    { intros k _ K. rewrite Em. rewrite !plus_IZR, mult_IZR.
      replace (IZR q + IZR k - (IZR d * IZR q + IZR r) * / IZR d) with ((IZR k * IZR d - IZR r) * / IZR d) by (field; lra).
      assert (K2 : Rabs (2 * (IZR k * IZR d - IZR r)) <= IZR d).
      { rewrite <- mult_IZR, <- minus_IZR, <- (mult_IZR 2), <- abs_IZR. apply IZR_le. exact K. }
      apply Rabs_le_inv in K2. apply Rabs_le. split;
      (apply Rmult_le_reg_r with (IZR d); [lra|]; rewrite Rmult_assoc, Rinv_l by lra; lra). }
    destruct (Z.ltb_spec (2 * r) d) as [A|A].
    + replace q with (q + 0)%Z by ring. apply N; lia.
    + destruct (Z.ltb_spec d (2 * r)) as [B|B].
      * apply N; lia.
      * destruct (Z.even q); [replace q with (q + 0)%Z at 1 by ring|]; apply N; lia.
Qed.

Lemma to_int_near (rd : Z -> Z -> Z) imin imax f p :
  (forall m e, (0 < m)%Z -> Rabs (IZR (rd m e) - IZR m * powerRZ 2 e) <= / 2) ->
  is_val prec emax f p -> IZR imin + / 2 <= p <= IZR imax - / 2 ->
  Rabs (IZR (sf_to_int rd imin imax f) - p) <= / 2.
Proof.
  intros N (H1 & H2 & H3) H. destruct f as [s|s| |s m e]; try discriminate H2.
  - cbn in *. subst p. rewrite Rminus_diag_eq by reflexivity. rewrite Rabs_R0. lra.
  - unfold sf_to_int. cbv zeta. set (v := cond_Zopp s (rd (Zpos m) e)).
    assert (A : Rabs (IZR v - p) <= / 2).
    { rewrite <- H3. unfold SF2R, F2R. cbn [Fnum Fexp]. rewrite bpow_powerRZ. change (IZR radix2) with 2.
      specialize (N (Zpos m) e eq_refl). unfold v. destruct s; cbn [cond_Zopp]; [|exact N].
      change (Z.neg m) with (- Z.pos m)%Z. rewrite !opp_IZR. rewrite <- Rabs_Ropp.
      replace (- (- IZR (rd (Z.pos m) e) - - IZR (Z.pos m) * powerRZ 2 e)) with (IZR (rd (Z.pos m) e) - IZR (Z.pos m) * powerRZ 2 e) by ring.
      exact N. }
    pose proof (Rabs_le_inv _ _ A) as A'.
    assert (imin <= v)%Z by (apply le_IZR; lra). assert (v <= imax)%Z by (apply le_IZR; lra).
    destruct (Z.leb_spec imin v); [|lia]. destruct (Z.leb_spec v imax); [|lia]. exact A.
Qed.
End Arith.

(** Error analysis over the reals *)
Lemma mul_err a b al be : Rabs (a - 1) <= al -> Rabs (b - 1) <= be -> Rabs (a * b - 1) <= al + be + al * be.
Proof.
  intros A B. replace (a * b - 1) with ((a - 1) + (b - 1) + (a - 1) * (b - 1)) by ring.
  eapply Rle_trans; [apply Rabs_triang|]. eapply Rle_trans; [apply Rplus_le_compat_r, Rabs_triang|].
  rewrite Rabs_mult.
  assert (0 <= Rabs (a - 1)) by apply Rabs_pos. assert (0 <= Rabs (b - 1)) by apply Rabs_pos. nra.
Qed.
Lemma one_plus e : 1 + e - 1 = e. Proof. ring. Qed.

Lemma prod_small a b u : 0 <= u <= / 1000 -> Rabs (a - 1) <= 9 / 8 * u -> Rabs (b - 1) <= u ->
  Rabs (a * b - 1) <= 22 / 10 * u.
Proof.
  intros U A B. eapply Rle_trans; [apply (mul_err _ _ _ _ A B)|]. nra.
Qed.

Lemma real_bound x r e1 e2 e3 e4 h2 h4 d u t :
  0 < u <= / 1000 -> 0 < r -> 0 <= t <= u / 8 -> t <= u * r / 8 ->
  Rabs e1 <= 9 / 8 * u -> Rabs e2 <= u -> Rabs e3 <= u -> Rabs e4 <= u ->
  Rabs h2 <= t -> Rabs h4 <= t -> Rabs d <= / 2 ->
  Rabs ((x * (1 / r * (1 + e1)) * (1 + e2) + h2 + d) * (1 + e3) * r * (1 + e4) + h4 - x)
    <= r / 2 + u * (5 * Rabs x + 2 * r).
Proof.
  intros U R T T' E1 E2 E3 E4 H2 H4 D.
  set (P := (1 + e1) * (1 + e2)). set (B := (1 + e3) * (1 + e4)).
  assert (HP : Rabs (P - 1) <= 22 / 10 * u).
  { apply prod_small; [lra|rewrite one_plus; lra|rewrite one_plus; lra]. }
  assert (HB : Rabs (B - 1) <= 22 / 10 * u).
  { apply prod_small; [lra|rewrite one_plus; lra|rewrite one_plus; lra]. }
  assert (HA : Rabs (P * B - 1) <= 45 / 10 * u).
  { eapply Rle_trans; [apply (mul_err _ _ _ _ HP HB)|]. nra. }
  replace ((x * (1 / r * (1 + e1)) * (1 + e2) + h2 + d) * (1 + e3) * r * (1 + e4) + h4 - x)
    with (x * (P * B - 1) + r * ((h2 + d) * B) + h4) by (unfold P, B; field; lra).
  eapply Rle_trans; [apply Rabs_triang|]. eapply Rle_trans; [apply Rplus_le_compat_r, Rabs_triang|].
  rewrite !Rabs_mult. rewrite (Rabs_right r) by lra.
  assert (B1 : Rabs B <= 1 + 22 / 10 * u).
  { replace B with (1 + (B - 1)) by ring. eapply Rle_trans; [apply Rabs_triang|]. rewrite Rabs_R1. lra. }
  assert (HD : Rabs (h2 + d) <= t + / 2) by (eapply Rle_trans; [apply Rabs_triang|]; lra).
  assert (X0 : 0 <= Rabs x) by apply Rabs_pos.
  assert (Q : Rabs (h2 + d) * Rabs B <= (t + / 2) * (1 + 22 / 10 * u)).
  { apply Rmult_le_compat; [apply Rabs_pos|apply Rabs_pos|lra|lra]. }
  assert (Q2 : (t + / 2) * (1 + 22 / 10 * u) <= / 2 + 13 / 10 * u) by nra.
  assert (Q3 : r * (Rabs (h2 + d) * Rabs B) <= r * (/ 2 + 13 / 10 * u)).
  { apply Rmult_le_compat_l; lra. }
  assert (Q4 : Rabs x * Rabs (P * B - 1) <= Rabs x * (45 / 10 * u)) by (apply Rmult_le_compat_l; lra).
  nra.
Qed.

Section Pipe.
Variables prec emax : Z.
Hypothesis Hp : (24 <= prec <= 53)%Z.
Hypothesis He : (128 <= emax)%Z.
Notation u := (bpow radix2 (- prec)).
Lemma u_small : 0 < u <= / 1000.
Proof.
  split; [apply bpow_gt_0|]. apply Rle_trans with (bpow radix2 (-24)); [apply bpow_le; lia|].
  change (bpow radix2 (-24)) with (/ 16777216). lra.
Qed.

Lemma pipeline rd imin imax K fx fm fr x r e1 :
  (forall m e, (0 < m)%Z -> Rabs (IZR (rd m e) - IZR m * powerRZ 2 e) <= / 2) ->
  1 <= K <= bpow radix2 62 ->
  IZR imin + / 2 <= - (9 / 8 * K + 1) -> 9 / 8 * K + 1 <= IZR imax - / 2 ->
  is_val prec emax fx x -> is_val prec emax fr r -> is_val prec emax fm (1 / r * (1 + e1)) ->
  Rabs e1 <= 9 / 8 * u ->
  bpow radix2 (-100) <= r <= bpow radix2 60 -> Rabs x <= K * r ->
  exists y, is_val prec emax
     (SFmul prec emax (SpecFloat.binary_normalize prec emax (sf_to_int rd imin imax (SFmul prec emax fx fm)) 0 false) fr) y
   /\ Rabs (y - x) <= r / 2 + u * (5 * Rabs x + 2 * r).
Proof.
  intros N HK I1 I2 Fx Fr Fm E1 Hr Hx.
  assert (Hp0 : (0 < prec)%Z) by lia. assert (Hpe : (prec < emax)%Z) by lia.
  pose proof u_small as U.
  assert (r0 : 0 < r) by (pose proof (bpow_gt_0 radix2 (-100)); lra).
  set (t := bpow radix2 (SpecFloat.emin prec emax - 1)).
  assert (T1 : 0 <= t) by apply bpow_ge_0.
  assert (T2 : t <= u * r / 8).
  { apply Rle_trans with (u * bpow radix2 (-100) / 8).
    - unfold t, Rdiv. change (/ 8) with (bpow radix2 (-3)). rewrite <- !bpow_plus. apply bpow_le.
      unfold SpecFloat.emin. lia.
    - unfold Rdiv. apply Rmult_le_compat_r; [lra|]. apply Rmult_le_compat_l; lra. }
  assert (T3 : t <= u / 8).
  { unfold t, Rdiv. change (/ 8) with (bpow radix2 (-3)). rewrite <- bpow_plus. apply bpow_le.
      unfold SpecFloat.emin. lia. }
  (* product with the multiplier *)
  assert (XM : Rabs (x * (1 / r * (1 + e1))) <= 801 / 800 * K).
  { rewrite !Rabs_mult. unfold Rdiv. rewrite Rmult_1_l. rewrite (Rabs_right (/ r)) by (apply Rle_ge, Rlt_le, Rinv_0_lt_compat; lra).
    assert (A : Rabs (1 + e1) <= 801 / 800).
    { eapply Rle_trans; [apply Rabs_triang|]. rewrite Rabs_R1. lra. }
    assert (Bx : Rabs x * / r <= K).
    { apply Rmult_le_reg_r with r; [lra|]. rewrite Rmult_assoc, Rinv_l by lra. lra. }
    rewrite <- Rmult_assoc. rewrite (Rmult_comm (801 * / 800)). apply Rmult_le_compat; try lra; [|apply Rabs_pos].
    apply Rmult_le_pos; [apply Rabs_pos|apply Rlt_le, Rinv_0_lt_compat; lra]. }
  assert (b62 : bpow radix2 62 = 4611686018427387904) by reflexivity.
  assert (big : bpow radix2 125 <= bpow radix2 (emax - 1)) by (apply bpow_le; lia).
  assert (b63 : 801 / 800 * K <= bpow radix2 63) by (change (bpow radix2 63) with 9223372036854775808; lra).
  assert (b125 : bpow radix2 65 <= bpow radix2 125) by (apply bpow_le; lia).
  assert (b65 : bpow radix2 63 <= bpow radix2 65) by (apply bpow_le; lia).
  pose proof (mul_val prec emax Hp0 Hpe _ _ _ _ Fx Fm ltac:(lra)) as V1.
  destruct (rnd_err prec emax Hp0 (x * (1 / r * (1 + e1)))) as (e2 & h2 & E2 & H2 & D2).
  fold t in H2. set (p := round radix2 (SpecFloat.fexp prec emax) ZnearestE (x * (1 / r * (1 + e1)))) in *.
  assert (Pb : Rabs p <= 9 / 8 * K + 1).
  { rewrite D2. eapply Rle_trans; [apply Rabs_triang|]. apply Rplus_le_compat; [|lra].
    rewrite Rabs_mult. apply Rle_trans with (801 / 800 * K * (1 + / 1000)); [|lra].
    apply Rmult_le_compat; [apply Rabs_pos|apply Rabs_pos|exact XM|].
    eapply Rle_trans; [apply Rabs_triang|]. rewrite Rabs_R1. lra. }
  pose proof (Rabs_le_inv _ _ Pb) as Pb'.
  pose proof (to_int_near prec emax rd imin imax _ _ N V1 ltac:(lra)) as Q.
  set (q := sf_to_int rd imin imax (SFmul prec emax fx fm)) in *.
  assert (Qb : Rabs (IZR q) <= 9 / 8 * K + 2).
  { replace (IZR q) with ((IZR q - p) + p) by ring. eapply Rle_trans; [apply Rabs_triang|]. lra. }
  assert (b65v : bpow radix2 65 = 36893488147419103232) by reflexivity.
  pose proof (int_val prec emax Hp0 Hpe q ltac:(lra)) as V2.
  destruct (rnd_int prec emax Hp0 Hpe q) as (e3 & E3 & D3).
  set (f := round radix2 (SpecFloat.fexp prec emax) ZnearestE (IZR q)) in *.
  assert (Fb : Rabs f <= bpow radix2 65).
  { rewrite D3, Rabs_mult. apply Rle_trans with ((9 / 8 * K + 2) * (1 + / 1000)); [|lra].
    apply Rmult_le_compat; [apply Rabs_pos|apply Rabs_pos|exact Qb|].
    eapply Rle_trans; [apply Rabs_triang|]. rewrite Rabs_R1. lra. }
  assert (FR : Rabs (f * r) <= bpow radix2 (emax - 1)).
  { apply Rle_trans with (bpow radix2 125); [|exact big].
    rewrite Rabs_mult, (Rabs_right r) by lra.
    change 125%Z with (65 + 60)%Z. rewrite bpow_plus.
    apply Rmult_le_compat; [apply Rabs_pos|lra|exact Fb|lra]. }
  pose proof (mul_val prec emax Hp0 Hpe _ _ _ _ V2 Fr FR) as V3.
  destruct (rnd_err prec emax Hp0 (f * r)) as (e4 & h4 & E4 & H4 & D4). fold t in H4.
  eexists. split; [exact V3|]. rewrite D4, D3.
  replace (IZR q) with (p + (IZR q - p)) by ring. rewrite D2 at 1.
  apply (real_bound x r e1 e2 e3 e4 h2 h4 (IZR q - p) u t); try assumption; lra.
Qed.
End Pipe.
