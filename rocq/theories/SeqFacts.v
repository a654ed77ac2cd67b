(** Proofs about one field's encoder and decoder over a sequence of points. *)
From Verif Require Import Base BaseFacts Varint VarintFacts Types Floats Fields Spec SeqSpec GorillaFacts FieldFacts WriteFacts CodecFacts BuildFacts RunFacts.

Fixpoint chain (ops : float_ops) (e : fenc) (pv : option (list Z)) (views : list (list Z)) : Prop :=
  match views with [] => True | v :: vs => delta_pv ops pv v e /\ chain ops e (Some v) vs end.

Lemma seq_roundtrip ops e d offs : pair_ed e d offs -> forall views st pv rest, st_inv e st -> prev_ok ops pv e st ->
  chain ops e pv views -> Forall bytes views -> Forall (fun v => Forall (piece_in v) (pieces e)) views -> bytes rest ->
  exists bss, encode_all ops e st views = Ok bss /\ length bss = length views /\ Forall bytes bss /\
    Forall (fun b => (min_input_bytes d <= length b <= enc_max e)%nat) bss /\
    decode_all ops d st (length views) (concat bss ++ rest) =
      Ok (map (fun v => stores_of offs (map (piece_bytes ops v) (pieces e))) views, rest).
Proof.
  intros HP. induction views as [|v vs IH]; intros st pv rest HI Hpv HC HB HF HR.
  - exists []. cbn. repeat split; constructor.
  - inversion HB; subst. inversion HF; subst. destruct HC as [HC1 HC2].
    destruct (enc_step_total ops e d offs st v HP HI H3) as (st' & b & E).
    assert (HI' : st_inv e st' /\ bytes b) by (edestruct (enc_step_inv ops e d offs st v st' b HP HI H1 E) as (A & B & _); auto).
    destruct HI' as [HI' Hbb].
    assert (Hpv' : prev_ok ops (Some v) e st') by (intros Hd; now apply (enc_step_prev ops e st v st' b)).
    destruct (IH st' (Some v) rest HI' Hpv' HC2 H2 H4 HR) as (bss & E2 & HL & HBB & HLen & HD).
    assert (HB2 : bytes (concat bss ++ rest)) by (apply Forall_app; split; [apply Forall_concat; exact HBB|exact HR]).
    destruct (step_roundtrip ops e d offs st st' v b (concat bss ++ rest) HP HI (delta_pv_ok ops pv v e st Hpv HC1) H1 HB2 E) as (R1 & _ & _ & R4).
    exists (b :: bss). cbn [encode_all]. rewrite E. cbn [bind]. rewrite E2. cbn [bind].
    repeat split; try (constructor; auto); cbn [length]; try congruence.
    cbn [decode_all concat]. rewrite <- app_assoc. rewrite R1. cbn [bind]. rewrite HD. reflexivity.
Qed.

Lemma s64_min x : s64 x = INT64_MIN <-> x mod 18446744073709551616 = 9223372036854775808.
Proof. unfold s64, INT64_MIN. pose proof (Z.mod_pos_bound x 18446744073709551616 ltac:(lia)). pose proof (Z.div_mod x 18446744073709551616 ltac:(lia)).
  set (q := x / 18446744073709551616) in *. set (r := x mod 18446744073709551616) in *.
  replace (x + 9223372036854775808) with (r + 9223372036854775808 + q * 18446744073709551616) by lia. rewrite Z_mod_plus_full.
  pose proof (Z.mod_pos_bound (r + 9223372036854775808) 18446744073709551616 ltac:(lia)). pose proof (Z.div_mod (r + 9223372036854775808) 18446744073709551616 ltac:(lia)). nia.
Qed.
Lemma chain_intro ops e (cv : list Z -> option Z) : 
  (forall pv v, (forall x, cv v = Some x -> s64 (x - match pv with None => 0 | Some p => opt0 (cv p) end) <> INT64_MIN) -> delta_pv ops pv v e) ->
  forall views pv, jumps_ok (match pv with None => 0 | Some p => opt0 (cv p) end) (map cv views) -> chain ops e pv views.
Proof.
  intros H. induction views as [|v vs IH]; intros pv HJ; [exact I|]. cbn [map jumps_ok chain] in *. destruct (cv v) as [x|] eqn:E.
  - destruct HJ as [H1 H2]. split; [apply H; intros y Hy; rewrite E in Hy; injection Hy as <-; rewrite s64_min; exact H1|]. apply IH. now rewrite E.
  - split; [apply H; intros y Hy; rewrite E in Hy; discriminate Hy|]. apply IH. rewrite E. exact HJ.
Qed.
