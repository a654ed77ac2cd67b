(** C75: the resolution in the text header.  The writer prints it with six significant digits
    (operator<< on a float), the reader reads the nearest float (std::stof). *)
From Coq Require Import ZArith Reals Psatz List Bool String.
From Flocq Require Import Core Relative.
From Verif Require Import Base BaseFacts Types Spec Header ErrorSpec FloatText FloatTextFacts PropsHeader PropsPcl.
Import ListNotations.
Open Scope Z_scope.

(** A number with at most six significant decimal digits. *)
Definition six_digits (v : R) : Prop := exists d k, 1 <= d < 1000000 /\ v = (IZR d * powerRZ 10 k)%R.
(** [b] is (the bits of) the float nearest to [v], ties to even: what a C++ compiler makes of the
    literal, and any correct reader of the text. *)
Definition nearest_float (v : R) (b : Z) : Prop := 0 < b < 2139095040 /\ float_of b = round radix2 (FLT_exp (-149) 24) ZnearestE v.
(** the range of normal floats, less the last binade *)
Definition normal_range (v : R) : Prop := (powerRZ 2 (-126) <= v < powerRZ 2 127)%R.
(** what comes back from the text *)
Definition through_text (b : Z) : option Z := ft_parse gnu_text (ft_print gnu_text b).

Lemma p2 e : powerRZ 2 e = b2 e.
Proof. change 2%R with (IZR radix2). now rewrite <- bpow_powerRZ. Qed.
Lemma p10 e : powerRZ 10 e = b10 e.
Proof. change 10%R with (IZR radix10). now rewrite <- bpow_powerRZ. Qed.
(** *** Positive floats are ordered as their bits *)
Lemma float_parts b : 0 <= b < 2139095040 -> exists m e, b = m + 8388608 * e /\ 0 <= e <= 254 /\ 0 <= m < 8388608 /\
  float_of b = (if e =? 0 then IZR m * b2 (-149) else IZR (8388608 + m) * b2 (e - 150))%R.
Proof.
  intros Hb. exists (b mod 8388608), (b / 8388608). pose proof (Z.div_mod b 8388608 ltac:(lia)). pose proof (Z.mod_pos_bound b 8388608 ltac:(lia)). split; [lia|]. split; [split; [apply Z.div_pos; lia|assert (b / 8388608 < 255) by (apply Z.div_lt_upper_bound; lia); lia]|]. split; [assumption|].
  unfold float_of, value. cbv zeta. change (2 ^ 23) with 8388608. change (2 ^ 8) with 256. change (2 ^ (23 + 8)) with 2147483648. rewrite (Z.div_small b 2147483648) by lia. cbn [Z.odd]. rewrite Rmult_1_l. rewrite (Z.mod_small (b / 8388608)) by (split; [apply Z.div_pos; lia|apply Z.div_lt_upper_bound; lia]).
  rewrite !p2. change (2 ^ (8 - 1)) with 128. destruct (b / 8388608 =? 0); [reflexivity|]. f_equal. f_equal. lia.
Qed.
Lemma float_succ b : 0 <= b -> b + 1 < 2139095040 -> (float_of b < float_of (b + 1))%R.
Proof.
  intros H0 H1. destruct (float_parts b ltac:(lia)) as (m & e & E & He & Hm & ->). destruct (float_parts (b + 1) ltac:(lia)) as (m' & e' & E' & He' & Hm' & ->).
  assert (C : (e' = e /\ m' = m + 1) \/ (e' = e + 1 /\ m = 8388607 /\ m' = 0)) by lia. destruct C as [[-> ->]|(-> & -> & ->)].
  - destruct (e =? 0); (apply Rmult_lt_compat_r; [apply bpow_gt_0|apply IZR_lt; lia]).
  - replace (e + 1 =? 0) with false by lia. destruct (Z.eqb_spec e 0) as [-> | N].
    + change (0 + 1 - 150) with (-149). apply Rmult_lt_compat_r; [apply bpow_gt_0|apply IZR_lt; lia].
    + replace (e + 1 - 150) with ((e - 150) + 1) by lia. rewrite bpow_plus. change (b2 1) with 2%R. pose proof (bpow_gt_0 radix2 (e - 150)). change (IZR (8388608 + 8388607)) with 16777215%R. change (IZR (8388608 + 0)) with 8388608%R. lra.
Qed.
Lemma float_lt b b' : 0 <= b -> b < b' -> b' < 2139095040 -> (float_of b < float_of b')%R.
Proof.
  intros H0 H1 H2. assert (G : forall n : nat, b + 1 + Z.of_nat n < 2139095040 -> (float_of b < float_of (b + 1 + Z.of_nat n))%R).
  { induction n as [|n IH]; intros Hn; [rewrite Z.add_0_r; apply float_succ; lia|]. replace (b + 1 + Z.of_nat (S n)) with ((b + 1 + Z.of_nat n) + 1) in * by lia. eapply Rlt_trans; [apply IH; lia|]. apply float_succ; lia. }
  specialize (G (Z.to_nat (b' - b - 1))). replace (b + 1 + Z.of_nat (Z.to_nat (b' - b - 1))) with b' in G by lia. auto.
Qed.
Lemma float_inj b b' : 0 <= b < 2139095040 -> 0 <= b' < 2139095040 -> float_of b = float_of b' -> b = b'.
Proof.
  intros H H' E. destruct (Z.lt_trichotomy b b') as [L|[L|L]]; [|exact L|].
  - pose proof (float_lt b b' ltac:(lia) L ltac:(lia)). lra.
  - pose proof (float_lt b' b ltac:(lia) L ltac:(lia)). lra.
Qed.
Lemma rel_err v : (b2 (-126) <= v)%R -> (Rabs (to_float v - v) <= v * / 16777216)%R.
Proof.
  intros H. assert (P : (0 < v)%R) by (pose proof (bpow_gt_0 radix2 (-126)); lra).
  pose proof (relative_error_N_FLT radix2 (-149) 24 ltac:(lia) (fun z => negb (Z.even z)) v) as R1. rewrite (Rabs_right v) in R1 by lra. specialize (R1 H). change (b2 (- (24) + 1)) with (/ 8388608)%R in R1. unfold to_float. lra.
Qed.
Lemma range10 v : (b2 (-126) * (1 - / 16777216) <= v <= b2 127 * (1 + / 16777216))%R -> (b10 (-46) <= v < b10 44)%R.
Proof.
  intros [H1 H2]. split.
  - apply Rle_trans with (b2 (-126) * (1 - / 16777216))%R; [|exact H1]. apply Rle_trans with (b2 (-127)). 2: { replace (-126) with (-127 + 1) by lia. rewrite bpow_plus. change (b2 1) with 2%R. pose proof (bpow_gt_0 radix2 (-127)). lra. }
    change (-46) with (- (46)). change (-127) with (- (127)). rewrite !bpow_opp. apply Rinv_le; [apply bpow_gt_0|]. rewrite <- (pow10 46), <- (pow2 127) by lia. apply IZR_le. vm_compute. discriminate.
  - apply Rle_lt_trans with (b2 128). { eapply Rle_trans; [exact H2|]. change 128 with (127 + 1). rewrite (bpow_plus radix2 127 1). change (b2 1) with 2%R. pose proof (bpow_gt_0 radix2 127). lra. }
    rewrite <- (pow10 44), <- (pow2 128) by lia. apply IZR_lt. vm_compute. reflexivity.
Qed.
Lemma six_normal v : six_digits v -> exists d x, 100000 <= d <= 999999 /\ v = (IZR d * b10 (x - 5))%R.
Proof.
  intros (d & k & Hd & ->). rewrite p10.
  assert (J : exists j, 0 <= j <= 5 /\ 100000 <= d * 10 ^ j <= 999999).
  { destruct (Z_lt_le_dec d 10); [exists 5; change (10 ^ 5) with 100000; lia|]. destruct (Z_lt_le_dec d 100); [exists 4; change (10 ^ 4) with 10000; lia|]. destruct (Z_lt_le_dec d 1000); [exists 3; change (10 ^ 3) with 1000; lia|].
    destruct (Z_lt_le_dec d 10000); [exists 2; change (10 ^ 2) with 100; lia|]. destruct (Z_lt_le_dec d 100000); [exists 1; change (10 ^ 1) with 10; lia|]. exists 0; change (10 ^ 0) with 1; lia. }
  destruct J as (j & Hj & HJ). exists (d * 10 ^ j), (k - j + 5). split; [exact HJ|]. rewrite mult_IZR, pow10 by lia. rewrite Rmult_assoc, <- bpow_plus. f_equal. f_equal. lia.
Qed.
(** A resolution of at most six significant digits survives the text exactly. *)
Theorem C75_six_digits v b : six_digits v -> normal_range v -> nearest_float v b -> through_text b = Some b.
Proof.
  intros H6 [N1 N2] [Hb HN]. rewrite p2 in N1, N2. fold (to_float v) in HN. destruct (six_normal v H6) as (d & x & Hd & Hv). pose proof (rel_err v N1) as RE. rewrite <- HN in RE. pose proof (Rabs_le_inv _ _ RE) as RE'.
  assert (P : (0 < v)%R) by (pose proof (bpow_gt_0 radix2 (-126)); lra).
  destruct (print_digits b (float_of b) Hb eq_refl) as (d1 & x1 & PT & D1 & X1 & _ & U). { apply range10. lra. }
  assert (E : (v * b10 (5 - x) = IZR d)%R) by (rewrite Hv, Rmult_assoc, <- bpow_plus; replace (x - 5 + (5 - x)) with 0 by lia; cbn; ring).
  destruct (U d x Hd) as [-> ->].
  { rewrite <- E. replace (float_of b * b10 (5 - x) - v * b10 (5 - x))%R with ((float_of b - v) * b10 (5 - x))%R by ring. pose proof (bpow_gt_0 radix10 (5 - x)) as B. rewrite Rabs_mult, (Rabs_right (b10 _)) by lra. replace (v * b10 (5 - x) * / 16777216)%R with (v * / 16777216 * b10 (5 - x))%R by ring. apply Rmult_le_compat_r; lra. }
  unfold through_text. cbn [ft_parse ft_print gnu_text]. rewrite PT. destruct (scale10 d 1 (x - 5)) as [num den] eqn:ES. rewrite (parse_text d x Hd ltac:(lia) num den ES).
  destruct (scale10_val d 1 (x - 5) num den ltac:(lia) ES) as [Hden HV]. assert (EV : (v = IZR num / IZR den)%R) by (rewrite HV, Hv; change (IZR 1) with 1%R; field).
  destruct (round_f32_spec num den v Hden EV (conj N1 N2)) as (b' & RF & Hb' & HF). rewrite RF. f_equal. apply float_inj; [lia|lia|congruence].
Qed.
Print Assumptions C75_six_digits.
(** Any other resolution changes by less than one part in 2^17, and what comes back survives
    further generations. *)
Theorem C75_any b : 0 < b < 2139095040 -> (powerRZ 2 (-125) <= float_of b <= powerRZ 2 126)%R ->
  exists b', through_text b = Some b' /\ 0 < b' < 2139095040 /\ (Rabs (float_of b' - float_of b) <= powerRZ 2 (-17) * float_of b)%R /\ through_text b' = Some b'.
Proof.
  intros Hb. rewrite !p2. intros H. set (w := float_of b) in *. pose proof (bpow_gt_0 radix2 (-126)) as P0.
  assert (Q1 : (b2 (-125) = 2 * b2 (-126))%R) by (change (-125) with (1 + (-126)); rewrite bpow_plus; reflexivity). assert (Q2 : (b2 127 = 2 * b2 126)%R) by (change 127 with (1 + 126); rewrite bpow_plus; reflexivity).
  destruct (print_digits b w Hb eq_refl) as (d & x & PT & D & X & DN & _). { apply range10. lra. }
  set (v := (IZR d * b10 (x - 5))%R). pose proof (bpow_gt_0 radix10 (x - 5)) as B. assert (BB : (b10 (5 - x) * b10 (x - 5) = 1)%R) by (rewrite <- bpow_plus; replace (5 - x + (x - 5)) with 0 by lia; reflexivity).
  assert (DR : (100000 <= IZR d <= 999999)%R) by (split; apply IZR_le; lia).
  assert (E1 : (Rabs (w - v) <= / 2 * b10 (x - 5))%R).
  { replace (w - v)%R with ((w * b10 (5 - x) - IZR d) * b10 (x - 5))%R by (unfold v; rewrite Rmult_minus_distr_r, Rmult_assoc, BB; ring). rewrite Rabs_mult, (Rabs_right (b10 _)) by lra. apply Rmult_le_compat_r; lra. }
  assert (E2 : (/ 2 * b10 (x - 5) <= v * / 200000)%R) by (unfold v; nra). apply Rabs_le_inv in E1.
  assert (N : normal_range v). { unfold normal_range. rewrite !p2. lra. }
  assert (S6 : six_digits v). { exists d, (x - 5). split; [lia|]. unfold v. rewrite p10. reflexivity. }
  destruct (scale10 d 1 (x - 5)) as [num den] eqn:ES. destruct (scale10_val d 1 (x - 5) num den ltac:(lia) ES) as [Hden HV]. assert (EV : (v = IZR num / IZR den)%R) by (rewrite HV; unfold v; change (IZR 1) with 1%R; field).
  pose proof N as [N1 N2]. rewrite p2 in N1, N2. destruct (round_f32_spec num den v Hden EV (conj N1 N2)) as (b' & RF & Hb' & HF). exists b'.
  split; [unfold through_text; cbn [ft_parse ft_print gnu_text]; rewrite PT, (parse_text d x D ltac:(lia) num den ES); exact RF|]. split; [lia|]. split.
  - pose proof (rel_err v N1) as RE. rewrite <- HF in RE. apply Rabs_le_inv in RE. change (b2 (-17)) with (/ 131072)%R. apply Rabs_le. lra.
  - apply (C75_six_digits v b' S6 N). split; [lia|exact HF].
Qed.
Print Assumptions C75_any.

(** *** The whole header *)
Lemma with_fraction_chars (P : Z -> Prop) int frac : P 46 -> Forall P int -> Forall P frac -> Forall P (with_fraction int frac).
Proof.
  intros H46 Hi Hf. unfold with_fraction. destruct (strip_spec frac) as (k & E). assert (Hs : Forall P (strip_zeros frac)) by (rewrite E in Hf; apply Forall_app in Hf; apply Hf).
  destruct (strip_zeros frac) as [|c s]; [exact Hi|]. apply Forall_app. split; [exact Hi|]. constructor; [exact H46|exact Hs].
Qed.
Definition text_char (c : Z) : Prop := 43 <= c <= 57 \/ c = 101.
Lemma digits_chars n v : 0 <= v -> Forall text_char (fixed_digits n v).
Proof. intros H. destruct (fixed_facts n v H) as (D & _). eapply Forall_impl; [|exact D]. intros c Hc. cbn beta in Hc. left. lia. Qed.
Lemma g6_chars d x : 0 <= d -> Forall text_char (g6_text d x) /\ g6_text d x <> [].
Proof.
  intros Hd. pose proof (digits_chars 6 d Hd) as D. destruct (fixed_facts 6 d Hd) as (_ & L & _). assert (H46 : text_char 46) by (left; lia).
  assert (WN : forall int frac, int <> [] -> with_fraction int frac <> []). { intros int frac H. unfold with_fraction. destruct (strip_zeros frac); [exact H|]. destruct int; [congruence|discriminate]. }
  assert (FN : forall k, (1 <= k)%nat -> firstn k (fixed_digits 6 d) <> []) by (intros k Hk E; apply (f_equal (@List.length Z)) in E; rewrite firstn_length, L in E; cbn in E; lia).
  unfold g6_text. cbv zeta. destruct ((x <? -4) || (6 <=? x)); [|destruct (0 <=? x) eqn:C].
  - split; [|intros E; apply app_eq_nil in E; destruct E as [_ E]; discriminate]. apply Forall_app. split; [apply with_fraction_chars; [exact H46|apply Forall_firstn; exact D|apply Forall_skipn; exact D]|]. constructor; [right; reflexivity|]. constructor; [left; destruct (x <? 0); lia|]. apply digits_chars. lia.
  - split; [apply with_fraction_chars; [exact H46|apply Forall_firstn; exact D|apply Forall_skipn; exact D]|]. apply WN, FN. lia.
  - split; [apply with_fraction_chars; [exact H46|constructor; [left; lia|constructor]|]|apply WN; discriminate]. apply Forall_app. split; [|exact D]. apply Forall_forall. intros c Hc. apply repeat_spec in Hc. left. lia.
Qed.
Lemma chars_safe s : Forall text_char s -> s <> [] -> yaml_safe s /\ s <> str "null"%string.
Proof.
  intros H N. assert (A : forall c, In c s -> text_char c) by (apply Forall_forall; exact H). unfold text_char in A. split.
  - split; [exact N|]. split; [intros I; apply A in I; lia|]. split; [intros I; apply A in I; lia|]. split; [intros I; apply A in I; lia|].
    assert (B : forall c, text_char c -> isspace c = false) by (intros c Hc; unfold isspace, text_char in *; lia). split; apply B.
    + destruct s as [|c s]; [congruence|]. apply A. now left.
    + destruct (exists_last N) as (s' & c & ->). rewrite last_last. apply A. apply in_or_app. right. now left.
  - intros ->. specialize (A 110 ltac:(now left)). lia.
Qed.
(** a resolution the caller wrote with at most six digits / any resolution in the range *)
Definition written6 (r : Z) : Prop := exists v, six_digits v /\ normal_range v /\ nearest_float v r.
Definition ordinary (r : Z) : Prop := 0 < r < 2139095040 /\ (powerRZ 2 (-125) <= float_of r <= powerRZ 2 126)%R.
(** names without line breaks, '#' and surrounding spaces, known types, 32-bit offsets *)
Definition plain_header (i : info) : Prop :=
  2 <= i_version i <= 5 /\ 0 <= i_width i < 4294967296 /\ 0 <= i_height i < 4294967296 /\ 0 <= i_step i < 4294967296 /\
  known_enc i /\ match i_comp i with COMP_OTHER _ => False | _ => True end /\ (i_cfg i = [] \/ yaml_safe (i_cfg i)) /\
  Forall (fun f => yaml_safe (f_name f) /\ 0 <= f_off f < 4294967296 /\ known_type (f_type f)) (i_fields i).
Lemma print_safe b : 0 < b < 2139095040 -> (b2 (-126) * (1 - / 16777216) <= float_of b <= b2 127 * (1 + / 16777216))%R -> yaml_safe (print_g6 b) /\ print_g6 b <> str "null"%string.
Proof. intros Hb Hr. destruct (print_digits b (float_of b) Hb eq_refl (range10 _ Hr)) as (d & x & -> & Hd & _). destruct (g6_chars d x ltac:(lia)) as [C N]. apply chars_safe; assumption. Qed.
Lemma written6_range r : written6 r -> 0 < r < 2139095040 /\ (b2 (-126) * (1 - / 16777216) <= float_of r <= b2 127 * (1 + / 16777216))%R.
Proof.
  intros (v & _ & [N1 N2] & [Hb HN]). rewrite p2 in N1, N2. split; [exact Hb|]. fold (to_float v) in HN. pose proof (rel_err v N1) as E. rewrite <- HN in E. apply Rabs_le_inv in E. pose proof (bpow_gt_0 radix2 (-126)). lra.
Qed.
Lemma ordinary_range r : ordinary r -> 0 < r < 2139095040 /\ (b2 (-126) * (1 - / 16777216) <= float_of r <= b2 127 * (1 + / 16777216))%R.
Proof.
  intros (Hb & H). rewrite !p2 in H. split; [exact Hb|]. assert (Q1 : (b2 (-125) = 2 * b2 (-126))%R) by (change (-125) with (1 + (-126)); rewrite bpow_plus; reflexivity). assert (Q2 : (b2 127 = 2 * b2 126)%R) by (change 127 with (1 + 126); rewrite bpow_plus; reflexivity). pose proof (bpow_gt_0 radix2 (-126)). lra.
Qed.
Lemma header_ready (P : Z -> Prop) i : (forall r, P r -> 0 < r < 2139095040 /\ (b2 (-126) * (1 - / 16777216) <= float_of r <= b2 127 * (1 + / 16777216))%R) -> (forall r, P r -> through_text r <> None) ->
  plain_header i -> Forall (fun f => match f_res f with Some r => P r | None => True end) (i_fields i) -> yaml_header_info gnu_text i.
Proof.
  intros HR HT (H1 & H2 & H3 & H4 & H5 & H6 & H7 & H8) HF. unfold yaml_header_info. change (2 ^ 32) with 4294967296. do 7 (split; [assumption|]). rewrite Forall_forall in H8, HF |- *. intros f Hf. destruct (H8 f Hf) as (F1 & F2 & F3). specialize (HF f Hf).
  unfold yaml_header_field. change (2 ^ 32) with 4294967296. do 3 (split; [assumption|]). destruct (f_res f) as [r|]; [|exact I]. destruct (HR r HF) as [A B]. destruct (print_safe r A B) as [S N]. split; [exact S|]. split; [exact N|exact (HT r HF)].
Qed.
(** Such resolutions meet the hypotheses under which the end-to-end theorems (C30, C42, C52, C56,
    C57, C61, C66, C72) are stated. *)
Theorem C75_meets i : plain_header i -> Forall (fun f => match f_res f with Some r => written6 r | None => True end) (i_fields i) ->
  yaml_header_info gnu_text i /\ exact_resolutions gnu_text i.
Proof.
  intros HP HF. assert (T : forall r, written6 r -> through_text r = Some r) by (intros r (v & A & B & C); exact (C75_six_digits v r A B C)). split.
  - apply (header_ready written6); [exact written6_range|intros r Hr; rewrite (T r Hr); discriminate|exact HP|exact HF].
  - eapply Forall_impl; [|exact HF]. intros f Hf. cbn beta in *. destruct (f_res f) as [r|]; [exact (T r Hf)|exact I].
Qed.
(** The header text decodes to the very info it was made of. *)
Theorem C75_header i rest : plain_header i -> Forall (fun f => match f_res f with Some r => written6 r | None => True end) (i_fields i) ->
  exists h, EncodeHeader gnu_text i HYaml = Ok h /\
    DecodeHeader gnu_text (h ++ rest) = Ok (mkInfo (i_fields i) (i_width i) (i_height i) (i_step i) (i_enc i) (i_cfg i) (i_comp i) true (i_version i), rest).
Proof. intros HP HF. destruct (C75_meets i HP HF) as [H1 H2]. exact (C30_yaml_header_exact gnu_text i rest H1 H2). Qed.
(** With other resolutions the decoded ones differ by less than one part in 2^17, nothing else. *)
Theorem C75_header_any i rest : plain_header i -> Forall (fun f => match f_res f with Some r => ordinary r | None => True end) (i_fields i) ->
  exists h fs, EncodeHeader gnu_text i HYaml = Ok h /\
    DecodeHeader gnu_text (h ++ rest) = Ok (mkInfo fs (i_width i) (i_height i) (i_step i) (i_enc i) (i_cfg i) (i_comp i) true (i_version i), rest) /\
    Forall2 (fun f f' => f_name f' = f_name f /\ f_off f' = f_off f /\ f_type f' = f_type f /\
      match f_res f, f_res f' with None, None => True | Some r, Some r' => (Rabs (float_of r' - float_of r) <= powerRZ 2 (-17) * float_of r)%R | _, _ => False end) (i_fields i) fs.
Proof.
  intros HP HF. assert (T : forall r, ordinary r -> exists r', through_text r = Some r' /\ (Rabs (float_of r' - float_of r) <= powerRZ 2 (-17) * float_of r)%R) by (intros r (A & B); destruct (C75_any r A B) as (r' & C & _ & D & _); eauto).
  assert (HY : yaml_header_info gnu_text i) by (apply (header_ready ordinary); [exact ordinary_range|intros r Hr; destruct (T r Hr) as (r' & -> & _); discriminate|exact HP|exact HF]).
  destruct (C30_yaml_header_round_trip gnu_text i rest HY) as (h & E & D). exists h. eexists. split; [exact E|]. split; [exact D|].
  clear - T HF. induction HF as [|f fs Hf _ IH]; [constructor|]. cbn [map]. constructor; [|exact IH]. unfold reread_field. cbn [f_name f_off f_type f_res]. do 3 (split; [reflexivity|]). destruct (f_res f) as [r|]; [|exact I]. destruct (T r Hf) as (r' & TT & H). unfold through_text in TT. rewrite TT. exact H.
Qed.
Print Assumptions C75_meets.
Print Assumptions C75_header.
Print Assumptions C75_header_any.
(** *** Cases *)
Lemma nearest_by_reader num den b : 0 < den -> (b2 (-126) <= IZR num / IZR den < b2 127)%R -> round_f32 num den = Some b -> nearest_float (IZR num / IZR den) b.
Proof. intros Hd H E. destruct (round_f32_spec num den _ Hd eq_refl H) as (b' & E' & Hb & HF). assert (b' = b) by congruence. subst b'. split; [lia|exact HF]. Qed.
(** a millimetre and a centimetre *)
Example C75_case : written6 981668463 /\ written6 1008981770 /\ print_g6 981668463 = str "0.001"%string /\ print_g6 1008981770 = str "0.01"%string /\ plain_header example_info /\
  Forall (fun f => match f_res f with Some r => written6 r | None => True end) (i_fields example_info).
Proof.
  assert (L : (b2 (-126) <= / 1024)%R) by (change (/ 1024)%R with (b2 (-10)); apply bpow_le; lia). assert (U : (1 <= b2 127)%R) by (change 1%R with (b2 0); apply bpow_le; lia).
  assert (A : written6 981668463).
  { exists (IZR 1 / IZR 1000)%R. split; [exists 1, (-3); split; [lia|rewrite p10; change (b10 (-3)) with (/ 1000)%R; reflexivity]|]. split; [unfold normal_range; rewrite !p2; lra|]. apply nearest_by_reader; [lia|lra|vm_compute; reflexivity]. }
  assert (B : written6 1008981770).
  { exists (IZR 1 / IZR 100)%R. split; [exists 1, (-2); split; [lia|rewrite p10; change (b10 (-2)) with (/ 100)%R; reflexivity]|]. split; [unfold normal_range; rewrite !p2; lra|]. apply nearest_by_reader; [lia|lra|vm_compute; reflexivity]. }
  split; [exact A|]. split; [exact B|]. split; [vm_compute; reflexivity|]. split; [vm_compute; reflexivity|]. split.
  - unfold plain_header. cbn [example_info i_version i_width i_height i_step i_comp i_cfg i_fields]. do 4 (split; [lia|]). split; [exact I|]. split; [exact I|]. split; [right; apply safeb_ok; vm_compute; reflexivity|]. repeat (apply Forall_cons; [split; [apply safeb_ok; vm_compute; reflexivity|split; [cbn [f_off]; lia|exact I]]|]). apply Forall_nil.
  - cbn [example_info i_fields]. repeat (apply Forall_cons; [cbn [f_res]; first [exact A | exact B | exact I]|]). apply Forall_nil.
Qed.
(** A seventh digit is lost: the neighbouring float of a millimetre is ordinary and comes back
    as a millimetre. *)
Theorem C75_seventh_digit_refuted : exists r r', ordinary r /\ through_text r = Some r' /\ r' <> r.
Proof.
  exists 981668464, 981668463. split; [|split; [vm_compute; reflexivity|discriminate]]. split; [lia|].
  assert (E : float_of 981668464 = (8589936 * b2 (-33))%R).
  { destruct (float_parts 981668464 ltac:(lia)) as (m & e & E1 & E2 & E3 & E4). assert (e = 117 /\ m = 201328) by lia. destruct H as [-> ->]. rewrite E4. reflexivity. }
  rewrite E, !p2. change (b2 (-33)) with (/ 8589934592)%R. assert (b2 (-125) <= / 1024)%R by (change (/ 1024)%R with (b2 (-10)); apply bpow_le; lia). assert (1 <= b2 126)%R by (change 1%R with (b2 0); apply bpow_le; lia). lra.
Qed.
Print Assumptions C75_seventh_digit_refuted.
