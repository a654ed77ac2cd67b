(** Facts about the YAML header: what the writer produced is what the reader parses.
    Proof file. *)
From Coq Require Import String Ascii.
From Verif Require Import Base BaseFacts Types V5 Api Spec Header HeaderFacts HostileFacts.

(** text that survives the reader's trimming: no line break, NUL or '#', and no white
    space at either end *)
Definition clean (s : list Z) : Prop :=
  s <> [] /\ Forall (fun c => c <> 0 /\ c <> 10 /\ c <> 35) s /\ isspace (hd 0 s) = false /\ isspace (last s 0) = false.

Lemma rev_cons_last {A} (s : list A) d : s <> [] -> exists t, rev s = last s d :: t.
Proof.
  intros H. destruct (exists_last H) as (t & x & ->). rewrite last_last, rev_app_distr. eexists. reflexivity.
Qed.
Lemma trim_end_clean s : s <> [] -> isspace (last s 0) = false -> trim_end s = s.
Proof.
  intros H1 H2. unfold trim_end. destruct (rev_cons_last s 0 H1) as (t & E). rewrite E. cbn [drop_space]. rewrite H2, <- E. apply rev_involutive.
Qed.
Lemma find_char_none c s : Forall (fun x => x <> c) s -> find_char c s = None.
Proof. induction 1 as [|x s Hx HF IH]; cbn [find_char]; [reflexivity|]. replace (x =? c) with false by lia. now rewrite IH. Qed.
Lemma find_char_app c k t : Forall (fun x => x <> c) k -> find_char c (k ++ c :: t) = Some (k, t).
Proof. induction 1 as [|x s Hx HF IH]; cbn [find_char app]; [now rewrite Z.eqb_refl|]. replace (x =? c) with false by lia. now rewrite IH. Qed.
Lemma drop_space_pad n s : s <> [] -> isspace (hd 0 s) = false -> drop_space (repeat 32 n ++ s) = s.
Proof.
  intros H1 H2. induction n as [|n IH]; cbn [repeat app drop_space]; [|exact IH]. destruct s as [|c s]; [congruence|]. cbn [hd drop_space] in *. now rewrite H2.
Qed.
Lemma clean_no35 s : clean s -> Forall (fun x => x <> 35) s.
Proof. intros (_ & H & _). eapply Forall_impl; [|exact H]. cbn. tauto. Qed.
Lemma trim_pad n s : clean s -> trim (repeat 32 n ++ s) = s.
Proof.
  intros C. destruct C as (H1 & H2 & H3 & H4). unfold trim. rewrite drop_space_pad by assumption. destruct s as [|c s]; [congruence|].
  rewrite trim_end_clean by assumption. rewrite find_char_none; [reflexivity|]. eapply Forall_impl; [|exact H2]. cbn. tauto.
Qed.
Lemma trim_clean s : clean s -> trim s = s.
Proof. intros C. exact (trim_pad 0 s C). Qed.
Lemma trim_sp s : clean s -> trim (32 :: s) = s.
Proof. intros C. exact (trim_pad 1 s C). Qed.
Lemma last_app_r {A} (a b : list A) d : b <> [] -> last (a ++ b) d = last b d.
Proof. intros H. destruct (exists_last H) as (t & x & ->). now rewrite app_assoc, !last_last. Qed.
Lemma clean_app k m v : clean k -> Forall (fun c => c <> 0 /\ c <> 10 /\ c <> 35) m -> clean v -> clean (k ++ m ++ v).
Proof.
  intros (K1 & K2 & K3 & K4) M (V1 & V2 & V3 & V4). split; [destruct k; discriminate || congruence|]. split.
  - apply Forall_app; split; [assumption|]. apply Forall_app; split; assumption.
  - split; [destruct k; [congruence|exact K3]|]. rewrite !last_app_r; auto. destruct m; [cbn; exact V1|discriminate].
Qed.
Lemma indent_pad n s : isspace (hd 0 s) = false -> getIndentation (repeat 32 n ++ s) = Z.of_nat n.
Proof.
  intros H. induction n as [|n IH].
  - cbn [repeat app Z.of_nat]. destruct s as [|c s]; [reflexivity|]. cbn [hd getIndentation] in *. unfold isspace in H. destruct (c =? 32) eqn:A; [discriminate H|]. destruct (c =? 9) eqn:B; [|reflexivity]. exfalso. lia.
  - cbn [repeat app getIndentation]. change (32 =? 32) with true. cbv iota. rewrite IH. lia.
Qed.
Lemma clean_nonempty_head s : clean s -> exists c t, s = c :: t /\ c <> 35.
Proof. intros (H1 & H2 & _). destruct s as [|c t]; [congruence|]. inversion H2; subst. exists c, t. tauto. Qed.
Lemma skip_clean n s ls : clean s -> skipEmptyLines ((repeat 32 n ++ s) :: ls) = (repeat 32 n ++ s) :: ls.
Proof.
  intros C. cbn [skipEmptyLines]. rewrite trim_pad by assumption. destruct (clean_nonempty_head s C) as (c & t & -> & Hc). replace (c =? 35) with false by lia. reflexivity.
Qed.

(** *** "key: value" lines *)
Definition key (k : list Z) : Prop := clean k /\ Forall (fun x => x <> 58) k /\ starts_item k = None /\ (2 <= List.length k)%nat.
Definition kv (n : nat) (k v : list Z) : list Z := repeat 32 n ++ k ++ [58; 32] ++ v.
Lemma kv_clean k v : key k -> clean v -> clean (k ++ [58; 32] ++ v).
Proof. intros (K & _) V. apply clean_app; [assumption| |assumption]. repeat constructor; lia. Qed.
Lemma kv_trim n k v : key k -> clean v -> trim (kv n k v) = k ++ 58 :: 32 :: v.
Proof. intros K V. unfold kv. rewrite trim_pad by (apply kv_clean; assumption). reflexivity. Qed.
Lemma kv_skip n k v ls : key k -> clean v -> skipEmptyLines (kv n k v :: ls) = kv n k v :: ls.
Proof. intros K V. unfold kv. apply skip_clean. apply kv_clean; assumption. Qed.
Lemma kv_indent n k v : key k -> clean v -> getIndentation (kv n k v) = Z.of_nat n.
Proof. intros K V. unfold kv. apply indent_pad. apply (kv_clean k v K V). Qed.
Lemma kv_find k v : key k -> find_char 58 (k ++ 58 :: 32 :: v) = Some (k, 32 :: v).
Proof. intros (_ & K & _). now apply find_char_app. Qed.

Lemma mapping_step fuel n k v ls : key k -> clean v ->
  parseMapping (S fuel) (Z.of_nat n) (kv n k v :: ls) = do '(more, rest) <- parseMapping fuel (Z.of_nat n) ls ; Ok ((k, NStr v) :: more, rest).
Proof.
  intros K V. cbn [parseMapping]. rewrite kv_skip, kv_indent, Z.eqb_refl by assumption. cbn [negb]. rewrite kv_trim, kv_find, trim_sp by assumption.
  destruct v as [|c v]; [destruct V as [V _]; congruence|]. cbn [bind]. rewrite trim_clean by apply K. reflexivity.
Qed.
Lemma items_step fuel ind n k v ls : key k -> clean v -> ind < Z.of_nat n ->
  parseItemKeys (S fuel) ind (kv n k v :: ls) = do '(more, rest) <- parseItemKeys fuel ind ls ; Ok ((k, NStr v) :: more, rest).
Proof.
  intros K V L. cbn [parseItemKeys]. rewrite kv_skip, kv_indent by assumption. replace (Z.of_nat n <=? ind) with false by lia. rewrite kv_trim, kv_find, trim_sp by assumption.
  destruct v as [|c v]; [destruct V as [V _]; congruence|]. cbn [bind]. rewrite trim_clean by apply K. reflexivity.
Qed.
(** "- key: value" *)
Definition item (n : nat) (k v : list Z) : list Z := repeat 32 n ++ [45; 32] ++ k ++ [58; 32] ++ v.
Lemma item_clean k v : key k -> clean v -> clean ([45; 32] ++ k ++ [58; 32] ++ v).
Proof.
  intros K V. pose proof (kv_clean k v K V) as C. destruct C as (C1 & C2 & C3 & C4). split; [discriminate|]. split.
  - apply Forall_app; split; [repeat constructor; lia|exact C2].
  - split; [reflexivity|]. rewrite last_app_r; [exact C4|exact C1].
Qed.
Lemma item_skip n k v ls : key k -> clean v -> skipEmptyLines (item n k v :: ls) = item n k v :: ls.
Proof. intros K V. unfold item. apply skip_clean, item_clean; assumption. Qed.
Lemma item_indent n k v : key k -> clean v -> getIndentation (item n k v) = Z.of_nat n.
Proof. intros K V. unfold item. apply indent_pad. apply (item_clean k v K V). Qed.
Lemma item_trim n k v : key k -> clean v -> trim (item n k v) = 45 :: 32 :: k ++ 58 :: 32 :: v.
Proof. intros K V. unfold item. rewrite trim_pad by (apply item_clean; assumption). reflexivity. Qed.
Lemma items_stop fuel n k v ls : key k -> clean v -> parseItemKeys (S fuel) (Z.of_nat n) (item n k v :: ls) = Ok ([], item n k v :: ls).
Proof. intros K V. cbn [parseItemKeys]. rewrite item_skip, item_indent, Z.leb_refl by assumption. reflexivity. Qed.
Lemma sequence_step fuel n k v ls : key k -> clean v ->
  parseSequence (S fuel) (Z.of_nat n) (item n k v :: ls) =
    do '(more, rest) <- parseItemKeys fuel (Z.of_nat n) ls ; do '(ns, rest') <- parseSequence fuel (Z.of_nat n) rest ; Ok (NMap ((k, NStr v) :: more) :: ns, rest').
Proof.
  intros K V. cbn [parseSequence]. rewrite item_skip, item_indent, Z.ltb_irrefl, item_trim by assumption. cbn [starts_item].
  destruct (k ++ 58 :: 32 :: v) as [|c t] eqn:E; [destruct k; discriminate E|]. rewrite <- E. rewrite kv_find, trim_sp by assumption.
  destruct v as [|d v]; [destruct V as [V _]; congruence|]. cbv zeta. rewrite trim_clean by apply K. destruct (parseItemKeys fuel (Z.of_nat n) ls) as [[m r]| |]; reflexivity.
Qed.

(** *** decimal numbers *)
Lemma dec_loop_spec n : forall v acc, 0 <= v < 10 ^ Z.of_nat n -> (1 <= n)%nat ->
  exists d, dec_loop_digits n v acc = d ++ acc /\ d <> [] /\ Forall (fun c => isdigit c = true) d /\ forall t, digits (d ++ t) None = digits t (Some v).
Proof.
  induction n as [|n IH]; intros v acc Hv Hn; [lia|]. cbn [dec_loop_digits]. cbv zeta.
  pose proof (Z.mod_pos_bound v 10 ltac:(lia)) as Hm. pose proof (Z.div_mod v 10 ltac:(lia)) as Hd.
  assert (Dg : isdigit (48 + v mod 10) = true) by (unfold isdigit; lia).
  destruct (v <? 10) eqn:E.
  - exists [48 + v mod 10]. split; [reflexivity|]. split; [discriminate|]. split; [constructor; [exact Dg|constructor]|]. intros t. cbn [app digits]. rewrite Dg.
    f_equal. f_equal. rewrite Z.mod_small by lia. lia.
  - assert (n <> 0)%nat by (intros ->; cbn in Hv; lia).
    destruct (IH (v / 10) ((48 + v mod 10) :: acc)) as (d & E1 & E2 & E3 & E4); [|lia|].
    { rewrite Nat2Z.inj_succ, Z.pow_succ_r in Hv by lia. split; [apply Z.div_pos; lia|]. apply Z.div_lt_upper_bound; lia. }
    exists (d ++ [48 + v mod 10]). split; [rewrite E1, <- app_assoc; reflexivity|]. split; [destruct d; discriminate|]. split; [apply Forall_app; split; [assumption|constructor; [exact Dg|constructor]]|].
    intros t. rewrite <- app_assoc, E4. cbn [app digits]. rewrite Dg. f_equal. f_equal. lia.
Qed.
Lemma digit_facts c : isdigit c = true -> c <> 0 /\ c <> 10 /\ c <> 35 /\ isspace c = false /\ c <> 45 /\ c <> 43.
Proof. unfold isdigit, isspace. lia. Qed.
Lemma dec_text_spec v : 0 <= v < 4294967296 -> clean (dec_text v) /\ Forall (fun c => isdigit c = true) (dec_text v) /\ as_uint32 (dec_text v) = Ok v.
Proof.
  intros Hv. destruct (dec_loop_spec 10 v []) as (d & E1 & E2 & E3 & E4); [change (10 ^ Z.of_nat 10) with 10000000000; lia|lia|]. rewrite app_nil_r in E1.
  unfold dec_text. rewrite E1. assert (C : clean d).
  { split; [assumption|]. split; [eapply Forall_impl; [|exact E3]; cbn; intros c Hc; apply digit_facts in Hc; tauto|]. split.
    - destruct d as [|c d]; [congruence|]. inversion E3; subst. cbn [hd]. now apply digit_facts.
    - destruct (exists_last E2) as (t & x & ->). rewrite last_last. apply Forall_app in E3. destruct E3 as [_ E3]. inversion E3; subst. now apply digit_facts. }
  split; [exact C|]. split; [exact E3|]. unfold as_uint32, signed_digits. specialize (E4 []). rewrite app_nil_r in E4. cbn [digits] in E4.
  assert (ED : drop_space d = d). { destruct d as [|c d']; [congruence|]. cbn [drop_space]. destruct C as (_ & _ & C & _). cbn [hd] in C. now rewrite C. }
  rewrite ED. destruct d as [|c d']; [congruence|]. inversion E3 as [|? ? Hc _]; subst. apply digit_facts in Hc. destruct Hc as (_ & _ & _ & _ & N1 & N2).
  assert (G : match c :: d' with 45 :: s' => (true, digits s' None) | 43 :: s' => (false, digits s' None) | s' => (false, digits s' None) end = (false, digits (c :: d') None)).
  { destruct c as [|p|p]; try reflexivity. do 6 (try destruct p as [p|p|]; try reflexivity); congruence. }
  rewrite G, E4. replace (4294967295 <? v) with false by lia. unfold u32. rewrite Z.mod_small by lia. reflexivity.
Qed.
