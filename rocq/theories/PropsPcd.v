(** C49: reading the header of a PCD file. *)
From Verif Require Import Base BaseFacts Types Header HeaderFacts YamlFacts Pcl.
From Coq Require Import String.
Notation length := List.length.
Notation concat := List.concat.
Open Scope Z_scope.
Open Scope list_scope.

(** * Specification: the text of a PCD header *)
(** A word: no space, comment sign, carriage return or line break in it. *)
Definition word (w : list Z) : Prop := ~ In 32 w /\ ~ In 35 w /\ ~ In 13 w /\ ~ In 10 w.
(** A key followed by words, each after one space. *)
Definition spaced (key : list Z) (ws : list (list Z)) : list Z := key ++ concat (map (cons 32) ws).
(** The entries of a header; [Other]: a line with another key (VERSION, COUNT, WIDTH, ...). *)
Inductive entry := Names (ws : list (list Z)) | Sizes (ws : list (list Z)) | Types (ws : list (list Z)) | Other (t : list Z).
Definition keyed (key t : list Z) : Prop := t = key \/ exists r, t = key ++ 32 :: r.
Definition entry_ok (e : entry) : Prop :=
  match e with
  | Names ws | Sizes ws | Types ws => Forall word ws
  | Other t => t <> [] /\ ~ In 35 t /\ ~ In 13 t /\ ~ In 10 t /\ ~ keyed (str "FIELDS") t /\ ~ keyed (str "SIZE") t /\ ~ keyed (str "TYPE") t /\ ~ keyed (str "DATA") t
  end.
Definition entry_text (e : entry) : list Z :=
  match e with Names ws => spaced (str "FIELDS") ws | Sizes ws => spaced (str "SIZE") ws | Types ws => spaced (str "TYPE") ws | Other t => t end.
(** What may follow an entry on its line: nothing, a carriage return, a comment. *)
Definition remark (r : list Z) : Prop := ~ In 10 r /\ match r with [] => True | c :: _ => c = 13 \/ c = 35 end.
Definition line : Type := entry * list Z.
Definition line_ok (l : line) : Prop := entry_ok (fst l) /\ remark (snd l).
Definition line_text (l : line) : list Z := entry_text (fst l) ++ snd l.
Definition lines_text (ls : list line) : list Z := concat (map (fun l => line_text l ++ [10]) ls).
(** How the header ends: a DATA line, an empty line, a line that is only a comment, or the end
    of the file. *)
Inductive header_end : list Z -> Prop :=
| end_data r : match r with [] => True | c :: _ => c = 32 \/ c = 35 \/ c = 13 \/ c = 10 end -> header_end (str "DATA" ++ r)
| end_empty c r : c = 10 \/ c = 13 \/ c = 35 -> header_end (c :: r)
| end_file : header_end [].
(** The last FIELDS, SIZE and TYPE entries count. *)
Definition names_of (ls : list line) : list (list Z) := fold_left (fun a (l : line) => match fst l with Names ws => ws | _ => a end) ls [].
Definition sizes_of (ls : list line) : list (list Z) := fold_left (fun a (l : line) => match fst l with Sizes ws => ws | _ => a end) ls [].
Definition types_of (ls : list line) : list (list Z) := fold_left (fun a (l : line) => match fst l with Types ws => ws | _ => a end) ls [].
(** The type denoted by a TYPE and a SIZE entry, as the PCD format defines it. *)
Definition meaning (t : list Z) (bytes : Z) : ftype :=
  match t, bytes with
  | [73], 1 => INT8 | [73], 2 => INT16 | [73], 4 => INT32 | [73], 8 => INT64           (* I *)
  | [85], 1 => UINT8 | [85], 2 => UINT16 | [85], 4 => UINT32 | [85], 8 => UINT64       (* U *)
  | [70], 4 => FLOAT32 | [70], 8 => FLOAT64                                            (* F *)
  | _, _ => UNKNOWN
  end.
(** a SIZE word that is no number *)
Definition no_number (w : list Z) : Prop := match w with [] => True | c :: _ => isdigit c = false /\ isspace c = false /\ c <> 43 /\ c <> 45 end.

(** ** Proofs *)
Lemma until_app d a r : ~ In d a -> until d (a ++ d :: r) = (a, Some r).
Proof. induction a as [|x a IH]; intros H; cbn [app until]; [now rewrite Z.eqb_refl|]. destruct (Z.eqb_spec x d); [subst; exfalso; apply H; now left|]. rewrite IH; [reflexivity|]. intros K. apply H. now right. Qed.
Lemma until_none d a : ~ In d a -> until d a = (a, None).
Proof. induction a as [|x a IH]; intros H; cbn [until]; [reflexivity|]. destruct (Z.eqb_spec x d); [subst; exfalso; apply H; now left|]. rewrite IH; [reflexivity|]. intros K. apply H. now right. Qed.
Lemma cut_none d a : ~ In d a -> cut_at d a = a.
Proof. intros H. unfold cut_at. now rewrite until_none. Qed.
Lemma cut_app d a r : ~ In d a -> cut_at d (a ++ d :: r) = a.
Proof. intros H. unfold cut_at. now rewrite until_app. Qed.
Lemma cut_other d a c r : ~ In d a -> c <> d -> exists y, cut_at d (a ++ c :: r) = a ++ c :: y.
Proof.
  intros H Hc. unfold cut_at. induction a as [|x a IH]; cbn [app until].
  - destruct (Z.eqb_spec c d); [contradiction|]. destruct (until d r) as [u v]. now exists u.
  - destruct (Z.eqb_spec x d); [subst; exfalso; apply H; now left|]. destruct IH as (y & IH); [intros K; apply H; now right|]. destruct (until d (a ++ c :: r)) as [u v]. cbn [fst] in *. exists y. now rewrite IH.
Qed.
(** stripping: the entry remains *)
Lemma strip_line a r : ~ In 35 a -> ~ In 13 a -> ~ In 10 a -> remark r -> cut_at 10 (cut_at 13 (cut_at 35 (a ++ r))) = a.
Proof.
  intros H1 H2 H3 [Hr Hc]. destruct r as [|c r]; [now rewrite app_nil_r, (cut_none 35), (cut_none 13), (cut_none 10) by assumption|]. destruct Hc as [Hc|Hc]; subst c.
  - destruct (cut_other 35 a 13 r H1 ltac:(lia)) as (y & ->). rewrite cut_app by assumption. now rewrite cut_none.
  - rewrite cut_app by assumption. now rewrite (cut_none 13), (cut_none 10) by assumption.
Qed.
Lemma split_word d w : ~ In d w -> splitString d w = [w].
Proof. induction w as [|x w IH]; intros H; [reflexivity|]. cbn [splitString]. destruct (Z.eqb_spec x d); [subst; exfalso; apply H; now left|]. rewrite IH; [reflexivity|]. intros K. apply H. now right. Qed.
Lemma split_cons d w r : ~ In d w -> splitString d (w ++ d :: r) = w :: splitString d r.
Proof. induction w as [|x w IH]; intros H; cbn [app splitString]; [now rewrite Z.eqb_refl|]. destruct (Z.eqb_spec x d); [subst; exfalso; apply H; now left|]. rewrite IH; [reflexivity|]. intros K. apply H. now right. Qed.
Lemma split_spaced key ws : ~ In 32 key -> Forall word ws -> splitString 32 (spaced key ws) = key :: ws.
Proof.
  unfold spaced. revert key. induction ws as [|w ws IH]; intros key H HW; cbn [map concat]; [rewrite app_nil_r; now apply split_word|].
  cbn [app]. rewrite split_cons by assumption. f_equal. apply IH; [apply (Forall_inv HW)|now apply Forall_inv_tail in HW].
Qed.
Lemma spaced_free key ws c : c <> 32 -> ~ In c key -> Forall (fun w => ~ In c w) ws -> ~ In c (spaced key ws).
Proof.
  intros Hc Hk HW K. unfold spaced in K. apply in_app_or in K. destruct K as [K|K]; [contradiction|]. induction HW as [|w ws Hw HW IH]; [contradiction|]. cbn [map concat] in K. apply in_app_or in K. destruct K as [K|K]; [|contradiction]. destruct K as [K|K]; [lia|contradiction].
Qed.
Lemma entry_free e : entry_ok e -> ~ In 35 (entry_text e) /\ ~ In 13 (entry_text e) /\ ~ In 10 (entry_text e) /\ entry_text e <> [].
Proof.
  assert (G : forall key ws, (forall c, In c key -> 65 <= c <= 90) -> key <> [] -> Forall word ws -> ~ In 35 (spaced key ws) /\ ~ In 13 (spaced key ws) /\ ~ In 10 (spaced key ws) /\ spaced key ws <> []).
  { intros key ws Hk Hn HW. split; [|split; [|split]].
    - apply spaced_free; [lia|intros K; apply Hk in K; lia|eapply Forall_impl; [|exact HW]; intros w (?&?&?&?); assumption].
    - apply spaced_free; [lia|intros K; apply Hk in K; lia|eapply Forall_impl; [|exact HW]; intros w (?&?&?&?); assumption].
    - apply spaced_free; [lia|intros K; apply Hk in K; lia|eapply Forall_impl; [|exact HW]; intros w (?&?&?&?); assumption].
    - unfold spaced. destruct key; [contradiction|]. discriminate. }
  destruct e as [ws|ws|ws|t]; cbn [entry_ok entry_text].
  - intros HW. apply G; [|discriminate|exact HW]. cbn. intros c Hc. lia.
  - intros HW. apply G; [|discriminate|exact HW]. cbn. intros c Hc. lia.
  - intros HW. apply G; [|discriminate|exact HW]. cbn. intros c Hc. lia.
  - intros (H1 & H2 & H3 & H4 & _). auto.
Qed.
Definition apply_entry (p : pcd_lists) (e : entry) : pcd_lists :=
  match e with Names ws => mkPL ws (pl_sizes p) (pl_types p) | Sizes ws => mkPL (pl_names p) ws (pl_types p) | Types ws => mkPL (pl_names p) (pl_sizes p) ws | Other _ => p end.
Lemma seqb_spec a b : reflect (a = b) (seqb a b).
Proof. unfold seqb. destruct (list_eq_dec Z.eq_dec a b); now constructor. Qed.
Lemma seqb_refl a : seqb a a = true.
Proof. now destruct (seqb_spec a a). Qed.
Lemma split_first d t : exists w ws, splitString d t = w :: ws /\ (t = w \/ exists r, t = w ++ d :: r).
Proof.
  induction t as [|x t IH]; cbn [splitString]; [exists [], []; auto|]. destruct (Z.eqb_spec x d) as [->|N].
  - exists [], (splitString d t). split; [reflexivity|]. right. now exists t.
  - destruct IH as (w & ws & -> & IH). exists (x :: w), ws. split; [reflexivity|]. destruct IH as [->|(r & ->)]; [now left|right; now exists r].
Qed.
Lemma key_free (key : list Z) : (forall c, In c key -> 65 <= c <= 90) -> ~ In 32 key.
Proof. intros H K. apply H in K. lia. Qed.
(** One turn of the loop on the stripped text of an entry *)
Lemma entry_turn e p : entry_ok e -> exists key words, splitString 32 (entry_text e) = key :: words /\ seqb key (str "DATA") = false /\
  (if seqb key (str "FIELDS") then mkPL words (pl_sizes p) (pl_types p)
   else if seqb key (str "SIZE") then mkPL (pl_names p) words (pl_types p)
   else if seqb key (str "TYPE") then mkPL (pl_names p) (pl_sizes p) words
   else p) = apply_entry p e.
Proof.
  destruct e as [ws|ws|ws|t]; cbn [entry_ok entry_text apply_entry].
  - intros HW. exists (str "FIELDS"), ws. rewrite split_spaced by (try assumption; apply key_free; cbn; lia). auto.
  - intros HW. exists (str "SIZE"), ws. rewrite split_spaced by (try assumption; apply key_free; cbn; lia). auto.
  - intros HW. exists (str "TYPE"), ws. rewrite split_spaced by (try assumption; apply key_free; cbn; lia). auto.
  - intros (_ & _ & _ & _ & H1 & H2 & H3 & H4). destruct (split_first 32 t) as (w & ws & E & K). exists w, ws. split; [exact E|].
    assert (G : forall key, ~ keyed key t -> seqb w key = false). { intros key Hk. destruct (seqb_spec w key) as [->|]; [|reflexivity]. exfalso. apply Hk. exact K. }
    rewrite !G by assumption. auto.
Qed.
Lemma read_line k l r s p : line_ok l -> read_lines (S k) (mkIn (line_text l ++ 10 :: r) false) s p = read_lines k (mkIn r false) (entry_text (fst l)) (apply_entry p (fst l)).
Proof.
  intros [HE HR]. destruct (entry_free _ HE) as (F1 & F2 & F3 & F4). cbn [read_lines]. unfold getline. cbn [in_eof in_rest]. unfold line_text. rewrite until_app.
  - rewrite strip_line by assumption. destruct (entry_turn (fst l) p HE) as (key & words & -> & -> & ->). destruct (entry_text (fst l)) eqn:E; [contradiction|reflexivity].
  - intros K. apply in_app_or in K. destruct K as [K|K]; [contradiction|]. apply HR in K. contradiction.
Qed.
Definition read_all (ls : list line) : pcd_lists := mkPL (names_of ls) (sizes_of ls) (types_of ls).
Lemma apply_all ls p : fold_left (fun p (l : line) => apply_entry p (fst l)) ls p =
  mkPL (fold_left (fun a (l : line) => match fst l with Names ws => ws | _ => a end) ls (pl_names p)) (fold_left (fun a (l : line) => match fst l with Sizes ws => ws | _ => a end) ls (pl_sizes p)) (fold_left (fun a (l : line) => match fst l with Types ws => ws | _ => a end) ls (pl_types p)).
Proof. revert p. induction ls as [|[e r] ls IH]; intros p; [destruct p; reflexivity|]. cbn [fold_left fst]. rewrite IH. destruct e; reflexivity. Qed.
Lemma read_prefix ls k r s p : Forall line_ok ls -> read_lines (length ls + k) (mkIn (lines_text ls ++ r) false) s p =
  read_lines k (mkIn r false) (match ls with [] => s | _ => entry_text (fst (last ls (Other [], []))) end) (fold_left (fun p (l : line) => apply_entry p (fst l)) ls p).
Proof.
  intros H. revert s p. induction H as [|l ls Hl HF IH]; intros s p; [reflexivity|]. unfold lines_text. cbn [map concat length Nat.add]. rewrite <- !app_assoc. cbn [app]. rewrite read_line by assumption. fold (lines_text ls). rewrite IH. cbn [fold_left]. destruct ls; reflexivity.
Qed.
Lemma until_pref d a c r : ~ In d a -> c <> d -> exists y o, until d (a ++ c :: r) = (a ++ c :: y, o).
Proof.
  intros H Hc. induction a as [|x a IH]; cbn [app until].
  - destruct (Z.eqb_spec c d); [contradiction|]. destruct (until d r) as [u v]. now exists u, v.
  - destruct (Z.eqb_spec x d); [subst; exfalso; apply H; now left|]. destruct IH as (y & o & ->); [intros K; apply H; now right|]. now exists y, o.
Qed.
Lemma data_line r : match r with [] => True | c :: _ => c = 32 \/ c = 35 \/ c = 13 \/ c = 10 end -> exists w, splitString 32 (cut_at 10 (cut_at 13 (cut_at 35 (fst (until 10 (str "DATA" ++ r)))))) = str "DATA" :: w.
Proof.
  assert (NK : forall c, c < 65 -> ~ In c (str "DATA")) by (intros c Hc K; cbn in K; lia).
  destruct r as [|c r]; intros H; [now exists []|]. change (fst (until 10 (str "DATA" ++ c :: r))) with (cut_at 10 (str "DATA" ++ c :: r)).
  destruct H as [-> |[-> |[-> | ->]]].
  - repeat match goal with |- context [cut_at ?d (str "DATA" ++ 32 :: ?x)] => destruct (cut_other d (str "DATA") 32 x (NK d ltac:(lia)) ltac:(lia)) as (? & ->) end.
    rewrite split_cons by (apply NK; lia). eauto.
  - destruct (cut_other 10 (str "DATA") 35 r (NK 10 ltac:(lia)) ltac:(lia)) as (y & ->). rewrite cut_app by (apply NK; lia). now exists [].
  - destruct (cut_other 10 (str "DATA") 13 r (NK 10 ltac:(lia)) ltac:(lia)) as (y & ->). destruct (cut_other 35 (str "DATA") 13 y (NK 35 ltac:(lia)) ltac:(lia)) as (z & ->). rewrite cut_app by (apply NK; lia). now exists [].
  - rewrite cut_app by (apply NK; lia). now exists [].
Qed.
Lemma empty_line t : (t = [] \/ exists c r, t = c :: r /\ (c = 10 \/ c = 13 \/ c = 35)) -> cut_at 10 (cut_at 13 (cut_at 35 (fst (until 10 t)))) = [].
Proof.
  intros [-> |(c & r & -> & H)]; [reflexivity|]. destruct H as [-> |[-> | ->]]; [reflexivity| |]; cbn [until]; change (13 =? 10) with false; change (35 =? 10) with false; cbv iota; destruct (until 10 r) as [u v]; cbn [fst]; unfold cut_at; cbn [until].
  - change (13 =? 35) with false. cbv iota. destruct (until 35 u). reflexivity.
  - reflexivity.
Qed.
Lemma read_end t : header_end t -> forall k s p, read_lines (S k) (mkIn t false) s p = Some p.
Proof.
  assert (G : forall t k s p, (exists w, splitString 32 (cut_at 10 (cut_at 13 (cut_at 35 (fst (until 10 t))))) = str "DATA" :: w) \/ cut_at 10 (cut_at 13 (cut_at 35 (fst (until 10 t)))) = [] -> read_lines (S k) (mkIn t false) s p = Some p).
  { clear. intros t k s p H. cbn [read_lines]. unfold getline. cbn [in_eof in_rest]. destruct (until 10 t) as [u o]. cbn [fst] in H. destruct o as [r|]; cbv iota beta; destruct H as [(w & ->)| ->]; cbv iota beta; try rewrite seqb_refl; reflexivity. }
  intros H k s p. apply G. destruct H as [r Hr|c r Hc|].
  - left. now apply data_line.
  - right. apply empty_line. right. now exists c, r.
  - right. now apply empty_line; left.
Qed.
Lemma read_header ls t fuel : Forall line_ok ls -> header_end t -> (length ls < fuel)%nat -> read_lines fuel (mkIn (lines_text ls ++ t) false) [] (mkPL [] [] []) = Some (read_all ls).
Proof.
  intros HL HE HF. replace fuel with (length ls + S (fuel - length ls - 1))%nat by lia. rewrite read_prefix by assumption. rewrite read_end by assumption. f_equal. rewrite apply_all. reflexivity.
Qed.

(** the SIZE words *)
Lemma stoi_dec v : 0 <= v < 2147483648 -> stoi (dec_text v) = Ok v.
Proof.
  intros Hv. destruct (dec_loop_spec 10 v []) as (d & E1 & E2 & E3 & E4); [change (10 ^ Z.of_nat 10) with 10000000000; lia|lia|]. rewrite app_nil_r in E1.
  unfold dec_text. rewrite E1. unfold stoi, signed_digits. specialize (E4 []). rewrite app_nil_r in E4. cbn [digits] in E4.
  destruct d as [|c d']; [congruence|]. inversion E3 as [|? ? Hc _]; subst. pose proof (digit_facts _ Hc) as HD. destruct HD as (_ & _ & _ & HS & N1 & N2).
  assert (ED : drop_space (c :: d') = c :: d') by (cbn [drop_space]; now rewrite HS).
  rewrite ED.
  assert (G : match c :: d' with 45 :: s' => (true, digits s' None) | 43 :: s' => (false, digits s' None) | s' => (false, digits s' None) end = (false, digits (c :: d') None)).
  { destruct c as [|p|p]; try reflexivity. do 6 (try destruct p as [p|p|]; try reflexivity); congruence. }
  rewrite G, E4. cbv zeta. replace ((v <? -2147483648) || (2147483647 <? v)) with false by lia. reflexivity.
Qed.
Lemma stoi_no_number w : no_number w -> stoi w = Throw.
Proof.
  destruct w as [|c w]; [reflexivity|]. intros (H1 & H2 & H3 & H4). unfold stoi, signed_digits. cbn [drop_space]. rewrite H2.
  assert (G : match c :: w with 45 :: s' => (true, digits s' None) | 43 :: s' => (false, digits s' None) | s' => (false, digits s' None) end = (false, digits (c :: w) None)).
  { destruct c as [|p|p]; try reflexivity. do 6 (try destruct p as [p|p|]; try reflexivity); congruence. }
  rewrite G. cbn [digits]. now rewrite H1.
Qed.
Lemma build_spec names : forall bs types m0, length names = length bs -> length names = length types -> Forall (fun b => 0 <= b < 2147483648) bs ->
  exists m, build_map names (map dec_text bs) types m0 = Ok m /\
    (forall i n t b, nth_error names i = Some n -> nth_error types i = Some t -> nth_error bs i = Some b -> (forall j, (i < j)%nat -> nth_error names j <> Some n) -> m n = Some (pcd_type t b)) /\
    (forall n, ~ In n names -> m n = m0 n).
Proof.
  induction names as [|n names IH]; intros [|b bs] [|t types] m0 H1 H2 HB; try discriminate; cbn [map build_map].
  - exists m0. split; [reflexivity|]. split; [|reflexivity]. intros [|i] n t b K; discriminate.
  - rewrite stoi_dec by apply (Forall_inv HB). cbn [bind]. destruct (IH bs types (put m0 n (pcd_type t b))) as (m & E & K1 & K2); [cbn in *; lia|cbn in *; lia|now apply Forall_inv_tail in HB|].
    exists m. split; [exact E|]. split.
    + intros [|i] n' t' b' J1 J2 J3 J4; cbn [nth_error] in *.
      * assert (n' = n) by congruence. assert (t' = t) by congruence. assert (b' = b) by congruence. subst. rewrite K2; [unfold put; now rewrite seqb_refl|]. intros K. apply In_nth_error in K. destruct K as (j & K). apply (J4 (S j)); [lia|exact K].
      * apply (K1 i); try assumption. intros j Hj. apply (J4 (S j)). lia.
    + intros n' Hn. rewrite K2 by (intros K; apply Hn; now right). unfold put. destruct (seqb_spec n n') as [->|]; [exfalso; apply Hn; now left|reflexivity].
Qed.
Lemma build_throw names : forall sizes types m0, length names = length sizes -> length names = length types -> Exists no_number sizes -> build_map names sizes types m0 = Throw.
Proof.
  induction names as [|n names IH]; intros [|s sizes] [|t types] m0 H1 H2 HE; try discriminate; [inversion HE|]. cbn [build_map]. inversion HE as [? ? K|? ? K]; subst.
  - now rewrite stoi_no_number.
  - pose proof (stoi_def s) as N. destruct (stoi s) as [v| |]; cbn [bind]; [|reflexivity|congruence]. apply IH; cbn in *; [lia|lia|assumption].
Qed.
Lemma type_meaning t b : (t, b) <> (str "F", 8) -> (t, b) <> (str "I", 8) -> pcd_type t b = meaning t b.
Proof.
  intros H1 H2. unfold pcd_type.
  destruct (seqb_spec t (str "F")) as [->|N1].
  { assert (b <> 8) by (intros ->; now apply H1). cbn [andb]. change (seqb (str "F") (str "I")) with false. change (seqb (str "F") (str "U")) with false. cbv iota.
    destruct (Z.eqb_spec b 4) as [->|]; [reflexivity|]. cbn. destruct b as [|p|p]; try reflexivity. do 4 (try destruct p as [p|p|]; try reflexivity); congruence. }
  cbn [andb]. destruct (seqb_spec t (str "I")) as [->|N2].
  { assert (b <> 8) by (intros ->; now apply H2). 
    destruct (Z.eqb_spec b 1) as [->|]; [reflexivity|]. destruct (Z.eqb_spec b 2) as [->|]; [reflexivity|]. destruct (Z.eqb_spec b 4) as [->|]; [reflexivity|]. cbn. destruct b as [|p|p]; try reflexivity. do 4 (try destruct p as [p|p|]; try reflexivity); congruence. }
  destruct (seqb_spec t (str "U")) as [->|N3].
  { destruct (Z.eqb_spec b 1) as [->|]; [reflexivity|]. destruct (Z.eqb_spec b 2) as [->|]; [reflexivity|]. destruct (Z.eqb_spec b 4) as [->|]; [reflexivity|]. destruct (Z.eqb_spec b 8) as [->|]; [reflexivity|]. cbn. destruct b as [|p|p]; try reflexivity. do 4 (try destruct p as [p|p|]; try reflexivity); congruence. }
  destruct t as [|c [|c' t]]; [reflexivity| |].
  - assert (c <> 70) by (intros ->; now apply N1). assert (c <> 73) by (intros ->; now apply N2). assert (c <> 85) by (intros ->; now apply N3). unfold meaning. destruct c as [|p|p]; try reflexivity. do 7 (try destruct p as [p|p|]; try reflexivity); congruence.
  - unfold meaning. destruct c as [|p|p]; try reflexivity. do 7 (try destruct p as [p|p|]; try reflexivity).
Qed.
Lemma until_shape d t : match until d t with (l, Some r) => t = l ++ d :: r /\ ~ In d l | (l, None) => t = l /\ ~ In d t end.
Proof.
  induction t as [|x t IH]; cbn [until]; [split; [reflexivity|tauto]|]. destruct (Z.eqb_spec x d) as [->|N]; [split; [reflexivity|tauto]|].
  destruct (until d t) as [l [r|]]; destruct IH as [-> IH]; split; try reflexivity; intros [K|K]; congruence || contradiction.
Qed.

(** * Theorems *)
(** C49: the map holds, for each listed name, the type its SIZE and TYPE entries denote (the last
    occurrence of a name counts), and nothing for the names not listed.  The exceptions "F 8" and
    "I 8" are the subject of C49_eight_byte_refuted. *)
Theorem C49_map ls t fuel bs :
  Forall line_ok ls -> header_end t -> (length ls < fuel)%nat ->
  sizes_of ls = map dec_text bs -> Forall (fun b => 0 <= b < 2147483648) bs ->
  length (names_of ls) = length bs -> length (names_of ls) = length (types_of ls) ->
  exists m, ReadEncodingInfoFromPCD fuel (lines_text ls ++ t) = Some (Ok m) /\
    (forall i n ty b, nth_error (names_of ls) i = Some n -> nth_error (types_of ls) i = Some ty -> nth_error bs i = Some b ->
       (forall j, (i < j)%nat -> nth_error (names_of ls) j <> Some n) ->
       (ty, b) <> (str "F", 8) -> (ty, b) <> (str "I", 8) -> m n = Some (meaning ty b)) /\
    (forall n, ~ In n (names_of ls) -> m n = None).
Proof.
  intros HL HE HF HS HB H1 H2. unfold ReadEncodingInfoFromPCD. rewrite read_header by assumption. unfold read_all. cbn [pl_names pl_sizes pl_types]. rewrite HS, map_length, <- H1, <- H2, Nat.eqb_refl. cbn [negb orb].
  destruct (build_spec (names_of ls) bs (types_of ls) (fun _ => None) H1 H2 HB) as (m & E & K1 & K2). exists m. split; [now rewrite E|]. split; [|assumption].
  intros i n ty b J1 J2 J3 J4 N1 N2. rewrite (K1 i n ty b J1 J2 J3 J4). now rewrite type_meaning.
Qed.
Theorem C49_counts ls t fuel :
  Forall line_ok ls -> header_end t -> (length ls < fuel)%nat ->
  length (names_of ls) <> length (sizes_of ls) \/ length (names_of ls) <> length (types_of ls) ->
  ReadEncodingInfoFromPCD fuel (lines_text ls ++ t) = Some Throw.
Proof.
  intros HL HE HF H. unfold ReadEncodingInfoFromPCD. rewrite read_header by assumption. unfold read_all. cbn [pl_names pl_sizes pl_types].
  destruct (Nat.eqb_spec (length (names_of ls)) (length (sizes_of ls))); destruct (Nat.eqb_spec (length (names_of ls)) (length (types_of ls))); cbn [negb orb]; try reflexivity. lia.
Qed.
Theorem C49_bad_size ls t fuel :
  Forall line_ok ls -> header_end t -> (length ls < fuel)%nat -> Exists no_number (sizes_of ls) ->
  ReadEncodingInfoFromPCD fuel (lines_text ls ++ t) = Some Throw.
Proof.
  intros HL HE HF H. destruct (Nat.eq_dec (length (names_of ls)) (length (sizes_of ls))) as [E1|]; [|apply C49_counts; auto]. destruct (Nat.eq_dec (length (names_of ls)) (length (types_of ls))) as [E2|]; [|apply C49_counts; auto].
  unfold ReadEncodingInfoFromPCD. rewrite read_header by assumption. unfold read_all. cbn [pl_names pl_sizes pl_types]. rewrite <- E1, <- E2, Nat.eqb_refl. cbn [negb orb]. now rewrite build_throw.
Qed.
(** Any file that is empty or ends with a line break is read in finite time, whatever it holds... *)
Theorem C49_terminates text fuel : text = [] \/ last text 0 = 10 -> (length text < fuel)%nat -> ReadEncodingInfoFromPCD fuel text <> None.
Proof.
  intros HT HF. unfold ReadEncodingInfoFromPCD.
  assert (G : forall fuel text s p, text = [] \/ last text 0 = 10 -> (length text < fuel)%nat -> read_lines fuel (mkIn text false) s p <> None).
  { clear. induction fuel as [|k IH]; intros text s p HT HF; [lia|]. cbn [read_lines]. unfold getline. cbn [in_eof in_rest]. pose proof (until_shape 10 text) as HU. destruct (until 10 text) as [l [r|]]; destruct HU as [HU HN].
    - cbv iota beta. destruct (splitString 32 _) as [|key words] eqn:ES.
      + destruct (split_first 32 (cut_at 10 (cut_at 13 (cut_at 35 l)))) as (? & ? & K & _). congruence.
      + destruct (seqb key (str "DATA")); [discriminate|]. destruct (cut_at 10 (cut_at 13 (cut_at 35 l))); [discriminate|]. apply IH.
        * subst text. destruct r as [|c r]; [now left|]. right. destruct HT as [HT|HT]; [destruct l; discriminate|]. rewrite <- HT. change (l ++ 10 :: c :: r) with (l ++ [10] ++ (c :: r)). rewrite app_assoc. destruct (@exists_last _ (c :: r)) as (q & x & Eq); [discriminate|]. rewrite Eq, app_assoc, !last_last. reflexivity.
        * subst text. rewrite app_length in HF. cbn [length] in HF. lia.
    - assert (text = []) as ->. { destruct HT as [HT|HT]; [assumption|]. destruct (list_eq_dec Z.eq_dec text []); [assumption|]. exfalso. apply HN. destruct (exists_last n) as (q & x & Eq). rewrite Eq, last_last in HT. rewrite Eq, HT. apply in_or_app. right. now left. }
      subst l. discriminate. }
  specialize (G fuel text [] (mkPL [] [] []) HT HF). destruct (read_lines _ _ _ _); congruence.
Qed.
(** ... but a header that stops in the middle of a line that is not DATA is read for ever: at the
    end of the file getline leaves the string as it was. *)
Theorem C49_truncated_refuted ls l : Forall line_ok ls -> line_ok l -> forall fuel, ReadEncodingInfoFromPCD fuel (lines_text ls ++ line_text l) = None.
Proof.
  intros HL Hl fuel. unfold ReadEncodingInfoFromPCD. destruct Hl as [HE HR]. destruct (entry_free _ HE) as (F1 & F2 & F3 & F4).
  assert (G : forall k p, read_lines k (mkIn [] true) (entry_text (fst l)) p = None).
  { induction k as [|k IH]; intros p; [reflexivity|]. cbn [read_lines]. unfold getline. cbn [in_eof]. replace (cut_at 10 (cut_at 13 (cut_at 35 (entry_text (fst l))))) with (entry_text (fst l)) by (now rewrite (cut_none 35), (cut_none 13), (cut_none 10) by assumption).
    destruct (entry_turn (fst l) p HE) as (key & words & -> & -> & ->). destruct (entry_text (fst l)) eqn:E; [contradiction|]. apply IH. }
  assert (M : forall a b s p r, (a <= b)%nat -> read_lines b s p r = None -> read_lines a s p r = None).
  { induction a as [|a IH]; intros b s p r Hab H; [reflexivity|]. destruct b as [|b]; [lia|]. cbn [read_lines] in *. destruct (getline s p) as [x y]. destruct (splitString 32 _).
    - apply (IH b); [lia|assumption].
    - destruct (seqb _ _); [discriminate|]. destruct (cut_at 10 _); [discriminate|]. apply (IH b); [lia|assumption]. }
  assert (N : forall s p, read_lines (length ls + S fuel) (mkIn (lines_text ls ++ line_text l) false) s p = None).
  { intros s p. rewrite read_prefix by assumption. cbn [read_lines]. unfold getline. cbn [in_eof in_rest]. rewrite until_none.
    - unfold line_text. rewrite strip_line by assumption. match goal with |- context [apply_entry] => idtac | _ => idtac end. destruct (entry_turn (fst l) (fold_left (fun p (l : line) => apply_entry p (fst l)) ls p) HE) as (key & words & -> & -> & ->). destruct (entry_text (fst l)) eqn:E; [contradiction|]. apply G.
    - unfold line_text. intros K. apply in_app_or in K. destruct K as [K|K]; [contradiction|]. apply HR in K. contradiction. }
  rewrite (M fuel (length ls + S fuel)%nat _ _ _ ltac:(lia) (N _ _)). reflexivity.
Qed.
(** A file that starts with a comment, as those PCL writes do, gives the empty map. *)
Theorem C49_leading_comment_refuted r fuel : (0 < fuel)%nat -> exists m, ReadEncodingInfoFromPCD fuel (35 :: r) = Some (Ok m) /\ forall n, m n = None.
Proof.
  intros HF. unfold ReadEncodingInfoFromPCD. change (35 :: r) with (lines_text [] ++ 35 :: r). rewrite (read_header [] (35 :: r) fuel) by (try apply Forall_nil; try apply end_empty; cbn; auto; lia). now exists (fun _ => None).
Qed.
(** "F 8" (double) and "I 8" (int64) give the unknown type. *)
Theorem C49_eight_byte_refuted : exists text m, ReadEncodingInfoFromPCD 9 text = Some (Ok m) /\
  text = str "FIELDS t n" ++ [10] ++ str "SIZE 8 8" ++ [10] ++ str "TYPE F I" ++ [10] ++ str "DATA ascii" ++ [10] /\
  m (str "t") = Some UNKNOWN /\ m (str "n") = Some UNKNOWN /\ meaning (str "F") 8 = FLOAT64 /\ meaning (str "I") 8 = INT64.
Proof. eexists _, _. split; [|split; [reflexivity|]]; [vm_compute; reflexivity|]. vm_compute. auto. Qed.
(** The hypotheses are met: a header with comments, CRLF ends and other lines. *)
Definition sample_lines : list line :=
  [(Other (str "VERSION .7"), []); (Names [str "x"; str "y"; str "tag"], [13]); (Sizes [str "4"; str "4"; str "8"], str "# bytes"); (Types [str "F"; str "F"; str "U"], []); (Other (str "WIDTH 10"), [])].
Example C49_case : Forall line_ok sample_lines /\ header_end (str "DATA binary" ++ [10; 1; 2; 3]) /\ sizes_of sample_lines = map dec_text [4; 4; 8] /\
  Forall line_ok (removelast sample_lines) /\ line_ok (Other (str "WIDTH 10"), []).
Proof.
  assert (W : forall w, forallb (fun c => negb (c =? 32) && negb (c =? 35) && negb (c =? 13) && negb (c =? 10)) w = true -> word w).
  { intros w H. rewrite forallb_forall in H. split; [|split; [|split]]; intros K; apply H in K; discriminate. }
  assert (K : forall k t, match splitString 32 t with w :: _ => seqb w k | [] => false end = false -> ~ In 32 k -> ~ keyed k t).
  { intros k t H Hk [->|(r & ->)]; [rewrite split_word, seqb_refl in H by assumption; discriminate|rewrite split_cons, seqb_refl in H by assumption; discriminate]. }
  assert (O1 : forall t, t <> [] -> forallb (fun c => negb (c =? 35) && negb (c =? 13) && negb (c =? 10)) t = true -> match splitString 32 t with w :: _ => seqb w (str "FIELDS") || seqb w (str "SIZE") || seqb w (str "TYPE") || seqb w (str "DATA") | [] => false end = false -> entry_ok (Other t)).
  { intros t Hn H1 H2. rewrite forallb_forall in H1. cbn [entry_ok]. split; [assumption|]. split; [intros Q; apply H1 in Q; discriminate|]. split; [intros Q; apply H1 in Q; discriminate|]. split; [intros Q; apply H1 in Q; discriminate|].
    assert (A : forall k, (forall w ws, splitString 32 t = w :: ws -> seqb w k = false) -> match splitString 32 t with w :: _ => seqb w k | [] => false end = false) by (intros k Hk; destruct (splitString 32 t) eqn:E; [reflexivity|eauto]).
    assert (B : forall w ws, splitString 32 t = w :: ws -> seqb w (str "FIELDS") = false /\ seqb w (str "SIZE") = false /\ seqb w (str "TYPE") = false /\ seqb w (str "DATA") = false) by (intros w ws E; rewrite E in H2; apply Bool.orb_false_iff in H2; destruct H2 as [H2 ?]; apply Bool.orb_false_iff in H2; destruct H2 as [H2 ?]; apply Bool.orb_false_iff in H2; tauto).
    repeat split; apply K; try (apply A; intros w ws E; apply B in E; tauto); apply key_free; cbn; lia. }
  assert (R0 : remark []) by (split; [tauto|exact I]).
  assert (S1 : Forall line_ok (removelast sample_lines)).
  { cbn [removelast sample_lines]. constructor; [split; [apply O1; [discriminate|reflexivity|reflexivity]|exact R0]|].
    constructor; [split; [cbn [fst entry_ok]; repeat apply Forall_cons; try apply Forall_nil; apply W; reflexivity|split; [cbn; lia|left; reflexivity]]|].
    constructor; [split; [cbn [fst entry_ok]; repeat apply Forall_cons; try apply Forall_nil; apply W; reflexivity|split; [cbn; lia|right; reflexivity]]|].
    constructor; [split; [cbn [fst entry_ok]; repeat apply Forall_cons; try apply Forall_nil; apply W; reflexivity|exact R0]|constructor]. }
  assert (S2 : line_ok (Other (str "WIDTH 10"), [])) by (split; [apply O1; [discriminate|reflexivity|reflexivity]|exact R0]).
  split; [|split; [apply (end_data (str " binary" ++ [10; 1; 2; 3])); left; reflexivity|split; [reflexivity|split; assumption]]].
  apply Forall_forall. intros x Hx. change sample_lines with (removelast sample_lines ++ [(Other (str "WIDTH 10"), [])]) in Hx. apply in_app_or in Hx. destruct Hx as [Hx|[<-|[]]]; [|assumption]. rewrite Forall_forall in S1. auto.
Qed.
Print Assumptions C49_map.
Print Assumptions C49_counts.
Print Assumptions C49_bad_size.
Print Assumptions C49_terminates.
Print Assumptions C49_truncated_refuted.
Print Assumptions C49_leading_comment_refuted.
Print Assumptions C49_eight_byte_refuted.
