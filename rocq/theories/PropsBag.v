(** C69: the metadata.yaml the bag converter writes. *)
From Verif Require Import Base BaseFacts Types Header Mcap Bag.
From Coq Require Import String Lia.
Open Scope Z_scope.
Open Scope list_scope.
Notation length := List.length.

(** * Specification *)
Definition occurs (p s : list Z) : Prop := exists a b, s = a ++ p ++ b.
(** [s'] is [s] with every occurrence of [from], taken left to right without overlap, replaced by
    [to]. *)
Inductive substituted (from to : list Z) : list Z -> list Z -> Prop :=
| sub_none s : ~ occurs from s -> substituted from to s s
| sub_step a b r :
    (forall a' b', a ++ from ++ b = a' ++ from ++ b' -> (length a <= length a')%nat) ->
    substituted from to b r -> substituted from to (a ++ from ++ b) (a ++ to ++ r).
(** A text whose lines are [ls] ('\n' = 10). *)
Fixpoint text_of (ls : list (list Z)) : list Z :=
  match ls with
  | nil => nil
  | l :: nil => l
  | l :: ls' => l ++ 10 :: text_of ls'
  end.
Definition one_line (l : list Z) : Prop := ~ In 10 l.
Definition blank (c : Z) : Prop := c = 32 \/ c = 13.
(** The bag file name a metadata text lists first: the item after the first "- " that follows
    the first "relative_file_paths:", to the end of its line, without trailing blanks. *)
Definition lists (s name : list Z) : Prop :=
  exists a b line d,
    s = a ++ b ++ str "- " ++ line ++ d /\
    (exists t, b ++ str "- " ++ line ++ d = str "relative_file_paths:" ++ t) /\
    (forall a' t, s = a' ++ str "relative_file_paths:" ++ t -> (length a <= length a')%nat) /\
    (forall b' t, b ++ str "- " ++ line ++ d = b' ++ str "- " ++ t -> (length b <= length b')%nat) /\
    one_line line /\ (d = nil \/ exists d', d = 10 :: d') /\
    (exists bl, line = name ++ bl /\ Forall blank bl) /\
    (forall n c, name = n ++ c :: nil -> ~ blank c).
(** No part at the beginning of [p] is also its end. *)
Definition unbordered (p : list Z) : Prop :=
  forall x y z, p = x ++ y -> p = y ++ z -> x <> nil -> y = nil.

(** * Searching *)
Lemma starts_with_spec p s : starts_with p s = true <-> exists t, s = p ++ t.
Proof.
  revert s. induction p as [|a p IH]; intros s; cbn [starts_with].
  - split; [intros _; exists s; reflexivity|reflexivity].
  - destruct s as [|b s]; [split; [discriminate|intros (t & H); discriminate]|]. rewrite Bool.andb_true_iff, Z.eqb_eq, IH. split.
    + intros (-> & t & ->). exists t. reflexivity.
    + intros (t & H). cbn in H. split; [congruence|]. exists t. congruence.
Qed.
Lemma find_some p s k : find p s = Some k ->
  exists a b, s = a ++ p ++ b /\ length a = k /\ forall a' b', s = a' ++ p ++ b' -> (k <= length a')%nat.
Proof.
  revert k. induction s as [|c s IH]; intros k; cbn [find].
  - destruct (starts_with p nil) eqn:E; [|discriminate]. intros H. assert (k = 0%nat) as -> by congruence. apply starts_with_spec in E. destruct E as (t & E). exists nil, t. split; [exact E|]. split; [reflexivity|]. intros; lia.
  - destruct (starts_with p (c :: s)) eqn:E.
    + intros H. assert (k = 0%nat) as -> by congruence. apply starts_with_spec in E. destruct E as (t & E). exists nil, t. split; [exact E|]. split; [reflexivity|]. intros; lia.
    + destruct (find p s) as [j|]; [|discriminate]. intros H. assert (k = S j) as -> by congruence. destruct (IH j eq_refl) as (a & b & -> & L & M). exists (c :: a), b. split; [reflexivity|]. split; [cbn; lia|]. intros [|x a'] b' H'.
      * exfalso. assert (starts_with p (c :: a ++ p ++ b) = true) by (apply starts_with_spec; exists b'; exact H'). congruence.
      * cbn. apply le_n_S. apply (M a' b'). cbn in H'. congruence.
Qed.
Lemma find_none p s : find p s = None -> ~ occurs p s.
Proof.
  induction s as [|c s IH]; cbn [find]; intros H (a & b & E).
  - destruct (starts_with p nil) eqn:S; [discriminate|]. destruct a; [|discriminate]. assert (starts_with p nil = true) by (apply starts_with_spec; exists b; exact E). congruence.
  - destruct (starts_with p (c :: s)) eqn:S; [discriminate|]. destruct (find p s) eqn:F; [discriminate|]. destruct a as [|x a].
    + assert (starts_with p (c :: s) = true) by (apply starts_with_spec; exists b; exact E). congruence.
    + apply (IH eq_refl). exists a, b. cbn in E. congruence.
Qed.
Lemma find_at p d s : find_from p (d ++ s) (length d) = match find p s with Some k => Some (length d + k)%nat | None => None end.
Proof.
  unfold find_from. rewrite app_length. destruct (Nat.leb_spec (length d) (length d + length s)); [|lia]. rewrite skipn_app, skipn_all, Nat.sub_diag. reflexivity.
Qed.

(** * Replacing *)
Lemma replace_loop_spec from to (NE : from <> nil) fuel d s : (length s < fuel)%nat ->
  exists r, replace_loop fuel from to (d ++ s) (length d) = Ok (d ++ r) /\ substituted from to s r.
Proof.
  revert d s. induction fuel as [|fuel IH]; intros d s L; [lia|]. cbn [replace_loop]. rewrite find_at. destruct (find from s) as [k|] eqn:F.
  - destruct (find_some _ _ _ F) as (a & b & -> & La & M).
    assert (E : firstn (length d + k) (d ++ a ++ from ++ b) ++ to ++ skipn (length d + k + length from) (d ++ a ++ from ++ b) = (d ++ a ++ to) ++ b).
    { replace (length d + k)%nat with (length (d ++ a)) by (rewrite app_length; lia). rewrite (app_assoc d a). rewrite firstn_app, firstn_all, Nat.sub_diag, firstn_O, app_nil_r. rewrite (app_assoc (d ++ a) from b). replace (length (d ++ a) + length from)%nat with (length ((d ++ a) ++ from)) by (rewrite !app_length; lia). rewrite skipn_app, skipn_all, Nat.sub_diag. cbn [skipn app]. now rewrite !app_assoc. }
    rewrite E. replace (length d + k + length to)%nat with (length (d ++ a ++ to)) by (rewrite !app_length; lia).
    destruct (IH (d ++ a ++ to) b) as (r & H1 & H2).
    { rewrite !app_length in L. destruct from; [contradiction|]. cbn [length] in L. lia. }
    exists (a ++ to ++ r). rewrite H1. split; [f_equal; now rewrite <- !app_assoc|]. constructor; [|exact H2]. intros a' b' H'. rewrite La. exact (M a' b' H').
  - exists s. split; [reflexivity|]. constructor. now apply find_none.
Qed.
Lemma replaceAll_spec s from to : from <> nil -> exists r, replaceAll s from to = Ok r /\ substituted from to s r.
Proof. intros NE. destruct (replace_loop_spec from to NE (S (length s)) nil s ltac:(lia)) as (r & H1 & H2). exists r. split; assumption. Qed.

(** The result of a substitution is determined. *)
Lemma occurs_mid from a b : occurs from (a ++ from ++ b). Proof. exists a, b. reflexivity. Qed.
Lemma app_cut (a a' b b' : list Z) : a ++ b = a' ++ b' -> length a = length a' -> a = a' /\ b = b'.
Proof. revert a'. induction a as [|x a IH]; intros [|y a'] H L; try discriminate L; [auto|]. cbn in H, L. destruct (IH a') as (-> & ->); [congruence|lia|]. split; [congruence|reflexivity]. Qed.
Lemma substituted_unique from to s r r' : substituted from to s r -> substituted from to s r' -> r = r'.
Proof.
  intros H. revert r'. induction H as [s N|a b r M H IH]; intros r' H'.
  - inversion H' as [|a b r0 M0 H0 E1 E2]; [reflexivity|]. subst. exfalso. apply N, occurs_mid.
  - remember (a ++ from ++ b) as s eqn:E. destruct H' as [s' N'|a' b' r0 M' H0].
    + subst s'. exfalso. apply N', occurs_mid.
    + assert (L : length a = length a').
      { apply Nat.le_antisymm; [apply (M a' b'); congruence|apply (M' a b); congruence]. }
      destruct (app_cut _ _ _ _ E (eq_sym L)) as (-> & E2). destruct (app_cut _ _ _ _ E2 eq_refl) as (_ & ->). now rewrite (IH _ H0).
Qed.

(** * The listed name *)
Lemma blankb c : ((c =? 32) || (c =? 13))%bool = true <-> blank c.
Proof. unfold blank. rewrite Bool.orb_true_iff, !Z.eqb_eq. reflexivity. Qed.
Lemma drop_blank_spec l : exists bl, l = bl ++ drop_blank l /\ Forall blank bl /\ forall c t, drop_blank l = c :: t -> ~ blank c.
Proof.
  induction l as [|c l IH]; cbn [drop_blank]; [exists nil; split; [reflexivity|]; split; [constructor|discriminate]|].
  destruct ((c =? 32) || (c =? 13))%bool eqn:E.
  - destruct IH as (bl & H1 & H2 & H3). exists (c :: bl). split; [cbn; congruence|]. split; [constructor; [now apply blankb|assumption]|exact H3].
  - exists nil. split; [reflexivity|]. split; [constructor|]. intros c' t H B. assert (c' = c) as -> by congruence. apply blankb in B. congruence.
Qed.
Lemma trim_back_spec l : exists bl, l = trim_back l ++ bl /\ Forall blank bl /\ forall n c, trim_back l = n ++ c :: nil -> ~ blank c.
Proof.
  destruct (drop_blank_spec (rev l)) as (bl & H1 & H2 & H3). exists (rev bl). unfold trim_back. split; [|split].
  - rewrite <- rev_app_distr, <- H1. now rewrite rev_involutive.
  - now apply Forall_rev.
  - intros n c H. apply (H3 c (rev n)). rewrite <- (rev_involutive (drop_blank (rev l))), H. now rewrite rev_app_distr.
Qed.
Lemma name_unique n1 b1 n2 b2 : n1 ++ b1 = n2 ++ b2 -> Forall blank b1 -> Forall blank b2 ->
  (forall n c, n1 = n ++ c :: nil -> ~ blank c) -> (forall n c, n2 = n ++ c :: nil -> ~ blank c) -> n1 = n2.
Proof.
  assert (K : forall n1 b1 n2 b2 : list Z, (length n1 <= length n2)%nat -> n1 ++ b1 = n2 ++ b2 -> Forall blank b1 -> (forall n c, n2 = n ++ c :: nil -> ~ blank c) -> n1 = n2).
  { clear. intros n1 b1 n2 b2 L H B N. assert (E : n2 = n1 ++ skipn (length n1) n2).
    { rewrite <- (firstn_skipn (length n1) n2) at 1. f_equal. apply (f_equal (firstn (length n1))) in H. rewrite !firstn_app, Nat.sub_diag, firstn_O, app_nil_r, firstn_all in H. replace (length n1 - length n2)%nat with 0%nat in H by lia. rewrite firstn_O, app_nil_r in H. congruence. }
    remember (skipn (length n1) n2) as x eqn:Ex. clear Ex. destruct x as [|z x]; [now rewrite app_nil_r in E|]. exfalso.
    destruct (@exists_last _ (z :: x) ltac:(discriminate)) as (y & c & Ey). rewrite Ey in E. apply (N (n1 ++ y) c); [rewrite E; now rewrite app_assoc|]. rewrite E in H. rewrite <- app_assoc in H. apply app_inv_head in H. subst b1. rewrite <- app_assoc in B. apply Forall_app in B. destruct B as (_ & B). now apply Forall_inv in B. }
  intros H B1 B2 N1 N2. destruct (Nat.le_ge_cases (length n1) (length n2)) as [L|L]; [now apply (K _ _ _ _ L H)|symmetry; now apply (K _ _ _ _ L (eq_sym H))].
Qed.
Lemma split_line a b a' b' : a ++ b = a' ++ b' -> one_line a -> one_line a' -> (b = nil \/ exists d, b = 10 :: d) -> (b' = nil \/ exists d, b' = 10 :: d) -> a = a' /\ b = b'.
Proof.
  revert a'. induction a as [|x a IH]; intros [|y a'] H O1 O2 E1 E2; cbn in H.
  - auto.
  - exfalso. destruct E1 as [->|(d & ->)]; [discriminate|]. apply O2. left. congruence.
  - exfalso. destruct E2 as [->|(d & ->)]; [discriminate|]. apply O1. left. congruence.
  - destruct (IH a') as (-> & ->); [congruence|intros I; apply O1; now right|intros I; apply O2; now right|assumption|assumption|]. split; [congruence|reflexivity].
Qed.
Lemma lists_unique s n n' : lists s n -> lists s n' -> n = n'.
Proof.
  intros (a & b & l & d & E & (t & Er) & Ma & Mb & O1 & D & (bl & El & B) & N) (a' & b' & l' & d' & E' & (t' & Er') & Ma' & Mb' & O1' & D' & (bl' & El' & B') & N').
  assert (La : length a = length a').
  { apply Nat.le_antisymm; [apply (Ma a' t'); now rewrite E', Er'|apply (Ma' a t); now rewrite E, Er]. }
  destruct (app_cut _ _ _ _ (eq_trans (eq_sym E) E') La) as (_ & E2).
  assert (Lb : length b = length b').
  { apply Nat.le_antisymm; [apply (Mb b' (l' ++ d')); exact E2|apply (Mb' b (l ++ d)); now symmetry]. }
  destruct (app_cut _ _ _ _ E2 Lb) as (_ & E3). apply app_inv_head in E3. destruct (split_line _ _ _ _ E3 O1 O1' D D') as (E4 & _).
  rewrite El, El' in E4. exact (name_unique _ _ _ _ E4 B B' N N').
Qed.
Lemma find_newline s : match find (10 :: nil) s with Some k => exists d, s = firstn k s ++ 10 :: d /\ one_line (firstn k s) | None => one_line s end.
Proof.
  destruct (find (10 :: nil) s) as [k|] eqn:F.
  - destruct (find_some _ _ _ F) as (a & b & -> & L & M). exists b. rewrite firstn_app, <- L, Nat.sub_diag, firstn_O, app_nil_r, firstn_all. split; [reflexivity|]. intros I. apply in_split in I. destruct I as (x & y & ->). specialize (M x (y ++ 10 :: b)). rewrite <- L, app_length in M. cbn [length app] in M. rewrite <- app_assoc in M. specialize (M eq_refl). lia.
  - intros I. apply (find_none _ _ F). apply in_split in I. destruct I as (x & y & ->). exists x, y. reflexivity.
Qed.
Lemma listed_some s n : listed_name s = Some n -> lists s n.
Proof.
  unfold listed_name. pose proof (find_at (str "relative_file_paths:") nil s) as F0. cbn [app length] in F0. rewrite F0. clear F0.
  destruct (find (str "relative_file_paths:") s) as [k|] eqn:F; [|discriminate]. cbn [Nat.add]. destruct (find_some _ _ _ F) as (a & t & E & L & M). clear F. remember (str "relative_file_paths:" ++ t) as u eqn:Eu. subst s. rewrite <- L. rewrite find_at.
  destruct (find (str "- ") u) as [j|] eqn:F; [|discriminate]. destruct (find_some _ _ _ F) as (b & v & E & Lb & Mb). clear F.
  assert (Es : a ++ u = (a ++ b ++ str "- ") ++ v) by (rewrite E; now rewrite <- !app_assoc).
  assert (Ln : (length a + j + 2)%nat = length (a ++ b ++ str "- ")) by (rewrite !app_length, Lb; change (length (str "- ")) with 2%nat; lia).
  rewrite Es, Ln. rewrite find_at. rewrite skipn_app, skipn_all, Nat.sub_diag. cbn [skipn app].
  pose proof (find_newline v) as NL. destruct (find (10 :: nil) v) as [q|].
  - rewrite Nat.add_comm, Nat.add_sub. destruct NL as (d & Ev & O1). intros H. assert (n = trim_back (firstn q v)) as -> by congruence. exists a, b, (firstn q v), (10 :: d). rewrite <- Ev. rewrite <- Es. split; [rewrite E; reflexivity|]. split; [exists t; rewrite <- E; exact Eu|]. split; [intros a' t' H'; rewrite L; exact (M a' t' H')|]. split; [intros b' t' H'; rewrite Lb; apply (Mb b' t'); rewrite E; exact H'|]. split; [exact O1|]. split; [right; now exists d|]. destruct (trim_back_spec (firstn q v)) as (bl & T1 & T2 & T3). split; [exists bl; auto|exact T3].
  - intros H. assert (n = trim_back v) as -> by congruence. exists a, b, v, nil. rewrite app_nil_r. rewrite <- Es. split; [rewrite E; reflexivity|]. split; [exists t; rewrite <- E; exact Eu|]. split; [intros a' t' H'; rewrite L; exact (M a' t' H')|]. split; [intros b' t' H'; rewrite Lb; apply (Mb b' t'); rewrite E; exact H'|]. split; [exact NL|]. split; [now left|]. destruct (trim_back_spec v) as (bl & T1 & T2 & T3). split; [exists bl; auto|exact T3].
Qed.
Lemma listed_none s : listed_name s = None -> forall n, ~ lists s n.
Proof.
  unfold listed_name. pose proof (find_at (str "relative_file_paths:") nil s) as F0. cbn [app length] in F0. rewrite F0. clear F0.
  intros H n (a' & b' & l' & d' & E' & (t' & Er') & Ma' & Mb' & _).
  destruct (find (str "relative_file_paths:") s) as [k|] eqn:F.
  - cbn [Nat.add] in H. destruct (find_some _ _ _ F) as (a & t & E & L & M). clear F.
    assert (La : length a' = length a).
    { apply Nat.le_antisymm; [exact (Ma' a t E)|rewrite L; apply (M a' t'); now rewrite E', Er']. }
    rewrite E' in H. rewrite <- L, <- La in H. rewrite find_at in H.
    destruct (find (str "- ") (b' ++ str "- " ++ l' ++ d')) as [j|] eqn:F; [discriminate|]. apply (find_none _ _ F). exists b', (l' ++ d'). reflexivity.
  - apply (find_none _ _ F). exists a', t'. now rewrite E', Er'.
Qed.

(** * C69: the text written *)
Theorem C69_text content new enc :
  exists typed out,
    generateMetadataYaml content new enc = Ok out /\
    substituted (str "type: " ++ old_type enc) (str "type: " ++ new_type enc) content typed /\
    (forall name, lists typed name -> name <> nil -> substituted name new typed out) /\
    ((forall name, ~ lists typed name) \/ lists typed nil -> out = typed).
Proof.
  unfold generateMetadataYaml. destruct (replaceAll_spec content (str "type: " ++ old_type enc) (str "type: " ++ new_type enc)) as (typed & H1 & H2); [destruct enc; discriminate|]. rewrite H1. cbn [bind]. exists typed.
  destruct (listed_name typed) as [old|] eqn:Ln.
  - pose proof (listed_some _ _ Ln) as Ls. destruct old as [|c old]; cbn [length Nat.eqb].
    + exists typed. split; [reflexivity|]. split; [assumption|]. split; [intros name Hn Ne; destruct Ne; now apply (lists_unique _ _ _ Hn)|reflexivity].
    + destruct (replaceAll_spec typed (c :: old) new) as (out & H3 & H4); [discriminate|]. exists out. split; [exact H3|]. split; [assumption|]. split; [intros name Hn _; now rewrite (lists_unique _ _ _ Hn Ls)|]. intros [H|H]; [destruct (H _ Ls)|]. discriminate (lists_unique _ _ _ H Ls).
  - exists typed. split; [reflexivity|]. split; [assumption|]. pose proof (listed_none _ Ln) as No. split; [intros name Hn; destruct (No _ Hn)|reflexivity].
Qed.

(** * Line by line *)
Lemma across from l t a b : from <> nil -> one_line from -> l ++ 10 :: t = a ++ from ++ b ->
  (exists b1, l = a ++ from ++ b1 /\ b = b1 ++ 10 :: t) \/ (exists a1, a = l ++ 10 :: a1 /\ t = a1 ++ from ++ b).
Proof.
  intros NE NL H. apply app_eq_app in H. destruct H as (m & [(E1 & E2)|(E1 & E2)]).
  - apply app_eq_app in E2. destruct E2 as (n & [(E3 & E4)|(E3 & E4)]).
    + destruct n as [|c n].
      * left. exists nil. rewrite app_nil_r in E3. cbn in E4. subst. rewrite app_nil_r. split; reflexivity.
      * exfalso. apply NL. rewrite E3. apply in_or_app. right. left. cbn in E4. congruence.
    + left. exists n. subst. split; reflexivity.
  - destruct m as [|c m].
    + exfalso. destruct from as [|c from]; [contradiction|]. apply NL. left. cbn in E2. congruence.
    + right. exists m. cbn in E2. split; [|congruence]. rewrite E1. f_equal. congruence.
Qed.
Lemma sub_after from to l t t' : from <> nil -> one_line from -> ~ occurs from l ->
  substituted from to t t' -> substituted from to (l ++ 10 :: t) (l ++ 10 :: t').
Proof.
  intros NE NL N H. inversion H as [s N' E1 E2|a b r M H0 E1 E2]; subst.
  - constructor. intros (a & b & E). destruct (across _ _ _ _ _ NE NL E) as [(b1 & E1 & _)|(a1 & _ & E1)]; [apply N; exists a, b1; exact E1|apply N'; exists a1, b; exact E1].
  - change (l ++ 10 :: a ++ from ++ b) with (l ++ (10 :: a) ++ from ++ b). change (l ++ 10 :: a ++ to ++ r) with (l ++ (10 :: a) ++ to ++ r). rewrite !(app_assoc l (10 :: a)). constructor; [|exact H0].
    intros a' b' E. rewrite <- app_assoc in E. cbn [app] in E. destruct (across _ _ _ _ _ NE NL E) as [(b1 & E1 & _)|(a1 & E0 & E1)].
    + exfalso. apply N. exists a', b1. exact E1.
    + subst a'. specialize (M a1 b' E1). rewrite !app_length. cbn [length]. lia.
Qed.
Lemma sub_line from to l r t t' : from <> nil -> one_line from -> one_line l ->
  substituted from to l r -> substituted from to t t' -> substituted from to (l ++ 10 :: t) (r ++ 10 :: t').
Proof.
  intros NE NL O1 H Ht. induction H as [s N|a b r M H IH]; [now apply sub_after|].
  replace ((a ++ from ++ b) ++ 10 :: t) with (a ++ from ++ (b ++ 10 :: t)) by now rewrite <- !app_assoc.
  replace ((a ++ to ++ r) ++ 10 :: t') with (a ++ to ++ (r ++ 10 :: t')) by now rewrite <- !app_assoc.
  constructor.
  - intros a' b' E. assert (E' : (a ++ from ++ b) ++ 10 :: t = a' ++ from ++ b') by (rewrite <- E; now rewrite <- !app_assoc).
    destruct (across _ _ _ _ _ NE NL E') as [(b1 & E1 & _)|(a1 & E0 & _)]; [exact (M a' b1 E1)|]. subst a'. rewrite !app_length. lia.
  - apply IH. intros I. apply O1. apply in_or_app. right. apply in_or_app. now right.
Qed.
Lemma sub_exists from to s : from <> nil -> exists r, substituted from to s r.
Proof. intros NE. destruct (replaceAll_spec s from to NE) as (r & _ & H). now exists r. Qed.
Lemma sub_lines_build from to ls : from <> nil -> one_line from -> Forall one_line ls ->
  exists ls', substituted from to (text_of ls) (text_of ls') /\ Forall2 (substituted from to) ls ls'.
Proof.
  intros NE NL F. induction ls as [|l ls IH].
  - exists nil. split; [|constructor]. cbn. constructor. intros (a & b & E). destruct a; [|discriminate]. destruct from; [contradiction|discriminate].
  - destruct (IH (Forall_inv_tail F)) as (ls' & H1 & H2). destruct (sub_exists from to l NE) as (r & Hr). exists (r :: ls'). split; [|now constructor].
    destruct ls as [|l2 ls]; destruct ls' as [|r2 ls']; try (inversion H2; fail); [exact Hr|].
    change (text_of (l :: l2 :: ls)) with (l ++ 10 :: text_of (l2 :: ls)). change (text_of (r :: r2 :: ls')) with (r ++ 10 :: text_of (r2 :: ls')). apply sub_line; auto. now apply Forall_inv in F.
Qed.
Lemma sub_lines from to ls r : from <> nil -> one_line from -> Forall one_line ls -> substituted from to (text_of ls) r ->
  exists ls', r = text_of ls' /\ Forall2 (substituted from to) ls ls'.
Proof. intros NE NL F H. destruct (sub_lines_build from to ls NE NL F) as (ls' & H1 & H2). exists ls'. split; [exact (substituted_unique _ _ _ _ _ H H1)|assumption]. Qed.
Lemma sub_one_line from to l r : one_line to -> one_line l -> substituted from to l r -> one_line r.
Proof.
  intros NT O1 H. induction H as [s N|a b r M H IH]; [assumption|]. intros I. apply in_app_or in I. destruct I as [I|I]; [apply O1, in_or_app; now left|]. apply in_app_or in I. destruct I as [I|I]; [now apply NT|]. revert I. apply IH. intros I. apply O1, in_or_app. right. apply in_or_app. now right.
Qed.
Lemma Forall2_one from to ls ls' : one_line to -> Forall one_line ls -> Forall2 (substituted from to) ls ls' -> Forall one_line ls'.
Proof. intros NT F H. induction H as [|l l' ls ls' H1 H2 IH]; constructor; [exact (sub_one_line _ _ _ _ NT (Forall_inv F) H1)|exact (IH (Forall_inv_tail F))]. Qed.
Lemma types_one_line enc : one_line (str "type: " ++ old_type enc) /\ one_line (str "type: " ++ new_type enc).
Proof. unfold one_line. destruct enc; vm_compute; split; intuition discriminate. Qed.
Lemma lists_one_line s n : lists s n -> one_line n.
Proof. intros (a & b & l & d & _ & _ & _ & _ & O1 & _ & (bl & -> & _) & _) I. apply O1, in_or_app. now left. Qed.

(** A name for the output without a line break: the lines of the file are kept, in number and order; each
    line has the old type replaced by the new one, then the listed name by the new one; a line with
    neither is kept as it is. *)
Definition line_change (enc : bool) (listed : option (list Z)) (new l l' : list Z) : Prop :=
  exists m, substituted (str "type: " ++ old_type enc) (str "type: " ++ new_type enc) l m /\
    match listed with Some name => substituted name new m l' | None => l' = m end.
Lemma Forall2_trans_eq {A B C} (P : A -> B -> Prop) (Q : B -> C -> Prop) (S : A -> C -> Prop) l1 l2 l3 :
  (forall a b c, P a b -> Q b c -> S a c) -> Forall2 P l1 l2 -> Forall2 Q l2 l3 -> Forall2 S l1 l3.
Proof. intros K H. revert l3. induction H as [|a b l1 l2 H1 H2 IH]; intros l3 H3; inversion H3; subst; constructor; eauto. Qed.
Theorem C69_lines ls new enc : Forall one_line ls -> one_line new ->
  exists ls' listed,
    generateMetadataYaml (text_of ls) new enc = Ok (text_of ls') /\
    Forall2 (line_change enc listed new) ls ls' /\
    (forall name, listed = Some name -> name <> nil /\
       exists typed, substituted (str "type: " ++ old_type enc) (str "type: " ++ new_type enc) (text_of ls) typed /\ lists typed name).
Proof.
  intros F NN. destruct (types_one_line enc) as (TO & TN). destruct (C69_text (text_of ls) new enc) as (typed & out & H1 & H2 & H3 & H4).
  assert (NE : str "type: " ++ old_type enc <> nil) by (destruct enc; discriminate).
  destruct (sub_lines _ _ _ _ NE TO F H2) as (ms & Em & Fm).
  assert (Om : Forall one_line ms) by exact (Forall2_one _ _ _ _ TN F Fm).
  destruct (listed_name typed) as [name|] eqn:Ln.
  - pose proof (listed_some _ _ Ln) as Ls. destruct name as [|c name].
    + exists ms, None. rewrite H1, (H4 (or_intror Ls)), Em. split; [reflexivity|]. split; [|discriminate].
      clear -Fm. induction Fm; constructor; [|assumption]. exists y. split; [assumption|reflexivity].
    + assert (N0 : c :: name <> nil) by discriminate. pose proof (H3 _ Ls N0) as H5. pose proof (lists_one_line _ _ Ls) as O2. rewrite Em in H5.
      destruct (sub_lines _ _ _ _ N0 O2 Om H5) as (ls' & El & Fl). exists ls', (Some (c :: name)). rewrite H1, El. split; [reflexivity|]. split.
      * apply (Forall2_trans_eq _ _ _ _ _ _ (fun a b c0 Ha Hb => ex_intro _ b (conj Ha Hb)) Fm Fl).
      * intros nm E. assert (nm = c :: name) as -> by congruence. split; [assumption|]. exists typed. split; assumption.
  - exists ms, None. rewrite H1, (H4 (or_introl (listed_none _ Ln))), Em. split; [reflexivity|]. split; [|discriminate].
    clear -Fm. induction Fm; constructor; [|assumption]. exists y. split; [assumption|reflexivity].
Qed.
(** A line with neither the old type nor the listed name is unchanged. *)
Theorem C69_untouched enc listed new l l' : line_change enc listed new l l' ->
  ~ occurs (str "type: " ++ old_type enc) l -> (forall name, listed = Some name -> ~ occurs name l) -> l' = l.
Proof.
  intros (m & H1 & H2) N1 N2. inversion H1 as [s N E1 E2|a b r M H0 E1 E2]; subst; [|destruct N1; apply occurs_mid].
  destruct listed as [name|]; [|assumption]. specialize (N2 name eq_refl). inversion H2 as [s' N' E1 E2|a b r M H0 E1 E2]; [congruence|]. subst. destruct N2. apply occurs_mid.
Qed.

(** * No old type is left, and converting back restores the text *)
Definition overlap (p q : list Z) : Prop := exists x y z, p = x ++ y /\ q = y ++ z /\ y <> nil.
Definition overlapb (p q : list Z) : bool := existsb (fun k => starts_with (skipn k p) q) (seq 0 (length p)).
Lemma overlap_dec p q : overlapb p q = false -> ~ overlap p q.
Proof.
  intros H (x & y & z & -> & -> & N). assert (overlapb (x ++ y) (y ++ z) = true); [|congruence]. unfold overlapb. apply existsb_exists. exists (length x). split.
  - apply in_seq. rewrite app_length. destruct y; [contradiction|cbn [length]; lia].
  - rewrite skipn_app, skipn_all, Nat.sub_diag. cbn [skipn app]. apply starts_with_spec. now exists z.
Qed.
Lemma occ_split q u v : occurs q (u ++ v) -> occurs q u \/ occurs q v \/
  exists x y u' v', q = x ++ y /\ x <> nil /\ y <> nil /\ u = u' ++ x /\ v = y ++ v'.
Proof.
  intros (a & b & H). apply app_eq_app in H. destruct H as (m & [(E1 & E2)|(E1 & E2)]).
  - apply app_eq_app in E2. destruct E2 as (n & [(E3 & E4)|(E3 & E4)]).
    + destruct m as [|cm m]; [right; left; exists nil, b; cbn in E3; subst q; exact E4|]. destruct n as [|cn n]; [left; exists a, nil; rewrite app_nil_r in E3; subst; now rewrite app_nil_r|].
      right. right. exists (cm :: m), (cn :: n), a, b. repeat split; try assumption; discriminate.
    + left. exists a, n. now subst.
  - right. left. exists m, b. exact E2.
Qed.
Lemma sub_none_left from to s r : from <> nil -> ~ overlap from to -> ~ overlap to from -> ~ occurs from to -> ~ occurs to from ->
  substituted from to s r -> ~ occurs from r.
Proof.
  intros NE O1 O2 N1 N2 H. induction H as [s N|a b r M H IH]; [assumption|]. intros Oc. destruct (occ_split _ _ _ Oc) as [K|[K|(x & y & u & v & E1 & Nx & Ny & E2 & E3)]].
  - destruct K as (a' & b' & ->). specialize (M a' (b' ++ from ++ b)). rewrite <- !app_assoc in M. specialize (M eq_refl). rewrite !app_length in M. destruct from; [contradiction|cbn [length] in M; lia].
  - destruct (occ_split _ _ _ K) as [K'|[K'|(x & y & u & v & E1 & Nx & Ny & E2 & E3)]]; [auto|auto|]. apply O2. exists u, x, y. auto.
  - apply app_eq_app in E3. destruct E3 as (n & [(E4 & E5)|(E4 & E5)]).
    + apply O1. exists x, y, n. auto.
    + apply N2. exists x, n. subst. reflexivity.
Qed.
Theorem C69_all_retyped enc s r : substituted (str "type: " ++ old_type enc) (str "type: " ++ new_type enc) s r ->
  ~ occurs (str "type: " ++ old_type enc) r.
Proof.
  apply sub_none_left.
  - destruct enc; discriminate.
  - apply overlap_dec. destruct enc; vm_compute; reflexivity.
  - apply overlap_dec. destruct enc; vm_compute; reflexivity.
  - apply find_none. destruct enc; vm_compute; reflexivity.
  - apply find_none. destruct enc; vm_compute; reflexivity.
Qed.
Lemma sub_back from to s r : to <> nil -> unbordered to -> ~ occurs to s -> substituted from to s r -> substituted to from r s.
Proof.
  intros NE U N H. induction H as [s N'|a b r M H IH]; [now constructor|]. constructor.
  - intros a' b' E. apply app_eq_app in E. destruct E as (m & [(E1 & E2)|(E1 & E2)]); [|subst a'; rewrite app_length; lia].
    destruct m as [|c m]; [subst a; rewrite app_nil_r; lia|]. exfalso. apply app_eq_app in E2. destruct E2 as (n & [(E3 & E4)|(E3 & E4)]).
    + assert (n = nil).
      { apply app_eq_app in E4. destruct E4 as (q & [(E5 & E6)|(E5 & E6)]); [apply (U (c :: m) n q E3 E5); discriminate|]. apply (f_equal (@List.length Z)) in E5. apply (f_equal (@List.length Z)) in E3. rewrite app_length in E3, E5. cbn [length] in E3. lia. }
      subst n. rewrite app_nil_r in E3. apply N. exists a', (from ++ b). rewrite E1, E3. now rewrite <- app_assoc.
    + apply N. exists a', (n ++ from ++ b). rewrite E1, E3. now rewrite <- !app_assoc.
  - apply IH. intros (x & y & E). apply N. exists (a ++ from ++ x), y. rewrite E. now rewrite <- !app_assoc.
Qed.
Definition unborderedb (p : list Z) : bool := negb (existsb (fun k => starts_with (skipn k p) p) (seq 1 (length p - 1))).
Lemma unbordered_dec p : unborderedb p = true -> unbordered p.
Proof.
  intros H x y z E1 E2 Nx. destruct y as [|c y]; [reflexivity|]. exfalso. unfold unborderedb in H. apply Bool.negb_true_iff in H.
  assert (existsb (fun k => starts_with (skipn k p) p) (seq 1 (length p - 1)) = true); [|congruence]. apply existsb_exists. exists (length x). split.
  - apply in_seq. apply (f_equal (@List.length Z)) in E1. rewrite app_length in E1. destruct x; [contradiction|]. cbn [length] in *. lia.
  - replace (skipn (length x) p) with (c :: y); [apply starts_with_spec; now exists z|]. rewrite E1, skipn_app, skipn_all, Nat.sub_diag. reflexivity.
Qed.

Definition subst_of (from to s : list Z) : list Z := match replaceAll s from to with Ok r => r | _ => nil end.
Lemma subst_of_spec from to s : from <> nil -> substituted from to s (subst_of from to s).
Proof. intros NE. unfold subst_of. destruct (replaceAll_spec s from to NE) as (r & -> & H). exact H. Qed.
Lemma subst_of_none from to s : from <> nil -> ~ occurs from s -> subst_of from to s = s.
Proof. intros NE N. apply (substituted_unique from to s); [now apply subst_of_spec|now constructor]. Qed.
Lemma Forall2_map from to ls ls' : from <> nil -> Forall2 (substituted from to) ls ls' -> ls' = map (subst_of from to) ls.
Proof. intros NE H. induction H as [|l l' ls ls' H1 H2 IH]; [reflexivity|]. cbn [map]. rewrite <- IH. f_equal. exact (substituted_unique _ _ _ _ _ H1 (subst_of_spec _ _ _ NE)). Qed.
Lemma sub_text from to ls r : from <> nil -> one_line from -> Forall one_line ls -> substituted from to (text_of ls) r -> r = text_of (map (subst_of from to) ls).
Proof. intros NE NL F H. destruct (sub_lines _ _ _ _ NE NL F H) as (ls' & -> & H2). now rewrite (Forall2_map _ _ _ _ NE H2). Qed.
Lemma sub_text' from to ls : from <> nil -> one_line from -> Forall one_line ls -> substituted from to (text_of ls) (text_of (map (subst_of from to) ls)).
Proof. intros NE NL F. destruct (sub_lines_build _ to _ NE NL F) as (ls' & H1 & H2). now rewrite <- (Forall2_map _ _ _ _ NE H2). Qed.
Lemma one_line_map from to ls : from <> nil -> one_line to -> Forall one_line ls -> Forall one_line (map (subst_of from to) ls).
Proof. intros NE NT F. apply Forall_map. apply Forall_forall. intros l I. rewrite Forall_forall in F. apply (sub_one_line from to l); auto. now apply subst_of_spec. Qed.

(** Compressing a bag and decompressing it under its old name restores metadata.yaml: for a text that
    lists the old name, lists the new name once renamed, has neither the compressed type nor the
    new name anywhere, and whose type lines do not mention the file. *)
Theorem C69_back ls n0 n1 out :
  Forall one_line ls -> one_line n0 -> one_line n1 -> n0 <> nil -> n1 <> nil -> unbordered n1 ->
  let T := str "type: " ++ pointcloud_schema_name in
  let T' := str "type: " ++ compressed_schema_name in
  (forall typed, substituted T T' (text_of ls) typed -> lists typed n0) ->
  (forall renamed, substituted n0 n1 (text_of ls) renamed -> lists renamed n1) ->
  (forall l, In l ls -> ~ occurs T' l /\ ~ occurs n1 l /\
     (occurs T l -> ~ occurs n0 l /\ forall m, substituted T T' l m -> ~ occurs n0 m) /\
     (~ occurs T l -> forall m, substituted n0 n1 l m -> ~ occurs T' m)) ->
  generateMetadataYaml (text_of ls) n1 true = Ok out ->
  generateMetadataYaml out n0 false = Ok (text_of ls).
Proof.
  intros F O0 O1 N0 N1 U T T' L1 L2 HL H.
  destruct (types_one_line true) as (TO & TN). change (old_type true) with pointcloud_schema_name in TO. change (new_type true) with compressed_schema_name in TN. fold T in TO. fold T' in TN.
  assert (NT : T <> nil) by discriminate. assert (NT' : T' <> nil) by discriminate.
  assert (UT : unbordered T') by (apply unbordered_dec; vm_compute; reflexivity).
  destruct (C69_text (text_of ls) n1 true) as (typed & o & H1 & H2 & H3 & _). rewrite H in H1. assert (o = out) as -> by congruence. clear H1.
  change (old_type true) with pointcloud_schema_name in H2. change (new_type true) with compressed_schema_name in H2. fold T T' in H2.
  specialize (H3 n0 (L1 _ H2) N0). pose proof (sub_text _ _ _ _ NT TO F H2) as E1. rewrite E1 in H3.
  assert (F1 : Forall one_line (map (subst_of T T') ls)) by now apply one_line_map.
  pose proof (sub_text _ _ _ _ N0 O0 F1 H3) as E2.
  assert (F2 : Forall one_line (map (subst_of n0 n1) (map (subst_of T T') ls))) by now apply one_line_map.
  destruct (C69_text out n0 false) as (typed2 & o2 & G1 & G2 & G3 & _). rewrite G1. f_equal.
  change (old_type false) with compressed_schema_name in G2. change (new_type false) with pointcloud_schema_name in G2. fold T T' in G2. rewrite E2 in G2.
  pose proof (sub_text _ _ _ _ NT' TN F2 G2) as E3.
  assert (E4 : map (subst_of T' T) (map (subst_of n0 n1) (map (subst_of T T') ls)) = map (subst_of n0 n1) ls).
  { rewrite !map_map. apply map_ext_in. intros l I. destruct (HL l I) as (K1 & K2 & K3 & K4). destruct (find T l) eqn:Ft.
    - assert (Oc : occurs T l) by (destruct (find_some _ _ _ Ft) as (a & b & E & _); exists a, b; exact E). destruct (K3 Oc) as (K5 & K6).
      pose proof (subst_of_spec T T' l NT) as S1. rewrite (subst_of_none n0 n1 _ N0 (K6 _ S1)). rewrite (subst_of_none n0 n1 l N0 K5).
      symmetry. apply (substituted_unique T' T (subst_of T T' l)); [apply sub_back; assumption|now apply subst_of_spec].
    - pose proof (find_none _ _ Ft) as NO. rewrite (subst_of_none T T' l NT NO). apply subst_of_none; [assumption|]. apply (K4 NO). now apply subst_of_spec. }
  rewrite E4 in E3. assert (L3 : lists typed2 n1) by (apply L2; rewrite E3; now apply sub_text').
  specialize (G3 n1 L3 N1). rewrite E3 in G3. assert (F3 : Forall one_line (map (subst_of n0 n1) ls)) by now apply one_line_map.
  rewrite (sub_text _ _ _ _ N1 O1 F3 G3). f_equal. rewrite map_map. rewrite <- (map_id ls) at 2. apply map_ext_in. intros l I. destruct (HL l I) as (K1 & K2 & _).
  symmetry. apply (substituted_unique n1 n0 (subst_of n0 n1 l)); [apply sub_back; auto; now apply subst_of_spec|now apply subst_of_spec].
Qed.

(** The two kinds of lines of interest in a rosbag2 metadata file. *)
Lemma starts_unique from to a b r : substituted from to b r ->
  (forall a' b', a ++ from ++ b = a' ++ from ++ b' -> (length a <= length a')%nat) ->
  forall l', substituted from to (a ++ from ++ b) l' -> l' = a ++ to ++ r.
Proof. intros H M l' H'. apply (substituted_unique from to (a ++ from ++ b)); [assumption|now constructor]. Qed.
Lemma not_before (Q : Z -> Prop) c from a b : (forall x, In x a -> Q x) -> ~ Q c ->
  forall a' b', a ++ (c :: from) ++ b = a' ++ (c :: from) ++ b' -> (length a <= length a')%nat.
Proof.
  intros HQ NC a' b' E. apply app_eq_app in E. destruct E as (m & [(E1 & E2)|(E1 & E2)]); [|subst a'; rewrite app_length; lia].
  destruct m as [|d m]; [subst a; rewrite app_nil_r; lia|]. exfalso. apply NC. replace c with d by (cbn in E2; congruence). apply HQ. rewrite E1. apply in_or_app. right. now left.
Qed.
Theorem C69_type_line enc listed new pre bl l' :
  Forall (fun c => c = 32) pre -> Forall blank bl ->
  line_change enc listed new (pre ++ str "type: " ++ old_type enc ++ bl) l' ->
  (forall name, listed = Some name -> ~ occurs name (pre ++ str "type: " ++ new_type enc ++ bl)) ->
  l' = pre ++ str "type: " ++ new_type enc ++ bl.
Proof.
  intros Fp Fb (m & H1 & H2) N. assert (Em : m = pre ++ str "type: " ++ new_type enc ++ bl).
  { rewrite (app_assoc (str "type: ") (old_type enc)) in H1. rewrite (app_assoc (str "type: ") (new_type enc)). apply (starts_unique _ _ pre bl bl) in H1; [assumption| |].
    - constructor. intros (a & b & E). assert (Hb : forall x, In x bl -> blank x) by now apply Forall_forall. assert (In 116 bl) by (rewrite E; apply in_or_app; right; left; reflexivity). destruct (Hb _ H); discriminate.
    - change (str "type: " ++ old_type enc) with (116 :: (str "ype: " ++ old_type enc)). apply (not_before (fun c => c = 32)); [now apply Forall_forall|discriminate]. }
  subst m. destruct listed as [name|]; [|assumption]. inversion H2 as [s N' E1 E2|a b r M H0 E1 E2]; [reflexivity|]. destruct (N name eq_refl). exists a, b. symmetry. exact E1.
Qed.
Theorem C69_named_line enc new pre c name bl l' :
  Forall (fun x => x = 32) pre -> Forall blank bl -> c <> 32 -> c <> 45 -> (forall n d, c :: name = n ++ d :: nil -> ~ blank d) ->
  ~ occurs (str "type: " ++ old_type enc) (pre ++ str "- " ++ (c :: name) ++ bl) ->
  line_change enc (Some (c :: name)) new (pre ++ str "- " ++ (c :: name) ++ bl) l' ->
  l' = pre ++ str "- " ++ new ++ bl.
Proof.
  intros Fp Fb N1 N2 Nl NT (m & H1 & H2). assert (m = pre ++ str "- " ++ (c :: name) ++ bl) as ->.
  { symmetry. apply (substituted_unique _ _ _ _ _ (sub_none _ _ _ NT) H1). }
  rewrite (app_assoc pre) in H2. rewrite (app_assoc pre). apply (starts_unique _ _ _ _ bl) in H2; [assumption| |].
  - constructor. intros (a & b & E). destruct (@exists_last _ (c :: name) ltac:(discriminate)) as (n & d & Ed). apply (Nl n d Ed). rewrite Forall_forall in Fb. apply Fb. rewrite E, Ed. apply in_or_app. right. apply in_or_app. left. apply in_or_app. right. now left.
  - apply (not_before (fun x => x = 32 \/ x = 45)); [|intros [K|K]; contradiction]. intros x I. apply in_app_or in I. destruct I as [I|I]; [left; rewrite Forall_forall in Fp; now apply Fp|]. destruct I as [I|[I|I]]; [now right; symmetry|now left; symmetry|contradiction].
Qed.

(** * A case: the metadata of a one-file bag *)
Definition meta_lines : list (list Z) :=
  str "rosbag2_bagfile_information:" ::
  str "  relative_file_paths:" ::
  str "    - bag_0.mcap" ::
  str "  topics_with_message_count:" ::
  str "    - topic_metadata:" ::
  str "        name: /points" ::
  str "        type: sensor_msgs/msg/PointCloud2" ::
  str "    - topic_metadata:" ::
  str "        name: /imu" ::
  str "        type: sensor_msgs/msg/Imu" ::
  str "  files:" ::
  str "    - path: bag_0.mcap" :: nil :: nil.
Definition meta_lines_out : list (list Z) :=
  str "rosbag2_bagfile_information:" ::
  str "  relative_file_paths:" ::
  str "    - bag_0_encoded.mcap" ::
  str "  topics_with_message_count:" ::
  str "    - topic_metadata:" ::
  str "        name: /points" ::
  str "        type: point_cloud_interfaces/msg/CompressedPointCloud2" ::
  str "    - topic_metadata:" ::
  str "        name: /imu" ::
  str "        type: sensor_msgs/msg/Imu" ::
  str "  files:" ::
  str "    - path: bag_0_encoded.mcap" :: nil :: nil.
Definition one_lineb (l : list Z) : bool := negb (existsb (Z.eqb 10) l).
Lemma one_lineb_ok l : one_lineb l = true -> one_line l.
Proof. unfold one_lineb. intros H I. apply Bool.negb_true_iff in H. assert (existsb (Z.eqb 10) l = true) by (apply existsb_exists; exists 10; split; [assumption|reflexivity]). congruence. Qed.
Lemma one_lines_ok ls : forallb one_lineb ls = true -> Forall one_line ls.
Proof. intros H. apply Forall_forall. intros l I. apply one_lineb_ok. rewrite forallb_forall in H. now apply H. Qed.
Example C69_case : generateMetadataYaml (text_of meta_lines) (str "bag_0_encoded.mcap") true = Ok (text_of meta_lines_out) /\
  Forall one_line meta_lines /\ one_line (str "bag_0_encoded.mcap").
Proof. split; [vm_compute; reflexivity|]. split; [apply one_lines_ok; vm_compute; reflexivity|apply one_lineb_ok; vm_compute; reflexivity]. Qed.
(** The conditions of [C69_back] hold of it. *)
Definition line_ok (T T' n0 n1 l : list Z) : bool :=
  match find T' l, find n1 l with
  | None, None =>
      match find T l with
      | Some _ => match find n0 l, find n0 (subst_of T T' l) with None, None => true | _, _ => false end
      | None => match find T' (subst_of n0 n1 l) with None => true | _ => false end
      end
  | _, _ => false
  end.
Lemma line_ok_spec T T' n0 n1 l : T <> nil -> n0 <> nil -> line_ok T T' n0 n1 l = true ->
  ~ occurs T' l /\ ~ occurs n1 l /\
     (occurs T l -> ~ occurs n0 l /\ forall m, substituted T T' l m -> ~ occurs n0 m) /\
     (~ occurs T l -> forall m, substituted n0 n1 l m -> ~ occurs T' m).
Proof.
  unfold line_ok. intros NT N0. destruct (find T' l) eqn:E1; [discriminate|]. destruct (find n1 l) eqn:E2; [discriminate|]. intros H.
  split; [now apply find_none|]. split; [now apply find_none|]. destruct (find T l) eqn:E3.
  - destruct (find n0 l) eqn:E4; [discriminate|]. destruct (find n0 (subst_of T T' l)) eqn:E5; [discriminate|]. split.
    + intros _. split; [now apply find_none|]. intros m Hm. rewrite (substituted_unique _ _ _ _ _ Hm (subst_of_spec _ _ _ NT)). now apply find_none.
    + intros N. destruct N. destruct (find_some _ _ _ E3) as (a & b & E & _). exists a, b. exact E.
  - destruct (find T' (subst_of n0 n1 l)) eqn:E4; [discriminate|]. split; [intros N; destruct (find_none _ _ E3 N)|]. intros _ m Hm. rewrite (substituted_unique _ _ _ _ _ Hm (subst_of_spec _ _ _ N0)). now apply find_none.
Qed.
Example C69_back_case : generateMetadataYaml (text_of meta_lines_out) (str "bag_0.mcap") false = Ok (text_of meta_lines).
Proof.
  apply (C69_back meta_lines (str "bag_0.mcap") (str "bag_0_encoded.mcap")).
  - apply one_lines_ok; vm_compute; reflexivity.
  - apply one_lineb_ok; vm_compute; reflexivity.
  - apply one_lineb_ok; vm_compute; reflexivity.
  - discriminate.
  - discriminate.
  - apply unbordered_dec; vm_compute; reflexivity.
  - intros typed H. rewrite (substituted_unique _ _ _ _ _ H (subst_of_spec (str "type: " ++ pointcloud_schema_name) (str "type: " ++ compressed_schema_name) (text_of meta_lines) ltac:(discriminate))). apply listed_some. vm_compute. reflexivity.
  - intros ren H. rewrite (substituted_unique _ _ _ _ _ H (subst_of_spec (str "bag_0.mcap") (str "bag_0_encoded.mcap") (text_of meta_lines) ltac:(discriminate))). apply listed_some. vm_compute. reflexivity.
  - intros l I. apply line_ok_spec; [discriminate|discriminate|]. revert l I. apply forallb_forall. vm_compute. reflexivity.
  - exact (proj1 C69_case).
Qed.

(** What users may not expect, shown by cases.  A type that merely begins with the point cloud type
    is rewritten too. *)
Theorem C69_longer_type_refuted : ~ (forall l new l' listed, ~ (exists pre, l = pre ++ str "type: " ++ pointcloud_schema_name) ->
  (forall name, listed = Some name -> ~ occurs name l) -> line_change true listed new l l' -> l' = l).
Proof.
  intros H. specialize (H (str "type: sensor_msgs/msg/PointCloud2Array") nil (str "type: point_cloud_interfaces/msg/CompressedPointCloud2Array") None).
  assert (E : str "type: point_cloud_interfaces/msg/CompressedPointCloud2Array" = str "type: sensor_msgs/msg/PointCloud2Array"); [|vm_compute in E; discriminate E]. apply H; [|discriminate|].
  - intros (pre & E). apply (f_equal (fun l => hd 0 (rev l))) in E. rewrite app_assoc, rev_app_distr in E. vm_compute in E. discriminate E.
  - exists (str "type: point_cloud_interfaces/msg/CompressedPointCloud2Array"). split; [|reflexivity]. set (r := str "type: point_cloud_interfaces/msg/CompressedPointCloud2Array"). replace r with (subst_of (str "type: " ++ old_type true) (str "type: " ++ new_type true) (str "type: sensor_msgs/msg/PointCloud2Array")) by (vm_compute; reflexivity). apply subst_of_spec. discriminate.
Qed.
(** A bag whose list of files is written on one line ("[]", empty) has the first list item found further
    down taken for the file name, and a whole unrelated entry replaced. *)
Theorem C69_empty_list_refuted : exists ls new out,
  In (str "  relative_file_paths: []") ls /\ In (str "    - topic_metadata:") ls /\
  generateMetadataYaml (text_of ls) new true = Ok out /\ ~ occurs (str "topic_metadata:") out.
Proof.
  exists (str "  relative_file_paths: []" :: str "  topics_with_message_count:" :: str "    - topic_metadata:" :: str "        name: /imu" :: nil), (str "x.mcap"), (text_of (str "  relative_file_paths: []" :: str "  topics_with_message_count:" :: str "    - x.mcap" :: str "        name: /imu" :: nil)).
  split; [now left|]. split; [right; right; now left|]. split; [vm_compute; reflexivity|]. apply find_none. vm_compute. reflexivity.
Qed.
(** The file name is replaced wherever its letters occur: a file called "a" spoils the whole text. *)
Theorem C69_short_name_refuted : exists ls new out,
  In (str "  name: /camera") ls /\ generateMetadataYaml (text_of ls) new true = Ok out /\ ~ occurs (str "/camera") out.
Proof.
  exists (str "relative_file_paths:" :: str "  - a" :: str "  name: /camera" :: nil), (str "b.mcap"), (text_of (str "relb.mcaptive_file_pb.mcapths:" :: str "  - b.mcap" :: str "  nb.mcapme: /cb.mcapmerb.mcap" :: nil)).
  split; [right; right; now left|]. split; [vm_compute; reflexivity|]. apply find_none. vm_compute. reflexivity.
Qed.

Print Assumptions C69_text.
Print Assumptions C69_lines.
Print Assumptions C69_untouched.
Print Assumptions C69_all_retyped.
Print Assumptions C69_back.
Print Assumptions C69_type_line.
Print Assumptions C69_named_line.
Print Assumptions C69_case.
Print Assumptions C69_back_case.
Print Assumptions C69_longer_type_refuted.
Print Assumptions C69_empty_list_refuted.
Print Assumptions C69_short_name_refuted.
