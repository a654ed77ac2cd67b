(** C55: profile texts given to the converter. *)
From Verif Require Import Base BaseFacts Types RosViz Header Mcap PropsMcap PropsViz.
From Coq Require Import String.
Open Scope Z_scope.
Open Scope list_scope.

(** * Specification: a profile text is a list of entries [name : value], separated by semicolons,
    with any white space around names and values. *)
Record entry := mkEntry { e_w1 : list Z; e_name : list Z; e_w2 : list Z; e_w3 : list Z; e_value : list Z; e_w4 : list Z }.
Definition blank (l : list Z) : Prop := Forall (fun c => isspace c = true) l.
(** no separator in it, and it neither begins nor ends with a space *)
Definition plain (l : list Z) : Prop := Forall (fun c => c <> 58 /\ c <> 59) l /\ isspace (hd 0 l) = false /\ isspace (last l 0) = false.
Definition entry_ok (e : entry) : Prop := blank (e_w1 e) /\ blank (e_w2 e) /\ blank (e_w3 e) /\ blank (e_w4 e) /\ plain (e_name e) /\ plain (e_value e).
Definition entry_text (e : entry) : list Z := e_w1 e ++ e_name e ++ e_w2 e ++ str ":" ++ e_w3 e ++ e_value e ++ e_w4 e.
Fixpoint profile_text (l : list entry) : list Z :=
  match l with [] => [] | [e] => entry_text e | e :: l' => entry_text e ++ str ";" ++ profile_text l' end.
Section Spec.
  Variable stof : list Z -> option Z.
  Definition value_of (v : list Z) : option Z := if list_eq_dec Z.eq_dec v (str "remove") then Some 0 else stof v.
  (** the fields an entry is about: "xyz" stands for the three coordinates *)
  Definition about (e : entry) (f : list Z) : bool :=
    if list_eq_dec Z.eq_dec (e_name e) (str "xyz") then leqb f (str "x") || leqb f (str "y") || leqb f (str "z") else leqb f (e_name e).
  (** the resolution a field ends up with: that of the last entry about it *)
  Definition final (start : option Z) (l : list entry) (f : list Z) : option Z :=
    fold_left (fun acc e => if about e f then value_of (e_value e) else acc) l start.
End Spec.

Lemma split_none d l : Forall (fun c => c <> d) l -> split_on d l = [l].
Proof. induction l as [|x l IH]; [reflexivity|]. intros H. inversion H as [|? ? H1 H2]; subst. cbn [split_on]. replace (x =? d) with false by lia. now rewrite IH. Qed.
Lemma split_sep d a b : Forall (fun c => c <> d) a -> split_on d (a ++ d :: b) = a :: split_on d b.
Proof. induction a as [|x a IH]; cbn [app split_on]; intros H; [now rewrite Z.eqb_refl|]. inversion H as [|? ? H1 H2]; subst. replace (x =? d) with false by lia. now rewrite IH. Qed.
Lemma drop_blank w l : blank w -> drop_spaces (w ++ l) = drop_spaces l.
Proof. induction w as [|x w IH]; [reflexivity|]. intros H. inversion H as [|? ? H1 H2]; subst. cbn [app drop_spaces]. rewrite H1. auto. Qed.
Lemma drop_plain l r : l <> [] -> isspace (hd 0 l) = false -> drop_spaces (l ++ r) = l ++ r.
Proof. destruct l as [|x l]; [congruence|]. cbn [hd app drop_spaces]. intros _ ->. reflexivity. Qed.
Lemma blank_rev w : blank w -> blank (rev w).
Proof. intros H. apply Forall_rev. exact H. Qed.
Lemma trim_entry w1 l w2 : blank w1 -> blank w2 -> isspace (hd 0 l) = false -> isspace (last l 0) = false -> trimSpaces (w1 ++ l ++ w2) = l.
Proof.
  intros H1 H2 H3 H4. unfold trimSpaces. rewrite drop_blank by exact H1. destruct (list_eq_dec Z.eq_dec l []) as [->|NE].
  - cbn [app]. replace w2 with (w2 ++ []) by apply app_nil_r. rewrite drop_blank by exact H2. reflexivity.
  - rewrite drop_plain by assumption. rewrite rev_app_distr, drop_blank by (now apply blank_rev). rewrite <- (app_nil_r (rev l)), drop_plain; [now rewrite app_nil_r, rev_involutive| |].
    + intros HE. apply NE. rewrite <- (rev_involutive l), HE. reflexivity.
    + destruct (exists_last NE) as (l' & x & ->). rewrite last_last in H4. rewrite rev_app_distr. exact H4.
Qed.
Lemma blank_nosep d w : (d = 58 \/ d = 59) -> blank w -> Forall (fun c => c <> d) w.
Proof. intros Hd H. eapply Forall_impl; [|exact H]. intros c Hc. cbn beta in *. unfold isspace in Hc. lia. Qed.
Lemma plain_nosep d l : (d = 58 \/ d = 59) -> plain l -> Forall (fun c => c <> d) l.
Proof. intros Hd [H _]. eapply Forall_impl; [|exact H]. cbn beta. intros c [A B]. lia. Qed.
Lemma entry_no_semicolon e : entry_ok e -> Forall (fun c => c <> 59) (entry_text e).
Proof.
  intros (H1 & H2 & H3 & H4 & H5 & H6). unfold entry_text. repeat (apply Forall_app; split); try (solve [apply blank_nosep; auto]); try (solve [apply plain_nosep; auto]). constructor; [discriminate|constructor].
Qed.
Lemma split_text l : l <> [] -> Forall entry_ok l -> split_on 59 (profile_text l) = map entry_text l.
Proof.
  induction l as [|e l IH]; [congruence|]. intros _ H. inversion H as [|? ? H1 H2]; subst. destruct l as [|e' l].
  - cbn [profile_text map]. apply split_none. now apply entry_no_semicolon.
  - change (profile_text (e :: e' :: l)) with (entry_text e ++ 59 :: profile_text (e' :: l)). rewrite split_sep by (now apply entry_no_semicolon). rewrite IH by (congruence || assumption). reflexivity.
Qed.
Lemma split_entry e : entry_ok e -> split_on 58 (entry_text e) = [e_w1 e ++ e_name e ++ e_w2 e; e_w3 e ++ e_value e ++ e_w4 e].
Proof.
  intros (H1 & H2 & H3 & H4 & H5 & H6).
  replace (entry_text e) with ((e_w1 e ++ e_name e ++ e_w2 e) ++ 58 :: (e_w3 e ++ e_value e ++ e_w4 e)) by (unfold entry_text; rewrite <- !app_assoc; reflexivity).
  rewrite split_sep; [rewrite split_none; [reflexivity|]|]; repeat (apply Forall_app; split); try (solve [apply blank_nosep; auto]); apply plain_nosep; auto.
Qed.
Lemma pset_find p k r f : profile_find (pset p k r) f = if leqb f k then Some r else profile_find p f.
Proof.
  induction p as [|[a b] p IH]; cbn [pset profile_find].
  - unfold leqb. destruct (list_eq_dec Z.eq_dec k f), (list_eq_dec Z.eq_dec f k); congruence || reflexivity.
  - unfold leqb in *. destruct (list_eq_dec Z.eq_dec a k) as [->|Hak]; cbn [profile_find].
    + destruct (list_eq_dec Z.eq_dec k f), (list_eq_dec Z.eq_dec f k); congruence || reflexivity.
    + rewrite IH. destruct (list_eq_dec Z.eq_dec a f) as [->|]; [|reflexivity]. destruct (list_eq_dec Z.eq_dec f k); congruence || reflexivity.
Qed.
Lemma pset_keys p k r : NoDup (map fst p) -> NoDup (map fst (pset p k r)).
Proof.
  assert (G : forall p, map fst (pset p k r) = map fst p \/ (~ In k (map fst p) /\ map fst (pset p k r) = map fst p ++ [k])).
  { clear p. induction p as [|[a b] p [IH|[IH1 IH2]]]; cbn [pset map fst]; [right; auto| |].
    - unfold leqb. destruct (list_eq_dec Z.eq_dec a k); left; cbn [map fst]; congruence.
    - unfold leqb. destruct (list_eq_dec Z.eq_dec a k) as [->|Ha]; [left; reflexivity|right]. cbn [map fst]. split; [intros [A|A]; auto|]. rewrite IH2. reflexivity. }
  intros H. destruct (G p) as [->|[HN ->]]; [exact H|]. clear G. induction (map fst p) as [|a l IH]; cbn [app]; [constructor; [intros []|constructor]|]. inversion H as [|? ? H1 H2]; subst. constructor; [|apply IH; [exact H2|intros A; apply HN; now right]].
  intros A. apply in_app_or in A. destruct A as [A|[A|[]]]; [contradiction|]. apply HN. now left.
Qed.

(** Every field gets the resolution of the last entry about it (0 for "remove"); other fields keep
    what an earlier profile said. *)
Theorem C55_profile_text stof p l : l <> [] -> Forall entry_ok l -> Forall (fun e => value_of stof (e_value e) <> None) l -> NoDup (map fst p) ->
  exists p', addProfile stof p (profile_text l) = Ok p' /\ NoDup (map fst p') /\ forall f, profile_find p' f = final stof (profile_find p f) l f.
Proof.
  intros NE HO HV HN. unfold addProfile. rewrite split_text by assumption. clear NE. revert p HN. induction l as [|e l IH]; intros p HN; cbn [map add_tokens].
  - exists p. split; [reflexivity|]. split; [exact HN|]. reflexivity.
  - inversion HO as [|? ? O1 O2]; subst. inversion HV as [|? ? V1 V2]; subst. unfold add_token. rewrite split_entry by exact O1. destruct O1 as (H1 & H2 & H3 & H4 & [_ [H5 H6]] & [_ [H7 H8]]). rewrite !trim_entry by assumption. cbv zeta.
    assert (HR : exists r, value_of stof (e_value e) = Some r) by (destruct (value_of stof (e_value e)); [eauto|congruence]). destruct HR as (r & HR).
    assert (EV : (if leqb (e_value e) (str "remove") then Ok 0 else match stof (e_value e) with Some r => Ok r | None => Throw end) = Ok r).
    { unfold value_of in HR. unfold leqb. destruct (list_eq_dec Z.eq_dec (e_value e) (str "remove")); [congruence|]. rewrite HR. reflexivity. }
    rewrite EV. cbn [bind]. set (p1 := if leqb (e_name e) (str "xyz") then _ else _).
    assert (N1 : NoDup (map fst p1)) by (clear EV; unfold p1; destruct (leqb _ _); repeat apply pset_keys; exact HN).
    destruct (IH O2 V2 p1 N1) as (p' & E & N & F). exists p'. split; [exact E|]. split; [exact N|]. intros f. rewrite F. unfold final. cbn [fold_left]. f_equal.
    unfold p1, about. rewrite HR. unfold leqb at 1. destruct (list_eq_dec Z.eq_dec (e_name e) (str "xyz")); rewrite !pset_find; [|reflexivity].
    destruct (leqb f (str "z")); [now rewrite !orb_true_r|]. destruct (leqb f (str "y")); [now rewrite orb_true_r|]. destruct (leqb f (str "x")); reflexivity.
Qed.
(** One bad entry (not [name : value], or a value that is no number) and the text is refused. *)
Fixpoint joined (l : list (list Z)) : list Z := match l with [] => [] | [t] => t | t :: l' => t ++ str ";" ++ joined l' end.
Lemma split_joined l : l <> [] -> Forall (fun t => Forall (fun c => c <> 59) t) l -> split_on 59 (joined l) = l.
Proof.
  induction l as [|t l IH]; [congruence|]. intros _ H. inversion H as [|? ? H1 H2]; subst. destruct l as [|u l]; [cbn [joined]; now apply split_none|].
  change (joined (t :: u :: l)) with (t ++ 59 :: joined (u :: l)). rewrite split_sep by exact H1. rewrite IH by (congruence || assumption). reflexivity.
Qed.
Definition bad_token (stof : list Z -> option Z) (t : list Z) : Prop :=
  List.length (split_on 58 t) <> 2%nat \/ exists a b, Forall (fun c => c <> 58) a /\ Forall (fun c => c <> 58) b /\ t = a ++ str ":" ++ b /\ value_of stof (trimSpaces b) = None.
Theorem C55_bad_entry stof p before t after : Forall (fun t => Forall (fun c => c <> 59) t) (before ++ t :: after) -> bad_token stof t ->
  addProfile stof p (joined (before ++ t :: after)) = Throw.
Proof.
  intros HF HB. unfold addProfile. rewrite split_joined; [|intros HE; destruct before; discriminate|exact HF]. clear HF. revert p. induction before as [|u before IH]; intros p; cbn [app add_tokens].
  - assert (E : add_token stof p t = Throw); [|now rewrite E]. unfold add_token. destruct HB as [HB|(a & b & HA & HB1 & -> & HV)].
    + destruct (split_on 58 t) as [|a [|b [|c l]]]; try reflexivity. now elim HB.
    + change (a ++ str ":" ++ b) with (a ++ 58 :: b). rewrite split_sep, split_none by assumption. cbv zeta. unfold value_of in HV. unfold leqb at 1. destruct (list_eq_dec Z.eq_dec (trimSpaces b) (str "remove")); [discriminate|]. rewrite HV. reflexivity.
  - unfold add_token. destruct (split_on 58 u) as [|a [|b [|c l]]]; try reflexivity. cbv zeta. destruct (leqb (trimSpaces b) (str "remove")); cbn [bind]; [apply IH|]. destruct (stof (trimSpaces b)); cbn [bind]; [apply IH|reflexivity].
Qed.
(** *** Cases and limits *)
Definition one (v : list Z) : option Z := if list_eq_dec Z.eq_dec v (str "0.001") then Some 981668463 else if list_eq_dec Z.eq_dec v (str "0.1") then Some 1036831949 else None.
Definition example_entries : list entry :=
  [mkEntry [] (str "xyz") [] [] (str "0.001") []; mkEntry [32] (str "intensity") [] [] (str "0.1") []; mkEntry [32] (str "timestamp") [] [] (str "remove") []; mkEntry [32] (str "z") [] [32] (str "0.1") []].
Lemma example_entries_ok : Forall entry_ok example_entries.
Proof. repeat (constructor; [repeat split; repeat constructor; vm_compute; congruence|]). constructor. Qed.
Example C55_case : Forall entry_ok example_entries /\ profile_text example_entries = str "xyz:0.001; intensity:0.1; timestamp:remove; z: 0.1" /\
  addProfile one [] (profile_text example_entries) = Ok [(str "x", 981668463); (str "y", 981668463); (str "z", 1036831949); (str "intensity", 1036831949); (str "timestamp", 0)].
Proof. split; [exact example_entries_ok|]. split; vm_compute; reflexivity. Qed.
(** A semicolon at the end is a (bad) empty entry. *)
Theorem C55_trailing_semicolon_refuted : addProfile one [] (str "xyz:0.001;") = Throw.
Proof. vm_compute. reflexivity. Qed.
(** The same profile given as a file is cut at its first space, and then refused. *)
Theorem C55_profile_file_refuted : exists text p, addProfile one [] text = Ok p /\ addProfile one [] (profile_from_file text) = Throw.
Proof. exists (str "xyz:0.001; intensity:0.1"). eexists. split; vm_compute; reflexivity. Qed.
Print Assumptions C55_profile_text.
Print Assumptions C55_bad_entry.
Print Assumptions C55_trailing_semicolon_refuted.
Print Assumptions C55_profile_file_refuted.
