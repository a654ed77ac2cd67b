(** C70 (the bag converter keeps the original bag), C71 (the cutter and the PCD converter). *)
From Verif Require Import Base BaseFacts Types Header Mcap FileSys Tools.
From Coq Require Import String Lia.
Open Scope Z_scope.
Open Scope list_scope.
Notation length := List.length.

(** * Specification *)
Definition good_name (c : name) : Prop := c <> nil /\ c <> dot /\ c <> dotdot.
(** A file system as a kernel keeps it: the root and the current directory are there, everything is in a
    directory that is there, nothing is both file and directory, names are names. *)
Definition wf_fs (fs : fsys) : Prop :=
  In nil (fs_dirs fs) /\ In (fs_cwd fs) (fs_dirs fs) /\
  (forall d c, In (d ++ c :: nil) (fs_dirs fs) \/ In (d ++ c :: nil) (fs_files fs) -> In d (fs_dirs fs)) /\
  (forall n, In n (fs_dirs fs) -> ~ In n (fs_files fs)) /\
  (forall n c, In n (fs_dirs fs) \/ In n (fs_files fs) -> In c n -> good_name c).
Definition is_there (fs : fsys) (n : node) : Prop := In n (fs_dirs fs) \/ In n (fs_files fs).
(** No ".." among the directories of a path. *)
Definition no_up (p : path) : Prop := ~ In dotdot (removelast (p_comps p)).
(** The directory of the bag given as input: the directory itself, or that of the given .mcap when a
    metadata.yaml is beside it. *)
Definition bag_dir (fs : fsys) (input : path) (D : node) : Prop :=
  (resolve fs input = Some D /\ In D (fs_dirs fs)) \/
  ((forall n, resolve fs input = Some n -> ~ In n (fs_dirs fs)) /\ resolve_parent fs input = Some D /\ is_there fs (D ++ meta_name :: nil)).

(** * Facts *)
Lemma leqb_spec a b : leqb a b = true <-> a = b.
Proof. unfold leqb. destruct (list_eq_dec Z.eq_dec a b); split; congruence. Qed.
Lemma leqb_false a b : leqb a b = false <-> a <> b.
Proof. unfold leqb. destruct (list_eq_dec Z.eq_dec a b); split; congruence. Qed.
Lemma node_eqb_spec a b : node_eqb a b = true <-> a = b.
Proof. unfold node_eqb. destruct (list_eq_dec (list_eq_dec Z.eq_dec) a b); split; congruence. Qed.
Lemma mem_spec n l : mem n l = true <-> In n l.
Proof. unfold mem. rewrite existsb_exists. split; [intros (x & I & E); apply node_eqb_spec in E; now subst|intros I; exists n; split; [assumption|now apply node_eqb_spec]]. Qed.
Lemma is_dir_spec fs n : is_dir fs n = true <-> In n (fs_dirs fs).
Proof. apply mem_spec. Qed.
Lemma is_node_spec fs n : is_node fs n = true <-> is_there fs n.
Proof. unfold is_node, is_there. now rewrite Bool.orb_true_iff, !mem_spec. Qed.
Lemma nonempty_spec c : nonempty c = true <-> c <> nil.
Proof. destruct c; cbn; split; congruence. Qed.

Definition plain (c : name) : bool := nonempty c && negb (leqb c dot).
Lemma walk_none fs cs : fold_left (step fs) cs None = None.
Proof. induction cs; [reflexivity|assumption]. Qed.
Lemma walk_lex fs cs d n : ~ In dotdot cs -> fold_left (step fs) cs (Some d) = Some n -> n = d ++ filter plain cs.
Proof.
  revert d. induction cs as [|c cs IH]; intros d N H; cbn [fold_left filter] in *; [rewrite app_nil_r; congruence|].
  assert (Nc : c <> dotdot) by (intros E; apply N; now left). assert (N' : ~ In dotdot cs) by (intros I; apply N; now right).
  unfold step in H at 2. destruct (is_dir fs d); [|rewrite walk_none in H; discriminate]. unfold plain at 1.
  destruct (nonempty c) eqn:E1; cbn [negb orb andb] in *; [|now apply IH].
  destruct (leqb c dot) eqn:E2; cbn [negb] in *; [now apply IH|]. destruct (leqb c dotdot) eqn:E3; [apply leqb_spec in E3; contradiction|].
  destruct (is_node fs (d ++ c :: nil)); [|rewrite walk_none in H; discriminate]. rewrite (IH _ N' H). now rewrite <- app_assoc.
Qed.
Lemma prefix_dir fs d e : wf_fs fs -> In (d ++ e) (fs_dirs fs) -> In d (fs_dirs fs).
Proof.
  intros (_ & _ & P & _). revert d. induction e as [|c e IH] using rev_ind; intros d H; [now rewrite app_nil_r in H|]. rewrite app_assoc in H. apply IH. apply (P (d ++ e) c). now left.
Qed.
Lemma walk_there fs cs d : wf_fs fs -> ~ In dotdot cs -> In (d ++ filter plain cs) (fs_dirs fs) -> fold_left (step fs) cs (Some d) = Some (d ++ filter plain cs).
Proof.
  intros W. revert d. induction cs as [|c cs IH]; intros d N H; cbn [fold_left filter] in *; [now rewrite app_nil_r|].
  assert (Nc : c <> dotdot) by (intros E; apply N; now left). assert (N' : ~ In dotdot cs) by (intros I; apply N; now right).
  pose proof (prefix_dir _ _ _ W H) as Hd. unfold step at 2. apply is_dir_spec in Hd. rewrite Hd. assert (Ep : plain c = nonempty c && negb (leqb c dot)) by reflexivity. rewrite Ep in *. clear Ep.
  destruct (nonempty c) eqn:E1; cbn [negb orb andb] in *; [|now apply IH].
  destruct (leqb c dot) eqn:E2; cbn [negb] in *; [now apply IH|]. destruct (leqb c dotdot) eqn:E3; [apply leqb_spec in E3; contradiction|].
  assert (K : d ++ c :: filter plain cs = (d ++ c :: nil) ++ filter plain cs) by now rewrite <- app_assoc. rewrite K in *.
  pose proof (prefix_dir _ _ _ W H) as Hc. assert (is_node fs (d ++ c :: nil) = true) as -> by (apply is_node_spec; now left). now apply IH.
Qed.

(** Nothing is removed; the current directory stays. *)
Definition grows (fs fs' : fsys) : Prop := incl (fs_dirs fs) (fs_dirs fs') /\ incl (fs_files fs) (fs_files fs') /\ fs_cwd fs' = fs_cwd fs.
Lemma grows_refl fs : grows fs fs. Proof. split; [apply incl_refl|]. split; [apply incl_refl|reflexivity]. Qed.
Lemma grows_trans a b c : grows a b -> grows b c -> grows a c.
Proof. intros (A & B & C) (D & E & F). split; [eapply incl_tran; eauto|]. split; [eapply incl_tran; eauto|congruence]. Qed.
Definition no_writes (es : list effect) : Prop := forall n, ~ In (Wrote n) es.
Lemma create_directory_grows fs p fs' es : create_directory fs p = Ok (fs', es) -> grows fs fs' /\ no_writes es.
Proof.
  unfold create_directory. destruct (resolve_parent fs p) as [d|]; [|discriminate]. destruct (is_dir fs d); [|discriminate]. destruct (is_dir fs (d ++ last (p_comps p) nil :: nil)).
  - intros E. assert (fs' = fs /\ es = nil) as (-> & ->) by (split; congruence). split; [apply grows_refl|intros n I; contradiction].
  - destruct (is_node fs (d ++ last (p_comps p) nil :: nil)); [discriminate|]. intros E. assert (fs' = add_dir fs (d ++ last (p_comps p) nil :: nil) /\ es = Mkdir (d ++ last (p_comps p) nil :: nil) :: nil) as (-> & ->) by (split; congruence). split.
    + split; [intros x I; now right|]. split; [apply incl_refl|reflexivity].
    + intros n [I|I]; [discriminate|contradiction].
Qed.
Lemma create_all_grows ps fs fs' es : create_all fs ps = Ok (fs', es) -> grows fs fs' /\ no_writes es.
Proof.
  revert fs fs' es. induction ps as [|p ps IH]; intros fs fs' es H; cbn [create_all] in H.
  - assert (fs' = fs /\ es = nil) as (-> & ->) by (split; congruence). split; [apply grows_refl|intros n I; contradiction].
  - destruct (create_directory fs p) as [[f1 e1]| |] eqn:E1; try discriminate. cbn [bind fst snd] in H. destruct (create_all f1 ps) as [[f2 e2]| |] eqn:E2; try discriminate. cbn [bind fst snd] in H.
    assert (fs' = f2 /\ es = e1 ++ e2) as (-> & ->) by (split; congruence). destruct (create_directory_grows _ _ _ _ E1) as (G1 & N1). destruct (IH _ _ _ E2) as (G2 & N2). split; [eapply grows_trans; eauto|]. intros n I. apply in_app_or in I. destruct I as [I|I]; [exact (N1 n I)|exact (N2 n I)].
Qed.
Lemma create_directories_grows fs p fs' es : create_directories fs p = Ok (fs', es) -> grows fs fs' /\ no_writes es.
Proof.
  unfold create_directories. destruct (p_empty p); [discriminate|]. destruct (resolve fs p) as [n|].
  - destruct (is_dir fs n); [|discriminate]. intros E. assert (fs' = fs /\ es = nil) as (-> & ->) by (split; congruence). split; [apply grows_refl|intros k I; contradiction].
  - destruct (missing _ _ _ _) as [ps| |]; try discriminate. cbn [bind]. apply create_all_grows.
Qed.
Lemma open_write_node fs p n : open_write fs p = Some n ->
  exists d, resolve_parent fs p = Some d /\ In d (fs_dirs fs) /\ n = d ++ filename p :: nil /\ good_name (filename p) /\ ~ In n (fs_dirs fs).
Proof.
  unfold open_write, filename. destruct (resolve_parent fs p) as [d|]; [|discriminate]. destruct (is_dir fs d) eqn:E1; [|discriminate]. destruct (nonempty (last (p_comps p) nil)) eqn:E2; [|discriminate]. destruct (leqb _ dot) eqn:E3; [discriminate|]. destruct (leqb _ dotdot) eqn:E4; [discriminate|]. destruct (is_dir fs (d ++ _)) eqn:E5; [discriminate|]. cbn. intros E. assert (n = d ++ last (p_comps p) nil :: nil) as -> by congruence.
  exists d. split; [reflexivity|]. split; [now apply is_dir_spec|]. split; [reflexivity|]. split.
  - split; [now apply nonempty_spec|]. split; now apply leqb_false.
  - intros I. apply is_dir_spec in I. congruence.
Qed.
Lemma resolve_last fs p : p_comps p <> nil -> resolve fs p = step fs (resolve_parent fs p) (filename p).
Proof.
  intros N. unfold resolve, resolve_parent, filename. replace (p_empty p) with false by (unfold p_empty; destruct (p_abs p); [reflexivity|destruct (p_comps p); [contradiction|reflexivity]]). rewrite (@app_removelast_last name (p_comps p) nil N) at 1. now rewrite fold_left_app.
Qed.
Lemma app_last_inj (a b : node) (x y : name) : a ++ x :: nil = b ++ y :: nil -> a = b /\ x = y.
Proof. apply app_inj_tail. Qed.
Lemma removelast_snoc {A} (l : list A) x : removelast (l ++ x :: nil) = l.
Proof. rewrite removelast_app by discriminate. cbn. apply app_nil_r. Qed.
Lemma last_snoc {A} (l : list A) x d : last (l ++ x :: nil) d = x.
Proof. induction l as [|a l IH]; [reflexivity|]. cbn [app last]. destruct (l ++ x :: nil) eqn:E; [destruct l; discriminate|exact IH]. Qed.
(** Where join leads. *)
Lemma join_parent fs p c : filter plain (removelast (p_comps (join p c))) = filter plain (p_comps p) /\ start fs (join p c) = start fs p /\ filename (join p c) = c /\ p_comps (join p c) <> nil /\
  (forall x, In x (removelast (p_comps (join p c))) -> In x (p_comps p)).
Proof.
  destruct p as [ab cs]. unfold join, start, filename. cbn [p_comps p_abs]. destruct cs as [|c0 cs]; cbn [p_comps p_abs].
  - cbn. repeat split; try discriminate; auto.
  - remember (c0 :: cs) as l eqn:El. assert (Nl : l <> nil) by (subst; discriminate). clear El. rewrite removelast_snoc, last_snoc. destruct (nonempty (last l nil)) eqn:E.
    + repeat split; auto. destruct l; discriminate.
    + split; [|split; [reflexivity|split; [reflexivity|split; [destruct (removelast l); discriminate|]]]].
      * transitivity (filter plain (removelast l ++ last l nil :: nil)); [|apply f_equal; symmetry; exact (@app_removelast_last name l nil Nl)]. rewrite filter_app. cbn [filter]. assert (Ep : plain (last l nil) = false) by (unfold plain; now rewrite E). rewrite Ep. now rewrite app_nil_r.
      * intros x I. rewrite (@app_removelast_last name l nil Nl). apply in_or_app. now left.
Qed.
Lemma join_resolve fs p c d : fold_left (step fs) (p_comps p) (Some (start fs p)) = Some d -> In d (fs_dirs fs) -> resolve_parent fs (join p c) = Some d.
Proof.
  destruct p as [ab cs]. unfold resolve_parent, join, start. cbn [p_comps p_abs]. destruct cs as [|c0 cs]; cbn [p_comps p_abs]; [auto|]. remember (c0 :: cs) as l eqn:El. assert (Nl : l <> nil) by (subst; discriminate). clear El. intros H Hd. rewrite removelast_snoc. destruct (nonempty (last l nil)) eqn:E; [exact H|].
  rewrite (@app_removelast_last name l nil Nl), fold_left_app in H. cbn [fold_left] in H. destruct (fold_left _ (removelast l) _) as [e|]; [|discriminate]. unfold step in H. rewrite E in H. cbn [negb orb] in H. destruct (is_dir fs e); [assumption|discriminate].
Qed.
Lemma walk_is_there fs cs d n : wf_fs fs -> is_there fs d -> fold_left (step fs) cs (Some d) = Some n -> is_there fs n.
Proof.
  intros W. revert d. induction cs as [|c cs IH]; intros d Hd H; cbn [fold_left] in H; [assert (n = d) as -> by congruence; assumption|].
  unfold step in H at 2. destruct (is_dir fs d) eqn:E; [|rewrite walk_none in H; discriminate]. apply is_dir_spec in E.
  destruct (negb (nonempty c) || leqb c dot); [exact (IH _ Hd H)|]. destruct (leqb c dotdot).
  - apply (IH (removelast d)); [left|exact H]. destruct d as [|x d]; [exact E|]. rewrite (@app_removelast_last name (x :: d) nil ltac:(discriminate)) in E. exact (prefix_dir _ _ _ W E).
  - destruct (is_node fs (d ++ c :: nil)) eqn:E2; [|rewrite walk_none in H; discriminate]. apply is_node_spec in E2. exact (IH _ E2 H).
Qed.
Lemma start_there fs p : wf_fs fs -> In (start fs p) (fs_dirs fs).
Proof. intros (W1 & W2 & _). unfold start. destruct (p_abs p); assumption. Qed.
Lemma plain_good c : good_name c -> plain c = true.
Proof. intros (A & B & C). unfold plain. rewrite (proj2 (nonempty_spec c) A), (proj2 (leqb_false c dot) B). reflexivity. Qed.
Lemma filter_good cs : (forall c, In c cs -> good_name c) -> filter plain cs = cs.
Proof. induction cs as [|c cs IH]; intros H; [reflexivity|]. cbn [filter]. rewrite (plain_good c (H c (or_introl eq_refl))). f_equal. apply IH. intros x I. apply H. now right. Qed.
Lemma good_node fs n c : wf_fs fs -> is_there fs n -> In c n -> good_name c.
Proof. intros (_ & _ & _ & _ & G) H. now apply G. Qed.

Definition out_dir (fs : fsys) (out : path) : path := if p_empty (parent_path out) then current_path fs else parent_path out.
Lemma out_dir_resolve fs fs' out d : wf_fs fs -> grows fs fs' -> no_up out -> resolve_parent fs' out = Some d -> In d (fs_dirs fs) ->
  resolve fs (out_dir fs out) = Some d.
Proof.
  intros W (_ & _ & Gc) N H Hd. unfold resolve_parent in H. pose proof (walk_lex _ _ _ _ N H) as E.
  assert (Es : start fs' out = start fs out) by (unfold start; now rewrite Gc). rewrite Es in E. unfold out_dir. destruct (p_empty (parent_path out)) eqn:Ee.
  - unfold p_empty, parent_path in Ee. cbn [p_abs p_comps] in Ee. destruct (p_abs out) eqn:Ea; [discriminate|]. destruct (removelast (p_comps out)) as [|x l] eqn:Er; [|discriminate].
    cbn [filter] in E. rewrite app_nil_r in E. unfold start in E. rewrite Ea in E. subst d. unfold resolve, current_path. cbn [p_empty p_abs p_comps]. change (start fs (mkPath true (fs_cwd fs))) with (@nil name).
    assert (G : forall c, In c (fs_cwd fs) -> good_name c) by (intros c I; apply (good_node fs (fs_cwd fs)); [assumption|now left|assumption]).
    pose proof (walk_there fs (fs_cwd fs) nil W) as K; rewrite (filter_good _ G) in K; apply K; [intros I; destruct (G _ I) as (_ & _ & K'); now apply K'|exact Hd].
  - unfold resolve. rewrite Ee. unfold parent_path. cbn [p_comps]. replace (start fs (mkPath (p_abs out) (removelast (p_comps out)))) with (start fs out) by reflexivity. rewrite (walk_there fs _ _ W N); rewrite <- E; [reflexivity|assumption].
Qed.
Lemma canonical_parent fs m D q : resolve_parent fs m = Some D -> canonical fs (parent_path m) = Ok q -> q = mkPath true D.
Proof.
  unfold canonical, resolve. destruct (p_empty (parent_path m)); [discriminate|]. change (fold_left (step fs) (p_comps (parent_path m)) (Some (start fs (parent_path m)))) with (resolve_parent fs m). intros ->. congruence.
Qed.
Lemma safe_dir fs fs' m out d D : wf_fs fs -> grows fs fs' -> no_up out -> In D (fs_dirs fs) ->
  resolve_parent fs m = Some D -> bag_safe fs (Some m) out = Ok true -> resolve_parent fs' out = Some d -> d <> D.
Proof.
  intros W G N HD Hm Hs Hd E. subst d. pose proof (out_dir_resolve _ _ _ _ W G N Hd HD) as Hr. unfold bag_safe in Hs. fold (out_dir fs out) in Hs.
  destruct (canonical fs (parent_path m)) as [q| |] eqn:Ec; try discriminate. pose proof (canonical_parent _ _ _ _ Hm Ec) as ->. cbn [bind] in Hs. unfold exists_, canonical in Hs. rewrite Hr in Hs. cbn [bind] in Hs.
  unfold path_eqb in Hs. cbn [p_abs p_comps Bool.eqb] in Hs. rewrite (proj2 (node_eqb_spec D D) eq_refl) in Hs. discriminate.
Qed.
Lemma bag_input_meta fs input D mcap meta : wf_fs fs -> bag_dir fs input D -> bag_input fs input = Ok (mcap, meta) ->
  exists m, meta = Some m /\ resolve_parent fs m = Some D /\ In D (fs_dirs fs).
Proof.
  intros W HB H. unfold bag_input in H. destruct HB as [(Hr & HD)|(Nd & Hp & Hm)].
  - unfold is_directory in H. rewrite Hr, (proj2 (is_dir_spec fs D) HD) in H. destruct (exists_ fs (join input meta_name)); [|discriminate]. cbn [negb] in H.
    destruct (filter _ (entries fs D)) as [|n [|n2 l]]; try discriminate. assert (meta = Some (join input meta_name)) as -> by congruence. exists (join input meta_name). split; [reflexivity|]. split; [|assumption].
    apply join_resolve; [|assumption]. unfold resolve in Hr. destruct (p_empty input); [discriminate|exact Hr].
  - assert (Ed : is_directory fs input = false).
    { unfold is_directory. destruct (resolve fs input) as [n|]; [|reflexivity]. destruct (is_dir fs n) eqn:E; [|reflexivity]. apply is_dir_spec in E. destruct (Nd n eq_refl E). }
    rewrite Ed in H. destruct (leqb (extension (filename input)) mcap_ext); [|discriminate].
    assert (HD : In D (fs_dirs fs)) by (destruct W as (_ & _ & P & _); exact (P D meta_name Hm)).
    assert (Hj : resolve_parent fs (join (parent_path input) meta_name) = Some D) by (apply join_resolve; [exact Hp|assumption]).
    assert (Hx : exists_ fs (join (parent_path input) meta_name) = true).
    { unfold exists_. destruct (join_parent fs (parent_path input) meta_name) as (_ & _ & Ef & Nn & _). rewrite (resolve_last fs _ Nn), Hj, Ef. unfold step. rewrite (proj2 (is_dir_spec fs D) HD). change (negb (nonempty meta_name) || leqb meta_name dot) with false. change (leqb meta_name dotdot) with false. now rewrite (proj2 (is_node_spec fs _) Hm). }
    rewrite Hx in H. assert (meta = Some (join (parent_path input) meta_name)) as -> by congruence. exists (join (parent_path input) meta_name). auto.
Qed.
Lemma add_text_dir p t : removelast (p_comps (add_text p t)) = removelast (p_comps p).
Proof. unfold add_text. destruct (p_comps p) as [|c cs]; [reflexivity|]. cbn [p_comps]. apply removelast_snoc. Qed.
Lemma join_filename p c : filename (join p c) = c.
Proof. destruct p as [ab [|c0 cs]]; [reflexivity|]. unfold join, filename. cbn [p_comps]. now rewrite last_snoc. Qed.
Lemma join_in p c x : In x (p_comps (join p c)) -> In x (p_comps p) \/ x = c.
Proof.
  destruct (join_parent (mkFs nil nil nil) p c) as (_ & _ & Ef & Nn & Hin). intros I. rewrite (@app_removelast_last name _ nil Nn) in I. apply in_app_or in I. destruct I as [I|[I|[]]]; [left; now apply Hin|right]. unfold filename in Ef. congruence.
Qed.
Lemma removelast_in {A} (l : list A) x : In x (removelast l) -> In x l.
Proof. destruct l as [|a l]; [auto|]. intros I. rewrite (@app_removelast_last A (a :: l) a ltac:(discriminate)). apply in_or_app. now left. Qed.
Lemma suffix_not_dots n enc : n ++ suffix enc <> dotdot.
Proof. intros E. apply (f_equal (fun l => last l 0)) in E. destruct enc; unfold suffix in E. 1: change (str "_encoded") with (str "_encode" ++ 100 :: nil) in E. 2: change (str "_decoded") with (str "_decode" ++ 100 :: nil) in E. all: rewrite app_assoc, last_snoc in E; discriminate. Qed.
Lemma bag_output_no_up fs o mcap meta out : wf_fs fs -> (forall p, b_output o = Some p -> no_up p) -> bag_output fs o mcap meta = Ok out -> no_up out.
Proof.
  intros W HN H. unfold bag_output in H.
  match type of H with bind ?a _ = _ => destruct a as [p| |] eqn:E; try discriminate end. cbn [bind] in H.
  assert (Np : no_up p).
  { destruct (b_output o) as [p0|] eqn:Eo; [apply HN; congruence|]. destruct meta as [m|].
    - destruct (canonical fs (parent_path m)) as [q| |] eqn:Ec; try discriminate. cbn [bind] in E. unfold canonical in Ec. destruct (resolve fs (parent_path m)) as [D|] eqn:Er; [|discriminate]. assert (q = mkPath true D) as -> by congruence.
      unfold resolve in Er. destruct (p_empty (parent_path m)); [discriminate|]. pose proof (walk_is_there _ _ _ _ W (or_introl (start_there fs (parent_path m) W)) Er) as HD.
      assert (p = join (join (parent_path (mkPath true D)) (filename (mkPath true D) ++ suffix (b_encode o))) (stem (filename mcap) ++ suffix (b_encode o) ++ mcap_ext)) as -> by congruence. clear E.
      unfold no_up. intros I. destruct (join_parent fs (join (parent_path (mkPath true D)) (filename (mkPath true D) ++ suffix (b_encode o))) (stem (filename mcap) ++ suffix (b_encode o) ++ mcap_ext)) as (_ & _ & _ & _ & Hin). apply Hin in I. apply join_in in I. destruct I as [I|I].
      + cbn [parent_path p_comps] in I. apply removelast_in in I. destruct (good_node fs D _ W HD I) as (_ & _ & K). now apply K.
      + symmetry in I. now apply suffix_not_dots in I.
    - assert (p = mkPath false ((stem (filename mcap) ++ suffix (b_encode o) ++ mcap_ext) :: nil)) as -> by congruence. intros []. }
  destruct (leqb (extension (filename p)) mcap_ext); assert (E2 : out = p \/ out = add_text p mcap_ext) by (first [left; congruence|right; congruence]); destruct E2 as [-> | ->]; try assumption; unfold no_up; rewrite add_text_dir; exact Np.
Qed.
Lemma bag_main_writes o answer oc fs n : In (Wrote n) (snd (bag_main o answer oc fs)) ->
  exists mcap meta out fs1 n0, bag_input fs (b_input o) = Ok (mcap, meta) /\ bag_output fs o mcap meta = Ok out /\
    bag_safe fs meta out = Ok true /\ grows fs fs1 /\
    (exists_ fs1 out = false \/ b_yes o = true \/ answer = true) /\
    open_write fs1 out = Some n0 /\ (oc = ConvFailed \/ oc = Converted) /\
    (n = n0 \/ (oc = Converted /\ (exists m, meta = Some m) /\ open_write (add_file fs1 n0) (join (out_dir fs1 out) meta_name) = Some n)).
Proof.
  unfold bag_main. destruct (p_empty (b_input o)); [intros []|]. destruct (b_encode o && b_decode o); [intros []|]. destruct (negb (b_encode o) && negb (b_decode o)); [intros []|]. destruct (b_viz o && negb (b_encode o)); [intros []|].
  destruct (bag_input fs (b_input o)) as [[mcap meta]| |] eqn:E1; [|intros []|intros []]. destruct (bag_output fs o mcap meta) as [out| |] eqn:E2; [|intros []|intros []]. destruct (bag_safe fs meta out) as [[|]| |] eqn:E3; [|intros []|intros []|intros []].
  match goal with |- context [match ?a with Ok _ => _ | Throw => _ | UB => _ end] => destruct a as [[fs1 es]| |] eqn:E; [|intros []|intros []] end.
  assert (G : grows fs fs1 /\ no_writes es).
  { destruct (negb (p_empty (parent_path out)) && negb (exists_ fs (parent_path out))); [exact (create_directories_grows _ _ _ _ E)|]. assert (fs1 = fs /\ es = nil) as (-> & ->) by (split; congruence). split; [apply grows_refl|intros k I; contradiction]. }
  destruct G as (G & NW). unfold before. cbn [fst snd]. intros I. apply in_app_or in I. destruct I as [I|I]; [destruct (NW n I)|].
  destruct (b_decode o && b_profile o); [destruct I|]. destruct (exists_ fs1 out && negb (b_yes o) && negb answer) eqn:Ex; [destruct I|].
  assert (Hx : exists_ fs1 out = false \/ b_yes o = true \/ answer = true) by (destruct (exists_ fs1 out), (b_yes o), answer; cbn in Ex; auto; discriminate).
  destruct (negb (b_method_ok o)); [destruct I|]. exists mcap, meta, out, fs1. unfold bag_convert in I. destruct oc; try (destruct I; fail).
  - destruct (open_write fs1 out) as [n0|] eqn:Eo; [|destruct I]. exists n0. destruct I as [I|[]]. assert (n = n0) by congruence. split; [reflexivity|]. split; [exact E2|]. split; [exact E3|]. split; [exact G|]. split; [exact Hx|]. split; [reflexivity|]. split; [now left|]. now left.
  - destruct (open_write fs1 out) as [n0|] eqn:Eo; [|destruct I]. exists n0. destruct meta as [m|].
    + fold (out_dir fs1 out) in I. destruct (open_write (add_file fs1 n0) (join (out_dir fs1 out) meta_name)) as [k|] eqn:Ek.
      * assert (K : n = n0 \/ n = k) by (destruct I as [I|[I|[]]]; [left; congruence|right; congruence]). split; [reflexivity|]. split; [exact E2|]. split; [exact E3|]. split; [exact G|]. split; [exact Hx|]. split; [reflexivity|]. split; [now right|]. destruct K as [-> | ->]; [now left|right]. split; [reflexivity|]. split; [now exists m|]. first [exact Ek|reflexivity].
      * destruct I as [I|[]]. assert (n = n0) by congruence. split; [reflexivity|]. split; [exact E2|]. split; [exact E3|]. split; [exact G|]. split; [exact Hx|]. split; [reflexivity|]. split; [now right|]. now left.
    + destruct I as [I|[]]. assert (n = n0) by congruence. split; [reflexivity|]. split; [exact E2|]. split; [exact E3|]. split; [exact G|]. split; [exact Hx|]. split; [reflexivity|]. split; [now right|]. now left.
Qed.
Lemma out_dir_grows fs fs' out : grows fs fs' -> out_dir fs' out = out_dir fs out.
Proof. intros (_ & _ & C). unfold out_dir, current_path. now rewrite C. Qed.
Lemma resolve_parent_grows_file fs n p : resolve_parent (add_file fs n) p = resolve_parent (add_file fs n) p. Proof. reflexivity. Qed.
Lemma meta_dir fs fs' out d : wf_fs fs -> grows fs fs' -> no_up out -> resolve_parent fs' (join (out_dir fs out) meta_name) = Some d ->
  In d (fs_dirs fs) -> resolve fs (out_dir fs out) = Some d.
Proof.
  intros W G N H Hd. destruct (join_parent fs' (out_dir fs out) meta_name) as (E1 & E2 & _ & _ & Hin).
  assert (No : ~ In dotdot (p_comps (out_dir fs out))).
  { unfold out_dir. destruct (p_empty (parent_path out)); [|exact N]. cbn [current_path p_comps]. intros I. assert (Hc : is_there fs (fs_cwd fs)) by (left; apply W). destruct (good_node fs _ _ W Hc I) as (_ & _ & K). now apply K. }
  unfold resolve_parent in H. rewrite E2 in H. apply walk_lex in H; [|intros I; exact (No (Hin _ I))]. rewrite E1 in H.
  assert (Es : start fs' (out_dir fs out) = start fs (out_dir fs out)) by (unfold start; destruct G as (_ & _ & ->); reflexivity). rewrite Es in H.
  unfold resolve. replace (p_empty (out_dir fs out)) with false by (unfold out_dir; destruct (p_empty (parent_path out)) eqn:Ep; [reflexivity|now rewrite Ep]).
  rewrite (walk_there fs _ _ W No); rewrite <- H; [reflexivity|assumption].
Qed.
Lemma safe_out_dir fs m out D : resolve_parent fs m = Some D -> bag_safe fs (Some m) out = Ok true -> resolve fs (out_dir fs out) <> Some D.
Proof.
  intros Hm Hs Hr. unfold bag_safe in Hs. fold (out_dir fs out) in Hs.
  destruct (canonical fs (parent_path m)) as [q| |] eqn:Ec; try discriminate. pose proof (canonical_parent _ _ _ _ Hm Ec) as ->. cbn [bind] in Hs. unfold exists_, canonical in Hs. rewrite Hr in Hs. cbn [bind] in Hs.
  unfold path_eqb in Hs. cbn [p_abs p_comps Bool.eqb] in Hs. rewrite (proj2 (node_eqb_spec D D) eq_refl) in Hs. discriminate.
Qed.

(** * C70: no file of the input bag is written, when the output argument does not climb with ".." *)
Theorem C70_bag_kept o answer oc fs D c :
  wf_fs fs -> bag_dir fs (b_input o) D -> (forall p, b_output o = Some p -> no_up p) ->
  ~ In (Wrote (D ++ c :: nil)) (snd (bag_main o answer oc fs)).
Proof.
  intros W HB HN I. destruct (bag_main_writes _ _ _ _ _ I) as (mcap & meta & out & fs1 & n0 & H1 & H2 & H3 & G & _ & H5 & _ & H7).
  destruct (bag_input_meta _ _ _ _ _ W HB H1) as (m & -> & Hm & HD). pose proof (bag_output_no_up _ _ _ _ _ W HN H2) as Nu.
  destruct H7 as [<-|(_ & _ & H7)].
  - destruct (open_write_node _ _ _ H5) as (d & Hd & _ & E & _). apply app_last_inj in E. destruct E as (<- & _). exact (safe_dir _ _ _ _ _ _ W G Nu HD Hm H3 Hd eq_refl).
  - destruct (open_write_node _ _ _ H7) as (d & Hd & _ & E & _). apply app_last_inj in E. destruct E as (<- & _). rewrite (out_dir_grows _ _ _ G) in Hd.
    assert (G' : grows fs (add_file fs1 n0)) by (apply (grows_trans _ fs1); [assumption|]; split; [apply incl_refl|]; split; [intros x Hx; now right|reflexivity]).
    apply (safe_out_dir _ _ _ _ Hm H3). exact (meta_dir _ _ _ _ W G' Nu Hd HD).
Qed.
(** In particular neither its metadata.yaml nor the recording itself. *)
Corollary C70_metadata_kept o answer oc fs D : wf_fs fs -> bag_dir fs (b_input o) D -> (forall p, b_output o = Some p -> no_up p) ->
  ~ In (Wrote (D ++ meta_name :: nil)) (snd (bag_main o answer oc fs)).
Proof. now apply C70_bag_kept. Qed.
Lemma stem_ext n e : extension n = e -> e <> nil -> n = stem n ++ e.
Proof. unfold extension, stem. destruct (dot_at n) as [k|]; [|congruence]. intros <- _. symmetry. apply firstn_skipn. Qed.
Lemma ext_last_comp p : extension (filename p) <> nil -> p_comps p <> nil.
Proof. intros H E. apply H. unfold filename. rewrite E. reflexivity. Qed.
Lemma dot_at_some n k : dot_at n = Some k -> (0 < k)%nat /\ last_dot n = Some k.
Proof. unfold dot_at. destruct (leqb n dotdot); [discriminate|]. destruct (last_dot n) as [[|j]|]; [discriminate| |discriminate]. intros H. assert (k = S j) as -> by congruence. split; [lia|reflexivity]. Qed.
Lemma ext_good n : extension n <> nil -> good_name n.
Proof.
  unfold extension. intros H. destruct (dot_at n) as [k|] eqn:E; [|congruence]. split; [intros ->; discriminate E|]. split; [intros ->; discriminate E|intros ->; discriminate E].
Qed.
Lemma resolve_file fs p M : extension (filename p) <> nil -> resolve fs p = Some M -> exists d, M = d ++ filename p :: nil.
Proof.
  intros Hx H. destruct (ext_good _ Hx) as (G1 & G2 & G3). rewrite (resolve_last fs p (ext_last_comp _ Hx)) in H. destruct (resolve_parent fs p) as [d|]; [|discriminate]. unfold step in H. destruct (is_dir fs d); [|discriminate].
  rewrite (proj2 (nonempty_spec _) G1), (proj2 (leqb_false _ _) G2), (proj2 (leqb_false _ _) G3) in H. cbn [negb orb] in H. destruct (is_node fs (d ++ filename p :: nil)); [|discriminate]. exists d. congruence.
Qed.
(** Without -o, a recording given by name is never overwritten, whether or not it is in a bag. *)
Theorem C70_default_kept o answer oc fs M :
  wf_fs fs -> b_output o = None -> resolve fs (b_input o) = Some M -> ~ In M (fs_dirs fs) ->
  ~ In (Wrote M) (snd (bag_main o answer oc fs)).
Proof.
  intros W Eo HM Nd I. destruct (bag_main_writes _ _ _ _ _ I) as (mcap & meta & out & fs1 & n0 & H1 & H2 & H3 & G & _ & H5 & _ & H7).
  unfold bag_input in H1. unfold is_directory in H1. rewrite HM in H1. destruct (is_dir fs M) eqn:Ed; [apply is_dir_spec in Ed; contradiction|].
  destruct (leqb (extension (filename (b_input o))) mcap_ext) eqn:Ex; [|discriminate]. apply leqb_spec in Ex.
  assert (Hx : extension (filename (b_input o)) <> nil) by (rewrite Ex; discriminate). destruct (resolve_file _ _ _ Hx HM) as (d & Ed2).
  destruct (exists_ fs (join (parent_path (b_input o)) meta_name)) eqn:Em.
  - (* a bag *) subst M. apply (C70_bag_kept o answer oc fs d (filename (b_input o)) W); [|congruence|exact I]. right. split; [intros n E K; apply Nd; congruence|].
    assert (Hp : resolve_parent fs (b_input o) = Some d).
    { pose proof HM as HM'. rewrite (resolve_last fs _ (ext_last_comp _ Hx)) in HM'. destruct (resolve_parent fs (b_input o)) as [d'|]; [|discriminate]. unfold step in HM'. destruct (is_dir fs d'); [|discriminate]. destruct (ext_good _ Hx) as (G1 & G2 & G3). rewrite (proj2 (nonempty_spec _) G1), (proj2 (leqb_false _ _) G2), (proj2 (leqb_false _ _) G3) in HM'. cbn [negb orb] in HM'. destruct (is_node fs (d' ++ filename (b_input o) :: nil)); [|discriminate]. f_equal. assert (E : d' ++ filename (b_input o) :: nil = d ++ filename (b_input o) :: nil) by congruence. now apply app_last_inj in E. }
    split; [exact Hp|]. assert (Hd : In d (fs_dirs fs)).
    { destruct W as (W1 & W2 & P & W4). assert (W : wf_fs fs) by (split; [assumption|split; [assumption|split; assumption]]). apply (P d (filename (b_input o))). unfold resolve in HM. destruct (p_empty (b_input o)); [discriminate|]. exact (walk_is_there _ _ _ _ W (or_introl (start_there fs _ W)) HM). }
    unfold exists_ in Em. destruct (join_parent fs (parent_path (b_input o)) meta_name) as (_ & _ & Ef & Nn & _). rewrite (resolve_last fs _ Nn), Ef in Em. assert (Hj : resolve_parent fs (join (parent_path (b_input o)) meta_name) = Some d) by (apply join_resolve; assumption). rewrite Hj in Em. unfold step in Em. rewrite (proj2 (is_dir_spec fs d) Hd) in Em. change (negb (nonempty meta_name) || leqb meta_name dot) with false in Em. change (leqb meta_name dotdot) with false in Em. apply is_node_spec. now destruct (is_node fs (d ++ meta_name :: nil)).
  - assert (meta = None /\ mcap = b_input o) as (-> & ->) by (split; congruence). destruct H7 as [<-|(_ & (m & E) & _)]; [|discriminate].
    destruct (open_write_node _ _ _ H5) as (e & _ & _ & E & _). rewrite Ed2 in E. apply app_last_inj in E. destruct E as (_ & E). unfold bag_output in H2. rewrite Eo in H2. cbn [bind] in H2.
    assert (K : filename out = filename (mkPath false ((stem (filename (b_input o)) ++ suffix (b_encode o) ++ mcap_ext) :: nil)) \/ filename out = filename (add_text (mkPath false ((stem (filename (b_input o)) ++ suffix (b_encode o) ++ mcap_ext) :: nil)) mcap_ext)).
    { match type of H2 with Ok (if ?b then _ else _) = _ => destruct b end; [left|right]; congruence. }
    rewrite <- E in K. cbn [filename add_text p_comps last removelast app] in K. rewrite (stem_ext _ _ Ex ltac:(discriminate)) in K at 1 3. 
    apply (f_equal (@List.length Z)) in E. destruct K as [K|K]; apply (f_equal (@List.length Z)) in K; rewrite !app_length in K; destruct (b_encode o); unfold suffix in K; change (length (str "_encoded")) with 8%nat in K || change (length (str "_decoded")) with 8%nat in K; lia.
Qed.
(** Consent: a file that was there is written only after -y or a "y" to the question, except for the
    metadata.yaml beside the output. *)
Lemma is_there_grows fs fs' n : grows fs fs' -> is_there fs n -> is_there fs' n.
Proof. intros (A & B & _) [I|I]; [left; now apply A|right; now apply B]. Qed.
Lemma open_exists fs p n : open_write fs p = Some n -> is_there fs n -> exists_ fs p = true.
Proof.
  intros H I. destruct (open_write_node _ _ _ H) as (d & Hd & HD & -> & (G1 & G2 & G3) & _). unfold exists_.
  assert (Nn : p_comps p <> nil) by (intros E; apply G1; unfold filename; now rewrite E).
  rewrite (resolve_last fs p Nn), Hd. unfold step. rewrite (proj2 (is_dir_spec fs d) HD), (proj2 (nonempty_spec _) G1), (proj2 (leqb_false _ _) G2), (proj2 (leqb_false _ _) G3). cbn [negb orb]. now rewrite (proj2 (is_node_spec fs _) I).
Qed.
Theorem C70_consent o answer oc fs n :
  In (Wrote n) (snd (bag_main o answer oc fs)) -> is_there fs n ->
  b_yes o = true \/ answer = true \/ (exists d, n = d ++ meta_name :: nil).
Proof.
  intros I T. destruct (bag_main_writes _ _ _ _ _ I) as (mcap & meta & out & fs1 & n0 & _ & _ & _ & G & H4 & H5 & _ & H7).
  destruct H7 as [<-|(_ & _ & H7)].
  - rewrite (open_exists _ _ _ H5 (is_there_grows _ _ _ G T)) in H4. destruct H4 as [H|[H|H]]; [discriminate|now left|right; now left].
  - right. right. destruct (open_write_node _ _ _ H7) as (d & _ & _ & E & _). exists d. now rewrite join_filename in E.
Qed.
(** A run writes at most two files, in one directory: one whose name ends in .mcap, and metadata.yaml, the latter
    only when the input is a bag and was converted. *)
Lemma ends_mcap p : exists x, filename (if leqb (extension (filename p)) mcap_ext then p else add_text p mcap_ext) = x ++ mcap_ext.
Proof.
  destruct (leqb (extension (filename p)) mcap_ext) eqn:E.
  - apply leqb_spec in E. exists (stem (filename p)). apply stem_ext; [assumption|discriminate].
  - unfold add_text, filename. destruct (p_comps p) as [|c cs] eqn:Ec; [exists nil; reflexivity|]. exists (last (c :: cs) nil). cbn [p_comps]. now rewrite last_snoc.
Qed.
Lemma join_resolve_inv fs p c d : resolve_parent fs (join p c) = Some d -> In d (fs_dirs fs) -> fold_left (step fs) (p_comps p) (Some (start fs p)) = Some d.
Proof.
  destruct p as [ab cs]. unfold resolve_parent, join, start. cbn [p_comps p_abs]. destruct cs as [|c0 cs]; cbn [p_comps p_abs]; [auto|]. remember (c0 :: cs) as l eqn:El. assert (Nl : l <> nil) by (subst; discriminate). clear El. intros H Hd. rewrite removelast_snoc in H. destruct (nonempty (last l nil)) eqn:E; [exact H|].
  rewrite (@app_removelast_last name l nil Nl), fold_left_app, H. cbn [fold_left step]. rewrite (proj2 (is_dir_spec fs d) Hd), E. reflexivity.
Qed.
Theorem C70_where o answer oc fs :
  wf_fs fs -> (forall p, b_output o = Some p -> no_up p) ->
  exists d x, forall n, In (Wrote n) (snd (bag_main o answer oc fs)) ->
    n = d ++ (x ++ mcap_ext) :: nil \/
    (n = d ++ meta_name :: nil /\ oc = Converted /\ exists D, bag_dir fs (b_input o) D).
Proof.
  intros W HN. destruct (bag_input fs (b_input o)) as [[mcap meta]| |] eqn:E1; [|exists nil, nil; intros n I; destruct (bag_main_writes _ _ _ _ _ I) as (a & b & c & e & f & K & _); congruence..].
  destruct (bag_output fs o mcap meta) as [out| |] eqn:E2; [|exists nil, nil; intros n I; destruct (bag_main_writes _ _ _ _ _ I) as (a & b & c & e & f & K & K2 & _); rewrite E1 in K; assert (a = mcap /\ b = meta) as (-> & ->) by (split; congruence); congruence..].
  pose proof (bag_output_no_up _ _ _ _ _ W HN E2) as Nu.
  assert (Ex : exists x, filename out = x ++ mcap_ext).
  { unfold bag_output in E2. match type of E2 with bind ?a _ = _ => destruct a as [p| |]; try discriminate end. cbn [bind] in E2. destruct (ends_mcap p) as (x & Hx). exists x. rewrite <- Hx. congruence. }
  destruct Ex as (x & Hx). exists (start fs out ++ filter plain (removelast (p_comps out))), x. intros n I.
  destruct (bag_main_writes _ _ _ _ _ I) as (mcap' & meta' & out' & fs1 & n0 & K1 & K2 & _ & G & _ & H5 & _ & H7).
  rewrite E1 in K1. assert (mcap' = mcap /\ meta' = meta) as (-> & ->) by (split; congruence). rewrite E2 in K2. assert (out' = out) as -> by congruence.
  pose proof G as (_ & _ & Gc). destruct H7 as [-> |(Hc & (m & ->) & H7)].
  - left. destruct (open_write_node _ _ _ H5) as (d & Hd & _ & -> & _). rewrite Hx. f_equal. apply walk_lex in Hd; [|exact Nu]. rewrite Hd. unfold start. now rewrite Gc.
  - right. split; [|split; [exact Hc|]].
    + destruct (open_write_node _ _ _ H7) as (d & Hd & _ & -> & _). rewrite join_filename. f_equal. rewrite (out_dir_grows _ _ _ G) in Hd. destruct (join_parent (add_file fs1 n0) (out_dir fs out) meta_name) as (J1 & J2 & _ & _ & Hin).
      assert (No : ~ In dotdot (p_comps (out_dir fs out))).
      { unfold out_dir. destruct (p_empty (parent_path out)); [|exact Nu]. cbn [current_path p_comps]. intros K. assert (Ht : is_there fs (fs_cwd fs)) by (left; apply W). destruct (good_node fs _ _ W Ht K) as (_ & _ & K'). now apply K'. }
      apply walk_lex in Hd; [|intros K; exact (No (Hin _ K))]. rewrite J1, J2 in Hd. rewrite Hd. unfold out_dir. destruct (p_empty (parent_path out)) eqn:Ep.
      * unfold p_empty, parent_path in Ep. cbn [p_abs p_comps] in Ep. destruct (p_abs out) eqn:Ea; [discriminate|]. destruct (removelast (p_comps out)); [|discriminate]. unfold start. rewrite Ea. cbn [current_path p_abs p_comps app filter]. rewrite app_nil_r. apply filter_good. intros c Ic. apply (good_node fs (fs_cwd fs)); [assumption|left; apply W|assumption].
      * unfold start. cbn [parent_path p_abs p_comps add_file fs_cwd]. now rewrite Gc.
    + unfold bag_input in E1. destruct (is_directory fs (b_input o)) eqn:Ei.
      * unfold is_directory in Ei. destruct (resolve fs (b_input o)) as [D|] eqn:Er; [|discriminate]. exists D. left. split; [exact Er|now apply is_dir_spec].
      * destruct (leqb (extension (filename (b_input o))) mcap_ext); [|discriminate]. destruct (exists_ fs (join (parent_path (b_input o)) meta_name)) eqn:Em; [|discriminate].
        unfold exists_ in Em. destruct (join_parent fs (parent_path (b_input o)) meta_name) as (_ & _ & Ef & Nn & _). rewrite (resolve_last fs _ Nn), Ef in Em. destruct (resolve_parent fs (join (parent_path (b_input o)) meta_name)) as [D'|] eqn:Ej; [|discriminate]. exists D'. right. split; [intros k Ek K; unfold is_directory in Ei; rewrite Ek in Ei; apply is_dir_spec in K; congruence|].
        unfold step in Em. destruct (is_dir fs D') eqn:Ed'; [|discriminate]. split.
        -- apply is_dir_spec in Ed'. exact (join_resolve_inv _ _ _ _ Ej Ed').
        -- change (negb (nonempty meta_name) || leqb meta_name dot) with false in Em. change (leqb meta_name dotdot) with false in Em. apply is_node_spec. now destruct (is_node fs (D' ++ meta_name :: nil)).
Qed.

(** A run that converts does write the output: nothing is silently skipped. *)
Theorem C70_exit_zero o answer fs : fst (bag_main o answer Converted fs) = Exit 0 -> 
  (exists n, In (Wrote n) (snd (bag_main o answer Converted fs))) \/ (b_yes o = false /\ answer = false).
Proof.
  unfold bag_main. destruct (p_empty (b_input o)); [discriminate|]. destruct (b_encode o && b_decode o); [discriminate|]. destruct (negb (b_encode o) && negb (b_decode o)); [discriminate|]. destruct (b_viz o && negb (b_encode o)); [discriminate|].
  destruct (bag_input fs (b_input o)) as [[mcap meta]| |]; [|discriminate|discriminate]. destruct (bag_output fs o mcap meta) as [out| |]; [|discriminate|discriminate]. destruct (bag_safe fs meta out) as [[|]| |]; [|discriminate|discriminate|discriminate].
  match goal with |- context [match ?a with Ok _ => _ | Throw => _ | UB => _ end] => destruct a as [[fs1 es]| |]; [|discriminate|discriminate] end.
  unfold before. cbn [fst snd]. destruct (b_decode o && b_profile o); [discriminate|]. destruct (exists_ fs1 out && negb (b_yes o) && negb answer) eqn:Ex.
  - intros _. right. destruct (exists_ fs1 out), (b_yes o), answer; cbn in Ex; try discriminate; auto.
  - destruct (negb (b_method_ok o)); [discriminate|]. unfold bag_convert. destruct (open_write fs1 out) as [n0|]; [|discriminate]. intros _. left. exists n0. apply in_or_app. right. destruct meta as [m|]; [|now left]. match goal with |- context [match ?a with Some _ => _ | None => _ end] => destruct a end; now left.
Qed.

(** * Cases *)
Definition u (s : string) : path := path_of (str s).
Definition bag_fs : fsys := mkFs (nil :: (str "w" :: nil) :: (str "w" :: str "bag" :: nil) :: nil)
  ((str "w" :: str "bag" :: str "bag_0.mcap" :: nil) :: (str "w" :: str "bag" :: str "metadata.yaml" :: nil) :: (str "w" :: str "a.mcap" :: nil) :: nil) (str "w" :: nil).
Definition wfb (fs : fsys) : bool :=
  mem nil (fs_dirs fs) && mem (fs_cwd fs) (fs_dirs fs) &&
  forallb (fun n => match n with nil => true | _ => mem (removelast n) (fs_dirs fs) end) (fs_dirs fs ++ fs_files fs) &&
  forallb (fun n => negb (mem n (fs_files fs))) (fs_dirs fs) &&
  forallb (forallb (fun c => nonempty c && negb (leqb c dot) && negb (leqb c dotdot))) (fs_dirs fs ++ fs_files fs).
Lemma wfb_ok fs : wfb fs = true -> wf_fs fs.
Proof.
  unfold wfb. rewrite !Bool.andb_true_iff, !forallb_forall. intros ((((H1 & H2) & H3) & H4) & H5). split; [now apply mem_spec|]. split; [now apply mem_spec|]. split; [|split].
  - intros d c H. assert (I : In (d ++ c :: nil) (fs_dirs fs ++ fs_files fs)) by now apply in_or_app. specialize (H3 _ I). destruct (d ++ c :: nil) as [|x l] eqn:E; [destruct d; discriminate|]. rewrite <- E in H3. rewrite removelast_snoc in H3. now apply mem_spec.
  - intros n H K. specialize (H4 n H). apply mem_spec in K. rewrite K in H4. discriminate.
  - intros n c H K. assert (I : In n (fs_dirs fs ++ fs_files fs)) by now apply in_or_app. specialize (H5 _ I). rewrite forallb_forall in H5. specialize (H5 c K). rewrite !Bool.andb_true_iff, !Bool.negb_true_iff in H5. destruct H5 as ((A & B) & C). split; [now apply nonempty_spec|]. split; now apply leqb_false.
Qed.
Definition enc (i : string) (o : option path) (yes : bool) : bag_options := mkBag (u i) o yes true false false false true.
Example C70_case :
  wf_fs bag_fs /\ bag_dir bag_fs (u "bag") (str "w" :: str "bag" :: nil) /\
  bag_main (enc "bag" None false) false Converted bag_fs =
    (Exit 0, Mkdir (str "w" :: str "bag_encoded" :: nil) ::
             Wrote (str "w" :: str "bag_encoded" :: str "bag_0_encoded.mcap" :: nil) ::
             Wrote (str "w" :: str "bag_encoded" :: str "metadata.yaml" :: nil) :: nil) /\
  bag_main (enc "bag/" (Some (u "bag/new.mcap")) true) true Converted bag_fs = (Exit 1, nil) /\
  bag_main (enc "a.mcap" None false) false Converted bag_fs = (Exit 0, Wrote (str "w" :: str "a_encoded.mcap" :: nil) :: nil).
Proof.
  split; [apply wfb_ok; vm_compute; reflexivity|]. split; [left; split; [vm_compute; reflexivity|apply is_dir_spec; vm_compute; reflexivity]|].
  split; [vm_compute; reflexivity|]. split; [vm_compute; reflexivity|vm_compute; reflexivity].
Qed.
(** With ".." in the output the check is circumvented: [-o bag/new/../out.mcap] where bag/new does not exist. The
    original metadata.yaml is overwritten, without a question. *)
Theorem C70_climbing_refuted : exists fs o D, wf_fs fs /\ bag_dir fs (b_input o) D /\ b_yes o = false /\
  In (Wrote (D ++ meta_name :: nil)) (snd (bag_main o false Converted fs)).
Proof.
  exists bag_fs, (enc "bag" (Some (u "bag/new/../out.mcap")) false), (str "w" :: str "bag" :: nil).
  split; [apply wfb_ok; vm_compute; reflexivity|]. split; [left; split; [vm_compute; reflexivity|apply is_dir_spec; vm_compute; reflexivity]|].
  split; [reflexivity|]. vm_compute. right. right. left. reflexivity.
Qed.
(** A lone recording given as its own output is overwritten while it is being read. *)
Theorem C70_same_file_refuted : exists fs o M, wf_fs fs /\ resolve fs (b_input o) = Some M /\
  In (Wrote M) (snd (bag_main o true Converted fs)).
Proof.
  exists bag_fs, (enc "a.mcap" (Some (u "a.mcap")) true), (str "w" :: str "a.mcap" :: nil).
  split; [apply wfb_ok; vm_compute; reflexivity|]. split; [vm_compute; reflexivity|]. vm_compute. left. reflexivity.
Qed.
(** Called from inside the bag's directory on the bare file name, the tool is killed by an uncaught
    exception, whatever the output. *)
Theorem C70_inside_refuted : exists fs input M, wf_fs fs /\ resolve fs input = Some M /\ ~ In M (fs_dirs fs) /\
  forall out yes answer oc, bag_main (mkBag input out yes true false false false true) answer oc fs = (Terminate, nil).
Proof.
  exists (mkFs (fs_dirs bag_fs) (fs_files bag_fs) (str "w" :: str "bag" :: nil)), (u "bag_0.mcap"), (str "w" :: str "bag" :: str "bag_0.mcap" :: nil).
  split; [apply wfb_ok; vm_compute; reflexivity|]. split; [vm_compute; reflexivity|]. split; [intros I; apply mem_spec in I; vm_compute in I; discriminate|].
  intros [p|] yes answer oc; [|vm_compute; reflexivity].
  unfold bag_main. cbn [b_input b_encode b_decode b_viz andb negb b_output b_yes b_profile b_method_ok]. change (p_empty (u "bag_0.mcap")) with false. cbn [negb andb].
  match goal with |- context [bag_input ?f ?i] => set (r := bag_input f i); assert (E : r = Ok (u "bag_0.mcap", Some (mkPath false (meta_name :: nil)))) by (vm_compute; reflexivity); rewrite E; clear r E end.
  unfold bag_output. cbn [b_output bind]. reflexivity.
Qed.

Print Assumptions C70_bag_kept.
Print Assumptions C70_metadata_kept.
Print Assumptions C70_default_kept.
Print Assumptions C70_consent.
Print Assumptions C70_where.
Print Assumptions C70_exit_zero.
Print Assumptions C70_case.
Print Assumptions C70_climbing_refuted.
Print Assumptions C70_same_file_refuted.
Print Assumptions C70_inside_refuted.

(** * C71: the cutter and the PCD converter *)
(** Without -o the cutter never writes its input. *)
Theorem C71_cut_default o oc fs M : c_output o = None -> resolve fs (c_input o) = Some M ->
  ~ In (Wrote M) (snd (cut_main o oc fs)).
Proof.
  intros Eo HM I. unfold cut_main in I. destruct (leqb (extension (filename (c_input o))) mcap_ext) eqn:Ex; [|destruct I]. cbn [negb] in I. apply leqb_spec in Ex.
  assert (Hx : extension (filename (c_input o)) <> nil) by (rewrite Ex; discriminate). destruct (resolve_file _ _ _ Hx HM) as (d & Ed).
  destruct (exists_ fs (c_input o)); [|destruct I]. cbn [negb] in I. rewrite Eo in I.
  set (p := mkPath false ((stem (filename (c_input o)) ++ str "_cut.mcap") :: nil)) in *.
  set (out := if leqb (extension (filename p)) mcap_ext then p else add_text p mcap_ext) in *.
  assert (K : exists t, filename out = stem (filename (c_input o)) ++ t /\ (9 <= length t)%nat).
  { unfold out. destruct (leqb (extension (filename p)) mcap_ext); [exists (str "_cut.mcap")|exists (str "_cut.mcap" ++ mcap_ext)]; (split; [cbn [filename p p_comps last add_text removelast app]; now rewrite ?app_assoc|cbn; lia]). }
  destruct K as (t & Et & Lt). destruct (c_max o <=? 0); [destruct I|].
  assert (W : open_write fs out = Some M) by (destruct oc; [destruct I|destruct I|destruct (open_write fs out) as [n|]; [destruct I as [I|[]]; congruence|destruct I]..]).
  destruct (open_write_node _ _ _ W) as (e & _ & _ & E & _). rewrite Ed in E. apply app_last_inj in E. destruct E as (_ & E). rewrite Et in E.
  apply (f_equal (@List.length Z)) in E. rewrite (stem_ext _ _ Ex ltac:(discriminate)) in E at 1. rewrite !app_length in E. change (length mcap_ext) with 5%nat in E. lia.
Qed.
(** It writes only when there is a recording to read, with topics, and a positive limit; and a single file. *)
Theorem C71_cut_one o oc fs : snd (cut_main o oc fs) = nil \/
  exists n, snd (cut_main o oc fs) = Wrote n :: nil /\ exists_ fs (c_input o) = true /\ 0 < c_max o /\ (oc = CutFailed \/ oc = CutDone) /\ ~ In n (fs_dirs fs).
Proof.
  unfold cut_main. destruct (negb (leqb (extension (filename (c_input o))) mcap_ext)); [now left|]. destruct (exists_ fs (c_input o)); [|now left]. cbn [negb].
  destruct (Z.leb_spec (c_max o) 0) as [|L]; [now left|].
  match goal with |- context [open_write fs ?p] => set (out := p) end.
  destruct oc; try (now left); (destruct (open_write fs out) as [n|] eqn:E; [|now left]); right; exists n; (split; [reflexivity|]); (split; [reflexivity|]); (split; [exact L|]); (split; [auto|]); now destruct (open_write_node _ _ _ E) as (d & _ & _ & _ & _ & K).
Qed.
(** Given its input as output it overwrites it, and never asks. *)
Theorem C71_cut_refuted : exists fs o M, wf_fs fs /\ resolve fs (c_input o) = Some M /\ In (Wrote M) (snd (cut_main o CutDone fs)).
Proof.
  exists bag_fs, (mkCut (u "a.mcap") (Some (u "./a.mcap")) 10), (str "w" :: str "a.mcap" :: nil).
  split; [apply wfb_ok; vm_compute; reflexivity|]. split; [vm_compute; reflexivity|]. vm_compute. left. reflexivity.
Qed.

(** The PCD converter: a .cldn name cannot be a .pcd name. *)
Lemma ends_differ a b : a ++ pcd_ext <> b ++ cldn_ext.
Proof. intros E. apply (f_equal (fun l => hd 0 (rev l))) in E. rewrite !rev_app_distr in E. vm_compute in E. discriminate. Qed.
Lemma cldn_name p : exists x, filename (if leqb (extension (filename p)) cldn_ext then p else replace_extension p cldn_ext) = x ++ cldn_ext.
Proof.
  destruct (leqb (extension (filename p)) cldn_ext) eqn:E.
  - apply leqb_spec in E. exists (stem (filename p)). apply stem_ext; [assumption|discriminate].
  - unfold replace_extension, filename. destruct (p_comps p) as [|c cs] eqn:Ec; [exists nil; reflexivity|]. exists (stem (last (c :: cs) nil)). cbn [p_comps]. now rewrite last_snoc.
Qed.
Lemma convert_file_writes fs yes answer conv i out ok fs' es : convert_file fs yes answer conv i out = (ok, fs', es) ->
  (es = nil /\ fs' = fs /\ ok = false) \/
  exists n, es = Wrote n :: nil /\ fs' = add_file fs n /\ ok = true /\ open_write fs out = Some n /\ conv = true /\ exists_ fs i = true /\ (yes = true \/ answer = true \/ exists_ fs out = false).
Proof.
  unfold convert_file. destruct (exists_ fs i); cbn [negb]; [|intros E; left; repeat split; congruence]. destruct (exists_ fs out && negb yes && negb answer) eqn:Ex; [intros E; left; repeat split; congruence|].
  destruct conv; cbn [negb]; [|intros E; left; repeat split; congruence]. destruct (open_write fs out) as [n|]; intros E; [right; exists n|left; repeat split; congruence].
  assert (K : yes = true \/ answer = true \/ exists_ fs out = false) by (destruct yes, answer, (exists_ fs out); cbn in Ex; auto; discriminate).
  split; [congruence|]. split; [congruence|]. split; [congruence|]. auto.
Qed.
(** Whatever -o says, the .pcd read is not written; an existing output only with consent. *)
Theorem C71_pcd_input_kept fs yes answer conv input output M :
  resolve fs input = Some M -> ~ In (Wrote M) (snd (pcd_single fs yes answer conv input output)).
Proof.
  intros HM I. unfold pcd_single in I. destruct (leqb (extension (filename input)) pcd_ext) eqn:Ex; [|destruct I]. cbn [negb] in I. apply leqb_spec in Ex.
  assert (Hx : extension (filename input) <> nil) by (rewrite Ex; discriminate). destruct (resolve_file _ _ _ Hx HM) as (d & Ed).
  match type of I with context [leqb (extension (filename ?p)) cldn_ext] => destruct (cldn_name p) as (x & Hn) end.
  match type of I with context [convert_file fs yes answer conv input ?p] => destruct (convert_file fs yes answer conv input p) as [[ok fs'] es] eqn:E; set (out := p) in * end.
  destruct (convert_file_writes _ _ _ _ _ _ _ _ _ E) as [(-> & _)|(n & -> & _ & _ & W & _)]; [destruct I|]. destruct I as [I|[]]. assert (n = M) as -> by congruence.
  destruct (open_write_node _ _ _ W) as (e & _ & _ & E2 & _). rewrite Ed in E2. apply app_last_inj in E2. destruct E2 as (_ & E2). rewrite Hn, (stem_ext _ _ Ex ltac:(discriminate)) in E2. now apply ends_differ in E2.
Qed.
Theorem C71_pcd_consent fs yes answer conv input output n :
  In (Wrote n) (snd (pcd_single fs yes answer conv input output)) -> is_there fs n -> yes = true \/ answer = true.
Proof.
  intros I T. unfold pcd_single in I. destruct (negb (leqb (extension (filename input)) pcd_ext)); [destruct I|].
  match type of I with context [convert_file fs yes answer conv input ?p] => destruct (convert_file fs yes answer conv input p) as [[ok fs'] es] eqn:E; set (out := p) in * end.
  destruct (convert_file_writes _ _ _ _ _ _ _ _ _ E) as [(-> & _)|(k & -> & _ & _ & W & _ & _ & C)]; [destruct I|]. destruct I as [I|[]]. assert (k = n) as -> by congruence.
  rewrite (open_exists _ _ _ W T) in C. destruct C as [C|[C|C]]; [now left|now right|discriminate].
Qed.
(** Exit status 0 exactly when the output was written. *)
Theorem C71_pcd_exit fs yes answer conv input output :
  fst (pcd_single fs yes answer conv input output) = Exit 0 <-> exists n, snd (pcd_single fs yes answer conv input output) = Wrote n :: nil.
Proof.
  unfold pcd_single. destruct (negb (leqb (extension (filename input)) pcd_ext)); [split; [discriminate|intros (n & E); discriminate]|].
  match goal with |- context [convert_file fs yes answer conv input ?p] => destruct (convert_file fs yes answer conv input p) as [[ok fs'] es] eqn:E end.
  destruct (convert_file_writes _ _ _ _ _ _ _ _ _ E) as [(-> & _ & ->)|(k & -> & _ & -> & _)]; cbn [fst snd]; split; try discriminate; [intros (n & K); discriminate|intros _; now exists k|reflexivity].
Qed.

(** The batch mode. *)
Lemma walk_mono fs fs' cs d n : grows fs fs' -> fold_left (step fs) cs (Some d) = Some n -> fold_left (step fs') cs (Some d) = Some n.
Proof.
  intros (G1 & G2 & _). revert d. induction cs as [|c cs IH]; intros d H; cbn [fold_left] in *; [exact H|]. unfold step in H at 2. unfold step at 2.
  destruct (is_dir fs d) eqn:E; [|rewrite walk_none in H; discriminate]. apply is_dir_spec in E. rewrite (proj2 (is_dir_spec fs' d) (G1 _ E)).
  destruct (negb (nonempty c) || leqb c dot); [now apply IH|]. destruct (leqb c dotdot); [now apply IH|]. destruct (is_node fs (d ++ c :: nil)) eqn:E2; [|rewrite walk_none in H; discriminate].
  apply is_node_spec in E2. assert (is_node fs' (d ++ c :: nil) = true) as -> by (apply is_node_spec; destruct E2 as [E2|E2]; [left; now apply G1|right; now apply G2]). now apply IH.
Qed.
Lemma children_spec d l c : In c (children d l) <-> In (d ++ c :: nil) l.
Proof.
  induction l as [|n l IH]; [reflexivity|]. cbn [children In]. unfold child_of. destruct n as [|x n'].
  - rewrite IH. split; [now right|]. intros [K|K]; [destruct d; discriminate|assumption].
  - remember (x :: n') as n eqn:En. assert (Nn : n <> nil) by (subst; discriminate). clear En. destruct (node_eqb (removelast n) d) eqn:E.
    + apply node_eqb_spec in E. cbn [In]. rewrite IH. split; (intros [K|K]; [left|now right]).
      * rewrite (@app_removelast_last name n nil Nn), E. now rewrite K.
      * rewrite K. apply last_snoc.
    + rewrite IH. split; [now right|]. intros [K|K]; [|assumption]. exfalso. rewrite K, removelast_snoc in E. rewrite (proj2 (node_eqb_spec d d) eq_refl) in E. discriminate.
Qed.
Lemma entries_spec fs d c : In c (entries fs d) <-> is_there fs (d ++ c :: nil).
Proof. unfold entries, is_there. rewrite in_app_iff, !children_spec. tauto. Qed.
Lemma cldn_good x : good_name (x ++ cldn_ext).
Proof.
  split; [destruct x; discriminate|]. split; intros E; apply (f_equal (fun l => hd 0 (rev l))) in E; rewrite rev_app_distr in E; vm_compute in E; discriminate.
Qed.
Definition same_dirs (fs fs' : fsys) : Prop := grows fs fs' /\ fs_dirs fs' = fs_dirs fs.
Lemma join_parent_in fs fs' dir c D : grows fs fs' -> resolve fs dir = Some D -> In D (fs_dirs fs) -> resolve_parent fs' (join dir c) = Some D.
Proof.
  intros G HR HD. unfold resolve in HR. destruct (p_empty dir); [discriminate|]. apply join_resolve; [|now apply G]. replace (start fs' dir) with (start fs dir) by (unfold start; destruct G as (_ & _ & ->); reflexivity). now apply (walk_mono fs).
Qed.
Lemma join_open fs fs' dir c D : same_dirs fs fs' -> resolve fs dir = Some D -> In D (fs_dirs fs) -> good_name c ->
  open_write fs' (join dir c) = if is_dir fs (D ++ c :: nil) then None else Some (D ++ c :: nil).
Proof.
  intros (G & Ed) HR HD (G1 & G2 & G3). unfold open_write. rewrite (join_parent_in _ _ _ c _ G HR HD). pose proof (join_filename dir c) as F. unfold filename in F. rewrite F.
  rewrite (proj2 (is_dir_spec fs' D)) by now rewrite Ed. rewrite (proj2 (nonempty_spec c) G1), (proj2 (leqb_false c dot) G2), (proj2 (leqb_false c dotdot) G3). cbn [andb negb]. unfold is_dir. rewrite Ed. destruct (mem (D ++ c :: nil) (fs_dirs fs)); reflexivity.
Qed.
Lemma batch_loop_spec fs0 yes answer conv dir D names : resolve fs0 dir = Some D -> In D (fs_dirs fs0) ->
  forall fs, same_dirs fs0 fs ->
  (forall e, In e (pcd_batch_loop fs yes answer conv dir names) ->
     exists n, In n names /\ extension n = pcd_ext /\ e = Wrote (D ++ (stem n ++ cldn_ext) :: nil) /\ conv n = true /\
       (is_there fs (D ++ (stem n ++ cldn_ext) :: nil) -> yes = true \/ answer n = true)) /\
  (NoDup names -> NoDup (pcd_batch_loop fs yes answer conv dir names)) /\
  (forall n, In n names -> extension n = pcd_ext -> yes = true -> conv n = true -> is_there fs0 (D ++ n :: nil) -> ~ In (D ++ (stem n ++ cldn_ext) :: nil) (fs_dirs fs0) ->
     In (Wrote (D ++ (stem n ++ cldn_ext) :: nil)) (pcd_batch_loop fs yes answer conv dir names)).
Proof.
  intros HR HD. induction names as [|n names IH]; intros fs SD; cbn [pcd_batch_loop].
  - split; [intros e []|]. split; [constructor|intros n []].
  - destruct (leqb (extension n) pcd_ext) eqn:Ex.
    + apply leqb_spec in Ex. destruct (convert_file fs yes (answer n) (conv n) (join dir n) (join dir (stem n ++ cldn_ext))) as [[ok fs1] es] eqn:E.
      assert (S1 : same_dirs fs0 fs1 /\ grows fs fs1).
      { destruct (convert_file_writes _ _ _ _ _ _ _ _ _ E) as [(_ & -> & _)|(k & _ & -> & _)]; [split; [exact SD|apply grows_refl]|]. destruct SD as (G & Ed).
        assert (Gk : grows fs (add_file fs k)) by (split; [apply incl_refl|]; split; [intros x Hx; now right|reflexivity]). split; [split; [apply (grows_trans _ fs); assumption|exact Ed]|exact Gk]. }
      destruct S1 as (S1 & Gk). destruct (IH fs1 S1) as (I1 & I2 & I3). split; [|split].
      * intros e I. apply in_app_or in I. destruct I as [I|I].
        -- destruct (convert_file_writes _ _ _ _ _ _ _ _ _ E) as [(-> & _)|(k & -> & _ & _ & W & C & _ & Y)]; [destruct I|]. destruct I as [<-|[]]. exists n. split; [now left|]. split; [assumption|].
           pose proof W as W'. rewrite (join_open _ _ _ _ _ SD HR HD (cldn_good (stem n))) in W. match type of W with (if ?b then _ else _) = _ => destruct b; [discriminate|] end. assert (k = D ++ (stem n ++ cldn_ext) :: nil) as -> by (inversion W; reflexivity). split; [reflexivity|]. split; [assumption|]. intros T. rewrite (open_exists _ _ _ W' T) in Y. destruct Y as [Y|[Y|Y]]; [now left|now right|discriminate].
        -- destruct (I1 e I) as (m & M1 & M2 & M3 & M4 & M5). exists m. split; [now right|]. split; [assumption|]. split; [assumption|]. split; [assumption|]. intros T. apply M5. exact (is_there_grows _ _ _ Gk T).
      * intros ND. assert (ND' : NoDup names) by now inversion ND. assert (Nn : ~ In n names) by now inversion ND. specialize (I2 ND').
        destruct (convert_file_writes _ _ _ _ _ _ _ _ _ E) as [(-> & _)|(k & -> & _ & _ & W & _)]; [exact I2|]. cbn [app]. constructor; [|exact I2]. intros I. destruct (I1 _ I) as (m & M1 & M2 & M3 & _).
        rewrite (join_open _ _ _ _ _ SD HR HD (cldn_good (stem n))) in W. match type of W with (if ?b then _ else _) = _ => destruct b; [discriminate|] end. assert (Ek : k = D ++ (stem n ++ cldn_ext) :: nil) by (inversion W; reflexivity). rewrite Ek in M3. pose proof (f_equal (fun e => match e with Wrote x => x | Mkdir x => x end) M3) as K. cbn beta iota in K. apply app_last_inj in K. destruct K as (_ & K). apply app_inv_tail in K. apply Nn. rewrite (stem_ext n _ Ex), K, <- (stem_ext m _ M2); [assumption|discriminate|discriminate].
      * intros m [->|Im] Em Hy Hc Ht Hd; apply in_or_app; [left|right; now apply I3]. unfold convert_file in E.
        assert (Xi : exists_ fs (join dir m) = true).
        { unfold exists_. destruct (join_parent fs dir m) as (_ & _ & Ef & Nn & _). destruct SD as (G & Ed). rewrite (resolve_last fs _ Nn), Ef, (join_parent_in _ _ _ m _ G HR HD). unfold step. rewrite (proj2 (is_dir_spec fs D)) by now rewrite Ed.
          assert (Hx : extension m <> nil) by (rewrite Em; discriminate). destruct (ext_good _ Hx) as (G1 & G2 & G3). rewrite (proj2 (nonempty_spec m) G1), (proj2 (leqb_false m dot) G2), (proj2 (leqb_false m dotdot) G3). cbn [negb orb]. now rewrite (proj2 (is_node_spec fs _) (is_there_grows _ _ _ G Ht)). }
        rewrite Xi, Hy, Hc in E. cbn [negb] in E. rewrite Bool.andb_false_r in E. cbn [andb] in E. rewrite (join_open _ _ _ _ _ SD HR HD (cldn_good (stem m))) in E. match type of E with context [if ?b then None else _] => destruct b eqn:Ed end; [apply is_dir_spec in Ed; contradiction|]. apply (f_equal snd) in E. cbn [snd] in E. rewrite <- E. now left.
    + destruct (IH fs SD) as (I1 & I2 & I3). split; [|split].
      * intros e I. destruct (I1 e I) as (m & M1 & M2). exists m. split; [now right|assumption].
      * intros ND. apply I2. now inversion ND.
      * intros m [->|Im] Em; [apply leqb_false in Ex; contradiction|now apply I3].
Qed.
(** In batch mode each file written is the .cldn of a .pcd of the directory, written once, over an existing file
    only with consent; no .pcd is written. *)
Theorem C71_batch fs yes answer conv dir D : resolve fs dir = Some D -> NoDup (entries fs D) ->
  NoDup (snd (pcd_batch fs yes answer conv dir)) /\
  (forall e, In e (snd (pcd_batch fs yes answer conv dir)) ->
     exists n, is_there fs (D ++ n :: nil) /\ extension n = pcd_ext /\ e = Wrote (D ++ (stem n ++ cldn_ext) :: nil) /\
       (is_there fs (D ++ (stem n ++ cldn_ext) :: nil) -> yes = true \/ answer n = true)) /\
  (forall d n, extension n = pcd_ext -> ~ In (Wrote (d ++ n :: nil)) (snd (pcd_batch fs yes answer conv dir))).
Proof.
  intros HR ND. unfold pcd_batch. rewrite HR. destruct (is_dir fs D) eqn:Ed; cbn [snd].
  - apply is_dir_spec in Ed. destruct (batch_loop_spec fs yes answer conv dir D (entries fs D) HR Ed fs (conj (grows_refl fs) eq_refl)) as (I1 & I2 & _). split; [now apply I2|].
    assert (J : forall e, In e (pcd_batch_loop fs yes answer conv dir (entries fs D)) -> exists n, is_there fs (D ++ n :: nil) /\ extension n = pcd_ext /\ e = Wrote (D ++ (stem n ++ cldn_ext) :: nil) /\ (is_there fs (D ++ (stem n ++ cldn_ext) :: nil) -> yes = true \/ answer n = true)).
    { intros e I. destruct (I1 e I) as (n & N1 & N2 & N3 & N4 & N5). exists n. split; [now apply entries_spec|]. auto. }
    split; [exact J|]. intros d n En I. destruct (J _ I) as (m & _ & _ & E & _). assert (E' : d ++ n :: nil = D ++ (stem m ++ cldn_ext) :: nil) by congruence. apply app_last_inj in E'. destruct E' as (_ & E'). rewrite (stem_ext n _ En ltac:(discriminate)) in E'. now apply ends_differ in E'.
  - split; [constructor|]. split; [intros e []|intros d n _ []].
Qed.
(** With -y every .pcd that can be converted gets its .cldn. *)
Theorem C71_batch_all fs answer conv dir D n : resolve fs dir = Some D -> In D (fs_dirs fs) ->
  is_there fs (D ++ n :: nil) -> extension n = pcd_ext -> conv n = true -> ~ In (D ++ (stem n ++ cldn_ext) :: nil) (fs_dirs fs) ->
  In (Wrote (D ++ (stem n ++ cldn_ext) :: nil)) (snd (pcd_batch fs true answer conv dir)).
Proof.
  intros HR HD Ht En Hc Hd. unfold pcd_batch. rewrite HR, (proj2 (is_dir_spec fs D) HD). cbn [snd]. destruct (batch_loop_spec fs true answer conv dir D (entries fs D) HR HD fs (conj (grows_refl fs) eq_refl)) as (_ & _ & I3). apply I3; auto. now apply entries_spec.
Qed.
Definition pcd_fs : fsys := mkFs (nil :: (str "w" :: nil) :: nil)
  ((str "w" :: str "a.pcd" :: nil) :: (str "w" :: str "b.pcd" :: nil) :: (str "w" :: str "b.cldn" :: nil) :: (str "w" :: str "notes" :: nil) :: nil) (str "w" :: nil).
Example C71_case : wf_fs pcd_fs /\ NoDup (entries pcd_fs (str "w" :: nil)) /\ resolve pcd_fs (u ".") = Some (str "w" :: nil) /\
  pcd_batch pcd_fs false (fun _ => false) (fun _ => true) (u ".") = (Exit 0, Wrote (str "w" :: str "a.cldn" :: nil) :: nil) /\
  pcd_batch pcd_fs true (fun _ => false) (fun _ => true) (u "/w/") = (Exit 0, Wrote (str "w" :: str "a.cldn" :: nil) :: Wrote (str "w" :: str "b.cldn" :: nil) :: nil) /\
  pcd_single pcd_fs false false true (u "a.pcd") (Some (u "a.pcd")) = (Exit 0, Wrote (str "w" :: str "a.cldn" :: nil) :: nil) /\
  cut_main (mkCut (u "bag/bag_0.mcap") None 10) CutDone bag_fs = (Exit 0, Wrote (str "w" :: str "bag_0_cut.mcap" :: nil) :: nil).
Proof.
  split; [apply wfb_ok; vm_compute; reflexivity|]. split.
  { assert (E : entries pcd_fs (str "w" :: nil) = str "a.pcd" :: str "b.pcd" :: str "b.cldn" :: str "notes" :: nil) by (vm_compute; reflexivity). rewrite E. repeat (constructor; [cbn; intuition discriminate|]). constructor. }
  split; [vm_compute; reflexivity|]. split; [vm_compute; reflexivity|]. split; [vm_compute; reflexivity|]. split; [vm_compute; reflexivity|vm_compute; reflexivity].
Qed.
Print Assumptions C71_cut_default.
Print Assumptions C71_cut_one.
Print Assumptions C71_cut_refuted.
Print Assumptions C71_pcd_input_kept.
Print Assumptions C71_pcd_consent.
Print Assumptions C71_pcd_exit.
Print Assumptions C71_batch.
Print Assumptions C71_batch_all.
Print Assumptions C71_case.
