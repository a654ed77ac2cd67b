(** C70, C71, continued: the exit status and the default output names of the command line tools. *)
From Verif Require Import Base BaseFacts FieldFacts Types Header Mcap FileSys Tools PropsTools.
From Coq Require Import String Lia.
Open Scope Z_scope.
Open Scope list_scope.

(** The bag converter exits with 0 only after a conversion that worked, or having written no file: because
    there was nothing to convert, or because the user declined to overwrite. *)
Theorem C70_exit_status o answer oc fs : fst (bag_main o answer oc fs) = Exit 0 ->
  (oc = Converted /\ exists n, In (Wrote n) (snd (bag_main o answer oc fs))) \/
  ((oc = NothingToDo \/ (b_yes o = false /\ answer = false)) /\ forall n, ~ In (Wrote n) (snd (bag_main o answer oc fs))).
Proof.
  unfold bag_main. destruct (p_empty (b_input o)); [discriminate|]. destruct (b_encode o && b_decode o); [discriminate|]. destruct (negb (b_encode o) && negb (b_decode o)); [discriminate|]. destruct (b_viz o && negb (b_encode o)); [discriminate|].
  destruct (bag_input fs (b_input o)) as [[mcap meta]| |]; [|discriminate|discriminate]. destruct (bag_output fs o mcap meta) as [out| |]; [|discriminate|discriminate]. destruct (bag_safe fs meta out) as [[|]| |]; [|discriminate|discriminate|discriminate].
  match goal with |- context [match ?a with Ok _ => _ | Throw => _ | UB => _ end] => destruct a as [[fs1 es]| |] eqn:EC; [|discriminate|discriminate] end.
  assert (NW : forall n, ~ In (Wrote n) es).
  { destruct (negb (p_empty (parent_path out)) && negb (exists_ fs (parent_path out))); [|assert (es = []) as -> by congruence; intros n []]. intros n I. exact (proj2 (create_directories_grows _ _ _ _ EC) n I). }
  unfold before. cbn [fst snd]. destruct (b_decode o && b_profile o); [discriminate|]. destruct (exists_ fs1 out && negb (b_yes o) && negb answer) eqn:Ex.
  - intros _. right. split; [right; destruct (exists_ fs1 out), (b_yes o), answer; cbn in Ex; try discriminate; auto|]. intros n I. rewrite app_nil_r in I. exact (NW n I).
  - destruct (negb (b_method_ok o)); [discriminate|]. unfold bag_convert. destruct oc; try discriminate.
    + intros _. right. split; [now left|]. intros n I. cbn [snd] in I. rewrite app_nil_r in I. exact (NW n I).
    + destruct (open_write fs1 out); discriminate.
    + destruct (open_write fs1 out) as [n0|]; [|discriminate]. intros _. left. split; [reflexivity|]. exists n0. apply in_or_app. right. destruct meta as [m|]; [|now left]. match goal with |- context [match ?a with Some _ => _ | None => _ end] => destruct a end; now left.
Qed.
Print Assumptions C70_exit_status.
(** The cutter: the same. *)
Theorem C71_cut_exit_status o oc fs : fst (cut_main o oc fs) = Exit 0 ->
  (oc = CutDone /\ exists n, snd (cut_main o oc fs) = [Wrote n]) \/ (oc = No_topics /\ snd (cut_main o oc fs) = []).
Proof.
  unfold cut_main. destruct (negb (leqb (extension (filename (c_input o))) mcap_ext)); [discriminate|]. destruct (negb (exists_ fs (c_input o))); [discriminate|]. destruct (c_max o <=? 0); [discriminate|].
  match goal with |- context [open_write fs ?p] => set (out := p) end. destruct oc; try discriminate.
  - intros _. now right.
  - destruct (open_write fs out); discriminate.
  - destruct (open_write fs out) as [n|]; [|discriminate]. intros _. left. split; [reflexivity|]. exists n. reflexivity.
Qed.
Print Assumptions C71_cut_exit_status.

(** *** Names: everything before the last extension is kept, dots included *)
Lemma last_dot_app x e : last_dot (46 :: e) = Some 0%nat -> last_dot (x ++ 46 :: e) = Some (List.length x).
Proof. intros H. induction x as [|c x IH]; [exact H|]. cbn [app last_dot]. rewrite IH. reflexivity. Qed.
Lemma split_name x e : x <> [] -> last_dot (46 :: e) = Some 0%nat -> e <> [] -> extension (x ++ 46 :: e) = 46 :: e /\ stem (x ++ 46 :: e) = x.
Proof.
  intros Hx He Ne. assert (D : dot_at (x ++ 46 :: e) = Some (List.length x)).
  { unfold dot_at. replace (leqb (x ++ 46 :: e) dotdot) with false; [rewrite (last_dot_app x e He); destruct x; [congruence|reflexivity]|].
    symmetry. apply leqb_false. intros E. destruct x as [|c [|d x]]; [congruence| |]; destruct e; try congruence; cbn in E; try discriminate. destruct x; discriminate. }
  unfold extension, stem. rewrite D. split; [apply skipn_app_len; reflexivity|apply firstn_app_len; reflexivity].
Qed.

(** A free name [n] in the current directory can be written. *)
Lemma open_here fs n : wf_fs fs -> good_name n -> ~ In (fs_cwd fs ++ [n]) (fs_dirs fs) -> open_write fs (mkPath false [n]) = Some (fs_cwd fs ++ [n]).
Proof.
  intros (_ & C & _) (G1 & G2 & G3) N. unfold open_write, resolve_parent. cbn [p_comps removelast fold_left start p_abs last]. rewrite (proj2 (is_dir_spec fs (fs_cwd fs)) C). rewrite (proj2 (nonempty_spec n) G1), (proj2 (leqb_false n dot) G2), (proj2 (leqb_false n dotdot) G3).
  destruct (is_dir fs (fs_cwd fs ++ [n])) eqn:E; [apply is_dir_spec in E; contradiction|]. reflexivity.
Qed.
Lemma long_name x t : x <> [] -> (2 <= List.length t)%nat -> good_name (x ++ t).
Proof.
  intros H L. assert (K : (3 <= List.length (x ++ t))%nat) by (rewrite app_length; destruct x; [congruence|cbn; lia]). repeat split; intros E; rewrite E in K; cbn in K; lia.
Qed.
(** Cutting x.mcap writes x_cut.mcap in the current directory, whatever dots are in x. *)
Theorem C71_cut_name o fs x : wf_fs fs -> c_output o = None -> filename (c_input o) = x ++ str ".mcap" -> x <> [] -> exists_ fs (c_input o) = true -> 0 < c_max o ->
  ~ In (fs_cwd fs ++ [x ++ str "_cut.mcap"]) (fs_dirs fs) ->
  cut_main o CutDone fs = (Exit 0, [Wrote (fs_cwd fs ++ [x ++ str "_cut.mcap"])]).
Proof.
  intros W Eo Ef Hx Ee Hm N. change (str ".mcap") with (46 :: str "mcap") in Ef. destruct (split_name x (str "mcap") Hx eq_refl ltac:(discriminate)) as [E1 E2]. unfold cut_main. rewrite Ef, E1, Ee, Eo, E2.
  replace (leqb (46 :: str "mcap") mcap_ext) with true by (symmetry; apply leqb_spec; reflexivity). cbn [negb filename p_comps last].
  assert (EX : extension (x ++ str "_cut.mcap") = mcap_ext).
  { change (str "_cut.mcap") with (str "_cut" ++ 46 :: str "mcap"). rewrite app_assoc. apply split_name; [destruct x; [congruence|discriminate]|reflexivity|discriminate]. }
  rewrite EX. replace (leqb mcap_ext mcap_ext) with true by (symmetry; apply leqb_spec; reflexivity). destruct (Z.leb_spec (c_max o) 0); [lia|]. rewrite open_here; [reflexivity|exact W|apply long_name; [exact Hx|cbn; lia]|exact N].
Qed.
(** Converting the lone recording x.mcap without -o writes x_encoded.mcap, respectively x_decoded.mcap, in the
    current directory. *)
Theorem C70_lone_name fs abs dirs x encode answer yes viz :
  wf_fs fs -> x <> [] -> let input := mkPath abs (dirs ++ [x ++ str ".mcap"]) in
  is_directory fs input = false -> exists_ fs (join (parent_path input) meta_name) = false -> (viz = true -> encode = true) ->
  let n := x ++ str (if encode then "_encoded.mcap" else "_decoded.mcap") in
  ~ In (fs_cwd fs ++ [n]) (fs_dirs fs) -> (In (fs_cwd fs ++ [n]) (fs_files fs) -> yes = true \/ answer = true) ->
  bag_main (mkBag input None yes encode (negb encode) viz false true) answer Converted fs = (Exit 0, [Wrote (fs_cwd fs ++ [n])]).
Proof.
  intros W Hx input Ed Em Hv n N C. assert (EM : x ++ str ".mcap" = x ++ 46 :: str "mcap") by reflexivity. destruct (split_name x (str "mcap") Hx eq_refl ltac:(discriminate)) as [E1 E2].
  assert (EN : n = x ++ suffix encode ++ mcap_ext) by (unfold n; destruct encode; reflexivity).
  assert (FN : filename input = x ++ 46 :: str "mcap") by (unfold input, filename; cbn [p_comps]; apply last_last).
  unfold bag_main. cbn [b_input b_encode b_decode b_viz b_profile b_yes b_method_ok]. replace (p_empty input) with false by (unfold input, p_empty; cbn [p_comps p_abs]; destruct abs, dirs; reflexivity).
  replace (encode && negb encode) with false by (destruct encode; reflexivity). replace (negb encode && negb (negb encode)) with false by (destruct encode; reflexivity). replace (viz && negb encode) with false by (destruct viz, encode; try reflexivity; discriminate (Hv eq_refl)).
  unfold bag_input. rewrite Ed, FN, E1, Em. replace (leqb (46 :: str "mcap") mcap_ext) with true by (symmetry; apply leqb_spec; reflexivity). unfold bag_output. cbn [b_output b_encode bind]. rewrite FN, E2, <- EN. cbn [filename p_comps last].
  assert (EX : extension n = mcap_ext) by (unfold n; destruct encode; [change (str "_encoded.mcap") with (str "_encoded" ++ 46 :: str "mcap")|change (str "_decoded.mcap") with (str "_decoded" ++ 46 :: str "mcap")]; rewrite app_assoc; (apply split_name; [destruct x; [congruence|discriminate]|reflexivity|discriminate])).
  rewrite EX. replace (leqb mcap_ext mcap_ext) with true by (symmetry; apply leqb_spec; reflexivity). cbn [bag_safe]. change (parent_path (mkPath false [n])) with (mkPath false []). change (p_empty (mkPath false [])) with true. cbn [negb andb]. rewrite Bool.andb_false_r.
  assert (G : good_name n) by (unfold n; apply long_name; [exact Hx|destruct encode; cbn; lia]). pose proof (open_here fs n W G N) as OW.
  replace (exists_ fs (mkPath false [n]) && negb yes && negb answer) with false.
  - unfold before, bag_convert. match goal with |- context [open_write fs ?p] => replace (open_write fs p) with (Some (fs_cwd fs ++ [n])) by (symmetry; exact OW) end. reflexivity.
  - symmetry. destruct (exists_ fs (mkPath false [n])) eqn:EE; [|reflexivity]. unfold exists_ in EE. cbn [resolve p_empty p_comps p_abs fold_left start] in EE. unfold step in EE. destruct W as (_ & Wc & _). rewrite (proj2 (is_dir_spec fs (fs_cwd fs)) Wc) in EE. destruct G as (G1 & G2 & G3). rewrite (proj2 (nonempty_spec n) G1), (proj2 (leqb_false n dot) G2), (proj2 (leqb_false n dotdot) G3) in EE. cbn [negb orb] in EE.
    match type of EE with context [is_node fs ?q] => destruct (is_node fs q) eqn:EI; [|discriminate EE] end. apply is_node_spec in EI. destruct EI as [EI|EI]; [contradiction|]. destruct (C EI) as [-> | ->]; [reflexivity|]. now rewrite Bool.andb_false_r.
Qed.
Print Assumptions C71_cut_name.
Print Assumptions C70_lone_name.
Definition dotted_fs : fsys := mkFs ([] :: [str "w"] :: nil) ([str "w"; str "2024.11.18.mcap"] :: nil) [str "w"].
(** A name with dots. *)
Example C71_cut_name_case : wf_fs dotted_fs /\ cut_main (mkCut (u "2024.11.18.mcap") None 5) CutDone dotted_fs = (Exit 0, [Wrote [str "w"; str "2024.11.18_cut.mcap"]]) /\
  bag_main (mkBag (u "2024.11.18.mcap") None false true false false false true) false Converted dotted_fs = (Exit 0, [Wrote [str "w"; str "2024.11.18_encoded.mcap"]]) /\
  bag_main (mkBag (u "2024.11.18.mcap") None false true false false false true) false NothingToDo dotted_fs = (Exit 0, []).
Proof. split; [apply wfb_ok; vm_compute; reflexivity|]. split; [vm_compute; reflexivity|]. split; vm_compute; reflexivity. Qed.
