(** Encoder/decoder selection: both sides pick matching objects for every field, and the
    total size bound holds. *)
From Verif Require Export CodecFacts.

(** The decoder may be given other offsets (a remapped or partially skipped layout). *)
Definition same_shape (f f' : field) : Prop := f_type f = f_type f' /\ f_res f = f_res f'.
Definition same_codec (i i' : info) : Prop :=
  Forall2 same_shape (i_fields i) (i_fields i') /\ i_enc i = i_enc i' /\ i_version i = i_version i'.

Lemma same_codec_refl i : same_codec i i.
Proof. repeat split. induction (i_fields i); constructor; unfold same_shape; auto. Qed.

Definition fkind (i : info) (f : field) : lossk := if is_lossy (i_enc i) then lossy_kind f else KId.
Definition piece_of (fk : field * lossk) : Z * nat * lossk := (f_off (fst fk), SizeOf (f_type (fst fk)), snd fk).

Definition coded_enc (i : info) : Prop := match i_enc i with ENC_LOSSY | ENC_LOSSLESS => True | _ => False end.
Lemma coded_known i : coded_enc i -> known_enc i.
Proof. unfold coded_enc, known_enc. destruct (i_enc i); auto. Qed.

Lemma create_pair i i' f f' e d : coded_enc i -> i_enc i = i_enc i' -> i_version i = i_version i' -> same_shape f f' ->
  CreateCompatibleEncoder i f = Ok e -> CreateCompatibleDecoder i' f' = Ok d ->
  pair_ed e d [f_off f'] /\ pieces e = [piece_of (f, fkind i f)].
Proof.
  unfold coded_enc, CreateCompatibleEncoder, CreateCompatibleDecoder, fkind, piece_of, lossy_kind, same_shape.
  intros HK He Hv [Ht Hr] HE HD. rewrite <- He, <- Hv, <- Ht in HD. unfold has_res, res_of in *. rewrite <- Hr in HD.
  cbn [fst snd].
  destruct (f_type f) eqn:Et; try discriminate;
  destruct (i_enc i); try (exfalso; exact HK); cbn [is_lossy andb negb] in *;
  destruct (f_res f) as [r|]; cbn [andb negb is_lossy] in *;
  repeat match goal with
    | H : (if ?c then _ else _) = Ok _ |- _ => destruct c; try discriminate
    end;
  injection HE as <-; injection HD as <-; (split; [|reflexivity]);
  first [apply P_copy | apply P_l32 | apply P_l64 | apply P_gor | (apply P_xor; lia)
        | apply (P_int _ INT16); exact I | apply (P_int _ UINT16); exact I | apply (P_int _ INT32); exact I
        | apply (P_int _ UINT32); exact I | apply (P_int _ INT64); exact I | apply (P_int _ UINT64); exact I].
Qed.

Lemma create_max i f e : CreateCompatibleEncoder i f = Ok e ->
  exists m, MaxSerializedFieldSize f (i_enc i) = Ok m /\ Z.of_nat (enc_max e) <= m /\ length (pieces e) = 1%nat.
Proof.
  unfold CreateCompatibleEncoder, MaxSerializedFieldSize.
  destruct (f_type f) eqn:Et; try discriminate;
  destruct (i_enc i); cbn [is_lossy andb]; unfold has_res, res_of; destruct (f_res f); cbn [andb negb];
  repeat match goal with |- context [if ?c then _ else _] => destruct c end; intros H; try discriminate;
  injection H as <-; eexists; (split; [reflexivity|]); cbn; lia.
Qed.

Lemma mapM_pairs i i' : coded_enc i -> i_enc i = i_enc i' -> i_version i = i_version i' ->
  forall fs fs' es ds, Forall2 same_shape fs fs' ->
  mapM (CreateCompatibleEncoder i) fs = Ok es -> mapM (CreateCompatibleDecoder i') fs' = Ok ds ->
  pairs es ds (map f_off fs') /\ all_pieces es = map piece_of (map (fun f => (f, fkind i f)) fs).
Proof.
  intros HK He Hv fs fs' es ds HS. revert es ds. induction HS as [|f f' fs fs' Hs HS IH]; intros es ds HE HD.
  - cbn in HE, HD. injection HE as <-. injection HD as <-. split; [constructor|reflexivity].
  - cbn [mapM] in HE, HD.
    apply bind_ok in HE. destruct HE as (e & HE1 & HE). apply bind_ok in HE. destruct HE as (es1 & HE2 & HE). injection HE as <-.
    apply bind_ok in HD. destruct HD as (d & HD1 & HD). apply bind_ok in HD. destruct HD as (ds1 & HD2 & HD). injection HD as <-.
    destruct (create_pair i i' f f' e d HK He Hv Hs HE1 HD1) as [HP Hpc].
    destruct (IH es1 ds1 HE2 HD2) as [HPs Hpcs].
    split.
    + change (map f_off (f' :: fs')) with ([f_off f'] ++ map f_off fs'). constructor; auto.
    + unfold all_pieces in *. cbn [flat_map map]. rewrite Hpc, Hpcs. reflexivity.
Qed.

Lemma lead_run_spec fs : leading_lossy fs = lead_run fs.
Proof.
  induction fs as [|[n o t r] fs IH]; [reflexivity|]. cbn. unfold has_res. cbn.
  destruct t, r; cbn; try reflexivity. now rewrite IH.
Qed.
Lemma lead_run_shape fs fs' : Forall2 same_shape fs fs' -> lead_run fs = lead_run fs'.
Proof.
  induction 1 as [|[n o t r] [n' o' t' r'] fs fs' [H1 H2] HS IH]; [reflexivity|].
  cbn in *. subst. rewrite IH. reflexivity.
Qed.
Lemma lead_count_shape i i' : same_codec i i' -> LeadingLossyFloatFieldCount i = LeadingLossyFloatFieldCount i'.
Proof.
  intros (HS & He & _). unfold LeadingLossyFloatFieldCount. rewrite <- He, !lead_run_spec.
  rewrite (lead_run_shape _ _ HS). reflexivity.
Qed.
Lemma lead_run_le fs : (lead_run fs <= length fs)%nat.
Proof. induction fs as [|[n o t r] fs IH]; cbn; [lia|]. destruct t, r; cbn; lia. Qed.
Lemma lead_run_fields fs : forall n, (n <= lead_run fs)%nat ->
  Forall (fun f => f_type f = FLOAT32 /\ exists r, f_res f = Some r) (firstn n fs).
Proof.
  induction fs as [|[nm o t r] fs IH]; intros n Hn; [rewrite firstn_nil; constructor|].
  destruct n; [constructor|]. cbn in *. destruct t, r; cbn in *; try lia.
  constructor; [cbn; eauto|]. apply IH. lia.
Qed.
Lemma Forall2_firstn {A B} (P : A -> B -> Prop) n l l' : Forall2 P l l' -> Forall2 P (firstn n l) (firstn n l').
Proof. intros H. revert n. induction H; intros [|n]; cbn; constructor; auto. Qed.
Lemma Forall2_skipn {A B} (P : A -> B -> Prop) n l l' : Forall2 P l l' -> Forall2 P (skipn n l) (skipn n l').
Proof. intros H. revert n. induction H; intros [|n]; cbn; auto; constructor; auto. Qed.
Lemma Forall2_filter {A B} (P : A -> B -> Prop) sel sel' l l' :
  (forall a b, P a b -> sel a = sel' b) -> Forall2 P l l' -> Forall2 P (filter sel l) (filter sel' l').
Proof.
  intros Hs H. induction H as [|a b l l' Hab H IH]; cbn; [constructor|]. rewrite (Hs _ _ Hab).
  destruct (sel' b); [constructor|]; auto.
Qed.

Lemma kinds_length i : length (kinds i) = length (i_fields i).
Proof.
  unfold kinds. destruct (i_enc i); try apply map_length.
  set (n := lead_run (i_fields i)). destruct ((n =? 3)%nat || (n =? 4)%nat); [|apply map_length].
  rewrite app_length, !map_length, firstn_length, skipn_length. pose proof (lead_run_le (i_fields i)). fold n in H. lia.
Qed.
Definition fks (i : info) : list (field * lossk) := combine (i_fields i) (kinds i).

Lemma combine_map {A B} (g : A -> B) l : combine l (map g l) = map (fun x => (x, g x)) l.
Proof. induction l; cbn; [reflexivity|]. now f_equal. Qed.
Lemma combine_app {A B} (a1 a2 : list A) (b1 b2 : list B) : length a1 = length b1 ->
  combine (a1 ++ a2) (b1 ++ b2) = combine a1 b1 ++ combine a2 b2.
Proof. revert b1; induction a1; intros [|] H; cbn in *; try lia; [reflexivity|]. f_equal. apply IHa1. lia. Qed.

(** Fields with their kinds, split into the vector group and the rest. *)
Lemma fks_split i : known_enc i ->
  fks i = map (fun f => (f, vector_kind f)) (firstn (LeadingLossyFloatFieldCount i) (i_fields i)) ++
          map (fun f => (f, fkind i f)) (skipn (LeadingLossyFloatFieldCount i) (i_fields i)).
Proof.
  unfold known_enc, fks, kinds, LeadingLossyFloatFieldCount, fkind. rewrite lead_run_spec.
  destruct (i_enc i); intros H; try (exfalso; exact H); cbn [is_lossy].
  - cbn. apply combine_map.
  - set (n := lead_run (i_fields i)). destruct ((n =? 3)%nat || (n =? 4)%nat) eqn:E.
    + rewrite <- (firstn_skipn n (i_fields i)) at 1. rewrite combine_app, !combine_map by (now rewrite map_length). reflexivity.
    + cbn. apply combine_map.
  - cbn. apply combine_map.
Qed.

Lemma filter_map {A B} (g : A -> B) (p : B -> bool) l : filter p (map g l) = map g (filter (fun x => p (g x)) l).
Proof. induction l; cbn; [reflexivity|]. destruct (p (g a)); cbn; now rewrite IHl. Qed.
Lemma filter_all {A} (p : A -> bool) l : Forall (fun x => p x = true) l -> filter p l = l.
Proof. induction 1; cbn; [reflexivity|]. rewrite H. now f_equal. Qed.

Lemma lead_pairs i i' le ld : known_enc i -> same_codec i i' ->
  leading_encoder i = Ok le -> leading_decoder i' = Ok ld ->
  pairs le ld (map f_off (firstn (LeadingLossyFloatFieldCount i) (i_fields i'))) /\
  all_pieces le = map piece_of (map (fun f => (f, vector_kind f)) (firstn (LeadingLossyFloatFieldCount i) (i_fields i))).
Proof.
  intros HK HS HE HD. unfold leading_encoder, leading_decoder in *. rewrite <- (lead_count_shape i i' HS) in HD.
  set (n := LeadingLossyFloatFieldCount i) in *.
  destruct (n =? 0)%nat eqn:E0.
  - injection HE as <-. injection HD as <-. apply Nat.eqb_eq in E0. rewrite E0. split; [constructor|reflexivity].
  - destruct (existsb _ _); [discriminate|]. injection HE as <-. destruct (existsb _ _); [discriminate|]. injection HD as <-.
    assert (Hn : (n = 3 \/ n = 4)%nat /\ (n <= lead_run (i_fields i))%nat).
    { unfold n, LeadingLossyFloatFieldCount in *. rewrite lead_run_spec in *. destruct (is_lossy (i_enc i)); [|discriminate].
      destruct ((lead_run (i_fields i) =? 3)%nat || (lead_run (i_fields i) =? 4)%nat) eqn:E; [|discriminate].
      apply orb_true_iff in E. rewrite !Nat.eqb_eq in E. lia. }
    destruct HS as (HS & _).
    pose proof (Forall2_firstn _ n _ _ HS) as HSn.
    assert (Hlen : length (firstn n (i_fields i)) = n).
    { rewrite firstn_length. pose proof (lead_run_le (i_fields i)). lia. }
    split.
    + rewrite <- (app_nil_r (map f_off _)).
      constructor; [|constructor].
      replace (map f_off (firstn n (i_fields i'))) with (map fst (lanes_of (firstn n (i_fields i')))).
      * constructor.
        -- unfold lanes_of. rewrite !map_map. cbn [snd]. clear - HSn.
           induction HSn as [|f f' l l' [_ H] _ IH]; [reflexivity|]. cbn [map]. unfold res_of at 1 3. rewrite H. now f_equal.
        -- unfold lanes_of. rewrite map_length, Hlen. lia.
      * unfold lanes_of. rewrite map_map. reflexivity.
    + unfold all_pieces. cbn [flat_map pieces]. rewrite app_nil_r. unfold lanes_of. rewrite !map_map.
      pose proof (lead_run_fields (i_fields i) n (proj2 Hn)) as HF. clear - HF.
      induction HF as [|f l [Ht (r & Hr)] _ IH]; [reflexivity|]. cbn [map]. rewrite IH. f_equal.
      unfold piece_of, vector_kind, res_of. cbn [fst snd]. rewrite Ht, Hr. reflexivity.
Qed.

(** The selection of fields handled by the per-point encoders: all (V4), or the fields
    that are not adaptive integers (V5); it depends on the type only. *)
Definition regular_pairs (i i' : info) (sel : ftype -> bool) (es : list fenc) (ds : list fdec) : Prop :=
  pairs es ds (map f_off (filter (fun f => sel (f_type f)) (i_fields i'))) /\
  all_pieces es = map piece_of (filter (fun fk => sel (f_type (fst fk))) (fks i)).

Lemma build_pairs i i' sel le re ld rd : coded_enc i -> same_codec i i' -> sel FLOAT32 = true ->
  leading_encoder i = Ok le ->
  mapM (CreateCompatibleEncoder i) (filter (fun f => sel (f_type f)) (skipn (LeadingLossyFloatFieldCount i) (i_fields i))) = Ok re ->
  leading_decoder i' = Ok ld ->
  mapM (CreateCompatibleDecoder i') (filter (fun f => sel (f_type f)) (skipn (LeadingLossyFloatFieldCount i') (i_fields i'))) = Ok rd ->
  regular_pairs i i' sel (le ++ re) (ld ++ rd).
Proof.
  intros HC HS Hsel HLE HRE HLD HRD. pose proof (coded_known i HC) as HK.
  destruct (lead_pairs i i' le ld HK HS HLE HLD) as [HP1 HC1].
  rewrite <- (lead_count_shape i i' HS) in HRD. set (n := LeadingLossyFloatFieldCount i) in *.
  pose proof HS as (HSf & He & Hv).
  assert (HSk : Forall2 same_shape (filter (fun f => sel (f_type f)) (skipn n (i_fields i))) (filter (fun f => sel (f_type f)) (skipn n (i_fields i')))).
  { apply Forall2_filter; [|now apply Forall2_skipn]. intros a b [-> _]. reflexivity. }
  destruct (mapM_pairs i i' HC He Hv _ _ _ _ HSk HRE HRD) as [HP2 HC2].
  assert (Hle : (n <= lead_run (i_fields i))%nat).
  { unfold n, LeadingLossyFloatFieldCount. rewrite lead_run_spec. destruct (is_lossy (i_enc i)); [|lia].
    destruct ((lead_run (i_fields i) =? 3)%nat || (lead_run (i_fields i) =? 4)%nat); lia. }
  assert (F1 : forall j, same_codec i j -> filter (fun f => sel (f_type f)) (firstn n (i_fields j)) = firstn n (i_fields j)).
  { intros j (Hj & _). apply filter_all. pose proof (lead_run_fields (i_fields j) n) as HF.
    rewrite (lead_run_shape _ _ Hj) in Hle. specialize (HF Hle). eapply Forall_impl; [|exact HF]. cbn. intros f [-> _]. exact Hsel. }
  split.
  - rewrite <- (firstn_skipn n (i_fields i')), filter_app, F1, map_app by exact HS. apply pairs_app; auto.
  - unfold all_pieces in *. rewrite flat_map_app, HC1, HC2, fks_split, filter_app, map_app by exact HK.
    fold n. f_equal.
    + rewrite filter_map. cbn [fst]. rewrite F1 by apply same_codec_refl. reflexivity.
    + rewrite filter_map. reflexivity.
Qed.

Lemma filter_true {A} (l : list A) : filter (fun _ => true) l = l.
Proof. induction l; cbn; congruence. Qed.

Lemma build_v4_pairs i i' es ds minb : known_enc i -> same_codec i i' ->
  BuildV4Encoders i = Ok es -> BuildV4Decoders i' = Ok (ds, minb) ->
  regular_pairs i i' (fun _ => true) es ds /\ minb = sum_nat (map min_input_bytes ds).
Proof.
  intros HK HS HE HD. unfold BuildV4Encoders, BuildV4Decoders in *.
  assert (Hi' : i_enc i' = i_enc i) by (destruct HS as (_ & He & _); auto). rewrite Hi' in HD.
  destruct (i_enc i) eqn:Ee; try (unfold known_enc in HK; rewrite Ee in HK; destruct HK).
  - injection HE as <-. injection HD as <- <-. split.
    + split.
      * rewrite filter_true. destruct HS as (HS & _). induction HS as [|f f' l l' [Ht _] _ IH]; [constructor|].
        cbn [map]. rewrite Ht. change (f_off f' :: ?x) with ([f_off f'] ++ x). constructor; [constructor|exact IH].
      * rewrite filter_true. unfold fks, kinds. rewrite Ee. rewrite combine_map, map_map.
        unfold all_pieces. induction (i_fields i); [reflexivity|]. cbn. now f_equal.
    + rewrite map_map. reflexivity.
  - apply bind_ok in HE. destruct HE as (le & HLE & HE). apply bind_ok in HE. destruct HE as (re & HRE & HE). injection HE as <-.
    apply bind_ok in HD. destruct HD as (ld & HLD & HD). apply bind_ok in HD. destruct HD as (rd & HRD & HD). injection HD as <- <-.
    split; [|reflexivity].
    apply (build_pairs i i' (fun _ => true)); try rewrite !filter_true; auto; unfold coded_enc; rewrite Ee; exact I.
  - apply bind_ok in HE. destruct HE as (le & HLE & HE). apply bind_ok in HE. destruct HE as (re & HRE & HE). injection HE as <-.
    apply bind_ok in HD. destruct HD as (ld & HLD & HD). apply bind_ok in HD. destruct HD as (rd & HRD & HD). injection HD as <- <-.
    split; [|reflexivity].
    apply (build_pairs i i' (fun _ => true)); try rewrite !filter_true; auto; unfold coded_enc; rewrite Ee; exact I.
Qed.
