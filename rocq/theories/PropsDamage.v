(** C93: damage to a stored cloud stays in the chunks it hits, and may go unnoticed. *)
From Verif Require Import Base BaseFacts Types Floats Fields Codec V5 Api Spec LibSpec RoundTrip LocalFacts CodeFacts ApiFacts CloudApi Cases PropsStage1 PropsCloud PropsRecode PropsCompare ConfineFacts SyncFacts PropsConfine PropsJoin DamageFacts.
From Coq Require Import Lia.
Open Scope Z_scope.

(** Byte [x] of the output buffer belongs to a field of a point of chunk number [k]. *)
Definition in_chunk_field (i : info) (ppc k : nat) (x : nat) : Prop :=
  exists j f, Z.of_nat (k * ppc) <= j < Z.of_nat (S k * ppc) /\ j < declared i /\ In f (i_fields i) /\ stored f = true /\
    j * i_step i + f_off f <= Z.of_nat x < j * i_step i + f_off f + Z.of_nat (SizeOf (f_type f)).
(** Payloads that can stand in a frame. *)
Definition payloads (ps : list (list Z)) : Prop := Forall (fun p => bytes p /\ zlen p < 2 ^ 32) ps.

(** ** Two streams
    [ps] and [ps']: the chunks of two streams, equally many.  They may come from anywhere.  If
    decoding returns normally on both, the two output buffers agree on every byte outside the fields
    of the points of the chunks that differ.  (The scratch buffers may differ as well.) *)
Theorem C93_confined : forall ops L ppc i ps ps' buf1 buf2 mem x1 m1 x2 m2,
  libs_ok L -> (0 < ppc)%nat -> 0 < i_step i -> 3 <= i_version i -> skips_supported i -> zlen mem < 4611686018427387904 ->
  payloads ps -> payloads ps' -> length ps = length ps' ->
  decode ops L ppc i (concat (map frame ps)) buf1 mem = Ok (x1, m1) ->
  decode ops L ppc i (concat (map frame ps')) buf2 mem = Ok (x2, m2) ->
  length m2 = length m1 /\
  forall x, (x < length m1)%nat ->
    (forall k p p', nth_error ps k = Some p -> nth_error ps' k = Some p' -> p <> p' -> ~ in_chunk_field i ppc k x) ->
    nth_error m1 x = nth_error m2 x.
Proof.
  intros ops L ppc i ps ps' buf1 buf2 mem x1 m1 x2 m2 HLi Hppc Hs Hv HA Hm HP HP' Hl H1 H2. apply skips_adaptive in HA. unfold payloads in *. change (2 ^ 32) with 4294967296 in *.
  unfold decode in H1, H2. apply bind_ok in H1. destruct H1 as ([ds minb] & HD & H1). rewrite HD in H2. cbn [bind] in H2.
  destruct (has_magic (concat (map frame ps))); [discriminate H1|]. destruct (has_magic (concat (map frame ps'))); [discriminate H2|].
  replace (3 <=? i_version i) with true in * by lia. set (n := u64 (i_width i * i_height i)) in *. assert (Hn : 0 <= n) by (unfold n, u64; apply Z.mod_pos_bound; lia).
  change 0 with (0 * i_step i) in H1 at 1. change 0 with (0 * i_step i) in H2 at 1.
  assert (HF' : Forall (fun p => zlen p < 4294967296) ps') by (eapply Forall_impl; [|exact HP']; intros p [_ Hp]; exact Hp).
  assert (HS0 : sync (fun _ => True) mem mem) by (split; auto).
  pose proof (loop_two ops L ppc i ds minb Hppc HLi Hs HA HD ps ps' _ _ buf1 buf2 n 0 (fun _ => True) mem mem x1 m1 x2 m2 Hl HP HF' Hn (Z.le_refl 0) Hm HS0 H1 H2) as [E1 E2].
  split; [exact E1|]. intros x Hx HN. apply E2; [exact Hx|]. split; [exact I|]. intros HQ.
  destruct (dmg_inv ppc i Hppc ps ps' 0 n (Z.of_nat x) Hn HQ) as (k & p & p' & A1 & A2 & A3 & (j & Hj & o & sz & Hin & Hk & Hx2)).
  apply (HN k p p' A1 A2 A3). apply in_map_iff in Hin. destruct Hin as (f & E & Hf). exists j, f. unfold declared. fold n.
  assert (o = f_off f /\ sz = SizeOf (f_type f)) as [-> ->] by (split; congruence). cbn [Nat.add] in Hj.
  split; [lia|]. split; [lia|]. split; [exact Hf|]. split; [unfold stored; lia|exact Hx2].
Qed.
Print Assumptions C93_confined.

(** ** A damaged cloud
    A stream of encode(), cut into its chunks [ps], and what became of them, [ps'] (other bytes,
    other lengths).  Unless decoding reports an error, every stored field of every point whose
    chunk is intact is restored as C17 says. *)
Lemma sub_same o sz : forall (a b : list Z), length b = length a -> 0 <= o -> (forall x, (x < length a)%nat -> o <= Z.of_nat x < o + Z.of_nat sz -> nth_error a x = nth_error b x) -> sub o sz a = sub o sz b.
Proof.
  intros a b Hl Ho H. unfold sub. set (q := Z.to_nat o). assert (Hq : o = Z.of_nat q) by (unfold q; lia). rewrite Hq in H. clearbody q. clear Ho Hq o.
  revert a b Hl H. induction q as [|q IH]; intros a b Hl H.
  - cbn [skipn]. revert a b Hl H. induction sz as [|sz IH]; intros [|x a] [|y b] Hl H; try discriminate Hl; try reflexivity. cbn [firstn]. cbn [length] in *. f_equal.
    + specialize (H O ltac:(lia) ltac:(lia)). cbn in H. congruence.
    + apply IH; [lia|]. intros z Hz Hr. apply (H (S z)); lia.
  - destruct a as [|x a], b as [|y b]; try discriminate Hl; [reflexivity|]. cbn [skipn]. cbn [length] in *. apply IH; [lia|]. intros z Hz Hr. apply (H (S z)); lia.
Qed.
Theorem C93_intact_chunks : forall ops L ppc probe i i' cloud body n ps ps' buf mem x m,
  libs_ok L -> encode_side ppc i cloud -> decode_side i i' -> deltas_ok ops i ppc cloud -> part ops L ppc probe i cloud body ->
  zlen body < 1431260227 -> zlen cloud = Z.of_nat n * i_step i -> declares i' n -> Z.of_nat n * i_step i' <= zlen mem < 4611686018427387904 ->
  i_comp i = COMP_NONE \/ worst_chunk i (Z.of_nat (Nat.min n ppc)) <= Z.of_nat n * i_step i' <= 2147483647 ->
  body = concat (map frame ps) -> payloads ps -> payloads ps' -> length ps = length ps' ->
  decode ops L ppc i' (concat (map frame ps')) buf mem = Ok (x, m) ->
  forall j f' f k, (j < n)%nat -> In (f', (f, k)) (combine (i_fields i') (combine (i_fields i) (kinds i))) -> stored f' = true ->
    nth_error ps (j / ppc) = nth_error ps' (j / ppc) ->
    sub (Z.of_nat j * i_step i' + f_off f') (SizeOf (f_type f)) m = recon ops k (fbytes i f cloud j).
Proof.
  intros ops L ppc probe i i' cloud body n ps ps' buf mem x m HLi HES HDS HD HPa Hz Hlen Hdec Hm Hcap Hb HP HP' Hl H j f' f k Hj Hin Hst Heq.
  assert (HO : exists buf' m0, decode ops L ppc i' body buf mem = Ok (buf', m0) /\ restored ops i i' n cloud mem m0).
  { pose proof (C89_joined ops L ppc probe i i' [cloud] [body] n buf mem HLi) as HJ. cbn [concat removelast] in HJ. rewrite !app_nil_r in HJ. apply HJ; auto; [discriminate|lia]. }
  destruct HO as (x0 & m0 & H0 & HR). destruct HR as (R1 & R2 & _). rewrite Hb in H0.
  pose proof HDS as (HS & HO & _ & _ & HN & _ & Hver). pose proof HES as (_ & _ & (Hp & _) & _). destruct HO as [HO0 HO1].
  destruct (C93_confined ops L ppc i' ps ps' buf buf mem x0 m0 x m HLi Hp HO0 Hver) as [E1 E2]; auto; [|lia|].
  { intros _ g Hg Hw. unfold ints_stored in HN. rewrite Forall_forall in HN. apply HN; assumption. }
  rewrite <- (R2 j f' f k Hj Hin Hst). symmetry.
  assert (Hf' : In f' (i_fields i')) by (eapply in_combine_l; exact Hin). rewrite Forall_forall in HO1. specialize (HO1 f' Hf' Hst).
  assert (Hty : f_type f = f_type f').
  { destruct HS as [HS _]. clear - HS Hin. revert Hin. generalize (kinds i). induction HS as [|g g' l l' [Hg _] HS IH]; intros ks Hin; [contradiction|].
    destruct ks as [|k0 ks]; [contradiction|]. cbn [combine] in Hin. destruct Hin as [E|Hin]; [congruence|]. eapply IH; exact Hin. }
  apply sub_same; [exact E1|nia|]. intros y Hy Hr. apply E2; [exact Hy|]. intros q p p' A1 A2 A3 (j2 & f2 & B1 & _ & B3 & B4 & B5).
  specialize (E2 y Hy). pose proof (HDS) as (_ & (_ & HO2) & _). rewrite Forall_forall in HO2. specialize (HO2 f2 B3 B4). rewrite Hty in Hr.
  assert (j2 = Z.of_nat j) by nia. subst j2. assert (q = (j / ppc)%nat).
  { symmetry. assert (Hjq : (q * ppc <= j < S q * ppc)%nat) by lia. clear - Hjq Hp. symmetry. apply (Nat.div_unique j ppc q (j - q * ppc)); nia. }
  subst q. congruence.
Qed.
Print Assumptions C93_intact_chunks.

(** ** A case
    The two points of C91, one per chunk; one bit of the first chunk is flipped.  Decoding returns
    normally: the x of the first point is another one, the second point is intact. *)
Definition dmg_p0 : list Z := [185; 23; 148; 35; 0; 141; 49; 0; 15; 0; 6].
Definition dmg_q0 : list Z := [185; 21; 148; 35; 0; 141; 49; 0; 15; 0; 6].
Definition dmg_p1 : list Z := [1; 241; 46; 209; 15; 189; 42; 0; 233; 7; 0; 129; 128; 128; 128; 128; 64].
Definition dmg_body (ps : list (list Z)) : list Z := concat (map frame ps).
Definition dmg_enc : encoder := match PointcloudEncoder near_info (Ok []) with Ok e => e | _ => mkEnc near_info [] [] [] end.
Definition dmg_run (ps : list (list Z)) : res (list Z * list Z) := decode sse_ops store_libs 1 near_info (dmg_body ps) [] (repeat 255 64).
Lemma dmg_payloads ps : forallb (fun p => forallb (fun b => (0 <=? b) && (b <? 256)) p && (zlen p <? 4294967296)) ps = true -> payloads ps.
Proof.
  intros H. apply Forall_forall. intros p Hp. rewrite forallb_forall in H. specialize (H p Hp). apply andb_prop in H. destruct H as [H1 H2]. change (2 ^ 32) with 4294967296. split; [|lia].
  apply Forall_forall. intros b Hb. rewrite forallb_forall in H1. specialize (H1 b Hb). unfold is_byte. lia.
Qed.
Lemma near_sides : encode_side 1 near_info near_cloud /\ decode_side near_info near_info.
Proof.
  split.
  - split; [split; [reflexivity|repeat constructor; cbn; lia]|]. split; [exact I|]. split; [|apply bytesb; vm_compute; reflexivity]. split; [lia|]. split; [lia|vm_compute; discriminate].
  - split; [split; [repeat constructor|auto]|]. split; [split; [reflexivity|repeat constructor; cbn; lia]|]. split; [left; cbn; repeat constructor; cbn; lia|]. split; [repeat constructor|]. split; [repeat constructor|split; [reflexivity|cbn; lia]].
Qed.
Lemma dmg_part : part sse_ops store_libs 1 4096 near_info near_cloud (dmg_body [dmg_p0; dmg_p1]).
Proof.
  exists 2, 1, [], dmg_enc, []. split; [constructor|]. split; [apply eo_new; vm_compute; reflexivity|]. right.
  destruct (encode_vec sse_ops store_libs 1 4096 dmg_enc near_cloud []) as [[r o] e'] eqn:E. exists [], (zlen o), o, e'. split; [constructor|].
  assert (A : fst (encode_vec sse_ops store_libs 1 4096 dmg_enc near_cloud []) = (Ok 36, dmg_body [dmg_p0; dmg_p1])) by (vm_compute; reflexivity). rewrite E in A. cbn [fst] in A.
  apply pair_equal_spec in A. destruct A as [-> ->]. split; [rewrite E; f_equal|]. split; [reflexivity|]. split; [reflexivity|]. vm_compute. reflexivity.
Qed.
Example C93_case : let i := near_info in let ps := [dmg_p0; dmg_p1] in let ps' := [dmg_q0; dmg_p1] in
  encode_side 1 i near_cloud /\ decode_side i i /\ deltas_ok sse_ops i 1 near_cloud /\
  part sse_ops store_libs 1 4096 i near_cloud (dmg_body ps) /\ zlen (dmg_body ps) < 1431260227 /\ zlen near_cloud = Z.of_nat 2 * i_step i /\ declares i 2 /\
  i_comp i = COMP_NONE /\ skips_supported i /\ payloads ps /\ payloads ps' /\ length ps = length ps' /\
  nth_error ps 1 = nth_error ps' 1 /\ nth_error ps 0 <> nth_error ps' 0 /\
  (exists x m, dmg_run ps = Ok (x, m)) /\ (exists x m, dmg_run ps' = Ok (x, m)).
Proof.
  cbv zeta. split; [apply near_sides|]. split; [apply near_sides|]. split; [apply (deltas_okb_ok _ _ _ _ 2); [vm_compute; reflexivity|reflexivity|vm_compute; reflexivity]|].
  split; [exact dmg_part|]. split; [vm_compute; reflexivity|]. split; [reflexivity|]. split; [reflexivity|]. split; [reflexivity|].
  split; [intros _ f Hf _; cbn in Hf; repeat (destruct Hf as [<-|Hf]; [reflexivity|]); contradiction|].
  split; [apply dmg_payloads; vm_compute; reflexivity|]. split; [apply dmg_payloads; vm_compute; reflexivity|]. split; [reflexivity|]. split; [reflexivity|]. split; [vm_compute; discriminate|].
  split; eexists; eexists; vm_compute; reflexivity.
Qed.

(** ** Damage is not always noticed
    There is no checksum: a stream with one bit flipped in a chunk decodes without an error, to
    another point; and so does one with two chunks exchanged. *)
Theorem C93_flip_noticed_refuted : ~ (forall ops L ppc i ps k p p' buf mem x m, libs_ok L -> (0 < ppc)%nat -> payloads ps ->
  nth_error ps k = Some p -> zlen p' = zlen p -> bytes p' -> p' <> p ->
  decode ops L ppc i (concat (map frame ps)) buf mem = Ok (x, m) ->
  let ps' := firstn k ps ++ p' :: skipn (S k) ps in
  decode ops L ppc i (concat (map frame ps')) buf mem = Throw \/ exists x', decode ops L ppc i (concat (map frame ps')) buf mem = Ok (x', m)).
Proof.
  intros H.
  assert (HD : exists x m, dmg_run [dmg_p0; dmg_p1] = Ok (x, m)) by (eexists; eexists; vm_compute; reflexivity). destruct HD as (x & m & HD).
  specialize (H sse_ops store_libs 1%nat near_info [dmg_p0; dmg_p1] 0%nat dmg_p0 dmg_q0 [] (repeat 255 64) x m store_libs_ok ltac:(lia)).
  specialize (H ltac:(apply dmg_payloads; vm_compute; reflexivity) eq_refl eq_refl ltac:(apply bytesb; vm_compute; reflexivity) ltac:(vm_compute; discriminate) HD).
  cbv zeta in H. cbn [firstn skipn app] in H.
  assert (E : match dmg_run [dmg_p0; dmg_p1], dmg_run [dmg_q0; dmg_p1] with Ok (_, m1), Ok (_, m2) => negb (nth 0 m1 0 =? nth 0 m2 0) | _, _ => false end = true) by (vm_compute; reflexivity).
  rewrite HD in E. unfold dmg_run, dmg_body in E. destruct H as [H|[x' H]]; rewrite H in E; [discriminate E|]. rewrite Z.eqb_refl in E. discriminate E.
Qed.
Print Assumptions C93_flip_noticed_refuted.
Theorem C93_exchange_noticed_refuted : ~ (forall ops L ppc i p q buf mem x m, libs_ok L -> (0 < ppc)%nat -> payloads [p; q] -> p <> q ->
  decode ops L ppc i (concat (map frame [p; q])) buf mem = Ok (x, m) ->
  decode ops L ppc i (concat (map frame [q; p])) buf mem = Throw \/ exists x', decode ops L ppc i (concat (map frame [q; p])) buf mem = Ok (x', m)).
Proof.
  intros H.
  assert (HD : exists x m, dmg_run [dmg_p0; dmg_p1] = Ok (x, m)) by (eexists; eexists; vm_compute; reflexivity). destruct HD as (x & m & HD).
  specialize (H sse_ops store_libs 1%nat near_info dmg_p0 dmg_p1 [] (repeat 255 64) x m store_libs_ok ltac:(lia)).
  specialize (H ltac:(apply dmg_payloads; vm_compute; reflexivity) ltac:(vm_compute; discriminate) HD).
  assert (E : match dmg_run [dmg_p0; dmg_p1], dmg_run [dmg_p1; dmg_p0] with Ok (_, m1), Ok (_, m2) => negb (nth 0 m1 0 =? nth 0 m2 0) | _, _ => false end = true) by (vm_compute; reflexivity).
  rewrite HD in E. unfold dmg_run, dmg_body in E. destruct H as [H|[x' H]]; rewrite H in E; [discriminate E|]. rewrite Z.eqb_refl in E. discriminate E.
Qed.
Print Assumptions C93_exchange_noticed_refuted.
