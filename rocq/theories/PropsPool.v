(** C50: the PCL subscriber's pool of clouds.  The specification:
    - [sound]: what must hold after every event of every history;
    - [message_cloud]: the cloud a message stands for: its payload decoded into a new cloud;
    - [orderly]: when the subscriber is destroyed nobody holds a cloud. *)
From Verif Require Import Base BaseFacts Types Floats V5 Api LibSpec ApiFacts Header FloatText Cdr Ros Cases PropsRos Pcl Pool.
From Coq Require Import Permutation.

(** At most four clouds are pooled; no cloud is pooled twice, held through two unrelated
    shared_ptrs, or both pooled and held; and the allocated clouds are exactly the pooled and the
    held ones (none is lost, and none is referred to after its deletion). *)
Definition sound (s : pool_state) : Prop :=
  (length (ps_pool s) <= 4)%nat /\ NoDup (ps_pool s ++ ps_owned s) /\ Permutation (ps_live s) (ps_pool s ++ ps_owned s).
Definition message_cloud (ft : float_text) (ops : float_ops) (L : libs) (ppc : nat) (msg : list Z) : res pcl_cloud :=
  do pc <- getDeserializedPointCloudMessage msg ; PCLPointCloudDecode ft ops L ppc (r_data pc) new_cloud.
Definition with_header (h : list Z) (c : pcl_cloud) : pcl_cloud :=
  mkPC h (pc_height c) (pc_width c) (pc_fields c) (pc_big c) (pc_step c) (pc_row c) (pc_data c) (pc_dense c).

Lemma has_In a l : has a l = true <-> In a l.
Proof. unfold has. rewrite existsb_exists. split; [intros (x & H & E); apply Z.eqb_eq in E; congruence | intros H; exists a; split; [exact H|apply Z.eqb_refl]]. Qed.
Lemma remove_cons a x l : remove_one a (x :: l) = if x =? a then remove_one a l else x :: remove_one a l.
Proof. unfold remove_one. cbn [filter]. destruct (x =? a); reflexivity. Qed.
Lemma remove_not a l : ~ In a l -> remove_one a l = l.
Proof. induction l as [|x l IH]; intros H; [reflexivity|]. rewrite remove_cons. destruct (Z.eqb_spec x a) as [E|E]; [destruct H; now left|]. f_equal. apply IH. intros K. apply H. now right. Qed.
Lemma remove_perm a l : NoDup l -> In a l -> Permutation l (a :: remove_one a l).
Proof.
  induction l as [|x l IH]; intros N H; [destruct H|]. inversion N; subst. rewrite remove_cons. destruct (Z.eqb_spec x a) as [-> | E].
  - rewrite remove_not by assumption. apply Permutation_refl.
  - destruct H as [H|H]; [congruence|]. rewrite (IH ltac:(assumption) H) at 1. apply perm_swap.
Qed.
Lemma nodup_right (l1 l2 : list Z) : NoDup (l1 ++ l2) -> NoDup l2.
Proof. induction l1 as [|x l IH]; intros H; [exact H|]. apply IH. now inversion H. Qed.
(** moving a held address to the pool *)
Lemma to_pool p pool owned : NoDup (pool ++ owned) -> In p owned -> Permutation (pool ++ owned) ((p :: pool) ++ remove_one p owned).
Proof. intros N H. rewrite (remove_perm p owned (nodup_right _ _ N) H) at 1. cbn [app]. symmetry. apply Permutation_middle. Qed.

Section Pool.
  Variables (ft : float_text) (ops : float_ops) (L : libs) (ppc : nat).
  Local Notation step := (step ft ops L ppc).
  Local Notation history := (history ft ops L ppc).
  Local Notation message_cloud := (message_cloud ft ops L ppc).

  Definition inv (s : pool_state) : Prop :=
    sound s /\ (forall p, In p (ps_pool s) -> pc_fields (ps_mem s p) = [] /\ pc_data (ps_mem s p) = []) /\ (ps_alive s = false -> ps_pool s = []).

  Lemma decode_new d c : pc_data c = [] ->
    PCLPointCloudDecode ft ops L ppc d c = match PCLPointCloudDecode ft ops L ppc d new_cloud with Ok c0 => Ok (with_header (pc_header c) c0) | Throw => Throw | UB => UB end.
  Proof.
    intros H. unfold PCLPointCloudDecode. rewrite H. cbn [pc_data new_cloud]. destruct (DecodeHeader ft d) as [[i rest]| |]; cbn [bind]; [|reflexivity|reflexivity].
    destruct (decode ops L ppc i rest [] _) as [[o m]| |]; reflexivity.
  Qed.
  Lemma live_pool s p : sound s -> In p (ps_pool s) -> In p (ps_live s).
  Proof. intros (_ & _ & P) H. apply (Permutation_in _ (Permutation_sym P)). apply in_or_app. now left. Qed.
  Lemma live_owned s p : sound s -> In p (ps_owned s) -> In p (ps_live s).
  Proof. intros (_ & _ & P) H. apply (Permutation_in _ (Permutation_sym P)). apply in_or_app. now right. Qed.
  Lemma release_ok p s : inv s -> ps_alive s = true -> In p (ps_owned s) ->
    exists s', release p s = Ok s' /\ inv s' /\ ps_alive s' = true /\ ps_owned s' = remove_one p (ps_owned s) /\ (forall q, q <> p -> ps_mem s' q = ps_mem s q).
  Proof.
    intros ((H4 & N & P) & HE & HA) Al Hp. unfold release. rewrite Al. cbn [negb].
    pose proof (to_pool p _ _ N Hp) as TP. pose proof (live_owned s p ltac:(repeat split; assumption) Hp) as HL.
    assert (N2 : NoDup ((p :: ps_pool s) ++ remove_one p (ps_owned s))) by exact (Permutation_NoDup TP N).
    destruct (length (ps_pool s) <? MAX_POOL_SIZE)%nat eqn:EL.
    - apply Nat.ltb_lt in EL. unfold MAX_POOL_SIZE in EL. destruct (has p (ps_live s)) eqn:EH; [|apply has_In in HL; congruence].
      eexists. split; [reflexivity|]. split; [split; [|split]|].
      + split; [cbn [ps_pool length]; lia|]. split; [exact N2|]. cbn [ps_live ps_pool ps_owned]. now rewrite P.
      + cbn [ps_pool ps_mem]. intros q [<-|Hq]; unfold set_mem; [rewrite Z.eqb_refl; split; reflexivity|]. destruct (Z.eqb_spec q p); [split; reflexivity|]. now apply HE.
      + cbn. discriminate.
      + split; [reflexivity|]. split; [reflexivity|]. intros q Hq. cbn [ps_mem]. unfold set_mem. destruct (Z.eqb_spec q p); [contradiction|reflexivity].
    - unfold delete. cbn [ps_live ps_pool ps_owned ps_alive ps_mem]. destruct (has p (ps_live s)) eqn:EH; [|apply has_In in HL; congruence].
      eexists. split; [reflexivity|].
      assert (PL : Permutation (remove_one p (ps_live s)) (ps_pool s ++ remove_one p (ps_owned s))).
      { apply Permutation_cons_inv with (a := p). rewrite <- remove_perm; [|exact (Permutation_NoDup (Permutation_sym P) N)|exact HL]. rewrite P. exact TP. }
      split; [split; [|split]|].
      + split; [exact H4|]. split; [|exact PL]. cbn [ps_pool ps_owned]. cbn [app] in N2. now inversion N2.
      + exact HE.
      + cbn. discriminate.
      + split; [reflexivity|]. split; [reflexivity|]. reflexivity.
  Qed.
  Lemma acquire_ok a s : inv s -> ps_alive s = true -> ~ In a (ps_live s) ->
    exists p s', acquire a s = Ok (p, s') /\ sound s' /\ ps_alive s' = true /\ ps_owned s' = p :: ps_owned s /\ ~ In p (ps_owned s) /\ pc_data (ps_mem s' p) = [] /\
      (forall q, In q (ps_pool s') -> q <> p /\ pc_fields (ps_mem s' q) = [] /\ pc_data (ps_mem s' q) = []) /\
      (forall q, q <> p -> ps_mem s' q = ps_mem s q) /\ pc_header (ps_mem s' p) = match ps_pool s with q :: _ => pc_header (ps_mem s q) | [] => [] end.
  Proof.
    intros ((H4 & N & P) & HE & HA) Al Ha. unfold acquire. destruct (ps_pool s) as [|p pool] eqn:EP.
    - eexists _, _. split; [reflexivity|]. cbn [app] in *. assert (Ho : ~ In a (ps_owned s)) by (intros K; apply Ha; apply (Permutation_in _ (Permutation_sym P)); exact K).
      split; [split; [cbn; lia|split; [cbn; constructor; assumption|cbn; now constructor]]|]. split; [exact Al|]. split; [reflexivity|]. split; [exact Ho|].
      cbn [ps_pool ps_mem]. unfold set_mem. rewrite Z.eqb_refl. split; [reflexivity|]. split; [intros q []|]. split; [|reflexivity]. intros q Hq. destruct (Z.eqb_spec q a); [contradiction|reflexivity].
    - eexists _, _. split; [reflexivity|]. cbn [app] in N. assert (Hn : ~ In p (pool ++ ps_owned s)) by (now inversion N).
      split; [split; [cbn [length ps_pool] in *; lia|split]|].
      + cbn [ps_pool ps_owned]. apply (Permutation_NoDup (Permutation_middle pool (ps_owned s) p)). exact N.
      + cbn [ps_pool ps_owned ps_live]. rewrite P. cbn [app]. apply Permutation_middle.
      + split; [exact Al|]. split; [reflexivity|]. split; [intros K; apply Hn, in_or_app; now right|]. cbn [ps_pool ps_mem]. split; [apply HE; now left|].
        split; [|split; reflexivity]. intros q Hq. split; [intros ->; apply Hn, in_or_app; now left|]. apply HE. now right.
  Qed.
  Lemma delete_all_ok l s : Permutation (ps_live s) (l ++ ps_owned s) -> NoDup (l ++ ps_owned s) ->
    exists s', delete_all l s = Ok s' /\ Permutation (ps_live s') (ps_owned s) /\ ps_owned s' = ps_owned s /\ ps_mem s' = ps_mem s.
  Proof.
    revert s. induction l as [|a l IH]; intros s P N; cbn [delete_all].
    - exists s. split; [reflexivity|]. split; [exact P|]. split; reflexivity.
    - unfold delete. assert (Ha : In a (ps_live s)) by (apply (Permutation_in _ (Permutation_sym P)); now left).
      destruct (has a (ps_live s)) eqn:E; [|apply has_In in Ha; congruence]. cbn [bind].
      edestruct (IH (mkPS (ps_alive s) (ps_pool s) (remove_one a (ps_live s)) (ps_owned s) (ps_mem s))) as (s' & A & B & C & D).
      + cbn [ps_live ps_owned]. apply Permutation_cons_inv with (a := a). rewrite <- remove_perm; [exact P|exact (Permutation_NoDup (Permutation_sym P) N)|exact Ha].
      + cbn [ps_owned]. now inversion N.
      + exists s'. split; [exact A|]. split; [exact B|]. split; [exact C|exact D].
  Qed.
  Lemma remove_head p l : ~ In p l -> remove_one p (p :: l) = l.
  Proof. intros H. rewrite remove_cons, Z.eqb_refl. now apply remove_not. Qed.

  (** what one message does *)
  Lemma message_step s msg a junk : inv s -> possible s (Message msg a junk) ->
    match step s (Message msg a junk) with
    | Ok (s', out) => inv s' /\ (forall q, In q (ps_owned s) -> ps_mem s' q = ps_mem s q) /\
        match message_cloud msg with
        | Ok c => exists p, ~ In p (ps_owned s) /\ ps_owned s' = p :: ps_owned s /\ ps_mem s' p = with_header (match ps_pool s with q :: _ => pc_header (ps_mem s q) | [] => [] end) c /\ out = [(p, ps_mem s' p)]
        | Throw => ps_owned s' = ps_owned s /\ out = []
        | UB => False
        end
    | Throw => False
    | UB => message_cloud msg = UB
    end.
  Proof.
    intros HI (Al & Ha). cbn [step]. unfold message_cloud. destruct (getDeserializedPointCloudMessage msg) as [pc| |] eqn:EG; cbn [bind]; [| |reflexivity].
    2:{ split; [exact HI|]. split; [reflexivity|]. split; reflexivity. }
    destruct (acquire_ok a s HI Al Ha) as (p & s' & -> & HS & Al' & Ho & Hn & HD & HP & HM & HH). cbn [bind].
    pose proof (live_owned s' p HS ltac:(rewrite Ho; now left)) as HL. destruct (has p (ps_live s')) eqn:EH; [|apply has_In in HL; congruence]. cbn [negb].
    rewrite (decode_new _ _ HD). destruct (PCLPointCloudDecode ft ops L ppc (r_data pc) new_cloud) as [c| |] eqn:ED; [| |reflexivity].
    - split; [split; [exact HS|split]|split].
      + cbn [ps_pool ps_mem]. intros q Hq. unfold set_mem. destruct (HP q Hq) as (K & F & G). destruct (Z.eqb_spec q p); [contradiction|]. now split.
      + cbn. rewrite Al'. discriminate.
      + cbn [ps_mem]. intros q Hq. unfold set_mem. destruct (Z.eqb_spec q p); [subst; contradiction|]. apply HM. assumption.
      + exists p. split; [exact Hn|]. split; [exact Ho|]. cbn [ps_mem]. unfold set_mem. rewrite Z.eqb_refl, HH. split; reflexivity.
    - match goal with |- context [release p ?x] => set (s1 := x) end.
      assert (H1 : inv s1). { split; [exact HS|]. split; [|cbn; rewrite Al'; discriminate]. cbn [ps_pool ps_mem s1]. intros q Hq. unfold set_mem. destruct (HP q Hq) as (K & F & G). destruct (Z.eqb_spec q p); [contradiction|]. now split. }
      destruct (release_ok p s1 H1 Al' ltac:(cbn; rewrite Ho; now left)) as (s2 & -> & I2 & A2 & O2 & M2). cbn [bind]. split; [exact I2|].
      split; [|split; [|reflexivity]].
      + intros q Hq. assert (q <> p) by (intros ->; contradiction). rewrite M2 by assumption. cbn [ps_mem s1]. unfold set_mem. destruct (Z.eqb_spec q p); [contradiction|]. now apply HM.
      + rewrite O2. cbn [ps_owned s1]. rewrite Ho. now apply remove_head.
  Qed.
  Lemma step_ok s e : inv s -> possible s e ->
    match step s e with
    | Ok (s', _) => inv s'
    | Throw => False
    | UB => (exists p, e = Drop p /\ ps_alive s = false) \/ exists msg a junk, e = Message msg a junk /\ message_cloud msg = UB
    end.
  Proof.
    intros HI HP. destruct e as [msg a junk|p c|p|].
    - pose proof (message_step s msg a junk HI HP) as H. destruct (step s _) as [[s' out]| |]; [apply H|exact H|]. right. eexists _, _, _. split; [reflexivity|exact H].
    - cbn [step possible] in *. destruct HI as (HS & HE & HA). pose proof (live_owned s p HS HP) as HL. destruct (has p (ps_live s)) eqn:E; [|apply has_In in HL; congruence].
      split; [exact HS|]. split; [|exact HA]. cbn [ps_pool ps_mem]. intros q Hq. unfold set_mem. destruct (Z.eqb_spec q p) as [-> | K]; [|now apply HE].
      exfalso. destruct HS as (_ & N & _). apply in_split in HP. destruct HP as (l1 & l2 & E2). rewrite E2, app_assoc in N. apply NoDup_remove_2 in N. apply N. apply in_or_app. left. apply in_or_app. now left.
    - cbn [step possible] in *. destruct (ps_alive s) eqn:Al.
      + destruct (release_ok p s HI Al HP) as (s' & -> & H & _). exact H.
      + unfold release. rewrite Al. left. exists p. now split.
    - cbn [step possible] in *. destruct HI as ((H4 & N & P) & HE & HA). unfold destroy. destruct (delete_all_ok _ s P N) as (s' & -> & B & C & D). cbn [bind].
      split; [split; [cbn; lia|split]|split].
      + cbn [ps_pool ps_owned app]. rewrite C. exact (nodup_right _ _ N).
      + cbn [ps_pool ps_owned ps_live app]. now rewrite C.
      + intros q [].
      + reflexivity.
  Qed.
  Lemma initial_inv : inv initial.
  Proof. split; [split; [cbn; lia|split; [constructor|constructor]]|]. split; [intros p []|reflexivity]. Qed.
  Lemma history_inv s es r : history s es r -> inv s -> match r with Ok (s', _) => inv s' | Throw => False | UB => True end.
  Proof.
    induction 1 as [s|s e es HP HE|s e es s1 out r HP HE HH IH]; intros HI; [exact HI|exact I|].
    pose proof (step_ok s e HI HP) as HS. rewrite HE in HS. specialize (IH HS). destruct r as [[s2 out2]| |]; exact IH.
  Qed.

  (** After every history the pool is sound. *)
  Theorem C50_pool es s out : history initial es (Ok (s, out)) -> sound s.
  Proof. intros H. apply (history_inv _ _ _ H initial_inv). Qed.

  (** A message after any history: if it is valid, the callback gets a cloud nobody holds, with
      exactly the message's cloud in it except for the header; if not, the callback is not called
      and nobody holds more or fewer clouds than before.  In both cases the clouds held by others
      keep their contents. *)
  Theorem C50_delivered es s out msg a junk s' new : history initial es (Ok (s, out)) -> possible s (Message msg a junk) -> step s (Message msg a junk) = Ok (s', new) ->
    (forall q, In q (ps_owned s) -> ps_mem s' q = ps_mem s q) /\
    ((exists c p h, message_cloud msg = Ok c /\ new = [(p, with_header h c)] /\ ps_mem s' p = with_header h c /\ ~ In p (ps_owned s) /\ ps_owned s' = p :: ps_owned s) \/
     (message_cloud msg = Throw /\ new = [] /\ ps_owned s' = ps_owned s)).
  Proof.
    intros HH HP HE. pose proof (message_step s msg a junk (history_inv _ _ _ HH initial_inv) HP) as H. rewrite HE in H. destruct H as (_ & HM & H). split; [exact HM|].
    destruct (message_cloud msg) as [c| |]; [|right; split; [reflexivity|]; destruct H; now split|destruct H].
    left. destruct H as (p & A & B & C & D). eexists c, p, _. split; [reflexivity|]. split; [rewrite D, C; reflexivity|]. split; [exact C|]. split; assumption.
  Qed.

  (** When the subscriber is destroyed nobody holds a cloud. *)
  Definition orderly (es : list event) : Prop := forall pre post s out, es = pre ++ Destroy :: post -> history initial pre (Ok (s, out)) -> ps_owned s = [].
  Lemma history_app s es s1 o1 es2 r : history s es (Ok (s1, o1)) -> history s1 es2 r ->
    history s (es ++ es2) (match r with Ok (s2, out2) => Ok (s2, o1 ++ out2) | Throw => Throw | UB => UB end).
  Proof.
    intros H H2. remember (Ok (s1, o1)) as r1 eqn:E. revert s1 o1 E H2. induction H as [s|s e es HP HE|s e es s2 out r0 HP HE HH IH]; intros s1 o1 E H2.
    - assert (s = s1 /\ [] = o1) as (-> & <-) by (split; congruence). cbn [app]. destruct r as [[s2 out2]| |]; exact H2.
    - discriminate.
    - destruct r0 as [[s3 o3]| |]; try discriminate. assert (s3 = s1 /\ out ++ o3 = o1) as (-> & <-) by (split; congruence). specialize (IH _ _ eq_refl H2). cbn [app].
      pose proof (h_cons ft ops L ppc _ _ _ _ _ _ HP HE IH) as K. destruct r as [[s4 o4]| |]; [rewrite <- app_assoc|..]; exact K.
  Qed.
  (** Every history of messages that do not themselves crash the decoder, in which the subscriber is
      destroyed only when nobody holds a cloud, is free of memory errors; and once it is destroyed no
      cloud is left allocated. *)
  Theorem C50_safe es r : history initial es r -> orderly es -> (forall msg a junk, In (Message msg a junk) es -> message_cloud msg <> UB) ->
    exists s out, r = Ok (s, out) /\ (ps_alive s = false -> ps_live s = []).
  Proof.
    intros HH HO HM.
    assert (G : forall s es2 r, history s es2 r -> forall pre o, es = pre ++ es2 -> history initial pre (Ok (s, o)) -> (ps_alive s = false -> ps_owned s = []) ->
      exists s' out, r = Ok (s', out) /\ (ps_alive s' = false -> ps_owned s' = [])).
    { induction 1 as [s|s e es2 HP HE|s e es2 s1 out r0 HP HE HH2 IH]; intros pre o E HB HA.
      - eexists _, _. split; [reflexivity|exact HA].
      - exfalso. pose proof (step_ok s e (history_inv _ _ _ HB initial_inv) HP) as K. rewrite HE in K. destruct K as [(p & -> & K)|(m & a & j & -> & K)].
        + cbn [possible] in HP. rewrite (HA K) in HP. destruct HP.
        + apply (HM m a j); [rewrite E; apply in_or_app; right; now left|exact K].
      - assert (HB1 : history initial (pre ++ [e]) (Ok (s1, o ++ out))).
        { pose proof (h_cons ft ops L ppc s e [] s1 out _ HP HE (h_nil ft ops L ppc s1)) as K. cbn beta iota in K. rewrite app_nil_r in K. exact (history_app _ _ _ _ _ _ HB K). }
        destruct (IH (pre ++ [e]) (o ++ out)) as (s' & out' & -> & K).
        + rewrite <- app_assoc. exact E.
        + exact HB1.
        + intros A1. destruct e as [msg a junk|p c|p|].
          * exfalso. pose proof (message_step s msg a junk (history_inv _ _ _ HB initial_inv) HP) as K. destruct HP as (A0 & _). cbn [step] in HE.
            destruct (getDeserializedPointCloudMessage msg) as [pc| |]; [|congruence|discriminate].
            unfold acquire in HE. destruct (ps_pool s) as [|p0 pl]; cbn [bind ps_live ps_alive ps_pool ps_owned ps_mem] in HE.
            -- destruct (negb _); [discriminate|]. destruct (PCLPointCloudDecode _ _ _ _ _ _); [assert (A2 : ps_alive s1 = ps_alive s) by (injection HE; intros _ <-; reflexivity); congruence| |discriminate].
               unfold release in HE. cbn [ps_alive] in HE. rewrite A0 in HE. cbn [negb ps_pool length] in HE. change (0 <? MAX_POOL_SIZE)%nat with true in HE. cbn iota in HE. destruct (has _ _); [|discriminate]. cbn [bind] in HE. assert (A2 : ps_alive s1 = true) by (injection HE; intros _ <-; reflexivity). congruence.
            -- destruct (negb _); [discriminate|]. destruct (PCLPointCloudDecode _ _ _ _ _ _); [assert (A2 : ps_alive s1 = ps_alive s) by (injection HE; intros _ <-; reflexivity); congruence| |discriminate].
               unfold release, delete in HE. cbn [ps_alive ps_pool ps_live] in HE. rewrite A0 in HE. cbn [negb] in HE. destruct (_ <? _)%nat; destruct (has _ _); try discriminate; cbn [bind] in HE; assert (A2 : ps_alive s1 = true) by (injection HE; intros _ <-; reflexivity); congruence.
          * cbn [step] in HE. destruct (has _ _); [|discriminate]. assert (E1 : ps_alive s1 = ps_alive s /\ ps_owned s1 = ps_owned s) by (injection HE; intros _ <-; split; reflexivity). destruct E1 as (E1 & E2). rewrite E2. apply HA. congruence.
          * cbn [step possible] in *. destruct (ps_alive s) eqn:A0; [|rewrite (HA eq_refl) in HP; destruct HP].
            destruct (release_ok p s (history_inv _ _ _ HB initial_inv) A0 HP) as (s2 & E2 & _ & A2 & _). rewrite E2 in HE. cbn [bind] in HE. congruence.
          * cbn [step] in HE. destruct (history_inv _ _ _ HB initial_inv) as ((_ & N & P) & _). unfold destroy in HE. destruct (delete_all_ok _ s P N) as (s2 & E2 & _ & C & _). rewrite E2 in HE. cbn [bind] in HE.
            assert (E3 : ps_owned s1 = ps_owned s2) by (injection HE; intros _ <-; reflexivity). rewrite E3, C. exact (HO pre es2 s o E HB).
        + eexists _, _. split; [reflexivity|exact K]. }
    destruct (G _ _ _ HH [] [] eq_refl (h_nil _ _ _ _ _)) as (s & out & -> & K); [discriminate|]. exists s, out. split; [reflexivity|]. intros A.
    destruct (history_inv _ _ _ HH initial_inv) as ((_ & _ & P) & _ & Hd). rewrite (Hd A), (K A) in P. now apply Permutation_nil, Permutation_sym.
  Qed.
End Pool.

(** *** Concrete histories: the compressed scan of PropsRos.v, and a message that is not one *)
Definition scan_message : list Z :=
  match convertPointCloud2ToCompressedCloud gnu_text sse_ops store_libs 2 4096 (msg_cloud LITTLE) (scan 5 3 COMP_NONE) with Ok m => m | _ => [] end.
Definition no_message : list Z := [0; 1; 0; 0; 7].
Local Notation run := (history gnu_text sse_ops store_libs 2).
Lemma scan_decodes : exists c, message_cloud gnu_text sse_ops store_libs 2 scan_message = Ok c /\ pc_width c = 3 /\ pc_header c = [] /\ zlen (pc_data c) = 96.
Proof. eexists. split; [vm_compute; reflexivity|]. vm_compute. repeat split. Qed.
Lemma no_message_throws : message_cloud gnu_text sse_ops store_libs 2 no_message = Throw.
Proof. vm_compute. reflexivity. Qed.

(** Destroying the subscriber while a delivered cloud is still held: its release then locks a
    destroyed mutex and pushes onto a destroyed vector. *)
Theorem C50_destroy_refuted : exists msg c, message_cloud gnu_text sse_ops store_libs 2 msg = Ok c /\ run initial [Message msg 1 new_cloud; Destroy; Drop 1] UB.
Proof.
  destruct scan_decodes as (c & Hc & _). exists scan_message, c. split; [exact Hc|].
  eapply (h_cons _ _ _ _ _ _ _ _ _ UB); [split; [reflexivity|intros []]|vm_compute; reflexivity|].
  eapply (h_cons _ _ _ _ _ _ _ _ _ UB); [reflexivity|vm_compute; reflexivity|].
  apply h_stop; [now left|reflexivity].
Qed.
(** The message says when and in which frame the cloud was taken; the delivered cloud never does: a
    new object has an empty header, a reused one the header its former holder left in it. *)
Theorem C50_header_refuted : exists msg pc c h s d1 d2, getDeserializedPointCloudMessage msg = Ok pc /\ r_frame pc = [109; 97; 112] /\ r_sec pc = 1700000000 /\ h <> [] /\
  run initial [Message msg 1 new_cloud; Use 1 (mkPC h 0 0 [] false 0 0 [] false); Drop 1; Message msg 2 new_cloud] (Ok (s, [d1; d2])) /\
  d1 = (1, with_header [] c) /\ d2 = (1, with_header h c) /\ pc_width c = 3.
Proof.
  exists scan_message. eexists. destruct scan_decodes as (c & Hc & Hw & Hh & _). exists c, [9]. eexists _, _, _. split; [vm_compute; reflexivity|]. split; [reflexivity|]. split; [reflexivity|]. split; [discriminate|].
  split.
  - eapply (h_cons _ _ _ _ _ _ _ _ [_] (Ok (_, [_]))); [split; [reflexivity|intros []]|vm_compute; reflexivity|].
    eapply (h_cons _ _ _ _ _ _ _ _ [] (Ok (_, [_]))); [now left|vm_compute; reflexivity|].
    eapply (h_cons _ _ _ _ _ _ _ _ [] (Ok (_, [_]))); [now left|vm_compute; reflexivity|].
    eapply (h_cons _ _ _ _ _ _ _ _ [_] (Ok (_, []))); [split; [reflexivity|intros [K|[]]; discriminate K]|vm_compute; reflexivity|]. apply h_nil.
  - split; [|split; [|exact Hw]]; vm_compute in Hc; assert (E : c = match message_cloud gnu_text sse_ops store_libs 2 scan_message with Ok c => c | _ => new_cloud end) by (vm_compute; congruence); rewrite E; vm_compute; reflexivity.
Qed.
Lemma history_det ft ops L ppc s es r1 : history ft ops L ppc s es r1 -> forall r2, history ft ops L ppc s es r2 -> r1 = r2.
Proof.
  induction 1 as [s|s e es HP HE|s e es s1 out r HP HE HH IH]; intros r2 H2; inversion H2; subst; try congruence.
  match goal with A : step _ _ _ _ s e = Ok (?t, ?o), B : history _ _ _ _ ?t es ?q |- _ => assert (s1 = t /\ out = o) as (<- & <-) by (split; congruence); now rewrite (IH _ B) end.
Qed.
(** A history with a corrupt message, reuse and an orderly end. *)
Definition a_day : list event :=
  [Message scan_message 1 new_cloud; Message no_message 2 new_cloud; Message scan_message 3 new_cloud; Drop 1; Message scan_message 4 new_cloud; Drop 1; Drop 3].
Lemma a_day_runs : exists s out, run initial a_day (Ok (s, out)) /\ map fst out = [1; 3; 1] /\ ps_owned s = [] /\ exists s2, run s [Destroy] (Ok (s2, [])) /\ ps_live s2 = [].
Proof.
  eexists _, _. split.
  - eapply (h_cons _ _ _ _ _ _ _ _ [_] (Ok (_, [_; _]))); [split; [reflexivity|intros []]|vm_compute; reflexivity|].
    eapply (h_cons _ _ _ _ _ _ _ _ [] (Ok (_, [_; _]))); [split; [reflexivity|intros [K|[]]; discriminate K]|vm_compute; reflexivity|].
    eapply (h_cons _ _ _ _ _ _ _ _ [_] (Ok (_, [_]))); [split; [reflexivity|intros [K|[]]; discriminate K]|vm_compute; reflexivity|].
    eapply (h_cons _ _ _ _ _ _ _ _ [] (Ok (_, [_]))); [right; now left|vm_compute; reflexivity|].
    eapply (h_cons _ _ _ _ _ _ _ _ [_] (Ok (_, []))); [split; [reflexivity|intros [K|[K|[]]]; discriminate K]|vm_compute; reflexivity|].
    eapply (h_cons _ _ _ _ _ _ _ _ [] (Ok (_, []))); [now left|vm_compute; reflexivity|].
    eapply (h_cons _ _ _ _ _ _ _ _ [] (Ok (_, []))); [now left|vm_compute; reflexivity|]. apply h_nil.
  - split; [vm_compute; reflexivity|]. split; [reflexivity|]. eexists. split.
    + eapply (h_cons _ _ _ _ _ _ _ _ [] (Ok (_, []))); [reflexivity|vm_compute; reflexivity|]. apply h_nil.
    + reflexivity.
Qed.
Example C50_case : orderly gnu_text sse_ops store_libs 2 (a_day ++ [Destroy]) /\ (forall msg a junk, In (Message msg a junk) (a_day ++ [Destroy]) -> message_cloud gnu_text sse_ops store_libs 2 msg <> UB) /\
  exists s out, run initial (a_day ++ [Destroy]) (Ok (s, out)) /\ map fst out = [1; 3; 1].
Proof.
  destruct a_day_runs as (s & out & HR & HF & HO & s2 & HD & _). split; [|split].
  - intros pre post s1 o1 E H1. assert (pre = a_day) as ->.
    { unfold a_day in *. cbn [app] in E. do 7 (destruct pre as [|? pre]; [exfalso; revert E; cbn [app]; congruence|cbn [app] in E; assert (E' := f_equal (@tl event) E); cbn [tl] in E'; assert (E0 := f_equal (hd Destroy) E); cbn [hd] in E0; subst; clear E; rename E' into E]).
      destruct pre as [|? pre]; [reflexivity|]. cbn [app] in E. assert (K := f_equal (@length event) E). cbn [length] in K. rewrite app_length in K. cbn [length] in K. lia. }
    pose proof (history_det _ _ _ _ _ _ _ HR _ H1) as K. assert (s = s1) by congruence. now subst.
  - assert (N : message_cloud gnu_text sse_ops store_libs 2 scan_message <> UB) by (destruct scan_decodes as (c & -> & _); discriminate).
    assert (N2 : message_cloud gnu_text sse_ops store_libs 2 no_message <> UB) by (rewrite no_message_throws; discriminate).
    assert (F : Forall (fun e => match e with Message m _ _ => message_cloud gnu_text sse_ops store_libs 2 m <> UB | _ => True end) (a_day ++ [Destroy])).
    { unfold a_day. cbn [app]. repeat (apply Forall_cons; [first [exact N | exact N2 | exact I]|]). apply Forall_nil. }
    intros msg a junk H. rewrite Forall_forall in F. exact (F _ H).
  - eexists _, _. split; [exact (history_app _ _ _ _ _ _ _ _ _ _ HR HD)|]. now rewrite app_nil_r.
Qed.

Print Assumptions C50_pool.
Print Assumptions C50_delivered.
Print Assumptions C50_safe.
Print Assumptions C50_destroy_refuted.
Print Assumptions C50_header_refuted.
