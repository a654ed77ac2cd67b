(** The decoder never changes the size of the buffer it writes to, whatever the input. *)
From Verif Require Import Base BaseFacts Varint Types Floats Fields Codec V5 Api WriteFacts.

Definition post {A} (P : A -> Prop) (r : res A) : Prop := forall x, r = Ok x -> P x.
Lemma post_ok {A} (P : A -> Prop) x : P x -> post P (Ok x).
Proof. intros H y E. now replace y with x by congruence. Qed.
Lemma post_throw {A} (P : A -> Prop) : post P Throw.
Proof. intros y E. discriminate. Qed.
Lemma post_ub {A} (P : A -> Prop) : post P UB.
Proof. intros y E. discriminate. Qed.
Lemma post_bind {A B} (Q : A -> Prop) (P : B -> Prop) r k : post Q r -> (forall x, Q x -> post P (k x)) -> post P (bind r k).
Proof. intros H K y E. apply bind_ok in E. destruct E as (x & E1 & E2). exact (K x (H x E1) y E2). Qed.
Lemma post_any {A B} (P : B -> Prop) (r : res A) k : (forall x, post P (k x)) -> post P (bind r k).
Proof. intros K. apply (post_bind (fun _ => True)); [intros ? _; exact I|auto]. Qed.
Ltac easy_post := match goal with |- post _ Throw => apply post_throw | |- post _ UB => apply post_ub end.
Definition same1 (mem mem' : list Z) : Prop := length mem' = length mem.
Definition same2 {A} (mem : list Z) (r : A * list Z) : Prop := length (snd r) = length mem.

Lemma wr_post pos bs mem : post (same1 mem) (wr pos bs mem).
Proof. intros m E. unfold same1. now destruct (wr_inv _ _ _ _ E) as (_ & _ & _ & H). Qed.
Lemma stores_post base ss : forall mem, post (same1 mem) (do_stores base ss mem).
Proof.
  induction ss as [|[off bs] ss IH]; intros mem; cbn [do_stores]; [now apply post_ok|].
  apply (post_bind (same1 mem)); [apply wr_post|]. intros m Hm x Hx. unfold same1 in *. rewrite <- Hm. exact (IH m x Hx).
Qed.
Lemma point_post ops ds : forall sts input base mem, post (same2 mem) (dec_point ops ds sts input base mem).
Proof.
  induction ds as [|d ds IH]; intros [|st sts] input base mem; cbn [dec_point]; try easy_post; [now apply post_ok|].
  apply post_any. intros [[st' input'] ss]. apply (post_bind (same1 mem)); [apply stores_post|]. intros m Hm.
  apply (post_bind (same2 m)); [apply IH|]. intros [[s2 i2] m2] H2. apply post_ok. unfold same1, same2 in *. cbn [snd] in *. congruence.
Qed.
Lemma points_v4_post ops ds minb step n : forall sts input base mem, post (same2 mem) (dec_points_v4 ops ds minb step n sts input base mem).
Proof.
  induction n as [|n IH]; intros sts input base mem; cbn [dec_points_v4]; [now apply post_ok|]. destruct (_ <? minb)%nat; [easy_post|]. destruct (_ <? step); [easy_post|].
  apply (post_bind (same2 mem)); [apply point_post|]. intros [[s2 i2] m2] H2 x Hx. unfold same2 in *. cbn [snd] in H2. rewrite <- H2. exact (IH _ _ _ _ x Hx).
Qed.
Lemma points_v4_all_post ops ds minb step n : forall sts input base mem, post (same2 mem) (dec_points_v4_all ops ds minb step n sts input base mem).
Proof.
  induction n as [|n IH]; intros sts input base mem; cbn [dec_points_v4_all]; [easy_post|]. destruct input as [|b input]; [now apply post_ok|].
  destruct (_ <? minb)%nat; [easy_post|]. destruct (_ <? step); [easy_post|].
  apply (post_bind (same2 mem)); [apply point_post|]. intros [[s2 i2] m2] H2 x Hx. unfold same2 in *. cbn [snd] in H2. rewrite <- H2. exact (IH _ _ _ _ x Hx).
Qed.
Lemma points_v5_post ops ds step n : forall sts input base mem, post (same2 mem) (dec_points_v5 ops ds step n sts input base mem).
Proof.
  induction n as [|n IH]; intros sts input base mem; cbn [dec_points_v5]; [now apply post_ok|].
  apply (post_bind (same2 mem)); [apply point_post|]. intros [[s2 i2] m2] H2 x Hx. unfold same2 in *. cbn [snd] in H2. rewrite <- H2. exact (IH _ _ _ _ x Hx).
Qed.
Section Section1.
  Variables (a : afield) (base step npts : Z).
  Lemma put_post i v mem : post (same1 mem) (put_value a base step i v mem).
  Proof. apply wr_post. Qed.
  Lemma delta_post n : forall i prev input mem, post (same2 mem) (dec_delta a base step n i prev input mem).
  Proof.
    induction n as [|n IH]; intros i prev input mem; cbn [dec_delta]; [now apply post_ok|]. apply post_any. intros [diff count].
    apply (post_bind (same1 mem)); [apply put_post|]. intros m Hm x Hx. unfold same1, same2 in *. rewrite <- Hm. exact (IH _ _ _ _ x Hx).
  Qed.
  Lemma indexes_post n : forall i bits sc held pal ptr mem, post (same1 mem) (dec_indexes a base step n i bits sc held pal ptr mem).
  Proof.
    induction n as [|n IH]; intros i bits sc held pal ptr mem; cbn [dec_indexes]; [now apply post_ok|]. apply post_any. intros [[[idx sc'] held'] ptr'].
    destruct (nth_error _ _); [|easy_post]. apply (post_bind (same1 mem)); [apply put_post|]. intros m Hm x Hx. unfold same1 in *. rewrite <- Hm. exact (IH _ _ _ _ _ _ _ x Hx).
  Qed.
  Lemma run_post n : forall i len v mem, post (same2 mem) (fill_run a base step n i len v mem).
  Proof.
    induction n as [|n IH]; intros i len v mem; cbn [fill_run]; (destruct (len <=? 0); [now apply post_ok|]); [easy_post|].
    apply (post_bind (same1 mem)); [apply put_post|]. intros m Hm x Hx. unfold same1, same2 in *. rewrite <- Hm. exact (IH _ _ _ _ x Hx).
  Qed.
  Lemma drun_post n : forall i len prev diff mem, post (same2 mem) (fill_delta_run a base step n i len prev diff mem).
  Proof.
    induction n as [|n IH]; intros i len prev diff mem; cbn [fill_delta_run]; (destruct (len <=? 0); [now apply post_ok|]); [easy_post|].
    apply (post_bind (same1 mem)); [apply put_post|]. intros m Hm x Hx. unfold same1, same2 in *. rewrite <- Hm. exact (IH _ _ _ _ _ x Hx).
  Qed.
  Lemma rle_post n : forall r oi input mem, post (same2 mem) (dec_rle a base step npts n r oi input mem).
  Proof.
    induction n as [|n IH]; intros r oi input mem; cbn [dec_rle]; (destruct (r <=? 0); [destruct (oi =? npts); [now apply post_ok|easy_post]|]); [easy_post|].
    destruct (_ <? a_size a)%nat; [easy_post|]. apply post_any. intros [len rest]. destruct (_ <? _); [easy_post|].
    apply (post_bind (same2 mem)); [apply run_post|]. intros [oi' m] Hm x Hx. unfold same2 in *. cbn [snd] in Hm. rewrite <- Hm. exact (IH _ _ _ _ x Hx).
  Qed.
  Lemma drle_post n : forall r oi prev input mem, post (same2 mem) (dec_delta_rle a base step npts n r oi prev input mem).
  Proof.
    induction n as [|n IH]; intros r oi prev input mem; cbn [dec_delta_rle]; (destruct (r <=? 0); [destruct (oi =? npts); [now apply post_ok|easy_post]|]); [easy_post|].
    apply post_any. intros [diff count]. apply post_any. intros [len rest]. destruct (_ <? _); [easy_post|].
    apply (post_bind (same2 mem)); [apply drun_post|]. intros [[oi' p'] m] Hm x Hx. unfold same2 in *. cbn [snd] in Hm. rewrite <- Hm. exact (IH _ _ _ _ _ x Hx).
  Qed.
  Lemma section_post input mem : post (same2 mem) (decode_section a base step npts input mem).
  Proof.
    unfold decode_section. destruct input as [|mode input]; [easy_post|]. destruct mode as [|p|p]; [apply delta_post| |easy_post].
    destruct p as [p|p|]; [destruct p as [p|p|]; [easy_post|easy_post|]|destruct p as [p|p|]; [easy_post|easy_post|]|].
    - apply post_any. intros [n rest]. apply drle_post.
    - apply post_any. intros [n rest]. apply rle_post.
    - apply post_any. intros [n rest]. destruct (n =? 0); [easy_post|]. apply post_any. intros [pal rest2]. destruct (_ <? _)%nat; [easy_post|].
      apply (post_bind (same1 mem)); [apply indexes_post|]. intros m Hm. now apply post_ok.
  Qed.
End Section1.
Lemma sections_post base step npts afs : forall input mem, post (same2 mem) (decode_sections afs base step npts input mem).
Proof.
  induction afs as [|a afs IH]; intros input mem; cbn [decode_sections]; [now apply post_ok|].
  apply (post_bind (same2 mem)); [apply section_post|]. intros [i2 m] Hm x Hx. unfold same2 in *. cbn [snd] in Hm. rewrite <- Hm. exact (IH _ _ x Hx).
Qed.
Lemma v5_chunk_post ops i ds input expected base mem : post (same2 mem) (DecodeV5Stage1Chunk ops i ds input expected base mem).
Proof.
  unfold DecodeV5Stage1Chunk. repeat match goal with |- post _ (if ?b then Throw else _) => destruct b; [easy_post|] end.
  apply (post_bind (same2 mem)); [apply points_v5_post|]. intros [i2 m] Hm. unfold same2 in Hm. cbn [snd] in Hm.
  apply (post_bind (same2 m)); [apply sections_post|]. intros [i3 m3] H3. unfold same2 in H3. cbn [snd] in H3.
  repeat match goal with |- post _ (if ?b then _ else _) => destruct b end; try easy_post; try (apply post_ok; unfold same2; cbn [snd]; congruence).
  all: destruct i3; try easy_post; apply post_ok; unfold same2; cbn [snd]; congruence.
Qed.
Lemma chunk_post ops L i ds minb chunk buf expected base mem : post (same2 mem) (decodeChunk ops L i ds minb chunk buf expected base mem).
Proof.
  unfold decodeChunk. apply post_any. intros [view buf']. destruct (UsesV5Codec i).
  - apply (post_bind (same2 mem)); [apply v5_chunk_post|]. intros [b m] Hm. now apply post_ok.
  - apply (post_bind (same2 mem)); [unfold DecodeV4Stage1Chunk; destruct (0 <? expected)%nat; [apply points_v4_post|apply points_v4_all_post]|]. intros [[r b] m] Hm. now apply post_ok.
Qed.
Lemma loop_post ops L ppc i ds minb fuel : forall data buf points base mem, post (same2 mem) (dec_loop ops L ppc i ds minb fuel data buf points base mem).
Proof.
  induction fuel as [|fuel IH]; intros [|b data] buf points base mem; cbn [dec_loop]; try (destruct (points =? 0); [now apply post_ok|easy_post]); [easy_post|].
  destruct (points =? 0); [easy_post|]. apply post_any. intros [size data1]. destruct (_ <? size); [easy_post|].
  apply (post_bind (same2 mem)); [apply chunk_post|]. intros [[b2 ba] m] Hm x Hx. unfold same2 in *. cbn [snd] in Hm. rewrite <- Hm. exact (IH _ _ _ _ _ x Hx).
Qed.
Lemma decode_length ops L ppc i data buf mem buf' mem' : decode ops L ppc i data buf mem = Ok (buf', mem') -> length mem' = length mem.
Proof.
  assert (H : post (same2 mem) (decode ops L ppc i data buf mem)).
  { unfold decode. apply post_any. intros [ds minb]. destruct (has_magic data); [easy_post|]. destruct (3 <=? i_version i); [apply loop_post|].
    apply (post_bind (same2 mem)); [apply chunk_post|]. intros [[b2 ba] m] Hm. now apply post_ok. }
  intros E. exact (H _ E).
Qed.
