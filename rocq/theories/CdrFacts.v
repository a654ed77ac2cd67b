(** Facts about CDR serialisation. *)
From Verif Require Import Base BaseFacts Cdr.

(** ** Values of a type *)
Fixpoint fits (t : ctype) (v : cval) : Prop :=
  match t, v with
  | TNum size, VNum x => (size = 1 \/ size = 2 \/ size = 4 \/ size = 8)%nat /\ 0 <= x < 256 ^ Z.of_nat size
  | TString, VBytes s => zlen s < 4294967295
  | TBuffer, VBytes s => zlen s < 4294967296
  | TVector t', VList vs => zlen vs < 4294967296 /\ Forall (fits t') vs
  | TArray n t', VList vs => length vs = n /\ Forall (fits t') vs
  | TStruct ts, VList vs =>
      (fix go (ts : list ctype) (vs : list cval) : Prop :=
         match ts, vs with t' :: ts', v' :: vs' => fits t' v' /\ go ts' vs' | [], [] => True | _, _ => False end) ts vs
  | _, _ => False
  end.
Section TypeInd.
  Variable P : ctype -> Prop.
  Hypotheses (HN : forall n, P (TNum n)) (HS : P TString) (HB : P TBuffer) (HV : forall t, P t -> P (TVector t))
    (HA : forall n t, P t -> P (TArray n t)) (HT : forall ts, Forall P ts -> P (TStruct ts)).
  Fixpoint ctype_ind2 (t : ctype) : P t :=
    match t with
    | TNum n => HN n | TString => HS | TBuffer => HB | TVector t' => HV t' (ctype_ind2 t') | TArray n t' => HA n t' (ctype_ind2 t')
    | TStruct ts => HT ts ((fix go ts : Forall P ts := match ts with [] => Forall_nil P | t' :: ts' => Forall_cons t' (ctype_ind2 t') (go ts') end) ts)
    end.
End TypeInd.

Definition num_ok (size : nat) (x : Z) : Prop := (size = 1 \/ size = 2 \/ size = 4 \/ size = 8)%nat /\ 0 <= x < 256 ^ Z.of_nat size.
Lemma trim_app a b : trim_front (length a) (a ++ b) = Ok b.
Proof. unfold trim_front. rewrite app_length. replace (length a + length b <? length a)%nat with false by (symmetry; apply Nat.ltb_ge; lia). now rewrite skipn_app, skipn_all, Nat.sub_diag. Qed.
Lemma jump_app a b n pos : n = length a -> jump n (pos, a ++ b) = Ok ((pos + n)%nat, b).
Proof. intros ->. unfold jump. cbn [fst snd]. now rewrite trim_app. Qed.
Lemma wire_length e bs : length (wire e bs) = length bs.
Proof. destruct e; [apply rev_length|reflexivity]. Qed.
Lemma wire_twice e bs : wire e (wire e bs) = bs.
Proof. destruct e; [apply rev_involutive|reflexivity]. Qed.
Lemma align_one h pos : alignment h 1 pos = O.
Proof. unfold alignment. cbn [Nat.eqb]. rewrite Nat.mod_1_r. reflexivity. Qed.
Definition num_bytes (h : cdr_header) (size : nat) (x : Z) (pos : nat) : list Z :=
  repeat 0 (alignment h size pos) ++ wire (if (2 <=? size)%nat then c_endian h else LITTLE) (le_bytes size x).
Lemma num_encode h size x storage : num_ok size x -> enc_num h size x storage = storage ++ num_bytes h size x (length storage - 4).
Proof.
  intros [Hs _]. unfold enc_num, num_bytes. do 2 f_equal. destruct Hs as [->|Hs]; [now rewrite align_one|]. destruct (Nat.leb_spec 2 size); [reflexivity|lia].
Qed.
Lemma num_decode h size x pos rest : num_ok size x ->
  dec_num h size (pos, num_bytes h size x pos ++ rest) = Ok (x, ((pos + length (num_bytes h size x pos))%nat, rest)).
Proof.
  intros [_ Hx]. unfold dec_num, num_bytes. cbn [fst]. set (pad := alignment h size pos). set (w := wire _ (le_bytes size x)). rewrite <- app_assoc.
  rewrite (jump_app (repeat 0 pad) (w ++ rest)) by now rewrite repeat_length. cbn [bind snd].
  assert (L : length w = size) by (unfold w; rewrite wire_length; apply le_bytes_length).
  replace (length (w ++ rest) <? size)%nat with false by (symmetry; apply Nat.ltb_ge; rewrite app_length; lia).
  rewrite (jump_app w rest) by now rewrite L. cbn [bind]. replace (firstn size (w ++ rest)) with w by (rewrite <- L, firstn_app, firstn_all, Nat.sub_diag; cbn; now rewrite app_nil_r).
  unfold w at 1. rewrite wire_twice, le_val_le_bytes, Z.mod_small by exact Hx. rewrite app_length, repeat_length, L. do 3 f_equal. lia.
Qed.

Lemma last_app_zero s : last (s ++ [0]) 1 = 0.
Proof. apply last_last. Qed.
Section RT.
  Variable h : cdr_header.
  Definition rt (t : ctype) : Prop := forall v storage, fits t v -> (4 <= length storage)%nat ->
    exists bs, cdr_encode h t v storage = Ok (storage ++ bs) /\
      forall rest, cdr_decode h t ((length storage - 4)%nat, bs ++ rest) = Ok (v, ((length storage - 4 + length bs)%nat, rest)).
  Lemma rt_list t : rt t -> forall vs storage, Forall (fits t) vs -> (4 <= length storage)%nat ->
    exists bs, enc_list (cdr_encode h t) vs storage = Ok (storage ++ bs) /\
      forall rest, dec_list (cdr_decode h t) (length vs) ((length storage - 4)%nat, bs ++ rest) = Ok (vs, ((length storage - 4 + length bs)%nat, rest)).
  Proof.
    intros Ht. induction vs as [|v vs IH]; intros storage HF HL; cbn [enc_list dec_list length].
    - exists []. rewrite app_nil_r. split; [reflexivity|]. intros rest. now rewrite Nat.add_0_r.
    - inversion HF as [|? ? H1 H2]; subst. destruct (Ht v storage H1 HL) as (b1 & E1 & D1). rewrite E1. cbn [bind].
      destruct (IH (storage ++ b1) H2 ltac:(rewrite app_length; lia)) as (b2 & E2 & D2). rewrite E2. exists (b1 ++ b2). rewrite app_assoc. split; [reflexivity|].
      intros rest. rewrite <- app_assoc, D1. cbn [bind]. specialize (D2 rest). rewrite app_length in D2. replace (length storage + length b1 - 4)%nat with (length storage - 4 + length b1)%nat in D2 by lia.
      rewrite D2. cbn [bind]. rewrite app_length. do 3 f_equal. lia.
  Qed.
  Lemma rt_all t : rt t.
  Proof.
    induction t using ctype_ind2; intros v storage HF HL.
    - destruct v; cbn [fits] in HF; try contradiction. cbn [cdr_encode cdr_decode]. exists (num_bytes h n v (length storage - 4)). rewrite num_encode by exact HF. split; [reflexivity|].
      intros rest. rewrite num_decode by exact HF. reflexivity.
    - destruct v as [|s|]; cbn [fits] in HF; try contradiction. cbn [cdr_encode cdr_decode]. unfold enc_string, dec_string. pose proof (zlen_nonneg s) as N.
      replace (4294967296 <=? zlen s + 1) with false by lia. assert (HN : num_ok 4 (zlen s + 1)) by (split; [auto|change (256 ^ Z.of_nat 4) with 4294967296; lia]).
      rewrite num_encode by exact HN. eexists. rewrite <- app_assoc. split; [reflexivity|]. intros rest. rewrite <- app_assoc, num_decode by exact HN. cbn [bind snd fst].
      rewrite <- app_assoc. cbn [app].
      assert (L : zlen s + 1 = zlen (s ++ [0])) by (rewrite zlen_app; reflexivity).
      replace (zlen (s ++ 0 :: rest) <? zlen s + 1) with false by (rewrite !zlen_app; unfold zlen; cbn [length]; lia).
      change (s ++ 0 :: rest) with (s ++ [0] ++ rest). rewrite app_assoc. assert (HL2 : Z.to_nat (zlen s + 1) = length (s ++ [0])) by (rewrite L; unfold zlen; lia).
      rewrite HL2, (jump_app (s ++ [0]) rest) by reflexivity. cbn [bind]. rewrite firstn_app, firstn_all, Nat.sub_diag. cbn [firstn]. rewrite app_nil_r, last_app_zero, removelast_last.
      replace (0 <? zlen s + 1) with true by lia. cbn [andb Z.eqb]. rewrite !app_length. cbn [length]. do 3 f_equal. lia.
    - destruct v as [|s|]; cbn [fits] in HF; try contradiction. cbn [cdr_encode cdr_decode]. unfold enc_buffer, dec_buffer. pose proof (zlen_nonneg s) as N.
      rewrite Z.mod_small by lia. assert (HN : num_ok 4 (zlen s)) by (split; [auto|change (256 ^ Z.of_nat 4) with 4294967296; lia]).
      assert (HL2 : Z.to_nat (zlen s) = length s) by (unfold zlen; lia). rewrite HL2, firstn_all.
      rewrite num_encode by exact HN. eexists. rewrite <- app_assoc. split; [reflexivity|]. intros rest. rewrite <- app_assoc, num_decode by exact HN. cbn [bind snd fst].
      replace (zlen (s ++ rest) <? zlen s) with false by (rewrite zlen_app; pose proof (zlen_nonneg rest); lia). rewrite HL2, (jump_app s rest) by reflexivity. cbn [bind].
      rewrite firstn_app, firstn_all, Nat.sub_diag. cbn [firstn]. rewrite app_nil_r, !app_length. do 3 f_equal. lia.
    - destruct v as [| |vs]; cbn [fits] in HF; try contradiction. destruct HF as [HF1 HF2]. cbn [cdr_encode cdr_decode]. pose proof (zlen_nonneg vs) as N.
      rewrite Z.mod_small by lia. assert (HN : num_ok 4 (zlen vs)) by (split; [auto|change (256 ^ Z.of_nat 4) with 4294967296; lia]). rewrite num_encode by exact HN.
      set (nb := num_bytes h 4 (zlen vs) (length storage - 4)). destruct (rt_list t IHt vs (storage ++ nb) HF2 ltac:(rewrite app_length; lia)) as (bs & E & D).
      exists (nb ++ bs). rewrite E, app_assoc. split; [reflexivity|]. intros rest. rewrite <- app_assoc. unfold nb at 1. rewrite num_decode by exact HN. cbn [bind]. fold nb.
      replace (Z.to_nat (zlen vs)) with (length vs) by (unfold zlen; lia). specialize (D rest). rewrite app_length in D. replace (length storage + length nb - 4)%nat with (length storage - 4 + length nb)%nat in D by lia.
      rewrite D. cbn [bind]. rewrite app_length. do 3 f_equal. lia.
    - destruct v as [| |vs]; cbn [fits] in HF; try contradiction. destruct HF as [HF1 HF2]. cbn [cdr_encode cdr_decode].
      destruct (rt_list t IHt vs storage HF2 HL) as (bs & E & D). exists bs. split; [exact E|]. intros rest. rewrite <- HF1, D. reflexivity.
    - destruct v as [| |vs]; cbn [fits] in HF; try contradiction. cbn [cdr_encode cdr_decode]. 
      assert (G : exists bs, (fix go (ts : list ctype) (vs : list cval) (s : list Z) : res (list Z) :=
         match ts, vs with
         | t' :: ts', v' :: vs' => do s' <- cdr_encode h t' v' s ; go ts' vs' s'
         | [], [] => Ok s
         | _, _ => Throw
         end) ts vs storage = Ok (storage ++ bs) /\
         forall rest, (fix go (ts : list ctype) (d : dstate) : res (list cval * dstate) :=
           match ts with
           | [] => Ok ([], d)
           | t' :: ts' => do '(v, d1) <- cdr_decode h t' d ; do '(vs, d2) <- go ts' d1 ; Ok (v :: vs, d2)
           end) ts ((length storage - 4)%nat, bs ++ rest) = Ok (vs, ((length storage - 4 + length bs)%nat, rest))).
      { revert vs storage HF HL. induction H as [|t ts Ht HT IH]; intros vs storage HF HL; destruct vs as [|v vs]; try contradiction.
        - exists []. rewrite app_nil_r. split; [reflexivity|]. intros rest. now rewrite Nat.add_0_r.
        - destruct HF as [H1 H2]. destruct (Ht v storage H1 HL) as (b1 & E1 & D1). rewrite E1. cbn [bind].
          destruct (IH vs (storage ++ b1) H2 ltac:(rewrite app_length; lia)) as (b2 & E2 & D2). rewrite E2. exists (b1 ++ b2). rewrite app_assoc. split; [reflexivity|].
          intros rest. rewrite <- app_assoc, D1. cbn [bind]. specialize (D2 rest). rewrite app_length in D2. replace (length storage + length b1 - 4)%nat with (length storage - 4 + length b1)%nat in D2 by lia.
          rewrite D2. cbn [bind]. rewrite app_length. do 3 f_equal. lia. }
      destruct G as (bs & E & D). exists bs. split; [exact E|]. intros rest. rewrite D. reflexivity.
  Qed.
End RT.
