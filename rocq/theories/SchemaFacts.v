(** Facts about reading messages with their schema text. *)
From Verif Require Import Base BaseFacts Header Cdr CdrFacts SchemaSpec.

Section TypeInd.
  Variable P : stype -> Prop.
  Hypotheses (HP : forall b n, P (SPrim b n)) (HS : P SString) (HQ : forall t, P t -> P (SSeq t)) (HM : forall ms, Forall (fun m => P (snd m)) ms -> P (SMsg ms)).
  Fixpoint stype_ind2 (t : stype) : P t :=
    match t with
    | SPrim b n => HP b n | SString => HS | SSeq t' => HQ t' (stype_ind2 t')
    | SMsg ms => HM ms ((fix go ms : Forall (fun m => P (snd m)) ms :=
        match ms with [] => Forall_nil _ | (n, t') :: ms' => Forall_cons (n, t') (stype_ind2 t') (go ms') end) ms)
    end.
End TypeInd.

(** The C++ type that a schema type is serialised as. *)
Fixpoint erase (t : stype) : ctype :=
  match t with
  | SPrim _ n => TNum n
  | SString => TString
  | SSeq (SPrim false 1) => TBuffer
  | SSeq t' => TVector (erase t')
  | SMsg ms => TStruct ((fix go (ms : list (list Z * stype)) : list ctype := match ms with [] => [] | (_, t') :: ms' => erase t' :: go ms' end) ms)
  end.
Fixpoint label (t : stype) (v : cval) : sval :=
  match t, v with
  | SPrim b n, VNum x => SNum (to_signed b n x)
  | SString, VBytes s => SText s
  | SSeq _, VBytes s => SItems (map SNum s)
  | SSeq t', VList vs => SItems (map (label t') vs)
  | SMsg ms, VList vs =>
      SRec ((fix go (ms : list (list Z * stype)) (vs : list cval) : list (list Z * sval) :=
        match ms, vs with (n, t') :: ms', v' :: vs' => (n, label t' v') :: go ms' vs' | _, _ => [] end) ms vs)
  | _, _ => SRec []
  end.
Definition sizes_ok (n : nat) : Prop := (n = 1 \/ n = 2 \/ n = 4 \/ n = 8)%nat.
Fixpoint stype_ok (t : stype) : Prop :=
  match t with
  | SPrim _ n => sizes_ok n
  | SString => True
  | SSeq t' => stype_ok t'
  | SMsg ms => (fix go (ms : list (list Z * stype)) : Prop := match ms with [] => True | (_, t') :: ms' => stype_ok t' /\ go ms' end) ms
  end.

Definition big (h : cdr_header) : bool := match c_endian h with BIG => true | LITTLE => false end.
Lemma align_spec h size pos : c_version h = DDS_CDR -> sizes_ok size -> alignment h size pos = ((size - pos mod size) mod size)%nat.
Proof.
  intros Hv Hs. unfold alignment, align64. rewrite Hv. change (DDS_CDR =? XCDRv2) with false. cbv iota. destruct Hs as [-> |[-> |[-> | ->]]]; cbn [Nat.eqb].
  - rewrite Nat.mod_1_r. reflexivity.
  - change (2 - 1)%nat with (Nat.ones 1). rewrite Nat.land_ones. reflexivity.
  - change (4 - 1)%nat with (Nat.ones 2). rewrite Nat.land_ones. reflexivity.
  - change (8 - 1)%nat with (Nat.ones 3). rewrite Nat.land_ones. reflexivity.
Qed.
Lemma wire_val h size bs : sizes_ok size -> length bs = size -> le_val (wire (if (2 <=? size)%nat then c_endian h else LITTLE) bs) = bytes_val (big h) bs.
Proof.
  intros Hs HL. unfold bytes_val, big, wire. destruct Hs as [-> |Hs].
  - cbn. destruct bs as [|x [|]]; try discriminate HL. now destruct (c_endian h).
  - replace (2 <=? size)%nat with true by (symmetry; apply Nat.leb_le; lia). now destruct (c_endian h).
Qed.
(** Reading a number, as the library does it and as the specification does. *)
Lemma dec_num_read h size d : c_version h = DDS_CDR -> sizes_ok size ->
  dec_num h size d = match read_uint (big h) size d with Some (v, d') => Ok (v, d') | None => Throw end.
Proof.
  intros Hv Hs. unfold dec_num, read_uint. rewrite (align_spec h size (fst d) Hv Hs). unfold jump, trim_front, take.
  destruct (length (snd d) <? _)%nat eqn:E1; [reflexivity|]. cbn [bind fst snd].
  destruct (length (skipn _ (snd d)) <? size)%nat eqn:E2; [reflexivity|]. cbn [bind].
  rewrite wire_val; [reflexivity|exact Hs|]. apply Nat.ltb_ge in E2. rewrite firstn_length. lia.
Qed.
Lemma s4 : sizes_ok 4. Proof. unfold sizes_ok; auto. Qed.
Lemma s1 : sizes_ok 1. Proof. unfold sizes_ok; auto. Qed.
Lemma read_uint_num h size x pos rest : c_version h = DDS_CDR -> num_ok size x ->
  read_uint (big h) size (pos, num_bytes h size x pos ++ rest) = Some (x, ((pos + length (num_bytes h size x pos))%nat, rest)).
Proof.
  intros Hv Hn. pose proof (num_decode h size x pos rest Hn) as H. rewrite dec_num_read in H by (auto; apply Hn).
  destruct (read_uint _ _ _) as [[v d]|]; [|discriminate H]. injection H as -> ->. reflexivity.
Qed.
Lemma take_app a rest pos n : n = length a -> take n (pos, a ++ rest) = Some (a, ((pos + n)%nat, rest)).
Proof.
  intros ->. unfold take. cbn [fst snd]. rewrite app_length. replace (length a + length rest <? length a)%nat with false by (symmetry; apply Nat.ltb_ge; lia).
  rewrite firstn_app, Nat.sub_diag, firstn_all, skipn_app, skipn_all, Nat.sub_diag. cbn. now rewrite app_nil_r.
Qed.
Lemma read_one b pos x rest : read_uint b 1 (pos, x :: rest) = Some (x, (S pos, rest)).
Proof.
  unfold read_uint. cbn [fst]. rewrite (Nat.mod_1_r (1 - pos mod 1)). unfold take. cbn [fst snd length Nat.ltb Nat.leb firstn skipn].
  rewrite Nat.add_0_r, Nat.add_1_r. unfold bytes_val. destruct b; cbn; do 2 f_equal; lia.
Qed.
Lemma signed_false n v : to_signed false n v = v.
Proof. reflexivity. Qed.
Lemma read_bytes b s : forall pos rest,
  read_items (read_value b (SPrim false 1)) (length s) (pos, s ++ rest) = Some (map SNum s, ((pos + length s)%nat, rest)).
Proof.
  induction s as [|x s IH]; intros pos rest; cbn [length read_items map app]; [now rewrite Nat.add_0_r|].
  cbn [read_value]. rewrite read_one, signed_false. rewrite IH. do 3 f_equal. lia.
Qed.

Section Read.
  Variable h : cdr_header.
  Hypothesis Hh : c_version h = DDS_CDR.
  Definition reads (t : stype) : Prop := forall v storage, fits (erase t) v -> (4 <= length storage)%nat ->
    exists bs, cdr_encode h (erase t) v storage = Ok (storage ++ bs) /\
      forall rest, read_value (big h) t ((length storage - 4)%nat, bs ++ rest) = Some (label t v, ((length storage - 4 + length bs)%nat, rest)).
  Lemma reads_list t : reads t -> forall vs storage, Forall (fits (erase t)) vs -> (4 <= length storage)%nat ->
    exists bs, enc_list (cdr_encode h (erase t)) vs storage = Ok (storage ++ bs) /\
      forall rest, read_items (read_value (big h) t) (length vs) ((length storage - 4)%nat, bs ++ rest) = Some (map (label t) vs, ((length storage - 4 + length bs)%nat, rest)).
  Proof.
    intros Ht. induction vs as [|v vs IH]; intros storage HF HL; cbn [enc_list read_items length map].
    - exists []. rewrite app_nil_r. split; [reflexivity|]. intros rest. now rewrite Nat.add_0_r.
    - inversion HF as [|? ? H1 H2]; subst. destruct (Ht v storage H1 HL) as (b1 & E1 & D1). rewrite E1. cbn [bind].
      destruct (IH (storage ++ b1) H2 ltac:(rewrite app_length; lia)) as (b2 & E2 & D2). rewrite E2. exists (b1 ++ b2). rewrite app_assoc. split; [reflexivity|].
      intros rest. rewrite <- app_assoc, D1. specialize (D2 rest). rewrite app_length in D2. replace (length storage + length b1 - 4)%nat with (length storage - 4 + length b1)%nat in D2 by lia.
      rewrite D2. rewrite app_length. do 3 f_equal. lia.
  Qed.
  Lemma reads_vector t : reads t -> forall vs storage, zlen vs < 4294967296 -> Forall (fits (erase t)) vs -> (4 <= length storage)%nat ->
    exists bs, cdr_encode h (TVector (erase t)) (VList vs) storage = Ok (storage ++ bs) /\
      forall rest, read_value (big h) (SSeq t) ((length storage - 4)%nat, bs ++ rest) = Some (SItems (map (label t) vs), ((length storage - 4 + length bs)%nat, rest)).
  Proof.
    intros Ht vs storage HZ HF HL. cbn [cdr_encode read_value]. pose proof (zlen_nonneg vs) as N.
    rewrite Z.mod_small by lia. assert (HN : num_ok 4 (zlen vs)) by (split; [auto|change (256 ^ Z.of_nat 4) with 4294967296; lia]). rewrite num_encode by exact HN.
    set (nb := num_bytes h 4 (zlen vs) (length storage - 4)). destruct (reads_list t Ht vs (storage ++ nb) HF ltac:(rewrite app_length; lia)) as (bs & E & D).
    exists (nb ++ bs). rewrite E, app_assoc. split; [reflexivity|]. intros rest. rewrite <- app_assoc. unfold nb at 1. rewrite read_uint_num by auto. fold nb.
    replace (Z.to_nat (zlen vs)) with (length vs) by (unfold zlen; lia). specialize (D rest). rewrite app_length in D. replace (length storage + length nb - 4)%nat with (length storage - 4 + length nb)%nat in D by lia.
    rewrite D. rewrite app_length. do 3 f_equal. lia.
  Qed.
  Lemma reads_buffer s storage : zlen s < 4294967296 -> (4 <= length storage)%nat ->
    exists bs, cdr_encode h TBuffer (VBytes s) storage = Ok (storage ++ bs) /\
      forall rest, read_value (big h) (SSeq (SPrim false 1)) ((length storage - 4)%nat, bs ++ rest) = Some (SItems (map SNum s), ((length storage - 4 + length bs)%nat, rest)).
  Proof.
    intros HZ HL. cbn [cdr_encode]. unfold enc_buffer. pose proof (zlen_nonneg s) as N. rewrite Z.mod_small by lia.
    assert (HN : num_ok 4 (zlen s)) by (split; [auto|change (256 ^ Z.of_nat 4) with 4294967296; lia]).
    assert (HL2 : Z.to_nat (zlen s) = length s) by (unfold zlen; lia). rewrite HL2, firstn_all. rewrite num_encode by exact HN.
    set (nb := num_bytes h 4 (zlen s) (length storage - 4)). exists (nb ++ s). rewrite app_assoc. split; [reflexivity|]. intros rest.
    change (read_value (big h) (SSeq (SPrim false 1))) with (fun d => match read_uint (big h) 4 d with
      | Some (n, d1) => match read_items (read_value (big h) (SPrim false 1)) (Z.to_nat n) d1 with Some (vs, d2) => Some (SItems vs, d2) | None => None end | None => None end). cbv beta.
    rewrite <- app_assoc. unfold nb at 1. rewrite read_uint_num by auto. fold nb. rewrite HL2, read_bytes. rewrite app_length. do 3 f_equal. lia.
  Qed.
  Lemma reads_all t : reads t.
  Proof.
    induction t as [b n| |t IH|ms IH] using stype_ind2; intros v storage HF HL.
    - destruct v; cbn [erase fits] in HF; try contradiction. cbn [erase cdr_encode read_value]. exists (num_bytes h n v (length storage - 4)). rewrite num_encode by exact HF. split; [reflexivity|].
      intros rest. rewrite read_uint_num by auto. reflexivity.
    - destruct v as [|s|]; cbn [erase fits] in HF; try contradiction. cbn [erase cdr_encode read_value]. unfold enc_string. pose proof (zlen_nonneg s) as N.
      replace (4294967296 <=? zlen s + 1) with false by lia. assert (HN : num_ok 4 (zlen s + 1)) by (split; [auto|change (256 ^ Z.of_nat 4) with 4294967296; lia]).
      rewrite num_encode by exact HN. eexists. rewrite <- app_assoc. split; [reflexivity|]. intros rest. rewrite <- app_assoc, read_uint_num by auto.
      assert (HL2 : Z.to_nat (zlen s + 1) = length (s ++ [0])) by (unfold zlen; rewrite app_length; cbn [length]; lia).
      rewrite (take_app (s ++ [0])) by exact HL2. rewrite last_app_zero, removelast_last. replace (zlen s + 1 =? 0) with false by lia. cbn [Z.eqb label]. rewrite HL2, !app_length. cbn [length]. do 3 f_equal. lia.
    - assert (HV : erase (SSeq t) = TVector (erase t) -> exists bs, cdr_encode h (erase (SSeq t)) v storage = Ok (storage ++ bs) /\
        forall rest, read_value (big h) (SSeq t) ((length storage - 4)%nat, bs ++ rest) = Some (label (SSeq t) v, ((length storage - 4 + length bs)%nat, rest))).
      { intros E. rewrite E in *. destruct v as [| |vs]; cbn [fits] in HF; try contradiction. destruct HF as [H1 H2]. exact (reads_vector t IH vs storage H1 H2 HL). }
      destruct t as [[|] [|[|n]]| | |]; try (apply HV; reflexivity). clear HV IH.
      destruct v as [|s|]; cbn [erase fits] in HF; try contradiction. exact (reads_buffer s storage HF HL).
    - destruct v as [| |vs]; cbn [erase fits] in HF; try contradiction. cbn [erase cdr_encode].
      assert (G : forall ms, Forall (fun m => reads (snd m)) ms -> forall vs storage,
        (fix go (ts : list ctype) (vs : list cval) : Prop := match ts, vs with t' :: ts', v' :: vs' => fits t' v' /\ go ts' vs' | [], [] => True | _, _ => False end)
          ((fix go (ms : list (list Z * stype)) : list ctype := match ms with [] => [] | (_, t') :: ms' => erase t' :: go ms' end) ms) vs -> (4 <= length storage)%nat ->
        exists bs, (fix go (ts : list ctype) (vs : list cval) (s : list Z) : res (list Z) :=
            match ts, vs with t' :: ts', v' :: vs' => do s' <- cdr_encode h t' v' s ; go ts' vs' s' | [], [] => Ok s | _, _ => Throw end)
            ((fix go (ms : list (list Z * stype)) : list ctype := match ms with [] => [] | (_, t') :: ms' => erase t' :: go ms' end) ms) vs storage = Ok (storage ++ bs) /\
          forall rest, (fix go (ms : list (list Z * stype)) (d : state) : option (list (list Z * sval) * state) :=
               match ms with
               | [] => Some ([], d)
               | (n, t') :: ms' =>
                   match read_value (big h) t' d with
                   | Some (v, d1) => match go ms' d1 with Some (vs, d2) => Some ((n, v) :: vs, d2) | None => None end
                   | None => None
                   end
               end) ms ((length storage - 4)%nat, bs ++ rest) =
            Some ((fix go (ms : list (list Z * stype)) (vs : list cval) : list (list Z * sval) :=
              match ms, vs with (n, t') :: ms', v' :: vs' => (n, label t' v') :: go ms' vs' | _, _ => [] end) ms vs, ((length storage - 4 + length bs)%nat, rest))).
      { clear. intros ms HM. induction HM as [|[n t] ms Ht HM IH]; intros vs storage HF HL.
        - destruct vs; [|contradiction]. exists []. rewrite app_nil_r. split; [reflexivity|]. intros rest. now rewrite Nat.add_0_r.
        - destruct vs as [|v vs]; [contradiction|]. destruct HF as [H1 H2]. cbn [snd] in Ht. destruct (Ht v storage H1 HL) as (b1 & E1 & D1). rewrite E1. cbn [bind].
          destruct (IH vs (storage ++ b1) H2 ltac:(rewrite app_length; lia)) as (b2 & E2 & D2). rewrite E2. exists (b1 ++ b2). rewrite app_assoc. split; [reflexivity|].
          intros rest. rewrite <- app_assoc, D1. specialize (D2 rest). rewrite app_length in D2. replace (length storage + length b1 - 4)%nat with (length storage - 4 + length b1)%nat in D2 by lia.
          rewrite D2. rewrite app_length. do 3 f_equal. lia. }
      destruct (G ms IH vs storage HF HL) as (bs & E & D). exists bs. split; [exact E|]. intros rest. cbn [read_value label]. rewrite D. reflexivity.
  Qed.

  (** Whatever the bytes: what the specification reads, the library reads. *)
  Definition sim (t : stype) : Prop := stype_ok t -> forall d sv d', read_value (big h) t d = Some (sv, d') ->
    exists v, cdr_decode h (erase t) d = Ok (v, d') /\ label t v = sv.
  Lemma take_jump n d s d' : take n d = Some (s, d') -> jump n d = Ok d' /\ s = firstn n (snd d) /\ (n <= length (snd d))%nat.
  Proof. unfold take, jump, trim_front. destruct (_ <? _)%nat eqn:E; [discriminate|]. intros H. injection H as <- <-. cbn [bind]. apply Nat.ltb_ge in E. auto. Qed.
  Lemma sim_list t : sim t -> stype_ok t -> forall n d vs d', read_items (read_value (big h) t) n d = Some (vs, d') ->
    exists us, dec_list (cdr_decode h (erase t)) n d = Ok (us, d') /\ map (label t) us = vs.
  Proof.
    intros Ht Hok. induction n as [|n IH]; intros d vs d' H; cbn [read_items dec_list] in *.
    - injection H as <- <-. exists []. auto.
    - destruct (read_value (big h) t d) as [[v d1]|] eqn:E1; [|discriminate H]. destruct (read_items _ n d1) as [[vs' d2]|] eqn:E2; [|discriminate H]. injection H as <- <-.
      destruct (Ht Hok _ _ _ E1) as (u & -> & <-). cbn [bind]. destruct (IH _ _ _ E2) as (us & -> & <-). exists (u :: us). auto.
  Qed.
  Lemma sim_bytes b n : forall d vs d', read_items (read_value b (SPrim false 1)) n d = Some (vs, d') ->
    exists s, jump n d = Ok d' /\ s = firstn n (snd d) /\ (n <= length (snd d))%nat /\ vs = map SNum s.
  Proof.
    induction n as [|n IH]; intros [pos l] vs d' H; cbn [read_items snd] in *.
    - injection H as <- <-. exists []. unfold jump, trim_front. cbn. rewrite Nat.add_0_r. repeat split. lia.
    - cbn [read_value] in H. destruct l as [|x l].
      { unfold read_uint, take in H. cbn [fst snd length] in H. rewrite Nat.mod_1_r in H. cbn in H. discriminate H. }
      rewrite read_one, signed_false in H. change (SPrim false 1) with (SPrim false 1) in H. destruct (read_items _ n (S pos, l)) as [[vs' d2]|] eqn:E; [|discriminate H]. injection H as <- <-.
      destruct (IH _ _ _ E) as (s & J & -> & Hl & ->). cbn [snd] in *. unfold jump, trim_front in *. cbn [fst snd length] in *.
      replace (length l <? n)%nat with false in J by (symmetry; apply Nat.ltb_ge; lia). cbn [bind] in J. replace (S (length l) <? S n)%nat with false by (symmetry; apply Nat.ltb_ge; lia).
      exists (x :: firstn n l). cbn [bind skipn firstn map]. replace (pos + S n)%nat with (S pos + n)%nat by lia. repeat split; try assumption; try lia.
  Qed.
  Lemma sim_all t : sim t.
  Proof.
    induction t as [b n| |t IH|ms IH] using stype_ind2; intros Hok d sv d' H.
    - cbn [read_value erase cdr_decode stype_ok] in *. rewrite dec_num_read by auto. destruct (read_uint _ n d) as [[x d1]|]; [|discriminate H]. injection H as <- <-. exists (VNum x). auto.
    - cbn [read_value erase cdr_decode]in *. unfold dec_string. rewrite dec_num_read by (auto using s4). destruct (read_uint _ 4 d) as [[n d1]|] eqn:E1; [|discriminate H]. cbn [bind].
      destruct (take (Z.to_nat n) d1) as [[s d2]|] eqn:E2; [|discriminate H]. destruct (take_jump _ _ _ _ E2) as (J & -> & Hl). rewrite J. cbn [bind].
      assert (Hneg : n < 0 \/ 0 <= n) by lia. replace (zlen (snd d1) <? n) with false by (unfold zlen; lia).
      destruct (Z.eqb_spec n 0) as [-> |Hn].
      + injection H as <- <-. change (0 <? 0) with false. cbn [andb]. exists (VBytes []). auto.
      + destruct (last _ 1 =? 0) eqn:EL; [|discriminate H]. injection H as <- <-. destruct (Z.ltb_spec 0 n); cbn [andb].
        * eexists. split; reflexivity.
        * replace (Z.to_nat n) with O in * by lia. cbn in EL. discriminate EL.
    - assert (HV : erase (SSeq t) = TVector (erase t) -> exists v, cdr_decode h (erase (SSeq t)) d = Ok (v, d') /\ label (SSeq t) v = sv).
      { intros E. rewrite E. cbn [cdr_decode]. rewrite dec_num_read by (auto using s4). cbn [read_value] in H. destruct (read_uint _ 4 d) as [[n d1]|] eqn:E1; [|discriminate H]. cbn [bind].
        destruct (read_items _ (Z.to_nat n) d1) as [[vs d2]|] eqn:E2; [|discriminate H]. injection H as <- <-. destruct (sim_list t IH Hok _ _ _ _ E2) as (us & -> & <-). cbn [bind]. exists (VList us). auto. }
      destruct t as [[|] [|[|n]]| | |]; try (apply HV; reflexivity). clear HV IH.
      change (read_value (big h) (SSeq (SPrim false 1))) with (fun d => match read_uint (big h) 4 d with
        | Some (n, d1) => match read_items (read_value (big h) (SPrim false 1)) (Z.to_nat n) d1 with Some (vs, d2) => Some (SItems vs, d2) | None => None end | None => None end) in H. cbv beta in H.
      cbn [erase cdr_decode]. unfold dec_buffer. rewrite dec_num_read by (auto using s4). destruct (read_uint _ 4 d) as [[n d1]|] eqn:E1; [|discriminate H]. cbn [bind].
      destruct (read_items _ (Z.to_nat n) d1) as [[vs d2]|] eqn:E2; [|discriminate H]. injection H as <- <-. destruct (sim_bytes _ _ _ _ _ E2) as (s & J & -> & Hl & ->).
      replace (zlen (snd d1) <? n) with false by (unfold zlen; lia). rewrite J. cbn [bind]. eexists. split; reflexivity.
    - cbn [erase cdr_decode read_value] in *.
      assert (G : forall ms, Forall (fun m => sim (snd m)) ms -> (fix go (ms : list (list Z * stype)) : Prop := match ms with [] => True | (_, t') :: ms' => stype_ok t' /\ go ms' end) ms -> forall d svs d',
        (fix go (ms : list (list Z * stype)) (d : state) : option (list (list Z * sval) * state) :=
               match ms with
               | [] => Some ([], d)
               | (n, t') :: ms' =>
                   match read_value (big h) t' d with
                   | Some (v, d1) => match go ms' d1 with Some (vs, d2) => Some ((n, v) :: vs, d2) | None => None end
                   | None => None
                   end
               end) ms d = Some (svs, d') ->
        exists vs, (fix go (ts : list ctype) (d : dstate) : res (list cval * dstate) :=
           match ts with
           | [] => Ok ([], d)
           | t' :: ts' => do '(v, d1) <- cdr_decode h t' d ; do '(vs, d2) <- go ts' d1 ; Ok (v :: vs, d2)
           end) ((fix go (ms : list (list Z * stype)) : list ctype := match ms with [] => [] | (_, t') :: ms' => erase t' :: go ms' end) ms) d = Ok (vs, d') /\
          (fix go (ms : list (list Z * stype)) (vs : list cval) : list (list Z * sval) :=
              match ms, vs with (n, t') :: ms', v' :: vs' => (n, label t' v') :: go ms' vs' | _, _ => [] end) ms vs = svs).
      { clear. intros ms HM. induction HM as [|[n t] ms Ht HM IH]; intros Hok d svs d' H.
        - injection H as <- <-. exists []. auto.
        - destruct Hok as [Ho Hok]. cbn [snd] in Ht. destruct (read_value (big h) t d) as [[v d1]|] eqn:E1; [|discriminate H]. destruct (Ht Ho _ _ _ E1) as (u & -> & <-). cbn [bind].
          match type of H with match ?X with _ => _ end = _ => destruct X as [[vs' d2]|] eqn:E2; [|discriminate H] end. injection H as <- <-.
          destruct (IH Hok _ _ _ E2) as (us & -> & <-). cbn [bind]. exists (u :: us). auto. }
      match type of H with match ?X with _ => _ end = _ => destruct X as [[svs d1]|] eqn:E1; [|discriminate H] end. injection H as <- <-.
      destruct (G ms IH Hok _ _ _ E1) as (vs & -> & <-). cbn [bind]. exists (VList vs). auto.
  Qed.
End Read.
