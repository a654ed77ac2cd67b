(** C41: CDR serialisation (contrib/nanocdr.hpp). *)
From Verif Require Import Base BaseFacts HostileFacts Cdr CdrFacts.

(** ** Specification *)
(** Values of the C++ types; [fits] (CdrFacts) says that a value has its type: numbers of 1, 2, 4 or
    8 bytes in range, strings of fewer than 2^32 - 1 bytes, byte arrays and vectors of fewer than
    2^32 elements. *)
(** The headers an Encoder can be given for which a Decoder with the given default version finds the
    same version again. *)
Inductive agreed : cdr_header -> Z -> Prop :=
| ag_dds e : agreed (mkCdr e PLAIN_CDR DDS_CDR) DDS_CDR
| ag_plain e d : d = XCDRv1 \/ d = XCDRv2 -> agreed (mkCdr e PLAIN_CDR XCDRv1) d
| ag_pl e d : d = XCDRv1 \/ d = XCDRv2 -> agreed (mkCdr e PL_CDR XCDRv1) d
| ag_plain2 e d : d = XCDRv1 \/ d = XCDRv2 -> agreed (mkCdr e PLAIN_CDR2 XCDRv2) d.
Definition write_message (h : cdr_header) (t : ctype) (v : cval) : res (list Z) := cdr_encode h t v (cdr_begin h).
Definition read_message (default_version : Z) (t : ctype) (msg : list Z) : res (cdr_header * cval * list Z) :=
  do '(h, d) <- cdr_open default_version msg ; do '(v, d1) <- cdr_decode h t d ; Ok (h, v, snd d1).
(** most significant byte first *)
Definition be_val (bs : list Z) : Z := fold_left (fun acc b => acc * 256 + b) bs 0.
(** the alignment boundary of a number *)
Definition boundary (h : cdr_header) (size : nat) : nat := match size with 8%nat => align64 h | _ => size end.

Lemma be_val_rev bs : be_val (rev bs) = le_val bs.
Proof. unfold be_val. induction bs as [|b bs IH]; [reflexivity|]. cbn [rev le_val]. rewrite fold_left_app, IH. cbn [fold_left]. lia. Qed.

(** Every value of every type, written after any header the two sides agree on, is read back
    exactly, with the header, and nothing is left over. *)
Theorem C41_cdr_roundtrip h default_version t v :
  agreed h default_version -> fits t v ->
  exists msg, write_message h t v = Ok msg /\ read_message default_version t msg = Ok (h, v, []).
Proof.
  intros Ha Hf. unfold write_message, read_message. destruct (rt_all h t v (cdr_begin h) Hf ltac:(unfold cdr_begin; cbn; lia)) as (bs & E & D).
  exists (cdr_begin h ++ bs). split; [exact E|].
  assert (HO : cdr_open default_version (cdr_begin h ++ bs) = Ok (h, (O, bs))).
  { destruct Ha as [e|e d Hd|e d Hd|e d Hd]; destruct e; try (destruct Hd; subst d); reflexivity. }
  rewrite HO. cbn [bind]. specialize (D []). rewrite app_nil_r in D. change (length (cdr_begin h) - 4)%nat with O in D. rewrite D. reflexivity.
Qed.
(** The same from any earlier point of a message: a value written after some others is read back by
    a decoder that has consumed exactly those others, whatever follows. *)
Theorem C41_cdr_roundtrip_in_sequence h t v storage :
  fits t v -> (4 <= length storage)%nat ->
  exists bs, cdr_encode h t v storage = Ok (storage ++ bs) /\
    forall rest, cdr_decode h t ((length storage - 4)%nat, bs ++ rest) = Ok (v, ((length storage - 4 + length bs)%nat, rest)).
Proof. intros Hf HL. exact (rt_all h t v storage Hf HL). Qed.

(** A number is written after the fewest zero bytes that put it on its boundary (counted from the
    end of the four-byte header), in the declared byte order. *)
Theorem C41_wire_format h size x storage :
  num_ok size x -> (4 <= length storage)%nat ->
  exists pad bs, enc_num h size x storage = storage ++ repeat 0 pad ++ bs /\
    (pad < boundary h size)%nat /\ ((length storage - 4 + pad) mod boundary h size = 0)%nat /\
    length bs = size /\ match c_endian h with BIG => be_val bs = x | LITTLE => le_val bs = x end.
Proof.
  intros HN HL. rewrite num_encode by exact HN. exists (alignment h size (length storage - 4)). eexists. split; [reflexivity|].
  destruct HN as [Hs Hx]. split; [|split; [|split]].
  3: rewrite wire_length; apply le_bytes_length.
  1, 2: assert (HA : alignment h size (length storage - 4) = ((boundary h size - (length storage - 4) mod boundary h size) mod boundary h size)%nat /\ (boundary h size <> 0)%nat);
    [assert (HB : (boundary h size = 1 \/ boundary h size = 2 \/ boundary h size = 4 \/ boundary h size = 8)%nat /\ (if (size =? 8)%nat then align64 h else size) = boundary h size)
       by (destruct Hs as [-> | [-> | [-> | ->]]]; cbn [boundary Nat.eqb]; unfold align64; try destruct (c_version h =? XCDRv2); auto);
     destruct HB as [HB HB2]; unfold alignment; cbv zeta; rewrite HB2; destruct HB as [-> | [-> | [-> | ->]]]; (split; [|lia]);
     match goal with |- Nat.land ?a ?b = (_ mod ?c)%nat => let k := constr:(Nat.log2 c) in let k' := eval cbv in k in
       change b with (Nat.ones k'); rewrite Nat.land_ones; change (2 ^ k')%nat with c; reflexivity end|].
  1: destruct HA as [-> HB]; apply Nat.mod_upper_bound, HB.
  1: { destruct HA as [-> HB]. rewrite Nat.add_mod_idemp_r by exact HB. set (b := boundary h size) in *. set (p := (length storage - 4)%nat).
       pose proof (Nat.mod_upper_bound p b HB). rewrite (Nat.div_mod p b HB) at 1. replace (b * (p / b) + p mod b + (b - p mod b))%nat with ((p / b + 1) * b)%nat by lia. apply Nat.mod_mul, HB. }
  destruct (Nat.leb_spec 2 size) as [Hle|Hle].
  - destruct (c_endian h); cbn [wire]; [rewrite be_val_rev|]; rewrite le_val_le_bytes; apply Z.mod_small, Hx.
  - destruct Hs as [->|Hs]; [|lia]. cbn [wire]. assert (L : le_val (le_bytes 1 x) = x) by (rewrite le_val_le_bytes; apply Z.mod_small, Hx).
    destruct (c_endian h); [|exact L]. rewrite <- L at 2. cbn. lia.
Qed.

(** *** Hostile messages: four bytes are enough for the decoder never to read outside the message,
    whatever the type asked for. *)
Lemma jump_no_ub n d : jump n d <> UB.
Proof. unfold jump, trim_front. destruct (_ <? _)%nat; cbn; congruence. Qed.
Lemma dec_num_no_ub h size d : dec_num h size d <> UB.
Proof.
  unfold dec_num. destruct (jump _ d) as [d1| |] eqn:E; cbn [bind]; [|congruence|now apply jump_no_ub in E].
  destruct (_ <? size)%nat; [congruence|]. destruct (jump size d1) as [d2| |] eqn:E2; cbn [bind]; [congruence|congruence|now apply jump_no_ub in E2].
Qed.
Lemma dec_list_no_ub dec n : (forall d, dec d <> UB) -> forall d, dec_list dec n d <> UB.
Proof.
  intros Hd. induction n as [|n IH]; intros d; cbn [dec_list]; [congruence|]. destruct (dec d) as [[v d1]| |] eqn:E; cbn [bind]; [|congruence|now apply Hd in E].
  destruct (dec_list dec n d1) as [[vs d2]| |] eqn:E2; cbn [bind]; [congruence|congruence|now apply IH in E2].
Qed.
Lemma cdr_decode_no_ub h t d : cdr_decode h t d <> UB.
Proof.
  revert d. induction t using ctype_ind2; intros d; cbn [cdr_decode].
  - destruct (dec_num h n d) as [[x d1]| |] eqn:E; cbn [bind]; [congruence|congruence|now apply dec_num_no_ub in E].
  - unfold dec_string. destruct (dec_num h 4 d) as [[x d1]| |] eqn:E; cbn [bind]; [|congruence|now apply dec_num_no_ub in E].
    destruct (_ <? x); cbn [bind]; [congruence|]. destruct (jump _ d1) as [d2| |] eqn:E2; cbn [bind]; [congruence|congruence|now apply jump_no_ub in E2].
  - unfold dec_buffer. destruct (dec_num h 4 d) as [[x d1]| |] eqn:E; cbn [bind]; [|congruence|now apply dec_num_no_ub in E].
    destruct (_ <? x); cbn [bind]; [congruence|]. destruct (jump _ d1) as [d2| |] eqn:E2; cbn [bind]; [congruence|congruence|now apply jump_no_ub in E2].
  - destruct (dec_num h 4 d) as [[x d1]| |] eqn:E; cbn [bind]; [|congruence|now apply dec_num_no_ub in E].
    destruct (dec_list (cdr_decode h t) (Z.to_nat x) d1) as [[vs d2]| |] eqn:E2; cbn [bind]; [congruence|congruence|now apply dec_list_no_ub in E2].
  - destruct (dec_list (cdr_decode h t) n d) as [[vs d2]| |] eqn:E2; cbn [bind]; [congruence|congruence|now apply dec_list_no_ub in E2].
  - match goal with |- bind (?go ts d) _ <> UB => assert (G : forall d, go ts d <> UB) end.
    { induction H as [|t ts Ht HT IH]; intros d0; [congruence|]. destruct (cdr_decode h t d0) as [[v d1]| |] eqn:E; cbn [bind]; [|congruence|now apply Ht in E].
      match goal with |- context [bind ?x _] => destruct x as [[vs d2]| |] eqn:E2 end; cbn [bind]; [congruence|congruence|now apply IH in E2]. }
    match goal with |- bind ?x _ <> UB => destruct x as [[vs d2]| |] eqn:E2 end; cbn [bind]; [congruence|congruence|now apply G in E2].
Qed.
Theorem C41_hostile_message default_version t msg :
  4 <= zlen msg -> read_message default_version t msg <> UB.
Proof.
  intros HL. unfold read_message. destruct (cdr_open default_version msg) as [[h d]| |] eqn:E; cbn [bind].
  - destruct (cdr_decode h t d) as [[v d1]| |] eqn:E2; cbn [bind]; [congruence|congruence|now apply cdr_decode_no_ub in E2].
  - congruence.
  - exfalso. destruct msg as [|b0 [|b1 [|b2 [|b3 rest]]]]; unfold zlen in HL; cbn [length] in HL; try lia. cbn [cdr_open] in E. cbv zeta in E.
    destruct (negb (b0 =? 0)); [discriminate|]. repeat match type of E with context [if ?b then _ else _] => destruct b; cbn [bind] in E end; discriminate.
Qed.
(** The constructor of Decoder does not check that the four header bytes exist. *)
Theorem C41_short_message_refuted : exists msg t, zlen msg = 1 /\ read_message DDS_CDR t msg = UB.
Proof. exists [0], (TNum 1). split; reflexivity. Qed.
(** Nor does the header byte say everything: an Encoder set to XCDRv2 with PLAIN_CDR writes 64-bit
    numbers on four-byte boundaries, and every Decoder reads them on eight-byte ones. *)
Theorem C41_version_not_in_header_refuted :
  exists h t v msg, fits t v /\ write_message h t v = Ok msg /\
    forall d, d = DDS_CDR \/ d = XCDRv1 \/ d = XCDRv2 -> read_message d t msg = Throw.
Proof.
  exists (mkCdr LITTLE PLAIN_CDR XCDRv2), (TStruct [TNum 4; TNum 8]), (VList [VNum 7; VNum 9]), [0; 1; 0; 0; 7; 0; 0; 0; 9; 0; 0; 0; 0; 0; 0; 0].
  split; [cbn; repeat split; auto; lia|]. split; [reflexivity|]. intros d [->|[->| ->]]; reflexivity.
Qed.

(** *** A concrete case: a struct with padding, a string, nested vectors, in both byte orders *)
Definition case_type : ctype := TStruct [TNum 1; TNum 4; TString; TNum 8; TVector (TStruct [TString; TNum 2]); TBuffer; TArray 2 (TNum 8)].
Definition case_value : cval :=
  VList [VNum 5; VNum 305419896; VBytes [97; 98]; VNum 72623859790382856; VList [VList [VBytes []; VNum 258]; VList [VBytes [0]; VNum 3]]; VBytes [9; 8; 7]; VList [VNum 1; VNum 2]].
Example C41_case : fits case_type case_value /\
  forall e, exists msg, write_message (mkCdr e PLAIN_CDR DDS_CDR) case_type case_value = Ok msg /\ read_message DDS_CDR case_type msg = Ok (mkCdr e PLAIN_CDR DDS_CDR, case_value, []).
Proof.
  assert (F : fits case_type case_value).
  { unfold case_type, case_value. cbn [fits]. repeat match goal with |- _ /\ _ => split | |- Forall _ _ => constructor | |- True => exact I | |- fits _ _ => cbn [fits] end.
    all: try (unfold zlen; cbn; lia); auto. }
  split; [exact F|]. intros e. apply C41_cdr_roundtrip; [constructor|exact F].
Qed.

Print Assumptions C41_cdr_roundtrip.
Print Assumptions C41_cdr_roundtrip_in_sequence.
Print Assumptions C41_wire_format.
Print Assumptions C41_hostile_message.
Print Assumptions C41_short_message_refuted.
Print Assumptions C41_version_not_in_header_refuted.
