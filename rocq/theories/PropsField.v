(** Properties C01-C08: varints and single-field codecs. *)
From Verif Require Import Base BaseFacts Varint VarintFacts Types Floats Fields Spec SeqSpec.
From Verif Require Import GorillaFacts FieldFacts WriteFacts CodecFacts BuildFacts RunFacts SeqFacts.

(** * C01 *)
(** Every int64 except INT64_MIN is read back, consuming exactly the 1..10 bytes written. *)
Theorem C01_varint_roundtrip : forall v rest, -9223372036854775808 < v <= 9223372036854775807 ->
  decodeVarint (encodeVarint64 v ++ rest) = Ok (v, length (encodeVarint64 v)) /\
  (1 <= length (encodeVarint64 v) <= 10)%nat /\ bytes (encodeVarint64 v).
Proof. intros v rest H. split; [apply decodeVarint_encode; lia|]. split; [apply encodeVarint64_length|apply encodeVarint64_bytes]. Qed.
Print Assumptions C01_varint_roundtrip.
Example C01_case : decodeVarint (encodeVarint64 (-123456789012345) ++ [1;2;3]) = Ok (-123456789012345, 7%nat).
Proof. vm_compute. reflexivity. Qed.
(** INT64_MIN is written as the NaN marker and rejected on reading. *)
Theorem C01_varint_min_refuted : encodeVarint64 INT64_MIN = [0] /\ forall rest, decodeVarint (encodeVarint64 INT64_MIN ++ rest) = Throw.
Proof. split; [vm_compute; reflexivity|]. intros rest. replace (encodeVarint64 INT64_MIN) with [0] by (vm_compute; reflexivity). reflexivity. Qed.
Print Assumptions C01_varint_min_refuted.

(** * C02 *)
(** On any memory of at least [max] bytes: a result consuming 1..max bytes or an exception,
    never an access outside; and the memory behind the first [max] bytes is irrelevant. *)
Theorem C02_varint_decoder_safe : forall mem max, (max <= length mem)%nat ->
  match decodeVarint_mem mem max with
  | Ok (v, n) => (1 <= n <= max)%nat
  | Throw => True
  | UB => False
  end.
Proof. intros mem max H. pose proof (decodeVarint_mem_safe mem max H). destruct (decodeVarint_mem mem max) as [[v n]| |]; auto. Qed.
Theorem C02_varint_decoder_in_bounds : forall mem1 mem2 max, firstn max mem1 = firstn max mem2 ->
  decodeVarint_mem mem1 max = decodeVarint_mem mem2 max.
Proof. intros. now apply decodeVarint_mem_prefix. Qed.
(** The one- and two-byte fast paths compute what the general loop computes. *)
Theorem C02_varint_fast_paths : forall mem max, bytes mem -> (0 < max)%nat ->
  decodeVarint_mem mem max = do '(uval, count) <- varint_loop 11 mem max 0 0 0 ; do v <- unzigzag1 uval ; Ok (v, count).
Proof. exact fast_paths. Qed.
Print Assumptions C02_varint_fast_paths.
Print Assumptions C02_varint_decoder_safe.
Print Assumptions C02_varint_decoder_in_bounds.
Example C02_case : decodeVarint_mem [255;255;255;255;255;255;255;255;255;2] 10 = Throw /\ decodeVarint_mem [255;255;7;9] 2 = Throw /\ decodeVarint_mem [129;1;77] 3 = Ok (64, 2%nat).
Proof. vm_compute. auto. Qed.

(** * C03 *)
Theorem C03_uvarint_roundtrip : forall v rest, 0 <= v < 18446744073709551616 -> readUVarint (uvarint v ++ rest) = Ok (v, rest) /\ (1 <= length (uvarint v) <= 10)%nat.
Proof. intros. split; [now apply readUVarint_app|now apply uvarint_length]. Qed.
Theorem C03_uvarint_reader_safe : forall input,
  match readUVarint input with
  | Ok (_, rest) => exists pre, input = pre ++ rest /\ (1 <= length pre <= 10)%nat
  | Throw => True
  | UB => False
  end.
Proof. exact readUVarint_safe. Qed.
(** A truncated varint (every byte has its continuation bit) is rejected. *)
Theorem C03_uvarint_truncated : forall input, Forall (fun b => Z.land b 128 <> 0) input -> readUVarint input = Throw.
Proof.
  assert (H : forall k input s a, Forall (fun b => Z.land b 128 <> 0) input -> 64 <= s + 7 * Z.of_nat k -> s < 64 -> readUVarint_loop k input s a = Throw).
  { induction k as [|k IH]; intros input s a H Hs Hs2; [lia|]. cbn [readUVarint_loop]. destruct input as [|b r]; [reflexivity|].
    inversion H; subst. rewrite (proj2 (Z.eqb_neq _ _) H2). destruct (64 <=? s + 7) eqn:E; [reflexivity|]. apply IH; auto; lia. }
  intros input HI. apply H; auto; lia.
Qed.
Print Assumptions C03_uvarint_roundtrip.
Print Assumptions C03_uvarint_reader_safe.
Print Assumptions C03_uvarint_truncated.
Example C03_case : readUVarint (uvarint 18446744073709551615 ++ [5]) = Ok (18446744073709551615, [5]) /\ readUVarint [128;200;255] = Throw.
Proof. vm_compute. auto. Qed.

(** * C04 *)
Definition int_type (t : ftype) : Prop := t = INT16 \/ t = UINT16 \/ t = INT32 \/ t = UINT32 \/ t = INT64 \/ t = UINT64.
(** Any sequence of points: each value comes back byte for byte, unless two consecutive
    values (the first after 0) differ by 2^63 modulo 2^64. *)
Theorem C04_int_lossless : forall ops t off o views rest, int_type t -> o <> kSkip -> bytes rest ->
  Forall (has_field off (SizeOf t)) views ->
  jumps_ok 0 (map (fun v => int_value t (sub off (SizeOf t) v)) views) ->
  exists bss, encode_all ops (EInt off t) reset_state views = Ok bss /\ Forall (fun b => (1 <= length b <= 10)%nat) bss /\
    decode_all ops (DInt o (SizeOf t)) reset_state (length views) (concat bss ++ rest) =
      Ok (map (fun v => [(o, sub off (SizeOf t) v)]) views, rest).
Proof.
  intros ops t off o views rest HT Ho HR HF HJ.
  assert (HT' : is_int_type t) by (unfold int_type in HT; unfold is_int_type; intuition subst; exact I).
  assert (HFb : Forall bytes views) by (eapply Forall_impl; [|exact HF]; intros v Hv; apply Hv).
  assert (HFp : Forall (fun v => Forall (piece_in v) (pieces (EInt off t))) views).
  { eapply Forall_impl; [|exact HF]. intros v (H1 & H2 & H3). constructor; [split; assumption|constructor]. }
  assert (HC : chain ops (EInt off t) None views).
  { clear Ho HR HFp. assert (HG : forall views pv, Forall (has_field off (SizeOf t)) views -> (match pv with None => True | Some p => has_field off (SizeOf t) p end) ->
      jumps_ok (match pv with None => 0 | Some p => opt0 (int_value t (sub off (SizeOf t) p)) end) (map (fun v => int_value t (sub off (SizeOf t) v)) views) ->
      chain ops (EInt off t) pv views).
    { assert (HV : forall v, has_field off (SizeOf t) v -> int_value t (sub off (SizeOf t) v) = Some (to_int64 t (sub off (SizeOf t) v))).
      { intros v (H1 & H2 & H3). apply int_value_spec; [exact HT'|now apply sub_bytes|now apply sub_length]. }
      clear views HF HFb HJ. induction views as [|v vs IH]; intros pv HF Hp HJ; [exact I|]. inversion HF; subst. cbn [map jumps_ok chain] in *. rewrite (HV v H1) in HJ.
      destruct HJ as [J1 J2]. split.
      - cbn [delta_pv qcur]. rewrite s64_min. intros E. apply J1. rewrite <- E. f_equal. destruct pv as [p|]; [|reflexivity]. rewrite (HV p Hp). reflexivity.
      - apply IH; auto. rewrite (HV v H1). exact J2. }
    apply HG; auto. }
  destruct (seq_roundtrip ops _ _ _ (P_int off t o HT') views reset_state None rest (st_inv_reset _) (fun _ => eq_refl) HC HFb HFp HR) as (bss & E & HL & HB & HLen & HD).
  exists bss. split; [exact E|]. split; [exact HLen|]. rewrite HD. f_equal. f_equal. apply map_ext. intros v. cbn [stores_of pieces map piece_bytes recon].
  unfold store. rewrite (proj2 (Z.eqb_neq _ _) Ho). reflexivity.
Qed.
(** For 16 and 32 bit types the proviso always holds. *)
Theorem C04_int_lossless_small : forall t off views, t = INT16 \/ t = UINT16 \/ t = INT32 \/ t = UINT32 ->
  Forall (has_field off (SizeOf t)) views -> jumps_ok 0 (map (fun v => int_value t (sub off (SizeOf t) v)) views).
Proof.
  intros t off views HT HF.
  assert (HR : forall v, has_field off (SizeOf t) v -> exists x, int_value t (sub off (SizeOf t) v) = Some x /\ -4294967296 < x < 4294967296).
  { intros v (H1 & H2 & H3). pose proof (le_val_range (sub off (SizeOf t) v) (sub_bytes _ _ _ H1)) as B. pose proof (sub_length off (SizeOf t) v H2 H3) as HLn.
    unfold zlen in B. rewrite HLn in B. destruct HT as [->|[->|[->| ->]]]; cbn [SizeOf] in B |- *; eexists; (split; [reflexivity|]).
    - change (256 ^ Z.of_nat 2) with 65536 in B. cbn zeta. destruct (32768 <=? _); lia.
    - change (256 ^ Z.of_nat 2) with 65536 in B. lia.
    - unfold s32. pose proof (Z.mod_pos_bound (le_val (sub off 4 v) + 2147483648) 4294967296 ltac:(lia)). lia.
    - change (256 ^ Z.of_nat 4) with 4294967296 in B. lia. }
  assert (HG : forall p, -4294967296 < p < 4294967296 -> jumps_ok p (map (fun v => int_value t (sub off (SizeOf t) v)) views)).
  { induction HF as [|v vs Hv HF IH]; intros p Hp; [exact I|]. cbn [map jumps_ok]. destruct (HR v Hv) as (x & -> & Hx). split; [|apply IH; lia].
    pose proof (Z.div_mod (x - p) 18446744073709551616 ltac:(lia)). intros E. rewrite E in H. lia. }
  apply HG. lia.
Qed.
(** For 64 bit types it can fail: the value INT64_MIN cannot be decoded. *)
Theorem C04_int64_refuted : exists bs, bytes bs /\ length bs = 8%nat /\
  forall ops o, exists out, encode_all ops (EInt 0 INT64) reset_state [bs] = Ok [out] /\ decode_all ops (DInt o 8) reset_state 1 out = Throw.
Proof.
  exists [0;0;0;0;0;0;0;128]. split; [repeat constructor; unfold is_byte; lia|]. split; [reflexivity|]. intros ops o. exists [0].
  split; [vm_compute; reflexivity|]. vm_compute. reflexivity.
Qed.
Print Assumptions C04_int_lossless.
Print Assumptions C04_int_lossless_small.
Print Assumptions C04_int64_refuted.
Example C04_case : let views := [[9;255;255;255;127]; [9;0;0;0;128]; [9;1;0;0;0]] in
  Forall (has_field 1 4) views /\ jumps_ok 0 (map (fun v => int_value INT32 (sub 1 4 v)) views).
Proof. split; [repeat constructor; unfold is_byte, zlen; cbn; lia|]. vm_compute. intuition discriminate. Qed.
Example C04_case64 : let views := [[255;255;255;255;255;255;255;127]; [0;0;0;0;0;0;0;128]] in
  Forall (has_field 0 8) views /\ jumps_ok 0 (map (fun v => int_value INT64 (sub 0 8 v)) views).
Proof. split; [repeat constructor; unfold is_byte, zlen; cbn; lia|]. vm_compute. intuition discriminate. Qed.

(** * C05 *)
Theorem C05_xor_exact : forall ops sz off o views rest, sz = 4%nat \/ sz = 8%nat -> o <> kSkip -> bytes rest ->
  Forall (has_field off sz) views ->
  exists bss, encode_all ops (EXor off sz) reset_state views = Ok bss /\ Forall (fun b => length b = sz) bss /\
    decode_all ops (DXor o sz) reset_state (length views) (concat bss ++ rest) = Ok (map (fun v => [(o, sub off sz v)]) views, rest).
Proof.
  intros ops sz off o views rest HS Ho HR HF.
  destruct (seq_roundtrip ops _ _ _ (P_xor off sz o ltac:(lia)) views reset_state None rest (st_inv_reset _)) as (bss & E & HL & HB & HLen & HD); auto.
  - intros [=].
  - clear. generalize (@None (list Z)). induction views; intros p; cbn; auto.
  - eapply Forall_impl; [|exact HF]; intros v Hv; apply Hv.
  - eapply Forall_impl; [|exact HF]. intros v (H1 & H2 & H3). constructor; [split; assumption|constructor].
  - exists bss. split; [exact E|]. split; [eapply Forall_impl; [|exact HLen]; cbn; intros; lia|]. rewrite HD. f_equal. f_equal. apply map_ext. intros v. cbn [stores_of pieces map piece_bytes recon].
    unfold store. rewrite (proj2 (Z.eqb_neq _ _) Ho). reflexivity.
Qed.
Print Assumptions C05_xor_exact.
Example C05_case : Forall (has_field 0 4) [[1;0;192;255];[0;0;128;127];[0;0;0;128]].   (* NaN payload, +inf, -0 *)
Proof. repeat constructor; unfold is_byte, zlen; cbn; lia. Qed.

(** * C06 *)
Theorem C06_gorilla_exact : forall ops off o views rest, o <> kSkip -> bytes rest -> Forall (has_field off 8) views ->
  exists bss, encode_all ops (EGorilla off) reset_state views = Ok bss /\ Forall (fun b => (1 <= length b <= 10)%nat) bss /\
    decode_all ops (DGorilla o) reset_state (length views) (concat bss ++ rest) = Ok (map (fun v => [(o, sub off 8 v)]) views, rest).
Proof.
  intros ops off o views rest Ho HR HF.
  assert (HFb : Forall bytes views) by (eapply Forall_impl; [|exact HF]; intros v Hv; apply Hv).
  destruct (seq_roundtrip ops _ _ _ (P_gor off o) views reset_state None rest (st_inv_reset _)) as (bss & E & HL & HB & HLen & HD); auto.
  - intros [=].
  - clear. generalize (@None (list Z)). induction views; intros p; cbn; auto.
  - eapply Forall_impl; [|exact HF]. intros v (H1 & H2 & H3). constructor; [split; assumption|constructor].
  - exists bss. split; [exact E|]. split.
    + clear HD HLen HL. revert E. assert (HI0 : gor_inv reset_state) by exact gor_inv_reset. revert HI0. generalize reset_state. revert bss HB. induction views as [|v vs IH]; intros bss HB st HI E.
      * cbn in E. injection E as <-. constructor.
      * inversion HF; subst. inversion HFb; subst. cbn [encode_all] in E. destruct (enc_step ops (EGorilla off) st v) as [[st' b]| |] eqn:E1; try discriminate E.
        cbn [bind] in E. destruct (encode_all ops (EGorilla off) st' vs) as [bs| |] eqn:E2; try discriminate E. cbn [bind] in E. injection E as <-.
        cbn [enc_step] in E1. destruct H1 as (G1 & G2 & G3). rewrite (rd_sub_ok off 8 v G2 G3) in E1. cbn [bind] in E1.
        inversion HB; subst.
        assert (E1' : gor_encode st (le_val (sub off 8 v)) = (st', b)) by (injection E1 as E1; exact E1).
        destruct (gor_roundtrip st (le_val (sub off 8 v)) st' b [] HI) as (_ & HI' & _ & _ & HZ); auto.
        { pose proof (le_val_range (sub off 8 v) (sub_bytes _ _ _ G1)) as B. unfold zlen in B. rewrite (sub_length off 8 v G2 G3) in B. change (2 ^ 64) with (256 ^ Z.of_nat 8). exact B. }
        { constructor. }
        constructor; [unfold zlen in HZ; lia|]. eapply IH; eassumption.
    + rewrite HD. f_equal. f_equal. apply map_ext. intros v. cbn [stores_of pieces map piece_bytes recon].
      unfold store. rewrite (proj2 (Z.eqb_neq _ _) Ho). reflexivity.
Qed.
Print Assumptions C06_gorilla_exact.
Example C06_case : match encode_all sse_ops (EGorilla 0) reset_state [[0;0;0;0;0;0;240;63]; [0;0;0;0;0;0;0;64]; [1;0;0;0;0;0;248;127]] with
  | Ok bss => map (@length Z) bss = [8; 3; 10]%nat /\
      decode_all sse_ops (DGorilla 4) reset_state 3 (concat bss) = Ok ([[(4, [0;0;0;0;0;0;240;63])]; [(4, [0;0;0;0;0;0;0;64])]; [(4, [1;0;0;0;0;0;248;127])]], [])
  | _ => False end.
Proof. vm_compute. auto. Qed.

(** * C07 *)
(** Lossy scalars: each sample decodes to its own quantised image, NaN to NaN. *)
Theorem C07_lossy32 : forall ops r off o views rest, o <> kSkip -> bytes rest -> Forall (has_field off 4) views ->
  jumps_ok 0 (map (fun v => let x := le_val (sub off 4 v) in if isnan32 x then None else Some (s64 (q32 ops r x))) views) ->
  exists bss, encode_all ops (ELossy32 off r) reset_state views = Ok bss /\ Forall (fun b => (1 <= length b <= 10)%nat) bss /\
    decode_all ops (DLossy32 o r) reset_state (length views) (concat bss ++ rest) =
      Ok (map (fun v => let x := le_val (sub off 4 v) in
                        [(o, le_bytes 4 (if isnan32 x then qnan32 else u32 (d32 ops r (s64 (q32 ops r x)))))]) views, rest).
Proof.
  intros ops r off o views rest Ho HR HF HJ.
  destruct (seq_roundtrip ops _ _ _ (P_l32 off r o) views reset_state None rest (st_inv_reset _) (fun _ => eq_refl)) as (bss & E & HL & HB & HLen & HD); auto.
  - apply (chain_intro ops (ELossy32 off r) (fun v => let x := le_val (sub off 4 v) in if isnan32 x then None else Some (s64 (q32 ops r x)))); [|exact HJ].
    intros pv v H. cbn [delta_pv qcur]. intros Hn. cbn zeta in H. rewrite Hn in *. intros E. apply (H _ eq_refl). rewrite <- E. f_equal. destruct pv as [p|]; [|reflexivity]. cbn [opt0]. destruct (isnan32 _); reflexivity.
  - eapply Forall_impl; [|exact HF]; intros v Hv; apply Hv.
  - eapply Forall_impl; [|exact HF]. intros v (H1 & H2 & H3). constructor; [split; assumption|constructor].
  - exists bss. split; [exact E|]. split; [exact HLen|]. rewrite HD. f_equal. f_equal. apply map_ext. intros v. cbn [stores_of pieces map piece_bytes recon].
    unfold store. rewrite (proj2 (Z.eqb_neq _ _) Ho). reflexivity.
Qed.
Theorem C07_lossy64 : forall ops r off o views rest, o <> kSkip -> bytes rest -> Forall (has_field off 8) views ->
  jumps_ok 0 (map (fun v => let x := le_val (sub off 8 v) in if isnan64 x then None else Some (s64 (q64 ops r x))) views) ->
  exists bss, encode_all ops (ELossy64 off r) reset_state views = Ok bss /\ Forall (fun b => (1 <= length b <= 10)%nat) bss /\
    decode_all ops (DLossy64 o r) reset_state (length views) (concat bss ++ rest) =
      Ok (map (fun v => let x := le_val (sub off 8 v) in
                        [(o, le_bytes 8 (if isnan64 x then qnan64 else u64 (d64 ops r (s64 (q64 ops r x)))))]) views, rest).
Proof.
  intros ops r off o views rest Ho HR HF HJ.
  destruct (seq_roundtrip ops _ _ _ (P_l64 off r o) views reset_state None rest (st_inv_reset _) (fun _ => eq_refl)) as (bss & E & HL & HB & HLen & HD); auto.
  - apply (chain_intro ops (ELossy64 off r) (fun v => let x := le_val (sub off 8 v) in if isnan64 x then None else Some (s64 (q64 ops r x)))); [|exact HJ].
    intros pv v H. cbn [delta_pv qcur]. intros Hn. cbn zeta in H. rewrite Hn in *. intros E. apply (H _ eq_refl). rewrite <- E. f_equal. destruct pv as [p|]; [|reflexivity]. cbn [opt0]. destruct (isnan64 _); reflexivity.
  - eapply Forall_impl; [|exact HF]; intros v Hv; apply Hv.
  - eapply Forall_impl; [|exact HF]. intros v (H1 & H2 & H3). constructor; [split; assumption|constructor].
  - exists bss. split; [exact E|]. split; [exact HLen|]. rewrite HD. f_equal. f_equal. apply map_ext. intros v. cbn [stores_of pieces map piece_bytes recon].
    unfold store. rewrite (proj2 (Z.eqb_neq _ _) Ho). reflexivity.
Qed.
Print Assumptions C07_lossy32.
Print Assumptions C07_lossy64.
(** 0x3C23D70A is the float 0.01; samples 1.234, NaN, -5.5 *)
Example C07_case : let views := [le_bytes 4 1067316150; le_bytes 4 2143289345; le_bytes 4 3232759808] in
  Forall (has_field 0 4) views /\
  jumps_ok 0 (map (fun v => let x := le_val (sub 0 4 v) in if isnan32 x then None else Some (s64 (q32 sse_ops 1008981770 x))) views) /\
  map (fun v => q32 sse_ops 1008981770 (le_val v)) views = [123; INT64_MIN; -550].
Proof. split; [repeat constructor; unfold is_byte, zlen; cbn; lia|]. split; vm_compute; intuition discriminate. Qed.
(** A sample whose quantised value overflows int64 is written as the NaN marker and
    comes back as NaN although it is finite (1e30 at resolution 0.01). *)
Theorem C07_overflow_refuted : exists x r, isnan32 x = false /\ f32_le0 r = false /\
  encode_all sse_ops (ELossy32 0 r) reset_state [le_bytes 4 x] = Ok [[0]] /\
  decode_all sse_ops (DLossy32 0 r) reset_state 1 [0] = Ok ([[(0, le_bytes 4 qnan32)]], []).
Proof. exists 1900671690, 1008981770. vm_compute. auto. Qed.
Print Assumptions C07_overflow_refuted.

(** * C08 *)
(** Three or four grouped floats: each lane decodes to its own quantised image. *)
Theorem C08_grouped : forall ops lanes lanes' views rest, (1 <= length lanes <= 4)%nat -> map snd lanes = map snd lanes' ->
  Forall (fun l => fst l <> kSkip) lanes' -> bytes rest ->
  Forall (fun v => Forall (fun l => has_field (fst l) 4 v) lanes) views ->
  exists bss, encode_all ops (EFloatN lanes) reset_state views = Ok bss /\
    Forall (fun b => (length lanes <= length b <= 5 * length lanes)%nat) bss /\
    decode_all ops (DFloatN lanes') reset_state (length views) (concat bss ++ rest) =
      Ok (map (fun v => map (fun ll => let x := le_val (sub (fst (fst ll)) 4 v) in let r := snd (fst ll) in
                              (fst (snd ll), le_bytes 4 (if isnan32 x then qnan32 else u32 (dN ops r (s32 (qN ops r x))))))
                            (combine lanes lanes')) views, rest).
Proof.
  intros ops lanes lanes' views rest HL HM HS HR HF.
  assert (HLn : length lanes' = length lanes) by (rewrite <- (map_length snd lanes'), <- HM; apply map_length).
  destruct (seq_roundtrip ops _ _ _ (P_N lanes lanes' HM HL) views reset_state None rest (st_inv_reset _)) as (bss & E & HL2 & HB & HLen & HD); auto.
  - intros [=].
  - clear. generalize (@None (list Z)). induction views; intros p; cbn; auto.
  - eapply Forall_impl; [|exact HF]. intros v Hv. destruct lanes as [|l ls]; [cbn in HL; lia|]. inversion Hv; subst. apply H1.
  - eapply Forall_impl; [|exact HF]. intros v Hv. cbn [pieces]. apply Forall_map. eapply Forall_impl; [|exact Hv]. intros l (H1 & H2 & H3). split; assumption.
  - exists bss. split; [exact E|]. split; [eapply Forall_impl; [|exact HLen]; cbn [min_input_bytes enc_max]; rewrite HLn; auto|]. rewrite HD. f_equal. f_equal. apply map_ext. intros v.
    cbn [pieces]. rewrite map_map. clear - HS HM. revert lanes' HS HM. induction lanes as [|[oo r] ls IH]; intros [|[o' r'] ls'] HS HM; try discriminate HM; [reflexivity|].
    inversion HS; subst. cbn [map] in HM. injection HM as _ HM. cbn [map stores_of combine fst snd]. cbn [fst] in H1. unfold store at 1. rewrite (proj2 (Z.eqb_neq _ _) H1). rewrite (IH ls' H2 HM). reflexivity.
Qed.
Print Assumptions C08_grouped.
Example C08_case : let v := le_bytes 4 1067316150 ++ le_bytes 4 2143289345 ++ le_bytes 4 3232759808 in
  Forall (fun v => Forall (fun l => has_field (fst l) 4 v) [(0, 1008981770); (4, 1008981770); (8, 1008981770)]) [v; v; v].
Proof. vm_compute. repeat constructor; lia || (intros H; discriminate H). Qed.
