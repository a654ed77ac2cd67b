(** Facts about the public encoder/decoder objects, part 1: chunks in the output. *)
From Verif Require Import Base BaseFacts Varint VarintFacts Types Floats Fields Codec V5 Api Spec LibSpec.

Lemma store_lib_ok : compressor_ok store_lib.
Proof.
  constructor; cbn [store_lib c_compress c_decompress c_bound].
  - intros src dst. destruct (Z.ltb_spec (zlen dst) (zlen src + 1)); cbn [snd]; [reflexivity|].
    unfold zlen in *. cbn [length]. rewrite app_length, skipn_length. lia.
  - intros src dst Hs Hd. destruct (zlen dst <? zlen src + 1); cbn [snd]; [exact Hd|].
    constructor; [unfold is_byte; lia|]. apply bytes_app. split; [exact Hs|apply bytes_skipn, Hd].
  - intros src dst n Hs Hd. destruct (Z.ltb_spec (zlen dst) (zlen src + 1)); cbn [fst snd]; [discriminate|].
    intros [= <-]. split; [unfold zlen in *; lia|]. split; [lia|]. intros cap.
    replace (Z.to_nat (zlen src + 1)) with (S (length src)) by (unfold zlen; lia). cbn [firstn].
    rewrite firstn_app, firstn_all, Nat.sub_diag. cbn [firstn]. rewrite app_nil_r.
    reflexivity.
  - intros src dst _ H. destruct (Z.ltb_spec (zlen dst) (zlen src + 1)); cbn [fst]; [lia|discriminate].
  - intros; lia.
  - unfold LIB_MAX, UINT32_MAX; intros; lia.
  - intros; lia.
  - intros src d1 d2 H. unfold zlen. rewrite H. destruct (_ <? _) eqn:E; cbn [fst snd]; [split; [reflexivity|discriminate]|].
    split; [reflexivity|]. intros n [= <-].
    replace (Z.to_nat (Z.of_nat (length src) + 1)) with (S (length src)) by lia. cbn [firstn].
    now rewrite !firstn_app, !firstn_all, !Nat.sub_diag.
  - intros src cap r Hs. destruct src as [|b src]; [discriminate|]. destruct b; try discriminate.
    destruct (Z.leb_spec (zlen src) cap); [|discriminate]. intros [= <-]. split; [assumption|]. now inversion Hs.
Qed.
Lemma store_libs_ok : libs_ok store_libs.
Proof. split; apply store_lib_ok. Qed.

(** ** Writing one chunk *)
Definition w_ok (w : wstate) : Prop := 0 <= w_pos w <= zlen (w_mem w) /\ bytes (w_mem w).
(** [w'] comes from [w] by steps that leave everything before w's position alone *)
Definition extends (w w' : wstate) : Prop :=
  w_ok w' /\ length (w_mem w') = length (w_mem w) /\ w_sts w' = w_sts w /\ w_pos w <= w_pos w' /\
  firstn (Z.to_nat (w_pos w)) (w_mem w') = firstn (Z.to_nat (w_pos w)) (w_mem w).
Definition wrote (w w' : wstate) (bs : list Z) : Prop :=
  extends w w' /\ w_pos w' = w_pos w + zlen bs /\
  firstn (Z.to_nat (w_pos w')) (w_mem w') = firstn (Z.to_nat (w_pos w)) (w_mem w) ++ bs.

Lemma firstn_firstn_le {A} n m (l : list A) : (n <= m)%nat -> firstn n (firstn m l) = firstn n l.
Proof. intros. rewrite firstn_firstn. f_equal. lia. Qed.
Lemma extends_refl w : w_ok w -> extends w w.
Proof. unfold extends. intuition lia. Qed.
Lemma extends_trans w1 w2 w3 : w_ok w1 -> extends w1 w2 -> extends w2 w3 -> extends w1 w3.
Proof.
  intros (H0 & _) (H1 & L1 & S1 & P1 & F1) (H2 & L2 & S2 & P2 & F2).
  split; [exact H2|]. split; [lia|]. split; [congruence|]. split; [lia|].
  rewrite <- F1. rewrite <- (firstn_firstn_le (Z.to_nat (w_pos w1)) (Z.to_nat (w_pos w2)) (w_mem w3)) by lia.
  rewrite F2. apply firstn_firstn_le. lia.
Qed.
Lemma wrote_nil w : w_ok w -> wrote w w [].
Proof. intros H. split; [apply extends_refl, H|]. split; [change (zlen (@nil Z)) with 0; lia|]. now rewrite app_nil_r. Qed.
Lemma wrote_trans w1 w2 w3 a b : w_ok w1 -> wrote w1 w2 a -> wrote w2 w3 b -> wrote w1 w3 (a ++ b).
Proof.
  intros H0 (E1 & P1 & F1) (E2 & P2 & F2). split; [eapply extends_trans; eauto|].
  split; [rewrite zlen_app; lia|]. rewrite F2, F1, app_assoc. reflexivity.
Qed.
Lemma wrote_sub w w' bs : w_ok w -> wrote w w' bs -> sub (w_pos w) (length bs) (w_mem w') = bs.
Proof.
  intros (H0 & _) ((_ & L & _ & _ & _) & P & F). unfold sub.
  assert (E : skipn (Z.to_nat (w_pos w)) (firstn (Z.to_nat (w_pos w')) (w_mem w')) = bs).
  { rewrite F, skipn_app, firstn_length, skipn_firstn_comm.
    replace (Z.to_nat (w_pos w) - Nat.min (Z.to_nat (w_pos w)) (length (w_mem w)))%nat with O by (unfold zlen in H0; lia).
    rewrite Nat.sub_diag. reflexivity. }
  rewrite <- E at 2. rewrite skipn_firstn_comm. f_equal. unfold zlen in P. lia.
Qed.

Lemma put_advance bs w : w_ok w -> bytes bs -> zlen bs <= avail w ->
  exists w', (perform _ <- put_at (w_pos w) bs ; advance (zlen bs)) w = (Ok tt, w') /\ wrote w w' bs.
Proof.
  intros (H0 & Hb) Hbs Ha. unfold abind, put_at. unfold avail in Ha.
  rewrite wr_ok by lia. set (m := _ ++ _ ++ _).
  assert (Lm : length m = length (w_mem w)).
  { unfold m. rewrite !app_length, firstn_length, skipn_length. unfold zlen in *. lia. }
  assert (Hz : zlen m = zlen (w_mem w)) by (unfold zlen; lia).
  unfold advance, avail. cbn [w_mem w_pos w_sts]. rewrite Hz.
  replace (zlen (w_mem w) - w_pos w <? zlen bs) with false by lia.
  eexists. split; [reflexivity|]. split; [|split].
  - split; [|split; [|split; [|split]]]; cbn [w_mem w_pos w_sts]; auto.
    + split; cbn [w_mem w_pos w_sts]; [pose proof (zlen_nonneg bs); lia|]. unfold m. rewrite !bytes_app. auto using bytes_firstn, bytes_skipn.
    + pose proof (zlen_nonneg bs); lia.
    + unfold m. rewrite firstn_app, firstn_length, firstn_firstn_le by lia.
      replace (Z.to_nat (w_pos w) - _)%nat with O by (unfold zlen in *; lia). now rewrite app_nil_r.
  - reflexivity.
  - cbn [w_mem w_pos]. unfold m. rewrite app_assoc, firstn_app.
    replace (Z.to_nat (w_pos w + zlen bs) - length (firstn (Z.to_nat (w_pos w)) (w_mem w) ++ bs))%nat with O
      by (rewrite app_length, firstn_length; unfold zlen in *; lia).
    cbn [firstn]. rewrite app_nil_r. apply firstn_all2. rewrite app_length, firstn_length; unfold zlen in *; lia.
Qed.

(** The room WriteStage1Chunk needs to succeed for certain. *)
Definition room (L : libs) (opt : comp_opt) (n : Z) : Z :=
  4 + match opt with
      | COMP_LZ4 => c_bound (lz4 L) n
      | COMP_ZSTD => c_bound (zstd L) n
      | _ => n
      end.
(** Size limits outside of which the chunk writer throws. *)
Definition small (opt : comp_opt) (n av : Z) : Prop :=
  n <= UINT32_MAX /\
  match opt with
  | COMP_NONE => True
  | COMP_LZ4 => n <= LIB_MAX /\ av <= INT_MAX
  | COMP_ZSTD => n <= LIB_MAX
  | COMP_OTHER _ => False
  end.

Lemma compress_spec L opt c bs w r w' : (opt = COMP_LZ4 /\ c = lz4 L \/ opt = COMP_ZSTD /\ c = zstd L) ->
  compressor_ok c -> bytes bs -> w_ok w -> CompressChunk L opt bs w = (r, w') ->
  extends w w' /\ r <> UB /\
  (forall n, r = Ok n -> exists p, zlen p = n /\ wrote w w' p /\ bytes p /\ zlen p <= UINT32_MAX /\ 0 < zlen p /\ zlen p <= c_bound c (zlen bs) /\
     forall cap, c_decompress c p cap = (if zlen bs <=? cap then Some bs else None)) /\
  (r = Throw -> small opt (zlen bs) (avail w) -> avail w < c_bound c (zlen bs)).
Proof.
  intros Hc Hok Hb Hw HC. unfold CompressChunk in HC.
  assert (HR : run_compressor c bs w = (r, w') -> extends w w' /\ r <> UB /\
    (forall n, r = Ok n -> exists p, zlen p = n /\ wrote w w' p /\ bytes p /\ zlen p <= UINT32_MAX /\ 0 < zlen p /\ zlen p <= c_bound c (zlen bs) /\
       forall cap, c_decompress c p cap = (if zlen bs <=? cap then Some bs else None)) /\
    (r = Throw -> small opt (zlen bs) (avail w) -> avail w < c_bound c (zlen bs))).
  { clear HC. unfold run_compressor. set (dst := skipn (Z.to_nat (w_pos w)) (w_mem w)).
    destruct Hw as (H0 & Hbm). pose proof (lib_len c Hok bs dst) as Hl.
    assert (Hbd : bytes dst) by (apply bytes_skipn, Hbm).
    pose proof (lib_bytes c Hok bs dst Hb Hbd) as Hbb. pose proof (lib_some c Hok bs dst) as Hs. pose proof (lib_bound c Hok bs dst) as Hbo.
    destruct (c_compress c bs dst) as [o dst']. cbn [fst snd] in *.
    assert (Ld : zlen dst = avail w) by (unfold avail, dst, zlen in *; rewrite skipn_length; lia).
    assert (Lp : length (firstn (Z.to_nat (w_pos w)) (w_mem w)) = Z.to_nat (w_pos w)) by (rewrite firstn_length; unfold zlen in *; lia).
    set (w1 := mkW (w_pos w) (firstn (Z.to_nat (w_pos w)) (w_mem w) ++ dst') (w_sts w)).
    assert (Lm : zlen (w_mem w1) = zlen (w_mem w)).
    { unfold w1; cbn [w_mem]. rewrite zlen_app. unfold avail, zlen in *. lia. }
    assert (E1 : extends w w1).
    { split; [split; [cbn [w_pos w1]; lia|cbn [w_mem w1]; rewrite bytes_app; auto using bytes_firstn]|].
      split; [unfold zlen in Lm; lia|]. split; [reflexivity|]. split; [cbn [w1 w_pos]; lia|].
      cbn [w1 w_mem w_pos]. rewrite firstn_app, Lp, Nat.sub_diag. cbn [firstn]. rewrite app_nil_r. apply firstn_firstn_le. lia. }
    destruct o as [n|].
    - destruct (Hs n Hb Hbd eq_refl) as (Hn & Hnb & Hd).
      destruct (Z.ltb_spec UINT32_MAX n).
      + intros E. apply pair_equal_spec in E. destruct E as [<- <-].
        split; [exact E1|]. split; [discriminate|]. split; [discriminate|]. intros _ (_ & Hsm).
        assert (Hlm : zlen bs <= LIB_MAX) by (destruct Hc as [[-> _]|[-> _]]; cbn [small] in Hsm; lia).
        pose proof (zlen_nonneg bs). pose proof (lib_u32 c Hok (zlen bs)). lia.
      + unfold abind, advance. replace (avail w1 <? n) with false
          by (unfold avail; rewrite Lm; unfold avail in Ld; cbn [w1 w_pos]; lia).
        intros E. apply pair_equal_spec in E. destruct E as [<- <-].
        set (p := firstn (Z.to_nat n) dst').
        assert (Lpp : length p = Z.to_nat n) by (unfold p; rewrite firstn_length; unfold zlen in *; lia).
        assert (HX : wrote w (mkW (w_pos w1 + n) (w_mem w1) (w_sts w1)) p).
        { destruct E1 as ((A1 & A2) & A3 & A4 & A5 & A6). split; [|split]; cbn [w_pos w_mem w_sts].
          - split; [split; cbn [w_pos w_mem w_sts]; [|exact A2]|]; [|split; [|split; [|split]]]; cbn [w_pos w_mem w_sts]; auto.
            + unfold avail in Ld. rewrite Lm. cbn [w1 w_pos]. lia.
            + cbn [w1 w_pos]. lia.
          - unfold zlen. rewrite Lpp. cbn [w1 w_pos]. lia.
          - cbn [w1 w_pos w_mem]. rewrite firstn_app, Lp. f_equal.
            + apply firstn_all2. rewrite Lp. lia.
            + unfold p. f_equal. lia. }
        split; [apply HX|]. split; [discriminate|]. split; [|discriminate].
        intros n' [= <-]. exists p. split; [unfold zlen; lia|]. split; [exact HX|]. split; [apply bytes_firstn, Hbb|].
        split; [unfold zlen; lia|]. split; [unfold zlen; lia|]. split; [unfold zlen in *; lia|]. exact Hd.
    - intros E. apply pair_equal_spec in E. destruct E as [<- <-].
      split; [exact E1|]. split; [discriminate|]. split; [discriminate|]. intros _ (_ & Hsm).
      assert (Hlm : zlen bs <= LIB_MAX) by (destruct Hc as [[-> _]|[-> _]]; cbn [small] in Hsm; lia).
      destruct (Z.lt_ge_cases (avail w) (c_bound c (zlen bs))) as [|Hge]; [assumption|]. exfalso. rewrite <- Ld in Hge. now apply (Hbo Hlm Hge). }
  assert (HT : (Throw, w) = (r, w') -> ~ small opt (zlen bs) (avail w) -> extends w w' /\ r <> UB /\
    (forall n, r = Ok n -> exists p, zlen p = n /\ wrote w w' p /\ bytes p /\ zlen p <= UINT32_MAX /\ 0 < zlen p /\ zlen p <= c_bound c (zlen bs) /\
       forall cap, c_decompress c p cap = (if zlen bs <=? cap then Some bs else None)) /\
    (r = Throw -> small opt (zlen bs) (avail w) -> avail w < c_bound c (zlen bs))).
  { intros E Hns. apply pair_equal_spec in E. destruct E as [<- <-].
    split; [apply extends_refl, Hw|]. split; [discriminate|]. split; [discriminate|]. tauto. }
  destruct (Z.ltb_spec UINT32_MAX (zlen bs)).
  - apply (HT HC). unfold small. lia.
  - destruct Hc as [[-> ->]|[-> ->]].
    + destruct (Z.ltb_spec INT_MAX (zlen bs)); cbn [orb] in HC; [apply (HT HC); unfold small, LIB_MAX, INT_MAX in *; lia|].
      destruct (Z.ltb_spec INT_MAX (avail w)); cbn [orb] in HC; [apply (HT HC); unfold small, LIB_MAX, INT_MAX in *; lia|].
      apply (HR HC).
    + apply (HR HC).
Qed.

Lemma compress_lz4 L bs w n w' : CompressChunk L COMP_LZ4 bs w = (Ok n, w') -> avail w <= INT_MAX.
Proof.
  unfold CompressChunk. destruct (_ <? zlen bs); [discriminate|]. destruct (Z.ltb_spec INT_MAX (avail w)); [|lia].
  rewrite orb_true_r. discriminate.
Qed.
Lemma extends_avail w w' : extends w w' -> avail w' <= avail w.
Proof. intros (_ & Hl & _ & Hp & _). unfold avail, zlen. rewrite Hl. lia. Qed.
Lemma wrote_avail w w' bs : wrote w w' bs -> avail w' = avail w - zlen bs.
Proof. intros ((_ & Hl & _ & _ & _) & Hp & _). unfold avail. unfold zlen at 1. rewrite Hl, Hp. unfold zlen. lia. Qed.

Lemma write_chunk_spec L opt bs w r w' : libs_ok L -> bytes bs -> w_ok w -> WriteStage1Chunk L opt bs w = (r, w') ->
  extends w w' /\ r <> UB /\
  (forall n, r = Ok n -> exists p, payload L opt bs p /\ bytes p /\ zlen p <= UINT32_MAX /\ n = zlen (frame p) /\ n <= room L opt (zlen bs) /\ wrote w w' (frame p)) /\
  (r = Throw -> small opt (zlen bs) (avail w) -> avail w < room L opt (zlen bs)).
Proof.
  intros [HL HZ] Hb Hw HE. unfold WriteStage1Chunk in HE.
  assert (Hnn : 0 <= zlen bs) by apply zlen_nonneg.
  assert (HT : (Throw, w) = (r, w') -> (small opt (zlen bs) (avail w) -> avail w < room L opt (zlen bs)) -> extends w w' /\ r <> UB /\
    (forall n, r = Ok n -> exists p, payload L opt bs p /\ bytes p /\ zlen p <= UINT32_MAX /\ n = zlen (frame p) /\ n <= room L opt (zlen bs) /\ wrote w w' (frame p)) /\
    (r = Throw -> small opt (zlen bs) (avail w) -> avail w < room L opt (zlen bs))).
  { intros E Hns. apply pair_equal_spec in E. destruct E as [<- <-].
    split; [apply extends_refl, Hw|]. split; [discriminate|]. split; [discriminate|]. intros _. exact Hns. }
  destruct (Z.ltb_spec UINT32_MAX (zlen bs)) as [Hbig|Hsmall]; [apply (HT HE); unfold small, LIB_MAX, INT_MAX in *; lia|].
  assert (HCC : forall c, (opt = COMP_LZ4 /\ c = lz4 L \/ opt = COMP_ZSTD /\ c = zstd L) -> compressor_ok c ->
    (perform _ <- advance 4 ; perform n <- CompressChunk L opt bs ; perform _ <- put_at (w_pos w) (le_bytes 4 n) ; ret (n + 4)) w = (r, w') ->
    extends w w' /\ r <> UB /\
    (forall n, r = Ok n -> exists p, payload L opt bs p /\ bytes p /\ zlen p <= UINT32_MAX /\ n = zlen (frame p) /\ n <= room L opt (zlen bs) /\ wrote w w' (frame p)) /\
    (r = Throw -> small opt (zlen bs) (avail w) -> avail w < room L opt (zlen bs))).
  { clear HE. intros c Hc Hok HE.
    assert (Hroom : room L opt (zlen bs) = 4 + c_bound c (zlen bs)) by (destruct Hc as [[-> ->]|[-> ->]]; reflexivity).
    assert (Hbn : 0 <= c_bound c (zlen bs)) by (apply (lib_nonneg c Hok (zlen bs)); lia).
    unfold abind in HE at 1. unfold advance in HE at 1. destruct (Z.ltb_spec (avail w) 4) as [Hav|Hav].
    { apply (HT HE). intros _. lia. }
    destruct Hw as (Hp & Hbm). unfold avail in Hav.
    set (w1 := mkW (w_pos w + 4) (w_mem w) (w_sts w)) in HE.
    assert (Hw1 : w_ok w1) by (split; cbn [w1 w_mem w_pos]; [lia|exact Hbm]).
    assert (Ew1 : extends w w1).
    { split; [exact Hw1|]. split; [reflexivity|]. split; [reflexivity|]. split; [cbn [w1 w_pos]; lia|]. reflexivity. }
    unfold abind in HE at 1. destruct (CompressChunk L opt bs w1) as [rc w2] eqn:EC.
    destruct (compress_spec L opt c bs w1 rc w2 Hc Hok Hb Hw1 EC) as (E2 & HnU & HOk & HTh).
    assert (E02 : extends w w2) by (eapply extends_trans; eauto; now split).
    destruct rc as [m| |]; [| |congruence].
    - destruct (HOk m eq_refl) as (p & Hpl & (E2' & P2 & F2) & Hpb & Hpm & Hp0 & Hpc & Hpd).
      assert (Hpi : opt = COMP_LZ4 -> zlen p <= INT_MAX).
      { intros ->. apply compress_lz4 in EC. pose proof (wrote_avail w1 w2 p (conj E2' (conj P2 F2))). destruct E2' as ((B1 & _) & _). unfold avail in *. lia. }
      unfold abind, put_at in HE. destruct E02 as ((A1 & A2) & A3 & A4 & A5 & A6). cbn [w1 w_pos w_mem] in P2, F2.
      assert (Hz2 : zlen (w_mem w2) = zlen (w_mem w)) by (unfold zlen; lia).
      assert (Zm : zlen (le_bytes 4 m) = 4) by (unfold zlen; rewrite le_bytes_length; reflexivity).
      rewrite wr_ok in HE by lia. cbn [ret] in HE.
      apply pair_equal_spec in HE. destruct HE as [<- <-].
      set (m2 := firstn (Z.to_nat (w_pos w)) (w_mem w2) ++ le_bytes 4 m ++ skipn (Z.to_nat (w_pos w) + length (le_bytes 4 m)) (w_mem w2)).
      assert (Lm2 : length m2 = length (w_mem w2)).
      { unfold m2. rewrite !app_length, firstn_length, skipn_length, le_bytes_length. unfold zlen in *. lia. }
      assert (Lf : zlen (frame p) = 4 + m) by (unfold frame; rewrite zlen_app; unfold zlen at 1; rewrite le_bytes_length; lia).
      assert (EX : extends w (mkW (w_pos w2) m2 (w_sts w2))).
      { split; [split; cbn [w_mem w_pos]; [unfold zlen in *; lia|unfold m2; rewrite !bytes_app; auto using bytes_firstn, bytes_skipn, le_bytes_bytes]|].
        split; [cbn [w_mem]; lia|]. split; [exact A4|]. split; [cbn [w_pos]; lia|]. cbn [w_mem].
        unfold m2. rewrite firstn_app, firstn_length.
        replace (Z.to_nat (w_pos w) - _)%nat with O by (unfold zlen in *; lia). cbn [firstn]. rewrite app_nil_r, firstn_firstn_le by lia. exact A6. }
      split; [exact EX|]. split; [discriminate|]. split; [|discriminate].
      intros n' [= <-]. exists p. split; [destruct Hc as [[-> ->]|[-> ->]]; cbn [payload]; auto|]. split; [exact Hpb|]. split; [exact Hpm|]. split; [lia|]. split; [lia|].
      split; [exact EX|]. cbn [w_pos w_mem]. split; [lia|].
      assert (F3 : skipn (Z.to_nat (w_pos w) + 4) (firstn (Z.to_nat (w_pos w2)) (w_mem w2)) = p).
      { rewrite F2. rewrite skipn_app, firstn_length. rewrite skipn_all2 by (rewrite firstn_length; lia). cbn [app].
        replace (Z.to_nat (w_pos w) + 4 - _)%nat with O by (unfold zlen in *; lia). reflexivity. }
      rewrite skipn_firstn_comm in F3.
      unfold m2. rewrite le_bytes_length. rewrite firstn_app, firstn_length, A6.
      rewrite (firstn_all2 (n := Z.to_nat (w_pos w2))) by (rewrite firstn_length; lia). f_equal.
      rewrite firstn_app, le_bytes_length. unfold frame. rewrite Hpl. f_equal.
      + apply firstn_all2. rewrite le_bytes_length. unfold zlen in *. lia.
      + rewrite <- F3. f_equal. unfold zlen in *. lia.
    - apply pair_equal_spec in HE. destruct HE as [<- <-].
      split; [exact E02|]. split; [discriminate|]. split; [discriminate|]. intros _ Hsm.
      assert (Ha : avail w1 = avail w - 4) by (unfold avail; cbn [w1 w_pos w_mem]; lia).
      assert (H1 : avail w1 < c_bound c (zlen bs)); [|lia]. apply (HTh eq_refl). rewrite Ha.
      destruct Hc as [[-> _]|[-> _]]; unfold small in *; lia. }
  destruct opt as [| | |x].
  - (* NONE *)
    destruct (Z.ltb_spec (avail w) 4) as [Hav|Hav]; [apply (HT HE); intros _; unfold room; lia|].
    destruct (put_advance (le_bytes 4 (zlen bs)) w Hw (le_bytes_bytes _ _) ltac:(unfold zlen at 1; rewrite le_bytes_length; lia)) as (w1 & HP & HW1).
    assert (Z4 : zlen (le_bytes 4 (zlen bs)) = 4) by (unfold zlen at 1; rewrite le_bytes_length; reflexivity).
    rewrite Z4 in HP.
    unfold abind in HP, HE. destruct (put_at (w_pos w) (le_bytes 4 (zlen bs)) w) as [rp wp] eqn:Ep.
    destruct rp as [[]| |]; try discriminate HP. rewrite HP in HE.
    assert (Hw1 : w_ok w1) by apply HW1.
    assert (Ha1 : avail w1 = avail w - 4).
    { destruct HW1 as ((_ & B1 & _) & B2 & _). unfold avail. unfold zlen at 1. rewrite B1. rewrite B2, Z4. unfold zlen. lia. }
    destruct (Z.ltb_spec (avail w1) (zlen bs)) as [Hav1|Hav1].
    + apply pair_equal_spec in HE. destruct HE as [<- <-]. split; [apply HW1|]. split; [discriminate|]. split; [discriminate|].
      intros _ _. unfold room. lia.
    + destruct (put_advance bs w1 Hw1 Hb Hav1) as (w2 & HP2 & HW2). unfold abind in HP2.
      destruct (put_at (w_pos w1) bs w1) as [rp wp2] eqn:Ep2. destruct rp as [[]| |]; try discriminate HP2. rewrite HP2 in HE.
      cbn [ret] in HE. apply pair_equal_spec in HE. destruct HE as [<- <-].
      pose proof (wrote_trans w w1 w2 _ _ Hw HW1 HW2) as HW3.
      split; [apply HW3|]. split; [discriminate|]. split; [|discriminate]. intros n [= <-]. exists bs.
      split; [reflexivity|]. split; [exact Hb|]. split; [exact Hsmall|]. split; [unfold frame; rewrite zlen_app, Z4; lia|]. split; [unfold room; lia|]. exact HW3.
  - apply (HCC (lz4 L)); auto.
  - apply (HCC (zstd L)); auto.
  - unfold abind in HE at 1. unfold advance in HE at 1. destruct (Z.ltb_spec (avail w) 4) as [Hav|Hav]; [apply (HT HE); unfold small; tauto|].
    unfold abind, CompressChunk in HE. replace (UINT32_MAX <? zlen bs) with false in HE by lia.
    apply pair_equal_spec in HE. destruct HE as [<- <-]. unfold avail in Hav. destruct Hw as (Hp & Hbm).
    split; [|split; [discriminate|split; [discriminate|unfold small; tauto]]].
    split; [split; cbn [w_mem w_pos]; [lia|exact Hbm]|]. cbn [w_mem w_pos w_sts]. repeat split; lia.
Qed.

(** ** Writing all chunks *)
Fixpoint write_all (L : libs) (opt : comp_opt) (bss : list (list Z)) : act Z :=
  match bss with
  | [] => ret 0
  | bs :: bss' => perform n <- WriteStage1Chunk L opt bs ; perform m <- write_all L opt bss' ; ret (n + m)
  end.
Definition rooms (L : libs) (opt : comp_opt) (bss : list (list Z)) : Z := fold_right (fun bs a => room L opt (zlen bs) + a) 0 bss.

Lemma write_all_spec L opt bss : libs_ok L -> Forall bytes bss -> forall w r w', w_ok w -> write_all L opt bss w = (r, w') ->
  extends w w' /\ r <> UB /\
  (forall n, r = Ok n -> exists ps, Forall2 (fun bs p => payload L opt bs p /\ bytes p /\ zlen p <= UINT32_MAX) bss ps /\
     n = zlen (concat (map frame ps)) /\ wrote w w' (concat (map frame ps))).
Proof.
  intros HL. induction bss as [|bs bss IH]; intros Hb w r w' Hw HE; cbn [write_all] in HE.
  - apply pair_equal_spec in HE. destruct HE as [<- <-]. split; [apply extends_refl, Hw|]. split; [discriminate|].
    intros n [= <-]. exists []. split; [constructor|]. split; [reflexivity|]. apply wrote_nil, Hw.
  - inversion Hb as [|? ? Hb1 Hb2]; subst. unfold abind in HE at 1.
    destruct (WriteStage1Chunk L opt bs w) as [r1 w1] eqn:E1.
    destruct (write_chunk_spec L opt bs w r1 w1 HL Hb1 Hw E1) as (X1 & N1 & O1 & _).
    destruct r1 as [n1| |]; [| |congruence].
    + destruct (O1 n1 eq_refl) as (p & Hp & Hpb & Hpm & -> & _ & Wp).
      unfold abind in HE. destruct (write_all L opt bss w1) as [r2 w2] eqn:E2.
      destruct (IH Hb2 w1 r2 w2 ltac:(apply X1) E2) as (X2 & N2 & O2).
      destruct r2 as [n2| |]; [| |congruence].
      * cbn [ret] in HE. apply pair_equal_spec in HE. destruct HE as [<- <-].
        destruct (O2 n2 eq_refl) as (ps & Hps & -> & Wps).
        split; [eapply extends_trans; eauto|]. split; [discriminate|]. intros n [= <-]. exists (p :: ps).
        split; [constructor; auto|]. cbn [map concat]. split; [rewrite zlen_app; reflexivity|]. eapply wrote_trans; eauto.
      * apply pair_equal_spec in HE. destruct HE as [<- <-]. split; [eapply extends_trans; eauto|]. split; [discriminate|]. discriminate.
    + apply pair_equal_spec in HE. destruct HE as [<- <-]. split; [exact X1|]. split; discriminate.
Qed.

Lemma small_mono opt n a a' : a' <= a -> small opt n a -> small opt n a'.
Proof. unfold small. destruct opt; intuition lia. Qed.
Lemma room_pos L opt (bs : list Z) : libs_ok L -> 0 <= room L opt (zlen bs).
Proof.
  intros [HL HZ]. pose proof (zlen_nonneg bs). unfold room. destruct opt; try lia.
  - pose proof (lib_nonneg _ HL (zlen bs)). lia.
  - pose proof (lib_nonneg _ HZ (zlen bs)). lia.
Qed.
Lemma rooms_pos L opt bss : libs_ok L -> 0 <= rooms L opt bss.
Proof. intros HL. unfold rooms. induction bss as [|bs bss IH]; cbn [fold_right]; [lia|]. pose proof (room_pos L opt bs HL). lia. Qed.

(** Enough room: nothing throws. *)
Lemma write_all_total L opt bss : libs_ok L -> Forall bytes bss -> forall w, w_ok w ->
  Forall (fun bs => small opt (zlen bs) (avail w)) bss -> rooms L opt bss <= avail w ->
  exists n w', write_all L opt bss w = (Ok n, w').
Proof.
  intros HL. induction bss as [|bs bss IH]; intros Hb w Hw Hs Hr; cbn [write_all].
  - now exists 0, w.
  - inversion Hb as [|? ? Hb1 Hb2]; subst. inversion Hs as [|? ? Hs1 Hs2]; subst. cbn [rooms fold_right] in Hr. fold (rooms L opt bss) in Hr.
    pose proof (rooms_pos L opt bss HL). unfold abind at 1.
    destruct (WriteStage1Chunk L opt bs w) as [r1 w1] eqn:E1.
    destruct (write_chunk_spec L opt bs w r1 w1 HL Hb1 Hw E1) as (X1 & N1 & O1 & T1).
    destruct r1 as [n1| |]; [| |congruence].
    + destruct (O1 n1 eq_refl) as (p & Hp & Hpb & Hpm & Hn1 & Hn2 & Wp). pose proof (wrote_avail _ _ _ Wp) as Ha.
      destruct (IH Hb2 w1) as (n & w2 & E2).
      * apply X1.
      * eapply Forall_impl; [|exact Hs2]. intros x. apply small_mono. pose proof (zlen_nonneg (frame p)). lia.
      * lia.
      * unfold abind. rewrite E2. unfold ret. eauto.
    + specialize (T1 eq_refl Hs1). lia.
Qed.
