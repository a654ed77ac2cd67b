(** Properties C19, C21, C22, C39, C40: object reuse, padding, framing, old versions and
    empty clouds. *)
From Verif Require Import Base BaseFacts Varint VarintFacts Types Floats Fields Codec V5 Api Spec LibSpec SeqSpec.
From Verif Require Import GorillaFacts FieldFacts WriteFacts CodecFacts BuildFacts RunFacts SectionFacts PaletteFacts V5Facts ChunkV5Facts Stage1Facts ApiFacts CloudFacts RoundTrip CloudRT LocalFacts SeqFacts ColumnFacts CloudApi Cases PropsField PropsColumn PropsStage1 PropsCloud PropsSize.
From Verif Require HostileFacts.

(** * C22: framing *)
Definition ceil_div (a b : Z) : Z := (a + b - 1) / b.
Lemma ceil_0 b : 0 < b -> ceil_div 0 b = 0.
Proof. intros H. unfold ceil_div. apply Z.div_small. lia. Qed.
Lemma ceil_step a b : 0 < b -> 0 < a -> ceil_div a b = 1 + ceil_div (a - Z.min a b) b.
Proof.
  intros Hb Ha. unfold ceil_div. destruct (Z.le_gt_cases a b) as [H|H].
  - rewrite Z.min_l by lia. replace (a - a + b - 1) with (b - 1) by lia. rewrite (Z.div_small (b - 1) b) by lia.
    replace (a + b - 1) with (a - 1 + 1 * b) by lia. rewrite Z.div_add by lia. rewrite Z.div_small by lia. lia.
  - rewrite Z.min_r by lia. replace (a + b - 1) with ((a - b + b - 1) + 1 * b) by lia. rewrite Z.div_add by lia. lia.
Qed.
Lemma count_ceil ppc n : (0 < ppc)%nat -> Z.of_nat (chunks_count ppc n) = ceil_div (Z.of_nat n) (Z.of_nat ppc).
Proof.
  intros Hp. induction n as [n IH] using lt_wf_ind. destruct (Nat.eq_dec n 0) as [->|Hn].
  - rewrite chunks_count_0 by exact Hp. rewrite ceil_0 by lia. reflexivity.
  - rewrite chunks_count_S by lia. rewrite Nat2Z.inj_succ, IH by lia. rewrite (ceil_step (Z.of_nat n)) by lia.
    replace (Z.of_nat (n - Nat.min n ppc)) with (Z.of_nat n - Z.min (Z.of_nat n) (Z.of_nat ppc)) by lia. lia.
Qed.

(** What encode produces: one frame per started group of [ppc] points. *)
Theorem C22_encoder_frames : forall ops L ppc probe i hdr0 e cloud hdr body n,
  libs_ok L -> bytes hdr0 -> encode_side ppc i cloud -> encoder_of ops L ppc probe i (Ok hdr0) e ->
  produces ops L ppc probe e cloud hdr body -> zlen cloud = Z.of_nat n * i_step i ->
  exists ps, body = concat (map frame ps) /\ zlen ps = ceil_div (Z.of_nat n) (Z.of_nat ppc) /\
             Forall (fun p => bytes p /\ zlen p < 2 ^ 32) ps.
Proof.
  intros ops L ppc probe i hdr0 e cloud hdr body n HLi Hh HES HEo HPr Hlen.
  destruct (produces_chunks _ _ _ _ _ _ _ _ _ _ HLi Hh HES HEo HPr) as (n' & ms & bss & ps & HC & ->).
  assert (n' = n). { destruct HC as (HC & _). destruct HES as ((Hs & _) & _). unfold zlen in Hlen. rewrite HC in Hlen. nia. } subst n'.
  exists ps. split; [reflexivity|]. destruct HC as (_ & HS & HP & _). destruct HES as (_ & _ & (Hp & _) & _). split.
  - rewrite <- count_ceil by exact Hp. rewrite <- (stage1_length _ _ _ _ _ Hp HS). unfold zlen. f_equal. clear - HP. induction HP; cbn; auto.
  - clear - HP. induction HP as [|bs p bss ps (_ & H1 & H2) _ IH]; constructor; auto. split; [exact H1|]. unfold UINT32_MAX in H2. lia.
Qed.
Print Assumptions C22_encoder_frames.

Lemma take4 data size d1 : bytes data -> take_uint 4 data = Ok (size, d1) -> data = le_bytes 4 size ++ d1 /\ 0 <= size < 4294967296.
Proof.
  unfold take_uint. destruct (Nat.ltb_spec (length data) 4) as [|H]; [discriminate|]. intros Hb E. apply ok_pair in E. destruct E as [<- <-].
  assert (Hl : length (firstn 4 data) = 4%nat) by (rewrite firstn_length; lia).
  pose proof (le_val_range (firstn 4 data) (bytes_firstn 4 data Hb)) as HR. unfold zlen in HR. rewrite Hl in HR. change (256 ^ Z.of_nat 4) with 4294967296 in HR. split; [|exact HR].
  rewrite <- Hl at 1. rewrite le_bytes_le_val by apply bytes_firstn, Hb. symmetry. apply firstn_skipn.
Qed.

Lemma dec_loop_framed ops L ppc i ds minb : (0 < ppc)%nat -> forall fuel data buf points base mem r, bytes data -> 0 <= points ->
  dec_loop ops L ppc i ds minb fuel data buf points base mem = Ok r ->
  exists ps, data = concat (map frame ps) /\ zlen ps = ceil_div points (Z.of_nat ppc) /\ Forall (fun p => zlen p < 2 ^ 32) ps.
Proof.
  intros Hp. induction fuel as [|fuel IH]; intros data buf points base mem r Hb Hpt H; destruct data as [|b data]; cbn [dec_loop] in H.
  - destruct (Z.eqb_spec points 0) as [->|]; [|discriminate]. exists []. split; [reflexivity|]. rewrite ceil_0 by lia. split; [reflexivity|constructor].
  - discriminate.
  - destruct (Z.eqb_spec points 0) as [->|]; [|discriminate]. exists []. split; [reflexivity|]. rewrite ceil_0 by lia. split; [reflexivity|constructor].
  - destruct (Z.eqb_spec points 0) as [->|Hne]; [discriminate|]. apply bind_ok in H. destruct H as ((size & d1) & HT & H). destruct (take4 _ _ _ Hb HT) as [HE Hs].
    destruct (Z.ltb_spec (zlen d1) size) as [|Hz]; [discriminate|]. apply bind_ok in H. destruct H as (((buf' & base') & mem') & HC & H).
    assert (Hb1 : bytes d1) by (eapply bytes_take; eauto).
    assert (Hp' : 0 <= points - Z.min points (Z.of_nat ppc)) by lia. destruct (IH _ _ _ _ _ _ (bytes_skipn _ _ Hb1) Hp' H) as (ps & HP & HN & HZ). exists (firstn (Z.to_nat size) d1 :: ps).
    assert (Hl : zlen (firstn (Z.to_nat size) d1) = size) by (unfold zlen in *; rewrite firstn_length; lia).
    split.
    + rewrite HE. cbn [map concat]. unfold frame at 1. rewrite Hl, <- app_assoc, <- HP, firstn_skipn. reflexivity.
    + split; [rewrite zlen_cons, HN; rewrite (ceil_step points) by lia; reflexivity|]. constructor; [rewrite Hl; change (2 ^ 32) with 4294967296; lia|exact HZ].
Qed.
(** What decode accepts is exactly one frame per started group of declared points. *)
Theorem C22_decoder_frames : forall ops L ppc i data buf mem r, (0 < ppc)%nat -> 3 <= i_version i -> bytes data ->
  decode ops L ppc i data buf mem = Ok r ->
  exists ps, data = concat (map frame ps) /\ zlen ps = ceil_div (u64 (i_width i * i_height i)) (Z.of_nat ppc) /\ Forall (fun p => zlen p < 2 ^ 32) ps.
Proof.
  intros ops L ppc i data buf mem r Hp Hv Hb H. unfold decode in H. apply bind_ok in H. destruct H as ((ds & minb) & _ & H).
  destruct (has_magic data); [discriminate|]. replace (3 <=? i_version i) with true in H by lia.
  eapply dec_loop_framed in H; eauto. apply u64_range.
Qed.
Print Assumptions C22_decoder_frames.

(** Data that decodes, cut or extended anywhere, is refused. *)
Lemma dec_loop_cut ops L ppc i ds minb : forall fuel data buf points base mem r,
  dec_loop ops L ppc i ds minb fuel data buf points base mem = Ok r ->
  forall n fuel', (n < length data)%nat -> (n < fuel')%nat -> dec_loop ops L ppc i ds minb fuel' (firstn n data) buf points base mem = Throw.
Proof.
  induction fuel as [|fuel IH]; intros data buf points base mem r H n fuel' Hn Hf; destruct data as [|b data]; cbn [dec_loop] in H; try (cbn in Hn; lia); [discriminate|].
  destruct (Z.eqb_spec points 0) as [|Hne]; [discriminate|]. destruct n as [|n]; [destruct fuel' as [|f']; cbn [firstn dec_loop]; replace (points =? 0) with false by lia; reflexivity|].
  destruct fuel' as [|fuel']; [lia|]. cbn [firstn dec_loop]. replace (points =? 0) with false by lia. change (b :: firstn n data) with (firstn (S n) (b :: data)).
  set (D := b :: data) in *. clearbody D. apply bind_ok in H. destruct H as ((size & d1) & HT & H). unfold take_uint in HT |- *.
  destruct (Nat.ltb_spec (length D) 4) as [|H4]; [discriminate|]. apply ok_pair in HT. destruct HT as [HS HD1].
  rewrite firstn_length, Nat.min_l by lia. destruct (Nat.ltb_spec (S n) 4) as [|Hn4]; [reflexivity|]. cbn [bind].
  rewrite firstn_firstn, Nat.min_l by lia. rewrite HS.
  assert (E : skipn 4 (firstn (S n) D) = firstn (S n - 4) d1) by (rewrite <- HD1; apply skipn_firstn_comm). rewrite E.
  destruct (Z.ltb_spec (zlen d1) size) as [|Hz]; [discriminate|].
  assert (Hld : length d1 = (length D - 4)%nat) by (rewrite <- HD1, skipn_length; reflexivity).
  assert (Hl : zlen (firstn (S n - 4) d1) = Z.of_nat (S n - 4)) by (unfold zlen; rewrite firstn_length; lia). rewrite Hl.
  destruct (Z.ltb_spec (Z.of_nat (S n - 4)) size) as [|Hz']; [reflexivity|].
  rewrite firstn_firstn, Nat.min_l by lia. apply bind_ok in H. destruct H as (((buf' & base') & mem') & -> & H). cbn [bind].
  rewrite skipn_firstn_comm. eapply IH; [exact H| |]; [rewrite skipn_length; unfold zlen in *; lia|lia].
Qed.
Lemma dec_loop_extended ops L ppc i ds minb x tail : forall fuel data buf points base mem r,
  dec_loop ops L ppc i ds minb fuel data buf points base mem = Ok r ->
  forall fuel', (length (data ++ x :: tail) < fuel')%nat -> dec_loop ops L ppc i ds minb fuel' (data ++ x :: tail) buf points base mem = Throw.
Proof.
  induction fuel as [|fuel IH]; intros data buf points base mem r H fuel' Hf; destruct data as [|b data]; cbn [dec_loop] in H;
    try (destruct fuel' as [|f']; [lia|]; cbn [app dec_loop]; destruct (points =? 0); [reflexivity|discriminate]).
  destruct (Z.eqb_spec points 0) as [|Hne]; [discriminate|]. destruct fuel' as [|fuel']; [lia|]. cbn [app dec_loop]. replace (points =? 0) with false by lia.
  change (b :: data ++ x :: tail) with ((b :: data) ++ x :: tail). set (D := b :: data) in *. clearbody D. apply bind_ok in H. destruct H as ((size & d1) & HT & H). unfold take_uint in HT |- *.
  destruct (Nat.ltb_spec (length D) 4) as [|H4]; [discriminate|]. apply ok_pair in HT. destruct HT as [HS HD1].
  rewrite app_length. replace (_ <? 4)%nat with false by (symmetry; apply Nat.ltb_ge; lia). cbn [bind].
  rewrite firstn_app, skipn_app. replace (4 - length D)%nat with O by lia. rewrite firstn_O, skipn_O, app_nil_r, HS, HD1.
  destruct (Z.ltb_spec (zlen d1) size) as [|Hz]; [discriminate|]. replace (zlen (d1 ++ x :: tail) <? size) with false by (rewrite zlen_app; pose proof (zlen_nonneg (x :: tail)); lia).
  rewrite firstn_app, skipn_app. replace (Z.to_nat size - length d1)%nat with O by (unfold zlen in *; lia). cbn [firstn skipn]. rewrite app_nil_r.
  apply bind_ok in H. destruct H as (((buf' & base') & mem') & -> & H). cbn [bind]. eapply IH; [exact H|].
  assert (Hld : length d1 = (length D - 4)%nat) by (rewrite <- HD1, skipn_length; reflexivity). rewrite app_length in *. rewrite skipn_length. lia.
Qed.
Theorem C22_cut_or_extended : forall ops L ppc i data buf mem r, 3 <= i_version i -> decode ops L ppc i data buf mem = Ok r ->
  (forall n, (n < length data)%nat -> decode ops L ppc i (firstn n data) buf mem = Throw) /\
  (forall extra, extra <> [] -> decode ops L ppc i (data ++ extra) buf mem = Throw).
Proof.
  intros ops L ppc i data buf mem r Hv H. unfold decode in *. apply bind_ok in H. destruct H as ((ds & minb) & -> & H). cbn [bind].
  destruct (has_magic data); [discriminate|]. replace (3 <=? i_version i) with true in * by lia. split.
  - intros n Hn. destruct (has_magic (firstn n data)); [reflexivity|]. eapply dec_loop_cut; [exact H|exact Hn|]. rewrite firstn_length. lia.
  - intros [|x tail] He; [congruence|]. destruct (has_magic (data ++ x :: tail)); [reflexivity|]. eapply dec_loop_extended; [exact H|lia].
Qed.
Print Assumptions C22_cut_or_extended.
(** A chunk whose declared size exceeds what is left is refused: never decoded, whatever stands
    before it; and refused with an exception when it is the first chunk or when what stands before
    it are the leading chunks [ps] of some data that decodes. *)
Lemma oversized_first ops L ppc i ds minb fuel size rest buf points base mem : zlen rest < size < 4294967296 -> (0 < fuel)%nat ->
  dec_loop ops L ppc i ds minb fuel (le_bytes 4 size ++ rest) buf points base mem = Throw.
Proof.
  intros Hs Hf. destruct fuel as [|fuel]; [lia|]. assert (Hne : exists b l, le_bytes 4 size ++ rest = b :: l) by (cbn [le_bytes app]; eauto).
  destruct Hne as (b & l & Hne). rewrite Hne. cbn [dec_loop]. rewrite <- Hne. destruct (points =? 0); [reflexivity|].
  pose proof (zlen_nonneg rest). rewrite le4 by lia. cbn [bind]. replace (zlen rest <? size) with true by lia. reflexivity.
Qed.
Lemma dec_loop_frame ops L ppc i ds minb fuel p tail buf points base mem : zlen p < 4294967296 ->
  dec_loop ops L ppc i ds minb (S fuel) (frame p ++ tail) buf points base mem =
  if points =? 0 then Throw else
  do '(buf', base', mem') <- decodeChunk ops L i ds minb p buf (Z.to_nat (Z.min points (Z.of_nat ppc))) base mem ;
  dec_loop ops L ppc i ds minb fuel tail buf' (points - Z.min points (Z.of_nat ppc)) base' mem'.
Proof.
  intros Hp. unfold frame. rewrite <- app_assoc.
  assert (Hne : exists b l, le_bytes 4 (zlen p) ++ p ++ tail = b :: l) by (cbn [le_bytes app]; eauto). destruct Hne as (b & l & Hne). rewrite Hne. cbn [dec_loop]. rewrite <- Hne.
  destruct (points =? 0); [reflexivity|]. pose proof (zlen_nonneg p). rewrite le4 by lia. cbn [bind].
  replace (zlen (p ++ tail) <? zlen p) with false by (rewrite zlen_app; pose proof (zlen_nonneg tail); lia).
  unfold zlen at 1 2. rewrite !Nat2Z.id, firstn_app, firstn_all, Nat.sub_diag, firstn_O, app_nil_r, skipn_app, skipn_all, Nat.sub_diag. reflexivity.
Qed.
Lemma oversized_after ops L ppc i ds minb size rest other : zlen rest < size < 4294967296 ->
  forall ps fuel fuel' buf points base mem, Forall (fun p => zlen p < 4294967296) ps -> (length ps < fuel')%nat ->
  (forall r, dec_loop ops L ppc i ds minb fuel' (concat (map frame ps) ++ le_bytes 4 size ++ rest) buf points base mem <> Ok r) /\
  (forall r, dec_loop ops L ppc i ds minb fuel (concat (map frame ps) ++ other) buf points base mem = Ok r ->
     dec_loop ops L ppc i ds minb fuel' (concat (map frame ps) ++ le_bytes 4 size ++ rest) buf points base mem = Throw).
Proof.
  intros Hs. induction ps as [|p ps IH]; intros fuel fuel' buf points base mem HF Hf; cbn [length] in Hf.
  - cbn [map concat app]. rewrite oversized_first by (auto; lia). split; [intros; discriminate|reflexivity].
  - apply Forall_cons_iff in HF. destruct HF as [Hp HF]. cbn [map concat]. rewrite <- !app_assoc. destruct fuel' as [|fuel']; [lia|]. rewrite dec_loop_frame by exact Hp. split.
    + intros r. destruct (points =? 0); [discriminate|]. destruct (decodeChunk _ _ _ _ _ _ _ _ _ _) as [[[buf' base'] mem']| |]; cbn [bind]; try discriminate. apply (IH O fuel'); [exact HF|lia].
    + intros r. destruct fuel as [|fuel]; [unfold frame; cbn [le_bytes app dec_loop]; discriminate|]. rewrite dec_loop_frame by exact Hp.
      destruct (points =? 0); [discriminate|]. destruct (decodeChunk _ _ _ _ _ _ _ _ _ _) as [[[buf' base'] mem']| |]; cbn [bind]; try discriminate. intros H. eapply IH; [exact HF|lia|exact H].
Qed.
Theorem C22_oversized_chunk : forall ops L ppc i ps size rest buf mem, 3 <= i_version i -> Forall (fun p => zlen p < 2 ^ 32) ps -> zlen rest < size < 2 ^ 32 ->
  let data := concat (map frame ps) ++ le_bytes 4 size ++ rest in
  (forall r, decode ops L ppc i data buf mem <> Ok r) /\
  (ps = [] -> decode ops L ppc i data buf mem = Throw) /\
  (forall others r, decode ops L ppc i (concat (map frame (ps ++ others))) buf mem = Ok r -> decode ops L ppc i data buf mem = Throw).
Proof.
  intros ops L ppc i ps size rest buf mem Hv HF Hs data. change (2 ^ 32) with 4294967296 in *.
  assert (Hfu : (length ps < S (length data))%nat).
  { unfold data. rewrite app_length. assert (length ps <= length (concat (map frame ps)))%nat; [|lia]. clear. induction ps as [|p ps IH]; [cbn; lia|].
    cbn [map concat length]. rewrite app_length. unfold frame at 1. rewrite app_length, le_bytes_length. lia. }
  unfold decode. pose proof (HostileFacts.updateDecoders_defined i) as HU. destruct (updateDecoders i) as [[ds minb]| |]; cbn [bind]; [|repeat split; intros; discriminate || reflexivity|congruence].
  replace (3 <=? i_version i) with true by lia. destruct (has_magic data); [repeat split; intros; discriminate || reflexivity|].
  split; [|split].
  - intros r. apply (oversized_after ops L ppc i ds minb size rest [] Hs ps O); assumption.
  - intros ->. apply oversized_first; [exact Hs|lia].
  - intros others r. rewrite map_app, concat_app. destruct (has_magic (concat (map frame ps) ++ concat (map frame others))); [discriminate|]. intros H.
    eapply oversized_after; [exact Hs|exact HF|exact Hfu|exact H].
Qed.
Print Assumptions C22_oversized_chunk.
Example C22_case : let i := mkInfo [fld 97 0 UINT8 None] 3 1 1 ENC_LOSSY [] COMP_NONE false 4 in
  decode sse_ops store_libs 2 i [2;0;0;0;8;9;1;0;0;0;7] [] [0;0;0;0] = Ok ([], [8;9;7;0]) /\
  decode sse_ops store_libs 2 i [2;0;0;0;8;9] [] [0;0;0;0] = Throw /\ ceil_div 3 2 = 2.
Proof. vm_compute. auto. Qed.

(** * C19: reuse *)
(** Any two encoder objects for the same info, whatever was done with them before: same
    result and same bytes. *)
Theorem C19_encoder_history : forall ops L ppc probe i hdr e1 e2 cloud out (wh : bool),
  encoder_of ops L ppc probe i hdr e1 -> encoder_of ops L ppc probe i hdr e2 ->
  fst (encode_view ops L ppc probe e1 cloud out wh) = fst (encode_view ops L ppc probe e2 cloud out wh) /\
  fst (encode_vec ops L ppc probe e1 cloud out) = fst (encode_vec ops L ppc probe e2 cloud out).
Proof.
  intros ops L ppc probe i hdr e1 e2 cloud out wh H1 H2. destruct (encoder_of_same _ _ _ _ _ _ _ _ H1 H2) as (A & B & C & D & E).
  split; [now apply encode_view_history|now apply encode_vec_history].
Qed.
Print Assumptions C19_encoder_history.
(** The scratch buffer a decoder keeps between calls does not matter. *)
Theorem C19_decoder_history : forall ops L ppc i data buf1 buf2 mem, libs_ok L -> bytes data ->
  forget (decode ops L ppc i data buf1 mem) = forget (decode ops L ppc i data buf2 mem).
Proof. intros. now apply decode_history. Qed.
Print Assumptions C19_decoder_history.
Lemma triple_eta {A B C} (x : A * B * C) : x = (fst (fst x), snd (fst x), snd x).
Proof. destruct x as [[]]. reflexivity. Qed.
(** An encoder whose first call fails (buffer too small) and which then encodes another cloud. *)
Example C19_case : let i := scan 4 3 COMP_NONE in let e := match PointcloudEncoder i (Ok [1;2;3]) with Ok e => e | _ => mkEnc i [] [] [] end in
  let e1 := snd (encode_view sse_ops store_libs 2 2 e scan_cloud (repeat 0 10) false) in let e2 := snd (encode_vec sse_ops store_libs 2 2 e1 scan_cloud []) in
  encoder_of sse_ops store_libs 2 2 i (Ok [1;2;3]) e2 /\ e_sts e2 <> e_sts e.
Proof.
  cbv zeta. split; [|vm_compute; discriminate]. eapply eo_vec; [|apply triple_eta]. eapply eo_view; [|apply triple_eta]. apply eo_new. vm_compute. reflexivity.
Qed.

(** * C21: padding *)
(** Two clouds of the same length that agree on the bytes of every declared field. *)
Definition agree_on_fields (i : info) (c1 c2 : list Z) : Prop :=
  length c1 = length c2 /\ forall j f, In f (i_fields i) -> Z.of_nat (S j) * i_step i <= zlen c1 -> fbytes i f c1 j = fbytes i f c2 j.
Theorem C21_fields_only : forall ops L ppc probe i hdr e c1 c2 out (wh : bool), layout_ok i -> known_enc i -> encoder_of ops L ppc probe i hdr e ->
  agree_on_fields i c1 c2 ->
  encode_view ops L ppc probe e c1 out wh = encode_view ops L ppc probe e c2 out wh /\
  encode_vec ops L ppc probe e c1 out = encode_vec ops L ppc probe e c2 out.
Proof.
  intros ops L ppc probe i hdr e c1 c2 out wh HL HK HE (Hl & HF). destruct (encoder_of_ready _ _ _ _ _ _ _ HE) as (HR & HI & _).
  assert (Hz : zlen c1 = zlen c2) by (unfold zlen; now rewrite Hl). pose proof HL as HL0. destruct HL0 as [Hs HFl].
  assert (HV : forall out (wh : bool), encode_view ops L ppc probe e c1 out wh = encode_view ops L ppc probe e c2 out wh).
  { intros out0 wh0. destruct (Z.eq_dec (zlen c1 mod i_step i) 0) as [Hm|Hm].
    - apply encode_reads_fields_only; rewrite ?HI; auto; [lia|]. intros f j Hf. destruct (Z.le_gt_cases (Z.of_nat (S j) * i_step i) (zlen c1)) as [H|H]; [now apply HF|].
      rewrite Forall_forall in HFl. destruct (HFl f Hf) as [Ho _]. apply Z.mod_divide in Hm; [|lia]. destruct Hm as (q & Hq).
      assert (Hq' : zlen c1 <= Z.of_nat j * i_step i + f_off f) by (rewrite Hq in *; assert (q < Z.of_nat (S j)) by nia; nia).
      unfold fbytes, sub. unfold zlen in *. rewrite !skipn_all2 by lia. reflexivity.
    - unfold encode_view. rewrite HI, <- Hz. destruct (i_step i =? 0); [reflexivity|]. replace (zlen c1 mod i_step i =? 0) with false by lia. reflexivity. }
  split; [apply HV|]. unfold encode_vec. rewrite Hz, Hl. destruct (_ =? 0); [reflexivity|]. destruct (negb _); [reflexivity|].
  destruct (MaxCompressedSize _ _ _ _ _); try reflexivity. destruct (wr 0 _ _); try reflexivity. now rewrite HV.
Qed.
Print Assumptions C21_fields_only.
(** Two clouds that differ in padding bytes. *)
Example C21_case : let c2 := firstn 14 scan_cloud ++ [1;2] ++ skipn 16 scan_cloud in scan_cloud <> c2 /\ agree_on_fields (scan 5 3 COMP_NONE) scan_cloud c2.
Proof.
  cbv zeta. split; [vm_compute; discriminate|]. split; [reflexivity|]. intros j f Hf Hj.
  assert (Hj' : (j < 3)%nat) by (change (i_step (scan 5 3 COMP_NONE)) with 32 in Hj; change (zlen scan_cloud) with 96 in Hj; lia).
  cbn [scan i_fields scan_fields In] in Hf.
  destruct j as [|[|[|j]]]; try lia; (repeat (destruct Hf as [<-|Hf]; [vm_compute; reflexivity|])); destruct Hf.
Qed.

(** * C40: empty clouds *)
Lemma body_empty ops L ppc probe e w : (UsesV5Codec (e_info e) = true -> exists es afs, BuildV5Plan (e_info e) = Ok (es, afs)) ->
  (exists m, MaxSerializedPointSize (e_info e) = Ok m) -> encode_body ops L ppc probe e [] 0 w = (Ok 0, w).
Proof.
  intros HPl (m & Hm). unfold encode_body, V5StageBufferSize. rewrite Hm. cbn [bind]. destruct (UsesV5Codec (e_info e)); [|reflexivity].
  destruct (HPl eq_refl) as (es & afs & ->). reflexivity.
Qed.
Lemma max_empty L ppc i h : 0 < i_step i -> (0 < ppc)%nat -> (exists m, MaxSerializedPointSize i = Ok m) -> MaxCompressedSize L ppc i 0 h = Ok h.
Proof.
  intros Hs Hp (m & Hm). unfold MaxCompressedSize. replace (i_step i =? 0) with false by lia. rewrite Hm. cbn [bind]. rewrite chunks_count_0 by exact Hp. cbn [chunks_bound bind]. f_equal. lia.
Qed.
Lemma view_empty ops L ppc probe e out (wh : bool) : 0 < i_step (e_info e) -> (0 < ppc)%nat -> (exists m, MaxSerializedPointSize (e_info e) = Ok m) ->
  (UsesV5Codec (e_info e) = true -> exists es afs, BuildV5Plan (e_info e) = Ok (es, afs)) ->
  let hdr := if wh then e_hdr e else [] in zlen hdr <= zlen out ->
  exists e', encode_view ops L ppc probe e [] out wh = (Ok (zlen hdr), hdr ++ skipn (length hdr) out, e').
Proof.
  intros Hs Hp Hm HPl hdr Hz. unfold encode_view. replace (i_step (e_info e) =? 0) with false by lia. change (zlen (@nil Z)) with 0. rewrite Z.mod_0_l by lia. cbn [Z.eqb negb].
  change (length (@nil Z)) with O. rewrite Nat.div_0_l by lia. rewrite max_empty by assumption. fold hdr. replace (zlen out <? 0 + zlen hdr) with false by lia.
  pose proof (zlen_nonneg hdr) as Hh. pose proof (zlen_nonneg out) as Hout. unfold encode_write, abind, put_at. cbn [w_pos w_mem w_sts].
  assert (EW : wr 0 hdr out = Ok (hdr ++ skipn (length hdr) out)) by (unfold wr; replace ((0 <=? 0) && (0 + zlen hdr <=? zlen out)) with true by lia; reflexivity).
  rewrite EW. unfold advance, avail. cbn [w_pos w_mem w_sts].
  assert (El : zlen (hdr ++ skipn (length hdr) out) = zlen out) by (unfold zlen in *; rewrite app_length, skipn_length; lia).
  destruct (_ <? _) eqn:E; [rewrite El in E; lia|]. rewrite body_empty by assumption. cbn [ret w_mem]. rewrite Z.add_0_r. eauto.
Qed.
(** An empty cloud encodes to the header alone, with both overloads, and decoding no bytes
    as no points succeeds and touches nothing. *)
Theorem C40_empty : forall ops L ppc probe i hdr0 e out (wh : bool) buf mem, (0 < ppc)%nat ->
  0 < i_step i -> known_types i -> enc_resolutions_ok i -> encoder_of ops L ppc probe i (Ok hdr0) e ->
  let hdr := if wh then hdr0 else [] in
  (zlen hdr <= zlen out -> exists e', encode_view ops L ppc probe e [] out wh = (Ok (zlen hdr), hdr ++ skipn (length hdr) out, e')) /\
  (exists e', encode_vec ops L ppc probe e [] out = (Ok (zlen hdr0), hdr0, e')) /\
  (3 <= i_version i -> i_width i * i_height i = 0 -> decode ops L ppc i [] buf mem = Ok (buf, mem)).
Proof.
  intros ops L ppc probe i hdr0 e out wh buf mem Hp Hs HT HEr HE hdr. destruct (encoder_of_ready _ _ _ _ _ _ _ HE) as (HR & HI & Hh & _). injection Hh as Hh.
  pose proof (known_max i HT) as Hm. pose proof (plan_ok i HT HEr) as HPl. pose proof (fun out wh => view_empty ops L ppc probe e out wh) as HV. rewrite HI in HV.
  specialize (fun out wh => HV out wh Hs Hp Hm (fun _ => HPl)). cbv zeta in HV. split; [|split].
  - intros Hz. specialize (HV out wh). rewrite <- Hh in HV. exact (HV Hz).
  - unfold encode_vec. rewrite HI. replace (i_step i =? 0) with false by lia. change (zlen (@nil Z)) with 0. rewrite Z.mod_0_l by lia. cbn [Z.eqb negb].
    change (length (@nil Z)) with O. rewrite Nat.div_0_l by lia. rewrite max_empty by assumption. rewrite <- Hh. pose proof (zlen_nonneg hdr0) as Hn.
    pose proof (resize_length (zlen hdr0) out Hn) as HRl. unfold wr at 1. replace ((0 <=? 0) && (0 + zlen hdr0 <=? zlen (resize (zlen hdr0) out))) with true by lia.
    change (Z.to_nat 0) with O. cbn [firstn app Nat.add]. assert (HRl' : length (resize (zlen hdr0) out) = length hdr0) by (apply Nat2Z.inj; exact HRl).
    rewrite (skipn_all2 (resize (zlen hdr0) out)) by (rewrite HRl'; apply le_n). rewrite app_nil_r, skipn_all, firstn_all.
    destruct (HV [] false) as (e' & ->); [reflexivity|]. exists e'. cbn [length skipn app zlen]. change (zlen (@nil Z)) with 0. rewrite Z.add_0_r, app_nil_r.
    rewrite resize_prefix by lia. unfold zlen. rewrite Nat2Z.id, firstn_all. reflexivity.
  - intros Hv Hw. assert (HD : exists ds minb, updateDecoders i = Ok (ds, minb)).
    { unfold updateDecoders. pose proof (same_codec_refl i) as HS.
      assert (HRs : resolutions_ok i) by (eapply Forall_impl; [|exact HEr]; intros f; cbn beta; destruct (f_res f); tauto).
      destruct (UsesV5Codec i) eqn:HU.
      - destruct HPl as (es & afs & HB). destruct (build_v5_dec_ok i i es afs HS HU HB HRs) as (ds & ->). cbn. eauto.
      - unfold enc_ready in HR. rewrite HI in HR. destruct (HR HU) as [HB _]. destruct (build_v4_dec_ok i i _ HS HB HRs) as (ds & minb & ->). eauto. }
    destruct HD as (ds & minb & HD). unfold decode. rewrite HD. cbn [bind]. change (has_magic []) with false. replace (3 <=? i_version i) with true by lia. cbv iota. rewrite Hw. reflexivity.
Qed.
Print Assumptions C40_empty.
Example C40_case : let i := scan 5 0 COMP_ZSTD in known_types i /\ enc_resolutions_ok i /\ (exists e, PointcloudEncoder i (Ok [1;2;3]) = Ok e) /\ i_width i * i_height i = 0.
Proof. split; [repeat constructor|]. split; [repeat constructor|]. split; [vm_compute; eauto|reflexivity]. Qed.

(** * C39: version 2 *)
(** One UINT8 point: the encoder of version 2 writes a chunk size in front, the decoder of
    version 2 takes it for points.  An output of the cloud's size is refused, a larger one
    starts with the chunk size instead of the point. *)
Definition old_cloud : info := mkInfo [fld 97 0 UINT8 None] 1 1 1 ENC_LOSSY [] COMP_NONE false 2.
Theorem C39_version2_refuted : layout_ok old_cloud /\ known_types old_cloud /\ declares old_cloud 1 /\
  exists e body, PointcloudEncoder old_cloud (Ok []) = Ok e /\
    produces sse_ops store_libs (Z.to_nat 32768) (Z.to_nat 4096) e [7] [] body /\
    forall buf, (forall b, decode sse_ops store_libs (Z.to_nat 32768) old_cloud body buf [b] = Throw) /\
      (forall b0 b1 b2 b3 b4 b5, forget (decode sse_ops store_libs (Z.to_nat 32768) old_cloud body buf [b0;b1;b2;b3;b4;b5]) = Ok [1;0;0;0;7;b5]).
Proof.
  split; [split; [reflexivity|repeat constructor; cbn; lia]|]. split; [repeat constructor|]. split; [reflexivity|].
  exists (mkEnc old_cloud [] [ECopy 0 1] [reset_state]), [1;0;0;0;7]. split; [vm_compute; reflexivity|]. split.
  - right. exists [], 5, [1;0;0;0;7], (snd (encode_vec sse_ops store_libs (Z.to_nat 32768) (Z.to_nat 4096) (mkEnc old_cloud [] [ECopy 0 1] [reset_state]) [7] [])).
    split; [constructor|]. split; [|repeat split]. 
    rewrite (triple_eta (encode_vec _ _ _ _ _ _ _)) at 1. f_equal; vm_compute; reflexivity.
  - intros buf. split; intros; vm_compute; reflexivity.
Qed.
Print Assumptions C39_version2_refuted.
