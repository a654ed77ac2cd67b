(** C17 continued: clouds that are sure to be decoded.  C17_roundtrip_compressed counts eleven
    bytes for every float; the leading group of three or four lossy floats never needs more than
    five each, so that clouds of such points (PointXYZ, PointXYZI, Velodyne scans) always fit the
    decoder's scratch buffer. *)
From Verif Require Import Base BaseFacts Varint VarintFacts Types Floats Fields Codec V5 Api Spec LibSpec SeqSpec.
From Verif Require Import GorillaFacts FieldFacts WriteFacts CodecFacts BuildFacts RunFacts SectionFacts PaletteFacts V5Facts ChunkV5Facts Stage1Facts ApiFacts CloudFacts RoundTrip CloudRT LocalFacts SeqFacts ColumnFacts CloudApi Cases PropsField PropsColumn PropsStage1 PropsCloud.

(** ** Specification *)
(** Most bytes a value takes: five in the leading group ([KN]), one for one-byte integers, ten for
    other floats and eleven for other integers. *)
Definition value_cost (f : field) (k : lossk) : Z :=
  match k with
  | KN _ => 5
  | _ => match f_type f with INT8 | UINT8 => 1 | INT16 | UINT16 | INT32 | UINT32 | INT64 | UINT64 => 11 | _ => 10 end
  end.
Definition tight_point (i : info) : Z := fold_right (fun fk s => value_cost (fst fk) (snd fk) + s) 0 (combine (i_fields i) (kinds i)).
Definition tight_chunk (i : info) (k : Z) : Z := k * tight_point i + 5 * zlen (int_fields i).

(** ** Proofs *)
Definition cost_sum (l : list (field * lossk)) : Z := fold_right (fun fk s => value_cost (fst fk) (snd fk) + s) 0 l.
Lemma cost_nonneg l : 0 <= cost_sum l.
Proof. induction l as [|[f k] l IH]; cbn [cost_sum fold_right fst snd]; [lia|]. fold (cost_sum l). unfold value_cost. destruct k, (f_type f); lia. Qed.
Definition piece_cost (p : Z * nat * lossk) : Z := let '(_, sz, k) := p in match k with KN _ => 5 | _ => if (sz <=? 1)%nat then Z.of_nat sz else 10 end.
Definition pieces_sum (l : list (Z * nat * lossk)) : Z := fold_right (fun p s => piece_cost p + s) 0 l.
Lemma pieces_sum_app a b : pieces_sum (a ++ b) = pieces_sum a + pieces_sum b.
Proof. induction a as [|p a IH]; cbn [app pieces_sum fold_right]; [reflexivity|]. fold (pieces_sum (a ++ b)) (pieces_sum a). lia. Qed.
Lemma enc_cost e d o : pair_ed e d o -> Forall (fun p : Z * nat * lossk => (snd (fst p) <= 10)%nat) (pieces e) -> Z.of_nat (enc_max e) <= pieces_sum (pieces e).
Proof.
  intros H HS. inversion H; subst; cbn [pieces enc_max pieces_sum fold_right piece_cost] in *.
  - apply Forall_inv in HS. cbn [fst snd] in HS. destruct (Nat.leb_spec sz 1); lia.
  - destruct t; try contradiction; cbn; lia.
  - cbn. lia.
  - cbn. lia.
  - destruct (Nat.leb_spec sz 1); lia.
  - cbn. lia.
  - clear. induction lanes as [|l ls IH]; [cbn; lia|]. cbn [map fold_right length piece_cost]. change (Nat.leb 4 1) with false. lia.
Qed.
Lemma encs_cost es ds offs : pairs es ds offs -> Forall (fun p : Z * nat * lossk => (snd (fst p) <= 10)%nat) (all_pieces es) -> Z.of_nat (sum_nat (map enc_max es)) <= pieces_sum (all_pieces es).
Proof.
  induction 1 as [|e d o es ds offs He HP IH]; intros HS; [cbn; lia|]. unfold all_pieces in *. cbn [flat_map map] in *. apply Forall_app in HS. destruct HS as [H1 H2]. rewrite pieces_sum_app. unfold sum_nat in *. cbn [fold_right].
  pose proof (enc_cost e d o He H1). specialize (IH H2). lia.
Qed.
Lemma built_cost i sel es : built i sel es -> Z.of_nat (sum_nat (map enc_max es)) <= cost_sum (filter (fun fk => sel (f_type (fst fk))) (fks i)).
Proof.
  intros ((ds & offs & HP) & HA & _). assert (HS : forall l, Forall (fun p : Z * nat * lossk => (snd (fst p) <= 10)%nat) (map piece_of l)).
  { intros l. apply Forall_map, Forall_forall. intros [f k] _. cbn [piece_of fst snd]. destruct (f_type f); cbn; lia. }
  pose proof (encs_cost es ds offs HP ltac:(rewrite HA; apply HS)) as H. rewrite HA in H. eapply Z.le_trans; [exact H|]. clear.
  induction (filter _ (fks i)) as [|[f k] l IH]; [cbn; lia|]. cbn [map pieces_sum cost_sum fold_right fst snd]. fold (pieces_sum (map piece_of l)) (cost_sum l). cbn [piece_of piece_cost fst snd].
  assert (match k with KN _ => 5 | _ => if (SizeOf (f_type f) <=? 1)%nat then Z.of_nat (SizeOf (f_type f)) else 10 end <= value_cost f k); [|lia]. unfold value_cost. destruct k, (f_type f); cbn; lia.
Qed.
Lemma cost_split (sel : ftype -> bool) l : cost_sum l = cost_sum (filter (fun fk => sel (f_type (fst fk))) l) + cost_sum (filter (fun fk => negb (sel (f_type (fst fk)))) l).
Proof. induction l as [|[f k] l IH]; [reflexivity|]. cbn [filter fst]. destruct (sel (f_type f)); unfold cost_sum in *; cbn [negb fold_right fst snd]; lia. Qed.
Lemma lead_run_float fs : Forall (fun f => f_type f = FLOAT32) (firstn (lead_run fs) fs).
Proof. induction fs as [|[n o t r] fs IH]; [constructor|]. cbn [lead_run]. destruct t, r; try constructor; [reflexivity|exact IH]. Qed.
(** an integer column is never in the leading group *)
Lemma int_cost i : known_enc i -> cost_sum (filter (fun fk => negb (regular (f_type (fst fk)))) (fks i)) = 11 * zlen (int_fields i).
Proof.
  intros HK. unfold fks, int_fields. assert (G : Forall2 (fun f k => regular (f_type f) = false -> match k with KN _ => False | _ => True end) (i_fields i) (kinds i)).
  { unfold kinds. assert (GM : forall fs, Forall2 (fun f k => regular (f_type f) = false -> match k with KN _ => False | _ => True end) fs (map lossy_kind fs)).
    { induction fs as [|f fs IH]; constructor; [|exact IH]. intros _. unfold lossy_kind. destruct (f_type f), (f_res f); exact I. }
    assert (G0 : forall fs, Forall2 (fun f k => regular (f_type f) = false -> match k with KN _ => False | _ => True end) fs (map (fun _ => KId) fs)) by (induction fs; constructor; auto).
    destruct (i_enc i); try apply G0. cbv zeta. destruct (_ || _); [|apply GM]. rewrite <- (firstn_skipn (lead_run (i_fields i)) (i_fields i)) at 1. apply Forall2_app; [|apply GM].
    pose proof (lead_run_float (i_fields i)) as HF. induction HF as [|f l Hf HF IH]; constructor; [|exact IH]. rewrite Hf. discriminate. }
  clear HK. induction G as [|f k fs ks Hk G IH]; [reflexivity|]. cbn [combine filter fst]. unfold regular in *. destruct (f_type f) eqn:E; cbn [isV5AdaptiveIntType negb] in *; try exact IH;
    cbn [cost_sum fold_right fst snd]; fold (cost_sum (filter (fun fk => negb (negb (isV5AdaptiveIntType (f_type (fst fk))))) (combine fs ks))); rewrite zlen_cons, IH; specialize (Hk eq_refl); unfold value_cost; rewrite E; destruct k; try contradiction; lia.
Qed.
Lemma chunk_tight ops i ppc cloud ms c k bs : known_enc i -> (exists m, MaxSerializedPointSize i = Ok m) -> (k <= ppc)%nat -> chunk_rel ops i ppc cloud ms c k bs -> zlen bs <= tight_chunk i (Z.of_nat k).
Proof.
  intros HK (m & Hm) Hk HC. unfold tight_chunk. change (tight_point i) with (cost_sum (fks i)). pose proof (zlen_nonneg (int_fields i)) as HI0. unfold chunk_rel in HC. destruct (UsesV5Codec i) eqn:HU.
  - destruct HC as (es & afs & HB & o & secs & _ & _ & _ & _ & Hz & _). destruct (plan_spec i es afs m HU HB Hm) as (HBu & HA & _).
    assert (Ha : zlen afs = zlen (int_fields i)) by (rewrite HA; unfold zlen; rewrite map_length; reflexivity). pose proof (wides_range afs) as Hwr.
    assert (wides afs * Z.of_nat k <= zlen afs * Z.of_nat k) by (apply Z.mul_le_mono_nonneg_r; lia). rewrite Ha in *.
    pose proof (built_cost _ _ _ HBu) as H1. rewrite (cost_split regular), (int_cost i HK). nia.
  - destruct HC as (es & HB & _ & _ & Hz). destruct (build_v4_wf i es m HK HB Hm) as (HBu & _). pose proof (built_cost _ _ _ HBu) as H1. rewrite filter_true in H1. nia.
Qed.

(** * C17: LZ4 and ZSTD, the sharper condition *)
Theorem C17_roundtrip_fits : forall ops L ppc probe i i' hdr0 e cloud hdr body n buf mem,
  libs_ok L -> bytes hdr0 -> encode_side ppc i cloud -> decode_side i i' -> deltas_ok ops i ppc cloud ->
  encoder_of ops L ppc probe i (Ok hdr0) e -> produces ops L ppc probe e cloud hdr body ->
  i_comp i = COMP_LZ4 \/ i_comp i = COMP_ZSTD -> zlen body < 1431260227 ->
  zlen cloud = Z.of_nat n * i_step i -> declares i' n -> Z.of_nat n * i_step i' <= zlen mem ->
  tight_chunk i (Z.of_nat (Nat.min n ppc)) <= Z.of_nat n * i_step i' -> Z.of_nat n * i_step i' <= 2147483647 ->
  exists buf' mem', decode ops L ppc i' body buf mem = Ok (buf', mem') /\ restored ops i i' n cloud mem mem'.
Proof.
  intros ops L ppc probe i i' hdr0 e cloud hdr body n buf mem HLi Hh HES HDS HD HEo HPr HN Hz Hlen Hdec Hm Hw Hmax.
  destruct (produces_chunks _ _ _ _ _ _ _ _ _ _ HLi Hh HES HEo HPr) as (n' & ms & bss & ps & HC & ->).
  assert (n' = n). { destruct HC as (HC & _). destruct HES as ((Hs & _) & _). unfold zlen in Hlen. rewrite HC in Hlen. nia. } subst n'.
  apply (chunks_decode ops L ppc probe i i' cloud n ms bss ps buf mem HES HDS HD HC (encoder_v4 _ _ _ _ _ _ _ HEo) Hz Hdec Hm).
  rewrite (dec_cap_declared i' n Hdec) by (try lia; apply HDS). destruct HC as (_ & HSt & _ & _ & _ & HM). destruct HES as (_ & HK & (Hp & _) & _).
  assert (HF : Forall (fun bs => zlen bs <= Z.of_nat n * i_step i') bss).
  { eapply (stage1_forall (fun c k bs => chunk_rel ops i ppc cloud ms c k bs /\ (k <= Nat.min n ppc)%nat)).
    - intros c k bs [H1 H2]. pose proof (chunk_tight ops i ppc cloud ms c k bs HK HM ltac:(lia) H1) as H3.
      assert (tight_chunk i (Z.of_nat k) <= tight_chunk i (Z.of_nat (Nat.min n ppc))); [|lia].
      unfold tight_chunk. pose proof (cost_nonneg (fks i)). change (tight_point i) with (cost_sum (fks i)). nia.
    - eapply stage1_impl; [|exact Hp|exact HSt]. cbn beta. intros c k bs H1 H2 H3 H4. split; [exact H4|]. nia. }
  eapply Forall_impl; [|exact HF]. intros bs Hb. destruct HN as [-> | ->]; cbn [fits]; unfold INT_MAX; cbn beta in Hb; lia.
Qed.
(** Points no smaller than the most their values take, and no multi-byte integer: every cloud of
    such points is decoded, compressed or not. *)
Theorem C17_always_decodes : forall ops L ppc probe i hdr0 e cloud hdr body n buf mem,
  libs_ok L -> bytes hdr0 -> encode_side ppc i cloud -> decode_side i i -> deltas_ok ops i ppc cloud ->
  encoder_of ops L ppc probe i (Ok hdr0) e -> produces ops L ppc probe e cloud hdr body ->
  match i_comp i with COMP_OTHER _ => False | _ => True end ->
  int_fields i = [] -> tight_point i <= i_step i ->
  zlen cloud = Z.of_nat n * i_step i -> zlen cloud <= 2147483647 -> zlen body < 1431260227 -> declares i n -> zlen cloud <= zlen mem ->
  exists buf' mem', decode ops L ppc i body buf mem = Ok (buf', mem') /\ restored ops i i n cloud mem mem'.
Proof.
  intros ops L ppc probe i hdr0 e cloud hdr body n buf mem HLi Hh HES HDS HD HEo HPr HN HI HT Hlen Hmax Hz Hdec Hm. rewrite Hlen in Hm, Hmax.
  assert (HF : tight_chunk i (Z.of_nat (Nat.min n ppc)) <= Z.of_nat n * i_step i).
  { unfold tight_chunk. rewrite HI. pose proof (cost_nonneg (fks i)). change (tight_point i) with (cost_sum (fks i)) in *. change (zlen (@nil field)) with 0. nia. }
  destruct (i_comp i) eqn:EC; try contradiction.
  - eapply C17_roundtrip; eauto.
  - eapply C17_roundtrip_fits; eauto.
  - eapply C17_roundtrip_fits; eauto.
Qed.
(** The hypotheses are met: x, y, z at 1 mm in 16 bytes; two points. *)
Definition xyz16 (w : Z) : info := mkInfo (firstn 3 scan_fields) w 1 16 ENC_LOSSY [] COMP_ZSTD false 5.
Example C17_fits_case : let i := xyz16 3 in let cloud := flat_map (fun j => sub (32 * j) 16 scan_cloud) [0;1;2] in
  encode_side 2 i cloud /\ decode_side i i /\ deltas_ok sse_ops i 2 cloud /\ int_fields i = [] /\ tight_point i = 15 /\ worst_point i = 33 /\
  exists e body, encoder_of sse_ops store_libs 2 4096 i (Ok []) e /\ produces sse_ops store_libs 2 4096 e cloud [] body /\
    zlen body < 1431260227 /\ zlen cloud = Z.of_nat 3 * i_step i /\ declares i 3.
Proof.
  cbv zeta. split.
  { split; [split; [reflexivity|repeat constructor; cbn; lia]|]. split; [exact I|]. split; [|apply bytesb; vm_compute; reflexivity]. split; [lia|]. split; [lia|vm_compute; discriminate]. }
  split.
  { split; [split; [repeat constructor|auto]|]. split; [split; [reflexivity|repeat constructor; cbn; lia]|]. split; [left; cbn; repeat constructor; cbn; lia|]. split; [repeat constructor|]. split; [repeat constructor|split; [reflexivity|cbn; lia]]. }
  split; [apply (deltas_okb_ok _ _ _ _ 3); [vm_compute; reflexivity|reflexivity|vm_compute; reflexivity]|]. do 3 (split; [reflexivity|]).
  set (cloud := flat_map _ _).
  pose (e := match PointcloudEncoder (xyz16 3) (Ok []) with Ok e => e | _ => mkEnc (xyz16 3) [] [] [] end).
  exists e, (skipn 0 (snd (fst (encode_vec sse_ops store_libs 2 4096 e cloud [])))).
  destruct (new_produces sse_ops store_libs 2 4096 (xyz16 3) [] e cloud) as [H1 H2]; [vm_compute; reflexivity|vm_compute; reflexivity|].
  split; [exact H1|]. split; [exact H2|]. split; [vm_compute; reflexivity|]. split; [vm_compute; reflexivity|]. reflexivity.
Qed.
Print Assumptions C17_roundtrip_fits.
Print Assumptions C17_always_decodes.
