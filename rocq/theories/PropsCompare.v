(** C91: comparing clouds by their encoded form. *)
From Coq Require Import ZArith Reals Psatz List Bool.
From Verif Require Import Base BaseFacts Types Floats Fields Codec V5 Api Spec LibSpec ErrorSpec FloatReal LocalFacts CodeFacts ApiFacts CloudApi Cases PropsCloud PropsError PropsBuilds FloatAgain PropsRecode RoundTrip StreamSpec StreamFacts.
Open Scope Z_scope.

Lemma produces_history ops L ppc probe e1 e2 cloud hdr body : e_info e1 = e_info e2 -> e_hdr e1 = e_hdr e2 -> e_es e1 = e_es e2 ->
  enc_ready e1 -> enc_ready e2 -> produces ops L ppc probe e1 cloud hdr body -> produces ops L ppc probe e2 cloud hdr body.
Proof.
  intros HI HH HE R1 R2 [(out & wh & total & out' & e' & Ho & H & E1 & E2 & E3)|(out & total & out' & e' & Ho & H & E1 & E2 & E3)]; [left|right].
  - pose proof (encode_view_history ops L ppc probe e1 e2 cloud out wh HI HH HE R1 R2) as HF. rewrite H in HF.
    destruct (encode_view ops L ppc probe e2 cloud out wh) as [[r o] e2'] eqn:EV. cbn [fst] in HF. apply pair_equal_spec in HF. destruct HF as [<- <-].
    exists out, wh, total, out', e2'. rewrite <- HH. repeat (split; [assumption|]). assumption.
  - pose proof (encode_vec_history ops L ppc probe e1 e2 cloud out HI HH HE R1 R2) as HF. rewrite H in HF.
    destruct (encode_vec ops L ppc probe e2 cloud out) as [[r o] e2'] eqn:EV. cbn [fst] in HF. apply pair_equal_spec in HF. destruct HF as [<- <-].
    exists out, total, out', e2'. rewrite <- HH. repeat (split; [assumption|]). assumption.
Qed.
Lemma one_stream ops L ppc probe i hdr0 e cloud h1 b1 h2 b2 : libs_ok L -> steady L (i_comp i) -> bytes hdr0 -> encode_side ppc i cloud ->
  enc_ready e -> e_info e = i -> e_hdr e = hdr0 ->
  produces ops L ppc probe e cloud h1 b1 -> produces ops L ppc probe e cloud h2 b2 -> b1 = b2.
Proof.
  intros HLi HS Hh (HL & HK & HCl & Hc) HR HI HH P1 P2. pose proof (limits_v5 _ _ HCl) as Hv5. destruct HCl as (Hp & _). subst i hdr0.
  destruct (produces_made ops L ppc probe e cloud HR HLi HL HK Hc Hh Hp Hv5) as (bss & Hbb & HM).
  destruct (HM _ _ P1) as (ps1 & A1 & ->). destruct (HM _ _ P2) as (ps2 & A2 & ->). now rewrite (comp_all_one _ _ _ _ _ HS Hbb A1 A2).
Qed.

(** ** One cloud, one stream
    Whichever overload of encode() is called, with whatever buffer (any size, any content), on
    whichever encoder object of the same EncodingInfo and after whatever other calls: the
    compressed points are the same bytes. *)
Theorem C91_one_stream : forall ops L ppc probe i hdr0 e1 e2 cloud h1 b1 h2 b2,
  libs_ok L -> steady L (i_comp i) -> bytes hdr0 -> encode_side ppc i cloud ->
  encoder_of ops L ppc probe i (Ok hdr0) e1 -> encoder_of ops L ppc probe i (Ok hdr0) e2 ->
  produces ops L ppc probe e1 cloud h1 b1 -> produces ops L ppc probe e2 cloud h2 b2 -> b1 = b2.
Proof.
  intros ops L ppc probe i hdr0 e1 e2 cloud h1 b1 h2 b2 HLi HS Hh HES H1 H2 P1 P2.
  destruct (encoder_of_ready _ _ _ _ _ _ _ H1) as (R1 & I1 & D1 & f1 & F1 & E1).
  destruct (encoder_of_ready _ _ _ _ _ _ _ H2) as (R2 & I2 & D2 & f2 & F2 & E2).
  eapply (one_stream ops L ppc probe i hdr0 e2 cloud); eauto; [congruence|]. eapply produces_history; [..|exact P1]; congruence || assumption.
Qed.
Print Assumptions C91_one_stream.

(** ** Equal streams are equal clouds
    Two clouds of the same size, encoded with the same EncodingInfo (by any two builds), whose
    streams decode into equal buffers: the streams are the same bytes exactly when the decoded
    clouds are. *)
Theorem C91_compare : forall o1 o2 o3 L ppc probe i hdr0 e1 e2 c1 c2 h1 b1 h2 b2 n buf mem x1 m1 x2 m2,
  build o1 -> build o2 -> build o3 ->
  libs_ok L -> steady L (i_comp i) -> bytes hdr0 ->
  encode_side ppc i c1 -> encode_side ppc i c2 -> decode_side i i -> deltas_ok o1 i ppc c1 -> deltas_ok o2 i ppc c2 ->
  encoder_of o1 L ppc probe i (Ok hdr0) e1 -> produces o1 L ppc probe e1 c1 h1 b1 ->
  encoder_of o2 L ppc probe i (Ok hdr0) e2 -> produces o2 L ppc probe e2 c2 h2 b2 ->
  zlen b1 < 1431260227 -> zlen b2 < 1431260227 -> zlen c1 = Z.of_nat n * i_step i -> zlen c2 = Z.of_nat n * i_step i -> declares i n ->
  Forall (fun f => stored f = true) (i_fields i) -> samples_ok i c1 -> samples_ok i c2 ->
  zlen mem = Z.of_nat n * i_step i ->
  decode o3 L ppc i b1 buf mem = Ok (x1, m1) -> decode o3 L ppc i b2 buf mem = Ok (x2, m2) ->
  (b1 = b2 <-> m1 = m2).
Proof.
  intros o1 o2 o3 L ppc probe i hdr0 e1 e2 c1 c2 h1 b1 h2 b2 n buf mem x1 m1 x2 m2 B1 B2 B3 HLi HS Hh ES1 ES2 HDS D1 D2 H1 P1 H2 P2 Z1 Z2 L1 L2 Hdec HSt S1 S2 Hm K1 K2.
  split; [intros <-; congruence|]. intros <-.
  rewrite (build_decode o3 o1) in K1 by assumption. rewrite (build_decode o3 o2) in K2 by assumption.
  destruct (C17_never_wrong o1 L ppc probe i i hdr0 e1 c1 h1 b1 n buf mem HLi Hh ES1 HDS D1 H1 P1 Z1 L1 Hdec ltac:(lia)) as [(y1 & w1 & Y1 & R1)|Y1]; [|congruence].
  destruct (C17_never_wrong o2 L ppc probe i i hdr0 e2 c2 h2 b2 n buf mem HLi Hh ES2 HDS D2 H2 P2 Z2 L2 Hdec ltac:(lia)) as [(y2 & w2 & Y2 & R2)|Y2]; [|congruence].
  assert (w1 = m1) by congruence. assert (w2 = m1) by congruence. subst w1 w2. pose proof ES1 as (HLa & HK & _).
  pose proof (recode_codes o1 o1 i n c1 mem m1 B1 B1 HLa HSt L1 ltac:(lia) S1 R1) as [CL1 C1].
  pose proof (recode_codes o2 o1 i n c2 mem m1 B2 B1 HLa HSt L2 ltac:(lia) S2 R2) as [CL2 C2].
  assert (HC : same_codes o1 o2 i c1 c2).
  { split; [congruence|]. intros j f k Hf Hz. assert (Hz' : Z.of_nat j * i_step i + f_off f + Z.of_nat (SizeOf (f_type f)) <= zlen m1) by (unfold zlen in *; rewrite CL1; exact Hz).
    rewrite <- (C1 j f k Hf Hz'). apply (C2 j f k Hf Hz'). }
  destruct (encoder_of_ready _ _ _ _ _ _ _ H1) as (Q1 & I1 & A1 & f1 & F1 & G1).
  destruct (encoder_of_ready _ _ _ _ _ _ _ H2) as (Q2 & I2 & A2 & f2 & F2 & G2).
  assert (Hs : 0 <= i_step (e_info e1)) by (rewrite I1; destruct HLa; lia).
  assert (P1' : produces o2 L ppc probe e1 c2 h1 b1).
  { rewrite <- I1 in HC, HK. destruct P1 as [(out & wh & total & out' & e' & Ho & H & T1 & T2 & T3)|(out & total & out' & e' & Ho & H & T1 & T2 & T3)]; [left|right].
    - rewrite (encode_view_codes o1 o2 L ppc probe e1 c1 c2 out wh Q1 HK Hs HC) in H. exists out, wh, total, out', e'. repeat (split; [assumption|]). assumption.
    - rewrite (encode_vec_codes o1 o2 L ppc probe e1 c1 c2 out Q1 HK Hs HC) in H. exists out, total, out', e'. repeat (split; [assumption|]). assumption. }
  eapply (one_stream o2 L ppc probe i hdr0 e2 c2); eauto; [congruence|]. eapply produces_history; [..|exact P1']; congruence || assumption.
Qed.
Print Assumptions C91_compare.

(** ** What equal streams say about the clouds
    Two clouds with the same stream have the same bytes in every field that is not quantised, and
    quantised samples that differ by at most the two error bounds. *)
Theorem C91_equal_streams : forall o1 o2 o3 L ppc probe i hdr0 e1 e2 c1 c2 h1 h2 b n buf mem x m,
  build o1 -> build o2 -> build o3 ->
  libs_ok L -> bytes hdr0 ->
  encode_side ppc i c1 -> encode_side ppc i c2 -> decode_side i i -> deltas_ok o1 i ppc c1 -> deltas_ok o2 i ppc c2 ->
  encoder_of o1 L ppc probe i (Ok hdr0) e1 -> produces o1 L ppc probe e1 c1 h1 b ->
  encoder_of o2 L ppc probe i (Ok hdr0) e2 -> produces o2 L ppc probe e2 c2 h2 b ->
  zlen b < 1431260227 -> zlen c1 = Z.of_nat n * i_step i -> zlen c2 = Z.of_nat n * i_step i -> declares i n ->
  zlen mem = Z.of_nat n * i_step i -> decode o3 L ppc i b buf mem = Ok (x, m) ->
  forall a j f, (j < n)%nat -> nth_error (i_fields i) a = Some f -> stored f = true ->
    let at_j (c : list Z) := sub (Z.of_nat j * i_step i + f_off f) (SizeOf (f_type f)) c in
    (i_enc i <> ENC_LOSSY \/ f_res f = None \/ (f_type f <> FLOAT32 /\ f_type f <> FLOAT64) -> at_j c1 = at_j c2) /\
    forall rb, i_enc i = ENC_LOSSY -> f_res f = Some rb -> finite32 rb -> usable (float_of rb) ->
    let r := float_of rb in
    (f_type f = FLOAT32 ->
       let p := le_val (at_j c1) in let q := le_val (at_j c2) in
       finite32 p -> finite32 q -> (Rabs (float_of p) <= powerRZ 2 30 * r)%R -> (Rabs (float_of q) <= powerRZ 2 30 * r)%R ->
       (Rabs (float_of p - float_of q) <= bound32 r (float_of p) + bound32 r (float_of q))%R) /\
    (f_type f = FLOAT64 ->
       let p := le_val (at_j c1) in let q := le_val (at_j c2) in
       finite64 p -> finite64 q -> (Rabs (double_of p) <= powerRZ 2 62 * r)%R -> (Rabs (double_of q) <= powerRZ 2 62 * r)%R ->
       (Rabs (double_of p - double_of q) <= bound64 r (double_of p) + bound64 r (double_of q))%R).
Proof.
  intros o1 o2 o3 L ppc probe i hdr0 e1 e2 c1 c2 h1 h2 b n buf mem x m B1 B2 B3 HLi Hh ES1 ES2 HDS D1 D2 H1 P1 H2 P2 Z1 L1 L2 Hdec Hm K a j f Hj Hf HSt at_j.
  pose proof K as K1. pose proof K as K2. rewrite (build_decode o3 o1) in K1 by assumption. rewrite (build_decode o3 o2) in K2 by assumption. split.
  - intros HX. destruct (C17_never_wrong o1 L ppc probe i i hdr0 e1 c1 h1 b n buf mem HLi Hh ES1 HDS D1 H1 P1 Z1 L1 Hdec ltac:(lia)) as [(y1 & w1 & Y1 & R1)|Y1]; [|congruence].
    destruct (C17_never_wrong o2 L ppc probe i i hdr0 e2 c2 h2 b n buf mem HLi Hh ES2 HDS D2 H2 P2 Z1 L2 Hdec ltac:(lia)) as [(y2 & w2 & Y2 & R2)|Y2]; [|congruence].
    assert (w1 = m) by congruence. assert (w2 = m) by congruence. subst w1 w2. unfold at_j.
    destruct R1 as (_ & R1 & _), R2 as (_ & R2 & _).
    assert (Hk : exists k, In (f, k) (combine (i_fields i) (kinds i)) /\ k = KId).
    { assert (HKl : length (kinds i) = length (i_fields i)) by apply BuildFacts.kinds_length.
      destruct (nth_error (kinds i) a) as [k|] eqn:Ek.
      2:{ apply nth_error_None in Ek. assert (nth_error (i_fields i) a <> None) by congruence. apply nth_error_Some in H. lia. }
      assert (Hin : In (f, k) (combine (i_fields i) (kinds i))).
      { clear - Hf Ek. revert a Hf Ek. generalize (kinds i). induction (i_fields i) as [|g l IH]; intros ks a Hf Ek; destruct a, ks; cbn in *; try discriminate; [left; congruence|right; eapply IH; eauto]. }
      exists k. split; [exact Hin|]. destruct (i_enc i) eqn:EE.
      1,3,4: unfold kinds in Hin; rewrite EE, BuildFacts.combine_map in Hin; apply in_map_iff in Hin; destruct Hin as (y & Ey & _); congruence.
      destruct (kind_cases i f k EE Hin) as [[HT ->] | ->].
      - destruct HX as [HX|[HX|[HX _]]]; [congruence| |congruence]. unfold vector_kind. rewrite HX. reflexivity.
      - unfold lossy_kind. destruct HX as [HX|[HX|[HX1 HX2]]]; [congruence| |].
        + destruct (f_type f); try reflexivity; rewrite HX; reflexivity.
        + destruct (f_type f); try reflexivity; congruence. }
    destruct Hk as (k & Hin & ->). pose proof (R1 j f f KId Hj (diag _ _ _ _ Hin) HSt) as E1. pose proof (R2 j f f KId Hj (diag _ _ _ _ Hin) HSt) as E2.
    cbn [recon] in E1, E2. unfold fbytes in E1, E2. rewrite <- E1, <- E2. reflexivity.
  - intros rb HLy Hres Fr Hr r.
    assert (HO1 : o1 = sse_ops \/ o1 = scalar_ops) by exact B1. assert (HO2 : o2 = sse_ops \/ o2 = scalar_ops) by exact B2.
    destruct (C09_cloud o1 L ppc probe i i hdr0 e1 c1 h1 b n buf mem x m HO1 HLi Hh ES1 HDS D1 H1 P1 Z1 L1 Hdec ltac:(lia) HLy K1 a j f f rb Hj Hf Hf HSt Hres Fr Hr) as [A1 A2].
    destruct (C09_cloud o2 L ppc probe i i hdr0 e2 c2 h2 b n buf mem x m HO2 HLi Hh ES2 HDS D2 H2 P2 Z1 L2 Hdec ltac:(lia) HLy K2 a j f f rb Hj Hf Hf HSt Hres Fr Hr) as [C1 C2].
    cbv zeta in A1, A2, C1, C2. fold r in A1, A2, C1, C2. unfold at_j.
    split; intros HT; cbv zeta; rewrite HT.
    + intros F1 F2 G1 G2. destruct (A1 HT F1 G1) as [_ U1]. destruct (C1 HT F2 G2) as [_ U2]. cbn [SizeOf] in *. rewrite Rabs_minus_sym in U1.
      match goal with |- (Rabs (?p - ?q) <= _)%R => match type of U2 with (Rabs (?y - _) <= _)%R => replace (p - q)%R with ((p - y) + (y - q))%R by ring end end.
      eapply Rle_trans; [apply Rabs_triang|]. apply Rplus_le_compat; assumption.
    + intros F1 F2 G1 G2. destruct (A2 HT F1 G1) as [_ U1]. destruct (C2 HT F2 G2) as [_ U2]. cbn [SizeOf] in *. rewrite Rabs_minus_sym in U1.
      match goal with |- (Rabs (?p - ?q) <= _)%R => match type of U2 with (Rabs (?y - _) <= _)%R => replace (p - q)%R with ((p - y) + (y - q))%R by ring end end.
      eapply Rle_trans; [apply Rabs_triang|]. apply Rplus_le_compat; assumption.
Qed.
Print Assumptions C91_equal_streams.

(** ** The hypotheses are met
    [near_cloud] of C68, the same cloud with its first x one unit in the last place larger (same
    stream), and with its first x 2 mm larger (another stream). *)
Definition near_cloud2 : list Z :=
  scan_point 1069547521 3222274048 2143289344 7 4614256656552045848 (-3) ++
  scan_point 0 1077936128 1065353216 500 4613303445314885481 (2 ^ 40).
Definition near_cloud3 : list Z :=
  scan_point 1069564297 3222274048 2143289344 7 4614256656552045848 (-3) ++
  scan_point 0 1077936128 1065353216 500 4613303445314885481 (2 ^ 40).
Lemma near_samples2 : samples_ok near_info near_cloud2.
Proof.
  intros _ f rb j Hf HR Hj. assert (Hj2 : j = 0%nat \/ j = 1%nat) by (change (zlen near_cloud2) with 64%Z in Hj; cbn [i_step near_info] in Hj; lia).
  cbn [i_fields near_info near_fields] in Hf. unfold fld in Hf.
  destruct Hj2 as [-> | ->]; repeat (destruct Hf as [<- |Hf]; [cbn [f_res] in HR; try discriminate HR; injection HR as <-; split; intros HT; cbn [f_type] in HT; try discriminate HT; lazymatch goal with |- sample32 _ _ => apply near32_ok; vm_compute; reflexivity | |- _ => apply near64_ok; vm_compute; reflexivity end|]); destruct Hf.
Qed.
Lemma near_samples3 : samples_ok near_info near_cloud3.
Proof.
  intros _ f rb j Hf HR Hj. assert (Hj2 : j = 0%nat \/ j = 1%nat) by (change (zlen near_cloud3) with 64%Z in Hj; cbn [i_step near_info] in Hj; lia).
  cbn [i_fields near_info near_fields] in Hf. unfold fld in Hf.
  destruct Hj2 as [-> | ->]; repeat (destruct Hf as [<- |Hf]; [cbn [f_res] in HR; try discriminate HR; injection HR as <-; split; intros HT; cbn [f_type] in HT; try discriminate HT; lazymatch goal with |- sample32 _ _ => apply near32_ok; vm_compute; reflexivity | |- _ => apply near64_ok; vm_compute; reflexivity end|]); destruct Hf.
Qed.
Lemma near_side c : bytes c -> encode_side 2 near_info c.
Proof. intros H. split; [split; [reflexivity|repeat constructor; cbn; lia]|]. split; [exact I|]. split; [|exact H]. split; [lia|]. split; [lia|vm_compute; discriminate]. Qed.
Definition near_enc : encoder := match PointcloudEncoder near_info (Ok []) with Ok e => e | _ => mkEnc near_info [] [] [] end.
Definition near_body (c : list Z) : list Z := skipn 0 (snd (fst (encode_vec sse_ops store_libs 2 4096 near_enc c []))).
Lemma near_made c : zlen c = 64 -> match encode_vec sse_ops store_libs 2 4096 near_enc c [] with (Ok _, _, _) => True | _ => False end ->
  bytes c -> match encode_vec sse_ops store_libs 2 4096 near_enc c [] with (Ok n, o, _) => n = zlen o | _ => False end ->
  encoder_of sse_ops store_libs 2 4096 near_info (Ok []) near_enc /\ produces sse_ops store_libs 2 4096 near_enc c [] (near_body c).
Proof.
  intros _ _ Hb H. split; [apply eo_new; vm_compute; reflexivity|]. right. unfold near_body. destruct (encode_vec sse_ops store_libs 2 4096 near_enc c []) as [[r o] e'] eqn:E.
  destruct r as [n| |]; try contradiction. exists [], n, o, e'. split; [constructor|]. split; [exact E|]. cbn [fst snd skipn app]. split; [reflexivity|]. split; [now symmetry|]. vm_compute. reflexivity.
Qed.
Example C91_case : let i := near_info in
  steady store_libs (i_comp i) /\ decode_side i i /\ declares i 2 /\ Forall (fun f => stored f = true) (i_fields i) /\
  (forall c, In c [near_cloud; near_cloud2; near_cloud3] -> zlen c = 2 * i_step i /\ encode_side 2 i c /\ deltas_ok sse_ops i 2 c /\ samples_ok i c /\
     encoder_of sse_ops store_libs 2 4096 i (Ok []) near_enc /\ produces sse_ops store_libs 2 4096 near_enc c [] (near_body c) /\ zlen (near_body c) < 1431260227 /\
     exists m, decode sse_ops store_libs 2 i (near_body c) [] (repeat 255 64) = Ok ([], m)) /\
  near_body near_cloud2 = near_body near_cloud /\ near_cloud2 <> near_cloud /\ near_body near_cloud3 <> near_body near_cloud.
Proof.
  cbv zeta. split; [exact I|]. split.
  { split; [split; [repeat constructor|auto]|]. split; [split; [reflexivity|repeat constructor; cbn; lia]|]. split; [left; cbn; repeat constructor; cbn; lia|]. split; [repeat constructor|]. split; [repeat constructor|split; [reflexivity|cbn; lia]]. }
  split; [reflexivity|]. split; [repeat constructor|]. split.
  { assert (G : forall c, zlen c = 64 -> bytes c -> deltas_ok sse_ops near_info 2 c -> samples_ok near_info c ->
        match encode_vec sse_ops store_libs 2 4096 near_enc c [] with (Ok n, o, _) => n = zlen o | _ => False end ->
        zlen (near_body c) < 1431260227 -> (exists m, decode sse_ops store_libs 2 near_info (near_body c) [] (repeat 255 64) = Ok ([], m)) ->
        zlen c = 2 * i_step near_info /\ encode_side 2 near_info c /\ deltas_ok sse_ops near_info 2 c /\ samples_ok near_info c /\
        encoder_of sse_ops store_libs 2 4096 near_info (Ok []) near_enc /\ produces sse_ops store_libs 2 4096 near_enc c [] (near_body c) /\ zlen (near_body c) < 1431260227 /\
        exists m, decode sse_ops store_libs 2 near_info (near_body c) [] (repeat 255 64) = Ok ([], m)).
    { intros c Hz Hb Hd HS Hn Hl Hm. split; [exact Hz|]. split; [apply near_side, Hb|]. split; [exact Hd|]. split; [exact HS|].
      destruct (near_made c Hz) as [Q1 Q2]; [destruct (encode_vec sse_ops store_libs 2 4096 near_enc c []) as [[[ ? | | ] ?] ?]; auto|exact Hb|exact Hn|]. auto. }
    intros c [<-|[<-|[<-|[]]]]; (apply G; [reflexivity|apply bytesb; vm_compute; reflexivity|
      apply (deltas_okb_ok _ _ _ _ 2); [vm_compute; reflexivity|reflexivity|vm_compute; reflexivity]|
      lazymatch goal with |- samples_ok _ near_cloud => exact near_samples | |- samples_ok _ near_cloud2 => exact near_samples2 | |- _ => exact near_samples3 end|vm_compute; reflexivity|vm_compute; reflexivity|eexists; vm_compute; reflexivity]). }
  split; [vm_compute; reflexivity|]. split; [vm_compute; discriminate|vm_compute; discriminate].
Qed.

(** ** Without the range condition
    24.7 million steps away: two clouds whose streams differ decode to the same buffer. *)
Definition away_info : info :=
  mkInfo [fld 120 0 FLOAT32 (Some 985246519); fld 121 4 FLOAT32 (Some 985246519); fld 122 8 FLOAT32 (Some 985246519)] 1 1 12 ENC_LOSSY [] COMP_NONE false 5.
Definition away_cloud (x : Z) : list Z := le_bytes 4 x ++ le_bytes 4 x ++ le_bytes 4 x.
Theorem C91_far_refuted : exists i e c1 c2 b1 b2 m, encode_side 2 i c1 /\ encode_side 2 i c2 /\
  encoder_of sse_ops store_libs 2 4096 i (Ok []) e /\
  produces sse_ops store_libs 2 4096 e c1 [] b1 /\ produces sse_ops store_libs 2 4096 e c2 [] b2 /\
  decode sse_ops store_libs 2 i b1 [] (repeat 0 12) = Ok ([], m) /\ decode sse_ops store_libs 2 i b2 [] (repeat 0 12) = Ok ([], m) /\ b1 <> b2.
Proof.
  pose (e := match PointcloudEncoder away_info (Ok []) with Ok e => e | _ => mkEnc away_info [] [] [] end).
  pose (c1 := away_cloud 1191765847). pose (c2 := away_cloud 1191765848).
  pose (b1 := skipn 0 (snd (fst (encode_vec sse_ops store_libs 2 4096 e c1 [])))). pose (b2 := skipn 0 (snd (fst (encode_vec sse_ops store_libs 2 4096 e c2 [])))).
  exists away_info, e, c1, c2, b1, b2, (match decode sse_ops store_libs 2 away_info b1 [] (repeat 0 12) with Ok (_, m) => m | _ => [] end).
  assert (S : forall c, bytes c -> encode_side 2 away_info c).
  { intros c H. split; [split; [reflexivity|repeat constructor; cbn; lia]|]. split; [exact I|]. split; [|exact H]. split; [lia|]. split; [lia|vm_compute; discriminate]. }
  split; [apply S, bytesb; vm_compute; reflexivity|]. split; [apply S, bytesb; vm_compute; reflexivity|].
  destruct (new_produces sse_ops store_libs 2 4096 away_info [] e c1) as [H1 H2]; [vm_compute; reflexivity|vm_compute; reflexivity|].
  destruct (new_produces sse_ops store_libs 2 4096 away_info [] e c2) as [_ H4]; [vm_compute; reflexivity|vm_compute; reflexivity|].
  split; [exact H1|]. split; [exact H2|]. split; [exact H4|]. split; [vm_compute; reflexivity|]. split; [vm_compute; reflexivity|]. vm_compute. discriminate.
Qed.
Print Assumptions C91_far_refuted.

(** ** Without the condition on the compressor
    A compressor that meets every other assumption (LibSpec) but whose first byte tells whether
    the room it was given is odd: two buffers, two streams for one cloud. *)
Definition moody_lib : codec_lib := mkLib
  (fun src dst => if zlen dst <? zlen src + 1 then (None, dst)
                  else (Some (zlen src + 1), zlen dst mod 2 :: src ++ skipn (S (length src)) dst))
  (fun src cap => match src with
                  | _ :: r => if zlen r <=? cap then Some r else None
                  | _ => None
                  end)
  (fun n => n + 1).
Lemma moody_ok : compressor_ok moody_lib.
Proof.
  constructor; cbn [moody_lib c_compress c_decompress c_bound].
  - intros src dst. destruct (Z.ltb_spec (zlen dst) (zlen src + 1)); cbn [snd]; [reflexivity|].
    unfold zlen in *. cbn [length]. rewrite app_length, skipn_length. lia.
  - intros src dst Hs Hd. destruct (zlen dst <? zlen src + 1); cbn [snd]; [exact Hd|].
    constructor; [unfold is_byte; pose proof (Z.mod_pos_bound (zlen dst) 2 eq_refl); lia|]. apply bytes_app. split; [exact Hs|apply bytes_skipn, Hd].
  - intros src dst n Hs Hd. destruct (Z.ltb_spec (zlen dst) (zlen src + 1)); cbn [fst snd]; [discriminate|].
    intros [= <-]. split; [unfold zlen in *; lia|]. split; [lia|]. intros cap.
    replace (Z.to_nat (zlen src + 1)) with (S (length src)) by (unfold zlen; lia). cbn [firstn].
    rewrite firstn_app, firstn_all, Nat.sub_diag. cbn [firstn]. rewrite app_nil_r. reflexivity.
  - intros src dst _ H. destruct (Z.ltb_spec (zlen dst) (zlen src + 1)); cbn [fst]; [lia|discriminate].
  - intros; lia.
  - unfold LIB_MAX, UINT32_MAX; intros; lia.
  - intros; lia.
  - intros src d1 d2 H. unfold zlen. rewrite H. destruct (_ <? _) eqn:E; cbn [fst snd]; [split; [reflexivity|discriminate]|].
    split; [reflexivity|]. intros n [= <-].
    replace (Z.to_nat (Z.of_nat (length src) + 1)) with (S (length src)) by lia. cbn [firstn].
    now rewrite !firstn_app, !firstn_all, !Nat.sub_diag.
  - intros src cap r Hs. destruct src as [|b src]; [discriminate|].
    destruct (Z.leb_spec (zlen src) cap); [|discriminate]. intros [= <-]. split; [assumption|]. now inversion Hs.
Qed.
Theorem C91_one_stream_refuted : exists L i e cloud b1 b2, libs_ok L /\ encode_side 2 i cloud /\
  encoder_of sse_ops L 2 4096 i (Ok []) e /\ produces sse_ops L 2 4096 e cloud [] b1 /\ produces sse_ops L 2 4096 e cloud [] b2 /\ b1 <> b2.
Proof.
  pose (i := mkInfo [fld 105 0 INT32 None] 1 1 4 ENC_LOSSY [] COMP_LZ4 false 5). pose (L := mkLibs moody_lib moody_lib).
  pose (e := match PointcloudEncoder i (Ok []) with Ok e => e | _ => mkEnc i [] [] [] end).
  pose (run := fun k : nat => encode_view sse_ops L 2 4096 e [1;2;3;4] (repeat 0 k) false).
  pose (body := fun k : nat => match run k with (Ok t, o, _) => firstn (Z.to_nat t) o | _ => [] end).
  exists L, i, e, [1;2;3;4], (body 1100%nat), (body 1101%nat). split; [split; apply moody_ok|]. split.
  { split; [split; [reflexivity|repeat constructor; cbn; lia]|]. split; [exact I|]. split; [|apply bytesb; vm_compute; reflexivity]. split; [lia|]. split; [lia|vm_compute; discriminate]. }
  split; [apply eo_new; vm_compute; reflexivity|].
  assert (G : forall k, match run k with (Ok t, o, _) => t = zlen (firstn (Z.to_nat t) o) | _ => False end -> produces sse_ops L 2 4096 e [1;2;3;4] [] (body k)).
  { intros k Hk. left. unfold body. destruct (run k) as [[r o] e'] eqn:E. destruct r as [t| |]; try contradiction. exists (repeat 0 k), false, t, o, e'.
    split; [apply Forall_forall; intros x Hx; apply repeat_spec in Hx; subst x; unfold is_byte; lia|]. split; [exact E|]. split; [reflexivity|]. split; [now symmetry|reflexivity]. }
  split; [apply G; vm_compute; reflexivity|]. split; [apply G; vm_compute; reflexivity|]. vm_compute. discriminate.
Qed.
Print Assumptions C91_one_stream_refuted.
(** The compressor of the examples does give the same bytes in every room. *)
Example C91_steady_case : steady store_libs COMP_LZ4 /\ steady store_libs COMP_ZSTD.
Proof.
  assert (S : same_in_any_room store_lib); [|split; exact S].
  intros src d1 d2 n1 n2 _ _ _. cbn [store_lib c_compress]. destruct (zlen d1 <? zlen src + 1), (zlen d2 <? zlen src + 1); cbn [fst snd]; try discriminate.
  intros [= <-] [= <-]. replace (Z.to_nat (zlen src + 1)) with (S (length src)) by (unfold zlen; lia). cbn [firstn].
  now rewrite !firstn_app, !firstn_all, !Nat.sub_diag.
Qed.
