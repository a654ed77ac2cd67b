(** Facts about the codec benchmark (Bench.v). *)
From Verif Require Import Base BaseFacts Types Floats Codec Api Spec LibSpec Header Cdr Ros RosViz Mcap Bench.
From Verif Require Import BuildFacts ApiFacts RoundTrip CloudApi LocalFacts PropsStage1 PropsCloud PropsHeader PropsRos PropsPcl BenchSpec.
From Coq Require Import Znumtheory.
Open Scope Z_scope.
Open Scope list_scope.

(** *** FNV-1a *)
Definition fnv_step (h b : Z) : Z := u64 (Z.lxor h b * 1099511628211).
Lemma fnv_cons h b l : fnv1a h (b :: l) = fnv1a (fnv_step h b) l.
Proof. reflexivity. Qed.
Lemma fnv_app l : forall h m, fnv1a h (l ++ m) = fnv1a (fnv1a h l) m.
Proof. induction l as [|b l IH]; intros h m; [reflexivity|]. cbn [app]. rewrite !fnv_cons. apply IH. Qed.
Lemma hash_concat outs : forall h, hash_all h outs = fnv1a h (concat outs).
Proof. induction outs as [|x outs IH]; intros h; [reflexivity|]. cbn [hash_all concat]. rewrite fnv_app. apply IH. Qed.
Lemma lxor_range a b : 0 <= a < 18446744073709551616 -> 0 <= b < 18446744073709551616 -> 0 <= Z.lxor a b < 18446744073709551616.
Proof.
  intros Ha Hb. assert (0 <= Z.lxor a b) by (apply Z.lxor_nonneg; lia). split; [assumption|].
  destruct (Z.eq_dec (Z.lxor a b) 0) as [->|Hn]; [lia|]. change 18446744073709551616 with (2 ^ 64). apply Z.log2_lt_pow2; [lia|].
  assert (La : Z.log2 a < 64). { destruct (Z.eq_dec a 0) as [->|]; [cbn; lia|apply Z.log2_lt_pow2; [lia|change (2 ^ 64) with 18446744073709551616; lia]]. }
  assert (Lb : Z.log2 b < 64). { destruct (Z.eq_dec b 0) as [->|]; [cbn; lia|apply Z.log2_lt_pow2; [lia|change (2 ^ 64) with 18446744073709551616; lia]]. }
  pose proof (Z.log2_lxor a b ltac:(lia) ltac:(lia)). lia.
Qed.
Lemma lxor_cancel a b c d : Z.lxor a b = Z.lxor c d -> a = c -> b = d.
Proof. intros H ->. assert (E : Z.lxor c (Z.lxor c b) = Z.lxor c (Z.lxor c d)) by now rewrite H. now rewrite <- !Z.lxor_assoc, Z.lxor_nilpotent, !Z.lxor_0_l in E. Qed.
Lemma fnv_mul_inj x y : 0 <= x < 18446744073709551616 -> 0 <= y < 18446744073709551616 ->
  u64 (x * 1099511628211) = u64 (y * 1099511628211) -> x = y.
Proof.
  intros Hx Hy H. unfold u64 in H.
  assert (D : (18446744073709551616 | (x - y) * 1099511628211)).
  { exists (x * 1099511628211 / 18446744073709551616 - y * 1099511628211 / 18446744073709551616).
    pose proof (Z.div_mod (x * 1099511628211) 18446744073709551616 ltac:(lia)). pose proof (Z.div_mod (y * 1099511628211) 18446744073709551616 ltac:(lia)). lia. }
  rewrite Z.mul_comm in D. apply Gauss in D; [|apply Zgcd_1_rel_prime; vm_compute; reflexivity]. destruct D as (q & D). nia.
Qed.
Lemma fnv_step_range h b : 0 <= fnv_step h b < 18446744073709551616.
Proof. unfold fnv_step, u64. apply Z.mod_pos_bound. lia. Qed.
Lemma fnv_step_left h h' b : 0 <= h < 18446744073709551616 -> 0 <= h' < 18446744073709551616 -> is_byte b -> fnv_step h b = fnv_step h' b -> h = h'.
Proof.
  unfold is_byte. intros Hh Hh' Hb H. apply fnv_mul_inj in H; [|apply lxor_range; lia..]. rewrite (Z.lxor_comm h), (Z.lxor_comm h') in H. exact (lxor_cancel _ _ _ _ H eq_refl).
Qed.
Lemma fnv_step_right h b b' : 0 <= h < 18446744073709551616 -> is_byte b -> is_byte b' -> fnv_step h b = fnv_step h b' -> b = b'.
Proof. unfold is_byte. intros Hh Hb Hb' H. apply fnv_mul_inj in H; [|apply lxor_range; lia..]. exact (lxor_cancel _ _ _ _ H eq_refl). Qed.
Lemma fnv_range l : forall h, 0 <= h < 18446744073709551616 -> 0 <= fnv1a h l < 18446744073709551616.
Proof. induction l as [|b l IH]; intros h Hh; [exact Hh|]. rewrite fnv_cons. apply IH, fnv_step_range. Qed.
Lemma fnv_inj l : forall h h', bytes l -> 0 <= h < 18446744073709551616 -> 0 <= h' < 18446744073709551616 -> fnv1a h l = fnv1a h' l -> h = h'.
Proof.
  induction l as [|b l IH]; intros h h' Hl Hh Hh' H; [exact H|]. rewrite !fnv_cons in H. pose proof (Forall_inv Hl) as Hb. pose proof (Forall_inv_tail Hl) as Hl'.
  apply IH in H; [|assumption|apply fnv_step_range..]. exact (fnv_step_left _ _ _ Hh Hh' Hb H).
Qed.

(** *** The counters *)
Lemma leqb_true a b : leqb a b = true <-> a = b.
Proof. unfold leqb. destruct (list_eq_dec Z.eq_dec a b); split; congruence. Qed.
Lemma leqb_refl a : leqb a a = true.
Proof. now apply leqb_true. Qed.
Lemma seen_inc_get s t u : seen_get (seen_inc s t) u = if leqb t u then u64 (seen_get s t + 1) else seen_get s u.
Proof.
  induction s as [|[a n] s IH]; cbn [seen_inc seen_get].
  - destruct (leqb t u); reflexivity.
  - destruct (leqb a t) eqn:E; cbn [seen_get].
    + apply leqb_true in E. subst a. destruct (leqb t u); reflexivity.
    + destruct (leqb a u) eqn:E2; [|exact IH]. destruct (leqb t u) eqn:E3; [|reflexivity]. apply leqb_true in E2, E3. subst. rewrite leqb_refl in E. discriminate.
Qed.

(** *** Selection *)
Lemma filter_le {A} (g : A -> bool) l : (length (filter g l) <= length l)%nat.
Proof. induction l as [|x l IH]; [reflexivity|]. cbn [filter]. destruct (g x); cbn [length]; lia. Qed.
(** Message [m], after the messages [pre], is to be measured *)
Definition wanted (o : bench_options) (rec : recording) (pre : list message) (m : message) : bool :=
  match cloud_topic rec (m_chan m) with
  | None => false
  | Some t =>
      let k := topic_count rec t pre in
      ((bo_max o =? 0) || (k <? bo_max o)) && (k mod Z.max 1 (bo_every o) =? 0) &&
      match bench_parse o (m_data m) with Ok (Some _) => true | _ => false end
  end.
Definition chosen (o : bench_options) (rec : recording) (l : list message) (positions : list nat) : list message :=
  flat_map (fun p => match nth_error l p with Some m => if wanted o rec (firstn p l) m then [m] else [] | None => [] end) positions.

Section Facts.
  Variables (ft : float_text) (ops : float_ops) (L : libs) (ppc probe : nat).

  Lemma loop_chosen o rec l' : forall pre seen ebuf ms,
    (forall t, seen_get seen t = topic_count rec t pre) -> zlen (pre ++ l') < 18446744073709551616 ->
    bench_loop ft ops L ppc probe o rec seen ebuf l' = Ok ms -> map me_msg ms = chosen o rec (pre ++ l') (seq (length pre) (length l')).
  Proof.
    induction l' as [|m l' IH]; intros pre seen ebuf ms Hs Hz H; cbn [bench_loop] in H.
    { assert (ms = []) by congruence. subst. reflexivity. }
    assert (EP : pre ++ m :: l' = (pre ++ [m]) ++ l') by now rewrite <- app_assoc.
    assert (EL : S (length pre) = length (pre ++ [m])) by (rewrite app_length; cbn [length]; lia).
    unfold chosen. cbn [length seq flat_map]. rewrite nth_error_app2, Nat.sub_diag by lia. cbn [nth_error]. rewrite firstn_app, Nat.sub_diag, firstn_O, app_nil_r, firstn_all.
    fold (chosen o rec (pre ++ m :: l') (seq (S (length pre)) (length l'))). rewrite EP in *. rewrite EL. unfold wanted.
    assert (Hcnt : forall t, topic_count rec t (pre ++ [m]) = topic_count rec t pre + (if of_topic rec t m then 1 else 0)).
    { intros t. unfold topic_count. rewrite filter_app, zlen_app. cbn [filter]. destruct (of_topic rec t m); reflexivity. }
    destruct (cloud_topic rec (m_chan m)) as [t|] eqn:ET.
    2:{ cbn [app]. apply (IH (pre ++ [m]) seen ebuf ms); [|exact Hz|exact H]. intros t. rewrite Hcnt, Hs. unfold of_topic. rewrite ET. lia. }
    cbv zeta in H.
    assert (Hk : topic_count rec t pre < 18446744073709551615).
    { unfold topic_count. assert (zlen (filter (of_topic rec t) pre) <= zlen pre) by (unfold zlen; pose proof (filter_le (of_topic rec t) pre); lia). rewrite zlen_app in Hz. rewrite zlen_app in Hz. change (zlen [m]) with 1 in Hz. pose proof (zlen_nonneg l'). lia. }
    assert (Hk0 : 0 <= topic_count rec t pre) by (unfold topic_count; apply zlen_nonneg).
    assert (Hs' : forall u, seen_get (seen_inc seen t) u = topic_count rec u (pre ++ [m])).
    { intros u. rewrite seen_inc_get, Hcnt, !Hs. unfold of_topic. rewrite ET. destruct (leqb t u) eqn:E; [|lia]. apply leqb_true in E. subst u. unfold u64. apply Z.mod_small. lia. }
    assert (Hself : seen_get (seen_inc seen t) t = topic_count rec t pre + 1). { rewrite Hs', Hcnt. unfold of_topic. rewrite ET, leqb_refl. reflexivity. }
    rewrite Hself in H. replace (topic_count rec t pre + 1 - 1) with (topic_count rec t pre) in H by lia.
    specialize (IH (pre ++ [m]) (seen_inc seen t)).
    destruct (Z.eqb_spec (bo_max o) 0) as [E0|E0]; cbn [negb andb orb] in *.
    - destruct (Z.eqb_spec (topic_count rec t pre mod Z.max 1 (bo_every o)) 0) as [E1|E1]; cbn [negb andb] in *.
      + apply bind_ok in H. destruct H as (p & HP & H). rewrite HP. destruct p as [c|]; [|cbn [app]; exact (IH ebuf ms Hs' Hz H)].
        apply bind_ok in H. destruct H as (c' & HC & H). apply bind_ok in H. destruct H as ([enc ebuf'] & HE & H). apply bind_ok in H. destruct H as (s & HS & H). apply bind_ok in H. destruct H as (rest & HR & H).
        assert (ms = mkMeas m c' s :: rest) by congruence. subst ms. cbn [map me_msg app]. f_equal. exact (IH ebuf' rest Hs' Hz HR).
      + cbn [app]. exact (IH ebuf ms Hs' Hz H).
    - destruct (Z.ltb_spec (bo_max o) (topic_count rec t pre + 1)) as [E2|E2].
      + destruct (Z.ltb_spec (topic_count rec t pre) (bo_max o)) as [E3|E3]; [lia|]. cbn [andb app]. exact (IH ebuf ms Hs' Hz H).
      + destruct (Z.ltb_spec (topic_count rec t pre) (bo_max o)) as [E3|E3]; [|lia]. cbn [andb].
        destruct (Z.eqb_spec (topic_count rec t pre mod Z.max 1 (bo_every o)) 0) as [E1|E1]; cbn [negb andb] in *.
        * apply bind_ok in H. destruct H as (p & HP & H). rewrite HP. destruct p as [c|]; [|cbn [app]; exact (IH ebuf ms Hs' Hz H)].
          apply bind_ok in H. destruct H as (c' & HC & H). apply bind_ok in H. destruct H as ([enc ebuf'] & HE & H). apply bind_ok in H. destruct H as (s & HS & H). apply bind_ok in H. destruct H as (rest & HR & H).
          assert (ms = mkMeas m c' s :: rest) by congruence. subst ms. cbn [map me_msg app]. f_equal. exact (IH ebuf' rest Hs' Hz HR).
        * cbn [app]. exact (IH ebuf ms Hs' Hz H).
  Qed.

  (** *** One message *)
  Notation bench_ok := (BenchSpec.bench_ok ft ops ppc).
  Lemma grow_bytes n b : bytes b -> bytes (grow n b).
  Proof. intros H. unfold grow. destruct (_ <? _); [|exact H]. apply Forall_app. split; [exact H|apply zeros_bytes]. Qed.
  Lemma encode_step o c ebuf r ebuf' : libs_ok L -> bench_ok o c -> bytes ebuf -> bench_encode ft ops L ppc probe o ebuf c = Ok (r, ebuf') ->
    bytes ebuf' /\ forall enc, r = Some enc -> exists hdr e body, EncodeHeader ft (bench_info o c) HYaml = Ok hdr /\ bytes hdr /\
      encoder_of ops L ppc probe (bench_info o c) (Ok hdr) e /\ produces ops L ppc probe e (r_data c) hdr body /\ enc = hdr ++ body.
  Proof.
    intros HLi (Hw & Hh & Hlen & Hz & HES & HDS & HD & HY & HX & HB) Hb H. unfold bench_encode in H. cbv zeta in H. set (i := bench_info o c) in *.
    assert (HV : 0 <= i_version i < 256) by (destruct HY; lia).
    destruct (EncodeHeader ft i HYaml) as [hdr| |] eqn:EH.
    2:{ cbn [EncodeHeader] in EH. discriminate. }
    2:{ cbn [EncodeHeader] in EH. discriminate. }
    destruct (PointcloudEncoder i (Ok hdr)) as [e| |] eqn:EE; cbn [bind] in H; [|assert (r = None /\ ebuf' = ebuf) as [-> ->] by (split; congruence); split; [exact Hb|intros enc HEn; discriminate]|discriminate].
    destruct (i_step i =? 0); [discriminate|].
    destruct (MaxCompressedSize L ppc i (length (r_data c) / Z.to_nat (i_step i)) (zlen (e_hdr e))) as [mx| |]; cbn [bind] in H; [|assert (r = None /\ ebuf' = ebuf) as [-> ->] by (split; congruence); split; [exact Hb|intros enc HEn; discriminate]|discriminate].
    assert (HEo : encoder_of ops L ppc probe i (Ok hdr) e) by now constructor.
    destruct (encoder_of_ready _ _ _ _ _ _ _ HEo) as (HR & HI & Hhe & _). assert (Hh2 : hdr = e_hdr e) by congruence. clear Hhe.
    destruct HES as (H1 & H2 & H3 & H4). pose proof (limits_v5 _ _ H3) as Hv5. pose proof (header_bytes ft i hdr HV HB EH) as Hhb.
    destruct (encode_view ops L ppc probe e (r_data c) (grow mx ebuf) true) as [[r0 out] e'] eqn:EV. rewrite <- HI in H1, H2, H3, Hv5.
    assert (Hp : (0 < ppc)%nat) by apply H3. assert (Hhe : bytes (e_hdr e)) by now rewrite <- Hh2.
    destruct (encode_view_spec _ _ _ _ _ _ _ _ _ _ _ HR HLi H1 H2 H4 (grow_bytes mx _ Hb) Hhe Hp Hv5 EV) as (_ & _ & Hob & _).
    destruct r0 as [size| |]; [|assert (r = None /\ ebuf' = out) as [-> ->] by (split; congruence); split; [exact Hob|intros enc HEn; discriminate]|discriminate].
    assert (r = Some (firstn (Z.to_nat size) out) /\ ebuf' = out) as [-> ->] by (split; congruence). split; [exact Hob|]. intros enc HEn. assert (enc = firstn (Z.to_nat size) out) by congruence. subst enc.
    destruct (encode_view_chunks _ _ _ _ _ _ _ _ _ _ _ HR HLi H1 H2 H4 (grow_bytes mx _ Hb) Hhe Hp Hv5 EV) as (n & ms & bss & ps & _ & A & B & C).
    exists hdr, e, (concat (map frame ps)). split; [reflexivity|]. split; [exact Hhb|]. split; [exact HEo|]. rewrite <- Hh2 in *. split; [|exact A].
    left. exists (grow mx ebuf), true, size, out, e'. split; [now apply grow_bytes|]. split; [exact EV|]. split; [exact A|]. split; [rewrite zlen_app; lia|exact Hh2].
  Qed.

  (** Decoding a sample of cloud [c] over [mem] restores the cloud or throws *)
  Definition good (o : bench_options) (c : ros_cloud) (s : sample) : Prop :=
    zlen (sm_data s) < 1431260227 -> sm_need s = zlen (r_data c) /\
    forall mem buf' mem', length mem = length (r_data c) -> decode ops L ppc (sm_info s) (sm_data s) [] mem = Ok (buf', mem') ->
      restored ops (bench_info o c) (bench_info o c) (length (r_data c) / Z.to_nat (r_step c)) (r_data c) mem mem'.
  Lemma sample_good o c ebuf enc ebuf' s : libs_ok L -> bench_ok o c -> bytes ebuf -> bench_encode ft ops L ppc probe o ebuf c = Ok (Some enc, ebuf') ->
    bench_sample ft enc = Ok (Some s) -> good o c s.
  Proof.
    intros HLi HOK Hb HE HS HZ. destruct (encode_step o c ebuf _ ebuf' HLi HOK Hb HE) as [_ HP]. destruct (HP enc eq_refl) as (hdr & e & body & HH & Hhb & HEo & HPr & ->). clear HP.
    destruct HOK as (Hw & Hh & Hlen & Hz & HES & HDS & HD & HY & HX & HB). set (i := bench_info o c) in *.
    destruct (C30_yaml_header_exact ft i body HY HX) as (hdr' & HH' & HDH). assert (hdr' = hdr) by congruence. subst hdr'.
    unfold bench_sample in HS. rewrite HDH in HS. set (i1 := stored_yaml (i_fields i) i) in *.
    assert (Es : s = mkSample i1 body (u64 (u64 (i_width i1 * i_height i1) * i_step i1))) by congruence. subst s. cbn [sm_info sm_data sm_need] in *.
    change (i_width i1) with (r_width c). change (i_height i1) with (r_height c). change (i_step i1) with (r_step c).
    assert (Hpos : 0 < r_step c) by (destruct HES as ((Hpos & _) & _); exact Hpos).
    assert (Hwh : 0 <= r_width c * r_height c < 18446744073709551616) by nia.
    assert (Hn : zlen (r_data c) = Z.of_nat (length (r_data c) / Z.to_nat (r_step c)) * r_step c).
    { rewrite Nat2Z.inj_div, Z2Nat.id by lia. fold (zlen (r_data c)). rewrite Hlen. rewrite Z.div_mul by lia. reflexivity. }
    set (n := (length (r_data c) / Z.to_nat (r_step c))%nat) in *. assert (Hn2 : Z.of_nat n = r_width c * r_height c) by nia.
    split. { unfold u64. rewrite (Z.mod_small (r_width c * r_height c)) by lia. rewrite Hlen. apply Z.mod_small. lia. }
    intros mem buf' mem' Hm HDc.
    assert (Hdec : declares i1 n). { unfold declares. change (i_width i1) with (r_width c). change (i_height i1) with (r_height c). rewrite Hn2. apply Z.mod_small. lia. }
    assert (Hmem : Z.of_nat n * i_step i1 <= zlen mem). { change (i_step i1) with (r_step c). rewrite <- Hn. unfold zlen. rewrite Hm. lia. }
    destruct (C17_never_wrong ops L ppc probe i i1 hdr e (r_data c) hdr body n [] mem HLi Hhb HES HDS HD HEo HPr HZ Hn Hdec Hmem) as [(b1 & m1 & E1 & E2)|R]; [|congruence].
    assert (m1 = mem') by congruence. subst m1. exact E2.
  Qed.
  Lemma loop_good o rec l : forall seen ebuf ms, libs_ok L -> bytes ebuf -> bench_loop ft ops L ppc probe o rec seen ebuf l = Ok ms ->
    Forall (fun m => bench_ok o (me_cloud m)) ms ->
    Forall (fun m => (exists c, bench_parse o (m_data (me_msg m)) = Ok (Some c) /\ bench_cloud o c = Ok (me_cloud m)) /\ forall s, me_sample m = Some s -> good o (me_cloud m) s) ms.
  Proof.
    induction l as [|m l IH]; intros seen ebuf ms HLi Hb H HF; cbn [bench_loop] in H; [assert (ms = []) by congruence; subst; constructor|].
    destruct (cloud_topic rec (m_chan m)) as [t|]; [|exact (IH _ _ _ HLi Hb H HF)]. cbv zeta in H.
    destruct (negb (bo_max o =? 0) && _); [exact (IH _ _ _ HLi Hb H HF)|]. destruct (negb (_ =? 0)); [exact (IH _ _ _ HLi Hb H HF)|].
    apply bind_ok in H. destruct H as (p & HP & H). destruct p as [c|]; [|exact (IH _ _ _ HLi Hb H HF)].
    apply bind_ok in H. destruct H as (c' & HC & H). apply bind_ok in H. destruct H as ([enc ebuf'] & HE & H). apply bind_ok in H. destruct H as (s & HS & H). apply bind_ok in H. destruct H as (rest & HR & H).
    assert (ms = mkMeas m c' s :: rest) by congruence. subst ms. pose proof (Forall_inv HF) as H0. cbn [me_cloud] in H0. pose proof (Forall_inv_tail HF) as HF'.
    constructor; cbn [me_msg me_cloud me_sample].
    - split; [exists c; auto|]. intros s0 ->. destruct enc as [enc|]; [|discriminate]. exact (sample_good o c' ebuf enc ebuf' s0 HLi H0 Hb HE HS).
    - destruct (encode_step o c' ebuf enc ebuf' HLi H0 Hb HE) as [Hb' _]. exact (IH _ _ _ HLi Hb' HR HF').
  Qed.

  (** *** The fingerprint pass *)
  Lemma grow_length n b : 0 <= n -> (Z.to_nat n <= length (grow n b))%nat.
  Proof. intros Hn. unfold grow. destruct (Z.ltb_spec (zlen b) n); [rewrite app_length, repeat_length|]; unfold zlen in *; lia. Qed.
  Lemma replay_same o v1 z1 v2 z2 : forall ms1 ms2 dbuf outs1 outs2,
    map me_cloud ms1 = map me_cloud ms2 -> Forall kept ms1 -> Forall kept ms2 ->
    Forall (fun m => bench_ok (codec o v1 z1) (me_cloud m)) ms1 ->
    Forall (fun m => forall s, me_sample m = Some s -> good (codec o v1 z1) (me_cloud m) s) ms1 ->
    Forall (fun m => forall s, me_sample m = Some s -> good (codec o v2 z2) (me_cloud m) s) ms2 ->
    replay ops L ppc dbuf (samples ms1) = Ok outs1 -> replay ops L ppc dbuf (samples ms2) = Ok outs2 -> outs1 = outs2.
  Proof.
    induction ms1 as [|m1 ms1 IH]; intros [|m2 ms2] dbuf outs1 outs2 HM HK1 HK2 HO HG1 HG2 H1 H2; try discriminate HM; [cbn in H1, H2; congruence|].
    cbn [map] in HM. assert (HC : me_cloud m1 = me_cloud m2) by congruence. assert (HM' : map me_cloud ms1 = map me_cloud ms2) by congruence.
    pose proof (Forall_inv HK1) as (s1 & E1 & Z1). pose proof (Forall_inv HK2) as (s2 & E2 & Z2). cbn [samples] in H1, H2. rewrite E1 in H1. rewrite E2 in H2.
    pose proof (Forall_inv HG1 s1 E1 Z1) as (N1 & G1). pose proof (Forall_inv HG2 s2 E2 Z2) as (N2 & G2). pose proof (Forall_inv HO) as HO1. cbv beta in HO1.
    rewrite <- HC in *. set (c := me_cloud m1) in *. cbn [replay] in H1, H2. cbv zeta in H1, H2. rewrite N1 in H1. rewrite N2 in H2.
    pose proof (zlen_nonneg (r_data c)) as Hz0. pose proof (grow_length (zlen (r_data c)) dbuf Hz0) as HGl.
    apply bind_ok in H1. destruct H1 as ([b1 o1] & D1 & H1). apply bind_ok in H2. destruct H2 as ([b2 o2] & D2 & H2).
    apply bind_ok in H1. destruct H1 as (r1 & R1 & H1). apply bind_ok in H2. destruct H2 as (r2 & R2 & H2).
    set (mem := firstn (Z.to_nat (zlen (r_data c))) (grow (zlen (r_data c)) dbuf)) in *.
    assert (HLm : length mem = length (r_data c)). { unfold mem. rewrite firstn_length_le by exact HGl. unfold zlen. lia. }
    pose proof (G1 mem b1 o1 HLm D1) as T1. pose proof (G2 mem b2 o2 HLm D2) as T2.
    assert (EO : o1 = o2).
    { destruct HO1 as (_ & _ & _ & _ & _ & HDS & _). destruct HDS as (HS & HOl & _).
      apply (restored_unique ops (bench_info (codec o v1 z1) c) (bench_info (codec o v1 z1) c) _ (r_data c) mem o1 o2 (kinds_length _) eq_refl HS HOl T1). exact T2. }
    subst o2. assert (ER : r1 = r2). { exact (IH ms2 _ r1 r2 HM' (Forall_inv_tail HK1) (Forall_inv_tail HK2) (Forall_inv_tail HO) (Forall_inv_tail HG1) (Forall_inv_tail HG2) R1 R2). }
    congruence.
  Qed.
End Facts.
