(** C87: what each value costs. *)
From Verif Require Import Base BaseFacts Varint VarintFacts Types Floats Fields Codec V5 Api Spec LibSpec SeqSpec ShortSpec BytesSpec.
From Verif Require Import GorillaFacts FieldFacts WriteFacts CodecFacts BuildFacts RunFacts SectionFacts PaletteFacts V5Facts ChunkV5Facts Stage1Facts ApiFacts CloudFacts RoundTrip CloudRT LocalFacts SeqFacts ColumnFacts CloudApi SizeFacts ShortFacts BytesFacts Cases PropsField PropsColumn PropsStage1 PropsCloud PropsFit PropsSize PropsShort.

(** ** Clouds without adaptive integer sections: the size to the byte *)
Theorem C87_bytes : forall ops L ppc probe i hdr0 e cloud hdr body n,
  libs_ok L -> bytes hdr0 -> encode_side ppc i cloud -> encoder_of ops L ppc probe i (Ok hdr0) e -> produces ops L ppc probe e cloud hdr body ->
  ~ adaptive i -> i_comp i = COMP_NONE -> zlen cloud = Z.of_nat n * i_step i ->
  let fs := combine (i_fields i) (kinds i) in
  zlen body = 4 * Z.of_nat ((n + ppc - 1) / ppc) + cloud_bytes ops i ppc cloud fs n.
Proof.
  intros ops L ppc probe i hdr0 e cloud hdr body n HLi Hh HES HEo HPr HA HN Hlen. cbv zeta. change (combine (i_fields i) (kinds i)) with (fks i).
  destruct (produces_chunks _ _ _ _ _ _ _ _ _ _ HLi Hh HES HEo HPr) as (n' & ms & bss & ps & (HC1 & HC2 & HC3 & HC4 & HC5 & (mx & HC6)) & ->).
  destruct HES as (HL & HK & (Hp & Hp5 & _) & Hc).
  assert (n' = n). { destruct HL as (Hs & _). unfold zlen in Hlen. rewrite HC1 in Hlen. nia. } subst n'.
  assert (HU : UsesV5Codec i = false) by (destruct (UsesV5Codec i) eqn:E; [exfalso; apply HA, adaptive_v5, E|reflexivity]).
  assert (HPS : ps = bss). { clear - HC3 HN. induction HC3 as [|b p bs' ps' (H1 & _) _ IH]; [reflexivity|]. rewrite HN in H1. cbn [payload] in H1. congruence. }
  subst ps. clear HC3.
  replace (4 * Z.of_nat ((n + ppc - 1) / ppc)) with (Z.of_nat ((n + ppc - 1) / ppc) * (4 + 0)) by lia.
  enough (G : near true (zlen (concat (map frame bss))) (Z.of_nat ((n + ppc - 1) / ppc) * (4 + 0) + cloud_bytes ops i ppc cloud (fks i) n)) by (now apply G).
  apply (sum_frames true (fun c k bs => near true (zlen bs) (sumn (fun r => point_bytes ops i ppc cloud (fks i) (c * ppc + r)) k + 0)) ppc 0 (point_bytes ops i ppc cloud (fks i)) Hp (fun c k bs H => H) 0 n bss).
  eapply stage1_full; [|exact Hp|exact HC2]. cbn beta. intros c k bs Hk Hend _ HC. rewrite Z.add_0_r.
  unfold chunk_rel in HC. rewrite HU in HC. destruct HC as (es & HB & HC). destruct HC as (HE & _).
  rewrite (chunk_size ops i ppc cloud es (fks i) c k _ bs HL Hc (v4_serves i es HK HB) (fks_fields i HK) Hp ltac:(lia) ltac:(rewrite HC1; apply Nat.mul_le_mono_r; lia) HE). apply near_refl.
Qed.
Print Assumptions C87_bytes.

(** ** With adaptive integer sections: the other fields to the byte, the integers as in C86 *)
Lemma others_exact ops i ppc cloud mx : UsesV5Codec i = true -> encode_side ppc i cloud -> MaxSerializedPointSize i = Ok mx ->
  others_le ops i ppc cloud (point_bytes ops i ppc cloud (filter not_int (combine (i_fields i) (kinds i)))).
Proof.
  intros HU (HL & HK & (Hp & _) & Hc) Hm es afs c k rest o HB Hk Hlen HE.
  assert (EQ : filter not_int (combine (i_fields i) (kinds i)) = filter (fun fk => regular (f_type (fst fk))) (fks i)).
  { apply filter_ext. intros [f kk]. unfold not_int. cbn [fst]. destruct (f_type f); reflexivity. }
  rewrite EQ.
  rewrite (chunk_size ops i ppc cloud es _ c k rest o HL Hc (plan_serves i es afs HU HB)); auto; [lia|].
  apply Forall_forall. intros fk Hin. apply filter_In in Hin. pose proof (fks_fields i HK) as HF. rewrite Forall_forall in HF. apply HF, Hin.
Qed.
Theorem C87_progressions : forall ops L ppc probe i hdr0 e cloud hdr body n,
  libs_ok L -> bytes hdr0 -> encode_side ppc i cloud -> encoder_of ops L ppc probe i (Ok hdr0) e -> produces ops L ppc probe e cloud hdr body ->
  adaptive i -> i_comp i = COMP_NONE -> (32 <= ppc)%nat -> (32 <= probe)%nat -> zlen cloud = Z.of_nat n * i_step i ->
  (forall f, In f (int_fields i) -> progression i f cloud n) ->
  zlen body <= Z.of_nat ((n + ppc - 1) / ppc) * (4 + 31 * zlen (int_fields i)) + cloud_bytes ops i ppc cloud (filter not_int (combine (i_fields i) (kinds i))) n.
Proof.
  intros ops L ppc probe i hdr0 e cloud hdr body n HLi Hh HES HEo HPr HA HN H1 H2 H3 H4.
  apply (progressions_short ops L ppc probe i hdr0 e cloud hdr body n); auto.
  - intros mx Hmx. eapply others_exact; [now apply adaptive_v5|exact HES|exact Hmx].
  - pose proof (Nat.div_mod (n + ppc - 1) ppc ltac:(lia)). pose proof (Nat.mod_upper_bound (n + ppc - 1) ppc ltac:(lia)). nia.
Qed.
Print Assumptions C87_progressions.
Theorem C87_shape : forall ops L ppc probe i hdr0 e cloud hdr body n (cost : field -> Z),
  libs_ok L -> bytes hdr0 -> encode_side ppc i cloud -> encoder_of ops L ppc probe i (Ok hdr0) e -> produces ops L ppc probe e cloud hdr body ->
  adaptive i -> i_comp i = COMP_NONE -> (0 < n <= Nat.min probe ppc)%nat -> zlen cloud = Z.of_nat n * i_step i ->
  (forall f, In f (int_fields i) -> affordable i f cloud n (cost f)) ->
  zlen body <= 4 + fold_right (fun f s => cost f + s) 0 (int_fields i) + cloud_bytes ops i ppc cloud (filter not_int (combine (i_fields i) (kinds i))) n.
Proof.
  intros ops L ppc probe i hdr0 e cloud hdr body n cost HLi Hh HES HEo HPr HA HN H1 H2 H3.
  apply (shape_short ops L ppc probe i hdr0 e cloud hdr body n cost); auto.
  intros mx Hmx. eapply others_exact; [now apply adaptive_v5|exact HES|exact Hmx].
Qed.
Print Assumptions C87_shape.

(** ** Slowly varying fields: one byte per value *)
Lemma small_step d : -63 <= d <= 63 -> step_bytes d = 1.
Proof.
  intros H. unfold step_bytes. change (2 ^ 64) with 18446744073709551616. rewrite Z.mod_small by (destruct (d <? 0) eqn:E; lia).
  set (z := if d <? 0 then - 2 * d else 2 * d + 1). assert (1 <= z < 128) by (unfold z; destruct (d <? 0) eqn:E; lia).
  assert (Z.log2 z < 7) by (apply Z.log2_lt_pow2; [lia|change (2 ^ 7) with 128; lia]). pose proof (Z.log2_nonneg z). rewrite Z.div_small by lia. reflexivity.
Qed.
Lemma step_most d : step_bytes d <= 10.
Proof.
  unfold step_bytes. set (z := _ mod _). assert (0 <= z < 18446744073709551616) by (unfold z; change (2 ^ 64) with 18446744073709551616; apply Z.mod_pos_bound; lia).
  assert (Z.log2 z < 64). { destruct (Z.eq_dec z 0) as [-> | N]; [cbn; lia|]. apply Z.log2_lt_pow2; [lia|]. change (2 ^ 64) with 18446744073709551616. lia. }
  assert (Z.log2 z / 7 < 10) by (apply Z.div_lt_upper_bound; lia). lia.
Qed.
Lemma SizeOf_8 t : (SizeOf t <= 8)%nat.
Proof. destruct t; cbn; lia. Qed.
Lemma lowest_nonneg x : 0 <= lowest x.
Proof. unfold lowest. destruct (find _ _) as [b|] eqn:E; [|lia]. apply find_some in E. destruct E as [E _]. apply in_map_iff in E. destruct E as (k & <- & _). lia. Qed.
Lemma changed_range p c : 0 <= le_val p < 2 ^ 64 -> 0 <= le_val c < 2 ^ 64 -> 0 <= highest (changed p c) <= 63.
Proof.
  intros Hp Hc. pose proof (lxor_bound (le_val p) (le_val c) 64 ltac:(lia) Hp Hc) as H. fold (changed p c) in H. unfold highest. split; [apply Z.log2_nonneg|].
  destruct (Z.eq_dec (changed p c) 0) as [-> | N]; [cbn; lia|]. enough (Z.log2 (changed p c) < 64) by lia. apply Z.log2_lt_pow2; lia.
Qed.
Lemma window_range past : Forall (fun v => 0 <= le_val v < 2 ^ 64) past -> match window past with Some (hi, lo) => hi <= 63 /\ 0 <= lo | None => True end.
Proof.
  induction past as [|c past IH]; intros HF; [exact I|]. inversion HF as [|? ? H1 H2]; subst. specialize (IH H2). destruct past as [|p past]; [exact I|].
  pose proof (changed_range p c (Forall_inv H2) H1) as HR. pose proof (lowest_nonneg (changed p c)).
  change (window (c :: p :: past)) with (let x := changed p c in if x =? 0 then window (p :: past) else match window (p :: past) with Some (hi, lo) => if in_window x hi lo then Some (hi, lo) else Some (new_window x) | None => Some (new_window x) end). cbv zeta.
  destruct (_ =? 0); [exact IH|]. unfold new_window. destruct (window (p :: past)) as [[hi lo]|]; [destruct (in_window _ _ _)|]; lia.
Qed.
Lemma changed_most past c : Forall (fun v => 0 <= le_val v < 2 ^ 64) past -> 0 <= le_val c < 2 ^ 64 -> changed_bytes past c <= 10.
Proof.
  intros HF Hc. pose proof (window_range past HF) as HW. unfold changed_bytes. destruct past as [|p past]; [lia|].
  pose proof (changed_range p c (Forall_inv HF) Hc) as HR. pose proof (lowest_nonneg (changed p c)). unfold new_window, bits_to_bytes.
  assert (HB : forall n, n <= 77 -> (n + 7) / 8 <= 10) by (intros n Hn; assert ((n + 7) / 8 < 11) by (apply Z.div_lt_upper_bound; lia); lia).
  destruct (_ =? 0); [lia|]. destruct (window (p :: past)) as [[hi lo]|]; [destruct (in_window _ _ _)|]; apply HB; lia.
Qed.
Lemma fbytes_64 i f cloud j : bytes cloud -> (SizeOf (f_type f) <= 8)%nat -> 0 <= le_val (fbytes i f cloud j) < 2 ^ 64.
Proof.
  intros Hc Hs. pose proof (le_val_range (fbytes i f cloud j) ltac:(apply sub_bytes, Hc)) as H. split; [apply H|]. eapply Z.lt_le_trans; [apply H|].
  change (2 ^ 64) with (256 ^ 8). apply Z.pow_le_mono_r; [lia|]. unfold fbytes, sub, zlen. rewrite firstn_length. lia.
Qed.
Lemma gentle_point ops i ppc cloud fs n : bytes cloud -> gentle ops i ppc cloud fs n -> forall j, (j < n)%nat ->
  point_bytes ops i ppc cloud fs j <= unit_bytes i fs + (if (j mod ppc =? 0)%nat then 9 * zlen fs else 0).
Proof.
  intros Hcb HG j Hj. unfold gentle in HG.
  assert (G : forall l, incl l fs -> point_bytes ops i ppc cloud l j <= unit_bytes i l + (if (j mod ppc =? 0)%nat then 9 * zlen l else 0)).
  { induction l as [|[f k] l IH]; intros Hin; [unfold point_bytes, unit_bytes, zlen; cbn [fold_right length]; destruct (j mod ppc =? 0)%nat; lia|]. unfold point_bytes, unit_bytes in *. cbn [fold_right fst snd].
    specialize (IH (fun x Hx => Hin x (or_intror Hx))). change (zlen ((f, k) :: l)) with (Z.of_nat (S (length l))). unfold zlen in IH. rewrite Nat2Z.inj_succ.
    match goal with |- ?x + _ <= (?u + _) + _ => enough (HX : x <= u + (if (j mod ppc =? 0)%nat then 9 else 0)) end.
    { revert IH HX. destruct (j mod ppc =? 0)%nat; lia. }
    clear IH. unfold value_bytes. destruct (style_of i f k) as [c| |] eqn:ES; [destruct (_ =? 0)%nat; lia| |match goal with |- changed_bytes ?p ?c <= _ => pose proof (changed_most p c ltac:(apply Forall_forall; intros ? HX; apply in_map_iff in HX; destruct HX as (? & <- & _); apply fbytes_64; [exact Hcb|apply SizeOf_8]) ltac:(apply fbytes_64; [exact Hcb|apply SizeOf_8])); destruct (_ =? 0)%nat; lia end].
    destruct (number ops (f_type f) k (fbytes i f cloud j)) as [v|] eqn:EN; [|destruct (_ =? 0)%nat; lia].
    destruct (Nat.eqb_spec (j mod ppc) 0) as [E0|E0]; [match goal with |- step_bytes ?d <= _ => pose proof (step_most d); lia end|].
    destruct (HG f k j v (Hin _ (or_introl eq_refl)) ES Hj E0 EN) as (p & EP & HD). destruct (j mod ppc)%nat as [|m]; [congruence|]. cbn [seq map]. rewrite Nat.sub_0_r, EP.
    assert (HW : wrap k (v - p) = v - p) by (destruct k; cbn [wrap]; [apply s64_id|apply s64_id|apply s64_id|apply s32_id]; lia). rewrite HW, small_step by lia. lia. }
  apply G. intros x Hx; exact Hx.
Qed.
Lemma gentle_cloud ops i ppc cloud fs n : (0 < ppc)%nat -> bytes cloud -> gentle ops i ppc cloud fs n ->
  cloud_bytes ops i ppc cloud fs n <= Z.of_nat n * unit_bytes i fs + Z.of_nat ((n + ppc - 1) / ppc) * (9 * zlen fs).
Proof.
  intros Hp Hcb HG. pose proof (gentle_point ops i ppc cloud fs n Hcb HG) as HP. change (cloud_bytes ops i ppc cloud fs n) with (sumn (point_bytes ops i ppc cloud fs) n).
  assert (G : forall m, (m <= n)%nat -> sumn (point_bytes ops i ppc cloud fs) m <= Z.of_nat m * unit_bytes i fs + Z.of_nat ((m + ppc - 1) / ppc) * (9 * zlen fs)).
  { induction m as [|m IH]; intros Hm; [rewrite Nat.add_0_l, Nat.div_small by lia; cbn; lia|]. rewrite sumn_S. specialize (IH ltac:(lia)). specialize (HP m ltac:(lia)).
    assert (E : Z.of_nat ((S m + ppc - 1) / ppc) = Z.of_nat ((m + ppc - 1) / ppc) + (if (m mod ppc =? 0)%nat then 1 else 0)).
    { pose proof (Nat.div_mod m ppc ltac:(lia)) as HD. pose proof (Nat.mod_upper_bound m ppc ltac:(lia)) as HB. set (q := (m / ppc)%nat) in *. set (r := (m mod ppc)%nat) in *.
      replace (S m + ppc - 1)%nat with (r + (q + 1) * ppc)%nat by nia. rewrite Nat.div_add, (Nat.div_small r) by lia.
      destruct (Nat.eqb_spec r 0) as [E0|E0].
      - replace (m + ppc - 1)%nat with (ppc - 1 + q * ppc)%nat by nia. rewrite Nat.div_add, (Nat.div_small (ppc - 1)) by lia. lia.
      - replace (m + ppc - 1)%nat with (r - 1 + (q + 1) * ppc)%nat by nia. rewrite Nat.div_add, (Nat.div_small (r - 1)) by lia. lia. }
    rewrite E. rewrite Nat2Z.inj_succ. pose proof (zlen_nonneg fs). destruct (m mod ppc =? 0)%nat; nia. }
  apply G. lia.
Qed.
Theorem C87_gentle : forall ops L ppc probe i hdr0 e cloud hdr body n,
  libs_ok L -> bytes hdr0 -> encode_side ppc i cloud -> encoder_of ops L ppc probe i (Ok hdr0) e -> produces ops L ppc probe e cloud hdr body ->
  ~ adaptive i -> i_comp i = COMP_NONE -> zlen cloud = Z.of_nat n * i_step i ->
  let fs := combine (i_fields i) (kinds i) in
  gentle ops i ppc cloud fs n -> zlen body <= Z.of_nat ((n + ppc - 1) / ppc) * (4 + 9 * zlen fs) + Z.of_nat n * unit_bytes i fs.
Proof.
  intros ops L ppc probe i hdr0 e cloud hdr body n HLi Hh HES HEo HPr HA HN Hlen fs HG.
  pose proof (C87_bytes ops L ppc probe i hdr0 e cloud hdr body n HLi Hh HES HEo HPr HA HN Hlen) as H. cbv zeta in H. fold fs in H.
  pose proof (gentle_cloud ops i ppc cloud fs n ltac:(apply HES) ltac:(apply HES) HG). lia.
Qed.
Print Assumptions C87_gentle.

(** ** A coarser resolution can make the stream longer *)
(** The same field with resolutions 1 and 1.001, values 200.6 and 264.49 in turn: steps of 63
    (201 to 264) become steps of 64 (200 to 264). *)
Definition one32 (r : Z) : info := mkInfo [fld 120 0 FLOAT32 (Some r)] 20 1 4 ENC_LOSSY [] COMP_NONE false 5.
Definition swing : list Z := concat (repeat (le_bytes 4 1128831386 ++ le_bytes 4 1132740280) 10).
Lemma new_body i cloud e : PointcloudEncoder i (Ok []) = Ok e -> fst (fst (encode_vec sse_ops store_libs (Z.to_nat 32768) (Z.to_nat 4096) e cloud [])) = Ok (zlen (snd (fst (encode_vec sse_ops store_libs (Z.to_nat 32768) (Z.to_nat 4096) e cloud [])))) ->
  e_hdr e = [] -> encoder_of sse_ops store_libs (Z.to_nat 32768) (Z.to_nat 4096) i (Ok []) e /\
  produces sse_ops store_libs (Z.to_nat 32768) (Z.to_nat 4096) e cloud [] (snd (fst (encode_vec sse_ops store_libs (Z.to_nat 32768) (Z.to_nat 4096) e cloud []))).
Proof.
  intros HE HT Hh. split; [now apply eo_new|]. right. destruct (encode_vec sse_ops store_libs (Z.to_nat 32768) (Z.to_nat 4096) e cloud []) as [[r out] e'] eqn:E. cbn [fst snd] in *.
  exists [], (zlen out), out, e'. split; [constructor|]. split; [rewrite E, HT; reflexivity|]. split; [reflexivity|]. split; [reflexivity|now symmetry].
Qed.
Theorem C87_coarser_refuted : exists r1 r2 cloud e1 e2 body1 body2,
  0 < r1 < r2 /\ r2 < 2139095040 /\ zlen cloud = 20 * 4 /\
  encoder_of sse_ops store_libs (Z.to_nat 32768) (Z.to_nat 4096) (one32 r1) (Ok []) e1 /\ produces sse_ops store_libs (Z.to_nat 32768) (Z.to_nat 4096) e1 cloud [] body1 /\
  encoder_of sse_ops store_libs (Z.to_nat 32768) (Z.to_nat 4096) (one32 r2) (Ok []) e2 /\ produces sse_ops store_libs (Z.to_nat 32768) (Z.to_nat 4096) e2 cloud [] body2 /\
  zlen body1 = 25 /\ zlen body2 = 44.
Proof.
  pose (enc r := match PointcloudEncoder (one32 r) (Ok []) with Ok e => e | _ => e64 end). pose (out r := snd (fst (encode_vec sse_ops store_libs (Z.to_nat 32768) (Z.to_nat 4096) (enc r) swing []))).
  exists 1065353216, 1065361605, swing, (enc 1065353216), (enc 1065361605), (out 1065353216), (out 1065361605).
  split; [lia|]. split; [lia|]. split; [reflexivity|].
  destruct (new_body (one32 1065353216) swing (enc 1065353216)) as [A1 A2]; [reflexivity|vm_compute; reflexivity|reflexivity|].
  destruct (new_body (one32 1065361605) swing (enc 1065361605)) as [B1 B2]; [reflexivity|vm_compute; reflexivity|reflexivity|].
  split; [exact A1|]. split; [exact A2|]. split; [exact B1|]. split; [exact B2|]. split; vm_compute; reflexivity.
Qed.
Print Assumptions C87_coarser_refuted.

(** The hypotheses are met. *)
Example C87_bytes_case : let i := scan 4 3 COMP_NONE in
  encode_side 2 i scan_cloud /\ ~ adaptive i /\ zlen scan_cloud = Z.of_nat 3 * i_step i /\
  exists e body, encoder_of sse_ops store_libs 2 4 i (Ok []) e /\ produces sse_ops store_libs 2 4 e scan_cloud [] body /\
    zlen body = 71 /\ 4 * Z.of_nat ((3 + 2 - 1) / 2) + cloud_bytes sse_ops i 2 scan_cloud (combine (i_fields i) (kinds i)) 3 = 71.
Proof.
  cbv zeta. split.
  { split; [apply scan_layout|]. split; [exact I|]. split; [|apply scan_bytes]. split; [lia|]. split; [lia|vm_compute; discriminate]. }
  split; [intros (H & _); vm_compute in H; apply H; reflexivity|]. split; [reflexivity|].
  pose (e := match PointcloudEncoder (scan 4 3 COMP_NONE) (Ok []) with Ok e => e | _ => e64 end).
  exists e, (skipn 0 (snd (fst (encode_vec sse_ops store_libs 2 4 e scan_cloud [])))).
  destruct (new_produces sse_ops store_libs 2 4 (scan 4 3 COMP_NONE) [] e scan_cloud) as [H1 H2]; [vm_compute; reflexivity|vm_compute; reflexivity|].
  split; [exact H1|]. split; [exact H2|]. split; vm_compute; reflexivity.
Qed.
(** Doubles 1.0, 1.5, 1.25, 1.25, 1.1 and 1.1 with bit 10 changed, without resolution: a first value, a new window (bits 51 to 51), a wider one (51 to 50), a repetition, a wide one (50 to 1), and a change inside it. *)
Definition doubles : list Z := flat_map (le_bytes 8) [4607182418800017408; 4609434218613702656; 4608308318706860032; 4608308318706860032; 4607632778762754458; 4607632778762755482].
Example C87_window_case : let i := mkInfo [fld 116 0 FLOAT64 None] 6 1 8 ENC_LOSSLESS [] COMP_NONE false 5 in let fs := combine (i_fields i) (kinds i) in
  encode_side 8 i doubles /\ ~ adaptive i /\ zlen doubles = Z.of_nat 6 * i_step i /\ map (point_bytes sse_ops i 8 doubles fs) (seq 0 6) = [8; 2; 2; 1; 8; 7] /\
  exists e body, encoder_of sse_ops store_libs 8 4 i (Ok []) e /\ produces sse_ops store_libs 8 4 e doubles [] body /\ zlen body = 4 + (8 + 2 + 2 + 1 + 8 + 7).
Proof.
  set (i := mkInfo [fld 116 0 FLOAT64 None] 6 1 8 ENC_LOSSLESS [] COMP_NONE false 5). cbv zeta. split.
  { split; [split; [reflexivity|repeat constructor; cbn; lia]|]. split; [exact I|]. split; [|apply bytesb; vm_compute; reflexivity]. split; [lia|]. split; [lia|vm_compute; discriminate]. }
  split; [intros (_ & H & _); discriminate H|]. split; [reflexivity|]. split; [vm_compute; reflexivity|].
  pose (e := match PointcloudEncoder i (Ok []) with Ok e => e | _ => e64 end).
  exists e, (skipn 0 (snd (fst (encode_vec sse_ops store_libs 8 4 e doubles [])))).
  destruct (new_produces sse_ops store_libs 8 4 i [] e doubles) as [H1 H2]; [vm_compute; reflexivity|vm_compute; reflexivity|].
  split; [exact H1|]. split; [exact H2|]. vm_compute; reflexivity.
Qed.
(** A rotating scanner: x, y, z within 63 millimetres of the point before. *)
Definition walk : list Z := flat_map (fun r => le_bytes 4 (1065353216 + 1000 * r) ++ le_bytes 4 (1073741824 + 2000 * r) ++ le_bytes 4 0) [0;1;2;3;4].
Example C87_gentle_case : let i := mkInfo (firstn 3 scan_fields) 5 1 12 ENC_LOSSY [] COMP_NONE false 5 in let fs := combine (i_fields i) (kinds i) in
  encode_side 3 i walk /\ ~ adaptive i /\ zlen walk = Z.of_nat 5 * i_step i /\ gentle sse_ops i 3 walk fs 5 /\
  exists e body, encoder_of sse_ops store_libs 3 4 i (Ok []) e /\ produces sse_ops store_libs 3 4 e walk [] body /\
    zlen body = 27 /\ Z.of_nat ((5 + 3 - 1) / 3) * (4 + 9 * zlen fs) + Z.of_nat 5 * unit_bytes i fs = 77.
Proof.
  set (i := mkInfo (firstn 3 scan_fields) 5 1 12 ENC_LOSSY [] COMP_NONE false 5). cbv zeta. split.
  { split; [split; [reflexivity|repeat constructor; cbn; lia]|]. split; [exact I|]. split; [|apply bytesb; vm_compute; reflexivity]. split; [lia|]. split; [lia|vm_compute; discriminate]. }
  split; [intros (_ & _ & H); apply H; reflexivity|]. split; [reflexivity|]. split.
  - intros f k j v Hin HS Hj Hm HN.
    assert (HA : forallb (fun fk => forallb (fun j => match number sse_ops (f_type (fst fk)) (snd fk) (fbytes i (fst fk) walk j), number sse_ops (f_type (fst fk)) (snd fk) (fbytes i (fst fk) walk (j - 1)) with Some v, Some p => (-63 <=? v - p) && (v - p <=? 63) | None, _ => true | _, _ => false end) (seq 0 5)) (combine (i_fields i) (kinds i)) = true) by (vm_compute; reflexivity).
    rewrite forallb_forall in HA. specialize (HA _ Hin). cbn [fst snd] in HA. rewrite forallb_forall in HA. specialize (HA j ltac:(apply in_seq; lia)). rewrite HN in HA.
    destruct (number sse_ops (f_type f) k (fbytes i f walk (j - 1))) as [p|]; [|discriminate]. exists p. split; [reflexivity|]. lia.
  - pose (e := match PointcloudEncoder i (Ok []) with Ok e => e | _ => e64 end).
    exists e, (skipn 0 (snd (fst (encode_vec sse_ops store_libs 3 4 e walk [])))).
    destruct (new_produces sse_ops store_libs 3 4 i [] e walk) as [H1 H2]; [vm_compute; reflexivity|vm_compute; reflexivity|].
    split; [exact H1|]. split; [exact H2|]. split; vm_compute; reflexivity.
Qed.
