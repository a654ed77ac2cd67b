(** Properties C18 and C20: single chunks of an encoded cloud, and compressed clouds the
    decoder cannot read. *)
From Verif Require Import Base BaseFacts Varint VarintFacts Types Floats Fields Codec V5 Api Spec LibSpec SeqSpec.
From Verif Require Import GorillaFacts FieldFacts WriteFacts CodecFacts BuildFacts RunFacts SectionFacts PaletteFacts V5Facts ChunkV5Facts Stage1Facts ApiFacts CloudFacts RoundTrip CloudRT LocalFacts SeqFacts ColumnFacts CloudApi Cases PropsField PropsColumn PropsStage1 PropsCloud PropsSize PropsFrame.

(** * C20: every chunk decodes on its own *)
Lemma stage1_nth P ppc c left bss : (0 < ppc)%nat -> stage1 P ppc c left bss -> forall q bs, nth_error bss q = Some bs ->
  (q * ppc < left)%nat /\ P (c + q)%nat (Nat.min (left - q * ppc) ppc) bs.
Proof.
  intros Hp H. induction H as [c|c left bs bss Hl HP H IH]; intros q b Hq; [destruct q; discriminate|].
  destruct q as [|q]; cbn [nth_error] in Hq.
  - injection Hq as <-. rewrite Nat.mul_0_l, Nat.sub_0_r, Nat.add_0_r. auto.
  - destruct (IH q b Hq) as [H1 H2]. split; [lia|]. replace (c + S q)%nat with (S c + q)%nat by lia.
    replace (Nat.min (left - S q * ppc) ppc) with (Nat.min (left - Nat.min left ppc - q * ppc) ppc) by lia. exact H2.
Qed.
Lemma chunk_rel_shift ops i ppc cloud ms c k bs : chunk_rel ops i ppc cloud ms c k bs -> chunk_rel ops i ppc (skipn (c * ppc * Z.to_nat (i_step i)) cloud) ms 0 k bs.
Proof.
  unfold chunk_rel, v4_chunk, v5_chunk. cbn [Nat.mul Nat.add skipn].
  assert (E : forall step, skipn (k * step) (skipn (c * ppc * step) cloud) = skipn ((c * ppc + k) * step) cloud) by (intros; rewrite skipn_skipn; f_equal; lia).
  rewrite E. auto.
Qed.
Lemma fbytes_shift i f cloud m j : layout_ok i -> In f (i_fields i) -> fbytes i f (skipn (m * Z.to_nat (i_step i)) cloud) j = fbytes i f cloud (m + j).
Proof.
  intros [Hs HL] Hf. rewrite Forall_forall in HL. specialize (HL f Hf). unfold fbytes. rewrite sub_skipn by nia. f_equal. nia.
Qed.
Lemma deltas_shift ops i ppc cloud c : layout_ok i -> (0 < ppc)%nat -> deltas_ok ops i ppc cloud -> deltas_ok ops i ppc (skipn (c * ppc * Z.to_nat (i_step i)) cloud).
Proof.
  intros HL Hp HD. unfold deltas_ok in *. rewrite Forall_forall in *. intros fk Hfk j v Hj Hv. pose proof Hfk as Hf. destruct fk as [f k]. apply in_combine_l in Hf. cbn [fst snd] in *.
  pose proof (proj1 HL) as Hs. rewrite fbytes_shift in Hv by assumption. rewrite (fbytes_shift i f cloud) by assumption.
  specialize (HD (f, k) Hfk (c * ppc + j)%nat v). cbn [fst snd] in HD.
  rewrite Nat.add_comm, Nat.mod_add in HD by lia. rewrite Nat.add_comm in HD.
  destruct (Nat.eqb_spec (j mod ppc) 0) as [Hm|Hm].
  - apply HD; [|exact Hv]. unfold zlen in *. rewrite skipn_length in Hj. nia.
  - assert (Hj0 : j <> O) by (intros ->; apply Hm, Nat.mod_0_l; lia).
    replace (c * ppc + (j - 1))%nat with (c * ppc + j - 1)%nat by lia. apply HD; [|exact Hv]. unfold zlen in *. rewrite skipn_length in Hj. nia.
Qed.

(** [q]: chunk index; the decoder is told that the cloud has only the points of that chunk
    (at most [ppc], fewer in the last one). *)
Theorem C20_chunk_alone : forall ops L ppc probe i hdr0 e cloud hdr body n,
  libs_ok L -> bytes hdr0 -> encode_side ppc i cloud -> deltas_ok ops i ppc cloud ->
  encoder_of ops L ppc probe i (Ok hdr0) e -> produces ops L ppc probe e cloud hdr body -> zlen cloud = Z.of_nat n * i_step i ->
  exists ps, body = concat (map frame ps) /\ zlen ps = ceil_div (Z.of_nat n) (Z.of_nat ppc) /\
  forall q p, nth_error ps q = Some p -> let k := Nat.min ppc (n - q * ppc) in (0 < k)%nat /\
  forall i' buf mem, decode_side i i' -> declares i' k -> Z.of_nat k * i_step i' <= zlen mem ->
    zlen (frame p) < 1431260227 ->
    i_comp i = COMP_NONE \/ (worst_chunk i (Z.of_nat k) <= Z.of_nat k * i_step i' <= 2147483647) ->
    exists buf' mem', decode ops L ppc i' (frame p) buf mem = Ok (buf', mem') /\
      restored ops i i' k (skipn (q * ppc * Z.to_nat (i_step i)) cloud) mem mem'.
Proof.
  intros ops L ppc probe i hdr0 e cloud hdr body n HLi Hh HES HD HEo HPr Hlen.
  destruct (produces_chunks _ _ _ _ _ _ _ _ _ _ HLi Hh HES HEo HPr) as (n' & ms & bss & ps & HC & ->).
  assert (n' = n). { destruct HC as (HC & _). destruct HES as ((Hs & _) & _). unfold zlen in Hlen. rewrite HC in Hlen. nia. } subst n'.
  exists ps. split; [reflexivity|]. destruct HC as (Hl & HS & HP & _ & HP5 & HM). destruct HES as (HL & HK & HCl & Hb). pose proof (limits_v5 _ _ HCl) as Hv5. destruct HCl as (Hp & _).
  assert (HPl : length bss = length ps) by (clear - HP; induction HP; cbn; auto).
  split. { rewrite <- count_ceil by exact Hp. rewrite <- (stage1_length _ _ _ _ _ Hp HS). unfold zlen. now rewrite HPl. }
  intros q p Hq k. destruct (nth_error bss q) as [bs|] eqn:Hbs.
  2:{ apply nth_error_None in Hbs. assert (nth_error ps q <> None) by congruence. apply nth_error_Some in H. lia. }
  destruct (stage1_nth _ _ _ _ _ Hp HS q bs Hbs) as [Hq0 HR]. cbn [Nat.add] in HR. replace (Nat.min (n - q * ppc) ppc) with k in HR by (unfold k; lia).
  assert (Hk : (0 < k <= ppc)%nat) by (unfold k; lia). split; [lia|].
  intros i' buf mem (HSf & HO & HCo & HRs & HN & Hcm & Hver) Hdec Hm Hz Hcap.
  assert (Hpp : payload L (i_comp i) bs p /\ bytes p /\ zlen p <= UINT32_MAX).
  { clear - HP Hq Hbs. revert q Hq Hbs. induction HP as [|b p0 bss ps H _ IH]; intros [|q] Hq Hbs; cbn in *; try discriminate; [injection Hq as <-; injection Hbs as <-; exact H|eauto]. }
  set (cl := skipn (q * ppc * Z.to_nat (i_step i)) cloud).
  assert (HSt : stage1 (chunk_rel ops i ppc cl ms) ppc 0 k [bs]).
  { constructor; [lia| |]; rewrite Nat.min_l by lia; [apply chunk_rel_shift, HR|rewrite Nat.sub_diag; constructor]. }
  destruct (decode_chunks ops L ppc i i' cl k ms HK HSf HL HO HCo HRs (fun _ => ints_no_skip i' HN) Hv5 (bytes_skipn _ _ Hb)) with (bss := [bs]) (ps := [p]) (data := frame p) (buf := buf) (mem := mem) as [H1 _]; auto.
  - unfold cl. rewrite skipn_length, Hl. unfold k. nia.
  - apply deltas_shift; assumption.
  - intros Hk0. lia.
  - constructor; [rewrite Hcm; exact Hpp|constructor].
  - cbn [map concat]. now rewrite app_nil_r.
  - replace (frame p) with (concat (map frame [p])) in Hz |- * by (cbn [map concat]; apply app_nil_r). apply frames_no_magic; [|exact Hz]. constructor; [apply Hpp|constructor].
  - apply H1. constructor; [|constructor]. rewrite Hcm. destruct Hcap as [-> |[Hc1 Hc2]]; [exact I|].
    rewrite (dec_cap_declared i' k Hdec) by (try lia; apply HO). pose proof (chunk_worst ops i ppc cloud ms q k bs HK HM ltac:(lia) HR) as HW.
    unfold fits. destruct (i_comp i); unfold INT_MAX; try exact I; try lia. destruct Hpp as [[] _].
Qed.
Print Assumptions C20_chunk_alone.
(** The scan of C17 in chunks of two points: the second chunk, one point, on its own, with
    the point decoded into a buffer of 0xFF. *)
Example C20_case : let i := scan 5 3 COMP_NONE in let i' := scan 5 1 COMP_NONE in
  decode_side i i' /\ declares i' (Nat.min 2 (3 - 1 * 2)) /\
  exists e body ps p, produces sse_ops store_libs 2 4096 e scan_cloud [] body /\ encoder_of sse_ops store_libs 2 4096 i (Ok []) e /\
    body = concat (map frame ps) /\ nth_error ps 1 = Some p /\
    match decode sse_ops store_libs 2 i' (frame p) [] (repeat 255 32) with
    | Ok (_, mem') => sub 12 4 mem' = [244;1;255;255] /\ sub 16 16 mem' = sub 80 16 scan_cloud
    | _ => False
    end.
Proof.
  cbv zeta. split.
  { split; [apply scan_same|]. split; [apply scan_out_layout|]. split; [apply scan_consistent|]. split; [apply scan_resolutions|]. split; [|split; [reflexivity|cbn; lia]]. repeat constructor. }
  split; [reflexivity|].
  pose (e := match PointcloudEncoder (scan 5 3 COMP_NONE) (Ok []) with Ok e => e | _ => mkEnc (scan 5 3 COMP_NONE) [] [] [] end).
  pose (body := skipn 0 (snd (fst (encode_vec sse_ops store_libs 2 4096 e scan_cloud [])))).
  destruct (new_produces sse_ops store_libs 2 4096 (scan 5 3 COMP_NONE) [] e scan_cloud) as [H1 H2]; [vm_compute; reflexivity|vm_compute; reflexivity|].
  pose (s := Z.to_nat (le_val (firstn 4 body))).
  exists e, body, [firstn s (skipn 4 body); skipn (s + 8) body], (skipn (s + 8) body). split; [exact H2|]. split; [exact H1|].
  split; [vm_compute; reflexivity|]. split; [reflexivity|]. vm_compute. repeat split.
Qed.

(** * C18: compressed clouds that cannot be decoded *)
Definition lib_of (L : libs) (opt : comp_opt) : codec_lib := match opt with COMP_LZ4 => lz4 L | _ => zstd L end.
(** With LZ4 or ZSTD, an encoded cloud decodes exactly when every chunk decompresses into
    width * height * point_step bytes; otherwise decode throws. *)
Theorem C18_characterised : forall ops L ppc probe i i' hdr0 e cloud hdr body n buf mem,
  libs_ok L -> bytes hdr0 -> encode_side ppc i cloud -> decode_side i i' -> deltas_ok ops i ppc cloud ->
  encoder_of ops L ppc probe i (Ok hdr0) e -> produces ops L ppc probe e cloud hdr body ->
  i_comp i = COMP_LZ4 \/ i_comp i = COMP_ZSTD -> zlen body < 1431260227 ->
  zlen cloud = Z.of_nat n * i_step i -> declares i' n -> Z.of_nat n * i_step i' <= zlen mem -> Z.of_nat n * i_step i' <= 2147483647 ->
  exists ps, body = concat (map frame ps) /\
  (Forall (fun p => c_decompress (lib_of L (i_comp i)) p (Z.of_nat n * i_step i') <> None) ps ->
     exists buf' mem', decode ops L ppc i' body buf mem = Ok (buf', mem') /\ restored ops i i' n cloud mem mem') /\
  (Exists (fun p => c_decompress (lib_of L (i_comp i)) p (Z.of_nat n * i_step i') = None) ps -> decode ops L ppc i' body buf mem = Throw).
Proof.
  intros ops L ppc probe i i' hdr0 e cloud hdr body n buf mem HLi Hh HES HDS HD HEo HPr HN Hz Hlen Hdec Hm Hmax.
  destruct (produces_chunks _ _ _ _ _ _ _ _ _ _ HLi Hh HES HEo HPr) as (n' & ms & bss & ps & HC & ->).
  assert (n' = n). { destruct HC as (HC & _). destruct HES as ((Hs & _) & _). unfold zlen in Hlen. rewrite HC in Hlen. nia. } subst n'.
  destruct (chunks_decode ops L ppc probe i i' cloud n ms bss ps buf mem HES HDS HD HC (encoder_v4 _ _ _ _ _ _ _ HEo) Hz Hdec Hm) as [H1 H2].
  assert (HO : 0 < i_step i') by (destruct HDS as (_ & (HO & _) & _); exact HO).
  rewrite (dec_cap_declared i' n Hdec) in H1, H2 by lia. set (cap := Z.of_nat n * i_step i') in *. exists ps. split; [reflexivity|].
  destruct HC as (_ & _ & HPs & _).
  assert (HF : Forall2 (fun bs p => (c_decompress (lib_of L (i_comp i)) p cap <> None <-> fits (i_comp i) bs cap)) bss ps).
  { clear - HPs HN Hmax. induction HPs as [|bs p bss ps (Hp & _) _ IH]; constructor; [|exact IH]. destruct HN as [E|E]; rewrite E in *; cbn [payload fits lib_of] in *.
    - destruct Hp as [_ Hp]. rewrite Hp. destruct (Z.leb_spec (zlen bs) cap); [|intuition lia]. unfold INT_MAX. split; [lia|discriminate].
    - rewrite Hp. destruct (Z.leb_spec (zlen bs) cap); [|intuition lia]. split; [lia|discriminate]. }
  split.
  - intros HA. apply H1. clear - HF HA. induction HF as [|bs p bss ps H _ IH]; constructor; inversion HA; subst; [now apply H|auto].
  - intros HE. apply H2. intros HA. clear - HF HE HA. induction HF as [|bs p bss ps H _ IH]; inversion HE; subst; inversion HA; subst; [now apply H in H3|auto].
Qed.
Print Assumptions C18_characterised.

(** One UINT16 point with a value of 64 or more: it encodes (any LZ4/ZSTD library with
    sane size bounds) and never decodes. *)
Definition one16 (opt : comp_opt) : info := mkInfo [fld 114 0 UINT16 None] 1 1 2 ENC_LOSSY [] opt false 5.
Lemma big16_section v m sec : 64 <= v < 65536 -> section_of (mkA 0 UINT16) [le_bytes 2 v] m sec -> 2 < zlen sec.
Proof.
  intros Hv HS. destruct m; cbn [section_of] in HS.
  - subst sec. unfold sec_delta. rewrite zlen_cons.
    assert (E : diffs 0 (vals (mkA 0 UINT16) [le_bytes 2 v]) = [v]).
    { unfold vals. cbn [map a_type]. unfold to_int64. cbn [int_signed andb]. rewrite le_val_le_bytes. change (256 ^ Z.of_nat 2) with 65536. rewrite Z.mod_small by lia.
      rewrite s64_id by lia. cbn [diffs]. rewrite Z.sub_0_r. f_equal. apply s64_id. lia. }
    rewrite E. cbn [flat_map]. rewrite app_nil_r. unfold encodeVarint64. rewrite zigzag1_spec by lia. replace (0 <=? v) with true by lia.
    unfold u64. rewrite Z.mod_small by lia. unfold uvarint. cbn [uvarint_loop]. replace (127 <? 2 * v + 1) with true by lia. rewrite zlen_cons.
    destruct (127 <? _); rewrite zlen_cons; [|reflexivity]. pose proof (zlen_nonneg (if 127 <? Z.shiftr (Z.shiftr (2 * v + 1) 7) 7 then Z.lor (Z.land (Z.shiftr (Z.shiftr (2 * v + 1) 7) 7) 127) 128 :: uvarint_loop 7 (Z.shiftr (Z.shiftr (Z.shiftr (2 * v + 1) 7) 7) 7) else [Z.shiftr (Z.shiftr (2 * v + 1) 7) 7])) as H.
    cbn [uvarint_loop] in H |- *. lia.
  - destruct HS as (idx & -> & _). unfold sec_pal. rewrite zlen_cons, !zlen_app, zlen_le. repeat match goal with |- context [zlen ?l] => match goal with H : 0 <= zlen l |- _ => fail 1 | _ => pose proof (zlen_nonneg l) end end. lia.
  - subst sec. unfold sec_rle. cbv zeta. rewrite zlen_cons, !zlen_app, zlen_le. repeat match goal with |- context [zlen ?l] => match goal with H : 0 <= zlen l |- _ => fail 1 | _ => pose proof (zlen_nonneg l) end end. lia.
  - subst sec. unfold sec_drle. cbv zeta. rewrite zlen_cons, !zlen_app, zlen_le. repeat match goal with |- context [zlen ?l] => match goal with H : 0 <= zlen l |- _ => fail 1 | _ => pose proof (zlen_nonneg l) end end. lia.
Qed.
Theorem C18_refuted : forall L v opt ppc probe, libs_ok L -> 64 <= v < 65536 -> opt = COMP_LZ4 \/ opt = COMP_ZSTD ->
  c_bound (lib_of L opt) 1066 <= 1000000 -> (0 < ppc)%nat -> Z.of_nat ppc <= 65535 -> (0 < probe)%nat ->
  exists e body, PointcloudEncoder (one16 opt) (Ok []) = Ok e /\ produces sse_ops L ppc probe e (le_bytes 2 v) [] body /\
    declares (one16 opt) 1 /\ forall buf mem, 2 <= zlen mem -> decode sse_ops L ppc (one16 opt) body buf mem = Throw.
Proof.
  intros L v opt ppc probe HLi Hv Hopt Hbd Hp Hp5 Hpr. set (i := one16 opt). set (cloud := le_bytes 2 v).
  assert (Hb : bytes cloud) by apply le_bytes_bytes.
  assert (HL : layout_ok i) by (split; [reflexivity|repeat constructor; cbn; lia]).
  assert (HES : encode_side ppc i cloud) by (split; [exact HL|]; split; [exact I|]; split; [|exact Hb]; split; [exact Hp|]; split; [exact Hp5|vm_compute; discriminate]).
  pose (e := mkEnc i [] [] []). assert (HE : PointcloudEncoder i (Ok []) = Ok e) by reflexivity.
  assert (HEo : encoder_of sse_ops L ppc probe i (Ok []) e) by (apply eo_new; exact HE).
  assert (HMx : exists need, MaxCompressedSize L ppc i 1 0 = Ok need /\ 0 <= need <= 1000004).
  { unfold MaxCompressedSize. change (i_step i =? 0) with false. cbv iota. change (MaxSerializedPointSize i) with (Ok 10). cbn [bind].
    rewrite chunks_count_S by lia. replace (Nat.min 1 ppc) with 1%nat by lia. rewrite Nat.sub_diag, chunks_count_0 by exact Hp. cbn [chunks_bound]. replace (Nat.min 1 ppc) with 1%nat by lia.
    unfold chunk_bound. change (UsesV5Codec i) with true. cbv iota. change (Z.of_nat 1 * 10 + (zlen (i_fields i) * 32 + 1024)) with 1066.
    change (i_comp i) with opt. assert (Hnn : 0 <= c_bound (lib_of L opt) 1066) by (destruct HLi as [H4 HZ]; destruct Hopt as [-> | ->]; [apply (lib_nonneg _ H4)|apply (lib_nonneg _ HZ)]; lia).
    destruct Hopt as [-> | ->]; cbn [lib_of] in *; [change (INT_MAX <? 1066) with false; cbv iota|]; cbn [bind]; eexists; (split; [reflexivity|lia]). }
  destruct HMx as (need & HMx & Hnd).
  destruct (C26_v5_bound sse_ops L ppc probe i [] e cloud 1 (repeat 0 (Z.to_nat need)) false need) as (total & out' & e' & EV & Ht & Hlo); auto.
  { constructor. }
  { repeat constructor. }
  { repeat constructor. }
  { unfold bounded. change (worst_point i) with 11. change (zlen (i_fields i)) with 1. lia. }
  { split; [cbn; lia|]. split; [reflexivity|discriminate]. }
  { right. lia. }
  { apply Forall_forall. intros x Hx. apply repeat_spec in Hx. subst x. unfold is_byte. lia. }
  { unfold zlen. rewrite repeat_length. lia. }
  { intros _. unfold zlen. rewrite repeat_length. lia. }
  assert (Hob : bytes (repeat 0 (Z.to_nat need))) by (apply Forall_forall; intros x Hx; apply repeat_spec in Hx; subst x; unfold is_byte; lia).
  rewrite repeat_length in Hlo.
  assert (HPr : produces sse_ops L ppc probe e cloud [] (firstn (Z.to_nat total) out')).
  { left. exists (repeat 0 (Z.to_nat need)), false, total, out', e'. split; [exact Hob|]. split; [exact EV|]. split; [reflexivity|]. split; [|reflexivity].
    unfold zlen. cbn [app]. rewrite firstn_length. lia. }
  exists e, (firstn (Z.to_nat total) out'). split; [exact HE|]. split; [exact HPr|]. split; [reflexivity|]. intros buf mem Hm.
  destruct (produces_chunks _ _ _ _ _ _ _ _ _ _ HLi (Forall_nil _) HES HEo HPr) as (n' & ms & bss & ps & HC & EB). rewrite EB.
  assert (n' = 1%nat) by (destruct HC as (HC & _); unfold cloud in HC; rewrite le_bytes_length in HC; change (Z.to_nat (i_step i)) with 2%nat in HC; lia). subst n'.
  apply (chunks_decode sse_ops L ppc probe i i cloud 1 ms bss ps buf mem HES); auto.
  { split; [apply same_codec_refl|]. split; [split; [reflexivity|repeat constructor; cbn; lia]|]. split; [left; cbn; repeat constructor|]. split; [repeat constructor|]. split; [repeat constructor|]. split; [reflexivity|cbn; lia]. }
  { assert (Hz2 : zlen cloud = 2) by apply zlen_le. unfold deltas_ok. constructor; [|constructor]. intros j x Hj. cbn [fst snd] in *. change (i_step i) with 2 in Hj. rewrite Hz2 in Hj.
    assert (j = O) by lia. subst j. rewrite Nat.mod_0_l by lia. cbn [Nat.eqb].
    intros Hx. change (Some (le_val cloud) = Some x) in Hx. assert (Hx' : x = le_val cloud) by congruence. rewrite Hx'.
    assert (El : le_val cloud = v) by (unfold cloud; rewrite le_val_le_bytes; change (256 ^ Z.of_nat 2) with 65536; apply Z.mod_small; lia).
    rewrite El, Z.sub_0_r, s64_id by lia. unfold INT64_MIN. lia. }
  { discriminate. }
  { rewrite <- EB. unfold zlen. rewrite firstn_length. lia. }
  { reflexivity. }
  intros HF. destruct HC as (_ & HS & _). inversion HS as [|c left bs bss' Hl HR HS']; subst bss. rewrite Nat.min_l in HR by lia.
  apply Forall_inv in HF. cbn beta in HF. change (dec_cap i) with 2 in HF.
  assert (Hbs : 2 < zlen bs).
  { unfold chunk_rel in HR. change (UsesV5Codec i) with true in HR. cbv iota in HR. destruct HR as (es & afs & HB & o & secs & _ & -> & _ & _ & _ & Hms & Hss & HF5).
    change (BuildV5Plan i) with (Ok (@nil fenc, [mkA 0 UINT16])) in HB. apply ok_pair in HB. destruct HB as [<- <-]. cbn [length] in *.
    destruct ms as [|m [|? ?]]; try discriminate Hms. destruct secs as [|sec [|? ?]]; try discriminate Hss. cbn [combine] in HF5. assert (HF6 : section_of (mkA 0 UINT16) (column (mkA 0 UINT16) (Z.to_nat (i_step i)) 1 (skipn (0 * ppc * Z.to_nat (i_step i)) cloud)) m sec) by (inversion HF5; assumption). clear HF5. rename HF6 into HF5.
    cbn [Nat.mul skipn] in HF5. rewrite column_S in HF5. cbn [column seq map] in HF5. unfold column in HF5. cbn [seq map] in HF5.
    assert (Es : sub (a_off (mkA 0 UINT16)) (a_size (mkA 0 UINT16)) cloud = le_bytes 2 v) by (unfold cloud, sub; cbn [a_off a_size a_type SizeOf Z.to_nat skipn]; apply firstn_all2; rewrite le_bytes_length; lia).
    rewrite Es in HF5. pose proof (big16_section v m sec Hv HF5) as Hb16. cbn [concat]. rewrite app_nil_r, zlen_app. pose proof (zlen_nonneg o). lia. }
  unfold fits in HF. change (i_comp i) with opt in HF. destruct Hopt as [-> | ->]; lia.
Qed.
Print Assumptions C18_refuted.
(** Such libraries exist. *)
Example C18_case : libs_ok store_libs /\ c_bound (lib_of store_libs COMP_ZSTD) 1066 <= 1000000.
Proof. split; [apply store_libs_ok|vm_compute; discriminate]. Qed.
