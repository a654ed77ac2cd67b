(** The threaded encoder runs the calls the single-threaded one runs. *)
From Verif Require Import Base BaseFacts Varint VarintFacts Types Floats Fields Codec V5 Api Spec LibSpec SeqSpec.
From Verif Require Import GorillaFacts FieldFacts WriteFacts CodecFacts BuildFacts RunFacts SectionFacts PaletteFacts V5Facts ChunkV5Facts Stage1Facts ApiFacts CloudFacts RoundTrip CloudRT LocalFacts CloudApi Worker WorkerFacts.

Definition ending (r : res unit) (h m : Z) : act Z := fun w => match r with Ok _ => (Ok (h + m), w) | Throw => (Throw, w) | UB => (UB, w) end.
Lemma v4_chunks_run ops L opt es step ppc cap fuel : forall rem w,
  let '(bss, r) := v4_chunks ops es step ppc cap fuel (w_sts w) rem in
  same_out (v4_loop ops L opt es step ppc cap fuel rem w) ((perform m <- write_all L opt bss ; ending r 0 m) w).
Proof.
  induction fuel as [|fuel IH]; intros rem w; destruct rem as [|b rem]; cbn [v4_chunks v4_loop]; try (repeat split; reflexivity).
  destruct (EncodeV4Stage1Chunk ops es step ppc (w_sts w) (b :: rem)) as [[[sts rest] bs]| |]; try (repeat split; reflexivity).
  destruct (cap <? zlen bs); [repeat split; reflexivity|].
  destruct (v4_chunks ops es step ppc cap fuel sts rest) as [bss r] eqn:EC.
  cbn [write_all]. change (mkW (w_pos w) (w_mem w) sts) with (with_sts w sts). unfold abind. rewrite (obl_write L opt bs w sts).
  unfold lift at 1. destruct (WriteStage1Chunk L opt bs w) as [[n| |] w1]; cbn [fst snd]; try (repeat split; reflexivity).
  specialize (IH rest (with_sts w1 sts)). cbn [with_sts w_sts] in IH. rewrite EC in IH. unfold abind in IH. change (mkW (w_pos w1) (w_mem w1) sts) with (with_sts w1 sts) in IH.
  rewrite (obl_write_all L opt bss w1 sts) in IH. unfold lift in IH. cbn [fst snd] in IH. destruct IH as (I1 & I2 & I3).
  destruct (v4_loop ops L opt es step ppc cap fuel rest (with_sts w1 sts)) as [rr w2]. destruct (write_all L opt bss w1) as [[m| |] w3]; destruct r; unfold ending, ret in *; cbn [fst snd w_pos w_mem with_sts] in *; subst rr; repeat split; cbn [fst snd]; auto; f_equal; lia.
Qed.
Lemma v5_chunks_run ops L opt es afs step ppc probe cap fuel : forall left ass view w,
  let '(bss, r) := v5_chunks ops es afs step ppc probe cap fuel left ass view in
  v5_loop ops L opt es afs step ppc probe cap fuel left ass view w = (perform m <- write_all L opt bss ; ending r 0 m) w.
Proof.
  induction fuel as [|fuel IH]; intros left ass view w; destruct left as [|left]; cbn [v5_chunks v5_loop]; try reflexivity.
  destruct (enc_chunk_v5 _ _ _ _ _ _ _ _ _) as [[ass' bs]| |]; try reflexivity.
  match goal with |- context [v5_chunks ops es afs step ppc probe cap fuel ?l ass' ?v] => specialize (IH l ass' v); destruct (v5_chunks ops es afs step ppc probe cap fuel l ass' v) as [bss r] end.
  cbn [write_all]. unfold abind in *. destruct (WriteStage1Chunk L opt bs w) as [[n| |] w1]; try reflexivity. rewrite IH.
  destruct (write_all L opt bss w1) as [[m| |] w2]; try reflexivity. destruct r; reflexivity.
Qed.
Lemma same_out_refl x : same_out x x.
Proof. repeat split. Qed.
Lemma body_chunks_run ops L ppc probe e cloud n w : w_sts w = e_sts e ->
  let '(bss, r) := body_chunks ops ppc probe e cloud n in
  same_out (encode_body ops L ppc probe e cloud n w) ((perform m <- write_all L (i_comp (e_info e)) bss ; ending r 0 m) w).
Proof.
  intros Hw. unfold body_chunks, encode_body. destruct (UsesV5Codec (e_info e)).
  - destruct (V5StageBufferSize (e_info e) (Z.of_nat ppc)) as [cap| |]; destruct (BuildV5Plan (e_info e)) as [[es afs]| |]; try apply same_out_refl.
    pose proof (v5_chunks_run ops L (i_comp (e_info e)) es afs (Z.to_nat (i_step (e_info e))) ppc probe cap (S n) n (map (fun _ => astate0) afs) cloud w) as H.
    destruct (v5_chunks _ _ _ _ _ _ _ _ _ _ _) as [bss r]. rewrite H. apply same_out_refl.
  - destruct (MaxSerializedPointSize _) as [m| |]; try apply same_out_refl. rewrite <- Hw. apply v4_chunks_run.
Qed.
Lemma encode_call_throw ops L ppc probe e cloud out wh : encode_call ops L ppc probe e cloud out wh = Throw ->
  encode_view ops L ppc probe e cloud out wh = (Throw, out, e).
Proof.
  unfold encode_call, encode_view. destruct (_ =? 0); [reflexivity|]. destruct (negb _); [reflexivity|]. cbv zeta. destruct (MaxCompressedSize _ _ _ _ _) as [need| |]; cbn [bind]; try discriminate; [|reflexivity].
  destruct (_ <? _); [reflexivity|]. destruct (body_chunks _ _ _ _ _ _) as [bss [| |]]; discriminate.
Qed.
Lemma encode_call_run ops L ppc probe e cloud out wh k : 
  encode_call ops L ppc probe e cloud out wh = Ok k ->
  fst (fst (encode_view ops L ppc probe e cloud out wh)) = fst (seq_call L (i_comp (e_info e)) k) /\
  snd (fst (encode_view ops L ppc probe e cloud out wh)) = w_mem (snd (seq_call L (i_comp (e_info e)) k)).
Proof.
  unfold encode_call, encode_view. destruct (_ =? 0); [discriminate|]. destruct (negb _); [discriminate|]. cbv zeta. destruct (MaxCompressedSize _ _ _ _ _) as [need| |]; cbn [bind]; try discriminate.
  destruct (_ <? _); [discriminate|]. set (n := (_ / _)%nat). set (hdr := if wh then e_hdr e else []).
  pose proof (body_chunks_run ops L ppc probe e cloud n) as HB. destruct (body_chunks ops ppc probe e cloud n) as [bss r].
  assert (HW : r <> UB -> same_out (encode_write ops L ppc probe e cloud n hdr (mkW 0 out (e_sts e)))
     (seq_call L (i_comp (e_info e)) (mkCall out hdr bss match r with Ok _ => true | _ => false end))).
  { intros Hr. unfold encode_write, seq_call. cbn [k_hdr k_out k_chunks k_end]. change (mkW 0 out (e_sts e)) with (with_sts (mkW 0 out []) (e_sts e)). unfold abind. rewrite obl_put.
    unfold lift at 1. destruct (put_at 0 hdr (mkW 0 out [])) as [[[]| |] w1]; cbn [fst snd]; try (repeat split; reflexivity).
    rewrite obl_advance. unfold lift at 1. destruct (advance (zlen hdr) w1) as [[[]| |] w2]; cbn [fst snd]; try (repeat split; reflexivity).
    specialize (HB (with_sts w2 (e_sts e)) eq_refl). unfold abind in *. rewrite obl_write_all in HB. unfold lift in HB. cbn [fst snd] in HB. destruct HB as (I1 & I2 & I3).
    destruct (encode_body ops L ppc probe e cloud n (with_sts w2 (e_sts e))) as [rr w3]. cbn [fst snd] in *.
    destruct (write_all L (i_comp (e_info e)) bss w2) as [[m| |] w4]; destruct r; try congruence; unfold ending, ret, fail in *; cbn [fst snd w_pos w_mem with_sts] in *; subst rr; repeat split; cbn [fst snd]; auto. }
  intros H. assert (HK : r <> UB /\ k = mkCall out hdr bss match r with Ok _ => true | _ => false end) by (destruct r; inversion H; split; congruence).
  destruct HK as [Hr ->]. destruct (HW Hr) as (I1 & I2 & I3). destruct (encode_write _ _ _ _ _ _ _ _ _) as [rr w3]. cbn [fst snd] in *. auto.
Qed.

(** ** Stage 1 does not fail after its first chunk *)
Lemma v4_chunks_all ops i es step ppc cap cloud n : built i any es -> layout_ok i -> i_step i = Z.of_nat step -> bytes cloud ->
  length cloud = (n * step)%nat -> (0 < ppc)%nat -> Z.of_nat ppc * Z.of_nat (sum_nat (map enc_max es)) <= cap ->
  forall left c fuel sts rem, (left = O \/ c * ppc + left = n)%nat ->
  (left < fuel)%nat -> rem = skipn ((n - left) * step) cloud -> (left <= n)%nat -> Forall2 resettable es sts ->
  snd (v4_chunks ops es step ppc cap fuel sts rem) = Ok tt.
Proof.
  intros HB HL Hst Hc Hlen Hp Hcap left. assert (H0 : (0 < step)%nat) by (destruct HL; lia).
  induction left as [left IH] using (well_founded_induction Wf_nat.lt_wf). intros c fuel sts rem Hleft Hf Hrem _ HR. destruct fuel as [|fuel]; [lia|]. destruct left as [|left'].
  - subst rem. rewrite skipn_all2 by (rewrite Hlen; nia). reflexivity.
  - set (left := S left') in *. set (k := Nat.min left ppc). destruct Hleft as [|Hn]; [lia|].
    destruct (chunk_enc ops i any es step cloud (c * ppc) k HB HL Hst Hc ltac:(rewrite Hlen; unfold k; nia)) as (bs & HE & Hb & Hsz).
    replace (n - left)%nat with (c * ppc)%nat in Hrem by lia.
    assert (Hne : exists b rem', rem = b :: rem').
    { destruct rem as [|b rem']; [|eauto]. exfalso. symmetry in Hrem. apply (f_equal (@length Z)) in Hrem. rewrite skipn_length in Hrem. cbn in Hrem. rewrite Hlen in Hrem.
      assert (E : (c * ppc * step + left * step = n * step)%nat) by (rewrite <- Hn, Nat.mul_add_distr_r; reflexivity).
      assert (0 < left * step)%nat by (unfold left; nia). lia. }
    assert (HE' : enc_points_v4 ops es step ppc (resets es) rem = Ok (skipn ((n - (left - k)) * step) cloud, bs)).
    { rewrite Hrem. destruct (Nat.le_gt_cases ppc left) as [H|H].
      - unfold k in *. rewrite Nat.min_r in * by lia. replace (n - (left - ppc))%nat with (c * ppc + ppc)%nat by lia. exact HE.
      - unfold k in *. rewrite Nat.min_l in * by lia. replace (n - (left - left))%nat with n by lia. rewrite (skipn_all2 (n := (n * step)%nat)) by (rewrite Hlen; lia).
        apply (enc_points_more ops es step left); [|lia]. rewrite HE. f_equal. f_equal. apply skipn_all2. rewrite Hlen. nia. }
    destruct (enc_points_obj_v4 ops es step ppc (resets es) rem _ bs (resets_resettable es) HE') as (sts1 & HO & HR1).
    cbn [v4_chunks]. destruct Hne as (b & rem' & Hr). rewrite Hr. rewrite <- Hr. unfold EncodeV4Stage1Chunk. rewrite (reset_all es _ HR), HO.
    replace (cap <? zlen bs) with false by (symmetry; apply Z.ltb_ge; unfold k in Hsz; nia).
    specialize (IH (left - k)%nat ltac:(unfold k; lia) (S c) fuel sts1 (skipn ((n - (left - k)) * step) cloud)).
    destruct (v4_chunks ops es step ppc cap fuel sts1 _) as [bss r]. cbn [snd] in *. apply IH; auto; try lia.
    all: unfold k; destruct (Nat.le_gt_cases left ppc); [left|right]; nia.
Qed.
Section V5Chunks.
  Variables (ops : float_ops) (i : info) (es : list fenc) (afs : list afield).
  Variables (step ppc probe : nat) (cap : Z) (cloud : list Z) (n : nat).
  Hypotheses (HB : built i regular es) (HA : afs = map mk_afield (adaptive_fields i)) (HAn : afs <> [])
    (HL : layout_ok i) (Hst : i_step i = Z.of_nat step) (Hc : bytes cloud)
    (Hlen : length cloud = (n * step)%nat) (Hp : (0 < ppc)%nat) (Hp2 : Z.of_nat ppc <= 65535)
    (Hcap : Z.of_nat ppc * Z.of_nat (sum_nat (map enc_max es)) + (zlen afs * (5 + 10 * Z.of_nat ppc) + wides afs * Z.of_nat ppc) <= cap).
  Lemma v5_chunks_all : forall left c b fuel ass view, (left = O \/ (c * ppc + left = n /\ view = skipn (c * ppc * step) cloud))%nat -> (left < fuel)%nat ->
    Forall2 (fun (_ : afield) s => tab_wf (as_tab s) /\ status b s) afs ass ->
    snd (v5_chunks ops es afs step ppc probe cap fuel left ass view) = Ok tt.
  Proof.
    intros left. induction left as [left IH] using (well_founded_induction Wf_nat.lt_wf). intros c b fuel ass view Hleft Hf HF. destruct fuel as [|fuel]; [lia|]. destruct left as [|left']; [reflexivity|].
    set (left := S left') in *. set (k := Nat.min left ppc). destruct Hleft as [|[Hn ->]]; [lia|].
    destruct (v5_one_chunk ops i es afs step ppc probe cap cloud n HB HA HAn HL Hst Hc Hlen Hp Hp2 Hcap c k ass b ltac:(unfold k; lia) ltac:(unfold k; lia) HF) as (ass' & ms' & secs & o & E1 & _ & _ & _ & _ & _ & E7 & _).
    cbn [v5_chunks]. fold left. fold k. unfold left at 1. rewrite E1.
    specialize (IH (left - k)%nat ltac:(unfold k; lia) (S c) false fuel ass' (skipn (k * step) (skipn (c * ppc * step) cloud))).
    destruct (v5_chunks ops es afs step ppc probe cap fuel (left - k) ass' _) as [bss r]. cbn [snd] in *. apply IH; auto; [|unfold k; lia].
    unfold k. destruct (Nat.le_gt_cases left ppc); [left; lia|right]. rewrite Nat.min_r by lia. split; [lia|]. rewrite skipn_skipn. f_equal. nia.
  Qed.
End V5Chunks.
Lemma body_chunks_all ops ppc probe e cloud n m : enc_ready e -> layout_ok (e_info e) -> known_enc (e_info e) -> bytes cloud ->
  length cloud = (n * Z.to_nat (i_step (e_info e)))%nat -> (0 < ppc)%nat -> v5_limits ppc (e_info e) -> MaxSerializedPointSize (e_info e) = Ok m ->
  snd (body_chunks ops ppc probe e cloud n) = Ok tt \/ body_chunks ops ppc probe e cloud n = ([], Throw).
Proof.
  intros HR HL HK Hc Hlen Hp Hv5 Hm. set (i := e_info e) in *. set (step := Z.to_nat (i_step i)) in *.
  assert (Hst : i_step i = Z.of_nat step) by (destruct HL; unfold step; lia).
  unfold body_chunks. fold i. fold step. rewrite Hm. destruct (UsesV5Codec i) eqn:HU.
  - unfold V5StageBufferSize. rewrite Hm. cbn [bind]. destruct (BuildV5Plan i) as [[es0 afs0]| |] eqn:HP0; [|now right|exfalso; now apply (plan_defined i)].
    left. destruct (plan_spec i es0 afs0 m HU HP0 Hm) as (HB & HA & Hsum). destruct (Hv5 HU) as [Hpp HAl].
    assert (HAn : afs0 <> []) by (rewrite HA; pose proof (v5_nonempty i HU); destruct (adaptive_fields i); [congruence|discriminate]).
    assert (Hzl : zlen afs0 = zlen (adaptive_fields i)) by (rewrite HA; unfold zlen; now rewrite map_length).
    assert (Hfl : zlen (adaptive_fields i) <= zlen (i_fields i)).
    { unfold adaptive_fields, zlen. clear. generalize (i_fields i). intros l. induction l as [|f l IH]; cbn [filter length]; [lia|]. destruct (isV5AdaptiveIntType _); cbn [length]; lia. }
    set (cap := Z.of_nat ppc * (Z.max (i_step i) m + 64) + zlen (i_fields i) * 64 + 1024).
    assert (Hcap : Z.of_nat ppc * Z.of_nat (sum_nat (map enc_max es0)) + (zlen afs0 * (5 + 10 * Z.of_nat ppc) + wides afs0 * Z.of_nat ppc) <= cap).
    { unfold cap. pose proof (zlen_nonneg (adaptive_fields i)). rewrite Hzl in *.
      assert (Z.of_nat ppc * (Z.of_nat (sum_nat (map enc_max es0)) + 10 * zlen (adaptive_fields i)) <= Z.of_nat ppc * Z.max (i_step i) m) by nia.
      assert (wides afs0 * Z.of_nat ppc <= 64 * Z.of_nat ppc) by (rewrite HA; apply Z.mul_le_mono_nonneg_r; lia). lia. }
    eapply (v5_chunks_all ops i es0 afs0 step ppc probe cap cloud n HB HA HAn HL Hst Hc Hlen Hp Hpp Hcap n 0%nat true); [right; split; [lia|reflexivity]|lia|].
    clear. induction afs0 as [|a l IH]; cbn; constructor; auto. split; [apply tab_wf_init|reflexivity].
  - left. destruct (HR HU) as [HB HF]. fold i in HB. destruct (build_v4_wf i (e_es e) m HK HB Hm) as (HBu & Hsum).
    eapply (v4_chunks_all ops i (e_es e) step ppc _ cloud n HBu HL Hst Hc Hlen Hp); [|right; apply (eq_refl : (0 * ppc + n = n)%nat)|lia|now rewrite Nat.sub_diag|lia|exact HF]. nia.
Qed.
