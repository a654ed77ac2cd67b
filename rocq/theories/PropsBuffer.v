(** Property C27 (the output buffer) and instances for C25, C26. *)
From Verif Require Import Base BaseFacts Varint VarintFacts Types Floats Fields Codec V5 Api Spec LibSpec SeqSpec.
From Verif Require Import GorillaFacts FieldFacts WriteFacts CodecFacts BuildFacts RunFacts SectionFacts PaletteFacts V5Facts ChunkV5Facts Stage1Facts ApiFacts CloudFacts RoundTrip CloudRT LocalFacts SeqFacts ColumnFacts CloudApi SizeFacts Cases PropsField PropsColumn PropsStage1 PropsCloud PropsSize.

Lemma scan_encode_side v w c : encode_side 2 (scan v w c) scan_cloud.
Proof. split; [apply scan_layout|]. split; [exact I|]. split; [|apply scan_bytes]. split; [lia|]. split; [lia|vm_compute; discriminate]. Qed.
Lemma scan_not_adaptive w c : ~ adaptive (scan 4 w c).
Proof. intros (H & _). cbn in H. lia. Qed.
Example C25_case : let i := scan 4 3 COMP_ZSTD in let e := match PointcloudEncoder i (Ok [1;2;3]) with Ok e => e | _ => mkEnc i [] [] [] end in
  encode_side 2 i scan_cloud /\ known_types i /\ bounded 2 i /\ encoder_of sse_ops store_libs 2 4096 i (Ok [1;2;3]) e /\ ~ adaptive i /\
  zlen scan_cloud = Z.of_nat 3 * i_step i /\ MaxCompressedSize store_libs 2 i 3 3 = Ok 196 /\
  fst (fst (encode_view sse_ops store_libs 2 4096 e scan_cloud (repeat 0 196) true)) = Ok 76.
Proof.
  cbv zeta. split; [apply scan_encode_side|]. split; [repeat constructor|]. split; [vm_compute; discriminate|]. split; [apply eo_new; vm_compute; reflexivity|].
  split; [apply scan_not_adaptive|]. split; [reflexivity|]. split; vm_compute; reflexivity.
Qed.
Definition small_jumpsb (i : info) (ppc : nat) (cloud : list Z) (n : nat) : bool :=
  forallb (fun f => forallb (fun j => match int_value (f_type f) (fbytes i f cloud j) with None => true | Some v =>
    let d := s64 (v - (if (j mod ppc =? 0)%nat then 0 else match int_value (f_type f) (fbytes i f cloud (j - 1)) with Some p => p | None => 0 end)) in
    (-4611686018427387904 <? d) && (d <? 4611686018427387904) end) (seq 0 n)) (i_fields i).
Lemma small_jumpsb_ok i ppc cloud n : small_jumpsb i ppc cloud n = true -> 0 < i_step i -> zlen cloud = Z.of_nat n * i_step i -> small_jumps i ppc cloud.
Proof.
  unfold small_jumpsb. rewrite forallb_forall. intros H Hs Hl f j v Hf _ Hj Hv. cbv zeta. specialize (H f Hf). rewrite forallb_forall in H.
  assert (Hin : In j (seq 0 n)) by (apply in_seq; nia). specialize (H j Hin). rewrite Hv in H. cbv zeta in H. lia.
Qed.
Example C26_case : let i := scan 5 3 COMP_LZ4 in let e := match PointcloudEncoder i (Ok [1;2;3]) with Ok e => e | _ => mkEnc i [] [] [] end in
  encode_side 2 i scan_cloud /\ known_types i /\ enc_resolutions_ok i /\ bounded 2 i /\ encoder_of sse_ops store_libs 2 4096 i (Ok [1;2;3]) e /\ adaptive i /\
  small_jumps i 2 scan_cloud /\ zlen scan_cloud = Z.of_nat 3 * i_step i /\ MaxCompressedSize store_libs 2 i 3 3 = Ok 2628 /\
  fst (fst (encode_view sse_ops store_libs 2 4096 e scan_cloud (repeat 0 (Z.to_nat 2628)) true)) = Ok 80.
Proof.
  cbv zeta. split; [apply scan_encode_side|]. split; [repeat constructor|]. split; [repeat constructor|]. split; [vm_compute; discriminate|]. split; [apply eo_new; vm_compute; reflexivity|].
  split; [apply adaptive_v5; reflexivity|]. split; [apply (small_jumpsb_ok _ _ _ 3); [vm_compute; reflexivity|reflexivity|reflexivity]|]. split; [reflexivity|]. split; vm_compute; reflexivity.
Qed.

(** * C27 *)
(** Too small a buffer: refused, nothing written, the object unchanged.  Any object, any
    layout, any cloud. *)
Theorem C27_refused : forall ops L ppc probe e cloud out (wh : bool) n need,
  0 < i_step (e_info e) -> zlen cloud = Z.of_nat n * i_step (e_info e) ->
  MaxCompressedSize L ppc (e_info e) n (if wh then zlen (e_hdr e) else 0) = Ok need -> zlen out < need ->
  encode_view ops L ppc probe e cloud out wh = (Throw, out, e).
Proof.
  intros ops L ppc probe e cloud out wh n need Hs Hz HM Hlt. destruct (points_of cloud _ n Hs Hz) as (Hn & Hmod & _). unfold encode_view.
  replace (i_step (e_info e) =? 0) with false by lia. rewrite Hmod. cbn [negb Z.eqb]. rewrite Hn. rewrite (max_size_hdr _ _ _ _ _ _ HM).
  assert (E : zlen (if wh then e_hdr e else []) = (if wh then zlen (e_hdr e) else 0)) by (destruct wh; reflexivity). rewrite E.
  replace (zlen out <? _) with true by lia. reflexivity.
Qed.
Print Assumptions C27_refused.

(** Whatever happens, encode stays inside the buffer: its length is unchanged, the
    result is never undefined, and the size returned fits. *)
Theorem C27_in_bounds : forall ops L ppc probe i hdr0 e cloud out (wh : bool) r out' e',
  libs_ok L -> bytes hdr0 -> encode_side ppc i cloud -> encoder_of ops L ppc probe i (Ok hdr0) e -> bytes out ->
  encode_view ops L ppc probe e cloud out wh = (r, out', e') ->
  r <> UB /\ length out' = length out /\ forall total, r = Ok total -> 0 <= total <= zlen out.
Proof.
  intros ops L ppc probe i hdr0 e cloud out wh r out' e' HLi Hh (HL & HK & HCl & Hc) HEo Ho HE. pose proof (limits_v5 _ _ HCl) as Hv5. destruct HCl as (Hp & _).
  destruct (encoder_of_ready _ _ _ _ _ _ _ HEo) as (HR & HI & Hhd & _). injection Hhd as ->. subst i.
  destruct (encode_view_spec _ _ _ _ _ _ _ _ _ _ _ HR HLi HL HK Hc Ho Hh Hp Hv5 HE) as (A & B & _ & C). split; [exact A|]. split; [exact B|].
  intros total ->. destruct (C total eq_refl) as (n & ms & bss & ps & _ & _ & _ & _ & _ & E & F). unfold zlen at 1 in F. rewrite B in F. split; [|exact F].
  rewrite E. pose proof (zlen_nonneg (if wh then e_hdr e else [])). pose proof (zlen_nonneg (concat (map frame ps))). lia.
Qed.
Print Assumptions C27_in_bounds.

(** Without compression the bytes after the returned size keep their values (a
    compressor may use them as scratch space). *)
Definition kept (w w' : wstate) : Prop :=
  w_pos w <= w_pos w' /\ forall x, w_pos w' <= Z.of_nat x -> nth_error (w_mem w') x = nth_error (w_mem w) x.
Definition keeps {A} (m : act A) : Prop := forall w a w', m w = (Ok a, w') -> kept w w'.
Lemma kept_refl w w' : w_pos w' = w_pos w -> w_mem w' = w_mem w -> kept w w'.
Proof. intros H1 H2. split; [lia|]. intros x _. now rewrite H2. Qed.
Lemma kept_trans a b c : kept a b -> kept b c -> kept a c.
Proof. intros [H1 H2] [H3 H4]. split; [lia|]. intros x Hx. rewrite H4, H2 by lia. reflexivity. Qed.
Lemma keeps_ret {A} (a : A) : keeps (ret a).
Proof. intros w b w' H. apply pair_equal_spec in H. destruct H as [_ <-]. now apply kept_refl. Qed.
Lemma keeps_bind {A B} (m : act A) (k : A -> act B) : keeps m -> (forall a, keeps (k a)) -> keeps (abind m k).
Proof.
  intros Hm Hk w b w'' H. unfold abind in H. destruct (m w) as [[a| |] w1] eqn:E; try discriminate H. eapply kept_trans; [eapply Hm, E|eapply Hk, H].
Qed.
(** memcpy of [bs] at the current position, then trim_front *)
Lemma keeps_put bs p w a w' : w_pos w = p -> (perform _ <- put_at p bs ; advance (zlen bs)) w = (Ok a, w') -> kept w w'.
Proof.
  intros Hp H. unfold abind, put_at in H. destruct (wr p bs (w_mem w)) as [m1| |] eqn:E; try discriminate H. unfold advance in H. destruct (_ <? _); [discriminate H|].
  apply pair_equal_spec in H. destruct H as [_ <-]. pose proof (zlen_nonneg bs). split; cbn [w_pos w_mem]; [lia|]. intros x Hx. rewrite (wr_nth _ _ _ _ x E).
  apply wr_inv in E. destruct E as (E & _). unfold zlen in *. destruct (Nat.ltb_spec x (Z.to_nat p + length bs)) as [Hlt|_]; [lia|]. now rewrite andb_false_r.
Qed.
Lemma keeps_write L bs : keeps (WriteStage1Chunk L COMP_NONE bs).
Proof.
  intros w a w' H. unfold WriteStage1Chunk in H. destruct (_ <? _); [discriminate H|]. destruct (avail w <? 4); [discriminate H|].
  set (k := fun _ : unit => fun w1 : wstate => if avail w1 <? zlen bs then (Throw, w1) else (perform _ <- put_at (w_pos w1) bs; perform _ <- advance (zlen bs); ret (zlen bs + 4)) w1) in *.
  assert (H' : abind (perform _ <- put_at (w_pos w) (le_bytes 4 (zlen bs)) ; advance (zlen (le_bytes 4 (zlen bs)))) k w = (Ok a, w')).
  { change (zlen (le_bytes 4 (zlen bs))) with 4. rewrite <- H. unfold abind at 1. unfold abind. destruct (put_at _ _ w) as [[[]| |] w1]; reflexivity. }
  unfold abind at 1 in H'. destruct ((perform _ <- put_at (w_pos w) (le_bytes 4 (zlen bs)) ; advance (zlen (le_bytes 4 (zlen bs)))) w) as [[[]| |] w1] eqn:E1; try discriminate H'.
  apply keeps_put in E1; [|reflexivity]. eapply kept_trans; [exact E1|]. unfold k in H'. destruct (avail w1 <? zlen bs); [discriminate H'|].
  assert (H2 : abind (perform _ <- put_at (w_pos w1) bs ; advance (zlen bs)) (fun _ => ret (zlen bs + 4)) w1 = (Ok a, w')).
  { rewrite <- H'. unfold abind. destruct (put_at _ _ w1) as [[[]| |] w2]; reflexivity. }
  unfold abind at 1 in H2. destruct ((perform _ <- put_at (w_pos w1) bs ; advance (zlen bs)) w1) as [[[]| |] w2] eqn:E2; try discriminate H2.
  apply keeps_put in E2; [|reflexivity]. eapply kept_trans; [exact E2|]. eapply keeps_ret; exact H2.
Qed.
Lemma keeps_v4 ops L es step ppc cap fuel : forall cloud, keeps (v4_loop ops L COMP_NONE es step ppc cap fuel cloud).
Proof.
  induction fuel as [|fuel IH]; intros cloud w a w' H; destruct cloud as [|b cloud]; cbn [v4_loop] in H; try (apply pair_equal_spec in H; destruct H as [_ <-]; now apply kept_refl).
  destruct (EncodeV4Stage1Chunk _ _ _ _ _ _) as [[[sts rest] bs]| |]; try discriminate H. destruct (cap <? zlen bs); [discriminate H|].
    eapply kept_trans; [|eapply (keeps_bind _ _ (keeps_write L bs)); [|exact H]]; [now apply kept_refl|]. intros n. apply keeps_bind; [apply IH|]. intros m. apply keeps_ret.
Qed.
Lemma keeps_v5 ops L es afs step ppc probe cap fuel : forall left ass view, keeps (v5_loop ops L COMP_NONE es afs step ppc probe cap fuel left ass view).
Proof.
  induction fuel as [|fuel IH]; intros left ass view w a w' H; destruct left as [|left]; cbn [v5_loop] in H; try (apply pair_equal_spec in H; destruct H as [_ <-]; now apply kept_refl).
  destruct (enc_chunk_v5 _ _ _ _ _ _ _ _ _) as [[ass' bs]| |]; try discriminate H.
    eapply (keeps_bind _ _ (keeps_write L bs)); [|exact H]. intros n. apply keeps_bind; [apply IH|]. intros m. apply keeps_ret.
Qed.
Theorem C27_rest_untouched : forall ops L ppc probe e cloud out (wh : bool) total out' e',
  i_comp (e_info e) = COMP_NONE -> encode_view ops L ppc probe e cloud out wh = (Ok total, out', e') ->
  forall x, total <= Z.of_nat x -> nth_error out' x = nth_error out x.
Proof.
  intros ops L ppc probe e cloud out wh total out' e' HN HE. unfold encode_view in HE. destruct (_ =? 0); [discriminate|]. destruct (negb _); [discriminate|].
  destruct (MaxCompressedSize _ _ _ _ _) as [need| |]; try discriminate. destruct (zlen out <? _); [discriminate|]. set (hdr := if wh then e_hdr e else []) in *. set (n := (_ / _)%nat) in *.
  destruct (encode_write ops L ppc probe e cloud n hdr (mkW 0 out (e_sts e))) as [r w] eqn:EW. apply pair_equal_spec in HE. destruct HE as [HE _]. apply pair_equal_spec in HE. destruct HE as [-> <-].
  assert (EW' : abind (perform _ <- put_at 0 hdr ; advance (zlen hdr)) (fun _ => perform m <- encode_body ops L ppc probe e cloud n ; ret (zlen hdr + m)) (mkW 0 out (e_sts e)) = (Ok total, w)).
  { rewrite <- EW. unfold encode_write, abind. destruct (put_at 0 hdr _) as [[[]| |] w1]; reflexivity. }
  unfold abind at 1 in EW'. destruct ((perform _ <- put_at 0 hdr ; advance (zlen hdr)) (mkW 0 out (e_sts e))) as [[[]| |] w1] eqn:E1; try discriminate EW'.
  assert (Hw1 : w_pos w1 = zlen hdr).
  { unfold abind, put_at, advance in E1. cbn [w_mem w_pos w_sts] in E1. destruct (wr 0 hdr out); try discriminate E1. destruct (_ <? _); [discriminate E1|]. apply pair_equal_spec in E1. destruct E1 as [_ <-]. cbn. lia. }
  apply keeps_put in E1; [|reflexivity].
  assert (HB : keeps (encode_body ops L ppc probe e cloud n)).
  { intros w0 a w2 H. unfold encode_body in H. rewrite HN in H. destruct (UsesV5Codec (e_info e)).
    - destruct (V5StageBufferSize _ _) as [cap| |], (BuildV5Plan (e_info e)) as [[es afs]| |]; try discriminate H. eapply keeps_v5, H.
    - destruct (MaxSerializedPointSize _) as [m| |]; try discriminate H. eapply keeps_v4, H. }
  assert (HT : w_pos w = total /\ kept w1 w).
  { unfold abind in EW'. destruct (encode_body ops L ppc probe e cloud n w1) as [[m| |] w2] eqn:E2; try discriminate EW'. apply pair_equal_spec in EW'. destruct EW' as [EW' <-]. injection EW' as <-.
    split; [|eapply HB, E2]. rewrite <- Hw1.
    assert (HP : forall m0 w0 w3, encode_body ops L ppc probe e cloud n w0 = (Ok m0, w3) -> w_pos w3 = w_pos w0 + m0); [|eapply HP; eauto]. clear.
    assert (HW : forall opt bs w0 m0 w3, WriteStage1Chunk L opt bs w0 = (Ok m0, w3) -> w_pos w3 = w_pos w0 + m0).
    { intros opt bs w0 m0 w3 H. assert (HA : forall x wa (wb : wstate) c, advance x wa = (Ok c, wb) -> w_pos wb = w_pos wa + x) by (intros x wa wb c Hx; unfold advance in Hx; destruct (_ <? _); [discriminate|]; apply pair_equal_spec in Hx; destruct Hx as [_ <-]; reflexivity).
      assert (HP : forall pos x wa (wb : wstate) c, put_at pos x wa = (Ok c, wb) -> w_pos wb = w_pos wa) by (intros pos x wa wb c Hx; unfold put_at in Hx; destruct (wr _ _ _); try discriminate Hx; apply pair_equal_spec in Hx; destruct Hx as [_ <-]; reflexivity).
      assert (HR : forall c src wa x (wb : wstate), run_compressor c src wa = (Ok x, wb) -> w_pos wb = w_pos wa + x).
      { intros c src wa x wb Hx. unfold run_compressor in Hx. destruct (c_compress _ _ _) as [[y|] d]; [|discriminate Hx]. destruct (_ <? _); [discriminate Hx|]. unfold abind in Hx.
        destruct (advance y _) as [[[]| |] wc] eqn:Ea; try discriminate Hx. apply HA in Ea. cbn [w_pos] in Ea. unfold ret in Hx. apply pair_equal_spec in Hx. destruct Hx as [Hx <-]. injection Hx as <-. exact Ea. }
      assert (HCC : forall src wa x (wb : wstate), CompressChunk L opt src wa = (Ok x, wb) -> w_pos wb = w_pos wa + x).
      { intros src wa x wb Hx. unfold CompressChunk in Hx. destruct (_ <? _); [discriminate Hx|]. destruct opt; try discriminate Hx; [destruct (_ || _); [discriminate Hx|]|]; eapply HR, Hx. }
      unfold WriteStage1Chunk in H. destruct (_ <? _); [discriminate H|].
      assert (HZ : (perform _ <- advance 4; perform n0 <- CompressChunk L opt bs; perform _ <- put_at (w_pos w0) (le_bytes 4 n0); ret (n0 + 4)) w0 = (Ok m0, w3) -> w_pos w3 = w_pos w0 + m0).
      { intros Hx. unfold abind in Hx. destruct (advance 4 w0) as [[[]| |] wa] eqn:Ea; try discriminate Hx. apply HA in Ea.
        destruct (CompressChunk L opt bs wa) as [[y| |] wb] eqn:Eb; try discriminate Hx. apply HCC in Eb. destruct (put_at _ _ wb) as [[[]| |] wc] eqn:Ec; try discriminate Hx. apply HP in Ec.
        unfold ret in Hx. apply pair_equal_spec in Hx. destruct Hx as [Hx <-]. injection Hx as <-. lia. }
      destruct opt; try (apply HZ, H). destruct (_ <? _); [discriminate H|]. unfold abind in H. destruct (put_at _ _ w0) as [[[]| |] wa] eqn:Ea; try discriminate H. apply HP in Ea.
      destruct (advance 4 wa) as [[[]| |] wb] eqn:Eb; try discriminate H. apply HA in Eb. destruct (_ <? _); [discriminate H|]. destruct (put_at _ _ wb) as [[[]| |] wc] eqn:Ec; try discriminate H. apply HP in Ec.
      destruct (advance _ wc) as [[[]| |] wd] eqn:Ed; try discriminate H. apply HA in Ed. unfold ret in H. apply pair_equal_spec in H. destruct H as [H <-]. injection H as <-. lia. }
    assert (HSeq : forall opt bs (k : act Z) w0 m0 w3, (forall wa x wb, k wa = (Ok x, wb) -> w_pos wb = w_pos wa + x) ->
       (perform c <- WriteStage1Chunk L opt bs; perform m <- k; ret (c + m)) w0 = (Ok m0, w3) -> w_pos w3 = w_pos w0 + m0).
    { intros opt bs k w0 m0 w3 Hk H. unfold abind in H. destruct (WriteStage1Chunk L opt bs w0) as [[x| |] wa] eqn:Ea; try discriminate H. apply HW in Ea. destruct (k wa) as [[y| |] wb] eqn:Eb; try discriminate H. apply Hk in Eb.
      unfold ret in H. apply pair_equal_spec in H. destruct H as [H <-]. injection H as <-. lia. }
    intros m0 w0 w3 H. unfold encode_body in H. destruct (UsesV5Codec (e_info e)).
    - destruct (V5StageBufferSize _ _) as [cap| |], (BuildV5Plan (e_info e)) as [[es afs]| |]; try discriminate H.
      revert H. generalize (S n) at 1. generalize n, (map (fun _ : afield => astate0) afs), cloud. intros left ass view fuel. revert left ass view w0 m0 w3.
      induction fuel as [|fuel IH]; intros left ass view w0 m0 w3 H; destruct left as [|left]; cbn [v5_loop] in H; try (apply pair_equal_spec in H; destruct H as [H <-]; injection H as <-; lia); try discriminate H.
      destruct (enc_chunk_v5 _ _ _ _ _ _ _ _ _) as [[ass' bs]| |]; try discriminate H. eapply HSeq; [|exact H]. intros wa x wb Hx. eapply IH, Hx.
    - destruct (MaxSerializedPointSize _) as [m| |]; try discriminate H. revert H. generalize (S n), cloud. intros fuel. revert w0 m0 w3.
      induction fuel as [|fuel IH]; intros w0 m0 w3 c H; destruct c as [|b c]; cbn [v4_loop] in H; try (apply pair_equal_spec in H; destruct H as [H <-]; injection H as <-; lia); try discriminate H.
      destruct (EncodeV4Stage1Chunk _ _ _ _ _ _) as [[[sts rest] bs]| |]; try discriminate H. destruct (_ <? zlen bs); [discriminate H|].
      apply HSeq in H; [exact H|]. intros wa x wb Hx. eapply IH, Hx. }
  destruct HT as [HT HK2]. destruct (kept_trans _ _ _ E1 HK2) as [_ HF]. cbn [w_pos w_mem] in HF. rewrite HT in HF. exact HF.
Qed.
Print Assumptions C27_rest_untouched.
Example C27_case : let i := scan 4 3 COMP_NONE in let e := match PointcloudEncoder i (Ok [1;2;3]) with Ok e => e | _ => mkEnc i [] [] [] end in
  MaxCompressedSize store_libs 2 i 3 3 = Ok 194 /\
  fst (encode_view sse_ops store_libs 2 4096 e scan_cloud (repeat 7 193) true) = (Throw, repeat 7 193) /\
  fst (fst (encode_view sse_ops store_libs 2 4096 e scan_cloud (repeat 7 194) true)) = Ok 74 /\
  skipn 74 (snd (fst (encode_view sse_ops store_libs 2 4096 e scan_cloud (repeat 7 194) true))) = repeat 7 120.
Proof. vm_compute. repeat split. Qed.
