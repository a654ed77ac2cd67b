(** C84: decoding a recording in Python. *)
From Verif Require Import Base BaseFacts Types Floats V5 Api Spec LibSpec Header Cdr Ros Wasm Python PyTool CloudFacts FieldFacts LengthFacts YamlFacts PropsHeader HeaderFacts YamlRT FloatText PropsPcl PropsCloud RoundTrip PropsFit PropsWasm PropsPython Cases.
From Coq Require Import String.
Notation length := List.length.
Open Scope Z_scope.
Open Scope list_scope.

(** ** Specification *)
(** messages whose schema is called ...CompressedPointCloud2... *)
Definition cloud_message (it : mcap_item) : Prop :=
  exists name a b, it_schema it = Some name /\ name = a ++ str "CompressedPointCloud2" ++ b.
(** the part of a list that a limit leaves; a limit of 0, like none, leaves everything *)
Definition limited {A} (limit : option Z) (l : list A) : list A :=
  match limit with Some m => if m =? 0 then l else firstn (Z.to_nat m) l | None => l end.

Section Spec.
  Variables (ft : float_text) (ops : float_ops) (L : libs) (ppc : nat).
  (** [msg] is a CompressedPointCloud2 message with the cloud [data], of layout [i], encoded by this
      library; [size] bytes are reserved for the decoded cloud, [ysize] for the header text *)
  Definition encoded_message (probe : nat) (i : info) (data : list Z) (size ysize : Z) (msg : list Z) : Prop :=
    complete (i_width i) (i_height i) (i_step i) data /\ encode_side ppc i data /\ decode_side i i /\ deltas_ok ops i ppc data /\
    yaml_header_info ft i /\ exact_resolutions ft i /\ byte_texts ft i /\ i_comp i = COMP_ZSTD /\
    tight_chunk i (Z.of_nat (Nat.min (length data / Z.to_nat (i_step i)) ppc)) <= zlen data /\
    plain_header ft i /\ tabular i /\
    0 < zlen data /\ zlen data <= 2147483647 /\ zlen data <= size /\ zlen (EncodingInfoToYAML ft i) <= ysize /\
    exists c n s, getDeserializedPointCloudMessage msg = Ok c /\ stream_of ft ops L ppc probe i data n s /\ n < 1431260227 /\ r_data c = firstn (Z.to_nat n) s.
  (** [a] is the table of the cloud [data]: a row for each point, a column for each field, and in it
      the value the codec restores from the bytes of the field *)
  Definition table_of (i : info) (data : list Z) (a : ndarray) : Prop :=
    forall p f k t, (p < length data / Z.to_nat (i_step i))%nat -> In (f, k) (combine (i_fields i) (kinds i)) -> np_of (f_type f) = Some t ->
      np_item a (f_name f) (Z.of_nat p) = Some (t, recon ops k (fbytes i f data p)).
End Spec.

(** ** Proofs *)
Lemma startswith_iff s p : py_startswith s p = true <-> exists b, s = p ++ b.
Proof.
  revert s. induction p as [|a p IH]; intros s.
  - split; [intros _; now exists s|]. destruct s; auto.
  - destruct s as [|b s].
    + cbn. split; [discriminate|]. intros (x & H). discriminate H.
    + cbn [py_startswith]. rewrite Bool.andb_true_iff, Z.eqb_eq, IH. split.
      * intros (-> & x & ->). now exists x.
      * intros (x & H). cbn in H. injection H as -> ->. split; [reflexivity|]. now exists x.
Qed.
Lemma in_iff a s : py_in a s = true <-> exists x y, s = x ++ a ++ y.
Proof.
  induction s as [|c s IH].
  - cbn [py_in]. rewrite Bool.orb_false_r, startswith_iff. split.
    + intros (b & H). now exists [], b.
    + intros (x & y & H). destruct x; [|discriminate H]. now exists y.
  - cbn [py_in]. rewrite Bool.orb_true_iff, startswith_iff, IH. split.
    + intros [(b & ->) | (x & y & ->)]; [now exists [], b | now exists (c :: x), y].
    + intros (x & y & H). destruct x as [|d x]; [left; now exists y|]. right. cbn in H. injection H as -> ->. now exists x, y.
Qed.
Lemma compressed_iff it : is_compressed it = true <-> cloud_message it.
Proof.
  unfold is_compressed, cloud_message. destruct (it_schema it) as [n|].
  - rewrite in_iff. split.
    + intros (x & y & ->). now exists (x ++ str "CompressedPointCloud2" ++ y), x, y.
    + intros (m & x & y & H & ->). exists x, y. congruence.
  - split; [discriminate|]. intros (m & x & y & H & _). discriminate H.
Qed.
Lemma in_combine3 {A B} (f : A) (k : B) fs ks : In (f, k) (combine fs ks) -> In (f, (f, k)) (combine fs (combine fs ks)).
Proof.
  revert ks. induction fs as [|g fs IH]; intros [|h ks]; cbn; try tauto. intros [H|H]; [left; congruence|right; now apply IH].
Qed.

Lemma Forall2_map_prop {A B} (P R : A -> B -> Prop) l m : (forall a b, P a b -> R a b) -> Forall2 P l m -> Forall2 R l m.
Proof. intros H F. induction F; constructor; auto. Qed.

Section Tool.
  Variables (utf8 : list Z -> res (list Z)) (py_float : list Z -> option Z).
  Hypothesis HP : python utf8 py_float.
  Variables (ft : float_text) (ops : float_ops) (L : libs) (ppc : nat).
  Variables (junk : Z -> list Z -> list Z) (yaml : Z -> list Z) (size ysize : Z).
  Hypothesis Hjunk : forall k m, zlen (junk k m) = zlen m.
  Hypothesis Hyaml : forall k, zlen (yaml k) = ysize.
  Notation dec := (decode_message utf8 py_float ft ops L ppc).
  Notation run := (messages utf8 py_float ft ops L ppc junk yaml).

  Lemma after_size k msg out : zlen (after_call ft ops L ppc junk k msg out) = zlen out.
  Proof.
    unfold after_call, cldn_DecodeCompressedMessage, cldn_DecodeCompressedData, or_zero.
    destruct (getDeserializedPointCloudMessage msg) as [c| |]; [|apply Hjunk..].
    destruct (DecodeHeader ft (r_data c)) as [[i rest]| |]; [|cbn; apply Hjunk..].
    set (n := size32 _ _ _). destruct (zlen out <? n) eqn:E; [apply Hjunk|].
    destruct (decode ops L ppc i rest [] (firstn (Z.to_nat n) out)) as [[b mem]| |] eqn:ED; [|cbn; apply Hjunk..].
    destruct (n =? 0); [apply Hjunk|]. apply decode_length in ED. unfold zlen in *. rewrite app_length, skipn_length, ED, firstn_length. lia.
  Qed.

  (** One message decoded on its own. *)
  Definition outcome (r : res (ndarray * header)) (x : report) : Prop :=
    match r with Ok (a, h) => x = Decoded a h | Throw => x = Failed | UB => False end.

  Lemma run_spec max l : forall count out rs n, zlen out = size -> 0 <= count ->
    (match max with Some m => m = 0 \/ count < m | None => True end) ->
    run max count out l = Ok (rs, n) ->
    n = count + zlen rs /\
    Forall2 (fun it r => exists k mem, zlen mem = size /\ outcome (dec (it_data it) (yaml k) mem) r)
      (limited (match max with Some m => Some (if m =? 0 then 0 else m - count) | None => None end) (filter is_compressed l)) rs.
  Proof.
    induction l as [|it l IH]; intros count out rs n Ho Hc Hm HR.
    - cbn in HR. apply ok_pair in HR. destruct HR as (<- & <-). split; [unfold zlen; cbn; lia|].
      assert (E : forall o, limited o (filter is_compressed []) = []). { intros [m|]; cbn; [destruct (m =? 0); [reflexivity|apply firstn_nil]|reflexivity]. } rewrite E. constructor.
    - cbn [messages filter] in *. destruct (is_compressed it) eqn:EI; [|now apply IH with (out := out)].
      set (lim := match max with Some m => Some (if m =? 0 then 0 else m - count) | None => None end).
      destruct (match dec (it_data it) (yaml (count + 1)) out with Ok (a, h) => Ok (Decoded a h) | Throw => Ok Failed | UB => UB end) as [r| |] eqn:ER; [|discriminate HR..]. cbn [bind] in HR.
      assert (HO : outcome (dec (it_data it) (yaml (count + 1)) out) r). { unfold outcome. destruct (dec (it_data it) (yaml (count + 1)) out) as [[a h]| |]; congruence. }
      destruct (reached max (count + 1)) eqn:EM.
      + apply ok_pair in HR. destruct HR as (<- & <-). split; [unfold zlen; cbn; lia|].
        assert (EW : limited lim (it :: filter is_compressed l) = [it]).
        { unfold reached in EM. unfold lim. destruct max as [m|]; [|discriminate EM]. cbn [limited]. destruct (m =? 0) eqn:E0; [discriminate EM|]. cbn [negb andb] in EM.
          assert (E1 : m - count = 1) by lia. rewrite E1. reflexivity. }
        rewrite EW. constructor; [|constructor]. exists (count + 1), out. split; [exact Ho|exact HO].
      + destruct (run max (count + 1) (after_call ft ops L ppc junk (count + 1) (it_data it) out) l) as [[rs' n']| |] eqn:ET; [|discriminate HR..]. cbn [bind] in HR. apply ok_pair in HR. destruct HR as (<- & <-).
        assert (Hm' : match max with Some m => m = 0 \/ count + 1 < m | None => True end). { unfold reached in EM. destruct max as [m|]; [|exact I]. destruct (m =? 0) eqn:E0; [left; lia|]. cbn [negb andb] in EM. right. lia. }
        destruct (IH (count + 1) _ rs' n' (eq_trans (after_size _ _ _) Ho) ltac:(lia) Hm' ET) as (EN & HF). split; [unfold zlen in *; cbn [length]; lia|].
        assert (EW : limited lim (it :: filter is_compressed l) = it :: limited (match max with Some m => Some (if m =? 0 then 0 else m - (count + 1)) | None => None end) (filter is_compressed l)).
        { unfold lim. destruct max as [m|]; [|reflexivity]. destruct (m =? 0) eqn:E0; [reflexivity|]. cbn [limited]. destruct Hm' as [Hm'|Hm']; [lia|].
          assert (A : m - count =? 0 = false) by lia. assert (B : m - (count + 1) =? 0 = false) by lia. rewrite A, B. replace (Z.to_nat (m - count)) with (S (Z.to_nat (m - (count + 1)))) by lia. reflexivity. }
        rewrite EW. constructor; [|exact HF]. exists (count + 1), out. split; [exact Ho|exact HO].
  Qed.

  (** A run goes on to the end if no message makes the decoder leave its memory. *)
  Lemma run_ok max l : forall count out, zlen out = size ->
    Forall (fun it => is_compressed it = true -> forall k mem, zlen mem = size -> dec (it_data it) (yaml k) mem <> UB) l ->
    exists rs n, run max count out l = Ok (rs, n).
  Proof.
    induction l as [|it l IH]; intros count out Ho HF; [eexists _, _; reflexivity|].
    pose proof (Forall_inv HF) as H1. pose proof (Forall_inv_tail HF) as H2. cbn beta in H1. cbn [messages]. destruct (is_compressed it) eqn:EI; [|now apply IH].
    specialize (H1 eq_refl (count + 1) out Ho). 
    assert (E : exists r, match dec (it_data it) (yaml (count + 1)) out with Ok (a, h) => Ok (Decoded a h) | Throw => Ok Failed | UB => UB end = Ok r).
    { destruct (dec (it_data it) (yaml (count + 1)) out) as [[a h]| |]; [eexists; reflexivity..|congruence]. }
    destruct E as (r & ->). cbn [bind]. destruct (reached max (count + 1)); [eexists _, _; reflexivity|].
    destruct (IH (count + 1) (after_call ft ops L ppc junk (count + 1) (it_data it) out) (eq_trans (after_size _ _ _) Ho) H2) as (rs & n & ->). eexists _, _. reflexivity.
  Qed.

  (** The table of a message encoded by this library does not depend on what the output buffer held. *)
  Lemma good_message probe i data msg k mem : libs_ok L -> ysize < 2 ^ 32 -> zlen mem = size -> encoded_message ft ops L ppc probe i data size ysize msg ->
    exists a h, dec msg (yaml k) mem = Ok (a, h) /\ table_of ops i data a.
  Proof.
    intros HLi Hy Hm (HCo & HES & HDS & HD & HY & HX & Hb & HZ & HT & HPl & HTa & H0 & H31 & Hs & Hyt & c & n & s & HG & HSt & Hn & HRd).
    destruct (C66_round_trip utf8 py_float HP ft ops L ppc probe i data n s msg c (yaml k) mem HLi HCo HES HDS HD HY HX Hb HZ HSt Hn ltac:(lia) HT H31 HG HRd HPl HTa H0 ltac:(rewrite Hyaml; exact Hyt) ltac:(rewrite Hyaml; exact Hy)) as (a & h & res & ED & HRs & _ & _ & _ & HI).
    exists a, h. split; [exact ED|]. intros p f kk t Hp Hf Ht.
    destruct HRs as (_ & HR & _). destruct HCo as (_ & _ & Hsz & _). assert (Hst : 0 < i_step i) by apply HES.
    assert (Hnp : Z.of_nat (length data / Z.to_nat (i_step i)) = i_width i * i_height i). { rewrite Nat2Z.inj_div, Z2Nat.id by lia. fold (zlen data). rewrite Hsz. apply Z.div_mul. lia. }
    assert (Hin : In f (i_fields i)) by (apply in_combine_l in Hf; exact Hf).
    rewrite (HI (Z.of_nat p) f t ltac:(lia) Hin Ht). f_equal. f_equal.
    rewrite <- (HR p f f kk Hp (in_combine3 _ _ _ _ Hf)); [reflexivity|].
    unfold stored, kSkip. destruct HTa as (_ & _ & T3). rewrite Forall_forall in T3. specialize (T3 f Hin). destruct HPl as (_ & _ & P3 & _). change (2 ^ 32) with 4294967296 in P3.
    assert (0 < SizeOf (f_type f))%nat by (destruct (f_type f); cbn in Ht |- *; try discriminate Ht; lia). lia.
  Qed.

  (** ** Theorems *)
  (** Every message with a compressed cloud, up to the limit, is reported once, in the order of the
      recording and with the outcome it would have alone; the number printed at the end counts
      them.  Whatever happened to a message does not stop the following ones. *)
  Theorem C84_messages f arg out rs n : zlen out = size -> main utf8 py_float ft ops L ppc junk yaml f arg out = Ok (rs, n) ->
    let limit := if arg <? 0 then None else Some arg in
    (forall it, is_compressed it = true <-> cloud_message it) /\
    n = zlen rs /\
    Forall2 (fun it r => exists k mem, zlen mem = size /\ outcome (dec (it_data it) (yaml k) mem) r) (limited limit (filter is_compressed (fd_items f))) rs.
  Proof.
    intros Ho HM limit. split; [apply compressed_iff|]. unfold main, decode_mcap_file in HM. destruct (fd_summary f) as [[|]|]; try discriminate HM. fold limit in HM.
    assert (HL : match limit with Some m => m = 0 \/ 0 < m | None => True end). { unfold limit. destruct (arg <? 0) eqn:E; [exact I|]. lia. }
    destruct (run_spec limit (fd_items f) 0 out rs n Ho (Z.le_refl _) HL HM) as (EN & HF). split; [lia|].
    assert (EL : match limit with Some m => Some (if m =? 0 then 0 else m - 0) | None => None end = limit).
    { destruct limit as [m|]; [|reflexivity]. destruct (m =? 0) eqn:E; f_equal; lia. }
    now rewrite EL in HF.
  Qed.

  (** A recording in which every message with a compressed cloud was encoded by this library, or is
      rejected by the decoder: the run ends, the tables of the former hold the clouds they were made
      from, whatever came before them, and the latter are reported as failures. *)
  Theorem C84_recording f arg out : libs_ok L -> ysize < 2 ^ 32 -> zlen out = size -> fd_summary f = Some true ->
    let good it i data := exists probe, encoded_message ft ops L ppc probe i data size ysize (it_data it) in
    let bad it := forall k mem, zlen mem = size -> dec (it_data it) (yaml k) mem = Throw in
    (forall it, In it (fd_items f) -> cloud_message it -> (exists i data, good it i data) \/ bad it) ->
    exists rs n, main utf8 py_float ft ops L ppc junk yaml f arg out = Ok (rs, n) /\
      Forall2 (fun it r => (forall i data, good it i data -> exists a h, r = Decoded a h /\ table_of ops i data a) /\ (bad it -> r = Failed))
        (limited (if arg <? 0 then None else Some arg) (filter is_compressed (fd_items f))) rs.
  Proof.
    intros HLi Hy Ho HS good bad HI.
    assert (HR : exists rs n, main utf8 py_float ft ops L ppc junk yaml f arg out = Ok (rs, n)).
    { unfold main, decode_mcap_file. rewrite HS. apply run_ok; [exact Ho|]. apply Forall_forall. intros it Hit EI k mem Hm.
      destruct (HI it Hit (proj1 (compressed_iff it) EI)) as [(i & data & probe & HG)|HB].
      - destruct (good_message probe i data (it_data it) k mem HLi Hy Hm HG) as (a & h & -> & _). discriminate.
      - rewrite (HB k mem Hm). discriminate. }
    destruct HR as (rs & n & HR). exists rs, n. split; [exact HR|]. destruct (C84_messages f arg out rs n Ho HR) as (_ & _ & HF).
    eapply Forall2_map_prop; [|exact HF]. intros it r (k & mem & Hm & HO). split.
    - intros i data (probe & HG). destruct (good_message probe i data (it_data it) k mem HLi Hy Hm HG) as (a & h & EK & HT). rewrite EK in HO. cbn [outcome] in HO. now exists a, h.
    - intros HB. rewrite (HB k mem Hm) in HO. exact HO.
  Qed.
End Tool.

(** *** A recording *)
Definition compressed_item (data : list Z) : mcap_item := mkItem (Some (str "point_cloud_interfaces/msg/CompressedPointCloud2")) data.
Definition a_recording : mcap_file :=
  mkFile (Some true) [compressed_item (sent small_points); mkItem (Some (str "sensor_msgs/msg/Image")) [1; 2]; compressed_item [0; 1; 0; 0; 7]; mkItem None [3]; compressed_item (sent small_points)].
Local Notation tool f arg := (main ascii_utf8 no_float gnu_text sse_ops store_libs 128 (fun _ m => map (fun _ => 5) m) (fun _ => repeat 0 (Z.to_nat 4096)) f arg (repeat 9 (Z.to_nat 1280))).
Definition column_of (r : report) (name : list Z) (p : Z) := match r with Decoded a _ => np_item a name p | Failed => None end.

(** The hypotheses of C84_recording are met. *)
Example C84_case : let i := message_info small_points millimetre32 in
  encoded_message gnu_text sse_ops store_libs 128 4096 i (row 16 80) 1280 4096 (sent small_points) /\
  (forall yaml mem, decode_message ascii_utf8 no_float gnu_text sse_ops store_libs 128 [0; 1; 0; 0; 7] yaml mem = Throw) /\
  exists r1 r2 r3, tool a_recording (-1) = Ok ([r1; r2; r3], 3) /\ tool a_recording 2 = Ok ([r1; r2], 2) /\
    column_of r1 (str "z") 79 = Some (np_float32, [1; 0; 64; 65]) /\ r2 = Failed /\ column_of r3 (str "z") 79 = Some (np_float32, [1; 0; 64; 65]).
Proof.
  cbv zeta. split; [|split; [reflexivity|]].
  - pose proof (C52_case small_points (or_intror eq_refl)) as HC. cbv zeta in HC.
    destruct HC as (HLi & _ & _ & _ & _ & HES & Hb & HCo & HDS & HD & HY & HX & HT & _).
    set (i := message_info small_points millimetre32) in *.
    assert (EF : i_fields i = [mkField (str "x") 0 FLOAT32 (Some millimetre32); mkField (str "y") 4 FLOAT32 (Some millimetre32); mkField (str "z") 8 FLOAT32 (Some millimetre32)]) by reflexivity.
    assert (PL : forall s, forallb (fun c => (32 <=? c) && (c <=? 126)) s && negb (list_eqb s []) && negb (hd 0 s =? 32) && negb (last s 0 =? 32) = true -> plain s).
    { intros s H. rewrite !Bool.andb_true_iff in H. destruct H as (((A & B) & C) & D). split; [|split; [|split]].
      - apply Forall_forall. intros x Hx. rewrite forallb_forall in A. specialize (A x Hx). lia.
      - intros ->. discriminate B.
      - lia.
      - lia. }
    assert (PR : plain (ft_print gnu_text millimetre32)) by (apply PL; vm_compute; reflexivity).
    do 8 (split; [assumption || reflexivity|]). split; [exact HT|]. split.
    { unfold plain_header. change (2 ^ 32) with 4294967296. do 4 (split; [split; [vm_compute; discriminate|vm_compute; reflexivity]|]). split; [now left|].
      rewrite EF. repeat (constructor; [cbn [f_name f_off f_type f_res]; split; [apply PL; vm_compute; reflexivity|split; [lia|split; [discriminate|exact PR]]]|]). constructor. }
    split.
    { split; [rewrite EF; discriminate|]. rewrite EF. split; [|assert (ES : i_step i = 16) by reflexivity; rewrite ES; repeat (constructor; [cbn; lia|]); constructor].
      cbn [map f_name]. repeat (constructor; [cbn; intros K; repeat (destruct K as [K|K]; [discriminate K|]); exact K|]). constructor. }
    split; [vm_compute; reflexivity|]. split; [vm_compute; discriminate|]. split; [vm_compute; discriminate|]. split; [vm_compute; discriminate|].
    set (hdr := match EncodeHeader gnu_text i HYaml with Ok h => h | _ => [] end).
    assert (EH : EncodeHeader gnu_text i HYaml = Ok hdr) by (vm_compute; reflexivity).
    assert (EB : bytes hdr) by (apply bytesb; vm_compute; reflexivity).
    destruct (PointcloudEncoder i (Ok hdr)) as [e| |] eqn:EE; [|vm_compute in EE; discriminate EE..].
    set (buf := match PointcloudEncoder i (Ok hdr) with Ok e => snd (fst (encode_vec sse_ops store_libs 128 4096 e (row 16 80) [])) | _ => [] end).
    destruct (encode_vec sse_ops store_libs 128 4096 e (row 16 80) []) as [[r b] e'] eqn:EV.
    assert (Eb : buf = b) by (unfold buf; rewrite EE, EV; reflexivity).
    assert (Er : r = Ok (zlen buf)).
    { assert (K : match PointcloudEncoder i (Ok hdr) with Ok e => fst (fst (encode_vec sse_ops store_libs 128 4096 e (row 16 80) [])) | _ => UB end = Ok (zlen buf)) by (vm_compute; reflexivity).
      rewrite EE, EV in K. exact K. }
    destruct (vec_stream gnu_text sse_ops store_libs 128 4096 i (row 16 80) e hdr r b e' HLi HES EB EH EE EV) as (_ & HS). destruct (HS _ Er) as (_ & HS'). rewrite <- Eb in HS'.
    set (c := match getDeserializedPointCloudMessage (sent small_points) with Ok c => c | _ => small_points end).
    exists c, (zlen buf), buf. split; [vm_compute; reflexivity|]. split; [exact HS'|]. split; [vm_compute; reflexivity|]. vm_compute. reflexivity.
  - eexists _, _, _. split; [vm_compute; reflexivity|]. split; [vm_compute; reflexivity|]. split; [vm_compute; reflexivity|]. split; vm_compute; reflexivity.
Qed.


(** ** What does not hold *)
(** --max-messages 0 does not mean no message, but all of them. *)
Theorem C84_zero_refuted : exists rs n, tool a_recording 0 = Ok (rs, n) /\ n = 3 /\ length rs = 3%nat.
Proof. eexists _, _. split; [vm_compute; reflexivity|]. split; reflexivity. Qed.
(** Nothing is decoded of a recording whose writer was not closed, or left out the statistics: the
    program ends with an exception before the first message, though each of them can be read. *)
Theorem C84_unfinished_refuted utf8 py_float ft ops L ppc junk yaml f arg out :
  fd_summary f <> Some true -> main utf8 py_float ft ops L ppc junk yaml f arg out = Throw.
Proof. intros H. unfold main, decode_mcap_file. destruct (fd_summary f) as [[|]|]; [now destruct H|reflexivity..]. Qed.
Example C84_unfinished_case : fd_summary (mkFile None (fd_items a_recording)) <> Some true /\ length (fd_items a_recording) = 5%nat.
Proof. split; [discriminate|reflexivity]. Qed.
(** The name of the schema is not compared as a whole: a message of another type, whose name only
    contains the one of the compressed cloud, is taken for one and counted. *)
Theorem C84_other_type_refuted : exists it, it_schema it = Some (str "my_msgs/msg/CompressedPointCloud2Array") /\
  tool (mkFile (Some true) [it; compressed_item (sent small_points)]) 1 = Ok ([Failed], 1).
Proof. exists (mkItem (Some (str "my_msgs/msg/CompressedPointCloud2Array")) [0; 1; 0; 0; 7]). split; [reflexivity|]. vm_compute. reflexivity. Qed.

Print Assumptions C84_messages.
Print Assumptions C84_recording.
Print Assumptions C84_zero_refuted.
Print Assumptions C84_unfinished_refuted.
Print Assumptions C84_other_type_refuted.
