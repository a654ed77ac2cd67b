(** C66: the Python decoder. *)
From Verif Require Import Base BaseFacts Types Floats V5 Api Spec LibSpec Header Cdr Ros Wasm Python CloudFacts YamlFacts PropsHeader HeaderFacts YamlRT FloatText PropsPcl PropsCloud RoundTrip PropsFit PropsWasm Cases.
From Coq Require Import String Permutation.
Notation length := List.length.
Notation concat := List.concat.
Open Scope Z_scope.
Open Scope list_scope.

(** ** Specification *)
(** The numpy type with the meaning of a cloudini type.  The 64-bit integers have none in the decoder. *)
Definition np_of (t : ftype) : option np_type :=
  match t with
  | FLOAT32 => Some np_float32 | FLOAT64 => Some np_float64 | UINT8 => Some np_uint8 | UINT16 => Some np_uint16
  | UINT32 => Some np_uint32 | INT8 => Some np_int8 | INT16 => Some np_int16 | INT32 => Some np_int32 | _ => None
  end.
(** a text of printable ASCII characters that does not begin or end with a blank *)
Definition plain (s : list Z) : Prop := Forall (fun c => 32 <= c <= 126) s /\ s <> [] /\ hd 0 s <> 32 /\ last s 0 <> 32.
Definition plain_header (ft : float_text) (i : info) : Prop :=
  0 <= i_width i < 2 ^ 32 /\ 0 <= i_height i < 2 ^ 32 /\ 0 <= i_step i < 2 ^ 32 /\ 0 <= i_version i < 256 /\
  (i_cfg i = [] \/ plain (i_cfg i)) /\
  Forall (fun f => plain (f_name f) /\ 0 <= f_off f < 2 ^ 32 /\ np_of (f_type f) <> None /\ match f_res f with Some r => plain (ft_print ft r) | None => True end) (i_fields i).
(** Python's float() on the names the header contains, decode() on ASCII *)
Definition python (utf8 : list Z -> res (list Z)) (py_float : list Z -> option Z) : Prop :=
  (forall s, Forall (fun c => 0 <= c < 128) s -> utf8 s = Ok s) /\
  (forall t, py_float (FieldTypeToString t) = None).
(** the fields lie within a point and have different names *)
Definition tabular (i : info) : Prop :=
  i_fields i <> [] /\ NoDup (map f_name (i_fields i)) /\ Forall (fun f => f_off f + Z.of_nat (SizeOf (f_type f)) <= i_step i) (i_fields i).

(** ** Proofs *)
Definition tight (s : list Z) : Prop := s <> [] /\ py_space (hd 0 s) = false /\ py_space (last s 0) = false.
Lemma printable_space c : 33 <= c <= 126 -> py_space c = false.
Proof. intros H. unfold py_space. lia. Qed.
Lemma plain_tight s : plain s -> tight s.
Proof.
  intros (H1 & H2 & H3 & H4). split; [assumption|].
  assert (HF : forall x, In x s -> 32 <= x <= 126) by (apply Forall_forall; assumption). destruct s as [|x s]; [congruence|]. split.
  - apply printable_space. cbn [hd] in *. specialize (HF x (or_introl eq_refl)). lia.
  - apply printable_space. assert (In (last (x :: s) 0) (x :: s)). { rewrite (app_removelast_last 0 H2) at 2. apply in_or_app. right. now left. } specialize (HF _ H). lia.
Qed.
Lemma lstrip_id s : py_space (hd 0 s) = false -> py_lstrip s = s.
Proof. destruct s as [|c s]; [reflexivity|]. cbn. now intros ->. Qed.
Lemma hd_rev (s : list Z) : hd 0 (rev s) = last s 0.
Proof.
  destruct s as [|x s] using rev_ind; [reflexivity|]. rewrite rev_app_distr, last_last. reflexivity.
Qed.
Lemma strip_tight s : tight s -> py_strip s = s.
Proof. intros (H1 & H2 & H3). unfold py_strip. rewrite (lstrip_id s) by assumption. rewrite lstrip_id by (now rewrite hd_rev). apply rev_involutive. Qed.
Lemma lstrip_blanks n s : py_lstrip (repeat 32 n ++ s) = py_lstrip s.
Proof. induction n; [reflexivity|]. exact IHn. Qed.
Lemma strip_blanks n s : tight s -> py_strip (repeat 32 n ++ s) = s.
Proof. intros H. unfold py_strip. rewrite lstrip_blanks. exact (strip_tight s H). Qed.
Lemma tight_join a b : tight a -> b <> [] -> py_space (last b 0) = false -> tight (a ++ b).
Proof.
  intros (H1 & H2 & H3) H4 H5. split; [now destruct a|]. split; [now destruct a|].
  destruct b as [|x b] using rev_ind; [congruence|]. rewrite app_assoc, last_last. now rewrite last_last in H5.
Qed.
Lemma last_app_ne (a b : list Z) : b <> [] -> last (a ++ b) 0 = last b 0.
Proof. destruct b as [|x b] using rev_ind; [congruence|]. intros _. now rewrite app_assoc, !last_last. Qed.
Lemma find_first c a b : ~ In c a -> find_char c (a ++ c :: b) = Some (a, b).
Proof.
  induction a as [|x a IH]; intros H; cbn.
  - now rewrite Z.eqb_refl.
  - destruct (Z.eqb_spec x c) as [->|]; [exfalso; apply H; now left|]. rewrite IH; [reflexivity|]. intros K. apply H. now right.
Qed.
Lemma split_line a b : ~ In 10 a -> py_split 10 (a ++ 10 :: b) = a :: py_split 10 b.
Proof.
  induction a as [|x a IH]; intros H; cbn.
  - reflexivity.
  - destruct (Z.eqb_spec x 10) as [->|]; [exfalso; apply H; now left|]. rewrite IH; [reflexivity|]. intros K. apply H. now right.
Qed.
Lemma plain_no10 s : plain s -> ~ In 10 s.
Proof. intros (H & _) K. rewrite Forall_forall in H. specialize (H _ K). lia. Qed.

Section Python.
  Variables (utf8 : list Z -> res (list Z)) (py_float : list Z -> option Z).
  Hypothesis HP : python utf8 py_float.
  Local Notation value := (parse_yaml_value py_float).
  Local Notation line := (parse_line py_float).

  Lemma fold_line a b s : ~ In 10 a -> fold_left line (py_split 10 (a ++ 10 :: b)) s = fold_left line (py_split 10 b) (line s a).
  Proof. intros H. now rewrite split_line. Qed.
  (** "key: value" *)
  Lemma key_value k v : tight k -> ~ In 58 k -> tight v -> py_strip (k ++ 58 :: 32 :: v) = k ++ 58 :: 32 :: v /\ py_split1 58 (k ++ 58 :: 32 :: v) = Some (k, 32 :: v) /\ py_strip (32 :: v) = v /\ py_strip k = k.
  Proof.
    intros H1 H2 H3. split; [|split; [|split]].
    - apply strip_tight. apply tight_join; [assumption|discriminate|]. change (58 :: 32 :: v) with ([58; 32] ++ v). destruct H3 as (A & B & C). now rewrite last_app_ne.
    - now apply find_first.
    - exact (strip_blanks 1 v H3).
    - now apply strip_tight.
  Qed.
  Lemma top_line s k v : p_in s = false -> tight k -> ~ In 58 k -> py_startswith (k ++ 58 :: 32 :: v) (str "fields:") = false -> tight v ->
    line s (k ++ 58 :: 32 :: v) = mkP (dset (p_header s) k (value v)) (p_fields s) (p_current s) false.
  Proof. intros H1 H2 H3 H4 H5. destruct (key_value k v H2 H3 H5) as (A & B & C & D). unfold parse_line. rewrite A, H4, H1, B, C, D. reflexivity. Qed.
  Lemma field_line s d k v : p_in s = true -> p_current s = Some d -> tight k -> ~ In 58 k -> tight v ->
    py_startswith (k ++ 58 :: 32 :: v) (str "fields:") = false -> py_startswith (k ++ 58 :: 32 :: v) (str "- name:") = false -> py_startswith (k ++ 58 :: 32 :: v) (str "-") = false ->
    line s (repeat 32 4 ++ k ++ 58 :: 32 :: v) = mkP (p_header s) (p_fields s) (Some (dset d k (value v))) true.
  Proof.
    intros H1 H2 H3 H4 H5 H6 H7 H8. destruct (key_value k v H3 H4 H5) as (A & B & C & D). unfold parse_line.
    assert (T : tight (k ++ 58 :: 32 :: v)). { apply tight_join; [assumption|discriminate|]. change (58 :: 32 :: v) with ([58; 32] ++ v). destruct H5 as (E & F & G). now rewrite last_app_ne. }
    rewrite (strip_blanks 4 _ T), H6, H1, H7, B, H8, H2, C, D. reflexivity.
  Qed.
  Lemma name_line s n : p_in s = true -> tight n ->
    line s (repeat 32 2 ++ str "- name: " ++ n) = mkP (p_header s) (close s) (Some [(str "name", VStr n)]) true.
  Proof.
    intros H1 H2. assert (T : tight (str "- name: " ++ n)). { split; [discriminate|]. split; [reflexivity|]. destruct H2 as (A & B & C). now rewrite last_app_ne. }
    unfold parse_line. rewrite (strip_blanks 2 _ T). change (py_startswith (str "- name: " ++ n) (str "fields:")) with false. cbn iota. rewrite H1. change (py_startswith (str "- name: " ++ n) (str "- name:")) with true. cbn iota.
    change (str "- name: " ++ n) with (str "- name" ++ 58 :: 32 :: n). unfold py_split1. rewrite find_first by (cbn; lia). rewrite (strip_blanks 1 n H2 : py_strip (32 :: n) = n). reflexivity.
  Qed.
  Lemma fields_line s : line s (str "fields:") = mkP (p_header s) (p_fields s) (p_current s) true.
  Proof. reflexivity. Qed.
  Lemma empty_line s : line s [] = s.
  Proof. destruct s as [h fs c b]. unfold parse_line. cbn. destruct b; reflexivity. Qed.

  (** numbers *)
  Lemma int_loop_digits s : Forall (fun c => isdigit c = true) s -> forall acc b v, digits s (Some acc) = Some v -> (s <> [] \/ b = true) -> int_loop s acc b = Some v.
  Proof.
    induction 1 as [|c s Hc Hs IH]; intros acc b v HD Hb; cbn in *.
    - destruct Hb as [Hb | ->]; [congruence|]. exact HD.
    - rewrite Hc in *. apply IH; [assumption|now right].
  Qed.
  Lemma digit_space c : isdigit c = true -> py_space c = false.
  Proof. unfold isdigit. intros H. apply printable_space. lia. Qed.
  Lemma number v : 0 <= v < 4294967296 -> value (dec_text v) = VInt v /\ tight (dec_text v) /\ ~ In 10 (dec_text v) /\ Forall (fun c => 0 <= c < 128) (dec_text v).
  Proof.
    intros Hv. destruct (dec_text_spec v Hv) as (HC & HD & HU). set (s := dec_text v) in *.
    assert (Hne : s <> []) by apply HC.
    assert (Hfa : forall x, In x s -> isdigit x = true) by (apply Forall_forall; exact HD).
    assert (HT : tight s). { split; [exact Hne|]. split; apply digit_space, Hfa; [destruct s; [congruence|now left]|]. rewrite (app_removelast_last 0 Hne) at 2. apply in_or_app. right. now left. }
    split; [|split; [exact HT|split]].
    - unfold parse_yaml_value.
      destruct s as [|c s'] eqn:Es; [congruence|]. assert (Hc : isdigit c = true) by (apply Hfa; now left).
      assert (N1 : list_eqb (c :: s') (str "null") = false). { unfold list_eqb. destruct (list_eq_dec _ _ _) as [E|]; [|reflexivity]. assert (c = 110) by (now injection E). subst c. discriminate Hc. }
      assert (N2 : list_eqb (c :: s') (str "None") = false). { unfold list_eqb. destruct (list_eq_dec _ _ _) as [E|]; [|reflexivity]. assert (c = 78) by (now injection E). subst c. discriminate Hc. }
      rewrite N1, N2. cbn [orb]. unfold py_int. rewrite strip_tight by exact HT.
      assert (HS : signed_digits (c :: s') = (false, digits (c :: s') None)).
      { unfold signed_digits. cbn [drop_space]. assert (isspace c = false) by (unfold isspace, isdigit in *; lia). rewrite H. destruct c as [|c|c]; try reflexivity. do 6 (destruct c as [c|c|]; try reflexivity); discriminate Hc. }
      assert (HV : digits (c :: s') None = Some v).
      { unfold as_uint32 in HU. rewrite HS in HU. destruct (digits (c :: s') None) as [x|] eqn:Ex; [|discriminate HU]. destruct (4294967295 <? x) eqn:E; [discriminate HU|]. assert (EU : u32 x = v) by congruence. f_equal. rewrite <- EU. symmetry. unfold u32. apply Z.mod_small.
        assert (NN : forall l a y, Forall (fun c => isdigit c = true) l -> 0 <= a -> digits l (Some a) = Some y -> 0 <= y).
        { induction l as [|q l IH]; intros a y HF Ha HE; cbn in HE; [congruence|]. inversion_clear HF as [|? ? Hq Hl]. rewrite Hq in HE. apply IH in HE; [exact HE|exact Hl|]. unfold isdigit in Hq. lia. }
        inversion_clear HD as [|? ? Hq Hl]. cbn [digits] in Ex. rewrite Hq in Ex. apply NN in Ex; [lia|exact Hl|unfold isdigit in Hq; lia]. }
      assert (HI : int_loop (c :: s') 0 false = Some v). { apply int_loop_digits; [exact HD| |left; discriminate]. cbn [digits] in HV |- *. rewrite Hc in *. exact HV. }
      assert (N3 : c <> 45 /\ c <> 43) by (unfold isdigit in Hc; lia).
      assert (G : match c :: s' with 45 :: r => match int_loop r 0 false with Some w => Some (- w) | None => None end | 43 :: r => int_loop r 0 false | r => int_loop r 0 false end = int_loop (c :: s') 0 false).
      { destruct c as [|c|c]; try reflexivity. do 6 (destruct c as [c|c|]; try reflexivity); lia. }
      rewrite G, HI. reflexivity.
    - intros K. specialize (Hfa _ K). discriminate Hfa.
    - apply Forall_forall. intros x Hx. specialize (Hfa _ Hx). unfold isdigit in Hfa. lia.
  Qed.

  (** what the parser makes of the lines of a field *)
  Definition res_value (ft : float_text) (f : field) : py_value := match f_res f with Some r => value (ft_print ft r) | None => VNone end.
  Definition field_dict (ft : float_text) (f : field) : py_dict :=
    [(str "name", VStr (f_name f)); (str "offset", VInt (f_off f)); (str "type", VStr (FieldTypeToString (f_type f))); (str "resolution", res_value ft f)].
  Lemma type_text t : value (FieldTypeToString t) = VStr (FieldTypeToString t) /\ tight (FieldTypeToString t) /\ ~ In 10 (FieldTypeToString t).
  Proof.
    split; [|split].
    - unfold parse_yaml_value. destruct HP as (_ & HF). rewrite HF. destruct t; reflexivity.
    - destruct t; (split; [discriminate|split; reflexivity]).
    - destruct t; intros K; repeat (destruct K as [K|K]; [discriminate K|]); exact K.
  Qed.
  Lemma in_app3 (a b : list Z) x : ~ In x a -> ~ In x b -> ~ In x (a ++ b).
  Proof. intros H1 H2 K. apply in_app_or in K. tauto. Qed.
  Ltac nope := let K := fresh in intros K; repeat (destruct K as [K|K]; [discriminate K|]); exact K.
  Lemma field_fold ft f rest s : plain (f_name f) -> 0 <= f_off f < 2 ^ 32 -> match f_res f with Some r => plain (ft_print ft r) | None => True end -> p_in s = true ->
    fold_left line (py_split 10 (field_yaml ft f ++ rest)) s = fold_left line (py_split 10 rest) (mkP (p_header s) (close s) (Some (field_dict ft f)) true).
  Proof.
    intros H1 H2 H3 H4. change (2 ^ 32) with 4294967296 in H2. destruct (number _ H2) as (V1 & V2 & V3 & _). destruct (type_text (f_type f)) as (T1 & T2 & T3).
    set (rt := match f_res f with Some r => ft_print ft r | None => str "null" end).
    assert (R : tight rt /\ ~ In 10 rt /\ value rt = res_value ft f).
    { unfold rt, res_value. destruct (f_res f) as [r|]; [split; [now apply plain_tight|split; [now apply plain_no10|reflexivity]]|]. split; [split; [discriminate|split; reflexivity]|]. split; [nope|reflexivity]. }
    destruct R as (R1 & R2 & R3).
    assert (E : field_yaml ft f ++ rest =
      (repeat 32 2 ++ str "- name: " ++ f_name f) ++ 10 :: (repeat 32 4 ++ str "offset" ++ 58 :: 32 :: dec_text (f_off f)) ++ 10 :: (repeat 32 4 ++ str "type" ++ 58 :: 32 :: FieldTypeToString (f_type f)) ++ 10 :: (repeat 32 4 ++ str "resolution" ++ 58 :: 32 :: rt) ++ 10 :: rest).
    { unfold field_yaml, rt, nl. destruct (f_res f); rewrite <- !app_assoc; reflexivity. }
    rewrite E. rewrite !fold_line.
    - rewrite name_line by (try assumption; now apply plain_tight). set (s1 := mkP _ _ _ _).
      rewrite (field_line s1 [(str "name", VStr (f_name f))] (str "offset") (dec_text (f_off f)) eq_refl eq_refl); [|split; [discriminate|split; reflexivity]|nope|assumption|reflexivity..]. rewrite V1.
      set (s2 := mkP _ _ _ _). rewrite (field_line s2 [(str "name", VStr (f_name f)); (str "offset", VInt (f_off f))] (str "type") (FieldTypeToString (f_type f)) eq_refl eq_refl); [|split; [discriminate|split; reflexivity]|nope|assumption|reflexivity..]. rewrite T1.
      set (s3 := mkP _ _ _ _). rewrite (field_line s3 [(str "name", VStr (f_name f)); (str "offset", VInt (f_off f)); (str "type", VStr (FieldTypeToString (f_type f)))] (str "resolution") rt eq_refl eq_refl); [|split; [discriminate|split; reflexivity]|nope|assumption|reflexivity..]. rewrite R3.
      reflexivity.
    - repeat apply in_app3; try nope. change (58 :: 32 :: rt) with ([58; 32] ++ rt). apply in_app3; [nope|assumption].
    - repeat apply in_app3; try nope. change (58 :: 32 :: FieldTypeToString (f_type f)) with ([58; 32] ++ FieldTypeToString (f_type f)). apply in_app3; [nope|assumption].
    - repeat apply in_app3; try nope. change (58 :: 32 :: dec_text (f_off f)) with ([58; 32] ++ dec_text (f_off f)). apply in_app3; [nope|assumption].
    - repeat apply in_app3; try nope. now apply plain_no10.
  Qed.
  Lemma close_in s : close (mkP (p_header s) (p_fields s) (p_current s) true) = close s.
  Proof. reflexivity. Qed.
  Lemma fields_fold ft fs : forall s, p_in s = true ->
    Forall (fun f => plain (f_name f) /\ 0 <= f_off f < 2 ^ 32 /\ np_of (f_type f) <> None /\ match f_res f with Some r => plain (ft_print ft r) | None => True end) fs ->
    let s' := fold_left line (py_split 10 (concat (map (field_yaml ft) fs))) s in
    p_header s' = p_header s /\ close s' = close s ++ map (field_dict ft) fs.
  Proof.
    induction fs as [|f fs IH]; intros s Hs HF; cbn [map concat].
    - cbn [py_split fold_left]. cbv zeta. rewrite empty_line. split; [reflexivity|now rewrite app_nil_r].
    - destruct (Forall_inv HF) as (A & B & C & D). assert (HF' := Forall_inv_tail HF). rewrite (field_fold ft f _ s A B D Hs). set (s1 := mkP _ _ _ _). destruct (IH s1 eq_refl HF') as (E1 & E2). cbv zeta. split; [exact E1|]. rewrite E2. unfold s1. unfold close at 1. cbn [p_current p_fields field_dict]. now rewrite <- app_assoc.
  Qed.

  (** The header the decoder returns *)
  Definition header_dict (i : info) (e c : py_value) (g : py_value) : py_dict :=
    [(str "version", VInt (i_version i)); (str "width", VInt (i_width i)); (str "height", VInt (i_height i)); (str "point_step", VInt (i_step i)); (str "encoding_opt", e); (str "compression_opt", c)] ++
    match i_cfg i with [] => [] | _ => [(str "encoding_config", g)] end.
  Lemma enc_text e : tight (EncodingToString e) /\ ~ In 10 (EncodingToString e).
  Proof. destruct e; (split; [split; [discriminate|split; reflexivity]|nope]). Qed.
  Lemma comp_text e : tight (CompressionToString e) /\ ~ In 10 (CompressionToString e).
  Proof. destruct e; (split; [split; [discriminate|split; reflexivity]|nope]). Qed.
  Lemma header_parsed ft i : plain_header ft i -> parse_header py_float (EncodingInfoToYAML ft i) =
    mkHeader (header_dict i (value (EncodingToString (i_enc i))) (value (CompressionToString (i_comp i))) (value (i_cfg i))) (map (field_dict ft) (i_fields i)).
  Proof.
    intros (H1 & H2 & H3 & H4 & H5 & H6). change (2 ^ 32) with 4294967296 in H1, H2, H3. destruct (number _ H1) as (A1 & A2 & A3 & _). destruct (number _ H2) as (B1 & B2 & B3 & _). destruct (number _ H3) as (C1 & C2 & C3 & _). destruct (number (i_version i) ltac:(lia)) as (D1 & D2 & D3 & _).
    destruct (enc_text (i_enc i)) as (E1 & E2). destruct (comp_text (i_comp i)) as (F1 & F2).
    set (tail := str "fields:" ++ 10 :: concat (map (field_yaml ft) (i_fields i))).
    set (cfg := match i_cfg i with [] => [] | c => (str "encoding_config" ++ 58 :: 32 :: c) ++ [10] end).
    assert (ET : EncodingInfoToYAML ft i = (str "version" ++ 58 :: 32 :: dec_text (i_version i)) ++ 10 :: (str "width" ++ 58 :: 32 :: dec_text (i_width i)) ++ 10 :: (str "height" ++ 58 :: 32 :: dec_text (i_height i)) ++ 10 ::
      (str "point_step" ++ 58 :: 32 :: dec_text (i_step i)) ++ 10 :: (str "encoding_opt" ++ 58 :: 32 :: EncodingToString (i_enc i)) ++ 10 :: (str "compression_opt" ++ 58 :: 32 :: CompressionToString (i_comp i)) ++ 10 :: cfg ++ tail).
    { unfold EncodingInfoToYAML, cfg, tail, nl. destruct (i_cfg i); rewrite <- ?app_assoc; reflexivity. }
    assert (NT : forall k t, ~ In 10 k -> ~ In 10 t -> ~ In 10 (k ++ 58 :: 32 :: t)). { intros k t X Y. apply in_app3; [exact X|]. change (58 :: 32 :: t) with ([58; 32] ++ t). apply in_app3; [nope|exact Y]. }
    unfold parse_header. rewrite ET. rewrite !fold_line by (apply NT; [nope|assumption]).
    rewrite (top_line (mkP [] [] None false) (str "version") (dec_text (i_version i))); [|reflexivity|split; [discriminate|split; reflexivity]|nope|reflexivity|assumption]. cbn [p_header p_fields p_current]. rewrite D1.
    rewrite (top_line _ (str "width") (dec_text (i_width i))); [|reflexivity|split; [discriminate|split; reflexivity]|nope|reflexivity|assumption]. cbn [p_header p_fields p_current]. rewrite A1.
    rewrite (top_line _ (str "height") (dec_text (i_height i))); [|reflexivity|split; [discriminate|split; reflexivity]|nope|reflexivity|assumption]. cbn [p_header p_fields p_current]. rewrite B1.
    rewrite (top_line _ (str "point_step") (dec_text (i_step i))); [|reflexivity|split; [discriminate|split; reflexivity]|nope|reflexivity|assumption]. cbn [p_header p_fields p_current]. rewrite C1.
    rewrite (top_line _ (str "encoding_opt") (EncodingToString (i_enc i))); [|reflexivity|split; [discriminate|split; reflexivity]|nope|reflexivity|assumption]. cbn [p_header p_fields p_current].
    rewrite (top_line _ (str "compression_opt") (CompressionToString (i_comp i))); [|reflexivity|split; [discriminate|split; reflexivity]|nope|reflexivity|assumption]. cbn [p_header p_fields p_current].
    set (d := dset _ (str "compression_opt") _).
    assert (K : fold_left line (py_split 10 (cfg ++ tail)) (mkP d [] None false) =
      fold_left line (py_split 10 tail) (mkP (d ++ match i_cfg i with [] => [] | _ => [(str "encoding_config", value (i_cfg i))] end) [] None false)).
    { unfold cfg. destruct H5 as [H5|H5]; [rewrite H5, app_nil_r; reflexivity|]. destruct (i_cfg i) as [|x c] eqn:Ec; [now rewrite app_nil_r|].
      rewrite <- app_assoc. change ([10] ++ tail) with (10 :: tail). rewrite fold_line by (apply NT; [nope|now apply plain_no10]).
      rewrite top_line; [|reflexivity|split; [discriminate|split; reflexivity]|nope|reflexivity|now apply plain_tight]. reflexivity. }
    rewrite K. unfold tail. rewrite fold_line by nope. rewrite fields_line. cbn [p_header p_fields p_current]. set (s := mkP _ _ _ _).
    destruct (fields_fold ft (i_fields i) s eq_refl H6) as (G1 & G2). cbv zeta in G1, G2. f_equal; [rewrite G1; reflexivity|rewrite G2; reflexivity].
  Qed.

  (** the table *)
  Definition np_type_of (t : ftype) : np_type := match np_of t with Some n => n | None => np_uint8 end.
  Definition field_col (f : field) : column := mkCol (f_name f) (np_type_of (f_type f)) (f_off f).
  Lemma type_known ft f : np_of (f_type f) <> None -> type_of (field_dict ft f) = np_type_of (f_type f) /\ np_size (np_type_of (f_type f)) = SizeOf (f_type f).
  Proof. intros H. unfold type_of. cbn [field_dict dget]. destruct f as [n o t r]. cbn [f_type] in *. destruct t; try (exfalso; now apply H); split; reflexivity. Qed.
  Lemma columns_of ft fs : Forall (fun f => np_of (f_type f) <> None) fs -> columns (map (field_dict ft) fs) = Ok (map field_col fs).
  Proof.
    induction fs as [|f fs IH]; intros HF; [reflexivity|]. cbn [map columns]. rewrite IH by (exact (Forall_inv_tail HF)). destruct (type_known ft f (Forall_inv HF)) as (E & _). cbn [field_dict] in *.
    rewrite E. reflexivity.
  Qed.
  Lemma insert_perm c l : Permutation (insert c l) (c :: l).
  Proof. induction l as [|x l IH]; cbn; [reflexivity|]. destruct (col_off c <=? col_off x); [reflexivity|]. rewrite IH. apply perm_swap. Qed.
  Lemma sort_perm l : Permutation (sort l) l.
  Proof. induction l as [|x l IH]; cbn; [reflexivity|]. now rewrite insert_perm, IH. Qed.
  Lemma list_eqb_true a b : list_eqb a b = true <-> a = b.
  Proof. unfold list_eqb. destruct (list_eq_dec _ _ _); split; congruence. Qed.
  Lemma distinct_nodup l : NoDup l -> distinct l = true.
  Proof.
    induction 1 as [|x l Hx Hl IH]; [reflexivity|]. cbn. rewrite IH, Bool.andb_true_r. destruct (existsb _ l) eqn:E; [|reflexivity]. apply existsb_exists in E. destruct E as (y & Hy & Ey). apply list_eqb_true in Ey. congruence.
  Qed.
  Lemma find_col_in cols c : NoDup (map col_name cols) -> In c cols -> find_col cols (col_name c) = Some c.
  Proof.
    induction cols as [|x cols IH]; intros HN HI; [destruct HI|]. cbn [find_col]. destruct (list_eqb (col_name x) (col_name c)) eqn:E.
    - apply list_eqb_true in E. destruct HI as [->|HI]; [reflexivity|]. cbn in HN. inversion_clear HN as [|? ? Hx _]. exfalso. apply Hx. rewrite E. now apply in_map.
    - destruct HI as [->|HI]; [|apply IH; [now inversion_clear HN|assumption]]. assert (list_eqb (col_name c) (col_name c) = true) by now apply list_eqb_true. congruence.
  Qed.
  Lemma table ft i data : plain_header ft i -> tabular i -> zlen data = i_width i * i_height i * i_step i ->
    exists cols, frombuffer (sort (map field_col (i_fields i))) (i_step i) (i_width i * i_height i) data = Ok (Structured cols (i_step i) (i_width i * i_height i) data) /\
      forall f, In f (i_fields i) -> find_col cols (f_name f) = Some (field_col f).
  Proof.
    intros (H1 & H2 & H3 & H4 & H5 & H6) (T1 & T2 & T3) HZ. set (cols := sort (map field_col (i_fields i))). exists cols.
    assert (PM : Permutation cols (map field_col (i_fields i))) by apply sort_perm.
    assert (ND : NoDup (map col_name cols)). { eapply Permutation_NoDup; [symmetry; apply Permutation_map; exact PM|]. rewrite map_map. exact T2. }
    assert (IN : forall c, In c cols -> exists f, In f (i_fields i) /\ c = field_col f). { intros c Hc. eapply Permutation_in in Hc; [|exact PM]. apply in_map_iff in Hc. destruct Hc as (f & E & Hf). now exists f. }
    rewrite Forall_forall in H6, T3.
    assert (ST : 0 < i_step i). { destruct (i_fields i) as [|f fs]; [congruence|]. specialize (T3 f (or_introl eq_refl)). destruct (H6 f (or_introl eq_refl)) as (_ & O & N & _). destruct (f_type f); cbn in T3, N; try congruence; lia. }
    split.
    - unfold frombuffer, dtype_ok. rewrite distinct_nodup by assumption.
      assert (F1 : forallb (fun c => negb (list_eqb (col_name c) [])) cols = true).
      { apply forallb_forall. intros c Hc. destruct (IN c Hc) as (f & Hf & ->). destruct (H6 f Hf) as ((_ & Hn & _) & _). cbn [field_col col_name]. unfold list_eqb. destruct (list_eq_dec _ _ _); [congruence|reflexivity]. }
      assert (F2 : forallb (fun c => (0 <=? col_off c) && (col_off c + Z.of_nat (np_size (col_type c)) <=? i_step i)) cols = true).
      { apply forallb_forall. intros c Hc. destruct (IN c Hc) as (f & Hf & ->). destruct (H6 f Hf) as (_ & O & N & _). specialize (T3 f Hf). cbn [field_col col_off col_type]. destruct (type_known ft f N) as (_ & ->). lia. }
      rewrite F1, F2. assert (F3 : 0 <? i_step i = true) by lia. rewrite F3. cbn [andb negb]. rewrite HZ.
      assert (F4 : (i_width i * i_height i <? 0) || (i_width i * i_height i * i_step i <? i_width i * i_height i * i_step i) = false) by nia. rewrite F4. reflexivity.
    - intros f Hf. apply (find_col_in cols (field_col f)); [exact ND|]. eapply Permutation_in; [symmetry; exact PM|]. now apply in_map.
  Qed.

  Lemma ascii_text ft i : plain_header ft i -> Forall (fun c => 0 <= c < 128) (EncodingInfoToYAML ft i).
  Proof.
    intros (H1 & H2 & H3 & H4 & H5 & H6). change (2 ^ 32) with 4294967296 in H1, H2, H3.
    assert (N : forall v, 0 <= v < 4294967296 -> Forall (fun c => 0 <= c < 128) (dec_text v)) by (intros v Hv; apply (number v Hv)).
    assert (PA : forall s, plain s -> Forall (fun c => 0 <= c < 128) s). { intros s (H & _). eapply Forall_impl; [|exact H]. intros a Ha. cbn in Ha. lia. }
    assert (ST : forall s, forallb (fun c => (0 <=? c) && (c <? 128)) s = true -> Forall (fun c => 0 <= c < 128) s). { intros s H. apply Forall_forall. intros x Hx. rewrite forallb_forall in H. specialize (H x Hx). lia. }
    unfold EncodingInfoToYAML. repeat (apply Forall_app; split); try (apply ST; reflexivity); try (apply N; lia).
    - destruct (i_enc i); apply ST; reflexivity.
    - destruct (i_comp i); apply ST; reflexivity.
    - destruct H5 as [H5|H5]; [rewrite H5; constructor|]. destruct (i_cfg i) eqn:E; [constructor|]. rewrite <- E in *. repeat (apply Forall_app; split); try (apply ST; reflexivity). now apply PA.
    - apply Forall_concat. apply Forall_map. eapply Forall_impl; [|exact H6]. intros f (F1 & F2 & F3 & F4). change (2 ^ 32) with 4294967296 in F2. unfold field_yaml. repeat (apply Forall_app; split); try (apply ST; reflexivity); try (apply N; lia).
      + now apply PA.
      + destruct (f_type f); apply ST; reflexivity.
      + destruct (f_res f); repeat (apply Forall_app; split); try (apply ST; reflexivity). now apply PA.
  Qed.

  (** ** Theorems *)
  Variables (ft : float_text) (ops : float_ops) (L : libs) (ppc : nat).
  (** The text of every header an encoder writes is read back right: the numbers and the fields, in
      their order. *)
  Theorem C66_header i : plain_header ft i -> let h := parse_header py_float (EncodingInfoToYAML ft i) in
    dget (hd_values h) (str "width") = Some (VInt (i_width i)) /\ dget (hd_values h) (str "height") = Some (VInt (i_height i)) /\
    dget (hd_values h) (str "point_step") = Some (VInt (i_step i)) /\ dget (hd_values h) (str "version") = Some (VInt (i_version i)) /\
    Forall2 (fun d f => dget d (str "name") = Some (VStr (f_name f)) /\ dget d (str "offset") = Some (VInt (f_off f)) /\
                        dget d (str "type") = Some (VStr (FieldTypeToString (f_type f))) /\ (f_res f = None -> dget d (str "resolution") = Some VNone)) (hd_fields h) (i_fields i).
  Proof.
    intros H. rewrite header_parsed by assumption. cbv zeta. cbn [hd_values hd_fields]. do 4 (split; [reflexivity|]).
    induction (i_fields i) as [|f fs IH]; constructor; [|exact IH]. do 3 (split; [reflexivity|]). intros E. unfold field_dict, res_value. rewrite E. reflexivity.
  Qed.

  (** A message whose stream the library decodes (to the [size] bytes at the start of [mem]) gives a
      table: one row for each point, one column for each field, holding the decoded bytes with the
      type of the field. *)
  Theorem C66_table msg yaml out c i rest mem : plain_header ft i -> tabular i ->
    getDeserializedPointCloudMessage msg = Ok c -> DecodeHeader ft (r_data c) = Ok (i, rest) ->
    let size := i_width i * i_height i * i_step i in
    0 < size < 2 ^ 32 -> size <= zlen out -> cldn_DecodeCompressedMessage ft ops L ppc msg out = (Ok size, mem) ->
    zlen (EncodingInfoToYAML ft i) <= zlen yaml -> zlen yaml < 2 ^ 32 -> zlen mem = zlen out ->
    exists a h, decode_message utf8 py_float ft ops L ppc msg yaml out = Ok (a, h) /\
      h = parse_header py_float (EncodingInfoToYAML ft i) /\
      forall p f t, 0 <= p < i_width i * i_height i -> In f (i_fields i) -> np_of (f_type f) = Some t ->
        np_item a (f_name f) p = Some (t, firstn (SizeOf (f_type f)) (skipn (Z.to_nat (p * i_step i + f_off f)) mem)).
  Proof.
    intros HPl HTa HG HDH size Hsz Hso HDM HYa Hy32. change (2 ^ 32) with 4294967296 in *. set (text := EncodingInfoToYAML ft i) in *.
    assert (HA : Forall (fun c => 0 <= c < 128) text) by now apply ascii_text.
    assert (HG2 : get_header_info utf8 py_float ft msg yaml = Ok (Some (parse_header py_float text))).
    { unfold get_header_info, cldn_GetHeaderAsYAMLFromDDS, cldn_GetHeaderAsYAML, or_zero. rewrite HG, HDH. fold text.
      destruct (emit_within text yaml _ (Z.le_refl _) HYa ltac:(lia)) as (_ & W2 & W3). destruct (emit text yaml) as [x y]. cbn [fst snd] in *. subst x y. cbn [bind].
      assert (Hn : zlen text =? 0 = false). { apply Z.eqb_neq. assert (E : text = 118 :: tl text) by reflexivity. rewrite E. unfold zlen. cbn [length]. lia. }
      rewrite Hn. assert (EF : firstn (Z.to_nat (zlen text)) (text ++ skipn (length text) yaml) = text). { unfold zlen. rewrite Nat2Z.id, firstn_app, firstn_all, Nat.sub_diag. cbn [firstn]. apply app_nil_r. }
      rewrite EF. destruct HP as (HU & _). rewrite HU by exact HA. reflexivity. }
    intros Hml. set (data := firstn (Z.to_nat size) mem).
    assert (Hd : zlen data = size). { unfold data, zlen in *. rewrite firstn_length. lia. }
    destruct (table ft i data HPl HTa Hd) as (cols & HF & HC).
    assert (HH := header_parsed ft i HPl). fold text in HH. destruct (C66_header i HPl) as (G1 & G2 & G3 & _). fold text in G1, G2, G3.
    assert (HEx : extract_data data (parse_header py_float text) = Ok (Structured cols (i_step i) (i_width i * i_height i) data)).
    { unfold extract_data, int_of. rewrite G1, G2, G3. cbn [bind]. fold size. rewrite Hd, Z.leb_refl. unfold py_tail.
      assert (E1 : size =? 0 = false) by lia. assert (E2 : size <? 0 = false) by lia. rewrite E1, E2. replace (length data - Z.to_nat size)%nat with 0%nat by (unfold zlen in Hd; lia). cbn [skipn].
      unfold bytes_to_numpy, int_of. rewrite G1, G2, G3. cbn [bind].
      assert (EC : columns (hd_fields (parse_header py_float text)) = Ok (map field_col (i_fields i))). { rewrite HH. cbn [hd_fields]. apply columns_of. destruct HPl as (_ & _ & _ & _ & _ & HFo). eapply Forall_impl; [|exact HFo]. intros f (_ & _ & N & _). exact N. }
      destruct (hd_fields (parse_header py_float text)) as [|d ds] eqn:Ed.
      - exfalso. rewrite HH in Ed. cbn [hd_fields] in Ed. destruct HTa as (T & _). destruct (i_fields i); [congruence|discriminate Ed].
      - rewrite EC. cbn [bind]. rewrite HF. reflexivity. }
    exists (Structured cols (i_step i) (i_width i * i_height i) data), (parse_header py_float text). split; [|split; [reflexivity|]].
    - unfold decode_message. rewrite HDM. cbn [bind]. assert (E1 : size =? 0 = false) by lia. rewrite E1, HG2. cbn [bind]. rewrite G1. fold data. rewrite HEx. reflexivity.
    - intros p f t Hp Hf Ht. unfold np_item. rewrite (HC f Hf). cbn [field_col col_type col_off].
      assert (Ep : (0 <=? p) && (p <? i_width i * i_height i) = true) by lia. rewrite Ep. destruct HPl as (_ & _ & _ & _ & _ & HFo). destruct HTa as (_ & _ & T3). rewrite Forall_forall in HFo, T3. destruct (HFo f Hf) as (_ & O & N & _). specialize (T3 f Hf).
      destruct (type_known ft f N) as (_ & ES). rewrite ES. unfold np_type_of. rewrite Ht. do 2 f_equal. unfold data.
      rewrite skipn_firstn_comm, firstn_firstn. f_equal. apply Nat.min_l. unfold size in *. nia.
  Qed.

  (** A cloud encoded with this library, sent as a CompressedPointCloud2 message, arrives in the
      table as it was restored: the hypotheses on the cloud are those of C52_decode_data. *)
  Theorem C66_round_trip probe i data n s msg c yaml out :
    libs_ok L -> complete (i_width i) (i_height i) (i_step i) data -> encode_side ppc i data -> decode_side i i -> deltas_ok ops i ppc data ->
    yaml_header_info ft i -> exact_resolutions ft i -> byte_texts ft i -> i_comp i = COMP_ZSTD ->
    stream_of ft ops L ppc probe i data n s -> n < 1431260227 -> zlen data <= zlen out ->
    tight_chunk i (Z.of_nat (Nat.min (length data / Z.to_nat (i_step i)) ppc)) <= zlen data -> zlen data <= 2147483647 ->
    getDeserializedPointCloudMessage msg = Ok c -> r_data c = firstn (Z.to_nat n) s ->
    plain_header ft i -> tabular i -> 0 < zlen data -> zlen (EncodingInfoToYAML ft i) <= zlen yaml -> zlen yaml < 2 ^ 32 ->
    exists a h mem, decode_message utf8 py_float ft ops L ppc msg yaml out = Ok (a, h) /\
      restored ops i i (length data / Z.to_nat (i_step i)) data (firstn (length data) out) mem /\
      dget (hd_values h) (str "width") = Some (VInt (i_width i)) /\ dget (hd_values h) (str "height") = Some (VInt (i_height i)) /\ dget (hd_values h) (str "point_step") = Some (VInt (i_step i)) /\
      forall p f t, 0 <= p < i_width i * i_height i -> In f (i_fields i) -> np_of (f_type f) = Some t ->
        np_item a (f_name f) p = Some (t, firstn (SizeOf (f_type f)) (skipn (Z.to_nat (p * i_step i + f_off f)) mem)).
  Proof.
    intros HLi HCo HES HDS HD HY HX Hb HZ HSt Hn Hm HT HI HG HRd HPl HTa H0 Hy Hy32.
    destruct (C52_decode_data ft ops L ppc probe i data n s out HLi HCo HES HDS HD HY HX Hb HZ HSt Hn Hm) as (_ & K). specialize (K HT HI). destruct K as (mem & EK & HRs).
    destruct HSt as (hdr & e & body & HH & _ & _ & E1 & _). destruct (C30_yaml_header_exact ft i body HY HX) as (hdr' & HH' & HDH). assert (hdr' = hdr) by congruence. subst hdr'.
    set (j := stored_yaml (i_fields i) i) in *. destruct HCo as (Cw & Ch & Csz & C32). 
    assert (HLm : length mem = length data). { destruct HRs as (HRs & _). rewrite HRs. unfold zlen in *. rewrite firstn_length. lia. }
    assert (ET : EncodingInfoToYAML ft j = EncodingInfoToYAML ft i) by reflexivity.
    destruct (C66_table msg yaml out c j body (mem ++ skipn (length data) out)) as (a & h & ED & EH & EI).
    - exact HPl.
    - exact HTa.
    - exact HG.
    - rewrite HRd, E1. exact HDH.
    - change (0 < i_width i * i_height i * i_step i < 2 ^ 32). lia.
    - change (i_width i * i_height i * i_step i <= zlen out). lia.
    - unfold cldn_DecodeCompressedMessage. rewrite HG, HRd. change (i_width j * i_height j * i_step j) with (i_width i * i_height i * i_step i). rewrite <- Csz. exact EK.
    - rewrite ET. exact Hy.
    - exact Hy32.
    - unfold zlen in *. rewrite app_length, skipn_length. lia.
    - exists a, h, mem. split; [exact ED|]. split; [exact HRs|]. rewrite EH, ET. destruct (C66_header i HPl) as (G1 & G2 & G3 & _). do 3 (split; [assumption|]).
      intros p f t Hp Hf Ht. rewrite (EI p f t Hp Hf Ht). do 2 f_equal. change (i_step j) with (i_step i).
      destruct HPl as (_ & _ & _ & _ & _ & HFo). destruct HTa as (_ & _ & T3). rewrite Forall_forall in HFo, T3. destruct (HFo f Hf) as (_ & O & _). specialize (T3 f Hf).
      assert (EL : (Z.to_nat (p * i_step i + f_off f) + SizeOf (f_type f) <= length mem)%nat). { unfold zlen in *. nia. }
      rewrite skipn_app, firstn_app. rewrite skipn_length. replace (SizeOf (f_type f) - (length mem - Z.to_nat (p * i_step i + f_off f)))%nat with 0%nat by lia. cbn [firstn]. apply app_nil_r.
  Qed.
End Python.

(** *** Concrete messages *)
Definition ascii_utf8 (s : list Z) : res (list Z) := if forallb (fun c => c <? 128) s then Ok s else Throw.
Definition no_float (s : list Z) : option Z := None.
Lemma a_python : python ascii_utf8 no_float.
Proof.
  split; [|reflexivity]. intros s H. unfold ascii_utf8. assert (E : forallb (fun c => c <? 128) s = true). { apply forallb_forall. rewrite Forall_forall in H. intros x Hx. specialize (H x Hx). lia. } now rewrite E.
Qed.
(** the message the compressing side sends for [c], every FLOAT32 at 1 mm *)
Definition sent (c : ros_cloud) : list Z :=
  match convertPointCloud2ToCompressedCloud gnu_text sse_ops store_libs 128 4096 c (message_info c millimetre32) with Ok m => m | _ => [] end.
Definition mixed_cloud (w : Z) (t : ftype) (n : list Z) (data : list Z) : ros_cloud :=
  mkRos (mkCdr LITTLE PLAIN_CDR DDS_CDR) 1700000000 0 (str "map") 1 w
    [mkField (str "x") 0 FLOAT32 None; mkField (str "y") 4 FLOAT32 None; mkField (str "z") 8 FLOAT32 None; mkField n 16 t None] 24 (w * 24) data 1.
Definition three_points : list Z := flat_map (fun k => [0;0;128;63;0;0;0;64;0;0;64;64 + k] ++ repeat 0 4 ++ [k;1;2;3;4;5;6;7]) (map Z.of_nat (seq 0 3)).
Local Notation py msg := (decode_message ascii_utf8 no_float gnu_text sse_ops store_libs 128 msg (repeat 0 (Z.to_nat 4096)) (repeat 0 (Z.to_nat 1024))).
Example C66_case : let c := mixed_cloud 3 UINT16 (str "ring no: 1") three_points in let i := message_info c millimetre32 in
  plain_header gnu_text i /\ tabular i /\ exists a h, py (sent c) = Ok (a, h) /\
  np_item a (str "z") 2 = Some (np_float32, [1; 0; 64; 66]) /\ np_item a (str "ring no: 1") 2 = Some (np_uint16, [2; 1]) /\ np_item a (str "x") 3 = None /\ np_item a (str "w") 0 = None.
Proof.
  cbv zeta. split; [|split].
  - assert (PL : forall s, forallb (fun c => (32 <=? c) && (c <=? 126)) s && negb (list_eqb s []) && negb (hd 0 s =? 32) && negb (last s 0 =? 32) = true -> plain s).
    { intros s H. rewrite !Bool.andb_true_iff in H. destruct H as (((A & B) & C) & D). split; [|split; [|split]].
      - apply Forall_forall. intros x Hx. rewrite forallb_forall in A. specialize (A x Hx). lia.
      - intros ->. discriminate B.
      - lia.
      - lia. }
    unfold plain_header. change (2 ^ 32) with 4294967296. do 4 (split; [split; [vm_compute; discriminate|vm_compute; reflexivity]|]). split; [now left|].
    assert (R : plain (ft_print gnu_text millimetre32)) by (apply PL; vm_compute; reflexivity).
    assert (EF : i_fields (message_info (mixed_cloud 3 UINT16 (str "ring no: 1") three_points) millimetre32) =
      [mkField (str "x") 0 FLOAT32 (Some millimetre32); mkField (str "y") 4 FLOAT32 (Some millimetre32); mkField (str "z") 8 FLOAT32 (Some millimetre32); mkField (str "ring no: 1") 16 UINT16 None]) by reflexivity.
    rewrite EF. repeat (constructor; [cbn [f_name f_off f_type f_res]; split; [apply PL; vm_compute; reflexivity|split; [lia|split; [discriminate|]]]; first [exact R|exact I]|]). constructor.
  - split; [discriminate|]. split; [|cbn; repeat (constructor; [cbn; lia|]); constructor]. cbn [message_info i_fields toEncodingInfo map with_resolution r_fields mixed_cloud f_type f_name f_off f_res].
    repeat (constructor; [cbn; intros K; repeat (destruct K as [K|K]; [discriminate K|]); exact K|]). constructor.
  - eexists _, _. split; [vm_compute; reflexivity|]. split; [vm_compute; reflexivity|]. split; [vm_compute; reflexivity|]. split; vm_compute; reflexivity.
Qed.

(** ** What does not hold *)
(** A field of 64-bit integers: the column has the first byte of each value only, as uint8, without
    an error. *)
Theorem C66_int64_refuted : exists c a h, r_data c = three_points /\ map f_type (skipn 3 (r_fields c)) = [UINT64] /\ py (sent c) = Ok (a, h) /\ np_item a (str "stamp") 2 = Some (np_uint8, [2]).
Proof. exists (mixed_cloud 3 UINT64 (str "stamp") three_points). eexists _, _. split; [reflexivity|]. split; [reflexivity|]. split; [vm_compute; reflexivity|]. vm_compute. reflexivity. Qed.
(** An empty cloud is reported as a failure: 0 is its size, and the error code. *)
Theorem C66_empty_refuted : exists c, r_width c = 0 /\ r_data c = [] /\ (exists out, convertCompressedCloudToPointCloud2 gnu_text sse_ops store_libs 128 (match getDeserializedPointCloudMessage (sent c) with Ok d => d | _ => c end) = Ok out) /\ py (sent c) = Throw.
Proof. exists (mixed_cloud 0 UINT16 (str "ring") []). split; [reflexivity|]. split; [reflexivity|]. split; [eexists; vm_compute; reflexivity|]. vm_compute. reflexivity. Qed.
(** A header text of more bytes than are reserved for it (4096 in the code: [yaml]) is written
    beyond them, whenever the message decodes. *)
Theorem C66_long_header_refuted utf8 py_float ft ops L ppc msg yaml out c i rest n mem :
  getDeserializedPointCloudMessage msg = Ok c -> DecodeHeader ft (r_data c) = Ok (i, rest) ->
  cldn_DecodeCompressedMessage ft ops L ppc msg out = (Ok n, mem) -> n <> 0 ->
  zlen yaml < zlen (EncodingInfoToYAML ft i) -> decode_message utf8 py_float ft ops L ppc msg yaml out = UB.
Proof.
  intros H1 H2 H3 Hn H4. unfold decode_message. rewrite H3. cbn [bind]. rewrite (proj2 (Z.eqb_neq _ _) Hn).
  unfold get_header_info, cldn_GetHeaderAsYAMLFromDDS. rewrite H1. cbn [or_zero]. unfold cldn_GetHeaderAsYAML. rewrite H2. cbn [or_zero].
  unfold emit. destruct (wr 0 (EncodingInfoToYAML ft i) yaml) as [o| |] eqn:E; [|reflexivity|reflexivity].
  apply wr_inv in E. unfold zlen in *. lia.
Qed.
Example C66_long_header_case : let c := mixed_cloud 3 UINT16 (str "ring") three_points in
  exists d i rest n mem, getDeserializedPointCloudMessage (sent c) = Ok d /\ DecodeHeader gnu_text (r_data d) = Ok (i, rest) /\
  cldn_DecodeCompressedMessage gnu_text sse_ops store_libs 128 (sent c) (repeat 0 (Z.to_nat 1024)) = (Ok n, mem) /\ n <> 0 /\
  zlen (repeat 0 64) < zlen (EncodingInfoToYAML gnu_text i).
Proof. eexists _, _, _, _, _. split; [vm_compute; reflexivity|]. split; [vm_compute; reflexivity|]. split; [vm_compute; reflexivity|]. split; [discriminate|]. vm_compute. reflexivity. Qed.

Print Assumptions C66_header.
Print Assumptions C66_table.
Print Assumptions C66_round_trip.
Print Assumptions C66_int64_refuted.
Print Assumptions C66_empty_refuted.
Print Assumptions C66_long_header_refuted.
