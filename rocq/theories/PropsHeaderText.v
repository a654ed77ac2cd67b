(** Reading a YAML header written by someone else: any values, any decimal numbers. *)
From Coq Require Import String Ascii.
From Verif Require Import Base BaseFacts Types V5 Api Spec Header HeaderFacts HostileFacts YamlFacts YamlRT FloatText PropsHeader.

(** *** Specification vocabulary *)
(** The texts of the values of one field and of the header. *)
Record field_texts := mkFT { t_name : list Z; t_off : list Z; t_type : list Z; t_res : list Z }.
Record header_texts := mkHT { t_version : list Z; t_width : list Z; t_height : list Z; t_step : list Z; t_enc : list Z; t_comp : list Z;
  t_cfg : list Z; t_fields : list field_texts }.
Definition line (n : nat) (k : list Z) (v : list Z) : list Z := repeat 32 n ++ k ++ [58; 32] ++ v ++ [10].
Definition field_doc (f : field_texts) : list Z :=
  line 2 (str "- name") (t_name f) ++ line 4 (str "offset") (t_off f) ++ line 4 (str "type") (t_type f) ++ line 4 (str "resolution") (t_res f).
Definition header_doc (t : header_texts) : list Z :=
  line 0 (str "version") (t_version t) ++ line 0 (str "width") (t_width t) ++ line 0 (str "height") (t_height t) ++
  line 0 (str "point_step") (t_step t) ++ line 0 (str "encoding_opt") (t_enc t) ++ line 0 (str "compression_opt") (t_comp t) ++
  match t_cfg t with [] => [] | c => line 0 (str "encoding_config") c end ++ str "fields:" ++ [10] ++ List.concat (map field_doc (t_fields t)).
(** A decimal numeral (leading zeros allowed) and its value. *)
Definition numeral (s : list Z) : Prop := s <> [] /\ Forall (fun c => 48 <= c <= 57) s.
Definition number (s : list Z) : Z := fold_left (fun a c => 10 * a + (c - 48)) s 0.
(** The value texts can stand in a line; numbers are numerals; options and types are written by name. *)
Definition enc_named (s : list Z) (e : enc_opt) : Prop :=
  (s = str "NONE" /\ e = ENC_NONE) \/ (s = str "LOSSY" /\ e = ENC_LOSSY) \/ (s = str "LOSSLESS" /\ e = ENC_LOSSLESS).
Definition comp_named (s : list Z) (c : comp_opt) : Prop :=
  (s = str "NONE" /\ c = COMP_NONE) \/ (s = str "LZ4" /\ c = COMP_LZ4) \/ (s = str "ZSTD" /\ c = COMP_ZSTD).
Definition type_named (s : list Z) (t : ftype) : Prop :=
  In (s, t) [(str "INT8", INT8); (str "UINT8", UINT8); (str "INT16", INT16); (str "UINT16", UINT16); (str "INT32", INT32); (str "UINT32", UINT32);
             (str "FLOAT32", FLOAT32); (str "FLOAT64", FLOAT64); (str "INT64", INT64); (str "UINT64", UINT64)].
Definition field_means (ft : float_text) (t : field_texts) (f : field) : Prop :=
  yaml_safe (t_name t) /\ f_name f = t_name t /\ numeral (t_off t) /\ f_off f = number (t_off t) /\ type_named (t_type t) (f_type f) /\
  yaml_safe (t_res t) /\ match f_res f with None => t_res t = str "null" | Some r => t_res t <> str "null" /\ ft_parse ft (t_res t) = Some r end.
Definition header_means (ft : float_text) (t : header_texts) (i : info) : Prop :=
  yaml_safe (t_version t) /\ numeral (t_width t) /\ i_width i = number (t_width t) /\ numeral (t_height t) /\ i_height i = number (t_height t) /\
  numeral (t_step t) /\ i_step i = number (t_step t) /\ enc_named (t_enc t) (i_enc i) /\ comp_named (t_comp t) (i_comp i) /\
  (t_cfg t = [] \/ yaml_safe (t_cfg t)) /\ i_cfg i = t_cfg t /\ Forall2 (field_means ft) (t_fields t) (i_fields i).
Definition all_numbers (i : info) : list Z := i_width i :: i_height i :: i_step i :: map f_off (i_fields i).

(** *** Proofs *)
Definition g_lines (f : field_texts) : list (list Z) :=
  [item 2 (str "name") (t_name f); kv 4 (str "offset") (t_off f); kv 4 (str "type") (t_type f); kv 4 (str "resolution") (t_res f)].
Definition g_head (t : header_texts) : list (list Z) :=
  [kv 0 (str "version") (t_version t); kv 0 (str "width") (t_width t); kv 0 (str "height") (t_height t); kv 0 (str "point_step") (t_step t);
   kv 0 (str "encoding_opt") (t_enc t); kv 0 (str "compression_opt") (t_comp t)].
Definition g_cfg (t : header_texts) : list (list Z) := match t_cfg t with [] => [] | c => [kv 0 (str "encoding_config") c] end.
Definition g_doc t := g_head t ++ g_cfg t ++ [str "fields:"] ++ List.concat (map g_lines (t_fields t)).
Definition fclean (f : field_texts) : Prop := clean (t_name f) /\ clean (t_off f) /\ clean (t_type f) /\ clean (t_res f).
Definition hclean (t : header_texts) : Prop :=
  clean (t_version t) /\ clean (t_width t) /\ clean (t_height t) /\ clean (t_step t) /\ clean (t_enc t) /\ clean (t_comp t) /\
  (t_cfg t = [] \/ clean (t_cfg t)) /\ Forall fclean (t_fields t).
Definition g_fnode (f : field_texts) : node :=
  NMap [(str "name", NStr (t_name f)); (str "offset", NStr (t_off f)); (str "type", NStr (t_type f)); (str "resolution", NStr (t_res f))].
Definition g_seq fs := match fs with [] => NNull | _ => NSeq (map g_fnode fs) end.
Definition g_root t : node := NMap
  ([(str "version", NStr (t_version t)); (str "width", NStr (t_width t)); (str "height", NStr (t_height t)); (str "point_step", NStr (t_step t));
    (str "encoding_opt", NStr (t_enc t)); (str "compression_opt", NStr (t_comp t))] ++
   match t_cfg t with [] => [] | c => [(str "encoding_config", NStr c)] end ++ [(str "fields", g_seq (t_fields t))]).
Lemma line_kv n k v : line n k v = kv n k v ++ [10].
Proof. unfold line, kv. rewrite <- !app_assoc. reflexivity. Qed.
Lemma line_item n v : line n (str "- name") v = item n (str "name") v ++ [10].
Proof. unfold line, item. change (str "- name") with ([45; 32] ++ str "name"). rewrite <- !app_assoc. reflexivity. Qed.
Lemma g_field_text f : field_doc f = unlines (g_lines f).
Proof. unfold field_doc, unlines, g_lines. cbn [map List.concat]. rewrite line_item, !line_kv, app_nil_r. reflexivity. Qed.
Lemma g_fields_text fs : List.concat (map field_doc fs) = unlines (List.concat (map g_lines fs)).
Proof. induction fs as [|f fs IH]; [reflexivity|]. cbn [map List.concat]. rewrite unlines_app, g_field_text, IH. reflexivity. Qed.
Lemma unlines_cons l ls : unlines (l :: ls) = l ++ [10] ++ unlines ls.
Proof. unfold unlines. cbn [map List.concat]. rewrite <- app_assoc. reflexivity. Qed.
Lemma g_text t : header_doc t = unlines (g_doc t).
Proof.
  unfold header_doc, g_doc. rewrite !unlines_app, g_fields_text.
  assert (E : unlines (g_head t) = line 0 (str "version") (t_version t) ++ line 0 (str "width") (t_width t) ++ line 0 (str "height") (t_height t) ++
    line 0 (str "point_step") (t_step t) ++ line 0 (str "encoding_opt") (t_enc t) ++ line 0 (str "compression_opt") (t_comp t)).
  { unfold g_head. rewrite !unlines_cons, !line_kv. change (unlines []) with (@nil Z). rewrite <- !app_assoc, app_nil_r. reflexivity. }
  assert (E2 : unlines (g_cfg t) = match t_cfg t with [] => [] | c => line 0 (str "encoding_config") c end).
  { unfold g_cfg. destruct (t_cfg t) as [|c s]; [reflexivity|]. rewrite unlines_cons, line_kv. reflexivity. }
  rewrite E, E2, <- !app_assoc. unfold unlines at 2. cbn [map List.concat]. rewrite app_nil_r, <- !app_assoc. reflexivity.
Qed.
Lemma g_sequence fs : Forall fclean fs -> forall fuel, (List.length fs + 5 <= fuel)%nat -> parseSequence fuel 2 (List.concat (map g_lines fs)) = Ok (map g_fnode fs, []).
Proof.
  induction 1 as [|f fs Hf HF IH]; intros fuel Hfu.
  - destruct fuel; [lia|]. reflexivity.
  - destruct Hf as (C1 & C2 & C3 & C4).
    cbn [map List.concat List.length g_lines app] in *. destruct fuel as [|[|[|[|[|fuel]]]]]; try lia.
    change 2 with (Z.of_nat 2). rewrite sequence_step by (assumption || apply key_name).
    rewrite items_step by (assumption || apply key_offset || lia). rewrite items_step by (assumption || apply key_type || lia). rewrite items_step by (assumption || apply key_resolution || lia).
    assert (E : parseItemKeys (S fuel) (Z.of_nat 2) (List.concat (map g_lines fs)) = Ok ([], List.concat (map g_lines fs))).
    { destruct HF as [|g gs Hg HG]; [reflexivity|]. cbn [map List.concat g_lines app]. apply items_stop; [apply key_name|]. apply Hg. }
    rewrite E. cbn [bind]. change (Z.of_nat 2) with 2. rewrite IH by lia. reflexivity.
Qed.
Lemma g_node fs : Forall fclean fs -> forall fuel, (List.length fs + 6 <= fuel)%nat -> parseNode fuel 2 (List.concat (map g_lines fs)) = Ok (g_seq fs, []).
Proof.
  intros HF fuel Hfu. destruct fuel as [|fuel]; [lia|]. destruct fs as [|f fs]; [reflexivity|]. inversion HF as [|? ? Hf HF']; subst.
  cbn [parseNode]. cbn [map List.concat g_lines app]. rewrite item_skip by (apply key_name || apply Hf). rewrite item_indent by (apply key_name || apply Hf).
  change (Z.of_nat 2 <? 2) with false. cbv iota zeta. rewrite item_trim by (apply key_name || apply Hf). cbn [starts_item].
  change (item 2 (str "name") (t_name f) :: _) with (List.concat (map g_lines (f :: fs))). rewrite g_sequence by (assumption || lia). reflexivity.
Qed.
Lemma g_lines_len fs : List.length (List.concat (map g_lines fs)) = (4 * List.length fs)%nat.
Proof. induction fs as [|f fs IH]; [reflexivity|]. cbn [map List.concat List.length]. rewrite app_length, IH. cbn [g_lines List.length]. lia. Qed.
Lemma g_no x t : x = 0 \/ x = 10 -> hclean t -> Forall (Forall (fun c => c <> x)) (g_doc t).
Proof.
  intros HX (C1 & C2 & C3 & C4 & C5 & C6 & H7 & H8).
  assert (KV : forall n k v, key k -> clean v -> Forall (fun c => c <> x) (kv n k v)).
  { intros n k v K V. unfold kv. apply Forall_app; split; [apply Forall_forall; intros y Hy; apply repeat_spec in Hy; lia|]. destruct (kv_clean k v K V) as (_ & F & _). eapply Forall_impl; [|exact F]. cbn. intros; lia. }
  assert (IT : forall n k v, key k -> clean v -> Forall (fun c => c <> x) (item n k v)).
  { intros n k v K V. unfold item. apply Forall_app; split; [apply Forall_forall; intros y Hy; apply repeat_spec in Hy; lia|]. destruct (item_clean k v K V) as (_ & F & _). eapply Forall_impl; [|exact F]. cbn. intros; lia. }
  unfold g_doc. apply Forall_app; split; [|apply Forall_app; split; [|apply Forall_app; split]].
  - unfold g_head. do 6 (constructor; [apply KV; auto using key_version, key_width, key_height, key_step, key_enc, key_comp|]). constructor.
  - unfold g_cfg. destruct (t_cfg t) eqn:E; [constructor|]. constructor; [|constructor]. apply KV; [apply key_cfg|]. destruct H7 as [H7|H7]; [discriminate H7|exact H7].
  - constructor; [|constructor]. lit. repeat (constructor; [lia|]); constructor.
  - apply Forall_concat. apply Forall_map. eapply Forall_impl; [|exact H8]. intros f (F1 & F2 & F3 & F4).
    unfold g_lines. constructor; [apply IT; auto using key_name|]. constructor; [apply KV; auto using key_offset|]. constructor; [apply KV; auto using key_type|]. constructor; [apply KV; auto using key_resolution|constructor].
Qed.
Lemma g_parse t : hclean t -> yaml_parse (header_doc t) = Ok (g_root t).
Proof.
  intros HC. pose proof (g_no 10 t (or_intror eq_refl) HC) as NL. destruct HC as (C1 & C2 & C3 & C4 & C5 & C6 & H7 & H8).
  unfold yaml_parse. rewrite g_text, split_unlines by assumption.
  assert (L2 : (List.length (g_doc t) = 7 + 4 * List.length (t_fields t) + match t_cfg t with [] => 0 | _ => 1 end)%nat).
  { unfold g_doc. rewrite !app_length, g_lines_len. unfold g_head, g_cfg. destruct (t_cfg t); cbn [List.length]; lia. }
  assert (G : forall fuel, (List.length (t_fields t) + 16 <= fuel)%nat -> parseNode fuel 0 (g_doc t) = Ok (g_root t, [])).
  { clear L2 NL. intros fuel Hfu. do 10 (destruct fuel as [|fuel]; [lia|]). cbn [parseNode]. unfold g_doc, g_head. cbn [app].
    rewrite kv_skip by auto using key_version. rewrite kv_indent by auto using key_version. change (Z.of_nat 0 <? 0) with false. cbv iota zeta. rewrite kv_trim by auto using key_version.
    replace (starts_item (str "version" ++ 58 :: 32 :: t_version t)) with (@None (list Z)) by reflexivity. rewrite kv_find by auto using key_version.
    change 0 with (Z.of_nat 0). rewrite !mapping_step by auto using key_version, key_width, key_height, key_step, key_enc, key_comp.
    assert (T : forall k, (List.length (t_fields t) + 7 <= k)%nat -> parseMapping (S k) (Z.of_nat 0) (str "fields:" :: List.concat (map g_lines (t_fields t))) = Ok ([(str "fields", g_seq (t_fields t))], [])).
    { intros k Hk. change (Z.of_nat 0) with 0. rewrite fields_step, g_node by (assumption || lia). cbn [bind]. destruct k; [lia|]. reflexivity. }
    unfold g_cfg, g_root. destruct (t_cfg t) as [|c cfg] eqn:E; cbn [app].
    - rewrite T by lia. reflexivity.
    - assert (CC : clean (c :: cfg)) by (destruct H7 as [H7|H7]; [discriminate H7|exact H7]). rewrite mapping_step by (assumption || apply key_cfg). rewrite T by lia. reflexivity. }
  destruct (g_doc t) as [|l ls] eqn:E; [cbn in L2; lia|]. rewrite <- E in *. rewrite G; [reflexivity|]. destruct (t_cfg t); lia.
Qed.

(** numerals *)
Lemma num_digits s : Forall (fun c => 48 <= c <= 57) s -> forall a, digits s (Some a) = Some (fold_left (fun a c => 10 * a + (c - 48)) s a).
Proof.
  induction 1 as [|c s Hc HF IH]; intros a; [reflexivity|]. cbn [digits fold_left]. replace (isdigit c) with true by (unfold isdigit; lia). rewrite IH. reflexivity.
Qed.
Lemma numeral_clean s : numeral s -> clean s.
Proof.
  intros (N & HF). split; [exact N|]. split; [eapply Forall_impl; [|exact HF]; cbn; intros; lia|]. split.
  - destruct s as [|c s]; [congruence|]. inversion HF; subst. cbn [hd]. unfold isspace. lia.
  - destruct (exists_last N) as (t & x & ->). rewrite last_last. apply Forall_app in HF. destruct HF as [_ HF]. inversion HF; subst. unfold isspace. lia.
Qed.
Lemma numeral_read s : numeral s -> as_uint32 s = if 4294967295 <? number s then Throw else Ok (number s).
Proof.
  intros (N & HF). destruct s as [|c s]; [congruence|]. unfold as_uint32, signed_digits. inversion HF as [|? ? Hc HF']; subst.
  assert (ED : drop_space (c :: s) = c :: s). { cbn [drop_space]. replace (isspace c) with false by (unfold isspace; lia). reflexivity. }
  rewrite ED.
  assert (G : match c :: s with 45 :: s' => (true, digits s' None) | 43 :: s' => (false, digits s' None) | s' => (false, digits s' None) end = (false, digits (c :: s) None)).
  { destruct c as [|p|p]; try reflexivity. do 6 (try destruct p as [p|p|]; try reflexivity); lia. }
  rewrite G. cbn [digits]. replace (isdigit c) with true by (unfold isdigit; lia). rewrite num_digits by assumption. unfold number. cbn [fold_left].
  match goal with |- (if ?b then _ else _) = _ => destruct b eqn:E end; [reflexivity|]. unfold u32. rewrite Z.mod_small; [reflexivity|].
  assert (P : forall l a, Forall (fun c => 48 <= c <= 57) l -> 0 <= a -> 0 <= fold_left (fun a c => 10 * a + (c - 48)) l a).
  { clear. induction l as [|x l IH]; intros a HF Ha; [exact Ha|]. inversion HF; subst. cbn [fold_left]. apply IH; [assumption|lia]. }
  specialize (P s (10 * 0 + (c - 48)) HF' ltac:(lia)). lia.
Qed.

Definition in32 (z : Z) : bool := negb (4294967295 <? z).
Lemma name_type s t : type_named s t -> FieldTypeFromString s = Ok t /\ clean s.
Proof.
  unfold type_named. intros H. cbn [In] in H.
  repeat (destruct H as [H|H]; [injection H as <- <-; split; [reflexivity|clean_lit]|]). destruct H.
Qed.
Lemma fields_read ft ts fs : Forall2 (field_means ft) ts fs ->
  fields_from ft (map g_fnode ts) = if forallb (fun f => in32 (f_off f)) fs then Ok fs else Throw.
Proof.
  induction 1 as [|t f ts fs Hf HF IH]; [reflexivity|]. cbn [map fields_from forallb]. destruct Hf as (A1 & A2 & A3 & A4 & A5 & A6 & A7).
  unfold field_from, g_fnode at 1.
  change (get_str _ (str "name")) with (Ok (t_name t)). cbn [bind]. change (get_str _ (str "offset")) with (Ok (t_off t)). cbn [bind].
  rewrite numeral_read by assumption. rewrite <- A4. unfold in32 at 1. destruct (4294967295 <? f_off f); [reflexivity|]. cbn [bind negb andb].
  change (get_str _ (str "type")) with (Ok (t_type t)). cbn [bind]. destruct (name_type _ _ A5) as (-> & _). cbn [bind].
  change (get_str _ (str "resolution")) with (Ok (t_res t)). cbn [bind]. destruct f as [fn fo fy fr]. cbn [f_name f_off f_type f_res] in *. subst fn. destruct fr as [r|].
  - destruct A7 as (A7 & A8). rewrite list_eqb_neq by assumption. rewrite A8. cbn [bind]. rewrite IH. destruct (forallb _ fs); reflexivity.
  - rewrite A7, list_eqb_refl. cbn [bind]. rewrite IH. destruct (forallb _ fs); reflexivity.
Qed.
Lemma means_clean ft t i : header_means ft t i -> hclean t.
Proof.
  intros (A1 & A2 & _ & A3 & _ & A4 & _ & A5 & A6 & A7 & _ & A8). split; [now apply safe_clean|]. do 3 (split; [now apply numeral_clean|]).
  split; [destruct A5 as [(-> & _)|[(-> & _)|(-> & _)]]; clean_lit|]. split; [destruct A6 as [(-> & _)|[(-> & _)|(-> & _)]]; clean_lit|].
  split; [destruct A7 as [A7|A7]; [now left|right; now apply safe_clean]|].
  clear - A8. induction A8 as [|t0 f ts fs Hf HF IH]; [constructor|]. constructor; [|exact IH]. destruct Hf as (B1 & _ & B2 & _ & B3 & B4 & _).
  split; [now apply safe_clean|]. split; [now apply numeral_clean|]. split; [now apply name_type in B3|now apply safe_clean].
Qed.
Lemma text_read ft t i : header_means ft t i -> exists ver,
  EncodingInfoFromYAML ft (header_doc t) =
  if forallb in32 (all_numbers i) then Ok (mkInfo (i_fields i) (i_width i) (i_height i) (i_step i) (i_enc i) (i_cfg i) (i_comp i) true ver) else Throw.
Proof.
  intros H. unfold EncodingInfoFromYAML. rewrite g_parse by (eapply means_clean; eassumption). cbn [bind].
  destruct H as (A1 & A2 & B2 & A3 & B3 & A4 & B4 & A5 & A6 & A7 & B7 & A8). unfold g_root.
  change (get_str _ (str "version")) with (Ok (t_version t)). cbn [bind].
  assert (E : exists c, as_uint8 (t_version t) = Ok c).
  { unfold as_uint8. destruct A1 as (A & _ & _ & _ & B & _). destruct (t_version t) as [|c s]; [congruence|]. cbn [hd drop_space] in *. rewrite B. eauto. }
  destruct E as (c & ->). cbn [bind]. exists c. unfold all_numbers. cbn [forallb].
  change (get_str _ (str "width")) with (Ok (t_width t)). cbn [bind]. rewrite numeral_read by assumption. rewrite <- B2. unfold in32 at 1. destruct (4294967295 <? i_width i); [reflexivity|]. cbn [bind negb andb].
  change (get_str _ (str "height")) with (Ok (t_height t)). cbn [bind]. rewrite numeral_read by assumption. rewrite <- B3. unfold in32 at 1. destruct (4294967295 <? i_height i); [reflexivity|]. cbn [bind negb andb].
  change (get_str _ (str "point_step")) with (Ok (t_step t)). cbn [bind]. rewrite numeral_read by assumption. rewrite <- B4. unfold in32 at 1. destruct (4294967295 <? i_step i); [reflexivity|]. cbn [bind negb andb].
  change (get_str _ (str "encoding_opt")) with (Ok (t_enc t)). cbn [bind].
  assert (EE : EncodingOptionsFromString (t_enc t) = Ok (i_enc i)). { destruct A5 as [(-> & ->)|[(-> & ->)|(-> & ->)]]; reflexivity. }
  rewrite EE. cbn [bind]. change (get_str _ (str "compression_opt")) with (Ok (t_comp t)). cbn [bind].
  assert (EC : CompressionOptionFromString (t_comp t) = Ok (i_comp i)). { destruct A6 as [(-> & ->)|[(-> & ->)|(-> & ->)]]; reflexivity. }
  rewrite EC. cbn [bind]. cbn [get bind].
  match goal with |- context [lookup ?m (str "fields")] => assert (L1 : lookup m (str "fields") = g_seq (t_fields t)) by (destruct (t_cfg t); reflexivity);
    assert (L2 : match lookup m (str "encoding_config") with NStr s => s | _ => [] end = t_cfg t) by (destruct (t_cfg t); reflexivity) end.
  rewrite L1, L2, <- B7. pose proof (fields_read ft _ _ A8) as FR.
  assert (FM : forallb in32 (map f_off (i_fields i)) = forallb (fun f => in32 (f_off f)) (i_fields i)).
  { clear. induction (i_fields i) as [|f fs IH]; [reflexivity|]. cbn. now rewrite IH. }
  rewrite FM. unfold g_seq. destruct A8 as [|t0 f0 ts fs Hf HF]; [reflexivity|]. rewrite FR. destruct (forallb _ (f0 :: fs)); reflexivity.
Qed.

(** * C32: any header text of this shape is read as what it says, or rejected because one of its
    numbers does not fit 32 bits. *)
Theorem C32_header_text : forall ft v t i rest, 2 <= v <= 5 -> header_means ft t i ->
  DecodeHeader ft (str "CLOUDINI_V" ++ [48; 48 + v; 10] ++ header_doc t ++ 0 :: rest) =
  if forallb (fun n => n <? 2 ^ 32) (all_numbers i)
  then Ok (mkInfo (i_fields i) (i_width i) (i_height i) (i_step i) (i_enc i) (i_cfg i) (i_comp i) true v, rest) else Throw.
Proof.
  intros ft v t i rest Hv H.
  assert (E : str "CLOUDINI_V" ++ [48; 48 + v; 10] ++ header_doc t ++ 0 :: rest = magic_version v ++ 10 :: header_doc t ++ 0 :: rest).
  { unfold magic_version. assert (Ev : v / 10 = 0 /\ v mod 10 = v) by (split; [apply Z.div_small; lia|apply Z.mod_small; lia]). destruct Ev as [-> ->]. change magic with (str "CLOUDINI_V"). rewrite <- app_assoc. reflexivity. }
  rewrite E, decode_magic by assumption.
  assert (V : exists s, header_doc t = 118 :: s) by (eexists; reflexivity). destruct V as (s & V).
  unfold after_version. rewrite V. cbn [app]. change (118 =? 123) with false. cbv iota. unfold trim_front. cbn [List.length Nat.ltb Nat.leb bind skipn].
  change (118 :: s ++ 0 :: rest) with ((118 :: s) ++ 0 :: rest). rewrite <- V. rewrite find_char_app.
  - destruct (text_read ft t i H) as (ver & ->).
    assert (FB : forallb in32 (all_numbers i) = forallb (fun n => n <? 2 ^ 32) (all_numbers i)).
    { clear. induction (all_numbers i) as [|n l IH]; [reflexivity|]. cbn [forallb]. rewrite IH. f_equal. unfold in32. change (2 ^ 32) with 4294967296. lia. }
    rewrite FB. clear FB. destruct (forallb _ (all_numbers i)); reflexivity.
  - rewrite g_text. unfold unlines. apply Forall_concat, Forall_map. eapply Forall_impl; [|exact (g_no 0 t (or_introl eq_refl) (means_clean _ _ _ H))].
    intros l Hl. apply Forall_app; split; [exact Hl|constructor; [lia|constructor]].
Qed.
Print Assumptions C32_header_text.

(** The hypotheses are met: a header with leading zeros; the same with a width of 2^32 is rejected. *)
Definition sample_texts (w : list Z) : header_texts :=
  mkHT (str "5") w (str "001") (str "16") (str "LOSSY") (str "ZSTD") [] [mkFT (str "x") (str "4") (str "FLOAT32") (str "0.001"); mkFT (str "ring") (str "0010") (str "UINT16") (str "null")].
Definition sample_info (w : Z) : info :=
  mkInfo [mkField (str "x") 4 FLOAT32 (Some 981668463); mkField (str "ring") 10 UINT16 None] w 1 16 ENC_LOSSY [] COMP_ZSTD true 5.
Ltac safe := split; [discriminate|]; split; [vm_compute; intros X; repeat (destruct X as [X|X]; [discriminate X|]); exact X|];
  split; [vm_compute; intros X; repeat (destruct X as [X|X]; [discriminate X|]); exact X|];
  split; [vm_compute; intros X; repeat (destruct X as [X|X]; [discriminate X|]); exact X|]; split; reflexivity.
Ltac numb := split; [discriminate|]; vm_compute; repeat (apply Forall_cons; [split; discriminate|]); apply Forall_nil.
Lemma sample_means w n : numeral w -> n = number w -> header_means gnu_text (sample_texts w) (sample_info n).
Proof.
  intros HN E. unfold sample_texts, sample_info. split; [safe|]. split; [exact HN|]. split; [exact E|]. split; [numb|]. split; [reflexivity|]. split; [numb|]. split; [reflexivity|].
  split; [right; left; split; reflexivity|]. split; [right; right; split; reflexivity|]. split; [left; reflexivity|]. split; [reflexivity|].
  apply Forall2_cons; [|apply Forall2_cons; [|apply Forall2_nil]].
  - split; [safe|]. split; [reflexivity|]. split; [numb|]. split; [reflexivity|]. split; [cbn; tauto|]. split; [safe|]. split; [discriminate|vm_compute; reflexivity].
  - split; [safe|]. split; [reflexivity|]. split; [numb|]. split; [reflexivity|]. split; [cbn; tauto|]. split; [safe|]. reflexivity.
Qed.
Example C32_header_text_case :
  header_means gnu_text (sample_texts (str "0640")) (sample_info 640) /\ header_means gnu_text (sample_texts (str "4294967296")) (sample_info (2 ^ 32)) /\
  DecodeHeader gnu_text (str "CLOUDINI_V" ++ [48; 48 + 5; 10] ++ header_doc (sample_texts (str "0640")) ++ [0; 7; 8]) = Ok (sample_info 640, [7; 8]) /\
  DecodeHeader gnu_text (str "CLOUDINI_V" ++ [48; 48 + 5; 10] ++ header_doc (sample_texts (str "4294967296")) ++ [0; 7; 8]) = Throw.
Proof.
  split; [apply sample_means; [numb|reflexivity]|]. split; [apply sample_means; [numb|reflexivity]|]. split; vm_compute; reflexivity.
Qed.
