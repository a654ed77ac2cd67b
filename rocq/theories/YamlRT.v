(** The YAML header round trip.  Proof file. *)
From Coq Require Import String Ascii.
From Verif Require Import Base BaseFacts Types V5 Api Spec Header HeaderFacts HostileFacts YamlFacts.

Definition res_text (ft : float_text) (r : option Z) : list Z := match r with Some r => ft_print ft r | None => str "null" end.
Definition field_lines (ft : float_text) (f : field) : list (list Z) :=
  [item 2 (str "name") (f_name f); kv 4 (str "offset") (dec_text (f_off f)); kv 4 (str "type") (FieldTypeToString (f_type f)); kv 4 (str "resolution") (res_text ft (f_res f))].
Definition head_lines (i : info) : list (list Z) :=
  [kv 0 (str "version") (dec_text (i_version i)); kv 0 (str "width") (dec_text (i_width i)); kv 0 (str "height") (dec_text (i_height i)); kv 0 (str "point_step") (dec_text (i_step i));
   kv 0 (str "encoding_opt") (EncodingToString (i_enc i)); kv 0 (str "compression_opt") (CompressionToString (i_comp i))].
Definition cfg_lines (i : info) : list (list Z) := match i_cfg i with [] => [] | c => [kv 0 (str "encoding_config") c] end.
Definition doc_lines ft i := head_lines i ++ cfg_lines i ++ [str "fields:"] ++ concat (map (field_lines ft) (i_fields i)).
Definition unlines (ls : list (list Z)) : list Z := concat (map (fun l => l ++ [10]) ls).
Lemma unlines_app a b : unlines (a ++ b) = unlines a ++ unlines b.
Proof. unfold unlines. now rewrite map_app, concat_app. Qed.
Lemma field_text ft f : field_yaml ft f = unlines (field_lines ft f).
Proof.
  unfold field_yaml, unlines, field_lines, item, kv, nl. cbn [map concat]. rewrite app_nil_r.
  change (str "  - name: ") with (repeat 32 2 ++ [45; 32] ++ str "name" ++ [58; 32]). change (str "    offset: ") with (repeat 32 4 ++ str "offset" ++ [58; 32]).
  change (str "    type: ") with (repeat 32 4 ++ str "type" ++ [58; 32]). rewrite <- !app_assoc. do 9 f_equal. do 6 f_equal. do 6 f_equal.
  destruct (f_res f); cbn [res_text].
  - change (str "    resolution: ") with (repeat 32 4 ++ str "resolution" ++ [58; 32]). rewrite <- !app_assoc. reflexivity.
  - reflexivity.
Qed.
Lemma fields_text ft fs : concat (map (field_yaml ft) fs) = unlines (concat (map (field_lines ft) fs)).
Proof. induction fs as [|f fs IH]; [reflexivity|]. cbn [map concat]. rewrite unlines_app, field_text, IH. reflexivity. Qed.
Lemma doc_text ft i : EncodingInfoToYAML ft i = unlines (doc_lines ft i).
Proof.
  unfold EncodingInfoToYAML, doc_lines. rewrite !unlines_app, <- fields_text.
  assert (E : unlines (head_lines i) = str "version: " ++ dec_text (i_version i) ++ nl ++ str "width: " ++ dec_text (i_width i) ++ nl ++ str "height: " ++ dec_text (i_height i) ++ nl ++ str "point_step: " ++ dec_text (i_step i) ++ nl ++ str "encoding_opt: " ++ EncodingToString (i_enc i) ++ nl ++ str "compression_opt: " ++ CompressionToString (i_comp i) ++ nl).
  { unfold unlines, head_lines, kv, nl. cbn [map concat repeat app]. rewrite ?app_nil_r.
    change (str "version: ") with (str "version" ++ [58; 32]). change (str "width: ") with (str "width" ++ [58; 32]). change (str "height: ") with (str "height" ++ [58; 32]).
    change (str "point_step: ") with (str "point_step" ++ [58; 32]). change (str "encoding_opt: ") with (str "encoding_opt" ++ [58; 32]). change (str "compression_opt: ") with (str "compression_opt" ++ [58; 32]).
    repeat rewrite <- app_assoc. cbn [app]. reflexivity. }
  rewrite E. rewrite <- !app_assoc. do 18 f_equal.
  unfold cfg_lines. destruct (i_cfg i) as [|c t]; [reflexivity|]. change (str "encoding_config: ") with (str "encoding_config" ++ [58; 32]).
  unfold unlines, kv, nl. cbn [map concat repeat app]. rewrite ?app_nil_r. repeat (rewrite <- app_assoc; cbn [app]). reflexivity.
Qed.
Lemma split_line l : Forall (fun c => c <> 10) l -> forall rest cur, splitLines_acc (l ++ 10 :: rest) cur = (rev cur ++ l) :: splitLines_acc rest [].
Proof.
  induction 1 as [|c l Hc HF IH]; intros rest cur; cbn [app splitLines_acc]; [now rewrite app_nil_r|]. replace (c =? 10) with false by lia. rewrite IH. cbn [rev]. now rewrite <- app_assoc.
Qed.
Lemma split_unlines ls : Forall (Forall (fun c => c <> 10)) ls -> splitLines (unlines ls) = ls.
Proof.
  unfold splitLines. induction 1 as [|l ls Hl HF IH]; [reflexivity|]. unfold unlines. cbn [map concat]. rewrite <- app_assoc. cbn [app]. rewrite split_line by assumption. cbn [rev app]. f_equal. exact IH.
Qed.

(** what the reader needs *)
Definition yaml_field (ft : float_text) (f : field) : Prop :=
  clean (f_name f) /\ 0 <= f_off f < 4294967296 /\ known_type (f_type f) /\
  match f_res f with
  | Some r => clean (ft_print ft r) /\ ft_print ft r <> str "null" /\ ft_parse ft (ft_print ft r) <> None
  | None => True
  end.
Definition yaml_info (ft : float_text) (i : info) : Prop :=
  2 <= i_version i <= 5 /\ 0 <= i_width i < 4294967296 /\ 0 <= i_height i < 4294967296 /\ 0 <= i_step i < 4294967296 /\
  known_enc i /\ (match i_comp i with COMP_OTHER _ => False | _ => True end) /\ (i_cfg i = [] \/ clean (i_cfg i)) /\ Forall (yaml_field ft) (i_fields i).
Definition reread (ft : float_text) (f : field) : field :=
  mkField (f_name f) (f_off f) (f_type f) (match f_res f with Some r => ft_parse ft (ft_print ft r) | None => None end).

Ltac lit := repeat match goal with |- context [str ?s] => let x := eval vm_compute in (str s) in change (str s) with x end.
Ltac clean_lit := lit; split; [discriminate|split; [repeat (constructor; [lia|]); constructor|split; reflexivity]].
Ltac key_lit := lit; split; [clean_lit|split; [repeat (constructor; [lia|]); constructor|split; [reflexivity|cbn; lia]]].
Lemma key_name : key (str "name"). Proof. key_lit. Qed.
Lemma key_offset : key (str "offset"). Proof. key_lit. Qed.
Lemma key_type : key (str "type"). Proof. key_lit. Qed.
Lemma key_resolution : key (str "resolution"). Proof. key_lit. Qed.
Lemma key_version : key (str "version"). Proof. key_lit. Qed.
Lemma key_width : key (str "width"). Proof. key_lit. Qed.
Lemma key_height : key (str "height"). Proof. key_lit. Qed.
Lemma key_step : key (str "point_step"). Proof. key_lit. Qed.
Lemma key_enc : key (str "encoding_opt"). Proof. key_lit. Qed.
Lemma key_comp : key (str "compression_opt"). Proof. key_lit. Qed.
Lemma key_cfg : key (str "encoding_config"). Proof. key_lit. Qed.
Lemma clean_type t : clean (FieldTypeToString t).
Proof. destruct t; unfold FieldTypeToString; clean_lit. Qed.
Lemma clean_enc e : clean (EncodingToString e).
Proof. destruct e; unfold EncodingToString; clean_lit. Qed.
Lemma clean_comp e : clean (CompressionToString e).
Proof. destruct e; unfold CompressionToString; clean_lit. Qed.
Lemma type_rt t : known_type t -> FieldTypeFromString (FieldTypeToString t) = Ok t.
Proof. destruct t; intros H; try destruct H; reflexivity. Qed.
Lemma clean_res ft f : yaml_field ft f -> clean (res_text ft (f_res f)).
Proof. intros (_ & _ & _ & H). destruct (f_res f) as [r|]; [apply H|]. cbn [res_text]; clean_lit. Qed.

Definition fnode (ft : float_text) (f : field) : node :=
  NMap [(str "name", NStr (f_name f)); (str "offset", NStr (dec_text (f_off f))); (str "type", NStr (FieldTypeToString (f_type f))); (str "resolution", NStr (res_text ft (f_res f)))].
Lemma field_from_rt ft f : yaml_field ft f -> field_from ft (fnode ft f) = Ok (reread ft f).
Proof.
  intros (H1 & H2 & H3 & H4). unfold field_from, fnode.
  change (get_str _ (str "name")) with (Ok (f_name f)). cbn [bind]. change (get_str _ (str "offset")) with (Ok (dec_text (f_off f))). cbn [bind].
  destruct (dec_text_spec (f_off f) H2) as (_ & _ & ->). cbn [bind]. change (get_str _ (str "type")) with (Ok (FieldTypeToString (f_type f))). cbn [bind]. rewrite type_rt by assumption. cbn [bind].
  change (get_str _ (str "resolution")) with (Ok (res_text ft (f_res f))). cbn [bind]. unfold reread. destruct (f_res f) as [r|]; cbn [res_text].
  - destruct H4 as (_ & H4 & H5). rewrite list_eqb_neq by assumption. destruct (ft_parse ft (ft_print ft r)); [reflexivity|congruence].
  - rewrite list_eqb_refl. reflexivity.
Qed.
Lemma fields_from_rt ft fs : Forall (yaml_field ft) fs -> fields_from ft (map (fnode ft) fs) = Ok (map (reread ft) fs).
Proof. induction 1 as [|f fs Hf HF IH]; [reflexivity|]. cbn [map fields_from]. rewrite field_from_rt by assumption. cbn [bind]. rewrite IH. reflexivity. Qed.

Definition fseq ft fs := match fs with [] => NNull | _ => NSeq (map (fnode ft) fs) end.
Lemma items_end fuel : parseItemKeys (S fuel) 2 [] = Ok ([], []).
Proof. reflexivity. Qed.
Lemma sequence_rt ft fs : Forall (yaml_field ft) fs -> forall fuel, (List.length fs + 5 <= fuel)%nat -> parseSequence fuel 2 (concat (map (field_lines ft) fs)) = Ok (map (fnode ft) fs, []).
Proof.
  induction 1 as [|f fs Hf HF IH]; intros fuel Hfu.
  - destruct fuel; [lia|]. reflexivity.
  - pose proof (clean_res ft f Hf) as CR. destruct Hf as (H1 & H2 & H3 & H4). destruct (dec_text_spec _ H2) as (CO & _ & _). pose proof (clean_type (f_type f)) as CT.
    cbn [map concat List.length field_lines app] in *. destruct fuel as [|[|[|[|[|fuel]]]]]; try lia.
    change 2 with (Z.of_nat 2). rewrite sequence_step by (assumption || apply key_name).
    rewrite items_step by (assumption || apply key_offset || lia). rewrite items_step by (assumption || apply key_type || lia). rewrite items_step by (assumption || apply key_resolution || lia).
    assert (E : parseItemKeys (S fuel) (Z.of_nat 2) (concat (map (field_lines ft) fs)) = Ok ([], concat (map (field_lines ft) fs))).
    { destruct HF as [|g gs Hg HG]; [reflexivity|]. cbn [map concat field_lines app]. apply items_stop; [apply key_name|]. apply Hg. }
    rewrite E. cbn [bind]. change (Z.of_nat 2) with 2. rewrite IH by lia. reflexivity.
Qed.

Lemma fields_step fuel ls : parseMapping (S fuel) 0 (str "fields:" :: ls) =
  do '(n, rest) <- parseNode fuel 2 ls ; do '(more, rest') <- parseMapping fuel 0 rest ; Ok ((str "fields", n) :: more, rest').
Proof. reflexivity. Qed.
Lemma fields_node ft fs : Forall (yaml_field ft) fs -> forall fuel, (List.length fs + 6 <= fuel)%nat ->
  parseNode fuel 2 (concat (map (field_lines ft) fs)) = Ok (fseq ft fs, []).
Proof.
  intros HF fuel Hfu. destruct fuel as [|fuel]; [lia|]. destruct fs as [|f fs]; [reflexivity|]. inversion HF as [|? ? Hf HF']; subst.
  cbn [parseNode]. cbn [map concat field_lines app]. rewrite item_skip by (apply key_name || apply Hf). rewrite item_indent by (apply key_name || apply Hf).
  change (Z.of_nat 2 <? 2) with false. cbv iota zeta. rewrite item_trim by (apply key_name || apply Hf). cbn [starts_item].
  change (item 2 (str "name") (f_name f) :: _) with (concat (map (field_lines ft) (f :: fs))). rewrite sequence_rt by (assumption || lia). reflexivity.
Qed.
Definition root ft i : node := NMap
  ([(str "version", NStr (dec_text (i_version i))); (str "width", NStr (dec_text (i_width i))); (str "height", NStr (dec_text (i_height i))); (str "point_step", NStr (dec_text (i_step i)));
    (str "encoding_opt", NStr (EncodingToString (i_enc i))); (str "compression_opt", NStr (CompressionToString (i_comp i)))] ++
   match i_cfg i with [] => [] | c => [(str "encoding_config", NStr c)] end ++ [(str "fields", fseq ft (i_fields i))]).
Lemma field_lines_len ft fs : List.length (concat (map (field_lines ft) fs)) = (4 * List.length fs)%nat.
Proof. induction fs as [|f fs IH]; [reflexivity|]. cbn [map concat List.length]. rewrite app_length, IH. cbn [field_lines List.length]. lia. Qed.
Lemma parse_doc ft i : yaml_info ft i -> yaml_parse (EncodingInfoToYAML ft i) = Ok (root ft i).
Proof.
  intros (H1 & H2 & H3 & H4 & H5 & H6 & H7 & H8). destruct (dec_text_spec (i_version i) ltac:(lia)) as (C1 & _). destruct (dec_text_spec _ H2) as (C2 & _). destruct (dec_text_spec _ H3) as (C3 & _). destruct (dec_text_spec _ H4) as (C4 & _).
  assert (NL : Forall (Forall (fun c => c <> 10)) (doc_lines ft i)).
  { assert (KV : forall n k v, key k -> clean v -> Forall (fun c => c <> 10) (kv n k v)).
    { intros n k v K V. unfold kv. apply Forall_app; split; [apply Forall_forall; intros x Hx; apply repeat_spec in Hx; lia|]. destruct (kv_clean k v K V) as (_ & F & _). eapply Forall_impl; [|exact F]. cbn. tauto. }
    assert (IT : forall n k v, key k -> clean v -> Forall (fun c => c <> 10) (item n k v)).
    { intros n k v K V. unfold item. apply Forall_app; split; [apply Forall_forall; intros x Hx; apply repeat_spec in Hx; lia|]. destruct (item_clean k v K V) as (_ & F & _). eapply Forall_impl; [|exact F]. cbn. tauto. }
    unfold doc_lines. apply Forall_app; split; [|apply Forall_app; split; [|apply Forall_app; split]].
    - unfold head_lines. do 6 (constructor; [apply KV; auto using key_version, key_width, key_height, key_step, key_enc, key_comp, clean_enc, clean_comp|]). constructor.
    - unfold cfg_lines. destruct (i_cfg i) eqn:E; [constructor|]. constructor; [|constructor]. apply KV; [apply key_cfg|]. destruct H7 as [H7|H7]; [discriminate H7|exact H7].
    - constructor; [|constructor]. lit. repeat (constructor; [lia|]); constructor.
    - apply Forall_concat. apply Forall_map. eapply Forall_impl; [|exact H8]. intros f Hf. pose proof (clean_res ft f Hf) as CR. destruct Hf as (F1 & F2 & F3 & F4). destruct (dec_text_spec _ F2) as (CO & _).
      unfold field_lines. constructor; [apply IT; auto using key_name|]. constructor; [apply KV; auto using key_offset|]. constructor; [apply KV; auto using key_type, clean_type|]. constructor; [apply KV; auto using key_resolution|constructor]. }
  unfold yaml_parse. rewrite doc_text, split_unlines by assumption.
  assert (Len : (List.length (i_fields i) + 8 + (match i_cfg i with [] => 0 | _ => 1 end) <= List.length (doc_lines ft i) + 1)%nat /\ (7 <= List.length (doc_lines ft i))%nat).
  { unfold doc_lines. rewrite !app_length, field_lines_len. unfold head_lines, cfg_lines. destruct (i_cfg i); cbn [List.length]; lia. }
  assert (G : forall fuel, (List.length (i_fields i) + 16 <= fuel)%nat -> parseNode fuel 0 (doc_lines ft i) = Ok (root ft i, [])).
  { clear Len NL. intros fuel Hfu. do 10 (destruct fuel as [|fuel]; [lia|]). cbn [parseNode]. unfold doc_lines, head_lines. cbn [app].
    rewrite kv_skip by auto using key_version. rewrite kv_indent by auto using key_version. change (Z.of_nat 0 <? 0) with false. cbv iota zeta. rewrite kv_trim by auto using key_version.
    replace (starts_item (str "version" ++ 58 :: 32 :: dec_text (i_version i))) with (@None (list Z)) by reflexivity. rewrite kv_find by auto using key_version.
    change 0 with (Z.of_nat 0). rewrite !mapping_step by auto using key_version, key_width, key_height, key_step, key_enc, key_comp, clean_enc, clean_comp.
    assert (T : forall k, (List.length (i_fields i) + 7 <= k)%nat -> parseMapping (S k) (Z.of_nat 0) (str "fields:" :: concat (map (field_lines ft) (i_fields i))) = Ok ([(str "fields", fseq ft (i_fields i))], [])).
    { intros k Hk. change (Z.of_nat 0) with 0. rewrite fields_step, fields_node by (assumption || lia). cbn [bind]. destruct k; [lia|]. reflexivity. }
    unfold cfg_lines, root. destruct (i_cfg i) as [|c cfg] eqn:E; cbn [app].
    - rewrite T by lia. reflexivity.
    - assert (CC : clean (c :: cfg)) by (destruct H7 as [H7|H7]; [discriminate H7|exact H7]). rewrite mapping_step by (assumption || apply key_cfg). rewrite T by lia. reflexivity. }
  destruct (doc_lines ft i) as [|l ls] eqn:E; [cbn in Len; lia|]. rewrite <- E in *. rewrite G; [reflexivity|]. destruct Len as [Len _].
  assert (L2 : (List.length (doc_lines ft i) = 7 + 4 * List.length (i_fields i) + match i_cfg i with [] => 0 | _ => 1 end)%nat).
  { unfold doc_lines. rewrite !app_length, field_lines_len. unfold head_lines, cfg_lines. destruct (i_cfg i); cbn [List.length]; lia. }
  lia.
Qed.
Lemma from_yaml_rt ft i : yaml_info ft i -> exists ver, as_uint8 (dec_text (i_version i)) = Ok ver /\ EncodingInfoFromYAML ft (EncodingInfoToYAML ft i) =
  Ok (mkInfo (map (reread ft) (i_fields i)) (i_width i) (i_height i) (i_step i) (i_enc i) (i_cfg i) (i_comp i) true ver).
Proof.
  intros H. unfold EncodingInfoFromYAML. rewrite parse_doc by assumption. cbn [bind]. destruct H as (H1 & H2 & H3 & H4 & H5 & H6 & H7 & H8). unfold root.
  change (get_str _ (str "version")) with (Ok (dec_text (i_version i))). cbn [bind]. destruct (dec_text_spec (i_version i) ltac:(lia)) as (C1 & _).
  assert (E : exists c, as_uint8 (dec_text (i_version i)) = Ok c).
  { unfold as_uint8. destruct C1 as (A & _ & B & _). destruct (dec_text (i_version i)) as [|c t]; [congruence|]. cbn [hd drop_space] in *. rewrite B. eauto. }
  destruct E as (c & ->). cbn [bind]. exists c. split; [reflexivity|].
  change (get_str _ (str "width")) with (Ok (dec_text (i_width i))). cbn [bind]. rewrite (proj2 (proj2 (dec_text_spec _ H2))). cbn [bind].
  change (get_str _ (str "height")) with (Ok (dec_text (i_height i))). cbn [bind]. rewrite (proj2 (proj2 (dec_text_spec _ H3))). cbn [bind].
  change (get_str _ (str "point_step")) with (Ok (dec_text (i_step i))). cbn [bind]. rewrite (proj2 (proj2 (dec_text_spec _ H4))). cbn [bind].
  change (get_str _ (str "encoding_opt")) with (Ok (EncodingToString (i_enc i))). cbn [bind].
  assert (EE : EncodingOptionsFromString (EncodingToString (i_enc i)) = Ok (i_enc i)). { unfold known_enc in H5. destruct (i_enc i); try contradiction; reflexivity. }
  rewrite EE. cbn [bind]. change (get_str _ (str "compression_opt")) with (Ok (CompressionToString (i_comp i))). cbn [bind].
  assert (EC : CompressionOptionFromString (CompressionToString (i_comp i)) = Ok (i_comp i)). { destruct (i_comp i); try contradiction; reflexivity. }
  rewrite EC. cbn [bind]. cbn [get bind].
  match goal with |- context [lookup ?m (str "fields")] => assert (L1 : lookup m (str "fields") = fseq ft (i_fields i)) by (destruct (i_cfg i); reflexivity);
    assert (L2 : match lookup m (str "encoding_config") with NStr s => s | _ => [] end = i_cfg i) by (destruct (i_cfg i); reflexivity) end.
  rewrite L1, L2. pose proof (fields_from_rt ft _ H8) as FR. destruct (i_fields i) as [|f fs]; [reflexivity|]. unfold fseq. rewrite FR. reflexivity.
Qed.
Lemma yaml_header_rt ft i rest : yaml_info ft i -> exists h, EncodeHeader ft i HYaml = Ok h /\
  DecodeHeader ft (h ++ rest) = Ok (mkInfo (map (reread ft) (i_fields i)) (i_width i) (i_height i) (i_step i) (i_enc i) (i_cfg i) (i_comp i) true (i_version i), rest).
Proof.
  intros H. eexists. split; [reflexivity|]. pose proof H as Hi. destruct H as (H1 & H2 & H3 & H4 & H5 & H6 & H7 & H8). rewrite <- app_assoc, decode_magic by assumption.
  unfold nl. cbn [app]. rewrite <- app_assoc. cbn [app]. assert (V : exists t, EncodingInfoToYAML ft i = 118 :: t) by (eexists; reflexivity). destruct V as (t & V).
  unfold after_version. rewrite V. cbn [app]. change (118 =? 123) with false. cbv iota. unfold trim_front. cbn [List.length Nat.ltb Nat.leb bind skipn].
  change (118 :: t ++ 0 :: rest) with ((118 :: t) ++ 0 :: rest). rewrite <- V. rewrite find_char_app.
  - destruct (from_yaml_rt ft i Hi) as (ver & _ & ->). reflexivity.
  - rewrite doc_text. unfold unlines. apply Forall_concat, Forall_map.
    assert (KV : forall n k v, key k -> clean v -> Forall (fun c => c <> 0) (kv n k v ++ [10])).
    { intros n k v K V'. unfold kv. apply Forall_app; split; [|constructor; [lia|constructor]]. apply Forall_app; split; [apply Forall_forall; intros x Hx; apply repeat_spec in Hx; lia|]. destruct (kv_clean k v K V') as (_ & F & _). eapply Forall_impl; [|exact F]. cbn. tauto. }
    assert (IT : forall n k v, key k -> clean v -> Forall (fun c => c <> 0) (item n k v ++ [10])).
    { intros n k v K V'. unfold item. apply Forall_app; split; [|constructor; [lia|constructor]]. apply Forall_app; split; [apply Forall_forall; intros x Hx; apply repeat_spec in Hx; lia|]. destruct (item_clean k v K V') as (_ & F & _). eapply Forall_impl; [|exact F]. cbn. tauto. }
    destruct (dec_text_spec (i_version i) ltac:(lia)) as (C1 & _). destruct (dec_text_spec _ H2) as (C2 & _). destruct (dec_text_spec _ H3) as (C3 & _). destruct (dec_text_spec _ H4) as (C4 & _).
    unfold doc_lines. apply Forall_app; split; [|apply Forall_app; split; [|apply Forall_app; split]].
    + unfold head_lines. do 6 (constructor; [apply KV; auto using key_version, key_width, key_height, key_step, key_enc, key_comp, clean_enc, clean_comp|]). constructor.
    + unfold cfg_lines. destruct (i_cfg i) eqn:E; [constructor|]. constructor; [|constructor]. apply KV; [apply key_cfg|]. destruct H7 as [H7|H7]; [discriminate H7|exact H7].
    + constructor; [|constructor]. lit. repeat (constructor; [lia|]); constructor.
    + apply Forall_concat. apply Forall_map. eapply Forall_impl; [|exact H8]. intros f Hf. pose proof (clean_res ft f Hf) as CR. destruct Hf as (F1 & F2 & F3 & F4). destruct (dec_text_spec _ F2) as (CO & _).
      unfold field_lines. constructor; [apply IT; auto using key_name|]. constructor; [apply KV; auto using key_offset|]. constructor; [apply KV; auto using key_type, clean_type|]. constructor; [apply KV; auto using key_resolution|constructor].
Qed.
