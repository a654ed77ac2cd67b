(** Facts about the header model.  Proof file. *)
From Coq Require Import String Ascii.
From Verif Require Import Base BaseFacts Types V5 Api Header HostileFacts CloudFacts.

Lemma take_uint_le n v rest : take_uint n (le_bytes n v ++ rest) = Ok (v mod 256 ^ Z.of_nat n, rest).
Proof.
  unfold take_uint. rewrite app_length, le_bytes_length. replace (n + List.length rest <? n)%nat with false by lia.
  rewrite firstn_app, skipn_app, le_bytes_length, Nat.sub_diag, firstn_O, skipn_O, app_nil_r.
  rewrite firstn_all2 by (rewrite le_bytes_length; lia). rewrite skipn_all2 by (rewrite le_bytes_length; lia). cbn [app].
  now rewrite le_val_le_bytes.
Qed.
Lemma take_app s rest : take (List.length s) (s ++ rest) = Ok (s, rest).
Proof.
  unfold take. rewrite app_length. replace (List.length s + List.length rest <? List.length s)%nat with false by lia.
  rewrite firstn_app, skipn_app, Nat.sub_diag, firstn_O, skipn_O, app_nil_r, firstn_all, skipn_all. reflexivity.
Qed.
Lemma list_eqb_refl a : list_eqb a a = true.
Proof. unfold list_eqb. now destruct (list_eq_dec Z.eq_dec a a). Qed.
Lemma list_eqb_eq a b : list_eqb a b = true -> a = b.
Proof. unfold list_eqb. now destruct (list_eq_dec Z.eq_dec a b). Qed.
Lemma list_eqb_neq a b : a <> b -> list_eqb a b = false.
Proof. unfold list_eqb. now destruct (list_eq_dec Z.eq_dec a b). Qed.

(** ** binary *)
Definition field_repr (f : field) : Prop :=
  zlen (f_name f) < 65536 /\ 0 <= f_off f < 4294967296 /\ 0 <= ftype_code (f_type f) < 256 /\ ftype_of_code (ftype_code (f_type f)) = f_type f /\
  match f_res f with Some r => f32_gt0 r = true | None => True end.
Lemma decode_string_app s rest : zlen s < 65536 -> decode_string (encode_string s ++ rest) = Ok (s, rest).
Proof.
  intros H. unfold decode_string, encode_string. pose proof (zlen_nonneg s). rewrite Z.mod_small by lia. unfold zlen at 2. rewrite Nat2Z.id, firstn_all, <- app_assoc.
  rewrite take_uint_le. cbn [bind]. change (256 ^ Z.of_nat 2) with 65536. rewrite Z.mod_small by lia. unfold zlen. rewrite Nat2Z.id. apply take_app.
Qed.
Lemma decode_field_app f rest : field_repr f -> decode_field (field_binary f ++ rest) = Ok (f, rest).
Proof.
  intros (H1 & H2 & H3 & H4 & H5). unfold decode_field, field_binary. rewrite <- !app_assoc, decode_string_app by assumption. cbn [bind].
  rewrite take_uint_le. cbn [bind]. rewrite take_uint_le. cbn [bind]. rewrite take_uint_le. cbn [bind].
  change (256 ^ Z.of_nat 4) with 4294967296. change (256 ^ Z.of_nat 1) with 256. rewrite !Z.mod_small with (b := 256) by lia. rewrite (Z.mod_small (f_off f)) by lia. rewrite H4.
  destruct f as [n o t r]; cbn [f_name f_off f_type f_res] in *. destruct r as [r|].
  - unfold f32_gt0 in *. rewrite (Z.mod_small r) by lia. rewrite H5. reflexivity.
  - reflexivity.
Qed.
Lemma decode_fields_app fs rest : Forall field_repr fs -> decode_fields (List.length fs) (concat (map field_binary fs) ++ rest) = Ok (fs, rest).
Proof.
  induction fs as [|f fs IH]; intros HF; [reflexivity|]. inversion HF; subst. cbn [List.length decode_fields map concat]. rewrite <- app_assoc, decode_field_app by assumption. cbn [bind].
  rewrite IH by assumption. reflexivity.
Qed.
Lemma field_binary_length f : zlen (f_name f) < 65536 -> zlen (field_binary f) = zlen (f_name f) + 2 + 4 + 1 + 4.
Proof.
  intros H. unfold field_binary, encode_string. pose proof (zlen_nonneg (f_name f)). rewrite Z.mod_small by lia. unfold zlen in *. rewrite Nat2Z.id, firstn_all.
  rewrite !app_length, !le_bytes_length. lia.
Qed.
Lemma fields_length fs : Forall (fun f => zlen (f_name f) < 65536) fs ->
  zlen (concat (map field_binary fs)) = fold_right (fun f a => zlen (f_name f) + 2 + 4 + 1 + 4 + a) 0 fs.
Proof.
  induction 1 as [|f fs Hf HF IH]; [reflexivity|]. cbn [map concat fold_right]. unfold zlen in IH at 1. unfold zlen at 1. rewrite app_length, Nat2Z.inj_add.
  rewrite IH. pose proof (field_binary_length f Hf) as L. unfold zlen in L at 1. rewrite L. reflexivity.
Qed.
Definition bin_header (i : info) : list Z :=
  magic_version (i_version i) ++ le_bytes 4 (i_width i) ++ le_bytes 4 (i_height i) ++ le_bytes 4 (i_step i) ++
  le_bytes 1 (enc_code (i_enc i)) ++ le_bytes 1 (comp_code (i_comp i)) ++ le_bytes 2 (zlen (i_fields i)) ++ concat (map field_binary (i_fields i)).
Lemma encode_binary ft i : Forall (fun f => zlen (f_name f) < 65536) (i_fields i) -> EncodeHeader ft i HBinary = Ok (bin_header i) /\ zlen (bin_header i) = ComputeHeaderSize (i_fields i).
Proof.
  intros HF. assert (L : zlen (bin_header i) = ComputeHeaderSize (i_fields i)).
  { unfold bin_header, ComputeHeaderSize. rewrite <- (fields_length _ HF). unfold zlen. unfold magic_version. rewrite !app_length, !le_bytes_length. cbn [List.length magic]. lia. }
  split; [|exact L]. unfold EncodeHeader. fold (bin_header i). unfold into. rewrite L, Z.ltb_irrefl, Z.sub_diag. cbn [Z.to_nat repeat]. now rewrite app_nil_r.
Qed.
(** the part of DecodeHeader after the version *)
Definition after_version (ft : float_text) (version : Z) (input : list Z) : res (info * list Z) :=
  match input with
  | 10 :: c :: _ =>
      if c =? 123 then binary version input
      else
        do input <- trim_front 1 input ;
        match find_char 0 input with
        | None => Throw
        | Some (yaml, rest) =>
            do i <- EncodingInfoFromYAML ft yaml ;
            Ok (mkInfo (i_fields i) (i_width i) (i_height i) (i_step i) (i_enc i) (i_cfg i) (i_comp i) (i_threads i) version, rest)
        end
  | _ => binary version input
  end.
Lemma decode_magic ft v rest : 2 <= v <= 5 -> DecodeHeader ft (magic_version v ++ rest) = after_version ft v rest.
Proof.
  intros Hv. unfold DecodeHeader. unfold magic_version. assert (Ev : v / 10 = 0 /\ v mod 10 = v) by (split; [apply Z.div_small; lia|apply Z.mod_small; lia]). destruct Ev as [-> ->].
  rewrite <- app_assoc. cbn [app]. change (48 + 0) with 48.
  set (tail := 48 :: 48 + v :: rest).
  assert (Lt : List.length tail = S (S (List.length rest))) by reflexivity.
  assert (Hz : zlen (magic ++ tail) <? zlen magic + 2 = false). { unfold zlen. rewrite app_length. lia. }
  rewrite Hz. rewrite rd_ok; [|lia|unfold zlen; rewrite app_length; lia]. cbn [bind]. change (Z.to_nat 0) with 0%nat. rewrite skipn_O, firstn_app, firstn_all, Nat.sub_diag, firstn_O, app_nil_r, list_eqb_refl. cbn [negb].
  unfold trim_front at 1. rewrite app_length. replace (_ <? _)%nat with false by lia. cbn [bind].
  rewrite skipn_app, skipn_all, Nat.sub_diag, skipn_O. cbn [app].
  rewrite rd_ok; [|lia|unfold zlen; lia]. cbn [bind]. change (Z.to_nat 0) with 0%nat. rewrite skipn_O. unfold tail. cbn [firstn nth].
  assert (Ec : (char_to_num 48 * 10 + char_to_num (48 + v)) mod 256 = v).
  { unfold char_to_num, isdigit. replace ((48 <=? 48) && (48 <=? 57)) with true by reflexivity. replace ((48 <=? 48 + v) && (48 + v <=? 57)) with true by lia. rewrite Z.mod_small by lia. lia. }
  rewrite Ec. unfold trim_front at 1. cbn [List.length Nat.ltb Nat.leb bind skipn]. unfold kEncodingVersion. replace ((v <? 2) || (5 <? v)) with false by lia. reflexivity.
Qed.
Definition info_repr (i : info) : Prop :=
  2 <= i_version i <= 5 /\ 0 <= i_width i < 4294967296 /\ 0 <= i_height i < 4294967296 /\ 0 <= i_step i < 4294967296 /\
  0 <= enc_code (i_enc i) < 256 /\ enc_of_code (enc_code (i_enc i)) = i_enc i /\ 0 <= comp_code (i_comp i) < 256 /\ comp_of_code (comp_code (i_comp i)) = i_comp i /\
  zlen (i_fields i) < 65536 /\ Forall field_repr (i_fields i).
Lemma binary_app i rest : info_repr i ->
  binary (i_version i) (le_bytes 4 (i_width i) ++ le_bytes 4 (i_height i) ++ le_bytes 4 (i_step i) ++
    le_bytes 1 (enc_code (i_enc i)) ++ le_bytes 1 (comp_code (i_comp i)) ++ le_bytes 2 (zlen (i_fields i)) ++ concat (map field_binary (i_fields i)) ++ rest)
  = Ok (mkInfo (i_fields i) (i_width i) (i_height i) (i_step i) (i_enc i) [] (i_comp i) true (i_version i), rest).
Proof.
  intros (H1 & H2 & H3 & H4 & H5 & H6 & H7 & H8 & H9 & H10). unfold binary.
  do 6 (rewrite take_uint_le; cbn [bind]). change (256 ^ Z.of_nat 4) with 4294967296. change (256 ^ Z.of_nat 1) with 256. change (256 ^ Z.of_nat 2) with 65536.
  pose proof (zlen_nonneg (i_fields i)). rewrite !Z.mod_small by lia. unfold zlen. rewrite Nat2Z.id, decode_fields_app by assumption. cbn [bind]. now rewrite H6, H8.
Qed.
Lemma le4 v : exists a b c d, le_bytes 4 v = [a; b; c; d] /\ a = v mod 256 /\ b = (v / 256) mod 256.
Proof. cbn [le_bytes]. eauto 10. Qed.

Lemma not_yaml ft v w rest : w mod 256 <> 10 \/ (w / 256) mod 256 = 123 -> after_version ft v (le_bytes 4 w ++ rest) = binary v (le_bytes 4 w ++ rest).
Proof.
  intros H. destruct (le4 w) as (a & b & c & d & -> & -> & ->). cbn [app]. unfold after_version. destruct H as [H|H].
  - destruct (w mod 256) as [|p|p]; try reflexivity. do 5 (try destruct p as [p|p|]; try reflexivity). congruence.
  - rewrite H. change (123 =? 123) with true. destruct (w mod 256) as [|p|p]; try reflexivity. do 5 (try destruct p as [p|p|]; try reflexivity).
Qed.

(** ** the YAML parser ends: fuel is never exhausted *)
Lemma skipEmpty_len ls : (List.length (skipEmptyLines ls) <= List.length ls)%nat.
Proof. induction ls as [|l ls IH]; cbn [skipEmptyLines List.length]; [lia|]. destruct (trim l) as [|c t]; [lia|]. destruct (c =? 35); cbn [List.length]; lia. Qed.
Definition fine {A} (n : nat) (r : res (A * list (list Z))) : Prop := match r with Ok (_, rest) => (List.length rest <= n)%nat | Throw => True | UB => False end.
Lemma parser_fine fuel : forall base ls,
  ((2 * List.length ls + 2 <= fuel)%nat -> fine (List.length ls) (parseNode fuel base ls)) /\
  ((2 * List.length ls + 1 <= fuel)%nat -> fine (List.length ls) (parseSequence fuel base ls) /\ fine (List.length ls) (parseItemKeys fuel base ls) /\ fine (List.length ls) (parseMapping fuel base ls)).
Proof.
  induction fuel as [|k IH]; intros base ls; [split; lia|].
  pose proof (skipEmpty_len ls) as SL. split; [intros Hf|intros Hf; split; [|split]].
  - cbn [parseNode]. destruct (skipEmptyLines ls) as [|line ls'] eqn:E; [cbn; lia|]. cbn [List.length] in SL.
    destruct (getIndentation line <? base); [cbn [fine List.length]; lia|]. destruct (IH base (line :: ls')) as [_ I2]. cbn [List.length] in I2.
    destruct (I2 ltac:(lia)) as (A & _ & B). destruct (starts_item (trim line)).
    + destruct (parseSequence k base (line :: ls')) as [[s r]| |]; cbn [bind fine] in *; auto. lia.
    + destruct (find_char 58 (trim line)); [|cbn [fine List.length]; lia]. destruct (parseMapping k base (line :: ls')) as [[s r]| |]; cbn [bind fine] in *; auto. lia.
  - cbn [parseSequence]. destruct (skipEmptyLines ls) as [|line ls'] eqn:E; [cbn; lia|]. cbn [List.length] in SL.
    destruct (getIndentation line <? base); [cbn [fine List.length]; lia|]. destruct (starts_item (trim line)) as [item|]; [|cbn [fine List.length]; lia].
    assert (G : fine (List.length ls') (match item with
      | [] => parseNode k (getIndentation line + 2) ls'
      | _ => match find_char 58 item with
             | Some (key, value) => let first := match trim value with [] => [] | v => [(trim key, NStr v)] end in
                 do '(more, rest) <- parseItemKeys k (getIndentation line) ls' ; Ok (NMap (first ++ more), rest)
             | None => Ok (NStr item, ls') end end)).
    { destruct item as [|c item]; [apply (IH (getIndentation line + 2) ls'); lia|]. destruct (find_char 58 (c :: item)) as [[key value]|]; [|cbn; lia].
      cbv zeta. destruct (IH (getIndentation line) ls') as [_ I2]. destruct (I2 ltac:(lia)) as (_ & B & _).
      destruct (parseItemKeys k (getIndentation line) ls') as [[m r]| |]; cbn [bind fine] in *; auto. }
    destruct (match item with [] => _ | _ => _ end) as [[n rest]| |]; cbn [bind fine] in *; auto.
    destruct (IH base rest) as [_ I3]. destruct (I3 ltac:(lia)) as (A & _ & _). destruct (parseSequence k base rest) as [[ns r']| |]; cbn [bind fine] in *; auto. lia.
  - cbn [parseItemKeys]. destruct (skipEmptyLines ls) as [|line ls'] eqn:E; [cbn; lia|]. cbn [List.length] in SL.
    destruct (getIndentation line <=? base); [cbn [fine List.length]; lia|]. destruct (find_char 58 (trim line)) as [[key value]|]; [|cbn [fine List.length]; lia].
    assert (G : fine (List.length ls') (match trim value with [] => parseNode k (getIndentation line + 2) ls' | v => Ok (NStr v, ls') end)).
    { destruct (trim value); [apply (IH (getIndentation line + 2) ls'); lia|cbn; lia]. }
    destruct (match trim value with [] => _ | _ => _ end) as [[n rest]| |]; cbn [bind fine] in *; auto.
    destruct (IH base rest) as [_ I3]. destruct (I3 ltac:(lia)) as (_ & A & _). destruct (parseItemKeys k base rest) as [[ns r']| |]; cbn [bind fine] in *; auto. lia.
  - cbn [parseMapping]. destruct (skipEmptyLines ls) as [|line ls'] eqn:E; [cbn; lia|]. cbn [List.length] in SL.
    destruct (negb (getIndentation line =? base)); [cbn [fine List.length]; lia|]. destruct (find_char 58 (trim line)) as [[key value]|]; [|cbn [fine List.length]; lia].
    assert (G : fine (List.length ls') (match trim value with [] => parseNode k (getIndentation line + 2) ls' | v => Ok (NStr v, ls') end)).
    { destruct (trim value); [apply (IH (getIndentation line + 2) ls'); lia|cbn; lia]. }
    destruct (match trim value with [] => _ | _ => _ end) as [[n rest]| |]; cbn [bind fine] in *; auto.
    destruct (IH base rest) as [_ I3]. destruct (I3 ltac:(lia)) as (_ & _ & A). destruct (parseMapping k base rest) as [[ns r']| |]; cbn [bind fine] in *; auto. lia.
Qed.
Lemma yaml_parse_defined s : yaml_parse s <> UB.
Proof.
  unfold yaml_parse. destruct (splitLines s) as [|l ls] eqn:E; [discriminate|]. rewrite <- E. destruct (parser_fine (2 * List.length (splitLines s) + 2) 0 (splitLines s)) as [P _].
  specialize (P (Nat.le_refl _)). destruct (parseNode _ 0 (splitLines s)) as [[n r]| |]; cbn [bind fine] in *; [discriminate|discriminate|contradiction].
Qed.
Lemma bind_def {A B} (m : res A) (k : A -> res B) : m <> UB -> (forall a, k a <> UB) -> bind m k <> UB.
Proof. destruct m; cbn; auto; discriminate. Qed.
Lemma stoi_def s : stoi s <> UB.
Proof. unfold stoi. destruct (signed_digits s) as [n [v|]]; [|discriminate]. cbv zeta. destruct (_ || _); discriminate. Qed.
Lemma u32_def s : as_uint32 s <> UB.
Proof. unfold as_uint32. destruct (signed_digits s) as [n [v|]]; [|discriminate]. destruct (4294967295 <? v); discriminate. Qed.
Lemma get_str_def n k : get_str n k <> UB.
Proof. unfold get_str, get. destruct n; cbn [bind]; try discriminate. unfold as_string. destruct (lookup m k); discriminate. Qed.
Lemma get_def n k : get n k <> UB.
Proof. unfold get. destruct n; discriminate. Qed.
Ltac ifs := repeat match goal with |- (if ?b then _ else _) <> UB => destruct b; [discriminate|] end.
Lemma enc_def s : EncodingOptionsFromString s <> UB.
Proof. unfold EncodingOptionsFromString. ifs. apply bind_def; [apply stoi_def|]. intros a. destruct (_ && _); discriminate. Qed.
Lemma comp_def s : CompressionOptionFromString s <> UB.
Proof. unfold CompressionOptionFromString. ifs. apply bind_def; [apply stoi_def|]. intros a. destruct (_ && _); discriminate. Qed.
Lemma type_def s : FieldTypeFromString s <> UB.
Proof. unfold FieldTypeFromString. ifs. apply bind_def; [apply stoi_def|]. intros a. destruct (_ && _); discriminate. Qed.
Lemma field_def ft n : field_from ft n <> UB.
Proof.
  unfold field_from. apply bind_def; [apply get_str_def|]. intros a. apply bind_def; [apply get_str_def|]. intros b. apply bind_def; [apply u32_def|]. intros c.
  apply bind_def; [apply get_str_def|]. intros d. apply bind_def; [apply type_def|]. intros e. apply bind_def; [apply get_str_def|]. intros f.
  destruct (list_eqb f _); [discriminate|]. destruct (ft_parse ft f); discriminate.
Qed.
Lemma fields_def ft l : fields_from ft l <> UB.
Proof. induction l as [|n l IH]; cbn [fields_from]; [discriminate|]. apply bind_def; [apply field_def|]. intros f. apply bind_def; [exact IH|]. discriminate. Qed.
Lemma from_yaml_def ft s : EncodingInfoFromYAML ft s <> UB.
Proof.
  unfold EncodingInfoFromYAML. apply bind_def; [apply yaml_parse_defined|]. intros root.
  repeat (apply bind_def; [first [apply get_str_def|apply get_def|apply u32_def|apply enc_def|apply comp_def|unfold as_uint8; intros H; destruct (drop_space _); discriminate H|match goal with |- match ?x with _ => _ end <> UB => destruct x; try discriminate; apply fields_def end]|intros ?]).
  discriminate.
Qed.
