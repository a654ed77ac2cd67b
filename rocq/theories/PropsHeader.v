(** C28 - C32: EncodeHeader and DecodeHeader. *)
From Coq Require Import String Ascii.
From Verif Require Import Base BaseFacts Types V5 Api Spec Header FloatText HeaderFacts HostileFacts CloudFacts YamlFacts YamlRT.

(** *** Specification vocabulary *)
(** What the header does not store: [encoding_config] (binary only) and [use_threads]
    come back as their defaults. *)
Definition stored_binary (i : info) : info :=
  mkInfo (i_fields i) (i_width i) (i_height i) (i_step i) (i_enc i) [] (i_comp i) true (i_version i).
Definition stored_yaml (fields : list field) (i : info) : info :=
  mkInfo fields (i_width i) (i_height i) (i_step i) (i_enc i) (i_cfg i) (i_comp i) true (i_version i).
(** The info's members are values of their C++ types; names fit the 16 bit length; a
    resolution, if present, is positive. *)
Definition byte_valued (z : Z) : Prop := 0 <= z < 256.
Definition header_field (f : field) : Prop :=
  zlen (f_name f) < 65536 /\ 0 <= f_off f < 2 ^ 32 /\
  match f_type f with FT_OTHER z => 10 < z < 256 | _ => True end /\
  match f_res f with Some r => 0 < r <= 2139095040 (* 0 < resolution <= +inf *) | None => True end.
Definition header_info (i : info) : Prop :=
  2 <= i_version i <= 5 /\ 0 <= i_width i < 2 ^ 32 /\ 0 <= i_height i < 2 ^ 32 /\ 0 <= i_step i < 2 ^ 32 /\
  match i_enc i with ENC_OTHER z => 2 < z < 256 | _ => True end /\
  match i_comp i with COMP_OTHER z => 2 < z < 256 | _ => True end /\
  zlen (i_fields i) < 65536 /\ Forall header_field (i_fields i).
(** The width's two low bytes are not those of a line break followed by something other
    than a brace. *)
Definition width_unambiguous (w : Z) : Prop := w mod 256 <> 10 \/ (w / 256) mod 256 = 123.

Lemma code_cases z : 10 < z < 256 -> ftype_of_code z = FT_OTHER z.
Proof. intros H. unfold ftype_of_code. destruct z as [|p|p]; try lia. do 4 (try destruct p as [p|p|]; try reflexivity); lia. Qed.
Lemma ecode_cases z : 2 < z < 256 -> enc_of_code z = ENC_OTHER z.
Proof. intros H. unfold enc_of_code. destruct z as [|p|p]; try lia. do 2 (try destruct p as [p|p|]; try reflexivity); lia. Qed.
Lemma ccode_cases z : 2 < z < 256 -> comp_of_code z = COMP_OTHER z.
Proof. intros H. unfold comp_of_code. destruct z as [|p|p]; try lia. do 2 (try destruct p as [p|p|]; try reflexivity); lia. Qed.
Lemma header_repr i : header_info i -> info_repr i.
Proof.
  intros (H1 & H2 & H3 & H4 & H5 & H6 & H7 & H8). change (2 ^ 32) with 4294967296 in *. unfold info_repr. do 4 (split; [assumption|]).
  split; [destruct (i_enc i); cbn [enc_code] in *; lia|]. split; [destruct (i_enc i); try reflexivity; now apply ecode_cases|].
  split; [destruct (i_comp i); cbn [comp_code] in *; lia|]. split; [destruct (i_comp i); try reflexivity; now apply ccode_cases|]. split; [assumption|].
  eapply Forall_impl; [|exact H8]. intros f (F1 & F2 & F3 & F4). change (2 ^ 32) with 4294967296 in *. unfold field_repr. split; [assumption|]. split; [assumption|].
  split; [destruct (f_type f); cbn [ftype_code] in *; lia|]. split; [destruct (f_type f); try reflexivity; now apply code_cases|].
  destruct (f_res f); [|exact I]. unfold f32_gt0. lia.
Qed.

(** * C28 *)
Theorem C28_binary_header_round_trip : forall ft i rest, header_info i -> width_unambiguous (i_width i) ->
  exists h, EncodeHeader ft i HBinary = Ok h /\ zlen h = ComputeHeaderSize (i_fields i) /\ DecodeHeader ft (h ++ rest) = Ok (stored_binary i, rest).
Proof.
  intros ft i rest H W. apply header_repr in H. pose proof H as Hr. destruct H as (H1 & _ & _ & _ & _ & _ & _ & _ & _ & H8).
  destruct (encode_binary ft i) as (E & L); [eapply Forall_impl; [|exact H8]; intros f F; apply F|].
  exists (bin_header i). split; [exact E|]. split; [exact L|]. unfold bin_header. rewrite <- !app_assoc, decode_magic by assumption.
  rewrite not_yaml by assumption. apply binary_app. exact Hr.
Qed.
(** A name of 65536 bytes or more is cut: the header is written without an error, and is
    read without an error, with another name. *)
Lemma decode_string_cut s rest : decode_string (encode_string s ++ rest) = Ok (firstn (Z.to_nat (zlen s mod 65536)) s, rest).
Proof.
  unfold decode_string, encode_string. pose proof (zlen_nonneg s) as N. pose proof (Z.mod_pos_bound (zlen s) 65536 ltac:(lia)) as M. rewrite <- app_assoc, take_uint_le. cbn [bind]. change (256 ^ Z.of_nat 2) with 65536.
  assert (L : List.length (firstn (Z.to_nat (zlen s mod 65536)) s) = Z.to_nat (zlen s mod 65536)).
  { rewrite firstn_length. pose proof (Z.mod_le (zlen s) 65536 N ltac:(lia)). unfold zlen in *. lia. }
  rewrite <- L at 1. apply take_app.
Qed.
Theorem C28_long_name_refuted : forall ft name, 65536 <= zlen name ->
  let cloud n := mkInfo [mkField n 0 INT8 None] 1 1 1 ENC_NONE [] COMP_NONE true 5 in
  exists h rest name', EncodeHeader ft (cloud name) HBinary = Ok h /\ DecodeHeader ft h = Ok (cloud name', rest) /\ zlen name' < 65536.
Proof.
  intros ft name Hn cloud. pose proof (Z.mod_pos_bound (zlen name) 65536 ltac:(lia)) as M. pose proof (Z.mod_le (zlen name) 65536 ltac:(lia) ltac:(lia)) as Le. set (cut := firstn (Z.to_nat (zlen name mod 65536)) name).
  assert (LC : zlen cut = zlen name mod 65536). { unfold cut, zlen in *. rewrite firstn_length. lia. }
  assert (LS : zlen (encode_string name) = 2 + zlen cut). { unfold encode_string. fold cut. unfold zlen. rewrite app_length, le_bytes_length. lia. }
  assert (LF : zlen (field_binary (mkField name 0 INT8 None)) = 11 + zlen cut). { unfold field_binary. cbn [f_name f_off f_type f_res]. unfold zlen in *. rewrite !app_length, !le_bytes_length. lia. }
  assert (LH : zlen (bin_header (cloud name)) = 39 + zlen cut). { unfold bin_header, cloud. cbn [i_version i_width i_height i_step i_enc i_comp i_fields map concat]. unfold zlen, magic_version in *. rewrite !app_length, !le_bytes_length. cbn [List.length magic]. lia. }
  set (pad := repeat 0 (Z.to_nat (ComputeHeaderSize (i_fields (cloud name)) - zlen (bin_header (cloud name))))).
  exists (bin_header (cloud name) ++ pad), pad, cut. split; [|split].
  - unfold EncodeHeader. fold (bin_header (cloud name)). unfold into. replace (_ <? _) with false; [reflexivity|]. rewrite LH. unfold ComputeHeaderSize, cloud. cbn [i_fields fold_right f_name magic]. change (zlen magic) with 10. lia.
  - unfold bin_header, cloud. cbn [i_version i_width i_height i_step i_enc i_comp i_fields map concat]. rewrite <- !app_assoc, decode_magic by lia. rewrite not_yaml by (left; cbn; lia).
    unfold binary. do 6 (rewrite take_uint_le; cbn [bind]). cbn [app]. change (zlen [mkField name 0 INT8 None] mod 256 ^ Z.of_nat 2) with 1. change (Z.to_nat 1) with 1%nat. cbn [decode_fields]. unfold decode_field, field_binary. cbn [f_name f_off f_type f_res]. rewrite <- !app_assoc, decode_string_cut. cbn [bind].
    do 3 (rewrite take_uint_le; cbn [bind]). reflexivity.
  - lia.
Qed.

Ltac num := cbn [i_version i_width i_height i_step i_fields f_name f_off f_type f_res]; first [vm_compute; split; first [discriminate|reflexivity]|vm_compute; reflexivity].
(** * C29 *)
(** Every binary header of a cloud whose width is 10 modulo 2^16 is rejected. *)
Theorem C29_width_ten_rejected : forall ft i rest, header_info i -> i_width i mod 65536 = 10 ->
  exists h, EncodeHeader ft i HBinary = Ok h /\ DecodeHeader ft (h ++ rest) = Throw.
Proof.
  intros ft i rest H W. apply header_repr in H. destruct H as (H1 & H2 & _ & _ & _ & _ & _ & _ & _ & H8).
  destruct (encode_binary ft i) as (E & L); [eapply Forall_impl; [|exact H8]; intros f F; apply F|].
  exists (bin_header i). split; [exact E|]. unfold bin_header. rewrite <- !app_assoc, decode_magic by assumption.
  destruct (le4 (i_width i)) as (a & b & c & d & -> & Ha & Hb).
  assert (a = 10) by lia. assert (b = 0) by lia. subst a b. rewrite H, H0. cbn [app]. unfold after_version. change (0 =? 123) with false. cbv iota.
  unfold trim_front. cbn [List.length Nat.ltb Nat.leb bind skipn find_char]. change (0 =? 0) with true. cbv iota. reflexivity.
Qed.
Theorem C29_width_ten_refuted : exists i, header_info i /\
  forall ft rest, exists h, EncodeHeader ft i HBinary = Ok h /\ DecodeHeader ft (h ++ rest) <> Ok (stored_binary i, rest).
Proof.
  exists (mkInfo [mkField (str "x") 0 FLOAT32 (Some 981668463)] 10 1 4 ENC_LOSSY [] COMP_ZSTD true 5).
  assert (HI : header_info (mkInfo [mkField (str "x") 0 FLOAT32 (Some 981668463)] 10 1 4 ENC_LOSSY [] COMP_ZSTD true 5)).
  { split; [num|]. do 3 (split; [num|]). split; [exact I|]. split; [exact I|]. split; [num|]. constructor; [|constructor]. split; [num|]. split; [num|]. split; [exact I|]. num. }
  split; [exact HI|]. intros ft rest. destruct (C29_width_ten_rejected ft _ rest HI eq_refl) as (h & E & D). exists h. split; [exact E|]. rewrite D. discriminate.
Qed.

(** * C30 *)
(** Text that can stand in the YAML header: not empty, no NUL, line break or '#', no white
    space at either end. *)
Definition yaml_safe (s : list Z) : Prop :=
  s <> [] /\ ~ In 0 s /\ ~ In 10 s /\ ~ In 35 s /\ isspace (hd 0 s) = false /\ isspace (last s 0) = false.
Definition yaml_header_field (ft : float_text) (f : field) : Prop :=
  yaml_safe (f_name f) /\ 0 <= f_off f < 2 ^ 32 /\ known_type (f_type f) /\
  match f_res f with
  | Some r => yaml_safe (ft_print ft r) /\ ft_print ft r <> str "null" /\ ft_parse ft (ft_print ft r) <> None
  | None => True
  end.
Definition yaml_header_info (ft : float_text) (i : info) : Prop :=
  2 <= i_version i <= 5 /\ 0 <= i_width i < 2 ^ 32 /\ 0 <= i_height i < 2 ^ 32 /\ 0 <= i_step i < 2 ^ 32 /\
  known_enc i /\ match i_comp i with COMP_OTHER _ => False | _ => True end /\
  (i_cfg i = [] \/ yaml_safe (i_cfg i)) /\ Forall (yaml_header_field ft) (i_fields i).
Lemma safe_clean s : yaml_safe s -> clean s.
Proof. intros (H1 & H2 & H3 & H4 & H5 & H6). split; [assumption|]. split; [|split; assumption]. apply Forall_forall. intros c Hc. repeat split; intros ->; contradiction. Qed.
(** The decoded header is the encoded one, except that a resolution comes back as the text
    of it is read: [ft_parse (ft_print r)]. *)
Definition reread_field (ft : float_text) (f : field) : field :=
  mkField (f_name f) (f_off f) (f_type f) (match f_res f with Some r => ft_parse ft (ft_print ft r) | None => None end).
Lemma yaml_ready ft i : yaml_header_info ft i -> yaml_info ft i.
Proof.
  intros (H1 & H2 & H3 & H4 & H5 & H6 & H7 & H8). change (2 ^ 32) with 4294967296 in *. unfold yaml_info. repeat (split; [assumption|]).
  split; [destruct H7 as [H7|H7]; [now left|right; now apply safe_clean]|]. eapply Forall_impl; [|exact H8]. intros f (F1 & F2 & F3 & F4). split; [now apply safe_clean|]. split; [assumption|]. split; [assumption|].
  destruct (f_res f); [|exact I]. destruct F4 as (F4 & F5 & F6). split; [now apply safe_clean|]. split; assumption.
Qed.
Theorem C30_yaml_header_round_trip : forall ft i rest, yaml_header_info ft i ->
  exists h, EncodeHeader ft i HYaml = Ok h /\ DecodeHeader ft (h ++ rest) = Ok (stored_yaml (map (reread_field ft) (i_fields i)) i, rest).
Proof. intros ft i rest H. apply yaml_ready in H. exact (yaml_header_rt ft i rest H). Qed.
(** With resolutions that survive printing and reading, the header comes back unchanged. *)
Theorem C30_yaml_header_exact : forall ft i rest, yaml_header_info ft i ->
  Forall (fun f => match f_res f with Some r => ft_parse ft (ft_print ft r) = Some r | None => True end) (i_fields i) ->
  exists h, EncodeHeader ft i HYaml = Ok h /\ DecodeHeader ft (h ++ rest) = Ok (stored_yaml (i_fields i) i, rest).
Proof.
  intros ft i rest H HR. destruct (C30_yaml_header_round_trip ft i rest H) as (h & E & D). exists h. split; [exact E|]. rewrite D. do 3 f_equal.
  clear - HR. induction HR as [|f fs Hf HF IH]; [reflexivity|]. cbn [map]. rewrite IH. f_equal. unfold reread_field. destruct f as [n o t r]; cbn [f_name f_off f_type f_res] in *. destruct r as [r|]; [now rewrite Hf|reflexivity].
Qed.
(** The formatter of the GNU library is a formatter to which this applies: a cloud with
    x, y, z at 1 mm, an intensity and a ring. *)
Definition example_info : info :=
  mkInfo [mkField (str "x") 0 FLOAT32 (Some 981668463); mkField (str "y") 4 FLOAT32 (Some 981668463); mkField (str "z") 8 FLOAT32 (Some 981668463);
          mkField (str "intensity") 16 FLOAT32 (Some 1008981770); mkField (str "ring no: 1") 20 UINT16 None] 10 3 22 ENC_LOSSY (str "a: b - c") COMP_ZSTD true 5.
Definition safeb (s : list Z) : bool :=
  match s with [] => false | _ => forallb (fun c => negb ((c =? 0) || (c =? 10) || (c =? 35))) s && negb (isspace (hd 0 s)) && negb (isspace (last s 0)) end.
Lemma safeb_ok s : safeb s = true -> yaml_safe s.
Proof.
  unfold safeb, yaml_safe. intros H. destruct s as [|c t]; [discriminate|]. split; [discriminate|]. apply andb_prop in H. destruct H as [H H3]. apply andb_prop in H. destruct H as [H1 H2].
  rewrite forallb_forall in H1. split; [intros Hi; apply H1 in Hi; discriminate Hi|]. split; [intros Hi; apply H1 in Hi; discriminate Hi|]. split; [intros Hi; apply H1 in Hi; discriminate Hi|].
  split; apply negb_true_iff; assumption.
Qed.
Example C30_case : yaml_header_info gnu_text example_info /\
  Forall (fun f => match f_res f with Some r => ft_parse gnu_text (ft_print gnu_text r) = Some r | None => True end) (i_fields example_info).
Proof.
  split.
  - unfold yaml_header_info, example_info. cbn [i_version i_width i_height i_step i_enc i_comp i_cfg i_fields]. do 4 (split; [lia|]). split; [exact I|]. split; [exact I|]. split; [right; apply safeb_ok; reflexivity|].
    assert (R : forall r, safeb (print_g6 r) = true -> print_g6 r <> str "null" -> parse_f32 (print_g6 r) <> None -> yaml_safe (ft_print gnu_text r) /\ ft_print gnu_text r <> str "null" /\ ft_parse gnu_text (ft_print gnu_text r) <> None).
    { intros r A B C. split; [now apply safeb_ok|]. split; assumption. }
    do 4 (constructor; [split; [apply safeb_ok; reflexivity|split; [cbn [f_off]; lia|split; [exact I|cbn [f_res]; apply R; vm_compute; congruence]]]|]).
    constructor; [|constructor]. split; [apply safeb_ok; reflexivity|]. split; [cbn [f_off]; lia|]. split; exact I.
  - do 4 (constructor; [vm_compute; reflexivity|]). constructor; [exact I|constructor].
Qed.

(** * C31 *)
(** A resolution with more than six significant digits comes back different. *)
Theorem C31_resolution_refuted : exists i h i', header_info i /\ EncodeHeader gnu_text i HYaml = Ok h /\ DecodeHeader gnu_text h = Ok (i', []) /\ map f_res (i_fields i') <> map f_res (i_fields i).
Proof.
  (* 0.12345679f *)
  exists (mkInfo [mkField (str "x") 0 FLOAT32 (Some 1039980266)] 1 1 4 ENC_LOSSY [] COMP_ZSTD true 5). eexists. eexists. split; [|split; [vm_compute; reflexivity|split; [vm_compute; reflexivity|vm_compute; discriminate]]].
  split; [num|]. do 3 (split; [num|]). split; [exact I|]. split; [exact I|]. split; [num|]. constructor; [|constructor]. split; [num|]. split; [num|]. split; [exact I|]. num.
Qed.
(** A field name with '#', or with a blank at its end, comes back different; an empty name,
    a field of type UNKNOWN or a resolution below 2^-126 makes the header unreadable.  In
    each case EncodeHeader reports no error. *)
Definition one_field (name : list Z) (t : ftype) (r : option Z) : info := mkInfo [mkField name 0 t r] 1 1 8 ENC_LOSSY [] COMP_ZSTD true 5.
Definition header_text (ft : float_text) (i : info) : list Z := match EncodeHeader ft i HYaml with Ok h => h | _ => [] end.
Theorem C31_names_refuted : forall ft,
  (forall h, EncodeHeader ft (one_field (str "a#b") INT8 None) HYaml = Ok h -> DecodeHeader ft h = Ok (one_field (str "a") INT8 None, [])) /\
  (forall h, EncodeHeader ft (one_field (str "a ") INT8 None) HYaml = Ok h -> DecodeHeader ft h = Ok (one_field (str "a") INT8 None, [])) /\
  (forall h, EncodeHeader ft (one_field (str "") INT8 None) HYaml = Ok h -> DecodeHeader ft h = Throw) /\
  (forall h, EncodeHeader ft (one_field (str "a") UNKNOWN None) HYaml = Ok h -> DecodeHeader ft h = Throw).
Proof.
  intros ft. repeat split; intros h H; assert (E : h = header_text ft (one_field _ _ _)) by (unfold header_text; rewrite H; reflexivity); rewrite E; vm_compute; reflexivity.
Qed.
Theorem C31_denormal_resolution_refuted : exists i h, header_info i /\ EncodeHeader gnu_text i HYaml = Ok h /\ DecodeHeader gnu_text h = Throw.
Proof.
  (* 1e-40f *)
  exists (mkInfo [mkField (str "x") 0 FLOAT32 (Some 71362)] 1 1 4 ENC_LOSSY [] COMP_ZSTD true 5). eexists. split; [|split; [vm_compute; reflexivity|vm_compute; reflexivity]].
  split; [num|]. do 3 (split; [num|]). split; [exact I|]. split; [exact I|]. split; [num|]. constructor; [|constructor]. split; [num|]. split; [num|]. split; [exact I|]. num.
Qed.

(** * C32 *)
Definition part_of (input : list Z) {A} (r : res (A * list Z)) : Prop :=
  match r with Ok (_, rest) => exists consumed, input = consumed ++ rest | Throw => True | UB => False end.
Lemma part_take_uint n input : part_of input (take_uint n input).
Proof. unfold take_uint. destruct (_ <? _)%nat; [exact I|]. cbn. exists (firstn n input). symmetry. apply firstn_skipn. Qed.
Lemma part_take n input : part_of input (take n input).
Proof. unfold take. destruct (_ <? _)%nat; [exact I|]. cbn. exists (firstn n input). symmetry. apply firstn_skipn. Qed.
Lemma part_bind {A B} input (m : res (A * list Z)) (k : A * list Z -> res (B * list Z)) :
  part_of input m -> (forall a rest, part_of rest (k (a, rest))) -> part_of input (bind m k).
Proof.
  intros H K. destruct m as [[a rest]| |]; cbn [bind part_of] in *; auto. destruct H as (c & ->). specialize (K a rest). destruct (k (a, rest)) as [[b r]| |]; cbn [part_of] in *; auto.
  destruct K as (c' & ->). exists (c ++ c'). now rewrite app_assoc.
Qed.
Lemma part_ok {A} input (a : A) : part_of input (Ok (a, input)).
Proof. exists []. reflexivity. Qed.
Lemma part_field input : part_of input (decode_field input).
Proof.
  unfold decode_field, decode_string. apply part_bind; [apply part_bind; [apply part_take_uint|intros; apply part_take]|]. intros. apply part_bind; [apply part_take_uint|]. intros.
  apply part_bind; [apply part_take_uint|]. intros. apply part_bind; [apply part_take_uint|]. intros. apply part_ok.
Qed.
Lemma part_fields n : forall input, part_of input (decode_fields n input).
Proof. induction n as [|n IH]; intros input; cbn [decode_fields]; [apply part_ok|]. apply part_bind; [apply part_field|]. intros. apply part_bind; [apply IH|]. intros. apply part_ok. Qed.
Lemma part_binary v input : part_of input (binary v input).
Proof. unfold binary. do 6 (apply part_bind; [apply part_take_uint|]; intros). apply part_bind; [apply part_fields|]. intros. apply part_ok. Qed.
Lemma find_char_split c s a b : find_char c s = Some (a, b) -> s = a ++ c :: b.
Proof.
  revert a b. induction s as [|x s IH]; intros a b H; cbn [find_char] in H; [discriminate|]. destruct (x =? c) eqn:E.
  - assert (a = [] /\ b = s) as [-> ->] by (split; congruence). cbn. f_equal. lia.
  - destruct (find_char c s) as [[a' b']|]; [|discriminate]. assert (a = x :: a' /\ b' = b) as [-> ->] by (split; congruence). cbn. f_equal. now apply IH.
Qed.
(** On any bytes: an exception, or a header read from a prefix of the input; never an access
    outside the input. *)
Theorem C32_decode_header_safe : forall ft input, part_of input (DecodeHeader ft input).
Proof.
  intros ft input. unfold DecodeHeader. destruct (zlen input <? zlen magic + 2) eqn:E; [exact I|].
  assert (L : (12 <= List.length input)%nat) by (unfold zlen in E; cbn [List.length magic] in E; lia).
  rewrite rd_ok; [|lia|unfold zlen; cbn [List.length magic]; lia]. cbn [bind]. destruct (negb _); [exact I|].
  assert (T1 : trim_front (List.length magic) input = Ok (skipn 10 input)). { unfold trim_front. cbn [List.length magic]. now replace (List.length input <? 10)%nat with false by lia. }
  rewrite T1. cbn [bind]. assert (L2 : (2 <= List.length (skipn 10 input))%nat) by (rewrite skipn_length; lia).
  rewrite rd_ok; [|lia|unfold zlen; lia]. cbn [bind]. cbv zeta.
  assert (T2 : trim_front 2 (skipn 10 input) = Ok (skipn 2 (skipn 10 input))). { unfold trim_front. now replace (List.length (skipn 10 input) <? 2)%nat with false by lia. }
  rewrite T2. cbn [bind]. rewrite (skipn_skipn 2 10 input). destruct (_ || _); [exact I|]. set (version := _ mod 256). clearbody version.
  assert (P : forall r : res (info * list Z), part_of (skipn (2 + 10) input) r -> part_of input r).
  { intros r H. destruct r as [[i rest]| |]; cbn [part_of] in *; auto. destruct H as (c & H). exists (firstn 12 input ++ c). rewrite <- app_assoc, <- H. symmetry. apply firstn_skipn. }
  apply P. clear P. destruct (skipn (2 + 10) input) as [|c0 [|c1 t]]; [apply part_binary|destruct c0 as [|p|p]; try apply part_binary; do 5 (try destruct p as [p|p|]; try apply part_binary)|].
  assert (G : part_of (c0 :: c1 :: t) (if c1 =? 123 then binary version (c0 :: c1 :: t) else
    do input <- trim_front 1 (c0 :: c1 :: t) ; match find_char 0 input with None => Throw | Some (yaml, rest) => do i <- EncodingInfoFromYAML ft yaml ;
      Ok (mkInfo (i_fields i) (i_width i) (i_height i) (i_step i) (i_enc i) (i_cfg i) (i_comp i) (i_threads i) version, rest) end)).
  { destruct (c1 =? 123); [apply part_binary|]. unfold trim_front. cbn [List.length Nat.ltb Nat.leb bind skipn]. destruct (find_char 0 (c1 :: t)) as [[yaml rest]|] eqn:F; [|exact I].
    pose proof (from_yaml_def ft yaml). destruct (EncodingInfoFromYAML ft yaml); cbn [bind part_of]; [|exact I|congruence]. exists (c0 :: yaml ++ [0]). cbn [app]. rewrite <- app_assoc. f_equal. now apply find_char_split. }
  destruct c0 as [|p|p]; try apply part_binary. do 5 (try destruct p as [p|p|]; try apply part_binary). exact G.
Qed.
(** Anything accepted starts with the magic text and a version from 2 to 5. *)
Theorem C32_wrong_start_rejected : forall ft input i rest, DecodeHeader ft input = Ok (i, rest) ->
  exists d1 d0 body, input = str "CLOUDINI_V" ++ d1 :: d0 :: body /\ i_version i = (char_to_num d1 * 10 + char_to_num d0) /\ 2 <= i_version i <= 5.
Proof.
  intros ft input i rest. unfold DecodeHeader. destruct (zlen input <? zlen magic + 2) eqn:E; [discriminate|].
  assert (L : (12 <= List.length input)%nat) by (unfold zlen in E; cbn [List.length magic] in E; lia).
  rewrite rd_ok; [|lia|unfold zlen; cbn [List.length magic]; lia]. cbn [bind]. change (skipn (Z.to_nat 0) input) with input. destruct (list_eqb (firstn (List.length magic) input) magic) eqn:M; [|discriminate]. cbn [negb]. apply list_eqb_eq in M.
  assert (T1 : trim_front (List.length magic) input = Ok (skipn 10 input)). { unfold trim_front. cbn [List.length magic]. now replace (List.length input <? 10)%nat with false by lia. }
  rewrite T1. cbn [bind]. assert (L2 : (2 <= List.length (skipn 10 input))%nat) by (rewrite skipn_length; lia).
  pose proof (firstn_skipn (List.length magic) input) as S. rewrite M in S. change (List.length magic) with 10%nat in S. destruct (skipn 10 input) as [|d1 [|d0 body]] eqn:ES; [cbn in L2; lia|cbn in L2; lia|].
  rewrite rd_ok; [|lia|unfold zlen; cbn [List.length]; lia]. cbn [bind]. change (skipn (Z.to_nat 0) (d1 :: d0 :: body)) with (d1 :: d0 :: body). cbn [firstn nth]. cbv zeta.
  unfold trim_front at 1. cbn [List.length Nat.ltb Nat.leb bind skipn].
  assert (V : (char_to_num d1 * 10 + char_to_num d0) mod 256 = char_to_num d1 * 10 + char_to_num d0).
  { apply Z.mod_small. unfold char_to_num, isdigit. destruct ((48 <=? d1) && (d1 <=? 57)) eqn:A; destruct ((48 <=? d0) && (d0 <=? 57)) eqn:B; lia. }
  rewrite V. unfold kEncodingVersion. destruct ((_ <? 2) || (5 <? _)) eqn:R; [discriminate|]. intros H. exists d1, d0, body. split; [symmetry; exact S|]. set (ver := char_to_num d1 * 10 + char_to_num d0) in *.
  assert (VB : forall inp, binary ver inp = Ok (i, rest) -> i_version i = ver).
  { intros inp HB. unfold binary in HB. do 6 (match type of HB with bind ?m _ = _ => destruct m as [[? ?]| |]; cbn [bind] in HB; try discriminate HB end).
    destruct (decode_fields _ _) as [[fs r]| |]; cbn [bind] in HB; try discriminate HB. apply ok_pair in HB. destruct HB as [<- _]. reflexivity. }
  assert (VV : i_version i = ver).
  { clear - H VB. destruct body as [|c0 [|c1 t]]; [eapply VB; exact H|destruct c0 as [|p|p]; try (eapply VB; exact H); do 5 (try destruct p as [p|p|]; try (eapply VB; exact H))|].
    assert (G : (if c1 =? 123 then binary ver (c0 :: c1 :: t) else
      do input <- trim_front 1 (c0 :: c1 :: t) ; match find_char 0 input with None => Throw | Some (yaml, rest) => do i <- EncodingInfoFromYAML ft yaml ;
        Ok (mkInfo (i_fields i) (i_width i) (i_height i) (i_step i) (i_enc i) (i_cfg i) (i_comp i) (i_threads i) ver, rest) end) = Ok (i, rest) -> i_version i = ver).
    { destruct (c1 =? 123); [apply VB|]. unfold trim_front. cbn [List.length Nat.ltb Nat.leb bind skipn]. destruct (find_char 0 (c1 :: t)) as [[yaml r]|]; [|discriminate]. destruct (EncodingInfoFromYAML ft yaml); cbn [bind]; try discriminate.
      intros HE. apply ok_pair in HE. destruct HE as [<- _]. reflexivity. }
    destruct c0 as [|p|p]; try (eapply VB; exact H). do 5 (try destruct p as [p|p|]; try (eapply VB; exact H)). apply G. exact H. }
  split; [exact VV|]. rewrite VV. lia.
Qed.
Print Assumptions C28_binary_header_round_trip.
Print Assumptions C28_long_name_refuted.
Print Assumptions C29_width_ten_rejected.
Print Assumptions C29_width_ten_refuted.
Print Assumptions C30_yaml_header_round_trip.
Print Assumptions C30_yaml_header_exact.
Print Assumptions C31_resolution_refuted.
Print Assumptions C31_names_refuted.
Print Assumptions C31_denormal_resolution_refuted.
Print Assumptions C32_decode_header_safe.
Print Assumptions C32_wrong_start_rejected.
