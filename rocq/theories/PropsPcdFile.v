(** C73: encoding a PCD file.  Fields whose type PCL does not know (64-bit integers) take it from
    the file's header. *)
From Coq Require Import ZArith Reals List Bool Lia String.
From Verif Require Import Base BaseFacts Types Floats Codec V5 Api Spec LibSpec ErrorSpec CloudFacts Cases PropsCloud Header HeaderFacts PropsHeader Pcl PropsPcd PropsPcl PropsEntry.
Import ListNotations.
Notation length := List.length.
Notation concat := List.concat.
Open Scope Z_scope.
Open Scope list_scope.

(** ** Specification *)
(** The types of the PCL codes 1..8 *)
Definition coded_type (code : Z) : ftype := nth (Z.to_nat code) [UNKNOWN; INT8; UINT8; INT16; UINT16; INT32; UINT32; FLOAT32; FLOAT64] UNKNOWN.
(** what the header [m] and the loaded field [g] say about the type *)
Definition file_type (m : type_map) (g : pcl_field) (t : ftype) : Prop :=
  (1 <= pf_type g <= 8 -> t = coded_type (pf_type g)) /\ (~ 1 <= pf_type g <= 8 -> m (pf_name g) = Some t).
(** the field of the encoded cloud: name and place of the loaded one; a resolution only where PCL
    says FLOAT32 and the resolution (the bits of a double) is positive *)
Definition file_field (m : type_map) (resolution : Z) (g : pcl_field) (f : field) : Prop :=
  f_name f = pf_name g /\ f_off f = pf_off g /\ file_type m g (f_type f) /\
  f_res f = (if (pf_type g =? 7) && (0 <? resolution) && (resolution <=? 9218868437227405312) then Some (narrow resolution) else None).

Lemma unknown_code t : pcl_type t = UNKNOWN <-> ~ 1 <= t <= 8.
Proof.
  split.
  - intros H K. destruct (type_codes t K) as [->|[->|[->|[->|[->|[->|[->| ->]]]]]]]; discriminate H.
  - intros H. destruct t as [|p|p]; try reflexivity. do 4 (try destruct p as [p|p|]; try reflexivity); exfalso; apply H; lia.
Qed.
Lemma known_code t : 1 <= t <= 8 -> pcl_type t = coded_type t /\ pcl_type t <> UNKNOWN /\ Codec.is_float32 (pcl_type t) = (t =? 7).
Proof. intros K. destruct (type_codes t K) as [->|[->|[->|[->|[->|[->|[->| ->]]]]]]]; repeat split; discriminate. Qed.
Lemma res_of resolution g : (if Codec.is_float32 (pcl_type (pf_type g)) && f64_gt0 resolution then Some (narrow resolution) else None) =
  (if (pf_type g =? 7) && (0 <? resolution) && (resolution <=? 9218868437227405312) then Some (narrow resolution) else None).
Proof.
  assert (E : Codec.is_float32 (pcl_type (pf_type g)) = (pf_type g =? 7)).
  { destruct (Z_le_dec 1 (pf_type g)) as [A|A]; [destruct (Z_le_dec (pf_type g) 8) as [B|B]|]; [apply known_code; lia| |]; rewrite (proj2 (unknown_code _)) by lia; cbn; lia. }
  rewrite E. unfold f64_gt0. rewrite <- andb_assoc. reflexivity.
Qed.
Lemma fix_types_ok m resolution gs : forall fs, Forall2 (file_field m resolution) gs fs -> fix_types m (map (pcl_point_field resolution) gs) = Ok fs.
Proof.
  induction gs as [|g gs IH]; intros fs H; inversion H as [|? f ? fs' (H1 & H2 & (H3 & H4) & H5) HF]; subst; [reflexivity|]. cbn [map fix_types]. rewrite (IH _ HF). unfold pcl_point_field. cbn [f_type f_name f_off f_res].
  rewrite res_of, <- H5, <- H1, <- H2. destruct f as [n o t r]. cbn [f_name f_off f_type f_res] in *. destruct (Z_le_dec 1 (pf_type g)) as [A|A]; [destruct (Z_le_dec (pf_type g) 8) as [B|B]|].
  1: { destruct (known_code (pf_type g) ltac:(lia)) as (K1 & K2 & _). rewrite H3, <- K1 by lia. destruct (pcl_type (pf_type g)); reflexivity || congruence. }
  all: rewrite (proj2 (unknown_code _)) by lia; rewrite H1, H4 by lia; reflexivity.
Qed.
Lemma fix_types_missing m resolution gs : Exists (fun g => ~ 1 <= pf_type g <= 8 /\ m (pf_name g) = None) gs -> fix_types m (map (pcl_point_field resolution) gs) = Throw.
Proof.
  induction gs as [|g gs IH]; intros H; [inversion H|]. cbn [map fix_types]. unfold pcl_point_field at 1 2. cbn [f_type f_name]. inversion H as [? ? (H1 & H2)|? ? HE]; subst.
  - rewrite (proj2 (unknown_code _) H1), H2. reflexivity.
  - rewrite (IH HE). destruct (pcl_type (pf_type g)); cbn [bind]; try reflexivity. destruct (m (pf_name g)); reflexivity.
Qed.

Lemma Forall2_in {A B} (P Q : A -> B -> Prop) l k : Forall2 P l k -> (forall x y, In y k -> P x y -> Q x y) -> Forall2 Q l k.
Proof. induction 1 as [|x y l k H HF IH]; intros G; constructor; [apply G; [now left|exact H]|]. apply IH. intros a b Hb. apply G. now right. Qed.
Section File.
  Variables (ft : float_text) (ops : float_ops) (L : libs) (ppc probe : nat).
  Notation encode_pcd := (encode_pcd ft ops L ppc probe).
  (** A header that is refused (C49), or that does not list a field PCL does not know: nothing is
      written. *)
  Theorem C73_refused fuel c text resolution out :
    (ReadEncodingInfoFromPCD fuel text = Some Throw \/
     exists m, ReadEncodingInfoFromPCD fuel text = Some (Ok m) /\ Exists (fun g => ~ 1 <= pf_type g <= 8 /\ m (pf_name g) = None) (pc_fields c)) ->
    encode_pcd fuel c text resolution out = Some (Throw, out).
  Proof.
    intros [H|(m & H & HE)]; unfold Pcl.encode_pcd; rewrite H; cbn [bind]; [reflexivity|]. unfold ConvertToEncodingInfo, default_info. cbn [i_fields]. rewrite fix_types_missing by exact HE. reflexivity.
  Qed.
  (** Otherwise the points are encoded and decoded as C17 says, with the types of the file. *)
  Theorem C73_pcd_roundtrip fuel c text resolution out total out' c0 c2 m fs :
    ReadEncodingInfoFromPCD fuel text = Some (Ok m) -> Forall2 (file_field m resolution) (pc_fields c) fs ->
    let i := default_info fs (pc_width c) (pc_height c) (pc_step c) in
    x86_or_scalar ops -> libs_ok L -> complete (pc_width c) (pc_height c) (pc_step c) (pc_data c) ->
    encode_side ppc i (pc_data c) -> decode_side i i -> deltas_ok ops i ppc (pc_data c) -> yaml_header_info ft i -> exact_resolutions ft i -> byte_texts ft i -> bytes out ->
    encode_pcd fuel c text resolution out = Some (Ok total, out') ->
    total = zlen out' /\ (zlen out' < 1431260227 -> PCLPointCloudDecode ft ops L ppc out' c0 = Ok c2 ->
      let n := Z.to_nat (pc_width c * pc_height c) in
      pc_header c2 = pc_header c0 /\ pc_width c2 = pc_width c /\ pc_height c2 = pc_height c /\ pc_step c2 = pc_step c /\ zlen (pc_data c2) = zlen (pc_data c) /\
      map pf_name (pc_fields c2) = map pf_name (pc_fields c) /\ map pf_off (pc_fields c2) = map pf_off (pc_fields c) /\ map pf_type (pc_fields c2) = map (fun f => ftype_code (f_type f)) fs /\
      Forall2 (fun g f =>
        (pf_type g = 7 -> 0 < resolution < 9218868437227405312 -> usable_bits (narrow resolution) -> field_near (narrow resolution) (pc_step c) (pf_off g) n (pc_data c) (pc_data c2)) /\
        (pf_type g <> 7 \/ resolution = 0 \/ 2 ^ 63 <= resolution < 2 ^ 64 -> field_kept (pc_step c) (pf_off g) (SizeOf (f_type f)) n (pc_data c) (pc_data c2))) (pc_fields c) fs).
  Proof.
    intros HM HF i HO HLi (Hw & Hh & Hsz & Hz32) HES HDS HD HY HX Hb Ho HE.
    assert (HE' : encode_with ft ops L ppc probe i (pc_data c) out = (Ok total, out')).
    { unfold Pcl.encode_pcd in HE. rewrite HM in HE. cbn [bind] in HE. unfold ConvertToEncodingInfo in HE. unfold default_info in HE at 1. cbn [i_fields] in HE. rewrite (fix_types_ok _ _ _ _ HF) in HE. fold i in HE. congruence. }
    clear HE. set (data := pc_data c) in *.
    split; [destruct (encoded_stream _ _ _ _ _ _ _ _ _ _ HLi HES ltac:(apply HY) Hb Ho HE') as (_ & _ & _ & _ & _ & _ & _ & Ht); exact Ht|]. intros Hz HDc n.
    assert (Hpos : 0 < pc_step c) by apply HES. pose proof (zlen_nonneg data) as N0.
    assert (Hn : Z.of_nat n = pc_width c * pc_height c) by (unfold n; rewrite Z2Nat.id; nia).
    assert (Hlen : zlen data = Z.of_nat n * i_step i) by (rewrite Hn; exact Hsz).
    destruct (stream_decodes ft ops L ppc probe i data out total out' n HLi HES Hb Ho HD HY HX Hlen HE' Hz) as (rest & HDH & HR).
    assert (HU : u32 (u32 (pc_width c * pc_height c) * pc_step c) = zlen data). { unfold u32. rewrite (Z.mod_small (pc_width c * pc_height c)) by nia. rewrite <- Hsz. apply Z.mod_small. lia. }
    destruct (HR (stored_yaml (i_fields i) i) [] (resize (zlen data) (pc_data c0))) as [HR1 _]; clear HR.
    { exact HDS. } { unfold declares. cbn [stored_yaml i_width i_height]. change (i_width i) with (pc_width c). change (i_height i) with (pc_height c). rewrite Hn. apply Z.mod_small. nia. }
    { rewrite resize_zlen by lia. change (i_step (stored_yaml (i_fields i) i)) with (i_step i). lia. }
    unfold PCLPointCloudDecode in HDc. rewrite HDH in HDc. cbn [bind] in HDc. cbv zeta in HDc. cbn [stored_yaml i_width i_height i_step i_fields] in HDc.
    change (i_width i) with (pc_width c) in HDc. change (i_height i) with (pc_height c) in HDc. change (i_step i) with (pc_step c) in HDc. rewrite HU in HDc.
    destruct HR1 as [(buf' & mem' & E1 & HR)|E1]; rewrite E1 in HDc; cbn [bind] in HDc; [|discriminate].
    assert (EC : c2 = mkPC (pc_header c0) (pc_height c) (pc_width c) (map pcl_field_of (i_fields i)) false (pc_step c) (u32 (pc_width c * pc_step c)) mem' true) by congruence. clear HDc E1. rewrite EC. cbn [pc_header pc_height pc_width pc_fields pc_step pc_data].
    change (i_fields (stored_yaml (i_fields i) i)) with (i_fields i) in HR. change (restored ops i i n data (resize (zlen data) (pc_data c0)) mem') in HR.
    do 4 (split; [reflexivity|]). split; [destruct HR as (HR & _); unfold zlen; rewrite HR; fold (zlen (resize (zlen data) (pc_data c0))); apply Nat2Z.inj_iff; unfold resize; rewrite app_length, firstn_length, repeat_length; unfold zlen; lia|].
    change (i_fields i) with fs. rewrite !map_map. cbn [pf_name pf_off pf_type pcl_field_of].
    split; [clear -HF; induction HF as [|g f gs fs (H & _) _ IH]; [reflexivity|cbn [map]; rewrite IH; f_equal; exact H]|].
    split; [clear -HF; induction HF as [|g f gs fs (_ & H & _) _ IH]; [reflexivity|cbn [map]; rewrite IH; f_equal; exact H]|].
    split; [reflexivity|].
    assert (ST : forall f, In f (i_fields i) -> (1 <= SizeOf (f_type f))%nat -> stored f = true) by (intros f Hg Hs; exact (layout_inside ft i f (proj1 HES) HY Hg Hs)).
    assert (G : forall g f, In f fs -> file_field m resolution g f ->
      (pf_type g = 7 -> 0 < resolution < 9218868437227405312 -> usable_bits (narrow resolution) -> field_near (narrow resolution) (pc_step c) (pf_off g) n data mem') /\
      (pf_type g <> 7 \/ resolution = 0 \/ 2 ^ 63 <= resolution < 2 ^ 64 -> field_kept (pc_step c) (pf_off g) (SizeOf (f_type f)) n data mem')).
    { intros g f Hf (H1 & H2 & (H3 & H4) & H5). rewrite <- H2. change (pc_step c) with (i_step i). split.
      - intros K Hr Hu. assert (HT : f_type f = FLOAT32) by (rewrite H3 by lia; rewrite K; reflexivity).
        apply (restored_near ops i n _ _ _ HR eq_refl f _ HO Hu Hf); [apply ST; [exact Hf|rewrite HT; cbn; lia]|exact HT|]. rewrite H5. replace ((pf_type g =? 7) && (0 <? resolution) && (resolution <=? 9218868437227405312)) with true by (symmetry; rewrite !andb_true_iff; lia). reflexivity.
      - intros K. destruct (SizeOf (f_type f)) as [|sz] eqn:ES; [intros j _; reflexivity|]. rewrite <- ES. apply (restored_kept ops i n _ _ _ HR eq_refl f Hf); [apply ST; [exact Hf|lia]|]. left. rewrite H5.
        change (2 ^ 63) with 9223372036854775808 in K. replace ((pf_type g =? 7) && (0 <? resolution) && (resolution <=? 9218868437227405312)) with false; [reflexivity|]. symmetry. rewrite !andb_false_iff. lia. }
    exact (Forall2_in _ _ _ _ HF G).
  Qed.
End File.

(** *** Cases *)
From Verif Require Import FloatText ApiFacts YamlFacts YamlRT.
(** a file with x (F 4), y (F 4) and tag (U 8); PCL loads two points *)
Definition file_text : list Z := lines_text sample_lines ++ str "DATA binary" ++ [10; 1; 2; 3].
Definition file_cloud : pcl_cloud :=
  mkPC [1] 1 2 [mkPF (str "x") 0 7 1; mkPF (str "y") 4 7 1; mkPF (str "tag") 8 255 1] false 16 32
    (le_bytes 4 1069547520 ++ le_bytes 4 3222274048 ++ le_bytes 8 (2 ^ 63 + 5) ++ le_bytes 4 0 ++ le_bytes 4 2143289344 ++ le_bytes 8 (2 ^ 63 + 6)) true.
Definition file_fields : list field := [mkField (str "x") 0 FLOAT32 (Some 981668463); mkField (str "y") 4 FLOAT32 (Some 981668463); mkField (str "tag") 8 UINT64 None].
Example C73_case : exists m, ReadEncodingInfoFromPCD 9 file_text = Some (Ok m) /\ Forall2 (file_field m millimetre) (pc_fields file_cloud) file_fields /\
  let c := file_cloud in let i := default_info file_fields (pc_width c) (pc_height c) (pc_step c) in
  complete (pc_width c) (pc_height c) (pc_step c) (pc_data c) /\ encode_side 2 i (pc_data c) /\ decode_side i i /\ deltas_ok sse_ops i 2 (pc_data c) /\ yaml_header_info gnu_text i /\ exact_resolutions gnu_text i /\ byte_texts gnu_text i /\
  exists total out' c2, encode_pcd gnu_text sse_ops store_libs 2 4096 9 c file_text millimetre [] = Some (Ok total, out') /\ zlen out' < 1431260227 /\
  PCLPointCloudDecode gnu_text sse_ops store_libs 2 out' c = Ok c2 /\ map pf_type (pc_fields c2) = [7; 7; 10] /\ sub 8 8 (pc_data c2) = le_bytes 8 (2 ^ 63 + 5).
Proof.
  eexists. split; [vm_compute; reflexivity|]. split.
  { unfold file_cloud, file_fields. cbn [pc_fields]. repeat apply Forall2_cons; [| | |apply Forall2_nil]; (split; [reflexivity|]; split; [reflexivity|]; split; [split; [intros K; cbn in *; try reflexivity; lia|intros K; cbn [pf_type] in K; first [vm_compute; reflexivity | exfalso; apply K; lia]]|vm_compute; reflexivity]). }
  cbv zeta. split; [repeat split; vm_compute; congruence|]. split.
  { split; [split; [reflexivity|repeat constructor; cbn; lia]|]. split; [exact I|]. split; [|apply bytesb; vm_compute; reflexivity]. split; [lia|]. split; [lia|vm_compute; discriminate]. }
  split.
  { split; [split; [repeat constructor|auto]|]. split; [split; [reflexivity|repeat constructor; cbn; lia]|]. split; [left; cbn; repeat constructor; cbn; lia|]. split; [repeat constructor|]. split; [repeat constructor|split; [reflexivity|vm_compute; discriminate]]. }
  split; [apply (deltas_okb_ok _ _ _ _ 2); [vm_compute; reflexivity|reflexivity|vm_compute; reflexivity]|]. split.
  { unfold yaml_header_info, default_info, file_fields. cbn [i_version i_width i_height i_step i_enc i_comp i_cfg i_fields file_cloud pc_width pc_height pc_step]. change (2 ^ 32) with 4294967296. do 4 (split; [unfold kEncodingVersion; lia|]). split; [exact I|]. split; [exact I|]. split; [left; reflexivity|].
    assert (G : forall n o t r, safeb n = true -> 0 <= o < 4294967296 -> (t = FLOAT32 \/ t = UINT64) -> (r = None \/ r = Some 981668463) -> yaml_header_field gnu_text (mkField n o t r)).
    { intros n o t r Hn Hoo Ht Hr. split; [now apply safeb_ok|]. split; [cbn [f_off]; change (2 ^ 32) with 4294967296; lia|]. split; [destruct Ht as [-> | ->]; exact I|]. destruct Hr as [-> | ->]; [exact I|]. cbn [f_res]. split; [apply safeb_ok; vm_compute; reflexivity|]. split; [vm_compute; discriminate|vm_compute; discriminate]. }
    repeat (apply Forall_cons; [apply G; [reflexivity|lia|auto|auto]|]); apply Forall_nil. }
  split; [unfold exact_resolutions, default_info, file_fields; cbn [i_fields]; repeat (apply Forall_cons; [first [exact I | vm_compute; reflexivity]|]); apply Forall_nil|].
  split; [split; [constructor|]; unfold default_info, file_fields; cbn [i_fields]; repeat (apply Forall_cons; [split; [apply str_bytes|first [apply gnu_bytes | exact I]]|]); apply Forall_nil|].
  do 3 eexists. split; [vm_compute; reflexivity|]. split; [vm_compute; reflexivity|]. split; [vm_compute; reflexivity|]. split; [reflexivity|vm_compute; reflexivity].
Qed.
(** The same file with a signed tag (I 8): the header reader has no such type (C49), and the file is
    refused. *)
Theorem C73_int64_refuted : exists text, text = str "FIELDS x y tag" ++ [10] ++ str "SIZE 4 4 8" ++ [10] ++ str "TYPE F F I" ++ [10] ++ str "DATA ascii" ++ [10] /\
  encode_pcd gnu_text sse_ops store_libs 2 4096 9 file_cloud text millimetre [] = Some (Throw, []).
Proof. eexists. split; [reflexivity|]. vm_compute. reflexivity. Qed.
Print Assumptions C73_refused.
Print Assumptions C73_pcd_roundtrip.
Print Assumptions C73_int64_refuted.
