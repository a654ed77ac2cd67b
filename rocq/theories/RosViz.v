(** Preprocessing of ROS clouds.  Models src/ros_msg_utils.cpp:30-49, 217-341 ("RM"). *)
From Verif Require Import Base Types Floats Cdr Ros.
From Coq Require Import Floats.SpecFloat.

(** RM 42-49 packVoxelKey21 *)
Definition kAxisMask : Z := 2097151.
Definition axis (q : Z) : Z := Z.land (u64 (q + 1048576)) kAxisMask.
Definition packVoxelKey21 (qx qy qz : Z) : Z :=
  Z.lor (Z.lor (axis qx) (u64 (Z.shiftl (axis qy) 21))) (u64 (Z.shiftl (axis qz) 42)).

(** RM 217-239 applyResolutionProfile.  The profile (a std::map) is an association list without
    duplicate keys; resolutions are the bits of a float, and 0.0 == -0.0. *)
Definition profile : Type := list (list Z * Z).
Fixpoint profile_find (p : profile) (name : list Z) : option Z :=
  match p with [] => None | (k, r) :: p' => if list_eq_dec Z.eq_dec k name then Some r else profile_find p' name end.
Definition f32_is0 (b : Z) : bool := (b =? 0) || (b =? 2147483648).
Definition is_float32 (t : ftype) : bool := match t with FLOAT32 => true | _ => false end.
Definition set_res (r : Z) (f : field) : field := mkField (f_name f) (f_off f) (f_type f) (Some r).
Definition applyResolutionProfile (p : profile) (fields : list field) (default : option Z) : list field :=
  let fields := filter (fun f => negb (match profile_find p (f_name f) with Some r => f32_is0 r | None => false end)) fields in
  map (fun f => match profile_find p (f_name f) with
                | Some r => set_res r f
                | None => match default with Some d => if is_float32 (f_type f) then set_res d f else f | None => f end
                end) fields.

(** *** applyVizLossyPreprocessing, RM 249-341 *)
(** float equality on bits *)
Definition f32_eq (a b : Z) : bool := negb (isnan32 a) && negb (isnan32 b) && ((a =? b) || (f32_is0 a && f32_is0 b)).
Definition isfinite32 (b : Z) : bool := negb ((b / 8388608) mod 256 =? 255).
(** RM 314-317: std::lround, a long (x86: the minimum for anything unrepresentable), cast to int32_t *)
Definition ticks (res x : Z) : Z := s32 (sf_to_int round_away INT64_MIN INT64_MAX (SFmul 24 128 (sf32 x) (multN res))).
(** RM 303-325: one pass over the points [i], [i+1], ... ([n] of them).  The set is its elements (an
    ankerl::unordered_dense::set, cleared at the start of the call).  The result: the kept points. *)
Fixpoint viz_loop (ox oy oz res step : Z) (data : list Z) (n : nat) (i : Z) (seen : list Z) : Base.res (list (list Z)) :=
  match n with
  | O => Ok []
  | S k =>
      do bx <- rd (i * step + ox) 4 data ;
      do by_ <- rd (i * step + oy) 4 data ;
      do bz <- rd (i * step + oz) 4 data ;
      let x := le_val bx in let y := le_val by_ in let z := le_val bz in
      if negb (isfinite32 x) || negb (isfinite32 y) || negb (isfinite32 z) then viz_loop ox oy oz res step data k (i + 1) seen
      else
        let key := packVoxelKey21 (ticks res x) (ticks res y) (ticks res z) in
        if existsb (Z.eqb key) seen then viz_loop ox oy oz res step data k (i + 1) seen
        else
          do p <- rd (i * step) (Z.to_nat step) data ;
          do rest <- viz_loop ox oy oz res step data k (i + 1) (key :: seen) ;
          Ok (p :: rest)
  end.
(** 1e-6f *)
Definition micro : Z := 897988541.
(** RM 335-340 *)
Definition quantize_times (f : field) : field :=
  match f_type f, f_res f with FLOAT64, None => set_res micro f | _, _ => f end.
(** RM 249-341.  [None]: one of the early returns, nothing is touched; [Some c']: the cloud is
    rewritten (its bytes then live in [owned_data], RM 325-328, see RosObj.v). *)
Definition viz_rewrite (c : ros_cloud) : Base.res (option ros_cloud) :=
  match r_fields c with
  | f0 :: f1 :: f2 :: _ =>
      if r_step c =? 0 then Ok None
      else
        match f_res f0, f_res f1, f_res f2 with
        | Some r0, Some r1, Some r2 =>
            if is_float32 (f_type f0) && is_float32 (f_type f1) && is_float32 (f_type f2) && f32_eq r0 r1 && f32_eq r0 r2 &&
               (f_off f1 =? u32 (f_off f0 + 4)) && (f_off f2 =? u32 (f_off f0 + 8)) then
              (* xyz_res > 0 and finite *)
              if (0 <? r0) && (r0 <? 2139095040) then
                let n := (length (r_data c) / Z.to_nat (r_step c))%nat in
                if (n =? 0)%nat then Ok None
                else
                  do out <- viz_loop (f_off f0) (f_off f1) (f_off f2) r0 (r_step c) (r_data c) n 0 [] ;
                  let kept := u32 (zlen out) in
                  Ok (Some (mkRos (r_cdr c) (r_sec c) (r_nsec c) (r_frame c) 1 kept (map quantize_times (r_fields c)) (r_step c)
                            (u32 (r_step c * kept)) (concat out) (r_dense c)))
              else Ok None
            else Ok None
        | _, _, _ => Ok None
        end
  | _ => Ok None
  end.
Definition applyVizLossyPreprocessing (c : ros_cloud) : Base.res ros_cloud :=
  do r <- viz_rewrite c ; Ok (match r with Some c' => c' | None => c end).
