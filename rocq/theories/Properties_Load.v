(** C50 - C56: the URDF, SDF and MJCF loaders and the robot description they read. *)
From Coq Require Import Reals Lra String Bool Arith Lia List Permutation.
From Verif Require Import Prelude ExtF Tree ChainModel SpecFK ChainProofs Lin Trig RotModel RotBasic ChainInst
  T3dModel LoaderModel LoaderTree RobotModel RobotProofs LoaderProofs LoaderMore SdfProofs MjcfModel MjcfProofs Examples
  LoaderExamples.
From Verif Require Import LoadFinal.
Import ListNotations.
Local Open Scope nat_scope.
Local Open Scope string_scope.
Local Open Scope list_scope.


(** C50.  Elements in any order whose joints form a tree below [top]; the chain has one frame per joint plus the root, and
    the pose of the link at the end of a path is the product of joint origins and joint motions along it. *)
Theorem C50_urdf_forward_kinematics : forall (es : list uelem) (top : string) (limit : nat) (vs : list config),
  tree_shaped uj_parent uj_child (joints_of es) top ->
  (forall x, x = top \/ In x (map uj_child (joints_of es)) -> In x (map uk_name (links_of es))) ->
  (forall l, In l (links_of es) -> uk_origin l = None) ->
  (forall j, In j (joints_of es) -> exists k, urdf_kind (uj_type j) = Some k /\
     (k <> Fixed -> exists a, uj_axis j = Some a /\ a <> vzero)) ->
  NoDup (map uj_name (filter urdf_moves (joints_of es))) ->
  (forall x, x = top \/ In x (map uj_child (joints_of es)) -> strip_nl x = x) ->
  length (joints_of es) < limit ->
  exists c d jl, urdf_chain limit (urobot_of es) = Ok c /\ f_name (c_root c) = top /\
    Permutation jl (joints_of es) /\
    moving_names (c_root c) = map (fun j => Some (uj_name j)) (filter urdf_moves jl) /\
    forward_kinematics mops c (config_tensor (c_root c) vs) None = Ok d /\
    map fst d = top :: map uj_child jl /\
    forall l x, jpath uj_parent uj_child (joints_of es) top l x ->
      dget String.eqb x d = Some (map (fun v => fold_left m4mul (map (urdf_rel v) l) I4) vs).
Proof. exact urdf_fk. Qed.
Print Assumptions C50_urdf_forward_kinematics.

(** C50.  Every link of the tree has exactly one path from the root, so the poses above are all the poses. *)
Theorem C50_paths_unique : forall (es : list uelem) top x,
  tree_shaped uj_parent uj_child (joints_of es) top -> x = top \/ In x (map uj_child (joints_of es)) ->
  exists! l, jpath uj_parent uj_child (joints_of es) top l x.
Proof. exact l50_paths_unique. Qed.
Print Assumptions C50_paths_unique.

Example C50_example : exists c d, urdf_chain 9 (urobot_of ex_urdf) = Ok c /\
  forward_kinematics mops c (config_tensor (c_root c) [ex_uconfig]) None = Ok d /\
  exists M, dget String.eqb "tool" d = Some [M] /\ trp M = mkV3 (-2) 1 0.
Proof.
  destruct (C50_urdf_forward_kinematics ex_urdf "base" 9 [ex_uconfig] ex_urdf_tree ex_urdf_links ex_urdf_origins ex_urdf_kinds ex_urdf_names ex_urdf_clean)
    as (c & d & jl & Hc & _ & _ & _ & Hd & _ & Hp); [simpl; lia|].
  exists c, d. split; [exact Hc|]. split; [exact Hd|]. eexists. split; [apply (Hp _ _ ex_urdf_path)|]. apply ex_urdf_pose.
Qed.

(** C50 fails for a description without joints. *)
Theorem C50_no_joints_refuted : exists es : list uelem, joints_of es = [] /\ map uk_name (links_of es) = ["base"] /\
  forall limit, urdf_chain limit (urobot_of es) = Err UnboundLocalError.
Proof. exact l50_no_joints_refuted. Qed.
Print Assumptions C50_no_joints_refuted.

(** C50.  A cycle of joints below the root is not reported: the recursion never ends, whatever the limit. *)
Theorem C50_cycle_refuted : exists es : list uelem, map uk_name (links_of es) = ["base"; "a"; "b"] /\
  map (fun j => (uj_parent j, uj_child j)) (joints_of es) = [("base", "a"); ("a", "b"); ("b", "a")] /\
  forall limit, urdf_chain limit (urobot_of es) = Err RecursionError.
Proof. exact l50_cycle_refuted. Qed.
Print Assumptions C50_cycle_refuted.

(** C50.  Of a forest only one tree is kept; the links of the others are dropped without an error. *)
Theorem C50_forest_refuted : exists (es : list uelem) c, map uk_name (links_of es) = ["a"; "b"; "c"; "d"] /\
  map (fun j => (uj_parent j, uj_child j)) (joints_of es) = [("a", "b"); ("c", "d")] /\
  urdf_chain 3 (urobot_of es) = Ok c /\ map f_name (preorder (c_root c)) = ["a"; "b"].
Proof. exact l50_forest_refuted. Qed.
Print Assumptions C50_forest_refuted.

(** C50.  A link with two parents is copied, so there are more frames than links. *)
Theorem C50_two_parents_refuted : exists (es : list uelem) c, map uk_name (links_of es) = ["base"; "a"; "b"; "c"] /\
  map (fun j => (uj_parent j, uj_child j)) (joints_of es) = [("base", "a"); ("base", "b"); ("a", "c"); ("b", "c")] /\
  urdf_chain 4 (urobot_of es) = Ok c /\ map f_name (preorder (c_root c)) = ["base"; "a"; "c"; "b"; "c"].
Proof. exact l50_two_parents_refuted. Qed.
Print Assumptions C50_two_parents_refuted.

(** C51 *)
Theorem C51_urdf_origin_rpy : forall xyz r p y, urdf_transform (Some (mkUPose xyz (mkV3 r p y))) =
  Ok (aff (m3mul (mkM3 (cos y) (- sin y) 0 (sin y) (cos y) 0 0 0 1)
          (m3mul (mkM3 (cos p) 0 (sin p) 0 1 0 (- sin p) 0 (cos p))
                 (mkM3 1 0 0 0 (cos r) (- sin r) 0 (sin r) (cos r)))) xyz).
Proof. exact l51_urdf_origin_rpy. Qed.
Print Assumptions C51_urdf_origin_rpy.
Theorem C51_urdf_origin_missing : urdf_transform None = Ok I4.
Proof. exact l51_urdf_origin_missing. Qed.
Print Assumptions C51_urdf_origin_missing.
Example C51_example : exists M, urdf_transform (Some (mkUPose (mkV3 1 2 3) (mkV3 (PI/2) 0 (PI/2)))) = Ok M /\
  trp M = mkV3 1 2 3 /\ m3vec (rotp M) (mkV3 0 0 1) = mkV3 1 0 0.
Proof.
  eexists. split; [apply C51_urdf_origin_rpy|]. rewrite trp_aff, rotp_aff. split; [reflexivity|].
  rewrite cos_PI2, sin_PI2, cos_0, sin_0. unfold m3mul, m3vec. cbn [m00 m01 m02 m10 m11 m12 m20 m21 m22 vx vy vz]. apply mkV3_eq; ring.
Qed.

(** C52.  Each declared joint has a frame carrying its name, type, origin, limits and (when given) its axis. *)
Theorem C52_urdf_joint_attributes : forall (es : list uelem) (top : string) (limit : nat),
  tree_shaped uj_parent uj_child (joints_of es) top ->
  (forall x, x = top \/ In x (map uj_child (joints_of es)) -> In x (map uk_name (links_of es))) ->
  (forall j, In j (joints_of es) -> In (uj_type j) ["revolute"; "continuous"; "prismatic"; "fixed"]) ->
  length (joints_of es) < limit ->
  exists c, urdf_chain limit (urobot_of es) = Ok c /\
    forall j, In j (joints_of es) -> exists f, In f (preorder (c_root c)) /\ f_name f = uj_child j /\
      j_name (f_joint f) = Some (uj_name j) /\
      (uj_type j = "revolute" \/ uj_type j = "continuous" -> j_type (f_joint f) = Revolute) /\
      (uj_type j = "prismatic" -> j_type (f_joint f) = Prismatic) /\
      (uj_type j = "fixed" -> j_type (f_joint f) = Fixed) /\
      (forall M, urdf_transform (uj_origin j) = Ok M -> j_off (f_joint f) = Some M) /\
      (forall a, uj_axis j = Some a -> a <> vzero -> unit3 (j_axis (f_joint f)) /\ vscale (vnorm a) (j_axis (f_joint f)) = a) /\
      (uj_limit j = None -> j_lim (f_joint f) = None /\ j_vlim (f_joint f) = None /\ j_elim (f_joint f) = None) /\
      (forall l, uj_limit j = Some l -> j_lim (f_joint f) = Some (Fin (ul_lower l), Fin (ul_upper l)) /\
         j_vlim (f_joint f) = Some (Fin (- ul_velocity l), Fin (ul_velocity l)) /\
         j_elim (f_joint f) = Some (Fin (- ul_effort l), Fin (ul_effort l))).
Proof. exact l52_urdf_joint_attributes. Qed.
Print Assumptions C52_urdf_joint_attributes.

Example C52_example : tree_shaped uj_parent uj_child (joints_of ex_urdf) "base" /\
  (forall j, In j (joints_of ex_urdf) -> In (uj_type j) ["revolute"; "continuous"; "prismatic"; "fixed"]) /\
  exists c f, urdf_chain 9 (urobot_of ex_urdf) = Ok c /\ In f (preorder (c_root c)) /\ f_name f = "arm" /\
    j_type (f_joint f) = Revolute /\ j_lim (f_joint f) = Some (Fin (-1), Fin 1).
Proof.
  split; [exact ex_urdf_tree|].
  assert (Hty : forall j, In j (joints_of ex_urdf) -> In (uj_type j) ["revolute"; "continuous"; "prismatic"; "fixed"]).
  { intros j Hj. simpl in Hj. repeat (destruct Hj as [<-|Hj]; [simpl; tauto|]). contradiction. }
  split; [exact Hty|].
  destruct (C52_urdf_joint_attributes ex_urdf "base" 9 ex_urdf_tree ex_urdf_links Hty) as (c & Hc & Hf); [simpl; lia|].
  destruct (Hf ex_uarm) as (f & H1 & H2 & _ & H3 & _ & _ & _ & _ & _ & H4); [simpl; tauto|].
  exists c, f. split; [exact Hc|]. split; [exact H1|]. split; [exact H2|]. split; [apply H3; left; reflexivity|].
  apply (H4 (mkULimit 2 (-1) 1 3) eq_refl).
Qed.

(** C52.  Without an axis element the URDF format says x; the joint gets z. *)
Theorem C52_default_axis_refuted : exists (es : list uelem) c f j, urdf_chain 2 (urobot_of es) = Ok c /\
  joints_of es = [j] /\ uj_type j = "revolute" /\ uj_axis j = None /\ In f (preorder (c_root c)) /\ f_name f = uj_child j /\
  j_axis (f_joint f) = mkV3 0 0 1 /\ j_axis (f_joint f) <> mkV3 1 0 0.
Proof. exact l52_default_axis_refuted. Qed.
Print Assumptions C52_default_axis_refuted.

(** C52.  A continuous joint with a limit element (effort and velocity only) is pinned to the interval [0, 0]. *)
Theorem C52_continuous_limits_refuted : exists (es : list uelem) c f j l, urdf_chain 2 (urobot_of es) = Ok c /\
  joints_of es = [j] /\ uj_type j = "continuous" /\ uj_limit j = Some l /\ In f (preorder (c_root c)) /\ f_name f = uj_child j /\
  j_lim (f_joint f) = Some (Fin 0, Fin 0).
Proof. exact l52_continuous_limits_refuted. Qed.
Print Assumptions C52_continuous_limits_refuted.

(** C52.  Any other joint type below the root is a KeyError. *)
Theorem C52_other_types_rejected : forall (es : list uelem) top j limit,
  tree_shaped uj_parent uj_child (joints_of es) top ->
  (forall x, x = top \/ In x (map uj_child (joints_of es)) -> In x (map uk_name (links_of es))) ->
  In j (joints_of es) -> ~ In (uj_type j) ["revolute"; "continuous"; "prismatic"; "fixed"] ->
  length (joints_of es) < limit -> urdf_chain limit (urobot_of es) = Err KeyError.
Proof. exact bad_type_key. Qed.
Print Assumptions C52_other_types_rejected.
Example C52_other_types_example : urdf_chain 3 (urobot_of
  [ELink (mkULink "base" None); ELink (mkULink "a" None); EJoint (mkUJoint "j" "floating" "base" "a" None None None)]) = Err KeyError.
Proof.
  eapply C52_other_types_rejected with (top := "base") (j := mkUJoint "j" "floating" "base" "a" None None None).
  - repeat split; simpl; try discriminate; [repeat constructor; simpl; tauto | intros [E|[]]; inversion E |].
    intros j [<-|[]]. exists []. constructor.
  - simpl. intuition.
  - simpl. auto.
  - simpl. intros H. repeat (destruct H as [E|H]; [inversion E|]). exact H.
  - simpl. lia.
Qed.

(** C53.  Forward kinematics of an SDF model; [swapped_pose] is the pose read with roll and yaw exchanged (see C54). *)
Theorem C53_sdf_forward_kinematics : forall (es : list selem) (top : string) (limit : nat) (vs : list config),
  tree_shaped sj_parent sj_child (joints_of es) top ->
  (forall x, x = top \/ In x (map sj_child (joints_of es)) -> In x (map sk_name (links_of es))) ->
  (forall j, In j (joints_of es) -> complete j /\ exists k, sdf_kind (sj_type j) = Some k /\ (k <> Fixed -> sj_axis j <> vzero)) ->
  NoDup (map sj_name (filter sdf_moves (joints_of es))) ->
  (forall x, x = top \/ In x (map sj_child (joints_of es)) -> strip_nl x = x) ->
  length (joints_of es) < limit ->
  exists c d jl, sdf_chain limit (srobot_of es) = Ok c /\ f_name (c_root c) = top /\
    Permutation jl (joints_of es) /\ moving_names (c_root c) = map (fun j => Some (sj_name j)) (filter sdf_moves jl) /\
    forward_kinematics mops c (config_tensor (c_root c) vs) None = Ok d /\
    map fst d = top :: map sj_child jl /\
    forall l x, jpath sj_parent sj_child (joints_of es) top l x ->
      dget String.eqb x d = Some (map (fun v => m4mul (swapped_pose (declared es top)) (fold_left m4mul (map (sdf_rel es v) l) I4)) vs).
Proof. exact sdf_fk. Qed.
Print Assumptions C53_sdf_forward_kinematics.

(** C53.  At the zero configuration every link is where its pose says, provided every pose has equal roll and yaw (in
    particular if nothing is rotated). *)
Theorem C53_sdf_zero_configuration_partial : forall (es : list selem) (top : string) (limit : nat),
  tree_shaped sj_parent sj_child (joints_of es) top ->
  (forall x, x = top \/ In x (map sj_child (joints_of es)) -> In x (map sk_name (links_of es))) ->
  (forall j, In j (joints_of es) -> complete j /\ exists k, sdf_kind (sj_type j) = Some k /\ (k <> Fixed -> sj_axis j <> vzero)) ->
  NoDup (map sj_name (filter sdf_moves (joints_of es))) ->
  (forall x, x = top \/ In x (map sj_child (joints_of es)) -> strip_nl x = x) ->
  length (joints_of es) < limit ->
  (forall l p, In l (links_of es) -> sk_pose l = Some p -> vx (sp_rpy p) = vz (sp_rpy p)) ->
  NoDup (map sk_name (links_of es)) ->
  exists c d, sdf_chain limit (srobot_of es) = Ok c /\
    forward_kinematics mops c (config_tensor (c_root c) [fun _ => 0%R]) None = Ok d /\
    forall l, In l (links_of es) -> sk_name l = top \/ In (sk_name l) (map sj_child (joints_of es)) ->
      dget String.eqb (sk_name l) d = Some [sdf_pose (sk_pose l)].
Proof. exact sdf_zero. Qed.
Print Assumptions C53_sdf_zero_configuration_partial.

Example C53_example : exists c d, sdf_chain 5 (srobot_of ex_sdf) = Ok c /\
  forward_kinematics mops c (config_tensor (c_root c) [fun _ => 0%R]) None = Ok d /\
  dget String.eqb "tip" d = Some [aff (rpy_matrix (mkV3 0 1 0)) (mkV3 1 2 3)].
Proof.
  destruct (C53_sdf_zero_configuration_partial ex_sdf "base" 5 (ex_sdf_tree _) (ex_sdf_links _) (ex_sdf_kinds _) (ex_sdf_names _) (ex_sdf_clean _))
    as (c & d & Hc & Hd & Hp).
  - simpl; lia.
  - intros l p Hl E. simpl in Hl. repeat (destruct Hl as [<-|Hl]; [inversion E; reflexivity || discriminate|]). contradiction.
  - simpl. nodup.
  - exists c, d. split; [exact Hc|]. split; [exact Hd|]. apply (Hp (mkSLink "tip" (Some (mkSPose (mkV3 1 2 3) (mkV3 0 1 0))))); simpl; tauto.
Qed.

(** C53 fails for a pose with a roll. *)
Theorem C53_sdf_zero_configuration_refuted : exists (es : list selem) l p c d M,
  tree_shaped sj_parent sj_child (joints_of es) "base" /\ In l (links_of es) /\ sk_pose l = Some p /\
  sdf_chain 5 (srobot_of es) = Ok c /\
  forward_kinematics mops c (config_tensor (c_root c) [fun _ => 0%R]) None = Ok d /\
  dget String.eqb (sk_name l) d = Some [M] /\ M <> sdf_pose (Some p).
Proof. exact sdf_rolled. Qed.
Print Assumptions C53_sdf_zero_configuration_refuted.

(** C53.  Models that other SDF readers accept and this one does not: a joint fixing the model to the world, a model of a
    single link, an axis with only one bound. *)
Theorem C53_sdf_rejected_refuted : exists w s b : list selem,
  (forall limit, sdf_chain limit (srobot_of w) = Err KeyError) /\
  map (fun j => (sj_parent j, sj_child j)) (joints_of w) = [("world", "base")] /\
  (forall limit, sdf_chain limit (srobot_of s) = Err UnboundLocalError) /\ joints_of s = [] /\
  (forall limit, 1 < limit -> sdf_chain limit (srobot_of b) = Err TypeError) /\
  map sj_limit (joints_of b) = [Some (Some 0%R, None)].
Proof. exact l53_sdf_rejected_refuted. Qed.
Print Assumptions C53_sdf_rejected_refuted.

(** C54.  What the code makes of a pose: the rotation is Rz(roll) Ry(pitch) Rx(yaw). *)
Theorem C54_sdf_pose_characterised : forall xyz r p y, sdf_transform (Some (mkSPose xyz (mkV3 r p y))) =
  Ok (mkT KBase [aff (m3mul (mkM3 (cos r) (- sin r) 0 (sin r) (cos r) 0 0 0 1)
          (m3mul (mkM3 (cos p) 0 (sin p) 0 1 0 (- sin p) 0 (cos p))
                 (mkM3 1 0 0 0 (cos y) (- sin y) 0 (sin y) (cos y)))) xyz]).
Proof. exact l54_sdf_pose_characterised. Qed.
Print Assumptions C54_sdf_pose_characterised.
(** C54 holds when roll and yaw agree. *)
Theorem C54_sdf_rpy_partial : forall xyz r p, sdf_transform (Some (mkSPose xyz (mkV3 r p r))) =
  Ok (mkT KBase [aff (rpy_matrix (mkV3 r p r)) xyz]).
Proof. exact l54_sdf_rpy_partial. Qed.
Print Assumptions C54_sdf_rpy_partial.
(** C54 fails already for a quarter turn of roll, and for one of yaw. *)
Theorem C54_sdf_rpy_refuted :
  (exists p M, vy (sp_rpy p) = 0%R /\ vz (sp_rpy p) = 0%R /\ sdf_transform (Some p) = Ok (mkT KBase [M]) /\
     rotp M <> rpy_matrix (sp_rpy p)) /\
  (exists p M, vx (sp_rpy p) = 0%R /\ vy (sp_rpy p) = 0%R /\ sdf_transform (Some p) = Ok (mkT KBase [M]) /\
     rotp M <> rpy_matrix (sp_rpy p)).
Proof. exact l54_sdf_rpy_refuted. Qed.
Print Assumptions C54_sdf_rpy_refuted.
Example C54_example : sdf_transform (Some (mkSPose (mkV3 1 2 3) (mkV3 0 0 0))) = Ok (mkT KBase [aff I3 (mkV3 1 2 3)]).
Proof. rewrite C54_sdf_rpy_partial. change (mkV3 0 0 0) with vzero. rewrite rpy_0. reflexivity. Qed.

(** C55.  When every joint anchor and reference value is zero, every body and site below the chosen body is where MuJoCo
    puts it. *)
Theorem C55_mjcf_forward_kinematics_partial : forall (m : mjmodel) (r : nat) (a : body_arg) (limit : nat) (vs : list config),
  wf_model m -> r < length (mm_bodies m) ->
  (forall i b, nth_error (mm_bodies m) i = Some b -> r < i -> supported m b) ->
  root_body m a = Ok r ->
  NoDup (map mb_name (mm_bodies m) ++ map ms_name (mm_sites m)) ->
  (forall i i' b b' j j', nth_error (mm_bodies m) i = Some b -> nth_error (mm_bodies m) i' = Some b' -> r < i -> r < i' ->
     joint_of m b = Some j -> joint_of m b' = Some j' -> mn_name j = mn_name j' -> i = i') ->
  (forall x, In x (map mb_name (mm_bodies m) ++ map ms_name (mm_sites m)) -> strip_nl x = x) ->
  length (mm_bodies m) < limit ->
  (forall i b j, nth_error (mm_bodies m) i = Some b -> r < i -> joint_of m b = Some j -> mn_pos j = vzero /\ mn_qpos0 j = 0%R) ->
  exists c d, build_chain_from_mjcf limit m a = Ok c /\
    forward_kinematics mops c (config_tensor (c_root c) vs) None = Ok d /\
    NoDup (map fst d) /\
    (forall x, In x (map fst d) <-> (exists i b, descends m r i /\ nth_error (mm_bodies m) i = Some b /\ mb_name b = x) \/
       (exists t, In t (mm_sites m) /\ descends m r (ms_bodyid t) /\ ms_name t = x)) /\
    (forall n, In n (moving_names (c_root c)) <->
       exists i b j, descends m r i /\ r < i /\ nth_error (mm_bodies m) i = Some b /\ joint_of m b = Some j /\ n = Some (mn_name j)) /\
    (forall i b, descends m r i -> nth_error (mm_bodies m) i = Some b -> exists Ms, dget String.eqb (mb_name b) d = Some Ms /\
       Forall2 (fun v M => pose_below m (mj_local m v) r i M) vs Ms) /\
    (forall t, In t (mm_sites m) -> descends m r (ms_bodyid t) -> exists Ms, dget String.eqb (ms_name t) d = Some Ms /\
       Forall2 (fun v M => exists W, pose_below m (mj_local m v) r (ms_bodyid t) W /\
                                     M = m4mul W (aff (qrot (ms_quat t)) (ms_pos t))) vs Ms).
Proof. exact l55_mjcf_forward_kinematics_partial. Qed.
Print Assumptions C55_mjcf_forward_kinematics_partial.

(** C55.  MuJoCo's pose of a body exists and is unique, so the theorem above says exactly which matrix is returned. *)
Theorem C55_mujoco_poses_exist_uniquely : forall (m : mjmodel) loc r i b, wf_model m -> r < length (mm_bodies m) ->
  descends m r i -> nth_error (mm_bodies m) i = Some b -> exists! M, pose_below m loc r i M.
Proof. exact pose_unique. Qed.
Print Assumptions C55_mujoco_poses_exist_uniquely.

Example C55_example : exists c d, build_chain_from_mjcf 9 (ex_mj vzero 0) BodyNone = Ok c /\
  forward_kinematics mops c (config_tensor (c_root c) [ex_mjconfig]) None = Ok d /\
  exists M, dget String.eqb "tip" d = Some [M] /\ trp M = mkV3 0 3 0.
Proof. exact ex_mj_run. Qed.

(** C55 fails for a hinge with an anchor, and for a slide whose reference value is not zero. *)
Theorem C55_mjcf_anchor_refuted : exists m c d v M W, wf_model m /\
  (forall i b, nth_error (mm_bodies m) i = Some b -> 0 < i -> supported m b) /\
  build_chain_from_mjcf 9 m BodyNone = Ok c /\ forward_kinematics mops c (config_tensor (c_root c) [v]) None = Ok d /\
  nth_error (map mb_name (mm_bodies m)) 1 = Some "arm" /\ (forall n, v n = 0%R) /\
  dget String.eqb "arm" d = Some [M] /\ pose_below m (mj_local m v) 0 1 W /\ trp M = mkV3 5 0 0 /\ trp W = mkV3 0 0 0.
Proof. exact mj_anchor. Qed.
Print Assumptions C55_mjcf_anchor_refuted.
Theorem C55_mjcf_reference_refuted : exists m c d v M W, wf_model m /\
  (forall i b, nth_error (mm_bodies m) i = Some b -> 0 < i -> supported m b) /\
  build_chain_from_mjcf 9 m BodyNone = Ok c /\ forward_kinematics mops c (config_tensor (c_root c) [v]) None = Ok d /\
  (forall j, In j (mm_joints m) -> mn_pos j = vzero) /\
  dget String.eqb "arm" d = Some [M] /\ pose_below m (mj_local m v) 0 1 W /\ trp M = mkV3 0 0 3 /\ trp W = mkV3 0 0 2.
Proof. exact mj_reference. Qed.
Print Assumptions C55_mjcf_reference_refuted.

(** C55.  A body with several joints, a free joint or a ball joint directly below the root is an error. *)
Theorem C55_unsupported_joints_rejected : forall (m : mjmodel) (limit : nat) (a : body_arg) r i b, root_body m a = Ok r ->
  child_ids m r = [i] -> r < length (mm_bodies m) -> nth_error (mm_bodies m) i = Some b ->
  (1 < mb_jntnum b -> build_chain_from_mjcf (S limit) m a = Err ValueError) /\
  (forall j, mb_jntnum b = 1 -> nth_error (mm_joints m) (mb_jntadr b) = Some j -> mn_type j = mjFree \/ mn_type j = mjBall ->
     build_chain_from_mjcf (S limit) m a = Err KeyError).
Proof. exact mj_rejected. Qed.
Print Assumptions C55_unsupported_joints_rejected.
Example C55_unsupported_example : build_chain_from_mjcf 9 ex_free BodyNone = Err KeyError.
Proof.
  refine (proj2 (C55_unsupported_joints_rejected ex_free 8 BodyNone 0 1 _ eq_refl eq_refl _ eq_refl) _ eq_refl eq_refl _);
    [simpl; lia | left; reflexivity].
Qed.

(** C55.  The range of a joint that MuJoCo does not limit is still used as its limits; the default range is [0, 0]. *)
Theorem C55_unlimited_range_refuted : exists m f, mjcf_tree 9 m BodyNone = Ok f /\
  map mn_limited (mm_joints m) = [false] /\
  exists g, In g (preorder f) /\ f_name g = "arm" /\ j_lim (f_joint g) = Some (Fin 0, Fin 0).
Proof. exact mj_unlimited. Qed.
Print Assumptions C55_unlimited_range_refuted.

(** C56.  The maps after any sequence of additions: the last element of each name wins. *)
Theorem C56_maps : forall (es : list uelem) (x : string),
  rb_joints (urobot_of es) = joints_of es /\ rb_links (urobot_of es) = links_of es /\
  dget String.eqb x (rb_joint_map (urobot_of es)) = last_with (fun j => String.eqb (uj_name j) x) (joints_of es) /\
  dget String.eqb x (rb_link_map (urobot_of es)) = last_with (fun l => String.eqb (uk_name l) x) (links_of es) /\
  dget String.eqb x (rb_parent_map (urobot_of es)) =
    option_map (fun j => (uj_name j, uj_parent j)) (last_with (fun j => String.eqb (uj_child j) x) (joints_of es)) /\
  dget String.eqb x (rb_child_map (urobot_of es)) =
    match filter (fun j => String.eqb (uj_parent j) x) (joints_of es) with
    | [] => None
    | js => Some (map (fun j => (uj_name j, uj_child j)) js)
    end.
Proof. exact l56_maps. Qed.
Print Assumptions C56_maps.
(** C56.  With distinct names every added element is found. *)
Theorem C56_maps_distinct : forall (es : list uelem),
  NoDup (map uj_name (joints_of es)) -> NoDup (map uk_name (links_of es)) -> NoDup (map uj_child (joints_of es)) ->
  (forall j, In j (joints_of es) -> dget String.eqb (uj_name j) (rb_joint_map (urobot_of es)) = Some j /\
     dget String.eqb (uj_child j) (rb_parent_map (urobot_of es)) = Some (uj_name j, uj_parent j)) /\
  (forall l, In l (links_of es) -> dget String.eqb (uk_name l) (rb_link_map (urobot_of es)) = Some l).
Proof. exact l56_maps_distinct. Qed.
Print Assumptions C56_maps_distinct.
(** C56.  get_root: the only link that is nobody's child; an AssertionError if there is none or more than one. *)
Theorem C56_get_root : forall (es : list uelem) (x : string), get_root (urobot_of es) = Ok x <->
  In x (map uk_name (links_of es)) /\ ~ In x (map uj_child (joints_of es)) /\
  (forall y, In y (map uk_name (links_of es)) -> ~ In y (map uj_child (joints_of es)) -> y = x).
Proof. exact (get_root_spec uj_name uj_parent uj_child uk_name). Qed.
Print Assumptions C56_get_root.
Theorem C56_get_root_error : forall (es : list uelem) e, get_root (urobot_of es) = Err e -> e = AssertionError.
Proof. exact (get_root_err uj_name uj_parent uj_child uk_name). Qed.
Print Assumptions C56_get_root_error.
(** C56.  get_chain: the links and joints on the path, from the start link down to the tip. *)
Theorem C56_get_chain : forall (es : list uelem) top root tip joints links fixed p l fuel,
  tree_shaped uj_parent uj_child (joints_of es) top -> NoDup (map uj_name (joints_of es)) ->
  jpath uj_parent uj_child (joints_of es) top p root -> jpath uj_parent uj_child (joints_of es) root l tip -> length l <= fuel ->
  get_chain uj_type fuel (urobot_of es) root tip joints links fixed = Ok
    ((if links then [root] else []) ++
     flat_map (fun j => (if joints && (fixed || negb (String.eqb (uj_type j) "fixed")) then [uj_name j] else []) ++
                        (if links then [uj_child j] else [])) l).
Proof. exact l56_get_chain. Qed.
Print Assumptions C56_get_chain.
(** C56.  get_chain from a link that is not above the tip ends at the root of the tree with a KeyError. *)
Theorem C56_get_chain_not_above : forall (es : list uelem) top root tip joints links fixed l fuel,
  tree_shaped uj_parent uj_child (joints_of es) top -> NoDup (map uj_name (joints_of es)) ->
  root <> top -> jpath uj_parent uj_child (joints_of es) top l tip -> (forall j, In j l -> uj_child j <> root) ->
  length l < fuel -> get_chain uj_type fuel (urobot_of es) root tip joints links fixed = Err KeyError.
Proof. exact l56_get_chain_not_above. Qed.
Print Assumptions C56_get_chain_not_above.
Example C56_example : get_root (urobot_of ex_urdf) = Ok "base" /\
  get_chain uj_type 9 (urobot_of ex_urdf) "base" "tool" true true true = Ok ["base"; "turn"; "arm"; "mount"; "tool"] /\
  get_chain uj_type 9 (urobot_of ex_urdf) "base" "tool" true false false = Ok ["turn"] /\
  get_chain uj_type 9 (urobot_of ex_urdf) "slider" "tool" true true true = Err KeyError.
Proof. repeat split; reflexivity. Qed.
