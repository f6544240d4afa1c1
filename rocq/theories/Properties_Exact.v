(** C53 - C55: exactly when the SDF and MJCF loaders place links and bodies as the formats say. *)
From Coq Require Import Reals Lra String Ascii Bool Arith Lia List Permutation.
From Verif Require Import Prelude ExtF Tree ChainModel SpecFK ChainProofs Lin Trig RotModel RotBasic T3dModel ChainInst
  LoaderModel LoaderTree RobotModel RobotProofs LoaderProofs LoaderMore SdfProofs MjcfModel MjcfProofs Examples LoaderExamples LoaderExact.
From Verif Require Import ExactFinal.
Import ListNotations.
Local Open Scope nat_scope.
Local Open Scope string_scope.
Local Open Scope list_scope.


(** C53.  At the zero configuration a link is where its pose says exactly if exchanging roll and yaw does not change the rotation:
    they are equal up to full turns, or the pitch is minus a quarter turn, or it is a quarter turn and they differ by half turns. *)
Theorem C53_sdf_zero_configuration_exact : forall (es : list selem) (top : string) (limit : nat),
  tree_shaped sj_parent sj_child (joints_of es) top ->
  (forall x, x = top \/ In x (map sj_child (joints_of es)) -> In x (map sk_name (links_of es))) ->
  (forall j, In j (joints_of es) -> complete j /\ exists k, sdf_kind (sj_type j) = Some k /\ (k <> Fixed -> sj_axis j <> vzero)) ->
  NoDup (map sj_name (filter sdf_moves (joints_of es))) ->
  (forall x, x = top \/ In x (map sj_child (joints_of es)) -> strip_nl x = x) ->
  length (joints_of es) < limit ->
  NoDup (map sk_name (links_of es)) ->
  exists c d, sdf_chain limit (srobot_of es) = Ok c /\
    forward_kinematics mops c (config_tensor (c_root c) [fun _ => 0%R]) None = Ok d /\
    forall l, In l (links_of es) -> sk_name l = top \/ In (sk_name l) (map sj_child (joints_of es)) ->
      exists M, dget String.eqb (sk_name l) d = Some [M] /\
        (M = sdf_pose (sk_pose l) <->
         match sk_pose l with
         | None => True
         | Some p => let r := vx (sp_rpy p) in let b := vy (sp_rpy p) in let y := vz (sp_rpy p) in
             (cos r = cos y /\ sin r = sin y) \/ sin b = (-1)%R \/ (sin b = 1%R /\ sin (r - y) = 0%R)
         end).
Proof. exact sdf_zero_exact. Qed.
Print Assumptions C53_sdf_zero_configuration_exact.

Example C53_exact_example : exists c d M N, sdf_chain 5 (srobot_of (ex_sdf_of (mkSPose (mkV3 1 2 3) (mkV3 1 (-(PI / 2)) 2)))) = Ok c /\
  forward_kinematics mops c (config_tensor (c_root c) [fun _ => 0%R]) None = Ok d /\
  dget String.eqb "tip" d = Some [M] /\ M = sdf_pose (Some (mkSPose (mkV3 1 2 3) (mkV3 1 (-(PI / 2)) 2))) /\
  dget String.eqb "base" d = Some [N] /\ N = sdf_pose (Some (mkSPose (mkV3 5 5 5) (mkV3 0 2 0))).
Proof.
  set (q := mkSPose (mkV3 1 2 3) (mkV3 1 (-(PI / 2)) 2)).
  destruct (C53_sdf_zero_configuration_exact (ex_sdf_of q) "base" 5 (ex_sdf_tree _) (ex_sdf_links _) (ex_sdf_kinds _) (ex_sdf_names _) (ex_sdf_clean _))
    as (c & d & H1 & H2 & H3); [simpl; lia | simpl; nodup |].
  destruct (H3 (mkSLink "tip" (Some q))) as (M & HM & EM); [left; reflexivity | right; left; reflexivity|].
  destruct (H3 (mkSLink "base" (Some (mkSPose (mkV3 5 5 5) (mkV3 0 2 0))))) as (N & HN & EN); [right; left; reflexivity | left; reflexivity|].
  exists c, d, M, N. split; [exact H1|]. split; [exact H2|]. split; [exact HM|]. split; [|split; [exact HN|]].
  - apply EM. cbn [sk_pose q sp_rpy vx vy vz]. right. left. rewrite sin_neg, sin_PI2. reflexivity.
  - apply EN. cbn [sk_pose sp_rpy vx vy vz]. left. split; reflexivity.
Qed.

(** C54.  The same for a single pose. *)
Theorem C54_sdf_rpy_exact : forall xyz r p y,
  sdf_transform (Some (mkSPose xyz (mkV3 r p y))) = Ok (mkT KBase [aff (rpy_matrix (mkV3 r p y)) xyz]) <->
  (cos r = cos y /\ sin r = sin y) \/ sin p = (-1)%R \/ (sin p = 1%R /\ sin (r - y) = 0%R).
Proof. exact l54_sdf_rpy_exact. Qed.
Print Assumptions C54_sdf_rpy_exact.
Example C54_exact_example : sdf_transform (Some (mkSPose vzero (mkV3 PI 0 0))) <> Ok (mkT KBase [aff (rpy_matrix (mkV3 PI 0 0)) vzero]).
Proof.
  rewrite C54_sdf_rpy_exact, cos_PI, cos_0, sin_0. intros [[E _]|[E|[E _]]]; lra.
Qed.

(** C55.  The chain puts every body where MuJoCo does, in every configuration, exactly if every hinge has its anchor at the origin of
    its body and a reference of full turns, and the anchor of every slide makes up for its reference. *)
Theorem C55_mjcf_exact : forall m : mjmodel, wf_model m -> forall r, r < length (mm_bodies m) ->
  (forall i b, nth_error (mm_bodies m) i = Some b -> r < i -> supported m b) -> forall (a : body_arg) (limit : nat),
  root_body m a = Ok r ->
  NoDup (map mb_name (mm_bodies m) ++ map ms_name (mm_sites m)) ->
  (forall i i' b b' j j', nth_error (mm_bodies m) i = Some b -> nth_error (mm_bodies m) i' = Some b' -> r < i -> r < i' ->
     joint_of m b = Some j -> joint_of m b' = Some j' -> mn_name j = mn_name j' -> i = i') ->
  (forall x, In x (map mb_name (mm_bodies m) ++ map ms_name (mm_sites m)) -> strip_nl x = x) ->
  length (mm_bodies m) < limit ->
  exists c, build_chain_from_mjcf limit m a = Ok c /\
    (forall v, exists d, forward_kinematics mops c (config_tensor (c_root c) [v]) None = Ok d /\
       forall i b, descends m r i -> nth_error (mm_bodies m) i = Some b -> exists M, dget String.eqb (mb_name b) d = Some [M]) /\
    ((forall v d i b M W, forward_kinematics mops c (config_tensor (c_root c) [v]) None = Ok d -> descends m r i ->
        nth_error (mm_bodies m) i = Some b -> dget String.eqb (mb_name b) d = Some [M] -> pose_below m (mj_local m v) r i W -> M = W) <->
     (forall i b j, descends m r i -> r < i -> nth_error (mm_bodies m) i = Some b -> joint_of m b = Some j ->
        match mn_type j with
        | mjHinge => mn_pos j = vzero /\ cos (mn_qpos0 j) = 1%R
        | _ => mn_pos j = vscale (- mn_qpos0 j) (unit_of (mn_axis j))
        end)).
Proof. exact mjcf_exact. Qed.
Print Assumptions C55_mjcf_exact.

Example C55_exact_example : exists c, build_chain_from_mjcf 9 (ex_mj vzero (2 * PI)) BodyNone = Ok c /\
  forall v d M W, forward_kinematics mops c (config_tensor (c_root c) [v]) None = Ok d ->
    dget String.eqb "tip" d = Some [M] -> pose_below (ex_mj vzero (2 * PI)) (mj_local (ex_mj vzero (2 * PI)) v) 0 2 W -> M = W.
Proof.
  set (m := ex_mj vzero (2 * PI)).
  destruct (C55_mjcf_exact m (ex_mj_wf _ _) 0 ltac:(simpl; lia) (ex_mj_sup _ _) BodyNone 9 eq_refl (ex_mj_names _ _) (ex_mj_jn _ _) (ex_mj_clean _ _))
    as (c & H1 & _ & _ & H3); [simpl; lia|].
  exists c. split; [exact H1|]. intros v d M W Hd HM HW.
  assert (D : descends m 0 2) by (eapply (de_body m 0 2); [reflexivity | lia |]; eapply (de_body m 0 1); [reflexivity | lia | constructor]).
  refine (H3 _ v d 2 _ M W Hd D eq_refl HM HW). intros i b j _ Hi Hb Hj.
  destruct i as [|[|[|i]]]; [lia | | |destruct i; discriminate].
  - assert (b = mkMBody "arm" 0 vzero qone 1 0) by (cbn in Hb; congruence). subst b.
    assert (Ej : j = ex_arm_jnt vzero (2 * PI)) by (cbn in Hj; congruence). rewrite Ej. cbn [ex_arm_jnt mn_type mn_pos mn_qpos0].
    split; [reflexivity | apply cos_2PI].
  - assert (b = mkMBody "tip" 1 (mkV3 3 0 0) qone 0 0) by (cbn in Hb; congruence). subst b. discriminate Hj.
Qed.
