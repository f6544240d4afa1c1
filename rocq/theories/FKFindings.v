(** Witnesses for properties of the chain API that the code does not have. *)
From Coq Require Import Reals Lra String Bool Arith Lia List.
From Verif Require Import Prelude ExtF Tree ChainModel SpecFK ChainProofs Lin Trig RotModel RotBasic ChainInst Input Examples.
Import ListNotations.
Local Open Scope nat_scope.
Local Open Scope string_scope.

(** two moving joints without a name, as an MJCF file without joint names gives *)
Definition dup_b : mframe :=
  Frame "b" (mkLink None None) (mkJoint (Some "") None Revolute xax None None None) [].
Definition dup_a : mframe :=
  Frame "a" (mkLink None None) (mkJoint (Some "") None Revolute zax None None None) [dup_b].
Definition dup_root : mframe := Frame "r" (mkLink None None) fixed_joint [dup_a].

Lemma dup_fk : exists c, chain_init mops dup_root = Ok c /\
  (forall q0 q1, forward_kinematics_tensor mops c (mkTh 2 [[q0; q1]]) =
     Ok [Some [m4mul (m4mul I4 I4) I4];
         Some [m4mul (m4mul (m4mul I4 I4) I4) (m4mul (m4mul I4 I4) (axis_and_angle_to_matrix_44 xax q0))];
         Some [m4mul (m4mul (m4mul (m4mul I4 I4) I4) (m4mul (m4mul I4 I4) (axis_and_angle_to_matrix_44 xax q0)))
                 (m4mul (m4mul I4 I4) (axis_and_angle_to_matrix_44 xax q0))]]).
Proof.
  eexists. split; [vm_compute; reflexivity|]. intros q0 q1.
  cbv -[m4mul I4 axis_and_angle_to_matrix_44 axis_and_d_to_pris_matrix xax zax vzero]. reflexivity.
Qed.

Lemma dup_not_spec : exists q, axis_and_angle_to_matrix_44 xax q <> axis_and_angle_to_matrix_44 zax q.
Proof.
  exists (PI / 2)%R. intros E.
  apply (f_equal a00) in E. unfold axis_and_angle_to_matrix_44, axis_and_angle_to_matrix_33, xax, zax in E.
  cbn [a00 vx vy vz m00] in E. rewrite cos_PI2 in E. lra.
Qed.

Lemma repeated_names : exists root c, chain_init mops root = Ok c /\
  length (moving_names root) = 2 /\ length (c_names c) = 2 /\
  (forall q0 q1 q1', forward_kinematics_tensor mops c (mkTh 2 [[q0; q1]]) =
                     forward_kinematics_tensor mops c (mkTh 2 [[q0; q1']])) /\
  exists f q0 q1 arr, root_path root [root; f] /\ j_axis (f_joint f) = zax /\
    forward_kinematics_tensor mops c (mkTh 2 [[q0; q1]]) = Ok arr /\
    nth_error arr 1 = Some (Some [axis_and_angle_to_matrix_44 xax q0]) /\
    path_pose mops (fun _ => q0) [root; f] <> axis_and_angle_to_matrix_44 xax q0.
Proof.
  destruct dup_fk as (c & Hc & H). exists dup_root, c. split; [exact Hc|].
  split; [reflexivity|]. split; [inversion Hc; reflexivity|]. split; [intros; rewrite !H; reflexivity|].
  destruct dup_not_spec as [q Hq].
  exists dup_a, q, 0%R. eexists. split.
  { apply rp_child with (c := dup_a); [simpl; auto | apply rp_here]. }
  split; [reflexivity|]. split; [apply H|].
  cbn [nth_error]. rewrite !m4mul_1_l. split; [reflexivity|].
  rewrite pose_cons, pose_cons, pose_nil. unfold rel_pose, joint_motion, dup_root, dup_a, fixed_joint.
  cbn [f_link f_joint l_off j_off or_one j_type j_axis t_mul t_one t_rev mops].
  rewrite !m4mul_1_l, m4mul_1_r. intros E. apply Hq. symmetry; exact E.
Qed.

(** get_joints(exclude_fixed=False) *)
Lemma joints_incomplete : exists root : mframe, get_joints false root <> map f_joint (preorder root) /\
  (exists f, In f (preorder root) /\ moving f = true /\ ~ In (f_joint f) (get_joints false root)) /\
  (exists f, In f (preorder root) /\ moving f = false /\ ~ In (f_joint f) (get_joints false root)).
Proof.
  exists (Frame "m" (mkLink None None) (mkJoint (Some "j") None Revolute zax None None None) [ex_hand]).
  split; [discriminate|]. split.
  - eexists; split; [left; reflexivity|]. split; [reflexivity | simpl; tauto].
  - exists ex_hand. split; [right; left; reflexivity|]. split; [reflexivity | simpl; tauto].
Qed.

(** README line 185: unspecified joints get th=0 *)
Lemma no_zero_fill : exists names (d : dict (option string) (dval F)),
  NoDup names /\ (forall k, In k (map fst d) -> In k names) /\
  ensure_dict NaN isnan names d <> Ok (T1 [Fin 1; Fin 0]) /\
  names = [Some "j1"; Some "j2"] /\ d = [(Some "j1", DS (Fin 1))] /\
  ensure_dict NaN isnan names d = Err ValueError.
Proof.
  exists [Some "j1"; Some "j2"], [(Some "j1", DS (Fin 1))].
  assert (E : ensure_dict NaN isnan [Some "j1"; Some "j2"] [(Some "j1", DS (Fin 1))] = Err ValueError) by reflexivity.
  split; [nodup|]. split; [simpl; intuition|]. split; [rewrite E; discriminate|]. auto.
Qed.
