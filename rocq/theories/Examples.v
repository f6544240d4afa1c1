(** A concrete robot used to show that the hypotheses of the theorems can be met. *)
From Coq Require Import Reals Lra String Bool Arith Lia List.
From Verif Require Import Prelude ExtF Tree ChainModel SpecFK ChainProofs Lin Trig RotModel RotBasic ChainInst.
Import ListNotations.
Local Open Scope string_scope.

Definition trans (x y z : R) : M4 := aff I3 (mkV3 x y z).
Lemma trans_rigid x y z : is_rigid (trans x y z).
Proof. apply is_rigid_aff, is_rot_I. Qed.

Definition zax : V3 := mkV3 0 0 1.
Definition xax : V3 := mkV3 1 0 0.
(** a tilted unit axis *)
Definition tax : V3 := mkV3 (3/5) 0 (4/5).
Lemma zax_unit : unit3 zax. Proof. unfold zax. lin_simpl. ring. Qed.
Lemma xax_unit : unit3 xax. Proof. unfold xax. lin_simpl. ring. Qed.
Lemma tax_unit : unit3 tax. Proof. unfold tax. lin_simpl. lra. Qed.

Definition fixed_joint : mjoint := mkJoint None None Fixed zax None None None.
(** the shoulder carries limits, the elbow is prismatic and tilted, the head is on another branch *)
Definition ex_hand : mframe := Frame "hand" (mkLink (Some "hand") (Some (trans 0 0 1))) fixed_joint [].
Definition ex_elbow : mframe :=
  Frame "elbow" (mkLink (Some "fore") None)
    (mkJoint (Some "j2") (Some (trans 1 0 0)) Prismatic tax (Some (Fin 0, Fin 2)) None None) [ex_hand].
Definition ex_shoulder : mframe :=
  Frame "shoulder" (mkLink (Some "upper") (Some (trans 0 2 0)))
    (mkJoint (Some "j1") None Revolute zax (Some (Fin (-1), Fin 1)) None None) [ex_elbow].
Definition ex_head : mframe :=
  Frame "head" (mkLink (Some "head") None)
    (mkJoint (Some "j3") (Some (trans 0 0 3)) Revolute xax None None None) [].
Definition ex_robot : mframe :=
  Frame "base" (mkLink (Some "base") None) fixed_joint [ex_shoulder; ex_head].

Ltac nodup := repeat constructor; simpl; intuition discriminate.
Lemma ex_distinct_joints : distinct_joints ex_robot.
Proof. unfold distinct_joints, moving_names; simpl. nodup. Qed.
Lemma ex_distinct_frames : distinct_frames ex_robot.
Proof. unfold distinct_frames; simpl. nodup. Qed.
Lemma ex_clean : clean_names ex_robot.
Proof. intros f H; simpl in H. repeat (destruct H as [<-|H]; [reflexivity|]). contradiction. Qed.
Lemma ex_rigid : rigid_tree ex_robot.
Proof.
  intros f H; simpl in H.
  repeat (destruct H as [<-|H];
    [repeat split; simpl; auto using trans_rigid, zax_unit, xax_unit, tax_unit; apply trans_rigid|]).
  contradiction.
Qed.
Lemma ex_chain : exists c, chain_init mops ex_robot = Ok c.
Proof. destruct (chain_init_ok mops ex_robot) as (c & H & _). eauto. Qed.
Lemma ex_path_hand : root_path ex_robot ([ex_robot; ex_shoulder; ex_elbow] ++ [ex_hand]).
Proof.
  simpl. apply rp_child with (c := ex_shoulder); [simpl; auto|].
  apply rp_child with (c := ex_elbow); [simpl; auto|].
  apply rp_child with (c := ex_hand); [simpl; auto|]. apply rp_here.
Qed.
(** position of the hand at j1 = pi/2, j2 = 5 *)
Definition ex_config : config := fun n => match n with
  | Some "j1" => (PI / 2)%R | Some "j2" => 5%R | _ => 0%R end.
Lemma ex_hand_pose : trp (path_pose mops ex_config [ex_robot; ex_shoulder; ex_elbow; ex_hand]) = mkV3 0 6 5.
Proof.
  unfold path_pose, rel_pose, joint_motion, ex_robot, ex_shoulder, ex_elbow, ex_hand, trans.
  cbn -[cos sin PI Rdiv m4mul I4 axis_and_angle_to_matrix_44 axis_and_d_to_pris_matrix aff zax tax ex_config].
  rewrite !m4mul_1_l, !m4mul_1_r, rot44_aff, pris_aff, !aff_mul, trp_aff.
  cbn [ex_config Ascii.eqb String.eqb Bool.eqb].
  assert (E : axis_and_angle_to_matrix_33 zax (PI / 2) = mkM3 0 (-1) 0 1 0 0 0 0 1).
  { unfold axis_and_angle_to_matrix_33, zax. cbn [vx vy vz]. rewrite cos_PI2, sin_PI2. apply mkM3_eq; ring. }
  rewrite E. unfold tax. rewrite !m3mul_1_l, !m3mul_1_r, !m3vec_1. lin_simpl. apply mkV3_eq; field.
Qed.
