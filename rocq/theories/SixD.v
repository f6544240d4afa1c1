(** The 6D and 9D representations: C26. *)
From Coq Require Import Reals Lra Psatz Bool Arith Lia List.
From Verif Require Import Prelude ExtF Lin Trig RotModel RotBasic QuatProofs.
Local Open Scope R_scope.

Definition mrows (u v w : V3) : M3 := mkM3 (vx u) (vy u) (vz u) (vx v) (vy v) (vz v) (vx w) (vy w) (vz w).
Lemma sixd_rows a1 a2 : exists b1 b2, rotation_6d_to_matrix a1 a2 = mrows b1 b2 (vcross b1 b2) /\
  b1 = normalize a1 /\ b2 = normalize (vsub a2 (vscale (vdot b1 a2) b1)).
Proof. do 2 eexists. split; [reflexivity|]. split; reflexivity. Qed.
Lemma rows_rot u v : unit3 u -> unit3 v -> vdot u v = 0 -> is_rot (mrows u v (vcross u v)).
Proof.
  unfold mrows. destruct u as [a b c], v as [x y z]. lin_simpl. intros H1 H2 H3.
  assert (E1 : a * a = 1 - b * b - c * c) by lra. assert (E2 : x * x = 1 - y * y - z * z) by lra.
  assert (E3 : a * x = - b * y - c * z) by lra.
  assert (N : (b * z - c * y) * (b * z - c * y) + (c * x - a * z) * (c * x - a * z) + (a * y - b * x) * (a * y - b * x) = 1).
  { transitivity ((a * a + b * b + c * c) * (x * x + y * y + z * z) - (a * x + b * y + c * z) * (a * x + b * y + c * z)); [ring|].
    rewrite H1, H2, H3. ring. }
  split; [apply mkM3_eq|]; try lra; try ring.
Qed.
Lemma normalize_unit v : eps12 <= vnorm v -> unit3 (normalize v).
Proof.
  intros H. assert (0 < eps12) by (unfold eps12; lra). unfold normalize. rewrite Rmax_left by exact H.
  apply normalise_unit. intros ->. assert (vnorm vzero = 0) by (apply vnorm_zero_iff; reflexivity). lra.
Qed.
Lemma normalize_id v : unit3 v -> normalize v = v.
Proof.
  intros H. unfold normalize. rewrite (unit3_norm v H), Rmax_left by (unfold eps12; lra).
  rewrite Rinv_1. apply vscale_1.
Qed.
Lemma residual_orth b v : unit3 b -> vdot b (vsub v (vscale (vdot b v) b)) = 0.
Proof.
  intros H. unfold unit3, vnorm2 in H. transitivity (vdot b v - vdot b v * vdot b b).
  - destruct b, v; lin_simpl; ring.
  - rewrite H. ring.
Qed.
Lemma vdot_scale_r a u v : vdot u (vscale a v) = a * vdot u v.
Proof. destruct u, v; lin_simpl; ring. Qed.
(** the sine of the angle between the two vectors, times |a2| *)
Definition residual (a1 a2 : V3) : V3 := vsub a2 (vscale (vdot a1 a2 / vnorm2 a1) a1).
Lemma sixd_rot a1 a2 : eps12 <= vnorm a1 -> eps12 <= vnorm (residual a1 a2) ->
  is_rot (rotation_6d_to_matrix a1 a2).
Proof.
  intros H1 H2. destruct (sixd_rows a1 a2) as (b1 & b2 & E & E1 & E2). rewrite E.
  assert (P : 0 < eps12) by (unfold eps12; lra).
  assert (U1 : unit3 b1) by (rewrite E1; apply normalize_unit, H1).
  assert (R : vsub a2 (vscale (vdot b1 a2) b1) = residual a1 a2).
  { rewrite E1. unfold normalize, residual. rewrite Rmax_left by exact H1. rewrite <- (vnorm_sqr a1).
    rewrite vdot_scale_l, vscale_scale. f_equal. f_equal. field. lra. }
  apply rows_rot; [exact U1 | rewrite E2, R; apply normalize_unit, H2 |].
  rewrite E2. unfold normalize at 1. rewrite vdot_scale_r, residual_orth by exact U1. ring.
Qed.
(** what is kept: the first row points along the first vector, the second lies in the plane of both,
    on the side of the second vector *)
Lemma sixd_geometry a1 a2 : eps12 <= vnorm a1 -> eps12 <= vnorm (residual a1 a2) ->
  exists p q r, 0 < p /\ 0 < r /\ m3row (rotation_6d_to_matrix a1 a2) 0 = vscale p a1 /\
    m3row (rotation_6d_to_matrix a1 a2) 1 = vadd (vscale q a1) (vscale r a2).
Proof.
  intros H1 H2. assert (P : 0 < eps12) by (unfold eps12; lra).
  unfold rotation_6d_to_matrix. cbn [m3row m00 m01 m02 m10 m11 m12].
  set (b1 := normalize a1).
  assert (E1 : b1 = vscale (/ vnorm a1) a1) by (unfold b1, normalize; rewrite Rmax_left by exact H1; reflexivity).
  assert (R : vsub a2 (vscale (vdot b1 a2) b1) = residual a1 a2).
  { rewrite E1. unfold residual. rewrite <- (vnorm_sqr a1), vdot_scale_l, vscale_scale. f_equal. f_equal. field. lra. }
  rewrite R. unfold normalize. rewrite (Rmax_left (vnorm (residual a1 a2))) by exact H2.
  exists (/ vnorm a1), (- / vnorm (residual a1 a2) * (vdot a1 a2 / vnorm2 a1)), (/ vnorm (residual a1 a2)).
  split; [apply Rinv_0_lt_compat; lra|]. split; [apply Rinv_0_lt_compat; lra|]. split.
  - rewrite E1. destruct a1; reflexivity.
  - set (k := / vnorm (residual a1 a2)). clearbody k. unfold residual. set (d := vdot a1 a2 / vnorm2 a1). clearbody d.
    clear. destruct a1, a2; lin_simpl. apply mkV3_eq; ring.
Qed.
Lemma rot_row3 A : is_rot A -> m3row A 2 = vcross (m3row A 0) (m3row A 1).
Proof.
  intros H. apply is_rot_adj in H. unfold adj3 in H. destruct A as [a b c d e f g h i]. lin_simpl. inj H.
  unfold m3row. cbn. apply mkV3_eq; lra.
Qed.
Lemma sixd_back A : is_rot A -> rotation_6d_to_matrix (fst (matrix_to_rotation_6d A)) (snd (matrix_to_rotation_6d A)) = A.
Proof.
  intros H. unfold matrix_to_rotation_6d. cbn [fst snd].
  assert (U0 : unit3 (m3row A 0)) by (destruct H as [H _]; destruct A; unfold m3row; lin_simpl; inj H; lra).
  assert (U1 : unit3 (m3row A 1)) by (destruct H as [H _]; destruct A; unfold m3row; lin_simpl; inj H; lra).
  assert (D : vdot (m3row A 0) (m3row A 1) = 0) by (destruct H as [H _]; destruct A; unfold m3row; lin_simpl; inj H; lra).
  unfold rotation_6d_to_matrix. rewrite (normalize_id _ U0), D, vscale_0.
  assert (S : vsub (m3row A 1) vzero = m3row A 1) by (destruct A; unfold m3row; lin_simpl; apply mkV3_eq; ring).
  rewrite S, (normalize_id _ U1), <- rot_row3 by exact H. destruct A; reflexivity.
Qed.
Lemma nined_back T : is_rigid T -> se3_9d_to_matrix44 (matrix44_to_se3_9d T) = T.
Proof.
  intros [Ha Hr]. unfold se3_9d_to_matrix44, matrix44_to_se3_9d. pose proof (sixd_back _ Hr) as E.
  destruct (matrix_to_rotation_6d (rotp T)) as [a1 a2]. cbn [fst snd] in E. rewrite E. apply aff_eta, Ha.
Qed.
Lemma nined_rigid a1 a2 t : eps12 <= vnorm a1 -> eps12 <= vnorm (residual a1 a2) -> is_rigid (se3_9d_to_matrix44 (a1, a2, t)).
Proof. intros. apply is_rigid_aff, sixd_rot; assumption. Qed.
(** below the floor 1e-12 of [normalize] independent vectors do not give a rotation *)
Lemma sixd_tiny : exists a1 a2, vnorm2 (vcross a1 a2) <> 0 /\ ~ is_rot (rotation_6d_to_matrix a1 a2).
Proof.
  exists (mkV3 (eps12 / 2) 0 0), (mkV3 0 1 0). assert (P : 0 < eps12) by (unfold eps12; lra).
  split.
  - lin_simpl. replace (_ + _ + _) with ((eps12 / 2) * (eps12 / 2)) by field. apply Rmult_integral_contrapositive_currified; lra.
  - intros [H _]. apply (f_equal m00) in H.
    assert (N : vnorm (mkV3 (eps12 / 2) 0 0) = eps12 / 2).
    { unfold vnorm. replace (vnorm2 _) with ((eps12 / 2) * (eps12 / 2)) by (lin_simpl; ring). apply sqrt_square. lra. }
    assert (E : vnorm2 (normalize (mkV3 (eps12 / 2) 0 0)) = 1) by (etransitivity; [|exact H]; reflexivity).
    unfold normalize in E. rewrite vnorm2_scale, N, Rmax_right in E by lra.
    replace (vnorm2 _) with ((eps12 / 2) * (eps12 / 2)) in E by (lin_simpl; ring).
    replace (/ eps12 * / eps12 * (eps12 / 2 * (eps12 / 2))) with (/ 4) in E by (field; lra). lra.
Qed.
