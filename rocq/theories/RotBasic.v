(** Rotations about an axis and translations along an axis. *)
From Coq Require Import Reals Lra Bool.
From Verif Require Import Lin Trig RotModel.
Local Open Scope R_scope.

Lemma sin_sqr t : sin t * sin t = 1 - cos t * cos t.
Proof. pose proof (sin2_cos2 t) as E. unfold Rsqr in E. lra. Qed.

Lemma unit_sqr k : unit3 k -> vx k * vx k = 1 - vy k * vy k - vz k * vz k.
Proof. destruct k; lin_simpl; intros; lra. Qed.

Lemma rot33_rot k t : unit3 k -> is_rot (axis_and_angle_to_matrix_33 k t).
Proof.
  intros Hk. apply unit_sqr in Hk. pose proof (sin_sqr t) as Hs.
  unfold axis_and_angle_to_matrix_33. destruct k as [x y z]. lin_simpl.
  set (c := cos t) in *. set (s := sin t) in *. clearbody c s.
  split; [apply mkM3_eq|]; ring [Hk Hs].
Qed.

Lemma rot44_aff k t : axis_and_angle_to_matrix_44 k t = aff (axis_and_angle_to_matrix_33 k t) vzero.
Proof. reflexivity. Qed.

Lemma pris_aff k d : axis_and_d_to_pris_matrix k d = aff I3 (vscale d k).
Proof. unfold axis_and_d_to_pris_matrix. destruct k. lin_simpl. apply mkM4_eq; ring. Qed.

Lemma rot44_rigid k t : unit3 k -> is_rigid (axis_and_angle_to_matrix_44 k t).
Proof. intros. rewrite rot44_aff. apply is_rigid_aff, rot33_rot; assumption. Qed.

Lemma pris_rigid k d : is_rigid (axis_and_d_to_pris_matrix k d).
Proof. rewrite pris_aff. apply is_rigid_aff, is_rot_I. Qed.

Lemma rot33_0 k : axis_and_angle_to_matrix_33 k 0 = I3.
Proof. unfold axis_and_angle_to_matrix_33. rewrite cos_0, sin_0. destruct k; lin_simpl. apply mkM3_eq; ring. Qed.

Lemma rot33_add k a b : unit3 k ->
  m3mul (axis_and_angle_to_matrix_33 k a) (axis_and_angle_to_matrix_33 k b) = axis_and_angle_to_matrix_33 k (a + b).
Proof.
  intros Hk. apply unit_sqr in Hk.
  unfold axis_and_angle_to_matrix_33. rewrite cos_plus, sin_plus. destruct k as [x y z]. lin_simpl.
  set (c := cos a). set (s := sin a). set (c' := cos b). set (s' := sin b). clearbody c s c' s'.
  apply mkM3_eq; ring [Hk].
Qed.

Lemma rot33_axis k t : unit3 k -> m3vec (axis_and_angle_to_matrix_33 k t) k = k.
Proof.
  intros Hk. apply unit_sqr in Hk.
  unfold axis_and_angle_to_matrix_33. destruct k as [x y z]. lin_simpl.
  set (c := cos t). set (s := sin t). clearbody c s.
  apply mkV3_eq; ring [Hk].
Qed.

(** rotation of any vector: Rodrigues' formula *)
Lemma rot33_vec k t v : unit3 k ->
  m3vec (axis_and_angle_to_matrix_33 k t) v =
  vadd (vadd (vscale (cos t) v) (vscale (sin t) (vcross k v))) (vscale ((1 - cos t) * vdot k v) k).
Proof.
  intros _. unfold axis_and_angle_to_matrix_33. destruct k as [x y z], v as [a b c']. lin_simpl.
  apply mkV3_eq; ring.
Qed.

Lemma rot33_trace k t : unit3 k -> trace3 (axis_and_angle_to_matrix_33 k t) = 1 + 2 * cos t.
Proof.
  intros Hk. apply unit_sqr in Hk. unfold axis_and_angle_to_matrix_33. destruct k as [x y z]. lin_simpl.
  set (c := cos t). clearbody c. ring [Hk].
Qed.

Lemma rot33_2pi k t n : axis_and_angle_to_matrix_33 k (t + 2 * INR n * PI) = axis_and_angle_to_matrix_33 k t.
Proof. unfold axis_and_angle_to_matrix_33. rewrite cos_period, sin_period. reflexivity. Qed.

Lemma rot33_tr k t : m3tr (axis_and_angle_to_matrix_33 k t) = axis_and_angle_to_matrix_33 k (- t).
Proof.
  unfold axis_and_angle_to_matrix_33. rewrite cos_neg, sin_neg. destruct k. lin_simpl.
  set (c := cos t). set (s := sin t). clearbody c s. apply mkM3_eq; ring.
Qed.

Lemma pris_add k a b : m4mul (axis_and_d_to_pris_matrix k a) (axis_and_d_to_pris_matrix k b)
  = axis_and_d_to_pris_matrix k (a + b).
Proof. unfold axis_and_d_to_pris_matrix. destruct k. lin_simpl. apply mkM4_eq; ring. Qed.
Lemma pris_0 k : axis_and_d_to_pris_matrix k 0 = I4.
Proof. unfold axis_and_d_to_pris_matrix. destruct k. lin_simpl. apply mkM4_eq; ring. Qed.
