(** Linear algebra on reals: 3-vectors, 3x3 and 4x4 matrices, quaternions.

    These are the tensors of trailing shape (3,), (3,3), (4,4) and (4,) that the
    library manipulates ([torch.matmul], [torch.bmm], [torch.cross], ...).
    One tensor element is an exact real: rounding is not modelled. *)
From Coq Require Import Reals Lra Nsatz.
Open Scope R_scope.

Record V3 := mkV3 { vx : R; vy : R; vz : R }.
Record M3 := mkM3 { m00 : R; m01 : R; m02 : R;
                    m10 : R; m11 : R; m12 : R;
                    m20 : R; m21 : R; m22 : R }.
Record M4 := mkM4 { a00 : R; a01 : R; a02 : R; a03 : R;
                    a10 : R; a11 : R; a12 : R; a13 : R;
                    a20 : R; a21 : R; a22 : R; a23 : R;
                    a30 : R; a31 : R; a32 : R; a33 : R }.
Record V4 := mkV4 { v0 : R; v1 : R; v2 : R; v3 : R }.
(** quaternion, real part first *)
Record Q := mkQ { qw : R; qx : R; qy : R; qz : R }.

(** ** Vectors *)
Definition vzero : V3 := mkV3 0 0 0.
Definition vadd (u v : V3) : V3 := mkV3 (vx u + vx v) (vy u + vy v) (vz u + vz v).
Definition vsub (u v : V3) : V3 := mkV3 (vx u - vx v) (vy u - vy v) (vz u - vz v).
Definition vopp (u : V3) : V3 := mkV3 (- vx u) (- vy u) (- vz u).
Definition vscale (k : R) (v : V3) : V3 := mkV3 (k * vx v) (k * vy v) (k * vz v).
Definition vdot (u v : V3) : R := vx u * vx v + vy u * vy v + vz u * vz v.
Definition vcross (u v : V3) : V3 :=
  mkV3 (vy u * vz v - vz u * vy v) (vz u * vx v - vx u * vz v) (vx u * vy v - vy u * vx v).
Definition vnorm2 (v : V3) : R := vdot v v.
Definition vnorm (v : V3) : R := sqrt (vnorm2 v).
Definition unit3 (v : V3) : Prop := vnorm2 v = 1.

(** ** 3x3 matrices *)
Definition I3 : M3 := mkM3 1 0 0 0 1 0 0 0 1.
Definition Z3 : M3 := mkM3 0 0 0 0 0 0 0 0 0.
Definition m3mul (A B : M3) : M3 :=
  mkM3
   (m00 A * m00 B + m01 A * m10 B + m02 A * m20 B)
   (m00 A * m01 B + m01 A * m11 B + m02 A * m21 B)
   (m00 A * m02 B + m01 A * m12 B + m02 A * m22 B)
   (m10 A * m00 B + m11 A * m10 B + m12 A * m20 B)
   (m10 A * m01 B + m11 A * m11 B + m12 A * m21 B)
   (m10 A * m02 B + m11 A * m12 B + m12 A * m22 B)
   (m20 A * m00 B + m21 A * m10 B + m22 A * m20 B)
   (m20 A * m01 B + m21 A * m11 B + m22 A * m21 B)
   (m20 A * m02 B + m21 A * m12 B + m22 A * m22 B).
Definition m3vec (A : M3) (v : V3) : V3 :=
  mkV3 (m00 A * vx v + m01 A * vy v + m02 A * vz v)
       (m10 A * vx v + m11 A * vy v + m12 A * vz v)
       (m20 A * vx v + m21 A * vy v + m22 A * vz v).
Definition m3tr (A : M3) : M3 :=
  mkM3 (m00 A) (m10 A) (m20 A) (m01 A) (m11 A) (m21 A) (m02 A) (m12 A) (m22 A).
Definition m3add (A B : M3) : M3 :=
  mkM3 (m00 A + m00 B) (m01 A + m01 B) (m02 A + m02 B)
       (m10 A + m10 B) (m11 A + m11 B) (m12 A + m12 B)
       (m20 A + m20 B) (m21 A + m21 B) (m22 A + m22 B).
Definition m3opp (A : M3) : M3 :=
  mkM3 (- m00 A) (- m01 A) (- m02 A) (- m10 A) (- m11 A) (- m12 A) (- m20 A) (- m21 A) (- m22 A).
Definition m3scale (k : R) (A : M3) : M3 :=
  mkM3 (k * m00 A) (k * m01 A) (k * m02 A) (k * m10 A) (k * m11 A) (k * m12 A)
       (k * m20 A) (k * m21 A) (k * m22 A).
Definition det3 (A : M3) : R :=
    m00 A * (m11 A * m22 A - m12 A * m21 A)
  - m01 A * (m10 A * m22 A - m12 A * m20 A)
  + m02 A * (m10 A * m21 A - m11 A * m20 A).
Definition trace3 (A : M3) : R := m00 A + m11 A + m22 A.
(** skew matrix of a vector: [hatm v * u = v x u] *)
Definition hatm (v : V3) : M3 :=
  mkM3 0 (- vz v) (vy v) (vz v) 0 (- vx v) (- vy v) (vx v) 0.

(** a rotation: orthonormal with determinant one *)
Definition is_rot (A : M3) : Prop := m3mul A (m3tr A) = I3 /\ det3 A = 1.

(** ** 4x4 matrices *)
Definition I4 : M4 := mkM4 1 0 0 0 0 1 0 0 0 0 1 0 0 0 0 1.
Definition m4mul (A B : M4) : M4 :=
  mkM4
   (a00 A * a00 B + a01 A * a10 B + a02 A * a20 B + a03 A * a30 B)
   (a00 A * a01 B + a01 A * a11 B + a02 A * a21 B + a03 A * a31 B)
   (a00 A * a02 B + a01 A * a12 B + a02 A * a22 B + a03 A * a32 B)
   (a00 A * a03 B + a01 A * a13 B + a02 A * a23 B + a03 A * a33 B)
   (a10 A * a00 B + a11 A * a10 B + a12 A * a20 B + a13 A * a30 B)
   (a10 A * a01 B + a11 A * a11 B + a12 A * a21 B + a13 A * a31 B)
   (a10 A * a02 B + a11 A * a12 B + a12 A * a22 B + a13 A * a32 B)
   (a10 A * a03 B + a11 A * a13 B + a12 A * a23 B + a13 A * a33 B)
   (a20 A * a00 B + a21 A * a10 B + a22 A * a20 B + a23 A * a30 B)
   (a20 A * a01 B + a21 A * a11 B + a22 A * a21 B + a23 A * a31 B)
   (a20 A * a02 B + a21 A * a12 B + a22 A * a22 B + a23 A * a32 B)
   (a20 A * a03 B + a21 A * a13 B + a22 A * a23 B + a23 A * a33 B)
   (a30 A * a00 B + a31 A * a10 B + a32 A * a20 B + a33 A * a30 B)
   (a30 A * a01 B + a31 A * a11 B + a32 A * a21 B + a33 A * a31 B)
   (a30 A * a02 B + a31 A * a12 B + a32 A * a22 B + a33 A * a32 B)
   (a30 A * a03 B + a31 A * a13 B + a32 A * a23 B + a33 A * a33 B).
Definition m4vec (A : M4) (v : V4) : V4 :=
  mkV4 (a00 A * v0 v + a01 A * v1 v + a02 A * v2 v + a03 A * v3 v)
       (a10 A * v0 v + a11 A * v1 v + a12 A * v2 v + a13 A * v3 v)
       (a20 A * v0 v + a21 A * v1 v + a22 A * v2 v + a23 A * v3 v)
       (a30 A * v0 v + a31 A * v1 v + a32 A * v2 v + a33 A * v3 v).
Definition m4tr (A : M4) : M4 :=
  mkM4 (a00 A) (a10 A) (a20 A) (a30 A) (a01 A) (a11 A) (a21 A) (a31 A)
       (a02 A) (a12 A) (a22 A) (a32 A) (a03 A) (a13 A) (a23 A) (a33 A).

(** [T[:3,:3]], [T[:3,3]] and the matrix assembled from a rotation block and a translation *)
Definition rotp (A : M4) : M3 :=
  mkM3 (a00 A) (a01 A) (a02 A) (a10 A) (a11 A) (a12 A) (a20 A) (a21 A) (a22 A).
Definition trp (A : M4) : V3 := mkV3 (a03 A) (a13 A) (a23 A).
Definition aff (M : M3) (t : V3) : M4 :=
  mkM4 (m00 M) (m01 M) (m02 M) (vx t) (m10 M) (m11 M) (m12 M) (vy t)
       (m20 M) (m21 M) (m22 M) (vz t) 0 0 0 1.
(** last row (0,0,0,1) *)
Definition affine (A : M4) : Prop := a30 A = 0 /\ a31 A = 0 /\ a32 A = 0 /\ a33 A = 1.
(** rigid transform: affine with a rotation block *)
Definition is_rigid (A : M4) : Prop := affine A /\ is_rot (rotp A).

(** ** Extensionality and computation tactics *)
Ltac lin_destr := repeat match goal with
  | v : V3 |- _ => destruct v
  | v : M3 |- _ => destruct v
  | v : M4 |- _ => destruct v
  | v : V4 |- _ => destruct v
  | v : Q |- _ => destruct v
  end.
Ltac lin_unfold := unfold is_rigid, affine, aff, rotp, trp, m4tr, m4vec, m4mul, I4,
  is_rot, hatm, trace3, det3, m3scale, m3opp, m3add, m3tr, m3vec, m3mul, Z3, I3,
  unit3, vnorm2, vcross, vdot, vscale, vopp, vsub, vadd, vzero in *.
Ltac lin_simpl := lin_unfold; cbn [vx vy vz m00 m01 m02 m10 m11 m12 m20 m21 m22
  a00 a01 a02 a03 a10 a11 a12 a13 a20 a21 a22 a23 a30 a31 a32 a33 v0 v1 v2 v3
  qw qx qy qz] in *.
Lemma mkV3_eq a b c a' b' c' : a = a' -> b = b' -> c = c' -> mkV3 a b c = mkV3 a' b' c'.
Proof. intros; subst; reflexivity. Qed.
Lemma mkV4_eq a b c d a' b' c' d' : a = a' -> b = b' -> c = c' -> d = d' ->
  mkV4 a b c d = mkV4 a' b' c' d'.
Proof. intros; subst; reflexivity. Qed.
Lemma mkQ_eq a b c d a' b' c' d' : a = a' -> b = b' -> c = c' -> d = d' ->
  mkQ a b c d = mkQ a' b' c' d'.
Proof. intros; subst; reflexivity. Qed.
Lemma mkM3_eq a b c d e f g h i a' b' c' d' e' f' g' h' i' :
  a = a' -> b = b' -> c = c' -> d = d' -> e = e' -> f = f' -> g = g' -> h = h' -> i = i' ->
  mkM3 a b c d e f g h i = mkM3 a' b' c' d' e' f' g' h' i'.
Proof. intros; subst; reflexivity. Qed.
Lemma mkM4_eq a b c d e f g h i j k l m n o p a' b' c' d' e' f' g' h' i' j' k' l' m' n' o' p' :
  a = a' -> b = b' -> c = c' -> d = d' -> e = e' -> f = f' -> g = g' -> h = h' ->
  i = i' -> j = j' -> k = k' -> l = l' -> m = m' -> n = n' -> o = o' -> p = p' ->
  mkM4 a b c d e f g h i j k l m n o p = mkM4 a' b' c' d' e' f' g' h' i' j' k' l' m' n' o' p'.
Proof. intros; subst; reflexivity. Qed.
Ltac lin_eq := first [apply mkV3_eq | apply mkV4_eq | apply mkQ_eq | apply mkM3_eq | apply mkM4_eq].
Ltac lin := intros; lin_destr; lin_simpl; lin_eq; ring.
Ltac inj H := injection H; clear H; intros.

Lemma m3_ext A B : m00 A = m00 B -> m01 A = m01 B -> m02 A = m02 B ->
  m10 A = m10 B -> m11 A = m11 B -> m12 A = m12 B ->
  m20 A = m20 B -> m21 A = m21 B -> m22 A = m22 B -> A = B.
Proof. destruct A, B; simpl; intros; subst; reflexivity. Qed.

(** ** Algebra *)
Lemma vadd_comm u v : vadd u v = vadd v u. Proof. lin. Qed.
Lemma vadd_assoc u v w : vadd u (vadd v w) = vadd (vadd u v) w. Proof. lin. Qed.
Lemma vadd_0_l v : vadd vzero v = v. Proof. lin. Qed.
Lemma vadd_0_r v : vadd v vzero = v. Proof. lin. Qed.
Lemma vsub_self v : vsub v v = vzero. Proof. lin. Qed.
Lemma vsub_eq u v : vsub u v = vzero -> u = v.
Proof. intros H; lin_destr; lin_simpl; inj H; f_equal; lra. Qed.
Lemma vcross_self v : vcross v v = vzero. Proof. lin. Qed.
Lemma vcross_anti u v : vcross u v = vopp (vcross v u). Proof. lin. Qed.
Lemma vdot_comm u v : vdot u v = vdot v u. Proof. lin_destr; lin_simpl; ring. Qed.
Lemma vdot_cross_l u v : vdot u (vcross u v) = 0. Proof. lin_destr; lin_simpl; ring. Qed.
Lemma vdot_cross_r u v : vdot v (vcross u v) = 0. Proof. lin_destr; lin_simpl; ring. Qed.
Lemma vscale_scale a b v : vscale a (vscale b v) = vscale (a * b) v. Proof. lin. Qed.
Lemma vscale_1 v : vscale 1 v = v. Proof. lin. Qed.
Lemma vscale_0 v : vscale 0 v = vzero. Proof. lin. Qed.
Lemma vdot_scale_l a u v : vdot (vscale a u) v = a * vdot u v. Proof. lin_destr; lin_simpl; ring. Qed.
Lemma vnorm2_scale a v : vnorm2 (vscale a v) = a * a * vnorm2 v.
Proof. lin_destr; lin_simpl; ring. Qed.

Lemma vnorm2_nonneg v : 0 <= vnorm2 v.
Proof.
  destruct v as [x y z]; lin_simpl.
  pose proof (Rle_0_sqr x); pose proof (Rle_0_sqr y); pose proof (Rle_0_sqr z).
  unfold Rsqr in *; lra.
Qed.
Lemma vnorm2_zero v : vnorm2 v = 0 -> v = vzero.
Proof.
  destruct v as [x y z]; lin_simpl; intros H.
  pose proof (Rle_0_sqr x); pose proof (Rle_0_sqr y); pose proof (Rle_0_sqr z).
  unfold Rsqr in *.
  f_equal; apply Rsqr_eq_0; unfold Rsqr; lra.
Qed.
Lemma vnorm_nonneg v : 0 <= vnorm v. Proof. apply sqrt_pos. Qed.
Lemma vnorm_sqr v : vnorm v * vnorm v = vnorm2 v.
Proof. apply sqrt_sqrt, vnorm2_nonneg. Qed.
Lemma vnorm_zero_iff v : vnorm v = 0 <-> v = vzero.
Proof.
  split.
  - intros H. apply vnorm2_zero. rewrite <- vnorm_sqr, H; ring.
  - intros ->. unfold vnorm. replace (vnorm2 vzero) with 0 by (lin_simpl; ring). apply sqrt_0.
Qed.
Lemma unit3_norm v : unit3 v -> vnorm v = 1.
Proof. unfold unit3, vnorm; intros ->; apply sqrt_1. Qed.
Lemma vnorm_scale a v : vnorm (vscale a v) = Rabs a * vnorm v.
Proof.
  unfold vnorm. rewrite vnorm2_scale, sqrt_mult.
  - f_equal. apply sqrt_Rsqr_abs.
  - apply Rle_0_sqr.
  - apply vnorm2_nonneg.
Qed.
Lemma normalise_unit v : v <> vzero -> unit3 (vscale (/ vnorm v) v).
Proof.
  intros H. unfold unit3. rewrite vnorm2_scale, <- (vnorm_sqr v).
  assert (vnorm v <> 0) by (intros E; apply H, vnorm_zero_iff, E).
  field; assumption.
Qed.

Lemma m3mul_assoc A B C : m3mul A (m3mul B C) = m3mul (m3mul A B) C. Proof. lin. Qed.
Lemma m3mul_1_l A : m3mul I3 A = A. Proof. lin. Qed.
Lemma m3mul_1_r A : m3mul A I3 = A. Proof. lin. Qed.
Lemma m3tr_mul A B : m3tr (m3mul A B) = m3mul (m3tr B) (m3tr A). Proof. lin. Qed.
Lemma m3tr_tr A : m3tr (m3tr A) = A. Proof. lin. Qed.
Lemma m3tr_I : m3tr I3 = I3. Proof. lin. Qed.
Lemma m3vec_mul A B v : m3vec (m3mul A B) v = m3vec A (m3vec B v). Proof. lin. Qed.
Lemma m3vec_1 v : m3vec I3 v = v. Proof. lin. Qed.
Lemma m3vec_add A u v : m3vec A (vadd u v) = vadd (m3vec A u) (m3vec A v). Proof. lin. Qed.
Lemma m3vec_sub A u v : m3vec A (vsub u v) = vsub (m3vec A u) (m3vec A v). Proof. lin. Qed.
Lemma m3vec_opp A u : m3vec A (vopp u) = vopp (m3vec A u). Proof. lin. Qed.
Lemma m3vec_scale A k u : m3vec A (vscale k u) = vscale k (m3vec A u). Proof. lin. Qed.
Lemma m3vec_0 A : m3vec A vzero = vzero. Proof. lin. Qed.
Lemma det3_mul A B : det3 (m3mul A B) = det3 A * det3 B.
Proof. lin_destr; lin_simpl; ring. Qed.
Lemma det3_tr A : det3 (m3tr A) = det3 A.
Proof. lin_destr; lin_simpl; ring. Qed.
Lemma det3_I : det3 I3 = 1. Proof. lin_simpl; ring. Qed.
Lemma hatm_vec u v : m3vec (hatm u) v = vcross u v. Proof. lin. Qed.
Lemma vdot_tr A u v : vdot (m3vec A u) v = vdot u (m3vec (m3tr A) v).
Proof. lin_destr; lin_simpl; ring. Qed.

(** adjugate: [A adj A = det A I] *)
Definition adj3 (A : M3) : M3 :=
  mkM3 (m11 A * m22 A - m12 A * m21 A) (m02 A * m21 A - m01 A * m22 A) (m01 A * m12 A - m02 A * m11 A)
       (m12 A * m20 A - m10 A * m22 A) (m00 A * m22 A - m02 A * m20 A) (m02 A * m10 A - m00 A * m12 A)
       (m10 A * m21 A - m11 A * m20 A) (m01 A * m20 A - m00 A * m21 A) (m00 A * m11 A - m01 A * m10 A).
Lemma adj3_l A : m3mul (adj3 A) A = m3scale (det3 A) I3.
Proof. unfold adj3; lin. Qed.
Lemma adj3_r A : m3mul A (adj3 A) = m3scale (det3 A) I3.
Proof. unfold adj3; lin. Qed.
Lemma m3scale_1 A : m3scale 1 A = A. Proof. lin. Qed.
Lemma m3scale_mul_l k A B : m3mul (m3scale k A) B = m3scale k (m3mul A B). Proof. lin. Qed.
Lemma m3scale_mul_r k A B : m3mul A (m3scale k B) = m3scale k (m3mul A B). Proof. lin. Qed.
Lemma m3scale_scale a b A : m3scale a (m3scale b A) = m3scale (a * b) A. Proof. lin. Qed.

(** a right inverse is a left inverse *)
Lemma m3_inv_comm A B : m3mul A B = I3 -> m3mul B A = I3.
Proof.
  intros H.
  assert (Hd : det3 A * det3 B = 1) by (rewrite <- det3_mul, H; apply det3_I).
  assert (Ha : det3 A <> 0) by (intros E; rewrite E in Hd; lra).
  assert (HB : B = m3scale (/ det3 A) (adj3 A)).
  { transitivity (m3mul (m3scale (/ det3 A) (m3mul (adj3 A) A)) B).
    - rewrite adj3_l, m3scale_scale, Rinv_l, m3scale_1, m3mul_1_l by assumption; reflexivity.
    - rewrite m3scale_mul_l, <- m3mul_assoc, H, m3mul_1_r; reflexivity. }
  rewrite HB, m3scale_mul_l, adj3_l, m3scale_scale, Rinv_l, m3scale_1 by assumption; reflexivity.
Qed.

(** ** Rotations *)
Lemma is_rot_I : is_rot I3.
Proof. split; [lin | apply det3_I]. Qed.
Lemma is_rot_mul A B : is_rot A -> is_rot B -> is_rot (m3mul A B).
Proof.
  intros [HA dA] [HB dB]; split.
  - rewrite m3tr_mul, <- m3mul_assoc, (m3mul_assoc B), HB, m3mul_1_l; exact HA.
  - rewrite det3_mul, dA, dB; ring.
Qed.
Lemma is_rot_l A : is_rot A -> m3mul (m3tr A) A = I3.
Proof. intros [H _]; apply m3_inv_comm, H. Qed.
Lemma is_rot_tr A : is_rot A -> is_rot (m3tr A).
Proof.
  intros H; split.
  - rewrite m3tr_tr; apply is_rot_l, H.
  - rewrite det3_tr; apply H.
Qed.
(** transpose of a rotation is its adjugate *)
Lemma is_rot_adj A : is_rot A -> m3tr A = adj3 A.
Proof.
  intros H. pose proof (is_rot_l A H) as Hl. destruct H as [H d].
  transitivity (m3mul (m3tr A) (m3mul A (adj3 A))).
  - rewrite adj3_r, d, m3scale_1, m3mul_1_r; reflexivity.
  - rewrite m3mul_assoc, Hl, m3mul_1_l; reflexivity.
Qed.
Lemma rot_dot A u v : is_rot A -> vdot (m3vec A u) (m3vec A v) = vdot u v.
Proof. intros H. rewrite vdot_tr, <- m3vec_mul, is_rot_l, m3vec_1 by assumption; reflexivity. Qed.
Lemma rot_norm2 A u : is_rot A -> vnorm2 (m3vec A u) = vnorm2 u.
Proof. apply rot_dot. Qed.
(** the cofactor identities, for any matrix *)
Lemma cof_cross A u v : m3vec (m3tr (adj3 A)) (vcross u v) = vcross (m3vec A u) (m3vec A v).
Proof. unfold adj3; lin. Qed.
Lemma cof_hat A v : m3mul (m3mul A (hatm v)) (m3tr A) = hatm (m3vec (m3tr (adj3 A)) v).
Proof. unfold adj3; lin. Qed.
(** [A (u x v) = A u x A v] for rotations *)
Lemma rot_cross A u v : is_rot A -> m3vec A (vcross u v) = vcross (m3vec A u) (m3vec A v).
Proof. intros H. rewrite <- cof_cross, <- is_rot_adj, m3tr_tr by assumption; reflexivity. Qed.
Lemma rot_hat A v : is_rot A -> m3mul (m3mul A (hatm v)) (m3tr A) = hatm (m3vec A v).
Proof. intros H. rewrite cof_hat, <- is_rot_adj, m3tr_tr by assumption; reflexivity. Qed.

(** ** 4x4 algebra *)
Lemma m4mul_assoc A B C : m4mul A (m4mul B C) = m4mul (m4mul A B) C. Proof. lin. Qed.
Lemma m4mul_1_l A : m4mul I4 A = A. Proof. lin. Qed.
Lemma m4mul_1_r A : m4mul A I4 = A. Proof. lin. Qed.
Lemma m4vec_mul A B v : m4vec (m4mul A B) v = m4vec A (m4vec B v). Proof. lin. Qed.
Lemma m4tr_tr A : m4tr (m4tr A) = A. Proof. lin. Qed.
Lemma m4tr_mul A B : m4tr (m4mul A B) = m4mul (m4tr B) (m4tr A). Proof. lin. Qed.
Lemma aff_mul M t N u : m4mul (aff M t) (aff N u) = aff (m3mul M N) (vadd (m3vec M u) t).
Proof. lin. Qed.
Lemma rotp_aff M t : rotp (aff M t) = M. Proof. lin. Qed.
Lemma trp_aff M t : trp (aff M t) = t. Proof. lin. Qed.
Lemma affine_aff M t : affine (aff M t). Proof. repeat split. Qed.
Lemma aff_eta A : affine A -> aff (rotp A) (trp A) = A.
Proof. destruct A; unfold affine; simpl; intros (-> & -> & -> & ->); reflexivity. Qed.
Lemma aff_I : aff I3 vzero = I4. Proof. lin. Qed.
Lemma affine_mul A B : affine A -> affine B -> affine (m4mul A B).
Proof.
  intros HA HB. rewrite <- (aff_eta A HA), <- (aff_eta B HB), aff_mul. apply affine_aff.
Qed.
Lemma rotp_mul A B : affine A -> affine B -> rotp (m4mul A B) = m3mul (rotp A) (rotp B).
Proof.
  intros HA HB. rewrite <- (aff_eta A HA), <- (aff_eta B HB), aff_mul, !rotp_aff; reflexivity.
Qed.
Lemma trp_mul A B : affine A -> affine B ->
  trp (m4mul A B) = vadd (m3vec (rotp A) (trp B)) (trp A).
Proof.
  intros HA HB. rewrite <- (aff_eta A HA), <- (aff_eta B HB), aff_mul, !rotp_aff, !trp_aff; reflexivity.
Qed.
Lemma affine_I : affine I4. Proof. repeat split. Qed.
Lemma is_rigid_I : is_rigid I4.
Proof. split; [apply affine_I | apply is_rot_I]. Qed.
Lemma is_rigid_mul A B : is_rigid A -> is_rigid B -> is_rigid (m4mul A B).
Proof.
  intros [HA RA] [HB RB]; split.
  - apply affine_mul; assumption.
  - rewrite rotp_mul by assumption. apply is_rot_mul; assumption.
Qed.
Lemma is_rigid_aff M t : is_rot M -> is_rigid (aff M t).
Proof. intros H; split; [apply affine_aff | rewrite rotp_aff; exact H]. Qed.
(** inverse of a rigid transform *)
Definition rigid_inv (A : M4) : M4 := aff (m3tr (rotp A)) (vopp (m3vec (m3tr (rotp A)) (trp A))).
Lemma rigid_inv_l A : is_rigid A -> m4mul (rigid_inv A) A = I4.
Proof.
  intros [HA RA]. rewrite <- (aff_eta A HA) at 2. unfold rigid_inv. rewrite aff_mul, is_rot_l by assumption.
  rewrite <- aff_I; f_equal. lin.
Qed.
Lemma rigid_inv_r A : is_rigid A -> m4mul A (rigid_inv A) = I4.
Proof.
  intros [HA RA]. rewrite <- (aff_eta A HA) at 1. unfold rigid_inv.
  rewrite aff_mul, (proj1 RA), m3vec_opp, <- m3vec_mul, (proj1 RA), m3vec_1, <- aff_I.
  f_equal. lin.
Qed.
Lemma is_rigid_inv A : is_rigid A -> is_rigid (rigid_inv A).
Proof. intros [HA RA]. apply is_rigid_aff, is_rot_tr, RA. Qed.
