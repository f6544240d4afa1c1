(** Derivatives of poses along a path with respect to one joint. *)
From Coq Require Import Reals Lra String Bool Arith Lia List.
From Coquelicot Require Import Coquelicot.
From Verif Require Import Prelude ExtF Tree ChainModel SpecFK ChainProofs Lin Trig RotModel RotBasic ChainInst.
Import ListNotations.
Local Open Scope R_scope.

(** each of the 16 entries has the corresponding entry of [D] as its derivative *)
Definition is_derive4 (f : R -> M4) (x : R) (D : M4) : Prop :=
  (is_derive (fun t => a00 (f t)) x (a00 D) /\ is_derive (fun t => a01 (f t)) x (a01 D) /\
   is_derive (fun t => a02 (f t)) x (a02 D) /\ is_derive (fun t => a03 (f t)) x (a03 D)) /\
  (is_derive (fun t => a10 (f t)) x (a10 D) /\ is_derive (fun t => a11 (f t)) x (a11 D) /\
   is_derive (fun t => a12 (f t)) x (a12 D) /\ is_derive (fun t => a13 (f t)) x (a13 D)) /\
  (is_derive (fun t => a20 (f t)) x (a20 D) /\ is_derive (fun t => a21 (f t)) x (a21 D) /\
   is_derive (fun t => a22 (f t)) x (a22 D) /\ is_derive (fun t => a23 (f t)) x (a23 D)) /\
  (is_derive (fun t => a30 (f t)) x (a30 D) /\ is_derive (fun t => a31 (f t)) x (a31 D) /\
   is_derive (fun t => a32 (f t)) x (a32 D) /\ is_derive (fun t => a33 (f t)) x (a33 D)).
(** the matrix [M t; 0 0] *)
Definition lin4 (M : M3) (t : V3) : M4 :=
  mkM4 (m00 M) (m01 M) (m02 M) (vx t) (m10 M) (m11 M) (m12 M) (vy t) (m20 M) (m21 M) (m22 M) (vz t) 0 0 0 0.

Lemma is_derive_eq (f : R -> R) x d d' : is_derive f x d -> d = d' -> is_derive f x d'.
Proof. intros H <-. exact H. Qed.
Lemma derive_comb f1 f2 f3 f4 x d1 d2 d3 d4 a b c d :
  is_derive f1 x d1 -> is_derive f2 x d2 -> is_derive f3 x d3 -> is_derive f4 x d4 ->
  is_derive (fun t => a * f1 t + b * f2 t + c * f3 t + d * f4 t) x (a * d1 + b * d2 + c * d3 + d * d4).
Proof.
  intros H1 H2 H3 H4. repeat apply @is_derive_plus; apply is_derive_scal; assumption.
Qed.
Lemma derive_comb_r f1 f2 f3 f4 x d1 d2 d3 d4 a b c d :
  is_derive f1 x d1 -> is_derive f2 x d2 -> is_derive f3 x d3 -> is_derive f4 x d4 ->
  is_derive (fun t => f1 t * a + f2 t * b + f3 t * c + f4 t * d) x (d1 * a + d2 * b + d3 * c + d4 * d).
Proof.
  intros H1 H2 H3 H4. apply (is_derive_ext (fun t => a * f1 t + b * f2 t + c * f3 t + d * f4 t)); [intros t; simpl; ring|].
  replace (d1 * a + d2 * b + d3 * c + d4 * d) with (a * d1 + b * d2 + c * d3 + d * d4) by ring. apply derive_comb; assumption.
Qed.
Ltac split16 := unfold is_derive4; refine (conj (conj _ (conj _ (conj _ _))) (conj (conj _ (conj _ (conj _ _))) (conj (conj _ (conj _ (conj _ _))) (conj _ (conj _ (conj _ _)))))).
Ltac comb_l := match goal with |- is_derive (fun t => ?a * (@?f1 t) + ?b * (@?f2 t) + ?c * (@?f3 t) + ?d * (@?f4 t)) ?x (?a * ?d1 + ?b * ?d2 + ?c * ?d3 + ?d * ?d4) =>
  apply (derive_comb f1 f2 f3 f4 x d1 d2 d3 d4 a b c d) end; assumption.
Ltac comb_r := match goal with |- is_derive (fun t => (@?f1 t) * ?a + (@?f2 t) * ?b + (@?f3 t) * ?c + (@?f4 t) * ?d) ?x (?d1 * ?a + ?d2 * ?b + ?d3 * ?c + ?d4 * ?d) =>
  apply (derive_comb_r f1 f2 f3 f4 x d1 d2 d3 d4 a b c d) end; assumption.
Lemma is_derive4_mul_l A f x D : is_derive4 f x D -> is_derive4 (fun t => m4mul A (f t)) x (m4mul A D).
Proof.
  intros ((H00 & H01 & H02 & H03) & (H10 & H11 & H12 & H13) & (H20 & H21 & H22 & H23) & (H30 & H31 & H32 & H33)).
  unfold is_derive4, m4mul. cbn [a00 a01 a02 a03 a10 a11 a12 a13 a20 a21 a22 a23 a30 a31 a32 a33].
  split16; comb_l.
Qed.
Lemma is_derive4_mul_r A f x D : is_derive4 f x D -> is_derive4 (fun t => m4mul (f t) A) x (m4mul D A).
Proof.
  intros ((H00 & H01 & H02 & H03) & (H10 & H11 & H12 & H13) & (H20 & H21 & H22 & H23) & (H30 & H31 & H32 & H33)).
  unfold is_derive4, m4mul. cbn [a00 a01 a02 a03 a10 a11 a12 a13 a20 a21 a22 a23 a30 a31 a32 a33].
  split16; comb_r.
Qed.
Lemma is_derive4_ext f g x D : (forall t, f t = g t) -> is_derive4 f x D -> is_derive4 g x D.
Proof.
  intros E ((H00 & H01 & H02 & H03) & (H10 & H11 & H12 & H13) & (H20 & H21 & H22 & H23) & (H30 & H31 & H32 & H33)).
  split16; (eapply is_derive_ext; [intros t; rewrite <- E; reflexivity | assumption]).
Qed.
Lemma is_derive4_const A x : is_derive4 (fun _ => A) x (lin4 Z3 vzero).
Proof. split16; apply @is_derive_const. Qed.

Lemma derive_pris k x : is_derive4 (axis_and_d_to_pris_matrix k) x (lin4 Z3 k).
Proof.
  unfold is_derive4, axis_and_d_to_pris_matrix, lin4, Z3. cbn [a00 a01 a02 a03 a10 a11 a12 a13 a20 a21 a22 a23 a30 a31 a32 a33 m00 m01 m02 m10 m11 m12 m20 m21 m22].
  split16; try apply @is_derive_const; (auto_derive; [exact I | ring]).
Qed.
Lemma derive_rot k x : unit3 k -> is_derive4 (axis_and_angle_to_matrix_44 k) x (lin4 (m3mul (hatm k) (axis_and_angle_to_matrix_33 k x)) vzero).
Proof.
  intros U. assert (K : vx k * vx k = 1 - vy k * vy k - vz k * vz k) by (apply unit_sqr, U).
  unfold is_derive4, axis_and_angle_to_matrix_44, axis_and_angle_to_matrix_33, lin4, m3mul, hatm, vzero.
  cbn [a00 a01 a02 a03 a10 a11 a12 a13 a20 a21 a22 a23 a30 a31 a32 a33 m00 m01 m02 m10 m11 m12 m20 m21 m22 vx vy vz].
  revert K. generalize (vx k) (vy k) (vz k). clear. intros a b c K.
  split16; try apply @is_derive_const; (auto_derive; [exact I|]); generalize (cos x) (sin x); intros C S; ring [K].
Qed.

(** ** one joint of a path *)
Definition upd (v : config (S := R)) (n : option string) (x : R) : config (S := R) := fun m => if oseqb m n then x else v m.
Lemma upd_same v n x : upd v n x n = x.
Proof. unfold upd. rewrite (proj2 (oseqb_eq n n) eq_refl). reflexivity. Qed.
Lemma upd_other v n x m : m <> n -> upd v n x m = v m.
Proof. intros H. unfold upd. destruct (oseqb m n) eqn:E; [apply oseqb_eq in E; contradiction | reflexivity]. Qed.

(** geometric derivative of the pose [T] of a frame below the joint: [z] the joint axis and [o] the joint origin in the world *)
Definition geo (ty : jtype) (z o : V3) (T : M4) : M4 :=
  match ty with
  | Fixed => lin4 Z3 vzero
  | Revolute => lin4 (m3mul (hatm z) (rotp T)) (vcross z (vsub (trp T) o))
  | Prismatic => lin4 Z3 z
  end.

Definition rigid_frame (f : mframe) : Prop :=
  rigid_opt (l_off (f_link f)) /\ rigid_opt (j_off (f_joint f)) /\ (moving f = true -> unit3 (j_axis (f_joint f))).
Lemma rigid_frames_pose v fs : (forall f, In f fs -> rigid_frame f) -> is_rigid (pose v fs).
Proof.
  induction fs as [|f fs IH]; intros H; [apply is_rigid_I|]. rewrite pose_cons. apply is_rigid_mul.
  - destruct (H f (or_introl eq_refl)) as (H1 & H2 & H3). apply rel_rigid; assumption.
  - apply IH. intros g Hg. apply H. right; exact Hg.
Qed.

Lemma aff_lin4 M t N u : m4mul (aff M t) (lin4 N u) = lin4 (m3mul M N) (m3vec M u).
Proof. lin_destr. unfold lin4. lin_simpl. apply mkM4_eq; ring. Qed.
Lemma lin4_aff M t N u : m4mul (lin4 M t) (aff N u) = lin4 (m3mul M N) (vadd (m3vec M u) t).
Proof. lin_destr. unfold lin4. lin_simpl. apply mkM4_eq; ring. Qed.

Lemma joint_deriv v (g : mframe) (A Q : M4) : is_rigid A -> is_rigid Q -> moving g = true -> unit3 (j_axis (f_joint g)) ->
  let W := m4mul A (joint_motion mops v (f_joint g)) in
  is_derive4 (fun x => m4mul (m4mul A (joint_motion mops (upd v (j_name (f_joint g)) x) (f_joint g))) Q) (v (j_name (f_joint g)))
    (geo (j_type (f_joint g)) (m3vec (rotp W) (j_axis (f_joint g))) (trp W) (m4mul W Q)).
Proof.
  intros RA RQ Hm U W. set (k := j_axis (f_joint g)) in *. set (q := v (j_name (f_joint g))).
  destruct RA as [AA RA]. destruct RQ as [AQ RQ].
  assert (HW : W = match j_type (f_joint g) with Fixed => A | Revolute => m4mul A (axis_and_angle_to_matrix_44 k q) | Prismatic => m4mul A (axis_and_d_to_pris_matrix k q) end).
  { unfold W, joint_motion, k, q. destruct (j_type (f_joint g)); [apply m4mul_1_r | reflexivity | reflexivity]. }
  revert HW. unfold moving, joint_motion in *. destruct (j_type (f_joint g)) eqn:Ety; [discriminate| |]; intros HW.
  - eapply is_derive4_ext; [intros t; rewrite upd_same; reflexivity|].
    cbn [t_rev mops]. fold k.
    assert (D := is_derive4_mul_r Q _ q _ (is_derive4_mul_l A _ q _ (derive_rot k q U))).
    replace (geo Revolute (m3vec (rotp W) k) (trp W) (m4mul W Q)) with (m4mul (m4mul A (lin4 (m3mul (hatm k) (axis_and_angle_to_matrix_33 k q)) vzero)) Q); [exact D|].
    rewrite HW, rot44_aff. rewrite <- (aff_eta A AA), <- (aff_eta Q AQ). rewrite !aff_mul, aff_lin4, lin4_aff. cbn [geo]. rewrite !rotp_aff, !trp_aff.
    set (RR := rotp A) in *. set (r := axis_and_angle_to_matrix_33 k q).
    assert (Z : m3vec (m3mul RR r) k = m3vec RR k) by (rewrite m3vec_mul; unfold r; rewrite rot33_axis by exact U; reflexivity).
    assert (H : m3mul RR (hatm k) = m3mul (hatm (m3vec RR k)) RR).
    { rewrite <- (rot_hat RR k RA), <- !m3mul_assoc, (is_rot_l RR RA), m3mul_1_r. reflexivity. }
    rewrite Z, m3mul_assoc, H, m3vec_0, vadd_0_r, !m3mul_assoc.
    rewrite <- (m3mul_assoc (hatm (m3vec RR k)) RR r), <- (m3mul_assoc (hatm (m3vec RR k))).
    f_equal. rewrite m3vec_mul, hatm_vec. f_equal. generalize (m3vec (m3mul RR r) (trp Q)) (trp A). clear. intros; lin.
  - eapply is_derive4_ext; [intros t; rewrite upd_same; reflexivity|].
    cbn [t_pris mops]. fold k.
    assert (D := is_derive4_mul_r Q _ q _ (is_derive4_mul_l A _ q _ (derive_pris k q))).
    replace (geo Prismatic (m3vec (rotp W) k) (trp W) (m4mul W Q)) with (m4mul (m4mul A (lin4 Z3 k)) Q); [exact D|].
    rewrite HW, pris_aff. rewrite <- (aff_eta A AA), <- (aff_eta Q AQ). rewrite !aff_mul, aff_lin4, lin4_aff. cbn [geo]. rewrite !rotp_aff, m3mul_1_r.
    assert (Z1 : forall M, m3mul M Z3 = Z3) by (intros; lin). assert (Z2 : forall M, m3mul Z3 M = Z3) by (intros; lin).
    assert (Z3' : forall u, m3vec Z3 u = vzero) by (intros; lin). rewrite Z1, Z2, Z3', vadd_0_l. reflexivity.
Qed.

Theorem path_deriv v p (g : mframe) s : (forall f, In f (p ++ g :: s) -> rigid_frame f) -> moving g = true ->
  (forall f, In f (p ++ s) -> moving f = true -> j_name (f_joint f) <> j_name (f_joint g)) ->
  let W := pose v (p ++ [g]) in
  is_derive4 (fun x => pose (upd v (j_name (f_joint g)) x) (p ++ g :: s)) (v (j_name (f_joint g)))
    (geo (j_type (f_joint g)) (m3vec (rotp W) (j_axis (f_joint g))) (trp W) (pose v (p ++ g :: s))).
Proof.
  intros Hr Hm Hn W. set (n := j_name (f_joint g)).
  set (A := m4mul (pose v p) (m4mul (or_one mops (l_off (f_link g))) (or_one mops (j_off (f_joint g))))).
  set (Q := pose v s).
  destruct (Hr g) as (R1 & R2 & R3); [apply in_or_app; right; left; reflexivity|].
  assert (RA : is_rigid A).
  { unfold A. apply is_rigid_mul; [apply rigid_frames_pose; intros f Hf; apply Hr, in_or_app; auto|]. apply is_rigid_mul; apply or_one_rigid; assumption. }
  assert (RQ : is_rigid Q) by (apply rigid_frames_pose; intros f Hf; apply Hr, in_or_app; right; right; exact Hf).
  assert (EW : forall w, pose w p = pose v p -> pose w (p ++ [g]) = m4mul A (joint_motion mops w (f_joint g))).
  { intros w E. rewrite pose_app, pose_cons, pose_nil, m4mul_1_r, E. unfold A, rel_pose. cbn [t_mul mops]. rewrite !m4mul_assoc. reflexivity. }
  assert (E : forall x, pose (upd v n x) (p ++ g :: s) = m4mul (m4mul A (joint_motion mops (upd v n x) (f_joint g))) Q).
  { intros x. change (p ++ g :: s) with (p ++ [g] ++ s). rewrite app_assoc, pose_app, EW.
    - f_equal. apply pose_ext. intros f Hf Hmf. apply upd_other, Hn; [apply in_or_app; auto | exact Hmf].
    - apply pose_ext. intros f Hf Hmf. apply upd_other, Hn; [apply in_or_app; auto | exact Hmf]. }
  eapply is_derive4_ext; [intros t; symmetry; apply E|].
  replace (pose v (p ++ g :: s)) with (m4mul W Q).
  2: { change (p ++ g :: s) with (p ++ [g] ++ s). rewrite app_assoc, (pose_app v (p ++ [g])). reflexivity. }
  unfold W. rewrite (EW v eq_refl). apply (joint_deriv v g A Q RA RQ Hm (R3 Hm)).
Qed.

(** a joint that is not on the path *)
Lemma path_deriv_other v n fs : (forall f, In f fs -> moving f = true -> j_name (f_joint f) <> n) ->
  is_derive4 (fun x => pose (upd v n x) fs) (v n) (lin4 Z3 vzero).
Proof.
  intros H. eapply is_derive4_ext; [|apply (is_derive4_const (pose v fs))]. intros t. symmetry. apply pose_ext.
  intros f Hf Hm. apply upd_other, H; assumption.
Qed.
