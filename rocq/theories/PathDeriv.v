(** Derivative of a pose along a path when all joints move at once. *)
From Coq Require Import Reals Lra String Bool Arith Lia List.
From Coquelicot Require Import Coquelicot.
From Verif Require Import Prelude ExtF Tree ChainModel SpecFK ChainProofs Lin Trig RotModel RotBasic ChainInst Deriv JacModel JacProofs.
Import ListNotations.
Local Open Scope R_scope.

Definition m4add (A B : M4) : M4 :=
  mkM4 (a00 A + a00 B) (a01 A + a01 B) (a02 A + a02 B) (a03 A + a03 B) (a10 A + a10 B) (a11 A + a11 B) (a12 A + a12 B) (a13 A + a13 B)
       (a20 A + a20 B) (a21 A + a21 B) (a22 A + a22 B) (a23 A + a23 B) (a30 A + a30 B) (a31 A + a31 B) (a32 A + a32 B) (a33 A + a33 B).
Lemma derive_mul_eq f g x d e a b : f x = a -> g x = b -> is_derive f x d -> is_derive g x e -> is_derive (fun t => f t * g t) x (d * b + a * e).
Proof. intros Ea Eb H1 H2. eapply is_derive_eq; [apply (is_derive_mult f g x d e H1 H2 Rmult_comm)|]. rewrite Ea, Eb. reflexivity. Qed.
Lemma derive_dot4 f1 f2 f3 f4 g1 g2 g3 g4 x d1 d2 d3 d4 e1 e2 e3 e4 a1 a2 a3 a4 b1 b2 b3 b4 :
  f1 x = a1 -> f2 x = a2 -> f3 x = a3 -> f4 x = a4 -> g1 x = b1 -> g2 x = b2 -> g3 x = b3 -> g4 x = b4 ->
  is_derive f1 x d1 -> is_derive f2 x d2 -> is_derive f3 x d3 -> is_derive f4 x d4 -> is_derive g1 x e1 -> is_derive g2 x e2 -> is_derive g3 x e3 -> is_derive g4 x e4 ->
  is_derive (fun t => f1 t * g1 t + f2 t * g2 t + f3 t * g3 t + f4 t * g4 t) x
    (d1 * b1 + d2 * b2 + d3 * b3 + d4 * b4 + (a1 * e1 + a2 * e2 + a3 * e3 + a4 * e4)).
Proof.
  intros A1 A2 A3 A4 B1 B2 B3 B4 F1 F2 F3 F4 G1 G2 G3 G4.
  pose proof (derive_mul_eq f1 g1 x d1 e1 a1 b1 A1 B1 F1 G1) as P1. pose proof (derive_mul_eq f2 g2 x d2 e2 a2 b2 A2 B2 F2 G2) as P2.
  pose proof (derive_mul_eq f3 g3 x d3 e3 a3 b3 A3 B3 F3 G3) as P3. pose proof (derive_mul_eq f4 g4 x d4 e4 a4 b4 A4 B4 F4 G4) as P4.
  pose proof (is_derive_plus _ _ _ _ _ (is_derive_plus _ _ _ _ _ (is_derive_plus _ _ _ _ _ P1 P2) P3) P4) as P.
  eapply is_derive_eq; [exact P|]. unfold plus; simpl. ring.
Qed.
Lemma is_derive4_mul f g x D E A B : f x = A -> g x = B -> is_derive4 f x D -> is_derive4 g x E ->
  is_derive4 (fun t => m4mul (f t) (g t)) x (m4add (m4mul D B) (m4mul A E)).
Proof.
  intros EA EB ((H00 & H01 & H02 & H03) & (H10 & H11 & H12 & H13) & (H20 & H21 & H22 & H23) & (H30 & H31 & H32 & H33))
    ((G00 & G01 & G02 & G03) & (G10 & G11 & G12 & G13) & (G20 & G21 & G22 & G23) & (G30 & G31 & G32 & G33)).
  unfold is_derive4, m4mul, m4add. cbn [a00 a01 a02 a03 a10 a11 a12 a13 a20 a21 a22 a23 a30 a31 a32 a33].
  split16; (match goal with |- is_derive (fun t => (@?f1 t) * (@?g1 t) + (@?f2 t) * (@?g2 t) + (@?f3 t) * (@?g3 t) + (@?f4 t) * (@?g4 t)) _ _ =>
    apply (derive_dot4 f1 f2 f3 f4 g1 g2 g3 g4) end); try assumption; (rewrite EA || rewrite EB); reflexivity.
Qed.
Lemma derive_affine_arg (f : R -> R) (q c d : R) : is_derive f q d -> is_derive (fun t => f (q + t * c)) 0 (c * d).
Proof.
  intros H. assert (E0 : q = q + 0 * c) by ring. apply (is_derive_comp f (fun t => q + t * c) 0 d c).
  - exact (eq_ind q (fun y => is_derive f y d) H _ E0).
  - auto_derive; first [exact I | ring].
Qed.
Definition m4scale (c : R) (A : M4) : M4 :=
  mkM4 (c * a00 A) (c * a01 A) (c * a02 A) (c * a03 A) (c * a10 A) (c * a11 A) (c * a12 A) (c * a13 A)
       (c * a20 A) (c * a21 A) (c * a22 A) (c * a23 A) (c * a30 A) (c * a31 A) (c * a32 A) (c * a33 A).
Lemma is_derive4_affine_arg f (q c : R) D : is_derive4 f q D -> is_derive4 (fun t => f (q + t * c)) 0 (m4scale c D).
Proof.
  intros ((H00 & H01 & H02 & H03) & (H10 & H11 & H12 & H13) & (H20 & H21 & H22 & H23) & (H30 & H31 & H32 & H33)).
  unfold is_derive4, m4scale. cbn [a00 a01 a02 a03 a10 a11 a12 a13 a20 a21 a22 a23 a30 a31 a32 a33].
  split16; (match goal with |- is_derive (fun t => ?h (f (q + t * c))) _ _ => apply (derive_affine_arg (fun y => h (f y))) end); assumption.
Qed.

(** the configuration after time [t] at the joint speeds [d] *)
Definition drive (v d : config (S := R)) (t : R) : config (S := R) := fun n => v n + t * d n.
Lemma drive_0 v d n : drive v d 0 n = v n. Proof. unfold drive. ring. Qed.

(** velocity of the origin and angular velocity of the end of the path *)
Fixpoint twist (v d : config (S := R)) (fs : list mframe) : V3 * V3 :=
  match fs with
  | [] => (vzero, vzero)
  | f :: s =>
      let M := rotp (rel_pose mops v f) in let z := m3vec M (j_axis (f_joint f)) in let c := d (j_name (f_joint f)) in
      let u := m3vec M (fst (twist v d s)) in let w := m3vec M (snd (twist v d s)) in
      match j_type (f_joint f) with
      | Fixed => (u, w)
      | Revolute => (vadd (vscale c (vcross z (m3vec M (trp (pose v s))))) u, vadd (vscale c z) w)
      | Prismatic => (vadd (vscale c z) u, w)
      end
  end.

Lemma rel_rigid v f : rigid_frame f -> is_rigid (rel_pose mops v f).
Proof. intros H. replace (rel_pose mops v f) with (pose v [f]) by (rewrite pose_cons, pose_nil; apply m4mul_1_r). apply rigid_frames_pose. intros g [<-|[]]. exact H. Qed.

Lemma rel_deriv v d f : rigid_frame f ->
  let M := rotp (rel_pose mops v f) in let z := m3vec M (j_axis (f_joint f)) in let c := d (j_name (f_joint f)) in
  is_derive4 (fun t => rel_pose mops (drive v d t) f) 0
    match j_type (f_joint f) with Fixed => lin4 Z3 vzero | Revolute => lin4 (m3mul (hatm (vscale c z)) M) vzero | Prismatic => lin4 Z3 (vscale c z) end.
Proof.
  intros (R1 & R2 & R3) M z c. set (Q := m4mul (or_one mops (l_off (f_link f))) (or_one mops (j_off (f_joint f)))).
  assert (RQ : is_rigid Q) by (unfold Q; apply is_rigid_mul; apply or_one_rigid; assumption).
  set (k := j_axis (f_joint f)) in *. set (q := v (j_name (f_joint f))).
  assert (E : forall w, rel_pose mops w f = m4mul Q (joint_motion mops w (f_joint f))) by (intros w; unfold rel_pose, Q; cbn [t_mul mops]; reflexivity).
  assert (EM : M = rotp (m4mul Q (joint_motion mops v (f_joint f)))) by (unfold M; rewrite E; reflexivity).
  eapply is_derive4_ext; [intros t; symmetry; apply E|].
  destruct RQ as [AQ RQ]. unfold joint_motion in *. unfold moving in R3. fold k in R3, z. clearbody M.
  destruct (j_type (f_joint f)) eqn:Ety; cbn [jtype_eqb negb] in R3.
  - apply is_derive4_const.
  - pose proof (R3 eq_refl) as U. cbn [t_rev mops]. fold k. fold k in EM. fold q in EM. cbn [t_rev mops] in EM.
    assert (D := is_derive4_mul_l Q _ 0 _ (is_derive4_affine_arg _ q c _ (derive_rot k q U))).
    match type of D with is_derive4 _ _ ?X => match goal with |- is_derive4 _ _ ?Y => assert (EQ : X = Y) end end;
      [|rewrite EQ in D; eapply is_derive4_ext; [|exact D]; intros t; unfold drive; reflexivity].
    + rewrite <- (aff_eta Q AQ). set (A := rotp Q) in *. set (r := axis_and_angle_to_matrix_33 k q) in *.
      assert (EM' : M = m3mul A r) by (rewrite EM, rot44_aff, <- (aff_eta Q AQ), aff_mul, rotp_aff; reflexivity).
      assert (Ez : z = m3vec A k) by (unfold z; rewrite EM', m3vec_mul; unfold r; rewrite rot33_axis by exact U; reflexivity).
      assert (H : m3mul A (hatm k) = m3mul (hatm z) A).
      { rewrite Ez, <- (rot_hat A k RQ), <- !m3mul_assoc, (is_rot_l A RQ), m3mul_1_r. reflexivity. }
      assert (H2 : m3mul A (m3mul (hatm k) r) = m3mul (hatm z) M) by (rewrite m3mul_assoc, H, EM', m3mul_assoc; reflexivity).
      assert (ES : m4scale c (lin4 (m3mul (hatm k) r) vzero) = lin4 (m3scale c (m3mul (hatm k) r)) vzero).
      { generalize (m3mul (hatm k) r). intros B. unfold m4scale, lin4, m3scale, vzero. cbn [a00 a01 a02 a03 a10 a11 a12 a13 a20 a21 a22 a23 a30 a31 a32 a33 m00 m01 m02 m10 m11 m12 m20 m21 m22 vx vy vz]. apply mkM4_eq; ring. }
      rewrite ES, aff_lin4. f_equal.
      * assert (EB : forall B, m3mul A (m3scale c B) = m3scale c (m3mul A B)) by (intros B; generalize A; intros A0; unfold m3mul, m3scale; cbn [m00 m01 m02 m10 m11 m12 m20 m21 m22]; apply mkM3_eq; ring).
        rewrite EB, H2. generalize z M. clear. intros z M. unfold m3mul, m3scale, hatm, vscale. cbn [m00 m01 m02 m10 m11 m12 m20 m21 m22 vx vy vz]. apply mkM3_eq; ring.
      * apply m3vec_0.
  - cbn [t_pris mops]. fold k. fold k q in EM. cbn [t_pris mops] in EM.
    assert (D := is_derive4_mul_l Q _ 0 _ (is_derive4_affine_arg _ q c _ (derive_pris k q))).
    match type of D with is_derive4 _ _ ?X => match goal with |- is_derive4 _ _ ?Y => assert (EQ : X = Y) end end;
      [|rewrite EQ in D; eapply is_derive4_ext; [|exact D]; intros t; unfold drive; reflexivity].
    + rewrite <- (aff_eta Q AQ). set (A := rotp Q) in *.
      assert (EM' : M = A) by (rewrite EM, pris_aff, <- (aff_eta Q AQ), aff_mul, rotp_aff, m3mul_1_r; reflexivity).
      assert (ES : m4scale c (lin4 Z3 k) = lin4 Z3 (vscale c k)).
      { generalize k. intros k0. unfold m4scale, lin4, Z3, vscale. cbn [a00 a01 a02 a03 a10 a11 a12 a13 a20 a21 a22 a23 a30 a31 a32 a33 m00 m01 m02 m10 m11 m12 m20 m21 m22 vx vy vz]. apply mkM4_eq; ring. }
      rewrite ES, aff_lin4. unfold z. rewrite EM'. f_equal.
      * generalize A. intros A0. unfold m3mul, Z3. cbn [m00 m01 m02 m10 m11 m12 m20 m21 m22]. apply mkM3_eq; ring.
      * generalize A k. intros A0 k0. unfold m3vec, vscale. cbn [vx vy vz]. apply mkV3_eq; ring.
Qed.

Lemma m4add_lin4 M u N w : m4add (lin4 M u) (lin4 N w) = lin4 (m3add M N) (vadd u w).
Proof. unfold m4add, lin4, m3add, vadd. cbn [a00 a01 a02 a03 a10 a11 a12 a13 a20 a21 a22 a23 a30 a31 a32 a33 m00 m01 m02 m10 m11 m12 m20 m21 m22 vx vy vz]. apply mkM4_eq; ring. Qed.
Lemma hatm_add_mul u w A : m3add (m3mul (hatm u) A) (m3mul (hatm w) A) = m3mul (hatm (vadd u w)) A.
Proof. unfold m3add, m3mul, hatm, vadd. cbn [m00 m01 m02 m10 m11 m12 m20 m21 m22 vx vy vz]. apply mkM3_eq; ring. Qed.
Lemma Z3_mul A : m3mul Z3 A = Z3.
Proof. unfold m3mul, Z3. cbn [m00 m01 m02 m10 m11 m12 m20 m21 m22]. apply mkM3_eq; ring. Qed.
Lemma Z3_add A : m3add Z3 A = A.
Proof. lin. Qed.
Lemma Z3_vec x : m3vec Z3 x = vzero.
Proof. unfold m3vec, Z3, vzero. cbn [m00 m01 m02 m10 m11 m12 m20 m21 m22]. apply mkV3_eq; ring. Qed.
Lemma vcross_scale c u w : vcross (vscale c u) w = vscale c (vcross u w).
Proof. unfold vcross, vscale. cbn [vx vy vz]. apply mkV3_eq; ring. Qed.
Lemma vadd_z_l u : vadd vzero u = u. Proof. lin. Qed.
Lemma vadd_z_r u : vadd u vzero = u. Proof. lin. Qed.

(** the path moves with the twist *)
Lemma pose_drive v d fs : (forall f, In f fs -> rigid_frame f) ->
  is_derive4 (fun t => pose (drive v d t) fs) 0 (lin4 (m3mul (hatm (snd (twist v d fs))) (rotp (pose v fs))) (fst (twist v d fs))).
Proof.
  induction fs as [|f s IH]; intros Hr.
  - cbn [twist fst snd]. assert (E : lin4 (m3mul (hatm vzero) (rotp (pose v []))) vzero = lin4 Z3 vzero).
    { f_equal. generalize (rotp (pose v [])). intros A. unfold m3mul, hatm, vzero, Z3. cbn [m00 m01 m02 m10 m11 m12 m20 m21 m22 vx vy vz]. apply mkM3_eq; ring. }
    rewrite E. apply (is_derive4_const (pose v [])).
  - assert (Hs : forall g, In g s -> rigid_frame g) by (intros g Hg; apply Hr; right; exact Hg). specialize (IH Hs).
    assert (Hf := Hr f (or_introl eq_refl)). pose proof (rel_rigid v f Hf) as RM. pose proof (rigid_frames_pose v s Hs) as RF.
    pose proof (rel_deriv v d f Hf) as DM. cbn zeta in DM.
    assert (E0 : forall g, rel_pose mops (drive v d 0) g = rel_pose mops v g).
    { intros g. unfold rel_pose, joint_motion. rewrite !drive_0. reflexivity. }
    assert (EF : pose (drive v d 0) s = pose v s).
    { apply pose_ext. intros g _ _. apply drive_0. }
    pose proof (is_derive4_mul _ _ 0 _ _ _ _ (E0 f) EF DM IH) as DD.
    eapply is_derive4_ext; [intros t; symmetry; apply pose_cons|].
    match type of DD with is_derive4 _ _ ?X => match goal with |- is_derive4 _ _ ?Y => assert (EQ : X = Y) end end; [|rewrite EQ in DD; exact DD].
    clear DD DM IH E0 EF. rewrite pose_cons. destruct RM as [AM RM]. destruct RF as [AF RF].
    rewrite (rotp_mul _ _ AM AF). cbn [twist]. set (M := rel_pose mops v f) in *. set (F := pose v s) in *.
    set (u := fst (twist v d s)) in *. set (w := snd (twist v d s)) in *. set (c := d (j_name (f_joint f))). set (k := j_axis (f_joint f)).
    assert (EB : m4mul M (lin4 (m3mul (hatm w) (rotp F)) u) = lin4 (m3mul (hatm (m3vec (rotp M) w)) (m3mul (rotp M) (rotp F))) (m3vec (rotp M) u)).
    { rewrite <- (aff_eta M AM) at 1. rewrite aff_lin4. f_equal.
      rewrite <- (rot_hat (rotp M) w RM). rewrite <- !m3mul_assoc. f_equal. f_equal.
      rewrite (m3mul_assoc (m3tr (rotp M))), (is_rot_l _ RM), m3mul_1_l. reflexivity. }
    rewrite EB. clear EB.
    assert (EA : forall N x, m4mul (lin4 N x) F = lin4 (m3mul N (rotp F)) (vadd (m3vec N (trp F)) x)).
    { intros N x. rewrite <- (aff_eta F AF) at 1. apply lin4_aff. }
    destruct (j_type (f_joint f)); cbn [fst snd]; rewrite EA, m4add_lin4; f_equal.
    all: rewrite ?Z3_mul, ?Z3_add, ?Z3_vec, ?vadd_z_l; try reflexivity.
    + rewrite <- m3mul_assoc. apply hatm_add_mul.
    + rewrite vadd_z_r, m3vec_mul, hatm_vec, vcross_scale. reflexivity.
Qed.

(** the twist is the combination of the Jacobian columns *)
Definition col_sum (v d : config (S := R)) (T : M4) (L : list (list mframe * mframe)) : V3 * V3 :=
  fold_right (fun pg acc => (vadd (vscale (d (j_name (f_joint (snd pg)))) (fst (col_of v T pg))) (fst acc),
                             vadd (vscale (d (j_name (f_joint (snd pg)))) (snd (col_of v T pg))) (snd acc))) (vzero, vzero) L.
Lemma vscale_z c : vscale c vzero = vzero. Proof. unfold vscale, vzero. cbn [vx vy vz]. apply mkV3_eq; ring. Qed.
Lemma trp_diff A B : affine A -> affine B -> vsub (trp (m4mul A B)) (trp A) = m3vec (rotp A) (trp B).
Proof.
  intros HA HB. rewrite (trp_mul A B HA HB). generalize (m3vec (rotp A) (trp B)) (trp A). intros x y. lin.
Qed.
Lemma twist_cols v d fs : forall p, (forall f, In f (p ++ fs) -> rigid_frame f) ->
  col_sum v d (pose v (p ++ fs)) (mov p fs) = (m3vec (rotp (pose v p)) (fst (twist v d fs)), m3vec (rotp (pose v p)) (snd (twist v d fs))).
Proof.
  induction fs as [|g s IH]; intros p Hr.
  - cbn [mov col_sum fold_right twist fst snd]. rewrite m3vec_0. reflexivity.
  - assert (EP : (p ++ [g]) ++ s = p ++ g :: s) by (rewrite <- app_assoc; reflexivity).
    assert (Hr' : forall f, In f ((p ++ [g]) ++ s) -> rigid_frame f) by (rewrite EP; exact Hr). specialize (IH (p ++ [g]) Hr'). rewrite EP in IH.
    assert (RP : is_rigid (pose v p)) by (apply rigid_frames_pose; intros f Hf; apply Hr; apply in_or_app; left; exact Hf).
    assert (RS : is_rigid (pose v s)) by (apply rigid_frames_pose; intros f Hf; apply Hr; apply in_or_app; right; right; exact Hf).
    assert (RM : is_rigid (rel_pose mops v g)) by (apply rel_rigid; apply Hr; apply in_or_app; right; left; reflexivity).
    assert (EW : pose v (p ++ [g]) = m4mul (pose v p) (rel_pose mops v g)).
    { rewrite pose_app. f_equal. rewrite pose_cons, pose_nil. apply m4mul_1_r. }
    assert (RW := is_rigid_mul _ _ RP RM). rewrite <- EW in RW.
    assert (ER : rotp (pose v (p ++ [g])) = m3mul (rotp (pose v p)) (rotp (rel_pose mops v g))) by (rewrite EW; apply rotp_mul; [apply RP | apply RM]).
    assert (ET : vsub (trp (pose v (p ++ g :: s))) (trp (pose v (p ++ [g]))) = m3vec (rotp (pose v (p ++ [g]))) (trp (pose v s))).
    { rewrite <- EP, pose_app. apply trp_diff; [apply RW | apply RS]. }
    assert (RR : is_rot (rotp (rel_pose mops v g))) by apply RM. assert (RPr : is_rot (rotp (pose v p))) by apply RP.
    rewrite ER, !m3vec_mul in IH. rewrite ER in ET.
    cbn [mov twist]. unfold moving. destruct (j_type (f_joint g)) eqn:Ety; cbn [jtype_eqb negb fst snd].
    + exact IH.
    + unfold col_sum. cbn [fold_right fst snd]. fold (col_sum v d (pose v (p ++ g :: s)) (mov (p ++ [g]) s)). rewrite IH. cbn [fst snd].
      unfold col_of. cbn [fst snd]. rewrite Ety. cbn [jtype_eqb fst snd]. rewrite ET, ER, !m3vec_add, !m3vec_scale, (rot_cross _ _ _ RPr), !m3vec_mul. reflexivity.
    + unfold col_sum. cbn [fold_right fst snd]. fold (col_sum v d (pose v (p ++ g :: s)) (mov (p ++ [g]) s)). rewrite IH. cbn [fst snd].
      unfold col_of. cbn [fst snd]. rewrite Ety. cbn [jtype_eqb fst snd]. rewrite ER, !m3vec_add, !m3vec_scale, !m3vec_mul, vscale_z, vadd_z_l. reflexivity.
Qed.
