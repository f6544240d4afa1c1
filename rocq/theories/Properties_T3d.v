(** C29 - C32, C59: Transform3d. *)
From Coq Require Import Reals Lra Psatz Bool Arith ZArith Lia String Ascii List.
From Verif Require Import Prelude ExtF Lin Trig RotModel RotBasic QuatProofs EulerProofs T3dModel T3dProofs T3dMore T3dElem.
From Verif Require Import T3dFinal.
Import ListNotations.
Local Open Scope R_scope.

(** C29: [t1.compose(t2)] acts as [t1] after [t2]; results and errors agree for all batch sizes and point shapes *)
Theorem C29_compose_points : forall t1 t2 p, all_affine t1 -> all_affine t2 ->
  (do t <- compose t1 [t2]; transform_points t None p) = (do p' <- transform_points t2 None p; transform_points t1 None p').
Proof. exact points_compose. Qed.
Print Assumptions C29_compose_points.
(** perspective matrices too, wherever no homogeneous coordinate vanishes *)
Theorem C29_projective : forall A B p, v3 (m4vec B (hom p)) <> 0 -> v3 (m4vec (m4mul A B) (hom p)) <> 0 ->
  transform_points (mkT KBase [m4mul A B]) None (T2 [p]) =
  (do q <- transform_points (mkT KBase [B]) None (T2 [p]); transform_points (mkT KBase [A]) None q).
Proof. exact l29_projective. Qed.
Print Assumptions C29_projective.
Theorem C29_associative : forall t1 t2 t3,
  (do t <- compose t1 [t2]; compose t [t3]) = (do t <- compose t2 [t3]; compose t1 [t]).
Proof. exact compose_assoc. Qed.
Print Assumptions C29_associative.
Theorem C29_many : forall t t2 r, compose t (t2 :: r) = (do t' <- compose t [t2]; compose t' r).
Proof. exact compose_many. Qed.
Print Assumptions C29_many.
Theorem C29_unit : forall t, exists i, transform3d_init (MNone 1) PosNone RotNone = Ok i /\
  (exists a, compose t [i] = Ok a /\ tm a = tm t) /\ (exists a, compose i [t] = Ok a /\ tm a = tm t).
Proof. exact l29_unit. Qed.
Print Assumptions C29_unit.
Theorem C29_batches : forall t1 t2,
  ((tlen t1 = tlen t2 \/ tlen t1 = 1 \/ tlen t2 = 1)%nat -> exists t, compose t1 [t2] = Ok t /\
     tlen t = (if (tlen t1 =? 1)%nat then tlen t2 else tlen t1) /\
     forall i, (i < tlen t)%nat -> exists A B,
       nth_error (tm t1) (if (tlen t1 =? 1)%nat then 0 else i) = Some A /\
       nth_error (tm t2) (if (tlen t2 =? 1)%nat then 0 else i) = Some B /\ nth_error (tm t) i = Some (m4mul A B)) /\
  (~ (tlen t1 = tlen t2 \/ tlen t1 = 1 \/ tlen t2 = 1)%nat -> compose t1 [t2] = Err ValueError).
Proof. exact compose_sizes. Qed.
Print Assumptions C29_batches.
(** the points themselves: R p + t, with the same broadcasting *)
Theorem C29_points : forall t b, all_affine t ->
  ((length b = tlen t \/ length b = 1 \/ tlen t = 1)%nat ->
  exists out, transform_points t None (T3 b) = Ok (T3 out) /\
    length out = (if (length b =? 1)%nat then tlen t else length b) /\
    forall i, (i < length out)%nat -> exists row M orow,
      nth_error b (if (length b =? 1)%nat then 0 else i) = Some row /\
      nth_error (tm t) (if (tlen t =? 1)%nat then 0 else i) = Some M /\
      nth_error out i = Some orow /\ length orow = length row /\
      forall j p, nth_error row j = Some p -> nth_error orow j = Some (vadd (m3vec (rotp M) p) (trp M))) /\
  (~ (length b = tlen t \/ length b = 1 \/ tlen t = 1)%nat -> transform_points t None (T3 b) = Err ValueError).
Proof. exact (fun t b A => conj (points_spec t b A) (points_incompatible t b)). Qed.
Print Assumptions C29_points.
Theorem C29_eps_is_harmless : forall t e p, all_affine t -> e <= 1 ->
  transform_points t (Some e) p = transform_points t None p.
Proof. exact points_eps. Qed.
Print Assumptions C29_eps_is_harmless.
Theorem C29_stack : forall t1 t2 x1 x2, length x1 = tlen t1 -> length x2 = tlen t2 ->
  exists y1 y2, transform_points t1 None (T3 x1) = Ok (T3 y1) /\ transform_points t2 None (T3 x2) = Ok (T3 y2) /\
    transform_points (stack t1 [t2]) None (T3 (x1 ++ x2)) = Ok (T3 (y1 ++ y2)).
Proof. exact stack_points. Qed.
Print Assumptions C29_stack.
Example C29_example : exists t1 t2 t, Scale (CScalar 2) None None = Ok t1 /\
  Translate (CVec [1; 5]) (Some (CScalar 2)) (Some (CScalar 3)) = Ok t2 /\ all_affine t1 /\ all_affine t2 /\
  tlen t1 = 1%nat /\ tlen t2 = 2%nat /\ compose t1 [t2] = Ok t /\ tlen t = 2%nat /\
  compose t [mkT KBase [I4; I4; I4]] = Err ValueError.
Proof.
  eexists; eexists; eexists. split; [reflexivity|]. split; [reflexivity|].
  split; [intros M [<-|[]]; repeat split|]. split; [intros M [<-|[<-|[]]]; repeat split|].
  split; [reflexivity|]. split; [reflexivity|]. split; [reflexivity|]. split; reflexivity.
Qed.

(** C30: everything built without a scale *)
Theorem C30_rigid : forall t, rigid_built t -> exists a b, compose (inverse t) [t] = Ok a /\ compose t [inverse t] = Ok b /\
  tm a = repeat I4 (tlen t) /\ tm b = repeat I4 (tlen t).
Proof. exact l30_rigid. Qed.
Print Assumptions C30_rigid.
Theorem C30_rigid_points : forall t x, rigid_built t -> length x = tlen t ->
  exists y, transform_points t None (T3 x) = Ok (T3 y) /\ transform_points (inverse t) None (T3 y) = Ok (T3 x).
Proof. exact l30_rigid_points. Qed.
Print Assumptions C30_rigid_points.
(** a Scale object with non-zero factors *)
Theorem C30_scale : forall x y z t, Scale x y z = Ok t ->
  (forall M, In M (tm t) -> a00 M <> 0 /\ a11 M <> 0 /\ a22 M <> 0) ->
  exists a b, compose (inverse t) [t] = Ok a /\ compose t [inverse t] = Ok b /\
  tm a = repeat I4 (tlen t) /\ tm b = repeat I4 (tlen t).
Proof. exact l30_scale. Qed.
Print Assumptions C30_scale.
(** the inverse of a transform of the base class is right exactly when the 3x3 block is orthogonal *)
Theorem C30_exactly_orthogonal : forall T, affine T -> exists a, compose (inverse (mkT KBase [T])) [mkT KBase [T]] = Ok a /\
  (tm a = [I4] <-> m3mul (rotp T) (m3tr (rotp T)) = I3).
Proof. exact l30_exactly_orthogonal. Qed.
Print Assumptions C30_exactly_orthogonal.
Theorem C30_scaled_refuted : exists s, Scale (CScalar 2) None None = Ok s /\
  (exists a, compose (inverse s) [s] = Ok a /\ tm a = [I4]) /\
  (exists a, compose (inverse (clone s)) [clone s] = Ok a /\ tm a <> [I4]) /\
  (exists g a, tgetitem s 0 = Ok g /\ compose (inverse g) [g] = Ok a /\ tm a <> [I4]) /\
  (exists c a, compose identity_t [s] = Ok c /\ compose (inverse c) [c] = Ok a /\ tm a <> [I4]).
Proof. exact scale_refuted. Qed.
Print Assumptions C30_scaled_refuted.
Example C30_example : exists t, (do a <- rotate_axis_angle identity_t (CScalar 30) "z" true;
    translate a (CVec [1; 2]) (Some (CScalar 0)) (Some (CScalar 3))) = Ok t /\ rigid_built t /\ tlen t = 2%nat.
Proof.
  eexists. split; [reflexivity|]. split; [|reflexivity].
  eapply rb_compose; [| eapply rba_cons; [|apply rba_nil] | ].
  - eapply rb_compose; [apply (rb_init (MNone 1) PosNone RotNone); [exact I | exact I | reflexivity]
      | eapply rba_cons; [|apply rba_nil] | ].
    + apply (rb_RotateAxisAngle (CScalar 30) "z" true). reflexivity.
    + reflexivity.
  - apply (rb_Translate (CVec [1; 2]) (Some (CScalar 0)) (Some (CScalar 3))). reflexivity.
  - reflexivity.
Qed.

(** C31 *)
Theorem C31_normals : forall t b, rigid_built t ->
  (length b = tlen t \/ length b = 1 \/ tlen t = 1)%nat ->
  exists out, transform_normals t (T3 b) = Ok (T3 out) /\
    length out = (if (length b =? 1)%nat then tlen t else length b) /\
    forall i, (i < length out)%nat -> exists row M orow,
      nth_error b (if (length b =? 1)%nat then 0 else i) = Some row /\
      nth_error (tm t) (if (tlen t =? 1)%nat then 0 else i) = Some M /\ is_rigid M /\
      nth_error out i = Some orow /\ length orow = length row /\
      forall j n, nth_error row j = Some n -> nth_error orow j = Some (m3vec (rotp M) n).
Proof. exact l31_normals. Qed.
Print Assumptions C31_normals.
(** with the images of two points, the normal to their difference stays normal, and keeps its length *)
Theorem C31_tangency : forall M n p q, is_rigid M ->
  exists p' q' n', transform_points (mkT KBase [M]) None (T2 [p; q]) = Ok (T2 [p'; q']) /\
    transform_normals (mkT KBase [M]) (T2 [n]) = Ok (T2 [n']) /\
    vdot n' (vsub q' p') = vdot n (vsub q p) /\ vnorm2 n' = vnorm2 n.
Proof. exact l31_tangency. Qed.
Print Assumptions C31_tangency.
Theorem C31_shape_operator : forall t l, rigid_built t -> (length l = tlen t \/ length l = 1 \/ tlen t = 1)%nat ->
  exists out, transform_shape_operator t (T2 l) = Ok out /\
    length out = (if (length l =? 1)%nat then tlen t else length l) /\
    forall i, (i < length out)%nat -> exists S M,
      nth_error l (if (length l =? 1)%nat then 0 else i) = Some S /\
      nth_error (tm t) (if (tlen t =? 1)%nat then 0 else i) = Some M /\ is_rigid M /\
      nth_error out i = Some (m3mul (m3mul (rotp M) S) (m3tr (rotp M))).
Proof. exact l31_shape_operator. Qed.
Print Assumptions C31_shape_operator.
Theorem C31_curvatures : forall A S v k, is_rot A -> m3vec S v = vscale k v ->
  m3vec (m3mul (m3mul A S) (m3tr A)) (m3vec A v) = vscale k (m3vec A v).
Proof. exact shape_eigen. Qed.
Print Assumptions C31_curvatures.
(** the documented (N, P, 3, 3) input always fails *)
Theorem C31_shape_operator_4d_fails : forall t b, exists e, transform_shape_operator t (T3 b) = Err e.
Proof. exact shape_4d_error. Qed.
Print Assumptions C31_shape_operator_4d_fails.
Theorem C31_shape_operator_4d_refuted : exists t b, rigid_built t /\ length b = tlen t /\
  exists e, transform_shape_operator t (T3 b) = Err e.
Proof. exact l31_shape_operator_4d_refuted. Qed.
Print Assumptions C31_shape_operator_4d_refuted.
(** tangency survives a Scale object, but not one that was composed with anything *)
Theorem C31_scale_object : forall v n, vx v <> 0 -> vy v <> 0 -> vz v <> 0 ->
  exists n', transform_normals (mkT KScale [scale_matrix v]) (T2 [n]) = Ok (T2 [n']) /\
    forall u, vdot n' (m3vec (rotp (scale_matrix v)) u) = vdot n u.
Proof. exact normals_scale. Qed.
Print Assumptions C31_scale_object.
Theorem C31_composed_scale_refuted : exists s c n u n', Scale (CScalar 1) (Some (CScalar 2)) (Some (CScalar 1)) = Ok s /\
  compose identity_t [s] = Ok c /\ vdot n u = 0 /\ transform_normals c (T2 [n]) = Ok (T2 [n']) /\
  forall M, In M (tm c) -> vdot n' (m3vec (rotp M) u) <> 0.
Proof. exact normals_scale_refuted. Qed.
Print Assumptions C31_composed_scale_refuted.
Example C31_example : is_rigid (aff (mkM3 0 (-1) 0 1 0 0 0 0 1) (mkV3 1 2 3)) /\
  m3vec (mkM3 0 (-1) 0 1 0 0 0 0 1) (mkV3 1 0 0) = mkV3 0 1 0.
Proof.
  split.
  - apply is_rigid_aff. split; lin_simpl; [apply mkM3_eq|]; ring.
  - lin_simpl. apply mkV3_eq; ring.
Qed.

(** C32: the new factor acts on the points first *)
Theorem C32_translate : forall t x y z l, all_affine t ->
  (do t' <- translate t (CScalar x) (Some (CScalar y)) (Some (CScalar z)); transform_points t' None (T2 l)) =
  transform_points t None (T2 (map (fun p => vadd p (mkV3 x y z)) l)).
Proof. exact translate_first. Qed.
Print Assumptions C32_translate.
Theorem C32_scale : forall t x y z l, all_affine t ->
  (do t' <- scale t (CScalar x) (Some (CScalar y)) (Some (CScalar z)); transform_points t' None (T2 l)) =
  transform_points t None (T2 (map (fun p => mkV3 (x * vx p) (y * vy p) (z * vz p)) l)).
Proof. exact scale_first. Qed.
Print Assumptions C32_scale.
Theorem C32_rotate : forall t A l, all_affine t ->
  (do t' <- rotate t (RotM A); transform_points t' None (T2 l)) = transform_points t None (T2 (map (m3vec A) l)).
Proof. exact rotate_first. Qed.
Print Assumptions C32_rotate.
Theorem C32_rotate_axis_angle : forall t th c (degrees : bool) l, all_affine t -> In c ["X"; "Y"; "Z"; "x"; "y"; "z"]%char ->
  (do t' <- rotate_axis_angle t (CScalar th) (String c EmptyString) degrees; transform_points t' None (T2 l)) =
  transform_points t None (T2 (map (m3vec (axis_and_angle_to_matrix_33 (axis_vec (upper_ascii c))
     (if degrees then th * (PI / 180) else th))) l)).
Proof. exact rotate_axis_angle_first. Qed.
Print Assumptions C32_rotate_axis_angle.
Theorem C32_bad_axis : forall axis, ~ In axis ["X"; "Y"; "Z"; "x"; "y"; "z"]%string ->
  forall a d, RotateAxisAngle a axis d = Err ValueError.
Proof. exact axis_angle_bad. Qed.
Print Assumptions C32_bad_axis.
(** vectors of components are matched up entry by entry, and wrong sizes are rejected *)
Theorem C32_components : forall x y z s, is_line x -> is_line y -> is_line z ->
  let n := Nat.max (coord_len x) (Nat.max (coord_len y) (coord_len z)) in
  let ok := fun c => (coord_len c = 1 \/ coord_len c = n)%nat in
  (ok x -> ok y -> ok z -> exists l, handle_input x (Some y) (Some z) s = Ok l /\ length l = n /\
     forall i, (i < n)%nat -> exists v, nth_error l i = Some v /\
       coord_at x i = Some (vx v) /\ coord_at y i = Some (vy v) /\ coord_at z i = Some (vz v)) /\
  (~ (ok x /\ ok y /\ ok z) -> handle_input x (Some y) (Some z) s = Err ValueError).
Proof. exact handle_input_spec. Qed.
Print Assumptions C32_components.
Theorem C32_uniform_scale : forall x, is_line x -> Scale x None None = Scale x (Some x) (Some x).
Proof. exact l32_uniform_scale. Qed.
Print Assumptions C32_uniform_scale.
Theorem C32_inverses : forall v, m4mul (translate_inverse (translate_matrix v)) (translate_matrix v) = I4 /\
  (vx v <> 0 -> vy v <> 0 -> vz v <> 0 -> m4mul (scale_inverse (scale_matrix v)) (scale_matrix v) = I4) /\
  forall A, is_rot A -> m4mul (rotate_inverse (rotate_matrix A)) (rotate_matrix A) = I4.
Proof. exact l32_inverses. Qed.
Print Assumptions C32_inverses.
(** the class docstring says "Scale by 0.5, then translate by (1, 2, 3)"; the code translates first *)
Theorem C32_docstring_order_refuted : exists t s p q, scale identity_t (CScalar (1/2)) None None = Ok s /\
  translate s (CScalar 1) (Some (CScalar 2)) (Some (CScalar 3)) = Ok t /\
  transform_points t None (T2 [p]) = Ok (T2 [q]) /\
  q = vscale (1/2) (vadd p (mkV3 1 2 3)) /\ q <> vadd (vscale (1/2) p) (mkV3 1 2 3).
Proof. exact docstring_order. Qed.
Print Assumptions C32_docstring_order_refuted.
Example C32_example : all_affine identity_t /\ is_line (CVec [1; 2]) /\ In "y"%char ["X"; "Y"; "Z"; "x"; "y"; "z"]%char.
Proof. split; [intros M [<-|[]]; repeat split|]. split; [exact I | simpl; tauto]. Qed.

(** C59: the constructor *)
Theorem C59_rot_pos : forall p q, qnorm2 q <> 0 -> exists t, transform3d_init (MNone 1) (Pos1 p) (RotQ q) = Ok t /\
  tm t = [aff (quaternion_to_matrix q) p] /\ transform_points t None (T2 [vzero]) = Ok (T2 [p]).
Proof. exact l59_rot_pos. Qed.
Print Assumptions C59_rot_pos.
Theorem C59_batch : forall ps As, length ps = length As -> length ps <> 0%nat ->
  exists t, transform3d_init (MNone 1) (Pos2 ps) (RotMs As) = Ok t /\ tlen t = length ps /\
    forall i p A, nth_error ps i = Some p -> nth_error As i = Some A -> nth_error (tm t) i = Some (aff A p).
Proof. exact l59_batch. Qed.
Print Assumptions C59_batch.
Theorem C59_overrides : forall T p A, transform3d_init (MMat T) (Pos1 p) (RotM A) = Ok (mkT KBase [aff A p]) /\
  (affine T -> transform3d_init (MMat T) PosNone (RotM A) = Ok (mkT KBase [aff A (trp T)]) /\
               transform3d_init (MMat T) (Pos1 p) RotNone = Ok (mkT KBase [aff (rotp T) p])).
Proof. exact l59_overrides. Qed.
Print Assumptions C59_overrides.
Theorem C59_euler_batch : forall es, length es <> 3%nat -> (2 <= length es)%nat ->
  exists As, rmap (fun e => euler_angles_to_matrix e "XYZ") es = Ok As /\
    transform3d_init (MNone 1) PosNone (RotRows es) = Ok (mkT KBase (map (fun A => aff A vzero) As)).
Proof. exact rows_euler. Qed.
Print Assumptions C59_euler_batch.
(** a batch of exactly three Euler triples is silently read as one 3x3 matrix *)
Theorem C59_three_euler_triples_refuted : exists e1 e2 e3 A1 A2 A3,
  euler_angles_to_matrix e1 "XYZ" = Ok A1 /\ euler_angles_to_matrix e2 "XYZ" = Ok A2 /\ euler_angles_to_matrix e3 "XYZ" = Ok A3 /\
  transform3d_init (MNone 1) PosNone (RotRows [e1; e2; e3]) <> Ok (mkT KBase [aff A1 vzero; aff A2 vzero; aff A3 vzero]) /\
  exists M, transform3d_init (MNone 1) PosNone (RotRows [e1; e2; e3]) = Ok (mkT KBase [M]) /\ ~ is_rigid M.
Proof. exact rows_ambiguous. Qed.
Print Assumptions C59_three_euler_triples_refuted.
(** a single position or rotation is not broadcast over [default_batch_size] *)
Theorem C59_no_broadcast : forall n p A, (2 <= n)%nat ->
  transform3d_init (MNone n) (Pos1 p) RotNone = Err RuntimeError /\
  transform3d_init (MNone n) PosNone (RotM A) = Err RuntimeError.
Proof. exact init_no_broadcast. Qed.
Print Assumptions C59_no_broadcast.
Example C59_example : qnorm2 (mkQ 1 1 0 0) <> 0 /\ length [vzero; vzero] <> 3%nat.
Proof. split; [unfold qnorm2; simpl; lra | discriminate]. Qed.
