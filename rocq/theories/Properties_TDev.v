(** C83: the dtype and the device of transforms. *)
From Coq Require Import Bool Arith Lia List.
From Verif Require Import Prelude ExtF Tree ChainModel SerialModel DevModel TDevModel SpecTDev.
From Verif Require Import TDevFinal.
Import ListNotations.


(** ** What holds *)
(** every transform that is made with [Transform3d], or with a subclass in its default dtype, or by an operation, tells the truth *)
Theorem C83_truthful : forall promo t, made promo t -> truthful t.
Proof. exact l83_truthful. Qed.
Print Assumptions C83_truthful.
Example C83_truthful_ex : truthful (mkTtr DDouble (DStr 1) (mkT DDouble 1)).
Proof. apply (C83_truthful (fun _ _ => Err RuntimeError)). refine (made_to _ (DStr 1) false (Some DDouble) (mkTtr DFloat (DStr cpu) (mkT DFloat cpu)) false _ _ eq_refl). exact (made_rotate _ (DStr cpu) TNum _ eq_refl). Qed.

(** given numbers, or tensors that fit, the transform has the dtype and device asked for *)
Theorem C83_requested : forall promo dt dv rot pos, promo dt dt = Ok dt ->
  (forall a, rot = Some a \/ pos = Some a -> a = TNum \/ a = TTen (mkT dt (dev_of dv))) ->
  tr_init promo dt dv None rot pos = Ok (mkTtr dt dv (mkT dt (dev_of dv))).
Proof. exact l83_requested. Qed.
Print Assumptions C83_requested.
Example C83_requested_ex : tr_init (fun a b => Ok a) DDouble (DStr cpu) None (Some TNum) (Some (TTen (mkT DDouble cpu))) = Ok (mkTtr DDouble (DStr cpu) (mkT DDouble cpu)).
Proof. apply C83_requested; [reflexivity|]. intros a [E | E]; injection E as <-; [left | right]; reflexivity. Qed.

(** moving a truthful transform works and brings it to the dtype and device given *)
Theorem C83_to : forall promo dv copy dt t, truthful t -> exists b t', tr_to promo dv copy dt t = Ok (b, t') /\
  x_mat t' = mkT (match dt with Some d => d | None => x_dt t end) (dev_of dv) /\ truthful t' /\ (b = true -> t' = t).
Proof. exact l83_to. Qed.
Print Assumptions C83_to.
Example C83_to_ex : exists b t', tr_to (fun a _ => Ok a) (DObj 1) false (Some DDouble) (mkTtr DFloat (DStr cpu) (mkT DFloat cpu)) = Ok (b, t') /\ x_mat t' = mkT DDouble 1.
Proof. destruct (C83_to (fun a _ => Ok a) (DObj 1) false (Some DDouble) (mkTtr DFloat (DStr cpu) (mkT DFloat cpu)) (conj eq_refl eq_refl)) as (b & t' & E & M & _). exists b, t'. split; assumption. Qed.

(** composing works exactly when all matrices are on one device, whatever their dtypes, and keeps the dtype of the first *)
Theorem C83_compose : forall promo t os,
  (Forall (fun o => t_dev (x_mat o) = t_dev (x_mat t)) os -> exists t', tr_compose promo t os = Ok t' /\ x_mat t' = x_mat t /\ truthful t') /\
  (~ Forall (fun o => t_dev (x_mat o) = t_dev (x_mat t)) os -> tr_compose promo t os = Err RuntimeError).
Proof. exact l83_compose. Qed.
Print Assumptions C83_compose.
Example C83_compose_ex : tr_compose (fun _ _ => Err RuntimeError) (mkTtr DDouble (DStr cpu) (mkT DDouble cpu)) [mkTtr DFloat (DStr cpu) (mkT DFloat cpu)] = Ok (mkTtr DDouble (DObj cpu) (mkT DDouble cpu)).
Proof. reflexivity. Qed.

(** stacking works exactly when all are on one device, and transforms of one dtype keep it *)
Theorem C83_stack : forall promo t os, (forall a b, exists c, promo a b = Ok c) ->
  (Forall (fun o => x_mat o = x_mat t) os -> promo (t_dt (x_mat t)) (t_dt (x_mat t)) = Ok (t_dt (x_mat t)) -> exists t', tr_stack promo t os = Ok t' /\ x_mat t' = x_mat t /\ truthful t') /\
  (Forall (fun o => t_dev (x_mat o) = t_dev (x_mat t)) os -> exists t', tr_stack promo t os = Ok t' /\ t_dev (x_mat t') = t_dev (x_mat t) /\ truthful t') /\
  (~ Forall (fun o => t_dev (x_mat o) = t_dev (x_mat t)) os -> tr_stack promo t os = Err RuntimeError).
Proof. exact l83_stack. Qed.
Print Assumptions C83_stack.
Example C83_stack_ex : tr_stack (fun a _ => Ok a) (mkTtr DDouble (DStr cpu) (mkT DDouble cpu)) [mkTtr DFloat (DStr cpu) (mkT DDouble 1)] = Err RuntimeError.
Proof. apply (C83_stack (fun a _ => Ok a)); [intros a b; exists a; reflexivity|]. intros H. inversion H. discriminate. Qed.

(** points and normals come back with their own dtype and device; they must be on the device of the transform *)
Theorem C83_points : forall promo t p, promo (t_dt p) (t_dt p) = Ok (t_dt p) ->
  (t_dev p = t_dev (x_mat t) -> tr_points promo t p = Ok p /\ tr_normals promo t p = Ok p) /\
  (t_dev p <> t_dev (x_mat t) -> tr_points promo t p = Err RuntimeError /\ tr_normals promo t p = Err RuntimeError).
Proof. exact l83_points. Qed.
Print Assumptions C83_points.
Example C83_points_ex : tr_points (fun a _ => Ok a) (mkTtr DFloat (DStr cpu) (mkT DFloat cpu)) (mkT DDouble cpu) = Ok (mkT DDouble cpu).
Proof. apply (proj1 (C83_points (fun a _ => Ok a) (mkTtr DFloat (DStr cpu) (mkT DFloat cpu)) (mkT DDouble cpu) eq_refl)). reflexivity. Qed.

(** ** What does not *)
(** a subclass given another dtype than float32 has a matrix of that dtype but reports float32, and so does its clone *)
Theorem C83_subclass_refuted : forall promo dt dv, dt <> DFloat -> exists t, tr_rotate promo dt dv TNum = Ok t /\
  x_mat t = mkT dt (dev_of dv) /\ x_dt t = DFloat /\ ~ truthful t /\ tr_clone promo t = Ok t.
Proof. exact l83_subclass_refuted. Qed.
Print Assumptions C83_subclass_refuted.
Theorem C83_subclass_refuted_translate : forall promo dt dv, dt <> DFloat -> promo dt dt = Ok dt -> exists t, tr_translate_scale promo dt dv (inl (TNum, TNum, TNum)) = Ok t /\
  x_mat t = mkT dt (dev_of dv) /\ x_dt t = DFloat.
Proof. exact l83_subclass_refuted_translate. Qed.
Print Assumptions C83_subclass_refuted_translate.
(** asked to become float32 on its own device, such a transform returns itself, still in double precision *)
Theorem C83_to_refuted : forall promo, exists t, tr_rotate promo DDouble (DStr cpu) TNum = Ok t /\
  tr_to promo (DStr cpu) false (Some DFloat) t = Ok (true, t) /\ t_dt (x_mat t) = DDouble.
Proof. exact l83_to_refuted. Qed.
Print Assumptions C83_to_refuted.
(** [RotateAxisAngle] has a float32 matrix whatever dtype it is given; its default is float64 *)
Theorem C83_axis_angle_refuted : forall promo dt dv a, exists t, tr_rotate_axis_angle promo dt dv a = Ok t /\ x_mat t = mkT DFloat (dev_of dv).
Proof. exact l83_axis_angle_refuted. Qed.
Print Assumptions C83_axis_angle_refuted.
(** the helpers of a transform in double precision go through operands in float32: the result is double, the operand was not *)
Theorem C83_helpers : forall promo t R a, dev_of (x_dev t) = t_dev (x_mat t) ->
  (exists o, tr_rotate promo DFloat (x_dev t) R = Ok o /\ t_dt (x_mat o) = DFloat /\ exists t', tr_rotate_by promo t R = Ok t' /\ x_mat t' = x_mat t) /\
  (exists o, tr_rotate_axis_angle promo DDouble (x_dev t) a = Ok o /\ t_dt (x_mat o) = DFloat /\ exists t', tr_rotate_axis_angle_by promo t a = Ok t' /\ x_mat t' = x_mat t).
Proof. exact l83_helpers. Qed.
Print Assumptions C83_helpers.
Example C83_helpers_ex : exists t', tr_rotate_by (fun a _ => Ok a) (mkTtr DDouble (DStr cpu) (mkT DDouble cpu)) TNum = Ok t' /\ x_mat t' = mkT DDouble cpu.
Proof. eexists. split; reflexivity. Qed.
(** a transform made with the device as a string is not on the same [torch.device], so that [cpu()] makes a second object; the
    documentation of [to] says that [self] is returned *)
Theorem C83_self_refuted : forall promo, exists t, tr_init promo DFloat (DStr cpu) None None None = Ok t /\ t_dev (x_mat t) = cpu /\ exists t', tr_cpu promo t = Ok (false, t').
Proof. exact l83_self_refuted. Qed.
Print Assumptions C83_self_refuted.
(** unlike points and normals, shape operators come back in the dtype of the transform *)
Theorem C83_shape_operator_refuted : forall promo t s, t_dev s = t_dev (x_mat t) -> tr_shape_operator promo t s = Ok (x_mat t).
Proof. exact l83_shape_operator_refuted. Qed.
Print Assumptions C83_shape_operator_refuted.
Example C83_shape_operator_refuted_ex : tr_shape_operator (fun a _ => Ok a) (mkTtr DFloat (DStr cpu) (mkT DFloat cpu)) (mkT DDouble cpu) = Ok (mkT DFloat cpu).
Proof. apply C83_shape_operator_refuted. reflexivity. Qed.
