(** Last steps of the proofs quoted in Properties_T3d.v. *)
From Coq Require Import Reals Lra Psatz Bool Arith ZArith Lia String Ascii List.
From Verif Require Import Prelude ExtF Lin Trig RotModel RotBasic QuatProofs EulerProofs T3dModel T3dProofs T3dMore T3dElem.
Import ListNotations.
Local Open Scope R_scope.

Lemma l29_projective : forall A B p, v3 (m4vec B (hom p)) <> 0 -> v3 (m4vec (m4mul A B) (hom p)) <> 0 ->
  transform_points (mkT KBase [m4mul A B]) None (T2 [p]) =
  (do q <- transform_points (mkT KBase [B]) None (T2 [p]); transform_points (mkT KBase [A]) None q).
Proof.
  intros A B p HB HA. rewrite !points_2d. cbn [tm rbind map]. rewrite points_2d. cbn [tm map]. rewrite act_mul by assumption. reflexivity.
Qed.

Lemma l29_unit : forall t, exists i, transform3d_init (MNone 1) PosNone RotNone = Ok i /\
  (exists a, compose t [i] = Ok a /\ tm a = tm t) /\ (exists a, compose i [t] = Ok a /\ tm a = tm t).
Proof.
  intros t. exists identity_t. split; [reflexivity|]. destruct (compose_id t) as [H1 H2].
  split; eexists; (split; [eassumption | reflexivity]).
Qed.

Lemma l30_rigid : forall t, rigid_built t -> exists a b, compose (inverse t) [t] = Ok a /\ compose t [inverse t] = Ok b /\
  tm a = repeat I4 (tlen t) /\ tm b = repeat I4 (tlen t).
Proof.
  intros t H. apply (proj1 built_good) in H. apply inverse_compose; [apply H|]. intros M HM. apply good_invertible; assumption.
Qed.

Lemma l30_rigid_points : forall t x, rigid_built t -> length x = tlen t ->
  exists y, transform_points t None (T3 x) = Ok (T3 y) /\ transform_points (inverse t) None (T3 y) = Ok (T3 x).
Proof.
  intros t x H L. apply (proj1 built_good) in H. apply inverse_points; [apply H | | exact L].
  intros M HM. apply good_invertible; assumption.
Qed.

Lemma l30_scale : forall x y z t, Scale x y z = Ok t ->
  (forall M, In M (tm t) -> a00 M <> 0 /\ a11 M <> 0 /\ a22 M <> 0) ->
  exists a b, compose (inverse t) [t] = Ok a /\ compose t [inverse t] = Ok b /\
  tm a = repeat I4 (tlen t) /\ tm b = repeat I4 (tlen t).
Proof.
  intros x y z t E H. destruct (Scale_inv _ _ _ _ E) as [W K]. apply inverse_compose; [exact W|].
  intros M HM. specialize (H M HM). rewrite K. specialize (W M HM). rewrite K in W. destruct W as [v ->].
  exists v. split; [reflexivity | exact H].
Qed.

Lemma l30_exactly_orthogonal : forall T, affine T -> exists a, compose (inverse (mkT KBase [T])) [mkT KBase [T]] = Ok a /\
  (tm a = [I4] <-> m3mul (rotp T) (m3tr (rotp T)) = I3).
Proof.
  intros T H. exists (mkT KBase [m4mul (invert_transformation_matrix T) T]). split; [reflexivity|]. cbn [tm].
  rewrite <- invert_iff by exact H. assert (K : forall a b : M4, [a] = [b] <-> a = b) by (intros; split; congruence). apply K.
Qed.

Lemma l31_normals : forall t b, rigid_built t ->
  (length b = tlen t \/ length b = 1 \/ tlen t = 1)%nat ->
  exists out, transform_normals t (T3 b) = Ok (T3 out) /\
    length out = (if (length b =? 1)%nat then tlen t else length b) /\
    forall i, (i < length out)%nat -> exists row M orow,
      nth_error b (if (length b =? 1)%nat then 0 else i) = Some row /\
      nth_error (tm t) (if (tlen t =? 1)%nat then 0 else i) = Some M /\ is_rigid M /\
      nth_error out i = Some orow /\ length orow = length row /\
      forall j n, nth_error row j = Some n -> nth_error orow j = Some (m3vec (rotp M) n).
Proof.
  intros t b H C. apply (proj1 built_good) in H. destruct H as (W & K & G).
  destruct (normals_spec t b W K C) as (out & E & L & N). exists out. split; [exact E|]. split; [exact L|].
  intros i Hi. destruct (N i Hi) as (row & M & orow & H1 & H2 & H3 & H4 & H5). exists row, M, orow.
  split; [exact H1|]. split; [exact H2|]. split; [apply G; eapply nth_error_In, H2|]. auto.
Qed.

Lemma l31_tangency : forall M n p q, is_rigid M ->
  exists p' q' n', transform_points (mkT KBase [M]) None (T2 [p; q]) = Ok (T2 [p'; q']) /\
    transform_normals (mkT KBase [M]) (T2 [n]) = Ok (T2 [n']) /\
    vdot n' (vsub q' p') = vdot n (vsub q p) /\ vnorm2 n' = vnorm2 n.
Proof.
  intros M n p q H.
  assert (W : wf (mkT KBase [M])) by (intros X [<-|[]]; apply H).
  rewrite points_2d, normals_2d by (try exact W; discriminate). cbn [tm map].
  rewrite !act_affine by apply H. eexists; eexists; eexists. split; [reflexivity|]. split; [reflexivity|].
  destruct H as [_ R]. split; [|apply rot_norm2, R].
  rewrite <- (rot_dot (rotp M) n (vsub q p)) by exact R. f_equal. unfold aff_act. rewrite m3vec_sub. lin.
Qed.

Lemma l31_shape_operator : forall t l, rigid_built t -> (length l = tlen t \/ length l = 1 \/ tlen t = 1)%nat ->
  exists out, transform_shape_operator t (T2 l) = Ok out /\
    length out = (if (length l =? 1)%nat then tlen t else length l) /\
    forall i, (i < length out)%nat -> exists S M,
      nth_error l (if (length l =? 1)%nat then 0 else i) = Some S /\
      nth_error (tm t) (if (tlen t =? 1)%nat then 0 else i) = Some M /\ is_rigid M /\
      nth_error out i = Some (m3mul (m3mul (rotp M) S) (m3tr (rotp M))).
Proof.
  intros t l H C. apply (proj1 built_good) in H. destruct H as (W & K & G).
  destruct (shape_spec t l W K C) as (out & E & L & N). exists out. split; [exact E|]. split; [exact L|].
  intros i Hi. destruct (N i Hi) as (S & M & H1 & H2 & H3). exists S, M.
  split; [exact H1|]. split; [exact H2|]. split; [apply G; eapply nth_error_In, H2 | exact H3].
Qed.

Lemma l31_shape_operator_4d_refuted : exists t b, rigid_built t /\ length b = tlen t /\
  exists e, transform_shape_operator t (T3 b) = Err e.
Proof.
  exists identity_t, [[I3]]. split; [apply (rb_init (MNone 1) PosNone RotNone); [exact I | exact I | reflexivity]|].
  split; [reflexivity | apply shape_4d_error].
Qed.

Lemma l32_uniform_scale : forall x, is_line x -> Scale x None None = Scale x (Some x) (Some x).
Proof. intros x H. unfold Scale. rewrite handle_input_single by exact H. reflexivity. Qed.

Lemma l32_inverses : forall v, m4mul (translate_inverse (translate_matrix v)) (translate_matrix v) = I4 /\
  (vx v <> 0 -> vy v <> 0 -> vz v <> 0 -> m4mul (scale_inverse (scale_matrix v)) (scale_matrix v) = I4) /\
  forall A, is_rot A -> m4mul (rotate_inverse (rotate_matrix A)) (rotate_matrix A) = I4.
Proof.
  intros v. split; [apply translate_inverse_ok|]. split; [intros; apply scale_inverse_ok; assumption|].
  intros A H. rewrite rotate_inverse_eq, rotate_aff, aff_mul, is_rot_l, m3vec_0, vadd_0_l by exact H. exact aff_I.
Qed.

Lemma l59_rot_pos : forall p q, qnorm2 q <> 0 -> exists t, transform3d_init (MNone 1) (Pos1 p) (RotQ q) = Ok t /\
  tm t = [aff (quaternion_to_matrix q) p] /\ transform_points t None (T2 [vzero]) = Ok (T2 [p]).
Proof.
  intros p q H. eexists. split; [apply init_quat|]. split; [reflexivity|]. rewrite points_2d. cbn [tm map].
  rewrite act_affine by apply affine_aff. unfold aff_act. rewrite rotp_aff, trp_aff, m3vec_0, vadd_0_l. reflexivity.
Qed.

Lemma l59_batch : forall ps As, length ps = length As -> length ps <> 0%nat ->
  exists t, transform3d_init (MNone 1) (Pos2 ps) (RotMs As) = Ok t /\ tlen t = length ps /\
    forall i p A, nth_error ps i = Some p -> nth_error As i = Some A -> nth_error (tm t) i = Some (aff A p).
Proof.
  intros ps As H H0. eexists. split; [apply init_batch; assumption|]. unfold tlen; cbn [tm].
  split; [rewrite zip_len_eq by congruence; congruence|]. intros i p A Hp HA. apply zip_with_nth; assumption.
Qed.

Lemma l59_overrides : forall T p A, transform3d_init (MMat T) (Pos1 p) (RotM A) = Ok (mkT KBase [aff A p]) /\
  (affine T -> transform3d_init (MMat T) PosNone (RotM A) = Ok (mkT KBase [aff A (trp T)]) /\
               transform3d_init (MMat T) (Pos1 p) RotNone = Ok (mkT KBase [aff (rotp T) p])).
Proof.
  intros T p A. destruct (init_override T p A) as (H1 & H2 & H3 & H4). split; [exact H1|]. intros HA.
  destruct (H4 HA) as [E1 E2]. rewrite H2, H3, E1, E2. split; reflexivity.
Qed.
