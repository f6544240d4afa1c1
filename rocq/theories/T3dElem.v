(** transform3d.py: normals, shape operators and elementary transforms. *)
From Coq Require Import Reals Lra String Ascii Bool Arith ZArith Lia List.
From Verif Require Import Prelude ExtF Lin Trig RotModel RotBasic QuatProofs EulerProofs T3dModel T3dProofs T3dMore.
Import ListNotations.
Local Open Scope R_scope.

(** ** Normals *)
Lemma inverse_rotp k M : class_inv k M -> k <> KScale -> rotp (get_matrix_inverse k M) = m3tr (rotp M).
Proof.
  destruct k; simpl; intros H Hk.
  - reflexivity.
  - destruct H as [v ->]. unfold translate_inverse, translate_matrix. lin_simpl. apply mkM3_eq; ring.
  - congruence.
  - destruct H as [A ->]. rewrite rotate_inverse_eq, rotate_aff, !rotp_aff. reflexivity.
Qed.
Lemma normals_map t b : wf t -> tk t <> KScale ->
  broadcast_bmm (fun ps A => map (fun q => v3row q A) ps) b (map rotp (tm (inverse t))) =
  broadcast_bmm (fun ps M => map (m3vec (rotp M)) ps) b (tm t).
Proof.
  intros W K. unfold inverse; simpl. rewrite map_map, bb_map_r. apply bb_ext. intros x M _ HM.
  rewrite inverse_rotp by (try apply W; assumption). apply map_ext. intros q. unfold v3row. rewrite m3tr_tr. reflexivity.
Qed.
Lemma normals_spec t b : wf t -> tk t <> KScale -> compatible (length b) (tlen t) ->
  exists out, transform_normals t (T3 b) = Ok (T3 out) /\
    length out = (if (length b =? 1)%nat then tlen t else length b) /\
    forall i, (i < length out)%nat -> exists row M orow,
      nth_error b (if (length b =? 1)%nat then 0 else i) = Some row /\
      nth_error (tm t) (if (tlen t =? 1)%nat then 0 else i) = Some M /\
      nth_error out i = Some orow /\ length orow = length row /\
      forall j n, nth_error row j = Some n -> nth_error orow j = Some (m3vec (rotp M) n).
Proof.
  intros W K H. unfold transform_normals. rewrite normals_map by assumption.
  destruct (bb_map_spec (fun M => m3vec (rotp M)) b (tm t) H) as (out & E & L & N).
  rewrite E. simpl. exists out. split; [reflexivity|]. split; [exact L | exact N].
Qed.
Lemma normals_2d t l : wf t -> tk t <> KScale -> transform_normals t (T2 l) =
  match tm t with
  | [M] => Ok (T2 (map (m3vec (rotp M)) l))
  | ms => Ok (T3 (map (fun M => map (m3vec (rotp M)) l) ms))
  end.
Proof.
  intros W K. unfold transform_normals. rewrite normals_map by assumption. rewrite bb_l.
  destruct (tm t) as [|M [|M' r]]; reflexivity.
Qed.
(** a Scale object, before it is composed with anything, uses the inverse transpose *)
Lemma normals_scale v n : vx v <> 0 -> vy v <> 0 -> vz v <> 0 ->
  exists n', transform_normals (mkT KScale [scale_matrix v]) (T2 [n]) = Ok (T2 [n']) /\
    forall u, vdot n' (m3vec (rotp (scale_matrix v)) u) = vdot n u.
Proof.
  intros Hx Hy Hz. exists (v3row n (rotp (scale_inverse (scale_matrix v)))). split; [reflexivity|]. intros u.
  destruct v as [x y z], n as [a b c], u as [d e f]. cbn [vx vy vz] in *. unfold v3row, scale_inverse, scale_matrix.
  lin_simpl. field. repeat split; assumption.
Qed.
Lemma normals_scale_refuted : exists s c n u n', Scale (CScalar 1) (Some (CScalar 2)) (Some (CScalar 1)) = Ok s /\
  compose identity_t [s] = Ok c /\ vdot n u = 0 /\ transform_normals c (T2 [n]) = Ok (T2 [n']) /\
  forall M, In M (tm c) -> vdot n' (m3vec (rotp M) u) <> 0.
Proof.
  eexists. exists (mkT KBase [scale_matrix (mkV3 1 2 1)]), (mkV3 1 1 0), (mkV3 1 (-1) 0). eexists.
  split; [reflexivity|]. split; [rewrite (proj2 (compose_id _)); reflexivity|].
  split; [lin_simpl; ring|]. split; [reflexivity|].
  intros M [<-|[]]. intros E. unfold v3row, invert_transformation_matrix, scale_matrix in E. lin_simpl. cbn in E. lra.
Qed.

(** ** Shape operators *)
Definition conj3 (A S : M3) : M3 := m3mul (m3mul A S) (m3tr A).
Lemma shape_spec t l : wf t -> tk t <> KScale -> compatible (length l) (tlen t) ->
  exists out, transform_shape_operator t (T2 l) = Ok out /\
    length out = (if (length l =? 1)%nat then tlen t else length l) /\
    forall i, (i < length out)%nat -> exists S M,
      nth_error l (if (length l =? 1)%nat then 0 else i) = Some S /\
      nth_error (tm t) (if (tlen t =? 1)%nat then 0 else i) = Some M /\
      nth_error out i = Some (m3mul (m3mul (rotp M) S) (m3tr (rotp M))).
Proof.
  intros W K H.
  assert (E : map rotp (tm (inverse t)) = map (fun M => m3tr (rotp M)) (tm t)).
  { unfold inverse; simpl. rewrite map_map. apply map_ext_in. intros M HM. apply inverse_rotp; [apply W, HM | exact K]. }
  unfold transform_shape_operator. rewrite E, map_map.
  assert (E2 : map (fun x => m3tr (m3tr (rotp x))) (tm t) = map rotp (tm t)) by (apply map_ext; intros; apply m3tr_tr).
  rewrite E2, bb_map_r.
  (* the two products use the same matrix, batch element by batch element *)
  assert (F : (do r <- broadcast_bmm (fun x y => m3mul x (m3tr (rotp y))) l (tm t); broadcast_bmm m3mul (map rotp (tm t)) r)
    = broadcast_bmm (fun S M => m3mul (rotp M) (m3mul S (m3tr (rotp M)))) l (tm t)).
  { destruct (bb_view (fun x y => m3mul x (m3tr (rotp y))) l (tm t)) as [S ->|M Em Hl|He Hl|H3 H1 H2]; simpl.
    - rewrite bb_l. rewrite bb_eq by (rewrite !map_length; reflexivity). rewrite zip_map_l, zip_map_r, zip_self. reflexivity.
    - rewrite Em. simpl. rewrite bb_l, bb_r, map_map. reflexivity.
    - rewrite !bb_eq; [|exact He | rewrite map_length, zip_len_eq by exact He; congruence]. f_equal.
      revert He. clear. revert l. induction (tm t) as [|M ms IH]; intros [|S l] H; try discriminate; simpl; [reflexivity|].
      rewrite IH by (simpl in H; lia). reflexivity.
    - symmetry. apply bb_err. unfold compatible; tauto. }
  rewrite F.
  destruct (bb_spec (fun S M => m3mul (rotp M) (m3mul S (m3tr (rotp M)))) l (tm t)) as [Sp _].
  destruct (Sp H) as (out & Eo & L & N). rewrite Eo. exists out. split; [reflexivity|]. split; [exact L|].
  intros i Hi. destruct (N i Hi) as (S & M & H1 & H2 & H3). exists S, M. split; [exact H1|]. split; [exact H2|].
  rewrite H3. f_equal. apply m3mul_assoc.
Qed.
(** curvatures: eigenvectors are carried along *)
Lemma shape_eigen A S v k : is_rot A -> m3vec S v = vscale k v -> m3vec (m3mul (m3mul A S) (m3tr A)) (m3vec A v) = vscale k (m3vec A v).
Proof.
  intros H E. rewrite !m3vec_mul. rewrite <- (m3vec_mul (m3tr A) A), is_rot_l, m3vec_1, E, m3vec_scale by exact H. reflexivity.
Qed.
Lemma shape_4d_error t b : exists e, transform_shape_operator t (T3 b) = Err e.
Proof. unfold transform_shape_operator. destruct (_ || _)%bool; eexists; reflexivity. Qed.

(** ** Elementary transforms *)
(** the value of an argument for batch element [i] *)
Definition coord_at (c : coord) (i : nat) : option R :=
  match c with
  | CScalar r => Some r
  | CVec [r] => Some r
  | CVec l => nth_error l i
  | _ => None
  end.
Definition coord_len (c : coord) : nat := match c with CScalar _ => 1 | CVec l => length l | _ => 0 end.
Definition is_line (c : coord) : Prop := match c with CScalar _ | CVec _ => True | _ => False end.
Lemma handle_coord_line c : is_line c -> exists l, handle_coord (Some c) = Ok l /\ length l = coord_len c /\
  forall n i, (i < n)%nat -> (length l = 1 \/ length l = n)%nat ->
    exists r, nth_error (expand l n) i = Some r /\ coord_at c i = Some r.
Proof.
  destruct c as [r|l| |]; simpl; intros H; try contradiction.
  - exists [r]. split; [reflexivity|]. split; [reflexivity|]. intros n i Hi _. exists r. split; [|reflexivity].
    simpl. apply nth_error_repeat, Hi.
  - exists l. split; [reflexivity|]. split; [reflexivity|]. intros n i Hi Hl.
    destruct l as [|r [|r' l]]; simpl in *.
    + lia.
    + exists r. split; [apply nth_error_repeat, Hi | reflexivity].
    + destruct Hl as [Hl|Hl]; [lia|]. change (exists r0, nth_error (r :: r' :: l) i = Some r0 /\ nth_error (r :: r' :: l) i = Some r0).
      destruct (nth_error (r :: r' :: l) i) as [x|] eqn:E; [eauto|]. apply nth_error_None in E. simpl in E. lia.
Qed.
Lemma expand_length {A} (l : list A) n : (length l = 1 \/ length l = n)%nat -> length (expand l n) = n.
Proof. destruct l as [|x [|y r]]; simpl; intros; rewrite ?repeat_length; lia. Qed.
Lemma handle_input_spec x y z s : is_line x -> is_line y -> is_line z ->
  let n := Nat.max (coord_len x) (Nat.max (coord_len y) (coord_len z)) in
  let ok := fun c => (coord_len c = 1 \/ coord_len c = n)%nat in
  (ok x -> ok y -> ok z -> exists l, handle_input x (Some y) (Some z) s = Ok l /\ length l = n /\
     forall i, (i < n)%nat -> exists v, nth_error l i = Some v /\
       coord_at x i = Some (vx v) /\ coord_at y i = Some (vy v) /\ coord_at z i = Some (vz v)) /\
  (~ (ok x /\ ok y /\ ok z) -> handle_input x (Some y) (Some z) s = Err ValueError).
Proof.
  intros Hx Hy Hz n ok.
  destruct (handle_coord_line x Hx) as (xs & Ex & Lx & Nx). destruct (handle_coord_line y Hy) as (ys & Ey & Ly & Ny).
  destruct (handle_coord_line z Hz) as (zs & Ez & Lz & Nz).
  assert (E : handle_input x (Some y) (Some z) s =
    let okb := fun l : list R => ((length l =? 1) || (length l =? n))%nat in
    if okb xs && okb ys && okb zs
    then Ok (zip_with (fun a bc => mkV3 a (fst bc) (snd bc)) (expand xs n) (zip_with pair (expand ys n) (expand zs n)))
    else Err ValueError).
  { unfold n. rewrite <- Lx, <- Ly, <- Lz.
    destruct x; simpl in Hx; try contradiction; destruct s; unfold handle_input; rewrite Ex, Ey, Ez; reflexivity. }
  rewrite E. cbv zeta.
  assert (B : forall (l : list R) c, length l = coord_len c -> ((length l =? 1) || (length l =? n))%nat = true <-> ok c).
  { intros l c L. rewrite orb_true_iff, !Nat.eqb_eq, L. reflexivity. }
  split.
  - intros Ox Oy Oz. rewrite (proj2 (B xs x Lx) Ox), (proj2 (B ys y Ly) Oy), (proj2 (B zs z Lz) Oz). simpl.
    unfold ok in Ox, Oy, Oz. rewrite <- Lx in Ox. rewrite <- Ly in Oy. rewrite <- Lz in Oz.
    eexists. split; [reflexivity|]. split.
    + rewrite !zip_with_length, !expand_length by assumption. lia.
    + intros i Hi. destruct (Nx n i Hi Ox) as (a & A1 & A2). destruct (Ny n i Hi Oy) as (b & B1 & B2).
      destruct (Nz n i Hi Oz) as (c & C1 & C2). exists (mkV3 a b c). simpl. split; [|auto].
      rewrite (zip_with_nth _ _ _ i a (b, c)); [reflexivity | exact A1|]. apply (zip_with_nth pair); assumption.
  - intros H. destruct (((length xs =? 1) || (length xs =? n)) && ((length ys =? 1) || (length ys =? n)) &&
      ((length zs =? 1) || (length zs =? n)))%nat eqn:Eb; [|reflexivity].
    exfalso. apply H. apply andb_true_iff in Eb. destruct Eb as [Eb E3]. apply andb_true_iff in Eb. destruct Eb as [E1 E2].
    split; [apply (B xs x Lx), E1|]. split; [apply (B ys y Ly), E2 | apply (B zs z Lz), E3].
Qed.
Lemma handle_input_single x : is_line x -> handle_input x None None true = handle_input x (Some x) (Some x) true.
Proof. destruct x; simpl; try contradiction; reflexivity. Qed.
Lemma handle_input_matrix l s : handle_input (CMat l) None None s = Ok l.
Proof. reflexivity. Qed.

Lemma act_translate v p : act (translate_matrix v) p = vadd p v.
Proof. rewrite act_affine by (repeat split). unfold aff_act. rewrite translate_aff, rotp_aff, trp_aff, m3vec_1. reflexivity. Qed.
Lemma act_scale v p : act (scale_matrix v) p = mkV3 (vx v * vx p) (vy v * vy p) (vz v * vz p).
Proof. rewrite act_affine by (repeat split). unfold aff_act. rewrite scale_aff, rotp_aff, trp_aff. unfold diag3. destruct v, p. lin_simpl. apply mkV3_eq; ring. Qed.
Lemma act_rotate A p : act (rotate_matrix A) p = m3vec A p.
Proof. rewrite act_affine by (repeat split). unfold aff_act. rewrite rotate_aff, rotp_aff, trp_aff, vadd_0_r. reflexivity. Qed.

(** a single elementary transform acts on the points before the transform it is added to *)
Lemma translate_first t x y z l : all_affine t ->
  (do t' <- translate t (CScalar x) (Some (CScalar y)) (Some (CScalar z)); transform_points t' None (T2 l)) =
  transform_points t None (T2 (map (fun p => vadd p (mkV3 x y z)) l)).
Proof.
  intros A. unfold translate, Translate.
  change (handle_input (CScalar x) (Some (CScalar y)) (Some (CScalar z)) false) with (@Ok (list V3) [mkV3 x y z]). cbn [rbind].
  rewrite points_compose.
  - rewrite points_2d. simpl. f_equal. f_equal. apply map_ext. intros; apply act_translate.
  - exact A.
  - intros M [<-|[]]. repeat split.
Qed.
Lemma scale_first t x y z l : all_affine t ->
  (do t' <- scale t (CScalar x) (Some (CScalar y)) (Some (CScalar z)); transform_points t' None (T2 l)) =
  transform_points t None (T2 (map (fun p => mkV3 (x * vx p) (y * vy p) (z * vz p)) l)).
Proof.
  intros A. unfold scale, Scale.
  change (handle_input (CScalar x) (Some (CScalar y)) (Some (CScalar z)) true) with (@Ok (list V3) [mkV3 x y z]). cbn [rbind].
  rewrite points_compose.
  - rewrite points_2d. simpl. f_equal. f_equal. apply map_ext. intros; apply act_scale.
  - exact A.
  - intros M [<-|[]]. repeat split.
Qed.
Lemma rotate_first t A l : all_affine t ->
  (do t' <- rotate t (RotM A); transform_points t' None (T2 l)) = transform_points t None (T2 (map (m3vec A) l)).
Proof.
  intros Ha. unfold rotate, Rotate. cbn [rbind map]. rewrite points_compose.
  - rewrite points_2d. simpl. f_equal. f_equal. apply map_ext. intros; apply act_rotate.
  - exact Ha.
  - intros M [<-|[]]. repeat split.
Qed.
Lemma rotate_axis_angle_first t th c (degrees : bool) l : all_affine t -> In c ["X"; "Y"; "Z"; "x"; "y"; "z"]%char ->
  (do t' <- rotate_axis_angle t (CScalar th) (String c EmptyString) degrees; transform_points t' None (T2 l)) =
  transform_points t None (T2 (map (m3vec (axis_and_angle_to_matrix_33 (axis_vec (upper_ascii c))
     (if degrees then th * (PI / 180) else th))) l)).
Proof.
  intros Ha Hc. unfold rotate_axis_angle.
  assert (E : exists t', RotateAxisAngle (CScalar th) (String c EmptyString) degrees = Ok t').
  { destruct degrees; repeat (destruct Hc as [<-|Hc]; [eexists; reflexivity|]); contradiction. }
  destruct E as [t' E]. rewrite E. cbn [rbind].
  destruct (RotateAxisAngle_eq _ _ _ _ E) as (a & c' & l' & Ec & -> & _ & El & ->).
  assert (c' = c) by congruence. subst c'. simpl in El. assert (l' = [th]) by congruence. subst l'.
  rewrite points_compose.
  - rewrite points_2d. cbn [map tm rbind]. f_equal. f_equal. apply map_ext. intros p. rewrite act_rotate. f_equal. f_equal.
    destruct degrees; [field | reflexivity].
  - exact Ha.
  - intros M [<-|[]]. repeat split.
Qed.
Lemma axis_angle_bad axis : ~ In axis ["X"; "Y"; "Z"; "x"; "y"; "z"]%string -> forall a d, RotateAxisAngle a axis d = Err ValueError.
Proof.
  intros H a d. unfold RotateAxisAngle.
  assert (E : one_letter axis = Err ValueError); [|rewrite E; reflexivity].
  destruct axis as [|c [|c' s]]; try reflexivity. simpl.
  destruct (is_letter (upper_ascii c)) eqn:E; [|reflexivity]. exfalso. apply H.
  destruct c as [[] [] [] [] [] [] [] []]; try discriminate E; simpl; tauto.
Qed.
(** the docstring's "scale by 0.5, then translate by (1, 2, 3)" translates first *)
Lemma docstring_order : exists t s p q, scale identity_t (CScalar (1/2)) None None = Ok s /\
  translate s (CScalar 1) (Some (CScalar 2)) (Some (CScalar 3)) = Ok t /\
  transform_points t None (T2 [p]) = Ok (T2 [q]) /\
  q = vscale (1/2) (vadd p (mkV3 1 2 3)) /\ q <> vadd (vscale (1/2) p) (mkV3 1 2 3).
Proof.
  exists (mkT KBase [m4mul (m4mul I4 (scale_matrix (mkV3 (1/2) (1/2) (1/2)))) (translate_matrix (mkV3 1 2 3))]),
    (mkT KBase [m4mul I4 (scale_matrix (mkV3 (1/2) (1/2) (1/2)))]), vzero, (vscale (1/2) (vadd vzero (mkV3 1 2 3))).
  split; [reflexivity|]. split; [reflexivity|].
  set (S := scale_matrix (mkV3 (1/2) (1/2) (1/2))). rewrite (m4mul_1_l S).
  assert (AS : affine S) by (repeat split).
  assert (AT : affine (translate_matrix (mkV3 1 2 3))) by (repeat split).
  split.
  - rewrite points_2d. cbn [tm map].
    rewrite act_affine, aff_act_mul, <- !act_affine by (try apply affine_mul; assumption).
    rewrite act_translate. unfold S. rewrite act_scale. reflexivity.
  - split; [reflexivity|]. intros H. apply (f_equal vx) in H. lin_simpl. lra.
Qed.
