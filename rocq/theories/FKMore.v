(** Consequences of the forward-kinematics theorem: batches, geometry of joints, joint queries. *)
From Coq Require Import Reals Lra String Bool Arith Lia List Permutation.
From Verif Require Import Prelude ExtF Tree ChainModel SpecFK ChainProofs ChainTables Lin Trig RotModel RotBasic ChainInst.
Import ListNotations.
Local Open Scope nat_scope.

(** ** Batch rows are independent, for arbitrary tables and arbitrary widths *)
Section Rows.
Context {T A S : Type} (O : Ops T A S).

Definition sel {X} (b : nat) (w : list X) : list X :=
  match nth_error w b with Some x => [x] | None => [] end.

Lemma sel_zip {X Y Z} (g : X -> Y -> Z) b x y : sel b (zip_with g x y) = zip_with g (sel b x) (sel b y).
Proof.
  unfold sel. revert x y. induction b as [|b IH]; destruct x as [|a x], y as [|c y]; simpl; auto.
  - destruct (nth_error x b); reflexivity.
Qed.
Lemma sel_map {X Y} (g : X -> Y) b x : sel b (map g x) = map g (sel b x).
Proof. unfold sel. rewrite nth_error_map. destruct (nth_error x b); reflexivity. Qed.
Lemma sel_repeat {X} (x : X) b n : b < n -> sel b (repeat x n) = [x].
Proof.
  intros H. unfold sel. rewrite (nth_error_nth' _ x) by (rewrite repeat_length; exact H).
  rewrite nth_repeat. reflexivity.
Qed.

Lemma rmap_map {X Y Y'} (f : X -> res Y) (g : X -> res Y') (h : Y -> Y') l ys :
  (forall x y, In x l -> f x = Ok y -> g x = Ok (h y)) -> rmap f l = Ok ys -> rmap g l = Ok (map h ys).
Proof.
  revert ys; induction l as [|x l IH]; simpl; intros ys H E.
  - inversion E; reflexivity.
  - apply rbind_ok in E as (y & Hy & E). apply rbind_ok in E as (zs & Hz & E). inversion E; subst.
    rewrite (H x y (or_introl eq_refl) Hy). cbn [rbind]. rewrite (IH zs); auto.
Qed.

Lemma per_frame_row (motion : A -> S -> T) axes jidx n rows b r out :
  nth_error rows b = Some r ->
  per_frame motion axes jidx (mkTh n rows) = Ok out ->
  per_frame motion axes jidx (mkTh n [r]) = Ok (map (sel b) out).
Proof.
  intros Hb H. unfold per_frame in *. simpl in *.
  apply rbind_ok in H as (tr & Htr & H).
  destruct (rmap_nth _ _ _ _ _ Htr Hb) as (y & Hy & Er). rewrite Er. cbn [rbind].
  eapply rmap_map; [|exact H]. intros k w _ Hw. simpl.
  destruct (rmap_nth _ _ _ _ _ Hw Hy) as (z & Hz & Ez). rewrite Ez. cbn [rbind].
  unfold sel. rewrite Hz. reflexivity.
Qed.

Lemma where_frames_row mask (x y : list (list T)) b :
  map (sel b) (where_frames mask x y) = where_frames mask (map (sel b) x) (map (sel b) y).
Proof.
  unfold where_frames. revert x y. induction mask as [|m mask IH]; destruct x as [|a x], y as [|c y]; simpl; auto.
  rewrite IH. destruct m; reflexivity.
Qed.

Lemma eye_row {X} (x : X) b n nf : b < n -> map (sel b) (repeat (repeat x n) nf) = repeat (repeat x 1) nf.
Proof. intros H. induction nf; simpl; [reflexivity|]. rewrite sel_repeat by exact H. f_equal. exact IHnf. Qed.

Lemma joint_transforms_row n rows b r jidx jtypes axes hr hp nf out :
  nth_error rows b = Some r ->
  joint_transforms O (mkTh n rows) jidx jtypes axes hr hp nf = Ok out ->
  joint_transforms O (mkTh n [r]) jidx jtypes axes hr hp nf = Ok (map (sel b) out).
Proof.
  intros Hb H. unfold joint_transforms in *. cbn [th_rows th_cols] in *.
  change (length [r]) with 1.
  assert (Hlt : b < length rows) by (apply nth_error_Some; congruence).
  apply rbind_ok in H as (rv & Hrv & H). apply rbind_ok in H as (pr & Hpr & H).
  assert (Hrv' : (if (0 <? n) && hr then do x <- per_frame (t_rev O) axes jidx (mkTh n [r]); Ok (Some x) else Ok None)
                 = Ok (option_map (map (sel b)) rv)).
  { destruct ((0 <? n) && hr); [|inversion Hrv; reflexivity].
    apply rbind_ok in Hrv as (x & Hx & E). inversion E; subst.
    rewrite (per_frame_row _ _ _ _ _ _ _ _ Hb Hx). reflexivity. }
  assert (Hpr' : (if (0 <? n) && hp then do x <- per_frame (t_pris O) axes jidx (mkTh n [r]); Ok (Some x) else Ok None)
                 = Ok (option_map (map (sel b)) pr)).
  { destruct ((0 <? n) && hp); [|inversion Hpr; reflexivity].
    apply rbind_ok in Hpr as (x & Hx & E). inversion E; subst.
    rewrite (per_frame_row _ _ _ _ _ _ _ _ Hb Hx). reflexivity. }
  rewrite Hrv'. cbn [rbind]. rewrite Hpr'. cbn [rbind]. clear Hrv Hpr Hrv' Hpr'.
  destruct hr, hp; simpl in *.
  - destruct rv as [rv|]; [|discriminate]. destruct pr as [pr|]; [|discriminate]. simpl in *.
    inversion H; subst. rewrite !where_frames_row, eye_row by exact Hlt. reflexivity.
  - destruct rv as [rv|]; [|discriminate]. simpl in *.
    inversion H; subst. rewrite !where_frames_row, eye_row by exact Hlt. reflexivity.
  - destruct pr as [pr|]; [|discriminate]. simpl in *.
    inversion H; subst. rewrite !where_frames_row, eye_row by exact Hlt. reflexivity.
  - inversion H; subst. rewrite eye_row by exact Hlt. reflexivity.
Qed.

Lemma map_set_nth {X Y} (g : X -> Y) i v l : map g (set_nth i v l) = set_nth i (g v) (map g l).
Proof. revert i; induction l; destruct i; simpl; f_equal; auto. Qed.
Lemma map_scatter {X Y} (g : X -> Y) idxs : forall vals arr,
  map (option_map g) (scatter idxs vals arr) = scatter idxs (map g vals) (map (option_map g) arr).
Proof.
  induction idxs as [|i ir IH]; destruct vals; simpl; intros; auto. rewrite IH, map_set_nth. reflexivity.
Qed.
Lemma get_map {X Y} (g : X -> Y) l i x : get l i = Ok x -> get (map g l) i = Ok (g x).
Proof. rewrite !get_ok. intros H. rewrite nth_error_map, H. reflexivity. Qed.
Lemma of_opt_ok {X} e (o : option X) x : of_opt e o = Ok x -> o = Some x.
Proof. destruct o; simpl; intros H; inversion H; reflexivity. Qed.
Lemma read_slot_map {X Y} (g : X -> Y) arr i x : read_slot arr i = Ok x ->
  read_slot (map (option_map g) arr) i = Ok (g x).
Proof.
  unfold read_slot. intros H. apply rbind_ok in H as (o & Ho & H). apply of_opt_ok in H; subst.
  rewrite (get_map (option_map g) _ _ _ Ho). reflexivity.
Qed.

Lemma fk_level_row dpar locals b level arr arr' :
  fk_level O dpar locals arr level = Ok arr' ->
  fk_level O dpar (map (sel b) locals) (map (option_map (sel b)) arr) level = Ok (map (option_map (sel b)) arr').
Proof.
  unfold fk_level. intros H. apply rbind_ok in H as (vals & Hv & H). inversion H; subst.
  erewrite (rmap_map _ _ (sel b) level vals); [|  |exact Hv].
  - cbn [rbind]. rewrite map_scatter. reflexivity.
  - intros i y _ E. apply rbind_ok in E as (par & Hp & E). apply rbind_ok in E as (p & Hpp & E).
    apply rbind_ok in E as (tp & Ht & E). apply rbind_ok in E as (lo & Hlo & E). inversion E; subst.
    rewrite Hp. cbn [rbind]. rewrite Hpp. cbn [rbind]. rewrite (read_slot_map (sel b) _ _ _ Ht). cbn [rbind].
    rewrite (get_map (sel b) _ _ _ Hlo). cbn [rbind]. rewrite sel_zip. reflexivity.
Qed.
Lemma fk_levels_row dpar locals b levels : forall arr arr',
  fk_levels O dpar locals arr levels = Ok arr' ->
  fk_levels O dpar (map (sel b) locals) (map (option_map (sel b)) arr) levels = Ok (map (option_map (sel b)) arr').
Proof.
  induction levels as [|l r IH]; simpl; intros arr arr' H; [inversion H; reflexivity|].
  apply rbind_ok in H as (a & Ha & H). rewrite (fk_level_row _ _ b _ _ _ Ha). cbn [rbind]. auto.
Qed.

Lemma zip_map_sel static : forall (jt : list (list T)) b,
  zip_with (fun so row => map (t_mul O so) row) static (map (sel b) jt)
  = map (sel b) (zip_with (fun so row => map (t_mul O so) row) static jt).
Proof. induction static as [|s l IH]; destruct jt; simpl; intros; auto. rewrite IH, sel_map. reflexivity. Qed.

Lemma map_repeat' {X Y} (g : X -> Y) x n : map g (repeat x n) = repeat (g x) n.
Proof. induction n; simpl; f_equal; auto. Qed.

Theorem fk_row (c : chain T A) n rows b r arr :
  nth_error rows b = Some r ->
  forward_kinematics_tensor O c (mkTh n rows) = Ok arr ->
  forward_kinematics_tensor O c (mkTh n [r]) = Ok (map (option_map (sel b)) arr).
Proof.
  intros Hb H. unfold forward_kinematics_tensor, fk_impl in *.
  apply rbind_ok in H as (jt & Hjt & H). rewrite (joint_transforms_row _ _ _ _ _ _ _ _ _ _ _ Hb Hjt). cbn [rbind].
  cbv zeta in *. rewrite zip_map_sel.
  set (locals := zip_with (fun so row => map (t_mul O so) row) (c_static c) jt) in *.
  apply rbind_ok in H as (l0 & Hl0 & H). rewrite Hl0. cbn [rbind].
  apply rbind_ok in H as (v0 & Hv0 & H).
  rewrite (rmap_map (get locals) (get (map (sel b) locals)) (sel b) l0 v0); [|intros; apply get_map; assumption|exact Hv0].
  cbn [rbind]. apply (fk_levels_row _ _ b) in H. rewrite map_scatter, map_repeat' in H. exact H.
Qed.
End Rows.

(** ** Geometry of a single joint (4x4 form, as used by forward kinematics) *)
Lemma rot44_add k a b : unit3 k ->
  m4mul (axis_and_angle_to_matrix_44 k a) (axis_and_angle_to_matrix_44 k b) = axis_and_angle_to_matrix_44 k (a + b).
Proof.
  intros H. rewrite !rot44_aff, aff_mul, rot33_add, m3vec_0, vadd_0_l by exact H. reflexivity.
Qed.
Lemma rot44_0 k : axis_and_angle_to_matrix_44 k 0 = I4.
Proof. rewrite rot44_aff, rot33_0. apply aff_I. Qed.
Lemma rot33_2pi_Z k t (z : Z) : axis_and_angle_to_matrix_33 k (t + 2 * IZR z * PI)%R = axis_and_angle_to_matrix_33 k t.
Proof.
  destruct (Z_le_gt_dec 0 z) as [H|H].
  - rewrite <- (Z2Nat.id z H), <- INR_IZR_INZ. apply rot33_2pi.
  - rewrite <- (rot33_2pi k (t + 2 * IZR z * PI) (Z.to_nat (- z))). rewrite INR_IZR_INZ, Z2Nat.id by lia.
    rewrite opp_IZR. f_equal. ring.
Qed.
Lemma rot44_2pi_Z k t (z : Z) : axis_and_angle_to_matrix_44 k (t + 2 * IZR z * PI)%R = axis_and_angle_to_matrix_44 k t.
Proof. rewrite !rot44_aff, rot33_2pi_Z. reflexivity. Qed.

(** frame.py:132-148 [Frame.get_transform] for a batch of joint values; [Transform3d.compose] is the matrix
    product with broadcasting of the single offset. *)
Definition frame_get_transform (f : mframe) (theta : list R) : list M4 :=
  let t := match j_type (f_joint f) with
           | Revolute => map (fun q => aff (axis_and_angle_to_matrix_33 (j_axis (f_joint f)) q) vzero) theta
           | Prismatic => map (fun q => aff I3 (vscale q (j_axis (f_joint f)))) theta
           | Fixed => map (fun _ => I4) theta
           end in
  match j_off (f_joint f) with None => t | Some o => map (m4mul o) t end.

Lemma get_transform_rel (f : mframe) v qs : qs = map (fun c : config => c (j_name (f_joint f))) v ->
  map (m4mul (or_one mops (l_off (f_link f)))) (frame_get_transform f qs) = map (fun c => rel_pose mops c f) v.
Proof.
  intros ->. unfold frame_get_transform, rel_pose, joint_motion. cbn [t_mul mops t_rev t_pris t_one].
  destruct (j_type (f_joint f)), (j_off (f_joint f)); rewrite ?map_map; apply map_ext; intros c;
    cbn [or_one t_one mops]; rewrite <- ?m4mul_assoc, ?m4mul_1_l, ?pris_aff; reflexivity.
Qed.

(** ** get_joints *)
Section Joints.
Context {T A : Type}.
Notation frame := (frame T A).
Lemma get_joints_true (root : frame) : get_joints true root = map f_joint (filter moving (preorder root)).
Proof. apply get_joints_spec. Qed.
Lemma get_joints_false (root : frame) :
  get_joints false root = map f_joint (filter moving (flat_map preorder (f_children root))).
Proof.
  destruct root as [n l j cs]. unfold get_joints. simpl. induction cs as [|c r IH]; simpl; [reflexivity|].
  rewrite filter_app, map_app. f_equal; [apply get_joints_spec | exact IH].
Qed.
End Joints.
