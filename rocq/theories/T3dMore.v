(** transform3d.py: reachable transforms, normals, shape operators, elementary transforms, the constructor. *)
From Coq Require Import Reals Lra String Ascii Bool Arith ZArith Lia List.
From Verif Require Import Prelude ExtF Lin Trig RotModel RotBasic QuatProofs EulerProofs T3dModel T3dProofs.
Import ListNotations.
Local Open Scope R_scope.

(** ** Element-wise form of a broadcast over point lists *)
Lemma bb_map_spec {A B M} (g : M -> A -> B) b (ms : list M) : compatible (length b) (length ms) ->
  exists out, broadcast_bmm (fun ps m => map (g m) ps) b ms = Ok out /\
    length out = (if (length b =? 1)%nat then length ms else length b) /\
    forall i, (i < length out)%nat -> exists row m orow,
      nth_error b (if (length b =? 1)%nat then 0 else i) = Some row /\
      nth_error ms (if (length ms =? 1)%nat then 0 else i) = Some m /\
      nth_error out i = Some orow /\ length orow = length row /\
      forall j x, nth_error row j = Some x -> nth_error orow j = Some (g m x).
Proof.
  intros H. destruct (bb_spec (fun ps m => map (g m) ps) b ms) as [S _].
  destruct (S H) as (out & E & L & N). exists out. split; [exact E|]. split; [exact L|].
  intros i Hi. destruct (N i Hi) as (row & m & H1 & H2 & H3). exists row, m, (map (g m) row).
  split; [exact H1|]. split; [exact H2|]. split; [exact H3|]. split; [apply map_length|].
  intros j x Hx. rewrite nth_error_map, Hx. reflexivity.
Qed.

(** points of an affine transform, entry by entry *)
Lemma points_spec t b : all_affine t -> compatible (length b) (tlen t) ->
  exists out, transform_points t None (T3 b) = Ok (T3 out) /\
    length out = (if (length b =? 1)%nat then tlen t else length b) /\
    forall i, (i < length out)%nat -> exists row M orow,
      nth_error b (if (length b =? 1)%nat then 0 else i) = Some row /\
      nth_error (tm t) (if (tlen t =? 1)%nat then 0 else i) = Some M /\
      nth_error out i = Some orow /\ length orow = length row /\
      forall j p, nth_error row j = Some p -> nth_error orow j = Some (vadd (m3vec (rotp M) p) (trp M)).
Proof.
  intros A H. rewrite transform_points_alt. destruct (bb_map_spec act b (tm t) H) as (out & E & L & N).
  unfold actl. simpl. rewrite E. simpl. exists out. split; [reflexivity|]. split; [exact L|].
  intros i Hi. destruct (N i Hi) as (row & M & orow & H1 & H2 & H3 & H4 & H5). exists row, M, orow.
  split; [exact H1|]. split; [exact H2|]. split; [exact H3|]. split; [exact H4|].
  intros j p Hj. rewrite (H5 j p Hj). f_equal. apply act_affine, A. eapply nth_error_In, H2.
Qed.
Lemma points_incompatible t b : ~ compatible (length b) (tlen t) -> transform_points t None (T3 b) = Err ValueError.
Proof. intros H. rewrite transform_points_alt. simpl. rewrite bb_err by exact H. reflexivity. Qed.
(** a (P, 3) tensor is used as a batch of one, and comes back as (P, 3) for a single transform *)
Lemma points_2d t l : transform_points t None (T2 l) =
  match tm t with
  | [M] => Ok (T2 (map (act M) l))
  | ms => Ok (T3 (map (fun M => map (act M) l) ms))
  end.
Proof.
  rewrite transform_points_alt. simpl. rewrite bb_l. destruct (tm t) as [|M [|M' r]]; reflexivity.
Qed.

(** the optional clamp of the denominator has no effect on affine transforms when eps <= 1 *)
Lemma points_eps t e p : all_affine t -> e <= 1 -> transform_points t (Some e) p = transform_points t None p.
Proof.
  intros A He.
  assert (H : forall M q, In M (tm t) -> dehom (Some e) (v4row (hom q) (m4tr M)) = dehom None (v4row (hom q) (m4tr M))).
  { intros M q HM. rewrite v4row_tr, hom_affine by (apply A, HM). unfold dehom, hom. cbn [v0 v1 v2 v3].
    replace ((Rsign 1 + (if Reqb 1 0 then 1 else 0)) * Rmax (Rabs 1) e) with 1; [reflexivity|].
    unfold Rsign. assert (Rltb 0 1 = true) as -> by (apply Rltb_true; lra).
    assert (Reqb 1 0 = false) as -> by (apply Reqb_false; lra). rewrite Rabs_R1, Rmax_left by exact He. ring. }
  unfold transform_points. destruct p as [l|b|]; [| |reflexivity]; rewrite bb_map_r.
  - rewrite !bb_l. simpl. rewrite !map_map. do 2 f_equal. apply map_ext_in. intros M HM. rewrite !map_map.
    apply map_ext. intros q. apply H, HM.
  - set (f := fun (x : list V3) (y : M4) => map (fun q => v4row (hom q) (m4tr y)) x).
    assert (K : (do c <- broadcast_bmm f b (tm t); Ok (map (map (dehom (Some e))) c)) =
                (do c <- broadcast_bmm f b (tm t); Ok (map (map (dehom None)) c))).
    { rewrite !bb_map_out. apply bb_ext. intros x M _ HM. unfold f. rewrite !map_map. apply map_ext. intros q. apply H, HM. }
    destruct (broadcast_bmm f b (tm t)) as [c|]; [|reflexivity]. simpl in K |- *.
    assert (K' : map (map (dehom (Some e))) c = map (map (dehom None)) c) by congruence. rewrite K'. reflexivity.
Qed.

(** ** The constructor *)
Lemma set_rot_pos T p A : affine T -> set_rot (set_pos T p) A = aff A p.
Proof. intros _. reflexivity. Qed.
Lemma zip_zip {B C} (f : M4 -> B -> M4) (g : M4 -> C -> M4) ms l r :
  zip_with g (zip_with f ms l) r = zip_with (fun m bc => g (f m (fst bc)) (snd bc)) ms (zip_with pair l r).
Proof.
  revert l r. induction ms as [|m ms IH]; intros [|b l] [|c r]; simpl; try reflexivity. rewrite IH. reflexivity.
Qed.
Lemma init_batch ps As : length ps = length As -> length ps <> 0%nat ->
  transform3d_init (MNone 1) (Pos2 ps) (RotMs As) = Ok (mkT KBase (zip_with aff As ps)).
Proof.
  intros H H0. unfold transform3d_init. simpl.
  assert (G : forall {X} (l : list X), length l <> 0%nat -> grow [I4] (length l) = repeat I4 (length l)).
  { intros X l Hl. unfold grow. destruct l as [|x [|y l]]; simpl in *; try lia; reflexivity. }
  rewrite (G _ ps H0). unfold cat_last. rewrite repeat_length, Nat.eqb_refl. simpl.
  assert (L : length (zip_with set_pos (repeat I4 (length ps)) ps) = length ps) by (rewrite zip_with_length, repeat_length; lia).
  assert (G2 : grow (zip_with set_pos (repeat I4 (length ps)) ps) (length As) = zip_with set_pos (repeat I4 (length ps)) ps).
  { unfold grow. rewrite L, <- H. destruct ps as [|p [|p' ps]]; simpl in *; try lia; reflexivity. }
  rewrite G2, L, H, Nat.eqb_refl. simpl. do 2 f_equal.
  clear - H. revert ps H. induction As as [|A As IH]; intros [|p ps] H; try discriminate; simpl; [reflexivity|].
  f_equal. apply IH. simpl in H; lia.
Qed.
Lemma init_single p A : transform3d_init (MNone 1) (Pos1 p) (RotM A) = Ok (mkT KBase [aff A p]).
Proof. reflexivity. Qed.
Lemma init_quat p q : transform3d_init (MNone 1) (Pos1 p) (RotQ q) = Ok (mkT KBase [aff (quaternion_to_matrix q) p]).
Proof. reflexivity. Qed.
Lemma init_euler p e : exists A, euler_angles_to_matrix e "XYZ" = Ok A /\ is_rot A /\
  transform3d_init (MNone 1) (Pos1 p) (RotE e) = Ok (mkT KBase [aff A p]).
Proof.
  eexists. split; [reflexivity|]. split; [|reflexivity]. apply (euler_rot e "XYZ"). reflexivity.
Qed.
(** rotation and position override those of the matrix, the rest is kept *)
Lemma init_override T p A : transform3d_init (MMat T) (Pos1 p) (RotM A) = Ok (mkT KBase [aff A p]) /\
  transform3d_init (MMat T) PosNone (RotM A) = Ok (mkT KBase [set_rot T A]) /\
  transform3d_init (MMat T) (Pos1 p) RotNone = Ok (mkT KBase [set_pos T p]) /\
  (affine T -> set_rot T A = aff A (trp T) /\ set_pos T p = aff (rotp T) p).
Proof.
  repeat split; try reflexivity.
  - destruct T. unfold affine, set_rot, aff, trp in *; simpl in *. destruct H as (-> & -> & -> & ->). reflexivity.
  - destruct T. unfold affine, set_pos, aff, rotp in *; simpl in *. destruct H as (-> & -> & -> & ->). reflexivity.
Qed.
(** a single position or rotation is not broadcast to a larger batch *)
Lemma init_no_broadcast n p A : (2 <= n)%nat ->
  transform3d_init (MNone n) (Pos1 p) RotNone = Err RuntimeError /\
  transform3d_init (MNone n) PosNone (RotM A) = Err RuntimeError.
Proof.
  intros H. unfold transform3d_init, init_matrix, init_pos, init_rot, cat_last. cbn [rbind].
  rewrite repeat_length. simpl length. destruct (Nat.eqb_spec n 1); [lia|]. split; reflexivity.
Qed.
(** three Euler triples are taken for a matrix *)
Lemma rows_ambiguous : exists e1 e2 e3 A1 A2 A3,
  euler_angles_to_matrix e1 "XYZ" = Ok A1 /\ euler_angles_to_matrix e2 "XYZ" = Ok A2 /\ euler_angles_to_matrix e3 "XYZ" = Ok A3 /\
  transform3d_init (MNone 1) PosNone (RotRows [e1; e2; e3]) <> Ok (mkT KBase [aff A1 vzero; aff A2 vzero; aff A3 vzero]) /\
  exists M, transform3d_init (MNone 1) PosNone (RotRows [e1; e2; e3]) = Ok (mkT KBase [M]) /\ ~ is_rigid M.
Proof.
  exists vzero, vzero, vzero. eexists; eexists; eexists.
  split; [reflexivity|]. split; [reflexivity|]. split; [reflexivity|]. split.
  - unfold transform3d_init; simpl. intros H. assert (K : forall a b, @Ok transform a = Ok b -> tlen a = tlen b) by (intros; congruence).
    apply K in H. discriminate.
  - eexists. split; [reflexivity|]. intros [_ [_ D]]. unfold set_rot in D; simpl in D. unfold det3 in D; simpl in D. lra.
Qed.
Lemma rows_euler es : length es <> 3%nat -> (2 <= length es)%nat ->
  exists As, rmap (fun e => euler_angles_to_matrix e "XYZ") es = Ok As /\
    transform3d_init (MNone 1) PosNone (RotRows es) = Ok (mkT KBase (map (fun A => aff A vzero) As)).
Proof.
  intros H3 H2. assert (E : exists As, rmap (fun e => euler_angles_to_matrix e "XYZ") es = Ok As).
  { eexists. apply (rmap_ok _ _ (fun e => m3mul (m3mul (mkM3 1 0 0 0 (cos (vx e)) (- sin (vx e)) 0 (sin (vx e)) (cos (vx e)))
      (mkM3 (cos (vy e)) 0 (sin (vy e)) 0 1 0 (- sin (vy e)) 0 (cos (vy e))))
      (mkM3 (cos (vz e)) (- sin (vz e)) 0 (sin (vz e)) (cos (vz e)) 0 0 0 1))). intros; reflexivity. }
  destruct E as [As E]. exists As. split; [exact E|]. unfold transform3d_init. simpl.
  destruct (Nat.eqb_spec (length es) 3) as [C|C]; [contradiction|].
  unfold default_euler_convention. rewrite E. simpl. pose proof (rmap_length _ _ _ E) as L.
  assert (G : grow [I4] (length es) = repeat I4 (length es)).
  { unfold grow. destruct es as [|x [|y l]]; simpl in *; try lia; reflexivity. }
  rewrite G. unfold cat_last. rewrite repeat_length, L, Nat.eqb_refl. simpl. do 2 f_equal. rewrite <- L. apply zip_repeat_l.
Qed.

(** ** Everything the API builds without a scale can be inverted *)
#[global] Arguments euler_angles_to_matrix : simpl never.
Definition rot_arg_ok (r : rot_arg) : Prop :=
  match r with
  | RotNone => True
  | RotQ q => qnorm2 q <> 0
  | RotQs l => forall q, In q l -> qnorm2 q <> 0
  | RotE _ => True
  | RotRows l => length l = 3%nat -> is_rot (rows_to_m3 l)
  | RotM A => is_rot A
  | RotMs l => forall A, In A l -> is_rot A
  end.
Definition mat_arg_ok (m : mat_arg) : Prop :=
  match m with MMat A => is_rigid A | MBatch l => forall A, In A l -> is_rigid A | _ => True end.
Inductive rigid_built : transform -> Prop :=
| rb_init m p r t : mat_arg_ok m -> rot_arg_ok r -> transform3d_init m p r = Ok t -> rigid_built t
| rb_Translate x y z t : Translate x y z = Ok t -> rigid_built t
| rb_Rotate r t : rot_arg_ok r -> Rotate r = Ok t -> rigid_built t
| rb_RotateAxisAngle a x d t : RotateAxisAngle a x d = Ok t -> rigid_built t
| rb_compose t l t' : rigid_built t -> rigid_built_all l -> compose t l = Ok t' -> rigid_built t'
| rb_stack t l : rigid_built t -> rigid_built_all l -> rigid_built (stack t l)
| rb_inverse t : rigid_built t -> rigid_built (inverse t)
| rb_clone t : rigid_built t -> rigid_built (clone t)
| rb_to s t : rigid_built t -> rigid_built (to s t)
| rb_getitem t i t' : rigid_built t -> tgetitem t i = Ok t' -> rigid_built t'
| rb_slice t a b : rigid_built t -> rigid_built (tslice t a b)
with rigid_built_all : list transform -> Prop :=
| rba_nil : rigid_built_all []
| rba_cons t l : rigid_built t -> rigid_built_all l -> rigid_built_all (t :: l).
Scheme rb_ind2 := Induction for rigid_built Sort Prop with rba_ind2 := Induction for rigid_built_all Sort Prop.
Combined Scheme rb_mut from rb_ind2, rba_ind2.

Definition good (t : transform) : Prop := wf t /\ tk t <> KScale /\ forall M, In M (tm t) -> is_rigid M.
Definition goods (l : list transform) : Prop := forall t, In t l -> good t.

Lemma good_base l : (forall M, In M l -> is_rigid M) -> good (mkT KBase l).
Proof. intros H. split; [intros M HM; apply (H M HM)|]. split; [discriminate | exact H]. Qed.
Lemma in_zip {A B C} (f : A -> B -> C) a b z : In z (zip_with f a b) -> exists x y, In x a /\ In y b /\ z = f x y.
Proof.
  revert b. induction a as [|x a IH]; intros [|y b] H; simpl in H; try contradiction.
  destruct H as [<-|H].
  - exists x, y. simpl. auto.
  - destruct (IH b H) as (x' & y' & H1 & H2 & H3). exists x', y'. simpl. auto.
Qed.
Lemma in_grow ms n M : In M (grow ms n) -> In M ms.
Proof.
  unfold grow. destruct ((1 <? n) && (length ms =? 1))%nat; [|tauto].
  destruct ms as [|x [|y r]]; simpl; try tauto. intros H. apply repeat_spec in H. auto.
Qed.
Lemma cat_in {B} (f : M4 -> B -> M4) ms l out M : cat_last f ms l = Ok out -> In M out ->
  exists T b, In T ms /\ In b l /\ M = f T b.
Proof.
  unfold cat_last. destruct (length ms =? length l)%nat; [|discriminate]. intros E HM.
  assert (out = zip_with f ms l) by congruence. subst. apply in_zip in HM. exact HM.
Qed.
Lemma rmap_in {A B} (f : A -> res B) l ys y : rmap f l = Ok ys -> In y ys -> exists x, In x l /\ f x = Ok y.
Proof.
  revert ys. induction l as [|x l IH]; simpl; intros ys H Hy.
  - assert (ys = []) by congruence. subst. contradiction.
  - destruct (f x) as [z|] eqn:E; [|discriminate]. simpl in H. destruct (rmap f l) as [zs|] eqn:E'; [|discriminate].
    simpl in H. assert (ys = z :: zs) by congruence. subst. destruct Hy as [<-|Hy].
    + exists x. auto.
    + destruct (IH zs eq_refl Hy) as (x' & H1 & H2). exists x'. auto.
Qed.
Lemma set_pos_rigid T p : is_rigid T -> is_rigid (set_pos T p).
Proof.
  intros [HA HR]. destruct (init_override T p I3) as (_ & _ & _ & H). destruct (H HA) as [_ ->]. apply is_rigid_aff, HR.
Qed.
Lemma set_rot_rigid T A : is_rigid T -> is_rot A -> is_rigid (set_rot T A).
Proof.
  intros [HA HR] H. destruct (init_override T vzero A) as (_ & _ & _ & E). destruct (E HA) as [-> _]. apply is_rigid_aff, H.
Qed.
Lemma init_rigid m p r t : mat_arg_ok m -> rot_arg_ok r -> transform3d_init m p r = Ok t -> good t.
Proof.
  intros Hm Hr. unfold transform3d_init.
  destruct (init_matrix m) as [ms|] eqn:E1; [|discriminate]. simpl.
  assert (R1 : forall M, In M ms -> is_rigid M).
  { intros M HM. destruct m; simpl in *; try discriminate.
    - assert (ms = repeat I4 n) by congruence. subst. apply repeat_spec in HM. subst. apply is_rigid_I.
    - assert (ms = [A]) by congruence. subst. destruct HM as [<-|[]]. exact Hm.
    - assert (ms = l) by congruence. subst. apply Hm, HM. }
  destruct (init_pos ms p) as [ms2|] eqn:E2; [|discriminate]. simpl.
  assert (R2 : forall M, In M ms2 -> is_rigid M).
  { intros M HM. destruct p; simpl in E2.
    - assert (ms2 = ms) by congruence. subst. auto.
    - destruct (cat_in _ _ _ _ _ E2 HM) as (T & b & H1 & _ & ->). apply set_pos_rigid, R1, H1.
    - destruct (cat_in _ _ _ _ _ E2 HM) as (T & b & H1 & _ & ->). apply set_pos_rigid, R1. eapply in_grow, H1.
    - destruct (cat_in _ _ _ _ _ E2 HM) as (T & b & H1 & _ & ->). apply set_pos_rigid, R1. eapply in_grow, H1. }
  destruct (init_rot ms2 r) as [ms3|] eqn:E3; [|discriminate]. simpl. intros E.
  assert (t = mkT KBase ms3) by congruence. subst. apply good_base. intros M HM.
  destruct r as [|q|qs|e|es|A|As]; cbn [init_rot rot_arg_ok] in E3, Hr.
  - assert (ms3 = ms2) by congruence. subst. auto.
  - destruct (cat_in _ _ _ _ _ E3 HM) as (T & b & H1 & Hb & ->). destruct Hb as [<-|[]].
    apply set_rot_rigid; [apply R2, H1 | apply q2m_rot, Hr].
  - destruct (cat_in _ _ _ _ _ E3 HM) as (T & b & H1 & Hb & ->). apply in_map_iff in Hb. destruct Hb as (q & <- & Hq).
    apply set_rot_rigid; [eapply R2, in_grow, H1 | apply q2m_rot, Hr, Hq].
  - destruct (euler_angles_to_matrix e default_euler_convention) as [A|] eqn:EE; [|discriminate].
    cbn [rbind] in E3. destruct (cat_in _ _ _ _ _ E3 HM) as (T & b & H1 & Hb & ->). destruct Hb as [<-|[]].
    apply set_rot_rigid; [apply R2, H1 | eapply euler_rot, EE].
  - destruct (length es =? 3)%nat eqn:El.
    + apply Nat.eqb_eq in El. destruct (cat_in _ _ _ _ _ E3 HM) as (T & b & H1 & Hb & ->). destruct Hb as [<-|[]].
      apply set_rot_rigid; [apply R2, H1 | apply Hr, El].
    + destruct (rmap _ es) as [As|] eqn:EE; [|discriminate]. cbn [rbind] in E3.
      destruct (cat_in _ _ _ _ _ E3 HM) as (T & b & H1 & Hb & ->).
      destruct (rmap_in _ _ _ _ EE Hb) as (e & _ & He).
      apply set_rot_rigid; [eapply R2, in_grow, H1 | eapply euler_rot, He].
  - destruct (cat_in _ _ _ _ _ E3 HM) as (T & b & H1 & Hb & ->). destruct Hb as [<-|[]].
    apply set_rot_rigid; [apply R2, H1 | exact Hr].
  - destruct (cat_in _ _ _ _ _ E3 HM) as (T & b & H1 & Hb & ->).
    apply set_rot_rigid; [eapply R2, in_grow, H1 | apply Hr, Hb].
Qed.
Lemma Rotate_good r t : rot_arg_ok r -> Rotate r = Ok t -> good t.
Proof.
  intros Hr E.
  assert (K : exists As, t = mkT KRotate (map rotate_matrix As) /\ forall A, In A As -> is_rot A).
  { destruct r as [|q|qs|e|es|A|As]; unfold Rotate in E; cbn [rbind] in E; simpl in Hr; try discriminate.
    - exists [quaternion_to_matrix q]. split; [congruence|]. intros A [<-|[]]. apply q2m_rot, Hr.
    - exists (map quaternion_to_matrix qs). split; [congruence|]. intros A HA. apply in_map_iff in HA.
      destruct HA as (q & <- & Hq). apply q2m_rot, Hr, Hq.
    - destruct (euler_angles_to_matrix e default_euler_convention) as [A|] eqn:EE; [|discriminate].
      exists [A]. split; [cbn [rbind] in E; congruence|]. intros A' [<-|[]]. eapply euler_rot, EE.
    - destruct (length es =? 3)%nat eqn:El.
      + exists [rows_to_m3 es]. split; [cbn [rbind] in E; congruence|]. intros A [<-|[]]. apply Hr, Nat.eqb_eq, El.
      + destruct (rmap _ es) as [As|] eqn:EE; [|discriminate]. exists As. split; [cbn [rbind] in E; congruence|].
        intros A HA. destruct (rmap_in _ _ _ _ EE HA) as (e & _ & He). eapply euler_rot, He.
    - exists [A]. split; [congruence|]. intros A' [<-|[]]. exact Hr.
    - exists As. split; [congruence|]. exact Hr. }
  destruct K as (As & -> & H). split; [|split; [discriminate|]].
  - intros M HM. simpl in *. apply in_map_iff in HM. destruct HM as (A & <- & _). exists A. reflexivity.
  - intros M HM. simpl in *. apply in_map_iff in HM. destruct HM as (A & <- & HA). rewrite rotate_aff. apply is_rigid_aff, H, HA.
Qed.
Definition axis_vec (a : ascii) : V3 :=
  if Ascii.eqb a "X" then mkV3 1 0 0 else if Ascii.eqb a "Y" then mkV3 0 1 0 else mkV3 0 0 1.
Lemma axis_vec_unit a : unit3 (axis_vec a).
Proof. unfold axis_vec. destruct (Ascii.eqb a "X"), (Ascii.eqb a "Y"); lin_simpl; ring. Qed.
Lemma axis_rotation_33 a t : is_letter a = true -> axis_angle_rotation a t = Ok (axis_and_angle_to_matrix_33 (axis_vec a) t).
Proof.
  unfold is_letter, axis_angle_rotation, axis_vec, axis_and_angle_to_matrix_33.
  destruct (Ascii.eqb a "X"); [|destruct (Ascii.eqb a "Y"); [|destruct (Ascii.eqb a "Z"); [|discriminate]]];
    intros _; cbn [vx vy vz]; set (c := cos t); set (s := sin t); clearbody c s; f_equal; apply mkM3_eq; ring.
Qed.
Lemma one_letter_ok s a : one_letter s = Ok a -> is_letter a = true /\ exists c, s = String c EmptyString /\ a = upper_ascii c.
Proof.
  destruct s as [|c [|c' s]]; simpl; try discriminate. destruct (is_letter (upper_ascii c)) eqn:E; [|discriminate].
  intros H. assert (a = upper_ascii c) by congruence. subst. eauto.
Qed.
Lemma RotateAxisAngle_eq angle axis degrees t : RotateAxisAngle angle axis degrees = Ok t ->
  exists a c l, axis = String c EmptyString /\ a = upper_ascii c /\ is_letter a = true /\ handle_angle_input angle = Ok l /\
    t = mkT KRotate (map (fun th => rotate_matrix (axis_and_angle_to_matrix_33 (axis_vec a)
          (if degrees then th / 180 * PI else th))) l).
Proof.
  unfold RotateAxisAngle. destruct (one_letter axis) as [a|] eqn:Ea; [|discriminate]. simpl.
  destruct (handle_angle_input angle) as [l|] eqn:El; [|discriminate]. simpl.
  destruct (one_letter_ok _ _ Ea) as (Hl & c & -> & Ha).
  rewrite (rmap_ok _ _ (axis_and_angle_to_matrix_33 (axis_vec a))) by (intros; apply axis_rotation_33, Hl).
  cbn [rbind]. unfold Rotate. cbn [rbind]. intros H. exists a, c, l. split; [reflexivity|]. split; [exact Ha|]. split; [exact Hl|]. split; [reflexivity|].
  assert (Ht : t = mkT KRotate (map rotate_matrix (map (axis_and_angle_to_matrix_33 (axis_vec a))
     (if degrees then map (fun t0 : R => t0 / 180 * PI) l else l)))) by congruence.
  rewrite Ht. f_equal. destruct degrees; rewrite !map_map; reflexivity.
Qed.
Lemma compose_good ts : forall t t', good t -> goods ts -> compose t ts = Ok t' -> good t'.
Proof.
  induction ts as [|o ts IH]; intros t t' Gt Gs E.
  - unfold compose in E; simpl in E. assert (t' = mkT KBase (tm t)) by congruence. subst. apply good_base, Gt.
  - rewrite compose_many in E. rewrite compose1 in E.
    destruct (broadcast_bmm m4mul (tm t) (tm o)) as [ms|] eqn:Em; [|discriminate]. cbn [rbind] in E.
    apply (IH (mkT KBase ms) t'); [|intros x Hx; apply Gs; right; exact Hx | exact E].
    apply good_base. intros M HM. destruct (bb_in _ _ _ _ _ Em HM) as (A & B & HA & HB & ->).
    apply is_rigid_mul; [apply Gt, HA | apply (Gs o (or_introl eq_refl)), HB].
Qed.
Lemma good_inverse t : good t -> good (inverse t).
Proof.
  intros (W & K & H). apply good_base. intros M HM. apply in_map_iff in HM. destruct HM as (A & <- & HA).
  destruct (inverse_one (tk t) A (W A HA)) as (_ & _ & R & _); [|apply R, K].
  specialize (H A HA). destruct (tk t); simpl; try exact H. congruence.
Qed.
Lemma built_good : (forall t, rigid_built t -> good t) /\ (forall l, rigid_built_all l -> goods l).
Proof.
  apply (rb_mut (fun t _ => good t) (fun l _ => goods l)).
  - intros. eapply init_rigid; eassumption.
  - intros x y z t E. unfold Translate in E. destruct (handle_input x y z false) as [l|]; [|discriminate]. simpl in E.
    assert (t = mkT KTranslate (map translate_matrix l)) by congruence. subst. split; [|split; [discriminate|]].
    + intros M HM. simpl in *. apply in_map_iff in HM. destruct HM as (v & <- & _). exists v; reflexivity.
    + intros M HM. simpl in *. apply in_map_iff in HM. destruct HM as (v & <- & _). rewrite translate_aff.
      apply is_rigid_aff, is_rot_I.
  - intros. eapply Rotate_good; eassumption.
  - intros a x d t E. destruct (RotateAxisAngle_eq _ _ _ _ E) as (b & c & l & _ & _ & _ & _ & ->).
    split; [|split; [discriminate|]].
    + intros M HM. simpl in *. apply in_map_iff in HM. destruct HM as (v & <- & _). eexists; reflexivity.
    + intros M HM. simpl in *. apply in_map_iff in HM. destruct HM as (v & <- & _). rewrite rotate_aff.
      apply is_rigid_aff, rot33_rot, axis_vec_unit.
  - intros t l t' _ Gt _ Gl E. eapply compose_good; eassumption.
  - intros t l _ Gt _ Gl. apply good_base. intros M HM. apply in_app_or in HM. destruct HM as [HM|HM]; [apply Gt, HM|].
    apply in_concat in HM. destruct HM as (x & Hx & HM). apply in_map_iff in Hx. destruct Hx as (o & <- & Ho).
    apply (Gl o Ho), HM.
  - intros t _ Gt. apply good_inverse, Gt.
  - intros t _ Gt. apply good_base, Gt.
  - intros s t _ Gt. destruct s; [exact Gt | apply good_base, Gt].
  - intros t i t' _ Gt E. unfold tgetitem, py_index in E.
    destruct (((0 <=? _) && _)%Z); [|discriminate]. destruct (get (tm t) _) as [A|] eqn:EA; [|discriminate]. simpl in E.
    assert (t' = mkT KBase [A]) by congruence. subst. apply good_base. intros M [<-|[]]. apply Gt.
    apply get_ok in EA. eapply nth_error_In, EA.
  - intros t a b _ Gt. apply good_base. intros M HM. apply Gt.
    rewrite <- (firstn_skipn b (tm t)). apply in_or_app. left.
    rewrite <- (firstn_skipn a (firstn b (tm t))). apply in_or_app. right. exact HM.
  - intros t [].
  - intros t l _ Gt _ Gl x [<-|Hx]; [exact Gt | apply Gl, Hx].
Qed.
Lemma good_invertible t M : good t -> In M (tm t) -> invertible_by (tk t) M.
Proof. intros (_ & K & H) HM. specialize (H M HM). destruct (tk t); simpl; try exact H. congruence. Qed.

(** the constructor of Scale keeps its matrices invertible by class *)
Lemma Scale_inv x y z t : Scale x y z = Ok t -> wf t /\ tk t = KScale.
Proof.
  unfold Scale. destruct (handle_input x y z true) as [l|]; [|discriminate]. simpl. intros E.
  assert (t = mkT KScale (map scale_matrix l)) by congruence. subst. split; [|reflexivity].
  intros M HM. simpl in *. apply in_map_iff in HM. destruct HM as (v & <- & _). exists v; reflexivity.
Qed.

(** a scale of 2, once cloned, sliced, indexed or composed, is not inverted *)
Lemma scale_refuted : exists s, Scale (CScalar 2) None None = Ok s /\
  (exists a, compose (inverse s) [s] = Ok a /\ tm a = [I4]) /\
  (exists a, compose (inverse (clone s)) [clone s] = Ok a /\ tm a <> [I4]) /\
  (exists g a, tgetitem s 0 = Ok g /\ compose (inverse g) [g] = Ok a /\ tm a <> [I4]) /\
  (exists c a, compose identity_t [s] = Ok c /\ compose (inverse c) [c] = Ok a /\ tm a <> [I4]).
Proof.
  eexists. split; [reflexivity|].
  set (S := scale_matrix (mkV3 2 2 2)).
  assert (A : affine S) by (repeat split).
  assert (N : m4mul (invert_transformation_matrix S) S <> I4).
  { intros H. apply (invert_iff S A) in H. apply (f_equal m00) in H. unfold S, scale_matrix in H. lin_simpl. lra. }
  assert (B : forall l, l = [S] -> exists a, compose (inverse (mkT KBase l)) [mkT KBase l] = Ok a /\ tm a <> [I4]).
  { intros l ->. eexists. split; [reflexivity|]. simpl. intros H. apply N.
    assert (K : forall (a b : M4), [a] = [b] -> a = b) by (intros; congruence). apply K, H. }
  split.
  - eexists. split; [reflexivity|]. simpl. f_equal. apply scale_inverse_ok; simpl; lra.
  - split; [apply B; reflexivity|]. split.
    + eexists. destruct (B [S] eq_refl) as (a & Ha & Hn). exists a. split; [reflexivity|]. split; [exact Ha | exact Hn].
    + eexists. destruct (B [S] eq_refl) as (a & Ha & Hn). exists a. split; [|split; [exact Ha | exact Hn]].
      rewrite (proj2 (compose_id _)). reflexivity.
Qed.
