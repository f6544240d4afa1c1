(** Last steps of the proofs quoted in Properties_RJac.v. *)
From Coq Require Import ZArith Reals Lra Psatz String Bool Arith Lia List Permutation.
From Verif Require Import Prelude ExtF Tree ChainModel SpecFK ChainProofs Input Lin Trig RotModel RotBasic ChainInst Examples SerialModel SerialProofs SerialMore Deriv
  JacModel JacProofs JacMore SpecRound RoundNorm RoundModel RoundProofs RoundChain RoundFloat RoundFinal RoundJacModel SpecRoundJac RoundJacProofs RoundJacChain RoundJacTool.
Import ListNotations.
Local Open Scope string_scope.
Local Open Scope list_scope.
Local Open Scope R_scope.

Lemma path_names_close a o fs' fs : Forall2 (close_node a o) fs' fs -> path_names fs' = path_names fs.
Proof.
  unfold path_names. induction 1 as [|x y l m Hxy _ IH]; [reflexivity|]. cbn [filter]. rewrite (close_node_moving _ _ _ _ Hxy).
  destruct (moving y); cbn [map]; [|exact IH]. f_equal; [apply Hxy|exact IH].
Qed.
Lemma chain_names_raw (O : Ops M4 V3 R) (r : mframe) fs s : serial_tables O zax s r fs -> c_names (s_chain s) = path_names fs.
Proof. intros (Hc & _). rewrite (ct_names _ _ _ (chain_root O _ _ Hc)). apply sroot_moving_names. Qed.
Lemma col_within_le l1 l2 a1 a2 f c' c : l1 <= l2 -> a1 <= a2 -> col_within l1 a1 f c' c -> col_within l2 a2 f c' c.
Proof. unfold col_within. intros H1 H2. destruct (jtype_eqb _ _); intros H; [destruct H; split; lra|]. destruct H as (H & E). split; [lra|exact E]. Qed.
Lemma jac_within_le l1 l2 a1 a2 fs J' J : l1 <= l2 -> a1 <= a2 -> jac_within l1 a1 fs J' J -> jac_within l2 a2 fs J' J.
Proof. intros H1 H2. induction 1; constructor; [eapply col_within_le; eassumption|assumption]. Qed.
Lemma forall2_map_both {X Y} (P : X -> Y -> Prop) (h : Y -> X) l : (forall y, P (h y) y) -> Forall2 P (map h l) l.
Proof. intros H. induction l; constructor; auto. Qed.
Lemma pose_jacobian v (fs : list mframe) : (forall f, In f fs -> rigid_frame f) -> NoDup (path_names fs) ->
  is_jacobian (fun v => pose v fs) (path_names fs) v (map (col_of v (pose v fs)) (mov [] fs)).
Proof.
  intros H1 H2. pose proof (cols_jacobian v fs I4 H1 H2 (proj1 is_rigid_I)) as (L & D).
  rewrite m4mul_1_r in *. split; [exact L|]. intros j n lin ang E1 E2. specialize (D j n lin ang E1 E2).
  eapply is_derive4_ext; [intros t; apply m4mul_1_r | exact D].
Qed.

(** the constants *)
Lemma jac_consts e N x : 0 <= e -> 1 <= N -> 105 * N * e <= 1 / 2 -> 1 <= x -> x <= 1 + 210 * N * e ->
  let Z := x * (1 + 2 * ((1 + e) ^ 3 - 1)) * (1 + 2 * e) in
  Z - 1 <= 230 * N * e /\ (1 + 2 * ((1 + e) ^ 2 - 1)) * Z * ((1 + e) * x) - 1 <= 700 * N * e.
Proof.
  intros He HN Hb H1 Hx Z. set (E := N * e) in *. assert (HE : 0 <= e <= E) by (unfold E; split; nra).
  replace (105 * N * e) with (105 * E) in Hb by (unfold E; ring). replace (210 * N * e) with (210 * E) in Hx by (unfold E; ring).
  replace (230 * N * e) with (230 * E) by (unfold E; ring). replace (700 * N * e) with (700 * E) by (unfold E; ring). clearbody E.
  assert (Es : e <= / 210) by lra. assert (S2 : e * e <= / 210 * e) by (apply Rmult_le_compat_r; lra). assert (P2 : 0 <= e * e) by nra.
  assert (S3 : e * e * e <= / 210 * (e * e)) by (rewrite (Rmult_comm (/ 210)); apply Rmult_le_compat_l; lra).
  assert (G : 1 + 2 * ((1 + e) ^ 3 - 1) <= 1 + (61 / 10) * e) by (cbn [pow]; lra).
  assert (G1 : 1 <= 1 + 2 * ((1 + e) ^ 3 - 1)) by (cbn [pow]; nra).
  assert (H : 1 + 2 * ((1 + e) ^ 2 - 1) <= 1 + (41 / 10) * e) by (cbn [pow]; lra).
  assert (H0 : 1 <= 1 + 2 * ((1 + e) ^ 2 - 1)) by (cbn [pow]; nra).
  assert (K1 : (1 + 2 * ((1 + e) ^ 3 - 1)) * (1 + 2 * e) <= 1 + (82 / 10) * e).
  { apply Rle_trans with ((1 + (61 / 10) * e) * (1 + 2 * e)); [apply Rmult_le_compat_r; lra|]. lra. }
  assert (K2 : (1 + 2 * ((1 + e) ^ 2 - 1)) * (1 + e) <= 1 + (52 / 10) * e).
  { apply Rle_trans with ((1 + (41 / 10) * e) * (1 + e)); [apply Rmult_le_compat_r; lra|]. lra. }
  assert (K0 : 1 <= (1 + 2 * ((1 + e) ^ 3 - 1)) * (1 + 2 * e)) by nra.
  assert (K3 : 1 <= (1 + 2 * ((1 + e) ^ 2 - 1)) * (1 + e)) by nra.
  assert (SE : E * E <= / 210 * E) by (apply Rmult_le_compat_r; lra). assert (SeE : E * e <= / 210 * E) by (rewrite Rmult_comm; apply Rmult_le_compat_r; lra).
  assert (HZ : Z <= 1 + 228 * E).
  { unfold Z. rewrite Rmult_assoc. apply Rle_trans with ((1 + 210 * E) * (1 + (82 / 10) * e)); [apply Rmult_le_compat; lra|]. nra. }
  assert (HZ1 : 1 <= Z) by (unfold Z; rewrite Rmult_assoc; nra).
  split; [lra|].
  replace ((1 + 2 * ((1 + e) ^ 2 - 1)) * Z * ((1 + e) * x)) with (((1 + 2 * ((1 + e) ^ 2 - 1)) * (1 + e)) * (Z * x)) by ring.
  assert (HZx : Z * x <= 1 + 667 * E).
  { apply Rle_trans with ((1 + 228 * E) * (1 + 210 * E)); [apply Rmult_le_compat; lra|]. lra. }
  assert (HZx0 : 1 <= Z * x) by nra.
  apply Rle_trans with ((1 + (52 / 10) * e) * (1 + 667 * E) - 1); [apply Rplus_le_compat_r; apply Rmult_le_compat; lra|]. lra.
Qed.

(** as many Jacobians as transforms *)
Lemma rmap_length {X Y} (f : X -> res Y) l : forall ys, rmap f l = Ok ys -> length ys = length l.
Proof.
  induction l as [|x l IH]; intros ys H; cbn [rmap] in H; [assert (E : [] = ys) by congruence; subst ys; reflexivity|]. destruct (f x) as [y|]; cbn [rbind] in H; [|discriminate].
  destruct (rmap f l) as [zs|]; cbn [rbind] in H; [|discriminate].
  assert (E : y :: zs = ys) by congruence. subst ys. cbn [length]. f_equal. apply IH. reflexivity.
Qed.
Lemma jacobian_rows (O : Ops M4 V3 R) o s th Js Ts : jacobian_with O o s th = Ok (Js, Ts) -> length Js = length Ts.
Proof.
  unfold jacobian_with, jacobian_from_with. destruct (forward_kinematics_tensor O (s_chain s) th) as [all|]; cbn [rbind]; [|discriminate].
  destruct (read_slot all (s_eef s)) as [T|]; cbn [rbind]; [|discriminate]. destruct (rmap (read_slot all) (s_dof_idx s)) as [D|]; cbn [rbind]; [|discriminate].
  destruct (batch_major _ _) as [J|] eqn:E; cbn [rbind]; [|discriminate]. intros H.
  assert (E1 : J = Js) by congruence. assert (E2 : T = Ts) by congruence. subst. unfold batch_major in E. apply rmap_length in E. etransitivity; [exact E|]. apply seq_length.
Qed.

Lemma rounded_serial (O : Ops M4 V3 R) a o (root' root r : mframe) c rn p fs :
  close_tree a o root' root -> distinct_joints root -> distinct_frames root -> clean_names root -> chain_init O root' = Ok c ->
  root_path root (p ++ [r]) -> ((rn = "" /\ r = root) \/ (rn <> "" /\ rn = f_name r)) -> root_path r (r :: fs) ->
  exists s r' fs', serial_init O zax c (f_name (last (r :: fs) r)) rn = Ok s /\ serial_tables O zax s r' fs' /\ In r' (preorder root') /\
    distinct_joints root' /\ distinct_frames root' /\ clean_names root' /\ root_path r' (r' :: fs') /\ f_name r' = f_name r /\ Forall2 (close_node a o) fs' fs /\
    path_names fs' = path_names fs /\ NoDup (path_names fs).
Proof.
  intros Hct Hdj Hdf Hcl Hi Hpr Hrn Hp.
  assert (Hdj' : distinct_joints root') by (unfold distinct_joints; rewrite (close_tree_moving _ _ _ _ Hct); exact Hdj).
  assert (Hdf' : distinct_frames root') by (unfold distinct_frames; rewrite (close_tree_names _ _ _ _ Hct); exact Hdf).
  pose proof (close_tree_clean _ _ _ _ Hct Hcl) as Hcl'.
  destruct (close_tree_sub a o p root' root r Hct Hpr) as (p' & r' & Hpr' & Hcr & _).
  destruct (close_tree_path a o (r :: fs) r' r Hcr Hp) as (fs0 & Hp' & HF).
  destruct (path_head _ _ Hp') as (fs' & ->). inversion HF as [|? ? ? ? Hn HF']; subst.
  assert (Er : f_name r' = f_name r) by apply Hn.
  assert (Hin' : In r' (preorder root')) by (eapply root_path_in; exact Hpr').
  assert (Hin : In r (preorder root)) by (eapply root_path_in; exact Hpr).
  assert (Hch : root_choice root' r' rn).
  { destruct Hrn as [(H1 & H2)|(H1 & H2)].
    - left. split; [exact H1|]. subst r.
      assert (Ef : f_name r' = f_name root') by (rewrite Er; symmetry; apply (close_tree_name _ _ _ _ Hct)).
      pose proof (find_frame_own root' r' Hdf' Hin') as F1. rewrite Ef, (find_frame_own root' root' Hdf') in F1 by (rewrite preorder_unfold; left; reflexivity). congruence.
    - right. split; [exact H1|]. split; [congruence|exact Hin']. }
  destruct (serial_ok O zax root' c rn r' fs' Hi Hdf' Hcl' Hch Hp') as (s & Hs & Ht).
  assert (El : f_name (last (r' :: fs') r') = f_name (last (r :: fs) r)).
  { rewrite !(last_map f_name), Er. f_equal. apply (forall2_map_eq (close_node a o)); [|exact HF]. intros x y Hxy. apply Hxy. }
  rewrite El in Hs. pose proof (path_names_close _ _ _ _ HF') as En.
  exists s, r', fs'. split; [exact Hs|]. split; [exact Ht|]. split; [exact Hin'|]. split; [exact Hdj'|]. split; [exact Hdf'|]. split; [exact Hcl'|].
  split; [exact Hp'|]. split; [exact Er|]. split; [exact HF'|]. split; [exact En|]. apply (nodup_path root r fs Hdj Hin Hp).
Qed.

Lemma f2_len {X Y} (P : X -> Y -> Prop) l m : Forall2 P l m -> length l = length m.
Proof. induction 1; cbn [length]; congruence. Qed.
Lemma nth_zip {X Y Z} (f : X -> Y -> Z) : forall l m b x y, nth_error l b = Some x -> nth_error m b = Some y -> nth_error (zip_with f l m) b = Some (f x y).
Proof. induction l as [|u l IH]; intros [|w m] [|b] x y H1 H2; cbn [nth_error zip_with] in *; try discriminate; [congruence|]. apply IH; assumption. Qed.
Lemma zip_length {X Y Z} (f : X -> Y -> Z) : forall l m, length l = length m -> length (zip_with f l m) = length l.
Proof. induction l as [|u l IH]; intros [|w m] H; cbn [length zip_with] in *; try lia. rewrite IH; lia. Qed.
Lemma forall2_nth_right {X Y} (P : X -> Y -> Prop) l m : Forall2 P l m -> forall b y, nth_error m b = Some y -> exists x, nth_error l b = Some x /\ P x y.
Proof. induction 1 as [|x y l m H _ IH]; intros [|b] z E; cbn [nth_error] in *; try discriminate; [|apply IH, E]. exists x. split; [reflexivity|]. congruence. Qed.
Lemma tool_consts e N x : 0 <= e -> 1 <= N -> 105 * N * e <= 1 / 2 -> 1 <= x -> x <= 1 + 210 * N * e ->
  let Z := x * (1 + 2 * ((1 + e) ^ 3 - 1)) * (1 + 2 * e) in let Y := x * (1 + 3 * e) * (1 + 3 * ((1 + e) ^ 4 - 1)) in
  Y - 1 <= 245 * N * e /\ (1 + e) * Z - 1 <= 235 * N * e /\ (1 + e) * ((1 + 2 * ((1 + e) ^ 2 - 1)) * Z * ((1 + e) * Y)) - 1 <= 800 * N * e.
Proof.
  intros He HN Hb H1 Hx Z Y. set (E := N * e) in *. assert (HE : 0 <= e <= E) by (unfold E; split; nra).
  replace (105 * N * e) with (105 * E) in Hb by (unfold E; ring). replace (210 * N * e) with (210 * E) in Hx by (unfold E; ring).
  replace (245 * N * e) with (245 * E) by (unfold E; ring). replace (235 * N * e) with (235 * E) by (unfold E; ring). replace (800 * N * e) with (800 * E) by (unfold E; ring). clearbody E.
  assert (Es : e <= / 210) by lra. assert (S2 : e * e <= / 210 * e) by (apply Rmult_le_compat_r; lra). assert (P2 : 0 <= e * e) by nra.
  assert (S3 : e * e * e <= / 210 * (e * e)) by (rewrite (Rmult_comm (/ 210)); apply Rmult_le_compat_l; lra).
  assert (P3 : 0 <= e * e * e) by nra.
  assert (S4 : e * e * e * e <= / 210 * (e * e * e)) by (rewrite (Rmult_comm (/ 210)); apply Rmult_le_compat_l; lra).
  assert (G : 1 + 2 * ((1 + e) ^ 3 - 1) <= 1 + (61 / 10) * e) by (cbn [pow]; lra).
  assert (G1 : 1 <= 1 + 2 * ((1 + e) ^ 3 - 1)) by (cbn [pow]; nra).
  assert (G4 : 1 + 3 * ((1 + e) ^ 4 - 1) <= 1 + (122 / 10) * e) by (cbn [pow]; lra).
  assert (G5 : 1 <= 1 + 3 * ((1 + e) ^ 4 - 1)) by (pose proof (pow_R1_Rle (1 + e) 4 ltac:(lra)); lra).
  assert (H : 1 + 2 * ((1 + e) ^ 2 - 1) <= 1 + (41 / 10) * e) by (cbn [pow]; lra).
  assert (H0 : 1 <= 1 + 2 * ((1 + e) ^ 2 - 1)) by (cbn [pow]; nra).
  assert (K1 : (1 + 2 * ((1 + e) ^ 3 - 1)) * (1 + 2 * e) <= 1 + (82 / 10) * e).
  { apply Rle_trans with ((1 + (61 / 10) * e) * (1 + 2 * e)); [apply Rmult_le_compat_r; lra|]. lra. }
  assert (K0 : 1 <= (1 + 2 * ((1 + e) ^ 3 - 1)) * (1 + 2 * e)) by nra.
  assert (K4 : (1 + 3 * e) * (1 + 3 * ((1 + e) ^ 4 - 1)) <= 1 + (155 / 10) * e).
  { apply Rle_trans with ((1 + 3 * e) * (1 + (122 / 10) * e)); [apply Rmult_le_compat_l; lra|]. lra. }
  assert (K5 : 1 <= (1 + 3 * e) * (1 + 3 * ((1 + e) ^ 4 - 1))) by nra.
  assert (K2 : (1 + e) * (1 + 2 * ((1 + e) ^ 2 - 1)) * (1 + e) <= 1 + (63 / 10) * e).
  { apply Rle_trans with ((1 + e) * (1 + (41 / 10) * e) * (1 + e)); [apply Rmult_le_compat_r; [lra|]; apply Rmult_le_compat_l; lra|]. nra. }
  assert (K3 : 1 <= (1 + e) * (1 + 2 * ((1 + e) ^ 2 - 1)) * (1 + e)). { assert (1 <= (1 + e) * (1 + 2 * ((1 + e) ^ 2 - 1))) by nra. nra. }
  assert (SE : E * E <= / 210 * E) by (apply Rmult_le_compat_r; lra). assert (SeE : E * e <= / 210 * E) by (rewrite Rmult_comm; apply Rmult_le_compat_r; lra).
  assert (HZ : Z <= 1 + 228 * E).
  { unfold Z. rewrite Rmult_assoc. apply Rle_trans with ((1 + 210 * E) * (1 + (82 / 10) * e)); [apply Rmult_le_compat; lra|]. nra. }
  assert (HZ1 : 1 <= Z) by (unfold Z; rewrite Rmult_assoc; nra).
  assert (HY : Y <= 1 + 241 * E).
  { unfold Y. rewrite Rmult_assoc. apply Rle_trans with ((1 + 210 * E) * (1 + (155 / 10) * e)); [apply Rmult_le_compat; lra|]. nra. }
  assert (HY1 : 1 <= Y) by (unfold Y; rewrite Rmult_assoc; nra).
  split; [lra|]. split.
  { apply Rle_trans with ((1 + e) * (1 + 228 * E) - 1); [apply Rplus_le_compat_r, Rmult_le_compat_l; lra|]. lra. }
  replace ((1 + e) * ((1 + 2 * ((1 + e) ^ 2 - 1)) * Z * ((1 + e) * Y))) with (((1 + e) * (1 + 2 * ((1 + e) ^ 2 - 1)) * (1 + e)) * (Z * Y)) by ring.
  assert (HZx : Z * Y <= 1 + 732 * E).
  { apply Rle_trans with ((1 + 228 * E) * (1 + 241 * E)); [apply Rmult_le_compat; lra|]. lra. }
  assert (HZx0 : 1 <= Z * Y) by nra.
  apply Rle_trans with ((1 + (63 / 10) * e) * (1 + 732 * E) - 1); [apply Rplus_le_compat_r; apply Rmult_le_compat; lra|]. lra.
Qed.

(** an arm with a tool at distance 2 *)
Definition ex_jac_tool : mframe := Frame "tool" (mkLink (Some "tool") (Some (aff I3 (mkV3 2 0 0)))) (mkJoint None None Fixed (mkV3 0 0 1) None None None) [].
Definition ex_jac_hinge : mframe := Frame "arm" (mkLink (Some "arm") None) (mkJoint (Some "j") (Some (aff I3 (mkV3 (/ 3) 0 0))) Revolute (mkV3 0 0 1) None None None) [ex_jac_tool].
Definition ex_jac_arm : mframe := Frame "base" (mkLink (Some "base") None) (mkJoint None None Fixed (mkV3 0 0 1) None None None) [ex_jac_hinge].
Lemma ex_jac_rigid : rigid_tree ex_jac_arm.
Proof.
  assert (U : unit3 (mkV3 0 0 1)) by (unfold unit3, vnorm2, vdot; cbn [vx vy vz]; ring).
  intros f [<-|[<-|[<-|[]]]]; cbn [f_link f_joint l_off j_off j_axis rigid_opt ex_jac_arm ex_jac_hinge ex_jac_tool]; (split; [|split]); try (intros _; exact U); try exact I;
    apply is_rigid_aff, is_rot_I.
Qed.
Lemma ex_jac_dj : distinct_joints ex_jac_arm. Proof. unfold distinct_joints, moving_names. cbn. repeat constructor; simpl; tauto. Qed.
Lemma ex_jac_df : distinct_frames ex_jac_arm. Proof. unfold distinct_frames. cbn. repeat constructor; simpl; intuition discriminate. Qed.
Lemma ex_jac_cl : clean_names ex_jac_arm. Proof. intros f [<-|[<-|[<-|[]]]]; reflexivity. Qed.
Definition s_left3 : stree := Plus (Plus (Prod 0) (Prod 1)) (Prod 2).
Definition s_left2 : stree := Plus (Prod 0) (Prod 1).


Lemma l73_exact : (forall s th, jacobian_with mops exact_jops s th = jacobian_tensor s th) /\
  forall s i th t, jac_input i = Ok th -> jacobian_tool_with mops exact_jops s th (tool_matrix t) = jacobian s i (Some t).
Proof. split; [reflexivity|]. intros s i th t H. unfold jacobian. rewrite H. reflexivity. Qed.

Lemma l73_ops : forall u rnd sv sc, rounding u rnd -> (forall i, s_full3 (sv i)) -> (forall i, s_full2 (sc i)) ->
  rounded_jops ((1 + u) ^ 3 - 1) u ((1 + u) ^ 2 - 1) (fl_jops rnd sv sc).
Proof. intros u rnd sv sc Hr Hv Hc. exact (fl_jops_rounded u rnd Hr sv sc Hv Hc). Qed.

Lemma l73_jacobian : forall (O : Ops M4 V3 R) (jo : jops) g a o j gv us h (root' root r : mframe) c rn p fs vs,
  0 <= g -> 1 <= o -> 1 <= j -> 0 <= a -> 0 <= gv -> 0 <= us -> 0 <= h ->
  rounded_product g (t_mul O) -> t_one O = I4 -> accurate_motions a j O -> rounded_jops gv us h jo ->
  close_tree a o root' root -> distinct_joints root -> distinct_frames root -> clean_names root -> chain_init O root' = Ok c ->
  root_path root (p ++ [r]) -> ((rn = "" /\ r = root) \/ (rn <> "" /\ rn = f_name r)) -> root_path r (r :: fs) ->
  let X := path_factor g o j (S (length fs)) in let Z := X * (1 + 2 * gv) * (1 + 2 * a) in
  exists s Js Ts, serial_init O zax c (f_name (last (r :: fs) r)) rn = Ok s /\ c_names (s_chain s) = path_names fs /\
    jacobian_with O jo s (mkTh (length (path_names fs)) (map (fun v => map v (path_names fs)) vs)) = Ok (Js, Ts) /\
    Forall2 (fun T v => close X T (pose v fs) (path_reach v fs)) Ts vs /\
    Forall2 (fun J' v => exists J, is_jacobian (fun v => pose v fs) (path_names fs) v J /\
      jac_within (2 * path_reach v fs * ((1 + 2 * h) * Z * ((1 + us) * X) - 1)) (Z - 1) (filter moving fs) J' J) Js vs.
Proof.
  intros O jo g a o j gv us h root' root r c rn p fs vs Hg Ho Hj Ha Hgv Hus Hh Hmul Hone Hmot Hjo Hct Hdj Hdf Hcl Hi Hpr Hrn Hp X Z.
  destruct (rounded_serial O a o root' root r c rn p fs Hct Hdj Hdf Hcl Hi Hpr Hrn Hp) as (s & r' & fs' & Hs & Ht & Hin' & Hdj' & Hdf' & Hcl' & Hp' & Er & HF' & En & Hnd).
  exists s. eexists. eexists. split; [exact Hs|]. split; [rewrite (chain_names_raw O r' fs' s Ht); exact En|].
  split.
  { pose proof (jacobian_raw O jo root' r' fs' s vs Hin' Hdj' Hdf' Hcl' Hp' Ht) as HJ. unfold path_tensor in HJ.
    fold (path_names fs') in HJ. rewrite En in HJ. exact HJ. }
  split.
  - apply forall2_map_both. intros v. exact (close_whole O g a o j Hg Ho Hj Hmul Hone Hmot r' r fs' fs v Er HF').
  - apply forall2_map_both. intros v. exists (map (col_of v (pose v fs)) (mov [] fs)). split.
    + apply pose_jacobian; [|exact Hnd].
      intros f Hf. destruct (forall2_in_right _ _ _ HF' f Hf) as (f' & Hff). exact (close_node_rigid _ _ _ _ Hff).
    + exact (jac_err O jo g a o j gv us h Hg Ho Hj Ha Hgv Hus Hh Hmul Hone Hmot Hjo r' r fs' fs v Er HF').
Qed.

Lemma l73_jacobian_rounded : forall u t e rnd fcos fsin st sv sc (root' root r : mframe) c rn p fs vs,
  rounding u rnd -> trig_within t fcos fsin -> (forall i j, s_full (st i j)) -> (forall i, s_full3 (sv i)) -> (forall i, s_full2 (sc i)) ->
  u <= e -> t <= e -> e <= / 100 -> close_tree e (1 + 3 * e) root' root ->
  distinct_joints root -> distinct_frames root -> clean_names root -> chain_init (fl_ops rnd fcos fsin st) root' = Ok c ->
  root_path root (p ++ [r]) -> ((rn = "" /\ r = root) \/ (rn <> "" /\ rn = f_name r)) -> root_path r (r :: fs) ->
  let n := INR (length (r :: fs)) in 105 * n * e <= 1 / 2 ->
  exists s Js Ts, serial_init (fl_ops rnd fcos fsin st) zax c (f_name (last (r :: fs) r)) rn = Ok s /\ c_names (s_chain s) = path_names fs /\
    jacobian_with (fl_ops rnd fcos fsin st) (fl_jops rnd sv sc) s (mkTh (length (path_names fs)) (map (fun v => map v (path_names fs)) vs)) = Ok (Js, Ts) /\
    Forall2 (fun J' v => exists J, is_jacobian (fun v => pose v fs) (path_names fs) v J /\
      jac_within (1400 * n * e * path_reach v fs) (230 * n * e) (filter moving fs) J' J) Js vs.
Proof.
  intros u t e rnd fcos fsin st sv sc root' root r c rn p fs vs Hr Ht Hst Hsv Hsc Hu Hte He Hct Hdj Hdf Hcl Hi Hpr Hrn Hp n Hb.
  assert (He0 : 0 <= e) by (pose proof (u_nonneg u rnd Hr); lra).
  assert (Hg : 0 <= (1 + e) ^ 4 - 1) by (pose proof (pow_R1_Rle (1 + e) 4 ltac:(lra)); lra).
  assert (Hgv : 0 <= (1 + e) ^ 3 - 1) by (pose proof (pow_R1_Rle (1 + e) 3 ltac:(lra)); lra).
  assert (Hh : 0 <= (1 + e) ^ 2 - 1) by (pose proof (pow_R1_Rle (1 + e) 2 ltac:(lra)); lra).
  assert (Hr' : rounding e rnd).
  { split; [apply Hr|]. intros x. eapply Rle_trans; [apply Hr|]. apply Rmult_le_compat_r; [apply Rabs_pos|exact Hu]. }
  assert (Hn : 1 <= n) by (unfold n; cbn [length]; rewrite S_INR; pose proof (pos_INR (length fs)); lra).
  assert (Hf : path_factor ((1 + e) ^ 4 - 1) (1 + 3 * e) (1 + 60 * e) (S (length fs)) <= 1 + 210 * n * e).
  { apply factor_bound; [exact He0|exact He|lia|exact Hb]. }
  destruct (l73_jacobian (fl_ops rnd fcos fsin st) (fl_jops rnd sv sc) ((1 + e) ^ 4 - 1) e (1 + 3 * e) (1 + 60 * e) ((1 + e) ^ 3 - 1) e ((1 + e) ^ 2 - 1)
    root' root r c rn p fs vs Hg ltac:(lra) ltac:(lra) He0 Hgv He0 Hh (fl_matmul_rounded e rnd Hr' st Hst) eq_refl
    (fl_motions u t e e rnd fcos fsin Hr Ht Hu Hte (Rle_refl e) He st) (fl_jops_rounded e rnd Hr' sv sc Hsv Hsc)
    Hct Hdj Hdf Hcl Hi Hpr Hrn Hp) as (s & Js & Ts & H1 & H2 & H3 & _ & H5).
  exists s, Js, Ts. split; [exact H1|]. split; [exact H2|]. split; [exact H3|].
  eapply forall2_weaken; [|exact H5]. cbv beta. intros J' v (J & HJ & HW). exists J. split; [exact HJ|].
  set (x := path_factor _ _ _ _) in *.
  assert (Hx1 : 1 <= x).
  { unfold x, path_factor. apply Rle_trans with (1 * 1); [lra|]. apply Rmult_le_compat; try lra; apply pow_R1_Rle; [|lra]. nra. }
  destruct (jac_consts e n x He0 Hn Hb Hx1 Hf) as (C1 & C2). cbv zeta in C1, C2.
  eapply jac_within_le; [|exact C1|exact HW].
  pose proof (path_reach_nonneg v fs) as HP.
  replace (1400 * n * e * path_reach v fs) with (2 * path_reach v fs * (700 * n * e)) by ring.
  apply Rmult_le_compat_l; [lra|exact C2].
Qed.

Lemma l73_tool : forall (O : Ops M4 V3 R) (jo : jops) g a o j gv us h (root' root r : mframe) c rn p fs vs w ms tools' tools,
  0 <= g -> 1 <= o -> 1 <= j -> 0 <= a -> 0 <= gv -> 0 <= us -> 0 <= h ->
  rounded_product g (t_mul O) -> t_one O = I4 -> accurate_motions a j O -> rounded_jops gv us h jo ->
  close_tree a o root' root -> distinct_joints root -> distinct_frames root -> clean_names root -> chain_init O root' = Ok c ->
  root_path root (p ++ [r]) -> ((rn = "" /\ r = root) \/ (rn <> "" /\ rn = f_name r)) -> root_path r (r :: fs) ->
  (ms = tools' \/ exists m, ms = [m] /\ tools' = repeat m (length vs)) -> length tools = length vs ->
  Forall2 (fun m' m => close w m' m (vnorm (trp m))) tools' tools ->
  let X := path_factor g o j (S (length fs)) in let Z := X * (1 + 2 * gv) * (1 + 2 * a) in let Y := X * w * (1 + 3 * g) in
  exists s Js Ts, serial_init O zax c (f_name (last (r :: fs) r)) rn = Ok s /\ c_names (s_chain s) = path_names fs /\
    jacobian_tool_with O jo s (mkTh (length (path_names fs)) (map (fun v => map v (path_names fs)) vs)) ms = Ok (Js, Ts) /\
    length Js = length vs /\ length Ts = length vs /\
    forall b v m, nth_error vs b = Some v -> nth_error tools b = Some m -> let L := path_reach v fs + vnorm (trp m) in
      exists J' T J, nth_error Js b = Some J' /\ nth_error Ts b = Some T /\ close Y T (m4mul (pose v fs) m) L /\
        is_jacobian (fun v => m4mul (pose v fs) m) (path_names fs) v J /\
        jac_within (4 * L * ((1 + us) * ((1 + 2 * h) * Z * ((1 + us) * Y)) - 1)) ((1 + us) * Z - 1) (filter moving fs) J' J.
Proof.
  intros O jo g a o j gv us h root' root r c rn p fs vs w ms tools' tools Hg Ho Hj Ha Hgv Hus Hh Hmul Hone Hmot Hjo Hct Hdj Hdf Hcl Hi Hpr Hrn Hp Hms Hlen HF X Z Y.
  destruct (rounded_serial O a o root' root r c rn p fs Hct Hdj Hdf Hcl Hi Hpr Hrn Hp) as (s & r' & fs' & Hs & Ht & Hin' & Hdj' & Hdf' & Hcl' & Hp' & Er & HF' & En & Hnd).
  assert (Hl' : length tools' = length vs) by (rewrite <- Hlen; eapply f2_len; exact HF).
  assert (Hrow : row_tools vs ms = Some tools').
  { unfold row_tools. destruct Hms as [->|(m & -> & ->)]; [rewrite Hl', Nat.eqb_refl; reflexivity|].
    clear. destruct vs as [|v [|v2 vs]]; reflexivity. }
  destruct (jacobian_tool_raw O jo root' r' fs' s vs Hin' Hdj' Hdf' Hcl' Hp' Ht ms tools' Hrow) as (_ & HJ).
  unfold path_tensor in HJ. fold (path_names fs') in HJ. rewrite En in HJ.
  exists s. eexists. eexists. split; [exact Hs|]. split; [rewrite (chain_names_raw O r' fs' s Ht); exact En|]. split; [exact HJ|].
  split; [apply zip_length; symmetry; exact Hl'|]. split; [apply zip_length; symmetry; exact Hl'|].
  intros b v m Hv Hm L. destruct (forall2_nth_right _ _ _ HF b m Hm) as (m' & Hm' & Hc).
  eexists. eexists. exists (map (col_of v (m4mul (pose v fs) m)) (mov [] fs)).
  split; [apply (nth_zip _ _ _ b v m' Hv Hm')|]. split; [apply (nth_zip _ _ _ b v m' Hv Hm')|].
  split; [exact (tool_close O g a o j Hg Ho Hj Hmul Hone Hmot r' r fs' fs v Er HF' w m' m _ Hc)|]. split.
  - apply cols_jacobian; [|exact Hnd|apply Hc]. intros f Hf. destruct (forall2_in_right _ _ _ HF' f Hf) as (f' & Hff). exact (close_node_rigid _ _ _ _ Hff).
  - exact (jac_tool_err O jo g a o j gv us h Hg Ho Hj Ha Hgv Hus Hh Hmul Hone Hmot Hjo r' r fs' fs v Er HF' w m' m _ Hc).
Qed.

Lemma l73_tool_rounded : forall u t e rnd fcos fsin st sv sc (root' root r : mframe) c rn p fs vs ms tools' tools,
  rounding u rnd -> trig_within t fcos fsin -> (forall i j, s_full (st i j)) -> (forall i, s_full3 (sv i)) -> (forall i, s_full2 (sc i)) ->
  u <= e -> t <= e -> e <= / 100 -> close_tree e (1 + 3 * e) root' root ->
  distinct_joints root -> distinct_frames root -> clean_names root -> chain_init (fl_ops rnd fcos fsin st) root' = Ok c ->
  root_path root (p ++ [r]) -> ((rn = "" /\ r = root) \/ (rn <> "" /\ rn = f_name r)) -> root_path r (r :: fs) ->
  (ms = tools' \/ exists m, ms = [m] /\ tools' = repeat m (length vs)) -> length tools = length vs ->
  Forall2 (fun m' m => close (1 + 3 * e) m' m (vnorm (trp m))) tools' tools ->
  let n := INR (length (r :: fs)) in 105 * n * e <= 1 / 2 ->
  exists s Js Ts, serial_init (fl_ops rnd fcos fsin st) zax c (f_name (last (r :: fs) r)) rn = Ok s /\ c_names (s_chain s) = path_names fs /\
    jacobian_tool_with (fl_ops rnd fcos fsin st) (fl_jops rnd sv sc) s (mkTh (length (path_names fs)) (map (fun v => map v (path_names fs)) vs)) ms = Ok (Js, Ts) /\
    length Js = length vs /\ length Ts = length vs /\
    forall b v m, nth_error vs b = Some v -> nth_error tools b = Some m -> let L := path_reach v fs + vnorm (trp m) in
      exists J' T J, nth_error Js b = Some J' /\ nth_error Ts b = Some T /\ close (1 + 245 * n * e) T (m4mul (pose v fs) m) L /\
        is_jacobian (fun v => m4mul (pose v fs) m) (path_names fs) v J /\ jac_within (3200 * n * e * L) (235 * n * e) (filter moving fs) J' J.
Proof.
  intros u t e rnd fcos fsin st sv sc root' root r c rn p fs vs ms tools' tools Hr Ht Hst Hsv Hsc Hu Hte He Hct Hdj Hdf Hcl Hi Hpr Hrn Hp Hms Hlen HF n Hb.
  assert (He0 : 0 <= e) by (pose proof (u_nonneg u rnd Hr); lra).
  assert (Hg : 0 <= (1 + e) ^ 4 - 1) by (pose proof (pow_R1_Rle (1 + e) 4 ltac:(lra)); lra).
  assert (Hgv : 0 <= (1 + e) ^ 3 - 1) by (pose proof (pow_R1_Rle (1 + e) 3 ltac:(lra)); lra).
  assert (Hh : 0 <= (1 + e) ^ 2 - 1) by (pose proof (pow_R1_Rle (1 + e) 2 ltac:(lra)); lra).
  assert (Hr' : rounding e rnd).
  { split; [apply Hr|]. intros x. eapply Rle_trans; [apply Hr|]. apply Rmult_le_compat_r; [apply Rabs_pos|exact Hu]. }
  assert (Hn : 1 <= n) by (unfold n; cbn [length]; rewrite S_INR; pose proof (pos_INR (length fs)); lra).
  assert (Hf : path_factor ((1 + e) ^ 4 - 1) (1 + 3 * e) (1 + 60 * e) (S (length fs)) <= 1 + 210 * n * e).
  { apply factor_bound; [exact He0|exact He|lia|exact Hb]. }
  destruct (l73_tool (fl_ops rnd fcos fsin st) (fl_jops rnd sv sc) ((1 + e) ^ 4 - 1) e (1 + 3 * e) (1 + 60 * e) ((1 + e) ^ 3 - 1) e ((1 + e) ^ 2 - 1)
    root' root r c rn p fs vs (1 + 3 * e) ms tools' tools Hg ltac:(lra) ltac:(lra) He0 Hgv He0 Hh (fl_matmul_rounded e rnd Hr' st Hst) eq_refl
    (fl_motions u t e e rnd fcos fsin Hr Ht Hu Hte (Rle_refl e) He st) (fl_jops_rounded e rnd Hr' sv sc Hsv Hsc)
    Hct Hdj Hdf Hcl Hi Hpr Hrn Hp Hms Hlen HF) as (s & Js & Ts & H1 & H2 & H3 & H4 & H5 & H6).
  exists s, Js, Ts. split; [exact H1|]. split; [exact H2|]. split; [exact H3|]. split; [exact H4|]. split; [exact H5|].
  intros b v m Hv Hm L. destruct (H6 b v m Hv Hm) as (J' & T & J & E1 & E2 & HC & HJ & HW). fold L in HC, HW.
  set (x := path_factor _ _ _ _) in *.
  assert (Hx1 : 1 <= x).
  { unfold x, path_factor. apply Rle_trans with (1 * 1); [lra|]. apply Rmult_le_compat; try lra; apply pow_R1_Rle; [|lra]. nra. }
  destruct (tool_consts e n x He0 Hn Hb Hx1 Hf) as (C0 & C1 & C2). cbv zeta in C0, C1, C2.
  exists J', T, J. split; [exact E1|]. split; [exact E2|]. split; [|split; [exact HJ|]].
  - eapply close_weaken; [exact HC| |apply Rle_refl]. lra.
  - eapply jac_within_le; [|exact C1|exact HW].
    pose proof (close_P _ _ _ _ HC) as HP.
    replace (3200 * n * e * L) with (4 * L * (800 * n * e)) by ring.
    apply Rmult_le_compat_l; [lra|exact C2].
Qed.
