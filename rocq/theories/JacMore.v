(** The columns of the Jacobian are derivatives. *)
From Coq Require Import Reals Lra String Bool Arith Lia List Permutation.
From Coquelicot Require Import Coquelicot.
From Verif Require Import Prelude ExtF Tree ChainModel SpecFK ChainProofs ChainTables TreeQueries Input Lin Trig RotModel RotBasic ChainInst
  Examples SerialModel SerialProofs SerialMore Deriv JacModel JacProofs.
Import ListNotations.
Local Open Scope nat_scope.
Local Open Scope string_scope.
Local Open Scope list_scope.

Lemma moving_others (p : list mframe) g s : moving g = true ->
  NoDup (map (fun g => j_name (f_joint g)) (filter moving (p ++ g :: s))) ->
  forall f, In f (p ++ s) -> moving f = true -> j_name (f_joint f) <> j_name (f_joint g).
Proof.
  intros M N f Hf Mf E. rewrite filter_app in N. cbn [filter] in N. rewrite M, map_app in N. cbn [map] in N.
  apply NoDup_remove_2 in N. apply N. rewrite <- map_app, <- filter_app, <- E. apply (in_map (fun g : mframe => j_name (f_joint g))).
  apply filter_In. auto.
Qed.

Lemma geo_tool ty z o T m : affine T -> affine m -> ty <> Fixed ->
  m4mul (geo ty z o T) m =
  (if jtype_eqb ty Revolute then lin4 (m3mul (hatm z) (rotp (m4mul T m))) (vcross z (vsub (trp (m4mul T m)) o)) else lin4 (m3mul (hatm vzero) (rotp (m4mul T m))) z).
Proof.
  intros AT Am N. rewrite <- (aff_eta m Am), <- (aff_eta T AT), aff_mul. generalize (rotp T) (trp T) (rotp m) (trp m). intros R t Q u.
  destruct ty; [contradiction| |]; cbn [jtype_eqb geo]; rewrite lin4_aff, ?rotp_aff, ?trp_aff.
  - rewrite m3mul_assoc. f_equal. rewrite m3vec_mul, hatm_vec. generalize (m3vec R u). intros w. clear. lin.
  - f_equal; clear; lin.
Qed.

Lemma col_deriv v (fs p s : list mframe) g m : fs = p ++ g :: s -> moving g = true ->
  (forall f, In f fs -> rigid_frame f) -> NoDup (map (fun g => j_name (f_joint g)) (filter moving fs)) -> affine m ->
  let n := j_name (f_joint g) in let c := col_of v (m4mul (pose v fs) m) (p, g) in
  is_derive4 (fun x => m4mul (pose (upd v n x) fs) m) (v n) (lin4 (m3mul (hatm (snd c)) (rotp (m4mul (pose v fs) m))) (fst c)).
Proof.
  intros E Hm Hr Hn Am n c. subst fs.
  pose proof (path_deriv v p g s Hr Hm (moving_others p g s Hm Hn)) as D. cbv zeta in D.
  apply (is_derive4_mul_r m) in D. rewrite geo_tool in D.
  - unfold c, col_of. cbn [fst snd]. destruct (jtype_eqb (j_type (f_joint g)) Revolute); exact D.
  - exact (proj1 (rigid_frames_pose v _ Hr)).
  - exact Am.
  - intros E. unfold moving in Hm. rewrite E in Hm. discriminate.
Qed.

(** the statement about a computed list of Jacobians *)
Definition is_jacobian (E : config (S := R) -> M4) (names : list (option string)) (v : config (S := R)) (J : jac) : Prop :=
  length J = length names /\
  forall j n lin ang, nth_error names j = Some n -> nth_error J j = Some (lin, ang) ->
    is_derive4 (fun x => E (upd v n x)) (v n) (lin4 (m3mul (hatm ang) (rotp (E v))) lin).

Lemma cols_jacobian v (fs : list mframe) m : (forall f, In f fs -> rigid_frame f) ->
  NoDup (map (fun g => j_name (f_joint g)) (filter moving fs)) -> affine m ->
  is_jacobian (fun v => m4mul (pose v fs) m) (path_names fs) v (map (col_of v (m4mul (pose v fs) m)) (mov [] fs)).
Proof.
  intros Hr Hn Am.
  assert (En : path_names fs = map (fun pg => j_name (f_joint (snd pg))) (mov [] fs)).
  { unfold path_names. rewrite <- (mov_snd fs []), map_map. reflexivity. }
  split; [rewrite En, !map_length; reflexivity|].
  intros j n lin ang Hj Hc. rewrite En, nth_error_map in Hj. rewrite nth_error_map in Hc.
  destruct (nth_error (mov [] fs) j) as [[p g]|] eqn:Ej; [|discriminate]. cbn [option_map snd] in Hj, Hc.
  assert (HX : forall X (a b : X), Some a = Some b -> a = b) by (intros; congruence). apply HX in Hj. apply HX in Hc.
  apply nth_error_In in Ej. destruct (mov_split fs [] p g Ej) as (Hm & s & E). cbn [app] in E.
  pose proof (col_deriv v fs p s g m E Hm Hr Hn Am) as D. cbv zeta in D. rewrite Hc, Hj in D. exact D.
Qed.

Lemma rigid_path (root r : mframe) fs : rigid_tree root -> In r (preorder root) -> root_path r (r :: fs) -> forall f, In f fs -> rigid_frame f.
Proof. intros H Hin Hp f Hf. apply H. eapply sub_preorder; [exact Hin|]. apply (path_incl r _ Hp). right; exact Hf. Qed.
Lemma nodup_path (root r : mframe) fs : distinct_joints root -> In r (preorder root) -> root_path r (r :: fs) -> NoDup (path_names fs).
Proof.
  intros H Hin Hp. pose proof (serial_moving zax r fs root Hin H Hp) as K. unfold distinct_joints in K. rewrite sroot_moving_names in K. exact K.
Qed.
Lemma path_chain_names (r : mframe) fs s : serial_tables mops zax s r fs -> c_names (s_chain s) = path_names fs.
Proof. intros (Hc & _). rewrite (ct_names _ _ _ (chain_root mops _ _ Hc)). apply sroot_moving_names. Qed.

(** the pose reported for one configuration *)
Lemma serial_pose nan is_nan (root r : mframe) c rn fs s v : In r (preorder root) -> distinct_joints root -> distinct_frames root ->
  clean_names root -> root_path r (r :: fs) -> serial_init mops zax c (f_name (last (r :: fs) r)) rn = Ok s -> serial_tables mops zax s r fs ->
  serial_fk_end mops nan is_nan s (InTensor (T1 (map v (c_names (s_chain s))))) = Ok [pose v fs].
Proof.
  intros Hin Hdj Hdf Hcl Hp Hs Ht. rewrite (path_chain_names r fs s Ht).
  destruct (serial_fk_tensor mops zax root r fs s [v] mlaws Hin Hdj Hdf Hcl Hp Ht) as ((fi & Hfi & HX) & _).
  destruct (works_input mops zax nan is_nan r fs s [v] _ (serial_moving zax r fs root Hin Hdj Hp) Ht (w_vector is_nan fs v)) as (W1 & W2 & W3).
  destruct (serial_forward mops zax nan is_nan c rn _ s _ _ fi Hs W1 W2 W3 Hfi) as [-> _]. exact HX.
Qed.

(** the columns of the example hand at [ex_config], for an end point at the translation of [T] *)
Lemma ex_cols T : map (col_of ex_config T) (mov [] [ex_shoulder; ex_elbow; ex_hand]) =
  [(vcross (mkV3 0 0 1) (vsub (trp T) (mkV3 0 2 0)), mkV3 0 0 1); (mkV3 0 (3/5) (4/5), mkV3 0 0 0)].
Proof.
  assert (Em : mov [] [ex_shoulder; ex_elbow; ex_hand] = [([], ex_shoulder); ([ex_shoulder], ex_elbow)]) by reflexivity. rewrite Em. cbn [map].
  unfold col_of. cbn [fst snd]. cbn [f_joint ex_shoulder ex_elbow j_type jtype_eqb j_axis app].
  assert (ER : axis_and_angle_to_matrix_33 zax (PI / 2) = mkM3 0 (-1) 0 1 0 0 0 0 1).
  { unfold axis_and_angle_to_matrix_33, zax. cbn [vx vy vz]. rewrite cos_PI2, sin_PI2. apply mkM3_eq; ring. }
  assert (E1 : pose ex_config [ex_shoulder] = aff (mkM3 0 (-1) 0 1 0 0 0 0 1) (mkV3 0 2 0)).
  { unfold path_pose, rel_pose, joint_motion, ex_shoulder, trans.
    cbn -[cos sin PI Rdiv m4mul I4 axis_and_angle_to_matrix_44 axis_and_d_to_pris_matrix aff zax tax ex_config].
    rewrite !m4mul_1_l, !m4mul_1_r, rot44_aff. cbn [ex_config Ascii.eqb String.eqb Bool.eqb]. rewrite !aff_mul, ER, m3mul_1_l. f_equal. lin. }
  assert (E2 : rotp (pose ex_config [ex_shoulder; ex_elbow]) = mkM3 0 (-1) 0 1 0 0 0 0 1).
  { change [ex_shoulder; ex_elbow] with ([ex_shoulder] ++ [ex_elbow]). rewrite pose_app, E1, pose_cons, pose_nil, m4mul_1_r.
    unfold rel_pose, joint_motion, ex_elbow, trans.
    cbn -[cos sin PI Rdiv m4mul I4 axis_and_angle_to_matrix_44 axis_and_d_to_pris_matrix aff zax tax ex_config].
    rewrite m4mul_1_l, pris_aff, !aff_mul, rotp_aff, !m3mul_1_r. reflexivity. }
  rewrite E1, rotp_aff, trp_aff.
  match goal with |- context [m3vec (rotp (pose ex_config ?l)) _] => change l with [ex_shoulder; ex_elbow] end. rewrite E2.
  assert (H1 : m3vec (mkM3 0 (-1) 0 1 0 0 0 0 1) zax = mkV3 0 0 1) by (unfold zax; lin_simpl; apply mkV3_eq; ring).
  assert (H2 : m3vec (mkM3 0 (-1) 0 1 0 0 0 0 1) tax = mkV3 0 (3/5) (4/5)) by (unfold tax; lin_simpl; apply mkV3_eq; field).
  rewrite H1, H2.
  reflexivity.
Qed.
Lemma ex_hand_aff : pose ex_config [ex_shoulder; ex_elbow; ex_hand] = aff (mkM3 0 (-1) 0 1 0 0 0 0 1) (mkV3 0 6 5).
Proof.
  unfold path_pose, rel_pose, joint_motion, ex_shoulder, ex_elbow, ex_hand, trans.
  cbn -[cos sin PI Rdiv m4mul I4 axis_and_angle_to_matrix_44 axis_and_d_to_pris_matrix aff zax tax ex_config].
  rewrite !m4mul_1_l, !m4mul_1_r, rot44_aff, pris_aff, !aff_mul.
  cbn [ex_config Ascii.eqb String.eqb Bool.eqb].
  assert (E : axis_and_angle_to_matrix_33 zax (PI / 2) = mkM3 0 (-1) 0 1 0 0 0 0 1).
  { unfold axis_and_angle_to_matrix_33, zax. cbn [vx vy vz]. rewrite cos_PI2, sin_PI2. apply mkM3_eq; ring. }
  rewrite E. unfold tax. rewrite !m3mul_1_l, !m3mul_1_r, !m3vec_1. f_equal. lin_simpl. apply mkV3_eq; field.
Qed.
