(** C33, C34: hat, the exponential and the logarithm of rotations, rotation angles. *)
From Coq Require Import Reals Lra Psatz Bool Arith Lia List.
From Coquelicot Require Import Rcomplements.
From Verif Require Import Prelude ExtF Lin Trig RotModel RotBasic QuatProofs AxisAngle MathModel AcosProofs.
Import ListNotations.
Local Open Scope R_scope.

(** ** hat *)
Lemma hat_eq v : hat v = hatm v. Proof. destruct v; unfold hat; lin_simpl; lin_eq; ring. Qed.
Lemma hat_cross v u : m3vec (hat v) u = vcross v u. Proof. rewrite hat_eq. apply hatm_vec. Qed.
Lemma hat_skew v : m3add (hat v) (m3tr (hat v)) = Z3. Proof. unfold hat, Z3; destruct v; lin_simpl; lin_eq; ring. Qed.
Lemma m3maxabs_le A e : m3maxabs A <= e <-> (Rabs (m00 A) <= e /\ Rabs (m01 A) <= e /\ Rabs (m02 A) <= e /\ Rabs (m10 A) <= e /\
  Rabs (m11 A) <= e /\ Rabs (m12 A) <= e /\ Rabs (m20 A) <= e /\ Rabs (m21 A) <= e /\ Rabs (m22 A) <= e).
Proof.
  assert (K : forall x y, Rmax x y <= e <-> x <= e /\ y <= e).
  { intros x y. split.
    - intros H. pose proof (Rmax_l x y). pose proof (Rmax_r x y). lra.
    - intros [H1 H2]. apply Rmax_lub; assumption. }
  unfold m3maxabs. rewrite !K. reflexivity.
Qed.
Lemma m3maxabs_Z : m3maxabs Z3 = 0.
Proof. unfold m3maxabs, Z3; cbn [m00 m01 m02 m10 m11 m12 m20 m21 m22]. rewrite !Rabs_R0.
  assert (Z : Rmax 0 0 = 0) by (apply Rmax_left; lra). rewrite !Z. reflexivity. Qed.
Lemma hat_inv_ok hs : hs <> [] -> (forall h, In h hs -> m3maxabs (m3add h (m3tr h)) <= hat_tol) ->
  hat_inv hs = Ok (map (fun h => mkV3 (m21 h) (m02 h) (m10 h)) hs).
Proof.
  intros N H. unfold hat_inv. destruct hs as [|h r]; [contradiction|].
  replace (existsb _ (h :: r)) with false; [reflexivity|]. symmetry.
  destruct (existsb _ (h :: r)) eqn:E; [|reflexivity]. exfalso. apply existsb_exists in E as (x & Hx & L).
  apply Rltb_true in L. specialize (H x Hx). lra.
Qed.
Lemma hat_inv_skew hs : hs <> [] -> (forall h, In h hs -> m3tr h = m3opp h) ->
  exists vs, hat_inv hs = Ok vs /\ map hat vs = hs.
Proof.
  intros N H. eexists. split.
  - apply hat_inv_ok; [exact N|]. intros h Hh. rewrite (H h Hh).
    replace (m3add h (m3opp h)) with Z3 by (unfold Z3; destruct h; lin_simpl; lin_eq; ring).
    rewrite m3maxabs_Z. unfold hat_tol. lra.
  - clear N. induction hs as [|h r IH]; [reflexivity|]. simpl. f_equal; [|apply IH; intros; apply H; right; assumption].
    pose proof (H h (or_introl eq_refl)) as E. destruct h as [a b c d e f g i j].
    unfold hat; cbn [vx vy vz]. lin_simpl.
    pose proof (f_equal m00 E) as E0. pose proof (f_equal m11 E) as E1. pose proof (f_equal m22 E) as E2.
    pose proof (f_equal m01 E) as E3. pose proof (f_equal m02 E) as E4. pose proof (f_equal m12 E) as E5.
    unfold m3tr, m3opp in *. cbn [m00 m01 m02 m10 m11 m12 m20 m21 m22] in *. apply mkM3_eq; lra.
Qed.
Lemma hat_inv_hat vs : vs <> [] -> hat_inv (map hat vs) = Ok vs.
Proof.
  intros N. rewrite hat_inv_ok.
  - rewrite map_map. f_equal. rewrite <- (map_id vs) at 2. apply map_ext. intros v. destruct v; reflexivity.
  - destruct vs; [contradiction | discriminate].
  - intros h Hh. apply in_map_iff in Hh as (v & <- & _). rewrite hat_skew, m3maxabs_Z. unfold hat_tol; lra.
Qed.
Lemma hat_inv_reject hs h : In h hs -> hat_tol < m3maxabs (m3add h (m3tr h)) -> hat_inv hs = Err ValueError.
Proof.
  intros Hh L. unfold hat_inv. destruct hs as [|x r]; [destruct Hh|].
  replace (existsb _ (x :: r)) with true; [reflexivity|]. symmetry. apply existsb_exists. exists h. split; [exact Hh|].
  apply Rltb_true, L.
Qed.

(** ** every rotation turns about an axis by an angle in [0, pi] *)
Lemma euler_axis A : is_rot A -> exists k t, unit3 k /\ 0 <= t <= PI /\ A = axis_and_angle_to_matrix_33 k t.
Proof.
  intros H. destruct (m2q_spec A H) as [N E].
  set (q := standardize_quaternion (matrix_to_quaternion A)).
  assert (Nq : qnorm2 q = 1) by (unfold q; rewrite standardize_norm; exact N).
  assert (Eq : quaternion_to_matrix q = A).
  { unfold q. rewrite standardize_q2m; [exact E|]. rewrite N. lra. }
  assert (W : 0 <= qw q) by apply standardize_nonneg. clearbody q.
  destruct (unit_q_polar q Nq) as (Hh & Hc & Hs). set (h := atan2 (vnorm (qvec q)) (qw q)) in *. clearbody h.
  destruct (axis_decomp (qvec q)) as (k & Hk & Ek).
  assert (h <= PI / 2).
  { destruct (Rle_lt_dec h (PI / 2)) as [L|L]; [exact L|]. exfalso.
    assert (cos h < cos (PI / 2)) by (apply cos_decr_lt; lra). rewrite cos_PI2 in *. lra. }
  exists k, (2 * h). split; [exact Hk|]. split; [lra|]. rewrite <- Eq.
  replace q with (mkQ (cos h) (sin h * vx k) (sin h * vy k) (sin h * vz k)).
  - assert (S1 : cos h * cos h + sin h * sin h = 1) by (pose proof (sin2_cos2 h) as X; unfold Rsqr in X; lra).
    apply q2m_axis; [exact Hk | lra | rewrite S1, sqrt_1; field | rewrite S1, sqrt_1; field].
  - rewrite Hc, Hs. destruct q as [w x y z]. unfold qvec in *; cbn [qw qx qy qz] in *. destruct k as [a b c].
    unfold vscale in Ek. cbn [vx vy vz] in *. injection Ek as E1 E2 E3. apply mkQ_eq; congruence.
Qed.

(** ** exponential *)
Lemma exp_axis eps k t : unit3 k -> 0 < t -> eps <= t * t ->
  so3_exp_map eps (vscale t k) = axis_and_angle_to_matrix_33 k t.
Proof.
  intros Hk Ht He. unfold so3_exp_map. rewrite vnorm2_scale. unfold unit3 in Hk. rewrite Hk, Rmult_1_r.
  rewrite Rmax_left by exact He. rewrite sqrt_square by lra. pose proof (unit_sqr k Hk) as U.
  unfold axis_and_angle_to_matrix_33, hat. destruct k as [x y z]. cbn [vx vy vz] in *. lin_simpl.
  set (c := cos t). set (s := sin t). clearbody c s. assert (Hi : 1 / t * t = 1) by (field; lra).
  set (i := 1 / t) in *. clearbody i. apply mkM3_eq; ring [Hi U].
Qed.
Lemma exp_spec eps v : 0 < eps -> eps <= vnorm2 v ->
  exists k, unit3 k /\ v = vscale (vnorm v) k /\ so3_exp_map eps v = axis_and_angle_to_matrix_33 k (vnorm v).
Proof.
  intros He H. destruct (axis_decomp v) as (k & Hk & E). exists k. split; [exact Hk|]. split; [exact E|].
  assert (0 < vnorm v).
  { unfold vnorm. apply sqrt_lt_R0. lra. }
  rewrite E at 1. apply exp_axis; [exact Hk | assumption | rewrite vnorm_sqr; exact H].
Qed.

(** ** rotation angle *)
Definition ext4 (x : R) : R := acos_extrap (- (1 - eps4)) (1 - eps4) x.
Lemma trace_range A : is_rot A -> -1 <= trace3 A <= 3.
Proof.
  intros H. destruct (euler_axis A H) as (k & t & Hk & _ & ->). rewrite rot33_trace by exact Hk.
  pose proof (COS_bound t). lra.
Qed.
Lemma angle_list As : (forall A, In A As -> is_rot A) ->
  so3_rotation_angle As eps4 false eps4 = Ok (map (fun A => Fin (ext4 ((trace3 A - 1) * / 2))) As).
Proof.
  intros H. unfold so3_rotation_angle.
  replace (existsb _ (map trace3 As)) with false.
  2:{ symmetry. destruct (existsb _ (map trace3 As)) eqn:E; [|reflexivity]. exfalso.
      apply existsb_exists in E as (x & Hx & L). apply in_map_iff in Hx as (A & <- & HA).
      pose proof (trace_range A (H A HA)). apply orb_prop in L as [L|L]; apply Rltb_true in L; unfold eps4 in L; lra. }
  replace (Rltb 0 eps4) with true by (symmetry; apply Rltb_true; unfold eps4; lra).
  pose proof (extrapolation_spec (map (fun t => (t - 1) * / 2) (map trace3 As)) (BFloat (1 - eps4))) as [E _].
  rewrite E by (unfold eps4; lra). cbn [rbind]. rewrite !map_map. reflexivity.
Qed.
Lemma angle_reject As A : In A As -> (trace3 A < -1 - eps4 \/ 3 + eps4 < trace3 A) ->
  so3_rotation_angle As eps4 false eps4 = Err ValueError.
Proof.
  intros HA H. unfold so3_rotation_angle. replace (existsb _ (map trace3 As)) with true; [reflexivity|].
  symmetry. apply existsb_exists. exists (trace3 A). split; [apply in_map, HA|].
  apply orb_true_iff. destruct H; [left | right]; apply Rltb_true; assumption.
Qed.
Definition dwin : R := acos (1 - eps4).
Lemma dwin_cos : cos dwin = 1 - eps4.
Proof. unfold dwin. apply cos_acos. unfold eps4; lra. Qed.
Lemma dwin_range : 0 < dwin < PI. Proof. apply acos_bound_lt. unfold eps4; lra. Qed.
Lemma dwin_sin : sin dwin = sqrt (1 - (1 - eps4) * (1 - eps4)).
Proof. unfold dwin. rewrite sin_acos by (unfold eps4; lra). reflexivity. Qed.
Lemma dwin_sin_bound : 141 / 10000 <= sin dwin <= 142 / 10000.
Proof.
  rewrite dwin_sin. split.
  - rewrite <- (sqrt_square (141 / 10000)) by lra. apply sqrt_le_1_alt. unfold eps4; lra.
  - rewrite <- (sqrt_square (142 / 10000)) by lra. apply sqrt_le_1_alt. unfold eps4; lra.
Qed.
Lemma sin_le x : 0 <= x -> sin x <= x.
Proof. intros [H| <-]; [left; apply sin_lt_x, H | rewrite sin_0; lra]. Qed.
Lemma dwin_bound : 141 / 10000 <= dwin <= 15 / 1000.
Proof.
  pose proof dwin_range. split; [pose proof (sin_le dwin); pose proof dwin_sin_bound; lra|].
  destruct (Rle_lt_dec dwin (15 / 1000)) as [L|L]; [exact L|]. exfalso.
  assert (cos dwin < cos (15 / 1000)) by (apply cos_decr_lt; lra). rewrite dwin_cos in *.
  rewrite (cos_half (15 / 1000)) in *. pose proof (sin_taylor (15 / 1000 / 2) ltac:(lra)) as [S _].
  unfold eps4 in *. nra.
Qed.
Lemma dacos_dwin : dacos_dx (1 - eps4) = - / sin dwin.
Proof. rewrite dwin_sin. unfold dacos_dx, Rdiv. ring. Qed.
Lemma dacos_dwin' : dacos_dx (- (1 - eps4)) = - / sin dwin.
Proof. rewrite dwin_sin. unfold dacos_dx, Rdiv. replace (- (1 - eps4) * - (1 - eps4)) with ((1 - eps4) * (1 - eps4)) by ring. ring. Qed.
Lemma ext4_high t : 0 <= t <= PI -> 1 - eps4 <= cos t -> 0 <= t <= dwin /\ ext4 (cos t) = dwin - (cos t - (1 - eps4)) / sin dwin /\
  7 / 1000 <= ext4 (cos t) <= dwin.
Proof.
  intros Ht Hc. pose proof dwin_range. pose proof dwin_bound. pose proof dwin_sin_bound. pose proof (COS_bound t).
  assert (E : ext4 (cos t) = dwin - (cos t - (1 - eps4)) / sin dwin).
  { unfold ext4. rewrite ext_high; [|unfold eps4; lra | exact Hc]. unfold acos_linear_approximation.
    rewrite dacos_dwin. fold dwin. unfold Rdiv. ring. }
  split; [|split; [exact E|]].
  - split; [lra|]. destruct (Rle_lt_dec t dwin) as [L|L]; [exact L|]. exfalso.
    assert (cos t < cos dwin) by (apply cos_decr_lt; lra). rewrite dwin_cos in *. lra.
  - rewrite E.
    assert (P : 0 <= (cos t - (1 - eps4)) / sin dwin) by (apply Rcomplements.Rdiv_le_0_compat; lra).
    assert (U : (cos t - (1 - eps4)) / sin dwin <= eps4 / (141 / 10000)).
    { unfold Rdiv. apply Rmult_le_compat; [lra | left; apply Rinv_0_lt_compat; lra | lra | apply Rinv_le_contravar; lra]. }
    unfold eps4 in *. lra.
Qed.
Lemma ext4_low t : 0 <= t <= PI -> cos t <= - (1 - eps4) -> PI - dwin <= t /\ PI - dwin <= ext4 (cos t) <= PI.
Proof.
  intros Ht Hc. pose proof dwin_range. pose proof dwin_bound. pose proof dwin_sin_bound. pose proof (COS_bound t).
  assert (E : ext4 (cos t) = PI - dwin + (- (1 - eps4) - cos t) / sin dwin).
  { unfold ext4. rewrite ext_low by exact Hc. unfold acos_linear_approximation.
    rewrite dacos_dwin', acos_opp. fold dwin. unfold Rdiv. ring. }
  split.
  - destruct (Rle_lt_dec (PI - dwin) t) as [L|L]; [exact L|]. exfalso.
    assert (cos (PI - dwin) < cos t) by (apply cos_decr_lt; lra).
    rewrite Rtrigo_facts.cos_pi_minus, dwin_cos in *. lra.
  - rewrite E.
    assert (P : 0 <= (- (1 - eps4) - cos t) / sin dwin) by (apply Rcomplements.Rdiv_le_0_compat; lra).
    assert (U : (- (1 - eps4) - cos t) / sin dwin <= eps4 / (141 / 10000)).
    { unfold Rdiv. apply Rmult_le_compat; [lra | left; apply Rinv_0_lt_compat; lra | lra | apply Rinv_le_contravar; lra]. }
    unfold eps4 in *. lra.
Qed.
Lemma ext4_mid t : 0 <= t <= PI -> Rabs (cos t) <= 1 - eps4 -> ext4 (cos t) = t.
Proof.
  intros Ht Hc. apply Rabs_le_between in Hc. unfold ext4. rewrite ext_mid; [apply acos_cos, Ht | unfold eps4; lra | lra].
Qed.
Lemma ext4_error t : 0 <= t <= PI -> Rabs (ext4 (cos t) - t) <= 15 / 1000 /\ 0 < ext4 (cos t) <= PI.
Proof.
  intros Ht. pose proof dwin_bound. pose proof dwin_range. pose proof (COS_bound t).
  destruct (Rle_lt_dec (1 - eps4) (cos t)) as [L|L].
  - destruct (ext4_high t Ht L) as (A & _ & B). split; [apply Rabs_le_between|]; lra.
  - destruct (Rle_lt_dec (cos t) (- (1 - eps4))) as [L'|L'].
    + destruct (ext4_low t Ht L') as (A & B). split; [apply Rabs_le_between|]; lra.
    + rewrite ext4_mid; [|exact Ht | apply Rabs_le_between; lra]. replace (t - t) with 0 by ring. rewrite Rabs_R0.
      destruct (Req_dec t 0) as [->|N]; [rewrite cos_0 in L; unfold eps4 in L; lra | lra].
Qed.
Lemma trace_tr A : trace3 (m3tr A) = trace3 A. Proof. destruct A; lin_simpl; ring. Qed.
Lemma relative_list As Bs : length As = length Bs -> (forall A, In A As -> is_rot A) -> (forall B, In B Bs -> is_rot B) ->
  so3_relative_angle As Bs false = Ok (zip_with (fun A B => Fin (ext4 ((trace3 (m3mul A (m3tr B)) - 1) * / 2))) As Bs).
Proof.
  intros L HA HB. unfold so3_relative_angle. rewrite (proj2 (Nat.eqb_eq _ _) L). rewrite angle_list.
  - f_equal. clear HA HB. revert Bs L. induction As as [|A r IH]; intros [|B s] L; try discriminate; [reflexivity|].
    simpl. f_equal. apply IH. injection L as L. exact L.
  - intros M HM. revert Bs L HB HM. induction As as [|A r IH]; intros [|B s] L HB HM; try discriminate; [destruct HM|].
    simpl in HM. destruct HM as [<-|HM].
    + apply is_rot_mul; [apply HA; left; reflexivity | apply is_rot_tr, HB; left; reflexivity].
    + injection L as L. apply (IH ltac:(intros; apply HA; right; assumption) s L ltac:(intros; apply HB; right; assumption) HM).
Qed.
Lemma relative_sym As Bs c : so3_relative_angle As Bs c = so3_relative_angle Bs As c.
Proof.
  unfold so3_relative_angle. rewrite (Nat.eqb_sym (length Bs)). destruct (length As =? length Bs)%nat eqn:L; [|reflexivity].
  assert (E : map trace3 (zip_with (fun A B => m3mul A (m3tr B)) As Bs) = map trace3 (zip_with (fun A B => m3mul A (m3tr B)) Bs As)).
  { clear L. revert Bs. induction As as [|A r IH]; intros [|B s]; try reflexivity. simpl. rewrite IH. f_equal.
    rewrite <- (trace_tr (m3mul A (m3tr B))), m3tr_mul, m3tr_tr. reflexivity. }
  unfold so3_rotation_angle. rewrite E. reflexivity.
Qed.

(** ** logarithm *)
Lemma rot33_skew k t : m3add (axis_and_angle_to_matrix_33 k t) (m3opp (m3tr (axis_and_angle_to_matrix_33 k t))) = m3scale (2 * sin t) (hat k).
Proof. unfold axis_and_angle_to_matrix_33, hat. destruct k; lin_simpl. lin_eq; ring. Qed.
Lemma m3scale_hat a v : m3scale a (hat v) = hat (vscale a v).
Proof. unfold hat; destruct v; lin_simpl; lin_eq; ring. Qed.
Lemma log_list As eps : As <> [] -> (forall A, In A As -> is_rot A) ->
  so3_log_map As eps = Ok (map (fun A => let h := log_hat eps (ext4 ((trace3 A - 1) * / 2)) A in mkV3 (m21 h) (m02 h) (m10 h)) As).
Proof.
  intros N H. unfold so3_log_map. rewrite angle_list by exact H. cbn [rbind].
  assert (E : zip_with (fun p A => log_hat eps (match p with Fin r => r | _ => 0 end) A)
    (map (fun A => Fin (ext4 ((trace3 A - 1) * / 2))) As) As = map (fun A => log_hat eps (ext4 ((trace3 A - 1) * / 2)) A) As).
  { clear N H. induction As as [|A r IH]; [reflexivity|]. simpl. f_equal. exact IH. }
  rewrite E. rewrite hat_inv_ok.
  - rewrite map_map. reflexivity.
  - destruct As; [contradiction | discriminate].
  - intros h Hh. apply in_map_iff in Hh as (A & <- & _).
    replace (m3add _ _) with Z3; [rewrite m3maxabs_Z; unfold hat_tol; lra|].
    unfold log_hat. set (a := _ / _). clearbody a. unfold Z3. destruct A; lin_simpl. lin_eq; ring.
Qed.
Lemma log_axis eps k t : unit3 k -> 0 <= t <= PI -> let phi := ext4 (cos t) in eps <= sin phi -> 0 < sin phi ->
  (let h := log_hat eps (ext4 ((trace3 (axis_and_angle_to_matrix_33 k t) - 1) * / 2)) (axis_and_angle_to_matrix_33 k t) in
   mkV3 (m21 h) (m02 h) (m10 h)) = vscale (phi / sin phi * sin t) k.
Proof.
  intros Hk Ht phi He Hp. cbv zeta. rewrite rot33_trace by exact Hk. replace ((1 + 2 * cos t - 1) * / 2) with (cos t) by field.
  fold phi. clearbody phi. unfold log_hat. rewrite rot33_skew, m3scale_hat, m3scale_hat.
  rewrite Rabs_pos_eq by lra. rewrite Rmax_left by exact He. unfold Rsgn.
  replace (Rltb 0 (sin phi)) with true by (symmetry; apply Rltb_true; exact Hp).
  replace (Reqb (sin phi) 0) with false by (symmetry; apply Reqb_false; lra).
  unfold hat; destruct k as [x y z]; lin_simpl. apply mkV3_eq; field; lra.
Qed.
Lemma log_exact eps k t : unit3 k -> 0 <= t <= PI -> Rabs (cos t) <= 1 - eps4 -> eps <= 1 / 100 ->
  (let h := log_hat eps (ext4 ((trace3 (axis_and_angle_to_matrix_33 k t) - 1) * / 2)) (axis_and_angle_to_matrix_33 k t) in
   mkV3 (m21 h) (m02 h) (m10 h)) = vscale t k.
Proof.
  intros Hk Ht Hc He. assert (E : ext4 (cos t) = t) by (apply ext4_mid; assumption).
  assert (S0 : 0 <= sin t) by (apply sin_ge_0; lra).
  assert (S1 : 1 / 100 <= sin t).
  { pose proof (sin_sqr t) as S. apply Rabs_le_between in Hc. unfold eps4 in Hc. nra. }
  pose proof (log_axis eps k t Hk Ht) as L. cbv zeta in L |- *. rewrite E in L. rewrite L by lra. f_equal. field. lra.
Qed.
