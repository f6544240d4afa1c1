(** C34: behaviour inside the numerical windows, and the round trips. *)
From Coq Require Import Reals Lra Psatz Bool Arith Lia List.
From Coquelicot Require Import Rcomplements.
From Verif Require Import Prelude ExtF Lin Trig RotModel RotBasic QuatProofs AxisAngle MathModel AcosProofs So3Proofs.
Import ListNotations.
Local Open Scope R_scope.

(** ** round trips *)
Lemma log_exp eps v : 0 < eps <= eps4 -> vnorm v < PI -> Rabs (cos (vnorm v)) <= 1 - eps4 ->
  forall e, e <= 1 / 100 -> so3_log_map [so3_exp_map eps v] e = Ok [v].
Proof.
  intros He Hn Hc e He'. pose proof (vnorm_nonneg v) as N0.
  assert (L : eps <= vnorm2 v).
  { rewrite <- vnorm_sqr. pose proof (Rabs_le_between (cos (vnorm v)) (1 - eps4)) as [B _]. specialize (B Hc).
    rewrite (cos_half (vnorm v)) in B. pose proof (sin_le (vnorm v / 2) ltac:(lra)).
    assert (0 <= sin (vnorm v / 2)) by (apply sin_ge_0; lra). unfold eps4 in *. nra. }
  destruct (exp_spec eps v ltac:(lra) L) as (k & Hk & Ev & Ee). rewrite Ee.
  rewrite log_list; [|discriminate|].
  - cbn [map]. pose proof (log_exact e k (vnorm v) Hk ltac:(lra) Hc He') as X. cbv zeta in X |- *. rewrite X, <- Ev. reflexivity.
  - intros A [<-|[]]. apply rot33_rot, Hk.
Qed.
Lemma exp_log A e eps : is_rot A -> -1 + 2 * eps4 <= trace3 A <= 3 - 2 * eps4 -> e <= 1 / 100 -> 0 < eps <= eps4 ->
  exists v, so3_log_map [A] e = Ok [v] /\ so3_exp_map eps v = A /\ trace3 A = 1 + 2 * cos (vnorm v).
Proof.
  intros HA Ht He Heps. destruct (euler_axis A HA) as (k & t & Hk & R & ->). rewrite rot33_trace in Ht by exact Hk.
  assert (Hc : Rabs (cos t) <= 1 - eps4) by (apply Rabs_le_between; lra).
  exists (vscale t k).
  rewrite log_list; [|discriminate | intros X [<-|[]]; apply rot33_rot, Hk]. cbn [map].
  pose proof (log_exact e k t Hk R Hc He) as X. cbv zeta in X |- *. rewrite X. split; [reflexivity|].
  assert (T0 : t <> 0) by (intros ->; rewrite cos_0 in Ht; unfold eps4 in Ht; lra).
  rewrite vnorm_axis, Rabs_pos_eq by (try exact Hk; lra). split; [|apply rot33_trace, Hk].
  apply exp_axis; [exact Hk | lra |].
  rewrite (cos_half t) in Ht. pose proof (sin_le (t / 2) ltac:(lra)).
  assert (0 <= sin (t / 2)) by (apply sin_ge_0; lra). unfold eps4 in *. nra.
Qed.
(** whole batches are treated entry by entry *)
Lemma log_rows As e : As <> [] -> (forall A, In A As -> is_rot A) ->
  exists vs, so3_log_map As e = Ok vs /\ length vs = length As /\
    forall i A, nth_error As i = Some A -> exists v, nth_error vs i = Some v /\ so3_log_map [A] e = Ok [v].
Proof.
  intros N H. eexists. split; [apply log_list; assumption|]. split; [apply map_length|].
  intros i A Hi. eexists. split; [apply map_nth_error, Hi|]. rewrite log_list; [reflexivity | discriminate |].
  intros X [<-|[]]. apply H. eapply nth_error_In, Hi.
Qed.

(** ** the exponential of a short vector *)
Definition m3dist (A B : M3) : R := m3maxabs (m3add A (m3opp B)).
Lemma one_minus_cos_bounds x : 0 <= x <= 1 -> x * x / 2 - x * x * (x * x) / 24 <= 1 - cos x <= x * x / 2.
Proof.
  intros H. rewrite (cos_half x). pose proof (sin_taylor (x / 2) ltac:(lra)) as [A _]. pose proof (sin_le (x / 2) ltac:(lra)) as B.
  assert (0 <= sin (x / 2)) by (apply sin_ge_0; pose proof PI2_3_2; lra).
  set (s := sin (x / 2)) in *. clearbody s.
  assert (A' : x / 2 - x * x * x / 48 <= s).
  { replace (x * x * x / 48) with ((x / 2) ^ 3 / 6) by field. exact A. } clear A.
  split; [|nra]. assert (0 <= x / 2 - x * x * x / 48) by nra. assert (0 <= x * x * x) by nra.
  assert (Q : (x / 2 - x * x * x / 48) * (x / 2 - x * x * x / 48) <= s * s) by nra.
  nra.
Qed.
Lemma exp_axis_small eps k t : unit3 k -> 0 <= t -> t * t <= eps -> 0 < eps ->
  let a := sqrt eps in
  so3_exp_map eps (vscale t k) = m3add (m3add (m3scale (t * (sin a / a)) (hat k))
     (m3scale (t * t * ((1 - cos a) / (a * a))) (m3mul (hat k) (hat k)))) I3.
Proof.
  intros Hk Ht He Hp a. unfold so3_exp_map. rewrite vnorm2_scale. rewrite Hk, Rmult_1_r.
  rewrite Rmax_right by exact He. fold a. assert (0 < a) by (apply sqrt_lt_R0, Hp). clearbody a.
  unfold hat; destruct k as [x y z]. lin_simpl. apply mkM3_eq; field; lra.
Qed.
Lemma unit_comp k : unit3 k -> Rabs (vx k) <= 1 /\ Rabs (vy k) <= 1 /\ Rabs (vz k) <= 1.
Proof.
  unfold unit3. destruct k as [x y z]. lin_simpl. intros H. repeat split; apply Rabs_le_between; nra.
Qed.
Lemma rot33_rodrigues k t : unit3 k ->
  axis_and_angle_to_matrix_33 k t = m3add (m3add (m3scale (sin t) (hat k)) (m3scale (1 - cos t) (m3mul (hat k) (hat k)))) I3.
Proof.
  intros Hk. pose proof (unit_sqr k Hk) as U. unfold axis_and_angle_to_matrix_33, hat. destruct k as [x y z]. cbn [vx vy vz] in *. lin_simpl.
  set (c := cos t). set (s := sin t). clearbody c s. apply mkM3_eq; ring [U].
Qed.
Lemma rodrigues_diff a b c d H : m3add (m3add (m3add (m3scale a H) (m3scale b (m3mul H H))) I3)
    (m3opp (m3add (m3add (m3scale c H) (m3scale d (m3mul H H))) I3)) = m3add (m3scale (a - c) H) (m3scale (b - d) (m3mul H H)).
Proof.
  generalize (m3mul H H). intros G. apply m3_ext; cbn [m3add m3scale m3opp I3 m00 m01 m02 m10 m11 m12 m20 m21 m22]; ring.
Qed.
Lemma exp_small_bound v : vnorm2 v < eps4 ->
  exists k, unit3 k /\ v = vscale (vnorm v) k /\ m3dist (so3_exp_map eps4 v) (axis_and_angle_to_matrix_33 k (vnorm v)) <= eps6.
Proof.
  intros H. destruct (axis_decomp v) as (k & Hk & E). exists k. split; [exact Hk|]. split; [exact E|].
  pose proof (vnorm_nonneg v) as N0. pose proof (vnorm_sqr v) as N2. set (t := vnorm v) in *. clearbody t.
  assert (Ea : sqrt eps4 = / 100).
  { unfold eps4. replace (/ 10000) with (/ 100 * / 100) by field. apply sqrt_square. lra. }
  assert (Hx : so3_exp_map eps4 v = so3_exp_map eps4 (vscale t k)) by (f_equal; exact E).
  rewrite Hx. clear Hx. rewrite exp_axis_small by (try exact Hk; unfold eps4 in *; lra). rewrite Ea, rot33_rodrigues by exact Hk.
  assert (T : t < / 100) by (unfold eps4 in H; nra).
  set (p := t * (sin (/ 100) / / 100) - sin t). set (q := t * t * ((1 - cos (/ 100)) / (/ 100 * / 100)) - (1 - cos t)).
  assert (Hp : Rabs p <= 2 / 10000000).
  { unfold p. pose proof (sin_taylor (/ 100) ltac:(lra)) as [A1 _]. pose proof (sin_le (/ 100) ltac:(lra)) as A2.
    pose proof (sin_taylor t ltac:(lra)) as [B1 _]. pose proof (sin_le t ltac:(lra)) as B2.
    set (s := sin (/ 100)) in *. clearbody s. set (r := sin t) in *. clearbody r.
    replace (t * (s / / 100)) with (100 * (t * s)) by field. assert (t * (/ 100 - (/ 100) ^ 3 / 6) <= t * s) by nra. assert (t * s <= t * / 100) by nra.
    assert (0 <= t ^ 3 <= / 100 * / 100 * t) by (simpl; split; nra).
    apply Rabs_le_between. simpl in *. lra. }
  assert (Hq : Rabs q <= 1 / 100000000).
  { unfold q. pose proof (one_minus_cos_bounds (/ 100) ltac:(lra)) as [A1 A2]. pose proof (one_minus_cos_bounds t ltac:(lra)) as [B1 B2].
    set (s := 1 - cos (/ 100)) in *. clearbody s. set (r := 1 - cos t) in *. clearbody r.
    replace (t * t * (s / (/ 100 * / 100))) with (10000 * (t * t * s)) by field.
    assert (0 <= t * t <= / 10000) by nra. assert (0 <= t * t * (t * t) <= t * t * / 10000) by nra.
    assert (t * t * (/ 100 * / 100 / 2 - / 100 * / 100 * (/ 100 * / 100) / 24) <= t * t * s) by (apply Rmult_le_compat_l; lra).
    assert (t * t * s <= t * t * (/ 100 * / 100 / 2)) by (apply Rmult_le_compat_l; lra).
    apply Rabs_le_between. lra. }
  unfold m3dist. rewrite rodrigues_diff. fold p q.
  clearbody p q. destruct (unit_comp k Hk) as (Kx & Ky & Kz). unfold unit3 in Hk. clear E.
  apply Rabs_le_between in Kx, Ky, Kz, Hp, Hq.
  assert (W : forall x y, -1 <= x <= 1 -> -1 <= y <= 1 -> Rabs (p * x + q * y) <= eps6).
  { intros x y Hx Hy. apply Rabs_le_between. unfold eps6.
    assert (- (2 / 10000000) <= p * x <= 2 / 10000000) by (split; nra).
    assert (- (1 / 100000000) <= q * y <= 1 / 100000000) by (split; nra). lra. }
  destruct k as [x y z]. unfold hat in *. lin_simpl. cbn [vx vy vz] in *. unfold vnorm2, vdot in Hk; cbn [vx vy vz] in Hk.
  apply m3maxabs_le. cbn [m00 m01 m02 m10 m11 m12 m20 m21 m22].
  repeat split; apply W; try lra; split; nra.
Qed.
(** below the clamp the result is not a rotation *)
Lemma exp_not_rotation : exists v, v <> vzero /\ ~ is_rot (so3_exp_map eps4 v).
Proof.
  exists (vscale (/ 1000) (mkV3 0 0 1)). split.
  - intros E. pose proof (f_equal vz E) as X. unfold vscale, vzero in X. cbn [vx vy vz] in X. lra.
  - intros [_ D]. assert (Hk : unit3 (mkV3 0 0 1)) by (unfold unit3; lin_simpl; ring).
    rewrite exp_axis_small in D by (try exact Hk; unfold eps4; lra).
    assert (Ea : sqrt eps4 = / 100).
    { unfold eps4. replace (/ 10000) with (/ 100 * / 100) by field. apply sqrt_square. lra. }
    rewrite Ea in D. clear Ea. pose proof (sin2_cos2 (/ 100)) as S. unfold Rsqr in S.
    pose proof (one_minus_cos_bounds (/ 100) ltac:(lra)) as [B1 B2].
    set (s := sin (/ 100)) in *. set (c := cos (/ 100)) in *. clearbody s c.
    unfold det3 in D. cbn [hat m3mul m3add m3scale I3 vx vy vz m00 m01 m02 m10 m11 m12 m20 m21 m22] in D.
    assert (D' : (1 - (1 - c) / 100) * (1 - (1 - c) / 100) + s * s / 100 = 1) by (etransitivity; [|exact D]; field).
    assert (0 < 1 - c) by lra. nra.
Qed.

(** ** the logarithm of a small rotation *)
Lemma log_small A : is_rot A -> 3 - 2 * eps4 < trace3 A ->
  exists k t v, unit3 k /\ 0 <= t <= 15 / 1000 /\ A = axis_and_angle_to_matrix_33 k t /\ so3_log_map [A] eps4 = Ok [v] /\
    vnorm (vsub v (vscale t k)) <= 2 / 10000 * t.
Proof.
  intros HA Ht. destruct (euler_axis A HA) as (k & t & Hk & R & ->). rewrite rot33_trace in Ht by exact Hk.
  destruct (ext4_high t R ltac:(unfold eps4 in *; lra)) as (T & _ & P). pose proof dwin_bound as W.
  exists k, t. set (phi := ext4 (cos t)) in *.
  pose proof (sin_taylor phi ltac:(lra)) as [S1 _]. pose proof (sin_le phi ltac:(lra)) as S2.
  assert (S3 : 6 / 1000 <= sin phi).
  { assert (phi ^ 3 <= phi * (15 / 1000 * (15 / 1000))) by (simpl; nra). lra. }
  exists (vscale (phi / sin phi * sin t) k). split; [exact Hk|]. split; [lra|]. split; [reflexivity|]. split.
  - rewrite log_list; [|discriminate | intros X [<-|[]]; apply rot33_rot, Hk]. cbn [map].
    pose proof (log_axis eps4 k t Hk R) as L. cbv zeta in L |- *. fold phi in L. rewrite L by (unfold eps4; lra). reflexivity.
  - replace (vsub (vscale (phi / sin phi * sin t) k) (vscale t k)) with (vscale (phi / sin phi * sin t - t) k).
    2:{ generalize (phi / sin phi * sin t). intros. lin. }
    rewrite vnorm_axis by exact Hk.
    pose proof (sin_taylor t ltac:(lra)) as [U1 _]. pose proof (sin_le t ltac:(lra)) as U2.
    assert (Q1 : 1 <= phi / sin phi).
    { apply Rmult_le_reg_r with (sin phi); [lra|]. unfold Rdiv. rewrite Rmult_assoc, Rinv_l by lra. lra. }
    assert (Q2 : phi / sin phi <= 1 + 1 / 10000).
    { apply Rmult_le_reg_r with (sin phi); [lra|]. unfold Rdiv at 1. rewrite Rmult_assoc, Rinv_l by lra.
      assert (phi ^ 3 <= phi * (15 / 1000 * (15 / 1000))) by (simpl; nra). lra. }
    set (r := phi / sin phi) in *. clearbody r. set (u := sin t) in *. clearbody u.
    assert (t ^ 3 <= t * (15 / 1000 * (15 / 1000))) by (simpl; nra).
    assert (0 <= t ^ 3) by (simpl; nra). assert (0 <= u) by nra.
    assert (u <= r * u) by nra. assert (r * u <= (1 + 1 / 10000) * t) by nra.
    apply Rabs_le_between. lra.
Qed.
(** half turns are mapped to zero *)
Lemma log_half_turn : exists A, is_rot A /\ A <> I3 /\ so3_log_map [A] eps4 = Ok [vzero] /\
  so3_exp_map eps4 vzero = I3.
Proof.
  exists (mkM3 1 0 0 0 (-1) 0 0 0 (-1)). set (A := mkM3 1 0 0 0 (-1) 0 0 0 (-1)).
  assert (HA : is_rot A) by (unfold A; split; lin_simpl; [apply mkM3_eq|]; ring).
  split; [exact HA|]. split.
  - intros E. pose proof (f_equal m11 E) as X. unfold A, I3 in X. cbn [m11] in X. lra.
  - split.
    + rewrite log_list; [|discriminate | intros X [<-|[]]; exact HA]. cbn [map]. unfold log_hat.
      set (a := _ / _). clearbody a. unfold A. lin_simpl.
      assert (E : forall u w : V3, u = w -> Ok [u] = Ok [w]) by congruence. apply E. apply mkV3_eq; ring.
    + unfold so3_exp_map. set (f1 := _ * sin _). set (f2 := _ * (1 - cos _)). clearbody f1 f2.
      apply m3_ext; cbn [hat m3mul m3add m3scale I3 vzero vx vy vz m00 m01 m02 m10 m11 m12 m20 m21 m22]; ring.
Qed.
(** the relative angle of a rotation and itself is about 0.007, not 0 *)
Lemma relative_self A : is_rot A -> exists r, so3_relative_angle [A] [A] false = Ok [Fin r] /\ 7 / 1000 <= r <= 15 / 1000.
Proof.
  intros H. rewrite relative_list; [|reflexivity | intros X [<-|[]]; exact H | intros X [<-|[]]; exact H].
  cbn [zip_with]. eexists. split; [reflexivity|]. destruct H as [E _]. rewrite E.
  replace ((trace3 I3 - 1) * / 2) with (cos 0) by (rewrite cos_0; unfold trace3, I3; cbn [m00 m11 m22]; field).
  pose proof PI_RGT_0. destruct (ext4_high 0 ltac:(lra) ltac:(rewrite cos_0; unfold eps4; lra)) as (_ & _ & B).
  pose proof dwin_bound. lra.
Qed.
(** accuracy and monotonicity of the relative angle *)
Lemma relative_accuracy A B : is_rot A -> is_rot B -> exists k t r, unit3 k /\ 0 <= t <= PI /\
  m3mul A (m3tr B) = axis_and_angle_to_matrix_33 k t /\ so3_relative_angle [A] [B] false = Ok [Fin r] /\
  Rabs (r - t) <= 15 / 1000 /\ (Rabs (cos t) <= 1 - eps4 -> r = t).
Proof.
  intros HA HB. destruct (euler_axis (m3mul A (m3tr B)) ltac:(apply is_rot_mul; [exact HA | apply is_rot_tr, HB])) as (k & t & Hk & R & E).
  exists k, t, (ext4 (cos t)). split; [exact Hk|]. split; [exact R|]. split; [exact E|]. split.
  - rewrite relative_list; [|reflexivity | intros X [<-|[]]; exact HA | intros X [<-|[]]; exact HB].
    cbn [zip_with]. rewrite E, rot33_trace by exact Hk. replace ((1 + 2 * cos t - 1) * / 2) with (cos t) by field. reflexivity.
  - split; [apply ext4_error, R | intros Hc; apply ext4_mid; assumption].
Qed.
Lemma ext4_order t u : 0 <= t -> u <= PI -> t < u -> ext4 (cos t) < ext4 (cos u).
Proof.
  intros H1 H2 H3. assert (C : cos u < cos t) by (apply cos_decr_lt; lra).
  pose proof (ext_decr (- (1 - eps4)) (1 - eps4) ltac:(unfold eps4; lra) ltac:(unfold eps4; lra) ltac:(unfold eps4; lra) (cos u) (cos t) C) as X.
  unfold ext4. lra.
Qed.
