(** Last steps of the proofs quoted in Properties_Grad.v. *)
From Coq Require Import Reals Lra Psatz Bool Arith Lia List.
From Coquelicot Require Import Coquelicot.
From Verif Require Import Prelude ExtF Trig Lin RotModel RotBasic MathModel QuatProofs AxisAngle DeltaPose GradModel SpecGrad GradProofs GradDeriv GradTapes GradLog GradQuat GradNan GradZero.
Import ListNotations.
Local Open Scope R_scope.

(** ** Points that are moved a little *)
Lemma d_line (a b : R) : is_derive (fun t => a + t * b) 0 b.
Proof. eapply d_eq; [exact (d_plus _ _ _ _ (d_const a) (d_mult (fun t => t) _ _ _ (is_derive_id 0) (d_const b)))|]. cbv beta. change (0 + (1 * b + 0 * 0) = b). ring. Qed.
Lemma near_ne (f : R -> R) (a : R) : is_derive f 0 a -> f 0 <> 0 -> locally 0 (fun t => f t <> 0).
Proof.
  intros D N. destruct (Rtotal_order (f 0) 0) as [L | [L | L]]; [|contradiction|].
  - eapply filter_imp; [|exact (d_lt f (fun _ => 0) _ _ D (d_const 0) L)]. intros t H. cbv beta in H. lra.
  - eapply filter_imp; [|exact (d_lt (fun _ => 0) f _ _ (d_const 0) D L)]. intros t H. cbv beta in H. lra.
Qed.
Lemma near_lt (f : R -> R) (a c v : R) : is_derive f 0 a -> f 0 = v -> v < c -> locally 0 (fun t => f t < c).
Proof. intros D <- L. exact (d_lt f (fun _ => c) _ _ D (d_const c) L). Qed.
Lemma near_gt (f : R -> R) (a c v : R) : is_derive f 0 a -> f 0 = v -> c < v -> locally 0 (fun t => c < f t).
Proof. intros D <- L. exact (d_lt (fun _ => c) f _ _ (d_const c) D L). Qed.
Lemma always (P : R -> Prop) : (forall t, P t) -> locally 0 P. Proof. intros H. apply filter_forall. exact H. Qed.

Lemma right_q2m old w x y z : w * w + x * x + y * y + z * z <> 0 -> differentiates old tape_quaternion_to_matrix q2m_list [w; x; y; z].
Proof.
  intros N. destruct (q2m_tape w x y z) as [E H]. destruct (H N) as [T Sm]. apply (right_tape old _ _ _ (fun _ => true)); [vm_compute; reflexivity | reflexivity | exact E | | exact T | exact Sm | vm_compute; reflexivity].
  intros d Ld. cbn [length] in Ld. dlist d Ld. apply always. intros t. cbn [moved]. exact (proj1 (q2m_tape _ _ _ _)).
Qed.
Lemma right_a2q old x y z : x * x + y * y + z * z <> 0 -> sqrt (x * x + y * y + z * z) <> eps6 -> differentiates old tape_axis_angle_to_quaternion a2q_list [x; y; z].
Proof.
  intros N M. destruct (a2q_tape x y z) as (E & T & Sm). apply (right_tape old _ _ _ (fun _ => true)); [vm_compute; reflexivity | reflexivity | exact E | | exact (T N) | exact (Sm N M) | vm_compute; reflexivity].
  intros d Ld. cbn [length] in Ld. dlist d Ld. apply always. intros t. cbn [moved]. exact (proj1 (a2q_tape _ _ _)).
Qed.
Lemma right_q2a old w x y z : x * x + y * y + z * z <> 0 -> 2 * atan2 (sqrt (x * x + y * y + z * z)) w <> eps6 ->
  differentiates old tape_quaternion_to_axis_angle q2a_list [w; x; y; z].
Proof.
  intros N M. destruct (q2a_tape w x y z N) as (E & T & Sm). apply (right_tape old _ _ _ (fun _ => true)); [vm_compute; reflexivity | reflexivity | exact E | | exact T | exact (Sm M) | vm_compute; reflexivity].
  intros d Ld. cbn [length] in Ld. dlist d Ld. cbn [moved].
  assert (X : is_derive (fun t => (x + t * v0) * (x + t * v0) + (y + t * v1) * (y + t * v1) + (z + t * v2) * (z + t * v2)) 0 _)
    by (apply d_plus; [apply d_plus|]; apply d_mult; apply d_line).
  eapply filter_imp; [|exact (near_ne _ _ X ltac:(cbv beta; rewrite !Rmult_0_l, !Rplus_0_r; exact N))]. intros t Ht. exact (proj1 (q2a_tape _ _ _ _ Ht)).
Qed.
Lemma right_exp old eps x y z : 0 < eps -> x * x + y * y + z * z <> eps -> differentiates old (tape_so3_exp_map eps) (exp_list eps) [x; y; z].
Proof.
  intros He N. destruct (exp_tape eps x y z He) as (E & T & Sm). apply (right_tape old _ _ _ (fun _ => true)); [vm_compute; reflexivity | reflexivity | exact E | | exact T | exact (Sm N) | vm_compute; reflexivity].
  intros d Ld. cbn [length] in Ld. dlist d Ld. apply always. intros t. cbn [moved]. exact (proj1 (exp_tape _ _ _ _ He)).
Qed.
Lemma right_log old eps a b c d e f g h i : 0 < eps <= eps4 -> -1 - eps4 < a + e + i < 3 + eps4 ->
  differentiates old (tape_so3_log_map eps) (log_listf eps) [a; b; c; d; e; f; g; h; i].
Proof.
  intros He N. destruct (log_tape eps a b c d e f g h i He ltac:(lra)) as (E & T & Sm). apply (right_tape old _ _ _ (fun _ => true)); [vm_compute; reflexivity | reflexivity | exact E | | exact T | exact Sm | vm_compute; reflexivity].
  intros dd Ld. cbn [length] in Ld. dlist dd Ld. cbn [moved].
  assert (X : is_derive (fun t => a + t * v + (e + t * v3) + (i + t * v7)) 0 (v + v3 + v7)) by (apply d_plus; [apply d_plus|]; apply d_line).
  eapply filter_imp; [|refine (filter_and _ _ (near_gt _ _ (-1 - eps4) (a + e + i) X _ _) (near_lt _ _ (3 + eps4) (a + e + i) X _ _)); cbv beta; lra].
  intros t [H1 H2]. cbv beta in H1, H2. refine (proj1 (log_tape _ _ _ _ _ _ _ _ _ _ He _)). lra.
Qed.
Lemma right_m2q old A : (forall k, (k < 4)%nat -> diag4 A k <> 0) -> (exists i, (i < 4)%nat /\ forall k, (k < 4)%nat -> k <> i -> diag4 A k < diag4 A i) ->
  differentiates old tape_matrix_to_quaternion m2q_list (m3_list A).
Proof.
  destruct A as [a b c d e f g h i]. intros N (j & Hj & M). change (m3_list (mkM3 a b c d e f g h i)) with [a; b; c; d; e; f; g; h; i].
  set (A := mkM3 a b c d e f g h i) in *.
  destruct (m2q_tape a b c d e f g h i) as [E H]. destruct (H N) as [T Sm]. clear H. fold A in Sm.
  assert (J : argmax4 (q_abs A) = j).
  { destruct (Nat.eq_dec (argmax4 (q_abs A)) j) as [X | X]; [exact X|]. exfalso. pose proof (argmax_lt (q_abs A)) as L. pose proof (argmax_max (q_abs A) j Hj) as P. pose proof (best_ge_1 A) as B. specialize (M _ L X).
    rewrite q_abs_diag in B. assert (P2 : 0 < diag4 A (argmax4 (q_abs A))). { destruct (Rlt_le_dec 0 (diag4 A (argmax4 (q_abs A)))) as [Y | Y]; [exact Y|]. rewrite Rmax_right, sqrt_0 in B by exact Y. lra. }
    rewrite !q_abs_diag, !Rmax_left in P by lra. apply sqrt_le_0 in P; lra. }
  apply (right_tape old _ _ _ (live_at (argmax4 (q_abs A)))); [vm_compute; reflexivity | reflexivity | exact E | | exact T | | ].
  - intros dd Ld. cbn [length] in Ld. dlist dd Ld. apply always. intros t. cbn [moved]. exact (proj1 (m2q_tape _ _ _ _ _ _ _ _ _)).
  - apply Sm. rewrite J. intros k Hk Nk. specialize (M k Hk Nk). pose proof (best_ge_1 A) as B. rewrite J, q_abs_diag in B.
    assert (P2 : 0 < diag4 A j). { destruct (Rlt_le_dec 0 (diag4 A j)) as [Y | Y]; [exact Y|]. rewrite Rmax_right, sqrt_0 in B by exact Y. lra. }
    rewrite !q_abs_diag. rewrite (Rmax_left (diag4 A j)) by lra. apply sqrt_lt_1_alt. split; [apply Rmax_r|]. apply Rmax_lub_lt; lra.
  - generalize (argmax4 (q_abs A)). intros n. vm_compute. reflexivity.
Qed.
Lemma right_dist old a b c d e f g h : let D := a * e + b * f + c * g + d * h in -1 < D < 1 -> D <> 0 -> 1 - D * D <> eps4 ->
  differentiates old (tape_quaternion_angular_distance (Rltb (1 - D * D) eps4)) dist_list [a; b; c; d; e; f; g; h].
Proof.
  intros D HD N M. set (cl := Rltb (1 - D * D) eps4). destruct (dist_tape cl a b c d e f g h) as [E H]. destruct (H HD) as [T Sm]. specialize (Sm N).
  assert (Q : forall l c', quaternion_close eps4 [pair_of l] = c' -> dist_list l = [if c' then 0 else angle_between (pair_of l)]).
  { intros l c' <-. unfold dist_list, quaternion_angular_distance. cbn [map]. destruct (quaternion_close eps4 [pair_of l]); reflexivity. }
  assert (Q2 : forall a b c d e f g h, quaternion_close eps4 [pair_of [a; b; c; d; e; f; g; h]] = Rltb (1 - (a * e + b * f + c * g + d * h) * (a * e + b * f + c * g + d * h)) eps4).
  { intros. unfold quaternion_close, pair_of, list_q, qdot. cbn [forallb nth skipn fst snd qw qx qy qz]. apply andb_true_r. }
  apply (right_tape old _ _ _ (fun _ => true)); [destruct cl; vm_compute; reflexivity | reflexivity | | | exact T | exact Sm | destruct cl; vm_compute; reflexivity].
  - rewrite E. symmetry. apply Q, Q2.
  - intros dd Ld. cbn [length] in Ld. dlist dd Ld. cbn [moved].
    assert (X : exists l, is_derive (fun t => (a + t * v) * (e + t * v3) + (b + t * v0) * (f + t * v4) + (c + t * v1) * (g + t * v5) + (d + t * v2) * (h + t * v6)) 0 l)
      by (eexists; apply d_plus; [apply d_plus; [apply d_plus|]|]; apply d_mult; apply d_line).
    destruct X as [l X]. assert (Y : exists l', is_derive (fun t => 1 - ((a + t * v) * (e + t * v3) + (b + t * v0) * (f + t * v4) + (c + t * v1) * (g + t * v5) + (d + t * v2) * (h + t * v6)) * ((a + t * v) * (e + t * v3) + (b + t * v0) * (f + t * v4) + (c + t * v1) * (g + t * v5) + (d + t * v2) * (h + t * v6))) 0 l')
      by (eexists; apply d_minus; [apply d_const | apply d_mult; exact X]). clear X l. destruct Y as [l Y].
    assert (Z : locally 0 (fun t => Rltb (1 - ((a + t * v) * (e + t * v3) + (b + t * v0) * (f + t * v4) + (c + t * v1) * (g + t * v5) + (d + t * v2) * (h + t * v6)) * ((a + t * v) * (e + t * v3) + (b + t * v0) * (f + t * v4) + (c + t * v1) * (g + t * v5) + (d + t * v2) * (h + t * v6))) eps4 = cl)).
    { unfold cl. destruct (Rtotal_order (1 - D * D) eps4) as [L | [L | L]]; [|contradiction|].
      - rewrite (proj2 (Rltb_true _ _) L). eapply filter_imp; [|refine (near_lt _ _ eps4 (1 - D * D) Y _ L); cbv beta; rewrite !Rmult_0_l, !Rplus_0_r; reflexivity]. intros t Ht. apply Rltb_true. exact Ht.
      - rewrite (proj2 (Rltb_false (1 - D * D) eps4)) by lra. eapply filter_imp; [|refine (near_gt _ _ eps4 (1 - D * D) Y _ L); cbv beta; rewrite !Rmult_0_l, !Rplus_0_r; reflexivity]. intros t Ht. apply Rltb_false. cbv beta in Ht. lra. }
    eapply filter_imp; [|exact Z]. intros t Ht. rewrite (proj1 (dist_tape cl _ _ _ _ _ _ _ _)). symmetry. apply Q. rewrite Q2. exact Ht.
Qed.

(** ** Gradients at the special points *)
Lemma norm_ray t p q r : sqrt ((0 + t * p) * (0 + t * p) + (0 + t * q) * (0 + t * q) + (0 + t * r) * (0 + t * r)) = Rabs t * sqrt (p * p + q * q + r * r).
Proof.
  replace ((0 + t * p) * (0 + t * p) + (0 + t * q) * (0 + t * q) + (0 + t * r) * (0 + t * r)) with (Rsqr t * (p * p + q * q + r * r)) by (unfold Rsqr; ring).
  rewrite sqrt_mult_alt by apply Rle_0_sqr. rewrite sqrt_Rsqr_abs. reflexivity.
Qed.
Lemma abs_sq t : Rabs t * Rabs t = t * t. Proof. rewrite <- Rabs_mult. apply Rabs_pos_eq. nra. Qed.
Lemma sq_small a e : 0 <= a -> 0 < e -> a * a < e * e -> a < e. Proof. intros. nra. Qed.
Lemma zero_gradient_a2q w x y z : is_gradient a2q_list [0; 0; 0] [w; x; y; z] [x * / 2; y * / 2; z * / 2].
Proof.
  split; [reflexivity|]. intros d Ld. cbn [length] in Ld. dlist d Ld. rename v into p, v0 into q, v1 into r. set (n := sqrt (p * p + q * q + r * r)). assert (Hn : 0 <= n) by apply sqrt_pos.
  apply (d_loc_imp _ (fun t => w * cos (/ 2 * (t * n)) + (x * (t * p * (/ 2 - t * t * (n * n) / 48)) + (y * (t * q * (/ 2 - t * t * (n * n) / 48)) + (z * (t * r * (/ 2 - t * t * (n * n) / 48)) + 0)))) _ (fun t => t * t * (n * n) < eps6 * eps6)).
  - assert (X : is_derive (fun t : R => t * t * (n * n)) 0 0) by (auto_derive; [exact I | ring]).
    refine (near_lt _ _ _ 0 X _ _); [cbv beta; ring | pose proof eps6_pos; nra].
  - intros t Ht. cbn [moved]. unfold a2q_list, q_list, list_v, axis_angle_to_quaternion, vnorm, vnorm2, vdot. cbn [nth vx vy vz qw qx qy qz dotl]. rewrite norm_ray. fold n.
    assert (Ha : 0 <= Rabs t * n) by (apply Rmult_le_pos; [apply Rabs_pos | exact Hn]). assert (Hs : (Rabs t * n) * (Rabs t * n) = t * t * (n * n)) by (pose proof (abs_sq t) as Q; nra).
    unfold sin_half_over. rewrite (Rabs_pos_eq _ Ha), Rltb_t by (apply sq_small; [exact Ha | apply eps6_pos | rewrite Hs; exact Ht]). rewrite Hs.
    assert (Hc : cos (/ 2 * (Rabs t * n)) = cos (/ 2 * (t * n))). { destruct (Rcase_abs t) as [L | L]; [rewrite Rabs_left by exact L; rewrite <- (cos_neg (/ 2 * (t * n))); f_equal; ring | rewrite Rabs_right by exact L; reflexivity]. }
    rewrite Hc. ring.
  - cbn [dotl]. auto_derive; [exact I|]. rewrite Rmult_0_l, Rmult_0_r, sin_0. field.
Qed.
Lemma zero_gradient_q2a w x y z : 0 < w -> is_gradient q2a_list [w; 0; 0; 0] [x; y; z] [0; 2 * x; 2 * y; 2 * z].
Proof.
  intros Hw. split; [reflexivity|]. intros d Ld. cbn [length] in Ld. dlist d Ld. rename v into u, v0 into p, v1 into q, v2 into r. set (n := sqrt (p * p + q * q + r * r)). assert (Hn : 0 <= n) by apply sqrt_pos.
  set (B := fun t => 2 * atan (t * n / (w + t * u)) * (2 * atan (t * n / (w + t * u)))).
  assert (A0 : 2 * atan (0 * n / (w + 0 * u)) = 0) by (unfold Rdiv; rewrite !Rmult_0_l, atan_0; ring).
  assert (DA : exists l, is_derive (fun t => 2 * atan (t * n / (w + t * u))) 0 l).
  { eexists. apply d_mult; [apply d_const|]. apply d_atan. apply (d_div (fun t => t * n) (fun t => w + t * u) n u); [|apply d_line | rewrite Rmult_0_l; lra]. auto_derive; [exact I | ring]. }
  assert (DB : is_derive B 0 0). { destruct DA as [l DA]. eapply d_eq; [exact (d_mult _ _ _ _ DA DA)|]. cbv beta. rewrite A0. ring. }
  assert (B0 : B 0 = 0). { unfold B, Rdiv. rewrite !Rmult_0_l, atan_0. ring. }
  apply (d_loc_imp _ (fun t => x * (t * p / (/ 2 - B t / 48)) + (y * (t * q / (/ 2 - B t / 48)) + (z * (t * r / (/ 2 - B t / 48)) + 0))) _ (fun t => B t < eps6 * eps6 /\ 0 < w + t * u)).
  - pose proof eps6_pos. refine (filter_and _ _ (near_lt _ _ _ 0 DB B0 _) (near_gt _ _ 0 w (d_line w u) _ Hw)); [nra | ring].
  - intros t [Ht Hp]. cbn [moved]. unfold q2a_list, list_q, quaternion_to_axis_angle, qvec, vnorm, vnorm2, vdot. cbn [nth vx vy vz qw qx qy qz dotl f3x f3y f3z]. rewrite norm_ray. fold n.
    assert (Ha : 0 <= Rabs t * n) by (apply Rmult_le_pos; [apply Rabs_pos | exact Hn]).
    assert (Hat : atan2 (Rabs t * n) (w + t * u) = atan (Rabs t * n / (w + t * u))) by (unfold atan2; rewrite Rltb_t by exact Hp; reflexivity).
    assert (Hpos : 0 <= 2 * atan2 (Rabs t * n) (w + t * u)).
    { rewrite Hat. assert (0 <= Rabs t * n / (w + t * u)) as [L | <-] by (apply Rdiv_le_0_compat; assumption); [|rewrite atan_0; lra]. apply atan_increasing in L. rewrite atan_0 in L. lra. }
    assert (Hs : 2 * atan2 (Rabs t * n) (w + t * u) * (2 * atan2 (Rabs t * n) (w + t * u)) = B t).
    { rewrite Hat. unfold B. destruct (Rcase_abs t) as [L | L]; [|rewrite Rabs_right by exact L; reflexivity]. rewrite Rabs_left by exact L. replace (- t * n / (w + t * u)) with (- (t * n / (w + t * u))) by (field; lra). rewrite atan_opp. ring. }
    unfold sin_half_over. rewrite (Rabs_pos_eq _ Hpos), Rltb_t by (apply sq_small; [exact Hpos | apply eps6_pos | rewrite Hs; exact Ht]). rewrite Hs.
    assert (E6 : eps6 * eps6 < 1) by (unfold eps6; lra). unfold fdivr. rewrite (proj2 (Reqb_false (/ 2 - B t / 48) 0)) by lra. cbn [fin]. rewrite !Rplus_0_l. reflexivity.
  - cbn [dotl]. assert (N : / 2 - B 0 / 48 <> 0) by (rewrite B0; lra).
    assert (DS : is_derive (fun t => / 2 - B t / 48) 0 0). { eapply d_eq; [apply d_minus; [apply d_const | apply d_div; [exact DB | apply d_const | lra]]|]. rewrite B0. field. }
    assert (One : forall m, is_derive (fun t => t * m / (/ 2 - B t / 48)) 0 (2 * m)).
    { intros m. eapply d_eq; [apply (d_div (fun t => t * m) (fun t => / 2 - B t / 48) m 0); [|exact DS|exact N]|].
      - auto_derive; [exact I | ring].
      - cbv beta. rewrite B0. field. }
    eapply d_eq; [apply d_plus; [|apply d_plus; [|apply d_plus; [|apply d_const]]]; (apply d_mult; [apply d_const | apply One])|]. cbv beta. ring.
Qed.
Lemma close_gradient a b c d e f g h cot : let D := a * e + b * f + c * g + d * h in D = 1 \/ D = -1 ->
  is_gradient dist_list [a; b; c; d; e; f; g; h] [cot] [0; 0; 0; 0; 0; 0; 0; 0].
Proof.
  intros D HD. split; [reflexivity|]. intros dd Ld. cbn [length] in Ld. dlist dd Ld. cbn [moved].
  set (D' := fun t => (a + t * v) * (e + t * v3) + (b + t * v0) * (f + t * v4) + (c + t * v1) * (g + t * v5) + (d + t * v2) * (h + t * v6)).
  assert (X : exists l, is_derive D' 0 l) by (eexists; unfold D'; apply d_plus; [apply d_plus; [apply d_plus|]|]; apply d_mult; apply d_line).
  destruct X as [l X]. assert (Y : exists l', is_derive (fun t => 1 - D' t * D' t) 0 l') by (eexists; apply d_minus; [apply d_const | apply d_mult; exact X]). clear X l. destruct Y as [l Y].
  apply (d_loc_imp _ (fun _ => 0) _ (fun t => 1 - D' t * D' t < eps4)).
  - refine (near_lt _ _ _ 0 Y _ _); [|unfold eps4; lra]. unfold D'. cbv beta. rewrite !Rmult_0_l, !Rplus_0_r. fold D. destruct HD as [-> | ->]; ring.
  - intros t Ht. unfold dist_list, quaternion_angular_distance, quaternion_close, pair_of, list_q, qdot. cbn [forallb nth skipn fst snd qw qx qy qz]. fold (D' t). rewrite (proj2 (Rltb_true _ _) Ht). cbn [andb map dotl]. ring.
  - cbn [dotl]. eapply d_eq; [apply d_const | ring].
Qed.
Lemma identity_gradient w x y z : is_gradient m2q_list (m3_list I3) [w; x; y; z] [w / 8; - z / 4; y / 4; z / 4; w / 8; - x / 4; - y / 4; x / 4; w / 8].
Proof.
  split; [reflexivity|]. intros dd Ld. unfold m3_list, I3 in *. cbn [length m00 m01 m02 m10 m11 m12 m20 m21 m22] in *. dlist dd Ld. cbn [moved].
  rename v into a, v0 into b, v1 into c, v2 into d, v3 into e, v4 into f, v5 into g, v6 into h, v7 into i.
  set (T := fun t => 4 + t * (a + e + i)). set (r := fun t => sqrt (T t)).
  apply (d_loc_imp _ (fun t => w * (/ (2 * r t) * (r t * r t)) + (x * (/ (2 * r t) * (t * h - t * f)) + (y * (/ (2 * r t) * (t * c - t * g)) + (z * (/ (2 * r t) * (t * d - t * b)) + 0)))) _
    (fun t => 1 < T t /\ t * (a - e - i) < 1 /\ t * (e - a - i) < 1 /\ t * (i - a - e) < 1)).
  - assert (L : forall m, is_derive (fun t => t * m) 0 m) by (intros m; auto_derive; [exact I | ring]).
    refine (filter_and _ _ (near_gt _ _ 1 4 (d_line 4 (a + e + i)) _ _) (filter_and _ _ (near_lt _ _ 1 0 (L _) _ _) (filter_and _ _ (near_lt _ _ 1 0 (L _) _ _) (near_lt _ _ 1 0 (L _) _ _)))); lra.
  - intros t (H0 & H1 & H2 & H3). unfold m2q_list, list_m3, q_list. cbn [nth]. set (A := mkM3 _ _ _ _ _ _ _ _ _).
    assert (D0 : diag4 A 0 = T t) by (unfold diag4, A, T; cbn [m00 m11 m22]; ring). assert (D1 : diag4 A 1 = t * (a - e - i)) by (unfold diag4, A; cbn [m00 m11 m22]; ring).
    assert (D2 : diag4 A 2 = t * (e - a - i)) by (unfold diag4, A; cbn [m00 m11 m22]; ring). assert (D3 : diag4 A 3 = t * (i - a - e)) by (unfold diag4, A; cbn [m00 m11 m22]; ring).
    assert (R0 : q_abs A 0 = r t) by (rewrite q_abs_diag, D0, Rmax_left by lra; reflexivity).
    assert (S1 : 1 < r t) by (unfold r; rewrite <- sqrt_1; apply sqrt_lt_1_alt; lra).
    assert (Small : forall u, u < 1 -> sqrt (Rmax u 0) <= 1) by (intros u Hu; rewrite <- sqrt_1; apply sqrt_le_1_alt, Rmax_lub; lra).
    assert (Am : argmax4 (q_abs A) = 0%nat).
    { unfold argmax4. rewrite (Rltb_f (q_abs A 0) (q_abs A 1)) by (rewrite R0, (q_abs_diag A 1), D1; pose proof (Small _ H1); lra).
      rewrite (Rltb_f (q_abs A 0) (q_abs A 2)) by (rewrite R0, (q_abs_diag A 2), D2; pose proof (Small _ H2); lra).
      rewrite (Rltb_f (q_abs A 0) (q_abs A 3)) by (rewrite R0, (q_abs_diag A 3), D3; pose proof (Small _ H3); lra). reflexivity. }
    unfold matrix_to_quaternion. rewrite Am. unfold quat_candidate, quat_by_rijk, qscale. rewrite R0. rewrite Rmax_left by lra. unfold A. cbn [m21 m12 m02 m20 m10 m01 qw qx qy qz dotl]. rewrite !Rplus_0_l. reflexivity.
  - assert (T0 : T 0 = 4) by (unfold T; ring). assert (Dr : is_derive r 0 ((a + e + i) / 4)).
    { eapply d_eq; [apply (d_sqrt T (a + e + i)); [apply d_line | lra]|]. rewrite T0. replace (sqrt 4) with 2 by (symmetry; apply sqrt_lem_1; lra). field. }
    assert (r0 : r 0 = 2) by (unfold r; rewrite T0; apply sqrt_lem_1; lra).
    assert (Di : is_derive (fun t => / (2 * r t)) 0 (- ((a + e + i) / 4) / 8)).
    { eapply d_eq; [apply (d_inv (fun t => 2 * r t)); [apply d_mult; [apply d_const | exact Dr] | lra]|]. cbv beta. rewrite r0. field. }
    assert (L : forall m k, is_derive (fun t => t * m - t * k) 0 (m - k)) by (intros m k; auto_derive; [exact I | ring]).
    assert (Q0 : is_derive (fun t => w * (/ (2 * r t) * (r t * r t))) 0 (w * ((a + e + i) / 8))).
    { eapply d_eq; [exact (d_mult (fun _ => w) _ _ _ (d_const w) (d_mult _ (fun t => r t * r t) _ _ Di (d_mult r r _ _ Dr Dr)))|]. cbv beta. rewrite r0. field. }
    assert (Q1 : forall s m k, is_derive (fun t => s * (/ (2 * r t) * (t * m - t * k))) 0 (s * ((m - k) / 4))).
    { intros s m k. eapply d_eq; [exact (d_mult (fun _ => s) _ _ _ (d_const s) (d_mult _ (fun t => t * m - t * k) _ _ Di (L m k)))|]. cbv beta. rewrite r0. field. }
    cbn [dotl]. eapply d_eq; [exact (d_plus _ _ _ _ Q0 (d_plus _ _ _ _ (Q1 x h f) (d_plus _ _ _ _ (Q1 y c g) (d_plus _ _ _ _ (Q1 z d b) (d_const 0)))))|]. field.
Qed.

Lemma sq3_zero x y z : x * x + y * y + z * z = 0 -> x = 0 /\ y = 0 /\ z = 0.
Proof.
  intros E. pose proof (Rle_0_sqr x) as W1. pose proof (Rle_0_sqr y) as W2. pose proof (Rle_0_sqr z) as W3. unfold Rsqr in *.
  split; [|split]; apply Rsqr_0_uniq; unfold Rsqr; lra.
Qed.
Lemma diag4_q q k : qnorm2 q <> 0 -> diag4 (quaternion_to_matrix q) k = 4 * (nth (min k 3) (q_list q) 0 * nth (min k 3) (q_list q) 0) / qnorm2 q.
Proof.
  intros N. assert (N' := N). unfold qnorm2 in N'.
  destruct k as [|[|[|k]]]; unfold diag4, quaternion_to_matrix, q_list; cbn [min nth m00 m11 m22]; try (destruct k; cbn [min nth]); unfold qnorm2; field; exact N'.
Qed.
Lemma trace_bounds A : is_rot A -> -1 <= m00 A + m11 A + m22 A <= 3.
Proof.
  intros H. destruct (m2q_spec _ H) as [N E]. pose proof (q2m_trace _ N) as T. rewrite E in T. unfold trace3 in T. unfold qnorm2 in N. set (q := matrix_to_quaternion A) in *.
  pose proof (Rle_0_sqr (qw q)) as W0. pose proof (Rle_0_sqr (qx q)) as W1. pose proof (Rle_0_sqr (qy q)) as W2. pose proof (Rle_0_sqr (qz q)) as W3. unfold Rsqr in *. lra.
Qed.
Lemma sqrt_tape_zero old c : gradient old tape_sqrt_positive_part [Fin 0] [Fin c] = [if Rltb 0 c then PInf else if Rltb c 0 then NInf else NaN].
Proof.
  unfold gradient, tape_sqrt_positive_part, record, rbnd, node, rret. cbn [p_ops p_in p_out fst snd app]. eapply fback_read; [|].
  - unfold frun. tidy. cbn [map combine]. tidy. eapply fback_step; [apply fback_end|]. tidy. reflexivity.
  - cbn [firstn]. destruct (Rltb 0 c); [reflexivity | destruct (Rltb c 0); reflexivity].
Qed.
Definition q_sample : Q := mkQ (4 / 5) (1 / 5) (2 / 5) (2 / 5).
Lemma q_sample_norm : qnorm2 q_sample = 1. Proof. unfold qnorm2, q_sample. cbn [qw qx qy qz]. lra. Qed.

Lemma l82_quaternion_to_matrix : forall old q, qnorm2 q <> 0 -> differentiates old tape_quaternion_to_matrix q2m_list (q_list q).
Proof. intros old [w x y z] N. apply right_q2m. exact N. Qed.

Lemma l82_axis_angle_to_quaternion : forall old v, v <> vzero -> vnorm v <> eps6 -> differentiates old tape_axis_angle_to_quaternion a2q_list (v_list v).
Proof.
  intros old [x y z] N M. apply right_a2q; [|exact M]. intros E. apply N. unfold vzero.
  cbn [vx vy vz qx qy qz] in E. apply sq3_zero in E. destruct E as (-> & -> & ->). reflexivity.
Qed.

Lemma l82_quaternion_to_axis_angle : forall old q, qvec q <> vzero -> 2 * atan2 (vnorm (qvec q)) (qw q) <> eps6 ->
  differentiates old tape_quaternion_to_axis_angle q2a_list (q_list q).
Proof.
  intros old [w x y z] N M. apply right_q2a; [|exact M]. intros E. apply N. unfold vzero, qvec. cbn [qx qy qz].
  cbn [vx vy vz qx qy qz] in E. apply sq3_zero in E. destruct E as (-> & -> & ->). reflexivity.
Qed.

Lemma l82_matrix_to_quaternion : forall old q, qnorm2 q <> 0 -> (forall c, In c (q_list q) -> c <> 0) ->
  (exists i, (i < 4)%nat /\ forall k, (k < 4)%nat -> k <> i -> Rabs (nth k (q_list q) 0) < Rabs (nth i (q_list q) 0)) ->
  differentiates old tape_matrix_to_quaternion m2q_list (m3_list (quaternion_to_matrix q)).
Proof.
  intros old q N Z (i & Hi & M).
  assert (P : 0 < qnorm2 q).
  { pose proof (Rle_0_sqr (qw q)) as W0. pose proof (Rle_0_sqr (qx q)) as W1. pose proof (Rle_0_sqr (qy q)) as W2. pose proof (Rle_0_sqr (qz q)) as W3. unfold qnorm2, Rsqr in *. lra. }
  apply right_m2q.
  - intros k Hk. rewrite diag4_q by exact N. rewrite Nat.min_l by lia. assert (C : nth k (q_list q) 0 <> 0) by (apply Z, nth_In; exact Hk).
    apply Rmult_integral_contrapositive_currified; [|apply Rinv_neq_0_compat, N]. nra.
  - exists i. split; [exact Hi|]. intros k Hk Nk. rewrite !diag4_q by exact N. rewrite !Nat.min_l by lia. specialize (M k Hk Nk). apply Rsqr_lt_abs_1 in M. unfold Rsqr in M.
    apply Rmult_lt_compat_r; [apply Rinv_0_lt_compat, P | lra].
Qed.

Lemma l82_matrix_to_quaternion_any : forall old A, (forall k, (k < 4)%nat -> diag4 A k <> 0) ->
  (exists i, (i < 4)%nat /\ forall k, (k < 4)%nat -> k <> i -> diag4 A k < diag4 A i) -> differentiates old tape_matrix_to_quaternion m2q_list (m3_list A).
Proof. intros old A N M. apply right_m2q; assumption. Qed.

Lemma l82_so3_exp : forall old eps v, 0 < eps -> vnorm2 v <> eps -> differentiates old (tape_so3_exp_map eps) (exp_list eps) (v_list v).
Proof. intros old eps [x y z] He N. apply right_exp; [exact He | exact N]. Qed.

Lemma l82_so3_log : forall old eps A, is_rot A -> 0 < eps <= eps4 -> differentiates old (tape_so3_log_map eps) (log_listf eps) (m3_list A).
Proof.
  intros old eps A HA He. pose proof (trace_bounds A HA) as B. destruct A as [a b c d e f g h i]. cbn [m00 m11 m22] in B. assert (P : 0 < eps4) by (unfold eps4; lra). change (m3_list (mkM3 a b c d e f g h i)) with [a; b; c; d; e; f; g; h; i]. apply right_log; [exact He | lra].
Qed.

Lemma l82_so3_log_any : forall old eps A, -1 - eps4 < m00 A + m11 A + m22 A < 3 + eps4 -> 0 < eps <= eps4 -> differentiates old (tape_so3_log_map eps) (log_listf eps) (m3_list A).
Proof. intros old eps [a b c d e f g h i] B He. apply right_log; [exact He | exact B]. Qed.

Lemma l82_angular_distance : forall old p q, -1 < qdot p q < 1 -> qdot p q <> 0 -> 1 - qdot p q * qdot p q <> eps4 ->
  differentiates old (tape_quaternion_angular_distance (quaternion_close eps4 [(p, q)])) dist_list (q_list p ++ q_list q).
Proof.
  intros old [a b c d] [e f g h] H N M. unfold qdot in *. cbn [qw qx qy qz] in *. assert (E : quaternion_close eps4 [(mkQ a b c d, mkQ e f g h)] = Rltb (1 - (a * e + b * f + c * g + d * h) * (a * e + b * f + c * g + d * h)) eps4).
  { unfold quaternion_close, qdot. cbn [forallb fst snd qw qx qy qz]. apply andb_true_r. }
  rewrite E. exact (right_dist old a b c d e f g h H N M).
Qed.

Lemma l82_sqrt_positive_part_refuted : forall old,
  gradient old tape_sqrt_positive_part [Fin 0] [Fin 0] = [NaN] /\ (forall c, 0 < c -> gradient old tape_sqrt_positive_part [Fin 0] [Fin c] = [PInf]) /\
  (forall c, c < 0 -> gradient old tape_sqrt_positive_part [Fin 0] [Fin c] = [NInf]).
Proof.
  intros old. split; [|split].
  - rewrite sqrt_tape_zero, !(proj2 (Rltb_false 0 0)) by lra. reflexivity.
  - intros c H. rewrite sqrt_tape_zero, (proj2 (Rltb_true 0 c)) by exact H. reflexivity.
  - intros c H. rewrite sqrt_tape_zero, (proj2 (Rltb_false 0 c)), (proj2 (Rltb_true c 0)) by lra. reflexivity.
Qed.

Lemma l82_matrix_to_quaternion_nan : forall old q cot j, qnorm2 q <> 0 -> In 0 (q_list q) -> In j [0; 4; 8]%nat ->
  nth_error (gradient old tape_matrix_to_quaternion (map Fin (m3_list (quaternion_to_matrix q))) (map Fin cot)) j = Some NaN.
Proof.
  intros old q cot j N Z Hj. apply In_nth with (d := 0) in Z. destruct Z as (k & Hk & Z). apply (m2q_nan old _ k cot); [exact Hk | | exact Hj].
  rewrite diag4_q by exact N. rewrite Nat.min_l by (cbn [q_list length] in Hk; lia). rewrite Z. unfold Rdiv. ring.
Qed.

Lemma l82_matrix_to_quaternion_refuted : forall old w x y z,
  is_gradient m2q_list (m3_list I3) [w; x; y; z] [w / 8; - z / 4; y / 4; z / 4; w / 8; - x / 4; - y / 4; x / 4; w / 8] /\
  forall j, In j [0; 4; 8]%nat -> nth_error (gradient old tape_matrix_to_quaternion (map Fin (m3_list I3)) (map Fin [w; x; y; z])) j = Some NaN.
Proof.
  intros old w x y z. split; [apply identity_gradient|]. intros j Hj. apply (m2q_nan old I3 1); [lia | unfold diag4, I3; cbn [m00 m11 m22]; ring | exact Hj].
Qed.

Lemma l82_axis_angle_to_quaternion_refuted : forall w x y z, let c := map Fin [w; x; y; z] in
  is_gradient a2q_list [0; 0; 0] [w; x; y; z] [x * / 2; y * / 2; z * / 2] /\
  gradient true tape_axis_angle_to_quaternion (map Fin [0; 0; 0]) c = map Fin [x * / 2; y * / 2; z * / 2] /\
  gradient false tape_axis_angle_to_quaternion (map Fin [0; 0; 0]) c = [NaN; NaN; NaN].
Proof. intros w x y z c. split; [apply zero_gradient_a2q|]. split; [exact (a2q_zero true w x y z) | exact (a2q_zero false w x y z)]. Qed.

Lemma l82_quaternion_to_axis_angle_refuted : forall w x y z, 0 < w -> let c := map Fin [x; y; z] in
  is_gradient q2a_list [w; 0; 0; 0] [x; y; z] [0; 2 * x; 2 * y; 2 * z] /\
  gradient true tape_quaternion_to_axis_angle (map Fin [w; 0; 0; 0]) c = NaN :: map Fin [2 * x; 2 * y; 2 * z] /\
  gradient false tape_quaternion_to_axis_angle (map Fin [w; 0; 0; 0]) c = [NaN; NaN; NaN; NaN].
Proof. intros w x y z H c. split; [apply zero_gradient_q2a, H|]. split; [exact (q2a_zero true w x y z H) | exact (q2a_zero false w x y z H)]. Qed.

Lemma l82_angular_distance_refuted : forall old p q cot, qdot p q = 1 \/ qdot p q = -1 ->
  let x := q_list p ++ q_list q in
  is_gradient dist_list x [cot] [0; 0; 0; 0; 0; 0; 0; 0] /\
  quaternion_close eps4 [(p, q)] = true /\
  gradient old (tape_quaternion_angular_distance true) (map Fin x) [Fin cot] = [NaN; NaN; NaN; NaN; NaN; NaN; NaN; NaN] /\
  let G := gradient old (tape_quaternion_angular_distance false) (map Fin x) [Fin cot] in
  length G = 8%nat /\ forall k v, nth_error G k = Some v -> isfinite v = false /\ (cot = 0 -> v = NaN).
Proof.
  intros old [a b c d] [e f g h] cot H x. unfold x, q_list, qdot in *. cbn [qw qx qy qz app] in *.
  split; [exact (close_gradient a b c d e f g h cot H)|].
  split. { unfold quaternion_close, qdot. cbn [forallb fst snd qw qx qy qz]. rewrite (proj2 (Rltb_true _ _)); [reflexivity|]. unfold eps4. destruct H as [-> | ->]; lra. }
  pose proof (fun cl => dist_same old cl a b c d e f g h _ cot H eq_refl) as P. cbv zeta in P. split.
  - destruct (P true) as [L Q]. set (G := gradient _ _ _ _) in *. destruct G as [|g0 [|g1 [|g2 [|g3 [|g4 [|g5 [|g6 [|g7 [|]]]]]]]]]; try discriminate L.
    assert (E : forall k v, nth_error [g0; g1; g2; g3; g4; g5; g6; g7] k = Some v -> v = NaN) by (intros k v K; apply (Q k v K); left; reflexivity).
    rewrite (E 0%nat g0 eq_refl), (E 1%nat g1 eq_refl), (E 2%nat g2 eq_refl), (E 3%nat g3 eq_refl), (E 4%nat g4 eq_refl), (E 5%nat g5 eq_refl), (E 6%nat g6 eq_refl), (E 7%nat g7 eq_refl). reflexivity.
  - destruct (P false) as [L Q]. split; [exact L|]. intros k v K. destruct (Q k v K) as [Q1 Q2]. split; [exact Q1|]. intros Z. apply Q2. right. exact Z.
Qed.
