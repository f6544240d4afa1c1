(** C36, C37, C38: angular distance, slerp and perturbations. *)
From Coq Require Import Reals Lra Psatz Bool Arith Lia List.
From Coquelicot Require Import Rcomplements.
From Verif Require Import Prelude ExtF Lin Trig RotModel RotBasic QuatProofs AxisAngle MathModel AcosProofs So3Proofs.
Import ListNotations.
Local Open Scope R_scope.

(** ** inner products of quaternions *)
Lemma qdot_sym p q : qdot p q = qdot q p. Proof. unfold qdot; ring. Qed.
Lemma qdot_opp_l p q : qdot (qopp p) q = - qdot p q. Proof. unfold qdot, qopp; cbn [qw qx qy qz]; ring. Qed.
Lemma qdot_opp_r p q : qdot p (qopp q) = - qdot p q. Proof. unfold qdot, qopp; cbn [qw qx qy qz]; ring. Qed.
Lemma qdot_self q : qdot q q = qnorm2 q. Proof. reflexivity. Qed.
Lemma qdot_lin a b p q r : qdot (qadd (qscale a p) (qscale b q)) r = a * qdot p r + b * qdot q r.
Proof. unfold qdot, qadd, qscale; cbn [qw qx qy qz]; ring. Qed.
Lemma cauchy p q : qdot p q * qdot p q <= qnorm2 p * qnorm2 q.
Proof.
  destruct p as [a b c d], q as [e f g h]. unfold qdot, qnorm2; cbn [qw qx qy qz].
  assert (0 <= (a * f - b * e) * (a * f - b * e) + (a * g - c * e) * (a * g - c * e) + (a * h - d * e) * (a * h - d * e)
    + (b * g - c * f) * (b * g - c * f) + (b * h - d * f) * (b * h - d * f) + (c * h - d * g) * (c * h - d * g)).
  { repeat apply Rplus_le_le_0_compat; apply Rle_0_sqr. }
  lra.
Qed.
Lemma unit_dot p q : qnorm2 p = 1 -> qnorm2 q = 1 -> -1 <= qdot p q <= 1.
Proof. intros Hp Hq. pose proof (cauchy p q) as C. rewrite Hp, Hq in C. split; nra. Qed.
Lemma unit_dot_1 p q : qnorm2 p = 1 -> qnorm2 q = 1 -> qdot p q = 1 -> p = q.
Proof.
  intros Hp Hq E.
  assert (Z : qnorm2 (qadd (qscale 1 p) (qscale (-1) q)) = 0).
  { rewrite <- qdot_self, qdot_lin, !(qdot_sym _ (qadd _ _)), !qdot_lin, !qdot_self, Hp, Hq, (qdot_sym q p), E. ring. }
  apply qnorm2_zero in Z. destruct p as [a b c d], q as [e f g h]. unfold qadd, qscale in Z; cbn [qw qx qy qz] in Z.
  pose proof (f_equal qw Z) as Z0. pose proof (f_equal qx Z) as Z1. pose proof (f_equal qy Z) as Z2. pose proof (f_equal qz Z) as Z3.
  cbn [qw qx qy qz] in *. apply mkQ_eq; lra.
Qed.

(** ** C36 *)
Lemma angle_spec p q : qnorm2 p = 1 -> qnorm2 q = 1 ->
  0 <= angle_between (p, q) <= PI /\ cos (angle_between (p, q) / 2) = Rabs (qdot p q).
Proof.
  intros Hp Hq. pose proof (unit_dot p q Hp Hq) as B. unfold angle_between, rclamp. cbn [fst snd].
  rewrite (Rmax_left (qdot p q)), Rmin_left by lra. set (a := Rabs (qdot p q)).
  assert (A : 0 <= a <= 1) by (unfold a; split; [apply Rabs_pos | apply Rabs_le_between; lra]). clearbody a.
  assert (S : 0 <= 1 - a * a) by nra.
  destruct (atan2_unit (sqrt (1 - a * a)) a) as [C1 C2]; [rewrite sqrt_sqrt by exact S; ring|].
  pose proof (atan2_nonneg (sqrt (1 - a * a)) a (sqrt_pos _)) as N. set (h := atan2 _ _) in *. clearbody h.
  replace (2 * h / 2) with h by field. split; [|exact C1]. split; [lra|].
  destruct (Rle_lt_dec h (PI / 2)) as [L|L]; [lra|]. exfalso.
  assert (cos h < cos (PI / 2)) by (apply cos_decr_lt; lra). rewrite cos_PI2 in *. lra.
Qed.
Lemma angle_unique_cos a b : 0 <= a <= PI -> 0 <= b <= PI -> cos a = cos b -> a = b.
Proof. intros Ha Hb E. rewrite <- (acos_cos a Ha), <- (acos_cos b Hb), E. reflexivity. Qed.
Lemma angle_char p q t : qnorm2 p = 1 -> qnorm2 q = 1 -> 0 <= t <= PI -> cos (t / 2) = Rabs (qdot p q) -> angle_between (p, q) = t.
Proof.
  intros Hp Hq Ht E. destruct (angle_spec p q Hp Hq) as [R C]. pose proof PI_RGT_0.
  assert (angle_between (p, q) / 2 = t / 2) by (apply angle_unique_cos; [lra | lra | congruence]). lra.
Qed.
Lemma trace_q2m q : qnorm2 q = 1 -> trace3 (quaternion_to_matrix q) = 4 * (qw q * qw q) - 1.
Proof.
  intros H. rewrite q2m_unit by exact H. unfold qmat, trace3; cbn [m00 m11 m22]. unfold qnorm2 in H. lra.
Qed.
(** the angle is that of the relative rotation *)
Lemma angle_rotation p q : qnorm2 p = 1 -> qnorm2 q = 1 -> exists k, unit3 k /\
  m3mul (quaternion_to_matrix p) (m3tr (quaternion_to_matrix q)) = axis_and_angle_to_matrix_33 k (angle_between (p, q)).
Proof.
  intros Hp Hq.
  assert (Np : qnorm2 p <> 0) by lra. assert (Nq : qnorm2 q <> 0) by lra.
  assert (Ni : qnorm2 (quaternion_invert q) = 1) by (rewrite <- Hq; unfold qnorm2, quaternion_invert; cbn [qw qx qy qz]; ring).
  assert (Nr : qnorm2 (quaternion_raw_multiply p (quaternion_invert q)) = 1) by (rewrite raw_norm, Hp, Ni; ring).
  rewrite <- q2m_inv by exact Nq. rewrite <- q2m_mul by lra.
  destruct (euler_axis (quaternion_to_matrix (quaternion_raw_multiply p (quaternion_invert q)))) as (k & t & Hk & Ht & E).
  { apply q2m_rot. lra. }
  exists k. split; [exact Hk|]. rewrite E. f_equal. symmetry. apply angle_char; try assumption.
  pose proof (trace_q2m _ Nr) as T. rewrite E, rot33_trace in T by exact Hk.
  replace (qw (quaternion_raw_multiply p (quaternion_invert q))) with (qdot p q) in T
    by (unfold qdot, quaternion_raw_multiply, quaternion_invert; cbn [qw qx qy qz]; ring).
  replace t with (2 * (t / 2)) in T by field. rewrite cos_2a_cos in T.
  assert (0 <= cos (t / 2)) by (apply cos_ge_0; lra).
  rewrite <- (Rabs_pos_eq (cos (t / 2))) by assumption. apply Rsqr_eq_abs_0. unfold Rsqr. lra.
Qed.
Lemma angle_sym p q : angle_between (p, q) = angle_between (q, p).
Proof. unfold angle_between; cbn [fst snd]. rewrite (qdot_sym p q). reflexivity. Qed.
Lemma rclamp_opp x : rclamp (- x) (-1) 1 = - rclamp x (-1) 1.
Proof. unfold rclamp, Rmin, Rmax. repeat destruct (Rle_dec _ _); lra. Qed.
Lemma angle_opp_l p q : angle_between (qopp p, q) = angle_between (p, q).
Proof. unfold angle_between; cbn [fst snd]. rewrite qdot_opp_l, rclamp_opp, Rabs_Ropp. reflexivity. Qed.
Lemma angle_opp_r p q : angle_between (p, qopp q) = angle_between (p, q).
Proof. rewrite angle_sym, angle_opp_l, angle_sym. reflexivity. Qed.
Lemma angle_zero_iff p q : qnorm2 p = 1 -> qnorm2 q = 1 -> (angle_between (p, q) = 0 <-> q = p \/ q = qopp p).
Proof.
  intros Hp Hq. destruct (angle_spec p q Hp Hq) as [R C]. split.
  - intros E. rewrite E in C. replace (0 / 2) with 0 in C by field. rewrite cos_0 in C.
    destruct (Rcase_abs (qdot p q)) as [L|L].
    + rewrite Rabs_left in C by exact L. right. symmetry. apply unit_dot_1; [rewrite qnorm2_opp; exact Hp | exact Hq | rewrite qdot_opp_l; lra].
    + rewrite Rabs_right in C by exact L. left. symmetry. apply unit_dot_1; [exact Hp | exact Hq | lra].
  - pose proof PI_RGT_0. intros [-> | ->]; apply angle_char; try assumption; try lra; replace (0 / 2) with 0 by field; rewrite cos_0.
    + rewrite qdot_self, Hp, Rabs_R1. reflexivity.
    + rewrite qdot_opp_r, Rabs_Ropp, qdot_self, Hp, Rabs_R1. reflexivity.
Qed.
Lemma gram p q r : qnorm2 p = 1 -> qnorm2 q = 1 -> qnorm2 r = 1 ->
  (qdot p r - qdot p q * qdot q r) * (qdot p r - qdot p q * qdot q r) <=
  (1 - qdot p q * qdot p q) * (1 - qdot q r * qdot q r).
Proof.
  intros Hp Hq Hr.
  pose proof (cauchy (qadd (qscale 1 p) (qscale (- qdot p q) q)) (qadd (qscale 1 r) (qscale (- qdot q r) q))) as C.
  rewrite <- !qdot_self in C. rewrite !qdot_lin in C.
  rewrite !(qdot_sym p (qadd _ _)), !(qdot_sym q (qadd _ _)), !(qdot_sym r (qadd _ _)), !qdot_lin in C.
  rewrite !qdot_self, Hp, Hq, Hr in C. rewrite (qdot_sym q p), (qdot_sym r p), (qdot_sym r q) in C.
  set (x := qdot p q) in *. set (y := qdot q r) in *. set (z := qdot p r) in *. clearbody x y z.
  eapply Rle_trans; [|eapply Rle_trans; [exact C|]]; apply Req_le; ring.
Qed.
Lemma angle_triangle p q r : qnorm2 p = 1 -> qnorm2 q = 1 -> qnorm2 r = 1 ->
  angle_between (p, r) <= angle_between (p, q) + angle_between (q, r).
Proof.
  intros Hp Hq Hr. destruct (angle_spec p q Hp Hq) as [R1 C1]. destruct (angle_spec q r Hq Hr) as [R2 C2].
  destruct (angle_spec p r Hp Hr) as [R3 C3].
  set (a := angle_between (p, q)) in *. set (b := angle_between (q, r)) in *. set (c := angle_between (p, r)) in *.
  destruct (Rle_lt_dec c (a + b)) as [L|L]; [exact L|]. exfalso.
  assert (K : cos (c / 2) < cos (a / 2 + b / 2)) by (apply cos_decr_lt; lra).
  rewrite cos_plus, C1, C2, C3 in K.
  assert (Sa : 0 <= sin (a / 2)) by (apply sin_ge_0; lra). assert (Sb : 0 <= sin (b / 2)) by (apply sin_ge_0; lra).
  pose proof (sin_sqr (a / 2)) as Qa. pose proof (sin_sqr (b / 2)) as Qb. rewrite C1 in Qa. rewrite C2 in Qb.
  pose proof (gram p q r Hp Hq Hr) as G.
  set (x := qdot p q) in *. set (y := qdot q r) in *. set (z := qdot p r) in *. clearbody x y z a b c.
  set (sa := sin (a / 2)) in *. set (sb := sin (b / 2)) in *. clearbody sa sb.
  assert (X2 : Rabs x * Rabs x = x * x) by (rewrite <- Rabs_mult; apply Rabs_pos_eq, Rle_0_sqr).
  assert (Y2 : Rabs y * Rabs y = y * y) by (rewrite <- Rabs_mult; apply Rabs_pos_eq, Rle_0_sqr).
  assert (XY : Rabs x * Rabs y = Rabs (x * y)) by (symmetry; apply Rabs_mult).
  assert (D : Rabs (x * y) - Rabs z <= Rabs (z - x * y)).
  { pose proof (Rabs_triang_inv (x * y) z). rewrite Rabs_minus_sym. lra. }
  assert (G' : Rabs (z - x * y) <= sa * sb).
  { apply Rsqr_incr_0_var; [|nra]. unfold Rsqr.
    replace (Rabs (z - x * y) * Rabs (z - x * y)) with ((z - x * y) * (z - x * y)) by (rewrite <- Rabs_mult; symmetry; apply Rabs_pos_eq, Rle_0_sqr).
    replace (sa * sb * (sa * sb)) with ((sa * sa) * (sb * sb)) by ring. rewrite Qa, Qb, X2, Y2. exact G. }
  lra.
Qed.
Lemma distance_cases qs : (forall p q, In (p, q) qs -> qnorm2 p = 1 /\ qnorm2 q = 1) ->
  (quaternion_angular_distance qs = map angle_between qs /\
     exists p q, In (p, q) qs /\ eps4 <= sin (angle_between (p, q) / 2) * sin (angle_between (p, q) / 2)) \/
  (quaternion_angular_distance qs = map (fun _ => 0) qs /\
     forall p q, In (p, q) qs -> sin (angle_between (p, q) / 2) * sin (angle_between (p, q) / 2) < eps4).
Proof.
  intros U. unfold quaternion_angular_distance.
  assert (K : forall p q, In (p, q) qs -> sin (angle_between (p, q) / 2) * sin (angle_between (p, q) / 2) = 1 - qdot p q * qdot p q).
  { intros p q I. destruct (U p q I) as [Hp Hq]. rewrite sin_sqr, (proj2 (angle_spec p q Hp Hq)), <- Rabs_mult. rewrite Rabs_pos_eq by nra. ring. }
  destruct (quaternion_close eps4 qs) eqn:E; unfold quaternion_close in E.
  - right. split; [rewrite map_map; reflexivity|]. intros p q I. rewrite (K p q I).
    rewrite forallb_forall in E. specialize (E (p, q) I). cbn [fst snd] in E. apply Rltb_true, E.
  - left. split; [reflexivity|].
    assert (X : existsb (fun p => negb (Rltb (1 - qdot (fst p) (snd p) * qdot (fst p) (snd p)) eps4)) qs = true).
    { clear -E. induction qs as [|x r IH]; [discriminate|]. simpl in *. destruct (Rltb _ eps4); simpl in *; auto. }
    apply existsb_exists in X as ([p q] & I & X). exists p, q. split; [exact I|]. rewrite (K p q I).
    cbn [fst snd] in X. apply negb_true_iff, Rltb_false in X. exact X.
Qed.

(** ** C37 *)
Lemma flip_spec p q : qnorm2 p = 1 -> qnorm2 q = 1 -> qnorm2 (flip_row (p, q)) = 1 /\ qdot p (flip_row (p, q)) = flip_cos (p, q) /\
  flip_cos (p, q) = Rabs (qdot p q) /\ 0 <= flip_cos (p, q) <= 1 /\ (flip_row (p, q) = q \/ flip_row (p, q) = qopp q).
Proof.
  intros Hp Hq. pose proof (unit_dot p q Hp Hq) as B. unfold flip_row, flip_cos. cbn [fst snd].
  destruct (Rltb (qdot p q) 0) eqn:E.
  - apply Rltb_true in E. rewrite qnorm2_opp, qdot_opp_r, Rabs_left by lra. repeat split; auto; lra.
  - apply Rltb_false in E. rewrite Rabs_pos_eq by lra. repeat split; auto; lra.
Qed.
Definition slerp_exact (t : R) (q1 q2 : Q) (th : R) : Q :=
  qadd (qscale (sin ((1 - t) * th) / sin th) q1) (qscale (sin (t * th) / sin th) q2).
Lemma slerp_row_fin t q1 q2 c : 0 <= c < 1 -> slerp_row t q1 q2 c = finq (slerp_exact t q1 q2 (acos c)).
Proof.
  intros H. unfold slerp_row, tacos.
  replace (Rleb (-1) c) with true by (symmetry; apply Rleb_true; lra).
  replace (Rleb c 1) with true by (symmetry; apply Rleb_true; lra). cbn [andb fsin fmul fdiv].
  assert (P : 0 < sin (acos c)).
  { pose proof (acos_bound_lt c ltac:(lra)). apply sin_gt_0; lra. }
  rewrite !fdivr_fin by lra. reflexivity.
Qed.
Lemma slerp_dot q1 q2 th t s : qnorm2 q1 = 1 -> qnorm2 q2 = 1 -> qdot q1 q2 = cos th -> sin th <> 0 ->
  qdot (slerp_exact t q1 q2 th) (slerp_exact s q1 q2 th) = cos ((t - s) * th).
Proof.
  intros H1 H2 H3 H4. unfold slerp_exact. rewrite qdot_lin, !(qdot_sym _ (qadd _ _)), !qdot_lin, !qdot_self, H1, H2, (qdot_sym q2 q1), H3.
  replace ((1 - t) * th) with (th - t * th) by ring. replace ((1 - s) * th) with (th - s * th) by ring.
  replace ((t - s) * th) with (t * th - s * th) by ring. rewrite !sin_minus, cos_minus.
  pose proof (sin_sqr th) as S.
  set (C := cos th) in *. set (D := sin th) in *. set (ct := cos (t * th)). set (st := sin (t * th)). set (cs := cos (s * th)). set (ss := sin (s * th)).
  clearbody C D ct st cs ss. clear H1 H2 H3.
  apply Rmult_eq_reg_r with (D * D); [|nra].
  transitivity ((D * ct - C * st) * (D * cs - C * ss) + (D * ct - C * st) * ss * C + st * (D * cs - C * ss) * C + st * ss); [field; exact H4|].
  transitivity (ct * cs * (D * D) + st * ss * (1 - C * C)); [ring|]. rewrite S. ring.
Qed.
Lemma slerp_0 q1 q2 th : sin th <> 0 -> slerp_exact 0 q1 q2 th = q1.
Proof.
  intros H. unfold slerp_exact. replace ((1 - 0) * th) with th by ring. rewrite Rmult_0_l, sin_0.
  unfold qadd, qscale; destruct q1 as [a b c d]; cbn [qw qx qy qz]. apply mkQ_eq; field; exact H.
Qed.
Lemma slerp_1 q1 q2 th : sin th <> 0 -> slerp_exact 1 q1 q2 th = q2.
Proof.
  intros H. unfold slerp_exact. replace ((1 - 1) * th) with 0 by ring. rewrite Rmult_1_l, sin_0.
  unfold qadd, qscale; destruct q2 as [a b c d]; cbn [qw qx qy qz]. apply mkQ_eq; field; exact H.
Qed.
(** the batch *)
Definition all_close (qs : list (Q * Q)) : Prop := forall p, In p qs -> 1 - / 1000000 < flip_cos p.
Lemma slerp_rows qs : zip_with (fun p b => (fst p, b, flip_cos p)) qs (map flip_row qs) = map (fun p => (fst p, flip_row p, flip_cos p)) qs.
Proof. induction qs as [|p r IH]; [reflexivity|]. simpl. f_equal. exact IH. Qed.
Lemma slerp_far qs t : ~ all_close qs -> quaternion_slerp qs (TNum t) =
  (Ok (map (fun p => slerp_row t (fst p) (flip_row p) (flip_cos p)) qs), map flip_row qs).
Proof.
  intros N. unfold quaternion_slerp. rewrite slerp_rows. destruct (forallb _ qs) eqn:E.
  - exfalso. apply N. intros p Hp. rewrite forallb_forall in E. apply Rltb_true, E, Hp.
  - rewrite map_map. reflexivity.
Qed.
Lemma slerp_near qs t : all_close qs -> quaternion_slerp qs (TNum t) =
  (Ok (map (fun p => finq (lerp_row t (fst p) (flip_row p))) qs), map flip_row qs).
Proof.
  intros N. unfold quaternion_slerp. rewrite slerp_rows. replace (forallb _ qs) with true.
  - rewrite map_map. reflexivity.
  - symmetry. apply forallb_forall. intros p Hp. apply Rltb_true, N, Hp.
Qed.
Lemma lerp_norm t q1 q2 : qnorm2 q1 = 1 -> qnorm2 q2 = 1 -> qnorm2 (lerp_row t q1 q2) = 1 - 2 * (t * (1 - t)) * (1 - qdot q1 q2).
Proof.
  intros H1 H2.
  transitivity ((1 - t) * (1 - t) * qnorm2 q1 + t * t * qnorm2 q2 + 2 * (t * (1 - t)) * qdot q1 q2).
  - unfold qnorm2, lerp_row, qadd, qscale, qsub, qdot; cbn [qw qx qy qz]; ring.
  - rewrite H1, H2. ring.
Qed.
(** an identical pair in a batch with a distinct one *)
Lemma slerp_nan t q : qnorm2 q = 1 -> slerp_row t q q 1 = mkF4 NaN NaN NaN NaN.
Proof.
  intros _. unfold slerp_row, tacos.
  replace (Rleb (-1) 1) with true by (symmetry; apply Rleb_true; lra).
  replace (Rleb 1 1) with true by (symmetry; apply Rleb_true; lra). cbn [andb]. rewrite acos_1.
  cbn [fsin fmul]. rewrite !Rmult_0_r, sin_0. unfold fdiv, fdivr.
  replace (Reqb 0 0) with true by (symmetry; apply Reqb_true; reflexivity).
  replace (Rltb 0 0) with false by (symmetry; apply Rltb_false; lra). reflexivity.
Qed.

(** ** C38 *)
Lemma perturb_rigid T rs ts axis perp d : is_rigid T -> (forall a, axis = Some a -> unit3 a) -> (axis = None -> d_ax d <> vzero) ->
  is_rigid (perturb_row T rs ts axis perp d).
Proof.
  intros HT HA HN. unfold perturb_row. destruct axis as [a|].
  - destruct perp; apply is_rigid_aff, is_rot_mul; try apply HT; apply rot33_rot, HA; reflexivity.
  - apply is_rigid_aff, is_rot_mul; [apply rot33_rot, normalise_unit, HN; reflexivity | apply HT].
Qed.
Lemma perturb_axis T rs ts a perp d : unit3 a -> let P := perturb_row T rs ts (Some a) perp d in
  rotp P = m3mul (axis_and_angle_to_matrix_33 a (d_th d * rs)) (rotp T) /\
  trp P = vadd (trp T) (if perp then vsub (vscale ts (d_t d)) (vscale (vdot (vscale ts (d_t d)) a) a) else vscale ts (d_t d)) /\
  (perp = true -> vdot (vsub (trp P) (trp T)) a = 0).
Proof.
  intros Ha P. unfold P, perturb_row. destruct perp; rewrite rotp_aff, trp_aff; (split; [reflexivity|]; split; [reflexivity|]); intros H; [|discriminate].
  unfold unit3, vnorm2 in Ha. generalize (vscale ts (d_t d)). intros w. destruct (trp T) as [x y z], w as [u v' w], a as [a b c].
  unfold vadd, vsub, vscale, vdot in *; cbn [vx vy vz] in *.
  transitivity ((u * a + v' * b + w * c) * (1 - (a * a + b * b + c * c))); [ring|]. rewrite Ha. ring.
Qed.
Lemma perturb_free T rs ts perp d : d_ax d <> vzero -> let P := perturb_row T rs ts None perp d in
  exists k, unit3 k /\ (exists c, 0 < c /\ k = vscale c (d_ax d)) /\
  rotp P = m3mul (axis_and_angle_to_matrix_33 k (d_th d * rs)) (rotp T) /\ trp P = vadd (trp T) (vscale ts (d_t d)).
Proof.
  intros H P. exists (vscale (/ vnorm (d_ax d)) (d_ax d)). split; [apply normalise_unit, H|]. split.
  - exists (/ vnorm (d_ax d)). split; [|reflexivity]. apply Rinv_0_lt_compat. pose proof (vnorm_nonneg (d_ax d)).
    assert (vnorm (d_ax d) <> 0) by (intros Z; apply H, vnorm_zero_iff, Z). lra.
  - unfold P, perturb_row. rewrite rotp_aff, trp_aff. split; reflexivity.
Qed.
