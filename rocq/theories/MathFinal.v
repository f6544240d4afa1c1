(** Last steps of the proofs quoted in Properties_Math.v. *)
From Coq Require Import Reals Lra Psatz Bool Arith ZArith Lia List.
From Coquelicot Require Import Coquelicot.
From Verif Require Import Prelude ExtF Lin Trig RotModel RotBasic QuatProofs AxisAngle MathModel AcosProofs So3Proofs So3More SlerpProofs.
Import ListNotations.
Local Open Scope R_scope.

Lemma l33_cross : forall v u, m3tr (hat v) = m3opp (hat v) /\ m3vec (hat v) u = vcross v u.
Proof.
  intros v u. split; [|apply hat_cross]. destruct v as [a b c]. unfold m3tr, m3opp, hat; cbn [vx vy vz m00 m01 m02 m10 m11 m12 m20 m21 m22]. apply mkM3_eq; ring.
Qed.

Lemma l33_reject : forall hs h, In h hs ->
  (exists x, In x [m00 h + m00 h; m11 h + m11 h; m22 h + m22 h; m01 h + m10 h; m02 h + m20 h; m12 h + m21 h] /\ / 100000 < Rabs x) ->
  hat_inv hs = Err ValueError.
Proof.
  intros hs h Hin (x & Hx & Lx). apply hat_inv_reject with h; [exact Hin|]. apply Rnot_le_lt. intros L. apply m3maxabs_le in L.
  destruct h as [a b c d e f g i j]. unfold m3add, m3tr in L; cbn [m00 m01 m02 m10 m11 m12 m20 m21 m22] in *. unfold hat_tol in L.
  destruct L as (L1 & L2 & L3 & L4 & L5 & L6 & L7 & L8 & L9).
  destruct Hx as [<-|[<-|[<-|[<-|[<-|[<-|[]]]]]]]; lra.
Qed.

Lemma l33_accept : forall hs, hs <> [] ->
  (forall h, In h hs -> forall x, In x [m00 h + m00 h; m11 h + m11 h; m22 h + m22 h; m01 h + m10 h; m02 h + m20 h; m12 h + m21 h] -> Rabs x <= / 100000) ->
  hat_inv hs = Ok (map (fun h => mkV3 (m21 h) (m02 h) (m10 h)) hs).
Proof.
  intros hs N H. apply hat_inv_ok; [exact N|]. intros h Hin. apply m3maxabs_le. specialize (H h Hin).
  destruct h as [a b c d e f g i j]. unfold m3add, m3tr, hat_tol; cbn [m00 m01 m02 m10 m11 m12 m20 m21 m22] in *.
  rewrite (Rplus_comm d b), (Rplus_comm g c), (Rplus_comm i f). repeat split; apply H; simpl; auto 10.
Qed.

Lemma l33_empty_batch_refuted : exists hs, (forall h, In h hs -> m3tr h = m3opp h) /\ hat_inv hs = Err RuntimeError.
Proof. exists []. split; [intros h []|reflexivity]. Qed.

Lemma l34_exp : forall eps v, 0 < eps -> eps <= vnorm2 v ->
  exists k, unit3 k /\ v = vscale (vnorm v) k /\ so3_exp_map eps v = axis_and_angle_to_matrix_33 k (vnorm v) /\
    is_rot (so3_exp_map eps v) /\ m3vec (so3_exp_map eps v) v = v.
Proof.
  intros eps v He Hv. destruct (exp_spec eps v He Hv) as (k & Hk & E & X). exists k.
  split; [exact Hk|]. split; [exact E|]. split; [exact X|]. rewrite X. split; [apply rot33_rot, Hk|].
  rewrite E at 2. rewrite E at 3.
  assert (F : forall c, m3vec (axis_and_angle_to_matrix_33 k (vnorm v)) (vscale c k) = vscale c (m3vec (axis_and_angle_to_matrix_33 k (vnorm v)) k)).
  { intros c. destruct (axis_and_angle_to_matrix_33 k (vnorm v)) as [a b c' d e f g h i]. destruct k as [x y z].
    unfold m3vec, vscale; cbn [vx vy vz m00 m01 m02 m10 m11 m12 m20 m21 m22]. apply mkV3_eq; ring. }
  rewrite F. f_equal. apply rot33_axis, Hk.
Qed.

Lemma l34_exp_small : forall v, vnorm2 v < eps4 ->
  exists k, unit3 k /\ v = vscale (vnorm v) k /\
    forall e, In e [m00; m01; m02; m10; m11; m12; m20; m21; m22] ->
      Rabs (e (so3_exp_map eps4 v) - e (axis_and_angle_to_matrix_33 k (vnorm v))) <= / 1000000.
Proof.
  intros v H. destruct (exp_small_bound v H) as (k & Hk & E & D). exists k. split; [exact Hk|]. split; [exact E|].
  unfold m3dist in D. apply m3maxabs_le in D. revert D. generalize (so3_exp_map eps4 v) (axis_and_angle_to_matrix_33 k (vnorm v)).
  intros A B D. unfold m3add, m3opp in D; cbn [m00 m01 m02 m10 m11 m12 m20 m21 m22] in D. unfold eps6 in D.
  intros e He. unfold Rminus. simpl in He. destruct D as (L1 & L2 & L3 & L4 & L5 & L6 & L7 & L8 & L9).
  repeat (destruct He as [<-|He]; [assumption|]). destruct He.
Qed.

Lemma l34_relative_self_refuted : exists A, is_rot A /\ so3_relative_angle [A] [A] false <> Ok [Fin 0].
Proof.
  exists I3. split; [apply is_rot_I|]. destruct (relative_self I3 is_rot_I) as (r & E & B). rewrite E. intros C.
  assert (HX : forall T (a b : T), Ok a = Ok b -> a = b) by (intros; congruence). apply HX in C.
  assert (HL : forall T (a b : T), [a] = [b] -> a = b) by (intros; congruence). apply HL in C.
  assert (HF : forall a b, Fin a = Fin b -> a = b) by (intros; congruence). apply HF in C. lra.
Qed.

Lemma l34_relative_monotone : forall A B C D r s k l t u, is_rot A -> is_rot B -> is_rot C -> is_rot D ->
  so3_relative_angle [A] [B] false = Ok [Fin r] -> so3_relative_angle [C] [D] false = Ok [Fin s] ->
  unit3 k -> unit3 l -> 0 <= t -> u <= PI -> t < u ->
  m3mul A (m3tr B) = axis_and_angle_to_matrix_33 k t -> m3mul C (m3tr D) = axis_and_angle_to_matrix_33 l u -> r < s.
Proof.
  intros A B C D r s k l t u HA HB HC HD Er Es Hk Hl Ht Hu L E1 E2.
  assert (HX : forall (a b : R), Ok [Fin a] = Ok [Fin b] -> a = b) by (intros; congruence).
  rewrite relative_list in Er; [|reflexivity|intros ? [<-|[]]; assumption|intros ? [<-|[]]; assumption].
  rewrite relative_list in Es; [|reflexivity|intros ? [<-|[]]; assumption|intros ? [<-|[]]; assumption].
  cbn [zip_with] in Er, Es. apply HX in Er, Es. rewrite E1, rot33_trace in Er by exact Hk. rewrite E2, rot33_trace in Es by exact Hl.
  replace ((1 + 2 * cos t - 1) * / 2) with (cos t) in Er by field. replace ((1 + 2 * cos u - 1) * / 2) with (cos u) in Es by field.
  rewrite <- Er, <- Es. apply ext4_order; assumption.
Qed.

Lemma l35_extrapolation : forall b lo hi, b = BFloat hi /\ lo = - hi \/ b = BPair lo hi -> -1 < lo -> lo <= hi -> hi < 1 ->
  exists f f', (forall xs, acos_linear_extrapolation xs b = Ok (map f xs)) /\
    (forall x, lo <= x <= hi -> f x = acos x) /\
    (forall x, is_derive f x (f' x)) /\ (forall x, continuous f' x) /\ (forall x, continuous f x) /\
    (forall x, x <= lo -> f' x = f' lo) /\ (forall x, hi <= x -> f' x = f' hi) /\
    (forall x y, x < y -> f y + (y - x) <= f x).
Proof.
  intros b lo hi Hb H1 H2 H3. exists (acos_extrap lo hi), (fun x => dacos_dx (clampb lo hi x)).
  split.
  { intros xs. pose proof (extrapolation_spec xs b) as S. destruct Hb as [[-> ->] | ->]; apply S; auto. }
  split; [apply ext_mid; assumption|]. split; [apply ext_derive; assumption|]. split; [apply slope_cont; assumption|].
  split. { intros x. apply (ex_derive_continuous (acos_extrap lo hi) x). eexists. apply ext_derive; assumption. }
  split. { intros x Hx. rewrite (clampb_low lo hi H2 x Hx), (clampb_low lo hi H2 lo (Rle_refl _)). reflexivity. }
  split. { intros x Hx. rewrite (clampb_high lo hi H2 x Hx), (clampb_high lo hi H2 hi (Rle_refl _)). reflexivity. }
  apply ext_decr; assumption.
Qed.

Lemma l35_reject : forall xs b lo hi, b = BFloat hi /\ lo = - hi \/ b = BPair lo hi -> (lo <= -1 \/ 1 <= hi \/ hi < lo) ->
  acos_linear_extrapolation xs b = Err ValueError.
Proof.
  intros xs b lo hi Hb H. pose proof (extrapolation_spec xs b) as S. destruct Hb as [[-> ->] | ->]; apply S; lra.
Qed.

Lemma l36_symmetric : forall qs, quaternion_angular_distance (map (fun p => (snd p, fst p)) qs) = quaternion_angular_distance qs.
Proof.
  intros qs. unfold quaternion_angular_distance.
  replace (quaternion_close eps4 (map (fun p => (snd p, fst p)) qs)) with (quaternion_close eps4 qs).
  2:{ unfold quaternion_close. induction qs as [|[p q] r IH]; [reflexivity|]. cbn [map forallb fst snd]. rewrite <- IH, (qdot_sym p q). reflexivity. }
  replace (map angle_between (map (fun p => (snd p, fst p)) qs)) with (map angle_between qs); [reflexivity|].
  rewrite map_map. apply map_ext. intros [p q]. cbn [fst snd]. apply angle_sym.
Qed.

Lemma l36_sign : forall qs (s1 s2 : Q * Q -> bool),
  quaternion_angular_distance (map (fun p => (if s1 p then qopp (fst p) else fst p, if s2 p then qopp (snd p) else snd p)) qs) =
  quaternion_angular_distance qs.
Proof.
  intros qs s1 s2. unfold quaternion_angular_distance. set (g := fun p => _).
  assert (G : forall p, angle_between (g p) = angle_between p /\ qdot (fst (g p)) (snd (g p)) * qdot (fst (g p)) (snd (g p)) = qdot (fst p) (snd p) * qdot (fst p) (snd p)).
  { intros p. unfold g. rewrite (surjective_pairing p) at 5. cbn [fst snd]. destruct (s1 p), (s2 p);
      rewrite ?angle_opp_l, ?angle_opp_r, ?qdot_opp_l, ?qdot_opp_r; (split; [rewrite <- ?surjective_pairing; reflexivity | ring]). }
  replace (quaternion_close eps4 (map g qs)) with (quaternion_close eps4 qs).
  2:{ unfold quaternion_close. induction qs as [|p r IH]; [reflexivity|]. cbn [map forallb]. rewrite <- IH, (proj2 (G p)). reflexivity. }
  replace (map angle_between (map g qs)) with (map angle_between qs); [reflexivity|].
  rewrite map_map. apply map_ext. intros p. symmetry. apply (proj1 (G p)).
Qed.

Lemma l36_angle : forall qs, (forall p q, In (p, q) qs -> qnorm2 p = 1 /\ qnorm2 q = 1) ->
  exists th, length th = length qs /\
    (forall i p q, nth_error qs i = Some (p, q) -> exists t k, nth_error th i = Some t /\ 0 <= t <= PI /\ unit3 k /\
       m3mul (quaternion_to_matrix p) (m3tr (quaternion_to_matrix q)) = axis_and_angle_to_matrix_33 k t /\
       (t = 0 <-> quaternion_to_matrix p = quaternion_to_matrix q)) /\
    ((quaternion_angular_distance qs = th /\ exists t, In t th /\ eps4 <= sin (t / 2) * sin (t / 2)) \/
     (quaternion_angular_distance qs = map (fun _ => 0) qs /\ forall t, In t th -> sin (t / 2) * sin (t / 2) < eps4)).
Proof.
  intros qs U. exists (map angle_between qs). split; [apply map_length|]. split.
  - intros i p q E. destruct (U p q (nth_error_In _ _ E)) as [Hp Hq]. destruct (angle_rotation p q Hp Hq) as (k & Hk & X).
    exists (angle_between (p, q)), k. split; [rewrite nth_error_map, E; reflexivity|]. split; [apply angle_spec; assumption|].
    split; [exact Hk|]. split; [exact X|]. split.
    + intros Z. apply angle_zero_iff in Z; [|assumption|assumption]. destruct Z as [-> | ->]; [reflexivity|]. rewrite q2m_opp by lra. reflexivity.
    + intros Z. assert (RQ : is_rot (quaternion_to_matrix q)) by (apply q2m_rot; lra).
      rewrite Z, (proj1 RQ) in X. pose proof (f_equal trace3 X) as T. rewrite rot33_trace in T by exact Hk.
      unfold trace3, I3 in T; cbn [m00 m11 m22] in T. apply angle_unique_cos; [apply angle_spec; assumption | pose proof PI_RGT_0; lra |]. rewrite cos_0. lra.
  - destruct (distance_cases qs U) as [[E (p & q & I & L)] | [E L]].
    + left. split; [exact E|]. exists (angle_between (p, q)). split; [apply in_map; exact I | exact L].
    + right. split; [exact E|]. intros t Ht. apply in_map_iff in Ht as ([p q] & <- & I). apply L; exact I.
Qed.

Lemma l36_range : forall qs, (forall p q, In (p, q) qs -> qnorm2 p = 1 /\ qnorm2 q = 1) ->
  length (quaternion_angular_distance qs) = length qs /\ forall t, In t (quaternion_angular_distance qs) -> 0 <= t <= PI.
Proof.
  intros qs U. pose proof PI_RGT_0. destruct (distance_cases qs U) as [[E _] | [E _]]; rewrite E, map_length; (split; [reflexivity|]); intros t Ht; apply in_map_iff in Ht as ([p q] & <- & I).
  - destruct (U p q I). apply angle_spec; assumption.
  - lra.
Qed.

Lemma l36_zero : forall qs i p q, (forall p q, In (p, q) qs -> qnorm2 p = 1 /\ qnorm2 q = 1) ->
  nth_error qs i = Some (p, q) -> q = p \/ q = qopp p -> nth_error (quaternion_angular_distance qs) i = Some 0.
Proof.
  intros qs i p q U E Z. destruct (U p q (nth_error_In _ _ E)) as [Hp Hq].
  destruct (distance_cases qs U) as [[D _] | [D _]]; rewrite D, nth_error_map, E; [|reflexivity].
  cbn [option_map]. f_equal. apply angle_zero_iff; assumption.
Qed.

Lemma l36_triangle : forall p q r a b c, qnorm2 p = 1 -> qnorm2 q = 1 -> qnorm2 r = 1 ->
  quaternion_angular_distance [(p, q)] = [a] -> quaternion_angular_distance [(q, r)] = [b] -> quaternion_angular_distance [(p, r)] = [c] ->
  a <> 0 -> b <> 0 -> c <= a + b.
Proof.
  intros p q r a b c Hp Hq Hr Ea Eb Ec Na Nb.
  assert (HL : forall (a b : R), [a] = [b] -> a = b) by (intros; congruence).
  assert (K : forall p q d, quaternion_angular_distance [(p, q)] = [d] -> d = angle_between (p, q) \/ d = 0).
  { intros p' q' d. unfold quaternion_angular_distance. destruct (quaternion_close _ _); cbn [map]; intros E; apply HL in E; auto. }
  apply K in Ea, Eb, Ec. destruct Ea as [-> | ?]; [|contradiction]. destruct Eb as [-> | ?]; [|contradiction].
  destruct Ec as [-> | ->]; [apply angle_triangle; assumption|].
  pose proof (proj1 (proj1 (angle_spec p q Hp Hq))). pose proof (proj1 (proj1 (angle_spec q r Hq Hr))). lra.
Qed.

Lemma l36_batch_refuted : exists p q r s d0 d1 d2, qnorm2 p = 1 /\ qnorm2 q = 1 /\ qnorm2 r = 1 /\ qnorm2 s = 1 /\
  quaternion_angular_distance [(p, q)] = [d0] /\ quaternion_angular_distance [(p, q); (r, s)] = [d1; d2] /\ d0 = 0 /\ 0 < d1.
Proof.
  assert (P : qnorm2 (mkQ 1 0 0 0) = 1) by (unfold qnorm2; cbn [qw qx qy qz]; ring).
  assert (S : qnorm2 (mkQ 0 1 0 0) = 1) by (unfold qnorm2; cbn [qw qx qy qz]; ring).
  set (n := 1 + / 256 * / 256 * / 4 ).
  set (q := mkQ ((1 - / 65536) / (1 + / 65536)) (2 * / 256 / (1 + / 65536)) 0 0).
  assert (Q' : qnorm2 q = 1) by (unfold q, qnorm2; cbn [qw qx qy qz]; field).
  assert (D : qdot (mkQ 1 0 0 0) q = (1 - / 65536) / (1 + / 65536)) by (unfold q, qdot; cbn [qw qx qy qz]; ring).
  exists (mkQ 1 0 0 0), q, (mkQ 1 0 0 0), (mkQ 0 1 0 0), 0, (angle_between (mkQ 1 0 0 0, q)), (angle_between (mkQ 1 0 0 0, mkQ 0 1 0 0)).
  repeat (split; [assumption|]). split; [|split; [|split; [reflexivity|]]].
  - unfold quaternion_angular_distance, quaternion_close. cbn [forallb map fst snd]. rewrite D.
    replace (Rltb _ eps4) with true; [reflexivity|]. symmetry. apply Rltb_true. unfold eps4. lra.
  - unfold quaternion_angular_distance, quaternion_close. cbn [forallb map fst snd].
    replace (Rltb (1 - qdot (mkQ 1 0 0 0) (mkQ 0 1 0 0) * qdot (mkQ 1 0 0 0) (mkQ 0 1 0 0)) eps4) with false.
    + rewrite andb_false_l, andb_false_r. reflexivity.
    + symmetry. apply Rltb_false. unfold qdot, eps4; cbn [qw qx qy qz]. lra.
  - destruct (angle_spec (mkQ 1 0 0 0) q P Q') as [R C]. destruct (Req_dec (angle_between (mkQ 1 0 0 0, q)) 0) as [Z|Z]; [|lra].
    rewrite Z, D in C. replace (0 / 2) with 0 in C by field. rewrite cos_0, Rabs_pos_eq in C by lra. lra.
Qed.

Lemma l36_separation_refuted : exists p q, qnorm2 p = 1 /\ qnorm2 q = 1 /\ quaternion_to_matrix p <> quaternion_to_matrix q /\
  quaternion_angular_distance [(p, q)] = [0].
Proof.
  assert (P : qnorm2 (mkQ 1 0 0 0) = 1) by (unfold qnorm2; cbn [qw qx qy qz]; ring).
  set (q := mkQ ((1 - / 65536) / (1 + / 65536)) (2 * / 256 / (1 + / 65536)) 0 0).
  assert (Q' : qnorm2 q = 1) by (unfold q, qnorm2; cbn [qw qx qy qz]; field).
  assert (D : qdot (mkQ 1 0 0 0) q = (1 - / 65536) / (1 + / 65536)) by (unfold q, qdot; cbn [qw qx qy qz]; ring).
  exists (mkQ 1 0 0 0), q. split; [exact P|]. split; [exact Q'|]. split.
  - intros E. rewrite (q2m_unit _ P), (q2m_unit _ Q') in E. pose proof (f_equal m12 E) as E'.
    unfold qmat, q in E'; cbn [m12 qw qx qy qz] in E'. lra.
  - unfold quaternion_angular_distance, quaternion_close. cbn [forallb map fst snd]. rewrite D.
    replace (Rltb _ eps4) with true; [reflexivity|]. symmetry. apply Rltb_true. unfold eps4. lra.
Qed.

Lemma l37_slerp : forall qs, (forall p q, In (p, q) qs -> qnorm2 p = 1 /\ qnorm2 q = 1) ->
  (exists p q, In (p, q) qs /\ Rabs (qdot p q) <= 1 - / 1000000) ->
  forall t, exists out q2, quaternion_slerp qs (TNum t) = (Ok out, q2) /\ length out = length qs /\
    forall i p q, nth_error qs i = Some (p, q) -> q <> p -> q <> qopp p ->
      exists (f : R -> Q) th, nth_error out i = Some (finq (f t)) /\ 0 < th <= PI / 2 /\ cos th = Rabs (qdot p q) /\
        f 0 = p /\ (f 1 = q \/ f 1 = qopp q) /\ qdot (f 0) (f 1) = cos th /\
        (forall s, qnorm2 (f s) = 1) /\ (forall s u, qdot (f s) (f u) = cos ((s - u) * th)) /\
        (forall s, exists out' q2', quaternion_slerp qs (TNum s) = (Ok out', q2') /\ nth_error out' i = Some (finq (f s))).
Proof.
  intros qs U (p0 & q0 & I0 & L0) t.
  assert (N : ~ all_close qs).
  { intros A. specialize (A _ I0). destruct (U _ _ I0) as [Hp Hq]. destruct (flip_spec p0 q0 Hp Hq) as (_ & _ & E & _). rewrite E in A. lra. }
  rewrite (slerp_far qs t N). eexists _, _. split; [reflexivity|]. split; [apply map_length|].
  intros i p q E N1 N2. destruct (U p q (nth_error_In _ _ E)) as [Hp Hq]. destruct (flip_spec p q Hp Hq) as (F1 & F2 & F3 & F4 & F5).
  assert (C1 : flip_cos (p, q) < 1).
  { destruct (Rle_lt_or_eq_dec _ _ (proj2 F4)) as [L|L]; [exact L|]. exfalso. rewrite L in F2. pose proof (unit_dot_1 _ _ Hp F1 F2) as X.
    destruct F5 as [Y|Y]; rewrite Y in X; [exact (N1 (eq_sym X))|]. apply N2. rewrite X. symmetry.
    destruct q as [a b c d]. unfold qopp; cbn [qw qx qy qz]. apply mkQ_eq; ring. }
  set (c := flip_cos (p, q)) in *. set (th := acos c).
  assert (Hth : 0 < th <= PI / 2).
  { pose proof (acos_bound_lt c ltac:(lra)). split; [unfold th; lra|]. destruct (Rle_lt_dec th (PI / 2)) as [L|L]; [exact L|].
    exfalso. assert (cos th < cos (PI / 2)) by (apply cos_decr_lt; unfold th in *; lra).
    rewrite cos_PI2 in *. unfold th in *. rewrite cos_acos in * by lra. lra. }
  assert (Cth : cos th = c) by (unfold th; apply cos_acos; lra).
  assert (Sth : sin th <> 0) by (pose proof PI_RGT_0; assert (0 < sin th) by (apply sin_gt_0; lra); lra).
  exists (fun s => slerp_exact s p (flip_row (p, q)) th), th.
  assert (R : forall s, nth_error (map (fun p => slerp_row s (fst p) (flip_row p) (flip_cos p)) qs) i = Some (finq (slerp_exact s p (flip_row (p, q)) th))).
  { intros s. rewrite nth_error_map, E. cbn [option_map fst snd]. f_equal. apply slerp_row_fin. fold c. lra. }
  split; [apply R|]. split; [exact Hth|]. split; [rewrite Cth; exact F3|]. rewrite slerp_0, slerp_1 by exact Sth.
  split; [reflexivity|]. split; [exact F5|]. split; [rewrite F2; symmetry; exact Cth|]. rewrite <- Cth in F2. split.
  - intros s. rewrite <- qdot_self, slerp_dot by assumption. replace ((s - s) * th) with 0 by ring. apply cos_0.
  - split; [intros s u; apply slerp_dot; assumption|]. intros s. rewrite (slerp_far qs s N). eexists _, _. split; [reflexivity|]. apply R.
Qed.

Lemma l37_lerp : forall qs, (forall p q, In (p, q) qs -> qnorm2 p = 1 /\ qnorm2 q = 1 /\ 1 - / 1000000 < Rabs (qdot p q)) ->
  forall t, exists q2, quaternion_slerp qs (TNum t) = (Ok (map (fun pq => finq (qadd (qscale (1 - t) (fst pq)) (qscale t (snd pq)))) (zip_with (fun p q => (fst p, q)) qs q2)), q2) /\
    length q2 = length qs /\
    forall i p q, nth_error qs i = Some (p, q) -> exists q', nth_error q2 i = Some q' /\ (q' = q \/ q' = qopp q) /\ 0 <= qdot p q' /\
      (0 <= t <= 1 -> 1 - 5 / 10000000 <= qnorm2 (qadd (qscale (1 - t) p) (qscale t q')) <= 1).
Proof.
  intros qs U t. exists (map flip_row qs).
  assert (N : all_close qs).
  { intros [p q] I. destruct (U _ _ I) as (Hp & Hq & L). destruct (flip_spec p q Hp Hq) as (_ & _ & E & _). rewrite E. exact L. }
  assert (LR : forall p q, lerp_row t p q = qadd (qscale (1 - t) p) (qscale t q)).
  { intros p q. unfold lerp_row, qadd, qscale, qsub; cbn [qw qx qy qz]. apply mkQ_eq; ring. }
  split; [|split; [apply map_length|]].
  - rewrite (slerp_near qs t N). do 2 f_equal. clear U N. induction qs as [|p r IH]; [reflexivity|]. cbn [map zip_with fst snd]. rewrite IH, LR. reflexivity.
  - intros i p q E. pose proof (nth_error_In _ _ E) as I. destruct (U p q I) as (Hp & Hq & L). destruct (flip_spec p q Hp Hq) as (F1 & F2 & F3 & F4 & F5).
    exists (flip_row (p, q)). split; [rewrite nth_error_map, E; reflexivity|]. split; [exact F5|]. split; [rewrite F2; lra|].
    intros Ht. rewrite <- LR, lerp_norm, F2 by assumption. rewrite F3 in *.
    assert (0 <= t * (1 - t) <= 1 / 4).
    { pose proof (Rmult_le_pos t (1 - t) ltac:(lra) ltac:(lra)). pose proof (Rle_0_sqr (t - 1 / 2)) as W. unfold Rsqr in W. lra. } set (x := t * (1 - t)) in *. set (y := Rabs (qdot p q)) in *. clearbody x y.
    pose proof (Rmult_le_compat x (1 / 4) (1 - y) (/ 1000000) ltac:(lra) ltac:(lra) ltac:(lra) ltac:(lra)).
    pose proof (Rmult_le_pos x (1 - y) ltac:(lra) ltac:(lra)). split; lra.
Qed.

Lemma l37_lerp_unit_refuted : exists p q r, qnorm2 p = 1 /\ qnorm2 q = 1 /\
  fst (quaternion_slerp [(p, q)] (TNum (1 / 2))) = Ok [finq r] /\ qnorm2 r < 1.
Proof.
  assert (P : qnorm2 (mkQ 1 0 0 0) = 1) by (unfold qnorm2; cbn [qw qx qy qz]; ring).
  set (q := mkQ ((1 - / 16000000) / (1 + / 16000000)) (2 * / 4000 / (1 + / 16000000)) 0 0).
  assert (Q' : qnorm2 q = 1) by (unfold q, qnorm2; cbn [qw qx qy qz]; field).
  assert (D : qdot (mkQ 1 0 0 0) q = (1 - / 16000000) / (1 + / 16000000)) by (unfold q, qdot; cbn [qw qx qy qz]; ring).
  exists (mkQ 1 0 0 0), q, (lerp_row (1 / 2) (mkQ 1 0 0 0) q). split; [exact P|]. split; [exact Q'|].
  assert (Fl : flip_row (mkQ 1 0 0 0, q) = q).
  { unfold flip_row. cbn [fst snd]. rewrite D. replace (Rltb _ 0) with false; [reflexivity|]. symmetry. apply Rltb_false. lra. }
  split.
  - rewrite slerp_near; [cbn [map fst]; rewrite Fl; reflexivity|]. intros p [<-|[]].
    destruct (flip_spec _ _ P Q') as (_ & _ & E & _). rewrite E, D, Rabs_pos_eq; lra.
  - rewrite lerp_norm, D by assumption. lra.
Qed.

Lemma l37_batch_refuted : exists p q r, qnorm2 p = 1 /\ qnorm2 q = 1 /\
  fst (quaternion_slerp [(p, p)] (TNum (1 / 2))) = Ok [finq p] /\
  fst (quaternion_slerp [(p, p); (p, q)] (TNum (1 / 2))) = Ok [mkF4 NaN NaN NaN NaN; r].
Proof.
  assert (P : qnorm2 (mkQ 1 0 0 0) = 1) by (unfold qnorm2; cbn [qw qx qy qz]; ring).
  assert (S : qnorm2 (mkQ 0 1 0 0) = 1) by (unfold qnorm2; cbn [qw qx qy qz]; ring).
  assert (D : qdot (mkQ 1 0 0 0) (mkQ 1 0 0 0) = 1) by (unfold qdot; cbn [qw qx qy qz]; ring).
  assert (D' : qdot (mkQ 1 0 0 0) (mkQ 0 1 0 0) = 0) by (unfold qdot; cbn [qw qx qy qz]; ring).
  assert (Fl : flip_row (mkQ 1 0 0 0, mkQ 1 0 0 0) = mkQ 1 0 0 0).
  { unfold flip_row. cbn [fst snd]. rewrite D. replace (Rltb _ 0) with false; [reflexivity|]. symmetry. apply Rltb_false. lra. }
  assert (Fc : flip_cos (mkQ 1 0 0 0, mkQ 1 0 0 0) = 1) by (destruct (flip_spec _ _ P P) as (_ & _ & E & _); rewrite E, D, Rabs_R1; reflexivity).
  assert (Fd : flip_cos (mkQ 1 0 0 0, mkQ 0 1 0 0) = 0) by (destruct (flip_spec _ _ P S) as (_ & _ & E & _); rewrite E, D', Rabs_R0; reflexivity).
  eexists (mkQ 1 0 0 0), (mkQ 0 1 0 0), _. split; [exact P|]. split; [exact S|]. split.
  - rewrite slerp_near; [|intros x [<-|[]]; rewrite Fc; lra]. cbn [map fst]. rewrite Fl. do 3 f_equal.
    unfold lerp_row, qadd, qscale, qsub; cbn [qw qx qy qz]. apply mkQ_eq; ring.
  - rewrite slerp_far; [|intros A; specialize (A _ (or_intror (or_introl eq_refl))); rewrite Fd in A; lra].
    cbn [map fst]. rewrite Fl, Fc, (slerp_nan _ _ P). reflexivity.
Qed.

Lemma l37_argument : forall qs t, snd (quaternion_slerp qs t) = map (fun p => if Rltb (qdot (fst p) (snd p)) 0 then qopp (snd p) else snd p) qs.
Proof. intros qs t. reflexivity. Qed.

Lemma l37_argument_refuted : exists p q t, qnorm2 p = 1 /\ qnorm2 q = 1 /\ snd (quaternion_slerp [(p, q)] t) <> [q].
Proof.
  exists (mkQ 1 0 0 0), (mkQ (-1) 0 0 0), (TNum 0). repeat split; try (unfold qnorm2; cbn [qw qx qy qz]; ring).
  unfold quaternion_slerp; cbn [snd map]. unfold flip_row; cbn [fst snd].
  replace (Rltb _ 0) with true by (symmetry; apply Rltb_true; unfold qdot; cbn [qw qx qy qz]; lra).
  intros E. assert (HL : forall (a b : Q), [a] = [b] -> a = b) by (intros; congruence). apply HL in E.
  apply (f_equal qw) in E. unfold qopp in E; cbn [qw] in E. lra.
Qed.

Lemma l37_vector_t : forall qs l, (2 <= length qs)%nat -> length l = length qs -> (exists p, In p qs /\ Rabs (qdot (fst p) (snd p)) <= 1 - / 1000000) ->
  exists out, fst (quaternion_slerp qs (TVec l)) = Ok out /\ length out = length qs /\
    forall i t, nth_error l i = Some t -> exists o out', nth_error out i = Some o /\
      fst (quaternion_slerp qs (TNum t)) = Ok out' /\ nth_error out' i = Some o.
Proof.
  intros qs l L2 Ll (p0 & I0 & L0).
  assert (N : ~ all_close qs).
  { intros A. specialize (A p0 I0). unfold flip_cos in A. destruct (Rltb (qdot (fst p0) (snd p0)) 0) eqn:E.
    - apply Rltb_true in E. rewrite Rabs_left in L0 by lra. lra.
    - apply Rltb_false in E. rewrite Rabs_pos_eq in L0 by lra. lra. }
  exists (zip_with (fun t p => slerp_row t (fst p) (flip_row p) (flip_cos p)) l qs).
  assert (Z : forall l (qs : list (Q * Q)), zip_with (fun t x => slerp_row t (fst (fst x)) (snd (fst x)) (snd x)) l (map (fun p => (fst p, flip_row p, flip_cos p)) qs)
      = zip_with (fun t p => slerp_row t (fst p) (flip_row p) (flip_cos p)) l qs).
  { clear. induction l as [|t l IH]; intros [|p r]; try reflexivity. cbn [map zip_with fst snd]. rewrite IH. reflexivity. }
  split; [|split].
  - unfold quaternion_slerp. rewrite slerp_rows. destruct (forallb _ qs) eqn:E.
    { exfalso. apply N. intros p Hp. rewrite forallb_forall in E. apply Rltb_true, E, Hp. }
    cbn [fst]. destruct l as [|a [|b l]]; simpl in Ll; try lia.
    replace (length qs =? 1)%nat with false by (symmetry; apply Nat.eqb_neq; lia).
    replace (length (a :: b :: l) =? length qs)%nat with true by (symmetry; apply Nat.eqb_eq; simpl; lia).
    rewrite Z. reflexivity.
  - clear -Ll. revert qs Ll. induction l as [|t l IH]; intros [|p r] H; simpl in *; try lia. f_equal. apply IH. lia.
  - intros i t E. destruct (nth_error qs i) as [p|] eqn:Ep.
    2:{ apply nth_error_None in Ep. assert (i < length l)%nat by (apply nth_error_Some; congruence). lia. }
    exists (slerp_row t (fst p) (flip_row p) (flip_cos p)), (map (fun p => slerp_row t (fst p) (flip_row p) (flip_cos p)) qs).
    split; [|split].
    + clear -E Ep. revert qs i E Ep. induction l as [|u l IH]; intros [|p' r] [|i] E Ep; simpl in *; try discriminate.
      * congruence.
      * apply IH; assumption.
    + rewrite (slerp_far qs t N). reflexivity.
    + rewrite nth_error_map, Ep. reflexivity.
Qed.

Lemma l37_vector_t_lerp_refuted :
  (exists qs l, length l = length qs /\ (2 <= length qs)%nat /\ fst (quaternion_slerp qs (TVec l)) = Err RuntimeError) /\
  (exists qs l out, length l = length qs /\ fst (quaternion_slerp qs (TVec l)) = Ok out /\ l = [0; 0; 1; 0] /\
     nth_error out 2 = Some (finq (mkQ 1 0 0 0)) /\ exists q, nth_error qs 2 = Some (mkQ 1 0 0 0, q) /\ q <> mkQ 1 0 0 0 /\ 0 < qdot (mkQ 1 0 0 0) q).
Proof.
  set (q := mkQ ((1 - / 16000000) / (1 + / 16000000)) (2 * / 4000 / (1 + / 16000000)) 0 0).
  assert (P : qnorm2 (mkQ 1 0 0 0) = 1) by (unfold qnorm2; cbn [qw qx qy qz]; ring).
  assert (Q' : qnorm2 q = 1) by (unfold q, qnorm2; cbn [qw qx qy qz]; field).
  assert (D : qdot (mkQ 1 0 0 0) q = (1 - / 16000000) / (1 + / 16000000)) by (unfold q, qdot; cbn [qw qx qy qz]; ring).
  assert (Fl : flip_row (mkQ 1 0 0 0, q) = q).
  { unfold flip_row. cbn [fst snd]. rewrite D. replace (Rltb _ 0) with false; [reflexivity|]. symmetry. apply Rltb_false. lra. }
  assert (Fc : Rltb (1 - / 1000000) (flip_cos (mkQ 1 0 0 0, q)) = true).
  { destruct (flip_spec _ _ P Q') as (_ & _ & E & _). rewrite E, D, Rabs_pos_eq by lra. apply Rltb_true. lra. }
  split.
  - exists [(mkQ 1 0 0 0, q); (mkQ 1 0 0 0, q)], [0; 1]. split; [reflexivity|]. split; [simpl; lia|].
    unfold quaternion_slerp. cbn [map forallb fst]. rewrite Fc. reflexivity.
  - set (pq := (mkQ 1 0 0 0, q)) in *.
    exists [pq; pq; pq; pq], [0; 0; 1; 0]. eexists. split; [reflexivity|]. split; [unfold quaternion_slerp; cbn [map forallb fst]; rewrite Fc; reflexivity|].
    split; [reflexivity|]. split.
    + cbn [map zip_with nth_error fst snd]. unfold pq at 1. rewrite Fl. f_equal. f_equal. unfold lerp_row4, pq, q; cbn [fst snd qw qx qy qz]. apply mkQ_eq; ring.
    + exists q. split; [reflexivity|]. split; [|rewrite D; lra]. intros E. apply (f_equal qx) in E. unfold q in E; cbn [qx] in E. lra.
Qed.

Lemma l38_rigid : forall T rs ts axis perp ds out, sample_perturbations T rs ts axis perp ds = Ok out ->
  (match T with inl A => is_rigid A | inr l => forall A, In A l -> is_rigid A end) ->
  (forall a, axis = Some a -> unit3 a) -> (axis = None -> forall d, In d ds -> d_ax d <> vzero) ->
  length out = length ds /\ forall P, In P out -> is_rigid P.
Proof.
  intros T rs ts axis perp ds out E HT HA HN.
  assert (HX : forall U (a b : U), Ok a = Ok b -> a = b) by (intros; congruence).
  assert (One : forall A, is_rigid A -> Ok (map (perturb_row A rs ts axis perp) ds) = Ok out -> length out = length ds /\ forall P, In P out -> is_rigid P).
  { intros A R X. apply HX in X. subst out. split; [apply map_length|]. intros P HP. apply in_map_iff in HP as (d & <- & Hd).
    apply perturb_rigid; [exact R | exact HA | intros Z; apply HN; assumption]. }
  destruct T as [A|l]; [apply (One A HT E)|].
  assert (Many : (if (length l =? length ds)%nat then Ok (zip_with (fun A d => perturb_row A rs ts axis perp d) l ds) else Err RuntimeError) = Ok out ->
     length out = length ds /\ forall P, In P out -> is_rigid P).
  { destruct (length l =? length ds)%nat eqn:L; [|discriminate]. apply Nat.eqb_eq in L. intros X. apply HX in X. subst out. clear E One.
    revert l HT L. induction ds as [|d r IH]; intros [|A l] HT L; simpl in *; try lia; [split; [reflexivity|intros P []]|].
    destruct (IH ltac:(intros Z d' Hd; apply HN; auto) l ltac:(intros; apply HT; auto) ltac:(lia)) as [IL IP].
    split; [lia|]. intros P [<-|HP]; [|apply IP, HP]. apply perturb_rigid; [apply HT; auto | exact HA | intros Z; apply HN; auto]. }
  destruct l as [|A [|B l]]; [apply Many; exact E | apply (One A); [apply HT; left; reflexivity | exact E] | apply Many; exact E].
Qed.

Lemma l38_given_axis : forall A rs ts a perp ds, unit3 a -> exists out,
  sample_perturbations (inl A) rs ts (Some a) perp ds = Ok out /\ length out = length ds /\
  forall i d, nth_error ds i = Some d -> exists P, nth_error out i = Some P /\
    rotp P = m3mul (axis_and_angle_to_matrix_33 a (d_th d * rs)) (rotp A) /\
    (exists c, vsub (vscale ts (d_t d)) (vsub (trp P) (trp A)) = vscale c a /\ (perp = false -> c = 0)) /\
    (perp = true -> vdot (vsub (trp P) (trp A)) a = 0).
Proof.
  intros A rs ts a perp ds Ha. exists (map (perturb_row A rs ts (Some a) perp) ds). split; [reflexivity|]. split; [apply map_length|].
  intros i d E. exists (perturb_row A rs ts (Some a) perp d). split; [rewrite nth_error_map, E; reflexivity|].
  destruct (perturb_axis A rs ts a perp d Ha) as (H1 & H2 & H3). split; [exact H1|]. split; [|exact H3]. rewrite H2.
  exists (if perp then vdot (vscale ts (d_t d)) a else 0). split; [|intros ->; reflexivity].
  destruct perp; destruct (trp A) as [x y z], (vscale ts (d_t d)) as [u v w], a as [a b c];
    unfold vadd, vsub, vscale, vdot; cbn [vx vy vz]; apply mkV3_eq; ring.
Qed.

Lemma l38_drawn_axis : forall A rs ts perp ds, exists out,
  sample_perturbations (inl A) rs ts None perp ds = Ok out /\ length out = length ds /\
  forall i d, nth_error ds i = Some d -> d_ax d <> vzero -> exists P k c, nth_error out i = Some P /\
    unit3 k /\ 0 < c /\ k = vscale c (d_ax d) /\
    rotp P = m3mul (axis_and_angle_to_matrix_33 k (d_th d * rs)) (rotp A) /\ trp P = vadd (trp A) (vscale ts (d_t d)).
Proof.
  intros A rs ts perp ds. exists (map (perturb_row A rs ts None perp) ds). split; [reflexivity|]. split; [apply map_length|].
  intros i d E N. destruct (perturb_free A rs ts perp d N) as (k & Hk & (c & Hc & Ek) & H1 & H2).
  exists (perturb_row A rs ts None perp d), k, c. split; [rewrite nth_error_map, E; reflexivity|]. auto.
Qed.

Lemma l38_batches : forall l rs ts axis perp ds,
  (forall A, sample_perturbations (inr [A]) rs ts axis perp ds = sample_perturbations (inl A) rs ts axis perp ds) /\
  (length l <> 1%nat -> length l <> length ds -> sample_perturbations (inr l) rs ts axis perp ds = Err RuntimeError) /\
  (length l = length ds -> exists out, sample_perturbations (inr l) rs ts axis perp ds = Ok out /\ length out = length ds /\
     forall i A d, nth_error l i = Some A -> nth_error ds i = Some d -> exists P, nth_error out i = Some P /\
       sample_perturbations (inl A) rs ts axis perp [d] = Ok [P]) /\
  (forall A, transform_sample_perturbations [A] rs ts ds = sample_perturbations (inl A) rs ts None true ds) /\
  (length l <> 1%nat -> transform_sample_perturbations l rs ts ds = sample_perturbations (inr l) rs ts None true ds).
Proof.
  intros l rs ts axis perp ds. split; [reflexivity|]. split; [|split; [|split; [reflexivity|]]].
  - intros L1 L2. unfold sample_perturbations. apply Nat.eqb_neq in L2. destruct l as [|A [|B l]]; [|simpl in L1; congruence|]; rewrite L2; reflexivity.
  - intros L. exists (zip_with (fun A d => perturb_row A rs ts axis perp d) l ds). split; [|split].
    + unfold sample_perturbations. pose proof L as L'. apply Nat.eqb_eq in L'. destruct l as [|A [|B l]]; [rewrite L'; reflexivity| |rewrite L'; reflexivity].
      destruct ds as [|d [|d' ds]]; simpl in L; try lia. reflexivity.
    + clear -L. revert l L. induction ds as [|d r IH]; intros [|A l] L; simpl in *; try lia. f_equal. apply IH. lia.
    + intros i A d E1 E2. exists (perturb_row A rs ts axis perp d). split; [|reflexivity]. clear -E1 E2. revert l i E1 E2.
      induction ds as [|d' r IH]; intros [|A' l] [|i] E1 E2; simpl in *; try discriminate; [congruence|]. apply IH; assumption.
  - intros L. destruct l as [|A [|B l]]; simpl in *; try congruence; reflexivity.
Qed.

Lemma l38_axis_length_refuted : exists a d P, a <> vzero /\
  sample_perturbations (inl I4) 1 1 (Some a) true [d] = Ok [P] /\ ~ is_rigid P.
Proof.
  exists (mkV3 0 0 2), (mkDraw vzero PI vzero), (perturb_row I4 1 1 (Some (mkV3 0 0 2)) true (mkDraw vzero PI vzero)).
  split; [intros E; apply (f_equal vz) in E; unfold vzero in E; cbn [vz] in E; lra|]. split; [reflexivity|].
  intros R. assert (R3 : is_rot (rotp (perturb_row I4 1 1 (Some (mkV3 0 0 2)) true (mkDraw vzero PI vzero)))) by apply R.
  unfold perturb_row in R3. cbn [d_t d_th d_ax] in R3. rewrite rotp_aff in R3. rewrite Rmult_1_r in R3.
  assert (E : m3mul (axis_and_angle_to_matrix_33 (mkV3 0 0 2) PI) (rotp I4) = mkM3 (-1) 0 0 0 (-1) 0 0 0 7).
  { unfold axis_and_angle_to_matrix_33; cbn [vx vy vz]. rewrite cos_PI, sin_PI. unfold rotp, I4, m3mul; cbn. apply mkM3_eq; ring. }
  rewrite E in R3. pose proof (trace_range _ R3) as T. unfold trace3 in T; cbn [m00 m11 m22] in T. lra.
Qed.
