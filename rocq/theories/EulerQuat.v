(** quaternion_from_euler, all 24 axis codes: C25. *)
From Coq Require Import Reals Lra Psatz Bool Arith Lia String Ascii List.
From Verif Require Import Prelude ExtF Lin Trig RotModel RotBasic QuatProofs AxisAngle.
Import ListNotations.
Local Open Scope R_scope.

(** unit vector of an axis letter *)
Definition axis_of (c : ascii) : V3 :=
  if Ascii.eqb c "x" then mkV3 1 0 0 else if Ascii.eqb c "y" then mkV3 0 1 0 else mkV3 0 0 1.
Definition static_codes : list string :=
  ["sxyz"; "sxzy"; "syxz"; "syzx"; "szxy"; "szyx"; "sxyx"; "sxzx"; "syxy"; "syzy"; "szxz"; "szyz"]%string.
Definition rotating_codes : list string :=
  ["rxyz"; "rxzy"; "ryxz"; "ryzx"; "rzxy"; "rzyx"; "rxyx"; "rxzx"; "ryxy"; "ryzy"; "rzxz"; "rzyz"]%string.

(** the quaternion of a turn about a letter *)
Definition qaxis (c : ascii) (t : R) : Q :=
  mkQ (cos (t / 2)) (sin (t / 2) * vx (axis_of c)) (sin (t / 2) * vy (axis_of c)) (sin (t / 2) * vz (axis_of c)).
Lemma axis_unit c : unit3 (axis_of c).
Proof. unfold axis_of. destruct (Ascii.eqb c "x"), (Ascii.eqb c "y"); lin_simpl; ring. Qed.
Lemma qaxis_unit c t : qnorm2 (qaxis c t) = 1.
Proof.
  pose proof (axis_unit c) as U. unfold unit3 in U. destruct (axis_of c) as [x y z] eqn:E. lin_simpl.
  unfold qnorm2, qaxis. rewrite E. cbn [qw qx qy qz vx vy vz]. pose proof (sin_sqr (t / 2)) as S.
  transitivity (cos (t / 2) * cos (t / 2) + sin (t / 2) * sin (t / 2) * (x * x + y * y + z * z)); [ring|]. rewrite U, S. ring.
Qed.
Lemma qaxis_mat c t : quaternion_to_matrix (qaxis c t) = axis_and_angle_to_matrix_33 (axis_of c) t.
Proof.
  unfold qaxis. pose proof (sin2_cos2 (t / 2)) as P. unfold Rsqr in P.
  assert (S : cos (t / 2) * cos (t / 2) + sin (t / 2) * sin (t / 2) = 1) by lra.
  rewrite (q2m_axis (axis_of c) _ _ (t / 2) (axis_unit c)); rewrite ?S, ?sqrt_1; try lra; try field.
  f_equal. field.
Qed.

Ltac qe_simpl := cbn [quaternion_from_euler decode_axes lower lower_ascii dget axes_table of_opt rbind String.eqb
  Ascii.eqb Bool.eqb Nat.eqb Nat.add Nat.sub next_axis nth qset qget nat_of_ascii].

Definition code3 (s : string) : ascii * ascii * ascii :=
  match s with String _ (String a (String b (String c _))) => (a, b, c) | _ => ("x", "x", "x")%char end.

Lemma sin_neg_half t : sin (- t / 2) = - sin (t / 2).
Proof. replace (- t / 2) with (- (t / 2)) by field. apply sin_neg. Qed.
Lemma cos_neg_half t : cos (- t / 2) = cos (t / 2).
Proof. replace (- t / 2) with (- (t / 2)) by field. apply cos_neg. Qed.

Lemma decode_static s : In s static_codes -> exists f p r, decode_axes (AxStr s) = Ok (f, p, r, 0%nat).
Proof. simpl. intros H. repeat (destruct H as [<-|H]; [do 3 eexists; reflexivity|]). contradiction. Qed.
Lemma static_product s ai aj ak : In s static_codes ->
  exists rpy', quaternion_from_euler (mkV3 ai aj ak) (AxStr s) =
    Ok (let '(a, b, c) := code3 s in quaternion_raw_multiply (qaxis c ak) (quaternion_raw_multiply (qaxis b aj) (qaxis a ai)), rpy').
Proof.
  intros H. unfold quaternion_from_euler. simpl in H.
  repeat (destruct H as [<-|H];
    [ match goal with |- context [decode_axes ?x] => let v := eval vm_compute in (decode_axes x) in
        change (decode_axes x) with v end;
      cbn [rbind Nat.eqb Nat.add Nat.sub next_axis nth qset qget qw qx qy qz vx vy vz code3];
      eexists; apply f_equal; apply f_equal2; [|reflexivity];
      unfold qaxis, axis_of, quaternion_raw_multiply; cbn [Ascii.eqb Bool.eqb qw qx qy qz vx vy vz];
      rewrite ?sin_neg_half, ?cos_neg_half; apply mkQ_eq; ring |]).
  contradiction.
Qed.
Lemma rotating_product s ai aj ak : In s rotating_codes ->
  exists rpy', quaternion_from_euler (mkV3 ai aj ak) (AxStr s) =
    Ok (let '(a, b, c) := code3 s in quaternion_raw_multiply (quaternion_raw_multiply (qaxis a ai) (qaxis b aj)) (qaxis c ak), rpy').
Proof.
  intros H. unfold quaternion_from_euler. simpl in H.
  repeat (destruct H as [<-|H];
    [ match goal with |- context [decode_axes ?x] => let v := eval vm_compute in (decode_axes x) in
        change (decode_axes x) with v end;
      cbn [rbind Nat.eqb Nat.add Nat.sub next_axis nth qset qget qw qx qy qz vx vy vz code3];
      eexists; apply f_equal; apply f_equal2; [|reflexivity];
      unfold qaxis, axis_of, quaternion_raw_multiply; cbn [Ascii.eqb Bool.eqb qw qx qy qz vx vy vz];
      rewrite ?sin_neg_half, ?cos_neg_half; apply mkQ_eq; ring |]).
  contradiction.
Qed.

Lemma raw_nonzero p q : qnorm2 p = 1 -> qnorm2 q = 1 -> qnorm2 (quaternion_raw_multiply p q) = 1.
Proof. intros H H'. rewrite raw_norm, H, H'. ring. Qed.
Lemma from_euler_static s f a b c e : s = String f (String a (String b (String c EmptyString))) -> In s static_codes ->
  exists q e', quaternion_from_euler e (AxStr s) = Ok (q, e') /\ qnorm2 q = 1 /\
    quaternion_to_matrix q = m3mul (axis_and_angle_to_matrix_33 (axis_of c) (vz e))
      (m3mul (axis_and_angle_to_matrix_33 (axis_of b) (vy e)) (axis_and_angle_to_matrix_33 (axis_of a) (vx e))).
Proof.
  intros E H. destruct e as [ai aj ak]. destruct (static_product s ai aj ak H) as [e' Hq].
  rewrite E in Hq at 2. cbn [code3] in Hq. eexists. exists e'. split; [exact Hq|].
  pose proof (qaxis_unit a ai). pose proof (qaxis_unit b aj). pose proof (qaxis_unit c ak).
  split; [repeat apply raw_nonzero; assumption|]. cbn [vx vy vz].
  rewrite !q2m_mul, !qaxis_mat by (rewrite ?raw_nonzero by assumption; lra). reflexivity.
Qed.
Lemma from_euler_rotating s f a b c e : s = String f (String a (String b (String c EmptyString))) -> In s rotating_codes ->
  exists q e', quaternion_from_euler e (AxStr s) = Ok (q, e') /\ qnorm2 q = 1 /\
    quaternion_to_matrix q = m3mul (m3mul (axis_and_angle_to_matrix_33 (axis_of a) (vx e))
      (axis_and_angle_to_matrix_33 (axis_of b) (vy e))) (axis_and_angle_to_matrix_33 (axis_of c) (vz e)).
Proof.
  intros E H. destruct e as [ai aj ak]. destruct (rotating_product s ai aj ak H) as [e' Hq].
  rewrite E in Hq at 2. cbn [code3] in Hq. eexists. exists e'. split; [exact Hq|].
  pose proof (qaxis_unit a ai). pose proof (qaxis_unit b aj). pose proof (qaxis_unit c ak).
  split; [repeat apply raw_nonzero; assumption|]. cbn [vx vy vz].
  rewrite !q2m_mul, !qaxis_mat by (rewrite ?raw_nonzero by assumption; lra). reflexivity.
Qed.
(** letters of either case are accepted, anything outside the 24 codes is a KeyError *)
Lemma from_euler_case e s : quaternion_from_euler e (AxStr (lower s)) = quaternion_from_euler e (AxStr s).
Proof.
  unfold quaternion_from_euler, decode_axes. 
  assert (L : forall c, lower_ascii (lower_ascii c) = lower_ascii c).
  { intros [b0 b1 b2 b3 b4 b5 b6 b7]. destruct b0, b1, b2, b3, b4, b5, b6, b7; vm_compute; reflexivity. }
  assert (LL : forall t, lower (lower t) = lower t) by (induction t; simpl; [|rewrite L, IHt]; reflexivity).
  rewrite LL. reflexivity.
Qed.
Lemma from_euler_bad e s : ~ In (lower s) (static_codes ++ rotating_codes) -> quaternion_from_euler e (AxStr s) = Err KeyError.
Proof.
  intros H. unfold quaternion_from_euler, decode_axes.
  destruct (dget String.eqb (lower s) axes_table) as [t|] eqn:E; [|reflexivity].
  exfalso. apply H. apply (dget_in String.eqb seqb_eq) in E. apply (in_map fst) in E.
  cbn [map fst axes_table] in E. unfold static_codes, rotating_codes. cbn [app]. simpl in *. intuition.
Qed.

(** the argument is overwritten, so a second identical call gives another rotation *)
Lemma from_euler_mutates : exists e q e' q' e'', quaternion_from_euler e (AxStr "sxyz") = Ok (q, e') /\ e' <> e /\
  quaternion_from_euler e' (AxStr "sxyz") = Ok (q', e'') /\ quaternion_to_matrix q' <> quaternion_to_matrix q.
Proof.
  destruct (from_euler_static "sxyz" "s" "x" "y" "z" (mkV3 PI 0 0) eq_refl ltac:(simpl; auto)) as (q & e' & Hq & _ & Mq).
  assert (E' : e' = mkV3 (PI / 2) (0 / 2) (0 / 2)).
  { unfold quaternion_from_euler in Hq. change (decode_axes (AxStr "sxyz")) with (Ok (0, 0, 0, 0)%nat) in Hq.
    cbn [rbind Nat.eqb vx vy vz] in Hq.
    assert (HX : forall T (a b : T), Ok a = Ok b -> a = b) by (intros T a b G; congruence).
    apply HX, (f_equal snd) in Hq. cbn [snd] in Hq. symmetry. exact Hq. }
  destruct (from_euler_static "sxyz" "s" "x" "y" "z" e' eq_refl ltac:(simpl; auto)) as (q' & e'' & Hq' & _ & Mq').
  exists (mkV3 PI 0 0), q, e', q', e''. split; [exact Hq|]. split.
  { rewrite E'. intros X. apply (f_equal vx) in X. cbn [vx] in X. pose proof PI_RGT_0. lra. }
  split; [exact Hq'|]. rewrite Mq, Mq', E'. cbn [vx vy vz]. replace (0 / 2) with 0 by field.
  rewrite !rot33_0, !m3mul_1_l. intros X. apply (f_equal m11) in X.
  unfold axis_and_angle_to_matrix_33, axis_of in X. cbn [Ascii.eqb Bool.eqb m11 vx vy vz] in X.
  rewrite cos_PI, cos_PI2 in X. lra.
Qed.
