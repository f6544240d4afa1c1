(** Euler angles, all twelve conventions: C24. *)
From Coq Require Import Reals Lra Psatz Bool Arith Lia String Ascii List Nsatz.
From Verif Require Import Prelude ExtF Lin Trig RotModel RotBasic QuatProofs.
Import ListNotations.
Local Open Scope R_scope.

Definition tait_bryan : list string := ["XYZ"; "XZY"; "YXZ"; "YZX"; "ZXY"; "ZYX"]%string.
Definition proper_euler : list string := ["XYX"; "XZX"; "YXY"; "YZY"; "ZXZ"; "ZYZ"]%string.
Definition conventions : list string := tait_bryan ++ proper_euler.

(** ** which strings are accepted *)
Lemma is_letter_cases c : is_letter c = true -> c = "X"%char \/ c = "Y"%char \/ c = "Z"%char.
Proof.
  unfold is_letter. intros H. apply orb_true_iff in H as [H|H]; [apply orb_true_iff in H as [H|H]|];
    apply Ascii.eqb_eq in H; auto.
Qed.
Lemma check_ok s : (exists abc, check_convention s = Ok abc) <-> In s conventions.
Proof.
  split.
  - intros [abc H]. destruct s as [|a [|b [|c [|]]]]; simpl in H; try discriminate.
    destruct (Ascii.eqb b a || Ascii.eqb b c) eqn:E; [discriminate|].
    destruct (is_letter a && is_letter b && is_letter c) eqn:L; [|discriminate].
    apply andb_true_iff in L as [L Lc]. apply andb_true_iff in L as [La Lb].
    apply is_letter_cases in La, Lb, Lc.
    destruct La as [->|[->| ->]], Lb as [->|[->| ->]], Lc as [->|[->| ->]]; try discriminate E;
      simpl; tauto.
  - unfold conventions, tait_bryan, proper_euler. simpl. intros H.
    repeat (destruct H as [<-|H]; [eexists; reflexivity|]). contradiction.
Qed.
Lemma check_err s : ~ In s conventions -> check_convention s = Err ValueError.
Proof.
  intros H. destruct (check_convention s) as [abc|e] eqn:E.
  - exfalso. apply H, check_ok. eauto.
  - unfold check_convention in E. destruct s as [|a [|b [|c [|]]]]; try congruence.
    destruct (Ascii.eqb b a || Ascii.eqb b c); [congruence|]. destruct (is_letter a && is_letter b && is_letter c); congruence.
Qed.
Lemma euler_rejects s : ~ In s conventions ->
  (forall e, euler_angles_to_matrix e s = Err ValueError) /\ (forall A, matrix_to_euler_angles A s = Err ValueError).
Proof.
  intros H. split; intros; unfold euler_angles_to_matrix, matrix_to_euler_angles; rewrite check_err by exact H; reflexivity.
Qed.

(** ** inverse functions *)
Lemma atan2_eq r t p q : 0 < r -> - PI < t <= PI -> p = r * sin t -> q = r * cos t -> atan2 p q = t.
Proof. intros Hr Ht -> ->. apply atan2_polar; assumption. Qed.
Lemma tasin_eq e y : - (PI / 2) <= y <= PI / 2 -> e = sin y -> tasin e = Fin y.
Proof.
  intros Hy ->. unfold tasin. pose proof (SIN_bound y).
  assert (Rleb (-1) (sin y) = true) as -> by (apply Rleb_true; lra).
  assert (Rleb (sin y) 1 = true) as -> by (apply Rleb_true; lra). cbn [andb]. f_equal. apply asin_sin. lra.
Qed.
Lemma tacos_eq e y : 0 <= y <= PI -> e = cos y -> tacos e = Fin y.
Proof.
  intros Hy ->. unfold tacos. pose proof (COS_bound y).
  assert (Rleb (-1) (cos y) = true) as -> by (apply Rleb_true; lra).
  assert (Rleb (cos y) 1 = true) as -> by (apply Rleb_true; lra). cbn [andb]. f_equal. apply acos_cos. lra.
Qed.
Lemma polar_facts e p q : 0 < 1 - e * e -> p * p + q * q = 1 - e * e ->
  sqrt (1 - e * e) * cos (atan2 p q) = q /\ sqrt (1 - e * e) * sin (atan2 p q) = p.
Proof.
  intros He H.
  assert (Hn : q <> 0 \/ p <> 0).
  { destruct (Req_dec q 0) as [Eq|]; [|left; assumption]. right. intros Ep. subst. lra. }
  replace (1 - e * e) with (q * q + p * p) by lra. split; [apply atan2_cos | apply atan2_sin]; exact Hn.
Qed.

(** ** angles to matrix to angles *)
Ltac eul_simpl := cbn [euler_angles_to_matrix matrix_to_euler_angles check_convention rbind is_letter Ascii.eqb Bool.eqb
  andb orb negb axis_angle_rotation index_from_letter Nat.eqb Nat.add angle_from_tan m3get v3get m3row m3col m3tr m3mul
  m00 m01 m02 m10 m11 m12 m20 m21 m22 vx vy vz].

Definition principal (s : string) (e : V3) : Prop :=
  - PI < vx e <= PI /\ - PI < vz e <= PI /\
  (if in_dec string_dec s tait_bryan then - (PI / 2) < vy e < PI / 2 else 0 < vy e < PI).

Lemma euler_angles_back s e : In s conventions -> principal s e ->
  exists A, euler_angles_to_matrix e s = Ok A /\ is_rot A /\ matrix_to_euler_angles A s = Ok (fin3 e).
Proof.
  intros Hs (Hx & Hz & Hy). destruct e as [x y z]. cbn [vx vy vz] in *.
  assert (R : forall c t M, axis_angle_rotation c t = Ok M -> is_rot M).
  { intros c t M. unfold axis_angle_rotation. pose proof (sin_sqr t) as Q.
    repeat match goal with |- context [if ?b then _ else _] => destruct b end; intros E; inversion E; subst;
      lin_simpl; set (ct := cos t) in *; set (st := sin t) in *; clearbody ct st; (split; [apply mkM3_eq|]); ring [Q]. }
  assert (G : forall abc M, check_convention s = Ok abc -> euler_angles_to_matrix (mkV3 x y z) s = Ok M -> is_rot M).
  { intros [[a b] c] M E H. unfold euler_angles_to_matrix in H. rewrite E in H. cbn [rbind vx vy vz] in H.
    destruct (axis_angle_rotation a x) eqn:E1; cbn [rbind] in H; [|discriminate].
    destruct (axis_angle_rotation b y) eqn:E2; cbn [rbind] in H; [|discriminate].
    destruct (axis_angle_rotation c z) eqn:E3; cbn [rbind] in H; [|discriminate]. inversion H; subst.
    apply is_rot_mul; [apply is_rot_mul|]; eauto. }
  unfold conventions, tait_bryan, proper_euler in Hs. simpl in Hs.
  repeat (destruct Hs as [<-|Hs];
   [ eexists; split; [eul_simpl; reflexivity|]; split;
      [eapply G; [reflexivity | eul_simpl; reflexivity]|];
      cbn in Hy; eul_simpl; unfold fin3; cbn [vx vy vz]; f_equal;
      first
      [ assert (0 < cos y) as Pc by (apply cos_gt_0; lra);
        apply (f_equal3 mkF3);
          [ f_equal; apply (atan2_eq (cos y)); [exact Pc | exact Hx | ring | ring]
          | apply tasin_eq; [lra | ring]
          | f_equal; apply (atan2_eq (cos y)); [exact Pc | exact Hz | ring | ring] ]
      | assert (0 < sin y) as Pc by (apply sin_gt_0; lra);
        apply (f_equal3 mkF3);
          [ f_equal; apply (atan2_eq (sin y)); [exact Pc | exact Hx | ring | ring]
          | apply tacos_eq; [lra | ring]
          | f_equal; apply (atan2_eq (sin y)); [exact Pc | exact Hz | ring | ring] ] ]
   |]). contradiction.
Qed.

(** ** matrix to angles to matrix *)
(** a rotation fixing two vectors that are not parallel is the identity *)
Definition mcols (u v w : V3) : M3 := mkM3 (vx u) (vx v) (vx w) (vy u) (vy v) (vy w) (vz u) (vz v) (vz w).
Lemma mul_mcols D u v w : m3mul D (mcols u v w) = mcols (m3vec D u) (m3vec D v) (m3vec D w).
Proof. unfold mcols; lin. Qed.
Lemma det_mcols u v : det3 (mcols u v (vcross u v)) = vnorm2 (vcross u v).
Proof. unfold mcols; lin_destr; lin_simpl; ring. Qed.
Lemma rot_fix2 D u v : is_rot D -> m3vec D u = u -> m3vec D v = v -> vnorm2 (vcross u v) <> 0 -> D = I3.
Proof.
  intros HD Hu Hv Hn. set (P := mcols u v (vcross u v)).
  assert (E : m3mul D P = P) by (unfold P; rewrite mul_mcols, rot_cross, Hu, Hv by exact HD; reflexivity).
  assert (Ed : det3 P <> 0) by (unfold P; rewrite det_mcols; exact Hn).
  assert (EP : m3mul P (m3scale (/ det3 P) (adj3 P)) = I3).
  { rewrite m3scale_mul_r, adj3_r, m3scale_scale, Rinv_l, m3scale_1 by exact Ed. reflexivity. }
  transitivity (m3mul D (m3mul P (m3scale (/ det3 P) (adj3 P)))).
  - rewrite EP, m3mul_1_r. reflexivity.
  - rewrite m3mul_assoc, E. exact EP.
Qed.
(** a rotation is determined by one row and one column when they do not share an entry +-1 *)
Definition basis3 (i : nat) : V3 := m3row I3 i.
Lemma row_vec A i : m3row A i = m3vec (m3tr A) (basis3 i).
Proof. unfold basis3. destruct i as [|[|i]]; destruct A; unfold m3row; lin_simpl; apply mkV3_eq; ring. Qed.
Lemma rot_determined i j A B : is_rot A -> is_rot B ->
  m3row A i = m3row B i -> m3col A j = m3col B j -> m3get A i j * m3get A i j <> 1 -> A = B.
Proof.
  intros HA HB Hr Hc Hn. set (D := m3mul A (m3tr B)).
  assert (HD : is_rot D) by (apply is_rot_mul; [exact HA | apply is_rot_tr, HB]).
  assert (Fu : m3vec D (basis3 i) = basis3 i).
  { unfold D. rewrite m3vec_mul, <- row_vec, <- Hr, row_vec, <- m3vec_mul, (proj1 HA), m3vec_1. reflexivity. }
  assert (Fv : m3vec D (m3col B j) = m3col B j).
  { unfold D, m3col at 1. rewrite row_vec, m3tr_tr, <- m3vec_mul, <- m3mul_assoc, is_rot_l, m3mul_1_r by exact HB.
    rewrite <- (m3tr_tr A), <- row_vec. exact Hc. }
  assert (ND : vnorm2 (vcross (basis3 i) (m3col B j)) <> 0).
  { assert (N1 : vnorm2 (m3col B j) = 1).
    { unfold m3col. rewrite row_vec, rot_norm2 by (apply is_rot_tr, is_rot_tr, HB).
      destruct j as [|[|j]]; unfold basis3, m3row; lin_simpl; ring. }
    assert (G : m3get A i j = v3get (m3col B j) i).
    { rewrite <- Hc. unfold m3get, m3col. destruct A. destruct i as [|[|i]], j as [|[|j]]; reflexivity. }
    rewrite G in Hn. destruct (m3col B j) as [x y z]. destruct i as [|[|i]]; unfold basis3, m3row, v3get in *; lin_simpl; lra. }
  assert (DI := rot_fix2 D _ _ HD Fu Fv ND).
  transitivity (m3mul D B).
  - unfold D. rewrite <- m3mul_assoc, is_rot_l, m3mul_1_r by exact HB. reflexivity.
  - rewrite DI. apply m3mul_1_l.
Qed.

(** the entry that is +-1 exactly at gimbal lock *)
Definition gimbal_entry (s : string) (A : M3) : R :=
  match s with
  | String a (String _ (String c EmptyString)) => m3get A (index_from_letter a) (index_from_letter c)
  | _ => 1
  end.

Lemma axis_rot c t M : axis_angle_rotation c t = Ok M -> is_rot M.
Proof.
  unfold axis_angle_rotation. pose proof (sin_sqr t) as Q.
  repeat match goal with |- context [if ?b then _ else _] => destruct b end; intros E; inversion E; subst;
    lin_simpl; set (ct := cos t) in *; set (st := sin t) in *; clearbody ct st; (split; [apply mkM3_eq|]); ring [Q].
Qed.
Lemma euler_rot e s M : euler_angles_to_matrix e s = Ok M -> is_rot M.
Proof.
  unfold euler_angles_to_matrix. destruct (check_convention s) as [[[a b] c]|]; cbn [rbind]; [|discriminate].
  destruct (axis_angle_rotation a (vx e)) eqn:E1; cbn [rbind]; [|discriminate].
  destruct (axis_angle_rotation b (vy e)) eqn:E2; cbn [rbind]; [|discriminate].
  destruct (axis_angle_rotation c (vz e)) eqn:E3; cbn [rbind]; [|discriminate].
  intros H; inversion H; subst. apply is_rot_mul; [apply is_rot_mul|]; eapply axis_rot; eassumption.
Qed.
Lemma rot_rows A : is_rot A ->
  (forall i, vnorm2 (m3row A i) = 1) /\ (forall j, vnorm2 (m3col A j) = 1).
Proof.
  intros H. split; intros k; unfold m3col; rewrite row_vec, rot_norm2 by (repeat apply is_rot_tr; exact H);
    destruct k as [|[|k]]; unfold basis3, m3row; lin_simpl; ring.
Qed.
Lemma tasin_ok e : 0 < 1 - e * e -> tasin e = Fin (asin e).
Proof.
  intros H. unfold tasin. assert (Rleb (-1) e = true) as -> by (apply Rleb_true; nra).
  assert (Rleb e 1 = true) as -> by (apply Rleb_true; nra). reflexivity.
Qed.
Lemma tacos_ok e : 0 < 1 - e * e -> tacos e = Fin (acos e).
Proof.
  intros H. unfold tacos. assert (Rleb (-1) e = true) as -> by (apply Rleb_true; nra).
  assert (Rleb e 1 = true) as -> by (apply Rleb_true; nra). reflexivity.
Qed.
Lemma asin_facts e : 0 < 1 - e * e -> sin (asin e) = e /\ cos (asin e) = sqrt (1 - e * e).
Proof. intros H. split; [apply sin_asin; nra | apply cos_asin; nra]. Qed.
Lemma acos_facts e : 0 < 1 - e * e -> cos (acos e) = e /\ sin (acos e) = sqrt (1 - e * e).
Proof. intros H. split; [apply cos_acos; nra | apply sin_acos; nra]. Qed.

Lemma conv_tb i j s A p1 q1 E p3 q3 : is_rot A -> m3get A i j * m3get A i j < 1 ->
  matrix_to_euler_angles A s = Ok (mkF3 (Fin (atan2 p1 q1)) (tasin E) (Fin (atan2 p3 q3))) ->
  E * E = m3get A i j * m3get A i j -> p1 * p1 + q1 * q1 = 1 - E * E -> p3 * p3 + q3 * q3 = 1 - E * E ->
  (forall x y z, sin y = E -> cos y * cos x = q1 -> cos y * sin x = p1 -> cos y * cos z = q3 -> cos y * sin z = p3 ->
    exists M, euler_angles_to_matrix (mkV3 x y z) s = Ok M /\ m3row M i = m3row A i /\ m3col M j = m3col A j) ->
  exists e, matrix_to_euler_angles A s = Ok (fin3 e) /\ euler_angles_to_matrix e s = Ok A.
Proof.
  intros HA Hg Hm HE H1 H3 HM. assert (P : 0 < 1 - E * E) by lra.
  destruct (asin_facts E P) as [S C]. destruct (polar_facts E p1 q1 P H1) as [X1 X2].
  destruct (polar_facts E p3 q3 P H3) as [Z1 Z2]. rewrite <- C in X1, X2, Z1, Z2.
  exists (mkV3 (atan2 p1 q1) (asin E) (atan2 p3 q3)). rewrite Hm, (tasin_ok E P). split; [reflexivity|].
  destruct (HM _ _ _ S X1 X2 Z1 Z2) as (M & EM & Er & Ec). rewrite EM. f_equal.
  symmetry. apply (rot_determined i j); [exact HA | eapply euler_rot; exact EM | symmetry; exact Er | symmetry; exact Ec | lra].
Qed.
Lemma conv_pe i j s A p1 q1 E p3 q3 : is_rot A -> m3get A i j * m3get A i j < 1 ->
  matrix_to_euler_angles A s = Ok (mkF3 (Fin (atan2 p1 q1)) (tacos E) (Fin (atan2 p3 q3))) ->
  E * E = m3get A i j * m3get A i j -> p1 * p1 + q1 * q1 = 1 - E * E -> p3 * p3 + q3 * q3 = 1 - E * E ->
  (forall x y z, cos y = E -> sin y * cos x = q1 -> sin y * sin x = p1 -> sin y * cos z = q3 -> sin y * sin z = p3 ->
    exists M, euler_angles_to_matrix (mkV3 x y z) s = Ok M /\ m3row M i = m3row A i /\ m3col M j = m3col A j) ->
  exists e, matrix_to_euler_angles A s = Ok (fin3 e) /\ euler_angles_to_matrix e s = Ok A.
Proof.
  intros HA Hg Hm HE H1 H3 HM. assert (P : 0 < 1 - E * E) by lra.
  destruct (acos_facts E P) as [S C]. destruct (polar_facts E p1 q1 P H1) as [X1 X2].
  destruct (polar_facts E p3 q3 P H3) as [Z1 Z2]. rewrite <- C in X1, X2, Z1, Z2.
  exists (mkV3 (atan2 p1 q1) (acos E) (atan2 p3 q3)). rewrite Hm, (tacos_ok E P). split; [reflexivity|].
  destruct (HM _ _ _ S X1 X2 Z1 Z2) as (M & EM & Er & Ec). rewrite EM. f_equal.
  symmetry. apply (rot_determined i j); [exact HA | eapply euler_rot; exact EM | symmetry; exact Er | symmetry; exact Ec | lra].
Qed.

Ltac conv_tac lem i j :=
  lazymatch goal with HA : is_rot ?A, Hlt : _ < 1 |- _ =>
    eapply (lem i j _ A); [exact HA | exact Hlt | eul_simpl; reflexivity | | | |];
    [ eul_simpl; ring
    | pose proof (proj2 (rot_rows A HA) j) as N; unfold m3col, m3row, m3tr, vnorm2, vdot in N; eul_simpl;
      cbn [vx vy vz m00 m01 m02 m10 m11 m12 m20 m21 m22] in N; lra
    | pose proof (proj1 (rot_rows A HA) i) as N; unfold m3col, m3row, m3tr, vnorm2, vdot in N; eul_simpl;
      cbn [vx vy vz m00 m01 m02 m10 m11 m12 m20 m21 m22] in N; lra
    | let x := fresh "x" in let y := fresh "y" in let z := fresh "z" in
      intros x y z; eul_simpl; intros;
      eexists; split; [reflexivity|]; unfold m3col, m3row, m3tr, m3mul;
      cbn [m00 m01 m02 m10 m11 m12 m20 m21 m22];
      split; apply mkV3_eq; lra ]
  end.

Lemma euler_matrix_back s A : In s conventions -> is_rot A -> gimbal_entry s A * gimbal_entry s A <> 1 ->
  exists e, matrix_to_euler_angles A s = Ok (fin3 e) /\ euler_angles_to_matrix e s = Ok A.
Proof.
  intros Hs HA Hn.
  assert (Hlt : gimbal_entry s A * gimbal_entry s A < 1).
  { destruct (rot_rows A HA) as [Hrow _].
    assert (G : gimbal_entry s A * gimbal_entry s A <= 1); [|lra].
    unfold gimbal_entry. destruct s as [|a [|b [|c [|]]]]; try lra.
    specialize (Hrow (index_from_letter a)). unfold m3get.
    destruct (m3row A (index_from_letter a)) as [x y z]. unfold vnorm2, vdot in Hrow. cbn [vx vy vz] in Hrow.
    pose proof (Rle_0_sqr x); pose proof (Rle_0_sqr y); pose proof (Rle_0_sqr z). unfold Rsqr in *.
    destruct (index_from_letter c) as [|[|]]; cbn [v3get vx vy vz]; lra. }
  clear Hn. unfold conventions, tait_bryan, proper_euler in Hs. simpl in Hs.
  destruct Hs as [<-|Hs]; [conv_tac conv_tb 0%nat 2%nat|].
  destruct Hs as [<-|Hs]; [conv_tac conv_tb 0%nat 1%nat|].
  destruct Hs as [<-|Hs]; [conv_tac conv_tb 1%nat 2%nat|].
  destruct Hs as [<-|Hs]; [conv_tac conv_tb 1%nat 0%nat|].
  destruct Hs as [<-|Hs]; [conv_tac conv_tb 2%nat 1%nat|].
  destruct Hs as [<-|Hs]; [conv_tac conv_tb 2%nat 0%nat|].
  destruct Hs as [<-|Hs]; [conv_tac conv_pe 0%nat 0%nat|].
  destruct Hs as [<-|Hs]; [conv_tac conv_pe 0%nat 0%nat|].
  destruct Hs as [<-|Hs]; [conv_tac conv_pe 1%nat 1%nat|].
  destruct Hs as [<-|Hs]; [conv_tac conv_pe 1%nat 1%nat|].
  destruct Hs as [<-|Hs]; [conv_tac conv_pe 2%nat 2%nat|].
  destruct Hs as [<-|Hs]; [conv_tac conv_pe 2%nat 2%nat|].
  contradiction.
Qed.

(** at gimbal lock the round trip loses the rotation; the witness has entries 0 and 1 only *)
Lemma gimbal_refuted : exists A, is_rot A /\
  forall e, matrix_to_euler_angles A "XYZ" = Ok (fin3 e) -> euler_angles_to_matrix e "XYZ" <> Ok A.
Proof.
  exists (mkM3 0 0 1 1 0 0 0 1 0). split; [split; lin_simpl; [apply mkM3_eq|]; ring|].
  intros e H E.
  assert (A0 : atan2 0 0 = 0).
  { unfold atan2. assert (Rltb 0 0 = false) as -> by (apply Rltb_false; lra). reflexivity. }
  assert (HX : forall T (a b : T), Ok a = Ok b -> a = b) by (intros T a b G; congruence).
  assert (FX : forall a b, Fin a = Fin b -> a = b) by (intros a b G; congruence).
  assert (Ex : vx e = 0).
  { apply HX, (f_equal f3x) in H. cbn [f3x fin3] in H. apply FX in H. rewrite <- H. unfold angle_from_tan.
    cbn [Ascii.eqb Bool.eqb andb orb v3get m3col m3row m3tr vx vy vz m00 m01 m02 m10 m11 m12 m20 m21 m22 index_from_letter].
    rewrite Ropp_0. exact A0. }
  assert (Ez : vz e = 0).
  { apply HX, (f_equal f3z) in H. cbn [f3z fin3] in H. apply FX in H. rewrite <- H. unfold angle_from_tan.
    cbn [Ascii.eqb Bool.eqb andb orb v3get m3col m3row m3tr vx vy vz m00 m01 m02 m10 m11 m12 m20 m21 m22 index_from_letter].
    rewrite Ropp_0. exact A0. }
  destruct e as [x y z]. cbn [vx vz] in Ex, Ez. subst x z.
  assert (E' : exists M, euler_angles_to_matrix (mkV3 0 y 0) "XYZ" = Ok M /\ m11 M = 1).
  { eexists. split; [eul_simpl; reflexivity|]. unfold m3mul. cbn [m00 m01 m02 m10 m11 m12 m20 m21 m22].
    rewrite cos_0, sin_0. ring. }
  destruct E' as (M & E1 & E2). rewrite E1 in E. apply HX in E. rewrite E in E2. cbn [m11] in E2. lra.
Qed.
