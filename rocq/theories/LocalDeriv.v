(** How the smooth error changes along a motion, bounded by the change of the Jacobian columns. *)
From Coq Require Import Reals Lra String Bool Arith Lia List FunctionalExtensionality.
From Coquelicot Require Import Coquelicot.
From Verif Require Import Prelude ExtF Tree ChainModel SpecFK ChainProofs Lin Trig RotModel RotBasic ChainInst Deriv JacModel JacProofs IKKernel KernelProofs
  SerialMore SpecDescent PathDeriv AngleDeriv DescentProofs LocalNorm LocalCont LocalErr.
Import ListNotations.
Local Open Scope R_scope.

Lemma derive_neg_shift f (x c a : R) : is_derive f x a -> is_derive (fun t : R => c - f t) x (- a).
Proof. intros D. eapply is_derive_eq; [exact (is_derive_minus (fun _ => c) f x 0 a (is_derive_const c x) D)|]. unfold minus, plus, opp, zero; simpl. ring. Qed.

Definition left_turn (target : M4) (v : config (S := R)) (fs : list mframe) : M3 := m3mul (rotp target) (m3tr (rotp (pose v fs))).
Lemma soft_derive0 target v d fs i : (forall f, In f fs -> rigid_frame f) ->
  is_derive (fun t => six (soft_err target (pose (drive v d t) fs)) i) 0 (- six (fst (twist v d fs), vscale (1 / 2) (axial (m3mul (left_turn target v fs) (hatm (snd (twist v d fs)))))) i).
Proof.
  intros Hr. pose proof (pose_drive v d fs Hr) as D. unfold left_turn. set (u := fst (twist v d fs)) in *. set (w := snd (twist v d fs)) in *. set (P := pose v fs) in *. clearbody u w.
  destruct D as ((H00 & H01 & H02 & H03) & (H10 & H11 & H12 & H13) & (H20 & H21 & H22 & H23) & _).
  unfold lin4 in *. cbn [a00 a01 a02 a03 a10 a11 a12 a13 a20 a21 a22 a23] in *.
  assert (L : forall c0 c1 c2 c3 c4 c5 c6 c7 c8 : R, is_derive (fun t : R => (c0 * a00 (pose (drive v d t) fs) + c1 * a01 (pose (drive v d t) fs) + c2 * a02 (pose (drive v d t) fs)) +
      (c3 * a10 (pose (drive v d t) fs) + c4 * a11 (pose (drive v d t) fs) + c5 * a12 (pose (drive v d t) fs)) + (c6 * a20 (pose (drive v d t) fs) + c7 * a21 (pose (drive v d t) fs) + c8 * a22 (pose (drive v d t) fs))) 0
      ((c0 * m00 (m3mul (hatm w) (rotp P)) + c1 * m01 (m3mul (hatm w) (rotp P)) + c2 * m02 (m3mul (hatm w) (rotp P))) +
       (c3 * m10 (m3mul (hatm w) (rotp P)) + c4 * m11 (m3mul (hatm w) (rotp P)) + c5 * m12 (m3mul (hatm w) (rotp P))) + (c6 * m20 (m3mul (hatm w) (rotp P)) + c7 * m21 (m3mul (hatm w) (rotp P)) + c8 * m22 (m3mul (hatm w) (rotp P))))).
  { intros. apply (derive_lin9 c0 c1 c2 c3 c4 c5 c6 c7 c8); assumption. }
  do 3 (destruct i as [|i]; [unfold six, soft_err, vsub, trp; cbn [fst snd vx vy vz]; apply derive_neg_shift; assumption|]).
  set (T := rotp target). 
  destruct i as [|i]; [|destruct i as [|i]; [|destruct i as [|i]; [|unfold six; rewrite Ropp_0; exact (is_derive_const 0 0)]]].
  - eapply is_derive_ext; [|eapply is_derive_eq; [exact (L 0 0 0 (1/2 * m20 T) (1/2 * m21 T) (1/2 * m22 T) (- (1/2) * m10 T) (- (1/2) * m11 T) (- (1/2) * m12 T))|]].
    + intros t. unfold six, soft_err, axial, vscale, m3mul, m3tr, T. cbn [fst snd vx vy vz m00 m01 m02 m10 m11 m12 m20 m21 m22]. generalize (pose (drive v d t) fs). intros X. unfold rotp. cbn [m00 m01 m02 m10 m11 m12 m20 m21 m22]. req. ring.
    + unfold six, axial, vscale, m3mul, m3tr, hatm. cbn [fst snd vx vy vz m00 m01 m02 m10 m11 m12 m20 m21 m22]. req. ring.
  - eapply is_derive_ext; [|eapply is_derive_eq; [exact (L (- (1/2) * m20 T) (- (1/2) * m21 T) (- (1/2) * m22 T) 0 0 0 (1/2 * m00 T) (1/2 * m01 T) (1/2 * m02 T))|]].
    + intros t. unfold six, soft_err, axial, vscale, m3mul, m3tr, T. cbn [fst snd vx vy vz m00 m01 m02 m10 m11 m12 m20 m21 m22]. generalize (pose (drive v d t) fs). intros X. unfold rotp. cbn [m00 m01 m02 m10 m11 m12 m20 m21 m22]. req. ring.
    + unfold six, axial, vscale, m3mul, m3tr, hatm. cbn [fst snd vx vy vz m00 m01 m02 m10 m11 m12 m20 m21 m22]. req. ring.
  - eapply is_derive_ext; [|eapply is_derive_eq; [exact (L (1/2 * m10 T) (1/2 * m11 T) (1/2 * m12 T) (- (1/2) * m00 T) (- (1/2) * m01 T) (- (1/2) * m02 T) 0 0 0)|]].
    + intros t. unfold six, soft_err, axial, vscale, m3mul, m3tr, T. cbn [fst snd vx vy vz m00 m01 m02 m10 m11 m12 m20 m21 m22]. generalize (pose (drive v d t) fs). intros X. unfold rotp. cbn [m00 m01 m02 m10 m11 m12 m20 m21 m22]. req. ring.
    + unfold six, axial, vscale, m3mul, m3tr, hatm. cbn [fst snd vx vy vz m00 m01 m02 m10 m11 m12 m20 m21 m22]. req. ring.
Qed.
Lemma drive_add v d s t : drive (drive v d s) d t = drive v d (s + t).
Proof. apply functional_extensionality. intros n. unfold drive. ring. Qed.
Lemma soft_derive target v d fs i t0 : (forall f, In f fs -> rigid_frame f) ->
  is_derive (fun t => six (soft_err target (pose (drive v d t) fs)) i) t0
    (- six (fst (twist (drive v d t0) d fs), vscale (1 / 2) (axial (m3mul (left_turn target (drive v d t0) fs) (hatm (snd (twist (drive v d t0) d fs)))))) i).
Proof.
  intros Hr. pose proof (soft_derive0 target (drive v d t0) d fs i Hr) as D. set (l := - six _ i) in *. clearbody l.
  set (g := fun t => six (soft_err target (pose (drive (drive v d t0) d t) fs)) i) in D.
  assert (E : forall t, g (t - t0) = six (soft_err target (pose (drive v d t) fs)) i) by (intros t; unfold g; rewrite drive_add; do 4 f_equal; ring).
  eapply is_derive_ext; [exact E|].
  assert (D' : is_derive g (t0 - t0) l) by (replace (t0 - t0) with 0 by ring; exact D).
  assert (S : is_derive (fun t : R => t - t0) t0 1) by (auto_derive; [exact I | ring]).
  eapply is_derive_eq; [exact (is_derive_comp g (fun t => t - t0) t0 l 1 D' S)|]. unfold scal; simpl. unfold mult; simpl. req. ring.
Qed.

(** ** bounds *)
(** entries of the Jacobian *)
Definition cm (fs : list mframe) (v : config (S := R)) (i j : nat) : R := six (nth j (map (col_of v (pose v fs)) (mov [] fs)) (vzero, vzero)) i.
Lemma twist_cm fs v d i : (forall f, In f fs -> rigid_frame f) -> six (twist v d fs) i = rsum (length (path_names fs)) (fun j => cm fs v i j * nth j (map d (path_names fs)) 0).
Proof.
  intros Hr. pose proof (col_sum_path v d fs (fun _ => 1) i Hr) as E. rewrite Rmult_1_l in E. rewrite <- E. unfold jv. apply rsum_ext. intros j _. unfold jac_w, weigh, cm. ring.
Qed.
Lemma rot_entry A h : is_rot A -> In h entries -> Rabs (h A) <= 1.
Proof.
  intros HA Hh. destruct (rot_rows A HA) as (A1 & A2 & A3). rewrite <- (Rabs_pos_eq 1) by lra. apply Rsqr_le_abs_0. unfold Rsqr.
  pose proof (fun x : R => Rle_0_sqr x) as P. unfold Rsqr in P. simpl in Hh.
  pose proof (P (m00 A)). pose proof (P (m01 A)). pose proof (P (m02 A)). pose proof (P (m10 A)). pose proof (P (m11 A)). pose proof (P (m12 A)). pose proof (P (m20 A)). pose proof (P (m21 A)). pose proof (P (m22 A)).
  repeat (destruct Hh as [<-|Hh]; [lra|]). contradiction.
Qed.
Lemma dot3_bound a b c x y z (s t : R) : 0 <= s -> 0 <= t -> Rabs a <= s -> Rabs b <= s -> Rabs c <= s -> Rabs x <= t -> Rabs y <= t -> Rabs z <= t -> Rabs (a * x + b * y + c * z) <= 3 * (s * t).
Proof.
  intros. eapply Rle_trans; [apply Rabs_triang|]. assert (Rabs (a * x + b * y) <= Rabs (a * x) + Rabs (b * y)) by apply Rabs_triang. rewrite !Rabs_mult in *.
  assert (Rabs a * Rabs x <= s * t) by (apply Rmult_le_compat; try apply Rabs_pos; assumption). assert (Rabs b * Rabs y <= s * t) by (apply Rmult_le_compat; try apply Rabs_pos; assumption).
  assert (Rabs c * Rabs z <= s * t) by (apply Rmult_le_compat; try apply Rabs_pos; assumption). lra.
Qed.
Lemma left_turn_close target v fs b : is_rot (rotp (pose v fs)) -> 0 <= b -> closeR b (rotp target) (rotp (pose v fs)) -> closeR (3 * b) (left_turn target v fs) I3.
Proof.
  intros HR Hb H. unfold left_turn. set (T := rotp target) in *. set (P := rotp (pose v fs)) in *. clearbody T P. pose proof HR as [O _].
  assert (E : forall h, In h entries -> h (m3mul T (m3tr P)) - h I3 = h (m3mul (mkM3 (m00 T - m00 P) (m01 T - m01 P) (m02 T - m02 P) (m10 T - m10 P) (m11 T - m11 P) (m12 T - m12 P) (m20 T - m20 P) (m21 T - m21 P) (m22 T - m22 P)) (m3tr P))).
  { intros h Hh. rewrite <- O. simpl in Hh. repeat (destruct Hh as [<-|Hh]; [unfold m3mul, m3tr; cbn [m00 m01 m02 m10 m11 m12 m20 m21 m22]; ring|]). contradiction. }
  pose proof (fun h Hh => rot_entry P h HR Hh) as B.
  intros h Hh. rewrite (E h Hh). replace (3 * b) with (3 * (b * 1)) by ring. simpl in Hh.
  repeat (destruct Hh as [<-|Hh]; [unfold m3mul, m3tr; cbn [m00 m01 m02 m10 m11 m12 m20 m21 m22]; apply dot3_bound; try lra; try (apply H; simpl; tauto); apply B; simpl; tauto|]). contradiction.
Qed.
Lemma axial_close D w b c i : closeR b D I3 -> 0 <= b -> 0 <= c -> Rabs (vx w) <= c -> Rabs (vy w) <= c -> Rabs (vz w) <= c ->
  Rabs (six (vzero, vsub (vscale (1 / 2) (axial (m3mul D (hatm w)))) w) i) <= 2 * (b * c).
Proof.
  intros H Hb Hc W0 W1 W2. assert (Z : 0 <= 2 * (b * c)) by (assert (0 <= b * c) by (apply Rmult_le_pos; assumption); lra).
  assert (K : forall h, In h entries -> Rabs (h D - h I3) <= b) by (exact H).
  assert (P2 : forall x y x' y' : R, Rabs x <= b -> Rabs y <= c -> Rabs x' <= b -> Rabs y' <= c -> Rabs (x * y) + Rabs (x' * y') <= 2 * (b * c)).
  { intros x y x' y' A1 A2 A3 A4. rewrite !Rabs_mult. assert (Rabs x * Rabs y <= b * c) by (apply Rmult_le_compat; try apply Rabs_pos; assumption). assert (Rabs x' * Rabs y' <= b * c) by (apply Rmult_le_compat; try apply Rabs_pos; assumption). lra. }
  assert (P4 : forall p q r s : R, Rabs p + Rabs q <= 2 * (b * c) -> Rabs r + Rabs s <= 2 * (b * c) -> Rabs (1 / 2 * (p + q - (r + s))) <= 2 * (b * c)).
  { intros p q r s A1 A2. rewrite Rabs_mult, (Rabs_pos_eq (1 / 2)) by lra. assert (Rabs (p + q - (r + s)) <= Rabs (p + q) + Rabs (- (r + s))) by (apply Rabs_triang). rewrite Rabs_Ropp in H0.
    pose proof (Rabs_triang p q). pose proof (Rabs_triang r s). lra. }
  assert (N0 : Rabs (- vx w) <= c) by (rewrite Rabs_Ropp; exact W0). assert (N1 : Rabs (- vy w) <= c) by (rewrite Rabs_Ropp; exact W1). assert (N2 : Rabs (- vz w) <= c) by (rewrite Rabs_Ropp; exact W2).
  pose proof (K m00 ltac:(simpl; tauto)) as K00. pose proof (K m01 ltac:(simpl; tauto)) as K01. pose proof (K m02 ltac:(simpl; tauto)) as K02. pose proof (K m10 ltac:(simpl; tauto)) as K10. pose proof (K m11 ltac:(simpl; tauto)) as K11.
  pose proof (K m12 ltac:(simpl; tauto)) as K12. pose proof (K m20 ltac:(simpl; tauto)) as K20. pose proof (K m21 ltac:(simpl; tauto)) as K21. pose proof (K m22 ltac:(simpl; tauto)) as K22.
  unfold I3 in K00, K01, K02, K10, K11, K12, K20, K21, K22. cbn [m00 m01 m02 m10 m11 m12 m20 m21 m22] in K00, K01, K02, K10, K11, K12, K20, K21, K22. clear K H.
  do 3 (destruct i as [|i]; [unfold six, vzero; cbn [fst vx vy vz]; rewrite Rabs_R0; exact Z|]).
  destruct i as [|i]; [|destruct i as [|i]; [|destruct i as [|i]; [|unfold six; rewrite Rabs_R0; exact Z]]]; unfold six, vsub, vscale, axial, m3mul, hatm; cbn [fst snd vx vy vz m00 m01 m02 m10 m11 m12 m20 m21 m22].
  - match goal with |- Rabs ?x <= _ => replace x with (1 / 2 * ((m20 D - 0) * (- vz w) + (m22 D - 1) * vx w - ((m10 D - 0) * vy w + (m11 D - 1) * (- vx w)))) by (field) end. apply P4; apply P2; assumption.
  - match goal with |- Rabs ?x <= _ => replace x with (1 / 2 * ((m00 D - 1) * vy w + (m01 D - 0) * (- vx w) - ((m21 D - 0) * vz w + (m22 D - 1) * (- vy w)))) by (field) end. apply P4; apply P2; assumption.
  - match goal with |- Rabs ?x <= _ => replace x with (1 / 2 * ((m11 D - 1) * vz w + (m12 D - 0) * (- vy w) - ((m00 D - 1) * (- vz w) + (m02 D - 0) * vx w))) by (field) end. apply P4; apply P2; assumption.
Qed.

Section Bound.
Variables (fs : list mframe) (target : M4) (v d : config (S := R)) (lr eta M : R).
Hypothesis (Hr : forall f, In f fs -> rigid_frame f) (Hlr : 0 <= lr) (He : 0 <= eta) (HM : 0 <= M).
Let n := length (path_names fs).
Let D j := nth j (map d (path_names fs)) 0.
Definition travel : R := rsum (length (path_names fs)) (fun j => Rabs (nth j (map d (path_names fs)) 0)).
Hypothesis Hrot : forall t, 0 <= t <= lr -> closeR (2 * eta) (rotp target) (rotp (pose (drive v d t) fs)).
Hypothesis Hcm : forall t i j, 0 <= t <= lr -> (j < n)%nat -> Rabs (cm fs (drive v d t) i j - cm fs v i j) <= 2 * eta /\ Rabs (cm fs (drive v d t) i j) <= M.
Lemma travel_nonneg : 0 <= travel. Proof. apply rsum_nonneg. intros. apply Rabs_pos. Qed.
Lemma twist_bound t i : 0 <= t <= lr -> Rabs (six (twist (drive v d t) d fs) i) <= M * travel.
Proof.
  intros Ht. rewrite (twist_cm fs _ d i Hr). eapply Rle_trans; [apply rsum_abs|]. unfold travel. rewrite <- rsum_scal. apply rsum_le. intros j Hj. rewrite Rabs_mult.
  destruct (Hcm t i j Ht Hj) as [_ H]. apply Rmult_le_compat_r; [apply Rabs_pos | exact H].
Qed.
Lemma soft_step i : Rabs (six (soft_err target (pose (drive v d lr) fs)) i - six (soft_err target (pose v fs)) i + lr * rsum n (fun j => cm fs v i j * D j)) <= lr * ((2 * eta + 12 * (eta * M)) * travel).
Proof.
  set (f := fun t => six (soft_err target (pose (drive v d t) fs)) i). set (c := rsum n (fun j => cm fs v i j * D j)).
  set (df := fun t0 => - six (fst (twist (drive v d t0) d fs), vscale (1 / 2) (axial (m3mul (left_turn target (drive v d t0) fs) (hatm (snd (twist (drive v d t0) d fs)))))) i).
  assert (E0 : pose (drive v d 0) fs = pose v fs) by (apply pose_ext; intros; apply drive_0).
  assert (Bd : forall t, 0 <= t <= lr -> Rabs (df t + c) <= (2 * eta + 12 * (eta * M)) * travel).
  { intros t Ht. unfold df. set (vt := drive v d t). set (w := snd (twist vt d fs)). set (u := fst (twist vt d fs)).
    assert (E : - six (u, vscale (1 / 2) (axial (m3mul (left_turn target vt fs) (hatm w)))) i + c =
      - (six (twist vt d fs) i - c) - six (vzero, vsub (vscale (1 / 2) (axial (m3mul (left_turn target vt fs) (hatm w)))) w) i).
    { unfold six. unfold u, w, vsub, vzero. cbn [fst snd vx vy vz]. do 6 (destruct i as [|i]; [ring|]). ring. }
    rewrite E. unfold Rminus at 1. eapply Rle_trans; [apply Rabs_triang|]. rewrite !Rabs_Ropp.
    assert (B1 : Rabs (six (twist vt d fs) i - c) <= 2 * eta * travel).
    { unfold vt. rewrite (twist_cm fs _ d i Hr). fold n. unfold c, D. rewrite <- rsum_minus. eapply Rle_trans; [apply rsum_abs|]. unfold travel. rewrite <- rsum_scal. apply rsum_le. intros j Hj.
      rewrite <- Rmult_minus_distr_r, Rabs_mult. destruct (Hcm t i j Ht Hj) as [H _]. apply Rmult_le_compat_r; [apply Rabs_pos | exact H]. }
    assert (RR : is_rot (rotp (pose vt fs))) by (apply rigid_frames_pose; exact Hr).
    pose proof (left_turn_close target vt fs (2 * eta) RR ltac:(lra) (Hrot t Ht)) as LT. pose proof travel_nonneg as TN.
    pose proof (axial_close _ w (3 * (2 * eta)) (M * travel) i LT ltac:(lra) ltac:(apply Rmult_le_pos; assumption) (twist_bound t 3%nat Ht) (twist_bound t 4%nat Ht) (twist_bound t 5%nat Ht)) as B2.
    eapply Rle_trans; [apply Rplus_le_compat; [exact B1 | exact B2]|]. right. ring. }
  destruct (MVT_gen f 0 lr df) as (x & Hx & Ex).
  - intros t _. apply (soft_derive target v d fs i t Hr).
  - intros t _. assert (Dt := soft_derive target v d fs i t Hr). apply is_derive_Reals in Dt. apply derivable_continuous_pt. exists (df t). exact Dt.
  - rewrite Rmin_left, Rmax_right in Hx by exact Hlr. unfold f in Ex at 2. rewrite E0 in Ex. fold (f lr). rewrite Rminus_0_r in Ex. rewrite Ex.
    replace (df x * lr + lr * c) with (lr * (df x + c)) by ring. rewrite Rabs_mult, (Rabs_pos_eq lr Hlr). apply Rmult_le_compat_l; [exact Hlr | apply Bd; exact Hx].
Qed.
End Bound.
