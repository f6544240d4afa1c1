(** Derivatives of the operations on a tape, and of whole tapes. *)
From Coq Require Import Reals Lra Bool Arith Lia List.
From Coquelicot Require Import Coquelicot.
From Verif Require Import Prelude ExtF Trig Lin RotModel MathModel AcosProofs GradModel SpecGrad GradProofs.
Import ListNotations.
Local Open Scope R_scope.

Lemma d_eq (f : R -> R) (x l l' : R) : is_derive f x l -> l = l' -> is_derive f x l'. Proof. intros H <-. exact H. Qed.
Lemma d_const (c : R) : is_derive (fun _ => c) 0 0. Proof. exact (is_derive_const c 0). Qed.
Lemma d_plus (f g : R -> R) (a b : R) : is_derive f 0 a -> is_derive g 0 b -> is_derive (fun t => f t + g t) 0 (a + b).
Proof. intros. apply (is_derive_plus f g 0 a b); assumption. Qed.
Lemma d_minus (f g : R -> R) (a b : R) : is_derive f 0 a -> is_derive g 0 b -> is_derive (fun t => f t - g t) 0 (a - b).
Proof. intros. apply (is_derive_minus f g 0 a b); assumption. Qed.
Lemma d_opp (f : R -> R) (a : R) : is_derive f 0 a -> is_derive (fun t => - f t) 0 (- a).
Proof. intros. apply (is_derive_opp f 0 a). assumption. Qed.
Lemma d_mult (f g : R -> R) (a b : R) : is_derive f 0 a -> is_derive g 0 b -> is_derive (fun t => f t * g t) 0 (a * g 0 + f 0 * b).
Proof. intros. apply (is_derive_mult f g 0 a b); [assumption | assumption | intros; apply Rmult_comm]. Qed.
Lemma d_comp (h f : R -> R) (k a : R) : is_derive h (f 0) k -> is_derive f 0 a -> is_derive (fun t => h (f t)) 0 (k * a).
Proof. intros H1 H2. eapply d_eq; [exact (is_derive_comp h f 0 k a H1 H2)|]. change (a * k = k * a). ring. Qed.
Lemma d_inv (f : R -> R) (a : R) : is_derive f 0 a -> f 0 <> 0 -> is_derive (fun t => / f t) 0 (- a / (f 0 * f 0)).
Proof. intros H N. eapply d_eq; [exact (is_derive_inv f 0 a H N)|]. change (- a / (f 0 * (f 0 * 1)) = - a / (f 0 * f 0)). field. exact N. Qed.
Lemma d_div (f g : R -> R) (a b : R) : is_derive f 0 a -> is_derive g 0 b -> g 0 <> 0 -> is_derive (fun t => f t / g t) 0 (a / g 0 - f 0 * b / (g 0 * g 0)).
Proof. intros H1 H2 N. eapply d_eq; [exact (d_mult f (fun t => / g t) _ _ H1 (d_inv g b H2 N))|]. cbv beta. field. exact N. Qed.
Lemma d_sqrt (f : R -> R) (a : R) : is_derive f 0 a -> 0 < f 0 -> is_derive (fun t => sqrt (f t)) 0 (/ (2 * sqrt (f 0)) * a).
Proof. intros H P. apply d_comp; [|exact H]. apply is_derive_Reals, derivable_pt_lim_sqrt, P. Qed.
Lemma d_cont (f : R -> R) (a : R) : is_derive f 0 a -> forall e, 0 < e -> locally 0 (fun t => Rabs (f t - f 0) < e).
Proof.
  intros H e He. assert (C : continuous f 0) by (apply (ex_derive_continuous f 0); exists a; exact H).
  apply (C (fun y => Rabs (y - f 0) < e)). exists (mkposreal e He). intros y Hy. exact Hy.
Qed.
Lemma d_lt (f g : R -> R) (a b : R) : is_derive f 0 a -> is_derive g 0 b -> f 0 < g 0 -> locally 0 (fun t => f t < g t).
Proof.
  intros H1 H2 L. assert (E : 0 < (g 0 - f 0) / 2) by lra. eapply filter_imp; [|exact (filter_and _ _ (d_cont f a H1 _ E) (d_cont g b H2 _ E))].
  intros t [A B]. apply Rabs_def2 in A, B. lra.
Qed.
Lemma d_loc (f g : R -> R) (l : R) : locally 0 (fun t => g t = f t) -> is_derive g 0 l -> is_derive f 0 l.
Proof. intros H D. exact (is_derive_ext_loc g f 0 l H D). Qed.
Lemma d_loc_imp (f g : R -> R) (l : R) (P : R -> Prop) : locally 0 P -> (forall t, P t -> g t = f t) -> is_derive g 0 l -> is_derive f 0 l.
Proof. intros H E. apply d_loc. eapply filter_imp; [exact E | exact H]. Qed.
Lemma Rltb_t a b : a < b -> Rltb a b = true. Proof. apply Rltb_true. Qed.
Lemma Rltb_f a b : b <= a -> Rltb a b = false. Proof. apply Rltb_false. Qed.
Lemma Rleb_t a b : a <= b -> Rleb a b = true. Proof. apply Rleb_true. Qed.
Lemma Rleb_f a b : b < a -> Rleb a b = false. Proof. apply Rleb_false. Qed.

(** ** atan2 *)
Lemma atan2_up y x : 0 < y -> atan2 y x = PI / 2 - atan (x / y).
Proof.
  intros Hy. unfold atan2. destruct (Rtotal_order 0 x) as [H|[H|H]].
  - rewrite Rltb_t by exact H. replace (y / x) with (/ (x / y)) by (field; lra). apply atan_inv. apply Rdiv_lt_0_compat; lra.
  - subst. rewrite Rltb_f by lra. rewrite Rltb_t by exact Hy. replace (0 / y) with 0 by (field; lra). rewrite atan_0. lra.
  - rewrite Rltb_f by lra. rewrite Rltb_t by exact H. rewrite Rleb_t by lra. replace (y / x) with (- / (- x / y)) by (field; lra). rewrite atan_opp, atan_inv by (apply Rdiv_lt_0_compat; lra).
    replace (- x / y) with (- (x / y)) by (field; lra). rewrite atan_opp. lra.
Qed.
Lemma atan2_down y x : y < 0 -> atan2 y x = - (PI / 2) - atan (x / y).
Proof.
  intros Hy. unfold atan2. destruct (Rtotal_order 0 x) as [H|[H|H]].
  - rewrite Rltb_t by exact H. replace (y / x) with (- / (x / - y)) by (field; lra). rewrite atan_opp, atan_inv by (apply Rdiv_lt_0_compat; lra).
    replace (x / - y) with (- (x / y)) by (field; lra). rewrite atan_opp. lra.
  - subst. rewrite (Rltb_f 0 0) by lra. rewrite Rltb_f by lra. rewrite Rltb_t by exact Hy. replace (0 / y) with 0 by (field; lra). rewrite atan_0. lra.
  - rewrite Rltb_f by lra. rewrite Rltb_t by exact H. rewrite Rleb_f by lra. replace (y / x) with (/ (x / y)) by (field; lra). rewrite atan_inv; [lra|].
    replace (x / y) with (- x / - y) by (field; lra). apply Rdiv_lt_0_compat; lra.
Qed.
Lemma d_atan (f : R -> R) (a : R) : is_derive f 0 a -> is_derive (fun t => atan (f t)) 0 (/ (1 + f 0 * f 0) * a).
Proof. intros H. apply d_comp; [|exact H]. eapply d_eq; [apply is_derive_Reals, derivable_pt_lim_atan | cbn [pow]; rewrite Rmult_1_r; reflexivity]. Qed.
Lemma d_atan2 (y x : R -> R) (a b : R) : is_derive y 0 a -> is_derive x 0 b -> y 0 <> 0 \/ 0 < x 0 ->
  is_derive (fun t => atan2 (y t) (x t)) 0 (x 0 * (1 / (y 0 * y 0 + x 0 * x 0)) * a + - y 0 * (1 / (y 0 * y 0 + x 0 * x 0)) * b).
Proof.
  intros Dy Dx H. destruct (Rlt_dec 0 (x 0)) as [P|P].
  - apply (d_loc_imp _ (fun t => atan (y t / x t)) _ _ (d_lt (fun _ => 0) x _ _ (d_const 0) Dx P)).
    + intros t Ht. unfold atan2. rewrite Rltb_t by exact Ht. reflexivity.
    + eapply d_eq; [exact (d_atan _ _ (d_div y x a b Dy Dx ltac:(lra)))|]. assert (0 < x 0 * x 0) by (apply Rmult_lt_0_compat; exact P). pose proof (Rle_0_sqr (y 0)); unfold Rsqr in *. cbv beta. field. repeat split; lra.
  - destruct (Rtotal_order (y 0) 0) as [N|[N|N]]; [|lra|].
    + apply (d_loc_imp _ (fun t => - (PI / 2) - atan (x t / y t)) _ _ (d_lt y (fun _ => 0) _ _ Dy (d_const 0) N)).
      * intros t Ht. symmetry. apply atan2_down, Ht.
      * eapply d_eq; [exact (d_minus _ _ _ _ (d_const (- (PI / 2))) (d_atan _ _ (d_div x y b a Dx Dy ltac:(lra))))|]. assert (0 < y 0 * y 0) by nra. pose proof (Rle_0_sqr (x 0)); unfold Rsqr in *. cbv beta. field. repeat split; lra.
    + apply (d_loc_imp _ (fun t => PI / 2 - atan (x t / y t)) _ _ (d_lt (fun _ => 0) y _ _ (d_const 0) Dy N)).
      * intros t Ht. symmetry. apply atan2_up, Ht.
      * eapply d_eq; [exact (d_minus _ _ _ _ (d_const (PI / 2)) (d_atan _ _ (d_div x y b a Dx Dy ltac:(lra))))|]. assert (0 < y 0 * y 0) by nra. pose proof (Rle_0_sqr (x 0)); unfold Rsqr in *. cbv beta. field. repeat split; lra.
Qed.

(** ** One operation *)
Lemma rpick_max a b c d j : (j < 4)%nat -> sel j a b c d <= sel (rpick a b c d) a b c d.
Proof.
  intros H. unfold rpick. destruct (Rltb a b) eqn:E1; [destruct (Rltb b c) eqn:E2 | destruct (Rltb a c) eqn:E2]; match goal with |- context [if Rltb ?x ?y then _ else _] => destruct (Rltb x y) eqn:E3 end; cbn [sel];
    rewrite ?Rltb_true, ?Rltb_false in *; destruct j as [|[|[|[|]]]]; cbn [sel]; try lia; lra.
Qed.
Lemma rpick_unique a b c d i : (i < 4)%nat -> (forall j, (j < 4)%nat -> j <> i -> sel j a b c d < sel i a b c d) -> rpick a b c d = i.
Proof.
  intros Hi H. destruct (Nat.eq_dec (rpick a b c d) i) as [E|E]; [exact E|]. exfalso. specialize (H _ (rpick_lt a b c d) E). pose proof (rpick_max a b c d i Hi). lra.
Qed.
Lemma locally_all4 (P : nat -> R -> Prop) : (forall j, (j < 4)%nat -> locally 0 (P j)) -> locally 0 (fun t => forall j, (j < 4)%nat -> P j t).
Proof.
  intros H. pose proof (H 0%nat ltac:(lia)) as H0. pose proof (H 1%nat ltac:(lia)) as H1. pose proof (H 2%nat ltac:(lia)) as H2. pose proof (H 3%nat ltac:(lia)) as H3.
  pose proof (filter_and _ _ H0 H1) as A. pose proof (filter_and _ _ H2 H3) as B. pose proof (filter_and _ _ A B) as C. revert C. apply filter_imp.
  intros t [[X0 X1] [X2 X3]] [|[|[|[|]]]] Hj; try assumption; lia.
Qed.
Lemma is_derive_asin x : -1 < x < 1 -> is_derive asin x (- dacos_dx x).
Proof.
  intros H. assert (D : derivable_pt_lim asin x (1 / sqrt (1 - x²))) by (rewrite <- (derive_pt_asin x H); apply derive_pt_eq_1 with (pr := derivable_pt_asin x H); reflexivity).
  apply is_derive_Reals. unfold dacos_dx. replace (- (-1 / sqrt (1 - x * x))) with (1 / sqrt (1 - x * x)) by (unfold Rdiv; ring). exact D.
Qed.
Lemma op_deriv o (e : R -> list R) tan : regular (e 0) o -> (forall a, In a (needs (e 0) o) -> is_derive (fun t => nth a (e t) 0) 0 (nth a tan 0)) ->
  is_derive (fun t => rval (e t) o) 0 (psum (parts (e 0) o) tan).
Proof.
  intros Rg N. destruct o as [r|a b|a b|a b|a b|a|a|a|a|a|lo hi a|a|a|a|a|a|a b|a b|a b c d|a b c|lo hi a|q0 q1 q2 q3 c0 c1 c2 c3|m a|a|a]; cbn [rval parts needs args regular psum fst snd] in *;
    try (pose proof (N a (or_introl eq_refl)) as Da); try (pose proof (N b (or_intror (or_introl eq_refl))) as Db).
  - apply d_const.
  - eapply d_eq; [exact (d_plus _ _ _ _ Da Db) | cbv beta; ring].
  - eapply d_eq; [exact (d_minus _ _ _ _ Da Db) | cbv beta; ring].
  - eapply d_eq; [exact (d_mult _ _ _ _ Da Db) | cbv beta; ring].
  - eapply d_eq; [exact (d_div _ _ _ _ Da Db Rg) | cbv beta; field; exact Rg].
  - eapply d_eq; [exact (d_opp _ _ Da) | cbv beta; ring].
  - eapply d_eq; [exact (d_div _ _ _ _ (d_const 1) Da Rg) | cbv beta; field; exact Rg].
  - eapply d_eq; [exact (d_mult _ _ _ _ Da Da) | cbv beta; ring].
  - eapply d_eq; [exact (d_sqrt _ _ Da Rg) | cbv beta; ring].
  - destruct (Rlt_dec 0 (nth a (e 0) 0)) as [P|P].
    + rewrite Rleb_t by lra. apply (d_loc_imp _ (fun t => sqrt (nth a (e t) 0)) _ _ (d_lt _ _ _ _ (d_const 0) Da P)); [intros t Ht; rewrite Rmax_left by lra; reflexivity|].
      eapply d_eq; [exact (d_sqrt _ _ Da P) | cbv beta; ring].
    + rewrite Rleb_f by lra. apply (d_loc_imp _ (fun t => 0) _ _ (d_lt _ _ _ _ Da (d_const 0) ltac:(lra))); [intros t Ht; rewrite Rmax_right by lra; symmetry; apply sqrt_0|].
      eapply d_eq; [apply d_const | cbv beta; ring].
  - destruct Rg as [R1 R2]. destruct (Rlt_dec (nth a (e 0) 0) lo) as [P|P].
    + rewrite Rleb_f by exact P. cbn [andb]. apply (d_loc_imp _ (fun t => match hi with None => lo | Some h => Rmin lo h end) _ _ (d_lt _ _ _ _ Da (d_const lo) P)).
      * intros t Ht. rewrite Rmax_right by lra. reflexivity.
      * eapply d_eq; [apply d_const | cbv beta; ring].
    + rewrite Rleb_t by lra. cbn [andb]. assert (P' : lo < nth a (e 0) 0) by lra. destruct hi as [h|].
      * destruct R2 as [R2 R3]. destruct (Rlt_dec (nth a (e 0) 0) h) as [Q|Q].
        -- rewrite Rleb_t by lra. apply (d_loc_imp _ (fun t => nth a (e t) 0) _ _ (filter_and _ _ (d_lt _ _ _ _ (d_const lo) Da P') (d_lt _ _ _ _ Da (d_const h) Q))).
           ++ intros t [H1 H2]. rewrite Rmax_left, Rmin_left by lra. reflexivity.
           ++ eapply d_eq; [exact Da | cbv beta; ring].
        -- rewrite Rleb_f by lra. apply (d_loc_imp _ (fun t => h) _ _ (d_lt _ _ _ _ (d_const h) Da ltac:(lra))).
           ++ intros t Ht. rewrite Rmax_left, Rmin_right by lra. reflexivity.
           ++ eapply d_eq; [apply d_const | cbv beta; ring].
      * apply (d_loc_imp _ (fun t => nth a (e t) 0) _ _ (d_lt _ _ _ _ (d_const lo) Da P')); [intros t Ht; rewrite Rmax_left by lra; reflexivity|]. eapply d_eq; [exact Da | cbv beta; ring].
  - eapply d_eq; [exact (d_comp sin _ _ _ (is_derive_sin _) Da) | cbv beta; ring].
  - eapply d_eq; [exact (d_comp cos _ _ _ (is_derive_cos _) Da) | cbv beta; ring].
  - destruct (Rlt_dec 0 (nth a (e 0) 0)) as [P|P]; unfold Rsgn.
    + rewrite (Rltb_t 0) by exact P. apply (d_loc_imp _ (fun t => nth a (e t) 0) _ _ (d_lt _ _ _ _ (d_const 0) Da P)); [intros t Ht; rewrite Rabs_pos_eq by lra; reflexivity|]. eapply d_eq; [exact Da | cbv beta; ring].
    + rewrite Rltb_f by lra. rewrite Rltb_t by lra. apply (d_loc_imp _ (fun t => - nth a (e t) 0) _ _ (d_lt _ _ _ _ Da (d_const 0) ltac:(lra))); [intros t Ht; rewrite Rabs_left by lra; reflexivity|]. eapply d_eq; [exact (d_opp _ _ Da) | cbv beta; ring].
  - destruct (Rlt_dec 0 (nth a (e 0) 0)) as [P|P]; unfold Rsgn.
    + apply (d_loc_imp _ (fun t => 1) _ _ (d_lt _ _ _ _ (d_const 0) Da P)); [intros t Ht; rewrite Rltb_t by lra; reflexivity|]. eapply d_eq; [apply d_const | cbv beta; ring].
    + apply (d_loc_imp _ (fun t => -1) _ _ (d_lt _ _ _ _ Da (d_const 0) ltac:(lra))); [intros t Ht; rewrite Rltb_f by lra; rewrite Rltb_t by lra; reflexivity|]. eapply d_eq; [apply d_const | cbv beta; ring].
  - destruct (Rlt_dec 0 (nth a (e 0) 0)) as [P|P].
    + apply (d_loc_imp _ (fun t => 0) _ _ (d_lt _ _ _ _ (d_const 0) Da P)); [|apply d_const]. intros t Ht. destruct (Reqb (nth a (e t) 0) 0) eqn:E; [apply Reqb_true in E; lra | reflexivity].
    + apply (d_loc_imp _ (fun t => 0) _ _ (d_lt _ _ _ _ Da (d_const 0) ltac:(lra))); [|apply d_const]. intros t Ht. destruct (Reqb (nth a (e t) 0) 0) eqn:E; [apply Reqb_true in E; lra | reflexivity].
  - eapply d_eq; [exact (d_atan2 _ _ _ _ Da Db Rg) | cbv beta; ring].
  - unfold max_part. destruct (Rlt_dec (nth a (e 0) 0) (nth b (e 0) 0)) as [P|P].
    + rewrite Rltb_t by exact P. rewrite (Rltb_f (nth b (e 0) 0)) by lra. destruct (Reqb _ _) eqn:E; [apply Reqb_true in E; lra|].
      apply (d_loc_imp _ (fun t => nth b (e t) 0) _ _ (d_lt _ _ _ _ Da Db P)); [intros t Ht; rewrite Rmax_right by lra; reflexivity|]. eapply d_eq; [exact Db | cbv beta; ring].
    + assert (P' : nth b (e 0) 0 < nth a (e 0) 0) by lra. rewrite (Rltb_f (nth a (e 0) 0)) by lra. rewrite (Rltb_t (nth b (e 0) 0)) by exact P'. destruct (Reqb _ _) eqn:E; [apply Reqb_true in E; lra|].
      apply (d_loc_imp _ (fun t => nth a (e t) 0) _ _ (d_lt _ _ _ _ Db Da P')); [intros t Ht; rewrite Rmax_left by lra; reflexivity|]. eapply d_eq; [exact Da | cbv beta; ring].
  - pose proof (N _ (or_intror (or_intror (or_introl eq_refl)))) as Dc. destruct (Rlt_dec (nth a (e 0) 0) (nth b (e 0) 0)) as [P|P].
    + rewrite Rltb_t in Dc |- * by exact P. cbn [psum fst snd]. apply (d_loc_imp _ (fun t => nth c (e t) 0) _ _ (d_lt _ _ _ _ Da Db P)); [intros t Ht; rewrite Rltb_t by exact Ht; reflexivity|]. eapply d_eq; [exact Dc | cbv beta; ring].
    + rewrite Rltb_f in Dc |- * by lra. cbn [psum fst snd]. apply (d_loc_imp _ (fun t => nth d (e t) 0) _ _ (d_lt _ _ _ _ Db Da ltac:(lra))); [intros t Ht; rewrite Rltb_f by lra; reflexivity|]. eapply d_eq; [exact Dc | cbv beta; ring].
  - pose proof (N c (or_intror (or_intror (or_introl eq_refl)))) as Dc. set (s := nth a (e 0) 0 * nth a (e 0) 0 + nth b (e 0) 0 * nth b (e 0) 0 + nth c (e 0) 0 * nth c (e 0) 0) in *.
    assert (P : 0 < s) by (pose proof (sq3_nonneg (nth a (e 0) 0) (nth b (e 0) 0) (nth c (e 0) 0)); unfold s in *; lra). pose proof (sqrt_lt_R0 s P) as Q.
    eapply d_eq; [exact (d_sqrt _ _ (d_plus _ _ _ _ (d_plus _ _ _ _ (d_mult _ _ _ _ Da Da) (d_mult _ _ _ _ Db Db)) (d_mult _ _ _ _ Dc Dc)) P)|]. cbv beta. fold s.
    unfold norm_part. destruct (Reqb (sqrt s) 0) eqn:E; [apply Reqb_true in E; lra|]. cbv beta. field. lra.
  - destruct Rg as (R1 & R2 & R3). eapply d_eq; [exact (d_comp (acos_extrap lo hi) (fun t => nth a (e t) 0) _ _ (ext_derive lo hi R1 R3 ltac:(lra) (nth a (e 0) 0)) Da)|]. rewrite Rplus_0_r. f_equal.
    destruct (Rleb (nth a (e 0) 0) lo) eqn:E1; [apply Rleb_true in E1; rewrite clampb_low by lra; reflexivity|]. apply Rleb_false in E1.
    destruct (Rleb hi (nth a (e 0) 0)) eqn:E2; [apply Rleb_true in E2; rewrite clampb_high by lra; reflexivity|]. apply Rleb_false in E2. rewrite clampb_mid by lra. reflexivity.
  - set (i := rpick (nth q0 (e 0) 0) (nth q1 (e 0) 0) (nth q2 (e 0) 0) (nth q3 (e 0) 0)) in *.
    pose proof (rpick_lt (nth q0 (e 0) 0) (nth q1 (e 0) 0) (nth q2 (e 0) 0) (nth q3 (e 0) 0)) as Li. fold i in Li.
    pose proof (N _ (or_intror (or_intror (or_intror (or_intror (or_introl eq_refl)))))) as Dc.
    assert (Dq : forall j, (j < 4)%nat -> exists l, is_derive (fun t => sel j (nth q0 (e t) 0) (nth q1 (e t) 0) (nth q2 (e t) 0) (nth q3 (e t) 0)) 0 l).
    { intros [|[|[|[|]]]] Hj; cbn [sel]; try lia; eexists; apply N; cbn [In]; tauto. }
    assert (Loc : locally 0 (fun t => forall j, (j < 4)%nat -> j <> i -> sel j (nth q0 (e t) 0) (nth q1 (e t) 0) (nth q2 (e t) 0) (nth q3 (e t) 0) < sel i (nth q0 (e t) 0) (nth q1 (e t) 0) (nth q2 (e t) 0) (nth q3 (e t) 0))).
    { apply locally_all4. intros j Hj. destruct (Nat.eq_dec j i) as [->|Ne]; [apply filter_forall; intros t X; contradiction|].
      destruct (Dq j Hj) as [l1 D1]. destruct (Dq i Li) as [l2 D2]. eapply filter_imp; [|exact (d_lt _ _ _ _ D1 D2 (Rg j Hj Ne))]. intros t Ht _. exact Ht. }
    apply (d_loc_imp _ (fun t => nth (sel i c0 c1 c2 c3) (e t) 0) _ _ Loc).
    + intros t Ht. rewrite (rpick_unique _ _ _ _ i Li Ht). reflexivity.
    + eapply d_eq; [exact Dc|]. clearbody i. destruct i as [|[|[|[|]]]]; cbn [sel Nat.eqb]; try ring; lia.
  - destruct m; [eapply d_eq; [apply d_const | cbv beta; ring] | eapply d_eq; [exact Da | cbv beta; ring]].
  - eapply d_eq; [exact (d_comp asin (fun t => nth a (e t) 0) _ _ (is_derive_asin _ Rg) Da) | cbv beta; ring].
  - eapply d_eq; [exact (d_comp acos (fun t => nth a (e t) 0) _ _ (is_derive_acos _ Rg) Da) | cbv beta; ring].
Qed.

(** ** Whole tapes *)
(** nodes that the outputs depend on are differentiable, and so are their arguments *)
Fixpoint smooth (live : nat -> bool) (ops : list op) (env : list R) : Prop :=
  match ops with
  | [] => True
  | o :: r => (live (length env) = true -> regular env o /\ forallb live (needs env o) = true) /\ smooth live r (env ++ [rval env o])
  end.
Lemma needs_args env o a : In a (needs env o) -> In a (args o).
Proof.
  destruct o as [r|a1 b|a1 b|a1 b|a1 b|a1|a1|a1|a1|a1|lo hi a1|a1|a1|a1|a1|a1|a1 b|a1 b|a1 b c d|a1 b c|lo hi a1|q0 q1 q2 q3 c0 c1 c2 c3|m a1|a1|a1]; cbn [needs]; try (intros H; exact H).
  - cbn [In args]. destruct (Rltb _ _); tauto.
  - intros [<-|[<-|[<-|[<-|[<-|[]]]]]]; [cbn; tauto | cbn; tauto | cbn; tauto | cbn; tauto | apply pick_in].
Qed.
Lemma nth_snoc (l : list R) x a : nth a (l ++ [x]) 0 = if Nat.eqb a (length l) then x else nth a l 0.
Proof.
  destruct (Nat.eqb_spec a (length l)) as [->|N]; [rewrite app_nth2, Nat.sub_diag by lia; reflexivity|].
  destruct (Nat.lt_ge_cases a (length l)); [apply app_nth1; assumption|]. rewrite !nth_overflow; [reflexivity | lia | rewrite app_length; cbn; lia].
Qed.
Lemma tan_deriv live ops (e : R -> list R) tan n : (forall t, length (e t) = n) -> length tan = n -> wf_ops n ops = true -> smooth live ops (e 0) ->
  (forall a, live a = true -> is_derive (fun t => nth a (e t) 0) 0 (nth a tan 0)) ->
  forall a, live a = true -> is_derive (fun t => nth a (rrun ops (e t)) 0) 0 (nth a (trun ops (e 0) tan) 0).
Proof.
  revert e tan n. induction ops as [|o r IH]; intros e tan n Le Lt W Sm D; cbn [rrun trun]; [exact D|]. destruct (wf_in _ _ _ W) as [W1 W2]. destruct Sm as [S1 S2].
  assert (Le' : forall t, length (e t ++ [rval (e t) o]) = S n) by (intros t; rewrite app_length, Le; cbn; lia).
  apply (IH (fun t => e t ++ [rval (e t) o]) (tan ++ [psum (parts (e 0) o) tan]) (S n) Le'); [rewrite app_length, Lt; cbn; lia | exact W2 | exact S2 |].
  intros a La. rewrite nth_snoc, Lt. destruct (Nat.eqb_spec a n) as [->|N].
  - rewrite Le in S1. destruct (S1 La) as [Rg Nd]. rewrite forallb_forall in Nd.
    apply (d_loc_imp _ (fun t => rval (e t) o) _ (fun _ => True)); [apply filter_forall; trivial | intros t _; rewrite nth_snoc, Le, Nat.eqb_refl; reflexivity|].
    apply op_deriv; [exact Rg|]. intros b Hb. apply D, Nd, Hb.
  - apply (d_loc_imp _ (fun t => nth a (e t) 0) _ (fun _ => True)); [apply filter_forall; trivial | |apply D, La].
    intros t _. rewrite nth_snoc, Le. destruct (Nat.eqb_spec a n); [contradiction | reflexivity].
Qed.

(** ** Gradients *)
Definition routputs (p : prog) (x : list R) : list R := map (fun k => nth k (rrun (p_ops p) x) 0) (p_out p).

Lemma moved_len x d t : length d = length x -> length (moved x d t) = length x.
Proof. revert d. induction x as [|a x IH]; intros [|b d] H; cbn in *; try lia. rewrite IH by lia. reflexivity. Qed.
Lemma moved_0 x d : length d = length x -> moved x d 0 = x.
Proof. revert d. induction x as [|a x IH]; intros [|b d] H; cbn in *; try lia; [reflexivity|]. rewrite IH by lia. f_equal. ring. Qed.
Lemma moved_nth x d t a : length d = length x -> nth a (moved x d t) 0 = nth a x 0 + t * nth a d 0.
Proof. revert d a. induction x as [|u x IH]; intros [|b d] a H; cbn in *; try lia; [destruct a; ring|]. destruct a as [|a]; [reflexivity | apply IH; lia]. Qed.
Lemma d_moved x d a : length d = length x -> is_derive (fun t => nth a (moved x d t) 0) 0 (nth a d 0).
Proof.
  intros H. apply (d_loc_imp _ (fun t => nth a x 0 + t * nth a d 0) _ (fun _ => True)); [apply filter_forall; trivial | intros t _; symmetry; apply moved_nth, H|].
  eapply d_eq; [exact (d_plus _ _ _ _ (d_const _) (d_mult (fun t => t) _ _ _ (is_derive_id 0) (d_const (nth a d 0))))|]. cbv beta. change (0 + (1 * nth a d 0 + 0 * 0) = nth a d 0). ring.
Qed.
Lemma dotn_dotl a b : length a = length b -> dotn (length a) a b = dotl a b.
Proof.
  assert (G : forall n x y (l m : list R), dotn (S n) (x :: l) (y :: m) = x * y + dotn n l m).
  { induction n as [|n IH]; intros x y l m; [cbn; ring|]. cbn [dotn] in *. rewrite IH. cbn [nth]. ring. }
  revert b. induction a as [|x a IH]; intros [|y b] H; try discriminate H; [reflexivity|]. cbn [length]. rewrite G, IH by (cbn in H; lia). reflexivity.
Qed.
Lemma dotn_ext n a b a' b' : (forall k, (k < n)%nat -> nth k a 0 = nth k a' 0 /\ nth k b 0 = nth k b' 0) -> dotn n a b = dotn n a' b'.
Proof. induction n as [|n IH]; intros H; [reflexivity|]. cbn [dotn]. rewrite IH by (intros; apply H; lia). destruct (H n ltac:(lia)) as [-> ->]. reflexivity. Qed.
Lemma nth_firstn_lt (l : list R) n k : (k < n)%nat -> nth k (firstn n l) 0 = nth k l 0.
Proof. revert n k. induction l as [|x l IH]; intros [|n] [|k] H; cbn; try reflexivity; try lia. apply IH. lia. Qed.
Lemma rscaled_1 cs : rscaled 1 cs = cs.
Proof. unfold rscaled. rewrite <- (map_id cs) at 2. apply map_ext. intros [a x]. cbn. rewrite Rmult_1_l. reflexivity. Qed.
Lemma dotn_zero n k t : dotn n (repeat 0 k) t = 0.
Proof. induction n as [|n IH]; cbn [dotn]; [reflexivity|]. rewrite IH. replace (nth n (repeat 0 k) 0) with 0; [ring|]. clear. revert n. induction k as [|k IH]; intros [|n]; cbn; auto. Qed.
Lemma psum_combine outs cot t : psum (combine outs cot) t = dotl cot (map (fun k => nth k t 0) outs).
Proof. revert cot. induction outs as [|o outs IH]; intros [|c cot]; try reflexivity. cbn [combine psum dotl map fst snd]. rewrite IH. reflexivity. Qed.
Lemma map_zero (l : list R) : map (fun _ => Fin 0) (map Fin l) = map Fin (repeat 0 (length l)).
Proof. induction l as [|x l IH]; [reflexivity|]. cbn [map length repeat]. rewrite IH. reflexivity. Qed.
Lemma combine_fin (outs : list nat) (cot : list R) : combine outs (map Fin cot) = map (fun c => (fst c, Fin (snd c))) (combine outs cot).
Proof. revert cot. induction outs as [|o outs IH]; intros [|c cot]; try reflexivity. cbn [combine map fst snd]. rewrite IH. reflexivity. Qed.

(** the gradient as a real number, where nothing overflows *)
Definition rgradient (p : prog) (x cot : list R) : list R :=
  let env := rrun (p_ops p) x in firstn (p_in p) (rback (p_in p) (p_ops p) env (racc (repeat 0 (length env)) (combine (p_out p) cot))).
Definition wf_prog (p : prog) : bool := wf_ops (p_in p) (p_ops p) && forallb (fun k => Nat.ltb k (p_in p + length (p_ops p))) (p_out p).
Lemma outputs_fin p x : wf_prog p = true -> length x = p_in p -> along tame (p_ops p) x -> outputs p (map Fin x) = map Fin (routputs p x).
Proof.
  intros W L T. apply andb_true_iff in W as [W Wo]. rewrite <- L in W. unfold outputs, routputs. rewrite (frun_fin _ _ W T), map_map.
  apply map_ext_in. intros k Hk. rewrite forallb_forall in Wo. specialize (Wo k Hk). apply Nat.ltb_lt in Wo. apply nth_fin. rewrite rrun_len. lia.
Qed.
Lemma gradient_fin old p x cot : wf_prog p = true -> length x = p_in p -> along tame (p_ops p) x -> gradient old p (map Fin x) (map Fin cot) = map Fin (rgradient p x cot).
Proof.
  intros W L T. apply andb_true_iff in W as [W Wo]. rewrite <- L in W. unfold gradient, rgradient. rewrite (frun_fin _ _ W T), map_zero, combine_fin, acc_fin, <- L.
  rewrite fback_fin; [apply firstn_map | exact W | exact T |]. rewrite racc_len, repeat_length, rrun_len. reflexivity.
Qed.
Lemma rgradient_is live p x cot : wf_prog p = true -> length x = p_in p -> smooth live (p_ops p) x ->
  forallb live (p_out p) = true -> is_gradient (routputs p) x cot (rgradient p x cot).
Proof.
  intros W L Sm Lo. apply andb_true_iff in W as [W Wo]. rewrite <- L in W.
  assert (Lb : forall c : list R, length c = (length x + length (p_ops p))%nat -> length (firstn (p_in p) c) = length x) by (intros c Hc; rewrite firstn_length, Hc; lia).
  split; [unfold rgradient; apply Lb; rewrite rback_len, racc_len, repeat_length; apply rrun_len|].
  intros d Ld.
  set (cot0 := racc (repeat 0 (length (rrun (p_ops p) x))) (combine (p_out p) cot)).
  assert (L0 : length cot0 = (length x + length (p_ops p))%nat) by (unfold cot0; rewrite racc_len, repeat_length; apply rrun_len).
  assert (E : dotl (rgradient p x cot) d = dotl cot (map (fun k => nth k (trun (p_ops p) x d) 0) (p_out p))).
  { assert (Lg : length (rgradient p x cot) = length x) by (unfold rgradient; apply Lb; rewrite rback_len; exact L0).
    rewrite <- (dotn_dotl (rgradient p x cot) d) by (rewrite Lg, Ld; reflexivity). rewrite Lg.
    rewrite (dotn_ext (length x) _ d (rback (length x) (p_ops p) (rrun (p_ops p) x) cot0) (trun (p_ops p) x d)).
    - rewrite <- (adjoint _ _ _ _ W Ld L0). unfold cot0. rewrite <- (rscaled_1 (combine (p_out p) cot)). rewrite dotn_acc.
      + rewrite dotn_zero, psum_combine. ring.
      + intros a c Hac. apply in_combine_l in Hac. rewrite forallb_forall in Wo. specialize (Wo a Hac). apply Nat.ltb_lt in Wo. lia.
      + rewrite repeat_length, rrun_len. lia.
    - intros k Hk. split; [unfold rgradient; rewrite nth_firstn_lt by lia; rewrite <- L; reflexivity | symmetry; apply trun_nth; lia]. }
  rewrite E.
  assert (D : forall a, live a = true -> is_derive (fun t => nth a (rrun (p_ops p) (moved x d t)) 0) 0 (nth a (trun (p_ops p) x d) 0)).
  { pose proof (tan_deriv live (p_ops p) (moved x d) d (length x)) as X. rewrite (moved_0 x d Ld) in X. apply X; [intros t; apply moved_len, Ld | exact Ld | exact W | exact Sm |].
    intros a _. apply d_moved, Ld. }
  unfold routputs. clear E Wo L0 cot0. revert cot. generalize (p_out p) Lo. intros outs. induction outs as [|o outs IH]; intros Lo' cot; [destruct cot; cbn [map dotl]; apply d_const|].
  cbn [forallb] in Lo'. apply andb_true_iff in Lo' as [O1 O2]. destruct cot as [|c cot]; [cbn [map dotl]; apply d_const|]. cbn [map dotl].
  eapply d_eq; [exact (d_plus _ _ _ _ (d_mult _ _ _ _ (d_const c) (D o O1)) (IH O2 cot))|]. cbv beta. ring.
Qed.
