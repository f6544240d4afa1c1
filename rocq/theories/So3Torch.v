(** The tensor programs of [So3TorchModel], row by row. *)
From Coq Require Import Reals Lra Bool Arith Lia List.
From Verif Require Import Prelude ExtF Lin Trig RotModel MathModel TorchModel RotTorchModel SpecTorch SpecT3dTorch TorchProofs RotTorch FkTorchModel FkTorch IkTorchModel IkTorch T3dTorchModel T3dTorch So3TorchModel.
Import ListNotations.
Local Open Scope nat_scope.

Lemma entry_ok r c s i j : valid (3 :: 3 :: s) i -> entry r c i = Some j -> valid (cell_shape (3 :: 3 :: s)) j.
Proof.
  intros V E. inversion V as [|x n0 l s0 Hx V0 E0]; subst. inversion V0 as [|y n1 l1 s1 Hy V1 E1]; subst. unfold entry in E. destruct ((x =? c) && (y =? r)); [|discriminate]. injection E as <-. exact V1.
Qed.
Lemma hat_rows (v : tensor R) N : shape v = [3; N] -> is_t (hat_t v) [3; 3; N] (fun i => nth (3 * nth 1 i 0 + nth 0 i 0)
  (let x := at_ v [0; nth 2 i 0] in let y := at_ v [1; nth 2 i 0] in let z := at_ v [2; nth 2 i 0] in [0; - z; y; z; 0; - x; - y; x; 0]%R) 0%R).
Proof.
  intros S. unfold hat_t. rewrite S. cbv zeta.
  assert (X : forall k, k < 3 -> is_t (sel k (Ok v)) [N] (fun i => at_ v (k :: i))) by (intros k L; exact (t_sel _ 3 k [N] _ (is_in v _ S) L)).
  pose proof (t_put_same (entry 0 1) cell_shape _ _ [3; 3; N] _ _ (t_full [3; 3; N] 0%R) (t_op1 Ropp _ _ _ (X 2 ltac:(lia))) (entry_ok 0 1 [N])) as P1.
  pose proof (t_put_same (entry 0 2) cell_shape _ _ [3; 3; N] _ _ P1 (X 1 ltac:(lia)) (entry_ok 0 2 [N])) as P2.
  pose proof (t_put_same (entry 1 0) cell_shape _ _ [3; 3; N] _ _ P2 (X 2 ltac:(lia)) (entry_ok 1 0 [N])) as P3.
  pose proof (t_put_same (entry 1 2) cell_shape _ _ [3; 3; N] _ _ P3 (t_op1 Ropp _ _ _ (X 0 ltac:(lia))) (entry_ok 1 2 [N])) as P4.
  pose proof (t_put_same (entry 2 0) cell_shape _ _ [3; 3; N] _ _ P4 (t_op1 Ropp _ _ _ (X 1 ltac:(lia))) (entry_ok 2 0 [N])) as P5.
  pose proof (t_put_same (entry 2 1) cell_shape _ _ [3; 3; N] _ _ P5 (X 0 ltac:(lia)) (entry_ok 2 1 [N])) as P6.
  eapply t_ext; [exact P6|]. intros i V. apply valid3_inv in V as (c & r & b & -> & Lc & Lr & Lb).
  destruct c as [|[|[|c]]]; [| | | lia]; (destruct r as [|[|[|r]]]; [| | | lia]); reflexivity.
Qed.
Lemma wide_mul e1 e2 n m N f g (op : R -> R -> R) : is_t e1 [N] f -> is_t e2 [n; m; N] g -> is_t (op2 op (wide e1) e2) [n; m; N] (fun i => op (f [nth 2 i 0]) (g i)).
Proof.
  intros H1 H2. eapply t_ext; [eapply t_op2; [exact (t_unsq _ _ _ (t_unsq _ _ _ H1)) | exact H2 | apply tg_one_l, tg_one_l, tog_refl]|].
  intros i V. cbv beta. rewrite (bidx_id _ _ V). apply valid3_inv in V as (c & r & b & -> & Lc & Lr & Lb). cbn [bidx Nat.eqb tl nth]. destruct (Nat.eqb_spec N 1); [replace b with 0 by lia|]; reflexivity.
Qed.
Lemma exp_rows (v : tensor R) N eps : shape v = [3; N] -> exists t, so3_exp_map_t v eps = Ok t /\ shape t = [3; 3; N] /\ forall r, r < N -> m3_at t [r] = so3_exp_map eps (v_at v [r]).
Proof.
  intros S. unfold so3_exp_map_t. rewrite S. cbv zeta.
  pose proof (t_op1 sqrt _ _ _ (t_op1 (fun x => Rmax x eps) _ _ _ (t_sum _ 3 [N] _ (t_op2_same Rmult _ _ _ _ _ (is_in v _ S) (is_in v _ S))))) as A. set (ang := op1 sqrt _) in *.
  pose proof (t_op2_num_l Rdiv 1 _ _ _ A) as I. set (inv := op2 Rdiv (num 1) ang) in *.
  pose proof (t_op2_same Rmult _ _ _ _ _ I (t_op1 sin _ _ _ A)) as F1. pose proof (t_op2_same Rmult _ _ _ _ _ (t_op2_same Rmult _ _ _ _ _ I I) (t_op2_num_l Rminus 1 _ _ _ (t_op1 cos _ _ _ A))) as F2.
  pose proof (hat_rows v N S) as K. pose proof (t_bmm _ _ _ _ _ _ _ _ K K) as K2.
  pose proof (t_op2_same Rplus _ _ _ _ _ (wide_mul _ _ _ _ _ _ _ Rmult F1 K) (wide_mul _ _ _ _ _ _ _ Rmult F2 K2)) as P.
  assert (TG : together [3; 3; N] [3; 3; 1] [3; 3; N]) by (apply tg_same, tg_same, tg_one_r, tog_refl).
  destruct (t_op2 Rplus _ _ _ _ _ _ _ P (is_in (mkT [3; 3; 1] (fun i => if nth 0 i 0 =? nth 1 i 0 then 1%R else 0%R)) _ eq_refl) TG) as (t & E & St & Ht). exists t. split; [exact E|]. split; [exact St|].
  intros r L. assert (N2 : vnorm2 (v_at v [r]) = TorchModel.rsum 3 (fun k => Rmult (at_ v [k; r]) (at_ v [k; r]))) by (rewrite rsum3; reflexivity).
  unfold so3_exp_map. rewrite N2. cbv zeta. set (a := sqrt (Rmax _ eps)).
  unfold m3_at, m3add, m3scale, m3mul, I3, hat, v_at. cbn [m00 m01 m02 m10 m11 m12 m20 m21 m22 vx vy vz].
  apply mkM3_eq; (rewrite Ht by (apply valid3; [lia | lia | exact L])); rewrite bidx_id by (apply valid3; [lia | lia | exact L]); cbn [shape bidx hd tl Nat.eqb at_ nth Nat.mul Nat.add]; fold a; rewrite rsum3; cbn [nth Nat.mul Nat.add]; ring.
Qed.
(** angles *)
Definition rows3 (m : tensor R) (N : nat) : list M3 := map (fun r => m3_at m [r]) (seq 0 N).
Lemma existsb_map {A B} (f : B -> bool) (g : A -> B) l : existsb f (map g l) = existsb (fun x => f (g x)) l. Proof. induction l as [|x l IH]; [reflexivity|]. cbn [map existsb]. rewrite IH. reflexivity. Qed.
Lemma existsb_ext_in {A} (f g : A -> bool) l : (forall x, In x l -> f x = g x) -> existsb f l = existsb g l.
Proof. induction l as [|x l IH]; intros H; [reflexivity|]. cbn [existsb]. rewrite (H x (or_introl eq_refl)), IH; [reflexivity|]. intros y I. apply H. right. exact I. Qed.
Definition agree1 (e : ten R) (N : nat) (l : res (list F)) : Prop := match l with Ok vs => exists f, is_t e [N] f /\ map (fun r => Fin (f [r])) (seq 0 N) = vs | Err x => e = Err x end.
Lemma angle_rows (m : tensor R) N eps cb : shape m = [3; 3; N] -> (0 < cb)%R -> agree1 (so3_rotation_angle_t m eps cb) N (so3_rotation_angle (rows3 m N) eps false cb).
Proof.
  intros S Hc. unfold so3_rotation_angle_t. rewrite S. cbv zeta.
  assert (D : forall k, k < 3 -> is_t (sel k (sel2 k (Ok m))) [N] (fun l => at_ m (k :: k :: l))) by (intros k L; exact (t_sel _ 3 k [N] _ (t_sel2 _ 3 3 k [N] _ (is_in m _ S) L) L)).
  pose proof (t_op2_same Rplus _ _ _ _ _ (t_op2_same Rplus _ _ _ _ _ (D 0 ltac:(lia)) (D 1 ltac:(lia))) (D 2 ltac:(lia))) as T. set (tr := op2 Rplus _ _) in *.
  destruct (t_op1 (fun t => Rltb t (-1 - eps) || Rltb (3 + eps) t) _ _ _ T) as (bad & Eb & Sb & Hb). rewrite Eb. cbn [rbind].
  unfold so3_rotation_angle, rows3. rewrite !map_map, existsb_map.
  assert (EX : any_of bad = existsb (fun r => Rltb (trace3 (m3_at m [r])) (-1 - eps) || Rltb (3 + eps) (trace3 (m3_at m [r]))) (seq 0 N)).
  { unfold any_of. rewrite Sb. cbn [hd]. apply existsb_ext_in. intros r I. apply in_seq in I. rewrite Hb by (constructor; [lia | constructor]). reflexivity. }
  rewrite EX. destruct (existsb _ (seq 0 N)); [reflexivity|]. replace (Rltb 0 cb) with true by (symmetry; apply Rltb_true; exact Hc).
  unfold acos_linear_extrapolation_t, acos_linear_extrapolation. cbv zeta. destruct (Rltb (1 - cb) (- (1 - cb))); [reflexivity|]. destruct (Rleb (- (1 - cb)) (-1) || Rleb 1 (1 - cb)); [reflexivity|]. cbn [rbind agree1].
  eexists. split; [exact (t_op1 _ _ _ _ (t_op2_num_r Rmult (/ 2) _ _ _ (t_op2_num_r Rminus 1 _ _ _ T)))|]. rewrite !map_map. apply map_ext. intros r. cbv beta. f_equal. unfold acos_extrap.
  change (Rplus (Rplus (at_ m [0; 0; r]) (at_ m [1; 1; r])) (at_ m [2; 2; r])) with (trace3 (m3_at m [r])). set (x := ((trace3 (m3_at m [r]) - 1) * / 2)%R).
  destruct (Rleb x (- (1 - cb))); [reflexivity|]. destruct (Rleb (1 - cb) x); reflexivity.
Qed.
(** the skew-symmetry check *)
Lemma max_fold t l : forall x, Rltb t (fold_left Rmax l x) = existsb (Rltb t) (x :: l).
Proof.
  induction l as [|y l IH]; intros x; [cbn [fold_left existsb]; rewrite orb_false_r; reflexivity|]. cbn [fold_left]. rewrite IH. cbn [existsb]. rewrite orb_assoc. f_equal.
  destruct (Rltb t x) eqn:A; [|destruct (Rltb t y) eqn:B].
  - apply Rltb_true in A. apply Rltb_true. apply (Rlt_le_trans _ x); [exact A | apply Rmax_l].
  - apply Rltb_true in B. apply Rltb_true. apply (Rlt_le_trans _ y); [exact B | apply Rmax_r].
  - apply Rltb_false in A. apply Rltb_false in B. apply Rltb_false. apply Rmax_lub; assumption.
Qed.
Lemma ltb_max t a b : Rltb t (Rmax a b) = Rltb t a || Rltb t b.
Proof. pose proof (max_fold t [b] a) as H. cbn [fold_left existsb] in H. rewrite orb_false_r in H. exact H. Qed.
Lemma existsb_flat {A B} (f : B -> bool) (g : A -> list B) l : existsb f (flat_map g l) = existsb (fun x => existsb f (g x)) l.
Proof. induction l as [|x l IH]; [reflexivity|]. cbn [flat_map existsb]. rewrite existsb_app, IH. reflexivity. Qed.
Definition agree3 (e : ten R) (N : nat) (l : res (list V3)) : Prop := match l with Ok vs => exists t, e = Ok t /\ shape t = [3; N] /\ map (fun r => v_at t [r]) (seq 0 N) = vs | Err x => e = Err x end.
Lemma hat_inv_rows (h : tensor R) N : shape h = [3; 3; N] -> agree3 (hat_inv_t h) N (hat_inv (rows3 h N)).
Proof.
  intros S. unfold hat_inv_t. rewrite S. destruct (t_op1 Rabs _ _ _ (t_op2_same Rplus _ _ _ _ _ (is_in h _ S) (t_tr2 _ _ _ _ _ (is_in h _ S)))) as (s & Es & Ss & Hs). rewrite Es. cbn [rbind].
  unfold max_all, entries. rewrite Ss. destruct N as [|N]; [reflexivity|].
  set (l := flat_map _ (seq 0 (Datatypes.S N))). assert (C : exists x k, l = x :: k) by (unfold l; cbn [seq flat_map map app]; do 2 eexists; reflexivity). destruct C as (x & k & El). rewrite El. cbn [rbind]. rewrite max_fold, <- El. unfold l. rewrite existsb_flat.
  unfold hat_inv. change (rows3 h (Datatypes.S N)) with (m3_at h [0] :: map (fun r => m3_at h [r]) (seq 1 N)). cbv beta iota. change (m3_at h [0] :: map (fun r => m3_at h [r]) (seq 1 N)) with (rows3 h (Datatypes.S N)).
  assert (EX : existsb (fun r => existsb (Rltb hat_tol) (flat_map (fun p => map (fun c => at_ s [c; p; r]) (seq 0 3)) (seq 0 3))) (seq 0 (Datatypes.S N)) = existsb (fun A => Rltb hat_tol (m3maxabs (m3add A (m3tr A)))) (rows3 h (Datatypes.S N))).
  { unfold rows3. rewrite existsb_map. apply existsb_ext_in. intros r I. apply in_seq in I. unfold m3maxabs. rewrite !ltb_max. cbn [seq flat_map map app existsb].
    rewrite !Hs by (apply valid3; lia). cbn [hd tl]. unfold m3add, m3tr, m3_at. cbn [m00 m01 m02 m10 m11 m12 m20 m21 m22]. rewrite !orb_false_r. reflexivity. }
  rewrite EX. destruct (existsb _ (rows3 h _)); [reflexivity|]. cbn [agree3].
  assert (Q : forall i j, i < 3 -> j < 3 -> is_t (sel j (sel2 i (Ok h))) [Datatypes.S N] (fun l => at_ h (j :: i :: l))) by (intros i j Li Lj; exact (t_sel _ 3 j [Datatypes.S N] _ (t_sel2 _ 3 3 i [Datatypes.S N] _ (is_in h _ S) Li) Lj)).
  destruct (t_stack [sel 1 (sel2 2 (Ok h)); sel 2 (sel2 0 (Ok h)); sel 0 (sel2 1 (Ok h))] [Datatypes.S N] (fun l => at_ h (1 :: 2 :: l)) [fun l => at_ h (2 :: 0 :: l); fun l => at_ h (0 :: 1 :: l)]
    ltac:(repeat (apply Forall2_cons; [apply Q; lia|]); apply Forall2_nil)) as (t & E & St & Ht). cbn [length] in St, Ht.
  exists t. split; [exact E|]. split; [exact St|]. unfold rows3. rewrite map_map. apply map_ext_in. intros r I. apply in_seq in I. unfold v_at, m3_at. cbn [m21 m02 m10].
  apply eqV; (rewrite Ht by (constructor; [lia|]; constructor; [lia | constructor])); reflexivity.
Qed.
Lemma log_rows_t (m : tensor R) N eps : shape m = [3; 3; N] -> agree3 (so3_log_map_t m eps) N (so3_log_map (rows3 m N) eps).
Proof.
  intros S. assert (H4 : (0 < eps4)%R) by (unfold eps4; lra). pose proof (angle_rows m N eps4 eps4 S H4) as A. unfold so3_log_map_t, so3_log_map. rewrite S. cbv zeta.
  destruct (so3_rotation_angle (rows3 m N) eps4 false eps4) as [ph|x]; cbn [agree1 rbind] in *; [|rewrite A; reflexivity]. destruct A as (f & T & <-).
  pose proof (t_op1 sin _ _ _ T) as Sn.
  pose proof (t_op2_same Rplus _ _ _ _ _ (t_op2_same Rmult _ _ _ _ _ (t_op1 (fun s => Rmax (Rabs s) eps) _ _ _ Sn) (t_op1 Rsgn _ _ _ Sn)) (t_op1 (fun s => Rmult (if Reqb s 0 then 1%R else 0%R) eps) _ _ _ Sn)) as Dn.
  destruct (wide_mul _ _ 3 3 N _ _ Rmult (t_op2_same Rdiv _ _ _ _ _ T (t_op2_num_l Rmult 2 _ _ _ Dn)) (t_op2_same Rminus _ _ _ _ _ (is_in m _ S) (t_tr2 _ _ _ _ _ (is_in m _ S)))) as (h & E & Sh & Hh). rewrite E. cbn [rbind].
  replace (zip_with _ _ _) with (rows3 h N); [exact (hat_inv_rows h N Sh)|].
  assert (Z : forall n k, n + k <= N -> map (fun r => m3_at h [r]) (seq n k) = zip_with (fun p B => log_hat eps (match p with Fin r => r | _ => 0%R end) B) (map (fun r => Fin (f [r])) (seq n k)) (map (fun r => m3_at m [r]) (seq n k))).
  { intros n k. revert n. induction k as [|k IH]; intros n L; [reflexivity|]. cbn [seq map zip_with]. rewrite <- IH by lia. f_equal. unfold log_hat. cbv zeta. unfold m3scale, m3add, m3opp, m3tr, m3_at. cbn [m00 m01 m02 m10 m11 m12 m20 m21 m22].
    apply mkM3_eq; (rewrite Hh by (apply valid3; lia)); reflexivity. }
  exact (Z 0 N ltac:(lia)).
Qed.
Lemma relative_rows (A B : tensor R) N : shape A = [3; 3; N] -> shape B = [3; 3; N] -> agree1 (so3_relative_angle_t A B) N (so3_relative_angle (rows3 A N) (rows3 B N) false).
Proof.
  intros SA SB. unfold so3_relative_angle_t, so3_relative_angle. destruct (t_bmm _ _ _ _ _ _ _ _ (is_in A _ SA) (t_tr2 _ _ _ _ _ (is_in B _ SB))) as (C & EC & SC & HC). rewrite EC. cbn [rbind].
  assert (LR : forall m, length (rows3 m N) = N) by (intros m; unfold rows3; rewrite map_length, seq_length; reflexivity). rewrite !LR, Nat.eqb_refl.
  replace (zip_with _ _ _) with (rows3 C N); [apply angle_rows; [exact SC | unfold eps4; lra]|].
  assert (Z : forall n k, n + k <= N -> map (fun r => m3_at C [r]) (seq n k) = zip_with (fun X Y => m3mul X (m3tr Y)) (map (fun r => m3_at A [r]) (seq n k)) (map (fun r => m3_at B [r]) (seq n k))).
  { intros n k. revert n. induction k as [|k IH]; intros n L; [reflexivity|]. cbn [seq map zip_with]. rewrite <- IH by lia. f_equal. unfold m3mul, m3tr, m3_at. cbn [m00 m01 m02 m10 m11 m12 m20 m21 m22].
    apply mkM3_eq; (rewrite HC by (apply valid3; lia)); cbn [nth]; rewrite rsum3; reflexivity. }
  exact (Z 0 N ltac:(lia)).
Qed.
