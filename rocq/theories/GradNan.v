(** Where the backward pass leaves NaN in the inputs. *)
From Coq Require Import Reals Lra Bool Arith Lia List.
From Coquelicot Require Import Coquelicot.
From Verif Require Import Prelude ExtF Trig Lin RotModel MathModel AcosProofs GradModel SpecGrad GradProofs GradDeriv GradTapes GradQuat.
Import ListNotations.
Local Open Scope R_scope.

(** ** Forward passes that stay finite *)
Definition tamef (env : list R) (o : op) : Prop :=
  let v k := nth k env 0 in match o with ODiv a b => v b <> 0 | ORecip a => v a <> 0 | OSqrt a => 0 <= v a | OAsin a | OArccos a => -1 <= v a <= 1 | _ => True end.
Lemma fval_fin' env o : (forall a, In a (args o) -> (a < length env)%nat) -> tamef env o -> fval (map Fin env) o = Fin (rval env o).
Proof.
  intros W T. destruct o as [r|a b|a b|a b|a b|a|a|a|a|a|lo hi a|a|a|a|a|a|a b|a b|a b c d|a b c|lo hi a|q0 q1 q2 q3 c0 c1 c2 c3|m a|a|a];
    try solve [apply fval_fin; [exact W | first [exact I | exact T]]]; cbn [fval rval tamef args] in *; fins.
  - apply gsqrt_fin, T.
  - rewrite fmax_fin. apply gsqrt_fin, Rmax_r.
  - reflexivity.
  - reflexivity.
  - apply tasin_fin, T.
  - apply tacos_fin, T.
Qed.
Lemma tamef_agree l e o : agrees l e o -> tamef e o -> tamef l o.
Proof.
  intros A. destruct o as [r|a b|a b|a b|a b|a|a|a|a|a|lo hi a|a|a|a|a|a|a b|a b|a b c d|a b c|lo hi a|q0 q1 q2 q3 c0 c1 c2 c3|m a|a|a]; cbn [tamef];
    try (rewrite (A a) by (cbn; tauto)); try (rewrite (A b) by (cbn; tauto)); trivial.
Qed.
Lemma frun_fin' ops env : wf_ops (length env) ops = true -> along tamef ops env -> frun ops (map Fin env) = map Fin (rrun ops env).
Proof.
  revert env. induction ops as [|o r IH]; intros env W T; cbn [frun rrun]; [reflexivity|]. destruct (wf_in _ _ _ W) as [W1 W2]. destruct T as [T1 T2].
  rewrite (fval_fin' env o W1 T1). change [Fin (rval env o)] with (map Fin [rval env o]). rewrite <- map_app. apply IH; [rewrite app_length, Nat.add_1_r; exact W2 | exact T2].
Qed.
Lemma along_of (P : list R -> op -> Prop) ops env : (forall l e o, agrees l e o -> P e o -> P l o) -> wf_ops (length env) ops = true ->
  alongl P ops (rrun ops env) -> along P ops env.
Proof.
  intros HP. revert env. induction ops as [|o r IH]; intros env W T; cbn [along rrun] in *; [exact I|]. destruct (wf_in _ _ _ W) as [W1 W2]. destruct T as [T1 T2]. split.
  - apply (HP _ (rrun r (env ++ [rval env o]))); [|exact T1]. intros a Ha. specialize (W1 a Ha). rewrite rrun_nth by (rewrite app_length; cbn; lia). symmetry. apply app_nth1, W1.
  - apply IH; [rewrite app_length, Nat.add_1_r; exact W2 | exact T2].
Qed.
Lemma rrun_app a b env : rrun (a ++ b) env = rrun b (rrun a env).
Proof. revert env. induction a as [|o a IH]; intros env; cbn [app rrun]; [reflexivity | apply IH]. Qed.
Lemma fback_app old k a b env cot : fback old k (a ++ b) env cot = fback old k a env (fback old (k + length a) b env cot).
Proof. revert k. induction a as [|o a IH]; intros k; cbn [app fback length]; [rewrite Nat.add_0_r; reflexivity|]. rewrite IH. replace (S k + length a)%nat with (k + S (length a))%nat by lia. reflexivity. Qed.

(** ** Nodes that receive nothing *)
Fixpoint sealed (D : nat -> bool) (k : nat) (ops : list op) (l : list R) : Prop :=
  match ops with [] => True | o :: r => (D k = false -> forall a p, In (a, p) (parts l o) -> D a = true -> p = 0) /\ sealed D (S k) r l end.
Lemma racc_at_0 k (l : list R) j : nth j (racc_at k 0 l) 0 = nth j l 0.
Proof. revert k j. induction l as [|y l IH]; intros [|k] [|j]; cbn; try reflexivity; [ring | apply IH]. Qed.
Lemma racc_at_other k x (l : list R) j : j <> k -> nth j (racc_at k x l) 0 = nth j l 0.
Proof. revert k j. induction l as [|y l IH]; intros [|k] [|j] H; cbn; try reflexivity; [contradiction | apply IH; congruence]. Qed.
Lemma racc_keep cs g c j : (forall p, In (j, p) cs -> g * p = 0) -> nth j (racc c (rscaled g cs)) 0 = nth j c 0.
Proof.
  revert c. induction cs as [|[a p] cs IH]; intros c H; [reflexivity|]. unfold racc, rscaled in *. cbn [map fold_left fst snd].
  rewrite IH by (intros p' Hp; apply H; right; exact Hp). destruct (Nat.eq_dec j a) as [->|N]; [|apply racc_at_other, N]. rewrite (H p) by (left; reflexivity). apply racc_at_0.
Qed.
Lemma rback_zero D k ops env cot : (forall p, D p = true -> nth p cot 0 = 0) -> sealed D k ops env -> forall p, D p = true -> nth p (rback k ops env cot) 0 = 0.
Proof.
  revert k. induction ops as [|o r IH]; intros k H Sl p Hp; cbn [rback]; [apply H, Hp|]. destruct Sl as [S1 S2]. specialize (IH (S k) H S2). rewrite racc_keep; [apply IH, Hp|].
  intros q Hq. destruct (D k) eqn:E; [rewrite (IH k E); ring|]. rewrite (S1 eq_refl p q Hq Hp). ring.
Qed.

(** ** NaN spreads *)
Lemma fadd_nan_l x : fadd NaN x = NaN. Proof. reflexivity. Qed.
Lemma fadd_nan_r x : fadd x NaN = NaN. Proof. destruct x; reflexivity. Qed.
Definition nan_at (j : nat) (c : list F) : Prop := nth_error c j = Some NaN.
Lemma acc_at_len k x l : length (acc_at k x l) = length l.
Proof. revert k. induction l as [|y l IH]; intros [|k]; cbn; try reflexivity. rewrite IH. reflexivity. Qed.
Lemma acc_len c cs : length (acc c cs) = length c.
Proof. revert c. induction cs as [|a cs IH]; intros c; [reflexivity|]. unfold acc in *. cbn [fold_left]. rewrite IH. apply acc_at_len. Qed.
Lemma fback_len old k ops env c : length (fback old k ops env c) = length c.
Proof. revert k. induction ops as [|o r IH]; intros k; cbn [fback]; [reflexivity|]. rewrite acc_len. apply IH. Qed.
Lemma acc_at_nan j k x l : nan_at j l -> nan_at j (acc_at k x l).
Proof. unfold nan_at. revert j k. induction l as [|y l IH]; intros [|j] [|k] H; cbn in *; try discriminate; auto. injection H as ->. reflexivity. Qed.
Lemma acc_at_put j l : (j < length l)%nat -> nan_at j (acc_at j NaN l).
Proof. unfold nan_at. revert j. induction l as [|y l IH]; intros [|j] H; cbn in *; try lia; [rewrite fadd_nan_r; reflexivity | apply IH; lia]. Qed.
Lemma acc_nan j c cs : nan_at j c -> nan_at j (acc c cs).
Proof. revert c. induction cs as [|a cs IH]; intros c H; [exact H|]. unfold acc in *. cbn [fold_left]. apply IH, acc_at_nan, H. Qed.
Lemma acc_put j c cs : (j < length c)%nat -> In (j, NaN) cs -> nan_at j (acc c cs).
Proof.
  revert c. induction cs as [|[a x] cs IH]; intros c H E; [destruct E|]. unfold acc in *; cbn [fold_left fst snd]. destruct E as [E|E].
  - injection E as -> ->. apply (acc_nan j _ cs). apply acc_at_put, H.
  - apply IH; [rewrite acc_at_len; exact H | exact E].
Qed.
Lemma fback_nan old k ops env c j : nan_at j c -> nan_at j (fback old k ops env c).
Proof. revert k. induction ops as [|o r IH]; intros k H; cbn [fback]; [exact H|]. apply acc_nan, IH, H. Qed.
Lemma nan_nth j c : nan_at j c -> nth j c NaN = NaN.
Proof. unfold nan_at. revert j. induction c as [|y c IH]; intros [|j] H; cbn in *; try discriminate; [congruence | apply IH, H]. Qed.
(** the state of the backward pass before it visits the nodes below the [m]-th *)
Section Stage.
Variables (old : bool) (n : nat) (ops : list op) (env c : list F).
Definition stage (m : nat) : list F := fback old (n + m) (skipn m ops) env c.
Lemma stage_0 : stage 0 = fback old n ops env c. Proof. unfold stage. rewrite Nat.add_0_r. reflexivity. Qed.
Lemma stage_len m : length (stage m) = length c. Proof. apply fback_len. Qed.
Lemma skipn_at m o : nth_error ops m = Some o -> skipn m ops = o :: skipn (S m) ops.
Proof. generalize ops as l. induction m as [|m IH]; intros [|x l] H; cbn in *; try discriminate; [congruence | apply IH, H]. Qed.
Lemma stage_step m o : nth_error ops m = Some o -> stage m = acc (stage (S m)) (fparts old env o (nth (n + m) env NaN) (nth (n + m) (stage (S m)) NaN)).
Proof. intros H. unfold stage at 1. rewrite (skipn_at m o H). cbn [fback]. unfold stage. rewrite <- !plus_n_Sm. reflexivity. Qed.
Lemma stage_down m j i : (i <= m)%nat -> nan_at j (stage m) -> nan_at j (stage i).
Proof.
  intros L H. induction L as [|m L IH]; [exact H|]. apply IH. destruct (nth_error ops m) as [o|] eqn:E; [rewrite (stage_step m o E); apply acc_nan, H|].
  unfold stage in *. apply nth_error_None in E. rewrite skipn_all2 in H |- * by lia. exact H.
Qed.
(** a sum or a difference passes NaN to both sides *)
Lemma stage_sum m a b : nth_error ops m = Some (OAdd a b) \/ nth_error ops m = Some (OSub a b) -> (a < length c)%nat -> (b < length c)%nat ->
  nan_at (n + m) (stage (S m)) -> nan_at a (stage m) /\ nan_at b (stage m).
Proof.
  intros Ho La Lb H. pose proof (nan_nth _ _ H) as N. destruct Ho as [Ho|Ho]; rewrite (stage_step m _ Ho), N; cbn [fparts fopp]; (split; (apply acc_put; [rewrite stage_len; assumption | cbn; tauto])).
Qed.
End Stage.

Lemma acc_at_other k x (l : list F) j : j <> k -> nth j (acc_at k x l) NaN = nth j l NaN.
Proof. revert k j. induction l as [|y l IH]; intros [|k] [|j] H; cbn; try reflexivity; try contradiction; try (apply IH; congruence). Qed.

(** ** [matrix_to_quaternion] at a zero of one of the four roots *)
Definition idle (k p : nat) : bool := existsb (Nat.eqb p) [22 + k; 26 + 5 * k; 44 + k; 48 + k; 52 + 4 * k; 53 + 4 * k; 54 + 4 * k; 55 + 4 * k]%nat.
Definition m2q_ops : list op := Eval cbv -[IZR Rplus Rmult Rinv Ropp Rminus Rdiv eps4 eps6] in p_ops tape_matrix_to_quaternion.
Lemma m2q_ops_eq : p_ops tape_matrix_to_quaternion = m2q_ops. Proof. reflexivity. Qed.
Lemma m2q_outs_eq : p_out tape_matrix_to_quaternion = [68; 69; 70; 71]%nat. Proof. vm_compute. reflexivity. Qed.
Lemma m2q_facts (a b c d e f g h i : R) k : let A := mkM3 a b c d e f g h i in let l := [a; b; c; d; e; f; g; h; i] in let full := rrun m2q_ops l in
  (k < 4)%nat -> diag4 A k = 0 ->
  along tamef m2q_ops l /\ along tame (skipn 17 m2q_ops) (rrun (firstn 17 m2q_ops) l) /\ sealed (idle k) 26 (skipn 17 m2q_ops) full /\
  nth (12 + 3 * k) full 0 = 0 /\ nth (22 + k) full 0 = 0 /\ length full = 72%nat.
Proof.
  cbv zeta. intros Hk HD. set (A := mkM3 a b c d e f g h i) in *. pose proof (best_ge_1 A) as B. pose proof (argmax_lt (q_abs A)) as Li.
  assert (Nk : k <> argmax4 (q_abs A)). { intros E. rewrite <- E, q_abs_diag, HD, Rmax_left, sqrt_0 in B by lra. lra. }
  rewrite <- m2q_ops_eq.
  assert (W : wf_ops 26 (skipn 17 m2q_ops) = true) by (vm_compute; reflexivity).
  assert (L26 : length (rrun (firstn 17 m2q_ops) [a; b; c; d; e; f; g; h; i]) = 26%nat) by (rewrite rrun_len; reflexivity).
  assert (At : alongl tame (skipn 17 m2q_ops) (rrun m2q_ops [a; b; c; d; e; f; g; h; i]) -> along tame (skipn 17 m2q_ops) (rrun (firstn 17 m2q_ops) [a; b; c; d; e; f; g; h; i])).
  { intros X. apply along_of; [exact tame_agree | rewrite L26; exact W|]. rewrite <- rrun_app, firstn_skipn. exact X. }
  assert (Af : alongl tamef m2q_ops (rrun m2q_ops [a; b; c; d; e; f; g; h; i]) -> along tamef m2q_ops [a; b; c; d; e; f; g; h; i]) by (apply along_of; [exact tamef_agree | vm_compute; reflexivity]).
  rewrite <- m2q_ops_eq in At, Af.
  open_tape tape_matrix_to_quaternion [a; b; c; d; e; f; g; h; i]. clear T Sm. rewrite Env in *. clear Env.
  assert (D0 : v2 = diag4 A 0) by (subst; reflexivity). assert (D1 : v5 = diag4 A 1) by (subst; reflexivity). assert (D2 : v8 = diag4 A 2) by (subst; reflexivity). assert (D3 : v11 = diag4 A 3) by (subst; reflexivity).
  assert (Q0 : v12 = q_abs A 0) by (rewrite q_abs_diag, <- D0; assumption). assert (Q1 : v13 = q_abs A 1) by (rewrite q_abs_diag, <- D1; assumption).
  assert (Q2 : v14 = q_abs A 2) by (rewrite q_abs_diag, <- D2; assumption). assert (Q3 : v15 = q_abs A 3) by (rewrite q_abs_diag, <- D3; assumption).
  assert (Pk : rpick v12 v13 v14 v15 = argmax4 (q_abs A)) by (rewrite Q0, Q1, Q2, Q3; apply rpick_argmax).
  assert (X : forall q x e, x = Rmax q v32 -> e = v33 * x -> e <> 0). { intros q x e0 Hx He. pose proof (Rmax_r q v32). rewrite He, Hx. assert (0 < v32) by lra. assert (v33 = 2) by assumption. nra. }
  assert (Zk : q_abs A k = 0) by (rewrite q_abs_diag, HD, Rmax_left by lra; apply sqrt_0).
  rewrite m2q_ops_eq in *. unfold m2q_ops in *. cbn [skipn] in *.
  split; [|split; [|split; [|split; [|split]]]].
  - apply Af; clear At Af. cbn [alongl tamef nth]. each; try assumption; (eapply X; [|eassumption]; eassumption).
  - apply At; clear At Af. cbn [alongl tame nth]. each; try assumption; (eapply X; [|eassumption]; eassumption).
  - clear At Af. cbn [sealed parts nth]. rewrite Pk. destruct k as [|[|[|[|]]]]; [| | | |lia];
    (repeat match goal with |- _ /\ _ => split | |- True => exact I end;
     let Hd := fresh in let u := fresh in let p := fresh in let H := fresh in let Du := fresh in intros Hd u p H Du;
     first [vm_compute in Hd; discriminate Hd | clear Hd];
     repeat (destruct H as [H|H]; [injection H as <- <-; first [vm_compute in Du; discriminate Du | match goal with |- (if Nat.eqb ?x ?y then _ else _) = 0 => destruct (Nat.eqb_spec x y); [congruence | reflexivity] end]|]); try contradiction).
  - destruct k as [|[|[|[|]]]]; [| | | |lia]; cbn [Nat.add Nat.mul nth]; congruence.
  - destruct k as [|[|[|[|]]]]; [| | | |lia]; cbn [Nat.add Nat.mul nth]; congruence.
  - reflexivity.
Qed.

Lemma nth_error_fin (l : list R) j : (j < length l)%nat -> nth j (map Fin l) NaN = Fin (nth j l 0). Proof. apply nth_fin. Qed.
Lemma nth_error_firstn_lt {A} (l : list A) n k : (k < n)%nat -> nth_error (firstn n l) k = nth_error l k.
Proof. revert n k. induction l as [|x l IH]; intros [|n] [|k] H; cbn; try reflexivity; try lia. apply IH. lia. Qed.
Lemma m2q_nan old A k cot : (k < 4)%nat -> diag4 A k = 0 -> forall j, In j [0; 4; 8]%nat ->
  nth_error (gradient old tape_matrix_to_quaternion (map Fin (m3_list A)) (map Fin cot)) j = Some NaN.
Proof.
  destruct A as [a b c d e f g h i]. intros Hk HD. destruct (m2q_facts a b c d e f g h i k Hk HD) as (Tf & Tb & Sl & Zd & Zq & Lf).
  set (l := [a; b; c; d; e; f; g; h; i]) in *. change (m3_list (mkM3 a b c d e f g h i)) with l.
  set (full := rrun m2q_ops l) in *.
  unfold gradient. rewrite m2q_outs_eq, m2q_ops_eq. change (p_in tape_matrix_to_quaternion) with 9%nat. rewrite (frun_fin' m2q_ops l) by (vm_compute; reflexivity || exact Tf). fold full.
  rewrite map_zero, combine_fin, acc_fin, Lf. set (cot0 := racc (repeat 0 72) (combine [68; 69; 70; 71]%nat cot)).
  assert (L0 : length cot0 = 72%nat) by (unfold cot0; rewrite racc_len, repeat_length; reflexivity).
  assert (Z0 : forall p, idle k p = true -> nth p cot0 0 = 0).
  { intros p Hp. unfold cot0. rewrite <- (rscaled_1 (combine _ cot)). rewrite racc_keep.
    - clear. generalize 72%nat. intros n. revert n. induction p as [|p IH]; intros [|n]; cbn; auto.
    - intros q Hq. exfalso. apply in_combine_l in Hq. assert (B : (68 <= p)%nat) by (cbn [In] in Hq; lia). unfold idle in Hp. apply existsb_exists in Hp as (u & Hu & Eu). apply Nat.eqb_eq in Eu. subst u. cbn [In] in Hu. lia. }
  assert (L26 : length (rrun (firstn 17 m2q_ops) l) = 26%nat) by (rewrite rrun_len; reflexivity).
  assert (Ef : rrun (skipn 17 m2q_ops) (rrun (firstn 17 m2q_ops) l) = full) by (unfold full; rewrite <- rrun_app, firstn_skipn; reflexivity).
  pose proof (fback_fin old (skipn 17 m2q_ops) (rrun (firstn 17 m2q_ops) l) cot0) as FB. rewrite L26, Ef in FB.
  specialize (FB ltac:(vm_compute; reflexivity) Tb ltac:(rewrite L0; reflexivity)).
  set (st := stage old 9 m2q_ops (map Fin full) (map Fin cot0)).
  assert (S17 : st 17%nat = map Fin (rback 26 (skipn 17 m2q_ops) full cot0)) by exact FB.
  pose proof (rback_zero (idle k) 26 _ full cot0 Z0 Sl) as RZ. set (r2 := rback 26 (skipn 17 m2q_ops) full cot0) in *.
  assert (Lr : length r2 = 72%nat) by (unfold r2; rewrite rback_len; exact L0).
  (* the root's node receives zero *)
  assert (R0 : nth (22 + k) (st 17%nat) NaN = Fin 0).
  { rewrite S17, nth_fin by (rewrite Lr; lia). f_equal. apply RZ. unfold idle. apply existsb_exists. exists (22 + k)%nat. split; [left; reflexivity | apply Nat.eqb_refl]. }
  assert (Op : forall m, (m < 4)%nat -> nth_error m2q_ops (13 + m) = Some (OSqrtPos (12 + 3 * m))).
  { intros [|[|[|[|]]]] Hm; try reflexivity. lia. }
  assert (Keep : forall m, (m <= 4)%nat -> nth (22 + k) (st (13 + m)%nat) NaN = Fin 0 ).
  { intros m Hm. assert (G : exists q, (m + q = 4)%nat) by (exists (4 - m)%nat; lia). destruct G as [q Hq]. revert m Hm Hq. induction q as [|q IH]; intros m Hm Hq; [replace m with 4%nat by lia; exact R0|].
    unfold st in *. rewrite (stage_step _ _ _ _ _ _ _ (Op m ltac:(lia))). unfold acc. cbn [fparts fold_left fst snd]. rewrite acc_at_other by lia. replace (S (13 + m)) with (13 + S m)%nat by lia. apply IH; lia. }
  assert (Lst : forall m, length (st m) = 72%nat) by (intros m; unfold st; rewrite stage_len, map_length; exact L0).
  assert (ND : nan_at (12 + 3 * k) (st (13 + k)%nat)).
  { unfold st. rewrite (stage_step _ _ _ _ _ _ _ (Op k Hk)). fold st. replace (9 + (13 + k))%nat with (22 + k)%nat by lia. replace (S (13 + k)) with (13 + S k)%nat by lia. fold (st (13 + S k)%nat). rewrite Keep by lia.
    apply acc_put; [rewrite Lst; lia|]. cbn [fparts]. left. f_equal. rewrite !nth_fin by (rewrite Lf; lia). rewrite Zd, Zq. cbn [fle fmul]. rewrite Rleb_t by lra. cbn [gdiv]. unfold fdivr. rewrite Rmult_0_r.
    destruct (Reqb 0 0) eqn:E; [|apply Reqb_false in E; lra]. rewrite Rltb_f by lra. reflexivity. }
  assert (Lc : length (map Fin cot0) = 72%nat) by (rewrite map_length; exact L0).
  assert (Goal : nan_at 0 (st 0%nat) /\ nan_at 4 (st 0%nat) /\ nan_at 8 (st 0%nat)).
  { assert (St : forall m x y, (nth_error m2q_ops m = Some (OAdd x y) \/ nth_error m2q_ops m = Some (OSub x y)) -> (x < 72)%nat -> (y < 72)%nat -> nan_at (9 + m) (st (S m)) -> nan_at x (st m) /\ nan_at y (st m)).
    { intros m x y Ho Hx Hy N. unfold st in *. apply stage_sum; rewrite ?Lc; assumption. }
    assert (Dn : forall m j q, (q <= m)%nat -> nan_at j (st m) -> nan_at j (st q)) by (intros m j q Hq N; unfold st in *; exact (stage_down _ _ _ _ _ m j q Hq N)).
    destruct (St (3 + 3 * k)%nat (11 + 3 * k)%nat 8%nat) as [N1 N8]; [destruct k as [|[|[|[|]]]]; [| | | |lia]; cbn; tauto | lia | lia | apply (Dn (13 + k)%nat); [lia|]; replace (9 + (3 + 3 * k))%nat with (12 + 3 * k)%nat by lia; exact ND |].
    destruct (St (2 + 3 * k)%nat (10 + 3 * k)%nat 4%nat) as [N2 N4]; [destruct k as [|[|[|[|]]]]; [| | | |lia]; cbn; tauto | lia | lia | replace (9 + (2 + 3 * k))%nat with (11 + 3 * k)%nat by lia; exact N1 |].
    destruct (St (1 + 3 * k)%nat 9%nat 0%nat) as [N3 N0]; [destruct k as [|[|[|[|]]]]; [| | | |lia]; cbn; tauto | lia | lia | replace (9 + (1 + 3 * k))%nat with (10 + 3 * k)%nat by lia; exact N2 |].
    split; [|split]; [apply (Dn (1 + 3 * k)%nat); [lia | exact N0] | apply (Dn (2 + 3 * k)%nat); [lia | exact N4] | apply (Dn (3 + 3 * k)%nat); [lia | exact N8]]. }
  unfold st in Goal. rewrite stage_0 in Goal. intros j Hj. rewrite nth_error_firstn_lt by (cbn [In] in Hj; lia).
  destruct Goal as (G0 & G4 & G8). cbn [In] in Hj. destruct Hj as [<-|[<-|[<-|[]]]]; assumption.
Qed.
