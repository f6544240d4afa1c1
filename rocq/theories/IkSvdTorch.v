(** The step by singular values on tensors, row by row. *)
From Coq Require Import Reals Lra Bool Arith Lia List.
From Verif Require Import Prelude ExtF Lin RotModel TorchModel RotTorchModel SpecTorch SpecFkTorch SpecIkTorch SpecIkSvd TorchProofs RotTorch JacModel IKKernel KernelProofs DeltaPose IKModel IKSolve FkTorchModel FkTorch IkTorchModel IkTorch IkTorchStep IkTorchIter IkTensFinal IkSvdTorchModel.
Import ListNotations.
Local Open Scope nat_scope.

Lemma t_diag e m s f : is_t e (m :: s) f -> is_t (diag_embed e) (m :: m :: s) (fun i => if hd 0 i =? hd 0 (tl i) then f (hd 0 i :: tl (tl i)) else 0%R).
Proof.
  intros (t & -> & E & H). unfold diag_embed. cbn [rbind]. rewrite E. eexists. split; [reflexivity|]. split; [reflexivity|]. intros i V. cbn [at_].
  inversion V as [|x n0 l s0 Hx V0 E0]; subst. inversion V0 as [|y n1 l1 s1 Hy V1 E1]; subst. cbn [hd tl]. destruct (x =? y); [|reflexivity]. apply H. constructor; assumption.
Qed.
Section Svd.
Variables (svd : tensor R -> tensor R * tensor R * tensor R) (dx J : tensor R) (reg lm : R) (w : option (tensor R)) (n B : nat).
Hypothesis (Sx : shape dx = [1; 6; B]) (SJ : shape J = [n; 6; B]) (Sw : forall t, w = Some t -> shape t = [6]).
Hypothesis (HS : forall A, weighted n B w J A -> decomposes n B A (svd A)).
Let wk : option (nat -> R) := option_map (fun t i => at_ t [i]) w.
Let Jr (r : nat) : jac := map (col_at J r) (seq 0 n).
Let dr (r : nat) : V3 * V3 := col_at dx r 0.
Let wt (e : ten R) : ten R := match w with Some w => (TorchModel.reshape [1; 6; 1] (Ok w) * e)%T | None => e end.
Let Kt : ten R := if Rltb 0 lm then (sel 0 (sel 0 (Ok (reg_t reg))) + squeeze1 (num lm * sum2_keep (wt (Ok dx) * wt (Ok dx))))%T else sel 0 (sel 0 (Ok (reg_t reg))).
Lemma reg_00 : is_t (sel 0 (sel 0 (Ok (reg_t reg)))) [] (fun _ => reg).
Proof.
  eapply t_ext; [eapply t_sel; [eapply t_sel; [apply (is_in (reg_t reg) [6; 6] eq_refl) | lia] | lia]|]. intros i V. inversion V; subst. cbn [reg_t at_ hd nth Nat.eqb]. ring.
Qed.
Lemma denom_t (D : tensor R) m : shape D = [m; B] -> is_t (op1 (fun d => pow d 2) (Ok D) + Kt)%T [m; B] (fun i => Rplus (pow (at_ D i) 2) (damping reg lm (weigh wk (dr (nth 1 i 0))))).
Proof.
  intros SD. pose proof (t_op1 (fun d => pow d 2) _ _ _ (is_in D _ SD)) as D2. unfold Kt, damping. destruct (Rltb 0 lm) eqn:El.
  - assert (Mu : is_t (squeeze1 (num lm * sum2_keep (wt (Ok dx) * wt (Ok dx))))%T [1; B] (fun i => Rmult lm (IKKernel.rsum 6 (fun c => Rmult (weigh wk (dr (nth 1 i 0)) c) (weigh wk (dr (nth 1 i 0)) c))))).
    { destruct (t_op2_num_l Rmult lm _ _ _ (t_sum2 _ _ _ _ _ (t_op2_same Rmult _ _ _ _ _ (weigh_t w B Sw dx 1 Sx) (weigh_t w B Sw dx 1 Sx)))) as (t & Et & St & Ht).
      unfold wt at 1 2. fold wt. eexists. split; [unfold squeeze1; rewrite Et; cbn [rbind]; rewrite St; reflexivity|]. split; [reflexivity|]. intros i V. cbn [at_].
      rewrite Ht by (constructor; [lia | exact V]).
      inversion V as [|x n0 l s0 Hx V0 E0]; subst. inversion V0 as [|y n1 l1 s1 Hy V1 E1]; subst. inversion V1; subst. cbn [hd tl nth]. f_equal. apply rsum_eq. intros c Lc. reflexivity. }
    assert (KT : is_t (sel 0 (sel 0 (Ok (reg_t reg))) + squeeze1 (num lm * sum2_keep (wt (Ok dx) * wt (Ok dx))))%T [1; B] (fun i => Rplus reg (Rmult lm (IKKernel.rsum 6 (fun c => Rmult (weigh wk (dr (nth 1 i 0)) c) (weigh wk (dr (nth 1 i 0)) c)))))).
    { eapply t_ext; [eapply t_op2; [apply reg_00 | exact Mu | apply tg_right]|]. intros i V. cbv beta. rewrite (bidx_id [1; B]) by exact V. reflexivity. }
    eapply t_ext; [eapply t_op2_keep; [exact D2 | exact KT] |].
    intros i V. inversion V as [|x n0 l s0 Hx V0 E0]; subst. inversion V0 as [|y n1 l1 s1 Hy V1 E1]; subst. inversion V1; subst. cbn [tl nth]. reflexivity.
  - eapply t_ext; [eapply t_op2; [exact D2 | apply reg_00 | apply tg_left]|]. intros i V. cbv beta. rewrite bidx_id by exact V. f_equal. ring.
Qed.
Lemma svd_of : exists A U D Vh, wt (Ok J) = Ok A /\ svd A = (U, D, Vh) /\ shape U = [6; 6; B] /\ shape D = [Nat.min 6 n; B] /\ shape Vh = [n; n; B] /\
  forall r, r < B -> is_svd 6 n (jac_w wk (Jr r)) (fun i k => at_ U [k; i; r]) (fun k => at_ D [k; r]) (fun k j => at_ Vh [j; k; r]).
Proof.
  destruct (weigh_t w B Sw J n SJ) as (A & EA & SA & HA). destruct (svd A) as ((U, D), Vh) eqn:ES. exists A, U, D, Vh. split; [exact EA|]. split; [exact ES|].
  assert (HW : weighted n B w J A).
  { split; [exact SA|]. intros i j r Li Lj Lr. rewrite HA by (apply valid3; assumption). cbn [nth]. apply weigh_at. exact Li. }
  pose proof (HS A HW) as G. rewrite ES in G. destruct G as (SU & SD & SV & G). split; [exact SU|]. split; [exact SD|]. split; [exact SV|]. intros r Lr. destruct (G r Lr) as (G1 & G2 & G3 & G4).
  unfold is_svd. split; [|split; [|split]].
  - intros k l Lk Ll. rewrite <- total_rsum. exact (G1 k l Lk Ll).
  - intros i l Li Ll. rewrite <- total_rsum. exact (G2 i l Li Ll).
  - intros k l Lk Ll. rewrite <- total_rsum. exact (G3 k l Lk Ll).
  - intros i j Li Lj. rewrite <- total_rsum. rewrite <- (G4 i j Li Lj). rewrite HA by (apply valid3; assumption). cbn [nth]. unfold wk, Jr. rewrite <- jac_nth by exact Lj. reflexivity.
Qed.
Lemma dls_svd_eq (A U D Vh : tensor R) : wt (Ok J) = Ok A -> svd A = (U, D, Vh) ->
  dls_svd_t svd dx J (reg_t reg) lm w = matmul (matmul (matmul (tr2 (slice2 0 (hd 0 (shape D)) (Ok Vh))) (diag_embed (op2 Rdiv (Ok D) (op1 (fun d => pow d 2) (Ok D) + Kt)%T))) (tr2 (Ok U))) (wt (Ok dx)).
Proof. intros E1 E2. unfold dls_svd_t. unfold wt in E1. rewrite E1. cbn [rbind]. rewrite E2. unfold Kt, wt. reflexivity. Qed.
Lemma left_t (U D Vh : tensor R) : shape U = [6; 6; B] -> shape D = [Nat.min 6 n; B] -> shape Vh = [n; n; B] ->
  is_t (matmul (tr2 (slice2 0 (hd 0 (shape D)) (Ok Vh))) (diag_embed (op2 Rdiv (Ok D) (op1 (fun d => pow d 2) (Ok D) + Kt)%T))) [Nat.min 6 n; n; B]
    (fun i => IKKernel.rsum (Nat.min 6 n) (fun k => Rmult (at_ Vh [nth 1 i 0; k; nth 2 i 0]) (if k =? nth 0 i 0 then Rdiv (at_ D [k; nth 2 i 0]) (Rplus (pow (at_ D [k; nth 2 i 0]) 2) (damping reg lm (weigh wk (dr (nth 2 i 0))))) else 0%R))).
Proof.
  intros SU SD SV. rewrite SD. cbn [hd]. set (m := Nat.min 6 n).
  assert (VT : is_t (tr2 (slice2 0 m (Ok Vh))) [m; n; B] (fun i => at_ Vh [nth 1 i 0; nth 0 i 0; nth 2 i 0])).
  { pose proof (t_tr2 _ _ _ _ _ (t_slice2 (Ok Vh) 0 m n n [B] _ (is_in Vh _ SV) ltac:(lia) ltac:(unfold m; lia))) as T. rewrite Nat.sub_0_r in T. eapply t_ext; [exact T|].
    intros i V. apply valid3_inv in V as (x & y & z & -> & Lx & Ly & Lz). reflexivity. }
  pose proof (t_diag _ _ _ _ (t_op2_same Rdiv _ _ _ _ _ (is_in D _ SD) (denom_t D m SD))) as DT.
  eapply t_ext; [eapply t_matmul; [exact VT | exact DT]|]. intros i V. apply valid3_inv in V as (x & y & z & -> & Lx & Ly & Lz). cbn [nth hd tl]. apply rsum_eq. intros k Lk.
  rewrite (Nat.eqb_sym x k). destruct (Nat.eqb_spec k x) as [->|]; reflexivity.
Qed.
Theorem dls_svd_rows (dq : nat -> list R) : (0 < reg)%R -> (0 <= lm)%R -> 6 <= n -> (forall r, r < B -> ik_step (Jr r) (dr r) reg lm wk = Ok (dq r)) ->
  exists t, dls_svd_t svd dx J (reg_t reg) lm w = Ok t /\ shape t = [1; n; B] /\ forall r, r < B -> map (fun j => at_ t [0; j; r]) (seq 0 n) = dq r.
Proof.
  intros Hreg Hlm Hn H. destruct svd_of as (A & U & D & Vh & EA & ES & SU & SD & SV & HI). rewrite (dls_svd_eq A U D Vh EA ES).
  pose proof (left_t U D Vh SU SD SV) as L. set (lt := matmul (tr2 _) _) in *. rewrite (Nat.min_l 6 n Hn) in L.
  destruct (t_matmul _ _ 6 n 1 [B] _ _ (t_matmul _ _ 6 n 6 [B] _ _ L (t_tr2 _ _ _ _ _ (is_in U _ SU))) (weigh_t w B Sw dx 1 Sx)) as (t & Et & St & Ht).
  exists t. split; [exact Et|]. split; [exact St|]. intros r Lr.
  pose proof (ik_step_svd_eq (fun _ _ => (fun i k => at_ U [k; i; r], fun k => at_ D [k; r], fun k j => at_ Vh [j; k; r])) (Jr r) (dr r) reg lm wk) as Q.
  assert (LJ : List.length (Jr r) = n) by (unfold Jr; rewrite map_length, seq_length; reflexivity).
  specialize (Q _ _ _ Hreg Hlm ltac:(rewrite LJ; exact Hn) eq_refl ltac:(rewrite LJ; exact (HI r Lr))). rewrite (H r Lr) in Q. unfold ik_step_svd in Q. rewrite LJ, (Nat.min_l 6 n Hn) in Q. cbn [Nat.eqb] in Q.
  assert (Q' : forall a b : list R, Ok a = Ok b -> a = b) by (intros; congruence). apply Q' in Q. rewrite <- Q. apply map_ext_in. intros j Hj. apply in_seq in Hj.
  rewrite Ht by (apply valid3; lia). apply rsum_eq. intros i Li. cbn [nth hd tl]. f_equal. apply rsum_eq. intros l Ll. cbn [nth hd tl]. reflexivity.
Qed.
Theorem dls_svd_short : n < 6 -> dls_svd_t svd dx J (reg_t reg) lm w = Err RuntimeError.
Proof.
  intros Hn. destruct svd_of as (A & U & D & Vh & EA & ES & SU & SD & SV & HI). rewrite (dls_svd_eq A U D Vh EA ES).
  destruct (left_t U D Vh SU SD SV) as (lt & -> & Sl & _). rewrite (Nat.min_r 6 n) in Sl by lia. destruct (t_tr2 _ _ _ _ _ (is_in U _ SU)) as (ut & -> & Su & _).
  assert (E : matmul (Ok lt) (Ok ut) = Err RuntimeError) by (unfold matmul; cbn [rbind]; rewrite Sl, Su; destruct (Nat.eqb_spec n 6); [lia | reflexivity]). rewrite E. reflexivity.
Qed.
End Svd.
