(** The tensor program of the Jacobian computes, at each row of the batch and each degree of freedom, the column that [JacModel] computes there. *)
From Coq Require Import Reals Lra Bool Arith Lia List.
From Verif Require Import Prelude ExtF Lin Trig RotModel TorchModel RotTorchModel SpecTorch SpecFkTorch TorchProofs RotTorch Tree ChainModel SpecFK ChainProofs ChainInst Input SerialModel JacModel FkTorchModel FkTorch FkTorchChain FkTorchBack.
Import ListNotations.
Local Open Scope nat_scope.

Definition M1 (e : ten R) (B : nat) (W : nat -> M4) : Prop := exists t, e = Ok t /\ shape t = [4; 4; B] /\ forall b, b < B -> m4_at t [b] = W b.
Definition V1 (e : ten R) (B : nat) (X : nat -> V3) : Prop := exists t, e = Ok t /\ shape t = [3; B] /\ forall b, b < B -> v_at t [b] = X b.
Lemma valid1 B b : b < B -> valid [B] [b]. Proof. intros. repeat constructor; assumption. Qed.
Lemma V1_t e B f X : is_t e [3; B] f -> (forall b, b < B -> v_at (mkT [3; B] f) [b] = X b) -> V1 e B X.
Proof. intros (t & E & Es & H) Y. exists t. split; [exact E|]. split; [exact Es|]. intros b L. rewrite <- (Y b L). apply (loc_v [B]); [apply valid1; assumption|]. intros i V. apply H, V. Qed.
Lemma M1_t e B f X : is_t e [4; 4; B] f -> (forall b, b < B -> m4_at (mkT [4; 4; B] f) [b] = X b) -> M1 e B X.
Proof. intros (t & E & Es & H) Y. exists t. split; [exact E|]. split; [exact Es|]. intros b L. rewrite <- (Y b L). apply (loc_m4 [B]); [apply valid1; assumption|]. intros i V. apply H, V. Qed.
Lemma M1_pick e B n W k : M2 e B n W -> k < n -> M1 (pick 3 k e) B (W k).
Proof.
  intros (t & -> & E & H) L. unfold pick. cbn [rbind]. rewrite E. cbn [nth_error]. rewrite (proj2 (Nat.ltb_lt k n) L). eexists. split; [reflexivity|]. split; [reflexivity|]. intros b Lb. rewrite <- (H k b L Lb). reflexivity.
Qed.
Lemma V1_pos e B W : M1 e B W -> V1 (pos_of e) B (fun b => trp (W b)).
Proof. intros (t & -> & E & H). unfold pos_of. eapply V1_t; [tt|]. intros b Lb. rewrite <- (H b Lb). look. reflexivity. Qed.
Lemma t_unsq_V1 e B X : V1 e B X -> exists f, is_t (unsq 2 e) [3; B; 1] f /\ forall b, b < B -> mkV3 (f [0; b; 0]) (f [1; b; 0]) (f [2; b; 0]) = X b.
Proof.
  intros (t & -> & E & H). exists (fun i => at_ t (del 2 i)). split; [unfold unsq; cbn [rbind]; rewrite E; eexists; split; [reflexivity|]; split; reflexivity|]. intros b Lb. rewrite <- (H b Lb). reflexivity.
Qed.
Lemma V2_subr e1 e2 B n X Y : V1 e1 B X -> V2 e2 B n Y -> V2 (unsq 2 e1 - e2)%T B n (fun f b => vsub (X b) (Y f b)).
Proof.
  intros H1 (u & -> & E2 & H2). destruct (t_unsq_V1 _ _ _ H1) as (g & G & Hg). eapply V2_t; [eapply t_op2; [exact G | apply is_in, E2 | apply tg_same, tg_same, tg_one_l, tg_left]|].
  intros f b Lf Lb. rewrite <- (Hg b Lb), <- (H2 f b Lf Lb). look. rewrite ?(one_or B b Lb), ?(one_or n f Lf). unfold vsub. cbn [vx vy vz]. reflexivity.
Qed.
Lemma V2_einsum e axes ax B n X : R2 e B n X -> holds_v3 axes ax -> length ax = n -> V2 (einsum_nbij_nj e (Ok axes)) B n (fun f b => m3vec (X f b) (nth f ax vzero)).
Proof.
  intros (t & -> & E & H) (S0 & Ha) La. rewrite La in S0. unfold einsum_nbij_nj. cbn [rbind]. rewrite E, S0, !Nat.eqb_refl. cbn [andb]. eexists. split; [reflexivity|]. split; [reflexivity|].
  intros f b Lf Lb. assert (A : v_at axes [f] = nth f ax vzero) by (apply Ha, nth_error_nth'; rewrite La; exact Lf). rewrite <- A, <- (H f b Lf Lb). unfold m3vec. look. cbn [m00 m01 m02 m10 m11 m12 m20 m21 m22 vx vy vz]. apply eqV; apply rsum3.
Qed.
Lemma t_flag3 {X} (g : nat -> X) (l : list nat) : is_t (reshape [1; 1; length l] (op1 g (vec 0 l))) [1; 1; length l] (fun i => g (nth (nth 2 i 0) l 0)).
Proof.
  unfold reshape, op1, vec. cbn [rbind shape prod at_]. match goal with |- context [if ?c then _ else _] => assert (Q : c = true) by (apply Nat.eqb_eq; lia); rewrite Q; clear Q end. eexists. split; [reflexivity|]. split; [reflexivity|]. intros i V.
  inversion V as [|i0 n0 l0 s0 H0 V1 E0]; subst. inversion V1 as [|i1 n1 l1 s1 H1 V2 E1]; subst. inversion V2 as [|i2 n2 l2 s2 H2 V3 E2]; subst. inversion V3; subst.
  cbn [at_ ravel unravel hd tl nth]. replace (i0 + 1 * (i1 + 1 * (i2 + length l * 0))) with i2 by lia. rewrite Nat.mod_small by assumption. reflexivity.
Qed.
Lemma V2_where (g : nat -> bool) l e1 e2 B W1 W2 : V2 e1 B (length l) W1 -> V2 e2 B (length l) W2 ->
  V2 (where_ (reshape [1; 1; length l] (op1 g (vec 0 l))) e1 e2) B (length l) (fun f b => if g (nth f l 0) then W1 f b else W2 f b).
Proof.
  intros (t & -> & E1 & H1) (u & -> & E2 & H2). unfold where_.
  eapply V2_t; [eapply t_op2; [apply t_flag3 | eapply t_op2_same; apply is_in; [exact E1 | exact E2] | apply tg_one_l, tg_one_l, tg_same, tg_left] |].
  intros f b Lf Lb. rewrite <- (H1 f b Lf Lb), <- (H2 f b Lf Lb). look. rewrite ?(one_or B b Lb), ?(one_or _ f Lf). destruct (g (nth f l 0)); reflexivity.
Qed.
Lemma V2_zero B n : V2 (full [3; B; n] 0%R) B n (fun _ _ => vzero). Proof. eexists. split; [reflexivity|]. split; reflexivity. Qed.
Definition J2 (e : ten R) (B n : nat) (X : nat -> nat -> V3 * V3) : Prop := exists t, e = Ok t /\ shape t = [n; 6; B] /\ forall j b, j < n -> b < B -> col_at t b j = X j b.
Lemma J2_cat e1 e2 B n X Y : V2 e1 B n X -> V2 e2 B n Y -> J2 (permute [2; 0; 1] (cat e1 e2)) B n (fun j b => (X j b, Y j b)).
Proof.
  intros (t & -> & E1 & H1) (u & -> & E2 & H2). destruct (t_cat _ _ 3 3 [B; n] _ _ (is_in t _ E1) (is_in u _ E2)) as (w & -> & Sw & Hw). unfold permute. cbn [rbind]. rewrite Sw. cbn [length Nat.eqb map nth Nat.add]. eexists. split; [reflexivity|]. split; [reflexivity|].
  intros j b Lj Lb. unfold col_at. cbn [at_]. cbv zeta. assert (Q : forall r, map (fun k => nth (place [2; 0; 1] k) [j; r; b] 0) (seq 0 3) = [r; b; j]) by reflexivity. cbn [length]. rewrite !Q.
  rewrite !Hw by (constructor; [cbn; lia | apply valid2; assumption]). rewrite <- (H1 j b Lj Lb), <- (H2 j b Lj Lb). look. reflexivity.
Qed.

Section Jac.
Variables (all axes : tensor R) (ax : list V3) (eef : nat) (idx types : list nat) (B nf : nat) (W : nat -> nat -> M4).
Hypothesis Mall : M2 (Ok all) B nf W.
Hypothesis Hax : holds_v3 axes ax.
Hypothesis Lax : length ax = length idx.
Hypothesis Lty : length types = length idx.
Hypothesis Lidx : Forall (fun k => k < nf) idx.
Hypothesis Leef : eef < nf.
Definition zc (j b : nat) : V3 := m3vec (rotp (W (nth j idx 0) b)) (nth j ax vzero).
Definition jac_cell (j b : nat) : V3 * V3 :=
  let D := W (nth j idx 0) b in
  if Nat.eqb 1 (nth j types 0) then (vcross (zc j b) (vsub (trp (W eef b)) (trp D)), zc j b) else (zc j b, vzero).
Lemma MD : M2 (take 3 idx (Ok all)) B (length idx) (fun j b => W (nth j idx 0) b). Proof. eapply M2_take; [exact Mall | exact Lidx]. Qed.
Lemma VZ : V2 (einsum_nbij_nj (rot_of (take 3 idx (Ok all))) (Ok axes)) B (length idx) zc.
Proof. apply (V2_einsum _ axes ax _ _ _ (R2_rot _ _ _ _ MD) Hax Lax). Qed.
Lemma jac_J2 : J2 (jacobian_tensor_t all axes eef idx types) B (length idx) jac_cell.
Proof.
  unfold jacobian_tensor_t. cbv zeta. destruct VZ as (z & Ez & Sz & Hz). rewrite Ez. cbn [rbind]. rewrite Sz. assert (Z : V2 (Ok z) B (length idx) zc) by (exists z; auto).
  pose proof (V2_cross _ _ _ _ _ _ Z (V2_subr _ _ _ _ _ _ (V1_pos _ _ _ (M1_pick _ _ _ _ eef Mall Leef)) (V2_pos _ _ _ _ MD))) as C. rewrite <- Lty in Z, C |- *.
  destruct (J2_cat _ _ _ _ _ _ (V2_where (Nat.eqb 1) types _ _ B _ _ C Z) (V2_where (Nat.eqb 1) types _ _ B _ _ Z (V2_zero B _))) as (t & Et & St & Ht). exists t. split; [exact Et|]. split; [exact St|].
  intros j b Lj Lb. rewrite (Ht j b Lj Lb). unfold jac_cell. cbv zeta. destruct (Nat.eqb 1 (nth j types 0)); reflexivity.
Qed.
(** with a tool: N matrices, N = B or N = 1 *)
Variables (tool : tensor R) (N : nat) (Tm : nat -> M4).
Hypothesis Etool : M1 (Ok tool) N Tm.
Definition tk (b : nat) : nat := if N =? 1 then 0 else b.
Definition tool_cell (j b : nat) : V3 * V3 :=
  let d := vsub (trp (m4mul (W eef b) (Tm (tk b)))) (trp (W eef b)) in
  (vadd (fst (jac_cell j b)) (if Nat.eqb 1 (nth j types 0) then vcross (zc j b) d else vzero), snd (jac_cell j b)).
Lemma tool_J2 : N = B \/ N = 1 -> exists J T, jacobian_tool_t all axes tool eef idx types = Ok (J, T) /\ J2 (Ok J) B (length idx) tool_cell /\ M1 (Ok T) B (fun b => m4mul (W eef b) (Tm (tk b))).
Proof.
  intros HN. unfold jacobian_tool_t. cbv zeta. destruct jac_J2 as (J & -> & SJ & HJ). cbn [rbind]. pose proof (M1_pick _ _ _ _ eef Mall Leef) as (te & Ete & Ste & Hte). rewrite Ete. destruct Etool as (tl0 & E0 & St & Ht). injection E0 as <-.
  assert (TG : together [B] [N] [B]) by (destruct HN as [-> | ->]; [apply tog_refl | apply tg_one_r, tg_left]).
  assert (MT : M1 (matmul (Ok te) (Ok tool)) B (fun b => m4mul (W eef b) (Tm (tk b)))).
  { eapply M1_t; [eapply t_matmul_b; [apply is_in, Ste | apply is_in, St | exact TG]|]. intros b Lb. assert (Lk : tk b < N) by (unfold tk; destruct HN as [-> | ->]; [rewrite one_or by exact Lb; exact Lb | cbn; lia]).
    rewrite <- (Hte b Lb), <- (Ht (tk b) Lk). unfold m4_at, m4mul, tk. cbn [at_ hd tl bidx a00 a01 a02 a03 a10 a11 a12 a13 a20 a21 a22 a23 a30 a31 a32 a33]. rewrite ?(one_or B b Lb). apply eqM4; apply rsum4. }
  destruct MT as (T & -> & ST & HT). cbn [rbind]. destruct VZ as (z & -> & Sz & Hz). cbn [rbind]. rewrite Sz.
  assert (D : V1 (pos_of (Ok T) - pos_of (Ok te))%T B (fun b => vsub (trp (m4mul (W eef b) (Tm (tk b)))) (trp (W eef b)))).
  { destruct (V1_pos (Ok T) B _ (ex_intro _ T (conj eq_refl (conj ST HT)))) as (p & -> & Sp & Hp). destruct (V1_pos (Ok te) B _ (ex_intro _ te (conj eq_refl (conj Ste Hte)))) as (q & -> & Sq & Hq).
    eapply V1_t; [eapply t_op2_same; apply is_in; [exact Sp | exact Sq]|]. intros b Lb. rewrite <- (Hp b Lb), <- (Hq b Lb). look. reflexivity. }
  destruct (t_unsq_V1 _ _ _ D) as (g & G & Hg). destruct (t_expand _ _ [3; B; length idx] _ G) as (de & -> & Sde & Hde); [apply tg_same, tg_same, tg_one_l, tg_left|].
  assert (DE : V2 (Ok de) B (length idx) (fun _ b => vsub (trp (m4mul (W eef b) (Tm (tk b)))) (trp (W eef b)))).
  { exists de. split; [reflexivity|]. split; [exact Sde|]. intros f b Lf Lb. rewrite <- (Hg b Lb). unfold v_at. cbv zeta. rewrite !Hde by (constructor; [lia | apply valid2; assumption]). cbn [bidx hd tl Nat.eqb]. rewrite !(one_or B b Lb). reflexivity. }
  destruct (V2_cross _ _ _ _ _ _ (ex_intro (fun t => Ok z = Ok t /\ _) z (conj eq_refl (conj Sz Hz))) DE) as (c & -> & Sc & Hc). cbn [rbind]. rewrite Sc. clear D DE.
  assert (Cc : V2 (Ok c) B (length types) (fun j b => vcross (zc j b) (vsub (trp (m4mul (W eef b) (Tm (tk b)))) (trp (W eef b))))) by (rewrite Lty; exists c; auto).
  assert (WH := V2_where (Nat.eqb 1) types (Ok c) (full [3; B; length idx] 0%R) B _ (fun _ _ => vzero) Cc ltac:(rewrite Lty; apply V2_zero)). destruct WH as (w & -> & Sw & Hw). rewrite Lty in Sw, Hw.
  assert (PM : exists q, permute [2; 0; 1] (Ok w) = Ok q /\ shape q = [length idx; 3; B] /\ forall j r b, j < length idx -> r < 3 -> b < B -> at_ q [j; r; b] = at_ w [r; b; j]).
  { unfold permute. cbn [rbind]. rewrite Sw. cbn [length Nat.eqb map nth]. eexists. split; [reflexivity|]. split; [reflexivity|]. intros; reflexivity. }
  destruct PM as (q & -> & Sq & Hq).
  assert (SS : is_t (op2 Rplus (slice2 0 3 (Ok J)) (Ok q)) [length idx; 3; B] (fun i => Rplus (at_ J (hd 0 i :: 0 + hd 0 (tl i) :: tl (tl i))) (at_ q i))).
  { apply t_op2_same; [|apply is_in, Sq]. eapply t_shape; [eapply t_slice2; [apply is_in, SJ | lia | lia] | reflexivity]. }
  pose proof (t_put rows03 rows03_shape _ _ _ _ _ _ (is_in J _ SJ) SS) as PP. specialize (PP (tog_refl [length idx; 3; B])).
  assert (P2 : forall i k, valid [length idx; 6; B] i -> rows03 i = Some k -> valid [length idx; 3; B] k).
  { intros i k V E. unfold rows03 in E. destruct (nth 1 i 0 <? 3) eqn:Q; [|discriminate]. injection E as <-. apply Nat.ltb_lt in Q.
    inversion V as [|i0 n0 l0 s0 H0 V1' E0]; subst. inversion V1' as [|i1 n1 l1 s1 H1 V2' E1]; subst. cbn [nth] in Q. constructor; [assumption|]. constructor; [exact Q | assumption]. }
  specialize (PP P2).
  destruct PP as (J' & -> & SJ' & HJ'). cbn [rbind]. exists J', T. split; [reflexivity|]. split; [|exists T; auto]. exists J'. split; [reflexivity|]. split; [exact SJ'|].
  intros j b Lj Lb. unfold tool_cell. rewrite <- (HJ j b Lj Lb). pose proof (Hw j b Lj Lb) as Hv. cbv beta in Hv. rewrite <- Hv. unfold col_at. cbv zeta. rewrite !HJ' by (repeat constructor; try assumption; lia).
  unfold rows03. cbn [nth Nat.ltb Nat.leb bidx hd tl Nat.eqb Nat.add]. rewrite !(one_or B b Lb), !(one_or _ j Lj), !Hq by (try assumption; lia). unfold vadd, v_at. cbn [fst snd vx vy vz]. reflexivity.
Qed.
Lemma tool_bad : N <> B -> N <> 1 -> jacobian_tool_t all axes tool eef idx types = Err RuntimeError.
Proof.
  intros H1 H2. unfold jacobian_tool_t. cbv zeta. destruct jac_J2 as (J & -> & SJ & HJ). cbn [rbind]. pose proof (M1_pick _ _ _ _ eef Mall Leef) as (te & Ete & Ste & Hte). rewrite Ete. destruct Etool as (tl0 & E0 & St & Ht). injection E0 as <-.
  destruct (Nat.eq_dec B 1) as [EB | NB].
  - assert (TG : together [B] [N] [N]) by (rewrite EB; apply tg_one_l, tg_left). destruct (t_matmul_b _ _ 4 4 4 [B] [N] [N] _ _ (is_in te _ Ste) (is_in tool _ St) TG) as (T & -> & ST & _). cbn [rbind]. destruct VZ as (z & -> & Sz & Hz). cbn [rbind]. rewrite Sz.
    assert (D : exists u, unsq 2 (pos_of (Ok T) - pos_of (Ok te))%T = Ok u /\ shape u = [3; N; 1]).
    { assert (G : exists f, is_t (pos_of (Ok T) - pos_of (Ok te))%T [3; N] f).
      { eexists. eapply t_op2; [unfold pos_of; tt | unfold pos_of; tt |]. rewrite EB. apply tg_same, tg_one_r, tg_left. }
      destruct G as (f & d & -> & Sd & _). unfold unsq. cbn [rbind]. rewrite Sd. eauto. }
    destruct D as (u & -> & Su). unfold TorchModel.expand. cbn [rbind]. rewrite Su. cbn [TorchModel.fits Nat.eqb orb andb]. rewrite (proj2 (Nat.eqb_neq N B) H1), (proj2 (Nat.eqb_neq N 1) H2). cbn [orb andb]. reflexivity.
  - unfold matmul. cbn [rbind]. rewrite Ste, St, Nat.eqb_refl. destruct (bshape [B] [N]) as [s|] eqn:Q; [|reflexivity]. apply bshape_tog in Q. inversion Q; subst; congruence.
Qed.
End Jac.
