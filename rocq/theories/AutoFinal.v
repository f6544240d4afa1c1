(** Last steps of the proofs quoted in Properties_Auto.v. *)
From Coq Require Import Reals Lra String Bool Arith Lia List.
From Coquelicot Require Import Coquelicot.
From Verif Require Import Prelude ExtF Tree ChainModel SpecFK ChainProofs ChainTables Lin RotModel RotBasic ChainInst SerialModel SerialProofs Deriv JacModel BackProofs JacFinal FKMore Examples
  AutoModel SpecAuto AutoProofs.
Import ListNotations.
Local Open Scope R_scope.

Lemma nth_err_ext {X} (l1 l2 : list X) : (forall i, nth_error l1 i = nth_error l2 i) -> l1 = l2.
Proof.
  revert l2. induction l1 as [|a l1 IH]; intros [|b l2] H; try reflexivity; [specialize (H 0%nat); discriminate H .. | ].
  pose proof (H 0%nat) as H0. cbn in H0. assert (a = b) by congruence. subst b. f_equal. apply IH. intros i. exact (H (Datatypes.S i)).
Qed.
Lemma seq_nth_err k n i : nth_error (seq k n) i = if Nat.ltb i n then Some (k + i)%nat else None.
Proof.
  destruct (Nat.ltb_spec i n).
  - rewrite (nth_error_nth' (seq k n) 0%nat) by (rewrite seq_length; lia). rewrite seq_nth by lia. reflexivity.
  - apply nth_error_None. rewrite seq_length. lia.
Qed.
Lemma set_nth_err {X} b (u : X) l i : nth_error (set_nth b u l) i = if Nat.eqb i b then (if Nat.ltb b (length l) then Some u else None) else nth_error l i.
Proof.
  destruct (Nat.eqb_spec i b) as [->|N].
  - destruct (Nat.ltb_spec b (length l)) as [L|L]; [apply set_nth_same; exact L|]. apply nth_error_None. rewrite set_nth_length. exact L.
  - apply set_nth_other. intros E; apply N; symmetry; exact E.
Qed.
Lemma set_nth_lt {X} b (u : X) l i : (b < length l)%nat -> nth_error (set_nth b u l) i = if Nat.eqb i b then Some u else nth_error l i.
Proof. intros H. rewrite set_nth_err, (proj2 (Nat.ltb_lt _ _) H). reflexivity. Qed.
Lemma idx_eq (n b j b' j' : nat) : (j < n)%nat -> (j' < n)%nat -> (b' * n + j' = b * n + j)%nat -> b' = b /\ j' = j.
Proof. intros H1 H2 E. assert (b' = b) by nia. subst. lia. Qed.

(** the joint variables evaluate to the tensor of the configurations, one entry replaced *)
Lemma vars_eval (root : mframe) (vs : list (config (S := R))) x b j v nm t :
  let n := length (moving_names root) in NoDup (moving_names root) ->
  (forall b v j nm, nth_error vs b = Some v -> nth_error (moving_names root) j = Some nm -> x (b * n + j)%nat = v nm) ->
  nth_error vs b = Some v -> nth_error (moving_names root) j = Some nm ->
  ev_th (xupd x (b * n + j) t) (joint_vars (length vs) n) = config_tensor root (set_nth b (upd v nm t) vs).
Proof.
  intros n ND X Hv Hn. unfold ev_th, joint_vars, config_tensor. cbn [th_cols th_rows]. fold n. f_equal. rewrite map_map. apply nth_err_ext. intros i.
  assert (Lj : (j < n)%nat) by (apply nth_error_Some; rewrite Hn; discriminate). assert (Lb : (b < length vs)%nat) by (apply nth_error_Some; rewrite Hv; discriminate).
  rewrite !nth_error_map, seq_nth_err. unfold config in *. rewrite (@set_nth_lt (option string -> R) b (upd v nm t) vs i Lb). destruct (Nat.ltb_spec i (length vs)) as [Li|Li].
  - assert (E : exists w, (if Nat.eqb i b then Some (upd v nm t) else nth_error vs i) = Some w /\ forall j' m, nth_error (moving_names root) j' = Some m -> xupd x (b * n + j) t (i * n + j')%nat = w m).
    { destruct (Nat.eqb_spec i b) as [->|N].
      - eexists. split; [reflexivity|]. intros j' m Hm. unfold xupd. destruct (Nat.eqb_spec (b * n + j') (b * n + j)) as [E|E].
        + assert (j' = j) by lia. subst j'. assert (m = nm) by congruence. subst m. rewrite upd_same. reflexivity.
        + rewrite upd_other; [apply X; assumption|]. intros ->. apply E. f_equal. apply (proj1 (NoDup_nth_error _) ND); [fold n; apply nth_error_Some; rewrite Hm; discriminate | congruence].
      - destruct (nth_error vs i) as [w|] eqn:Ew; [|apply nth_error_None in Ew; lia]. exists w. split; [reflexivity|]. intros j' m Hm. unfold xupd.
        destruct (Nat.eqb_spec (i * n + j') (b * n + j)) as [E|E]; [|apply X; assumption]. exfalso. apply N. apply (idx_eq n b j i j' Lj); [apply nth_error_Some; fold n; rewrite Hm; discriminate | exact E]. }
    destruct E as (w & Ew0 & Ew). match goal with |- _ = option_map _ ?o => replace o with (Some w) by (symmetry; exact Ew0) end. cbn [option_map]. f_equal. rewrite map_map. cbn [Nat.add]. apply nth_err_ext. intros j'. rewrite !nth_error_map, seq_nth_err.
    destruct (Nat.ltb_spec j' n) as [L|L].
    + destruct (nth_error (moving_names root) j') as [m|] eqn:Em; [|apply nth_error_None in Em; fold n in Em; lia]. cbn [option_map eval Nat.add]. f_equal. apply Ew, Em.
    + rewrite (proj2 (nth_error_None _ _)) by (fold n; lia). reflexivity.
  - destruct (Nat.eqb_spec i b) as [->|N]; [lia|]. rewrite (proj2 (nth_error_None _ _)) by lia. reflexivity.
Qed.
Lemma vars_eval0 (root : mframe) (vs : list (config (S := R))) x :
  let n := length (moving_names root) in
  (forall b v j nm, nth_error vs b = Some v -> nth_error (moving_names root) j = Some nm -> x (b * n + j)%nat = v nm) ->
  ev_th x (joint_vars (length vs) n) = config_tensor root vs.
Proof.
  intros n X. unfold config in *. unfold ev_th, joint_vars, config_tensor. cbn [th_cols th_rows]. fold n. f_equal. rewrite map_map. apply nth_err_ext. intros i. rewrite !nth_error_map, seq_nth_err.
  destruct (Nat.ltb_spec i (length vs)) as [Li|Li].
  - destruct (nth_error vs i) as [w|] eqn:Ew; [|apply nth_error_None in Ew; lia]. cbn [option_map]. f_equal. rewrite map_map. cbn [Nat.add]. apply nth_err_ext. intros j'. rewrite !nth_error_map, seq_nth_err.
    destruct (Nat.ltb_spec j' n) as [L|L].
    + destruct (nth_error (moving_names root) j') as [m|] eqn:Em; [|apply nth_error_None in Em; fold n in Em; lia]. cbn [option_map eval Nat.add]. f_equal. apply X; assumption.
    + rewrite (proj2 (nth_error_None _ _)) by (fold n; lia). reflexivity.
  - rewrite (proj2 (nth_error_None _ _)) by lia. reflexivity.
Qed.
Lemma plus_const_deriv (f : R -> R) t y K : is_derive f t y -> is_derive (fun u => f u + K) t y.
Proof. intros H. replace y with (plus y 0) by (unfold plus; cbn; ring). apply (is_derive_plus f (fun _ => K)); [exact H | apply @is_derive_const]. Qed.
Lemma sum_set {X Y} (f : Y -> X -> R) (u v : X) (G : Y) : forall b (vs : list X) (Gs : list Y), nth_error vs b = Some v -> nth_error Gs b = Some G ->
  rsum (zip_with f Gs (set_nth b u vs)) = f G u + (rsum (zip_with f Gs vs) - f G v).
Proof.
  induction b as [|b IH]; intros [|w vs] [|H Gs] Hv HG; try discriminate.
  - cbn in Hv, HG. assert (w = v) by congruence. assert (H = G) by congruence. subst. cbn [set_nth zip_with rsum]. ring.
  - cbn [nth_error] in Hv, HG. cbn [set_nth zip_with rsum]. rewrite (IH vs Gs Hv HG). ring.
Qed.
Lemma zip_map_same {X Y Z W} (f : Y -> Z -> W) (g : X -> Y) (h : X -> Z) l : zip_with f (map g l) (map h l) = map (fun x => f (g x) (h x)) l.
Proof. induction l as [|a l IH]; [reflexivity|]. cbn [map zip_with]. rewrite IH. reflexivity. Qed.
Lemma zip_map_l' {A B C D} (f : C -> B -> D) (g : A -> C) l1 l2 : zip_with f (map g l1) l2 = zip_with (fun a b => f (g a) b) l1 l2.
Proof. revert l2. induction l1 as [|a l1 IH]; intros [|b l2]; try reflexivity. cbn [map zip_with]. rewrite IH. reflexivity. Qed.
Lemma rsum_plus {X} (f g : X -> R) l : rsum (map (fun i => f i + g i) l) = rsum (map f l) + rsum (map g l).
Proof. induction l as [|a l IH]; cbn [map rsum]; [ring|]. rewrite IH. ring. Qed.
Lemma some_map {X Y} (g : X -> Y) (l : list (option X)) (m : list Y) : map (option_map g) l = map Some m -> exists l', l = map Some l' /\ map g l' = m.
Proof.
  revert m. induction l as [|o l IH]; intros [|y m] E; try discriminate E; [exists []; split; reflexivity|]. cbn [map] in E.
  destruct o as [z|]; cbn [option_map] in E; [|discriminate E]. assert (E1 : g z = y) by congruence. assert (E2 : map (option_map g) l = map Some m) by congruence.
  destruct (IH m E2) as (l' & -> & <-). exists (z :: l'). split; [reflexivity|]. cbn [map]. rewrite E1. reflexivity.
Qed.
Lemma map_some_inj {X} (l m : list X) : map Some l = map Some m -> l = m.
Proof. revert m. induction l as [|a l IH]; intros [|b m] E; try discriminate E; [reflexivity|]. cbn [map] in E. f_equal; [congruence | apply IH; congruence]. Qed.
Lemma cst3_ev x k : ev3 x (cst3 k) = k. Proof. destruct k; reflexivity. Qed.
Lemma cst4_ev x M : ev4 x (cst4 M) = M. Proof. destruct M; reflexivity. Qed.
Lemma cst_params c x : map (ev4 x) (map cst4 (c_static c)) = c_static c /\ map (ev3 x) (map cst3 (c_axes c)) = c_axes c.
Proof. split; rewrite map_map; (transitivity (map (fun y => y) (c_static c)) || transitivity (map (fun y => y) (c_axes c))); try apply map_id; apply map_ext; intros; [apply cst4_ev | apply cst3_ev]. Qed.
(** one revolute joint behind an offset that scales the x axis by two *)
Definition sc4 : M4 := mkM4 2 0 0 0 0 1 0 0 0 0 1 0 0 0 0 1.
Definition sc_root : mframe := Frame "a"%string (mkLink None (Some sc4)) (mkJoint (Some "j"%string) None Revolute zax None None None) [].
Definition sc_T : E4 := e4mul (cst4 (m4mul sc4 I4)) (e4rev (cst3 zax) (EVar 0)).
(** the same without the offset *)
Definition pl_root : mframe := Frame "a"%string (mkLink None None) (mkJoint (Some "j"%string) None Revolute zax None None None) [].
Lemma pl_ok : distinct_joints pl_root /\ rigid_tree pl_root.
Proof. split; [repeat constructor; intros [] | intros f [<-|[]]; repeat split; simpl; auto using zax_unit]. Qed.

Lemma l84_forward : forall (c : chain M4 V3) SE AE th x, map (ev4 x) SE = c_static c -> map (ev3 x) AE = c_axes c ->
  forward_kinematics_tensor mops c (ev_th x th) = lift (map (option_map (map (ev4 x)))) (fk_graph c SE AE th).
Proof. intros c SE AE th x H1 H2. unfold forward_kinematics_tensor, fk_graph. rewrite <- H1, <- H2. apply fk_eval. Qed.

Lemma l84_autograd : forall (c : chain M4 V3) SE AE th Ts, fk_graph c SE AE th = Ok (map Some Ts) ->
  exists W : (nat -> R) -> list (list M4),
    (forall x, fk_impl mops (ev_th x th) (map (ev4 x) SE) (c_jclamp c) (c_jtype c) (c_dpar c) (c_levels c) (map (ev3 x) AE) (c_has_rev c) (c_has_pris c) (c_nf c) = Ok (map Some (W x))) /\
    forall x Gs v, is_derive (fun t => loss Gs (W (xupd x v t))) (x v) (autograd x Ts Gs v).
Proof.
  intros c SE AE th Ts H. exists (fun x => map (map (ev4 x)) Ts). split; [|intros x Gs v; apply autograd_deriv].
  intros x. rewrite fk_eval. unfold fk_graph in H. rewrite H. cbn [lift]. rewrite !map_map. reflexivity.
Qed.

Lemma l84_agree : forall (root : mframe) c, chain_init mops root = Ok c -> distinct_joints root -> rigid_tree root ->
  forall (vs : list (config (S := R))) (Gs : list (nat -> M4)) x SE AE, length Gs = length vs ->
  let n := length (c_names c) in let G := map (fun i => map (fun G => G i) Gs) (seq 0 (size root)) in
  (forall b v j nm, nth_error vs b = Some v -> nth_error (c_names c) j = Some nm -> x (b * n + j)%nat = v nm) ->
  (forall x', (forall k, (length vs * n <= k)%nat -> x' k = x k) -> map (ev4 x') SE = c_static c /\ map (ev3 x') AE = c_axes c) ->
  exists Ts g, fk_graph c SE AE (joint_vars (length vs) n) = Ok (map Some Ts) /\
    backward c (length vs) (map (map (ev4 x)) Ts) G = Ok g /\ length g = length vs /\
    forall b row, nth_error g b = Some row -> length row = n /\ forall j y, nth_error row j = Some y -> y = autograd x Ts G (b * n + j).
Proof.
  intros root c Hc Hdj Hrt vs Gs x SE AE Hl n G X P. destruct (l16_backward_is_vjp root c Hc Hdj Hrt) as (W & FK & BW).
  pose proof (chain_root mops root c Hc) as HC. pose proof (ct_names _ _ _ HC) as Nm.
  assert (X' : forall b v j nm, nth_error vs b = Some v -> nth_error (moving_names root) j = Some nm -> x (b * n + j)%nat = v nm) by (rewrite <- Nm; exact X).
  assert (En : n = length (moving_names root)) by (unfold n; rewrite Nm; reflexivity).
  destruct (P x (fun _ _ => eq_refl)) as [P1 P2]. pose proof (l84_forward c SE AE (joint_vars (length vs) n) x P1 P2) as F.
  rewrite En in F at 1. rewrite (vars_eval0 root vs x) in F by (rewrite <- En; exact X'). rewrite FK in F.
  destruct (fk_graph c SE AE (joint_vars (length vs) n)) as [T|] eqn:ET; [|discriminate F]. cbn [lift] in F.
  assert (F' : map (option_map (map (ev4 x))) T = map Some (map (fun i => map (fun v => W v i) vs) (seq 0 (size root)))) by (rewrite map_map; congruence). clear F.
  destruct (some_map _ _ _ F') as (Ts & -> & ETs). destruct (BW vs Gs Hl) as (g & Bg & Lg & Dg). exists Ts, g. split; [reflexivity|].
  rewrite ETs. split; [exact Bg|]. split; [exact Lg|]. intros b row Hr.
  assert (Lb : (b < length vs)%nat) by (rewrite <- Lg; apply nth_error_Some; rewrite Hr; discriminate).
  destruct (nth_error vs b) as [v|] eqn:Hv; [|apply nth_error_None in Hv; lia]. destruct (nth_error Gs b) as [Gb|] eqn:HG; [|apply nth_error_None in HG; lia].
  destruct (Dg b v Gb row Hv HG Hr) as [Lr Dr]. split; [exact Lr|]. intros j y Hy.
  assert (Lj : (j < n)%nat) by (unfold n; rewrite <- Lr; apply nth_error_Some; rewrite Hy; discriminate).
  destruct (nth_error (c_names c) j) as [nm|] eqn:Hn; [|apply nth_error_None in Hn; unfold n in Lj; lia]. specialize (Dr j nm y Hn Hy).
  pose proof (autograd_deriv x Ts G (b * n + j)) as D. rewrite (X b v j nm Hv Hn) in D. apply is_derive_unique in D. rewrite <- D. symmetry. apply is_derive_unique.
  apply (is_derive_ext (fun t => rsum (map (fun i => frob (Gb i) (W (upd v nm t) i)) (seq 0 (size root))) +
    rsum (map (fun i => rsum (zip_with (fun G v => frob (G i) (W v i)) Gs vs) - frob (Gb i) (W v i)) (seq 0 (size root))))).
  2: exact (plus_const_deriv _ _ _ _ Dr).
  intros t. rewrite <- rsum_plus.
  assert (Bd : forall k, (length vs * n <= k)%nat -> xupd x (b * n + j) t k = x k) by (intros k Hk; unfold xupd; destruct (Nat.eqb_spec k (b * n + j)); [nia | reflexivity]).
  destruct (P _ Bd) as [Q1 Q2]. pose proof (l84_forward c SE AE (joint_vars (length vs) n) _ Q1 Q2) as F. rewrite ET in F. cbn [lift] in F.
  rewrite En in F at 1 2. rewrite Nm in Hn. rewrite (vars_eval root vs x b j v nm t Hdj) in F; [|rewrite <- En; exact X' | exact Hv | exact Hn]. rewrite FK in F.
  assert (F2 : map (map (ev4 (xupd x (b * n + j) t))) Ts = map (fun i => map (fun v => W v i) (set_nth b (upd v nm t) vs)) (seq 0 (size root))).
  { apply map_some_inj. rewrite !map_map. rewrite map_map in F. rewrite En in F |- *. cbn [option_map] in F. symmetry. congruence. }
  rewrite F2. unfold loss, G. rewrite zip_map_same. f_equal. apply map_ext. intros i. rewrite zip_map_l', zip_map_r'.
  rewrite (sum_set (fun (G : nat -> M4) (v : config (S := R)) => frob (G i) (W v i)) (upd v nm t) v Gb b vs Gs Hv HG). reflexivity.
Qed.

Lemma l84_scaled_refuted : exists c Ts, chain_init mops sc_root = Ok c /\ distinct_joints sc_root /\
  fk_graph c (map cst4 (c_static c)) (map cst3 (c_axes c)) (joint_vars 1 1) = Ok (map Some Ts) /\
  let x := fun _ => 0 in let G := [[mkM4 0 0 0 0 1 0 0 0 0 0 0 0 0 0 0 0]] in
  backward c 1 (map (map (ev4 x)) Ts) G = Ok [[2]] /\ autograd x Ts G 0 = 1.
Proof.
  eexists. exists [[sc_T]]. split; [reflexivity|]. split; [repeat constructor; intros []|].
  split; [reflexivity|]. intros x G.
  assert (ET : ev4 x sc_T = sc4).
  { unfold sc_T. rewrite <- ev4_mul, cst4_ev, <- ev4_rev, cst3_ev, m4mul_1_r. cbn [eval]. unfold x. rewrite rot44_0, m4mul_1_r. reflexivity. }
  split.
  - cbn [map]. rewrite ET. cbn [c_dof_frame c_mask c_dof_rev c_axes]. unfold backward. cbn [seq rmap rbind get of_opt nth_error map]. 
    unfold G. cbn [rmap rbind get of_opt nth_error]. unfold backward_row. cbn -[Rmult Rplus Ropp Rminus]. do 3 f_equal. lin_simpl. cbn. ring.
  - unfold autograd. cbn [zip_with rsum G]. unfold back4, entries, m4_entries, sc_T. cbn -[Rmult Rplus Ropp Rminus sin cos]. rewrite ?Rmult_0_l. cbn. unfold x. rewrite ?cos_0, ?sin_0. ring.
Qed.
