(** C84: autograd through forward kinematics. *)
From Coq Require Import Reals Lra String Bool Arith Lia List.
From Coquelicot Require Import Coquelicot.
From Verif Require Import Prelude ExtF Tree ChainModel SpecFK ChainProofs ChainTables Lin RotModel RotBasic ChainInst SerialModel SerialProofs Deriv JacModel BackProofs JacFinal FKMore Examples
  AutoModel SpecAuto AutoProofs.
From Verif Require Import AutoFinal.
Import ListNotations.
Local Open Scope R_scope.


(** the graph has the values of forward kinematics, error for error *)
Theorem C84_forward : forall (c : chain M4 V3) SE AE th x, map (ev4 x) SE = c_static c -> map (ev3 x) AE = c_axes c ->
  forward_kinematics_tensor mops c (ev_th x th) = lift (map (option_map (map (ev4 x)))) (fk_graph c SE AE th).
Proof. exact l84_forward. Qed.
Print Assumptions C84_forward.

(** whatever the variables are, joint values, static offsets or axes: the backward pass gives the partial derivatives of the scalar that the
    cotangents stand for, as a function of the numbers that [_fk_impl] gets *)
Theorem C84_autograd : forall (c : chain M4 V3) SE AE th Ts, fk_graph c SE AE th = Ok (map Some Ts) ->
  exists W : (nat -> R) -> list (list M4),
    (forall x, fk_impl mops (ev_th x th) (map (ev4 x) SE) (c_jclamp c) (c_jtype c) (c_dpar c) (c_levels c) (map (ev3 x) AE) (c_has_rev c) (c_has_pris c) (c_nf c) = Ok (map Some (W x))) /\
    forall x Gs v, is_derive (fun t => loss Gs (W (xupd x v t))) (x v) (autograd x Ts Gs v).
Proof. exact l84_autograd. Qed.
Print Assumptions C84_autograd.
(** for trees with distinct joint names, rigid offsets and unit axes the default backward pass gives what autograd gives *)
Theorem C84_agree : forall (root : mframe) c, chain_init mops root = Ok c -> distinct_joints root -> rigid_tree root ->
  forall (vs : list (config (S := R))) (Gs : list (nat -> M4)) x SE AE, length Gs = length vs ->
  let n := length (c_names c) in let G := map (fun i => map (fun G => G i) Gs) (seq 0 (size root)) in
  (forall b v j nm, nth_error vs b = Some v -> nth_error (c_names c) j = Some nm -> x (b * n + j)%nat = v nm) ->
  (forall x', (forall k, (length vs * n <= k)%nat -> x' k = x k) -> map (ev4 x') SE = c_static c /\ map (ev3 x') AE = c_axes c) ->
  exists Ts g, fk_graph c SE AE (joint_vars (length vs) n) = Ok (map Some Ts) /\
    backward c (length vs) (map (map (ev4 x)) Ts) G = Ok g /\ length g = length vs /\
    forall b row, nth_error g b = Some row -> length row = n /\ forall j y, nth_error row j = Some y -> y = autograd x Ts G (b * n + j).
Proof. exact l84_agree. Qed.
Print Assumptions C84_agree.
Example C84_agree_ex : exists c Ts g, chain_init mops pl_root = Ok c /\ fk_graph c (map cst4 (c_static c)) (map cst3 (c_axes c)) (joint_vars 1 1) = Ok (map Some Ts) /\
  backward c 1 (map (map (ev4 (fun _ => PI))) Ts) [[mkM4 0 0 0 0 1 0 0 0 0 0 0 0 0 0 0 0]] = Ok [[g]] /\
  g = autograd (fun _ => PI) Ts [[mkM4 0 0 0 0 1 0 0 0 0 0 0 0 0 0 0 0]] 0.
Proof.
  destruct (chain_init_ok mops pl_root) as (c & Hc & HC). destruct pl_ok as [D Rt]. assert (En : length (c_names c) = 1%nat) by (rewrite (ct_names _ _ _ HC); reflexivity).
  destruct (C84_agree pl_root c Hc D Rt [fun _ => PI] [fun _ => mkM4 0 0 0 0 1 0 0 0 0 0 0 0 0 0 0 0] (fun _ => PI) (map cst4 (c_static c)) (map cst3 (c_axes c)) eq_refl) as (Ts & g & E1 & E2 & E3 & E4).
  - intros b v j nm Hv _. destruct b as [|[|b]]; [|discriminate Hv..]. cbn in Hv. assert (v = fun _ => PI) by congruence. subst v. reflexivity.
  - intros x' _. apply cst_params.
  - rewrite En in *. cbn [length] in *. destruct g as [|row [|r g]]; try discriminate E3. destruct (E4 0%nat row eq_refl) as [L H]. destruct row as [|y [|z row]]; try discriminate L.
    exists c, Ts, y. split; [exact Hc|]. split; [exact E1|]. split; [exact E2|]. exact (H 0%nat y eq_refl).
Qed.

(** the graph also reaches the parameters: the x coordinate of the pose with respect to that of the static offset *)
Example C84_parameters_ex : exists c Ts, chain_init mops pl_root = Ok c /\
  fk_graph c [mkE4 one zero zero (EVar 1) zero one zero zero zero zero one zero zero zero zero one] (map cst3 (c_axes c)) (joint_vars 1 1) = Ok (map Some Ts) /\
  autograd (fun _ => 0) Ts [[mkM4 0 0 0 1 0 0 0 0 0 0 0 0 0 0 0 0]] 1 = 1.
Proof.
  eexists. eexists [[e4mul _ (e4rev (cst3 zax) (EVar 0))]]. split; [reflexivity|]. split; [reflexivity|].
  unfold autograd. cbn [zip_with rsum]. unfold back4, entries, m4_entries. cbn -[Rmult Rplus Ropp Rminus sin cos]. ring.
Qed.

(** with an offset that scales, the two backward passes differ *)
Theorem C84_scaled_refuted : exists c Ts, chain_init mops sc_root = Ok c /\ distinct_joints sc_root /\
  fk_graph c (map cst4 (c_static c)) (map cst3 (c_axes c)) (joint_vars 1 1) = Ok (map Some Ts) /\
  let x := fun _ => 0 in let G := [[mkM4 0 0 0 0 1 0 0 0 0 0 0 0 0 0 0 0]] in
  backward c 1 (map (map (ev4 x)) Ts) G = Ok [[2]] /\ autograd x Ts G 0 = 1.
Proof. exact l84_scaled_refuted. Qed.
Print Assumptions C84_scaled_refuted.
