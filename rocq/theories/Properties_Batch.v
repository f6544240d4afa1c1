(** C87: inverse kinematics problems solved together and alone. *)
From Coq Require Import Reals Lra Bool Arith Lia List ZArith.
From Verif Require Import Prelude ExtF IKModel IKProofs IKMore SpecBatch IKBatch.
From Verif Require Import BatchFinal.
Import ListNotations.
Local Open Scope nat_scope.
Local Open Scope list_scope.


(** Solving some of the problems of a batch, in any order, instead of the whole batch.  The whole batch never takes fewer iterations.  If it takes the same
    number, all answers are the same.  Otherwise at least every attempt that converged keeps its answer. *)
Theorem C87_part : forall kern k np q0 pick, 0 < ik_nr k -> length q0 = np * ik_nr k -> ik_ls k = None -> (forall p, In p pick -> p < np) ->
  exists s s', solve_from kern k np q0 = Ok s /\ solve_from (sub_kern kern pick) k (length pick) (sub_rows (ik_nr k) q0 pick) = Ok s' /\ s_iter s' <= s_iter s /\
  (s_iter s' = s_iter s -> forall i p r, nth_error pick i = Some p -> r < ik_nr k -> entry_at s' i r = entry_at s p r) /\
  (ik_enforce k = false -> forall i p r e', nth_error pick i = Some p -> r < ik_nr k -> entry_at s' i r = Some e' -> e_conv e' = true ->
     exists e, entry_at s p r = Some e /\ e_q e = e_q e' /\ e_pos e = e_pos e' /\ e_rot e = e_rot e' /\ e_conv e = true).
Proof. exact l87_part. Qed.
Print Assumptions C87_part.

(** With limit enforcement: an attempt that had converged before the enforcement gets the same answer. *)
Theorem C87_part_enforced : forall kern k np q0 pick, 0 < ik_nr k -> length q0 = np * ik_nr k -> ik_ls k = None -> (forall p, In p pick -> p < np) ->
  exists s s' u', solve_from kern k np q0 = Ok s /\ solve_from (sub_kern kern pick) k (length pick) (sub_rows (ik_nr k) q0 pick) = Ok s' /\
  solve_from (sub_kern kern pick) (no_enforce k) (length pick) (sub_rows (ik_nr k) q0 pick) = Ok u' /\
  (ik_enforce k = true -> (exists x, In x (ik_low k ++ ik_high k) /\ isfinite x = true) ->
   forall i p r e', nth_error pick i = Some p -> r < ik_nr k -> entry_at u' i r = Some e' -> e_conv e' = true -> entry_at s' i r = entry_at s p r).
Proof. exact l87_part_enforced. Qed.
Print Assumptions C87_part_enforced.

(** The number of iterations of a batch is that of the problem that takes longest alone. *)
Theorem C87_iterations : forall kern k np q0, 0 < ik_nr k -> length q0 = np * ik_nr k -> ik_ls k = None -> 0 < np ->
  exists s, solve_from kern k np q0 = Ok s /\
  (forall p, p < np -> exists s', solve_from (fun _ => kern p) k 1 (rows_of (ik_nr k) q0 p) = Ok s' /\ s_iter s' <= s_iter s) /\
  exists p s', p < np /\ solve_from (fun _ => kern p) k 1 (rows_of (ik_nr k) q0 p) = Ok s' /\ s_iter s' = s_iter s.
Proof. exact l87_iterations. Qed.
Print Assumptions C87_iterations.

(** Without early stopping every attempt gets the answer it would get alone. *)
Theorem C87_attempt_alone : forall kern k np q0 p r, 0 < ik_nr k -> length q0 = np * ik_nr k -> ik_ls k = None -> ik_stop_any k = false -> ik_noimp k = NoStop ->
  p < np -> r < ik_nr k ->
  exists s s' e, solve_from kern k np q0 = Ok s /\ solve_from (fun _ => kern p) (one_retry k) 1 [nth (p * ik_nr k + r) q0 []] = Ok s' /\
  entry_at s p r = Some e /\ entry_at s' 0 0 = Some e.
Proof. exact l87_attempt_alone. Qed.
Print Assumptions C87_attempt_alone.

(** With early stopping the answer to a problem depends on the other problems of its batch: here it is given up after two iterations when it is solved alone,
    and solved in the third when another problem keeps the loop going. *)
Theorem C87_independent_refuted : exists kern k q0 s s' e e', ik_nr k = 1 /\ ik_ls k = None /\ ik_enforce k = false /\
  solve_from kern k 2 q0 = Ok s /\ solve_from (fun _ => kern 0) k 1 (rows_of 1 q0 0) = Ok s' /\ s_iter s' = 2 /\ s_iter s = 3 /\
  entry_at s' 0 0 = Some e' /\ e_conv e' = false /\ entry_at s 0 0 = Some e /\ e_conv e = true /\ e_q e = [Fin 3%R].
Proof. exact l87_independent_refuted. Qed.
Print Assumptions C87_independent_refuted.

(** With a line search even the steps depend on the batch: the search is left out when no problem remains, so that a problem that was just given up makes a full step
    when it is alone, and a halved one when another problem remains. *)
Theorem C87_line_search_refuted : exists s s' e e',
  solve_from (fun _ => flat_kern 0) (halving_ik (fun _ => flat_kern 0)) 1 [[Fin 0%R]] = Ok s' /\ entry_at s' 0 0 = Some e' /\ e_conv e' = true /\ s_iter s' = 2 /\
  solve_from flat_kern (halving_ik flat_kern) 2 [[Fin 0%R]; [Fin 0%R]] = Ok s /\ entry_at s 0 0 = Some e /\ e_conv e = false /\ s_iter s = 2.
Proof. exact l87_line_search_refuted. Qed.
Print Assumptions C87_line_search_refuted.

(** ** Examples *)
Example C87_part_ex : exists s s', solve_from toward (toward_ik true false) 2 [[Fin 0%R]; [Fin 0%R]] = Ok s /\ solve_from (sub_kern toward [1]) (toward_ik true false) 1 [[Fin 0%R]] = Ok s' /\ s_iter s' <= s_iter s.
Proof.
  destruct (C87_part toward (toward_ik true false) 2 [[Fin 0%R]; [Fin 0%R]] [1] ltac:(cbn; lia) eq_refl eq_refl) as (s & s' & H1 & H2 & H3 & _); [intros p [<-|[]]; lia|]. exists s, s'. split; [exact H1|]. split; [exact H2 | exact H3].
Qed.
Example C87_part_enforced_ex : exists u', solve_from (sub_kern toward [1]) (no_enforce (toward_ik true true)) 1 [[Fin 1%R]] = Ok u' /\ exists e, entry_at u' 0 0 = Some e /\ e_conv e = true.
Proof.
  eexists. split; [cbv -[Rplus Rmult Rminus Rdiv Rinv Ropp Rltb IZR fnorm INR]; replace (INR 1 - 1)%R with 0%R by (cbn; lra); rewrite !norm3 by lra; cbv -[Rplus Rmult Rminus Rdiv Rinv Ropp Rltb IZR fnorm INR]; ev; reflexivity|].
  eexists. split; reflexivity.
Qed.
Example C87_iterations_ex : exists p s', p < 2 /\ solve_from (fun _ => toward p) (toward_ik true false) 1 [[Fin 0%R]] = Ok s'.
Proof.
  destruct (C87_iterations toward (toward_ik true false) 2 [[Fin 0%R]; [Fin 0%R]] ltac:(cbn; lia) eq_refl eq_refl ltac:(lia)) as (s & _ & _ & p & s' & Hp & E & _). exists p, s'. split; [exact Hp|].
  destruct p as [|[|p]]; [exact E | exact E | lia].
Qed.
Example C87_attempt_alone_ex : exists s s' e, solve_from toward (toward_ik false true) 2 [[Fin 0%R]; [Fin 0%R]] = Ok s /\ solve_from (fun _ => toward 1) (one_retry (toward_ik false true)) 1 [[Fin 0%R]] = Ok s' /\ entry_at s 1 0 = Some e /\ entry_at s' 0 0 = Some e.
Proof. apply (C87_attempt_alone toward (toward_ik false true) 2 [[Fin 0%R]; [Fin 0%R]] 1 0); [cbn; lia | reflexivity | reflexivity | reflexivity | reflexivity | lia | cbn; lia]. Qed.
