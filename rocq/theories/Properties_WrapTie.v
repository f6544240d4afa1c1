(** C43: which representative is taken when two are equally far from the middle of the limits. *)
From Coq Require Import Reals Lra String Bool Arith Lia List ZArith.
From Verif Require Import Prelude ExtF IKModel.
From Verif Require Import WrapTieFinal.
Import ListNotations.
Local Open Scope list_scope.
Local Open Scope R_scope.


(** C43.  The representative is the one nearest to the middle of the limits; of two equally near ones (half a turn to either side) it is the one reached by an even number
    of turns. *)
Theorem C43_nearest : forall lo hi x (k : Z), Rabs x < PI -> wrap1 true (Fin lo) (Fin hi) (Fin ((lo + hi) / 2 + x + 2 * PI * IZR k)) = Fin ((lo + hi) / 2 + x).
Proof. exact l43_nearest. Qed.
Print Assumptions C43_nearest.

Theorem C43_tie : forall lo hi (k : Z), wrap1 true (Fin lo) (Fin hi) (Fin ((lo + hi) / 2 + PI * IZR (2 * k + 1))) = Fin ((lo + hi) / 2 + if Z.even k then PI else - PI).
Proof. exact l43_tie. Qed.
Print Assumptions C43_tie.

Example C43_tie_ex : wrap1 true (Fin (- PI)) (Fin PI) (Fin (((- PI) + PI) / 2 + PI * IZR (2 * 0 + 1))) = Fin (((- PI) + PI) / 2 + PI) /\
  wrap1 true (Fin (-1)) (Fin 1) (Fin ((-1 + 1) / 2 + / 2 + 2 * PI * IZR 3)) = Fin ((-1 + 1) / 2 + / 2).
Proof.
  split; [apply (C43_tie (- PI) PI 0)|]. apply C43_nearest. rewrite Rabs_pos_eq by lra. pose proof PI2_3_2 as P. unfold PI2 in P. lra.
Qed.

(** So the result of wrapping is not a function of the angle: with limits of a whole turn, two joint values one turn apart come out at opposite limits. *)
Theorem C43_whole_turn_refuted : exists lo hi q y z, wrap1 true (Fin lo) (Fin hi) (Fin q) = Fin y /\ wrap1 true (Fin lo) (Fin hi) (Fin (q + 2 * PI)) = Fin z /\ y = hi /\ z = lo /\ y <> z.
Proof. exact l43_whole_turn_refuted. Qed.
Print Assumptions C43_whole_turn_refuted.
