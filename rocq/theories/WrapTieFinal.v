(** Last steps of the proofs quoted in Properties_WrapTie.v. *)
From Coq Require Import Reals Lra String Bool Arith Lia List ZArith.
From Verif Require Import Prelude ExtF IKModel.
Import ListNotations.
Local Open Scope list_scope.
Local Open Scope R_scope.

Lemma rround_half (k : Z) : rround (IZR k + / 2) = if Z.even k then k else (k + 1)%Z.
Proof.
  unfold rround. replace (IZR k + / 2 - / 2) with (IZR k) by ring. assert (U : up (IZR k) = (k + 1)%Z) by (symmetry; apply tech_up; rewrite plus_IZR; lra).
  rewrite U. replace (k + 1 - 1)%Z with k by lia. destruct (Req_EM_T (IZR k) (IZR k)) as [_|N]; [reflexivity | contradiction].
Qed.
Lemma rround_off (x : R) (k : Z) : IZR k - / 2 < x < IZR k + / 2 -> rround x = k.
Proof.
  intros H. unfold rround. assert (U : up (x - / 2) = k) by (symmetry; apply tech_up; lra). rewrite U.
  destruct (Req_EM_T (x - / 2) (IZR (k - 1))) as [E|_]; [exfalso; rewrite minus_IZR in E; lra | lia].
Qed.
Lemma fdivr_fin x y : y <> 0 -> fdivr (Fin x) y = Fin (x / y).
Proof. intros H. unfold fdivr. replace (Reqb y 0) with false; [reflexivity|]. symmetry. unfold Reqb. destruct (Req_EM_T y 0); [contradiction | reflexivity]. Qed.

Lemma l43_nearest : forall lo hi x (k : Z), Rabs x < PI -> wrap1 true (Fin lo) (Fin hi) (Fin ((lo + hi) / 2 + x + 2 * PI * IZR k)) = Fin ((lo + hi) / 2 + x).
Proof.
  intros lo hi x k Hx. pose proof PI_RGT_0 as P. unfold wrap1, fsub. cbn [fadd fopp fmul]. rewrite fdivr_fin by lra. cbn [fadd]. rewrite fdivr_fin by lra.
  cbn [fround].
  rewrite (rround_off _ (- k)); [cbn [fmul fadd]; f_equal; rewrite opp_IZR; ring|]. apply Rabs_def2 in Hx. rewrite opp_IZR.
  replace (((lo + hi) / 2 + - ((lo + hi) / 2 + x + 2 * PI * IZR k)) / (2 * PI)) with (- IZR k - x / (2 * PI)) by (field; lra).
  assert (- / 2 < x / (2 * PI) < / 2); [|lra]. split; apply Rmult_lt_reg_r with (2 * PI); try lra; unfold Rdiv; rewrite Rmult_assoc, Rinv_l by lra; lra.
Qed.

Lemma l43_tie : forall lo hi (k : Z), wrap1 true (Fin lo) (Fin hi) (Fin ((lo + hi) / 2 + PI * IZR (2 * k + 1))) = Fin ((lo + hi) / 2 + if Z.even k then PI else - PI).
Proof.
  intros lo hi k. pose proof PI_RGT_0 as P. unfold wrap1, fsub. cbn [fadd fopp fmul]. rewrite fdivr_fin by lra. cbn [fadd]. rewrite fdivr_fin by lra.
  cbn [fround].
  replace (((lo + hi) / 2 + - ((lo + hi) / 2 + PI * IZR (2 * k + 1))) / (2 * PI)) with (IZR (- k - 1) + / 2) by (rewrite plus_IZR, mult_IZR, minus_IZR, opp_IZR; field; lra).
  rewrite rround_half. replace (Z.even (- k - 1)) with (negb (Z.even k)) by (rewrite Z.even_sub, Z.even_opp; destruct (Z.even k); reflexivity).
  destruct (Z.even k); cbn [negb fmul fadd]; f_equal; rewrite ?plus_IZR, ?minus_IZR, ?opp_IZR, ?mult_IZR, ?plus_IZR; field.
Qed.

Lemma l43_whole_turn_refuted : exists lo hi q y z, wrap1 true (Fin lo) (Fin hi) (Fin q) = Fin y /\ wrap1 true (Fin lo) (Fin hi) (Fin (q + 2 * PI)) = Fin z /\ y = hi /\ z = lo /\ y <> z.
Proof.
  pose proof PI_RGT_0 as P. exists (- PI), PI, (((- PI) + PI) / 2 + PI * IZR (2 * 0 + 1)). eexists. eexists. split; [apply (l43_tie (- PI) PI 0)|]. split.
  - replace (((- PI) + PI) / 2 + PI * IZR (2 * 0 + 1) + 2 * PI) with (((- PI) + PI) / 2 + PI * IZR (2 * 1 + 1)) by (cbn; field). apply (l43_tie (- PI) PI 1).
  - cbn [Z.even]. split; [field|]. split; [field | lra].
Qed.
