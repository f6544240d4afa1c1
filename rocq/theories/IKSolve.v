(** The step oracle of [PseudoInverseIK.solve] for a serial chain: Jacobian, pose error and damped step of one row (ik.py:496-500). *)
From Coq Require Import Reals String Bool Arith Lia List.
From Verif Require Import Prelude ExtF Tree ChainModel Input Lin Trig RotModel ChainInst SerialModel JacModel IKModel IKKernel.
Import ListNotations.
Local Open Scope nat_scope.

Fixpoint fin_row_of (l : list F) : option (list R) :=
  match l with
  | [] => Some []
  | Fin x :: l => match fin_row_of l with Some r => Some (x :: r) | None => None end
  | _ => None
  end.
Definition fin3_of (v : F3) : option V3 :=
  match f3x v, f3y v, f3z v with Fin x, Fin y, Fin z => Some (mkV3 x y z) | _, _, _ => None end.

(** One row: [jacobian_tensor] of the row (rows of a batch do not influence each other, C02 and C14), then the kernel against the problem's
    target; [target_pos] and [target_wxyz] as in ik.py:466-470. *)
Definition pik_row (s : schain M4 V3) (target : M4) (reg lm : R) (w : option (nat -> R)) (row : list R) : res (list R * list R) :=
  do JT <- jacobian_tensor s (mkTh (length row) [row]);
  match JT with
  | ([J], [m]) =>
      let '(dp, dr) := delta_pose m (trp target) (matrix_to_quaternion (rotp target)) in
      do dr <- of_opt ValueError (fin3_of dr);
      do dq <- ik_step J (dp, dr) reg lm w;
      Ok (dq, map (six (dp, dr)) (seq 0 6))
  | _ => Err IndexError
  end.

(** The oracle of [solve] for the targets [targets p]; solve only uses problem numbers below the number of problems.  A row that is not finite
    gives NaN throughout.  So does a row of the wrong width and a row on which the code above raises; neither happens for the chains of
    the theorems. *)
Definition pik_kern (s : schain M4 V3) (targets : nat -> M4) (reg lm : R) (w : option (nat -> R)) (p : nat) (q : list F) : list F * list F :=
  let n := length (c_names (s_chain s)) in
  let nan := (repeat NaN n, repeat NaN 6) in
  match fin_row_of q with
  | Some row =>
      if Nat.eqb (length row) n then
        match pik_row s (targets p) reg lm w row with Ok (dq, dx) => (map Fin dq, map Fin dx) | Err _ => nan end
      else nan
  | None => nan
  end.

(** ik.py:320-330 and 610-613: the attributes read from the chain.  [o] carries the attributes that are plain constructor arguments. *)
Definition rev_mask (s : schain M4 V3) : list bool := map (fun j => jtype_eqb (j_type j) Revolute) (get_joints true (c_root (s_chain s))).
Definition pik_init (s : schain M4 V3) (o : ik) : ik :=
  mkIK (length (get_joint_parameter_names true (c_root (s_chain s)))) (ik_nr o) (ik_ptol o) (ik_rtol o) (ik_max o) (ik_lr o) (ik_ls o) (ik_stop_any o) (ik_noimp o)
    (ik_patience o) (ik_enforce o) (ik_refine o) (ik_clamp o && existsb isfinite (c_low (s_chain s))) (c_low (s_chain s)) (c_high (s_chain s)) (rev_mask s).
