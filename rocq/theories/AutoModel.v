(** Autograd through forward kinematics: [forward_kinematics_tensor(th, analytical_grad=False)] (chain.py:507-540).

    The program [_fk_impl] of [ChainModel] is run on expressions instead of numbers, so that its result is the graph that autograd
    records: joint values, and where wanted static offsets and axes, are variables.  The backward pass pushes the cotangent of an output down
    its expression with the formulas of PyTorch.  The graph is unfolded to a tree: autograd adds the cotangents of all uses of a node before it
    goes on, here every use is pushed down on its own; over real numbers the sums are the same, the formulas being linear.  The branch that
    [torch.where] does not take would receive zeros and is left out; all operations are finite, so zeros stay zeros. *)
From Coq Require Import Reals Bool Arith List.
From Verif Require Import Prelude ChainModel Lin RotModel BackProofs.
Import ListNotations.
Local Open Scope R_scope.

Inductive expr :=
| EVar (k : nat) | ECst (r : R) | EAdd (a b : expr) | ESub (a b : expr) | EMul (a b : expr) | ESin (a : expr) | ECos (a : expr).
Fixpoint eval (x : nat -> R) (e : expr) : R :=
  match e with
  | EVar k => x k | ECst r => r
  | EAdd a b => eval x a + eval x b | ESub a b => eval x a - eval x b | EMul a b => eval x a * eval x b
  | ESin a => sin (eval x a) | ECos a => cos (eval x a)
  end.
(** what the cotangent [g] of the expression contributes to the gradient of variable [v] (derivatives.yaml: add, sub, mul, sin, cos) *)
Fixpoint back (x : nat -> R) (e : expr) (g : R) (v : nat) : R :=
  match e with
  | EVar k => if Nat.eqb v k then g else 0
  | ECst _ => 0
  | EAdd a b => back x a g v + back x b g v
  | ESub a b => back x a g v + back x b (- g) v
  | EMul a b => back x a (g * eval x b) v + back x b (g * eval x a) v
  | ESin a => back x a (g * cos (eval x a)) v
  | ECos a => back x a (g * - sin (eval x a)) v
  end.

(** ** The operations of [_fk_impl] on matrices of expressions *)
Record E3 := mkE3 { ex : expr; ey : expr; ez : expr }.
Record E4 := mkE4 { e00 : expr; e01 : expr; e02 : expr; e03 : expr; e10 : expr; e11 : expr; e12 : expr; e13 : expr; e20 : expr; e21 : expr; e22 : expr; e23 : expr; e30 : expr; e31 : expr; e32 : expr; e33 : expr }.
Definition zero := ECst 0. Definition one := ECst 1.
(** [@] *)
Definition e4mul (A B : E4) : E4 :=
  mkE4
    (EAdd (EAdd (EAdd (EMul (e00 A) (e00 B)) (EMul (e01 A) (e10 B))) (EMul (e02 A) (e20 B))) (EMul (e03 A) (e30 B)))
    (EAdd (EAdd (EAdd (EMul (e00 A) (e01 B)) (EMul (e01 A) (e11 B))) (EMul (e02 A) (e21 B))) (EMul (e03 A) (e31 B)))
    (EAdd (EAdd (EAdd (EMul (e00 A) (e02 B)) (EMul (e01 A) (e12 B))) (EMul (e02 A) (e22 B))) (EMul (e03 A) (e32 B)))
    (EAdd (EAdd (EAdd (EMul (e00 A) (e03 B)) (EMul (e01 A) (e13 B))) (EMul (e02 A) (e23 B))) (EMul (e03 A) (e33 B)))
    (EAdd (EAdd (EAdd (EMul (e10 A) (e00 B)) (EMul (e11 A) (e10 B))) (EMul (e12 A) (e20 B))) (EMul (e13 A) (e30 B)))
    (EAdd (EAdd (EAdd (EMul (e10 A) (e01 B)) (EMul (e11 A) (e11 B))) (EMul (e12 A) (e21 B))) (EMul (e13 A) (e31 B)))
    (EAdd (EAdd (EAdd (EMul (e10 A) (e02 B)) (EMul (e11 A) (e12 B))) (EMul (e12 A) (e22 B))) (EMul (e13 A) (e32 B)))
    (EAdd (EAdd (EAdd (EMul (e10 A) (e03 B)) (EMul (e11 A) (e13 B))) (EMul (e12 A) (e23 B))) (EMul (e13 A) (e33 B)))
    (EAdd (EAdd (EAdd (EMul (e20 A) (e00 B)) (EMul (e21 A) (e10 B))) (EMul (e22 A) (e20 B))) (EMul (e23 A) (e30 B)))
    (EAdd (EAdd (EAdd (EMul (e20 A) (e01 B)) (EMul (e21 A) (e11 B))) (EMul (e22 A) (e21 B))) (EMul (e23 A) (e31 B)))
    (EAdd (EAdd (EAdd (EMul (e20 A) (e02 B)) (EMul (e21 A) (e12 B))) (EMul (e22 A) (e22 B))) (EMul (e23 A) (e32 B)))
    (EAdd (EAdd (EAdd (EMul (e20 A) (e03 B)) (EMul (e21 A) (e13 B))) (EMul (e22 A) (e23 B))) (EMul (e23 A) (e33 B)))
    (EAdd (EAdd (EAdd (EMul (e30 A) (e00 B)) (EMul (e31 A) (e10 B))) (EMul (e32 A) (e20 B))) (EMul (e33 A) (e30 B)))
    (EAdd (EAdd (EAdd (EMul (e30 A) (e01 B)) (EMul (e31 A) (e11 B))) (EMul (e32 A) (e21 B))) (EMul (e33 A) (e31 B)))
    (EAdd (EAdd (EAdd (EMul (e30 A) (e02 B)) (EMul (e31 A) (e12 B))) (EMul (e32 A) (e22 B))) (EMul (e33 A) (e32 B)))
    (EAdd (EAdd (EAdd (EMul (e30 A) (e03 B)) (EMul (e31 A) (e13 B))) (EMul (e32 A) (e23 B))) (EMul (e33 A) (e33 B))).
(** [torch.eye(4)] *)
Definition e4one : E4 := mkE4 one zero zero zero zero one zero zero zero zero one zero zero zero zero one.
(** rotation_conversions.py:475-524 *)
Definition e4rev (k : E3) (theta : expr) : E4 :=
  let c := ECos theta in let o := ESub one c in let s := ESin theta in let kx := ex k in let ky := ey k in let kz := ez k in
  let t a b := EMul (EMul a b) o in
  mkE4 (EAdd c (t kx kx)) (ESub (t kx ky) (EMul kz s)) (EAdd (t kx kz) (EMul ky s)) zero
       (EAdd (t ky kx) (EMul kz s)) (EAdd c (t ky ky)) (ESub (t ky kz) (EMul kx s)) zero
       (ESub (t kz kx) (EMul ky s)) (EAdd (t kz ky) (EMul kx s)) (EAdd c (t kz kz)) zero
       zero zero zero one.
(** rotation_conversions.py:452-472 *)
Definition e4pris (k : E3) (d : expr) : E4 :=
  mkE4 one zero zero (EMul (ex k) d) zero one zero (EMul (ey k) d) zero zero one (EMul (ez k) d) zero zero zero one.
Definition eops : Ops E4 E3 expr := mkOps E4 E3 expr e4mul e4one e4rev e4pris (mkE3 zero zero zero).

(** ** The backward pass from all outputs *)
Definition entries (T : E4) : list expr := [e00 T; e01 T; e02 T; e03 T; e10 T; e11 T; e12 T; e13 T; e20 T; e21 T; e22 T; e23 T; e30 T; e31 T; e32 T; e33 T].
Definition m4_entries (G : M4) : list R := [a00 G; a01 G; a02 G; a03 G; a10 G; a11 G; a12 G; a13 G; a20 G; a21 G; a22 G; a23 G; a30 G; a31 G; a32 G; a33 G].
Definition back4 (x : nat -> R) (T : E4) (G : M4) (v : nat) : R := rsum (zip_with (fun e g => back x e g v) (entries T) (m4_entries G)).
(** [Ts] and the cotangents [Gs] by frames and rows of the batch *)
Definition autograd (x : nat -> R) (Ts : list (list E4)) (Gs : list (list M4)) (v : nat) : R :=
  rsum (zip_with (fun Tr Gr => rsum (zip_with (fun T G => back4 x T G v) Tr Gr)) Ts Gs).

(** the joint values as variables: row [b], column [j] is variable [b * n + j] *)
Definition joint_vars (B n : nat) : thT expr := mkTh n (map (fun b => map (fun j => EVar (b * n + j)) (seq 0 n)) (seq 0 B)).
(** chain.py:537-540 with static offsets and axes as expressions *)
Definition fk_graph (c : chain M4 V3) (static : list E4) (axes : list E3) (th : thT expr) : res (list (option (list E4))) :=
  fk_impl eops th static (c_jclamp c) (c_jtype c) (c_dpar c) (c_levels c) axes (c_has_rev c) (c_has_pris c) (c_nf c).
(** parameters that are no variables *)
Definition cst3 (k : V3) : E3 := mkE3 (ECst (vx k)) (ECst (vy k)) (ECst (vz k)).
Definition cst4 (M : M4) : E4 := mkE4
  (ECst (a00 M)) (ECst (a01 M)) (ECst (a02 M)) (ECst (a03 M)) (ECst (a10 M)) (ECst (a11 M)) (ECst (a12 M)) (ECst (a13 M))
  (ECst (a20 M)) (ECst (a21 M)) (ECst (a22 M)) (ECst (a23 M)) (ECst (a30 M)) (ECst (a31 M)) (ECst (a32 M)) (ECst (a33 M)).
