(** What it means that autograd through forward kinematics is right. *)
From Coq Require Import Reals Bool Arith List.
From Verif Require Import Prelude ChainModel Lin RotModel BackProofs AutoModel.
Import ListNotations.
Local Open Scope R_scope.

(** the numbers behind matrices of expressions *)
Definition ev3 (x : nat -> R) (k : E3) : V3 := mkV3 (eval x (ex k)) (eval x (ey k)) (eval x (ez k)).
Definition ev4 (x : nat -> R) (T : E4) : M4 := mkM4
    (eval x (e00 T))
    (eval x (e01 T))
    (eval x (e02 T))
    (eval x (e03 T))
    (eval x (e10 T))
    (eval x (e11 T))
    (eval x (e12 T))
    (eval x (e13 T))
    (eval x (e20 T))
    (eval x (e21 T))
    (eval x (e22 T))
    (eval x (e23 T))
    (eval x (e30 T))
    (eval x (e31 T))
    (eval x (e32 T))
    (eval x (e33 T)).
Definition ev_th (x : nat -> R) (th : thT expr) : thT R := mkTh (th_cols th) (map (map (eval x)) (th_rows th)).
(** a function on the result, errors left alone *)
Definition lift {A B} (f : A -> B) (r : res A) : res B := match r with Ok a => Ok (f a) | Err e => Err e end.
(** variable [v] set to [t] *)
Definition xupd (x : nat -> R) (v : nat) (t : R) : nat -> R := fun k => if Nat.eqb k v then t else x k.
(** the scalar whose gradient the backward pass with cotangents [Gs] computes *)
Definition loss (Gs Ws : list (list M4)) : R := rsum (zip_with (fun Gr Wr => rsum (zip_with frob Gr Wr)) Gs Ws).
