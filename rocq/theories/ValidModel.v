(** The check whether a tensor holds rotation matrices (transforms/transform3d.py:754-782). *)
From Coq Require Import Reals Bool Arith List.
From Verif Require Import Prelude ExtF Lin.
Import ListNotations.
Local Open Scope R_scope.

(** one matrix of the batch, entries may be infinite or NaN *)
Definition FM := nat -> nat -> F.
Definition three : list nat := [0%nat; 1%nat; 2%nat].
(** [torch.isclose(a, b, rtol, atol)] for a finite [b] *)
Definition isclose (rtol atol : R) (a : F) (b : R) : bool :=
  match a with Fin x => Rleb (Rabs (x - b)) (atol + rtol * Rabs b) | _ => false end.
(** the default tolerances of [torch.allclose] *)
Definition rtol5 : R := / 100000.
Definition atol8 : R := / 100000000.
(** entry of [R.bmm(R.transpose(1, 2))] *)
Definition gram (M : FM) (i j : nat) : F :=
  fadd (fadd (fmul (M i 0%nat) (M j 0%nat)) (fmul (M i 1%nat) (M j 1%nat))) (fmul (M i 2%nat) (M j 2%nat)).
(** [torch.det]; exact, and on entries that are not finite only known not to matter *)
Definition fdet (M : FM) : F :=
  let m i j := M i j in
  let minor a b c d := fsub (fmul a d) (fmul b c) in
  fadd (fsub (fmul (m 0 0)%nat (minor (m 1 1)%nat (m 1 2)%nat (m 2 1)%nat (m 2 2)%nat))
             (fmul (m 0 1)%nat (minor (m 1 0)%nat (m 1 2)%nat (m 2 0)%nat (m 2 2)%nat)))
       (fmul (m 0 2)%nat (minor (m 1 0)%nat (m 1 1)%nat (m 2 0)%nat (m 2 1)%nat)).
(** 773: [orthogonal], for one matrix *)
Definition orthogonal (tol : R) (M : FM) : bool :=
  forallb (fun i => forallb (fun j => isclose rtol5 tol (gram M i j) (if Nat.eqb i j then 1 else 0)) three) three.
(** 774-775: [no_distortion] *)
Definition no_distortion (M : FM) : bool := isclose rtol5 atol8 (fdet M) 1.
(** transform3d.py:754-782: true if the warning is given *)
Definition check_warns (compiling : bool) (tol : R) (Rs : list FM) : bool :=
  if compiling then false else negb (forallb (orthogonal tol) Rs && forallb no_distortion Rs).
