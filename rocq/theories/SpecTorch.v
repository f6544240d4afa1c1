(** What it means that a function on tensors works row by row. *)
From Coq Require Import Reals Arith List.
From Verif Require Import Prelude ExtF Lin RotModel TorchModel.
Import ListNotations.
Local Open Scope nat_scope.

(** the indices of a tensor of shape [s] *)
Definition valid (s i : list nat) : Prop := Forall2 lt i s.
(** the quaternion, vector, six or nine numbers, 3x3 or 4x4 matrix at index [b] of the leading dimensions *)
Definition q_at (t : tensor R) (b : list nat) : Q := let a k := at_ t (k :: b) in mkQ (a 0) (a 1) (a 2) (a 3).
Definition v_at (t : tensor R) (b : list nat) : V3 := let a k := at_ t (k :: b) in mkV3 (a 0) (a 1) (a 2).
Definition v4_at (t : tensor R) (b : list nat) : V4 := let a k := at_ t (k :: b) in mkV4 (a 0) (a 1) (a 2) (a 3).
Definition f3_at (t : tensor F) (b : list nat) : F3 := let a k := at_ t (k :: b) in mkF3 (a 0) (a 1) (a 2).
Definition six_at (t : tensor R) (b : list nat) : V3 * V3 := let a k := at_ t (k :: b) in (mkV3 (a 0) (a 1) (a 2), mkV3 (a 3) (a 4) (a 5)).
Definition nine_at (t : tensor R) (b : list nat) : V3 * V3 * V3 := let a k := at_ t (k :: b) in (six_at t b, mkV3 (a 6) (a 7) (a 8)).
Definition m3_at (t : tensor R) (b : list nat) : M3 :=
  let a r c := at_ t (c :: r :: b) in mkM3 (a 0 0) (a 0 1) (a 0 2) (a 1 0) (a 1 1) (a 1 2) (a 2 0) (a 2 1) (a 2 2).
Definition m4_at (t : tensor R) (b : list nat) : M4 :=
  let a r c := at_ t (c :: r :: b) in
  mkM4 (a 0 0) (a 0 1) (a 0 2) (a 0 3) (a 1 0) (a 1 1) (a 1 2) (a 1 3) (a 2 0) (a 2 1) (a 2 2) (a 2 3) (a 3 0) (a 3 1) (a 3 2) (a 3 3).
(** [e] is a tensor of shape [tail] (the last dimensions) after [B] (the leading ones), and at each index [b] of those [read] finds [f b] there *)
Definition rowwise {A X} (read : tensor A -> list nat -> X) (tail B : list nat) (e : ten A) (f : list nat -> X) : Prop :=
  exists t, e = Ok t /\ shape t = tail ++ B /\ forall b, valid B b -> read t b = f b.
Definition fails {A} (e : ten A) : Prop := exists x, e = Err x.
(** the leading shapes [B1] and [B2] can be broadcast together to [B]: from the last dimension on, each pair of sizes is equal, or one of them is one,
    or missing; the larger one is taken (a size of zero wins over one) *)
Inductive together : list nat -> list nat -> list nat -> Prop :=
| tg_left B : together B [] B
| tg_right B : together [] B B
| tg_same n A B C : together A B C -> together (n :: A) (n :: B) (n :: C)
| tg_one_l n A B C : together A B C -> together (1 :: A) (n :: B) (n :: C)
| tg_one_r n A B C : together A B C -> together (n :: A) (1 :: B) (n :: C).
(** [reads A b a]: a tensor of leading shape [A] that is broadcast to a larger leading shape is read at [a] for the index [b] of the larger shape *)
Inductive reads : list nat -> list nat -> list nat -> Prop :=
| rd_missing b : reads [] b []
| rd_one A i b a : reads A b a -> reads (1 :: A) (i :: b) (0 :: a)
| rd_same n A i b a : n <> 1 -> reads A b a -> reads (n :: A) (i :: b) (i :: a).
(** [e] has the leading shape [C], and for each index [b] of it [read] finds [f a1 a2], where the two arguments of leading shapes [A1] and [A2]
    are read at [a1] and [a2] *)
Definition rowwise2 {A X} (read : tensor A -> list nat -> X) (tail A1 A2 C : list nat) (e : ten A) (f : list nat -> list nat -> X) : Prop :=
  exists t, e = Ok t /\ shape t = tail ++ C /\ forall b a1 a2, valid C b -> reads A1 b a1 -> reads A2 b a2 -> read t b = f a1 a2.
