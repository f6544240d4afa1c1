(** The tensor operations of torch that transforms/rotation_conversions.py uses, on tensors of any shape.

    Shapes and indices are written from the last dimension to the first: a torch tensor of shape (2, 5, 4) has the shape [4; 5; 2] here, and
    its entry [b, a, k] is at [k; a; b].  A tensor is its shape and its entries as a function of the index; only indices below the
    shape mean anything.  Expressions are [res] values, so that an error anywhere inside an expression is its result; which of several
    errors comes first is not meant. *)
From Coq Require Import Reals Bool Arith List.
From Verif Require Import Prelude ExtF Lin RotModel.
Import ListNotations.
Local Open Scope nat_scope.

Record tensor (A : Type) := mkT { shape : list nat; at_ : list nat -> A }.
Arguments mkT {A}. Arguments shape {A}. Arguments at_ {A}.
Definition ten (A : Type) := res (tensor A).

(** ** Elementwise operations with broadcasting *)
Fixpoint bshape (a b : list nat) : option (list nat) :=
  match a, b with
  | [], _ => Some b
  | _, [] => Some a
  | x :: a, y :: b =>
      match bshape a b with
      | Some r => if x =? y then Some (x :: r) else if x =? 1 then Some (y :: r) else if y =? 1 then Some (x :: r) else None
      | None => None
      end
  end.
(** the entry of a tensor of shape [s] that is read for entry [i] of the result: missing dimensions are left out, dimensions of size one are read at 0 *)
Fixpoint bidx (s i : list nat) : list nat :=
  match s with
  | [] => []
  | n :: s => (if n =? 1 then 0 else hd 0 i) :: bidx s (tl i)
  end.
Definition op1 {A B} (g : A -> B) (e : ten A) : ten B := do t <- e; Ok (mkT (shape t) (fun i => g (at_ t i))).
Definition op2 {A B C} (g : A -> B -> C) (e1 : ten A) (e2 : ten B) : ten C :=
  do t <- e1; do u <- e2;
  match bshape (shape t) (shape u) with
  | Some s => Ok (mkT s (fun i => g (at_ t (bidx (shape t) i)) (at_ u (bidx (shape u) i))))
  | None => Err RuntimeError
  end.
(** a Python number *)
Definition num (r : R) : ten R := Ok (mkT [] (fun _ => r)).
(** [torch.where] *)
Definition where_ {A} (c : ten bool) (a b : ten A) : ten A := op2 (fun c (ab : A * A) => if c : bool then fst ab else snd ab) c (op2 pair a b).

(** ** Taking apart and putting together *)
(** the [k]-th tensor of [torch.unbind(t, -1)] unpacked into [n] names *)
Definition unb {A} (n k : nat) (e : ten A) : ten A :=
  do t <- e;
  match shape t with
  | [] => Err IndexError
  | m :: s => if m =? n then Ok (mkT s (fun i => at_ t (k :: i))) else Err ValueError
  end.
(** [t[..., k]] and [t[..., k, :]] *)
Definition sel {A} (k : nat) (e : ten A) : ten A :=
  do t <- e;
  match shape t with
  | m :: s => if k <? m then Ok (mkT s (fun i => at_ t (k :: i))) else Err IndexError
  | [] => Err IndexError
  end.
Definition sel2 {A} (k : nat) (e : ten A) : ten A :=
  do t <- e;
  match shape t with
  | n :: m :: s => if k <? m then Ok (mkT (n :: s) (fun i => at_ t (hd 0 i :: k :: tl i))) else Err IndexError
  | _ => Err IndexError
  end.
(** [t[..., -1]] *)
Definition sel_end {A} (e : ten A) : ten A :=
  do t <- e; match shape t with S m :: s => Ok (mkT s (fun i => at_ t (m :: i))) | _ => Err IndexError end.
(** [t[..., lo:hi]] and [t[..., lo:hi, :]]; a slice is cut at the end of the dimension *)
Definition slice {A} (lo hi : nat) (e : ten A) : ten A :=
  do t <- e;
  match shape t with
  | m :: s => Ok (mkT (Nat.min hi m - Nat.min lo m :: s) (fun i => at_ t (lo + hd 0 i :: tl i)))
  | [] => Err IndexError
  end.
Definition slice2 {A} (lo hi : nat) (e : ten A) : ten A :=
  do t <- e;
  match shape t with
  | n :: m :: s => Ok (mkT (n :: Nat.min hi m - Nat.min lo m :: s) (fun i => at_ t (hd 0 i :: lo + hd 0 (tl i) :: tl (tl i))))
  | _ => Err IndexError
  end.
(** [t[..., lo:]] *)
Definition from {A} (lo : nat) (e : ten A) : ten A := do t <- e; match shape t with m :: _ => slice lo m e | [] => Err IndexError end.
(** [t.unsqueeze(-1)], [t[..., None]]; [t.squeeze(-2)] of a dimension of size one *)
Definition unsqueeze {A} (e : ten A) : ten A := do t <- e; Ok (mkT (1 :: shape t) (fun i => at_ t (tl i))).
Definition squeeze2 {A} (e : ten A) : ten A :=
  do t <- e;
  match shape t with n :: 1 :: s => Ok (mkT (n :: s) (fun i => at_ t (hd 0 i :: 0 :: tl i))) | _ => Ok t end.
(** [torch.stack(..., -1)] and [torch.stack(..., -2)] *)
Fixpoint all_ok {A} (es : list (res A)) : res (list A) :=
  match es with [] => Ok [] | e :: es => do x <- e; do xs <- all_ok es; Ok (x :: xs) end.
Fixpoint eqb_list (a b : list nat) : bool := match a, b with [], [] => true | x :: a, y :: b => (x =? y) && eqb_list a b | _, _ => false end.
Definition stack {A} (es : list (ten A)) : ten A :=
  do ts <- all_ok es;
  match ts with
  | [] => Err RuntimeError
  | t :: _ => if forallb (fun u => eqb_list (shape u) (shape t)) ts
              then Ok (mkT (length ts :: shape t) (fun i => at_ (nth (hd 0 i) ts t) (tl i))) else Err RuntimeError
  end.
Definition stack2 {A} (es : list (ten A)) : ten A :=
  do ts <- all_ok es;
  match ts with
  | [] => Err RuntimeError
  | t :: _ => match shape t with
              | [] => Err IndexError
              | n :: s => if forallb (fun u => eqb_list (shape u) (shape t)) ts
                          then Ok (mkT (n :: length ts :: s) (fun i => at_ (nth (hd 0 (tl i)) ts t) (hd 0 i :: tl (tl i)))) else Err RuntimeError
              end
  end.
(** [torch.cat((a, b), -1)] *)
Definition cat {A} (e1 e2 : ten A) : ten A :=
  do t <- e1; do u <- e2;
  match shape t, shape u with
  | n :: s, m :: s' => if eqb_list s s' then Ok (mkT (n + m :: s) (fun i => if hd 0 i <? n then at_ t i else at_ u (hd 0 i - n :: tl i))) else Err RuntimeError
  | _, _ => Err RuntimeError
  end.
(** [t.reshape(s)]: entries keep their place in the order in which the last index runs fastest *)
Fixpoint prod (s : list nat) : nat := match s with [] => 1 | n :: s => n * prod s end.
Fixpoint ravel (s i : list nat) : nat := match s with [] => 0 | n :: s => hd 0 i + n * ravel s (tl i) end.
Fixpoint unravel (s : list nat) (k : nat) : list nat := match s with [] => [] | n :: s => k mod n :: unravel s (k / n) end.
Definition reshape {A} (s : list nat) (e : ten A) : ten A :=
  do t <- e; if prod s =? prod (shape t) then Ok (mkT s (fun i => at_ t (unravel (shape t) (ravel s i)))) else Err RuntimeError.
(** [t.expand(s)], and whether a value of shape [v] can be written to a region of shape [s]: leading dimensions of size one are dropped *)
Fixpoint fits (v s : list nat) : bool :=
  match v, s with
  | [], _ => true
  | x :: v, [] => (x =? 1) && fits v []
  | x :: v, n :: s => ((x =? n) || (x =? 1)) && fits v s
  end.
Definition expand {A} (s : list nat) (e : ten A) : ten A :=
  do t <- e; if fits (shape t) s && (length (shape t) <=? length s) then Ok (mkT s (fun i => at_ t (bidx (shape t) i))) else Err RuntimeError.
(** [t[region] = v]: [reg] maps an index inside the region to the index within it, [rs] gives the shape of the region *)
Definition put {A} (reg : list nat -> option (list nat)) (rs : list nat -> list nat) (e v : ten A) : ten A :=
  do t <- e; do u <- v;
  if fits (shape u) (rs (shape t))
  then Ok (mkT (shape t) (fun i => match reg i with Some j => at_ u (bidx (shape u) j) | None => at_ t i end)) else Err RuntimeError.
(** [..., :3, :3], [..., :3, 3] and [..., k, k] of a tensor of 4x4 matrices *)
Definition block33 (i : list nat) : option (list nat) := match i with c :: r :: b => if (c <? 3) && (r <? 3) then Some i else None | _ => None end.
Definition block33_shape (s : list nat) : list nat := 3 :: 3 :: tl (tl s).
Definition col3 (i : list nat) : option (list nat) := match i with c :: r :: b => if (c =? 3) && (r <? 3) then Some (r :: b) else None | _ => None end.
Definition col3_shape (s : list nat) : list nat := 3 :: tl (tl s).
Definition cell (k : nat) (i : list nat) : option (list nat) := match i with c :: r :: b => if (c =? k) && (r =? k) then Some b else None | _ => None end.
Definition cell_shape (s : list nat) : list nat := tl (tl s).
Definition full {A} (s : list nat) (x : A) : ten A := Ok (mkT s (fun _ => x)).
(** [torch.eye(4).repeat(s + (1, 1))] *)
Definition eyes (s : list nat) : ten R := Ok (mkT (4 :: 4 :: s) (fun i => if hd 0 i =? hd 0 (tl i) then 1%R else 0%R)).

(** ** Reductions *)
Fixpoint rsum (n : nat) (f : nat -> R) : R := match n with 0 => 0%R | S n => (rsum n f + f n)%R end.
(** [t.sum(-1)], [t.sum(-1, keepdim=True)], [torch.norm(t, p=2, dim=-1, keepdim=True)] *)
Definition sum_last (e : ten R) : ten R :=
  do t <- e; match shape t with [] => Err IndexError | n :: s => Ok (mkT s (fun i => rsum n (fun k => at_ t (k :: i)))) end.
Definition sum_keep (e : ten R) : ten R := unsqueeze (sum_last e).
Definition norm_keep (e : ten R) : ten R := op1 sqrt (sum_keep (op2 Rmult e e)).
(** [t.argmax(dim=-1)]: the first of the largest *)
Definition argmax_last (e : ten R) : ten nat :=
  do t <- e;
  match shape t with
  | S n :: s => Ok (mkT s (fun i => fold_left (fun best k => if Rltb (at_ t (best :: i)) (at_ t (k :: i)) then k else best) (seq 1 n) 0))
  | _ => Err IndexError
  end.
(** [t.gather(-2, idx)] *)
Definition gather2 {A} (e : ten A) (idx : ten nat) : ten A :=
  do t <- e; do u <- idx;
  match shape t, shape u with
  | n :: m :: s, n' :: m' :: s' =>
      if (n =? n') && eqb_list s s' then Ok (mkT (shape u) (fun i => at_ t (hd 0 i :: at_ u i :: tl (tl i)))) else Err RuntimeError
  | _, _ => Err RuntimeError
  end.
(** [torch.matmul] of tensors with at least two dimensions *)
Definition matmul (e1 e2 : ten R) : ten R :=
  do t <- e1; do u <- e2;
  match shape t, shape u with
  | n :: m :: s, p :: n' :: s' =>
      if n =? n' then
        match bshape s s' with
        | Some b => Ok (mkT (p :: m :: b) (fun i => rsum n (fun k => Rmult (at_ t (k :: hd 0 (tl i) :: bidx s (tl (tl i)))) (at_ u (hd 0 i :: k :: bidx s' (tl (tl i)))))))
        | None => Err RuntimeError
        end
      else Err RuntimeError
  | _, _ => Err RuntimeError
  end.
(** [torch.cross(a, b, dim=-1)] *)
Definition cross (e1 e2 : ten R) : ten R :=
  do t <- e1; do u <- e2;
  match bshape (shape t) (shape u), shape t, shape u with
  | Some s, 3 :: _, 3 :: _ =>
      Ok (mkT s (fun i =>
        let a k := at_ t (k :: bidx (tl (shape t)) (tl i)) in let b k := at_ u (k :: bidx (tl (shape u)) (tl i)) in
        let d i j := (a i * b j - a j * b i)%R in match hd 0 i with 0 => d 1 2 | 1 => d 2 0 | _ => d 0 1 end))
  | _, _, _ => Err RuntimeError
  end.
(** [torch.nn.functional.normalize(t, dim=-1)] *)
Definition normalize_last (e : ten R) : ten R := op2 Rdiv e (op1 (fun n => Rmax n eps12) (norm_keep e)).
