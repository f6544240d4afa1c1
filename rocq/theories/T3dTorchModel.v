(** Transforms as programs on tensors: composition, inverse, stacking and the transformation of points, normals and shape operators
    (transforms/transform3d.py:232-409, 501-508, 541-548, 586-590, 724-751).

    [T3dModel] has them on lists of matrices.  Here they are written with the tensor operations of the code.  A transform is its tensor of
    shape (N, 4, 4); shapes and indices run from the last dimension to the first, as in [TorchModel].  Dtype and device are left out. *)
From Coq Require Import Reals Bool Arith List.
From Verif Require Import Prelude ExtF Lin RotModel TorchModel RotTorchModel FkTorchModel IkTorchModel IkSvdTorchModel.
From Verif Require T3dModel.
Import ListNotations.
Local Open Scope nat_scope.

(** [a.bmm(b)]: both must have three dimensions and the same first size *)
Definition bmm (e1 e2 : ten R) : ten R :=
  do a <- e1; do b <- e2;
  match shape a, shape b with
  | [k; p; N], [m; k'; N'] =>
      if (k =? k') && (N =? N')
      then Ok (mkT [m; p; N] (fun i => TorchModel.rsum k (fun l => Rmult (at_ a [l; nth 1 i 0; nth 2 i 0]) (at_ b [nth 0 i 0; l; nth 2 i 0])))) else Err RuntimeError
  | _, _ => Err RuntimeError
  end.
(** [t[None]], [len(t)] of a tensor with dimensions and [t.expand(n, -1, -1)] *)
Definition front {A} (t : tensor A) : tensor A := mkT (shape t ++ [1]) (fun i => at_ t (firstn (length (shape t)) i)).
Definition len {A} (t : tensor A) : nat := last (shape t) 0.
Definition expand_first {A} (n : nat) (t : tensor A) : ten A :=
  match shape t with
  | [x; y; z] => if z =? 1 then Ok (mkT [x; y; n] (fun i => at_ t [nth 0 i 0; nth 1 i 0; 0])) else if z =? n then Ok t else Err RuntimeError
  | _ => Err RuntimeError
  end.
(** transform3d.py:724-751 *)
Definition broadcast_bmm_t (e1 e2 : ten R) : ten R :=
  do a <- e1; do b <- e2;
  let a := if length (shape a) =? 2 then front a else a in
  if len a =? len b then bmm (Ok a) (Ok b)
  else if negb ((len a =? 1) || (len b =? 1)) then Err ValueError
  else do a' <- (if len a =? 1 then expand_first (len b) a else Ok a);
       do b' <- (if len b =? 1 then expand_first (len a') b else Ok b);
       bmm (Ok a') (Ok b').
(** transform3d.py:243-245 *)
Definition compose_t (self : tensor R) (others : list (tensor R)) : ten R := fold_left (fun mat other => broadcast_bmm_t mat (Ok other)) others (Ok self).

(** [t[:, :3, 3:]] of a tensor of 4x4 matrices *)
Definition col3k (i : list nat) : option (list nat) := match i with c :: r :: b => if (c =? 3) && (r <? 3) then Some (0 :: r :: b) else None | _ => None end.
Definition col3k_shape (s : list nat) : list nat := 1 :: 3 :: tl (tl s).
(** transform3d.py:265-274; the second assignment reads what the first has written *)
Definition invert_t (T : tensor R) : ten R :=
  let R33 := rot_of (Ok T) in
  let t := pos_of (Ok T) in
  let Tinv := put block33 block33_shape (Ok T) (tr2 R33) in
  put col3k col3k_shape Tinv (matmul (op1 Ropp (rot_of Tinv)) (unsqueeze t)).
(** transform3d.py:501-508 *)
Definition translate_inverse_t (T : tensor R) : ten R :=
  let inv_mask := put col3 col3_shape (full [4; 4; 1] 1%R) (num (-1)) in
  (Ok T * inv_mask)%T.
(** transform3d.py:541-548; the division is that of the reals, so this says nothing about a factor of zero *)
Definition scale_inverse_t (T : tensor R) : ten R :=
  let xyz := TorchModel.stack (map (fun i => sel i (sel2 i (Ok T))) [0; 1; 2; 3]) in
  diag_embed (op2 Rdiv (num 1) xyz).
(** transform3d.py:586-590 *)
Definition rotate_inverse_t (T : tensor R) : ten R := tr2 (Ok T).
(** transform3d.py:258-263, 276-293 *)
Definition inverse_t (k : T3dModel.tkind) (T : tensor R) : ten R :=
  match k with
  | T3dModel.KBase => invert_t T
  | T3dModel.KTranslate => translate_inverse_t T
  | T3dModel.KScale => scale_inverse_t T
  | T3dModel.KRotate => rotate_inverse_t T
  end.

(** [t.reshape(s)] if [out] has first size one and the argument had [d] dimensions (transform3d.py:346-349, 379-382, 404-407) *)
Definition unfront (d : nat) (arg : tensor R) (e : ten R) : ten R :=
  do out <- e; if (len out =? 1) && (length (shape arg) =? d) then TorchModel.reshape (shape arg) (Ok out) else Ok out.
(** transform3d.py:301-349 with [batch_to_batch=False]; the division is that of the reals *)
Definition sign (x : R) : R := if Rltb 0 x then 1%R else if Rltb x 0 then (-1)%R else 0%R.
Definition transform_points_t (T points : tensor R) (eps : option R) : ten R :=
  let points_batch := if length (shape points) =? 2 then front points else points in
  match shape points_batch with
  | [_; P; N] =>
      let points_batch := cat (Ok points_batch) (full [1; P; N] 1%R) in
      let points_out := broadcast_bmm_t points_batch (tr2 (Ok T)) in
      let denom := from 3 points_out in
      let denom := match eps with
        | Some e => (op1 (fun d => Rplus (sign d) (if Reqb d 0 then 1%R else 0%R)) denom * op1 (fun d => Rmax (Rabs d) e) denom)%T
        | None => denom
        end in
      unfront 2 points (op2 Rdiv (slice 0 3 points_out) denom)
  | _ => Err ValueError
  end.
(** transform3d.py:351-384 with [batch_to_batch=False] *)
Definition transform_normals_t (k : T3dModel.tkind) (T normals : tensor R) : ten R :=
  if (length (shape normals) =? 2) || (length (shape normals) =? 3) then
    let mat := rot_of (inverse_t k T) in
    unfront 2 normals (broadcast_bmm_t (Ok normals) mat)
  else Err ValueError.
(** transform3d.py:386-409 *)
Definition transform_shape_operator_t (k : T3dModel.tkind) (T ops : tensor R) : ten R :=
  if (length (shape ops) =? 3) || (length (shape ops) =? 4) then
    let mat := rot_of (inverse_t k T) in
    unfront 3 ops (broadcast_bmm_t (tr2 mat) (broadcast_bmm_t (Ok ops) mat))
  else Err ValueError.
