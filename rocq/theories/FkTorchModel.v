(** Forward kinematics, its analytical backward pass and the Jacobian of chain.py as programs on tensors.

    [ChainModel] and [JacModel] have these functions on lists of matrices, one row of the batch at a time.  Here they are written with the
    tensor operations of the code, in the order of the code.  Shapes and indices run from the last dimension to the first, as in [TorchModel]. *)
From Coq Require Import Reals Bool Arith List.
From Verif Require Import Prelude ExtF Lin RotModel TorchModel RotTorchModel ChainModel ChainInst SerialModel.
Import ListNotations.
Local Open Scope nat_scope.

(** ** Indexing with integer tensors (lists of non-negative numbers), new dimensions, permutations *)
Definition ins {X} (p : nat) (x : X) (l : list X) : list X := firstn p l ++ x :: skipn p l.
Definition del {X} (p : nat) (l : list X) : list X := firstn p l ++ skipn (1 + p) l.
(** [t.unsqueeze(...)]: a new dimension that is at place [p] from the last *)
Definition unsq {A} (p : nat) (e : ten A) : ten A := do t <- e; Ok (mkT (ins p 1 (shape t)) (fun i => at_ t (del p i))).
(** [t.squeeze(-1)] *)
Definition squeeze1 {A} (e : ten A) : ten A := do t <- e; match shape t with 1 :: s => Ok (mkT s (fun i => at_ t (0 :: i))) | _ => Ok t end.
(** [t[idx]], [t[:, idx]]: the entries [idx] of the dimension at place [p] from the last *)
Definition take {A} (p : nat) (idx : list nat) (e : ten A) : ten A :=
  do t <- e;
  match nth_error (shape t) p with
  | Some n => if forallb (fun k => k <? n) idx
              then Ok (mkT (set_nth p (length idx) (shape t)) (fun i => at_ t (set_nth p (nth (nth p i 0) idx 0) i))) else Err IndexError
  | None => Err IndexError
  end.
(** [t[k]] on the dimension at place [p] from the last *)
Definition pick {A} (p k : nat) (e : ten A) : ten A :=
  do t <- e;
  match nth_error (shape t) p with
  | Some n => if k <? n then Ok (mkT (del p (shape t)) (fun i => at_ t (ins p k i))) else Err IndexError
  | None => Err IndexError
  end.
(** the last place of [x] in [l] *)
Fixpoint last_at (x : nat) (l : list nat) : option nat :=
  match l with
  | [] => None
  | y :: r => match last_at x r with Some k => Some (1 + k) | None => if x =? y then Some 0 else None end
  end.
(** [t[idx] = v] on the dimension at place [p] from the last.  If an entry occurs twice in [idx] the last value stays; torch leaves this open *)
Definition store {A} (p : nat) (idx : list nat) (e v : ten A) : ten A :=
  do t <- e; do u <- v;
  match nth_error (shape t) p with
  | Some n =>
      if negb (forallb (fun k => k <? n) idx) then Err IndexError
      else if fits (shape u) (set_nth p (length idx) (shape t))
      then Ok (mkT (shape t) (fun i => match last_at (nth p i 0) idx with Some k => at_ u (bidx (shape u) (set_nth p k i)) | None => at_ t i end))
      else Err RuntimeError
  | None => Err IndexError
  end.
(** [t.permute(...)]: dimension [k] of the result is dimension [nth k p] of [t], both counted from the last *)
Definition place (p : list nat) (j : nat) : nat := match last_at j p with Some k => k | None => 0 end.
Definition permute {A} (p : list nat) (e : ten A) : ten A :=
  do t <- e;
  if length p =? length (shape t)
  then Ok (mkT (map (fun k => nth k (shape t) 0) p) (fun i => at_ t (map (fun j => nth (place p j) i 0) (seq 0 (length p))))) else Err RuntimeError.
(** [t[..., :3, :3]] and [t[..., :3, 3]] *)
Definition rot_of {A} (e : ten A) : ten A := slice 0 3 (slice2 0 3 e).
Definition pos_of {A} (e : ten A) : ten A := slice 0 3 (sel 3 e).
(** [t.transpose(-1, -2)] *)
Definition tr2 {A} (e : ten A) : ten A :=
  do t <- e; match shape t with n :: m :: s => Ok (mkT (m :: n :: s) (fun i => at_ t (hd 0 (tl i) :: hd 0 i :: tl (tl i)))) | _ => Err IndexError end.
(** a vector of integers or flags *)
Definition vec {A} (d : A) (l : list A) : ten A := Ok (mkT [length l] (fun i => nth (hd 0 i) l d)).

(** ** Forward kinematics *)
(** chain.py:54-61: [rev_per_frame] or [pris_per_frame], and whether they are bound *)
Definition per_frame_t (motion : ten R -> ten R -> ten R) (axes th : tensor R) (n cols B : nat) (jidx : list nat) (has : bool) : option (ten R) :=
  if (0 <? cols) && has
  then let axes_expanded := expand [3; n; B] (unsq 2 (Ok axes)) in
       Some (permute [0; 1; 3; 2] (take 2 jidx (motion axes_expanded (Ok th))))
  else None.
Definition bound (e : option (ten R)) : ten R := match e with Some e => e | None => Err UnboundLocalError end.
(** an assignment evaluates its right-hand side even where the result is not used *)
Definition after (e : option (ten R)) (k : ten R) : ten R := match e with Some e => do _ <- e; k | None => k end.
(** chain.py:54-79 *)
Definition joint_transforms_t (th axes : tensor R) (n cols B : nat) (jidx jtypes : list nat) (has_rev has_pris : bool) (nf : nat) : ten R :=
  let rev := per_frame_t axis_and_angle_to_matrix_44_t axes th n cols B jidx has_rev in
  let pris := per_frame_t axis_and_d_to_pris_matrix_t axes th n cols B jidx has_pris in
  let eye := expand [4; 4; B; nf] (reshape [4; 4; 1; 1] (eyes [])) in
  let is_rev := reshape [1; 1; 1; length jtypes] (op1 (Nat.eqb 1) (vec 0 jtypes)) in
  let is_pris := reshape [1; 1; 1; length jtypes] (op1 (Nat.eqb 2) (vec 0 jtypes)) in
  after rev (after pris (
  if has_rev && negb has_pris then where_ is_rev (bound rev) eye
  else if has_pris && negb has_rev then where_ is_pris (bound pris) eye
  else if has_rev && has_pris then where_ is_pris (bound pris) (where_ is_rev (bound rev) eye)
  else eye)).
(** an entry of [direct_parent_idx]; -1, the entry of the root, would read the last frame *)
Definition parent_index (nf : nat) (dpar : list (option nat)) (f : nat) : nat := match nth f dpar None with Some p => p | None => nf - 1 end.
(** chain.py:88-91 *)
Fixpoint levels_t (nf : nat) (dpar : list (option nat)) (local T : ten R) (levels : list (list nat)) : ten R :=
  match levels with
  | [] => T
  | l :: r => levels_t nf dpar local (store 3 l T (matmul (take 3 (map (parent_index nf dpar) l) T) (take 3 l local))) r
  end.
(** chain.py:13-93.  [junk] is what [torch.empty] left in the memory *)
Definition fk_impl_t (junk : list nat -> R) (th static : tensor R) (jidx jtypes : list nat) (dpar : list (option nat)) (levels : list (list nat))
  (axes : tensor R) (has_rev has_pris : bool) (nf : nat) : ten R :=
  match shape th, shape axes with
  | [cols; B], [_; n] =>
      do joint <- joint_transforms_t th axes n cols B jidx jtypes has_rev has_pris nf;
      do local <- matmul (unsq 2 (Ok static)) (Ok joint);
      match levels with
      | [] => Err IndexError
      | l0 :: rest =>
          let T := Ok (mkT [4; 4; B; nf] junk) in
          levels_t nf dpar (Ok local) (store 3 l0 T (take 3 l0 (Ok local))) rest
      end
  | _, _ => Err IndexError
  end.
(** chain.py:507-540, with the float tables of the chain as tensors *)
Definition fk_t (junk : list nat -> R) (c : chain M4 V3) (static axes th : tensor R) : ten R :=
  fk_impl_t junk th static (c_jclamp c) (c_jtype c) (c_dpar c) (c_levels c) axes (c_has_rev c) (c_has_pris c) (c_nf c).

(** ** The backward pass *)
(** [(dof_ancestor_mask @ x.reshape(L, B * 3)).reshape(-1, B, 3)], chain.py:157-161.  The size -1 is worked out from the others; torch refuses
    this when they multiply to zero *)
Definition masked (J L B : nat) (mask x : ten R) : ten R :=
  do p <- matmul mask (reshape [B * 3; L] x); if B =? 0 then Err RuntimeError else reshape [3; B; J] (Ok p).
(** chain.py:130-169: [T] is the saved [T_world_link], [G] the upstream gradient; the floats 0 and 1 of the mask are a tensor *)
Definition backward_t (T G mask axes : tensor R) (dof_frame : list nat) (is_rev : list bool) : ten R :=
  let R_link := rot_of (Ok T) in let t_link := pos_of (Ok T) in
  let grad_R := rot_of (Ok G) in let grad_t := pos_of (Ok G) in
  do M <- matmul R_link (tr2 grad_R);
  let m r c := sel c (sel2 r (Ok M)) in
  do tau <- stack [(m 1 2 - m 2 1)%T; (m 2 0 - m 0 2)%T; (m 0 1 - m 1 0)%T];
  let T_dof := take 3 dof_frame (Ok T) in
  let z := squeeze1 (matmul (rot_of T_dof) (unsq 2 (unsqueeze (Ok axes)))) in
  let o := pos_of T_dof in
  match shape tau, shape mask with
  | [_; B; L], [_; J] =>
      let sum_tau := masked J L B (Ok mask) (Ok tau) in
      let sum_grad_t := masked J L B (Ok mask) grad_t in
      let sum_cross := masked J L B (Ok mask) (cross t_link grad_t) in
      let rev_grad := sum_last (z * (sum_tau + sum_cross - cross o sum_grad_t))%T in
      let pris_grad := sum_last (z * sum_grad_t)%T in
      permute [1; 0] (where_ (unsqueeze (vec false is_rev)) rev_grad pris_grad)
  | _, _ => Err ValueError
  end.

(** ** The Jacobian *)
(** [torch.einsum('nbij,nj->nbi', r, a)]; the broadcasting of dimensions of size one, which it also does, is left out *)
Definition einsum_nbij_nj (r a : ten R) : ten R :=
  do t <- r; do u <- a;
  match shape t, shape u with
  | [j; i; b; n], [j'; n'] =>
      if (j =? j') && (n =? n')
      then Ok (mkT [i; b; n] (fun x => rsum j (fun k => Rmult (at_ t (k :: x)) (at_ u [k; nth 2 x 0])))) else Err RuntimeError
  | _, _ => Err RuntimeError
  end.
(** chain.py:729-755 given the transforms of all frames *)
Definition jacobian_tensor_t (all axes : tensor R) (eef : nat) (dof_idx dof_types : list nat) : ten R :=
  let p_ee := pos_of (pick 3 eef (Ok all)) in
  let T_dof := take 3 dof_idx (Ok all) in
  let z := einsum_nbij_nj (rot_of T_dof) (Ok axes) in
  let dp := (unsq 2 p_ee - pos_of T_dof)%T in
  let cr := cross z dp in
  let is_rev := reshape [1; 1; length dof_types] (op1 (Nat.eqb 1) (vec 0 dof_types)) in
  do zt <- z;
  let J_v := where_ is_rev cr z in
  let J_w := where_ is_rev z (full (shape zt) 0%R) in
  permute [2; 0; 1] (cat J_v J_w).
(** [J[:, :3, :] = v] *)
Definition rows03 (i : list nat) : option (list nat) := if nth 1 i 0 <? 3 then Some i else None.
Definition rows03_shape (s : list nat) : list nat := set_nth 1 3 s.
(** chain.py:783-811: the Jacobian and the pose with a tool *)
Definition jacobian_tool_t (all axes tool : tensor R) (eef : nat) (dof_idx dof_types : list nat) : res (tensor R * tensor R) :=
  do J <- jacobian_tensor_t all axes eef dof_idx dof_types;
  let T_ee := pick 3 eef (Ok all) in
  do T_ee_tool <- matmul T_ee (Ok tool);
  let delta_p := (pos_of (Ok T_ee_tool) - pos_of T_ee)%T in
  do z <- einsum_nbij_nj (rot_of (take 3 dof_idx (Ok all))) (Ok axes);
  let correction := cross (Ok z) (expand (shape z) (unsq 2 delta_p)) in
  let is_rev := reshape [1; 1; length dof_types] (op1 (Nat.eqb 1) (vec 0 dof_types)) in
  do c <- correction;
  let correction := where_ is_rev (Ok c) (full (shape c) 0%R) in
  do J' <- put rows03 rows03_shape (Ok J) (slice2 0 3 (Ok J) + permute [2; 0; 1] correction)%T;
  Ok (J', T_ee_tool).
(** chain.py:761-817 for a tensor: the Jacobian, and the pose that [ret_eef_pose=True] adds *)
Definition jacobian_t (junk : list nat -> R) (s : schain M4 V3) (static axes dof_axes th : tensor R) (tool : option (tensor R)) : res (tensor R * tensor R) :=
  do all <- fk_t junk (s_chain s) static axes th;
  match tool with
  | None => do J <- jacobian_tensor_t all dof_axes (s_eef s) (s_dof_idx s) (s_dof_types s); do T <- pick 3 (s_eef s) (Ok all); Ok (J, T)
  | Some m => jacobian_tool_t all dof_axes m (s_eef s) (s_dof_idx s) (s_dof_types s)
  end.
