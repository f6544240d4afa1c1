(** Element types and devices: what [Chain.__init__], [to], forward kinematics, its backward pass and the Jacobian do
    with the dtype and the device of every tensor (chain.py, frame.py, transform3d.py).

    A tensor is its dtype and its device; the values are the business of the other files. *)
From Coq Require Import String Bool Arith Lia List.
From Verif Require Import Prelude ExtF Tree ChainModel ChainProofs SerialModel.
Import ListNotations.
Local Open Scope nat_scope.

(** the element types of the library's tensors *)
Inductive dtype := DBool | DLong | DHalf | DFloat | DDouble.
Definition dtype_eqb (a b : dtype) : bool :=
  match a, b with
  | DBool, DBool | DLong, DLong | DHalf, DHalf | DFloat, DFloat | DDouble, DDouble => true
  | _, _ => false
  end.
(** devices are numbered; [cpu] is the default device *)
Definition device := nat.
Definition cpu : device := 0.

(** a tensor: its dtype and its device *)
Record tensor := mkT { t_dt : dtype; t_dev : device }.

(** A [Transform3d] keeps its own [dtype] and [device] attributes beside its matrix (transform3d.py:217-218). *)
Record ttrans := mkTr { a_dt : dtype; a_dev : device; a_mat : tensor }.

(** transform3d.py:462-468 [Transform3d.to] with both arguments given and no copy: nothing happens when the attributes
    already agree, otherwise the attributes are set and the matrix is converted. *)
Definition trans_to (dt : dtype) (dv : device) (t : ttrans) : ttrans :=
  if (dtype_eqb (a_dt t) dt && Nat.eqb (a_dev t) dv)%bool then t else mkTr dt dv (mkT dt dv).

(** [Tensor.to] with both arguments, or with the device only *)
Definition ten_to (dt : dtype) (dv : device) (t : tensor) : tensor := mkT dt dv.
Definition ten_move (dv : device) (t : tensor) : tensor := mkT (t_dt t) dv.

Notation tframe := (frame ttrans tensor).
Notation tjoint := (joint ttrans tensor).
Notation tlink := (link ttrans).

(** frame.py:33-36 *)
Definition link_to (dt : dtype) (dv : device) (l : tlink) : tlink :=
  mkLink (l_name l) (option_map (trans_to dt dv) (l_off l)).
(** frame.py:72-76; the limits are plain numbers *)
Definition joint_to (dt : dtype) (dv : device) (j : tjoint) : tjoint :=
  mkJoint (j_name j) (option_map (trans_to dt dv) (j_off j)) (j_type j) (ten_to dt dv (j_axis j))
          (j_lim j) (j_vlim j) (j_elim j).
(** frame.py:120-124 *)
Fixpoint frame_to (dt : dtype) (dv : device) (f : tframe) : tframe :=
  match f with
  | Frame n l j cs => Frame n (link_to dt dv l) (joint_to dt dv j) (map (frame_to dt dv) cs)
  end.

(** frame.py:24-36: a link together with the offsets of its visuals; [Link.to] converts the link offset only *)
Record vlink := mkVL { v_off : option ttrans; v_vis : list (option ttrans) }.
Definition vlink_to (dt : dtype) (dv : device) (l : vlink) : vlink :=
  mkVL (option_map (trans_to dt dv) (v_off l)) (v_vis l).

Section Dev.
(** Type promotion of [torch.stack], [torch.cat] and [torch.where] on two dtypes, and whether an indexed assignment may
    convert its right-hand side from the second dtype to the first.  Both have changed between versions of torch, so they
    are parameters of everything below. *)
Variable promo : dtype -> dtype -> res dtype.
Variable convertible : dtype -> dtype -> bool.

(** [a @ b] and [torch.einsum] on two operands: same device and same dtype *)
Definition matmul (a b : tensor) : res tensor :=
  if (Nat.eqb (t_dev a) (t_dev b) && dtype_eqb (t_dt a) (t_dt b))%bool then Ok a else Err RuntimeError.
(** two operands of an elementwise operation, [torch.stack] or [torch.cat] *)
Definition join (a b : tensor) : res tensor :=
  if Nat.eqb (t_dev a) (t_dev b)
  then do d <- promo (t_dt a) (t_dt b); Ok (mkT d (t_dev a))
  else Err RuntimeError.
(** [torch.stack] of a list *)
Fixpoint stack (l : list tensor) : res tensor :=
  match l with
  | [] => Err RuntimeError
  | [a] => Ok a
  | a :: r => do b <- stack r; join a b
  end.
(** [torch.where(c, a, b)] *)
Definition where_ (c a b : tensor) : res tensor :=
  do r <- join a b;
  if Nat.eqb (t_dev c) (t_dev r) then Ok r else Err RuntimeError.
(** [a[i]] for an index tensor [i]: it may live on the CPU or with [a] *)
Definition gather (a i : tensor) : res tensor :=
  if (Nat.eqb (t_dev i) cpu || Nat.eqb (t_dev i) (t_dev a))%bool then Ok a else Err RuntimeError.
(** [a[i] = b] for an index tensor [i] *)
Definition iput (a i b : tensor) : res tensor :=
  do _ <- gather a i;
  if (Nat.eqb (t_dev a) (t_dev b) && convertible (t_dt a) (t_dt b))%bool then Ok a else Err RuntimeError.

(** rotation_conversions.py:475-492 and 452-472: products of the axes with functions of the joint values, copied into an
    array with the dtype and device of the axes.  The copy is a slice assignment, which converts. *)
Definition joint_matrices (axes th : tensor) : res tensor :=
  if Nat.eqb (t_dev axes) (t_dev th) then Ok axes else Err RuntimeError.

(** The tensors of a [Chain] beside its tree and its structure *)
Record tchain := mkTC {
  k_dtype : dtype; k_device : device;       (* self.dtype, self.device *)
  k_root : tframe;                          (* self._root *)
  k_shape : chain ttrans tensor;            (* the tables as such *)
  k_identity : tensor; k_low : tensor; k_high : tensor;
  k_axes : tensor;
  k_loff : list (option tensor); k_joff : list (option tensor);
  k_static : tensor;
  k_mask : tensor;
  k_parents : list tensor; k_jtype : tensor; k_jidx : tensor;
  k_dpar : tensor; k_levels : list tensor; k_jclamp : tensor;
  k_dof_frame : tensor;
  k_dof_rev : tensor }.

(** the matrix product inside [chain_init] plays no part here: only the structure of its result is used *)
Definition shape_ops : Ops ttrans tensor unit :=
  mkOps ttrans tensor unit (fun a _ => a) (mkTr DFloat cpu (mkT DFloat cpu)) (fun _ _ => mkTr DFloat cpu (mkT DFloat cpu))
        (fun _ _ => mkTr DFloat cpu (mkT DFloat cpu)) (mkT DFloat cpu).

(** the frames in the order in which chain.py:255-298 visits them *)
Definition visited (root : tframe) : list tframe := map qf (items root).
(** [get_matrix()] of an offset, chain.py:273-282 *)
Definition link_matrix (f : tframe) : option tensor := option_map a_mat (l_off (f_link f)).
Definition joint_matrix (f : tframe) : option tensor := option_map a_mat (j_off (f_joint f)).
(** chain.py:318-321 *)
Definition static_tensor (eye : tensor) (f : tframe) : res tensor :=
  matmul (match link_matrix f with Some m => m | None => eye end)
         (match joint_matrix f with Some m => m | None => eye end).

(** chain.py:230-348 [Chain.__init__].  [joint_type_indices] and [joint_indices] are made without a device (300-301), and so
    are the clamped indices and the joint type of every moving joint, which is looked up with [_dof_frame_indices] (347-348).
    Assigning one row of the axes (288) converts. *)
Definition tag_init (root : tframe) (dt : dtype) (dv : device) : res tchain :=
  let here := mkT dt dv in
  let long := mkT DLong dv in
  let plain := mkT DLong cpu in
  do c <- chain_init shape_ops root;
  do so <- rmap (static_tensor here) (visited root);
  do st <- stack so;
  do jt <- gather plain long;
  Ok (mkTC dt dv root c here here here here
        (map link_matrix (visited root)) (map joint_matrix (visited root))
        st here
        (map (fun _ => long) (c_parents c)) plain plain
        long (map (fun _ => long) (c_levels c)) plain
        long (mkT DBool (t_dev jt))).

(** chain.py:350-377 [Chain.to]; an argument that is [None] keeps the present dtype or device *)
Definition tag_to (c : tchain) (dt : option dtype) (dv : option device) : tchain :=
  let d := match dt with Some d => d | None => k_dtype c end in
  let v := match dv with Some v => v | None => k_device c end in
  mkTC d v (frame_to d v (k_root c)) (k_shape c)
    (ten_to d v (k_identity c)) (ten_to d v (k_low c)) (ten_to d v (k_high c)) (ten_to d v (k_axes c))
    (map (option_map (ten_to d v)) (k_loff c)) (map (option_map (ten_to d v)) (k_joff c))
    (ten_to d v (k_static c)) (ten_to d v (k_mask c))
    (map (ten_to DLong v) (k_parents c)) (ten_to DLong v (k_jtype c)) (ten_to DLong v (k_jidx c))
    (ten_move v (k_dpar c)) (map (ten_move v) (k_levels c)) (ten_move v (k_jclamp c))
    (ten_move v (k_dof_frame c)) (ten_move v (k_dof_rev c)).

(** chain.py:54-80: the per-frame joint transforms; [eye4] has the dtype and device of [th] *)
Definition joint_tensors (c : tchain) (th : tensor) : res tensor :=
  let moved := do m <- joint_matrices (k_axes c) th; gather m (k_jclamp c) in
  let pick (x y : tensor) := where_ (k_jtype c) x y in
  match c_has_rev (k_shape c), c_has_pris (k_shape c) with
  | true, false | false, true => do m <- moved; pick m th
  | true, true => do r <- moved; do p <- moved; do j <- pick r th; pick p j
  | false, false => Ok th
  end.
(** chain.py:89-92: the levels below the first *)
Fixpoint level_tensors (dpar world loc : tensor) (levels : list tensor) : res tensor :=
  match levels with
  | [] => Ok world
  | l :: r =>
      do p <- gather dpar l;
      do w <- gather world p;
      do x <- gather loc l;
      do m <- matmul w x;
      do world' <- iput world l m;
      level_tensors dpar world' loc r
  end.
(** chain.py:13-94 [_fk_impl] on a joint tensor of the right width *)
Definition fk_tensor (c : tchain) (th : tensor) : res tensor :=
  do j <- joint_tensors c th;
  do loc <- matmul (k_static c) j;
  match k_levels c with
  | [] => Err IndexError
  | l0 :: r =>
      do x <- gather loc l0;
      do world <- iput th l0 x;
      level_tensors (k_dpar c) world loc r
  end.

(** chain.py:129-169 [_FKAnalyticalBackward.backward]: [world] the saved transforms, [g] the upstream gradient *)
Definition backward_tensor (c : tchain) (world g : tensor) : res tensor :=
  do tau <- matmul world g;                                   (* R_link @ grad_R_link^T, then differences and a stack *)
  do tdof <- gather world (k_dof_frame c);
  do z <- matmul tdof (k_axes c);
  do st <- matmul (k_mask c) tau;                             (* sum_tau *)
  do sg <- matmul (k_mask c) g;                               (* sum_grad_t *)
  do cr <- join world g;                                      (* cross_t_grad *)
  do sc <- matmul (k_mask c) cr;
  do a <- join st sc;
  do b <- join tdof sg;                                       (* cross(o_dof, sum_grad_t) *)
  do ab <- join a b;
  do rev <- join z ab;
  do pris <- join z sg;
  where_ (k_dof_rev c) rev pris.

(** [SerialChain]: the chain and the data of the Jacobian *)
Record tserial := mkTS {
  ks_chain : tchain;
  ks_shape : schain ttrans tensor;
  ks_dof_frame : tensor;
  ks_dof_axes : tensor;
  ks_dof_types : tensor }.

(** chain.py:656-705 [SerialChain.__init__] with [dtype] and [device] as keyword arguments.  The axis of the root's fresh
    [Joint()] is a float32 CPU tensor.  The stacked axes are converted (701), an empty stack is avoided (702-703). *)
Definition tag_serial (c : tchain) (end_name root_name : string) (dt : dtype) (dv : device) : res tserial :=
  do rf <- (if String.eqb root_name "" then Ok (k_root c)
            else of_opt ValueError (find_frame root_name (k_root c)));
  do c1 <- tag_init rf dt dv;
  do s <- serial_init shape_ops (mkT DFloat cpu) (k_shape c1) end_name "";
  do c2 <- tag_init (c_root (s_chain s)) dt dv;
  do _ <- (match s_dof_axes s with [] => Ok (mkT dt dv) | l => stack l end);
  Ok (mkTS c2 s (mkT DLong dv) (mkT dt dv) (mkT DLong dv)).

(** chain.py:707-712 [SerialChain.to] *)
Definition serial_to (s : tserial) (dt : option dtype) (dv : option device) : tserial :=
  let c := tag_to (ks_chain s) dt dv in
  mkTS c (ks_shape s) (ten_move (k_device c) (ks_dof_frame s)) (ten_to (k_dtype c) (k_device c) (ks_dof_axes s))
       (ten_move (k_device c) (ks_dof_types s)).

(** chain.py:714-762 [jacobian_tensor]; the end effector index is a Python number *)
Definition jacobian_tensor_t (s : tserial) (th : tensor) : res tensor :=
  do world <- fk_tensor (ks_chain s) th;
  do tdof <- gather world (ks_dof_frame s);
  do z <- matmul tdof (ks_dof_axes s);
  do dp <- join world tdof;
  do cr <- join z dp;
  do jv <- where_ (ks_dof_types s) cr z;
  do jw <- where_ (ks_dof_types s) z z;
  join jv jw.
End Dev.
