(** Element types and devices of [Transform3d] and its subclasses (transforms/transform3d.py).

    As in [DevModel] a tensor is its dtype and its device; shapes and values are the business of [T3dModel].  [batch_to_batch=True]
    calls a function of another package and is left out. *)
From Coq Require Import String Bool Arith List.
From Verif Require Import Prelude ExtF Tree ChainModel SerialModel DevModel.
Import ListNotations.
Local Open Scope nat_scope.

(** A device argument is a string like "cpu" or a [torch.device]; the two are never equal for Python's [==], although they may mean
    the same device.  A device without a number, like "cuda", is not told from the one with the current number. *)
Inductive dspec := DStr (d : device) | DObj (d : device).
Definition dev_of (s : dspec) : device := match s with DStr d | DObj d => d end.
Definition dspec_eqb (a b : dspec) : bool :=
  match a, b with DStr x, DStr y | DObj x, DObj y => Nat.eqb x y | _, _ => false end.

(** an argument that is a tensor, or a Python number or sequence of numbers that becomes one *)
Inductive targ := TNum | TTen (t : tensor).
(** [if not torch.is_tensor(x): x = torch.tensor(x, dtype=dtype, device=device)] *)
Definition as_tensor (dt : dtype) (dv : device) (x : targ) : tensor := match x with TNum => mkT dt dv | TTen t => t end.

(** the attributes [dtype], [device] and [_matrix]; [_lu] is None everywhere in the library *)
Record ttr := mkTtr { x_dt : dtype; x_dev : dspec; x_mat : tensor }.

Section TDev.
Variable promo : dtype -> dtype -> res dtype.

(** transform3d.py:146-218 *)
Definition tr_init (dt : dtype) (dv : dspec) (matrix : option tensor) (rot pos : option targ) : res ttr :=
  let '(dv, mat) := match matrix with None => (dv, mkT dt (dev_of dv)) | Some m => (DObj (t_dev m), m) end in
  let plain := mkT dt (dev_of dv) in
  do mat <- match pos with
            | None => Ok mat
            | Some p => do pos_h <- join promo (as_tensor dt (dev_of dv) p) plain; join promo mat pos_h
            end;
  do mat <- match rot with
            | None => Ok mat
            | Some r => do rot_h <- join promo (as_tensor dt (dev_of dv) r) plain; join promo rot_h mat
            end;
  Ok (mkTtr (t_dt mat) dv mat).

(** transform3d.py:642-646 and 681-705: numbers become tensors, [torch.stack] joins the three; a matrix of shape (N, 3) is given alone *)
Definition handle_input (dt : dtype) (dv : device) (xyz : targ * targ * targ + tensor) : res tensor :=
  match xyz with
  | inr t => Ok t
  | inl (x, y, z) => stack promo [as_tensor dt dv x; as_tensor dt dv y; as_tensor dt dv z]
  end.
(** transform3d.py:478-499 [Translate] and 512-539 [Scale]: the attributes are those of [super().__init__(device=device)]; the slice
    assignment converts dtype and device *)
Definition tr_translate_scale (dt : dtype) (dv : dspec) (xyz : targ * targ * targ + tensor) : res ttr :=
  do base <- tr_init DFloat dv None None None;
  do _ <- handle_input dt (dev_of dv) xyz;
  Ok (mkTtr (x_dt base) (x_dev base) (mkT dt (dev_of dv))).
(** transform3d.py:552-584 [Rotate]; the conversions 568-571 keep dtype and device *)
Definition tr_rotate (dt : dtype) (dv : dspec) (R : targ) : res ttr :=
  do base <- tr_init DFloat dv None None None;
  let R := mkT dt (dev_of dv) in
  Ok (mkTtr (x_dt base) (x_dev base) R).
(** transform3d.py:594-630 [RotateAxisAngle]: the dtype reaches the angle (623) but not [Rotate] (630) *)
Definition tr_rotate_axis_angle (dt : dtype) (dv : dspec) (angle : targ) : res ttr :=
  let a := as_tensor dt (dev_of dv) angle in tr_rotate DFloat dv (TTen a).

(** transform3d.py:749-751: the second factor takes the dtype of the first *)
Definition broadcast_bmm (a b : tensor) : res tensor := matmul a (mkT (t_dt a) (t_dev b)).
(** transform3d.py:232-249 *)
Fixpoint bmm_all (m : tensor) (others : list ttr) : res tensor :=
  match others with [] => Ok m | o :: r => do m <- broadcast_bmm m (x_mat o); bmm_all m r end.
Definition tr_compose (t : ttr) (others : list ttr) : res ttr :=
  do m <- bmm_all (x_mat t) others; tr_init (x_dt t) (x_dev t) (Some m) None None.
(** transform3d.py:223-224, 257-293 with 501-509, 541-548, 586-590: indexing and the inverses keep dtype and device of the matrix *)
Definition tr_getitem (t : ttr) : res ttr := tr_init DFloat (DStr cpu) (Some (x_mat t)) None None.
Definition tr_inverse (t : ttr) : res ttr := tr_init DFloat (x_dev t) (Some (x_mat t)) None None.
(** transform3d.py:295-299 *)
Definition tr_stack (t : ttr) (others : list ttr) : res ttr :=
  do m <- stack promo (map x_mat (t :: others)); tr_init (x_dt t) (x_dev t) (Some m) None None.
(** transform3d.py:411-421: [self.device] is passed on, the dtype is not *)
Definition tr_translate (t : ttr) (xyz : targ * targ * targ + tensor) : res ttr :=
  do o <- tr_translate_scale DFloat (x_dev t) xyz; tr_compose t [o].
Definition tr_rotate_by (t : ttr) (R : targ) : res ttr := do o <- tr_rotate DFloat (x_dev t) R; tr_compose t [o].
Definition tr_rotate_axis_angle_by (t : ttr) (angle : targ) : res ttr := do o <- tr_rotate_axis_angle DDouble (x_dev t) angle; tr_compose t [o].
(** transform3d.py:431-443: a new object with the attributes, then the matrix *)
Definition tr_clone (t : ttr) : res ttr := do o <- tr_init (x_dt t) (x_dev t) None None None; Ok (mkTtr (x_dt o) (x_dev o) (x_mat t)).
(** transform3d.py:445-468; true if [self] itself is returned *)
Definition tr_to (dv : dspec) (copy : bool) (dt : option dtype) (t : ttr) : res (bool * ttr) :=
  if (negb copy && match dt with None => true | Some d => dtype_eqb (x_dt t) d end && dspec_eqb (x_dev t) dv)%bool then Ok (true, t)
  else
    do o <- tr_clone t;
    let d := match dt with Some d => d | None => x_dt o end in
    Ok (false, mkTtr d dv (mkT (match dt with Some d => d | None => t_dt (x_mat t) end) (dev_of dv))).
(** transform3d.py:470-474 *)
Definition tr_cpu (t : ttr) : res (bool * ttr) := tr_to (DObj cpu) false None t.
(** transform3d.py:301-349: ones with dtype and device of the points are appended, the matrix takes the dtype of the points *)
Definition tr_points (t : ttr) (points : tensor) : res tensor := do p <- join promo points points; broadcast_bmm p (x_mat t).
(** transform3d.py:351-384 *)
Definition tr_normals (t : ttr) (normals : tensor) : res tensor := do i <- tr_inverse t; broadcast_bmm normals (x_mat i).
(** transform3d.py:386-409 *)
Definition tr_shape_operator (t : ttr) (s : tensor) : res tensor :=
  do i <- tr_inverse t; do m <- broadcast_bmm s (x_mat i); broadcast_bmm (x_mat i) m.
End TDev.
