(** The MJCF loader (mjcf.py) on a compiled MuJoCo model. *)
From Coq Require Import Reals String Bool Arith List.
From Verif Require Import Prelude ExtF Tree ChainModel Lin RotModel T3dModel ChainInst LoaderModel.
Import ListNotations.
Local Open Scope nat_scope.

(** The arrays of [mujoco.MjModel] that mjcf.py reads: bodies, joints and sites by id.  Geometry is left out.
    [mn_limited] and [mn_qpos0] exist in MuJoCo but are not read by the loader; they are used to state properties. *)
Inductive mjtype := mjFree | mjBall | mjSlide | mjHinge.
Record mbody := mkMBody { mb_name : string; mb_parentid : nat; mb_pos : V3; mb_quat : Q; mb_jntnum : nat; mb_jntadr : nat }.
Record mjnt := mkMJnt { mn_name : string; mn_type : mjtype; mn_pos : V3; mn_axis : V3; mn_range : R * R;
  mn_limited : bool; mn_qpos0 : R }.
Record msite := mkMSite { ms_name : string; ms_bodyid : nat; ms_pos : V3; ms_quat : Q }.
Record mjmodel := mkMJ { mm_bodies : list mbody; mm_joints : list mjnt; mm_sites : list msite }.

(** mjcf.py:11-14 *)
Definition mjcf_joint_type_map (t : mjtype) : res string :=
  match t with mjHinge => Ok "revolute"%string | mjSlide => Ok "prismatic"%string | _ => Err KeyError end.
(** [tf.Transform3d(rot=quat, pos=pos)] *)
Definition placed (q : Q) (p : V3) : res M4 :=
  do t <- transform3d_init (MNone 1) (Pos1 p) (RotQ q); the_matrix t.
(** mjcf.py:34-45: the joint of a body *)
Definition mjcf_joint (m : mjmodel) (b : mbody) : res mjoint :=
  if (1 <? mb_jntnum b) then Err ValueError
  else if mb_jntnum b =? 1 then
    do j <- get (mm_joints m) (mb_jntadr b);
    do t <- transform3d_init (MNone 1) (Pos1 (mn_pos j)) RotNone;
    do off <- the_matrix t;
    do ty <- mjcf_joint_type_map (mn_type j);
    joint_init (Some (mn_name j)) (Some off) ty (Some (mn_axis j))
      (Some (Fin (fst (mn_range j)), Fin (snd (mn_range j)))) None None
  else joint_init (Some (mb_name b ++ "_fixed_joint")%string) None "fixed" (Some (mkV3 0 0 1)) None None None.
(** mjcf.py:46-47, without children *)
Definition mjcf_body_frame (m : mjmodel) (b : mbody) : res (@link M4 * mjoint) :=
  do j <- mjcf_joint m b;
  do off <- placed (mb_quat b) (mb_pos b);
  Ok (mkLink (Some (mb_name b)) (Some off), j).
(** mjcf.py:55-57 *)
Definition mjcf_site_frame (s : msite) : res mframe :=
  do off <- placed (ms_quat s) (ms_pos s);
  do j <- joint_init None None "fixed" (Some (mkV3 0 0 1)) None None None;
  Ok (Frame (ms_name s) (mkLink (Some (ms_name s)) (Some off)) j []).

(** mjcf.py:31-33: the ids of the child bodies *)
Definition child_ids (m : mjmodel) (pid : nat) : list nat :=
  filter (fun i => match nth_error (mm_bodies m) i with
                   | Some b => (mb_parentid b =? pid) && negb (i =? pid)
                   | None => false end) (seq 0 (length (mm_bodies m))).
(** mjcf.py:28-57 [_build_chain_recurse]: the children it appends to the frame of body [pid].  [limit] as in
    [build_rec]. *)
Fixpoint mjcf_rec (m : mjmodel) (limit pid : nat) : res (list mframe) :=
  match limit with
  | O => Err RecursionError
  | S n =>
      do bs <- rmap (fun i => do b <- get (mm_bodies m) i;
                              do lj <- mjcf_body_frame m b;
                              do cs <- mjcf_rec m n i;
                              Ok (Frame (mb_name b) (fst lj) (snd lj) cs)) (child_ids m pid);
      do ss <- rmap mjcf_site_frame (filter (fun s => ms_bodyid s =? pid) (mm_sites m));
      Ok (bs ++ ss)
  end.

(** mjcf.py:77-80 *)
Inductive body_arg := BodyNone | BodyName (s : string) | BodyId (i : nat).
Definition root_body (m : mjmodel) (a : body_arg) : res nat :=
  match a with
  | BodyNone => Ok 0
  | BodyId i => Ok i
  | BodyName s => of_opt KeyError (index_of String.eqb s (map mb_name (mm_bodies m)))
  end.
(** mjcf.py:76-86 on the compiled model *)
Definition mjcf_tree (limit : nat) (m : mjmodel) (a : body_arg) : res mframe :=
  do r <- root_body m a;
  do b <- get (mm_bodies m) r;
  do off <- placed (mb_quat b) (mb_pos b);
  do j <- joint_init None None "fixed" (Some (mkV3 0 0 1)) None None None;
  do cs <- mjcf_rec m limit r;
  Ok (Frame (mb_name b) (mkLink (Some (mb_name b)) (Some off)) j cs).
Definition build_chain_from_mjcf (limit : nat) (m : mjmodel) (a : body_arg) : res (@chain M4 V3) :=
  do root <- mjcf_tree limit m a; chain_init mops root.
