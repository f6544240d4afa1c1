(** The tree builder shared by urdf.py and sdf.py, and the two loaders on parsed descriptions. *)
From Coq Require Import Reals String Bool Arith Lia List.
From Verif Require Import Prelude ExtF Tree ChainModel Lin RotModel T3dModel ChainInst.
Import ListNotations.
Local Open Scope nat_scope.

Section Build.
Context {J : Type}.
(** [j.parent], [j.child] *)
Variables (par chi : J -> string).
(** the link and the joint made for the child frame of a joint: urdf.py:48-67, sdf.py:49-61 *)
Variable mk : J -> res (@link M4 * mjoint).

(** urdf.py:44-70, sdf.py:45-64 [_build_chain_recurse].  The loop over all joints with the test
    [j.parent == root_frame.link.name] is a map over the joints that pass it.  [limit] is the number of nested calls
    Python still allows; running out of it is a RecursionError.  Visuals are left out. *)
Fixpoint build_rec (joints : list J) (limit : nat) (name : option string) : res (list mframe) :=
  match limit with
  | O => Err RecursionError
  | S n => rmap (fun j => do lj <- mk j;
                          do cs <- build_rec joints n (l_name (fst lj));
                          Ok (Frame (chi j) (fst lj) (snd lj) cs))
                (filter (fun j => opt_eqb String.eqb (Some (par j)) name) joints)
  end.

(** urdf.py:108-114, sdf.py:86-92: the body of the double loop *)
Definition root_step (joints : list J) (hr : list bool) (p : nat * nat) : list bool :=
  match nth_error joints (fst p), nth_error joints (snd p) with
  | Some a, Some b => if String.eqb (par a) (chi b) then set_nth (fst p) false hr
                      else if String.eqb (par b) (chi a) then set_nth (snd p) false hr
                      else hr
  | _, _ => hr
  end.
Definition root_pairs (n : nat) : list (nat * nat) :=
  flat_map (fun i => map (pair i) (seq (S i) (n - S i))) (seq 0 n).
Definition has_root (joints : list J) : list bool :=
  fold_left (root_step joints) (root_pairs (length joints)) (repeat true (length joints)).
(** urdf.py:115-118, sdf.py:93-96: the parent of the first joint left; [root_link] stays unbound if there is none *)
Definition find_root (joints : list J) : res string :=
  match find (fun p => fst p) (combine (has_root joints) joints) with
  | Some (_, j) => Ok (par j)
  | None => Err UnboundLocalError
  end.
End Build.

(** ** urdf.py *)

(** urdf_parser_py/urdf.py:16-58 [Pose] after parsing (both attributes have defaults), 268-282 [JointLimit] after
    parsing (effort and velocity are required, lower and upper have defaults), 317-361 [Joint], 363-407 [Link];
    the fields the loader does not read are left out. *)
Record upose := mkUPose { p_xyz : V3; p_rpy : V3 }.
Record ulimit := mkULimit { ul_effort : R; ul_lower : R; ul_upper : R; ul_velocity : R }.
Record ujoint := mkUJoint {
  uj_name : string; uj_type : string; uj_parent : string; uj_child : string;
  uj_origin : option upose; uj_axis : option V3; uj_limit : option ulimit }.
Record ulink := mkULink { uk_name : string; uk_origin : option upose }.

(** urdf.py:7-10 *)
Definition urdf_joint_type_map : dict string string :=
  [("revolute", "revolute"); ("continuous", "revolute"); ("prismatic", "prismatic"); ("fixed", "fixed")]%string.

(** urdf.py:13-18; the single matrix of the returned Transform3d *)
Definition the_matrix (t : transform) : res M4 := get (tm t) 0.
Definition urdf_transform (o : option upose) : res M4 :=
  match o with
  | None => do t <- transform3d_init (MNone 1) PosNone RotNone; the_matrix t
  | Some p => do q <- quaternion_from_euler (p_rpy p) (AxStr "sxyz");
              do t <- transform3d_init (MNone 1) (Pos1 (p_xyz p)) (RotQ (fst q));
              the_matrix t
  end.

(** urdf.py:48-60 *)
Definition urdf_limits (l : option ulimit) : option (F * F) :=
  option_map (fun l => (Fin (ul_lower l), Fin (ul_upper l))) l.
Definition urdf_velocity_limits (l : option ulimit) : option (F * F) :=
  option_map (fun l => (Fin (- ul_velocity l)%R, Fin (ul_velocity l))) l.
Definition urdf_effort_limits (l : option ulimit) : option (F * F) :=
  option_map (fun l => (Fin (- ul_effort l)%R, Fin (ul_effort l))) l.

(** urdf.py:48-67 *)
Definition urdf_mk (lmap : dict string ulink) (j : ujoint) : res (@link M4 * mjoint) :=
  do off <- urdf_transform (uj_origin j);
  do ty <- of_opt KeyError (dget String.eqb (uj_type j) urdf_joint_type_map);
  do jn <- joint_init (Some (uj_name j)) (Some off) ty (uj_axis j)
             (urdf_limits (uj_limit j)) (urdf_velocity_limits (uj_limit j)) (urdf_effort_limits (uj_limit j));
  do l <- of_opt KeyError (dget String.eqb (uj_child j) lmap);
  do loff <- urdf_transform (uk_origin l);
  Ok (mkLink (Some (uk_name l)) (Some loff), jn).

(** urdf.py:104-124 on the parsed robot: [lmap] is [robot.link_map], [joints] is [robot.joints] *)
Definition urdf_tree (limit : nat) (lmap : dict string ulink) (joints : list ujoint) : res mframe :=
  do rn <- find_root uj_parent uj_child joints;
  do rl <- of_opt KeyError (dget String.eqb rn lmap);
  do rj <- joint_init None None "fixed" (Some (mkV3 0 0 1)) None None None;
  do loff <- urdf_transform (uk_origin rl);
  do cs <- build_rec uj_parent uj_child (urdf_mk lmap) joints limit (Some (uk_name rl));
  Ok (Frame (uk_name rl) (mkLink (Some (uk_name rl)) (Some loff)) rj cs).
Definition build_chain_from_urdf (limit : nat) (lmap : dict string ulink) (joints : list ujoint) : res (@chain M4 V3) :=
  do root <- urdf_tree limit lmap joints; chain_init mops root.

(** ** sdf.py *)

(** urdf_parser_py/sdf.py:213-264 after parsing: a pose is six numbers; [axis] is required, [type] and [axis/limit] are
    optional, the bounds may be missing.  The pose of the joint and of the model are parsed but not read. *)
Record spose := mkSPose { sp_xyz : V3; sp_rpy : V3 }.
Record sjoint := mkSJoint {
  sj_name : string; sj_type : option string; sj_parent : string; sj_child : string;
  sj_axis : V3; sj_limit : option (option R * option R) }.
Record slink := mkSLink { sk_name : string; sk_pose : option spose }.

(** sdf.py:8-10 *)
Definition sdf_joint_type_map : dict string string :=
  [("revolute", "revolute"); ("prismatic", "prismatic"); ("fixed", "fixed")]%string.

(** sdf.py:13-17 *)
Definition sdf_transform (o : option spose) : res transform :=
  match o with
  | None => transform3d_init (MNone 1) PosNone RotNone
  | Some p => do A <- euler_angles_to_matrix (sp_rpy p) "ZYX";
              transform3d_init (MNone 1) (Pos1 (sp_xyz p)) (RotM A)
  end.

(** sdf.py:54-57.  A bound that is missing is the Python value None.  [Chain.__init__] turns the bounds of the moving
    joints into a tensor (chain.py:237-239), which is a TypeError for None; here that error is raised when the joint
    is made.  The difference only shows in which error comes first. *)
Definition sdf_limits (moving : bool) (l : option (option R * option R)) : res (option (F * F)) :=
  match l with
  | None => Ok None
  | Some (Some a, Some b) => Ok (Some (Fin a, Fin b))
  | Some _ => if moving then Err TypeError else Ok None
  end.

(** sdf.py:49-61 *)
Definition sdf_mk (lmap : dict string slink) (j : sjoint) : res (@link M4 * mjoint) :=
  do lp <- of_opt KeyError (dget String.eqb (sj_parent j) lmap);
  do lc <- of_opt KeyError (dget String.eqb (sj_child j) lmap);
  do tp <- sdf_transform (sk_pose lp);
  do tc <- sdf_transform (sk_pose lc);
  do off <- compose (inverse tp) [tc];
  do om <- the_matrix off;
  do st <- of_opt KeyError (sj_type j);
  do ty <- of_opt KeyError (dget String.eqb st sdf_joint_type_map);
  do lim <- sdf_limits (negb (String.eqb ty "fixed")) (sj_limit j);
  do jn <- joint_init (Some (sj_name j)) (Some om) ty (Some (sj_axis j)) lim None None;
  do i <- transform3d_init (MNone 1) PosNone RotNone;
  do im <- the_matrix i;
  Ok (mkLink (Some (sk_name lc)) (Some im), jn).

(** sdf.py:81-102 on the parsed model *)
Definition sdf_tree (limit : nat) (lmap : dict string slink) (joints : list sjoint) : res mframe :=
  do rn <- find_root sj_parent sj_child joints;
  do rl <- of_opt KeyError (dget String.eqb rn lmap);
  do t <- sdf_transform (sk_pose rl);
  do off <- the_matrix t;
  do rj <- joint_init None (Some off) "fixed" (Some (mkV3 0 0 1)) None None None;
  do i <- transform3d_init (MNone 1) PosNone RotNone;
  do im <- the_matrix i;
  do cs <- build_rec sj_parent sj_child (sdf_mk lmap) joints limit (Some (sk_name rl));
  Ok (Frame (sk_name rl) (mkLink (Some (sk_name rl)) (Some im)) rj cs).
Definition build_chain_from_sdf (limit : nat) (lmap : dict string slink) (joints : list sjoint) : res (@chain M4 V3) :=
  do root <- sdf_tree limit lmap joints; chain_init mops root.
