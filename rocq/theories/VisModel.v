(** Visuals: frame.py [Visual], and the conversion of geometry in urdf.py, sdf.py and mjcf.py. *)
From Coq Require Import Reals String Ascii Bool Arith List.
From Verif Require Import Prelude ExtF Tree SpecFK ChainModel Lin RotModel T3dModel ChainInst LoaderModel MjcfModel RobotModel XmlModel XmlSchema XmlLoad.
Import ListNotations.
Local Open Scope nat_scope.
Local Open Scope string_scope.
Local Open Scope list_scope.

(** frame.py:7-21.  The type is None, a name, or MuJoCo's number of the type; the parameters are what the loaders put there. *)
Inductive vtag := NoType | TypeName (s : string) | TypeCode (n : nat).
Inductive gparam :=
| NoParam | MeshScaled (file : string) (scale : option V3) | MeshFile (file : string) | RadiusLength (r l : R) | Size (v : V3) | Radius (r : R)
| Sizes (l : list R).
Record visual := mkVisual { vs_offset : option M4; vs_type : vtag; vs_param : gparam }.
(** [frame.Visual()] *)
Definition empty_visual : visual := mkVisual None NoType NoParam.

(** urdf_parser_py/urdf.py:83-133 and sdf.py:52-93 after parsing *)
Inductive geometry :=
| GBox (size : V3) | GCylinder (r l : R) | GSphere (r : R) | GMesh (file : string) (scale : option V3) | GCapsule (r l : R).
(** urdf_parser_py/urdf.py:205-216, sdf.py:143-155; material and name are not read *)
Record uvisual := mkUVisual { uv_origin : option upose; uv_geometry : option geometry }.
Record svisual := mkSVisual { sv_pose : option spose; sv_geometry : option geometry }.

(** urdf.py:21-41 [_convert_visual]; there is no case for a capsule *)
Definition urdf_visual (v : option uvisual) : res visual :=
  match v with
  | Some (mkUVisual o (Some g)) =>
      do t <- urdf_transform o;
      Ok (match g with
          | GMesh f s => mkVisual (Some t) (TypeName "mesh") (MeshScaled f s)
          | GCylinder r l => mkVisual (Some t) (TypeName "cylinder") (RadiusLength r l)
          | GBox s => mkVisual (Some t) (TypeName "box") (Size s)
          | GSphere r => mkVisual (Some t) (TypeName "sphere") (Radius r)
          | GCapsule _ _ => mkVisual (Some t) NoType NoParam
          end)
  | _ => Ok empty_visual
  end.
(** urdf.py:66, 121 [[_convert_visual(link.visual)]]; [link.visual] is the first visual or None: urdf_parser_py/urdf.py:373-376, 397 *)
Definition urdf_link_visuals (vs : list uvisual) : res (list visual) := do v <- urdf_visual (hd_error vs); Ok [v].

(** sdf.py:20-42 [_convert_visuals]; for a cylinder another rotation is composed *)
Definition sdf_visual (v : svisual) : res visual :=
  do t <- sdf_transform (sv_pose v);
  match sv_geometry v with
  | Some (GMesh f _) => do m <- the_matrix t; Ok (mkVisual (Some m) (TypeName "mesh") (MeshFile f))
  | Some (GCylinder r l) =>
      do A <- euler_angles_to_matrix (mkV3 (PI / 2) 0 0) "ZYX";
      do u <- transform3d_init (MNone 1) PosNone (RotM A);
      do t <- compose t [u];
      do m <- the_matrix t; Ok (mkVisual (Some m) (TypeName "cylinder") (RadiusLength r l))
  | Some (GBox s) => do m <- the_matrix t; Ok (mkVisual (Some m) (TypeName "box") (Size s))
  | Some (GSphere r) => do m <- the_matrix t; Ok (mkVisual (Some m) (TypeName "sphere") (Radius r))
  | _ => do m <- the_matrix t; Ok (mkVisual (Some m) NoType NoParam)
  end.
Definition sdf_link_visuals (vs : list svisual) : res (list visual) := rmap sdf_visual vs.

(** ** The visuals of all frames *)
(** urdf.py:64-66, 120-121 and sdf.py:50, 59-60, 99-100: the link of a frame is made from [lmap] at the name of the frame, and so are its
    visuals.  [LoaderModel] builds the frames without them; here they are listed by frame, depth first. *)
Definition chain_visuals {V} (conv : V -> res (list visual)) (lmap : dict string V) (root : mframe) : res (list (string * list visual)) :=
  rmap (fun f => do v <- of_opt KeyError (dget String.eqb (f_name f) lmap); do w <- conv v; Ok (f_name f, w)) (preorder root).
(** [link_map] of the links in document order, as in [RobotModel.add_link] *)
Definition map_of {V} (ls : list (string * V)) : dict string V := fold_left (fun d l => dset String.eqb (fst l) (snd l) d) ls [].

(** ** From documents *)
(** [isinstance] on the class of the object: urdf.py:26-40, sdf.py:24-40; the classes are in urdf_parser_py/urdf.py:83-133 and sdf.py:52-93 *)
Definition as_geometry (pre : string) (v : rvalue) : option geometry :=
  match v with
  | VObj c _ _ =>
      if String.eqb c (pre ++ "Mesh") then
        opt f <- obind (fld v "filename") as_str; opt s <- obind (fld v "scale") (optional as_vec3); Some (GMesh f s)
      else if String.eqb c (pre ++ "Cylinder") then
        opt r <- obind (fld v "radius") as_num; opt l <- obind (fld v "length") as_num; Some (GCylinder r l)
      else if String.eqb c (pre ++ "Box") then opt s <- obind (fld v "size") as_vec3; Some (GBox s)
      else if String.eqb c (pre ++ "Sphere") then opt r <- obind (fld v "radius") as_num; Some (GSphere r)
      else if String.eqb c (pre ++ "Capsule") then
        opt r <- obind (fld v "radius") as_num; opt l <- obind (fld v "length") as_num; Some (GCapsule r l)
      else None
  | _ => None
  end.
Definition as_uvisual (v : rvalue) : option uvisual :=
  opt o <- obind (fld v "origin") (optional as_pose); opt g <- obind (fld v "geometry") (optional (as_geometry "urdf.")); Some (mkUVisual o g).
Definition as_svisual (v : rvalue) : option svisual :=
  opt o <- obind (fld v "pose") (optional as_spose); opt g <- obind (fld v "geometry") (optional (as_geometry "sdf.")); Some (mkSVisual o g).
Definition as_list (v : rvalue) : option (list rvalue) := match v with VList l => Some l | _ => None end.
(** the names and visuals of all links *)
Definition links_visuals {V} (f : rvalue -> option V) (v : rvalue) : option (list (string * list V)) :=
  opt ls <- obind (fld v "links") as_list;
  omap (fun l => opt n <- obind (fld l "name") as_str; opt vs <- obind (fld l "visuals") as_list; opt ws <- omap f vs; Some (n, ws)) ls.

Section Load.
Variable pf : string -> option R.
(** urdf.py:104-124 again, with the visuals in place of the chain *)
Definition load_urdf_visuals (limit : nat) (doc : node) : xr (list (string * list visual)) :=
  let! v := from_doc pf (classes 0%R) "urdf.Robot" doc in
  let! es := xopt XUnmodelled (as_urobot v) in
  let! ls := xopt XUnmodelled (links_visuals as_uvisual v) in
  let! c := lift (urdf_chain limit (urobot_of es)) in
  lift (chain_visuals urdf_link_visuals (map_of ls) (c_root c)).
(** sdf.py:81-102 *)
Definition load_sdf_visuals (limit : nat) (doc : node) : xr (list (string * list visual)) :=
  let! v := from_doc pf (classes 0%R) "sdf.SDF" doc in
  let! m := xopt (XPy AttributeError) (fld v "model") in
  match m with
  | VNone => fail (XPy AttributeError)
  | _ =>
      let! es := xopt XUnmodelled (as_smodel m) in
      let! ls := xopt XUnmodelled (links_visuals as_svisual m) in
      let! c := lift (sdf_chain limit (srobot_of es)) in
      lift (chain_visuals sdf_link_visuals (map_of ls) (c_root c))
  end.
End Load.

(** ** MJCF *)
(** the arrays of [mujoco.MjModel] for geoms *)
Record mgeom := mkMGeom { mg_bodyid : nat; mg_pos : V3; mg_quat : Q; mg_type : nat; mg_size : list R }.
(** mjcf.py:17-25 [body_to_geoms] *)
Definition body_to_geoms (gs : list mgeom) (id : nat) : res (list visual) :=
  rmap (fun g => do t <- placed (mg_quat g) (mg_pos g); Ok (mkVisual (Some t) (TypeCode (mg_type g)) (Sizes (mg_size g))))
    (filter (fun g => Nat.eqb (mg_bodyid g) id) gs).
(** mjcf.py:28-59 again: the visuals of the frames below body [pid], depth first; those of a site are the empty tuple of frame.py:25 *)
Fixpoint mjcf_visuals_rec (m : mjmodel) (gs : list mgeom) (limit pid : nat) : res (list (string * list visual)) :=
  match limit with
  | O => Err RecursionError
  | S n =>
      do bs <- rmap (fun i => do b <- get (mm_bodies m) i;
                              do j <- mjcf_body_frame m b;
                              do vs <- body_to_geoms gs i;
                              do cs <- mjcf_visuals_rec m gs n i;
                              Ok ((mb_name b, vs) :: cs)) (child_ids m pid);
      do ss <- rmap mjcf_site_frame (filter (fun s => Nat.eqb (ms_bodyid s) pid) (mm_sites m));
      Ok (concat bs ++ map (fun s => (f_name s, [])) ss)
  end.
(** mjcf.py:76-86 *)
Definition mjcf_visuals (limit : nat) (m : mjmodel) (gs : list mgeom) (a : body_arg) : res (list (string * list visual)) :=
  do r <- root_body m a;
  do b <- get (mm_bodies m) r;
  do vs <- body_to_geoms gs r;
  do cs <- mjcf_visuals_rec m gs limit r;
  Ok ((mb_name b, vs) :: cs).
