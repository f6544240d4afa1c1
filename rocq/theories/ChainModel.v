(** [Chain.__init__] and forward kinematics (chain.py), over an abstract set of transforms.

    [T]: transforms (4x4 matrices in the code), [A]: axes, [S]: joint values. *)
From Coq Require Import String Bool Arith Lia List.
From Verif Require Import Prelude ExtF Tree.
Import ListNotations.

(** The matrix operations forward kinematics uses.
    [t_mul]: matrix product, [t_one]: [torch.eye(4)], [t_rev]: [axis_and_angle_to_matrix_44] on one
    axis and angle, [t_pris]: [axis_and_d_to_pris_matrix] on one axis and distance,
    [t_ax0]: a row of [torch.zeros([n_joints, 3])] (chain.py:249). *)
Record Ops (T A S : Type) := mkOps {
  t_mul : T -> T -> T;
  t_one : T;
  t_rev : A -> S -> T;
  t_pris : A -> S -> T;
  t_ax0 : A }.
Arguments t_mul {T A S}. Arguments t_one {T A S}. Arguments t_rev {T A S}.
Arguments t_pris {T A S}. Arguments t_ax0 {T A S}.

Section Model.
Context {T A S : Type} (O : Ops T A S).
Notation frame := (frame T A).

(** State of the loop chain.py:246-298.  The parent index -1 is [None], as is the joint index -1. *)
Record bstate := mkB {
  b_parents : list (list nat);        (* parents_indices *)
  b_jidx : list (option nat);         (* joint_indices *)
  b_axes : list A;                    (* axes *)
  b_loff : list (option T);           (* link_offsets *)
  b_joff : list (option T);           (* joint_offsets *)
  b_jtype : list nat;                 (* joint_type_indices *)
  b_f2i : dict string nat;            (* frame_to_idx *)
  b_i2f : dict nat string;            (* idx_to_frame *)
  b_dpar : list (option nat);         (* direct_parents *)
  b_depth : list nat;                 (* frame_depths *)
  b_idx : nat }.                      (* idx *)

Definition qitem : Type := frame * option nat * nat.

(** chain.py:261-298: the body of the while loop for one popped item.
    Offsets are single matrices: [Transform3d] offsets with a batch larger than one are not modelled. *)
Definition visit (names : list (option string)) (st : bstate) (it : qitem) : res bstate :=
  let '(f, parent_idx, depth) := it in
  let idx := b_idx st in
  let name_strip := strip_nl (f_name f) in
  let j := f_joint f in
  do path <- match parent_idx with
             | None => Ok [idx]
             | Some p => do pp <- get (b_parents st) p; Ok (pp ++ [idx])
             end;
  do ja <- (if is_fixed (j_type j) then Ok (None, b_axes st)
            else do ji <- of_opt ValueError (index_of oseqb (j_name j) names);
                 Ok (Some ji, set_nth ji (j_axis j) (b_axes st)));
  Ok (mkB (b_parents st ++ [path])
          (b_jidx st ++ [fst ja])
          (snd ja)
          (b_loff st ++ [l_off (f_link f)])
          (b_joff st ++ [j_off j])
          (b_jtype st ++ [type_index (j_type j)])
          (dset String.eqb name_strip idx (b_f2i st))
          (dset Nat.eqb idx name_strip (b_i2f st))
          (b_dpar st ++ [parent_idx])
          (b_depth st ++ [depth])
          (1 + idx)).

(** chain.py:260 [while len(queue) > 0]: [pop(0)], visit, append the children *)
Fixpoint bfs_loop (fuel : nat) (names : list (option string)) (st : bstate) (queue : list qitem)
  : res bstate :=
  match queue with
  | [] => Ok st
  | it :: q =>
      match fuel with
      | 0 => Err OutOfFuel
      | Datatypes.S n =>
          do st' <- visit names st it;
          bfs_loop n names st'
            (q ++ map (fun c => (c, Some (b_idx st), 1 + snd it)) (f_children (fst (fst it))))
      end
  end.

(** the tables of a finished [Chain] *)
Record chain := mkChain {
  c_root : frame;
  c_low : list F; c_high : list F;
  c_names : list (option string);
  c_parents : list (list nat);
  c_jidx : list (option nat);
  c_axes : list A;
  c_jtype : list nat;
  c_f2i : dict string nat;
  c_i2f : dict nat string;
  c_nf : nat;
  c_dpar : list (option nat);
  c_levels : list (list nat);
  c_static : list T;
  c_jclamp : list nat;
  c_has_rev : bool;
  c_has_pris : bool;
  c_dof_frame : list nat;
  c_mask : list (list bool);
  c_dof_rev : list bool }.

(** chain.py:309-313 *)
Definition bfs_levels (depths : list nat) : list (list nat) :=
  map (fun d => filter (fun i => Nat.eqb (nth i depths 0) d) (seq 0 (length depths)))
      (seq 0 (1 + list_max depths)).

(** chain.py:318-321 *)
Definition static_offset (lo jo : option T) : T :=
  t_mul O (match lo with Some m => m | None => t_one O end)
          (match jo with Some m => m | None => t_one O end).

(** chain.py:332-336: last write wins *)
Definition dof_frames (n : nat) (jidx : list (option nat)) : list nat :=
  fold_left (fun acc fi => match nth fi jidx None with
                           | Some ji => set_nth ji fi acc
                           | None => acc
                           end)
            (seq 0 (length jidx)) (repeat 0 n).

(** chain.py:339-345 *)
Definition ancestor_mask (dof_frame : list nat) (parents : list (list nat)) : list (list bool) :=
  map (fun df => map (fun ps => existsb (Nat.eqb df) ps) parents) dof_frame.

(** chain.py:230-348 *)
Definition chain_init (root : frame) : res chain :=
  let '(low, high) := get_joint_limits root in
  let names := get_joint_parameter_names true root in
  let n := length names in
  let st0 := mkB [] [] (repeat (t_ax0 O) n) [] [] [] [] [] [] [] 0 in
  do st <- bfs_loop (size root) names st0 [(root, None, 0)];
  let dof := dof_frames n (b_jidx st) in
  Ok (mkChain root low high names
        (b_parents st) (b_jidx st) (b_axes st) (b_jtype st) (b_f2i st) (b_i2f st)
        (b_idx st) (b_dpar st) (bfs_levels (b_depth st))
        (zip_with static_offset (b_loff st) (b_joff st))
        (map (fun o => match o with Some j => j | None => 0 end) (b_jidx st))
        (existsb (Nat.eqb 1) (b_jtype st))
        (existsb (Nat.eqb 2) (b_jtype st))
        dof
        (ancestor_mask dof (b_parents st))
        (map (fun fi => Nat.eqb (nth fi (b_jtype st) 0) 1) dof)).

(** A joint tensor of shape (B, cols). *)
Record thT := mkTh { th_cols : nat; th_rows : list (list S) }.

(** One row of the joint tensor against the axis table: torch broadcasting of shapes (B, cols) and
    (B, n, 3), then assignment into a (B, n, 4, 4) array (rotation_conversions.py:455-470, 437-452).
    Equal widths pair up, one column is repeated, other widths raise RuntimeError. *)
Definition joint_row (motion : A -> S -> T) (axes : list A) (row : list S) : res (list T) :=
  if Nat.eqb (length row) (length axes) then Ok (zip_with motion axes row)
  else match row with
       | [x] => Ok (map (fun a => motion a x) axes)
       | _ => Err RuntimeError
       end.

(** chain.py:57-58 and 60-61: per-joint transforms, then gathered per frame; result is frame-major *)
Definition per_frame (motion : A -> S -> T) (axes : list A) (jidx : list nat) (th : thT)
  : res (list (list T)) :=
  do tr <- rmap (joint_row motion axes) (th_rows th);
  rmap (fun k => rmap (fun row => get row k) tr) jidx.

(** [torch.where] on a frame mask *)
Definition where_frames (mask : list bool) (x y : list (list T)) : list (list T) :=
  zip_with (fun (m : bool) (p : list T * list T) => if m then fst p else snd p) mask
           (zip_with pair x y).

(** chain.py:53-79.  [rev_per_frame]/[pris_per_frame] are unbound when [th] has no column. *)
Definition joint_transforms (th : thT) (jidx jtypes : list nat) (axes : list A)
  (has_rev has_pris : bool) (nf : nat) : res (list (list T)) :=
  let B := length (th_rows th) in
  let eye := repeat (repeat (t_one O) B) nf in
  do rev <- (if Nat.ltb 0 (th_cols th) && has_rev
             then do x <- per_frame (t_rev O) axes jidx th; Ok (Some x) else Ok None);
  do pris <- (if Nat.ltb 0 (th_cols th) && has_pris
              then do x <- per_frame (t_pris O) axes jidx th; Ok (Some x) else Ok None);
  let is_rev := map (Nat.eqb 1) jtypes in
  let is_pris := map (Nat.eqb 2) jtypes in
  if has_rev && negb has_pris then
    do r <- of_opt UnboundLocalError rev; Ok (where_frames is_rev r eye)
  else if has_pris && negb has_rev then
    do p <- of_opt UnboundLocalError pris; Ok (where_frames is_pris p eye)
  else if has_rev && has_pris then
    do r <- of_opt UnboundLocalError rev;
    do p <- of_opt UnboundLocalError pris;
    Ok (where_frames is_pris p (where_frames is_rev r eye))
  else Ok eye.

(** [T_world_link[level] = values] on an array whose slots may be uninitialised ([None]) *)
Fixpoint scatter {X} (idxs : list nat) (vals : list X) (arr : list (option X)) : list (option X) :=
  match idxs, vals with
  | i :: ir, v :: vr => scatter ir vr (set_nth i (Some v) arr)
  | _, _ => arr
  end.

(** read a slot: an uninitialised slot is reported as an error so that the theorems exclude it *)
Definition read_slot {X} (arr : list (option X)) (i : nat) : res X :=
  do o <- get arr i; of_opt ValueError o.

(** chain.py:89-91, one level.  The right-hand side is evaluated before the assignment. *)
Definition fk_level (dpar : list (option nat)) (locals : list (list T)) (arr : list (option (list T)))
  (level : list nat) : res (list (option (list T))) :=
  do vals <- rmap (fun i =>
      do par <- get dpar i;
      do p <- of_opt IndexError par;
      do tp <- read_slot arr p;
      do lo <- get locals i;
      Ok (zip_with (t_mul O) tp lo)) level;
  Ok (scatter level vals arr).

Fixpoint fk_levels (dpar : list (option nat)) (locals : list (list T)) (arr : list (option (list T)))
  (levels : list (list nat)) : res (list (option (list T))) :=
  match levels with
  | [] => Ok arr
  | l :: r => do arr' <- fk_level dpar locals arr l; fk_levels dpar locals arr' r
  end.

(** chain.py:13-93.  Result: for each frame, the (possibly uninitialised) batch of matrices. *)
Definition fk_impl (th : thT) (static : list T) (jidx jtypes : list nat) (dpar : list (option nat))
  (levels : list (list nat)) (axes : list A) (has_rev has_pris : bool) (nf : nat)
  : res (list (option (list T))) :=
  do jt <- joint_transforms th jidx jtypes axes has_rev has_pris nf;
  let locals := zip_with (fun so row => map (t_mul O so) row) static jt in
  do l0 <- get levels 0;
  do v0 <- rmap (get locals) l0;
  fk_levels dpar locals (scatter l0 v0 (repeat None nf)) (tl levels).

(** chain.py:507-540 (both branches run the same forward computation) *)
Definition forward_kinematics_tensor (c : chain) (th : thT) : res (list (option (list T))) :=
  fk_impl th (c_static c) (c_jclamp c) (c_jtype c) (c_dpar c) (c_levels c) (c_axes c)
          (c_has_rev c) (c_has_pris c) (c_nf c).

(** chain.py:497-499 *)
Definition get_frame_indices (c : chain) (names : list string) : res (list nat) :=
  rmap (fun n => of_opt KeyError (dget String.eqb n (c_f2i c))) names.
(** chain.py:591-593 *)
Definition get_all_frame_indices (c : chain) : res (list nat) :=
  get_frame_indices c (get_frame_names false (c_root c)).

(** chain.py:542-564, for an input that is already a joint tensor: the dictionary comprehension *)
Fixpoint fk_dict (c : chain) (all : list (option (list T))) (idxs : list nat) (acc : dict string (list T))
  : res (dict string (list T)) :=
  match idxs with
  | [] => Ok acc
  | i :: r =>
      do n <- of_opt KeyError (dget Nat.eqb i (c_i2f c));
      do t <- read_slot all i;
      fk_dict c all r (dset String.eqb n t acc)
  end.
Definition forward_kinematics (c : chain) (th : thT) (frame_indices : option (list nat))
  : res (dict string (list T)) :=
  do idxs <- match frame_indices with Some l => Ok l | None => get_all_frame_indices c end;
  do all <- forward_kinematics_tensor c th;
  fk_dict c all idxs [].
End Model.
Arguments bstate : clear implicits.
Arguments chain : clear implicits.
Arguments thT : clear implicits.
