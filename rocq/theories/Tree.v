(** Frames, links and joints, and the tree queries of [Chain].

    [T] is the type of transforms, [A] the type of joint axes. *)
From Coq Require Import String Bool Arith Lia List Permutation.
From Verif Require Import Prelude ExtF.
Import ListNotations.

(** frame.py:45 [Joint.TYPES = ['fixed', 'revolute', 'prismatic']]; any other string is
    rejected by [Joint.__init__] (frame.py:55-56). *)
Inductive jtype := Fixed | Revolute | Prismatic.
Definition jtype_eqb (a b : jtype) : bool :=
  match a, b with
  | Fixed, Fixed | Revolute, Revolute | Prismatic, Prismatic => true
  | _, _ => false
  end.
(** [Joint.TYPES.index(joint_type)], chain.py:293 *)
Definition type_index (t : jtype) : nat :=
  match t with Fixed => 0 | Revolute => 1 | Prismatic => 2 end.
Definition is_fixed (t : jtype) : bool := match t with Fixed => true | _ => false end.

Section Types.
Context {T A : Type}.

(** frame.py:44-70.  Names may be [None].  The stored axis is the normalised one; the
    normalisation itself is in Joint.v.  dtype and device are not modelled. *)
Record joint := mkJoint {
  j_name : option string;
  j_off : option T;
  j_type : jtype;
  j_axis : A;
  j_lim : option (F * F);
  j_vlim : option (F * F);
  j_elim : option (F * F) }.

(** frame.py:24-31, without visuals *)
Record link := mkLink { l_name : option string; l_off : option T }.

(** frame.py:98-104 *)
Inductive frame := Frame (name : string) (lnk : link) (jnt : joint) (children : list frame).

Definition f_name (f : frame) : string := match f with Frame n _ _ _ => n end.
Definition f_link (f : frame) : link := match f with Frame _ l _ _ => l end.
Definition f_joint (f : frame) : joint := match f with Frame _ _ j _ => j end.
Definition f_children (f : frame) : list frame := match f with Frame _ _ _ c => c end.

Fixpoint frame_rect' (P : frame -> Prop)
  (H : forall n l j cs, Forall P cs -> P (Frame n l j cs)) (f : frame) : P f :=
  match f with
  | Frame n l j cs =>
      H n l j cs ((fix go (cs : list frame) : Forall P cs :=
        match cs with
        | [] => Forall_nil P
        | c :: r => Forall_cons c (frame_rect' P H c) (go r)
        end) cs)
  end.

(** number of frames *)
Fixpoint size (f : frame) : nat :=
  match f with Frame _ _ _ cs => 1 + list_sum (map size cs) end.

(** chain.py:407-414 [Chain._get_joints]; the recursive call does not pass [exclude_fixed] on *)
Fixpoint get_joints_rec (exclude_fixed : bool) (f : frame) : list joint :=
  match f with
  | Frame _ _ j cs =>
      (if exclude_fixed && negb (is_fixed (j_type j)) then [j] else [])
      ++ flat_map (get_joints_rec true) cs
  end.
(** chain.py:416-418 *)
Definition get_joints (exclude_fixed : bool) (root : frame) : list joint :=
  get_joints_rec exclude_fixed root.
(** chain.py:420-427 *)
Definition get_joint_parameter_names (exclude_fixed : bool) (root : frame) : list (option string) :=
  map j_name (filter (fun j => negb (exclude_fixed && is_fixed (j_type j)))
                     (get_joints exclude_fixed root)).

(** chain.py:462-469, and the identical 449-456 *)
Fixpoint get_frame_names_rec (exclude_fixed : bool) (f : frame) : list string :=
  match f with
  | Frame n _ j cs =>
      (if negb (exclude_fixed && is_fixed (j_type j)) then [n] else [])
      ++ flat_map (get_frame_names_rec exclude_fixed) cs
  end.
(** chain.py:471-473 *)
Definition get_frame_names (exclude_fixed : bool) (root : frame) : list string :=
  dedup String.eqb (get_frame_names_rec exclude_fixed root).
(** chain.py:458-460 *)
Definition get_joint_parent_frame_names (exclude_fixed : bool) (root : frame) : list string :=
  dedup String.eqb (get_frame_names_rec exclude_fixed root).

(** chain.py:475-484 *)
Fixpoint get_links (f : frame) : list link :=
  match f with Frame _ l _ cs => l :: flat_map get_links cs end.
(** chain.py:486-495 *)
Fixpoint get_link_names_rec (f : frame) : list (option string) :=
  match f with Frame _ l _ cs => l_name l :: flat_map get_link_names_rec cs end.
Definition get_link_names (root : frame) : list (option string) :=
  dedup oseqb (get_link_names_rec root).

(** chain.py:382-390 [_find_frame_recursive]: the loop over children, with the recursive call *)
Fixpoint find_frame_rec (name : string) (f : frame) : option frame :=
  match f with
  | Frame _ _ _ cs =>
      (fix loop (cs : list frame) : option frame :=
         match cs with
         | [] => None
         | c :: r =>
             if String.eqb (f_name c) name then Some c
             else match find_frame_rec name c with
                  | Some x => Some x
                  | None => loop r
                  end
         end) cs
  end.
(** chain.py:392-395 *)
Definition find_frame (name : string) (root : frame) : option frame :=
  if String.eqb (f_name root) name then Some root else find_frame_rec name root.

(** chain.py:429-437 and 444-447 *)
Fixpoint find_joint_rec (name : option string) (f : frame) : option joint :=
  match f with
  | Frame _ _ _ cs =>
      (fix loop (cs : list frame) : option joint :=
         match cs with
         | [] => None
         | c :: r =>
             if oseqb (j_name (f_joint c)) name then Some (f_joint c)
             else match find_joint_rec name c with
                  | Some x => Some x
                  | None => loop r
                  end
         end) cs
  end.
Definition find_joint (name : option string) (root : frame) : option joint :=
  if oseqb (j_name (f_joint root)) name then Some (f_joint root) else find_joint_rec name root.

(** chain.py:397-405 and 439-442 *)
Fixpoint find_link_rec (name : option string) (f : frame) : option link :=
  match f with
  | Frame _ _ _ cs =>
      (fix loop (cs : list frame) : option link :=
         match cs with
         | [] => None
         | c :: r =>
             if oseqb (l_name (f_link c)) name then Some (f_link c)
             else match find_link_rec name c with
                  | Some x => Some x
                  | None => loop r
                  end
         end) cs
  end.
Definition find_link (name : option string) (root : frame) : option link :=
  if oseqb (l_name (f_link root)) name then Some (f_link root) else find_link_rec name root.

(** chain.py:616-630 [_get_joint_limits] for one of the three parameters *)
Definition get_joint_limits_of (param : joint -> option (F * F)) (root : frame) : list F * list F :=
  (map (fun j => match param j with None => NInf | Some (l, _) => l end) (get_joints true root),
   map (fun j => match param j with None => PInf | Some (_, h) => h end) (get_joints true root)).
Definition get_joint_limits := get_joint_limits_of j_lim.
Definition get_joint_velocity_limits := get_joint_limits_of j_vlim.
Definition get_joint_effort_limits := get_joint_limits_of j_elim.

(** chain.py:632-644 [_get_joints_and_child_links]: a generator; the model returns the list of
    yielded pairs and the generator's return value *)
Fixpoint joints_and_child_links_rec (f : frame) : list (joint * list link) * list link :=
  match f with
  | Frame _ l j cs =>
      let fix loop (cs : list frame) : list (joint * list link) * list link :=
        match cs with
        | [] => ([], [])
        | c :: r =>
            let '(y1, m1) := joints_and_child_links_rec c in
            let '(y2, m2) := loop r in
            (y1 ++ y2, m1 ++ m2)
        end in
      let '(ys, ms) := loop cs in
      let me := l :: ms in
      ((ys ++ (if negb (is_fixed (j_type j)) then [(j, me)] else [])), me)
  end.
Definition get_joints_and_child_links (root : frame) : list (joint * list link) :=
  fst (joints_and_child_links_rec root).
End Types.
Arguments joint : clear implicits.
Arguments link : clear implicits.
Arguments frame : clear implicits.
