(** [SerialChain] (chain.py:649-860), over an abstract set of transforms. *)
From Coq Require Import String Bool Arith Lia List.
From Verif Require Import Prelude ExtF Tree ChainModel Input.
Import ListNotations.

Section Serial.
Context {T A S : Type} (O : Ops T A S).
(** the axis of a default [Joint()]: (0, 0, 1) *)
Variable ax_z : A.
Notation frame := (frame T A).

(** [Joint()], frame.py:47-49 *)
Definition default_joint : joint T A := mkJoint None None Fixed ax_z None None None.

(** chain.py:672-680: copies of the frames, each with only the next one as child, the last with none.
    The deep copies are the frames themselves here, since values are never updated in place. *)
Fixpoint nest (f : frame) (r : list frame) : frame :=
  match f with
  | Frame n l j _ => Frame n l j (match r with [] => [] | g :: r' => [nest g r'] end)
  end.
(** chain.py:682-686 on the first copy *)
Definition reset_root (f : frame) : frame :=
  match f with Frame n l _ cs => Frame n (mkLink (l_name l) None) default_joint cs end.
(** [self._serial_frames]: the frames along the first children *)
Fixpoint spine (f : frame) : list frame :=
  match f with Frame _ _ _ cs => f :: match cs with [] => [] | c :: _ => spine c end end.

(** [_serial_frames] and the precomputed Jacobian data (chain.py:688-705) beside the chain itself *)
Record schain := mkSerial {
  s_chain : chain T A;
  s_frames : list frame;
  s_dof_idx : list nat;
  s_dof_axes : list A;
  s_dof_types : list nat;
  s_eef : nat }.

(** chain.py:656-705; [kwargs] (dtype and device) are not modelled.  [find_frame] returning [None] makes the
    later attribute access raise AttributeError. *)
Definition serial_init (c : chain T A) (end_name root_name : string) : res schain :=
  do rf <- (if String.eqb root_name "" then Ok (c_root c)
            else of_opt ValueError (find_frame root_name (c_root c)));
  do c1 <- chain_init O rf;
  do ei <- get_frame_indices c1 [end_name];
  do e <- get ei 0;
  do anc <- get (c_parents c1) e;
  do fs <- rmap (fun i => do n <- of_opt KeyError (dget Nat.eqb i (c_i2f c1));
                          of_opt AttributeError (find_frame n (c_root c1))) anc;
  match fs with
  | [] => Err IndexError
  | f :: r =>
      let root := reset_root (nest f r) in
      let frames := spine root in
      do c2 <- chain_init O root;
      let dofs := filter (fun g => negb (is_fixed (j_type (f_joint g)))) frames in
      do idx <- rmap (fun g => of_opt KeyError (dget String.eqb (f_name g) (c_f2i c2))) dofs;
      do eef <- of_opt KeyError (dget String.eqb (f_name (last frames root)) (c_f2i c2));
      Ok (mkSerial c2 frames idx (map (fun g => j_axis (f_joint g)) dofs)
            (map (fun g => if jtype_eqb (j_type (f_joint g)) Revolute then 1 else 2) dofs) eef)
  end.

(** name of the end effector frame *)
Definition s_end (s : schain) : string := f_name (last (s_frames s) (c_root (s_chain s))).

Variable nan : S.
Variable is_nan : S -> bool.

(** chain.py:172-186 [get_n_joints]; for a nested list it is the number of rows.  A 0-d tensor has no last dimension. *)
Definition get_n_joints (i : input S) : res nat :=
  match i with
  | InTensor t | InNumpy t => match t with T0 _ => Err IndexError | T1 l => Ok (length l) | T2 c _ => Ok c end
  | InList t => match t with T0 _ => Err NotImplementedError | T1 l => Ok (length l) | T2 _ rows => Ok (length rows) end
  | InDict d => Ok (length d)
  end.
(** chain.py:189-199 [get_batch_size]; [InList (T0 x)] stands for a plain number, which is no list *)
Definition get_batch_size (i : input S) : res nat :=
  match i with
  | InTensor t | InNumpy t => match t with T0 _ => Err IndexError | T1 l => Ok (length l) | T2 _ rows => Ok (length rows) end
  | InList t => match t with T0 _ => Err NotImplementedError | _ => Ok 1 end
  | InDict d => do s <- get_dict_elem_shape d; of_opt IndexError s
  end.
(** chain.py:830-860.  The loop that spreads a partial input (850-859) is reached only when the number of given joints
    is both smaller than the number of joints and equal to the number of non-fixed serial frames; [short_value_error] shows
    that this cannot happen, so the loop itself is left out ([OutOfFuel] stands for it). *)
Definition convert_serial_inputs (s : schain) (i : input S) (end_only : bool) : res (option (list nat) * input S) :=
  do b <- get_batch_size i;
  do n <- get_n_joints i;
  do fi <- (if end_only then do x <- get_frame_indices (s_chain s) [s_end s]; Ok (Some x) else Ok None);
  if Nat.ltb n (length (c_names (s_chain s)))
  then if Nat.eqb n (length (filter (fun g => negb (is_fixed (j_type (f_joint g)))) (s_frames s)))
       then Err OutOfFuel
       else Err ValueError
  else Ok (fi, i).

(** chain.py:819-828 with [end_only=True] *)
Definition serial_fk_end (s : schain) (i : input S) : res (list T) :=
  do ft <- convert_serial_inputs s i true;
  do mat <- fk_any nan is_nan O (s_chain s) (snd ft) (fst ft);
  of_opt KeyError (dget String.eqb (s_end s) mat).
(** chain.py:819-828 with [end_only=False] *)
Definition serial_fk_all (s : schain) (i : input S) : res (dict string (list T)) :=
  do ft <- convert_serial_inputs s i false;
  fk_any nan is_nan O (s_chain s) (snd ft) (fst ft).
End Serial.
Arguments schain : clear implicits.
