(** The inverse kinematics solver's bookkeeping: IKSolution, the loop of solve, limit enforcement, sampling
    (src/pytorch_kinematics/ik.py).  Tensor elements are [F] values (ExtF.v).  The Jacobian and the step kernel are a parameter
    [kern p q], the step and the 6-entry pose error of problem [p] at configuration [q]: both work row by row.  Their own models are
    in IKKernel.v. *)
From Coq Require Import Reals Lra Bool Arith Lia List ZArith.
From Verif Require Import Prelude ExtF.
Import ListNotations.
Local Open Scope nat_scope.
Local Open Scope list_scope.

(** ** Tensor helpers *)

(** [torch.sqrt] *)
Definition fsqrt (a : F) : F := match a with
  | Fin x => if Rltb x 0 then NaN else Fin (sqrt x) | PInf => PInf | NInf => NaN | NaN => NaN end.
Definition fsum (l : list F) : F := fold_right fadd (Fin 0%R) l.
(** [x.norm(dim=-1)], the Euclidean norm; simplification: no overflow *)
Definition fnorm (l : list F) : F := fsqrt (fsum (map (fun x => fmul x x) l)).

(** rows of length [n] of a flat sequence; used only when [n > 0] divides the length *)
Fixpoint chunks {A} (k n : nat) (l : list A) : list (list A) :=
  match k with 0 => [] | S k => firstn n l :: chunks k n (skipn n l) end.
(** [x.reshape(-1, n, ...)] on the leading dimension: RuntimeError if [n] is zero (the size of -1 is undetermined) or does not divide *)
Definition reshape {A} (n : nat) (l : list A) : res (list (list A)) :=
  if (n =? 0) || negb (length l mod n =? 0) then Err RuntimeError else Ok (chunks (length l / n) n l).

Fixpoint zip_with2 {A B C} (f : A -> B -> C) (a : list A) (b : list B) : list C :=
  match a, b with x :: a, y :: b => f x y :: zip_with2 f a b | _, _ => [] end.
Fixpoint mapi_from {A B} (f : nat -> A -> B) (i : nat) (l : list A) : list B :=
  match l with [] => [] | x :: l => f i x :: mapi_from f (S i) l end.
Definition mapi {A B} (f : nat -> A -> B) (l : list A) : list B := mapi_from f 0 l.
(** element-wise operation on two (N, M) tensors of the same shape *)
Definition zip22 {A B C} (f : A -> B -> C) := zip_with2 (zip_with2 f).

(** ** IKSolution (ik.py:132-198) *)

(** What the solution tensors hold for one problem and one retry.  The code keeps one tensor per field (ik.py:144-156); all its operations
    on them are element-wise. *)
Record entry := mkEntry { e_q : list F; e_pos : F; e_rot : F; e_cpos : bool; e_crot : bool; e_conv : bool }.

(** ik.py:133-161.  [s_remaining], [s_any], [s_pos_any] and [s_rot_any] have one value per problem. *)
Record iksol := mkSol { s_iter : nat; s_dof : nat; s_nr : nat; s_ptol : F; s_rtol : F; s_entries : list (list entry);
  s_remaining : list bool; s_any : list bool; s_pos_any : list bool; s_rot_any : list bool }.

Definition blank_entry (dof : nat) : entry := mkEntry (repeat (Fin 0%R) dof) (Fin 0%R) (Fin 0%R) false false false.
Definition sol_init (dof np nr : nat) (ptol rtol : F) : iksol :=
  mkSol 0 dof nr ptol rtol (repeat (repeat (blank_entry dof) nr) np) (repeat true np) (repeat false np) (repeat false np) (repeat false np).

(** ik.py:163-165 *)
Definition keep_mask (s : iksol) (keep : list bool) : iksol :=
  mkSol (s_iter s) (s_dof s) (s_nr s) (s_ptol s) (s_rtol s) (s_entries s) (zip_with2 andb (s_remaining s) keep) (s_any s) (s_pos_any s) (s_rot_any s).

(** position and rotation part of a 6-entry error: ik.py:169-170 *)
Definition pos_err (e : list F) : F := fnorm (firstn 3 e).
Definition rot_err (e : list F) : F := fnorm (skipn 3 e).
(** ik.py:171-173 for one entry *)
Definition conv_now (s : iksol) (e : list F) : bool := flt (pos_err e) (s_ptol s) && flt (rot_err e) (s_rtol s).
(** ik.py:189-195 for one entry: values are kept if the entry had already converged, flags accumulate *)
Definition entry_update (s : iksol) (o : entry) (qe : list F * list F) : entry :=
  let '(q, e) := qe in
  mkEntry (if e_conv o then e_q o else q) (if e_conv o then e_pos o else pos_err e) (if e_conv o then e_rot o else rot_err e)
    (e_cpos o || flt (pos_err e) (s_ptol s)) (e_crot o || flt (rot_err e) (s_rtol s)) (e_conv o || conv_now s e).

(** IKSolution.update (ik.py:167-198) with [keep_mask=None], as at every call site.  [q] and [err] have one row per attempt.  The last three
    lines set converged_any only: converged_pos_any and converged_rot_any are never written. *)
Definition sol_update (s : iksol) (q err : list (list F)) (use_keep : bool) : res iksol :=
  do err <- reshape (s_nr s) err;
  let conv_any := map (existsb (conv_now s)) err in
  do qq <- reshape (s_nr s) q;
  let s := if use_keep then keep_mask s (map negb conv_any) else s in
  Ok (mkSol (s_iter s) (s_dof s) (s_nr s) (s_ptol s) (s_rtol s)
        (zip22 (entry_update s) (s_entries s) (zip22 pair qq err)) (s_remaining s) (zip_with2 orb (s_any s) conv_any) (s_pos_any s) (s_rot_any s)).

Definition tick (s : iksol) : iksol :=
  mkSol (S (s_iter s)) (s_dof s) (s_nr s) (s_ptol s) (s_rtol s) (s_entries s) (s_remaining s) (s_any s) (s_pos_any s) (s_rot_any s).

(** ** The solver *)

(** early_stopping_no_improvement: None, "all", "any" or a float.  Simplification: other values are left out. *)
Inductive noimp := NoStop | StopAll | StopAny | StopRatio (r : R).

(** Attributes of PseudoInverseIK read by solve (ik.py:313-366, 449-457).  [ik_ls] is the line search: it maps the rows of q, dq, dx and the
    remaining problems to one step size per row.  [ik_clamp] is [clamp_to_limits and isfinite(low).any()] (ik.py:326). *)
Record ik := mkIK { ik_dof : nat; ik_nr : nat; ik_ptol : F; ik_rtol : F; ik_max : nat; ik_lr : F;
  ik_ls : option (list (list F) -> list (list F) -> list (list F) -> list bool -> list F);
  ik_stop_any : bool; ik_noimp : noimp; ik_patience : nat; ik_enforce : bool; ik_refine : nat; ik_clamp : bool;
  ik_low : list F; ik_high : list F; ik_rev : list bool }.

(** [torch.clamp(q, low, high)] on one row; simplification: the limit vectors have the width of the row *)
Definition clamp_row (low high q : list F) : list F := zip_with2 (fun x lh => fclamp x (fst lh) (snd lh)) q (combine low high).

(** q + lr * dq on one row (ik.py:545, 627) *)
Definition step_row (lr : F) (q dq : list F) : list F := zip_with2 (fun x d => fadd x (fmul lr d)) q dq.

(** what the loop carries: q, the solution, and (err_min, no_improve_counter), which are None before the first iteration.  The counter is a
    float tensor of whole numbers in the code (ik.py:504), a natural number here. *)
Record st := mkSt { st_q : list (list F); st_sol : iksol; st_imp : option (list (list F) * list (list nat)) }.

Section Solve.
Variable kern : nat -> list F -> list F * list F.
Variable k : ik.

(** one call of the Jacobian and the step kernel on all rows; row i belongs to problem i / num_retries (ik.py:36-38) *)
Definition kern_all (q : list (list F)) : list (list F * list F) := mapi (fun i row => kern (i / ik_nr k) row) q.

(** "could_improve" of a problem from those of its retries (ik.py:518-524) *)
Definition keep_problem (c : list bool) : bool :=
  match ik_noimp k with
  | NoStop => true
  | StopAll => forallb (fun b => b) c
  | StopAny => existsb (fun b => b) c
  | StopRatio r => Rltb r (INR (length (filter (fun b => b) c)) / INR (ik_nr k))
  end.

(** ik.py:502-525 *)
Definition improvement (err : list (list F)) (imp : option (list (list F) * list (list nat))) (s : iksol) :
  option (list (list F) * list (list nat)) * iksol :=
  match ik_noimp k with
  | NoStop => (imp, s)
  | _ => match imp with
    | None => (Some (err, map (map (fun _ => 0)) err), s)
    | Some (mn, ct) =>
        let better := zip22 flt err mn in
        let mn' := zip22 (fun (b : bool) (em : F * F) => if b then fst em else snd em) better (zip22 pair err mn) in
        let ct' := zip22 (fun (b : bool) (c : nat) => if b then 0 else S c) better ct in
        (Some (mn', ct'), keep_mask s (map (fun row => keep_problem (map (fun c => c <=? ik_patience k) row)) ct'))
    end
  end.

(** ik.py:534-547 *)
Definition move (q : list (list F)) (dq dx : list (list F)) (remaining : list bool) : list (list F) :=
  let lrs := match ik_ls k with Some f => f q dq dx remaining | None => map (fun _ => ik_lr k) q end in
  let q' := zip_with2 (fun lr qd => step_row lr (fst qd) (snd qd)) lrs (combine q dq) in
  if ik_clamp k then map (clamp_row (ik_low k) (ik_high k)) q' else q'.

(** one iteration (ik.py:487-547) *)
Definition body (t : st) : res st :=
  let s := tick (st_sol t) in
  let kd := kern_all (st_q t) in
  let dq := map fst kd in
  let dx := map snd kd in
  do err <- reshape (ik_nr k) dx;
  do s <- sol_update s (st_q t) dx (ik_stop_any k);
  let '(imp, s) := improvement (map (map fnorm) err) (st_imp t) s in
  Ok (mkSt (move (st_q t) dq dx (s_remaining s)) s imp).

(** the for loop with its break (ik.py:482-547) *)
Fixpoint loop (n : nat) (t : st) : res st :=
  match n with
  | 0 => Ok t
  | S n => if existsb (fun b => b) (s_remaining (st_sol t)) then do t <- body t; loop n t else Ok t
  end.

(** _has_finite_limits (ik.py:589-591) *)
Definition has_finite_limits : bool := existsb isfinite (ik_low k) || existsb isfinite (ik_high k).

(** [torch.round]: to the nearest integer, halves to even *)
Definition rround (x : R) : Z :=
  let f := (up (x - / 2) - 1)%Z in
  if Req_EM_T (x - / 2) (IZR f) then (if Z.even f then f else f + 1)%Z else (f + 1)%Z.
Definition fround (a : F) : F := match a with Fin x => Fin (IZR (rround x)) | _ => a end.

(** _wrap_revolute_joints for one entry (ik.py:600-607) *)
Definition wrap1 (rev : bool) (low high q : F) : F :=
  if rev then
    let center := fdivr (fadd low high) 2 in
    let n := fround (fdivr (fsub center q) (2 * PI)) in
    fadd q (fmul (fmul n (Fin 2%R)) (Fin PI))
  else q.
Definition wrap_row (q : list F) : list F :=
  zip_with2 (fun x rlh => wrap1 (fst rlh) (fst (snd rlh)) (snd (snd rlh)) x) q (combine (ik_rev k) (combine (ik_low k) (ik_high k))).

(** the refinement loop (ik.py:623-628) *)
Fixpoint refine (n : nat) (q : list (list F)) : list (list F) :=
  match n with
  | 0 => q
  | S n => refine n (zip_with2 (fun row kd => clamp_row (ik_low k) (ik_high k) (step_row (ik_lr k) row (fst kd))) q (kern_all q))
  end.

(** ik.py:631-634 *)
Definition reset_conv (s : iksol) : iksol :=
  mkSol (s_iter s) (s_dof s) (s_nr s) (s_ptol s) (s_rtol s)
    (map (map (fun e => mkEntry (e_q e) (e_pos e) (e_rot e) false false false)) (s_entries s))
    (s_remaining s) (map (fun _ => false) (s_any s)) (s_pos_any s) (s_rot_any s).

(** _enforce_limits (ik.py:609-642) *)
Definition enforce_limits (s : iksol) : res iksol :=
  let q := map e_q (concat (s_entries s)) in
  let q := map wrap_row q in
  let q := map (clamp_row (ik_low k) (ik_high k)) q in
  let q := refine (ik_refine k) q in
  sol_update (reset_conv s) q (map snd (kern_all q)) false.

(** solve from its flattened initial configurations [q0] for [np] problems (ik.py:471-473, 482-557, 584-587); the debug plots are left out *)
Definition solve_from (np : nat) (q0 : list (list F)) : res iksol :=
  do t <- loop (ik_max k) (mkSt q0 (sol_init (ik_dof k) np (ik_nr k) (ik_ptol k) (ik_rtol k)) None);
  do s <- sol_update (st_sol t) (st_q t) (map snd (kern_all (st_q t))) (ik_stop_any k);
  if ik_enforce k && has_finite_limits then enforce_limits s else Ok s.

End Solve.

(** ** Initial configurations *)

(** a tensor: shape and elements in row-major order *)
Record tens := mkTens { t_shape : list nat; t_data : list F }.
Definition numel (t : tens) : nat := fold_right mult 1 (t_shape t).

(** the shape branch of solve (ik.py:475-489).  [repeat(M, 1)] fails on tensors of more than two dimensions; the third branch adds a dimension
    first. *)
Definition start_configs (dof nr np : nat) (q : tens) : res (list (list F)) :=
  if numel q =? np * dof * nr then reshape dof (t_data q)
  else if numel q =? dof * nr then
    (if length (t_shape q) <=? 2 then reshape (last (t_shape q) 0) (concat (repeat (t_data q) np)) else Err RuntimeError)
  else if numel q =? dof then
    (if length (t_shape q) <=? 1 then Ok (repeat (t_data q) (np * nr)) else Err RuntimeError)
  else Err ValueError.

(** config_sampling_method *)
Inductive sampler := Uniform | Gaussian | Callable (f : nat -> tens) | OtherSampler.

(** sample_configs (ik.py:376-390).  [draws n m] is what torch.rand or torch.randn returns, flattened.  Simplification: joint_limits has
    one row per joint. *)
Definition sample_configs (draws : nat -> nat -> list R) (m : sampler) (limits : option (list (F * F))) (dof n : nat) : res tens :=
  match m with
  | Uniform => match limits with
      | None => Err ValueError
      | Some lim =>
          Ok (mkTens [n; dof] (mapi (fun i u => let lh := nth (i mod dof) lim (NaN, NaN) in
            fadd (fmul (Fin u) (fsub (snd lh) (fst lh))) (fst lh)) (draws n dof)))
      end
  | Gaussian => Ok (mkTens [n; dof] (map Fin (draws n dof)))
  | Callable f => Ok (f n)
  | OtherSampler => Err ValueError
  end.

(** initial_config and num_retries as the constructor leaves them (ik.py:349-366) *)
Definition init_configs (draws : nat -> nat -> list R) (m : sampler) (limits : option (list (F * F))) (dof : nat)
  (retry : option tens) (num : option nat) : res (tens * nat) :=
  do t <- match retry, num with
    | None, None => Err ValueError
    | None, Some n => sample_configs draws m limits dof n
    | Some t, _ => match nth_error (t_shape t) 1 with
        | None => Err IndexError
        | Some w => if w =? dof then Ok t else Err ValueError
        end
    end;
  match rev (t_shape t) with
  | _ :: nr :: _ => Ok (t, nr)
  | _ => Err IndexError
  end.

(** solve with everything the constructor prepared: [nr] is [ik_nr k] *)
Definition solve (kern : nat -> list F -> list F * list F) (k : ik) (init : tens) (np : nat) : res iksol :=
  do q0 <- start_configs (ik_dof k) (ik_nr k) np init; solve_from kern k np q0.

(** gaussian_around_config (ik.py:202-206) for a 1-D config; [draws] stands for torch.randn *)
Definition gaussian_around (draws : nat -> nat -> list R) (config : list F) (std : R) (n : nat) : tens :=
  mkTens [n; length config] (mapi (fun i g => fadd (fmul (Fin g) (Fin std)) (nth (i mod length config) config NaN)) (draws n (length config))).

(** ** BacktrackingLineSearch (ik.py:216-260) *)

(** Constructor arguments; [errf i q] is the norm of the pose error of row [i] at configuration [q] (forward kinematics and delta_pose).
    Simplification: [dx.squeeze()] is taken to drop the last dimension only, which fails to hold for a single row in the code: there
    the norm is a scalar and broadcasts to the one entry, with the same result. *)
Record lsearch := mkLS { ls_lr : R; ls_factor : R; ls_iter : nat; ls_suff : R }.

(** one row of the search state: step size, still remaining, last improvement *)
Record lrow := mkLrow { l_lr : F; l_rem : bool; l_imp : F }.

Section Line.
Variable errf : nat -> list F -> F.
Variable ls : lsearch.

(** one iteration on row [i] (ik.py:236-254); [err0] is the norm of the initial error *)
Definition ls_row (i : nat) (q dq : list F) (err0 : F) (r : lrow) : lrow :=
  let imp := fsub err0 (errf i (step_row (l_lr r) q dq)) in
  let improved := flt (Fin (ls_suff ls)) imp in
  mkLrow (if improved then l_lr r else fmul (l_lr r) (Fin (ls_factor ls))) (l_rem r && negb improved) imp.

Definition ls_step (q dq : list (list F)) (err0 : list F) (rs : list lrow) : list lrow :=
  mapi (fun i x => let '(q, dq, e, r) := x in ls_row i q dq e r) (combine (combine (combine q dq) err0) rs).
Fixpoint ls_loop (n : nat) (q dq : list (list F)) (err0 : list F) (rs : list lrow) : list lrow :=
  match n with
  | 0 => rs
  | S n => if existsb l_rem rs then ls_loop n q dq err0 (ls_step q dq err0 rs) else rs
  end.
(** [nr] is the number of retries M = NM / N; a row remains at first if its problem does *)
Definition do_line_search (nr : nat) (q dq dx : list (list F)) (remaining : list bool) : list lrow :=
  ls_loop (ls_iter ls) q dq (map fnorm dx)
    (mapi (fun i _ => mkLrow (Fin (ls_lr ls)) (nth (i / nr) remaining false) (Fin 0%R)) q).
End Line.
