(** The inverse kinematics solver as a program on tensors: the solution tensors, the line search, early stopping, the loop and the enforcement of
    joint limits (ik.py:130-260, 471-643).

    [IKModel] has it on lists of rows.  Here it is written with the tensor operations of the code, for N problems with M retries each.
    Shapes and indices run from the last dimension to the first, as in [TorchModel].  The call of the Jacobian and the step kernel is a
    parameter, as in [IKModel]; [IkTorchModel] has it as a tensor program. *)
From Coq Require Import Reals Bool Arith List.
From Verif Require Import Prelude ExtF TorchModel FkTorchModel IKModel.
Import ListNotations.
Local Open Scope nat_scope.

(** ** Operations *)
(** a reduction over the last dimension: [any], [all], [sum] and [norm] *)
Definition over_last {A B} (g : list A -> B) (e : ten A) : ten B :=
  do t <- e; match shape t with [] => Err IndexError | n :: s => Ok (mkT s (fun i => g (map (fun k => at_ t (k :: i)) (seq 0 n)))) end.
Definition any_last (e : ten bool) : ten bool := over_last (existsb (fun b => b)) e.
Definition all_last (e : ten bool) : ten bool := over_last (forallb (fun b => b)) e.
Definition count_last (e : ten bool) : ten nat := over_last (fun l => length (filter (fun b => b) l)) e.
Definition norm_last (e : ten F) : ten F := over_last fnorm e.
(** [t.any()] of a one-dimensional tensor, as the condition of an [if] *)
Definition any_all (t : tensor bool) : bool := existsb (fun i => at_ t [i]) (seq 0 (hd 0 (shape t))).
(** [t.reshape(-1, n, k)], [t.reshape(-1, n)]: the first size is ambiguous or impossible if the others have product zero *)
Definition rows3 {A} (n k : nat) (e : ten A) : ten A :=
  do t <- e; if n * k =? 0 then Err RuntimeError else TorchModel.reshape [k; n; prod (shape t) / (n * k)] e.
Definition rows2 {A} (n : nat) (e : ten A) : ten A :=
  do t <- e; if n =? 0 then Err RuntimeError else TorchModel.reshape [n; prod (shape t) / n] e.
(** [t.squeeze()]: all dimensions of size one are dropped *)
Fixpoint spread (s i : list nat) : list nat :=
  match s with [] => [] | n :: s => if n =? 1 then 0 :: spread s i else hd 0 i :: spread s (tl i) end.
Definition squeeze_all {A} (e : ten A) : ten A :=
  do t <- e; Ok (mkT (filter (fun n => negb (n =? 1)) (shape t)) (fun i => at_ t (spread (shape t) i))).
(** [t[mask] *= f] of a one-dimensional tensor; a mask without dimensions selects all of it or nothing *)
Definition scale_where (mask : ten bool) (f : F) (e : ten F) : ten F :=
  do m <- mask; do t <- e;
  if eqb_list (shape m) [] || eqb_list (shape m) (shape t)
  then Ok (mkT (shape t) (fun i => if at_ m (bidx (shape m) i) then fmul (at_ t i) f else at_ t i)) else Err IndexError.
(** [torch.clamp(q, low, high)] *)
Definition clamp_t (q low high : ten F) : ten F := op2 (fun x lh => fclamp x (fst lh) (snd lh)) q (op2 pair low high).
(** [t[..., mask] = v[..., mask]] with a mask over the last dimension, [t] and [v] of the same shape *)
Definition put_where {A} (mask : list bool) (e v : ten A) : ten A :=
  do t <- e; do u <- v;
  match shape t with
  | n :: _ => if (n =? length mask) && eqb_list (shape u) (shape t)
              then Ok (mkT (shape t) (fun i => if nth (hd 0 i) mask false then at_ u i else at_ t i)) else Err IndexError
  | [] => Err IndexError
  end.

(** ** IKSolution (ik.py:130-198) *)
(** ik.py:144-161; sizes and tolerances, which do not change, are parameters below *)
Record solt := mkSolt { t_iter : nat; t_solutions : tensor F; t_remaining : tensor bool; t_err_pos : tensor F; t_err_rot : tensor F;
  t_conv_pos : tensor bool; t_conv_rot : tensor bool; t_conv : tensor bool; t_pos_any : tensor bool; t_rot_any : tensor bool; t_any : tensor bool }.
Definition sol_init_t (dof np nr : nat) : solt :=
  let z := mkT [nr; np] (fun _ => Fin 0%R) in let no := mkT [nr; np] (fun _ => false) in let none := mkT [np] (fun _ => false) in
  mkSolt 0 (mkT [dof; nr; np] (fun _ => Fin 0%R)) (mkT [np] (fun _ => true)) z z no no no none none none.
(** ik.py:163-165 *)
Definition keep_t (s : solt) (keep : ten bool) : res solt :=
  do r <- op2 andb (Ok (t_remaining s)) keep;
  Ok (mkSolt (t_iter s) (t_solutions s) r (t_err_pos s) (t_err_rot s) (t_conv_pos s) (t_conv_rot s) (t_conv s) (t_pos_any s) (t_rot_any s) (t_any s)).
(** ik.py:167-198 with [keep_mask=None], as at every call site *)
Definition update_t (dof nr : nat) (ptol rtol : F) (s : solt) (q err : tensor F) (use_keep : bool) : res solt :=
  let err := rows3 nr 6 (Ok err) in
  let err_pos := norm_last (slice 0 3 err) in
  let err_rot := norm_last (from 3 err) in
  let converged_pos := op1 (fun x => flt x ptol) err_pos in
  let converged_rot := op1 (fun x => flt x rtol) err_rot in
  let converged := op2 andb converged_pos converged_rot in
  let converged_any := any_last converged in
  let qq := rows3 nr dof (Ok q) in
  do s <- if use_keep then keep_t s (op1 negb converged_any) else Ok s;
  let not_converged := op1 negb (Ok (t_conv s)) in
  do sols <- where_ (unsqueeze not_converged) qq (Ok (t_solutions s));
  do ep <- where_ not_converged err_pos (Ok (t_err_pos s));
  do er <- where_ not_converged err_rot (Ok (t_err_rot s));
  do cp <- op2 orb (Ok (t_conv_pos s)) converged_pos;
  do cr <- op2 orb (Ok (t_conv_rot s)) converged_rot;
  do c <- op2 orb (Ok (t_conv s)) converged;
  do a <- op2 orb (Ok (t_any s)) converged_any;
  Ok (mkSolt (t_iter s) sols (t_remaining s) ep er cp cr c (t_pos_any s) (t_rot_any s) a).

Section Program.
(** [eval q] stands for the Jacobian and the step kernel on all rows: dq of shape (NM, DOF, 1) and dx of shape (NM, 6, 1) *)
Variable eval : tensor F -> res (tensor F * tensor F).
(** attributes as in [IKModel]; of [k], the fields [ik_ls], [ik_low] and [ik_high] are not used *)
Variable k : ik.
Variable search : option lsearch.
Variables low high : tensor F.
Notation nr := (ik_nr k).
Notation dof := (ik_dof k).

(** ** BacktrackingLineSearch (ik.py:222-257); the mean improvement, which the solver ignores, is left out.  The pose error of [q_new] is taken
    from [eval], which computes it in the same way (ik.py:238-247). *)
Fixpoint search_t (ls : lsearch) (n : nat) (q dq : tensor F) (err lr : tensor F) (remaining : tensor bool) : ten F :=
  match n with
  | 0 => Ok lr
  | S n =>
      if any_all remaining then
        do q_new <- op2 fadd (Ok q) (op2 fmul (unsqueeze (Ok lr)) (Ok dq));
        do dd <- eval q_new;
        let err_new := norm_last (squeeze_all (Ok (snd dd))) in
        let improved := op1 (fun i => flt (Fin (ls_suff ls)) i) (op2 fsub (Ok err) err_new) in
        do lr' <- scale_where (op1 negb improved) (Fin (ls_factor ls)) (Ok lr);
        do remaining' <- op2 andb (Ok remaining) (op1 negb improved);
        search_t ls n q dq err lr' remaining'
      else Ok lr
  end.
(** the number of problems is that of [problem_remaining]; [remaining[~problem_remaining] = False] on a tensor of ones of shape (N, M) *)
Definition line_search_t (ls : lsearch) (q dq initial_dx : tensor F) (problem_remaining : tensor bool) : ten F :=
  match shape q, shape problem_remaining with
  | [_; NM], [N] =>
      if N =? 0 then Err ValueError else
      let M := NM / N in
      do err <- norm_last (squeeze_all (Ok initial_dx));
      do remaining <- TorchModel.reshape [N * M] (Ok (mkT [M; N] (fun i => at_ problem_remaining (tl i))));
      search_t ls (ls_iter ls) q dq err (mkT [NM] (fun _ => Fin (ls_lr ls))) remaining
  | _, _ => Err IndexError
  end.

(** ** The loop (ik.py:482-547) *)
(** ik.py:502-525 *)
Definition improvement_t (err : tensor F) (imp : option (tensor F * tensor nat)) (s : solt) : res (option (tensor F * tensor nat) * solt) :=
  match ik_noimp k with
  | NoStop => Ok (imp, s)
  | _ => match imp with
    | None => Ok (Some (err, mkT (shape err) (fun _ => 0)), s)
    | Some (mn, ct) =>
        let improved := op2 flt (Ok err) (Ok mn) in
        do mn' <- where_ improved (Ok err) (Ok mn);
        do ct' <- where_ improved (full (shape ct) 0) (op1 S (Ok ct));
        let could := rows2 nr (op1 (fun c => c <=? ik_patience k) (Ok ct')) in
        let could := match ik_noimp k with
          | NoStop => could
          | StopAll => all_last could
          | StopAny => any_last could
          | StopRatio r => op1 (fun c => Rltb r (INR c / INR nr)) (count_last could)
          end in
        do s <- keep_t s could;
        Ok (Some (mn', ct'), s)
    end
  end.
(** ik.py:534-547 *)
Definition move_t (q dq dx : tensor F) (remaining : tensor bool) : ten F :=
  do q' <- match search with
    | Some ls => do lr <- line_search_t ls q dq dx remaining; op2 fadd (Ok q) (op2 fmul (unsqueeze (Ok lr)) (Ok dq))
    | None => op2 fadd (Ok q) (op1 (fmul (ik_lr k)) (Ok dq))
    end;
  if ik_clamp k then clamp_t (Ok q') (Ok low) (Ok high) else Ok q'.
Definition tick_t (s : solt) : solt :=
  mkSolt (S (t_iter s)) (t_solutions s) (t_remaining s) (t_err_pos s) (t_err_rot s) (t_conv_pos s) (t_conv_rot s) (t_conv s) (t_pos_any s) (t_rot_any s) (t_any s).
Definition body_t (q : tensor F) (s : solt) (imp : option (tensor F * tensor nat)) : res (tensor F * solt * option (tensor F * tensor nat)) :=
  let s := tick_t s in
  do dd <- eval q;
  do dq <- squeeze1 (Ok (fst dd));
  do err_all <- squeeze1 (Ok (snd dd));
  do err <- norm_last (rows3 nr 6 (Ok err_all));
  do s <- update_t dof nr (ik_ptol k) (ik_rtol k) s q err_all (ik_stop_any k);
  do im <- improvement_t err imp s;
  do q' <- move_t q dq (snd dd) (t_remaining (snd im));
  Ok (q', snd im, fst im).
Fixpoint loop_t (n : nat) (q : tensor F) (s : solt) (imp : option (tensor F * tensor nat)) : res (tensor F * solt) :=
  match n with
  | 0 => Ok (q, s)
  | S n => if any_all (t_remaining s) then do x <- body_t q s imp; loop_t n (fst (fst x)) (snd (fst x)) (snd x) else Ok (q, s)
  end.

(** ** Joint limits (ik.py:589-642) *)
Definition wrap_t (q : tensor F) : ten F :=
  let center := op1 (fun x => fdivr x 2) (op2 fadd (Ok low) (Ok high)) in
  let n := op1 fround (op1 (fun x => fdivr x (2 * PI)) (op2 fsub center (Ok q))) in
  put_where (ik_rev k) (Ok q) (op2 fadd (Ok q) (op1 (fun x => fmul (fmul x (Fin 2%R)) (Fin PI)) n)).
Fixpoint refine_t (n : nat) (q : tensor F) : ten F :=
  match n with
  | 0 => Ok q
  | S n =>
      do dd <- eval q;
      do q' <- clamp_t (op2 fadd (Ok q) (op1 (fmul (ik_lr k)) (squeeze1 (Ok (fst dd))))) (Ok low) (Ok high);
      refine_t n q'
  end.
Definition enforce_t (s : solt) : res solt :=
  do q <- (do t <- Ok (t_solutions s); if dof =? 0 then Err RuntimeError else TorchModel.reshape [dof; prod (shape t) / dof] (Ok t));
  do q <- wrap_t q;
  do q <- clamp_t (Ok q) (Ok low) (Ok high);
  do q <- refine_t (ik_refine k) q;
  let no (t : tensor bool) := mkT (shape t) (fun _ : list nat => false) in
  let s := mkSolt (t_iter s) (t_solutions s) (t_remaining s) (t_err_pos s) (t_err_rot s) (no (t_conv_pos s)) (no (t_conv_rot s)) (no (t_conv s)) (t_pos_any s) (t_rot_any s) (no (t_any s)) in
  do dd <- eval q;
  do dx <- squeeze1 (Ok (snd dd));
  update_t dof nr (ik_ptol k) (ik_rtol k) s q dx false.
(** ik.py:589-591 *)
Definition finite_limits_t : bool :=
  existsb (fun i => isfinite (at_ low [i])) (seq 0 (hd 0 (shape low))) || existsb (fun i => isfinite (at_ high [i])) (seq 0 (hd 0 (shape high))).

(** solve from its flattened initial configurations for [np] problems (ik.py:471-473, 482-557, 584-587); the debug plots are left out *)
Definition solve_program (np : nat) (q0 : tensor F) : res solt :=
  do x <- loop_t (ik_max k) q0 (sol_init_t dof np nr) None;
  let '(q, s) := x in
  do dd <- eval q;
  do dx <- squeeze1 (Ok (snd dd));
  do s <- update_t dof nr (ik_ptol k) (ik_rtol k) s q dx (ik_stop_any k);
  if ik_enforce k && finite_limits_t then enforce_t s else Ok s.
End Program.
