(** The solution tensors after an update are the tables of [IKProofs]. *)
From Coq Require Import Reals Lra Bool Arith Lia List.
From Verif Require Import Prelude ExtF TorchModel SpecTorch TorchProofs FkTorchModel IKModel IKProofs IkTorch IkSolTorchModel SpecIkSol.
Import ListNotations.
Local Open Scope nat_scope.

Lemma valid1_inv a i : valid [a] i -> exists x, i = [x] /\ x < a.
Proof. intros V. inversion V as [|x n0 l s0 Hx V0 E0]; subst. inversion V0; subst. exists x. auto. Qed.
Lemma valid2_inv a b i : valid [a; b] i -> exists x y, i = [x; y] /\ x < a /\ y < b.
Proof. intros V. inversion V as [|x n0 l s0 Hx V0 E0]; subst. apply valid1_inv in V0 as (y & -> & Ly). exists x, y. auto. Qed.
Lemma valid1 a x : x < a -> valid [a] [x]. Proof. intros. repeat constructor; assumption. Qed.
Lemma valid2 a b x y : x < a -> y < b -> valid [a; b] [x; y]. Proof. intros. repeat constructor; assumption. Qed.
Lemma vcons n s k i : k < n -> valid s i -> valid (n :: s) (k :: i). Proof. intros. constructor; assumption. Qed.

Lemma t_over {A B} (g : list A -> B) e n s f : is_t e (n :: s) f -> is_t (over_last g e) s (fun i => g (vec n (fun k => f (k :: i)))).
Proof.
  intros (t & -> & E & H). unfold over_last. cbn [rbind]. rewrite E. eexists. split; [reflexivity|]. split; [reflexivity|]. intros i V. cbn [at_]. f_equal.
  apply vec_ext. intros k L. apply H, vcons; assumption.
Qed.
Lemma exists_vec {A} (h : A -> bool) n f : existsb (fun b => b) (vec n (fun i => h (f i))) = existsb h (vec n f).
Proof. revert f. induction n as [|n IH]; intros f; [reflexivity|]. rewrite !vec_S. cbn [existsb]. rewrite (IH (fun i => f (S i))). reflexivity. Qed.
Lemma prod_div np nr k : 0 < nr -> 0 < k -> k * (np * nr * 1) / (nr * k) = np.
Proof. intros. replace (k * (np * nr * 1)) with (np * (nr * k)) by lia. apply Nat.div_mul. nia. Qed.
Lemma flat_lt np nr p r : p < np -> r < nr -> p * nr + r < np * nr. Proof. intros. nia. Qed.
Lemma t_rows3 {A} (e : ten A) nr k np f : is_t e [k; np * nr] f -> 0 < nr -> 0 < k -> is_t (rows3 nr k e) [k; nr; np] (fun i => f [nth 0 i 0; nth 2 i 0 * nr + nth 1 i 0]).
Proof.
  intros (t & -> & E & H) Hn Hk. unfold rows3. cbn [rbind]. rewrite E. cbn [prod]. rewrite prod_div by assumption. destruct (Nat.eqb_spec (nr * k) 0) as [Z|_]; [nia|].
  eapply (t_reshape (Ok t) [k; np * nr] f [k; nr; np] (fun i => [nth 0 i 0; nth 2 i 0 * nr + nth 1 i 0])); [exists t; auto | cbn [prod]; lia |].
  intros i V. apply valid3_inv in V as (x & r & p & -> & Lx & Lr & Lp). cbn [nth]. split; [apply valid2; [assumption|apply flat_lt; assumption]|]. cbn [ravel hd tl]. lia.
Qed.
Lemma t_rows2 {A} (e : ten A) nr np f : is_t e [nr; np] f -> 0 < nr -> is_t (rows2 nr e) [nr; np] f.
Proof.
  intros (t & -> & E & H) Hn. unfold rows2. cbn [rbind]. rewrite E. cbn [prod]. replace (nr * (np * 1)) with (np * nr) by lia. rewrite Nat.div_mul by lia. destruct (Nat.eqb_spec nr 0) as [Z|_]; [lia|].
  eapply (t_reshape (Ok t) [nr; np] f [nr; np] (fun i => i)); [exists t; auto | reflexivity | auto].
Qed.
Lemma t_where {A} c (a b : ten A) s fc fa fb : is_t c s fc -> is_t a s fa -> is_t b s fb -> is_t (where_ c a b) s (fun i => if fc i : bool then fa i else fb i).
Proof. intros Hc Ha Hb. apply (t_op2_same (fun c (ab : A * A) => if c : bool then fst ab else snd ab) c (op2 pair a b) s fc (fun i => (fa i, fb i)) Hc), t_op2_same; assumption. Qed.
Lemma t_where_keep {A} c (a b : ten A) n s fc fa fb : is_t c (1 :: s) fc -> is_t a (n :: s) fa -> is_t b (n :: s) fb -> is_t (where_ c a b) (n :: s) (fun i => if fc (0 :: tl i) : bool then fa i else fb i).
Proof. intros Hc Ha Hb. apply (t_op2_keep_l (fun c (ab : A * A) => if c : bool then fst ab else snd ab) c (op2 pair a b) n s fc (fun i => (fa i, fb i)) Hc), t_op2_same; assumption. Qed.

(** the shapes of the solution tensors *)
Record shaped (dof np nr : nat) (s : solt) : Prop := mkShaped {
  sh_q : shape (t_solutions s) = [dof; nr; np]; sh_r : shape (t_remaining s) = [np]; sh_p : shape (t_err_pos s) = [nr; np]; sh_t : shape (t_err_rot s) = [nr; np];
  sh_cp : shape (t_conv_pos s) = [nr; np]; sh_cr : shape (t_conv_rot s) = [nr; np]; sh_c : shape (t_conv s) = [nr; np]; sh_a : shape (t_any s) = [np];
  sh_pa : forall p, p < np -> at_ (t_pos_any s) [p] = false; sh_ra : forall p, p < np -> at_ (t_rot_any s) [p] = false }.
Definition entry_of (dof : nat) (s : solt) (p r : nat) : entry :=
  mkEntry (vec dof (fun j => at_ (t_solutions s) [j; r; p])) (at_ (t_err_pos s) [r; p]) (at_ (t_err_rot s) [r; p]) (at_ (t_conv_pos s) [r; p]) (at_ (t_conv_rot s) [r; p]) (at_ (t_conv s) [r; p]).
Lemma solution_mk dof np nr pt rt s : shaped dof np nr s -> solution_of dof np nr pt rt s = mk_sol (t_iter s) dof np nr pt rt (entry_of dof s) (fun p => at_ (t_remaining s) [p]) (fun p => at_ (t_any s) [p]).
Proof.
  intros H. unfold solution_of, mk_sol. f_equal; apply vec_ext; intros p L; [apply (sh_pa dof np nr s H p L) | apply (sh_ra dof np nr s H p L)].
Qed.
Lemma shaped_init dof np nr : shaped dof np nr (sol_init_t dof np nr). Proof. constructor; reflexivity. Qed.
Lemma solution_init dof np nr pt rt : solution_of dof np nr pt rt (sol_init_t dof np nr) = sol_init dof np nr pt rt.
Proof. rewrite sol_init_eq, (solution_mk dof np nr pt rt _ (shaped_init dof np nr)). unfold mk_sol. f_equal. apply tab_ext. intros p r Lp Lr. unfold entry_of, blank_entry. cbn [at_ t_solutions sol_init_t]. rewrite repeat_vec. reflexivity. Qed.

Lemma keep_ok dof np nr s keep f : shaped dof np nr s -> is_t keep [np] f -> exists s', keep_t s keep = Ok s' /\ shaped dof np nr s' /\
  t_iter s' = t_iter s /\ entry_of dof s' = entry_of dof s /\ (forall p, p < np -> at_ (t_remaining s') [p] = at_ (t_remaining s) [p] && f [p]) /\ t_any s' = t_any s /\ t_conv s' = t_conv s.
Proof.
  intros Hs Hk. destruct (t_op2_same andb _ _ _ _ _ (is_in (t_remaining s) [np] (sh_r dof np nr s Hs)) Hk) as (r & Er & Sr & Hr).
  unfold keep_t. rewrite Er. cbn [rbind]. eexists. split; [reflexivity|]. destruct Hs. split; [constructor; try assumption|].
  split; [reflexivity|]. split; [reflexivity|]. cbn [t_remaining]. split; [|split; reflexivity]. intros p L. apply (Hr [p]), valid1, L.
Qed.

Lemma update_ok dof np nr pt rt s q err uk : 0 < dof -> 0 < nr -> shaped dof np nr s -> shape q = [dof; np * nr] -> shape err = [6; np * nr] ->
  exists s', update_t dof nr pt rt s q err uk = Ok s' /\ shaped dof np nr s' /\ t_iter s' = t_iter s /\
    sol_update (solution_of dof np nr pt rt s) (rows_of q (np * nr) dof) (rows_of err (np * nr) 6) uk = Ok (solution_of dof np nr pt rt s').
Proof.
  intros Hd Hn Hs Eq Ee. unfold update_t.
  pose proof (t_rows3 _ nr 6 np _ (is_in err _ Ee) Hn ltac:(lia)) as T.
  set (e3 := rows3 nr 6 (Ok err)) in *. set (row p r := row_of err 6 (p * nr + r)).
  assert (P : is_t (norm_last (slice 0 3 e3)) [nr; np] (fun i => pos_err (row (nth 1 i 0) (nth 0 i 0)))).
  { eapply t_ext; [exact (t_over fnorm _ 3 [nr; np] _ (t_slice e3 0 3 6 _ _ T ltac:(lia) ltac:(lia)))|]. intros i V. apply valid2_inv in V as (r & p & -> & Lr & Lp).
    unfold pos_err. f_equal. }
  assert (Q : is_t (norm_last (from 3 e3)) [nr; np] (fun i => rot_err (row (nth 1 i 0) (nth 0 i 0)))).
  { eapply t_ext; [exact (t_over fnorm _ 3 [nr; np] _ (t_from e3 3 6 _ _ T ltac:(lia)))|]. intros i V. apply valid2_inv in V as (r & p & -> & Lr & Lp).
    unfold rot_err. f_equal. }
  set (ep := norm_last (slice 0 3 e3)) in *. set (er := norm_last (from 3 e3)) in *.
  pose proof (t_op1 (fun x => flt x pt) _ _ _ P) as CP. pose proof (t_op1 (fun x => flt x rt) _ _ _ Q) as CR.
  set (cp := op1 (fun x => flt x pt) ep) in *. set (cr := op1 (fun x => flt x rt) er) in *.
  pose proof (t_op2_same andb _ _ _ _ _ CP CR) as C. set (c := op2 andb cp cr) in *.
  assert (CA : is_t (any_last c) [np] (fun i => existsb (ok pt rt) (vec nr (fun r => row (nth 0 i 0) r)))).
  { eapply t_ext; [exact (t_over (existsb (fun b => b)) _ nr [np] _ C)|]. intros i V. apply valid1_inv in V as (p & -> & Lp). cbn [nth].
    exact (exists_vec (ok pt rt) nr (row p)). }
  pose proof (t_rows3 _ nr dof np _ (is_in q _ Eq) Hn Hd) as QQ. set (qq := rows3 nr dof (Ok q)) in *. set (ca := any_last c) in *.
  assert (K : exists s1, (if uk then keep_t s (op1 negb ca) else Ok s) = Ok s1 /\ shaped dof np nr s1 /\ t_iter s1 = t_iter s /\ entry_of dof s1 = entry_of dof s /\
    (forall p, p < np -> at_ (t_remaining s1) [p] = if uk then at_ (t_remaining s) [p] && negb (existsb (ok pt rt) (vec nr (row p))) else at_ (t_remaining s) [p]) /\ t_any s1 = t_any s).
  { destruct uk; [|exists s; auto 10]. destruct (keep_ok dof np nr s _ _ Hs (t_op1 negb _ _ _ CA)) as (s1 & E1 & H1 & H2 & H3 & H4 & H5 & _). exists s1. auto 10. }
  destruct K as (s1 & -> & Hs1 & It1 & En1 & Rm1 & An1). cbn [rbind].
  pose proof (t_op1 negb _ _ _ (is_in (t_conv s1) _ (sh_c dof np nr s1 Hs1))) as NC. set (nc := op1 negb (Ok (t_conv s1))) in *.
  destruct (t_where_keep _ _ _ dof [nr; np] _ _ _ (t_unsq _ _ _ NC) QQ (is_in (t_solutions s1) _ (sh_q dof np nr s1 Hs1))) as (sols & -> & Ss & Hsols). cbn [rbind].
  destruct (t_where _ _ _ [nr; np] _ _ _ NC P (is_in (t_err_pos s1) _ (sh_p dof np nr s1 Hs1))) as (ep' & -> & Sp & Hep). cbn [rbind].
  destruct (t_where _ _ _ [nr; np] _ _ _ NC Q (is_in (t_err_rot s1) _ (sh_t dof np nr s1 Hs1))) as (er' & -> & Sr & Her). cbn [rbind].
  destruct (t_op2_same orb _ _ _ _ _ (is_in (t_conv_pos s1) _ (sh_cp dof np nr s1 Hs1)) CP) as (cp' & -> & Scp & Hcp). cbn [rbind].
  destruct (t_op2_same orb _ _ _ _ _ (is_in (t_conv_rot s1) _ (sh_cr dof np nr s1 Hs1)) CR) as (cr' & -> & Scr & Hcr). cbn [rbind].
  destruct (t_op2_same orb _ _ _ _ _ (is_in (t_conv s1) _ (sh_c dof np nr s1 Hs1)) C) as (c' & -> & Sc & Hc). cbn [rbind].
  destruct (t_op2_same orb _ _ _ _ _ (is_in (t_any s1) _ (sh_a dof np nr s1 Hs1)) CA) as (a' & -> & Sa & Ha). cbn [rbind].
  set (s' := mkSolt _ _ _ _ _ _ _ _ _ _ _). exists s'. split; [reflexivity|].
  assert (Hs' : shaped dof np nr s') by (constructor; cbn [s' t_solutions t_remaining t_err_pos t_err_rot t_conv_pos t_conv_rot t_conv t_any t_pos_any t_rot_any]; try assumption; destruct Hs1; assumption).
  split; [exact Hs'|]. split; [exact It1|].
  rewrite (solution_mk dof np nr pt rt s Hs), (solution_mk dof np nr pt rt s' Hs').
  change (rows_of q (np * nr) dof) with (vec (np * nr) (row_of q dof)). change (rows_of err (np * nr) 6) with (vec (np * nr) (row_of err 6)).
  rewrite sol_update_eq by exact Hn. apply f_equal. unfold mk_sol. change (t_iter s') with (t_iter s1). rewrite It1. f_equal.
  - apply tab_ext. intros p r Lp Lr. pose proof (f_equal (fun f => f p r) En1) as E1. cbv beta in E1. rewrite <- E1. unfold upd_entry, entry_of. cbn [e_q e_pos e_rot e_cpos e_crot e_conv].
    cbn [s' t_solutions t_err_pos t_err_rot t_conv_pos t_conv_rot t_conv].
    rewrite (Hep [r; p]), (Her [r; p]), (Hcp [r; p]), (Hcr [r; p]), (Hc [r; p]) by (apply valid2; assumption). cbn [nth].
    assert (Eq' : vec dof (fun j => at_ sols [j; r; p]) = if at_ (t_conv s1) [r; p] then vec dof (fun j => at_ (t_solutions s1) [j; r; p]) else row_of q dof (p * nr + r)).
    { rewrite (vec_ext dof _ (fun j => if negb (at_ (t_conv s1) [r; p]) then at_ q [j; p * nr + r] else at_ (t_solutions s1) [j; r; p])) by (intros j Lj; apply (Hsols [j; r; p]); apply valid3; assumption).
      destruct (at_ (t_conv s1) [r; p]); reflexivity. }
    rewrite Eq'. destruct (at_ (t_conv s1) [r; p]); reflexivity.
  - apply vec_ext. intros p Lp. change (t_remaining s') with (t_remaining s1). rewrite (Rm1 p Lp). reflexivity.
  - apply vec_ext. intros p Lp. change (t_any s') with a'. rewrite (Ha [p] (valid1 _ _ Lp)), An1. reflexivity.
Qed.
