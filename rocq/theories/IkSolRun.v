(** One iteration of the tensor program is one iteration of [IKModel]. *)
From Coq Require Import Reals Lra Bool Arith Lia List.
From Verif Require Import Prelude ExtF TorchModel SpecTorch TorchProofs FkTorchModel IKModel IKProofs IkTorch IkSolTorchModel SpecIkSol IkSolTorch.
Import ListNotations.
Local Open Scope nat_scope.

Lemma existsb_map {A B} (h : B -> bool) (f : A -> B) l : existsb h (map f l) = existsb (fun x => h (f x)) l.
Proof. induction l as [|x l IH]; cbn; [reflexivity|]. rewrite IH. reflexivity. Qed.
Lemma forall_vec {A} (h : A -> bool) n f : forallb (fun b => b) (vec n (fun i => h (f i))) = forallb h (vec n f).
Proof. revert f. induction n as [|n IH]; intros f; [reflexivity|]. rewrite !vec_S. cbn [forallb]. rewrite (IH (fun i => f (S i))). reflexivity. Qed.
Lemma t_sq1 {A} (t : tensor A) s : shape t = 1 :: s -> exists u, squeeze1 (Ok t) = Ok u /\ shape u = s /\ forall i, at_ u i = at_ t (0 :: i).
Proof. intros E. unfold squeeze1. cbn [rbind]. rewrite E. eexists. split; [reflexivity|]. split; reflexivity. Qed.
Lemma one_row B : (if B =? 1 then @nil nat else [B]) = filter (fun n => negb (n =? 1)) [B].
Proof. cbn [filter]. destruct (B =? 1); reflexivity. Qed.
(** the shape that remains after [squeeze]: no dimension for a single row *)
Definition sq (B : nat) : list nat := filter (fun n => negb (n =? 1)) [B].
Lemma sq_cases B : (B = 1 /\ sq B = []) \/ (B <> 1 /\ sq B = [B]).
Proof. unfold sq. cbn [filter]. destruct (Nat.eqb_spec B 1); [left|right]; auto. Qed.
Lemma norm_squeezed (dx : tensor F) B : shape dx = [1; 6; B] -> is_t (norm_last (squeeze_all (Ok dx))) (sq B) (fun i => fnorm (vec 6 (fun c => at_ dx [0; c; hd 0 i]))).
Proof.
  intros E. apply (t_over fnorm _ 6 (sq B) (fun i => at_ dx [0; hd 0 i; hd 0 (tl i)])). unfold squeeze_all. cbn [rbind]. rewrite E. eexists. split; [reflexivity|]. split; [reflexivity|].
  intros i V. cbn [at_]. cbn [spread Nat.eqb]. destruct (sq_cases B) as [[-> S]|[N S]]; rewrite S in V.
  - apply valid1_inv in V as (c & -> & _). reflexivity.
  - apply valid2_inv in V as (c & r & -> & _). destruct (Nat.eqb_spec B 1); [contradiction|]. reflexivity.
Qed.

Section Run.
Variable eval : tensor F -> res (tensor F * tensor F).
Variable kern : nat -> list F -> list F * list F.
Variable k : ik.
Variable search : option lsearch.
Variables low high : tensor F.
Variable np : nat.
Notation nr := (ik_nr k).
Notation dof := (ik_dof k).
Notation B := (np * nr).
Notation sol := (solution_of dof np nr (ik_ptol k) (ik_rtol k)).
Hypothesis (Hd : 0 < dof) (Hn : 0 < nr) (HE : acts_as eval kern dof np nr).
Hypothesis (Sl : shape low = [dof]) (Sh : shape high = [dof]) (El : ik_low k = vec dof (fun j => at_ low [j])) (Eh : ik_high k = vec dof (fun j => at_ high [j])).

(** ** Elementary steps *)
Lemma bidx_col j r : j < dof -> bidx [dof] [j; r] = [j].
Proof. intros L. cbn [bidx hd]. destruct (Nat.eqb_spec dof 1); [|reflexivity]. f_equal. lia. Qed.
Lemma tog_col : together [dof; B] [dof] [dof; B]. Proof. apply tg_same, tg_left. Qed.
Lemma t_clamp (e : ten F) f : is_t e [dof; B] f -> is_t (clamp_t e (Ok low) (Ok high)) [dof; B] (fun i => fclamp (f i) (at_ low [hd 0 i]) (at_ high [hd 0 i])).
Proof.
  intros H. eapply t_ext; [exact (t_op2 (fun x lh => fclamp x (fst lh) (snd lh)) e _ _ _ _ _ _ H (t_op2_same pair _ _ _ _ _ (is_in low _ Sl) (is_in high _ Sh)) tog_col)|].
  intros i V. cbv beta. rewrite (bidx_id [dof; B] i V). apply valid2_inv in V as (j & r & -> & Lj & _). rewrite bidx_col by exact Lj. reflexivity.
Qed.
Lemma clamp_vec f : clamp_row (ik_low k) (ik_high k) (vec dof f) = vec dof (fun j => fclamp (f j) (at_ low [j]) (at_ high [j])).
Proof. unfold clamp_row. rewrite El, Eh, combine_vec, zip_vec. reflexivity. Qed.
Lemma rows_t (t : tensor F) f : (forall i, valid [dof; B] i -> at_ t i = f i) -> rows_of t B dof = vec B (fun r => vec dof (fun j => f [j; r])).
Proof. intros H. apply vec_ext. intros r Lr. apply vec_ext. intros j Lj. apply H, valid2; assumption. Qed.
Lemma t_step (q dq : tensor F) (lr : tensor F) : shape q = [dof; B] -> shape dq = [dof; B] -> shape lr = [B] ->
  is_t (op2 fadd (Ok q) (op2 fmul (unsqueeze (Ok lr)) (Ok dq))) [dof; B] (fun i => fadd (at_ q i) (fmul (at_ lr (tl i)) (at_ dq i))).
Proof.
  intros Sq Sd Sl'. apply t_op2_same; [apply is_in, Sq|]. exact (t_op2_keep_l fmul _ _ dof [B] _ _ (t_unsq _ _ _ (is_in lr _ Sl')) (is_in dq _ Sd)).
Qed.

(** ** The line search *)
Definition errf (i : nat) (row : list F) : F := fnorm (snd (kern (i / nr) row)).
Lemma search_ok ls n q dq err E0 : shape q = [dof; B] -> shape dq = [dof; B] -> is_t (Ok err) (sq B) (fun i => E0 (hd 0 i)) ->
  forall lr rem imp, shape lr = [B] -> shape rem = [B] -> exists lr', search_t eval ls n q dq err lr rem = Ok lr' /\ shape lr' = [B] /\
    map l_lr (ls_loop errf ls n (rows_of q B dof) (rows_of dq B dof) (vec B E0) (vec B (fun i => mkLrow (at_ lr [i]) (at_ rem [i]) (imp i)))) = vec B (fun i => at_ lr' [i]).
Proof.
  intros Sq Sd He. induction n as [|n IH]; intros lr rem imp Sl' Sr.
  - exists lr. split; [reflexivity|]. split; [exact Sl'|]. cbn [ls_loop]. rewrite map_vec. reflexivity.
  - cbn [search_t ls_loop]. unfold any_all. rewrite Sr. cbn [hd].
    assert (Ex : existsb l_rem (vec B (fun i => mkLrow (at_ lr [i]) (at_ rem [i]) (imp i))) = existsb (fun i => at_ rem [i]) (seq 0 B)) by (unfold vec; rewrite existsb_map; reflexivity).
    rewrite Ex. destruct (existsb (fun i => at_ rem [i]) (seq 0 B)); [|exists lr; split; [reflexivity|]; split; [exact Sl'|]; rewrite map_vec; reflexivity].
    destruct (t_step q dq lr Sq Sd Sl') as (qn & -> & Sqn & Hqn). cbn [rbind]. destruct (HE qn Sqn) as (dq1 & dx1 & -> & _ & Sx & Hk). cbn [rbind snd].
    pose proof (t_op1 (fun i => flt (Fin (ls_suff ls)) i) _ _ _ (t_op2_same fsub _ _ _ _ _ He (norm_squeezed dx1 B Sx))) as I.
    set (im := op1 (fun i => flt (Fin (ls_suff ls)) i) (op2 fsub (Ok err) (norm_last (squeeze_all (Ok dx1))))) in *.
    set (E1 r := fnorm (vec 6 (fun c => at_ dx1 [0; c; r]))). set (bet r := flt (Fin (ls_suff ls)) (fsub (E0 r) (E1 r))).
    assert (I' : is_t (op1 negb im) (sq B) (fun i => negb (bet (hd 0 i)))) by exact (t_op1 negb _ _ _ I).
    assert (SW : exists lr1, scale_where (op1 negb im) (Fin (ls_factor ls)) (Ok lr) = Ok lr1 /\ shape lr1 = [B] /\ forall r, r < B -> at_ lr1 [r] = if bet r then at_ lr [r] else fmul (at_ lr [r]) (Fin (ls_factor ls))).
    { destruct I' as (m & -> & Sm & Hm). unfold scale_where. cbn [rbind]. rewrite Sm, Sl'.
      destruct (sq_cases B) as [[B1 S]|[N S]]; rewrite S in *; cbn [eqb_list orb]; rewrite ?Nat.eqb_refl; cbn [andb]; (eexists; split; [reflexivity|]; split; [reflexivity|]); intros r Lr; cbn [at_].
      - cbn [bidx]. rewrite (Hm [] ltac:(constructor)). cbn [hd]. replace r with 0 by lia. destruct (bet 0); reflexivity.
      - rewrite (bidx_id [B] [r]) by (apply valid1, Lr). rewrite (Hm [r]) by (apply valid1, Lr). cbn [hd]. destruct (bet r); reflexivity. }
    destruct SW as (lr1 & -> & Sl1 & Hl1). cbn [rbind].
    assert (RM : exists rem1, op2 andb (Ok rem) (op1 negb im) = Ok rem1 /\ shape rem1 = [B] /\ forall r, r < B -> at_ rem1 [r] = at_ rem [r] && negb (bet r)).
    { assert (T : together [B] (sq B) [B]) by (destruct (sq_cases B) as [[B1 S]|[N S]]; rewrite S; [apply tg_left | apply tog_refl]).
      destruct (t_op2 andb _ _ _ _ _ _ _ (is_in rem _ Sr) I' T) as (rem1 & -> & S1 & H1). exists rem1. split; [reflexivity|]. split; [exact S1|]. intros r Lr. rewrite (H1 [r] (valid1 _ _ Lr)).
      rewrite (bidx_id [B] [r]) by (apply valid1, Lr). do 3 f_equal. destruct (sq_cases B) as [[B1 S]|[N S]]; rewrite S; cbn [bidx hd]; [lia|]. destruct (Nat.eqb_spec B 1); [lia|reflexivity]. }
    destruct RM as (rem1 & -> & Sr1 & Hr1). cbn [rbind].
    destruct (IH lr1 rem1 (fun r => fsub (E0 r) (E1 r)) Sl1 Sr1) as (lr' & E & S' & H'). exists lr'. split; [exact E|]. split; [exact S'|]. rewrite <- H'. apply f_equal. apply f_equal.
    unfold ls_step. change (rows_of q B dof) with (vec B (row_of q dof)). change (rows_of dq B dof) with (vec B (row_of dq dof)). rewrite !combine_vec, mapi_vec. apply vec_ext. intros r Lr.
    assert (Er : errf r (step_row (at_ lr [r]) (row_of q dof r) (row_of dq dof r)) = E1 r).
    { unfold errf. assert (Rw : step_row (at_ lr [r]) (row_of q dof r) (row_of dq dof r) = row_of qn dof r).
      { unfold step_row, row_of. change (map (fun j => at_ q [j; r]) (seq 0 dof)) with (vec dof (fun j => at_ q [j; r])). change (map (fun j => at_ dq [j; r]) (seq 0 dof)) with (vec dof (fun j => at_ dq [j; r])).
        rewrite zip_vec. apply vec_ext. intros j Lj. symmetry. apply (Hqn [j; r]), valid2; assumption. }
      rewrite Rw, (Hk r Lr). reflexivity. }
    unfold ls_row. cbn [l_lr l_rem]. rewrite Er. fold (bet r). rewrite (Hl1 r Lr), (Hr1 r Lr). reflexivity.
Qed.
Lemma line_search_ok ls q dq dx rem : 0 < np -> shape q = [dof; B] -> shape dq = [dof; B] -> shape dx = [1; 6; B] -> shape rem = [np] ->
  exists lr, line_search_t eval ls q dq dx rem = Ok lr /\ shape lr = [B] /\
    map l_lr (do_line_search errf ls nr (rows_of q B dof) (rows_of dq B dof) (vec B (fun r => vec 6 (fun c => at_ dx [0; c; r]))) (vec np (fun p => at_ rem [p]))) = vec B (fun r => at_ lr [r]).
Proof.
  intros Hp Sq Sd Sx Sr. unfold line_search_t. rewrite Sq, Sr. destruct (Nat.eqb_spec np 0); [lia|]. rewrite (Nat.mul_comm np nr), Nat.div_mul by lia.
  destruct (norm_squeezed dx B Sx) as (err & -> & Se & He). cbn [rbind].
  assert (RR : exists r1, TorchModel.reshape [np * nr] (Ok (mkT [nr; np] (fun i => at_ rem (tl i)))) = Ok r1 /\ shape r1 = [B] /\ forall r, r < B -> at_ r1 [r] = at_ rem [r / nr]).
  { pose proof (t_reshape (Ok (mkT [nr; np] (fun i => at_ rem (tl i)))) [nr; np] (fun i => at_ rem (tl i)) [np * nr] (fun i => [hd 0 i mod nr; hd 0 i / nr]) (ex_intro _ _ (conj eq_refl (conj eq_refl (fun _ _ => eq_refl)))) ltac:(cbn [prod]; lia)) as T.
    destruct T as (r1 & E1 & S1 & H1).
    - intros i V. apply valid1_inv in V as (r & -> & Lr). cbn [hd]. destruct (row_parts np nr r Lr) as (L1 & L2 & L3). split; [apply valid2; assumption|]. cbn [ravel hd tl]. lia.
    - exists r1. split; [exact E1|]. split; [exact S1|]. intros r Lr. apply (H1 [r]), valid1, Lr. }
  destruct RR as (r1 & E1 & S1 & H1). rewrite E1. cbn [rbind]. rewrite (Nat.mul_comm nr np).
  destruct (search_ok ls (ls_iter ls) q dq err (fun r => fnorm (vec 6 (fun c => at_ dx [0; c; r]))) Sq Sd ltac:(exists err; auto) (mkT [B] (fun _ => Fin (ls_lr ls))) r1 (fun _ => Fin 0%R) eq_refl S1) as (lr & E & S & H).
  exists lr. split; [exact E|]. split; [exact S|]. rewrite <- H. unfold do_line_search. apply f_equal. rewrite map_vec. apply f_equal.
  change (rows_of q B dof) with (vec B (row_of q dof)). rewrite mapi_vec. apply vec_ext. intros r Lr. rewrite (H1 r Lr). cbn [at_]. f_equal.
  destruct (row_parts np nr r Lr) as (_ & L2 & _). apply nth_error_nth. exact (vec_nth np (fun p => at_ rem [p]) (r / nr) L2).
Qed.

(** ** Early stopping *)
Definition imp_shaped (i : option (tensor F * tensor nat)) : Prop := match i with None => True | Some (m, c) => shape m = [nr; np] /\ shape c = [nr; np] end.
Definition imp_fun (i : option (tensor F * tensor nat)) : option ((nat -> nat -> F) * (nat -> nat -> nat)) :=
  match i with None => None | Some (m, c) => Some (fun p r => at_ m [r; p], fun p r => at_ c [r; p]) end.
Lemma sol_remaining s s' f : shaped dof np nr s -> shaped dof np nr s' -> t_iter s' = t_iter s -> entry_of dof s' = entry_of dof s -> t_any s' = t_any s ->
  (forall p, p < np -> at_ (t_remaining s') [p] = at_ (t_remaining s) [p] && f p) ->
  mk_sol (t_iter s) dof np nr (ik_ptol k) (ik_rtol k) (entry_of dof s) (fun p => at_ (t_remaining s) [p] && f p) (fun p => at_ (t_any s) [p]) = sol s'.
Proof.
  intros Hs Hs' Ei Ee Ea Hr. rewrite (solution_mk dof np nr _ _ s' Hs'), Ei, Ee, Ea. unfold mk_sol. f_equal. apply vec_ext. intros p L. symmetry. exact (Hr p L).
Qed.
Lemma improvement_ok err imp s : shape err = [nr; np] -> imp_shaped imp -> shaped dof np nr s ->
  exists imp' s', improvement_t k err imp s = Ok (imp', s') /\ imp_shaped imp' /\ shaped dof np nr s' /\
    improvement k (tab np nr (fun p r => at_ err [r; p])) (imp_tab k np (imp_fun imp)) (sol s) = (imp_tab k np (imp_fun imp'), sol s').
Proof.
  intros Se Hi Hs. rewrite (solution_mk dof np nr _ _ s Hs), improvement_eq. unfold improvement_t, imp1, keep1.
  assert (Z : forall imp', mk_sol (t_iter s) dof np nr (ik_ptol k) (ik_rtol k) (entry_of dof s) (fun p => at_ (t_remaining s) [p] && true) (fun p => at_ (t_any s) [p]) = sol s -> imp_shaped imp' ->
    exists i' s', Ok (imp', s) = Ok (i', s') /\ imp_shaped i' /\ shaped dof np nr s' /\ (imp_tab k np (imp_fun imp'),
      mk_sol (t_iter s) dof np nr (ik_ptol k) (ik_rtol k) (entry_of dof s) (fun p => at_ (t_remaining s) [p] && true) (fun p => at_ (t_any s) [p])) = (imp_tab k np (imp_fun i'), sol s')).
  { intros imp' -> HI. exists imp', s. auto. }
  assert (ZZ : mk_sol (t_iter s) dof np nr (ik_ptol k) (ik_rtol k) (entry_of dof s) (fun p => at_ (t_remaining s) [p] && true) (fun p => at_ (t_any s) [p]) = sol s).
  { apply (sol_remaining s s (fun _ => true)); auto. intros. rewrite andb_true_r. reflexivity. }
  assert (Main : forall (mn : tensor F) (ct : tensor nat) (kp : ten bool -> ten bool) (kf : list bool -> bool), shape mn = [nr; np] -> shape ct = [nr; np] ->
    (forall e f, is_t e [nr; np] f -> is_t (kp e) [np] (fun i => kf (vec nr (fun r => f (r :: i))))) ->
    exists i' s', (do mn' <- where_ (op2 flt (Ok err) (Ok mn)) (Ok err) (Ok mn); do ct' <- where_ (op2 flt (Ok err) (Ok mn)) (full (shape ct) 0) (op1 S (Ok ct));
        do s0 <- keep_t s (kp (rows2 nr (op1 (fun c => c <=? ik_patience k) (Ok ct')))); Ok (Some (mn', ct'), s0)) = Ok (i', s') /\ imp_shaped i' /\ shaped dof np nr s' /\
      (imp_tab k np (Some (fun p r => if flt (at_ err [r; p]) (at_ mn [r; p]) then at_ err [r; p] else at_ mn [r; p], fun p r => if flt (at_ err [r; p]) (at_ mn [r; p]) then 0 else S (at_ ct [r; p]))),
       mk_sol (t_iter s) dof np nr (ik_ptol k) (ik_rtol k) (entry_of dof s) (fun p => at_ (t_remaining s) [p] && kf (vec nr (fun r => (if flt (at_ err [r; p]) (at_ mn [r; p]) then 0 else S (at_ ct [r; p])) <=? ik_patience k))) (fun p => at_ (t_any s) [p]))
      = (imp_tab k np (imp_fun i'), sol s')).
  { intros mn ct kp kf Sm Sc Hk. pose proof (t_op2_same flt _ _ _ _ _ (is_in err _ Se) (is_in mn _ Sm)) as I.
    destruct (t_where _ _ _ _ _ _ _ I (is_in err _ Se) (is_in mn _ Sm)) as (mn' & -> & Sm' & Hm'). cbn [rbind].
    rewrite Sc. destruct (t_where _ _ _ _ _ _ _ I (t_full [nr; np] 0) (t_op1 S _ _ _ (is_in ct _ Sc))) as (ct' & -> & Sc' & Hc'). cbn [rbind].
    destruct (keep_ok dof np nr s _ _ Hs (Hk _ _ (t_rows2 _ nr np _ (t_op1 (fun c => c <=? ik_patience k) _ _ _ (is_in ct' _ Sc')) Hn))) as (s' & -> & Hs' & Ei & Ee & Hr & Ea & _). cbn [rbind].
    exists (Some (mn', ct')), s'. split; [reflexivity|]. split; [split; assumption|]. split; [exact Hs'|]. f_equal.
    - cbn [imp_fun imp_tab]. apply f_equal. f_equal; apply tab_ext; intros p r Lp Lr; symmetry; [apply (Hm' [r; p]) | apply (Hc' [r; p])]; apply valid2; assumption.
    - apply sol_remaining; try assumption. intros p Lp. rewrite (Hr p Lp). apply f_equal. apply f_equal. apply vec_ext. intros r Lr. rewrite (Hc' [r; p]) by (apply valid2; assumption). reflexivity. }
  unfold keep_problem.
  destruct (ik_noimp k) as [| | |rho] eqn:En; [apply Z; assumption| | |]; (destruct imp as [[mn ct]|]; [destruct Hi as [Sm Sc] | apply (Z (Some (err, mkT (shape err) (fun _ => 0)))); [exact ZZ | split; [exact Se | exact Se]]]); cbn [imp_fun].
  - apply (Main mn ct all_last (forallb (fun b => b)) Sm Sc). intros e f H. exact (t_over _ e nr [np] f H).
  - apply (Main mn ct any_last (existsb (fun b => b)) Sm Sc). intros e f H. exact (t_over _ e nr [np] f H).
  - apply (Main mn ct (fun c => op1 (fun c => Rltb rho (INR c / INR nr)) (count_last c)) (fun l => Rltb rho (INR (length (filter (fun b => b) l)) / INR nr)) Sm Sc).
    intros e f H. exact (t_op1 _ _ _ _ (t_over (fun l => length (filter (fun b => b) l)) e nr [np] f H)).
Qed.

(** ** The step *)
Hypothesis Els : ik_ls k = option_map (fun ls q dq dx rem => map l_lr (do_line_search errf ls nr q dq dx rem)) search.
Lemma move_ok q dq dx rem : 0 < np -> shape q = [dof; B] -> shape dq = [dof; B] -> shape dx = [1; 6; B] -> shape rem = [np] ->
  exists q', move_t eval k search low high q dq dx rem = Ok q' /\ shape q' = [dof; B] /\
    move k (rows_of q B dof) (rows_of dq B dof) (vec B (fun r => vec 6 (fun c => at_ dx [0; c; r]))) (vec np (fun p => at_ rem [p])) = rows_of q' B dof.
Proof.
  intros Hp Sq Sd Sx Sr.
  assert (A : exists lrs q1, (match search with
      | Some ls => do lr <- line_search_t eval ls q dq dx rem; op2 fadd (Ok q) (op2 fmul (unsqueeze (Ok lr)) (Ok dq))
      | None => op2 fadd (Ok q) (op1 (fmul (ik_lr k)) (Ok dq)) end) = Ok q1 /\ shape q1 = [dof; B] /\
    match ik_ls k with Some f => f (rows_of q B dof) (rows_of dq B dof) (vec B (fun r => vec 6 (fun c => at_ dx [0; c; r]))) (vec np (fun p => at_ rem [p])) | None => map (fun _ => ik_lr k) (rows_of q B dof) end = vec B lrs /\
    forall i, valid [dof; B] i -> at_ q1 i = fadd (at_ q i) (fmul (lrs (nth 1 i 0)) (at_ dq i))).
  { rewrite Els. destruct search as [ls|]; cbn [option_map].
    - destruct (line_search_ok ls q dq dx rem Hp Sq Sd Sx Sr) as (lr & -> & S & H). cbn [rbind]. destruct (t_step q dq lr Sq Sd S) as (q1 & -> & S1 & H1).
      exists (fun r => at_ lr [r]), q1. split; [reflexivity|]. split; [exact S1|]. split; [exact H|]. intros i V. rewrite (H1 i V). apply valid2_inv in V as (j & r & -> & _). reflexivity.
    - destruct (t_op2_same fadd _ _ _ _ _ (is_in q _ Sq) (t_op1 (fmul (ik_lr k)) _ _ _ (is_in dq _ Sd))) as (q1 & -> & S1 & H1).
      exists (fun _ => ik_lr k), q1. split; [reflexivity|]. split; [exact S1|]. split; [exact (map_vec _ _ _)|]. intros i V. rewrite (H1 i V). reflexivity. }
  destruct A as (lrs & q1 & E1 & S1 & EL & H1). unfold move_t, move. rewrite E1, EL. cbn [rbind].
  change (rows_of q B dof) with (vec B (row_of q dof)). change (rows_of dq B dof) with (vec B (row_of dq dof)). rewrite combine_vec, zip_vec.
  assert (R1 : vec B (fun r => step_row (lrs r) (fst (row_of q dof r, row_of dq dof r)) (snd (row_of q dof r, row_of dq dof r))) = vec B (fun r => vec dof (fun j => at_ q1 [j; r]))).
  { apply vec_ext. intros r Lr. cbn [fst snd]. unfold step_row. change (row_of q dof r) with (vec dof (fun j => at_ q [j; r])). change (row_of dq dof r) with (vec dof (fun j => at_ dq [j; r])). rewrite zip_vec.
    apply vec_ext. intros j Lj. symmetry. apply (H1 [j; r]), valid2; assumption. }
  rewrite R1. destruct (ik_clamp k); [|exists q1; auto].
  destruct (t_clamp _ _ (is_in q1 _ S1)) as (q2 & -> & S2 & H2). exists q2. split; [reflexivity|]. split; [exact S2|]. rewrite map_vec, (rows_t q2 _ H2). apply vec_ext. intros r Lr. apply clamp_vec.
Qed.

(** ** One iteration, and the loop *)
Definition list_state (q : tensor F) (s : solt) (i : option (tensor F * tensor nat)) : st := mkSt (rows_of q B dof) (sol s) (imp_tab k np (imp_fun i)).
Lemma kern_rows q dq dx : (forall r, r < B -> kern (r / nr) (row_of q dof r) = (map (fun j => at_ dq [0; j; r]) (seq 0 dof), map (fun i => at_ dx [0; i; r]) (seq 0 6))) ->
  kern_all kern k (rows_of q B dof) = vec B (fun r => (vec dof (fun j => at_ dq [0; j; r]), vec 6 (fun i => at_ dx [0; i; r]))).
Proof. intros H. change (rows_of q B dof) with (vec B (row_of q dof)). rewrite kern_all_vec. apply vec_ext. exact H. Qed.
Lemma shaped_tick s : shaped dof np nr s -> shaped dof np nr (tick_t s). Proof. intros []. constructor; assumption. Qed.
Lemma body_ok q s imp : 0 < np -> shape q = [dof; B] -> shaped dof np nr s -> imp_shaped imp ->
  exists q' s' imp', body_t eval k search low high q s imp = Ok (q', s', imp') /\ shape q' = [dof; B] /\ shaped dof np nr s' /\ imp_shaped imp' /\
    body kern k (list_state q s imp) = Ok (list_state q' s' imp').
Proof.
  intros Hp Sq Hs Hi. destruct (HE q Sq) as (dq & dx & Ev & Sd & Sx & Hk). unfold body_t, body, list_state. cbn [st_q st_sol st_imp]. rewrite Ev, (kern_rows q dq dx Hk), !map_vec. cbn [rbind fst snd].
  destruct (t_sq1 dq [dof; B] Sd) as (dq1 & -> & Sd1 & Hd1). destruct (t_sq1 dx [6; B] Sx) as (dx1 & -> & Sx1 & Hx1). cbn [rbind].
  destruct (t_over fnorm _ 6 [nr; np] _ (t_rows3 _ nr 6 np _ (is_in dx1 _ Sx1) Hn ltac:(lia))) as (err & E & Se & He). unfold norm_last at 1. rewrite E. cbn [rbind]. clear E.
  destruct (update_ok dof np nr (ik_ptol k) (ik_rtol k) (tick_t s) q dx1 (ik_stop_any k) Hd Hn (shaped_tick s Hs) Sq Sx1) as (s1 & -> & Hs1 & _ & U). cbn [rbind].
  destruct (improvement_ok err imp s1 Se Hi Hs1) as (imp' & s' & -> & Hi' & Hs' & I). cbn [rbind fst snd].
  destruct (move_ok q dq1 dx (t_remaining s') Hp Sq Sd1 Sx (sh_r _ _ _ _ Hs')) as (q' & -> & Sq' & M). cbn [rbind].
  exists q', s', imp'. split; [reflexivity|]. split; [exact Sq'|]. split; [exact Hs'|]. split; [exact Hi'|].
  rewrite reshape_vec by exact Hn. cbn [rbind].
  assert (X : vec B (fun i => vec 6 (fun c => at_ dx [0; c; i])) = rows_of dx1 B 6). { apply vec_ext. intros r _. apply vec_ext. intros c _. symmetry. apply Hx1. }
  change (tick (sol s)) with (sol (tick_t s)). rewrite X, U. cbn [rbind]. rewrite map_tab.
  assert (Y : tab np nr (fun p r => fnorm (vec 6 (fun c => at_ dx [0; c; p * nr + r]))) = tab np nr (fun p r => at_ err [r; p])).
  { apply tab_ext. intros p r Lp Lr. rewrite (He [r; p]) by (apply valid2; assumption). apply f_equal. apply vec_ext. intros c Lc. cbn [nth]. symmetry. apply Hx1. }
  rewrite Y, I. do 2 f_equal. rewrite <- M, <- X. unfold solution_of. cbn [s_remaining]. f_equal. apply vec_ext. intros r _. apply vec_ext. intros c _. symmetry. apply Hd1.
Qed.
Lemma loop_ok n : forall q s imp, shape q = [dof; B] -> shaped dof np nr s -> imp_shaped imp ->
  exists q' s' imp', loop_t eval k search low high n q s imp = Ok (q', s') /\ shape q' = [dof; B] /\ shaped dof np nr s' /\ loop kern k n (list_state q s imp) = Ok (list_state q' s' imp').
Proof.
  induction n as [|n IH]; intros q s imp Sq Hs Hi; [exists q, s, imp; auto|]. cbn [loop_t loop]. unfold any_all. rewrite (sh_r _ _ _ _ Hs). cbn [hd].
  assert (Ex : existsb (fun b => b) (s_remaining (st_sol (list_state q s imp))) = existsb (fun p => at_ (t_remaining s) [p]) (seq 0 np)) by (cbn [list_state st_sol solution_of s_remaining]; rewrite existsb_map; reflexivity).
  rewrite Ex. destruct (existsb (fun p => at_ (t_remaining s) [p]) (seq 0 np)) eqn:A; [|exists q, s, imp; auto].
  assert (Hp : 0 < np) by (destruct np; [discriminate A | lia]).
  destruct (body_ok q s imp Hp Sq Hs Hi) as (q1 & s1 & imp1' & -> & Sq1 & Hs1 & Hi1 & ->). cbn [rbind fst snd]. exact (IH q1 s1 imp1' Sq1 Hs1 Hi1).
Qed.

(** ** Joint limits *)
Hypothesis Hrev : length (ik_rev k) = dof.
Lemma wrap_ok q : shape q = [dof; B] -> exists q', wrap_t k low high q = Ok q' /\ shape q' = [dof; B] /\ map (wrap_row k) (rows_of q B dof) = rows_of q' B dof.
Proof.
  intros Sq. unfold wrap_t.
  pose proof (t_op1 (fun x => fdivr x 2) _ _ _ (t_op2_same fadd _ _ _ _ _ (is_in low _ Sl) (is_in high _ Sh))) as C.
  pose proof (t_op1 fround _ _ _ (t_op1 (fun x => fdivr x (2 * PI)) _ _ _ (t_op2 fsub _ _ _ _ _ _ _ C (is_in q _ Sq) (tog_sym _ _ _ tog_col)))) as Nn.
  destruct (t_op2_same fadd _ _ _ _ _ (is_in q _ Sq) (t_op1 (fun x => fmul (fmul x (Fin 2%R)) (Fin PI)) _ _ _ Nn)) as (u & -> & Su & Hu).
  unfold put_where. cbn [rbind]. rewrite Sq, Su, Hrev, Nat.eqb_refl, eqb_list_refl. cbn [andb]. eexists. split; [reflexivity|]. split; [reflexivity|].
  change (rows_of q B dof) with (vec B (row_of q dof)). rewrite map_vec. apply vec_ext. intros r Lr. unfold wrap_row. rewrite El, Eh, combine_vec.
  pose proof (vec_of (ik_rev k) false) as Vr. rewrite Hrev in Vr. rewrite Vr, combine_vec. change (row_of q dof r) with (vec dof (fun j => at_ q [j; r])). rewrite zip_vec. apply vec_ext. intros j Lj. cbn [fst snd at_ hd].
  rewrite <- Vr. unfold wrap1. destruct (nth j (ik_rev k) false); [|reflexivity].
  assert (V : valid [dof; B] [j; r]) by (apply valid2; assumption). rewrite (Hu [j; r] V). rewrite (bidx_id [dof; B] [j; r] V), bidx_col by exact Lj. reflexivity.
Qed.
Lemma clamp_ok q : shape q = [dof; B] -> exists q', clamp_t (Ok q) (Ok low) (Ok high) = Ok q' /\ shape q' = [dof; B] /\ map (clamp_row (ik_low k) (ik_high k)) (rows_of q B dof) = rows_of q' B dof.
Proof.
  intros Sq. destruct (t_clamp _ _ (is_in q _ Sq)) as (q2 & -> & S2 & H2). exists q2. split; [reflexivity|]. split; [exact S2|]. rewrite (rows_t q2 _ H2).
  change (rows_of q B dof) with (vec B (row_of q dof)). rewrite map_vec. apply vec_ext. intros r Lr. exact (clamp_vec (fun j => at_ q [j; r])).
Qed.
Lemma refine_ok n : forall q, shape q = [dof; B] -> exists q', refine_t eval k low high n q = Ok q' /\ shape q' = [dof; B] /\ refine kern k n (rows_of q B dof) = rows_of q' B dof.
Proof.
  induction n as [|n IH]; intros q Sq; [exists q; auto|]. cbn [refine_t refine]. destruct (HE q Sq) as (dq & dx & -> & Sd & Sx & Hk). cbn [rbind fst]. rewrite (kern_rows q dq dx Hk).
  destruct (t_sq1 dq [dof; B] Sd) as (dq1 & -> & Sd1 & Hd1).
  destruct (t_clamp _ _ (t_op2_same fadd _ _ _ _ _ (is_in q _ Sq) (t_op1 (fmul (ik_lr k)) _ _ _ (is_in dq1 _ Sd1)))) as (q1 & -> & S1 & H1). cbn [rbind].
  destruct (IH q1 S1) as (q' & E & S' & H'). exists q'. split; [exact E|]. split; [exact S'|]. rewrite <- H'. apply f_equal. rewrite (rows_t q1 _ H1).
  change (rows_of q B dof) with (vec B (row_of q dof)). rewrite zip_vec. apply vec_ext. intros r Lr. cbn [fst]. unfold step_row. change (row_of q dof r) with (vec dof (fun j => at_ q [j; r])). rewrite zip_vec, clamp_vec.
  apply vec_ext. intros j Lj. cbn [hd]. rewrite (Hd1 [j; r]). reflexivity.
Qed.
Lemma flat_ok s : shaped dof np nr s -> exists q, (do t <- Ok (t_solutions s); if dof =? 0 then Err RuntimeError else TorchModel.reshape [dof; prod (shape t) / dof] (Ok t)) = Ok q /\ shape q = [dof; B] /\
  map e_q (concat (s_entries (sol s))) = rows_of q B dof.
Proof.
  intros Hs. cbn [rbind]. rewrite (sh_q _ _ _ _ Hs). destruct (Nat.eqb_spec dof 0); [lia|]. cbn [prod]. replace (dof * (nr * (np * 1))) with (B * dof) by lia. rewrite Nat.div_mul by lia.
  destruct (t_reshape (Ok (t_solutions s)) [dof; nr; np] _ [dof; B] (fun i => [nth 0 i 0; nth 1 i 0 mod nr; nth 1 i 0 / nr]) (is_in (t_solutions s) _ (sh_q _ _ _ _ Hs))) as (q & E & S & H).
  - cbn [prod]. lia.
  - intros i V. apply valid2_inv in V as (j & r & -> & Lj & Lr). cbn [nth]. destruct (row_parts np nr r Lr) as (L1 & L2 & L3). split; [apply valid3; assumption|]. cbn [ravel hd tl]. lia.
  - exists q. split; [exact E|]. split; [exact S|]. rewrite (rows_t q _ H). rewrite (solution_mk dof np nr _ _ s Hs). cbn [mk_sol s_entries]. rewrite concat_tab by exact Hn. rewrite map_vec. reflexivity.
Qed.
Lemma enforce_ok s : shaped dof np nr s -> exists s', enforce_t eval k low high s = Ok s' /\ shaped dof np nr s' /\ enforce_limits kern k (sol s) = Ok (sol s').
Proof.
  intros Hs. unfold enforce_t, enforce_limits. destruct (flat_ok s Hs) as (q0 & -> & S0 & ->). cbn [rbind].
  destruct (wrap_ok q0 S0) as (q1 & -> & S1 & ->). cbn [rbind]. destruct (clamp_ok q1 S1) as (q2 & -> & S2 & ->). cbn [rbind]. destruct (refine_ok (ik_refine k) q2 S2) as (q3 & -> & S3 & ->). cbn [rbind].
  destruct (HE q3 S3) as (dq & dx & -> & Sd & Sx & Hk). cbn [rbind snd]. destruct (t_sq1 dx [6; B] Sx) as (dx1 & -> & Sx1 & Hx1). cbn [rbind].
  set (s1 := mkSolt _ _ _ _ _ _ _ _ _ _ _). assert (Hs1 : shaped dof np nr s1) by (destruct Hs; constructor; assumption).
  destruct (update_ok dof np nr (ik_ptol k) (ik_rtol k) s1 q3 dx1 false Hd Hn Hs1 S3 Sx1) as (s' & -> & Hs' & _ & U). exists s'. split; [reflexivity|]. split; [exact Hs'|].
  rewrite <- U, (kern_rows q3 dq dx Hk), map_vec. f_equal.
  - rewrite (solution_mk dof np nr _ _ s Hs), (solution_mk dof np nr _ _ s1 Hs1). unfold reset_conv, mk_sol. cbn [s_iter s_dof s_nr s_ptol s_rtol s_entries s_remaining s_any s_pos_any s_rot_any]. rewrite map_tab, map_vec. reflexivity.
  - apply vec_ext. intros r _. cbn [snd]. apply vec_ext. intros c _. symmetry. apply Hx1.
Qed.
Lemma finite_limits_ok : finite_limits_t low high = has_finite_limits k.
Proof. unfold finite_limits_t, has_finite_limits. rewrite Sl, Sh, El, Eh. unfold vec. rewrite !existsb_map. reflexivity. Qed.

Lemma solve_ok q0 : shape q0 = [dof; B] -> exists s, solve_program eval k search low high np q0 = Ok s /\ shaped dof np nr s /\ solve_from kern k np (rows_of q0 B dof) = Ok (sol s).
Proof.
  intros S0. unfold solve_program, solve_from.
  destruct (loop_ok (ik_max k) q0 (sol_init_t dof np nr) None S0 (shaped_init dof np nr) I) as (q & s & imp & -> & Sq & Hs & L). cbn [rbind].
  unfold list_state in L at 1. rewrite solution_init in L. cbn [imp_fun imp_tab] in L. rewrite L. cbn [rbind list_state st_q st_sol].
  destruct (HE q Sq) as (dq & dx & -> & Sd & Sx & Hk). cbn [rbind snd]. destruct (t_sq1 dx [6; B] Sx) as (dx1 & -> & Sx1 & Hx1). cbn [rbind].
  destruct (update_ok dof np nr (ik_ptol k) (ik_rtol k) s q dx1 (ik_stop_any k) Hd Hn Hs Sq Sx1) as (s1 & -> & Hs1 & _ & U). cbn [rbind].
  assert (X : map snd (kern_all kern k (rows_of q B dof)) = rows_of dx1 B 6). { rewrite (kern_rows q dq dx Hk), map_vec. apply vec_ext. intros r _. cbn [snd]. apply vec_ext. intros c _. symmetry. apply Hx1. }
  rewrite X, U. cbn [rbind]. rewrite finite_limits_ok. destruct (ik_enforce k && has_finite_limits k); [|exists s1; auto]. exact (enforce_ok s1 Hs1).
Qed.
End Run.
