(** Indexing, iteration and copying of transforms: transform3d.py:220-224, 295-299, 431-475. *)
From Coq Require Import Reals Lra Bool Arith ZArith Lia String List Sorting.Sorted.
From Verif Require Import Prelude ExtF Lin Trig RotModel T3dModel T3dProofs T3dMore.
Import ListNotations.
Local Open Scope nat_scope.

(** ** Indexing *)

(** What may stand between the brackets of [t[...]]: an integer, a slice, a boolean mask or a list of integers over the batch
    dimension.  Tuples, [None] and [...] are left out. *)
Inductive item := IInt (i : Z) | ISlice (a b step : option Z) | IMask (m : list bool) | IList (l : list Z).

(** a bound of a slice over [n] elements: negative values count from the end, then it is cut to 0..n; [d] if missing *)
Definition slice_bound (n : nat) (o : option Z) (d : nat) : nat :=
  match o with
  | None => d
  | Some i => let j := if (i <? 0)%Z then (i + Z.of_nat n)%Z else i in Z.to_nat (Z.max 0 (Z.min j (Z.of_nat n)))
  end.
(** every [step]-th element, starting with the first; [wait] elements are skipped before the next one is taken *)
Fixpoint every {A} (step wait : nat) (l : list A) : list A :=
  match l with
  | [] => []
  | x :: r => match wait with O => x :: every step (step - 1) r | S w => every step w r end
  end.
(** slicing of a tensor along its first dimension; torch refuses steps below one (ValueError) *)
Definition py_slice {A} (l : list A) (a b step : option Z) : res (list A) :=
  let s := match step with None => 1%Z | Some s => s end in
  if (s <=? 0)%Z then Err ValueError
  else Ok (every (Z.to_nat s) 0 (skipn (slice_bound (length l) a 0) (firstn (slice_bound (length l) b (length l)) l))).
(** a boolean mask needs the length of the dimension *)
Fixpoint masked {A} (m : list bool) (l : list A) : list A :=
  match m, l with
  | true :: m, x :: l => x :: masked m l
  | false :: m, _ :: l => masked m l
  | _, _ => []
  end.
(** transform3d.py:223-224.  The result is always a plain Transform3d: an integer leaves a (4, 4) matrix, which the constructor turns into
    a batch of one. *)
Definition getitem (t : transform) (i : item) : res transform :=
  match i with
  | IInt i => tgetitem t i
  | ISlice a b s => do l <- py_slice (tm t) a b s; Ok (mkT KBase l)
  | IMask m => if length m =? tlen t then Ok (mkT KBase (masked m (tm t))) else Err IndexError
  | IList l => do l <- rmap (py_index (tm t)) l; Ok (mkT KBase l)
  end.
(** [for x in t]: there is no [__iter__], so Python calls [t[0]], [t[1]], ... until IndexError *)
Fixpoint iterate (fuel : nat) (t : transform) (i : Z) : res (list transform) :=
  match fuel with
  | O => Err OutOfFuel
  | S f => match tgetitem t i with
           | Ok x => do r <- iterate f t (i + 1)%Z; Ok (x :: r)
           | Err IndexError => Ok []
           | Err e => Err e
           end
  end.

(** ** Copying *)

(** A device argument is a string or a [torch.device]; Python's [==] between the two kinds is false.  A dtype is a name. *)
Inductive dev := DevStr (s : string) | DevObj (s : string).
Definition dev_eqb (a b : dev) : bool :=
  match a, b with DevStr a, DevStr b | DevObj a, DevObj b => String.eqb a b | _, _ => false end.
Definition dev_name (d : dev) : string := match d with DevStr s | DevObj s => s end.
(** a tensor in memory: its data, where it is and its element type *)
Record store := mkStore { st_data : list M4; st_dev : string; st_ty : string }.
(** memory, and a transform that refers to its matrix *)
Definition heap := list store.
Record tobj := mkObj { ob_kind : tkind; ob_ref : nat; ob_dev : dev; ob_ty : string }.
Definition load (h : heap) (o : tobj) : res transform :=
  do s <- get h (ob_ref o); Ok (mkT (ob_kind o) (st_data s)).
(** transform3d.py:431-443; the new object is built by [Transform3d(...)], whatever the class of the original *)
Definition clone_obj (h : heap) (o : tobj) : res (heap * tobj) :=
  do s <- get h (ob_ref o);
  Ok (h ++ [s], mkObj KBase (length h) (ob_dev o) (st_ty s)).
(** [tensor.to(device, dtype)]: the tensor itself if nothing changes, else a converted copy.  The conversion of the numbers is not
    modelled. *)
Definition tensor_to (h : heap) (r : nat) (d : dev) (ty : option string) : res (heap * nat) :=
  do s <- get h r;
  let ty' := match ty with Some t => t | None => st_ty s end in
  if String.eqb (dev_name d) (st_dev s) && String.eqb ty' (st_ty s) then Ok (h, r)
  else Ok (h ++ [mkStore (st_data s) (dev_name d) ty'], length h).
(** transform3d.py:445-468 *)
Definition to_dev (h : heap) (o : tobj) (d : dev) (copy : bool) (ty : option string) : res (heap * tobj) :=
  if negb copy && match ty with None => true | Some t => String.eqb (ob_ty o) t end && dev_eqb (ob_dev o) d
  then Ok (h, o)
  else
    do ho <- clone_obj h o;
    do hr <- tensor_to (fst ho) (ob_ref o) d ty;
    Ok (fst hr, mkObj KBase (snd hr) d (match ty with Some t => t | None => ob_ty (snd ho) end)).
(** transform3d.py:470-471 *)
Definition to_cpu (h : heap) (o : tobj) : res (heap * tobj) := to_dev h o (DevObj "cpu") false None.
(** an in-place write to a tensor, [o.get_matrix()[i] = m] *)
Definition write (h : heap) (r i : nat) (m : M4) : heap :=
  match nth_error h r with
  | Some s => set_nth r (mkStore (set_nth i m (st_data s)) (st_dev s) (st_ty s)) h
  | None => h
  end.

(** ** Lemmas *)
Lemma tgetitem_nonneg t i : i < tlen t -> exists A, nth_error (tm t) i = Some A /\ tgetitem t (Z.of_nat i) = Ok (mkT KBase [A]).
Proof.
  unfold tlen. intros H. destruct (nth_error (tm t) i) as [A|] eqn:E; [|apply nth_error_None in E; lia].
  exists A. split; [reflexivity|]. unfold tgetitem, py_index.
  destruct (Z.ltb_spec (Z.of_nat i) 0); [lia|].
  destruct (Z.leb_spec 0 (Z.of_nat i)); [|lia]. destruct (Z.ltb_spec (Z.of_nat i) (Z.of_nat (length (tm t)))); [|lia].
  cbn [andb]. rewrite Nat2Z.id. unfold get. rewrite E. reflexivity.
Qed.
Lemma tgetitem_neg t k : 1 <= k <= tlen t -> tgetitem t (- Z.of_nat k) = tgetitem t (Z.of_nat (tlen t - k)).
Proof.
  unfold tlen. intros H. unfold tgetitem, py_index. do 2 f_equal.
  destruct (Z.ltb_spec (- Z.of_nat k) 0); [|lia].
  destruct (Z.ltb_spec (Z.of_nat (length (tm t) - k)) 0); [lia|].
  replace (- Z.of_nat k + Z.of_nat (length (tm t)))%Z with (Z.of_nat (length (tm t) - k)) by lia. reflexivity.
Qed.
Lemma tgetitem_out t i : (i < - Z.of_nat (tlen t) \/ Z.of_nat (tlen t) <= i)%Z -> tgetitem t i = Err IndexError.
Proof.
  unfold tlen. intros H. unfold tgetitem, py_index.
  destruct (Z.ltb_spec i 0).
  - destruct (Z.leb_spec 0 (i + Z.of_nat (length (tm t)))); [lia|]. reflexivity.
  - destruct (Z.leb_spec 0 i); [|lia]. destruct (Z.ltb_spec i (Z.of_nat (length (tm t)))); [lia|]. reflexivity.
Qed.

(** positions taken by [every] *)
Lemma every_spec {A} step (l : list A) : 1 <= step -> forall wait base d, exists ps,
  StronglySorted lt ps /\
  (forall p, In p ps <-> base + wait <= p < base + length l /\ exists k, p = base + wait + k * step) /\
  every step wait l = map (fun p => nth (p - base) l d) ps.
Proof.
  intros Hs. induction l as [|x r IH]; intros wait base d.
  - exists []. split; [constructor|]. split; [|reflexivity]. simpl. intros p. split; [tauto | intros (H & _); lia].
  - destruct wait as [|w]; cbn [every].
    + destruct (IH (step - 1) (S base) d) as (ps & Ss & Hi & He).
      exists (base :: ps). split; [constructor; [exact Ss | apply Forall_forall; intros p Hp; apply Hi in Hp; lia]|].
      split.
      * intros p. cbn [In length]. split.
        { intros [E|Hp]; [subst p; split; [lia | exists 0; lia]|].
          apply Hi in Hp as (Hp & k & Hk). split; [lia|]. exists (S k). lia. }
        { intros (Hp & k & Hk). destruct k as [|k]; [left; lia|]. right. apply Hi. split; [|exists k; lia].
          simpl in Hk. nia. }
      * cbn [map]. f_equal; [rewrite Nat.sub_diag; reflexivity|]. rewrite He. apply map_ext_in. intros p Hp. apply Hi in Hp.
        replace (p - base) with (S (p - S base)) by lia. reflexivity.
    + destruct (IH w (S base) d) as (ps & Ss & Hi & He).
      exists ps. split; [exact Ss|]. split.
      * intros p. cbn [length]. split.
        { intros Hp. apply Hi in Hp as (Hp & k & Hk). split; [lia | exists k; lia]. }
        { intros (Hp & k & Hk). apply Hi. split; [lia | exists k; lia]. }
      * rewrite He. apply map_ext_in. intros p Hp. apply Hi in Hp.
        replace (p - base) with (S (p - S base)) by lia. reflexivity.
Qed.
Lemma nth_skipn_firstn {A} a b (l : list A) q d : q < length (skipn a (firstn b l)) -> nth q (skipn a (firstn b l)) d = nth (a + q) l d.
Proof.
  revert b l. induction a as [|a IH]; intros b l H.
  - cbn [skipn plus] in *. revert b q H. induction l as [|x r IHl]; intros b q H; destruct b as [|b]; cbn [firstn length] in *; try lia.
    destruct q as [|q]; [reflexivity|]. cbn [nth]. apply IHl. lia.
  - destruct b as [|b]; [simpl in H; lia|]. destruct l as [|x r]; [simpl in H; lia|].
    cbn [firstn skipn] in *. cbn [plus nth]. apply IH; assumption.
Qed.
Lemma slice_bound_le n o d : d <= n -> slice_bound n o d <= n.
Proof. intros H. unfold slice_bound. destruct o as [i|]; [|lia]. lia. Qed.

(** the start and the end of a slice as Python defines them, without the functions above *)
Definition slice_start (n : nat) (o : option Z) (d : Z) (x : Z) : Prop :=
  match o with
  | None => x = d
  | Some i => (0 <= i <= Z.of_nat n /\ x = i)%Z \/ (Z.of_nat n < i /\ x = Z.of_nat n)%Z \/
              (- Z.of_nat n <= i < 0 /\ x = Z.of_nat n + i)%Z \/ (i < - Z.of_nat n /\ x = 0)%Z
  end.
Lemma slice_bound_spec n o d : d <= n -> slice_start n o (Z.of_nat d) (Z.of_nat (slice_bound n o d)).
Proof.
  intros H. unfold slice_start, slice_bound. destruct o as [i|]; [|reflexivity].
  destruct (Z.ltb_spec i 0); lia.
Qed.
Lemma slice_start_fun n o d x y : slice_start n o d x -> slice_start n o d y -> x = y.
Proof. unfold slice_start. destruct o; intros; lia. Qed.

Lemma py_slice_spec {A} (l : list A) a b step x y s (d : A) :
  s = match step with None => 1%Z | Some s => s end -> (1 <= s)%Z ->
  slice_start (length l) a 0 x -> slice_start (length l) b (Z.of_nat (length l)) y ->
  exists ps, StronglySorted lt ps /\
    (forall p, In p ps <-> (x <= Z.of_nat p < y)%Z /\ exists k, (0 <= k)%Z /\ (Z.of_nat p = x + k * s)%Z) /\
    py_slice l a b step = Ok (map (fun p => nth p l d) ps).
Proof.
  intros Es Hs Hx Hy. unfold py_slice. rewrite <- Es. destruct (Z.leb_spec s 0); [lia|].
  set (n := length l) in *. set (ia := slice_bound n a 0). set (ib := slice_bound n b n).
  assert (Ha : x = Z.of_nat ia) by (eapply slice_start_fun; [exact Hx | apply (slice_bound_spec n a 0); lia]).
  assert (Hb : y = Z.of_nat ib) by (eapply slice_start_fun; [exact Hy | apply (slice_bound_spec n b n); lia]).
  assert (Hib : ib <= n) by (apply slice_bound_le; lia).
  set (l' := skipn ia (firstn ib l)).
  assert (Hl : length l' = ib - ia) by (unfold l'; rewrite skipn_length, firstn_length; lia).
  destruct (every_spec (Z.to_nat s) l' ltac:(lia) 0 ia d) as (ps & Ss & Hi & He).
  exists ps. split; [exact Ss|]. split.
  - intros p. rewrite Hi, Hl, Ha, Hb. split.
    + intros (Hp & k & Hk). split; [lia|]. exists (Z.of_nat k). split; [lia|]. nia.
    + intros (Hp & k & Hk0 & Hk). split; [lia|]. exists (Z.to_nat k). nia.
  - fold l'. f_equal. rewrite He. apply map_ext_in. intros p Hp. apply Hi in Hp. rewrite Hl in Hp. unfold l'.
    rewrite nth_skipn_firstn by (fold l'; lia). f_equal. lia.
Qed.

Lemma masked_spec {A} (m : list bool) (l : list A) d : length m = length l -> forall base, exists ps, StronglySorted lt ps /\
  (forall p, In p ps <-> base <= p /\ nth_error m (p - base) = Some true) /\ masked m l = map (fun p => nth (p - base) l d) ps.
Proof.
  revert l. induction m as [|b m IH]; intros [|x l] H base; try discriminate.
  - exists []. split; [constructor|]. split; [|reflexivity]. intros p. cbn [In]. split; [tauto|].
    intros (_ & Hp). destruct (p - base); discriminate.
  - injection H as H. destruct (IH l H (S base)) as (ps & Ss & Hi & He).
    assert (Hmap : map (fun p => nth (p - S base) l d) ps = map (fun p => nth (p - base) (x :: l) d) ps).
    { apply map_ext_in. intros p Hp. apply Hi in Hp. replace (p - base) with (S (p - S base)) by lia. reflexivity. }
    destruct b; cbn [masked].
    + exists (base :: ps). split; [constructor; [exact Ss | apply Forall_forall; intros p Hp; apply Hi in Hp; lia]|]. split.
      * intros p. cbn [In]. rewrite Hi. split.
        { intros [E|(Hp & Hn)]; [subst p; rewrite Nat.sub_diag; auto|]. split; [lia|].
          replace (p - base) with (S (p - S base)) by lia. exact Hn. }
        { intros (Hp & Hn). destruct (Nat.eq_dec base p) as [E|N]; [left; exact E|]. right. split; [lia|].
          replace (p - base) with (S (p - S base)) in Hn by lia. exact Hn. }
      * cbn [map]. rewrite Nat.sub_diag. cbn [nth]. f_equal. rewrite He. exact Hmap.
    + exists ps. split; [exact Ss|]. split; [|rewrite He; exact Hmap].
      intros p. rewrite Hi. split.
      { intros (Hp & Hn). split; [lia|]. replace (p - base) with (S (p - S base)) by lia. exact Hn. }
      { intros (Hp & Hn). destruct (Nat.eq_dec base p) as [E|N].
        - subst p. rewrite Nat.sub_diag in Hn. discriminate.
        - split; [lia|]. replace (p - base) with (S (p - S base)) in Hn by lia. exact Hn. }
Qed.

Lemma iterate_from t : forall k i, i + k = tlen t ->
  iterate (S k) t (Z.of_nat i) = Ok (map (fun A => mkT KBase [A]) (skipn i (tm t))).
Proof.
  induction k as [|k IH]; intros i H.
  - cbn [iterate]. rewrite tgetitem_out by lia. unfold tlen in H. rewrite skipn_all2 by lia. reflexivity.
  - destruct (tgetitem_nonneg t i ltac:(lia)) as (A & Hn & Hg).
    change (iterate (S (S k)) t (Z.of_nat i)) with
      (match tgetitem t (Z.of_nat i) with
       | Ok x => do r <- iterate (S k) t (Z.of_nat i + 1)%Z; Ok (x :: r)
       | Err IndexError => Ok []
       | Err e => Err e
       end).
    rewrite Hg. replace (Z.of_nat i + 1)%Z with (Z.of_nat (S i)) by lia. rewrite IH by lia. cbn [rbind].
    f_equal. clear - Hn. revert i Hn. induction (tm t) as [|x r IHl]; intros [|i] Hn; try discriminate.
    + injection Hn as ->. reflexivity.
    + cbn [skipn]. rewrite <- IHl with (i := i) by exact Hn. reflexivity.
Qed.
Lemma iterate_all t : iterate (S (tlen t)) t 0 = Ok (map (fun A => mkT KBase [A]) (tm t)).
Proof. apply (iterate_from t (tlen t) 0). reflexivity. Qed.

Lemma py_slice_split {A} (l : list A) k :
  py_slice l None (Some (Z.of_nat k)) None = Ok (firstn k l) /\ py_slice l (Some (Z.of_nat k)) None None = Ok (skipn k l).
Proof.
  assert (He : forall r : list A, every 1 0 r = r) by (induction r as [|x r IH]; [reflexivity | cbn [every]; change (1 - 1) with 0; rewrite IH; reflexivity]).
  unfold py_slice. change (1 <=? 0)%Z with false. cbv iota. change (Z.to_nat 1) with 1. rewrite !He. unfold slice_bound.
  destruct (Z.ltb_spec (Z.of_nat k) 0); [lia|]. rewrite firstn_all.
  destruct (Nat.le_gt_cases k (length l)).
  - replace (Z.to_nat (Z.max 0 (Z.min (Z.of_nat k) (Z.of_nat (length l))))) with k by lia. split; reflexivity.
  - replace (Z.to_nat (Z.max 0 (Z.min (Z.of_nat k) (Z.of_nat (length l))))) with (length l) by lia.
    assert (H1 : firstn k l = l) by (apply firstn_all2; lia). assert (H2 : skipn k l = []) by (apply skipn_all2; lia).
    rewrite H1, H2, firstn_all, skipn_all. split; reflexivity.
Qed.

(** ** Copies *)
Lemma get_app_l {A} (h r : list A) i x : get h i = Ok x -> get (h ++ r) i = Ok x.
Proof. intros H. apply get_ok in H. apply get_ok. rewrite nth_error_app1; [exact H|]. apply nth_error_Some. congruence. Qed.
Lemma get_new {A} (h : list A) x : get (h ++ [x]) (length h) = Ok x.
Proof. apply get_ok. rewrite nth_error_app2, Nat.sub_diag; [reflexivity | lia]. Qed.
Lemma get_lt {A} (h : list A) i x : get h i = Ok x -> i < length h.
Proof. intros H. apply get_ok in H. apply nth_error_Some. congruence. Qed.
Lemma write_other h r i m r' : r' <> r -> get (write h r i m) r' = get h r'.
Proof.
  intros N. unfold write. destruct (nth_error h r) as [s|] eqn:E; [|reflexivity].
  unfold get. f_equal. clear E. revert r r' N. induction h as [|x h IH]; intros [|r] [|r'] N; cbn [set_nth nth_error]; try reflexivity; try lia.
  apply IH. lia.
Qed.
Lemma write_same h r i m s : get h r = Ok s ->
  get (write h r i m) r = Ok (mkStore (set_nth i m (st_data s)) (st_dev s) (st_ty s)).
Proof.
  intros H. apply get_ok in H. unfold write. rewrite H. apply get_ok.
  revert r H. induction h as [|x h IH]; intros [|r] H; cbn [set_nth nth_error] in *; try discriminate; auto.
Qed.

Lemma clone_obj_spec h o s : get h (ob_ref o) = Ok s -> exists h' o', clone_obj h o = Ok (h', o') /\
  (do t <- load h' o'; Ok (tm t)) = Ok (st_data s) /\ ob_ref o' <> ob_ref o /\ get h' (ob_ref o) = Ok s /\
  (forall r, r < length h -> get h' r = get h r) /\ length h <= ob_ref o' < length h'.
Proof.
  intros H. unfold clone_obj. rewrite H. cbn [rbind]. do 2 eexists. split; [reflexivity|]. unfold load. cbn [ob_ref ob_kind].
  rewrite get_new. cbn [rbind tm]. split; [reflexivity|]. pose proof (get_lt _ _ _ H). split; [lia|].
  split; [apply get_app_l, H|]. split; [|rewrite app_length; simpl; lia].
  intros r Hr. unfold get. rewrite nth_error_app1 by exact Hr. reflexivity.
Qed.

(** [to(copy=True)] without a change of device or dtype: the result refers to the original's tensor *)
Lemma to_dev_same h o s : get h (ob_ref o) = Ok s -> ob_dev o = DevObj (st_dev s) -> ob_ty o = st_ty s ->
  exists h' o', to_dev h o (ob_dev o) true None = Ok (h', o') /\ ob_ref o' = ob_ref o.
Proof.
  intros H Hd Ht. unfold to_dev. cbn [negb andb]. unfold clone_obj. rewrite H. cbn [rbind fst snd].
  unfold tensor_to. rewrite (get_app_l _ _ _ _ H). cbn [rbind]. rewrite Hd. cbn [dev_name]. rewrite !String.eqb_refl. cbn [andb rbind fst snd].
  do 2 eexists. split; reflexivity.
Qed.
(** otherwise it refers to a new one with the same entries *)
Lemma to_dev_new h o s d c ty : get h (ob_ref o) = Ok s ->
  dev_name d <> st_dev s \/ (exists t, ty = Some t /\ t <> st_ty s) -> ob_dev o <> d \/ (exists t, ty = Some t /\ t <> ob_ty o) \/ c = true ->
  exists h' o', to_dev h o d c ty = Ok (h', o') /\ ob_ref o' <> ob_ref o /\ get h' (ob_ref o) = Ok s /\
    exists s', get h' (ob_ref o') = Ok s' /\ st_data s' = st_data s /\ st_dev s' = dev_name d /\
               st_ty s' = match ty with Some t => t | None => st_ty s end.
Proof.
  intros H Hne Hgo. unfold to_dev.
  assert (Hc : negb c && match ty with None => true | Some t => String.eqb (ob_ty o) t end && dev_eqb (ob_dev o) d = false).
  { destruct c; [reflexivity|]. cbn [negb andb]. destruct Hgo as [Hd|[(t & -> & Ht)|Hf]]; [|rewrite (proj2 (String.eqb_neq _ _)); auto | discriminate].
    apply andb_false_intro2. unfold dev_eqb. destruct (ob_dev o), d; try reflexivity; apply String.eqb_neq; congruence. }
  rewrite Hc. unfold clone_obj. rewrite H. cbn [rbind fst snd]. unfold tensor_to. rewrite (get_app_l _ _ _ _ H). cbn [rbind].
  set (ty' := match ty with Some t => t | None => st_ty s end).
  assert (Hn : String.eqb (dev_name d) (st_dev s) && String.eqb ty' (st_ty s) = false).
  { destruct Hne as [Hd|(t & -> & Ht)]; [apply andb_false_intro1 | apply andb_false_intro2]; apply String.eqb_neq; assumption. }
  rewrite Hn. cbn [rbind fst snd]. do 2 eexists. split; [reflexivity|]. cbn [ob_ref].
  pose proof (get_lt _ _ _ H) as Hlt. split; [rewrite app_length; simpl; lia|].
  split; [apply get_app_l, get_app_l, H|]. eexists. split; [apply get_new|]. cbn [st_data st_dev st_ty]. auto.
Qed.

(** rows of a composition *)
Lemma compose_row t1 t2 t i a b : tlen t1 = tlen t2 -> compose t1 [t2] = Ok t ->
  getitem t1 (IInt (Z.of_nat i)) = Ok a -> getitem t2 (IInt (Z.of_nat i)) = Ok b ->
  exists c, getitem t (IInt (Z.of_nat i)) = Ok c /\ compose a [b] = Ok c.
Proof.
  intros Hl Hc Ha Hb. rewrite compose1, bb_eq in Hc by exact Hl. cbn [rbind] in Hc.
  assert (Ht : tm t = zip_with m4mul (tm t1) (tm t2)) by (injection Hc as <-; reflexivity).
  destruct (Nat.lt_ge_cases i (tlen t1)) as [Hi|Hi]; [|cbn [getitem] in Ha; rewrite tgetitem_out in Ha by lia; discriminate].
  destruct (tgetitem_nonneg t1 i Hi) as (A & HA & EA). destruct (tgetitem_nonneg t2 i ltac:(lia)) as (B & HB & EB).
  cbn [getitem] in *. rewrite EA in Ha. rewrite EB in Hb. injection Ha as <-. injection Hb as <-.
  assert (Hi' : i < tlen t) by (unfold tlen in *; rewrite Ht, zip_len_eq; lia).
  destruct (tgetitem_nonneg t i Hi') as (C & HC & EC).
  assert (C = m4mul A B).
  { rewrite Ht in HC. clear - HA HB HC. revert i HA HB HC. generalize (tm t1) (tm t2). intros l1. induction l1 as [|x r IH]; intros [|y r2] [|i]; cbn [nth_error zip_with]; try discriminate.
    - intros E1 E2 E3. congruence.
    - apply IH. }
  subst C. exists (mkT KBase [m4mul A B]). split; [exact EC|]. rewrite compose1. cbn [tm]. rewrite bb_l. reflexivity.
Qed.
(** rows of the transformed points *)
Lemma points_row t b out i x : length b = tlen t -> transform_points t None (T3 b) = Ok (T3 out) -> nth_error b i = Some x ->
  exists g y, getitem t (IInt (Z.of_nat i)) = Ok g /\ nth_error out i = Some y /\ transform_points g None (T2 x) = Ok (T2 y).
Proof.
  intros Hl H Hx.
  assert (Hi : i < tlen t) by (rewrite <- Hl; apply nth_error_Some; congruence).
  destruct (tgetitem_nonneg t i Hi) as (A & HA & EA). cbn [getitem]. exists (mkT KBase [A]), (map (act A) x).
  split; [exact EA|]. split.
  - unfold transform_points in H. rewrite bb_eq in H by (rewrite map_length; exact Hl). cbn [rbind unwrap] in H.
    assert (Ho : out = map (map (dehom None)) (zip_with (fun ps M => map (fun q => v4row (hom q) M) ps) b (map m4tr (tm t)))) by
      (apply (f_equal (fun r => match r with Ok (T3 o) => o | _ => [] end)) in H; symmetry; exact H).
    rewrite Ho. clear - Hx HA. revert i Hx HA. generalize (tm t). induction b as [|y r IH]; intros [|M l] [|i]; cbn [nth_error zip_with map]; try discriminate.
    + intros E1 E2. injection E1 as ->. injection E2 as ->. f_equal. rewrite map_map. apply map_ext. intros q. rewrite v4row_tr. reflexivity.
    + intros E1 E2. apply (IH l i E1 E2).
  - rewrite points_2d. cbn [tm map]. reflexivity.
Qed.
(** splitting and stacking *)
Lemma split_stack t k a b : getitem t (ISlice None (Some (Z.of_nat k)) None) = Ok a ->
  getitem t (ISlice (Some (Z.of_nat k)) None None) = Ok b -> tm (stack a [b]) = tm t /\ tlen a + tlen b = tlen t.
Proof.
  cbn [getitem]. destruct (py_slice_split (tm t) k) as [-> ->]. cbn [rbind]. intros Ha Hb. injection Ha as <-. injection Hb as <-.
  unfold stack, tlen. cbn [tm map concat]. rewrite app_nil_r, firstn_skipn. split; [reflexivity|].
  rewrite <- app_length, firstn_skipn. reflexivity.
Qed.
