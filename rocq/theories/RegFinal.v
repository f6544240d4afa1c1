(** Last steps of the proofs quoted in Properties_Reg.v. *)
From Coq Require Import String Ascii Bool Arith Lia List DecimalString DecimalNat.
From Verif Require Import Prelude XmlModel XmlSchema RegModel RegDecl SpecReg RegProofs.
Import ListNotations.
Local Open Scope string_scope.
Local Open Scope list_scope.

Lemma vector_prefix n : String.prefix "vector" n = true <-> exists d, n = ("vector" ++ d)%string.
Proof.
  split.
  - intros H. do 6 (destruct n as [|? n]; [discriminate|]; cbn [String.prefix] in H;
      match type of H with context [ascii_dec ?a ?b] => destruct (ascii_dec a b); [subst|discriminate] end).
    exists n. reflexivity.
  - intros (d & ->). cbn. destruct d; reflexivity.
Qed.
Lemma substring_all d : substring 0 (String.length d) d = d.
Proof. induction d as [|c d IH]; cbn; [reflexivity|]. now rewrite IH. Qed.
Lemma vector_rest d : substring 6 (String.length ("vector" ++ d) - 6) ("vector" ++ d) = d.
Proof. cbn. rewrite Nat.sub_0_r. apply substring_all. Qed.
Lemma nodot_vector d : nodot d -> nodot ("vector" ++ d)%string.
Proof. unfold nodot. rewrite chars_app. intros H K. apply in_app_or in K. destruct K as [K|K]; [|contradiction]. cbn in K. intuition discriminate. Qed.

Section Make.
Context {C : Type}.
Variable pc : string -> option C.
Variable obj : nat -> rtype C.
Lemma make_vector d : make_type pc obj (KStr ("vector" ++ d)) =
  match d with "" => inl (RVec None) | _ => match pc d with Some n => inl (RVec (Some n)) | None => inr (XPy ValueError) end end.
Proof.
  cbn [make_type]. rewrite (proj2 (vector_prefix _)) by eauto. rewrite vector_rest. destruct d; reflexivity.
Qed.
Lemma make_bad k x : make_type pc obj k = inr x <-> bad pc k x.
Proof.
  split.
  - destruct k; cbn [make_type]; try discriminate.
    + destruct (String.prefix "vector" s) eqn:E.
      * apply vector_prefix in E. destruct E as (d & ->). rewrite vector_rest. destruct d as [|a d]; [discriminate|].
        destruct (pc (String a d)) eqn:P; [discriminate|]. intros H. assert (x = XPy ValueError) by congruence. subst x. constructor; [discriminate|assumption].
      * intros H. assert (x = XExc) by congruence. subst x. constructor. intros d ->. rewrite (proj2 (vector_prefix _)) in E by eauto. discriminate.
    + intros H. assert (x = XExc) by congruence. subst x. constructor.
    + intros H. assert (x = XPy TypeError) by congruence. subst x. constructor.
  - intros H. destruct H as [n Hn|d Hd Hp|c|i]; try reflexivity.
    + cbn [make_type]. destruct (String.prefix "vector" n) eqn:E; [|reflexivity].
      apply vector_prefix in E. destruct E as (d & ->). destruct (Hn d eq_refl).
    + rewrite make_vector, Hp. destruct d; [contradiction|reflexivity].
Qed.
End Make.

(** deciding whether statements are plain *)
Definition nodotb (s : string) : bool := forallb (fun c => negb (Ascii.eqb c "."%char)) (list_ascii_of_string s).
Lemma nodotb_ok s : nodotb s = true -> nodot s.
Proof.
  intros H K. unfold nodotb in H. rewrite forallb_forall in H. apply H in K. rewrite Ascii.eqb_refl in K. discriminate.
Qed.
Definition keyb (k : key) : bool := match k with KStr s => nodotb s | _ => true end.
Lemma keyb_ok k : keyb k = true -> key_nodot k.
Proof. destruct k; cbn; auto. apply nodotb_ok. Qed.
Section Plainb.
Context {C V : Type}.
Definition plainb (s : stmt C V) : bool :=
  match s with
  | SStart _ | SEnd => false
  | SAdd (KStr n) (ESimple _ t) => nodotb n && keyb t
  | SAdd (KStr n) (EVal _) => nodotb n
  | SAdd _ _ => false
  | SGet k => keyb k
  | SLet _ p => keyb (pexp_key p)
  | SReflect _ _ ps => forallb (fun p => match p with inl _ => true | inr p => keyb (pexp_key p) end) ps
  | SSub _ _ => true
  end.
Lemma plainb_ok s : plainb s = true -> plain s.
Proof.
  destruct s as [ns| |[] []|k|x p|c t ps|c d]; cbn [plainb plain]; try discriminate; auto using nodotb_ok, keyb_ok.
  - intros H. apply andb_prop in H. destruct H. auto using nodotb_ok, keyb_ok.
  - intros H. rewrite forallb_forall in H. apply Forall_forall. intros [y|p] Hp; [exact I|]. apply H in Hp. now apply keyb_ok.
Qed.
Lemma plains l : forallb plainb l = true -> Forall plain l.
Proof. intros H. rewrite forallb_forall in H. apply Forall_forall. intros s Hs. now apply plainb_ok, H. Qed.
Lemma tidys l : forallb (fun s => match s with SStart _ | SEnd => true | s => plainb s end) l = true -> Forall tidy l.
Proof.
  intros H. rewrite forallb_forall in H. apply Forall_forall. intros s Hs. apply H in Hs. destruct s; try exact I; apply plainb_ok; exact Hs.
Qed.
Definition addsb (n : string) (s : stmt C V) : bool := match s with SAdd (KStr m) _ => String.eqb m n | _ => false end.
Lemma no_adds n l : existsb (addsb n) l = false -> forall s, In s l -> ~ adds n s.
Proof.
  intros H s Hs Ha. assert (K : existsb (addsb n) l = true); [|congruence]. apply existsb_exists. exists s. split; [assumption|].
  destruct s as [| |[] ?| | | |]; cbn in *; try contradiction. subst. apply String.eqb_refl.
Qed.
End Plainb.
Lemma bodies_plain {Num} (zero : Num) : Forall plain (urdf_body zero) /\ Forall plain (sdf_body (Num := Num)).
Proof. split; apply plains; vm_compute; reflexivity. Qed.
(** a global type of the name "pose", used in the namespace "a" and then shadowed there *)
Definition shadowing : list (stmt nat unit) := [SAdd (KStr "pose") (EVal RRaw); SStart "a"].
(** counts in decimal notation *)
Lemma digits_acc d : forall n, digits_loop (NilEmpty.string_of_uint d) n = Some (Nat.of_uint_acc d n).
Proof.
  induction d; intros n; [reflexivity|..].
  - change (digits_loop (NilEmpty.string_of_uint d) (10 * n + 0) = Some (Nat.of_uint_acc d (Nat.tail_mul 10 n))). rewrite IHd, Nat.tail_mul_spec. do 2 f_equal. lia.
  - change (digits_loop (NilEmpty.string_of_uint d) (10 * n + 1) = Some (Nat.of_uint_acc d (S (Nat.tail_mul 10 n)))). rewrite IHd, Nat.tail_mul_spec. do 2 f_equal. lia.
  - change (digits_loop (NilEmpty.string_of_uint d) (10 * n + 2) = Some (Nat.of_uint_acc d (S (S (Nat.tail_mul 10 n))))). rewrite IHd, Nat.tail_mul_spec. do 2 f_equal. lia.
  - change (digits_loop (NilEmpty.string_of_uint d) (10 * n + 3) = Some (Nat.of_uint_acc d (S (S (S (Nat.tail_mul 10 n)))))). rewrite IHd, Nat.tail_mul_spec. do 2 f_equal. lia.
  - change (digits_loop (NilEmpty.string_of_uint d) (10 * n + 4) = Some (Nat.of_uint_acc d (S (S (S (S (Nat.tail_mul 10 n))))))). rewrite IHd, Nat.tail_mul_spec. do 2 f_equal. lia.
  - change (digits_loop (NilEmpty.string_of_uint d) (10 * n + 5) = Some (Nat.of_uint_acc d (S (S (S (S (S (Nat.tail_mul 10 n)))))))). rewrite IHd, Nat.tail_mul_spec. do 2 f_equal. lia.
  - change (digits_loop (NilEmpty.string_of_uint d) (10 * n + 6) = Some (Nat.of_uint_acc d (S (S (S (S (S (S (Nat.tail_mul 10 n))))))))). rewrite IHd, Nat.tail_mul_spec. do 2 f_equal. lia.
  - change (digits_loop (NilEmpty.string_of_uint d) (10 * n + 7) = Some (Nat.of_uint_acc d (S (S (S (S (S (S (S (Nat.tail_mul 10 n)))))))))). rewrite IHd, Nat.tail_mul_spec. do 2 f_equal. lia.
  - change (digits_loop (NilEmpty.string_of_uint d) (10 * n + 8) = Some (Nat.of_uint_acc d (S (S (S (S (S (S (S (S (Nat.tail_mul 10 n))))))))))). rewrite IHd, Nat.tail_mul_spec. do 2 f_equal. lia.
  - change (digits_loop (NilEmpty.string_of_uint d) (10 * n + 9) = Some (Nat.of_uint_acc d (S (S (S (S (S (S (S (S (S (Nat.tail_mul 10 n)))))))))))). rewrite IHd, Nat.tail_mul_spec. do 2 f_equal. lia.
Qed.
Lemma digits_dec n : digits (NilZero.string_of_uint (Nat.to_uint n)) = Some n.
Proof.
  assert (H : Nat.to_uint n <> Decimal.Nil).
  { intros H. pose proof (Unsigned.of_to n) as K. rewrite H in K. cbn in K. subst n. discriminate. }
  transitivity (digits_loop (NilEmpty.string_of_uint (Nat.to_uint n)) 0).
  - destruct (Nat.to_uint n) eqn:E; try contradiction; reflexivity.
  - rewrite digits_acc. f_equal. exact (Unsigned.of_to n).
Qed.
Lemma dec_ne d : NilZero.string_of_uint d <> "".
Proof. destruct d; discriminate. Qed.
Lemma dec_nodot d : nodot (NilZero.string_of_uint d).
Proof.
  assert (K : forall d, nodot (NilEmpty.string_of_uint d)).
  { unfold nodot. induction d0; cbn; [intros []|..]; intros [H|H]; try discriminate; apply IHd0, H. }
  destruct d; try exact (K _). unfold nodot. cbn. intros [H|[]]. discriminate.
Qed.


Lemma l71_schema : forall (Num : Type) (zero : Num),
  let run ms := imports digits raw_obj (core_body :: ms) reg0 in
  (exists r, run [urdf_module zero; sdf_module] =
     (r, inl [[]; map of_class (urdf_classes zero); map of_class (sdf_classes zero)]) /\ rg_prefix r = "") /\
  (exists r, run [sdf_module; urdf_module zero] =
     (r, inl [[]; map of_class (sdf_classes zero); map of_class (urdf_classes zero)]) /\ rg_prefix r = "").
Proof. intros Num zero run. unfold run. split; eexists; (split; [vm_compute; reflexivity|reflexivity]). Qed.

Lemma l71_apart : forall (C V : Type) (pc : string -> option C) obj p q (l m : list (stmt C V)) e1 r e r1,
  p <> q -> Forall plain l -> Forall plain m ->
  exec pc obj (within p l) e1 r = (r1, inl e) ->
  (forall f, snd (exec pc obj (within q m) f r1) = snd (exec pc obj (within q m) f r)) /\
  (forall k, key_nodot k ->
     snd (get_type pc obj k (start_namespace q r1)) = snd (get_type pc obj k (start_namespace q r)) /\
     snd (get_type pc obj k (end_namespace r1)) = snd (get_type pc obj k (end_namespace r))).
Proof.
  intros C V pc obj p q l m e1 r e r1 Hpq Hl Hm H. split; [exact (modules_apart pc obj p q l m e r e1 r1 Hpq Hl Hm H)|].
  rewrite exec_within in H.
  assert (U : forall x, okpre x -> (p ++ ".")%string <> x ->
    unseen pc obj x (mkReg (rg_types r) (p ++ ".")) (exec pc obj l e1 (mkReg (rg_types r) (p ++ ".")))).
  { intros x Hx Hn. apply exec_unseen; cbn [rg_prefix]; auto using okpre_ns, ns_nonempty. }
  destruct (exec pc obj l e1 _) as [r2 [e2|x2]]; [|discriminate].
  assert (E : r1 = mkReg (rg_types r2) "") by congruence. subst r1. intros k Hk. unfold start_namespace, end_namespace. cbn [rg_types]. split.
  - apply (get_same pc obj (q ++ ".")); [|assumption]. split; [reflexivity|split; [reflexivity|]]. cbn [rg_types]. apply eqv_sym.
    apply (U (q ++ ".")%string (okpre_ns q)). intros K. apply ns_inj in K. contradiction.
  - apply (get_same pc obj ""); [|assumption]. split; [reflexivity|split; [reflexivity|]]. cbn [rg_types]. apply eqv_sym.
    apply (U "" okpre_nil). apply ns_nonempty.
Qed.

Lemma l71_stable : forall (C V : Type) (pc : string -> option C) obj (l : list (stmt C V)) e r r1 k v,
  get_type pc obj k r = (r1, inl v) ->
  match k with
  | KStr n => (rg_prefix r = "" \/ exists ns, rg_prefix r = (ns ++ ".")%string) -> nodot n -> Forall tidy l -> (forall s, In s l -> ~ adds n s) ->
              snd (get_type pc obj k (mkReg (rg_types (fst (exec pc obj l e r1))) (rg_prefix r))) = inl v
  | k => snd (get_type pc obj k (fst (exec pc obj l e r1))) = inl v
  end.
Proof.
  intros C V pc obj l e r r1 k v H. pose proof (exec_grows (V := V) pc obj l e r1) as G.
  assert (O : is_str k = false -> snd (get_type pc obj k (fst (exec pc obj l e r1))) = inl v).
  { intros Hk. rewrite get_other_key in H by assumption. rewrite get_other_key by assumption. cbn [snd].
    assert (Hv : resolved pc obj (rg_types r) k = inl v) by congruence.
    assert (Hr : dget key_eqb k (rg_types r1) = Some v).
    { assert (E : r1 = fst (r1, @inl (rtype C) xexn v)) by reflexivity. rewrite E, <- H. cbn [fst rg_types]. unfold resolved in Hv.
      destruct (dget key_eqb k (rg_types r)) eqn:L; [congruence|]. rewrite Hv. apply (dget_dset_same _ key_eqb_eq). }
    unfold resolved. now rewrite (G k v Hr). }
  destruct k; try (apply O; reflexivity).
  intros Hp Hn Hl Ha. rewrite get_str in H. rewrite get_str. unfold found in *. cbn [rg_types rg_prefix].
  destruct (dget key_eqb (KStr (rg_prefix r ++ s)) (rg_types r)) eqn:L.
  - assert (r1 = r /\ r0 = v) as [-> ->] by (split; congruence). rewrite (G _ _ L). reflexivity.
  - destruct (dget key_eqb (KStr s) (rg_types r)) eqn:L'.
    + assert (r1 = r /\ r0 = v) as [-> ->] by (split; congruence).
      destruct (global_stays (V := V) pc obj l e r (rg_prefix r) s v Hl Ha Hp Hp Hn L' L) as [H1 H2]. now rewrite H2, H1.
    + destruct (make_type pc obj (KStr s)) as [w|x] eqn:M; [|discriminate].
      assert (E : r1 = mkReg (dset key_eqb (KStr (rg_prefix r ++ s)) w (rg_types r)) (rg_prefix r)) by congruence.
      assert (w = v) by congruence. subst w r1. cbn [rg_types] in G.
      rewrite (G _ _ (dget_dset_same _ key_eqb_eq (KStr (rg_prefix r ++ s)) v (rg_types r))). reflexivity.
Qed.

Lemma l71_shadow_refuted : exists (l : list (stmt nat unit)) r r1 n v w,
  get_type digits raw_obj (KStr n) r = (r1, inl v) /\ Forall tidy l /\ nodot n /\ rg_prefix (fst (exec digits raw_obj l env0 r1)) = rg_prefix r /\
  snd (get_type digits raw_obj (KStr n) (fst (exec digits raw_obj l env0 r1))) = inl w /\ w <> v.
Proof.
  exists [SAdd (KStr "pose") (EVal RStr)], (fst (exec digits raw_obj shadowing env0 reg0)). eexists. exists "pose", RRaw, RStr.
  split; [reflexivity|]. split; [apply tidys; vm_compute; reflexivity|].
  split; [apply nodotb_ok; reflexivity|]. split; [reflexivity|]. split; [reflexivity|discriminate].
Qed.

Lemma l71_errors : forall (C : Type) (pc : string -> option C) obj (r : registry C) k,
  (forall x, snd (get_type pc obj k r) = inr x <->
     bad pc k x /\ dget key_eqb (full r k) (rg_types r) = None /\ dget key_eqb k (rg_types r) = None) /\
  (forall x, snd (get_type pc obj k r) = inr x -> fst (get_type pc obj k r) = r) /\
  (forall v x, snd (add_type k v r) = inr x <-> x = XPy AssertionError /\ exists w, dget key_eqb (full r k) (rg_types r) = Some w) /\
  (forall v x, snd (add_type k v r) = inr x -> fst (add_type k v r) = r) /\
  (forall v, snd (add_type k v r) = inl tt -> snd (get_type pc obj k (fst (add_type k v r))) = inl v).
Proof.
  intros C pc obj r k. split; [|split; [|split; [|split]]].
  - intros x. rewrite <- (make_bad pc obj k x). destruct (is_str k) eqn:Es.
    + destruct k; try discriminate. cbn [full]. rewrite get_str. unfold found.
      destruct (dget key_eqb (KStr (rg_prefix r ++ s)) (rg_types r)) eqn:L; [cbn; split; [discriminate|intuition discriminate]|].
      destruct (dget key_eqb (KStr s) (rg_types r)) eqn:L'; [cbn; split; [discriminate|intuition discriminate]|].
      destruct (make_type pc obj (KStr s)); cbn; split; [discriminate|intuition discriminate|auto|tauto].
    + rewrite full_other by assumption. rewrite get_other_key by assumption. cbn [snd]. unfold resolved.
      destruct (dget key_eqb k (rg_types r)); [split; [discriminate|intuition discriminate]|tauto].
  - intros x. destruct (is_str k) eqn:Es.
    + destruct k; try discriminate. rewrite get_str. destruct (found s r); [discriminate|].
      destruct (make_type pc obj (KStr s)); [discriminate|reflexivity].
    + rewrite get_other_key by assumption. cbn [snd fst]. unfold resolved. destruct r as [t p]. cbn [rg_types rg_prefix].
      destruct (dget key_eqb k t); [discriminate|]. intros ->. reflexivity.
  - intros v x. unfold add_type. destruct (dget key_eqb (full r k) (rg_types r)); cbn [snd].
    + split; [intros H; split; [congruence|eauto]|intros [-> _]; reflexivity].
    + split; [discriminate|intros (_ & w & Hw); discriminate].
  - intros v x. unfold add_type. destruct (dget key_eqb (full r k) (rg_types r)); cbn [snd fst]; [reflexivity|discriminate].
  - intros v. unfold add_type. destruct (dget key_eqb (full r k) (rg_types r)) eqn:L; cbn [snd fst]; [discriminate|]. intros _.
    destruct (is_str k) eqn:Es.
    + destruct k; try discriminate. cbn [full] in *. rewrite get_str. unfold found. cbn [rg_types rg_prefix].
      now rewrite (dget_dset_same _ key_eqb_eq).
    + rewrite get_other_key by assumption. cbn [snd rg_types]. rewrite full_other by assumption. unfold resolved.
      now rewrite (dget_dset_same _ key_eqb_eq).
Qed.

Lemma l71_resolve : forall (C V : Type) (pc : string -> option C) obj (l : list (stmt C V)) e, Forall tidy l ->
  let r := fst (exec pc obj l e reg0) in
  (forall c, snd (get_type pc obj (KClass c) r) = inl (RObj c)) /\
  snd (get_type pc obj KPyStr r) = inl RStr /\ snd (get_type pc obj KPyFloat r) = inl RFloat /\ snd (get_type pc obj KPyBool r) = inl RBool /\
  snd (get_type pc obj KPyList r) = inl RList /\ (forall i, snd (get_type pc obj (KVal i) r) = inl (obj i)) /\
  (forall d n, d <> "" -> nodot d -> pc d = Some n -> (forall s, In s l -> ~ adds ("vector" ++ d) s) ->
     snd (get_type pc obj (KStr ("vector" ++ d)) r) = inl (RVec (Some n))) /\
  ((forall s, In s l -> ~ adds "vector" s) -> snd (get_type pc obj (KStr "vector") r) = inl (RVec None)).
Proof.
  intros C V pc obj l e Hl r. unfold r.
  split; [intros c; now rewrite made_other|]. do 4 (split; [now rewrite made_other|]). split; [intros i; now rewrite made_other|].
  split.
  - intros d n Hd Hn Hp Ha. rewrite made_name; auto using nodot_vector. rewrite make_vector, Hp. destruct d; [contradiction|reflexivity].
  - intros Ha. rewrite made_name; auto. apply nodotb_ok. reflexivity.
Qed.

Lemma l71_vector : forall (V : Type) obj (l : list (stmt nat V)) e n, Forall tidy l ->
  (forall s, In s l -> ~ adds ("vector" ++ NilZero.string_of_uint (Nat.to_uint n)) s) ->
  snd (get_type digits obj (KStr ("vector" ++ NilZero.string_of_uint (Nat.to_uint n))) (fst (exec digits obj l e reg0))) = inl (RVec (Some n)).
Proof.
  intros V obj l e n Hl Ha. destruct (l71_resolve nat V digits obj l e Hl) as (_ & _ & _ & _ & _ & _ & H & _).
  apply H; auto using dec_ne, dec_nodot, digits_dec.
Qed.

Lemma l71_dotted_refuted :
  (exists r, snd (imports digits raw_obj [core_body; urdf_module 0] reg0) <> inr XExc /\ r = fst (imports digits raw_obj [core_body; urdf_module 0] reg0) /\
     snd (get_type digits raw_obj (KStr "urdf.geometric") (start_namespace "sdf" r)) = inl (of_vtype urdf_geometric)) /\
  (exists (l m : list (stmt nat unit)) e r1, exec digits raw_obj (within "a" l) env0 reg0 = (r1, inl e) /\
     (exists f r2, exec digits raw_obj (within "a.b" m) env0 reg0 = (r2, inl f)) /\
     snd (exec digits raw_obj (within "a.b" m) env0 r1) = inr (XPy AssertionError)).
Proof.
  split.
  - eexists. split; [|split; [reflexivity|vm_compute; reflexivity]]. vm_compute. discriminate.
  - exists [SAdd (KStr "b.c") (EVal RRaw)], [SAdd (KStr "c") (EVal RStr)]. eexists. eexists. split; [reflexivity|].
    split; [eexists; eexists; reflexivity|reflexivity].
Qed.

Lemma l71_nesting_refuted : exists (l : list (stmt nat unit)) e r,
  exec digits raw_obj (SStart "a" :: SAdd (KStr "pose") (EVal RRaw) :: within "b" l) env0 reg0 = (r, inl e) /\
  snd (get_type digits raw_obj (KStr "pose") r) = inr XExc /\ snd (get_type digits raw_obj (KStr "pose") (start_namespace "a" r)) = inl RRaw.
Proof. exists []. eexists. eexists. split; [reflexivity|]. split; reflexivity. Qed.

Lemma l71_failed_import_refuted : exists (l : list (stmt nat unit)) r x r',
  exec digits raw_obj (within "a" l) env0 reg0 = (r, inr x) /\ rg_prefix r = "a." /\
  fst (add_type (KStr "pose") RRaw r) = r' /\ snd (add_type (KStr "pose") RRaw r) = inl tt /\
  snd (get_type digits raw_obj (KStr "pose") (end_namespace r')) = inr XExc.
Proof. exists [SGet (KStr "nonsense")]. eexists. eexists. eexists. repeat split; reflexivity. Qed.
