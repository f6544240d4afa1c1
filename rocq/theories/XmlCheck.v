(** Every class of the URDF and the SDF schema satisfies the assumptions of the reading and writing theorems. *)
From Coq Require Import String Ascii Bool Arith Lia List.
From Verif Require Import Prelude XmlModel XmlSchema XmlProofs XmlWrite XmlRead.
Import ListNotations.
Local Open Scope string_scope.
Local Open Scope list_scope.

Fixpoint nodupb (l : list string) : bool :=
  match l with [] => true | x :: l => negb (existsb (String.eqb x) l) && nodupb l end.
Lemma nodupb_ok l : nodupb l = true -> NoDup l.
Proof.
  induction l as [|x l IH]; simpl; intros H; constructor; apply andb_true_iff in H as [H1 H2]; [|auto].
  intros Hc. apply negb_true_iff in H1. assert (E : existsb (String.eqb x) l = true) by (apply existsb_exists; exists x; split; [exact Hc | apply String.eqb_refl]).
  congruence.
Qed.

Section Check.
Context {Num : Type}.
Notation value := (value Num).
Notation param := (param Num).
Notation class := (class Num).
Notation dg := (dget String.eqb).

Section Schemas.
Variable classes : string -> option class.
Definition noneb (v : value) : bool := match v with VNone => true | _ => false end.
Definition basicb (t : vtype) (v : value) : bool :=
  match t, v with
  | TStr, VStr _ | TFloat, VNum _ | TBool, VBool true => true
  | TVec None, VVec _ => true
  | TVec (Some n), VVec l => Nat.eqb (length l) n
  | _, _ => false
  end.
Lemma noneb_ok v : noneb v = true -> v = VNone. Proof. destruct v; (reflexivity || discriminate). Qed.
Lemma basicb_ok t v : basicb t v = true -> basic t v.
Proof.
  destruct t as [| | |[n|]| | | | |], v as [| | |[]| | | |]; simpl; intros H; try discriminate; constructor; simpl; auto.
  apply Nat.eqb_eq, H.
Qed.
Fixpoint duckb (cs : list string) : bool :=
  match cs with
  | [] => true
  | c1 :: r =>
      match classes c1 with
      | None => false
      | Some cl1 =>
          forallb (fun c => match classes c with
                            | None => false
                            | Some cl => existsb (fun p => is_kind PElement p && pr_req p &&
                                           match find_elem (cl_params cl) (pr_xml p) with None => true | _ => false end) (cl_params cl1)
                            end) r && duckb r
      end
  end.
Definition nice_typeb (t : vtype) : bool :=
  match t with
  | TSimple _ t => basic_type t
  | TGeom tab => forallb (fun e => match find (fun e' => String.eqb (snd e') (snd e)) tab with
                                   | Some e' => String.eqb (fst e') (fst e) | None => false end) tab
  | TDuck cs => duckb cs
  | _ => true
  end.
Definition nice_param (c : class) (p : param) : bool :=
  negb (pr_raw p) && nice_typeb (pr_type p) &&
  match pr_kind p with
  | PAttribute => basic_type (pr_type p) && (noneb (pr_default p) || basicb (pr_type p) (pr_default p))
  | PElement => String.eqb (pr_var p) (pr_xml p) && noneb (pr_default p)
  | PAggregate => match dg (pr_var p) (cl_init c) with Some (VList []) => true | _ => false end
  end.
Definition niceb (c : class) : bool :=
  nodupb (map pr_xml (filter (is_kind PAttribute) (cl_params c))) &&
  nodupb (map pr_xml (filter is_elem (cl_params c))) &&
  nodupb (map pr_var (cl_params c)) && nodupb (map fst (cl_init c)) &&
  Nat.leb (length (missing c)) 1 && forallb (nice_param c) (cl_params c).

Lemma niceb_wf c : niceb c = true -> wf_class c.
Proof.
  unfold niceb. rewrite !andb_true_iff. intros [[[[[H1 H2] H3] H4] H5] H6].
  constructor; try (apply nodupb_ok; assumption).
  intros p Hp K. rewrite forallb_forall in H6. specialize (H6 _ Hp). unfold nice_param in H6. rewrite !andb_true_iff in H6.
  destruct H6 as [_ H6]. rewrite K in H6. destruct (dg (pr_var p) (cl_init c)) as [[]|]; try discriminate. destruct l; [reflexivity | discriminate].
Qed.
Hypothesis ALL : forall cname c, classes cname = Some c -> niceb c = true.
Lemma duckb_ok cs : duckb cs = true -> forall cs1 c cs2, cs = cs1 ++ c :: cs2 -> exists cl, classes c = Some cl /\
      forall c1, In c1 cs1 -> exists cl1 p, classes c1 = Some cl1 /\ wf_class cl1 /\ In p (cl_params cl1) /\
        pr_kind p = PElement /\ pr_req p = true /\ find_elem (cl_params cl) (pr_xml p) = None.
Proof.
  induction cs as [|d cs IH]; intros H cs1 c cs2 E; [destruct cs1; discriminate|].
  simpl in H. destruct (classes d) as [cl1|] eqn:Hd; [|discriminate]. apply andb_true_iff in H as [H1 H2].
  destruct cs1 as [|d' cs1]; simpl in E; inversion E; subst.
  - exists cl1. split; [exact Hd | intros ? []].
  - destruct (IH H2 _ _ _ eq_refl) as (cl & Hcl & D). exists cl. split; [exact Hcl|]. intros c1 [<-|Hin]; [|auto].
    rewrite forallb_forall in H1. specialize (H1 c). rewrite Hcl in H1.
    assert (Hin : In c (cs1 ++ c :: cs2)) by (apply in_or_app; right; left; reflexivity). specialize (H1 Hin).
    apply existsb_exists in H1 as (p & Hp & H1). rewrite !andb_true_iff in H1. destruct H1 as [[K R] F].
    exists cl1, p. split; [exact Hd|]. split; [apply niceb_wf; eauto|]. split; [exact Hp|]. split; [apply kind_elem, K|]. split; [exact R|].
    destruct (find_elem (cl_params cl) (pr_xml p)); [discriminate | reflexivity].
Qed.
Lemma nice_typeb_ok t : nice_typeb t = true -> nice_type classes t.
Proof.
  destruct t; simpl; auto.
  - intros H nm c D. rewrite forallb_forall in H. apply (dget_in _ seqb_eq) in D. specialize (H _ D). cbn [fst snd] in H.
    destruct (find (fun e' => String.eqb (snd e') c) tab) as [[a b]|] eqn:F; [|discriminate]. apply String.eqb_eq in H. simpl in H. subst a.
    apply find_some in F as [_ F]. apply String.eqb_eq in F. simpl in F. subst b. reflexivity.
  - apply duckb_ok.
Qed.
Lemma niceb_ok c : niceb c = true -> nice_class classes c.
Proof.
  intros H. pose proof (niceb_wf c H) as W. unfold niceb in H. rewrite !andb_true_iff in H. destruct H as [[[[[H1 H2] H3] H4] H5] H6].
  rewrite forallb_forall in H6. unfold nice_param in H6.
  assert (H : forall p, In p (cl_params c) -> pr_raw p = false /\ nice_typeb (pr_type p) = true /\
    match pr_kind p with
    | PAttribute => basic_type (pr_type p) && (noneb (pr_default p) || basicb (pr_type p) (pr_default p))
    | PElement => String.eqb (pr_var p) (pr_xml p) && noneb (pr_default p)
    | PAggregate => match dg (pr_var p) (cl_init c) with Some (VList []) => true | _ => false end
    end = true).
  { intros p Hp. specialize (H6 p Hp). apply andb_true_iff in H6 as [H6 K]. apply andb_true_iff in H6 as [H6 K2].
    apply negb_true_iff in H6. auto. }
  constructor.
  - constructor; [exact W | apply Nat.leb_le, H5 | |].
    + intros p Hp K. destruct (H p Hp) as (_ & _ & M). rewrite K in M. apply andb_true_iff in M as [M _]. apply String.eqb_eq, M.
    + intros p Hp. apply H, Hp.
  - intros p Hp. apply nice_typeb_ok, H, Hp.
  - intros p Hp K. destruct (H p Hp) as (_ & _ & M). rewrite K in M. apply andb_true_iff in M as [M1 M2]. split; [exact M1|].
    apply orb_true_iff in M2 as [M2|M2]; [left; apply noneb_ok, M2 | right; apply basicb_ok, M2].
  - intros p Hp K. destruct (H p Hp) as (_ & _ & M). rewrite K in M. apply andb_true_iff in M as [_ M]. apply noneb_ok, M.
Qed.
End Schemas.

Theorem schema_nice (zero : Num) cname c : classes zero cname = Some c -> nice_class (classes zero) c.
Proof.
  intros H. eapply niceb_ok; [|].
  - intros n k Hn. assert (A : forallb (fun e => niceb (classes zero) (snd e)) (urdf_classes zero ++ sdf_classes zero) = true) by (vm_compute; reflexivity).
    rewrite forallb_forall in A. unfold classes in Hn at 1. apply (dget_in _ seqb_eq) in Hn. exact (A _ Hn).
  - assert (A : forallb (fun e => niceb (classes zero) (snd e)) (urdf_classes zero ++ sdf_classes zero) = true) by (vm_compute; reflexivity).
    rewrite forallb_forall in A. unfold classes in H at 1. apply (dget_in _ seqb_eq) in H. exact (A _ H).
Qed.
End Check.
