(** What an XML element means, independently of how it is read. *)
From Coq Require Import String Ascii Bool Arith List.
From Verif Require Import Prelude XmlModel.
Import ListNotations.
Local Open Scope string_scope.
Local Open Scope list_scope.

(** ** Words *)
Definition blank (s : string) : Prop := Forall (fun c => is_space c = true) (list_ascii_of_string s).
Definition solid (s : string) : Prop := s <> "" /\ Forall (fun c => is_space c = false) (list_ascii_of_string s).
(** [spaced ws s]: [s] consists of the words [ws] with white space around them *)
Inductive spaced : list string -> string -> Prop :=
| SpEnd s : blank s -> spaced [] s
| SpWord s w ws r : blank s -> solid w -> spaced ws r -> (r = "" \/ exists c t, r = String c t /\ is_space c = true) ->
    spaced (w :: ws) (s ++ w ++ r).

(** ** Children *)
Definition has_tag (t : string) (n : node) : bool := match n with Node t' _ _ _ => String.eqb t' t | Comment => false end.
Definition first_child (t : string) (kids : list node) : option node := find (has_tag t) kids.
Definition children (t : string) (kids : list node) : list node := filter (has_tag t) kids.
Definition elements (kids : list node) : list node := filter (fun n => negb (is_comment n)) kids.

Section Spec.
Context {Num : Type}.
(** [float(s)] *)
Variable pf : string -> option Num.
Notation value := (value Num).
Notation param := (param Num).
Notation class := (class Num).

(** ** Text and attributes as values; [None] is absent text *)
Inductive text_means : vtype -> option string -> value -> Prop :=
| TmStr s : text_means TStr (Some s) (VStr s)
| TmStrNone : text_means TStr None (VStr "None")
| TmNum s x : pf s = Some x -> text_means TFloat (Some s) (VNum x)
| TmTrue s : s <> "" -> text_means TBool (Some s) (VBool true)
| TmFalse : text_means TBool (Some "") (VBool false)
| TmFalseNone : text_means TBool None (VBool false)
| TmVec count s ws l : spaced ws s -> Forall2 (fun w x => pf w = Some x) ws l ->
    match count with Some n => length ws = n | None => True end -> text_means (TVec count) (Some s) (VVec l).

(** ** Fields of an object, given how to read a child *)
Variable read : node -> vtype -> xr value.
Definition field_means (attrs : dict string string) (kids : list node) (p : param) (v : value) : Prop :=
  match pr_kind p with
  | PAttribute =>
      match dget String.eqb (pr_xml p) attrs with
      | Some s => text_means (pr_type p) (Some s) v
      | None => pr_req p = false /\ v = pr_default p
      end
  | PElement =>
      match first_child (pr_xml p) kids with
      | Some n => snd (read n (pr_type p)) = inl v
      | None => pr_req p = false /\ v = pr_default p
      end
  | PAggregate => exists l, v = VList l /\ Forall2 (fun n v => snd (read n (pr_type p)) = inl v) (children (pr_xml p) kids) l
  end.
(** the aggregate a child belongs to *)
Definition aggregate_of (c : class) (n : node) : option param :=
  find (fun p => is_kind PAggregate p && has_tag (pr_xml p) n) (cl_params c).
(** [order] lists the aggregate children in document order *)
Definition order_means (c : class) (kids : list node) (order : list (string * value)) : Prop :=
  Forall2 (fun n o => exists p, aggregate_of c n = Some p /\ fst o = pr_xml p /\ snd (read n (pr_type p)) = inl (snd o))
    (filter (fun n => match aggregate_of c n with Some _ => true | None => false end) kids) order.
(** the names of the fields: those the constructor sets, then those only reading sets *)
Definition field_names (c : class) : list string :=
  map fst (cl_init c) ++ filter (fun x => negb (existsb (String.eqb x) (map fst (cl_init c)))) (map pr_var (cl_params c)).
Definition object_means (c : class) (attrs : dict string string) (kids : list node) (fs : dict string value)
    (order : list (string * value)) : Prop :=
  (forall p, In p (cl_params c) -> exists v, dget String.eqb (pr_var p) fs = Some v /\ field_means attrs kids p v) /\
  (forall x, ~ In x (map pr_var (cl_params c)) -> dget String.eqb x fs = dget String.eqb x (cl_init c)) /\
  map fst fs = field_names c /\ order_means c kids order /\ snd (cl_check c fs) = inl tt.
End Spec.
