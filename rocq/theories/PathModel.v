(** Where an error is reported: urdf_parser_py/xml_reflection/core.py with its [Path] objects.

    The reader of [XmlModel] once more, with the [path] argument that its functions pass on.  A path is a list of steps, the element
    itself first; the suffix of a step is a list of predicates.  [Path] objects are shared: reading an attribute [name] changes the
    suffix of the path in place (core.py:497-498), so a computation takes a path and returns what became of it.  The [tree] of a path
    is never used. *)
From Coq Require Import String Ascii Bool Arith List Decimal DecimalString.
From Verif Require Import Prelude XmlModel.
Import ListNotations.
Local Open Scope string_scope.
Local Open Scope list_scope.

(** [[n]], [[@name='v']], [[@a]] *)
Inductive pred := PIndex (n : nat) | PNamed (v : string) | PHas (a : string).
Definition step : Type := string * list pred.
Definition path : Type := list step.

(** core.py:475, 484, 498 *)
Definition pred_str (d : pred) : string :=
  match d with
  | PIndex n => "[" ++ NilEmpty.string_of_uint (Nat.to_uint n) ++ "]"
  | PNamed v => "[@name='" ++ v ++ "']"
  | PHas a => "[@" ++ a ++ "]"
  end%string.
Definition suffix_str (s : list pred) : string := String.concat "" (map pred_str s).
(** core.py:111-118 [Path.__str__] *)
Fixpoint path_str (p : path) : string :=
  match p with
  | [] => ""
  | [(t, s)] => if String.eqb t "" then suffix_str s else ("/" ++ t ++ suffix_str s)%string
  | (t, s) :: r => (path_str r ++ "/" ++ t ++ suffix_str s)%string
  end.
(** [path.suffix = s] *)
Definition set_suffix (s : list pred) (p : path) : path := match p with (t, _) :: r => (t, s) :: r | [] => [] end.
(** core.py:473-476 [get_attr_path]: a copy with a longer suffix *)
Definition add_has (a : string) (p : path) : path := match p with (t, s) :: r => (t, s ++ [PHas a]) :: r | [] => [] end.

(** ** Errors and messages *)
(** [EAt]: a [ParseError] with its path (core.py:121-126) and what it wraps: the exception of an attribute's value, a required
    parameter that is missing, the exception of [check_valid], or the failure of all alternatives with the one error its message
    shows.  [ERaw]: any other exception. *)
Inductive cause := CValue (e : xexn) | CMissing (k : pkind) (name : string) | CCheck (e : xexn) | CNone (shown : option perr)
with perr := EAt (p : path) (c : cause) | ERaw (e : xexn).
(** a message, and the path it names *)
Definition pwarn : Type := warning * option path.
(** the messages, the path as it is afterwards, and a result or an exception *)
Record out (A : Type) := mkOut { o_warn : list pwarn; o_path : path; o_res : A + perr }.
Arguments mkOut {A}. Arguments o_warn {A}. Arguments o_path {A}. Arguments o_res {A}.
Definition pm (A : Type) : Type := path -> out A.
Definition pret {A} (a : A) : pm A := fun p => mkOut [] p (inl a).
Definition praise {A} (f : path -> perr) : pm A := fun p => mkOut [] p (inr (f p)).
Definition pbind {A B} (x : pm A) (f : A -> pm B) : pm B := fun p =>
  let o := x p in
  match o_res o with
  | inl a => let o2 := f a (o_path o) in mkOut (o_warn o ++ o_warn o2) (o_path o2) (o_res o2)
  | inr e => mkOut (o_warn o) (o_path o) (inr e)
  end.
Notation "'let?' x := e 'in' f" := (pbind e (fun x => f)) (at level 200, x binder, e at level 100, f at level 200).
Fixpoint pfold {A B} (f : A -> B -> pm A) (l : list B) (a : A) : pm A :=
  match l with [] => pret a | b :: l => let? a := f a b in pfold f l a end.
(** what does not depend on the path; [g] wraps its exceptions *)
Definition plain {A} (g : path -> xexn -> perr) (x : xr A) : pm A := fun p =>
  mkOut (map (fun w => (w, None)) (fst x)) p (match snd x with inl a => inl a | inr e => inr (g p e) end).
Definition raw {A} : xr A -> pm A := plain (fun _ => ERaw).
Definition pwarn_at (w : warning) : pm unit := fun p => mkOut [(w, Some p)] p (inl tt).
Definition rename (s : list pred) : pm unit := fun p => mkOut [] (set_suffix s p) (inl tt).
(** a computation with a path of its own, made from the current one *)
Definition below {A} (f : path -> path) (x : pm A) : pm A := fun p => let o := x (f p) in mkOut (o_warn o) p (o_res o).

Section Path.
Context {Num : Type}.
Variable pf : string -> option Num.
Variable classes : string -> option (class Num).
Notation value := (value Num).
Notation param := (param Num).
Notation fields := (@fields Num).

(** a child element: its tag, and how to read it *)
Definition pkid : Type := string * (vtype -> pm value).

(** core.py:489-504.  The new suffix shows the value of the field; every parameter [name] in the schemas holds a string. *)
Definition pattr_step (ps : list param) (fs : fields) (av : string * string) : pm fields :=
  match find_attr ps (fst av) with
  | Some p =>
      let? v := plain (fun q e => EAt (add_has (pr_xml p) q) (CValue e)) (from_string pf (pr_type p) (Some (snd av))) in
      let? _ := if String.eqb (pr_xml p) "name" then rename [PNamed (match v with VStr s => s | _ => snd av end)] else pret tt in
      pret (dset String.eqb (pr_var p) v fs)
  | None => pret fs
  end.
(** core.py:478-485 [get_element_path] and 507-521 *)
Definition pkid_step (ps : list param) (st : @rstate Num) (k : pkid) : pm rstate :=
  let '(fs, order, unset) := st in
  match find_elem ps (fst k) with
  | None => pret st
  | Some p =>
      if is_kind PAggregate p then
        let? l := raw (agg_list fs p) in
        let? v := below (fun q => (pr_xml p, [PIndex (1 + length l)]) :: q) (snd k (pr_type p)) in
        pret (dset String.eqb (pr_var p) (VList (l ++ [v])) fs, order ++ [(fst k, v)], unset)
      else if existsb (String.eqb (fst k)) unset then
        let? v := below (fun q => (pr_xml p, []) :: q) (snd k (pr_type p)) in
        pret (dset String.eqb (pr_var p) v fs, order, filter (fun t => negb (String.eqb (fst k) t)) unset)
      else let? _ := raw (warn (WTwice (fst k))) in pret st
  end.
(** core.py:314-318 and 527-541 *)
Definition pdefault_step (fs : fields) (p : param) : pm fields :=
  if pr_req p then praise (fun q => EAt q (CMissing (pr_kind p) (pr_xml p))) else pret (dset String.eqb (pr_var p) (pr_default p) fs).
(** core.py:460-549 and 598-606 *)
Definition pread_obj (cname : string) (attrs : dict string string) (ks : list pkid) : pm value :=
  match classes cname with
  | None => raw (fail XExc)
  | Some c =>
      let ps := cl_params c in
      let? fs := pfold (pattr_step ps) attrs (cl_init c) in
      let? st := pfold (pkid_step ps) ks (fs, [], map pr_xml (filter (is_kind PElement) ps)) in
      let '(fs, order, unset) := st in
      let? fs := pfold pdefault_step (filter (fun p => is_kind PAttribute p && negb (existsb (String.eqb (pr_xml p)) (map fst attrs))) ps) fs in
      let? fs := pfold pdefault_step (filter (fun p => is_kind PElement p && existsb (String.eqb (pr_xml p)) unset) ps) fs in
      let? _ := pfold (fun _ a => pwarn_at (WAttr a)) (filter (fun a => match find_attr ps a with None => true | Some _ => false end) (map fst attrs)) tt in
      let? _ := pfold (fun _ t => pwarn_at (WTag t)) (filter (fun t => match find_elem ps t with None => true | Some _ => false end) (map fst ks)) tt in
      let? _ := plain (fun q e => EAt q (CCheck e)) (cl_check c fs) in
      pret (VObj cname fs order)
  end.
(** core.py:272-283: the path as the attempts left it; the [raise] stands inside the loop over the errors, so its message only has the
    first of them *)
Fixpoint pduck (cs : list string) (attrs : dict string string) (ks : list pkid) (first : option perr) : pm value :=
  match cs with
  | [] => praise (fun q => EAt q (CNone first))
  | c :: cs => fun p =>
      let o := pread_obj c attrs ks p in
      match o_res o with
      | inl v => o
      | inr e => let o2 := pduck cs attrs ks (match first with Some f => Some f | None => Some e end) (o_path o) in
                 mkOut (o_warn o ++ o_warn o2) (o_path o2) (o_res o2)
      end
  end.
(** core.py:132-133, 194-195, 217-219, 230-233, 248-253, 272-283 and urdf.py:146-149, sdf.py:105-108: the child of a geometry is read
    with the path of the geometry *)
Definition pinterp (n : node) (attrs : dict string string) (text : option string) (ks : list pkid) (t : vtype) : pm value :=
  match t with
  | TRaw => pret (VRaw n)
  | TSimple a t => raw (from_string pf t (dget String.eqb a attrs))
  | TObj c => pread_obj c attrs ks
  | TGeom tab => match ks with
                 | [k] => let? c := raw (xopt XExc (dget String.eqb (fst k) tab)) in snd k (TObj c)
                 | _ => raw (fail (XPy AssertionError))
                 end
  | TDuck cs => pduck cs attrs ks None
  | _ => raw (from_string pf t text)
  end.
Fixpoint pfrom_xml (n : node) : vtype -> pm value :=
  match n with
  | Comment => fun _ => raw (fail XUnmodelled)
  | Node tag attrs text kids =>
      pinterp n attrs text (flat_map (fun c => match c with Comment => [] | Node t _ _ _ => [(t, pfrom_xml c)] end) kids)
  end.
Definition pkids_of (kids : list node) : list pkid :=
  flat_map (fun c => match c with Comment => [] | Node t _ _ _ => [(t, pfrom_xml c)] end) kids.
(** core.py:104-109 and 608-618: the root of the path is the tag of the class *)
Definition root_path (cname : string) : path :=
  match classes cname with
  | Some c => match cl_tag c with Some t => [(t, [])] | None => [("", [])] end
  | None => [("", [])]
  end.
Definition pfrom_doc (cname : string) (n : node) : out value := pfrom_xml n (TObj cname) (root_path cname).
End Path.
