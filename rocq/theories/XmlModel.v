(** The XML reflection layer: urdf_parser_py/xml_reflection/core.py.

    Tokenising (lxml) is not modelled: documents are element trees.  Numbers are an abstract type with Python's [float(str)] and
    [str(float)].  Paths only serve error messages and are left out here ([PathModel] has them), as is YAML output.  Parameters carry
    their value type directly; [RegModel] has the type registry ([get_type]) through which the code finds it. *)
From Coq Require Import String Ascii Bool Arith List.
From Verif Require Import Prelude.
Import ListNotations.
Local Open Scope string_scope.
Local Open Scope list_scope.

(** an element: tag, attributes in document order, text before the first child, children; or a comment *)
Inductive node := Node (tag : string) (attrs : dict string string) (text : option string) (kids : list node) | Comment.

(** ** Errors and messages *)
(** [XExc]: a plain [Exception]; [XPy]: a built-in one; [XUnmodelled] marks what the model leaves out: writing values that no schema
    holds (e.g. [str] of a list) *)
Inductive xexn := XParse | XExc | XPy (e : exn) | XUnmodelled.
(** core.py:28-33: what is passed to [on_error]; the default writes to stderr and goes on *)
Inductive warning := WAttr (name : string) | WTag (tag : string) | WTwice (tag : string) | WNoColor.
(** messages so far, and a result or an exception *)
Definition xr (A : Type) : Type := list warning * (A + xexn).
Definition ret {A} (a : A) : xr A := ([], inl a).
Definition fail {A} (e : xexn) : xr A := ([], inr e).
Definition warn (w : warning) : xr unit := ([w], inl tt).
Definition xbind {A B} (x : xr A) (f : A -> xr B) : xr B :=
  match snd x with
  | inl a => (fst x ++ fst (f a), snd (f a))
  | inr e => (fst x, inr e)
  end.
Notation "'let!' x := e 'in' f" := (xbind e (fun x => f)) (at level 200, x binder, e at level 100, f at level 200).
Fixpoint xfold {A B} (f : A -> B -> xr A) (l : list B) (a : A) : xr A :=
  match l with [] => ret a | b :: l => let! a := f a b in xfold f l a end.
Definition xmap_err {A} (g : xexn -> xexn) (x : xr A) : xr A :=
  (fst x, match snd x with inl a => inl a | inr e => inr (g e) end).
Definition xopt {A} (e : xexn) (o : option A) : xr A := match o with Some a => ret a | None => fail e end.
Definition lift {A} (r : res A) : xr A := match r with Ok a => ret a | Err e => fail (XPy e) end.

(** ** Text *)
(** Python's ASCII white space *)
Definition is_space (c : ascii) : bool :=
  let n := nat_of_ascii c in ((9 <=? n) && (n <=? 13) || (28 <=? n) && (n <=? 32))%nat.
(** [s.split()]: the maximal runs of characters that are no white space; [w] is the current run, reversed *)
Fixpoint split_loop (s : list ascii) (w : list ascii) : list (list ascii) :=
  match s with
  | [] => match w with [] => [] | _ => [rev w] end
  | c :: s => if is_space c then match w with [] => split_loop s [] | _ => rev w :: split_loop s [] end
              else split_loop s (c :: w)
  end.
Definition split (s : string) : list string := map string_of_list_ascii (split_loop (list_ascii_of_string s) []).
(** [' '.join(ws)] *)
Definition join (ws : list string) : string := String.concat " " ws.

(** core.py:592-593 [to_xml_string], basics.py:7-12, and parsing the string again: empty text is no text.  The white space that
    [pretty_print] puts between elements is left out. *)
Fixpoint reparse (n : node) : node :=
  match n with
  | Comment => Comment
  | Node t a x ks => Node t a (match x with Some "" => None | x => x end) (map reparse ks)
  end.

Section Xml.
Context {Num : Type}.
(** [float(s)] (ValueError is [None]) and [str(x)] *)
Variable pf : string -> option Num.
Variable sf : Num -> string.

(** ** Values *)
(** What attributes of the parsed objects hold.  An object has a class, its fields, and [aggregate_order] with [aggregate_type]
    (core.py:633-644) as a list of pairs.  [aggregate_type] is a dictionary over objects in the code; objects are compared by identity
    there, so each entry of the order has its own type. *)
Inductive value :=
| VNone | VStr (s : string) | VNum (x : Num) | VBool (b : bool) | VVec (l : list Num) | VRaw (n : node)
| VList (l : list value) | VObj (c : string) (fs : list (string * value)) (order : list (string * value)).
Definition fields : Type := dict string value.

(** value types (core.py:129-286): [BasicType] of str, float, bool; [VectorType]; [RawType]; [SimpleElementType]; [ObjectType];
    the [GeometricType] of the two schemas around a [FactoryType]; [DuckTypedFactory].  Classes are named. *)
Inductive vtype :=
| TStr | TFloat | TBool | TVec (count : option nat) | TRaw | TSimple (attr : string) (t : vtype)
| TObj (c : string) | TGeom (tab : dict string string) | TDuck (cs : list string).

(** core.py:289-395 [Param], [Attribute], [Element], [AggregateElement] *)
Inductive pkind := PAttribute | PElement | PAggregate.
Record param := mkParam { pr_kind : pkind; pr_xml : string; pr_var : string; pr_type : vtype; pr_req : bool; pr_default : value; pr_raw : bool }.
(** a class: the tag and the parameters of its reflection (core.py:406-458), the fields its constructor sets, and [check_valid] *)
Record class := mkClass { cl_tag : option string; cl_params : list param; cl_init : fields; cl_check : fields -> xr unit }.
Variable classes : string -> option class.

Definition is_kind (k : pkind) (p : param) : bool :=
  match k, pr_kind p with PAttribute, PAttribute | PElement, PElement | PAggregate, PAggregate => true | _, _ => false end.
Definition is_elem (p : param) : bool := negb (is_kind PAttribute p).
(** [attribute_map.get], [element_map.get]; names within a class are distinct in all schemas *)
Definition find_attr (ps : list param) (n : string) : option param := find (fun p => is_kind PAttribute p && String.eqb (pr_xml p) n) ps.
Definition find_elem (ps : list param) (n : string) : option param := find (fun p => is_elem p && String.eqb (pr_xml p) n) ps.

(** ** Reading *)
(** [from_string]: core.py:132-133, 155-156, 163-164, 183-186.  The argument is [None] if the text or attribute is missing:
    [str(None)] is a string, [float(None)] a TypeError, [bool(None)] false, and [None.split] an AttributeError.  [bool] of a string
    tells whether it is empty. *)
Definition from_string (t : vtype) (s : option string) : xr value :=
  match t with
  | TStr => ret (VStr (match s with Some s => s | None => "None" end))
  | TFloat => match s with
              | Some s => let! x := xopt (XPy ValueError) (pf s) in ret (VNum x)
              | None => fail (XPy TypeError)
              end
  | TBool => ret (VBool (match s with Some s => negb (String.eqb s "") | None => false end))
  | TVec count =>
      match s with
      | None => fail (XPy AttributeError)
      | Some s =>
          let raw := split s in
          if match count with Some n => Nat.eqb (length raw) n | None => true end
          then let! l := lift (rmap (fun w => of_opt ValueError (pf w)) raw) in ret (VVec l)
          else fail (XPy AssertionError)
      end
  | _ => fail (XPy AttributeError)
  end.

(** a child element: its tag, and how to read it as a value type *)
Definition kid : Type := string * (vtype -> xr value).

(** core.py:627-631 [get_aggregate_list] for a known parameter *)
Definition agg_list (fs : fields) (p : param) : xr (list value) :=
  match dget String.eqb (pr_var p) fs with
  | Some (VList l) => ret l
  | Some _ => fail (XPy AssertionError)
  | None => fail (XPy AttributeError)
  end.
(** core.py:489-504: one attribute of the node; every exception becomes a ParseError *)
Definition attr_step (ps : list param) (fs : fields) (av : string * string) : xr fields :=
  match find_attr ps (fst av) with
  | Some p => let! v := xmap_err (fun _ => XParse) (from_string (pr_type p) (Some (snd av))) in
              ret (dset String.eqb (pr_var p) v fs)
  | None => ret fs
  end.
(** core.py:507-521: one child; the state is the fields, the aggregates so far, and the tags of scalars not set yet *)
Definition rstate : Type := fields * list (string * value) * list string.
Definition kid_step (ps : list param) (st : rstate) (k : kid) : xr rstate :=
  let '(fs, order, unset) := st in
  match find_elem ps (fst k) with
  | None => ret st
  | Some p =>
      if is_kind PAggregate p then
        let! l := agg_list fs p in
        let! v := snd k (pr_type p) in
        ret (dset String.eqb (pr_var p) (VList (l ++ [v])) fs, order ++ [(fst k, v)], unset)
      else if existsb (String.eqb (fst k)) unset then
        let! v := snd k (pr_type p) in
        ret (dset String.eqb (pr_var p) v fs, order, filter (fun t => negb (String.eqb (fst k) t)) unset)
      else let! _ := warn (WTwice (fst k)) in ret st
  end.
(** core.py:314-318 and 527-541: one parameter that was not given *)
Definition default_step (fs : fields) (p : param) : xr fields :=
  if pr_req p then fail XParse else ret (dset String.eqb (pr_var p) (pr_default p) fs).
(** core.py:460-549 and 598-606: a new object of class [cname] read from an element with these attributes and children *)
Definition read_obj (cname : string) (attrs : dict string string) (ks : list kid) : xr value :=
  match classes cname with
  | None => fail XExc
  | Some c =>
      let ps := cl_params c in
      let! fs := xfold (attr_step ps) attrs (cl_init c) in
      let! st := xfold (kid_step ps) ks (fs, [], map pr_xml (filter (is_kind PElement) ps)) in
      let '(fs, order, unset) := st in
      let! fs := xfold default_step (filter (fun p => is_kind PAttribute p && negb (existsb (String.eqb (pr_xml p)) (map fst attrs))) ps) fs in
      let! fs := xfold default_step (filter (fun p => is_kind PElement p && existsb (String.eqb (pr_xml p)) unset) ps) fs in
      let! _ := xfold (fun _ a => warn (WAttr a)) (filter (fun a => match find_attr ps a with None => true | Some _ => false end) (map fst attrs)) tt in
      let! _ := xfold (fun _ t => warn (WTag t)) (filter (fun t => match find_elem ps t with None => true | Some _ => false end) (map fst ks)) tt in
      let! _ := xmap_err (fun _ => XParse) (cl_check c fs) in
      ret (VObj cname fs order)
  end.
(** core.py:272-283; the messages of failed attempts stay *)
Fixpoint duck (cs : list string) (attrs : dict string string) (ks : list kid) : xr value :=
  match cs with
  | [] => fail XParse
  | c :: cs => match read_obj c attrs ks with
               | (w, inl v) => (w, inl v)
               | (w, inr _) => (w ++ fst (duck cs attrs ks), snd (duck cs attrs ks))
               end
  end.
(** [value_type.from_xml(node)]: core.py:132-133, 194-195, 217-219, 230-233, 248-253, 272-283 and urdf.py:146-149, sdf.py:105-108 *)
Definition interp (n : node) (attrs : dict string string) (text : option string) (ks : list kid) (t : vtype) : xr value :=
  match t with
  | TRaw => ret (VRaw n)
  | TSimple a t => from_string t (dget String.eqb a attrs)
  | TObj c => read_obj c attrs ks
  | TGeom tab => match ks with
                 | [k] => let! c := xopt XExc (dget String.eqb (fst k) tab) in snd k (TObj c)
                 | _ => fail (XPy AssertionError)
                 end
  | TDuck cs => duck cs attrs ks
  | _ => from_string t text
  end.
(** basics.py:35-41 [xml_children] leaves comments out *)
Fixpoint from_xml (n : node) : vtype -> xr value :=
  match n with
  | Comment => fun _ => fail XUnmodelled
  | Node tag attrs text kids =>
      interp n attrs text (flat_map (fun c => match c with Comment => [] | Node t _ _ _ => [(t, from_xml c)] end) kids)
  end.
Definition kids_of (kids : list node) : list kid :=
  flat_map (fun c => match c with Comment => [] | Node t _ _ _ => [(t, from_xml c)] end) kids.

(** ** Writing *)
(** [str(value)] *)
Definition pystr (v : value) : xr string :=
  match v with
  | VStr s => ret s
  | VNum x => ret (sf x)
  | VBool b => ret (if b then "True" else "False")
  | VNone => ret "None"
  | _ => fail XUnmodelled
  end.
(** [to_string]: core.py:152-153, 160-161, 174-181 *)
Definition to_string (t : vtype) (v : value) : xr string :=
  match t with
  | TStr | TFloat | TBool => pystr v
  | TVec count =>
      match v with
      | VVec l => if match count with Some n => Nat.eqb (length l) n | None => true end
                  then ret (join (map sf l)) else fail (XPy AssertionError)
      | _ => fail XUnmodelled
      end
  | _ => fail (XPy AttributeError)
  end.
Definition set_attr (a v : string) (n : node) : node :=
  match n with Node t at_ tx ks => Node t (dset String.eqb a v at_) tx ks | Comment => Comment end.
Definition set_text (s : string) (n : node) : node :=
  match n with Node t at_ _ ks => Node t at_ (Some s) ks | Comment => Comment end.
Definition append (n k : node) : node :=
  match n with Node t at_ tx ks => Node t at_ tx (ks ++ [k]) | Comment => Comment end.
Definition is_comment (n : node) : bool := match n with Comment => true | _ => false end.
(** core.py:197-204: children that are no comments and attributes; the text is not copied *)
Definition write_raw (n src : node) : node :=
  match src with
  | Comment => n
  | Node _ attrs _ kids => fold_left (fun n av => set_attr (fst av) (snd av) n) attrs (fold_left append (filter (fun k => negb (is_comment k)) kids) n)
  end.
(** [value_type.write_xml(node, value)] for a value that is no object *)
Definition write_leaf (t : vtype) (n : node) (v : value) : xr node :=
  match t with
  | TRaw => match v with VRaw src => ret (write_raw n src) | _ => fail (XPy AttributeError) end
  | TSimple a t => let! s := to_string t v in ret (set_attr a s n)
  | TObj _ | TDuck _ => fail (XPy AttributeError)
  | TGeom _ => fail XExc
  | _ => let! s := to_string t v in ret (set_text s n)
  end.

(** a field and how to write it *)
Definition wfield : Type := value * (vtype -> node -> xr node).
(** core.py:335-345 *)
Definition add_attribute (wf : dict string wfield) (n : node) (p : param) : xr node :=
  let! vw := xopt (XPy AttributeError) (dget String.eqb (pr_var p) wf) in
  let! v := match fst vw with VNone => if pr_req p then fail XExc else ret (pr_default p) | v => ret v end in
  match v with
  | VNone => ret n
  | v => let! s := to_string (pr_type p) v in ret (set_attr (pr_xml p) s n)
  end.
(** core.py:374-379 *)
Definition add_scalar (p : param) (w : vtype -> node -> xr node) (n : node) : xr node :=
  if pr_raw p then w (pr_type p) n
  else let! k := w (pr_type p) (Node (pr_xml p) [] None []) in ret (append n k).
(** core.py:364-372; the field is looked up under the XML name *)
Definition add_element (wf : dict string wfield) (n : node) (p : param) : xr node :=
  let! vw := xopt (XPy AttributeError) (dget String.eqb (pr_xml p) wf) in
  match fst vw with
  | VNone => if pr_req p then fail XExc
             else match pr_default p with
                  | VNone => ret n
                  | v => add_scalar p (fun t n => write_leaf t n v) n
                  end
  | _ => add_scalar p (snd vw) n
  end.
(** core.py:646-650 *)
Definition add_aggregate_xml (ps : list param) (n : node) (o : string * (vtype -> node -> xr node)) : xr node :=
  let! p := xopt (XPy KeyError) (find_elem ps (fst o)) in add_scalar p (snd o) n.
(** core.py:551-560 and 578-582 *)
Definition write_obj (cname : string) (fs : fields) (wf : dict string wfield) (wo : list (string * (vtype -> node -> xr node))) (n : node) : xr node :=
  match classes cname with
  | None => fail XExc
  | Some c =>
      let ps := cl_params c in
      let! _ := cl_check c fs in
      let! n := xfold (add_attribute wf) (filter (is_kind PAttribute) ps) n in
      let! n := xfold (add_element wf) (filter (is_kind PElement) ps) n in
      if existsb (is_kind PAggregate) ps then xfold (add_aggregate_xml ps) wo n else ret n
  end.
(** core.py:235-236, 255-263, 285-286 and urdf.py:151-154, sdf.py:110-113.  The name of a geometry is found by its class. *)
Fixpoint write (v : value) : vtype -> node -> xr node :=
  match v with
  | VObj c fs order =>
      let wf := map (fun p => (fst p, (snd p, write (snd p)))) fs in
      let wo := map (fun p => (fst p, write (snd p))) order in
      fun t n =>
        match t with
        | TObj _ | TDuck _ => write_obj c fs wf wo n
        | TGeom tab =>
            let! e := xopt XExc (find (fun e => String.eqb (snd e) c) tab) in
            let! k := write_obj c fs wf wo (Node (fst e) [] None []) in ret (append n k)
        | _ => fail XUnmodelled
        end
  | _ => fun t n => write_leaf t n v
  end.
(** core.py:584-590 [to_xml] *)
Definition to_xml (v : value) : xr node :=
  match v with
  | VObj c _ _ =>
      match classes c with
      | Some cl => let! t := xopt (XPy AssertionError) (cl_tag cl) in write v (TObj c) (Node t [] None [])
      | None => fail XExc
      end
  | _ => fail (XPy AttributeError)
  end.
(** the value after it was written once: lxml's [node.append] in core.py:199-200 moves the children out of the raw elements *)
Fixpoint moved (v : value) : value :=
  match v with
  | VRaw (Node t a x ks) => VRaw (Node t a x (filter is_comment ks))
  | VList l => VList (map moved l)
  | VObj c fs order => VObj c (map (fun e => (fst e, moved (snd e))) fs) (map (fun e => (fst e, moved (snd e))) order)
  | v => v
  end.
(** [cls.from_xml(node)], [cls.from_xml_string]: core.py:608-618; the tag of the root is not compared with the class *)
Definition from_doc (cname : string) (n : node) : xr value := from_xml n (TObj cname).
End Xml.
Arguments value : clear implicits.
Arguments param : clear implicits.
Arguments class : clear implicits.
