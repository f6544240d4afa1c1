(** The type registry of urdf_parser_py/xml_reflection/core.py (38-101), the construction of parameters from registered types, and the
    module bodies of core.py, urdf.py and sdf.py that declare types and classes through it.

    Objects in the registry are values here: the code hands out the same object for the same key, the model the same value. *)
From Coq Require Import String Ascii Bool Arith List.
From Verif Require Import Prelude XmlModel.
Import ListNotations.
Local Open Scope string_scope.
Local Open Scope list_scope.

(** What is passed as a type: a string, a subclass of [Object], one of Python's classes str, float, bool and list, an instance of
    ValueType (compared by identity, hence a number), another class, or a hashable value that is no class.  Unhashable values are left
    out. *)
Inductive key :=
| KStr (s : string) | KClass (c : string) | KPyStr | KPyFloat | KPyBool | KPyList | KVal (id : nat)
| KOther (c : string) | KNoClass (id : nat).
Definition key_eqb (a b : key) : bool :=
  match a, b with
  | KStr s, KStr s' => String.eqb s s'
  | KClass c, KClass c' => String.eqb c c'
  | KPyStr, KPyStr | KPyFloat, KPyFloat | KPyBool, KPyBool | KPyList, KPyList => true
  | KVal i, KVal j => Nat.eqb i j
  | KOther c, KOther c' => String.eqb c c'
  | KNoClass i, KNoClass j => Nat.eqb i j
  | _, _ => false
  end.

Section Registry.
(** counts of vectors, and [float(s)] for the text behind 'vector' (core.py:88); a ValueError is [None] *)
Context {C : Type}.
Variable pc : string -> option C.
(** default values of parameters; Python's None is [None] *)
Context {V : Type}.

(** core.py:129-286: the kinds of value types.  [RGeom] is the GeometricType of urdf.py:136-154 and sdf.py:96-113 with the map of its
    factory; classes are named by module and class. *)
Inductive rtype :=
| RStr | RFloat | RBool | RList | RVec (count : option C) | RRaw | RSimple (attr : string) (t : rtype)
| RObj (c : string) | RGeom (tab : dict string string) | RDuck (cs : list string).

(** the instances of ValueType passed as types *)
Variable obj : nat -> rtype.

(** core.py:39-40 *)
Record registry := mkReg { rg_types : dict key rtype; rg_prefix : string }.
Definition reg0 : registry := mkReg [] "".

(** core.py:43-49 *)
Definition start_namespace (ns : string) (r : registry) : registry := mkReg (rg_types r) (ns ++ ".").
(** core.py:52-54 *)
Definition end_namespace (r : registry) : registry := mkReg (rg_types r) "".
(** core.py:58-59: only strings are prefixed *)
Definition full (r : registry) (k : key) : key := match k with KStr s => KStr (rg_prefix r ++ s) | k => k end.
(** core.py:57-61 *)
Definition add_type (k : key) (v : rtype) (r : registry) : registry * (unit + xexn) :=
  match dget key_eqb (full r k) (rg_types r) with
  | Some _ => (r, inr (XPy AssertionError))
  | None => (mkReg (dset key_eqb (full r k) v (rg_types r)) (rg_prefix r), inl tt)
  end.
(** core.py:80-101; [issubclass] of a value that is no class is a TypeError *)
Definition make_type (k : key) : rtype + xexn :=
  match k with
  | KVal i => inl (obj i)
  | KStr s =>
      if String.prefix "vector" s
      then match substring 6 (String.length s - 6) s with
           | EmptyString => inl (RVec None)
           | extra => match pc extra with Some n => inl (RVec (Some n)) | None => inr (XPy ValueError) end
           end
      else inr XExc
  | KPyList => inl RList
  | KClass c => inl (RObj c)
  | KPyStr => inl RStr
  | KPyFloat => inl RFloat
  | KPyBool => inl RBool
  | KOther _ => inr XExc
  | KNoClass _ => inr (XPy TypeError)
  end.
(** core.py:66-71: the type within the current namespace *)
Definition in_namespace (k : key) (r : registry) : option rtype :=
  match k, rg_prefix r with
  | KStr _, String _ _ => dget key_eqb (full r k) (rg_types r)
  | _, _ => None
  end.
(** core.py:64-78 *)
Definition get_type (k : key) (r : registry) : registry * (rtype + xexn) :=
  match in_namespace k r with
  | Some t => (r, inl t)
  | None =>
      match dget key_eqb k (rg_types r) with
      | Some t => (r, inl t)
      | None =>
          match make_type k with
          | inl t => match add_type k t r with
                     | (r', inl _) => (r', inl t)
                     | (r', inr e) => (r', inr e)
                     end
          | inr e => (r, inr e)
          end
      end
  end.

(** ** Parameters *)
(** core.py:289-395: the constructed parameters *)
Record rparam := mkRParam { rp_kind : pkind; rp_xml : string; rp_var : string; rp_type : rtype; rp_req : bool; rp_default : option V; rp_raw : bool }.
(** the calls [Attribute(x, t, required, default, var)], [Element(x, t, required, default, var, is_raw)] and
    [AggregateElement(x, t, var, is_raw)] *)
Inductive pexp :=
| EAttr (x : string) (t : key) (req : bool) (d : option V) (var : option string)
| EElem (x : string) (t : key) (req : bool) (d : option V) (var : option string) (raw : bool)
| EAggr (x : string) (t : key) (var : option string) (raw : bool).
(** core.py:299-313 [Param.__init__]: the type is looked up before the default is checked *)
Definition mk_param (kd : pkind) (x : string) (t : key) (req : bool) (d : option V) (var : option string) (raw : bool) (r : registry)
  : registry * (rparam + xexn) :=
  match get_type t r with
  | (r', inl v) => if (req && match d with Some _ => true | None => false end)%bool then (r', inr (XPy AssertionError))
                   else (r', inl (mkRParam kd x (match var with Some y => y | None => x end) v req d raw))
  | (r', inr e) => (r', inr e)
  end.
(** core.py:321-325, 353-358, 382-388 *)
Definition eval_param (p : pexp) (r : registry) : registry * (rparam + xexn) :=
  match p with
  | EAttr x t req d var => mk_param PAttribute x t req d var false r
  | EElem x t req d var raw => mk_param PElement x t req d var raw r
  | EAggr x t var raw => mk_param PAggregate x t false None (Some (match var with Some y => y | None => (x ++ "s")%string end)) raw r
  end.

(** ** Module bodies *)
(** a type object: [SimpleElementType(attribute, t)] (core.py:213-215), or one whose constructor uses no registry *)
Inductive vexp := ESimple (attr : string) (t : key) | EVal (t : rtype).
Definition eval_value (v : vexp) (r : registry) : registry * (rtype + xexn) :=
  match v with
  | ESimple a t => match get_type t r with
                   | (r', inl u) => (r', inl (RSimple a u))
                   | (r', inr e) => (r', inr e)
                   end
  | EVal t => (r, inl t)
  end.
(** The statements at module level.  [SLet x p] binds a parameter to a name, [SReflect] reflects a class with parameters that are names
    or calls, [SSub c d] declares a class without a reflection of its own, which has that of its base [d]. *)
Inductive stmt :=
| SStart (ns : string) | SEnd | SAdd (k : key) (v : vexp) | SGet (k : key) | SLet (x : string) (p : pexp)
| SReflect (c : string) (tag : option string) (ps : list (string + pexp)) | SSub (c d : string).
(** the names bound so far, and the reflections of the classes declared so far *)
Record menv := mkEnv { me_vars : dict string rparam; me_refl : dict string (option string * list rparam) }.
Definition env0 : menv := mkEnv [] [].
(** reading an unbound name is a NameError, which is an Exception here *)
Fixpoint eval_params (ps : list (string + pexp)) (e : menv) (r : registry) : registry * (list rparam + xexn) :=
  match ps with
  | [] => (r, inl [])
  | inl x :: ps =>
      match dget String.eqb x (me_vars e) with
      | None => (r, inr XExc)
      | Some p => match eval_params ps e r with
                  | (r', inl l) => (r', inl (p :: l))
                  | (r', inr x) => (r', inr x)
                  end
      end
  | inr p :: ps =>
      match eval_param p r with
      | (r', inl p) => match eval_params ps e r' with
                       | (r'', inl l) => (r'', inl (p :: l))
                       | (r'', inr x) => (r'', inr x)
                       end
      | (r', inr x) => (r', inr x)
      end
  end.
(** core.py:14-18 [reflect] and the calls above *)
Definition exec1 (s : stmt) (e : menv) (r : registry) : registry * (menv + xexn) :=
  match s with
  | SStart ns => (start_namespace ns r, inl e)
  | SEnd => (end_namespace r, inl e)
  | SAdd k v => match eval_value v r with
                | (r', inl t) => match add_type k t r' with
                                 | (r'', inl _) => (r'', inl e)
                                 | (r'', inr x) => (r'', inr x)
                                 end
                | (r', inr x) => (r', inr x)
                end
  | SGet k => match get_type k r with
              | (r', inl _) => (r', inl e)
              | (r', inr x) => (r', inr x)
              end
  | SLet x p => match eval_param p r with
                | (r', inl p) => (r', inl (mkEnv (dset String.eqb x p (me_vars e)) (me_refl e)))
                | (r', inr x) => (r', inr x)
                end
  | SReflect c tag ps => match eval_params ps e r with
                         | (r', inl l) => (r', inl (mkEnv (me_vars e) (dset String.eqb c (tag, l) (me_refl e))))
                         | (r', inr x) => (r', inr x)
                         end
  | SSub c d => match dget String.eqb d (me_refl e) with
                | Some f => (r, inl (mkEnv (me_vars e) (dset String.eqb c f (me_refl e))))
                | None => (r, inr XExc)
                end
  end.
(** An exception ends the import of the module; what was registered stays. *)
Fixpoint exec (l : list stmt) (e : menv) (r : registry) : registry * (menv + xexn) :=
  match l with
  | [] => (r, inl e)
  | s :: l => match exec1 s e r with
              | (r', inl e') => exec l e' r'
              | (r', inr x) => (r', inr x)
              end
  end.
(** importing one module after another: each has its own names; the result is the reflections of each *)
Fixpoint imports (ms : list (list stmt)) (r : registry) : registry * (list (dict string (option string * list rparam)) + xexn) :=
  match ms with
  | [] => (r, inl [])
  | m :: ms => match exec m env0 r with
               | (r', inl e) => match imports ms r' with
                                | (r'', inl l) => (r'', inl (me_refl e :: l))
                                | (r'', inr x) => (r'', inr x)
                                end
               | (r', inr x) => (r', inr x)
               end
  end.
End Registry.
Arguments rtype : clear implicits.
Arguments registry : clear implicits.
Arguments rparam : clear implicits.
Arguments pexp : clear implicits.
Arguments vexp : clear implicits.
Arguments stmt : clear implicits.
Arguments menv : clear implicits.
