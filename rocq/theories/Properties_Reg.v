(** C71: the type registry and its namespaces. *)
From Coq Require Import String Ascii Bool Arith Lia List DecimalString DecimalNat.
From Verif Require Import Prelude XmlModel XmlSchema RegModel RegDecl SpecReg RegProofs.
From Verif Require Import RegFinal.
Import ListNotations.
Local Open Scope string_scope.
Local Open Scope list_scope.



(** C71.  The declarations of urdf.py and sdf.py, run through the registry in either order, give exactly the tags and parameters of
    the schemas that the model of reading and writing uses; the namespaces are closed afterwards. *)
Theorem C71_schema : forall (Num : Type) (zero : Num),
  let run ms := imports digits raw_obj (core_body :: ms) reg0 in
  (exists r, run [urdf_module zero; sdf_module] =
     (r, inl [[]; map of_class (urdf_classes zero); map of_class (sdf_classes zero)]) /\ rg_prefix r = "") /\
  (exists r, run [sdf_module; urdf_module zero] =
     (r, inl [[]; map of_class (sdf_classes zero); map of_class (urdf_classes zero)]) /\ rg_prefix r = "").
Proof. exact l71_schema. Qed.
Print Assumptions C71_schema.

Example C71_schema_example :
  match imports digits raw_obj [core_body; urdf_module 0; sdf_module] reg0 with
  | (r, inl [_; u; s]) =>
      option_map (fun c => map (@rp_type _ _) (snd c)) (dget String.eqb "urdf.Collision" u) =
        Some [RObj "urdf.Pose"; RGeom [("box", "urdf.Box"); ("cylinder", "urdf.Cylinder"); ("sphere", "urdf.Sphere"); ("mesh", "urdf.Mesh"); ("capsule", "urdf.Capsule")]] /\
      option_map (fun c => map (@rp_type _ _) (snd c)) (dget String.eqb "sdf.Collision" s) =
        Some [RStr; RGeom [("box", "sdf.Box"); ("cylinder", "sdf.Cylinder"); ("sphere", "sdf.Sphere"); ("mesh", "sdf.Mesh")]; RVec (Some 6)]
  | _ => False
  end.
Proof. vm_compute. split; reflexivity. Qed.

(** C71.  Namespaces keep modules apart: once a module whose names have no dots has run in the namespace [p], a module in another
    namespace [q] declares the same classes or raises the same exception as without it, and every type is found as before in [q] and
    outside all namespaces. *)
Theorem C71_apart : forall (C V : Type) (pc : string -> option C) obj p q (l m : list (stmt C V)) e1 r e r1,
  p <> q -> Forall plain l -> Forall plain m ->
  exec pc obj (within p l) e1 r = (r1, inl e) ->
  (forall f, snd (exec pc obj (within q m) f r1) = snd (exec pc obj (within q m) f r)) /\
  (forall k, key_nodot k ->
     snd (get_type pc obj k (start_namespace q r1)) = snd (get_type pc obj k (start_namespace q r)) /\
     snd (get_type pc obj k (end_namespace r1)) = snd (get_type pc obj k (end_namespace r))).
Proof. exact l71_apart. Qed.
Print Assumptions C71_apart.

(** the bodies of both modules are of this form *)
Example C71_apart_example : forall (Num : Type) (zero : Num), "urdf" <> "sdf" /\ Forall plain (urdf_body zero) /\
  Forall plain (sdf_body (Num := Num)) /\ urdf_module zero = within "urdf" (urdf_body zero) /\
  exists e r1, exec digits raw_obj (urdf_module zero) env0 (fst (exec digits raw_obj (core_body (Num := Num)) env0 reg0)) = (r1, inl e).
Proof.
  intros Num zero. split; [discriminate|]. destruct (bodies_plain zero) as [H1 H2]. repeat (split; [assumption|]). split; [reflexivity|].
  eexists. eexists. vm_compute. reflexivity.
Qed.

(** C71.  A type that was found once is found again: for keys that are no strings after anything, for names without dots in the same
    namespace as long as nothing is added under the name. *)
Theorem C71_stable : forall (C V : Type) (pc : string -> option C) obj (l : list (stmt C V)) e r r1 k v,
  get_type pc obj k r = (r1, inl v) ->
  match k with
  | KStr n => (rg_prefix r = "" \/ exists ns, rg_prefix r = (ns ++ ".")%string) -> nodot n -> Forall tidy l -> (forall s, In s l -> ~ adds n s) ->
              snd (get_type pc obj k (mkReg (rg_types (fst (exec pc obj l e r1))) (rg_prefix r))) = inl v
  | k => snd (get_type pc obj k (fst (exec pc obj l e r1))) = inl v
  end.
Proof. exact l71_stable. Qed.
Print Assumptions C71_stable.

Example C71_stable_example : exists r1, get_type digits raw_obj (KStr "vector2") (mkReg [] "a.") = (r1, inl (RVec (Some 2))) /\
  snd (get_type digits raw_obj (KStr "vector2") (mkReg (rg_types (fst (exec digits raw_obj (sdf_module (Num := nat)) env0 r1))) "a.")) =
  inl (RVec (Some 2)).
Proof. eexists. split; [reflexivity|vm_compute; reflexivity]. Qed.

(** C71.  Without the last condition this is false: a type found in the global scope is shadowed by one added in the namespace. *)
Theorem C71_shadow_refuted : exists (l : list (stmt nat unit)) r r1 n v w,
  get_type digits raw_obj (KStr n) r = (r1, inl v) /\ Forall tidy l /\ nodot n /\ rg_prefix (fst (exec digits raw_obj l env0 r1)) = rg_prefix r /\
  snd (get_type digits raw_obj (KStr n) (fst (exec digits raw_obj l env0 r1))) = inl w /\ w <> v.
Proof. exact l71_shadow_refuted. Qed.
Print Assumptions C71_shadow_refuted.

(** C71.  What looking up and adding can raise.  A lookup raises exactly for keys that are not registered and of which no type can be
    made, and leaves the registry as it was; it never trips over the assertion of [add_type]. Adding raises exactly when the key is
    taken; otherwise the type is found under it afterwards. *)
Theorem C71_errors : forall (C : Type) (pc : string -> option C) obj (r : registry C) k,
  (forall x, snd (get_type pc obj k r) = inr x <->
     bad pc k x /\ dget key_eqb (full r k) (rg_types r) = None /\ dget key_eqb k (rg_types r) = None) /\
  (forall x, snd (get_type pc obj k r) = inr x -> fst (get_type pc obj k r) = r) /\
  (forall v x, snd (add_type k v r) = inr x <-> x = XPy AssertionError /\ exists w, dget key_eqb (full r k) (rg_types r) = Some w) /\
  (forall v x, snd (add_type k v r) = inr x -> fst (add_type k v r) = r) /\
  (forall v, snd (add_type k v r) = inl tt -> snd (get_type pc obj k (fst (add_type k v r))) = inl v).
Proof. exact l71_errors. Qed.
Print Assumptions C71_errors.

Example C71_errors_example :
  bad digits (KStr "geometric") XExc /\ bad digits (KStr "vectorx") (XPy ValueError) /\
  snd (get_type digits raw_obj (KStr "geometric") reg0) = inr XExc /\
  snd (add_type (KStr "geometric") RRaw (fst (add_type (KStr "geometric") RStr (reg0 (C := nat))))) = inr (XPy AssertionError).
Proof.
  split; [constructor; intros d; discriminate|]. split; [change "vectorx" with ("vector" ++ "x")%string; constructor; [discriminate|reflexivity]|].
  split; reflexivity.
Qed.

(** C71.  After any statements whose names have no dots, in whatever namespaces, a class is read as an object of that class, Python's
    types are the basic types, and 'vector' with a count is a vector of that length unless somebody added a type of that name. *)
Theorem C71_resolve : forall (C V : Type) (pc : string -> option C) obj (l : list (stmt C V)) e, Forall tidy l ->
  let r := fst (exec pc obj l e reg0) in
  (forall c, snd (get_type pc obj (KClass c) r) = inl (RObj c)) /\
  snd (get_type pc obj KPyStr r) = inl RStr /\ snd (get_type pc obj KPyFloat r) = inl RFloat /\ snd (get_type pc obj KPyBool r) = inl RBool /\
  snd (get_type pc obj KPyList r) = inl RList /\ (forall i, snd (get_type pc obj (KVal i) r) = inl (obj i)) /\
  (forall d n, d <> "" -> nodot d -> pc d = Some n -> (forall s, In s l -> ~ adds ("vector" ++ d) s) ->
     snd (get_type pc obj (KStr ("vector" ++ d)) r) = inl (RVec (Some n))) /\
  ((forall s, In s l -> ~ adds "vector" s) -> snd (get_type pc obj (KStr "vector") r) = inl (RVec None)).
Proof. exact l71_resolve. Qed.
Print Assumptions C71_resolve.

Example C71_resolve_example : Forall tidy (core_body (Num := nat) ++ urdf_module 0 ++ sdf_module) /\
  (forall s, In s (core_body (Num := nat) ++ urdf_module 0 ++ sdf_module) -> ~ adds "vector2" s) /\
  digits "2" = Some 2.
Proof.
  split; [|split; [|reflexivity]].
  - apply tidys; vm_compute; reflexivity.
  - apply no_adds. vm_compute. reflexivity.
Qed.

(** C71.  In particular 'vector' with a number in decimal notation is a vector of that length. *)
Theorem C71_vector : forall (V : Type) obj (l : list (stmt nat V)) e n, Forall tidy l ->
  (forall s, In s l -> ~ adds ("vector" ++ NilZero.string_of_uint (Nat.to_uint n)) s) ->
  snd (get_type digits obj (KStr ("vector" ++ NilZero.string_of_uint (Nat.to_uint n))) (fst (exec digits obj l e reg0))) = inl (RVec (Some n)).
Proof. exact l71_vector. Qed.
Print Assumptions C71_vector.

Example C71_vector_example :
  KStr ("vector" ++ NilZero.string_of_uint (Nat.to_uint 16)) = KStr "vector16" /\
  snd (get_type digits raw_obj (KStr "vector16") (fst (exec digits raw_obj (core_body (Num := nat)) env0 reg0))) = inl (RVec (Some 16)).
Proof. split; [reflexivity|vm_compute; reflexivity]. Qed.

(** C71.  Names with dots escape their namespace: in the namespace of SDF, 'urdf.geometric' is URDF's type, and the same name in two
    namespaces can clash. *)
Theorem C71_dotted_refuted :
  (exists r, snd (imports digits raw_obj [core_body; urdf_module 0] reg0) <> inr XExc /\ r = fst (imports digits raw_obj [core_body; urdf_module 0] reg0) /\
     snd (get_type digits raw_obj (KStr "urdf.geometric") (start_namespace "sdf" r)) = inl (of_vtype urdf_geometric)) /\
  (exists (l m : list (stmt nat unit)) e r1, exec digits raw_obj (within "a" l) env0 reg0 = (r1, inl e) /\
     (exists f r2, exec digits raw_obj (within "a.b" m) env0 reg0 = (r2, inl f)) /\
     snd (exec digits raw_obj (within "a.b" m) env0 r1) = inr (XPy AssertionError)).
Proof. exact l71_dotted_refuted. Qed.
Print Assumptions C71_dotted_refuted.

(** C71.  Namespaces do not nest: closing an inner one leaves all of them, and a type of the outer one is no longer found. *)
Theorem C71_nesting_refuted : exists (l : list (stmt nat unit)) e r,
  exec digits raw_obj (SStart "a" :: SAdd (KStr "pose") (EVal RRaw) :: within "b" l) env0 reg0 = (r, inl e) /\
  snd (get_type digits raw_obj (KStr "pose") r) = inr XExc /\ snd (get_type digits raw_obj (KStr "pose") (start_namespace "a" r)) = inl RRaw.
Proof. exact l71_nesting_refuted. Qed.
Print Assumptions C71_nesting_refuted.

(** C71.  A module that raises leaves its namespace open: what the rest of the program then adds goes there and is not found outside. *)
Theorem C71_failed_import_refuted : exists (l : list (stmt nat unit)) r x r',
  exec digits raw_obj (within "a" l) env0 reg0 = (r, inr x) /\ rg_prefix r = "a." /\
  fst (add_type (KStr "pose") RRaw r) = r' /\ snd (add_type (KStr "pose") RRaw r) = inl tt /\
  snd (get_type digits raw_obj (KStr "pose") (end_namespace r')) = inr XExc.
Proof. exact l71_failed_import_refuted. Qed.
Print Assumptions C71_failed_import_refuted.
