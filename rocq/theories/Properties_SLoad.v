(** C68: serial chains built from robot descriptions. *)
From Coq Require Import Reals Lra String Ascii Bool Arith Lia List Permutation.
From Verif Require Import Prelude ExtF Tree ChainModel SpecFK ChainProofs Input Lin Trig RotModel RotBasic ChainInst SerialModel SerialFinal Examples
  LoaderModel LoaderTree RobotModel RobotProofs LoaderProofs LoaderMore SdfProofs MjcfModel MjcfProofs LoaderExamples
  XmlModel XmlSchema XmlProofs XmlWrite XmlRead XmlCheck SpecXml XmlMore SpecLoad XmlLoad XmlLoadProofs XmlFinal XmlNum XmlExamples SpecSerialLoad SerialLoad SerialDoc.
From Verif Require Import SLoadFinal.
Import ListNotations.
Local Open Scope nat_scope.
Local Open Scope string_scope.
Local Open Scope list_scope.


(** C68.  Serial chains of a URDF robot: for every root and end, the joints on the way and the product of their relative poses,
    or the error. *)
Theorem C68_urdf_serial : forall (es : list uelem) (top : string) (limit : nat),
  tree_shaped uj_parent uj_child (joints_of es) top ->
  (forall x, x = top \/ In x (map uj_child (joints_of es)) -> In x (map uk_name (links_of es))) ->
  (forall l, In l (links_of es) -> uk_origin l = None) ->
  (forall j, In j (joints_of es) -> exists k, urdf_kind (uj_type j) = Some k /\
     (k <> Fixed -> exists a, uj_axis j = Some a /\ a <> vzero)) ->
  NoDup (map uj_name (filter urdf_moves (joints_of es))) ->
  (forall x, x = top \/ In x (map uj_child (joints_of es)) -> strip_nl x = x) ->
  length (joints_of es) < limit ->
  serial_spec uj_parent uj_child (joints_of es) top uj_name urdf_moves urdf_rel (urdf_serial limit (urobot_of es)).
Proof. exact urdf_serial_ok. Qed.
Print Assumptions C68_urdf_serial.

Example C68_urdf_example : let made := urdf_serial 9 (urobot_of ex_urdf) in
  (exists s M, made "tool" "" = Ok s /\ c_names (s_chain s) = [Some "turn"] /\ trp M = mkV3 (-2) 1 0 /\
     serial_fk_end mops 0%R (fun _ => false) s (InTensor (T1 [PI])) = Ok [M]) /\
  (exists s, made "tool" "arm" = Ok s /\ c_names (s_chain s) = []) /\
  made "slider" "arm" = Err KeyError /\ made "tool" "nowhere" = Err ValueError.
Proof.
  destruct (C68_urdf_serial ex_urdf "base" 9 ex_urdf_tree ex_urdf_links ex_urdf_origins ex_urdf_kinds ex_urdf_names ex_urdf_clean) as (G & U); [simpl; lia|].
  assert (Ha : jpath uj_parent uj_child (joints_of ex_urdf) "base" [ex_uarm] "arm") by (eapply jp_step; [simpl; tauto | reflexivity | constructor]).
  assert (Hm : jpath uj_parent uj_child (joints_of ex_urdf) "arm" [ex_umount] "tool") by (eapply jp_step; [simpl; tauto | reflexivity | constructor]).
  destruct (G [] "base" "" (jp_here _ _ _ _) (or_introl (conj eq_refl eq_refl))) as (A & _).
  destruct (G _ "arm" "arm" Ha) as (B1 & B2); [right; split; [discriminate | reflexivity]|].
  split; [|split; [|split]].
  - destruct (A _ _ ex_urdf_path) as (s & S1 & S2 & S3). exists s, (fold_left m4mul (map (urdf_rel ex_uconfig) [ex_uarm; ex_umount]) I4).
    split; [exact S1|]. split; [exact S2|]. split; [apply ex_urdf_pose|].
    exact (S3 0%R (fun _ => false) [ex_uconfig] _ (g_vector _ _ ex_uconfig)).
  - destruct (B1 _ _ Hm) as (s & S1 & S2 & _). exists s. split; [exact S1 | exact S2].
  - apply B2. intros l2 Hl. inversion Hl as [|? j l ? Hj Hpar Hr]; subst. simpl in Hj. destruct Hj as [<-|[<-|[<-|[]]]]; try discriminate.
    inversion Hr as [|? j' l' ? Hj' Hpar' Hr']; subst. simpl in Hj'. destruct Hj' as [<-|[<-|[<-|[]]]]; discriminate.
  - apply U; [discriminate|]. intros l Hl. destruct l as [|j l _] using rev_ind; [inversion Hl|].
    apply jpath_snoc in Hl as (_ & Hj & E). simpl in Hj. destruct Hj as [<-|[<-|[<-|[]]]]; discriminate.
Qed.

(** C68.  The serial chain from the root of a URDF robot and the whole chain put every link at the same place. *)
Theorem C68_urdf_agrees : forall (es : list uelem) (top : string) (limit : nat) l x (v : config),
  tree_shaped uj_parent uj_child (joints_of es) top ->
  (forall x, x = top \/ In x (map uj_child (joints_of es)) -> In x (map uk_name (links_of es))) ->
  (forall l, In l (links_of es) -> uk_origin l = None) ->
  (forall j, In j (joints_of es) -> exists k, urdf_kind (uj_type j) = Some k /\
     (k <> Fixed -> exists a, uj_axis j = Some a /\ a <> vzero)) ->
  NoDup (map uj_name (filter urdf_moves (joints_of es))) ->
  (forall x, x = top \/ In x (map uj_child (joints_of es)) -> strip_nl x = x) ->
  length (joints_of es) < limit -> jpath uj_parent uj_child (joints_of es) top l x ->
  exists c d s M, urdf_chain limit (urobot_of es) = Ok c /\ urdf_serial limit (urobot_of es) x "" = Ok s /\
    forward_kinematics mops c (config_tensor (c_root c) [v]) None = Ok d /\ dget String.eqb x d = Some [M] /\
    forall nan is_nan, serial_fk_end mops nan is_nan s (InTensor (T1 (map v (c_names (s_chain s))))) = Ok [M].
Proof. exact urdf_agree. Qed.
Print Assumptions C68_urdf_agrees.
Example C68_agrees_example : exists c d s M, urdf_chain 9 (urobot_of ex_urdf) = Ok c /\ urdf_serial 9 (urobot_of ex_urdf) "tool" "" = Ok s /\
  forward_kinematics mops c (config_tensor (c_root c) [ex_uconfig]) None = Ok d /\ dget String.eqb "tool" d = Some [M] /\
  forall nan is_nan, serial_fk_end mops nan is_nan s (InTensor (T1 (map ex_uconfig (c_names (s_chain s))))) = Ok [M].
Proof.
  apply (C68_urdf_agrees ex_urdf "base" 9 [ex_uarm; ex_umount] "tool" ex_uconfig ex_urdf_tree ex_urdf_links ex_urdf_origins ex_urdf_kinds ex_urdf_names ex_urdf_clean);
    [simpl; lia | exact ex_urdf_path].
Qed.

(** C68.  Serial chains of an SDF model. *)
Theorem C68_sdf_serial : forall (es : list selem) (top : string) (limit : nat),
  tree_shaped sj_parent sj_child (joints_of es) top ->
  (forall x, x = top \/ In x (map sj_child (joints_of es)) -> In x (map sk_name (links_of es))) ->
  (forall j, In j (joints_of es) -> complete j /\ exists k, sdf_kind (sj_type j) = Some k /\ (k <> Fixed -> sj_axis j <> vzero)) ->
  NoDup (map sj_name (filter sdf_moves (joints_of es))) ->
  (forall x, x = top \/ In x (map sj_child (joints_of es)) -> strip_nl x = x) ->
  length (joints_of es) < limit ->
  serial_spec sj_parent sj_child (joints_of es) top sj_name sdf_moves (sdf_rel es) (sdf_serial limit (srobot_of es)).
Proof. exact sdf_serial_ok. Qed.
Print Assumptions C68_sdf_serial.

Example C68_sdf_example : exists s, sdf_serial 5 (srobot_of ex_sdf) "tip" "base" = Ok s /\ c_names (s_chain s) = [Some "j"] /\
  sdf_serial 5 (srobot_of ex_sdf) "base" "tip" = Err KeyError.
Proof.
  destruct (C68_sdf_serial ex_sdf "base" 5 (ex_sdf_tree _) (ex_sdf_links _) (ex_sdf_kinds _) (ex_sdf_names _) (ex_sdf_clean _)) as (G & _); [simpl; lia|].
  set (j := mkSJoint "j" (Some "revolute") "base" "tip" (mkV3 0 0 1) (Some (Some (-1)%R, Some 1%R))).
  assert (Hp : jpath sj_parent sj_child (joints_of ex_sdf) "base" [j] "tip") by (eapply jp_step; [left; reflexivity | reflexivity | constructor]).
  destruct (G [] "base" "base" (jp_here _ _ _ _)) as (A & _); [right; split; [discriminate | reflexivity]|].
  destruct (A _ _ Hp) as (s & S1 & S2 & _). exists s. split; [exact S1|]. split; [exact S2|].
  destruct (G _ "tip" "tip" Hp) as (_ & B); [right; split; [discriminate | reflexivity]|].
  apply B. intros l2 Hl. inversion Hl as [|? k l ? Hj Hpar Hr]; subst. simpl in Hj. destruct Hj as [<-|[]]; discriminate.
Qed.

(** C68.  For SDF the two disagree: the serial chain from the root forgets the pose of the root link. *)
Theorem C68_sdf_agrees_refuted : exists es c d s M N,
  sdf_chain 5 (srobot_of es) = Ok c /\ sdf_serial 5 (srobot_of es) "tip" "" = Ok s /\
  forward_kinematics mops c (config_tensor (c_root c) [fun _ => 0%R]) None = Ok d /\ dget String.eqb "tip" d = Some [M] /\
  (forall nan is_nan, serial_fk_end mops nan is_nan s (InTensor (T1 (map (fun _ => 0%R) (c_names (s_chain s))))) = Ok [N]) /\ M <> N.
Proof. exact sdf_root_pose. Qed.
Print Assumptions C68_sdf_agrees_refuted.

(** C68.  Serial chains of a compiled MJCF model: between bodies, from a body to a site, and at a site. *)
Theorem C68_mjcf_serial : forall m : mjmodel, wf_model m ->
  (forall i b, nth_error (mm_bodies m) i = Some b -> 0 < i -> supported m b) -> forall limit,
  NoDup (map mb_name (mm_bodies m) ++ map ms_name (mm_sites m)) ->
  (forall i i' b b' j j', nth_error (mm_bodies m) i = Some b -> nth_error (mm_bodies m) i' = Some b' -> 0 < i -> 0 < i' ->
     joint_of m b = Some j -> joint_of m b' = Some j' -> mn_name j = mn_name j' -> i = i') ->
  (forall x, In x (map mb_name (mm_bodies m) ++ map ms_name (mm_sites m)) -> strip_nl x = x) ->
  length (mm_bodies m) < limit ->
  (forall x bx rname, nth_error (mm_bodies m) x = Some bx -> (rname = "" /\ x = 0) \/ (rname <> "" /\ rname = mb_name bx) ->
     (forall y b l, nth_error (mm_bodies m) y = Some b -> mj_path m x y l ->
        serves (mjcf_serial limit m (mb_name b) rname) (mj_names m l) (fun v => fold_left m4mul (map (code_local m v) l) I4)) /\
     (forall t l, In t (mm_sites m) -> mj_path m x (ms_bodyid t) l ->
        serves (mjcf_serial limit m (ms_name t) rname) (mj_names m l)
          (fun v => m4mul (fold_left m4mul (map (code_local m v) l) I4) (aff (qrot (ms_quat t)) (ms_pos t)))) /\
     (forall e, (forall y b l, nth_error (mm_bodies m) y = Some b -> mj_path m x y l -> mb_name b <> e) ->
        (forall t l, In t (mm_sites m) -> mj_path m x (ms_bodyid t) l -> ms_name t <> e) ->
        mjcf_serial limit m e rname = Err KeyError)) /\
  (forall t e, In t (mm_sites m) -> ms_name t <> "" ->
     (e = ms_name t -> serves (mjcf_serial limit m e (ms_name t)) [] (fun _ => I4)) /\
     (e <> ms_name t -> mjcf_serial limit m e (ms_name t) = Err KeyError)) /\
  (forall e rname, rname <> "" -> ~ In rname (map mb_name (mm_bodies m) ++ map ms_name (mm_sites m)) ->
     mjcf_serial limit m e rname = Err ValueError).
Proof. exact mjcf_serial_ok. Qed.
Print Assumptions C68_mjcf_serial.

Example C68_mjcf_example : let made := mjcf_serial 9 (ex_mj (mkV3 5 0 0) 0) in
  (exists s, made "grip" "" = Ok s /\ c_names (s_chain s) = [Some "hinge"]) /\
  (exists s, made "grip" "arm" = Ok s /\ c_names (s_chain s) = [] /\
     exists M, serial_fk_end mops 0%R (fun _ => false) s (InTensor (T1 [])) = Ok [M] /\ trp M = mkV3 3 0 1) /\
  made "arm" "grip" = Err KeyError /\ made "arm" "nowhere" = Err ValueError.
Proof.
  set (m := ex_mj (mkV3 5 0 0) 0).
  destruct (C68_mjcf_serial m (ex_mj_wf _ _) (ex_mj_sup _ _) 9 (ex_mj_names _ _) (ex_mj_jn _ _) (ex_mj_clean _ _)) as (G & Gs & Gu); [simpl; lia|].
  assert (Hg : In (mkMSite "grip" 2 (mkV3 0 0 1) qone) (mm_sites m)) by (left; reflexivity).
  assert (P1 : mj_path m 1 2 ([] ++ [mkMBody "tip" 1 (mkV3 3 0 0) qone 0 0])) by (apply mp_step; [reflexivity | discriminate | constructor]).
  assert (P0 : mj_path m 0 2 (([] ++ [mkMBody "arm" 0 vzero qone 1 0]) ++ [mkMBody "tip" 1 (mkV3 3 0 0) qone 0 0])).
  { apply mp_step; [reflexivity | discriminate |]. apply mp_step; [reflexivity | discriminate | constructor]. }
  split; [|split; [|split]].
  - destruct (G 0 _ "" eq_refl (or_introl (conj eq_refl eq_refl))) as (_ & A & _). destruct (A _ _ Hg P0) as (s & S1 & S2 & _).
    exists s. split; [exact S1 | exact S2].
  - destruct (G 1 _ "arm" eq_refl) as (_ & A & _); [right; split; [discriminate | reflexivity]|].
    destruct (A _ _ Hg P1) as (s & S1 & S2 & S3). exists s. split; [exact S1|]. split; [exact S2|]. eexists.
    split; [apply (S3 _ _ [fun _ => 0%R] _ (g_vector _ _ _))|]. cbn [app map fold_left]. rewrite m4mul_1_l. unfold code_local.
    cbn [joint_of mb_jntnum Nat.eqb mb_quat mb_pos ms_quat ms_pos]. rewrite m4mul_1_r, aff_mul, trp_aff.
    unfold qrot, qone, m3vec, vadd. cbn. apply mkV3_eq; ring.
  - apply (Gs _ "arm" Hg); discriminate.
  - apply Gu; [discriminate|]. cbn. intuition discriminate.
Qed.

(** C68.  From the document: reading it and then making the serial chain is making the serial chain of what it says. *)
Theorem C68_urdf_document : forall (pf : string -> option R) limit n es e rn,
  wf_doc n -> n <> Comment -> urdf_says pf n es -> plain_urdf n ->
  (forall j, In (EJoint j) es -> In (uj_type j) ["unknown"; "revolute"; "continuous"; "prismatic"; "floating"; "planar"; "fixed"]) ->
  snd (load_urdf_serial pf limit n e rn) = match urdf_serial limit (urobot_of es) e rn with Ok s => inl s | Err x => inr (XPy x) end.
Proof. exact urdf_document. Qed.
Print Assumptions C68_urdf_document.
Theorem C68_sdf_document : forall (pf : string -> option R) limit n es e rn, wf_doc n -> sdf_says pf n es -> plain_sdf pf n ->
  snd (load_sdf_serial pf limit n e rn) = match sdf_serial limit (srobot_of es) e rn with Ok s => inl s | Err x => inr (XPy x) end.
Proof. exact sdf_document. Qed.
Print Assumptions C68_sdf_document.
Example C68_document_example : (exists s, snd (load_urdf_serial rf 9 ex_urdf_doc "tool" "arm") = inl s) /\
  snd (load_sdf_serial rf 5 ex_sdf_doc "base" "tip") = inr (XPy KeyError).
Proof.
  split.
  - destruct C68_urdf_example as (_ & (s & Hs & _) & _). exists s.
    rewrite (C68_urdf_document rf 9 ex_urdf_doc ex_urdf "tool" "arm" ex_urdf_doc_wf ltac:(discriminate) ex_urdf_says ex_urdf_plain).
    + rewrite Hs. reflexivity.
    + intros j Hj. assert (Hin : In j (joints_of ex_urdf)) by (unfold joints_of; apply in_flat_map; exists (EJoint j); split; [exact Hj | left; reflexivity]).
      destruct Hin as [<-|[<-|[<-|[]]]]; cbn [uj_type ex_uarm ex_umount ex_uslide In]; tauto.
  - rewrite (C68_sdf_document rf 5 ex_sdf_doc ex_sdf "base" "tip" ex_sdf_doc_wf ex_sdf_says ex_sdf_plain).
    destruct C68_sdf_example as (s & _ & _ & E). rewrite E. reflexivity.
Qed.
