(** Documents and models with visuals. *)
From Coq Require Import Reals Lra String Ascii Bool Arith ZArith List.
From Verif Require Import Prelude ExtF Tree ChainModel SpecFK ChainProofs Lin RotModel ChainInst T3dModel LoaderModel MjcfModel RobotModel LoaderProofs SdfProofs MjcfProofs LoaderExamples
  XmlModel XmlSchema XmlProofs XmlWrite XmlRead SpecXml XmlMore XmlNum SpecLoad XmlLoad XmlLoadProofs XmlExamples VisModel SpecVis VisProofs.
Import ListNotations.
Local Open Scope nat_scope.
Local Open Scope string_scope.
Local Open Scope list_scope.

Definition geom (k : node) : node := E "geometry" [] [k].
Definition vis_urdf_doc : node :=
  E "robot" [("name", "r")]
    [ E "link" [("name", "base")]
        [ E "visual" [] [E "origin" [("xyz", "1 0 0")] []; geom (E "box" [("size", "1 2 3")] [])];
          E "visual" [] [geom (E "sphere" [("radius", "4")] [])] ];
      E "link" [("name", "arm")] [E "visual" [] [geom (E "capsule" [("radius", "1"); ("length", "2")] [])]];
      E "link" [("name", "tip")] [];
      E "joint" [("name", "j"); ("type", "fixed")] [E "parent" [("link", "base")] []; E "child" [("link", "arm")] []];
      E "joint" [("name", "k"); ("type", "fixed")] [E "parent" [("link", "arm")] []; E "child" [("link", "tip")] []] ].
Definition vis_urdf : list uelem :=
  [ELink (mkULink "base" None); ELink (mkULink "arm" None); ELink (mkULink "tip" None);
   EJoint (mkUJoint "j" "fixed" "base" "arm" None None None); EJoint (mkUJoint "k" "fixed" "arm" "tip" None None None)].
Lemma vis_urdf_wf : wf_doc vis_urdf_doc.
Proof. simpl. repeat split; repeat constructor; simpl; intuition congruence. Qed.
Lemma vis_urdf_read : exists v, ok (from_doc rf (classes 0%R) "urdf.Robot" vis_urdf_doc) v /\ as_urobot v = Some vis_urdf.
Proof. eexists. split; reflexivity. Qed.
Lemma vis_urdf_loads : exists c, snd (load_urdf rf 5 vis_urdf_doc) = inl c /\ map f_name (preorder (c_root c)) = ["base"; "arm"; "tip"].
Proof.
  destruct vis_urdf_read as (v & H & E). assert (X : exists f, urdf_tree 5 (rb_link_map (urobot_of vis_urdf)) (rb_joints (urobot_of vis_urdf)) = Ok f /\
    map f_name (preorder f) = ["base"; "arm"; "tip"]) by (eexists; split; reflexivity).
  destruct X as (f & Hf & Hn). destruct (urdf_tree_chain 5 vis_urdf f Hf) as (c & Hc & Hr). exists c.
  rewrite (load_urdf_ok rf 5 _ _ _ H E), Hc, Hr. split; [reflexivity | exact Hn].
Qed.
Definition vis_sdf_doc : node :=
  E "sdf" [("version", "1.6")]
    [ E "model" [("name", "r")]
        [ E "link" [("name", "a")]
            [ ex_inertial;
              E "visual" [("name", "v1")] [T "pose" "0 0 1 1 0 0"; geom (E "cylinder" [] [T "radius" "1"; T "length" "2"])];
              E "visual" [("name", "v2")] [geom (E "mesh" [] [T "filename" "m.stl"; T "scale" "2 2 2"])] ];
          E "link" [("name", "b")] [ex_inertial];
          E "joint" [("name", "j"); ("type", "fixed")] [T "parent" "a"; T "child" "b"; E "axis" [] [T "xyz" "0 0 1"]] ] ].
Definition vis_sdf : list selem :=
  [ELink (mkSLink "a" None); ELink (mkSLink "b" None); EJoint (mkSJoint "j" (Some "fixed") "a" "b" (mkV3 0 0 1) None)].
Lemma vis_sdf_wf : wf_doc vis_sdf_doc.
Proof. simpl. repeat split; repeat constructor; simpl; intuition congruence. Qed.
Lemma vis_sdf_read : exists v w, ok (from_doc rf (classes 0%R) "sdf.SDF" vis_sdf_doc) v /\ fld v "model" = Some w /\ w <> VNone /\ as_smodel w = Some vis_sdf.
Proof. eexists. eexists. split; [reflexivity|]. split; [reflexivity|]. split; [discriminate | reflexivity]. Qed.
Lemma vis_sdf_model : exists m, child "model" vis_sdf_doc = Some m /\ all_named m.
Proof.
  eexists. split; [reflexivity|]. intros k Hk Tk. simpl in Hk. destruct Hk as [<-|[<-|[<-|[]]]]; eexists; reflexivity.
Qed.
Lemma vis_sdf_loads : exists c, snd (load_sdf rf 5 vis_sdf_doc) = inl c /\ map f_name (preorder (c_root c)) = ["a"; "b"].
Proof.
  destruct vis_sdf_read as (v & w & H & F & N & E). assert (X : exists f, sdf_tree 5 (rb_link_map (srobot_of vis_sdf)) (rb_joints (srobot_of vis_sdf)) = Ok f /\
    map f_name (preorder f) = ["a"; "b"]) by (eexists; split; reflexivity).
  destruct X as (f & Hf & Hn). destruct (chain_init_ok mops f) as (c & Hc & HC). exists c. rewrite (load_sdf_ok rf 5 _ _ _ _ H F N E).
  unfold sdf_chain, build_chain_from_sdf. rewrite Hf. cbn [rbind]. rewrite Hc, (ct_root _ _ _ HC). split; [reflexivity | exact Hn].
Qed.

(** two bodies, the second with two geoms, and a site *)
Definition vis_mj : mjmodel :=
  mkMJ [mkMBody "world" 0 vzero (mkQ 1 0 0 0) 0 0; mkMBody "arm" 0 (mkV3 1 0 0) (mkQ 1 0 0 0) 0 0] [] [mkMSite "eye" 1 vzero (mkQ 1 0 0 0)].
Definition vis_mj_geoms : list mgeom :=
  [mkMGeom 1 vzero (mkQ 1 0 0 0) 2 [1%R]; mkMGeom 0 vzero (mkQ 1 0 0 0) 0 []; mkMGeom 1 (mkV3 0 0 1) (mkQ 1 0 0 0) 6 [1; 2; 3]%R].
Lemma vis_mj_loads : exists c, build_chain_from_mjcf 5 vis_mj BodyNone = Ok c /\ map f_name (preorder (c_root c)) = ["world"; "arm"; "eye"].
Proof.
  assert (X : exists f, mjcf_tree 5 vis_mj BodyNone = Ok f /\ map f_name (preorder f) = ["world"; "arm"; "eye"]) by (eexists; split; reflexivity).
  destruct X as (f & Hf & Hn). destruct (chain_init_ok mops f) as (c & Hc & HC). exists c. unfold build_chain_from_mjcf. rewrite Hf. cbn [rbind].
  rewrite Hc, (ct_root _ _ _ HC). split; [reflexivity | exact Hn].
Qed.
