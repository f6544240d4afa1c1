(** Documents for the descriptions of [LoaderExamples]. *)
From Coq Require Import Reals String Ascii Bool Arith ZArith Lia List.
From Verif Require Import Prelude ExtF Tree ChainModel Lin LoaderModel RobotModel LoaderExamples XmlModel XmlSchema XmlProofs XmlWrite XmlRead SpecXml
  XmlMore XmlNum SpecLoad XmlLoad.
Import ListNotations.
Local Open Scope nat_scope.
Local Open Scope string_scope.
Local Open Scope list_scope.

(** integers as real numbers *)
Definition rf (s : string) : option R := option_map IZR (zf s).

Definition ex_urdf_doc : node :=
  E "robot" [("name", "arm"); ("xmlns", "http://ros.org")]
    [ E "joint" [("name", "mount"); ("type", "fixed")]
        [E "origin" [("xyz", "2 0 0"); ("rpy", "0 0 0")] []; E "parent" [("link", "arm")] []; E "child" [("link", "tool")] []];
      Comment;
      E "link" [("name", "tool")] [];
      E "joint" [("type", "prismatic"); ("name", "lift")]
        [E "parent" [("link", "base")] []; E "axis" [("xyz", "1 0 0")] []; E "child" [("link", "slider")] []];
      E "link" [("name", "base")] [];
      E "sensor" [] [];
      E "joint" [("name", "turn"); ("type", "revolute")]
        [Comment; E "limit" [("lower", "-1"); ("upper", "1"); ("effort", "2"); ("velocity", "3")] [];
         E "axis" [("xyz", "  0 0  2 ")] []; E "child" [("link", "arm")] []; E "parent" [("link", "base")] [];
         E "origin" [("xyz", "0 1 0")] []; E "origin" [("xyz", "9 9 9")] []];
      E "link" [("name", "arm")] [];
      E "gazebo" [] [T "color" "red"];
      E "link" [("name", "slider")] [] ].
Lemma rf_vec s a b c x y z : split s = [x; y; z] -> zf x = Some a -> zf y = Some b -> zf z = Some c ->
  vec3 rf s (mkV3 (IZR a) (IZR b) (IZR c)).
Proof.
  intros H A B C. exists [x; y; z]. split; [apply split_spec, H|]. unfold rf. cbn [vx vy vz].
  repeat constructor; [rewrite A | rewrite B | rewrite C]; reflexivity.
Qed.
Ltac doc_vec := eapply rf_vec; reflexivity.
Lemma ex_urdf_doc_wf : wf_doc ex_urdf_doc.
Proof. simpl. repeat split; repeat constructor; simpl; intuition congruence. Qed.
Lemma ex_urdf_says : urdf_says rf ex_urdf_doc ex_urdf.
Proof.
  unfold urdf_says, elems_say. cbn -[ujoint_says ulink_says ex_umount ex_uslide ex_uarm].
  repeat constructor; cbn -[vec3 num_attr vec3_attr]; try reflexivity; try (eexists; split; reflexivity); try exact I; try doc_vec; try (eexists; split; [reflexivity|]; doc_vec).
Qed.
Lemma ex_urdf_plain : plain_urdf ex_urdf_doc.
Proof.
  split; [|split].
  - intros t Ht. simpl in Ht. destruct Ht as [<-|[<-|[]]]; reflexivity.
  - intros k Hk Tk. simpl in Hk. repeat (destruct Hk as [<-|Hk]; [try discriminate Tk; intros t Ht; simpl in Ht; destruct Ht as [<-|[<-|[<-|[]]]]; reflexivity|]).
    contradiction.
  - intros k Hk Tk. simpl in Hk. repeat (destruct Hk as [<-|Hk]; [try discriminate Tk; intros t Ht; simpl in Ht; destruct Ht as [<-|[<-|[<-|[<-|[]]]]]; reflexivity|]).
    contradiction.
Qed.

Definition ex_inertial : node :=
  E "inertial" [] [T "mass" "1"; E "inertia" [] (map (fun k => T k "0") ["ixx"; "ixy"; "ixz"; "iyy"; "iyz"; "izz"])].
Definition ex_sdf_doc : node :=
  E "sdf" [("version", "1.6")]
    [ E "model" [("name", "arm")]
        [ E "link" [("name", "tip"); ("kinematic", "false")] [ex_inertial; T "pose" " 1 2 3  0 1 0"; E "sensor" [] []];
          E "joint" [("name", "j"); ("type", "revolute")]
            [ T "parent" "base"; T "child" "tip";
              E "axis" [] [T "xyz" "0 0 1"; E "limit" [] [T "lower" "-1"; T "upper" "1"]; T "use_parent_model_frame" "true"] ];
          Comment;
          E "link" [("name", "base")] [T "pose" "5 5 5 0 2 0"; ex_inertial] ] ].
Lemma ex_sdf_doc_wf : wf_doc ex_sdf_doc.
Proof. simpl. repeat split; repeat constructor; simpl; intuition congruence. Qed.
Lemma ex_pose t s (x y z a b c : string) (x' y' z' a' b' c' : Z) : split s = [x; y; z; a; b; c] ->
  zf x = Some x' -> zf y = Some y' -> zf z = Some z' -> zf a = Some a' -> zf b = Some b' -> zf c = Some c' ->
  spose_says rf (T t s) (mkSPose (mkV3 (IZR x') (IZR y') (IZR z')) (mkV3 (IZR a') (IZR b') (IZR c'))).
Proof.
  intros H A1 A2 A3 A4 A5 A6. exists s. split; [reflexivity|]. exists [x; y; z; a; b; c]. split; [apply split_spec, H|].
  unfold rf. cbn [sp_xyz sp_rpy vx vy vz]. repeat constructor; [rewrite A1 | rewrite A2 | rewrite A3 | rewrite A4 | rewrite A5 | rewrite A6]; reflexivity.
Qed.
Lemma ex_sdf_says : sdf_says rf ex_sdf_doc ex_sdf.
Proof.
  eexists. split; [reflexivity|]. unfold elems_say. cbn -[sjoint_says slink_says].
  constructor; [|constructor; [|constructor; [|constructor]]].
  - split; [reflexivity|]. split; [reflexivity|]. cbn -[spose_says]. eapply (ex_pose "pose" " 1 2 3  0 1 0"); reflexivity.
  - split; [reflexivity|]. split; [reflexivity|]. split; [reflexivity|]. split; [eexists; split; reflexivity|]. split; [eexists; split; reflexivity|].
    eexists. eexists. split; [reflexivity|]. split; [reflexivity|]. split; [eexists; split; [reflexivity|]; doc_vec|].
    split; eexists; split; reflexivity.
  - split; [reflexivity|]. split; [reflexivity|]. cbn -[spose_says]. eapply (ex_pose "pose" "5 5 5 0 2 0"); reflexivity.
Qed.
Lemma ex_inertial_given t a l r : t = "link" -> inertial_given rf (Node t a None (ex_inertial :: r)) /\ 
  inertial_given rf (Node t a None (T "pose" l :: ex_inertial :: r)).
Proof.
  intros ->. split; (eexists; eexists; eexists; split; [reflexivity|]; split; [reflexivity|]; split; [reflexivity|];
    split; [intros u [<-|[]]; reflexivity|]; split; [eexists; eexists; split; reflexivity|];
    intros u Hu; simpl in Hu; repeat (destruct Hu as [<-|Hu]; [eexists; eexists; split; [reflexivity|]; eexists; split; reflexivity|]); contradiction).
Qed.
Lemma ex_sdf_plain : plain_sdf rf ex_sdf_doc.
Proof.
  eexists. split; [reflexivity|]. split; [intros u [<-|[]]; reflexivity|]. split.
  - intros k Hk Tk. simpl in Hk. destruct Hk as [<-|[<-|[<-|[<-|[]]]]]; try discriminate Tk.
    + split; [intros u [<-|[<-|[]]]; reflexivity|]. apply (fun a r => ex_inertial_given "link" a "" r eq_refl).
    + split; [intros u [<-|[<-|[]]]; reflexivity|]. apply (fun a r => ex_inertial_given "link" a "5 5 5 0 2 0" r eq_refl).
  - intros k Hk Tk. simpl in Hk. destruct Hk as [<-|[<-|[<-|[<-|[]]]]]; try discriminate Tk.
    split; [intros u [<-|[]]; reflexivity|]. intros a Ha. inversion Ha; subst a. intros u [<-|[]]; reflexivity.
Qed.
Lemma ex_sdf_named m : child "model" ex_sdf_doc = Some m -> all_named m.
Proof.
  intros H. inversion H; subst m. intros k Hk Tk. simpl in Hk. destruct Hk as [<-|[<-|[<-|[<-|[]]]]]; try (eexists; reflexivity).
  destruct Tk; discriminate.
Qed.
