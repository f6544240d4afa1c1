(** Last steps of the proofs quoted in Properties_SLoad.v. *)
From Coq Require Import Reals Lra String Ascii Bool Arith Lia List Permutation.
From Verif Require Import Prelude ExtF Tree ChainModel SpecFK ChainProofs Input Lin Trig RotModel RotBasic ChainInst SerialModel SerialFinal Examples
  LoaderModel LoaderTree RobotModel RobotProofs LoaderProofs LoaderMore SdfProofs MjcfModel MjcfProofs LoaderExamples
  XmlModel XmlSchema XmlProofs XmlWrite XmlRead XmlCheck SpecXml XmlMore SpecLoad XmlLoad XmlLoadProofs XmlFinal XmlNum XmlExamples SpecSerialLoad SerialLoad SerialDoc.
Import ListNotations.
Local Open Scope nat_scope.
Local Open Scope string_scope.
Local Open Scope list_scope.

