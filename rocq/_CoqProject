-Q theories Verif
theories/Prelude.v
theories/ExtF.v
theories/Lin.v
theories/Tree.v
theories/ChainModel.v
theories/SpecFK.v
theories/ChainProofs.v
theories/Trig.v
theories/RotModel.v
theories/RotBasic.v
theories/ChainInst.v
theories/ChainTables.v
theories/FKMore.v
theories/TreeQueries.v
theories/Input.v
theories/Widths.v
theories/Examples.v
theories/FKFindings.v
theories/ChainClamp.v
theories/FKFinal.v
theories/Properties_FK.v
theories/QuatProofs.v
theories/AxisAngle.v
theories/EulerProofs.v
theories/EulerQuat.v
theories/SixD.v
theories/RotFinal.v
theories/Properties_Rot.v
theories/T3dModel.v
theories/T3dProofs.v
theories/T3dMore.v
theories/T3dElem.v
theories/T3dFinal.v
theories/Properties_T3d.v
theories/MathModel.v
theories/AcosProofs.v
theories/So3Proofs.v
theories/So3More.v
theories/SlerpProofs.v
theories/MathFinal.v
theories/Properties_Math.v
theories/SerialModel.v
theories/SerialProofs.v
theories/SerialMore.v
theories/SerialFinal.v
theories/Properties_Serial.v
theories/Deriv.v
theories/JacModel.v
theories/JacProofs.v
theories/JacMore.v
theories/BackProofs.v
theories/JacFinal.v
theories/Properties_Jac.v
theories/IKModel.v
theories/IKProofs.v
theories/IKMore.v
theories/IKLimits.v
theories/IKFinal.v
theories/Properties_IK.v
theories/IKKernel.v
theories/KernelProofs.v
theories/DeltaPose.v
theories/IKSolve.v
theories/SolveProofs.v
theories/IKKFinal.v
theories/Properties_IKK.v
theories/LoaderModel.v
theories/LoaderTree.v
theories/RobotModel.v
theories/RobotProofs.v
theories/LoaderProofs.v
theories/LoaderMore.v
theories/SdfProofs.v
theories/MjcfModel.v
theories/MjcfProofs.v
theories/LoaderExamples.v
theories/LoadFinal.v
theories/Properties_Load.v
theories/T3dIndex.v
theories/T3xFinal.v
theories/Properties_T3x.v
theories/XmlModel.v
theories/XmlSchema.v
theories/XmlProofs.v
theories/XmlWrite.v
theories/XmlRead.v
theories/XmlCheck.v
theories/SpecXml.v
theories/XmlMore.v
theories/XmlNum.v
theories/SpecLoad.v
theories/XmlLoad.v
theories/XmlLoadProofs.v
theories/XmlExamples.v
theories/XmlFinal.v
theories/Properties_Xml.v
theories/VisModel.v
theories/SpecVis.v
theories/VisProofs.v
theories/VisExamples.v
theories/VisFinal.v
theories/Properties_Vis.v
theories/SpecSerialLoad.v
theories/SerialLoad.v
theories/SerialDoc.v
theories/SLoadFinal.v
theories/Properties_SLoad.v
theories/LoaderExact.v
theories/ExactFinal.v
theories/Properties_Exact.v
theories/DevModel.v
theories/SpecDev.v
theories/DevProofs.v
theories/DevFinal.v
theories/Properties_Dev.v
theories/SpecRound.v
theories/RoundNorm.v
theories/RoundModel.v
theories/RoundProofs.v
theories/RoundChain.v
theories/RoundFloat.v
theories/RoundFinal.v
theories/Properties_Round.v
theories/RegModel.v
theories/RegDecl.v
theories/SpecReg.v
theories/RegProofs.v
theories/RegFinal.v
theories/Properties_Reg.v
theories/AggModel.v
theories/SpecAgg.v
theories/AggFinal.v
theories/Properties_Agg.v
theories/RoundJacModel.v
theories/SpecRoundJac.v
theories/RoundJacProofs.v
theories/RoundJacChain.v
theories/RoundJacTool.v
theories/RJacFinal.v
theories/Properties_RJac.v
theories/SpecDescent.v
theories/PathDeriv.v
theories/AngleDeriv.v
theories/DescentProofs.v
theories/DescFinal.v
theories/Properties_Desc.v
theories/SpecGantry.v
theories/GantryProofs.v
theories/GantryRun.v
theories/ConvFinal.v
theories/Properties_Conv.v
theories/YamlModel.v
theories/SpecYaml.v
theories/YamlProofs.v
theories/YamlFinal.v
theories/Properties_Yaml.v
theories/LineModel.v
theories/LineProofs.v
theories/LineGantry.v
theories/LineFinal.v
theories/Properties_Line.v
theories/SpecLocal.v
theories/LocalCont.v
theories/LocalNorm.v
theories/LocalErr.v
theories/LocalDeriv.v
theories/LocalStep.v
theories/LocalRun.v
theories/LocalTraj.v
theories/LocalStart.v
theories/LocalFinal.v
theories/Properties_Local.v
theories/SpecCol.v
theories/ColStep.v
theories/ColTraj.v
theories/ColFinal.v
theories/Properties_Col.v
theories/RoundErrModel.v
theories/SpecRoundErr.v
theories/RoundErrQuat.v
theories/RoundErrAngle.v
theories/RErrFinal.v
theories/Properties_RErr.v
theories/WrapTieFinal.v
theories/Properties_WrapTie.v
theories/PathModel.v
theories/SpecPath.v
theories/PathProofs.v
theories/PathFinal.v
theories/Properties_Path.v
theories/GradModel.v
theories/SpecGrad.v
theories/GradProofs.v
theories/GradDeriv.v
theories/GradTapes.v
theories/GradLog.v
theories/GradQuat.v
theories/GradNan.v
theories/GradZero.v
theories/GradFinal.v
theories/Properties_Grad.v
theories/TDevModel.v
theories/SpecTDev.v
theories/TDevFinal.v
theories/Properties_TDev.v
theories/AutoModel.v
theories/SpecAuto.v
theories/AutoProofs.v
theories/AutoFinal.v
theories/Properties_Auto.v
theories/ValidModel.v
theories/SpecValid.v
theories/ValidProofs.v
theories/ValidFinal.v
theories/Properties_Valid.v
theories/RoundQuatModel.v
theories/SpecRoundQuat.v
theories/RoundQuatProofs.v
theories/RoundQuatTwo.v
theories/RoundQuatAxis.v
theories/RQuatFinal.v
theories/Properties_RQuat.v
theories/SpecBatch.v
theories/IKBatch.v
theories/BatchFinal.v
theories/Properties_Batch.v
theories/GradSixModel.v
theories/GradEulerModel.v
theories/SpecEulerGrad.v
theories/GradSix.v
theories/GradEuler.v
theories/EulerGradFinal.v
theories/Properties_EulerGrad.v
theories/TorchModel.v
theories/RotTorchModel.v
theories/SpecTorch.v
theories/TorchProofs.v
theories/RotTorch.v
theories/RotRowsFinal.v
theories/Properties_RotRows.v
theories/FkTorchModel.v
theories/SpecFkTorch.v
theories/FkTorch.v
theories/FkTorchChain.v
theories/FkTorchBack.v
theories/FkTorchJac.v
theories/FkTorchList.v
theories/FkTensFinal.v
theories/Properties_FkTens.v
theories/IkTorchModel.v
theories/SpecIkTorch.v
theories/IkTorch.v
theories/IkTorchStep.v
theories/IkTorchIter.v
theories/IkTensFinal.v
theories/Properties_IkTens.v
theories/IkSolTorchModel.v
theories/SpecIkSol.v
theories/IkSolTorch.v
theories/IkSolRun.v
theories/IkSolFinal.v
theories/Properties_IkSol.v
theories/IkSvdTorchModel.v
theories/SpecIkSvd.v
theories/IkSvdTorch.v
theories/IkSvdFinal.v
theories/Properties_IkSvd.v
theories/T3dTorchModel.v
theories/SpecT3dTorch.v
theories/T3dTorch.v
theories/T3dTensFinal.v
theories/Properties_T3dTens.v
theories/So3TorchModel.v
theories/So3Torch.v
theories/So3TensFinal.v
theories/Properties_So3Tens.v
