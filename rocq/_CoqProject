-Q theories Verif
theories/Base.v
theories/Num.v
theories/ModelTools.v
theories/ModelOps.v
theories/ModelContext.v
theories/ModelTensor.v
theories/ModelGraph.v
theories/Spec.v
theories/Denote.v
theories/IndexProofs.v
theories/IndexFacts.v
theories/DenoteDec.v
theories/ExecProofs.v
theories/TensorFacts.v
theories/BuildProofs.v
theories/BuildProofs2.v
theories/BuildProofs3.v
theories/ObjSpec.v
theories/EagerProofs.v
theories/AccessProofs.v
theories/EagerOps.v
theories/EagerOps2.v
theories/EagerDot.v
theories/CompileProofs.v
theories/NumIntS.v
theories/NumQ.v
theories/Laws.v
theories/SoftProofs.v
theories/Agree.v
theories/ObjDec.v
theories/Pointwise.v
theories/EagerFacts.v
theories/ContextProofs.v
theories/BuildFrame.v
theories/GraphSpec.v
theories/IllProofs.v
theories/CountProofs.v
theories/TransferProofs.v
theories/P_Index.v
theories/P_Graph.v
theories/P_Access.v
theories/P_Eager.v
theories/P_Graph2.v
theories/ModelF16.v
theories/F16Proofs.v
theories/F16Round.v
theories/F16Arith.v
theories/P_F16.v
theories/ModelAct.v
theories/ActProofs.v
theories/P_Act.v
theories/ModelLayer.v
theories/ModelModel.v
theories/ModelFrom.v
theories/FromProofs.v
theories/P_From.v
theories/NetSpec.v
theories/NetExec.v
theories/NetBack.v
theories/NetBuild.v
theories/NetChain.v
theories/NetChain2.v
theories/NetChain3.v
theories/NetFit.v
theories/NetMem.v
theories/NetRun.v
theories/NetRun2.v
theories/NetScript.v
theories/NetRun3.v
theories/NetRun4.v
theories/NetRun5.v
theories/NetRun6.v
theories/NetRun7.v
theories/NetLaws.v
theories/NetClaims.v
theories/P_Net.v
theories/FwdSpec.v
theories/FwdMask.v
theories/FwdBuild.v
theories/FwdSeg.v
theories/FwdOps.v
theories/FwdPool.v
theories/FwdProv.v
theories/FwdOnly.v
theories/FwdBody.v
theories/FwdExpr.v
theories/FwdDense.v
theories/FwdConv.v
theories/FwdConv2.v
theories/FwdAct.v
theories/FwdKer.v
theories/FwdDeconv.v
theories/FwdNet.v
theories/FwdCount.v
theories/FwdChain.v
theories/FwdRun.v
theories/FwdScript.v
theories/FwdProg.v
theories/FwdHist.v
theories/FwdTotal.v
theories/FwdMain.v
theories/FwdClaims.v
theories/P_Fwd.v
theories/ModelIO.v
theories/IOSpec.v
theories/IOProofs.v
theories/ModelCodec.v
theories/IOCodec.v
theories/P_Save.v
theories/IONetSpec.v
theories/IONetWalk.v
theories/IONetRun.v
theories/IONetMain.v
theories/P_Save2.v
theories/ModelImg.v
theories/ImgSpec.v
theories/ImgFloat.v
theories/ImgBlend.v
theories/ImgProofs.v
theories/ImgMain.v
theories/ModelImgIO.v
theories/NumFloat.v
theories/ImgIOSpec.v
theories/ImgIO.v
theories/NumReal.v
theories/BarProofs.v
theories/DistProofs.v
theories/FailSpec.v
theories/FailProofs.v
theories/IntMain.v
theories/P_Img.v
theories/P_ImgIO.v
theories/ReachSpec.v
theories/FitProofs.v
theories/GradSpec.v
theories/GradProofs.v
theories/GradMain.v
theories/P_Learn.v
theories/BwdPost.v
theories/BwdSpec.v
theories/BwdLoop.v
theories/BwdOps.v
theories/BwdOps2.v
theories/BwdOps3.v
theories/BwdOps4.v
theories/P_Back.v
theories/AdjSpec.v
theories/AdjSum.v
theories/AdjConv.v
theories/AdjDeconv.v
theories/AdjPool.v
theories/AdjBad.v
theories/P_Adj.v
theories/TrnSpec.v
theories/TrnTri.v
theories/TrnOwn.v
theories/TrnExpr.v
theories/TrnDst.v
theories/TrnXfer.v
theories/TrnSite.v
theories/TrnDer.v
theories/TrnBody.v
theories/TrnKind.v
theories/TrnBias.v
theories/TrnPar.v
theories/TrnDense.v
theories/TrnKer.v
theories/TrnConvs.v
theories/TrnChain.v
theories/TrnFit.v
theories/TrnComp.v
theories/TrnRun.v
theories/TrnScript.v
theories/TrnAux.v
theories/TrnLine.v
theories/TrnPrep.v
theories/TrnMade.v
theories/TrnProg.v
theories/TrnHist.v
theories/TrnTotal.v
theories/TrnMain.v
theories/TrnLaws.v
theories/P_Trn.v
theories/P_Trn2.v
theories/DescSpec.v
theories/DescLay.v
theories/DescForm.v
theories/DescChain.v
theories/DescMain.v
theories/DescProg.v
theories/P_Desc.v
theories/ModelStr.v
theories/StrSpec.v
theories/StrProofs.v
theories/StrChain.v
theories/StrTwice.v
theories/P_Str.v
theories/ModelShow.v
theories/ShowProofs.v
theories/ShowStep.v
theories/P_Show.v
theories/ModelNest.v
theories/NestSpec.v
theories/NestProofs.v
theories/NestMain.v
theories/P_Nest.v
theories/ModelScalar.v
theories/ScalarSpec.v
theories/ScalarProofs.v
theories/P_Scalar.v
theories/ModelRand.v
theories/RandProofs.v
theories/P_Rand.v
theories/AgainProofs.v
theories/P_Again.v
theories/EpochProofs.v
theories/P_Epoch.v
theories/ResetProofs.v
theories/P_Reset.v
