-Q theories Verif
theories/Base.v
theories/Mem.v
theories/Par.v
theories/Tensor.v
theories/TensorOps.v
theories/TSpec.v
theories/TLemmas.v
theories/TOps.v
theories/TOps2.v
theories/TMem.v
theories/TMatmul.v
theories/TFlat.v
theories/Hist.v
theories/HistP.v
theories/P_Tensor.v
theories/RInst.v
theories/P_Ops.v
theories/P_Red.v
theories/P_Hist.v
theories/Act.v
theories/P_Act.v
theories/Mat.v
theories/Layer.v
theories/Conv.v
theories/Misc.v
theories/Net.v
theories/Trainer.v
theories/NetP.v
theories/RMat.v
theories/P_Fwd.v
theories/Grad.v
theories/P_Grad.v
theories/TrainP.v
theories/ExNet.v
theories/P_Decay.v
theories/TrainP2.v
theories/P_Train.v
theories/P_Batch.v
theories/FunEq.v
theories/P_Sgd.v
theories/P_Mom.v
theories/P_Descent.v
theories/P_KL.v
theories/P_Cost.v
theories/P_Pred.v
theories/World.v
theories/P_World.v
theories/P_Access.v
theories/P_Copy.v
theories/P_Init.v
theories/SaveLoad.v
theories/P_Save.v
theories/ConvP.v
theories/P_Conv.v
theories/P_Pool.v
theories/P_Misc.v
theories/ConfEq.v
theories/P_Mean.v
theories/P_Conf.v
theories/GradCheck.v
theories/P_GradCheck.v
theories/P_ConvB.v
theories/P_Matop.v
theories/LinReg.v
theories/P_Linear.v
theories/P_Equiv.v
theories/P_Output.v
theories/Session.v
theories/SessP.v
theories/P_Session.v
theories/P_Safe.v
theories/P_Rebind.v
theories/Round.v
theories/P_Round.v
theories/Exc.v
theories/ExcP.v
theories/P_Exc.v
theories/P_Accept.v
theories/P_LayerApi.v
theories/P_HLayer.v
theories/TVal.v
theories/P_Val.v
theories/InvP.v
theories/P_Sym.v
theories/P_Dead.v
theories/P_Fix.v
theories/Dec.v
theories/P_Dec.v
theories/P_Resume.v
theories/P_Resume6.v
theories/P_Drift.v
theories/P_Sum.v
theories/RelP.v
theories/P_Perm.v
theories/P_Dist.v
theories/P_Examples.v
theories/Convex.v
theories/P_Convex.v
theories/P_Separable.v
theories/P_Online.v
theories/P_Ortho.v
theories/P_Alg.v
theories/Func.v
theories/P_Lip.v
theories/P_Shape.v
theories/P_Fit.v
theories/Heavy.v
theories/P_Heavy.v
theories/P_NaN.v
theories/InvR.v
theories/Bound.v
theories/P_Bound.v
theories/P_Exc2.v
theories/P_Ctor.v
theories/P_Rate.v
theories/P_ConvSize.v
theories/Smooth.v
theories/Smooth2.v
theories/P_Smooth.v
theories/P_Converge.v
theories/P_MomConv.v
theories/P_SgdConv.v
theories/P_SgdReach.v
theories/P_Mom0.v
theories/P_DeadReg.v
theories/P_Mixed.v
theories/P_Front.v
theories/P_FrontBest.v
theories/P_FrontMini.v
