-Q theories Verif
theories/Prelude.v
theories/Numpy.v
theories/Rng.v
theories/M_Weights.v
theories/M_Float.v
theories/S_Weights.v
theories/S_Hist.v
theories/S_Oracle.v
theories/P_Lists.v
theories/S_Draws.v
theories/P_Hoare.v
theories/P_Inv.v
theories/P_Wp.v
theories/P_Complete.v
theories/P_Random.v
theories/P_Tail.v
theories/P_Sticks.v
theories/P_Geom.v
theories/P_Grow.v
theories/P_Fixed.v
theories/P_Post.v
theories/P_Rel.v
theories/P_Refit.v
theories/P_Len.v
theories/P_Bib.v
theories/P_BB.v
theories/P_BB16.v
theories/P_Bid.v
theories/S_Assign.v
theories/P_Assign.v
theories/S_Prior.v
theories/P_Prior.v
theories/S_Cross.v
theories/P_Cross.v
theories/S_Opt.v
theories/P_Opt.v
theories/P_Opt71.v
theories/T_Opt.v
theories/P_Arg.v
theories/T_Arg.v
theories/T_Cross.v
theories/T_C01.v
theories/T_Sticks.v
theories/T_Tail.v
theories/T_Post.v
theories/T_Weights.v
theories/T_Assign.v
theories/M_Loglik.v
theories/S_Loglik.v
theories/P_Loglik.v
theories/T_Loglik.v
theories/M_Niw.v
theories/M_Utils.v
theories/M_Mix.v
theories/P_MixW.v
theories/M_Query.v
theories/P_Mix.v
theories/P_Mix37.v
theories/S_Niw.v
theories/P_Niw.v
theories/S_Mix.v
theories/S_MixEx.v
theories/P_Mix33.v
theories/P_Mix34.v
theories/P_Mix38.v
theories/P_MixEx.v
theories/S_Map.v
theories/P_Resp.v
theories/P_Map.v
theories/S_Fresh.v
theories/P_Fresh.v
theories/S_Flags.v
theories/P_Flags.v
theories/S_Sort.v
theories/P_Sort.v
theories/P_Fail.v
theories/P_MixOk.v
theories/S_Query.v
theories/P_Dens.v
theories/P_Clu.v
theories/S_VarFit.v
theories/P_VarQ.v
theories/P_Shape.v
theories/P_QueryEx.v
theories/M_Sample.v
theories/S_Sample.v
theories/P_Sample.v
theories/P_Race.v
theories/P_Eppf.v
theories/M_Reject.v
theories/S_Reject.v
theories/P_Reject.v
theories/M_VarTheta.v
theories/S_VarTheta.v
theories/P_VarTheta.v
theories/M_VarNum.v
theories/S_VarNum.v
theories/P_VarNum.v
theories/P_Density.v
theories/P_Elbo.v
theories/S_DensQ.v
theories/P_DensQ.v
theories/P_VarThetaEx.v
theories/T_VarTheta.v
theories/T_VarNum.v
theories/T_MixGibbs.v
theories/T_MixState.v
theories/T_MixQuery.v
theories/T_Sample.v
theories/M_Ext.v
theories/M_Var.v
theories/M_Seed.v
theories/S_Seed.v
theories/P_Seed.v
theories/T_Seed.v
theories/S_Var.v
theories/P_Var.v
theories/P_Var26.v
theories/P_Var27.v
theories/P_Var28.v
theories/P_Var30.v
theories/P_Var31.v
theories/T_Var.v
theories/S_More.v
theories/P_More.v
theories/T_More.v
theories/M_Plot.v
theories/M_Contour.v
theories/S_Plot.v
theories/S_Contour.v
theories/P_Plot.v
theories/P_PlotEx.v
theories/P_Contour.v
theories/T_Plot.v
theories/T_Contour.v
theories/S_Chain.v
theories/P_Chain.v
theories/P_ChainEx.v
theories/T_Chain.v
theories/S_Cond.v
theories/P_Cond.v
theories/S_CondAtom.v
theories/P_CondAtom.v
theories/P_CondShare.v
theories/T_Cond.v
theories/M_BidScore.v
theories/S_Latent.v
theories/P_Latent.v
theories/P_Latent2.v
theories/T_Latent.v
theories/S_Slice.v
theories/P_Slice.v
theories/S_SliceStep.v
theories/P_SliceStep.v
theories/P_SliceLaw.v
theories/T_Slice.v
theories/S_Twin.v
theories/P_Twin.v
theories/P_TwinPy.v
theories/P_TwinMix.v
theories/T_Twin.v
theories/S_FreqMix.v
theories/P_FreqMix.v
theories/T_FreqMix.v
theories/M_VarLoop.v
theories/S_Affine.v
theories/P_Affine.v
theories/P_Affine2.v
theories/S_VarFin.v
theories/P_VarFin.v
theories/P_Affine3.v
theories/T_VarLoop.v
theories/S_Forms.v
theories/P_Forms.v
theories/P_FormsEx.v
theories/T_Forms.v
theories/M_VarNeg.v
theories/P_VarNeg.v
theories/S_VarRun.v
theories/P_VarRun.v
theories/T_VarRun.v
theories/T_VarNeg.v
theories/S_Crit.v
theories/P_Crit.v
theories/T_Crit.v
theories/S_VarStart.v
theories/P_VarStart.v
theories/T_VarStart.v
theories/P_Warm.v
theories/T_Warm.v
theories/S_GibbsStart.v
theories/P_Log.v
theories/P_GibbsStart.v
theories/T_GibbsStart.v
theories/S_Odd.v
theories/P_Odd.v
theories/T_Odd.v
theories/S_GAffine.v
theories/P_GSim.v
theories/P_GLin.v
theories/P_GAffine.v
theories/P_GAffQ.v
theories/P_GAffEx.v
theories/T_GAffine.v
theories/S_Finish.v
theories/P_Finish.v
theories/P_FitEnd.v
theories/P_FitEnd2.v
theories/T_Finish.v
theories/M_Version.v
theories/S_Version.v
theories/P_VText.v
theories/P_VNum.v
theories/P_VGit.v
theories/P_VPieces.v
theories/P_VKeys.v
theories/P_VFall.v
theories/P_VPep.v
theories/P_VMore.v
theories/P_VFile.v
theories/P_VRef.v
theories/P_VShape.v
theories/T_Version.v
theories/M_Load.v
theories/S_Load.v
theories/P_Load.v
theories/P_LoadEx.v
theories/T_Load.v
theories/S_Urn.v
theories/P_Urn.v
theories/P_UrnLaw.v
theories/P_UrnLik.v
theories/P_UrnEppf.v
theories/T_Urn.v
theories/S_Moment.v
theories/P_MomentLaw.v
theories/P_MomentEx.v
theories/P_Moment.v
theories/P_MomentInd.v
theories/P_MomentDep.v
theories/P_MomentUrn.v
theories/P_MomentBbin.v
theories/T_Moment.v
theories/S_Bayes.v
theories/P_Bayes.v
theories/P_BayesEx.v
theories/T_Bayes.v
theories/P_BayesNot.v
theories/T_BayesNot.v
theories/M_Construct.v
theories/S_Construct.v
theories/P_Construct.v
theories/T_Construct.v
theories/S_Renumber.v
theories/P_Renumber.v
theories/T_Renumber.v
theories/S_Rowwise.v
theories/P_Rowwise.v
theories/T_Rowwise.v
