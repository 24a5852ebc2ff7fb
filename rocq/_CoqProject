-Q theories Verif

theories/M_Cache.v
theories/S_Cache.v
theories/P_Cache.v
theories/M_Schema.v
theories/S_Schema.v
theories/P_Schema.v
theories/M_Preserve.v
theories/P_Preserve.v
theories/X_Cache.v
theories/P_CacheX.v
theories/Props_Cache.v
theories/M_AP.v
theories/M_Gal.v
theories/M_GalDeriv.v
theories/S_Gal.v
theories/P_Gal.v
theories/P_AP.v
theories/P_GalDeriv.v
theories/P_GalCtx.v
theories/P_GalX.v
theories/P_GalX2.v
theories/M_Context.v
theories/S_Context.v
theories/P_Context.v
theories/P_GalC.v
theories/Props_Gal.v
theories/M_Qso.v
theories/P_Qso.v
theories/P_QsoX.v
theories/Props_Qso.v
theories/M_Prep.v
theories/S_Prep.v
theories/P_Prep.v
theories/M_ParamVal.v
theories/S_ParamVal.v
theories/P_ParamVal.v
theories/M_GradNum.v
theories/P_GradNum.v
theories/P_Grad.v
theories/M_Prior.v
theories/S_Params.v
theories/P_Prior.v
theories/M_TheoryDefaults.v
theories/P_SetFree.v
theories/P_GradX.v
theories/P_GradCover.v
theories/Props_Params.v
theories/M_Lru.v
theories/S_Lru.v
theories/P_Lru.v
theories/P_LruHist.v
theories/M_LruKey.v
theories/S_LruKey.v
theories/P_LruKey.v
theories/Props_Lru.v
theories/M_Cov.v
theories/P_Cov.v
theories/P_CovTrim.v
theories/M_PowerData.v
theories/P_PowerData.v
theories/P_PowerData2.v
theories/S_Data.v
theories/Props_Data.v
theories/M_Transfer.v
theories/S_Transfer.v
theories/P_Transfer.v
theories/P_Transfer2.v
theories/Props_Transfer.v
theories/M_Window.v
theories/P_Window.v
theories/P_Legendre.v
theories/P_Window2.v
theories/Props_Window.v
theories/M_Interp.v
theories/S_Interp.v
theories/Props_Interp.v
theories/M_Lbfgs.v
theories/S_Lbfgs.v
theories/P_Lbfgs.v
theories/P_Lbfgs2.v
theories/Props_Lbfgs.v
theories/M_Driver.v
theories/S_Driver.v
theories/P_Driver.v
theories/P_DriverGrad.v
theories/M_Groups.v
theories/S_Groups.v
theories/P_Groups.v
theories/Props_Driver.v
theories/M_ParamFile.v
theories/S_ParamFile.v
theories/P_ParamFile.v
theories/P_ParamFile2.v
theories/Props_ParamFile.v
theories/M_Mcmc.v
theories/S_Mcmc.v
theories/P_Mcmc.v
theories/Props_Mcmc.v
theories/M_Results.v
theories/S_Results.v
theories/P_Results.v
theories/P_Results2.v
theories/Props_Results.v
theories/M_Ranks.v
theories/P_Ranks.v
theories/Props_Ranks.v
theories/M_Stats.v
theories/P_Stats.v
theories/Props_Stats.v
theories/M_Cosmo.v
theories/P_Cosmo.v
theories/Props_Cosmo.v
theories/P_GalY.v
theories/M_Poles.v
theories/P_Simps.v
theories/S_Poles.v
theories/P_Poles.v
theories/Props_Poles.v
theories/M_Zel.v
theories/S_Zel.v
theories/P_Zel.v
theories/P_ZelD.v
theories/Props_Zel.v
theories/M_Spline.v
theories/S_Spline.v
theories/P_Spline.v
theories/P_SplineV.v
theories/P_SplineSh.v
theories/M_SplineRef.v
theories/P_SplineRef.v
theories/Props_Spline.v
theories/M_Quad.v
theories/S_Quad.v
theories/P_QuadSort.v
theories/P_Quad.v
theories/P_QuadGK.v
theories/P_Quad2.v
theories/P_QuadLim.v
theories/P_QuadWs.v
theories/P_QuadRef.v
theories/P_QuadSub.v
theories/M_QuadPar.v
theories/S_QuadPar.v
theories/P_QuadPar.v
theories/Props_Quad.v
theories/M_Disc.v
theories/P_Disc.v
theories/S_Disc.v
theories/P_Disc2.v
theories/P_Disc3.v
theories/Props_Disc.v
theories/M_Kaiser.v
theories/S_Kaiser.v
theories/P_LegMom.v
theories/P_Kaiser.v
theories/Props_Kaiser.v
theories/M_Gcl.v
theories/S_Gcl.v
theories/P_Gcl.v
theories/P_Gcl2.v
theories/M_GclFit.v
theories/P_Gcl3.v
theories/P_Gcl4.v
theories/Props_Gcl.v
theories/S_Anal.v
theories/M_Anal.v
theories/P_Anal.v
theories/P_Anal2.v
theories/P_Anal3.v
theories/P_Anal4.v
theories/P_Anal5.v
theories/Props_Anal.v
theories/M_Terms.v
theories/S_Terms.v
theories/P_Terms.v
theories/Props_Terms.v
theories/M_Bias.v
theories/S_Bias.v
theories/P_Bias.v
theories/Props_Bias.v
theories/M_Init.v
theories/S_Init.v
theories/P_Init.v
theories/Props_Init.v
theories/M_Tinker.v
theories/S_Tinker.v
theories/P_Tinker.v
theories/P_Tinker2.v
theories/Props_Tinker.v
theories/Props_Tinker2.v
theories/M_Kernels.v
theories/S_Kernels.v
theories/P_Kernels.v
theories/P_KInt.v
theories/Props_Kernels.v
theories/M_Jmn.v
theories/S_Jmn.v
theories/P_Jmn.v
theories/P_JmnSer.v
theories/Props_Jmn.v
theories/S_Kernels2.v
theories/Props_Kernels2.v
theories/M_OneLoop.v
theories/S_OneLoop.v
theories/P_OneLoop.v
theories/P_OneLoop2.v
theories/Props_OneLoop.v
theories/M_Hzpt.v
theories/S_Hzpt.v
theories/P_Hzpt.v
theories/P_HzptCF.v
theories/Props_Hzpt.v
theories/M_Hod.v
theories/S_Hod.v
theories/Props_Hod.v
theories/M_Extrap.v
theories/Props_Extrap.v
theories/M_Mcfit.v
theories/S_Mcfit.v
theories/P_Mcfit.v
theories/Props_Mcfit.v
theories/M_WinTransfer.v
theories/Props_WinTransfer.v
theories/M_Fftlog.v
theories/S_Fftlog.v
theories/P_Fftlog.v
theories/Props_Fftlog.v
theories/M_Bestfit.v
theories/S_Bestfit.v
theories/P_Bestfit.v
theories/Props_Bestfit.v
theories/M_Run.v
theories/S_Run.v
theories/P_Run.v
theories/Props_Run.v
theories/M_ParamWrite.v
theories/S_ParamWrite.v
theories/P_ParamWrite.v
theories/P_ParamWrite2.v
theories/Props_ParamWrite.v
theories/M_Cli.v
theories/S_Cli.v
theories/P_Cli.v
theories/P_Cli2.v
theories/Props_Cli.v
theories/M_Contour.v
theories/S_Contour.v
theories/P_Contour.v
theories/Props_Contour.v
theories/M_TheoryFile.v
theories/S_TheoryFile.v
theories/P_TheoryFile.v
theories/Props_TheoryFile.v
theories/M_Select.v
theories/S_Select.v
theories/P_Select.v
theories/Props_Select.v
theories/M_Fiducial.v
theories/S_Fiducial.v
theories/P_Fiducial.v
theories/Props_Fiducial.v
theories/M_Scatter.v
theories/S_Scatter.v
theories/Props_Scatter.v
theories/M_Perc.v
theories/S_Perc.v
theories/P_Perc.v
theories/Props_Perc.v
theories/M_Npz.v
theories/S_Npz.v
theories/Props_Npz.v
theories/M_ConDeriv.v
theories/S_ConDeriv.v
theories/P_ConDeriv.v
theories/Props_ConDeriv.v
theories/Props_TinkerU.v
theories/M_ConDerivAll.v
theories/Props_ConDerivAll.v
theories/M_Marg.v
theories/Props_Marg.v
