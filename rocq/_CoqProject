-Q theories Verif
theories/Model_Num.v
theories/Model_Kernels.v
theories/RealAux.v
theories/Spec_Kernels.v
theories/Proofs_Kernels.v
theories/Proofs_Kernels2.v
theories/Proofs_XKernels.v
theories/Proofs_AD.v
theories/Proofs_XAD.v
theories/Proofs_Kernels3.v
theories/Props_Kernels.v
theories/Model_Float.v
theories/Spec_Float.v
theories/Proofs_Float.v
theories/Proofs_Float2.v
theories/Proofs_Float3.v
theories/Proofs_Float4.v
theories/Proofs_Float5.v
theories/Props_Float.v
theories/Model_Base.v
theories/Model_Utils.v
theories/Spec_Utils.v
theories/Proofs_Utils.v
theories/Proofs_Chol.v
theories/Proofs_Trim.v
theories/Proofs_Cov.v
theories/Props_Utils.v
theories/Model_Adam.v
theories/Model_Fitter.v
theories/Spec_Fitter.v
theories/Proofs_Adam.v
theories/Proofs_Fitter.v
theories/Proofs_Loss.v
theories/Proofs_Fitter2.v
theories/Proofs_Fitter3.v
theories/Props_Fitter.v
theories/Model_Outline.v
theories/Spec_Outline.v
theories/Proofs_Outline.v
theories/Proofs_Outline2.v
theories/Props_Outline.v
theories/Model_PopBase.v
theories/Model_PopData.v
theories/Model_PopKernels.v
theories/Model_PopParams.v
theories/Spec_Pop.v
theories/Spec_TruncNorm.v
theories/Proofs_PopBase.v
theories/Proofs_PopParams.v
theories/Proofs_PopAll.v
theories/Proofs_PopInterp.v
theories/Proofs_PopKernels.v
theories/Proofs_PopCov.v
theories/Proofs_PopTpeak.v
theories/Proofs_PopProps.v
theories/Proofs_PopMass.v
theories/Props_Pop.v
theories/Model_PopMC.v
theories/Spec_PopMC.v
theories/Proofs_PopMC.v
theories/Proofs_PopMC2.v
theories/Proofs_PopLoss.v
theories/Proofs_PopMC3.v
theories/Props_PopMC.v
theories/Model_Data.v
theories/Spec_Data.v
theories/Proofs_Data.v
theories/Proofs_Data2.v
theories/Proofs_Data3.v
theories/Proofs_Data4.v
theories/Proofs_Data5.v
theories/Props_Data.v
theories/Model_MPI.v
theories/Spec_MPI.v
theories/Proofs_MPI.v
theories/Proofs_MPI2.v
theories/Proofs_MPI3.v
theories/Proofs_MPI4.v
theories/Proofs_MPI5.v
theories/Proofs_MPI6.v
theories/Proofs_MPI7.v
theories/Proofs_MPI8.v
theories/Proofs_MPI9.v
theories/Proofs_MPI10.v
theories/Proofs_MPI11.v
theories/Props_MPI.v
theories/Model_Tab.v
theories/Spec_Tab.v
theories/Proofs_Tab.v
theories/Proofs_Tab2.v
theories/Proofs_Tab3.v
theories/Proofs_Tab4.v
theories/Props_Tab.v
theories/Model_CompFit.v
theories/Spec_CompFit.v
theories/Proofs_CompFit.v
theories/Props_CompFit.v
theories/Model_TpeakPop.v
theories/Spec_TpeakPop.v
theories/Proofs_TpeakPop.v
theories/Props_TpeakPop.v
theories/Model_SimLoad.v
theories/Spec_SimLoad.v
theories/Proofs_SimLoad.v
theories/Props_SimLoad.v
theories/Model_TestRuns.v
theories/Spec_TestRuns.v
theories/Proofs_TestRuns.v
theories/Props_TestRuns.v
theories/Model_Plots.v
theories/Spec_Plots.v
theories/Proofs_Plots.v
theories/Props_Plots.v
theories/Model_Grad.v
theories/Spec_Grad.v
theories/Proofs_PopAD.v
theories/Proofs_PopAD2.v
theories/Proofs_CholAD.v
theories/Proofs_PopAD3.v
theories/Proofs_PopAD4.v
theories/Proofs_PopAD5.v
theories/Proofs_PopAD6.v
theories/Proofs_PopAD7.v
theories/Proofs_PopAD8.v
theories/Proofs_PopAD9.v
theories/Proofs_GradZero.v
theories/Proofs_GradEx.v
theories/Proofs_GradEx2.v
theories/Proofs_GradEx3.v
theories/Props_Grad.v
theories/Model_CompGrad.v
theories/Spec_CompGrad.v
theories/Proofs_CompGrad.v
theories/Proofs_CompGradEx.v
theories/Props_CompGrad.v
theories/Proofs_FloatQ.v
theories/Spec_PopFloat.v
theories/Proofs_PopFloat.v
theories/Proofs_PopFloat2.v
theories/Proofs_PopFloat3.v
theories/Proofs_PopFloat4.v
theories/Proofs_PopFloat5.v
theories/Props_PopFloat.v
theories/Proofs_PopFloat6.v
theories/Proofs_PopFloat7.v
theories/Proofs_PopFloat8.v
theories/Proofs_PopFloat9.v
theories/Proofs_PopFloat11.v
theories/Proofs_PopFloat10.v
theories/Props_PopFloat2.v
theories/Proofs_FitFloat.v
theories/Props_FitFloat.v
theories/Spec_PopLimits.v
theories/Proofs_PopLimits.v
theories/Props_PopLimits.v
theories/Proofs_Float7.v
theories/Spec_Trip.v
theories/Props_Float3.v
theories/Proofs_Stability.v
theories/Props_Stability.v
theories/Proofs_Identify.v
theories/Props_Identify.v
theories/Spec_Formation.v
theories/Proofs_Formation.v
theories/Props_Formation.v
theories/Spec_Specific.v
theories/Proofs_Specific.v
theories/Proofs_Specific2.v
theories/Props_Specific.v
theories/Props_Response.v
theories/Spec_EndToEnd.v
theories/Props_EndToEnd.v
theories/Proofs_Today.v
theories/Props_Today.v
