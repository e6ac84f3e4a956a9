-Q theories Verif
theories/Base.v
theories/BaseFacts.v
theories/Util.v
theories/UtilFacts.v
theories/Lang.v
theories/Spec.v
theories/Graph.v
theories/Api.v
theories/Denote.v
theories/SpecFacts.v
theories/DenoteFacts.v
theories/ArrayLit.v
theories/ArrayFacts.v
theories/Reach.v
theories/ApiFacts.v
theories/Tolist.v
theories/TolistFacts.v
theories/FrontSpec.v
theories/FrontFacts.v
theories/FrontFacts2.v
theories/LangInst.v
theories/FrontFacts3.v
theories/FrontFacts4.v
theories/Prog.v
theories/PropViews.v
theories/PropCreate.v
theories/Algo.v
theories/AlgoSem.v
theories/AlgoConv.v
theories/AlgoConv2.v
theories/AlgoFuse.v
theories/AlgoFuse2.v
theories/AlgoConvert.v
theories/AlgoConvert2.v
theories/Kernel.v
theories/Sched.v
theories/Codegen.v
theories/Backends.v
theories/KernFacts.v
theories/RenderFacts.v
theories/KernelOk.v
theories/RunFacts.v
theories/SchedFacts.v
theories/SchedGpu.v
theories/KernelRun.v
theories/KernelRun2.v
theories/BackendFacts.v
theories/AlgoTop.v
theories/PropAlgo.v
theories/AlgoMore.v
theories/CacheKey.v
theories/Runtime.v
theories/RuntimeFacts.v
theories/RuntimeFacts2.v
theories/History.v
theories/HistFacts.v
theories/RtInst.v
theories/Safety.v
theories/CacheFacts.v
theories/Frame.v
theories/HistFacts2.v
theories/HistTools.v
theories/Tidy.v
theories/TidyTools.v
theories/RuntimeTop.v
theories/PropRuntime.v
theories/Nest.v
theories/NestSched.v
theories/NestBody.v
theories/Parallel.v
theories/ParKernel.v
theories/ParCpu.v
theories/ParTop.v
theories/ParGpu.v
theories/PropPar.v
theories/SchedUser.v
theories/SchedUser2.v
theories/SchedUser3.v
theories/SchedReach.v
theories/FloatDiv.v
theories/PropSched.v
theories/Backward.v
theories/BackSpec.v
theories/BackOrder.v
theories/BackSteps.v
theories/BackIdx.v
theories/BackSlice.v
theories/BackRules.v
theories/BackRun.v
theories/BackTop.v
theories/RealAlg.v
theories/GradSpec.v
theories/BackAdj.v
theories/BackReal.v
theories/BackGrad.v
theories/BackTimes.v
theories/PropBack.v
theories/Lockstep.v
theories/Agree.v
theories/PropLang.v
theories/Text.v
theories/TextPrint.v
theories/TextParse.v
theories/TextLex.v
theories/TextName.v
theories/TextExpr.v
theories/TextStmt.v
theories/TextRead.v
theories/TextMono.v
theories/TextTop.v
theories/TextBind.v
theories/PropText.v
theories/Device.v
theories/DevFacts.v
theories/DevRun.v
theories/DevHist.v
theories/DevProg.v
theories/DevAny.v
theories/DevTools.v
theories/DevStale.v
theories/PropDevice.v
theories/PropTidy.v
theories/BackScalar.v
theories/Grow.v
theories/PropScalar.v
theories/Defined.v
theories/PropRead.v
theories/Generator.v
theories/PropGen.v
theories/TestsBase.v
theories/Tests.v
theories/Copy.v
theories/CopyConv.v
theories/CopyKey.v
theories/CopyRun.v
theories/CopyApi.v
theories/CopySafe.v
theories/PropCache.v
theories/Switch.v
theories/PropSwitch.v
theories/SrcSem.v
theories/SrcFacts.v
theories/SrcSim.v
theories/SrcKernel.v
theories/SrcTop.v
theories/SrcAll.v
theories/PropSrc.v
theories/IEEE.v
theories/ErrSpec.v
theories/ErrFacts.v
theories/PropErr.v
theories/PropGrad.v
theories/PropCuda.v
theories/PropPad.v
theories/PropArgs.v
theories/Cost.v
theories/PropCost.v
theories/Once.v
theories/PropOnce.v
theories/ArrayExact.v
theories/ViewExact.v
theories/PropExact.v
theories/Stack.v
theories/StackFacts.v
theories/PropStack.v
theories/PropExact2.v
theories/SchedFail.v
theories/PropSchedFail.v
theories/Print.v
theories/PrintFacts.v
theories/PrintText.v
theories/PropPrint.v
theories/SchedPar.v
theories/Pragma.v
theories/PropOmp.v
theories/SchedGpuUser.v
theories/PropGpuSched.v
theories/SchedExact.v
theories/PropSchedExact.v
theories/Interrupt.v
theories/InterruptFacts.v
theories/InterruptAny.v
theories/PropStop.v
theories/BackAny.v
theories/PropBackAny.v
theories/Limits.v
theories/PropLimits.v
theories/StackGen.v
theories/PropStackGen.v
theories/StackRun.v
theories/PropStackStop.v
theories/KeyText.v
theories/KeyRun.v
theories/PropKeyText.v
theories/DevReset.v
theories/PropDevReset.v
theories/DevStop.v
theories/PropDevStop.v
theories/PrintDev.v
theories/PropPrintDev.v
theories/DevGrad.v
theories/PropDevGrad.v
theories/DevKey.v
theories/PropDevKey.v
theories/DevStack.v
theories/PropDevStack.v
theories/DevOrder.v
theories/PropDevOrder.v
theories/DevCopy.v
theories/PropDevCopy.v
theories/DevAgain.v
theories/PropDevAgain.v
