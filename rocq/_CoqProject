-Q theories Verif
theories/Base.v
theories/BaseLemmas.v
theories/Num.v
theories/Toy.v
theories/F32.v
theories/F32Proofs.v
theories/Spec.v
theories/Utils.v
theories/UtilsProofs.v
theories/UtilsReal.v
theories/Interp.v
theories/Sed.v
theories/Response.v
theories/InterpReal.v
theories/ResponseProofs.v
theories/ResponseObj.v
theories/ResponseFwhm.v
theories/LinInterp.v
theories/ResponseEx.v
theories/RespDict.v
theories/Fitter.v
theories/FitSpec.v
theories/F32Spec.v
theories/F32Grid.v
theories/F32Ex.v
theories/FitterProofs.v
theories/FitterMC.v
theories/FitEx.v
theories/FitterThms.v
theories/FitReal.v
theories/FitTable.v
theories/FitRealEx.v
theories/FitRealThms.v
theories/Kcorrect.v
theories/KSpec.v
theories/KTable.v
theories/KcorrectProofs.v
theories/DerivedProofs.v
theories/McProofs.v
theories/XrAlg.v
theories/KEx.v
theories/AbsmagProofs.v
theories/AbProofs.v
theories/KcorrectThms.v
theories/AbsmagThms.v
theories/McThms.v
theories/DerivedThms.v
theories/Persist.v
theories/PersistSpec.v
theories/PersistProofs.v
theories/PersistEx.v
theories/AbThms.v
theories/PersistThms.v
theories/Heap.v
theories/HeapSpec.v
theories/HeapProofs.v
theories/HeapEx.v
theories/HeapThms.v
theories/F32Thms.v
theories/Prop_F32.v
theories/Prop_Heap.v
theories/Prop_Persist.v
theories/Prop_Ab.v
theories/Prop_Mc.v
theories/Prop_Derived.v
theories/Prop_Kcorrect.v
theories/Prop_Absmag.v
theories/UtilsThms.v
theories/Prop_Utils.v
theories/SedThms.v
theories/Prop_Sed.v
theories/ResponseThms.v
theories/Prop_Response.v
theories/RespDictThms.v
theories/Prop_RespDict.v
theories/Prop_Fitter.v
theories/Prop_FitReal.v
theories/BuildSpec.v
theories/BuildProofs.v
theories/BuildTable.v
theories/BuildEx.v
theories/BuildThms.v
theories/Prop_Build.v
theories/Spline.v
theories/SplineSpec.v
theories/SplineProofs.v
theories/SplineThms.v
theories/Prop_Spline.v
theories/ShiftSpec.v
theories/ShiftThms.v
theories/Prop_Shift.v
theories/CurveThms.v
theories/Prop_Curve.v
theories/Plot.v
theories/PlotSpec.v
theories/PlotThms.v
theories/Prop_Plot.v
theories/NnlsSpec.v
theories/NnlsExact.v
theories/NnlsEx.v
theories/NnlsThms.v
theories/Prop_Nnls.v
theories/ErrorThms.v
theories/Prop_Error.v
theories/RoundSpec.v
theories/RoundProofs.v
theories/RoundThms.v
theories/Prop_Round.v
theories/ApproxSpec.v
theories/ApproxThms.v
theories/Prop_Approx.v
theories/Threads.v
theories/ThreadsSeq.v
theories/ThreadsPar.v
theories/ThreadsInv.v
theories/ThreadsRun.v
theories/ThreadsEx.v
theories/ThreadsThms.v
theories/Prop_Threads.v
theories/PipeSpec.v
theories/PipeProofs.v
theories/PipeEx.v
theories/PipeThms.v
theories/Prop_Pipe.v
theories/AuditThms.v
theories/Prop_Audit.v
theories/BlendSpec.v
theories/BlendProofs.v
theories/BlendEx.v
theories/BlendThms.v
theories/Prop_Blend.v
theories/NormSpec.v
theories/NormProofs.v
theories/NormThms.v
theories/Prop_Norm.v
theories/SteadySpec.v
theories/SteadyProofs.v
theories/SteadyThms.v
theories/Prop_Steady.v
theories/LightThms.v
theories/Prop_Light.v
theories/Scripts.v
theories/ScriptsSpec.v
theories/ScriptsEx.v
theories/ScriptsProofs.v
theories/ScriptsReal.v
theories/ScriptsThms.v
theories/Prop_Scripts.v
theories/ScriptsV4.v
theories/ScriptsV4Proofs.v
theories/ScriptsV4Ex.v
theories/ScriptsV4Thms.v
theories/Prop_ScriptsV4.v
theories/FitRoundSpec.v
theories/FitRoundProofs.v
theories/FitRoundThms.v
theories/Prop_FitRound.v
theories/SharedSpec.v
theories/SharedProofs.v
theories/SharedThms.v
theories/Prop_Shared.v
theories/SparseSpec.v
theories/SparseProofs.v
theories/SparseEx.v
theories/SparseThms.v
theories/Prop_Sparse.v
theories/DocThms.v
theories/Prop_Doc.v
theories/QuadSpec.v
theories/QuadProofs.v
theories/QuadThms.v
theories/Prop_Quad.v
theories/AccThms.v
theories/Prop_Acc.v
theories/ProjRoundSpec.v
theories/ProjRoundThms.v
theories/Prop_ProjRound.v
theories/FluxAccSpec.v
theories/FluxAccThms.v
theories/Prop_FluxAcc.v
theories/ObsSpec.v
theories/ObsThms.v
theories/Prop_Obs.v
theories/RewriteThms.v
theories/Prop_Rewrite.v
theories/ActiveSpec.v
theories/ActiveThms.v
theories/Prop_Active.v
theories/CatSpec.v
theories/CatThms.v
theories/Prop_Cat.v
theories/InstrSpec.v
theories/InstrProofs.v
theories/InstrEx.v
theories/InstrThms.v
theories/Prop_Instr.v
theories/Reload.v
theories/ReloadThms.v
theories/Prop_Reload.v
theories/SetThms.v
theories/Prop_Set.v
theories/UtilsRoundSpec.v
theories/UtilsRoundThms.v
theories/Prop_UtilsRound.v
theories/WidthSpec.v
theories/WidthThms.v
theories/Prop_Width.v
theories/DerRoundThms.v
theories/Prop_DerRound.v
theories/Instr2Thms.v
theories/Prop_Instr2.v
theories/TwiceThms.v
theories/Prop_Twice.v
theories/MagRoundThms.v
theories/Prop_MagRound.v
theories/RespCols.v
theories/RespColsThms.v
theories/Prop_RespCols.v
theories/McCatSpec.v
theories/McCatThms.v
theories/Prop_McCat.v
theories/McCatAbThms.v
theories/Prop_McCatAb.v
theories/McPartsThms.v
theories/Prop_McParts.v
