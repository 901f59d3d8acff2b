-Q theories Verif
theories/Num.v
theories/NumFacts.v
theories/Arr.v
theories/Tri.v
theories/ArrFacts.v
theories/Spec.v
theories/TriFacts.v
theories/ConvFacts.v
theories/SliceFacts.v
theories/P_Core.v
theories/P_Pattern.v
theories/P_Filter.v
theories/Ex.v
theories/Prop_Core.v
theories/Arith.v
theories/SpecLabel.v
theories/P_Arith.v
theories/LabelFacts.v
theories/UnionFacts.v
theories/P_Align.v
theories/BcastFacts.v
theories/P_Align2.v
theories/CatFacts.v
theories/P_Align3.v
theories/P_Compare.v
theories/ExLabel.v
theories/Prop_Arith.v
theories/Dev.v
theories/SpecDev.v
theories/DevFacts.v
theories/P_Dev.v
theories/DevFit.v
theories/P_Dev2.v
theories/ExDev.v
theories/Prop_Dev.v
theories/Methods.v
theories/SpecMethods.v
theories/P_Methods.v
theories/P_Tail.v
theories/P_CL.v
theories/P_Benk.v
theories/P_CapeCod.v
theories/ExMethods.v
theories/Prop_Methods.v
theories/View.v
theories/SpecView.v
theories/P_View.v
theories/P_ViewFull.v
theories/P_ViewUlt.v
theories/Prop_View.v
theories/Grain.v
theories/SpecGrain.v
theories/P_Grain.v
theories/P_Grain2.v
theories/P_Grain3.v
theories/P_Grain4.v
theories/P_Grain5.v
theories/Prop_Grain.v
theories/Loc.v
theories/SpecLoc.v
theories/P_Loc.v
theories/Prop_Loc.v
theories/Pandas.v
theories/SpecPandas.v
theories/P_Group.v
theories/P_Sort.v
theories/P_Shift.v
theories/P_Dropna.v
theories/Prop_Pandas.v
theories/Voting.v
theories/SpecVoting.v
theories/P_Voting.v
theories/Prop_Voting.v
theories/Const.v
theories/SpecConst.v
theories/P_Const.v
theories/Prop_Const.v
theories/Search.v
theories/SpecSearch.v
theories/P_Search.v
theories/Prop_Search.v
theories/Calendar.v
theories/P_Calendar.v
theories/Prop_Calendar.v
theories/Build.v
theories/SpecBuild.v
theories/P_Build.v
theories/P_Build2.v
theories/Prop_Build.v
theories/Sparse.v
theories/SpecSparse.v
theories/P_Sparse.v
theories/Prop_Sparse.v
theories/Heap.v
theories/SpecHeap.v
theories/P_Heap.v
theories/Prop_Heap.v
theories/SpecFull.v
theories/P_FullExp.v
theories/Prop_Full.v
theories/P_FullTri.v
theories/Prop_FullTri.v
theories/Trend.v
theories/SpecTrend.v
theories/P_Trend.v
theories/Prop_Trend.v
theories/Mack.v
theories/SpecMack.v
theories/P_Mack.v
theories/Prop_Mack.v
theories/Curve.v
theories/SpecCurve.v
theories/P_Curve.v
theories/Prop_Curve.v
theories/Predict.v
theories/SpecPredict.v
theories/P_Predict.v
theories/Prop_Predict.v
theories/Agg.v
theories/SpecAgg.v
theories/P_Agg.v
theories/Prop_Agg.v
theories/Select.v
theories/SpecSelect.v
theories/P_Select.v
theories/P_Select2.v
theories/P_Select3.v
theories/Prop_Select.v
theories/Olf.v
theories/SpecOlf.v
theories/P_Olf.v
theories/P_Olf2.v
theories/P_Olf3.v
theories/P_Olf4.v
theories/Prop_Olf.v
theories/Corr.v
theories/SpecCorr.v
theories/P_Corr.v
theories/P_Corr2.v
theories/P_Corr3.v
theories/Prop_Corr.v
theories/P_Corr4.v
theories/P_Corr5.v
theories/Prop_Corr2.v
theories/Additive.v
theories/SpecAdditive.v
theories/P_Additive.v
theories/P_Additive2.v
theories/P_Additive3.v
theories/Prop_Additive.v
theories/P_Build3.v
theories/Json.v
theories/SpecJson.v
theories/P_Json.v
theories/P_Json2.v
theories/P_Json3.v
theories/Prop_Json.v
theories/Bondy.v
theories/SpecBondy.v
theories/P_Bondy.v
theories/Prop_Bondy.v
theories/Munich.v
theories/SpecMunich.v
theories/P_Munich1.v
theories/P_Munich2.v
theories/P_Munich3.v
theories/P_Munich4.v
theories/P_Munich5.v
theories/Prop_Munich.v
theories/Berq.v
theories/SpecBerq.v
theories/P_Berq1.v
theories/P_Berq2.v
theories/P_Berq3.v
theories/P_Berq4.v
theories/P_Berq5.v
theories/P_Berq6.v
theories/Prop_Berq.v
theories/Clark.v
theories/SpecClark.v
theories/P_Clark1.v
theories/P_Clark2.v
theories/P_Clark3.v
theories/P_Clark4.v
theories/P_Clark5.v
theories/Prop_Clark.v
theories/Outst.v
theories/P_Out1.v
theories/P_Out2.v
theories/P_Out3.v
theories/P_Out4.v
theories/P_Out5.v
theories/P_Out6.v
theories/P_Out7.v
theories/P_Out8.v
theories/P_Out9.v
theories/SpecOutst.v
theories/P_Out10.v
theories/P_Out11.v
theories/Prop_Out.v
theories/Boot.v
theories/SpecBoot.v
theories/P_Boot1.v
theories/P_Boot2.v
theories/P_Boot3.v
theories/P_Boot4.v
theories/P_Boot5.v
theories/Prop_Boot.v
theories/Fill.v
theories/SpecFill.v
theories/P_Fill.v
theories/Prop_Fill.v
theories/Diag.v
theories/SpecDiag.v
theories/P_Diag1.v
theories/P_Diag2.v
theories/P_Diag3.v
theories/P_Diag4.v
theories/P_Diag5.v
theories/Prop_Diag.v
theories/Rename.v
theories/SpecRename.v
theories/P_Rename.v
theories/Prop_Rename.v
theories/Store.v
theories/SpecStore.v
theories/P_Store.v
theories/Prop_Store.v
theories/Table.v
theories/SpecTable.v
theories/P_Table.v
theories/Prop_Table.v
theories/Learn.v
theories/SpecLearn.v
theories/P_Learn.v
theories/Prop_Learn.v
theories/Pipe.v
theories/SpecPipe.v
theories/P_Pipe.v
theories/Prop_Pipe.v
theories/Options.v
theories/SpecOptions.v
theories/P_Options.v
theories/Prop_Options.v
theories/AutoSparse.v
theories/SpecAutoSparse.v
theories/P_AutoSparse.v
theories/Prop_AutoSparse.v
