-Q theories Verif
theories/Base.v
theories/Num.v
theories/ArgsModel.v
theories/ArgsSpec.v
theories/ArgsProofs.v
theories/PropsArgs.v
theories/ParamsModel.v
theories/GeoModel.v
theories/GeoSpec.v
theories/ParamsProofs.v
theories/GeoProofs.v
theories/GeoUnit.v
theories/GeoRoundtrip.v
theories/GeoApi.v
theories/PropsParams.v
theories/Double.v
theories/DataModel.v
theories/DataSpec.v
theories/DoubleProofs.v
theories/DataProofs.v
theories/DataBinary.v
theories/DataStore.v
theories/PropsData.v
theories/TextModel.v
theories/TextProofs.v
theories/TextRound.v
theories/TextCI.v
theories/PropsText.v
theories/CommonModel.v
theories/CommonProofs.v
theories/PropsCommon.v
theories/FuncModel.v
theories/FuncSpec.v
theories/FuncProofs.v
theories/FuncJac.v
theories/FuncParam.v
theories/PropsFunc.v
theories/FuncFile.v
theories/FuncFileSpec.v
theories/FuncFileProofs.v
theories/FuncFileMore.v
theories/PropsFuncFile.v
theories/DistModel.v
theories/DistSpec.v
theories/DistProofs.v
theories/PropsDist.v
theories/MonoModel.v
theories/MonoSpec.v
theories/MonoProofs.v
theories/RatModel.v
theories/RatSpec.v
theories/RatProofs.v
theories/RatFile.v
theories/PropsRat.v
theories/BasisModel.v
theories/BasisSpec.v
theories/BasisProofs.v
theories/PropsBasis.v
theories/PlugModel.v
theories/PlugSpec.v
theories/PlugProofs.v
theories/PropsPlug.v
theories/MerlModel.v
theories/MerlSpec.v
theories/MerlProofs.v
theories/PropsMerl.v
theories/GridModel.v
theories/GridSpec.v
theories/GridProofs.v
theories/GridMore.v
theories/PropsGrid.v
theories/SliceModel.v
theories/SliceSpec.v
theories/SliceProofs.v
theories/PropsSlice.v
theories/UtiaModel.v
theories/UtiaSpec.v
theories/UtiaProofs.v
theories/PropsUtia.v
theories/QuadModel.v
theories/QuadSpec.v
theories/QuadProofs.v
theories/QuadFit.v
theories/QuadSizes.v
theories/QuadPar.v
theories/QuadSearch.v
theories/QuadSched.v
theories/PropsQuad.v
theories/LsqModel.v
theories/LsqSpec.v
theories/LsqProofs.v
theories/LsqEigen.v
theories/LsqIter.v
theories/PropsLsq.v
theories/MetricsModel.v
theories/MetricsSpec.v
theories/MetricsProofs.v
theories/PropsMetrics.v
theories/NlModel.v
theories/NlSpec.v
theories/NlProofs.v
theories/NlGrad.v
theories/NlGrad2.v
theories/NlGrad3.v
theories/NlGrad4.v
theories/NlGrad5.v
theories/NlMoreModel.v
theories/NlMoreSpec.v
theories/NlMoreProofs.v
theories/NlLobes.v
theories/NlLobes2.v
theories/NlSgd.v
theories/PropsNl.v
theories/PropsNl2.v
theories/FitModel.v
theories/FitSpec.v
theories/FitProofs.v
theories/FitProofs2.v
theories/FitProofs3.v
theories/FitProofs4.v
theories/PropsFit.v
theories/ConvModel.v
theories/ConvSpec.v
theories/ConvProofs.v
theories/ConvProofs2.v
theories/ConvProofs3.v
theories/ConvProofs4.v
theories/ConvProofs5.v
theories/ConvProofs6.v
theories/PropsConv.v
theories/MomModel.v
theories/MomSpec.v
theories/MomProofs.v
theories/MomProofs2.v
theories/MomProofs3.v
theories/MomProofs4.v
theories/PropsMom.v
theories/AstmModel.v
theories/AstmSpec.v
theories/AstmProofs.v
theories/AstmProofs2.v
theories/PropsAstm.v
theories/RbfModel.v
theories/RbfSpec.v
theories/RbfProofs.v
theories/RbfProofs2.v
theories/PropsRbf.v
theories/Glsl.v
theories/GlslModel.v
theories/GlslSpec.v
theories/GlslValueSpec.v
theories/GlslLex.v
theories/GlslParse.v
theories/GlslBody.v
theories/GlslProgram.v
theories/GlslCheck.v
theories/GlslEval.v
theories/GlslRun.v
theories/GlslValue.v
theories/GlslTree.v
theories/GlslSame.v
theories/GlslReject.v
theories/GlslWrong.v
theories/PropsGlsl.v
theories/PropsNl3.v
theories/PfModel.v
theories/PfSpec.v
theories/PfProofs.v
theories/PfProofs2.v
theories/PfProofs3.v
theories/PfProofs4.v
theories/PfProofs5.v
theories/PfProofs6.v
theories/PropsPf.v
theories/PyModel.v
theories/PySpec.v
theories/PyProofs.v
theories/PyProofs2.v
theories/PyProofs3.v
theories/PyProofs4.v
theories/PyProofs5.v
theories/PyProofs6.v
theories/PropsPy.v
theories/LafModel.v
theories/LafSpec.v
theories/LafProofs.v
theories/LafProofs2.v
theories/LafProofs3.v
theories/LafProofs4.v
theories/LafProofs5.v
theories/PropsLaf.v
theories/BootModel.v
theories/BootSpec.v
theories/BootProofs.v
theories/BootProofs2.v
theories/BootProofs3.v
theories/BootProofs4.v
theories/PropsBoot.v
theories/ToolModel.v
theories/ToolSpec.v
theories/ToolProofs.v
theories/ToolProofs2.v
theories/ToolProofs3.v
theories/ToolFiles.v
theories/ToolProofs4.v
theories/ToolProofs5.v
theories/PropsTool.v
theories/Cpp.v
theories/CppModel.v
theories/CppSpec.v
theories/CppLex.v
theories/CppValue.v
theories/CppNames.v
theories/CppReject.v
theories/CppMatlab.v
theories/PropsCpp.v
theories/PtModel.v
theories/PtSpec.v
theories/PtProofs.v
theories/PtProofs2.v
theories/PropsPt.v
theories/CutSpec.v
theories/CutProofs.v
theories/PropsCut.v
theories/TdModel.v
theories/TdSpec.v
theories/TdProofs.v
theories/PropsTd.v
theories/OptModel.v
theories/OptSpec.v
theories/OptProofs.v
theories/PropsOpt.v
theories/RcutSpec.v
theories/RcutProofs.v
theories/PropsRcut.v
theories/DecModel.v
theories/DecSpec.v
theories/DecProofs.v
theories/DecProofs2.v
theories/DecProofs3.v
theories/DecProofs4.v
theories/DecProofs5.v
theories/PropsDec.v
theories/ParModel.v
theories/ParSpec.v
theories/ParProofs.v
theories/ParProofs2.v
theories/ParProofs3.v
theories/QparModel.v
theories/QparProofs.v
theories/PropsPar.v
theories/RecSpec.v
theories/RecProofs.v
theories/RecProofs2.v
theories/RecProofs3.v
theories/RecPi.v
theories/RecGauss.v
theories/RecProofs4.v
theories/RecProofs5.v
theories/PropsRec.v
theories/RhistModel.v
theories/RhistSpec.v
theories/RhistProofs.v
theories/RhistProofs2.v
theories/RhistProofs3.v
theories/RhistProofs4.v
theories/RhistProofs5.v
theories/PropsRhist.v
theories/CutTabSpec.v
theories/CutTabProofs.v
theories/PropsCutTab.v
theories/MatModel.v
theories/MatSpec.v
theories/MatProofs.v
theories/MatProofs2.v
theories/MatProofs3.v
theories/MatProofs4.v
theories/PropsMat.v
theories/MemoModel.v
theories/MemoSpec.v
theories/MemoProofs.v
theories/MemoProofs2.v
theories/MemoProofs3.v
theories/PropsMemo.v
theories/SeqModel.v
theories/SeqSpec.v
theories/SeqProofs.v
theories/PropsSeq.v
theories/PyFileModel.v
theories/PyFileProofs.v
theories/PropsPyFile.v
