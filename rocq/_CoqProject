-Q theories Verif
theories/PyBase.v
theories/QcLib.v
theories/NumModel.v
theories/NumSpec.v
theories/NumProofs.v
theories/FloatCodec.v
theories/PropNum.v
theories/SettingsModel.v
theories/SettingsSpec.v
theories/SettingsProofs.v
theories/PropSettings.v
theories/MacroModel.v
theories/MacroSpec.v
theories/MacroProofs.v
theories/PropMacro.v
theories/SplitModel.v
theories/PropSplit.v
theories/Regex.v
theories/FmtModel.v
theories/FmtProofs.v
theories/GerberText.v
theories/GerberTextSpec.v
theories/GerberTextProofs.v
theories/PropGerberText.v
theories/GerberEval.v
theories/GerberEvalSpec.v
theories/GerberEvalProofs.v
theories/PropGerberEval.v
theories/HeapModel.v
theories/HeapSpec.v
theories/HeapProofs.v
theories/PropHeap.v
theories/GerberConv.v
theories/GerberConvSpec.v
theories/GerberConvProofs.v
theories/PropGerberConv.v
theories/ExcellonModel.v
theories/ExcellonFile.v
theories/ExcellonSpec.v
theories/ExcellonProofs.v
theories/ExcellonRun.v
theories/DecimalProofs.v
theories/ExcellonMore.v
theories/PropExcellon.v
theories/PropExcellonFile.v
theories/DetectModel.v
theories/LayersModel.v
theories/LayersSpec.v
theories/LayersProofs.v
theories/PropLayers.v
theories/IpcModel.v
theories/IpcSpec.v
theories/IpcProofs.v
theories/PropIpc.v
theories/BoxModel.v
theories/GeomModel.v
theories/GeomSpec.v
theories/GeomProofs.v
theories/PropGeom.v
theories/GroupModel.v
theories/GroupSpec.v
theories/GroupProofs.v
theories/PropGroup.v
theories/CacheModel.v
theories/CacheSpec.v
theories/CacheProofs.v
theories/CacheMove.v
theories/PropCache.v
theories/WriterModel.v
theories/WriterSpec.v
theories/WriterProofs.v
theories/WriterRound.v
theories/WriterFile.v
theories/WriterExamples.v
theories/PropWriter.v
theories/ReprModel.v
theories/ReprProofs.v
theories/AmModel.v
theories/AmSpec.v
theories/AmProofs.v
theories/AmWrite.v
theories/AmConv.v
theories/AmExamples.v
theories/PropAm.v
theories/HullModel.v
theories/HullSpec.v
theories/HullProofs.v
theories/PropHull.v
theories/MacroGeomModel.v
theories/MacroGeomSpec.v
theories/MacroGeomProofs.v
theories/PropMacroGeom.v
theories/ToolModel.v
theories/ToolSpec.v
theories/ToolProofs.v
theories/HeadSpec.v
theories/HeadRun.v
theories/PropTool.v
theories/SniffModel.v
theories/SniffSpec.v
theories/SniffProofs.v
theories/SniffRun.v
theories/PropSniff.v
theories/CenterModel.v
theories/CenterSpec.v
theories/CenterProofs.v
theories/PropCenter.v
theories/CairoModel.v
theories/CairoSpec.v
theories/CairoProofs.v
theories/CairoLayer.v
theories/CairoMore.v
theories/CairoScale.v
theories/PropCairo.v
theories/AmRenderModel.v
theories/AmRenderSpec.v
theories/AmRenderProofs.v
theories/AmRenderFile.v
theories/AmShareModel.v
theories/AmShareSpec.v
theories/AmShareProofs.v
theories/AmRenderExamples.v
theories/PropAmRender.v
theories/PlateSpec.v
theories/PlateRun.v
theories/PropPlate.v
theories/VertModel.v
theories/VertSpec.v
theories/VertProofs.v
theories/PropVert.v
theories/RoutSpec.v
theories/RoutRun.v
theories/PropRout.v
theories/DrillOutModel.v
theories/DrillOutSpec.v
theories/DrillOutProofs.v
theories/DrillOutSafe.v
theories/PropDrillOut.v
theories/ReportModel.v
theories/ReportSpec.v
theories/ReportProofs.v
theories/PropReport.v
theories/ThemeModel.v
theories/ThemeSpec.v
theories/ThemeProofs.v
theories/PropTheme.v
theories/DirModel.v
theories/DirSpec.v
theories/DirProofs.v
theories/PropDir.v
theories/ScaleSpec.v
theories/ScaleProofs.v
theories/ScaleCenter.v
theories/PropScale.v
theories/SlotWrite.v
theories/PropSlotWrite.v
theories/BareModel.v
theories/BareSpec.v
theories/BareProofs.v
theories/PropBare.v
theories/RoundSpec.v
theories/RoundText.v
theories/RoundImage.v
theories/RoundFile.v
theories/PropRound.v
theories/MainModel.v
theories/MainSpec.v
theories/MainProofs.v
theories/PropMain.v
theories/DrillRoundSpec.v
theories/DrillRoundText.v
theories/DrillRoundFile.v
theories/PropDrillRound.v
theories/ShowModel.v
theories/ShowSpec.v
theories/ShowProofs.v
theories/ShowFile.v
theories/ShowExamples.v
theories/PropShow.v
theories/ShowMacro.v
theories/CamShowModel.v
theories/CamShowSpec.v
theories/CamShowProofs.v
theories/CamShowDrill.v
theories/CamShowExamples.v
theories/PropCamShow.v
theories/SimilarSpec.v
theories/SimilarProofs.v
theories/SimilarFile.v
theories/SimilarExact.v
theories/SimilarExamples.v
theories/SimilarPolygon.v
theories/PropSimilar.v
theories/SessionModel.v
theories/SessionSpec.v
theories/SessionProofs.v
theories/SessionDraw.v
theories/SessionDump.v
theories/SessionExamples.v
theories/PropSession.v
theories/ImageParamSpec.v
theories/ImageParamProofs.v
theories/PropImageParam.v
theories/DrillShowModel.v
theories/DrillShowSpec.v
theories/DrillShowProofs.v
theories/DrillShowFile.v
theories/DrillShowExamples.v
theories/TextShowProofs.v
theories/ToolDefProofs.v
theories/PropDrillShow.v
theories/PropToolDef.v
theories/DrillLinesSpec.v
theories/DrillLinesProofs.v
theories/PropDrillLines.v
theories/NextToolSpec.v
theories/NextToolProofs.v
theories/PropNextTool.v
theories/NetShowModel.v
theories/NetShowSpec.v
theories/NetShowProofs.v
theories/PropNetShow.v
theories/ToolEqModel.v
theories/ToolEqSpec.v
theories/ToolEqProofs.v
theories/PropToolEq.v
theories/CairoExactSpec.v
theories/CairoExact.v
theories/CairoExactFile.v
theories/PropCairoExact.v
theories/NoFormatSpec.v
theories/NoFormatProofs.v
theories/PropNoFormat.v
theories/MacroFileModel.v
theories/MacroFileSpec.v
theories/MacroFileProofs.v
theories/MacroFileShow.v
theories/MacroFileExamples.v
theories/PropMacroFile.v
theories/FormatStmtSpec.v
theories/FormatStmtProofs.v
theories/PropFormatStmt.v
theories/HitConvSpec.v
theories/HitConvProofs.v
theories/PropHitConv.v
theories/KeptSpec.v
theories/KeptProofs.v
theories/PropKept.v
theories/NetFileSpec.v
theories/NetFileProofs.v
theories/PropNetFile.v
theories/UnstatedProofs.v
theories/PropUnstated.v
theories/CommentBuild.v
theories/PropComment.v
theories/ObjectSpec.v
theories/ObjectProofs.v
theories/PropObject.v
theories/IdleSpec.v
theories/IdleProofs.v
theories/PropIdle.v
theories/StaySpec.v
theories/StayProofs.v
theories/PropStay.v
theories/NetIdleSpec.v
theories/NetIdleProofs.v
theories/PropNetIdle.v
theories/EndSpec.v
theories/EndProofs.v
theories/PropEnd.v
theories/NetStaySpec.v
theories/NetStayProofs.v
theories/PropNetStay.v
theories/SvgSpec.v
theories/SvgProofs.v
theories/DumpModel.v
theories/DumpSpec.v
theories/DumpProofs.v
theories/PropDump.v
theories/NetEolSpec.v
theories/NetEolProofs.v
theories/PropNetEol.v
theories/DrillEolSpec.v
theories/DrillEolProofs.v
theories/PropDrillEol.v
theories/StmtEqModel.v
theories/StmtEqSpec.v
theories/StmtEqProofs.v
theories/PropStmtEq.v
theories/PrimEqModel.v
theories/PrimEqSpec.v
theories/PrimEqProofs.v
theories/PropPrimEq.v
theories/DrillStrModel.v
theories/DrillStrSpec.v
theories/DrillStrProofs.v
theories/PropDrillStr.v
theories/LookupModel.v
theories/LookupSpec.v
theories/LookupProofs.v
theories/PropLookup.v
theories/ToolReprModel.v
theories/ToolReprSpec.v
theories/ToolReprProofs.v
theories/PropToolRepr.v
theories/SetStrModel.v
theories/SetStrProofs.v
theories/PropSetStr.v
theories/ValidModel.v
theories/ValidSpec.v
theories/ValidProofs.v
theories/PropValid.v
theories/IpcReprModel.v
theories/IpcReprSpec.v
theories/IpcReprProofs.v
theories/PropIpcRepr.v
theories/HitStrModel.v
theories/HitStrSpec.v
theories/HitStrProofs.v
theories/PropHitStr.v
