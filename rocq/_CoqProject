-Q theories Verif
theories/AccumProofs.v
theories/AddThms.v
theories/ApproxModel.v
theories/ApproxProofs.v
theories/ApproxSpec.v
theories/ApproxThms.v
theories/Base.v
theories/BaseProofs.v
theories/BluespotModel.v
theories/BluespotProofs.v
theories/BluespotSpec.v
theories/BluespotThms.v
theories/CmdModel.v
theories/CmdRuns.v
theories/CmdSpec.v
theories/CmdThms.v
theories/CompProofs.v
theories/CompSpec.v
theories/CompleteModel.v
theories/CompleteProofs.v
theories/CompleteThms.v
theories/CutFloat.v
theories/CutFlow.v
theories/CutRain.v
theories/CutSpec.v
theories/CutThms.v
theories/DemModel.v
theories/DemProofs.v
theories/Dict.v
theories/DictProofs.v
theories/DikeThms.v
theories/ErrorThms.v
theories/FillModel.v
theories/FillProofs.v
theories/FillSpec.v
theories/FillThms.v
theories/FilterEvalModel.v
theories/FilterEvalSpec.v
theories/FilterEvalThms.v
theories/FilterModel.v
theories/FilterNumbers.v
theories/FilterSelect.v
theories/FilterSpec.v
theories/FilterThms.v
theories/FinishArith.v
theories/FinishBins.v
theories/FinishDry.v
theories/FinishEdges.v
theories/FinishHyps.v
theories/FinishLevel.v
theories/FinishStats.v
theories/Float32Proofs.v
theories/Float64.v
theories/Float64Arith.v
theories/Float64Proofs.v
theories/Float64Scale.v
theories/FloatFinishEx.v
theories/FloatFinishModel.v
theories/FloatFinishProofs.v
theories/FloatFinishSpec.v
theories/FloatFinishThms.v
theories/FloatPipeEx.v
theories/FloatPipeModel.v
theories/FloatPipeProofs.v
theories/FloatPipeSpec.v
theories/FloatPipeThms.v
theories/FloatQ.v
theories/FlowDirProofs.v
theories/FlowModel.v
theories/FlowProofs.v
theories/FlowSpec.v
theories/FlowThms.v
theories/GridProofs.v
theories/GrowThms.v
theories/HelpSpec.v
theories/HelpThms.v
theories/HistoryModel.v
theories/HistoryRuns.v
theories/HistoryThms.v
theories/HypsCheckModel.v
theories/HypsCheckSpec.v
theories/HypsCheckThms.v
theories/HypsModel.v
theories/HypsProofs.v
theories/HypsSpec.v
theories/HypsThms.v
theories/IoModel.v
theories/IoThms.v
theories/JoinSpec.v
theories/JoinThms.v
theories/LabelFloat.v
theories/LabelModel.v
theories/LabelProofs.v
theories/LabelSpec.v
theories/LabelThms.v
theories/LevelProofs.v
theories/LocalRain.v
theories/LocalSpec.v
theories/LocalThms.v
theories/NetModel.v
theories/NetProofs.v
theories/NetSpec.v
theories/NetThms.v
theories/NetworkFloatSpec.v
theories/NetworkFloatThms.v
theories/NetworkModel.v
theories/NetworkProofs.v
theories/NetworkSpec.v
theories/NetworkThms.v
theories/NoFlatsProofs.v
theories/NodataThms.v
theories/Num.v
theories/OgrModel.v
theories/OgrSpec.v
theories/OgrThms.v
theories/OrderModel.v
theories/OrderRuns.v
theories/OrderSpec.v
theories/OrderThms.v
theories/OutdirModel.v
theories/OutdirProofs.v
theories/OutdirRuns.v
theories/OutdirSpec.v
theories/OutdirThms.v
theories/OverflowProofs.v
theories/OverflowSpec.v
theories/OverflowThms.v
theories/OwnHypsThms.v
theories/P_Add.v
theories/P_Approx.v
theories/P_Bluespot.v
theories/P_Cmd.v
theories/P_Complete.v
theories/P_Cut.v
theories/P_Dike.v
theories/P_Error.v
theories/P_Fill.v
theories/P_Filter.v
theories/P_FilterEval.v
theories/P_FloatFinish.v
theories/P_FloatPipe.v
theories/P_Flow.v
theories/P_Grow.v
theories/P_Help.v
theories/P_History.v
theories/P_Hyps.v
theories/P_HypsCheck.v
theories/P_Io.v
theories/P_Join.v
theories/P_Label.v
theories/P_Local.v
theories/P_Net.v
theories/P_Network.v
theories/P_Nodata.v
theories/P_Ogr.v
theories/P_Order.v
theories/P_Outdir.v
theories/P_Part.v
theories/P_Polygon.v
theories/P_Pr.v
theories/P_Rain.v
theories/P_Rains.v
theories/P_Rec.v
theories/P_Round.v
theories/P_Shift.v
theories/P_Speedups.v
theories/P_Stand.v
theories/P_Step.v
theories/P_Stream.v
theories/P_Sym.v
theories/P_Unit.v
theories/P_Vector.v
theories/P_Window.v
theories/PartSpec.v
theories/PipelineModel.v
theories/PolygonFinal.v
theories/PolygonFull.v
theories/PolygonSpec.v
theories/PolygonThms.v
theories/PourThms.v
theories/PrModel.v
theories/PrThms.v
theories/RainModel.v
theories/RainNodataThms.v
theories/RainProofs.v
theories/RainThms.v
theories/RainsSpec.v
theories/RainsThms.v
theories/RasterRainThms.v
theories/RecComb.v
theories/RecModel.v
theories/RecProofs.v
theories/RecSpec.v
theories/RecThms.v
theories/RelaxProofs.v
theories/RerunThms.v
theories/RoundEx.v
theories/RoundNetProofs.v
theories/RoundNetThms.v
theories/RoundProofs.v
theories/RoundSpec.v
theories/RoundThms.v
theories/ShiftThms.v
theories/SpeedupsModel.v
theories/SpeedupsThms.v
theories/StandThms.v
theories/StepModel.v
theories/StepSpec.v
theories/StepThms.v
theories/StreamSpec.v
theories/StreamThms.v
theories/SymChain.v
theories/SymProofs.v
theories/SymRuns.v
theories/SymSpec.v
theories/SymThms.v
theories/UnitSpec.v
theories/UnitThms.v
theories/UntangleFacts.v
theories/UntangleProofs.v
theories/VectorModel.v
theories/VectorThms.v
theories/WatershedProofs.v
theories/WindowFlow.v
theories/WindowSpec.v
theories/WindowThms.v
