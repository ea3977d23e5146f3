-Q theories Verif

theories/Num.v
theories/NumFacts.v
theories/Pandas.v
theories/Frame.v
theories/Sim.v
theories/SimSpec.v
theories/SimProofs.v
theories/SimLemmas.v
theories/PropsSim.v
theories/FrameSpec.v
theories/FrameProofs.v
theories/PropsFrame.v
theories/Ind.v
theories/Signal.v
theories/Api.v
theories/SeriesFacts.v
theories/Lengths.v
theories/Causal.v
theories/IndSpec.v
theories/IndFacts.v
theories/Shape.v
theories/ApiSpec.v
theories/ApiCheck.v
theories/ApiProofs.v
theories/ApiLemmas.v
theories/PropsApi.v
theories/Cells.v
theories/RangeSpec.v
theories/RangeFacts.v
theories/RangeMore.v
theories/Publish.v
theories/RangeApi.v
theories/PropsRange.v
theories/RoundFacts.v
theories/ValueSpec.v
theories/ValueFacts.v
theories/ValueMore.v
theories/Recur.v
theories/FormulaSpec.v
theories/Starts.v
theories/Formula.v
theories/Formula2.v
theories/Formula3.v
theories/Formula4.v
theories/Line.v
theories/Formula5.v
theories/Formula6.v
theories/ValueApi.v
theories/PropsValue.v
theories/CumulApi.v
theories/FormulaApi.v
theories/PropsCumul.v
theories/PropsFormula.v
theories/PropsFormula2.v
theories/SignalSpec.v
theories/SignalApi.v
theories/SignalFacts.v
theories/SignalApi2.v
theories/SignalApi3.v
theories/PropsSignal.v
theories/PropsSignal2.v
theories/SarSpec.v
theories/SarFacts.v
theories/PropsSar.v
theories/FlatFacts.v
theories/ScaleFacts.v
theories/PropsUnits.v
theories/DocSpec.v
theories/DocFacts.v
theories/PropsDoc.v
theories/FloatSim.v
theories/FloatFacts.v
theories/FloatExact.v
theories/FloatSame.v
theories/FloatClose.v
theories/PropsFloat.v
theories/Graph.v
theories/GraphSpec.v
theories/GraphFacts.v
theories/GraphApi.v
theories/PropsGraph.v
theories/Message.v
theories/MessageSpec.v
theories/MessageFacts.v
theories/PropsMessage.v
theories/MemorySpec.v
theories/MemoryFacts.v
theories/MemoryApi.v
theories/PropsMemory.v
theories/IdentFacts.v
theories/IdentApi.v
theories/PropsIdent.v
theories/FloatInd.v
theories/FloatOrd.v
theories/FloatSpec.v
theories/FloatDec.v
theories/FloatRange.v
theories/FloatRange2.v
theories/FloatApi.v
theories/FloatCases.v
theories/PropsFloatInd.v
theories/FloatAccSpec.v
theories/FloatAcc.v
theories/FloatAcc2.v
theories/FloatAcc3.v
theories/FloatAcc4.v
theories/FloatAcc5.v
theories/FloatAccApi.v
theories/FloatAccCases.v
theories/PropsFloatAcc.v
theories/FloatEwm.v
theories/FloatEwmSpec.v
theories/FloatEwmAcc.v
theories/FloatEwmAcc2.v
theories/FloatEwmAcc3.v
theories/FloatEwmAcc4.v
theories/FloatEwmAcc5.v
theories/FloatEwmApi.v
theories/FloatEwmCases.v
theories/PropsFloatEwm.v
theories/MirrorSpec.v
theories/MirrorFacts.v
theories/MirrorApi.v
theories/MirrorApi2.v
theories/MirrorApi3.v
theories/MirrorSar.v
theories/MirrorAll.v
theories/MirrorSignal.v
theories/PropsMirror.v
theories/GapSpec.v
theories/GapFacts.v
theories/GapApi.v
theories/GapMore.v
theories/PropsMissing.v
theories/MoveSpec.v
theories/MoveApi.v
theories/PropsMove.v
theories/DateSpec.v
theories/DateFacts.v
theories/DateApi.v
theories/CurrencySpec.v
theories/CurrencyFacts.v
theories/PropsDates.v
theories/OrderSpec.v
theories/OrderFacts.v
theories/OrderFacts2.v
theories/OrderFacts3.v
theories/OrderApi.v
theories/OrderApi2.v
theories/PropsOrder.v
theories/Call.v
theories/CallSpec.v
theories/CallFacts.v
theories/Script.v
theories/ScriptSpec.v
theories/ScriptFacts.v
theories/ScriptFacts2.v
theories/ScriptFacts3.v
theories/PropsCall.v
theories/UnitSpec.v
theories/UnitFacts.v
theories/UnitApi.v
theories/UnitSim.v
theories/PropsUnits2.v
theories/FloatRoll.v
theories/FloatRollSpec.v
theories/FloatRollAcc.v
theories/FloatRollAcc2.v
theories/FloatRollAcc3.v
theories/FloatRollAcc4.v
theories/FloatRollAcc5.v
theories/FloatRollApi.v
theories/FloatRollCases.v
theories/PropsFloatRoll.v
theories/FloatSignal.v
theories/FloatSignalSpec.v
theories/FloatSignalFacts.v
theories/FloatSignalApi.v
theories/FloatSignalCases.v
theories/PropsFloatSig.v
theories/FloatStat.v
theories/FloatSimSpec.v
theories/FloatSimAcc.v
theories/FloatSimDays.v
theories/PropsFloatSim.v
theories/SimLimit.v
theories/PropsLimit.v
theories/SwaySpec.v
theories/SwayFacts.v
theories/SwayApi.v
theories/PropsSway.v
theories/FadeApi.v
theories/PropsFade.v
theories/BasketSpec.v
theories/BasketFacts.v
theories/BasketApi.v
theories/BasketApi2.v
theories/PropsBasket.v
theories/SteadySpec.v
theories/SteadyFacts.v
theories/SteadyApi.v
theories/SteadySig.v
theories/PropsSteady.v
theories/OneWaySpec.v
theories/OneWay.v
theories/OneWayApi.v
theories/PropsOneWay.v
theories/GrowthSpec.v
theories/GrowthFacts.v
theories/GrowthApi.v
theories/PropsGrowth.v
theories/ClimbSpec.v
theories/ClimbFacts.v
theories/ClimbApi.v
theories/PropsClimb.v
theories/AdviceSpec.v
theories/AdviceFacts.v
theories/AdviceApi.v
theories/PropsAdvice.v
theories/QuietSpec.v
theories/QuietSim.v
theories/QuietApi.v
theories/PropsQuiet.v
theories/BooksSpec.v
theories/Books.v
theories/BooksApi.v
theories/PropsBooks.v
theories/TurnSpec.v
theories/TurnSim.v
theories/TurnApi.v
theories/PropsTurn.v
theories/IdleSpec.v
theories/IdleSim.v
theories/IdleApi.v
theories/PropsIdle.v
theories/MirrorDays.v
theories/MirrorSims.v
theories/PropsMirrorSim.v
theories/MoveDaySpec.v
theories/MoveSims.v
theories/PropsMoveSim.v
theories/RecentSpec.v
theories/RecentSig.v
theories/PropsRecent.v
theories/ResumeSim.v
theories/ResumeApi.v
theories/PropsResume.v
theories/RepeatSpec.v
theories/RepeatApi.v
theories/PropsRepeat.v
theories/CycleApi.v
theories/PropsCycle.v
theories/CycleSim.v
theories/CycleRuns.v
theories/PropsCycleRuns.v
theories/LapSim.v
theories/LapRuns.v
theories/PropsLap.v
