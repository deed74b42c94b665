-Q theories Verif
theories/Model/Arr.v
theories/Model/Core.v
theories/Model/CP.v
theories/Model/Cat.v
theories/Model/Metrics.v
theories/Model/Cont.v
theories/Model/Multi.v
theories/Model/MultiT.v
theories/Spec/CoreSpec.v
theories/Spec/CPSpec.v
theories/Spec/CPFitSpec.v
theories/Spec/CatSpec.v
theories/Spec/MetricsSpec.v
theories/Spec/ContSpec.v
theories/Spec/MultiSpec.v
theories/Spec/MultiWSpec.v
theories/Proofs/ArrP.v
theories/Proofs/CoreP.v
theories/Proofs/FitP.v
theories/Proofs/CoreFinal.v
theories/Proofs/CPP.v
theories/Proofs/CPC.v
theories/Proofs/CPTable.v
theories/Proofs/CPFinal.v
theories/Proofs/CatP.v
theories/Proofs/CatFinal.v
theories/Proofs/MetricsP.v
theories/Proofs/MetricsQ.v
theories/Proofs/MetricsFinal.v
theories/Proofs/ContP.v
theories/Proofs/ContC.v
theories/Proofs/ContFinal.v
theories/Proofs/ContTrend.v
theories/Proofs/GammaP.v
theories/Proofs/MultiP.v
theories/Proofs/MultiFinal.v
theories/Proofs/MultiW.v
theories/Props/CoreProps.v
theories/Props/CPProps.v
theories/Props/CatProps.v
theories/Props/MetricsProps.v
theories/Props/ContProps.v
theories/Props/MultiProps.v
theories/Model/GK.v
theories/Model/BSketch.v
theories/Model/OptSketch.v
theories/Spec/GKSpec.v
theories/Spec/BSketchSpec.v
theories/Spec/OptSketchSpec.v
theories/Proofs/GKP.v
theories/Proofs/GKR.v
theories/Proofs/GKI.v
theories/Proofs/GKFinal.v
theories/Proofs/BSketchP.v
theories/Proofs/BCatP.v
theories/Proofs/OptSketchP.v
theories/Proofs/OptSketchFinal.v
theories/Proofs/OptSketchCat.v
theories/Props/GKProps.v
theories/Props/BSketchProps.v
theories/Props/OptSketchProps.v
theories/Props/OptSketchCatProps.v
theories/Model/Scorecard.v
theories/Spec/ScoreSpec.v
theories/Proofs/ScoreP.v
theories/Proofs/ScoreFinal.v
theories/Props/ScoreProps.v
theories/Model/Process.v
theories/Spec/ProcessSpec.v
theories/Proofs/ProcessP.v
theories/Proofs/ProcessSel.v
theories/Proofs/ProcessFinal.v
theories/Proofs/ProcessT.v
theories/Props/ProcessProps.v
theories/Model/Mdlp.v
theories/Model/MdlpR.v
theories/Spec/MdlpSpec.v
theories/Proofs/MdlpP.v
theories/Props/MdlpProps.v
theories/Model/AutoMono.v
theories/Spec/AutoSpec.v
theories/Proofs/AutoP.v
theories/Proofs/AutoFinal.v
theories/Props/AutoProps.v
theories/Model/Classif.v
theories/Model/Regression.v
theories/Spec/ClassifSpec.v
theories/Proofs/ClassifP.v
theories/Proofs/RegressionP.v
theories/Props/ClassifProps.v
theories/Model/Monitor.v
theories/Spec/MonitorSpec.v
theories/Proofs/MonitorP.v
theories/Props/MonitorProps.v
theories/Model/Piecewise.v
theories/Spec/PiecewiseSpec.v
theories/Proofs/PiecewiseP.v
theories/Proofs/PiecewiseFit.v
theories/Props/PiecewiseProps.v
theories/Model/TwoD.v
theories/Spec/TwoDSpec.v
theories/Proofs/TwoDP.v
theories/Proofs/TwoDQ.v
theories/Proofs/TwoDR.v
theories/Proofs/TwoDS.v
theories/Proofs/TwoDT.v
theories/Proofs/TwoDU.v
theories/Proofs/TwoDV.v
theories/Proofs/TwoDG.v
theories/Props/TwoDProps.v
theories/Model/Lifecycle.v
theories/Spec/LifecycleSpec.v
theories/Proofs/LifeP.v
theories/Proofs/LifeQ.v
theories/Proofs/LifeR.v
theories/Props/LifecycleProps.v
theories/Model/TwoDCont.v
theories/Spec/TwoDContSpec.v
theories/Proofs/TwoDC.v
theories/Proofs/TwoDCR.v
theories/Props/TwoDContProps.v
theories/Model/TwoDCart.v
theories/Spec/TwoDCartSpec.v
theories/Proofs/TwoDCartP.v
theories/Proofs/TwoDCartQ.v
theories/Proofs/TwoDCartR.v
theories/Props/TwoDCartProps.v
theories/Model/Outlier.v
theories/Spec/OutlierSpec.v
theories/Proofs/OutlierP.v
theories/Proofs/OutlierQ.v
theories/Proofs/OutlierR.v
theories/Proofs/OutlierS.v
theories/Props/OutlierProps.v
theories/Model/Weights.v
theories/Spec/WeightSpec.v
theories/Proofs/WeightP.v
theories/Props/WeightProps.v
theories/Model/Counterfactual.v
theories/Spec/CounterfactualSpec.v
theories/Proofs/CounterP.v
theories/Proofs/CounterQ.v
theories/Proofs/CounterR.v
theories/Proofs/CounterS.v
theories/Props/CounterfactualProps.v
theories/Model/MIP.v
theories/Model/MultiMIP.v
theories/Spec/MIPSpec.v
theories/Spec/MultiMIPSpec.v
theories/Proofs/MIPP.v
theories/Proofs/MIPQ.v
theories/Proofs/MIPR.v
theories/Proofs/MultiMIPP.v
theories/Props/MIPProps.v
theories/Props/MultiMIPProps.v
theories/Model/Scenario.v
theories/Spec/ScenarioSpec.v
theories/Proofs/ScenP.v
theories/Proofs/ScenQ.v
theories/Proofs/ScenR.v
theories/Props/ScenarioProps.v
theories/Model/ProcessSketch.v
theories/Spec/ProcessSketchSpec.v
theories/Proofs/ProcSkP.v
theories/Props/ProcessSketchProps.v
theories/Model/Scaled.v
theories/Spec/ScaledSpec.v
theories/Proofs/ScaledP.v
theories/Props/ScaledProps.v
theories/Model/TwoDMIP.v
theories/Spec/TwoDMIPSpec.v
theories/Proofs/TwoDMIPP.v
theories/Props/TwoDMIPProps.v
theories/Model/ContTable.v
theories/Spec/ContTableSpec.v
theories/Proofs/ContTableP.v
theories/Proofs/ContTableQ.v
theories/Props/ContTableProps.v
theories/Model/MultiTable.v
theories/Spec/MultiTableSpec.v
theories/Proofs/MultiTableP.v
theories/Proofs/MultiTableQ.v
theories/Proofs/MultiTableR.v
theories/Proofs/MultiTableS.v
theories/Props/MultiTableProps.v
theories/Model/ProcLife.v
theories/Spec/ProcLifeSpec.v
theories/Proofs/ProcLifeP.v
theories/Proofs/ProcLifeQ.v
theories/Proofs/ProcLifeR.v
theories/Proofs/ProcLifeS.v
theories/Proofs/ProcLifeT.v
theories/Props/ProcLifeProps.v
theories/Model/Prebin.v
theories/Spec/PrebinSpec.v
theories/Proofs/PrebinP.v
theories/Proofs/PrebinQ.v
theories/Props/PrebinProps.v
theories/Model/Label.v
theories/Spec/LabelSpec.v
theories/Proofs/LabelP.v
theories/Props/LabelProps.v
theories/Model/ScoreLife.v
theories/Spec/ScoreLifeSpec.v
theories/Proofs/ScoreLifeP.v
theories/Proofs/ScoreLifeQ.v
theories/Props/ScoreLifeProps.v
theories/Model/TwoDPairs.v
theories/Spec/TwoDPairsSpec.v
theories/Proofs/TwoDPairsP.v
theories/Proofs/TwoDPairsQ.v
theories/Props/TwoDPairsProps.v
theories/Model/MonLife.v
theories/Spec/MonLifeSpec.v
theories/Proofs/IndepP.v
theories/Proofs/MonLifeP.v
theories/Proofs/MonLifeQ.v
theories/Props/MonLifeProps.v
theories/Model/LS.v
theories/Spec/LSSpec.v
theories/Proofs/LSP.v
theories/Proofs/LSQ.v
theories/Proofs/LSR.v
theories/Props/LSProps.v
theories/Model/CounterLife.v
theories/Spec/CounterLifeSpec.v
theories/Proofs/CounterLifeP.v
theories/Proofs/CounterLifeQ.v
theories/Props/CounterLifeProps.v
theories/Model/Options.v
theories/Spec/OptionSpec.v
theories/Proofs/OptionP.v
theories/Proofs/OptionQ.v
theories/Proofs/OptionR.v
theories/Props/OptionProps.v
theories/Model/PValue.v
theories/Spec/PValueSpec.v
theories/Proofs/PValueP.v
theories/Props/PValueProps.v
theories/Model/SketchLife.v
theories/Spec/SketchLifeSpec.v
theories/Proofs/SketchLifeP.v
theories/Proofs/SketchLifeQ.v
theories/Props/SketchLifeProps.v
theories/Model/ContLife.v
theories/Spec/ContLifeSpec.v
theories/Proofs/ContLifeP.v
theories/Proofs/ContLifeQ.v
theories/Props/ContLifeProps.v
theories/Model/PWLife.v
theories/Spec/PWLifeSpec.v
theories/Proofs/PWLifeP.v
theories/Proofs/PWLifeQ.v
theories/Props/PWLifeProps.v
theories/Model/MultiLife.v
theories/Spec/MultiLifeSpec.v
theories/Proofs/MultiLifeP.v
theories/Props/MultiLifeProps.v
theories/Model/PWTable.v
theories/Spec/PWTableSpec.v
theories/Proofs/PWTableP.v
theories/Props/PWTableProps.v
theories/Model/TwoDLife.v
theories/Spec/TwoDLifeSpec.v
theories/Proofs/TwoDLifeP.v
theories/Props/TwoDLifeProps.v
theories/Model/TwoDTable.v
theories/Spec/TwoDTableSpec.v
theories/Proofs/TwoDTableP.v
theories/Proofs/TwoDTableQ.v
theories/Proofs/TwoDTableR.v
theories/Proofs/TwoDTableS.v
theories/Proofs/TwoDTableT.v
theories/Props/TwoDTableProps.v
theories/Model/ScenLife.v
theories/Spec/ScenLifeSpec.v
theories/Proofs/ScenLifeP.v
theories/Proofs/ScenLifeQ.v
theories/Proofs/ScenLifeR.v
theories/Proofs/ScenLifeS.v
theories/Proofs/ScenLifeT.v
theories/Props/ScenLifeProps.v
theories/Model/TablePlot.v
theories/Spec/TablePlotSpec.v
theories/Proofs/TablePlotP.v
theories/Proofs/TablePlotQ.v
theories/Props/TablePlotProps.v
theories/Model/ScorePlots.v
theories/Spec/ScorePlotsSpec.v
theories/Proofs/ScorePlotsP.v
theories/Proofs/ScorePlotsQ.v
theories/Proofs/ScorePlotsR.v
theories/Props/ScorePlotsProps.v
theories/Model/Progress.v
theories/Model/PsiPlot.v
theories/Spec/StreamPlotsSpec.v
theories/Proofs/ProgressP.v
theories/Proofs/PsiPlotP.v
theories/Props/StreamPlotsProps.v
theories/Props/PsiPlotProps.v
theories/Model/PWOutlier.v
theories/Spec/PWOutlierSpec.v
theories/Props/PWOutlierProps.v
theories/Model/Unsup.v
theories/Spec/UnsupSpec.v
theories/Proofs/UnsupP.v
theories/Props/UnsupProps.v
theories/Spec/ContStdSpec.v
theories/Props/ContStdProps.v
theories/Model/PWTrend.v
theories/Spec/PWTrendSpec.v
theories/Proofs/PWTrendP.v
theories/Props/PWTrendProps.v
theories/Props/PWTrendTableProps.v
