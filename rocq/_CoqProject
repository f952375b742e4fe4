-Q theories Verif

theories/Model/Base.v
theories/Model/Strings.v
theories/Spec/StringsSpec.v
theories/Proofs/StringsProofs.v
theories/Model/Logger.v
theories/Model/Parser.v
theories/Model/Models.v
theories/Spec/ParserSpec.v
theories/Spec/LoggerSpec.v
theories/Proofs/ParserProofs.v
theories/Proofs/LoggerProofs.v
theories/Proofs/ModelsProofs.v
theories/Props/ParserProps.v
theories/Props/LoggerProps.v
theories/Props/ModelsProps.v
theories/Model/Phase.v
theories/Spec/PhaseSpec.v
theories/Proofs/PhaseProofs.v
theories/Proofs/VacuumProofs.v
theories/Props/PhaseProps.v
theories/Model/Track.v
theories/Spec/TrackSpec.v
theories/Proofs/TrackProofs.v
theories/Props/TrackProps.v
theories/Model/Tc.v
theories/Spec/TcSpec.v
theories/Proofs/TcProofs.v
theories/Props/TcProps.v
theories/Model/MultiStep.v
theories/Spec/MultiStepSpec.v
theories/Proofs/MultiStepProofs.v
theories/Props/MultiStepProps.v
theories/Model/Signs.v
theories/Spec/SignsSpec.v
theories/Proofs/SignsProofs.v
theories/Proofs/ReduceProofs.v
theories/Props/SignsProps.v
theories/Model/History.v
theories/Spec/HistorySpec.v
theories/Proofs/HistoryProofs.v
theories/Props/HistoryProps.v
theories/Model/Tracer.v
theories/Model/Report.v
theories/Spec/ReportSpec.v
theories/Proofs/ReportProofs.v
theories/Proofs/StrengthProofs.v
theories/Proofs/TableProofs.v
theories/Proofs/AbortProofs.v
theories/Props/ReportProps.v
theories/Model/Vectors.v
theories/Spec/VectorsSpec.v
theories/Proofs/VectorsProofs.v
theories/Props/VectorsProps.v
theories/Model/NumDeriv.v
theories/Spec/NumDerivSpec.v
theories/Proofs/NumDerivProofs.v
theories/Props/NumDerivProps.v
theories/Model/BounceScan.v
theories/Spec/BounceScanSpec.v
theories/Proofs/BounceScanProofs.v
theories/Proofs/NuclProofs.v
theories/Props/BounceScanProps.v
theories/Model/GW.v
theories/Spec/GWSpec.v
theories/Proofs/GWProofs.v
theories/Proofs/KappaProofs.v
theories/Props/GWProps.v
theories/Model/Minim.v
theories/Spec/MinimSpec.v
theories/Spec/WorkersSpec.v
theories/Proofs/MinimProofs.v
theories/Proofs/WorkersProofs.v
theories/Model/Plane.v
theories/Spec/PlaneSpec.v
theories/Proofs/PlaneProofs.v
theories/Props/MinimProps.v
theories/Model/Thermal.v
theories/Model/Loop.v
theories/Spec/ThermalSpec.v
theories/Spec/LoopSpec.v
theories/Proofs/DerivLib.v
theories/Proofs/ThermalProofs.v
theories/Proofs/LoopProofs.v
theories/Props/ThermalProps.v
theories/Props/LoopProps.v
theories/Model/Potential.v
theories/Spec/PotentialSpec.v
theories/Proofs/TensorProofs.v
theories/Proofs/PotentialProofs.v
theories/Proofs/VevProofs.v
theories/Props/PotentialProps.v
theories/Model/Spline.v
theories/Spec/SplineSpec.v
theories/Proofs/BandProofs.v
theories/Proofs/CsplineProofs.v
theories/Proofs/SplineProofs.v
theories/Proofs/SplineBoundary.v
theories/Props/SplineProps.v
theories/Model/Action.v
theories/Spec/ActionSpec.v
theories/Proofs/BernsteinProofs.v
theories/Proofs/ActionProofs.v
theories/Proofs/ActionControl.v
theories/Props/ActionProps.v
theories/Model/Options.v
theories/Spec/OptionsSpec.v
theories/Proofs/OptionsProofs.v
theories/Props/OptionsProps.v
theories/Model/CVSpline.v
theories/Spec/CVSplineSpec.v
theories/Proofs/CVSplineProofs.v
theories/Props/CVSplineProps.v
theories/Model/Ascii.v
theories/Spec/AsciiSpec.v
theories/Proofs/AsciiProofs.v
theories/Props/AsciiProps.v
theories/Proofs/ParserMore.v
theories/Model/EWSR.v
theories/Spec/ColumnsSpec.v
theories/Spec/EWSRSpec.v
theories/Proofs/ColumnsProofs.v
theories/Proofs/PointProofs.v
theories/Proofs/EWSRProofs.v
theories/Props/ColumnsProps.v
theories/Props/EWSRProps.v
theories/Proofs/FractionProofs.v
theories/Proofs/NumBounds.v
theories/Proofs/ThresholdProofs.v
theories/Proofs/MatchingProofs.v
theories/Props/FractionProps.v
theories/Props/MatchingProps.v
theories/Spec/ScanSpec.v
theories/Proofs/ScanProofs.v
theories/Props/ScanProps.v
theories/Proofs/SplineOutside.v
theories/Props/SplineOutsideProps.v
theories/Model/Modes.v
theories/Spec/ModesSpec.v
theories/Proofs/ModesProofs.v
theories/Proofs/ModesRuns.v
theories/Proofs/ModesTwo.v
theories/Proofs/VacuumRun.v
theories/Props/ModesProps.v
theories/Proofs/ModesChecks.v
theories/Proofs/ModesFailed.v
theories/Model/Tables.v
theories/Model/PotSM.v
theories/Model/PotCxSM.v
theories/Model/PotR2HDM.v
theories/Model/PotC2HDM.v
theories/Model/PotN2HDM.v
theories/Model/PotCPintheDark.v
theories/Spec/ScalarSpec.v
theories/Proofs/Contract.v
theories/Proofs/Contract2.v
theories/Proofs/TabTac.v
theories/Proofs/ScalarProofs.v
theories/Proofs/PotSMProofs.v
theories/Proofs/PotCxSMProofs.v
theories/Proofs/PotR2HDMProofs.v
theories/Proofs/PotC2HDMProofs.v
theories/Proofs/PotN2HDMProofs.v
theories/Proofs/PotCPintheDarkProofs.v
theories/Proofs/ModelDeriv.v
theories/Props/ScalarProps.v
theories/Model/Vacua.v
theories/Spec/WardSpec.v
theories/Proofs/VacTac.v
theories/Proofs/VacuumCore.v
theories/Proofs/VacuaProofs.v
theories/Proofs/WardProofs.v
theories/Props/VacuaProps.v
theories/Spec/CTSpec.v
theories/Model/CTs.v
theories/Proofs/WardTools.v
theories/Proofs/WardModels.v
theories/Proofs/CTProofs.v
theories/Proofs/CTSinglet.v
theories/Proofs/CTFinal.v
theories/Proofs/CTRefute.v
theories/Props/CTProps.v
theories/Model/Simplified.v
theories/Proofs/SimplifiedProofs.v
theories/Props/SimplifiedProps.v
theories/Model/LifeCycle.v
theories/Spec/LifeSpec.v
theories/Proofs/LifeProofs.v
theories/Props/LifeProps.v
theories/Model/OneLoop.v
theories/Spec/OneLoopSpec.v
theories/Proofs/OneLoopProofs.v
theories/Props/OneLoopProps.v
theories/Model/ReadLine.v
theories/Spec/ReadSpec.v
theories/Proofs/ReadProofs.v
theories/Props/ReadProps.v
theories/Model/SMConst.v
theories/Model/Gauge.v
theories/Spec/GaugeSpec.v
theories/Proofs/GaugeProofs.v
theories/Proofs/GaugeMass.v
theories/Props/GaugeProps.v
theories/Model/Yukawa.v
theories/Spec/YukawaSpec.v
theories/Proofs/CKMProofs.v
theories/Proofs/YukawaProofs.v
theories/Proofs/YukawaMass.v
theories/Props/YukawaProps.v
theories/Model/Debye.v
theories/Spec/DebyeSpec.v
theories/Proofs/DebyeProofs.v
theories/Proofs/DebyeModels.v
theories/Proofs/DebyeTables.v
theories/Proofs/DebyeMass.v
theories/Proofs/DebyeGauge.v
theories/Props/DebyeProps.v
theories/Model/WallProfile.v
theories/Spec/WallProfileSpec.v
theories/Proofs/WallProfileProofs.v
theories/Props/WallProfileProps.v
theories/Model/Transport.v
theories/Spec/TransportSpec.v
theories/Proofs/TransportProofs.v
theories/Props/TransportProps.v
theories/Model/Fluid.v
theories/Spec/FluidSpec.v
theories/Proofs/FluidProofs.v
theories/Props/FluidProps.v
theories/Model/Rates.v
theories/Spec/RatesSpec.v
theories/Proofs/RatesProofs.v
theories/Props/RatesProps.v
theories/Model/Eta.v
theories/Spec/EtaSpec.v
theories/Proofs/EtaProofs.v
theories/Props/EtaProps.v
theories/Model/Density.v
theories/Spec/DensitySpec.v
theories/Proofs/DensityProofs.v
theories/Props/DensityProps.v
theories/Model/KFunctions.v
theories/Spec/KSpec.v
theories/Proofs/KProofs.v
theories/Props/KProps.v
theories/Model/EtaConfig.v
theories/Spec/EtaConfigSpec.v
theories/Proofs/EtaConfigProofs.v
theories/Props/EtaConfigProps.v
theories/Model/WallThickness.v
theories/Spec/WallThicknessSpec.v
theories/Proofs/WallThicknessProofs.v
theories/Props/WallThicknessProps.v
theories/Model/WallInit.v
theories/Spec/WallInitSpec.v
theories/Proofs/WallInitProofs.v
theories/Props/WallInitProps.v
theories/Model/EigenDeriv.v
theories/Spec/EigenSpec.v
theories/Proofs/EigenProofs.v
theories/Proofs/EigenBranch.v
theories/Proofs/EigenExamples.v
theories/Props/EigenProps.v
theories/Model/LoopFour.v
theories/Spec/LoopFourSpec.v
theories/Proofs/LoopFourBranch.v
theories/Proofs/LoopFourProofs.v
theories/Proofs/LoopFourValues.v
theories/Proofs/LoopFourRec.v
theories/Props/LoopFourProps.v
theories/Model/Weinberg.v
theories/Spec/WeinbergSpec.v
theories/Proofs/Spectral.v
theories/Proofs/WeinbergSector.v
theories/Proofs/WeinbergProofs.v
theories/Proofs/WeinbergRun.v
theories/Proofs/WeinbergExamples.v
theories/Props/WeinbergProps.v
theories/Proofs/MoreProofs.v
theories/Props/MoreProps.v
theories/Model/BounceStart.v
theories/Spec/BounceStartSpec.v
theories/Proofs/BesselSeries.v
theories/Proofs/BounceRolls.v
theories/Proofs/BounceStartProofs.v
theories/Proofs/BounceUnique.v
theories/Props/BounceStartProps.v
theories/Model/RungeKutta.v
theories/Spec/RungeKuttaSpec.v
theories/Proofs/RungeKuttaProofs.v
theories/Proofs/IntegrateProofs.v
theories/Props/RungeKuttaProps.v
theories/Props/IntegrateProps.v
theories/Model/BounceInterval.v
theories/Spec/BounceIntervalSpec.v
theories/Proofs/BounceIntervalProofs.v
theories/Props/BounceIntervalProps.v
theories/Model/PathDeform.v
theories/Spec/PathDeformSpec.v
theories/Proofs/PathDeformProofs.v
theories/Props/PathDeformProps.v
theories/Model/FlatDirections.v
theories/Spec/FlatDirectionsSpec.v
theories/Proofs/FlatDirectionsProofs.v
theories/Props/FlatDirectionsProps.v
theories/Model/Locate.v
theories/Spec/LocateSpec.v
theories/Proofs/LocateProofs.v
theories/Props/LocateProps.v
theories/Model/StartPath.v
theories/Spec/StartPathSpec.v
theories/Proofs/StartPathProofs.v
theories/Props/StartPathProps.v
theories/Props/GridProps.v
theories/Model/DecayRate.v
theories/Spec/DecayRateSpec.v
theories/Proofs/DecayRateProofs.v
theories/Props/DecayRateProps.v
theories/Model/EigenSecond.v
theories/Spec/EigenSecondSpec.v
theories/Proofs/EigenSecondProofs.v
theories/Props/EigenSecondProps.v
theories/Model/Anomaly.v
theories/Spec/AnomalySpec.v
theories/Proofs/AnomalyProofs.v
theories/Props/AnomalyProps.v
theories/Model/TripleHiggs.v
theories/Spec/TripleHiggsSpec.v
theories/Proofs/TripleHiggsProofs.v
theories/Props/TripleHiggsProps.v
theories/Model/SplineRoots.v
theories/Spec/SplineRootsSpec.v
theories/Proofs/SplineRootsProofs.v
theories/Props/SplineRootsProps.v
theories/Model/ModelTests.v
theories/Spec/ModelTestsSpec.v
theories/Proofs/ModelTestsProofs.v
theories/Props/ModelTestsProps.v
theories/Model/PotPlotter.v
theories/Spec/PotPlotterSpec.v
theories/Proofs/PotPlotterProofs.v
theories/Props/PotPlotterProps.v
theories/Model/ProgScans.v
theories/Spec/ProgScansSpec.v
theories/Proofs/ProgScansProofs.v
theories/Props/ProgScansProps.v
theories/Model/ProgTables.v
theories/Spec/ProgTablesSpec.v
theories/Proofs/ProgTablesProofs.v
theories/Props/ProgTablesProps.v
theories/Model/MinimaTables.v
theories/Spec/MinimaTablesSpec.v
theories/Proofs/MinimaTablesProofs.v
theories/Props/MinimaTablesProps.v
theories/Model/LocalMin.v
theories/Spec/LocalMinSpec.v
theories/Proofs/LocalMinProofs.v
theories/Props/LocalMinProps.v
theories/Model/WeinbergHigher.v
theories/Spec/WeinbergHigherSpec.v
theories/Proofs/WeinbergHigherProofs.v
theories/Proofs/WeinbergHigherParts.v
theories/Proofs/WeinbergHigherRun.v
theories/Proofs/WeinbergHigherResult.v
theories/Proofs/WeinbergHigherTotal.v
theories/Proofs/WeinbergHigherLight.v
theories/Props/WeinbergHigherProps.v
theories/Model/PhaseDiagram.v
theories/Spec/PhaseDiagramSpec.v
theories/Proofs/PhaseDiagramProofs.v
theories/Props/PhaseDiagramProps.v
theories/Model/EtaMubl.v
theories/Spec/EtaMublSpec.v
theories/Proofs/EtaMublProofs.v
theories/Props/EtaMublProps.v
theories/Model/SNR.v
theories/Spec/SNRSpec.v
theories/Proofs/SNRProofs.v
theories/Props/SNRProps.v
theories/Model/WallMasses.v
theories/Spec/WallMassesSpec.v
theories/Proofs/WallMassesProofs.v
theories/Props/WallMassesProps.v
theories/Proofs/StatFactorProofs.v
theories/Proofs/WeinbergHigherThrow.v
theories/Model/VevDim.v
theories/Proofs/VevDimProofs.v
theories/Props/VevDimProps.v
theories/Model/GlobMin.v
theories/Proofs/GlobMinProofs.v
theories/Props/GlobMinProps.v
