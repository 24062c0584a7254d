-Q theories Verif

theories/Scalar.v
theories/Base.v
theories/VecM.v
theories/GridM.v
theories/GeometryM.v
theories/MaterialM.v
theories/PmlM.v
theories/DftM.v
theories/TfsfM.v
theories/PolarM.v
theories/InterpM.v
theories/H5M.v
theories/ClockM.v
theories/MonitorM.v
theories/FieldM.v
theories/Float.v
theories/BaseFacts.v
theories/FloatFacts.v
theories/OutFacts.v
theories/PhysFacts.v
theories/SpecGrid.v
theories/GridFacts.v
theories/NormalFacts.v
theories/PropsGrid.v
theories/SpecGeometry.v
theories/GeometryFacts.v
theories/PropsGeometry.v
theories/SpecPaint.v
theories/PaintFacts.v
theories/WfFacts.v
theories/ReachFacts.v
theories/SafetyFacts.v
theories/ExampleFacts.v
theories/PaintSafe.v
theories/BackFacts.v
theories/PropsPaint.v
theories/SpecSafety.v
theories/SafeFacts.v
theories/ExampleSrc.v
theories/CleanFacts.v
theories/PropsSafety.v
theories/SpecStep.v
theories/StepFacts.v
theories/InvFacts.v
theories/EngineFacts.v
theories/YeeFacts.v
theories/TextbookFacts.v
theories/PropsStep.v
theories/SpecClock.v
theories/ClockFacts.v
theories/H5Facts.v
theories/CadenceFacts.v
theories/EdgeFacts.v
theories/TimerFacts.v
theories/HalfFacts.v
theories/ExampleClock.v
theories/RejectFacts.v
theories/PolarFacts.v
theories/SpecSource.v
theories/SourceFacts.v
theories/SpecMedium.v
theories/MediumFacts.v
theories/StrengthFacts.v
theories/FullStep.v
theories/SpecRim.v
theories/MediaFacts.v
theories/SpecMedia.v
theories/MediaRun.v
theories/SpecMaterial.v
theories/MaterialFacts.v
theories/OutsideFacts.v
theories/MagnetFacts.v
theories/ExampleMedia.v
theories/RefuteMedia.v
theories/SpecTrace.v
theories/TraceFacts.v
theories/CellFacts.v
theories/RefuteTrace.v
theories/MediaCases.v
theories/SpecInterp.v
theories/InterpFacts.v
theories/PropsInterp.v
theories/SpecDft.v
theories/DftFacts.v
theories/SpecSample.v
theories/SampleFacts.v
theories/MonFacts.v
theories/MonRun.v
theories/SpecStress.v
theories/FluxFacts.v
theories/FarFacts.v
theories/SubFacts.v
theories/SpecLive.v
theories/LiveFacts.v
theories/LiveRun.v
theories/ExampleMon.v
theories/LiveFail.v
theories/FarBox.v
theories/PropsMonitor.v
theories/SpecOutput.v
theories/NamesM.v
theories/NamesFacts.v
theories/PassiveFacts.v
theories/EditFacts.v
theories/PathFacts.v
theories/RecordFacts.v
theories/SnapFacts.v
theories/ExampleOut.v
theories/OutputFacts.v
theories/RaiseFacts.v
theories/RaiseCase.v
theories/PropsClock.v
theories/TornFacts.v
theories/SpecFile.v
theories/MatRecFacts.v
theories/PropsOutput.v
theories/PmlFacts.v
theories/SpecWave.v
theories/DarkFacts.v
theories/InnerFacts.v
theories/MemoryFacts.v
theories/WaveRun.v
theories/PropsWave.v
theories/SpecCone.v
theories/PolarPair.v
theories/ConeFacts.v
theories/ConeRun.v
theories/SpecSum.v
theories/SumFacts.v
theories/SumStep.v
theories/SumRun.v
theories/SpecFlip.v
theories/FlipFacts.v
theories/FlipRun.v
theories/PropsRelate.v
theories/RestartMap.v
theories/SpecRestart.v
theories/RestartLine.v
theories/RestartFacts.v
theories/RestartRun.v
theories/PropsRestart.v
theories/SpecZeroPml.v
theories/ZeroPmlFacts.v
theories/PropsZeroPml.v
theories/SpecTfsf.v
theories/TfsfFacts.v
theories/TfsfRun.v
theories/SpecPulse.v
theories/PulseFacts.v
theories/PropsTfsf.v
theories/SpecEnergy.v
theories/EnergyFacts.v
theories/EnergyRun.v
theories/PropsEnergy.v
theories/ReportM.v
theories/OpsFacts.v
theories/ShippedM.v
theories/SpecProgram.v
theories/SegFacts.v
theories/ViewFacts.v
theories/ShelfFacts.v
theories/ProgFacts.v
theories/ShippedFacts.v
theories/PropsProgram.v
theories/FileFacts.v
theories/PropsFile.v
theories/PulseCase.v
theories/RimCase.v
theories/PropsMaterial.v
theories/PropsPulse.v
theories/SpecAround.v
theories/AroundFacts.v
theories/EllipseFacts.v
theories/AroundCase.v
theories/PropsAround.v
theories/SpecFar.v
theories/RadiateFacts.v
theories/PropsFar.v
theories/TimerM.v
theories/SpecTimer.v
theories/WatchFacts.v
theories/PropsTimer.v
theories/SpecInterrupt.v
theories/InterruptFacts.v
theories/RetainFacts.v
theories/RetainCase.v
theories/PropsInterrupt.v
theories/PoleOrder.v
theories/OrderFacts.v
theories/SpecOrder.v
theories/OrderRun.v
theories/OrderCase.v
theories/PropsOrder.v
theories/SpecDark.v
theories/DarkRun.v
theories/DarkCase.v
theories/PropsDark.v
theories/SpecLoss.v
theories/LossFacts.v
theories/LossRun.v
theories/LossCase.v
theories/PropsLoss.v
theories/SpecCharge.v
theories/ChargeFacts.v
theories/ChargeCase.v
theories/PropsCharge.v
theories/SpecReverse.v
theories/ReverseFacts.v
theories/ReverseCase.v
theories/PropsReverse.v
theories/ConvFacts.v
theories/SpecRecip.v
theories/RecipFacts.v
theories/RecipRun.v
theories/RecipCase.v
theories/PropsRecip.v
theories/SpecPlane.v
theories/PlaneFacts.v
theories/PlaneSpeed.v
theories/PlaneCase.v
theories/PropsPlane.v
theories/FreeM.v
theories/FreeFacts.v
theories/PropsFree.v
theories/ArraysM.v
theories/ArraysFacts.v
theories/PropsArrays.v
theories/ConsoleM.v
theories/SpecConsole.v
theories/ConsoleFacts.v
theories/PropsConsole.v
theories/RegionFacts.v
theories/PropsRegion.v
theories/SpecFreq.v
theories/FreqFacts.v
theories/FreqCase.v
theories/PropsFreq.v
theories/SpecPoynt.v
theories/PoyntFacts.v
theories/PoyntCase.v
theories/SpecMirror.v
theories/MirrorFacts.v
theories/MirrorRun.v
theories/MirrorCase.v
theories/SpecWork.v
theories/WorkFacts.v
theories/WorkCase.v
theories/PropsPoynt.v
theories/PropsMirror.v
theories/SpecShift.v
theories/ShiftFacts.v
theories/ShiftCase.v
theories/SpecScene.v
theories/SceneFacts.v
theories/SceneCase.v
theories/PropsShift.v
theories/SpecDouble.v
theories/DoubleFacts.v
theories/DoubleCase.v
theories/PropsDouble.v
theories/SpecRound.v
theories/RoundFacts.v
theories/RoundStep.v
theories/RoundRun.v
theories/RoundCase.v
theories/PropsRound.v
theories/SpecLoose.v
theories/LooseFacts.v
theories/LooseCase.v
theories/PropsLoose.v
theories/SpecSpectra.v
theories/SpectraFacts.v
theories/PropsSpectra.v
theories/SpecDriven.v
theories/DrivenFacts.v
theories/DrivenCase.v
theories/PropsDriven.v
theories/SpecWhole.v
theories/SpecSolid.v
theories/SolidFacts.v
theories/PropsSolid.v
theories/WholeFacts.v
theories/WholeCase.v
theories/PropsWhole.v
theories/SpecDusk.v
theories/DuskFacts.v
theories/DuskCase.v
theories/PropsDusk.v
theories/SpecTurned.v
theories/TurnedFacts.v
theories/PropsTurned.v
theories/RestFacts.v
theories/PropsRest.v
theories/SpecResult.v
theories/ResultFacts.v
theories/PropsResult.v
