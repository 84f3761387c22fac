-Q theories Verif
theories/Base.v
theories/Numpy.v
theories/TableSpec.v
theories/NumpyProofs.v
theories/PlanetModel.v
theories/PlanetProofs.v
theories/LauncherModel.v
theories/PropPlanet.v
theories/TelecomModel.v
theories/TelecomSpec.v
theories/PropTelecom.v
theories/FrameModel.v
theories/FrameProofs.v
theories/VisibilityModel.v
theories/GeomSpec.v
theories/PropVisibility.v
theories/ApproachModel.v
theories/ConicSpec.v
theories/ConicProofs.v
theories/ApproachProofs.v
theories/PropApproach.v
theories/ManeuverModel.v
theories/HyperbolaProofs.v
theories/LambertProofs.v
theories/ManeuverProofs.v
theories/PropManeuver.v
theories/OrbitScalarModel.v
theories/OrbiterModel.v
theories/StateProofs.v
theories/EllipseProofs.v
theories/OrbiterProofs.v
theories/PropOrbiter.v
theories/PropProbe.v
theories/PropPropulsive.v
theories/FlightSpec.v
theories/DerivTactic.v
theories/AeroModel.v
theories/FlightProofs.v
theories/PropFlight.v
theories/HeatModel.v
theories/TrajectoryModel.v
theories/TrajectorySpec.v
theories/TrajectoryProofs.v
theories/PropTrajectory.v
theories/PropHeat.v
theories/OrbitModel.v
theories/OrbitSpec.v
theories/OrbitProofs.v
theories/PropOrbit.v
theories/CorridorModel.v
theories/CorridorSpec.v
theories/CorridorProofs.v
theories/PropCorridor.v
theories/GuidanceModel.v
theories/GuidanceSpec.v
theories/PropControl.v
theories/HeapModel.v
theories/PropPredict.v
theories/GuidanceProofs.v
theories/PropGuidance.v
theories/PropGuidanceEx.v
theories/DragModel.v
theories/PropDrag.v
theories/PropDragEx.v
theories/MonteModel.v
theories/MonteSpec.v
theories/MonteProofs.v
theories/PropMonte.v
theories/PropMonteEx.v
theories/InvarianceSpec.v
theories/PropInvariance.v
theories/SessionModel.v
theories/SessionSpec.v
theories/PropSession.v
theories/AtmosphereModel.v
theories/AtmosphereSpec.v
theories/PropAtmosphere.v
theories/ReportSpec.v
theories/PropReport.v
theories/CorrelationSpec.v
theories/PropCorrelation.v
theories/RecordSpec.v
theories/PropMonteRead.v
theories/GuidanceRecordSpec.v
theories/PropGuidanceRecord.v
theories/OrbitArraySpec.v
theories/PropOrbitArray.v
theories/PropCommand.v
theories/PropRange.v
theories/RoundSpec.v
theories/RoundModel.v
theories/PropRound.v
theories/PropRound64.v
theories/PropRoundGrid.v
theories/PropErrors.v
theories/GuidedModel.v
theories/GuidedSpec.v
theories/PropGuided.v
theories/PropGuidedEx.v
theories/WitnessOrbit.v
theories/WitnessFlight.v
theories/ApproachFrameModel.v
theories/PropApproachFrame.v
theories/PropOrbitHistory.v
theories/PropProfile.v
theories/LegSpec.v
theories/PropLegs.v
theories/ExactSpec.v
theories/ExactProofs.v
theories/PropExact.v
theories/PropExactEx.v
theories/StopSpec.v
theories/PropStop.v
theories/DetSpec.v
theories/DetProofs.v
theories/PropDet.v
theories/PropDetEx.v
theories/PropInterface.v
theories/PropHeading.v
theories/PropBudget.v
theories/PropEntryState.v
theories/PlotModel.v
theories/PlotSpec.v
theories/PropPlot.v
theories/StudyModel.v
theories/StudySpec.v
theories/PropStudy.v
theories/PropConcurrent.v
theories/PropStudyEx.v
theories/SetupModel.v
theories/SetupSpec.v
theories/PropSetup.v
theories/PropSetupEx.v
theories/RunningSpec.v
theories/RunningModel.v
theories/PropRunning.v
theories/PropRunning64.v
theories/CampaignModel.v
theories/CampaignSpec.v
theories/PropCampaign.v
theories/PropCampaignEx.v
theories/UnitsModel.v
theories/UnitsSpec.v
theories/PropUnits.v
theories/PropUnits64.v
theories/TextModel.v
theories/TextSpec.v
theories/PropText.v
theories/PropTextDisk.v
theories/OrbitRoundModel.v
theories/OrbitRoundSpec.v
theories/PropOrbitRound.v
theories/PropOrbitRound64.v
theories/FigureModel.v
theories/FigureSpec.v
theories/PropFigure.v
theories/PropFigureEx.v
theories/ExitRoundModel.v
theories/ExitRoundSpec.v
theories/PropExitRound.v
theories/PropExitRound64.v
theories/DatasetModel.v
theories/DatasetSpec.v
theories/PropDataset.v
theories/TableRoundModel.v
theories/TableRoundSpec.v
theories/PropTableRound.v
theories/PropTableRound64.v
theories/FleetModel.v
theories/FleetSpec.v
theories/PropFleet.v
theories/PropFleetEx.v
theories/NearSpec.v
theories/NearProofs.v
theories/PropNear.v
theories/PropNearEx.v
theories/Picard.v
theories/ExistSpec.v
theories/ExistProofs.v
theories/PropExist.v
theories/PropExistEx.v
theories/Trapezoid.v
theories/HeatIntSpec.v
theories/HeatIntProofs.v
theories/PropHeatInt.v
theories/PropExistRun.v
theories/PropHeatIntEx.v
theories/PeakSpec.v
theories/PropPeak.v
theories/PropPeakEx.v
theories/ExitSpec.v
theories/ExitProofs.v
theories/PropExit.v
theories/PropTrap.v
theories/PropExitRun.v
theories/PropExitEx.v
theories/PropExitOrbit.v
theories/PropExitOrbitEx.v
theories/VerdictSpec.v
theories/VerdictProofs.v
theories/PropVerdict.v
theories/PropVerdictEx.v
theories/NearExitSpec.v
theories/NearExitProofs.v
theories/PropNearExit.v
theories/PropNearVerdict.v
theories/PropNearExitEx.v
theories/EnterProofs.v
theories/PropEnter.v
theories/PropEnterRun.v
theories/PropEnterEx.v
theories/GrazeSpec.v
theories/GrazeProofs.v
theories/PropGraze.v
theories/PropGrazeEx.v
theories/FlowProofs.v
theories/FlowExitProofs.v
theories/BoundarySpec.v
theories/PropBoundary.v
theories/PropBoundaryEx.v
theories/NearLoadSpec.v
theories/PropNearTop.v
theories/PropNearLoads.v
theories/PropNearLoadsEx.v
theories/NearPeakSpec.v
theories/PropNearPeak.v
theories/PropNearPeakEx.v
theories/PropNearHeat.v
theories/PropNearHeatEx.v
theories/Assumptions.v
