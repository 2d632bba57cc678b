-Q theories Verif
theories/Base.v
theories/BaseFacts.v
theories/Container.v
theories/Network.v
theories/NetworkSpec.v
theories/ContainerFacts.v
theories/NetworkFacts.v
theories/SolverFacts.v
theories/StepFacts.v
theories/CapacityFacts.v
theories/WitnessTools.v
theories/NetworkTools.v
theories/NetworkWitness.v
theories/LimiterFacts.v
theories/PropertiesNetwork.v
theories/Processes.v
theories/ProcessFacts.v
theories/PropertiesProcesses.v
theories/Direct.v
theories/DirectSpec.v
theories/DirectFacts.v
theories/DirectSafe.v
theories/DirectWitness.v
theories/PropertiesDirect.v
theories/Routing.v
theories/RoutingSpec.v
theories/RoutingFacts.v
theories/RoutingStores.v
theories/RoutingStores2.v
theories/RoutingWitness.v
theories/PropertiesRouting.v
theories/Sequential.v
theories/SequentialFacts.v
theories/RunFacts.v
theories/SequentialSpec.v
theories/SchemeFacts.v
theories/SequentialProofs.v
theories/SolverNames.v
theories/SequentialWitness.v
theories/PropertiesSequential.v
theories/LandCover.v
theories/LandCoverSpec.v
theories/LandCoverFacts.v
theories/LandCoverWitness.v
theories/PropertiesLandCover.v
theories/Lateral.v
theories/LateralSpec.v
theories/LateralFacts.v
theories/LateralWitness.v
theories/PropertiesLateral.v
theories/GlacierActions.v
theories/GlacierSpec.v
theories/GlacierFacts.v
theories/GlacierWitness.v
theories/PropertiesGlacier.v
theories/Actions.v
theories/ActionsFacts.v
theories/ActionsSpec.v
theories/PropertiesActions.v
theories/Clock.v
theories/TimeSeries.v
theories/ModelRun.v
theories/RunSpec.v
theories/ClockFacts.v
theories/ModelRunFacts.v
theories/SupplyFacts.v
theories/RerunFacts.v
theories/ClockFloat.v
theories/ClockFloatFacts.v
theories/RunMoreFacts.v
theories/PropertiesRun.v
theories/PropertiesClock.v
theories/Reset.v
theories/ResetSpec.v
theories/ResetFacts.v
theories/ResetRun.v
theories/PropertiesReset.v
theories/PropertiesStart.v
theories/Search.v
theories/Calendar.v
theories/CalendarSpec.v
theories/CalendarFacts.v
theories/SearchFacts.v
theories/CalendarFloat.v
theories/CalendarFloatFacts.v
theories/PropertiesCalendar.v
theories/Parameters.v
theories/ParametersSpec.v
theories/ParametersFacts.v
theories/PropertiesParameters.v
theories/Logger.v
theories/LoggerSpec.v
theories/LoggerFacts.v
theories/PropertiesLogger.v
theories/Settings.v
theories/SettingsSpec.v
theories/SettingsFacts.v
theories/PropertiesSettings.v
theories/Topology.v
theories/TopologySpec.v
theories/PropertiesTopology.v
theories/TextbookSpec.v
theories/TextbookFacts.v
theories/OrderFacts.v
theories/PropertiesTextbook.v
theories/Catchment.v
theories/CatchmentSpec.v
theories/CatchmentFacts.v
theories/CatchmentWitness.v
theories/PropertiesCatchment.v
theories/Structure.v
theories/Build.v
theories/StructureSpec.v
theories/StructureFacts.v
theories/PartsFacts.v
theories/BuildSpec.v
theories/BuildFacts.v
theories/BuildSound.v
theories/DeclareSpec.v
theories/DeclareFacts.v
theories/RainFacts.v
theories/DeclareWitness.v
theories/ProgressFacts.v
theories/PropertiesProgress.v
theories/RunWitness.v
theories/PropertiesBuild.v
theories/LawSpec.v
theories/LawFacts.v
theories/PropertiesLaws.v
theories/AliasSpec.v
theories/AliasFacts.v
theories/PropertiesAlias.v
theories/Basin.v
theories/BasinSpec.v
theories/BasinFacts.v
theories/PropertiesBasin.v
theories/ForcingFile.v
theories/ForcingFileSpec.v
theories/ForcingFileFacts.v
theories/PropertiesForcing.v
theories/Results.v
theories/ResultsSpec.v
theories/ResultsFacts.v
theories/PropertiesResults.v
theories/PropertiesLawsExact.v
theories/GlacierTables.v
theories/GlacierTablesFacts.v
theories/GlacierTablesSpec.v
theories/GlacierTablesLink.v
theories/PropertiesGlacierTables.v
theories/GlacierDeltaHSpec.v
theories/GlacierDeltaHFacts.v
theories/GlacierDeltaHLink.v
theories/GlacierDeltaHUse.v
theories/PropertiesGlacierDeltaH.v
theories/GlacierBandsSpec.v
theories/GlacierBandsFacts.v
theories/GlacierBandsLink.v
theories/GlacierBandsUse.v
theories/PropertiesGlacierBands.v
theories/ParamSet.v
theories/ParamSetSpec.v
theories/ParamSetFacts.v
theories/ParamSetRange.v
theories/ParamSetUse.v
theories/ParamSetDraws.v
theories/PropertiesParamSet.v
theories/ParamSetSearch.v
theories/PropertiesCalibration.v
theories/Connectivity.v
theories/ConnectivitySpec.v
theories/ConnectivityFacts.v
theories/ConnectivityRound.v
theories/ConnectivityNormal.v
theories/ConnectivityRows.v
theories/ForcingOps.v
theories/ForcingOpsSpec.v
theories/ForcingOpsFacts.v
theories/ForcingOpsCal.v
theories/PropertiesForcingOps.v
theories/PropertiesForcingUse.v
theories/PropertiesForcingCalibration.v
theories/Periods.v
theories/PeriodsSpec.v
theories/PeriodsFacts.v
theories/PropertiesPeriods.v
theories/Discretization.v
theories/DiscretizationSpec.v
theories/DiscretizationFacts.v
theories/DiscretizationUnits.v
theories/DiscretizationCalls.v
theories/PropertiesDiscretization.v
theories/PropertiesDiscretizationGaps.v
theories/GlacierBalance.v
theories/GlacierBalanceSpec.v
theories/GlacierBalanceFacts.v
theories/PropertiesGlacierBalance.v
theories/PropertiesGlacierEngine.v
theories/PropertiesGlacierObs.v
theories/SnowCover.v
theories/SnowCoverSpec.v
theories/SnowCoverFacts.v
theories/PropertiesSnowCover.v
theories/SnowStack.v
theories/SnowStackSpec.v
theories/SnowStackFacts.v
theories/PropertiesSnowStack.v
theories/LandCoverTable.v
theories/LandCoverTableSpec.v
theories/LandCoverTableFacts.v
theories/LandCoverTableFacts2.v
theories/LandCoverTableFacts3.v
theories/PropertiesLandCoverTable.v
theories/Units.v
theories/UnitsSpec.v
theories/PropertiesUnits.v
theories/LandCoverExtract.v
theories/LandCoverExtractSpec.v
theories/LandCoverExtractFacts.v
theories/LandCoverExtractFacts2.v
theories/PropertiesLandCoverExtract.v
theories/ReferenceMetric.v
theories/ReferenceMetricSpec.v
theories/ReferenceMetricFacts.v
theories/PropertiesReferenceMetric.v
theories/StructureGraph.v
theories/StructureGraphSpec.v
theories/StructureGraphFacts.v
theories/PropertiesStructureGraph.v
theories/StructureDrawing.v
theories/StructureDrawingSpec.v
theories/PropertiesStructureDrawing.v
