{"id": "C01", "title": "Solved storages never hold a negative amount of water", "statement": "For a catchment whose solved storages feed each other in declaration order, whatever outflow rates the processes ask for, every time step of the explicit Euler solver leaves every storage's reported water content at zero or above, and so does every later time step.", "quantifier": "every feed-forward network of storages, every process rate law, every forcing history, every number of steps, every positive time step", "why_tests_cant": "the rate laws and histories are unbounded; a test only exercises a few parameter sets and stops at the first clamp", "anchors": ["core/src/containers/WaterContainer.cpp:ApplyConstraints,Finalize", "core/src/base/Processor.cpp:EvaluateRates,EnforceConstraints,ApplyRates,FinalizeTimeStep", "core/src/base/SolverEulerExplicit.cpp:Solve"]}
{"id": "C02", "title": "A storage capacity is never exceeded when an overflow is attached", "statement": "If a storage has a maximum capacity and an overflow process, then after the storage constraints have been applied the content reached at the end of the step is at most the capacity, and the overflow carries exactly the excess and nothing when there is no excess.", "quantifier": "every content, capacity, set of inflow and outflow rates and positive time step", "why_tests_cant": "the excess depends on the interplay of all rates; tests pick a few", "anchors": ["core/src/containers/WaterContainer.cpp:ApplyConstraints (127-174)", "core/src/processes/ProcessOutflowOverflow.cpp"]}
{"id": "C03", "title": "The water balance of the solved storages closes", "statement": "Over any number of Euler steps, the water in storage at the end equals the water at the start plus everything that entered from outside minus everything sent to the outlet and the atmosphere, up to the documented snapping of residuals below 1e-8 mm.", "quantifier": "every feed-forward network, every rate law, every input history, every number of steps", "why_tests_cant": "conservation is a statement over all histories; sampling a few cannot show no water is created by the limiter", "anchors": ["core/src/base/Processor.cpp:ApplyRates", "core/src/processes/Process.cpp:ApplyChange", "core/src/fluxes/FluxToBrick.cpp", "core/src/containers/WaterContainer.cpp:Finalize"]}
{"id": "C04", "title": "The rate limiter intervenes minimally and proportionally", "statement": "Limiting the rates of a storage never raises an outflow rate, never produces a negative rate, leaves every rate unchanged when the requested step is feasible, and otherwise reduces all outflows in the same proportion so that the storage ends exactly empty.", "quantifier": "every list of outflow and inflow rates, content, static input and time step", "why_tests_cant": "the property is an algebraic law over arbitrary lists of reals", "anchors": ["core/src/containers/WaterContainer.cpp:ApplyConstraints (55-143)"]}
{"id": "C05", "title": "A brick computed directly conserves water", "statement": "A brick computed before the solver (land cover, surface component, storage flagged computed_directly) ends the step with its previous content plus its inputs minus what its processes released.", "quantifier": "every process list, every rate law, every input", "why_tests_cant": "whether the limiter's available water equals the real available water must be settled for all inputs", "anchors": ["core/src/base/Processor.cpp:ApplyDirectChanges (278-323)", "core/src/bricks/Brick.cpp:UpdateContentFromInputs", "core/src/bricks/Snowpack.cpp:UpdateContentFromInputs", "core/src/containers/WaterContainer.cpp:ApplyConstraints"]}
{"id": "C06", "title": "Multi-stage solvers do not lose water on backward connections", "statement": "With the Heun and RK4 solvers, the water a storage releases to another storage is the water the other storage receives, whatever the declaration order of the two storages.", "quantifier": "every order of declaration, every rate law, every step", "why_tests_cant": "depends on the interaction of the stage sequence with flux buffers for all orders", "anchors": ["core/src/base/SolverHeunExplicit.cpp:Solve", "core/src/base/SolverRK4.cpp:Solve", "core/src/base/Processor.cpp:ApplyRates,ResetState"]}
{"id": "C07", "title": "Instantaneous transfers are booked once per step by every solver", "statement": "A process output declared instantaneous delivers to its target exactly the amount the source is debited, once per time step, with every solver.", "quantifier": "every solver, every rate law, every time step", "why_tests_cant": "the number of stage applications differs per solver and the effect accumulates over histories", "anchors": ["core/src/fluxes/FluxToBrickInstantaneous.cpp:UpdateFlux", "core/src/base/Processor.cpp:ResetState,ApplyRates", "core/src/base/SolverHeunExplicit.cpp", "core/src/base/SolverRK4.cpp"]}
{"id": "C08", "title": "Intermediate solver stages leave no trace", "statement": "For storages connected in declaration order, the state committed by the Heun and RK4 solvers is the start-of-step state advanced by one application of the combined rate: the trial applications of the stages do not change contents.", "quantifier": "every feed-forward network, every rate law, every step size", "why_tests_cant": "stage side effects are only visible for particular combinations of rates", "anchors": ["core/src/base/SolverHeunExplicit.cpp:Solve", "core/src/base/SolverRK4.cpp:Solve", "core/src/base/Processor.cpp:GatherState,ScatterState,ResetState"]}
{"id": "C09", "title": "The analytic solver is exact for linear reservoirs", "statement": "For a storage whose outflows are linear in its content, the analytic_linear solver's content is the solution of the reservoir's differential equation with constant inflow, its outflow volume closes the balance, outflows are non-negative and are shared in proportion to the coefficients; two consecutive half steps give the same content as one full step.", "quantifier": "every content, inflow, list of coefficients and step length", "why_tests_cant": "exactness is an identity over the reals", "anchors": ["core/src/base/SolverAnalyticLinear.cpp:ComputeBrickRates"]}
{"id": "C10", "title": "The implicit solvers return the root they claim", "statement": "For an outflow law that does not decrease with content, the implicit_euler and crank_nicolson solvers keep the end-of-step content of their equation bracketed during all bisection iterations, and the content they stop at is within the final bracket width of it; when the law's outflow at the upper bound exceeds the available water the content is still not negative.", "quantifier": "every non-decreasing outflow law, content, inflow and step length", "why_tests_cant": "bracketing is an invariant over all laws and iterations", "anchors": ["core/src/base/SolverImplicitEuler.cpp:ComputeBrickRates", "core/src/base/SolverCrankNicolson.cpp:ComputeBrickRates"]}
{"id": "C11", "title": "Sequential solvers close the balance of each storage", "statement": "With the sequential solvers (analytic_linear, implicit_euler, crank_nicolson, exponential_euler), each storage ends the step with its start content plus inflows minus released water, never below zero.", "quantifier": "every rate law and every list of storages in order", "why_tests_cant": "all rate laws", "anchors": ["core/src/base/SolverSequential.cpp:Solve", "core/src/base/SolverExponentialEuler.cpp:ComputeBrickRates"]}
{"id": "C12", "title": "Solver names", "statement": "A solver name is accepted exactly when it is in the published list, synonyms select the same scheme, and any other name is rejected with an error.", "quantifier": "every string", "why_tests_cant": "the set of strings is infinite", "anchors": ["core/src/base/Solver.cpp:Factory,GetValidSolverNames"]}
{"id": "C13", "title": "Rain/snow separation conserves precipitation", "statement": "With unit correction factors every rain/snow splitter delivers rain plus snow equal to the precipitation, both between zero and the precipitation; with correction factors each phase is the same share multiplied by its factor. Rain does not decrease when the temperature increases.", "quantifier": "every precipitation, temperature (min, max) and transition parameters accepted", "why_tests_cant": "continuous domain", "anchors": ["core/src/fluxes/SplitterSnowRainLinear.cpp:Compute", "core/src/fluxes/SplitterSnowRainThreshold.cpp:Compute", "core/src/fluxes/SplitterSnowRainCemaNeige.cpp:Compute", "core/src/fluxes/SplitterRain.cpp:Compute"]}
{"id": "C14", "title": "GR4J/GR6J production store stays within its bounds", "statement": "The water the production store takes is between zero and the net rain and never fills it beyond its capacity; its evaporation is between zero and both the net demand and the stored water; its percolation is between zero and the stored water.", "quantifier": "every capacity > 0, store level between 0 and the capacity, net rain and demand >= 0", "why_tests_cant": "nonlinear formulas over reals", "anchors": ["core/src/processes/helpers/GR4JFormulas.h", "core/src/processes/ProcessProductionGR4J.cpp", "core/src/processes/ProcessInfiltrationGR4J.cpp", "core/src/processes/ProcessETGR4J.cpp", "core/src/processes/ProcessPercolationGR4J.cpp"]}
{"id": "C15", "title": "Evapotranspiration is bounded by the demand", "statement": "Each evapotranspiration process returns a rate between zero and the potential evapotranspiration, non-decreasing in the water available.", "quantifier": "every content, capacity, PET >= 0 and admissible parameters", "why_tests_cant": "continuous domain", "anchors": ["core/src/processes/ProcessETSocont.cpp", "core/src/processes/ProcessETHBV.cpp", "core/src/processes/ProcessETLinear.cpp", "core/src/processes/ProcessETPowerLaw.cpp", "core/src/processes/ProcessETExponential.cpp", "core/src/processes/ProcessETOpenWater.cpp"]}
{"id": "C16", "title": "Melt and refreezing obey their thresholds", "statement": "Melt is zero at or below the melting temperature, non-negative, and does not decrease when temperature rises; refreezing only occurs below it; the CemaNeige cold content never becomes positive and no melt occurs while it is negative.", "quantifier": "every temperature history and admissible parameters", "why_tests_cant": "histories and continuous inputs", "anchors": ["core/src/processes/ProcessMeltDegreeDay.cpp", "core/src/processes/ProcessMeltTemperatureIndex.cpp", "core/src/processes/ProcessMeltCemaNeige.cpp", "core/src/processes/ProcessRefreezeDegreeDay.cpp"]}
{"id": "C17", "title": "Unit hydrograph ordinates are a partition of one", "statement": "For every base time the two GR unit hydrographs have non-negative ordinates that sum to one.", "quantifier": "every X4 > 0 (any number of ordinates)", "why_tests_cant": "infinitely many base times; real powers", "anchors": ["core/src/processes/helpers/GRUnitHydrograph.cpp"]}
{"id": "C18", "title": "Unit hydrographs deliver everything they receive", "statement": "Feeding any input history to a unit hydrograph, the water released plus the water still in the hydrograph equals the water received; after as many dry steps as it has ordinates it is empty.", "quantifier": "every input history and ordinate list summing to one", "why_tests_cant": "unbounded histories", "anchors": ["core/src/processes/helpers/GRUnitHydrograph.cpp", "core/src/processes/ProcessRoutingGR4J.cpp", "core/src/processes/ProcessRoutingGR6J.cpp"]}
{"id": "C19", "title": "HBV routing releases exactly what it receives", "statement": "The triangular transformation function has non-negative weights summing to one, the scheduled releases add up to the stored water at the end of every step, and an impulse leaves completely within ceil(MAXBAS) steps.", "quantifier": "every MAXBAS, every input history", "why_tests_cant": "unbounded histories and real parameters", "anchors": ["core/src/processes/ProcessRoutingHBV.cpp"]}
{"id": "C20", "title": "The GR4J routing storage reported equals the water in the hydrographs and the routing store", "statement": "After every step the content reported for the GR4J routing brick equals the routing store level plus the water still held in the two unit hydrographs.", "quantifier": "every input history and parameters", "why_tests_cant": "unbounded histories", "anchors": ["core/src/processes/ProcessRoutingGR4J.cpp"]}
{"id": "C21", "title": "The GR6J exponential store is well behaved", "statement": "The exponential store outflow is positive and does not decrease when the level rises, and the numerical branches agree with the formula X6 ln(1 + exp(R/X6)).", "quantifier": "every level (positive or negative) and X6 > 0", "why_tests_cant": "real-valued branches", "anchors": ["core/src/processes/helpers/GR6JFormulas.h", "core/src/processes/ProcessRoutingGR6J.cpp"]}
{"id": "C22", "title": "Lateral snow transport conserves snow volume", "statement": "The snow volume (depth times area) leaving a hydro unit's snowpack by sliding or redistribution equals the total volume deposited on the receiving units' snowpacks. Snow slides leave at least the depth the slope can hold (coeff * slope^exp metres between the slope bounds, at least the minimum and at most the maximum depth), each receiver gets exactly its share of the rest, and one whose depth exceeds 1.5 times the maximum gets nothing.", "quantifier": "every pair of areas, cover fractions, connection fractions and rates", "why_tests_cant": "area/fraction combinations are continuous", "anchors": ["core/src/processes/ProcessLateral.cpp:ComputeFractionAreas", "core/src/processes/ProcessLateralSnowSlide.cpp", "core/src/processes/ProcessLateralSnowRedistributionFrey.cpp"]}
{"id": "C23", "title": "Land cover fractions always sum to one", "statement": "Starting from a valid hydro unit, any accepted sequence of area-fraction changes keeps every fraction in [0,1] and their sum equal to one; a refused change leaves the unit unchanged.", "quantifier": "every sequence of changes on every set of covers", "why_tests_cant": "unbounded sequences", "anchors": ["core/src/spatial/HydroUnit.cpp:ChangeLandCoverAreaFraction,FixLandCoverFractionsTotal,CheckLandCoverAreaFraction"]}
{"id": "C24", "title": "Changing a land cover conserves liquid water and snow", "statement": "When an area changes from one cover to the generic one, the total volume of liquid water (and snow in matching snowpacks) over the unit is unchanged and stores stay non-negative.", "quantifier": "every fractions, contents", "why_tests_cant": "continuous domain", "anchors": ["core/src/spatial/HydroUnit.cpp:TransferLandCoverContent"]}
{"id": "C25", "title": "Flux weights follow the cover area", "statement": "After the area fraction of a cover or of a surface component is set, every weighted output delivers its amount multiplied by the fraction of the unit the component actually covers, for each output equally.", "quantifier": "every number of outputs, fraction", "why_tests_cant": "number of outputs is unbounded", "anchors": ["core/src/bricks/LandCover.cpp:SetAreaFraction", "core/src/bricks/SurfaceComponent.cpp:SetAreaFraction", "core/src/fluxes/Flux.cpp:UpdateFlux"]}
{"id": "C26", "title": "Delta-h glacier evolution conserves ice", "statement": "Applying the delta-h lookup table redistributes the ice volume of the glacier over the units without changing its total, picks a row inside the table, and never gives a negative area.", "quantifier": "every table, every ice volume between zero and the initial one", "why_tests_cant": "continuous volumes, arbitrary tables", "anchors": ["core/src/actions/ActionGlacierEvolutionDeltaH.cpp"]}
{"id": "C27", "title": "Area-scaling glacier evolution conserves ice", "statement": "Applying the area scaling table keeps each unit's ice volume.", "quantifier": "every table and volume", "why_tests_cant": "arbitrary tables", "anchors": ["core/src/actions/ActionGlacierEvolutionAreaScaling.cpp"]}
{"id": "C28", "title": "Snow-to-ice action conserves snow plus ice", "statement": "On the transformation date all snow of the glacier's snowpack is added to the ice and the snow becomes zero, other stores unchanged.", "quantifier": "every state", "why_tests_cant": "all states", "anchors": ["core/src/actions/ActionGlacierSnowToIceTransformation.cpp"]}
{"id": "C29", "title": "Dated actions are applied exactly once and in date order", "statement": "Whatever the order in which actions and their dates were registered, a run applies each dated change whose date has been reached exactly once, in chronological order, and never before its date.", "quantifier": "every set of actions, dates, and every sequence of increasing simulated dates", "why_tests_cant": "interleavings of registrations and dates", "anchors": ["core/src/actions/ActionsManager.cpp", "core/src/actions/Action.cpp", "core/src/actions/ActionLandCoverChange.cpp"]}
{"id": "C30", "title": "Changes registered for the same date are applied in registration order", "statement": "Two land cover changes with the same date are applied in the order they were added.", "quantifier": "every registration sequence", "why_tests_cant": "interleavings", "anchors": ["core/src/actions/ActionLandCoverChange.cpp:AddChange", "core/src/actions/Action.cpp:GetIndexForInsertion"]}
{"id": "C31", "title": "Recurring actions fire on their registered days only, once per day", "statement": "A recurring action registered for given (month, day) pairs is applied once on each of those days and on no other day.", "quantifier": "every set of (month, day) pairs, every time step", "why_tests_cant": "cross product of dates", "anchors": ["core/src/actions/Action.cpp:AddRecursiveDate,ApplyIfRecursive"]}
{"id": "C32", "title": "The time loop performs exactly the announced number of steps", "statement": "The number of steps performed from start to end equals the number of rows allocated for results, so every step has a row and every row is filled.", "quantifier": "every start, end and time step", "why_tests_cant": "unbounded periods", "anchors": ["core/src/base/TimeMachine.cpp", "core/src/base/ModelHydro.cpp:Run", "core/src/base/Logger.cpp"]}
{"id": "C33", "title": "The forcing value used at a step is the value for that date", "statement": "After positioning the time series at a date, the value read is the one recorded for that date.", "quantifier": "every series start, time step and unit, every date in range", "why_tests_cant": "date/step combinations", "anchors": ["core/src/base/TimeSeriesData.cpp:SetCursorToDate,GetValueFor,AdvanceOneTimeStep"]}
{"id": "C34", "title": "A run never reads forcing outside the provided data", "statement": "If a series passed the checks on addition, positioning it at the start and advancing once per step never fails nor reads beyond its data during the run.", "quantifier": "every series covering the period, every period length", "why_tests_cant": "unbounded lengths", "anchors": ["core/src/base/ModelHydro.cpp:AddTimeSeries,Run", "core/src/base/TimeSeriesData.cpp"]}
{"id": "C35", "title": "Spin-up leaves no trace except in the stores", "statement": "A spin-up records nothing, applies no action and no parameter modification, restores land cover fractions, the clock and the forcing position; it never runs longer than the period.", "quantifier": "every spin-up length and model", "why_tests_cant": "all configurations", "anchors": ["core/src/base/ModelHydro.cpp:RunSpinup"]}
{"id": "C36", "title": "Re-running after a reset gives the same results", "statement": "After Reset, a second run with the same inputs behaves as the first one: all states that influence results are restored.", "quantifier": "every model state reached by a run", "why_tests_cant": "histories", "anchors": ["core/src/base/ModelHydro.cpp:Reset", "core/src/bricks/Snowpack.cpp:Reset", "core/src/base/ParametersUpdater.cpp", "core/src/containers/WaterContainer.cpp:Reset"]}
{"id": "C37", "title": "Time-varying parameters take the value of the simulated date", "statement": "With a yearly, monthly or dated parameter modifier, the parameter used during a step is the value specified for the date of that step.", "quantifier": "every series of values and dates", "why_tests_cant": "histories", "anchors": ["core/src/base/ParametersUpdater.cpp", "core/src/base/ParameterModifier.cpp"]}
{"id": "C38", "title": "Search in sorted arrays is sound and complete", "statement": "Searching a value in an ascending or descending array with a tolerance returns an index whose element is within the tolerance, and reports not-found/out-of-range only when no element is.", "quantifier": "every sorted array, value and tolerance", "why_tests_cant": "arrays of every length", "anchors": ["core/src/base/Utils.cpp:FindT"]}
{"id": "C39", "title": "Calendar conversions round-trip", "statement": "Converting a valid civil date and time to the modified Julian day and back returns the same date, consecutive days differ by one, and day-of-year is the ordinal of the day in its year.", "quantifier": "every date", "why_tests_cant": "infinitely many dates", "anchors": ["core/src/base/UtilsDateTime.cpp", "core/src/base/TimeMachine.cpp:GetCurrentDayOfYear"]}
{"id": "C40", "title": "Reported catchment totals are area-weighted sums", "statement": "Totals of outlet discharge, evapotranspiration and storage changes reported by the logger are the sums over time of the values weighted by unit area and cover fraction.", "quantifier": "every set of labels, units, fractions and values", "why_tests_cant": "unbounded sets", "anchors": ["core/src/base/Logger.cpp"]}
{"id": "C41", "title": "Each unit gets the structure variant matching its covers", "statement": "A hydro unit is assigned the first variant whose land covers are exactly its present ones, otherwise a smallest variant containing them, otherwise a largest variant.", "quantifier": "every list of variants and every set of covers", "why_tests_cant": "all sets", "anchors": ["core/src/base/ModelBuilder.cpp:AssignHydroUnitStructures"]}
{"id": "C42", "title": "Setting a parameter by component reaches exactly the designated components", "statement": "Setting a parameter for a component name, a comma-separated list or a type: selector changes that parameter in every designated brick or splitter of every variant, changes nothing else, and reports failure when nothing matches.", "quantifier": "every model settings and selector", "why_tests_cant": "all settings", "anchors": ["core/src/base/SettingsModel.cpp:SetParameterValue,SetParameterValueInSelectedStructure"]}
{"id": "C43", "title": "Log labels are unique and complete", "statement": "The list of recorded labels contains every label of every variant exactly once, in first-declared order, so each recorded series has its own column.", "quantifier": "every list of variants", "why_tests_cant": "unbounded lists", "anchors": ["core/src/base/SettingsModel.cpp:GetHydroUnitLogLabels", "core/src/base/ModelBuilder.cpp:ConnectLoggerToValues"]}
{"id": "C44", "title": "Invalid flux topologies are rejected", "statement": "Initialisation fails exactly when some solved brick sends water to a directly computed brick.", "quantifier": "every model topology", "why_tests_cant": "all topologies", "anchors": ["core/src/base/Processor.cpp:ValidateFluxTopology"]}
{"id": "C45", "title": "Time series are accepted exactly when they cover the period", "statement": "A series is accepted if and only if no series of its type exists yet, it starts no later than the model and ends no earlier.", "quantifier": "every series and period", "why_tests_cant": "all dates", "anchors": ["core/src/base/ModelHydro.cpp:AddTimeSeries"]}
{"id": "C46", "title": "The forcing time step is recognised", "statement": "The time step deduced from a forcing time axis equals the spacing of the axis.", "quantifier": "every spacing", "why_tests_cant": "continuous", "anchors": ["core/src/base/TimeSeries.cpp:ExtractTimeStep"]}
{"id": "C47", "title": "A cover whose area becomes zero stops delivering water", "statement": "Once a land cover's area becomes zero, it no longer contributes water to downstream stores in later steps.", "quantifier": "every history", "why_tests_cant": "needs a specific history of area change and flux", "anchors": ["core/src/base/Processor.cpp:ProcessTimeStep", "core/src/bricks/LandCover.cpp:IsNull", "core/src/fluxes/FluxToBrick.cpp:GetAmount"]}
{"id": "C48", "title": "Water reaching the catchment from units is area-weighted", "statement": "The water delivered to the sub-basin (outlet or sub-basin stores) by the land covers of all units is the sum of the amounts released multiplied by cover fraction and unit area over catchment area.", "quantifier": "every number of units and covers", "why_tests_cant": "unbounded numbers", "anchors": ["core/src/base/ModelBuilder.cpp:BuildHydroUnitBricksFluxes", "core/src/spatial/SubBasin.cpp:ComputeOutletDischarge", "core/src/fluxes/Flux.cpp:UpdateFlux"]}
{"id": "C49", "title": "Infiltration, runoff and capillary rise stay within the available water", "statement": "Infiltration (Socont, HBV) is between zero and the available water, takes everything when the soil is empty, nothing when it is full, and does not increase with soil moisture; Socont runoff never exceeds the water on the surface; HBV quick runoff does not decrease with storage; capillary rise is between zero and its maximum and stops when the soil is full.", "quantifier": "every content, capacity, parameter and area", "why_tests_cant": "continuous domain", "anchors": ["core/src/processes/ProcessInfiltrationSocont.cpp", "core/src/processes/ProcessInfiltrationHBV.cpp", "core/src/processes/ProcessRunoffSocont.cpp", "core/src/processes/ProcessRunoffHBV.cpp", "core/src/processes/ProcessCapillaryHBV.cpp"]}
{"id": "C50", "title": "Threshold drains remove exactly the excess", "statement": "The threshold outflow and the snowpack retention outflow leave over one step exactly the smaller of the content and the threshold, whatever the time step.", "quantifier": "every content, threshold and time step", "why_tests_cant": "continuous domain", "anchors": ["core/src/processes/ProcessOutflowThreshold.cpp", "core/src/processes/ProcessOutflowSnowHolding.cpp"]}
{"id": "C51", "title": "The rest outflow completes the others", "statement": "The rest outflow requests exactly the content not requested by the other outflows of the storage and never a negative amount; the snow to ice transformation is never negative and at most twice its basal coefficient.", "quantifier": "every list of outflows, content, day of year", "why_tests_cant": "unbounded number of outflows", "anchors": ["core/src/processes/ProcessOutflowRest.cpp", "core/src/processes/ProcessTransformSnowToIceSwat.cpp"]}
{"id": "C52", "title": "Routing hydrographs follow the current base time", "statement": "The unit hydrographs used at a step are those of the base time parameter in force at that step, and a change of the base time keeps the water in transit.", "quantifier": "every sequence of parameter values", "why_tests_cant": "continuous parameter, histories of changes", "anchors": ["core/src/processes/ProcessRoutingGR4J.cpp:GetRates", "core/src/processes/ProcessRoutingGR6J.cpp:GetRates", "core/src/processes/ProcessRoutingGR4J.cpp:_recomputeUH"]}
{"id": "C53", "title": "HBV routing does not depend on the unit's share of the catchment", "statement": "The delay the HBV transformation function applies to the runoff of a hydro unit is the MAXBAS weighting, whatever share of the catchment the unit covers.", "quantifier": "every share in (0,1], every inflow history", "why_tests_cant": "depends on the area share and on several steps", "anchors": ["core/src/processes/ProcessRoutingHBV.cpp:Finalize", "core/src/base/ModelBuilder.cpp:BuildHydroUnitBricksFluxes"]}
{"id": "C54", "title": "The exponential Euler solver is exact for linear reservoirs", "statement": "For a storage whose outflows are linear in its content, exponential_euler commits the exact end-of-step content of the reservoir equation and shares the outflow in proportion to the coefficients.", "quantifier": "every network declared in flow order, storage, start content, inflow, set of linear coefficients and step length", "why_tests_cant": "the scheme estimates the slope by finite differences and redistributes by weights; agreement with the differential equation cannot be sampled", "anchors": ["core/src/base/SolverExponentialEuler.cpp: SolverExponentialEuler::ComputeBrickRates", "core/src/base/SolverSequential.cpp: SolverSequential::Solve"]}
{"id": "C55", "title": "The dynamic snow density stays physical", "statement": "The snow density used by the Frey and Holzmann redistribution stays between the smallest and largest density among its parameters and the initial value, and does not decrease while no fresh snow falls.", "quantifier": "every sequence of time steps, temperatures and snow amounts", "why_tests_cant": "unbounded histories over a continuous domain", "anchors": ["core/src/processes/ProcessLateralSnowRedistributionFrey.cpp:Finalize", "core/src/processes/ProcessLateralSnowRedistributionFrey.cpp:ComputeFreshSnowDensity"]}
{"id": "C56", "title": "Water sent to a splitter is passed on", "statement": "In every step the water that reaches a splitter leaves it in the same step through its outputs, whether the splitter belongs to a hydro unit or to the sub-basin.", "quantifier": "every model structure, every splitter, every history of inflows", "why_tests_cant": "depends on where the splitter is declared and on the order of the computations", "anchors": ["core/src/base/Processor.cpp:ProcessTimeStep", "core/src/fluxes/SplitterMultiFluxes.cpp:Compute", "core/src/base/ModelBuilder.cpp:BuildSubBasinSplittersFluxes"]}
{"id": "C57", "title": "The explicit solvers are the textbook methods", "statement": "When no limit is met (no storage is emptied or filled above its capacity), a step of the Euler, Heun or RK4 solver gives the contents that the textbook method of that name gives for the reservoir equations, and the fluxes report the mean rates of the method.", "quantifier": "every number of storages in flow order, every flow law of the contents, every inflow, state and step length", "why_tests_cant": "the stages share mutable state; equality with the method must hold for every law and state", "anchors": ["core/src/base/SolverEulerExplicit.cpp:Solve", "core/src/base/SolverHeunExplicit.cpp:Solve", "core/src/base/SolverRK4.cpp:Solve", "core/src/base/Processor.cpp:ApplyRates"]}
{"id": "C58", "title": "Order of accuracy of the explicit solvers", "statement": "On a linear reservoir the content computed after any number of steps differs from the exact exponential solution by at most the number of steps times the first omitted Taylor term: order 1 for Euler, 2 for Heun, 4 for RK4.", "quantifier": "every release coefficient, step length with coefficient*step <= 1/2, start content and number of steps, while the content and outflow stay above the 1e-8 thresholds", "why_tests_cant": "an asymptotic claim over continuous parameters", "anchors": ["core/src/base/SolverEulerExplicit.cpp:Solve", "core/src/base/SolverHeunExplicit.cpp:Solve", "core/src/base/SolverRK4.cpp:Solve"]}
{"id": "C59", "title": "The catchment's water balance closes over a run", "statement": "Over any run, the water stored in the catchment (covers, snowpacks, storages, pending deposits included) changes by the precipitation of the units weighted by their area, plus the water given by glacier ice, minus what becomes ice, minus the outlet discharge and minus the evapotranspiration, all as reported, within 1e-8 mm per container and step plus the solver's rate threshold; and no storage gets negative.", "quantifier": "every catchment whose flux weights are ratios of areas, whose ordinary fluxes go to bricks declared later and whose containers count no water twice (see C05); any number of units, bricks and steps, any process laws, any forcing, any mixture of the solvers", "why_tests_cant": "couples all bricks, their order, the instantaneous deposits kept from one step to the next, the area weights and the solver, over unbounded runs", "anchors": ["core/src/base/Processor.cpp:ProcessTimeStep", "core/src/base/Processor.cpp:ApplyDirectChanges", "core/src/spatial/SubBasin.cpp:ComputeOutletDischarge", "core/src/fluxes/FluxToBrickInstantaneous.cpp:UpdateFlux", "core/src/base/ModelBuilder.cpp:BuildHydroUnitBricksFluxes"]}
{"id": "C60", "title": "Rain and snow reach every land cover exactly once", "statement": "In a declared model the rain of a hydro unit reaches, in full, the water of exactly one brick of each land cover (its canopy, its snowpack if the rain is to fall on it, else the cover itself), its snow the snow of exactly one snowpack per cover, and nothing else receives precipitation.", "quantifier": "every list of land covers, every choice of options (snow, retention, rain on the snowpack, canopy interception, refreezing, redistribution, sublimation) and every structure dictionary whose entries flow downwards", "why_tests_cant": "a property of every declaration, not of the few shipped models", "anchors": ["core/src/base/SettingsModel.cpp:GeneratePrecipitationSplitters", "core/src/base/SettingsModel.cpp:AddLandCoverBrick", "core/src/base/SettingsModel.cpp:GenerateSnowpacksWithWaterRetention", "core/src/base/SettingsModel.cpp:GenerateCanopyInterception", "python/src/hydrobricks/models/model_settings.py:generate_base_structure"]}
{"id": "C61", "title": "A declaration gives the structure it describes", "statement": "Declaring land covers, options and a structure dictionary succeeds and gives exactly the described bricks, processes, outputs, flags, parents and splitters, with distinct names: one brick per land cover, its snowpack and canopy if asked for, and one storage per entry.", "quantifier": "every well-formed declaration: any number of covers and entries", "why_tests_cant": "the editing functions act on a current selection, so the result depends on the whole history of calls", "anchors": ["core/src/base/SettingsModel.cpp:AddBrickProcess", "core/src/base/SettingsModel.cpp:GenerateSnowpacks", "python/src/hydrobricks/models/model.py:_generate_one_structure", "python/src/hydrobricks/models/model.py:_set_structure_process"]}
{"id": "C62", "title": "A structure in flow order is built into a catchment that conserves water", "statement": "When the bricks of each unit give only to bricks that come later (land components to their cover, covers to storages, storages to later storages, the sub-basin or the outlet), the model is built without error, the weights of its fluxes are the ratios of the areas, and the catchment's water balance (C59) holds for it.", "quantifier": "every number of hydro units, every structure per unit, every area and cover fractions, every lateral connection", "why_tests_cant": "the builder resolves names, containers, weights and order for arbitrary structures", "anchors": ["core/src/base/ModelBuilder.cpp:BuildHydroUnitBricksFluxes", "core/src/base/ModelBuilder.cpp:BuildSubBasinBricksFluxes", "core/src/base/ModelBuilder.cpp:CreateHydroUnitsComponents", "core/src/base/Processor.cpp:ConnectToElementsToSolve"]}
{"id": "C63", "title": "The water balance of a declared model closes", "statement": "For a model declared through the Python interface and built, over any run the stored water changes by the precipitation of the units (area-weighted), plus ice melt, minus ice formed, minus the discharge, minus the evapotranspiration, as reported; no storage becomes negative.", "quantifier": "every declaration with structure variants (C61), units, areas, fractions; any weather, laws, solvers and number of steps", "why_tests_cant": "end-to-end composition of declaration, building and computation", "anchors": ["python/src/hydrobricks/models/model.py:_generate_structure", "core/src/base/ModelBuilder.cpp:BuildModelStructure", "core/src/base/Processor.cpp:ProcessTimeStep"]}
{"id": "C64", "title": "A time step is carried out", "statement": "If no process asks for more than 10000 mm/d and no storage has to release more than that through its overflow, every step of a run is computed (no exception) for every forcing and content.", "quantifier": "every catchment, content, forcing, number of steps; Euler, Heun, RK4, implicit Euler, Crank-Nicolson", "why_tests_cant": "the limiter throws in nested sweeps whose rates depend on each other", "anchors": ["core/src/containers/WaterContainer.cpp:ApplyConstraints", "core/src/base/Processor.cpp:EnforceConstraints"]}
{"id": "C65", "title": "With the formulas of its processes a declared model keeps its balance", "statement": "A model declared without refreezing of the retained water, whose directly computed land covers, snowpacks, canopies and storages release water by rest, direct, linear (factor at most one), threshold, snow-holding, infiltration, runoff, interception or open-water processes following their formulas (snow and ice may leave by any process), conserves water over any run with steps of one day or less: storage = initial storage + precipitation + ice melt - ice formed - discharge - evaporation up to the tolerance of the containers, and no store is negative; no other condition on the processes is needed. With longer steps this fails.", "quantifier": "every such declaration, every catchment, every weather, parameter values and state of the storages, every solver law, any number of steps of at most one day", "why_tests_cant": "the interplay of process formulas, limiter and double-counted static inputs is only safe for all contents by a bound on each formula; tests run a few daily simulations", "anchors": ["core/src/processes/ProcessOutflowRest.cpp:GetRates", "core/src/processes/ProcessInfiltrationSocont.cpp:GetRates", "core/src/processes/ProcessOutflowThreshold.cpp:GetRates", "core/src/base/Processor.cpp:ApplyDirectChanges", "core/src/containers/WaterContainer.cpp:ApplyConstraints"]}
{"id": "C66", "title": "The names of a process are interchangeable", "statement": "Declaring a process under its alias or under the name the alias stands for gives the same catchment: same bricks, storages, connections, weights, capacities, and the same refusals. The overflow is the exception: declared as outflow:overflow instead of overflow it is created but not linked as the overflow of its storage, so a storage above its capacity aborts the run instead of overflowing.", "quantifier": "every declaration, every catchment, every choice of names", "why_tests_cant": "a property of every declaration; the shipped models use one name each", "anchors": ["core/src/processes/Process.cpp:ResolveAlias,Factory", "core/src/base/ModelBuilder.cpp:130,234"]}
{"id": "C67", "title": "Properties of hydro units keep their meaning", "statement": "A number declared for a hydro unit (slope, elevation, area) in some unit, read back in any unit, is either the same quantity expressed in the requested unit or not a number; it is found under the name it was declared with; creating the model fails exactly when a property that one of its processes needs was not declared.", "quantifier": "all declared values, stored and requested units, property lists and model structures", "why_tests_cant": "ranges over all values, unit pairs and structures", "anchors": ["core/src/spatial/HydroUnitProperty.cpp:GetValue", "core/src/spatial/HydroUnit.cpp:GetPropertyDouble,SetProperties", "core/src/fluxes/SplitterSnowRainCemaNeige.cpp:SetHydroUnitProperties", "python/src/hydrobricks/hydro_units.py:populate_bounded_instance"]}
{"id": "C68", "title": "Hydro units are those declared, with their areas and connections", "statement": "The catchment has exactly the hydro units of the table, in order, with their ids, areas, properties and land covers; its area is the sum of theirs; each unit gives snow to exactly the units declared for it, with the declared shares, which add up to one; a share outside ]0, 1] is refused.", "quantifier": "all tables of units, connectivity tables and earlier declarations", "why_tests_cant": "ranges over all declarations", "anchors": ["core/src/base/SettingsBasin.cpp:AddHydroUnit,Clear,Parse,AddLateralConnection", "core/src/spatial/SubBasin.cpp:BuildBasin", "python/src/hydrobricks/hydro_units.py:populate_bounded_instance,set_connectivity"]}
{"id": "C69", "title": "Forcing data reach the units they were given for", "statement": "Forcing data read from a netCDF file (with its dimensions in either order and its units in any order) or given as an array with one column per unit: once accepted, each hydro unit that uses a variable and is in the data gets exactly one series for it, with the values given for its id and in the order of the dates; nothing else is attached; a unit that is missing from the data makes the attachment fail; names of variables are matched whatever their case; daily dates are read without loss; the reported total is the area-weighted sum.", "quantifier": "every file or array, layout, order and number of units, number of dates, set of variables, basin", "why_tests_cant": "two storage orders (column-major arrays, row-major files) must cancel out for every size; the dates are read as 32-bit floats", "anchors": ["core/src/base/TimeSeries.cpp:Parse", "core/src/base/TimeSeries.cpp:Create", "core/src/base/ModelHydro.cpp:AttachTimeSeriesToHydroUnits", "core/src/base/TimeSeriesDistributed.cpp:GetDataPointer", "core/src/base/FileNetcdf.cpp:GetVarDouble2D"]}
{"id": "C70", "title": "The results file holds what was computed", "statement": "After a run, each cell of the results file (component, unit, time) is the value of that component of that unit in the state reached at that step, NaN if the unit does not have the component or the step was not reached; likewise for the sub-basin, the fractions of the land covers and the dates; reading a component by its full name, or by the end of exactly one name, gives these values, and any other name raises an exception; a second run leaves nothing of the first one.", "quantifier": "every run of any length, number of units, components, missing component, name asked", "why_tests_cant": "two storage orders (column-major matrices, row-major file) must cancel out for every size and position; what remains of an earlier run depends on both runs", "anchors": ["core/src/base/Logger.cpp:Record", "core/src/base/Logger.cpp:Reset", "core/src/base/ResultWriter.cpp:WriteNetCDF", "core/src/base/FileNetcdf.cpp:PutVar", "python/src/hydrobricks/results.py:get_hydro_units_values"]}
{"id": "C71", "title": "Catchment means read from the results are area-weighted means", "statement": "The snow water equivalent of the catchment at a time is the mean of the contents of all snowpacks weighted by the areas of their land covers at that time; that of a unit is the mean over its land covers; the mean of a component over the units is one value per time, weighted by areas.", "quantifier": "every results file, number of units, times and land covers, areas and fractions, missing covers", "why_tests_cant": "the weights vary in time with the land covers, cells are missing for some units, and the arrays are stacked and reduced along an axis", "anchors": ["python/src/hydrobricks/results.py:get_mean_swe", "python/src/hydrobricks/results.py:get_total_swe", "python/src/hydrobricks/results.py:get_mean_hydro_units_values", "python/src/hydrobricks/results.py:_area_weighted_nanmean"]}
{"id": "C72", "title": "GR4J and GR6J stores follow their published equations", "statement": "Over a step, the level of the production store after infiltration, evaporation and percolation, and that of the exponential store after its outflow, are the exact solutions of the equations they come from: dS/dP = 1 - (S/X1)^2, dS/dE = -(S/X1)(2 - S/X1), dS/dt = -X1/4 (4/9)^4 (S/X1)^5 and dR/dt = -X6 exp(R/X6); the shortcuts for very large arguments change the result by at most X6 exp(-14).", "quantifier": "every level, capacity, rain, demand", "why_tests_cant": "equality of a closed formula with the solution of a differential equation, over all real inputs", "anchors": ["core/src/processes/helpers/GR4JFormulas.h:Infiltration", "core/src/processes/helpers/GR4JFormulas.h:Evaporation", "core/src/processes/helpers/GR4JFormulas.h:Percolation", "core/src/processes/helpers/GR6JFormulas.h:ExponentialStoreOutflow"]}
{"id": "C73", "title": "Processes follow the law they are named after", "statement": "Linear, power-law, square-root (Socont), exponential and HBV evapotranspiration are the stated function of the filling of the store, reaching the full demand where documented; ice does not melt under snow where melt is blocked by snow and melts as usual elsewhere; snow turns into ice faster than average in the summer half-year of the hemisphere chosen and slower in its winter half-year.", "quantifier": "every content, capacity, parameter value, demand, temperature and day of the year", "why_tests_cant": "all real inputs, both hemispheres", "anchors": ["core/src/processes/ProcessETHBV.cpp:GetRates", "core/src/processes/ProcessETPowerLaw.cpp:GetRates", "core/src/processes/ProcessETSocont.cpp:GetRates", "core/src/processes/ProcessETExponential.cpp:GetRates", "core/src/containers/IceContainer.cpp:ContentAccessible", "core/src/processes/ProcessTransformSnowToIceSwat.cpp:GetRates"]}
{"id": "C74", "title": "Area scaling tables describe the glacier thinning uniformly", "statement": "For any number of increments and any glaciers, the preparation of the area scaling tables ends without a failed assertion; row r gives, for each hydro unit, the extent and the ice volume of the initial glacier with its surface lowered by one depth everywhere (pixels below are bare), the volume being exactly (1 - r/n) of the initial one; row 0 is the glacier as given, areas never grow from row to row, and the last row is zero.", "quantifier": "every raster, glacier, number of increments and thickness", "why_tests_cant": "the redistribution of the melt over thin pixels is a loop over real numbers whose end and result depend on all thicknesses", "anchors": ["python/src/hydrobricks/preprocessing/glacier_evolution_area_scaling.py:compute_lookup_table", "python/src/hydrobricks/preprocessing/glacier_evolution_area_scaling.py:_update_glacier_thickness", "python/src/hydrobricks/preprocessing/glacier_evolution_area_scaling.py:_width_scaling"]}
{"id": "C75", "title": "Area scaling keeps the ice and follows the table, with the tables the library makes", "statement": "In every state reached from an initial glacier by any melt or accumulation of ice and any number of yearly applications of the area scaling action with a table made by the library, the action never divides by zero or reads outside the table, keeps the ice volume of each glacier (to 1e-8), leaves the other units alone, gives each glacier the extent of the first row whose volume is not below the ice left, and is accepted as long as the covers leave room for the initial glacier.", "quantifier": "every raster, glacier, number of increments, basin and history of melt", "why_tests_cant": "the quality of the tables matters to the run only through all their entries, for all histories", "anchors": ["python/src/hydrobricks/preprocessing/glacier_evolution_area_scaling.py:compute_lookup_table", "core/src/actions/ActionGlacierEvolutionAreaScaling.cpp:Apply"]}
{"id": "C76", "title": "Delta-h tables on pixels follow the delta-h law", "statement": "Whatever the change of thickness per elevation, no assertion of the preparation of the delta-h tables on pixels fails; a table that is made describes the glacier with the surface of its parts lowered more and more: from one row to the next the n-th part of the initial ice and what could not be melted before are taken from the elevations in proportion to extent and change of thickness, as far as they have ice; if that change is nowhere negative, row r holds exactly (1 - r/n) of the initial ice plus what could not be melted yet, and extents and volumes never grow; the table is always made when the change is positive everywhere, so for every glacier of 5 to 20 km2 on several elevations.", "quantifier": "every raster, glacier, profile of thickness change and number of increments", "why_tests_cant": "nested loops redistribute real amounts over bands, parts and pixels until nothing is left; whether a row is correct depends on all pixels and all rows before", "anchors": ["python/src/hydrobricks/preprocessing/glacier_evolution_delta_h.py:compute_lookup_table", "python/src/hydrobricks/preprocessing/glacier_evolution_delta_h.py:_update_glacier_thickness", "python/src/hydrobricks/preprocessing/glacier_evolution_delta_h.py:_set_delta_h_parametrization"]}
{"id": "C77", "title": "Delta-h keeps the ice and follows the table, with the tables the library makes", "statement": "In every state reached from the initial glacier by any melt or accumulation of ice and any number of yearly applications of the delta-h action with a table made by the library on pixels, the action never divides by zero or reads outside the table, keeps the total ice volume, sets the extents of the row whose share of the initial ice is the first not below the ice left, and is accepted as long as the covers leave room for the initial glacier; adding the action to the model starts such a run.", "quantifier": "every raster, glacier, number of increments, basin and history of melt", "why_tests_cant": "the quality of the tables matters to the run only through all their entries, for all histories", "anchors": ["python/src/hydrobricks/preprocessing/glacier_evolution_delta_h.py:compute_lookup_table", "core/src/actions/ActionGlacierEvolutionDeltaH.cpp:Apply", "core/src/actions/ActionGlacierEvolutionDeltaH.cpp:Init"]}
{"id": "C78", "title": "Delta-h tables on elevation bands follow the delta-h law", "statement": "For a glacier profile from the lowest to the highest elevation and a change of thickness that is nowhere negative, the preparation of the delta-h tables on elevation bands does not fail; a table that is made describes the glacier with less and less ice at each elevation: from one row to the next the n-th part of the initial ice and what could not be melted before are taken from the elevations in proportion to extent and change of thickness, as far as they have ice; the widths follow the chosen option; row r holds exactly (1 - r/n) of the initial ice plus what could not be melted yet; the ice of a unit never grows, nor its extent if the widths do not refer to the first row; the last row is empty. The table is always made when the change is positive everywhere, so for every glacier of 5 to 20 km2 on several elevations.", "quantifier": "every profile, change of thickness, number of increments and width option", "why_tests_cant": "melt, width and thickness of each band depend on all the rows before", "anchors": ["python/src/hydrobricks/preprocessing/glacier_evolution_delta_h.py:compute_lookup_table", "python/src/hydrobricks/preprocessing/glacier_evolution_delta_h.py:_width_scaling", "python/src/hydrobricks/preprocessing/glacier_evolution_delta_h.py:_final_width_scaling", "python/src/hydrobricks/preprocessing/glacier_evolution_delta_h.py:_update_glacier_thickness"]}
{"id": "C79", "title": "Every name of a parameter reaches it and values end up in their ranges", "statement": "In a parameter set a name (an alias or component:name, whatever the case of the letters) reads the first parameter that has it, and other names raise an error. Through every history of definitions, changes of range, transforms, constraints, given and random values, no two parameters share an alias that came with their definition (as a list), so every name reaches its parameter when aliases have no colon and full names differ. Setting values gives each parameter the last value given to it and leaves the others and all definitions alone; with the range check exactly the values of known parameters in their ranges are accepted; with adaptation a value is replaced by the nearest one in the range, element by element for lists; a value given in the space of the optimizer is read back from there. The set is valid exactly when all missing values were given.", "quantifier": "every parameter set and history of calls on it", "why_tests_cant": "names depend on all definitions made before, in any order", "anchors": ["python/src/hydrobricks/parameters.py:define_parameter", "python/src/hydrobricks/parameters.py:add_aliases", "python/src/hydrobricks/parameters.py:set_values", "python/src/hydrobricks/parameters.py:_get_parameter_index", "python/src/hydrobricks/parameters.py:_check_value_range", "python/src/hydrobricks/parameters.py:get_transformed", "python/src/hydrobricks/parameters.py:is_valid"]}
{"id": "C80", "title": "Constraints and ranges of a parameter set are decided, and met by random values", "statement": "The check of the constraints is true exactly when each constraint with a known operator (>, >=, <, <= and their names) holds for the current values, constraints on parameters that are not in the set being ignored; the check of the ranges is true exactly when every parameter has a value in its range. Random values are in the ranges of the parameters drawn, meet the constraints and leave the other parameters alone; if the drawing gives up, then 1001 draws of all the parameters violate the constraints. A constraint that is removed leaves the set as it was before it.", "quantifier": "every set, constraint list and sequence of random numbers", "why_tests_cant": "the outcome depends on an unbounded sequence of random numbers", "anchors": ["python/src/hydrobricks/parameters.py:constraints_satisfied", "python/src/hydrobricks/parameters.py:range_satisfied", "python/src/hydrobricks/parameters.py:set_random_values", "python/src/hydrobricks/parameters.py:define_constraint", "python/src/hydrobricks/parameters.py:remove_constraint"]}
{"id": "C81", "title": "Calibration searches the ranges, runs only valid sets and reports the best of them", "statement": "The box searched by the optimizer is exactly the range of the parameter seen through its transform, for every monotonic transform that can be undone on the range, among them those of the models. For each sample the set holds the real values of the sample, and the model is run exactly when the constraints hold and all values are in their ranges. A sample that is drawn meets both. The best run reported is the first accepted run with the highest skill, with this skill whether the optimizer minimises or maximises, and with real values that, given to the set, make it the set of that run.", "quantifier": "every parameter set, transform, sequence of samples and history of runs", "why_tests_cant": "the samples are chosen by an optimizer", "anchors": ["python/src/hydrobricks/parameters.py:get_for_spotpy", "python/src/hydrobricks/trainer.py:SpotpySetup", "python/src/hydrobricks/trainer.py:get_best", "python/src/hydrobricks/evaluation/metrics.py:is_error_metric", "python/src/hydrobricks/models/gr4j.py:ParameterTransform"]}
{"id": "C82", "title": "The connectivity of the hydro units follows the flow directions and is accepted by the model", "statement": "The connectivity computed from a grid of D8 flow directions gives, for every unit, the flows through its cells that drain into each of the other units. In mode multiple its receivers are the units downstream that get at least a hundredth of the flow kept in the catchment, with shares that are multiples of the last decimal digit, add up to exactly 1, differ from the exact shares by less than one last digit and keep their order; a unit that sends more out of the catchment than to any other unit has no receiver. In mode single the receiver is the unit downstream with the highest flow. With force_connectivity the flow out of the catchment is ignored, and a unit with nothing downstream drains to its neighbours in proportion to their common border. From two digits on the table is accepted and the model connects each unit to exactly the units of its row.", "quantifier": "every grid of unit ids, accumulations and directions, every list of units, mode and precision", "why_tests_cant": "grids have any size and shape; rounding depends on the combination of all shares", "anchors": ["python/src/hydrobricks/preprocessing/catchment_connectivity.py:calculate", "python/src/hydrobricks/preprocessing/catchment_connectivity.py:_sum_contributing_flow_acc", "python/src/hydrobricks/hydro_units.py:set_connectivity", "core/src/spatial/SubBasin.cpp:BuildBasin"]}
{"id": "C83", "title": "The forcing of every unit follows from the station data by the declared method, in the declared order of kinds", "statement": "For every unit and every time step the spatialised value is the one the method gives: the value of the station (constant), plus the gradient of the month per 100 m (additive), times one plus that gradient (multiplicative), or with different gradients below and above a threshold elevation; values that cannot be negative are cut at zero, other variables keep their values. At the elevation of the station the value is that of the station, and the method with a threshold is continuous in the elevation if the station is not above the threshold. Corrections of the station data always come before the spatialisation and PET after it, whatever the order of declaration. Each unit gets PET from its own series, elevation and latitude. The total precipitation is an average of the totals of the units.", "quantifier": "every station series, list of units, method, gradient (fixed or monthly), parameter set and sequence of declared operations", "why_tests_cant": "series, units and operations are unbounded, and real-valued elevations and gradients are continuous", "anchors": ["python/src/hydrobricks/forcing.py:spatialize_from_station_data", "python/src/hydrobricks/forcing.py:correct_station_data", "python/src/hydrobricks/forcing.py:compute_pet", "python/src/hydrobricks/forcing.py:apply_operations", "python/src/hydrobricks/forcing.py:get_total_precipitation"]}
{"id": "C84", "title": "A calibration evaluates every parameter set with its own forcing", "statement": "When forcing parameters are calibrated, the forcing used for a parameter set is the one that the operations give with this set alone, whatever sets were evaluated before it; and a run applies the operations of the forcing only once.", "quantifier": "every history of parameter sets, every list of operations with calibrated and fixed options", "why_tests_cant": "the forcing is changed in place from sample to sample, so the result could depend on the whole history", "anchors": ["python/src/hydrobricks/forcing.py:apply_operations", "python/src/hydrobricks/forcing.py:_apply_operations_of_type", "python/src/hydrobricks/trainer.py:SpotpySetup", "python/src/hydrobricks/models/model.py:run"]}
{"id": "C85", "title": "Periods are consistent, spin-ups fit them, and simulated and observed values of the same day are compared", "statement": "Periods accepted together lie in the simulation span, which by default is the smallest one that contains them; a spin-up of n years lasts until the same date n years later (365 or 366 days a year) and never longer than the period. An evaluation over a period compares exactly one simulated and one observed value for every day of the period, both of that day; a calibration does the same after the warm-up, with observations in any order and of any extent, and raises if and only if a day has no observation or nothing is left after the warm-up.", "quantifier": "every pair of dates, spin-up, run and series of observations", "why_tests_cant": "dates, leap years and gaps of the observations are unbounded", "anchors": ["python/src/hydrobricks/periods.py:Periods", "python/src/hydrobricks/periods.py:spinup_to_days", "python/src/hydrobricks/periods.py:evaluate_periods", "python/src/hydrobricks/trainer.py:_align_observations_to_period"]}
{"id": "C86", "title": "A discretization puts every cell of the catchment in exactly one unit and keeps its area", "statement": "discretize_by raises exactly when its arguments are at fault. Otherwise the map of the units gives each cell the number of the only unit whose classes (elevation, slope and radiation bands, aspect, sub-catchment) it belongs to, units are numbered 1, 2, ... and none is empty. With bands of equal height and the quantities known, every cell of the catchment is in a unit, so that the areas of the units sum to the area of the cells of the catchment.", "quantifier": "every raster, combination of criteria, band height, number of quantiles and set of polygons", "why_tests_cant": "rasters and combinations of classes are unbounded and the limits of the bands depend on the data", "anchors": ["python/src/hydrobricks/preprocessing/catchment_discretization.py:discretize_by", "python/src/hydrobricks/preprocessing/catchment_discretization.py:create_elevation_bands", "python/src/hydrobricks/preprocessing/catchment_discretization.py:_build_sub_catchments_map", "python/src/hydrobricks/catchment.py:get_hydro_units_attributes"]}
{"id": "C87", "title": "The simulated glacier mass balance is the area-weighted surface balance of the glacier in the period and band", "statement": "GlacierMassBalanceObservations.simulated gives one value for each target: the mean, weighted with the mean glacier areas, of the snow change minus the recorded ice melt of the units that have glacier and lie in the band, between the days nearest to the two dates; it is missing exactly if there is no such unit or period. It lies between the balances of the units, the seasons sum to the year while the areas are constant, and the bands average to the whole glacier. It should be accumulation minus ablation at the surface over the period.", "quantifier": "every run, glacier geometry, elevation table and list of targets", "why_tests_cant": "runs, units, dates and bands are unbounded; a test compares signs and correlations only", "anchors": ["python/src/hydrobricks/evaluation/glacier_mass_balance.py:GlacierMassBalanceObservations.simulated", "python/src/hydrobricks/evaluation/glacier_mass_balance.py:_date_index", "python/src/hydrobricks/evaluation/glacier_mass_balance.py:_elevation_by_id", "python/src/hydrobricks/modules/glacier.py:GSM", "core/src/fluxes/FluxToBrickInstantaneous.cpp:UpdateFlux"]}
{"id": "C88", "title": "Observed mass balances: every usable row of the file becomes one target", "statement": "from_csv and from_glamos answer exactly if the names they are given are known and the glacier has rows; then each row of the glacier with a value and a period inside the limits gives one target with its dates and its value in mm, in the order of the file, and no other row does. A year gives the period from the first of the given month to the day before the same date of the next year, and successive years follow one another.", "quantifier": "every table of rows, glacier, unit, month and limits", "why_tests_cant": "the tables are unbounded, with missing fields anywhere", "anchors": ["python/src/hydrobricks/evaluation/glacier_mass_balance.py:GlacierMassBalanceObservations.from_csv", "python/src/hydrobricks/evaluation/glacier_mass_balance.py:GlacierMassBalanceObservations.from_glamos", "python/src/hydrobricks/evaluation/glacier_mass_balance.py:_period_from_year", "python/src/hydrobricks/evaluation/glacier_mass_balance.py:_add_targets", "python/src/hydrobricks/evaluation/glacier_mass_balance.py:restrict_to_period"]}
{"id": "C89", "title": "The simulated snow cover is the documented curve of the snow, averaged over the land covers", "statement": "SnowCoverObservations.simulated gives one value for each target: the mean, weighted with the parts of the unit that the land covers have on the nearest day, of min(1, SWE / swe_full) of each; it is missing exactly if there is no such unit, day or cover. It lies in [0, 1], never decreases with more snow, is 0 exactly without snow and 1 exactly when all covers reach the threshold, and is refused when nothing was recorded. Recording what required_recordings asks for is enough.", "quantifier": "every run, set of units and land covers, threshold and list of targets", "why_tests_cant": "units, covers, days and targets are unbounded; a test looks at a few values", "anchors": ["python/src/hydrobricks/evaluation/snow_cover.py:SnowCoverObservations.simulated", "python/src/hydrobricks/evaluation/snow_cover.py:_swe_to_fraction", "python/src/hydrobricks/evaluation/snow_cover.py:required_recordings", "core/src/base/ModelHydro.cpp:GetHydroUnitFractions"]}
{"id": "C90", "title": "Observed snow cover: images, tiles and the cache give the means of the pixels that count", "statement": "Loading a stack of images, or MODIS tiles put together by date, gives one observation for each date in the limits and each unit with enough valid pixels: their scaled mean, in the order of the dates and units, whatever the order and number of files; the values stay in the scaled limits. With a cache folder every load gives what it would give without it, whatever was loaded before.", "quantifier": "every raster of units, stack, set of tiles, options, and every history of loads with the same folder", "why_tests_cant": "pixels, tiles and histories of loads are unbounded", "anchors": ["python/src/hydrobricks/evaluation/snow_cover.py:_aggregate_stack", "python/src/hydrobricks/evaluation/snow_cover.py:_aggregate_modis", "python/src/hydrobricks/evaluation/snow_cover.py:SnowCoverObservations._build", "python/src/hydrobricks/evaluation/snow_cover.py:SnowCoverObservations._cache_lookup", "python/src/hydrobricks/evaluation/snow_cover.py:_cache_key"]}
{"id": "C91", "title": "Land cover changes loaded from tables and glacier masks leave each unit with the area that was given for it", "statement": "After a run with the changes loaded from a table, every unit that has a value up to the last date has the area of the last one, converted to square metres, and nothing else is changed, although repeated values are not registered. A table by elevation is the table of the units with this elevation, and is refused if there is none; a unit of measurement that is not an area is refused. The tables made from glacier masks give covers that are not negative and add up to the area of the unit in every column, also in the yearly ones, which are on the line between the masks before and after, at each 1st of January between the first and the last mask.", "quantifier": "every table, set of units, sequence of glacier masks and simulated period", "why_tests_cant": "rows, columns, pixels, masks and simulated dates are unbounded", "anchors": ["python/src/hydrobricks/actions/action_land_cover_change.py:load_from_csv", "python/src/hydrobricks/actions/action_land_cover_change.py:_match_hydro_unit_ids", "python/src/hydrobricks/actions/action_land_cover_change.py:_remove_rows_with_no_changes", "python/src/hydrobricks/actions/action_land_cover_change.py:_populate_bounded_instance", "python/src/hydrobricks/actions/action_land_cover_change.py:_create_action_for_glaciers", "python/src/hydrobricks/actions/action_land_cover_change.py:_interpolate_yearly", "core/src/actions/ActionLandCoverChange.cpp"]}
{"id": "C92", "title": "Converted values are the same quantity", "statement": "A value converted from a unit to another is the same quantity (the sizes of the units balance), the conversion back gives the value again, and two ways between the same units give the same value; other conversions are refused. The name of a unit does not depend on brackets and spaces, and an accepted name is one of the documented list.", "quantifier": "every value, every pair of units and every text", "why_tests_cant": "the texts and values are unbounded", "anchors": ["python/src/hydrobricks/_units.py:convert_unit", "python/src/hydrobricks/_units.py:convert_unit_df", "python/src/hydrobricks/_units.py:get_unit_enum", "python/src/hydrobricks/_units.py:remove_chars"]}
{"id": "C93", "title": "Land cover fractions from maps of classes and glacier extents", "statement": "When everything is soil at the start, extracting a map of classes (or polygons, or a glacier extent) gives each cover, in each unit, the area of its cells over the area of the unit, and the soil cover the rest: the fractions of each unit add up to one and none is negative; a cover with cells in a unit is in the list of covers, the covers that were there stay and so do the areas of the units. A cell of several polygons belongs to the first class of the mapping.", "quantifier": "every grid of units, map, mapping of classes, set of polygons and list of covers", "why_tests_cant": "the grids and mappings are unbounded", "anchors": ["python/src/hydrobricks/preprocessing/catchment_land_cover.py:extract_from_raster", "python/src/hydrobricks/preprocessing/catchment_land_cover.py:extract_from_shapefile", "python/src/hydrobricks/preprocessing/catchment_land_cover.py:_areas_from_class_grid", "python/src/hydrobricks/preprocessing/catchment_land_cover.py:_apply_cover_areas", "python/src/hydrobricks/preprocessing/catchment_land_cover.py:_resolve_mapping", "python/src/hydrobricks/preprocessing/catchment_land_cover.py:_rasterize_classes", "python/src/hydrobricks/preprocessing/glacier_cover.py:initialize_glacier_cover_from_extent", "python/src/hydrobricks/hydro_units.py:initialize_from_land_cover_change"]}
{"id": "C94", "title": "The reference of a metric compares observed years with the same days of other years, and skills are relative to the mean", "statement": "For daily observations of whole years, the reference value is the mean of the metric over samples that give each year of the period an observed year: every allowed sequence once, or the first allowed ones that are drawn; the two series have the same days of the year (without the 29th of February), and with exclusion no day is compared with itself. The mean discharge compares each day with the mean of this day of the year over all years. Error metrics become skills: 1 without error, 0 for the mean of the observations, smaller errors higher; for the RMSE 1 only for the observations themselves.", "quantifier": "every series of observations, period, metric and sequence of random samples", "why_tests_cant": "the metrics, series and draws are unbounded", "anchors": ["python/src/hydrobricks/evaluation/discharge.py:compute_reference_metric", "python/src/hydrobricks/evaluation/discharge.py:_prepare_comparison_data", "python/src/hydrobricks/evaluation/discharge.py:_compute_all_combinations", "python/src/hydrobricks/evaluation/discharge.py:_compute_random_sampling", "python/src/hydrobricks/evaluation/discharge.py:_compute_mean_discharge_metric", "python/src/hydrobricks/evaluation/metrics.py:to_skill", "python/src/hydrobricks/evaluation/metrics.py:reference_value"]}
{"id": "C95", "title": "The structure graph shows the whole structure: every component, flux and forcing, each once", "statement": "The graph of a structure variant has each name once as a node: the bricks and splitters with their own kind, level and flags, the forcing they use and the targets of their fluxes. Its edges are the fluxes of all components in their order (a process without output goes to the atmosphere) and one edge per forcing and component that uses it, itself or in a process; both ends of every edge are nodes. The summary has each component once at its level with exactly its own fluxes, and counts fluxes and nodes. An unknown variant is an error.", "quantifier": "every list of variants, with any numbers of bricks, splitters, processes, outputs and forcing, with any names", "why_tests_cant": "the structures, names and connections are unbounded", "anchors": ["python/src/hydrobricks/structure.py:StructureGraph.from_settings", "python/src/hydrobricks/structure.py:StructureGraph.to_text", "core/bindings/Binding.cpp:ExportStructure"]}
{"id": "C96", "title": "The drawing of a structure graph shows each node and each flux once, with a legend that explains it", "statement": "The DOT text of a structure graph has one statement per node, inside the sub-basin's frame exactly if the node belongs to it, with the label, shape and colour of its role, and one arrow per edge in order, with the process, colour and dashes of its flux. The legend has a row for each kind of node, for snow, ice, instantaneous and forcing arrows that are drawn, and no other rows except those of storages and fluxes. Names without quotes and backslashes are read back as they are.", "quantifier": "every graph of a variant, with any nodes, levels, flux types and names", "why_tests_cant": "the graphs and names are unbounded", "anchors": ["python/src/hydrobricks/structure.py:StructureGraph.to_dot", "python/src/hydrobricks/structure.py:StructureGraph._legend_label", "python/src/hydrobricks/structure.py:StructureGraph._dot_node_attrs", "python/src/hydrobricks/structure.py:StructureGraph._dot_edge_attrs"]}
