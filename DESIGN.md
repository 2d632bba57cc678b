# Formal model of hydrobricks in Rocq (Coq 8.16.1)

The model covers the numerical core of hydrobricks (`/repo/core/src`, C++): storages and their rate limiter, fluxes, the seven solvers, the
processor, every process law, splitters, routing, lateral snow transport, land covers, glacier actions, the action manager, the clock and calendar,
forcing series, the run / spin-up / reset cycle, parameters that vary in time, the logger totals, and the settings and builder rules.

## Layout of `rocq/theories`

| kind of file | content |
|---|---|
| `Base, Container, Network, Sequential, Direct, Processes, Routing, Lateral, LandCover, GlacierActions, Actions, Clock, ClockFloat, Calendar, CalendarFloat, Search, TimeSeries, Parameters, Reset, ModelRun, Logger, Settings, SolverNames, Topology, Catchment, Structure, Build` `.v` | the model: total Gallina functions, no proofs; each definition cites the C++ lines it follows and says where it simplifies |
| `*Spec.v` | the small vocabulary in which the properties are stated, written without the helpers of the model where possible (for instance civil calendar days, the reservoir equation, "partition of the area", sorted event lists) |
| `*Facts.v, *Proofs.v, *Tools.v, RoutingStores*.v, DirectSafe.v, ResetRun.v` | lemmas |
| `*Witness.v` | concrete systems used by non-vacuity examples and by refutations |
| `Properties*.v` | the property theorems `cNN_...`, each followed by `Print Assumptions` and by an `Example` that meets its hypotheses |

Suffixes: `_partial`: the theorem proves part of the property and the comment says what is missing; `_refuted`: the theorem proves that the unrestricted
claim is **false of the code** (the negation of the universally quantified claim, with a concrete witness inside the proof).

## Number model

* C++ `double` and `float` are idealised as Coq reals, except in `ClockFloat.v` and `CalendarFloat.v`, where dates are binary64 numbers (Flocq's
  `binary_float 53 1024` with rounding to nearest even), because there the rounding changes the number of steps of a run.
* NaN and infinity: an infinite storage is a flag; a division by zero that the code can reach is the outcome `UB` (its value would be NaN or infinite
  and is not modelled further); NaN in the logger is handled by its own constructor.
* The tolerances of `NumericConstants.h` are kept (`EPSILON_D`, `EPSILON_F`, `PRECISION`, `TOLERANCE_LOOSE`), so theorems that would be exact in an
  ideal program carry explicit error terms such as `PRECISION * dt`.
* Integers are `nat` or `Z`, strings Coq strings, vectors lists, pointers to shared cells indices. `outcome` is `Ok`, `Throw` (a C++ exception) or `UB`
  (null pointer, index out of range, or another undefined operation); no call is given a default value.
* `assert`s are not part of the behaviour (they are compiled out of a release build).

## What is not modelled

* The Python layer, except the declaration of a model (`Structure.v`: `generate_base_structure`, `_generate_one_structure`, `_set_structure_process`), the
  population of a basin (`Basin.v`), the glacier evolution tables (`GlacierTables.v`), the parameter sets and the calibration set-up of one model
  (`ParamSet.v`); command line, reading and writing files (YAML, NetCDF, CSV), parsing of date strings (`strptime`), logging of messages.
* Threads: the core is single-threaded.
* Rounding of `double` arithmetic outside the clock and the calendar; overflow of `int`.
* Ownership and lifetime of objects: pointers set by the builder are assumed to stay valid. Storage exhaustion.
* Gridded forcing data (`spatialize_from_gridded_data`), the netCDF round trip of the Python forcing, pyet (a variable of the model);
* The spatial pre-processing except the connectivity (`Connectivity.v`): hydro unit generation, pysheds; auxiliary observations and several models in a calibration, the optimizers themselves.
* Solved bricks without area do not occur: only land covers and surface components override `IsNull`, and neither needs the solver.
* `SetInitialState` of the glacier actions is in `GlacierActions.v` only as far as the content goes.

## Trusted base

* Coq 8.16.1's kernel and its standard library.
* What `Print Assumptions` lists. Over all claimed theorems the axioms are at most:
  `ClassicalDedekindReals.sig_forall_dec`, `ClassicalDedekindReals.sig_not_dec`, `FunctionalExtensionality.functional_extensionality_dep`
  (the construction of the real numbers in the standard library) and `Classical_Prop.classic` (used by the standard library's analysis and by
  Flocq's lemmas). No axiom was added. The purely discrete theorems (settings, actions, calendar, search) are closed under the global context or
  use only the axioms of the reals because dates and values are reals. The exact list per theorem is in the table at the end.
* Flocq 4 (definitions and lemmas on binary64, no axioms of its own), used only by the `*Float*` files.
* The fidelity of the model to the source, which is by reading; the citations are the means to check it. The theorems were tested against wrong
  programs: see `seeded/LOG.jsonl`.

## How the pieces were modelled and proved

| properties | model | method |
|---|---|---|
| C01-C04, C06-C08 | `Container.v`, `Network.v`: any number of storages and connections, any process laws (functions of the state), Euler, Heun, RK4 | invariants of the sweep over the bricks, frame lemmas for the stages, induction over steps; the balance is a sum over lists |
| C05 | `Direct.v`: `ApplyDirectChanges` for a brick with several containers | books per connection, then conservation under the stated conditions; witnesses for the rest |
| C57, C58 | `Network.v` against `TextbookSpec.v` | a feasible rate vector is a fixed point of the limiter; stages identified one by one; sign of the Taylor remainder by induction on the degree with the mean value theorem |
| C09-C11, C54 | `Sequential.v`: four schemes | derivative of the exponential solution (`is_derive`-style uniqueness by monotone difference), bisection invariant by induction on the number of halvings, Lipschitz bound |
| C12 | `SolverNames.v` | case analysis over the finite table of names |
| C13-C16, C21, C49-C51 | `Processes.v`: every formula | real analysis: tanh, exp, powers, concavity |
| C17-C20, C52, C53 | `Routing.v` | telescoping sums, convolution by induction over the history of inflows |
| C22, C55 | `Lateral.v` | algebra of area weights; induction over steps for the density |
| C23-C25 | `LandCover.v` | invariants over sequences of changes |
| C26-C28 | `GlacierActions.v` | sums over the columns of the tables |
| C29-C31 | `Actions.v` | refinement to a sorted list of events |
| C32, C39 | `Clock.v`, `Calendar.v`, `ClockFloat.v`, `CalendarFloat.v` | arithmetic in `Z` and `R`; rounding-error bounds with Flocq |
| C33, C34, C45, C46 | `TimeSeries.v` | arithmetic |
| C35-C37 | `ModelRun.v`, `Reset.v`, `Parameters.v` | the run as a state machine over an arbitrary step; simulation between the two runs |
| C38 | `Search.v` | induction on the interval |
| C40 | `Logger.v` | sums over units and labels |
| C41-C43 | `Settings.v` | lists |
| C59 | `Catchment.v` | invariant over the bricks of a step and over the steps |
| C60, C61 | `Structure.v`: the editing functions and the calls of the Python model classes | closed form of the edited structure by induction over covers and entries |
| C62, C63 | `Build.v`: names, containers, weights and order resolved as the builder does | the assembled catchment meets the conditions of C59 |
| C64 | `Network.v`, `Direct.v`, `Catchment.v` | the limiter keeps every rate below its bound |
| C65 | `LawSpec.v`, `Processes.v` | each formula bounds what its process asks for; C63 then applies |
| C66 | `Build.v`, `AliasSpec.v` | the renaming commutes with every function of the builder |
| C67 | `Basin.v`, `BasinSpec.v` | case analysis on units; look-ups by induction on the property list |
| C68 | `Basin.v`, `BasinSpec.v` | induction on the declarations and on the connections |
| C69 | `ForcingFile.v`, `ForcingFileSpec.v` | index arithmetic of both storage orders, induction over series and units, Flocq for the float axis |
| C70 | `Results.v`, `ResultsSpec.v` | loop invariant of the recorder on each cell, index arithmetic of both storage orders, strings |
| C71 | `Results.v`, `ResultsSpec.v` | induction over land covers; counterexamples |
| C72, C73 | `Processes.v`, spec in `PropertiesLawsExact.v` | derivatives (stdlib), mean value theorem, trigonometry |
| C74, C75 | `GlacierTables.v` (Python preprocessing of area scaling), `GlacierActions.v`; spec `GlacierTablesSpec.v` | the redistribution loop lowers the surface (induction on pixels above it), invariant over rows, then invariant of the run with C26 |
| C76, C77 | `GlacierTables.v` (Python preprocessing of delta-h on pixels), `GlacierActions.v`; spec `GlacierDeltaHSpec.v` | loop invariants over pixels, parts, bands and rows; the table then meets the hypotheses of C26 |
| C78 | `GlacierTables.v` (delta-h on elevation bands: `dh_bands_table`, width options); spec `GlacierBandsSpec.v` | loop invariants over bands and rows, then bands to lines to units; counterexamples in numbers |
| C79 - C81 | `ParamSet.v` (Python `ParameterSet`, `SpotpySetup`, `get_best`); spec `ParamSetSpec.v` | inductive histories of calls for the names, induction over the given values and the draws; monotone inverses for the search box; counterexamples in numbers |
| C82 | `Connectivity.v` (Python `CatchmentConnectivity.calculate`); spec `ConnectivitySpec.v` | flows as double sums over the cells; the dictionaries by induction over the cells; the rounding by counting remainders; acceptance by composition with C68; counterexamples on small grids |
| C83 | `ForcingOps.v` (Python `Forcing`: corrections, spatialisation from station data, PET, order of operations); spec `ForcingOpsSpec.v` | the law of each method per unit and time step; twelve monthly passes by induction; commutation of kinds of operations; counterexamples on two units |
| C84 | `ForcingOps.v` (Trainer and Model calls of `apply_operations`); spec `ForcingOpsSpec.v` | invariant over the samples: every variable has the value the last parameters give; NoDup of the outputs; counterexamples on two units |
| C85 | `Periods.v` (Python `Periods`, `evaluate_periods`, alignment in the trainer) on the calendar of C39; spec `PeriodsSpec.v` | arithmetic of leap years by induction over years; equality of sorted lists with the same dates; link to the binary64 clock of C32 |
| C86 | `Discretization.v` (discretize_by, ids and areas of the units); spec `DiscretizationSpec.v` | exclusion of bands between rising limits, lifted to products of classes; induction over the combinations; monotonicity of interpolated quantiles; counting |
| C87 | `GlacierBalance.v` (simulated, nearest day, elevations by id, weights, recorded ice melt through `Topology.v`); spec `GlacierBalanceSpec.v` | the array code is shown equal to weighted sums over the chosen units; telescoping over the days; sums over a partition by bands; the recorded melt is the weighted amount of the flux |
| C88 | `GlacierBalance.v` (from_csv, from_glamos, periods from years); spec `GlacierBalanceSpec.v` | induction over the rows with an independent relation 'each wanted row gives one target'; the calendar lemmas of C09 |
| C89 | `SnowCover.v` (simulated, curve, layers, rows by id, recordings); spec `SnowCoverSpec.v` | the array code is shown equal to a weighted mean over the covers that count; the curve as an independent relation, monotone and bounded |
| C90 | `SnowStack.v` (aggregation of a stack, of MODIS tiles with labels and bincount, mosaics, targets, cache with keys); spec `SnowStackSpec.v` | both aggregations are shown equal to the mean over the chosen pixels; sorted dates by induction; the cache by an invariant over histories of loads |
| C91 | `LandCoverTable.v` (tables by id and elevation, repeated values, units, masks, yearly interpolation); spec `LandCoverTableSpec.v` | what is registered is characterized by the values that differ from the one before; with the theorem on the schedule of actions (C29) the last change of a unit is shown to be the last value of its row; the interpolation is linear, so sums and bounds carry over |
| C92 | `Units.v` (names, brackets, conversions, columns); spec `UnitsSpec.v` | the factors are compared with an independent table of the sizes of the units; the texts by induction |
| C93 | `LandCoverExtract.v` (generic cover, fractions, mappings, polygons, areas per unit, glacier extent); spec `LandCoverExtractSpec.v` | invariant over the covers: those done have their cells, the soil the rest (`LandCoverExtractFacts2.v`); areas by counting cells |
| C94 | `ReferenceMetric.v` (years, comparison, combinations, draws, mean discharge, skills); spec `ReferenceMetricSpec.v` | the days of the observed years are those of a calendar of 365 days (`ReferenceMetricFacts.v`), so samples and period align; skills by real algebra |
| C95 | `StructureGraph.v` (from_settings with its ordered dictionary, edge list and sorted set; summary); spec `StructureGraphSpec.v` | each step adds its own names, links and edges; folds accumulate them (`StructureGraphFacts.v`); a component's node is never replaced when names are distinct |
| C96 | `StructureDrawing.v` (statements of the DOT text, looks, legend, quoting); spec `StructureDrawingSpec.v` | a permutation splits the nodes by the frame; rows and looks by cases on role and flux; reading back by induction on the name |
| C44, C47, C48, C56 | `Topology.v` | lists, area algebra, induction over steps |

No property had to be dropped as not expressible.

## Outcome per property

| id | property | status | note |
|---|---|---|---|
| C01 | Solved storages never hold a negative amount of water | proved | All three simultaneous solvers, any process laws, any number of steps, storages declared in flow order. |
| C02 | A storage capacity is never exceeded when an overflow is attached | partial | The single-limiter claim holds; a whole Euler step respects capacities when every capped storage has an overflow and all inflow is visible to the limiter. The general claim is false of the code: two witnesses. |
| C03 | The water balance of the solved storages closes | partial | Closes over runs of any length for plain connections in flow order; false for hand-offs through static connections (witness). |
| C04 | The rate limiter intervenes minimally and proportionally | partial | Bounds, no-op and proportionality proved for a store holding water; an empty store is frozen instead (witness). |
| C05 | A brick computed directly conserves water | partial | Books kept in every case and conservation when no input is counted twice or requests stay within the content; two real counterexamples (static input counted twice by the limiter, refrozen snow of the previous day counted again in the HBV snowpack). |
| C06 | Multi-stage solvers do not lose water on backward connections | partial | Proved for forward connections; false for backward ones with Heun (witness). |
| C07 | Instantaneous transfers are booked once per step by every solver | partial | Proved for Euler; false for Heun (witness). |
| C08 | Intermediate solver stages leave no trace | proved |  |
| C09 | The analytic solver is exact for linear reservoirs | partial | Exact (up to the 1e-8 mm/d thresholds) for any storage whose inflow the limiter sees; the unrestricted claim is refuted: inflow from a directly computed cover through a plain connection is not seen by the limiter. |
| C10 | The implicit solvers return the root they claim | proved | Bracket and accuracy for every outflow law including jumps; step-level theorem for Lipschitz laws and visible inflow. |
| C11 | Sequential solvers close the balance of each storage | proved | All four schemes, any process laws, storages declared in flow order with plain connections. Network-level consequences: c01_c06_every_step_closes and c03_balance_closes include these solvers. |
| C12 | Solver names | proved |  |
| C13 | Rain/snow separation conserves precipitation | proved |  |
| C14 | GR4J/GR6J production store stays within its bounds | proved |  |
| C15 | Evapotranspiration is bounded by the demand | partial | Proved for every ET process; for HBV only with a correction factor at most one (witness otherwise). |
| C16 | Melt and refreezing obey their thresholds | proved |  |
| C17 | Unit hydrograph ordinates are a partition of one | proved |  |
| C18 | Unit hydrographs deliver everything they receive | proved |  |
| C19 | HBV routing releases exactly what it receives | partial | Weights and schedule = content proved for all histories; exact timing and complete delivery proved for a unit covering the whole catchment. With several units the timing claim is false, see C53. |
| C20 | The GR4J routing storage reported equals the water in the hydrographs and the routing store | partial | Proved for X2 <= 0 (GR4J) and X2 = 0 (GR6J) over runs of any length; false with a gain, witnesses given. |
| C21 | The GR6J exponential store is well behaved | partial | Positive and within X6*exp(-14) of the law; strict monotonicity fails at the branch boundary (witness). |
| C22 | Lateral snow transport conserves snow volume | proved | Any redistribution law, any number of targets; plus what is kept, removed and received exactly for the two laws of the code (steps of at most one day). |
| C23 | Land cover fractions always sum to one | partial | Accepted changes (and sequences of them) keep a partition of the area. "A refused change leaves the unit unchanged" needs a generic cover and is refuted without one (the fraction is written before the check). The repair of small deviations made at validation is lost at the next reset. |
| C24 | Changing a land cover conserves liquid water and snow | proved | Volumes kept up to 3*2^-52 times the depths (the code compares fractions with that tolerance), exactly otherwise. Ice of a shrinking glacier is not transferred (documented in the code) and is not part of the property. |
| C25 | Flux weights follow the cover area | partial | Proved for land covers. Surface components: right with one weighted output only; with two the parent fraction is applied twice; not refreshed when the parent changes. (SetAreaFraction of a component is only reached from C++ basin settings listing surface components.) |
| C26 | Delta-h glacier evolution conserves ice | proved | For tables that suit the basin (rows without ice only at the end, no extent inside the rounding tolerance of 0 or 1). |
| C27 | Area-scaling glacier evolution conserves ice | partial | Proved when rows without area are reached only once the ice is gone; otherwise the ice depth is a division by zero (witness). The tables the library makes meet the condition (C75). |
| C28 | Snow-to-ice action conserves snow plus ice | proved |  |
| C29 | Dated actions are applied exactly once and in date order | partial | In a run the manager is first told the date of the second step, so a change dated the first day (or before) is applied after the first row. For every registration and every increasing sequence of dates passed to the manager. AddAction after a run has started is not covered. |
| C30 | Changes registered for the same date are applied in registration order | partial | The property is false of the code: equal dates are applied in reverse order of registration; the theorems prove it for every date. |
| C31 | Recurring actions fire on their registered days only, once per day | partial | Holds for registrations sharing their month or their day; refuted in general (months x days cross product), for steps below one day, and for February 29. |
| C32 | The time loop performs exactly the announced number of steps | partial | Exact arithmetic: one row per time step for every period and step. In binary64 (Flocq) proved for whole-day steps and steps that are binary fractions of a day, and for any step when the period does not end on a step date; refuted for hourly and 10-minute steps (8784 steps against 8783 rows, and 144 against 145). |
| C33 | The forcing value used at a step is the value for that date | partial | Daily data: the value of the date. Sub-daily: only periods starting at midnight of the data; multi-day steps are ignored by the cursor. |
| C34 | A run never reads forcing outside the provided data | partial | Each step uses the forcing of its own date when the data has the step of the model; the code does not check that it has. |
| C35 | Spin-up leaves no trace except in the stores | proved |  |
| C36 | Re-running after a reset gives the same results | partial | Proved for any computation over basins without snowpacks, and with snowpacks whose processes keep nothing that a step reads; refuted for the CemaNeige cold content (Snowpack::Reset does not reset its processes). |
| C37 | Time-varying parameters take the value of the simulated date | partial | Proved: after any dates each parameter has the value scheduled for the last of them that has one; in a run the row of step k shows the values for dates 1..k. Refuted: the first step uses the initial value; dated values given out of order are accepted and ignored. Nothing in the library registers modifiers with the updater (only tests do), stated in DESIGN.md. |
| C38 | Search in sorted arrays is sound and complete | proved |  |
| C39 | Calendar conversions round-trip | partial | Proved for the whole proleptic Gregorian calendar, also in binary64. Refuted: second 60 is accepted and does not come back; the day of the year is 1 for every date up to MJD 0. Parsing of strings is not modelled. |
| C40 | Reported catchment totals are area-weighted sums | partial | Proved when the fractions are recorded, cover names are unambiguous and no other sub-basin label contains "outlet". Refuted otherwise (fractions are not recorded by default; substring match on labels), and for GetTotalHydroUnits on contents, whose fraction weighting looks for a label suffix that no label has. |
| C41 | Each unit gets the structure variant matching its covers | proved | The variant of a unit is exactly as stated; ties go to the first variant, sizes count distinct names. Witnesses: c41_superset, c41_fallback. |
| C42 | Setting a parameter by component reaches exactly the designated components | partial | By name and by list: full characterisation, including failures and exceptions. By type: proved when no sub-basin brick matches and the matching bricks have the parameter. Refuted parts of the English claim: an unknown type reports success; a type matching a sub-basin brick raises an exception after changing the unit bricks; only the first of several processes with the parameter is changed; a failing list keeps its first changes. |
| C43 | Log labels are unique and complete | partial | Labels: unique, complete, in order, for all settings. Columns of the units: right for distinct declarations (given by well-formed names, c43_distinct). Columns of the sub-basin: right only if later variants add no label and the first variant declares none twice; otherwise refuted (null pointer read, write past the end). |
| C44 | Invalid flux topologies are rejected | partial | A direct flux from a solved brick to a brick of a kind that is computed directly is rejected, and only such fluxes are. Refuted: a path through a splitter is accepted; a sub-basin brick of a cover type is always solved, yet a flux to it is rejected. |
| C45 | Time series are accepted exactly when they cover the period | partial | Exact criterion for one series; for several units only the first is checked (witness). |
| C46 | The forcing time step is recognised | partial | Whole-day and hourly axes; other spacings are misread (witness). |
| C47 | A cover whose area becomes zero stops delivering water | partial | Refuted: a cover that loses its area is skipped, and its fluxes keep delivering their last amount in every later step (c47_last_amount_again). Holds only if that amount was 0. |
| C48 | Water reaching the catchment from units is area-weighted | partial | Volumes are kept by fluxes to the outlet, to sub-basin stores and to stores of the unit; refuted for fluxes to splitters (no weighting) and between covers of different areas. |
| C49 | Infiltration, runoff and capillary rise stay within the available water | proved | The refutation shows the infiltration is not limited to the free capacity, which the property does not claim. |
| C50 | Threshold drains remove exactly the excess | proved |  |
| C51 | The rest outflow completes the others | proved |  |
| C52 | Routing hydrographs follow the current base time | partial | Holds after SetParameters/Reset; the per-step test misses changes, witnesses given. |
| C53 | HBV routing does not depend on the unit's share of the catchment | partial | Only true for share 1 (c19_convolution); refuted otherwise: the process reads the area-weighted outlet flux as the delivered water. |
| C54 | The exponential Euler solver is exact for linear reservoirs | proved |  |
| C55 | The dynamic snow density stays physical | proved |  |
| C56 | Water sent to a splitter is passed on | partial | Splitters of units pass their first input on to every output; refuted: splitters of the sub-basin are never computed, and several outputs get a copy each. |
| C57 | The explicit solvers are the textbook methods | proved | Contents and reported fluxes of the textbook method, for storages in flow order with plain connections. |
| C58 | Order of accuracy of the explicit solvers | proved | Exact polynomial decay and the error bound over any number of steps. |
| C59 | The catchment's water balance closes over a run | proved | Conditions of the statement are [sound], [guarded] (CatchmentSpec.v). Outside them the balance fails: c05_*_refuted (water counted twice), c48_*_refuted (weights), c47_stops_refuted (area lost), c03_static_handoff_refuted (static hand-off between solved storages of different weight). Processes only read the containers: the groundwater exchange of routing:gr4j is not part of this balance. |
| C60 | Rain and snow reach every land cover exactly once | partial | Proved for every declaration made by the Python model classes. Refuted for the settings interface in general: land covers added before the precipitation splitters get no rain, without error. |
| C61 | A declaration gives the structure it describes | proved | Closed form [add_parts parts (base o covers)] (StructureSpec.v). Declarations: [good_model] (DeclareSpec.v). |
| C62 | A structure in flow order is built into a catchment that conserves water | proved | Structures in flow order: [in_flow_order] (BuildSpec.v). |
| C63 | The water balance of a declared model closes | proved | [good_units] (DeclareSpec.v); witness: Socont with a glacier, two variants, two units (DeclareWitness.v, RunWitness.v). |
| C64 | A time step is carried out | partial | Runs of any length without capacities; Euler steps with capacities. Refuted: a storage 100 mm above its capacity with an overflow cannot be computed with a step of 10 minutes. |
| C65 | With the formulas of its processes a declared model keeps its balance | proved | Discharges the condition [guarded] of C63 from the formulas (Processes.v, LawSpec.v). Refuted for steps longer than a day: 10 mm of rain give 20 mm of runoff in a weekly step. |
| C66 | The names of a process are interchangeable | partial | Percolation and snow to ice transformations: equality of the built catchments. Refuted for the overflow (ModelBuilder.cpp compares the raw type with "overflow"). |
| C67 | Properties of hydro units keep their meaning | partial | Proved for every stored unit except "degree" and the degree sign, for which the value is returned unconverted in any unit (refuted). Refuted: units that mean the same are not recognised; the elevation declared for a unit is not one of its properties, so no model with the CemaNeige splitter can be created from the Python classes; properties read from a basin file have no unit and are NaN when asked in one. |
| C68 | Hydro units are those declared, with their areas and connections | partial | Proved for distinct ids and a connectivity table set once. Refuted: setting the connectivity again adds up (Clear keeps the connections); duplicate ids are accepted and the first unit loses its connections; a ratio of 0 is accepted by Python and refused later by the core; a file read into settings that have units mixes them up. |
| C69 | Forcing data reach the units they were given for | partial | Proved for every layout and size. Refuted: hourly files, whose dates are read as 32-bit floats, are never accepted. |
| C70 | The results file holds what was computed | partial | Proved for every run. Refuted in one case: a second run that fails early leaves the rows of the first run in the file (only the cursor is reset). The selection of a period when reading is not modelled. |
| C71 | Catchment means read from the results are area-weighted means | partial | Proved for at least two land covers whose names are not confused. Refuted: a single land cover (always an exception), the mean of a component (one value per unit, averaged over time), covers without snowpack whose name ends another. |
| C72 | GR4J and GR6J stores follow their published equations | proved | Infiltration and evaporation up to 13 X1 of rain or demand per step (beyond, the code uses the value at 13 X1); c72_unique: the equation determines the level. |
| C73 | Processes follow the law they are named after | proved |  |
| C74 | Area scaling tables describe the glacier thinning uniformly | proved | Rasters are modelled as the lists of thicknesses of the ice-covered pixels of each unit. |
| C75 | Area scaling keeps the ice and follows the table, with the tables the library makes | proved | The table hypotheses of C26 are discharged for the tables the library makes; no hypothesis on the table is left. Units are made of fewer than 1e8 pixels of more than 1e-8 m2. |
| C76 | Delta-h tables on pixels follow the delta-h law | partial | Refuted for the default curves below 5 km2 (zero at the top: division by zero, proved for every glacier on two elevations with 2/n of the ice in the upper one), for a single elevation, and above 20 km2 (negative at the top: too much ice is taken). Proved for all other changes of thickness; parts are given in increasing order of elevation. |
| C77 | Delta-h keeps the ice and follows the table, with the tables the library makes | proved | For tables made on pixels whose change of thickness is nowhere negative; the table hypotheses of C26 are discharged. Units are made of fewer than 1e8 pixels of more than 1e-8 m2. |
| C78 | Delta-h tables on elevation bands follow the delta-h law | partial | Refuted for profiles from the highest to the lowest line (the changes of thickness go to the wrong lines) and for the claim that extents never grow under the default width option. Proved for every change of thickness that is nowhere negative and every profile in increasing order. |
| C79 | Every name of a parameter reaches it and values end up in their ranges | partial | Refuted for aliases added later (not checked), an alias given as a text (read letter by letter), a component:name defined twice (the second is never reached and the set never valid), a call that fails midway (values before are kept), adaptation after change_range made the range empty, defaults outside the range, and lists of another length. Proved for all other histories. Texts are ASCII; units and prior laws are not modelled. |
| C80 | Constraints and ranges of a parameter set are decided, and met by random values | partial | Refuted for unknown operators (such as ==), which are accepted and never checked, and for constraints on parameters without value, which raise. Proved for all sets whose values are of the kind of their range. |
| C81 | Calibration searches the ranges, runs only valid sets and reports the best of them | partial | Refuted: after 1000 unsuited samples the last one is returned (the announced exception cannot be reached); when all runs were rejected a rejected set is reported as the best with score -1e12; the signed mean error is minimised; error metrics that are not listed (msle) are maximised. Proved for one model without auxiliary observations and finite scores; spotpy is the environment. |
| C82 | The connectivity of the hydro units follows the flow directions and is accepted by the model | partial | Refuted: with one decimal digit a receiver may get a share of 0, which the hydro units accept and the model refuses; a unit with more than a hundred equal receivers loses all of them; water that leaves over the edge of the grid is not counted as leaving the catchment. Exact arithmetic; the flow directions and accumulations of pysheds are inputs, assumed positive in the cells of the units. |
| C83 | The forcing of every unit follows from the station data by the declared method, in the declared order of kinds | partial | Station data only (gridded data are not modelled). Refuted: with a station above the threshold the method with two gradients jumps at the threshold; a gradient given as an integer raises; the additional options of compute_pet are documented as passed to pyet but ignored; variables loaded for PET only (humidity, wind, net radiation, pressure) are passed to the model, which refuses them. |
| C84 | A calibration evaluates every parameter set with its own forcing | partial | Proved for operations whose corrections and PET do not depend on calibrated parameters, with at most one operation per variable of the units. Refuted otherwise: calibrated correction factors multiply from sample to sample, or have no effect on the units if the spatialisation has no calibrated parameter; PET keeps the values of the first temperature; the calibration corrects again a forcing that was already used for a run. |
| C85 | Periods are consistent, spin-ups fit them, and simulated and observed values of the same day are compared | partial | Everything proved except the evaluation of observations whose dates are not increasing: only their number is compared, and a day given twice hides a missing one (refuted). Dates are whole numbers of nanoseconds as in pandas; parsing of texts is not modelled. |
| C86 | A discretization puts every cell of the catchment in exactly one unit and keeps its area | partial | Proved for bands of equal height without limits, and in general for the numbering. Refuted: with quantiles the highest cells of the catchment are in no unit (and there is one band fewer than asked for); flat cells and cells on the border of the raster are in no aspect class; cells below the given minimum are dropped in silence; unknown criteria are ignored; the 65536th unit gets the id 0. Exact real arithmetic; slope, aspect, radiation and coverage by polygons are inputs. |
| C87 | The simulated glacier mass balance is the area-weighted surface balance of the glacier in the period and band | partial | Proved for models with one glacier cover: the value is the documented formula on the recorded series. Refuted: the engine records the ice melt in mm over the whole catchment, so the value is not accumulation minus ablation and is always too high (c87_icemelt gives the amount); with two glacier covers the contents are added, although they are mm over different areas; the first day of the period is not counted. Exact real arithmetic. |
| C88 | Observed mass balances: every usable row of the file becomes one target | partial | Rows are modelled after parsing. Refuted: a month number that does not exist is not refused and gives no observation; a row without limits of its band becomes a target that no run can answer. |
| C89 | The simulated snow cover is the documented curve of the snow, averaged over the land covers | partial | The value is proved for every recording. Refuted: a land cover that is asked for but was not recorded (a typing error) is left out without a message when another one is there. Infinite numbers are not modelled. Exact real arithmetic. |
| C90 | Observed snow cover: images, tiles and the cache give the means of the pixels that count | partial | Images are on the grid of the units (the reprojection is not modelled). The cache is transparent if loads with the same key ask for the same units and read the dates in the same way, for every history; without that it is refuted: the key of the cache contains neither hydro_units nor date_regex, date_format, date_parser. |
| C91 | Land cover changes loaded from tables and glacier masks leave each unit with the area that was given for it | partial | Proved for tables with columns in the order of their dates and one row for each unit. Refuted: with columns in another order a repeated value is lost; two units with the same whole metres of elevation: the second one gets nothing; an id that is not a unit is accepted between the smallest and the largest; with the yearly interpolation the last mask is never reached, and two masks in a year register nothing. The polygons and the rasterization of the shapes are not modelled; exact real arithmetic. |
| C92 | Converted values are the same quantity | partial | Exact real arithmetic. Refuted: millimetres cannot be converted to kilometres; the documented names with spaces (square meter) are refused; so are the members of the enumeration whose text is not a name (degrees Celsius, percent, ...); and the columns named (name, unit) that the documentation of convert_unit_df shows. |
| C93 | Land cover fractions from maps of classes and glacier extents | partial | Exact real arithmetic, on the grid of the units (projection and rasterization are given); each class has one entry in the mapping. Refuted: initialising a cover that has already an area loses that area (the fractions do not add up to one); without a generic cover the first cover gets 0 instead of its area; class codes given as texts do not override the preset, and the cells count for both covers; a mapping with the class 0 takes the cells without polygon. |
| C94 | The reference of a metric compares observed years with the same days of other years, and skills are relative to the mean | partial | Exact real arithmetic; daily series; the metrics of HydroErr are any functions (RMSE and mean error by their formulas). Refuted: periods that do not consist of whole years compare series of different lengths; a start date without end date is ignored; the mean error counts as an error although it has a sign, so a biased simulation gets a better skill than a perfect one; for constant observations a perfect simulation has the skill 0. |
| C95 | The structure graph shows the whole structure: every component, flux and forcing, each once | partial | The summary as blocks of data, not its layout; the drawing (to_dot, plot) is not modelled. Refuted: the number of processes counts a process with several outputs several times; that of bricks also counts undeclared targets; the forcing line of a component leaves out the forcing of its processes; a unit brick and a sub-basin brick of the same name share one node. |
| C96 | The drawing of a structure graph shows each node and each flux once, with a legend that explains it | partial | The DOT text as its statements; header, font attributes and the HTML of the legend are left out, plot() is not modelled. Refuted: a name with a quote is not escaped; ordinary fluxes are drawn dark grey but black in the legend; the legend has a storage row even if no storage is drawn. |

## What the proofs found in the code

Each item is backed by a `_refuted` theorem (named) or was read in the code and is stated in the comments of the model.

Storages and solvers
* The sweep of the limiter can oscillate and leave a capacity exceeded (`c02_oscillation_refuted`); inflow of directly computed bricks through plain
  connections is invisible to the limiter (`c02_hidden_inflow_refuted`, `c09_hidden_inflow_refuted`).
* A static hand-off between two solved bricks is booked with the amount of the previous step (`c03_static_handoff_refuted`).
* An empty storage with inflow is frozen instead of being limited proportionally (`c04_empty_store_frozen_refuted`).
* Static inputs of a directly computed brick are counted twice by the limiter, so that it may give more than it has and be set back to zero, which
  creates water (`c05_forced_water_refuted`); snow refrozen the day before is counted again (`c05_refrozen_snow_refuted`).
* Heun loses water on backward connections (`c06_backward_connection_refuted`) and deposits instantaneous fluxes twice
  (`c07_heun_deposits_twice_refuted`): only the dynamic changes are reset between the stages.
* HBV actual evapotranspiration exceeds the demand with a correction factor above one (`c15_hbv_correction_refuted`).

Routing
* HBV routing reads the area-weighted outlet flux as its own outflow, so the response depends on the share of the unit (`c53_share_refuted`).
* GR4J: with a gain from the exchange the storage of the brick no longer mirrors the internal stores (`c20_gain_refuted`); the logged
  `internal_storage` counts the ordinate already released (`c20_internal_storage_refuted`). GR6J: the exchange is never added to the storage
  (`c20_gr6j_exchange_refuted`); its outflow law is not monotone at a branch boundary (`c21_monotone_refuted`).
* A change of the base time is not always seen (`c52_stale_refuted`) and a shorter one drops water in transit (`c52_truncated_refuted`).
* `Reset` empties the GR stores while the content of the brick goes back to its initial state.

Land covers, glaciers, actions
* A refused change without a generic cover stays written (`c23_refused_refuted`); a change of the generic cover itself is silently reverted and reported
  as done; a repair at validation is lost at `Reset` (`c23_reset_refuted`). When a unit lacks a cover that its variant has, its fractions do not sum to 1.
* The fraction of a surface component is compounded with several weighted outputs (`c25_component_refuted`) and goes stale
  (`c25_component_stale_refuted`).
* Area scaling divides by a zero area (`c27_zero_area_refuted`) and ignores the result of the last change of the area; delta-h and area scaling divide by
  a zero reference area at initialisation.
* Actions with equal dates are applied in reverse order (`c30_*`); recurring dates fire on the cross product of months and days, at each sub-daily step,
  and never on February 29 (`c31_*`); actions dated the first day act after the first row (`c29_first_row_without_actions_refuted`).
* A cover that loses its area keeps delivering its last amount in every later step (`c47_stops_refuted`).

Time and forcing
* Hourly steps in binary64: the number of steps done differs from the number announced, and the logger is written past its end
  (`c32_binary64_hourly_refuted`).
* The forcing cursor counts whole days, ignores steps other than 1 and ignores a failed positioning (`c33_*`); the step of the data is not compared with
  that of the model (`c34_*`); only the first unit's dates are checked (`c45_*`); spacings other than whole days or hours are misread (`c46_*`);
  the time axis is read as 32-bit floats.
* Second 60 does not round-trip; day of year before MJD 0 (`c39_*`).

Reset, parameters, logger, settings
* `Snowpack::Reset` does not reset its processes: the CemaNeige cold content survives (`c36_cold_content_refuted`), as does the density of Frey.
* Time-varying parameters: first step not updated (`c37_first_step_refuted`), unsorted dates accepted and ignored (`c37_unsorted_dates_refuted`), the
  previous date is not reset; nothing in the library registers them.
* Logger totals: fractions not recorded by default, substring match on labels, "content" against "water_content" (`c40_*`).
* Settings: an unknown type is reported as success; a type that matches a sub-basin brick throws after changing others; only the first process with the
  parameter is set; a failing list keeps earlier changes (`c42_*`); sub-basin columns are set by position (`c43_*`).
* Unit properties: a slope declared in "degree" or "°" is returned unconverted in every unit (HydroUnitProperty.cpp:24 tests `_unit` where `unit` is meant,
  `c67_degree_refuted`); synonyms and percents give NaN (`c67_synonyms_refuted`); the elevation of a unit is not one of its properties, so the CemaNeige
  splitter throws for every unit declared from Python (`c67_cemaneige_refuted`); basin files carry no units (`c67_file_units_refuted`).
* Basin settings: `Clear` keeps the lateral connections, so setting them again doubles the shares (`c68_twice_refuted`); duplicate ids are accepted
  (`c68_duplicate_ids_refuted`); `Parse` into non-empty settings gives covers to the wrong units (`c68_second_file_refuted`); zero ratios (`c68_zero_ratio_refuted`).
* An hourly netCDF forcing file covering whole days is never accepted: its last date is read as 22:58 and the answer of `SetValues` is ignored, so the series
  stay empty (`c69_hourly_file_refuted`).
* `outflow:overflow` is accepted as another name of `overflow` when the process is created, but ModelBuilder.cpp:130/234 compare the raw text, so it is never
  linked as the overflow of its storage (`c66_overflow_refuted`).
* Splitters: a path from a solved brick through a splitter to a directly computed one is accepted (`c44_through_a_splitter_refuted`); splitters of the
  sub-basin are never computed (`c56_sub_basin_refuted`); only the first input is read and copied to each output (`c56_copies_refuted`); fluxes to
  splitters and between covers of different areas do not keep the volume (`c48_*`).
* Results: `Logger::Reset` only resets the cursor, so a second run that fails early leaves the rows of the first in the file (`c70_early_stop_refuted`);
  `get_mean_hydro_units_values` averages along the time axis (results.py:249, `c71_mean_component_refuted`); with a single land cover its name is iterated
  by characters and every mean raises (`c71_single_cover_refuted`); names are matched by their end (`c71_suffix_refuted`); `WriteCSV` prints dates with six
  significant digits; fractions between 0 and 1 are labelled "percent" (the last two not modelled).
* Delta-h tables (glacier_evolution_delta_h.py): below 5 km2 the default curve is x^2, zero for the highest band; once the other bands are bare the scaling
  factor is a division by zero (in exact arithmetic) and the later rows are NaN (`c76_small_refuted`).  Above 20 km2 the curve is negative for the highest
  bands: the thickening is counted in the scaling factor but not applied, so each row loses more than the n-th part of the ice (`c76_large_refuted`).  A
  single band gives 0/0 (`c76_one_level_refuted`).  The pixel arrays are copied shallowly, so `px_ice_we[0]` is changed and a second call of
  `compute_lookup_table` starts from altered pixels (not modelled).
* Delta-h tables on elevation bands: the bands are the sorted elevations, but with one line per elevation the lines are used in the order of the file; a profile
  given from the top downwards gets the changes of thickness in reverse order - the top melts first (`c78_downwards_refuted`).  With the default
  `update_width_reference="initial"` the extent of a band can grow from one row to the next while its ice shrinks (`c78_extent_grows_refuted`).
* Parameter sets: `add_aliases` does not check for aliases of other parameters (`c79_add_aliases_refuted`); an alias given as a string is read letter by
  letter (`c79_text_alias_refuted`); the same component:name can be defined twice, the second is never reached (`c79_defined_twice_refuted`); `set_values`
  keeps the values before the one that raised (`c79_midway_refuted`); `change_range` does not check min <= max (`c79_adapt_refuted`); a default
  outside its range is accepted (`c79_default_refuted`); lists of another length than the limits are accepted (`c79_length_refuted`).
* Constraints with an unknown operator (`==`) are never checked (`c80_operator_refuted`); a constraint on a parameter without value raises TypeError
  (`c80_undefined_refuted`).
* Calibration: `if i >= 1000: raise` inside `for i in range(1000)` is never reached, so an unsuited sample is returned (`c81_sample_refuted`); with all
  runs rejected the finite penalty makes `get_best` report a rejected set (`c81_all_rejected_refuted`); the signed `me` is minimised as if it were an
  error (`c81_mean_error_refuted`); `msle` and other errors of HydroErr missing in the list are maximised (`c81_unlisted_metric_refuted`).
* Connectivity: with `precision=1` the rounding can give a receiver the share 0, which `set_connectivity` accepts and `BuildBasin` refuses
  (`c82_zero_share_refuted`); more than a hundred receivers below 1 % each are all dropped (`c82_crowd_refuted`); flow over the edge of the DEM does not
  count as leaving the catchment (`c82_edge_refuted`).
* Forcing: the precipitation given by `multiplicative_elevation_threshold_gradients` jumps at the threshold if the station is above it
  (`c83_threshold_refuted`); a gradient given as an `int` raises (`c83_integer_refuted`); additional options of `compute_pet` are ignored
  (`c83_pet_options_refuted`); humidity, wind, net radiation or pressure needed for PET make `set_forcing` fail (`c83_variables_refuted`).
* Calibration of the forcing: correction factors accumulate from sample to sample (`c84_correction_refuted`) or are ignored (`c84_ignored_refuted`), PET is
  not updated (`c84_pet_refuted`), and a forcing used before is corrected twice (`c84_repeated_refuted`).
* `evaluate_periods` compares only the number of observations in a period: with a day given twice and another missing, values of different days are
  compared without error (`c85_pairs_refuted`); the trainer aligns by date and is right (`c85_aligned`).
* `discretize_by` with quantiles: the last band ends at the highest elevation, which it excludes, so the highest cells are in no unit and the area of
  the catchment shrinks (`c86_highest_refuted`); `number` quantiles give `number - 1` bands (`c86_quantiles`).
* `discretize_by` with the aspect: flat cells (aspect -1) and border cells (NaN) are dropped (`c86_flat_refuted`); cells below `min_elevation` are
  dropped without warning (`c86_limits_refuted`); a misspelt criterion gives one unit (`c86_unknown_refuted`); ids wrap at 65536 (`c86_many_refuted`).
* `GlacierMassBalanceObservations.simulated` subtracts `glacier:melt:output`, which the engine records after the weighting of the flux, in mm over the
  whole catchment, from a snow content in mm over the glacier: ice melt is understated by the factor (glacier area of the unit) / (catchment area)
  (`c87_icemelt`, `c87_icemelt_above`, `c87_icemelt_refuted`).
* the same method adds the snow and the melt of several glacier covers of a unit instead of averaging them over their areas: 10 mm on both covers give
  20 mm (`c87_covers_refuted`); the first day of an observation period is not counted (`c87_first_day_refuted`).
* `from_csv(hydro_year_start=13)` silently loads nothing (`c88_month_refuted`); rows without band limits give targets without answer (`c88_band_refuted`).
* the cache of the observed snow cover mixes requests: its key has neither the ids of `hydro_units` nor `date_regex`, `date_format`, `date_parser`, although
  the documentation says "never mixes across discretizations or settings" (`c90_cache_units_refuted`, `c90_cache_dates_refuted`).
* `SnowCoverObservations(land_covers=[...])` with a misspelt cover silently uses the others only (`c89_typo_refuted`). `_swe_to_fraction` documents that
  non-finite values map to 0, but an infinite one gives 1; `min_valid_ratio` is documented with default 0 in `_from_stack` but is 0.5 (both by reading).
* land cover changes by elevation: units whose elevations have the same whole metres are not told apart, only the first one is changed (`c91_same_elevation_refuted`);
  columns that are not in the order of their dates lose changes (`c91_unsorted_refuted`); an id that is no unit is accepted (`c91_id_refuted`).
* `interpolate_yearly` stops at the last 1st of January before the last glacier mask: the last observed extent is never in force, and two masks within a year
  have no effect at all, without a message (`c91_final_refuted`, `c91_same_year_refuted`).
* units: the documented `get_unit_enum('square meter')` is refused, because the spaces are removed before the name is looked up (`c92_documented_refuted`); `convert_unit`
  with members like `Unit.C`, `Unit.PC`, `Unit.KPA` fails because a StrEnum is a text and its text is no name (`c92_member_refuted`); the documented example of
  `convert_unit_df` with a column ('area', 'km2') fails (`c92_column_refuted`).
* land cover fractions: `initialize_from_land_cover_change` subtracts the new fraction from the generic cover without giving back the old one, so initialising a cover twice
  (a map, then a glacier extent) leaves fractions that do not add up to one (`c93_again_refuted`); without a generic cover the first cover plays its part, and gets 0 when it is
  itself initialised (`c93_no_generic_refuted`); class codes read as texts (JSON, YAML) do not replace those of the preset and their cells count twice (`c93_text_refuted`);
  a polygon mapping with the class 0 takes all cells without polygon (`c93_class_zero_refuted`).
* reference metric: a period (or observations) that does not begin on 1 January and end on 31 December compares series of different lengths (`c94_length_refuted`); a `start_date` without
  `end_date` is ignored (`c94_start_refuted`); skills: `me` is in the list of errors although it has a sign (`c94_bias_refuted`); with constant observations a perfect simulation
  has the skill 0, not 1 (`c94_constant_refuted`).
* structure graph: the summary's "Processes" counts a process once per output (`c95_processes_refuted`), "Bricks" counts undeclared targets (`c95_bricks_refuted`), its forcing line leaves
  out the forcing of processes (`c95_forcing_refuted`); bricks of the same name at unit and sub-basin level share one node (`c95_same_name_refuted`).
* drawing of the structure: names with a quote are not escaped in the DOT text (`c96_quote_refuted`); ordinary fluxes are `#333333` while the legend's row is black (`c96_flux_color_refuted`);
  the legend always has a storage row, so its "empty" case never occurs (`c96_storage_row_refuted`).

## Axioms per theorem (output of `Print Assumptions`)

* closed under the global context: c12_names, c31_cross_product_refuted, c31_leap_day_refuted, c31_no_other_day_partial, c31_registered_days_fire, c31_several_times_a_day_refuted, c31_valid_day_kept, c42_by_name, c42_list, c42_result, c43_basin_columns_partial, c43_distinct, c43_labels, c43_later_variant_refuted, c43_twice_refuted, c43_unit_columns, c44_rejected, c44_sub_basin_refuted, c44_through_a_splitter_refuted, c56_unit_splitter, c67_text, c69_names, c70_read, c70_run_to_user, c70_second_run, c70_too_long, c70_written, c79_found, c80_removed, c83_names, c83_variables_refuted, c85_pairs_array, c85_pairs_partial, c85_periods, c85_raises, c85_spinup_within, c85_spinup_years, c88_glamos, c88_years, c89_request, c92_brackets, c92_documented, c92_documented_refuted, c92_names, c93_mapping, c93_text_refuted, c94_aligned, c94_days, c95_bricks_refuted, c95_components, c95_counts, c95_edges, c95_forcing_refuted, c95_nodes, c95_processes_refuted, c95_same_name_refuted, c95_summary, c95_variant, c96_edges, c96_flux_color_refuted, c96_legend, c96_nodes, c96_quote_refuted, c96_quoted, c96_storage_row_refuted.
* `Classical_Prop.classic`: c42_by_type_partial.
* `ClassicalDedekindReals.sig_forall_dec`: c42_type_of_sub_basin_refuted, c42_unknown_type_refuted, c56_sub_basin_never, c60_receivers, c61_bricks, c61_cover_types, c61_declared_structure, c68_second_file_refuted, c70_early_stop_refuted, c83_correction, c85_aligned, c85_compared, c85_pairs_refuted, c88_csv, c88_month_refuted.
* `ClassicalDedekindReals.sig_forall_dec`, `FunctionalExtensionality.functional_extensionality_dep`: c02_euler_capacity_partial, c02_hidden_inflow_refuted, c02_limiter_capacity, c02_oscillation_refuted, c04_empty_store_frozen_refuted, c04_limiter_bounds, c04_limiter_leaves_feasible_steps, c04_limiter_proportional, c05_books, c05_conserved_partial, c05_forced_water_refuted, c05_not_overdrawn_partial, c05_refrozen_snow_refuted, c06_backward_connection_refuted, c07_euler_books_every_kind_once, c07_heun_deposits_twice_refuted, c08_heun_no_trace, c08_rk4_no_trace, c10_root_is_the_content, c13_cemaneige, c13_linear, c13_precipitation_conserved, c13_threshold, c15_hbv, c15_hbv_correction_refuted, c15_linear, c15_open_water, c16_cemaneige, c16_cemaneige_cold_content, c16_degree_day, c16_melt_xor_refreeze, c16_refreeze, c16_temperature_index, c18_balance, c18_convolution, c18_empties, c18_nonneg, c19_all_due_partial, c19_convolution, c19_schedule_is_content, c19_weights, c22_released_within, c22_volume_conserved, c23_accepted, c23_accepted_all, c23_applied, c23_dated_area, c23_refused_partial, c23_refused_refuted, c23_reset_refuted, c23_room_accepted, c23_validated, c24_exact, c24_nonneg, c24_snow, c24_water, c25_component_partial, c25_component_refuted, c25_component_stale_refuted, c25_cover, c25_restored, c25_unit, c26_extents, c26_ice_conserved, c26_ice_conserved_exactly, c26_initialised, c26_safe, c27_ice_conserved_partial, c27_zero_area_refuted, c28_safe, c28_snow_to_ice, c28_volume, c29_dated_actions, c29_first_row_without_actions_refuted, c29_reset_reapplies, c30_same_date_actions_reversed_refuted, c30_same_date_reversed_refuted, c32_every_row_filled, c32_step_length, c32_steps, c33_daily, c33_hours_of_the_day_refuted, c33_step_ignored_refuted, c33_subdaily_whole_days_partial, c34_forcing_of_the_dates, c34_time_step_not_checked_refuted, c35_never_longer_than_the_period, c35_spin_up, c36_cold_content_refuted, c36_rerun_partial, c36_rerun_with_snow_partial, c37_first_step_refuted, c37_in_a_run, c37_unsorted_dates_refuted, c37_value_of_the_last_date, c38_found_is_right, c38_search, c39_any_date, c39_consecutive_days, c39_day_of_year, c39_day_of_year_before_refuted, c39_leap_second_refuted, c39_refused, c39_round_trip, c40_contents_ignore_fractions_refuted, c40_evapotranspiration, c40_fractions_not_recorded_refuted, c40_outlet, c40_outlet_name_refuted, c40_storage, c40_water_snow_ice, c40_weights, c42_every_process_refuted, c42_failed_list_refuted, c45_accepted_iff_covering, c45_first_unit_only_refuted, c45_valid_series, c46_created_series_keep_their_dates, c46_days_and_hours, c46_other_spacings_refuted, c47_last_amount_again, c47_nothing_left_partial, c47_stops_refuted, c48_between_covers_refuted, c48_outlet, c48_rain, c48_to_a_splitter_refuted, c48_volume_partial, c49_capillary, c49_infiltration_fits_refuted, c49_infiltration_socont, c50_snow_holding, c50_threshold, c51_rest, c53_share_refuted, c56_copies_refuted, c56_sub_basin_refuted, c57_euler, c57_heun, c57_rk4, c59_solver_receives, c60_covers_first_refuted, c60_rain_and_snow, c62_built, c62_flags, c63_model_built, c64_overflow_aborts_refuted, c64_overflow_step, c66_aliases_equivalent, c66_overflow_refuted, c68_built, c68_connections, c68_connectivity, c68_declared, c68_duplicate_ids_refuted, c68_refused, c68_twice_refuted, c68_zero_ratio_refuted, c69_array_attached, c69_array_to_units, c69_total, c71_mean_component_refuted, c71_mean_swe, c71_single_cover_refuted, c71_suffix_refuted, c71_total_swe, c73_hbv, c73_ice_under_snow, c73_linear, c73_sublimation, c74_first_row, c74_rows, c74_shrinks, c74_thinning, c75_accepted, c75_extent, c75_ice_conserved, c76_large_refuted, c76_made, c76_medium, c76_never_fails, c76_one_level_refuted, c76_rows, c76_small_refuted, c76_volumes, c77_accepted, c77_ice_conserved, c77_initialised, c77_row, c79_accepted, c79_adapt, c79_adapt_refuted, c79_add_aliases_refuted, c79_default_refuted, c79_defined, c79_defined_data, c79_defined_twice_refuted, c79_length_refuted, c79_midway_refuted, c79_reached, c79_ready, c79_set, c79_text_alias_refuted, c79_transformed, c80_constraints, c80_given_up, c80_no_limits, c80_operator_refuted, c80_random, c80_ranges, c80_undefined_refuted, c81_all_rejected_refuted, c81_best, c81_best_values, c81_mean_error_refuted, c81_run, c81_sample, c81_sample_refuted, c81_search_box, c82_accepted, c82_computed, c82_crowd_refuted, c82_edge_refuted, c82_flows, c82_forced, c82_multiple, c82_single, c82_single_forced, c82_zero_share_refuted, c83_integer_refuted, c83_reference, c83_threshold_continuous, c83_threshold_refuted, c83_total, c83_values, c86_accepted, c86_areas, c86_assigned, c86_flat_refuted, c86_highest_refuted, c86_limits_refuted, c86_many_refuted, c86_quantiles, c86_unknown_refuted, c86_whole, c87_balance, c87_bands, c87_between, c87_covers_refuted, c87_first_day_refuted, c87_icemelt, c87_icemelt_above, c87_icemelt_refuted, c87_seasons, c87_surface, c88_band_refuted, c89_between, c89_cover, c89_extremes, c89_linear, c89_monotone, c89_nothing_recorded, c89_refuses, c89_typo_refuted, c90_between, c90_cache_dates_refuted, c90_cache_partial, c90_cache_units_refuted, c90_modis, c90_refuses, c90_stack, c91_between, c91_elevation, c91_final_refuted, c91_id_refuted, c91_ids, c91_interp, c91_masks, c91_same_elevation_refuted, c91_same_year_refuted, c91_surfaces, c91_unit, c91_unsorted_refuted, c92_column_refuted, c92_convert, c92_member, c92_member_refuted, c92_round_trip, c92_steps_refuted, c92_ways, c93_again_refuted, c93_class_zero_refuted, c93_classes, c93_glacier, c93_no_generic_refuted, c93_shapes, c94_bias_refuted, c94_combinations, c94_length_refuted, c94_mean, c94_random, c94_skill, c94_start_refuted.
* `ClassicalDedekindReals.sig_forall_dec`, `ClassicalDedekindReals.sig_not_dec`, `FunctionalExtensionality.functional_extensionality_dep`: c01_c06_every_step_closes, c03_balance_closes, c03_static_handoff_refuted, c09_solution_exists, c10_implicit_bisection, c10_implicit_step, c10_trapezoidal_bisection, c10_trapezoidal_step, c11_sequential_balance, c51_swat_bounds, c55_consecutive_steps, c55_density_bounded, c55_density_settles, c59_catchment_balance, c59_nonnegative, c59_precipitation_balance, c62_balance, c63_model_balance, c63_model_nonnegative, c64_run_completes, c67_cemaneige_refuted, c67_convertible, c67_degree_refuted, c67_elevation_refuted, c67_file_units_refuted, c67_first_declared, c67_needed, c67_right_quantity, c73_exponential, c73_seasons, c78_downwards_refuted, c78_extent_grows_refuted, c78_made, c78_medium, c78_rows, c78_volumes, c83_order, c83_pet, c83_pet_options_refuted, c83_phases, c84_correction_refuted, c84_ignored_refuted, c84_pet_refuted, c84_repeated_refuted, c84_run_once, c84_samples_partial, c94_constant_refuted, c94_rmse.
* `ClassicalDedekindReals.sig_forall_dec`, `Classical_Prop.classic`, `FunctionalExtensionality.functional_extensionality_dep`: c41_variant, c91_glaciers_run, c91_run.
* `ClassicalDedekindReals.sig_forall_dec`, `ClassicalDedekindReals.sig_not_dec`, `Classical_Prop.classic`, `FunctionalExtensionality.functional_extensionality_dep`: c09_analytic_exact, c09_half_steps, c09_hidden_inflow_refuted, c14_evaporation, c14_infiltration, c14_percolation, c14_production_store_bounded, c15_exponential, c15_gr4j_evaporation_within_demand, c15_power_law, c15_socont, c17_shape, c17_shares, c20_gain_refuted, c20_gr6j_exchange_refuted, c20_gr6j_mirror_partial, c20_internal_storage_refuted, c20_mirror_partial, c21_accuracy, c21_monotone_refuted, c21_outflow, c22_frey_receives, c22_frey_within_snow, c22_slide_keeps_holding_depth, c22_slide_receives, c32_binary64_away_from_the_dates, c32_binary64_binary_fractions, c32_binary64_daily, c32_binary64_hourly_refuted, c39_binary64_round_trip, c49_infiltration_decreases, c49_infiltration_hbv, c49_runoff_hbv, c49_runoff_socont, c52_refresh_partial, c52_stale_refuted, c52_truncated_refuted, c54_exponential_exact, c58_order, c65_formulas_balance, c65_formulas_nonnegative, c65_weekly_refuted, c67_synonyms_refuted, c69_daily_file, c69_file_to_units, c69_hourly_file_refuted, c69_missing_units, c69_nothing_else, c72_evaporation, c72_exponential_store, c72_infiltration, c72_percolation, c72_unique, c73_power, c73_socont, c81_transforms, c81_unlisted_metric_refuted, c85_rows.
