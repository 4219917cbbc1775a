# Formal model of nasa/gunns in Rocq/Coq 8.16.1

## Trusted base

* The Coq 8.16.1 kernel (`coqc`, re-checked with `coqchk`).
* The axioms printed by `Print Assumptions` under every property theorem (see
  the `Props_*.v` files).  Only standard-library axioms occur:
  * classical real numbers: `ClassicalDedekindReals.sig_forall_dec`,
    `ClassicalDedekindReals.sig_not_dec`, `FunctionalExtensionality.functional_extensionality_dep`
    (and `Classical_Prop.classic` where the Reals library pulls it in);
  * primitive floats (`Coq.Floats.FloatAxioms`, `PrimFloat`, `PrimInt63`) for
    the statements about IEEE binary64.
* The reading of the C++ text: each Gallina definition cites the file and line
  range in /repo it transcribes and says where it simplifies.  Nothing was
  compiled or run.

## Modelling decisions

* **Numbers.**  Code that computes with `double` is written once over a class
  `Num` of operations (`Num.v`), following the C++ expression order and the C++
  comparison direction (`a > b` is `nlt b a`, never the negation of `a <= b`).
  Instances: `RNum` (exact reals; theorems of arithmetic), `FNum` (Coq primitive
  binary64 floats; theorems about NaN, infinities, clamping, and execution), and
  theorems quantified over *every* instance (pure control-flow facts; they hold
  for IEEE doubles whatever rounding does).
  A theorem about `RNum` says nothing about rounding error.
* **Rounding.**  `Round.v` connects binary64 to the reals: every operation is the
  exact one followed by a monotone function.  The class `NumVal` has this as its
  laws, with `R` and `float` as instances, so one proof covers both.  The proofs of
  the laws use Flocq lemmas (proved, not assumed; no axiom beyond the standard
  library's float and real ones).
* **Arrays** are total functions from `nat` with pointwise update, or lists;
  loops are structural recursions over the trip count.  Memory safety is only
  stated where a property is about it (an `UB` outcome is then explicit).
* **Exceptions** are explicit outcomes.
* **Virtual calls** (links, nodes) are arbitrary functions over an arbitrary
  state, universally quantified, so theorems about the solver hold for every
  link implementation.
* **Threads**: small-step interleavings at the granularity of one critical
  section / one unlocked read.

## Layout (rocq/theories)

| file | content |
|---|---|
| `Num.v` | number class, real and binary64 instances, comparison lemmas |
| `Ord.v`, `Round.v` | order laws and rounding laws common to the reals and binary64 |
| `F32.v` | binary32 (Flocq `binary_float 24 128`), its order laws, casts to and from binary64 |
| `<Area>.v` | model of one area (function by function, citing /repo) and its lemmas |
| `Spec_<Area>.v` | independent specification where it is more than a formula |
| `Props_<Area>.v` | property theorems, concrete examples, `Print Assumptions` |

## Properties

The table is extended as the model grows; `MANIFEST.json` has the status.

| id | modelled | how |
|---|---|---|
| C01 | CholeskyLdu::Decompose over arrays | induction over rows; backward error of the 1e-100 flush, exact outside it |
| C02 | Solve and both triangular solves | induction over rows |
| C03 | Decompose | dominance preserved by elimination |
| C04 | Decompose | false: witness matrix with positive off-diagonals |
| C05 | Decompose with row list | simulation with gather/scatter |
| C06 | Invert | loop invariants |
| C07, C08 | matrix and source assembly | sums over port pairs, permutation invariance |
| C09 | row conditioning | case analysis per row |
| C10, C11 | buildIslands/mergeIslands | label invariant = reflexive-transitive closure of the edges scanned so far |
| C12 | islands with SOLVE | block-structure of Decompose |
| C53 | assembly + conditioning + decomposition + solve | passive sums are passive; conditioning makes them strictly dominant; C03 |
| C13–C17, C19, C20, C22 | step/iterateMinorSteps with arbitrary links | invariants over the minor-step loop and over step sequences |
| C18 | same | false: witness history; positive theorem for NORMAL-only histories with links that flag their changes |
| C21 | checkSystemConvergence over binary64 | false: NaN witness |
| C54 | perturb/computeNetworkCapacitances inside buildAndSolveSystem | relational loop invariants: two states that differ in requests only |
| C55 | same, whole step | false: witness with two minor steps |
| C23, C24 | GunnsBasicLink port map | invariant over request sequences; C24 false: witness |
| C25 | transportFlux, collect* | sums over nodes |
| C26 | Distributed2WayBusFluid, two sides joined by delay channels | the side that does not prefer Demand never takes it; case analysis of who supplies, settled by 4*delay+8 frames; false for a both-Demand start: witness |
| C27 | computeDemandLimit | real algebra |
| C28 | both buses | invariant over all calls |
| C29 | notifications | false (LIFO): witness |
| C30 | updateFrameCounts on both sides | echo equation modulo 2^32 |
| C31 | Distributed2WayBusElect pair | frames since flip grow past the measured latency |
| C56 | processOutputs | false with a forced role: witness |
| C32–C34 | GunnsTripLogic | induction over check sequences |
| C35, C58, C59 | GunnsElectSwitchUtil | invariant over update sequences; false in general: witness histories |
| C57 | GunnsElectSwitchUtil2 | invariant; false in general: witness histories |
| C60 | GunnsTripLogic | false: witness |
| C66, C67 | GunnsElectSwitchUtil | closed form of one update, every number type |
| C68 | GunnsElectSwitchUtil2 | closed form of one update, every number type |
| C36, C65 | MsMath.hh limitRange, innerLimit | order laws of Ord.v, proved for binary64 from FloatAxioms and for R |
| C37, C38 | MsMath.hh | case analysis over reals; false parts by witnesses |
| C61–C64 | MsMath.hh round, quantize, asinh, fastPow | exact reals; false parts by witnesses |
| C39 | TsHsMsgQueue, one thread | refinement to a bounded list; ring invariant |
| C40 | TsHsMsgQueue, threads in small steps | invariant over every interleaving with one reader; sequentially consistent memory |
| C41, C69, C70 | same | false: witness interleavings; positive parts for one writer or one thread |
| C42, C43, C71, C72 | TsHsMsgStdFilter | invariants over every call sequence, for the reals and binary64 at once (`NumVal`); C43, C71 false: witnesses |
| C44, C45, C76, C80 | TsLinearInterpolator | cell search independent of the start, real algebra; rounding laws (`NumVal`) for the binary64 parts; false parts by witnesses |
| C46, C73–C75 | TsBilinearInterpolator | invariant of the reversing loop, uniqueness of the interpolant; false parts: witnesses, and C46 for every even length |
| C77, C78 | TsBilinearInterpolatorReverse | scan invariant; walk over the cells of a monotone line |
| C47, C79 | BrentMethod | loop invariant of the bracket for both number types, of the range over the reals; false parts by witnesses |
| C48, C81, C82 | TsPidController | invariant over call sequences for both number types; C81 over reals against an independent list of intervals; binary64 NaN and C82 by witnesses |
| C49, C83–C85 | SensorAnalog, SensorBase, over any float/double pair (`Casts`) | case analysis, invariant; reals and binary32 (`F32.v`); false parts by binary32 witnesses |
| C50 | StepLog.v: GunnsMinorStepLog (ring buffer, states, commands, writing thread as calls between the others) | Spec_StepLog.v keeps every recorded step in a list; C50_ring: the rows rendered are the latest of them in order, by an invariant that locates the j-th newest step in the ring; C50_auto and C50_snap carry this through beginMajorStep .. updateAsync to the file |
| C86 | the same, all calls in any order | C86_safe by an invariant on the buffer; C86_all_links_refuted for the one public method that lacks the guard |
| C87 | the same | C87_records_in_recording_states by an invariant on command, state and flag; C87_resize_refuted: changing the size while a file is pending |
| C88 | the same, with the solver's calls from Gunns.cpp:736-945 | C88_linear_refuted (every successful step of a linear network is dumped); C88_stale_refuted (a failed step shows older potentials) |
| C51 | Intersect.v: triangle, sphere (JEOD's Vector3 operations assumed to have their usual meaning) | Spec_Intersect.v gives segments and bodies by coordinates; Cramer's rule and the quadratic; both directions, and the point is the only one (triangle) or the nearest (sphere). Real numbers; C51_degenerate_refuted is binary64 |
| C52 | Intersect.v: cylinder | three witnesses in the reals; C52_complete_partial says which segments are safe |
| C89 | Intersect.v: spheroid | reduced to the sphere through the scaling |
| C90 | Intersect.v: cylinder | C90_cylinder_point: soundness and first point, from the roots of the quadratic and the end-cap planes; C90_short_refuted |
| C91 | BasicLinks.v: the basic links' step, minorStep, computeFlows, transportFlux; Assembly.v | Spec_BasicLinks.v: `reach` lists every call and setter, `built` what may happen between the build and the flow pass; sums over links; C91_exact_conservation_refuted is a two-node network whose exact solution leaves a net flux of 1 (dead band) |
| C92 | the same | exchange of sums; sign of the admittance by an invariant over `reach` |
| C93 | GunnsBasicCapacitor | algebra of one step, induction over the run |
| C94 | the same, binary64 | invariant over `reach` from the float axioms |
| C95 | GunnsBasicFlowController | case analysis over reals; witness for the refuted part |
| C96 | all of the above with Ldu.v | links' contributions are passive, then C53 and C91; a negative capacitance does not decompose |
| C97 | GunnsBasicExternalDemand | contraction of the filters, limits of sequences; binary64 NaN latch by induction over all later inputs |
| C98 | the basic links | closed forms of one step, invariance under trial potentials and polls |
| C99 | the same, every number type | relation "flag up or unchanged" carried through every call |
| C100 | Jumper.v: GunnsBasicJumperPlug, GunnsBasicSocket | invariant over `reach` (Spec_Jumper.v), which lists every call and user write, also after exceptions |
| C101 | the same | relation between the states before and after an update, closed under composition |
| C102 | the same | an inductive description of every way through update, inverted; witness for the swap |
| C103 | the same | the same; two witnesses against the documented override |
| C104 | the same, with GunnsBasicJumper::updatePlugs | induction over the later updates; witness |
| C105 | the same, with the restart | `belongs` is preserved by update and established by restart; witnesses |
| C106 | GunnsBasicJumper and GunnsBasicSocket, effective conductivity | from C100 |
| C107 | Orchestrator.v: GunnsFluidFlowOrchestrator::update as a sequence of calls | measure 2 x incomplete links + (0 or 1) falls each turn; counts of calls by an invariant |
| C108 | the same | Spec_Orchestrator.v states orders on the list of calls; invariant "well_ordered"; two witnesses |
| C109 | Fluid.v: PolyFluid with its MonoFluids, curve fits other than specific heat as arbitrary functions, no trace compounds | Spec_Fluid.v `balanced`; sums over the constituents; witness for initialize |
| C110 | the same, computeTemperature and computeSpecificEnthalpy | the quadratic formula over reals; binary64 witnesses |
| C111 | the same, addState | sums over zipped constituents, limits shown not to bite; witnesses |
| C112 | Fluid.v: GunnsFluidUtils normalizeArray and mixFluidMasses | from C109 |
| C113 | FluidNode.v: GunnsFluidNode resetFlows, the collecting functions, integrateFlows | from C109, C111 and C112; the limits are shown not to bite |
| C114 | the same | the inverse of C110 |
| C115 | FluidNode.v: GunnsFluidConductor computeFlows and transportFlows, a step of the network | a ledger of one quantity, additive over links, kept by induction over the links; then C113 and C114 for each node |
| C116 | FluidNode.v: integrateFlows of a node without volume | C111 and C112 |
| C117 | FluidNode.v: computePressureCorrection | case analysis |
| C118 | FluidNode.v: initVolume, setVolume, computeCompression | induction over the volumes |
| C119 | Fits.v: the nineteen curve fits, init, evaluate, get, getExceptional | case analysis over the class, field arithmetic |
| C120 | Fits.v: init, constructors, isInitialized | case analysis, for any numbers; refuted for QuadraticRootFit in binary64 |
| C121 | Fits.v: the checks of init | real arithmetic; order laws of binary64; refutations by computed witnesses |
| C122 | FluidTypes.v: getDensity, getPressure, getSpecificEnthalpy, getTemperature, getSaturationPressure, getSaturationTemperature | real arithmetic |
| C123 | FluidTypes.v: the numbers of all defined fluids | from C122 by exact rational checks proved sound (FluidTypesQ.v); the intermediate value theorem for liquid oxygen |
| C124 | FluidTypes.v: the same | positivity of polynomials on intervals by bisection with exact rationals, proved sound |
| C125 | FluidTypes.v: getHeatOfVaporization | real analysis of the curve, coefficients checked exactly |
| C126 | Fluid.v: setTemperature, initialize, setPressure, computeDensity, computePressure, addState | the loops rewritten to sums of the spec (Spec_FluidProps.v); the wrong pressure of addState by computation in binary64 |
| C127 | Fluid.v: initialize, the edits, setMass of one, setState, resetState | case analysis, induction over the constituents, C109 |
| C128 | Dyn.v: GunnsDynUtils | algebra over reals against the quaternion product of Spec_Dyn.v; derivatives of the standard library; witnesses by computation |
| C129 | Dyn.v: GunnsDynEulerBase and the six sequences | case analysis over the sequences, products of elementary rotations (Spec_Dyn.v), analysis of atan2 and asin |
| C130 | Dyn.v: GunnsDynSingleRigidStateDeriv and MassProps, the solver as a parameter | Newton's laws summed over particles (Spec_Dyn.v), induction over the particles and over the updates; witnesses |
| C131 | Dyn.v: GunnsDynSingleRigidEom::integ, the integrator as a parameter | perturbation bounds on top of C128 and C129 |
| C132 | FluidNode.v: integrate_flows, out_mass, thru_mass, overflowing; FluidNet part of FluidNode.v for the pressures | closed forms of the two parts over the reals, then the branches of the integration |
| C133 | DynMem.v: the functions of GunnsDynUtils on a memory of cells with pointers, loops in the order of the code | loop lemma: each iteration writes its own region from cells not yet written; any number type |
| C134, C135 | Valve.v: TsValveController, TsPoweredValveController, the open/close, speed, T and dual solenoid controllers, boolean sensors; Spec_Valve.v | range by induction over operations with the order laws of the number type (reals and binary64); case analysis; witnesses for equal limits and the ignored handle |
| C136, C137 | Valve.v: the drive of a powered valve, the position controller, TsToggleValveCmd and its controller | induction over commands, time steps and samples (Props_ValveMove.v); witness for the long transit time |
| C138, C139 | Thermal.v: GunnsThermalCapacitor, heat queues, GunnsThermalPhaseChangeBattery, on the capacitor of BasicLinks.v | algebra over reals, induction over queues, case analysis of the phases; witness over two steps |
| C140, C141 | Thermal.v: GunnsThermoelectricEffect and Device, GunnsThermalSource, panels, GunnsThermalRadiation | algebra over reals; witnesses, the white panel in binary64 (Props_ThermalDev.v) |
| C142, C143 | Battery.v: GunnsElectBatteryCell and GunnsElectBattery on the potential link of BasicLinks.v; the voltage table is any function | sums over lists of cells, induction over steps (Props_Battery.v); witnesses for the free charge and for the runaway that is not released |
| C144-C146 | Converter.v: both sides of the electrical converter with trips, limits, bias, the exchange between the sides and the loop of the solver as the pair sees it | a measure of the flips, trips and states left that every rejection lowers, for any number type, and binary64 witnesses whose state is a fixed point (Props_Converter.v); algebra over reals (Props_ConverterPower.v) |
| C147-C153 | UserLoad.v: user loads (resistive and constant power), their duty cycle and fuses, the short circuit malfunction, the load switch with override, the selector | cases over reals; induction on steps of the duty cycle and on event sequences (Props_UserLoad.v, Props_LoadSwitch.v); an invariant of the selector's matrix over call sequences (Props_Selector.v) |
| C154-C158 | FluidFlow.v: the fluid conductor (flow equation, tuning, flux) and GunnsFluidUtils: capacitance, expansion, convection, conduction, diffusion, mixture conversions; fluids are records of getter values, square root, power, exponential and enthalpy are parameters | over reals with the library's functions; lists by induction; the NaN in binary64 |
| C159-C163 | FluidValves.v: valve leaks, check, three-way and three-way check valves, leak link, relief and regulator valves, balanced regulator | cases over reals; motion by induction on steps; relief valve by refinement to an ideal hysteresis, regulator by mirroring |
| C164 | FluidTrace.v: trace compounds, moved, drained, mixed, set up and found | a settled state as the invariant of every update, compound by compound over reals |
| C165-C166 | FluidHx.v: heat exchanger segments, degradation, overrides, setters; coefficients by flow | induction over the segments in flow order over reals; reversal by mirroring |
| C167 | FluidHx.v: condensing heat exchanger over an abstract fluid | the iteration kept between dew point and wall by an invariant; books by induction over segments; NaN by computing in binary64 |
| C168-C169 | FluidHx.v: hatch, quick disconnect, phase change | cases over reals |
| C170-C171 | FluidCore.v: flow source, capacitor with its node's volumes; density is a function | cases and field identities over reals; Boyle's law and two others refuted |
| C172-C176 | FluidCore.v: pressure source, flow controller, external supply and demand, integrator, island analyzers | cases, induction on steps, frames and islands; refutations by witness |
| C177-C179 | FluidSorb.v: GunnsFluidAdsorber (validate, adsorb, desorb, computeEfficiency, updateFluid), its trace compounds, GunnsFluidHotAdsorber. A fluid is its getters' values | Props_FluidSorb.v: the gain of a step in closed form, bounds by induction on steps, trace compounds cell by cell with the cut-off of C164; five refutations |
| C180-C182 | FluidSorb.v: GunnsFluidAdsorptionCompound::sorb, GunnsFluidMultiAdsorber::updateFluid (throwing is a distinct outcome), GunnsFluidSeparatorGas (derive, updateFluid) | Props_FluidBed.v: the rate as one clamp of a product, the bed by induction on its compounds, the separator by induction on steps; three refutations. Props_FluidTight.v: the diffusion coefficient of C157 in closed form |
| C183-C186 | FluidSources.v: heater, boundary source, H2 redox stack, displacement pumps, pump cavitation; contents of nodes as the values their getters return | Props_FluidSources.v: closed forms over the reals; the fraction of cavitation by induction over any sequence of steps; refutations by witness |
| C187-C189 | FluidSources.v: evaporation, selective membrane, phase change source; saturation pressures and heats of vaporization as arguments | Props_FluidPhases.v: closed forms and balances over the reals; refutations of the membrane's limit and of the sign of its heat by witness |
| C190-C193 | FluidReact.v: reactor, hot reactor, table of reactions, metabolic link; fluids as the values their getters return, compounds of a reactor with distinct fluids | Props_FluidReact.v, Props_FluidCrew.v: extent of reaction in closed form, totals and mass by induction over any sequence of reactions; atoms and weights by computation; refutations by witness |
| C194-C197 | FluidTank.v: edits, shell and pressure rate of tanks, balloons, the separator's liquid link; density functions and the square root as arguments | Props_FluidTank.v, Props_FluidBalloon.v: arrival of rate edits and settling of the filter by induction over steps; the quadratic's root over the reals; refutations by witness |
| C198-C202 | FluidAccum.v: accumulators - chambers, ramps, edits, malfunctions, conductivity, spring, gas chamber; density and enthalpy as functions, the node as its values | Props_FluidAccum.v, Props_FluidAccumEdit.v, Props_FluidAccumGas.v, Props_FluidAccumMore.v: invariant of the chambers over arbitrary step sequences, opening, arrival and end of edits by induction; refutations by witness |
| C203, C204 | Thermostat.v: HtrControl, Thermostat with the sensors of Sensor.v | Props_Thermostat.v: exact conditions for OR and AND, histories by induction, any number type; witness |
| C205-C207 | Detector.v: TsLimitSwitch(Analog), TsFanSpeedSensors, TsOpticSmokeDetector, TsOpenCloseValveAssembly with the sensors of Sensor.v and the controllers of Valve.v | Props_Detector.v, Props_Smoke.v: case analysis over the reals, quiet period and timer by induction; binary32 witnesses |
| C208-C210 | FluidFan.v: GunnsGasFan, GunnsGasFanCurve (the two root finders are arguments), GunnsLiquidCentrifugalPump with the cavitation of FluidSources.v, GunnsFluidPressureHead | Props_FluidFan.v, Props_FanPower.v, Props_Head.v: curves as polynomials by induction over the coefficients, filter by induction, vector identities; witnesses (a root by the intermediate value theorem) |
| C211, C212 | Turbine.v: GunnsGasTurbine with predictConductivity of FluidFlow.v and the curve of FluidFan.v, GunnsDriveShaftSpotter | Props_Turbine.v: exact flow and efficiency over the reals, settling by induction; witnesses |
| C213-C215 | Motor.v: DcDynPumpMotor, TsDcPwmDynMotor, TsPumpMotorController; fmod and sin are arguments | Props_Motor.v, Props_PwmMotor.v, Props_PumpCtl.v: exact laws over the reals, settling and trips by induction; witnesses |
| C216-C217 | HiFi.v: GunnsFluidHiFiOrifice and GunnsFluidHiFiValve; sqrt and pow are arguments | Props_HiFi.v, Props_HiFiValve.v: choked flow as the maximum by concavity, exact laws over the reals, histories by induction; witnesses |
| C218-C220 | DistIf.v: GunnsFluidDistributedIf on top of Bus.v; enthalpy and its inverse are arguments | Props_DistIf.v, Props_DistFlow.v, Props_DistStep.v: volume by induction over frames for every number type, exact flows over the reals; binary64 witnesses |
| C221-C222 | Rocket.v: GunnsFluidSimpleRocket; the combustion model is what it returns in the step, sqrt and pow are arguments | Props_Rocket.v: bracket of the search by induction, monotone area ratio by its derivative, flow by algebra of powers over the reals; Props_RocketFire.v: burn by induction over histories |
| C223-C224 | SuperNet.v: GunnsSuperNetworkBase and the parts of GunnsNetworkBase and GunnsMultiLinkConnector it uses; pointers are numbers | Props_SuperNet.v: layout invariant by induction over calls; Props_Joints.v: joints as connected components, by induction over calls; computed witnesses |
| C225 | FireSource.v: GunnsFluidFireSource with PolyFluid::updateMass for its three gases; temperature, enthalpy and port rules left out | Props_FireSource.v: induction over passes; species balance over the reals; witnesses |
| C226 | MultiSep.v: GunnsFluidMultiSeparator in moles; a read beyond the array of separated fluids is its own outcome; trace compounds, temperatures and phases left out | Props_MultiSep.v: conservation by induction over passes, balance of the source vector for permutations of ports, computed witnesses |
| C227 | RealDiode.v: GunnsElectRealDiode on GunnsBasicPotential, in a linear network given by its open voltage and conductance at the ports | Props_RealDiode.v: algebra over the reals, case analysis on the bias; witnesses |
| C228 | PowerBus.v: PowerBusElect on the loads of UserLoad.v; the plug is whether the bus is sealed | Props_PowerBus.v: induction over loads and steps, bounds over the reals; computed witnesses |
| C229 | Shadow.v: GunnsFluidShadow on a node of pressure, temperature and mass fractions, with the conversions of FluidFlow.v; exceptions of the fluid class left out | Props_Shadow.v: induction over passes; round trip of mixtures over the reals; computed witnesses |
| C230 | Shadow.v: updateState of GunnsFluidJumper and GunnsFluidSocket, after the conductor's step has set the conductivity to the maximum; plugs and sockets enter as whether the hose is sealed | Props_Shadow.v: invariant and induction over steps; C154 for the predicted conductivity; witnesses |
| C231 | ElectIf.v: GunnsElectDistributedIf on the interface of Bus.v; the converter links it owns are what it sets of them; voltages not rounded to float | Props_ElectIf.v: invariants and induction over calls and frames; computed witnesses |
| C232 | Ips.v: choice of the input by GunnsElectIps; failures and the command enter as whether an input may be used | Props_Ips.v: induction over inputs; computed witnesses |
| C233 | Ips.v: confirmSolutionAcceptable, calculateFlow, conductances and computeFlows of GunnsElectIps; displayed input voltages and currents, heat left out | Props_Ips.v: induction over confirmations and inputs; computed witnesses; that the input in use is given up when none may be used is modelled but not stated by a theorem |
| C234 | PvString.v: update and validate of GunnsElectPvString; the ceiling of the shadowed groups as a count; names and messages left out | Props_PvString.v: induction over groups, algebra over the reals; computed witnesses |
| C235 | PvString.v: loadAtPower, loadAtVoltage, loadAtConductance and predictCurrentAtVoltage of GunnsElectPvString | Props_PvString.v: algebra over the reals against an independent curve; computed witness |

## Not modelled

GPU solvers (CUDA), Trick/health-and-status text output, clock timing, memory
allocation and checkpointing, everything not named by a comment in a `.v` file.
