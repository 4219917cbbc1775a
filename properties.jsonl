{"id": "C01", "title": "LDU decomposition reproduces the input matrix", "statement": "If CholeskyLdu::Decompose returns normally on a matrix whose first diagonal entry is positive and whose off-diagonal entries are all <= 0 (every admittance matrix assembled from conductors), then the L, D, U factors left in the array multiply back to the symmetric matrix given by the input's lower triangle, up to the documented 1e-100 flush; when no factor entry lies inside the flush band the product is exact.", "quantifier": "every size n, every real matrix with positive first pivot and non-positive off-diagonals", "why_tests_cant": "unit tests check two fixed 3x3/5x5 matrices; correctness for all n needs induction over rows", "anchors": ["ms-utils/math/linear_algebra/CholeskyLdu.cpp:Decompose(double*,int) 63-110"]}
{"id": "C02", "title": "LDU solve returns the solution of the linear system", "statement": "When CholeskyLdu::Solve returns on an LDU array with non-zero pivots, the returned vector x satisfies L*D*U*x = B; together with Decompose this gives A*x = B for the matrix handed to Decompose.", "quantifier": "every size n >= 1, every LDU array with non-zero diagonal, every right-hand side", "why_tests_cant": "a finite set of matrices does not cover all sizes and all values", "anchors": ["ms-utils/math/linear_algebra/CholeskyLdu.cpp:Solve 223-245, SolveUnitLowerTriangular 301-312, SolveUnitUpperTriangular 366-378"]}
{"id": "C03", "title": "Strictly dominant conductance networks never fail to decompose", "statement": "For every symmetric matrix with non-positive off-diagonals whose diagonal strictly exceeds the sum of the magnitudes of the off-diagonals of its row, Decompose returns normally and every pivot it leaves is positive.", "quantifier": "every size n and every strictly diagonally dominant matrix with non-positive off-diagonals", "why_tests_cant": "absence of an exception over an infinite family of inputs", "anchors": ["ms-utils/math/linear_algebra/CholeskyLdu.cpp:Decompose 63-110"]}
{"id": "C04", "title": "LDU decomposition of a symmetric positive definite matrix", "statement": "Decompose is documented for symmetric positive definite matrices; a normal return should mean that the stored factors multiply back to the input for every such matrix, including those with positive off-diagonal entries.", "quantifier": "every symmetric positive definite matrix", "why_tests_cant": "existing tests only use matrices with non-positive off-diagonals", "anchors": ["ms-utils/math/linear_algebra/CholeskyLdu.cpp:Decompose 63-110 (product skipped unless both factors < -1e-100)"]}
{"id": "C05", "title": "Decompose with a row list equals Decompose of the gathered sub-matrix", "statement": "CholeskyLdu::Decompose(A,n,r) on a strictly increasing row list leaves in the rows and columns of r exactly what Decompose leaves when that sub-matrix is gathered, decomposed and scattered back, and leaves every other entry of A untouched; it throws in the same cases.", "quantifier": "every n, every strictly increasing row list with at least two rows, every matrix", "why_tests_cant": "pointer-stride arithmetic for arbitrary row lists", "anchors": ["ms-utils/math/linear_algebra/CholeskyLdu.cpp:Decompose(double*,int,std::vector<int>&) 134-201"]}
{"id": "C06", "title": "LDU inverse is a two-sided inverse", "statement": "After Decompose and Invert the array holds a symmetric matrix V with A*V = I.", "quantifier": "every n and every LDU array with non-zero pivots and symmetric factors", "why_tests_cant": "all sizes and values", "anchors": ["ms-utils/math/linear_algebra/CholeskyLdu.cpp:Invert 259-282, InvertUnitLowerTriangular 332-347"]}
{"id": "C07", "title": "Admittance matrix is the sum of link contributions", "statement": "After the matrix build, the entry for nodes (i,j) is the sum over all links and port pairs of the contribution whose map index points at (i,j); contributions mapped to ground or out of range are ignored, nothing from the previous build survives, and the result does not depend on the order in which links are listed.", "quantifier": "every network size, every list of links, every admittance map, every previous matrix content", "why_tests_cant": "order-independence and completeness range over all link lists and maps", "anchors": ["core/Gunns.cpp:buildAdmittanceMatrix 1229-1246"]}
{"id": "C08", "title": "Source vector is the sum of link sources", "statement": "After the source build each non-ground node's entry is the sum of the port sources of all links attached to that node, nothing survives from the previous build, ground entries are dropped and link order is irrelevant.", "quantifier": "every network size, every list of links and node maps", "why_tests_cant": "all link lists", "anchors": ["core/Gunns.cpp:buildSourceVector 1342-1359"]}
{"id": "C09", "title": "Row conditioning only regularises zero-sum rows", "statement": "Conditioning changes at most diagonal entries, changes a diagonal only if its row sums to less than machine epsilon in magnitude, and then strictly increases it, by at least eps*1e-15 and at most 1e-15 of max(diagonal, eps); off-diagonals are untouched.", "quantifier": "every size and every matrix", "why_tests_cant": "all matrices", "anchors": ["core/Gunns.cpp:conditionAdmittanceMatrix 1605-1626"]}
{"id": "C10", "title": "Islands are exactly the connected components", "statement": "After an island build two nodes carry the same island number if and only if they are connected through non-zero off-diagonal admittance entries, and the island number is the smallest node index of the component.", "quantifier": "every network size and every symmetric non-zero pattern", "why_tests_cant": "reachability over arbitrary graphs requires an invariant, tests only use tiny graphs", "anchors": ["core/Gunns.cpp:buildIslands 1268-1320, mergeIslands 1328-1335"]}
{"id": "C11", "title": "Island vectors partition the nodes", "statement": "After an island build the island vectors are pairwise disjoint, increasing, cover every non-ground node once, each node's island vector contains that node, and the reported island count and largest island size are the number of non-empty vectors and their maximum length.", "quantifier": "every network size and every admittance pattern", "why_tests_cant": "all graphs", "anchors": ["core/Gunns.cpp:buildIslands 1304-1319"]}
{"id": "C12", "title": "Solving by islands gives the same potentials as solving the whole network", "statement": "With island mode SOLVE the decomposed matrix equals the matrix decomposed in one piece, so the potentials computed are identical to those computed with island mode OFF.", "quantifier": "every network and every island structure", "why_tests_cant": "needs block structure argument for all matrices", "anchors": ["core/Gunns.cpp:buildAndSolveSystem 1007-1038, solveCholesky 1423-1424"]}
{"id": "C13", "title": "Iteration budgets are never exceeded", "statement": "A call of step performs at most the configured number of minor steps and at most the configured number of decompositions, and always terminates, whatever the links do.", "quantifier": "every network, every link behaviour (including adversarial reject/delay/rebuild decisions), every history of steps", "why_tests_cant": "adversarial link behaviour over unbounded histories", "anchors": ["core/Gunns.cpp:iterateMinorSteps 821-948, buildAndSolveSystem 960-1058"]}
{"id": "C14", "title": "Converged means converged", "statement": "In a non-linear network in normal mode without worst-case timing, step reports convergence only if, at the accepted minor step, every node's potential moved by no more than the tolerance since the previous non-rejected minor step (or a link was delaying after such a step) and every non-linear link confirmed.", "quantifier": "every network, every link behaviour, every number of minor steps", "why_tests_cant": "all schedules of confirm/reject/delay answers", "anchors": ["core/Gunns.cpp:iterateMinorSteps 904-936, checkSystemConvergence 1148-1166, confirmSolutionAcceptance 1180-1218"]}
{"id": "C15", "title": "Reject outranks delay outranks confirm", "statement": "The network's decision is reject if any non-linear link rejects, otherwise delay if any delays after at least one converged step, otherwise confirm, independently of link order; links that are linear are never consulted, every non-linear link is consulted exactly once.", "quantifier": "every list of links and every combination of answers", "why_tests_cant": "all permutations and lengths of link lists", "anchors": ["core/Gunns.cpp:confirmSolutionAcceptance 1180-1218"]}
{"id": "C16", "title": "Rejected minor step rolls potentials back", "statement": "When a minor step is rejected the potentials seen by nodes and links after that minor step equal those of the latest earlier minor step that was not rejected in this major step.", "quantifier": "every network, every link behaviour, every sequence of decisions", "why_tests_cant": "history-dependent", "anchors": ["core/Gunns.cpp:iterateMinorSteps 917-921, resetToMinorPotentialVector 1685-1690"]}
{"id": "C17", "title": "Failed major step restores the last accepted potentials and moves no flow", "statement": "If a major step fails to converge, the potentials become those of the end of the previous major step except for nodes overridden by a link, no flow transport and no link output processing happens, and the failure count rises by one.", "quantifier": "every network, every link behaviour, every history", "why_tests_cant": "failure at any point in any history", "anchors": ["core/Gunns.cpp:step 774-792"]}
{"id": "C18", "title": "The factorisation used always belongs to the current admittance matrix", "statement": "Whenever step solves the system in normal mode, the factorised matrix used is the factorisation of the current sum of link admittances.", "quantifier": "every history of steps, mode changes and link updates", "why_tests_cant": "the offending histories need a mode change or exception between two particular steps", "anchors": ["core/Gunns.cpp:buildAndSolveSystem 965-1043"]}
{"id": "C19", "title": "Ground stays at zero", "statement": "After any step that returns outside DUMMY mode (converged or failed) the ground node potential and every link port attached to ground read zero; after a restart the ground node reads zero.", "quantifier": "every network and history", "why_tests_cant": "invariant over histories", "anchors": ["core/Gunns.cpp:outputPotentialVector 1634-1658, restart 661-690"]}
{"id": "C20", "title": "Pause freezes the network", "statement": "In PAUSE mode step changes no potentials, counters or link/node state.", "quantifier": "every state", "why_tests_cant": "every state", "anchors": ["core/Gunns.cpp:step 741-742"]}
{"id": "C21", "title": "Non-finite solutions are not accepted", "statement": "A minor step whose potential vector contains NaN is never reported as converged.", "quantifier": "every network in IEEE double arithmetic", "why_tests_cant": "NaN cases are not in the tests", "anchors": ["core/Gunns.cpp:checkSystemConvergence 1148-1166"]}
{"id": "C22", "title": "Potentials and links agree", "statement": "After every completed minor step and every returning step in NORMAL or SLAVE mode every node's potential and every link port's potential equal the solver's potential of that node, provided link confirm/reset/output callbacks and the flow orchestrator do not themselves write potentials or move ports.", "quantifier": "every network, every history", "why_tests_cant": "invariant over histories", "anchors": ["core/Gunns.cpp:outputPotentialVector 1634-1658"]}
{"id": "C23", "title": "Port mapping stays valid", "statement": "Under any sequence of port-set requests a link's node map only ever holds valid node indices, two ports of one link never share a non-ground node through a run-time request, and a refused request changes nothing.", "quantifier": "every number of ports, every sequence of requests, including refused ones", "why_tests_cant": "unbounded request histories", "anchors": ["core/GunnsBasicLink.cpp:setPort, checkPortRules"]}
{"id": "C24", "title": "Link restart restores the default port mapping", "statement": "After restart every port of a link is mapped to the node given at initialisation, whatever port changes happened before.", "quantifier": "every port count and every history of port changes", "why_tests_cant": "depends on the particular current and default maps", "anchors": ["core/GunnsBasicLink.cpp:restart"]}
{"id": "C25", "title": "Flux transport conserves flux", "statement": "Transporting a link's flux between two ports adds to one node's inflow exactly what it adds to the other node's outflow, for either flux sign, so total inflow minus total outflow over all nodes is unchanged by transport.", "quantifier": "every flux value, every pair of ports, every sequence of links", "why_tests_cant": "all values and lists", "anchors": ["core/GunnsBasicLink.cpp:transportFlux", "core/GunnsBasicNode.cpp:collectInflux/collectOutflux"]}
{"id": "C26", "title": "Fluid bus pair settles into complementary roles", "statement": "Two connected fluid bus interfaces with exactly one pair master, no forced roles, valid data and constant capacitances settle after finitely many frames into one Demand and one Supply role and stay there, for any transport latency.", "quantifier": "every pair of capacitances, every latency in each direction, every starting role pair and channel content", "why_tests_cant": "liveness over all delays and schedules", "anchors": ["ms-utils/interop/Distributed2WayBusFluid.cpp:flipModesOnInput 521-544, flipModesOnCapacitance 550-562, processInputs 472-479, processOutputs 593-599"]}
{"id": "C27", "title": "Fluid bus demand flow limit is bounded", "statement": "The demand flow limit is never negative; its gain lies in [0,1]; limited flow over one step cannot overshoot the equalisation of the two sides' pressures.", "quantifier": "every latency count, every capacitance pair, pressure pair and timestep", "why_tests_cant": "all real inputs", "anchors": ["ms-utils/interop/Distributed2WayBusFluid.cpp:computeDemandLimit 490-515"]}
{"id": "C28", "title": "Forced bus roles are obeyed", "statement": "After a forced role is set, the next input frame puts the interface in that role and no later frame or output call leaves it while the force stays.", "quantifier": "every state, every incoming data stream", "why_tests_cant": "all histories", "anchors": ["ms-utils/interop/Distributed2WayBusFluid.cpp:flipModesOnInput, flipToDemandMode, flipToSupplyMode", "ms-utils/interop/Distributed2WayBusElect.cpp:update 119-179"]}
{"id": "C29", "title": "Bus notifications come out in the order they were pushed", "statement": "popNotification returns queued notifications oldest first and reports the number left.", "quantifier": "every sequence of pushes and pops", "why_tests_cant": "all histories", "anchors": ["ms-utils/interop/Distributed2WayBusBase.cpp:popNotification 168-178, pushNotification"]}
{"id": "C30", "title": "Measured loop latency equals the true round-trip delay", "statement": "With lossless in-order delivery and a fixed delay in each direction the measured loop latency equals the sum of both delays once the first echo has arrived, on both sides.", "quantifier": "every pair of delays and every number of frames", "why_tests_cant": "all delays and unbounded time", "anchors": ["ms-utils/interop/Distributed2WayBusBase.cpp:updateFrameCounts 151-157"]}
{"id": "C31", "title": "Electrical bus never leaves both sides in demand forever", "statement": "Two connected electrical bus interfaces without forced roles never stay both in Demand for longer than the loop latency plus the transport delays.", "quantifier": "every voltage history, every latency", "why_tests_cant": "liveness under all schedules", "anchors": ["ms-utils/interop/Distributed2WayBusElect.cpp:update 119-179"]}
{"id": "C32", "title": "Trips latch", "statement": "Once a trip logic object is tripped it stays tripped through every further check until resetTrip is called or the inhibit malfunction is set, and it reports just-tripped exactly once per latch.", "quantifier": "every sequence of checks with every parameter and converged step", "why_tests_cant": "unbounded histories", "anchors": ["aspects/electrical/TripLogic/GunnsTripLogic.cpp:checkForTrip 70-100"]}
{"id": "C33", "title": "No trip without cause and disabled trips never fire", "statement": "A check trips only if the parameter is on the bad side of the limit and the converged step equals the priority, or trip is forced; with inhibit set, a zero limit or priority below one, no sequence of checks ever trips.", "quantifier": "every history of checks, including NaN parameters", "why_tests_cant": "all histories and float values", "anchors": ["aspects/electrical/TripLogic/GunnsTripLogic.cpp:checkForTrip 70-100"]}
{"id": "C34", "title": "A trip check never weakens the network's decision", "statement": "checkForTrip only ever changes the pending decision from confirm to delay or to reject, or from delay to reject; a fresh trip always yields reject.", "quantifier": "every prior decision, state and input", "why_tests_cant": "all combinations", "anchors": ["aspects/electrical/TripLogic/GunnsTripLogic.cpp:checkForTrip 70-100"]}
{"id": "C35", "title": "A tripped switch stays open", "statement": "After a switch trips it stays open and cannot be closed by command until trips are reset, unless the fail-closed malfunction is active.", "quantifier": "every history of commands, flows and malfunctions", "why_tests_cant": "unbounded histories", "anchors": ["aspects/electrical/Switch/GunnsElectSwitchUtil.cpp:updateSwitchState 380-479, updateSwitchFlow 501-584"]}
{"id": "C36", "title": "Range limiting is sound in double arithmetic", "statement": "limitRange(lo,x,hi) returns a value in [lo,hi] for every double x that is not NaN, returns x when x is in range, is monotone and idempotent.", "quantifier": "every IEEE double including infinities and signed zeros, lo <= hi", "why_tests_cant": "2^64 values", "anchors": ["ms-utils/math/MsMath.hh:limitRange 411-413"]}
{"id": "C37", "title": "Angle wrapping lands in range and preserves the angle", "statement": "Each angle limiting function returns an angle in its documented range that differs from the input by a whole number of turns.", "quantifier": "every real angle", "why_tests_cant": "all reals", "anchors": ["ms-utils/math/MsMath.hh:limitAngle*/anglePi etc."]}
{"id": "C38", "title": "Protected division and roots never produce an exception value", "statement": "The protected math helpers return finite values for every finite input, and equal the plain operation away from the protected region.", "quantifier": "every input value", "why_tests_cant": "all values", "anchors": ["ms-utils/math/MsMath.hh:protected*"]}
{"id": "C39", "title": "Message queue is a bounded FIFO that drops the oldest", "statement": "For every sequence of inserts, removes and resizes by one thread, removed messages are exactly the inserted ones in order, minus the oldest ones dropped on overflow; the size never exceeds the capacity and the overflow count equals the number dropped.", "quantifier": "every capacity and every sequence of operations", "why_tests_cant": "unbounded operation histories with wrap-around", "anchors": ["ms-utils/simulation/hs/TsHsMsgQueue.cpp:insertMsg 152-199, removeMsg 223-247, allocQueue 255-280, reallocQueue 288-325, getSize, getCapacity"]}
{"id": "C40", "title": "One reader and many writers can use the message queue concurrently", "statement": "With one reading thread and any number of writing threads, under every interleaving allowed by the mutex, every removed message was inserted, in order and at most once.", "quantifier": "every interleaving, every number of writers", "why_tests_cant": "schedules cannot be enumerated by tests", "anchors": ["ms-utils/simulation/hs/TsHsMsgQueue.cpp:insertMsg, removeMsg (empty check outside the lock)"]}
{"id": "C41", "title": "Several readers can use the message queue concurrently", "statement": "Under every interleaving of two readers the queue never returns a message that was not inserted and never returns more messages than were inserted.", "quantifier": "every interleaving of two readers", "why_tests_cant": "race window", "anchors": ["ms-utils/simulation/hs/TsHsMsgQueue.cpp:removeMsg 226-229"]}
{"id": "C42", "title": "Rate filter bounds repeated messages", "statement": "With non-decreasing timestamps, for one message text at most the configured count is let through in any closed window of the configured interval while its record is not evicted, and a message below the limit is always let through.", "quantifier": "every message sequence and every configuration", "why_tests_cant": "unbounded histories", "anchors": ["ms-utils/simulation/hs/TsHsMsgStdFilter.cpp:shouldSendMessage 129-226, purgeTimes 80-86"]}
{"id": "C43", "title": "History eviction removes the least recently sent message", "statement": "When the history is full the filter forgets the message whose last sending is oldest, and never crashes.", "quantifier": "every history size >= 1 and every history content", "why_tests_cant": "depends on the map order and on size-one history", "anchors": ["ms-utils/simulation/hs/TsHsMsgStdFilter.cpp:purgeMessages 91-109"]}
{"id": "C44", "title": "Linear interpolation is independent of the call history", "statement": "For an ascending or descending table the value returned for x depends only on x and the table, not on earlier calls, equals the piecewise-linear interpolant, passes through the table points and stays between the neighbouring table values.", "quantifier": "every table of length >= 2, every history of calls, every x in range", "why_tests_cant": "cached cell index depends on unbounded call history", "anchors": ["ms-utils/math/approximation/TsLinearInterpolator.cpp:selectCell 200-223, evaluate 235-241, init 124-183"]}
{"id": "C45", "title": "Every accepted interpolation table is strictly ordered", "statement": "If initialisation of a linear interpolator succeeds, its abscissas are strictly monotone so no division by zero can occur.", "quantifier": "every table", "why_tests_cant": "boundary case of table length", "anchors": ["ms-utils/math/approximation/TsLinearInterpolator.cpp:validateOrdered 89-109"]}
{"id": "C46", "title": "Bilinear tables given in descending order are stored correctly", "statement": "A bilinear table given with descending abscissas behaves as the same table given in ascending order.", "quantifier": "every table size and content", "why_tests_cant": "the tests use one table size; parity of the length matters", "anchors": ["ms-utils/math/approximation/TsBilinearInterpolator.cpp:init 200-233"]}
{"id": "C47", "title": "Bracketing root finder returns a bracketed root", "statement": "If BrentMethod::solve returns, the returned x lies between the two starting points and either the function is zero there or changes sign between x and a point no further away than twice the tolerance; it evaluates the function at most 102 times.", "quantifier": "every function and every starting bracket", "why_tests_cant": "all functions", "anchors": ["ms-utils/math/root_finding/BrentMethod.cpp:solve 63-168"]}
{"id": "C48", "title": "PID output stays inside its limits", "statement": "After initialisation with valid limits, once the controller has updated its output never leaves [low, high] for any input sequence, and between intervals output is held.", "quantifier": "every input and timestep sequence", "why_tests_cant": "unbounded histories", "anchors": ["gunns-ts-models/common/controllers/generic/TsPidController.cpp:update 264-287"]}
{"id": "C49", "title": "Analog sensor output is always in range", "statement": "After any update the sensed output lies within the configured range for every truth input that is not NaN, malfunctions included; the unpowered sensor reads its off value; the perfect-sensor malfunction overrides all other malfunctions.", "quantifier": "every configuration, malfunction combination and history", "why_tests_cant": "combinatorial malfunctions times histories", "anchors": ["gunns-ts-models/common/sensors/SensorAnalog.cpp:update 334-357, processOutput 404-408"]}
{"id": "C50", "title": "Minor step log is a ring of the latest steps", "statement": "The log holds the most recent minor steps in order, at most its size, overwriting the oldest, for every sequence of begin/record calls while recording.", "quantifier": "every log size and every sequence of steps", "why_tests_cant": "wrap-around over unbounded histories", "anchors": ["core/GunnsMinorStepLog.cpp"]}
{"id": "C51", "title": "Segment/triangle and segment/sphere intersection points are on both bodies", "statement": "When an intersection is reported the returned point lies on the segment and on the triangle (in the solid sphere for the sphere test); when it is not reported for a non-grazing segment, no point of the segment is in the body.", "quantifier": "all segments, triangles and spheres", "why_tests_cant": "all real coordinates", "anchors": ["ms-utils/math/intersect/LineSegmentIntersect.cpp:triangle 79-164, sphere 306-364"]}
{"id": "C52", "title": "Segment/cylinder end-cap hits are detected", "statement": "A segment that enters a cylinder through its first end cap is reported as intersecting.", "quantifier": "all segments and cylinders", "why_tests_cant": "tests miss the end-cap configuration that exposes the formula", "anchors": ["ms-utils/math/intersect/LineSegmentIntersect.cpp:cylinder 246-263"]}
{"id": "C53", "title": "A network of passive links always solves", "statement": "If every link contributes a passive conductance pattern (symmetric, non-positive off-diagonals, non-negative row sums), then after assembly and row conditioning the decomposition succeeds with positive pivots and the solve returns potentials whose residual is bounded by the decomposition's flush threshold times their size.", "quantifier": "every network size, every list of passive links, including isolated nodes and floating islands", "why_tests_cant": "ranges over every network; the floating-island case depends on the regularisation of every size of matrix", "anchors": ["core/Gunns.cpp:buildAdmittanceMatrix 1229-1246, conditionAdmittanceMatrix 1605-1626", "ms-utils/math/linear_algebra/CholeskyLdu.cpp"]}
{"id": "C54", "title": "Capacitance requests do not disturb the solution", "statement": "buildAndSolveSystem gives the same node potentials (or the same exception) whatever network capacitances nodes have requested; each request is answered with dt*flux/|perturbed - actual| and cleared, and nodes without a request read zero.", "quantifier": "every network, every set of requests, every prior state", "why_tests_cant": "non-interference over all request sets", "anchors": ["core/Gunns.cpp:perturbNetworkCapacitances 1505-1530, computeNetworkCapacitances 1541-1566, buildAndSolveSystem 960-1058"]}
{"id": "C55", "title": "A requested network capacitance is available after the step", "statement": "A network capacitance requested before a converged NORMAL step with the direct solver is available after the step, as documented for setNetworkCapacitanceRequest.", "quantifier": "every network and number of minor steps", "why_tests_cant": "tests use single-minor-step networks", "anchors": ["core/GunnsBasicNode.hh:436-455, core/Gunns.cpp:1505-1566"]}
{"id": "C56", "title": "The Supply side of a fluid bus transmits the pressure it was given", "statement": "An interface that is in the Supply role before and after processOutputs transmits the pressure last given to setFluidState.", "quantifier": "every state, forced roles included, and every capacitance", "why_tests_cant": "needs a forced role together with a particular capacitance ratio and frame count; the unit tests check roles and not the transmitted value", "anchors": ["ms-utils/interop/Distributed2WayBusFluid.cpp:flipModesOnCapacitance 550-562, flipToDemandMode 567-574, processOutputs 593-599"]}
{"id": "C57", "title": "A tripped trip-logic switch is open", "statement": "GunnsElectSwitchUtil2 is open whenever one of its trips is latched and the fail-closed malfunction is off.", "quantifier": "every history of commands, limits, malfunctions, currents and voltages", "why_tests_cant": "needs particular combinations of two latched voltage trips, or a malfunction set and released while tripped", "anchors": ["aspects/electrical/Switch/GunnsElectSwitchUtil2.cpp:updateState 270-293, updateTrips 303-393"]}
{"id": "C58", "title": "Resistance malfunction is stable", "statement": "With the resistance malfunction active and a constant percentage, every state update gives the same switch resistance.", "quantifier": "every percentage and number of updates", "why_tests_cant": "the unit tests update once per setting", "anchors": ["aspects/electrical/Switch/GunnsElectSwitchUtil.cpp:updateSwitchState 411-418"]}
{"id": "C59", "title": "Over-current protection comes back when the ignore malfunction is released", "statement": "After the ignore-current-trip malfunction is released the switch trips on over-current again, as documented for mConfigDataCurrentProtection.", "quantifier": "every history", "why_tests_cant": "the unit tests rewrite the protection flag themselves", "anchors": ["aspects/electrical/Switch/GunnsElectSwitchUtil.cpp:updateSwitchState 399-403"]}
{"id": "C60", "title": "A lasting trip condition trips", "statement": "A trip condition that persists through converged steps at or beyond the priority trips the object.", "quantifier": "every converged step at which the condition first appears", "why_tests_cant": "needs a condition that first appears after the priority step has passed", "anchors": ["aspects/electrical/TripLogic/GunnsTripLogic.cpp:checkForTrip 70-100"]}
{"id": "C61", "title": "Rounding and quantizing are nearest", "statement": "MsMath::round gives the nearest integer (ties up); quantize gives the nearest multiple of the resolution, for every input, and the sign of the resolution does not matter (documented note).", "quantifier": "every real input and resolution", "why_tests_cant": "only a few values are sampled; the out-of-range conversion is undefined behaviour and the negative-resolution note is untested", "anchors": ["ms-utils/math/MsMath.hh:round 605-609, quantize 630-638"]}
{"id": "C62", "title": "asinh is the inverse hyperbolic sine", "statement": "MsMath::asinh(x) is the inverse hyperbolic sine for every x; in particular it is odd.", "quantifier": "every real x", "why_tests_cant": "the failing region starts near -2^51", "anchors": ["ms-utils/math/MsMath.hh:asinh 654-657"]}
{"id": "C63", "title": "fastPow is exact for integer exponents", "statement": "Over exact arithmetic fastPow(b, n) = b^n for every base and every int n with b^n defined.", "quantifier": "every base and exponent", "why_tests_cant": "infinitely many exponents", "anchors": ["ms-utils/math/MsMath.hh:fastPow 676-731"]}
{"id": "C64", "title": "fastPow gives single precision for every base and exponent", "statement": "The documented single precision accuracy holds for every base and exponent.", "quantifier": "every base and exponent", "why_tests_cant": "only moderate bases are sampled", "anchors": ["ms-utils/math/MsMath.hh:fastPow 676-731"]}
{"id": "C65", "title": "innerLimit leaves no value inside the band", "statement": "innerLimit(lo,x,hi) is never strictly between lo and hi, equals x outside the band, and is the nearer end inside it; the int overload is defined for all ints.", "quantifier": "every double including NaN and infinities, every int", "why_tests_cant": "every pair of limits", "anchors": ["ms-utils/math/MsMath.hh:innerLimit 545-590"]}
{"id": "C66", "title": "Switch position follows command, power, trips and malfunctions", "statement": "After a state update the position of GunnsElectSwitchUtil is given by the documented priority: no power opens, fail-closed, fail-open, trip or waiting holds, else the command; trips clear exactly on power loss, reset or open command; conductance is zero when open.", "quantifier": "every state", "why_tests_cant": "2^9 flag combinations times real values", "anchors": ["aspects/electrical/Switch/GunnsElectSwitchUtil.cpp:updateSwitchState 380-454, initialize 296-369"]}
{"id": "C67", "title": "Switch flow update trips exactly on its limits", "statement": "updateSwitchFlow trips each side exactly when the sensed current crosses its limit at or after the priority step, waits before it, opens exactly when it trips or an external trip is set, and an open switch carries no current.", "quantifier": "every state, current, voltage and step", "why_tests_cant": "combinations of limits, priority and flags", "anchors": ["aspects/electrical/Switch/GunnsElectSwitchUtil.cpp:updateSwitchFlow 501-584"]}
{"id": "C68", "title": "Trip-logic switch trips and auto-resets exactly on its conditions", "statement": "GunnsElectSwitchUtil2 latches each of its four trips exactly when its condition holds at its priority step, opens then, and closes again exactly when the voltage returns inside the reset limit; reset limits never cross trip limits.", "quantifier": "every state, current, voltage and step", "why_tests_cant": "combinations of trips, limits and flags", "anchors": ["aspects/electrical/Switch/GunnsElectSwitchUtil2.cpp:updateState 270-293, updateTrips 303-393, applyConstraints 250-263"]}
{"id": "C69", "title": "getLockFailures counts the messages skipped because of the mutex", "statement": "Under every interleaving getLockFailures equals the number of insertions that gave up because the mutex was held.", "quantifier": "every interleaving, every number of writers", "why_tests_cant": "race window between reading and writing the counter", "anchors": ["ms-utils/simulation/hs/TsHsMsgQueue.cpp:insertMsg 168-172"]}
{"id": "C70", "title": "removeMsg reports an empty queue only when it is empty", "statement": "Under every interleaving of one reader and one writer, removeMsg returns false only if the queue held no message at some moment during the call.", "quantifier": "every interleaving of one reader and one writer", "why_tests_cant": "race window, wrap-around of the ring", "anchors": ["ms-utils/simulation/hs/TsHsMsgQueue.cpp:removeMsg 226-229", "ms-utils/simulation/hs/TsHsMsgQueue.hh:isEmpty 115"]}
{"id": "C71", "title": "Different messages are limited separately", "statement": "Two messages that differ in file, line, subsystem or text do not share a rate limit.", "quantifier": "every pair of messages", "why_tests_cant": "depends on the separator characters inside arbitrary strings", "anchors": ["ms-utils/simulation/hs/TsHsMsgStdFilter.cpp:shouldSendMessage 177-179"]}
{"id": "C72", "title": "Rate filter accounting", "statement": "The processed and suppressed counters equal the number of calls and of held-back messages, a disabled filter lets everything through unchanged, and a call that finds the filter busy is held back and only counted as a lock failure.", "quantifier": "every message sequence", "why_tests_cant": "unbounded histories and thread timing", "anchors": ["ms-utils/simulation/hs/TsHsMsgStdFilter.cpp:shouldSendMessage 129-226"]}
{"id": "C73", "title": "Bilinear interpolation is the bilinear interpolant, whatever was asked before", "statement": "After a successful initialisation with ascending abscissas every look-up returns the value of the bilinear interpolant of the table at the limited arguments, independent of the earlier look-ups.", "quantifier": "every table, every sequence of look-ups", "why_tests_cant": "cached cell indices depend on an unbounded call history", "anchors": ["ms-utils/math/approximation/TsBilinearInterpolator.cpp:evaluate 276-324, init 120-265"]}
{"id": "C74", "title": "An interpolator reports that it is initialised exactly when it is", "statement": "isInitialized returns true after an initialisation that succeeded and false after one that threw.", "quantifier": "every table and interpolator class", "why_tests_cant": "the tests do not look at the flag of the bilinear class", "anchors": ["ms-utils/math/approximation/TsBilinearInterpolator.cpp:init 120-265", "ms-utils/math/approximation/TsLinearInterpolator.cpp:init 124-183"]}
{"id": "C75", "title": "A bilinear interpolator can always be destroyed", "statement": "The destructor is well defined after any sequence of successful and failed initialisations and look-ups.", "quantifier": "every initialisation, successful or not", "why_tests_cant": "needs the memory state after each kind of failure", "anchors": ["ms-utils/math/approximation/TsBilinearInterpolator.cpp:cleanup 86-101, init 120-265"]}
{"id": "C76", "title": "A linear interpolator can be initialised again", "statement": "After a second successful initialisation the look-ups answer as those of a new object with that table.", "quantifier": "every pair of tables, every look-ups in between", "why_tests_cant": "depends on the cell left by the earlier look-ups", "anchors": ["ms-utils/math/approximation/TsLinearInterpolator.cpp:init 124-183, selectCell 200-223"]}
{"id": "C77", "title": "The reverse interpolator limits its argument to the range of the table", "statement": "The range computed at initialisation goes from the smallest to the largest value of the table.", "quantifier": "every table", "why_tests_cant": "depends on the position of the extreme values", "anchors": ["ms-utils/math/approximation/TsBilinearInterpolatorReverse.cpp:init 70-91"]}
{"id": "C78", "title": "Reverse look-up inverts forward look-up", "statement": "On a table strictly monotone in the second variable the reverse look-up of a value at x returns the y at which the forward interpolant has that value, whatever was asked before.", "quantifier": "every such table, every sequence of look-ups", "why_tests_cant": "search over cells from a cached position", "anchors": ["ms-utils/math/approximation/TsBilinearInterpolatorReverse.cpp:evaluate 109-213"]}
{"id": "C79", "title": "A bracketed zero is found", "statement": "BrentMethod::solve returns a zero of every continuous function that changes sign between the two starting points.", "quantifier": "every function and starting interval", "why_tests_cant": "the tests use easy functions on short intervals", "anchors": ["ms-utils/math/root_finding/BrentMethod.cpp:solve 63-168"]}
{"id": "C80", "title": "Neighbouring abscissas of an accepted table differ by at least DBL_EPSILON", "statement": "If initialisation of a linear interpolator succeeds, any two neighbouring abscissas differ by at least DBL_EPSILON.", "quantifier": "every table", "why_tests_cant": "only the gaps at the start of each triple are checked", "anchors": ["ms-utils/math/approximation/TsLinearInterpolator.cpp:validateOrdered 89-109"]}
{"id": "C81", "title": "PID control loses no time", "statement": "Over any sequence of calls the elapsed times of the completed control intervals plus the running timer equal the initial timer plus all time steps, the integral is the initial integral plus the sum of error times elapsed time (up to the flush of values below DBL_EPSILON), and each completed interval moves the output by the three weighted terms and limits it.", "quantifier": "every accepted configuration, every sequence of setInput, setSetpoint and update calls with any time steps, exact reals", "why_tests_cant": "accumulation over unbounded histories", "anchors": ["gunns-ts-models/common/controllers/generic/TsPidController.cpp:264-287"]}
{"id": "C82", "title": "PID integral is bounded when the output is limited", "statement": "While the output is held at a limit the integral does not grow without bound.", "quantifier": "every accepted configuration and history", "why_tests_cant": "windup only shows over long histories", "anchors": ["gunns-ts-models/common/controllers/generic/TsPidController.cpp:264-287"]}
{"id": "C83", "title": "Sensor drift restarts when the malfunction is cleared", "statement": "While the drift malfunction is active the drift is the sum of rate times time step, and clearing the malfunction for an update makes a later activation start from zero drift.", "quantifier": "every configuration and history", "why_tests_cant": "interaction of drift with power and other malfunctions over histories", "anchors": ["gunns-ts-models/common/sensors/SensorAnalog.cpp:440-448", "gunns-ts-models/common/sensors/SensorAnalog.cpp:334-357"]}
{"id": "C84", "title": "A healthy analog sensor reads the converted, scaled and biased truth", "statement": "Without malfunctions and noise the powered sensor output differs from the truth after unit conversion, scale, bias and range limit by at most half its resolution, is exact without a resolution, and is a multiple of the resolution.", "quantifier": "every configuration, conversion function, truth and history", "why_tests_cant": "all real inputs and configurations", "anchors": ["gunns-ts-models/common/sensors/SensorAnalog.cpp:334-357", "gunns-ts-models/common/sensors/SensorAnalog.cpp:518-532"]}
{"id": "C85", "title": "The degraded flag tells whether malfunctions act", "statement": "The degraded flag is set after an update exactly when a malfunction other than ignore-power is active and the sensor is not perfect; a sensor that is neither degraded nor perfect behaves as one without malfunctions.", "quantifier": "every configuration, malfunction record and state", "why_tests_cant": "combinatorial malfunctions", "anchors": ["gunns-ts-models/common/sensors/SensorAnalog.hh:308-313"]}
{"id": "C86", "title": "Minor step log never indexes outside its buffer", "statement": "Whatever sequence of commands, size changes, solver calls and asynchronous writes is made on an initialized log, no call reads or writes outside the ring buffer.", "quantifier": "every log size below 2^31 and every sequence of calls", "why_tests_cant": "unbounded call sequences interleaved with writes", "anchors": ["core/GunnsMinorStepLog.cpp"]}
{"id": "C87", "title": "Minor step log records exactly in its recording states", "statement": "After beginMajorStep the log records if and only if its state is RECORDING_AUTO or RECORDING_SNAP; a log being written to file is never recorded into.", "quantifier": "every sequence of commands and calls", "why_tests_cant": "state machine over unbounded histories", "anchors": ["core/GunnsMinorStepLog.cpp"]}
{"id": "C88", "title": "Auto-recording dumps only failed steps and rows show only their own step", "statement": "In RECORD_AUTO mode a file is written only after a major step that did not succeed, and each row shows values recorded in that step.", "quantifier": "every network and every step result", "why_tests_cant": "depends on solver paths that tests of the log alone do not drive", "anchors": ["core/GunnsMinorStepLog.cpp", "core/Gunns.cpp"]}
{"id": "C89", "title": "Segment/spheroid intersection", "statement": "For different segment ends and non-zero radii a hit is reported exactly when some point of the segment is in the solid spheroid, the point returned is the one nearest the start, and the output argument is left alone when there is no hit.", "quantifier": "all segments and spheroids", "why_tests_cant": "all real coordinates", "anchors": ["ms-utils/math/intersect/LineSegmentIntersect.cpp:spheroid"]}
{"id": "C90", "title": "Segment/cylinder reported points are right", "statement": "When a segment/cylinder hit is reported, the returned point is on the segment, in the solid cylinder, and is the first such point.", "quantifier": "all segments and cylinders", "why_tests_cant": "all real coordinates and scales", "anchors": ["ms-utils/math/intersect/LineSegmentIntersect.cpp:cylinder"]}
{"id": "C91", "title": "Net flux at a node is what the network solution leaves over", "statement": "For a network of basic links (conductors, potentials, flow controllers, external demands, sources, capacitors), after buildSource/buildAdmittance and a flow pass with any node potentials, the sum of fluxes delivered to a node equals the right-hand side minus the admittance row times the potentials; so a solution of the system conserves flux at every node.", "quantifier": "all networks, link parameters, histories and potentials", "why_tests_cant": "unbounded number of links and nodes, all real parameters", "anchors": ["core/Gunns.cpp:buildSystemOfEquations", "core/GunnsBasicConductor.cpp:computeFlows", "core/GunnsBasicLink.cpp:transportFlux"]}
{"id": "C92", "title": "Power balance of the basic links", "statement": "The powers the links report add up to the sum over nodes of potential times net flux, and a conductor-like link never reports generated power.", "quantifier": "all networks and potentials", "why_tests_cant": "unbounded number of links, all real parameters", "anchors": ["core/GunnsBasicLink.hh:computePower", "core/GunnsBasicConductor.cpp:computeFlows"]}
{"id": "C93", "title": "A capacitor's flux is its charge rate", "statement": "The flux a basic capacitor reports at the end of a step, times the step size, is its capacitance times the change of the potential across it, whatever minor steps and trial potentials came in between; over a run the transported flux adds up to the change of stored charge.", "quantifier": "all step sequences and trial potentials", "why_tests_cant": "unbounded runs, all real parameters", "anchors": ["core/GunnsBasicCapacitor.cpp:step", "core/GunnsBasicCapacitor.hh:buildCapacitance"]}
{"id": "C94", "title": "Admittance of a basic link is sound in binary64", "statement": "In every reachable state, with any inputs including NaN and infinities, the four admittance entries of a basic link are numbers of the form (a,-a,-a,a), a conductor's a is within [0, 1e15], and the step stores the new value with the update flag or leaves the matrix and flag alone.", "quantifier": "all call sequences and all binary64 inputs", "why_tests_cant": "2^64 values per input, unbounded sequences", "anchors": ["core/GunnsBasicConductor.cpp:step", "core/GunnsBasicCapacitor.hh:buildCapacitance", "core/GunnsBasicPotential.cpp:step"]}
{"id": "C95", "title": "Flow controller respects its command", "statement": "With the potentials it saw in its step, a flow controller's flux is at most the commanded flux, never against the potential difference, zero for reversed potentials unless reverse flow is enabled, and equal to the command when the default conductivity allows it; the flux never exceeds the command.", "quantifier": "all states, commands, malfunctions and potentials", "why_tests_cant": "all real parameters", "anchors": ["core/GunnsBasicFlowController.cpp:updateState", "core/GunnsBasicConductor.cpp:step"]}
{"id": "C96", "title": "Networks of basic links solve", "statement": "Whatever the conductances, blockages, commands and sources set at run time, a network of basic links decomposes and solves, and with the solution each node's net flux vanishes up to an explicit bound.", "quantifier": "all networks and run-time settings", "why_tests_cant": "unbounded number of links and nodes", "anchors": ["core/Gunns.cpp:stepLinear", "core/GunnsBasicCapacitor.hh:setCapacitance", "ms-utils/math/linear_algebra/CholeskyLdu.cpp:Decompose"]}
{"id": "C97", "title": "External demand estimates the supply's capacitance", "statement": "If the supply behaves as a capacitor drained by a constant flux, the external demand link's capacitance estimate converges to the supply's capacitance and its conductance to capacitance over step size, from any filter state; the conductance is never below the configured minimum and the estimate never becomes a NaN by division by zero.", "quantifier": "all filter states, gains, fluxes and capacitances", "why_tests_cant": "a limit over unbounded runs", "anchors": ["core/GunnsBasicExternalDemand.cpp:updateState"]}
{"id": "C98", "title": "Constitutive laws of the basic links", "statement": "After a step with any potentials tried in between, a conductor's flux is its default conductivity less blockage (limited to [0,1e15]) times the drop, a potential's or external demand's is that conductance times drop plus source potential, a source's is its demand less blockage, independent of the link's history; power is minus flux times drop and a node's through-flux is the smaller of in and out.", "quantifier": "all histories, settings, trial potentials", "why_tests_cant": "history independence over unbounded call sequences", "anchors": ["core/GunnsBasicConductor.cpp:step,computeFlux", "core/GunnsBasicPotential.cpp:step", "core/GunnsBasicSource.cpp:step", "core/GunnsBasicNode.cpp:integrateFlows"]}
{"id": "C99", "title": "The admittance update flag tells the solver of every change", "statement": "Between two polls of needAdmittanceUpdate by the solver, if the second poll answers false the link's admittance matrix is the same as at the first poll, whatever calls and settings came in between; the flag stays up until polled; a conductor with unchanged settings does not raise it.", "quantifier": "all call sequences and numbers, NaN included", "why_tests_cant": "unbounded call sequences", "anchors": ["core/GunnsBasicLink.cpp:needAdmittanceUpdate", "core/GunnsBasicConductor.cpp:buildConductance", "core/GunnsBasicCapacitor.cpp:buildCapacitance"]}
{"id": "C100", "title": "A jumper plug is in the socket it says, and in no other", "statement": "Whatever sequence of plug initializations, request writes by the user, plug updates, socket moves and restarts is performed, including updates that end in an exception, a plug's active connection is the index of the socket that holds it (or none when no socket does), no two sockets hold the same plug, and a socket's hasConnection flag is true exactly when it holds a plug.", "quantifier": "all numbers of plugs and sockets, all socket lists without repetition, all sequences of operations and all request values", "why_tests_cant": "The claim is about every interleaving of requests and exceptions over any number of plugs sharing sockets; tests follow one plug through a few transitions.", "anchors": ["core/GunnsBasicJumperPlug.cpp:142-157", "core/GunnsBasicJumperPlug.cpp:236-310", "core/GunnsBasicSocket.cpp:206-245"]}
{"id": "C101", "title": "Updating a plug disturbs no other plug", "statement": "Updating one plug leaves every other plug's data and connection unchanged, no socket's nodes change, and the plug's list of sockets stays the same, whether or not the update throws.", "quantifier": "all reachable states, all plugs, all requests", "why_tests_cant": "A plug could steal an occupied socket or release someone else's only for particular request combinations among plugs.", "anchors": ["core/GunnsBasicJumperPlug.cpp:142-157", "core/GunnsBasicSocket.cpp:206-245"]}
{"id": "C102", "title": "Connection and disconnection requests", "statement": "With no direct request in force and requests that name sockets or none, an update never throws and clears both requests. A plug in a socket it was not asked to leave stays, on the node it was given. A plug out of any socket, or asked to leave its own, joins the requested socket if no other plug is in it, and takes that socket's node; otherwise it ends up in none, on the ambient node of the socket it left. Two plugs asked to change places in the same step do not: the first one updated finds the socket taken, drops its request and stays out (refutation).", "quantifier": "all reachable states, all request values in range", "why_tests_cant": "All combinations of the two requests, the active connection and the occupancy of the sockets.", "anchors": ["core/GunnsBasicJumperPlug.cpp:236-310"]}
{"id": "C103", "title": "The direct connection request", "statement": "An enabled direct request for a free socket connects the plug there in one update, whatever the other requests hold, even invalid values. A direct request for a taken socket or for none, with no connection request pending, leaves the plug disconnected on the ambient node of the socket it was in. The header says the direct request overrides the separate connect and disconnect controls: it does not when a connection request is pending with a direct request for none, nor when a disconnection request is pending with a direct request for the present socket (refutations).", "quantifier": "all reachable states, all request values", "why_tests_cant": "Depends on the combination of three user-written controls with the occupancy.", "anchors": ["core/GunnsBasicJumperPlug.cpp:196-227", "core/GunnsBasicJumperPlug.hh:97-110"]}
{"id": "C104", "title": "A request that names no socket keeps throwing", "statement": "When a disconnected plug has a connection or disconnection request outside its list of sockets, each later update throws and changes no socket; the request is never cleared. When the bad connection request comes together with a valid disconnection request, the plug leaves its socket but the jumper's port stays on the socket's node, in this and the following updates (refutation of the port being where the plug is).", "quantifier": "all reachable states, all out-of-range values, any number of later updates", "why_tests_cant": "An unbounded number of steps after an exception.", "anchors": ["core/GunnsBasicJumperPlug.cpp:142-181", "core/GunnsBasicJumper.cpp:254-264"]}
{"id": "C105", "title": "The jumper's ports are where its plugs are", "statement": "With an unlocked port map, after each update of the jumper that does not throw, each port is on the node of the socket its plug is in, else on the ambient node of the socket last left, else on its default node, and the admittance-update flag is raised if a port moved. A restart from default ports leaves all plugs in the same sockets and puts the ports on the sockets' present nodes. Neither holds without a restart when the port map is locked, or when a socket has been moved since (refutations).", "quantifier": "all reachable states, any node numbers, any number of plugs", "why_tests_cant": "Relates the state of two plugs, their sockets and the jumper over any history.", "anchors": ["core/GunnsBasicJumper.cpp:193-264", "core/GunnsBasicJumperPlug.cpp:142-157", "core/GunnsBasicLink.cpp:477-503"]}
{"id": "C106", "title": "When a jumper and a socket conduct", "statement": "A jumper's effective conductivity is not zeroed by its plugs exactly when its ports are on different nodes and each self-sealing end is in some socket; a socket is blocked exactly when its seal is on or some plug is in it.", "quantifier": "all reachable states", "why_tests_cant": "Links the derived active-connection data with the real occupancy of the sockets.", "anchors": ["core/GunnsBasicJumper.cpp:226-245", "core/GunnsBasicSocket.cpp:254-259"]}
{"id": "C107", "title": "The flow orchestrator calls every link and node exactly once", "statement": "For every network, whatever the port directions and overflow flags, GunnsFluidFlowOrchestrator::update ends after at most 2*mNumLinks+1 turns of its loop, never throws its escape exception, and calls computeFlows and transportFlows of each link and integrateFlows of each node except ground exactly once.", "quantifier": "all numbers of links, ports and nodes, all port directions, all sets of overflowing nodes", "why_tests_cant": "The loop has no fixed bound and its progress depends on the whole flow graph; tests have three or four nodes.", "anchors": ["core/GunnsFluidFlowOrchestrator.cpp:98-191"]}
{"id": "C108", "title": "The flow orchestrator's order of calls", "statement": "All computeFlows calls come first. No node integrates before all links flowing into it have transported. Links that take only from nodes that do not overflow transport before any node integrates. A link taking from an overflowing node transports after that node has integrated, except for the forced early transports. With no link out of an overflowing node the sequence is exactly all links then all nodes. The class says early transports only break loops of overflowing nodes: refuted, a chain of two overflowing nodes whose downstream link is listed first makes the downstream link take from its node before it is mixed, without any loop; and a single link out of an overflowing node is transported early, with the warning, though nothing is stuck. If the links into each overflowing node are listed before those out of it, the early transports too come after their source nodes.", "quantifier": "all networks", "why_tests_cant": "Order constraints over all flow graphs.", "anchors": ["core/GunnsFluidFlowOrchestrator.cpp:98-281", "core/GunnsFluidFlowOrchestrator.hh:19-61"]}
{"id": "C109", "title": "Composition bookkeeping of a fluid mixture", "statement": "A consistent PolyFluid has constituents whose masses, moles and flows are their fractions of the totals, related by the molecular weights, with fractions adding up to one. setMassAndMassFractions and setMoleAndMoleFractions accept exactly the fractions that add up to one within 1e-4 and leave a consistent mixture of the amount asked for, scaled when off by more than FLT_EPSILON. setMass, setMole, setTemperature, setPressure and setFlowRate keep it consistent; updateMass makes it so from the constituents' masses; initialize does for fractions within FLT_EPSILON of one. For fractions that initialize has to scale it is false: mole fractions, moles and molecular weight come from the unscaled ones.", "quantifier": "any number of constituents, all molecular weights in 1..1000, all fractions and amounts", "why_tests_cant": "Relations between a dozen redundant fields over all compositions; unit tests compare a few mixtures with tolerances.", "anchors": ["aspects/fluid/fluid/PolyFluid.cpp:345-559", "aspects/fluid/fluid/PolyFluid.cpp:688-861", "aspects/fluid/fluid/PolyFluid.hh:580-609"]}
{"id": "C110", "title": "Temperature and specific enthalpy of a mixture invert each other", "statement": "In the range of the specific heat fits of what is present, computeTemperature(computeSpecificEnthalpy(T)) = T while the enthalpy rises with temperature, computeSpecificEnthalpy(computeTemperature(h)) = h, and setTemperature stores the enthalpy at that temperature. In binary64 it fails: where the slopes of the fits cancel (helium with 3 percent nitrogen) the temperature is NaN, near it it is off; outside the range of the fits it is wrong.", "quantifier": "all mixtures and temperatures; the failures are about binary64", "why_tests_cant": "The singular compositions are a surface in the space of mixtures that samples miss.", "anchors": ["aspects/fluid/fluid/PolyFluid.cpp:1159-1212", "aspects/fluid/fluid/PolyFluid.cpp:612-641"]}
{"id": "C111", "title": "Adding a flow to a stream conserves mass, species and energy", "statement": "PolyFluid::addState with a flow of at least DBL_EPSILON adds the flow, the flow of each species and the flow of enthalpy, and leaves a stream with fractions adding up to one, consistent mole fractions and molecular weight, and the temperature of its enthalpy. A flow given that is less than DBL_EPSILON means the source's own flow rate, so a trickle of a large stream is taken for all of it; when the flows cancel the exception leaves the total changed and the constituents not.", "quantifier": "all streams, sources and flows", "why_tests_cant": "Conservation over any composition; the failures need exact magnitudes.", "anchors": ["aspects/fluid/fluid/PolyFluid.cpp:969-1076", "aspects/fluid/fluid/MonoFluid.cpp:232-260"]}
{"id": "C112", "title": "Mixing masses conserves each species", "statement": "GunnsFluidUtils::mixFluidMasses leaves the sum of the masses and of each species' masses and a consistent mixture, when no species is a trace below DBL_EPSILON^2 of the whole; normalize leaves non-negative fractions that add up to one unless nothing is left, and leaves good ones alone.", "quantifier": "all mixtures and masses", "why_tests_cant": "Universal over compositions.", "anchors": ["core/GunnsFluidUtils.cpp:1140-1209"]}
{"id": "C113", "title": "A fluid node with volume keeps account of its mass and species", "statement": "GunnsFluidNode::integrateFlows of a node with volume, whose scheduled outflux does not exceed its contents and whose flows are zero or above the code's thresholds, ends without exception; the mass of the contents is the old one plus influx less outflux over the step, so is the mass of each species, the composition stays consistent, getNetFlux is influx less outflux, the outflow has the enthalpy and composition of the old contents, and the pressure is unchanged.", "quantifier": "all nodes, mixtures, flows and steps with contents and influx of consistent composition", "why_tests_cant": "Universal over reals and numbers of constituents; tests check single cases with tolerances.", "anchors": ["core/GunnsFluidNode.cpp:535-763", "core/GunnsFluidNode.hh:200-345"]}
{"id": "C114", "title": "The temperature of a fluid node is that of its energy", "statement": "After integrateFlows of such a node the specific enthalpy of the contents times their mass is the old energy plus the collected heat less what the outflow took, less the part that goes into the thermal damping mass, its share mass/(contents + mass) of what was not declared undamped, plus the heat of the scaled isentropic expansion of a gas; the damping heat flux is that part over the step.", "quantifier": "all nodes as in C113 with energy above DBL_EPSILON whose new temperature is in the range of the fits", "why_tests_cant": "Universal; involves the inverse of the enthalpy fit.", "anchors": ["core/GunnsFluidNode.cpp:535-763", "core/GunnsFluidUtils.cpp:213-244"]}
{"id": "C115", "title": "A closed fluid network conserves mass, species and energy", "statement": "In a step of a network of nodes with volume and GunnsFluidConductors between them, none on the ground, in which no flow falls between the thresholds of scheduling and transporting, the total mass, the total mass of each species and the total energy are the same before and after, and the nodes are consistent again for the next step.", "quantifier": "all networks, pressures, admittances and steps", "why_tests_cant": "Universal over networks.", "anchors": ["core/GunnsFluidConductor.cpp:317-417", "core/GunnsFluidLink.cpp:245-254", "core/GunnsFluidLink.cpp:370-382", "core/GunnsFluidNode.cpp:384-402", "core/GunnsFluidNode.cpp:484-496", "core/GunnsFluidNode.cpp:535-763"]}
{"id": "C116", "title": "A node without volume passes on what flows in", "statement": "integrateFlows of a node without contents and with an influx gives it the composition, the molecular weight and the temperature of the mixed influx; the flow through is the lesser of influx and scheduled outflux, the net flux the rest, and the outflow has the state of the node. In steady flow the outflow carries the mass and the energy that came in.", "quantifier": "all nodes, mixtures and flows above the thresholds", "why_tests_cant": "Universal over reals.", "anchors": ["core/GunnsFluidNode.cpp:535-763"]}
{"id": "C117", "title": "The pressure correction of a node is cautious", "statement": "computePressureCorrection of a node with volume returns a correction with the sign of the error of the pressure and not larger than it, zero for errors up to 1e-11; the gain stays between DBL_EPSILON and one, is halved when the error changes its sign and otherwise raised by one percent. A node without volume is not corrected.", "quantifier": "all nodes", "why_tests_cant": "Universal over reals.", "anchors": ["core/GunnsFluidNode.cpp:776-823"]}
{"id": "C118", "title": "Changing the volume of a node accounts for the mass", "statement": "initVolume throws for a negative volume and otherwise sets the mass to the density times the volume. Over any sequence of positive volumes given by setVolume the contents stay and the computeCompression fluxes add up to the molar density times the difference of first and last volume. From or to no volume the mass is set and there is no compression flux.", "quantifier": "all nodes and sequences of volumes", "why_tests_cant": "Sequences of any length.", "anchors": ["core/GunnsFluidNode.cpp:293-333", "core/GunnsFluidNode.cpp:452-476"]}
{"id": "C119", "title": "An initialised curve fit gives its curve within its range", "statement": "After an init that returned, get of each of the nineteen classes of curve fits is its documented formula of the coefficients given to init, at the arguments limited to the valid ranges. getExceptional is the formula inside the ranges and throws outside.", "quantifier": "all classes, coefficients, ranges, arguments and earlier states of the object", "why_tests_cant": "Universal over reals and over the history of the object.", "anchors": ["ms-utils/math/approximation/TsApproximation.hh:97-101", "ms-utils/math/approximation/TsApproximation.cpp:117-128", "ms-utils/math/approximation/QuadraticRootFit.hh:94-97", "ms-utils/properties/FluidTsatFit.hh:94-97", "ms-utils/properties/FluidHvapFit.hh:78-81"]}
{"id": "C120", "title": "A curve fit is initialised exactly when its init returned", "statement": "isInitialized is true after an init or a constructor that returned and false after one that threw and after default construction, whatever happened before. Whether init accepts its arguments does not depend on the state of the object; this is false of QuadraticRootFit.", "quantifier": "all classes, arguments, states and number types", "why_tests_cant": "Depends on the history of the object.", "anchors": ["ms-utils/math/approximation/TsApproximation.cpp:80-105", "ms-utils/math/approximation/TsApproximation.cpp:135-138", "ms-utils/math/approximation/QuadraticRootFit.cpp:76-101"]}
{"id": "C121", "title": "No singularity in the range of an accepted fit", "statement": "An accepted fit does not divide by zero and takes no root of a negative number for any argument. True of the fits without singularity and those with one at zero, which are accepted exactly if their range keeps away from it, also in binary64; false of RationalFit, SutherlandFit, QuadLinInvFit and QuadraticRootFit, whose checks look at the wrong places.", "quantifier": "all coefficients, ranges and arguments", "why_tests_cant": "The singularity may lie anywhere in a continuum.", "anchors": ["ms-utils/math/approximation/QuotientFit.cpp:74-94", "ms-utils/math/approximation/RationalFit.cpp:78-110", "ms-utils/math/approximation/SutherlandFit.cpp:69-88", "ms-utils/math/approximation/QuadLinInvFit.cpp:93-131", "ms-utils/math/approximation/QuadraticRootFit.cpp:76-101"]}
{"id": "C122", "title": "Matching fits of a fluid are inverse to each other", "statement": "getPressure inverts getDensity for an ideal gas and for a liquid whose two fits have the same coefficients, getTemperature inverts getSpecificEnthalpy, and getSaturationTemperature and getSaturationPressure invert each other, within the ranges of the fits and where the curve is monotone. A saturation temperature fit accepted for positive pressures is positive.", "quantifier": "all coefficients, temperatures, pressures", "why_tests_cant": "Universal over reals.", "anchors": ["ms-utils/properties/FluidProperties.hh:710-713", "ms-utils/properties/FluidProperties.hh:766-770", "ms-utils/properties/FluidProperties.hh:841-871", "ms-utils/properties/FluidProperties.hh:886-908"]}
{"id": "C123", "title": "The properties of each defined fluid are consistent", "statement": "For every one of the 34 fluids the constructors of all curve fits return, the temperature inverts the enthalpy over the whole range of the specific heat, the pressure inverts the density for pressures from DBL_EPSILON to the maximum (fluids without tables), and the saturation temperature is positive and inverts the saturation pressure. False of the temperature of NTO and MMH, whose enthalpy range ends too early, and of the pressure of liquid oxygen, whose density does not depend on the pressure at some temperature. For the gases the density follows the gas law with the molecular weight of the type.", "quantifier": "all defined fluids, temperatures and pressures in range", "why_tests_cant": "A continuum of temperatures and pressures for each fluid.", "anchors": ["ms-utils/properties/FluidProperties.cpp:379-897", "ms-utils/properties/FluidProperties.cpp:898-1275"]}
{"id": "C124", "title": "The properties of each defined fluid are positive", "statement": "Specific heat, thermal conductivity, Prandtl number and viscosity of every defined fluid are positive and the adiabatic index of every gas is above one, at all temperatures. False of the viscosity of HFE-7000 and liquid hydrogen, and of the adiabatic index of ammonia and methane.", "quantifier": "all defined fluids and temperatures", "why_tests_cant": "A continuum of temperatures for each fluid.", "anchors": ["ms-utils/properties/FluidProperties.cpp:379-897"]}
{"id": "C125", "title": "The heat of vaporization vanishes at the critical temperature", "statement": "getHeatOfVaporization is positive below the critical temperature, zero from it on and, but for hydrogen and helium, does not grow with the temperature. False of NTO, MMH and hydrazine: it is the same for every temperature up to the critical one.", "quantifier": "all defined fluids and temperatures", "why_tests_cant": "A continuum of temperatures for each fluid.", "anchors": ["ms-utils/properties/FluidProperties.hh:923-926", "ms-utils/properties/FluidProperties.cpp:610-640"]}
{"id": "C126", "title": "Derived properties of a mixture follow from its temperature, pressure and composition", "statement": "After initialize and after setTemperature density, viscosity, specific heat, conductivity, Prandtl number and adiabatic index are the sums over the constituents of their properties at the mixture's temperature and their partial pressures, weighted by mole or mass fraction, and the enthalpy is specific heat times temperature. setPressure updates the density only, to the one computeDensity gives. For ideal gases computePressure inverts computeDensity. False of addState: mixing two equal streams at one pressure gives another pressure.", "quantifier": "all mixtures, any number of constituents, any property functions", "why_tests_cant": "A continuum of states and property functions and any number of constituents.", "anchors": ["aspects/fluid/fluid/PolyFluid.cpp:612-671", "aspects/fluid/fluid/PolyFluid.cpp:1226-1266", "aspects/fluid/fluid/PolyFluid.cpp:969-1076"]}
{"id": "C127", "title": "Initializing, editing and copying a mixture does what it says or throws", "statement": "initialize throws exactly if there is no constituent, temperature or pressure is not positive, the fractions are off by more than the tolerance or two constituents that are present have different phases. The edits clip negative values to zero and give the pressure (or the partial pressures) asked for, with the composition that implies. setMass of one constituent throws exactly for a bad index and changes only that constituent. setState throws exactly for different types, keeps masses and moles, and followed by setMass makes an exact copy. resetState zeroes everything but the types.", "quantifier": "all mixtures, temperatures, pressures, masses and indices", "why_tests_cant": "A continuum of values and any number of constituents.", "anchors": ["aspects/fluid/fluid/PolyFluid.cpp:345-559", "aspects/fluid/fluid/PolyFluid.cpp:809-820", "aspects/fluid/fluid/PolyFluid.cpp:870-954", "aspects/fluid/fluid/PolyFluid.cpp:1088-1145"]}
{"id": "C128", "title": "Quaternions, matrices and their rates describe one rotation", "statement": "For every unit quaternion QtoM gives a proper rotation matrix that turns vectors as the quaternion does, whose transpose is its inverse, the same for a quaternion and its negative, and the matrix of a product is the product of the matrices. MtoQ turns every rotation matrix but those of half turns into the one unit quaternion with positive scalar part that has this matrix, and refuses half turns only. normalizeQ keeps the direction and gives length one but for 1e-14. Qdot is the rate of the quaternion of axes turning with the angular velocity: along any solution the length stays and the components of a vector fixed in space move by the transport theorem. False of the binary64 numbers next to half turns, and of the zero quaternion.", "quantifier": "all quaternions, rotation matrices, vectors and angular velocity histories", "why_tests_cant": "A continuum of rotations, and differential equations over all times.", "anchors": ["aspects/dynamics/GunnsDynUtils.cpp:222-405", "aspects/dynamics/GunnsDynUtils.cpp:36", "aspects/dynamics/GunnsDynUtils.cpp:416-448"]}
{"id": "C129", "title": "Euler angles of all six sequences and quaternions convert into each other", "statement": "For each of the six sequences the quaternion computed from Euler angles is of unit length and its matrix is the product of the three elementary rotations in that order. Extracting angles from a unit quaternion gives angles in range whose matrix is that of the quaternion, exactly away from the singularities and within 1e-6 next to them, exactly again at them. It throws only if the sine is out of range by more than 1e-15, never for a quaternion of length at most one. Angles away from the singularities come back unchanged.", "quantifier": "all sequences, angles, quaternions and previous states", "why_tests_cant": "A continuum of angles with six sequences and three branches each.", "anchors": ["aspects/dynamics/GunnsDynEulerBase.cpp:62-133", "aspects/dynamics/GunnsDynEuler123.cpp:45-119", "aspects/dynamics/GunnsDynEuler321.cpp:45-119"]}
{"id": "C130", "title": "The accelerations of a rigid body obey Newton's and Euler's laws", "statement": "With mass and an invertible inertia the six equations have exactly one solution. The matrix always is that of the latest mass properties and the quaternion rate that of the angular velocity. For every body of particles described by the mass properties the computed accelerations change its momentum as the sum of the forces says, and without offset of the centre of mass its angular momentum as the sum of the torques says, with the power of the torques. False with an offset: a force through the centre of mass makes the body turn. Invalid mass properties are accepted and valid ones refused, and initializing twice leaves a zero matrix.", "quantifier": "all mass properties, particle bodies, forces, torques, velocities and histories of updates", "why_tests_cant": "A continuum of bodies and motions, any number of forces, torques and updates.", "anchors": ["aspects/dynamics/GunnsDynSingleRigidStateDeriv.cpp:95-326", "aspects/dynamics/GunnsDynSingleRigidMassProps.cpp:109-141"]}
{"id": "C131", "title": "One integration pass leaves quaternion, matrix, Euler angles and speed consistent", "statement": "Whatever the integrator returns, as long as the quaternion is not zero: position, velocity and angular velocity are what it made of the velocity, the acceleration turned into the inertial frame, the quaternion rate and the angular acceleration; the quaternion is a positive multiple of the integrated one with length one but for 1e-14, the matrix is that of the quaternion and within 3e-14 of a rotation, the matrix of the Euler angles within 1.1e-6 of the same rotation, in any sequence; the Euler extraction does not throw; the angular speed is the length of the angular velocity and times its unit vector gives it back unless the body has all but stopped.", "quantifier": "all integrators, sequences, states and accelerations", "why_tests_cant": "A continuum of states and arbitrary integrators; the bound on the Euler angles must hold next to the singularities.", "anchors": ["aspects/dynamics/GunnsDynSingleRigidEom.cpp:209-292"]}
{"id": "C132", "title": "A fluid node hands out no more than it has", "statement": "Whatever outflow is asked of a fluid node with volume in a time step, what leaves it is taken first from its contents and then from the inflow of that step; neither part is more than there is, the overflow flag says exactly whether the contents fall short, and all that was asked for leaves if contents and inflow together suffice. The node's mass changes by inflow minus these two parts (but stays at the smallest mass), its net mass and heat flow are those of the same two parts, and its isentropic expansion goes from the pressure before the network's solution to the pressure after it.", "quantifier": "for all contents, inflows, requested outflows, time steps and networks of conductors", "why_tests_cant": "The overflow branches are reached only when a solver error makes links ask for more than a node holds; a test reaches a few such states, and whether mass and heat are accounted for the same way in all of them is a statement about all amounts.", "anchors": ["core/GunnsFluidNode.cpp:535-763", "core/GunnsFluidNode.hh:337-340", "core/GunnsFluidNode.cpp:378-393"]}
{"id": "C133", "title": "Dynamics array functions under overlap", "statement": "The vector and matrix functions of the rigid body dynamics give the result that the arrays had before the call would give, and write nothing but the result, under these overlaps: the product of two matrices however the three arrays overlap; a matrix (or its transpose) times a vector if the result does not overlap the matrix, however it overlaps the vector; the cross product however its arrays overlap; copy, scale, sum and difference if each input starts at or after the result or ends before it; the quaternion rate if its first element is not part of the inputs. Outside these conditions the result can be wrong: a shifted sum, a product written over its matrix, and a rate written over its quaternion.", "quantifier": "for all memories, array positions and sizes, and for any number type including binary64", "why_tests_cant": "The documentation allows the result array to be an input for some of the functions; tests call them with a few concrete arrangements of arrays of size 3 or 4.", "anchors": ["aspects/dynamics/GunnsDynUtils.cpp:45-110", "aspects/dynamics/GunnsDynUtils.cpp:120-175", "aspects/dynamics/GunnsDynUtils.cpp:205-233", "aspects/dynamics/GunnsDynUtils.cpp:474-509"]}
{"id": "C134", "title": "Valve positions stay in range", "statement": "After any sequence of malfunction changes, setPosition and manual commands and updates following its initialization, an update leaves a valve controller's position within the configured minimum and maximum, sets the lower and upper limit flags exactly when the position is at that end, the stuck flag exactly when a stuck or fail-to malfunction is on, and the fluid position on the configured line through the two ends limited to 0..1. Initialization accepts exactly the named controllers with rising fluid positions and a position (and a manual position, if manual) in range; it also accepts equal minimum and maximum positions, whose fluid position is NaN.", "quantifier": "for all configurations, sequences of operations and commands; the range also in binary64", "why_tests_cant": "A test tries a few sequences of commands; the range must hold after all of them, for every binary64 command, and the missing check shows only for an odd configuration.", "anchors": ["gunns-ts-models/common/controllers/fluid/TsValveController.cpp:188-297", "gunns-ts-models/common/controllers/fluid/TsValveController.hh:253-270"]}
{"id": "C135", "title": "What decides a valve's position and its load", "statement": "A valve controller's position is decided by, in this order: the stuck malfunction, the fail-to malfunction, the manual handle, and the drive; the drive's by the drive's stuck malfunction, its fail-to malfunction, the loss of power or enable (which moves it to what the latch type says), and the command. Its load is none without power, the holding power without a command, the stuck power when it is stuck or driven against its end, and the moving power otherwise, with the resistance of that power. A controller that interrupts its command at the ends never draws the stuck power if its sensors see the ends. A T valve opens the path selected and closes the other, a dual solenoid valve follows its single energized solenoid or else its latch type, and a boolean sensor reports by its order of malfunctions. The handle of an open/close valve overrides its command, but not with the end-of-travel interruption on.", "quantifier": "for all states, malfunctions, commands and time steps", "why_tests_cant": "The combinations of malfunctions, power states, latch types, signs and ends are too many for a table of examples.", "anchors": ["gunns-ts-models/common/controllers/fluid/TsPoweredValveController.cpp:322-408", "gunns-ts-models/common/controllers/fluid/TsOpenCloseValveController.cpp:83-144", "gunns-ts-models/common/controllers/fluid/TsSpeedValveController.cpp:81-129", "gunns-ts-models/common/controllers/fluid/TsTValveController.cpp:166-193", "gunns-ts-models/common/controllers/fluid/TsDualSolenoidValveController.cpp:222-266", "gunns-ts-models/common/sensors/SensorBooleanBi.cpp:181-198"]}
{"id": "C136", "title": "How far a valve travels", "statement": "A sound powered valve that is driven in one direction by any commands for any durations is where the sum of command times duration takes it, and stops at its end; from its closed end at the reference command it is open exactly when the configured transit time has passed, however it is cut into steps. A position controller whose sensor is right moves the valve towards the target and not beyond it, and after the time it takes to get there the valve is there or nearer than the tolerance.", "quantifier": "for all sequences of commands and time steps (reals)", "why_tests_cant": "The travel is over a whole sequence of updates; tests look at one.", "anchors": ["gunns-ts-models/common/controllers/fluid/TsPoweredValveController.cpp:234-276", "gunns-ts-models/common/controllers/fluid/TsPoweredValveController.cpp:337-372", "gunns-ts-models/common/controllers/fluid/TsPositionValveController.cpp:185-199"]}
{"id": "C137", "title": "Toggle commands are counted by their edges", "statement": "The count of a toggle command goes up by the number of rising edges of the toggle flag among the samples with the enable flag, and it makes no difference whether the samples come one at a time or in queues. A sound latching toggle valve at one of its ends with a transit time not longer than its range is at the other end after an odd number of toggles and at the same end after an even number. With a longer transit time one toggle leaves it half way and a second one does not bring it back.", "quantifier": "for all sequences of samples and queues of any lengths", "why_tests_cant": "Edges across queue boundaries, disabled samples and parities combine over sequences of any length.", "anchors": ["gunns-ts-models/common/controllers/fluid/TsToggleValveCmd.cpp:48-99", "gunns-ts-models/common/controllers/fluid/TsToggleValveController.cpp:82-135"]}
{"id": "C138", "title": "Thermal capacitors keep the heat they are given", "statement": "Whatever temperatures the network finds, the capacitance times the change of a thermal capacitor's temperature is the heat it takes from the network plus that of its external fluxes over the step. A capacitor whose temperature is overridden ignores its external fluxes. A heat queue with values sets its external flux to their mean, which brings the heat of the values each held for an equal part of the step, and an empty queue leaves its flux as it was.", "quantifier": "for all temperatures, capacitances above the smallest, time steps, external fluxes, solutions and queues of any lengths", "why_tests_cant": "The balance is over any network solution and over queues of any length.", "anchors": ["aspects/thermal/GunnsThermalCapacitor.cpp:220-284", "aspects/thermal/GunnsThermalCapacitorHeatQueues.cpp:155-178", "ms-utils/software/SimBus/SimBusQutils.cpp:49-78", "core/GunnsBasicCapacitor.cpp:200-300"]}
{"id": "C139", "title": "The phase change battery stores what it is given as long as its phase stays the same", "statement": "A battery of one phase that does not pass the temperature of its phase change stores all heat in its temperature and keeps its phase fraction; one of both phases stores all heat in its phase fraction as far as there is material, and its temperature differs from that of the phase change by a millionth of its power. When it passes that temperature the material's sensible heat beyond it becomes latent heat. A leak takes only hot material, no more than there is and than the leak rate, and never all. The heat of the structure beyond the temperature of the phase change is lost at the passage.", "quantifier": "for all batteries in working order, temperatures, heat fluxes, time steps and leak rates", "why_tests_cant": "The balances hold over a continuum of states; the loss shows over two steps around the passage.", "anchors": ["aspects/thermal/GunnsThermalPhaseChangeBattery.cpp:184-452"]}
{"id": "C140", "title": "Thermoelectric devices obey the first law for constant Seebeck coefficients", "statement": "The heat that a thermoelectric device gives to its two nodes and the electric power it gives out make up the power lost in its resistance if its Seebeck coefficient does not depend on temperature; if it does, the Thomson heat is missing. The thermal conductance and the voltage are those of the properties averaged over the range between the temperatures, but at equal temperatures the dependence on temperature is left out. The end plates act in series with the device.", "quantifier": "for all coefficients, temperatures, currents, malfunction scales and solutions", "why_tests_cant": "The balance and the averages are identities over real parameters.", "anchors": ["aspects/thermal/GunnsThermoelectricEffect.cpp:160-325", "aspects/thermal/GunnsThermoelectricDevice.cpp:177-232"]}
{"id": "C141", "title": "Heat sources, panels and radiation hand out the heat they stand for", "statement": "An accepted heat source hands its flux out to its ports up to 1.1 per cent, none getting less than nothing or more than the flux; an override replaces the flux of a blocked source too. A panel that absorbs starts with the heat flux of its configuration and absorbs no more than falls on it, but one that absorbs nothing is accepted and has a flux that is not a number. Radiation between different temperatures is that of the difference of their fourth powers, never flows from cold to hot and not through a blocked link; but from equal temperatures the conductance is wrong and ignores the view factor.", "quantifier": "for all numbers of ports, fractions, fluxes, temperatures, view factors and conductivities", "why_tests_cant": "The shares are over any number of ports and the radiation law over a continuum of temperatures.", "anchors": ["aspects/thermal/GunnsThermalSource.cpp:247-392", "aspects/thermal/GunnsThermalPanel.cpp:140-200", "aspects/thermal/GunnsThermalMultiPanel.cpp:240-255", "aspects/thermal/GunnsThermalRadiation.cpp:190-210"]}
{"id": "C142", "title": "A battery gives out what its cells lose", "statement": "A cell's state of charge never leaves nought to one. When no cell runs empty or full, the charge of all cells together falls by exactly the battery's current times the time, open and shorted cells losing nothing; a cell never gives or takes more than its share of the current. The battery's open circuit voltage times its current is the power it delivers plus the heat of its resistance, a blocked battery delivers nothing, and series and parallel resistances and voltages follow the circuit laws. An accepted battery starts with the configured charge and capacity. But an empty cell among charged ones takes a share it was not counted for, so charging creates charge, and a battery of empty cells can never be charged again.", "quantifier": "for all numbers of cells, states of charge, malfunctions, currents, open circuit voltage tables and time steps", "why_tests_cant": "The charge balance is over any number of cells and a continuum of currents; the dead battery is a statement about all later steps.", "anchors": ["aspects/electrical/Batt/GunnsElectBattery.cpp:136-417", "aspects/electrical/Batt/GunnsElectBatteryCell.cpp:173-313"]}
{"id": "C143", "title": "Thermal runaway empties a cell in its duration and spreads at its interval", "statement": "A cell in runaway under any discharge is empty by the end of the configured duration when its voltage does not rise as it empties; with a constant voltage and no current its charge after n steps is exactly the quadratic of the ramp, and its heat is the energy its charge loses beyond the current. In a battery the cells start to run away one after another, the i-th after i intervals (each rounded up to whole steps). Turning the malfunction off ends every cell's runaway when an interval is under way, but not when it is turned off just as an interval has ended: then the cells run away for ever.", "quantifier": "for all durations, intervals, time steps, numbers of cells, numbers of steps, currents and voltage tables", "why_tests_cant": "The emptying time and the cascade are about arbitrarily many steps; the release fault needs one particular step.", "anchors": ["aspects/electrical/Batt/GunnsElectBattery.cpp:246-272", "aspects/electrical/Batt/GunnsElectBatteryCell.cpp:213-246"]}
{"id": "C144", "title": "A converter output delivers what its regulator stands for and accounts for the energy", "statement": "After a minor step the output side of a converter delivers, at any potential p: nothing if it is disabled, has no input voltage or has tripped; a voltage or transformer regulator (or one held at a voltage limit) delivers max(0,(v-p)G), nothing while reverse biased, with v its setpoint, setpoint times input voltage or the limit and G the conductance left by the blockage; a current or power regulator (or one held at the current limit) delivers its amperes less p times the small conductance 2^-23. It never takes current in. The power it asks of the input side times its efficiency is the delivered power plus the channel loss I^2/G, the reported loss is the difference and is not negative; for an unblocked voltage regulator this is v times the current. A power regulator meeting the resistance it has seen delivers setpoint/(1+R 2^-23)^2. Refuted: with a blockage the energy does not balance, because the channel loss uses the unblocked conductance.", "quantifier": "all real states, potentials, setpoints, regulator types, limit states, blockages", "why_tests_cant": "regulators, limits, malfunctions, potentials and loads combine without bound, and the energy identity is between computed quantities that tests compare at a few points only", "anchors": ["aspects/electrical/Converter/GunnsElectConverterOutput.cpp:382-506", "aspects/electrical/Converter/GunnsElectConverterOutput.cpp:804-830", "aspects/electrical/Converter/GunnsElectConverterOutput.hh:486-528"]}
{"id": "C145", "title": "How often converters reject a network solution, and what an accepted solution means", "statement": "In one major step an output side by itself rejects at most 5F+6 solutions, F the limit on state flips, and a linked pair whose output link comes first rejects at most 5F+13, whatever the potentials, sensors and other links do. A solution accepted by a limiting converter that has flips left and whose current is valid respects the limit that belongs to its state. Refuted: (a) when the input link comes first, one rejection by any other link can make the pair reject the same acceptable solution for ever; (b) when one of two linked sides is on Ground the other rejects every solution after the first; (c) just after a rejection the limit is looked at with an old current, so a solution far above the current limit is accepted.", "quantifier": "all sequences of passes of the solver, potentials, sensor functions, flips limits; witnesses in binary64", "why_tests_cant": "termination over all sequences of minor steps is a liveness bound no finite set of runs shows; the failures depend on the order of links and on converging at once after a rejection", "anchors": ["aspects/electrical/Converter/GunnsElectConverterOutput.cpp:516-760", "aspects/electrical/Converter/GunnsElectConverterInput.cpp:446-523", "core/Gunns.cpp:821-932"]}
{"id": "C146", "title": "A converter input draws the power its load needs, and a pair balances", "statement": "The input side never feeds its node and presents no conductance. When it runs and its node is above both the smallest number and 0.99 of the under-voltage limit, current times voltage times efficiency is exactly the power asked for, and the reported loss is the difference; below that it draws the current for 0.99 of the limit, so less power; disabled, tripped or overloaded it draws nothing. The efficiency stays in [epsilon, 1]. After the minor steps of a pair both sides hold the same power and the same input voltage, whichever leads, and the power taken in is the power delivered plus the two losses. A configuration is accepted exactly when the limits are in order and the efficiency table is in [epsilon,1] at the eleven points 0, 0.1 .. 1 with a reference power. Refuted: a wholly blocked input with an under-voltage limit draws more than 10^15 A for one watt.", "quantifier": "all real states, efficiency tables, potentials, powers, limits, blockages; agreement for any number type", "why_tests_cant": "constant power loads are nonlinear and the exchange between the sides depends on the order of calls; tests look at single states", "anchors": ["aspects/electrical/Converter/GunnsElectConverterInput.cpp:207-285", "aspects/electrical/Converter/GunnsElectConverterInput.cpp:334-436", "aspects/electrical/Converter/GunnsElectConverterInput.cpp:534-543"]}
{"id": "C147", "title": "User loads draw what they are asked for, and their numbers agree", "statement": "A step of a resistive or constant power load: at or below its under-voltage limit, or commanded off, it draws no current and no power and shows 1e8 ohm; a healthy resistive load above the limit shows its resistance for the mode and draws by Ohm's law; a constant power load draws exactly the power of its mode; a current or power override is met exactly, and a negative one ends the step with an exception. Always power = voltage times current, the current is not negative, the resistance is positive and the current seen through it exceeds the reported one by at most v/1e8. Validation accepts only powers or resistances in range. Refuted: a load that is off draws nothing from the network (it draws v/1e8).", "quantifier": "all real voltages, modes, overrides, malfunctions and states", "why_tests_cant": "tests step a few loads at a few voltages; the resistances are found from powers and limits by cases", "anchors": ["aspects/electrical/UserLoad/UserLoadBase.cpp:212-393", "aspects/electrical/UserLoad/ResistiveLoad.cpp:211-360", "aspects/electrical/UserLoad/ConstantPowerLoad.cpp:196-310"]}
{"id": "C148", "title": "The duty cycle of a user load", "statement": "With a positive period the load is on while the cycle timer is at most fraction times period and off after, and the timer stays in [0, period]; without a period nothing is commanded. Stepped with a constant step the timer is periodic in N steps, N the least number of steps longer than the period, and in every N consecutive steps the load is on in exactly K, which differs from fraction*N by at most one. Refuted: the share of on steps is the fraction (6 of 11 for 1/2 of 10 s at 1 s); a fraction of zero keeps the load off (on in one step each cycle).", "quantifier": "all real periods, fractions, steps; all starting steps", "why_tests_cant": "an exact share over every window of every cycle is a statement about unboundedly many steps", "anchors": ["aspects/electrical/UserLoad/GunnsElectUserLoad.cpp:124-137"]}
{"id": "C149", "title": "A short circuit malfunction draws the configured power or current", "statement": "A constant power short has the conductance that draws the magnitude of its power at the present voltage, a constant current short likewise, a resistance short the inverse resistance, in that order of precedence, and without malfunction it is zero; conductances are not negative. The initial-power and initial-current shorts take their conductance at the first step and keep it at any later voltages. Refuted for negative initial powers, which follow the voltage.", "quantifier": "all real voltages, malfunction values, and sequences of later voltages", "why_tests_cant": "precedence of five malfunctions and the latched value over a sequence", "anchors": ["aspects/electrical/resistive/GunnsShortUtil.cpp:151-197"]}
{"id": "C150", "title": "The load switch balances its circuit", "statement": "In a minor step a closed switch gives its loads the source voltage less the drop of the last current over the switch, never negative, and an open one gives them nothing and does not conduct. When the solver's current agrees with the admittance given, the source voltage is the switch drop plus the load voltage, the current is the load voltage times the conductances of the loads, the short and 100 epsilon, and so is shared by them. After the flows the link reports drop times admittance as its current and as its power the current times the voltage left for the loads. With no loads the closed switch is a plain resistor between its ports, or conducts 1e-15 when its second port is ground.", "quantifier": "all real states, all lists of loads", "why_tests_cant": "the fixed point couples the solver, the switch and every load", "anchors": ["aspects/electrical/Switch/GunnsElectUserLoadSwitch.cpp:193-436"]}
{"id": "C151", "title": "Fuses of switched loads", "statement": "A fuse blows exactly when it has a limit, is whole, and the source voltage over the resistance exceeds the limit; only the first load that blows is changed and the solution is rejected, so an accepted solution has no load over its limit. A blown fuse stays blown, and its load idle at zero volts, over any sequence of steps, fuse checks and commands other than a reset. Refuted: a fuse does not blow while the load's current is below the limit (the test uses the source voltage instead of the load's, so the switch's drop is not seen). A reset makes the fuse whole and changes nothing else.", "quantifier": "all real states, lists of loads, sequences of events", "why_tests_cant": "latching over unbounded event sequences and a condition on all loads of a list", "anchors": ["aspects/electrical/UserLoad/UserLoadBase.cpp:383-393", "aspects/electrical/Switch/GunnsElectUserLoadSwitch.cpp:308-345"]}
{"id": "C152", "title": "Overriding the loads of a switch", "statement": "Without override a minor step keeps the link a pure conductor with no source. With override the loads get the override voltage, port 0 is left alone, port 1 sees 1e8 times the override voltage behind a conductance of 1e8, the switch is commanded open, and the reported current is 1e8 times the difference of override and port 1 potential. Refuted: after the override ends the link is a conductor again (the 1e8 at port 1 stays for ever while the switch stays open, with no source: it grounds the node and reports no current).", "quantifier": "all real states; any number of minor steps after the release", "why_tests_cant": "needs an invariant over the matrix left behind by an earlier mode", "anchors": ["aspects/electrical/Switch/GunnsElectUserLoadSwitch.cpp:209-300", "aspects/electrical/Switch/GunnsElectUserLoadSwitch.hh:237-241"]}
{"id": "C153", "title": "The selector connects one port at a time", "statement": "After any sequence of calls ending in a step the admittance matrix of the selector is that of one conductor between port 0 and the selected port, zero elsewhere, and zero altogether when the selection is out of range; the conductance is the default less the blockage, zero when tiny and at most 1e15. The flux after the step is Ohm's law on the connected ports, none when disconnected. Between two polls of the admittance flag, if the second answers no the matrix is unchanged or zero. Refuted: a no means unchanged (disconnecting zeroes the matrix without telling the solver); the flux is computed on the ports the matrix connects (not when the selection moves between step and flows).", "quantifier": "all port counts, all sequences of calls, real values; the flag for any number type", "why_tests_cant": "the matrix keeps entries of earlier selections unless cleared; only an invariant over call sequences excludes leftovers", "anchors": ["aspects/electrical/Switch/GunnsElectSelector.cpp:159-365"]}
{"id": "C154", "title": "A fluid conductor passes the flow of its equation", "statement": "The molar admittance computed for two fluids satisfies: admittance times the linearised pressure drop times the flow's molecular weight is the mass flow conductivity*(density*dp)^exponent; it is zero without conductivity, drop or molecular weight, linear in the conductivity, and never negative. The conductivity predicted for a mass flow gives that mass flow. A step puts that admittance for the conductivity left by the blockage, within [0, limit], in the network and raises the flag exactly for a change; each tuning mode sizes the maximum conductivity for its flow once and switches itself off; tuned to a mass flow between fluids of equal molecular weight the link reports exactly that flow, downhill. The flux never runs against the pressures and is admittance times drop except below the round-off threshold where it is zero. Capacitance is not negative and for density linear in pressure is slope*volume/MW. Refuted: the tuned flow is met for different molecular weights (2/3 of the target for 20 and 40).", "quantifier": "all real fluids, conductivities, exponents, states", "why_tests_cant": "an exact inverse of a power law with clamps and modes, over all fluids", "anchors": ["core/GunnsFluidUtils.cpp:76-151", "core/GunnsFluidUtils.cpp:161-198", "core/GunnsFluidUtils.cpp:266-298", "core/GunnsFluidConductor.cpp:230-435"]}
{"id": "C155", "title": "Expansion cooling is between none and isentropic", "statement": "The outlet temperature of an expanding gas is the mixture, by the scale factor, of its temperature and the isentropic one, so it lies between them; liquids and unpressurised sources keep their temperature. The scale factor predicted for a temperature drop is in [0,1] and applied gives that drop, or the most the expansion can. Refuted in binary64: the factor is a number (equal pressures and no drop asked for give NaN).", "quantifier": "all real fluids, pressures, scale factors; a binary64 witness for every power function that is exact at 1", "why_tests_cant": "an inverse through a power function over a continuum of gases", "anchors": ["core/GunnsFluidUtils.cpp:213-244", "core/GunnsFluidUtils.cpp:318-345"]}
{"id": "C156", "title": "Convection and conduction of heat in fluids", "statement": "Convection brings the fluid to the wall's temperature by the factor exp(-min(UA/(m cp),100)): it ends between its own and the wall's temperature, gives off exactly its loss of enthalpy, to a colder wall and from a hotter one, and nothing without flow or conductance. Conduction between two fluids passes area times difference over the sum of lengths by conductivities, from the hot one, antisymmetric, and is refused for bad lengths.", "quantifier": "all real fluids, flows, walls and enthalpy functions", "why_tests_cant": "bounds on an exponential for all flows and any monotone enthalpy", "anchors": ["core/GunnsFluidUtils.cpp:693-727", "core/GunnsFluidUtils.cpp:775-796"]}
{"id": "C157", "title": "Diffusion between two mixtures", "statement": "Each constituent's diffusive mass is a common nonnegative mobility times its molecular weight times the difference of its fractions, so each goes to where its fraction is lower, equal mixtures exchange nothing, and the moles crossing both ways balance. Bulk flow leaves of the diffusion what exceeds it upstream. A net flow above round-off carries to the node exactly each constituent's diffusive mass. Refuted: diffusion goes on until the mixtures are equal (constituents whose masses balance are not carried at all).", "quantifier": "all lists of constituents, real fluids, areas and bulk flows", "why_tests_cant": "a statement on sums over arbitrary mixtures", "anchors": ["core/GunnsFluidUtils.cpp:829-993", "core/GunnsFluidLink.cpp:202-256"]}
{"id": "C158", "title": "Conversions of mixtures", "statement": "Mole to mass fractions, mass to mole fractions and partial pressures to mole fractions each give proportions that add up to one, each the weighted one; converted there and back a mixture is itself; an empty mixture leaves the output as it was. A transform map sends each type to its index in the output, or to the conversion type, or nowhere, and is refused exactly when the conversion type is missing or nothing maps. The transformed fractions are the sums of what is sent, normalised, total one.", "quantifier": "all lists of fractions, molecular weights, types and maps", "why_tests_cant": "round trips and sums over lists of any length", "anchors": ["core/GunnsFluidUtils.cpp:390-453", "core/GunnsFluidUtils.cpp:487-511", "core/GunnsFluidUtils.cpp:1028-1127"]}
{"id": "C159", "title": "Valves, their leaks, and check valves", "statement": "A valve's conductivity is the greater of its share of the maximum and its leak. A leak is sized when it is switched on or changed: with the valve shut the flow equation then gives the leak rate; it is kept until changed; without malfunction it is zero. A check valve not failed moves, within [0,1] and no faster than its rate, to the opening of its pressure drop, which is full at the open pressure, shut at the close pressure, linear between and never less for more drop; at constant drop it is exactly there after enough steps; stuck it stays, failed it is at its failed position. Refuted: a leak switched on leaks (never, at whatever later pressures, when switched on at equal pressures); it passes its rate for any pressure exponent (100 times for exponent 1 at 10 kPa).", "quantifier": "all real fluids, configurations, positions, numbers of steps, sequences of later states", "why_tests_cant": "rate-limited motion over any number of steps and a leak latched for ever", "anchors": ["aspects/fluid/conductor/GunnsFluidValve.cpp:261-284", "aspects/fluid/conductor/GunnsFluidPressureSensitiveValve.cpp:608-628", "aspects/fluid/conductor/GunnsFluidCheckValve.cpp:213-274"]}
{"id": "C160", "title": "Three-way valves", "statement": "For an accepted configuration the paths' openings are in [0,1], the selected path is full open at its end and the other shut, the flag swaps them, without a non-mixing band they add up to one, with one they are never both open and both shut exactly in the band. A three-way check valve keeps its place when neither path can feed it and otherwise moves no faster than its rate to favour the path with the greater drop: half within the minimum difference, full at path A's open pressure, monotone. Refuted: path B is full open at its own open pressure (mOpenPressureB is not used).", "quantifier": "all real configurations, positions and drops", "why_tests_cant": "exclusion of overlap for every band width and position", "anchors": ["aspects/fluid/conductor/GunnsFluid3WayValve.cpp:246-333", "aspects/fluid/conductor/GunnsFluid3WayCheckValve.cpp:223-318"]}
{"id": "C161", "title": "The leak link", "statement": "Without malfunctions there is no leak and nothing is remembered. From no leak on, with a hole, whatever areas it is set to in turn, the conductivity is the hole's area; with a leak rate the flow equation gives that rate at that moment and the conductivity is kept. Refuted: a hole opened and closed over a leak rate leaves the rate's leak as it was (it stays the size of the hole). While one malfunction leaks the other's last size is remembered; refuted: a hole left for a rate and returned to has its own size again.", "quantifier": "all real fluids and rates, all sequences of holes", "why_tests_cant": "what is remembered of one malfunction while another is on shows only in sequences", "anchors": ["aspects/fluid/conductor/GunnsFluidLeak.cpp:227-278"]}
{"id": "C162", "title": "Relief and regulator valves follow their hysteresis", "statement": "The opening and holding curves run from shut at crack and reseat pressure through the pop position to full open, monotone, the holding one never below. In any state a valve that has not failed moves at its rate towards an opening between the two curves at the control pressure. From shut or full open on, for every history of pressures and steps the position is exactly that of the ideal hysteresis: kept while between the curves, else moved to the nearer curve at the rate. At full open pressure it is full open, and at reseat pressure shut, after enough steps, from any state. Stuck it stays; failed it is at its failed position. The control pressure is the sensed difference with offset, less set pressure and trim. Regulators likewise with falling pressures. Refuted: a valve initialised part open between its curves keeps its opening.", "quantifier": "all accepted configurations, all real pressure and step histories, all states", "why_tests_cant": "a five-state machine with two inverse curves, compared with its ideal over unbounded histories", "anchors": ["aspects/fluid/conductor/GunnsFluidReliefValve.cpp:269-530", "aspects/fluid/conductor/GunnsFluidRegulatorValve.cpp:271-533", "aspects/fluid/conductor/GunnsFluidPressureSensitiveValve.cpp:400-413"]}
{"id": "C163", "title": "The balanced pressure regulator", "statement": "It regulates to set pressure plus reference plus malfunction offset, at most the inlet pressure. Back pressure shuts it until the exit is below the set pressure; shut or at the regulated pressure nothing flows out, and else the exit pressure droops by its rate per unit of flow; a blockage takes its part. The inlet takes a fifth of what the buffer is owed in the step, never more than the limit. When the flows are not trifling and the buffer stays owed, its change is what was given less what was taken. The flag is clear exactly when no conductance changed. Refuted: mass is kept when the inlet pressure rises in the step (takes 2 for an owed 1); a trickle below round-off is not booked; the solver is told of a port move.", "quantifier": "all real states, pressures and fluids", "why_tests_cant": "the books over the two flows and the latch for all pressures", "anchors": ["aspects/fluid/conductor/GunnsFluidBalancedPrv.cpp:220-365"]}
{"id": "C164", "title": "Trace compounds are carried with the moles of their fluid", "statement": "Moving n moles from one fluid to another takes from the source and gives to the sink, of every compound, n times its fraction times its molecular weight, so its mass is kept, except that a compound whose fraction in the sink is below the rounding threshold is dropped, which is less than eps*moles*MW. The resulting fraction is the mean of the two by moles; draining leaves fractions alone; given rates change masses by rate times time down to nothing. Masses and fractions agree after every update, and the updates leave a state in agreement as it is. A fluid without moles keeps its fractions while its masses are limited to zero. Set up is refused exactly for compounds that cannot be told apart or negative fractions, and then starts in agreement. A compound found by type or name is the only one with it.", "quantifier": "all real moles, rates, fractions, all lists of compounds", "why_tests_cant": "conservation over lists of any length and every amount", "anchors": ["aspects/fluid/fluid/GunnsFluidTraceCompounds.cpp:300-393", "aspects/fluid/fluid/GunnsFluidTraceCompounds.cpp:438-477", "aspects/fluid/fluid/GunnsFluidTraceCompounds.cpp:636-736"]}
{"id": "C165", "title": "A heat exchanger gives its walls what its fluid loses", "statement": "Each segment's coefficient is its default times the segment's degradation, else the exchanger's, within [0, default]. Without override the total gain is the sum of the segments' and is exactly the flow times the fluid's loss of enthalpy; the fluid leaves within the range of its own and the walls' temperatures, and each segment's heat goes to the colder side, at most down to the wall's temperature. Without flow or time step nothing happens. Reverse flow through the segments in reverse is forward flow. With a temperature override the fluid enters each segment and leaves at it. Set up is refused exactly without segments, coefficient or temperature and shares the coefficient; setters change only existing segments and keep temperatures at or above zero. Refuted: mDeltaTemperature is the change across the exchanger for reverse flow (fluid passing unchanged is reported 100 K cooled).", "quantifier": "all real fluids, flows, monotone enthalpies, lists of segments of any length", "why_tests_cant": "a telescoping sum and an invariant over any number of segments and any fluid", "anchors": ["aspects/fluid/conductor/GunnsFluidHeatExchanger.cpp:171-443", "aspects/fluid/conductor/GunnsFluidHeatExchanger.hh:151"]}
{"id": "C166", "title": "Heat transfer coefficients that follow the flow", "statement": "The coefficient is c0 + c1*m^e, the flow limited to 10 kg/s and the exponent to [0.05, 20], times the degradation, within [0, limit]; it does not depend on the direction of flow, never falls with more flow or less degradation, and is constant beyond 10 kg/s. A segment's own degradation counts first, within [0,1]. Set up without curves per segment shares the curve so that the segments together have it at every flow; it is refused exactly for exponents out of range, limits too small, or a wrong number of curves.", "quantifier": "all real curves, flows, degradations, numbers of segments", "why_tests_cant": "monotonicity of a power law with clamps over the continuum of flows", "anchors": ["aspects/fluid/conductor/GunnsFluidHxDynHtc.cpp:68-76", "aspects/fluid/conductor/GunnsFluidHxDynHtc.cpp:235-323"]}
{"id": "C167", "title": "A condensing heat exchanger keeps its books", "statement": "Latent plus sensible heat is the total and the sum over the segments; the outflow is the inflow less the condensate; without forward flow all are zero. A dry segment gives m*cp*(tin-tout) with tout between fluid and wall. Condensation starts only when the dry flow would get below its dew point and the wall is below it. Then the latent heat is the condensate's heat of vaporisation, the condensation temperature is between the dew point and the limited wall temperature, and condensate has the sign of their difference. The segments' coefficients add up to the curve times the degradation factor. Forward the exit node gets what is left, backward all is passed on. Refuted: the condensation rate is never negative (below 273.15 K the wall is taken as warmer than it is); in binary64 the heats are numbers when the exchanger is degraded to nothing (0/0).", "quantifier": "all fluids given by their getters, all saturation curves rising between dew point and wall, lists of segments", "why_tests_cant": "four nested iterations through arbitrary saturation curves", "anchors": ["aspects/fluid/conductor/GunnsFluidCondensingHx.cpp:327-514"]}
{"id": "C168", "title": "Hatches and quick disconnects", "statement": "A hatch between nodes with volumes, none of them Ground, in a step of more than round-off, takes from one node the conducted heat it gives the other, from the hot one to the cold one; mirrored it does the opposite. It diffuses only below 0.01 kPa of pressure and 20 K of temperature difference. Else it does nothing, and lengths of no extent are refused. A disconnected quick disconnect does not conduct, a connected one as it is configured.", "quantifier": "all real states and lengths", "why_tests_cant": "antisymmetry and thresholds over all states", "anchors": ["aspects/fluid/conductor/GunnsFluidHatch.cpp:36-37", "aspects/fluid/conductor/GunnsFluidHatch.cpp:254-291", "aspects/fluid/conductor/GunnsFluidSimpleQd.cpp:230-237"]}
{"id": "C169", "title": "Phase change conductors", "statement": "What is taken from one node is given to the other, in the direction of the flow. Without efficiency there is no wall heat and the fluid keeps its temperature. Else it leaves saturated, and the wall's heat is the efficiency's part of the enthalpy lost, latent heat included, or zero: it goes only to a wall no hotter than the exit and comes only from one no colder, and is not zeroed otherwise. Refuted: at full efficiency the wall gives what the fluid gains (with the wall too cold the heat is shut off and the liquid evaporates all the same).", "quantifier": "all real states, properties and efficiencies", "why_tests_cant": "the sign logic for every wall, flow and property function", "anchors": ["aspects/fluid/conductor/GunnsFluidPhaseChangeConductor.cpp:307-371"]}
{"id": "C170", "title": "A fluid source moves the flow it is asked for", "statement": "The molar flux is the demand, less the blockage, over the molecular weight of the node it leaves (of the other if that is Ground), or of the internal fluid; the source vector takes from port 0 what it gives port 1; the mass flow is the flux times the supplying node's weight, so without an internal fluid it is the demand, and the volume flow times the density is the mass flow. Below round-off weight nothing flows. The flux is scheduled out of the node it leaves only. A blockage within [0,1] leaves that much. Refuted: a blockage never reverses the flow (above 1 it does); with an internal fluid the mass moved is the demand (it is scaled by the ratio of the weights).", "quantifier": "all real demands, weights, densities, blockages, Ground at either port", "why_tests_cant": "signs, Ground and weights combine over the continuum", "anchors": ["core/GunnsFluidSource.cpp:183-284", "core/GunnsFluidLink.cpp:370-382"]}
{"id": "C171", "title": "A fluid capacitor obeys the gas law", "statement": "A step applies an edited volume once and without compression, puts capacitance over time step (at least epsilon) in the network, raising the flag exactly for a change, adds the pressure correction unless disabled, and at the solved pressures the flux is what the pressure change stores less what the changes of volume and temperature make room for; negative volumes are refused. For an ideal gas the capacitance is V/(RT) and the solved pressure is given in closed form; in a step of 1 s a sealed gas keeps pressure times volume. Refuted: it keeps it in any step (the compression, in moles, is not divided by the time step: halving the volume in 0.1 s gives 110 kPa from 100).", "quantifier": "all real states, volumes, time steps, density functions", "why_tests_cant": "an identity between the linearised network equation and the gas law for every state and step", "anchors": ["core/GunnsFluidCapacitor.cpp:263-380", "core/GunnsFluidNode.cpp:404-475", "core/GunnsFluidUtils.cpp:161-198"]}
{"id": "C172", "title": "Pressure sources and flow controllers", "statement": "A pressure source's flux is conductance times (p0+ps-p1). A flow controller's conductivity stays in [0, max], ignores the command's sign, uses the malfunction value instead of the command, closes on reversed pressure unless enabled, and converges geometrically to its target; with gain 1, the square-root law, and like fluids the flow is the one commanded, in the direction of the pressure drop. Refuted: it converges to any target above epsilon (a step below epsilon is cut off); the flow is the commanded one for any configured exponent (the prediction always uses 0.5).", "quantifier": "all real fluids, commands, gains, numbers of steps", "why_tests_cant": "induction on steps and an inverse of the flow equation", "anchors": ["core/GunnsFluidPotential.cpp:190-210", "core/GunnsFluidFlowController.cpp:211-240"]}
{"id": "C173", "title": "The supply end of an external connection takes one flow", "statement": "The molar and the mass flow of a step are the same flow of the fluid it is made of: the node's outwards, the demand's inwards. A molar demand above epsilon comes first and is met; else a mass demand is; less than 100 epsilon is exactly none.", "quantifier": "all real demands and positive weights", "why_tests_cant": "nine ordered thresholds over two real demands", "anchors": ["core/GunnsFluidExternalSupply.cpp:336-379"]}
{"id": "C174", "title": "The demand end of an external connection is stable", "statement": "The conductance is the supply's capacitance over the time step where known, otherwise the estimate but no less than the minimum. With the capacitance known, one exchange takes a supply node of that capacitance to the demand node's pressure and never past it. The averages of flux, supply pressure and its change halve their distance each step, and then the error of the estimated capacitance shrinks by the gain.", "quantifier": "all real states, gains and time steps", "why_tests_cant": "stability of a coupling between two networks for every step and capacitance", "anchors": ["core/GunnsFluidExternalDemand.cpp:404-454"]}
{"id": "C175", "title": "A flow integrator adds up the mass that flowed", "statement": "After any number of steps each constituent's integrated mass is its initial one plus the sum over the steps of the flow times the time step times its fraction in the node the flow came from; all together they are the mass that flowed.", "quantifier": "all lists of frames, all real flows and fractions", "why_tests_cant": "induction on the frames", "anchors": ["core/GunnsFluidFlowIntegrator.cpp:178-221"]}
{"id": "C176", "title": "Island analyzers report their island", "statement": "Of the island of the attached node, and of no other, the analyzer reports size, membership, sums over its nodes, and the highest and lowest value with the last node of the island that has it. Attached to no node or Ground it reports nothing. The constituents' masses are together the mass. Refuted: some node is always reported (not for values beyond 1e15).", "quantifier": "all islands and values", "why_tests_cant": "induction on the island", "anchors": ["core/GunnsBasicIslandAnalyzer.cpp:178-243", "core/GunnsFluidIslandAnalyzer.cpp:224-382"]}
{"id": "C177", "title": "An adsorber keeps its books and its bounds", "statement": "In a step longer than epsilon the bed gains max(0, min(what flows past times efficiency, maximum rate times dt, room left)) when adsorbing, and gives back max(0, min(held, -efficiency times rate times dt)) when desorbing; the sorption rate is minus that over dt, and above 100 epsilon it is given to the node downstream in mass and in moles. With an efficiency in [0,1] no more is taken than flows past; after any sequence of steps the mass held is between nothing and the capacity. Refuted: the source vector is the sorption rate in moles (it is not cleared when sorption stops, so the network goes on losing moles once the bed is full); an efficiency malfunction of 1/2 slows desorption (it stops it); no malfunction takes more than flows past.", "quantifier": "all real configurations and states, all sequences of steps", "why_tests_cant": "min/max of continuous limits; persistence of a stale value across steps", "anchors": ["aspects/fluid/source/GunnsFluidAdsorber.cpp:310-349", "aspects/fluid/source/GunnsFluidAdsorber.cpp:373-528"]}
{"id": "C178", "title": "Trace compounds in an adsorber", "statement": "With a forward flow the bed gains of each trace compound, over a step, what the stream behind it carries less of (but for what falls below the cut-off); the share kept is the efficiency times the free fraction of the capacity, in [0,1], nothing once full. Refuted: in reverse flow the bed gains too (the flux is negative: the bed loses mass, below zero, and the stream is unchanged); the capacity is kept to (one long step overshoots it).", "quantifier": "all real flows, beds and compounds", "why_tests_cant": "sign of the flux and the explicit step over the continuum", "anchors": ["aspects/fluid/source/GunnsFluidAdsorber.cpp:438-460", "aspects/fluid/fluid/GunnsFluidTraceCompounds.cpp:636-663"]}
{"id": "C179", "title": "A hot adsorber turns round with its temperature", "statement": "The efficiency is bias plus scale times temperature, limited to [-1,1], or the malfunction's; its sign picks desorption or adsorption and the step is that of the plain adsorber. Without malfunction the bed stays between nothing and its capacity, gives back no more than its rate and takes no more than its rate or what flows past.", "quantifier": "all real configurations, temperatures and states", "why_tests_cant": "the limits cross over continuously with temperature", "anchors": ["aspects/fluid/source/GunnsFluidHotAdsorber.cpp:226-237"]}
{"id": "C180", "title": "A compound in an adsorption bed", "statement": "The rate is what partial pressure, temperature and flow ask for (desorption below the desorption pressure or at negative efficiency, else efficiency times what flows past), times the tapers, the dependency and the malfunction, kept within what is held and the room left; heat is minus the heat of adsorption times the molar rate. The slowing factors multiply to a fraction in [0,1], so a fluid is taken no faster than it flows past and given back no faster than its rate. The mass held follows the rate to within epsilon and stays within its capacity; the fill fraction is mass over capacity. Refuted: a trace compound can be updated at any flow (without flow its index is used as a fluid's and the update throws).", "quantifier": "all real configurations and states", "why_tests_cant": "product of conditional factors, powers and limits over the continuum", "anchors": ["aspects/fluid/source/GunnsFluidAdsorptionCompound.cpp:207-241", "aspects/fluid/source/GunnsFluidAdsorptionCompound.cpp:257-343", "aspects/fluid/source/GunnsFluidAdsorptionCompound.hh:155-158"]}
{"id": "C181", "title": "A bed of several compounds", "statement": "Each compound sorbs at the mean conditions along the bed; one that depends on an earlier compound sees its fill fraction after its step, on a later one before. All stay within their capacities. The fluids' total sorption leaves the node downstream in mass and moles, below 100 epsilon the source is cleared; the heat is the wall's plus all the compounds'. When some fluid is sorbed, each trace compound leaves the stream at its sorption rate. Refuted: it does so always (a bed of trace compounds alone gains mass that stays in the stream).", "quantifier": "all beds (any number of compounds), streams and states", "why_tests_cant": "induction on the list of compounds", "anchors": ["aspects/fluid/source/GunnsFluidMultiAdsorber.cpp:292-381"]}
{"id": "C182", "title": "The gas side of a water separator", "statement": "The liquid held becomes what is left after draining plus what is separated, the overdraw goes to the error, and liquid less error changes by separated less drained. What condenses is the least of what flows past and what the drum's speed removes, none in reverse flow or below saturation; the drum keeps what it has room for and overflow is flagged exactly when it keeps less. It is taken out of the node at port 1, and the source is cleared otherwise. After any sequence of steps the liquid is between nothing and the capacity and the error never falls. A full drum at the reference speed gives the reference pressure and removal rate. Refuted: liquid is only lost by draining (more than the capacity at the start is accepted, and the excess vanishes at the first condensation).", "quantifier": "all real configurations and states, all sequences of steps", "why_tests_cant": "induction on steps over continuous limits", "anchors": ["aspects/fluid/source/GunnsFluidSeparatorGas.cpp:229-281", "aspects/fluid/source/GunnsFluidSeparatorGas.cpp:306-345", "aspects/fluid/source/GunnsFluidSeparatorGas.cpp:356-423"]}
{"id": "C183", "title": "The heater and the boundary source", "statement": "A heater gives to the node at port 1 power times efficiency times (1 - blockage) and takes the same from the node at port 0; an efficiency is accepted exactly in [0,1]. A boundary's flow is the demand, or in override the sum of the overriding rates, negated when the sign is flipped, times (1 - blockage); flux times molecular weight is that flow; a boundary of trace compounds only moves no bulk fluid and gives the node flow times each trace rate. In override each constituent arrives at its own rate. Refuted: a full blockage stops an overriding boundary (its trace compounds and its heat still reach the node).", "quantifier": "all real flags, rates and blockages", "why_tests_cant": "products over the continuum; the combination of five flags", "anchors": ["aspects/fluid/source/GunnsFluidHeater.cpp:179-256", "aspects/fluid/source/GunnsFluidSourceBoundary.cpp:260-471"]}
{"id": "C184", "title": "The hydrogen fuel cell", "statement": "Unless starved of a reactant or tripped before, the stack turns hydrogen at current times rate times cells (over the efficiency when discharging, times it when charging), a half of oxygen and one of water per mole; the sources are none at port 0 and the oxygen's at port 1; voltage is cell voltage times cells, heat is the reaction heat times the moles of water. A starved stack trips: no reaction, no voltage, and the trip holds through any further steps. The efficiency is in [epsilon,1]. The mass rates sum to minus the hydrogen mole rate times 2e-5. Refuted: mass is conserved (the molecular weights of H2, O2 and H2O as defined do not add up); a stack on standby with both reactants stays ready (at zero current it checks for water, trips on dry hydrogen and stays off).", "quantifier": "all real configurations, currents and pressures, all sequences of steps after a trip", "why_tests_cant": "continuous thresholds; induction over steps", "anchors": ["aspects/fluid/source/GunnsFluidSimpleH2Redox.cpp:277-403", "ms-utils/properties/FluidProperties.cpp:113-121"]}
{"id": "C185", "title": "Displacement pumps", "statement": "The impeller turns at the motor's speed over the ratio (keeps its speed when disconnected); sixty times the volume flow is impeller speed times cycle volume, with a check valve only when that is positive; the mass demand is the volume flow times the density at the end drawn from and has the sign of the speed. Power is 1000 times |volume flow times pressure drop|, and torque times the motor's speed in rad/s is minus the power.", "quantifier": "all real configurations and speeds", "why_tests_cant": "equations over the continuum", "anchors": ["aspects/fluid/source/GunnsGasDisplacementPump.cpp:291-344", "ms-utils/math/UnitConversion.cpp:1129-1130"]}
{"id": "C186", "title": "Cavitation of a pump", "statement": "The cavitated fraction stays in [0,1]; it grows under full cavitation (malfunction, or inlet below vapor pressure) and falls otherwise, each step by at least a fifth and at most twice the step's part of the duration. Under the malfunction the pump delivers nothing after five times its duration, whatever the inlet does; with no cause left it delivers all again after five times the last duration. Noise of partial cavitation never reverses a pump and is gone once the duration has passed. Refuted: noise only disturbs the flow (on a pump turning backwards the least noise stops the flow).", "quantifier": "all sequences of steps of any length, all inlet conditions and noises", "why_tests_cant": "convergence over unboundedly many steps with a square root", "anchors": ["aspects/fluid/potential/GunnsPumpCavitation.cpp:70-160", "aspects/fluid/source/GunnsLiquidDisplacementPump.cpp:251-258"]}
{"id": "C187", "title": "Evaporation from a pool", "statement": "The vapor rate is max(0, saturation less partial pressure) times coefficient times pool^exponent less the blockage, limited so that the liquid it takes in a step is no more than the pool; it is never negative, none at or above saturation, none when wholly blocked. Moles leaving the liquid node are the moles joining the vapor node, and the masses are those moles times the molecular weights.", "quantifier": "all real pools, pressures and steps", "why_tests_cant": "limits and a real power over the continuum", "anchors": ["aspects/fluid/source/GunnsFluidEvaporation.cpp:300-445"]}
{"id": "C188", "title": "The selective membrane", "statement": "The rate is none when the two ends of the stream disagree in direction, else coefficient times the partial pressure difference (upstream when outward, limited to 99 hundredths of what the stream brings; downstream when inward), less the degradation. Unless the upstream difference is exactly none and the downstream one outward, it flows the way both ends say and within that limit. Sources and masses of the three nodes sum to zero. Phase change happens exactly when one side is saturated and not the other, with heat 1000 times heat of vaporization times rate. Refuted: the limit always holds (a stream with none of the compound, beside an outside with none, is made to give it up because the downstream node has some); the documented sign of the heat (reversed for inward flow).", "quantifier": "all real pressures, rates and saturation states", "why_tests_cant": "a boundary case of measure zero; signs over all branches", "anchors": ["aspects/fluid/source/GunnsFluidSelectiveMembrane.cpp:316-412", "aspects/fluid/source/GunnsFluidSelectiveMembrane.cpp:490-552"]}
{"id": "C189", "title": "The phase change source", "statement": "The power used is input times efficiency less the blockage; boiling rate times (enthalpy rise plus latent heat) is that power, and condensing likewise with a negative power; the rate is bounded by power over FLT_EPSILON. Mass and moles leave one node for the other.", "quantifier": "all real powers and enthalpies", "why_tests_cant": "equations over the continuum", "anchors": ["aspects/fluid/source/GunnsFluidPhaseChangeSource.cpp:319-381", "aspects/fluid/source/GunnsFluidPhaseChangeSource.cpp:440-474"]}
{"id": "C190", "title": "Chemical reactions in a reactor", "statement": "One reaction goes to an extent of n kmol, the least of 0.9999 of the reagent and min(0.9999, efficiency) of the reactant in units of its stoichiometry; every compound gains n times its net mass per kmol, whatever roles it has, and the heat n times 10^6 times the heat of reaction. No total goes below zero through any sequence of reactions; the sum of all masses changes by n times the imbalance of the reaction, so not at all for any sequence of balanced reactions. The efficiency is the configured or the defined one, times the reagent's mass where so configured, and of the hot reactor the linear function of temperature limited to [0,1]. A total of reactant or reagent left below epsilon is cleared, otherwise exact.", "quantifier": "all lists of compounds, all sequences of reactions, all real ratios, weights and totals", "why_tests_cant": "induction over reactions; continuum of states", "anchors": ["aspects/fluid/source/GunnsFluidReactor.cpp:537-610", "aspects/fluid/source/GunnsFluidReactor.cpp:726-742", "aspects/fluid/source/GunnsFluidHotReactor.cpp:195-206"]}
{"id": "C191", "title": "What a reactor does to its nodes", "statement": "With a flow above FLT_EPSILON the compounds found in the flow of the step are taken in and react; the rates of products and reactants are the sums of the masses made and used over the step, not negative and not positive. The node the fluid flows to gains the flow, plus products, less reactants, and the moles of the source vector are those rates over their weights; the other node loses the flow. The heat of reaction is flow times step times the rise in specific enthalpy. Refuted: an exothermic reaction warms the fluid (for backward flow it cools it); the sources stop with the flow (the source vector of the last step stays).", "quantifier": "all real flows, rates and steps, all lists of compounds and reactions", "why_tests_cant": "signs over both directions; a stale vector only after flow stops", "anchors": ["aspects/fluid/source/GunnsFluidReactor.cpp:490-528", "aspects/fluid/source/GunnsFluidReactor.cpp:619-654", "aspects/fluid/source/GunnsFluidReactor.cpp:711-715", "aspects/fluid/source/GunnsFluidReactor.cpp:758-811"]}
{"id": "C192", "title": "The defined chemical reactions", "statement": "Each of the seven defined reactions has the same number of atoms of every element on both sides. Products less reactants weigh exactly nothing for the removal of CO, CH4 and NH3 and the synthesis of LiOH-H2O. Refuted: every reaction conserves mass (with the defined molecular weights H2 removal makes 4e-5, Li2CO3 formation 2e-5 and the Sabatier reaction 8e-5 kg per kmol).", "quantifier": "all defined reactions", "why_tests_cant": "exact rational arithmetic rather than a tolerance", "anchors": ["ms-utils/properties/ChemicalReaction.cpp:92-119", "ms-utils/properties/ChemicalCompound.cpp:105-130"]}
{"id": "C193", "title": "The crew's metabolism", "statement": "Production of carbon dioxide, water and heat are the sums over the four activities of number times rate, oxygen's consumption likewise but each term limited to the oxygen present per step; the demand is production less consumption, none within epsilon or when paused. Above epsilon the cabin gets those masses and that heat. Moving people between activities moves the lesser of the number asked and the number there, keeps their sum, leaves no negative number and the other activities alone; a negative number moves nobody. Validation accepts exactly non-negative numbers and rates, a sleep factor in [0,1] and 1 <= recovery <= exercise factor. Refuted: the crew consumes no more oxygen than there is (up to four times); an accepted crew's heat always reaches the cabin (not when it consumes more than it gives off). An activity's rates are the nominal ones times its factor.", "quantifier": "all real numbers, rates and steps, all lists of activities", "why_tests_cant": "the continuum; two faults that need scarcity or unusual rates", "anchors": ["aspects/fluid/source/GunnsFluidMetabolic.cpp:233-301", "aspects/fluid/source/GunnsFluidMetabolic.cpp:385-449", "aspects/fluid/source/GunnsFluidMetabolic.cpp:466-486"]}
{"id": "C194", "title": "Partial pressures of a tank edited at a rate", "statement": "In an ideal gas an edit still running adds the mass that takes the partial pressure by rate times step towards the goal and never past it; alone in its tank it arrives within one step's change of the goal after at most |goal - start| / (rate * step) steps, rounded up, and stops there. The flow times the step is minus the sum of the masses of all edits, none when no edit runs or the step is below FLT_EPSILON; without flags all masses are zero. An edit of no rate is cancelled. Refuted: an edit that has arrived adds nothing more (while another constituent's edit runs its last mass flows once more and it passes its goal).", "quantifier": "all real goals, rates, pressures and steps, all numbers of steps and constituents", "why_tests_cant": "induction over steps; the fault needs two edits ending at different times", "anchors": ["aspects/fluid/capacitor/GunnsFluidTank.cpp:315-424", "aspects/fluid/capacitor/GunnsFluidTank.cpp:740-753"]}
{"id": "C195", "title": "A tank's shell, edits and rate of pressure", "statement": "The shell heats by conductivity times temperature difference times area over radius, not below 1 kPa nor during an edit. An edit of temperature and pressure (or partial pressures) overrides the node until temperature and pressure are within FLT_EPSILON and the net flux below the target; a target below FLT_EPSILON is replaced by the present value. A temperature alone is edited once, and an override left behind is removed. The rate of pressure is (1 - gain) times the old plus gain times the slope, cleared below epsilon, and under a steady slope after n steps within (1 - gain)^n of the initial error plus epsilon over gain. Validation accepts exactly a gain in [0,1] and non-negative other values. Refuted: an edit in an accepted tank that has reached its target ends (with a flux target of zero, accepted, it never does).", "quantifier": "all real states and configurations, all numbers of steps", "why_tests_cant": "geometric convergence by induction; boundary configuration", "anchors": ["aspects/fluid/capacitor/GunnsFluidTank.cpp:248-286", "aspects/fluid/capacitor/GunnsFluidTank.cpp:456-636"]}
{"id": "C196", "title": "The volume of a balloon", "statement": "The volume is inflatability times pressure difference limited to [1e-12, maximum], growing with pressure; the inflation is in [0,1] and is the fraction of that range, kept with the volume when stuck; the state is deflated exactly at 0, inflated exactly at 1, otherwise inflating, deflating or partly inflated as the volume is above, below or within FLT_EPSILON of the last. A volume asked for is given, limited, with the pressure at which the balloon has that volume; a pressure edit gives the volume of its target. Refuted: the volume an edit gives is the one of the pressure it reaches (an edit to zero pressure keeps the pressure but empties the balloon).", "quantifier": "all real pressures, inflatabilities and volumes", "why_tests_cant": "continuum of states", "anchors": ["aspects/fluid/capacitor/GunnsFluidBalloon.cpp:228-241", "aspects/fluid/capacitor/GunnsFluidBalloon.cpp:308-390", "aspects/fluid/capacitor/GunnsFluidBalloon.hh:259-264"]}
{"id": "C197", "title": "The pressure of a balloon", "statement": "A partly inflated balloon's corrected pressure p + x satisfies the gas law with the volume v + kx it then has, whatever nonzero correction the node asks for, both positive, and lies between the present pressure and the gas-law pressure at the present volume; a rigid (stuck, empty or full) balloon takes the node's correction. A rate edit of a flexible balloon adds the gas of the volume gained to each gas and to the flow alike, so flow times step plus masses is unchanged. The flexible capacitance times weight is inflatability times density, none when stuck or full; the inflatability is at least epsilon. A separator's liquid link accepts port 0 on the boundary node only and port 1 on any other.", "quantifier": "all real pressures, volumes, amounts and inflatabilities", "why_tests_cant": "root selection of a quadratic over the continuum; sums over all lists", "anchors": ["aspects/fluid/capacitor/GunnsFluidBalloon.cpp:267-315", "aspects/fluid/capacitor/GunnsFluidBalloon.cpp:400-507", "aspects/fluid/source/GunnsFluidSeparatorLiquid.cpp:274-309"]}
{"id": "C198", "title": "The chambers of an accumulator", "statement": "A configuration is accepted exactly when it is usable (listed limits). In an accepted accumulator, whatever is imposed, edited or failed and over any number of steps, the bellows stay in [0,1], the liquid volume is the minimum plus position times range, liquid and pressurizer volumes add up to the total, the mass is at least DBL_EPSILON and the temperature stays in its limits. Ramps go towards the limited target by rate times step and never past it, and are complete exactly on it. Free bellows stand where mass over density puts them, or at a stop. Refuted: the liquid has the volume of its mass (at the full stop the mass keeps growing).", "quantifier": "all accepted configurations, all fluids (density and enthalpy functions), all sequences of steps, malfunctions and edits", "why_tests_cant": "invariant by induction over arbitrary sequences", "anchors": ["aspects/fluid/capacitor/GunnsFluidAccum.cpp:454-532", "aspects/fluid/capacitor/GunnsFluidAccum.cpp:613-652", "aspects/fluid/capacitor/GunnsFluidAccum.cpp:703-708", "aspects/fluid/capacitor/GunnsFluidAccum.cpp:812-840", "aspects/fluid/capacitor/GunnsFluidAccum.cpp:1230-1262", "aspects/fluid/capacitor/GunnsFluidAccum.cpp:1327-1446"]}
{"id": "C199", "title": "The conductivity of an accumulator's liquid port", "statement": "Stuck bellows close the port; overridden or edited ones, and ones outside the dead bands, open it. Without the one-way mode the port closes in proportion to the room left in the dead band, min(1, room/band), and is closed on a stop except for the least scale when pressures move the bellows away. In the one-way mode this holds towards a stop, and away from it the scale grows by rate times step, linearly over any number of steps, to 1. The scale is always in [0,1]; the conductivity is the scale times capacitance over step, at most the maximum. The spring's capacitance is range times density over slope and weight. Refuted: a step of no time changes nothing (it zeroes the one-way rate for good, and the port of an empty accumulator then never opens); steps of no time keep the conductivity (each multiplies it by the scale again).", "quantifier": "all accepted geometries, pressures and volumes; all numbers of steps", "why_tests_cant": "continuum of states; induction over steps; faults need pauses", "anchors": ["aspects/fluid/capacitor/GunnsFluidAccum.cpp:336-357", "aspects/fluid/capacitor/GunnsFluidAccum.cpp:958-968", "aspects/fluid/capacitor/GunnsFluidAccum.cpp:1014-1173"]}
{"id": "C200", "title": "Mass and heat of an accumulator's liquid", "statement": "The flux is conductivity times pressure difference; flow and volume flow use the fluid at the source. The chamber's mass changes by exactly what the node gives or gets, down to DBL_EPSILON; its enthalpy by the housing's heat and the flow's enthalpy at its source, the temperature being the one that gives, within the limits; with neither flow nor heat, or held, the temperature stays. The liquid's pressure is spring plus head plus gas, limited. Refuted: the accumulator had what it gives (the flow is not limited to the content); in the step in which the bellows stick the chamber loses what the node gets.", "quantifier": "all real flows, masses, temperatures and enthalpy functions with inverse", "why_tests_cant": "balances over the continuum", "anchors": ["aspects/fluid/capacitor/GunnsFluidAccum.cpp:369-425", "aspects/fluid/capacitor/GunnsFluidAccum.cpp:454-520", "aspects/fluid/capacitor/GunnsFluidAccum.cpp:928-940", "aspects/fluid/capacitor/GunnsFluidAccum.cpp:1230-1262", "aspects/fluid/capacitor/GunnsFluidAccum.cpp:1304-1319"]}
{"id": "C201", "title": "Edits and malfunctions of bellows", "statement": "Stuck bellows keep their chamber; bellows stuck at a position go there at the limited rate and are stuck exactly when there; both cancel edits. An edit moves the bellows by rate times step towards the limited position, the mass filling the volume; once there it holds until the timer reaches the hold time and only then is cleared. Under any surroundings it ends within the steps the distance and the hold time need, and in the step that clears it the bellows are at the position. Refuted: every edit is held for the hold time (one asked for right after another ends in the step that reaches its position).", "quantifier": "all accepted configurations, surroundings and numbers of steps", "why_tests_cant": "termination by induction over steps under arbitrary surroundings", "anchors": ["aspects/fluid/capacitor/GunnsFluidAccum.cpp:541-553", "aspects/fluid/capacitor/GunnsFluidAccum.cpp:590-652", "aspects/fluid/capacitor/GunnsFluidAccum.cpp:786-853", "aspects/fluid/capacitor/GunnsFluidAccum.cpp:1181-1214"]}
{"id": "C202", "title": "The gas chamber of an accumulator", "statement": "A reactive edit alone leaves the rest running, a non-reactive one holds the rest; from when pressure and bellows edits run together until both have ended, the one that ended is held, and the temperature too, over any sequence. A rupture overrides the bellows, takes them to its position, cancels edits, and forces the pressure until both are reached. Bellows told to stay keep position, volume and temperature. Without a head the forced pressure moves by rate times step and arrives. The normal update raises no error, its mass follows the flow, its pressure is the gas law's within limits. The liquid's capacitance is the moles of liquid in the volume the gas gives up, or the spring's if less. Refuted: with an acceleration the forced pressure goes to its target (a head above rate times step drives it to the maximum); the forced gas pressure is positive; the gas gains no more than its node gives.", "quantifier": "all flags and sequences of flags, all real pressures and rates, all numbers of steps", "why_tests_cant": "sequences of edits of any length; runaway by induction", "anchors": ["aspects/fluid/capacitor/GunnsFluidAccumGas.cpp:247-285", "aspects/fluid/capacitor/GunnsFluidAccumGas.cpp:378-402", "aspects/fluid/capacitor/GunnsFluidAccumGas.cpp:440-535", "aspects/fluid/capacitor/GunnsFluidAccumGas.cpp:544-656", "aspects/fluid/capacitor/GunnsFluidAccumGas.cpp:680-704"]}
{"id": "C203", "title": "A thermostat switches at the ends of its band", "statement": "With OR logic or one sensor the nominal command is on exactly when some sensor is not above the band and is below it or the command was on; with AND logic when all are. Hence over any history of set points, biases, malfunctions and updates it stays on while no sensor is above the band and off while none is below; all below turn it on and all above off. The band is as wide as configured with the set point in its middle. Unpowered sensors whose off value is below the band turn the heat on.", "quantifier": "all configurations, numbers of sensors and histories, any number type (band and off value: reals)", "why_tests_cant": "hysteresis depends on histories of any length and on all combinations of sensors", "anchors": ["gunns-ts-models/aspects/signal/effectors/thermostat/Thermostat.cpp:174-222", "gunns-ts-models/aspects/signal/effectors/thermostat/Thermostat.cpp:270-352", "gunns-ts-models/aspects/signal/effectors/thermostat/Thermostat.cpp:366-446"]}
{"id": "C204", "title": "Malfunctions of a thermostat", "statement": "The command that leaves is off with the off malfunction, else on with the on malfunction, else off with the kill switch, else the thermostat's. Overridden limits use their own band and their own memory; the nominal command does not depend on any malfunction over any history, and once no limit is overridden the command is the nominal one at once. A bias is a set point that far from the middle. Overriding both limits with checked values makes a band. Refuted: checked overrides always make a band (one override above the other limit turns it upside down).", "quantifier": "all configurations, malfunctions and histories", "why_tests_cant": "relates two histories of any length that differ in their malfunctions", "anchors": ["gunns-ts-models/aspects/signal/effectors/thermostat/HtrControl.cpp:149-206", "gunns-ts-models/aspects/signal/effectors/thermostat/Thermostat.cpp:232-251", "gunns-ts-models/aspects/signal/effectors/thermostat/Thermostat.cpp:270-315", "gunns-ts-models/aspects/signal/effectors/thermostat/Thermostat.cpp:453-469"]}
{"id": "C205", "title": "Limit switches, averaged sensors and end sensors", "statement": "A failed limit switch shows its failed value with or without power, an unpowered one its off value, a sound one the truth; an analog one is on from its target less the tolerance in the direction of the target's sign and beyond, around zero on both sides, and refuses tolerances not above zero. The average of three fan speed sensors is in their range, equals equal readings and is the off value without power. The end sensors of a valve assembly see the position just reached with or without supply, and both ends at once only if the tolerances reach over the distance. Refuted: a valve that interrupts its command at its ends gets to its end (with a tolerant sensor it stops short for ever).", "quantifier": "all targets, tolerances, positions, malfunctions, numbers of updates (reals)", "why_tests_cant": "thresholds over the continuum; any number of updates", "anchors": ["gunns-ts-models/common/sensors/TsLimitSwitch.cpp:110-122", "gunns-ts-models/common/sensors/TsLimitSwitchAnalog.cpp:95-142", "gunns-ts-models/common/sensors/TsFanSpeedSensors.cpp:197-234", "gunns-ts-models/common/sensors/SensorBooleanAi.cpp:211-239", "gunns-ts-models/common/controllers/valveAssemblies/TsOpenCloseValveAssembly.cpp:192-222"]}
{"id": "C206", "title": "The built-in test of a smoke detector", "statement": "While the test is commanded the detector shows the largest obscuration and the test's scatter and its timer stands. After it, with steps of one length, it stays quiet for all n steps with (n-2) times the step not above the recovery time, and in the first step after that works normally with the timer at zero. The timer is never negative nor more than two steps above the recovery time over any sequence of inputs. A loss of power of any length leaves timer and test as they were. Refuted: every test is followed by the quiet period (one commanded during the quiet period of another is not).", "quantifier": "all configurations, step lengths and sequences of inputs (reals; refutation in binary32)", "why_tests_cant": "the quiet period is a number of steps that depends on the step length; any sequence", "anchors": ["gunns-ts-models/common/sensors/TsOpticSmokeDetector.cpp:189-231", "gunns-ts-models/common/sensors/TsOpticSmokeDetector.cpp:305-322"]}
{"id": "C207", "title": "What a smoke detector shows", "statement": "The load is on exactly with real or forced power and without the failure. Both values are in their ranges after every update. In operation the scatter is its nominal value plus the smoke's part of the way to the largest, the obscuration its limited line, and more smoke never shows less. Without load both sensors show their off values. The voltages are the constructor's lines through the sensed values. Refuted: the configured voltage slope is used (initialize does not copy it); a perfect sensor shows the configured largest obscuration (the sensor's own limit stays 104.12).", "quantifier": "all configurations, states and inputs (reals; refutations in binary32)", "why_tests_cant": "continuum of inputs; the ignored fields equal the defaults in every test", "anchors": ["gunns-ts-models/common/sensors/TsOpticSmokeDetector.cpp:32-60", "gunns-ts-models/common/sensors/TsOpticSmokeDetector.cpp:133-173", "gunns-ts-models/common/sensors/TsOpticSmokeDetector.cpp:189-269"]}
{"id": "C208", "title": "The pressure of a fan", "statement": "A curve's value is its polynomial. At s times the reference speed and d times the reference density the curve at s times a flow is d s^2 times the reference curve (affinity laws), so free flow is proportional to speed. A stopped impeller or one without fluid makes no pressure; otherwise it is the affinity curve at the predicted flow, never negative; where the solver ends on a root of the difference it equals the square of flow over system constant. With gains in [0,1] the system constant stays positive; with a constant measurement its error shrinks by 1-gain per step, for any number of steps; a steady point is kept. The check valve is open exactly if inactive or the pump pushes forward. A pump that does not cavitate is the fan. Refuted: Brent's method is tried whenever Laguerre's fails (not after its exception); the filter settles for every accepted gain; a pump's check valve shuts when the cavitated pressure does not push.", "quantifier": "all curves, speeds, densities, flows, solver results, states, numbers of steps (reals)", "why_tests_cant": "polynomial identities and geometric convergence over the continuum and any number of steps", "anchors": ["aspects/fluid/potential/GunnsGasFan.cpp:268-440", "aspects/fluid/potential/GunnsGasFan.cpp:469-488", "aspects/fluid/potential/GunnsGasFan.cpp:557-615", "aspects/fluid/potential/GunnsGasFanCurve.cpp:54-113", "aspects/fluid/potential/GunnsLiquidCentrifugalPump.cpp:273-277", "core/GunnsFluidLink.cpp:370-382"]}
{"id": "C209", "title": "The power of a fan and the curve made from its best point", "statement": "The specific speed is within [0.2,5]. At the best point, which moves with speed, power is speed ratio cubed times density ratio times reference flow times pressure over efficiency; power at scaled flow scales with the cube of speed; flow against the fan loads it as none, flow above free flow as free flow. Hydraulic power at the best point is the best efficiency times shaft power at every speed and density. Torque times speed is minus power, and zero when stopped or disconnected. Without a best point power is flow times pressure. A generated curve gives at the best flow the configured pressure times 1 - 0.011 times the specific speed fraction. Refuted: a generated curve goes through the best point (an axial fan gets 0.989 of the pressure); turning the impeller always takes power (a fast fan at twice its best flow drives the motor).", "quantifier": "all configurations that initialize, speeds, densities, flows (reals)", "why_tests_cant": "continuum of speeds and densities; the published coefficients only miss their sum for axial fans", "anchors": ["aspects/fluid/potential/GunnsGasFan.cpp:35-40", "aspects/fluid/potential/GunnsGasFan.cpp:291-343", "aspects/fluid/potential/GunnsGasFan.cpp:499-530"]}
{"id": "C210", "title": "Pressure heads of fluid columns", "statement": "The head is the density (of the lighter end, or of the accumulator's node 1) times the accumulator's bellows position times the scalar product of column and acceleration in the structure's frame, over 1000; a potential with an empty end has none. It changes sign with the column or the acceleration's sense, adds over accelerations and over columns, turning by the transposed matrix equals turning the column by the matrix, and it is at most density times both lengths.", "quantifier": "all columns, accelerations, matrices, densities, positions (reals)", "why_tests_cant": "vector identities over the continuum", "anchors": ["aspects/fluid/potential/GunnsFluidPressureHead.cpp:214-269"]}
{"id": "C211", "title": "Gas turbines", "statement": "The predicted flow is the map's flow at the pressure ratio, times inlet over reference pressure and over the root of the temperature ratio; maps of low and high speed are mixed by the corrected speed between them and held outside. The pressure ratio is at least one, one (and no flow) without drop, and otherwise inlet over outlet pressure. A map's flow is not negative and at most its greatest flow for usual coefficients. The conductivity lets the predicted mass flow through. Efficiency is in [0,1] and zero outside its range; the power taken is never more than that of the flow and torque times speed is minus power; both vanish when stopped or disconnected. Refuted: at high speed the high map is used (speeds in the wrong order are accepted and always give the low map); the greatest flow bounds the map for all accepted coefficients.", "quantifier": "all accepted configurations, speeds, fluids, drops, states (reals)", "why_tests_cant": "continuum of map points; wrong-way speeds pass initialization", "anchors": ["aspects/fluid/conductor/GunnsGasTurbine.cpp:366-426", "aspects/fluid/conductor/GunnsGasTurbine.cpp:447-516", "aspects/fluid/conductor/GunnsGasTurbine.cpp:534-584"]}
{"id": "C212", "title": "Drive shafts", "statement": "The load is the sum of all torques of turbines and fans in any order, less the jam's part; with torques of a common speed load times speed is minus the sum of powers. Without override the speed stays above zero and momentum changes by (load minus friction) times the step; under a constant load the distance of speed from load over friction shrinks by one minus friction times step over inertia per step, for any number of steps. More load never makes it slower. Refuted: a jam never makes the shaft faster (it takes its part of a braking load as well); the impellers never turn backwards (the override is not limited).", "quantifier": "all shafts, numbers of impellers, torques, step counts (reals)", "why_tests_cant": "any number of impellers and steps", "anchors": ["aspects/fluid/conductor/GunnsDriveShaftSpotter.cpp:156-210", "aspects/fluid/conductor/GunnsDriveShaftSpotter.cpp:219-290"]}
{"id": "C213", "title": "DC motors of pumps", "statement": "A motor draws what Ohm's law gives for the voltage left by the back-EMF, never negative and never over the limit; a degraded motor draws less. Its electrical power is at least shaft power plus heat of the winding, and exactly that when not limited. Torque at rest is the stall torque and never more. Loads add, a jam takes its part of the stall torque; speed follows momentum, stops at zero, or is the override. Waste heat is the power that is not useful. Under constant load the distance of the speed from the balance of torques shrinks by the same factor each step, for any number of steps. Refuted: no motor turns faster than its no-load speed (a long step overshoots, and without friction it stays there); efficiency is at most one; an unloaded motor turns all power to heat (a jam's power counts as useful).", "quantifier": "all accepted configurations, malfunctions, loads, speeds, step counts (reals)", "why_tests_cant": "continuum of voltages and speeds; any number of steps", "anchors": ["gunns-ts-models/common/effectors/mechanical/motor/DcDynPumpMotor.cpp:311-355", "gunns-ts-models/common/effectors/mechanical/motor/DcDynPumpMotor.cpp:365-487"]}
{"id": "C214", "title": "Motors with pulse width modulation", "statement": "Drive torque is the pulse's part of a line from the stall torque at rest to none at the no-load speed. The current is between zero and voltage over resistance, falls with speed and rises with pulse width; resistance times current is the voltage. Electrical outputs are at the speed after the step. Generated current plus current is the back-EMF's current. Under constant load the speed's distance from balance shrinks by the same factor each step. Refuted: the shaft never gets more power than the motor draws; a motor never draws and generates at once.", "quantifier": "all accepted configurations, voltages, pulses, speeds, step counts (reals)", "why_tests_cant": "continuum of operating points; any number of steps", "anchors": ["gunns-ts-models/common/effectors/mechanical/motor/TsDcPwmDynMotor.cpp:342-392", "gunns-ts-models/common/effectors/mechanical/motor/TsDcPwmDynMotor.cpp:402-533"]}
{"id": "C215", "title": "Pump motor controllers", "statement": "The controller is powered when its supply (or the override) is within its voltages and not failed; the motor also needs the command and no trip. After any history it is tripped exactly if it was too hot at some time and ever since powered and not below the reset temperature. The pulse width is always in [0,1], zero when stopped. Running, error is relative to the command with noise, the pulse is forced by it and damped outside the cutoff; startup ends inside the cutoff and until then the current is within the startup limit. On speed nothing changes. The noise's phase stays within one turn. The supply's power is the controller's load plus the motor's power. Refuted: a commanded and powered motor starts (a startup limit of zero, the default, is accepted and keeps it at rest for ever); the total power covers the waste heat under the voltage override.", "quantifier": "all accepted configurations, input histories, malfunctions (reals)", "why_tests_cant": "trips depend on the whole history; start-up failure needs unbounded time", "anchors": ["gunns-ts-models/common/controllers/fluid/TsPumpMotorController.cpp:353-421", "gunns-ts-models/common/controllers/fluid/TsPumpMotorController.cpp:431-437", "gunns-ts-models/common/controllers/fluid/TsPumpMotorController.cpp:474-633"]}
{"id": "C216", "title": "Orifices with choked flow", "statement": "An orifice's flux is continuous across the change from subsonic to choked flow; choked flow is the most any downstream pressure gives; equal pressures give none. The regime is told by the pressure over the critical pressure, and the conductivity carries exactly that flux at the pressures used. Liquids follow Bernoulli at the mean density. Discharge coefficients in any unit agree, fall with the root of the Reynolds number below the critical one, and never under epsilon. Conductance is in [0,1e15], zero for light fluids. Flow goes down the pressure, and is zero when the drop is lost in rounding. Refuted: the mass flow is that of the law when molecular weights of the ports differ.", "quantifier": "all fluids, pressures, diameters, coefficients (reals)", "why_tests_cant": "continuum of fluid states; extremum over all downstream pressures", "anchors": ["aspects/fluid/hi-fi/GunnsFluidHiFiOrifice.cpp:164-260", "aspects/fluid/hi-fi/GunnsFluidHiFiOrifice.cpp:282-478", "aspects/fluid/hi-fi/GunnsFluidHiFiOrifice.cpp:589-616"]}
{"id": "C217", "title": "Leaks through valves with choked flow", "statement": "A valve's area is its position's part of the unblocked throat, or the leak's area if larger while leaking, and within the throat. After any history the leak area is within the throat. A new rate sets the area that passes this rate at the flux of the moment, or the throat; an unchanged rate keeps it; clearing the malfunction closes it. Refuted: a leak set while there is no flow leaks later (the area stays zero until the rate is changed); the leak starts at the rate asked for when port 1 feeds (the phase is read from port 0).", "quantifier": "all input histories, fluids, rates (reals)", "why_tests_cant": "the missing leak needs an unbounded later history; continuum of states", "anchors": ["aspects/fluid/hi-fi/GunnsFluidHiFiValve.cpp:185-198", "aspects/fluid/hi-fi/GunnsFluidHiFiValve.cpp:220-283"]}
{"id": "C218", "title": "Volume of a node behind a distributed fluid interface", "statement": "Over any sequence of complete frames (inputs, step of the network, outputs), with any received data and any forced roles, the node has its original volume whenever the link is in the supply role and none in the demand role, where the volume is kept aside. Refuted: this also holds when the network misses a step (the volume is lost and no later frame brings it back); a restart from a checkpoint keeps the volume (the due change is forgotten).", "quantifier": "all frame sequences, received packets, forced roles, number types", "why_tests_cant": "role changes happen at unbounded and unsynchronised times", "anchors": ["core/GunnsFluidDistributedIf.cpp:389-412", "core/GunnsFluidDistributedIf.cpp:529-556", "core/GunnsFluidCapacitor.cpp:246-274"]}
{"id": "C219", "title": "What passes through a distributed fluid interface", "statement": "For every compound known to the receiving network, trace compounds included, the molar flow taken by the supply side is exactly what the demand side sent, even if the networks have different mixtures. The demand side gets the supply side's pressure, mixture and temperature. The sent mixture is the node's inflow unless that is absent or has negative parts. The temperature of a received flow is that of the own node's last state. Refuted: the received flow has the temperature sent; a side forced to supply sends its pressure (it sends zero to a larger network).", "quantifier": "all mixtures, sizes, flows, states of both links (reals)", "why_tests_cant": "continuum of mixtures and any number of compounds", "anchors": ["core/GunnsFluidDistributedIf.cpp:425-480", "core/GunnsFluidDistributedIf.cpp:485-522", "core/GunnsFluidDistributedIf.cpp:565-652"]}
{"id": "C220", "title": "Conductance of a distributed fluid interface", "statement": "In demand the link conducts the other side's capacitance times the gain, in series with the own capacitance, over the step; what passes in the step never makes the pressures of the two capacitances cross, flows from the higher pressure, and the supplied capacitance is at most either side's. With both sides in demand nothing flows. Blockage takes its part and the limit holds. In supply it conducts nothing and the flow is the demanded one. The capacitance told to the other side is the network's without what is supplied, never negative.", "quantifier": "all capacitances, lags, time steps, pressures, lists of other interfaces (reals)", "why_tests_cant": "continuum of capacitances and steps; any number of other interfaces", "anchors": ["core/GunnsFluidDistributedIf.cpp:660-687", "core/GunnsFluidDistributedIf.cpp:694-765"]}
{"id": "C221", "title": "Nozzle of a rocket engine", "statement": "If the area ratio is that of a supersonic exit between Mach 1.25 and 20, the computed exit Mach number is within 0.0002 of it, for every gamma above 1. Given the Mach number, the exit is isentropic: pressure, temperature, and velocity (Mach number times the velocity of sound). At the Mach number of its area ratio the nozzle passes exactly the choked flow of its throat; with the configured combustion gas this is pressure times throat area over the characteristic velocity. Recombination moves the exit to the recombined state by its tuning, only in combustion. Refuted: every accepted area ratio has its supersonic Mach number (below that of Mach 1.25 the search ends next to Mach 0, for instance at the accepted ratio 1).", "quantifier": "all gammas > 1, Mach numbers, area ratios, gases and pressures (reals)", "why_tests_cant": "an iterative search and power laws over continuous parameters; tests use one nozzle", "anchors": ["aspects/fluid/conductor/GunnsFluidSimpleRocket.cpp:479-543", "aspects/fluid/conductor/GunnsFluidSimpleRocket.cpp:552-575", "aspects/fluid/conductor/GunnsFluidSimpleRocket.cpp:228-238"]}
{"id": "C222", "title": "Combustion, thrust and conductance of a rocket engine", "statement": "The accepted configurations are exactly those of the seven limits. Over any history, an engine that needs ignition burns exactly if it has been fed (flow, and a model result hotter than the inlet) in each step since an ignition or since a start in combustion; one that needs none burns exactly if it is fed now. The combustion count is the number of frames of the present burn. The combustion gas is the model's last. Thrust is the tuned flow times exit velocity in combustion and else zero; power is half of thrust times velocity. The conductance is within its limits, none backwards, and gives the nozzle's mass flow at the present pressures except in the first frame of a burn.", "quantifier": "all histories of flow, ignition, inlet and model results (any number type); all gases and pressures (reals)", "why_tests_cant": "unbounded histories with a latch", "anchors": ["aspects/fluid/conductor/GunnsFluidSimpleRocket.cpp:273-316", "aspects/fluid/conductor/GunnsFluidSimpleRocket.cpp:380-436", "aspects/fluid/conductor/GunnsFluidSimpleRocket.cpp:442-458", "aspects/fluid/conductor/GunnsFluidSimpleRocket.cpp:583-614", "aspects/fluid/conductor/GunnsFluidSimpleRocket.cpp:662-685"]}
{"id": "C223", "title": "Layout of super-networks", "statement": "After any sequence of additions of networks, merges of super-networks, joins and registrations, each network is in at most one super-network, once, and knows it; in each super-network every node but the ground belongs to exactly one network and all networks' nodes lie within; no network is ever lost and networks that are together stay together; an added network comes with all of its super-network, and the offsets of those already there do not change; nothing is added after registration. Refuted: this also holds when a super-network is added to itself (it loses all its networks).", "quantifier": "all sequences of calls, numbers and sizes of networks", "why_tests_cant": "unbounded sequences of merges; tests merge a few networks", "anchors": ["core/network/GunnsSuperNetworkBase.cpp:126-154", "core/network/GunnsSuperNetworkBase.cpp:165-188", "core/network/GunnsSuperNetworkBase.cpp:199-227", "core/network/GunnsSuperNetworkBase.hh:228-278", "core/network/GunnsNetworkBase.cpp:60-64"]}
{"id": "C224", "title": "Joints between locations of sub-networks", "statement": "After any sequence of calls, two locations of a super-network's joints share a joint network exactly if they are joined directly or through others, and then have the same type; a join is refused, without effect, exactly if the types differ or both are joined already; a join before registration brings the joint network and both locations' networks into the super-network; at initialization exactly the joined locations are connected, at the offset of their joint network; the joint index is that of the first joint with the network. Refuted: joints survive the merge of their super-network into another (they are never connected); joints made in two super-networks that are merged; a join after registration is without effect (it connects to another network's nodes).", "quantifier": "all sequences of calls, locations, types and sizes", "why_tests_cant": "unbounded sequences of joins and merges", "anchors": ["core/network/GunnsSuperNetworkBase.cpp:237-246", "core/network/GunnsSuperNetworkBase.cpp:264-289", "core/network/GunnsSuperNetworkBase.cpp:301-351", "core/network/GunnsSuperNetworkBase.cpp:359-421"]}
{"id": "C225", "title": "Fires in fluid nodes", "statement": "After any sequence of passes of the network a fire burns exactly if it was lit and since then was neither reset nor short of oxygen at the step or the transport of a pass; when it does not burn all flows and its heat are zero. While it burns with a net flow above the limit, the node loses the configured mass of oxygen per heat and gets those of carbon dioxide and water, each less the blocked part, and gets the fire's heat; the flow in the solution times the internal fluid's molecular weight is the mass flow. Refuted: an accepted fire that burns exchanges oxygen for its products (the check adds the rates with the wrong sign); a blockage scales all that the fire gives alike (heat stays); the flow in the solution is what is added to the node (not in the pass in which the fire goes out).", "quantifier": "all sequences of commands, heats, blockages and partial pressures; all configurations", "why_tests_cant": "unbounded sequences of passes; tests light one fire and put it out", "anchors": ["aspects/fluid/source/GunnsFluidFireSource.cpp:225-233", "aspects/fluid/source/GunnsFluidFireSource.cpp:254-288", "aspects/fluid/source/GunnsFluidFireSource.cpp:310-410", "aspects/fluid/source/GunnsFluidFireSource.hh:214-221", "aspects/fluid/fluid/PolyFluid.cpp:828-861"]}
{"id": "C226", "title": "Separator of several fluids to several ports", "statement": "Over any sequence of passes of a separator with one port for each separated fluid, in order, and no flow below the cut-offs, of every constituent the moles taken upstream and those buffered at the start are those given downstream, those given to the separation ports and those buffered at the end; what the ports get is what was separated in the pass before; fractions given downstream sum to one. With any one-to-one assignment of ports the sources in the solution sum to zero and each port has its fluid's amount. Transport reads beyond its arrays exactly if there are more ports than separated fluids. Refuted: each fluid goes to the port it is configured for (port p gets fluid p-2); every accepted separator transports without reads beyond its arrays (a port for a trace compound is enough); what is separated comes out (of two fluids with one port the second is lost, and the sources do not sum to zero).", "quantifier": "all numbers of ports and types, fractions, mixtures and sequences of passes", "why_tests_cant": "unbounded sequences and numbers of ports; the unit test has the ports in order", "anchors": ["aspects/fluid/source/GunnsFluidMultiSeparator.cpp:274-360", "aspects/fluid/source/GunnsFluidMultiSeparator.cpp:544-582", "aspects/fluid/source/GunnsFluidMultiSeparator.cpp:604-671", "aspects/fluid/source/GunnsFluidMultiSeparator.cpp:678-746", "core/GunnsFluidLink.cpp:370-382", "aspects/fluid/fluid/PolyFluid.cpp:752-795"]}
{"id": "C227", "title": "Diode with junction drop and reverse leakage", "statement": "Accepted are a reverse conductivity and a junction drop that are not negative, and the setters keep this. An accepted solution obeys the diode's law: at or above the junction drop the forward conductance times the excess, below it the reverse conductance times the drop; the diode never gives power. In any linear network, from either bias, the diode rejects at most one solution, and the accepted one satisfies the network; without leakage the bias is that of the network's open voltage. Refuted: the accepted solution does not depend on the bias before (with leakage both are kept in a range of voltages); a greater drop never has a smaller flux (at the junction drop the leakage stops).", "quantifier": "all conductances, drops, blockages, linear networks and numbers of minor steps", "why_tests_cant": "all networks and voltages; tests try a few values of one diode alone", "anchors": ["aspects/electrical/Diode/GunnsElectRealDiode.cpp:158-229", "aspects/electrical/Diode/GunnsElectRealDiode.hh:167-221", "core/GunnsBasicPotential.hh:175-190", "core/GunnsBasicConductor.cpp:196-215"]}
{"id": "C228", "title": "Power bus with user loads", "statement": "In a step with voltage all loads are stepped with it, and the bus draws, to within twice the conductance tolerance times the voltage squared, the power of its constant power loads and that of its sensible resistances, each group cut to the allowed conductance, and that of a fixed leak; a sealed bus with voltage has only the leak to within the tolerance and leaves its loads; the admittance never changes without being flagged; after any sequence of steps each group's conductance is at most the configured one. Refuted: the configured least conductance is obeyed (it is never used); loads below their under-voltage limit do not load the bus (without voltage, even sealed, the bus keeps the conductance of its constant power loads).", "quantifier": "all numbers and kinds of loads, voltages and sequences of steps", "why_tests_cant": "unbounded lists of loads and sequences of steps", "anchors": ["aspects/electrical/PowerBus/PowerBusElect.cpp:185-234", "aspects/electrical/PowerBus/PowerBusElect.cpp:269-297", "aspects/electrical/PowerBus/PowerBusElect.cpp:319-390", "aspects/electrical/PowerBus/PowerBusElect.cpp:427-463"]}
{"id": "C229", "title": "Shadows of volumes of other networks", "statement": "After any passes since initialization a shadow is active exactly if the last pass was not the first and its control equals the link's target; so links of different targets on one control are never active together, and one of them is when the control is one of theirs. Inactive it leaves the node, does not conduct and keeps its source pressure; active it gives the node the input pressure, temperature and the converted and mapped mixture, conducts fully and has the input pressure as source. Given fresh inputs, the same fluid types and the same kind of mixture on both sides (mass or mole fractions or partial pressures), its outputs are the inputs. Port 0 must be on ground and port 1 must not. Refuted: without new inputs an active link goes on showing the same; inputs given while it was inactive are those shown when it becomes active (mole fractions are converted to mass fractions again, in place, in each pass).", "quantifier": "all sequences of passes, controls and inputs; all numbers of fluid types and mixtures", "why_tests_cant": "unbounded sequences of passes and mixtures; tests set the inputs before each pass", "anchors": ["core/GunnsFluidShadow.cpp:235-386", "core/GunnsFluidShadow.cpp:399-444"]}
{"id": "C230", "title": "Leaks of sealed jumpers and sockets", "statement": "After any sequence of steps a jumper's conductivity is between zero and its hose's: zero with both ports on one node, the hose's when open, zero when sealed without the leak malfunction. From the step in which a leak rate is commanded the link leaks at that rate, for unchanged nodes and a large enough hose; later steps with the same rate keep the conductivity predicted for the nodes at the last sealed step that saw a new rate. A socket behaves as a jumper sealed while connected or self-sealing. Refuted: a leak commanded while the pressures are equal leaks once they differ (it never does until the rate changes); the leak goes by the nodes at the time the malfunction is turned on (it goes by those at the time the rate was set).", "quantifier": "all sequences of commands, seals, connections and node states", "why_tests_cant": "unbounded sequences of steps between the command and the leak", "anchors": ["core/GunnsFluidJumper.cpp:268-306", "core/GunnsFluidSocket.cpp:294-317", "core/GunnsFluidUtils.cpp:266-298"]}
{"id": "C231", "title": "Link of an electrical distributed interface", "statement": "Over any sequence of frames with any received data, supplies and malfunctions, the link's power load and voltage source are never enabled together. A major step enables the source exactly in the demand role and the load in the supply role, unless failed, with the remote's voltage and demanded power, and an under-voltage limit of 0.9 of the node's voltage. A solution is rejected exactly when confirming it takes the interface from the supply to the demand role, which turns the load off and the source on; with a loop latency that is not negative at most one solution is rejected between two major steps, however many calls the network makes. A forced role is taken in the major step, kept through the frame and rejects nothing. A supply counts as available exactly if enabled and answering a unit current by more than the threshold; the network capacitance is requested exactly if an enabled supply has voltage. Refuted: what is enabled after confirmation or flows is that of the role; at most one rejection whatever the remote echoes (an echo of a count not reached yet gives unboundedly many).", "quantifier": "all sequences of frames and of calls within a frame; all supplies and received packets", "why_tests_cant": "unbounded sequences of calls; the roles depend on both sides' history", "anchors": ["aspects/electrical/PowerBus/GunnsElectDistributedIf.cpp:199-205", "aspects/electrical/PowerBus/GunnsElectDistributedIf.cpp:225-361", "ms-utils/interop/Distributed2WayBusElect.cpp:103-179"]}
{"id": "C232", "title": "Choice of input of the internal power supply", "statement": "Without a backup the chosen input may be used (commanded on if that applies, not failed), has at least the under-voltage limit and lies within the tolerance of the best such input; none is chosen only if no such input exceeds the tolerance; the input in use is kept while it is usable and none exceeds it by more than the tolerance. With a backup a usable primary above the backup threshold is chosen before the backup, within the tolerance of the best such, and whatever is chosen is a usable input. Refuted: the backup is used only within its voltage range; with a backup the input in use is kept against an equal one.", "quantifier": "all numbers of inputs, voltages, failures and inputs in use", "why_tests_cant": "unbounded numbers of inputs; tests have two or three", "anchors": ["aspects/electrical/IPS/GunnsElectIps.cpp:352-484", "aspects/electrical/IPS/GunnsElectIps.hh:225-254"]}
{"id": "C233", "title": "Rejections and draw of the internal power supply", "statement": "However often a solution is put to it, the supply switches inputs no more often than configured, and rejects no more often while no potential is negative; a solution is rejected exactly if the input in use changes or some potential is negative. The input in use draws the load to within the conductance tolerance, the others only their unselected conductance; the load is the sum of its powers or the one put in its place. Flux and power it reports are those of its first input alone. Refuted: the reported power is that drawn (from another input than the first it reports next to nothing); the power is valid while an input is in use (not at the under-voltage limit).", "quantifier": "all sequences of confirmations; all numbers of inputs, voltages and loads", "why_tests_cant": "unbounded sequences of confirmations and numbers of inputs", "anchors": ["aspects/electrical/IPS/GunnsElectIps.cpp:332-345", "aspects/electrical/IPS/GunnsElectIps.cpp:489-588", "aspects/electrical/IPS/GunnsElectIps.cpp:609-664", "aspects/electrical/IPS/GunnsElectIps.hh:401-416"]}
{"id": "C234", "title": "Curve of a photovoltaic string", "statement": "The bypassed groups are those in the shadow, a part of a group counted as a whole, and no fewer than failed, never more than there are. A validated string whose point of most power has a voltage above the tolerance (with the active cells' series resistance and the cells' shunt resistance at least 1e-6) has a falling curve: the voltage of that point is below the open circuit's, its current below the short circuit's, its power is their product, and its current is the light current less that of the shunt. Refuted: no load has more power than the point of most power; a string without light has no power (it is given power when its bypass diodes drop more than its cells give).", "quantifier": "all numbers of cells, configurations, lights, temperatures and failures", "why_tests_cant": "the curve depends on ten parameters; tests check single operating points", "anchors": ["aspects/electrical/SolarArray/GunnsElectPvString.cpp:654-739", "aspects/electrical/SolarArray/GunnsElectPvString.cpp:747-854"]}
{"id": "C235", "title": "Loads of a photovoltaic string", "statement": "For a string with a falling curve, loads given by voltage, by conductance and by power lie on the curve of two straight lines through short circuit, point of most power and open circuit: at a voltage within the curve the current is the curve's, outside nothing flows; with a conductance the load obeys Ohm's law and is the only such point of the curve; a power between nothing and the most power is met exactly, on the side of the curve asked for; any other power gives no load. Refuted: a load of just the most power can be asked for.", "quantifier": "all curves, voltages, conductances and powers", "why_tests_cant": "tests check single loads; the roots of the quadratic must be on the right line for all curves", "anchors": ["aspects/electrical/SolarArray/GunnsElectPvString.cpp:864-970"]}
