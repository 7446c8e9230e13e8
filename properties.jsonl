{"id": "C01", "title": "DataCollection behaves as typed first-write-wins maps", "statement": "After any sequence of addValue/setValue calls (plain or indexed) on a DataCollection, getValue(name) of a type returns true exactly when some earlier addValue of that type used that name, and then yields the first added value or the value of the latest setValue after it; a failed getValue leaves the caller's variable untouched, setValue on a missing name changes nothing and returns false, and operations on one type or name never affect another.", "quantifier": "all sequences of operations, all names, all seven value types, all values", "why_tests_cant": "histories are unbounded and the property is about non-interference between every pair of keys and types", "anchors": ["src/component/data_collection.hpp", "src/component/data_collection.cpp: addValue, setValue, getValue"]}
{"id": "C02", "title": "Indexed data entries never alias", "statement": "Two indexed entries (name1,i1) and (name2,i2) of a DataCollection share storage exactly when name1=name2 and i1=i2; an indexed access is memory safe exactly for indices whose decimal text has at most 7 characters; a plain name of the form name:idx does alias the indexed entry.", "quantifier": "all names and all int indices", "why_tests_cant": "injectivity of the key construction over all strings and integers", "anchors": ["src/component/data_collection.cpp: indexed addValue/setValue/getValue (sprintf key construction)"]}
{"id": "C03", "title": "Task manager hands out every task exactly once", "statement": "Between set(n) and exhaustion, over any interleaving of nextTask calls from any number of processes, each index 0..n-1 is returned by exactly one call, calls return false only when all n tasks have been taken, and cancel makes every later call return false.", "quantifier": "all task counts, process counts and interleavings of nextTask/cancel calls", "why_tests_cant": "depends on the schedule of concurrent fetch-and-add calls", "anchors": ["src/parallel/task_manager.hpp: set, nextTask, cancel"]}
{"id": "C04", "title": "Group task distribution agrees inside a communicator", "statement": "When whole communicators ask for tasks with nextTask(comm), all members of the communicator receive the same answer and the same task index, and over any interleaving of communicators each task goes to exactly one communicator.", "quantifier": "all interleavings of groups, all group sizes", "why_tests_cant": "schedule dependent, collective behaviour over any number of ranks", "anchors": ["src/parallel/task_manager.hpp: nextTask(Communicator&,int*)"]}
{"id": "C05", "title": "Distributed hash lookup is a complete multimap query", "statement": "After addPairs on all processes, getValues on all processes returns to each process, for each key it asked for, every value stored under that key by any process, with multiplicity, and nothing else; a second non-empty addPairs replaces the earlier content.", "quantifier": "all numbers of processes, all distributions of pairs and of query keys", "why_tests_cant": "distribution over arbitrary process counts and key sets", "anchors": ["src/parallel/index_hash.hpp", "src/parallel/index_hash.cpp: addPairs, getValues"]}
{"id": "C06", "title": "GlobalStore returns the vector stored under an index", "statement": "After vectors have been added on any processes with distinct non-negative indices and uploaded, getVector(idx) on any process returns exactly the vector added under idx, an empty vector for an index in range never added, and duplicates or negative indices raise an exception.", "quantifier": "all process counts, index sets and vector lengths", "why_tests_cant": "offset arithmetic over arbitrary distributions", "anchors": ["src/parallel/global_store.hpp: addVector, upload, getVector"]}
{"id": "C07", "title": "GlobalVector returns the element stored under an index", "statement": "After elements with distinct non-negative indices were added on any processes and uploaded, getData and getAllData return on every process the element added under each index and the default element for gaps; duplicate indices raise an exception; reload after resetElements replaces exactly the named elements.", "quantifier": "all process counts, index sets and element values", "why_tests_cant": "offset arithmetic and collective placement over arbitrary distributions", "anchors": ["src/parallel/global_vector.hpp: addElements, upload, resetElements, reload, getData, getAllData"]}
{"id": "C08", "title": "Shuffler delivers every item to its destination", "statement": "After Shuffler redistributes items, process p holds exactly the items whose destination was p (local ones first, then by source rank, each in original order); nothing is lost or duplicated; a destination outside the communicator is out of the contract.", "quantifier": "all process counts, item lists and destination assignments", "why_tests_cant": "holds for every assignment of items to ranks", "anchors": ["src/parallel/shuffler.hpp"]}
{"id": "C09", "title": "Communicator::divide makes contiguous groups of at most nsize", "statement": "divide(nsize) with nsize>=1 puts ranks me and me' in the same new communicator iff me/nsize = me'/nsize, hence every group has at most nsize ranks, all but the last exactly nsize.", "quantifier": "all communicator sizes and group sizes", "why_tests_cant": "arithmetic for every size", "anchors": ["src/parallel/communicator.cpp: divide"]}
{"id": "C10", "title": "Network partitioning assigns every bus and branch to one owner with complete ghosts", "statement": "After partition, each bus and each branch is active on exactly one process; every process holds both end buses of each branch it holds and every branch attached to each of its active buses; a branch is active on the process that owns one fixed end.", "quantifier": "all networks, all initial distributions, all partitioner answers", "why_tests_cant": "arbitrary graphs and arbitrary assignments to processes", "anchors": ["src/network/base_network.hpp: partition", "src/partition/graph_partitioner_implementation.cpp: partition"]}
{"id": "C11", "title": "Global indices after resetGlobalIndices are consecutive and unique", "statement": "resetGlobalIndices gives the active buses (and active branches) of the whole network the global indices 0..N-1 without gaps or repetition, in process order then local order, and every ghost copy receives the index of its owner.", "quantifier": "all networks and distributions", "why_tests_cant": "prefix sums over arbitrary process counts", "anchors": ["src/network/base_network.hpp: resetGlobalIndices"]}
{"id": "C12", "title": "Ghost update copies the owner's state to every ghost", "statement": "After updateBuses the exchange buffer of every ghost bus equals the exchange buffer of the active copy with the same global index, and active buffers are unchanged.", "quantifier": "all networks, distributions and buffer contents", "why_tests_cant": "holds for any assignment of ghosts to ranks", "anchors": ["src/network/base_network.hpp: initBusUpdate, updateBuses"]}
{"id": "C13", "title": "clean keeps exactly the active part of the network", "statement": "clean() removes exactly the inactive buses and branches, keeps the others in order with their data, and renumbers local indices (branch ends, neighbour lists, reference bus) so that every remaining reference points to the same object as before.", "quantifier": "all local networks", "why_tests_cant": "index renumbering over arbitrary graphs", "anchors": ["src/network/base_network.hpp: clean"]}
{"id": "C14", "title": "Neighbour queries agree with the branch list", "statement": "getConnectedBranches(b) lists exactly the local branches having b as an end, and getConnectedBuses(b) the buses at their other ends, after any sequence of addBus/addBranch followed by index set-up.", "quantifier": "all sequences of insertions", "why_tests_cant": "arbitrary graphs", "anchors": ["src/network/base_network.hpp: getConnectedBuses, getConnectedBranches, partition"]}
{"id": "C15", "title": "Matrix-vector indices of components are a permutation of 0..N-1", "statement": "BaseFactory::setComponents gives the active buses distinct indices covering 0..Nbus-1 over all processes, every ghost copy the same index as its owner, and every branch the index pair of its two end buses.", "quantifier": "all networks and distributions", "why_tests_cant": "prefix sums over arbitrary process counts", "anchors": ["src/factory/base_factory.hpp: setComponents"]}
{"id": "C16", "title": "checkTrue and checkTrueSomewhere are global conjunction and disjunction", "statement": "checkTrue(flag) returns true on every process iff flag was true on all, checkTrueSomewhere iff flag was true on at least one.", "quantifier": "all process counts and flag assignments", "why_tests_cant": "arbitrary number of processes", "anchors": ["src/factory/base_factory.hpp: checkTrue, checkTrueSomewhere"]}
{"id": "C17", "title": "FullMatrixMap assembles exactly the component blocks", "statement": "The matrix produced by FullMatrixMap::mapToMatrix has dimension equal to the sum of bus block sizes; its diagonal block of a bus is the bus's diagonal values, its off-diagonal blocks are the forward/reverse values of the branch joining the two buses (column-major), everything else is zero, and no entry is written outside the matrix.", "quantifier": "all networks, distributions and block sizes (including zero)", "why_tests_cant": "offset arithmetic for arbitrary block sizes and process counts", "anchors": ["src/mapper/full_map.hpp: mapToMatrix, loadBusData, loadForwardBranchData, loadReverseBranchData, setBusOffsets"]}
{"id": "C18", "title": "BusVectorMap round trip", "statement": "Mapping bus values to a vector with mapToVector and pushing the unchanged vector back with mapToBus hands each active bus exactly the values it contributed; different buses use disjoint contiguous ranges that cover the vector.", "quantifier": "all networks, distributions and block sizes", "why_tests_cant": "offset arithmetic for arbitrary block sizes and process counts", "anchors": ["src/mapper/bus_vector_map.hpp: mapToVector, mapToBus"]}
{"id": "C19", "title": "Generalised mapper index ranges tile the matrix", "statement": "GenMatrixMap/GenVectorMap give the active buses and branches disjoint contiguous row ranges that exactly cover 0..Dim-1 (each process a contiguous slab), ghosts get their owner's range, and vector -> network -> vector is the identity.", "quantifier": "all networks without self-loops, all distributions and component sizes", "why_tests_cant": "offset arithmetic and traversal of arbitrary graphs", "anchors": ["src/mapper/gen_matrix_map.hpp: getDimensions, setOffsets, setIndices", "src/mapper/gen_vector_map.hpp"]}
{"id": "C20", "title": "Keyed data reach every copy of the bus or branch", "statement": "HashDistribution::distributeBusValues delivers every (original bus index, value) pair to every process holding that bus (ghosts included), exactly once per local copy, whichever process supplied it; likewise for branches keyed by their ordered end pair.", "quantifier": "all process counts, networks and pair lists", "why_tests_cant": "chunked circular traversal over arbitrary sizes", "anchors": ["src/parser/hash_distr.hpp: distributeBusValues, distributeBranchValues"]}
{"id": "C21", "title": "Parallel lines are merged into one branch in file order", "statement": "For any sequence of branch (and 2-winding transformer) records, the parser creates one branch per unordered bus pair, oriented like its first record, whose elements are exactly the records of that pair in file order, flagged as switched iff the record is written in the opposite direction.", "quantifier": "all record sequences", "why_tests_cant": "histories of records are unbounded", "anchors": ["src/parser/block_parsers/branch_parser33.cpp: parse", "src/parser/block_parsers/transformer_parser33.cpp: parse"]}
{"id": "C22", "title": "Loads and generators are attached to their bus in file order", "statement": "For any sequence of load (generator) records the counter of each bus equals the number of records naming it and the i-th stored load is the i-th such record; records naming unknown buses are ignored without other effect.", "quantifier": "all record sequences and bus lists", "why_tests_cant": "histories of records are unbounded", "anchors": ["src/parser/block_parsers/load_parser33.cpp: parse", "src/parser/block_parsers/generator_parser33.cpp: parse"]}
{"id": "C23", "title": "RAW line cleaning and section end detection", "statement": "A line ends a section exactly when its first non-blank character is the terminator 0 standing alone; cleanComment removes the text after the first '/' that is not inside quotes and never changes anything before it; splitting a line gives one token per blank- or comma-separated field, with 0 for empty fields.", "quantifier": "all strings", "why_tests_cant": "all lines", "anchors": ["src/parser/block_parsers/base_block_parser.cpp: test_end, cleanComment, check_comment, splitPSSELine", "src/utilities/string_utils.hpp: blankTokenizer"]}
{"id": "C24", "title": "Two character tags are normalised consistently", "statement": "clean2Char maps every quoted or unquoted 1- or 2-character identifier to a canonical 2-character tag, is idempotent, and maps spellings of one identifier (quotes, blanks) to the same tag, so lookups by tag find the device.", "quantifier": "all strings", "why_tests_cant": "all spellings", "anchors": ["src/utilities/string_utils.hpp: clean2Char, trim"]}
{"id": "C25", "title": "Three winding transformer star equivalent", "statement": "The three branches created for a 3-winding transformer have pairwise series impedances equal to the given winding-to-winding impedances converted to the case base, and their in-service flags follow the PSS/E status code.", "quantifier": "all impedances, bases and status codes", "why_tests_cant": "real-valued parameters", "anchors": ["src/parser/block_parsers/transformer_parser33.cpp: parse (3-winding part)"]}
{"id": "C26", "title": "Input stream delivers every line once in order", "statement": "Reading an InputStream opened on a file or on a string vector with nextLine until it reports false yields every line exactly once, in order.", "quantifier": "all files and all string vectors", "why_tests_cant": "all contents including missing final newline", "anchors": ["src/stream/input_stream.cpp: nextLine, openFile, openStringVector"]}
{"id": "C27", "title": "Serial output prints each active bus once in global order", "statement": "SerialBusIO::write prints on the head process exactly the strings returned by the active buses that produce output, in increasing global index order, whatever the distribution.", "quantifier": "all networks, distributions and strings", "why_tests_cant": "arbitrary distributions", "anchors": ["src/serial_io/serial_io.hpp: writeStrings, gatherData"]}
{"id": "C28", "title": "Configuration lookup follows the path and leaves missing values alone", "statement": "Configuration::get(path, default) returns the value at path if present and the default otherwise; a cursor obtained with getCursor(p) answers key k like the root answers p.k; a failed pointer-style get leaves the output unchanged.", "quantifier": "all configuration trees and paths", "why_tests_cant": "all trees", "anchors": ["src/configuration/configuration.cpp: get, getCursor"]}
{"id": "C29", "title": "Block statistics do not depend on the work schedule", "statement": "StatBlock results (mean/RMS, min/max, mask counts) equal the sequential statistic of the stored columns for every row, whichever process claims which block; masked entries are excluded.", "quantifier": "all table sizes, process counts and schedules", "why_tests_cant": "dynamic scheduling over shared counter", "anchors": ["src/analysis/stat_block.cpp"]}
{"id": "C30", "title": "Network analytics count every device once", "statement": "numGenerators/numLoads/numLines/numStorage return on every process the number of devices in the whole network regardless of ghosts; the per-bus variants return the number on that bus.", "quantifier": "all networks and distributions", "why_tests_cant": "arbitrary distributions", "anchors": ["src/analysis/network_analytics.hpp"]}
{"id": "C31", "title": "Timer categories are stable and counted correctly", "statement": "createCategory returns the same handle for the same title and distinct handles for distinct titles after any history; start/stop counts equal the number of calls made while timing is enabled.", "quantifier": "all call sequences", "why_tests_cant": "unbounded histories", "anchors": ["src/timer/coarse_timer.cpp"]}
{"id": "C32", "title": "Newton-Raphson loop terminates with a stated reason", "statement": "solve stops after at most the maximum number of iterations; on return either the last correction norm is within tolerance or the iteration limit was reached, and X is the initial guess plus the sum of the corrections applied.", "quantifier": "all problems, tolerances, iteration limits and linear solver answers", "why_tests_cant": "arbitrary nonlinear functions", "anchors": ["src/math/newton_raphson_solver_implementation.hpp: solve"]}
{"id": "C33", "title": "DAE events are dispatched to their owners", "statement": "DAEEventManager::values concatenates the events' values in order of addition; handle calls exactly the events having a triggered component, once, each with its own slice of flags, and marks the simulation terminated iff some triggered component asks for it.", "quantifier": "all sets of events, sizes and trigger sets", "why_tests_cant": "arbitrary event sets", "anchors": ["src/math/dae_event.hpp: DAEEventManager"]}
{"id": "C34", "title": "Control blocks respect their limits and initialise at steady state", "statement": "The state and output of a limited control block stay within their limits after every update; a block initialised from a desired output reproduces it and is at rest as long as its input does not change.", "quantifier": "all parameters, inputs, step sizes and update histories", "why_tests_cant": "real-valued trajectories", "anchors": ["src/applications/modules/dynamic_simulation_full_y/cblock.cpp"]}
{"id": "C35", "title": "Network admittance matrix equals the sum of pi-equivalents", "statement": "The Y-bus contributions computed by buses and branches equal, entry by entry, the sum over in-service elements of the pi-model of the line or (phase shifting) transformer, plus bus shunts.", "quantifier": "all networks and parameter values with non-zero impedance", "why_tests_cant": "complex arithmetic over all parameters", "anchors": ["src/applications/components/y_matrix/ymatrix_components.cpp"]}
{"id": "C36", "title": "Power flow Jacobian is the derivative of the mismatch", "statement": "Every entry of the Jacobian blocks delivered by buses and branches is the partial derivative of the corresponding mismatch component with respect to the corresponding voltage angle or magnitude, for each combination of PQ, PV and reference buses.", "quantifier": "all voltages and admittances, all networks", "why_tests_cant": "continuous parameters", "anchors": ["src/applications/components/pf_matrix/pf_components.cpp: diagonalJacobianValues, forwardJacobianValues, reverseJacobianValues, rhsValues"]}
{"id": "C37", "title": "Power flow block sizes agree between buses and branches", "statement": "For each bus type combination the forward and reverse block a branch announces has as many rows and columns as the diagonal blocks of the two buses, so the assembled Jacobian is well formed.", "quantifier": "all bus type combinations and modes", "why_tests_cant": "combinations with isolated/inactive elements", "anchors": ["src/applications/components/pf_matrix/pf_components.cpp: matrixDiagSize, matrixForwardSize, matrixReverseSize"]}
{"id": "C38", "title": "Reactive limit conversion and restoration", "statement": "chkQlim converts a PV bus to PQ exactly when its required reactive generation is outside the sum of the limits of its in-service generators, preserving the net injection at the violated limit; clearQlim restores the bus to its state before conversion.", "quantifier": "all generator sets and limits", "why_tests_cant": "continuous parameters and histories of conversions", "anchors": ["src/applications/components/pf_matrix/pf_components.cpp: chkQlim, clearQlim"]}
{"id": "C39", "title": "Voltage angles stay in the principal range", "statement": "After every correction, the stored bus angle differs from the unwrapped angle by a multiple of 2 pi and lies in [-pi, pi].", "quantifier": "all angles and corrections", "why_tests_cant": "continuous parameters", "anchors": ["src/applications/components/pf_matrix/pf_components.cpp: setValues"]}
{"id": "C40", "title": "Generator participation and scaling stay within limits", "statement": "Participation factors of the in-service generators of a bus sum to one; scaling by a value in [-1,1] keeps every generator within its real power limits, and resetting power restores the loaded values.", "quantifier": "all generator sets", "why_tests_cant": "continuous parameters", "anchors": ["src/applications/components/pf_matrix/pf_components.cpp: load, scaleGeneratorRealPower, resetPower"]}
{"id": "C41", "title": "Ghost branch update copies the owner's state to every ghost branch", "statement": "initBranchUpdate followed by updateBranches gives the exchange buffer of every ghost branch the content of the exchange buffer of the active copy with the same global index, and leaves active buffers unchanged.", "quantifier": "all networks, distributions, process counts and buffer contents", "why_tests_cant": "holds for any assignment of ghosts to ranks; memory errors depend on the process count", "anchors": ["src/network/base_network.hpp: initBranchUpdate, updateBranches"]}
{"id": "C42", "title": "GenMatrixMap inserts every branch value exactly once", "statement": "Every matrix element supplied by a branch is inserted into the matrix exactly once, by the process owning its row, no matter which process holds the active copy of the branch.", "quantifier": "all branches, all distributions of the rows, all element lists", "why_tests_cant": "depends on the distribution of rows and on which copy is active", "anchors": ["src/mapper/gen_matrix_map.hpp: loadBranchData, numberNonZeros"]}
{"id": "C43", "title": "Buses can be referred to by number or by quoted name", "statement": "Wherever a RAW record refers to a bus, the decimal number of the bus (with sign and blanks) yields its absolute value, and a quoted name yields the number stored for that name without surrounding blanks, or -1 for an unknown name.", "quantifier": "all numbers of type int, all names and paddings", "why_tests_cant": "all names and paddings", "anchors": ["src/parser/block_parsers/base_block_parser.cpp: getBusIndex, check_string, parseBusName"]}
{"id": "C44", "title": "The bus section gives every bus its fields and its position", "statement": "For any bus section, the parser creates one bus per record in file order holding exactly the fields of the record; a bus number refers to the first record with that number, a bus name to the first record with that name, and the largest bus number is reported.", "quantifier": "all bus sections", "why_tests_cant": "sections are unbounded", "anchors": ["src/parser/block_parsers/bus_parser33.cpp: parse"]}
{"id": "C45", "title": "A section is read up to its terminating line", "statement": "For any section, whatever its records are, the parser handles exactly the records of the lines before the first terminating line, in order, skips comment lines and leaves the rest of the file to the next section; it always ends.", "quantifier": "all files and all sections", "why_tests_cant": "files are unbounded and termination is not a finite observation", "anchors": ["src/parser/block_parsers/load_parser33.cpp: parse", "src/parser/block_parsers/base_block_parser.cpp: test_end, check_comment", "src/stream/input_stream.cpp: nextLine"]}
{"id": "C46", "title": "Nonlinear control blocks compute their documented function", "statement": "Gain limiters return the gain times the input limited to the limits, and with rate limits never change the output faster than the rates allow; slopes, dead bands and piecewise linear blocks return the documented function of the input; initialising a piecewise block from an output finds an input giving that output; low and high value gates return the smaller and the larger value.", "quantifier": "all parameters, inputs, time steps and histories of calls", "why_tests_cant": "parameters and inputs are real numbers and the blocks keep state between calls; tests sample a few points", "anchors": ["src/applications/modules/dynamic_simulation_full_y/dblock.hpp:GainLimiter,Slope,Deadband,PiecewiseSlope,LVGate,HVGate", "src/applications/modules/dynamic_simulation_full_y/dblock.cpp"]}
{"id": "C47", "title": "Reported line flows are the power entering the element", "statement": "For every line or transformer in service and all bus voltages, the complex power reported for the element is the power that enters it at its first bus according to the two-port law; elements with non-negative resistance absorb real power, lossless ones pass it on, and elements out of service carry none.", "quantifier": "all parameters, voltages and tags", "why_tests_cant": "parameters and voltages are real numbers", "anchors": ["src/applications/components/pf_matrix/pf_components.cpp: getComplexPower", "src/applications/components/y_matrix/ymatrix_components.cpp: getLineElements, getRvrsLineElements"]}
{"id": "C48", "title": "Contingencies take out exactly what they name and can be undone", "statement": "Setting a contingency takes exactly the named lines and generators out of service, marks exactly the buses left without any line in service as isolated and reports whether all locations were found in the network; unsetting it restores every status and isolated flag, also when several contingencies are set and unset in reverse order.", "quantifier": "all networks, distributions over processes, contingencies and what is computed in between", "why_tests_cant": "networks and contingencies are unbounded and the property relates states before and after arbitrary computations", "anchors": ["src/applications/modules/powerflow/pf_app_module.cpp: setContingency, unSetContingency", "src/applications/modules/powerflow/pf_factory_module.cpp: checkLoneBus, clearLoneBus", "src/applications/components/pf_matrix/pf_components.cpp: setGenStatus, setBranchStatus"]}
{"id": "C49", "title": "Limit checks report exactly the violations", "statement": "Voltage, line and reactive power checks answer true exactly when no element that is not ignored violates its limit, on all processes together and for one area; the recorded violations are exactly the violating elements and can be read on every process; ignoring the present violations makes the check pass and clearing makes all of them count again.", "quantifier": "all states of the network, areas, ratings and distributions over processes", "why_tests_cant": "voltages, flows and limits are real numbers and the answer is a reduction over any number of processes", "anchors": ["src/applications/modules/powerflow/pf_factory_module.cpp: checkVoltageViolations, ignoreVoltageViolations, checkLineOverloadViolations, ignoreLineOverloadViolations, checkQlimViolations, getViolations"]}
{"id": "C50", "title": "Area totals and scaling count every element once", "statement": "The total load, the generation margins and the scaling of generation and load for an area or zone apply to exactly the elements in service on its buses, each once, however the network is distributed.", "quantifier": "all networks, areas, zones, factors and distributions over processes", "why_tests_cant": "values are real numbers and networks and distributions are unbounded", "anchors": ["src/applications/modules/powerflow/pf_factory_module.cpp: getTotalLoadRealPower, getGeneratorMargins, scaleGeneratorRealPower, scaleLoadPower"]}
{"id": "C51", "title": "Two-winding transformers mean what the file says", "statement": "For every transformer section the two-winding transformers between two buses are, in file order, elements of the branch of that pair after those read before, each with its own tag and the data of its record, and with a ratio, phase shift and impedance on the case base that give the same voltages and currents at both terminals as the transformer described.", "quantifier": "all sections, versions 33 to 35, impedances, winding voltages, bases and codes", "why_tests_cant": "files are unbounded and parameters are real numbers", "anchors": ["src/parser/block_parsers/transformer_parser33.cpp: parse", "src/parser/block_parsers/transformer_parser34.cpp: parse", "src/parser/block_parsers/transformer_parser35.cpp: parse"]}
{"id": "C52", "title": "Complex matrices and vectors on a real library behave like complex ones", "statement": "In the build whose math library knows only real numbers, every program of matrix and vector calls (construction, setting and adding elements, scale, real, imaginary, conjugate, transpose, products, diagonals, columns, elementwise vector operations, norms, reads) gives the results that the same program gives in complex arithmetic, and a solution of the real system the library is given is a solution of the complex system.", "quantifier": "all programs, sizes, elements, sparsity patterns and distributions of vectors", "why_tests_cant": "programs and sizes are unbounded and elements are complex numbers", "anchors": ["src/math/value_transfer.hpp", "src/math/complex_operators.hpp", "src/math/petsc/petsc_matrix_implementation.hpp", "src/math/petsc/petsc_vector_implementation.hpp", "src/math/petsc/petsc_matrix_operations.cpp: transpose, multiply, column, diagonal, transposeMultiply", "src/math/fallback_matrix_methods.hpp", "src/math/vector_implementation.cpp: p_real, p_imaginary"]}
{"id": "C53", "title": "Linear solvers answer for the matrix and right hand side they are given", "statement": "Whatever the library solver, every program of solve, resolve and multiple right hand side calls, with changes of the matrix in between, gets for each right hand side a vector the library accepted for the present matrix and exactly that right hand side, distributed like the solution vector; columns of solutions stand in the places of their right hand sides; a call throws exactly when the library gives up or resolve precedes every solve. This holds in the distributed mode and in the forced serial mode.", "quantifier": "all libraries, programs, sizes, distributions over processes and options", "why_tests_cant": "programs, matrices and distributions are unbounded and the state kept between calls depends on the whole history", "anchors": ["src/math/linear_solver_implementation.hpp: p_solve, p_resolve, p_serialSolvePrep, p_serialSolutionDist", "src/math/petsc/petsc_linear_solver_implementation.hpp: p_solveImpl, p_resolveImpl", "src/math/linear_matrix_solver_implementation.hpp", "src/math/petsc/petsc_linear_matrix_solver_impl.hpp: p_solve, p_factor"]}
{"id": "C54", "title": "State estimation solves the weighted least squares problem of its measurements", "statement": "For every network and every set of bus and branch measurements, the residuals formed are measured minus calculated values of the network model at the present voltages, the rows of the Jacobian are their derivatives with respect to the angles and magnitudes, the weights are reciprocal variances, and all of them fit the sizes announced to the mappers; the right hand side of an iteration is minus the gradient of the weighted sum of squares, the iteration stops moving exactly at its stationary points, each correction minimises the linearised problem, and it is added to the voltages it belongs to.", "quantifier": "all networks, measurements, deviations and voltages", "why_tests_cant": "measurements and voltages are real numbers and the sets are unbounded; derivatives cannot be tested pointwise", "anchors": ["src/applications/components/se_matrix/se_components.cpp: configureSE, matrixNumRows, matrixNumCols, matrixGetValues, vectorGetElementValues, setValues, load", "src/applications/modules/state_estimation/se_app_module.cpp: solve, getMeasurements"]}
{"id": "C55", "title": "An exported case is complete and reads back as the same case", "statement": "The PSS/E version 33 export writes every record once, ordered by global index and then by device, whatever the distribution of the network over the processes and the order in which their operations take effect; reading the file gives the same buses, loads, fixed shunts, generators and lines in that order, with every value of their records, the solved voltages and generator powers in place of the initial ones.", "quantifier": "all networks, distributions over processes, orders of the one-sided operations and printers of real numbers", "why_tests_cant": "networks, distributions and interleavings are unbounded", "anchors": ["src/export/base_export.hpp: writeDataBlock", "src/export/PSSE33Export.hpp: writeFile", "src/export/data_blocks/export_bus33.hpp", "src/export/data_blocks/export_load33.hpp", "src/export/data_blocks/export_fxshnt33.hpp", "src/export/data_blocks/export_gen33.hpp", "src/export/data_blocks/export_line33.hpp", "src/export/data_blocks/export_xform33.hpp", "src/parser/block_parsers/case_parser33.cpp: parse"]}
{"id": "C56", "title": "A simulation without a disturbance stays at the power flow solution", "statement": "Dynamic simulation started from a power flow solution and run without events: setup succeeds, every network solution of every time step is the power flow solution, and every machine stays at nominal speed with the power of the power flow, the field voltage and mechanical power that the machine equations require for it, and its rotor angle; by themselves, exciters keep the field voltage at constant terminal voltage and governors the mechanical power at nominal speed.", "quantifier": "all networks at a power flow solution, machines, exciters, governors and their parameters, lengths and numbers of time steps", "why_tests_cant": "networks, parameters and numbers of steps are unbounded; a test shows one system for some seconds, within a tolerance that hides slow drift", "anchors": ["src/applications/modules/dynamic_simulation_full_y/dsf_app_module2.cpp: setup, runonestep, run", "src/applications/modules/dynamic_simulation_full_y/dsf_components.cpp: load, matrixDiagValues, initDSVect, predictor_currentInjection, predictor, corrector_currentInjection, corrector", "src/applications/modules/dynamic_simulation_full_y/base_classes", "src/applications/modules/dynamic_simulation_full_y/model_classes: classical, gensal, genrou, exdc1, ieeet1, sexs, tgov1, gast, hygov, wsieg1"]}
{"id": "C57", "title": "Switching events give the simulation the network after the switching", "statement": "In a dynamic simulation with bus faults, line switching and generator switching at given times, the matrix every time step solves with expresses Kirchhoff's law for the network in which exactly the switching due up to that step has been done, in the order of the events, whatever the distribution over processes; the steps are equally spaced, every event takes effect once, and the run ends at the end time.", "quantifier": "all networks, distributions, sequences of events, time steps and numbers of steps", "why_tests_cant": "the orders and times of events are unbounded, and errors left by one event show only after later ones", "anchors": ["src/applications/modules/dynamic_simulation_full_y/dsf_events.cpp: handleEvents", "src/applications/modules/dynamic_simulation_full_y/dsf_app_module2.cpp: run, setLineStatus, setGenStatus, reset", "src/applications/modules/dynamic_simulation_full_y/dsf_components.cpp: setFault, setGenStatus, setLineStatus, matrixDiagValues, matrixForwardValues, matrixReverseValues, load", "src/mapper/full_map.hpp: incrementMatrix"]}
{"id": "C58", "title": "Dynamic model parameters reach the device they are for", "statement": "After reading a .dyr file, every parameter of a record for a generator model, a load model or a relay is in the data of the device the record names, under the key and type the dictionary gives it, and with the value in its word of the record; relays of a bus are numbered without gaps, all parameters of one record under one number; other data does not change; this is so whether the file is read before the network is distributed or afterwards with any order of arrival, and every readable file is read to the end.", "quantifier": "all files, networks, numbers of records, record types (27 for generators, 4 for loads, 3 for relays), data already there, and orders of arrival", "why_tests_cant": "34 record types with up to 140 parameters, each handled in two or three places, with branches that depend on earlier records and on the word count", "anchors": ["src/parser/base_pti_parser.hpp: getDS, getDSExternal, find_ds_par, find_ds_vector, onGenerator, onBus, onBranch, onLoad, splitPSSELine", "src/parser/parser_classes: extract, parse, store of all classes", "src/parser/dictionary.hpp and variable_defs", "src/utilities/string_utils.hpp: clean2Char, trimQuotes, toUpper"]}
{"id": "C59", "title": "A contingency is judged by itself", "statement": "Contingency analysis: the list of line and generator contingencies is read from the input as written; every contingency of the list is processed exactly once, whatever the number of processes and the order in which they fetch tasks; what is reported for it (success, violation code, voltages, flows, generation, performance) is what the network of the case gives with the named elements out of service and everything else in service, whatever was processed before; the columns of the statistics are the base case and the contingencies in the order of the list; success.txt holds the status of every contingency.", "quantifier": "all networks, lists of contingencies, results of the power flow solver, numbers of processes and orders of fetching tasks", "why_tests_cant": "the state a process carries from task to task depends on the whole history of tasks, and their distribution on timing", "anchors": ["src/applications/contingency_analysis/ca_driver.cpp: getContingencies, execute", "src/applications/modules/powerflow/pf_app_module.cpp: solve, setContingency, unSetContingency, resetVoltages, checkVoltageViolations, checkLineOverloadViolations, ignoreVoltageViolations, ignoreLineOverloadViolations, checkQlimViolations, clearQlimViolations", "src/applications/modules/powerflow/pf_factory_module.cpp", "src/applications/components/pf_matrix/pf_components.cpp: serialWrite"]}
{"id": "C60", "title": "Relays operate when they should, and the network follows", "statement": "Dynamic simulation: a load shedding relay (LVSHBL), a frequency relay (FRQTPAT) and a distance relay (DISTR1) operate at most once, and do so at exactly the time step at which the monitored condition has held in a row for the pick-up time and the breaker time has passed since; every relay sees the voltage, frequency or current of its own bus or line element at every time step; when relays operate, the admittance matrix of the network changes by exactly the load fractions shed, the generators taken out and the line elements opened, once each, and by nothing else.", "quantifier": "all relay parameters, time steps, histories of voltages and frequencies, networks and combinations of relays", "why_tests_cant": "timers and trip flags carry state from step to step, and relays interact through the shared matrix; a test sees a few histories", "anchors": ["src/applications/modules/dynamic_simulation_full_y/model_classes/lvshbl.cpp: updateRelay", "src/applications/modules/dynamic_simulation_full_y/model_classes/frqtpat.cpp: updateRelay", "src/applications/modules/dynamic_simulation_full_y/model_classes/distr1.cpp: updateRelay", "src/applications/modules/dynamic_simulation_full_y/dsf_components.cpp: updateRelay, computeBusVolFrequency, matrixDiagValues, matrixForwardValues, getBranchRelayTripUpdateFactor", "src/applications/modules/dynamic_simulation_full_y/dsf_factory.cpp: updateBusRelay, updateBranchRelay", "src/applications/modules/dynamic_simulation_full_y/dsf_app_module2.cpp"]}
{"id": "C61", "title": "A table of values for devices reaches the processes that hold the buses", "statement": "Reading a table of values for devices on buses gives every process, for each of its buses including copies, each row of the file with that bus number exactly once: local index, two character tag and the values of the columns of one row stay together; the number of columns and the comments at the start are what the file has; this holds whatever the object held before, and the table can be read again and destroyed.", "quantifier": "all files of the documented form, networks, distributions of buses and copies over processes, and orders of arrival", "why_tests_cant": "the rows go through a buffer of fixed size into a shared array and through a hash distribution; whether row numbers, tags and buses stay together depends on sizes and distribution, and errors show only for particular numbers of lines, comments and processes", "anchors": ["src/parser/bus_table.hpp: readTable, getLocalIndices, getTags, getValues, getHeaders, getNumColumns, destructor", "src/parser/hash_distr.hpp: distributeBusValues", "src/utilities/string_utils.hpp: trim, clean2Char"]}
{"id": "C62", "title": "Components find their rows in a dense matrix and get them back", "statement": "The slab mapper: if all rows supplied by buses and branches have the same length, the matrix it makes has exactly these rows, those of an active component at the row indices the component was given, whatever the order of insertion and the distribution over processes; copies of a component have the indices of the original; pushing a matrix to the network gives every active component the rows at its indices, so that network to matrix to network and matrix to network to matrix change nothing; rows of different lengths are reported.", "quantifier": "all networks, distributions over processes, numbers of rows of the components, numbers of columns and orders of insertion", "why_tests_cant": "row indices come from sums over processes, neighbour lists and global arrays, and rows are fetched through a sorting permutation; errors show only for particular shapes and distributions", "anchors": ["src/mapper/gen_slab_map.hpp: GenSlabMap, mapToMatrix, intMapToMatrix, mapToNetwork", "src/math/petsc/petsc_matrix_implementation.hpp: p_getRowBlock, createDense", "src/math/petsc/petsc_matrix_wrapper.cpp: p_build_matrix"]}
{"id": "C63", "title": "The Global Arrays shuffler delivers under every schedule", "statement": "Redistributing things with the shuffler over Global Arrays gives every process its own things followed by those the others sent to it, by process, exactly as the MPI shuffler does: nothing is lost, duplicated or delivered elsewhere, whatever the order in which the processes run between the synchronisations; the call neither fails nor gets stuck and returns on every process.", "quantifier": "all numbers of processes, lists of things and destinations, serialisations that can be read back, and all interleavings of the processes", "why_tests_cant": "the processes share two arrays and one row per receiver is reused for every sender; whether a reader sees the right sender's data depends on timing that a test does not control", "anchors": ["src/parallel/ga_shuffler.hpp: gaShuffler::operator()", "src/parallel/shuffler.hpp: Shuffler::operator()"]}
{"id": "C64", "title": "Exchange buffers: every bus has its own, and no memory is lost or used after it is gone", "statement": "In every history of adding buses or branches, allocating exchange buffers, freeing them, replacing them by arrays of pointers to buffers from outside, setting and fetching pointers, and clearing the network, each call made as meant returns what it should: a distinct allocated buffer for each index, the pointer set last, or an exception for a bad index or size. No memory is touched that is not allocated, nothing is deleted twice, and when the network is destroyed no buffer is left. A factory may set up the exchange any number of times.", "quantifier": "all histories of calls, numbers of buses and branches, buffer sizes and pointers", "why_tests_cant": "leaks, double deletes and reads of freed memory depend on the order of calls over the life of a network and often have no visible effect in a test", "anchors": ["src/network/base_network.hpp: allocXCBus, freeXCBus, allocXCBusPointers, setXCBusBuffer, getXCBusBuffer, allocXCBranch, freeXCBranch, allocXCBranchPointers, setXCBranchBuffer, getXCBranchBuffer, clear, ~BaseNetwork", "src/factory/base_factory.hpp: setExchange"]}
{"id": "C65", "title": "A copy of a network answers as the original", "statement": "Copying a network into one with other components gives a network that answers every accessor as the original does, for every index, in range or not: original and global indices, active flags, ends and neighbours, reference bus, data of buses, branches and network. Lookups by original index find exactly the right buses and branches, the components are new, and what the target held before does not matter. A network that was partitioned can always be copied; one in which a branch lacks an end makes the copy throw.", "quantifier": "all networks on a process, targets, component types and indices", "why_tests_cant": "the copy is made through a dozen modifiers whose failures are ignored; a test compares the few fields of the few networks it builds", "anchors": ["src/network/base_network.hpp: clone, clear, setMap, addBus, addBranch, setReferenceBus, getConnectedBuses, getLocalBusIndices, getLocalBranchIndices"]}
{"id": "C66", "title": "Components know their neighbours, and only those", "statement": "When a factory sets up the components of a network whose branches have their ends, then afterwards every bus knows its original and global index, the branches that end at it and the buses at their other ends, in the order of the network's lists; every branch knows the components at its ends and their indices; the reference bus is marked. What the components held before does not matter (except an earlier mark), and doing it again changes nothing. A network with a branch without ends is refused. Loading makes the last bus that says so the reference bus, and saving writes every component's state into the data of its own bus.", "quantifier": "all networks on a process with distinct components, earlier states of the components and marks", "why_tests_cant": "the set-up is seven loops over lists of indices into lists of pointers, and a wrong neighbour shows only in the equations of networks with parallel branches or ghosts", "anchors": ["src/factory/base_factory.hpp: BaseFactory, setComponents, load, saveData", "src/component/base_component.cpp: addBus, addBranch, clearBuses, clearBranches, setReferenceBus, getBus1, getBus2, setBus1, setBus2", "src/network/base_network.hpp: getConnectedBuses, getConnectedBranches, getBranchEndpoints"]}
{"id": "C67", "title": "The path rating search keeps the power balance and finds the rating", "statement": "Scaling to a rating multiplies all loads of the destination that are on by one factor and changes the generation of the source by exactly the same power, without moving a generator out of its limits and without touching anything else; the driver says that the capacity suffices exactly if it does, and resetting restores the input. Starting from a secure system the search ends if the capacity is finite, with a rating that is reachable while the next hundredth is not; starting from an insecure one it finds the highest secure rating if the capacity suffices. A branch is taken for a tie line if its ends are in the two zones, in either direction.", "quantifier": "all ratings, areas, zones, sets of loads and generators within their limits, and all answers of the contingency runs", "why_tests_cant": "the search is driven by the outcome of many power flows, which a test replaces by one case that converges; wrong signs and margins cancel in symmetric examples", "anchors": ["src/applications/rtpr/rtpr_driver.cpp: adjustRating, execute, getTieLines", "src/applications/modules/powerflow/pf_factory_module.cpp: scaleGeneratorRealPower, scaleLoadPower, getTotalLoadRealPower, getGeneratorMargins, resetPower", "src/applications/components/pf_matrix/pf_components.cpp: scaleGeneratorRealPower, scaleLoadPower, resetPower, getGeneratorMargins, getLoadPower"]}
{"id": "C68", "title": "The N-1 contingency lists hold every unit in service exactly once", "statement": "The list of generator contingencies of an area (and zone, if one above zero is given) has on every process one contingency for each generator in service at a bus of the area, with the number of the bus and the name of the generator however it is spelled, and no other; the list of branch contingencies has one for each circuit in service between two buses of the area. They come in the order of the processes and are numbered from one without gaps. If there is none the list is empty. The list of watched generators has the same generators.", "quantifier": "all areas and zones, all buses, generators and circuits, all distributions over any number of processes and all orders of events while the lists are joined", "why_tests_cant": "a contingency that is missing or doubled does not stop the study, and whether the joining of the lists is right depends on the timing of the processes", "anchors": ["src/applications/rtpr/rtpr_driver.cpp: createGeneratorContingencies, createBranchContingencies, findWatchedGenerators", "src/parallel/global_vector.hpp: addElements, upload, getAllData", "src/utilities/string_utils.hpp: clean2Char"]}
{"id": "C69", "title": "Controller blocks hold their start, keep their limits and respond as designed", "statement": "A delay, limited delay, lead-lag or proportional-integral block that is initialised at an output and fed the input init returns gives that output for ever. The blocks with limits never give an output outside of them and the integral does not wind up. A delay fed a constant input approaches it without passing it. A backlash keeps its output within half of the play of the input and moves no more than the input; a dead band passes nothing inside of the band and, with full hysteresis, follows the input from leaving the band until it changes sides.", "quantifier": "all parameters, states, inputs, time steps and histories of predictor and corrector calls", "why_tests_cant": "the histories are unbounded and the branches depend on exact comparisons with limits and on the order of the calls", "anchors": ["src/applications/modules/dynamic_simulation_full_y/model_classes/DelayBlock.cpp: init, predictor, corrector", "src/applications/modules/dynamic_simulation_full_y/model_classes/DelayBlockwithLimit.cpp: init, predictor, corrector", "src/applications/modules/dynamic_simulation_full_y/model_classes/LeadLagBlock.cpp: init, predictor, corrector", "src/applications/modules/dynamic_simulation_full_y/model_classes/PIBlockwithLimit.cpp: init, predictor, corrector", "src/applications/modules/dynamic_simulation_full_y/model_classes/BackLashClass.cpp: Output", "src/applications/modules/dynamic_simulation_full_y/model_classes/DBIntClass.cpp: Initialize, Output"]}
{"id": "C70", "title": "Random numbers depend on the seed and the process only", "statement": "With the same argument different processes get different seeds and the sign of the argument does not matter; seeding again makes the object give the numbers that a new object with that seed gives, for every later sequence of calls; two calls for normal numbers give the coordinates of the first drawn point inside of the unit circle, moved to the distance that makes them normal, and use up exactly the draws up to it.", "quantifier": "all seeds, processes, generators and programs of calls", "why_tests_cant": "the sequences are unbounded and a test with a fixed seed fixes one of them", "anchors": ["src/parallel/random.cpp: Random, seed, drand, grand"]}
{"id": "C71", "title": "A voltage dependent load takes the power of its load law", "statement": "At every voltage of at least 0.7 and every frequency the admittance and the current of a static load together take the power of the data times its shares times powers of the relative voltage; below, the constant current and constant power parts fade out to zero without a jump; at the initial voltage and frequency the load takes the power of the data, whatever the shares are.", "quantifier": "all loads, shares, exponents, voltages and frequencies", "why_tests_cant": "the voltages and shares are continuous and a wrong share shows only in how the load responds to a disturbance", "anchors": ["src/applications/modules/dynamic_simulation_full_y/model_classes/ieel.cpp: load, init, predictor_currentInjection, corrector_currentInjection"]}
{"id": "C72", "title": "A wind turbine stays at its start and its speed obeys the swing equation", "statement": "A drive train with its aerodynamics, started at a power, an angle and a reference speed and run with that power and pitch, keeps both speeds and the angle for ever; with another power or pitch the generator gets the acceleration that its inertia, the two torques and the damping give, and the angle the rate of the speed deviation.", "quantifier": "all parameters, starts, time steps, powers and pitch angles, runs of any length", "why_tests_cant": "a start that is slightly off shows only as a slow drift, and the runs are unbounded", "anchors": ["src/applications/modules/dynamic_simulation_full_y/model_classes/wtdta1.cpp: load, init, computeModel", "src/applications/modules/dynamic_simulation_full_y/model_classes/wtara1.cpp: init, predictor, corrector", "src/applications/modules/dynamic_simulation_full_y/model_classes/regca1.cpp: init, computeModel"]}
{"id": "C73", "title": "A pitch controller at its references does nothing and the pitch angle keeps its limits", "statement": "A pitch controller started at an angle within its limits keeps that angle for ever while power and speed are at their references; whatever it is given, the pitch angle stays within the limits of the data; a deviation of power or speed makes the pitch and the integrals move at the rates that the gains give.", "quantifier": "all parameters, starts, inputs, time steps and runs of any length", "why_tests_cant": "the runs are unbounded and the limits act on states that are not printed", "anchors": ["src/applications/modules/dynamic_simulation_full_y/model_classes/wtpta1.cpp: load, init, computeModel", "src/applications/modules/dynamic_simulation_full_y/model_classes/regca1.cpp: computeModel"]}
