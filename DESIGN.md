# A Rocq (Coq 8.16.1) model of GridPACK

## 1. Method

* Every model file `*Model.v` contains small, total, computable definitions; each carries a comment with the
  file and lines of /repo it models and the simplifications made.
* A small separate file or section `*Spec.v` states what the property means without using the model's helpers.
* Proofs live in `*Proofs.v`; the property theorems live in `*Props.v`, where each theorem is closed by
  `exact <lemma>` and followed by `Print Assumptions`, and beside it an `Example` shows that a non-trivial
  concrete case meets its hypotheses.
* A parallel program is modelled by the list of the states of its ranks; a collective (MPI / Global Arrays)
  operation is a function on that list.  Concurrent one-sided operations (`NGA_Read_inc`) are modelled by
  arbitrary interleavings (an arbitrary list of caller ranks).
* Undefined behaviour, C++ exceptions and normal results are distinct outcomes (`UB`, `Throw`, `Ok`).
* False properties of the code become `..._refuted` theorems with a concrete witness (a finding);
  a property proved only in part has theorems named `..._partial`.

## 2. Plan per property

| id | modelled | proof |
|----|----------|-------|
| C01 | the seven typed maps of DataCollection and all operations on them | refinement to an abstract function `type -> name -> option value`, induction over operation lists |
| C02 | key construction `name ":" decimal(idx)`, the 8 byte buffer | injectivity of decimal printing and of the join; UB characterised exactly |
| C03 | shared counter, `nextTask`, `cancel` | invariant over arbitrary interleavings |
| C04 | group `nextTask` with the `+` reduction | invariant over interleavings of groups |
| C05 | owner computation, exchange, owner multimap, query round trip | permutation of results equals the multimap query |
| C06 | size exchange, prefix sums, flat data array, index array | lookup equals the added vector |
| C07 | flat array upload, gap filling, reload | lookup equals the added element |
| C08 | per-destination bins, all-to-all | exact list equation |
| C09 | the colouring loop of `divide` | closed form by induction |
| C10 | partitioner answer handling, ghost construction, shuffles, activity flags | ownership and completeness theorems |
| C11 | counting, prefix sums, scatter/gather through global arrays | bijection with 0..N-1, ghost = owner |
| C12 | scatter of active buffers, gather into ghosts | ghost buffer = owner buffer |
| C13 | `clean` on a local network | renumbering correctness; refutation for the reference bus |
| C14 | neighbour lists | equivalence with the branch list |
| C15 | `setComponents` numbering | as C11 |
| C16 | all-reduce of 0/1 flags | equivalence with forall / exists |
| C17 | block size arrays, offsets, block insertion | entry-wise characterisation of the assembled matrix |
| C18 | offsets, vector load and read back | round trip |
| C19 | `getDimensions`, `setOffsets` traversal, index assignment | tiling theorem under no-self-loop; refutation for self loops |
| C20 | the pairs in one global array, chunk boundaries in IEEE doubles (Flocq rounding), rotated traversal | the chunks tile the array; what a process receives is a permutation of what its copies are due |
| C21 | the record loop of the branch / transformer parsers | refinement to grouping by unordered pair |
| C22 | the record loop of load / generator parsers | refinement to filtering |
| C23 | `test_end`, `cleanComment`, `splitPSSELine`, `blankTokenizer` on character lists | equivalence with declarative specs, refutations |
| C24 | `clean2Char`, `trim` | idempotence, canonical form |
| C25 | the transformer sections (versions 33, 34, 35), three windings, numbers over R | induction over records; equations for the star; refutations |
| C26 | stream state machine on files and vectors | completeness; refutation for missing final newline |
| C27 | mask / scatter / per-process gather | output equals filtered concatenation in global order |
| C28 | property tree lookup, cursors, get variants | laws; refutations |
| C29 | block claims from a shared counter, per-row statistics | schedule independence; masking refutation for min/max |
| C30 | counters and per-bus queries | sums over owners |
| C31 | category table and counters | invariant over call sequences |
| C32 | the solver loop with oracle linear solver | termination and exit condition |
| C33 | event manager | list equations; refutation for termination flag |
| C34 | Cblock update/initialisation over R | limits invariant, steady state |
| C35 | branch/bus admittance assembly over C | equality with pi-model sums |
| C36 | Jacobian entries over R | `is_derive` (Coquelicot) |
| C37 | size functions | case analysis |
| C38 | Q-limit conversion | characterisation, refutations |
| C39 | angle wrapping with fmod | range and congruence |
| C40 | participation factors, scaling | sums and bounds |
| C41 | as C12, for branches | copy phase as C12; refutation for the allocation in `initBranchUpdate` |
| C42 | `GenMatrixMap::loadBranchData` filter per process | exactly-once theorem outside the own columns; refutation inside |
| C43 | `getBusIndex`, `check_string`, `atoi` on character lists | read back of every number / padded name; refutations |
| C44 | the record loop of the bus parser | induction over records, first-match maps |
| C45 | the section loop over lines | induction over lines; non-termination at end of file |
| C46 | nonlinear control blocks (gains, slopes, deadbands, gates) over R | clamps, piecewise inverse, call histories; refutations for unchecked parameters |
| C47 | line and transformer flows from the terminal voltages | field identities over C against the two-port law; refutation for end shunts |
| C48 | `setContingency`, `unSetContingency`, lone buses, on one process | abstract status lists with put/get; invariant under commuting updates |
| C49 | limit checks of the power flow factory on all processes | list equations for flags and recorded violations; refutations |
| C50 | area totals, margins and scaling | sums over filtered lists; fold over distinct ids |
| C51 | the same sections, two windings | as C25; the stored element against two ideal transformers and an impedance |
| C52 | complex matrices and vectors as 2 x 2 blocks and pairs of reals on a real library | simulation between programs on complex numbers and on the library; block structure as the invariant |
| C53 | `LinearSolver` (distributed, serial, multiple right hand sides), `LinearMatrixSolver`; the library solver is a parameter | invariant over programs; exact description of the serial mode; refutations |
| C54 | state estimation: measurement functions, Jacobian, weights, sizes and update of `SEBus`/`SEBranch`, the equations formed by `SEAppModule::solve` | derivatives of the complex network equations (Coquelicot), least squares by completing the square; refutations |
| C55 | `writeDataBlock` with Global Arrays, the records of the version 33 exporters, the header; the parsers of C21 - C24 on the result | order by counting lines before a line; tokens of a written line; the section theorems of the parsers; refutations by computed cases |
| C56 | `setup`, `runonestep` and `run` of the full-Y dynamic simulation with GENCLS, GENSAL, GENROU, EXDC1, IEEET1, SEXS, TGOV1, GAST, HYGOV, WSIEG1 over the reals | every block, controller and machine keeps an equilibrium through predictor and corrector; the currents at the equilibrium solve the network equations, by the power flow equations; induction over the steps; refutations by computed cases |
| C57 | `handleEvents`, `run`, `setLineStatus`, `setGenStatus`, `setFault`, `incrementMatrix` and the four incremental modes of buses and branches, on several processes | each event changes row times voltage by the same amount as the current given by Kirchhoff's law of the specification; invariant on copies of buses and branches; induction over events and steps; refutations by computed cases |
| C58 | `getDS`, `getDSExternal`, `find_ds_par`, `find_ds_vector` and the `extract`, `parse` and `store` methods of all 34 classes in parser_classes, as tables of rows (guard, entry looked up, entry and word on each branch) | a checker over the tables, proved sound once for any table and run on all of them; layouts of the records are written separately in the specification; induction over records and arrivals with frame lemmas; deviations refuted by computed cases |
| C59 | `getContingencies` and `execute` of ca_driver.cpp: base case, tasks, columns for StatBlock, upload and fetching of success flags; the power flow solver as any function of the network | every task starts from a state that differs from the base case only in what the contingency of the task before changed and undid: invariant over the tasks of a process; task numbers from C06, statistics from C29, global vector from C07; refutations by computed cases |
| C60 | `updateRelay` of LVSHBL, FRQTPAT and DISTR1, of buses and of branches, `computeBusVolFrequency`, `updateBusRelay`, `updateBranchRelay`, the matrix modes bus_relay and branch_relay and their place in a time step; voltages of the network solutions as any input | one generic timer with an invariant (counter, breaker counter, flag) instantiated three times; runs by induction over the steps with the invariant that the diagonal of the matrix is what the bus remembers, and that only the line that operated last is marked; refutations by computed runs |
| C61 | all of `BusTable`: both passes over the file, the buffer of ten rows, the transfers into the global array, the hash distribution of row numbers and tags, and the queries | invariant of the second pass (rows read, buffer, array written so far); distribution by the theorem for the hash distribution (C20); each process's entries are a permutation of the rows of its buses with the row number kept beside the row |
| C62 | the slab mapper: test of the columns with what becomes of each process, insertion element by element in any order, `getRowBlock` with its sorting permutation, the buffer of `mapToNetwork` | indices by the theorem of C19; insertion by uniqueness of (row, column) over all processes; row block by inverting the permutation; the round trips follow |
| C63 | the loop of the Global Arrays shuffler as programs of puts, gets and syncs that interleave under any schedule, with the buffers of ints and the two shared arrays | invariant over all reachable states: a rank that reads has not arrived at the second sync, so the source has written everything and no later source has begun; progress by a rank with the fewest syncs |
| C64 | the calls of a network on its exchange buffers with a heap of allocated blocks, where deleting or reading a block that is not allocated is undefined; the calls a factory makes | invariant over all histories: allocated blocks are those held by the network and those lost, against a view without memory; for branches a count of the blocks lost |
| C65 | `clone` call by call on the networks of C10-C14, with `clear` and the accessors and modifiers it uses | induction over the loops gives the copy in closed form; every accessor is compared on it; the set-up after partitioning puts all ends in range |
| C66 | the constructor of the factory, `setComponents` loop by loop on the networks of C10-C14, `load` (reference bus) and `saveData`; components are numbered, weak pointers are numbers | two loop lemmas (a step changes only its own component); the closed form of all seven loops; the specification is shown to determine the components; composed with the linking of C14 |
| C67 | `adjustRating` over real numbers with the scaling and margin functions of factory and bus; the search loops over ratings in hundredths with the answers of `adjustRating` and of the contingency runs as functions; the tie line test | the loop over names is a map if names are unique; sums are linear; case analysis of the factors; induction over the loops with fuel |
| C68 | the loops over the buses (branches) of each process with the area variables that outlive an iteration, the joining of the lists through the global vector of C07 under any order of events, the naming of the contingencies | induction over the buses; the cells uploaded by all processes are the joined list with its positions, then C07. In full on one process; on several with the barrier that C07 shows to be missing |
| C69 | the six blocks as functions from state and input to output and state, over real numbers; histories are lists of calls; a variable read before it is set is undefined | an invariant of the state carried over the history (at rest, at most three states of the dead band); closed form of a time step of the delay, induction over the steps |
| C70 | the object with its generator (a parameter) and the number held back; programs are lists of calls; the rejection loop has fuel | two states that differ only in a number that is not held back give the same results, by induction over programs; induction over the rejected points |
| C71 | the load with its shares, exponents, admittance and current over real and complex numbers; the factors at low voltage as in the code | algebra over the complex field; the factors by the monotonicity of sine and cosine |
| C72 | the drive train on top of the integrator blocks of `CbModel.v`, the aerodynamics and the order of the calls; runs are lists of steps | an invariant of a turbine at rest, by induction over the steps; the first step by computation with symbolic data |
| C73 | the pitch controller with its three blocks of `CbModel.v`; runs are lists of steps with any inputs | two invariants (blocks at rest; state of the lag within its limits), by induction over the steps |

## 3. Trusted base

* Coq's kernel (8.16.1), `coqc`, and `coqchk` for the re-check.
* What `Print Assumptions` prints below each theorem (section 4).  No axiom is declared in this development.
* Libraries used beside the standard library: Coquelicot (complex numbers, derivatives) and, in `HdProofs.v`,
  Flocq (binary64 arithmetic of the chunk boundaries in `hash_distr.hpp`).  Neither adds an axiom: what their lemmas
  rest on are the standard library's axioms.
* The faithfulness of the model to the source text.  The code is not run here; every definition cites the lines it models
  and names its simplifications.
* The behaviour of external libraries, as far as the code uses them, by the semantics written in the model comments:
  - MPI collectives and point to point calls: a collective is a function on the list of the states of all ranks; messages
    are delivered, in order per pair of ranks.
  - Global Arrays (`GAModel.v`): `NGA_Put/Get/Acc/Read_inc/Scatter/Gather` on ranges inside the array are atomic per element,
    visible after a sync; empty or outside ranges are an error.  Where the code has no sync, all interleavings are considered.
  - PETSc (`CxModel.v`, `LsModel.v`, `MapModel.v`): `MatSetValues` with `INSERT`/`ADD` (mixing them without an assembly is an
    error), rows with increasing columns, `KSPSolve` as an arbitrary function whose returned solutions are accepted.
  - ParMETIS: an arbitrary assignment of buses to ranks.
  - C++ library: `std::map`, `std::multimap`, `std::sort`, `std::unique`, strings, streams by their standard meaning;
    `atoi`/`atof` as in the C standard (`StrModel.v`), boost's tokenizer and property tree by their documentation.
* Scalars: `double` is modelled by real numbers in the numerical parts (DCModel, NRModel, Cb/Db, Yb, Pf, Pq, Fm, Xf, Cx, Stat, Dy, Rt),
  so rounding is outside; in `HdModel.v` the arithmetic is binary64.  `int` is `Z` or `nat`; where an overflow can occur and
  matters (C03) it is modelled, elsewhere sizes are assumed to fit.

## 4. Axioms

Integer and list properties: none ("Closed under the global context").
Real and complex properties: the standard library's axioms for the classical reals
(`ClassicalDedekindReals.sig_forall_dec`, `ClassicalDedekindReals.sig_not_dec`,
`FunctionalExtensionality.functional_extensionality_dep`) and, where Coquelicot or the standard library's
trigonometry brings it in, `Classical_Prop.classic`.

## 5. What is modelled and what is not

| model file | code | properties |
|---|---|---|
| `DCModel.v` | `src/component/data_collection.*` | C01, C02 |
| `TaskModel.v` | `src/parallel/task_manager.hpp`, `communicator.cpp` divide, `base_factory.hpp` checkTrue | C03, C04, C09, C16 |
| `GAModel.v` | the used part of Global Arrays | all with GA |
| `ParModel.v` | `src/parallel/shuffler.hpp`, `global_store.hpp`, `global_vector.hpp`, `index_hash.*` | C05 - C08 |
| `HdModel.v` | `src/parser/hash_distr.hpp` | C20 |
| `NetModel.v`, `IdxModel.v` | `src/network/base_network.hpp` (add, neighbours, partition, clean, ghosts, index reset, ghost update), `src/partition` graph partitioner, `base_factory` setComponents | C10 - C15, C41 |
| `MapModel.v`, `GenModel.v` | `src/mapper/full_map.hpp`, `bus_vector_map.hpp`, `gen_matrix_map.hpp`, `gen_vector_map.hpp` | C17 - C19, C42 |
| `StrModel.v`, `RecModel.v`, `XfModel.v` | `src/utilities/string_utils.hpp`, `src/parser/block_parsers/base_block_parser.cpp`, the bus, load, shunt, generator, branch and transformer sections of RAW versions 33 - 35 | C21 - C25, C43 - C45, C51 |
| `StreamModel.v`, `IOModel.v`, `ConfModel.v` | `src/stream/input_stream.cpp`, `src/serial_io/serial_io.hpp`, `src/configuration/configuration.cpp` | C26 - C28 |
| `StatModel.v`, `AnaModel.v`, `TimerModel.v` | `src/analysis/*`, `src/timer/coarse_timer.cpp` | C29 - C31 |
| `NRModel.v`, `EvModel.v` | `src/math/newton_raphson_solver_implementation.hpp`, `dae_event.hpp` | C32, C33 |
| `CxModel.v`, `LsModel.v` | the math wrappers on a library of real numbers, the linear solvers | C52, C53 |
| `SeModel.v` | state estimation: `se_components.cpp` and the iteration of `se_app_module.cpp` (not: reading and assigning the measurements, output) | C54 |
| `XpModel.v` | `src/export/base_export.hpp`, `PSSE33Export.hpp` and the version 33 data blocks up to transformers; `case_parser33.cpp` | C55 |
| `DyModel.v` | `dynamic_simulation_full_y`: `dsf_components.cpp` (load, the matrix modes, the phases of a step), `dsf_app_module2.cpp` (setup, run), the machines `classical`, `gensal`, `genrou`, the exciters `exdc1`, `ieeet1`, `sexs`, the governors `tgov1`, `gast`, `hygov`, `wsieg1` (not: events, relays, stabilizers, dynamic loads, frequency, the iterative network solution, output) | C56 |
| `DvModel.v` | `dynamic_simulation_full_y`: `dsf_events.cpp` (handleEvents), `dsf_app_module2.cpp` (run, setLineStatus, setGenStatus), the modes BUSFAULTON, BUSFAULTOFF, LINESTATUSCHANGE, GENSTATUSCHANGE of `dsf_components.cpp`, `full_map.hpp` (incrementMatrix) (not: getEvents, relays, load shedding, the old action interface) | C57 |
| `DrModel.v`, `DrTables.v`, `DrModel2.v` | .dyr files: `base_pti_parser.hpp` (getDS, getDSExternal, find_ds_par, find_ds_vector) and all classes of `src/parser/parser_classes` that read dynamic models (not: expandBusModels, the readers of unit commitment files) | C58 |
| `CaModel.v` | contingency analysis: `ca_driver.cpp` with the methods of `pf_app_module.cpp`, `pf_factory_module.cpp` and `pf_components.cpp` it uses, for groups of one process (not: output files of single contingencies, timers) | C59 |
| `RyModel.v` | `dynamic_simulation_full_y`: `lvshbl.cpp`, `frqtpat.cpp`, `distr1.cpp`, relays and frequency in `dsf_components.cpp`, `dsf_factory.cpp` (updateBusRelay, updateBranchRelay), the relay part of a step in `dsf_app_module2.cpp` (not: relays of dynamic loads, several processes) | C60 |
| `BtModel.v` | `src/parser/bus_table.hpp` (all functions; values as a global array of `GAModel.v`, distribution by `HdModel.v`; `atof` is a parameter; the two passes over the file with `getline` of `StreamModel.v`) | C61 |
| `SmModel.v` | `src/mapper/gen_slab_map.hpp` (offsets and indices by `GenModel.v`; matrix as a function; one library element per element), `p_getRowBlock` and the sizes in `createDense` and `p_build_matrix` of the PETSc matrix | C62 |
| `GsModel.v` | `src/parallel/ga_shuffler.hpp` (concurrent; archives are a parameter; use of the object afterwards follows from its reset) | C63 |
| `XbModel.v` | `src/network/base_network.hpp`: exchange buffers, `clear`, destructor (their part for these buffers); `src/factory/base_factory.hpp`: calls of `setExchange`. Contents of the buffers are not modelled here | C64 |
| `ClnModel.v` | `src/network/base_network.hpp`: `clone`, `clear` (buses, branches, reference bus, lookups), accessors and modifiers by index | C65 |
| `CmpModel.v` | `src/factory/base_factory.hpp`: constructor, `setComponents` (one process), `load` (reference bus), `saveData`; `src/component/base_component.cpp`: neighbours and indices of components | C66 |
| `RtModel.v` | `src/applications/rtpr/rtpr_driver.cpp`: `adjustRating`, the search in `execute`, the test of `getTieLines` (not: the contingency runs, the lists of contingencies, input, output); the scaling, margins and reset of `pf_factory_module.cpp` and `pf_components.cpp` | C67 |
| `RlModel.v` | `src/applications/rtpr/rtpr_driver.cpp`: `createGeneratorContingencies`, `createBranchContingencies`, `findWatchedGenerators` with the joining of the lists through `GlobalVector` (numbers stand for the names GenCTG1, LineCTG1, ...) | C68 |
| `WbModel.v` | `dynamic_simulation_full_y/model_classes`: `DelayBlock`, `DelayBlockwithLimit`, `LeadLagBlock`, `PIBlockwithLimit`, `BackLashClass`, `DBIntClass` (not: `GainBlockClass`, whose table is commented out; rounding) | C69 |
| `RgModel.v` | `src/parallel/random.cpp`: `Random`, `seed`, `drand`, `grand` (not: the boost generator, a parameter; rounding) | C70 |
| `LdModel.v` | `model_classes/ieel.cpp`: `load`, `init`, `predictor_currentInjection`, `corrector_currentInjection` (not: rounding, a voltage of zero, the base class) | C71 |
| `WtModel.v` | `model_classes/wtdta1.cpp`, `wtara1.cpp`: `load`, `init`, `computeModel`, `predictor`, `corrector`; their calls in `regca1.cpp` (not: the electrical part and the controllers, which are inputs) | C72 |
| `WpModel.v` | `model_classes/wtpta1.cpp`: `load`, `init`, `computeModel`; its call in `regca1.cpp` (not: the other controllers, which supply the inputs) | C73 |
| `CbModel.v`, `DbModel.v` | `src/applications/modules/dynamic_simulation_full_y/cblock.*`, `dblock.*` | C34, C46 |
| `YbModel.v`, `PfModel.v`, `PqModel.v`, `FmModel.v` | `src/applications/components/y_matrix`, `pf_matrix`, `src/applications/modules/powerflow` | C35 - C40, C47 - C50 |

Each model file says in its comments which functions of the file are left out.  Not modelled at all:

* the other machine, exciter, governor, stabilizer and load models of dynamic simulation, and the other dynamic simulation modules;
* Kalman filter, real time path rating and HADREC drivers, and all `main` programs;
* the remaining block parsers (area, zone, owner, transfers, impedance correction, multi-section lines, DC lines, FACTS, switched
  shunts), the PTI23, MAT, GOSS and sequence data parsers, the exporters of versions 23 and 34 and the later blocks of version 33;
* `gen_slab_map`, `bus_table`, `random`, printing and formatting of output;
* the numerical algorithms inside PETSc and ParMETIS, and what is only configuration of them;
* performance, memory use, and termination of the library calls.

## 6. Findings

Theorems that refute a claim for the code as it is, with the comment that stands beside them:

* `C02_plain_name_alias_refuted`: Finding: a plain name can read an indexed entry.
* `C03_cancel_overflow_refuted`: Finding: without the overflow condition cancel can make the manager hand out negative tasks (one million tasks, 2148 processes calling cancel).
* `C06_all_empty_store_refuted`: Finding: a store whose vectors are all empty uploads "successfully" but cannot be read.
* `C06_gap_reads_empty_refuted`: Finding: the documented "indices with no data" are not readable: the request is for an empty range.
* `C07_duplicates_throw_refuted`: Finding: duplicates may go unnoticed when the owner checks before the other rank has counted.
* `C07_values_after_upload_refuted`: ... but the code has no such barrier. Finding: an element written by a fast rank is erased by the memset of the slow rank that owns it.
* `C10_one_ghost_per_bus_refuted`: Finding: a process may hold several ghost copies of one bus, because the duplicates found by std::unique are not erased (graph_partitioner_implementation.cpp:476-479). Here rank 1 holds bus 10 twice, and only the last copy has neighbours.
* `C10_unknown_end_refuted`: Finding: a branch that names a bus missing from the network is attached to the bus with global index 0 without any message.
* `C11_branch_ends_stale_refuted`: Finding: the global indices of the end buses stored with a branch are not brought up to date.
* `C13_lookup_after_clean_refuted`: Finding: the map from original bus numbers is not refreshed, so a look-up after clean names the wrong local bus.
* `C13_reference_bus_refuted`: Finding: when the reference bus is a ghost, clean makes local bus 0 the reference bus.
* `C17_check_refuted`: Finding: check() reports only the last comparison: a branch that disagrees with its buses goes unnoticed.
* `C17_process_without_buses_refuted`: Finding: a process that owns no bus cannot build the mapper: the range of rows it asks for is not a range.
* `C19_self_loop_refuted`: Finding: a branch that ends twice at the same bus is counted twice when offsets are given out: the indices run past the size announced for the matrix, and a later bus gets an index outside it.
* `C20_branches_stale_refuted`: It fails for branches otherwise: with nothing supplied, whatever branch_ids held before the call is still there and has no value beside it.
* `C20_order_refuted`: The order is not the same everywhere: two processes with a copy of the same bus, each supplying a value for it, receive the two values in opposite orders, so a caller that keeps the last (or first) value ends with copies that differ.
* `C21_owner_fraction_refuted`: The owner fractions F1-F4, documented as real, are stored as truncated whole numbers: getValue with a double finds nothing.
* `C21_unknown_names_refuted`: Ends written with unknown names are all number -1: branches to different unknown buses are merged.
* `C22_blank_owner_refuted`: A blank owner field of a generator record is read as owner 0, not as the owner of the bus, and its fraction as atof("0"), not as 1.0: splitPSSELine replaces blank fields before isBlank is asked.
* `C23_comma_in_quotes_refuted`: A comma between quotes splits the text all the same, and the opening quote left alone adds an empty field.
* `C23_comment_refuted`: Missing for the full claim, and false: a '/' between the first quotes hides a later comment; a '/' between other quotes is taken for a comment.
* `C23_last_character_lost_refuted`: A field written directly after a quoted one is lost when it is the last character of the line.
* `C23_only_tabs_refuted`: A piece of tabs is not blank for the splitter, and the tokenizer then reads outside the string; so does every direct call of the tokenizer on a text without fields.
* `C23_section_end_refuted`: So a line starting with a 0 that belongs to a number ends the section, and a 0 followed by a comment or by a carriage return does not when blanks precede it.
* `C23_separator_trailing_refuted`: ... and an exception for two separators at the end, or for a text without fields.
* `C24_other_text_refuted`: Outside these spellings cleaning twice can change the tag, and a blank identifier is an exception.
* `C25_base_refuted`: Impedances given on the base of a pair of windings (CZ = 2) are not converted to the case base: the sum of the branches 1 and 2 is the impedance as written, here on 50 MVA, in a case on 100 MVA.
* `C25_comment_refuted`: A comment line inside a record drops the record, and the line after the comment is taken for the first line of a new one.
* `C25_ratings_refuted`: In versions 34 and 35 the branches of windings 2 and 3 have no ratings.
* `C25_unknown_bus_refuted`: A winding on a bus that is not in the case is not reported: the position used for it was never set.
* `C25_zero_base_refuted`: A zero base, which the format allows as the default, makes the impedance of a branch not finite.
* `C26_last_line_refuted`: If the last line does not end with a newline, reading until false misses it, for every file.
* `C26_last_line_repeats_refuted`: A parser that reads on without asking for the end sees the unfinished last line again and again.
* `C26_string_vector_refuted`: Reading a stream opened on a vector of strings is undefined: the iterator is never set.
* `C27_process_without_cells_refuted`: Serial output needs a cell of the array on every process: if some process has none (as with fewer buses than processes) the head process asks Global Arrays for an empty range.
* `C27_unsteady_component_refuted`: A component that answers when the strings are counted but not when they are written (the code asks twice) makes the scatter use index pointers that were never set.
* `C28_empty_prefix_refuted`: A path that starts with a dot is not the path below the root.
* `C28_empty_string_file_refuted`: An empty vector of strings is reported as an error on process 0 while the others fail an assertion.
* `C28_failed_get_keeps_string_refuted`: The string form strips the caller's variable even when the key is missing and false is returned.
* `C28_second_file_refuted`: ... but the values of the second file cannot be read when its top element is called like that of the first.
* `C28_vector_get_replaces_refuted`: The vector form adds its three numbers to those the caller's vector already has.
* `C29_column_average_refuted`: The average of a column is not the average of its counted entries.
* `C29_masked_base_refuted`: A masked entry in the first column is the base of the root mean square difference: two tables that differ only in a masked entry have different reports.
* `C29_masked_first_entry_min_max_refuted`: A masked entry in the first column takes part in the minimum and the maximum.
* `C30_branch_endpoints_refuted`: The ends of a branch are looked up with the global branch index as position: an exception on a process with fewer branches, ...
* `C30_connected_branches_refuted`: The branches connected to a bus are looked up with the original bus number as position: an exception, or the branches of another bus.
* `C31_different_categories_hang_refuted`: Processes with different numbers of categories: process 0 prints a message and returns, the others wait for it forever.
* `C31_stop_before_start_refuted`: A stop that precedes its start goes unnoticed and the whole clock value is reported as time.
* `C32_loose_tolerance_refuted`: A tolerance of 1e30 or more means that nothing is computed at all, although the guess is no root.
* `C32_nan_refuted`: Findings. A correction that is not a number ends the loop at once and silently: solve returns normally after the first of many allowed iterations with a norm that is not within any tolerance.
* `C33_state_index_refuted`: Finding: the state index of an event is read when the event is added; a later change of it is not seen.
* `C33_termination_refuted`: Finding: only the first triggered component of an event is asked. Both components of event 0 are triggered and the second one asks for termination, but the manager does not report termination.
* `C34_corrector_first_refuted`: The output of the corrector stage read before any predictor stage is memory that was never written.
* `C34_init_ignores_input_refuted`: init ignores the input for a PI controller: asked for output 1 with input 1 and Kp = 1, the output for this input is 2.
* `C34_init_outside_limits_refuted`: Findings. The initial state is not limited: a filter with state limits -1..1 asked for the output 3 has the state 3.
* `C34_integrator_input_refuted`: An integrator initialised from a non-zero input is not at rest: its state changes in the first step.
* `C34_rate_limits_kept_refuted`: The rate limits given to one call of getoutput replace the limits of the block for all later calls.
* `C34_slow_pole_refuted`: A block with a very slow pole is treated as an integrator by init_given_y and drifts: a1/a0 = 1e-11, output 1 wanted.
* `C34_unlimited_block_refuted`: Blocks without limits are limited to 1000: an integrator-free filter 1/(s+1) at input 5000 delivers 1000.
* `C35_isolated_end_refuted`: A line in service to an isolated bus acts as a line to ground: the other bus keeps its full admittance.
* `C35_missing_reactance_refuted`: A branch without reactance stores an uninitialised number.
* `C35_reversed_shunts_refuted`: The end shunts of a record stored with its buses exchanged are put at the wrong ends.
* `C35_shunts_refuted`: A second fixed shunt is not read, an out of service fixed shunt is counted, a switched shunt replaces the susceptance of a fixed one.
* `C35_status_code_refuted`: A status other than 0 and 1 counts as in service for the diagonal but leaves the branch inactive.
* `C35_switch_on_refuted`: Switching on the only element of a branch that was loaded out of service: the entries between the two buses stay missing.
* `C36_inactive_branch_refuted`: Finding: a branch whose p_active flag is off but whose admittance is not zero enters the mismatch, and not the Jacobian. p_active is set from the status in the data collection in load only (2140-2146), while the admittance follows the status of each line element.
* `C36_stale_state_refuted`: Finding: the Jacobian uses the injections and angles of the last evaluation of the right hand side. If the state has changed since, it is not the derivative.
* `C37_size_not_set_refuted`: Finding: in the modes RHS, S_Cal and State a bus says it has a diagonal block without saying how large it is.
* `C37_state_vector_refuted`: Finding: in mode State a bus writes two values where it announced one (PV) or none (reference, isolated), and writes the magnitude first although setValues reads the angle first.
* `C38_clear_keeps_loads_refuted`: Finding: clearing does not restore the loads, so that the generation is counted twice after a conversion has been cleared.
* `C38_clear_unconverted_refuted`: Finding: clearing a bus whose check found no violation takes all its generators out. Clearing a bus that never was a PV bus during a check reads an uninitialised flag.
* `C38_clear_uninitialised_refuted`: Finding: clearing a bus that never was a PV bus during a check reads an uninitialised flag.
* `C38_convert_twice_refuted`: Finding: converting and clearing twice doubles the status vector; the next use of it runs past the end of the generator arrays.
* `C38_no_load_refuted`: Finding: without a load in service the conversion loses the generation of the bus, and with two loads it counts it twice.
* `C38_two_loads_refuted`: Finding: with two loads in service the conversion counts the generation of the bus twice.
* `C40_no_complete_generator_refuted`: Finding: a bus with generators of which none is complete writes to an empty vector.
* `C40_second_load_refuted`: Finding: the vectors of saved powers are not cleared by a second load: resetting then restores the powers of the first.
* `C40_switching_refuted`: Finding: switching a generator off does not pass its share to the others.
* `C40_zero_capacity_refuted`: Finding: when the capacities in service add up to zero (for example when no PMAX and PMIN are given), the whole share goes to the first generator, even if it is out of service, and the others keep unnormalised values.
* `C41_branch_update_refuted`: Finding: on several processes the update of branches always writes outside the arrays initBranchUpdate allocates.
* `C42_branch_value_lost_refuted`: Finding: a branch between buses of two processes, with one row and one column of its own (index 1): its value in the row of the far bus and its own column is inserted by nobody.
* `C43_short_name_refuted`: A quoted name of one character is read as the empty name, and a quoted name of blanks reads outside the string.
* `C44_negative_bus_refuted`: A bus with a negative number is stored under it, but every reference is made positive: nothing can be attached.
* `C45_unterminated_section_refuted`: A load, shunt or generator section that is not terminated before the end of the file never ends: at the end of the file the loop goes on with empty lines.
* `C46_call_limits_stay_refuted`: Limits given with one call stay in force for later calls without limits.
* `C46_decreasing_refuted`: Decreasing points: the output inside is the return value of a variable that was never assigned.
* `C46_falling_inverse_refuted`: Falling values over increasing points: initialisation from an output in the range finds an input that gives another output.
* `C46_number_of_segments_refuted`: The documented number of segments instead of the number of points: the last segment is ignored.
* `C46_sentinel_refuted`: An output of exactly 100000 is taken for "no output yet": the next step ignores the rate limits.
* `C46_setparams_twice_refuted`: Setting the points a second time appends them and overruns the arrays.
* `C46_unset_refuted`: A block before setparams, and rate limited output without rate limits, read memory that was never written.
* `C47_end_shunts_refuted`: Shunts at the ends of a line are left out.
* `C47_out_of_service_refuted`: An element that is out of service is reported with the flow it would have.
* `C48_duplicate_refuted`: Finding: a contingency that names a line twice is not undone.
* `C48_found_in_network_refuted`: Finding: "false if location of contingency is not found in network", but a process answers false when another process holds the location.
* `C48_lone_bus_result_refuted`: Finding: checkLoneBus is to return "false if there is an isolated bus in the network"; on one process it returns true exactly then.
* `C48_nested_refuted`: Finding: undoing two contingencies in reverse order leaves a bus isolated, as the second one overwrites the flags saved for the first.
* `C48_voltage_control_refuted`: Finding: a bus that loses its only generator still holds its voltage.
* `C49_ignore_voltage_refuted`: Finding: ignoring voltage violations has no effect on the check at all: it marks the buses that are within their limits.
* `C49_ignored_lines_refuted`: Finding: with rating B in use, overloads are ignored by rating A, so that the check still fails.
* `C49_listed_lines_refuted`: Finding: of two listed lines on one branch the flow of the wrong one is compared; and a line that is not among the first of its branch makes the code read past the list.
* `C49_out_of_service_refuted`: Finding: a line out of service can be reported as overloaded.
* `C49_reactive_check_in_area_refuted`: Finding: restricted to an area, the reactive check answers the opposite: true exactly when every bus of the area had to be converted.
* `C49_reported_violations_refuted`: Finding: otherwise the positions of process 0 and the following ones overlap and the call throws.
* `C50_same_id_refuted`: Finding: of two generators with the same id the first is scaled twice and the second not at all.
* `C50_total_after_scaling_refuted`: Finding: after scaling the loads the total is the one before.
* `C50_total_load_refuted`: Finding: a bus that is a ghost on another process is counted twice.
* `C51_case_base_refuted`: Impedances given on the case base (CZ = 1) are converted as if they were on the base SBASE1-2.
* `C51_magnetizing_refuted`: The magnetizing admittance is not stored as the shunt at the first bus.
* `C51_nominal_voltage_refuted`: With winding voltages in kV (CW = 2) and the nominal voltage left at its default 0 (meaning the voltage of the bus) the ratio is not finite.
* `C51_ratings_refuted`: In versions 34 and 35 a two-winding transformer has no rating under the names the limit checks read (C49), and in version 35 no twelfth one.
* `C51_reversed_refuted`: Nothing marks an element whose pair of buses is stored in the other order: its ratio is then taken to be at the other bus.
* `C52_identity_pending_refuted`: identity on a matrix that is not assembled yet keeps the elements set before.
* `C52_identity_refuted`: identity on an assembled sparse matrix that does not store its diagonal stores real diagonal positions outside the 2 x 2 blocks: the next elementwise operation reads past its row.
* `C52_transpose_multiply_refuted`: So it is not the product with the transpose: the 1 x 1 matrix [i] times the vector [1] gives -i.
* `C53_matrix_solver_change_refuted`: Finding: unlike LinearSolver it does not see a later change of the matrix.
* `C53_serial_empty_refuted`: Finding: with no unknowns at all the serial mode uses the first element of an empty buffer.
* `C53_serial_inverse_refuted`: Finding: so the inverse computed column by column (solve with the identity matrix) loses its last column.
* `C53_serial_refuted`: Finding: the second right hand side keeps the last element of the first.
* `C54_bus_type_refuted`: The types PJ and QJ are read from the measurement file (se_app_module.cpp:68-83) but no bus writes a row or a value for them. The values after them move up: the value of the second measurement is written to the row of the first.
* `C54_current_charging_refuted`: The Jacobian of a branch current is the one of a line without charging and transformer (se_components.cpp:1905-1985), the residual includes both: here the current does not depend on the magnitude at the metered end at all, and the row says 1.
* `C54_flow_shunt_refuted`: The Jacobian row of a real power flow includes the shunt conductance of the metered bus, which the residual does not (se_components.cpp:1832, 2060 against 2260, 2325): with a bus shunt the row is not the derivative, so the iteration does not stop at a least squares solution.
* `C54_isolated_neighbour_refuted`: An injection measurement at a bus with an isolated neighbour reads the variables v and theta before they are set (se_components.cpp:1043-1044, 1066-1076: getVTheta returns without setting them).
* `C54_out_of_service_refuted`: An element that is out of service is treated as in service when another element of the branch is: the status of the elements is stored (se_components.cpp:1298-1301) and not looked at for measurements, the residual of a correctly measured zero flow is not zero.
* `C54_switched_off_refuted`: A measurement on a branch that is switched off is counted, its elements are not written (se_components.cpp:1612-1651 does not look at the status).
* `C54_to_current_refuted`: A current at the to end (IJI) is counted in the sizes but no row and no value is written (se_components.cpp:1632, against 1823-2129, 2214-2354).
* `C54_unknown_circuit_refuted`: A measurement whose circuit is not an element of the branch takes the value calculated for the measurement before it.
* `C54_unmeasured_bus_refuted`: The columns of the Jacobian and the vector of corrections disagree for a bus without a measurement at it, at a neighbour or on its branches: no column, but two elements of the vector (se_components.cpp:663-700 against 126-142).
* `C55_generator_transformer_refuted`: The step-up transformer of a generator is read into one complex entry and exported from two real ones that no parser writes: it comes back as zero.
* `C55_header_refuted`: The header takes the base power from the first bus of rank 0: if the partition leaves rank 0 without a bus, the file says that the base power is 0, and every power of the case is then divided by zero by whoever reads it.
* `C55_line_owners_refuted`: The owners of a line are lost: its shares are stored as ints and looked for as reals.
* `C55_lines_overwritten_refuted`: With a load on another bus the two lines are stored in the same place: which of them is lost depends on the order in which the processes write, and another line of the block is never written.
* `C55_name_comma_refuted`: A comma in the name of a bus (set with setValue: the parser cannot read one) splits the name when the export is read: the later fields of the record move one place on, here the base voltage.
* `C55_reversed_element_refuted`: The direction of an element that was given with its ends exchanged: the export always writes the ends of the branch in the order of the first element, so the element comes back with its from end where its to end was.
* `C55_short_name_refuted`: A bus name of one character comes back as that character and a blank.
* `C55_transformer_block_refuted`: Line and transformer between the same two buses: the lines of the transformer are stored outside the array of the transformer block.
* `C55_zero_power_load_refuted`: A load without constant power (a constant current or constant admittance load) is left out, but the loads after it on the same bus keep their device index: the line is stored outside the array of lines.
* `C56_classical_base_refuted`: GENCLS takes the system base for 100 whatever CASE_SBASE is (classical.cpp:52): on a base of 50 the admittance of the machine is half of what it is.
* `C56_classical_resistance_refuted`: GENCLS with a stator resistance: it is part of the admittance in the matrix and not of the injected current (classical.cpp:178-217), so the first network solution is not the power flow solution.
* `C56_classical_subtransient_refuted`: GENCLS with a subtransient reactance: the member xd is read without having been assigned (classical.cpp:178-190).
* `C56_exdc1_lead_refuted`: EXDC1: the time constant TC of the regulator has no effect on any trajectory; the lead-lag block gets TA and TB (exdc1.cpp:97-99).
* `C56_hygov_default_refuted`: HYGOV without GOVERNOR_r in the data: the default is given to R, and r is read without having been assigned (hygov.cpp:56-57).
* `C56_load_types_refuted`: A load of constant current (or constant admittance) is put into the matrix with the power it has at voltage 1: at another voltage the first network solution is not the power flow solution (dsf_components.cpp:1160-1186).
* `C56_negative_generator_refuted`: A generator that consumes, before one with a model on the same bus: the machine is appended to the list of machines but used under the number of the generator (dsf_components.cpp:933-1121), an access behind the end of the list.
* `C56_negative_twice_refuted`: A generator that consumes: it is in the list of negative generators and is also found by its negative power, so the matrix has its load twice (dsf_components.cpp:223-258).
* `C56_no_saturation_refuted`: GENSAL without saturation (S10 = 0): the saturation divides by zero (gensal.cpp:96-112), so no value of the machine is a number; GENROU with the same data has a test for it.
* `C56_out_of_service_refuted`: A generator without a model that is out of service is put into the matrix as if it were in service (dsf_components.cpp:249-257 looks at the model only).
* `C56_sexs_limit_refuted`: SEXS with TE = 0: the input of the gain, not its output, is limited to EMIN .. EMAX when it is started (sexs.cpp:90-112), so a field voltage between the limits jumps to the limit in the first step.
* `C56_speed_unseen_refuted`: GAST and HYGOV do not see the speed of the machine: whatever the speeds, the mechanical power is the one at nominal speed (gast.cpp:165-168, hygov.cpp:169-172 assign a parameter to itself).
* `C56_unknown_model_refuted`: A generator model the factory does not know: the null pointer it returns is used (dsf_components.cpp:960-1000).
* `C56_wsieg1_even_refuted`: WSIEG1 with the even coefficients only: the power of the first shaft is returned (wsieg1.cpp:320-323), which is 0 from the first step on.
* `C56_wsieg1_limit_refuted`: WSIEG1 started with a gate opening above PMAX: the limit is raised for the comparison, but not in the integrator that has it too (wsieg1.cpp:95, 192), so the opening falls to PMAX in the first step.
* `C57_closing_refuted`: A branch with nothing in service when it was loaded, and one of its circuits closed: only the diagonal elements change (dsf_components.cpp:3232-3250).
* `C57_end_refuted`: The loop goes on for ever when the end time is not within a microsecond of a step (dsf_app_module2.cpp:402-415).
* `C57_end_shunts_refuted`: A line with a conductance at one end is opened: the conductance stays in the matrix, because the elements of a single circuit are computed without the shunts at its ends (ymatrix_components.cpp:631-723).
* `C57_fault_conductance_refuted`: A fault with conductance G and susceptance B changes the admittance at its bus by -G - jB instead of G - jB (dsf_components.cpp:282-300).
* `C57_generator_code_refuted`: A status other than 0 and 1 for a generator that is in service: its admittance is added once more.
* `C57_generator_out_refuted`: A generator that is out of service in the case: its machine object counts as in service, so closing it does nothing, and opening it takes an admittance out of the matrix that was never in it.
* `C57_line_elsewhere_refuted`: A line event on a process that does not hold the branch: the first entry of an empty vector is read (dsf_app_module2.cpp:357-370).
* `C57_line_processes_refuted`: Opening the line between buses 1 and 2 and then the one between buses 3 and 2, on two processes: the second event changes the element of buses 1 and 2 again, because the process that owns bus 1 but not bus 2 does not forget the first change (dsf_components.cpp:3331-3336 clears the flag with the reverse element only).
* `C57_missed_refuted`: A fault that ends between two steps is never ended.
* `C57_overlapping_faults_refuted`: Two faults at different buses that overlap in time: starting the second adds the admittance of the first again, and ending the first ends both. Afterwards, with no fault left, the bus of the first fault still has the admittance of a fault, and while only the second fault should be in force its bus has none.
* `C57_reset_refuted`: After a generator was tripped, resetting the simulation and loading the case again leaves the generator out of the matrix although its data say that it is in service.
* `C57_unknown_generator_refuted`: An event for a generator the bus does not have: the generator with index -1 is used (dsf_components.cpp:131-176).
* `C58_branch_relay_refuted`: A DISTR1 record (relay on a branch): getDS uses a null pointer when no earlier record was for a bus of the network, and else stores the relay with the data of the bus of that earlier record, not with the branch.
* `C58_comment_refuted`: getDSExternal skips comment lines; getDS takes one for an empty record and reads beyond its words.
* `C58_distr1_zone3_refuted`: getDSExternal does store relays on branches with the branch, but DISTR1 ZONE3_TIME with a wrong value.
* `C58_esst4b_refuted`: getDS never stores the parameters of an ESST4B exciter (find_ds_par looks for "ESST4A"): with such records only, no data changes. getDSExternal does store them.
* `C58_external_parameters_refuted`: Every parameter in the list extern_wrong, except PSSSIM and DISTR1, is delivered incorrectly by getDSExternal in some case, from a complete record: WSIEG1 T3 gets the value of T2, CIM6BL X1 and E2, ACMTBLU1 NQ1 and NQ2, and CMLDBLU1 TTR1 are mixed up, and CMLDBLU1 UVTR2 goes to VC2ON when the entry exists already.
* `C58_gdform_limits_refuted`: A GDFORM record replaces the generator's power limits from the network file by its own.
* `C58_getds_first_refuted`: Those in parse_wrong_first are read incorrectly even when the entry is not there yet.
* `C58_getds_parameters_refuted`: Every parameter in the list parse_wrong is read incorrectly by getDS in some case, from a record that has it: GENROU XQ, GDFORM MP, REECA1 TIQ and REPCA1 FEMIN take the wrong word when the entry exists already; WSIEG1 GV5 then goes to GV4; REPCA1 BRCH_CKT is not padded to two characters; WSIEG1 IBLOCK is stored under PGV5; the first seven PSSSIM parameters are stored as double where the dictionary says int; ACMTBLU1 UVTR2 is stored as UVTR1; CMLDBLU1 RSB and LSB are dropped when they are the last word; GDFORM VFLAG and IEELBL A1 test for an entry of the wrong type.
* `C58_long_identifier_refuted`: An identifier of more than two characters overflows the three-byte field of the struct.
* `C58_short_record_refuted`: A record without its last words: getDS leaves the entries unset, but getDSExternal puts whatever the memory of the struct holds into them. A GENCLS record as PSS/E writes it, with H and D only, is such a record: the parser knows a third parameter.
* `C58_unfinished_refuted`: A file that ends inside a record, for instance without a last slash, is never read to the end.
* `C58_unknown_load_refuted`: A USRLOD record for a device nobody knows is ignored by getDS; getDSExternal compares a name never assigned.
* `C58_unmatched_load_refuted`: A load record whose identifier no load of the bus has: getDS stores its parameters under index -1.
* `C59_check_limits_refuted`: Finding: with checkQLimit the base case ends in undefined behaviour for every network with a bus that does not control its voltage: clearing the limits reads a flag that was never set.
* `C59_duplicate_refuted`: Finding: a contingency that names a line twice spoils the contingencies processed after it: the line stays out of service.
* `C59_long_name_refuted`: Finding: a name of more than 123 characters overflows the buffer for the name of the output file.
* `C59_malformed_refuted`: Finding: an entry whose numbers of buses and names do not fit is passed over without a message; the contingencies after it have other numbers.
* `C59_missing_names_refuted`: Finding: an entry without names, or with an empty value, makes the driver read outside a string.
* `C59_new_violation_refuted`: Finding: a contingency that drives a bus out of its voltage limits is not reported. The driver ignores the buses that are within their limits in the base case instead of those that are not; when all are, no contingency ever gets the code 2 or 4 of a bus violation.
* `C59_no_contingency_refuted`: Finding: with an empty list of contingencies (or one whose entries are all passed over) the driver throws when it uploads the success flags.
* `C59_reactive_limits_refuted`: Finding: with reactive limits in the power flow (qlim) a contingency that makes a bus give up its voltage control spoils the contingencies processed after it: the bus does not get it back, and its loads stay changed.
* `C59_success_file_refuted`: Finding: success.txt is never written as it should be. The driver clears the vector of success flags after fetching it and then reads its elements, which do not exist, for every run with a contingency.
* `C59_unknown_element_refuted`: Finding: a contingency whose line does not exist is reported like one that was simulated: success and no violation.
* `C60_missed_update_refuted`: Two buses with the same relay and the same low voltage: the relay of the first bus operates, and that of the second is not updated in this step ([bflag = bflag || updateRelay(...)]), so that it loses the step, although its condition is met.
* `C60_stale_marks_refuted`: A relay of line 1 operates in one step and a relay of line 0 in the next. In the second step line 1 is not updated, its marks stay, and its admittance is taken out of the matrix again.
* `C60_time_constant_refuted`: The lag of the frequency is computed three times per time step (twice before the relays are updated, once after the second solution), each time for a whole step: its time constant is a third of 0.1 s. A step of 0.01 s should leave 0.905 of a deviation, and leaves the third power of it.
* `C60_two_relays_refuted`: Two relays for one generator, for example for a low and a high frequency, that operate in the same step (or one after the other) take the admittance of the generator out of the matrix twice.
* `C60_undone_refuted`: A relay of a line operates, and in the next step a load relay at one of its ends. The diagonal element of the bus is then overwritten with a value that does not know about the line: the line is back in the diagonal, and still gone from the rest of the matrix.
* `C60_unused_settings_refuted`: The second and third stage of a load relay (voltage, time and fraction) and zone 3 of a distance relay have no effect on anything.
* `C60_zero_pick_up_refuted`: With a pick-up time of zero the relay operates although the voltage was never low: the test that the time has passed does not ask whether the relay has picked up.
* `C60_zone_one_not_reset_refuted`: The counter of zone 1 is not reset when the impedance leaves zone 2: the relay operates although the impedance was never in a zone for two updates in a row, as its time demands.
* `C61_blank_line_refuted`: Finding: a blank line after the first row (for example at the end of the file), and a row with fewer values than the first, are read past the end of the list of pieces.
* `C61_column_refuted`: Finding: asked for a column that does not exist, getValues prints a message and reads all the same: the number is another row's.
* `C61_comments_between_refuted`: Finding: comments between rows are counted as rows, and the last transfer has the size of what was counted: with enough of them it reads past the end of the buffer.
* `C61_failed_read_refuted`: Finding: when a second table cannot be read the call says so, but the values of the first are gone: indices and tags are still there, getValues and the destructor are undefined.
* `C61_headers_refuted`: Finding: the comments at the start of a table are sent to the other processes as characters without the terminating NUL and made into strings there: reading any table that starts with a comment on several processes is undefined.
* `C61_indented_comment_refuted`: Finding: a first line that is a comment after a blank is a comment for the first pass and a row for the second: there is a row too many, and the values of the last row are not in the array.
* `C61_last_line_refuted`: Finding: the last line counts only if a newline ends it: the second row is lost, and a file of one such line is reported as missing.
* `C61_only_comments_refuted`: Finding: a file that holds only comments is reported as read; then getValues and the destructor are undefined.
* `C61_quoted_tag_refuted`: Finding: a tag in quotes with a blank in it, as files of power flow data have it, is cut at the blank: the closing quote becomes the first value and the values move by one column.
* `C61_trailing_comment_refuted`: Finding: a comment at the end of the file is undefined behaviour when a newline ends it, and reading never ends when it is the second comment and no newline ends it.
* `C62_fortran_matrix_refuted`: Finding: the matrix made by intMapToMatrix (the Fortran interface) has the columns once for every process, and mapToNetwork with such a matrix writes past the end of its buffer on every process that has rows.
* `C62_no_rows_refuted`: Finding: a process without rows counts as one with 0 columns: if another process has rows the constructor fails, although all rows have the same length.
* `C62_waiting_refuted`: Finding: whenever the test of the columns fails, process 0 throws and all others wait for it forever.
* `C64_add_after_alloc_refuted`: A bus added while buffers are there makes the network delete a pointer that was never set, when they are freed, allocated again, or the network is cleared or destroyed.
* `C64_branch_buffers_lost_refuted`: C64 is false for branches when buffers are allocated again without freeing them: the second allocation marks the buffers as someone else's, and from then on none is ever deleted. A network with n branches whose factory sets up the exchange k + 1 times has lost k times n buffers when it is destroyed (base_network.hpp:1881 sets the flag that the function for buses leaves alone, and 1884-1891 do not reset it as 1750 does).
* `C64_get_before_alloc_refuted`: Fetching a buffer before any was allocated goes through the NULL pointer; setting one throws.
* `C64_index_past_end_refuted`: The index one past the last bus passes the check of getXCBusBuffer and getXCBranchBuffer, and memory behind the array is read (base_network.hpp:1838, 1924), in every state.
* `C64_set_over_own_refuted`: A pointer can be set although the buffers are the network's own: its own buffer is lost, and destroying the network deletes memory that is not its own.
* `C64_use_after_free_refuted`: Freeing does not forget where the array was: a pointer set or fetched after the buffers were freed goes to deleted memory, where the functions check for NULL and would throw before any allocation (base_network.hpp:1758-1776, 1814).
* `C65_clear_keeps_lookups_refuted`: Clearing a network forgets its buses and branches but neither the lookups nor the network data: the indices of buses that are no longer there are still returned (base_network.hpp:1611-1712 resets neither p_busMap, p_branchMap nor p_network_data).
* `C65_clone_into_itself_refuted`: Copying a network into itself is not refused: it is emptied first, and everything is lost without an exception.
* `C66_old_reference_stays_refuted`: A bus that was the reference bus stays marked as one: when the reference bus of the network is changed and the components are set up again, both buses say that they are the reference bus (base_factory.hpp:122-126 only ever sets the mark).
* `C66_save_after_clean_refuted`: Saving with a factory that was made before the ghosts were removed calls components that no longer exist (the factory keeps plain pointers, base_factory.hpp:49-58).
* `C66_stale_factory_refuted`: A factory remembers how many buses the network had when it was made: setting up the components of buses added since then neither happens nor raises an exception.
* `C67_ghost_loads_counted_refuted`: On several processes a load is counted again wherever its bus is a ghost (pf_factory_module.cpp:773-793 does not ask whether the bus is active).
* `C67_insecure_rating_refuted`: If the generators cannot be lowered far enough, the rating that is reported is not secure.
* `C67_negative_rating_refuted`: If no rating is secure, a negative one is reported, after trying negative loads.
* `C67_no_load_never_ends_refuted`: Without load in the destination the search does not end: the capacity always suffices.
* `C67_processes_disagree_refuted`: And the margins of the generators are not summed over the processes: the processes of a group disagree whether the capacity suffices and scale by different factors.
* `C67_stable_rating_lowered_refuted`: The dynamic simulation lowers every rating, also one that is stable (rtpr_driver.cpp:1139: the refinement starts with the flag set to false in any case).
* `C67_stable_rating_missed_refuted`: It does not find the highest stable rating: the refinement goes down from a rating that is already stable. Stable up to 0.97, it reports 0.94.
* `C67_tie_line_missed_refuted`: With a zone for the source only, a branch written from the destination to the source is missed (rtpr_driver.cpp:457-467: the test whether a zone was given looks at the other zone).
* `C68_bus_without_area_refuted`: Finding: the area is read into a variable that lives outside of the loop, so that a bus without an area counts as a bus of the area of the bus before it ...
* `C68_first_bus_without_area_refuted`: ... and at the first bus the variable has no value at all.
* `C68_gathered_in_order_refuted`: Finding: with two processes and no barrier the second entry of the list can come out as zero: a contingency at bus 0.
* `C68_no_watched_generators_refuted`: ... and, a finding, leaves the generators of an earlier call in the lists if there is none.
* `C69_backlash_falling_refuted`: Finding: while the input falls it is taken minus the play instead of plus: the output jumps down by the whole play more than the input, here by 2.5 when the input moves by 0.5.
* `C69_lead_lag_time_step_refuted`: Finding: a lead-lag block that was started with a large time step leaves its output when the time step becomes smaller.
* `C69_partial_hysteresis_refuted`: Finding: with partial hysteresis (0 < Eps < Db1) every input outside of the band makes the block test its result before it has one.
* `C69_pi_start_outside_refuted`: Finding: unlike the delay with limits the proportional-integral block does not move its limits: started at 2 with the limit 1 it is at 1.
* `C70_middle_refuted`: Finding: the point in the middle is not rejected, and the results are not numbers.
* `C70_neighbouring_seeds_refuted`: Finding: but the streams of two runs with neighbouring seeds overlap: process 1 with seed s is process 0 with seed s + 1 ...
* `C70_reproducible_refuted`: Finding: seed keeps the normal number that is held back, so that the first one after it comes from the old seed.
* `C70_seed_overflow_refuted`: ... and the smallest int, or a seed too close to the largest, overflows.
* `C71_composite_refuted`: Finding: the static part of a composite load always follows its first exponent alone, whatever the shares in its data are.
* `C71_no_shares_refuted`: Finding: a load whose data give no shares takes no power at all, at any voltage.
* `C71_normalised_refuted`: Finding: shares that do not add up to one are divided by a sum that changes meanwhile. With the shares 1, 1, 0 the load takes 7/6 of the power of the data at the initial voltage.
* `C71_shares_kept_refuted`: Finding: shares that do add up to one are thrown away, the first part becomes the whole load. The branches of the check are swapped.
* `C72_default_inertia_refuted`: Finding: the default inertia (zero) cannot be used: the set-up of the block throws.
* `C72_turbine_speed_refuted`: Finding: the speed of the turbine never changes, whatever the torques do; so the aerodynamic torque never depends on it.
* `C72_two_masses_refuted`: Finding: a second mass is not modelled: a drive train with two masses is the one with the mass of the generator alone, whatever the frequency of the shaft.
* `C73_no_lag_refuted`: Finding: data without a lag (the default) cannot be used, the set-up of the block throws.
* `C73_no_plant_refuted`: Finding: without a plant controller the reference power of the pitch controller is a variable that was never set.
* `C73_positive_minimum_refuted`: Finding: with a lowest pitch angle above zero the start is not kept: at the references, the compensation asks for nothing in the predictor and for the lowest angle on top of the start in the corrector.
