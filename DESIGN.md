# Formal model of libEnsemble: design

The model is written in Coq 8.16.1 (files in `rocq/theories/`). Each area has a model file (`*Model.v`: definitions transcribed
from `/repo`, each with a file:line citation), a small specification file where needed (`*Spec.v`), a proof file (`*Proofs.v`) and a
file of property theorems (`Props*.v`) that contains only statements, one-line proofs, examples and `Print Assumptions`.

## Plan per property

| id | property | plan |
|----|----------|------|
| C01 | Generated points are appended in order with sim_id equal to row index | History as list of rows (row = field -> value) plus counters; x_in modelled branch by branch; invariant `sim_id = row` by induction over operations. |
| C02 | Array growth never loses or alters rows and always makes room | Same model; grow/trim lemmas; invariant index <= length by induction. |
| C03 | Progress counters agree with the flags in the history | Counter = number of flagged rows, induction over guarded operation lists; informed counter refuted by witness. |
| C04 | Row status flags are monotone and results are never silently overwritten by bookkeeping | Monotonicity by induction over all operations in safe mode; frame lemma for results. |
| C05 | A prior history H0 is preserved and treated as finished work | `init_history` from H0 as an association of optional fields; pointwise theorems. |
| C06 | A sim_max exit criterion is met and not overshot by single-point work | Manager dispatch loop over arbitrary Work lists; invariant on started counter over all runs. |
| C07 | The stop test reports exactly the user's exit criteria | term tests transcribed; iff-characterisation. |
| C08 | No worker is given new work while it is busy | check/send/update per order; theorem over the whole dispatch loop's message log. |
| C09 | Manager bookkeeping matches what workers are actually doing | Distributed transition system manager + n workers + FIFO channels; inductive invariant over all interleavings. |
| C10 | Cancelled running simulations are signalled, once each | kill pass modelled; exact characterisation of sent set + no repeats over all histories. |
| C11 | Kill window covers every running cancelled simulation | window invariant under increasing give-out; refuted in general by witness. |
| C12 | Resource sets are never double-booked and are always returned | rset table with owner; invariant over assign/free sequences. |
| C13 | Conflicting resource assignment is detected | faithful model of the non-raising branch; refutation witness + positive part (ownership of others never stolen). |
| C14 | The scheduler only hands out free, distinct resource sets of the requested kind | assign_resources transcribed with fuel for the split loop; soundness theorem for each returned team and for request sequences. |
| C15 | Multi-node teams are even and slot-matched | evenness/slot-matching of returned team. |
| C16 | The scheduler always terminates, and never refuses a request that fits on one node | fuel bound lemma; single-node completeness theorem. |
| C17 | Even-group arithmetic covers the request | direct arithmetic theorem. |
| C18 | Resource sets partition the nodes fairly | best_split/expand_list/get_split_list/get_group_list as list functions; counting theorems. |
| C19 | Default worker to resource-set mapping is one to one | get_index_list as a fold; injectivity and range. |
| C20 | Converting process/GPU counts to resource sets is a correct ceiling | ceil division lemma on Z. |
| C21 | Default allocation never gives a point twice and never gives a cancelled point | allocation function transcribed over arbitrary resource oracle; disjointness/idle/unstarted theorems. |
| C22 | Other allocation functions respect the same discipline | same for other allocation functions; refutation witnesses where it fails. |
| C23 | Point status queries mean what they say | predicates as list functions; iff theorems. |
| C24 | Available worker queries are sound and complete | filter model; iff theorem. |
| C25 | Messages are delivered in order, without loss, including pushed-back ones | queue + buffer model; refinement to an abstract sequence; refutations for mail_flag/overwrite. |
| C26 | Work messages and row data stay paired | encode (manager send) / decode (worker receive) round trip. |
| C27 | Persistent generator receive pairs messages | persistent recv model on the same message stream; refutation for empty rows. |
| C28 | A worker answers every order exactly once and stops only on stop | worker loop as a function of inbox and user-function oracle; answer list theorem. |
| C29 | Task state is consistent and final states are final | task state machine with arbitrary process oracle; invariant over op sequences. |
| C30 | Polling loop reports a status consistent with how the task ended | polling loop over an arbitrary event stream; status theorem + refutation of the race. |
| C31 | Launch retries are bounded and report the last attempt | launch loop over an arbitrary failure oracle. |
| C32 | MPI process/node arithmetic is consistent | task_partition/get_resources on option values; arithmetic theorem. |
| C33 | Compact row labels identify the rows | labels as strings, parser as inverse; injectivity. |
| C34 | Vector/variable mapping round-trips | structured arrays as lists of assoc lists; round trip theorem. |
| C35 | Node lists are parsed completely | string functions on ascii; range expansion theorem. |
| C36 | Periodic checkpoints never go backwards and survive a crash | file system as a map with a crash point between actions; refutation and positive monotonicity. |
| C37 | Shutdown leaves no worker running and loses no returned result | shutdown loop over arbitrary message order. |
| C38 | A worker failure stops the whole run once | error handling path of the manager state machine. |
| C39 | Location stack is balanced | directory stack machine; balance by induction on nested programs. |
| C40 | Timers accumulate exactly the timed intervals | timer machine; sum invariant. |
| C41 | Dedicated mode removes exactly the libEnsemble nodes | list filter theorem. |
| C42 | Protected fields cannot be changed by user functions in safe mode | safe-mode error theorem for x_in and f. |
| C43 | Generated rows keep their provenance | history operation lists; gen_worker/gen times set once per row, frame lemmas for all later operations. |
| C44 | Workers use the slots the manager scheduled | slot dictionary per node list compared with the scheduler's teams; refuted on unequal nodes. |
| C45 | Resource sets are held only by workers that are working | manager state invariant (set owned iff its worker is active), over all manager steps; refuted for an order to worker 0. |
| C46 | Results go back to a generator object with the ids it gave | exact value of persis_in as a function of the message log, over all manager runs. |
| C47 | Every order to a persistent function reaches the running call, and each is answered once | System of manager and workers with phases (ConvModel); a mode per worker (idle, single order, owing, ready, told to stop) is followed through the messages in transit to the place of the worker; invariant over every step. |
| C48 | Nobody is waited for in vain | The same invariant: in each mode but idle and ready the worker can move. |
| C49 | At the end of a run every worker is at rest | The same invariant at the moment nobody is active or persistent, kept by the steps after FINISH. |
| C50 | No point is simulated twice in a run driven by libEnsemble's own allocation functions | Manager main loop with the allocation model called on the manager's own state (DrivenModel); invariant: every point sent has its flag set (or lies before the function's position). |
| C51 | Workers do not share GPUs | gpu ids per slot and node; disjointness; refuted for unequal nodes and mixed teams. |
| C52 | Concurrent tasks do not oversubscribe the cores of a node | process layout bounded by the worker's slots; sum over disjoint teams. |
| C53 | A task gets the GPUs it asked for, within its worker's share | GPU option and environment per runner; counts against the request. |
| C54 | libE returns the whole history or saves it, and leaves no worker behind | `manager()` of libE.py composed with the manager run; team of workers with arbitrary last messages; files written. |
| C55 | A generator object is asked, informed and finalized as the suggest/ingest standard says | Runner loop over an arbitrary generator (function of the calls so far) and message list; trace of calls and sends characterised by induction. |
| C56 | No resource set is ever with two workers in a run driven by libEnsemble's own allocation functions | Driven runs (DrivenModel); what each worker holds is read off the traffic (DrivenSpec); invariant: the holder table equals the traffic, and a unit names free sets only. |
| C57 | Never more generators at once than the allocation function allows | Driven runs; which worker works on a generator call, or keeps a persistent generator, is read off the traffic (task, persis_task in DrivenSpec); invariant: rows of the table cover the traffic and the units still to be sent are counted in the limit (DrivenGens). |
| C58 | The manager takes every order of the shipped allocation functions | Driven runs; order_error (DrivenSpec) is the exception that giving out the orders of one call ends with. Invariant: no worker in active receive, requested columns exist, tables reachable; every unit names known rows, columns, an idle worker and free sets (DrivenOrders). Where the default raises: case analysis of one turn plus progress of the default. |
| C59 | A run driven by the default allocation function ends | Driven runs; open_order (DrivenSpec) reads off the traffic which order a worker has not answered. Invariant: the worker table tells exactly who has an open order, rows started were sent out, rows cancelled were started, and each generator answer added a row; so a generator call finds all earlier points given out. Counting orders against points, answers and open orders gives the bounds (DrivenTrace, DrivenEnds). |
| C60 | Specifications that libE accepts are consistent | SpecsModel: the validators as functions on field lists and settings. start_history (SpecsSpec) is the history the run then starts with. Columns survive every operation of the main loop, even on exceptions (SpecsProofs), so the exit test never fails; with H0 all fields asked for are columns and no point is under way; composition with C58 and C59 says what an accepted run can still fail on. |
| C61 | The allocation functions for finite differences, APOSMM, inverse Bayes and local runs keep to their contracts | AllocModel2: the functions loop by loop, exceptions as values; numerical parts of the local runs as arbitrary inputs. AllocSpec2 states what one call must do (sound_call) in terms of workers, history and resource table. One invariant of the growing Work dictionary (AllocMore) is carried through every loop; sequences of calls (calls_of) by induction. |
| C62 | The allocation function that pauses points gives no point twice, stops points with NaNs and loses none in batch mode | AllocModel2.pausing_alloc with the choice of partly evaluated points to stop as an arbitrary input. One call by the invariant of AllocMore; runs by induction over the calls (AllocMore7) on histories that the manager keeps (AllocSpec2.kept). |
| C63 | Runs driven by the other five allocation functions evaluate no point twice and share no resource set | DrivenModel2 puts the functions of AllocModel2 into the manager's loop; their numerical parts are inputs chosen anew at every call. Never twice: the invariants of C50 for the three functions that look at sim_started (DrivenCareful2), and an invariant over the points still on the function's own list for the two that keep their own record (DrivenPending). Resource sets: DrivenSets2 extends the invariant of C56. PropsDriven2. |
| C64 | Input files reach each calculation's directory, output comes back, nothing else is touched | FileModel: the file system is a tree of files, links and directories; copy_file, symlink_file, register_loc, make_copyback, _make_calc_dir and copy_back are functions on it, with exceptions as values and the order of Python's sets as an input. Delivery: each input's turn puts the original's subtree at its name and leaves the other names and the originals alone. Frame: every step is an edit below one path. Copying back: an invariant on the directories a worker has registered over all its calls (worker_run), then each registered name is written once and the loop over other entries skips it. |
| C65 | A generator function behind suggest and ingest hands out every point once and hears every result | ProcGenModel: the object's attributes, its process as a function from everything sent to everything put out, and each method as a function with exceptions and endless waiting as outcomes. An invariant over all sequences of calls relates the messages read to what was handed out, kept back and reported; another relates the buffer to the results of the sample; progress of request-and-return rounds is proved for any function that answers each batch |
| C66 | A worker relays every point, update and result between the manager and a generator function in its own process, and stops it | ThreadGenModel on top of ProcGenModel: the worker's loop, where each turn says how many messages the outbox shows and which messages have come from the manager. An invariant relates the messages read to those sent, message by message; a run is also a program of the object, so the theorems of C65 say what reached the function; progress with a manager in step is a second invariant |
| C67 | APOSMM starts local runs where it says it does, sends every point once, and each run gets its own results | AposmmModel follows the main loop branch by branch; points, metric, radius, draws and optimizers are parameters. AposmmDist proves that the incrementally kept distances equal the distances to better points; one invariant over the reachable states ties rows, runs and results; totality by the same invariant |
| C68 | A local optimizer that APOSMM runs in its own process gets the value of the point it asked for | LocalOptModel: both processes, both events, the pipe and what is not yet written to it, with free interleaving; a conversation is specified as a recursive function of the values given. An invariant that says whose turn it is, and a measure that every step lowers |
| C69 | The sampling functions send one point per result and keep count of them | SamplerModel: each loop as a recursive function of the messages received, with an arbitrary random stream; induction over the messages, binary expansion for the corners |
| C70 | The points of the sampling functions are what their documentation says | PointsModel: the arithmetic of each function over rationals or integers, draws and permutations as arguments; a stratum is specified by inequalities, a row's place by division with remainder |
| C71 | The calibration function keeps track of what is evaluated and cancelled | CalibModel: the loop as passes over arrays, messages and an oracle for the emulator, with a log of what was sent, recorded and cancelled; an invariant that determines every cell from the log |
| C72 | The gpCAM generators choose uncertain points that are apart | GridModel: mesh, greedy choice, loop over radii, choice by variance and the data told; distances and variances are arguments. Induction over candidates; the radius is halved towards the minimum in each failing pass |
| C73 | The finite-difference generator estimates each pair from its own points | FdModel: the loop over messages with the octave program as a function of the data; a trace of batches and calls, an invariant that ties steps, counts and noise to the trace |
| C74 | The command line and the Ensemble object pass on the user's settings | EnsembleModel: LibeSpecs objects in a heap, ensembles refer to them; an invariant over programs that make ensembles and assign to them ties the communication of each ensemble to its object |
| C75 | A kill signal reaches the simulation it was meant for, or none | SystemModel with a record of the traffic; two invariants over all schedules: what waits for a worker is what was sent since its order, and a point under way belongs to the unanswered order of the worker noted for it |
| C76 | Runs with persistent generators end, and every result goes back once | DrivenModel with start_only_persistent: an invariant relating the worker table, the traffic and the flags of the rows; a generator that waits always has a point it has not heard of, so some turn has work to give |
| C77 | Over TCP every worker has its own channel, and nothing on it is lost | TcpModel: named queues on the server, sign-up on a shared queue, one communicator per sign-up; an invariant over all schedules pairs each communicator with a process and says what lies on its queues |
| C78 | A simulation function of the gest-api gets each point, and its results go to that point | SimWrapModel on the arrays and dictionaries of MapModel; the user's function is any function of its earlier runs; induction over the points |
| C79 | Settings of the machine come from the user, then the platform, then detection | PlatformModel: dictionaries over the fields of Platform, the table of known platforms, environment and machine as inputs; precedence as a separate relation, proved for all inputs |
| C80 | A task is launched with the command line and the environment it was given | CommandModel: str.format, shlex.split and str.split on texts, the runners' templates, environments as functions and submits of several workers as a list of steps; the run line against a separate table of options |
| C81 | A worker's executor, resources, directory and messages are its own | ShareModel: one executor, resources object and directory per process, steps of all workers in any order; a worker's view is compared with its view when alone, by a simulation; counterexamples for threads |
| C82 | Every log record and every calculation's line is written once, with its worker | LogModel: loggers with levels, propagation and handlers of one process, records sent to the manager and handled there; invariant of the configuration over any history of settings and calls |
| C83 | The multi-task Ax generator alternates its batches and gives each value with its point | AxModel: the generator's loop as a fold over replies, with Ax as oracles; induction over the replies with the phase of the loop |
| C84 | Local optimization runs in persistent generators get their own values, and the history counts the active runs of each point | LocalRunModel: NLopt as oracle with the generator's objective; the columns and persis_info that the allocation function keeps, under any history of events; invariant that relates them to the runs seen from outside |
| C85 | A generator object's fields and settings are its own | GenInitModel: the constructor on a heap of dictionaries, with the parameter defaults as one shared object; frame property over all later constructions |
| C86 | A cancellation request marks exactly the named points | CancelModel: the message of request_cancel_sim_ids, handled by ManagerModel and HistoryModel; frame property over history, worker table and resources |
| C87 | Saved results can be read back and those of other runs are kept | OutputModel: file names as text, files as a map from names to contents; injectivity of the names, frame property over sequences of saves |
| C88 | Every worker gets a random stream of its own | StreamModel: persis_info as references to dictionary objects, streams with their seed and identity; invariant over the loop |
| C89 | A run repeated with mock_sim gets the recorded results | ReplayModel: mock_sim over an arbitrary recorded array; composed with the history model of C01-C06 by a frame argument over all later operations |
| C90 | The test simulators evaluate every point, and their gradients are gradients | SimFuncModel: the functions over exact rationals, the loops over rows; derivatives by the epsilon-delta definition, from exact Taylor remainders; induction over pairs of coordinates |
| C91 | A user's own polling loop, as in the executor example, reports how the task ended | HelloModel: the loop over the task model of C29-C31; induction over what the passes find |
| C92 | The live plot keeps up with the run | LiveModel: live_update over arbitrary histories; invariant that last_plot_count is the number of results shown |
| C93 | The sampling generator objects suggest points of the domain, however they are asked | SampleObjModel: the objects over an arbitrary sequence of random numbers; induction over requests, points and variables |
| C94 | A simulation that can be killed reports what happened to its application | BoreholeModel over ExecutorModel's polling loop; case analysis over C30 |
| C95 | Residuals evaluated one at a time are those evaluated all at once | ChwirutModel over arbitrary data and an arbitrary function for exp; induction over batches and observations; composed with C70 for the generator |
| C96 | A simulation of several points says whether all its applications succeeded | MultiPointModel over ExecutorModel's submit and wait; induction over the points |
| C97 | The options checked in a task's run line are those it was launched with | RunCheckModel: the two readers over lists of words; induction over the words, composed with C80 for the run line |
| C98 | The text given to an application names the units of its worker's slots | SlotNameModel: the list of units, their names and the joined text; names are injective, and splitting undoes joining |

## Conventions

* Python exceptions are values of type `res` (`Err tag`), or a final `option err` beside the state reached (`ex`), so that what is
  left behind by an exception is visible.
* NumPy structured rows are total functions from field names to values; a missing field reads as the zero value, as `np.zeros` gives.
* Wall-clock readings are inputs of the operations. Floats are modelled as integers with a separate NaN and infinity where the code
  tests for them.
* User functions (sim_f, gen_f, alloc_f), processes, the network and the operating system are oracles: universally quantified
  parameters of the theorems.
* Loops over data are structural recursion or folds; `while` loops take fuel, and a theorem shows that the fuel given suffices for all
  inputs (`EFuel` is never the outcome).
* A property that the code does not have is kept in full in `properties.jsonl`; the theorem with the suffix `_refuted` proves a
  concrete reachable counterexample in the model, and the positive theorem beside it carries the extra hypothesis it needs.

## Trusted base

* **Coq 8.16.1's kernel** (and `coqchk`, which vcheck runs over the compiled files). No plugin beyond those the standard library loads.
* **Assumptions.** Every property theorem is followed by `Print Assumptions`; each one prints `Closed under the global context`: no
  theorem uses an axiom. `coqchk -o` lists seven constants of the standard library module `Coq.ssr.ssrunder.Under_rel` (opaque
  module-type fields that come with `ZifyBool`/ssreflect's loading); no theorem depends on them.
* **The transcription.** The model is written by hand from the text of `/repo`; nothing checks it against the running code. Each
  definition cites the lines it models and says where it simplifies.
* **Python, NumPy, the operating system, MPI, multiprocessing, ZMQ/TCP and the schedulers** are represented only by the behaviour
  stated in the model's comments (for example: queues deliver in order, `np.save` truncates before it writes, assignment to an integer
  column cuts fractions).

## What is modelled

| model file | code in /repo/libensemble |
|---|---|
| `HistoryModel` | `history.py` (all of class History), `tools/fields_keys.py`, the cancelled-row logic of `manager.py` |
| `ManagerModel`, `WorkModel` | `manager.py`: termination tests, `_check_work_order`, `_send_work_order`, `_update_state_on_alloc`, receiving and message handling, worker failures, kill signals, main loop, `_final_receive_and_kill` |
| `WorkerModel` | `worker.py` (loop, `_handle`, `_recv_H_rows`, `_handle_calc`), `tools/persistent_support.py`, the calls of `utils/runners.py` |
| `CommsModel` | queues with push-back of `comms/comms.py` and `comms/mpi.py` |
| `SystemModel` | manager, n workers and the queues between them, all interleavings |
| `ConvModel` | the same with persistent functions, the final loop and the FINISH messages |
| `AllocModel` | `tools/alloc_support.py`; `alloc_funcs/` give_sim_work_first, fast_alloc, give_pregenerated_work, only_one_gen_alloc, start_only_persistent |
| `AllocModel2` | `alloc_funcs/` start_fd_persistent, persistent_aposmm_alloc, inverse_bayes_allocf, start_persistent_local_opt_gens, fast_alloc_and_pausing |
| `DrivenModel2` | `manager.py` 676-697 with the allocation functions of `AllocModel2`: each call is given the manager's tables and the persis_info the last call left |
| `DrivenModel` | the manager's main loop calling these functions (`_alloc_work`, `_get_alloc_libE_info` of `manager.py`) |
| `RsetModel`, `SchedModel` | `resources/rset_resources.py`, `worker_resources.py`, `scheduler.py` |
| `ExecutorModel` | `utils/timer.py`, Task and polling loop of `executors/executor.py`, `utils/launcher.py` (wait/kill), launching with retries of `executors/mpi_executor.py` |
| `MpiModel` | `resources/mpi_resources.py`, `executors/mpi_runner.py` (layout, GPU options, command lines), GPU parts of `worker_resources.py` |
| `TextModel`, `LabelModel` | text operations, `utils/misc.py:extract_H_ranges`, directory names of `utils/output_directory.py` |
| `EnvModel` | `resources/env_resources.py`, the node-list part of `resources/resources.py` |
| `LocModel` | `utils/loc_stack.py` push, pop and the `with` protocol |
| `SaveModel` | periodic and final history files of `manager.py`, `enable_save_H_when_every_K` of `utils/validators.py` |
| `MapModel` | dictionary/array conversions of `utils/misc.py` |
| `DriverModel` | `manager`, `_dump_on_abort`, `kill_proc_team`, `libE_local` of `libE.py`; `QCommLocal.result`, `terminate` |
| `SpecsModel` | `utils/validators.py`, `utils/specs_checkers.py`, the VOCS rules of `specs.py`, the order of validators of `utils/pydantic_bindings.py` |
| `GenObjModel` | `StandardGenRunner`, `LibensembleGenRunner` of `utils/runners.py` |
| `FileModel` | `utils/loc_stack.py` (copy_file, symlink_file, register_loc); `utils/output_directory.py` (make_copyback, `_make_calc_dir`, prep_calc_dir, copy_back). Simplifications: a link is followed when it is the last name of a path, not on the way; no permissions or special files; each copying step is one action |
| `ProcGenModel` | generators.py 110-246 (`PersistentGenInterfacer`; export without renaming), gen_classes/aposmm.py 273-382 (`APOSMM`: suggest_numpy, ingest_numpy, suggest_updates, the buffer; not the checks of the constructor), comms/comms.py 174-208 (recv and result without time-out) |
| `ThreadGenModel` | utils/runners.py 156-178, 210-245 (`LibensembleGenThreadRunner` and what it inherits), tools/persistent_support.py 62-102 (recv as the function in the process sees it), manager.py 490-499 (use of the final data) |
| `AposmmModel` | gen_funcs/persistent_aposmm.py: aposmm, update_local_H_after_receiving, update_history_dist, update_history_optimal, decide_where_to_start_localopt, calc_rk, add_to_local_H, add_k_sample_points_to_local_H, initialize_APOSMM, initialize_children. The optimizers in their processes (localopt_support.py) are a function from the results fed so far to the next point; gradients and residual vectors travel with f and are left out |
| `LocalOptModel` | gen_funcs/aposmm_localopt_support.py 84-202 (`LocalOptInterfacer`), 650-753 (`opt_runner`, callbacks, `finish_queue`, `put_set_wait_get`); gen_funcs/persistent_aposmm.py 744-761. The optimizer is any function of the values it was given; a multiprocessing queue is a pipe plus a buffer for each process; writing to the pipe never blocks |
| `SamplerModel` | gen_funcs/persistent_sampling.py except `batched_history_matching` (see C70); the loops of gen_funcs/persistent_sampling_var_resources.py. A random stream is a function from numbers to points; values are integers or nan |
| `PointsModel` | gen_funcs/sampling.py 101-128, 156-201; gen_funcs/persistent_sampling_var_resources.py 85-91; gen_funcs/persistent_sampling.py 240-244; gen_funcs/persistent_inverse_bayes.py. Exact rationals and integers (no rounding); argsort is any sorting permutation; means and covariances are not modelled |
| `CalibModel` | gen_funcs/persistent_surmise_calib.py 36-242. The emulator and calibrator are an oracle for the number of new parameters and the columns given up; random priorities, observations and the printing are left out; column numbers are not negative |
| `GridModel` | gen_funcs/persistent_gpCAM.py 74-160, 245-263, 271-276; gen_classes/gpCAM.py 79-148. Exact rationals; the Gaussian process is an argument (a variance for each point); argsort is any sorting permutation |
| `FdModel` | gen_funcs/persistent_fd_param_finder.py, all of it. Exact rationals; the octave call is a function of the values given; files and the random content of unset noise entries are left out |
| `EnsembleModel` | tools/parse_args.py (without worker commands, directories and tester arguments), ensemble.py: the constructor, assignments to libE_specs and nworkers, run, whether save_output writes, add_random_streams, _parameterize for the specifications other than libE_specs; tools/tools.py:145-196. Validators of LibeSpecs other than the default of comms are left out (they are in `SpecsModel`) |
| `KillSpec`, `KillProofs` | no new code: kill signals in `SystemModel` (manager.py:562-583, executor.py:544-571, worker.py:397-420). The closing phase of the manager, with its stop signals, is not part of these schedules |
| `PersisEndsSpec`, `PersisHist`, `PersisTrace`, `PersisEnds`, `PersisCall`, `PersisTurn`, `PersisTurn2`, `PersisRun` | no new code: the manager's loop with start_only_persistent (`AllocModel.persistent_alloc`, `DrivenModel`). The final phase (stopping the generators) is C08's and C14's matter and not part of these theorems |
| `TcpModel` | comms/tcp_mgr.py, libE.py 567-582 and 631-641. Without sockets, authentication and time-outs; push-back buffers are `CommsModel`'s |
| `SimWrapModel` | sim_funcs/gest_api_wrapper.py. Not: further keyword arguments, VOCS given as a dict |
| `PlatformModel` | platforms.py, node_resources.py, gpu_detect.py (from the answers of the tools on), resources.py 174-183, 207-228 and 249-270, mpi_executor.py 90-129, mpi_runner.py 14-31, what specs.py, validators.py and ensemble.py do to platform_specs. Not: the programs that are run, Windows, get_MPI_variant |
| `CommandModel` | launcher.py 14-25, the mpi_command templates of mpi_runner.py, mpi_executor.py 356-382, executor.py 93-103, 219-224, 695-703, 822-836. Not: the start of the process itself, the choice of the MPI specifications (MpiModel), format specifications inside a template field |
| `ShareModel` | worker.py 118, 182-183, 192-228, 278, 323-324, 359, 397, 431-432; executor.py 120-157, 434-437, 544-571, 654-673, 679-682 and the parts of submit that read the worker's number, directory and team; worker_resources.py 300-320; loc_stack.py 123-135; libE.py 447-466. Each step is atomic |
| `LogModel` | comms/logs.py (not: directories and file names, timing lines of the whole ensemble), levels of logger.py, manager.py 555-557, worker.py 110-111 and 317, the parts of Python's logging they use. Not: processes started by spawn, disable_log_files |
| `AxModel` | gen_funcs/persistent_ax_multitask.py (not: Ax itself, which is universally quantified, creation of the search space and experiment, saving the experiment and the model) |
| `LocalRunModel` | gen_funcs/uniform_or_localopt.py (not: setting up NLopt, columns of distances), start_persistent_local_opt_gens.py 38-45 and the updates of num_active_runs and run_order in 49-79, manager.py 537-538 |
| `GenInitModel` | generators.py 40-93 (not: persis_info and its random stream, subclasses' own constructors) |
| `CancelModel` | tools/persistent_support.py 31-58, 117-127 (request_cancel_sim_ids and the message it sends) |
| `OutputModel` | tools/tools.py 79-164 and 223-260: file names, what is written where, the check for a saved file (not: log message, file system errors) |
| `StreamModel` | tools/tools.py 170-220, ensemble.py 539-563, generators.py 78-81 (not: the numbers drawn) |
| `ReplayModel` | sim_funcs/mock_sim.py 4-21 (the file's content is any array; not: reading the file, negative row numbers) |
| `SimFuncModel` | sim_funcs/six_hump_camel.py 25-135 without six_hump_camel_simple, sim_funcs/rosenbrock.py (numbers are exact rationals: not rounding, infinities, NaN; not: pauses, negative components) |
| `HelloModel` | sim_funcs/executor_hworld.py 20-67, executors/executor.py 573-578 (not: the choice of arguments in executor_hworld) |
| `LiveModel` | tools/live_data/plot2n.py 35-44, 117-136, manager.py 534-535, 636-637 (not: the drawing) |
| `SampleObjModel` | gen_classes/sampling.py 23-38, gen_classes/external/sampling.py (exact rationals; the random numbers are any sequence in [0, 1) fixed by the seed; that numpy takes one number for a draw is assumed; not: the conversion to dictionaries, which is C34) |
| `BoreholeModel` | sim_funcs/borehole_kills.py 8-61 (not: writing the input file, the delay, a launch that fails; the true value of the test function is any rational, and dividing infinity by it is taken to exceed the threshold, which needs it to be positive) |
| `ChwirutModel` | sim_funcs/chwirut1.py 227-242, 261-298 (exact rationals; exp is any function; division by zero gives zero instead of infinity; not: the Jacobian, which only tests call, and the 214 pairs of data, which are any lists) |
| `MultiPointModel` | sim_funcs/var_resources.py 187-254 (not: the number of processes, which is C32's matter, and the arguments of the application) |
| `RunCheckModel` | tools/test_support.py 4-27, 46-50, 65-100 (over the words of the line; not: splitting the line, and check_gpu_setting) |
| `SlotNameModel` | resources/worker_resources.py 210-254 (with the default delimiter and limits that are not negative; of set_env_to_slots the value set) |

Not modelled: the provided generator, simulator and calibration functions (`gen_funcs/` apart from APOSMM's main loop, the object that runs its optimizers, the sampling functions, the bookkeeping of the calibration function, the choice of points of the gpCAM generators, the finite-difference generator, the loop of the multi-task Ax generator and the local optimization runs of uniform_or_localopt; `sim_funcs/` apart from the gest-api wrapper, mock_sim, the camel, Rosenbrock and chwirut functions, the simulation with kills, the one that runs an application for each point and the polling loop of the executor example; `gen_classes/` apart from the object around APOSMM, the choice of points of gpCAM and the sampling objects), pydantic itself
(types of entries, unknown keys), Globus Compute, and the numerical content of results.

## Findings

Each line is a `_refuted` theorem (the statement and the witness are in the file named).

History (`PropsHistory`): a simulation's return can overwrite `sim_id` (C01); a point with a negative id is lost (C01); the informed
counter can disagree with the flags (C03); a row of H0 with `sim_ended` but not `sim_started` is overwritten (C05); the kill window
misses running simulations (C11).

Resources (`PropsResources`): assigning an owned set is silently skipped (C13); a set repeated in a team breaks the counters (C12);
idle nodes of unequal size can leave a satisfiable request unserved forever (C16); a repeated node name raises IndexError (C16); worker
slots disagree on unequal nodes (C44).

Allocation (`PropsAlloc`): a NaN priority with batches gives an empty work unit (C21); rows beyond the history are given out when only
cancelled rows remain, and IndexError (C22); a simulation unit is overwritten by a generator start (C22).

Manager (`PropsManager`): an exception while shutting down leaves workers without FINISH (C37); `final_gen_send` to a worker with
`active_recv` raises (C37); FINISH is sent twice after a worker error (C38); an order to worker 0 without `gen_on_manager` reaches the
last worker (C45).

Workers and queues (`PropsWorker`): a second push-back loses the first message (C25); `mail_flag` overlooks a pushed-back message
(C25); an order without rows mixes up or hangs a persistent function (C27); `manager_poll` throws an order away (C27); a bare
two-record array is misparsed (C28); a returning persistent function uses up the FINISH signal (C28).

Executor (`PropsExecutor`): `cancel()` sends no signal (C29); a retry keeps the earlier attempt's time (C31); success is reported as
timeout or killed (C30); stopping a timer twice counts twice (C40).

MPI (`PropsMpi`): zero processes means all cores (C32); ZeroDivisionError/TypeError in place of the documented exception (C32); GPU ids
that do not exist on unequal nodes and for mixed teams (C51, C52); `gpus-per-task 0` (C53); an option that only the platform names is
rejected (C53).

Directories and node lists: generator directories are shared by workers (C33); node lists with two bracket groups, truncation, blank
lines or PBS duplicates (C35); dedicated mode removes nothing for mismatched names and Cobalt node 0 (C41); a failed or unknown
location leaves the wrong directory (C39).

History files (`PropsSave`): a crash between removal and writing loses the only checkpoint; a stale or torn file of the same name is
taken for the checkpoint (C36).

Points and arrays (`PropsMap`): packing variables raises for every array with another field; a mapped field named in
`gen_specs["out"]` stays zero, and the first batch adds it to that list; the first point's types cut later values (C34).

Ending (`PropsDriver`): a worker whose last act raises makes libE raise after a complete run, so the history is not returned, and the
workers after it are left running; with threads `worker_timeout` does not bound the wait (C54).

Generator objects (`PropsGenObj`): a stop before the first results raises TypeError in the worker and the object is not finalized (an
object with `ingest_numpy` is given None); results after the first batch are ingested under the array's names, not the mapped ones
(C55).

Persistent functions (`PropsConv`): a generator that ends right after sending its points, with a final status, is called again by the
order meant for its first call while its worker is marked free (C47). With `final_gen_send` a generator stopped when no finished point
is left to return waits for rows that never come, and the manager waits for the generator; a persistent function that polls the manager
loses the signal to stop and both wait; a persistent function that returns without a final status keeps the manager waiting (C48).

Driven runs (`PropsDriven`): with H0, `fast_alloc` starts at row 0 and simulates finished points again; without `safe_mode` (the
default) a result that carries `sim_started` makes its point go out again (C50). With `gen_on_manager` and no `num_resource_sets`
worker 0 is given `index_list[-1]`, the last worker's set, while that worker may hold it; the `final_gen_send` order names the
worker's default set even if a running simulation holds it (C56). `only_persistent_gens` with an H0 whose points are all
simulated and no `gen_specs["in"]`: the order that starts the generator names rows but no fields, and the manager's assertion ends the
run; `give_all_with_same_priority` with a NaN priority makes a unit with no rows, and with `kill_canceled_sims` `np.max` of nothing ends
the run (C58). A generator that returns arrays without rows is called again without end while another worker is busy (C59).

Specifications (`PropsSpecs`, C60): without H0 the input fields are not checked, and a misspelt `sim_specs["inputs"]` ends the run with
the first simulation order. With H0, a field that only `alloc_specs["out"]` defines is refused although it would be a column. The
shape comparison of `_check_H0` compares a name with a list of tuples and never runs, so an H0 with a field of another shape is
accepted and the first generator return ends the run. `nworkers=0` with local comms is accepted (0 is taken as not given). The current
directory is refused as `sim_input_dir` only when it is given as a Path. On the other side, H0 with points finished but not started
(C05) is refused by libE before the history sees it.

More allocation functions (`PropsAlloc2`, C61). `start_fd_persistent`: a pair with more evaluations than expected is never returned to
the generator; without a free worker the start of the generator raises IndexError. `inverse_bayes_allocf`: a history with points of H0 or of another
generator makes the call fail with ValueError (masks of different length). `start_persistent_local_opt_gens`: a run can be recorded as started while its
order is overwritten by a simulation of the same call; the order for new points can overwrite a simulation although other workers
are idle; a run whose points were all cancelled is sent a point that was never evaluated; the third argument of `np.logical_and` is the
output array, so cancelled samples count; `rset_team=[]` is not honoured (`gen_work` says it is), and the order takes resource sets.

Pausing points (`PropsAlloc3`, C62). Outside batch mode a generator call can replace the simulation order that the same call just
gave to the worker; the point is off the list and never given. A component that the generator adds to a point already paused is given.
`cancel_requested` is not looked at. `H_len` starts at 0, so points of H0 are given again.

Files (`PropsFiles`): a simulation's link in a shared directory is written through by a generator's copy of the same name, so a user's
own file is overwritten; two workers that run generators share `gen0001` and the second call fails if a directory is to be copied
there; a file whose name begins with `sim` or `gen` and a digit is not copied back; a directory that another worker has already copied
back is not brought up to date; with two inputs of one name the result depends on the order of a set (C64).

Generator functions behind an object (`PropsProcGen`, C65): a sample whose results carry neither `sim_id` nor `_id` (the documented
second way of using APOSMM) is handed over with every row numbered 0; results of the sample that arrive in another order are told under
other points' numbers; a batch larger than what the sample still lacks raises ValueError although the documentation says "at least";
two calls of `suggest(n)` before the first result raise TypeError; `suggest()` after `suggest(n)` hands out points again; once the
function has ended, a further `suggest(n)` hands out the last batch again; calling `setup()` first, as its docstring demands, means that
the process is never started and `suggest` waits for ever; so does a request in the middle of a user's own sample.

Relay to a generator function in a process (`PropsThreadGen`, C66): two batches that come before the worker has looked at the outbox again
end the function and raise RuntimeError (two calls of `suggest()` in a row); a stop that comes with the answer to the first points is not
noticed, and a stop signal instead of that answer raises AttributeError; with `final_gen_send` the last rows never reach the function (both
messages carry the stop tag, and `recv` then gives no rows), and while the sample is incomplete the stop is kept back with them, so the worker
waits for ever; a function that ends by itself makes the worker raise; the function's result comes back inside a pair, so
`use_persis_return_gen` has no effect and the function's `persis_info` is lost; started with fewer rows than the sample, the worker waits for ever.

APOSMM (`PropsAposmm`, C67): the count of active runs kept for a point becomes negative; two equally good points keep each other from being
started while some sample point is still out; points given with `known_to_aposmm` set keep infinite distances, so runs start beside better points
and at the boundary; a paused point of an earlier run is started from; an optimizer that converges at its first point ends everything with
TypeError; while the function waits for the user's own sample a stop signal is ignored; a sample point given without a value is counted twice;
with `lhs_divisions` no run starts, not even from the best point, before there are two sample points per division.

Local optimizers (`PropsLocalOpt`, C68): if the optimizer's process is killed or crashes, the call of iterate waits for ever; if the first point it asks for is not
the starting point, the constructor raises, the object is in no list of APOSMM's, and the process is never ended.

Sampling functions (`PropsSampler`, C69): persistent_uniform_with_cancellations cancels points that were never sent if more than half of the first batch comes back at once (the manager then makes rows
for them); in persistent_uniform_final_update a value nan makes the sum forget the values before it while the count keeps them, so the mean reported is wrong.

Points of the sampling functions (`PropsPoints`, C70): two calls of uniform_random_sample_obj_components with the same history (two generators at once) give one number to different points; a point at the upper
bound asks for max_gpus + 1 GPUs; batched_history_matching takes the places of the values for places of points, so it chooses wrong points if the results do not come in the order sent; the updater after a
likelihood raises ValueError if fewer results than rows come.

Calibration function (`PropsCalib`, C71): with more than one place, if several parameters are added at once, load_H sends the rows place by place while update_arrays and cancel_columns read their
numbers parameter by parameter, so values are recorded, and evaluations cancelled, for other places and parameters than they were computed for; a message read when the model is not rebuilt is overwritten,
unrecorded, if new parameters are sent in the same pass; cancellation is requested for rows whose results have been received but not yet recorded.

gpCAM (`PropsGrid`, C72): persistent_gpCAM_covar without the grid draws new candidate points after the variances were evaluated and picks from the new ones by the old variances, so the points it sends are
random; with the grid, the loop over radii never ends if more points are asked for than the grid has, and (in exact arithmetic) also if the variances are such that no choice of enough points more than
the minimum distance apart is made in their order: floating-point numbers end it only once the radius rounds to the minimum; GP_CAM_Covar raises ValueError when asked for more than ten times as many points as
the last results it was told; the generator functions pair values with points sent by position, so results in another order are told for wrong points.

Finite differences (`PropsFd`, C73): the list of pairs is reshaped to rows of as many entries as there are variables, so any number of variables but two raises ValueError before anything is sent; with an odd number
of points the middle is skipped when sending (nf // 2) but not when reading (nf / 2), so the first results raise IndexError; a pair that fails maxnoiseits times keeps the function from returning: it sends an
empty batch, to which no results can come, and waits to be stopped; what the function returns as its output is the last batch, which has been sent before.

Ensemble (`PropsEnsemble`, C74): --nsim_workers together with --nworkers adds no workers, although the help text says so; --nresource_sets is ignored with tcp, ssh and client; the default LibeSpecs() of the constructor is one
object for all ensembles, so parsing arguments for a second ensemble changes the communication of the first, which then refuses to run; an ensemble made with libE_specs=None never runs, whatever is assigned; parse_args with a
dictionary for libE_specs raises AttributeError; assigning an object cannot set a field back to its default, and assigning LibeSpecs(nworkers=n) is refused as a change of communication even if that is local already; after
parse_args, a number of workers assigned with libE_specs is used by the run, but the ensemble still says the parsed one and makes random streams for that many; with threads (or tcp) and no parsed arguments save_output writes
nothing; if both names of inputs and of outputs clash in a file, those of the outputs stay and the new object is refused.

Kill signals (`PropsKill`, C75): a simulation that returns no output and gives itself status 11 (the tag libEnsemble keeps for the end of a persistent simulation) is never marked as ended, so a later cancellation of its point
kills whatever simulation its worker runs then; with local communication a second poll in the same simulation does not report the signal again, because the check for mail does not look at the message pushed back.

Persistent generators (`PropsPersisEnds`, C76): a generator that sends a message without points, or as many generators as workers, leaves nobody with anything to do, and the manager stops with the assertion "alloc_f did not return any work, although all workers are idle."

TCP (`PropsTcp`, C77): the manager numbers its workers by the order of sign-up, so its worker numbers (`H["sim_worker"]`, `H["gen_worker"]`, persis_info) need not be the workerIDs it started the processes with, which user functions and directory
names show; two workers started with the same workerID share their queues and take each other's orders.

gest-api wrapper (`PropsSimWrap`, C78): a function that takes libE_info and raises a TypeError of its own is run again for the same point, without libE_info, and the error is lost if that run returns; an objective missing from
the returned dictionary is recorded as 0.

Platform settings (`PropsPlatform`, `PropsNode`, C79): platform_specs given to libE as a dictionary or Platform is dumped with its unset fields as None, so together with a platform name (or a detected platform) it erases all
settings of the known platform that it does not repeat, against the documentation ("added to or overwrite"); even an empty dictionary does. gpu_setting_type is then None, which selects the branch for environment variables with None as the variable's name.
By way of an Ensemble that already has libE_specs the Nones are left out, but scheduler_match_slots is reset to True. A user's gpus_on_node=0 is ignored; a platform's gpus_per_node=0 is ignored if a number of cores is missing; stating one of
the two numbers of cores discards the platform's other one. A runner kind from custom_info is combined with the platform's command (srun options with mpiexec on Polaris). An executor reused in a second libE call keeps the runner of the first.

Command lines (`PropsCommand`, C80): quotation marks in app_args do not keep an argument together (str.split), and in extra_args they do but stay in the argument (shlex, posix=False); an unclosed one makes submit raise ValueError. An application path
with a blank is split in two. MS-MPI never gets the host list. An env_script without a newline at its end has the run line glued to its last line. Variables are set in the worker's own environment and never taken back: a task
without GPUs sees the GPU list of the worker's previous task; with worker threads the environment is shared, so a task can start with the GPU list of another worker's task.

Sharing (`PropsShare`, C81): with comms "threads" all workers use one Executor, one worker_resources object and one current directory. Polls of any worker read the channel of the worker that was set up last: a worker takes another one's kill signal
for its own, misses its own, and swallows the other's next order, which is then never done. Tasks carry the number, run on the resource sets and start in the directory of another worker; after overlapping calculations with directories the process is left in a
calculation's directory. If the last worker has no resources, no team is ever set. When the first worker ends, the polls of the others raise AttributeError. Lines of statistics list other workers' tasks. With comms "local", a second libE call numbers
its tasks from the same number again, so that default output files of the first call are overwritten. Found while reading, not proved: stats_fmt with task_timing and no Executor fails every calculation with AttributeError (worker.py:324).

Logging (`PropsLog`, C82): set_level("WARNING") or higher also stops the lines of libE_stats.txt in the first call of libE (the workers' logger for statistics gets the same level), but not in later calls. With comms "threads" all lines and records of the workers
are labelled as the manager's.

Ax generator (`PropsAx`, C83): with n_opt_hifi > n_opt_lofi it fails with ValueError after its first optimization batch; when the values of a batch come back in parts (async_return) it fails with IndexError.

Local optimization runs (`PropsLocalRun`, C84): a run that ends without an optimum (localopt_maxeval reached) keeps "done" in persis_info, so num_active_runs of its rows is reduced again in each later call and becomes negative, and the rows of the worker's
next run are counted off while it is active. If NLopt asks for its optimum twice the allocation function fails with AssertionError.

Generator objects (`PropsGenInit`, C85): the default of gen_specs is one dictionary for the whole process, so objects constructed without gen_specs but with keyword arguments overwrite each other's settings and inherit those of earlier ones. A variables_mapping
given to two objects is completed in place for the first, and the second then uses the first's variables.

Cancellation requests (`PropsCancel`, C86): a request for the next unused id is accepted and adds a point with zeros for its values to the history; a request for a larger id ends the run with an AssertionError. A point of H0 without a generation time is
recorded, after a request for it, as generated by the worker that asked.

Saved results (`PropsOutput`, C87): scripts whose names differ only before "test_" share a short name and overwrite each other's results. Without append_attrs, the name returned for a script name whose stem ends in .npy does not exist. check_npy_file_exists
accepts the results of another script whose name begins with this one's, and with max_wait 0 does not look at all.

Random streams (`PropsStream`, C88): workers that share one dictionary in persis_info end up with one stream and one worker_num. A seed that is no Python int (the documented type is str; a NumPy integer) is ignored. Generator objects that are given no random stream
all get one with seed 4321 and draw the same numbers; the other settings of the persis_info they were given are dropped.

Replaying (`PropsReplay`, C89): mock_sim uses only the first of the rows it is given and returns one row. A replayed run that gives a worker several points at a time stops in the manager with an IndexError, though the recorded run did not.

Test simulators (`PropsSimFunc`, C90): no error found. rosenbrock_eval writes a zero gradient if get_grad is not set in persis_info, whether or not sim_specs["out"] has a gradient field.

Executor example (`PropsHello`, C91): custom_polling_loop reports MAN_SIGNAL_KILL, by which the manager stops one cancelled simulation, as MAN_SIGNAL_FINISH. By C28 a worker whose function returns that status leaves its loop without an answer, so that the manager waits for it; Executor.polling_loop
reports the signal it received. A task that failed to start makes the loop raise, where Executor.polling_loop returns TASK_FAILED_TO_START.

Live plot (`PropsLive`, C92): live_update compares rows with a number of results. A point in a row below the number of results shown that is found to be a local minimum later is not drawn before the next drawing, and never if the run ends before: finalize draws nothing.

Sampling objects (`PropsSampleObj`, C93): the seed of the gest-api samplers is fixed to 1 and cannot be set, so that two such objects over the same variables always suggest the same points.

Simulation with kills (`PropsBorehole`, C94): without the output field `sim_killed` a simulation that the manager killed goes through the failure model, which finds infinity too big, and is reported as TASK_FAILED (`C94_killed_reported_as_failed_refuted`).

Residuals (`PropsChwirut`, C95): chwirut_eval asks for `sim_specs["user"]` without a check when all residuals are evaluated, though it checks for it when one is: without it the former raises a KeyError and the latter does not. A negative component is taken from the end instead of refused.

Several points (`PropsMultiPoint`, C96): with an application other than six_hump_camel, a point whose application failed gets the value of the function like any other; only the status of the whole batch tells (`C96_value_of_a_failed_run_refuted`). A launch that fails in all attempts is not a status: `wait` raises for a task without a process.

Reading run lines (`PropsRunCheck`, C97): the last occurrence of an option is taken, which may be among the application's arguments (`C97_arguments_are_taken_for_options_refuted`); an option that is the last word raises an IndexError (`C97_value_after_the_last_occurrence`).

Slots as text (`PropsSlotName`, C98): with no slots list, set_env_to_slots assigns None to an environment variable, which raises a TypeError (`C98_texts`); with a limit or a multiplier of zero the variable is set to the empty text (`C98_empty_text`).
