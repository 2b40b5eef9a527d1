{"id": "C01", "title": "Generated points are appended in order with sim_id equal to row index", "statement": "When a generator returns k points without sim_id, the history gains exactly k rows: they occupy the next k row positions, in order, each with sim_id equal to its row number, carrying the values the generator returned; every earlier row keeps all of its values. When points carry sim_id, the call either raises (a gap in ids) or writes each point to the row of its id and leaves every other row alone, and the number of rows in use becomes max(old, largest id + 1).", "quantifier": "every history reachable from an empty start, every batch of returned points (any size, any sim_ids including repeated and out-of-order ones), any number of batches", "why_tests_cant": "the id/row alignment is an invariant over unbounded sequences of batches, growths and overwrites; tests only try a few sequences", "anchors": ["libensemble/history.py:History.update_history_x_in", "libensemble/history.py:History.grow_H"]}
{"id": "C02", "title": "Array growth never loses or alters rows and always makes room", "statement": "Growing the history array keeps all existing rows bit for bit, new rows are blank (sim_id -1, not started), and after every accepted batch the number of used rows never exceeds the allocated length; the final trimmed history has exactly the used rows.", "quantifier": "every sequence of history operations, every batch size and initial sim_max", "why_tests_cant": "growth happens only for particular batch-size sequences; the room guarantee is arithmetic over all of them", "anchors": ["libensemble/history.py:History.grow_H", "libensemble/history.py:History.trim_H", "libensemble/history.py:History.update_history_x_in"]}
{"id": "C03", "title": "Progress counters agree with the flags in the history", "statement": "As long as each row is given out at most once and returned at most once, the counts of started and ended simulations used for the exit tests always equal the number of rows marked started/ended, and ended <= started <= number of rows. The informed counter does not have this property: it counts rows passed to a generator even when they are unfinished or already reported.", "quantifier": "every interleaving of give-out, return and inform events in which rows are not given or returned twice", "why_tests_cant": "counter drift only shows after particular interleavings", "anchors": ["libensemble/history.py:History.update_history_f", "libensemble/history.py:History.update_history_x_out", "libensemble/history.py:History.update_history_to_gen"]}
{"id": "C04", "title": "Row status flags are monotone and results are never silently overwritten by bookkeeping", "statement": "In safe mode, once a row is marked started, ended, informed or kill-sent it stays so for the rest of the run, and a simulation result changes only the row it belongs to and only the returned fields.", "quantifier": "every sequence of history operations with arbitrary user data in safe mode", "why_tests_cant": "must hold for all later operations, an unbounded future", "anchors": ["libensemble/history.py:History.update_history_f", "libensemble/history.py:History.update_history_x_in", "libensemble/tools/fields_keys.py:protected_libE_fields"]}
{"id": "C05", "title": "A prior history H0 is preserved and treated as finished work", "statement": "Starting from H0: the first len(H0) rows of the run's history carry all H0 values; rows without status fields count as started and ended; the rest of the array is blank; and the counters start at the number of H0 rows so marked.", "quantifier": "every H0 (any length, any subset of the status fields) and any sim_max", "why_tests_cant": "cross product of which status fields H0 has, lengths and sim_max", "anchors": ["libensemble/history.py:History.__init__"]}
{"id": "C06", "title": "A sim_max exit criterion is met and not overshot by single-point work", "statement": "In any run the manager hands out a simulation work unit only while fewer than sim_max new simulations have been started; hence if every unit holds one point, at most sim_max simulations are ever started (plus those in H0); with units of up to b points at most sim_max+b-1.", "quantifier": "every run of the manager: all allocation decisions, message orders and batch sizes", "why_tests_cant": "allocation functions and arrival orders are arbitrary", "anchors": ["libensemble/manager.py:Manager._sim_max_given", "libensemble/manager.py:Manager.run"]}
{"id": "C07", "title": "The stop test reports exactly the user's exit criteria", "statement": "The manager's stop test returns 2 exactly when the wall-clock limit has passed, otherwise 1 exactly when one of sim_max/gen_max/stop_val is reached, otherwise 0; NaN objective values never trigger stop_val; sim_max is reached exactly when results for that many points (beyond those in H0) have been received; once a criterion is met at a loop test no further work is handed out.", "quantifier": "every history, elapsed time and combination of criteria", "why_tests_cant": "the criteria interact with each other and with H0 offsets", "anchors": ["libensemble/manager.py:Manager.term_test", "libensemble/manager.py:Manager.term_test_stop_val"]}
{"id": "C08", "title": "No worker is given new work while it is busy", "statement": "The manager sends a work order to a worker only if that worker is idle, or is a persistent worker in active-receive mode and the order is marked active_recv; any other order from the allocation function makes the run raise before anything is sent to that worker.", "quantifier": "every allocation function result and every manager state", "why_tests_cant": "the allocation function is user code", "anchors": ["libensemble/manager.py:Manager._check_work_order", "libensemble/manager.py:Manager._send_work_order", "libensemble/manager.py:Manager.run"]}
{"id": "C09", "title": "Manager bookkeeping matches what workers are actually doing", "statement": "At every moment of a run with non-persistent calculations, a worker is marked busy by the manager exactly when a work order is on its way to it, being computed by it, or its answer is on its way back; there is never more than one such order per worker, each work order is answered exactly once and each answer is applied to the rows of the order it answers.", "quantifier": "every interleaving of manager steps, worker steps and message deliveries, any number of workers and orders", "why_tests_cant": "a distributed interleaving property", "anchors": ["libensemble/manager.py:Manager", "libensemble/worker.py:Worker.run", "libensemble/comms/comms.py:QComm"]}
{"id": "C10", "title": "Cancelled running simulations are signalled, once each", "statement": "When kill_canceled_sims is on, a pass of the kill step sends one kill message for each row in its scan window that is started, cancelled, unfinished and not yet signalled, to the worker running it, and marks it; no row is signalled twice in a run. The scan window is [last_ended+1, last_started].", "quantifier": "every history and every sequence of passes", "why_tests_cant": "depends on the order in which rows start/end", "anchors": ["libensemble/manager.py:Manager._kill_cancelled_sims", "libensemble/history.py:History.update_history_x_out"]}
{"id": "C11", "title": "Kill window covers every running cancelled simulation", "statement": "Every row that is started, unfinished and cancelled lies inside the window scanned for kill signals. (True when rows are given out in increasing order; refuted in general because the upper end of the window moves backwards.)", "quantifier": "every order of giving out rows", "why_tests_cant": "order dependent", "anchors": ["libensemble/history.py:History.update_history_x_out", "libensemble/history.py:History.update_history_f", "libensemble/manager.py:Manager._kill_cancelled_sims"]}
{"id": "C12", "title": "Resource sets are never double-booked and are always returned", "statement": "At all times each resource set is recorded as held by at most one worker, the published numbers of free (total, GPU, non-GPU) resource sets equal the numbers actually unassigned, and releasing a worker frees exactly the sets it held; after all workers are released all sets are free.", "quantifier": "every sequence of assignments and releases", "why_tests_cant": "unbounded assign/free histories", "anchors": ["libensemble/resources/worker_resources.py:ResourceManager.assign_rsets", "libensemble/resources/worker_resources.py:ResourceManager.free_rsets"]}
{"id": "C13", "title": "Conflicting resource assignment is detected", "statement": "Assigning a resource set that another worker holds raises an error. (Refuted: the exception object is built but never raised, and the assignment is silently skipped.)", "quantifier": "every assignment", "why_tests_cant": "the error branch is silent so tests see nothing", "anchors": ["libensemble/resources/worker_resources.py:ResourceManager.assign_rsets"]}
{"id": "C14", "title": "The scheduler only hands out free, distinct resource sets of the requested kind", "statement": "Whenever the scheduler returns a team for a request, the team has no repeats, every member was free and not already handed out in the same allocation round, has a GPU if GPUs were requested and none if non-GPU sets were requested, the team is sorted, and its size is at least the number requested (exactly the requested number unless it has to be rounded up to split evenly over nodes).", "quantifier": "every resource layout, free/assigned state, scheduler options, and sequence of requests", "why_tests_cant": "combinatorial layouts and request sequences", "anchors": ["libensemble/resources/scheduler.py:ResourceScheduler.assign_resources"]}
{"id": "C15", "title": "Multi-node teams are even and slot-matched", "statement": "A returned team takes the same number of sets from every node it uses; with match_slots on, it uses the same slot positions on every node.", "quantifier": "every layout, state and request", "why_tests_cant": "combinatorial", "anchors": ["libensemble/resources/scheduler.py:ResourceScheduler.get_matching_slots", "libensemble/resources/scheduler.py:ResourceScheduler.find_rsets_any_slots"]}
{"id": "C16", "title": "The scheduler always terminates, and never refuses a request that fits on one node", "statement": "assign_resources terminates for every input; if the request fits the per-node maximum and some node has that many free sets of the requested kind, a team is returned, taken from a single node whose free count is the smallest sufficient one.", "quantifier": "every layout, state and request", "why_tests_cant": "termination of the split search loops for all sizes", "anchors": ["libensemble/resources/scheduler.py:ResourceScheduler.assign_resources", "libensemble/resources/scheduler.py:ResourceScheduler.calc_even_split_uneven_groups"]}
{"id": "C17", "title": "Even-group arithmetic covers the request", "statement": "The even-group calculation returns a number of groups and a per-group size whose product is at least the request, does not exceed the request when an even split exists within the available nodes, and rounds up by less than one per group otherwise.", "quantifier": "all request sizes, group sizes and group counts", "why_tests_cant": "number theoretic for all naturals", "anchors": ["libensemble/resources/scheduler.py:ResourceScheduler.calc_rsets_even_grps"]}
{"id": "C18", "title": "Resource sets partition the nodes fairly", "statement": "Dividing n nodes among r resource sets gives every node to some set; when there are at least as many sets as nodes, each set gets one node and the numbers of sets on any two nodes differ by at most one; when there are more nodes than sets every node goes to exactly one set and set sizes differ by at most one.", "quantifier": "all node lists and all positive numbers of sets", "why_tests_cant": "arithmetic for all sizes", "anchors": ["libensemble/resources/rset_resources.py:RSetResources.best_split", "libensemble/resources/rset_resources.py:RSetResources.get_split_list", "libensemble/resources/rset_resources.py:RSetResources.expand_list", "libensemble/resources/rset_resources.py:RSetResources.get_group_list"]}
{"id": "C19", "title": "Default worker to resource-set mapping is one to one", "statement": "Workers without the zero-resource mark get distinct default resource sets 0,1,2,... in worker order, zero-resource workers get none.", "quantifier": "every number of workers and every zero-resource list", "why_tests_cant": "all lists", "anchors": ["libensemble/resources/worker_resources.py:ResourceManager.get_index_list"]}
{"id": "C20", "title": "Converting process/GPU counts to resource sets is a correct ceiling", "statement": "The number of resource sets computed for n processes or GPUs is the least k with k sets providing at least n; zero or negative requests give zero; resource sets that provide none of the unit give an insufficient-resources error.", "quantifier": "all counts", "why_tests_cant": "arithmetic for all sizes", "anchors": ["libensemble/tools/alloc_support.py:AllocSupport._convert_to_rsets", "libensemble/tools/alloc_support.py:AllocSupport._convert_rows_to_rsets"]}
{"id": "C21", "title": "Default allocation never gives a point twice and never gives a cancelled point", "statement": "The default allocation function returns work only for idle workers, at most one unit per worker; each simulation unit has one row, all units have different rows, and each row is not yet started and not cancelled; generator units never push the number of running generators over num_active_gens; nothing is given once sim_max simulations are started.", "quantifier": "every history, worker state, priority data and resource availability", "why_tests_cant": "quantifies over all histories and worker states", "anchors": ["libensemble/alloc_funcs/give_sim_work_first.py:give_sim_work_first"]}
{"id": "C22", "title": "Other allocation functions respect the same discipline", "statement": "fast_alloc, only_persistent_gens, give_pregenerated_sim_work and ensure_one_active_gen return work only to idle workers (or the active-receive generator), with distinct unstarted rows; exceptions (rows beyond the end of the history, overwritten units) are exhibited.", "quantifier": "every history and worker state", "why_tests_cant": "quantifies over all histories and worker states", "anchors": ["libensemble/alloc_funcs/fast_alloc.py:give_sim_work_first", "libensemble/alloc_funcs/start_only_persistent.py:only_persistent_gens", "libensemble/alloc_funcs/give_pregenerated_work.py:give_pregenerated_sim_work", "libensemble/alloc_funcs/only_one_gen_alloc.py:ensure_one_active_gen"]}
{"id": "C23", "title": "Point status queries mean what they say", "statement": "all_sim_started / all_sim_ended / all_gen_informed return true exactly when every selected, non-cancelled row has the status (rows cancelled before starting are ignored); selecting by priority returns rows of maximal priority.", "quantifier": "every history and selection", "why_tests_cant": "quantifies over histories", "anchors": ["libensemble/tools/alloc_support.py:AllocSupport.all_sim_ended", "libensemble/tools/alloc_support.py:AllocSupport.points_by_priority"]}
{"id": "C24", "title": "Available worker queries are sound and complete", "statement": "avail_worker_ids returns exactly the workers that satisfy the requested combination of idle/persistent/active-receive/zero-resource/gen-worker conditions, without repeats, in increasing order.", "quantifier": "every worker table", "why_tests_cant": "all tables and parameter combinations", "anchors": ["libensemble/tools/alloc_support.py:AllocSupport.avail_worker_ids"]}
{"id": "C25", "title": "Messages are delivered in order, without loss, including pushed-back ones", "statement": "A message queue delivers messages in the order sent, exactly once; a pushed-back message is delivered next. (With the local queue the mail check ignores a pushed-back message, and a second push-back overwrites the first; the MPI comm has neither problem.)", "quantifier": "every sequence of send, receive, push-back", "why_tests_cant": "all operation sequences", "anchors": ["libensemble/comms/comms.py:QComm", "libensemble/comms/mpi.py:MPIComm"]}
{"id": "C26", "title": "Work messages and row data stay paired", "statement": "A worker reading its inbox pairs every work order that lists rows with the data message sent for it and no order without rows consumes a data message, so for any sequence of orders the worker sees exactly the orders sent, each with its own data.", "quantifier": "every sequence of work orders", "why_tests_cant": "framing errors show only for particular sequences", "anchors": ["libensemble/manager.py:Manager._send_work_order", "libensemble/worker.py:Worker._recv_H_rows"]}
{"id": "C27", "title": "Persistent generator receive pairs messages", "statement": "A persistent function's recv consumes exactly one order with its rows; stop signals are returned as such; final data pushed back is what the worker main loop sees next. (Refuted for orders with no rows: recv waits for a data message the manager never sends.)", "quantifier": "every sequence of orders", "why_tests_cant": "all sequences", "anchors": ["libensemble/tools/persistent_support.py:PersistentSupport.recv", "libensemble/manager.py:Manager._send_work_order"]}
{"id": "C28", "title": "A worker answers every order exactly once and stops only on stop", "statement": "For every message sequence the worker loop sends exactly one answer per executed order, in order, with the order's tag, rows and libE_info; unless it is told to stop or fails it keeps going; an error answer is sent on failure.", "quantifier": "all message sequences and user function outcomes", "why_tests_cant": "unbounded histories", "anchors": ["libensemble/worker.py:Worker.run", "libensemble/worker.py:Worker._handle"]}
{"id": "C29", "title": "Task state is consistent and final states are final", "statement": "An executor task that has finished stays finished with the same state, success flag and return code under every later poll, wait or kill; the final state is FINISHED exactly when the return code is 0, FAILED exactly when non-zero, or USER_KILLED after a kill; success is true only for FINISHED.", "quantifier": "all sequences of poll/wait/kill and all process behaviours", "why_tests_cant": "all schedules of process exit relative to calls", "anchors": ["libensemble/executors/executor.py:Task", "libensemble/executors/executor.py:Task.kill", "libensemble/executors/executor.py:Task._set_complete"]}
{"id": "C30", "title": "Polling loop reports a status consistent with how the task ended", "statement": "The polling loop terminates once the task ends, and returns WORKER_DONE only for a successful task, TASK_FAILED only for a failed one, kill statuses when killed. (A task that finished in the same iteration as the timeout is reported as killed on timeout: refuted.)", "quantifier": "all task behaviours and message timings", "why_tests_cant": "race between completion and timeout", "anchors": ["libensemble/executors/executor.py:Executor.polling_loop", "libensemble/executors/executor.py:Executor.manager_poll"]}
{"id": "C31", "title": "Launch retries are bounded and report the last attempt", "statement": "A submitted MPI task is launched at most max_launch_attempts times, is retried only after an attempt that raised or failed while starting, and the task returned is the one from the last attempt, with the earlier attempts leaving no timing or state behind.", "quantifier": "every pattern of launch failures", "why_tests_cant": "all failure patterns", "anchors": ["libensemble/executors/mpi_executor.py:MPIExecutor._launch_with_retries", "libensemble/executors/executor.py:Task.reset"]}
{"id": "C32", "title": "MPI process/node arithmetic is consistent", "statement": "For any combination of num_procs, num_nodes and procs_per_node that passes validation, the completed triple satisfies num_procs = num_nodes * procs_per_node, honours every value the user gave, and inconsistent or under-specified input raises.", "quantifier": "all combinations of given and missing values", "why_tests_cant": "arithmetic over all values", "anchors": ["libensemble/resources/mpi_resources.py:task_partition", "libensemble/resources/mpi_resources.py:get_resources"]}
{"id": "C33", "title": "Compact row labels identify the rows", "statement": "The label used for the rows of a work unit (e.g. 0_3-5_9) determines them: reading a label back, padded to any width, gives the rows in order, so different rows get different labels and simulations of different rows run in different directories; the directories of different workers differ when worker directories are used. (Refuted: generator directories are named by the worker's own call count, so generators on two workers share a directory unless worker directories are used.)", "quantifier": "every non-empty list of row numbers, every pad width, all directory settings and workers", "why_tests_cant": "injectivity over an infinite domain", "anchors": ["libensemble/utils/misc.py:extract_H_ranges", "libensemble/utils/output_directory.py:EnsembleDirectory.prep_calc_dir"]}
{"id": "C34", "title": "Vector/variable mapping round-trips", "statement": "Points handed over as a list of dictionaries and turned into an array (with the variable mapping) and back are the same points in the same order, except that an \"_id\" of -1 is left out, provided all points have the same names, each column's later values fit the type its first value gives, and variables of one mapped field come together. An array turned into dictionaries and back has the same rows and values. Splitting an array's vectors into variables gives each variable its component, and packing them again restores the array if every field is mapped. With a given field list and no mapping every value arrives and the list is unchanged.", "quantifier": "all points, arrays, field shapes and mappings", "why_tests_cant": "all shapes", "anchors": ["libensemble/utils/misc.py:np_to_list_dicts", "libensemble/utils/misc.py:list_dicts_to_np", "libensemble/utils/misc.py:unmap_numpy_array", "libensemble/utils/misc.py:map_numpy_array"]}
{"id": "C35", "title": "Node lists are parsed completely", "statement": "Parsing a scheduler node list expands every range to exactly its members with their leading zeros and loses or adds no node: Slurm and Cobalt lists in sorted order, PBS and LSF lists in the order of first appearance without duplicates. (Refuted: names with two bracketed groups are expanded only at the first, a truncated list is accepted, PBS names equal up to the first dot are listed twice, blank lines of a node file become nodes.)", "quantifier": "all well-formed node-list strings", "why_tests_cant": "infinite input language", "anchors": ["libensemble/resources/env_resources.py:EnvResources", "libensemble/resources/resources.py:GlobalResources.get_global_nodelist"]}
{"id": "C36", "title": "Periodic checkpoints never go backwards and survive a crash", "statement": "During any run with periodic saving, after every round there is exactly one history file of the kind asked for, named by the largest multiple of k reached and holding the history of the moment it was reached; a crash never leaves an older one; the final history is saved on completion. (Refuted: the old file is removed before the new one is written, so a crash in between leaves no checkpoint; a file of an earlier run with the same name is taken for this run's.)", "quantifier": "all run lengths, k, and crash points", "why_tests_cant": "crash points cannot be enumerated by tests", "anchors": ["libensemble/manager.py:Manager._save_every_k", "libensemble/manager.py:Manager._init_every_k_save", "libensemble/utils/validators.py:enable_save_H_when_every_K"]}
{"id": "C37", "title": "Shutdown leaves no worker running and loses no returned result", "statement": "When a run returns, every worker has been sent exactly one finish signal, after everything else; results that arrive during shutdown are still recorded; each persistent worker is told to stop exactly once before the final receive loop; without a wall-clock limit the run returns only when no worker is marked busy or persistent. (False for runs that end with an exception raised in the shutdown itself: then no finish signal is sent.)", "quantifier": "every message order during shutdown", "why_tests_cant": "interleavings", "anchors": ["libensemble/manager.py:Manager._final_receive_and_kill"]}
{"id": "C38", "title": "A worker failure stops the whole run once", "statement": "If any worker reports an error, the manager sends a finish signal to all workers at once, the run ends with an exception and never returns normally, and it does so after at most one more round of messages; further error reports do not repeat the signal. (The signal is sent a second time at the end of the shutdown, so 'exactly once' is false.)", "quantifier": "every arrival order of error reports", "why_tests_cant": "interleavings", "anchors": ["libensemble/manager.py:Manager._handle_msg_from_worker", "libensemble/libE.py:manager"]}
{"id": "C39", "title": "Location stack is balanced", "statement": "Nested directory changes behave as if each block remembered its own starting directory: every block returns to it, in last-in first-out order, also when the body raises or changes directory itself, as long as the directories entered exist. (Refuted: a block that cannot enter its directory makes the enclosing block return to the wrong one.)", "quantifier": "all nestings of blocks, user directory changes, removals, exceptions and handlers", "why_tests_cant": "unbounded nesting", "anchors": ["libensemble/utils/loc_stack.py:LocationStack"]}
{"id": "C40", "title": "Timers accumulate exactly the timed intervals", "statement": "A timer's total is the sum of its completed start/stop intervals plus the running one, never decreasing while the clock does not go backwards.", "quantifier": "all sequences of start/stop with a monotone clock", "why_tests_cant": "unbounded sequences", "anchors": ["libensemble/utils/timer.py:Timer"]}
{"id": "C41", "title": "Dedicated mode removes exactly the libEnsemble nodes", "statement": "In dedicated mode, with more than one node, the node list for tasks is the original list without the nodes running libEnsemble, in order; otherwise it is unchanged. (Refuted when the list and the host names are not written alike: a node file of short names without a scheduler, full names against short host names, Cobalt node 0.)", "quantifier": "all node lists", "why_tests_cant": "all lists", "anchors": ["libensemble/resources/resources.py:GlobalResources.add_comm_info", "libensemble/resources/resources.py:GlobalResources.remove_nodes"]}
{"id": "C42", "title": "Protected fields cannot be changed by user functions in safe mode", "statement": "In safe mode a generator or simulator return that contains any protected bookkeeping field makes the run raise without changing that field; protected fields therefore change only through libEnsemble's own bookkeeping.", "quantifier": "all user return values", "why_tests_cant": "all inputs", "anchors": ["libensemble/history.py:History.update_history_x_in", "libensemble/history.py:History.update_history_f"]}
{"id": "C43", "title": "Generated rows keep their provenance", "statement": "In safe mode, every row created by a generator return records which worker generated it and when that generator call started and ended, and no later operation of the run changes this record.", "quantifier": "all prior histories, batches and later operation sequences", "why_tests_cant": "all histories after the batch", "anchors": ["libensemble/history.py:History.update_history_x_in", "libensemble/history.py:History.update_history_f"]}
{"id": "C44", "title": "Workers use the slots the manager scheduled", "statement": "The node list and the slots on each node that a worker derives from its resource-set team are the nodes and slots the manager's table holds for those sets, whenever the resource sets divide evenly over the nodes. (With uneven nodes this is refuted: the worker uses index modulo sets-per-node.)", "quantifier": "every platform and every team", "why_tests_cant": "arithmetic over all layouts and teams", "anchors": ["libensemble/resources/worker_resources.py:WorkerResources.get_local_nodelist", "libensemble/resources/rset_resources.py:RSetResources.get_group_list"]}
{"id": "C45", "title": "Resource sets are held only by workers that are working", "statement": "During a run, a resource set is assigned to a worker only while that worker is marked busy or runs a persistent function; when a run returns with flag 0 every resource set is free again.", "quantifier": "every run: all allocation results addressed to existing workers, all messages, any resource table", "why_tests_cant": "A leak needs a particular interleaving of orders, answers and shutdown messages; tests run a few.", "anchors": ["libensemble/manager.py:_set_resources", "libensemble/manager.py:_freeup_resources", "libensemble/resources/worker_resources.py:ResourceManager.assign_rsets", "libensemble/resources/worker_resources.py:ResourceManager.free_rsets"]}
{"id": "C51", "title": "Workers do not share GPUs", "statement": "When MPI tasks of two workers with disjoint resource-set teams have their GPUs set through the environment, no GPU of a common node is visible to both; each task sees pairwise different GPUs, exactly as many per node as were assigned; and the GPU numbers exist on the node when the sets divide evenly over the nodes, no group size is set and the team has only GPU sets. (Existence is refuted for unequal nodes and for mixed teams.)", "quantifier": "every platform, every pair of disjoint teams, every task request and MPI runner", "why_tests_cant": "arithmetic over all layouts, teams and requests", "anchors": ["libensemble/executors/mpi_runner.py:MPIRunner._assign_gpus", "libensemble/executors/mpi_runner.py:MPIRunner._set_gpu_env_var", "libensemble/resources/worker_resources.py:WorkerResources.get_slots_as_string"]}
{"id": "C52", "title": "Concurrent tasks do not oversubscribe the cores of a node", "statement": "For any set of workers with pairwise disjoint resource-set teams, each running one MPI task, the ranks those tasks place on any node sum to at most the cores of the node, provided each task had the worker core bounds enforced or left its process counts to libEnsemble.", "quantifier": "every platform, every family of disjoint teams, every task request and MPI runner", "why_tests_cant": "the sum ranges over all workers, teams and layouts", "anchors": ["libensemble/resources/mpi_resources.py:get_resources", "libensemble/resources/rset_resources.py:RSetResources.best_split", "libensemble/executors/mpi_runner.py:MPIRunner.get_mpi_specs"]}
{"id": "C53", "title": "A task gets the GPUs it asked for, within its worker's share", "statement": "With num_gpus given (by the user function or by the generator) or auto_assign_gpus, the GPUs per node of the launched task are the request divided by its nodes, at most the worker's GPUs on a node; the runner option or variable says that number; and if no process counts are given, one process runs per GPU.", "quantifier": "all requests, all worker resources, all runners", "why_tests_cant": "arithmetic over all values", "anchors": ["libensemble/executors/mpi_runner.py:MPIRunner._assign_gpus", "libensemble/executors/mpi_runner.py:MPIRunner._get_min_nodes", "libensemble/executors/mpi_runner.py:MPIRunner._adjust_procs", "libensemble/executors/mpi_executor.py:MPIExecutor.submit"]}
{"id": "C54", "title": "libE returns the whole history or saves it, and leaves no worker behind", "statement": "When the run completes, libE() returns every row generated so far with exit flag 0 or 2 and writes no abort file. When it fails, libE() never returns normally: unless save_H_and_persis_on_abort is off, the history (with every simulation result received, except the answers whose handling raised) and persis_info are written first, and the error is then raised (or MPI aborted). In both cases every worker process libE() launched has ended by then, without waiting longer than worker_timeout for each.", "quantifier": "all runs of the manager (all message orders, allocation functions and failures), all things the workers may do at the end, all comms types", "why_tests_cant": "it ranges over every history of messages, every point of failure and every state in which workers can be left", "anchors": ["libensemble/libE.py:manager", "libensemble/libE.py:_dump_on_abort", "libensemble/libE.py:kill_proc_team", "libensemble/libE.py:libE_local", "libensemble/comms/comms.py:QCommLocal.result", "libensemble/comms/comms.py:QCommProcess.terminate", "libensemble/comms/comms.py:QCommThread.terminate"]}
{"id": "C55", "title": "A generator object is asked, informed and finalized as the suggest/ingest standard says", "statement": "A generator object run by a worker is asked first for the initial batch, then for one batch per batch of results, each only after all earlier results were ingested; every batch it suggests is sent at once and nothing else is sent; every batch of results (and the rows of the first order) is ingested exactly once and in order; when the stop arrives finalize is called once, last, and the last rows are returned. Results carry the variable names the object used.", "quantifier": "all generator objects (any function of the calls so far, raising or not), batch-size settings, first orders and message sequences from the manager", "why_tests_cant": "tests drive a few generators to a normal end; the order of calls must hold for every generator and every moment at which the stop arrives", "anchors": ["libensemble/utils/runners.py:StandardGenRunner", "libensemble/utils/runners.py:LibensembleGenRunner"]}
{"id": "C46", "title": "Results go back to a generator object with the ids it gave", "statement": "Once a generator object has sent points that carry sim_id, gen_specs[\"persis_in\"] asks for sim_id from then on: it is added at the end, once, and never removed; nothing else is added; with final_gen_send the last rows sent to the generator include it. Without such points, or with a generator function, the user's list is unchanged.", "quantifier": "all runs of the manager (any messages, allocation results and shutdown rounds), all settings and user lists", "why_tests_cant": "the list changes at the moment of the first such message, which may come in any iteration, as the last message of a persistent function or during the shutdown", "anchors": ["libensemble/manager.py:_ensure_sim_id_in_persis_in", "libensemble/manager.py:_update_state_on_worker_msg", "libensemble/manager.py:_final_receive_and_kill"]}
{"id": "C47", "title": "Every order to a persistent function reaches the running call, and each is answered once", "statement": "As long as nothing raises: when a worker is marked persistent and free, a call of a persistent function of that type is running on it, has answered every order so far, and finds the next order and its rows next in its queue. All orders reach the user functions with their own rows and data, in the order sent. Every order is answered exactly once, in order, with its type and rows; a worker marked active has exactly one order without an answer. This holds for persistent functions that answer, wait, and end when told, mixed with ordinary simulations and generators.", "quantifier": "all user functions that keep to the documented loop, all orders, all numbers of workers, all interleavings of manager and workers, all delays of messages", "why_tests_cant": "manager and workers race; an order may meet the function before, at or after its wait, and intermediate results may be in transit; tests see a few schedules", "anchors": ["libensemble/manager.py:_send_work_order", "libensemble/manager.py:_update_state_on_worker_msg", "libensemble/tools/persistent_support.py:recv", "libensemble/worker.py:run"]}
{"id": "C48", "title": "Nobody is waited for in vain", "statement": "As long as nothing raises, a worker marked active can take a step or has a message on its way to the manager; once the shutdown has begun so has every worker marked active or persistent. So the loop that waits for all workers at the end of a run is never stuck.", "quantifier": "all user functions that keep to the documented loop, all orders and interleavings, every moment at which the run is stopped", "why_tests_cant": "deadlocks appear only in particular interleavings of stop signals and messages in transit", "anchors": ["libensemble/manager.py:_final_receive_and_kill", "libensemble/tools/persistent_support.py:recv", "libensemble/executors/executor.py:manager_poll", "libensemble/worker.py:run"]}
{"id": "C49", "title": "At the end of a run every worker is at rest", "statement": "When the run ends without running out of time, no user function is running, nothing but log records is on its way to the manager, every order was delivered and answered, every worker is marked free and not persistent, and the last thing each worker reads is the signal to leave.", "quantifier": "all runs as in C47 that reach their end", "why_tests_cant": "work lost or left running at the end depends on the moment at which the exit criterion is met", "anchors": ["libensemble/manager.py:_final_receive_and_kill", "libensemble/manager.py:_kill_workers", "libensemble/worker.py:run"]}
{"id": "C50", "title": "No point is simulated twice in a run driven by libEnsemble's own allocation functions", "statement": "In a run of libE whose alloc_f is give_sim_work_first (the default), only_persistent_gens, fast_alloc, give_pregenerated_sim_work or ensure_one_active_gen, no row of the history is sent to a worker for simulation more than once, however the results arrive and whether the run ends normally, is aborted or is still going. With the first two, rows of H0 that were already given out are not sent at all. Such a run is one of the manager's runs, so all that holds of every run holds of it.", "quantifier": "every configuration, number of workers, H0, resource table, user setting of the allocation function, iteration order of sets, clock readings and every sequence of messages from workers (tidy, or safe_mode on, for the first two functions)", "why_tests_cant": "The guarantee spans the allocation function, the history flags it reads and the manager that sets them; a repetition needs a particular arrival order of results, cancellations and generator calls over many turns.", "anchors": ["libensemble/manager.py:_alloc_work", "libensemble/manager.py:run", "libensemble/alloc_funcs/give_sim_work_first.py:give_sim_work_first", "libensemble/alloc_funcs/start_only_persistent.py:only_persistent_gens", "libensemble/alloc_funcs/fast_alloc.py:give_sim_work_first", "libensemble/alloc_funcs/give_pregenerated_work.py:give_pregenerated_sim_work", "libensemble/alloc_funcs/only_one_gen_alloc.py:ensure_one_active_gen", "libensemble/history.py:History.update_history_x_out"]}
{"id": "C56", "title": "No resource set is ever with two workers in a run driven by libEnsemble's own allocation functions", "statement": "In a run of libE with resource management whose alloc_f is one of the shipped functions (give_sim_work_first, only_persistent_gens, fast_alloc, give_pregenerated_sim_work, ensure_one_active_gen), at every moment of the traffic between manager and workers the sets of resources that different workers were given and have not yet given back are disjoint, with num_resource_sets and without. While the run has not failed the manager's record of who holds which set is exactly what the traffic says.", "quantifier": "every configuration, platform, number of workers, resource requests, user setting of the allocation function, iteration order of sets, and every sequence of messages from workers, also in runs that fail", "why_tests_cant": "Sharing shows only when two simulations are given overlapping resources at the same time, which depends on the order in which results return over many turns of allocation, assignment and release.", "anchors": ["libensemble/manager.py:_set_resources", "libensemble/manager.py:_freeup_resources", "libensemble/resources/worker_resources.py:ResourceManager.assign_rsets", "libensemble/resources/worker_resources.py:ResourceManager.free_rsets", "libensemble/tools/alloc_support.py:AllocSupport._update_rset_team", "libensemble/resources/scheduler.py:ResourceScheduler.assign_resources"]}
{"id": "C57", "title": "Never more generators at once than the allocation function allows", "statement": "In a run of libE with alloc_f give_sim_work_first or fast_alloc and num_active_gens = n, at no moment do more than n workers work on a generator call; with ensure_one_active_gen at most one, with give_pregenerated_sim_work none. With only_persistent_gens and num_active_gens = n, at no moment do more than n persistent generators live.", "quantifier": "every configuration, number of workers, history, resource table, user setting of the allocation function, iteration order of sets, and every sequence of messages from workers, the shutdown and runs that fail included (for only_persistent_gens: answers marked persistent come from a persistent function and name its type)", "why_tests_cant": "The count is kept only as worker states that change with every message; exceeding it needs a particular interleaving of answers, cancellations and allocation calls.", "anchors": ["libensemble/alloc_funcs/give_sim_work_first.py:give_sim_work_first", "libensemble/alloc_funcs/fast_alloc.py:give_sim_work_first", "libensemble/alloc_funcs/only_one_gen_alloc.py:ensure_one_active_gen", "libensemble/alloc_funcs/start_only_persistent.py:only_persistent_gens", "libensemble/tools/alloc_support.py:count_gens", "libensemble/tools/alloc_support.py:count_persis_gens", "libensemble/manager.py:_update_state_on_worker_msg"]}
{"id": "C58", "title": "The manager takes every order of the shipped allocation functions", "statement": "In a run of libE with alloc_f give_sim_work_first, fast_alloc, or only_persistent_gens without active receive, none of the work orders the allocation function returns is refused by the manager's checks or makes sending or recording it fail, if the requested fields are columns of the history. A run driven by the default allocation function raises only when a worker reports a failure (or a message cannot be recorded), when testing the exit criteria fails, or when sim_max points have been given out and results are missing though no worker is active. (Refuted without the side conditions: only_persistent_gens given an H0 of finished points and no gen_specs['in'] raises on its first order; give_all_with_same_priority with NaN priorities and kill_canceled_sims raises.)", "quantifier": "every configuration, number of workers, history, resource table, user setting, iteration order of sets, and every sequence of messages from workers, honest or not", "why_tests_cant": "The checks depend on worker states, history columns, row numbers and free resource sets after an arbitrary history of answers; tests see a few runs that go well.", "anchors": ["libensemble/manager.py:_check_work_order", "libensemble/manager.py:_send_work_order", "libensemble/manager.py:_update_state_on_alloc", "libensemble/manager.py:run", "libensemble/alloc_funcs/give_sim_work_first.py:give_sim_work_first", "libensemble/alloc_funcs/fast_alloc.py:give_sim_work_first", "libensemble/alloc_funcs/start_only_persistent.py:only_persistent_gens"]}
{"id": "C59", "title": "A run driven by the default allocation function ends", "statement": "In a run of libE with the default allocation function (give_sim_work_first) and answers that match the orders, the generator is called no more often than points are given out, plus the calls allowed at a time. With sim_max = N, at most 2N orders (plus the calls allowed at a time) are ever sent and no more answers come in; while the main loop goes on, some worker has been sent work it has not answered or an exit criterion is met; the loop never fails because nobody has anything to do; and once an answer has arrived in more turns than that bound, the loop has ended with the results of N points, unless a worker reported a failure. (Refuted for a generator that returns arrays without points: it is called again without end while another worker is busy.)", "quantifier": "every configuration, number of workers, H0, resource table, generator, simulator, order of answers and number of answers per turn, clock and iteration order of sets", "why_tests_cant": "Termination is a statement about all unbounded runs: no finite set of schedules shows that no schedule goes on for ever or stalls.", "anchors": ["libensemble/manager.py:run", "libensemble/manager.py:term_test", "libensemble/manager.py:_receive_from_workers", "libensemble/alloc_funcs/give_sim_work_first.py:give_sim_work_first", "libensemble/history.py:update_history_x_in", "libensemble/history.py:update_history_x_out"]}
{"id": "C60", "title": "Specifications that libE accepts are consistent", "statement": "If libE accepts the specifications: testing the exit criteria never fails during the run; with an H0, every field named in sim_specs and gen_specs inputs is a column of the history, no point of H0 is under way, and the manager takes every order of the default allocation function; with a VOCS and no field lists, the derived lists are complete in the same sense. Field lists and settings the user gives are kept; the settings of libE_specs agree with one another (workflow directory and its switch, input directories and calculation directories, periodic and final saving, TCP and resource management); and validating again changes nothing. (Refuted: inputs are not checked without H0, shapes of H0 are never compared, fields defined by alloc_specs only are refused with H0, zero workers pass.)", "quantifier": "every sim_specs, gen_specs, alloc_specs output list, exit criterion, H0, VOCS, generator object, libE_specs, environment, and every run that starts from them", "why_tests_cant": "The claim links every accepted combination of options to every later state of the run; tests try a few combinations and look at the validator or at the run, not at both.", "anchors": ["libensemble/utils/validators.py", "libensemble/utils/specs_checkers.py", "libensemble/utils/pydantic_bindings.py", "libensemble/specs.py:SimSpecs.set_fields_from_vocs", "libensemble/specs.py:GenSpecs.set_fields_from_vocs", "libensemble/history.py:History.__init__", "libensemble/manager.py:term_test_stop_val"]}
{"id": "C61", "title": "The allocation functions for finite differences, APOSMM, inverse Bayes and local runs keep to their contracts", "statement": "Each call gives at most one order per worker, only to workers that can take it, gives a point once and only if it waits, uses only free resource sets, each once and enough of them, respects generator-only workers, and changes only user columns of the history. start_fd_persistent sends the generator exactly the evaluations of complete (x, f) pairs, leaves none of them back and ends the run when the generator has ended. persistent_aposmm_alloc refuses an H0 with unfinished points, never gives a point of H0 or a point twice during the run, starts one generator only, gives points in order and tells the generator nothing before the initial sample is evaluated. inverse_bayes returns exactly the last batch, once all points of the generator are settled, and gives whole subbatches. start_persistent_local_opt_gens returns the latest point of a settled run, starts runs only from evaluated samples at the best proposed point, leaves a worker free of runs and evaluates points of runs first. (Refuted: several orders that are overwritten in the same call, results that are never returned, errors raised on ordinary histories.)", "quantifier": "every worker table, resource table, history, user setting, set iteration order and (for APOSMM) every sequence of calls on growing histories; for local runs every outcome of the distance and starting-point computations", "why_tests_cant": "The decisions depend on the joint state of workers, resources and history; tests run a few ensembles with fixed worker counts and never see most combinations of returned, waiting, cancelled and running points.", "anchors": ["libensemble/alloc_funcs/start_fd_persistent.py:finite_diff_alloc", "libensemble/alloc_funcs/persistent_aposmm_alloc.py:persistent_aposmm_alloc", "libensemble/alloc_funcs/inverse_bayes_allocf.py:only_persistent_gens_for_inverse_bayes", "libensemble/alloc_funcs/start_persistent_local_opt_gens.py:start_persistent_local_opt_gens", "libensemble/tools/alloc_support.py:AllocSupport"]}
{"id": "C62", "title": "The allocation function that pauses points gives no point twice, stops points with NaNs and loses none in batch mode", "statement": "fast_alloc_and_pausing: each call gives at most one order per idle worker; a simulation order is one point that still waits, with the free, unshared resource sets its row asks for; every other order calls the generator with the whole history; only 'paused' marks of the history change and they are never removed. Over a run no point is given twice. With stop_on_NaNs no component of a point is given once the history shows a NaN for the point, if the component was there when the NaN came. In batch mode the generator is called only when every row since its last call is evaluated or paused, num_active_gens is respected, and after every call each row was given or is paused or every idle worker that may simulate has an order. (Refuted: outside batch mode a generator call may replace the order of a point that is then never given; components added to a paused point are given; cancelled points and evaluated points of H0 are given.)", "quantifier": "every worker table, resource table, history, user setting, set iteration order, partial-stop decision and every sequence of calls on growing histories", "why_tests_cant": "Whether a point is lost or repeated depends on the whole sequence of calls, on which results arrived between them and on which workers were idle; tests run one schedule.", "anchors": ["libensemble/alloc_funcs/fast_alloc_and_pausing.py:fast_alloc_and_pausing"]}
{"id": "C63", "title": "Runs driven by the other allocation functions evaluate no point twice and share no resource set", "statement": "In a run where start_fd_persistent, inverse_bayes_allocf, start_persistent_local_opt_gens, persistent_aposmm_alloc or fast_alloc_and_pausing decides the work, no row of the history is ever sent out for simulation twice, also when the run is aborted, and no two workers are ever told to use the same resource set at the same time. Rows of H0 that were given out before are not sent by the first three; no row of H0 is sent by persistent_aposmm_alloc; no row below the starting value of H_len is sent by fast_alloc_and_pausing.", "quantifier": "every configuration and set-up, every H0, every number of workers and machine, every sequence of messages, clock readings and enumeration orders the manager meets, any number of turns, whatever the numerical parts of the allocation functions decide", "why_tests_cant": "Whether a point is sent twice depends on the interleaving of results, new points, killed and paused points over the whole run; a regression test runs one schedule and does not look at the log of orders.", "anchors": ["libensemble/manager.py: Manager.run, _alloc_work, _update_state_on_alloc", "libensemble/alloc_funcs/start_fd_persistent.py: finite_diff_alloc", "libensemble/alloc_funcs/inverse_bayes_allocf.py: only_persistent_gens_for_inverse_bayes", "libensemble/alloc_funcs/start_persistent_local_opt_gens.py: start_persistent_local_opt_gens", "libensemble/alloc_funcs/persistent_aposmm_alloc.py: persistent_aposmm_alloc", "libensemble/alloc_funcs/fast_alloc_and_pausing.py: give_sim_work_first"]}
{"id": "C64", "title": "Input files reach each calculation's directory, output comes back, and nothing else is touched", "statement": "Before a user function runs, every file or directory named in the copy lists or found in the input directory is in the directory it runs in, with exactly the content of the original, and every file of the symlink list is there as a link to the original, provided that the names are distinct and not taken. Preparing a directory changes nothing but these names and missing parent directories, also when it ends with an exception; a new directory changes nothing that exists. An ensemble or copyback directory that already exists is refused unless reuse_output_dir is set. With ensemble_copy_back, every directory in which a worker's user functions ran is in the copyback directory afterwards with everything in it; when not every call has its own directory, other files and directories come back too; nothing outside the copyback directory changes; into an empty copyback directory copying does not fail.", "quantifier": "All file systems (trees of any depth with files, links and directories), all directory settings, all lists of inputs, all sequences of calls of a worker with arbitrary changes to the file system in between.", "why_tests_cant": "Tests check one layout of directories with a handful of files; names, nesting, links, leftovers of earlier calls and the order of calls are unbounded.", "anchors": ["libensemble/utils/output_directory.py: EnsembleDirectory.make_copyback, prep_calc_dir, _make_calc_dir, copy_back", "libensemble/utils/loc_stack.py: LocationStack.copy_file, symlink_file, register_loc"]}
{"id": "C65", "title": "A generator function behind suggest and ingest hands out every point once and hears every result", "statement": "When a classic generator function runs in its own process behind an object with suggest and ingest (APOSMM), every point it puts out is handed out by suggest exactly once and in order, whether the user asks for all points or for some at a time, never more than asked; minima are left out of these points and come back from suggest_updates exactly once. Results of the initial sample are kept until the sample is complete and then handed over together, numbered in order of arrival (or under their _id); later results are passed on at once under their own numbers, and refused if they have none. A user who asks for points, evaluates them and returns the results again and again never meets an exception or a call that waits for ever, if the generator function answers each batch. finalize sends a stop, waits for the function to return and export gives what it returned.", "quantifier": "All generator functions (any prefix-monotone function from messages to messages), all sequences of calls of suggest, ingest, suggest_updates, finalize and setup with any arguments, all sample sizes and all fields of the results.", "why_tests_cant": "Tests run a few fixed patterns of calls with one generator function; batch sizes, the order of the calls, the split of the sample over calls and the time at which minima appear are unbounded.", "anchors": ["libensemble/generators.py: PersistentGenInterfacer", "libensemble/gen_classes/aposmm.py: APOSMM.suggest_numpy, ingest_numpy, suggest_updates, _ready_to_suggest_genf, _slot_in_data", "libensemble/comms/comms.py: QCommLocal.recv, result"]}
{"id": "C66", "title": "A worker relays every point, update and result between the manager and a generator function in its own process, and stops it", "statement": "When an ensemble uses a generator object whose generator function runs in a process of its own (APOSMM), the worker sends every message with points that the function puts out to the manager exactly once and in order, with its minima left out and the fields separated as the mapping says, and every minimum as an update; the results that the manager sends reach the function in order, the sample together and once, every later batch at once under its own numbers. If the manager answers each message before it sends the next, the sample ends with a batch and the function puts out one message per batch, the worker neither raises nor gets stuck. A stop signal reaches the function, and the value the worker returns is the one the function returned.", "quantifier": "All generator functions (any prefix-monotone function from messages to messages), all mappings of variables, all interleavings of what the outbox shows with the messages from the manager, all batches and sample sizes, started with or without rows.", "why_tests_cant": "Tests run one generator function with one manager schedule; the worker polls two queues, and the order in which messages turn up, the number that turn up at once and the moment of the stop are unbounded.", "anchors": ["libensemble/utils/runners.py: StandardGenRunner._persistent_result, _start_generator_loop; LibensembleGenThreadRunner._suggest_and_send, _loop_over_gen, _convert_initial_ingest, _get_initial_suggest", "libensemble/gen_classes/aposmm.py: APOSMM.suggest_numpy, ingest_numpy, suggest_updates", "libensemble/generators.py: PersistentGenInterfacer", "libensemble/tools/persistent_support.py: PersistentSupport.recv"]}
{"id": "C67", "title": "APOSMM starts local runs where it says it does, sends every point once, and each run gets its own results", "statement": "APOSMM starts a local optimization run only from an evaluated point with a finite value that is at least mu from the boundary and nu from every known minimum and has no better evaluated point within the critical distance, from no point twice, the best points first, and never more than max_active_runs at a time; if the limit leaves room, every such sample point without an equal is started. Every result that arrives is handed to the run that asked for the point and to no other, in order. Every new point is sent exactly once and every optimum is reported; after each batch at least as many points are out as there are workers that answered (on the first pass, as there are workers), and the user's own sample points come first and in order. When an optimizer converges, the evaluated point of its run closest to where it converged becomes a minimum, and only such points do. With well-behaved optimizers no step fails, and a stop request or the maximum number of minima or runs ends the function.", "quantifier": "All metrics, radii, optimizers, random draws, initial samples and given points, all batch sizes and orders in which results arrive, and all values, infinite and nan included.", "why_tests_cant": "Tests run a few objective functions with a few optimizers; which points are eligible depends on the whole history of results and on the order of their arrival, which is unbounded.", "anchors": ["libensemble/gen_funcs/persistent_aposmm.py: aposmm, update_local_H_after_receiving, update_history_dist, update_history_optimal, decide_where_to_start_localopt, calc_rk, add_to_local_H, add_k_sample_points_to_local_H, initialize_APOSMM, initialize_children", "libensemble/gen_classes/aposmm.py: APOSMM"]}
{"id": "C68", "title": "A local optimizer that APOSMM runs in its own process gets the value of the point it asked for", "statement": "APOSMM and a local optimizer in a process of its own exchange points and values over one queue and two events. Whatever the order in which the processes and the queue's threads proceed, each call of iterate gives back what the optimizer does with the values of all calls so far, the next point or its result, and an exception if a value was for another point or the optimizer raised; the values arrive in order and once; neither process reads its own message; every call returns; an object whose optimizer has returned is closed and has no process left; destroy leaves no process. For every supported method the optimizer's callback unpacks exactly the fields that APOSMM passes.", "quantifier": "All optimizers (any function from the values so far to the next request), all interleavings of the two processes and the two feeder threads, all sequences of calls, and all methods.", "why_tests_cant": "Tests run a few optimizers under the operating system's scheduling; a race between the events and the queue shows only under rare interleavings.", "anchors": ["libensemble/gen_funcs/aposmm_localopt_support.py: LocalOptInterfacer, opt_runner, put_set_wait_get, finish_queue, nlopt_callback_fun, scipy_dfols_callback_fun, tao_callback_fun_nm, tao_callback_fun_pounders, tao_callback_fun_grad", "libensemble/gen_funcs/persistent_aposmm.py: initialize_children, clean_up_and_stop"]}
{"id": "C69", "title": "The sampling functions send one point per result and keep count of them", "statement": "After its first batch, a persistent sampling function sends one new point for each result it gets and no other, in the order of its random stream, however the results are split into messages; it returns at the first request to stop and sends nothing after it. The variant that does not block sends the same points whatever the number of empty polls. The variant with a limit returns at the first message with which the results reach the limit. The variant with cancellations asks for each number from half the first batch on once, and, if never more than half of the first batch comes back at once, only for points already sent. The variant that samples the corners of the domain considers each corner once, numbers its points consecutively and at the end reports for each number the corner sent under it and the mean of all values that came for it, those with the request to stop included.", "quantifier": "All random streams, batch sizes, dimensions, bounds, and all sequences of messages with any numbers of results.", "why_tests_cant": "Tests use one allocation function and one seed; how the results are split into messages depends on timing.", "anchors": ["libensemble/gen_funcs/persistent_sampling.py: persistent_uniform, persistent_uniform_final_update, persistent_request_shutdown, uniform_nonblocking, persistent_uniform_with_cancellations", "libensemble/gen_funcs/persistent_sampling_var_resources.py: uniform_sample, uniform_sample_with_var_gpus, uniform_sample_with_procs_gpus, uniform_sample_with_var_priorities, uniform_sample_diff_simulations, uniform_sample_with_sim_gen_resources"]}
{"id": "C70", "title": "The points of the sampling functions are what their documentation says", "statement": "Of the k points of a Latin hypercube sample, exactly one has its coordinate in each of the k equal parts of the range, in every dimension. Points evaluated one component at a time get one row per component, with the same point and a number no other point has, over any number of calls. The number of GPUs asked for is the number of the part of the range the point lies in, at least 1 and at most the maximum. History matching goes on from the q best points of the batch, and the updater after a likelihood gives each row of a batch the weight computed from the same row of the batch before, provided the results come row for row in the order sent.", "quantifier": "All batch sizes, dimensions, bounds, random draws and permutations, numbers of components and calls, values including nan, and all ways in which a sort may break ties.", "why_tests_cant": "Tests look at the outcome of a run with one seed; boundaries of the parts and the numbering over successive calls are not examined.", "anchors": ["libensemble/gen_funcs/sampling.py: latin_hypercube_sample, lhs_sample, uniform_random_sample_obj_components", "libensemble/gen_funcs/persistent_sampling_var_resources.py: uniform_sample_with_var_gpus", "libensemble/gen_funcs/persistent_sampling.py: batched_history_matching", "libensemble/gen_funcs/persistent_inverse_bayes.py: persistent_updater_after_likelihood"]}
{"id": "C71", "title": "The calibration function keeps track of what is evaluated and cancelled", "statement": "While the calibration generator runs, each row it sent after the observations corresponds to one cell of its arrays; a cell is complete exactly if its result was recorded or it belongs to the first batch, pending exactly if neither that nor given up, and holds the value recorded last. When columns are given up, cancellation is requested for exactly their rows without a recorded result, each of which was sent before and is cancelled only once in the whole run. Values of the first batch are in the cell of the place and parameter they were computed for; later ones too, if there is one place or parameters are added one at a time. The function raises only if results come in a wrong number for the first batch or for rows not sent, or if a column is suggested that does not exist.", "quantifier": "All numbers of places and parameters, all suggestions of the emulator, and all sequences of messages with any results.", "why_tests_cant": "Tests run one emulator and check that the run ends; whether a value reaches its cell and whether a result is overlooked depends on when results arrive.", "anchors": ["libensemble/gen_funcs/persistent_surmise_calib.py: surmise_calib, create_arrays, pad_arrays, update_arrays, cancel_columns, load_H, select_condition, rebuild_condition"]}
{"id": "C72", "title": "The gpCAM generators choose uncertain points that are apart, and tell the process each value with its point", "statement": "The mesh of candidate points has every combination of coordinates once, and two of its points differ in a coordinate by at least the minimum distance. When points are chosen from it, they are as many as asked for, any two at least that distance apart, in the order of their variance, and a point is passed over only for one chosen before it, of no smaller variance, that is closer than the radius. Without the mesh, the class sends the points with the largest variances, none left out having a larger one. Variances evaluated in groups are those of all points in order. The process is told exactly the results that are numbers, each with its own point.", "quantifier": "All bounds and numbers of points, all distances and variances, all batch sizes, and all sequences of results.", "why_tests_cant": "Tests run two or three batches with one grid; that the search ends, and which points are passed over, depends on the variances of the whole grid.", "anchors": ["libensemble/gen_funcs/persistent_gpCAM.py: _generate_mesh, _eval_var, _calculate_grid_distances, _find_eligible_points, persistent_gpCAM_covar", "libensemble/gen_classes/gpCAM.py: GP_CAM, GP_CAM_Covar"]}
{"id": "C73", "title": "The finite-difference generator estimates each pair from its own points", "statement": "Each batch of the generator that finds finite-difference parameters has, for every pair of a variable and a function it concerns, one point for each place but the middle one: the base point with that variable moved by the number of steps of the place. If every batch is answered, in any order of its results, each noise estimate is made from exactly the values at the points of its own pair, each in its place; the next batch repeats exactly the pairs whose step was found wrong, with the step divided or multiplied by 100 as the estimate said, and no pair more often than the limit. The noise returned for a pair is that of its successful estimate; without a request to stop the function returns only when all pairs have one. It raises if there are not two variables or an odd number of points.", "quantifier": "All base points, steps, numbers of functions and points, all objective values and noise estimates, all orders of results.", "why_tests_cant": "The test runs one function with one noise level; the bookkeeping of repeated attempts depends on the history of estimates of all pairs.", "anchors": ["libensemble/gen_funcs/persistent_fd_param_finder.py: build_H0, fd_param_finder"]}
{"id": "C74", "title": "The command line and the Ensemble object pass on the user's settings", "statement": "Command-line arguments give the communication asked for (local if only a number of workers is given, MPI without either) and, with local communication, the number of workers asked for, or one more than simulation workers, or four. An Ensemble made with these arguments runs with the communication, number of workers and resource sets parsed and otherwise with the settings given. Whatever programs assign to ensembles later, each runs with the communication it was made with; an assignment to libE_specs is refused exactly if it names a communication, and otherwise the run has the values assigned and the others as before. A number of workers assigned is that of the ensemble and of its run. Random streams are given to the manager and every worker, seeded with the worker's number unless a seed is given, and nothing else in persis_info changes. Settings read from a file replace those of the same name.", "quantifier": "All arguments, settings and values, any number of ensembles and any order of constructions and assignments.", "why_tests_cant": "Tests make one ensemble and assign once or twice; what a run uses depends on the whole history of objects shared and assigned.", "anchors": ["libensemble/tools/parse_args.py: parse_args, _local_parse_args, _mpi_parse_args, _tcp_parse_args, _ssh_parse_args, _client_parse_args", "libensemble/ensemble.py: Ensemble.__init__, libE_specs, nworkers, run, add_random_streams, _parameterize", "libensemble/tools/tools.py: add_unique_random_streams"]}
{"id": "C75", "title": "A kill signal reaches the simulation it was meant for, or none", "statement": "With kill_canceled_sims, every kill signal goes to a worker that has an unanswered simulation order containing a point whose cancellation was requested. A function that polls the manager is told of a kill only if one was sent since its own order was given, for a point of that order: a signal that comes too late for its simulation is never seen by the next one on the same worker. A signal that has arrived is reported by the next poll, and polling never blocks. Without kill_canceled_sims no function is ever told of a kill.", "quantifier": "All schedules of manager, allocation function, workers and queues, any number of workers and points, any cancellations, any user functions that call the manager only to poll and do not use reserved status numbers, any histories of an earlier run that libEnsemble accepts.", "why_tests_cant": "Whether a signal hits the wrong simulation depends on the race between the cancellation, the signal in transit, the end of the simulation and the next order; tests see one schedule.", "anchors": ["libensemble/manager.py: _kill_cancelled_sims, _update_state_on_work_item, _update_state_on_worker_msg", "libensemble/worker.py: Worker.run, Worker._handle", "libensemble/utils/runners.py", "libensemble/executors/executor.py: Executor.manager_poll", "libensemble/comms/comms.py: push_to_buffer, mail_flag", "libensemble/history.py: update_history_x_out, update_history_f"]}
{"id": "C76", "title": "Runs with persistent generators end, and every result goes back once", "statement": "In a run of libE with alloc_f only_persistent_gens (with or without async_return, no resource sets, no active receive) whose workers answer what they were asked and whose generators send points with each message: the loop never stops with an error of its own; as long as it goes on, somebody works or an exit criterion is met; with sim_max = N and points given out one by one there are never more than 2N orders plus one per generator, so the loop has ended after as many turns that bring an answer, with the results of N points or because a generator ended. Each result goes back to a generator at most once, only for points that were given out, and no more generators are started than num_active_gens.", "quantifier": "All run lengths, all schedules of answers, any number of workers and generators such that a worker is left for simulations, any points and results, any exit criteria.", "why_tests_cant": "A deadlock or an endless run needs one particular order of points, results and returns among the workers; tests try a few.", "anchors": ["libensemble/alloc_funcs/start_only_persistent.py: only_persistent_gens", "libensemble/tools/alloc_support.py: avail_worker_ids, count_persis_gens, gen_work, sim_work", "libensemble/manager.py: run, _update_state_on_worker_msg, _update_state_on_work_item", "libensemble/history.py: update_history_to_gen, update_history_x_in"]}
{"id": "C77", "title": "Over TCP every worker has its own channel, and nothing on it is lost", "statement": "In a run with comms=\"tcp\" whose workers have different workerIDs: whatever the order in which worker processes sign up, send and receive, each communicator of the manager belongs to one worker process and no process has two; a worker receives exactly what the manager sent on its communicator, in order, and the manager receives there exactly what this worker sent, including what it sent before it had joined. The manager's wait for its team ends once enough workers have signed up; a worker beyond the number asked for never gets an order.", "quantifier": "All schedules of sign-ups, sends and receives, any number of workers, any messages, any different workerIDs.", "why_tests_cant": "The order in which workers on other nodes sign up and send is a race; a test sees the order of its own machine.", "anchors": ["libensemble/comms/tcp_mgr.py: ServerQCommManager, ClientQCommManager, get_queue", "libensemble/libE.py: libE_tcp_start_team, libE_tcp_mgr, libE_tcp_worker", "libensemble/comms/comms.py: QComm"]}
{"id": "C78", "title": "A simulation function of the gest-api gets each point, and its results go to that point", "statement": "With SimSpecs(simulator=..., vocs=...), each point of an order is passed to the user's function as a dictionary of exactly its variables and constants, and the objectives, observables and constraints in the dictionary it returns are written to the same point's row, as the fields take them; fields it does not name are zero. A function that raises no TypeError of its own is run once per point, in order, with libE_info if it has such a parameter. The wrapper returns whenever the columns are there, the function returns and its results fit.", "quantifier": "All VOCS, all orders of any number of points, all user functions (also with memory of earlier runs, and raising anything), all output fields.", "why_tests_cant": "Tests use a few functions that return everything; mixing up points, extra runs and left-out results depend on the function, the VOCS and the order.", "anchors": ["libensemble/sim_funcs/gest_api_wrapper.py: gest_api_sim", "libensemble/specs.py: SimSpecs"]}
{"id": "C79", "title": "Settings of the machine come from the user, then the platform, then detection", "statement": "The platform that is meant is the one of libE_specs[\"platform\"], else of LIBE_PLATFORM, else the one that domain name or environment show; an unknown name that the user gives is refused and a detected one never is. What the user gives in platform_specs is used as given; other settings are those of the platform. Cores and GPUs per node are the user's, else the platform's, else detected: cores from LSF's lists (the least over the compute nodes), GPUs from Slurm, the rest by a probe job on the node or by the first GPU tool that answers; if all are told, nothing is detected. The MPI runner's kind and command and match_slots follow the same order.", "quantifier": "All options, platform_specs in whatever way they are given, environments, domain names, probe outputs, tool answers, and executor settings.", "why_tests_cant": "A test runs on one machine with one environment and a few combinations of options; precedence must hold for every combination.", "anchors": ["libensemble/resources/platforms.py: get_platform, known_system_detect, known_envs", "libensemble/resources/resources.py: GlobalResources", "libensemble/resources/node_resources.py: get_sub_node_resources", "libensemble/resources/gpu_detect.py: get_num_gpus", "libensemble/executors/mpi_executor.py: add_platform_info", "libensemble/executors/mpi_runner.py: get_runner", "libensemble/utils/validators.py: set_platform_specs_to_class"]}
{"id": "C80", "title": "A task is launched with the command line and the environment it was given", "statement": "The run line of an MPI task is the runner's command, its options for each specification that is set (once each, in the runner's order), the extra arguments, the application (after its precedent, or the Python interpreter for a .py file) and the application's arguments; in each of them only the placeholder for the simulation directory is replaced. With an environment script that ends with a newline, the file that is run has the script's lines and then the run line on its own. With workers in processes of their own, the started program has each variable of the task with its value, whatever other workers do meanwhile, and variables that no task of this worker has set are as they were.", "quantifier": "All runner kinds, commands, specifications, applications, arguments without quotation marks, directories, scripts, and interleavings of submits of several workers.", "why_tests_cant": "A test checks a few run lines on one runner, and one order of submits; text and schedules are unbounded.", "anchors": ["libensemble/utils/launcher.py: form_command", "libensemble/executors/mpi_runner.py: mpi_command of each runner", "libensemble/executors/mpi_executor.py: MPIExecutor.submit", "libensemble/executors/executor.py: Application, Task._implement_env, Executor._set_sim_dir_env, Executor._process_env_script"]}
{"id": "C81", "title": "A worker's executor, resources, directory and messages are its own", "statement": "With workers in processes of their own, whatever the schedule, each worker sees exactly what it would see if it were alone: its tasks carry its number, run on the resource sets of its latest order and start in the directory it entered last (the previous one again once it has left); every task is in exactly one of its lines of statistics, in order; it gets the messages that were sent to it, in order, and never loses a stop signal by polling; a poll works until the worker ends and only reports signals sent to this worker. Within a run no two tasks have the same name, hence no two write to the same default output file.", "quantifier": "All interleavings of the steps of any number of workers and of the manager's messages; for the names also worker threads.", "why_tests_cant": "Sharing shows only under particular interleavings of several workers; a test runs one.", "anchors": ["libensemble/worker.py: Worker.__init__, _set_executor, _set_rset_team, _get_calc_msg, run", "libensemble/executors/executor.py: Executor.set_worker_info, manager_poll, new_tasks_timing, submit, Task", "libensemble/resources/resources.py: set_worker_resources", "libensemble/resources/worker_resources.py: set_rset_team", "libensemble/utils/loc_stack.py: push, pop", "libensemble/libE.py: start_proc_team"]}
{"id": "C82", "title": "Every log record and every calculation's line is written once, with its worker", "statement": "A record that a worker logs at or above the level the user chose is written to ensemble.log exactly once with that worker's number, and to stderr exactly if it reaches the stderr level; one below the level is written nowhere; the same holds for the manager's records with number 0, after any number of earlier calls and changes of level. With level INFO or lower (or in a later call) the line of each calculation is in libE_stats.txt exactly once with a prefix that tells the worker, and not in ensemble.log. At any moment the lines of a worker in libE_stats.txt are those of the calculations whose results the manager has, in order, or these and the next one.", "quantifier": "All levels, histories of set_level, set_stderr_level and libE calls, workers, calculations with any records, and all interleavings of the workers' messages.", "why_tests_cant": "Duplicated, mislabelled or lost lines depend on the history of calls in the process and on the interleaving of messages.", "anchors": ["libensemble/comms/logs.py: worker_logging_config, manager_logging_config, CommLogHandler, WorkerIDFilter, ErrorFilter, LogConfig", "libensemble/logger.py", "libensemble/manager.py: Manager._handle_msg_from_worker", "libensemble/worker.py: worker_main, Worker._handle_calc"]}
{"id": "C83", "title": "The multi-task Ax generator alternates its batches and gives each value with its point", "statement": "The generator sends a high fidelity batch of n_init_hifi points, a low fidelity batch of n_init_lofi, and then in turn n_opt_lofi points at low and n_opt_hifi at high fidelity, one batch for each reply and none after a stop. Each row has the parameters of its point in the order x0, x1, ... whatever their order in Ax. A low fidelity batch is what Ax proposes given all earlier batches with exactly the values that came back for them, position by position; a high fidelity batch consists of the points of the low fidelity batch before it with the smallest predictions.", "quantifier": "All behaviours of Ax and of numpy's argsort that give as many points as asked for, all batch sizes with n_opt_hifi <= n_opt_lofi, and all replies with a value for each point, of any number, with a stop at any point.", "why_tests_cant": "A value attached to a wrong point still gives a plausible optimization; the run has no bound.", "anchors": ["libensemble/gen_funcs/persistent_ax_multitask.py: persistent_gp_mt_ax_gen_f, AxRunner, max_utility_from_GP"]}
{"id": "C84", "title": "Local optimization runs in persistent generators get their own values, and the history counts the active runs of each point", "statement": "Each call of the objective by NLopt gets the value of exactly the point it asked for: of the starting point without a new evaluation, of any other point from the one row sent for it; rows are sent in the order of the calls, marked as points of one run, and none after a stop. A run reports that it is done exactly if NLopt returned, and an optimum exactly if NLopt returned with success (codes 1 to 4). If runs end by converging, num_active_runs of each row is the number of workers whose current run has this row. A call of the allocation function marks as local minima exactly the rows of the reported optima, one for each.", "quantifier": "All behaviours of NLopt, all replies of the manager with a stop at any point, and all histories of samples, starts, points, returned values and ends of runs on any number of workers.", "why_tests_cant": "Runs of several workers interleave with calls of the allocation function without bound; an error in counting shows up only in later choices of starting points.", "anchors": ["libensemble/gen_funcs/uniform_or_localopt.py: uniform_or_localopt, try_and_run_nlopt, add_to_Out", "libensemble/alloc_funcs/start_persistent_local_opt_gens.py: start_persistent_local_opt_gens", "libensemble/manager.py: Manager._update_state_on_worker_msg"]}
{"id": "C85", "title": "A generator object's fields and settings are its own", "statement": "When a generator object is constructed from a VOCS: entries of the mapping the user gave are kept; without an entry for x the field x consists of exactly the variables that no entry lists, in order (none if x is the only variable), likewise f for the objectives; every variable and objective is then in a field, and in one place if that held for the user's entries. Its settings are its keyword arguments on top of those of its gen_specs. Objects constructed later, in any number, change neither, if they are not given the same dictionaries.", "quantifier": "All sets of variables and objectives, mappings, keyword arguments and sequences of constructions, including failing ones.", "why_tests_cant": "Sharing between objects shows only in processes that construct several with other arguments.", "anchors": ["libensemble/generators.py: LibensembleGenerator.__init__, _get_unmapped_keys", "libensemble/gen_classes/sampling.py: UniformSample", "libensemble/gen_classes/gpCAM.py: GP_CAM"]}
{"id": "C86", "title": "A cancellation request marks exactly the named points", "statement": "When a persistent generator requests the cancellation of generated points, the request is accepted for any list of their ids, in any order, with repetitions, or empty. Exactly the named points are marked as cancel_requested afterwards; no other point changes, and no other field of the named points if they were generated in this run. No point is added, no count changes, no worker changes state (the generator is not taken to be waiting for work), no resource is freed and nothing is sent.", "quantifier": "All reachable histories, lists of ids below the number of points, managers and generators, with or without safe mode.", "why_tests_cant": "A request travels as a batch of generated points; which effects of such a batch it has depends on the history and the ids.", "anchors": ["libensemble/tools/persistent_support.py: PersistentSupport.request_cancel_sim_ids, send", "libensemble/manager.py: Manager._update_state_on_worker_msg", "libensemble/history.py: History.update_history_x_in"]}
{"id": "C87", "title": "Saved results can be read back and those of other runs are kept", "statement": "After save_libE_output the file whose name it returns holds the history array, another file holds persis_info, and no third file has changed. With append_attrs, two saves into one directory use the same names only if the short script name, the length of the history, the number of ended simulations and the number of workers agree; so both files of a run survive any later saves of runs that differ in one of these. check_npy_file_exists, given the script's name, finds the results if they are there at one of the times it looks, and what it finds is a file of an array that begins with the short name.", "quantifier": "All script names, directories, sizes, sequences of saves and times of appearance.", "why_tests_cant": "That names never collide is a statement about all names and numbers.", "anchors": ["libensemble/tools/tools.py: save_libE_output, _get_shortname, check_npy_file_exists", "libensemble/ensemble.py: Ensemble.save_output"]}
{"id": "C88", "title": "Every worker gets a random stream of its own", "statement": "After add_unique_random_streams(persis_info, n, seed), persis_info has for each i below n a new random stream and worker_num i; no two workers have the same stream object. By default worker i's stream has seed i, with an int all have that seed, with None seeds come from the system. Other settings of these workers and entries of other workers are as before. Ensemble.add_random_streams serves the manager and all workers.", "quantifier": "All numbers of streams, seeds and persis_info in which no two workers share a dictionary, after any number of earlier calls.", "why_tests_cant": "Independence of all pairs of workers, whatever persis_info held before.", "anchors": ["libensemble/tools/tools.py: add_unique_random_streams", "libensemble/ensemble.py: Ensemble.add_random_streams", "libensemble/generators.py: LibensembleGenerator.__init__"]}
{"id": "C89", "title": "A run repeated with mock_sim gets the recorded results", "statement": "In a run whose simulator is mock_sim with a history file of an earlier run, a point with sim_id k that has been evaluated has, at the end of the run, in every output field the value that row k of the file has. Exactly the points whose sim_id is a row of the file can be evaluated.", "quantifier": "All history files, output fields, orders of evaluation and later events of the run in which points are evaluated one at a time and generators do not write output fields of the simulator.", "why_tests_cant": "All orders in which workers return, and all later points, cancellations and results.", "anchors": ["libensemble/sim_funcs/mock_sim.py: mock_sim", "libensemble/history.py: History.update_history_f"]}
{"id": "C90", "title": "The test simulators evaluate every point, and their gradients are gradients", "statement": "six_hump_camel returns one row for each point, in the same order, with the value of the six-hump camel function there and, if asked for, its partial derivatives. persistent_six_hump_camel answers every order once, in order, and returns when told to stop. rosenbrock_eval returns for each point the value of the chained Rosenbrock function, or of the component asked for, and, if asked for, the gradient of that divided by the given constant; the components add up to the whole function.", "quantifier": "All batches of points of all even dimensions (two or more coordinates for the camel function), components, constants and sequences of orders.", "why_tests_cant": "All points and dimensions: a test compares values at a few points.", "anchors": ["libensemble/sim_funcs/six_hump_camel.py: six_hump_camel, persistent_six_hump_camel, six_hump_camel_func, six_hump_camel_grad", "libensemble/sim_funcs/rosenbrock.py: EvaluateFunction, EvaluateJacobian, rosenbrock_eval"]}
{"id": "C91", "title": "A user's own polling loop, as in the executor example, reports how the task ended", "statement": "custom_polling_loop, called on a running task, returns only when the task has ended, and raises nothing. The status is WORKER_DONE for a task that is FINISHED and TASK_FAILED for one that is FAILED, neither of which was sent a signal; MAN_SIGNAL_FINISH after a kill signal from the manager; WORKER_KILL_ON_ERR after an error in the output; WORKER_KILL_ON_TIMEOUT once the timeout has passed. It returns as soon as a look finds the process gone, a kill signal, an error or the timeout passed.", "quantifier": "All submitted tasks, earlier calls on them, timeouts, and sequences of what the loop finds.", "why_tests_cant": "All interleavings of the process, the manager's signals and the clock.", "anchors": ["libensemble/sim_funcs/executor_hworld.py: custom_polling_loop", "libensemble/executors/executor.py: Executor.manager_kill_received, Task.kill, Task.poll"]}
{"id": "C92", "title": "The live plot keeps up with the run", "statement": "With libE_specs[\"live_data\"] set to a Plot2N object, the plot is after every message from a worker less than 50 results behind the history. A local minimum is drawn at once if its row is not below the number of results shown before, and so are more than five optimization points in such rows. A drawing shows the history of its moment and is made only for such a minimum, for more than five such points, or for 50 more results.", "quantifier": "All runs, that is all sequences of histories at the manager's calls.", "why_tests_cant": "All orders in which results and minima come in.", "anchors": ["libensemble/tools/live_data/plot2n.py: Plot2N.live_update, Plot2N.finalize", "libensemble/manager.py: Manager._update_state_on_worker_msg"]}
{"id": "C93", "title": "The sampling generator objects suggest points of the domain, however they are asked", "statement": "Each of the sampling objects (UniformSample, the gest-api UniformSample and UniformSampleArray) suggests as many points as asked for, each with a value for every variable, or for every pair of bounds of the one array variable, within that variable's own domain. Asking for a points and then b points gives the same points as asking for a + b. For the same bounds and seed the three suggest the same points. Objects without variables, or with more than one array variable, are refused.", "quantifier": "All variables and domains, seeds, random sequences and sequences of requests.", "why_tests_cant": "All sequences of requests and all random sequences.", "anchors": ["libensemble/gen_classes/sampling.py: UniformSample", "libensemble/gen_classes/external/sampling.py: UniformSample, UniformSampleArray"]}
{"id": "C94", "title": "A simulation that can be killed reports what happened to its application", "statement": "When the borehole simulation, which runs an application through the executor and has the output field sim_killed, returns, exactly one of three things holds. The manager sent a kill signal while the simulation was polling: the output has no finite value, is marked as killed, and the status is that signal. Or the application failed, or its value is refused by the simulation's failure model: the value is infinite and the status is TASK_FAILED. Or the application finished: the value is the one in its output and the status is WORKER_DONE. It raises only if the application finished without a number in its output. Without the field sim_killed a killed simulation can be reported as failed.", "quantifier": "All executor histories of the task, all exit codes, manager messages and times seen while polling, all outputs and all values of the failure model.", "why_tests_cant": "The application may end, fail or be killed at any poll.", "anchors": ["libensemble/sim_funcs/borehole_kills.py: subproc_borehole, borehole", "libensemble/executors/executor.py: Executor.polling_loop"]}
{"id": "C95", "title": "Residuals evaluated one at a time are those evaluated all at once", "statement": "Without components, the chwirut simulation returns for each point, in order, the residuals of the fit at all observations and their combination: the given one, or the sum of squares. Every batch of points with three parameters is evaluated. With components, each row holds the residual asked for, which is the one at that place when all are evaluated; it is NaN exactly if NaNs were asked for and the random number of the row is below the frequency. If the generator that splits points into components made the history, the rows of each point hold, in order, the residuals of that point. A component that does not exist raises.", "quantifier": "All data tables, functions in place of exp, batches, components, random numbers and sequences of generator calls.", "why_tests_cant": "All points, components and histories of calls.", "anchors": ["libensemble/sim_funcs/chwirut1.py: func_def, EvaluateFunction, chwirut_eval", "libensemble/gen_funcs/sampling.py: uniform_random_sample_obj_components"]}
{"id": "C96", "title": "A simulation of several points says whether all its applications succeeded", "statement": "When multi_points_with_variable_resources returns, there is a value for each point, in order: the one in the output of its application, or that of the function if another application is run. Outside dry runs every application has ended; the status is WORKER_DONE if all have exited with 0 and TASK_FAILED if one has not, and there is no other status. An application that cannot be launched makes the simulation raise. In a dry run nothing is launched and the status is WORKER_DONE.", "quantifier": "All batches of points, launch attempts, exit codes, times and outputs.", "why_tests_cant": "Any application of the batch may fail, at launch or later.", "anchors": ["libensemble/sim_funcs/var_resources.py: multi_points_with_variable_resources", "libensemble/executors/mpi_executor.py: MPIExecutor.submit", "libensemble/executors/executor.py: Task.wait"]}
{"id": "C97", "title": "The options checked in a task's run line are those it was launched with", "statement": "The functions that check run lines read an option's value as the word after its last occurrence, or, for an option that ends with an equals sign, as what follows the sign in the last word that begins with it; they find nothing if it does not occur, and the option they find with its value is the one they expect for that value. For a task submitted with a number of processes under mpich, openmpi, srun, jsrun or aprun, the number read back is that number, if no extra argument, word of the application or application argument is the option's name. That condition is needed. The check of the MPI runner passes exactly for run lines that begin with the expected runner and give the expected option for the processes per node a value, and for openmpi only if mpich's option is absent.", "quantifier": "All options, run lines, specifications, extra arguments, applications and arguments.", "why_tests_cant": "Any words may precede or follow the option.", "anchors": ["libensemble/tools/test_support.py: _get_value, _get_opt_value, _get_expected_output, check_mpi_runner", "libensemble/executors/mpi_runner.py", "libensemble/utils/launcher.py: form_command"]}
{"id": "C98", "title": "The text given to an application names the units of its worker's slots", "statement": "The text of a worker's slots, read at its commas, has the name of every unit of its slots and no other, once each if the slots are distinct, or as many as the limit says. On GPUs with several tiles a name, read at its dot, has the number of the GPU and that of the tile, both of which exist if the slots share out the node's tiles. Workers without a common slot have no common name. The text is empty just when there is nothing to name.", "quantifier": "All slot lists, multipliers, limits that are not negative, and numbers of tiles.", "why_tests_cant": "Any slots, multiplier and number of tiles may meet; names must never coincide.", "anchors": ["libensemble/resources/worker_resources.py: WorkerResources.get_slots_as_string, set_env_to_slots"]}
