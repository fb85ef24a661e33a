{"id": "C01", "title": "Dependencies finish successfully before a task is handed out", "statement": "During one execute() call a task is handed to a runner (local loop or /start) only after every task it depends on inside the executed subgraph has reported exit status 0 and that report has been processed.", "quantifier": "every task graph buildable with add_task, every priority/affinity assignment, every interleaving of the server with any number of runners, every sequence of exit statuses and every shutdown/interrupt moment", "why_tests_cant": "A unit test fixes one graph and the scheduler's timing picks one interleaving; the claim is about all interleavings of concurrent queues and an event channel.", "anchors": ["src/sync.rs: ReadyTrackerServer::background_serve, _finished_bookkeeping_2, add_to_ready_queue, ReadyTrackerClient::recv"]}
{"id": "C02", "title": "Dependents of a failed task never run in that execute()", "statement": "If a task finishes with a non-zero status, is cancelled or is disconnected, then no task reachable from it along dependencies is made ready, handed out, started or reported finished in that execute() call.", "quantifier": "every graph, every schedule, every failure pattern including several dependencies finishing in any order", "why_tests_cant": "Needs all orders of completion of the parents relative to each other.", "anchors": ["src/sync.rs: _finished_bookkeeping_2, TaskStatus.poisoned"]}
{"id": "C03", "title": "A task is handed out at most once", "statement": "Within one execute() call no task is returned by two successful recv() calls, even though a task with several affinity bits sits in several ready queues and runners race to claim it.", "quantifier": "every interleaving of any number of runners popping from the 64 queues, and every graph, including graphs with repeated dependencies", "why_tests_cant": "A race between two runner types on the same task is a schedule property.", "anchors": ["src/sync.rs: TaskItem.taken, ReadyTrackerClient::recv, add_to_ready_queue"]}
{"id": "C04", "title": "A runner only receives tasks whose affinity mask contains its runner type", "statement": "recv(t) returns NoSuchRunnerType when t >= 64, and otherwise any task it returns has bit t set in its affinity mask.", "quantifier": "every runner type number, every 64-bit affinity mask, every schedule", "why_tests_cant": "64-bit masks and schedules cannot be enumerated.", "anchors": ["src/sync.rs: NUM_RUNNER_TYPES, add_to_ready_queue, ReadyTrackerClient::recv"]}
{"id": "C05", "title": "Highest priority first, priority = longest chain of dependencies", "statement": "When a runner takes an item from a ready queue, no other item in that queue has a strictly larger priority, and a task's priority is the number of edges of a longest dependency path that ends in it, in the whole graph (not only the executed part).", "quantifier": "every graph, every queue content and every schedule", "why_tests_cant": "Longest paths over all DAGs and heap contents over all histories.", "anchors": ["src/execgraph.rs: get_subgraph (455-459)", "src/graphtheory.rs: tlevel_dag", "src/sync.rs: add_to_ready_queue, recv"]}
{"id": "C06", "title": "A normal end means everything that could run has run", "statement": "If execute() ends without interrupt and without shutdown, then each task of the executed subgraph either finished, or some task it transitively depends on finished unsuccessfully; and it does not end earlier.", "quantifier": "every graph, schedule and failure pattern", "why_tests_cant": "The loop stops on a counter (n_ready_or_inflight == 0); that the counter is zero only when nothing is left must hold for all schedules.", "anchors": ["src/sync.rs: background_serve (342), n_ready_or_inflight"]}
{"id": "C07", "title": "No deadlock and bounded work: execute() ends if runners keep going", "statement": "If every task has an affinity bit that some runner thread serves and no runner disappears, then execute() cannot get stuck: in every reachable state the call has ended, or the tracker or a runner can take a step, or a soft shutdown was requested from outside and no task that was handed out is still unreported. Without such a request a state in which nothing can happen is the end of the call. In every execution, whatever is dropped or requested, the number of steps is bounded by a linear function of the numbers of tasks, runner threads and shutdown requests. Once the hard token was cancelled or the loop was left, the call can end whatever happened before.", "quantifier": "every graph and log accepted by execute(), every set of runner threads, every schedule and every maximal continuation of it", "why_tests_cant": "Termination over all schedules cannot be tested.", "anchors": ["src/sync.rs: background_serve, add_to_ready_queue, recv"]}
{"id": "C08", "title": "The scheduler's internal assertions cannot fire", "statement": "With runners that report each task they took (at most one start report, followed by exactly one finish report), none of the panics inside the tracker is reachable while no soft shutdown was requested: no counter underflow, no missing queue, no double insertion into the in-flight table, no dropped sender, no malformed log write.", "quantifier": "every graph, schedule and exit status sequence", "why_tests_cant": "A panic on a rare interleaving kills the whole workflow; tests see a handful of schedules.", "anchors": ["src/sync.rs: _finished_bookkeeping_1 (426-430), _finished_bookkeeping_2 (481), add_to_ready_queue (556-559), checked_sub (842), background_serve (301)", "src/logfile2.rs: LogFile::write"]}
{"id": "C09", "title": "/status counters are exact", "statement": "While no shutdown was requested, for each affinity mask the reported num_ready is the number of tasks with that mask that were made ready and not handed out yet, num_inflight the number handed out and not yet processed as finished, and num_unready_tasks the number of tasks not made ready; at quiescent points these are exact and none of them ever wraps below zero. Once a requested soft shutdown has been carried out, or the server has left its loop, num_ready is 0 less the number of tasks handed out since (modulo 2^32): 0 if there were none.", "quantifier": "every reachable state of every schedule", "why_tests_cant": "The counters are updated by different threads; exactness is an invariant over all interleavings.", "anchors": ["src/sync.rs: Snapshot, queuestate, recv (634-636), add_to_ready_queue (534-540), checked_sub"]}
{"id": "C10", "title": "The result of execute() is truthful", "statement": "The returned list names exactly the tasks whose finish report was processed before the end, each once, in the order processed, dependencies before dependents; the returned number of failures equals the number of non-success finish records written to the log by this call.", "quantifier": "every graph, schedule and failure pattern, including interrupted runs", "why_tests_cant": "Counts and order must match over all histories.", "anchors": ["src/sync.rs: finished_order, n_failed, drain", "src/execgraph.rs: execute (399-414)"]}
{"id": "C11", "title": "Failure limit triggers a soft shutdown exactly when reached, and nothing new becomes ready afterwards", "statement": "The soft shutdown caused by failures starts exactly when the number of failures that ended within 5 seconds of their start report reaches failures_allowed (0 meaning 2^32-1); after a soft shutdown of any cause no further task is made ready.", "quantifier": "every graph, every timing and failure sequence, every limit", "why_tests_cant": "Depends on elapsed times and orders of events.", "anchors": ["src/sync.rs: background_serve (332-340, 355-366), _finished_bookkeeping_1 (443-446), _finished_bookkeeping_2 (473-483)", "src/pylib.rs: failures_allowed"]}
{"id": "C12", "title": "Log records per key follow Ready, Started, Finished", "statement": "In the log written by any number of sessions, for each key the records form a sequence of attempts Ready+ Started Finished, the last possibly cut short: each Finished is preceded by a Started of the same attempt and each Started by a Ready.", "quantifier": "every history of sessions, executes, interrupts and schedules", "why_tests_cant": "Histories are unbounded; fabricated Started records and drain must keep the order.", "anchors": ["src/sync.rs: background_serve, drain", "src/logfile2.rs: LogFile::write"]}
{"id": "C13", "title": "After execute() returns no started task is left open in the log", "statement": "When execute() returns, also after Ctrl-C or a hard cancel at any moment, every Started record it wrote is followed by a Finished record for the same key.", "quantifier": "every interrupt point and every set of in-flight tasks and queued events", "why_tests_cant": "The interrupt point and the contents of the event channel are arbitrary.", "anchors": ["src/sync.rs: drain"]}
{"id": "C14", "title": "Log causality: a Started record comes after the success records of its dependencies", "statement": "In the log, the Started record of a task appears after Finished records with status 0 of all its dependencies in the executed subgraph (its Ready record may appear before them).", "quantifier": "every graph and schedule", "why_tests_cant": "Ready of a dependent is written before Finished of its dependency; only the schedule decides the rest.", "anchors": ["src/sync.rs: background_serve (303-330), add_to_ready_queue (528)"]}
{"id": "C15", "title": "Reopening a log reproduces exactly the in-memory state", "statement": "After any sequence of successful writes, closing (with flush) and reopening the log yields the same per-key run status, run counts, storage-root numbers and header as the writer held in memory.", "quantifier": "every sequence of log writes over any number of sessions", "why_tests_cant": "Two separately written state machines (write and load_runcounts) must agree on every history.", "anchors": ["src/logfile2.rs: LogFile::write, load_runcounts"]}
{"id": "C16", "title": "Each log record is one line and survives the JSON round trip", "statement": "Serialising any log record gives text without a raw newline, and parsing that line gives back the same record, for all strings (quotes, backslashes, control characters, non-ASCII), numbers and lists.", "quantifier": "all records with all strings and numbers in the types' ranges", "why_tests_cant": "The input space is infinite; escaping bugs hide in rare characters.", "anchors": ["src/logfile2.rs: LogEntry and entry structs, LogFile::write (274-275), load_runcounts (309-319)"]}
{"id": "C17", "title": "A crash never makes the log say something false", "statement": "If the log file is cut at an arbitrary byte (torn last write), reopening either yields exactly the state after a prefix of the records written, or fails with an error; it never yields a state that differs from such a prefix.", "quantifier": "every log content and every cut position", "why_tests_cant": "Every byte position of every log is a crash point.", "anchors": ["src/logfile2.rs: load_runcounts, LogFile::write"]}
{"id": "C18", "title": "The workflow key is stable and format mismatches are refused", "statement": "All sessions on one log see the same workflow key (the one created in the first session); a log whose headers disagree on the key, or carry another version number, is refused.", "quantifier": "every history of sessions and every log content", "why_tests_cant": "Any number of sessions.", "anchors": ["src/pylib.rs: PyExecGraph::new", "src/logfile2.rs: load_runcounts (321-334), workflow_key"]}
{"id": "C19", "title": "Run counts are never reused for a second attempt in a later session", "statement": "The run count given to a task when it is added is 0 for an unknown key, the recorded value if the last attempt only became ready or succeeded, and recorded+1 if it was started or failed; hence across sessions in which each task is executed at most once, two different started attempts of one key have different run counts, increasing with time.", "quantifier": "every history of sessions", "why_tests_cant": "Uniqueness is a property of the whole history; a repeated run count means two attempts share one working directory.", "anchors": ["src/pylib.rs: logfile_runcount, add_task", "src/logfile2.rs: RuncountStatus"]}
{"id": "C20", "title": "A success is never run again", "statement": "Once the log holds a success for a key, no later execute() in any later session hands out a task with that key, unless the log is edited from outside; instead a Backref to it is logged once per session.", "quantifier": "every history of sessions after the success", "why_tests_cant": "Unbounded future histories.", "anchors": ["src/execgraph.rs: get_subgraph (498-523, 563-568)", "src/logfile2.rs: has_success"]}
{"id": "C21", "title": "rerun_failures decides what happens to earlier failures", "statement": "With rerun_failures=false, an execute() runs no task whose latest attempt in an earlier session failed and no task that depends on one through tasks still to be run, and logs a Backref for each such failure; with rerun_failures=true earlier failures are selected like new tasks.", "quantifier": "every graph, log content and target", "why_tests_cant": "The rule quantifies over all paths in all graphs.", "anchors": ["src/execgraph.rs: get_subgraph (525-561)"]}
{"id": "C22", "title": "Target selection is exactly the not-yet-done part of the target's ancestry", "statement": "execute(target) considers exactly the target and the tasks it transitively depends on (all tasks when no target is given); among these it runs exactly those that are neither finished earlier in this process nor recorded as successful (and not excluded by rerun_failures); dependencies among the kept tasks are exactly the original ones. An index that is no task selects nothing.", "quantifier": "every graph, target, log and history", "why_tests_cant": "Reachability over all graphs.", "anchors": ["src/execgraph.rs: get_subgraph", "src/graphtheory.rs: transitive_closure_dag"]}
{"id": "C23", "title": "add_task is idempotent per key, all-or-nothing, and keeps the graph a DAG with stable indices", "statement": "Adding a task returns the next free index, or the existing index if the key is known (changing nothing); an empty command line or an index that is not an earlier task is refused and leaves graph and key table unchanged; every accepted dependency points to an earlier index, so no sequence of calls can create a cycle or change an existing task.", "quantifier": "every sequence of add_task calls with any arguments", "why_tests_cant": "All call sequences; the failure path removes a half-inserted node.", "anchors": ["src/execgraph.rs: ExecGraph::add_task", "src/pylib.rs: add_task"]}
{"id": "C24", "title": "Transitive closure is exact", "statement": "For every acyclic graph, transitive_closure_dag has an edge from v to w if and only if the input has a non-empty path from v to w; for a cyclic graph it fails.", "quantifier": "every finite directed graph", "why_tests_cant": "Correctness of an incremental algorithm on all graphs.", "anchors": ["src/graphtheory.rs: transitive_closure_dag"]}
{"id": "C25", "title": "tlevel and blevel are longest path lengths", "statement": "For every acyclic graph, tlevel_dag(v) is the maximal number of edges of a path ending in v and blevel_dag(v) of a path starting in v.", "quantifier": "every finite DAG and every valid topological order", "why_tests_cant": "Optimality over all paths.", "anchors": ["src/graphtheory.rs: tlevel_dag, blevel_dag"]}
{"id": "C26", "title": "descendants_at_distance returns exactly the nodes at that BFS distance", "statement": "descendants_at_distance(g, s, d) terminates and returns exactly the nodes whose shortest path from s has d edges (nothing for negative d), for graphs with cycles too.", "quantifier": "every finite directed graph, source and distance", "why_tests_cant": "All graphs, all distances, termination.", "anchors": ["src/graphtheory.rs: descendants_at_distance"]}
{"id": "C27", "title": "load_logfile('current,outdated') never fails on a log the program wrote and loses nothing", "statement": "On any log produced by sessions that call execute once, reading current and outdated succeeds; every record that is not a Backref of the last session, and whose key is not current, appears in exactly one of the two lists; current consists of the last header, the last session's records and the latest complete attempt of each key referenced by a Backref in the last session.", "quantifier": "every history of sessions", "why_tests_cant": "Contains an assertion about entry counts that has to hold for all logs.", "anchors": ["src/logfile2.rs: LogFileSnapshotReader::read_current_and_outdated"]}
{"id": "C28", "title": "Outdated entries never share a key with current ones", "statement": "No record in the outdated list has a key that occurs in the current list, so deleting the work directories of outdated keys never deletes a current one.", "quantifier": "every log file content whatsoever", "why_tests_cant": "All logs, including ones assembled by hand.", "anchors": ["src/logfile2.rs: read_current_and_outdated (542-566)"]}
{"id": "C29", "title": "A timer fires exactly at its tick, unless cancelled, and fires once", "statement": "An entry inserted with a duration of s slots (1 <= s <= 255) is returned by exactly the s-th following tick and by no other tick; a cancelled entry is never returned; operations on other entries do not affect it.", "quantifier": "every sequence of insert, cancel and tick operations on the wheel", "why_tests_cant": "Wrap-around of the 8-bit position and slot reuse over unbounded histories.", "anchors": ["src/time/timewheel.rs: TimeWheel::tick, insert, cancel"]}
{"id": "C30", "title": "Silent remote runners are detected, pinging ones are not", "statement": "A remote runner that sends no ping is reported as disconnected 255 ticks after its last sign of life and not before; one that pings at least once in each 254 ticks is never disconnected by the timer.", "quantifier": "every sequence of pings, ticks and other runners' requests", "why_tests_cant": "Timing histories are unbounded.", "anchors": ["src/server.rs: reap_pings_forever, ping_handler, start_request_impl", "src/time/timewheel.rs"]}
{"id": "C31", "title": "Each task given to a remote runner is reported finished at most once", "statement": "For every transaction handed out by /start (or inside an /end reply), at most one finish report reaches the tracker, whichever of /end, ping timeout and shutdown reaping happens first, and duplicates of /end answer 404 without effect.", "quantifier": "every interleaving of requests from any clients, including repeated and forged ones with the right token", "why_tests_cant": "Races between the reaper and handlers.", "anchors": ["src/server.rs: end_handler, reap_pings_forever, start_request_impl"]}
{"id": "C32", "title": "Requests with a wrong token change nothing", "statement": "Any /start, /begun, /end, /ping or /mark-slurm-job-cancelation request with a wrong bearer token is answered 401 and leaves the server state and the tracker unchanged.", "quantifier": "every request and server state", "why_tests_cant": "All requests in all states.", "anchors": ["src/server.rs: start_handler, begun_handler, end_handler, ping_handler, mark_slurm_job_cancelation"]}
{"id": "C33", "title": "Runners of a cancelled slurm job get no task through /start", "statement": "mark-slurm-job-cancelation returns exactly the requested job ids that hold no open transaction; a later /start by one of those is answered 410 and gets no task; job ids that do hold one are not marked.", "quantifier": "every sequence of requests", "why_tests_cant": "Race between cancellation and task hand-out.", "anchors": ["src/server.rs: mark_slurm_job_cancelation, start_handler"]}
{"id": "C34", "title": "An /end that also asks for new work sees the dependents it unlocked", "statement": "When /end with a start request continues (and no hard cancel happened), the server has already put every dependent unlocked by this completion into the ready queues.", "quantifier": "every graph and schedule", "why_tests_cant": "A happens-before property across two tasks and a flag.", "anchors": ["src/server.rs: end_handler (477-499)", "src/sync.rs: _finished_bookkeeping (392-399)"]}
{"id": "C35", "title": "The launch rate limit is respected in every time window", "statement": "With a limit of r > 0 tasks per second (r at most 10^9), in any time window of length W nanoseconds at most (W + 10^9) / floor(10^9/r) launches are admitted; for r*r <= 10^9 no burst is granted right after start, nor after changing the limit while no attempt is under way; after a change at any other moment the bound holds but for one launch of each attempt that was under way; when several requests to change the limit overlap, one of the requested rates is in force afterwards and the bound holds for it; and with r = 0 everything is admitted at once.", "quantifier": "every sequence of admission attempts by concurrent runners at any times, every interleaving of requests to change the limit", "why_tests_cant": "All windows of all histories.", "anchors": ["src/time/gcra.rs: RateLimiter::new, reset, compute, compute_raw, until_ready"]}
{"id": "C36", "title": "A refused launch is told the exact waiting time", "statement": "When an attempt is refused with a delay d, an attempt made d nanoseconds later is admitted if nobody else was admitted in between, and any attempt before that is refused; the reported limit equals the configured one whenever r*r <= 10^9 - hence waiting is neither too short nor too long. An attempt has to start again only if, between its reading of the state and its writing, another attempt was admitted or the limit was changed; so runners that are refused keep nobody from an answer.", "quantifier": "every limiter state and time, every interleaving of the callers", "why_tests_cant": "Integer rounding over all rates and times.", "anchors": ["src/time/gcra.rs: compute_raw, rate_per_second, until_ready"]}
{"id": "C37", "title": "Cancellation requests combine independently of order", "statement": "After any sequence of completed cancel calls the token is hard cancelled if one of them was hard, and otherwise soft cancelled with the earliest of the requested times; a waiter for work begun at time t is released exactly if the token is hard cancelled or its time is earlier than t.", "quantifier": "every sequence of cancel calls and every start time", "why_tests_cant": "All sequences; order independence.", "anchors": ["src/fancy_cancellation_token.rs: cancel, soft_cancelled, hard_cancelled, is_soft_cancelled"]}
{"id": "C38", "title": "Waiting on a flag or counter never misses a wake-up", "statement": "If a flag is set (counter incremented above the waited value) and stays so, each waiter returns however its steps interleave with the setter; a waiter returns only after having seen the flag set (a value above the requested one).", "quantifier": "every interleaving of any number of waiters and setters", "why_tests_cant": "Lost wake-ups are pure scheduling bugs.", "anchors": ["src/async_flag.rs: AsyncFlag::set, wait, AsyncCounter::incr, wait"]}
{"id": "C39", "title": "Status long-polling returns when new work appeared", "statement": "A status request with etag e returns a larger etag as soon as one exists, and otherwise the current one at the timeout; it never returns before the requested minimum time, and etags never decrease.", "quantifier": "all etags, minimum times, timeouts and increment histories", "why_tests_cant": "Timing histories.", "anchors": ["src/sync.rs: get_queuestate", "src/async_flag.rs: AsyncCounter", "src/httpinterface.rs: StatusReply.etag"]}
{"id": "C40", "title": "Average run time is the mean of the most recent successes", "statement": "average_recent_task_runtime is the integer mean in milliseconds of the last (at most 100) successful run times, 0 if there is none.", "quantifier": "every sequence of run times", "why_tests_cant": "All sequences, ring buffer wrap-around.", "anchors": ["src/simpleringbuffer.rs", "src/sync.rs: recently_inflight_elapsed_time"]}
{"id": "C41", "title": "The displayed command never contains a tab or an escaped newline", "statement": "Without an explicit display string, the shown command is the arguments joined by single spaces in which each backslash-newline became one space and each tab the two characters backslash-t; so it contains no tab and no backslash-newline, and is unchanged if there were none. An explicit display string is shown verbatim.", "quantifier": "all command lines", "why_tests_cant": "All strings, overlapping matches.", "anchors": ["src/execgraph.rs: Cmd::display"]}
{"id": "C42", "title": "Logged status distinguishes success from every kind of failure", "statement": "The logged status is 0 exactly for tasks that exited with code 0; a task killed by signal s is logged as -s, one cancelled by a soft shutdown as -10, disconnected or not startable by a local runner as -1, not startable by a remote runner as 13, ended by slurm as -15; the statuses in the log are those of the reports the scheduler processed, and the scheduler counts a success exactly if the logged status is 0.", "quantifier": "every exit status", "why_tests_cant": "All i32 codes.", "anchors": ["src/sync.rs: ExitStatus", "src/localrunner.rs: ChildOutput::code", "src/logfile2.rs: FinishedEntry.status"]}
{"id": "C43", "title": "Values a task reports on fd 3 are recorded per line", "statement": "Each line written to fd 3 that is validly shell-quoted yields one map from names to values, splitting at the first '=' and keeping the last value of a repeated name; other lines contribute nothing, and invalid UTF-8 discards all of it.", "quantifier": "all byte strings", "why_tests_cant": "All inputs.", "anchors": ["src/localrunner.rs: ChildOutput::fd3_values"]}
{"id": "C44", "title": "A local runner reports each task it took exactly once, or the run was interrupted", "statement": "For each task taken, a local loop sends one start report and then exactly one finish report before it takes the next one, except when a hard cancel interrupts it (no finish report), a soft cancel does (the task is reported cancelled), or feeding or waiting for the process fails (the thread ends without a finish report); after each of these it takes no further task.", "quantifier": "every outcome of spawning, waiting and cancellation at every moment", "why_tests_cant": "All orders of process exit and cancellation.", "anchors": ["src/localrunner.rs: run_local_process_loop"]}
{"id": "C45", "title": "Messages between server and remote runner survive encoding", "statement": "Decoding an encoded request or response gives back the same message for every message, in both the compressed and the uncompressed representation, and no proper prefix of an encoding decodes to a message. (The server refuses request bodies over 2 MiB, so a longer request does not arrive; shown by a refutation.)", "quantifier": "all messages with all strings, byte vectors, integers and options", "why_tests_cant": "Infinite message space.", "anchors": ["src/httpinterface.rs", "src/http_extensions/common.rs, axum.rs, reqwest.rs"]}
{"id": "C46", "title": "At most one writer per log directory", "statement": "While one session holds the log, opening a second one on the same directory fails with AlreadyLocked and does not touch the log, as long as no process opens the lock file while another is between removing it and its last write, and none removes it while another is between opening and locking it. The log then only grows and each session reads everything earlier sessions wrote. A lock file left by a dead process does not prevent opening. (Without the restriction two sessions can hold the log at once and records can be lost; shown by refutations.)", "quantifier": "every interleaving of opening and closing sessions", "why_tests_cant": "Processes interleave arbitrarily.", "anchors": ["src/logfile2.rs: LogFile::new (185-211), Drop"]}
{"id": "C47", "title": "The recorded location of a successful task is where it was stored", "statement": "For a key that succeeded, logfile_runcount returns the run count of that attempt and the path root/key.runcount, where root is the storage root with the number given to add_task for that attempt, taken from the roots of the running session; it panics exactly if the running session has fewer roots. Hence the path is where the attempt was stored exactly if the running session has the same place under the same number (in particular if roots are only appended). (It can be wrong after the roots changed; shown by a refutation.) For other keys it returns only the run count to use.", "quantifier": "every history of sessions with any storage_roots arguments", "why_tests_cant": "Roots may change between sessions.", "anchors": ["src/pylib.rs: logfile_runcount", "src/logfile2.rs: storage_root, storage_roots"]}
{"id": "C48", "title": "Remote runner escalates signals correctly", "statement": "When the remote runner terminates the processes left behind, each receives SIGTERM at most once, every one found receives it, and SIGKILL goes to it only more than 5 seconds after its SIGTERM and then does go to it (as long as process numbers are not reused); the runner stops only when none is left. A running task is signalled at the job's deadline minus one minute (at the deadline if it is two minutes or less away at the start), not before. (The deadline signal is repeated without bound if the task does not end; shown by a refutation.)", "quantifier": "every process tree evolution and time course", "why_tests_cant": "Process trees evolve arbitrarily.", "anchors": ["src/bin/execgraph-remote.rs: cleanup_child_processes_carefully, SigtermChildBeforeSchedulerDeadline"]}
{"id": "C49", "title": "The launch rate estimate is an exponentially weighted count", "statement": "After events at times t1 <= ... <= tn the reported rate at time t is sum k*exp(-k(t-ti)) / (1-exp(-k(t-t0))), in exact arithmetic; as computed in f64 it differs from that by a bounded number of roundings per event and per unit of age (with the code's timescale: one part in 10^8 for a million events and a year). It is non-negative and does not grow while no event happens, rounding included.", "quantifier": "every event sequence, every time scale from 2^-60 to 2^60 seconds, every library exp that is monotone and accurate to one unit in the last place", "why_tests_cant": "All histories; rounding errors add up over them.", "anchors": ["src/time/ratecounter.rs: update, get_rate"]}
{"id": "C50", "title": "A second execute() in the same process never repeats a finished task", "statement": "Tasks whose finish report was processed by an earlier execute() of the same process are not handed out again by later calls, whatever their status; tasks interrupted before that may be.", "quantifier": "every sequence of add_task and execute calls in one process", "why_tests_cant": "Histories of calls.", "anchors": ["src/execgraph.rs: execute (403-411), get_subgraph (500-509)"]}
{"id": "C51", "title": "End to end, a task runs only when all declared dependencies have succeeded", "statement": "In the first execute() of a session, when a task is handed to a runner, each task it was declared to depend on in add_task has succeeded: either it finished with status 0 earlier in this execute(), or the log records a success for it. In later execute() calls of the same process a dependency may instead have been dealt with earlier in the session (returned by an earlier execute(), whatever its status, or referenced by a Backref).", "quantifier": "every history of sessions, graph, target, log content and schedule", "why_tests_cant": "Composes task insertion, the log of all earlier sessions, target selection and the scheduler, over all graphs and histories.", "anchors": ["src/execgraph.rs: add_task, get_subgraph, execute", "src/sync.rs: ReadyTracker"]}
{"id": "C52", "title": "A remote runner reports each task it is given at most once, with the command's own status", "statement": "A remote runner asks for its first task once; each later task is the answer to a report. It announces each task as begun at most once, reports only the task it was given last and only after announcing it, at most once, with the command's exit status (13 if it could not be started, -15 with the message if slurm announced an error), and with the deadline remark exactly if it signalled the task for the deadline. It asks for another task with a report exactly if it has not received SIGUSR1 and its time for accepting tasks has not passed.", "quantifier": "every sequence of answers, failures, command outcomes, signals and times", "why_tests_cant": "The events can interleave in unboundedly many ways.", "anchors": ["src/bin/execgraph-remote.rs: main, run_command, still_accepting_tasks"]}
{"id": "C53", "title": "Remote runners and the scheduler together keep every guarantee", "statement": "With local runners and any number of remote runners at once, every guarantee of the scheduler and of the http interface holds for the combined system: a task is given to a remote runner, by /start or with the answer to /end, only after all its dependencies have succeeded, at most once over all runners and transactions, and only if its mask contains the runner type of that very request (a request is refused for its runner type only if that is 64 or more); the status with which it finishes is the one in the /end request for a transaction under which it was given, or disconnected; every start and end report that the http interface passes on is for a task that is handed out and not yet reported, except a repeated /begun, which stops execute(); and when an /end also asks for a new task, the request is served only after the end was processed and everything it made runnable is queued.", "quantifier": "every graph, every number of local and remote runners, every order of requests, valid or not, every interleaving of handlers, timeouts and the scheduler", "why_tests_cant": "the guarantees concern all interleavings of two asynchronous components and arbitrary clients; a test runs a few of them", "anchors": ["src/server.rs start_handler", "src/server.rs end_handler", "src/server.rs begun_handler", "src/server.rs start_request_impl", "src/sync.rs ReadyTrackerClient::recv", "src/sync.rs send_started", "src/sync.rs send_finished", "src/execgraph.rs execute"]}
{"id": "C54", "title": "The launch limit bounds the tasks handed out", "statement": "With a launch limit of r per second, the number of tasks that recv has returned up to a time is at most r times the time since the start (plus a rounding remainder of nanoseconds); in any later part of the run it is at most r times its duration, one second's worth, and one for each runner that was already waiting for a task. Each task returned to a runner was paid for by a passage of the limiter of that same runner.", "quantifier": "all task graphs, all limits of 1 to 10^9 per second, all numbers of runners, all interleavings of runners inside the limiter and the queues with the scheduler, all clock values more than a second after boot and far from 2^64 ns", "why_tests_cant": "The limiter is lock-free and is passed before the wait for a task; that no task is returned without a passage, however calls interleave, fail, or are abandoned, is a statement about all schedules and all clock values.", "anchors": ["src/sync.rs: ReadyTrackerClient::recv", "src/time/gcra.rs: RateLimiter::until_ready, RateLimiter::compute"]}
{"id": "C55", "title": "Storage roots and locations are what the session was given", "statement": "all_storage_roots returns the roots given to the constructor, in order, with every $KEY replaced by the workflow key and relative ones seen from the directory of the log; it never panics. Every location returned is absolute. If the key has no slash, it is a name directly in one of the roots, and attempts with different keys or run counts have different locations. (Keys with slashes can leave the roots and share a location; shown by refutations.)", "quantifier": "every history of sessions, all roots, keys, run counts and directories of the log", "why_tests_cant": "Texts of paths and keys are arbitrary, and roots change between sessions.", "anchors": ["src/pylib.rs: new, all_storage_roots, logfile_runcount", "src/logfile2.rs: storage_root, storage_roots"]}
{"id": "C56", "title": "The local runners of a call run the right processes, a bounded number at a time", "statement": "In a call of execute(num_parallel) at most num_parallel processes of ordinary tasks and at most one of a console task run at any time, none if num_parallel is 0, and each loop runs one after the other. A process is spawned only for a task whose dependencies were all reported successful, in a call without remote runners: for each of whose dependencies a process was waited for that had exited with 0; the affinity fits the loop; there is at most one process per task. When the task is reported, the process is over and the status is that of the process. A process is killed only because of the failure limit (and then only if it was spawned less than five seconds before the failure, or later), because the call is over or was cancelled, or because its loop panicked. No process is left when the call has ended.", "quantifier": "every graph, number of loops, set of further clients, interleaving of tracker, loops, processes, failures, shutdowns and cancellation", "why_tests_cant": "Which processes overlap depends on the interleaving of concurrent loops, children and cancellation.", "anchors": ["src/localrunner.rs: run_local_process_loop", "src/execgraph.rs: execute", "src/sync.rs: ReadyTrackerServer, ReadyTrackerClient::recv", "src/fancy_cancellation_token.rs: soft_cancelled"]}
{"id": "C57", "title": "A call with local runners only comes to its end", "statement": "If num_parallel > 0, there is no remote provisioner, every task has affinity bit 0 or 1, and no setting up of a process panics and no write to a child or wait for a child fails: from every state the loops, the children and the tracker can bring the call to its end, whatever Ctrl-C or failures happened; every schedule takes at most a linear number of steps; and a state in which nothing can happen is the end. If there was no Ctrl-C and no soft shutdown, then at the end for each task a process has exited with 0, or the task or one it depends on has failed. (After a failed write to a child's input the call can hang; shown by a refutation.)", "quantifier": "every graph, number of loops, exit status and output of every process, interleaving", "why_tests_cant": "Absence of deadlock and a bound on all schedules of concurrent loops cannot be shown by running some of them.", "anchors": ["src/localrunner.rs: run_local_process_loop", "src/execgraph.rs: execute", "src/sync.rs: background_serve, drain"]}
{"id": "C58", "title": "The output of a process is reported completely, its input delivered exactly, and the exchange ends", "statement": "When a local process (or one of the remote runner) is reported, the stdout, stderr and file descriptor 3 recorded are exactly the bytes that the process and those it has started wrote, in order, none of them can write more, and the status is that of the process itself; for a console task nothing is captured. What is read of fd_input is a prefix of it, and end of file is seen only after all of it was read. If the processes end by themselves, the exchange takes a bounded number of steps; without fd_input, or if the input is read to its end before more than a pipe of output is written, it always finishes. The text of the output is the bytes with each maximal ill-formed piece replaced by U+FFFD: always UTF-8, and unchanged if it was UTF-8. (In general it can deadlock, wait for background processes forever, or panic on unread input; shown by refutations.)", "quantifier": "every program of the process and its descendants, input, pipe capacity, size of each read and write, interleaving, byte sequence", "why_tests_cant": "How pipes fill and drain depends on the scheduling of the processes, on the sizes of reads and writes and on the capacity of the pipes; tests run a few of them.", "anchors": ["src/localrunner.rs: run_local_process_loop, wait_with_output, ChildOutput", "src/bin/execgraph-remote.rs: run_command"]}
{"id": "C59", "title": "Messages go completely and in order to the console and to log.txt", "statement": "Every file log.txt contains what it contained before, followed by exactly the bytes of the messages logged while it was the file of the graph constructed last; bytes can only be missing at the end, of the file in use, and none after a successful flush. A message whose logging succeeded is contained completely, in order, and cut only between fragments if these are smaller than the buffer; a message that failed, by a beginning. Once a file was chosen, and if nothing fails, no message is given up. If nothing fails, the console takes all bytes and fragments are small, the console shows the same bytes in the same order. (Short writes, several threads, several graphs and unopenable files break what one would expect beyond this; shown by refutations.)", "quantifier": "every sequence of messages by any number of threads, constructed graphs, flushes, results of every write (short, failed), buffer size", "why_tests_cant": "Short and failing writes and the interleaving of threads are chosen by the system.", "anchors": ["src/logging.rs: ConsoleAndFile, init_logging, flush_logging, rawlog", "src/pylib.rs: PyExecGraph::new"]}
{"id": "C60", "title": "The cleaning up of admin sockets removes left over ones only", "statement": "When execute() with a provisioner cleans up the directory of the admin sockets it removes a name only if this contains, as wrk-NUMBER, some character, sock, the number of a process that was looked for just before and did not run. The name used by any process is recognized as that process's. What is found left over is removed unless the cleaning up fails or its process ends. As long as no process number is used again between check and removal and no process makes two calls at a time, the socket of every call being served stays in its place and its server does not panic. (Without these conditions it may; sockets of other programs may be removed; one bad name ends the cleaning up; shown by refutations.)", "quantifier": "every interleaving of the system calls of any number of processes that start, end, die, bind and clean up; every content of the directory; every name", "why_tests_cant": "Races between processes and arbitrary file names in a shared directory cannot be enumerated.", "anchors": ["src/admin_server.rs: run_admin_service_forever, clean_up_socket_dir", "src/constants.rs: ADMIN_SOCKET_PREFIX"]}
{"id": "C61", "title": "What execute() prints agrees with what happened", "statement": "Whatever happens, execute() prints about tasks exactly: for each task reported successful one line [k/n] with its text, and for each task that fails before a soft shutdown begins one line with the kind of failure, its key, run count and text, each followed by its output unless a soft shutdown has begun. Each task is reported once. k grows strictly, starts above the number of tasks completed before and never passes n, which is the same in all lines. A call that ends normally without a failure counts each number up to n and shows each task. The numbers in the lines are decimal, run counts hexadecimal. (After a soft shutdown has begun failures and output are not shown; shown by refutations.)", "quantifier": "every graph, every schedule of runners and scheduler, every shutdown request, every output of the tasks", "why_tests_cant": "The order of the reports and the moments of shutdown requests cannot be enumerated.", "anchors": ["src/sync.rs: _finished_bookkeeping_1, drain, fail_description", "src/execgraph.rs: execute (count_offset)", "src/constants.rs: FAIL_COMMAND_PREFIX"]}
{"id": "C62", "title": "Preambles and postambles are called around the execution of their tasks", "statement": "In an execute() call with local and remote runners: before a process is spawned for a task, and before its postamble, its preamble was called, at most twice. When a preamble is called its task was handed out to a runner and the postambles of all dependencies were called and told about a success. The postamble is called exactly once for each finish report, before the report is processed, with whether the task succeeded, its run count and the number of tasks of the call; then no process of the task runs, none is spawned later, and its preamble is not called again. When the call has ended each task whose start was reported had its postamble. If a preamble fails the call never ends normally (unless a soft shutdown begins); if a postamble fails the log holds no end of the task, neither success nor failure, so that it runs again in the next session. (The preamble is in general called twice, the second time while the process runs, and tasks whose start was not reported get no postamble; shown by refutations.)", "quantifier": "every graph, number of local runners, schedule of runners and scheduler, shutdown request and failure of a process", "why_tests_cant": "The interleavings of runners, reports and shutdown requests cannot be enumerated.", "anchors": ["src/execgraph.rs: call_preamble, call_postamble, Capsule", "src/sync.rs: send_started, _finished_bookkeeping_1, drain", "src/localrunner.rs: run_local_process_loop", "src/server.rs: start_request_impl, begun_handler"]}
{"id": "C63", "title": "The services of a call start, end and are freed together", "statement": "A provisioner is started at most once, with the given command, the address of the http server that already listens as argument, and the token that server asks for; the token determines the 128 bit random number it is made of and fits an Authorization header, the address determines the port. Signals go to its process only between its start and the time it was waited for; SIGINT at most once and before SIGKILL. When execute() returns, the process was waited for or killed. No loop, connection, or reaper uses the tracker or the graph after execute() has dropped them, unless the scheduler fails with an error or the admin server's accept does. When the provisioner is over (exited, killed, not startable) or the call is cancelled, the call can end without any failure, is never stuck before, and takes a bounded number of steps apart from new connections and repeated requests. execute() returns only after the last task was reported, Ctrl-C, a hard shutdown, or the end of the provisioner, and interrupts the provisioner only for the first three of these. (The exceptions are real, SIGKILL follows SIGINT at once, and a call whose http server cannot be bound hangs: shown by refutations.)", "quantifier": "every number of loops and connections, order of events, moment of cancellation, exit of the provisioner, and failure of a part", "why_tests_cant": "Use after free depends on the order in which independent threads end; tests see few of these orders, and seldom notice.", "anchors": ["src/execgraph.rs: execute, spawn_and_wait_for_provisioner, transmute_lifetime, extend_graph_lifetime", "src/admin_server.rs: run_admin_service_forever", "src/server.rs: reap_pings_forever"]}
{"id": "C64", "title": "The heartbeat: no task runs twice at a time, no live runner is given up", "statement": "If answers of the server reach the runner within a time that, with the lateness of the runner's timers, is below 4.73 seconds, then when the server reports a task as disconnected its runner has stopped (no pong for 30 seconds, a failed ping) or finished the task, whatever happens to the pings. If each ping is answered within r, a runner never gives up for want of pongs (15 s + lateness + r < 30 s) and the server never gives up a task whose runner goes on (15 s + lateness + 2r < 34.73 s). In any network a runner that goes on has heard of the server during the last 30 seconds plus lateness. (Without the bound on answers the first claim fails: a runner can go on for ever with a task that was reported as disconnected.)", "quantifier": "every order and delay of messages within the bounds named, every lateness of the server's ticks, every moment of failure or end", "why_tests_cant": "The claims compare three timers on two machines for all delays in between; tests run on one machine in which nothing is late.", "anchors": ["src/bin/execgraph-remote.rs: run_command", "src/server.rs: ping_handler, reap_pings_forever, start_handler", "src/constants.rs: PING_INTERVAL_MSECS, PING_TIMEOUT_MSECS"]}
{"id": "C65", "title": "Reading and writing logs from Python", "statement": "For the log of every history of sessions, load_logfile returns in all four modes: \"all\" gives the records in order, \"current\" and \"outdated\" the two components of \"current,outdated\"; any other mode is refused. write_logfile appends; it returns exactly if the records continue the log in the order Ready, Started, Finished for each key, and otherwise has written the records up to the first that does not. Writing all records to a new file makes a log that reads and opens the same. Writing the current records to a new file never fails and makes a log with the same header and the same run count and status of each key in it, without any other key, which is current as a whole. (write_logfile does not check headers, so it can make a log that cannot be opened.)", "quantifier": "every history of sessions, every list of records, every log file, every mode", "why_tests_cant": "The claims range over all logs that sessions, crashes and earlier writes can leave, and over all lists of records.", "anchors": ["src/pylib.rs: load_logfile, write_logfile", "src/logfile2.rs: LogFile::write, LogFileSnapshotReader::read_current_and_outdated"]}
{"id": "C66", "title": "Errors of slurm are noticed and reported; placeholders are filled in", "statement": "When the remote runner watches slurm's error file: once its watcher has seen all modifications, a file with CANCELLED, FAILED or ERROR in it has been announced as a whole, even if the word was written in pieces; a runner that waits for a task can then always take the message, kill the task's process with SIGTERM and report the task with status -15. The report holds exactly what the file held when the watcher first read an alarming text, and no further task is asked for. If all pieces written are UTF-8 and none of the words occurs, nothing is killed. In --disconnect-err-msg and --slurm-error-logfile the placeholders are replaced by their values, all at once, unless a percent sign precedes one or is in a value. (Without these conditions: a character written in two pieces kills the task, an error that was there at the start is not noticed, and values can be taken for placeholders.)", "quantifier": "every file, every sequence of writes, events and inputs of the runner in every order; every text and all values of user, host and slurm variables", "why_tests_cant": "The claims range over all cuts of a text into writes and all interleavings of writer, watcher and runner; tests write one text at one time.", "anchors": ["src/bin/execgraph-remote.rs: async_watcher, run_command, parse_slurm_error_logfile, parse_disconnect_error_message"]}
{"id": "C67", "title": "What the SIGTERM at the end of execute() reaches", "statement": "At the end of execute() SIGTERM reaches every process that the caller, or processes started so, at any depth, started during the call and that has not left the process group; those that neither handle nor ignore it end. The caller does not end. Nobody else is reached, unless others were in the caller's group before or joined it. A caller that leads the terminal's foreground group is reached by Ctrl-C during the call. After the call, SIGTERM does not end the caller, until it sets a handler itself. (False without these conditions: `python | tee` ends tee, helpers started between calls end, Ctrl-C misses a caller that is not first in a pipeline, daemons survive.)", "quantifier": "every system of processes, sessions and groups, and every sequence of forks, execs, changes of group, session and disposition, exits and signals by any process before and during the call", "why_tests_cant": "The claims are about every tree of processes that tasks may start and every order of its events; tests start one.", "anchors": ["src/pylib.rs: PyExecGraph::execute (setpgid)", "src/sync.rs: ReadyTrackerServer::drain (killpg)"]}
{"id": "C68", "title": "Progress numbers of a session grow and stay within the tasks", "statement": "The lines k/n that execute() prints for tasks that succeed satisfy 1 <= k <= n, and n is at most the number of different keys added in the session. Over all calls of execute() of a session the numbers k strictly increase, as long as no earlier call ended with tasks reported only in its final clean-up; a call that ends because all its tasks are done is not of that kind. Nothing but execute() prints such lines. (False without the condition: after an interrupted call the numbers start again. Tasks reused from the log by the same call are not counted.)", "quantifier": "every history of sessions on a log: every sequence of opening, adding tasks, calls of execute() with every schedule, exit status, interruption and crash", "why_tests_cant": "The numbers depend on every schedule of every call and on what earlier calls and sessions left in the log.", "anchors": ["src/execgraph.rs: ExecGraph::execute (count_offset)", "src/sync.rs: ReadyTrackerServer::_finished_bookkeeping_1 (progress line)"]}
{"id": "C69", "title": "No report is lost, and a runner that vanishes cannot hold up execute()", "statement": "A report of the end of a task that a runner, local or remote, has sent is processed with exactly the status that was sent, unless it is still waiting to be read; when execute() is over none is waiting. If nothing is heard from the runner of an open transaction during 255 ticks of the server's clock, its task is reported as disconnected, and as soon as the scheduler has read what was sent to it the task counts as failed; in every state without a request in progress the server can bring this about alone, for all open transactions together, whatever runners do not do.", "quantifier": "every graph, every number of local and remote runners, every history of requests, every interleaving in which the clock does not tick inside two short critical sections (what happens otherwise is a finding of C30) and drawn transaction ids are unused", "why_tests_cant": "it is a statement about what follows every history when somebody stops doing anything at the worst moment; tests wait for a few given moments", "anchors": ["src/server.rs: reap_pings_forever, end_handler", "src/sync.rs: ReadyTrackerServer::background_serve, drain, ReadyTrackerClient::send_finished", "src/time/timewheel.rs: TimeWheel::tick"]}
{"id": "C70", "title": "Each command is started once by whoever has the task, after the commands it depends on, and reported as it ended", "statement": "Over any number of remote runners that start at any time, lose requests or answers, give up, or have a request arrive after they have given up, together with local runners and a server: the command of a task is started at most once, a failed attempt to start it is not repeated, and no task is both started remotely and handed out locally. A command is started only when every dependency has succeeded; if the dependency ran remotely, its process had exited with 0 before. The status under which a task of a remote runner finishes is that with which its process ended there (its exit code, minus the signal that killed it, 13 if it could not be started, -15 if slurm ended the job), or 'disconnected'; and the report that the server passes on carries what that process wrote: its output and errors as text (with a note in front of the errors only if the deadline had passed) and the values it wrote to file descriptor 3. The host, process and job recorded for a task are those of the runner that ran it, and the scheduler accepts every message that follows from what runners send.", "quantifier": "every graph, any number of local and remote runners, every interleaving of runners, network, server and scheduler, every loss and delay of requests and answers; for the statements about statuses, provided that no transaction id is drawn twice", "why_tests_cant": "it speaks about three programs and a network together: an interleaving in which a task runs twice or gets a foreign status needs a particular loss at a particular moment, and tests exercise the parts one at a time", "anchors": ["src/bin/execgraph-remote.rs: main, run_command", "src/localrunner.rs: wait_with_output, fd3_values", "src/server.rs: start_handler, begun_handler, end_handler", "src/sync.rs: ReadyTrackerServer::background_serve, ReadyTrackerClient::recv, send_started, send_finished"]}
{"id": "C71", "title": "No task that the server takes for a remote runner is forgotten", "statement": "Every task that the scheduler has handed out to the http server is, at every moment, either in the server's books (an open transaction, a request being handled, or the clean-up about to report it) and not yet reported, or reported to the scheduler exactly once and not in the books any more: never neither, never both, whatever runners lose, delay or give up. When no request is being handled and no transaction is open, every task taken has been reported once, and once the scheduler has read what was sent to it, every such task has come to its end there. The report of a runner about an open transaction is never refused, and is taken as the report about the task that was given under it.", "quantifier": "every graph, any number of local and remote runners, every interleaving of runners, network, server and scheduler, every loss and delay of requests and answers; provided that no transaction id is drawn twice and that the clean-up thread has not panicked", "why_tests_cant": "a task that is neither kept nor reported makes execute() wait for ever; whether one exists depends on the order of handlers, clean-up and lost messages, of which tests run a few", "anchors": ["src/server.rs: start_handler, end_handler, State::reap_pings_forever", "src/bin/execgraph-remote.rs: main, run_command", "src/sync.rs: ReadyTrackerServer::background_serve"]}
{"id": "C72", "title": "The log of a session is the transcript of what runners reported", "statement": "The records that a call of execute() adds to the log tell exactly the reports that runners made, in the order in which they made them: a report that a task has begun becomes one line with the task's key and the reported host, process and slurm job; a report that it has ended becomes one line with the key, the reported status and the reported values (preceded by a line without host if no beginning was reported). Reports not yet read are waiting, none is dropped, doubled, reordered or altered. When the call is over every report is in the log; a task that was reported begun and never ended gets one line with status -1 and no values. Tasks that become ready are recorded in that order with their own key, run count, command and storage root. With remote runners the reports are the messages of the http server, all of them and unaltered: each end that it has accepted is in the log with its status and its values. So a line about the end of a task that ran remotely has the status and the values of the process that the runner started for it, and a line about its beginning the host, process and job of that runner. The same holds for local runners, and when the call is over each local process that was waited for has a line with its status and its values, and each one that was killed in a hard shutdown a line with status -1.", "quantifier": "every graph, log, number of local and remote runners, every interleaving, every end of the call (normal, failures, soft or hard cancel, interrupt), every reported host, process, status and values", "why_tests_cant": "which reports are read before the call ends, and in which order they come, depends on the schedule; tests read a few logs of a few schedules", "anchors": ["src/sync.rs: ReadyTrackerServer::background_serve, drain, _finished_bookkeeping_1; ReadyTrackerClient::send_started, send_finished", "src/server.rs: begun_handler, end_handler", "src/logfile2.rs: LogFile::write, LogEntry"]}
{"id": "C73", "title": "What was flushed survives a crash", "statement": "While execute() runs, the log is flushed at each tick of a ticker. If the process is killed at any moment, in the middle of writing to the log too, and the log can be opened again, then its state is the one after a number of the records written, among them all that were written before the last tick. So a task whose success was in the log before a tick is never run again, whatever happens to the log afterwards. (Whatever was written since the last tick can be lost, and its tasks run again.)", "quantifier": "every history of sessions before, every graph and schedule, every moment of the ticks and of the kill, every division of the writes by the buffer, every cut, every history of sessions afterwards", "why_tests_cant": "where the kill falls between ticks, writes and parts of writes is beyond the control of a test", "anchors": ["src/sync.rs: ReadyTrackerServer::background_serve (flush_ticker)", "src/logfile2.rs: LogFile::write, flush, load_runcounts", "src/execgraph.rs: ExecGraph::execute"]}
{"id": "C74", "title": "The object tells the tasks that were added", "statement": "At any time task_keys() is the list of the keys for which add_task returned an index in this session, in the order of the calls and each once, ntasks() is their number, and the index returned for a key is its place in the list. get_task() of that index returns the command line, key and display string passed when the key was first added, whatever was added or executed since, and get_task() of any other index is refused.", "quantifier": "every history of sessions and every sequence of add_task (accepted, repeated, refused) and execute() calls", "why_tests_cant": "must hold after every sequence of calls, including refused ones that add and remove a node and executions that rewrite the graph", "anchors": ["src/pylib.rs: PyExecGraph::ntasks, get_task, task_keys, add_task", "src/execgraph.rs: ExecGraph::ntasks, get_task, task_keys, add_task"]}
{"id": "C75", "title": "Administrators' requests take effect, and /status shows it", "statement": "Each answer (of a POST or of GET /status) shows, for the information for the provisioner and for the rate limit, a value that execute() was called with or that was posted by a request that came before the answer, and it is not outdated: no other change that came after that request was answered was itself answered before the present request came, or is the present request's own. In particular a value that was posted is shown from its answer on until somebody else posts. The limit is shown exactly if its square is at most 10^9. When a shutdown request is answered the shutdown has been triggered, and no shutdown is triggered this way unless requested. (An answer need not show the request's own value, and a shutdown request can fail before it has an effect; shown by refutations.)", "quantifier": "every number of concurrent requests, every interleaving of their handlers, clients that go away at any time", "why_tests_cant": "Interleavings of concurrent handlers cannot be enumerated.", "anchors": ["src/admin_server.rs: post_ratelimit_handler, post_provisioner_info_handler, post_shutdown_handler", "src/server.rs: status_handler", "src/time/gcra.rs: reset, rate_per_second"]}
{"id": "C76", "title": "The log can be read while a session runs, and what it lists as outdated is not in use", "statement": "load_logfile() called by someone else while execute() runs returns the first so many of the records written so far, among them all that were written before the last flush, split into current and outdated as if the log ended there; it never panics, and raises OSError only if the file ended, for the reader, inside a multi-byte character. Once the log has been flushed during the call, no record of a task that this session has finished or that the call passes over (because the log has a success of it, or a failure and failures are not rerun) is listed as outdated, and the records of the last success of such a task are listed as current. So a clean-up that deletes what the outdated records name deletes nothing the call relies on.", "quantifier": "every history of the log, every process and call of execute() that can follow it, every schedule of tracker, runners and buffer, every moment and place at which the reader starts and stops, every key", "why_tests_cant": "A test reads the file at a few moments; whether a half written line or a missing Backref can make a result look outdated depends on where the buffer was cut and on what all earlier sessions wrote.", "anchors": ["src/logfile2.rs: LogFileSnapshotReader::open, read, read_current_and_outdated, LogFile::write, flush", "src/pylib.rs: load_logfile", "src/execgraph.rs: get_subgraph (Backref)", "src/sync.rs: background_serve (ticker)"]}
{"id": "C77", "title": "An execute() that was not stopped and reports no failure has completed what it was asked for, for good", "statement": "In a session with rerun_failures in which no execute() has reported a failure, an execute() that reports no failures and was not told to stop (no shutdown requested, not cancelled, not interrupted) leaves in the log file a success of every task of the workflow, or of the target and everything it depends on, including those that were not run because they were done before. The same holds of the first execute() of a session without rerun_failures if the log has no failure of these tasks. None of these tasks is ever run again by a session on that log, whatever crashes follow.", "quantifier": "every history of the log, every workflow and target, every schedule and exit statuses of the call, every later history including kills at any moment", "why_tests_cant": "That a count of zero means that nothing was left out, neither by selection, by a lost wake-up, by failures_allowed nor by an earlier call of the session, must hold for every graph, schedule and history; a test sees some.", "anchors": ["src/execgraph.rs: ExecGraph::execute, get_subgraph", "src/sync.rs: StatusUpdater, finished_order, n_failed", "src/pylib.rs: PyExecGraph::execute, failures_allowed", "src/logfile2.rs: LogFile::has_success, write"]}
{"id": "C78", "title": "The successes in the log are the tasks that have succeeded", "statement": "An execute() that returns adds to the successes recorded in the log file exactly the tasks whose end with status 0 was reported to it, including reports that arrived while it was ending. No event removes a success from the file. A kill at any moment adds only successes of tasks that ended with status 0 in the call that was killed. So every success in the log is that of a task that ended with status 0 in some execute() of the history, after which no execute() had it to run; and a task that succeeded in an execute() that returned is never run again.", "quantifier": "every history of the log with kills at any moment, every workflow, target, schedule and exit status, every key", "why_tests_cant": "A false or a lost success appears only after particular schedules, late reports or kills, and shows sessions later; it must be excluded for all histories.", "anchors": ["src/sync.rs: StatusUpdater::send_finished, drain, background_serve", "src/logfile2.rs: LogFile::write, flush", "src/execgraph.rs: ExecGraph::execute, get_subgraph"]}
{"id": "C79", "title": "After execute() the log says that a task failed exactly if its last attempt did", "statement": "When execute() has returned, the log file says of a key that its latest attempt failed exactly if a task with this key failed in this call (it ended otherwise than with status 0, or was given up when the call ended), or if the file said so before and the call did not make the task ready. The number of failures returned is 0 exactly if no task failed in the call. In every history, each Finished record in the file is the report, with this status, of a task with this key in some execute(), each Ready record shows the key, the number of earlier attempts, the command and the storage root of a task that became ready in some execute(), each Started record is that of a task that a runner took, and before each Backref the last record of its key is a Finished record. So what a later session without rerun_failures leaves out is decided by what really happened.", "quantifier": "every history of the log with kills at any moment, every workflow, target, schedule and exit status, every key", "why_tests_cant": "An old failure that is not overwritten, or a failure that is lost at the end of a call, shows only after particular schedules and histories.", "anchors": ["src/sync.rs: drain, _finished_bookkeeping_1", "src/logfile2.rs: LogFile::write, has_failure", "src/execgraph.rs: ExecGraph::execute, get_subgraph"]}
