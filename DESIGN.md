# Formal model of execgraph in Rocq (Coq 8.16.1)

The code under study is in `/repo` (Rust). It is read as text only. The model is written
function by function in Gallina under `rocq/theories/`; each definition cites the file and
lines it models and says what it simplifies.

## Layout

Each area has a model (definitions only), a small specification vocabulary, proofs, and a file of
property theorems.

| area | model | specification | proofs | theorems |
|---|---|---|---|---|
| graphs, `graphtheory.rs` | `GraphModel` | `GraphSpec` | `GraphProofs`, `TopoSort` | `GraphProps` |
| log state machine, snapshot reader, `logfile2.rs` | `LogModel` | `LogSpec` | `LogProofs`, `SnapshotProofs` | `LogProps` |
| text of the log, serde_json as used | `JsonModel`, `Utf8Model` | `JsonSpec` | `JsonProofs`, `Utf8Proofs` | `JsonProps` |
| lock of the log directory, `logfile2.rs` | `LockModel` | `LockSpec` | `LockProofs` | `LockProps` |
| tasks, choice of the subgraph, `execgraph.rs`, `pylib.rs` | `ExecModel` | `ExecSpec` | `ExecProofs`, `AddProofs` | `SessionProps` |
| ready tracker, `sync.rs` | `SchedModel` | `SchedSpec` | `SchedBase` ... `SchedTrace` | `SchedProps` |
| what the log says about a session, with and without remote runners | `SchedModel`, `JointModel` | `RecordSpec`, `RecordJointSpec` | `RecordProofs`, `RecordJointProofs` | `RecordProps`, `RecordJointProps`, `RecordFleetProps` |
| the same, with the processes of local runners | `PoolModel` | `PoolRecordSpec` | `RecordOpen`, `PoolRecord` | `PoolRecordProps` |
| the log in bytes during execute(), flushing and kills | `FlushModel` | `JsonSpec`, `SessionSpec`, `FlushProps` (`begins_execute`) | `FlushProofs` | `FlushProps` |
| the ready counter after its reset | `SchedModel` | `SchedSpec`, `SchedSoft` (`resets`) | `SchedSoft` | `SchedSoft` |
| termination of execute() | `SchedModel` | `SchedLiveSpec` | `SchedLive`, `SchedBound` | `SchedLiveProps` |
| what the object tells about its tasks, `pylib.rs` | `ViewModel` | `SessionSpec`, `ViewProps` (`named`) | `ViewProps` | `ViewProps` |
| histories of sessions | `SessionModel` | `SessionSpec` | `Session*` | `SessionProps` |
| rate limiter, `time/gcra.rs` | `GcraModel`, `ResetModel` | `GcraSpec` | `GcraProofs` | `GcraProps`, `ResetProps`, `BusyProps`, `AgainProps` |
| time wheel, `time/timewheel.rs` | `WheelModel` | `WheelSpec` | `WheelProofs` | `WheelProps` |
| rate estimate, `time/ratecounter.rs` | `RateModel` | `RateSpec` | `RateProofs` | `RateProps` |
| the same with f64 rounding | `FloatModel` | `FloatSpec` | `FloatProofs` | `FloatProps` |
| recent run times, `simpleringbuffer.rs` | `RingModel` | `RingSpec` | `RingProofs` | `RingProps` |
| flag, counter, token, long polling, `async_flag.rs`, `fancy_cancellation_token.rs` | `SyncModel` | `SyncSpec` | `SyncProofs` | `SyncProps` |
| local runner, exit statuses, fd 3, `localrunner.rs` | `LocalModel` | `LocalSpec` | `LocalProofs` | `LocalProps` |
| server for remote runners, `server.rs` | `ServerModel` | `ServerSpec` | `ServerProofs`, `ServerTrace`, `ServerTime` | `ServerProps` |
| messages, postcard as used, `httpinterface.rs`, `http_extensions/` | `MsgModel` | `MsgSpec` | `MsgProofs` | `MsgProps` |
| remote runner, `bin/execgraph-remote.rs` | `RemoteModel` | `RemoteSpec` | `RemoteProofs` | `RemoteProps` |
| server and scheduler together, `server.rs`, `sync.rs` | `JointModel` | `JointSpec` | `JointProofs`, `JointInv`, `JointTrace`, `JointFit` | `JointProps` |
| storage roots and locations, `logfile2.rs`, `pylib.rs` | `LocModel` | `LocSpec` | `LocProofs` | `LocProps` |
| loops and processes of local runners, `localrunner.rs`, `execgraph.rs` | `PoolModel` | `PoolSpec` | `PoolProofs`, `PoolLive`, `PoolEnd`, `PoolTrace` | `PoolProps` |
| pipes to a process, text of its output, `localrunner.rs` | `PipeModel` | `PipeSpec` | `PipeProofs`, `PipeLive`, `LossyProofs` | `PipeProps` |
| console and log.txt, `logging.rs` | `SinkModel` | `SinkSpec` | `SinkProofs` | `SinkProps` |
| administrators' requests, `admin_server.rs:20-69` | `ManageModel` | `ManageSpec` | `ManageProofs` | `ManageProps` |
| admin sockets, `admin_server.rs:71-152` | `AdminModel` | `AdminSpec` | `AdminProofs` | `AdminProps` |
| messages of execute(), `sync.rs:401-470` | `LinesModel` | `LinesSpec` | `LinesProofs` | `LinesProps` |
| calls of preamble and postamble, `execgraph.rs:146-179` | `HookModel` | `HookSpec` | `HookProofs` | `HookProps`, `HookFail` |
| the services of a call, `execgraph.rs:284-447` | `ServiceModel` | `ServiceSpec` | `ServiceProofs` | `ServiceProps` |
| pings and pongs, `execgraph-remote.rs:234-306`, `server.rs:111-159, 240-265` | `HeartModel` | `HeartSpec` | `HeartProofs` | `HeartProps` |
| load_logfile, write_logfile, `pylib.rs:395-420` | `ToolModel` | `ToolSpec` | `ToolProofs` | `ToolProps` |
| slurm's error file, placeholders, `execgraph-remote.rs:641-723` | `AlarmModel` | `AlarmSpec` | `AlarmProofs` | `AlarmProps` |
| remote runners, server and tracker together | `FleetModel` | `FleetSpec` | `FleetProofs`, `FleetJobs` | `FleetProps`, `FleetLiveProps` |
| process groups, SIGTERM at the end, `pylib.rs:335-343`, `sync.rs:243-250` | `GroupModel` | `GroupSpec` | `GroupProofs` | `GroupProps` |
| progress lines over a session, `execgraph.rs:260-284`, `sync.rs:431-440` | `ProgressModel` | `ProgressSpec` | `ProgressProofs` | `ProgressProps` |
| limiter and queues together, `sync.rs`, `time/gcra.rs` | `LaunchModel` | `LaunchSpec` | `LaunchProofs` | `LaunchProps` |

Property theorems live in `*Props.v` files: statements, short proofs from lemmas,
`Print Assumptions`, and beside them `Example`s that show a concrete case that meets the hypotheses.
A theorem whose name ends in `_refuted` shows, with a computed witness, that a natural stronger claim
is false of the model; see "Findings".

## Modelling conventions

* A Rust panic / failed `expect` / failed `assert!` is an explicit error value, never a default.
* `&mut` methods return the new value. `Result`/`Option` stay data.
* Loops without structural argument take fuel, return an explicit out-of-fuel value, and the
  theorems show it does not occur for the fuel used.
* `HashMap`/`HashSet`/`DashMap` are std++ `gmap`/`gset`; iteration order, which Rust leaves
  unspecified, is either irrelevant or a universally quantified choice.
* Concurrency: a transition system whose actions are the atomic operations of the code
  (channel send/receive, atomic read-modify-write, map entry update, file write). A schedule is
  an arbitrary list of actions; theorems quantify over all schedules.
* Time is a value carried by an action, universally quantified.
* External code (petgraph `toposort`, `async-priority-channel`, `async-channel`, `tokio`,
  `event-listener`, serde_json, postcard) is modelled by its documented contract; where the
  contract leaves a choice the theorems hold for every choice.

## Plan per property

* C01, C02, C03, C04, C06, C07, C08, C09, C10, C11, C12, C13, C14: transition system `SchedModel.v` of
  `background_serve`, its helper functions, `recv`, `send_*` and `drain`; one inductive invariant over all
  reachable states, then corollaries stated over the trace of observable events (hand-outs,
  reports, log records). C07 by a decreasing measure plus a no-stuck-state lemma.
* C05: maximality of the popped item is part of the transition system (contract of the priority
  channel); priority = longest path from C25.
* C12, C15, C18, C19: log state machine; replay function equals the fold of writes; grammar of
  per-key histories as an independent automaton.
* C16, C17: concrete JSON printer and parser over byte strings; round trip, newline-freeness,
  and prefix-freeness give the crash theorem.
* C18, C19, C20, C21, C22, C50: session model: open, add_task, execute with arbitrary schedule, close,
  reopen; induction over histories.
* C23: induction over `add_task` sequences. C24, C25, C26: induction over topological orders / BFS rounds.
* C27, C28: snapshot reader over lists of records, for logs that satisfy the grammar of C12.
* C29, C30, C31, C32, C33, C34: wheel as 256 slots; server handlers as steps on connections, timers, tracker.
* C35, C36: GCRA over N; window bound by induction on the admitted attempts.
  Changes of the limit that overlap (`ResetModel.v`): the two fields may come from two requests; the window bound for the rate stored last holds with either time.
  A change while attempts are under way (`BusyProps.v`): callers that have read the old rate form a set that only shrinks; each of them adds at most one launch to the bound.
  C36, repeated attempts (`AgainProps.v`): only an admission or the end of a change alters the stored time, so a compare-and-exchange fails for no other reason.
* C37: fold of cancel calls equals a join. C38, C39: interleaving model of waiter and setter steps.
* C40, C41, C42, C43: pure functions over lists and byte strings; `shell_words::split` is modelled too.
* C44: the local loop as a step machine, all orders of child exit and cancellation; it is shown to be a
  client of the scheduler model.
* C45: concrete varint/zigzag/string codec as postcard specifies; LZ4 as an abstract pair with
  `decompress (compress b) = b`.
* C46: lock file as inode table; open and drop as single system calls of any number of processes.
* C47: the recorded number and run count of the last attempt, resolved in the newest header; exact condition for the place being right (refuted in general: roots may change).
* C48: per-process signalling record over arbitrary process-tree evolutions.
* C49: twice: over Coq's reals (the formula), and with the rounding to f64 after each operation (Flocq's `round`): bounds
  on the distance from the formula, by tracking a relative and an absolute error through the updates.
* C51: sessions: a hand-out in any session is preceded by a success record of every declared dependency.
* C52: the loop of the remote runner as a step machine whose inputs (responses, exit of the child, signals,
  times) are arbitrary.
* C53: the server and the scheduler side by side: each call of `recv` by a handler is a client of the scheduler, each
  report of the server a message of that client. An invariant relates the tasks the server holds to those clients.
* C54: the limiter in front of the queues; the clients that passed and wait for a task are the potential that relates
  tasks handed out to passages of the limiter.
* C55: text functions for joining paths and replacing $KEY, specified by decompositions; the newest header of every history.
* C56: the loops of C44 as threads of the scheduler model, with their pending calls, processes and the shared token
  (`PoolModel.v`). An invariant pairs each loop with its client and its process; the trace of processes is then counted.
* C57: for calls with local runners only: the progress lemma of C07 is carried over to the loops, and a potential (six times
  that of C07 plus a weight for each loop) bounds every schedule.
* C58: system calls of the runner, the process and those it starts, on pipes of any capacity, in any order (`PipeModel.v`). The
  programs of the processes are arbitrary, possibly infinite trees of system calls. An invariant says where each byte of the input and
  of the output is; the end is shown by a measure. `from_utf8_lossy` is compared with a relation that cuts bytes into pieces.
* C59: threads that log messages, fragment by fragment, through the mutex to the console and a BufWriter (`SinkModel.v`). Each write may be
  short or fail. An invariant accounts for the bytes in the files and the buffer, another for the message of each thread.
* C60: processes of one user that bind sockets in one directory and clean it up, one system call at a time (`AdminModel.v`), with the
  regular expression as a function. Invariants on who owns which path and on what a cleaning call is about to remove.
* C61: the messages of each step of the scheduler (`LinesModel.v`) are compared with a relation from observations to messages, by induction
  on the run with the invariants of C03 and C10. The numbers are of type u32; the theorems suppose that the total fits.
* C62: the calls are added to the observations of C56 (`HookModel.v`). The number of preambles of a task is the number of times it was handed out
  plus its start reports less the calls a loop has yet to make; the invariants of C56 say who holds the task when a report is processed.
* C63: a machine for the parts of one call that run side by side (local loops, http server, reaper, connections, admin server, provisioner,
  execute() itself), `ServiceModel.v`. Invariants give the history of the provisioner from its phase, and which users of the tracker exist from the
  phases of their owners; a measure bounds the number of steps, and a cancelled call always has a next step. Base64 by induction over groups of three bytes.
* C64: runner, network and the server's timer on one clock in nanoseconds (`HeartModel.v`); bounds on the network are arguments. Invariants relate the
  last sign of life the server has (with the ticks since) to the last pong the runner has. Refutation by a schedule that goes on for any time.
* C65: both functions on the bytes of a file (`ToolModel.v`), on top of the models of text, log and snapshot. Every theorem about compaction is over the logs
  of all histories of sessions: the records of a key in the snapshot are a suffix of its records in the log that begins with a Ready, so the state is the same.
* C66: file, inotify events, the watcher's thread, its channel and the runner of `RemoteModel.v` as one step machine (`AlarmModel.v`); an invariant follows the
  first alarming reading to the report. Placeholders: sequential `str::replace` against a relation that fills all placeholders at once.
* C67: the processes of a Linux system with sessions, groups and dispositions as a step machine (`GroupModel.v`) whose actions are those of any process, and the begin and
  the end of a call. Invariants: a caller leads its group; processes started since are in it unless they leave; nobody else is unless they join.
* C68: the events of a history (`SessionModel.v`) with the messages of each call (`LinesModel.v`), counting from the number of tasks that are completed before the call
  selects its tasks. Proved by induction over the history: the completed tasks are tasks of the graph, and the call's own are not among them.
* C69: the queue of reports of the tracker model by induction over runs (`JointLive.v`); C30 carried over to the combined system of C53; that 255 turns of the
  reaper are possible from every quiet state, and that the tracker takes each of its messages.
* C70: the loops of runners (C52) put beside the combined system of C53, with the requests and answers that are on their way (`FleetModel.v`). An invariant carries
  over all of C53; two accounts (what has been given in answers against what is about to be, or has been, started; and against what is announced) and what each
  runner knows about its task, down to the output of its process, give the rest.
* C71: the account of C31 along the runs of C70. A runner asks for a task and reports its end under the same job, a handler serves one request, and a transaction is
  given once, so every step of the server is one of those that lose nothing (`FleetJobs.v`); C69 carries the report on to the scheduler.
* C72: the reports are read off the calls of clients in a run of the scheduler model, and the log is compared with a transcript function of the list of reports
  (`RecordSpec.v`) by induction over the run: the log is the transcript of a prefix, the queue is the rest, and the tasks in flight are those begun and not ended. For
  remote runners each step of the combined system (C53) is a run of the scheduler whose remote reports are the server's messages (`RecordJointProofs.v`). With C70 this reaches down to the processes: status and values in the log are those of
  the process that a runner started (`RecordFleetProps.v`). The same for local runners, along the runs of C56: what a loop reports was so when it reported it,
  and each process that was waited for has its line when the call is over (`PoolRecord.v`).
  A process killed by Ctrl-C is not waited for: its loop returns without a report, the task stays open in the sender side, and the final clean-up writes its line with status -1 (`RecordOpen.v`).
* C73: the scheduler model with the bytes of the log beside it: records go into a buffer, the buffer may pass any number of bytes to the file at any time, the
  ticker of the server's loop empties it (`FlushModel.v`). File and buffer together are always the text of the records; line ends are counted to see that the records
  in the file at a tick are among those read after any cut (C17). Such a death is one of the kills of the histories of sessions, so C20 gives the rest.
* C74: along the histories of sessions: `named` computes from the calls of add_task and their answers what task_keys has to be. Only add_task changes the keys;
  execute() replaces the nodes by others that differ in the priority.
* C75: any number of requests at once, each access to shared data one step (`ManageModel.v`). The trace also has the stores and loads; a load returns the newest store
  of its place, and a store lies between the arrival and the answer of its request. From this the claim about arrivals and answers follows.
* C76: the reader gets bytes that extend what the file held when it started and begin what it held when it stopped (`read_during`), over the buffer of C73. A cut
  gives the first so many records (C17), and such a beginning of the log is one that a kill leaves, so the split works (C27). A new invariant of histories says that
  what counts as done in a session has a record or a Backref in the session's part of the log; the exact split of C27 then keeps its records out of `outdated`.
* C77: over SessionModel.v. The scheduler part is `all_have_succeeded`: with no failure the limit is not reached, so the call can only end because nothing is left,
  and then every task of the subgraph has succeeded (C06). An invariant of the session says that what counts as done is a success in the log; what is selected is known
  from C20. With C20 (a success is final) nothing of it is run again.
* C78: in a log that a history can leave, a key is a success iff there is a Finished record of it with status 0 (`success_record`); such records of one call are
  its finish reports with status 0 (C10, C13). The rest is about which records each event adds to the file.
* C79: the records of one call for one key are a beginning of Ready, Started, Finished (C12), so a Finished record of the call is the key's last one. The Finished records
  of a call are its finish reports, in order; the count returned is that of those with another status than 0 (C10).
  A Started record is there only if the task is in flight or finished, and then a runner has taken it; by induction over the history each record has its cause.

## Trusted base

* Coq's kernel (coqc and coqchk 8.16.1), and the reading of the Rust code by which the model was written.
* The axioms that `Print Assumptions` prints below every theorem. All theorems are "Closed under the global
  context", with two exceptions:
  * the theorems of `RateProps.v` and `FloatProps.v` (C49; Flocq adds no axiom) use Coq's standard real numbers: `ClassicalDedekindReals.sig_not_dec`,
    `ClassicalDedekindReals.sig_forall_dec`, `FunctionalExtensionality.functional_extensionality_dep`, and, where
    printed, `Classical_Prop.classic`; some versions also print the opaque constants `Rdefinitions.RbaseSymbolsImpl.*`
    and `Rdefinitions.RinvImpl.*` of the standard library's module-sealed definition of R;
  * a checker that lists the whole context (`coqchk -o`) also prints seven entries
    `Coq.ssr.ssrunder.Under_rel.*`: opaque constants of the standard library's ssreflect, loaded by std++. No theorem
    depends on them.
* No axiom, parameter or unproved hypothesis is added. `Variable` and `Hypothesis` occur only inside sections.
* The contracts of external code named below.

### What is modelled

* `graphtheory.rs`: all functions used by the rest (transitive closure, levels, descendants at a distance) on
  petgraph's `Graph` as node vector and edge list. Not: the `fmt::Debug`/test code.
* `logfile2.rs`: all record types, `write`, `load_runcounts`, accessors, `LogFileSnapshotReader`, the byte text of every
  record, line reading, the lock file. Not: Windows paths, disk errors, the content of the lock file, the version upgrade
  paths that do not exist.
* `execgraph.rs`: `Cmd::display`, `add_task`, `get_subgraph`, `execute` (starting, joining, draining, results).
  When and with which arguments capsules are called. Not: what the C functions do, of calls that do not return 0 only what becomes of the log and of the end of execute() (`HookFail.v`), the bodies of provisioner scripts. `transmute_lifetime` appears as the uses of the
  tracker in `ServiceModel.v`.
* `pylib.rs`: constructor, `logfile_runcount`, `add_task`, `ntasks`, `get_task`, `task_keys`, `execute`, `load_logfile`, `write_logfile`. Not: the Python conversions (so not the errors of
  `write_logfile` for values that are not records, which are found before anything is written).
* `sync.rs`: `ReadyTrackerServer`, its loop with the flush ticker, drain, and `ReadyTrackerClient`; `get_queuestate`, the
  messages about tasks.
* `async_flag.rs`, `fancy_cancellation_token.rs`, `time/*.rs`, `simpleringbuffer.rs`: everything.
* `localrunner.rs`: the loop, its processes (spawned, waited for, killed), exit codes, values, the copying
  of the input and the output through pipes, its text. Process groups are in `GroupModel.v`; that the processes of tasks are forked by the caller there is not connected to the loop's own model.
* `server.rs`: the handlers for runners, authentication, the reaper, `/status`. Not: latency histograms, tracing, the
  status codes of hyper for malformed requests.
* `httpinterface.rs`, `http_extensions/*`: all messages and their encoding. Not: HTTP itself.
* `bin/execgraph-remote.rs`: the loop over tasks, deadline, signals, cleaning up, pings, the watcher of slurm's error file (for a file that is only appended
  to), placeholders, what goes from the process into the report. Not: the text of other error messages, timing statistics; the copying through the pipes is C58.
* `admin_server.rs`: its handlers and what they call (change of the rate limit and of the information for the provisioner, soft and hard shutdown), the path of the socket and its removal, and the
  cleaning up of the directory. Not: the protocol on the socket, the choice of /scratch as directory.
* `logging.rs`: all of it, except for the filtering and formatting by tracing.
* Not modelled at all: `build.rs`, the Python tests.

### Contracts of external code that are trusted

* petgraph `Graph`: node indices are positions; neighbours are listed as in `GraphModel.v`. That `toposort` returns a topological order of a DAG, and an error
  otherwise, is a contract for the theorems; `DfsProps.v` proves it of a model of petgraph's function (`DfsModel.v`, written from knowledge of its source,
  which is not in the sandbox).
* async-priority-channel: `recv` returns an element of greatest priority, each sent element once; closes when the last
  sender is dropped. async-channel, tokio `oneshot`: FIFO, no loss. DashMap, atomics: each operation is atomic and
  sequentially consistent.
* event-listener: `listen` before `notify` is woken.
* tokio: spawned tasks run concurrently with any interleaving at their await points; `select!` may take any ready branch.
* serde_json and postcard: modelled as byte printers and parsers following their sources; LZ4 as an inverse pair.
* Linux: flock, unlink, waitpid, kill, setpgid, setsid, killpg, signals at fork and exec as documented. tokio `signal`: a handler stays installed for the life of
  the process; dropping the stream does not bring the default back.
* hyper: `with_graceful_shutdown` ends when all connections are closed; `AddrIncoming` retries after an error of accept, an acceptor made
  from a stream passes it on. tokio `kill_on_drop`: dropping a child that was not waited for sends SIGKILL. base64 STANDARD as in RFC 4648.
* `f64`: IEEE 754 binary64, round to nearest even; `f64::exp` meets `good_exp` of `FloatSpec.v`.

## Findings

Each of these is a theorem with suffix `_refuted` (a computed witness in the model), unless it says "not proved".

* C07 `soft_shutdown_ends_refuted`: a soft shutdown requested while no task is handed out never ends execute().
  `unserved_task_ends_refuted`: a task whose affinity no runner serves (for instance 0) hangs execute().
  `lost_task_ends_refuted`: a local runner that dies with a task (see C44) hangs execute().
* C09 `num_ready_exact_after_soft_shutdown_refuted`: after a soft shutdown the counter of ready tasks can wrap below zero.
  `num_ready_zero_after_failures_refuted`: when too many tasks fail the counter is not reset; the status shows ready tasks
  although none will be handed out.
* C17 `torn_log_always_opens_refuted`: a torn last line makes the log unopenable.
  `lost_newline_detected_refuted`: when only the last newline is lost the next session writes to the same line; the log is
  unopenable one session later, and the snapshot reader silently drops records.
* C19 `run_counts_increase_refuted`: after an interrupted execute() a second execute() of the same process reuses a run count.
* C27 `snapshot_of_accepted_log_can_panic_refuted`: the snapshot reader panics on logs that the loader accepts (logs that
  this program does not write). `current_holds_reused_attempt_refuted`: "current" can hold two attempts of one task.
* C29 `stale_id_refuted`: the id of a fired timer, used a turn of the wheel later, cancels somebody else's timer.
  `due_boundaries_refuted`: durations of less than a slot, and of the whole wheel, fire after 256 ticks.
* C30 `silent_runner_always_detected_refuted`: an `/end` handler that pauses between removing its transaction and cancelling
  its timer can cancel another runner's timer; that runner's silence is not noticed.
* C31 `every_task_reported_other_job_refuted`: an `/end` with the slurm job id of another job loses the task.
  `every_task_reported_same_id_refuted`: two equal random transaction ids lose a task. `reaper_never_panics_refuted`: an
  `/end` between the two map accesses of the reaper makes it panic; silent runners are not detected any more.
* C33 `marked_job_gets_no_task_refuted`, `marked_job_gets_no_task_after_end_refuted`: a job that was told to stop can still
  be given a task by a `/start` that was already waiting, or in the reply to an `/end`.
* C35 `one_request_wins_refuted`: two requests to set the limit that overlap can leave the rate of one with the time of the other; a request for no limit and one for 2 per second together admit two launches at the instant of the change.
* C35 `no_launch_at_start_refuted`, `no_burst_after_change_refuted`: bursts for limits above 31622 per second and between the
  two stores of a change. C36 `reported_limit_refuted`, `waiting_time_first_second_refuted`.
* C37 `cancels_combine_refuted`, `earliest_time_refuted`: overlapping `cancel` calls can undo a hard cancellation.
* C42 `statuses_distinct_refuted`: different kinds of failure share a number.
* C44 `local_loop_always_reports_refuted`: a child that closes its input early makes the runner panic (EPIPE); its task is never
  reported.
* C45 `every_request_survives_refuted`: a request of more than 2 MiB (long stdout) is refused by the server's default limit.
* C46 `one_session_refuted`, `session_reads_all_refuted`: the lock file is removed before the last flush and before the unlock;
  two sessions can be open at once, and records can be missed and overwritten.
* C47 `recorded_location_refuted`, `add_task_can_panic_refuted`: the storage root is looked up in the newest header.
* C48 `deadline_signals_once_refuted`: SIGTERM at the deadline is repeated in a busy loop.
  `sigkill_after_sigterm_refuted`: a reused pid is killed without SIGTERM.
* C51 `dependencies_have_succeeded_refuted`: a second execute() of one process runs tasks whose dependency failed in the first.
* C54 `handouts_spread_out_refuted`: the limit is taken before waiting for a task, so clients that wait get their tasks in
  one burst as soon as there are some.
* C75 `own_post_shown_refuted`: the answer to a POST may show what another administrator posted meanwhile. `asked_shutdown_refuted`: a shutdown whose message
  cannot be printed (stderr closed, time zone unknown) is not carried out, the handler panics before.
* C76 `live_outdated_before_tick_refuted`: when execute() has begun and the buffer has passed on the header of the session but not yet the Backrefs, results that the
  call is about to use are listed as outdated. `outdated_outside_target_refuted`: execute(target) writes Backrefs only for what the target depends on, so the other
  results of the session's tasks are listed as outdated until a later execute() refers to them. A clean-up by the outdated list deletes them in both cases.
* C77 `workflow_completed_when_stopped_refuted`: an execute() that is told to stop before it has handed out anything returns (0, []), as if all was done.
  `workflow_completed_without_rerun_refuted`: without rerun_failures a task that the log knows as failed is left out with all that depends on it, and the call reports
  0 failures; only the missing keys tell.
* C78 `success_counts_killed_refuted`: a process that is killed takes with it the successes since the last flush; their tasks are run again (C73 bounds how many).
* Not proved, seen while reading: `From<ChildProcessError>` for io errors recurses without end; bytes after a postcard message are
  ignored; a remote command that cannot be spawned is logged with status 13; `key == ""` is documented as never skipped but is deduplicated;
  `failures_allowed` counts only failures within 5 seconds; a duplicate `/begun` makes execute() panic (`second_begun_panics`, `duo_second_begun`); a `/status` request delays the end of
  execute() by up to its own `timeout_ms`.
* C55 `locations_distinct_refuted`, `location_in_root_refuted`: a key with slashes can share the location of another task or lie outside the storage roots.
* C56 `num_parallel_limits_all_processes_refuted`: the console loop comes on top of num_parallel.
* C72 `started_line_complete_refuted`: a report of a beginning that is read only in the final clean-up is recorded with host "host", process 0 and no job, whatever
  was reported.
* C73 `processed_success_is_final_refuted`: what was written since the last tick of the flush ticker (100 ms, and it competes with the other branches of the
  `select!`) is lost with the process: a task whose success was processed, and whose dependents were made ready, is run again by the next session.
* C57 `local_call_ends_after_input_failure_refuted`: a child that exits without reading its whole input hangs execute().
  `local_call_ends_after_setup_failure_refuted`: so does a task whose fd_input uses descriptor 3, or running out of descriptors.
* C58 `exchange_always_ends_refuted`: fd_input is written before the output is read: a child that writes more than a pipe holds before
  it reads an input larger than a pipe waits for the runner, and the runner for it, forever.
  `report_follows_exit_refuted`: a task is not reported as long as a background process it has started keeps its stdout open.
  `unread_input_is_harmless_refuted`: whether a child that ignores its input succeeds or makes the runner panic is a race.
* C59 `console_complete_refuted`, `console_not_repeated_refuted`: a short write to the console is not noticed, and one to the file repeats
  bytes on the console. `message_contiguous_refuted`: lines of different threads can be mixed.
  `graph_keeps_its_file_refuted`: constructing a second graph redirects the messages of the first to the log.txt of the second.
  `logging_turned_off_refuted`: init_logging(None) does not turn the file off, contrary to its comment.
  `message_without_file_refuted`: without a file every message fails with WriteZero.
  `failed_constructor_harmless_refuted`: if log.txt of a graph cannot be opened, its constructor panics with the mutex held, and from then
  on every message of every graph panics.
* C60 `other_sockets_kept_refuted`: the pattern for left over sockets is not anchored: my-wrk-7.socket of another program is removed.
  `reused_number_refuted`: a process number used again between check and removal costs a running process its socket, and its server panics.
  `two_calls_refuted`: two execute() calls in threads of one process share one path; the second to end panics.
  `cleaning_goes_on_refuted`: a number that does not fit usize (or has non-ASCII digits) panics the cleaning up; the rest stays.
* C61 `every_failure_shown_refuted`, `every_output_shown_refuted`: after a soft shutdown has begun no failure and no output of a task is
  printed, although tasks still run.
* C62 `preamble_once_refuted`: `send_started` calls the preamble a second time, when the process is already running (pylib.rs:230-234 says
  immediately before). `postamble_always_refuted`: a task whose start was not reported when the call ends gets no postamble. Not proved, seen
  while reading: the documentation tells neither the name `Execgraph::Capsule-v3` nor the arguments; `signaled_or_lost` is always 0; `ntasks` is
  the number of tasks of this call, not of the graph; a postamble that fails panics execute() while its threads still use the tracker.
  Proved: a preamble that fails loses its task, and without a shutdown the call never comes to its end (`failing_preamble_blocks_end`);
  a postamble that fails leaves no trace in the log of the end of its task, which will run again although it succeeded
  (`failing_postamble_forgets`).
* C63 `provisioner_cleans_up_refuted`: after the SIGINT to the provisioner its child object is dropped at once, and `kill_on_drop(true)` sends
  SIGKILL (execgraph.rs:428, 434): a provisioner cannot use SIGINT to clean up. `no_use_after_free_serve_refuted`: an error of `background_serve`, as when
  the log cannot be written, panics execute(), which drops tracker and graph while other threads hold references made by transmute.
  `no_use_after_free_admin_refuted`: an error of accept() of the admin server ends it without its connections; a long poll of
  `/status` then uses the dropped tracker after the call. `call_without_server_ends_refuted`: if the http server cannot be bound the call waits until Ctrl-C.
  Not proved, seen while modelling: the address given to the provisioner names the host 0.0.0.0, which only works on the same host.
* C64 `disconnected_runner_has_stopped_refuted`: the server answers OK to pings of transactions it has given up (server.rs:252-255), so a runner whose
  messages were late once goes on with a task that was reported as disconnected, for as long as it takes, and learns of it from `/end` only. With answers
  that take less than 4.73 seconds to come back this cannot happen (`disconnected_runner_has_stopped`).
* C65 `written_log_opens_refuted`: `LogFile::write` does not compare headers ("TODO: check for consistency", logfile2.rs:216), so `write_logfile`
  can add a header of another workflow to a log without an error, after which nothing opens the log. Compaction forgets the run counts of outdated keys: a key
  that comes back later starts at run count 0 again (part of `compacted_log`).
* C66 `no_false_alarm_refuted`: if slurm's error file ends in the middle of a character at the time of an event, "Unable to read slurm error file" is taken for
  a slurm error and the task is killed. `alarm_raised_refuted`: an error that was in the file before the watcher was installed is not noticed.
  `last_line_reported_refuted`: the report holds the file as of the first reading with one of the words, so it can lack the line with the reason, which
  the comment at 691-696 wants to wait for (FAILED and ERROR also count). `disconnect_message_filled_refuted`: with a percent sign before a placeholder (`%%u`), or in a value,
  text of a value is replaced as a placeholder.
* C67 `others_spared_refuted`: in `python script.py | tee log` under a shell with job control, tee is in the group that execute() sends SIGTERM to and ends with it, so
  what the script prints afterwards raises SIGPIPE. `own_helper_spared_refuted`: a helper that the script starts itself between two calls is ended by the second.
  `ctrl_c_reaches_caller_refuted`: in `gen | python script.py` execute() takes python out of the foreground group, and Ctrl-C does not reach it.
  `sigterm_ends_caller_refuted`: the handler installed at the end stays, so that after one call the script cannot be ended by SIGTERM any more ("Block SIGTERM for a
  moment", sync.rs:244). `daemons_terminated_refuted`: a task's process with a session of its own outlives the call. Not proved: `PyRuntimeError::new_err("Cannot setpgid")` at pylib.rs:341
  makes an error and drops it.
* C68 `session_progress_grows_refuted`: a task whose success is seen only in the final clean-up of an interrupted call is printed as 1/2, but is not counted as completed.
  The next call of the session starts at 1 again. `reused_tasks_counted_refuted`: tasks that a call reuses from the log are not in its total, only in that of later calls:
  execute() counts before it selects (execgraph.rs:260).
