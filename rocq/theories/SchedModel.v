(** Model of /repo/src/sync.rs: the ready tracker (server side and client side), as a
    transition system. One action = one atomic step of one thread; an execution is a list
    of actions, in any order (any schedule).

    What one server step covers. The server's private data (statuses, counters, in-flight
    table, log) is updated in one step when an event is taken from the channel; the effects
    on data shared with the clients (queues, counters in the queue state, flags, the etag
    counter, dropping the senders) are queued as instructions in [st_todo] and executed one
    by one, in the order of the source, interleaved with client steps. *)
From Verif Require Export ExecModel.

(** sync.rs:42 *)
Definition NUM_RUNNER_TYPES : nat := 64.
(** constants.rs FIZZLED_TIME_CUTOFF, 5 s in nanoseconds *)
Definition FIZZLED_TIME_CUTOFF : N := 5000000000.
(** 2^32: the counters at sync.rs:46-47, 59-60, 66-69 and 81 are u32. *)
Definition U32 : N := 4294967296.

(** sync.rs:780-784 ExitStatus *)
Inductive exit_status := Code (c : Z) | Cancelled | Disconnected.

(** sync.rs:787-793 as_i32 *)
Definition as_i32 (s : exit_status) : Z :=
  match s with Code c => c | Cancelled => -10 | Disconnected => -1 end.

(** sync.rs:794-796 is_success *)
Definition is_success (s : exit_status) : bool :=
  match s with Code c => Z.eqb c 0 | _ => false end.

(** sync.rs:717-738, 774-777 Event. Omitted: stdout and stderr, which are only printed.
    [flag] names the AsyncFlag. *)
Inductive event :=
| EvStarted (id : nat) (host : string) (pid : N) (slurm_jobid : string)
| EvFinished (id : nat) (status : exit_status) (values : list (gmap string string))
    (flag : option nat).

(** sync.rs:51-55 TaskItem, with its priority. [i_flag] names the AtomicBool [taken]. *)
Record item := Item { i_id : nat; i_flag : nat; i_affinity : N; i_priority : N }.

(** sync.rs:98-101 TaskStatus *)
Record task_status := TaskStatus { n_unmet_deps : nat; poisoned : bool }.

(** Steps of the server that others can see. *)
Inductive instr :=
| ISetUnready (n : N)        (* line 256 *)
| ISubUnready (n : nat)      (* line 522 *)
| IDecInflight (n : nat) (aff : N) (* lines 426-430, for task n *)
| IIncReady (n : nat) (aff : N)    (* lines 534-540, for task n *)
| IPush (i : nat) (it : item)(* line 562, one item of the batch *)
| IIncrCounter               (* line 568 *)
| ISetFlag (n f : nat)       (* line 396, for task n *)
| ICancelToken (now : N)     (* line 337 *)
| IClose (i : nat)           (* self.ready = None: drop of the i-th sender *)
| IZeroReady (aff : N)       (* lines 361-363 and 384-386, one entry *)
| IUnsetSoft                 (* line 365 *)
| IBreak.                    (* end of the loop *)

(** sync.rs:57-83 ReadyTrackerServer: private data. *)
Record server := Server {
  sv_finished_order : list nat;
  sv_n_failed : N;
  sv_n_fizzled : N;
  sv_n_success : N;
  sv_n_roi : N;                     (* n_ready_or_inflight *)
  sv_inflight : gmap nat N;
  sv_statuses : list task_status;
  sv_soft : bool;                   (* shutdown_state = SoftShutdown *)
  sv_open : bool;                   (* ready is Some *)
  sv_log : log_file;
  sv_next_flag : nat;
  sv_recent : list N                (* recently_inflight_elapsed_time, all pushes *)
}.

(** A client thread: a local loop, or an HTTP request and the transaction it opened. *)
Inductive cstate :=
| CIdle
| CWait                     (* in recv, line 632 *)
| CPopped (it : item)       (* got an item, before fetch_or, line 633 *)
| CClaimed (it : item)      (* fetch_or returned false, before line 634 *)
| CHolding (n : nat)        (* recv returned Ok(n) *)
| CRunning (n : nat)        (* send_started was called *)
| CGone                     (* ended *)
| CDropped (n : nat) (started : bool). (* ended while it had the task *)

Inductive phase := PInit | PLoop | PExited | PDrained | PPanicked.

(** sync.rs:57-96: what the server and its clients share (queues and their closing 64 and 89, the taken flags 54, queuestate 73,
    the counters 70 and 81, the trigger 77, the channel of events 65 and 88), the cancellation token, the clients, and the server
    with what it has yet to do. *)
Record st := St {
  st_queues : list (list item);
  st_closed : list bool;
  st_taken : gset nat;
  st_qstate : gmap N (N * N);       (* num_ready, num_inflight *)
  st_unready : N;
  st_counter : N;
  st_flags : gset nat;
  st_soft_trigger : bool;
  st_hard : bool;
  st_events : list event;
  st_clients : list cstate;
  st_sv : server;
  st_todo : list instr;
  st_phase : phase
}.

(** Parameters of a run. [cf_types]: the runner type of each client thread (threads are
    created by requests; any finite number). [cf_clock]: the time stamps of log records.
    sync.rs:104-110 (the arguments of new_ready_tracker; count_offset and the rate limit are in other models). *)
Record config := Config {
  cf_g : digraph cmd;
  cf_allowed : N;                   (* fizzles_allowed *)
  cf_types : list nat;
  cf_clock : nat -> systime;
  cf_log : log_file                 (* the log at the beginning *)
}.

(** The ways out of the loop: sync.rs:342-351 (done, or a soft shutdown with nothing in flight), 367-371, 372-376. That all
    senders are gone (288-291) cannot happen: the clients are kept until the end of the call. *)
Inductive exit_cause := ExitDone | ExitSoft | ExitHard | ExitCtrlC.
(** sync.rs:332-340 and 355-366. *)
Inductive soft_cause := SoftFailures | SoftTrigger.
(** sync.rs:810-830 ReadyTrackerClientError (ChannelTryRecvError is never made). *)
Inductive recv_error := NoSuchRunnerType | SoftShutdown | ChannelRecvError.

(** Observations.
    They model no data of the code: each names a place in it (OReady 512-571, OHandedOut 638, ORecvErr 619 and 623, OSentStarted 644-665, OSentFinished 668-673, OStarted and OFinished 287-352, the drain 183-252, OSoft 332-340 and 355-366, OFlag 396). *)
Inductive obs :=
| OReady (n : nat)                            (* made ready, Ready record written *)
| OPushed (i n : nat)                         (* put into ready queue i *)
| OHandedOut (c i n : nat)                    (* recv(i) returned Ok(n) to thread c *)
| ORecvErr (c : nat) (e : recv_error)
| OSentStarted (c n : nat)                    (* send_started was called *)
| OSentFinished (c n : nat) (s : exit_status) (flag : option nat) (* send_finished was called *)
| OStarted (n : nat)                          (* start report processed *)
| OFinished (n : nat) (s : exit_status) (elapsed : option N) (* finish report processed *)
| ODrainStarted (n : nat)                     (* the same, during drain *)
| ODrainFinished (n : nat) (s : exit_status)
| OSoft (c : soft_cause)                      (* soft shutdown begins *)
| OCancelToken (now : N)
| OFlag (n f : nat)                           (* the AsyncFlag of task n's finish report is set *)
| OExit (c : exit_cause)
| OPanic.

Section model.
Variable cfg : config.
Notation g := (cf_g cfg).

(** ** Server, private part *)

(** Line 125-136: the initial statuses. *)
Definition initial_statuses : list task_status :=
  map (fun i => TaskStatus (length (in_neighbors g i)) false) (seq 0 (node_count g)).

(** The time stamp of the next record. logfile2.rs:78-123, SystemTime::now(). *)
Definition stamp (l : log_file) : systime := cf_clock cfg (length (lf_entries l)).

(** sync.rs:528-533: LogEntry::new_ready is written. *)
Definition write_ready (l : log_file) (c : cmd) : option log_file :=
  log_write l (Ready (ReadyEntry (stamp l) (c_key c) (c_runcount c) (display c) (c_storage_root c))).
(** sync.rs:295-300, 190-195, 212-217: LogEntry::new_started is written. *)
Definition write_started (l : log_file) (c : cmd) (host : string) (pid : N) (slurm : string)
    : option log_file :=
  log_write l (Started (StartedEntry (stamp l) (c_key c) host pid slurm)).
(** sync.rs:326-330, 219-223, 237-241: LogEntry::new_finished is written. *)
Definition write_finished (l : log_file) (c : cmd) (s : exit_status)
    (values : list (gmap string string)) : option log_file :=
  log_write l (Finished (FinishedEntry (stamp l) (c_key c) (as_i32 s) values)).

(** Lines 525-554, private part: write the Ready records; also collect the items. *)
Fixpoint ready_records (ready : list nat) (l : log_file) (flag : nat)
    : option (log_file * list item) :=
  match ready with
  | [] => Some (l, [])
  | n :: rest =>
      match nodes g !! n with
      | None => None
      | Some c =>
          match write_ready l c with
          | None => None
          | Some l =>
              match ready_records rest l (S flag) with
              | None => None
              | Some (l, items) => Some (l, Item n flag (c_affinity c) (c_priority c) :: items)
              end
          end
      end
  end.

(** Lines 544-553 and 560-566: the pushes, queue by queue. [iter_ones] gives the bits of the
    mask. *)
Definition pushes (items : list item) : list instr :=
  concat (map (fun i =>
    map (IPush i) (List.filter (fun it => N.testbit (i_affinity it) (N.of_nat i)) items))
    (seq 0 NUM_RUNNER_TYPES)).

(** sync.rs:512-571 add_to_ready_queue. [None] is a panic. *)
Definition add_to_ready_queue (sv : server) (ready : list nat)
    : option (server * list instr * list obs) :=
  match ready with
  | [] => Some (sv, [], [])
  | _ =>
      let roi := (sv_n_roi sv + N.of_nat (length ready))%N in
      if N.leb U32 roi then None
      else
        match ready_records ready (sv_log sv) (sv_next_flag sv) with
        | None => None
        | Some (l, items) =>
            if sv_open sv then
              Some (Server (sv_finished_order sv) (sv_n_failed sv) (sv_n_fizzled sv)
                      (sv_n_success sv) roi (sv_inflight sv) (sv_statuses sv) (sv_soft sv)
                      (sv_open sv) l (sv_next_flag sv + length ready) (sv_recent sv),
                    ISubUnready (length ready) :: map (fun it => IIncReady (i_id it) (i_affinity it)) items
                      ++ pushes items ++ [IIncrCounter],
                    map OReady ready)
            else None
        end
  end.

(** Lines 487-507: visit the outgoing edges. [None]: missing key or underflow (panics). *)
Fixpoint visit_downstream (ok : bool) (targets : list nat) (ss : list task_status)
    : option (list task_status * list nat) :=
  match targets with
  | [] => Some (ss, [])
  | d :: rest =>
      match ss !! d with
      | None => None
      | Some status =>
          if ok then
            if poisoned status then visit_downstream ok rest ss
            else
              match n_unmet_deps status with
              | O => None
              | S k =>
                  match visit_downstream ok rest (<[d := TaskStatus k (poisoned status)]> ss) with
                  | None => None
                  | Some (ss', ready) => Some (ss', if Nat.eqb k 0 then d :: ready else ready)
                  end
              end
          else visit_downstream ok rest (<[d := TaskStatus (n_unmet_deps status) true]> ss)
      end
  end.

(** Changes one field (sync.rs:75 statuses). *)
Definition with_statuses (sv : server) (ss : list task_status) : server :=
  Server (sv_finished_order sv) (sv_n_failed sv) (sv_n_fizzled sv) (sv_n_success sv)
    (sv_n_roi sv) (sv_inflight sv) ss (sv_soft sv) (sv_open sv) (sv_log sv)
    (sv_next_flag sv) (sv_recent sv).

(** sync.rs:472-510 _finished_bookkeeping_2 *)
Definition finished_bookkeeping_2 (sv : server) (id : nat) (s : exit_status)
    : option (server * list instr * list obs) :=
  if sv_soft sv then (if sv_open sv then None else Some (sv, [], []))
  else
    match visit_downstream (is_success s) (out_neighbors g id) (sv_statuses sv) with
    | None => None
    | Some (ss, ready) => add_to_ready_queue (with_statuses sv ss) ready
    end.

(** Line 415: elapsed time since the start report; Instant subtraction saturates. *)
Definition elapsed_of (sv : server) (id : nat) (now : N) : option N :=
  option_map (fun started => (now - started)%N) (sv_inflight sv !! id).

(** sync.rs:415 and 443: a failure within FIZZLED_TIME_CUTOFF of the start. *)
Definition is_fizzle (s : exit_status) (elapsed : option N) : bool :=
  negb (is_success s) &&
  match elapsed with Some e => N.ltb e FIZZLED_TIME_CUTOFF | None => false end.

(** sync.rs:401-470 _finished_bookkeeping_1, private part (the console output and the
    postamble are omitted). *)
Definition finished_bookkeeping_1 (sv : server) (id : nat) (s : exit_status) (now : N) : server :=
  let elapsed := elapsed_of sv id now in
  Server (sv_finished_order sv)
    (if is_success s then sv_n_failed sv else sv_n_failed sv + 1)%N
    (if is_fizzle s elapsed then sv_n_fizzled sv + 1 else sv_n_fizzled sv)%N
    (if is_success s then sv_n_success sv + 1 else sv_n_success sv)%N
    (N.pred (sv_n_roi sv)) (* saturating_sub(1) *)
    (sv_inflight sv) (sv_statuses sv) (sv_soft sv) (sv_open sv) (sv_log sv) (sv_next_flag sv)
    (match elapsed with
     | Some e => if is_success s then sv_recent sv ++ [e] else sv_recent sv
     | None => sv_recent sv
     end).

(** sync.rs:309: finished_order.push. *)
Definition with_finished (sv : server) (id : nat) : server :=
  Server (sv_finished_order sv ++ [id]) (sv_n_failed sv) (sv_n_fizzled sv) (sv_n_success sv)
    (sv_n_roi sv) (sv_inflight sv) (sv_statuses sv) (sv_soft sv) (sv_open sv) (sv_log sv)
    (sv_next_flag sv) (sv_recent sv).

(** Changes two fields (sync.rs:63 logfile, 74 inflight). *)
Definition with_log_inflight (sv : server) (l : log_file) (inf : gmap nat N) : server :=
  Server (sv_finished_order sv) (sv_n_failed sv) (sv_n_fizzled sv) (sv_n_success sv)
    (sv_n_roi sv) inf (sv_statuses sv) (sv_soft sv) (sv_open sv) l
    (sv_next_flag sv) (sv_recent sv).

(** sync.rs:338-339, 357 and 364, 369, 374: ready = None and the shutdown state. *)
Definition with_closed (sv : server) (soft : bool) : server :=
  Server (sv_finished_order sv) (sv_n_failed sv) (sv_n_fizzled sv) (sv_n_success sv)
    (sv_n_roi sv) (sv_inflight sv) (sv_statuses sv) soft false (sv_log sv)
    (sv_next_flag sv) (sv_recent sv).

(** self.ready = None: the senders are dropped one after the other. sync.rs:338, 347, 357, 369, 374. *)
Definition close_all : list instr := map IClose (seq 0 NUM_RUNNER_TYPES).

(** Setting num_ready to 0 in each entry of the queue state, in some order; entries exist
    only for the masks of the graph. *)
Definition zero_all : list instr := map (fun c => IZeroReady (c_affinity c)) (nodes g).

(** Lines 312-330: remove from the in-flight table; write the (fake) Started record if it
    was not there; write the Finished record. *)
Definition log_finish (l : log_file) (inf : gmap nat N) (id : nat) (c : cmd) (s : exit_status)
    (values : list (gmap string string)) : option log_file :=
  match inf !! id with
  | Some _ => write_finished l c s values
  | None =>
      match write_started l c "" 0 "" with
      | None => None
      | Some l => write_finished l c s values
      end
  end.

(** sync.rs:293-302, a start report in the loop. *)
Definition handle_started (sv : server) (id : nat) (host : string) (pid : N) (slurm : string)
    (now : N) : option (server * list instr * list obs) :=
  match nodes g !! id with
  | None => None
  | Some c =>
      match write_started (sv_log sv) c host pid slurm with
      | None => None
      | Some l =>
          match sv_inflight sv !! id with
          | Some _ => None (* assertion, line 301 *)
          | None => Some (with_log_inflight sv l (<[id := now]> (sv_inflight sv)), [], [OStarted id])
          end
      end
  end.

(** sync.rs:303-352, a finish report in the loop. *)
Definition handle_finished (sv : server) (id : nat) (s : exit_status)
    (values : list (gmap string string)) (flag : option nat) (now : N)
    : option (server * list instr * list obs) :=
  match nodes g !! id with
  | None => None
  | Some c =>
      let elapsed := elapsed_of sv id now in
      let sv1 := finished_bookkeeping_1 (with_finished sv id) id s now in
      match finished_bookkeeping_2 sv1 id s with
      | None => None
      | Some (sv2, is2, os2) =>
          match log_finish (sv_log sv2) (sv_inflight sv2) id c s values with
          | None => None
          | Some l =>
              let sv3 := with_log_inflight sv2 l (delete id (sv_inflight sv2)) in
              let over := N.leb (cf_allowed cfg) (sv_n_fizzled sv3) in
              let sv4 := if over then with_closed sv3 true else sv3 in
              let is4 := if over then ICancelToken now :: close_all else [] in
              let os4 := if over then [OSoft SoftFailures] else [] in
              let done := N.eqb (sv_n_roi sv4) 0 in
              let stop := done || (sv_soft sv4 && bool_decide (sv_inflight sv4 = ∅)) in
              let sv5 := if stop then with_closed sv4 (sv_soft sv4) else sv4 in
              let is5 := if stop then close_all ++ IBreak :: zero_all else [] in
              let os5 := if stop then [OExit (if done then ExitDone else ExitSoft)] else [] in
              Some (sv5,
                    IDecInflight id (c_affinity c) :: is2
                      ++ (match flag with Some f => [ISetFlag id f] | None => [] end) ++ is4 ++ is5,
                    OFinished id s elapsed :: os2 ++ os4 ++ os5)
          end
      end
  end.

(** ** Drain, sync.rs:183-252 *)

Definition dec_inflight (q : gmap N (N * N)) (aff : N) : option (gmap N (N * N)) :=
  match q !! aff with
  | None => None                 (* "No such queue" *)
  | Some (r, i) => if N.eqb i 0 then None (* "Underflow" *) else Some (<[aff := (r, i - 1)%N]> q)
  end.

(** Lines 186-229. [inf] is the local copy of the in-flight table. *)
Fixpoint drain_events (evs : list event) (sv : server) (q : gmap N (N * N)) (inf : gmap nat N)
    (now : N) : option (server * gmap N (N * N) * gmap nat N * list obs) :=
  match evs with
  | [] => Some (sv, q, inf, [])
  | EvStarted id _ _ _ :: rest =>
      match nodes g !! id with
      | None => None
      | Some c =>
          match write_started (sv_log sv) c "host" 0 "" with
          | None => None
          | Some l =>
              match inf !! id with
              | Some _ => None   (* assertion, line 196 *)
              | None =>
                  match drain_events rest (with_log_inflight sv l (sv_inflight sv)) q
                          (<[id := now]> inf) now with
                  | None => None
                  | Some (sv, q, inf, os) => Some (sv, q, inf, ODrainStarted id :: os)
                  end
              end
          end
      end
  | EvFinished id s values _ :: rest =>
      match nodes g !! id with
      | None => None
      | Some c =>
          let sv1 := finished_bookkeeping_1 sv id s now in
          match dec_inflight q (c_affinity c) with
          | None => None
          | Some q =>
              match log_finish (sv_log sv1) inf id c s values with
              | None => None
              | Some l =>
                  match drain_events rest (with_log_inflight sv1 l (sv_inflight sv1)) q
                          (delete id inf) now with
                  | None => None
                  | Some (sv, q, inf, os) => Some (sv, q, inf, ODrainFinished id s :: os)
                  end
              end
          end
      end
  end.

(** Lines 231-242: tasks still in flight are recorded as disconnected, in the iteration
    order of the hash map. *)
Fixpoint drain_inflight (order : list nat) (sv : server) (q : gmap N (N * N)) (now : N)
    : option (server * gmap N (N * N) * list obs) :=
  match order with
  | [] => Some (sv, q, [])
  | id :: rest =>
      match nodes g !! id with
      | None => None
      | Some c =>
          let sv1 := finished_bookkeeping_1 sv id Disconnected now in
          match dec_inflight q (c_affinity c) with
          | None => None
          | Some q =>
              match write_finished (sv_log sv1) c Disconnected [] with
              | None => None
              | Some l =>
                  match drain_inflight rest (with_log_inflight sv1 l (sv_inflight sv1)) q now with
                  | None => None
                  | Some (sv, q, os) => Some (sv, q, ODrainFinished id Disconnected :: os)
                  end
              end
          end
      end
  end.

(** [order] lists exactly the elements of [l] (any order).
    It models no code: the iteration orders of the hash maps at sync.rs:233 and 260-263. *)
Definition is_reordering (order l : list nat) : bool :=
  bool_decide (NoDup order) && Nat.eqb (length order) (length l) &&
  forallb (fun x => existsb (Nat.eqb x) l) order.

(** sync.rs:183-252 without the SIGTERM (243-249, in GroupModel.v). *)
Definition drain (sv : server) (q : gmap N (N * N)) (evs : list event) (order : list nat) (now : N)
    : option (server * gmap N (N * N) * list obs) :=
  match drain_events evs sv q (sv_inflight sv) now with
  | None => None
  | Some (sv, q, inf, os) =>
      if is_reordering order (map fst (map_to_list inf)) then
        match drain_inflight order (with_log_inflight sv (sv_log sv) ∅) q now with
        | None => None
        | Some (sv, q, os') => Some (sv, q, os ++ os')
        end
      else None
  end.

(** ** Shared data *)

(** sync.rs:534-540: entry(affinity), num_ready += 1. *)
Definition inc_ready (q : gmap N (N * N)) (aff : N) : gmap N (N * N) :=
  match q !! aff with
  | None => <[aff := (1, 0)%N]> q
  | Some (r, i) => <[aff := ((r + 1) mod U32, i)%N]> q
  end.

(** Lines 634-636: plain u32 subtraction, wrapping in release builds. *)
Definition hand_out (q : gmap N (N * N)) (aff : N) : option (gmap N (N * N)) :=
  match q !! aff with
  | None => None                 (* expect("bar") *)
  | Some (r, i) => Some (<[aff := ((r + (U32 - 1)) mod U32, (i + 1) mod U32)%N]> q)
  end.

(** Changes one field; models no code. *)
Definition set_todo (s : st) (t : list instr) : st :=
  St (st_queues s) (st_closed s) (st_taken s) (st_qstate s) (st_unready s) (st_counter s)
     (st_flags s) (st_soft_trigger s) (st_hard s) (st_events s) (st_clients s) (st_sv s) t
     (st_phase s).
(** Changes one field; models no code. *)
Definition set_phase (s : st) (p : phase) : st :=
  St (st_queues s) (st_closed s) (st_taken s) (st_qstate s) (st_unready s) (st_counter s)
     (st_flags s) (st_soft_trigger s) (st_hard s) (st_events s) (st_clients s) (st_sv s)
     (st_todo s) p.
(** Changes one field (sync.rs:73). *)
Definition set_qstate (s : st) (q : gmap N (N * N)) : st :=
  St (st_queues s) (st_closed s) (st_taken s) q (st_unready s) (st_counter s)
     (st_flags s) (st_soft_trigger s) (st_hard s) (st_events s) (st_clients s) (st_sv s)
     (st_todo s) (st_phase s).
(** Changes one field (sync.rs:64, 89). *)
Definition set_queues (s : st) (q : list (list item)) : st :=
  St q (st_closed s) (st_taken s) (st_qstate s) (st_unready s) (st_counter s)
     (st_flags s) (st_soft_trigger s) (st_hard s) (st_events s) (st_clients s) (st_sv s)
     (st_todo s) (st_phase s).
(** Changes the state of one client; models no code. *)
Definition set_client (s : st) (c : nat) (x : cstate) : st :=
  St (st_queues s) (st_closed s) (st_taken s) (st_qstate s) (st_unready s) (st_counter s)
     (st_flags s) (st_soft_trigger s) (st_hard s) (st_events s) (<[c := x]> (st_clients s))
     (st_sv s) (st_todo s) (st_phase s).
(** Changes one field (sync.rs:54). *)
Definition set_taken (s : st) (t : gset nat) : st :=
  St (st_queues s) (st_closed s) t (st_qstate s) (st_unready s) (st_counter s)
     (st_flags s) (st_soft_trigger s) (st_hard s) (st_events s) (st_clients s) (st_sv s)
     (st_todo s) (st_phase s).
(** Changes one field (sync.rs:65, 88). *)
Definition set_events (s : st) (e : list event) : st :=
  St (st_queues s) (st_closed s) (st_taken s) (st_qstate s) (st_unready s) (st_counter s)
     (st_flags s) (st_soft_trigger s) (st_hard s) e (st_clients s) (st_sv s)
     (st_todo s) (st_phase s).
(** Changes one field (sync.rs:57-83). *)
Definition set_sv (s : st) (sv : server) : st :=
  St (st_queues s) (st_closed s) (st_taken s) (st_qstate s) (st_unready s) (st_counter s)
     (st_flags s) (st_soft_trigger s) (st_hard s) (st_events s) (st_clients s) sv
     (st_todo s) (st_phase s).
(** Changes one field (sync.rs:64). *)
Definition set_closed (s : st) (c : list bool) : st :=
  St (st_queues s) c (st_taken s) (st_qstate s) (st_unready s) (st_counter s)
     (st_flags s) (st_soft_trigger s) (st_hard s) (st_events s) (st_clients s) (st_sv s)
     (st_todo s) (st_phase s).
(** Changes one field (sync.rs:81). *)
Definition set_unready (s : st) (u : N) : st :=
  St (st_queues s) (st_closed s) (st_taken s) (st_qstate s) u (st_counter s)
     (st_flags s) (st_soft_trigger s) (st_hard s) (st_events s) (st_clients s) (st_sv s)
     (st_todo s) (st_phase s).
(** Changes one field (sync.rs:70). *)
Definition set_counter (s : st) (u : N) : st :=
  St (st_queues s) (st_closed s) (st_taken s) (st_qstate s) (st_unready s) u
     (st_flags s) (st_soft_trigger s) (st_hard s) (st_events s) (st_clients s) (st_sv s)
     (st_todo s) (st_phase s).
(** Changes one field (sync.rs:737, the flags of finish reports). *)
Definition set_flags (s : st) (f : gset nat) : st :=
  St (st_queues s) (st_closed s) (st_taken s) (st_qstate s) (st_unready s) (st_counter s)
     f (st_soft_trigger s) (st_hard s) (st_events s) (st_clients s) (st_sv s)
     (st_todo s) (st_phase s).
(** Changes one field (sync.rs:77). *)
Definition set_soft_trigger (s : st) (b : bool) : st :=
  St (st_queues s) (st_closed s) (st_taken s) (st_qstate s) (st_unready s) (st_counter s)
     (st_flags s) b (st_hard s) (st_events s) (st_clients s) (st_sv s)
     (st_todo s) (st_phase s).
(** Changes one field (the token, sync.rs:367). *)
Definition set_hard (s : st) (b : bool) : st :=
  St (st_queues s) (st_closed s) (st_taken s) (st_qstate s) (st_unready s) (st_counter s)
     (st_flags s) (st_soft_trigger s) b (st_events s) (st_clients s) (st_sv s)
     (st_todo s) (st_phase s).

(** A panic of the tracker. For instance sync.rs:301, 634, 845. *)
Definition panic (s : st) : st * list obs := (set_phase s PPanicked, [OPanic]).

(** Execute one instruction (already removed from [st_todo]). *)
Definition exec_instr (s : st) (i : instr) : st * list obs :=
  match i with
  | ISetUnready n => (set_unready s n, [])
  | ISubUnready n =>
      (* checked_sub, sync.rs:842-847 *)
      if N.ltb (st_unready s) (N.of_nat n) then panic s
      else (set_unready s (st_unready s - N.of_nat n)%N, [])
  | IDecInflight _ a =>
      match dec_inflight (st_qstate s) a with
      | None => panic s
      | Some q => (set_qstate s q, [])
      end
  | IIncReady _ a => (set_qstate s (inc_ready (st_qstate s) a), [])
  | IPush i it =>
      match st_queues s !! i with
      | None => panic s
      | Some q => (set_queues s (<[i := q ++ [it]]> (st_queues s)), [OPushed i (i_id it)])
      end
  | IIncrCounter => (set_counter s (st_counter s + 1)%N, [])
  | ISetFlag n f => (set_flags s ({[f]} ∪ st_flags s), [OFlag n f])
  | ICancelToken now => (s, [OCancelToken now])
  | IClose i => (set_closed s (<[i := true]> (st_closed s)), [])
  | IZeroReady a =>
      match st_qstate s !! a with
      | None => (s, [])
      | Some (r, i) => (set_qstate s (<[a := (0%N, i)]> (st_qstate s)), [])
      end
  | IUnsetSoft => (set_soft_trigger s false, [])
  | IBreak => (set_phase s PExited, [])
  end.

(** ** Actions *)
(** sync.rs: AInit 255-266; AInstr see instr; AEvent 287-352; ASoft 355-366; AHardExit 367-371; ACtrlC 372-376; ADrain 183-252;
    ARecv 612-624; APop and ARecvClosed 632; AClaim 633; ACount 634-638; ASendStarted 644-665; ASendFinished 668-673; ADrop: the
    future is dropped at an await; ATriggerSoft 608-610; AHardCancel: the token. *)
Inductive action :=
(* the server thread *)
| AInit (order : list nat)          (* background_serve up to the loop; hash map order *)
| AInstr
| AEvent (now : N)
| ASoft | AHardExit | ACtrlC
| ADrain (order : list nat) (now : N)
(* client threads *)
| ARecv (c : nat)                   (* call recv *)
| APop (c : nat) (j : nat)          (* take the j-th item of the queue *)
| ARecvClosed (c : nat)             (* queue empty and closed *)
| AClaim (c : nat)
| ACount (c : nat)
| ASendStarted (c : nat) (host : string) (pid : N) (slurm : string)
| ASendFinished (c : nat) (s : exit_status) (values : list (gmap string string)) (flag : option nat)
| ADrop (c : nat)                   (* the future is dropped or the thread ends *)
(* from outside *)
| ATriggerSoft | AHardCancel.

(** No item of the queue has a larger priority than [it]. The contract of the channel at sync.rs:632: an element of greatest priority. *)
Definition is_max (q : list item) (it : item) : bool :=
  forallb (fun x => N.leb (i_priority x) (i_priority it)) q.

(** execgraph.rs:394-397: drain is called when all clients are gone. *)
Definition ended (x : cstate) : bool :=
  match x with CGone | CDropped _ _ => true | _ => false end.

(** The result of a handler of sync.rs:292-352: what is shared is changed later. *)
Definition server_result (s : st) (r : option (server * list instr * list obs)) : st * list obs :=
  match r with
  | None => panic s
  | Some (sv, is, os) => (set_todo (set_sv s sv) is, os)
  end.

(** sync.rs:260-263. *)
Definition roots : list nat :=
  List.filter (fun i => Nat.eqb (length (in_neighbors g i)) 0) (seq 0 (node_count g)).

(** sync.rs:111-178, the state that new_ready_tracker makes. *)
Definition initial : st :=
  St (repeat [] NUM_RUNNER_TYPES) (repeat false NUM_RUNNER_TYPES) ∅ ∅ 0 0 ∅ false false []
     (map (fun _ => CIdle) (cf_types cfg))
     (Server [] 0 0 0 0 ∅ initial_statuses false true (cf_log cfg) 0 [])
     [] PInit.

(** The select! at sync.rs:278 is reached. *)
Definition server_idle (s : st) : bool :=
  match st_phase s, st_todo s with PLoop, [] => true | _, _ => false end.

(** Leaving the loop on cancellation, lines 367-387. *)
Definition leave (s : st) (c : exit_cause) : st * list obs :=
  (set_todo (set_sv s (with_closed (st_sv s) (sv_soft (st_sv s)))) (close_all ++ IBreak :: zero_all),
   [OExit c]).

(** sync.rs:183-640, see [action] for the lines of each. *)
Definition step (s : st) (a : action) : option (st * list obs) :=
  match a with
  | AInit order =>
      match st_phase s with
      | PInit =>
          if is_reordering order roots then
            let s := set_phase s PLoop in
            match add_to_ready_queue (st_sv s) order with
            | None => Some (panic s)
            | Some (sv, is, os) =>
                Some (set_todo (set_sv s sv) (ISetUnready (N.of_nat (node_count g)) :: is), os)
            end
          else None
      | _ => None
      end
  | AInstr =>
      match st_phase s, st_todo s with
      | (PLoop | PExited), i :: rest => Some (exec_instr (set_todo s rest) i)
      | _, _ => None
      end
  | AEvent now =>
      if server_idle s then
        match st_events s with
        | [] => None
        | EvStarted id host pid slurm :: rest =>
            let s := set_events s rest in
            Some (server_result s (handle_started (st_sv s) id host pid slurm now))
        | EvFinished id status values flag :: rest =>
            let s := set_events s rest in
            Some (server_result s (handle_finished (st_sv s) id status values flag now))
        end
      else None
  | ASoft =>
      if server_idle s && st_soft_trigger s then
        Some (set_todo (set_sv s (with_closed (st_sv s) true)) (close_all ++ zero_all ++ [IUnsetSoft]),
              [OSoft SoftTrigger])
      else None
  | AHardExit => if server_idle s && st_hard s then Some (leave s ExitHard) else None
  | ACtrlC => if server_idle s then Some (leave s ExitCtrlC) else None
  | ADrain order now =>
      match st_phase s, st_todo s with
      | PExited, [] =>
          if forallb ended (st_clients s) then
            match drain_events (st_events s) (st_sv s) (st_qstate s) (sv_inflight (st_sv s)) now with
            | None => Some (panic s)
            | Some (_, _, inf, _) =>
                if is_reordering order (map fst (map_to_list inf)) then
                  match drain (st_sv s) (st_qstate s) (st_events s) order now with
                  | None => Some (panic s)
                  | Some (sv, q, os) =>
                      Some (set_phase (set_events (set_sv (set_qstate s q) sv) []) PDrained, os)
                  end
                else None
            end
          else None
      | _, _ => None
      end
  | ARecv c =>
      match st_clients s !! c, cf_types cfg !! c with
      | Some CIdle, Some i =>
          match st_closed s !! i with
          | None => Some (set_client s c CGone, [ORecvErr c NoSuchRunnerType])
          | Some true => Some (set_client s c CGone, [ORecvErr c SoftShutdown])
          | Some false => Some (set_client s c CWait, [])
          end
      | _, _ => None
      end
  | APop c j =>
      match st_clients s !! c, cf_types cfg !! c with
      | Some CWait, Some i =>
          match st_queues s !! i with
          | Some q =>
              match q !! j with
              | Some it =>
                  if is_max q it
                  then Some (set_client (set_queues s (<[i := delete j q]> (st_queues s))) c (CPopped it), [])
                  else None
              | None => None
              end
          | None => None
          end
      | _, _ => None
      end
  | ARecvClosed c =>
      match st_clients s !! c, cf_types cfg !! c with
      | Some CWait, Some i =>
          match st_queues s !! i, st_closed s !! i with
          | Some [], Some true => Some (set_client s c CGone, [ORecvErr c ChannelRecvError])
          | _, _ => None
          end
      | _, _ => None
      end
  | AClaim c =>
      match st_clients s !! c with
      | Some (CPopped it) =>
          if decide (i_flag it ∈ st_taken s) then Some (set_client s c CWait, [])
          else Some (set_client (set_taken s ({[i_flag it]} ∪ st_taken s)) c (CClaimed it), [])
      | _ => None
      end
  | ACount c =>
      match st_clients s !! c, cf_types cfg !! c with
      | Some (CClaimed it), Some i =>
          match hand_out (st_qstate s) (i_affinity it) with
          | None => Some (panic s)
          | Some q => Some (set_client (set_qstate s q) c (CHolding (i_id it)), [OHandedOut c i (i_id it)])
          end
      | _, _ => None
      end
  | ASendStarted c host pid slurm =>
      match st_clients s !! c with
      | Some (CHolding n) =>
          Some (set_client (set_events s (st_events s ++ [EvStarted n host pid slurm])) c (CRunning n),
                [OSentStarted c n])
      | _ => None
      end
  | ASendFinished c status values flag =>
      match st_clients s !! c with
      | Some (CHolding n) | Some (CRunning n) =>
          Some (set_client (set_events s (st_events s ++ [EvFinished n status values flag])) c CIdle,
                [OSentFinished c n status flag])
      | _ => None
      end
  | ADrop c =>
      match st_clients s !! c with
      | Some CIdle | Some CWait => Some (set_client s c CGone, [])
      | Some (CHolding n) => Some (set_client s c (CDropped n false), [])
      | Some (CRunning n) => Some (set_client s c (CDropped n true), [])
      | _ => None
      end
  | ATriggerSoft => Some (set_soft_trigger s true, [])
  | AHardCancel => Some (set_hard s true, [])
  end.

(** Run a list of actions; collect the observations. It models no code: any schedule of sync.rs:181-563, the steps. *)
Fixpoint run (s : st) (acts : list action) : option (st * list obs) :=
  match acts with
  | [] => Some (s, [])
  | a :: rest =>
      match step s a with
      | None => None
      | Some (s', os) =>
          match run s' rest with
          | None => None
          | Some (s'', os') => Some (s'', os ++ os')
          end
      end
  end.
End model.

(** execgraph.rs:399-414: the value returned by execute(). *)
Definition execute_result (cfg : config) (s : st) : N * list string :=
  (sv_n_failed (st_sv s),
   omap (fun n => option_map c_key (nodes (cf_g cfg) !! n)) (sv_finished_order (st_sv s))).
