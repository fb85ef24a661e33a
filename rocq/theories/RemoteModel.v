(** Model of the remote runner, /repo/src/bin/execgraph-remote.rs: the deadline, the loop over tasks with the messages
    it sends, and the termination of the processes left behind. Times are in milliseconds. *)
From Verif Require Export LocalModel.
Open Scope N_scope.

(** ** The deadline, 31-32 and 846-857 *)
Definition SEND_SIGTERM_BEFORE_DEADLINE : N := 60000.
(** 32 *)
Definition ONE_YEAR : N := 31536000000.
(** 847-857 *)
Definition sigterm_deadline (start : N) (duration : option N) : N :=
  let duration := N.min (match duration with Some d => d | None => ONE_YEAR end) ONE_YEAR in
  let before := if N.ltb (SEND_SIGTERM_BEFORE_DEADLINE * 2) duration then SEND_SIGTERM_BEFORE_DEADLINE else 0 in
  start + (duration - before).

(** ** The loop over tasks: main 161-185 and run_command 201-516 *)
Record config := Config {
  cf_start : N;                       (* START_TIME *)
  cf_duration : option N;
  cf_max_accepting : option N
}.

(** still_accepting_tasks, 518-528 *)
Definition still_accepting (cf : config) (usr1 : bool) (now : N) : bool :=
  if usr1 then false else match cf_max_accepting cf with None => true | Some t => N.ltb (now - cf_start cf) t end.

(** What a process has written, and wait_with_output gives (localrunner.rs:213-218); its status is beside it here. *)
Record child_output := ChildOutput { co_stdout : bytes; co_stderr : bytes; co_fd3 : bytes }.

(** What the runner is waiting for. *)
Inductive remote :=
| MStart                                       (* the response to /start, 222-232 *)
| MSpawn (tx : N)                              (* the spawning of the command, 330-341 *)
| MBegunNone (tx : N)                          (* the response to /begun of a command that cannot be spawned, 352-366 *)
| MFeed (tx pid : N)                           (* writing the input, 394-399 *)
| MBegun (tx pid : N)                          (* the response to /begun, 406-420 *)
| MWait (tx pid : N) (late : bool)             (* the select loop, 427-471; late: stderr_prefix is set *)
| MSlurmEnd                                    (* the response to the last /end, 449-460 *)
| MEnd (tx : N)                                (* the response to /end, 370-391 and 492-516 *)
| MCleanup                                     (* run_command gave no further task: cleanup_child_processes_carefully *)
| MCrashed.                                    (* a panic, or the endless recursion of From<ChildProcessError>, 632-636 *)

(** What can happen. *)
Inductive remote_input :=
| IGiven (tx : N)                              (* /start or /end is answered with a task *)
| INoTask                                      (* /end is answered without a task *)
| IOk (usr1 : bool) (now : N)                  (* /begun is answered; what still_accepting_tasks then reads, if called *)
| IFails                                       (* a request fails or is answered with an error, or no pong comes: token3 *)
| ISpawnFails
| ISpawned (pid : N) (has_input : bool)
| IFed | IFeedFails                            (* unwrap *)
| IOutput (raw : N) (usr1 : bool) (now : N) (out : child_output)   (* wait_with_output returns Ok; what still_accepting_tasks reads *)
| IOutputFails                                 (* it returns Err *)
| ISlurm (message : string)                    (* the watcher sends the slurm error file *)
| ITime (now : N).                             (* sleep_until(deadline) is polled at this time *)

(** What the runner does, and what it is given. Requests: 222-225, 407-413, 370-379, 449-457, 493-496; signals: 446, 465. *)
Inductive remote_event :=
| VStart                                                        (* sends /start *)
| VGiven (tx : N)
| VBegun (tx pid : N)                                           (* sends /begun *)
| VSigterm (pid : N) (now : option N)                           (* kill(pid, SIGTERM), at the deadline or on a slurm error *)
| VEnd (tx : N) (status : exit_status) (late : bool) (slurm : option string) (next : bool)
       (out : option child_output).                             (* sends /end; [out] if there is any, 480-491 *)

(** 201-516; the lines are at the states and the inputs. *)
Definition remote_step (cf : config) (m : remote) (i : remote_input) : option (remote * list remote_event) :=
  match m, i with
  | MStart, IGiven tx => Some (MSpawn tx, [VGiven tx])
  | MStart, IFails => Some (MCleanup, [])
  | MSpawn tx, ISpawnFails => Some (MBegunNone tx, [VBegun tx 0])
  | MSpawn tx, ISpawned pid true => Some (MFeed tx pid, [])
  | MSpawn tx, ISpawned pid false => Some (MBegun tx pid, [VBegun tx pid])
  | MFeed tx pid, IFed => Some (MBegun tx pid, [VBegun tx pid])
  | MFeed tx pid, IFeedFails => Some (MCrashed, [])
  | MBegunNone tx, IOk usr1 now => Some (MEnd tx, [VEnd tx (Code 13) false None (still_accepting cf usr1 now) None])
  | MBegunNone tx, IFails => Some (MCleanup, [])
  | MBegun tx pid, IOk _ _ => Some (MWait tx pid false, [])
  | MBegun tx pid, IFails => Some (MCleanup, [])
  | MWait tx pid late, IOutput raw usr1 now out =>
      match child_code raw with
      | Some s => Some (MEnd tx, [VEnd tx (Code (as_i32 s)) late None (still_accepting cf usr1 now) (Some out)])
      | None => Some (MCrashed, [])
      end
  | MWait tx pid late, IOutputFails => Some (MCrashed, [])
  | MWait tx pid late, IFails => Some (MCleanup, [])
  | MWait tx pid late, ISlurm msg => Some (MSlurmEnd, [VSigterm pid None; VEnd tx (Code (-15)) late (Some msg) false None])
  | MWait tx pid late, ITime now =>
      if N.leb (sigterm_deadline (cf_start cf) (cf_duration cf)) now then Some (MWait tx pid true, [VSigterm pid (Some now)]) else None
  | MSlurmEnd, INoTask | MSlurmEnd, IFails => Some (MCleanup, [])
  | MEnd tx, IGiven tx' => Some (MSpawn tx', [VGiven tx'])
  | MEnd tx, INoTask => Some (MCleanup, [])
  | MEnd tx, IFails => Some (MCleanup, [])
  | _, _ => None
  end.

Fixpoint remote_run (cf : config) (m : remote) (is : list remote_input) : option (remote * list remote_event) :=
  match is with
  | [] => Some (m, [])
  | i :: is =>
      match remote_step cf m i with
      | Some (m1, e1) => match remote_run cf m1 is with Some (m2, e2) => Some (m2, e1 ++ e2) | None => None end
      | None => None
      end
  end.
(** The runner starts: 209-222. *)
Definition remote_start : remote * list remote_event := (MStart, [VStart]).

(** ** cleanup_child_processes_carefully, 731-814 *)
Inductive signal := SIGTERM | SIGKILL.
(** A process: its number, which another process may have had before it, and what tells them apart.
    libc::kill takes the number (774, 779). *)
Record proc := Proc { pr_pid : Z; pr_id : N }.

(** One pass of the outer loop: the time at which cutoff is computed, the children found (754; sysinfo lists each
    number once), each with the time read after a signal to it (775), and whether waitpid fails (804-810). *)
Record pass := Pass { ps_now : N; ps_children : list (proc * N); ps_error : bool }.

(** 763 *)
Definition GRACE : N := 5000.
(** 765-769 *)
Definition which_signal (sigtermed_at : gmap Z N) (cutoff : N) (pid : Z) : option signal :=
  match sigtermed_at !! pid with
  | Some t => if N.ltb t cutoff then Some SIGKILL else None
  | None => Some SIGTERM
  end.
(** A signal sent: to whom, which, and when: SIGTERM before the time given, SIGKILL not before it. *)
Definition sent : Type := proc * signal * N.
Fixpoint signal_children (m : gmap Z N) (now : N) (cs : list (proc * N)) : gmap Z N * list sent :=
  match cs with
  | [] => (m, [])
  | (p, t) :: cs =>
      match which_signal m (now - GRACE) (pr_pid p) with
      | Some SIGTERM => let '(m', es) := signal_children (<[pr_pid p := t]> m) now cs in (m', (p, SIGTERM, t) :: es)
      | Some SIGKILL => let '(m', es) := signal_children m now cs in (m', (p, SIGKILL, now) :: es)
      | None => signal_children m now cs
      end
  end.
(** The passes until it returns: the signals sent and whether it has returned. *)
Fixpoint cleanup_from (m : gmap Z N) (passes : list pass) : list sent * bool :=
  match passes with
  | [] => ([], false)
  | p :: passes =>
      match ps_children p with
      | [] => ([], true)                                        (* 755-757 *)
      | _ =>
          let '(m', es) := signal_children m (ps_now p) (ps_children p) in
          if ps_error p then (es, true)
          else let '(es', r) := cleanup_from m' passes in (es ++ es', r)
      end
  end.
(** 731-814 *)
Definition cleanup (passes : list pass) : list sent * bool := cleanup_from ∅ passes.
