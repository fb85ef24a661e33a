(** Model of a whole history of a log: processes that open it, add tasks, execute, and end or
    are killed, one after the other. Models /repo/src/pylib.rs (constructor, add_task,
    execute) and ExecGraph::execute of /repo/src/execgraph.rs on top of the other models.

    Granularity: whole log records (their bytes are in JsonModel.v). *)
From Verif Require Export SchedModel ExecSpec.

(** pylib.rs:43-51 PyExecGraph. Omitted: num_parallel (the number of local loops is part of
    the schedule) and the copy of the key. *)
Record process := Process {
  p_graph : exec_graph;
  p_allowed : N;                  (* failures_allowed *)
  p_rerun : bool
}.

(** [w_file]: the records that are certainly in the file. [w_proc]: the process that has the
    log open, if any (at most one: see LockModel.v) (pylib.rs:70-89, 43-51). *)
Record world := World { w_file : list log_entry; w_proc : option process }.

(** Arguments of the constructor, and what it reads from its environment (pylib.rs:62-122). *)
Record open_args := OpenArgs {
  oa_time : systime; oa_user : string; oa_hostname : string; oa_cmdline : list string;
  oa_workdir : string; oa_pid : N; oa_roots : list string;
  oa_newkey : string;             (* result of newkeyfn *)
  oa_allowed : N; oa_rerun : bool
}.

(** pylib.rs:94-100: the workflow key. *)
Definition session_key (l : log_file) (a : open_args) : string :=
  match workflow_key (lf_state l) with Some k => k | None => oa_newkey a end.

(** pylib.rs:107: str::replace of $KEY in a storage root. Paths that are not UTF-8 are left out. *)
Fixpoint replace_key (key s : string) : string :=
  match s with
  | String "$" (String "K" (String "E" (String "Y" r))) => key +:+ replace_key key r
  | String c r => String c (replace_key key r)
  | EmptyString => EmptyString
  end.

(** pylib.rs:103-109 and logfile2.rs:79-94: the header. *)
Definition session_header (l : log_file) (a : open_args) : header_entry :=
  HeaderEntry LOGFILE_VERSION (oa_time a) (oa_user a) (oa_hostname a) (session_key l a)
    (oa_cmdline a) (oa_workdir a) (oa_pid a) (map (replace_key (session_key l a)) (oa_roots a)).

(** pylib.rs:62-122 *)
Definition open_session (file : list log_entry) (a : open_args) : option process :=
  match log_open file with
  | OpenErr _ => None
  | OpenOk l =>
      match log_write l (Header (session_header l a)) with
      | None => None
      | Some l => Some (Process (exec_new l) (if N.eqb (oa_allowed a) 0 then U32 - 1 else oa_allowed a)%N
                          (oa_rerun a))
      end
  end.

(** Arguments of execute, and its environment: the library's topological sort, the iteration
    order of the hash set, the runner types of the client threads, the clock (execgraph.rs:244-317). *)
Record execute_args := ExecuteArgs {
  x_target : option nat;
  x_toposort : digraph cmd -> option (list nat);
  x_reused_order : gset string -> list string;
  x_types : list nat;
  x_clock : nat -> systime
}.

(** execgraph.rs:260-284: select the subgraph and set up the tracker. *)
Definition start_execute (p : process) (x : execute_args) : option (exec_graph * config) :=
  match get_subgraph (x_toposort x) (p_graph p) (x_target x) (p_rerun p) (x_reused_order x) with
  | None => None
  | Some (e, sub) => Some (e, Config sub (p_allowed p) (x_types x) (x_clock x) (logfile e))
  end.

(** execgraph.rs:399-414: after the drain. *)
Definition end_execute (p : process) (e : exec_graph) (cfg : config) (s : st) : process :=
  Process (ExecGraph (deps e) (key_to_nodeid e) (sv_log (st_sv s))
             (completed e ∪ list_to_set (snd (execute_result cfg s))))
    (p_allowed p) (p_rerun p).

(** One call of the API, or an event of the environment (pylib.rs:62-400). *)
Inductive event_of_history :=
| HOpened (a : open_args)
| HOpenFailed
| HAdded (key : string) (r : add_result)
| HExecuted (target : option nat) (cfg : config) (t : list obs) (result : N * list string)
| HKilledInExecute (target : option nat) (cfg : config) (t : list obs)
| HClosed
| HKilled.

(** What is assumed of the libraries: toposort keeps its contract, a hash set is read once.
    It models no code: contracts of the functions called at execgraph.rs:463, 512. *)
Definition args_ok (x : execute_args) : Prop :=
  order_ok (x_toposort x) /\ reads_each_once (x_reused_order x).

(** petgraph's indices are u32, so that add_task panics beyond this size. *)
Definition fits (e : exec_graph) : Prop := (N.of_nat (node_count (deps e)) < U32)%N.

Inductive wstep : world -> event_of_history -> world -> Prop :=
| W_open F a p : open_session F a = Some p ->
    wstep (World F None) (HOpened a) (World F (Some p))
| W_open_fails F a : open_session F a = None ->
    wstep (World F None) HOpenFailed (World F None)
| W_add F p cmdline key ds disp aff sr e r :
    py_add_task (p_graph p) cmdline key ds disp aff sr = (e, r) -> fits e ->
    wstep (World F (Some p)) (HAdded key r) (World F (Some (Process e (p_allowed p) (p_rerun p))))
(* execgraph.rs:268-271: nothing to run *)
| W_execute_empty F p x e cfg :
    args_ok x -> start_execute p x = Some (e, cfg) -> node_count (cf_g cfg) = 0 ->
    wstep (World F (Some p)) (HExecuted (x_target x) cfg [] (0%N, []))
          (World F (Some (Process e (p_allowed p) (p_rerun p))))
(* execgraph.rs:277-414; the log is flushed at the end (413) *)
| W_execute F p x e cfg acts s t :
    args_ok x -> start_execute p x = Some (e, cfg) -> node_count (cf_g cfg) <> 0 ->
    run cfg (initial cfg) acts = Some (s, t) -> st_phase s = PDrained ->
    wstep (World F (Some p)) (HExecuted (x_target x) cfg t (execute_result cfg s))
          (World (lf_entries (sv_log (st_sv s))) (Some (end_execute p e cfg s)))
(* the log is flushed when it is dropped *)
| W_close F p :
    wstep (World F (Some p)) HClosed (World (lf_entries (logfile (p_graph p))) None)
(* SIGKILL, power loss: some of the records not yet flushed are in the file *)
| W_kill F p n : length F <= n ->
    wstep (World F (Some p)) HKilled (World (take n (lf_entries (logfile (p_graph p)))) None)
| W_kill_in_execute F p x e cfg acts s t n :
    args_ok x -> start_execute p x = Some (e, cfg) -> run cfg (initial cfg) acts = Some (s, t) ->
    length F <= n ->
    wstep (World F (Some p)) (HKilledInExecute (x_target x) cfg t)
          (World (take n (lf_entries (sv_log (st_sv s)))) None).

(** A list of events; it models no code: any use of pylib.rs:62-400 is such a list. *)
Inductive whistory : world -> list event_of_history -> world -> Prop :=
| whist_nil w : whistory w [] w
| whist_snoc w1 w2 w3 h ev : whistory w1 h w2 -> wstep w2 ev w3 -> whistory w1 (h ++ [ev]) w3.
