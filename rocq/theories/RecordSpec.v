(** Vocabulary for what the log says about the tasks of a session: the reports that were sent to the scheduler, and the lines that tell them. *)
From Verif Require Export SchedSpec.

(** A report about a task, as the runner makes it. *)
Inductive told :=
| Begun (n : nat) (host : string) (pid : N) (job : string)
| Ended (n : nat) (status : exit_status) (values : list (gmap string string)).

(** The report that client [c] makes by an action; it is about the task that it has. *)
Definition tells (s : st) (a : action) : list (nat * told) :=
  match a with
  | ASendStarted c host pid job => match st_clients s !! c with Some (CHolding n) => [(c, Begun n host pid job)] | _ => [] end
  | ASendFinished c status values _ =>
      match st_clients s !! c with Some (CHolding n) | Some (CRunning n) => [(c, Ended n status values)] | _ => [] end
  | _ => []
  end.
(** The reports of a run, in the order in which they are made. *)
Fixpoint reports (cfg : config) (s : st) (acts : list action) : list (nat * told) :=
  match acts with
  | [] => []
  | a :: acts => match step cfg s a with Some (s', _) => tells s a ++ reports cfg s' acts | None => [] end
  end.

(** The report that a message in the channel to the scheduler carries. *)
Definition told_of (e : event) : told :=
  match e with EvStarted n h p j => Begun n h p j | EvFinished n st v _ => Ended n st v end.

(** What a record of the log says about the run of a task; the times are left out. *)
Inductive line :=
| LReady (key : string) (runcount : N) (command : string) (storage_root : N)
| LStarted (key host : string) (pid : N) (job : string)
| LFinished (key : string) (status : Z) (values : list (gmap string string)).
Definition line_of (e : log_entry) : option line :=
  match e with
  | Ready r => Some (LReady (r_key r) (r_runcount r) (r_command r) (r_storage_root r))
  | Started r => Some (LStarted (s_key r) (s_host r) (s_pid r) (s_slurm_jobid r))
  | Finished r => Some (LFinished (f_key r) (f_status r) (f_values r))
  | _ => None
  end.
Definition says_ready (l : line) : bool := match l with LReady _ _ _ _ => true | _ => false end.
(** The lines of this session: those after the records that were there when it began. *)
Definition new_lines (cfg : config) (s : st) : list line :=
  omap line_of (drop (length (lf_entries (cf_log cfg))) (lf_entries (sv_log (st_sv s)))).

(** The line for a task that becomes ready. *)
Definition ready_line (cfg : config) (n : nat) : line :=
  match nodes (cf_g cfg) !! n with
  | Some c => LReady (c_key c) (c_runcount c) (display c) (c_storage_root c)
  | None => LReady "" 0 "" 0
  end.

(** The tasks that have begun and not ended after some reports. *)
Definition open_step (o : gset nat) (r : told) : gset nat :=
  match r with Begun n _ _ _ => {[n]} ∪ o | Ended n _ _ => o ∖ {[n]} end.
Definition open_after (o : gset nat) (rs : list told) : gset nat := fold_left open_step rs o.
(** The lines that tell some reports: a report of a beginning with its host, process and job; one of an end with its status and values. If
    a task ends without having begun, a line without host and process comes before. *)
Fixpoint transcript (cfg : config) (o : gset nat) (rs : list told) : list line :=
  match rs with
  | [] => []
  | r :: rs =>
      (match r with
       | Begun n host pid job => [LStarted (task_key cfg n) host pid job]
       | Ended n status values =>
           (if decide (n ∈ o) then [] else [LStarted (task_key cfg n) "" 0 ""]) ++ [LFinished (task_key cfg n) (as_i32 status) values]
       end) ++ transcript cfg (open_step o r) rs
  end.
(** In the final clean-up the host, the process and the job of a beginning are not recorded. *)
Definition masked (r : told) : told := match r with Begun n _ _ _ => Begun n "host" 0 "" | Ended _ _ _ => r end.
