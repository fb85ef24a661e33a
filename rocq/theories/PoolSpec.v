(** Vocabulary for the local runners of one execute() call: which processes run when. *)
From Verif Require Export PoolModel SchedLiveSpec.

(** What the tracker did, without the processes. *)
Definition tracker_part (t : list pobs) : list obs := omap (fun o => match o with PO o => Some o | _ => None end) t.

(** A schedule of an execute() call with that number of local runners, and of what can happen meanwhile, leads to [p]
    with the observations [t]. Besides the local loops there can be clients of other types (remote runners). *)
Definition execution (cfg : config) (num_parallel : nat) (acts : list paction) (p : pool) (t : list pobs) : Prop :=
  (exists remote, cf_types cfg = local_types num_parallel ++ remote) /\
  pool_run cfg (pool_start cfg (length (local_types num_parallel))) acts = Some (p, t).

(** Processes spawned, and processes that are over, in loops of runner type [i]. *)
Definition is_type (cfg : config) (i c : nat) : bool :=
  match cf_types cfg !! c with Some j => Nat.eqb i j | None => false end.
Definition spawned_by (P : nat -> bool) (t : list pobs) : nat :=
  length (List.filter (fun o => match o with PSpawned c _ _ _ => P c | _ => false end) t).
Definition over_by (P : nat -> bool) (t : list pobs) : nat :=
  length (List.filter (fun o => match o with POver c _ _ _ => P c | _ => false end) t).

(** The processes of one loop, in order, with nothing else. *)
Definition processes_of (c : nat) (t : list pobs) : list pobs :=
  List.filter (fun o => match o with PSpawned d _ _ _ | POver d _ _ _ => Nat.eqb c d | PO _ => false end) t.
(** One after the other: each is over before the next one is spawned; the last one may be running. *)
Inductive one_at_a_time (c : nat) : list pobs -> Prop :=
| oat_nil : one_at_a_time c []
| oat_running n pid start : one_at_a_time c [PSpawned c n pid start]
| oat_next n pid start w t : one_at_a_time c t -> one_at_a_time c (PSpawned c n pid start :: POver c n pid w :: t).

Definition spawned_task (t : list pobs) (n : nat) : Prop := exists c pid start, In (PSpawned c n pid start) t.

(** Accidents: setting up a process panics (no descriptors left, or fd_input uses descriptor 3), the write to the input of a process fails, waiting for a process fails, or it is reported as neither
    exited nor killed. *)
Definition accident (a : paction) : Prop :=
  match a with
  | PInput _ InSetupFails _ | PInput _ InFeedFails _ | PInput _ InWaitFails _ => True
  | PInput _ (InOutput raw _) _ => child_code raw = None
  | _ => False
  end.
(** Requests from outside the program. *)
Definition request (a : paction) : Prop :=
  match a with PSched ATriggerSoft | PSched AHardCancel | PSched ACtrlC => True | _ => False end.
(** Neither; the call can go on with these alone. *)
Definition goes_on (a : paction) : Prop := ~ accident a /\ ~ request a.
(** Ctrl-C is the only request that reaches a call without remote runners (there is no admin socket and no provisioner). *)
Definition local_only (a : paction) : Prop := goes_on a \/ a = PSched ACtrlC.

(** Each task can be run by a local runner: bit 0 or bit 1 of its affinity mask is set. *)
Definition all_local (cfg : config) : Prop :=
  forall n, in_graph cfg n -> N.testbit (aff cfg n) 0 = true \/ N.testbit (aff cfg n) 1 = true.

(** What a finish report of loop [c] about task [n] is based on: the process could not be spawned; it was waited for, that is its
    exit code, or the number of the signal that ended it, negated, and the values are those it wrote to descriptor 3; or it was
    stopped by a soft shutdown. *)
Inductive outcome (t : list pobs) (c n : nat) : exit_status -> list (gmap string string) -> Prop :=
| no_process : ~ spawned_task t n -> outcome t c n (Code (-1)) []
| process_ended pid raw fd3 s : In (POver c n pid (Reaped raw fd3)) t -> child_code raw = Some s -> outcome t c n s (fd3_values fd3)
| process_stopped pid : In (POver c n pid (Killed BySoft)) t -> outcome t c n Cancelled [].

(** A process for the task was waited for and had exited with 0. *)
Definition process_succeeded (t : list pobs) (n : nat) : Prop :=
  exists c pid raw fd3, In (POver c n pid (Reaped raw fd3)) t /\ wait_code raw = Some 0%Z.
