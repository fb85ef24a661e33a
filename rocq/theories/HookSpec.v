(** Vocabulary for the preambles and postambles of the tasks of one execute() call. *)
From Verif Require Export HookModel PoolSpec LinesSpec.

(** The observations without these calls. *)
Definition unhooked (t : list hobs) : list pobs := omap (fun o => match o with HP o => Some o | _ => None end) t.
Definition tracker_of (t : list hobs) : list obs := tracker_part (unhooked t).

(** A schedule of an execute() call with that number of local runners (PoolSpec.v) with all calls of preambles and postambles. *)
Definition hook_execution (cfg : config) (num_parallel : nat) (acts : list paction) (p : pool) (t : list hobs) : Prop :=
  (exists remote, cf_types cfg = local_types num_parallel ++ remote) /\
  hook_run cfg (pool_start cfg (length (local_types num_parallel))) acts = Some (p, t).

(** The tasks whose preambles, and postambles, were called, in this order. *)
Definition pres (t : list hobs) : list nat := omap (fun o => match o with HPre n => Some n | _ => None end) t.
Definition posts (t : list hobs) : list nat := omap (fun o => match o with HPost n _ _ _ => Some n | _ => None end) t.

Definition preamble_called (t : list hobs) (n : nat) : Prop := In (HPre n) t.
(** The postamble was called and was told about a success. *)
Definition postamble_success (t : list hobs) (n : nat) : Prop := exists r k, In (HPost n true r k) t.

(** Every process spawned for [n] was waited for or killed. (At most one is spawned, process_spawned_for_ready_task.) *)
Definition no_process_runs (t : list hobs) (n : nat) : Prop :=
  forall c pid start, In (HP (PSpawned c n pid start)) t -> exists w, In (HP (POver c n pid w)) t.
