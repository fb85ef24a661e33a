(** Model of the preamble and the postamble of the tasks, /repo/src/execgraph.rs:65-107 and 146-179, on top of the local
    runners and the tracker (PoolModel.v): when they are called, and with which arguments.

    Simplifications: each task has both; they are called at once and return 0. A preamble that fails panics the thread that
    calls it, for a local loop like a failure to set up a process (InSetupFails in LocalModel.v); a postamble that fails
    panics execute(). *)
From Verif Require Export PoolModel.

Inductive hobs :=
| HP (o : pobs)                                           (* an observation of PoolModel.v *)
| HPre (n : nat)                                          (* call_preamble of task n, execgraph.rs:146-161 *)
| HPost (n : nat) (success : bool) (runcount ntasks : N). (* call_postamble of task n, execgraph.rs:163-178 *)

Section hook.
Variable cfg : config.

(** sync.rs:401-410: the first thing _finished_bookkeeping_1 does, in the loop (sync.rs:393) and in drain (sync.rs:200, 236). *)
Definition postamble (n : nat) (s : exit_status) : hobs :=
  HPost n (is_success s) (match nodes (cf_g cfg) !! n with Some c => c_runcount c | None => 0%N end) (N.of_nat (node_count (cf_g cfg))).

(** The calls that go with an observation. server.rs:371-373: recv returns to the handler of /start, then the preamble;
    a client is one if its number is at least [k], the number of local loops. sync.rs:652: send_started calls the preamble
    before it sends the event, for local loops (localrunner.rs:100, 129) and for /begun (server.rs:427). *)
Definition decorate (k : nat) (o : pobs) : list hobs :=
  match o with
  | PO (OHandedOut c _ n) => if Nat.ltb c k then [HP o] else [HP o; HPre n]
  | PO (OSentStarted _ n) => [HPre n; HP o]
  | PO (OFinished n s _) | PO (ODrainFinished n s) => [postamble n s; HP o]
  | _ => [HP o]
  end.

(** localrunner.rs:48: the call of the preamble by a local loop after recv. *)
Definition loop_hooks (p : pool) (a : paction) : list hobs :=
  match a with
  | PCall c _ => match po_loops p !! c with Some (Loop _ (CallPreamble n :: _) _ _) => [HPre n] | _ => [] end
  | _ => []
  end.

(** A step of PoolModel.v with the calls that go with it (execgraph.rs:146-178). *)
Definition hook_step (p : pool) (a : paction) : option (pool * list hobs) :=
  match pool_step cfg p a with
  | Some (p', os) => Some (p', loop_hooks p a ++ flat_map (decorate (length (po_loops p))) os)
  | None => None
  end.

(** A list of steps; it models no code: any schedule of PoolModel.v with the calls of execgraph.rs:146-178. *)
Fixpoint hook_run (p : pool) (acts : list paction) : option (pool * list hobs) :=
  match acts with
  | [] => Some (p, [])
  | a :: rest =>
      match hook_step p a with
      | None => None
      | Some (p', os) => match hook_run p' rest with Some (p'', os') => Some (p'', os ++ os') | None => None end
      end
  end.
End hook.
