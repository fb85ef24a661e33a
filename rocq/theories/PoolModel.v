(** Model of the local part of execute(), /repo/src/execgraph.rs:277-317 and 385-397: the loops of the local runners
    (LocalModel.v) as threads of the tracker (SchedModel.v), with the cancellation token they share and the processes
    they spawn. One action = one atomic step of one thread, in any order.

    Simplifications: waiting for the rate limiter (sync.rs:614) only delays recv and is left out (LaunchModel.v is about
    it); times are N in nanoseconds, and the time five seconds before the failure is cut at 0. *)
From Verif Require SyncModel.
From Verif Require Export SchedModel LocalModel.

(** execgraph.rs:291-317 with localrunner.rs:41-44: num_parallel loops of type 0 and, if that is not 0, one loop of type 1
    (console). *)
Definition local_types (num_parallel : nat) : list nat :=
  repeat 0 num_parallel ++ (if Nat.ltb 0 num_parallel then [1] else []).

(** One run of run_local_process_loop, localrunner.rs:34-159. *)
Record loop := Loop {
  lp_state : loop_state;          (* what it waits for *)
  lp_calls : list loop_call;      (* calls of the tracker it has yet to make before it waits *)
  lp_child : option N;            (* the process it has spawned and not waited for *)
  lp_start : N                    (* start_time, 96 *)
}.

(** How a process is got rid of. kill_on_drop (76, 82) sends SIGKILL when the Child is dropped: when select! drops the
    other branch (133-147), or when the thread unwinds. *)
Inductive kill := BySoft | ByHard | ByFault.
(** How a process ends: waited for (localrunner.rs:183) or killed (76, 82, 133-143). *)
Inductive way := Reaped (raw : N) (fd3 : bytes) | Killed (k : kill).   (* the status from waitpid, and what the process wrote to descriptor 3 *)

Inductive pobs :=
| PO (o : obs)
| PSpawned (c n : nat) (pid start : N)    (* loop c has spawned a process for task n, 73-97 *)
| POver (c n : nat) (pid : N) (w : way).  (* the process was waited for, or SIGKILL was sent *)

Record pool := Pool {
  po_sched : st;
  po_loops : list loop;                              (* loop c is client c of the tracker *)
  po_token : option SyncModel.cancellation           (* execgraph.rs:277 *)
}.

Inductive paction :=
| PSched (a : action)                        (* the tracker, clients that are not local loops, requests from outside *)
| PHardCancel                                (* execgraph.rs:392, after background_serve has returned *)
| PCall (c : nat) (host : string)            (* the next call of the tracker by loop c; for recv its beginning *)
| PRecv (a : action)                         (* a step inside recv of a local loop *)
| PInput (c : nat) (i : loop_input) (now : N)(* what loop c waits for happens *)
| PDrop (c : nat).                           (* the future of a loop that has ended is dropped *)

Definition client_of (a : action) : option nat :=
  match a with
  | ARecv c | APop c _ | ARecvClosed c | AClaim c | ACount c | ASendStarted c _ _ _ | ASendFinished c _ _ _ | ADrop c => Some c
  | _ => None
  end.
(** Which actions are steps inside recv (sync.rs:612-641), and not calls of the tracker. *)
Definition inside_recv (a : action) : bool :=
  match a with APop _ _ | ARecvClosed _ | AClaim _ | ACount _ => true | _ => false end.

(** localrunner.rs:46, 100-112, 129-131, 137-139, 150-152. The preamble (48) is no call of the tracker. *)
Definition call_act (c : nat) (host : string) (x : loop_call) : option action :=
  match x with
  | CallRecv => Some (ARecv c)
  | CallPreamble _ => None
  | CallStarted _ pid => Some (ASendStarted c host pid EmptyString)
  | CallFinished _ s vs => Some (ASendFinished c s vs None)
  end.

(** sync.rs:337: token.cancel(CancelledAfterTime(now - FIZZLED_TIME_CUTOFF)) *)
Definition token_after (tok : option SyncModel.cancellation) (os : list obs) : option SyncModel.cancellation :=
  fold_left (fun tok o => match o with
                          | OCancelToken now => SyncModel.cancel tok (SyncModel.CancelledAfterTime (now - FIZZLED_TIME_CUTOFF))
                          | _ => tok
                          end) os tok.

(** The loop goes on with [i]. *)
Definition deliver (lp : loop) (i : loop_input) : loop :=
  match loop_step (lp_state lp) i with
  | Some (st', cs) => Loop st' (lp_calls lp ++ cs) (lp_child lp) (lp_start lp)
  | None => lp
  end.
(** localrunner.rs:46: recv has returned. *)
Definition recv_returns (lp : loop) (os : list obs) : loop :=
  match os with
  | [OHandedOut _ _ n] => deliver lp (InTask n)
  | [ORecvErr _ _] => deliver lp InErr
  | _ => lp
  end.

(** The task that a loop is busy with (localrunner.rs:46-152). *)
Definition task_of (st : loop_state) : option nat :=
  match st with LTaken n | LFeeding n _ | LRunning n => Some n | _ => None end.
(** Whether a loop has returned (localrunner.rs:142, 159) or panicked, and has made all its calls. *)
Definition loop_over (lp : loop) : bool :=
  match lp_state lp, lp_calls lp with (LEnded | LPanicked), [] => true | _, _ => false end.

(** What the loop can meet: results of recv come from the tracker, soft_cancelled returns according to the token
    (fancy_cancellation_token.rs:42-62). *)
Definition input_possible (tok : option SyncModel.cancellation) (lp : loop) (i : loop_input) : bool :=
  match i with
  | InTask _ | InErr => false
  | InSoft t =>
      SyncModel.soft_released (lp_start lp) tok &&
      match tok with Some (SyncModel.CancelledAfterTime t') => N.eqb t t' | _ => false end
  | InHard => SyncModel.hard_released tok
  | _ => true
  end.
(** The process that the loop has afterwards (localrunner.rs:73-98, 133-147). *)
Definition child_after (lp : loop) (i : loop_input) : option N :=
  match i with InSpawned pid _ => Some pid | InFed => lp_child lp | _ => None end.
(** start_time afterwards (localrunner.rs:96). *)
Definition start_after (lp : loop) (i : loop_input) (now : N) : N :=
  match i with InSpawned _ _ | InSpawnFails => now | _ => lp_start lp end.
(** What happens to processes: spawned (localrunner.rs:89), waited for (183), or killed when dropped (76, 82). *)
Definition input_obs (c : nat) (lp : loop) (i : loop_input) (now : N) : list pobs :=
  match task_of (lp_state lp) with
  | None => []
  | Some n =>
      match i, lp_child lp with
      | InSpawned pid _, _ => [PSpawned c n pid now]
      | InOutput raw fd3, Some pid => [POver c n pid (Reaped raw fd3)]
      | InSoft _, Some pid => [POver c n pid (Killed BySoft)]
      | InHard, Some pid => [POver c n pid (Killed ByHard)]
      | (InFeedFails | InWaitFails), Some pid => [POver c n pid (Killed ByFault)]
      | _, _ => []
      end
  end.

Section pool.
Variable cfg : config.

(** A client step of loop [c]. localrunner.rs:46, 100-111, 129-131, 137-139 or 150-152, or a step inside recv. *)
Definition client_step (p : pool) (c : nat) (lp : loop) (a : action) : option (pool * list pobs) :=
  match step cfg (po_sched p) a with
  | Some (s, os) =>
      Some (Pool s (<[c := recv_returns lp os]> (po_loops p)) (token_after (po_token p) os), map PO os)
  | None => None
  end.

Definition pool_step (p : pool) (a : paction) : option (pool * list pobs) :=
  match a with
  | PSched a =>
      let local := match client_of a with Some c => Nat.ltb c (length (po_loops p)) | None => false end in
      (* drain comes after the token was cancelled and all threads were joined, execgraph.rs:392-397 *)
      let joined := match a with
                    | ADrain _ _ => SyncModel.hard_released (po_token p) && forallb loop_over (po_loops p)
                    | _ => true
                    end in
      if local || negb joined then None
      else
        match step cfg (po_sched p) a with
        | Some (s, os) =>
            let tok := match a with AHardCancel => SyncModel.cancel (po_token p) SyncModel.HardCancelled | _ => po_token p end in
            Some (Pool s (po_loops p) (token_after tok os), map PO os)
        | None => None
        end
  | PHardCancel =>
      match st_phase (po_sched p), st_todo (po_sched p) with
      | PExited, [] =>
          if SyncModel.hard_released (po_token p) then None
          else Some (Pool (set_hard (po_sched p) true) (po_loops p) (SyncModel.cancel (po_token p) SyncModel.HardCancelled), [])
      | _, _ => None
      end
  | PCall c host =>
      match po_loops p !! c with
      | Some (Loop st (x :: rest) child start) =>
          let lp := Loop st rest child start in
          match call_act c host x with
          | Some a => client_step p c lp a
          | None => Some (Pool (po_sched p) (<[c := lp]> (po_loops p)) (po_token p), [])
          end
      | _ => None
      end
  | PRecv a =>
      match inside_recv a, client_of a with
      | true, Some c =>
          match po_loops p !! c with
          | Some lp => client_step p c lp a
          | None => None
          end
      | _, _ => None
      end
  | PInput c i now =>
      match po_loops p !! c with
      | Some lp =>
          match lp_calls lp, input_possible (po_token p) lp i, loop_step (lp_state lp) i with
          | [], true, Some (st', cs) =>
              Some (Pool (po_sched p) (<[c := Loop st' cs (child_after lp i) (start_after lp i now)]> (po_loops p)) (po_token p),
                    input_obs c lp i now)
          | _, _, _ => None
          end
      | None => None
      end
  | PDrop c =>
      match po_loops p !! c with
      | Some lp =>
          if loop_over lp then
            match step cfg (po_sched p) (ADrop c) with
            | Some (s, os) => Some (Pool s (po_loops p) (po_token p), map PO os)
            | None => None
            end
          else None
      | None => None
      end
  end.

(** execgraph.rs:277-317: [k] local loops, about to call recv for the first time (localrunner.rs:46). *)
Definition pool_start (k : nat) : pool := Pool (initial cfg) (repeat (Loop LRecv [CallRecv] None 0) k) None.

(** A list of actions; it models no code: any schedule of execgraph.rs:277-397 is such a list. *)
Fixpoint pool_run (p : pool) (acts : list paction) : option (pool * list pobs) :=
  match acts with
  | [] => Some (p, [])
  | a :: rest =>
      match pool_step p a with
      | None => None
      | Some (p', os) => match pool_run p' rest with Some (p'', os') => Some (p'', os ++ os') | None => None end
      end
  end.
End pool.
