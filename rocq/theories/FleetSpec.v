(** Vocabulary for statements about runners, server and tracker together. *)
From Verif Require Export FleetModel JointSpec.
From Verif Require ServerSpec LocalSpec PipeModel LocalModel.

(** The part of a trace that server and tracker show. *)
Definition joint_side (t : list fobs) : list (obs + ServerModel.event) :=
  omap (fun o => match o with FJ x => Some x | _ => None end) t.
(** A run from the start. *)
Definition freachable (secret : string) (cfg : config) (nlocal : nat) (rcs : N -> rconfig) (acts : list faction) (f : fleet) (t : list fobs) : Prop :=
  frun secret cfg nlocal rcs (fleet_new cfg) acts = Some (f, t).

(** An answer to a runner has task [n] under transaction [tx]. *)
Definition given (t : list fobs) (tx : N) (n : nat) : Prop := exists e, FJ (inr e) ∈ t /\ ServerSpec.gives tx n e.
(** No transaction id is drawn twice (server.rs:374 draws 32 random bits). *)
Definition distinct_ids (t : list fobs) : Prop := forall tx n n', given t tx n -> given t tx n' -> n = n'.

(** A runner tries to start the command of task [n]. *)
Definition attempt (n : nat) (o : fobs) : bool :=
  match o with FSpawned _ m _ | FNotSpawned _ m => Nat.eqb n m | _ => false end.

(** How the command of task [n] came to its end on runner [r]. *)
Definition ended_as (t : list fobs) (r : N) (n : nat) (o : LocalSpec.outcome) : Prop :=
  match o with
  | LocalSpec.CannotStartRemotely => FNotSpawned r n ∈ t
  | LocalSpec.SlurmCancelled => (exists pid, FSpawned r n pid ∈ t) /\ exists message, FSlurm r n message ∈ t
  | LocalSpec.Ended e => (exists pid, FSpawned r n pid ∈ t) /\ exists out, FEnded r n (LocalSpec.raw_status e) out ∈ t
  | _ => False
  end.
(** The statuses of processes are those that Linux has (wait(2)). *)
Definition real_endings (t : list fobs) : Prop :=
  forall r n raw out, FEnded r n raw out ∈ t -> exists e, LocalSpec.ending_ok e /\ raw = LocalSpec.raw_status e.

(** Report [rep] says what happened to the command of task [n] on runner [r]: it could not be started; or it was started, and slurm's message stands in place of its
    output; or it ended, with its output as text and the values that it wrote to file descriptor 3. If the deadline has passed, a note may come before the errors. *)
Definition noted (t : list fobs) (r : N) (n : nat) (shown written : string) : Prop :=
  shown = written \/ FDeadline r n ∈ t /\ exists note, shown = String.append note written.
Definition tells_truth (t : list fobs) (r : N) (n : nat) (rep : ServerModel.report) : Prop :=
  (FNotSpawned r n ∈ t /\ ServerModel.rp_status rep = 13%Z /\ ServerModel.rp_stdout rep = ""%string /\ ServerModel.rp_values rep = []) \/
  (exists pid, FSpawned r n pid ∈ t) /\
    ((exists message, FSlurm r n message ∈ t /\ ServerModel.rp_status rep = (-15)%Z /\ ServerModel.rp_stdout rep = ""%string /\ ServerModel.rp_values rep = [] /\
        noted t r n (ServerModel.rp_stderr rep) message) \/
     (exists raw out s, FEnded r n raw out ∈ t /\ LocalModel.child_code raw = Some s /\ ServerModel.rp_status rep = as_i32 s /\
        ServerModel.rp_stdout rep = LocalModel.text (PipeModel.lossy (RemoteModel.co_stdout out)) /\
        noted t r n (ServerModel.rp_stderr rep) (LocalModel.text (PipeModel.lossy (RemoteModel.co_stderr out))) /\
        ServerModel.rp_values rep = LocalModel.fd3_values (RemoteModel.co_fd3 out))).

(** The server has task [n] in its books: an open transaction, a handler that has received it and has not answered yet or is about to report it, or the
    reaper, which is about to report it. *)
Definition under_way (s : ServerModel.server) (n : nat) : Prop :=
  (exists tx c, ServerModel.sv_conns s !! tx = Some c /\ ServerModel.c_node c = n) \/
  (exists h x, ServerModel.sv_handlers s !! h = Some x /\
     match x with
     | ServerModel.HGot m _ _ _ | ServerModel.HTimed m _ _ _ _ _ => m = n
     | ServerModel.HEnd c _ _ | ServerModel.HEndCancelled c _ _ => ServerModel.c_node c = n
     | ServerModel.HWait _ _ _ | ServerModel.HEndFlag _ _ => False
     end) \/
  (exists c, c ∈ match ServerModel.sv_reaper s with ServerModel.PTicked _ ex | ServerModel.PSoft _ ex | ServerModel.PSend ex => ex | _ => [] end /\ ServerModel.c_node c = n).
(** The end of task [n] is reported to the tracker once in the trace. *)
Definition reported_once (t : list fobs) (n : nat) : Prop :=
  exists t1 how t2, t = t1 ++ FJ (inr (ServerModel.EFinished n how)) :: t2 /\ forall how', FJ (inr (ServerModel.EFinished n how')) ∉ t1 ++ t2.
Definition not_reported (t : list fobs) (n : nat) : Prop := forall how, FJ (inr (ServerModel.EFinished n how)) ∉ t.
