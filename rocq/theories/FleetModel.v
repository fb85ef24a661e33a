(** Remote runners (RemoteModel.v, /repo/src/bin/execgraph-remote.rs) that talk to the http server and the tracker
    (JointModel.v, /repo/src/server.rs and /repo/src/sync.rs). Any number of runners may start at any time. Requests and answers travel in any order;
    they may be lost, and a request may arrive after the runner has given up. *)
From Verif Require Export JointModel.
From Verif Require RemoteModel LocalModel PipeModel.
From stdpp Require Import prelude gmap.

(** What a runner is started with: its configuration, the header with its job (execgraph-remote.rs:37-42, 132-135), the request that it makes for tasks
    (46-74, 215-218) and its host (355, 410). *)
Record rconfig := RConfig {
  rc_config : RemoteModel.config;
  rc_job : string;
  rc_start : ServerModel.start_req;
  rc_host : string
}.

(** A runner, execgraph-remote.rs:161-185: where its loop stands, the task in the last answer that had one (220-232, 507), the request that it is
    sending, those that it has given up while they were on their way (363, 386, 416, 512) and the handler of the one that has arrived. *)
Record runner := Runner {
  r_state : RemoteModel.remote;
  r_task : nat;
  r_out : option RemoteModel.remote_event;
  r_late : list RemoteModel.remote_event;
  r_wait : option N
}.

(** The whole: server and tracker, runners, answers that have not been read, and the handlers there have been (a handler of server.rs:307-507 serves one
    request). *)
Record fleet := Fleet {
  f_joint : joint;
  f_runners : gmap N runner;
  f_replies : gmap N ServerModel.reply;
  f_used : gset N
}.

(** What happens: see [fstep] for the lines. *)
Inductive faction :=
| FStartup (r : N)                                    (* somebody starts execgraph-remote *)
| FServer (a : jaction)                               (* the server, the tracker, local loops; requests of others *)
| FSend (r h : N) (c : nat) (note : string)           (* a request reaches the server *)
| FLate (r : N) (k : nat) (h : N) (c : nat) (note : string) (* one that was given up *)
| FAnswer (r : N) (usr1 : bool) (now : N)             (* an answer reaches the runner *)
| FFails (r : N)                                      (* a request fails, or no pong comes *)
| FOwn (r : N) (i : RemoteModel.remote_input).        (* processes, signals, time *)

(** What is seen: the server and the tracker, and the processes of runners: the command of a task is spawned (execgraph-remote.rs:331-340, 348), cannot be
    spawned (349), has ended with a raw status and this output (429-431), slurm's error file has been written while it ran (434-435), or the deadline has passed (462). *)
Inductive fobs :=
| FJ (x : obs + ServerModel.event)
| FSpawned (r : N) (n : nat) (pid : N)
| FNotSpawned (r : N) (n : nat)
| FEnded (r : N) (n : nat) (raw : N) (out : RemoteModel.child_output)
| FSlurm (r : N) (n : nat) (message : string)
| FDeadline (r : N) (n : nat).

(** execgraph-remote.rs:222-225, 352-358, 370-379, 407-413, 449-457, 492-495: the events of the runner that are requests. *)
Definition is_request (e : RemoteModel.remote_event) : bool :=
  match e with RemoteModel.VStart | RemoteModel.VBegun _ _ | RemoteModel.VEnd _ _ _ _ _ _ => true | _ => false end.
(** The same lines: a step of the loop sends one request or none. *)
Definition request_among (es : list RemoteModel.remote_event) : option RemoteModel.remote_event := head (List.filter is_request es).
(** The report about an end: 370-376, 449-456, 480-491, with localrunner.rs:240-268. [note] is the text of the runner itself: that there is no such command (374),
    or that the deadline has passed (466); it is any text here. *)
Definition report_of (k : Z) (late : bool) (slurm : option string) (out : option RemoteModel.child_output) (note : string) : ServerModel.report :=
  let prefix := if late then note else ""%string in
  match out, slurm with
  | Some o, _ =>
      ServerModel.Report k (LocalModel.text (PipeModel.lossy (RemoteModel.co_stdout o)))
        (String.append prefix (LocalModel.text (PipeModel.lossy (RemoteModel.co_stderr o)))) (LocalModel.fd3_values (RemoteModel.co_fd3 o))
  | None, Some message => ServerModel.Report k "" (String.append prefix message) []
  | None, None => ServerModel.Report k "" note []
  end.
(** The same lines: what is sent. *)
Definition request_of (rc : rconfig) (e : RemoteModel.remote_event) (note : string) : option ServerModel.request :=
  match e with
  | RemoteModel.VStart => Some (ServerModel.QStart (rc_start rc))
  | RemoteModel.VBegun tx pid => Some (ServerModel.QBegun tx (rc_host rc) pid)
  | RemoteModel.VEnd tx (Code k) late slurm next out => Some (ServerModel.QEnd tx (report_of k late slurm out note) (if next then Some (rc_start rc) else None))
  | _ => None
  end.
(** execgraph-remote.rs:226-231, 359-361, 380-384, 414-415, 457-460, 496-509: what an answer is for the loop, and the task in it. *)
Definition input_of (rep : ServerModel.reply) (usr1 : bool) (now : N) : option (RemoteModel.remote_input * option nat) :=
  match rep with
  | ServerModel.ROk => Some (RemoteModel.IOk usr1 now, None)
  | ServerModel.RStart tx n => Some (RemoteModel.IGiven tx, Some n)
  | ServerModel.REnd (Some (tx, n)) => Some (RemoteModel.IGiven tx, Some n)
  | ServerModel.REnd None => Some (RemoteModel.INoTask, None)
  | ServerModel.RMarked _ => None
  | ServerModel.RError _ => Some (RemoteModel.IFails, None)
  end.
(** execgraph-remote.rs:331-349, 394-399, 427-471: the inputs that do not come over the network. *)
Definition own_input (i : RemoteModel.remote_input) : bool :=
  match i with
  | RemoteModel.ISpawnFails | RemoteModel.ISpawned _ _ | RemoteModel.IFed | RemoteModel.IFeedFails | RemoteModel.IOutput _ _ _ _
  | RemoteModel.IOutputFails | RemoteModel.ISlurm _ | RemoteModel.ITime _ => true
  | _ => false
  end.
(** execgraph-remote.rs:331-349, 394-399, 427-471: what is seen of them. *)
Definition own_obs (r : N) (n : nat) (i : RemoteModel.remote_input) : list fobs :=
  match i with
  | RemoteModel.ISpawned pid _ => [FSpawned r n pid]
  | RemoteModel.ISpawnFails => [FNotSpawned r n]
  | RemoteModel.IOutput raw _ _ out => [FEnded r n raw out]
  | RemoteModel.ISlurm message => [FSlurm r n message]
  | RemoteModel.ITime _ => [FDeadline r n]
  | _ => []
  end.

(** The answers among the events of the server, server.rs:307-507. *)
Definition store (t : list (obs + ServerModel.event)) (m : gmap N ServerModel.reply) : gmap N ServerModel.reply :=
  fold_left (fun m x => match x with inr (ServerModel.EReply h rep) => <[h := rep]> m | _ => m end) t m.

Section fleet.
  Context (secret : string) (cfg : config) (nlocal : nat) (rcs : N -> rconfig).

  (** Requests that do not come from the loops of runners: with a wrong token, pings (execgraph-remote.rs:251-288 sends them beside the loop; here
      anybody may send any) and the marking of jobs (server.rs:268-304). The token is known only to runners (server.rs:84, execgraph-remote.rs:112-127). *)
  Definition foreign (a : jaction) : bool :=
    match a with
    | JHttp (ServerModel.LRequest _ token _ q) _ =>
        negb (String.eqb token secret) || match q with ServerModel.QPing _ | ServerModel.QMark _ => true | _ => false end
    | _ => true
    end.
  (** The handler that a request makes, server.rs:603-616. *)
  Definition new_handler (a : jaction) : option N := match a with JHttp (ServerModel.LRequest h _ _ _) _ => Some h | _ => None end.

  (** A step of server and tracker (server.rs and sync.rs as in JointModel.v), with its answers. *)
  Definition fjoint (f : fleet) (a : jaction) : option (fleet * list fobs) :=
    if match new_handler a with Some h => bool_decide (h ∈ f_used f) | None => false end then None
    else match jstep secret cfg nlocal (f_joint f) a with
         | None => None
         | Some (j, t) => Some (Fleet j (f_runners f) (store t (f_replies f)) (match new_handler a with Some h => {[h]} ∪ f_used f | None => f_used f end), map FJ t)
         end.

  (** The loop of runner [r] gets an input, execgraph-remote.rs:201-516. *)
  Definition frunner (f : fleet) (r : N) (x : runner) (i : RemoteModel.remote_input) (task : option nat) (replies : gmap N ServerModel.reply) (os : list fobs) :
      option (fleet * list fobs) :=
    match RemoteModel.remote_step (rc_config (rcs r)) (r_state x) i with
    | None => None
    | Some (m, es) =>
        Some (Fleet (f_joint f) (<[r := Runner m (match task with Some n => n | None => r_task x end) (request_among es)
                                            (match r_out x with Some e => e :: r_late x | None => r_late x end) None]> (f_runners f)) replies (f_used f), os)
    end.

  (** Request [e] of runner [r] arrives, server.rs:603-616; the runner is [x'] afterwards. *)
  Definition farrive (f : fleet) (r : N) (e : RemoteModel.remote_event) (x' : runner) (h : N) (c : nat) (note : string) :
      option (fleet * list fobs) :=
    match request_of (rcs r) e note with
    | Some q =>
        match fjoint f (JHttp (ServerModel.LRequest h secret (Some (rc_job (rcs r))) q) c) with
        | Some (f', t) => Some (Fleet (f_joint f') (<[r := x']> (f_runners f')) (f_replies f') (f_used f'), t)
        | None => None
        end
    | None => None
    end.

  (** One step of the whole; the lines are at the cases. *)
  Definition fstep (f : fleet) (a : faction) : option (fleet * list fobs) :=
    match a with
    | FStartup r =>                                                                    (* execgraph-remote.rs:101-160, 209-225 *)
        match f_runners f !! r with
        | None => Some (Fleet (f_joint f) (<[r := Runner RemoteModel.MStart 0 (Some RemoteModel.VStart) [] None]> (f_runners f)) (f_replies f) (f_used f), [])
        | Some _ => None
        end
    | FServer a => if foreign a then fjoint f a else None                              (* server.rs, sync.rs *)
    | FSend r h c note =>                                                              (* server.rs:307, 402, 441 *)
        match f_runners f !! r with
        | Some (Runner m n (Some e) late w) => farrive f r e (Runner m n None late (Some h)) h c note
        | _ => None
        end
    | FLate r k h c note =>
        match f_runners f !! r with
        | Some (Runner m n o late w) =>
            match late !! k with
            | Some e => farrive f r e (Runner m n o (delete k late) w) h c note
            | None => None
            end
        | None => None
        end
    | FAnswer r usr1 now =>                                                            (* see [input_of] *)
        match f_runners f !! r with
        | Some x =>
            match r_wait x with
            | Some h =>
                match f_replies f !! h with
                | Some rep =>
                    match input_of rep usr1 now with
                    | Some (i, task) => frunner f r x i task (delete h (f_replies f)) []
                    | None => None
                    end
                | None => None
                end
            | None => None
            end
        | None => None
        end
    | FFails r =>                                                                      (* execgraph-remote.rs:226, 359, 363, 380, 386, 414, 416, 431, 457, 497, 512 *)
        match f_runners f !! r with
        | Some x => frunner f r x RemoteModel.IFails None (f_replies f) []
        | None => None
        end
    | FOwn r i =>                                                                      (* see [own_input] *)
        match f_runners f !! r with
        | Some x => if own_input i then frunner f r x i None (f_replies f) (own_obs r (r_task x) i) else None
        | None => None
        end
    end.

  (** Any number of steps (execgraph.rs:289-353, execgraph-remote.rs:161-185). *)
  Fixpoint frun (f : fleet) (acts : list faction) : option (fleet * list fobs) :=
    match acts with
    | [] => Some (f, [])
    | a :: acts =>
        match fstep f a with
        | None => None
        | Some (f1, t1) => match frun f1 acts with None => None | Some (f2, t2) => Some (f2, t1 ++ t2) end
        end
    end.
  (** Before anything runs, execgraph.rs:289-343. *)
  Definition fleet_new : fleet := Fleet (joint_new cfg) ∅ ∅ ∅.
End fleet.
