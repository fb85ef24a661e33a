(** Model of the http server for remote runners, /repo/src/server.rs: the handlers of /start, /begun, /end, /ping and
    /mark-slurm-job-cancelation and the reaper of silent runners, as threads whose steps interleave. A step is one
    operation on shared data: the map of open transactions, the time wheel, the set of cancelled jobs, the channel to
    the tracker. The tracker is outside: what it delivers to a waiting handler is an argument of the step. *)
From Coq Require Export String NArith ZArith.
From stdpp Require Export prelude gmap strings.
From Verif Require Export WheelModel.
Open Scope nat_scope.

(** constants.rs:5, in nanoseconds. *)
Definition PING_TIMEOUT_NS : N := 35000000000.
(** server.rs:36 TIMEWHEEL_DURATION_MSECS *)
Definition TIMEWHEEL_DURATION_NS : N := 35001000000.

(** server.rs:47-55 ConnectionState (the command is the node's). *)
Record conn := Conn {
  c_node : nat;
  c_start : N;                       (* start_time_approx *)
  c_timer : timer_id;
  c_msg : string;                    (* disconnect_error_message *)
  c_job : string                     (* slurm_jobid *)
}.

(** httpinterface.rs StartRequest; the reports of an EndRequest that are passed on (91-94, 112-119). *)
Record start_req := StartReq { sr_runnertype : N; sr_msg : string }.
(** (httpinterface.rs:112-119). *)
Record report := Report { rp_status : Z; rp_stdout : string; rp_stderr : string; rp_values : list (gmap string string) }.

(** The requests (httpinterface.rs:7, 12, 91, 105, 112). *)
Inductive request :=
| QStart (r : start_req)
| QBegun (tx : N) (host : string) (pid : N)
| QEnd (tx : N) (rep : report) (next : option start_req)
| QPing (tx : N)
| QMark (jobids : list string).

(** server.rs:162-170 AppError *)
Inductive app_error := Shutdown | NoSuchTransaction | NoSuchRunnerType | RateLimited | Unauthorized | BadRequest.
(** Replies. A start reply carries the transaction id and the node whose command is sent (httpinterface.rs:17, 97, 122). *)
Inductive reply :=
| ROk
| RStart (tx : N) (node : nat)
| REnd (started : option (N * nat))
| RMarked (jobids : list string)
| RError (e : app_error).

(** Where a handler that has not replied yet stands. [in_end]: inside /end, so the reply is wrapped. *)
Inductive handler :=
| HWait (sr : start_req) (job : string) (in_end : bool)                      (* 354-371 waiting for a task *)
| HGot (node : nat) (sr : start_req) (job : string) (in_end : bool)          (* 372-374 a task was received *)
| HTimed (node : nat) (sr : start_req) (job : string) (in_end : bool) (tx : N) (timer : timer_id) (* 376-380 *)
| HEnd (c : conn) (rep : report) (next : option start_req)                    (* 463-474 the transaction was removed *)
| HEndCancelled (c : conn) (rep : report) (next : option start_req)           (* 476 the timer was cancelled *)
| HEndFlag (sr : start_req) (job : string).                                   (* 495-498 waiting for the flag *)

(** Where the reaper stands, server.rs:119-157. *)
Inductive reaper :=
| PIdle
| PTicked (txs : list N) (expired : list conn)       (* 123-127: transactions whose timer fired, still to remove *)
| PSoft (keys : list N) (expired : list conn)        (* 138-140 *)
| PSend (expired : list conn)                        (* 143-151 *)
| PStopped
| PPanicked.                                         (* the unwrap of line 139 *)

(** server.rs:57-89 State, and the pending handlers. *)
Record server := Server {
  sv_conns : gmap N conn;
  sv_wheel : wheel N;
  sv_cancelled : gset string;
  sv_handlers : gmap N handler;
  sv_reaper : reaper;
  sv_now : N;
  sv_soft : option N;                 (* the token: soft cancelled after this time *)
  sv_hard : bool
}.

(** server.rs:92-109 State::new *)
Definition server_new : server :=
  Server ∅ (wheel_new TIMEWHEEL_DURATION_NS) ∅ ∅ PIdle 0 None false.

(** What the tracker answers to a waiting handler, server.rs:362-369. *)
Inductive delivery := DTask (node : nat) | DShutdown | DNoSuchRunnerType.

(** What is seen outside: replies, and events sent to the tracker. A finish is a runner's report or a disconnection
    with its message (server.rs:144-151, 362, 427-437, 479-491). *)
Inductive event :=
| EReply (h : N) (r : reply)
| ETask (h : N) (node : nat)                                  (* the tracker delivers a task to handler h *)
| EStarted (node : nat) (host : string) (pid : N) (job : string)
| EFinished (node : nat) (how : report + string).

Inductive label :=
| LRequest (h : N) (token : string) (job : option string) (q : request)
| LDeliver (h : N) (d : delivery)
| LHeld (h : N)                       (* 30 seconds without a task *)
| LHardSeen (h : N)                   (* the handler notices the hard cancellation *)
| LRun (h : N) (tx : N)               (* the handler goes on; tx is the random number it draws, if it does *)
| LFlag (h : N)                       (* the tracker has recorded the finish *)
| LDrop (h : N)                       (* the client went away while the handler was waiting *)
| LTick
| LReap
| LStop
| LTime (d : N)
| LSoft (t : N)
| LHard.

Section server.
  (** The server's own token, server.rs:84. *)
  Context (secret : string).

  Definition set_conns f s := Server (f (sv_conns s)) (sv_wheel s) (sv_cancelled s) (sv_handlers s) (sv_reaper s) (sv_now s) (sv_soft s) (sv_hard s).
  Definition set_wheel w s := Server (sv_conns s) w (sv_cancelled s) (sv_handlers s) (sv_reaper s) (sv_now s) (sv_soft s) (sv_hard s).
  Definition set_cancelled x s := Server (sv_conns s) (sv_wheel s) x (sv_handlers s) (sv_reaper s) (sv_now s) (sv_soft s) (sv_hard s).
  Definition set_handlers f s := Server (sv_conns s) (sv_wheel s) (sv_cancelled s) (f (sv_handlers s)) (sv_reaper s) (sv_now s) (sv_soft s) (sv_hard s).
  Definition set_reaper r s := Server (sv_conns s) (sv_wheel s) (sv_cancelled s) (sv_handlers s) r (sv_now s) (sv_soft s) (sv_hard s).
  Definition put (h : N) (x : handler) : server -> server := set_handlers <[h := x]>.
  Definition done_with (h : N) : server -> server := set_handlers (delete h).

  Definition reply_now (s : server) (h : N) (r : reply) : option (server * list event) := Some (s, [EReply h r]).

  (** server.rs:240-265 ping_handler. The transaction is locked throughout, and the two operations on the wheel are
      taken as one: no tick comes between them. [None] would be the panic of insert. *)
  Definition ping (s : server) (h tx : N) : option (server * list event) :=
    match sv_conns s !! tx with
    | None => reply_now s h ROk
    | Some c =>
        match insert (cancel (sv_wheel s) (c_timer c)) PING_TIMEOUT_NS tx with
        | Some (w, id) =>
            reply_now (set_conns <[tx := Conn (c_node c) (c_start c) id (c_msg c) (c_job c)]> (set_wheel w s)) h ROk
        | None => None
        end
    end.

  (** server.rs:268-304 mark_slurm_job_cancelation, under the write lock. The iteration over the transactions is taken
      as a snapshot. *)
  Definition open_jobs (s : server) : list string := map (fun p => c_job (snd p)) (map_to_list (sv_conns s)).
  Definition mark (s : server) (h : N) (jobids : list string) : option (server * list event) :=
    let fresh := List.filter (fun j => negb (bool_decide (j ∈ open_jobs s))) jobids in
    reply_now (set_cancelled (list_to_set fresh ∪ sv_cancelled s) s) h (RMarked fresh).

  (** server.rs:402-438 begun_handler: the transaction is looked up before the header. *)
  Definition begun (s : server) (h tx : N) (host : string) (pid : N) (job : option string) : option (server * list event) :=
    match sv_conns s !! tx with
    | None => reply_now s h (RError NoSuchTransaction)
    | Some c =>
        match job with
        | None => reply_now s h (RError BadRequest)
        | Some j => Some (s, [EStarted (c_node c) host pid j; EReply h ROk])
        end
    end.

  (** server.rs:441-474 end_handler up to the removal. A job id other than the starting one: the transaction is gone
      all the same. *)
  Definition end_ (s : server) (h tx : N) (rep : report) (next : option start_req) (job : option string)
      : option (server * list event) :=
    match job with
    | None => reply_now s h (RError BadRequest)
    | Some j =>
        match sv_conns s !! tx with
        | None => reply_now s h (RError NoSuchTransaction)
        | Some c =>
            let s := set_conns (delete tx) s in
            if String.eqb (c_job c) j then Some (put h (HEnd c rep next) s, [])
            else reply_now s h (RError NoSuchTransaction)
        end
    end.

  (** server.rs:307-343 start_handler *)
  Definition start (s : server) (h : N) (sr : start_req) (job : option string) : option (server * list event) :=
    match job with
    | None => reply_now s h (RError BadRequest)
    | Some j =>
        if bool_decide (j ∈ sv_cancelled s) then reply_now s h (RError Shutdown)
        else Some (put h (HWait sr j false) s, [])
    end.

  (** A request arrives at a new handler. The token is checked first in every handler: 245, 273, 314, 408, 448.
      A job id header that is absent or not ASCII is [None]. *)
  Definition request_step (s : server) (h : N) (token : string) (job : option string) (q : request)
      : option (server * list event) :=
    if String.eqb token secret then
      match q with
      | QStart sr => start s h sr job
      | QBegun tx host pid => begun s h tx host pid job
      | QEnd tx rep next => end_ s h tx rep next job
      | QPing tx => ping s h tx
      | QMark js => mark s h js
      end
    else reply_now s h (RError Unauthorized).

  (** server.rs:393-398, 500-502 *)
  Definition started_reply (in_end : bool) (tx : N) (node : nat) : reply :=
    if in_end then REnd (Some (tx, node)) else RStart tx node.

  (** A handler's next operation. *)
  Definition run_step (s : server) (h tx : N) : option (server * list event) :=
    match sv_handlers s !! h with
    | Some (HGot node sr job in_end) =>                     (* 376-379 *)
        match insert (sv_wheel s) PING_TIMEOUT_NS tx with
        | Some (w, id) => Some (put h (HTimed node sr job in_end tx id) (set_wheel w s), [])
        | None => None
        end
    | Some (HTimed node sr job in_end tx' id) =>            (* 381-398 *)
        Some (done_with h (set_conns <[tx' := Conn node (sv_now s) id (sr_msg sr) job]> s),
              [EReply h (started_reply in_end tx' node)])
    | Some (HEnd c rep next) =>                             (* 476 *)
        Some (put h (HEndCancelled c rep next) (set_wheel (cancel (sv_wheel s) (c_timer c)) s), [])
    | Some (HEndCancelled c rep next) =>                    (* 479-507 *)
        match next with
        | Some sr => Some (put h (HEndFlag sr (c_job c)) s, [EFinished (c_node c) (inl rep)])
        | None => Some (done_with h s, [EFinished (c_node c) (inl rep); EReply h (REnd None)])
        end
    | _ => None
    end.

  (** server.rs:123-151, one operation of the reaper. *)
  Definition reap_step (s : server) : option (server * list event) :=
    match sv_reaper s with
    | PTicked (tx :: txs) ex =>
        match sv_conns s !! tx with
        | Some c => Some (set_reaper (PTicked txs (ex ++ [c])) (set_conns (delete tx) s), [])
        | None => Some (set_reaper (PTicked txs ex) s, [])
        end
    | PTicked [] ex =>                                      (* 130-137 *)
        match sv_soft s with
        | Some t =>
            Some (set_reaper (PSoft (map fst (filter (fun p : N * conn => N.lt t (c_start (snd p))) (map_to_list (sv_conns s)))) ex) s, [])
        | None => Some (set_reaper (PSend ex) s, [])
        end
    | PSoft (tx :: txs) ex =>
        match sv_conns s !! tx with
        | Some c => Some (set_reaper (PSoft txs (ex ++ [c])) (set_conns (delete tx) s), [])
        | None => Some (set_reaper PPanicked s, [])
        end
    | PSoft [] ex => Some (set_reaper (PSend ex) s, [])
    | PSend (c :: ex) => Some (set_reaper (PSend ex) s, [EFinished (c_node c) (inr (c_msg c))])
    | PSend [] => Some (set_reaper PIdle s, [])
    | _ => None
    end.

  Definition step (s : server) (l : label) : option (server * list event) :=
    match l with
    | LRequest h token job q =>
        match sv_handlers s !! h with None => request_step s h token job q | Some _ => None end
    | LDeliver h d =>
        match sv_handlers s !! h with
        | Some (HWait sr job in_end) =>
            match d with
            | DTask node => Some (put h (HGot node sr job in_end) s, [ETask h node])
            | DShutdown => Some (done_with h s, [EReply h (RError Shutdown)])
            | DNoSuchRunnerType => Some (done_with h s, [EReply h (RError NoSuchRunnerType)])
            end
        | _ => None
        end
    | LHeld h =>
        match sv_handlers s !! h with
        | Some (HWait sr job in_end) => Some (done_with h s, [EReply h (RError RateLimited)])
        | _ => None
        end
    | LHardSeen h =>
        if sv_hard s then
          match sv_handlers s !! h with
          | Some (HWait sr job in_end) => Some (done_with h s, [EReply h (RError Shutdown)])
          | Some (HEndFlag sr job) => Some (put h (HWait sr job true) s, [])
          | _ => None
          end
        else None
    | LRun h tx => run_step s h tx
    | LFlag h =>
        match sv_handlers s !! h with
        | Some (HEndFlag sr job) => Some (put h (HWait sr job true) s, [])
        | _ => None
        end
    | LDrop h =>
        match sv_handlers s !! h with
        | Some (HWait _ _ _) | Some (HEndFlag _ _) => Some (done_with h s, [])
        | _ => None
        end
    | LTick =>                                              (* 120 *)
        match sv_reaper s with
        | PIdle => let '(w, l) := tick (sv_wheel s) in Some (set_reaper (PTicked (map snd l) []) (set_wheel w s), [])
        | _ => None
        end
    | LReap => reap_step s
    | LStop => match sv_reaper s with PIdle => Some (set_reaper PStopped s, []) | _ => None end
    | LTime d => Some (Server (sv_conns s) (sv_wheel s) (sv_cancelled s) (sv_handlers s) (sv_reaper s) (sv_now s + d)%N (sv_soft s) (sv_hard s), [])
    | LSoft t => Some (Server (sv_conns s) (sv_wheel s) (sv_cancelled s) (sv_handlers s) (sv_reaper s) (sv_now s) (Some t) (sv_hard s), [])
    | LHard => Some (Server (sv_conns s) (sv_wheel s) (sv_cancelled s) (sv_handlers s) (sv_reaper s) (sv_now s) (sv_soft s) true, [])
    end.

  (** A run: each step with its label and events. *)
  Fixpoint run (s : server) (ls : list label) : option (server * list event) :=
    match ls with
    | [] => Some (s, [])
    | l :: ls =>
        match step s l with
        | None => None
        | Some (s1, e1) => match run s1 ls with None => None | Some (s2, e2) => Some (s2, e1 ++ e2) end
        end
    end.
End server.
