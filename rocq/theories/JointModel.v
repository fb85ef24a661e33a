(** The http server (ServerModel.v) as clients of the tracker (SchedModel.v): both machines side by side, with local
    loops and remote runners. Each call of recv by a handler (server.rs:362) and the transaction it opens is one client
    of the tracker; clients below [nlocal] are local loops. Time and the cancellation token may change on the two sides
    independently here, which only adds behaviours. *)
From Verif Require Export SchedModel.
From Verif Require ServerModel.

(** execgraph.rs:285-376: the server and the tracker that execute() runs side by side. *)
Record joint := Joint {
  j_http : ServerModel.server;
  j_tracker : st;
  j_recv : gmap N nat;               (* the client of each handler that is inside recv *)
  j_flags : gmap N nat;              (* the flag on which an /end handler waits, server.rs:477 *)
  j_next : nat;                      (* the next flag *)
  j_closed : bool                    (* the server has shut down *)
}.

(** The interleaving of the tasks of execgraph.rs:289-353 and of the handlers of server.rs:603-616. *)
Inductive jaction :=
| JTracker (a : action)                            (* the tracker's own thread, local loops, cancellation *)
| JRecv (h : N) (a : action)                       (* a step of recv, called by handler h *)
| JHttp (l : ServerModel.label) (c : nat)          (* a step of the http server; c is the client that is concerned *)
| JClose                                           (* execgraph.rs:350-362: the server ends *)
| JLeave (c : nat).                                (* a transaction that is still open then is dropped *)

(** sync.rs:574-675: the calls of a client of the tracker, and those inside recv (612-641). *)
Definition client_of (a : action) : option nat :=
  match a with
  | ARecv c | APop c _ | ARecvClosed c | AClaim c | ACount c | ASendStarted c _ _ _ | ASendFinished c _ _ _ | ADrop c => Some c
  | _ => None
  end.
Definition recv_action (c : nat) (a : action) : bool :=
  match a with ARecv c' | APop c' _ | ARecvClosed c' | AClaim c' | ACount c' => Nat.eqb c c' | _ => false end.
(** localrunner.rs:228: local loops report without a flag. *)
Definition no_flag (a : action) : bool := match a with ASendFinished _ _ _ (Some _) => false | _ => true end.

(** server.rs:362-369: the result of recv, if it returns in this step. *)
Definition returned (os : list obs) : option ServerModel.delivery :=
  match os with
  | [OHandedOut _ _ n] => Some (ServerModel.DTask n)
  | [ORecvErr _ NoSuchRunnerType] => Some ServerModel.DNoSuchRunnerType
  | [ORecvErr _ _] => Some ServerModel.DShutdown
  | _ => None
  end.

(** server.rs:362: the runner type for which a handler is inside recv. *)
Definition waiting (sv : ServerModel.server) (h : N) : option nat :=
  match ServerModel.sv_handlers sv !! h with
  | Some (ServerModel.HWait sr _ _) => Some (N.to_nat (ServerModel.sr_runnertype sr))
  | _ => None
  end.
(** server.rs:307-499: the handler that makes a step of ServerModel.v. *)
Definition label_handler (l : ServerModel.label) : option N :=
  match l with
  | ServerModel.LRequest h _ _ _ | ServerModel.LDeliver h _ | ServerModel.LHeld h | ServerModel.LHardSeen h
  | ServerModel.LRun h _ | ServerModel.LFlag h | ServerModel.LDrop h => Some h
  | _ => None
  end.
(** In this model a task comes from the tracker's recv (server.rs:362) and from nowhere else. *)
Definition is_deliver (l : ServerModel.label) : bool := match l with ServerModel.LDeliver _ _ => true | _ => false end.

(** sync.rs:612-641: the task that a client got from recv and has not reported as finished. *)
Definition holds (t : st) (c n : nat) : bool :=
  match st_clients t !! c with Some (CHolding m) | Some (CRunning m) => Nat.eqb n m | _ => false end.

(** sync.rs:757-772 new_disconnected and server.rs:481-491: the report that is sent. *)
Definition report_action (c flag : nat) (how : ServerModel.report + string) : action :=
  match how with
  | inl rep => ASendFinished c (Code (ServerModel.rp_status rep)) (ServerModel.rp_values rep) (Some flag)
  | inr _ => ASendFinished c Disconnected [] None
  end.

Section joint.
  Context (secret : string) (cfg : config) (nlocal : nat).

  (** execgraph.rs:289-343, before anything runs. *)
  Definition joint_new : joint := Joint ServerModel.server_new (initial cfg) ∅ ∅ 0 false.

  (** server.rs:143-152, 427-436, 479-491: the messages to the tracker (sync.rs:644-675) among the events of a step of the
      server; replies go elsewhere. *)
  Definition send (t : st) (c flag : nat) (e : ServerModel.event) : option (st * list obs) :=
    match e with
    | ServerModel.EStarted n host pid job =>
        if Nat.leb nlocal c && holds t c n then step cfg t (ASendStarted c host pid job) else None
    | ServerModel.EFinished n how =>
        if Nat.leb nlocal c && holds t c n then step cfg t (report_action c flag how) else None
    | _ => Some (t, [])
    end.
  Fixpoint send_all (t : st) (c flag : nat) (evs : list ServerModel.event) : option (st * list obs) :=
    match evs with
    | [] => Some (t, [])
    | e :: evs =>
        match send t c flag e with
        | None => None
        | Some (t, os) => match send_all t c flag evs with None => None | Some (t, os') => Some (t, os ++ os') end
        end
    end.

  (** server.rs:362: a new call of recv uses a client that does nothing else. *)
  Definition can_attach (s : joint) (t : st) (c i : nat) : bool :=
    Nat.leb nlocal c && match st_clients t !! c with Some CIdle => true | _ => false end && bool_decide (cf_types cfg !! c = Some i) &&
    forallb (fun p => negb (Nat.eqb c (snd p))) (map_to_list (j_recv s)).

  (** server.rs:495-498: the wait for the flag is over when the flag is set. *)
  Definition flag_ok (s : joint) (l : ServerModel.label) : bool :=
    match l with
    | ServerModel.LFlag h =>
        match j_flags s !! h with Some f => bool_decide (f ∈ st_flags (j_tracker s)) | None => false end
    | _ => true
    end.
  (** server.rs:477: a new flag for each /end. *)
  Definition new_flags (s : joint) (l : ServerModel.label) (evs : list ServerModel.event) : gmap N nat * nat :=
    match l, evs with
    | ServerModel.LRun h _, ServerModel.EFinished _ (inl _) :: _ => (<[h := j_next s]> (j_flags s), S (j_next s))
    | _, _ => (j_flags s, j_next s)
    end.

  (** One step of the whole, sync.rs and server.rs as modelled in SchedModel.v and ServerModel.v. *)
  Definition jstep (s : joint) (a : jaction) : option (joint * list (obs + ServerModel.event)) :=
    match a with
    | JTracker a =>
        if match client_of a with Some c => Nat.ltb c nlocal && no_flag a | None => true end then
          match step cfg (j_tracker s) a with
          | None => None
          | Some (t, os) => Some (Joint (j_http s) t (j_recv s) (j_flags s) (j_next s) (j_closed s), map inl os)
          end
        else None
    | JRecv h a =>
        match j_recv s !! h with
        | None => None
        | Some c =>
            if recv_action c a then
              match step cfg (j_tracker s) a with
              | None => None
              | Some (t, os) =>
                  match returned os with
                  | None => Some (Joint (j_http s) t (j_recv s) (j_flags s) (j_next s) (j_closed s), map inl os)
                  | Some d =>
                      match ServerModel.step secret (j_http s) (ServerModel.LDeliver h d) with
                      | None => None
                      | Some (sv, evs) =>
                          Some (Joint sv t (delete h (j_recv s)) (j_flags s) (j_next s) (j_closed s), map inl os ++ map inr evs)
                      end
                  end
              end
            else None
        end
    | JHttp l c =>
        if j_closed s || is_deliver l || negb (flag_ok s l) then None
        else
          match ServerModel.step secret (j_http s) l with
          | None => None
          | Some (sv, evs) =>
              match send_all (j_tracker s) c (j_next s) evs with
              | None => None
              | Some (t, os) =>
                  let '(flags, next) := new_flags s l evs in
                  let done t os r := Some (Joint sv t r flags next false, map inl os ++ map inr evs) in
                  match label_handler l with
                  | None => done t os (j_recv s)
                  | Some h =>
                      match waiting (j_http s) h, waiting sv h with
                      | None, Some i => if can_attach s t c i then done t os (<[h := c]> (j_recv s)) else None
                      | Some _, None =>
                          (* the future of recv is dropped *)
                          match j_recv s !! h with
                          | Some c' =>
                              match step cfg t (ADrop c') with
                              | Some (t, os') => done t (os ++ os') (delete h (j_recv s))
                              | None => None
                              end
                          | None => None
                          end
                      | _, _ => done t os (j_recv s)
                      end
                  end
              end
          end
    | JClose =>
        match ServerModel.sv_reaper (j_http s) with
        | ServerModel.PStopped | ServerModel.PPanicked =>
            if bool_decide (ServerModel.sv_handlers (j_http s) = ∅)
            then Some (Joint (j_http s) (j_tracker s) (j_recv s) (j_flags s) (j_next s) true, [])
            else None
        | _ => None
        end
    | JLeave c =>
        if j_closed s && Nat.leb nlocal c then
          match step cfg (j_tracker s) (ADrop c) with
          | None => None
          | Some (t, os) => Some (Joint (j_http s) t (j_recv s) (j_flags s) (j_next s) true, map inl os)
          end
        else None
    end.

  (** Runs, with what is seen on both sides in order. *)
  Fixpoint jrun (s : joint) (acts : list jaction) : option (joint * list (obs + ServerModel.event)) :=
    match acts with
    | [] => Some (s, [])
    | a :: acts =>
        match jstep s a with
        | None => None
        | Some (s1, t1) => match jrun s1 acts with None => None | Some (s2, t2) => Some (s2, t1 ++ t2) end
        end
    end.
End joint.
