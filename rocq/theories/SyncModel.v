(** Model of the small concurrency primitives: /repo/src/async_flag.rs, /repo/src/fancy_cancellation_token.rs, and of
    the status request that waits on a counter, /repo/src/sync.rs:687-714. Any number of threads, every atomic access
    is one step. Counters are unbounded (u64 in the code). *)
From stdpp Require Export prelude gmap.
From Coq Require Export NArith.
Open Scope N_scope.

(** ** async_flag.rs: a value with an event
    Both AsyncFlag and AsyncCounter are a value and an Event (event_listener crate): listen() registers a listener,
    notify(usize::MAX) notifies all registered listeners, and awaiting a listener ends when it is notified. *)
Section event.
  Context {V : Type}.

  (** async_flag.rs:51-69 and 95-114 wait. [ok] is the test of the value. *)
  Inductive waiter :=
  | WCheck                     (* before the first load, 54 / 98 *)
  | WListen                    (* before listen(), 59 / 104 *)
  | WRecheck                   (* before the second load, 62 / 107; the listener is registered *)
  | WAwait                     (* listener.await, 67 / 112 *)
  | WDone (v : V).             (* returned *)

  Record ev_state := EvState {
    ev_value : V;
    ev_waiters : gmap nat ((V -> bool) * waiter);
    ev_notified : gset nat;    (* waiters whose present listener was notified *)
    ev_setters : gset nat      (* threads between the store and notify, in set / unset / incr *)
  }.

  Inductive ev_action :=
  | EvWait (w : nat) (ok : V -> bool)   (* call wait *)
  | EvStep (w : nat)                    (* one step of a waiter *)
  | EvStore (s : nat) (f : V -> V)      (* set 42, unset 47, incr 84: store or fetch_add *)
  | EvNotify (s : nat).                 (* 43, 48, 85 *)

  (** The listener of a waiter exists from listen() until it is dropped. *)
  Definition listening (x : (V -> bool) * waiter) : bool :=
    match snd x with WRecheck | WAwait => true | _ => false end.

  Definition set_waiter (s : ev_state) (w : nat) (x : (V -> bool) * waiter) : ev_state :=
    EvState (ev_value s) (<[w := x]> (ev_waiters s)) (ev_notified s) (ev_setters s).

  Definition ev_step (s : ev_state) (a : ev_action) : option ev_state :=
    match a with
    | EvWait w ok =>
        match (ev_waiters s !! w : option ((V -> bool) * waiter)) with
        | None => Some (set_waiter s w (ok, WCheck))
        | Some _ => None
        end
    | EvStep w =>
        match (ev_waiters s !! w : option ((V -> bool) * waiter)) with
        | Some (ok, WCheck) =>
            Some (set_waiter s w (ok, if ok (ev_value s) then WDone (ev_value s) else WListen))
        | Some (ok, WListen) =>
            Some (EvState (ev_value s) (<[w := (ok, WRecheck)]> (ev_waiters s)) (ev_notified s ∖ {[w]}) (ev_setters s))
        | Some (ok, WRecheck) =>
            Some (set_waiter s w (ok, if ok (ev_value s) then WDone (ev_value s) else WAwait))
        | Some (ok, WAwait) =>
            if bool_decide (w ∈ ev_notified s)
            then Some (set_waiter s w (ok, WCheck)) else None
        | _ => None
        end
    | EvStore t f =>
        if bool_decide (t ∈ ev_setters s) then None
        else Some (EvState (f (ev_value s)) (ev_waiters s) (ev_notified s) ({[t]} ∪ ev_setters s))
    | EvNotify t =>
        if bool_decide (t ∈ ev_setters s)
        then Some (EvState (ev_value s) (ev_waiters s)
                     (ev_notified s ∪ dom (filter (fun x => listening (snd x) = true) (ev_waiters s))) (ev_setters s ∖ {[t]}))
        else None
    end.

  Fixpoint ev_run (s : ev_state) (acts : list ev_action) : option ev_state :=
    match acts with [] => Some s | a :: acts => match ev_step s a with Some s' => ev_run s' acts | None => None end end.

  Definition ev_new (v : V) : ev_state := EvState v ∅ ∅ ∅.
End event.
Arguments waiter : clear implicits.
Arguments ev_state : clear implicits.
Arguments ev_action : clear implicits.

(** AsyncFlag: set, unset and wait (async_flag.rs:41-69). *)
Definition flag_set (s : nat) : ev_action bool := EvStore s (fun _ => true).
Definition flag_unset (s : nat) : ev_action bool := EvStore s (fun _ => false).
Definition flag_wait (w : nat) : ev_action bool := EvWait w (fun v => v).
(** AsyncCounter: incr and wait (async_flag.rs:83-114). *)
Definition counter_incr (s : nat) : ev_action N := EvStore s (fun v => v + 1).
(** (async_flag.rs:95-114). *)
Definition counter_wait (w : nat) (from : N) : ev_action N := EvWait w (fun v => N.ltb from v).

(** ** sync.rs:687-714 get_queuestate *)
Inductive req_phase :=
| RWaiting                       (* in timeout(…, wait(etag)), 695-699 *)
| RSleeping                      (* in sleep_until, 703 *)
| RReturned (etag at_ : N).      (* returned that etag at that time *)
Record request := Request { rq_start : N; rq_etag : N; rq_timemin : N; rq_timeout : N; rq_phase : req_phase }.

(** The waiter of request [r] is waiter [r] of the counter (sync.rs:687-714). *)
Record poll_state := PollState { ps_counter : ev_state N; ps_now : N; ps_requests : gmap nat request }.

(** The steps of sync.rs:687-714 and of the counter. *)
Inductive poll_action :=
| PTick (dt : N)                                   (* time passes *)
| PIncr (s : nat) | PNotify (s : nat)              (* the server increments the counter *)
| PStart (r : nat) (etag timemin timeout : N)      (* a request comes *)
| PStep (r : nat)                                  (* a step of its wait *)
| PReady (r : nat)                                 (* wait has returned: Ok(etag_new) *)
| PTimeout (r : nat)                               (* timeout: Err(_elapsed) *)
| PWake (r : nat).                                 (* the sleep is over *)

(** Changes one field: one of the requests (sync.rs:687-714). *)
Definition set_request (s : poll_state) (r : nat) (q : request) : poll_state :=
  PollState (ps_counter s) (ps_now s) (<[r := q]> (ps_requests s)).
(** Changes one field: the counter (sync.rs:696). *)
Definition set_counter (s : poll_state) (c : ev_state N) : poll_state := PollState c (ps_now s) (ps_requests s).
(** Changes one field: where a request is (sync.rs:695-706). *)
Definition with_phase (q : request) (p : req_phase) : request :=
  Request (rq_start q) (rq_etag q) (rq_timemin q) (rq_timeout q) p.

(** Lines 701-706 *)
Definition after_wait (s : poll_state) (q : request) (etag_new : N) : req_phase :=
  if N.ltb (ps_now s - rq_start q) (rq_timemin q) then RSleeping else RReturned etag_new (ps_now s).

(** One step of sync.rs:687-714 or of the counter. *)
Definition poll_step (s : poll_state) (a : poll_action) : option poll_state :=
  match a with
  | PTick dt => Some (PollState (ps_counter s) (ps_now s + dt) (ps_requests s))
  | PIncr t => match ev_step (ps_counter s) (counter_incr t) with Some c => Some (set_counter s c) | None => None end
  | PNotify t => match ev_step (ps_counter s) (EvNotify t) with Some c => Some (set_counter s c) | None => None end
  | PStart r etag timemin timeout =>
      match ps_requests s !! r, ev_step (ps_counter s) (counter_wait r etag) with
      | None, Some c => Some (set_request (set_counter s c) r (Request (ps_now s) etag timemin timeout RWaiting))
      | _, _ => None
      end
  | PStep r => match ev_step (ps_counter s) (EvStep r) with Some c => Some (set_counter s c) | None => None end
  | PReady r =>
      match ps_requests s !! r, ev_waiters (ps_counter s) !! r with
      | Some q, Some (_, WDone v) =>
          match rq_phase q with RWaiting => Some (set_request s r (with_phase q (after_wait s q v))) | _ => None end
      | _, _ => None
      end
  | PTimeout r =>
      match ps_requests s !! r, ev_waiters (ps_counter s) !! r with
      | Some q, Some (_, WDone v) => None
      | Some q, Some _ =>
          match rq_phase q with
          | RWaiting =>
              if N.leb (rq_start q + rq_timeout q) (ps_now s)
              then Some (set_request s r (with_phase q (after_wait s q (ev_value (ps_counter s)))))
              else None
          | _ => None
          end
      | _, _ => None
      end
  | PWake r =>
      match ps_requests s !! r with
      | Some q =>
          match rq_phase q with
          | RSleeping =>
              if N.leb (rq_start q + rq_timemin q) (ps_now s)
              then Some (set_request s r (with_phase q (RReturned (ev_value (ps_counter s)) (ps_now s))))
              else None
          | _ => None
          end
      | None => None
      end
  end.

(** A list of steps; it models no code: any interleaving of sync.rs:687-714 and async_flag.rs:83-114 is such a list. *)
Fixpoint poll_run (s : poll_state) (acts : list poll_action) : option poll_state :=
  match acts with [] => Some s | a :: acts => match poll_step s a with Some s' => poll_run s' acts | None => None end end.

(** The counter at the beginning (async_flag.rs:73-80). *)
Definition poll_new : poll_state := PollState (ev_new 0) 0 ∅.

(** ** fancy_cancellation_token.rs *)
(** Lines 8-12; times are in some unit. *)
Inductive cancellation := CancelledAfterTime (t : N) | HardCancelled.

(** cancel, 79-98: whether the call stores its state, given what it read. *)
Definition cancel_decides (existing : option cancellation) (new : cancellation) : bool :=
  match new with
  | HardCancelled => true
  | CancelledAfterTime new_time =>
      match existing with
      | Some (CancelledAfterTime existing_time) => negb (N.ltb existing_time new_time)
      | Some HardCancelled => false
      | None => true
      end
  end.
(** A call of cancel during which nobody else changes the token (fancy_cancellation_token.rs:79-98). *)
Definition cancel (existing : option cancellation) (new : cancellation) : option cancellation :=
  if cancel_decides existing new then Some new else existing.

(** soft_cancelled, 42-62: whether a waiter for work begun at [time] returns on reading [s]. *)
Definition soft_released (time : N) (s : option cancellation) : bool :=
  match s with
  | Some (CancelledAfterTime cancel_time) => N.ltb cancel_time time
  | Some HardCancelled => true
  | None => false
  end.
(** hard_cancelled, 65-77 *)
Definition hard_released (s : option cancellation) : bool :=
  match s with Some HardCancelled => true | _ => false end.

(** The token with its threads: tokio::sync::watch keeps the value and a version; each receiver remembers the version
    it has seen; changed() returns when the version differs. *)
Inductive tok_waiter :=
| TCheck (released : option cancellation -> bool)                  (* before borrow_and_update *)
| TSleep (released : option cancellation -> bool) (seen : N)       (* in changed() *)
| TReturned (released : option cancellation -> bool) (s : option cancellation).
Record token := Token {
  t_value : option cancellation;
  t_version : N;
  t_waiters : gmap nat tok_waiter;
  t_cancels : gmap nat cancellation       (* calls of cancel that decided to store and have not yet *)
}.
Inductive tok_action :=
| TCancelRead (c : nat) (new : cancellation)     (* 80-96 *)
| TCancelStore (c : nat)                         (* 97 *)
| TWait (w : nat) (released : option cancellation -> bool)
| TStep (w : nat).

(** One step of fancy_cancellation_token.rs:42-98. *)
Definition tok_step (s : token) (a : tok_action) : option token :=
  match a with
  | TCancelRead c new =>
      match t_cancels s !! c with
      | None => Some (if cancel_decides (t_value s) new
                      then Token (t_value s) (t_version s) (t_waiters s) (<[c := new]> (t_cancels s)) else s)
      | Some _ => None
      end
  | TCancelStore c =>
      match t_cancels s !! c with
      | Some new => Some (Token (Some new) (t_version s + 1) (t_waiters s) (delete c (t_cancels s)))
      | None => None
      end
  | TWait w released =>
      match t_waiters s !! w with
      | None => Some (Token (t_value s) (t_version s) (<[w := TCheck released]> (t_waiters s)) (t_cancels s))
      | Some _ => None
      end
  | TStep w =>
      match (t_waiters s !! w : option tok_waiter) with
      | Some (TCheck released) =>
          Some (Token (t_value s) (t_version s)
                  (<[w := if released (t_value s) then TReturned released (t_value s) else TSleep released (t_version s)]> (t_waiters s))
                  (t_cancels s))
      | Some (TSleep released seen) =>
          if N.eqb seen (t_version s) then None
          else Some (Token (t_value s) (t_version s) (<[w := TCheck released]> (t_waiters s)) (t_cancels s))
      | _ => None
      end
  end.
(** A list of steps; it models no code: any interleaving of fancy_cancellation_token.rs:42-98 is such a list. *)
Fixpoint tok_run (s : token) (acts : list tok_action) : option token :=
  match acts with [] => Some s | a :: acts => match tok_step s a with Some s' => tok_run s' acts | None => None end end.
(** fancy_cancellation_token.rs:20-28 new *)
Definition tok_new : token := Token None 0 ∅ ∅.
