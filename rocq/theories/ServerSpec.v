(** Vocabulary for statements about the server. *)
From Verif Require Export ServerModel.

(** Counting the deliveries of a task by the tracker and the reports of its end. *)
Definition is_task (n : nat) (e : event) : bool := match e with ETask _ m => Nat.eqb n m | _ => false end.
Definition is_finish (n : nat) (e : event) : bool := match e with EFinished m _ => Nat.eqb n m | _ => false end.
Definition tasks (n : nat) (evs : list event) : nat := length (List.filter (is_task n) evs).
Definition finishes (n : nat) (evs : list event) : nat := length (List.filter (is_finish n) evs).

(** A reply that hands task [n] to a runner under transaction [tx]. *)
Definition gives (tx : N) (n : nat) (e : event) : Prop :=
  exists h, e = EReply h (RStart tx n) \/ e = EReply h (REnd (Some (tx, n))).
(** The last task handed out under [tx]. *)
Definition last_given (tx : N) (n : nat) (evs : list event) : Prop :=
  exists a e b, evs = a ++ e :: b /\ gives tx n e /\ forall e' n', e' ∈ b -> ~ gives tx n' e'.

(** A condition on every step of a run. *)
Fixpoint along (secret : string) (P : server -> label -> Prop) (s : server) (ls : list label) : Prop :=
  match ls with
  | [] => True
  | l :: ls => P s l /\ match step secret s l with Some (s', _) => along secret P s' ls | None => True end
  end.

(** Nothing is going on: no request is being handled, no transaction is open, the reaper waits or has stopped. *)
Definition at_rest (s : server) : Prop :=
  sv_handlers s = ∅ /\ sv_conns s = ∅ /\ (sv_reaper s = PIdle \/ sv_reaper s = PStopped).

(** Steps that do not lose a task: an /end for an open transaction comes from the job that started it, and the random
    transaction id of a new transaction is not that of an open one. *)
Definition honest (secret : string) (s : server) (l : label) : Prop :=
  match l with
  | LRequest h token (Some j) (QEnd tx _ _) =>
      token = secret -> forall c, sv_conns s !! tx = Some c -> c_job c = j
  | LRun h _ =>
      forall node sr job b tx id, sv_handlers s !! h = Some (HTimed node sr job b tx id) -> sv_conns s !! tx = None
  | _ => True
  end.

(** Requests with a token other than the server's. *)
Definition unauthorized (secret : string) (l : label) : bool :=
  match l with LRequest _ token _ _ => negb (String.eqb token secret) | _ => false end.
Definition reply_401 (e : event) : bool :=
  match e with EReply _ (RError Unauthorized) => true | _ => false end.

(** ** Timing *)
Definition is_tick_label (l : label) : bool := match l with LTick => true | _ => false end.
Definition nticks (ls : list label) : nat := length (List.filter is_tick_label ls).

(** A request about transaction [tx] that the server acts upon. *)
Definition pings (secret : string) (tx : N) (l : label) : Prop := exists h j, l = LRequest h secret j (QPing tx).
Definition ends (secret : string) (tx : N) (l : label) : Prop := exists h j rep next, l = LRequest h secret (Some j) (QEnd tx rep next).

(** A handler that holds a timer of no open transaction: between setting the timer and opening the transaction, and
    between removing the transaction and cancelling its timer. *)
Definition critical (x : handler) : Prop :=
  match x with HTimed _ _ _ _ _ _ | HEnd _ _ _ => True | _ => False end.
(** The transactions that the reaper is about to remove. *)
Definition sweep (r : reaper) : list N := match r with PTicked txs _ | PSoft txs _ => txs | _ => [] end.
Definition in_wheel (w : wheel N) (tx : N) : Prop :=
  exists i m k, w_slots w !! i = Some m /\ In (k, tx) (sm_entries m).
(** Schedules without two rare races: the wheel does not turn while a handler is in one of the two short critical
    sections; a newly drawn random transaction id is not in use. *)
Definition calm (s : server) (l : label) : Prop :=
  (l = LTick -> forall h x, sv_handlers s !! h = Some x -> ~ critical x) /\
  (forall h tx node sr job b, l = LRun h tx -> sv_handlers s !! h = Some (HGot node sr job b) ->
     sv_conns s !! tx = None /\ ~ in_wheel (sv_wheel s) tx /\ tx ∉ sweep (sv_reaper s)).
