(** Vocabulary for flags, counters, status requests and the cancellation token. *)
From Verif Require Export SyncModel.

Section event.
  Context {V : Type}.
  (** The value satisfies [ok] in the state [s] and all along [acts]. *)
  Fixpoint stays (ok : V -> bool) (s : ev_state V) (acts : list (ev_action V)) : Prop :=
    ok (ev_value s) = true /\
    match acts with
    | [] => True
    | a :: acts => match ev_step s a with Some s' => stays ok s' acts | None => True end
    end.
  (** Number of steps of waiter [w]. *)
  Definition own_step (w : nat) (a : ev_action V) : bool := match a with EvStep w' => Nat.eqb w w' | _ => false end.
  Definition own_steps (w : nat) (acts : list (ev_action V)) : nat := length (List.filter (own_step w) acts).
  Definition has_returned (s : ev_state V) (w : nat) (v : V) : Prop := exists ok, ev_waiters s !! w = Some (ok, WDone v).
  Definition is_waiting (s : ev_state V) (w : nat) (ok : V -> bool) : Prop :=
    exists x, ev_waiters s !! w = Some (ok, x) /\ forall v, x <> WDone v.
End event.

(** Calls of cancel made in a run, in the order in which they read the token. *)
Definition tok_calls (acts : list tok_action) : list cancellation :=
  omap (fun a => match a with TCancelRead _ new => Some new | _ => None end) acts.
(** No call of cancel begins before the last one has ended. *)
Fixpoint no_overlap (s : token) (acts : list tok_action) : Prop :=
  match acts with
  | [] => True
  | a :: acts =>
      match a with TCancelRead _ _ => t_cancels s = ∅ | _ => True end /\
      match tok_step s a with Some s' => no_overlap s' acts | None => True end
  end.

(** What a set of requests amounts to. *)
Definition amounts_to (calls : list cancellation) (s : option cancellation) : Prop :=
  (s = None <-> calls = []) /\
  (s = Some HardCancelled <-> In HardCancelled calls) /\
  (forall t, s = Some (CancelledAfterTime t) <->
     ~ In HardCancelled calls /\ In (CancelledAfterTime t) calls /\ forall t', In (CancelledAfterTime t') calls -> t <= t').

(** What a program does with a flag ([unset]: whether it also unsets it) and with a counter. *)
Inductive flag_act (unset : bool) : ev_action bool -> Prop :=
| fa_set t : flag_act unset (flag_set t)
| fa_unset t : unset = true -> flag_act unset (flag_unset t)
| fa_notify t : flag_act unset (EvNotify t)
| fa_wait w : flag_act unset (flag_wait w)
| fa_step w : flag_act unset (EvStep w).
Inductive counter_act : ev_action N -> Prop :=
| ca_incr t : counter_act (counter_incr t)
| ca_notify t : counter_act (EvNotify t)
| ca_wait w from : counter_act (counter_wait w from)
| ca_step w : counter_act (EvStep w).

(** A status request came with these parameters and was answered with [etag] at time [t]. *)
Definition answered (s : poll_state) (r : nat) (q : request) (etag t : N) : Prop :=
  ps_requests s !! r = Some q /\ rq_phase q = RReturned etag t.
Definition unanswered (s : poll_state) (r : nat) (q : request) : Prop :=
  ps_requests s !! r = Some q /\ forall etag t, rq_phase q <> RReturned etag t.

(** A token in state [s] releases work begun at time [time]. *)
Definition releases (s : option cancellation) (time : N) : Prop :=
  s = Some HardCancelled \/ exists t, s = Some (CancelledAfterTime t) /\ t < time.
