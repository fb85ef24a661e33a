(** Changes of the launch limit that overlap: two requests to set the limit are served at the same time, so two calls of
    RateLimiter::reset (/repo/src/time/gcra.rs:43-52, called from src/sync.rs:576) interleave. GcraModel.v has one at a time. *)
From Verif Require Export GcraModel.

(** A call of reset: after the clock is read (gcra.rs:44-49), and after the store of tau (50). *)
Inductive resetting := RRead (tau tat : N) | RStored (tat : N).

(** The limiter (gcra.rs:24-27) and the calls of reset (43-52) under way. *)
Record rstate := RState { rs_lim : limiter; rs_calls : gmap nat resetting }.

Inductive raction :=
| RClock (c : nat) (now rate : N)   (* gcra.rs:44-49: call c of reset, for this rate; the value of the clock *)
| RTau (c : nat)                    (* 50 *)
| RTat (c : nat).                   (* 51 *)

(** One atomic access of gcra.rs:43-52. Simplified: each number [c] is used by one call. *)
Definition rstep (s : rstate) (a : raction) : option rstate :=
  match a with
  | RClock c now rate =>
      match rs_calls s !! c with
      | None => Some (RState (rs_lim s) (<[c := RRead (tau_of rate) (tat_of now rate)]> (rs_calls s)))
      | Some _ => None
      end
  | RTau c =>
      match rs_calls s !! c with
      | Some (RRead tau tat) => Some (RState (Limiter tau (l_tat (rs_lim s))) (<[c := RStored tat]> (rs_calls s)))
      | _ => None
      end
  | RTat c =>
      match rs_calls s !! c with
      | Some (RStored tat) => Some (RState (Limiter (l_tau (rs_lim s)) tat) (delete c (rs_calls s)))
      | _ => None
      end
  end.

(** A list of actions; it models no code: any interleaving of calls of reset (gcra.rs:43-52) is such a list. *)
Fixpoint rrun (s : rstate) (acts : list raction) : option rstate :=
  match acts with
  | [] => Some s
  | a :: acts => match rstep s a with None => None | Some s1 => rrun s1 acts end
  end.
