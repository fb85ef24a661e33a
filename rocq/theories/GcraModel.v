(** Model of the rate limiter, /repo/src/time/gcra.rs. Numbers are u64 with wrap-around, as in
    the release profile. Each atomic access is one step; any number of threads interleave. *)
From stdpp Require Export prelude gmap.
From Coq Require Export NArith.
Open Scope N_scope.

(** The number of values of a u64, the type of gcra.rs:25-26. *)
Definition U64 : N := 18446744073709551616.
(** gcra.rs:21-22 *)
Definition PERIOD : N := 1000000000.

(** Addition of u64 (gcra.rs:36, 49, 105). *)
Definition wadd (a b : N) : N := (a + b) mod U64.
(** Multiplication of u64 (gcra.rs:36, 49, 99). *)
Definition wmul (a b : N) : N := (a * b) mod U64.
(** [a - b] for [b < U64] *)
Definition wsub (a b : N) : N := (a + (U64 - b)) mod U64.

(** gcra.rs:31-35 and 44-48 *)
Definition tau_of (rate : N) : N := if N.eqb rate 0 then 0 else PERIOD / rate.
(** gcra.rs:36 and 49 *)
Definition tat_of (now rate : N) : N := wadd now (wmul (tau_of rate) rate).

(** gcra.rs:24-27 RateLimiter *)
Record limiter := Limiter { l_tau : N; l_tat : N }.

(** gcra.rs:30-41 new *)
Definition new_limiter (now rate : N) : limiter := Limiter (tau_of rate) (tat_of now rate).

(** gcra.rs:54-61 rate_per_second *)
Definition rate_per_second (l : limiter) : N := if N.eqb (l_tau l) 0 then 0 else PERIOD / l_tau l.

(** gcra.rs:94-113 compute_raw: the new tat and the delay in nanoseconds. *)
Definition compute_raw (now tat tau cost : N) : N * N :=
  if N.eqb tau 0 then (tat, 0)
  else
    let increment := wmul tau cost in
    let tat := N.max tat now in
    let new_tat := wadd tat increment in
    let allow_at := wsub new_tat PERIOD in
    if N.ltb now allow_at then (tat, wsub allow_at now) else (new_tat, 0).

(** A thread in compute(1), gcra.rs:73-92: before reading the clock, before loading tau, before
    loading tat, before the compare_exchange. *)
Inductive thread := TIdle | TNow (now : N) | TTau (now tau : N) | TTat (now tau tat : N).

(** A reset in progress, gcra.rs:43-52: tau is stored, tat not yet. *)
Record state := State {
  g_lim : limiter;
  g_threads : gmap nat thread;
  g_reset : option N                (* the tat to be stored *)
}.

(** What caller [c] of compute (gcra.rs:73) is doing. *)
Definition thread_of (s : state) (c : nat) : thread :=
  match g_threads s !! c with Some t => t | None => TIdle end.

Inductive action :=
| AClock (c : nat) (now : N)        (* 74; the value of the clock *)
| ALoadTau (c : nat)                (* 76 *)
| ALoadTat (c : nat)                (* 77 *)
| ACas (c : nat)                    (* 78-90 *)
| AResetTau (now rate : N)          (* 44-50 *)
| AResetTat.                        (* 51 *)

(** An attempt made at clock [now] was admitted, or refused with a delay. gcra.rs:89, the result of compute. *)
Inductive obs := OAdmitted (c : nat) (now : N) | ORefused (c : nat) (now delay : N).

(** Changes one thread (gcra.rs:73-92). *)
Definition set_thread (s : state) (c : nat) (t : thread) : state :=
  State (g_lim s) (<[c := t]> (g_threads s)) (g_reset s).

(** One atomic access of gcra.rs:43-52 or 73-92; the lines are at the actions. *)
Definition step (s : state) (a : action) : option (state * list obs) :=
  match a with
  | AClock c now =>
      match thread_of s c with TIdle => Some (set_thread s c (TNow now), []) | _ => None end
  | ALoadTau c =>
      match thread_of s c with
      | TNow now => Some (set_thread s c (TTau now (l_tau (g_lim s))), [])
      | _ => None
      end
  | ALoadTat c =>
      match thread_of s c with
      | TTau now tau => Some (set_thread s c (TTat now tau (l_tat (g_lim s))), [])
      | _ => None
      end
  | ACas c =>
      match thread_of s c with
      | TTat now tau tat =>
          let '(new_tat, retry_in) := compute_raw now tat tau 1 in
          if N.eqb (l_tat (g_lim s)) tat then
            Some (State (Limiter (l_tau (g_lim s)) new_tat) (<[c := TIdle]> (g_threads s)) (g_reset s),
                  [if N.eqb retry_in 0 then OAdmitted c now else ORefused c now retry_in])
          else Some (set_thread s c (TNow now), [])
      | _ => None
      end
  | AResetTau now rate =>
      match g_reset s with
      | None => Some (State (Limiter (tau_of rate) (l_tat (g_lim s))) (g_threads s) (Some (tat_of now rate)), [])
      | Some _ => None
      end
  | AResetTat =>
      match g_reset s with
      | Some tat => Some (State (Limiter (l_tau (g_lim s)) tat) (g_threads s) None, [])
      | None => None
      end
  end.

(** A list of actions; it models no code: any interleaving of the callers of compute and reset (gcra.rs:43-92) is such a list. *)
Fixpoint run (s : state) (acts : list action) : option (state * list obs) :=
  match acts with
  | [] => Some (s, [])
  | a :: acts =>
      match step s a with
      | None => None
      | Some (s1, o1) => match run s1 acts with None => None | Some (s2, o2) => Some (s2, o1 ++ o2) end
      end
  end.

(** No call in progress. gcra.rs:37-40 *)
Definition fresh (l : limiter) : state := State l ∅ None.
