(** Model of /repo/src/time/ratecounter.rs over the real numbers. The code computes with f64: rounding is not modelled.
    Times are in seconds; Instant subtraction saturates at 0. *)
From Coq Require Export Reals List.
Export ListNotations.
Open Scope R_scope.

(** ratecounter.rs:3-11 *)
Record rate_counter := RateCounter { rc_t0 : R; rc_t_last : R; rc_lambda : R; rc_k : R }.

(** Instant subtraction (ratecounter.rs:33, 41-42). *)
Definition since (now t : R) : R := Rmax 0 (now - t).

(** ratecounter.rs:22-31 new, at time [t0] *)
Definition rc_new (tau t0 : R) : rate_counter := RateCounter t0 t0 0 (1 / tau).

(** ratecounter.rs:32-37 update *)
Definition rc_update (c : rate_counter) (now : R) : rate_counter :=
  let dur := since now (rc_t_last c) in
  RateCounter (rc_t0 c) now (rc_k c + exp (- rc_k c * dur) * rc_lambda c) (rc_k c).

(** ratecounter.rs:38-49 get_rate *)
Definition rc_rate (c : rate_counter) (now : R) : R :=
  let numerator := exp (- rc_k c * since now (rc_t_last c)) * rc_lambda c in
  let denominator := 1 - exp (- rc_k c * since now (rc_t0 c)) in
  if Rlt_dec 0 denominator then numerator / denominator else 0.

(** The counter after events at the times [ts]. It models no code: the calls of update at sync.rs:637. *)
Definition rc_after (tau t0 : R) (ts : list R) : rate_counter := fold_left rc_update ts (rc_new tau t0).
