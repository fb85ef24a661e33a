(** Model of /repo/src/time/ratecounter.rs with the roundings of f64. A finite f64 is the real
    number it stands for; each operation of the code is the exact operation followed by
    [b64], rounding to the nearest f64, ties to even (IEEE 754). Overflow is left out: see
    [no_overflow] in FloatProps.v. [fexp] is f64::exp of the platform's library; theorems
    assume [good_exp] of FloatSpec.v. Times are nanoseconds of a monotonic clock. *)
From Coq Require Export Reals List ZArith.
From Flocq Require Import Core.
Export ListNotations.
Open Scope R_scope.

(** Rounding to the nearest f64: 53 bits, least exponent -1074. *)
Definition b64 (x : R) : R := round radix2 (FLT_exp (-1074) 53) ZnearestE x.

(** Duration::as_secs_f64 of the standard library: secs as f64 + nanos as f64 / 1e9. *)
Definition secs_f64 (ns : N) : R :=
  b64 (b64 (IZR (Z.of_N (ns / 1000000000))) + b64 (b64 (IZR (Z.of_N (ns mod 1000000000))) / 1000000000)).

(** ratecounter.rs:3-11 *)
Record frate := FRate { fr_t0 : N; fr_last : N; fr_lambda : R; fr_k : R }.

(** ratecounter.rs:22-31; the clock is read twice. *)
Definition fr_new (tau : R) (t0 t_last : N) : frate := FRate t0 t_last 0 (b64 (1 / tau)).

Section rate.
Variable fexp : R -> R.

(** (-self.k * (now - t).as_secs_f64()).exp(); subtraction of Instants saturates at 0, as does
    that of [N]. *)
Definition decay (c : frate) (now t : N) : R := fexp (b64 (- fr_k c * secs_f64 (now - t))).

(** ratecounter.rs:32-37 *)
Definition fr_update (c : frate) (now : N) : frate :=
  FRate (fr_t0 c) now (b64 (fr_k c + b64 (decay c now (fr_last c) * fr_lambda c))) (fr_k c).

(** ratecounter.rs:38-49 *)
Definition numerator (c : frate) (now : N) : R := b64 (decay c now (fr_last c) * fr_lambda c).
(** ratecounter.rs:42 *)
Definition denominator (c : frate) (now : N) : R := b64 (1 - decay c now (fr_t0 c)).
(** ratecounter.rs:44-48 *)
Definition fr_rate (c : frate) (now : N) : R :=
  if Rlt_dec 0 (denominator c now) then b64 (numerator c now / denominator c now) else 0.

(** After events at the times [ts]. It models no code: calls of update (ratecounter.rs:32-37) one after the other. *)
Definition fr_after (tau : R) (t0 t_last : N) (ts : list N) : frate := fold_left fr_update ts (fr_new tau t0 t_last).
End rate.
