(** Vocabulary for the rate counter with roundings. *)
From Verif Require Export FloatModel.
From Flocq Require Import Core.
Open Scope R_scope.

(** What is assumed of f64::exp, for arguments that are not positive: its values are f64 in
    [0, 1], it does not decrease, and it is accurate to one unit in the last place (for results
    that are too small for that, to 2^-1022). *)
Record good_exp (fexp : R -> R) : Prop := GoodExp {
  ge_format : forall x, b64 (fexp x) = fexp x;
  ge_range : forall x, x <= 0 -> 0 <= fexp x <= 1;
  ge_mono : forall x y, x <= y -> y <= 0 -> fexp x <= fexp y;
  ge_above : forall x, x <= 0 -> fexp x <= (1 + bpow radix2 (-52)) * (exp x + bpow radix2 (-1022));
  ge_below : forall x, x <= 0 -> (1 - bpow radix2 (-52)) * (exp x - bpow radix2 (-1022)) <= fexp x
}.

(** Nanoseconds as seconds, exactly. *)
Definition seconds (ns : N) : R := IZR (Z.of_N ns) / 1000000000.

Fixpoint sum_over_events (f : N -> R) (l : list N) : R :=
  match l with [] => 0 | x :: l => f x + sum_over_events f l end.

(** The times do not decrease, start at or after [t] and end at or before [t']. *)
Fixpoint in_order (t : N) (l : list N) (t' : N) : Prop :=
  match l with [] => (t <= t')%N | x :: l => (t <= x)%N /\ in_order x l t' end.

(** The exact formula: sum of k exp(-k(t-ti)) over the events, divided by 1 - exp(-k(t-t0)),
    with k = 1/tau. *)
Definition weighted_count (tau : R) (ts : list N) (t : N) : R :=
  sum_over_events (fun ti => 1 / tau * exp (- (1 / tau) * seconds (t - ti))) ts.
Definition warm_up (tau : R) (t0 t : N) : R := 1 - exp (- (1 / tau) * seconds (t - t0)).
Definition exact_rate (tau : R) (t0 : N) (ts : list N) (t : N) : R := weighted_count tau ts t / warm_up tau t0 t.

(** The exact results, before rounding, of the operations of update and rate at [now]; the
    last is 0 when the division is not made. *)
Definition exact_results (fexp : R -> R) (c : frate) (now : N) : list R :=
  [ secs_f64 (now - fr_last c); secs_f64 (now - fr_t0 c); - fr_k c * secs_f64 (now - fr_last c); - fr_k c * secs_f64 (now - fr_t0 c);
    decay fexp c now (fr_last c) * fr_lambda c; fr_k c + b64 (decay fexp c now (fr_last c) * fr_lambda c);
    1 - decay fexp c now (fr_t0 c);
    if Rlt_dec 0 (denominator fexp c now) then numerator fexp c now / denominator fexp c now else 0 ].
