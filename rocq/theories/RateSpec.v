(** Vocabulary for the rate counter. *)
From Verif Require Export RateModel.

(** The sum of [f] over a list. *)
Fixpoint sum_over (f : R -> R) (l : list R) : R := match l with [] => 0 | x :: l => f x + sum_over f l end.

(** The times of the events do not decrease, start at or after [t] and end at or before [t']. *)
Fixpoint ordered_between (t : R) (l : list R) (t' : R) : Prop :=
  match l with [] => t <= t' | x :: l => t <= x /\ ordered_between x l t' end.
