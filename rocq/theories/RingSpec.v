(** Vocabulary for the average run time. *)
From Verif Require Export SchedSpec.

(** The run times (ns) of the successful tasks, in the order in which their reports were processed. *)
Definition successful_run_times (t : list obs) : list N :=
  omap (fun o => match o with OFinished _ (Code 0) e => e | _ => None end) t.

(** The last [n] elements of a list. *)
Definition last_elements {A} (n : nat) (l : list A) : list A := drop (length l - n) l.

(** [m] is the integer mean of the numbers of [l]. *)
Definition integer_mean (l : list N) (m : N) : Prop :=
  match l with
  | [] => m = 0%N
  | _ => let sum := fold_right N.add 0%N l in
         (m * N.of_nat (length l) <= sum /\ sum < (m + 1) * N.of_nat (length l))%N
  end.
Definition whole_milliseconds (ns : N) : N := (ns / 1000000)%N.
