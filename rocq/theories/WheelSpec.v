(** Vocabulary for the time wheel. *)
From Verif Require Export WheelModel.
Open Scope nat_scope.

(** Number of ticks among some operations. *)
Definition is_tick {E} (o : op E) : bool := match o with OTick => true | _ => false end.
Definition ticks {E} (ops : list (op E)) : nat := length (List.filter is_tick ops).

(** The entry [e] is not inserted. *)
Definition not_inserted {E} (e : E) (ops : list (op E)) : Prop := forall dur, ~ In (OInsert dur e) ops.

(** The tick at which an entry inserted with [dur] is due: after as many ticks as slots ahead, or after a whole turn. *)
Definition due (duration dur : N) : nat :=
  if N.eqb (steps_ahead duration dur) 0 then 256 else N.to_nat (steps_ahead duration dur).
