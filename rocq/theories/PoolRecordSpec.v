(** Vocabulary for what the log says about tasks that ran in processes of local runners. *)
From Verif Require Export PoolSpec RecordSpec.

(** What a report of local loop [c] says is so when it is made, after [t]: the process was spawned, or could not be; the outcome is that of the process. *)
Definition local_truth (t : list pobs) (c : nat) (r : told) : Prop :=
  match r with
  | Begun n _ pid job => job = ""%string /\ ((exists start, In (PSpawned c n pid start) t) \/ pid = 0%N /\ ~ spawned_task t n)
  | Ended n s vs => outcome t c n s vs
  end.

(** What is to be said about a process that is over: if it was waited for, its exit code, or the number of the signal that ended it, negated, and the values it
    wrote to descriptor 3; if a soft shutdown stopped it, that it was cancelled. *)
Definition to_report (w : way) : option (exit_status * list (gmap string string)) :=
  match w with
  | Reaped raw fd3 => match child_code raw with Some s => Some (s, fd3_values fd3) | None => None end
  | Killed BySoft => Some (Cancelled, [])
  | Killed _ => None
  end.
