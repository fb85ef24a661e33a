(** Vocabulary for the heartbeat. *)
From Verif Require Export HeartModel.
Open Scope N_scope.

Definition hreachable (nw : network) (s : heart) (t : list hevent) : Prop := exists acts, hrun nw heart_start acts = Some (s, t).

(** In [t] the runner does not run the task any more: it has given up, or the task is finished. *)
Definition runner_over (t : list hevent) : Prop := exists now, In (EStopped now) t \/ In (EPingFailed now) t \/ In (EFinished now) t.

(** The time a task without any sign of life has at least, 34.73 seconds. *)
Definition PATIENCE : N := 254 * (35001 * 1000000 / 256).
