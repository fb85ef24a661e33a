(** Vocabulary for the remote runner. *)
From Verif Require Export RemoteModel.

(** ** The messages of the runner *)
(** [e] is a SIGTERM to the process [pid]. *)
Definition sigterm_to (pid : N) (e : remote_event) : Prop := exists w, e = VSigterm pid w.

(** Whether the event [e] is in its place after the events [before]: a task is given only in answer to the first request
    or to a report; /begun follows at once; then come only signals to the task's process, and the report. The report
    says whether the deadline was the reason for a signal, and carries the slurm message if that was. *)
Definition in_place (before : list remote_event) (e : remote_event) : Prop :=
  match e with
  | VStart => before = []
  | VGiven tx => before = [VStart] \/ exists a tx' st late next out, before = a ++ [VEnd tx' st late None next out]
  | VBegun tx pid => exists a, before = a ++ [VGiven tx]
  | VSigterm pid w => exists a tx sigs, before = a ++ VGiven tx :: VBegun tx pid :: sigs /\ Forall (sigterm_to pid) sigs
  | VEnd tx st late slurm next out =>
      exists a pid sigs, before = a ++ VGiven tx :: VBegun tx pid :: sigs /\ Forall (sigterm_to pid) sigs
        /\ (late = true <-> exists now, VSigterm pid (Some now) ∈ sigs)
        /\ (slurm <> None <-> VSigterm pid None ∈ sigs)
  end.

(** Counting events. *)
Definition is_given (e : remote_event) : bool := match e with VGiven _ => true | _ => false end.
Definition is_begun (e : remote_event) : bool := match e with VBegun _ _ => true | _ => false end.
Definition is_end (e : remote_event) : bool := match e with VEnd _ _ _ _ _ _ => true | _ => false end.
Definition count {A} (f : A -> bool) (l : list A) : nat := length (List.filter f l).

(** What is read about accepting further tasks, if the input comes with it. *)
Definition reads_usr1 (i : remote_input) : Prop := match i with IOk u _ | IOutput _ u _ _ => u = true | _ => True end.
Definition reads_after (t : N) (i : remote_input) : Prop := match i with IOk _ now | IOutput _ _ now _ => t <= now | _ => True end.

(** ** Cleanup *)
Definition listed (passes : list pass) (c : proc) : Prop := exists p t, p ∈ passes /\ (c, t) ∈ ps_children p.
(** No number of a process is used again during the cleanup. *)
Definition no_reuse (passes : list pass) : Prop :=
  forall c d, listed passes c -> listed passes d -> pr_pid c = pr_pid d -> c = d.
(** The pass is not the last one. *)
Definition goes_on (p : pass) : Prop := ps_children p <> [] /\ ps_error p = false.
Definition sigterms (es : list sent) : list proc :=
  omap (fun e => match e with (c, SIGTERM, _) => Some c | _ => None end) es.
