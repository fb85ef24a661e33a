(** Vocabulary for the progress lines of a session. *)
From Verif Require Export ProgressModel LinesSpec SessionSpec.
Open Scope list_scope.

(** A history of a log that starts empty, with the messages of each event. *)
Definition printed (h : list (event_of_history * list message)) (w : world) : Prop := phistory (World [] None) h w.
(** [s]: the events, with their messages, of the running (or last) session of [h]. *)
Definition last_session_of (h s : list (event_of_history * list message)) : Prop :=
  exists h0 a c, h = h0 ++ (HOpened a, c) :: s /\ forall a' c', ~ In (HOpened a', c') s.
Definition all_messages (s : list (event_of_history * list message)) : list message := concat (map snd s).
(** A call in whose final clean-up tasks were reported: it was interrupted while they ran. *)
Definition cut_short (ev : event_of_history) : Prop :=
  exists target cfg t r n x, ev = HExecuted target cfg t r /\ In (ODrainFinished n x) t.
(** The key of a task that was added, or added again, in [s]. *)
Definition added (s : list (event_of_history * list message)) (k : string) : Prop := exists n c, In (HAdded k (AddOk n), c) s.
