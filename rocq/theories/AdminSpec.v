(** Vocabulary for the admin sockets. *)
From Verif Require Export AdminModel LocSpec.
Open Scope list_scope.

(** Whether the process runs, [alive] before the events [t]. *)
Definition alive_after (alive : N -> bool) (t : list adminobs) (pid : N) : bool :=
  fold_left (fun b o => match o with ProcStarted p => if N.eqb p pid then true else b | ProcDied p => if N.eqb p pid then false else b | _ => b end) t (alive pid).

(** The name contains wrk-PID, some character, sock. *)
Definition names_process (name : list N) (pid : N) : Prop :=
  exists before digits c after, name = before ++ text "wrk-" ++ text digits ++ [c] ++ text "sock" ++ after /\ digits_value 0 digits = Some pid.

(** Call [c] does not go on with its cleaning up. *)
Definition no_news (c : nat) (t : list adminobs) : Prop :=
  forall o, In o t -> (forall n, o <> Removed c n) /\ (forall n p b, o <> Checked c n p b).

(** No process gets the number of an ended one while that one's socket is being removed, and no process makes a call while
    another one of its calls is going on. *)
Definition calm (other_digit : N -> bool) (alive : N -> bool) (names : list N -> bool) (acts : list adminact) : Prop :=
  forall acts1 a acts2 w t, acts = acts1 ++ a :: acts2 -> admin_run other_digit (admin_start alive names) acts1 = Some (w, t) ->
  match a with
  | ProcStart pid => forall c k, wo_calls w !! c = Some k -> ca_cleaner k <> Removing (sock_name pid)
  | CallStart pid => forall c k, wo_calls w !! c = Some k -> ca_pid k = pid -> ca_phase k = Over
  | _ => True
  end.
