(** Vocabulary for the parts of a call that run side by side. *)
From Verif Require Export ServiceModel.
Open Scope list_scope.

(** After the actions of some run from the beginning of a call, the state is [s] and the observations were [t]. *)
Definition sreachable (pl : plan) (s : call) (t : list sobs) : Prop := exists acts, srun pl (start pl) acts = Some (s, t).

(** Someone uses the tracker or the graph after they were dropped. *)
Definition use_after_free (t : list sobs) : Prop := exists t1 t2 u, t = t1 ++ OFree :: t2 /\ In (OUse u) t2.

(** What happens to the provisioner and its process. *)
Definition of_provisioner (o : sobs) : bool :=
  match o with OSpawned _ _ _ _ | OSpawnFailed | OWaited _ | OKilled _ _ => true | _ => false end.
Definition provisioner_history (t : list sobs) : list sobs := List.filter of_provisioner t.

(** The provisioner is over: it could not be started, it has exited, or it has been killed. *)
Definition provisioner_over (t : list sobs) : Prop := In OSpawnFailed t \/ (exists pid, In (OWaited pid) t) \/ (exists pid, In (OKilled pid SIGKILL) t).

(** Somebody, or the end of the tasks, asked the call to end. *)
Definition asked_to_end (acts : list saction) : Prop := In AAllFinished acts \/ In ACtrlC acts \/ In AAdminHard acts.

(** Actions that a client, or a part, can repeat without end: new connections, requests, uses of the tracker. *)
Definition repeatable (a : saction) : bool :=
  match a with ALoopUse _ | AConnect | AConnUse | AReap | AAdminConnect | AAdminUse | AAdminHard | AAllFinished => true | _ => false end.
Definition connects (a : saction) : bool := match a with AConnect | AAdminConnect => true | _ => false end.
(** Actions that are failures, or the user's Ctrl-C. *)
Definition unwanted (a : saction) : bool :=
  match a with ACtrlC | AServeFails | ADrainFails | ABindFails | AReaperPanics | AAdminFails | AAdminBroken | AStartFails | AWaitFails => true | _ => false end.
(** [s] can only go on by repeatable or unwanted actions. *)
Definition quiet (pl : plan) (s : call) : Prop := forall a, sstep pl s a <> None -> repeatable a = true \/ unwanted a = true.

(** The characters of RFC 6750's b64token. *)
Definition token_char (a : ascii) : bool :=
  let n := nat_of_ascii a in
  (Nat.leb 65 n && Nat.leb n 90) || (Nat.leb 97 n && Nat.leb n 122) || (Nat.leb 48 n && Nat.leb n 57) ||
  existsb (Ascii.eqb a) ["-"; "."; "_"; "~"; "+"; "/"]%char.
(** At least one of them, then any number of "=". *)
Definition is_b64token (s : string) : Prop :=
  exists x y, s = x +:+ y /\ x <> ""%string /\ Forall (fun a => token_char a = true) (list_ascii_of_string x) /\ Forall (eq "="%char) (list_ascii_of_string y).
