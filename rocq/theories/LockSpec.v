(** Vocabulary for the lock on a log directory. *)
From Verif Require Export LockModel.

(** The process has the log open: its constructor has returned and its destructor has not begun. *)
Definition has_log (s : fs) (p : nat) : Prop := exists i x, f_procs s !! p = Some (PSession i x).
(** The process may still read or write the log. *)
Definition may_touch (s : fs) (p : nat) : Prop :=
  exists i, f_procs s !! p = Some (PLocked i) \/ exists x, f_procs s !! p = Some (PSession i x) \/ f_procs s !! p = Some (PUnlinked i x).

(** Openings and closings do not overlap: no process opens the lock file between the removal of the lock file by
    another and its last write, and none removes the lock file between another's opening and locking it. *)
Definition calm (s : fs) (a : action) : Prop :=
  match a with
  | AOpen p => forall q i x, f_procs s !! q <> Some (PUnlinked i x)
  | ADrop p => forall q i, f_procs s !! q <> Some (POpened i)
  | _ => True
  end.
Fixpoint calm_run (s : fs) (acts : list action) : Prop :=
  match acts with
  | [] => True
  | a :: acts => calm s a /\ match step s a with Some (s1, _) => calm_run s1 acts | None => True end
  end.

Definition crash (a : action) : bool := match a with ACrash _ => true | _ => false end.
(** Everything written to the log, in order. *)
Definition written (acts : list action) : bytes := List.concat (map (fun a => match a with AWrite _ b => b | _ => [] end) acts).
Definition of_proc (p : nat) (a : action) : bool :=
  match a with
  | AOpen q | ALock q | ALoad q | ALoadFails q | AWrite q _ | AFlush q _ | ADrop q | AFinal q | AClose q | ACrash q => Nat.eqb p q
  end.
