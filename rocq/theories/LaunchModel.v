(** The rate limiter (GcraModel.v) in front of the queues of the tracker (SchedModel.v), sync.rs:612-641: recv first
    waits for the limiter, then for a task. *)
From Verif Require Export SchedModel.
From Verif Require GcraModel.

(** sync.rs:85-96 ReadyTrackerClient: the limiter and the rest; [la_through] are the clients inside recv between the
    limiter (614) and the queue (616). *)
Record launch := Launch {
  la_gate : GcraModel.state;
  la_tracker : st;
  la_through : gset nat
}.

(** Steps of the limiter (time/gcra.rs:43-92) and of the tracker (sync.rs). *)
Inductive laction := LGate (a : GcraModel.action) | LTracker (a : action).

Section launch.
  Context (cfg : config).

  (** sync.rs:104-178, the limiter is created with the tracker. *)
  Definition launch_new (now rate : N) : launch :=
    Launch (GcraModel.fresh (GcraModel.new_limiter now rate)) (initial cfg) ∅.

  (** Client [c] is not inside an attempt (time/gcra.rs:73-92). *)
  Definition at_rest (s : launch) (c : nat) : bool :=
    match GcraModel.thread_of (la_gate s) c with GcraModel.TIdle => true | _ => false end.

  (** A client attempts to pass the limiter when it calls recv (sync.rs:614, time/gcra.rs:63-71); the attempt itself is one
      synchronous call (gcra.rs:73-92), so the future of recv is not dropped during it. *)
  Definition may_gate (s : launch) (a : GcraModel.action) : bool :=
    match a with
    | GcraModel.AClock c _ =>
        match st_clients (la_tracker s) !! c with Some CIdle => negb (bool_decide (c ∈ la_through s)) | _ => false end
    | _ => true
    end.
  (** sync.rs:616: the queue is looked up after the limiter was passed. *)
  Definition may_track (s : launch) (a : action) : bool :=
    match a with
    | ARecv c => bool_decide (c ∈ la_through s)
    | ADrop c => at_rest s c
    | _ => true
    end.
  (** sync.rs:614, 616: passing the limiter; leaving it behind. *)
  Definition through (o : list GcraModel.obs) (x : gset nat) : gset nat :=
    match o with [GcraModel.OAdmitted c _] => {[c]} ∪ x | _ => x end.
  Definition behind (a : action) (x : gset nat) : gset nat :=
    match a with ARecv c | ADrop c => x ∖ {[c]} | _ => x end.

  (** sync.rs:612-641: one step of either; the steps of the tracker are those of SchedModel.v. *)
  Definition lstep (s : launch) (a : laction) : option (launch * list (GcraModel.obs + obs)) :=
    match a with
    | LGate a =>
        if may_gate s a then
          match GcraModel.step (la_gate s) a with
          | None => None
          | Some (g, o) => Some (Launch g (la_tracker s) (through o (la_through s)), map inl o)
          end
        else None
    | LTracker a =>
        if may_track s a then
          match step cfg (la_tracker s) a with
          | None => None
          | Some (t, o) => Some (Launch (la_gate s) t (behind a (la_through s)), map inr o)
          end
        else None
    end.

  (** Runs (of the threads of sync.rs and time/gcra.rs), with what is seen on both sides in order. *)
  Fixpoint lrun (s : launch) (acts : list laction) : option (launch * list (GcraModel.obs + obs)) :=
    match acts with
    | [] => Some (s, [])
    | a :: acts =>
        match lstep s a with
        | None => None
        | Some (s1, t1) => match lrun s1 acts with None => None | Some (s2, t2) => Some (s2, t1 ++ t2) end
        end
    end.
End launch.
