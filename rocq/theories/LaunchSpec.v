(** Vocabulary for the rate of hand-outs. *)
From Verif Require Export LaunchModel SchedSpec.
From Verif Require GcraSpec.

Definition gate_side (t : list (GcraModel.obs + obs)) : list GcraModel.obs :=
  omap (fun x => match x with inl o => Some o | inr _ => None end) t.
Definition task_side (t : list (GcraModel.obs + obs)) : list obs :=
  omap (fun x => match x with inl _ => None | inr o => Some o end) t.

(** The steps of a run that are the limiter's and the tracker's. *)
Definition gate_actions (acts : list laction) : list GcraModel.action :=
  omap (fun a => match a with LGate a => Some a | LTracker _ => None end) acts.
Definition task_actions (acts : list laction) : list action :=
  omap (fun a => match a with LTracker a => Some a | LGate _ => None end) acts.

(** Tasks handed out. *)
Definition handouts (t : list (GcraModel.obs + obs)) : N := N.of_nat (length (handed (task_side t))).
(** Attempts admitted by the limiter. *)
Definition is_admitted (o : GcraModel.obs) : bool := match o with GcraModel.OAdmitted _ _ => true | _ => false end.
Definition admissions (t : list (GcraModel.obs + obs)) : N := N.of_nat (length (List.filter is_admitted (gate_side t))).

(** The same for one client. *)
Definition to_client (c : nat) (o : obs) : bool := match o with OHandedOut c' _ _ => Nat.eqb c' c | _ => false end.
Definition of_client (c : nat) (o : GcraModel.obs) : bool := match o with GcraModel.OAdmitted c' _ => Nat.eqb c' c | _ => false end.
Definition handouts_to (c : nat) (t : list (GcraModel.obs + obs)) : nat := length (List.filter (to_client c) (task_side t)).
Definition admissions_of (c : nat) (t : list (GcraModel.obs + obs)) : nat := length (List.filter (of_client c) (gate_side t)).

(** Clients inside recv that have passed the limiter and have no task yet. *)
Definition in_queue (x : cstate) : bool := match x with CWait | CPopped _ | CClaimed _ => true | _ => false end.
Definition queued_up (s : launch) : N :=
  N.of_nat (size (la_through s) + length (List.filter in_queue (st_clients (la_tracker s)))).

(** The clock values of the attempts of a run. *)
Definition attempts_within (lo hi : N) (acts : list laction) : Prop :=
  forall c now, LGate (GcraModel.AClock c now) ∈ acts -> (lo <= now <= hi)%N.
Definition no_change (acts : list laction) : Prop := forall a, LGate a ∈ acts -> ~ GcraSpec.is_reset a.
