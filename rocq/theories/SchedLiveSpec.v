(** Vocabulary for the end of an execute() call: what the tracker and the runners do by themselves, and what
    happens only on request or by accident. *)
From Verif Require Export SchedSpec.

(** Steps of the tracker and of runners that keep going. The others are a shutdown requested from outside (and its
    handling), Ctrl-C, and a runner that is dropped. *)
Definition routine (a : action) : Prop :=
  match a with
  | ASoft | AHardExit | ACtrlC | ADrop _ | ATriggerSoft | AHardCancel => False
  | _ => True
  end.

(** No runner is dropped and no soft shutdown is requested from outside. *)
Definition keeps_going (acts : list action) : Prop :=
  Forall (fun a => match a with ADrop _ | ATriggerSoft => False | _ => True end) acts.

Definition nobody_drops (acts : list action) : Prop := forall c, ADrop c ∉ acts.

(** Each task can be run by a runner of a type that exists. *)
Definition all_served (cfg : config) : Prop :=
  forall n, in_graph cfg n -> exists c i, cf_types cfg !! c = Some i /\ i < 64 /\ N.testbit (aff cfg n) (N.of_nat i) = true.

(** Nothing can happen by itself. *)
Definition stuck (cfg : config) (s : st) : Prop := forall a, routine a -> step cfg s a = None.

(** All steps except the two requests from outside, which set a flag and can be repeated without effect. *)
Definition work (a : action) : bool := match a with ATriggerSoft | AHardCancel => false | _ => true end.
Definition soft_request (a : action) : bool := match a with ATriggerSoft => true | _ => false end.
Definition number (f : action -> bool) (acts : list action) : nat := length (List.filter f acts).
