(** Vocabulary for the rate limiter. *)
From Verif Require Export GcraModel.

(** Number of launches admitted whose clock value lies in [a, b]. *)
Definition admitted_in (a b : N) (o : obs) : bool :=
  match o with OAdmitted _ now => N.leb a now && N.leb now b | _ => false end.
Definition launches (a b : N) (t : list obs) : N := N.of_nat (length (List.filter (admitted_in a b) t)).

Definition is_reset (a : action) : Prop :=
  match a with AResetTau _ _ | AResetTat => True | _ => False end.

(** The clock values of the run lie in [lo, hi]: it runs for more than a second since boot,
    and far from 2^64 ns (584 years). *)
Definition clocks_within (lo hi : N) (acts : list action) : Prop :=
  forall c now, In (AClock c now) acts -> lo <= now <= hi.

(** Nobody was admitted. *)
Definition no_launch (t : list obs) : Prop := forall c now, ~ In (OAdmitted c now) t.
(** No attempt is under way, and no change of the limit. *)
Definition quiet (s : state) : Prop := g_reset s = None /\ forall c, thread_of s c = TIdle.
