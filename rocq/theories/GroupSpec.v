(** Vocabulary for process groups. *)
From Verif Require Export GroupModel.
Open Scope list_scope.

Definition alive (o : os) (p : nat) : Prop := is_Some (os_procs o !! p).
Definition in_group (o : os) (p g : nat) : Prop := exists x, os_procs o !! p = Some x /\ op_group x = g.
Definition disposes (o : os) (p : nat) (d : disposition) : Prop := exists x, os_procs o !! p = Some x /\ op_term x = d.
(** What holds on a Linux system: a session leader leads its group; numbers in use count as used. *)
Definition sane (o : os) : Prop := forall p x, os_procs o !! p = Some x ->
  (op_session x = p -> op_group x = p) /\ p ∈ os_used o /\ op_group x ∈ os_used o /\ op_session x ∈ os_used o.

(** [descendant c h p]: p was started during [h], by c or by a descendant. *)
Inductive descendant (c : nat) : list action -> nat -> Prop :=
| de_child h p : descendant c (h ++ [AFork c p]) p
| de_next h q p : descendant c h q -> descendant c (h ++ [AFork q p]) p
| de_on h a p : descendant c h p -> descendant c (h ++ [a]) p.

(** [a] can change the group of p. *)
Definition regroups (a : action) (p : nat) : Prop := (exists g, a = ASetpgid p g) \/ a = ASetsid p \/ a = ABegin p.
(** The same, for those of them that have stayed in the group: neither they nor those between them and c have changed their group before
    the next was started, or since. *)
Inductive stayed (c : nat) : list action -> nat -> Prop :=
| sy_child h p : stayed c (h ++ [AFork c p]) p
| sy_next h q p : stayed c h q -> stayed c (h ++ [AFork q p]) p
| sy_on h a p : stayed c h p -> ~ regroups a p -> stayed c (h ++ [a]) p.
(** p changes its group during [h] by calls of execute() only. *)
Definition keeps_group (p : nat) (h : list action) : Prop := forall a, In a h -> regroups a p -> a = ABegin p.
(** Nobody else than c and its descendants enters the group of c. *)
Definition nobody_joins (c : nat) (h : list action) : Prop :=
  forall h1 q h2, h = h1 ++ ASetpgid q c :: h2 -> q = c \/ descendant c h1 q.
(** c changes its disposition of SIGTERM by calls of execute() only. *)
Definition keeps_disposition (c : nat) (h : list action) : Prop := forall a, In a h -> (forall d, a <> ADispose c d) /\ a <> AExec c.
