(** What the administrators' requests promise, in terms of the requests and their answers. A time is the number of an observation. *)
From Verif Require Export ManageModel.
From stdpp Require Import prelude.
Local Open Scope nat_scope.

(** Request [k] was answered before time [b]. *)
Definition answered_before (t : list aobs) (k b : nat) : Prop := exists e l v, e < b /\ t !! e = Some (OReplied k l v).
(** Request [k] came after [j] had been answered. *)
Definition follows (t : list aobs) (j k : nat) : Prop := exists b q, t !! b = Some (OInvoked k q) /\ answered_before t j b.
(** The change made by [k] has to be visible in the answer of [i]: it is its own, or [k] was answered before [i] came. *)
Definition before_or_same (t : list aobs) (k i : nat) : Prop := k = i \/ follows t k i.
(** Request [i] was answered at time [e], with [l] and [v] for the limit and the information. *)
Definition answer (t : list aobs) (e i : nat) (l : N) (v : option string) : Prop := t !! e = Some (OReplied i l v).
(** Request [i], which is [q], came at time [b]. *)
Definition came (t : list aobs) (b i : nat) (q : request) : Prop := t !! b = Some (OInvoked i q).
