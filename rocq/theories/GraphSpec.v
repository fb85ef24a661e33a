(** Vocabulary for graph properties, independent of the algorithms: edges, paths,
    distance, topological orders. *)
From Verif Require Import GraphModel.

Section spec.
  Context {A : Type}.
  Implicit Types g : digraph A.

  (** there is an edge from [u] to [v] *)
  Definition edge g (u v : nat) : Prop := In (u, v) (edges g).

  (** all edges join existing nodes *)
  Definition graph_wf g : Prop :=
    forall u v, edge g u v -> u < length (nodes g) /\ v < length (nodes g).

  (** [path g u v k]: there is a path with exactly [k] edges from [u] to [v] *)
  Inductive path g : nat -> nat -> nat -> Prop :=
  | path_nil u : path g u u 0
  | path_cons u v w k : edge g u v -> path g v w k -> path g u w (S k).

  (** a non-empty path *)
  Definition reaches g (u v : nat) : Prop := exists k, 0 < k /\ path g u v k.

  Definition acyclic g : Prop := forall u, ~ reaches g u u.

  (** [d] is the number of edges of a shortest path from [u] to [v] *)
  Definition distance_is g (u v d : nat) : Prop :=
    path g u v d /\ forall k, path g u v k -> d <= k.

  (** [u] occurs before [v] in [l] *)
  Definition before (l : list nat) (u v : nat) : Prop :=
    exists l1 l2 l3, l = l1 ++ u :: l2 ++ v :: l3.

  (** Documented contract of petgraph::algo::toposort: every node exactly once, each
      edge goes forward; [Err] only if there is a cycle. *)
  Definition topological g (o : list nat) : Prop :=
    NoDup o /\ (forall v, In v o <-> v < length (nodes g)) /\
    (forall u v, edge g u v -> before o u v).

  Definition toposort_contract g (r : option (list nat)) : Prop :=
    match r with
    | Some o => topological g o
    | None => ~ acyclic g
    end.

  (** [l] is the maximal number of edges of a path that ends in [v] *)
  Definition longest_path_to g (v l : nat) : Prop :=
    (exists u, path g u v l) /\ (forall u k, path g u v k -> k <= l).

  (** [l] is the maximal number of edges of a path that starts in [v] *)
  Definition longest_path_from g (v l : nat) : Prop :=
    (exists w, path g v w l) /\ (forall w k, path g v w k -> k <= l).
End spec.
