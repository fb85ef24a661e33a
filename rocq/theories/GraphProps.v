(** Property theorems C24, C25, C26 (graph algorithms). *)
From Verif Require Import GraphModel GraphSpec GraphProofs.

(** The example graph of the non-vacuity checks: a diamond with a tail and one
    parallel edge, 0->1, 0->2, 1->3, 2->3, 3->4, 0->1. *)
Definition ex_graph : digraph nat :=
  DiGraph [10; 11; 12; 13; 14] [(0,1); (0,2); (1,3); (2,3); (3,4); (0,1)].

Example ex_graph_topological : topological ex_graph [0; 2; 1; 3; 4].
Proof.
  split_and!.
  - apply (bool_decide_unpack _). vm_compute. done.
  - intros v. simpl. lia.
  - intros u v H. unfold edge in H. simpl in H.
    repeat (destruct H as [H|H]; [inversion H; subst; clear H|]); [..|done].
    + exists [], [2], [3; 4]. done.
    + exists [], [], [1; 3; 4]. done.
    + exists [0; 2], [], [4]. done.
    + exists [0], [1], [4]. done.
    + exists [0; 2; 1], [], []. done.
    + exists [], [2], [3; 4]. done.
Qed.

(** C24. For every graph and every answer of toposort allowed by its contract:
    the closure is computed exactly when the graph is acyclic, keeps the nodes,
    and has an edge from [u] to [v] iff there is a non-empty path. *)
Theorem transitive_closure_exact :
  forall (A : Type) (g : digraph A) (r : option (list nat)),
    toposort_contract g r ->
    (acyclic g -> exists tc, transitive_closure_dag g r = Some tc /\
       nodes tc = nodes g /\ forall u v, edge tc u v <-> reaches g u v) /\
    (~ acyclic g -> transitive_closure_dag g r = None).
Proof. exact @transitive_closure_exact_lemma. Qed.
Print Assumptions transitive_closure_exact.

Example transitive_closure_exact_nonvacuous :
  toposort_contract ex_graph (Some [0; 2; 1; 3; 4]) /\
  option_map edges (transitive_closure_dag ex_graph (Some [0; 2; 1; 3; 4]))
  = Some [(0,1); (0,2); (1,3); (2,3); (3,4); (0,1); (1,4); (2,4); (0,3); (0,4)].
Proof. split; [exact ex_graph_topological|vm_compute; reflexivity]. Qed.

(** C25. *)
Theorem tlevel_is_longest_path :
  forall (A : Type) (g : digraph A) (o : list nat),
    topological g o ->
    exists lv, tlevel_dag g (Some o) = Some lv /\ length lv = length (nodes g) /\
      forall v, v < length (nodes g) ->
        exists l, nth_error lv v = Some l /\ longest_path_to g v l.
Proof. exact @tlevel_lemma. Qed.
Print Assumptions tlevel_is_longest_path.

Theorem blevel_is_longest_path :
  forall (A : Type) (g : digraph A) (o : list nat),
    topological g o ->
    exists lv, blevel_dag g (Some o) = Some lv /\ length lv = length (nodes g) /\
      forall v, v < length (nodes g) ->
        exists l, nth_error lv v = Some l /\ longest_path_from g v l.
Proof. exact @blevel_lemma. Qed.
Print Assumptions blevel_is_longest_path.

Example levels_nonvacuous :
  topological ex_graph [0; 2; 1; 3; 4] /\
  tlevel_dag ex_graph (Some [0; 2; 1; 3; 4]) = Some [0; 1; 1; 2; 3] /\
  blevel_dag ex_graph (Some [0; 2; 1; 3; 4]) = Some [3; 2; 2; 1; 0].
Proof. split; [exact ex_graph_topological|vm_compute; done]. Qed.

(** C26. For every graph, with cycles or not, every source and every distance. *)
Theorem descendants_at_distance_exact :
  forall (A : Type) (g : digraph A) (s : nat) (d : Z),
    exists r, descendants_at_distance g s d = Some r /\
      forall v, v ∈ r <-> exists n, d = Z.of_nat n /\ distance_is g s v n.
Proof. exact @descendants_at_distance_correct. Qed.
Print Assumptions descendants_at_distance_exact.

Example descendants_at_distance_cycle :
  option_map elements (descendants_at_distance
    (DiGraph [0;0;0] [(0,1); (1,2); (2,0); (1,1)]) 0 2) = Some [2] /\
  option_map elements (descendants_at_distance
    (DiGraph [0;0;0] [(0,1); (1,2); (2,0); (1,1)]) 0 3) = Some [] /\
  option_map elements (descendants_at_distance
    (DiGraph [0;0;0] [(0,1); (1,2); (2,0); (1,1)]) 0 (-1)) = Some [].
Proof. vm_compute. done. Qed.

(** Graphs in which all edges go from smaller to larger indices, such as every graph
    built with add_task (see C23), are acyclic and have a topological order, so
    the hypotheses above are met. *)
Theorem increasing_graph_has_topological_order :
  forall (A : Type) (g : digraph A),
    graph_wf g -> (forall u v, edge g u v -> u < v) ->
    acyclic g /\ topological g (seq 0 (length (nodes g))).
Proof. exact @increasing_lemma. Qed.
Print Assumptions increasing_graph_has_topological_order.
