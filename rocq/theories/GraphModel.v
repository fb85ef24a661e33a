(** Model of the directed graphs of petgraph as used by execgraph, and of
    /repo/src/graphtheory.rs.

    Simplifications, for the whole file: a [NodeIndex] is the position of the
    node in the node vector (petgraph's [Graph] stores nodes in a vector);
    [u32] levels are natural numbers (a level is smaller than the number of
    nodes, and petgraph limits that number to [u32::MAX]). *)
From Coq Require Export Lia.
From stdpp Require Export prelude gmap.

Set Default Proof Using "Type".

(** petgraph::graph::DiGraph<N, ()>: node weights, and edges in insertion
    order as (source, target).  Parallel edges are allowed. The type of execgraph.rs:182. *)
Record digraph (A : Type) := DiGraph {
  nodes : list A;
  edges : list (nat * nat)
}.
Arguments DiGraph {A} _ _.
Arguments nodes {A} _.
Arguments edges {A} _.

Section graph.
  Context {A : Type}.
  Implicit Types g : digraph A.

  (** graph.node_count() *)
  Definition node_count g : nat := length (nodes g).

  (** graph.neighbors(v) = neighbors_directed(v, Outgoing): the targets of the
      edges that leave [v], most recently added edge first (petgraph keeps an
      adjacency list with insertion at its head). One entry per parallel edge. *)
  Definition out_neighbors g (v : nat) : list nat :=
    rev (map snd (List.filter (fun e => Nat.eqb (fst e) v) (edges g))).

  (** graph.neighbors_directed(v, Incoming), also edges_directed(v, Incoming). *)
  Definition in_neighbors g (v : nat) : list nat :=
    rev (map fst (List.filter (fun e => Nat.eqb (snd e) v) (edges g))).

  (** graph.add_edge(u, v, ()) *)
  Definition add_edge g (u v : nat) : digraph A :=
    DiGraph (nodes g) (edges g ++ [(u, v)]).

  (** graph.reverse() *)
  Definition reverse g : digraph A :=
    DiGraph (nodes g) (map (fun e => (snd e, fst e)) (edges g)).

  (** One round of the BFS loop, graphtheory.rs:30-41: the nodes adjacent to the
      current queue that were not visited yet. [HashSet] is [gset]; the order
      of iteration does not matter because the loop only accumulates sets. *)
  Definition next_vertices g (queue visited : gset nat) : gset nat :=
    list_to_set (concat (map (out_neighbors g) (elements queue))) ∖ visited.

  (** graphtheory.rs:25-44, the while loop. [None] means out of fuel, which is
      not a behaviour of the code; see [descendants_at_distance_terminates]. *)
  Fixpoint bfs_loop (fuel : nat) g (distance : Z) (current_distance : Z)
      (queue visited : gset nat) : option (gset nat) :=
    match fuel with
    | O => None
    | S fuel =>
        if decide (queue = ∅) then Some ∅
        else if decide (current_distance = distance) then Some queue
        else
          let nxt := next_vertices g queue visited in
          bfs_loop fuel g distance (current_distance + 1)%Z nxt (visited ∪ nxt)
    end.

  (** graphtheory.rs:11-45 [descendants_at_distance] *)
  Definition descendants_at_distance g (source : nat) (distance : Z)
      : option (gset nat) :=
    bfs_loop (S (S (length (edges g)))) g distance 0%Z {[ source ]} {[ source ]}.

  (** graphtheory.rs:59-63, the loop body for one node [u]: add an edge to each
      node at distance two (in any order, here the order of [elements]). *)
  Definition tc_visit (tc : option (digraph A)) (u : nat) : option (digraph A) :=
    match tc with
    | None => None
    | Some tc =>
        match descendants_at_distance tc u 2 with
        | None => None
        | Some vs => Some (fold_left (fun t v => add_edge t u v) (elements vs) tc)
        end
    end.

  (** graphtheory.rs:54-66 [transitive_closure_dag]. [order] is the result of
      petgraph's [toposort(&graph, None)], [None] standing for [Err(Cycle)];
      theorems quantify over every result allowed by [toposort]'s contract.
      The outer [None] is the function's [Err]. *)
  Definition transitive_closure_dag g (order : option (list nat))
      : option (digraph A) :=
    match order with
    | None => None
    | Some o => fold_left tc_visit (rev o) (Some g)
    end.

  (** The expression [downstream.map(|x| 1 + level[x.index()]).max().unwrap_or(0)],
      graphtheory.rs:85 and 105. [None] is an out-of-bounds panic. *)
  Definition level_of (level : list nat) (ns : list nat) : option nat :=
    match mapM (fun x => level !! x) ns with
    | None => None
    | Some ls => Some (fold_right Nat.max 0 (map (fun l => 1 + l) ls))
    end.

  Definition level_visit (nbrs : nat -> list nat) (level : option (list nat)) (v : nat)
      : option (list nat) :=
    match level with
    | None => None
    | Some level =>
        match level_of level (nbrs v) with
        | None => None
        | Some l => if decide (v < length level) then Some (<[v := l]> level) else None
        end
    end.

  (** graphtheory.rs:77-89 [blevel_dag]; [order] as above. *)
  Definition blevel_dag g (order : option (list nat)) : option (list nat) :=
    match order with
    | None => None
    | Some o => fold_left (level_visit (out_neighbors g)) (rev o)
                          (Some (repeat 0 (node_count g)))
    end.

  (** graphtheory.rs:98-109 [tlevel_dag]; [order] as above. *)
  Definition tlevel_dag g (order : option (list nat)) : option (list nat) :=
    match order with
    | None => None
    | Some o => fold_left (level_visit (in_neighbors g)) o
                          (Some (repeat 0 (node_count g)))
    end.
End graph.
