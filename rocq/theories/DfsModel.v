(** Model of petgraph::algo::toposort (petgraph 0.6.4, /repo/Cargo.lock:1220), which /repo/src/graphtheory.rs calls at lines
    57, 78 and 99. A stack has its top first here, last in the code. The [VisitMap]s are sets. *)
From Verif Require Export GraphModel.

(** What toposort returns; [TFuel] is not a behaviour of the code (see toposort_terminates). graphtheory.rs:57, 78, 99. *)
Inductive topo_result := TOk (order : list nat) | TCycle (n : nat) | TFuel.

(** The locals of the first loop of toposort (called at graphtheory.rs:57, 78, 99). [fs_order] is finish_stack, the last pushed first. *)
Record dfs := Dfs { fs_discovered : gset nat; fs_finished : gset nat; fs_stack : list nat; fs_order : list nat }.
(** How that loop ends: with an order, with the node of a cycle (the Err at graphtheory.rs:57, 78, 99), or the fuel of the model is used up. *)
Inductive dfs_result := DOk (d : dfs) | DCycle (n : nat) | DFuel.

Section toposort.
Context {A : Type}.
Variable g : digraph A.

(** toposort, first loop: [while let Some(&nx) = dfs.stack.last()]. At the first visit of a node its undiscovered neighbours are
    pushed and it stays; at the second it is popped and is finished. The successors are looked at in order; a self loop is
    found before the later ones are pushed. Called at graphtheory.rs:57, 78, 99. *)
Fixpoint dfs_loop (fuel : nat) (d : dfs) : dfs_result :=
  match fs_stack d with
  | [] => DOk d
  | nx :: rest =>
      match fuel with
      | 0 => DFuel
      | S fuel =>
          if bool_decide (nx ∈ fs_discovered d) then
            if bool_decide (nx ∈ fs_finished d) then dfs_loop fuel (Dfs (fs_discovered d) (fs_finished d) rest (fs_order d))
            else dfs_loop fuel (Dfs (fs_discovered d) ({[nx]} ∪ fs_finished d) rest (nx :: fs_order d))
          else
            let seen := {[nx]} ∪ fs_discovered d in
            if bool_decide (nx ∈ out_neighbors g nx) then DCycle nx
            else dfs_loop fuel (Dfs seen (fs_finished d)
                   (rev (List.filter (fun w => negb (bool_decide (w ∈ seen))) (out_neighbors g nx)) ++ fs_stack d) (fs_order d))
      end
  end.

(** toposort: [for i in g.node_identifiers()]. Called at graphtheory.rs:57, 78, 99. *)
Fixpoint dfs_from (fuel : nat) (starts : list nat) (d : dfs) : dfs_result :=
  match starts with
  | [] => DOk d
  | i :: starts =>
      if bool_decide (i ∈ fs_discovered d) then dfs_from fuel starts d
      else
        match dfs_loop fuel (Dfs (fs_discovered d) (fs_finished d) [i] (fs_order d)) with
        | DOk d => dfs_from fuel starts d
        | r => r
        end
  end.

(** petgraph::visit::Dfs::next on Reversed(g): pops until a node is found that was not discovered; pushes its undiscovered
    predecessors. Used by toposort (graphtheory.rs:57, 78, 99). *)
Fixpoint dfs_next (stack : list nat) (seen : gset nat) : option nat * list nat * gset nat :=
  match stack with
  | [] => (None, [], seen)
  | n :: rest =>
      if bool_decide (n ∈ seen) then dfs_next rest seen
      else
        let seen := {[n]} ∪ seen in
        (Some n, rev (List.filter (fun w => negb (bool_decide (w ∈ seen))) (in_neighbors g n)) ++ rest, seen)
  end.

(** toposort, second loop, for one node of the order: [dfs.move_to(i)], and an error if next() returns twice. *)
Definition check_node (i : nat) (seen : gset nat) : gset nat + nat :=
  match dfs_next [i] seen with
  | (None, _, seen) => inl seen
  | (Some _, stack, seen) =>
      match dfs_next stack seen with
      | (None, _, seen) => inl seen
      | (Some j, _, _) => inr j
      end
  end.
(** toposort, second loop (graphtheory.rs:57, 78, 99): the first cycle found, if any. *)
Fixpoint check_order (order : list nat) (seen : gset nat) : option nat :=
  match order with
  | [] => None
  | i :: order => match check_node i seen with inl seen => check_order order seen | inr j => Some j end
  end.

(** petgraph::algo::toposort(&graph, None), called at graphtheory.rs:57, 78, 99. *)
Definition toposort : topo_result :=
  match dfs_from (S (node_count g + length (edges g))) (seq 0 (node_count g)) (Dfs ∅ ∅ [] []) with
  | DFuel => TFuel
  | DCycle n => TCycle n
  | DOk d => match check_order (fs_order d) ∅ with None => TOk (fs_order d) | Some j => TCycle j end
  end.
End toposort.

(** graphtheory.rs:57, 78, 99: map_err and [?]. *)
Definition petgraph_toposort {A} (g : digraph A) : option (list nat) :=
  match toposort g with TOk l => Some l | _ => None end.
