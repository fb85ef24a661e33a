(** C24, C25, C22. The topological sort of petgraph that graphtheory.rs uses keeps its contract: the assumption [order_ok] of the
    theorems about subgraphs and sessions is met by the algorithm that is run. *)
From Verif Require Import GraphModel GraphSpec GraphProofs GraphProps TopoSort DfsProofs ExecSpec.
From Verif Require Export DfsModel.
Open Scope list_scope.

(** Both loops end within the bound of the model, for every graph. *)
Theorem toposort_terminates {A} (g : digraph A) : graph_wf g -> toposort g <> TFuel.
Proof.
  intros Hwf. unfold toposort. pose proof (from_ok g Hwf (S (node_count g + length (edges g))) (seq 0 (node_count g)) (Dfs ∅ ∅ [] [])) as H.
  destruct (dfs_from _ _ _ _) as [d|n|]; [by destruct (check_order _ _ _)|done|]. intros _. apply H; cbn [fs_discovered fs_stack].
  - split; cbn; try set_solver. constructor.
  - done.
  - pose proof (weight_start g Hwf). lia.
  - intros v Hv. apply elem_of_seq in Hv. lia.
Qed.
Print Assumptions toposort_terminates.

(** An order is returned exactly if there is no cycle; it has every node once, and every edge goes forward in it. *)
Theorem toposort_correct {A} (g : digraph A) : graph_wf g ->
  (forall o, toposort g = TOk o -> topological g o) /\ (acyclic g <-> exists o, toposort g = TOk o).
Proof.
  intros Hwf. unfold toposort. pose proof (from_ok g Hwf (S (node_count g + length (edges g))) (seq 0 (node_count g)) (Dfs ∅ ∅ [] [])) as H.
  cbn [fs_discovered fs_stack fs_finished fs_order] in H.
  assert (H0 : dinv g (Dfs ∅ ∅ [] [])) by (split; cbn; try set_solver; constructor).
  specialize (H H0 eq_refl ltac:(pose proof (weight_start g Hwf); lia) ltac:(intros v Hv; apply elem_of_seq in Hv; lia)).
  destruct (dfs_from _ _ _ _) as [d|n|]; [|split; [done|]; split; [intros Hac; exfalso; by apply (Hac n), reaches_edge|by intros (o & ?)]|done].
  destruct H as ([I1 I2 I3 I4 I5 I6] & Hst & _ & Hall & Hac).
  assert (Hin : forall v, v ∈ fs_order d <-> v < node_count g).
  { intros v. rewrite I5. split; [intros Hv; apply I1; left; by apply I2|]. intros Hv. assert (Hd : v ∈ fs_discovered d) by (apply Hall, elem_of_seq; lia).
    destruct (decide (v ∈ fs_finished d)) as [|Hn]; [done|]. specialize (I3 v Hd Hn). rewrite Hst in I3. by apply elem_of_nil in I3. }
  assert (Ht : check_order g (fs_order d) ∅ = None -> topological g (fs_order d)).
  { intros Hc. split; [done|]. split; [intros v; rewrite <- elem_of_list_In; apply Hin|]. intros u v He. destruct (Hwf _ _ He) as [Hu Hv].
    apply (check_sound g Hwf (fs_order d) [] I4 Hc u v); [by apply Hin|done|]. intros ->. apply (I6 v); [|done]. apply Hall, elem_of_seq. change (length (nodes g)) with (node_count g) in Hv. lia. }
  split.
  - intros o. destruct (check_order g (fs_order d) ∅) eqn:Ec; [done|]. intros [= <-]. by apply Ht.
  - split.
    + intros Hg. assert (check_order g (fs_order d) ∅ = None) as ->; [|by eexists]. apply (check_complete g Hwf (fs_order d) []); [done|].
      intros u v Hv He. apply Hac; [done|split; cbn; set_solver|done|]. apply Hin. by apply Hwf in He as [? _].
    + intros (o & Ho). destruct (check_order g (fs_order d) ∅) eqn:Ec; [done|]. injection Ho as <-. destruct (Ht eq_refl) as (Hnd & _ & Hb).
      intros u (k & Hk & Hp). assert (Hbef : forall k u v, path g u v (S k) -> before (fs_order d) u v).
      { clear -Hb Hnd. induction k as [|k IH]; intros u v Hp; inversion Hp as [|? w ? ? He Hp']; subst.
        - apply path_0_inv in Hp' as <-. by apply Hb.
        - eapply before_trans; [done|by apply Hb|by apply IH]. }
      destruct k as [|k]; [lia|]. apply Hbef in Hp. by eapply before_irrefl.
Qed.
Print Assumptions toposort_correct.

(** The contract assumed of toposort by the theorems about graphtheory.rs, and so the assumption about the library in a session. *)
Theorem petgraph_toposort_keeps_contract {A} (g : digraph A) : graph_wf g -> toposort_contract g (petgraph_toposort g).
Proof.
  intros Hwf. destruct (toposort_correct g Hwf) as [H1 [H2 _]]. unfold petgraph_toposort, toposort_contract.
  destruct (toposort g) as [o|n|] eqn:E; [by apply H1|intros Ha; destruct (H2 Ha) as (o & Ho); done|by apply toposort_terminates in E].
Qed.
Print Assumptions petgraph_toposort_keeps_contract.
Theorem petgraph_order_ok : order_ok petgraph_toposort.
Proof. intros g Hwf. by apply petgraph_toposort_keeps_contract. Qed.
Print Assumptions petgraph_order_ok.

(** C24, C25 for the functions as they are called, with petgraph's own order: on every well formed graph the closure is exact and the
    levels are lengths of longest paths if there is no cycle, and all three functions return an error if there is one. *)
Theorem graph_functions_with_petgraph {A} (g : digraph A) : graph_wf g ->
  (acyclic g -> (exists tc, transitive_closure_dag g (petgraph_toposort g) = Some tc /\ nodes tc = nodes g /\ forall u v, edge tc u v <-> reaches g u v) /\
    (exists lv, tlevel_dag g (petgraph_toposort g) = Some lv /\ length lv = length (nodes g) /\
      forall v, v < length (nodes g) -> exists l, nth_error lv v = Some l /\ longest_path_to g v l) /\
    (exists lv, blevel_dag g (petgraph_toposort g) = Some lv /\ length lv = length (nodes g) /\
      forall v, v < length (nodes g) -> exists l, nth_error lv v = Some l /\ longest_path_from g v l)) /\
  (~ acyclic g -> transitive_closure_dag g (petgraph_toposort g) = None /\ tlevel_dag g (petgraph_toposort g) = None /\ blevel_dag g (petgraph_toposort g) = None).
Proof.
  intros Hwf. destruct (transitive_closure_exact A g _ (petgraph_toposort_keeps_contract g Hwf)) as [Ht1 Ht2]. destruct (toposort_correct g Hwf) as [H1 [H2 H3]]. split.
  - intros Ha. split; [by apply Ht1|]. destruct (H2 Ha) as (o & Ho). unfold petgraph_toposort. rewrite Ho. split; [by apply tlevel_is_longest_path, H1|by apply blevel_is_longest_path, H1].
  - intros Hn. split; [by apply Ht2|]. unfold petgraph_toposort. destruct (toposort g) as [o|n|]; [|done..]. exfalso. apply Hn, H3. by exists o.
Qed.
Print Assumptions graph_functions_with_petgraph.

(** ** Concrete cases: a graph with a diamond, a chord and a second component; a cycle of three nodes behind a chain; a self loop. *)
Definition dfs_graph : digraph unit := DiGraph (repeat () 7) [(0, 1); (0, 2); (1, 3); (2, 3); (0, 3); (5, 4); (3, 6); (5, 6)].
Definition dfs_cycle : digraph unit := DiGraph (repeat () 5) [(0, 1); (1, 2); (2, 3); (3, 1); (3, 4)].
Definition dfs_self : digraph unit := DiGraph (repeat () 3) [(0, 1); (1, 1); (1, 2)].
Example dfs_cases : graph_wf dfs_graph /\ graph_wf dfs_cycle /\ graph_wf dfs_self /\
  toposort dfs_graph = TOk [5; 4; 0; 2; 1; 3; 6] /\ (exists n, toposort dfs_cycle = TCycle n) /\ toposort dfs_self = TCycle 1.
Proof.
  assert (Hw : forall es n, forallb (fun e => Nat.ltb (fst e) n && Nat.ltb (snd e) n) es = true -> graph_wf (DiGraph (repeat () n) es)).
  { intros es n H u v He. rewrite forallb_forall in H. specialize (H _ He). apply andb_true_iff in H as [H1%Nat.ltb_lt H2%Nat.ltb_lt]. cbn [nodes fst snd] in *. by rewrite repeat_length. }
  split; [by apply Hw|]. split; [by apply Hw|]. split; [by apply Hw|].
  split; [vm_compute; reflexivity|]. split; [eexists; vm_compute; reflexivity|vm_compute; reflexivity].
Qed.
