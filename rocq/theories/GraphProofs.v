(** Proofs about graph algorithms. *)
From Verif Require Import GraphModel GraphSpec.

Section basic.
  Context {A : Type}.
  Implicit Types g : digraph A.

  Lemma elem_out_neighbors g u v : v ∈ out_neighbors g u <-> edge g u v.
  Proof.
    unfold out_neighbors, edge. rewrite elem_of_list_In, <- in_rev, in_map_iff. split.
    - intros ([a b] & Hb & Hin). apply filter_In in Hin as [Hin Heq].
      simpl in *. apply Nat.eqb_eq in Heq. subst. exact Hin.
    - intros H. exists (u, v). split; [done|]. apply filter_In. simpl.
      split; [done|]. apply Nat.eqb_refl.
  Qed.

  Lemma elem_in_neighbors g u v : u ∈ in_neighbors g v <-> edge g u v.
  Proof.
    unfold in_neighbors, edge. rewrite elem_of_list_In, <- in_rev, in_map_iff. split.
    - intros ([a b] & Hb & Hin). apply filter_In in Hin as [Hin Heq].
      simpl in *. apply Nat.eqb_eq in Heq. subst. exact Hin.
    - intros H. exists (u, v). split; [done|]. apply filter_In. simpl.
      split; [done|]. apply Nat.eqb_refl.
  Qed.

  Lemma path_snoc g u v w k : path g u v k -> edge g v w -> path g u w (S k).
  Proof.
    induction 1 as [u|u x v k Hux Hp IH]; intros He.
    - eapply path_cons; [exact He|]. constructor.
    - eapply path_cons; [exact Hux|]. apply IH. exact He.
  Qed.

  Lemma path_app g u v w k l : path g u v k -> path g v w l -> path g u w (k + l).
  Proof.
    induction 1 as [u|u x v k Hux Hp IH]; intros He; simpl; [done|].
    eapply path_cons; [exact Hux|]. apply IH. exact He.
  Qed.

  Lemma path_inv_last g u w k :
    path g u w (S k) -> exists v, path g u v k /\ edge g v w.
  Proof.
    revert u. induction k as [|k IH]; intros u Hp; inversion Hp; subst.
    - match goal with H : path _ _ _ 0 |- _ => inversion H; subst end.
      exists u. split; [constructor|done].
    - match goal with H : path _ _ _ (S k) |- _ => destruct (IH _ H) as (x & Hx & Hxw) end.
      exists x. split; [|done]. eapply path_cons; eauto.
  Qed.

  Lemma path_0_inv g u v : path g u v 0 -> u = v.
  Proof. inversion 1; done. Qed.

  Lemma path_1 g u v : path g u v 1 <-> edge g u v.
  Proof.
    split.
    - intros H. apply path_inv_last in H as (x & Hx & He).
      apply path_0_inv in Hx. by subst.
    - intros He. eapply path_cons; [exact He|]. constructor.
  Qed.

  Lemma path_split g u v k i : path g u v k -> i <= k ->
    exists x, path g u x i /\ path g x v (k - i).
  Proof.
    revert u k. induction i as [|i IH]; intros u k Hp Hi.
    - exists u. rewrite Nat.sub_0_r. split; [constructor|done].
    - destruct k as [|k]; [lia|]. inversion Hp; subst.
      match goal with H : path _ _ _ k |- _ =>
        destruct (IH _ _ H ltac:(lia)) as (x & Hx & Hxv) end.
      exists x. simpl. split; [|done]. eapply path_cons; eauto.
  Qed.

  Lemma reaches_edge g u v : edge g u v -> reaches g u v.
  Proof. intros H. exists 1. split; [lia|]. by apply path_1. Qed.

  Lemma reaches_trans g u v w : reaches g u v -> reaches g v w -> reaches g u w.
  Proof.
    intros (k & Hk & Hp) (l & Hl & Hq). exists (k + l). split; [lia|].
    eapply path_app; eauto.
  Qed.

  Lemma reaches_inv_first g u w :
    reaches g u w -> exists v, edge g u v /\ (v = w \/ reaches g v w).
  Proof.
    intros (k & Hk & Hp). destruct Hp as [|u v w k He Hp]; [lia|].
    exists v. split; [done|]. destruct k as [|k].
    - left. by apply path_0_inv in Hp.
    - right. exists (S k). split; [lia|done].
  Qed.

  Lemma distance_is_unique g u v d d' :
    distance_is g u v d -> distance_is g u v d' -> d = d'.
  Proof. intros [H1 H2] [H3 H4]. apply H2 in H3. apply H4 in H1. lia. Qed.

  Definition at_dist g (s v d : nat) : Prop :=
    path g s v d /\ forall k, k < d -> ~ path g s v k.

  Lemma at_dist_distance g s v d : at_dist g s v d <-> distance_is g s v d.
  Proof.
    unfold at_dist, distance_is. split; intros [H1 H2]; split; try done.
    - intros k Hk. destruct (decide (d <= k)); [done|].
      exfalso. apply (H2 k); [lia|done].
    - intros k Hk Hp. apply H2 in Hp. lia.
  Qed.

  Lemma elem_next_vertices g q vis v :
    v ∈ next_vertices g q vis <-> (exists u, u ∈ q /\ edge g u v) /\ v ∉ vis.
  Proof.
    unfold next_vertices. rewrite elem_of_difference, elem_of_list_to_set.
    rewrite elem_of_list_In, in_concat. split.
    - intros [(l & Hl & Hv) Hvis]. split; [|done].
      apply in_map_iff in Hl as (u & <- & Hu).
      exists u. rewrite <- elem_of_list_In, elem_of_elements in Hu. split; [done|].
      apply elem_out_neighbors. by apply elem_of_list_In.
    - intros [(u & Hu & He) Hvis]. split; [|done].
      exists (out_neighbors g u). split.
      + apply in_map. rewrite <- elem_of_list_In. by apply elem_of_elements.
      + rewrite <- elem_of_list_In. by apply elem_out_neighbors.
  Qed.

  (** Target set of all edges: bound for the number of BFS rounds. *)
  Definition targets g : gset nat := list_to_set (map snd (edges g)).

  Lemma size_targets g : size (targets g) <= length (edges g).
  Proof.
    unfold targets. rewrite <- (map_length snd (edges g)).
    generalize (map snd (edges g)). intros l. induction l as [|x l IH].
    - done.
    - cbn [list_to_set length]. rewrite size_union_alt, size_singleton.
      assert (size (list_to_set l ∖ {[x]} : gset nat) <= size (list_to_set l : gset nat)).
      { apply subseteq_size. set_solver. }
      lia.
  Qed.

  Lemma bfs_loop_correct g s d fuel c q vis :
    (forall v, v ∈ q <-> at_dist g s v c) ->
    (forall v, v ∈ vis <-> exists k, k <= c /\ path g s v k) ->
    size (targets g ∖ vis) + (if decide (q = ∅) then 1 else 2) <= fuel ->
    exists r, bfs_loop fuel g d (Z.of_nat c) q vis = Some r /\
      forall v, v ∈ r <->
        (exists n, d = Z.of_nat n /\ c <= n /\ at_dist g s v n).
  Proof.
    revert c q vis. induction fuel as [|fuel IH]; intros c q vis Hq Hvis Hfuel.
    { destruct (decide (q = ∅)); lia. }
    cbn [bfs_loop]. destruct (decide (q = ∅)) as [Hemp|Hne].
    { exists ∅. split; [done|]. intros v. split; [set_solver|].
      intros (n & -> & Hn & [Hp Hmin]).
      destruct (path_split g s v n c Hp Hn) as (x & Hsx & Hxv).
      assert (x ∈ q) as Hx; [|set_solver].
      apply Hq. split; [done|]. intros k Hk Hsk.
      apply (Hmin (k + (n - c))); [lia|]. eapply path_app; eauto. }
    destruct (decide (Z.of_nat c = d)) as [Hd|Hd].
    { exists q. split; [done|]. intros v. rewrite Hq. split.
      - intros Hv. exists c. split_and!; [done|lia|done].
      - intros (n & Hn & Hle & Hv). assert (n = c) as -> by lia. done. }
    set (nxt := next_vertices g q vis).
    assert (forall v, v ∈ nxt <-> at_dist g s v (S c)) as Hnxt.
    { intros v. unfold nxt. rewrite elem_next_vertices. split.
      - intros [(u & Hu & He) Hv]. apply Hq in Hu as [Hsu _]. split.
        + eapply path_snoc; eauto.
        + intros k Hk Hp. apply Hv. apply Hvis. exists k. split; [lia|done].
      - intros [Hp Hmin]. split.
        + apply path_inv_last in Hp as (u & Hsu & He). exists u. split; [|done].
          apply Hq. split; [done|]. intros k Hk Hsk.
          apply (Hmin (S k)); [lia|]. eapply path_snoc; eauto.
        + intros Hv. apply Hvis in Hv as (k & Hk & Hpk). apply (Hmin k); [lia|done]. }
    replace (Z.of_nat c + 1)%Z with (Z.of_nat (S c)) by lia.
    destruct (IH (S c) nxt (vis ∪ nxt)) as (r & Hr & Hspec).
    - exact Hnxt.
    - intros v. rewrite elem_of_union, Hvis, Hnxt. split.
      + intros [(k & Hk & Hp)|[Hp _]]; [exists k; split; [lia|done]|].
        exists (S c). split; [lia|done].
      + intros (k & Hk & Hp). destruct (decide (v ∈ vis)) as [Hin|Hnin].
        { left. by apply Hvis. }
        right. assert (k = S c) as ->.
        { destruct (decide (k = S c)); [done|]. exfalso. apply Hnin. apply Hvis.
          exists k. split; [lia|done]. }
        split; [done|]. intros k' Hk' Hp'. apply Hnin. apply Hvis.
        exists k'. split; [lia|done].
    - destruct (decide (nxt = ∅)) as [He|He].
      + rewrite He. replace (vis ∪ ∅) with vis by set_solver. lia.
      + assert (size (targets g ∖ (vis ∪ nxt)) < size (targets g ∖ vis)); [|lia].
        apply subset_size. apply set_choose_L in He as [x Hx].
        split; [set_solver|]. intros Hsub.
        unfold nxt in Hx. pose proof Hx as Hx'.
        apply elem_next_vertices in Hx' as [(u & Hu & Hed) Hxv].
        assert (x ∈ targets g) as Hxt.
        { unfold targets. apply elem_of_list_to_set. apply elem_of_list_In.
          apply in_map_iff. exists (u, x). split; done. }
        fold nxt in Hx. set_solver.
    - exists r. split; [exact Hr|]. intros v. rewrite Hspec. split.
      + intros (n & Hn & Hle & Hv). exists n. split_and!; [done|lia|done].
      + intros (n & Hn & Hle & Hv). exists n. split_and!; [done|lia|done].
  Qed.

  Lemma descendants_at_distance_correct g s d :
    exists r, descendants_at_distance g s d = Some r /\
      forall v, v ∈ r <-> exists n, d = Z.of_nat n /\ distance_is g s v n.
  Proof.
    unfold descendants_at_distance. change 0%Z with (Z.of_nat 0).
    destruct (bfs_loop_correct g s d (S (S (length (edges g)))) 0 {[s]} {[s]})
      as (r & Hr & Hspec).
    - intros v. rewrite elem_of_singleton. split.
      + intros ->. split; [constructor|]. intros k Hk; lia.
      + intros [Hp _]. apply path_0_inv in Hp. done.
    - intros v. rewrite elem_of_singleton. split.
      + intros ->. exists 0. split; [lia|constructor].
      + intros (k & Hk & Hp). assert (k = 0) as -> by lia.
        apply path_0_inv in Hp. done.
    - pose proof (size_targets g).
      assert (size (targets g ∖ {[s]}) <= size (targets g)).
      { apply subseteq_size. set_solver. }
      destruct (decide _); lia.
    - exists r. split; [exact Hr|]. intros v. rewrite Hspec. split.
      + intros (n & Hn & _ & Hv). exists n. split; [done|]. by apply at_dist_distance.
      + intros (n & Hn & Hv). exists n. split_and!; [done|lia|].
        by apply at_dist_distance.
  Qed.
End basic.

(** ** Topological orders *)
Section topo.
  Context {A : Type}.
  Implicit Types g : digraph A.

  Lemma before_app_inv l1 x l2 u :
    NoDup (l1 ++ x :: l2) -> before (l1 ++ x :: l2) u x -> In u l1.
  Proof.
    intros Hnd (a & b & c & Heq).
    assert (l1 = a ++ u :: b /\ l2 = c) as [-> ->].
    { replace (a ++ u :: b ++ x :: c) with ((a ++ u :: b) ++ x :: c) in Heq
        by (symmetry; apply (List.app_assoc a (u :: b))).
      revert Heq Hnd. generalize (a ++ u :: b). clear. intros l Heq Hnd.
      revert l Heq. induction l1 as [|y l1 IH]; intros l Heq.
      - destruct l as [|z l]; simpl in *; [by inversion Heq|].
        inversion Heq; subst. exfalso. rewrite NoDup_cons in Hnd.
        destruct Hnd as [Hn _]. apply Hn. set_solver.
      - destruct l as [|z l]; simpl in *.
        + inversion Heq; subst. exfalso. rewrite NoDup_cons in Hnd.
          destruct Hnd as [Hn _]. apply Hn. set_solver.
        + inversion Heq; subst. rewrite NoDup_cons in Hnd. destruct Hnd as [_ Hnd].
          destruct (IH Hnd l) as [-> ->]; done. }
    rewrite in_app_iff. right. left. done.
  Qed.

  Lemma before_app_inv_r l1 x l2 v :
    NoDup (l1 ++ x :: l2) -> before (l1 ++ x :: l2) x v -> In v l2.
  Proof.
    intros Hnd (a & b & c & Heq).
    assert (l1 = a /\ l2 = b ++ v :: c) as [-> ->].
    { revert Heq Hnd. generalize (b ++ v :: c). clear. intros l Heq Hnd.
      revert a Heq. induction l1 as [|y l1 IH]; intros a Heq.
      - destruct a as [|z a]; simpl in *; [by inversion Heq|].
        inversion Heq; subst. exfalso. rewrite NoDup_cons in Hnd.
        destruct Hnd as [Hn _]. apply Hn. set_solver.
      - destruct a as [|z a]; simpl in *.
        + inversion Heq; subst. exfalso. rewrite NoDup_cons in Hnd.
          destruct Hnd as [Hn _]. apply Hn. set_solver.
        + inversion Heq; subst. rewrite NoDup_cons in Hnd. destruct Hnd as [_ Hnd].
          destruct (IH Hnd a) as [-> ->]; done. }
    rewrite in_app_iff. right. left. done.
  Qed.

  Lemma before_trans l u v w : NoDup l -> before l u v -> before l v w -> before l u w.
  Proof.
    intros Hnd (a & b & c & ->) Hvw.
    replace (a ++ u :: b ++ v :: c) with ((a ++ u :: b) ++ v :: c) in *
      by (symmetry; apply (List.app_assoc a (u :: b))).
    apply before_app_inv_r in Hvw; [|done].
    apply in_split in Hvw as (c1 & c2 & ->).
    exists a, (b ++ v :: c1), c2. rewrite <- !List.app_assoc. done.
  Qed.

  Lemma before_irrefl l u : NoDup l -> ~ before l u u.
  Proof.
    intros Hnd (a & b & c & ->). apply NoDup_app in Hnd as (_ & _ & Hnd).
    rewrite NoDup_cons in Hnd. destruct Hnd as [Hn _]. apply Hn. set_solver.
  Qed.

  Lemma topological_reaches g o u v : topological g o -> reaches g u v -> before o u v.
  Proof.
    intros (Hnd & Hall & Hfw) (k & Hk & Hp). revert Hk.
    induction Hp as [u|u x v k He Hp IH]; intros Hk; [lia|].
    destruct k as [|k].
    - apply path_0_inv in Hp. subst. by apply Hfw.
    - eapply before_trans; [done|by apply Hfw|]. apply IH. lia.
  Qed.

  Lemma topological_acyclic g o : topological g o -> acyclic g.
  Proof.
    intros Ht u Hu. eapply before_irrefl; [apply Ht|]. eapply topological_reaches; eauto.
  Qed.

  Lemma before_rev l u v : before l u v <-> before (rev l) v u.
  Proof.
    assert (forall l u v, before l u v -> before (rev l) v u) as H.
    { intros l' u' v' (a & b & c & ->). exists (rev c), (rev b), (rev a).
      rewrite rev_app_distr. simpl. rewrite rev_app_distr. simpl.
      rewrite <- !List.app_assoc. done. }
    split; [apply H|]. intros Hb. apply H in Hb. by rewrite rev_involutive in Hb.
  Qed.

  Lemma edge_reverse g u v : edge (reverse g) u v <-> edge g v u.
  Proof.
    unfold edge, reverse. simpl. rewrite in_map_iff. split.
    - intros ([a b] & Heq & Hin). simpl in Heq. inversion Heq; subst. done.
    - intros H. exists (v, u). split; done.
  Qed.

  Lemma path_reverse g u v k : path (reverse g) u v k <-> path g v u k.
  Proof.
    revert u v. induction k as [|k IH]; intros u v; split; intros H.
    - apply path_0_inv in H. subst. constructor.
    - apply path_0_inv in H. subst. constructor.
    - inversion H; subst. eapply path_snoc; [apply IH; eauto|]. by apply edge_reverse.
    - apply path_inv_last in H as (x & Hx & He).
      eapply path_cons; [apply edge_reverse; exact He|]. by apply IH.
  Qed.

  Lemma reaches_reverse g u v : reaches (reverse g) u v <-> reaches g v u.
  Proof. split; intros (k & Hk & Hp); exists k; (split; [done|]); by apply path_reverse. Qed.

  Lemma topological_reverse g o : topological g o -> topological (reverse g) (rev o).
  Proof.
    intros (Hnd & Hall & Hfw). split_and!.
    - apply NoDup_ListNoDup. apply NoDup_rev.
      by apply NoDup_ListNoDup.
    - intros v. rewrite <- in_rev. apply Hall.
    - intros u v He. rewrite edge_reverse in He. rewrite <- before_rev.
      by apply Hfw.
  Qed.
End topo.

(** ** Transitive closure *)
Section closure.
  Context {A : Type}.
  Implicit Types g tc : digraph A.

  Lemma edge_add_edge g u v a b :
    edge (add_edge g u v) a b <-> edge g a b \/ (a = u /\ b = v).
  Proof.
    unfold edge, add_edge. simpl. rewrite in_app_iff. simpl. split.
    - intros [H|[H|[]]]; [by left|]. inversion H. by right.
    - intros [H|[-> ->]]; [by left|]. right. by left.
  Qed.

  Lemma edge_fold_add g u vs a b :
    edge (fold_left (fun t v => add_edge t u v) vs g) a b <->
    edge g a b \/ (a = u /\ b ∈ vs).
  Proof.
    revert g. induction vs as [|v vs IH]; intros g; cbn [fold_left].
    - rewrite elem_of_nil. tauto.
    - rewrite IH, edge_add_edge, elem_of_cons. tauto.
  Qed.

  Lemma nodes_fold_add g u vs :
    nodes (fold_left (fun t v => add_edge t u v) vs g) = nodes g.
  Proof. revert g. induction vs as [|v vs IH]; intros g; cbn [fold_left]; [done|]. by rewrite IH. Qed.

  (** State of the closure after the nodes in [done] have been visited. *)
  Definition tc_inv g tc (dn : nat -> Prop) : Prop :=
    nodes tc = nodes g /\
    (forall u v, dn u -> (edge tc u v <-> reaches g u v)) /\
    (forall u v, ~ dn u -> (edge tc u v <-> edge g u v)).

  Lemma tc_visit_inv g tc (dn : nat -> Prop) (Hdec : forall x, Decision (dn x)) u :
    acyclic g ->
    tc_inv g tc dn -> ~ dn u -> (forall v, edge g u v -> dn v) ->
    exists tc', tc_visit (Some tc) u = Some tc' /\ tc_inv g tc' (fun x => dn x \/ x = u).
  Proof.
    intros Hac (Hn & Hd & Hnd) Hu Hsucc. unfold tc_visit.
    destruct (descendants_at_distance_correct tc u 2) as (r & -> & Hr).
    eexists. split; [reflexivity|].
    assert (forall x, x ∈ r <-> (exists v, edge g u v /\ reaches g v x) /\ ~ edge g u x) as Hr'.
    { intros x. rewrite Hr. split.
      - intros (n & Hn2 & [Hp Hmin]). assert (n = 2) as -> by lia.
        apply path_inv_last in Hp as (v & Huv & Hvx). apply path_1 in Huv.
        apply Hnd in Huv; [|done]. split.
        + exists v. split; [done|]. apply Hd; [by apply Hsucc|done].
        + intros He. apply Hnd in He; [|done]. apply path_1 in He. apply Hmin in He. lia.
      - intros [(v & Huv & Hvx) Hux]. exists 2. split; [done|].
        assert (path tc u x 2) as Hp.
        { eapply path_cons; [by apply Hnd|]. apply path_1. apply Hd; [by apply Hsucc|done]. }
        split; [done|]. intros k Hk. destruct k as [|[|k]]; [| |lia].
        + apply path_0_inv in Hk. subst x. exfalso. apply (Hac u).
          eapply reaches_trans; [by apply reaches_edge|done].
        + apply path_1 in Hk. apply Hnd in Hk; done. }
    split_and!.
    - by rewrite nodes_fold_add.
    - intros a b Hab. rewrite edge_fold_add. setoid_rewrite elem_of_elements. split.
      + intros [He|[-> Hb]].
        * destruct Hab as [Ha| ->]; [by apply Hd|]. apply reaches_edge. by apply Hnd.
        * apply Hr' in Hb as [(v & Huv & Hvb) _]. eapply reaches_trans; [|done].
          by apply reaches_edge.
      + intros Hreach. destruct (Hdec a) as [Ha|Ha]; [left; by apply Hd|].
        destruct Hab as [Ha'| ->]; [done|].
        destruct (decide (b ∈ r)) as [Hb|Hb]; [right; done|]. left. apply Hnd; [done|].
        apply reaches_inv_first in Hreach as (v & Huv & [-> |Hvb]); [done|].
        destruct (in_dec (prod_eq_dec) (u, b) (edges g)) as [Hin|Hin]; [exact Hin|].
        exfalso. apply Hb. apply Hr'. split; [|exact Hin]. exists v. done.
    - intros a b Hab. rewrite edge_fold_add. rewrite Hnd by tauto. split; [|tauto].
      intros [?|[-> _]]; [done|]. exfalso. tauto.
  Qed.

  Lemma transitive_closure_dag_correct g o :
    topological g o ->
    exists tc, transitive_closure_dag g (Some o) = Some tc /\
      nodes tc = nodes g /\ forall u v, edge tc u v <-> reaches g u v.
  Proof.
    intros Ht. pose proof (topological_acyclic _ _ Ht) as Hac.
    destruct Ht as (Hnd & Hall & Hfw). unfold transitive_closure_dag.
    assert (forall done_ todo tc, rev o = done_ ++ todo -> tc_inv g tc (fun x => x ∈ done_) ->
      exists tc', fold_left tc_visit todo (Some tc) = Some tc' /\
                  tc_inv g tc' (fun x => x ∈ rev o)) as Hloop.
    { intros dn todo. revert dn. induction todo as [|u todo IH]; intros dn tc Heq Hinv.
      - exists tc. split; [done|]. rewrite app_nil_r in Heq. by rewrite Heq.
      - cbn [fold_left].
        assert (NoDup (dn ++ u :: todo)) as Hnd'.
        { rewrite <- Heq. apply NoDup_ListNoDup, NoDup_rev. by apply NoDup_ListNoDup. }
        destruct (tc_visit_inv g tc (fun x => x ∈ dn) _ u Hac Hinv) as (tc' & -> & Hinv').
        + intros Hin. apply NoDup_app in Hnd' as (_ & Hdis & _). apply (Hdis u); set_solver.
        + intros v He. apply Hfw in He. apply before_rev in He. rewrite Heq in He.
          apply before_app_inv in He; [|done]. by apply elem_of_list_In.
        + apply (IH (dn ++ [u])).
          * rewrite <- List.app_assoc. done.
          * destruct Hinv' as (H1 & H2 & H3). split_and!; [done| |].
            -- intros a b Hab. apply H2. set_solver.
            -- intros a b Hab. apply H3. set_solver. }
    destruct (Hloop [] (rev o) g eq_refl) as (tc & -> & H1 & H2 & H3).
    - split_and!; [done|set_solver|done].
    - exists tc. split_and!; [done|done|]. intros u v.
      destruct (decide (u ∈ rev o)) as [Hu|Hu]; [by apply H2|].
      rewrite H3 by done.
      assert (forall w, ~ edge g u w) as Hno.
      { intros w He. apply Hu. destruct (Hfw _ _ He) as (a & b & c & ->).
        apply elem_of_list_In. rewrite <- in_rev, in_app_iff. right. by left. }
      split; [intros He; by apply Hno in He|].
      intros Hreach. apply reaches_inv_first in Hreach as (x & Hux & _). by apply Hno in Hux.
  Qed.
End closure.

(** ** Levels *)
Section levels.
  Context {A : Type}.
  Implicit Types g : digraph A.

  Lemma fold_max_spec ls :
    (forall l, l ∈ ls -> l <= fold_right Nat.max 0 ls) /\
    (fold_right Nat.max 0 ls = 0 \/ fold_right Nat.max 0 ls ∈ ls).
  Proof.
    induction ls as [|x ls [IH1 IH2]]; simpl.
    - split; [set_solver|by left].
    - split.
      + intros l Hl. apply elem_of_cons in Hl as [->|Hl]; [lia|]. apply IH1 in Hl. lia.
      + destruct (Nat.max_spec x (fold_right Nat.max 0 ls)) as [[_ ->]|[_ ->]].
        * destruct IH2 as [->|IH2]; [by left|]. right. set_solver.
        * right. set_solver.
  Qed.

  Definition level_ok (lvl : nat -> nat -> Prop) (v l : nat) : Prop := lvl v l.

  (** Generic level computation: [nbrs] enumerates predecessors in a graph [g'] whose
      edges all come earlier in the visiting order. *)
  Lemma levels_correct g (nbrs : nat -> list nat) o :
    (forall u v, u ∈ nbrs v <-> edge g u v) ->
    topological g o ->
    exists lv, fold_left (level_visit nbrs) o (Some (repeat 0 (length (nodes g)))) = Some lv /\
      length lv = length (nodes g) /\
      forall v, v < length (nodes g) -> exists l, lv !! v = Some l /\ longest_path_to g v l.
  Proof.
    intros Hnb (Hnd & Hall & Hfw).
    set (n := length (nodes g)).
    assert (forall dn todo lv, o = dn ++ todo -> length lv = n ->
      (forall v, v ∈ dn -> exists l, lv !! v = Some l /\ longest_path_to g v l) ->
      exists lv', fold_left (level_visit nbrs) todo (Some lv) = Some lv' /\ length lv' = n /\
        (forall v, v ∈ o -> exists l, lv' !! v = Some l /\ longest_path_to g v l)) as Hloop.
    { intros dn todo. revert dn. induction todo as [|v todo IH]; intros dn lv Heq Hlen Hdn.
      - exists lv. split_and!; [done|done|]. rewrite app_nil_r in Heq. by subst.
      - cbn [fold_left].
        assert (forall u, u ∈ nbrs v -> u ∈ dn) as Hpred.
        { intros u Hu. apply Hnb in Hu. apply Hfw in Hu. rewrite Heq in Hu.
          rewrite Heq in Hnd. apply before_app_inv in Hu; [|done]. by apply elem_of_list_In. }
        assert (v < n) as Hvn.
        { apply Hall. rewrite Heq. rewrite in_app_iff. right. by left. }
        assert (exists ls, mapM (fun x => lv !! x) (nbrs v) = Some ls /\
                  Forall2 (fun u l => lv !! u = Some l /\ longest_path_to g u l) (nbrs v) ls)
          as (ls & Hls & Hf2).
        { revert Hpred. generalize (nbrs v). intros us. induction us as [|u us IHu]; intros Hpred.
          - exists []. split; [done|constructor].
          - destruct IHu as (ls & Hls & Hf2); [set_solver|].
            destruct (Hdn u) as (l & Hl & Hlong); [set_solver|].
            exists (l :: ls). simpl. rewrite Hl. simpl. rewrite Hls. simpl.
            split; [done|]. constructor; [split; done|done]. }
        assert (longest_path_to g v (fold_right Nat.max 0 (map (fun l => 1 + l) ls))) as Hlong.
        { destruct (fold_max_spec (map (fun l => 1 + l) ls)) as [Hub Hatt].
          set (m := fold_right Nat.max 0 (map (fun l => 1 + l) ls)) in *. split.
          - destruct Hatt as [Hz|Hin].
            + rewrite Hz. exists v. constructor.
            + apply elem_of_list_In, in_map_iff in Hin as (l & Hl & Hin).
              apply elem_of_list_In, elem_of_list_lookup in Hin as (i & Hi).
              destruct (Forall2_lookup_r _ _ _ _ _ Hf2 Hi) as (u & Hu & _ & (w & Hw) & _).
              exists w. rewrite <- Hl. simpl. eapply path_snoc; [exact Hw|].
              apply Hnb. eapply elem_of_list_lookup_2; eauto.
          - intros u k Hp. destruct k as [|k]; [lia|].
            apply path_inv_last in Hp as (x & Hx & He). apply Hnb in He.
            apply elem_of_list_lookup in He as (i & Hi).
            destruct (Forall2_lookup_l _ _ _ _ _ Hf2 Hi) as (l & Hl & _ & _ & Hmax).
            apply Hmax in Hx. assert (S l <= m); [|lia]. apply Hub.
            apply elem_of_list_In, in_map_iff. exists l. split; [done|].
            apply elem_of_list_In. eapply elem_of_list_lookup_2; eauto. }
        unfold level_visit at 2. unfold level_of. rewrite Hls.
        rewrite decide_True by (rewrite Hlen; exact Hvn).
        apply (IH (dn ++ [v])).
        + rewrite <- List.app_assoc. done.
        + by rewrite insert_length.
        + intros x Hx. destruct (decide (x = v)) as [->|Hne].
          * eexists. split; [apply list_lookup_insert; lia|done].
          * rewrite list_lookup_insert_ne by done. apply Hdn. set_solver. }
    destruct (Hloop [] o (repeat 0 n) eq_refl) as (lv & Hlv & Hlen & Hspec).
    - apply repeat_length.
    - set_solver.
    - exists lv. split_and!; [done|done|]. intros v Hv. apply Hspec.
      apply elem_of_list_In. by apply Hall.
  Qed.

  Lemma tlevel_dag_correct g o :
    topological g o ->
    exists lv, tlevel_dag g (Some o) = Some lv /\ length lv = length (nodes g) /\
      forall v, v < length (nodes g) -> exists l, lv !! v = Some l /\ longest_path_to g v l.
  Proof.
    intros Ht. apply levels_correct; [|done]. intros u v. apply elem_in_neighbors.
  Qed.

  Lemma longest_path_reverse g v l :
    longest_path_to (reverse g) v l <-> longest_path_from g v l.
  Proof.
    unfold longest_path_to, longest_path_from. split; intros [(u & Hu) Hmax].
    - split; [exists u; by apply path_reverse|]. intros w k Hp. apply (Hmax w). by apply path_reverse.
    - split; [exists u; by apply path_reverse|]. intros w k Hp. apply (Hmax w). by apply path_reverse.
  Qed.

  Lemma blevel_dag_correct g o :
    topological g o ->
    exists lv, blevel_dag g (Some o) = Some lv /\ length lv = length (nodes g) /\
      forall v, v < length (nodes g) -> exists l, lv !! v = Some l /\ longest_path_from g v l.
  Proof.
    intros Ht. apply topological_reverse in Ht.
    destruct (levels_correct (reverse g) (out_neighbors g) (rev o)) as (lv & H1 & H2 & H3);
      [|done|].
    - intros u v. rewrite elem_out_neighbors, edge_reverse. done.
    - exists lv. split_and!; [exact H1|exact H2|]. intros v Hv.
      destruct (H3 v Hv) as (l & Hl & Hlong). exists l. split; [done|].
      by apply longest_path_reverse.
  Qed.

  Lemma toposort_none_cyclic g : toposort_contract g None -> ~ acyclic g.
  Proof. done. Qed.
End levels.

(** ** Graphs whose edges go from smaller to larger indices *)
Section increasing.
  Context {A : Type}.
  Implicit Types g : digraph A.

  Definition increasing g : Prop := forall u v, edge g u v -> u < v.

  Lemma before_seq n u v : u < v -> v < n -> before (seq 0 n) u v.
  Proof.
    intros Huv Hvn. exists (seq 0 u), (seq (S u) (v - S u)), (seq (S v) (n - S v)).
    replace n with (u + S ((v - S u) + S (n - S v))) at 1 by lia.
    rewrite seq_app. simpl. f_equal. f_equal. rewrite seq_app. f_equal.
    replace (S u + (v - S u)) with v by lia. done.
  Qed.

  Lemma topological_seq g :
    graph_wf g -> increasing g -> topological g (seq 0 (length (nodes g))).
  Proof.
    intros Hwf Hinc. split_and!.
    - apply NoDup_seq.
    - intros v. rewrite <- elem_of_list_In, elem_of_seq. lia.
    - intros u v He. apply before_seq; [by apply Hinc|]. by apply (Hwf u v).
  Qed.

  Lemma increasing_acyclic g : increasing g -> acyclic g.
  Proof.
    intros Hinc u (k & Hk & Hp).
    assert (forall u v k, path g u v k -> u + k <= v) as H.
    { clear u k Hk Hp. induction 1 as [u|u x v k He Hp IH]; [lia|].
      apply Hinc in He. lia. }
    apply H in Hp. lia.
  Qed.
End increasing.

Lemma transitive_closure_exact_lemma (A : Type) (g : digraph A) r :
  toposort_contract g r ->
  (acyclic g -> exists tc, transitive_closure_dag g r = Some tc /\
     nodes tc = nodes g /\ forall u v, edge tc u v <-> reaches g u v) /\
  (~ acyclic g -> transitive_closure_dag g r = None).
Proof.
  destruct r as [o|]; simpl; intros H.
  - split; [intros _; by apply transitive_closure_dag_correct|].
    intros Hn. exfalso. apply Hn. by eapply topological_acyclic.
  - split; [done|]. done.
Qed.

Lemma lookup_nth_error {B} (l : list B) i : nth_error l i = l !! i.
Proof. revert i. induction l; intros [|i]; simpl; try done. Qed.

Lemma tlevel_lemma (A : Type) (g : digraph A) o :
  topological g o ->
  exists lv, tlevel_dag g (Some o) = Some lv /\ length lv = length (nodes g) /\
    forall v, v < length (nodes g) ->
      exists l, nth_error lv v = Some l /\ longest_path_to g v l.
Proof.
  intros H. destruct (tlevel_dag_correct g o H) as (lv & ? & ? & Hs).
  exists lv. split_and!; [done|done|]. intros v Hv. rewrite lookup_nth_error. by apply Hs.
Qed.

Lemma blevel_lemma (A : Type) (g : digraph A) o :
  topological g o ->
  exists lv, blevel_dag g (Some o) = Some lv /\ length lv = length (nodes g) /\
    forall v, v < length (nodes g) ->
      exists l, nth_error lv v = Some l /\ longest_path_from g v l.
Proof.
  intros H. destruct (blevel_dag_correct g o H) as (lv & ? & ? & Hs).
  exists lv. split_and!; [done|done|]. intros v Hv. rewrite lookup_nth_error. by apply Hs.
Qed.

Lemma increasing_lemma (A : Type) (g : digraph A) :
  graph_wf g -> (forall u v, edge g u v -> u < v) ->
  acyclic g /\ topological g (seq 0 (length (nodes g))).
Proof. intros H1 H2. split; [by apply increasing_acyclic|by apply topological_seq]. Qed.
