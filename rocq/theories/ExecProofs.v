(** Proofs about adding tasks and selecting the subgraph to run. *)
From Verif Require Import ExecSpec GraphProofs LogProofs.

(** ** filter_map *)
Fixpoint positions {B} (l : list (option B)) (o : nat) : list nat :=
  match l with
  | [] => []
  | Some _ :: r => o :: positions r (S o)
  | None :: r => positions r (S o)
  end.

Lemma positions_length {B} (l : list (option B)) o : length (positions l o) = length (omap id l).
Proof. revert o. induction l as [|[x|] l IH]; intros o; simpl; auto. Qed.

Lemma positions_spec {B} (l : list (option B)) o i n :
  positions l o !! i = Some n ->
  o <= n /\ exists w, l !! (n - o) = Some (Some w) /\ omap id l !! i = Some w /\
    length (omap id (take (n - o) l)) = i.
Proof.
  revert o i. induction l as [|[x|] l IH]; intros o i; simpl.
  - done.
  - destruct i as [|i]; simpl.
    + intros [= ->]. split; [lia|]. rewrite Nat.sub_diag. eauto.
    + intros H. apply IH in H as (Hle & w & H1 & H2 & H3). split; [lia|].
      exists w. replace (n - o) with (S (n - S o)) by lia. simpl. split_and!; [done|done|f_equal; exact H3].
  - intros H. apply IH in H as (Hle & w & H1 & H2 & H3). split; [lia|].
    exists w. replace (n - o) with (S (n - S o)) by lia. simpl. split_and!; [done|done|exact H3].
Qed.

Lemma positions_complete {B} (l : list (option B)) o n w :
  o <= n -> l !! (n - o) = Some (Some w) ->
  positions l o !! (length (omap id (take (n - o) l))) = Some n.
Proof.
  revert o. induction l as [|[x|] l IH]; intros o Ho Hl; simpl in *.
  - done.
  - destruct (decide (n = o)) as [->|Hne].
    + rewrite Nat.sub_diag. done.
    + replace (n - o) with (S (n - S o)) in * by lia. simpl in *. apply IH; [lia|done].
  - destruct (decide (n = o)) as [->|Hne].
    + rewrite Nat.sub_diag in Hl. done.
    + replace (n - o) with (S (n - S o)) in * by lia. simpl in *. apply IH; [lia|done].
Qed.

Lemma positions_lower {B} (l : list (option B)) o : Forall (le o) (positions l o).
Proof.
  revert o. induction l as [|[x|] l IH]; intros o; simpl; [constructor| |].
  - constructor; [lia|]. eapply Forall_impl; [apply (IH (S o))|]. simpl. lia.
  - eapply Forall_impl; [apply (IH (S o))|]. simpl. lia.
Qed.

Lemma positions_sorted {B} (l : list (option B)) o : StronglySorted lt (positions l o).
Proof.
  revert o. induction l as [|[x|] l IH]; intros o; simpl; [constructor| |apply IH].
  constructor; [apply IH|]. eapply Forall_impl; [apply (positions_lower l (S o))|]. simpl. lia.
Qed.

(** A filter_map that keeps the weight. *)
Definition keeps {A} (keep : nat -> A -> bool) (n : nat) (w : A) : option A :=
  if keep n w then Some w else None.

Definition kept_ids {A} (keep : nat -> A -> bool) (g : digraph A) : list nat :=
  positions (imap (keeps keep) (nodes g)) 0.

Lemma elem_kept_ids {A} keep (g : digraph A) n :
  In n (kept_ids keep g) <-> exists w, nodes g !! n = Some w /\ keep n w = true.
Proof.
  rewrite <- elem_of_list_In, elem_of_list_lookup. split.
  - intros [i Hi]. apply positions_spec in Hi as (_ & w & Hl & _). rewrite Nat.sub_0_r in Hl.
    rewrite list_lookup_imap in Hl. destruct (nodes g !! n) as [w'|]; [|done].
    simpl in Hl. unfold keeps in Hl. destruct (keep n w') eqn:Hk; [|done]. eauto.
  - intros (w & Hn & Hk). eexists. apply (positions_complete _ _ _ w); [lia|].
    rewrite Nat.sub_0_r, list_lookup_imap, Hn. simpl. unfold keeps. by rewrite Hk.
Qed.

Lemma filter_map_part {A} keep (g : digraph A) :
  part_of g (kept_ids keep g) (filter_map (keeps keep) g).
Proof.
  split; [apply positions_sorted|]. split; [apply positions_length|]. split.
  - intros i n Hi. apply positions_spec in Hi as (_ & w & Hl & Ho & _). rewrite Nat.sub_0_r in Hl.
    cbn [filter_map nodes]. rewrite Ho. rewrite list_lookup_imap in Hl.
    destruct (nodes g !! n) as [w'|] eqn:Hn; [|done]. simpl in Hl. unfold keeps in Hl.
    destruct (keep n w'); [|done]. split; [congruence|]. by eapply lookup_lt_Some.
  - intros i j. unfold edge at 1, filter_map. cbn [edges].
    set (l := imap (keeps keep) (nodes g)).
    assert (forall u i, new_index l u = Some i <-> kept_ids keep g !! i = Some u) as Hnew.
    { intros u i'. unfold new_index. split.
      - destruct (l !! u) as [[w|]|] eqn:Hl; [|done|done]. intros [= <-].
        unfold kept_ids. rewrite <- (Nat.sub_0_r u) at 1. apply (positions_complete _ 0 u w); [lia|].
        by rewrite Nat.sub_0_r.
      - intros H. apply positions_spec in H as (_ & w & Hl & _ & Hlen). rewrite Nat.sub_0_r in *.
        fold l in Hl, Hlen. by rewrite Hl, Hlen. }
    rewrite <- elem_of_list_In, elem_of_list_omap. split.
    + intros ([u v] & Hin & He). simpl in He.
      destruct (new_index l u) as [i'|] eqn:Hu; [|done].
      destruct (new_index l v) as [j'|] eqn:Hv; [|done]. simplify_eq.
      apply Hnew in Hu. apply Hnew in Hv. exists u, v. split_and!; try done.
      by apply elem_of_list_In.
    + intros (u & v & Hu & Hv & He). apply Hnew in Hu. apply Hnew in Hv.
      exists (u, v). split; [by apply elem_of_list_In|]. simpl. by rewrite Hu, Hv.
Qed.

(** ** Parts of graphs *)
Lemma sorted_lookup_inj (ids : list nat) i j n :
  StronglySorted lt ids -> ids !! i = Some n -> ids !! j = Some n -> i = j.
Proof.
  intros Hs. revert i j. induction Hs as [|a l Hs IH Hf]; intros i j; [done|].
  rewrite List.Forall_forall in Hf.
  destruct i as [|i], j as [|j]; simpl; intros H1 H2; [done| | |]; simplify_eq.
  - assert (In n l) by (by apply elem_of_list_In, elem_of_list_lookup; eauto). apply Hf in H. lia.
  - assert (In n l) by (by apply elem_of_list_In, elem_of_list_lookup; eauto). apply Hf in H. lia.
  - f_equal. eauto.
Qed.

Lemma sorted_lookup_lt (ids : list nat) i j u v :
  StronglySorted lt ids -> ids !! i = Some u -> ids !! j = Some v -> (i < j <-> u < v).
Proof.
  intros Hs. revert i j. induction Hs as [|a l Hs IH Hf]; intros i j; [done|].
  rewrite List.Forall_forall in Hf.
  destruct i as [|i], j as [|j]; simpl; intros H1 H2; simplify_eq; try lia.
  - assert (In v l) by (by apply elem_of_list_In, elem_of_list_lookup; eauto). apply Hf in H. lia.
  - assert (In u l) by (by apply elem_of_list_In, elem_of_list_lookup; eauto). apply Hf in H. lia.
  - rewrite <- (IH i j H1 H2). lia.
Qed.

Section parts.
  Context {A : Type}.
  Implicit Types g sub : digraph A.

  Lemma part_lookup g ids sub i :
    part_of g ids sub -> i < length (nodes sub) -> exists n, ids !! i = Some n.
  Proof.
    intros (_ & Hl & _) Hi. apply lookup_lt_is_Some. lia.
  Qed.

  Lemma part_wf g ids sub : part_of g ids sub -> graph_wf sub.
  Proof.
    intros (_ & Hl & _ & He) u v Huv. apply He in Huv as (x & y & Hx & Hy & _).
    apply lookup_lt_Some in Hx. apply lookup_lt_Some in Hy. lia.
  Qed.

  Lemma part_trans g ids sub ids2 sub2 :
    part_of g ids sub -> part_of sub ids2 sub2 ->
    part_of g (omap (fun i => ids !! i) ids2) sub2.
  Proof.
    intros (Hs1 & Hl1 & Hn1 & He1) (Hs2 & Hl2 & Hn2 & He2).
    assert (forall i m, ids2 !! i = Some m -> exists n, ids !! m = Some n) as Hin.
    { intros i m Hi. apply Hn2 in Hi as [_ Hm]. apply lookup_lt_is_Some. lia. }
    assert (forall i n, omap (fun i => ids !! i) ids2 !! i = Some n <->
              exists m, ids2 !! i = Some m /\ ids !! m = Some n) as Hlk.
    { clear - Hin. induction ids2 as [|m l IH]; intros i n.
      - simpl. split; [done|]. intros (? & ? & _). done.
      - destruct (Hin 0 m eq_refl) as [x Hx]. cbn [omap list_omap]. rewrite Hx.
        destruct i as [|i]; simpl.
        + split; [intros [= <-]; eauto|]. intros (? & [= <-] & ?). congruence.
        + apply IH. intros i' m' H'. exact (Hin (S i') m' H'). }
    assert (forall i m, ids2 !! i = Some m -> m < length ids) as Hlt.
    { intros i m Hi. apply Hn2 in Hi as [_ ?]. lia. }
    split_and!.
    - clear - Hs1 Hs2 Hin. induction Hs2 as [|m l Hs2 IH Hf]; [constructor|].
      cbn [omap list_omap]. destruct (Hin 0 m eq_refl) as [x Hx]. rewrite Hx.
      constructor; [apply IH; intros i; apply (Hin (S i))|].
      apply List.Forall_forall. intros y Hy. apply elem_of_list_In, elem_of_list_omap in Hy as (m' & Hm' & Hy).
      rewrite List.Forall_forall in Hf. apply elem_of_list_In in Hm'. specialize (Hf _ Hm').
      by apply (sorted_lookup_lt ids m m').
    - rewrite <- Hl2. clear - Hin. induction ids2 as [|m l IH]; [done|].
      cbn [omap list_omap]. destruct (Hin 0 m eq_refl) as [x Hx]. rewrite Hx. simpl. f_equal.
      apply IH. intros i; apply (Hin (S i)).
    - intros i n Hi. apply Hlk in Hi as (m & Hm & Hn). apply Hn2 in Hm as [-> _].
      by apply Hn1 in Hn as [-> ?].
    - intros i j. rewrite He2. split.
      + intros (u & v & Hu & Hv & He). apply He1 in He as (x & y & Hx & Hy & He).
        exists x, y. split_and!; [apply Hlk; eauto|apply Hlk; eauto|done].
      + intros (x & y & Hx & Hy & He). apply Hlk in Hx as (u & Hu & Hx). apply Hlk in Hy as (v & Hv & Hy).
        exists u, v. split_and!; [done|done|]. apply He1. eauto.
  Qed.

  Lemma elem_part_trans (ids ids2 : list nat) n :
    In n (omap (fun i => ids !! i) ids2) <-> exists i, In i ids2 /\ ids !! i = Some n.
  Proof.
    rewrite <- elem_of_list_In, elem_of_list_omap.
    split; intros (i & Hi & Hn); exists i; (split; [by apply elem_of_list_In|done]).
  Qed.

  (** Paths of a part are the paths of the whole through its nodes. *)
  Lemma part_path g ids sub i j k :
    part_of g ids sub -> path sub i j k -> forall u, ids !! i = Some u ->
    exists v, ids !! j = Some v /\ path g u v k /\ path_via g (fun n => In n ids) u v.
  Proof.
    intros Hp. induction 1 as [i|i j l k He Hpa IH]; intros u Hu.
    - exists u. split_and!; [done|constructor|constructor].
      by apply elem_of_list_In, elem_of_list_lookup; eauto.
    - apply (proj2 (proj2 (proj2 Hp))) in He as (x & y & Hx & Hy & He). simplify_eq.
      destruct (IH y Hy) as (v & Hv & Hp1 & Hp2). exists v. split_and!; [done|by econstructor|].
      econstructor; [|done|done]. by apply elem_of_list_In, elem_of_list_lookup; eauto.
  Qed.

  Lemma part_path_via g ids sub u v :
    part_of g ids sub -> path_via g (fun n => In n ids) u v ->
    exists i j k, ids !! i = Some u /\ ids !! j = Some v /\ path sub i j k.
  Proof.
    intros Hp. induction 1 as [u Hu|u v w Hu He Hpa IH].
    - apply elem_of_list_In, elem_of_list_lookup in Hu as [i Hi].
      exists i, i, 0. split_and!; [done|done|constructor].
    - destruct IH as (i & j & k & Hi & Hj & Hk).
      apply elem_of_list_In, elem_of_list_lookup in Hu as [i' Hi'].
      exists i', j, (S k). split_and!; [done|done|]. econstructor; [|done].
      apply (proj2 (proj2 (proj2 Hp))). eauto.
  Qed.

  Lemma path_via_iff g (P Q : nat -> Prop) u v :
    (forall n, P n <-> Q n) -> path_via g P u v <-> path_via g Q u v.
  Proof.
    intros H. split; induction 1; econstructor; eauto; by apply H.
  Qed.

  Lemma path_via_path g P u v : path_via g P u v -> exists k, path g u v k.
  Proof. induction 1 as [u|u v w ? ? ? [k Hk]]; eexists; econstructor; eauto. Qed.

  Lemma path_via_last g (P : nat -> Prop) u v : path_via g P u v -> P v.
  Proof. by induction 1. Qed.
  Lemma path_via_first g (P : nat -> Prop) u v : path_via g P u v -> P u.
  Proof. by destruct 1. Qed.

  Lemma part_increasing g ids sub : part_of g ids sub -> increasing g -> increasing sub.
  Proof.
    intros (Hs & _ & _ & He) Hinc u v Huv. apply He in Huv as (x & y & Hx & Hy & Hxy).
    apply Hinc in Hxy. by apply (sorted_lookup_lt ids u v x y).
  Qed.
End parts.

(** ** Priorities *)
Lemma same_task_refl c : same_task c c.
Proof. repeat split. Qed.
Lemma with_priority_same c p : same_task c (with_priority c p).
Proof. repeat split. Qed.

(** Two graphs with the same edges and the same tasks apart from priorities. *)
Definition same_graph (g g' : digraph cmd) : Prop :=
  edges g' = edges g /\ Forall2 same_task (nodes g) (nodes g').

Lemma same_graph_refl g : same_graph g g.
Proof. split; [done|]. apply Forall2_same_length_lookup_2; [done|]. intros i x y -> [= ->]. apply same_task_refl. Qed.
Lemma same_graph_trans g1 g2 g3 : same_graph g1 g2 -> same_graph g2 g3 -> same_graph g1 g3.
Proof.
  intros [E1 F1] [E2 F2]. split; [congruence|].
  eapply Forall2_transitive; [|exact F1|exact F2].
  intros ??? (?&?&?&?&?&?) (?&?&?&?&?&?). repeat split; congruence.
Qed.

Lemma same_graph_length g g' : same_graph g g' -> length (nodes g') = length (nodes g).
Proof. intros [_ H]. symmetry. by eapply Forall2_length. Qed.
Lemma same_graph_edge g g' u v : same_graph g g' -> edge g' u v <-> edge g u v.
Proof. intros [H _]. unfold edge. by rewrite H. Qed.
Lemma same_graph_path g g' u v k : same_graph g g' -> path g' u v k <-> path g u v k.
Proof.
  intros H. split; induction 1; econstructor; eauto; by apply (same_graph_edge _ _ _ _ H).
Qed.
Lemma same_graph_reaches g g' u v : same_graph g g' -> reaches g' u v <-> reaches g u v.
Proof. intros H. unfold reaches. split; intros (k & ? & Hp); exists k; (split; [done|]); by apply (same_graph_path _ _ _ _ _ H). Qed.
Lemma same_graph_keys g g' : same_graph g g' -> map c_key (nodes g') = map c_key (nodes g).
Proof. intros [_ H]. induction H as [|x y l l' Hxy H IH]; [done|]. simpl. rewrite IH. f_equal. symmetry. apply Hxy. Qed.
Lemma same_graph_has_key g g' n k : same_graph g g' -> task_has_key g' n k <-> task_has_key g n k.
Proof.
  intros H. assert (map c_key (nodes g') !! n = map c_key (nodes g) !! n) as E by (by rewrite (same_graph_keys _ _ H)).
  rewrite !list_lookup_fmap in E. unfold task_has_key.
  destruct (nodes g' !! n) as [c'|], (nodes g !! n) as [c|]; simplify_eq/=.
  - split; intros (? & [= <-] & <-); eexists; split; [done|congruence|done|congruence].
  - split; intros (? & ? & ?); done.
Qed.
Lemma same_graph_wf g g' : same_graph g g' -> graph_wf g -> graph_wf g'.
Proof.
  intros H Hwf u v He. rewrite (same_graph_length _ _ H). apply Hwf. by apply (same_graph_edge _ _ _ _ H).
Qed.
Lemma same_graph_increasing g g' : same_graph g g' -> increasing g -> increasing g'.
Proof. intros H Hi u v He. apply Hi. by apply (same_graph_edge _ _ _ _ H). Qed.
Lemma same_graph_considered g g' t n : same_graph g g' -> considered g' t n <-> considered g t n.
Proof.
  intros H. unfold considered. rewrite (same_graph_length _ _ H).
  destruct t as [t|]; [|done]. by rewrite (same_graph_reaches _ _ _ _ H).
Qed.
Lemma same_graph_candidate g g' t d es n : same_graph g g' -> candidate g' t d es n <-> candidate g t d es n.
Proof.
  intros H. unfold candidate. rewrite (same_graph_considered _ _ _ _ H).
  split; intros [? Hk]; (split; [done|]); intros k ?; apply Hk; by apply (same_graph_has_key _ _ _ _ H).
Qed.
Lemma same_graph_via g g' P u v : same_graph g g' -> path_via g' P u v <-> path_via g P u v.
Proof.
  intros H. split; induction 1; econstructor; eauto; by apply (same_graph_edge _ _ _ _ H).
Qed.
Lemma same_graph_selected g g' t d es r n : same_graph g g' -> selected g' t d es r n <-> selected g t d es r n.
Proof.
  intros H. unfold selected. rewrite (same_graph_candidate _ _ _ _ _ _ H).
  split; intros [? Hk]; (split; [done|]); intros Hr m k Hv Hm; apply (Hk Hr m).
  - apply (same_graph_via _ _ _ _ _ H). eapply path_via_iff; [|exact Hv]. intros; by apply same_graph_candidate.
  - by apply (same_graph_has_key _ _ _ _ H).
  - apply (same_graph_via _ _ _ _ _ H) in Hv. eapply path_via_iff; [|exact Hv].
    intros; symmetry; by apply same_graph_candidate.
  - by apply (same_graph_has_key _ _ _ _ H).
Qed.

Lemma set_priorities_spec g lv :
  length lv = length (nodes g) ->
  same_graph g (set_priorities g lv) /\
  forall n c, nodes (set_priorities g lv) !! n = Some c -> exists l, lv !! n = Some l /\ c_priority c = N.of_nat l.
Proof.
  intros Hl. split.
  - split; [done|]. cbn [set_priorities nodes]. apply Forall2_same_length_lookup_2.
    + rewrite zip_with_length. lia.
    + intros i x y Hx Hy. apply lookup_zip_with_Some in Hy as (a & b & -> & Ha & Hb).
      assert (a = x) as -> by congruence. apply with_priority_same.
  - intros n c Hc. apply lookup_zip_with_Some in Hc as (a & b & -> & Ha & Hb). eauto.
Qed.

(** ** What the log says *)
Definition log_ok (l : log_file) : Prop := log_writes (LogFile empty_log_state []) (lf_entries l) = Some l.

Lemma log_ok_status l k : log_ok l -> status_in (lf_entries l) k (runcount (lf_state l) k).
Proof. intros H. apply memory_agrees in H as (_ & H & _). apply H. Qed.

Lemma has_success_iff l k : log_ok l -> has_success (lf_state l) k = true <-> log_success (lf_entries l) k.
Proof.
  intros H. pose proof (log_ok_status l k H) as Hs. unfold has_success. unfold runcount in Hs.
  split.
  - intros Ht. destruct (runcounts (lf_state l) !! k) as [[| |c sr []]|]; try done. exists c, sr. done.
  - intros (c & sr & Hl). rewrite (status_in_unique _ _ _ _ Hs Hl). done.
Qed.
Lemma has_failure_iff l k : log_ok l -> has_failure (lf_state l) k = true <-> log_failure (lf_entries l) k.
Proof.
  intros H. pose proof (log_ok_status l k H) as Hs. unfold has_failure. unfold runcount in Hs.
  split.
  - intros Ht. destruct (runcounts (lf_state l) !! k) as [[| |c sr []]|]; try done. exists c, sr. done.
  - intros (c & sr & Hl). rewrite (status_in_unique _ _ _ _ Hs Hl). done.
Qed.
Lemma has_failure_not_success s k : has_failure s k = true -> has_success s k = false.
Proof. unfold has_failure, has_success. destruct (runcounts s !! k) as [[| |? ? []]|]; done. Qed.

Definition brefs (ks : list string) : list log_entry := map (fun k => Backref (BackrefEntry k)) ks.

Lemma log_writes_backrefs l ks :
  log_writes l (brefs ks) = Some (LogFile (lf_state l) (lf_entries l ++ brefs ks)).
Proof.
  revert l. induction ks as [|k ks IH]; intros l; simpl.
  - rewrite app_nil_r. by destruct l.
  - unfold log_write. simpl. rewrite IH. simpl. by rewrite <- List.app_assoc.
Qed.

(** ** Selection *)
Lemma filter_map_ext {A B} (f h : nat -> A -> option B) (g : digraph A) :
  (forall n w, f n w = h n w) -> filter_map f g = filter_map h g.
Proof. intros H. unfold filter_map. by rewrite (imap_ext f h) by auto. Qed.


Lemma reverse_wf {A} (g : digraph A) : graph_wf g -> graph_wf (GraphModel.reverse g).
Proof. intros H u v He. apply edge_reverse, H in He as [? ?]. done. Qed.

Lemma acyclic_reverse {A} (g : digraph A) : acyclic g -> acyclic (GraphModel.reverse g).
Proof. intros H u Hu. by apply (H u), reaches_reverse. Qed.

Lemma closure_ok (toposort : digraph cmd -> option (list nat)) g :
  order_ok toposort -> graph_wf g -> acyclic g ->
  exists tc, transitive_closure_dag g (toposort g) = Some tc /\ nodes tc = nodes g /\
    forall u v, edge tc u v <-> reaches g u v.
Proof. intros Ho Hwf Ha. by apply (transitive_closure_exact_lemma cmd g (toposort g) (Ho g Hwf)). Qed.

Lemma select_target_spec toposort g target :
  order_ok toposort -> graph_wf g -> increasing g ->
  exists sub ids, select_target toposort g target = Some sub /\ part_of g ids sub /\
    forall n, In n ids <-> considered g target n.
Proof.
  intros Ho Hwf Hinc. destruct target as [t|]; simpl.
  - destruct (closure_ok toposort (GraphModel.reverse g) Ho (reverse_wf g Hwf)
        (acyclic_reverse g (increasing_acyclic g Hinc))) as (tc & -> & _ & Htc).
    set (rel := {[ t ]} ∪ list_to_set (out_neighbors tc t) : gset nat).
    eexists _, (kept_ids (fun n _ => bool_decide (n ∈ rel)) g). split; [reflexivity|]. split.
    + erewrite filter_map_ext; [apply filter_map_part|]. intros n w. unfold keeps.
      case_bool_decide; by destruct (decide (n ∈ rel)).
    + intros n. rewrite elem_kept_ids. unfold considered.
      assert (n ∈ rel <-> n = t \/ reaches g n t) as Hrel.
      { unfold rel. rewrite elem_of_union, elem_of_singleton, elem_of_list_to_set, elem_out_neighbors, Htc.
        by rewrite reaches_reverse. }
      rewrite <- Hrel. split.
      * intros (w & Hw & Hn). apply bool_decide_eq_true in Hn. split; [by eapply lookup_lt_Some|done].
      * intros [Hn ?]. apply lookup_lt_is_Some in Hn as [w Hw]. exists w. split; [done|].
        by apply bool_decide_eq_true.
  - eexists _, (kept_ids (fun _ _ => true) g). split; [reflexivity|]. split.
    + erewrite filter_map_ext; [apply filter_map_part|]. done.
    + intros n. rewrite elem_kept_ids. unfold considered. split.
      * intros (w & Hw & _). split; [by eapply lookup_lt_Some|done].
      * intros [Hn _]. apply lookup_lt_is_Some in Hn as [w Hw]. eauto.
Qed.

Definition not_done (done : gset string) (log : log_state) (w : cmd) : bool :=
  negb (bool_decide (c_key w ∈ done)) && negb (has_success log (c_key w)).

Lemma drop_done_spec g done log :
  exists ids, part_of g ids (drop_done g done log).1 /\
    (forall n, In n ids <-> exists w, nodes g !! n = Some w /\ not_done done log w = true) /\
    (forall k, k ∈ (drop_done g done log).2 <->
       exists n w, nodes g !! n = Some w /\ c_key w = k /\ k ∉ done /\ has_success log k = true).
Proof.
  exists (kept_ids (fun _ w => not_done done log w) g). split_and!.
  - simpl. erewrite filter_map_ext; [apply filter_map_part|]. intros n w. unfold keeps, not_done.
    case_bool_decide; destruct (decide (c_key w ∈ done)); try done. simpl. by destruct (has_success log (c_key w)).
  - intros n. rewrite elem_kept_ids. done.
  - intros k. simpl. rewrite elem_of_list_to_set, elem_of_list_fmap. split.
    + intros (w & -> & Hw). apply elem_of_list_In, filter_In in Hw as [Hw Hb].
      apply andb_true_iff in Hb as [Hb1 Hb2]. apply negb_true_iff, bool_decide_eq_false in Hb1.
      apply elem_of_list_In, elem_of_list_lookup in Hw as [n Hn]. eauto 10.
    + intros (n & w & Hn & <- & Hd & Hs). exists w. split; [done|].
      apply elem_of_list_In, filter_In. split; [by apply elem_of_list_In, elem_of_list_lookup; eauto|].
      rewrite Hs, bool_decide_eq_false_2 by done. done.
Qed.

Lemma drop_failures_spec toposort g log :
  order_ok toposort -> graph_wf g -> increasing g ->
  exists sub reused ids, drop_failures toposort g log = Some (sub, reused) /\ part_of g ids sub /\
    (forall n, In n ids <-> n < length (nodes g) /\
       forall m w k, path g m n k -> nodes g !! m = Some w -> has_failure log (c_key w) = false) /\
    (forall k, k ∈ reused <-> exists n w, nodes g !! n = Some w /\ c_key w = k /\ has_failure log k = true).
Proof.
  intros Ho Hwf Hinc. unfold drop_failures.
  destruct (closure_ok toposort g Ho Hwf (increasing_acyclic g Hinc)) as (tc & -> & Hn & Htc).
  set (failed := fun n => match nodes tc !! n with Some w => has_failure log (c_key w) | None => false end).
  eexists _, _, (kept_ids (fun n _ => negb (failed n || existsb failed (in_neighbors tc n))) g).
  split; [reflexivity|]. split_and!.
  - erewrite filter_map_ext; [apply filter_map_part|]. intros n w. unfold keeps.
    change (match nodes tc !! n with Some w0 => has_failure log (c_key w0) | None => false end) with (failed n).
    destruct (failed n); [done|]. cbn [orb]. by destruct (existsb failed (in_neighbors tc n)).
  - intros n. rewrite elem_kept_ids. split.
    + intros (w & Hw & Hk). apply negb_true_iff, orb_false_iff in Hk as [Hf He].
      split; [by eapply lookup_lt_Some|]. intros m wm k Hp Hm.
      destruct (decide (k = 0)) as [->|Hk].
      * apply path_0_inv in Hp as ->. unfold failed in Hf. rewrite Hn in Hf. by rewrite Hm in Hf.
      * assert (failed m = false) as Hfm.
        { destruct (failed m) eqn:Hfm; [|done]. rewrite <- He. symmetry. apply existsb_exists. exists m.
          split; [|done]. apply elem_of_list_In, elem_in_neighbors, Htc. exists k. split; [lia|done]. }
        unfold failed in Hfm. rewrite Hn, Hm in Hfm. done.
    + intros [Hlt Hall]. apply lookup_lt_is_Some in Hlt as [w Hw]. exists w. split; [done|].
      apply negb_true_iff, orb_false_iff. split.
      * unfold failed. rewrite Hn, Hw. apply (Hall n w 0); [constructor|done].
      * destruct (existsb failed (in_neighbors tc n)) eqn:He; [|done].
        apply existsb_exists in He as (m & Hm & Hf). apply elem_of_list_In, elem_in_neighbors, Htc in Hm as (k & _ & Hp).
        unfold failed in Hf. rewrite Hn in Hf. destruct (nodes g !! m) as [wm|] eqn:Hwm; [|done].
        rewrite (Hall m wm k Hp Hwm) in Hf. done.
  - intros k. rewrite elem_of_list_to_set, elem_of_list_fmap. split.
    + intros (w & -> & Hw). apply elem_of_list_In, filter_In in Hw as [Hw Hb].
      apply elem_of_list_In, elem_of_list_lookup in Hw as [n' Hn']. eauto 10.
    + intros (n & w & Hw & <- & Hf). exists w. split; [done|].
      apply elem_of_list_In, filter_In. split; [by apply elem_of_list_In, elem_of_list_lookup; eauto|done].
Qed.


Lemma get_subgraph_spec toposort e target rerun ro :
  order_ok toposort -> reads_each_once ro ->
  graph_wf (deps e) -> increasing (deps e) -> log_ok (logfile e) ->
  exists e' sub ids bs, get_subgraph toposort e target rerun ro = Some (e', sub) /\
    same_graph (deps e) (deps e') /\
    (forall n c, nodes (deps e') !! n = Some c ->
       exists l, c_priority c = N.of_nat l /\ longest_path_to (deps e) n l) /\
    part_of (deps e') ids sub /\
    (forall n, In n ids <->
       selected (deps e) target (fun k => k ∈ completed e) (lf_entries (logfile e)) rerun n) /\
    NoDup bs /\
    (forall k, In k bs <->
       reused (deps e) target (fun k => k ∈ completed e) (lf_entries (logfile e)) rerun k) /\
    key_to_nodeid e' = key_to_nodeid e /\
    logfile e' = LogFile (lf_state (logfile e)) (lf_entries (logfile e) ++ brefs bs) /\
    completed e' = completed e ∪ list_to_set bs.
Proof.
  intros Ho Hro Hwf Hinc Hlog. unfold get_subgraph.
  assert (exists o, toposort (deps e) = Some o /\ topological (deps e) o) as (o & Hto & Htop).
  { pose proof (Ho (deps e) Hwf) as Hc. destruct (toposort (deps e)) as [o|]; [by exists o|].
    by destruct Hc; apply increasing_acyclic. }
  rewrite Hto. destruct (tlevel_dag_correct (deps e) o Htop) as (lv & -> & Hlen & Hlv).
  destruct (set_priorities_spec (deps e) lv Hlen) as [Hsame Hprio].
  set (g := set_priorities (deps e) lv) in *.
  pose proof (same_graph_wf _ _ Hsame Hwf) as Hwf'.
  pose proof (same_graph_increasing _ _ Hsame Hinc) as Hinc'.
  destruct (select_target_spec toposort g target Ho Hwf' Hinc') as (sub1 & ids1 & -> & Hp1 & Hi1).
  destruct (drop_done sub1 (completed e) (lf_state (logfile e))) as [sub2 reused1] eqn:Hdd.
  destruct (drop_done_spec sub1 (completed e) (lf_state (logfile e))) as (ids2 & Hp2 & Hi2 & Hr2).
  rewrite Hdd in Hp2, Hr2. simpl in Hp2, Hr2.
  pose proof (part_trans _ _ _ _ _ Hp1 Hp2) as Hp12. set (ids12 := omap (fun i => ids1 !! i) ids2) in *.
  set (done := fun k => k ∈ completed e). set (es := lf_entries (logfile e)).
  assert (forall n w, nodes g !! n = Some w -> exists c, nodes (deps e) !! n = Some c /\ c_key c = c_key w) as Hkey.
  { intros n w Hn. destruct (proj1 (same_graph_has_key _ _ n (c_key w) Hsame)) as (c & ? & ?); [|by exists c].
    exists w. done. }
  assert (forall n, In n ids12 <-> candidate (deps e) target done es n) as Hcand.
  { intros n. unfold ids12. rewrite elem_part_trans. split.
    - intros (i & Hi & Hn). assert (In n ids1) as Hin by (by apply elem_of_list_In, elem_of_list_lookup; eauto).
      apply Hi1, (same_graph_considered _ _ _ _ Hsame) in Hin. split; [done|]. intros k Hk.
      apply Hi2 in Hi as (w & Hw & Hnd). apply andb_true_iff in Hnd as [Hd1 Hd2].
      apply negb_true_iff, bool_decide_eq_false in Hd1. apply negb_true_iff in Hd2.
      apply (proj1 (proj2 (proj2 Hp1))) in Hn as [Hn _]. rewrite Hw in Hn. symmetry in Hn.
      apply Hkey in Hn as (c & Hc & Hck). destruct Hk as (c' & Hc' & <-). rewrite Hc in Hc'. simplify_eq.
      rewrite <- Hck in Hd1, Hd2. split; [done|]. intros Hs. apply (has_success_iff _ _ Hlog) in Hs. congruence.
    - intros [Hc Hk]. apply (same_graph_considered _ _ _ _ Hsame), Hi1 in Hc as Hin.
      apply elem_of_list_In, elem_of_list_lookup in Hin as [i Hi]. exists i. split; [|done].
      apply Hi2. pose proof (proj1 (proj2 (proj2 Hp1)) _ _ Hi) as [Hn Hlt].
      apply lookup_lt_is_Some in Hlt as [w Hw]. exists w. split; [congruence|].
      apply Hkey in Hw as (c & Hcc & Hck). destruct (Hk (c_key c)) as [Hd Hs]; [by exists c|].
      unfold not_done. rewrite <- Hck, bool_decide_eq_false_2 by done. simpl. apply negb_true_iff.
      destruct (has_success (lf_state (logfile e)) (c_key c)) eqn:E; [|done].
      by apply (has_success_iff _ _ Hlog) in E. }
  assert (forall k, k ∈ reused1 <-> exists n, considered (deps e) target n /\ task_has_key (deps e) n k /\
            ~ done k /\ log_success es k) as Hreused1.
  { intros k. rewrite Hr2. split.
    - intros (i & w & Hw & Hk & Hd & Hs). pose proof (lookup_lt_Some _ _ _ Hw) as Hlt.
      destruct (part_lookup _ _ _ _ Hp1 Hlt) as [n Hn].
      assert (In n ids1) as Hin by (by apply elem_of_list_In, elem_of_list_lookup; eauto).
      apply Hi1, (same_graph_considered _ _ _ _ Hsame) in Hin. exists n. split; [done|].
      apply (proj1 (proj2 (proj2 Hp1))) in Hn as [Hn _]. rewrite Hw in Hn. symmetry in Hn.
      apply Hkey in Hn as (c & Hc & Hck). split; [exists c; split; congruence|]. split; [done|].
      by apply (has_success_iff _ _ Hlog).
    - intros (n & Hc & Hk & Hd & Hs). apply (same_graph_considered _ _ _ _ Hsame), Hi1 in Hc as Hin.
      apply elem_of_list_In, elem_of_list_lookup in Hin as [i Hi].
      pose proof (proj1 (proj2 (proj2 Hp1)) _ _ Hi) as [Hn Hlt].
      apply (same_graph_has_key _ _ _ _ Hsame) in Hk as (w & Hw & Hkw). exists i, w.
      split; [congruence|]. split; [done|]. split; [done|]. by apply (has_success_iff _ _ Hlog). }
  assert (forall bs filtered ids, part_of g ids filtered ->
    (forall n, In n ids <-> selected (deps e) target done es rerun n) ->
    (forall k, k ∈ bs <-> reused (deps e) target done es rerun k) ->
    exists e' sub ids bs', match log_writes (logfile e) (map (fun k => Backref (BackrefEntry k)) (ro bs)) with
      | None => None
      | Some l => Some (ExecGraph g (key_to_nodeid e) l (completed e ∪ list_to_set (ro bs)), filtered)
      end = Some (e', sub) /\
    same_graph (deps e) (deps e') /\
    (forall n c, nodes (deps e') !! n = Some c ->
       exists l, c_priority c = N.of_nat l /\ longest_path_to (deps e) n l) /\
    part_of (deps e') ids sub /\
    (forall n, In n ids <-> selected (deps e) target done es rerun n) /\
    NoDup bs' /\ (forall k, In k bs' <-> reused (deps e) target done es rerun k) /\
    key_to_nodeid e' = key_to_nodeid e /\
    logfile e' = LogFile (lf_state (logfile e)) (lf_entries (logfile e) ++ brefs bs') /\
    completed e' = completed e ∪ list_to_set bs') as Hfin.
  { intros bs filtered ids Hp Hids Hbs.
    change (map (fun k => Backref (BackrefEntry k)) (ro bs)) with (brefs (ro bs)).
    rewrite log_writes_backrefs. eexists _, _, ids, (ro bs). split; [reflexivity|]. cbn [deps].
    split_and!; try done.
    - intros n c Hc. pose proof (lookup_lt_Some _ _ _ Hc) as Hlt. apply Hprio in Hc as (l & Hl & ->).
      exists l. split; [done|]. destruct (Hlv n) as (l' & Hl' & ?); [|by rewrite Hl in Hl'; simplify_eq].
      by rewrite <- (same_graph_length _ _ Hsame).
    - apply (Hro bs).
    - intros k. rewrite <- elem_of_list_In, (proj2 (Hro bs)). apply Hbs. }
  destruct rerun.
  - apply (Hfin reused1 sub2 ids12 Hp12).
    + intros n. rewrite Hcand. unfold selected. split; [intros ?; split; [done|]; discriminate|by intros []].
    + intros k. rewrite Hreused1. unfold reused.
      split; intros (n & ? & ? & ? & Hs); exists n; (split_and!; try done); [by left|]. destruct Hs as [?|[? _]]; done.
  - pose proof (part_increasing _ _ _ Hp12 Hinc') as Hinc2.
    destruct (drop_failures_spec toposort sub2 (lf_state (logfile e)) Ho (part_wf _ _ _ Hp12) Hinc2)
      as (sub3 & reused2 & ids3 & -> & Hp3 & Hi3 & Hr3).
    apply (Hfin (reused1 ∪ reused2) sub3 (omap (fun i => ids12 !! i) ids3)); [by eapply part_trans| |].
    + intros n. rewrite elem_part_trans. unfold selected. split.
      * intros (i & Hi & Hn). split.
        { apply Hcand. by apply elem_of_list_In, elem_of_list_lookup; eauto. }
        intros _ m k Hv Hk Hf. apply Hi3 in Hi as [_ Hall].
        assert (path_via g (fun n => In n ids12) m n) as Hv'.
        { apply (same_graph_via _ _ _ _ _ Hsame). eapply path_via_iff; [|exact Hv]. intros; apply Hcand. }
        destruct (part_path_via _ _ _ _ _ Hp12 Hv') as (im & in' & kk & Him & Hin & Hpath).
        assert (in' = i) as -> by (eapply sorted_lookup_inj; [apply Hp12|done|done]).
        pose proof (proj1 (proj2 (proj2 Hp12)) _ _ Him) as [Hnm Hlt].
        apply (same_graph_has_key _ _ _ _ Hsame) in Hk as (w & Hw & <-).
        specialize (Hall im w kk Hpath ltac:(congruence)).
        apply (has_failure_iff _ _ Hlog) in Hf. congruence.
      * intros [Hc Hall]. apply Hcand in Hc as Hin.
        apply elem_of_list_In, elem_of_list_lookup in Hin as [i Hi]. exists i. split; [|done].
        apply Hi3. split. { rewrite <- (proj1 (proj2 Hp12)). by eapply lookup_lt_Some. }
        intros im w kk Hpath Hw. pose proof (lookup_lt_Some _ _ _ Hw) as Hlt.
        destruct (part_lookup _ _ _ _ Hp12 Hlt) as [m Hm].
        destruct (part_path _ _ _ _ _ _ Hp12 Hpath m Hm) as (n' & Hn' & _ & Hv).
        assert (n' = n) as -> by congruence.
        destruct (has_failure (lf_state (logfile e)) (c_key w)) eqn:Hf; [|done]. exfalso.
        apply (Hall eq_refl m (c_key w)); [| |by apply (has_failure_iff _ _ Hlog)].
        { apply (same_graph_via _ _ _ _ _ Hsame). eapply path_via_iff; [|exact Hv]. intros; symmetry; apply Hcand. }
        apply (same_graph_has_key _ _ _ _ Hsame). exists w. split; [|done].
        pose proof (proj1 (proj2 (proj2 Hp12)) _ _ Hm) as [? _]. congruence.
    + intros k. rewrite elem_of_union, Hreused1, Hr3. unfold reused. split.
      * intros [(n & ? & ? & ? & ?)|(i & w & Hw & Hk & Hf)]; [exists n; eauto|].
        pose proof (lookup_lt_Some _ _ _ Hw) as Hlt. destruct (part_lookup _ _ _ _ Hp12 Hlt) as [n Hn].
        assert (candidate (deps e) target done es n) as [Hcon Hk'].
        { apply Hcand. by apply elem_of_list_In, elem_of_list_lookup; eauto. }
        pose proof (proj1 (proj2 (proj2 Hp12)) _ _ Hn) as [Hnn _].
        assert (task_has_key (deps e) n k) as Htk.
        { apply (same_graph_has_key _ _ _ _ Hsame). exists w. split; [congruence|done]. }
        destruct (Hk' k Htk). exists n. split_and!; try done. right. split; [done|]. by apply (has_failure_iff _ _ Hlog).
      * intros (n & Hcon & Htk & Hd & [Hs|[_ Hf]]); [left; eauto 10|]. right.
        apply (has_failure_iff _ _ Hlog) in Hf.
        assert (candidate (deps e) target done es n) as Hcd.
        { split; [done|]. intros k' Hk'. assert (k' = k) as ->.
          { destruct Hk' as (? & ? & <-), Htk as (? & ? & <-). congruence. }
          split; [done|]. intros Hs. apply (has_success_iff _ _ Hlog) in Hs.
          apply has_failure_not_success in Hf. congruence. }
        apply Hcand, elem_of_list_In, elem_of_list_lookup in Hcd as [i Hi].
        pose proof (proj1 (proj2 (proj2 Hp12)) _ _ Hi) as [Hnn _].
        apply (same_graph_has_key _ _ _ _ Hsame) in Htk as (w & Hw & Hkw). exists i, w. split; [congruence|done].
Qed.
