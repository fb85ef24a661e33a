(** Proofs about petgraph's topological sort. *)
From Verif Require Import GraphModel GraphSpec GraphProofs TopoSort.
From Verif Require Export DfsModel.
Open Scope list_scope.

Section dfsp.
Context {A : Type}.
Variable g : digraph A.
Hypothesis Hwf : graph_wf g.

(** Bounded work: each undiscovered node counts for itself and its successors. *)
Definition dw (v : nat) : nat := S (length (out_neighbors g v)).
Definition weight (D : gset nat) (l : list nat) : nat := sum_list_with (fun v => if bool_decide (v ∈ D) then 0 else dw v) l.

Lemma weight_le D v l : weight ({[v]} ∪ D) l <= weight D l.
Proof. induction l as [|x l IH]; [done|]. unfold weight in *. cbn [sum_list_with]. repeat case_bool_decide; try lia. set_solver. Qed.
Lemma weight_in D v l : v ∈ l -> v ∉ D -> weight ({[v]} ∪ D) l + dw v <= weight D l.
Proof.
  induction l as [|x l IH]; [by intros ?%elem_of_nil|]. intros Hin Hn. unfold weight in *. cbn [sum_list_with].
  destruct (decide (x = v)) as [->|Hne].
  - rewrite (bool_decide_eq_true_2 (v ∈ {[v]} ∪ D)) by set_solver. rewrite (bool_decide_eq_false_2 (v ∈ D)) by done.
    pose proof (weight_le D v l). unfold weight in *. lia.
  - apply elem_of_cons in Hin as [->|Hin]; [done|]. specialize (IH Hin Hn).
    assert (bool_decide (x ∈ {[v]} ∪ D) = bool_decide (x ∈ D)) as -> by (apply bool_decide_ext; set_solver). lia.
Qed.
Lemma out_length v : length (out_neighbors g v) = length (List.filter (fun e => Nat.eqb (fst e) v) (edges g)).
Proof. unfold out_neighbors. by rewrite rev_length, map_length. Qed.
Lemma degrees (es : list (nat * nat)) l : NoDup l -> sum_list_with (fun v => length (List.filter (fun e => Nat.eqb (fst e) v) es)) l <= length es.
Proof.
  intros Hnd. induction es as [|[a b] es IH]; [clear; induction l; [done|]; cbn [sum_list_with List.filter length] in *; lia|]. cbn [length].
  assert (H : forall l, NoDup l -> sum_list_with (fun v => length (List.filter (fun e => Nat.eqb (fst e) v) ((a, b) :: es))) l <=
    sum_list_with (fun v => length (List.filter (fun e => Nat.eqb (fst e) v) es)) l + (if bool_decide (a ∈ l) then 1 else 0)).
  { clear. induction l as [|x l IH]; intros Hnd; [done|]. apply NoDup_cons in Hnd as [Hx Hnd]. specialize (IH Hnd). cbn [sum_list_with List.filter fst] in *.
    destruct (Nat.eqb_spec a x) as [->|Hne]; cbn [length].
    - rewrite (bool_decide_eq_false_2 (x ∈ l)) in IH by done. rewrite bool_decide_eq_true_2 by left. lia.
    - assert (bool_decide (a ∈ x :: l) = bool_decide (a ∈ l)) as ->; [|lia]. apply bool_decide_ext. rewrite elem_of_cons. naive_solver. }
  specialize (H l Hnd). case_bool_decide; lia.
Qed.
Lemma weight_start : weight ∅ (seq 0 (node_count g)) <= node_count g + length (edges g).
Proof.
  pose proof (degrees (edges g) (seq 0 (node_count g)) (NoDup_seq _ _)) as H. unfold weight.
  assert (E : forall l, sum_list_with (fun v => if bool_decide (v ∈ (∅ : gset nat)) then 0 else dw v) l = length l + sum_list_with (fun v => length (List.filter (fun e => Nat.eqb (fst e) v) (edges g))) l).
  { induction l as [|x l IH]; [done|]. cbn [sum_list_with length]. rewrite IH, bool_decide_eq_false_2 by set_solver. unfold dw. rewrite out_length. lia. }
  rewrite E, seq_length. lia.
Qed.

(** What holds throughout. *)
Record dinv (d : dfs) : Prop := DInv {
  di_nodes : forall v, v ∈ fs_discovered d \/ v ∈ fs_stack d -> v < node_count g;
  di_fin : forall v, v ∈ fs_finished d -> v ∈ fs_discovered d;
  di_gray : forall v, v ∈ fs_discovered d -> v ∉ fs_finished d -> v ∈ fs_stack d;
  di_nodup : NoDup (fs_order d);
  di_order : forall v, v ∈ fs_order d <-> v ∈ fs_finished d;
  di_self : forall v, v ∈ fs_discovered d -> ~ edge g v v
}.
(** What holds if there is no cycle: above a node that is not finished lie nodes that it reaches, among them those of its successors
    that are not finished. *)
Record ainv (d : dfs) : Prop := AInv {
  ai_gray : forall v, v ∈ fs_discovered d -> v ∉ fs_finished d -> exists st1 st2, fs_stack d = st1 ++ v :: st2 /\
    (forall x, x ∈ st1 -> reaches g v x) /\ (forall w, edge g v w -> w ∈ fs_finished d \/ w ∈ st1);
  ai_order : forall v w, edge g v w -> v ∈ fs_order d -> before (fs_order d) v w
}.

Lemma loop_ok fuel : forall d, dinv d -> weight (fs_discovered d) (seq 0 (node_count g)) + length (fs_stack d) <= fuel ->
  match dfs_loop g fuel d with
  | DOk d' => dinv d' /\ fs_stack d' = [] /\ fs_discovered d ⊆ fs_discovered d' /\ (forall v, v ∈ fs_stack d -> v ∈ fs_discovered d') /\ (acyclic g -> ainv d -> ainv d')
  | DCycle n => edge g n n
  | DFuel => False
  end.
Proof.
  induction fuel as [|fuel IH]; intros d HI Hf; cbn [dfs_loop]; destruct (fs_stack d) as [|nx rest] eqn:Est.
  - split; [done|]. split; [done|]. split; [done|]. split; [by intros v ?%elem_of_nil|done].
  - cbn [length] in Hf. lia.
  - split; [done|]. split; [done|]. split; [done|]. split; [by intros v ?%elem_of_nil|done].
  - cbn [length] in Hf. destruct (bool_decide_reflect (nx ∈ fs_discovered d)) as [Hd|Hd]; [destruct (bool_decide_reflect (nx ∈ fs_finished d)) as [Hfin|Hfin]|].
    + (* popped again *)
      set (d1 := Dfs (fs_discovered d) (fs_finished d) rest (fs_order d)).
      assert (HI1 : dinv d1).
      { destruct HI as [I1 I2 I3 I4 I5 I6]. split; cbn [d1 fs_discovered fs_finished fs_stack fs_order]; try done.
        - intros v [Hv|Hv]; apply I1; [by left|right]. rewrite Est. by right.
        - intros v Hv Hv'. specialize (I3 v Hv Hv'). rewrite Est in I3. apply elem_of_cons in I3 as [->|]; done. }
      specialize (IH d1 HI1). cbn [d1 fs_discovered fs_finished fs_stack fs_order] in IH. specialize (IH ltac:(lia)).
      destruct (dfs_loop g fuel _) as [d'| |]; [|done..]. destruct IH as (H1 & H2 & H3 & H4 & H5).
      split; [done|]. split; [done|]. split; [done|]. split.
      * intros v [->|Hv]%elem_of_cons; [by apply H3|by apply H4].
      * intros Hac [Ha Ho]. apply H5; [done|]. split; cbn [d1 fs_discovered fs_finished fs_stack fs_order]; [|done].
        intros v Hv Hv'. destruct (Ha v Hv Hv') as (st1 & st2 & E & Hr & Hs). rewrite Est in E. destruct st1 as [|y st1]; [by injection E as -> ->|].
        injection E as <- ->. exists st1, st2. split; [done|]. split; [intros x Hx; apply Hr; by right|].
        intros w Hw. destruct (Hs w Hw) as [|[->|]%elem_of_cons]; [by left|by left|by right].
    + (* finished *)
      set (d1 := Dfs (fs_discovered d) ({[nx]} ∪ fs_finished d) rest (nx :: fs_order d)).
      assert (HI1 : dinv d1).
      { destruct HI as [I1 I2 I3 I4 I5 I6]. split; cbn [d1 fs_discovered fs_finished fs_stack fs_order]; try done.
        - intros v [Hv|Hv]; apply I1; [by left|right]. rewrite Est. by right.
        - intros v Hv. apply elem_of_union in Hv as [->%elem_of_singleton|Hv]; [done|by apply I2].
        - intros v Hv Hv'. assert (v <> nx /\ v ∉ fs_finished d) as [Hne Hv''] by set_solver. specialize (I3 v Hv Hv''). rewrite Est in I3. apply elem_of_cons in I3 as [->|]; done.
        - constructor; [|done]. by rewrite I5.
        - intros v. rewrite elem_of_cons, I5. set_solver. }
      specialize (IH d1 HI1). cbn [d1 fs_discovered fs_finished fs_stack fs_order] in IH. specialize (IH ltac:(lia)).
      destruct (dfs_loop g fuel _) as [d'| |]; [|done..]. destruct IH as (H1 & H2 & H3 & H4 & H5).
      split; [done|]. split; [done|]. split; [done|]. split.
      * intros v [->|Hv]%elem_of_cons; [by apply H3|by apply H4].
      * intros Hac [Ha Ho]. apply H5; [done|]. split; cbn [d1 fs_discovered fs_finished fs_stack fs_order].
        -- intros v Hv Hv'. assert (v <> nx /\ v ∉ fs_finished d) as [Hne Hv''] by set_solver.
           destruct (Ha v Hv Hv'') as (st1 & st2 & E & Hr & Hs). rewrite Est in E. destruct st1 as [|y st1]; [by injection E as -> ->|].
           injection E as <- ->. exists st1, st2. split; [done|]. split; [intros x Hx; apply Hr; by right|].
           intros w Hw. destruct (Hs w Hw) as [|[->|]%elem_of_cons]; [left; set_solver|left; set_solver|by right].
        -- intros v w Hvw Hv. destruct (decide (v = nx)) as [->|Hne].
           ++ destruct (Ha nx Hd Hfin) as (st1 & st2 & E & Hr & Hs). rewrite Est in E. destruct st1 as [|y st1].
              ** destruct (Hs w Hvw) as [Hw|Hw%elem_of_nil]; [|done]. apply (di_order _ HI) in Hw. apply elem_of_list_split in Hw as (l1 & l2 & ->).
                 by exists [], l1, l2.
              ** injection E as <- ->. exfalso. apply (Hac nx), Hr. by left.
           ++ apply elem_of_cons in Hv as [->|Hv]; [done|]. destruct (Ho v w Hvw Hv) as (l1 & l2 & l3 & ->). by exists (nx :: l1), l2, l3.
    + (* discovered *)
      destruct (bool_decide_reflect (nx ∈ out_neighbors g nx)) as [Hs|Hs]; [by apply elem_out_neighbors|].
      set (seen := {[nx]} ∪ fs_discovered d). set (new := rev (List.filter (fun w => negb (bool_decide (w ∈ seen))) (out_neighbors g nx))).
      assert (Hnew : forall w, w ∈ new <-> edge g nx w /\ w ∉ seen).
      { intros w. unfold new. rewrite <- elem_out_neighbors, !elem_of_list_In, <- in_rev, filter_In. case_bool_decide; naive_solver. }
      set (d1 := Dfs seen (fs_finished d) (new ++ nx :: rest) (fs_order d)).
      assert (Hnx : nx < node_count g). { apply (di_nodes _ HI). right. rewrite Est. by left. }
      assert (HI1 : dinv d1).
      { destruct HI as [I1 I2 I3 I4 I5 I6]. split; cbn [d1 fs_discovered fs_finished fs_stack fs_order]; try done.
        - intros v [Hv|Hv].
          + apply elem_of_union in Hv as [->%elem_of_singleton|Hv]; [done|]. apply I1. by left.
          + apply elem_of_app in Hv as [Hv|Hv]; [|apply I1; right; by rewrite Est]. apply Hnew in Hv as [Hv _]. by apply Hwf in Hv as [_ ?].
        - intros v Hv. apply I2 in Hv. set_solver.
        - intros v Hv Hv'. apply elem_of_app. right. apply elem_of_union in Hv as [->%elem_of_singleton|Hv]; [by left|]. rewrite <- Est. by apply I3.
        - intros v Hv. apply elem_of_union in Hv as [->%elem_of_singleton|Hv]; [by rewrite <- elem_out_neighbors|by apply I6]. }
      assert (Hw : weight seen (seq 0 (node_count g)) + length (new ++ nx :: rest) <= fuel).
      { pose proof (weight_in (fs_discovered d) nx (seq 0 (node_count g)) ltac:(apply elem_of_seq; lia) Hd) as H. fold seen in H. unfold dw in H.
        assert (length new <= length (out_neighbors g nx)) by (unfold new; rewrite rev_length; clear; induction (out_neighbors g nx) as [|y l IHl]; [done|]; cbn [List.filter length]; case_match; cbn [length]; lia).
        rewrite app_length. cbn [length]. lia. }
      specialize (IH d1 HI1 Hw). subst d1. cbn [fs_discovered fs_finished fs_stack fs_order] in IH.
      destruct (dfs_loop g fuel _) as [d'| |]; [|done..]. destruct IH as (H1 & H2 & H3 & H4 & H5).
      split; [done|]. split; [done|]. split; [set_solver|]. split.
      * intros v Hv. apply H4, elem_of_app. by right.
      * intros Hac [Ha Ho]. apply H5; [done|]. split; cbn [fs_discovered fs_finished fs_stack fs_order]; [|done].
        assert (Hgray : forall v, v ∈ fs_discovered d -> v ∉ fs_finished d -> exists st1 st2, rest = st1 ++ v :: st2 /\ reaches g v nx /\
          (forall x, x ∈ st1 -> reaches g v x) /\ (forall w, edge g v w -> w ∈ fs_finished d \/ w = nx \/ w ∈ st1)).
        { intros v Hv Hv'. destruct (Ha v Hv Hv') as (st1 & st2 & E & Hr & Hss). rewrite Est in E. destruct st1 as [|y st1]; [injection E as -> ->; done|].
          injection E as <- ->. exists st1, st2. split; [done|]. split; [apply Hr; by left|]. split; [intros x Hx; apply Hr; by right|].
          intros w Hvw. destruct (Hss w Hvw) as [|[->|]%elem_of_cons]; naive_solver. }
        intros v Hv Hv'. destruct (decide (v = nx)) as [->|Hne].
        -- exists new, rest. split; [done|]. split; [intros x [Hx _]%Hnew; by apply reaches_edge|].
           intros w Hw'. destruct (decide (w ∈ fs_finished d)) as [|Hwf']; [by left|]. right. apply Hnew. split; [done|]. intros Hws.
           apply elem_of_union in Hws as [->%elem_of_singleton|Hws]; [by apply Hs, elem_out_neighbors|].
           destruct (Hgray w Hws Hwf') as (_ & _ & _ & Hr & _). apply (Hac nx). eapply reaches_trans; [by apply reaches_edge|done].
        -- assert (Hvd : v ∈ fs_discovered d) by set_solver. destruct (Hgray v Hvd Hv') as (st1 & st2 & -> & Hrn & Hr & Hss).
           exists (new ++ nx :: st1), st2. split; [by rewrite <- app_assoc|]. split.
           ++ intros x [Hx|[->|Hx]%elem_of_cons]%elem_of_app; [|done|by apply Hr]. apply Hnew in Hx as [Hx _]. eapply reaches_trans; [done|by apply reaches_edge].
           ++ intros w Hvw. destruct (Hss w Hvw) as [|[->|]]; [by left|right..]; apply elem_of_app; right; [by left|by right].
Qed.

Lemma from_ok fuel starts : forall d, dinv d -> fs_stack d = [] -> S (weight (fs_discovered d) (seq 0 (node_count g))) <= fuel -> (forall v, v ∈ starts -> v < node_count g) ->
  match dfs_from g fuel starts d with
  | DOk d' => dinv d' /\ fs_stack d' = [] /\ fs_discovered d ⊆ fs_discovered d' /\ (forall v, v ∈ starts -> v ∈ fs_discovered d') /\ (acyclic g -> ainv d -> ainv d')
  | DCycle n => edge g n n
  | DFuel => False
  end.
Proof.
  induction starts as [|i starts IH]; intros d HI Hst Hf Hlt; cbn [dfs_from].
  - split; [done|]. split; [done|]. split; [done|]. split; [by intros v ?%elem_of_nil|done].
  - case_bool_decide as Hi.
    + specialize (IH d HI Hst Hf ltac:(intros v Hv; apply Hlt; by right)). destruct (dfs_from g fuel starts d) as [d'| |]; [|done..].
      destruct IH as (H1 & H2 & H3 & H4 & H5). split; [done|]. split; [done|]. split; [done|]. split; [|done].
      intros v [->|Hv]%elem_of_cons; [by apply H3|by apply H4].
    + set (d0 := Dfs (fs_discovered d) (fs_finished d) [i] (fs_order d)).
      assert (HI0 : dinv d0).
      { destruct HI as [I1 I2 I3 I4 I5 I6]. split; cbn [d0 fs_discovered fs_finished fs_stack fs_order]; try done.
        - intros v [Hv|Hv]; [apply I1; by left|]. apply elem_of_list_singleton in Hv as ->. apply Hlt. by left.
        - intros v Hv Hv'. specialize (I3 v Hv Hv'). rewrite Hst in I3. by apply elem_of_nil in I3. }
      pose proof (loop_ok fuel d0 HI0) as Hl. cbn [d0 fs_discovered fs_finished fs_stack fs_order length] in Hl. specialize (Hl ltac:(lia)). fold d0 in Hl.
      destruct (dfs_loop g fuel d0) as [d1| |]; [|done..]. destruct Hl as (H1 & H2 & H3 & H4 & H5).
      assert (Hw1 : weight (fs_discovered d1) (seq 0 (node_count g)) <= weight (fs_discovered d) (seq 0 (node_count g))).
      { clear -H3. unfold weight. induction (seq 0 (node_count g)) as [|x l IH]; [done|]. cbn [sum_list_with]. repeat case_bool_decide; try lia. set_solver. }
      specialize (IH d1 H1 H2 ltac:(lia) ltac:(intros v Hv; apply Hlt; by right)). destruct (dfs_from g fuel starts d1) as [d2| |]; [|done..].
      destruct IH as (G1 & G2 & G3 & G4 & G5). split; [done|]. split; [done|]. split; [set_solver|]. split.
      * intros v [->|Hv]%elem_of_cons; [|by apply G4]. apply G3, H4. by left.
      * intros Hac [Ha Ho]. apply G5, H5; try done. split; [|done]. cbn [d0 fs_discovered fs_finished fs_stack fs_order].
        intros v Hv Hv'. destruct (Ha v Hv Hv') as (st1 & st2 & E & _). rewrite Hst in E. by destruct st1.
Qed.

(** The second loop accepts an order exactly if every predecessor of a node comes earlier. *)
Lemma next_none stack seen st' seen' : dfs_next g stack seen = (None, st', seen') -> seen' = seen /\ forall v, v ∈ stack -> v ∈ seen.
Proof.
  induction stack as [|n rest IH]; cbn [dfs_next]; [intros [= <- <-]; split; [done|by intros v ?%elem_of_nil]|].
  case_bool_decide as Hn; [|done]. intros H. destruct (IH H) as [-> Hr]. split; [done|]. intros v [->|Hv]%elem_of_cons; [done|by apply Hr].
Qed.
Lemma next_all stack seen : (forall v, v ∈ stack -> v ∈ seen) -> dfs_next g stack seen = (None, [], seen).
Proof.
  induction stack as [|n rest IH]; intros H; cbn [dfs_next]; [done|]. rewrite bool_decide_eq_true_2 by (apply H; by left). apply IH. intros v Hv. apply H. by right.
Qed.
Lemma preds_new (seen : gset nat) n w : w ∈ rev (List.filter (fun w => negb (bool_decide (w ∈ seen))) (in_neighbors g n)) <-> edge g w n /\ w ∉ seen.
Proof. rewrite <- elem_in_neighbors, !elem_of_list_In, <- in_rev, filter_In. case_bool_decide; naive_solver. Qed.

Lemma check_spec i (seen : gset nat) : i ∉ seen -> match check_node g i seen with
  | inl seen' => seen' = {[i]} ∪ seen /\ forall w, edge g w i -> w = i \/ w ∈ seen
  | inr j => exists w, edge g w i /\ w <> i /\ w ∉ seen
  end.
Proof.
  intros Hi. unfold check_node. cbn [dfs_next]. rewrite bool_decide_eq_false_2 by done. rewrite app_nil_r.
  destruct (dfs_next g (rev _) _) as [[[j|] st] seen'] eqn:E.
  - destruct (List.filter (fun w => negb (bool_decide (w ∈ {[i]} ∪ seen))) (in_neighbors g i)) as [|w l] eqn:Ef; [done|].
    exists w. assert (w ∈ rev (List.filter (fun w => negb (bool_decide (w ∈ {[i]} ∪ seen))) (in_neighbors g i))) as Hw.
    { rewrite Ef, elem_of_list_In, <- in_rev. by left. }
    apply preds_new in Hw as [H1 H2]. split; [done|]. set_solver.
  - apply next_none in E as [-> Hall]. split; [done|]. intros w Hw. destruct (decide (w ∈ {[i]} ∪ seen)) as [Hin|Hn]; [set_solver|].
    exfalso. apply Hn, Hall, preds_new. done.
Qed.

Lemma check_sound l : forall pre, NoDup (pre ++ l) -> check_order g l (list_to_set pre) = None -> forall u v, v ∈ l -> edge g u v -> u <> v -> before (pre ++ l) u v.
Proof.
  induction l as [|i l IH]; intros pre Hnd Hc u v Hv He Hne; [by apply elem_of_nil in Hv|]. cbn [check_order] in Hc.
  assert (Hi : i ∉ (list_to_set pre : gset nat)). { rewrite elem_of_list_to_set. apply NoDup_app in Hnd as (_ & Hd & _). intros H. apply (Hd i H). by left. }
  pose proof (check_spec i _ Hi) as Hs. destruct (check_node g i _) as [seen'|j]; [|done]. destruct Hs as [-> Hs].
  assert (E : pre ++ i :: l = (pre ++ [i]) ++ l) by (by rewrite <- app_assoc).
  apply elem_of_cons in Hv as [->|Hv].
  - destruct (Hs u He) as [->|Hu]; [done|]. rewrite elem_of_list_to_set in Hu. apply elem_of_list_split in Hu as (a & b & ->). exists a, b, l. by rewrite <- app_assoc.
  - rewrite E. apply IH; [by rewrite <- E| |done..]. replace (list_to_set (pre ++ [i]) : gset nat) with ({[i]} ∪ list_to_set pre : gset nat) by set_solver. done.
Qed.
Lemma check_complete l : forall pre, NoDup (pre ++ l) -> (forall u v, v ∈ l -> edge g u v -> before (pre ++ l) u v) -> check_order g l (list_to_set pre) = None.
Proof.
  induction l as [|i l IH]; intros pre Hnd Hb; [done|]. cbn [check_order].
  assert (Hi : i ∉ (list_to_set pre : gset nat)). { rewrite elem_of_list_to_set. apply NoDup_app in Hnd as (_ & Hd & _). intros H. apply (Hd i H). by left. }
  assert (E : pre ++ i :: l = (pre ++ [i]) ++ l) by (by rewrite <- app_assoc).
  pose proof (check_spec i _ Hi) as Hs. destruct (check_node g i _) as [seen'|j].
  - destruct Hs as [-> Hs]. replace ({[i]} ∪ list_to_set pre : gset nat) with (list_to_set (pre ++ [i]) : gset nat) by set_solver.
    apply IH; [by rewrite <- E|]. rewrite <- E. intros u v Hv. apply Hb. by right.
  - destruct Hs as (w & Hw & Hne & Hn). exfalso. specialize (Hb w i ltac:(by left) Hw). apply Hn, elem_of_list_to_set.
    apply before_app_inv in Hb; [|done]. by apply elem_of_list_In.
Qed.
End dfsp.
