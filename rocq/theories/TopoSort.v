(** A topological sort that keeps the documented contract of petgraph's toposort on every
    graph. It shows that the assumption made about the library can be met, and is used by the
    examples; no theorem is about this particular function. *)
From Verif Require Import GraphModel GraphSpec GraphProofs.

Section topo.
  Context {A : Type}.
  Implicit Types g : digraph A.

  Definition free_node g (o : list nat) (n : nat) : bool :=
    negb (bool_decide (n ∈ o)) &&
    forallb (fun e => negb (Nat.eqb (snd e) n) || bool_decide (fst e ∈ o)) (edges g).

  Fixpoint kahn g (fuel : nat) (o : list nat) : option (list nat) :=
    match fuel with
    | 0 => Some o
    | S fuel =>
        match List.find (free_node g o) (seq 0 (node_count g)) with
        | Some n => kahn g fuel (o ++ [n])
        | None => None
        end
    end.

  Definition topo_sort g : option (list nat) := kahn g (node_count g) [].

  Lemma stuck_cyclic g (R : list nat) :
    R <> [] -> (forall n, n ∈ R -> exists m, m ∈ R /\ edge g m n) -> ~ acyclic g.
  Proof.
    intros Hne Hpred Hac.
    assert (forall k h L, k + length L = length R -> NoDup (h :: L) -> (forall x, x ∈ h :: L -> x ∈ R) ->
      (forall x, x ∈ L -> reaches g h x) -> False) as Hwalk.
    { induction k as [|k IH]; intros h L Hk Hnd Hin Hr.
      - assert (length (h :: L) <= length R); [|simpl in *; lia].
        apply submseteq_length, NoDup_submseteq; done.
      - destruct (Hpred h) as (m & Hm & He); [apply Hin; left|].
        apply (IH m (h :: L)).
        + simpl. lia.
        + constructor; [|done]. intros Hml. apply elem_of_cons in Hml as [->|Hml].
          * apply (Hac h). by apply reaches_edge.
          * apply (Hac h). eapply reaches_trans; [by apply Hr|by apply reaches_edge].
        + intros x Hx. apply elem_of_cons in Hx as [->|Hx]; [done|by apply Hin].
        + intros x Hx. apply elem_of_cons in Hx as [->|Hx]; [by apply reaches_edge|].
          eapply reaches_trans; [by apply reaches_edge|by apply Hr]. }
    destruct R as [|h R]; [done|]. apply (Hwalk (length (h :: R)) h []); try done.
    - apply NoDup_singleton.
    - intros x Hx. apply elem_of_list_singleton in Hx as ->. left.
    - by intros x Hx%elem_of_nil.
  Qed.

  Definition partial_order g (o : list nat) : Prop :=
    NoDup o /\ (forall v, v ∈ o -> v < node_count g) /\
    (forall u v, edge g u v -> v ∈ o -> before o u v).

  Lemma before_snoc l u v x : before l u v -> before (l ++ [x]) u v.
  Proof. intros (l1 & l2 & l3 & ->). exists l1, l2, (l3 ++ [x]). by rewrite <- !app_assoc, <- !app_comm_cons, <- app_assoc. Qed.

  Lemma kahn_correct g fuel o : graph_wf g -> partial_order g o -> length o + fuel = node_count g ->
    toposort_contract g (kahn g fuel o).
  Proof.
    intros Hwf. revert o. induction fuel as [|fuel IH]; intros o (Hnd & Hlt & Hb) Hlen; simpl.
    - assert (forall v, v ∈ o <-> v < node_count g) as Hall.
      { intros v. split; [apply Hlt|]. intros Hv.
        assert (seq 0 (node_count g) ⊆+ o) as Hsub.
        { assert (o ⊆+ seq 0 (node_count g)) as Hs.
          { apply NoDup_submseteq; [done|]. intros x Hx. apply Hlt in Hx. apply elem_of_seq. lia. }
          apply Permutation_submseteq. symmetry. apply submseteq_Permutation_length_le; [rewrite seq_length; lia|done]. }
        eapply elem_of_submseteq; [|exact Hsub]. apply elem_of_seq. lia. }
      split; [done|]. split; [intros v; rewrite <- elem_of_list_In; apply Hall|].
      intros u v He. apply Hb; [done|]. apply Hall. by apply Hwf in He as [_ ?].
    - destruct (List.find (free_node g o) (seq 0 (node_count g))) as [n|] eqn:Hf.
      + apply find_some in Hf as [Hn Hfree]. apply in_seq in Hn. unfold free_node in Hfree.
        apply andb_true_iff in Hfree as [Hno Hpre]. apply negb_true_iff, bool_decide_eq_false in Hno.
        rewrite forallb_forall in Hpre. apply IH; [|rewrite app_length; simpl; lia]. split_and!.
        * apply NoDup_app. split_and!; [done| |apply NoDup_singleton]. intros x Hx Hx'. apply elem_of_list_singleton in Hx' as ->. done.
        * intros v Hv. apply elem_of_app in Hv as [Hv|Hv]; [by apply Hlt|]. apply elem_of_list_singleton in Hv as ->. lia.
        * intros u v He Hv. apply elem_of_app in Hv as [Hv|Hv]; [by apply before_snoc, Hb|].
          apply elem_of_list_singleton in Hv as ->. apply Hpre in He. simpl in He. rewrite Nat.eqb_refl in He. simpl in He.
          apply bool_decide_eq_true in He. apply elem_of_list_split in He as (l1 & l2 & ->). exists l1, l2, []. by rewrite <- app_assoc.
      + set (R := List.filter (fun n => negb (bool_decide (n ∈ o))) (seq 0 (node_count g))).
        assert (forall n, n ∈ R <-> n < node_count g /\ n ∉ o) as HR.
        { intros n. unfold R. rewrite elem_of_list_In, filter_In, in_seq, negb_true_iff, bool_decide_eq_false. split; intros [? ?]; split; try done; lia. }
        apply (stuck_cyclic g R).
        * intros HR0. assert (node_count g <= length o) as Hle; [|lia].
          rewrite <- (seq_length (node_count g) 0). apply submseteq_length, NoDup_submseteq; [apply NoDup_ListNoDup, seq_NoDup|].
          intros x Hx. destruct (decide (x ∈ o)) as [|Hxo]; [done|]. assert (x ∈ R) as HxR; [|rewrite HR0 in HxR; by apply elem_of_nil in HxR].
          apply HR. split; [|done]. apply elem_of_seq in Hx. lia.
        * intros n Hn. apply HR in Hn as [Hn Hno].
          pose proof (find_none _ _ Hf n) as Hx. rewrite in_seq in Hx. specialize (Hx ltac:(lia)).
          unfold free_node in Hx. rewrite bool_decide_eq_false_2 in Hx by done. simpl in Hx.
          apply not_true_iff_false in Hx.
          destruct (decide (Exists (fun e => snd e = n /\ fst e ∉ o) (edges g))) as [He|He].
          -- apply Exists_exists in He as ([m n'] & Hin & Hs & Hm). simpl in *. subst n'. exists m.
             apply elem_of_list_In in Hin. split; [|done]. apply HR. split; [|done]. by apply Hwf in Hin as [? _].
          -- exfalso. apply Hx, forallb_forall. intros [m n'] Hin. simpl. destruct (Nat.eqb_spec n' n) as [->|]; [|done]. simpl.
             apply bool_decide_eq_true. destruct (decide (m ∈ o)) as [|Hm]; [done|]. exfalso. apply He, Exists_exists.
             exists (m, n). split; [by apply elem_of_list_In|done].
  Qed.

  Lemma topo_sort_contract g : graph_wf g -> toposort_contract g (topo_sort g).
  Proof.
    intros Hwf. apply kahn_correct; [done| |done]. split_and!; [constructor|by intros v Hv%elem_of_nil|by intros u v _ Hv%elem_of_nil].
  Qed.
End topo.
