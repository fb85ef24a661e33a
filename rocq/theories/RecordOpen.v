(** C72: tasks that were reported begun by a runner that then went away. *)
From Verif Require Import RecordProofs RecordProps SchedProofs SchedProps SchedDrain SchedClient PoolProofs.
From Coq Require Import Lia.
From stdpp Require Import prelude gmap.
Local Open Scope nat_scope.

Section opened.
Variable cfg : config.
Hypothesis Hok : config_ok cfg.

Lemma occ_at {A} (f : A -> option nat) l c x n : l !! c = Some x -> f x = Some n -> 1 <= occ n (omap f l).
Proof.
  revert c. induction l as [|y l IH]; intros [|c] H E; try done; rewrite occ_omap_cons.
  - injection H as ->. rewrite E. unfold SchedBase.one. rewrite Nat.eqb_refl. lia.
  - specialize (IH c H E). lia.
Qed.
Lemma occ_two {A} (f : A -> option nat) l c d x y n : c <> d -> l !! c = Some x -> l !! d = Some y -> f x = Some n -> f y = Some n -> 2 <= occ n (omap f l).
Proof.
  revert c d. induction l as [|z l IH]; intros [|c] [|d] Hne Hc Hd Ex Ey; try done; rewrite occ_omap_cons.
  - injection Hc as ->. rewrite Ex. unfold SchedBase.one. rewrite Nat.eqb_refl. pose proof (occ_at f l d y n Hd Ey). lia.
  - injection Hd as ->. rewrite Ey. unfold SchedBase.one. rewrite Nat.eqb_refl. pose proof (occ_at f l c x n Hc Ex). lia.
  - specialize (IH c d ltac:(lia) Hc Hd Ex Ey). lia.
Qed.
(** Two clients do not have the same task. *)
Lemma one_owner s t c d x y n : reachable cfg s t -> st_clients s !! c = Some x -> st_clients s !! d = Some y -> run_of x = Some n ->
  y = CHolding n \/ y = CRunning n -> c = d.
Proof.
  intros Hr Hc Hd Ex Hy. destruct (decide (c = d)) as [|Hne]; [done|]. exfalso. destruct (full_or_done cfg Hok _ _ Hr) as [HF|HD].
  - pose proof (inv_a _ _ _ (f_inv _ _ _ HF)) as HA. pose proof (a_own _ _ _ HA n) as Ho. unfold tk, nhold, nrun in Ho.
    pose proof (tkb_occ (st_taken s) (readied t) n). pose proof (a_nodup _ _ _ HA n). pose proof (occ_at run_of _ _ _ _ Hc Ex).
    destruct Hy as [-> | ->]; [pose proof (occ_at hold_of _ _ _ n Hd eq_refl)|pose proof (occ_two run_of _ _ _ _ _ n Hne Hc Hd Ex eq_refl)]; lia.
  - destruct HD as (s0 & t0 & os0 & now0 & order0 & HI & Hp0 & Ht0 & He & Hxx & Hdr & Hz & Hpp & Hcc & Hu). rewrite Hcc in Hd.
    assert (ended y = true) as E by (by eapply ended_no_client). by destruct Hy as [-> | ->].
Qed.

Definition Open (s : st) (rs : list told) : Prop := forall c x n, st_clients s !! c = Some x -> run_of x = Some n -> n ∈ open_after ∅ rs.
Lemma open_snoc rs r : open_after ∅ (rs ++ [r]) = open_step (open_after ∅ rs) r.
Proof. unfold open_after. by rewrite fold_left_app. Qed.
Lemma open_step_ok s t a s' os rs : reachable cfg s t -> step cfg s a = Some (s', os) -> Open s rs -> Open s' (rs ++ map snd (tells s a)).
Proof.
  intros Hr Hs HO c x n Hc Hx.
  assert (client_of a <> Some c -> n ∈ open_after ∅ rs) as Hold. { intros Hne. rewrite (client_frame cfg _ _ _ _ c Hs Hne) in Hc. by eapply HO. }
  destruct a as [order| |now0| | | |order now0|c0|c0 j|c0|c0|c0|c0 h q j|c0 st vs fl|c0| |]; cbn [tells map]; rewrite ?app_nil_r;
    try (apply Hold; discriminate); cbn [client_of] in Hold; (destruct (decide (c0 = c)) as [->|Hne]; [clear Hold|]).
  all: try (apply Hold; congruence).
  all: try (assert (n ∈ open_after ∅ rs) as Hold' by (apply Hold; congruence); clear Hold).
  all: cbn [step] in Hs; destruct (st_clients s !! _) as [y|] eqn:Ey; try done; destruct y as [| |it|it|m|m| |m b]; try done.
  all: repeat match type of Hs with context [match ?e with _ => _ end] => destruct e eqn:?; try discriminate Hs end.
  all: injection Hs as <- <-; cbn [st_clients set_client set_events set_queues set_taken set_qstate panic fst set_phase] in Hc.
  all: try (rewrite list_lookup_insert in Hc by (by eapply lookup_lt_Some); injection Hc as <-; try discriminate Hx).
  all: try (rewrite Ey in Hc; injection Hc as <-; discriminate Hx).
  all: cbn [map snd]; rewrite ?open_snoc; cbn [open_step run_of] in *.
  all: try (injection Hx as ->).
  all: try (by apply elem_of_union; left; apply elem_of_singleton).
  all: try (by apply elem_of_union; right).
  all: try (by eapply HO).
  all: try (rewrite list_lookup_insert_ne in Hc by done; apply elem_of_difference; split; [done|]; intros ->%elem_of_singleton; apply Hne;
            symmetry; eapply (one_owner s t); [done|exact Hc|exact Ey|exact Hx|auto]).
Qed.
Lemma open_run acts : forall s t, run cfg (initial cfg) acts = Some (s, t) -> Open s (map snd (reports cfg (initial cfg) acts)).
Proof.
  assert (forall acts s t s0 t0 rs, reachable cfg s0 t0 -> Open s0 rs -> run cfg s0 acts = Some (s, t) -> Open s (rs ++ map snd (reports cfg s0 acts))) as H.
  { clear acts. induction acts as [|a acts IH]; intros s t s0 t0 rs Hr HO H; cbn [run reports] in *; [injection H as <- <-; by rewrite app_nil_r|].
    destruct (step cfg s0 a) as [[s1 os]|] eqn:E; [|done]. destruct (run cfg s1 acts) as [[s2 t2]|] eqn:E2; [|done]. injection H as <- <-.
    rewrite map_app, List.app_assoc. apply (IH _ t2 _ (t0 ++ os)); [|by eapply open_step_ok|done]. destruct Hr as [acts0 Hr]. exists (acts0 ++ [a]).
    apply run_app. exists s0, t0, os. split; [done|]. split; [|done]. cbn [run]. rewrite E. by rewrite app_nil_r. }
  intros s t Hr. apply (H acts s t (initial cfg) [] []); [by exists []| |done]. intros c x n Hc Hx. cbn in Hc. apply list_lookup_fmap_inv in Hc as (? & -> & _). done.
Qed.
End opened.

(** Once the call is over there is a line with status -1 and no values for each task that was reported begun by a client that then went away without reporting
    its end. *)
Theorem dropped_task_recorded cfg acts s t c n : config_ok cfg -> run cfg (initial cfg) acts = Some (s, t) -> st_phase s = PDrained ->
  st_clients s !! c = Some (CDropped n true) -> LFinished (task_key cfg n) (-1) [] ∈ new_lines cfg s.
Proof.
  intros Hok H Hp Hc. pose proof (open_run cfg Hok _ _ _ H c _ n Hc eq_refl) as Ho.
  destruct (final_log_is_transcript _ _ _ _ H Hp) as (rd & rest & order & _ & E & _ & Hor). apply in_nonready; [done|]. rewrite E, !elem_of_app. right. right.
  apply elem_of_list_fmap. exists n. split; [done|]. by apply Hor.
Qed.
Print Assumptions dropped_task_recorded.
