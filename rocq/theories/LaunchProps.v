(** C54: the limit on launches bounds the tasks handed out. *)
From Verif Require Import LaunchSpec LaunchProofs SchedProps.
From Verif Require GcraProps.
From Coq Require Import Lia.
From stdpp Require Import prelude.
Local Open Scope N_scope.

(** Every task handed out was preceded by a passage of the limiter that served no other task; so was every client that
    waits for a task. *)
Theorem handout_costs_admission : forall cfg now rate acts s t,
  lrun cfg (launch_new cfg now rate) acts = Some (s, t) -> handouts t + queued_up s <= admissions t.
Proof.
  intros cfg now rate acts s t H. destruct (lrun_pot _ _ _ _ _ (linv_new cfg now rate) H) as [_ Hp].
  rewrite pot_new in Hp. unfold handouts, queued_up, admissions. unfold pot, inq in Hp. lia.
Qed.
Print Assumptions handout_costs_admission.

(** The passage was made by the client that got the task. *)
Theorem handout_follows_admission : forall cfg now rate acts s t c,
  lrun cfg (launch_new cfg now rate) acts = Some (s, t) -> (handouts_to c t <= admissions_of c t)%nat.
Proof.
  intros cfg now rate acts s t c H. pose proof (one_run cfg c _ _ _ _ (linv_new cfg now rate) H) as Hp.
  rewrite mine_new in Hp. lia.
Qed.
Print Assumptions handout_follows_admission.

Lemma admissions_launches a b t : (forall c now, In (GcraModel.OAdmitted c now) (gate_side t) -> a <= now <= b) ->
  admissions t = GcraSpec.launches a b (gate_side t).
Proof.
  unfold admissions, GcraSpec.launches. intros H. f_equal. f_equal. induction (gate_side t) as [|o l IH]; [done|].
  cbn [List.filter]. rewrite IH by (intros c now Hi; eapply H; by right). destruct o; [|done].
  cbn [is_admitted GcraSpec.admitted_in]. destruct (H c now) as [H1 H2]; [by left|]. apply N.leb_le in H1, H2. by rewrite H1, H2.
Qed.
Lemma within_gate lo hi acts : attempts_within lo hi acts -> GcraSpec.clocks_within lo hi (gate_actions acts).
Proof.
  intros H c now Hi. apply (H c now). apply elem_of_list_In in Hi. unfold gate_actions in Hi. apply elem_of_list_omap in Hi as (x & Hx & E).
  destruct x; [|done]. by injection E as ->.
Qed.
Lemma no_change_gate acts : no_change acts -> forall x, In x (gate_actions acts) -> ~ GcraSpec.is_reset x.
Proof.
  intros H x Hi. apply H. apply elem_of_list_In in Hi. unfold gate_actions in Hi. apply elem_of_list_omap in Hi as (y & Hy & E).
  destruct y; [|done]. by injection E as ->.
Qed.

(** If all attempts to pass are made between the start t0 and hi, the number of tasks handed out is at most the limit
    times the time since the start. *)
Theorem handouts_by_time : forall cfg rate t0 hi acts s t,
  0 < rate <= GcraModel.PERIOD -> GcraModel.PERIOD <= t0 -> hi + 3 * GcraModel.PERIOD < GcraModel.U64 -> t0 <= hi ->
  no_change acts -> attempts_within t0 hi acts ->
  lrun cfg (launch_new cfg t0 rate) acts = Some (s, t) ->
  handouts t * (GcraModel.PERIOD / rate) <= (hi - t0) + GcraModel.PERIOD mod rate.
Proof.
  intros cfg rate t0 hi acts s t Hr H1 H2 H3 Hn Hc H. pose proof (handout_costs_admission _ _ _ _ _ _ H) as Hp.
  destruct (lrun_gate _ _ _ _ _ H) as [Hg _]. cbn [launch_new la_gate] in Hg.
  pose proof (GcraProps.launch_rate_start rate t0 hi _ _ _ t0 hi Hr H1 H2 H3 (no_change_gate _ Hn) (within_gate _ _ _ Hc) Hg H3) as Hl.
  rewrite <- admissions_launches in Hl.
  { etransitivity; [|exact Hl]. apply N.mul_le_mono_r. lia. }
  eapply clocked_run; [|by apply within_gate|exact Hg]. intros c. unfold GcraModel.thread_of, GcraModel.fresh. cbn. by rewrite lookup_empty.
Qed.
Print Assumptions handouts_by_time.

(** In a part of the run in which the clients admitted came between a and b, at most the limit times that time, one
    second's worth, and one for each client that already waited. *)
Theorem handouts_in_window : forall cfg rate t0 hi acts1 s1 t1 acts2 s2 t2 a b,
  0 < rate <= GcraModel.PERIOD -> GcraModel.PERIOD <= t0 -> hi + 3 * GcraModel.PERIOD < GcraModel.U64 -> t0 <= hi ->
  no_change (acts1 ++ acts2) -> attempts_within t0 hi (acts1 ++ acts2) ->
  lrun cfg (launch_new cfg t0 rate) acts1 = Some (s1, t1) -> lrun cfg s1 acts2 = Some (s2, t2) ->
  (forall c now, In (GcraModel.OAdmitted c now) (gate_side t2) -> a <= now <= b) -> a <= b ->
  handouts t2 * (GcraModel.PERIOD / rate) <= (b - a) + GcraModel.PERIOD + queued_up s1 * (GcraModel.PERIOD / rate).
Proof.
  intros cfg rate t0 hi acts1 s1 t1 acts2 s2 t2 a b Hr H1 H2 H3 Hn Hc Hr1 Hr2 Hab Hle.
  destruct (lrun_pot _ _ _ _ _ (linv_new cfg t0 rate) Hr1) as [HI _]. destruct (lrun_pot _ _ _ _ _ HI Hr2) as [_ Hp].
  destruct (lrun_gate _ _ _ _ _ Hr1) as [Hg1 _]. destruct (lrun_gate _ _ _ _ _ Hr2) as [Hg2 _]. cbn [launch_new la_gate] in Hg1.
  assert (GcraModel.run (GcraModel.fresh (GcraModel.new_limiter t0 rate)) (gate_actions (acts1 ++ acts2)) = Some (la_gate s2, gate_side t1 ++ gate_side t2)) as Hg.
  { unfold gate_actions. rewrite omap_app. by apply grun_app with (la_gate s1). }
  pose proof (GcraProps.launch_rate_window rate t0 hi _ _ _ a b Hr H1 H2 H3 (no_change_gate _ Hn) (within_gate _ _ _ Hc) Hg Hle) as Hl.
  assert (admissions t2 <= GcraSpec.launches a b (gate_side t1 ++ gate_side t2)) as Ha.
  { rewrite (admissions_launches a b) by done. unfold GcraSpec.launches. rewrite List.filter_app, app_length. lia. }
  assert (handouts t2 <= queued_up s1 + admissions t2) as Hh by (unfold handouts, queued_up, admissions; unfold pot, inq in Hp; lia).
  etransitivity; [apply N.mul_le_mono_r; exact Hh|]. rewrite N.mul_add_distr_r.
  pose proof (N.mul_le_mono_r _ _ (GcraModel.PERIOD / rate) Ha). lia.
Qed.
Print Assumptions handouts_in_window.

(** ** A run: limit 1 per second, task a before b and c, three clients *)
Definition fork : config :=
  Config (DiGraph [task "a" 2 0; task "b" 2 0; task "c" 2 0] [(0%nat, 1%nat); (0%nat, 2%nat)]) 3 [1; 1; 1]%nat (fun n => SysTime (N.of_nat n) 0) log0.
Example fork_ok : config_ok fork.
Proof. config_ok. Qed.
Definition pass (c : nat) (now : N) : list laction :=
  map LGate [GcraModel.AClock c now; GcraModel.ALoadTau c; GcraModel.ALoadTat c; GcraModel.ACas c].
Definition take (c : nat) : list laction := map LTracker [APop c 0%nat; AClaim c; ACount c].
(** Client 0 passes at 6 s and gets a; clients 1 and 2 pass at 7 s and 8 s and wait. *)
Definition fork_1 : list laction :=
  map LTracker (AInit [0%nat] :: repeat AInstr 5) ++ pass 0 6000000000 ++ [LTracker (ARecv 0)] ++ take 0 ++
  pass 1 6500000000 ++ pass 1 7000000000 ++ [LTracker (ARecv 1)] ++ pass 2 8000000000 ++ [LTracker (ARecv 2)].
(** Then a finishes. *)
Definition fork_2 : list laction :=
  map LTracker ([ASendStarted 0 "h" 7 "j"; AEvent 10; ASendFinished 0 (Code 0) [] None; AEvent 20] ++ repeat AInstr 6) ++ take 1 ++ take 2.
Example fork_run : exists s t, lrun fork (launch_new fork 5000000000 1) (fork_1 ++ fork_2) = Some (s, t) /\ handouts t = 3 /\
  handouts_to 1 t = 1%nat /\ no_change (fork_1 ++ fork_2) /\ attempts_within 5000000000 8000000000 (fork_1 ++ fork_2).
Proof.
  eexists _, _. split; [vm_compute; reflexivity|]. split; [reflexivity|]. split; [reflexivity|]. split.
  - intros x Hi. apply elem_of_list_In in Hi. cbn in Hi. repeat (destruct Hi as [Hi|Hi]; [first [discriminate Hi|injection Hi as <-; intros []]|]). destruct Hi.
  - intros c now Hi. apply elem_of_list_In in Hi. cbn in Hi. repeat (destruct Hi as [Hi|Hi]; [first [discriminate Hi|injection Hi as <- <-; lia]|]). destruct Hi.
Qed.

(** Hand-outs themselves are not spread out: clients that passed the limiter and wait for a task get theirs at the same
    instant.  At limit 1 per second, two tasks are handed out although nobody passes the limiter meanwhile. *)
Theorem handouts_spread_out_refuted : exists s1 t1 s2 t2,
  lrun fork (launch_new fork 5000000000 1) fork_1 = Some (s1, t1) /\ lrun fork s1 fork_2 = Some (s2, t2) /\
  gate_side t2 = [] /\ (forall a, ~ LGate a ∈ fork_2) /\ GcraModel.PERIOD / 1 = 1000000000 /\ handouts t2 * (GcraModel.PERIOD / 1) = 2 * GcraModel.PERIOD.
Proof.
  eexists _, _, _, _. split; [vm_compute; reflexivity|]. split; [vm_compute; reflexivity|]. split; [reflexivity|]. split; [|done].
  intros a Hi. apply elem_of_list_In in Hi. cbn in Hi. intuition discriminate.
Qed.
Print Assumptions handouts_spread_out_refuted.
