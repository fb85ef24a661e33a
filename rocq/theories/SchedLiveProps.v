(** C07: execute() ends. Vocabulary: SchedLiveSpec.v and SchedSpec.v. *)
From Verif Require Import SchedProps SchedBound.

(** C07, no deadlock. In every state reached while no runner is dropped, the call has ended, or the tracker or a
    runner can take a step, or a soft shutdown was requested from outside and no task that was handed out is
    unreported (see [soft_shutdown_ends_refuted]). *)
Theorem never_stuck cfg acts s t :
  config_ok cfg -> 0 < node_count (cf_g cfg) -> all_served cfg -> nobody_drops acts ->
  run cfg (initial cfg) acts = Some (s, t) ->
  st_phase s = PDrained \/ (exists a, routine a /\ step cfg s a <> None) \/
  (In (OSoft SoftTrigger) t /\ forall n, handed_out t n -> finished t n).
Proof.
  intros Hok Hpos Hsv Hk Hr. destruct (live_run cfg Hok acts s t Hk Hr) as [[HF HL]|HD].
  - right. destruct (progress cfg Hok s t HF HL Hpos Hsv) as [H|[H1 H2]]; [by left|right]. split; [by apply elem_of_list_In|].
    intros n Hn. apply elem_of_finish_order, H2, elem_of_handed, Hn.
  - left. by destruct HD as (s0 & t0 & os0 & now0 & order0 & HI & Hp0 & Ht0 & He & -> & Hdr & Hz & Hp & Hc & Hu).
Qed.
Print Assumptions never_stuck.

(** C07, without outside requests for a soft shutdown: a state in which nothing can happen by itself is the end. *)
Theorem stuck_means_ended cfg acts s t :
  config_ok cfg -> 0 < node_count (cf_g cfg) -> all_served cfg -> keeps_going acts ->
  run cfg (initial cfg) acts = Some (s, t) -> stuck cfg s -> st_phase s = PDrained.
Proof.
  intros Hok Hpos Hsv Hk Hr Hst. unfold keeps_going in Hk. rewrite Forall_forall in Hk.
  destruct (never_stuck cfg acts s t Hok Hpos Hsv) as [H|[(a & Ha & Hs)|[H _]]]; try done.
  - intros c Hc. by apply Hk in Hc.
  - by destruct (Hs (Hst a Ha)).
  - apply elem_of_list_In, (causes cfg acts s t Hr) in H. by apply Hk in H.
Qed.
Print Assumptions stuck_means_ended.

(** C07, bounded work. In every execution, with any number of dropped runners and any requests, the number of steps is
    bounded by a linear function of the number of tasks and runner threads, plus a linear amount for each request for a
    soft shutdown. Requests are not counted. *)
Theorem bounded_work cfg acts s t :
  config_ok cfg -> run cfg (initial cfg) acts = Some (s, t) ->
  number work acts <= 270 * node_count (cf_g cfg) + 2 * length (cf_types cfg) + 71
                      + (node_count (cf_g cfg) + 66) * number soft_request acts.
Proof. intros Hok H. pose proof (work_bound cfg Hok acts s t H) as Hw. rewrite phi_initial in Hw. lia. Qed.
Print Assumptions bounded_work.

(** C07, the two together: from every state reached while runners keep going, the call can be brought to its end by
    steps of the tracker and the runners alone, and each sequence of such steps leads there. *)
Theorem execute_ends cfg acts s t :
  config_ok cfg -> 0 < node_count (cf_g cfg) -> all_served cfg -> keeps_going acts ->
  run cfg (initial cfg) acts = Some (s, t) ->
  (exists more s' t', Forall routine more /\ run cfg s more = Some (s', t') /\ st_phase s' = PDrained) /\
  (forall more s' t', Forall routine more -> run cfg s more = Some (s', t') ->
     length more <= 270 * node_count (cf_g cfg) + 2 * length (cf_types cfg) + 71 /\
     (stuck cfg s' -> st_phase s' = PDrained)).
Proof.
  intros Hok Hpos Hsv Hk Hr. split; [by apply (can_end cfg Hok acts s t)|].
  intros more s' t' Hm Hr'.
  assert (Hall : run cfg (initial cfg) (acts ++ more) = Some (s', t ++ t')) by (apply run_app; eauto 10).
  assert (Hkk : keeps_going (acts ++ more)) by (apply Forall_app; split; [done|by apply routine_keeps]).
  split; [|by apply (stuck_means_ended cfg (acts ++ more) s' (t ++ t'))].
  pose proof (bounded_work cfg _ _ _ Hok Hall) as Hb.
  assert (number soft_request (acts ++ more) = 0) as Hz.
  { unfold number. apply length_zero_iff_nil. clear - Hkk. unfold keeps_going in Hkk. induction Hkk as [|a l Ha _ IH]; [done|].
    simpl. destruct a; done. }
  assert (length more <= number work (acts ++ more)) as Hl.
  { unfold number. rewrite List.filter_app, app_length. clear - Hm. induction Hm as [|a l Ha _ IH]; [simpl; lia|].
    simpl. apply routine_work in Ha as [-> _]. simpl. lia. }
  lia.
Qed.
Print Assumptions execute_ends.

(** C07, cancellation. Once the hard token was cancelled, the call can end whatever happened before: runners dropped
    with or without a task, soft shutdown, tasks that nobody serves. *)
Theorem cancelled_execute_ends cfg acts s t :
  config_ok cfg -> run cfg (initial cfg) acts = Some (s, t) -> In AHardCancel acts ->
  exists more s' t', Forall (fun a => routine a \/ a = AHardExit) more /\ run cfg s more = Some (s', t') /\ st_phase s' = PDrained.
Proof.
  intros Hok Hr Hin. apply (hard_can_end cfg Hok s t); [by eexists|].
  revert s t Hr Hin. induction acts as [|a acts IH] using rev_ind; intros s t Hr Hin; [done|].
  apply run_snoc in Hr as (s1 & t1 & os & H1 & Hs & ->). apply in_app_or in Hin as [Hin|[->|[]]].
  - eapply hard_stays; [|exact Hs]. by eapply IH.
  - cbn [step] in Hs. by injection Hs as <- <-.
Qed.
Print Assumptions cancelled_execute_ends.

(** C07, after the loop was left for any reason (all done, shutdown, cancellation, Ctrl-C) the call can end, even if
    runners were dropped. *)
Theorem left_loop_ends cfg s t c :
  config_ok cfg -> reachable cfg s t -> In (OExit c) t ->
  exists more s' t', Forall routine more /\ run cfg s more = Some (s', t') /\ st_phase s' = PDrained.
Proof.
  intros Hok Hr Hin. destruct (full_or_done cfg Hok s t Hr) as [HF|HD].
  - apply (exited_can_end cfg Hok s t Hr). apply (s_exit _ _ _ (f_ts _ _ _ HF)). apply existsb_exists. exists (OExit c). done.
  - exists [], s, []. split_and!; try done.
    by destruct HD as (s0 & t0 & os0 & now0 & order0 & HI & Hp0 & Ht0 & He & -> & Hdr & Hz & Hp & Hc & Hu).
Qed.
Print Assumptions left_loop_ends.

(** ** Concrete cases *)
Example demo_served : config_ok demo /\ 0 < node_count (cf_g demo) /\ all_served demo.
Proof.
  split; [exact demo_ok|]. split; [vm_compute; lia|]. intros n Hn. unfold in_graph in Hn. simpl in Hn.
  destruct n as [|[|[|[|n]]]]; [exists 0, 0|exists 0, 0|exists 1, 1|exists 0, 0|lia]; split_and!; try done; lia.
Qed.
(** In the middle: task 0 done, task 2 handed out. *)
Example demo_middle : exists s t, keeps_going (expand demo (initial demo) mid_script) /\
  run demo (initial demo) (expand demo (initial demo) mid_script) = Some (s, t) /\ st_phase s = PLoop /\
  (exists n, handed_out t n /\ ~ finished t n).
Proof.
  eexists _, _. split; [|split; [vm_compute; reflexivity|split; [reflexivity|]]].
  - unfold keeps_going. apply (Forall_impl (fun a => (match a with ADrop _ | ATriggerSoft => false | _ => true end) = true)).
    + apply Forall_forall. intros a Ha. apply elem_of_list_In in Ha. revert a Ha. apply forallb_forall. vm_compute. reflexivity.
    + by intros [].
  - exists 2. split; [exists 1, 1; simpl; tauto|]. intros (x & e & H). absent H.
Qed.

(** ** What can hang *)
Definition lone (aff : N) : config :=
  Config (DiGraph [task "a" aff 0] []) 3 [0] (fun n => SysTime (N.of_nat n) 0) log0.
Ltac stuck_tac :=
  intros a Ha; destruct a as [order| |now| | | |order now|c|c j|c|c|c|c h p j|c x v f|c| |]; try (destruct Ha; fail); try reflexivity;
  destruct c as [|c]; reflexivity.

(** A soft shutdown requested when no task is handed out leaves the loop waiting forever: the property does not hold
    without excluding it. *)
Theorem soft_shutdown_ends_refuted :
  exists cfg acts s t, config_ok cfg /\ 0 < node_count (cf_g cfg) /\ all_served cfg /\ nobody_drops acts /\
    run cfg (initial cfg) acts = Some (s, t) /\ st_phase s = PLoop /\ stuck cfg s /\ step cfg s ASoft = None.
Proof.
  exists (lone 1), (expand (lone 1) (initial (lone 1)) [Do (AInit [0]); Flush; Do ATriggerSoft; Do ASoft; Flush; Do (ARecv 0)]).
  eexists _, _. split; [config_ok|]. split; [vm_compute; lia|]. split.
  { intros n Hn. unfold in_graph in Hn. simpl in Hn. destruct n; [|lia]. exists 0, 0. split_and!; try done; lia. }
  split; [|split; [vm_compute; reflexivity|]].
  - intros c Hc. apply elem_of_list_In in Hc.
    assert (forallb (fun a => match a with ADrop _ => false | _ => true end)
      (expand (lone 1) (initial (lone 1)) [Do (AInit [0]); Flush; Do ATriggerSoft; Do ASoft; Flush; Do (ARecv 0)]) = true) as H by (vm_compute; reflexivity).
    rewrite forallb_forall in H. by apply H in Hc.
  - split; [reflexivity|]. split; [stuck_tac|reflexivity].
Qed.
Print Assumptions soft_shutdown_ends_refuted.

(** A task whose affinity mask no runner type serves (for example 0) makes the call wait forever. *)
Theorem unserved_task_ends_refuted :
  exists cfg acts s t, config_ok cfg /\ 0 < node_count (cf_g cfg) /\ keeps_going acts /\
    run cfg (initial cfg) acts = Some (s, t) /\ st_phase s = PLoop /\ stuck cfg s.
Proof.
  exists (lone 0), (expand (lone 0) (initial (lone 0)) [Do (AInit [0]); Flush; Do (ARecv 0)]).
  eexists _, _. split; [config_ok|]. split; [vm_compute; lia|]. split; [|split; [vm_compute; reflexivity|]].
  - vm_compute. repeat constructor.
  - split; [reflexivity|]. stuck_tac.
Qed.
Print Assumptions unserved_task_ends_refuted.

(** A runner that disappears with a task makes the call wait forever. *)
Theorem lost_task_ends_refuted :
  exists cfg acts s t, config_ok cfg /\ 0 < node_count (cf_g cfg) /\ all_served cfg /\
    run cfg (initial cfg) acts = Some (s, t) /\ st_phase s = PLoop /\ stuck cfg s.
Proof.
  exists (lone 1), (expand (lone 1) (initial (lone 1)) ([Do (AInit [0]); Flush] ++ take_task 0 ++ [Do (ADrop 0)])).
  eexists _, _. split; [config_ok|]. split; [vm_compute; lia|]. split.
  { intros n Hn. unfold in_graph in Hn. simpl in Hn. destruct n; [|lia]. exists 0, 0. split_and!; try done; lia. }
  split; [vm_compute; reflexivity|]. split; [reflexivity|]. stuck_tac.
Qed.
Print Assumptions lost_task_ends_refuted.
