(** C62: the preambles and postambles of the tasks of one execute() call. Vocabulary: HookSpec.v, PoolSpec.v. *)
From Verif Require Import HookProofs PoolProps SchedProps.
Open Scope list_scope.
Open Scope nat_scope.

Section theorems.
Variable cfg : config.
Variable num_parallel : nat.
Hypothesis Hok : config_ok cfg.
Notation k := (length (local_types num_parallel)).

Lemma hook_len acts p t : hook_execution cfg num_parallel acts p t -> k <= length (cf_types cfg).
Proof. intros ((remote & Ht) & _). rewrite Ht, app_length. lia. Qed.
Lemma hook_exec_pi acts p t : hook_execution cfg num_parallel acts p t -> PI cfg k acts p (unhooked t).
Proof. intros H. pose proof (hook_len _ _ _ H) as Hl. destruct H as [_ H]. by apply hook_pi. Qed.

(** Every execution has exactly one record with these calls, and nothing else changes. *)
Theorem hooks_go_along acts p t : hook_execution cfg num_parallel acts p t -> execution cfg num_parallel acts p (unhooked t).
Proof. intros [Ht H]. split; [done|]. by apply hook_run_plain. Qed.
Theorem hooks_are_called acts p t : execution cfg num_parallel acts p t -> exists t', hook_execution cfg num_parallel acts p t' /\ unhooked t' = t.
Proof. intros [Ht H]. apply pool_run_hook in H as (t' & H & E). by exists t'. Qed.

(** The postamble of a task is called at most once, and then there is no further call of its preamble and no further process. *)
Theorem postamble_once acts p t : hook_execution cfg num_parallel acts p t -> NoDup (posts t).
Proof.
  intros He. pose proof (hook_exec_pi _ _ _ He) as HI. destruct He as [_ H]. rewrite (posts_reports _ _ _ _ _ H).
  by apply (reports_nodup cfg Hok _ _ (pi_reachable _ _ _ _ _ HI)).
Qed.
Theorem postamble_last acts p t1 n ok r m t2 : hook_execution cfg num_parallel acts p (t1 ++ HPost n ok r m :: t2) ->
  ~ preamble_called t2 n /\ forall c pid start, ~ In (HP (PSpawned c n pid start)) t2.
Proof.
  intros He. split.
  - intros Hin. apply in_split in Hin as (l1 & l2 & ->). rewrite app_comm_cons, List.app_assoc in He.
    pose proof (hook_len _ _ _ He) as Hl. destruct He as [Ht H].
    apply hook_split in H as (acts1 & a & acts2 & p1 & tt & p1' & os1 & os2 & t3 & -> & H1 & Hs & E & _).
    pose proof (hook_pi cfg Hok _ _ _ _ Hl H1) as HI.
    destruct (pre_origin cfg Hok _ _ _ _ _ _ _ _ _ HI Hs) as (HF & Hn & Hp & _).
    assert (HPost n ok r m ∈ tt ++ os1) as Hx by (rewrite <- E; apply elem_of_app; right; by left).
    apply elem_of_app in Hx as [Hx|Hx]; [|by eapply Hp].
    eapply (held_no_post cfg acts1 _ p1 tt n H1 HF); [lia|]. apply posts_in. eauto.
  - intros c pid start Hin. apply in_split in Hin as (l1 & l2 & ->). rewrite app_comm_cons, List.app_assoc in He.
    pose proof (hook_len _ _ _ He) as Hl. destruct He as [Ht H].
    apply hook_split in H as (acts1 & a & acts2 & p1 & tt & p1' & os1 & os2 & t3 & -> & H1 & Hs & E & _).
    pose proof (hook_pi cfg Hok _ _ _ _ Hl H1) as HI.
    destruct (spawn_origin cfg _ _ _ _ _ _ _ _ _ _ _ _ HI Hs) as (-> & lp & Hc & Hst & Hcalls).
    destruct (pi_link _ _ _ _ _ HI c lp Hc) as (x & Hx & HL).
    assert (x = CHolding n) as -> by (inversion HL; subst; cbn in Hst; simplify_eq; done).
    assert (Full cfg (po_sched p1) (tracker_of tt)) as HF.
    { eapply (not_over_full cfg Hok); [exact HI|exact Hc|]. unfold loop_over. by rewrite Hst. }
    rewrite app_nil_r in E. subst tt. eapply (held_no_post cfg acts1 _ p1 _ n H1 HF).
    + assert (0 < nhold (po_sched p1) n) by (by eapply client_count). lia.
    + apply posts_in. exists ok, r, m. apply elem_of_app. right. by left.
Qed.

(** It is called for each finish report, just before the report is processed, with whether the task succeeded, its run
    count, and the number of tasks of this call. *)
Theorem postamble_arguments acts p t1 n ok r m t2 : hook_execution cfg num_parallel acts p (t1 ++ HPost n ok r m :: t2) ->
  exists o s t3, t2 = HP (PO o) :: t3 /\ finish_report o = Some (n, s) /\ (ok = true <-> s = Code 0) /\
    r = task_runcount cfg n /\ m = N.of_nat (length (nodes (cf_g cfg))).
Proof.
  intros [_ H]. apply hook_split in H as (acts1 & a & acts2 & p1 & tt & p1' & os1 & os2 & t3 & -> & H1 & Hs & E & ->).
  apply hook_step_post in Hs as (l1 & o & s & l2 & _ & Hf & _ & -> & [= -> -> ->]). eexists o, s, _. split; [done|]. split; [done|].
  split; [|done]. unfold is_success. destruct s as [z| |]; try done. split; [intros Hz; apply Z.eqb_eq in Hz; by subst|intros [= ->]; done].
Qed.
Theorem report_calls_postamble acts p t1 o t2 n s : hook_execution cfg num_parallel acts p (t1 ++ HP (PO o) :: t2) -> finish_report o = Some (n, s) ->
  exists t0 ok r m, t1 = t0 ++ [HPost n ok r m].
Proof. intros [_ H] Hf. destruct (report_has_post cfg _ _ _ _ _ _ _ _ H Hf) as [t0 ->]. by eexists _, _, _, _. Qed.

(** Before a process is spawned for a task its preamble was called. *)
Theorem preamble_before_process acts p t1 c n pid start t2 : hook_execution cfg num_parallel acts p (t1 ++ HP (PSpawned c n pid start) :: t2) ->
  preamble_called t1 n.
Proof.
  intros He. pose proof (hook_len _ _ _ He) as Hl. destruct He as [Ht H].
  apply hook_split in H as (acts1 & a & acts2 & p1 & tt & p1' & os1 & os2 & t3 & -> & H1 & Hs & -> & _).
  pose proof (hook_pi cfg Hok _ _ _ _ Hl H1) as HI.
  destruct (spawn_origin cfg _ _ _ _ _ _ _ _ _ _ _ _ HI Hs) as (-> & lp & Hc & Hst & Hcalls).
  destruct (pi_task _ _ _ _ _ HI c lp n Hc) as [i Hi]; [by rewrite Hst|].
  pose proof (pre_count cfg Hok _ acts1 Hl p1 tt n H1) as Hcount.
  assert (n ∈ handed (tracker_of tt)) as Hh by (apply elem_of_list_omap; by exists (OHandedOut c i n)). apply occ_pos in Hh.
  assert (npend p1 n = 0) as Hp.
  { apply occ_zero. intros Hin. apply elem_of_list_omap in Hin as (lp' & Hin & Hpe). apply elem_of_list_lookup in Hin as [d Hd].
    destruct (pi_link _ _ _ _ _ HI d lp' Hd) as (x & Hx & HL).
    assert (task_of (lp_state lp') = Some n) as Ht' by (inversion HL; subst; cbn in Hpe; simplify_eq; done).
    destruct (pi_task _ _ _ _ _ HI d lp' n Hd Ht') as [j Hj].
    destruct (handed_unique (tracker_part (unhooked tt)) c i n d j) as [<- _]; [|done|done|].
    - apply (c03 cfg Hok _ _ (pi_reachable _ _ _ _ _ HI)).
    - rewrite Hd in Hc. injection Hc as ->. unfold pend_of in Hpe. by rewrite Hcalls in Hpe. }
  apply elem_of_list_In. rewrite app_nil_r. apply pres_in, occ_pos. lia.
Qed.

(** Before the postamble of a task its preamble was called. *)
Theorem preamble_before_postamble acts p t1 n ok r m t2 : hook_execution cfg num_parallel acts p (t1 ++ HPost n ok r m :: t2) ->
  preamble_called t1 n /\ no_process_runs t1 n.
Proof.
  intros He. pose proof (hook_len _ _ _ He) as Hl. destruct He as [Ht H].
  apply hook_split in H as (acts1 & a & acts2 & p1 & tt & p1' & os1 & os2 & t3 & -> & H1 & Hs & -> & _).
  pose proof (hook_pi cfg Hok _ _ _ _ Hl H1) as HI.
  apply hook_step_post in Hs as (l1 & o & s & l2 & Hp & Hf & -> & _ & _).
  destruct (report_origin cfg Hok _ _ _ _ _ _ _ _ _ _ _ Hl HI Hp Hf) as ([l1' ->] & Hh & Hloops). split.
  - pose proof (pre_count cfg Hok _ acts1 Hl p1 tt n H1) as Hcount. apply occ_pos in Hh. unfold tracker_of in Hcount.
    assert (npend p1 n = 0) as Hpe.
    { apply occ_zero. intros Hin. apply elem_of_list_omap in Hin as (lp & Hin & Hpe). apply elem_of_list_lookup in Hin as [c Hc]. by destruct (Hloops c lp Hc). }
    apply elem_of_list_In, elem_of_app. left. apply pres_in, occ_pos. lia.
  - intros c pid start Hin. apply elem_of_list_In, unhooked_in in Hin. rewrite !unhooked_app, loop_hooks_plain, unhooked_decorate in Hin. cbn [app] in Hin.
    apply spawned_po in Hin. destruct (over_or_current cfg _ _ _ _ _ _ _ _ HI Hin) as [[w Hw]|(lp & Hc & Hcur)].
    + exists w. apply elem_of_list_In, elem_of_app. left. by apply unhooked_in.
    + destruct (Hloops c lp Hc) as [_ X]. by destruct (X pid start).
Qed.

(** When the preamble of a task is called, the task was handed out to a runner, and the postambles of all its dependencies
    were called and told about a success. *)
Theorem preamble_after_dependencies acts p t1 n t2 : hook_execution cfg num_parallel acts p (t1 ++ HPre n :: t2) ->
  (exists c i, In (HP (PO (OHandedOut c i n))) t1) /\ forall m, edge (cf_g cfg) m n -> postamble_success t1 m.
Proof.
  intros He. pose proof (hook_len _ _ _ He) as Hl. pose proof (hook_exec_pi _ _ _ He) as HI. destruct He as [Ht H]. pose proof H as H0.
  apply hook_split in H as (acts1 & a & acts2 & p1 & tt & p1' & os1 & os2 & t3 & -> & H1 & Hs & -> & _).
  pose proof (hook_pi cfg Hok _ _ _ _ Hl H1) as HI1.
  destruct (pre_origin cfg Hok _ _ _ _ _ _ _ _ _ HI1 Hs) as (_ & _ & _ & c & i & Hin). apply elem_of_list_In in Hin. split; [eauto|].
  intros m Hm. apply in_split in Hin as (l1 & l2 & E). rewrite E in *. rewrite <- (assoc_L app) in H0. cbn [app] in H0.
  assert (tracker_part (unhooked ((l1 ++ HP (PO (OHandedOut c i n)) :: l2) ++ HPre n :: t2)) =
    tracker_of l1 ++ OHandedOut c i n :: tracker_part (unhooked (l2 ++ HPre n :: t2))) as Et.
  { rewrite <- (assoc_L app). unfold tracker_of. rewrite unhooked_app, tracker_app. done. }
  pose proof (pi_reachable _ _ _ _ _ HI) as Hr. rewrite Et in Hr.
  destruct (handed_out_only_after_dependencies cfg _ _ c i n _ m Hok Hr Hm) as [e Hfin].
  apply elem_of_list_In, tracker_of_in, elem_of_list_In, in_split in Hfin as (x1 & x2 & ->).
  rewrite <- (assoc_L app) in H0. cbn [app] in H0. destruct (report_has_post cfg _ _ _ _ _ _ m (Code 0) H0 eq_refl) as [t0 ->].
  eexists _, _. rewrite <- !(assoc_L app). apply in_or_app. right. by left.
Qed.

(** The preamble of a task is called at most twice. *)
Theorem preamble_at_most_twice acts p t n : hook_execution cfg num_parallel acts p t -> count_occ Nat.eq_dec (pres t) n <= 2.
Proof.
  intros He. pose proof (hook_len _ _ _ He) as Hl. pose proof (hook_exec_pi _ _ _ He) as HI. destruct He as [Ht H].
  pose proof (pre_count cfg Hok _ acts Hl p t n H) as Hc. pose proof (pi_reachable _ _ _ _ _ HI) as Hr.
  pose proof (held_bound cfg _ _ Hr n) as Hb. pose proof (proj1 (occ_nodup _) (c03 cfg Hok _ _ Hr) n) as Hh.
  unfold occ, tracker_of in *. lia.
Qed.

(** When the call has ended, each task whose start was reported had its postamble. *)
Theorem postamble_of_started_tasks acts p t c n : hook_execution cfg num_parallel acts p t -> st_phase (po_sched p) = PDrained ->
  In (HP (PO (OSentStarted c n))) t -> exists ok r m, In (HPost n ok r m) t.
Proof.
  intros He Hph Hin. pose proof (hook_exec_pi _ _ _ He) as HI. destruct He as [Ht H]. pose proof (pi_reachable _ _ _ _ _ HI) as Hr.
  assert (n ∈ sents (tracker_of t)) as Hs by (apply sents_in; exists c; by apply tracker_of_in, elem_of_list_In).
  pose proof (started_reported cfg Hok _ _ n Hr Hph Hs) as Hrep. change (tracker_part (unhooked t)) with (tracker_of t) in Hrep. rewrite <- (posts_reports _ _ _ _ _ H) in Hrep.
  apply posts_in in Hrep as (ok & r & m & X). exists ok, r, m. by apply elem_of_list_In.
Qed.
End theorems.
Print Assumptions hooks_go_along.
Print Assumptions hooks_are_called.
Print Assumptions postamble_once.
Print Assumptions postamble_last.
Print Assumptions postamble_arguments.
Print Assumptions report_calls_postamble.
Print Assumptions preamble_before_process.
Print Assumptions preamble_before_postamble.
Print Assumptions preamble_after_dependencies.
Print Assumptions preamble_at_most_twice.
Print Assumptions postamble_of_started_tasks.

(** ** Concrete cases *)
(** The call of PoolProps.v: a dependency, a console task, a process with input, a failure and a signal. *)
Definition only_hooks (t : list hobs) : list hobs :=
  List.filter (fun o => match o with HP (PSpawned _ _ _ _) | HP (POver _ _ _ _) | HPre _ | HPost _ _ _ _ => true | _ => false end) t.
Example ptasks_hooks : exists p t, hook_execution ptasks 1 (pexpand ptasks pbegin pscript2) p t /\ st_phase (po_sched p) = PDrained /\ unhooked t = ptrace /\
  only_hooks t =
    [HPre 0; HP (PSpawned 0 0 100 5); HPre 2; HP (PSpawned 1 2 101 6); HPre 0; HP (POver 0 0 100 (Reaped 0 [])); HPost 0 true 0 3;
     HPre 2; HPre 1; HP (PSpawned 0 1 102 10); HPre 1; HP (POver 1 2 101 (Reaped 256 [])); HPost 2 false 0 3;
     HP (POver 0 1 102 (Reaped 9 [])); HPost 1 false 0 3].
Proof. eexists _, _. split; [split; [by exists []|vm_compute; reflexivity]|]. vm_compute. auto. Qed.

(** A remote runner: task 0 of affinity 4. *)
Definition remote_hooks_cfg : config :=
  Config (DiGraph [Cmd ["true"] "r" None 4 7 0 0] []) 3 (local_types 1 ++ [2]) (fun n => SysTime (N.of_nat n) 0) log0.
Definition remote_hooks_script : list pscript :=
  [PDo (PSched (AInit [0])); PFlush] ++ map PDo [PSched (ARecv 2); PSched (APop 2 0); PSched (AClaim 2); PSched (ACount 2)] ++
  map PDo [PSched (ASendStarted 2 "h" 5 ""); PSched (AEvent 1); PSched (ASendFinished 2 (Code 0) [] None); PSched (AEvent 2)] ++ [PFlush].
Example remote_hooks : config_ok remote_hooks_cfg /\ exists p t,
  hook_execution remote_hooks_cfg 1 (pexpand remote_hooks_cfg (pool_start remote_hooks_cfg 2) remote_hooks_script) p t /\
  omap (fun o => match o with HP (PO (OPushed _ _ | OReady _ | OFlag _ _ | OExit _)) => None | _ => Some o end) t =
    [HP (PO (OHandedOut 2 2 0)); HPre 0; HPre 0; HP (PO (OSentStarted 2 0)); HP (PO (OStarted 0)); HP (PO (OSentFinished 2 0 (Code 0) None));
     HPost 0 true 7 1; HP (PO (OFinished 0 (Code 0) (Some 1%N)))].
Proof. split; [config_ok|]. eexists _, _. split; [split; [by exists [2]|vm_compute; reflexivity]|]. vm_compute. reflexivity. Qed.

(** Not true: the preamble of a task is called once, before the process is spawned (pylib.rs:230-234, "immediately before").
    send_started calls it again, when the process is running. *)
Theorem preamble_once_refuted :
  exists cfg num_parallel acts p t1 c n pid start t2, config_ok cfg /\ hook_execution cfg num_parallel acts p (t1 ++ HP (PSpawned c n pid start) :: t2) /\
    preamble_called t1 n /\ preamble_called t2 n /\ ~ no_process_runs (t1 ++ HP (PSpawned c n pid start) :: firstn 4 t2) n /\ preamble_called (firstn 5 t2) n.
Proof.
  exists ptasks, 1, (pexpand ptasks pbegin (pscript1 ++ pstart 0 7)).
  eexists _, [HP (PO (OReady 0)); HP (PO (OReady 2)); HP (PO (OPushed 0 0)); HP (PO (OPushed 1 2)); HP (PO (OHandedOut 0 0 0)); HPre 0], 0, 0, 100%N, 5%N, _.
  split; [apply ptasks_ok|]. split; [split; [by exists []|vm_compute; reflexivity]|].
  split; [unfold preamble_called; simpl; tauto|]. split; [unfold preamble_called; simpl; tauto|]. split; [|unfold preamble_called; simpl; tauto].
  intros H. destruct (H 0 100%N 5%N) as [w Hw]; [simpl; tauto|]. simpl in Hw. repeat (destruct Hw as [Hw|Hw]; [discriminate|]). exact Hw.
Qed.
Print Assumptions preamble_once_refuted.

(** Not true: when the call has ended, each preamble was followed by a postamble. Ctrl-C while a process is being given its
    input: the loop ends and the task, whose start was not reported, gets no postamble. *)
Definition lost_hooks_script : list pscript :=
  [PDo (PSched (AInit [0])); PFlush] ++ ptake 0 100 5 true ++
  [PDo (PSched ACtrlC); PFlush; PDo PHardCancel] ++ map PDo [PInput 0 InFeedFails 0; PDrop 0; PCall 1 ""; PSched (ADrain [] 8)].
Theorem postamble_always_refuted :
  exists cfg num_parallel acts p t n, config_ok cfg /\ hook_execution cfg num_parallel acts p t /\ st_phase (po_sched p) = PDrained /\
    preamble_called t n /\ n ∉ posts t.
Proof.
  exists pfeed, 1, (pexpand pfeed (pool_start pfeed 2) lost_hooks_script). eexists _, _, 0. split; [config_ok|].
  split; [split; [by exists []|vm_compute; reflexivity]|]. split; [reflexivity|]. split; [unfold preamble_called; simpl; tauto|].
  vm_compute. intros H. inversion H.
Qed.
Print Assumptions postamble_always_refuted.
