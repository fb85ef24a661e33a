(** C56 and C57: the processes of the local runners in one execute() call. Vocabulary: PoolSpec.v, SchedLiveSpec.v and
    SchedSpec.v. *)
From Verif Require Import SchedProps PoolTrace.

Lemma execution_pi cfg num_parallel acts p t : config_ok cfg -> execution cfg num_parallel acts p t ->
  length (local_types num_parallel) <= length (cf_types cfg) /\ PI cfg (length (local_types num_parallel)) acts p t.
Proof.
  intros Hok ((remote & Ht) & Hr). assert (length (local_types num_parallel) <= length (cf_types cfg)) as Hl by (rewrite Ht, app_length; lia).
  split; [done|]. by apply pi_pool_run.
Qed.
(** The run up to an observation of a process. *)
Lemma execution_split cfg num_parallel acts p t1 o t2 : config_ok cfg -> execution cfg num_parallel acts p (t1 ++ o :: t2) ->
  match o with PO _ => False | _ => True end ->
  exists acts1 c i now acts2 p1 lp st' cs, acts = acts1 ++ PInput c i now :: acts2 /\ execution cfg num_parallel acts1 p1 t1 /\
    po_loops p1 !! c = Some lp /\ lp_calls lp = [] /\
    input_possible (po_token p1) lp i = true /\ loop_step (lp_state lp) i = Some (st', cs) /\ input_obs c lp i now = [o].
Proof.
  intros Hok [Ht Hr] Ho. apply pool_split in Hr as (acts1 & a & acts2 & p1 & tt & p1' & os1 & os2 & -> & H1 & Hs & ->).
  assert (He : execution cfg num_parallel acts1 p1 tt) by done.
  destruct (execution_pi _ _ _ _ _ Hok He) as [_ HP].
  destruct (step_process cfg _ _ _ _ _ _ _ _ _ HP Hs Ho) as (c & i & now & lp & st' & cs & -> & -> & B1 & B2 & B3 & B4 & B5).
  rewrite app_nil_r. exists acts1, c, i, now, acts2, p1, lp, st', cs. done.
Qed.

(** C56. The tracker and the loops of the local runners together behave like the tracker with clients that follow its
    protocol: all theorems about reachable states (C01-C14, C34) apply to calls with these loops. *)
Theorem local_runners_follow_protocol cfg num_parallel acts p t :
  config_ok cfg -> execution cfg num_parallel acts p t -> reachable cfg (po_sched p) (tracker_part t).
Proof. intros Hok He. destruct (execution_pi _ _ _ _ _ Hok He) as [_ HP]. by eapply pi_reachable. Qed.
Print Assumptions local_runners_follow_protocol.

(** C56. At most num_parallel processes of ordinary tasks and at most one of a console task run at any time; a call with
    num_parallel = 0 spawns none. *)
Theorem local_process_limit cfg num_parallel acts p t :
  config_ok cfg -> execution cfg num_parallel acts p t ->
  over_by (is_type cfg 0) t <= spawned_by (is_type cfg 0) t <= over_by (is_type cfg 0) t + num_parallel /\
  over_by (is_type cfg 1) t <= spawned_by (is_type cfg 1) t <= over_by (is_type cfg 1) t + 1 /\
  (num_parallel = 0 -> forall c n pid start, ~ In (PSpawned c n pid start) t) /\
  (forall c n pid start, In (PSpawned c n pid start) t -> is_type cfg 0 c = true \/ is_type cfg 1 c = true).
Proof.
  intros Hok He. destruct (execution_pi _ _ _ _ _ Hok He) as [Hl HP]. pose proof He as ((remote & Ht) & Hr).
  assert (HB : forall i, busy (is_type cfg i) 0 (po_loops p) <= match i with 0 => num_parallel | 1 => Nat.min 1 num_parallel | _ => 0 end).
  { intros i. etrans; [apply busy_le|]. rewrite (pi_len _ _ _ _ _ HP). by apply (types_count cfg num_parallel remote). }
  pose proof (pi_count _ _ _ _ _ HP) as HC.
  assert (HS : forall c n pid start, In (PSpawned c n pid start) t -> c < length (local_types num_parallel)).
  { intros c n pid start Hin. apply in_split in Hin as (t1 & t2 & ->).
    apply execution_split in He as (acts1 & d & i & now & acts2 & p1 & lp & st' & cs & -> & He1 & B1 & B2 & B3 & B4 & B5); [|done..].
    assert (d = c) as ->.
    { unfold input_obs in B5. destruct (task_of _); [|done]. destruct i, (lp_child lp); try done; by injection B5 as ->. }
    destruct (execution_pi _ _ _ _ _ Hok He1) as [_ HP1]. rewrite <- (pi_len _ _ _ _ _ HP1). by eapply lookup_lt_Some. }
  split; [rewrite HC; specialize (HB 0); cbn iota in HB; lia|]. split; [rewrite HC; specialize (HB 1); cbn iota in HB; lia|]. split.
  - intros -> c n pid start Hin. apply HS in Hin. simpl in Hin. lia.
  - intros c n pid start Hin. apply HS in Hin. unfold is_type. rewrite Ht, lookup_app_l by done. clear - Hin.
    destruct (local_types num_parallel !! c) as [i|] eqn:E; [|apply lookup_ge_None in E; lia].
    apply elem_of_list_lookup_2 in E. unfold local_types in E. apply elem_of_app in E as [E|E].
    + left. apply elem_of_list_In in E. by apply repeat_spec in E as ->.
    + right. destruct (Nat.ltb 0 num_parallel); [by apply elem_of_list_singleton in E as ->|by apply elem_of_nil in E].
Qed.
Print Assumptions local_process_limit.

(** C56. Each loop runs one process after the other. *)
Theorem one_process_per_loop cfg num_parallel acts p t c :
  config_ok cfg -> execution cfg num_parallel acts p t -> one_at_a_time c (processes_of c t).
Proof.
  intros Hok He. destruct (execution_pi _ _ _ _ _ Hok He) as [_ HP]. eapply procs_one_at_a_time, (pi_procs _ _ _ _ _ HP c).
Qed.
Print Assumptions one_process_per_loop.

(** C56. A process is spawned only for a task that was handed out to this loop, whose affinity mask has the bit of the
    loop, whose dependencies were all reported successful before, and for which no process was spawned before. *)
Theorem process_spawned_for_ready_task cfg num_parallel acts p t1 c n pid start t2 :
  config_ok cfg -> execution cfg num_parallel acts p (t1 ++ PSpawned c n pid start :: t2) ->
  (exists i, In (PO (OHandedOut c i n)) t1 /\ cf_types cfg !! c = Some i /\ N.testbit (aff cfg n) (N.of_nat i) = true) /\
  (forall m, edge (cf_g cfg) m n -> succeeded (tracker_part t1) m) /\ ~ spawned_task t1 n.
Proof.
  intros Hok He. apply execution_split in He as (acts1 & d & i & now & acts2 & p1 & lp & st' & cs & -> & He1 & B1 & B2 & B3 & B4 & B5); [|done..].
  destruct (execution_pi _ _ _ _ _ Hok He1) as [_ HP]. pose proof (pi_reachable _ _ _ _ _ HP) as Hr.
  assert (d = c /\ task_of (lp_state lp) = Some n /\ lp_state lp = LTaken n) as (-> & Htask & Hst).
  { unfold input_obs in B5. destruct (task_of (lp_state lp)) as [m|] eqn:Et; [|done].
    destruct (lp_state lp), i; try done; destruct (lp_child lp); try done; injection B5 as -> -> _ _; split; try done; by injection Et as ->. }
  destruct (pi_task _ _ _ _ _ HP c lp n B1 Htask) as [j Hj]. split; [|split].
  - exists j. split; [by apply elem_of_list_In, tracker_in|]. apply elem_of_list_In in Hj.
    destruct (handed_out_with_matching_affinity cfg _ _ c j n Hok Hr Hj) as (X1 & _ & X2). done.
  - intros m Hm. apply elem_of_list_In, in_split in Hj as (l1 & l2 & E). rewrite E in Hr |- *.
    destruct (handed_out_only_after_dependencies cfg _ l1 c j n l2 m Hok Hr Hm) as [e Hin]. exists e. apply in_or_app. by left.
  - intros (d & pid' & st2 & Hin). apply elem_of_list_In in Hin. by eapply (pi_fresh _ _ _ _ _ HP c lp n B1 Hst).
Qed.
Print Assumptions process_spawned_for_ready_task.

(** C56. When a local runner reports a task, its process is over, the reported status is that of the process, and the values are those
    that it wrote. *)
Theorem report_matches_process cfg num_parallel acts p t1 c n s f t2 :
  config_ok cfg -> execution cfg num_parallel acts p (t1 ++ PO (OSentFinished c n s f) :: t2) ->
  c < length (local_types num_parallel) ->
  (exists vs, outcome t1 c n s vs) /\ spawned_by (Nat.eqb c) t1 = over_by (Nat.eqb c) t1.
Proof.
  intros Hok [Ht Hr] Hc. apply pool_split in Hr as (acts1 & a & acts2 & p1 & tt & p1' & os1 & os2 & -> & H1 & Hs & ->).
  assert (He : execution cfg num_parallel acts1 p1 tt) by done.
  destruct (execution_pi _ _ _ _ _ Hok He) as [Hl HP].
  destruct (report_step cfg _ _ _ _ _ _ _ _ _ _ _ _ HP Hc Hs) as (-> & lp & vs & rest & Hlp & Hcalls). rewrite app_nil_r. split.
  - destruct (stat_run cfg Hok _ acts1 Hl p1 tt H1 c lp n s vs Hlp) as [_ Ho]; [|by exists vs]. rewrite Hcalls. by left.
  - rewrite (pi_count _ _ _ _ _ HP). pose proof (busy_single (po_loops p1) c lp 0 Hlp) as Hb. simpl in Hb. rewrite Hb. unfold one.
    destruct (pi_link _ _ _ _ _ HP c lp Hlp) as (x & _ & HL). inversion HL; subst; try done; simpl; lia.
Qed.
Print Assumptions report_matches_process.

Lemma child_code_zero raw : child_code raw = Some (Code 0) -> wait_code raw = Some 0%Z.
Proof.
  unfold child_code. destruct (wait_code raw) as [z|]; [by intros [= ->]|]. unfold wait_signal. destruct (_ || _) eqn:E; [done|].
  apply orb_false_iff in E as [E _]. apply N.eqb_neq in E. intros [= H]. lia.
Qed.

(** C56. A success is recorded for a task only if a client that is not a local runner reported it, or a process for the
    task exited with 0. *)
Theorem success_means_exit_zero cfg num_parallel acts p t n :
  config_ok cfg -> execution cfg num_parallel acts p t -> succeeded (tracker_part t) n ->
  (exists c f, length (local_types num_parallel) <= c /\ In (OSentFinished c n (Code 0) f) (tracker_part t)) \/ process_succeeded t n.
Proof.
  intros Hok He [e Hin]. pose proof (local_runners_follow_protocol _ _ _ _ _ Hok He) as Hr.
  apply in_split in Hin as (l1 & l2 & E). rewrite E in Hr.
  destruct (finish_reports_come_from_the_runner cfg _ l1 n (Code 0) e l2 Hok Hr) as (c & i & f & Hs & _).
  assert (In (OSentFinished c n (Code 0) f) (tracker_part t)) as Hs' by (rewrite E; apply in_or_app; by left).
  destruct (decide (c < length (local_types num_parallel))) as [Hc|Hc]; [right|left; exists c, f; split; [lia|done]].
  apply elem_of_list_In, tracker_in, elem_of_list_In, in_split in Hs' as (t1 & t2 & ->).
  destruct (report_matches_process _ _ _ _ _ _ _ _ _ _ Hok He Hc) as [[vs Ho] _].
  inversion Ho as [|pid raw fd3 s H1 H2|]; subst. exists c, pid, raw, fd3. split; [apply in_or_app; by left|by apply child_code_zero].
Qed.
Print Assumptions success_means_exit_zero.

(** C56, for a call with local runners only: before a process is spawned for a task, for each of its dependencies a
    process was waited for that had exited with 0. *)
Theorem dependency_processes_exited_first cfg num_parallel acts p t1 c n pid start t2 m :
  config_ok cfg -> cf_types cfg = local_types num_parallel ->
  execution cfg num_parallel acts p (t1 ++ PSpawned c n pid start :: t2) -> edge (cf_g cfg) m n -> process_succeeded t1 m.
Proof.
  intros Hok Ht He Hm. destruct (process_spawned_for_ready_task _ _ _ _ _ _ _ _ _ _ Hok He) as (_ & Hd & _). specialize (Hd m Hm).
  apply execution_split in He as (acts1 & d & i & now & acts2 & p1 & lp & st' & cs & -> & He1 & _); [|done..].
  destruct (success_means_exit_zero _ _ _ _ _ _ Hok He1 Hd) as [(d' & f & Hge & Hs)|H]; [|done].
  exfalso. pose proof (local_runners_follow_protocol _ _ _ _ _ Hok He1) as Hr.
  apply in_split in Hs as (l1 & l2 & E). rewrite E in Hr. apply full_split in Hr as (s0 & t0 & a & s' & pre & post & HF & Hst & -> & Ho & _); [|done..].
  destruct Ho as (_ & Hcl & _). assert (is_Some (st_clients s0 !! d')) as Hsome by (destruct Hcl as [-> | ->]; eauto).
  apply lookup_lt_is_Some in Hsome. rewrite (a_ncl _ _ _ (inv_a _ _ _ (f_inv _ _ _ HF))), Ht in Hsome. lia.
Qed.
Print Assumptions dependency_processes_exited_first.

(** C56. A process is killed only for one of these reasons: too many tasks have failed and it was spawned less than five
    seconds before the failure or later; the call was cancelled or the tracker had left its loop; the loop panicked. *)
Theorem processes_killed_for_a_reason cfg num_parallel acts p t1 c n pid k t2 :
  config_ok cfg -> execution cfg num_parallel acts p (t1 ++ POver c n pid (Killed k) :: t2) ->
  match k with
  | BySoft => exists now start, In (PO (OCancelToken now)) t1 /\ In (PSpawned c n pid start) t1 /\ (now - 5000000000 < start)%N
  | ByHard => In (PSched AHardCancel) acts \/ exists x, In (PO (OExit x)) t1
  | ByFault => exists now, In (PInput c InFeedFails now) acts \/ In (PInput c InWaitFails now) acts
  end.
Proof.
  intros Hok He. apply execution_split in He as (acts1 & d & i & now & acts2 & p1 & lp & st' & cs & -> & He1 & B1 & B2 & B3 & B4 & B5); [|done..].
  destruct (execution_pi _ _ _ _ _ Hok He1) as [Hl HP]. destruct He1 as [_ Hr1].
  unfold input_obs in B5. destruct (task_of (lp_state lp)) as [m|] eqn:Et; [|done].
  destruct i; try done; destruct (lp_child lp) as [pid'|] eqn:Ec; try done; injection B5 as -> -> -> <-.
  - exists now. left. apply in_or_app. right. by left.
  - simpl in B3. apply andb_true_iff in B3 as [X1 X2]. destruct (po_token p1) as [[x|]|] eqn:Etok; try done.
    destruct (pi_token _ _ _ _ _ HP x Etok) as (now' & Hn & ->).
    exists now', (lp_start lp). split; [by apply elem_of_list_In, tracker_in|]. split; [|by apply N.ltb_lt in X1].
    pose proof (pi_procs _ _ _ _ _ HP c) as Hpr. unfold procs_ok in Hpr. rewrite B1 in Hpr. unfold current in Hpr. rewrite Et, Ec in Hpr.
    inversion Hpr as [|l n' pid'' st'' H E1 E2|]; subst. assert (In (PSpawned c n pid (lp_start lp)) (processes_of c t1)) as Hin by (rewrite <- E1; apply in_or_app; right; by left).
    unfold processes_of in Hin. by apply filter_In in Hin as [Hin _].
  - destruct (hd_token _ _ _ (hard_run cfg Hok _ acts1 Hl p1 t1 Hr1)) as [H|[x H]].
    + simpl in B3. by destruct (po_token p1) as [[]|].
    + left. apply in_or_app. left. by apply elem_of_list_In.
    + right. exists x. by apply elem_of_list_In, tracker_in.
  - exists now. right. apply in_or_app. right. by left.
Qed.
Print Assumptions processes_killed_for_a_reason.

(** C56. No process is left when the call ends. *)
Theorem no_process_left cfg num_parallel acts p t P :
  config_ok cfg -> execution cfg num_parallel acts p t -> st_phase (po_sched p) = PDrained -> spawned_by P t = over_by P t.
Proof.
  intros Hok He Hd. destruct (execution_pi _ _ _ _ _ Hok He) as [_ HP]. rewrite (pi_count _ _ _ _ _ HP).
  rewrite busy_zero; [lia|]. by eapply ended_all_over.
Qed.
Print Assumptions no_process_left.

(** ** C57. A call with local runners only ends *)
Lemma local_served cfg num_parallel : cf_types cfg = local_types num_parallel -> 0 < num_parallel -> all_local cfg -> all_served cfg.
Proof.
  intros Ht Hn Ha n Hin. destruct (Ha n Hin) as [H|H].
  - exists 0, 0. split; [|split; [lia|done]]. rewrite Ht. by destruct num_parallel; [lia|].
  - exists num_parallel, 1. split; [|split; [lia|done]]. rewrite Ht. unfold local_types. rewrite lookup_app_r by (by rewrite repeat_length).
    rewrite repeat_length, Nat.sub_diag. apply Nat.ltb_lt in Hn. by rewrite Hn.
Qed.

(** If the steps so far include no accident, and Ctrl-C as the only request: the call can be brought to its end by the
    loops, their processes and the tracker alone; each sequence of such steps is bounded by a linear function of the
    number of tasks and loops; and when none is possible the call has ended. *)
Theorem local_call_ends cfg num_parallel acts p t :
  config_ok cfg -> 0 < node_count (cf_g cfg) -> cf_types cfg = local_types num_parallel -> 0 < num_parallel -> all_local cfg ->
  execution cfg num_parallel acts p t -> Forall local_only acts ->
  (exists more p' t', Forall goes_on more /\ pool_run cfg p more = Some (p', t') /\ st_phase (po_sched p') = PDrained) /\
  (forall more p' t', Forall goes_on more -> pool_run cfg p more = Some (p', t') ->
     length acts + length more <= 6 * (270 * node_count (cf_g cfg) + 2 * (num_parallel + 1) + 71) + 1 /\
     ((forall a, goes_on a -> pool_step cfg p' a = None) -> st_phase (po_sched p') = PDrained)).
Proof.
  intros Hok Hpos Ht Hn Hal He Ha. pose proof (local_served _ _ Ht Hn Hal) as Hsv. destruct He as [_ Hr]. rewrite <- Ht in Hr.
  assert (Hsm : forall l, Forall local_only l -> Forall smooth l) by (intros l Hl; eapply Forall_impl; [exact Hl|]; intros; by apply local_only_smooth).
  split; [by apply (pool_can_end cfg Hok acts p t Hpos Hsv (Hsm _ Ha))|].
  intros more p' t' Hm Hr'.
  assert (Hall : pool_run cfg (pool_start cfg (length (cf_types cfg))) (acts ++ more) = Some (p', t ++ t')) by (apply pool_run_app; eauto 10).
  assert (Hlo : Forall local_only (acts ++ more)) by (apply Forall_app; split; [done|]; eapply Forall_impl; [exact Hm|]; intros; by left).
  split.
  - pose proof (pool_work_bound cfg Hok _ (acts ++ more) (le_n _) _ _ Hall) as Hb. rewrite phi_pool_start in Hb.
    assert (pool_number pool_soft_request (acts ++ more) = 0 /\ pool_number pool_work (acts ++ more) = length (acts ++ more)) as [Hz Hw].
    { clear - Hlo. unfold pool_number. induction Hlo as [|a l Hla _ [IH1 IH2]]; [done|]. simpl. destruct Hla as [Hla| ->].
      - apply goes_on_work in Hla as [-> ->]. simpl. lia.
      - simpl. lia. }
    rewrite Hz, Hw, app_length, Ht in Hb. unfold local_types in Hb. rewrite app_length, repeat_length in Hb. apply Nat.ltb_lt in Hn. rewrite Hn in Hb. simpl length in Hb. lia.
  - intros Hst. destruct (pool_progress cfg Hok (acts ++ more) p' (t ++ t')) as [(a & Hg & Hs)|H]; try done.
    + by apply pi_pool_run.
    + apply (si_run cfg Hok (acts ++ more)); [by apply Hsm|done].
    + by apply smooth_no_trigger, Hsm.
    + by rewrite Hst in Hs.
Qed.
Print Assumptions local_call_ends.

(** Without requests, accidents and soft shutdown: when the call has ended, for each task a process has exited with 0, or
    the task or one it depends on was reported as failed. *)
Theorem local_call_complete cfg num_parallel acts p t n :
  config_ok cfg -> cf_types cfg = local_types num_parallel -> execution cfg num_parallel acts p t -> Forall goes_on acts ->
  st_phase (po_sched p) = PDrained -> (forall x, ~ In (OSoft x) (tracker_part t)) -> in_graph cfg n ->
  process_succeeded t n \/ exists m, (m = n \/ reaches (cf_g cfg) m n) /\ failed (tracker_part t) m.
Proof.
  intros Hok Ht He Ha Hd Hsoft Hn. pose proof (local_runners_follow_protocol _ _ _ _ _ Hok He) as Hr.
  destruct (execution_pi _ _ _ _ _ Hok He) as [Hl HP]. pose proof He as [_ Hrun]. rewrite Forall_forall in Ha.
  assert (In (OExit ExitDone) (tracker_part t)) as Hex.
  { assert (exists x, In (OExit x) (tracker_part t)) as [x Hx].
    { destruct (full_or_done cfg Hok _ _ Hr) as [HF|HD].
      - by destruct (c_phase _ _ _ (inv_c _ _ _ (f_inv _ _ _ HF))) as [_ P2].
      - destruct HD as (s0 & t0 & os0 & now0 & order0 & HF & Hp0 & Ht0 & Hee & Hxx & _).
        assert (existsb is_exit t0 = true) as Hx by (apply (s_exit _ _ _ (f_ts _ _ _ HF)); by left).
        apply existsb_exists in Hx as (o & Ho & Hx). destruct o; try done. eexists. rewrite Hxx. apply in_or_app. left. exact Ho. }
    destruct x; [done| | |].
    - apply in_split in Hx as (l1 & l2 & E). rewrite E in Hr. destruct (soft_end_only_after_soft_shutdown cfg _ l1 l2 Hok Hr) as [y Hy].
      destruct (Hsoft y). rewrite E. apply in_or_app. by left.
    - apply elem_of_list_In in Hx. apply (hd_exit _ _ _ (hard_run cfg Hok _ acts Hl p t Hrun)) in Hx. apply Ha in Hx as [_ Hx]. by destruct Hx.
    - destruct (pi_run _ _ _ _ _ HP) as (sacts & Hs & [_ Hq]). apply elem_of_list_In, (causes cfg sacts _ _ Hs), Hq, Ha in Hx as [_ Hx]. by destruct Hx. }
  apply in_split in Hex as (l1 & l2 & E). rewrite E in Hr.
  assert (Hmono : forall m x, finished_with l1 m x -> finished_with (tracker_part t) m x).
  { intros m x [e H]. exists e. rewrite E. apply in_or_app. by left. }
  destruct (normal_end_means_all_done cfg _ l1 l2 n Hok Hr) as [[x Hx]|(m & Hm & x & Hx & Hne)]; [|done| |].
  - intros y Hy. destruct (Hsoft y). rewrite E. apply in_or_app. by left.
  - assert (x = Code 0 \/ x <> Code 0) as [->|Hne].
    { destruct x as [z| |]; try (by right); destruct (decide (z = 0%Z)) as [->|]; [by left|right; congruence]. }
    2: { right. exists n. split; [by left|]. exists x. auto. }
    left.
    destruct (success_means_exit_zero _ _ _ _ _ n Hok He) as [(c & f & Hge & Hs)|H]; [by apply Hmono| |done].
    exfalso. rewrite <- E in Hr. apply in_split in Hs as (l1' & l2' & E'). rewrite E' in Hr.
    apply full_split in Hr as (s0 & t0 & a & s' & pre & post & HF & Hst & -> & Ho & _); [|done..].
    destruct Ho as (_ & Hcl & _). assert (is_Some (st_clients s0 !! c)) as Hsome by (destruct Hcl as [-> | ->]; eauto).
    apply lookup_lt_is_Some in Hsome. rewrite (a_ncl _ _ _ (inv_a _ _ _ (f_inv _ _ _ HF))), Ht in Hsome. lia.
  - right. exists m. split; [by right|]. exists x. auto.
Qed.
Print Assumptions local_call_complete.

(** ** Concrete cases *)
(** Scripts: an action, or all pending effects of the tracker. *)
Inductive pscript := PDo (a : paction) | PFlush.
Fixpoint pexpand (cfg : config) (p : pool) (l : list pscript) : list paction :=
  match l with
  | [] => []
  | PDo a :: l => match pool_step cfg p a with Some (p', _) => a :: pexpand cfg p' l | None => [] end
  | PFlush :: l =>
      let acts := repeat (PSched AInstr) (length (st_todo (po_sched p))) in
      match pool_run cfg p acts with Some (p', _) => acts ++ pexpand cfg p' l | None => [] end
  end.
(** Loop [c] takes a task and spawns a process; the process ends and is reported. *)
Definition ptake (c : nat) (pid now : N) (fed : bool) : list pscript :=
  map PDo [PCall c ""; PRecv (APop c 0); PRecv (AClaim c); PRecv (ACount c); PCall c ""; PInput c (InSpawned pid fed) now].
Definition pend (c : nat) (raw now : N) : list pscript :=
  map PDo [PInput c (InOutput raw []) 0; PCall c ""; PSched (AEvent now)] ++ [PFlush].
Definition pstart (c : nat) (now : N) : list pscript := map PDo [PCall c ""; PSched (AEvent now)].

(** Task 1 depends on task 0; task 2 is a console task. One ordinary loop. *)
Definition ptasks : config :=
  Config (DiGraph [task "a" 1 0; task "b" 1 0; task "c" 2 0] [(0,1)]) 3 (local_types 1) (fun n => SysTime (N.of_nat n) 0) log0.
Definition pbegin : pool := pool_start ptasks 2.
Definition pscript1 : list pscript :=
  [PDo (PSched (AInit [0; 2])); PFlush] ++ ptake 0 100 5 false ++ ptake 1 101 6 false.
Definition pscript2 : list pscript :=
  pscript1 ++ pstart 0 7 ++ pend 0 0 8 ++ pstart 1 9 ++ ptake 0 102 10 true ++ [PDo (PInput 0 InFed 0)] ++ pstart 0 11
  ++ pend 1 256 12 ++ pend 0 9 13
  ++ map PDo [PCall 0 ""; PCall 1 ""; PHardCancel; PSched (ADrain [] 14)].
Definition ptrace : list pobs :=
  [PO (OReady 0); PO (OReady 2); PO (OPushed 0 0); PO (OPushed 1 2); PO (OHandedOut 0 0 0); PSpawned 0 0 100 5;
   PO (OHandedOut 1 1 2); PSpawned 1 2 101 6; PO (OSentStarted 0 0); PO (OStarted 0); POver 0 0 100 (Reaped 0 []);
   PO (OSentFinished 0 0 (Code 0) None); PO (OFinished 0 (Code 0) (Some 1%N)); PO (OReady 1); PO (OPushed 0 1);
   PO (OSentStarted 1 2); PO (OStarted 2); PO (OHandedOut 0 0 1); PSpawned 0 1 102 10; PO (OSentStarted 0 1);
   PO (OStarted 1); POver 1 2 101 (Reaped 256 []); PO (OSentFinished 1 2 (Code 1) None); PO (OFinished 2 (Code 1) (Some 3%N));
   POver 0 1 102 (Reaped 9 []); PO (OSentFinished 0 1 (Code (-9)) None); PO (OFinished 1 (Code (-9)) (Some 2%N)); PO (OExit ExitDone);
   PO (ORecvErr 0 SoftShutdown); PO (ORecvErr 1 SoftShutdown)].

Definition goes_on_b (a : paction) : bool :=
  match a with
  | PInput _ InSetupFails _ | PInput _ InFeedFails _ | PInput _ InWaitFails _ => false
  | PInput _ (InOutput raw _) _ => match child_code raw with Some _ => true | None => false end
  | PSched ATriggerSoft | PSched AHardCancel | PSched ACtrlC => false
  | _ => true
  end.
Lemma goes_on_by acts : forallb goes_on_b acts = true -> Forall goes_on acts.
Proof.
  intros H. rewrite forallb_forall in H. apply Forall_forall. intros a Ha. apply elem_of_list_In, H in Ha.
  split; intros Hx; destruct a as [[]| | | |? [] |]; simpl in *; try done; by destruct (child_code raw).
Qed.

Example ptasks_ok : config_ok ptasks /\ 0 < node_count (cf_g ptasks) /\ cf_types ptasks = local_types 1 /\ all_local ptasks.
Proof.
  split; [config_ok|]. split; [vm_compute; lia|]. split; [reflexivity|]. intros n Hn. unfold in_graph in Hn. simpl in Hn.
  destruct n as [|[|[|n]]]; [left|left|right|lia]; reflexivity.
Qed.
(** A whole call: a dependency, a console task, a process with input, a failure and a signal. It meets the hypotheses of
    the theorems above. *)
Example ptasks_run : exists p, execution ptasks 1 (pexpand ptasks pbegin pscript2) p ptrace /\ st_phase (po_sched p) = PDrained /\
  Forall goes_on (pexpand ptasks pbegin pscript2) /\ (forall x, ~ In (OSoft x) (tracker_part ptrace)) /\
  process_succeeded ptrace 0 /\ failed (tracker_part ptrace) 1 /\ edge (cf_g ptasks) 0 1.
Proof.
  eexists. split; [split; [by exists []|vm_compute; reflexivity]|]. split; [reflexivity|]. split; [apply goes_on_by; vm_compute; reflexivity|].
  split; [intros x H; simpl in H; repeat (destruct H as [H|H]; [discriminate|]); exact H|].
  split; [exists 0, 100%N, 0%N, []; split; [simpl; tauto|reflexivity]|]. split; [|by left].
  exists (Code (-9)). split; [|done]. exists (Some 2%N). simpl. tauto.
Qed.

(** The console loop comes on top of num_parallel: two processes run at the same time with num_parallel = 1. *)
Theorem num_parallel_limits_all_processes_refuted :
  exists cfg acts p t, config_ok cfg /\ execution cfg 1 acts p t /\ spawned_by (fun _ => true) t = over_by (fun _ => true) t + 2.
Proof.
  exists ptasks, (pexpand ptasks pbegin pscript1). eexists _, _. split; [apply ptasks_ok|].
  split; [split; [by exists []|vm_compute; reflexivity]|]. vm_compute. reflexivity.
Qed.
Print Assumptions num_parallel_limits_all_processes_refuted.

(** Kills. The limit is one failure; two ordinary loops. A process of a task spawned shortly before a failure is killed, the
    one spawned long before goes on and its result counts. *)
Definition psoft : config :=
  Config (DiGraph [task "a" 1 0; task "b" 1 0; task "c" 1 0] []) 1 (local_types 3) (fun n => SysTime (N.of_nat n) 0) log0.
Definition psoft_script : list pscript :=
  [PDo (PSched (AInit [0; 1; 2])); PFlush] ++ ptake 0 100 5 false ++ pstart 0 6 ++
  ptake 1 101 60000000000 false ++ pstart 1 60000000001 ++ ptake 2 102 60000000002 false ++ pstart 2 60000000003 ++
  pend 2 256 60000000004 ++ [PDo (PInput 1 (InSoft 55000000004) 0)] ++ map PDo [PCall 1 ""; PSched (AEvent 60000000005)] ++ [PFlush] ++
  pend 0 0 60000000006.
Example psoft_kill : config_ok psoft /\ exists p t n1 n2, execution psoft 3 (pexpand psoft (pool_start psoft 4) psoft_script) p t /\
  In (POver 1 n1 101 (Killed BySoft)) t /\ In (PO (OSentFinished 1 n1 Cancelled None)) t /\
  In (POver 0 n2 100 (Reaped 0 [])) t /\ succeeded (tracker_part t) n2.
Proof.
  split; [config_ok|]. eexists _, _, 1, 0. split; [split; [by exists []|vm_compute; reflexivity]|].
  split; [simpl; tauto|]. split; [simpl; tauto|]. split; [simpl; tauto|]. eexists. simpl. tauto.
Qed.

(** Ctrl-C: the tracker leaves its loop, the token is cancelled and the process killed. *)
Definition phard_script : list pscript :=
  [PDo (PSched (AInit [0; 2])); PFlush] ++ ptake 0 100 5 false ++ pstart 0 7 ++ [PDo (PSched ACtrlC); PFlush; PDo PHardCancel] ++
  map PDo [PInput 0 InHard 0; PDrop 0; PCall 1 ""; PSched (ADrain [0] 8)].
Example phard_kill : exists p t, execution ptasks 1 (pexpand ptasks pbegin phard_script) p t /\
  In (POver 0 0 100 (Killed ByHard)) t /\ In (PO (OExit ExitCtrlC)) t /\ st_phase (po_sched p) = PDrained /\
  Forall local_only (pexpand ptasks pbegin phard_script).
Proof.
  eexists _, _. split; [split; [by exists []|vm_compute; reflexivity]|]. split; [simpl; tauto|]. split; [simpl; tauto|].
  split; [reflexivity|]. apply (Forall_impl (fun a => goes_on_b a = true \/ a = PSched ACtrlC)).
  - vm_compute. repeat (constructor; [first [by left|by right]|]). constructor.
  - intros a [H|H]; [left|by right]. pose proof (goes_on_by [a]) as X. simpl in X. rewrite H in X. by apply X, Forall_inv in X || (specialize (X eq_refl); by apply Forall_cons in X as [X _]).
Qed.

(** C57 does not hold after an accident. A process that closes file descriptor 4, or exits, before its input was written to
    the end makes write_all fail; the loop panics with the task in its hands, and the call waits for its report forever. *)
Definition pfeed : config := Config (DiGraph [task "a" 1 0] []) 3 (local_types 1) (fun n => SysTime (N.of_nat n) 0) log0.
Definition pfeed_script : list pscript :=
  [PDo (PSched (AInit [0])); PFlush] ++ ptake 0 100 5 true ++ map PDo [PInput 0 InFeedFails 0; PDrop 0; PCall 1 ""].
Theorem local_call_ends_after_input_failure_refuted :
  exists cfg acts p t, config_ok cfg /\ 0 < node_count (cf_g cfg) /\ cf_types cfg = local_types 1 /\ all_local cfg /\
    execution cfg 1 acts p t /\ In (POver 0 0 100 (Killed ByFault)) t /\
    st_phase (po_sched p) = PLoop /\ forall a, goes_on a -> pool_step cfg p a = None.
Proof.
  exists pfeed, (pexpand pfeed (pool_start pfeed 2) pfeed_script). eexists _, _. split; [config_ok|]. split; [vm_compute; lia|]. split; [reflexivity|].
  split. { intros n Hn. unfold in_graph in Hn. simpl in Hn. destruct n as [|n]; [left; reflexivity|lia]. }
  split; [split; [by exists []|vm_compute; reflexivity]|]. split; [simpl; tauto|]. split; [reflexivity|].
  intros a [H1 H2]. destruct a as [b| |c host|b|c i now|c].
  - destruct b as [order| |now| | | |order now|c|c j|c|c|c|c h p j|c x v f|c| |]; try reflexivity; try (by destruct H2; simpl);
      destruct c as [|[|c]]; reflexivity.
  - reflexivity.
  - destruct c as [|[|c]]; reflexivity.
  - destruct b as [order| |now| | | |order now|c|c j|c|c|c|c h p j|c x v f|c| |]; try reflexivity;
      destruct c as [|[|c]]; try reflexivity; destruct j; reflexivity.
  - destruct c as [|[|c]]; try reflexivity; destruct i; reflexivity.
  - destruct c as [|[|c]]; reflexivity.
Qed.
Print Assumptions local_call_ends_after_input_failure_refuted.

(** The same after a panic before the spawn, for instance for a task whose fd_input uses descriptor 3: the first loop takes
    the task and panics, and the call waits forever. *)
Definition psetup_script : list pscript :=
  [PDo (PSched (AInit [0])); PFlush] ++ map PDo [PCall 0 ""; PRecv (APop 0 0); PRecv (AClaim 0); PRecv (ACount 0); PCall 0 ""; PInput 0 InSetupFails 5; PDrop 0; PCall 1 ""].
Theorem local_call_ends_after_setup_failure_refuted :
  exists cfg acts p t, config_ok cfg /\ 0 < node_count (cf_g cfg) /\ cf_types cfg = local_types 1 /\ all_local cfg /\
    execution cfg 1 acts p t /\ In (PO (OHandedOut 0 0 0)) t /\ ~ spawned_task t 0 /\
    st_phase (po_sched p) = PLoop /\ forall a, goes_on a -> pool_step cfg p a = None.
Proof.
  exists pfeed, (pexpand pfeed (pool_start pfeed 2) psetup_script). eexists _, _. split; [config_ok|]. split; [vm_compute; lia|]. split; [reflexivity|].
  split. { intros n Hn. unfold in_graph in Hn. simpl in Hn. destruct n as [|n]; [left; reflexivity|lia]. }
  split; [split; [by exists []|vm_compute; reflexivity]|]. split; [simpl; tauto|].
  split; [intros (? & ? & ? & H); simpl in H; repeat (destruct H as [H|H]; [discriminate|]); exact H|]. split; [reflexivity|].
  intros a [H1 H2]. destruct a as [b| |c host|b|c i now|c].
  - destruct b as [order| |now| | | |order now|c|c j|c|c|c|c h p j|c x v f|c| |]; try reflexivity; try (by destruct H2; simpl);
      destruct c as [|[|c]]; reflexivity.
  - reflexivity.
  - destruct c as [|[|c]]; reflexivity.
  - destruct b as [order| |now| | | |order now|c|c j|c|c|c|c h p j|c x v f|c| |]; try reflexivity;
      destruct c as [|[|c]]; try reflexivity; destruct j; reflexivity.
  - destruct c as [|[|c]]; try reflexivity; destruct i; reflexivity.
  - destruct c as [|[|c]]; reflexivity.
Qed.
Print Assumptions local_call_ends_after_setup_failure_refuted.
