(** The scheduler properties C01-C06, C08-C14 and C34. Vocabulary: SchedSpec.v. *)
From Verif Require Import SchedResult.

(** C01. A task is handed out only after all its dependencies were reported successful and
    these reports were processed. *)
Theorem handed_out_only_after_dependencies cfg s t1 c i n t2 m :
  config_ok cfg -> reachable cfg s (t1 ++ OHandedOut c i n :: t2) ->
  edge (cf_g cfg) m n -> succeeded t1 m.
Proof. intros Hok. exact (c01 cfg Hok s t1 c i n t2 m). Qed.
Print Assumptions handed_out_only_after_dependencies.

(** C02. Nothing that depends on an unsuccessful task is made ready, queued, handed out,
    started or finished; and nothing is logged about it. *)
Theorem dependents_of_failed_never_run cfg s t n m :
  config_ok cfg -> reachable cfg s t -> ended_badly t n -> reaches (cf_g cfg) n m ->
  forall o, In o t -> ~ mentions o m.
Proof. intros Hok. exact (c02 cfg Hok s t n m). Qed.
Print Assumptions dependents_of_failed_never_run.

Theorem dependents_of_failed_never_logged cfg s t n m :
  config_ok cfg -> reachable cfg s t -> ended_badly t n -> reaches (cf_g cfg) n m -> in_graph cfg m ->
  exists new, new_records cfg s new /\ history (task_key cfg m) new = [].
Proof. intros Hok. exact (c02_log cfg Hok s t n m). Qed.
Print Assumptions dependents_of_failed_never_logged.

(** C03. No task is handed out twice. *)
Theorem handed_out_at_most_once cfg s t1 c i n t2 c' i' :
  config_ok cfg -> reachable cfg s (t1 ++ OHandedOut c i n :: t2) -> ~ In (OHandedOut c' i' n) t2.
Proof.
  intros Hok Hr Hin. pose proof (c03 cfg Hok _ _ Hr) as Hnd. rewrite handed_app in Hnd.
  apply NoDup_app in Hnd as (_ & _ & Hnd). apply NoDup_cons in Hnd as [Hn _]. apply Hn.
  apply elem_of_list_omap. exists (OHandedOut c' i' n). split; [by apply elem_of_list_In|done].
Qed.
Print Assumptions handed_out_at_most_once.

(** C04. A runner gets only tasks whose mask contains its type; the error for an unknown type
    is returned exactly for types from 64 on. *)
Theorem handed_out_with_matching_affinity cfg s t c i n :
  config_ok cfg -> reachable cfg s t -> In (OHandedOut c i n) t ->
  cf_types cfg !! c = Some i /\ i < 64 /\ N.testbit (aff cfg n) (N.of_nat i) = true.
Proof. intros Hok. exact (c04 cfg Hok s t c i n). Qed.
Print Assumptions handed_out_with_matching_affinity.

Theorem unknown_runner_type_refused cfg s t c e :
  config_ok cfg -> reachable cfg s t -> In (ORecvErr c e) t ->
  exists i, cf_types cfg !! c = Some i /\ (e = NoSuchRunnerType <-> 64 <= i).
Proof. intros Hok. exact (c04_error cfg Hok s t c e). Qed.
Print Assumptions unknown_runner_type_refused.

Theorem runner_type_checked_at_once cfg s t c i :
  config_ok cfg -> reachable cfg s t -> st_clients s !! c = Some CIdle -> cf_types cfg !! c = Some i ->
  exists s' os, step cfg s (ARecv c) = Some (s', os) /\
    (64 <= i -> os = [ORecvErr c NoSuchRunnerType]) /\ (i < 64 -> ~ In (ORecvErr c NoSuchRunnerType) os).
Proof. intros Hok. exact (c04_checked cfg Hok s t c i). Qed.
Print Assumptions runner_type_checked_at_once.

(** C05, first half. When a thread takes an item from its ready queue, then no task that is in
    this queue, and is not in the hands of a thread, has a larger priority. *)
Theorem highest_priority_first cfg s t c j s' os :
  config_ok cfg -> reachable cfg s t -> step cfg s (APop c j) = Some (s', os) ->
  exists i it, cf_types cfg !! c = Some i /\ st_clients s' !! c = Some (CPopped it) /\
    (exists cm, nodes (cf_g cfg) !! i_id it = Some cm /\ i_priority it = c_priority cm) /\
    forall m cm, OPushed i m ∈ t -> m ∉ handed t ->
      (forall c' it', st_clients s !! c' = Some (CClaimed it') -> i_id it' <> m) ->
      (forall c' it', st_clients s !! c' = Some (CPopped it') -> cf_types cfg !! c' = Some i -> i_id it' <> m) ->
      nodes (cf_g cfg) !! m = Some cm -> (c_priority cm <= i_priority it)%N.
Proof. intros Hok. exact (c05 cfg Hok s t c j s' os). Qed.
Print Assumptions highest_priority_first.

(** C06. The loop ends normally only when each task is finished or depends on a failed one;
    it ends as soon as all tasks made ready are finished; the other reasons to end are a soft
    shutdown, a hard cancel, Ctrl-C. *)
Theorem normal_end_means_all_done cfg s t1 t2 n :
  config_ok cfg -> reachable cfg s (t1 ++ OExit ExitDone :: t2) -> (forall c, ~ In (OSoft c) t1) ->
  in_graph cfg n -> finished t1 n \/ exists m, reaches (cf_g cfg) m n /\ failed t1 m.
Proof. intros Hok. exact (c06 cfg Hok s t1 t2 n). Qed.
Print Assumptions normal_end_means_all_done.

Theorem ends_when_all_done cfg s t :
  config_ok cfg -> reachable cfg s t -> st_phase s = PLoop -> st_todo s = [] ->
  0 < length (nodes (cf_g cfg)) -> exists n, made_ready t n /\ ~ finished t n.
Proof.
  intros Hok Hr Hp Ht Hn.
  destruct (decide (Forall (fun n => n ∈ finish_order t) (readied t))) as [Hf|Hf].
  - exfalso. apply (c06_ends cfg Hok s t Hr Hp Ht Hn). by apply Forall_forall.
  - apply not_Forall_Exists in Hf; [|apply _]. apply Exists_exists in Hf as (n & Hin & Hno).
    exists n. split; [by apply elem_of_readied|]. by rewrite <- elem_of_finish_order.
Qed.
Print Assumptions ends_when_all_done.

Theorem soft_end_only_after_soft_shutdown cfg s t1 t2 :
  config_ok cfg -> reachable cfg s (t1 ++ OExit ExitSoft :: t2) -> exists c, In (OSoft c) t1.
Proof. intros Hok. exact (c06_soft cfg Hok s t1 t2). Qed.
Print Assumptions soft_end_only_after_soft_shutdown.

Theorem other_ends_only_on_request cfg acts s t :
  run cfg (initial cfg) acts = Some (s, t) ->
  (In (OExit ExitHard) t -> In AHardCancel acts) /\ (In (OExit ExitCtrlC) t -> In ACtrlC acts) /\
  (In (OSoft SoftTrigger) t -> In ATriggerSoft acts).
Proof.
  intros H. destruct (causes cfg acts s t H) as (_ & _ & H1 & H2 & H3). rewrite <- !elem_of_list_In. done.
Qed.
Print Assumptions other_ends_only_on_request.

(** C08. The tracker never panics. *)
Theorem tracker_never_panics cfg s t :
  config_ok cfg -> reachable cfg s t -> ~ In OPanic t /\ st_phase s <> PPanicked.
Proof. intros Hok. exact (c08 cfg Hok s t). Qed.
Print Assumptions tracker_never_panics.

(** C09. Counters at quiescent points; and bounds at all points. *)
Theorem num_ready_exact cfg s t a :
  config_ok cfg -> reachable cfg s t -> undisturbed t -> quiescent s ->
  num_ready s a = N.of_nat (length (with_mask cfg a (minus (readied t) (handed t)))).
Proof. intros Hok. exact (c09_ready cfg Hok s t a). Qed.
Print Assumptions num_ready_exact.

Theorem num_inflight_exact cfg s t a :
  config_ok cfg -> reachable cfg s t -> quiescent s ->
  num_inflight s a =
  N.of_nat (length (with_mask cfg a (minus (handed t) (finish_order t ++ drained t)))).
Proof. intros Hok. exact (c09_inflight cfg Hok s t a). Qed.
Print Assumptions num_inflight_exact.

Theorem num_unready_exact cfg s t :
  config_ok cfg -> reachable cfg s t -> quiescent s ->
  st_unready s = N.of_nat (length (minus (seq 0 (length (nodes (cf_g cfg)))) (readied t))).
Proof. intros Hok. exact (c09_unready cfg Hok s t). Qed.
Print Assumptions num_unready_exact.

Theorem num_ready_never_wraps cfg s t a :
  config_ok cfg -> reachable cfg s t -> undisturbed t ->
  (num_ready s a <= N.of_nat (length (nodes (cf_g cfg))))%N.
Proof. intros Hok. exact (c09_ready_bound cfg Hok s t a). Qed.
Print Assumptions num_ready_never_wraps.

(** C10. The result of execute(). *)
Theorem execute_result_truthful cfg s t :
  config_ok cfg -> reachable cfg s t -> st_phase s = PDrained ->
  exists new, new_records cfg s new /\
    execute_result cfg s =
      (N.of_nat (length (List.filter failure_record new)), map (task_key cfg) (finish_order t)) /\
    NoDup (map (task_key cfg) (finish_order t)).
Proof. intros Hok. exact (c10 cfg Hok s t). Qed.
Print Assumptions execute_result_truthful.

Theorem execute_result_in_dependency_order cfg s t l1 n l2 m :
  config_ok cfg -> reachable cfg s t -> finish_order t = l1 ++ n :: l2 -> edge (cf_g cfg) m n ->
  m ∈ l1.
Proof. intros Hok. exact (c10_order cfg Hok s t l1 n l2 m). Qed.
Print Assumptions execute_result_in_dependency_order.

Theorem finish_reports_come_from_the_runner cfg s t1 n x e t2 :
  config_ok cfg -> reachable cfg s (t1 ++ OFinished n x e :: t2) ->
  exists c i f, In (OSentFinished c n x f) t1 /\ In (OHandedOut c i n) t1.
Proof. intros Hok. exact (c10_origin cfg Hok s t1 n x e t2). Qed.
Print Assumptions finish_reports_come_from_the_runner.

(** C11. The failure limit. *)
Theorem soft_shutdown_iff_limit_reached cfg s t :
  config_ok cfg -> reachable cfg s t -> (0 < cf_allowed cfg)%N ->
  (In (OSoft SoftFailures) t <-> (cf_allowed cfg <= fizzles t)%N).
Proof. intros Hok. exact (c11 cfg Hok s t). Qed.
Print Assumptions soft_shutdown_iff_limit_reached.

Theorem soft_shutdown_not_before_limit cfg s t1 t2 :
  config_ok cfg -> reachable cfg s (t1 ++ OSoft SoftFailures :: t2) -> (cf_allowed cfg <= fizzles t1)%N.
Proof. intros Hok. exact (c11_before cfg Hok s t1 t2). Qed.
Print Assumptions soft_shutdown_not_before_limit.

Theorem soft_shutdown_at_once cfg s t1 n x e t2 :
  config_ok cfg -> reachable cfg s (t1 ++ OFinished n x e :: t2) ->
  (cf_allowed cfg <= fizzles (t1 ++ [OFinished n x e]))%N ->
  exists r t3, t2 = map OReady r ++ OSoft SoftFailures :: t3.
Proof. intros Hok. exact (c11_now cfg Hok s t1 n x e t2). Qed.
Print Assumptions soft_shutdown_at_once.

Theorem nothing_ready_after_soft_shutdown cfg s t1 c t2 :
  config_ok cfg -> reachable cfg s (t1 ++ OSoft c :: t2) -> forall n, ~ In (OReady n) t2.
Proof. intros Hok. exact (c11_after cfg Hok s t1 c t2). Qed.
Print Assumptions nothing_ready_after_soft_shutdown.

(** C12, within one execute() call. *)
Theorem log_stays_well_formed cfg s t :
  config_ok cfg -> reachable cfg s t ->
  log_wf (lf_entries (sv_log (st_sv s))) /\
  exists new, new_records cfg s new /\
    Forall (fun e => match e with Header _ | Backref _ => False | _ => True end) new /\
    forall k, history k new ∈ [[]; [KReady]; [KReady; KStarted]; [KReady; KStarted; KFinished]].
Proof. intros Hok. exact (c12 cfg Hok s t). Qed.
Print Assumptions log_stays_well_formed.

(** C13. After execute() no started task is open. *)
Theorem no_open_task_after_execute cfg s t :
  config_ok cfg -> reachable cfg s t -> st_phase s = PDrained ->
  exists new, new_records cfg s new /\ forall l1 e l2, new = l1 ++ Started e :: l2 ->
    exists f, In (Finished f) l2 /\ f_key f = s_key e.
Proof. intros Hok. exact (c13 cfg Hok s t). Qed.
Print Assumptions no_open_task_after_execute.

(** C14. A Started record comes after the success records of all dependencies. *)
Theorem started_after_dependencies_in_log cfg s t :
  config_ok cfg -> reachable cfg s t -> exists new, new_records cfg s new /\
  forall l1 e l2, new = l1 ++ Started e :: l2 ->
    exists n, in_graph cfg n /\ task_key cfg n = s_key e /\
      forall m, edge (cf_g cfg) m n ->
        exists f, In (Finished f) l1 /\ f_key f = task_key cfg m /\ f_status f = 0%Z.
Proof. intros Hok. exact (c14 cfg Hok s t). Qed.
Print Assumptions started_after_dependencies_in_log.

(** C34. When the completion flag of a finish report is set, the report was processed, each
    task made ready so far is in the queues of all its runner types, and (without soft
    shutdown) that includes all tasks this completion unlocked. *)
Theorem unlocked_tasks_are_queued_before_flag cfg s t1 n f t2 :
  config_ok cfg -> reachable cfg s (t1 ++ OFlag n f :: t2) ->
  (exists c x e, In (OSentFinished c n x (Some f)) t1 /\ In (OFinished n x e) t1) /\
  (forall m i, made_ready t1 m -> i < 64 -> N.testbit (aff cfg m) (N.of_nat i) = true ->
     In (OPushed i m) t1) /\
  ((forall c, ~ In (OSoft c) t1) -> forall m, edge (cf_g cfg) n m ->
     (forall k, edge (cf_g cfg) k m -> succeeded t1 k) -> made_ready t1 m).
Proof. intros Hok. exact (c34 cfg Hok s t1 n f t2). Qed.
Print Assumptions unlocked_tasks_are_queued_before_flag.

(** ** A concrete run: a -> b, a -> c, b -> d, c -> d; c fails. *)
Definition task (k : string) (a p : N) : cmd := Cmd ["true"] k None a 0 p 0.
Definition demo_graph : digraph cmd :=
  DiGraph [task "a" 1 0; task "b" 3 1; task "c" 2 1; task "d" 1 2] [(0,1); (0,2); (1,3); (2,3)].
Definition hdr0 : log_entry := Header (HeaderEntry 4 (SysTime 0 0) "u" "h" "w" [] "/" 1 [""%string]).
Definition log0 : log_file :=
  match log_writes (LogFile empty_log_state []) [hdr0] with Some l => l | None => LogFile empty_log_state [] end.
Definition demo : config := Config demo_graph 3 [0; 1; 70] (fun n => SysTime (N.of_nat n) 0) log0.

Lemma checked_acyclic {A} (g : digraph A) :
  forallb (fun e => Nat.ltb (fst e) (snd e)) (edges g) = true -> acyclic g.
Proof.
  intros H u (k & Hk & Hp). rewrite forallb_forall in H.
  assert (forall u v k, path g u v k -> 0 < k -> u < v) as Hall.
  { clear - H. intros u v k Hp. induction Hp as [u|u v w k He Hp IH]; intros Hk; [lia|].
    apply H in He. simpl in He. apply Nat.ltb_lt in He. destruct k; [by inversion Hp; subst|]. specialize (IH ltac:(lia)). lia. }
  specialize (Hall _ _ _ Hp Hk). lia.
Qed.

Lemma checked_wf {A} (g : digraph A) :
  forallb (fun e => Nat.ltb (fst e) (node_count g) && Nat.ltb (snd e) (node_count g)) (edges g) = true -> graph_wf g.
Proof.
  intros H u v He. rewrite forallb_forall in H. apply H in He. simpl in He. apply andb_true_iff in He as [H1 H2].
  by rewrite !Nat.ltb_lt in *.
Qed.

Ltac config_ok := split; [apply checked_wf; vm_compute; reflexivity|apply checked_acyclic; vm_compute; reflexivity
  |apply (bool_decide_unpack _); vm_compute; exact I|vm_compute; reflexivity|vm_compute; reflexivity].

Ltac absent H := simpl in H; repeat (destruct H as [H|H]; [discriminate|]); exact H.

Example demo_ok : config_ok demo.
Proof. config_ok. Qed.

(** Scripts: an action, or all pending effects of the server. *)
Inductive script := Do (a : action) | Flush.
Fixpoint expand (cfg : config) (s : st) (l : list script) : list action :=
  match l with
  | [] => []
  | Do a :: l => match step cfg s a with Some (s', _) => a :: expand cfg s' l | None => [] end
  | Flush :: l =>
      let acts := repeat AInstr (length (st_todo s)) in
      match run cfg s acts with Some (s', _) => acts ++ expand cfg s' l | None => [] end
  end.
Definition take_task (c : nat) : list script := map Do [ARecv c; APop c 0; AClaim c; ACount c].
Definition finish_task (c : nat) (x : exit_status) : list script :=
  map Do [ASendStarted c "host" 7 ""; ASendFinished c x [] (Some c); AEvent 10; AEvent 20] ++ [Flush].

Definition demo_script : list script :=
  [Do (AInit [0]); Flush; Do (ARecv 2)] ++ take_task 0 ++ finish_task 0 (Code 0)
  ++ take_task 1 ++ take_task 0 ++ finish_task 0 (Code 0) ++ finish_task 1 (Code 3)
  ++ [Do (ADrop 0); Do (ADrop 1); Do (ADrain [] 30)].
Definition demo_acts := expand demo (initial demo) demo_script.

Definition demo_trace : list obs :=
  [OReady 0; OPushed 0 0; ORecvErr 2 NoSuchRunnerType; OHandedOut 0 0 0; OSentStarted 0 0;
   OSentFinished 0 0 (Code 0) (Some 0); OStarted 0; OFinished 0 (Code 0) (Some 10%N); OReady 2;
   OReady 1; OPushed 0 1; OPushed 1 2; OPushed 1 1; OFlag 0 0; OHandedOut 1 1 2; OHandedOut 0 0 1;
   OSentStarted 0 1; OSentFinished 0 1 (Code 0) (Some 0); OStarted 1;
   OFinished 1 (Code 0) (Some 10%N); OFlag 1 0; OSentStarted 1 2;
   OSentFinished 1 2 (Code 3) (Some 1); OStarted 2; OFinished 2 (Code 3) (Some 10%N);
   OExit ExitDone; OFlag 2 1].

(** The run meets the hypotheses of the theorems above: it hands out the dependent task 1 after
    task 0, task 2 fails and task 3 depends on it, it ends normally, the log is closed. *)
Example demo_run : exists s, reachable demo s demo_trace /\ st_phase s = PDrained /\
  execute_result demo s = (1%N, ["a"; "b"; "c"]) /\ quiescent s.
Proof.
  eexists. split; [exists demo_acts; vm_compute; reflexivity|]. split; [reflexivity|].
  split; [vm_compute; reflexivity|]. split; [discriminate|reflexivity].
Qed.
Example demo_facts :
  edge (cf_g demo) 0 1 /\ ended_badly demo_trace 2 /\ reaches (cf_g demo) 2 3 /\
  (forall c, ~ In (OSoft c) demo_trace) /\ failed demo_trace 2 /\ succeeded demo_trace 0.
Proof.
  split_and!.
  - left. reflexivity.
  - exists (Code 3). split; [done|]. left. exists (Some 10%N). simpl. tauto.
  - exists 1. split; [lia|]. eapply path_cons; [|apply path_nil]. do 3 right. left. reflexivity.
  - intros c H. absent H.
  - exists (Code 3). split; [|done]. exists (Some 10%N). simpl. tauto.
  - exists (Some 10%N). simpl. tauto.
Qed.

(** A prefix of it is undisturbed and quiescent with tasks ready and in flight. *)
Definition mid_script : list script :=
  [Do (AInit [0]); Flush] ++ take_task 0 ++ finish_task 0 (Code 0) ++ take_task 1.
Example demo_mid : exists s t, reachable demo s t /\ undisturbed t /\ quiescent s /\
  num_ready s 3 = 1%N /\ num_inflight s 2 = 1%N /\ num_ready s 2 = 0%N /\ st_unready s = 1%N.
Proof.
  eexists _, _. split; [exists (expand demo (initial demo) mid_script); vm_compute; reflexivity|].
  split. { split; intros c H; absent H. }
  split; [split; [discriminate|reflexivity]|]. vm_compute. auto.
Qed.

(** A hard cancel while a task runs: the drain closes it as disconnected. *)
Definition hard_script : list script :=
  [Do (AInit [0]); Flush] ++ take_task 0 ++ [Do (ASendStarted 0 "host" 7 ""); Do (AEvent 10); Do AHardCancel;
   Do AHardExit; Flush; Do (ADrop 0); Do (ADrop 1); Do (ADrop 2); Do (ADrain [0] 50)].
Example demo_hard : exists s t, reachable demo s t /\ st_phase s = PDrained /\ In (OExit ExitHard) t /\
  ended_badly t 0 /\ execute_result demo s = (1%N, []).
Proof.
  eexists _, _. split; [exists (expand demo (initial demo) hard_script); vm_compute; reflexivity|].
  split; [reflexivity|]. split; [simpl; tauto|]. split; [|vm_compute; reflexivity].
  exists Disconnected. split; [done|]. right. simpl. tauto.
Qed.

(** Failures up to the limit. *)
Definition limited : config :=
  Config (DiGraph [task "a" 1 0; task "b" 1 0; task "c" 1 0] []) 2 [0; 0; 0] (fun n => SysTime (N.of_nat n) 0) log0.
Definition limit_script : list script :=
  [Do (AInit [0; 1; 2]); Flush] ++ take_task 0 ++ finish_task 0 (Code 1) ++ take_task 1 ++ finish_task 1 Disconnected.
Example demo_limit : config_ok limited /\ exists s t, reachable limited s t /\ In (OSoft SoftFailures) t /\
  fizzles t = 2%N /\ In (OExit ExitSoft) t.
Proof.
  split; [config_ok|]. eexists _, _.
  split; [exists (expand limited (initial limited) limit_script); vm_compute; reflexivity|].
  split; [simpl; tauto|]. split; [vm_compute; reflexivity|simpl; tauto].
Qed.

(** Priorities: of two ready tasks the one with the larger priority is taken. *)
Definition prio : config :=
  Config (DiGraph [task "a" 1 4; task "b" 1 5] []) 2 [0] (fun n => SysTime (N.of_nat n) 0) log0.
Example demo_prio : config_ok prio /\ exists s t,
  reachable prio s t /\ step prio s (APop 0 0) = None /\ exists s', step prio s (APop 0 1) = Some (s', []).
Proof.
  split; [config_ok|]. eexists _, _.
  split; [exists (expand prio (initial prio) [Do (AInit [0; 1]); Flush; Do (ARecv 0)]); vm_compute; reflexivity|].
  split; [vm_compute; reflexivity|]. eexists. vm_compute. reflexivity.
Qed.

(** Refutation of C09 after a soft shutdown: a thread that claimed a task before the counters
    were reset makes num_ready wrap around. *)
Definition wrap_script : list script :=
  [Do (AInit [0]); Flush] ++ map Do [ARecv 0; APop 0 0; AClaim 0; ATriggerSoft; ASoft] ++ [Flush; Do (ACount 0)].
Theorem num_ready_exact_after_soft_shutdown_refuted :
  exists cfg s t a, config_ok cfg /\ reachable cfg s t /\ quiescent s /\ num_ready s a = 4294967295%N.
Proof.
  exists demo. eexists _, _, 1%N. split; [exact demo_ok|].
  split; [exists (expand demo (initial demo) wrap_script); vm_compute; reflexivity|].
  split; [split; [discriminate|reflexivity]|]. vm_compute. reflexivity.
Qed.
Print Assumptions num_ready_exact_after_soft_shutdown_refuted.
