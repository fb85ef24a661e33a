(** Properties of whole histories of sessions on one log: C05 (second half), C12, C18-C23,
    C27, C41, C47, C50, C51. Vocabulary: SessionSpec.v, ExecSpec.v, LogSpec.v. *)
From Verif Require Import SessionDemo.

(** C12. The log of any history consists, key by key, of attempts Ready, Started, Finished. *)
Theorem records_follow_attempts h w :
  possible h w -> log_wf (w_file w) /\ log_wf (current_log w).
Proof. intros Hh. destruct (possible_good _ _ Hh) as [H1 H2]. split; [apply (g_wf _ H1)|apply (g_wf _ H2)]. Qed.
Print Assumptions records_follow_attempts.

(** C18. All headers of the log of any history carry one workflow key; what is in the file
    stays there, so later sessions use the same; opening the log of any history works. *)
Theorem one_workflow_key h w h1 h2 :
  possible h w -> In (Header h1) (current_log w) -> In (Header h2) (current_log w) ->
  h_workflow_key h1 = h_workflow_key h2.
Proof. intros Hh. destruct (possible_good _ _ Hh) as [_ H]. apply (g_headers _ H). Qed.
Print Assumptions one_workflow_key.

Theorem log_only_grows h w h' w' :
  possible h w -> whistory w h' w' -> exists new, w_file w' = w_file w ++ new.
Proof. intros Hh. apply durable. by eapply possible_inv. Qed.
Print Assumptions log_only_grows.

Theorem reopening_never_fails h w : possible h w -> ~ In HOpenFailed h.
Proof. exact (open_never_fails h w). Qed.
Print Assumptions reopening_never_fails.

(** C19. Started attempts have smaller run counts than all later attempts of the same task, if
    no session executes more than once. (What run count a task gets: [add_task_exact].) *)
Theorem run_counts_increase h w k :
  possible h w -> one_execute_each h -> counts_increase k (w_file w) /\ counts_increase k (current_log w).
Proof.
  intros Hh Ho. destruct (possible_good _ _ Hh) as [H1 H2]. split.
  - apply (g_counts _ H1 k (w_file w) []); [by rewrite app_nil_r|]. apply (sl_ready _ (once_file _ _ Hh Ho)).
  - apply (g_counts _ H2 k (current_log w) []); [by rewrite app_nil_r|]. apply (sl_ready _ (possible_simple _ _ Hh Ho)).
Qed.
Print Assumptions run_counts_increase.

(** C20. Once a success is in the file, no task with its key is ever part of an execution, and
    no further Ready, Started or Finished record of it is written. *)
Theorem success_is_final h w h' w' l1 f l2 :
  possible h w -> w_file w = l1 ++ Finished f :: l2 -> f_status f = 0%Z -> whistory w h' w' ->
  (exists new, w_file w' = w_file w ++ new /\ no_record (f_key f) new) /\
  forall ev tg cfg t n, In ev h' -> execution ev = Some (tg, cfg, t) -> in_graph cfg n -> task_key cfg n <> f_key f.
Proof. exact (success_final h w h' w' l1 f l2). Qed.
Print Assumptions success_is_final.

(** C20. Between two Backrefs to the same key there is a header. *)
Theorem backref_once_per_session h w l1 b l2 b' l3 :
  possible h w -> current_log w = l1 ++ Backref b :: l2 ++ Backref b' :: l3 -> b_key b = b_key b' -> has_header l2.
Proof. intros Hh E. destruct (possible_good _ _ Hh) as [_ H]. exact (g_backref _ H l1 (Backref b) l2 (Backref b') l3 E). Qed.
Print Assumptions backref_once_per_session.

(** C20, C21, C22. What a call of execute() runs, exactly: the selected tasks, with all their
    dependencies on each other. And for which keys it logs a Backref. *)
Theorem execute_runs_exactly h w p ev w' tg cfg t :
  possible h w -> w_proc w = Some p -> wstep w ev w' -> execution ev = Some (tg, cfg, t) ->
  exists ids bs, runs_part (deps (p_graph p)) ids (cf_g cfg) /\
    (forall n, In n ids <-> selected (deps (p_graph p)) tg (done_here h (current_log w)) (current_log w) (p_rerun p) n) /\
    lf_entries (cf_log cfg) = current_log w ++ map (fun k => Backref (BackrefEntry k)) bs /\ NoDup bs /\
    (forall k, In k bs <-> reused (deps (p_graph p)) tg (done_here h (current_log w)) (current_log w) (p_rerun p) k).
Proof. exact (execute_selects h w p ev w' tg cfg t). Qed.
Print Assumptions execute_runs_exactly.

(** The configuration given to the scheduler satisfies what its theorems assume, so that they
    apply to every execution of every history. *)
Theorem executions_are_scheduler_runs h w ev w' tg cfg t :
  possible h w -> wstep w ev w' -> execution ev = Some (tg, cfg, t) ->
  config_ok cfg /\ (node_count (cf_g cfg) <> 0 -> exists s, reachable cfg s t).
Proof. exact (execute_config_ok h w ev w' tg cfg t). Qed.
Print Assumptions executions_are_scheduler_runs.

(** C21. Without rerun_failures, no task is run whose latest attempt failed. *)
Theorem failures_not_rerun h w p ev w' tg cfg t n :
  possible h w -> w_proc w = Some p -> p_rerun p = false -> wstep w ev w' -> execution ev = Some (tg, cfg, t) ->
  in_graph cfg n -> ~ log_failure (current_log w) (task_key cfg n).
Proof.
  intros Hh Hp Hr Hs Hev Hn. destruct (execute_selects _ _ _ _ _ _ _ _ Hh Hp Hs Hev) as (ids & bs & (_ & Hl & Hc & _) & Hsel & _).
  unfold in_graph in Hn. destruct (lookup_lt_is_Some_2 ids n) as [v Hv]; [lia|]. destruct (Hc _ _ Hv) as (c & c' & Hc1 & Hc2 & Hst).
  destruct (proj1 (Hsel v)) as [Hcand Hf]; [apply elem_of_list_In; by eapply elem_of_list_lookup_2|].
  apply (Hf Hr v); [by apply via_nil|]. exists c. split; [done|]. unfold task_key. rewrite Hc2. apply Hst.
Qed.
Print Assumptions failures_not_rerun.

(** C22. A target that is not a task selects nothing. *)
Theorem unknown_target_runs_nothing h w p ev w' i cfg t :
  possible h w -> w_proc w = Some p -> wstep w ev w' -> execution ev = Some (Some i, cfg, t) ->
  length (nodes (deps (p_graph p))) <= i -> nodes (cf_g cfg) = [].
Proof.
  intros Hh Hp Hs Hev Hi. destruct (execute_selects _ _ _ _ _ _ _ _ Hh Hp Hs Hev) as (ids & bs & (_ & Hl & _ & _) & Hsel & _).
  pose proof (possible_inv _ _ Hh) as [_ Hinv]. rewrite Hp in Hinv. pose proof (gk_wf _ (pi_graph _ _ Hinv)) as Hwf.
  destruct ids as [|v ids]; [by destruct (nodes (cf_g cfg))|]. exfalso.
  destruct (proj1 (Hsel v)) as [[[Hlt Hc] _] _]; [by left|]. destruct Hc as [->|(k & Hk & Hpath)]; [lia|].
  assert (i < length (nodes (deps (p_graph p)))); [|lia]. clear - Hpath Hk Hwf. induction Hpath as [u|u x y k He Hpath IH]; [lia|].
  destruct k; [|apply IH; lia]. inversion Hpath; subst. by apply Hwf in He as [_ ?].
Qed.
Print Assumptions unknown_target_runs_nothing.

(** C05, second half. The priority of a task that is run is the number of edges of a longest
    path of dependencies that ends in it, in the graph of all tasks added so far. *)
Theorem priority_is_longest_path h w p ev w' tg cfg t :
  possible h w -> w_proc w = Some p -> wstep w ev w' -> execution ev = Some (tg, cfg, t) ->
  exists ids, runs_part (deps (p_graph p)) ids (cf_g cfg) /\
    forall i n c, ids !! i = Some n -> nodes (cf_g cfg) !! i = Some c ->
      exists l, c_priority c = N.of_nat l /\ longest_path_to (deps (p_graph p)) n l.
Proof. exact (execute_priorities h w p ev w' tg cfg t). Qed.
Print Assumptions priority_is_longest_path.

(** C23, C19. The effect of add_task in any situation. [o] is what the log says about the key.
    A panic happens only if the log says that the key succeeded and the newest header lacks
    the recorded storage root. *)
Theorem add_task_exact h w p cmdline key ds disp aff sr e r o :
  possible h w -> w_proc w = Some p -> status_in (current_log w) key o ->
  py_add_task (p_graph p) cmdline key ds disp aff sr = (e, r) ->
  match r with
  | AddOk n =>
      (task_has_key (deps (p_graph p)) n key /\ e = p_graph p) \/
      ((forall m, ~ task_has_key (deps (p_graph p)) m key) /\
       n = length (nodes (deps (p_graph p))) /\ cmdline <> [] /\ (forall d, In d ds -> d < n) /\
       nodes (deps e) = nodes (deps (p_graph p)) ++ [Cmd cmdline key disp aff (next_runcount o) 0 sr] /\
       (forall u v, edge (deps e) u v <-> edge (deps (p_graph p)) u v \/ (v = n /\ In u ds)))
  | AddErrEmptyCmdline => e = p_graph p /\ cmdline = []
  | AddErrInvalidDependency => e = p_graph p /\ exists d, In d ds /\ length (nodes (deps (p_graph p))) <= d
  | AddPanicNoStorageRoot => e = p_graph p /\ exists c i, o = Some (RFinished c i true) /\
      forall hd, last_header (current_log w) (Some hd) -> h_storage_roots hd !! N.to_nat i = None
  end /\ logfile e = logfile (p_graph p).
Proof. exact (add_effect h w p cmdline key ds disp aff sr e r o). Qed.
Print Assumptions add_task_exact.

(** C23. In every situation, dependencies point to earlier tasks, keys are unique, and the key
    table knows exactly the tasks. *)
Theorem graph_always_ok h w p : possible h w -> w_proc w = Some p ->
  (forall u v, edge (deps (p_graph p)) u v -> u < v < length (nodes (deps (p_graph p)))) /\
  NoDup (map c_key (nodes (deps (p_graph p)))) /\
  (forall k n, key_to_nodeid (p_graph p) !! k = Some n <-> task_has_key (deps (p_graph p)) n k).
Proof.
  intros Hh Hp. pose proof (possible_inv _ _ Hh) as [_ Hi]. rewrite Hp in Hi. destruct (pi_graph _ _ Hi) as [H1 H2 H3 H4].
  split_and!; try done. intros u v He. split; [by apply H2|]. by apply H1 in He as [_ ?].
Qed.
Print Assumptions graph_always_ok.

(** C23. As long as the process lives its tasks keep index, dependencies and everything else
    but the priority. *)
Theorem tasks_never_change h w h' w' p p' :
  possible h w -> whistory w h' w' -> (forall a, ~ In (HOpened a) h') -> w_proc w = Some p -> w_proc w' = Some p' ->
  (forall n c, nodes (deps (p_graph p)) !! n = Some c ->
     exists c', nodes (deps (p_graph p')) !! n = Some c' /\ same_task c c') /\
  (forall u v, v < length (nodes (deps (p_graph p))) ->
     edge (deps (p_graph p')) u v <-> edge (deps (p_graph p)) u v).
Proof. exact (tasks_stable h w h' w' p p'). Qed.
Print Assumptions tasks_never_change.

(** C27. The snapshot of the log of any history can be read. *)
Theorem snapshot_never_fails h w :
  possible h w -> exists r, read_current_and_outdated (w_file w) = Some r.
Proof. exact (snapshot_works h w). Qed.
Print Assumptions snapshot_never_fails.

(** C27. If no session executes more than once: of a key referred to by a Backref of the last
    session, current holds exactly the latest attempt, which is complete; *)
Theorem current_holds_reused_attempt h w older hd seg cur out k :
  possible h w -> one_execute_each h -> last_segment (w_file w) older hd seg ->
  read_current_and_outdated (w_file w) = Some (cur, out) -> In k (backref_keys seg) ->
  exists r s f, List.filter (fun e => match record_of k e with Some _ => true | None => false end) cur
      = [Ready r; Started s; Finished f] /\
    latest_attempts [k] older = [Ready r; Started s; Finished f].
Proof. exact (snapshot_reused h w older hd seg cur out k). Qed.
Print Assumptions current_holds_reused_attempt.

(** ... of any other key, exactly the records of the last session. *)
Theorem current_holds_last_session h w older hd seg cur out k :
  possible h w -> last_segment (w_file w) older hd seg ->
  read_current_and_outdated (w_file w) = Some (cur, out) -> ~ In k (backref_keys seg) ->
  List.filter (fun e => match record_of k e with Some _ => true | None => false end) cur =
  List.filter (fun e => match record_of k e with Some _ => true | None => false end) seg.
Proof. exact (snapshot_run h w older hd seg cur out k). Qed.
Print Assumptions current_holds_last_session.

(** C50. A task whose finish report was processed by an earlier execute() of the same process
    is in no later execution of this process. *)
Theorem finished_not_repeated h1 tg cfg t r h2 ev w tg' cfg' t' n m :
  possible (h1 ++ HExecuted tg cfg t r :: h2 ++ [ev]) w -> (forall a, ~ In (HOpened a) h2) ->
  finished t n -> execution ev = Some (tg', cfg', t') -> in_graph cfg' m ->
  task_key cfg' m <> task_key cfg n.
Proof. exact (not_repeated h1 tg cfg t r h2 ev w tg' cfg' t' n m). Qed.
Print Assumptions finished_not_repeated.

(** C51. From end to end: in the first execute() of a session, when a task is handed out, each
    of the tasks it was declared to depend on has succeeded, in this call or as recorded. *)
Theorem dependencies_have_succeeded h w p s ev w' tg cfg t1 c i n t2 u v k :
  possible h w -> w_proc w = Some p -> this_session h s -> executes_in s = 0 ->
  wstep w ev w' -> execution ev = Some (tg, cfg, t1 ++ OHandedOut c i n :: t2) -> in_graph cfg n ->
  task_has_key (deps (p_graph p)) v (task_key cfg n) ->
  edge (deps (p_graph p)) u v -> task_has_key (deps (p_graph p)) u k ->
  log_success (current_log w) k \/ exists m, in_graph cfg m /\ task_key cfg m = k /\ succeeded t1 m.
Proof.
  intros Hh Hp Hs He Hst Hev Hn Hv Huv Hu.
  destruct (handed_out_needs _ _ _ _ _ _ _ _ _ _ _ _ _ _ _ _ Hh Hp Hst Hev eq_refl Hn Huv Hv Hu) as [?|[Hd|?]]; [by left| |by right].
  by apply (done_fresh _ _ _ _ Hh Hp Hs He) in Hd.
Qed.
Print Assumptions dependencies_have_succeeded.

(** C51, any execute(): otherwise the dependency was dealt with earlier in this session. *)
Theorem dependencies_were_dealt_with h w p ev w' tg cfg t1 c i n t2 u v k :
  possible h w -> w_proc w = Some p ->
  wstep w ev w' -> execution ev = Some (tg, cfg, t1 ++ OHandedOut c i n :: t2) -> in_graph cfg n ->
  task_has_key (deps (p_graph p)) v (task_key cfg n) ->
  edge (deps (p_graph p)) u v -> task_has_key (deps (p_graph p)) u k ->
  log_success (current_log w) k \/ done_here h (current_log w) k \/
  exists m, in_graph cfg m /\ task_key cfg m = k /\ succeeded t1 m.
Proof. intros Hh Hp Hst Hev Hn Hv Huv Hu. by eapply handed_out_needs. Qed.
Print Assumptions dependencies_were_dealt_with.

(** C47. The recorded location is right if later sessions only append storage roots (exactly
    when it is right: [location_right_iff]; that it can be wrong: the refutation below). *)
Theorem recorded_location_if_appended h w p k c i pre hd mid r post hd' more root :
  possible h w -> w_proc w = Some p -> status_in (current_log w) k (Some (RFinished c i true)) ->
  current_log w = pre ++ Header hd :: mid ++ Ready r :: post -> (forall h, ~ In (Header h) mid) ->
  r_key r = k -> (forall r', In (Ready r') post -> r_key r' <> k) ->
  last_header (current_log w) (Some hd') -> h_storage_roots hd' = h_storage_roots hd ++ more ->
  h_storage_roots hd !! N.to_nat (r_storage_root r) = Some root ->
  logfile_runcount (lf_state (logfile (p_graph p))) k = Some (r_runcount r, Some root).
Proof.
  intros Hh Hp Hst E Hmid Hk Hpost Hl Hmore Hroot. pose proof (possible_inv _ _ Hh) as [_ Hi]. rewrite Hp in Hi.
  unfold current_log in *. rewrite Hp in *. eapply (root_kept _ _ k c i pre hd mid r post hd' more root (pi_log _ _ Hi) eq_refl); try done.
  eapply status_in_unique; [apply (log_ok_status _ k (pi_log _ _ Hi))|exact Hst].
Qed.
Print Assumptions recorded_location_if_appended.

(** C41. The displayed command. *)
Theorem display_explicit c s : c_display c = Some s -> display c = s.
Proof. unfold display. by intros ->. Qed.

Theorem display_exact c :
  c_display c = None -> forall ps, proper ps -> text_of ps = joined (c_cmdline c) ->
  chars (display c) = shown_of ps.
Proof.
  intros Hd ps Hp Ht. unfold display. rewrite Hd.
  destruct (replace_escapes_spec (join_args (c_cmdline c))) as (qs & Hq & Ht' & Hs). rewrite <- Hs. f_equal.
  apply proper_unique; try done. by rewrite Ht, Ht', joined_spec.
Qed.
Print Assumptions display_exact.

Theorem display_has_no_tab_or_escape c :
  c_display c = None ->
  ~ In tab (chars (display c)) /\ forall a b, chars (display c) <> a ++ "\"%char :: newline :: b.
Proof.
  intros Hd. unfold display. rewrite Hd.
  destruct (replace_escapes_spec (join_args (c_cmdline c))) as (qs & Hq & _ & Hs). rewrite <- Hs.
  split; [by apply shown_no_tab|by apply shown_no_escape].
Qed.
Print Assumptions display_has_no_tab_or_escape.

Theorem display_unchanged c :
  c_display c = None -> ~ In tab (joined (c_cmdline c)) ->
  (forall a b, joined (c_cmdline c) <> a ++ "\"%char :: newline :: b) ->
  chars (display c) = joined (c_cmdline c).
Proof.
  intros Hd Ht He. unfold display. rewrite Hd.
  destruct (replace_escapes_spec (join_args (c_cmdline c))) as (qs & Hq & Ht' & Hs). rewrite <- Hs, <- joined_spec, <- Ht'.
  rewrite <- joined_spec, <- Ht' in Ht. apply shown_unchanged; [done|]. intros a b. rewrite Ht', joined_spec. apply He.
Qed.
Print Assumptions display_unchanged.

(** ** Concrete histories *)
(** Two sessions: b fails in the first and is run again in the second, a is reused. *)
Definition rerun_history : list call :=
  [open_with "w" ["r"] true; add "a" []; add "b" [0]; CExecute None [0] (run_tasks [0] [Code 0; Code 1] stop); CClose;
   open_with "x" ["r"; "s"] true; add "a" []; add "b" [0]; CExecute (Some 1) [0] (run_tasks [0] [Code 0] stop); CClose].

Example rerun_possible : exists h w, do_calls (World [] None) rerun_history = Some (h, w) /\
  possible h w /\ one_execute_each h /\ w_proc w = None /\
  map (fun e => match e with Header _ => ("header"%string, 0%N) | Backref b => (b_key b, 100%N)
     | Ready r => (r_key r, r_runcount r) | Started s => (s_key s, 101%N) | Finished f => (f_key f, Z.to_N (102 + f_status f)) end)
   (w_file w) =
  [("header", 0); ("a", 0); ("a", 101); ("b", 0); ("a", 102); ("b", 101); ("b", 103);
   ("header", 0); ("a", 100); ("b", 1); ("b", 101); ("b", 102)]%string%N.
Proof.
  eexists _, _. split; [vm_compute; reflexivity|]. split; [apply (do_calls_possible rerun_history); vm_compute; reflexivity|].
  split; [apply one_execute_checked; vm_compute; lia|]. split; [reflexivity|]. vm_compute. reflexivity.
Qed.

(** It meets the hypotheses of the theorems about a call of execute() and about snapshots: the
    second session executes with an open process, a target, a reused and a rerun task; a
    success is in the file, and b is handed out. *)
Example rerun_execute : exists h w p ev w' cfg t1 c i t2,
  possible h w /\ w_proc w = Some p /\ wstep w ev w' /\ execution ev = Some (Some 1, cfg, t1 ++ OHandedOut c i 0 :: t2) /\
  in_graph cfg 0 /\ task_key cfg 0 = "b" /\ (exists s, this_session h s /\ executes_in s = 0) /\
  edge (deps (p_graph p)) 0 1 /\ task_has_key (deps (p_graph p)) 1 "b" /\ task_has_key (deps (p_graph p)) 0 "a" /\
  (exists l1 f l2, w_file w = l1 ++ Finished f :: l2 /\ f_status f = 0%Z /\ f_key f = "a").
Proof.
  pose (cs := take 8 rerun_history). pose (c9 := CExecute (Some 1) [0] (run_tasks [0] [Code 0] stop)).
  pose (x := config_of (did (ran cs).2 c9).1).
  exists (ran cs).1, (ran cs).2, (proc_of (ran cs).2), (did (ran cs).2 c9).1, (did (ran cs).2 c9).2, x.1, (take 2 x.2), 0, 0, (drop 3 x.2).
  split; [apply ran_possible; vm_compute; reflexivity|]. split; [apply proc_of_some; vm_compute; reflexivity|].
  split; [apply did_step; vm_compute; reflexivity|]. split; [vm_compute; reflexivity|].
  split; [vm_compute; lia|]. split; [vm_compute; reflexivity|]. split.
  { exists (drop 6 (ran cs).1). split; [|vm_compute; reflexivity]. eexists (take 5 (ran cs).1), _. split; [vm_compute; reflexivity|].
    intros a' H. vm_compute in H. intuition discriminate. }
  split; [vm_compute; tauto|]. split; [eexists; split; vm_compute; reflexivity|]. split; [eexists; split; vm_compute; reflexivity|].
  eexists [_; _; _; _], _, _. split; [vm_compute; reflexivity|]. done.
Qed.

Example rerun_snapshot : exists h w older hd seg cur out,
  possible h w /\ one_execute_each h /\ last_segment (w_file w) older (Some hd) seg /\
  read_current_and_outdated (w_file w) = Some (cur, out) /\ In "a" (backref_keys seg) /\ ~ In "b" (backref_keys seg) /\
  length cur = 7 /\ length out = 1.
Proof.
  eexists _, _, [_; _; _; _; _; _; _], _, _, _, _. split; [apply (do_calls_possible rerun_history); vm_compute; reflexivity|].
  split; [apply one_execute_checked; vm_compute; lia|].
  split.
  { split; [|split; [eexists; reflexivity|reflexivity]].
    simpl. intros e H [h He]. subst e. intuition discriminate. }
  split; [vm_compute; reflexivity|]. vm_compute. intuition discriminate.
Qed.

(** The storage roots are appended to, and the location of a is right. *)
Example rerun_location : exists h w p pre hd mid r post hd',
  possible h w /\ w_proc w = Some p /\ current_log w = pre ++ Header hd :: mid ++ Ready r :: post /\ mid = [] /\ r_key r = "a" /\
  last_header (current_log w) (Some hd') /\ h_storage_roots hd' = h_storage_roots hd ++ ["s"] /\
  h_storage_roots hd !! N.to_nat (r_storage_root r) = Some "r" /\
  logfile_runcount (lf_state (logfile (p_graph p))) "a" = Some (r_runcount r, Some "r").
Proof.
  pose (cs := take 7 rerun_history).
  eexists (ran cs).1, (ran cs).2, (proc_of (ran cs).2), [], _, [], _, _, _. split; [apply ran_possible; vm_compute; reflexivity|].
  split; [apply proc_of_some; vm_compute; reflexivity|]. split; [vm_compute; reflexivity|]. split; [done|]. split; [reflexivity|].
  split; [eexists [_; _; _; _; _; _; _], []; split; [vm_compute; reflexivity|by intros h' []]|]. split; [reflexivity|]. split; vm_compute; reflexivity.
Qed.

(** ** Refutations *)
(** C19 without its restriction: after an interrupted execute() a second one in the same process
    starts the task again with the same run count. *)
Definition interrupted_history : list call :=
  [open_with "w" ["r"] true; add "a" []; CExecute None [0] (run_tasks [0] [] (take_task 0 ++ interrupted (Code 1)));
   CExecute None [0] (run_tasks [0] [Code 1] stop)].
Theorem run_counts_increase_refuted :
  exists h w k, possible h w /\ ~ counts_increase k (w_file w).
Proof.
  eexists _, _, "a"%string. split; [apply (do_calls_possible interrupted_history); vm_compute; reflexivity|].
  cbn [w_file]. intros H. enough (0 < 0)%N by lia.
  refine (H [_] _ [] _ [_] _ [_; _] eq_refl eq_refl _ eq_refl eq_refl). intros e [].
Qed.
Print Assumptions run_counts_increase_refuted.

(** C51 without its restriction: the second execute() of a process runs a task although its only
    dependency failed. *)
Definition failed_history : list call :=
  [open_with "w" ["r"] true; add "a" []; add "b" [0]; CExecute None [0] (run_tasks [0] [Code 1] stop)].
Theorem dependencies_have_succeeded_refuted :
  exists h w p ev w' cfg t c i n u v k, possible h w /\ w_proc w = Some p /\ wstep w ev w' /\
    execution ev = Some (None, cfg, t) /\ In (OHandedOut c i n) t /\ in_graph cfg n /\
    task_has_key (deps (p_graph p)) v (task_key cfg n) /\ edge (deps (p_graph p)) u v /\
    task_has_key (deps (p_graph p)) u k /\ log_failure (current_log w) k /\
    forall m, in_graph cfg m -> task_key cfg m <> k.
Proof.
  pose (cs := failed_history). pose (c9 := CExecute None [0] (run_tasks [0] [Code 0] stop)).
  pose (x := config_of (did (ran cs).2 c9).1).
  exists (ran cs).1, (ran cs).2, (proc_of (ran cs).2), (did (ran cs).2 c9).1, (did (ran cs).2 c9).2, x.1, x.2, 0, 0, 0, 0, 1, "a"%string.
  split; [apply ran_possible; vm_compute; reflexivity|]. split; [apply proc_of_some; vm_compute; reflexivity|].
  split; [apply did_step; vm_compute; reflexivity|].
  split; [vm_compute; reflexivity|]. split; [vm_compute; tauto|]. split; [vm_compute; lia|].
  split; [eexists; split; vm_compute; reflexivity|]. split; [vm_compute; tauto|]. split; [eexists; split; vm_compute; reflexivity|]. split.
  - exists 0%N, 0%N. eexists [_], _, [], _, [], _, []. split; [vm_compute; reflexivity|].
    repeat split; try done; intros e [].
  - intros m Hm. vm_compute in Hm. assert (m = 0) as -> by lia. vm_compute. discriminate.
Qed.
Print Assumptions dependencies_have_succeeded_refuted.

(** C27 without its restriction: a success that was recorded while an interrupted execute() was
    closing the log gets a Backref from the next execute(), and then current holds an outdated
    attempt besides the latest one. *)
Definition stale_history : list call :=
  [open_with "w" ["r"] true; add "a" []; CExecute None [0] (run_tasks [0] [Code 1] stop); CClose;
   open_with "w" ["r"] true; add "a" []; CExecute None [0] (run_tasks [0] [] (take_task 0 ++ interrupted (Code 0)));
   CExecute None [0] []; CClose].
Theorem current_holds_reused_attempt_refuted :
  exists h w cur out r r', possible h w /\ read_current_and_outdated (w_file w) = Some (cur, out) /\
    In (Ready r) cur /\ In (Ready r') cur /\ r_key r = r_key r' /\ r_runcount r <> r_runcount r'.
Proof.
  eexists _, _, _, _, _, _. split; [apply (do_calls_possible stale_history); vm_compute; reflexivity|].
  split; [vm_compute; reflexivity|]. split; [right; left; reflexivity|]. split; [do 4 right; left; reflexivity|]. done.
Qed.
Print Assumptions current_holds_reused_attempt_refuted.

(** C47: when a later session gives other storage roots, the recorded location is wrong; when
    it gives fewer, adding the task panics. *)
Definition moved_history (rts : list string) : list call :=
  [open_with "w" ["r"; "s"] true; CAdd ["true"] "a" [] None 1 1;
   CExecute None [0] (run_tasks [0] [Code 0] stop); CClose; open_with "w" rts true; CAdd ["true"] "a" [] None 1 0].
Theorem recorded_location_refuted :
  exists h w p pre hd mid r post root root', possible h w /\ w_proc w = Some p /\
    current_log w = pre ++ Header hd :: mid ++ Ready r :: post /\ (forall h, ~ In (Header h) mid) /\
    (forall r', In (Ready r') post -> r_key r' <> r_key r) /\
    h_storage_roots hd !! N.to_nat (r_storage_root r) = Some root /\
    logfile_runcount (lf_state (logfile (p_graph p))) (r_key r) = Some (r_runcount r, Some root') /\ root <> root'.
Proof.
  pose (cs := moved_history ["x"; "y"]).
  eexists (ran cs).1, (ran cs).2, (proc_of (ran cs).2), [], _, [], _, _, _, _. split; [apply ran_possible; vm_compute; reflexivity|].
  split; [apply proc_of_some; vm_compute; reflexivity|]. split; [vm_compute; reflexivity|]. split; [by intros h []|].
  split; [simpl; intros r' H; intuition discriminate|]. split; [reflexivity|]. split; [vm_compute; reflexivity|]. discriminate.
Qed.
Print Assumptions recorded_location_refuted.

Theorem add_task_can_panic_refuted :
  exists h w, possible h w /\ In (HAdded "a" AddPanicNoStorageRoot) h.
Proof.
  eexists _, _. split; [apply (do_calls_possible (moved_history ["x"])); vm_compute; reflexivity|]. vm_compute. tauto.
Qed.
Print Assumptions add_task_can_panic_refuted.

(** A command line with a tab and an escaped newline. *)
Example display_demo :
  display (Cmd ["a" +:+ String tab ""; "b" +:+ String backslash (String newline "c")] "k" None 1 0 0 0)
  = ("a" +:+ String backslash "t b c")%string.
Proof. vm_compute. reflexivity. Qed.
