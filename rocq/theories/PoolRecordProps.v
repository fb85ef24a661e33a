(** C72, down to the processes of local runners. Vocabulary: PoolSpec.v, RecordSpec.v, PoolRecordSpec.v. *)
From Verif Require Import RecordOpen PoolRecord PoolProps RecordProofs RecordProps SchedTrace SchedProofs SchedProps.
From Coq Require Import Lia.
From stdpp Require Import prelude gmap.
Local Open Scope nat_scope.

(** Each report of a local loop was true when it was made: it says that a process was spawned, with its number, or that none could be; or how the process
    ended, with the values that it had written. *)
Theorem local_reports_true cfg num_parallel acts p t : config_ok cfg -> execution cfg num_parallel acts p t ->
  exists sacts, run cfg (initial cfg) sacts = Some (po_sched p, tracker_part t) /\
    forall c r, (c, r) ∈ reports cfg (initial cfg) sacts -> c < length (local_types num_parallel) -> exists t1 t2, t = t1 ++ t2 /\ local_truth t1 c r.
Proof.
  intros Hok He. destruct (execution_pi _ _ _ _ _ Hok He) as [Hl _]. destruct He as [_ Hr]. destruct (src_run cfg Hok _ acts Hl p t Hr) as (sacts & H1 & H2 & _). by exists sacts.
Qed.
Print Assumptions local_reports_true.

(** The other reports, and where reports are seen. *)
Lemma report_seen cfg sacts : forall s s' t c n x v, run cfg s sacts = Some (s', t) -> (c, Ended n x v) ∈ reports cfg s sacts -> exists f, In (OSentFinished c n x f) t.
Proof.
  induction sacts as [|a sacts IH]; intros s s' t c n x v H X; cbn [run reports] in *; [by apply elem_of_nil in X|].
  destruct (step cfg s a) as [[s1 t1]|] eqn:E; [|done]. destruct (run cfg s1 sacts) as [[s2 t2]|] eqn:E2; [|done]. injection H as <- <-. apply elem_of_app in X as [X|X].
  - destruct a; cbn [tells] in X; try (by apply elem_of_nil in X); cbn [step] in E; (destruct (st_clients s !! _) as [[]|]; try (by apply elem_of_nil in X));
      apply elem_of_list_singleton in X; injection X; intros; subst; try done; injection E as <- <-; eexists; apply in_or_app; left; left; reflexivity.
  - destruct (IH _ _ _ _ _ _ _ E2 X) as [f Hf]. exists f. apply in_or_app. by right.
Qed.
Lemma begun_seen cfg sacts : forall s s' t c n h q j, run cfg s sacts = Some (s', t) -> (c, Begun n h q j) ∈ reports cfg s sacts -> In (OSentStarted c n) t.
Proof.
  induction sacts as [|a sacts IH]; intros s s' t c n h q j H X; cbn [run reports] in *; [by apply elem_of_nil in X|].
  destruct (step cfg s a) as [[s1 t1]|] eqn:E; [|done]. destruct (run cfg s1 sacts) as [[s2 t2]|] eqn:E2; [|done]. injection H as <- <-. apply elem_of_app in X as [X|X].
  - destruct a; cbn [tells] in X; try (by apply elem_of_nil in X); cbn [step] in E; (destruct (st_clients s !! _) as [[]|]; try (by apply elem_of_nil in X));
      apply elem_of_list_singleton in X; injection X; intros; subst; try done; injection E as <- <-; apply in_or_app; left; left; reflexivity.
  - apply in_or_app. right. by eapply IH.
Qed.

(** A line about the end of a task has the status and the values of the process that a local loop had spawned for it (or says that there was none, or that it
    was cancelled); or a client that is no local loop reported it; or it was written in the clean-up for a task that was reported begun. *)
Theorem local_finished_line_true cfg num_parallel acts p t k z v : config_ok cfg -> execution cfg num_parallel acts p t ->
  LFinished k z v ∈ new_lines cfg (po_sched p) -> exists n, k = task_key cfg n /\
   ((exists c s t1 t2, c < length (local_types num_parallel) /\ t = t1 ++ t2 /\ outcome t1 c n s v /\ z = as_i32 s) \/
    (exists c s f, length (local_types num_parallel) <= c /\ In (PO (OSentFinished c n s f)) t /\ z = as_i32 s) \/
    (st_phase (po_sched p) = PDrained /\ z = (-1)%Z /\ v = [] /\ exists c, In (PO (OSentStarted c n)) t)).
Proof.
  intros Hok He X. destruct (local_reports_true _ _ _ _ _ Hok He) as (sacts & H1 & H2).
  destruct (finished_line_true _ _ _ _ _ _ _ Hok H1 X) as (n & -> & [(c & s & Y & ->)|(Hp & -> & -> & a & h & q & j & b & E & _)]); exists n; (split; [done|]).
  - destruct (le_lt_dec (length (local_types num_parallel)) c) as [L|L].
    + right. left. destruct (report_seen _ _ _ _ _ _ _ _ _ H1 Y) as [f Hf]. exists c, s, f. split; [done|]. split; [|done]. by apply elem_of_list_In, tracker_in, elem_of_list_In.
    + left. destruct (H2 _ _ Y L) as (t1 & t2 & -> & Ho). by exists c, s, t1, t2.
  - right. right. split; [done|]. split; [done|]. split; [done|].
    assert (Begun n h q j ∈ map snd (reports cfg (initial cfg) sacts)) as Y by (rewrite E; apply elem_of_app; right; by left). apply in_snd in Y as (c & Y).
    exists c. apply elem_of_list_In, tracker_in, elem_of_list_In. by eapply begun_seen.
Qed.
Print Assumptions local_finished_line_true.

(** The process in a line about a beginning is one that a local loop had spawned for the task, or it is 0 and none could be spawned; or a client that is no local
    loop reported it; or the line was written for an end that was reported without a beginning, or in the clean-up. *)
Theorem local_started_line_true cfg num_parallel acts p t k h q j : config_ok cfg -> execution cfg num_parallel acts p t ->
  LStarted k h q j ∈ new_lines cfg (po_sched p) -> exists n, k = task_key cfg n /\
   ((exists c t1 t2, c < length (local_types num_parallel) /\ t = t1 ++ t2 /\ j = ""%string /\
       ((exists start, In (PSpawned c n q start) t1) \/ q = 0%N /\ ~ spawned_task t1 n)) \/
    (exists c, length (local_types num_parallel) <= c /\ In (PO (OSentStarted c n)) t) \/
    (h = ""%string /\ q = 0%N /\ j = ""%string) \/
    (st_phase (po_sched p) = PDrained /\ h = "host"%string /\ q = 0%N /\ j = ""%string)).
Proof.
  intros Hok He X. destruct (local_reports_true _ _ _ _ _ Hok He) as (sacts & H1 & H2).
  destruct (started_line_true _ _ _ _ _ _ _ _ Hok H1 X) as (n & -> & [(c & Y)|[(-> & -> & -> & _)|(Hp & -> & -> & -> & _)]]); exists n; (split; [done|]).
  - destruct (le_lt_dec (length (local_types num_parallel)) c) as [L|L].
    + right. left. exists c. split; [done|]. apply elem_of_list_In, tracker_in, elem_of_list_In. by eapply begun_seen.
    + left. destruct (H2 _ _ Y L) as (t1 & t2 & -> & Hj & Ho). by exists c, t1, t2.
  - by right; right; left.
  - by right; right; right.
Qed.
Print Assumptions local_started_line_true.

(** Once the call is over there is a line for each process of a local runner that was waited for, with its status and the values that it wrote, and one for each
    that a soft shutdown stopped. *)
Theorem local_process_recorded cfg num_parallel acts p t c n pid w s vs : config_ok cfg -> execution cfg num_parallel acts p t -> st_phase (po_sched p) = PDrained ->
  In (POver c n pid w) t -> to_report w = Some (s, vs) -> LFinished (task_key cfg n) (as_i32 s) vs ∈ new_lines cfg (po_sched p).
Proof.
  intros Hok He Hp X Hw. destruct (execution_pi _ _ _ _ _ Hok He) as [Hl HP]. destruct He as [_ Hr]. destruct (src_run cfg Hok _ acts Hl p t Hr) as (sacts & H1 & _ & H3).
  apply elem_of_list_In in X. destruct (H3 _ _ _ _ _ _ X Hw) as [(lp & Hc & Y)|Y]; [by eapply ended_no_calls in Y|]. exact (end_recorded _ _ _ _ _ _ _ _ H1 Hp Y).
Qed.
Print Assumptions local_process_recorded.

(** A loop whose process was killed in a hard shutdown has returned, with its task reported begun. *)
Definition Stopped (p : pool) (t : list pobs) : Prop := forall c n pid, POver c n pid (Killed ByHard) ∈ t ->
  exists lp x, po_loops p !! c = Some lp /\ lp_state lp = LEnded /\ lp_calls lp = [] /\ st_clients (po_sched p) !! c = Some x /\ (x = CRunning n \/ x = CDropped n true).
Lemma stopped_step cfg k acts p t a p' os : PI cfg k acts p t -> Stopped p t -> pool_step cfg p a = Some (p', os) -> Stopped p' (t ++ os).
Proof.
  intros HP HS Hs.
  assert (forall s' os' loops' tok', (forall c lp x n, po_loops p !! c = Some lp -> lp_state lp = LEnded -> lp_calls lp = [] -> st_clients (po_sched p) !! c = Some x ->
      (x = CRunning n \/ x = CDropped n true) -> exists lp' x', loops' !! c = Some lp' /\ lp_state lp' = LEnded /\ lp_calls lp' = [] /\ st_clients s' !! c = Some x' /\
        (x' = CRunning n \/ x' = CDropped n true)) -> Stopped (Pool s' loops' tok') (t ++ map PO os')) as Hgo.
  { intros s' os' loops' tok' Hl c n pid [X|X]%elem_of_app; [|by apply no_over_po in X]. destruct (HS _ _ _ X) as (lp & x & H1 & H2 & H3 & H4 & H5). cbn [po_loops po_sched]. by eapply Hl. }
  destruct a as [b| |c host|b|c i now|c]; cbn [pool_step] in Hs; unfold client_step in Hs.
  - destruct (_ || _) eqn:Hl in Hs; [done|]. apply orb_false_iff in Hl as [Hl _]. destruct (step cfg (po_sched p) b) as [[s' os']|] eqn:E; [|done]. injection Hs as <- <-.
    apply Hgo. intros c lp x n H1 H2 H3 H4 H5. exists lp, x. rewrite (client_frame _ _ _ _ _ c E); [done|]. intros Hcb. rewrite Hcb in Hl. apply Nat.ltb_ge in Hl.
    apply lookup_lt_Some in H1. lia.
  - destruct (st_phase _); try done. destruct (st_todo _); [|done]. destruct (SyncModel.hard_released _); [done|]. injection Hs as <- <-.
    apply (Hgo _ []). intros c lp x n H1 H2 H3 H4 H5. by exists lp, x.
  - destruct (po_loops p !! c) as [[st' [|y rest] child start]|] eqn:Hc; try done.
    assert (forall lp' d lp, po_loops p !! d = Some lp -> lp_calls lp = [] -> <[c := lp']> (po_loops p) !! d = Some lp /\ d <> c) as Hne.
    { intros lp' d lp Hd Hcalls. destruct (decide (d = c)) as [->|Hn]; [rewrite Hc in Hd; injection Hd as <-; discriminate Hcalls|]. by rewrite list_lookup_insert_ne. }
    destruct (call_act c host y) as [b|] eqn:Eb.
    + destruct (step cfg (po_sched p) b) as [[s' os']|] eqn:E; [|done]. injection Hs as <- <-. apply Hgo. intros d lp x n H1 H2 H3 H4 H5.
      destruct (Hne (recv_returns (Loop st' rest child start) os') d lp H1 H3) as [H1' Hn]. exists lp, x. rewrite (client_frame _ _ _ _ _ d E); [done|].
      destruct y; cbn [call_act] in Eb; try discriminate Eb; injection Eb as <-; cbn [client_of]; congruence.
    + injection Hs as <- <-. apply (Hgo _ []). intros d lp x n H1 H2 H3 H4 H5. destruct (Hne (Loop st' rest child start) d lp H1 H3) as [H1' Hn]. by exists lp, x.
  - destruct (inside_recv b) eqn:Hb; [|done]. destruct (client_of b) as [c|] eqn:Hcb; [|done]. destruct (po_loops p !! c) as [lp0|] eqn:Hc; [|done].
    destruct (step cfg (po_sched p) b) as [[s' os']|] eqn:E; [|done]. injection Hs as <- <-. apply Hgo. intros d lp x n H1 H2 H3 H4 H5. exists lp, x.
    assert (d <> c) as Hn.
    { intros ->. destruct b; try done; injection Hcb as ->; cbn [step] in E; rewrite H4 in E; by destruct H5 as [-> | ->]. }
    rewrite list_lookup_insert_ne by done. by rewrite (client_frame _ _ _ _ _ d E) by congruence.
  - destruct (po_loops p !! c) as [lp|] eqn:Hc; [|done]. destruct (lp_calls lp) as [|] eqn:Hcalls; [|done]. destruct (input_possible (po_token p) lp i) eqn:Hi; [|done].
    destruct (loop_step (lp_state lp) i) as [[st' cs]|] eqn:Hst; [|done]. injection Hs as <- <-. intros d n pid [X|X]%elem_of_app; cbn [po_loops po_sched].
    + destruct (HS _ _ _ X) as (lp' & x & H1 & H2 & H3 & H4 & H5). exists lp', x. destruct (decide (d = c)) as [->|Hn]; [|by rewrite list_lookup_insert_ne].
      rewrite Hc in H1. injection H1 as <-. rewrite H2 in Hst. by destruct i.
    + destruct (pi_link _ _ _ _ _ HP c _ Hc) as (y & Hy & HL). unfold input_obs in X.
      inversion HL; subst; cbn [lp_state lp_child task_of lp_calls] in *; try done; try (by apply elem_of_nil in X); destruct i; try done; try (by apply elem_of_nil in X);
        apply elem_of_list_singleton in X; try done; injection X as -> -> ->. cbn [loop_step] in Hst. injection Hst as <- <-.
      eexists _, _. rewrite list_lookup_insert by (by eapply lookup_lt_Some). do 3 (split; [reflexivity|]). split; [exact Hy|by left].
  - destruct (po_loops p !! c) as [lp0|] eqn:Hc; [|done]. destruct (loop_over lp0) eqn:Hov; [|done].
    destruct (step cfg (po_sched p) (ADrop c)) as [[s' os']|] eqn:E; [|done]. injection Hs as <- <-. apply Hgo. intros d lp x n H1 H2 H3 H4 H5. exists lp.
    destruct (decide (d = c)) as [->|Hn]; [|exists x; by rewrite (client_frame _ _ _ _ _ d E) by (cbn [client_of]; congruence)].
    cbn [step] in E. rewrite H4 in E. destruct H5 as [-> | ->]; [|done]. injection E as <- <-. exists (CDropped n true). split; [done|]. split; [done|]. split; [done|]. split; [|by right].
    by eapply lookup_set_client.
Qed.
(** Once the call is over there is a line with status -1 and no values for each process of a local runner that was killed in a hard shutdown. *)
Theorem local_kill_recorded cfg num_parallel acts p t c n pid : config_ok cfg -> execution cfg num_parallel acts p t -> st_phase (po_sched p) = PDrained ->
  In (POver c n pid (Killed ByHard)) t -> LFinished (task_key cfg n) (-1) [] ∈ new_lines cfg (po_sched p).
Proof.
  intros Hok He Hp X. destruct (execution_pi _ _ _ _ _ Hok He) as [Hl HP].
  assert (Stopped p t) as HS.
  { destruct He as [_ Hr]. clear Hp X HP. revert p t Hr. induction acts as [|a acts IH] using rev_ind; intros p t Hr.
    - injection Hr as <- <-. intros d m q X. by apply elem_of_nil in X.
    - apply pool_run_snoc in Hr as (p1 & t1 & os & H1 & Hs & ->). eapply stopped_step; [by eapply pi_pool_run|by apply IH|done]. }
  apply elem_of_list_In in X. destruct (HS _ _ _ X) as (lp & x & H1 & H2 & H3 & H4 & H5). destruct (pi_run _ _ _ _ _ HP) as (sacts & Hr & _).
  assert (x = CDropped n true) as ->.
  { destruct H5 as [-> | ->]; [|done]. exfalso. destruct (full_or_done cfg Hok _ _ (pi_reachable _ _ _ _ _ HP)) as [HF|HD].
    - by destruct (c_phase _ _ _ (inv_c _ _ _ (f_inv _ _ _ HF))) as [_ P2].
    - destruct HD as (s0 & t0 & os0 & now0 & order0 & HI & Hp0 & Ht0 & Hen & Hxx & Hdr & Hz & Hpp & Hcc & Hu).
      rewrite Hcc in H4. assert (ended (CRunning n) = true) as E by (by eapply ended_no_client). done. }
  by eapply dropped_task_recorded.
Qed.
Print Assumptions local_kill_recorded.

(** ** A concrete run: that of PoolProps.v, with values; a process succeeds, one fails and one is killed. *)
Definition pr_fd3 : bytes := list_ascii_of_string "x=1".
Definition pr_script : list pscript :=
  pscript1 ++ pstart 0 7 ++ map PDo [PInput 0 (InOutput 0 pr_fd3) 0; PCall 0 ""; PSched (AEvent 8)] ++ [PFlush] ++ pstart 1 9 ++ ptake 0 102 10 true ++
  [PDo (PInput 0 InFed 0)] ++ pstart 0 11 ++ PoolProps.pend 1 256 12 ++ PoolProps.pend 0 9 13 ++ map PDo [PCall 0 ""; PCall 1 ""; PHardCancel; PSched (ADrain [] 14)].
Definition pr_acts : list paction := pexpand ptasks pbegin pr_script.
Definition pr_lines : list line :=
  [LReady "a" 0 "true" 0; LReady "c" 0 "true" 0; LStarted "a" "" 100 ""; LReady "b" 0 "true" 0; LFinished "a" 0 (fd3_values pr_fd3); LStarted "c" "" 101 "";
   LStarted "b" "" 102 ""; LFinished "c" 1 []; LFinished "b" (-9) []].
Definition is_over (o : pobs) : bool := match o with POver 0 0 100 (Reaped 0 fd3) => bool_decide (fd3 = pr_fd3) | _ => false end.
Definition pr_end : option (list line * bool * bool) :=
  match pool_run ptasks (pool_start ptasks 2) pr_acts with
  | Some (p, t) => Some (new_lines ptasks (po_sched p), match st_phase (po_sched p) with PDrained => true | _ => false end, existsb is_over t)
  | None => None
  end.
Lemma pr_parts r : pr_end = Some r -> exists p t, execution ptasks 1 pr_acts p t /\ new_lines ptasks (po_sched p) = fst (fst r) /\
  (match st_phase (po_sched p) with PDrained => true | _ => false end) = snd (fst r) /\ existsb is_over t = snd r.
Proof.
  unfold pr_end, execution. destruct (pool_run ptasks (pool_start ptasks 2) pr_acts) as [[p t]|] eqn:E; [|discriminate]. intros E'. injection E' as <-. exists p, t.
  split; [split; [exists []; reflexivity|exact E]|]. clear E. split; [reflexivity|split; reflexivity].
Qed.
Example pr_run : exists p t, execution ptasks 1 pr_acts p t /\ st_phase (po_sched p) = PDrained /\ In (POver 0 0 100 (Reaped 0 pr_fd3)) t /\
  to_report (Reaped 0 pr_fd3) = Some (Code 0, fd3_values pr_fd3) /\ new_lines ptasks (po_sched p) = pr_lines.
Proof.
  destruct (pr_parts (pr_lines, true, true)) as (p & t & H & Hl & Hp & Ht); [vm_compute; reflexivity|]. cbn [fst snd] in *. exists p, t. split; [exact H|]. clear H.
  split; [clear - Hp; by destruct (st_phase (po_sched p))|]. split; [|split; [reflexivity|exact Hl]].
  apply existsb_exists in Ht as (o & Ho & E). destruct o as [|? ? ? ?|[|?] [|?] pid [raw fd3|?]]; try discriminate E; cbn [is_over] in E;
    destruct pid; try discriminate E; repeat (match type of E with context [match ?q with _ => _ end] => destruct q; try discriminate E end).
  apply bool_decide_eq_true in E. subst fd3. exact Ho.
Qed.
(** The run [phard_script] of PoolProps.v, in which Ctrl-C kills a process. *)
Definition ph_end : option (list line * bool * bool * option cstate) :=
  match pool_run ptasks (pool_start ptasks 2) (pexpand ptasks pbegin phard_script) with
  | Some (p, t) => Some (new_lines ptasks (po_sched p), match st_phase (po_sched p) with PDrained => true | _ => false end,
      existsb (fun o => match o with POver 0 0 100 (Killed ByHard) => true | _ => false end) t, st_clients (po_sched p) !! 0)
  | None => None
  end.
Example ph_run : ph_end = Some ([LReady "a" 0 "true" 0; LReady "c" 0 "true" 0; LStarted "a" "" 100 ""; LFinished "a" (-1) []], true, true, Some (CDropped 0 true)).
Proof. vm_compute. reflexivity. Qed.
