(** C72, down to the processes on the machines of remote runners. Vocabulary: FleetSpec.v, RecordSpec.v. *)
From Verif Require Import FleetSpec FleetProofs FleetProps RecordJointProofs RecordJointProps RecordProofs RecordProps JointProofs JointInv JointProps SchedProofs SchedProps.
From Verif Require ServerModel RemoteModel LocalModel.
From Coq Require Import Lia.
From stdpp Require Import prelude gmap.

(** The status and the values in a line about the end of a task are those of the process that a remote runner started for it; or the server gave the runner
    up; or a local loop reported the end; or the line was written in the clean-up for a task that was reported begun. *)
Theorem fleet_finished_line_true secret cfg nlocal rcs acts f t k z v : config_ok cfg ->
  freachable secret cfg nlocal rcs acts f t -> distinct_ids t -> LFinished k z v ∈ new_lines cfg (j_tracker (f_joint f)) ->
  exists n, k = task_key cfg n /\
   ((exists r rep, tells_truth t r n rep /\ z = ServerModel.rp_status rep /\ v = ServerModel.rp_values rep) \/
    (exists msg, FJ (inr (ServerModel.EFinished n (inr msg))) ∈ t /\ z = as_i32 Disconnected /\ v = []) \/
    (exists c x fl, c < nlocal /\ FServer (JTracker (ASendFinished c x v fl)) ∈ acts /\ z = as_i32 x) \/
    (st_phase (j_tracker (f_joint f)) = PDrained /\ z = (-1)%Z /\ v = [] /\
      ((exists h p j, FJ (inr (ServerModel.EStarted n h p j)) ∈ t) \/ exists c h p j, c < nlocal /\ FServer (JTracker (ASendStarted c h p j)) ∈ acts))).
Proof.
  intros Hok H Hd X. destruct (finv_run_acts _ _ _ _ _ _ _ H) as (jacts & HI & Ha). pose proof (fi_run _ _ _ _ _ _ _ HI) as Hj.
  destruct (remote_finished_line_true _ _ _ _ _ _ _ _ _ Hok Hj X) as (n & -> & D). exists n. split; [done|].
  destruct D as [(rep & Y & -> & ->)|[(msg & Y & -> & ->)|[(c & x & fl & L & Y & ->)|(Hp & -> & -> & D)]]].
  - left. apply in_http_side, in_joint_side in Y. destruct (finished_report_true _ _ _ _ _ _ _ _ _ Hok H Hd Y) as [r Hr]. by exists r, rep.
  - right. left. exists msg. by apply in_http_side, in_joint_side in Y.
  - right. right. left. exists c, x, fl. split; [done|]. split; [by apply Ha|done].
  - right. right. right. split; [done|]. split; [done|]. split; [done|]. destruct D as [(h & p & j & Y)|(c & h & p & j & L & Y)].
    + left. exists h, p, j. by apply in_http_side, in_joint_side in Y.
    + right. exists c, h, p, j. split; [done|]. by apply Ha.
Qed.
Print Assumptions fleet_finished_line_true.

(** Once the call is over: if the server accepted a report about the end of a task, some runner ran it, and the log has a line with the key of the task, the
    status that its process had and the values that it wrote. *)
Theorem fleet_end_recorded secret cfg nlocal rcs acts f t n rep : config_ok cfg ->
  freachable secret cfg nlocal rcs acts f t -> distinct_ids t -> st_phase (j_tracker (f_joint f)) = PDrained -> FJ (inr (ServerModel.EFinished n (inl rep))) ∈ t ->
  exists r, tells_truth t r n rep /\
    LFinished (task_key cfg n) (ServerModel.rp_status rep) (ServerModel.rp_values rep) ∈ new_lines cfg (j_tracker (f_joint f)).
Proof.
  intros Hok H Hd Hp Y. destruct (finished_report_true _ _ _ _ _ _ _ _ _ Hok H Hd Y) as [r Hr]. exists r. split; [done|].
  destruct (fleet_runs_are_joint_runs _ _ _ _ _ _ _ H) as [jacts Hj]. apply (remote_end_recorded _ _ _ _ _ _ _ _ Hj Hp). by apply in_http_side, in_joint_side.
Qed.
Print Assumptions fleet_end_recorded.

(** The host, the process and the job in a line about a beginning are those of the runner that started the command; or a local loop reported it; or there are
    none, in a line that was written for an end that was reported without a beginning, or in the clean-up. *)
Theorem fleet_started_line_true secret cfg nlocal rcs acts f t k h p j : config_ok cfg ->
  freachable secret cfg nlocal rcs acts f t -> distinct_ids t -> LStarted k h p j ∈ new_lines cfg (j_tracker (f_joint f)) ->
  exists n, k = task_key cfg n /\
   ((exists r, h = rc_host (rcs r) /\ j = rc_job (rcs r) /\ (FSpawned r n p ∈ t \/ p = 0%N /\ FNotSpawned r n ∈ t)) \/
    (exists c, c < nlocal /\ FServer (JTracker (ASendStarted c h p j)) ∈ acts) \/
    (h = ""%string /\ p = 0%N /\ j = ""%string) \/
    (st_phase (j_tracker (f_joint f)) = PDrained /\ h = "host"%string /\ p = 0%N /\ j = ""%string)).
Proof.
  intros Hok H Hd X. destruct (finv_run_acts _ _ _ _ _ _ _ H) as (jacts & HI & Ha). pose proof (fi_run _ _ _ _ _ _ _ HI) as Hj.
  destruct (remote_reports_are_messages _ _ _ _ _ _ Hj) as (ta & Hr & E & Hl).
  assert (forall a, a ∈ local_actions jacts -> JTracker a ∈ jacts) as Hla.
  { intros a Y. apply elem_of_list_omap in Y as (b & Y & Eb). destruct b; try done. by injection Eb as ->. }
  destruct (started_line_true _ _ _ _ _ _ _ _ Hok Hr X) as (n & -> & D). exists n. split; [done|].
  destruct D as [(c & Y)|[(-> & -> & -> & _)|(Hp & -> & -> & -> & _)]]; [|by right; right; left|by right; right; right].
  destruct (le_lt_dec nlocal c) as [L|L].
  - left. assert (Begun n h p j ∈ omap message_tells (http_side (joint_side t))) as Z by (rewrite <- E; apply in_remote; by exists c).
    apply elem_of_list_omap in Z as (e & Z & Ee). destruct e as [| | |n' [rep|msg]]; try discriminate Ee. injection Ee as -> -> -> ->.
    apply in_http_side, in_joint_side in Z. exact (started_message_true _ _ _ _ _ _ _ _ _ _ _ Hok H Hd Z).
  - right. left. exists c. split; [done|]. destruct (Hl _ _ Y L) as (a & u & Hx & Ea). apply Hla, Ha in Hx. destruct a; try discriminate Ea; cbn [tells] in Ea;
      (destruct (st_clients u !! _) as [[]|]; try discriminate Ea; injection Ea; intros; subst). exact Hx.
Qed.
Print Assumptions fleet_started_line_true.

(** ** A concrete run: that of FleetProps.v, in which runner 7 runs a task that writes "x=1" to file descriptor 3; then the call is cancelled and ends. *)
Definition rf_acts : list faction :=
  ft_1 ++ ft_2 ++ map FServer ([JTracker AHardCancel; JTracker AHardExit] ++ instrs 67 ++
    [JHttp ServerModel.LStop 0; JClose; JTracker (ADrop 0); JLeave 1; JLeave 2; JLeave 3; JTracker (ADrain [] 50)]).
Definition rf_rep : ServerModel.report := ServerModel.Report 0 "out" "err" (LocalModel.fd3_values (list_ascii_of_string "x=1")).
Definition rf_trace : list fobs := ft_before ++ [FJ (inl (OExit ExitHard))].
Definition rf_lines : list line :=
  [LReady "a" 0 "true" 0; LStarted "a" "host" 99 "j"; LReady "b" 0 "true" 0; LFinished "a" 0 (ServerModel.rp_values rf_rep)].
Definition rf_end : option (list line * bool * list fobs) :=
  match frun "s" duo4 1 rcs0 (fleet_new duo4) rf_acts with
  | Some (f, t) => Some (new_lines duo4 (j_tracker (f_joint f)), match st_phase (j_tracker (f_joint f)) with PDrained => true | _ => false end, t)
  | None => None
  end.
Lemma rf_parts r : rf_end = Some r -> exists f, freachable "s" duo4 1 rcs0 rf_acts f (snd r) /\ new_lines duo4 (j_tracker (f_joint f)) = fst (fst r) /\
  (match st_phase (j_tracker (f_joint f)) with PDrained => true | _ => false end) = snd (fst r).
Proof. unfold rf_end, freachable. destruct (frun "s" duo4 1 rcs0 (fleet_new duo4) rf_acts) as [[f t]|]; [|discriminate]. intros E. injection E as <-. eauto 10. Qed.
Example rf_run : exists f, freachable "s" duo4 1 rcs0 rf_acts f rf_trace /\ distinct_ids rf_trace /\ st_phase (j_tracker (f_joint f)) = PDrained /\
  FJ (inr (ServerModel.EFinished 0 (inl rf_rep))) ∈ rf_trace /\ new_lines duo4 (j_tracker (f_joint f)) = rf_lines.
Proof.
  destruct (rf_parts (rf_lines, true, rf_trace)) as (f & H & Hl & Hp); [vm_compute; reflexivity|]. cbn [fst snd] in *. exists f. split; [exact H|]. clear H.
  split.
  { assert (forall tx n, given rf_trace tx n -> given ft_before tx n) as Hg.
    { intros tx n (e & He & Hg). exists e. split; [|exact Hg]. apply elem_of_app in He as [He|He]; [exact He|]. by apply elem_of_list_singleton in He. }
    intros tx n n' X Y. exact (ft_distinct tx n n' (Hg _ _ X) (Hg _ _ Y)). }
  split; [clear - Hp; by destruct (st_phase (j_tracker (f_joint f)))|]. split; [|exact Hl].
  apply elem_of_app. left. unfold ft_before. apply elem_of_list_In. do 3 (apply in_or_app; right). apply in_or_app. right. right. left. vm_compute. reflexivity.
Qed.
