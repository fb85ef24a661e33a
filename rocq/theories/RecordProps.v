(** C72. The log of a session is the transcript of the reports made in it. Vocabulary: RecordSpec.v. *)
From Verif Require Import RecordProofs SchedProofs SchedProps.
From Coq Require Import Lia.
From stdpp Require Import prelude gmap.

Lemma live_of cfg acts s t : config_ok cfg -> run cfg (initial cfg) acts = Some (s, t) -> st_phase s <> PDrained -> Live cfg (map snd (reports cfg (initial cfg) acts)) s t.
Proof.
  intros Hok H Hp. pose proof (ri_run _ _ _ _ H) as HI. assert (reachable cfg s t) as Hr by (by exists acts).
  destruct (tracker_never_panics _ _ _ Hok Hr) as [_ Hn]. unfold RI in HI. by destruct (st_phase s).
Qed.
Lemma final_of cfg acts s t : run cfg (initial cfg) acts = Some (s, t) -> st_phase s = PDrained -> Final cfg (map snd (reports cfg (initial cfg) acts)) s t.
Proof. intros H Hp. pose proof (ri_run _ _ _ _ H) as HI. unfold RI in HI. by rewrite Hp in HI. Qed.

(** Until the final clean-up: the lines about beginnings and ends are exactly the transcript of the reports that have been read, in the order in
    which they were made; the others are waiting to be read. *)
Theorem log_is_transcript cfg acts s t : config_ok cfg -> run cfg (initial cfg) acts = Some (s, t) -> st_phase s <> PDrained ->
  exists read, map snd (reports cfg (initial cfg) acts) = read ++ map told_of (st_events s) /\
    List.filter (fun l => negb (says_ready l)) (new_lines cfg s) = transcript cfg ∅ read.
Proof.
  intros Hok H Hp. destruct (live_of _ _ _ _ Hok H Hp) as (dn & ls & H1 & H2 & H3 & _). exists dn. split; [done|]. by rewrite (new_lines_more _ _ _ H2).
Qed.
Print Assumptions log_is_transcript.

(** After it: no report is left out. First come the lines of those that had been read; then those of the others, without host, process and job; then one
    line for each task that had begun and not ended, once each: status -1, no values. *)
Theorem final_log_is_transcript cfg acts s t : run cfg (initial cfg) acts = Some (s, t) -> st_phase s = PDrained ->
  exists read rest order, map snd (reports cfg (initial cfg) acts) = read ++ rest /\
    List.filter (fun l => negb (says_ready l)) (new_lines cfg s) =
      transcript cfg ∅ read ++ transcript cfg (open_after ∅ read) (map masked rest) ++ map (fun n => LFinished (task_key cfg n) (-1) []) order /\
    NoDup order /\ forall n, n ∈ order <-> n ∈ open_after ∅ (map snd (reports cfg (initial cfg) acts)).
Proof.
  intros H Hp. destruct (final_of _ _ _ _ H Hp) as (dn & rest & order & ls & H1 & H2 & H3 & _ & H5 & H6 & _). exists dn, rest, order.
  split; [done|]. by rewrite (new_lines_more _ _ _ H2).
Qed.
Print Assumptions final_log_is_transcript.

(** The lines about tasks that become ready are those of the tasks that became ready, in this order, each with the key, the run count, the command and the
    storage root of the task. *)
Theorem ready_lines_exact cfg acts s t : config_ok cfg -> run cfg (initial cfg) acts = Some (s, t) ->
  List.filter says_ready (new_lines cfg s) = map (ready_line cfg) (readied t).
Proof.
  intros Hok H. assert (forall p : phase, {st_phase s = p} + {st_phase s <> p}) as Hdec by (decide equality). destruct (Hdec PDrained) as [Hp|Hp].
  - destruct (final_of _ _ _ _ H Hp) as (dn & rest & order & ls & _ & H2 & _ & H4 & _). by rewrite (new_lines_more _ _ _ H2).
  - destruct (live_of _ _ _ _ Hok H Hp) as (dn & ls & _ & H2 & _ & H4 & _). by rewrite (new_lines_more _ _ _ H2).
Qed.
Print Assumptions ready_lines_exact.

(** ** Line by line *)
Lemma transcript_finished cfg rs : forall o k z v, LFinished k z v ∈ transcript cfg o rs <-> exists n x, Ended n x v ∈ rs /\ k = task_key cfg n /\ z = as_i32 x.
Proof.
  induction rs as [|r rs IH]; intros o k z v; cbn [transcript].
  - split; [intros X; by apply elem_of_nil in X|]. intros (n & x & X & _). by apply elem_of_nil in X.
  - rewrite elem_of_app, IH. split.
    + intros [X|(n & x & X & ? & ?)]; [|exists n, x; split; [by right|done]]. destruct r as [n h p j|n x v']; [by apply elem_of_list_singleton in X|].
      apply elem_of_app in X as [X|X]; [destruct (decide (n ∈ o)); [by apply elem_of_nil in X|by apply elem_of_list_singleton in X]|].
      apply elem_of_list_singleton in X. injection X as -> -> ->. exists n, x. split; [by left|done].
    + intros (n & x & X & -> & ->). apply elem_of_cons in X as [<-|X]; [left|right; by exists n, x]. apply elem_of_app. right. by apply elem_of_list_singleton.
Qed.
Lemma transcript_started cfg rs : forall o k h p j, LStarted k h p j ∈ transcript cfg o rs ->
  exists n, k = task_key cfg n /\ (Begun n h p j ∈ rs \/ h = ""%string /\ p = 0%N /\ j = ""%string /\ exists x v, Ended n x v ∈ rs).
Proof.
  induction rs as [|r rs IH]; intros o k h p j X; cbn [transcript] in X; [by apply elem_of_nil in X|]. apply elem_of_app in X as [X|X].
  - destruct r as [n h' p' j'|n x v].
    + apply elem_of_list_singleton in X. injection X as -> -> -> ->. exists n. split; [done|]. left. by left.
    + apply elem_of_app in X as [X|X]; [|by apply elem_of_list_singleton in X]. destruct (decide (n ∈ o)); [by apply elem_of_nil in X|].
      apply elem_of_list_singleton in X. injection X as -> -> -> ->. exists n. split; [done|]. right. split; [done|]. split; [done|]. split; [done|]. exists x, v. by left.
  - destruct (IH _ _ _ _ _ X) as (n & ? & [?|(? & ? & ? & x & v & ?)]); exists n; (split; [done|]); [left; by right|right]. split; [done|]. split; [done|]. split; [done|]. exists x, v. by right.
Qed.
Lemma masked_ended n x v rs : Ended n x v ∈ map masked rs <-> Ended n x v ∈ rs.
Proof.
  rewrite elem_of_list_fmap. split; [intros (r & E & Hr)|intros Hr; exists (Ended n x v); done]. destruct r as [|n' x' v']; [done|]. by injection E as -> -> ->.
Qed.
Lemma masked_begun n h p j rs : Begun n h p j ∈ map masked rs -> h = "host"%string /\ p = 0%N /\ j = ""%string /\ exists h' p' j', Begun n h' p' j' ∈ rs.
Proof. rewrite elem_of_list_fmap. intros (r & E & Hr). destruct r as [n' h' p' j'|]; [|done]. injection E as -> -> -> ->. eauto 10. Qed.
Lemma open_begun n rs : n ∈ open_after ∅ rs <-> exists a h p j b, rs = a ++ Begun n h p j :: b /\ forall x v, Ended n x v ∉ b.
Proof.
  induction rs as [|r rs IH] using rev_ind.
  - split; [intros X; by apply elem_of_empty in X|]. intros (a & h & p & j & b & E & _). by destruct a.
  - rewrite open_app. cbn [open_after fold_left]. split.
    + destruct r as [m h p j|m x v]; cbn [open_step].
      * intros [->%elem_of_singleton|X]%elem_of_union; [exists rs, h, p, j, []; split; [done|intros ? ? Y; by apply elem_of_nil in Y]|].
        apply IH in X as (a & h' & p' & j' & b & -> & Hb). exists a, h', p', j', (b ++ [Begun m h p j]). split; [by rewrite <- List.app_assoc|].
        intros x v Y. apply elem_of_app in Y as [Y|Y]; [by eapply Hb|by apply elem_of_list_singleton in Y].
      * intros [X Hne]%elem_of_difference. apply IH in X as (a & h' & p' & j' & b & -> & Hb). exists a, h', p', j', (b ++ [Ended m x v]). split; [by rewrite <- List.app_assoc|].
        intros x' v' Y. apply elem_of_app in Y as [Y|Y]; [by eapply Hb|]. apply elem_of_list_singleton in Y. injection Y as -> _ _. apply Hne. by apply elem_of_singleton.
    + intros (a & h & p & j & b & E & Hb). destruct b as [|r' b _] using rev_ind.
      * apply app_inj_tail in E as [_ ->]. cbn. apply elem_of_union. left. by apply elem_of_singleton.
      * rewrite app_comm_cons, List.app_assoc in E. apply app_inj_tail in E as [-> ->].
        assert (n ∈ open_after ∅ (a ++ Begun n h p j :: b)) as X. { apply IH. exists a, h, p, j, b. split; [done|]. intros x v Y. eapply Hb. apply elem_of_app. by left. }
        destruct r' as [m h' p' j'|m x v]; cbn [open_step]; [apply elem_of_union; by right|]. apply elem_of_difference. split; [done|].
        intros ->%elem_of_singleton. eapply (Hb x v). apply elem_of_app. right. by left.
Qed.
Lemma in_nonready cfg s (l : line) : says_ready l = false -> l ∈ new_lines cfg s <-> l ∈ List.filter (fun l => negb (says_ready l)) (new_lines cfg s).
Proof. intros Hl. rewrite !elem_of_list_In, filter_In, Hl. cbn. tauto. Qed.
Lemma in_snd {A B} (y : B) (l : list (A * B)) : y ∈ map snd l <-> exists x, (x, y) ∈ l.
Proof. rewrite elem_of_list_fmap. split; [intros ([x y'] & -> & ?)|intros (x & ?)]; [by exists x|by exists (x, y)]. Qed.

(** A line about an end has the key of a task, and the status and the values with which the runner that had the task reported its end; or it was
    written in the clean-up, with status -1 and no values, for a task that was reported begun, and not ended after that. *)
Theorem finished_line_true cfg acts s t k z v : config_ok cfg -> run cfg (initial cfg) acts = Some (s, t) -> LFinished k z v ∈ new_lines cfg s ->
  exists n, k = task_key cfg n /\
   ((exists c x, (c, Ended n x v) ∈ reports cfg (initial cfg) acts /\ z = as_i32 x) \/
    (st_phase s = PDrained /\ z = (-1)%Z /\ v = [] /\
      exists a h p j b, map snd (reports cfg (initial cfg) acts) = a ++ Begun n h p j :: b /\ forall x v', Ended n x v' ∉ b)).
Proof.
  intros Hok H X. rewrite in_nonready in X by done. assert (forall p : phase, {st_phase s = p} + {st_phase s <> p}) as Hdec by (decide equality). destruct (Hdec PDrained) as [Hp|Hp].
  - destruct (final_log_is_transcript _ _ _ _ H Hp) as (dn & rest & order & E & Hl & _ & Hor). rewrite Hl in X. rewrite !elem_of_app in X. destruct X as [X|[X|X]].
    + apply transcript_finished in X as (n & x & X & -> & ->). exists n. split; [done|]. left.
      assert (Ended n x v ∈ map snd (reports cfg (initial cfg) acts)) as Y by (rewrite E; apply elem_of_app; by left). apply in_snd in Y as [c Y]. by exists c, x.
    + apply transcript_finished in X as (n & x & X & -> & ->). rewrite masked_ended in X. exists n. split; [done|]. left.
      assert (Ended n x v ∈ map snd (reports cfg (initial cfg) acts)) as Y by (rewrite E; apply elem_of_app; by right). apply in_snd in Y as [c Y]. by exists c, x.
    + apply elem_of_list_fmap in X as (n & X & Hn). injection X as -> -> ->. exists n. split; [done|]. right. split; [done|]. split; [done|]. split; [done|]. by apply open_begun, Hor.
  - destruct (log_is_transcript _ _ _ _ Hok H Hp) as (dn & E & Hl). rewrite Hl in X. apply transcript_finished in X as (n & x & X & -> & ->). exists n. split; [done|]. left.
    assert (Ended n x v ∈ map snd (reports cfg (initial cfg) acts)) as Y by (rewrite E; apply elem_of_app; by left). apply in_snd in Y as [c Y]. by exists c, x.
Qed.
Print Assumptions finished_line_true.

(** Every end that a runner has reported is in the log when the call is over, with its status and its values. *)
Theorem end_recorded cfg acts s t c n x v : run cfg (initial cfg) acts = Some (s, t) -> st_phase s = PDrained ->
  (c, Ended n x v) ∈ reports cfg (initial cfg) acts -> LFinished (task_key cfg n) (as_i32 x) v ∈ new_lines cfg s.
Proof.
  intros H Hp X. rewrite in_nonready by done. destruct (final_log_is_transcript _ _ _ _ H Hp) as (dn & rest & order & E & Hl & _). rewrite Hl.
  assert (Ended n x v ∈ map snd (reports cfg (initial cfg) acts)) as Y by (apply in_snd; by exists c). rewrite E in Y. rewrite !elem_of_app.
  apply elem_of_app in Y as [Y|Y]; [left|right; left]; apply transcript_finished; exists n, x; [done|]. by rewrite masked_ended.
Qed.
Print Assumptions end_recorded.

(** A line about a beginning has the host, the process and the job that the runner reported; or none, for a task that was reported to have ended; or, in
    the final clean-up, the word "host". *)
Theorem started_line_true cfg acts s t k h p j : config_ok cfg -> run cfg (initial cfg) acts = Some (s, t) -> LStarted k h p j ∈ new_lines cfg s ->
  exists n, k = task_key cfg n /\
   ((exists c, (c, Begun n h p j) ∈ reports cfg (initial cfg) acts) \/
    (h = ""%string /\ p = 0%N /\ j = ""%string /\ exists c x v, (c, Ended n x v) ∈ reports cfg (initial cfg) acts) \/
    (st_phase s = PDrained /\ h = "host"%string /\ p = 0%N /\ j = ""%string /\ exists c h' p' j', (c, Begun n h' p' j') ∈ reports cfg (initial cfg) acts)).
Proof.
  intros Hok H X. rewrite in_nonready in X by done. set (rs := reports cfg (initial cfg) acts) in *.
  assert (forall r, r ∈ map snd rs -> exists c, (c, r) ∈ rs) as Hin by (intros r; apply in_snd).
  assert (forall p : phase, {st_phase s = p} + {st_phase s <> p}) as Hdec by (decide equality). destruct (Hdec PDrained) as [Hp|Hp].
  - destruct (final_log_is_transcript _ _ _ _ H Hp) as (dn & rest & order & E & Hl & _ & Hor). fold rs in E. rewrite Hl in X. rewrite !elem_of_app in X. destruct X as [X|[X|X]].
    + apply transcript_started in X as (n & -> & [X|(-> & -> & -> & x & v & X)]); exists n; (split; [done|]).
      * left. apply Hin. rewrite E. apply elem_of_app. by left.
      * right. left. split; [done|]. split; [done|]. split; [done|]. destruct (Hin (Ended n x v)) as [c Hc]; [rewrite E; apply elem_of_app; by left|]. eauto.
    + apply transcript_started in X as (n & -> & [X|(-> & -> & -> & x & v & X)]); exists n; (split; [done|]).
      * apply masked_begun in X as (-> & -> & -> & h' & p' & j' & X). right. right. split; [done|]. split; [done|]. split; [done|]. split; [done|].
        destruct (Hin (Begun n h' p' j')) as [c Hc]; [rewrite E; apply elem_of_app; by right|]. eauto.
      * rewrite masked_ended in X. right. left. split; [done|]. split; [done|]. split; [done|]. destruct (Hin (Ended n x v)) as [c Hc]; [rewrite E; apply elem_of_app; by right|]. eauto.
    + by apply elem_of_list_fmap in X as (n & X & Hn).
  - destruct (log_is_transcript _ _ _ _ Hok H Hp) as (dn & E & Hl). fold rs in E. rewrite Hl in X. apply transcript_started in X as (n & -> & [X|(-> & -> & -> & x & v & X)]); exists n; (split; [done|]).
    + left. apply Hin. rewrite E. apply elem_of_app. by left.
    + right. left. split; [done|]. split; [done|]. split; [done|]. destruct (Hin (Ended n x v)) as [c Hc]; [rewrite E; apply elem_of_app; by left|]. eauto.
Qed.
Print Assumptions started_line_true.

(** ** Concrete runs of [demo] (SchedProps.v) *)
(** Task 0 reports values and is read; task 1 is begun and read; task 2 is begun and not read before a hard cancel. *)
Definition vals : list (gmap string string) := [{["x"%string := "1"%string]}].
Definition record_script : list script :=
  [Do (AInit [0]); Flush] ++ take_task 0 ++ map Do [ASendStarted 0 "node1" 7 "42"; ASendFinished 0 (Code 0) vals (Some 0); AEvent 10; AEvent 20] ++ [Flush] ++
  take_task 1 ++ take_task 0 ++ map Do [ASendStarted 1 "node2" 8 "43"; AEvent 30; ASendStarted 0 "node3" 9 "44"; AHardCancel; AHardExit] ++ [Flush] ++
  map Do [ADrop 0; ADrop 1; ADrop 2; ADrain [1; 2] 50].
Definition record_acts : list action := expand demo (initial demo) record_script.
Definition record_lines : list line :=
  [LReady "a" 0 "true" 0; LStarted "a" "node1" 7 "42"; LReady "c" 0 "true" 0; LReady "b" 0 "true" 0; LFinished "a" 0 vals;
   LStarted "c" "node2" 8 "43"; LStarted "b" "host" 0 ""; LFinished "b" (-1) []; LFinished "c" (-1) []].
Example record_run : exists s t, run demo (initial demo) record_acts = Some (s, t) /\ st_phase s = PDrained /\ new_lines demo s = record_lines /\
  reports demo (initial demo) record_acts =
    [(0, Begun 0 "node1" 7 "42"); (0, Ended 0 (Code 0) vals); (1, Begun 2 "node2" 8 "43"); (0, Begun 1 "node3" 9 "44")].
Proof. eexists _, _. split; [vm_compute; reflexivity|]. split; [reflexivity|]. split; vm_compute; reflexivity. Qed.
(** Before the clean-up. *)
Example record_mid : exists s t, run demo (initial demo) (firstn 30 record_acts) = Some (s, t) /\ st_phase s <> PDrained /\ LFinished "a" 0 vals ∈ new_lines demo s.
Proof.
  eexists _, _. split; [vm_compute; reflexivity|]. split; [discriminate|]. apply elem_of_list_In. vm_compute. auto 10.
Qed.

(** Not true: the line about a beginning always has the host, the process and the job that were reported, or none. *)
Theorem started_line_complete_refuted : exists cfg acts s t k h p j, config_ok cfg /\ run cfg (initial cfg) acts = Some (s, t) /\ LStarted k h p j ∈ new_lines cfg s /\
  h <> ""%string /\ forall c n, (c, Begun n h p j) ∉ reports cfg (initial cfg) acts.
Proof.
  destruct record_run as (s & t & H & _ & Hl & Hr). exists demo, record_acts, s, t, "b"%string, "host"%string, 0%N, ""%string.
  split; [apply demo_ok|]. split; [done|]. split; [rewrite Hl; apply elem_of_list_In; vm_compute; auto 10|]. split; [done|].
  intros c n X. rewrite Hr in X. rewrite !elem_of_cons in X. destruct X as [X|[X|[X|[X|X]]]]; try discriminate X. by apply elem_of_nil in X.
Qed.
Print Assumptions started_line_complete_refuted.
