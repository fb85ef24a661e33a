(** C66: slurm's error file and the placeholders of the remote runner. *)
From Verif Require Import AlarmProofs AlarmSpec.
From stdpp Require Import prelude.
Open Scope list_scope.

(** ** The watcher *)
(** A report of a slurm error has status -15, asks for no further task, and says what the file held when the watcher first read an
    alarming text: the text, or a notice if it is not UTF-8. *)
Theorem slurm_report cf f acts s os tx st late m next out : alarm_run cf (alarm_start f) acts = Some (s, os) ->
  ARunner (VEnd tx st late (Some m) next out) ∈ os ->
  st = Code (-15) /\ next = false /\
  exists a b, acts = a ++ WEvent :: b /\ alarming (f ++ written a) /\ reported (f ++ written a) (B m) /\
    forall a' b', a = a' ++ WEvent :: b' -> ~ alarming (f ++ written a').
Proof.
  intros H Ho. destruct (stage_holds _ _ _ _ _ H) as [(_ & _ & _ & I)|(t & (a & b & E & -> & Ha & Hn) & [(_ & _ & I)|[(_ & _ & I)|(_ & _ & I)]])].
  1-3: destruct (I _ Ho) as [_ []] || destruct (I _ Ho); by eexists _, _, _, _, _, _.
  destruct (I _ _ _ _ _ _ Ho) as (I1 & I2 & I3). split; [done|]. split; [done|]. exists a, b. split; [done|]. split; [done|]. rewrite I3. split; [apply reported_shown|done].
Qed.

(** Once the watcher has seen all modifications, an alarming text has been announced as a whole, even if its words came in pieces. *)
Theorem alarm_raised cf f acts s os : alarm_run cf (alarm_start f) acts = Some (s, os) -> al_events s = 0 -> al_sending s = None ->
  Exists modifies acts -> alarming (f ++ written acts) -> exists m, AMessage m ∈ os /\ reported (f ++ written acts) m.
Proof.
  intros H H1 H2 H3 H4. rewrite <- (run_file _ _ _ _ _ H) in *. exists (shown (al_file s)). split; [|apply reported_shown].
  destruct (caught_up_holds _ _ _ _ _ H H1 H3 H4) as [E|E]; [congruence|done].
Qed.

(** An announced error reaches the runner: while it waits for a task and has not yet reported, it can take the message, kill the task's process
    with SIGTERM, and report the task. *)
Theorem alarm_answered cf f acts s os m tx pid late : alarm_run cf (alarm_start f) acts = Some (s, os) -> AMessage m ∈ os ->
  (forall o, o ∈ os -> ~ slurm_end o) -> al_runner s = MWait tx pid late ->
  exists m' s', alarm_step cf s WRecv = Some (s', [ARunner (VSigterm pid None); ARunner (VEnd tx (Code (-15)) late (Some m') false None)]).
Proof.
  intros H Hm Hn Hr. destruct (stage_holds _ _ _ _ _ H) as [(_ & _ & _ & I)|(t & _ & [(_ & _ & I)|[(I & _)|(I & _)]])].
  - destruct (I _ Hm) as [[] _]. by exists m.
  - destruct (I _ Hm) as [[] _]. by exists m.
  - destruct s as [file pos ev sn ch r]. cbn [al_channel al_runner] in *. subst. cbn [alarm_step remote_step]. by eexists _, _.
  - rewrite Hr in I. by destruct I.
Qed.

(** No false alarm: if the file and each piece written to it are UTF-8, and none of the words is in it, nothing happens. *)
Theorem no_false_alarm cf f acts s os : alarm_run cf (alarm_start f) acts = Some (s, os) ->
  is_utf8 f -> (forall a, In a acts -> is_utf8 (appended a)) -> ~ has_word (f ++ written acts) ->
  forall o, o ∈ os -> ~ message o /\ ~ slurm_end o.
Proof.
  intros H Hf Hu Hw. destruct (stage_holds _ _ _ _ _ H) as [(_ & _ & _ & I)|(t & (a & b & E & -> & Ha & _) & _)]; [done|]. exfalso.
  assert (Hu' : forall l, (forall x, In x l -> is_utf8 (appended x)) -> is_utf8 (written l)).
  { clear. induction l as [|x l IH]; intros H; [exists []; by split|]. unfold written. cbn [map concat]. apply is_utf8_app; [apply H; by left|]. apply IH. intros y Hy. apply H. by right. }
  destruct Ha as [Ha|Ha].
  - apply Hw. subst acts. unfold written. rewrite map_app, concat_app, List.app_assoc. by apply has_word_app.
  - apply Ha. apply is_utf8_app; [done|]. apply Hu'. intros x Hx. apply Hu. subst acts. apply in_app_iff. by left.
Qed.

(** A file that is not modified is never read: what it held when the runner started is not noticed. *)
Theorem unmodified_file_unnoticed cf f acts s os : alarm_run cf (alarm_start f) acts = Some (s, os) -> ~ Exists modifies acts ->
  forall o, o ∈ os -> ~ message o /\ ~ slurm_end o.
Proof.
  intros H Hn. assert (Hev : al_events s = 0 /\ ~ In WEvent acts).
  { revert s os H Hn. induction acts as [|a acts IH] using rev_ind; intros s os H Hn; [injection H as <- <-; split; [done|intros []]|].
    apply alarm_run_snoc in H as (s1 & o1 & o2 & H1 & H2 & ->). rewrite Exists_app in Hn. destruct (IH _ _ H1) as [I1 I2]; [tauto|].
    assert (Ha : ~ modifies a). { intros Hc. apply Hn. right. by apply Exists_cons_hd. }
    destruct s1 as [file pos ev sn ch r]. cbn [al_events] in I1. subst ev. cbn [alarm_step] in H2.
    assert (Hin : a <> WEvent -> ~ In WEvent (acts ++ [a])). { intros Hne [Hx|[Hx|[]]]%in_app_iff; [done|congruence]. }
    destruct a; [by destruct Ha|by destruct Ha|by destruct sn| | |].
    all: repeat (case_match; try done); injection H2 as <- <-; (split; [done|by apply Hin]). }
  destruct Hev as [_ Hev]. destruct (stage_holds _ _ _ _ _ H) as [(_ & _ & _ & I)|(t & (a & b & E & _) & _)]; [done|].
  destruct Hev. rewrite E. apply in_app_iff. right. by left.
Qed.

(** ** Placeholders *)
(** The placeholders are filled in, all at once, unless a percent sign stands before one or is in a value. *)
Theorem disconnect_message_filled su s : plain_values (message_values su) -> no_double_percent (message_values su) s ->
  filled (message_values su) s (disconnect_message su s).
Proof.
  intros Hp Hd. unfold disconnect_message.
  pose (e0 := fun _ : ascii => @None bytes). pose (e1 := add "u" (su_user su) e0). pose (e2 := add "j" (slurm_jobid su) e1).
  pose (e3 := match su_job_name su with Some x => add "x" x e2 | None => e2 end).
  pose (e4 := match su_cluster su with Some x => add "c" x e3 | None => e3 end).
  pose (e5 := add "h" (su_host su) e4).
  assert (H5 : forall l, e5 l = message_values su l).
  { intros l. unfold message_values, e5, e4, e3, e2, e1, e0, add. destruct (Ascii.eqb_spec l "u") as [->|]; [by destruct (su_job_name su), (su_cluster su)|].
    destruct (Ascii.eqb_spec l "j") as [->|]; [by destruct (su_job_name su), (su_cluster su)|].
    destruct (Ascii.eqb_spec l "x") as [->|]; [by destruct (su_job_name su), (su_cluster su)|].
    destruct (Ascii.eqb_spec l "c") as [->|]; [by destruct (su_job_name su), (su_cluster su)|].
    destruct (Ascii.eqb_spec l "h") as [->|]; [by destruct (su_job_name su), (su_cluster su)|]. 
    destruct (su_job_name su), (su_cluster su); rewrite ?(proj2 (Ascii.eqb_neq _ _)) by done; done. }
  assert (Hsub : forall e, (forall l v, e l = Some v -> message_values su l = Some v) -> plain_values e /\ no_double_percent e s).
  { intros e He. split; [intros l v Hv; by eapply Hp, He|]. intros a b l E. destruct (e l) as [v|] eqn:El; [|done]. apply He in El. by rewrite (Hd _ _ _ E) in El. }
  assert (S4 : forall l v, e4 l = Some v -> message_values su l = Some v).
  { intros l v Hv. rewrite <- H5. unfold e5, add. destruct (Ascii.eqb_spec l "h") as [->|]; [|done]. exfalso. revert Hv.
    unfold e4, e3, e2, e1, e0, add. by destruct (su_cluster su), (su_job_name su). }
  assert (S3 : forall l v, e3 l = Some v -> message_values su l = Some v).
  { intros l v Hv. apply S4. unfold e4. destruct (su_cluster su); [|done]. unfold add. destruct (Ascii.eqb_spec l "c") as [->|]; [|done]. exfalso. revert Hv.
    unfold e3, e2, e1, e0, add. by destruct (su_job_name su). }
  assert (S2 : forall l v, e2 l = Some v -> message_values su l = Some v).
  { intros l v Hv. apply S3. unfold e3. destruct (su_job_name su); [|done]. unfold add. destruct (Ascii.eqb_spec l "x") as [->|]; [|done]. exfalso. by revert Hv. }
  assert (S1 : forall l v, e1 l = Some v -> message_values su l = Some v).
  { intros l v Hv. apply S2. unfold e2, add. destruct (Ascii.eqb_spec l "j") as [->|]; [|done]. exfalso. by revert Hv. }
  apply (filled_ext e5); [done|].
  apply filled_replace; [done|unfold e4, e3; by destruct (su_cluster su), (su_job_name su)|by apply Hsub|by apply Hsub|].
  assert (F2 : filled e2 s (replace "j" (slurm_jobid su) (replace "u" (su_user su) s))).
  { apply filled_replace; [done|done|by apply Hsub|by apply Hsub|]. apply filled_replace; [done|done|done|by intros ? ? ? _|]. by apply filled_none. }
  assert (F3 : filled e3 s (replace "x" (default (B "%x") (su_job_name su)) (replace "j" (slurm_jobid su) (replace "u" (su_user su) s)))).
  { unfold e3. destruct (su_job_name su) as [x|]; cbn [default]; [|rewrite (replace_itself "x"); done].
    apply filled_replace; [done|done|by apply Hsub|by apply Hsub|done]. }
  unfold e4. destruct (su_cluster su) as [x|]; cbn [default]; [|rewrite (replace_itself "c"); done].
  apply filled_replace; [done|unfold e3; by destruct (su_job_name su)|by apply Hsub|by apply Hsub|done].
Qed.

(** The same for the name of slurm's error file, which needs SLURM_JOB_ID. *)
Theorem error_logfile_filled su s j : su_job_id su = Some j -> plain_values (logfile_values su j) -> no_double_percent (logfile_values su j) s ->
  exists t, error_logfile su s = Some t /\ filled (logfile_values su j) s t.
Proof.
  intros Hj Hp Hd. unfold error_logfile. rewrite Hj. eexists. split; [reflexivity|].
  pose (e0 := fun _ : ascii => @None bytes). pose (e1 := add "u" (su_user su) e0).
  assert (S1 : forall l v, e1 l = Some v -> logfile_values su j l = Some v).
  { intros l v. unfold e1, e0, add, logfile_values. by destruct (Ascii.eqb l "u"). }
  apply (filled_ext (add "j" j e1)).
  { intros l. unfold add, e1, e0, add, logfile_values. destruct (Ascii.eqb_spec l "j") as [->|]; [done|]. done. }
  apply filled_replace; [done|done|intros l v Hv; by eapply Hp, S1| |].
  - intros a b l E. destruct (e1 l) as [v|] eqn:El; [|done]. apply S1 in El. by rewrite (Hd _ _ _ E) in El.
  - apply filled_replace; [done|done|done|by intros ? ? ? _|]. by apply filled_none.
Qed.
Theorem no_job_no_logfile su s : su_job_id su = None -> error_logfile su s = None.
Proof. unfold error_logfile. by intros ->. Qed.

(** ** Refutations *)
(** A percent sign before a placeholder: the value is taken for a placeholder itself. *)
Theorem disconnect_message_filled_refuted : exists su s, plain_values (message_values su) /\ ~ filled (message_values su) s (disconnect_message su s).
Proof.
  exists (Surroundings (B "joe") None (Some (B "12")) (Some (B "3")) None None (B "node")), (B "%%u"). split.
  - intros l v. unfold message_values. cbn [su_user su_job_name su_cluster su_host].
    repeat (case_match; [intros [= <-]; vm_compute; intros Hin; repeat (apply elem_of_cons in Hin as [Hin|Hin]; [discriminate Hin|]); by apply elem_of_nil in Hin|]). done.
  - intros Hf. assert (Hg : filled (message_values (Surroundings (B "joe") None (Some (B "12")) (Some (B "3")) None None (B "node"))) (B "%%u") (B "%joe")).
    { apply fi_other; [intros (l & s' & v & [= <- <-] & Hv); discriminate Hv|]. apply (fi_hole _ "u" (B "joe") [] []); [done|constructor]. }
    pose proof (filled_unique _ _ _ _ Hf Hg) as E. vm_compute in E. discriminate E.
Qed.
(** A character that is written in two pieces kills the task: no word is in the file and it is UTF-8 as a whole. *)
Definition cf0 : RemoteModel.config := RemoteModel.Config 0 None None.
Definition in_task : list alarm_action := [WRunner (IGiven 1); WRunner (ISpawned 77 false); WRunner (IOk false 0)].
Definition e_acute : bytes := ["195"%char; "169"%char].
Theorem no_false_alarm_refuted : exists f acts s os, alarm_run cf0 (alarm_start f) acts = Some (s, os) /\ is_utf8 f /\
  is_utf8 (f ++ written acts) /\ ~ has_word (f ++ written acts) /\ ARunner (VSigterm 77 None) ∈ os.
Proof.
  exists [], (in_task ++ [WAppend ["195"%char] false; WEvent; WSend; WAppend ["169"%char] false; WRecv]). eexists _, _. split; [vm_compute; reflexivity|].
  split; [exists []; by split|]. split.
  - apply Utf8Proofs.utf8_valid_spec. vm_compute. reflexivity.
  - split; [|repeat (first [apply elem_of_list_here|apply elem_of_list_further])].
    intros H. apply alarm_word in H. vm_compute in H. discriminate H.
Qed.
(** The error of a task that slurm has cancelled before the watcher was installed goes unnoticed. *)
Theorem alarm_raised_refuted : exists f, alarming f /\ forall acts s os, alarm_run cf0 (alarm_start f) acts = Some (s, os) -> ~ Exists modifies acts ->
  forall m, AMessage m ∉ os.
Proof.
  exists (B "CANCELLED"). split.
  - left. exists "CANCELLED"%string. split; [by left|]. by exists [], [].
  - intros acts s os H Hn m Hm. destruct (unmodified_file_unnoticed _ _ _ _ _ H Hn _ Hm) as [[] _]. by exists m.
Qed.
(** The report can lack what slurm wrote last, which is the reason of the cancellation. *)
Theorem last_line_reported_refuted : exists acts s os tx m, alarm_run cf0 (alarm_start []) acts = Some (s, os) /\ al_events s = 0 /\
  occurs (B "CANCELLED") (written acts) /\ ARunner (VEnd tx (Code (-15)) false (Some m) false None) ∈ os /\ ~ occurs (B "CANCELLED") (B m).
Proof.
  exists (in_task ++ [WAppend (B "ERROR 1 ") false; WEvent; WSend; WAppend (B "CANCELLED AT") false; WEvent; WRecv; WSend]). eexists _, _, 1%N, "ERROR 1 "%string.
  split; [vm_compute; reflexivity|]. split; [reflexivity|]. split; [exists (B "ERROR 1 "), (B " AT"); reflexivity|].
  split; [repeat (first [apply elem_of_list_here|apply elem_of_list_further])|]. rewrite <- contains_spec. vm_compute. done.
Qed.

Print Assumptions slurm_report.
Print Assumptions alarm_raised.
Print Assumptions alarm_answered.
Print Assumptions no_false_alarm.
Print Assumptions unmodified_file_unnoticed.
Print Assumptions disconnect_message_filled.
Print Assumptions error_logfile_filled.
Print Assumptions no_job_no_logfile.
Print Assumptions disconnect_message_filled_refuted.
Print Assumptions no_false_alarm_refuted.
Print Assumptions alarm_raised_refuted.
Print Assumptions last_line_reported_refuted.

(** ** Examples *)
(** A word in two pieces. *)
Example alarm_in_pieces : exists acts s os, alarm_run cf0 (alarm_start (B "slurmstepd: ")) acts = Some (s, os) /\ al_events s = 0 /\ al_sending s = None /\
  Exists modifies acts /\ written acts = B "step CANCELLED AT" /\ al_runner s = MWait 1 77 false /\ os = [ARunner (VGiven 1); ARunner (VBegun 1 77); AMessage (B "slurmstepd: step CANCELLED AT")].
Proof.
  exists (in_task ++ [WAppend (B "step CAN") false; WEvent; WAppend (B "CELLED AT") false; WEvent; WSend]). eexists _, _. split; [vm_compute; reflexivity|].
  split; [reflexivity|]. split; [reflexivity|]. split; [do 3 apply Exists_cons_tl; by apply Exists_cons_hd|]. split; [reflexivity|]. split; reflexivity.
Qed.
Example quiet_file : exists acts s os, alarm_run cf0 (alarm_start e_acute) acts = Some (s, os) /\ is_utf8 e_acute /\ (forall a, In a acts -> is_utf8 (appended a)) /\
  ~ has_word (e_acute ++ written acts) /\ written acts = B "error: none" ++ e_acute.
Proof.
  exists (in_task ++ [WAppend (B "error: ") false; WEvent; WAppend (B "none" ++ e_acute) false; WEvent]). eexists _, _. split; [vm_compute; reflexivity|].
  split; [apply Utf8Proofs.utf8_valid_spec; vm_compute; reflexivity|]. split.
  - intros a Ha. apply Utf8Proofs.utf8_valid_spec. vm_compute in Ha. repeat (destruct Ha as [<-|Ha]; [vm_compute; reflexivity|]). done.
  - split; [|reflexivity]. intros H. apply alarm_word in H. vm_compute in H. discriminate H.
Qed.
Example message_demo : exists su s, plain_values (message_values su) /\ no_double_percent (message_values su) s /\
  s = B "%u lost %j (%x, %c) on %h 100%" /\ disconnect_message su s = B "joe lost 12_3 (train, %c) on node 100%".
Proof.
  exists (Surroundings (B "joe") None (Some (B "12")) (Some (B "3")) (Some (B "train")) None (B "node")). eexists. split; [|split; [|split; [reflexivity|vm_compute; reflexivity]]].
  - intros l v. unfold message_values. cbn [su_user su_job_name su_cluster su_host].
    repeat (case_match; [first [intros [= <-]; vm_compute; intros Hin; repeat (apply elem_of_cons in Hin as [Hin|Hin]; [discriminate Hin|]); by apply elem_of_nil in Hin|done]|]). done.
  - intros a b l E. assert (C : contains [PC; PC] (B "%u lost %j (%x, %c) on %h 100%") = true).
    { apply contains_spec. exists a, (l :: b). exact E. }
    vm_compute in C. discriminate C.
Qed.
