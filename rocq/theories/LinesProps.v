(** C61: what execute() prints about the tasks. Vocabulary: LinesSpec.v. *)
From Verif Require Import LinesProofs SchedProps.
Open Scope list_scope.

Section theorems.
Variable cfg : config.
Variable offset : N.
Variable outs : nat -> string * string.
Hypothesis Hok : config_ok cfg.
(** The numbers fit into 32 bits. *)
Hypothesis Hfit : (offset + N.of_nat (length (nodes (cf_g cfg))) < U32)%N.

(** Every message is determined by the reports: nothing else is printed. *)
Theorem console_shows acts s t c : lines_run cfg offset outs (initial cfg) acts = Some (s, t, c) -> shows cfg offset outs t c.
Proof. by apply lines_shows. Qed.

(** The numbers grow, start after those of the earlier calls, and do not pass the total. *)
Theorem progress_grows acts s t c : lines_run cfg offset outs (initial cfg) acts = Some (s, t, c) ->
  StronglySorted N.lt (numbers c) /\ Forall (fun k => offset < k <= offset + N.of_nat (length (nodes (cf_g cfg))))%N (numbers c) /\
  Forall (fun n => n = offset + N.of_nat (length (nodes (cf_g cfg))))%N (totals c).
Proof.
  intros H. destruct (shows_numbers cfg offset outs t c (console_shows _ _ _ _ H)) as (H1 & H2 & H3). split; [done|]. split; [|done].
  eapply Forall_impl; [exact H2|]. cbn. intros k Hk. assert (Hr : reachable cfg s t) by (exists acts; by eapply lines_run_run).
  pose proof (reports_le cfg Hok s t Hr) as Hle. unfold node_count in Hle. lia.
Qed.

(** Each task is reported at most once. *)
Theorem each_task_reported_once s t : reachable cfg s t -> NoDup (map fst (reports t)).
Proof. intros Hr. by apply (reports_nodup cfg Hok s t Hr). Qed.

(** Exactly the tasks reported successful have a progress line, in this order. *)
Theorem successes_shown acts s t c : lines_run cfg offset outs (initial cfg) acts = Some (s, t, c) ->
  texts c = map (task_text cfg) (good_reports t).
Proof. intros H. eapply shows_texts, console_shows, H. Qed.

(** Exactly the tasks that fail before a soft shutdown have a line about the failure, in this order. *)
Theorem failures_shown acts s t c : lines_run cfg offset outs (initial cfg) acts = Some (s, t, c) ->
  failure_lines c = map (fun n => (task_key cfg n, task_runcount cfg n, task_text cfg n)) (bad_reports (before_soft t)).
Proof. intros H. eapply shows_failures, console_shows, H. Qed.

(** A call that ends normally without a failure counts from [offset] + 1 to the total, and shows each task. *)
Theorem all_counted acts s t c : lines_run cfg offset outs (initial cfg) acts = Some (s, t, c) ->
  In (OExit ExitDone) t -> ~ soft_begun t -> bad_reports t = [] ->
  numbers c = map (fun i => (offset + N.of_nat i)%N) (seq 1 (length (nodes (cf_g cfg)))) /\
  Permutation (texts c) (map (task_text cfg) (seq 0 (length (nodes (cf_g cfg))))).
Proof.
  intros H Hin Hs Hb. assert (Hr : reachable cfg s t) by (exists acts; by eapply lines_run_run).
  destruct (all_reported cfg s t Hok Hr Hin Hs Hb) as [HP Hl]. split.
  - rewrite <- Hl. eapply shows_all_numbers; [by eapply console_shows|done].
  - rewrite (successes_shown _ _ _ _ H). by apply Permutation_map.
Qed.

(** Every run prints. *)
Theorem prints_along acts s t : run cfg (initial cfg) acts = Some (s, t) -> exists c, lines_run cfg offset outs (initial cfg) acts = Some (s, t, c).
Proof. apply run_lines_run. Qed.
End theorems.
Print Assumptions console_shows.
Print Assumptions progress_grows.
Print Assumptions each_task_reported_once.
Print Assumptions successes_shown.
Print Assumptions failures_shown.
Print Assumptions all_counted.
Print Assumptions prints_along.

(** The numbers and the text can be read off the printed line. *)
Theorem progress_line_readable k n x k' n' x' : show (Progress k n x) = show (Progress k' n' x') -> k = k' /\ n = n' /\ x = x'.
Proof. apply progress_inj. Qed.
Print Assumptions progress_line_readable.

(** What the lines look like: the two numbers are decimal, the run count is hexadecimal. *)
Theorem progress_line_text k n x : exists a b, digits_value 0 a = Some k /\ digits_value 0 b = Some n /\
  show (Progress k n x) = "[" +:+ a +:+ "/" +:+ b +:+ "] " +:+ x +:+ String "010" "".
Proof. exists (decimal k), (decimal n). split; [apply decimal_value|]. split; [apply decimal_value|]. reflexivity. Qed.
(** Apart from the colours. *)
Theorem failure_line_text label key r x : no_escape label -> exists a, hex_value 0 a = Some r /\
  uncoloured false (show (Failure label key r x)) = label +:+ uncoloured false (": wrk/" +:+ key +:+ "." +:+ a +:+ ": " +:+ x +:+ String "010" "").
Proof.
  intros H. exists (hexadecimal r). split; [apply hexadecimal_value|]. cbn [show]. change (uncoloured false (escape +:+ "[1;31m" +:+ ?s)) with (uncoloured false s).
  rewrite plain_label by done. reflexivity.
Qed.
Print Assumptions progress_line_text.
Print Assumptions failure_line_text.

Example shown_progress : show (Progress 3 12 "make all") = "[3/12] make all" +:+ LinesModel.newline.
Proof. reflexivity. Qed.
Example shown_failure : show (Failure "FAILED" "abc" 17 "make") = LinesModel.escape +:+ "[1;31mFAILED:" +:+ LinesModel.escape +:+ "[0m wrk/abc.11: make" +:+ LinesModel.newline.
Proof. vm_compute. reflexivity. Qed.

(** demo: task 2 fails within five seconds, task 3 depends on it. *)
Definition hello (n : nat) : string * string := (""%string, if Nat.eqb n 2 then "oh" else "")%string.
Example demo_prints : exists s, lines_run demo 5 hello (initial demo) demo_acts = Some (s, demo_trace,
  [Progress 6 9 "true"; Progress 7 9 "true"; Failure "FIZZLED" "c" 0 "true"; Output "oh"]).
Proof. eexists. vm_compute. reflexivity. Qed.

(** Two tasks without a failure. *)
Definition pair_script : list script :=
  [Do (AInit [0; 1]); Flush; Do (ARecv 0); Do (APop 0 1); Do (AClaim 0); Do (ACount 0)] ++ finish_task 0 (Code 0) ++ take_task 0 ++ finish_task 0 (Code 0).
Example pair_prints : exists s t, lines_run prio 0 hello (initial prio) (expand prio (initial prio) pair_script) = Some (s, t, [Progress 1 2 "true"; Progress 2 2 "true"]) /\
  In (OExit ExitDone) t /\ ~ soft_begun t /\ bad_reports t = [].
Proof.
  eexists _, _. split; [vm_compute; reflexivity|]. split; [simpl; tauto|]. split; [|reflexivity]. intros [c H]. absent H.
Qed.

(** The clean-up reports: a hard cancel. *)
Example hard_prints : exists s t, lines_run demo 0 hello (initial demo) (expand demo (initial demo) hard_script) = Some (s, t, [Failure "DISCONNECTED" "a" 0 "true"]).
Proof. eexists _, _. vm_compute. reflexivity. Qed.

(** Not true: every failure is shown; the output of every task is shown. After the begin of a soft shutdown neither is. *)
Definition soft_script : list script :=
  [Do (AInit [0; 1; 2]); Flush] ++ take_task 0 ++ take_task 1 ++ [Do (ASendStarted 1 "host" 8 ""); Do (AEvent 10); Do ATriggerSoft; Do ASoft; Flush] ++ finish_task 0 (Code 3)
  ++ [Do (ASendFinished 1 (Code 0) [] None); Do (AEvent 20)].
Theorem every_failure_shown_refuted :
  exists cfg outs acts s t c n, config_ok cfg /\ lines_run cfg 0 outs (initial cfg) acts = Some (s, t, c) /\ failed t n /\ failure_lines c = [] /\
    fst (outs n) <> ""%string /\ ~ In (Output (fst (outs n))) c.
Proof.
  exists limited, (fun _ => ("out", "")%string), (expand limited (initial limited) soft_script). eexists _, _, _, 0. split; [config_ok|].
  split; [vm_compute; reflexivity|]. split; [exists (Code 3); split; [exists (Some 10%N); simpl; tauto|done]|]. split; [reflexivity|]. split; [done|]. intros H. absent H.
Qed.
Print Assumptions every_failure_shown_refuted.
Theorem every_output_shown_refuted :
  exists cfg outs acts s t c n, config_ok cfg /\ lines_run cfg 0 outs (initial cfg) acts = Some (s, t, c) /\ succeeded t n /\
    fst (outs n) <> ""%string /\ ~ In (Output (fst (outs n))) c.
Proof.
  exists limited, (fun _ => ("out", "")%string), (expand limited (initial limited) soft_script). eexists _, _, _, 1. split; [config_ok|].
  split; [vm_compute; reflexivity|]. split; [exists (Some 10%N); simpl; tauto|]. split; [done|]. intros H. absent H.
Qed.
Print Assumptions every_output_shown_refuted.
