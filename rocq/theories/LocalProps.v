(** Theorems about exit statuses (C42), values on file descriptor 3 (C43) and the local loop (C44). *)
From Verif Require Import LocalProofs SchedProofs.
From Coq Require Import Lia.

(** ** C42 *)
(** The report that each outcome leads to, in the model: localrunner.rs:98-113, 232-238, 134-141, execgraph-remote.rs and
    server.rs:484, FinishedEvent::new_disconnected (sync.rs:751). *)
Inductive reported : outcome -> exit_status -> Prop :=
| rp_local e s : child_code (raw_status e) = Some s -> reported (Ended e) s
| rp_remote e s : remote_status (ROutput (raw_status e)) = Some s -> reported (Ended e) s
| rp_unspawnable n st cs s vs : loop_step (LTaken n) InSpawnFails = Some (st, cs) -> In (CallFinished n s vs) cs -> reported CannotStart s
| rp_remote_unspawnable s : remote_status RUnspawnable = Some s -> reported CannotStartRemotely s
| rp_slurm s : remote_status RSlurmError = Some s -> reported SlurmCancelled s
| rp_soft n t st cs s vs : loop_step (LRunning n) (InSoft t) = Some (st, cs) -> In (CallFinished n s vs) cs -> reported SoftCancelled s
| rp_lost : reported Lost Disconnected.

(** The logged number tells how the attempt ended; it is 0, and the scheduler counts a success, exactly for exit code 0. *)
Theorem logged_status_exact o s :
  outcome_ok o -> reported o s ->
  as_i32 s = number o /\ (as_i32 s = 0%Z <-> o = Ended (Exited 0)) /\ (is_success s = true <-> o = Ended (Exited 0)).
Proof.
  intros Ho Hr.
  assert (as_i32 s = number o) as E.
  { destruct Hr as [e s H|e s H|n st cs s vs H Hin|s H|s H|n t st cs s vs H Hin|].
    - destruct e as [c|sg core]; simpl in Ho; [rewrite child_code_exited in H by done|rewrite child_code_killed in H by done]; by injection H as <-.
    - cbn [remote_status] in H. destruct e as [c|sg core]; simpl in Ho; [rewrite child_code_exited in H by done|rewrite child_code_killed in H by done]; by injection H as <-.
    - injection H as <- <-. destruct Hin as [?|[[= <- <-]|[?|[]]]]; done.
    - by injection H as <-.
    - by injection H as <-.
    - injection H as <- <-. destruct Hin as [[= <- <-]|[]]. done.
    - done. }
  assert (as_i32 s = 0%Z <-> o = Ended (Exited 0)) as E0.
  { rewrite E. split; [|by intros ->]. destruct o as [[c|sg core]| | | | |]; simpl in *; intros H; try lia.
    - assert (c = 0%N) as -> by lia. done. }
  split; [done|]. split; [done|]. rewrite <- E0. destruct s as [c| |]; simpl; [apply Z.eqb_eq|lia..].
Qed.
Print Assumptions logged_status_exact.

(** Every way in which waitpid can describe the end of a process is reported, without panic. *)
Theorem every_ending_reported e : ending_ok e -> exists s, child_code (raw_status e) = Some s.
Proof. destruct e; intros H; [rewrite child_code_exited by done|rewrite child_code_killed by done]; eauto. Qed.
Print Assumptions every_ending_reported.

(** The finished records that an execute() call writes are those of the finish reports it processed, in this order, with
    these statuses. *)
Definition finished_record (e : log_entry) : option (string * Z) :=
  match e with Finished f => Some (f_key f, f_status f) | _ => None end.
Definition finish_processed (cfg : config) (o : obs) : option (string * Z) :=
  match o with OFinished n s _ | ODrainFinished n s => Some (task_key cfg n, as_i32 s) | _ => None end.
Theorem statuses_reach_the_log cfg s t :
  config_ok cfg -> reachable cfg s t ->
  exists new, new_records cfg s new /\ omap finished_record new = omap (finish_processed cfg) t.
Proof.
  intros Hok Hr. destruct (log_records cfg Hok s t Hr) as (new & inf & fin & Hnew & _ & HDL & _). exists new. split; [done|].
  exact (l_fin _ _ _ _ _ _ _ HDL).
Qed.
Print Assumptions statuses_reach_the_log.

Example endings_demo : ending_ok (Exited 0) /\ ending_ok (Killed 9 false) /\ ending_ok (Killed 11 true) /\
  child_code 0 = Some (Code 0) /\ child_code 256 = Some (Code 1) /\ child_code 9 = Some (Code (-9)) /\ child_code 139 = Some (Code (-11)).
Proof. repeat split; try reflexivity; simpl; lia. Qed.
(** The numbers do not tell failures apart: a process killed by signal 10 is logged like one cancelled, and one killed by
    signal 1 like one that was lost. *)
Theorem statuses_distinct_refuted : exists o o' s s', o <> o' /\ outcome_ok o /\ outcome_ok o' /\ reported o s /\ reported o' s' /\ as_i32 s = as_i32 s'.
Proof.
  exists (Ended (Killed 10 false)), SoftCancelled, (Code (-10)), Cancelled. split; [done|]. split; [simpl; lia|]. split; [done|].
  split; [constructor; reflexivity|]. split; [|reflexivity]. eapply (rp_soft 0 0); [reflexivity|by left].
Qed.
Print Assumptions statuses_distinct_refuted.

(** ** C43 *)
(** The values are the maps of the lines, for bytes that are UTF-8, and nothing otherwise. The grammar of lines and words is
    in LocalSpec.v; the right side determines [ms]. *)
Theorem fd3_values_exact b ms : is_utf8 b -> fd3_values b = ms <-> exists ls, in_lines b ls /\ maps_of ls ms.
Proof. apply fd3_exact. Qed.
Print Assumptions fd3_values_exact.
Theorem fd3_values_not_utf8 b : ~ is_utf8 b -> fd3_values b = [].
Proof. intros H. unfold fd3_values. destruct (utf8_valid b) eqn:E; [|done]. by apply utf8_valid_spec in E. Qed.
Print Assumptions fd3_values_not_utf8.

(** Consequence for a process that quotes its values: each name=value, put in single quotes, comes back unchanged, whatever
    other bytes it holds. *)
Definition quoted (k v : bytes) : bytes := QUOTE :: (k ++ EQUALS :: v) ++ [QUOTE].
Theorem quoted_value_comes_back k v :
  is_utf8 (quoted k v ++ [NL]) -> EQUALS ∉ k -> QUOTE ∉ k ++ v -> NL ∉ k ++ v ->
  fd3_values (quoted k v ++ [NL]) = [{[text k := text v]}].
Proof.
  intros Hu Hk Hq Hn. apply fd3_exact; [done|]. rewrite not_elem_of_app in Hq, Hn. exists [quoted k v]. split.
  - change (quoted k v ++ [NL]) with (quoted k v ++ NL :: []). apply il_nl; [| |constructor].
    + unfold no_nl, quoted. rewrite !not_elem_of_cons, !not_elem_of_app, !not_elem_of_cons. repeat split; try done; try tauto; apply not_elem_of_nil.
    + intros l'. unfold quoted. rewrite app_comm_cons. intros E. apply app_inj_tail in E as [_ E]. discriminate.
  - eapply mo_line; [| |constructor].
    + apply ws_last. split; [|split; [done|done]]. rewrite <- (app_nil_r (quoted k v)). apply ps_cons; [|constructor].
      apply pc_single. rewrite not_elem_of_app, not_elem_of_cons. split; [tauto|]. split; [done|tauto].
    + intros k' v'. rewrite app_nil_r. split.
      * intros H. apply lookup_singleton_Some in H as [E1 E2]. apply text_inj in E1, E2. subst k' v'.
        exists [], (k ++ EQUALS :: v), []. split; [done|]. split; [done|]. intros w' v' H. by apply elem_of_nil in H.
      * intros (ws1 & w & ws2 & E & Ha & _). destruct ws1 as [|? [|]]; try done. injection E as <- <-.
        assert (assigns (k ++ EQUALS :: v) k v) as Ha' by done. apply split_eq_spec in Ha, Ha'. rewrite Ha in Ha'. injection Ha' as -> ->.
        by rewrite lookup_singleton.
Qed.
Print Assumptions quoted_value_comes_back.

(** A demonstration: five lines, one of them with an unclosed quote, one with a comment, one repeating a name. *)
Definition fd3_demo : bytes := list_ascii_of_string "a=1 'b c=2 3' x ""d=\""q""
bad='1
e=5 # f=6
g=1 g=2=3
" ++ ["z"%char; EQUALS; CR; NL].
Example fd3_demo_ok : utf8_valid fd3_demo = true /\
  fd3_values fd3_demo =
    [ <["a" := "1"]> (<["b c" := "2 3"]> {["d" := """q"]}); {["e" := "5"]}; {["g" := "2=3"]}; {["z" := ""]} ]%string.
Proof. split; [vm_compute; reflexivity|]. apply (bool_decide_eq_true_1 _). vm_compute. reflexivity. Qed.
Example quoted_demo : is_utf8 (quoted ["k"%char] (list_ascii_of_string "a b=""\#") ++ [NL]).
Proof. apply utf8_valid_spec. reflexivity. Qed.

(** ** C44 *)
(** Completed rounds report a start and then a finish, exactly once each, for each task taken, in this order, with the
    status and values of the attempt; after them comes at most one incomplete round, whose form tells why the loop stopped:
    a soft cancel reports the task as cancelled, a hard cancel reports nothing more; nothing is taken after either. *)
Theorem local_loop_reports is st cs :
  loop_run LRecv is = Some (st, cs) ->
  exists rounds cur lc, cs = concat (map round_calls rounds) ++ lc /\
    tasks_taken is = map rd_task rounds ++ option_list cur /\
    Forall2 round_reports rounds (loop_attempts is) /\ last_calls is st cur lc.
Proof. apply loop_shape. Qed.
Print Assumptions local_loop_reports.

(** Once the loop has ended it takes nothing. *)
Theorem local_loop_ended is st : st = LEnded \/ st = LPanicked -> is <> [] -> loop_run st is = None.
Proof. intros [->| ->] H; destruct is as [|[]]; done. Qed.
Print Assumptions local_loop_ended.

(** The reports are legal steps of a client of the tracker that has been handed the task (SchedModel.v). *)
Theorem local_loop_is_a_client cfg s c host n is cs :
  st_clients s !! c = Some (CHolding n) -> is_Some (cf_types cfg !! c) -> loop_run (LTaken n) is = Some (LRecv, cs) -> tasks_taken is = [] ->
  exists s' t, run cfg s (omap (call_action c host) cs) = Some (s', t) /\ exists x t', t = OSentStarted c n :: OSentFinished c n x None :: t'.
Proof.
  intros Hc [i Hi] Hrun Ht.
  destruct (loop_shape (InTask n :: is) LRecv (CallPreamble n :: cs)) as (rounds & cur & lc & E & Htt & _ & -> & ->).
  { cbn [loop_run loop_step]. rewrite Hrun. done. }
  change (tasks_taken (InTask n :: is)) with (n :: tasks_taken is) in Htt. rewrite Ht in Htt. cbn [option_list] in Htt. rewrite !app_nil_r in *.
  destruct rounds as [|r [|]]; try done. cbn [map concat] in *. injection Htt as ->. rewrite app_nil_r in E. injection E as ->.
  cbn [omap list_omap call_action run].
  cbn [step]. rewrite Hc. cbn [run step set_client st_clients set_events].
  rewrite list_lookup_insert by (by eapply lookup_lt_Some).
  cbn [run step set_client st_clients set_events]. rewrite list_lookup_insert by (rewrite insert_length; by eapply lookup_lt_Some).
  rewrite Hi. match goal with |- context [st_closed ?x !! i] => destruct (st_closed x !! i) as [[]|] end;
    (eexists _, _; split; [reflexivity|]; cbn [app]; eauto).
Qed.
Print Assumptions local_loop_is_a_client.

Definition loop_demo : list loop_input :=
  [InTask 3; InSpawned 100 false; InOutput 256 (list_ascii_of_string "a=1
"); InTask 4; InSpawnFails; InTask 5; InSpawned 101 true; InFed; InSoft 7].
Example loop_demo_ok : exists cs, loop_run LRecv loop_demo = Some (LEnded, cs) /\ length cs = 11.
Proof. eexists. split; vm_compute; reflexivity. Qed.
Example client_demo : exists cs, loop_run (LTaken 3) [InSpawned 100 true; InFed; InOutput 9 []] = Some (LRecv, cs).
Proof. eexists. vm_compute. reflexivity. Qed.

(** "Each task taken is reported finished unless the run was interrupted" is false: if the process does not read all of its
    input (the write to its file descriptor fails), the runner panics and neither a start nor a finish is reported. *)
Theorem local_loop_always_reports_refuted :
  exists is cs, loop_run LRecv is = Some (LPanicked, cs) /\ ~ In InHard is /\ tasks_taken is = [0] /\
    forall s vs pid, ~ In (CallFinished 0 s vs) cs /\ ~ In (CallStarted 0 pid) cs.
Proof.
  exists [InTask 0; InSpawned 9 true; InFeedFails], [CallPreamble 0]. split; [reflexivity|]. split; [simpl; intros H; repeat destruct H as [H|H]; done|].
  split; [reflexivity|]. intros s vs pid. split; intros [|[]]; done.
Qed.
Print Assumptions local_loop_always_reports_refuted.
