(** Theorems about the server for remote runners: C30 to C33. *)
From Verif Require Import ServerSpec ServerProofs ServerTrace ServerTime.
From Coq Require Import Lia.
From stdpp Require Import prelude.

(** ** C31 *)
(** The tracker is told of the end of a task at most as often as it delivered that task to a handler, whatever the
    requests and their order. *)
Theorem finished_at_most_once secret ls s evs n :
  run secret server_new ls = Some (s, evs) -> finishes n evs <= tasks n evs.
Proof. intros H. destruct (account_run secret n ls _ _ _ H) as [Hle _]. rewrite held_new in Hle. lia. Qed.
Print Assumptions finished_at_most_once.

(** It is told exactly as often once nothing is going on, if no runner ends the transaction of another job and no drawn
    transaction id is in use. *)
Theorem finished_exactly_once secret ls s evs n :
  run secret server_new ls = Some (s, evs) -> along secret (honest secret) server_new ls -> at_rest s -> finishes n evs = tasks n evs.
Proof.
  intros H Hh Hr. destruct (account_run secret n ls _ _ _ H) as [_ Heq]. rewrite held_new, (held_rest _ _ Hr) in Heq. apply Heq; [done|].
  destruct Hr as (_ & _ & [->| ->]); done.
Qed.
Print Assumptions finished_exactly_once.

(** After an /end, and until the same id is handed out again, a second /end answers 404 and has no effect. *)
Theorem repeated_end_refused secret h j tx rep next ls s s' evs h' j' rep' next' :
  run secret s (LRequest h secret (Some j) (QEnd tx rep next) :: ls) = Some (s', evs) ->
  (forall e n, e ∈ evs -> ~ gives tx n e) -> sv_handlers s' !! h' = None ->
  step secret s' (LRequest h' secret (Some j') (QEnd tx rep' next')) = Some (s', [EReply h' (RError NoSuchTransaction)]).
Proof.
  intros H Hg Hh. cbn [run] in H. destruct (step secret s (LRequest h secret (Some j) (QEnd tx rep next))) as [[s1 e1]|] eqn:E; [|discriminate].
  destruct (run secret s1 ls) as [[s2 e2]|] eqn:E2; [|discriminate]. injection H as <- <-.
  apply end_of_unknown; [done|]. eapply opens_run; [exact E2|by eapply end_closes|]. intros e n He. apply Hg. set_solver.
Qed.
Print Assumptions repeated_end_refused.

(** An /end with an id that was never handed out answers 404 and has no effect. *)
Theorem forged_end_refused secret tx ls s evs h j rep next :
  run secret server_new ls = Some (s, evs) -> (forall e n, e ∈ evs -> ~ gives tx n e) -> sv_handlers s !! h = None ->
  step secret s (LRequest h secret (Some j) (QEnd tx rep next)) = Some (s, [EReply h (RError NoSuchTransaction)]).
Proof. intros H Hg Hh. apply end_of_unknown; [done|]. by eapply opens_run. Qed.
Print Assumptions forged_end_refused.

(** A report of the end of task n with a runner's report: there is an /end with that report, for the transaction under
    which n was the last task handed out. *)
Theorem end_reports_own_task secret ls s evs n rep :
  run secret server_new ls = Some (s, evs) -> EFinished n (inl rep) ∈ evs ->
  exists ls1 h j tx next ls2 s1 ev1, ls = ls1 ++ LRequest h secret (Some j) (QEnd tx rep next) :: ls2 /\
    run secret server_new ls1 = Some (s1, ev1) /\ last_given tx n ev1.
Proof. intros H Hin. exact (so_fin _ _ _ _ (sources_run secret ls s evs H) _ _ Hin). Qed.
Print Assumptions end_reports_own_task.

(** A report of the disconnection of task n: n was handed out, and the message comes from a request for a task. *)
Theorem disconnection_reports_given_task secret ls s evs n msg :
  run secret server_new ls = Some (s, evs) -> EFinished n (inr msg) ∈ evs ->
  (exists tx e, e ∈ evs /\ gives tx n e) /\
  exists h j rt q, LRequest h secret j q ∈ ls /\ (q = QStart (StartReq rt msg) \/ exists tx rep, q = QEnd tx rep (Some (StartReq rt msg))).
Proof.
  intros H Hin. destruct (so_fin _ _ _ _ (sources_run secret ls s evs H) _ _ Hin) as [H1 (h & j & q & H2 & rt & H3)].
  split; [exact H1|]. exists h, j, rt, q. split; [exact H2|exact H3].
Qed.
Print Assumptions disconnection_reports_given_task.

(** A check of [honest] along a run, for the examples. *)
Definition honestb (secret : string) (s : server) (l : label) : bool :=
  match l with
  | LRequest h token (Some j) (QEnd tx _ _) =>
      match sv_conns s !! tx with Some c => String.eqb (c_job c) j | None => true end
  | LRun h _ =>
      match sv_handlers s !! h with
      | Some (HTimed _ _ _ _ tx _) => match sv_conns s !! tx with None => true | Some _ => false end
      | _ => true
      end
  | _ => true
  end.
Fixpoint honest_run (secret : string) (s : server) (ls : list label) : bool :=
  match ls with
  | [] => true
  | l :: ls => honestb secret s l && match step secret s l with Some (s', _) => honest_run secret s' ls | None => true end
  end.
Lemma honest_run_spec secret ls : forall s, honest_run secret s ls = true -> along secret (honest secret) s ls.
Proof.
  induction ls as [|l ls IH]; intros s H; [exact I|]. cbn [honest_run] in H. apply andb_true_iff in H as [H1 H2]. split.
  - destruct l; try exact I.
    + destruct job as [j|]; [|exact I]. destruct q; try exact I. cbn in H1 |- *. intros _ c Hc. rewrite Hc in H1. by apply String.eqb_eq.
    + cbn in H1 |- *. intros node sr job b tx0 id Hx. rewrite Hx in H1. by destruct (sv_conns s !! tx0).
  - destruct (step secret s l) as [[s1 e1]|]; [|done]. by apply IH.
Qed.
(** Facts about the outcome of a run, computed without showing the outcome. *)
Lemma run_check (r : option (server * list event)) (f : server -> list event -> bool) :
  match r with Some (s, ev) => f s ev | None => false end = true -> exists s ev, r = Some (s, ev) /\ f s ev = true.
Proof. destruct r as [[s ev]|]; [eauto|done]. Qed.
Definition is_idle (r : reaper) : bool := match r with PIdle => true | _ => false end.
Lemma is_idle_spec r : is_idle r = true -> r = PIdle.
Proof. by destruct r. Qed.
Ltac honestly := apply honest_run_spec; vm_compute; reflexivity.
Ltac empty := apply map_to_list_empty_iff; vm_compute; reflexivity.

Definition sr0 : start_req := StartReq 1 "lost".
Definition rep0 : report := Report 0 "out" "" [].
(** A runner of job [j] is given task [n] under [tx] by handler [h]. *)
Definition opening (h : N) (j : string) (tx : N) (n : nat) : list label :=
  [LRequest h "s" (Some j) (QStart sr0); LDeliver h (DTask n); LRun h tx; LRun h 0].
Definition ending (h : N) (j : string) (tx : N) : list label :=
  [LRequest h "s" (Some j) (QEnd tx rep0 None); LRun h 0; LRun h 0].

(** Two runners with a task each: one ends, one ends twice. *)
Definition demo31 : list label := opening 1 "a" 10 7 ++ opening 2 "b" 11 8 ++ ending 3 "b" 11 ++ ending 4 "a" 10.
Example demo31_runs : exists s evs, run "s" server_new demo31 = Some (s, evs) /\ at_rest s /\
  along "s" (honest "s") server_new demo31 /\ tasks 7 evs = 1 /\ finishes 7 evs = 1 /\ EFinished 8 (inl rep0) ∈ evs.
Proof.
  eexists _, _. split; [vm_compute; reflexivity|]. split; [|split; [|split; [|split]]].
  - split; [empty|]. split; [empty|by left].
  - honestly.
  - reflexivity.
  - reflexivity.
  - apply elem_of_list_In. vm_compute. auto 20.
Qed.
Example demo31_refused : exists s evs, run "s" server_new (opening 1 "a" 10 7 ++ ending 4 "a" 10) = Some (s, evs) /\
  step "s" s (LRequest 5 "s" (Some "a") (QEnd 10 rep0 None)) = Some (s, [EReply 5 (RError NoSuchTransaction)]).
Proof. eexists _, _. split; [vm_compute; reflexivity|vm_compute; reflexivity]. Qed.

(** Without the conditions a task can be lost: the server is at rest and the task, delivered, is never reported. *)
(** An /end from another job. *)
Theorem every_task_reported_other_job_refuted : exists ls s evs,
  run "s" server_new ls = Some (s, evs) /\ at_rest s /\ tasks 7 evs = 1 /\ finishes 7 evs = 0.
Proof.
  exists (opening 1 "a" 10 7 ++ [LRequest 2 "s" (Some "b") (QEnd 10 rep0 None)]). eexists _, _.
  split; [vm_compute; reflexivity|]. split; [split; [empty|split; [empty|by left]]|split; vm_compute; reflexivity].
Qed.
Print Assumptions every_task_reported_other_job_refuted.
(** Two transactions draw the same id. *)
Theorem every_task_reported_same_id_refuted : exists ls s evs,
  run "s" server_new ls = Some (s, evs) /\ at_rest s /\ tasks 7 evs = 1 /\ finishes 7 evs = 0.
Proof.
  exists (opening 1 "a" 10 7 ++ opening 2 "b" 10 8 ++ ending 3 "b" 10). eexists _, _.
  split; [vm_compute; reflexivity|]. split; [split; [empty|split; [empty|by left]]|split; vm_compute; reflexivity].
Qed.
Print Assumptions every_task_reported_same_id_refuted.
(** The reaper can panic: an /end arrives while it removes the tasks started after a soft cancellation. Then no silent
    runner is found out any more. *)
Theorem reaper_never_panics_refuted : exists ls s evs,
  run "s" server_new ls = Some (s, evs) /\ along "s" (honest "s") server_new ls /\ sv_reaper s = PPanicked /\
  forall s' evs' ls', run "s" s ls' = Some (s', evs') -> sv_reaper s' = PPanicked.
Proof.
  exists (LTime 5 :: opening 1 "a" 10 7 ++ [LSoft 3; LTick; LReap; LRequest 2 "s" (Some "a") (QEnd 10 rep0 None); LReap]). eexists _, _.
  split; [vm_compute; reflexivity|]. split; [|split; [reflexivity|]].
  - honestly.
  - intros s' evs' ls' H. by eapply panicked_stays.
Qed.
Print Assumptions reaper_never_panics_refuted.

(** ** C32 *)
(** A request with a wrong token is answered 401; nothing else happens. *)
Theorem wrong_token_changes_nothing secret s h token job q :
  token <> secret -> sv_handlers s !! h = None ->
  step secret s (LRequest h token job q) = Some (s, [EReply h (RError Unauthorized)]).
Proof. apply wrong_token. Qed.
Print Assumptions wrong_token_changes_nothing.

(** Whatever happens, leaving out the requests with wrong tokens gives the same server and the same events except the
    answers 401. *)
Theorem wrong_tokens_invisible secret ls s s' evs :
  run secret s ls = Some (s', evs) ->
  run secret s (List.filter (fun l => negb (unauthorized secret l)) ls) = Some (s', List.filter (fun e => negb (reply_401 e)) evs).
Proof. apply skip_unauthorized. Qed.
Print Assumptions wrong_tokens_invisible.

Example demo32 : exists s evs,
  run "s" server_new (opening 1 "a" 10 7 ++ [LRequest 2 "x" (Some "a") (QEnd 10 rep0 None); LRequest 3 "" None (QMark ["a"])] ++ ending 4 "a" 10)
    = Some (s, evs) /\ EReply 2 (RError Unauthorized) ∈ evs /\ EFinished 7 (inl rep0) ∈ evs.
Proof. eexists _, _. split; [vm_compute; reflexivity|]. split; apply elem_of_list_In; vm_compute; auto 20. Qed.

(** ** C33 *)
Definition has_open (s : server) (j : string) : Prop := exists tx c, sv_conns s !! tx = Some c /\ c_job c = j.

(** The reply names exactly the requested jobs without an open transaction; exactly those are marked in addition. *)
Theorem mark_reply_exact secret s h job js s' evs :
  step secret s (LRequest h secret job (QMark js)) = Some (s', evs) ->
  exists marked, evs = [EReply h (RMarked marked)] /\
    (forall j, j ∈ marked <-> j ∈ js /\ ~ has_open s j) /\
    (forall j, j ∈ sv_cancelled s' <-> j ∈ sv_cancelled s \/ j ∈ marked) /\ sv_conns s' = sv_conns s.
Proof.
  cbn [step]. destruct (sv_handlers s !! h); [discriminate|]. unfold request_step. rewrite String.eqb_refl. unfold mark, reply_now.
  intros [= <- <-]. eexists. split; [reflexivity|].
  assert (forall j, j ∈ open_jobs s <-> has_open s j) as Ho.
  { intros j. unfold open_jobs, has_open. rewrite elem_of_list_In, in_map_iff. split.
    - intros ([tx c] & Hj & Hin). apply elem_of_list_In, elem_of_map_to_list in Hin. by exists tx, c.
    - intros (tx & c & Hc & Hj). exists (tx, c). split; [done|]. by apply elem_of_list_In, elem_of_map_to_list. }
  split; [|split; [|done]].
  - intros j. rewrite elem_of_list_In, filter_In, negb_true_iff, bool_decide_eq_false, <- elem_of_list_In. by rewrite Ho.
  - intros j. cbn. set_solver.
Qed.
Print Assumptions mark_reply_exact.

(** From then on, whatever happens, a /start by a marked job is answered 410 and has no effect. *)
Theorem cancelled_job_gets_no_start secret s h job js ls s' evs marked j h' sr :
  run secret s (LRequest h secret job (QMark js) :: ls) = Some (s', EReply h (RMarked marked) :: evs) -> j ∈ marked ->
  sv_handlers s' !! h' = None ->
  step secret s' (LRequest h' secret (Some j) (QStart sr)) = Some (s', [EReply h' (RError Shutdown)]).
Proof.
  intros H Hj Hh. cbn [run] in H. destruct (step secret s (LRequest h secret job (QMark js))) as [[s1 e1]|] eqn:E; [|discriminate].
  destruct (run secret s1 ls) as [[s2 e2]|] eqn:E2; [|discriminate]. injection H as <- He.
  destruct (mark_reply_exact _ _ _ _ _ _ _ E) as (m & -> & _ & Hc & _). injection He as <- _.
  assert (j ∈ sv_cancelled s2) as Hin. { eapply cancelled_grows_run; [exact E2|]. apply Hc. by right. }
  cbn [step]. rewrite Hh. unfold request_step. rewrite String.eqb_refl. unfold start. by rewrite bool_decide_eq_true_2.
Qed.
Print Assumptions cancelled_job_gets_no_start.

(** A job with an open transaction that is not marked already stays so: its /start goes on to wait for a task. *)
Theorem busy_job_not_marked secret s h job js s' evs j h' sr :
  step secret s (LRequest h secret job (QMark js)) = Some (s', evs) -> has_open s j -> j ∉ sv_cancelled s ->
  sv_handlers s' !! h' = None ->
  exists s'', step secret s' (LRequest h' secret (Some j) (QStart sr)) = Some (s'', []) /\ sv_handlers s'' !! h' = Some (HWait sr j false).
Proof.
  intros H Ho Hn Hh. destruct (mark_reply_exact _ _ _ _ _ _ _ H) as (m & -> & Hm & Hc & _).
  cbn [step]. rewrite Hh. unfold request_step. rewrite String.eqb_refl. unfold start.
  rewrite bool_decide_eq_false_2; [|rewrite Hc, Hm; tauto].
  eexists. split; [reflexivity|]. cbn. by rewrite lookup_insert.
Qed.
Print Assumptions busy_job_not_marked.

Example demo33 : exists s evs, run "s" server_new (opening 1 "a" 10 7 ++ [LRequest 2 "s" None (QMark ["a"; "b"])]) = Some (s, evs) /\
  EReply 2 (RMarked ["b"]) ∈ evs /\ has_open s "a" /\
  step "s" s (LRequest 3 "s" (Some "b") (QStart sr0)) = Some (s, [EReply 3 (RError Shutdown)]).
Proof.
  eexists _, _. split; [vm_compute; reflexivity|]. split; [apply elem_of_list_In; vm_compute; auto 20|]. split; [|vm_compute; reflexivity].
  exists 10%N. eexists. split; [vm_compute; reflexivity|reflexivity].
Qed.

(** A marked job can still be handed a task: its /start was waiting before the mark, *)
Theorem marked_job_gets_no_task_refuted : exists ls s evs a b,
  run "s" server_new ls = Some (s, evs) /\ evs = a ++ EReply 2 (RMarked ["j"]) :: b /\ EReply 1 (RStart 42 7) ∈ b /\
  forall h job q, LRequest h "s" job q ∈ ls -> h = 1%N -> job = Some "j".
Proof.
  exists [LRequest 1 "s" (Some "j") (QStart sr0); LRequest 2 "s" None (QMark ["j"]); LDeliver 1 (DTask 7); LRun 1 42; LRun 1 0].
  eexists _, _, [], _. split; [vm_compute; reflexivity|]. split; [reflexivity|]. split; [apply elem_of_list_In; vm_compute; auto 20|].
  intros h job q Hin Hh. apply elem_of_list_In in Hin. cbn in Hin. by intuition congruence.
Qed.
Print Assumptions marked_job_gets_no_task_refuted.
(** or it asks for the next task in its /end, between whose two halves the mark comes. *)
Theorem marked_job_gets_no_task_after_end_refuted : exists ls s evs a b,
  run "s" server_new ls = Some (s, evs) /\ evs = a ++ EReply 2 (RMarked ["j"]) :: b /\ EReply 3 (REnd (Some (43%N, 8))) ∈ b /\
  forall h job q, LRequest h "s" job q ∈ ls -> h = 3%N -> job = Some "j".
Proof.
  exists (opening 1 "j" 42 7 ++ [LRequest 3 "s" (Some "j") (QEnd 42 rep0 (Some sr0)); LRequest 2 "s" None (QMark ["j"]);
    LRun 3 0; LRun 3 0; LFlag 3; LDeliver 3 (DTask 8); LRun 3 43; LRun 3 0]).
  eexists _, _, [_; _], _. split; [vm_compute; reflexivity|]. split; [reflexivity|]. split; [apply elem_of_list_In; vm_compute; auto 20|].
  intros h job q Hin Hh. apply elem_of_list_In in Hin. cbn in Hin. by intuition congruence.
Qed.
Print Assumptions marked_job_gets_no_task_after_end_refuted.

(** ** C30 *)
(** A transaction about which nothing is heard during 255 ticks of the reaper is reported as disconnected, with its
    task and its message, at the latest when the reaper has dealt with the last of them. *)
Theorem silent_runner_detected secret ls0 s ev0 ls s' ev tx c :
  run secret server_new ls0 = Some (s, ev0) -> run secret s ls = Some (s', ev) ->
  along secret calm server_new (ls0 ++ ls) ->
  sv_conns s !! tx = Some c -> (forall l, l ∈ ls -> ~ pings secret tx l /\ ~ ends secret tx l) ->
  255 <= nticks ls -> sv_reaper s' = PIdle ->
  EFinished (c_node c) (inr (c_msg c)) ∈ ev.
Proof.
  intros H0 H C. apply (along_app secret calm ls0 server_new ls s ev0 H0) in C as [C0 C1].
  pose proof (timers_run _ _ _ _ _ timers_new C0 H0) as T. by apply silent_detected.
Qed.
Print Assumptions silent_runner_detected.

(** A transaction that was opened by the reply of a step [l], with no more than 254 ticks without a ping ever since, is
    still open, unless its runner ended it or a soft cancellation before its opening takes it back. *)
Theorem pinging_runner_kept secret ls0 s ev0 h tx0 s1 ev1 ls s' ev tx n :
  run secret server_new ls0 = Some (s, ev0) -> step secret s (LRun h tx0) = Some (s1, ev1) -> run secret s1 ls = Some (s', ev) ->
  along secret calm server_new (ls0 ++ LRun h tx0 :: ls) ->
  (exists e, e ∈ ev1 /\ gives tx n e) ->
  (forall l, l ∈ ls -> ~ ends secret tx l) ->
  (forall t, sv_soft s = Some t \/ LSoft t ∈ ls -> (sv_now s <= t)%N) ->
  (forall a b d, ls = a ++ b ++ d -> (forall l, l ∈ b -> ~ pings secret tx l) -> nticks b <= 254) ->
  exists c, sv_conns s' !! tx = Some c /\ c_node c = n.
Proof.
  intros H0 H1 H C Hg Hno Hs Hb. apply (along_app secret calm ls0 server_new _ s ev0 H0) in C as [C0 [C1 C2]]. rewrite H1 in C2.
  pose proof (timers_run _ _ _ _ _ timers_new C0 H0) as T. pose proof (timers_step _ _ _ _ _ T C1 H1) as T1.
  destruct (waits_after_open _ _ _ _ _ _ _ _ T H1 Hg) as (c & Hn & Hst & Hw & Hr & Hso & Hsw).
  destruct (pinging_kept secret ls s1 s' ev tx c 255 T1 C2 H Hw) as (c' & (R & _) & Hc').
  - split; [|rewrite Hso, Hst; auto]. intros keys ex E. rewrite Hr in E. by rewrite E in Hsw.
  - done.
  - rewrite Hst. auto.
  - intros b d -> Hp. enough (nticks b <= 254) by lia. by apply (Hb [] b d).
  - done.
  - exists c'. split; [done|congruence].
Qed.
Print Assumptions pinging_runner_kept.

(** Calm schedules exist: a turn of the reaper with nobody to remove, many times. *)
Definition turn : list label := [LTick; LReap; LReap].
Fixpoint turns (n : nat) : list label := match n with O => [] | S n => turn ++ turns n end.
Lemma quiet_calm secret ls : forall s, sv_handlers s = ∅ ->
  Forall (fun l => l = LTick \/ l = LReap \/ exists h tx, l = LRequest h secret None (QPing tx)) ls -> along secret calm s ls.
Proof.
  induction ls as [|l ls IH]; intros s Hs Hl; [exact I|]. apply Forall_cons in Hl as [Hl Hls]. split.
  - split; [intros _ h x; by rewrite Hs, lookup_empty|]. intros h tx node sr job b _. by rewrite Hs, lookup_empty.
  - destruct (step secret s l) as [[s1 e1]|] eqn:E; [|done]. apply IH; [|done].
    destruct Hl as [->|[->|(h & tx & ->)]]; cbn [step] in E.
    + repeat case_match; by simplify_eq.
    + unfold reap_step in E. repeat case_match; by simplify_eq.
    + destruct (sv_handlers s !! h); [discriminate|]. unfold request_step in E. rewrite String.eqb_refl in E.
      unfold ping, reply_now in E. repeat case_match; by simplify_eq.
Qed.
Lemma opening_calm : along "s" calm server_new (opening 1 "a" 10 7).
Proof.
  split; [split; [discriminate|intros *; discriminate]|]. cbn.
  split; [split; [discriminate|intros *; discriminate]|]. cbn.
  split; [split; [discriminate|]|].
  - intros h tx node sr job b [= <- <-] _. split; [done|]. split; [|apply not_elem_of_nil].
    intros (i & m & k & Hm & _). change (w_slots _) with (∅ : gmap N (smap N)) in Hm. by rewrite lookup_empty in Hm.
  - cbn. split; [|done]. split; [discriminate|]. intros h tx node sr job b [= <- _]. cbn. rewrite lookup_insert. discriminate.
Qed.
Lemma turns_shape n l : l ∈ turns n -> l = LTick \/ l = LReap.
Proof. induction n as [|n IH]; cbn [turns]; [by intros ?%elem_of_nil|]. unfold turn. set_solver. Qed.

(** The runner of task 7 says nothing for 255 ticks. *)
Example demo30_silent : exists s ev0 s' ev c,
  run "s" server_new (opening 1 "a" 10 7) = Some (s, ev0) /\ run "s" s (turns 254 ++ [LTick; LReap; LReap; LReap; LReap]) = Some (s', ev) /\
  along "s" calm server_new (opening 1 "a" 10 7 ++ turns 254 ++ [LTick; LReap; LReap; LReap; LReap]) /\
  sv_conns s !! 10%N = Some c /\ 255 <= nticks (turns 254 ++ [LTick; LReap; LReap; LReap; LReap]) /\ sv_reaper s' = PIdle /\
  ev = [EFinished 7 (inr "lost")].
Proof.
  set (ls := turns 254 ++ [LTick; LReap; LReap; LReap; LReap]).
  destruct (run "s" server_new (opening 1 "a" 10 7)) as [[s ev0]|] eqn:E0; [|vm_compute in E0; discriminate].
  assert (sv_handlers s = ∅) as Eh. { vm_compute in E0. injection E0 as <- _. empty. }
  destruct (run_check (run "s" server_new (opening 1 "a" 10 7)) (fun s _ => match sv_conns s !! 10%N, run "s" s ls with
    | Some _, Some (s', ev) => is_idle (sv_reaper s') && match ev with [EFinished 7 (inr m)] => String.eqb m "lost" | _ => false end
    | _, _ => false end)) as (s1 & ev1 & H0 & H2); [vm_compute; reflexivity|].
  rewrite E0 in H0. injection H0 as <- <-. destruct (sv_conns s !! 10%N) as [c|] eqn:Ec; [|done]. destruct (run "s" s ls) as [[s' ev]|] eqn:Er; [|done].
  apply andb_true_iff in H2 as [H2 H3]. exists s, ev0, s', ev, c. split; [done|]. split; [exact Er|]. split; [|split; [exact Ec|]].
  - eapply along_app; [exact E0|]. split; [apply opening_calm|]. apply quiet_calm; [exact Eh|].
    apply Forall_forall. intros l [Hl|Hl]%elem_of_app; [destruct (turns_shape _ _ Hl); auto|].
    rewrite !elem_of_cons, elem_of_nil in Hl. intuition auto.
  - split; [vm_compute; lia|]. split; [by apply is_idle_spec|].
    destruct ev as [|[| | |n [|m]] [|]]; try done; do 8 (destruct n as [|n]; try done). by apply String.eqb_eq in H3 as ->.
Qed.
(** It pings after 254 ticks and is there after 508. *)
Example demo30_ping : exists s ev,
  run "s" server_new (opening 1 "a" 10 7 ++ turns 254 ++ [LRequest 2 "s" None (QPing 10)] ++ turns 254) = Some (s, ev) /\
  along "s" calm server_new (opening 1 "a" 10 7 ++ turns 254 ++ [LRequest 2 "s" None (QPing 10)] ++ turns 254) /\
  is_Some (sv_conns s !! 10%N) /\ finishes 7 ev = 0.
Proof.
  destruct (run_check (run "s" server_new (opening 1 "a" 10 7 ++ turns 254 ++ [LRequest 2 "s" None (QPing 10)] ++ turns 254))
    (fun s ev => match sv_conns s !! 10%N with Some _ => Nat.eqb (finishes 7 ev) 0 | None => false end)) as (s & ev & H1 & H2);
    [vm_compute; reflexivity|].
  exists s, ev. split; [exact H1|]. split.
  - destruct (run "s" server_new (opening 1 "a" 10 7)) as [[s0 ev0]|] eqn:E0; [|vm_compute in E0; discriminate].
    assert (sv_handlers s0 = ∅) as Eh. { vm_compute in E0. injection E0 as <- _. empty. }
    eapply along_app; [exact E0|]. split; [apply opening_calm|]. apply quiet_calm; [exact Eh|].
    apply Forall_forall. intros l [Hl|[Hl|Hl]%elem_of_app]%elem_of_app; [destruct (turns_shape _ _ Hl); auto| |destruct (turns_shape _ _ Hl); auto].
    apply elem_of_list_singleton in Hl as ->. eauto.
  - destruct (sv_conns s !! 10%N); [|done]. split; [eauto|by apply Nat.eqb_eq].
Qed.

(** If the reaper turns while a handler of /end is between its two halves, a silent runner may never be found out: the
    handler of the first runner's /end cancels the second runner's timer. *)
Theorem silent_runner_always_detected_refuted : exists ls0 s ev0 ls s' ev tx c,
  run "s" server_new ls0 = Some (s, ev0) /\ run "s" s ls = Some (s', ev) /\
  along "s" (honest "s") server_new ls0 /\
  sv_conns s !! tx = Some c /\ (forall l, l ∈ ls -> ~ pings "s" tx l /\ ~ ends "s" tx l) /\
  255 <= nticks ls /\ sv_reaper s' = PIdle /\ (forall how, ~ EFinished (c_node c) how ∈ ev) /\
  is_Some (sv_conns s' !! tx).
Proof.
  set (ls0 := opening 1 "a" 10 7 ++ opening 2 "b" 11 8 ++ turns 100 ++ [LRequest 3 "s" (Some "a") (QEnd 10 rep0 None); LRequest 4 "s" None (QPing 11)] ++
    turns 154 ++ [LTick; LReap; LReap; LReap] ++ turn ++ [LRequest 4 "s" None (QPing 11)]).
  set (ls := [LRun 3 0; LRun 3 0] ++ turns 300).
  destruct (run_check (run "s" server_new ls0) (fun s ev0 =>
    match sv_conns s !! 11%N, run "s" s ls with
    | Some c, Some (s', ev) =>
        is_idle (sv_reaper s') && forallb (fun e => match e with EFinished m _ => negb (Nat.eqb m (c_node c)) | _ => true end) ev &&
        match sv_conns s' !! 11%N with Some _ => true | None => false end
    | _, _ => false
    end)) as (s & ev0 & H1 & H2); [vm_compute; reflexivity|].
  destruct (sv_conns s !! 11%N) as [c|] eqn:Ec; [|done]. destruct (run "s" s ls) as [[s' ev]|] eqn:Er; [|done].
  apply andb_true_iff in H2 as [[H2 H3]%andb_true_iff H4].
  exists ls0, s, ev0, ls, s', ev, 11%N, c. split; [exact H1|]. split; [exact Er|]. split; [honestly|]. split; [exact Ec|].
  split; [|split; [vm_compute; lia|split; [by apply is_idle_spec|split]]].
  - intros l Hl. unfold ls in Hl. cbn [app] in Hl. rewrite !elem_of_cons in Hl. destruct Hl as [->|[->|Hl]]; [..|destruct (turns_shape _ _ Hl) as [->| ->]];
      (split; [intros (? & ? & [=])|intros (? & ? & ? & ? & [=])]).
  - intros how Hin%elem_of_list_In. rewrite forallb_forall in H3. specialize (H3 _ Hin). cbn in H3. by rewrite Nat.eqb_refl in H3.
  - destruct (sv_conns s' !! 11%N); [eauto|done].
Qed.
Print Assumptions silent_runner_always_detected_refuted.
