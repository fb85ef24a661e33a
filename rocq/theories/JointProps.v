(** C53. The http server and the tracker together. *)
From Verif Require Import JointSpec JointProofs JointInv JointTrace JointFit SchedTrace SchedProofs SchedProps.
From Verif Require ServerProofs ServerTrace ServerSpec ServerProps.
From Coq Require Import Lia.
From stdpp Require Import prelude.
Local Open Scope nat_scope.

(** Seen from the tracker, local loops and remote runners are clients like any other: everything that is proved about
    the tracker for all clients (SchedProps.v) holds with the http server. *)
Theorem joint_runs_are_tracker_runs secret cfg nlocal acts s t :
  jreachable secret cfg nlocal acts s t -> reachable cfg (j_tracker s) (tracker_side t).
Proof. intros H. exact (ji_tracker _ _ _ _ _ _ (jinv_run _ _ _ _ _ _ H)). Qed.
Print Assumptions joint_runs_are_tracker_runs.

(** Seen from the runners, the tracker is a source of deliveries like any other: everything that is proved about the
    server (ServerProps.v) holds with the tracker. *)
Theorem joint_runs_are_server_runs secret cfg nlocal acts s t :
  jreachable secret cfg nlocal acts s t -> exists ls,
    ServerModel.run secret ServerModel.server_new ls = Some (j_http s, http_side t) /\
    forall l, l ∈ ls -> (exists h d, l = ServerModel.LDeliver h d) \/ exists c, JHttp l c ∈ acts.
Proof.
  intros H. destruct (ji_http _ _ _ _ _ _ (jinv_run _ _ _ _ _ _ H)) as (ls & H1 & H2). exists ls. split; [done|].
  intros l Hl. destruct (H2 l Hl) as [Hd|]; [left|by right]. destruct l; try done. eauto.
Qed.
Print Assumptions joint_runs_are_server_runs.

(** Whatever the requests, their order and the timeouts: each message the server wants to send belongs to a task that
    the tracker has handed out to a remote runner and whose end has not been reported; so the tracker accepts it. The
    exception is a second /begun for the same task. *)
Theorem server_messages_accepted secret cfg nlocal acts s t l sv evs :
  jreachable secret cfg nlocal acts s t -> j_closed s = false -> is_deliver l = false -> flag_ok s l = true ->
  ServerModel.step secret (j_http s) l = Some (sv, evs) -> (exists e, e ∈ evs /\ is_message e) ->
  (forall n e e', e ∈ evs -> is_begun n e -> e' ∈ http_side t -> ~ is_begun n e') ->
  exists c s' t', jstep secret cfg nlocal s (JHttp l c) = Some (s', t') /\ nlocal <= c /\ j_http s' = sv /\ http_side t' = evs.
Proof.
  intros H Hcl Hd Hf Eh (e0 & He0 & Hm0) Hb. pose proof (jinv_run _ _ _ _ _ _ H) as HI.
  destruct (messages secret _ _ _ _ Eh Hd) as [Hm|(Hw & e & rest & -> & Hrest & He)]; [exfalso; by apply (Hm _ He0)|].
  assert (exists n, ((exists how, e = ServerModel.EFinished n how) \/ is_begun n e) /\ 0 < ServerProofs.held n (j_http s)) as (n & Hen & Hheld).
  { destruct He as [(n & how & ->)|(n & Hn & Hh)]; exists n; [|eauto]. split; [eauto|].
    destruct (ServerProofs.account secret n _ _ _ _ Eh) as [A _]. destruct (no_task secret n _ _ _ _ Eh Hd) as [B _].
    assert (1 <= ServerSpec.finishes n (ServerModel.EFinished n how :: rest)) as Hfi. { unfold ServerSpec.finishes. cbn. rewrite Nat.eqb_refl. cbn. lia. } lia. }
  assert (0 < holders nlocal n (j_tracker s)) as Hho. { pose proof (ji_held _ _ _ _ _ _ HI Hcl n). lia. }
  destruct (holders_pos _ _ _ Hho) as (c & x & Hc & Hx & Hhas).
  assert (exists t1 o1, send cfg nlocal (j_tracker s) c (j_next s) e = Some (t1, o1)) as (t1 & o1 & Es).
  { assert (holds (j_tracker s) c n = true) as Hholds by (unfold holds; rewrite Hx; by destruct x).
    destruct Hen as [(how & ->)|(host & pid & job & ->)]; cbn [send].
    - apply Nat.leb_le in Hc. rewrite Hc, Hholds. destruct how; cbn [report_action andb SchedModel.step]; rewrite Hx; destruct x; try done; eauto.
    - pose proof Hc as Hc'. apply Nat.leb_le in Hc. rewrite Hc, Hholds. cbn [andb SchedModel.step]. rewrite Hx. destruct x; try done; [eauto|].
      exfalso. cbn in Hhas. apply Nat.eqb_eq in Hhas as <-. destruct (ji_run _ _ _ _ _ _ HI c n Hc' Hx) as (e' & He' & Hbe').
      eapply Hb; [by left|by eexists _, _, _|done|done]. }
  exists c. cbn [JointModel.jstep]. rewrite Hcl, Hd, Hf. cbn [orb negb]. rewrite Eh. cbn [send_all]. rewrite Es, send_quiet by done. rewrite app_nil_r.
  destruct (new_flags s l (e :: rest)) as [flags next].
  assert (http_side (map inl o1 ++ map inr (e :: rest)) = e :: rest) as Hside.
  { by rewrite http_side_app, http_side_l, http_side_r. }
  destruct (label_handler l) as [h|] eqn:Hl.
  - destruct (Hw ltac:(done) h eq_refl) as [-> ->]. eexists _, _. split; [reflexivity|]. split; [done|]. split; [done|]. exact Hside.
  - eexists _, _. split; [reflexivity|]. split; [done|]. split; [done|]. exact Hside.
Qed.
Print Assumptions server_messages_accepted.

(** A second report of the start of a task that has not ended stops the tracker. *)
Theorem second_begun_panics cfg sv n host pid job now : is_Some (sv_inflight sv !! n) -> handle_started cfg sv n host pid job now = None.
Proof. intros [x Hx]. unfold handle_started. rewrite Hx. repeat case_match; done. Qed.
Print Assumptions second_begun_panics.

(** When a remote runner is given a task, by /start or with the answer to /end, all its dependencies have succeeded. *)
Theorem given_after_dependencies secret cfg nlocal acts s t1 e t2 tx n m :
  config_ok cfg -> jreachable secret cfg nlocal acts s (t1 ++ inr e :: t2) -> ServerSpec.gives tx n e ->
  edge (cf_g cfg) m n -> succeeded (tracker_side t1) m.
Proof.
  intros Hok H Hg He. pose proof (joint_runs_are_tracker_runs _ _ _ _ _ _ H) as Hr.
  destruct (ji_given _ _ _ _ _ _ (jinv_run _ _ _ _ _ _ H) t1 e t2 tx n eq_refl Hg) as (c & i & Hin).
  apply in_split in Hin as (a & b & Hab). rewrite tracker_side_app, Hab, <- List.app_assoc in Hr. cbn [app] in Hr.
  destruct (handed_out_only_after_dependencies _ _ _ _ _ _ _ _ Hok Hr He) as (el & Hel). exists el. rewrite Hab. apply in_or_app. by left.
Qed.
Print Assumptions given_after_dependencies.

(** Over all remote runners and transactions, a task is given once. *)
Theorem given_at_most_once secret cfg nlocal acts s t1 e t2 e' t3 tx tx' n :
  config_ok cfg -> jreachable secret cfg nlocal acts s (t1 ++ inr e :: t2 ++ inr e' :: t3) ->
  ServerSpec.gives tx n e -> ServerSpec.gives tx' n e' -> False.
Proof.
  intros Hok H Hg Hg'. pose proof (joint_runs_are_tracker_runs _ _ _ _ _ _ H) as Hr.
  destruct (joint_runs_are_server_runs _ _ _ _ _ _ H) as (ls & Hs & _). apply (given_le_tasks secret n) in Hs.
  pose proof (jrun_tasks _ _ _ _ _ _ _ n H) as Ht. rewrite outs_handed in Ht. pose proof (nodup_count n _ (SchedProofs.c03 cfg Hok _ _ Hr)) as Hc.
  assert (http_side (t1 ++ inr e :: t2 ++ inr e' :: t3) = http_side t1 ++ e :: http_side t2 ++ e' :: http_side t3) as E.
  { rewrite http_side_app. f_equal. change (http_side (inr e :: t2 ++ inr e' :: t3)) with (e :: http_side (t2 ++ inr e' :: t3)). by rewrite http_side_app. }
  rewrite E in Hs at 1. unfold givings in Hs. rewrite List.filter_app in Hs. cbn [List.filter] in Hs. rewrite (gives_is_given _ _ _ Hg), List.filter_app in Hs.
  cbn [List.filter] in Hs. rewrite (gives_is_given _ _ _ Hg') in Hs. rewrite app_length in Hs. cbn [length] in Hs. rewrite app_length in Hs. cbn [length] in Hs. lia.
Qed.
Print Assumptions given_at_most_once.

(** The status under which the task of a remote runner finishes is the one in the runner's /end for a transaction under
    which the task was given, or "disconnected". *)
Theorem remote_status_is_reported secret cfg nlocal acts s t n x el tx e :
  config_ok cfg -> jreachable secret cfg nlocal acts s t -> In (OFinished n x el) (tracker_side t) ->
  e ∈ http_side t -> ServerSpec.gives tx n e ->
  x = Disconnected \/
  exists h job tx' rep next c e', JHttp (ServerModel.LRequest h secret (Some job) (ServerModel.QEnd tx' rep next)) c ∈ acts /\
    x = Code (ServerModel.rp_status rep) /\ e' ∈ http_side t /\ ServerSpec.gives tx' n e'.
Proof.
  intros Hok H Hfin He Hg. pose proof (joint_runs_are_tracker_runs _ _ _ _ _ _ H) as Hr. pose proof (jinv_run _ _ _ _ _ _ H) as HI.
  assert (exists h, ServerModel.ETask h n ∈ http_side t) as (h & Htask).
  { destruct (joint_runs_are_server_runs _ _ _ _ _ _ H) as (ls & Hs & _). apply (given_le_tasks secret n) in Hs.
    assert (0 < ServerSpec.tasks n (http_side t)) as Hp.
    { enough (0 < givings n (http_side t)) by lia. unfold givings. apply elem_of_list_split in He as (a & b & ->).
      rewrite List.filter_app, app_length. cbn [List.filter]. rewrite (gives_is_given _ _ _ Hg). cbn. lia. }
    unfold ServerSpec.tasks in Hp. destruct (List.filter (ServerSpec.is_task n) (http_side t)) as [|e1 r] eqn:E; [cbn in Hp; lia|].
    assert (In e1 (e1 :: r)) as Hi by (by left). rewrite <- E in Hi. apply filter_In in Hi as [Hi Hn]. destruct e1; try done. cbn in Hn. apply Nat.eqb_eq in Hn as ->.
    exists h. by apply elem_of_list_In. }
  destruct (ji_task _ _ _ _ _ _ HI h n Htask) as (c & i & Hc & Hout).
  pose proof Hfin as Hfin'. apply in_split in Hfin' as (u & w & Huw). pose proof Hr as Hr'. rewrite Huw in Hr'.
  destruct (finish_reports_come_from_the_runner _ _ _ _ _ _ _ Hok Hr') as (c' & i' & f & Hsent & Hout').
  assert (c' = c) as ->.
  { assert (In (OHandedOut c' i' n) (tracker_side t)) as H1 by (rewrite Huw; apply in_or_app; by left).
    apply elem_of_list_In in Hout. apply in_split in H1 as (p & q & Hpq). rewrite Hpq in Hout, Hr. apply in_app_or in Hout as [Hout|[Hout|Hout]].
    - apply in_split in Hout as (p1 & p2 & ->). rewrite <- List.app_assoc in Hr. cbn [app] in Hr. exfalso.
      eapply (handed_out_at_most_once _ _ _ _ _ _ _ c' i' Hok Hr). apply in_or_app. right. by left.
    - by injection Hout.
    - exfalso. by eapply (handed_out_at_most_once _ _ _ _ _ _ _ c i Hok Hr). }
  assert (OSentFinished c n x f ∈ tracker_side t) as Hsent'. { rewrite Huw. apply elem_of_list_In, in_or_app. by left. }
  destruct (ji_sent _ _ _ _ _ _ HI _ _ _ _ Hsent' Hc) as (how & Hhow & ->). destruct how as [rep|msg]; [right|by left].
  destruct (ji_http _ _ _ _ _ _ HI) as (ls & Hs & Hls).
  destruct (ServerTrace.so_fin _ _ _ _ (ServerTrace.sources_run secret ls _ _ Hs) _ _ Hhow) as (ls1 & h' & j & tx' & next & ls2 & s1 & ev1 & -> & Hs1 & Hlast).
  destruct (Hls (ServerModel.LRequest h' secret (Some j) (ServerModel.QEnd tx' rep next))) as [|(c0 & Hc0)]; [apply elem_of_app; right; by left|done|].
  destruct Hlast as (a & e' & b & -> & Hg' & _). exists h', j, tx', rep, next, c0, e'. split; [done|]. split; [done|]. split; [|done].
  apply ServerProofs.run_app in Hs as (s2 & ev2 & ev3 & H1 & H2 & ->). rewrite Hs1 in H1. injection H1 as <- <-.
  apply elem_of_app. left. apply elem_of_app. right. by left.
Qed.
Print Assumptions remote_status_is_reported.

(** A runner that ends task n and asks for the next one in the same request: when the server goes on to ask the tracker
    for a task, the report has been processed and everything it made ready is in the queues. *)
Theorem next_task_after_unlocked secret cfg nlocal a1 s1 t1 h tx c s2 t2 n rep a2 s3 t3 c' s4 t4 :
  config_ok cfg -> jreachable secret cfg nlocal a1 s1 t1 ->
  jstep secret cfg nlocal s1 (JHttp (ServerModel.LRun h tx) c) = Some (s2, t2) -> inr (ServerModel.EFinished n (inl rep)) ∈ t2 ->
  jrun secret cfg nlocal s2 a2 = Some (s3, t3) -> (forall l c, JHttp l c ∈ a2 -> label_handler l <> Some h) ->
  jstep secret cfg nlocal s3 (JHttp (ServerModel.LFlag h) c') = Some (s4, t4) ->
  exists t r, tracker_side (t1 ++ t2 ++ t3) = t ++ r /\ finished_with t n (Code (ServerModel.rp_status rep)) /\
    ((forall cause, ~ In (OSoft cause) t) -> forall m, edge (cf_g cfg) n m -> (forall k, edge (cf_g cfg) k m -> succeeded t k) ->
       made_ready t m /\ forall i, i < 64 -> N.testbit (aff cfg m) (N.of_nat i) = true -> In (OPushed i m) t).
Proof.
  intros Hok H1 H2 Hin H3 Hno H4.
  assert (jreachable secret cfg nlocal (a1 ++ JHttp (ServerModel.LRun h tx) c :: a2) s3 (t1 ++ t2 ++ t3)) as H13.
  { unfold jreachable. apply jrun_app. exists s1, t1, (t2 ++ t3). split; [done|]. split; [|done]. cbn [jrun]. by rewrite H2, H3. }
  pose proof (joint_runs_are_tracker_runs _ _ _ _ _ _ H13) as Hr. destruct (flags_run _ _ _ _ _ _ H13) as [_ Hu].
  pose proof (jhttp_parts _ _ _ _ _ _ _ _ H2) as (evs & u1 & os1 & Hd & _ & _ & Eh & Es & En & os2 & -> & ->). rewrite app_nil_r in *.
  assert (ServerModel.EFinished n (inl rep) ∈ evs) as Hfin.
  { apply in_http_side in Hin. by rewrite http_side_app, http_side_l, http_side_r in Hin. }
  destruct (finished_by_run secret _ _ _ _ _ _ Eh Hfin) as (h' & tx' & rest & [= <- <-] & -> & Hrest).
  cbn in En. injection En as Ef _.
  cbn [send_all] in Es. destruct (send cfg nlocal (j_tracker s1) c (j_next s1) (ServerModel.EFinished n (inl rep))) as [[u2 o2]|] eqn:E2; [|done].
  rewrite send_quiet in Es by done. injection Es as <- <-. rewrite app_nil_r in *. apply send_spec in E2 as (_ & _ & Hs & (fl & ->) & _).
  assert (fl = Some (j_next s1)) as ->. { cbn [report_action SchedModel.step] in Hs. repeat case_match; by simplify_eq. }
  cbn [status_of] in *.
  assert (j_flags s3 !! h = Some (j_next s1)) as Hflag. { rewrite (flag_kept _ _ _ _ _ _ _ _ H3 Hno), Ef. apply lookup_insert. }
  pose proof (jhttp_parts _ _ _ _ _ _ _ _ H4) as (evs4 & u4 & os4 & _ & Hfok & _). cbn in Hfok. rewrite Hflag in Hfok. apply bool_decide_eq_true_1 in Hfok.
  destruct Hr as (ta & Hr). destruct (trun_flags cfg _ _ _ _ _ Hr Hfok) as [Hf0|(n' & Hf)].
  { cbn in Hf0. by apply elem_of_empty in Hf0. }
  apply elem_of_list_split in Hf as (t & r & Htr). set (T := t1 ++ (map inl [OSentFinished c n (Code (ServerModel.rp_status rep)) (Some (j_next s1))] ++ map inr (ServerModel.EFinished n (inl rep) :: rest)) ++ t3) in *.
  assert (reachable cfg (j_tracker s3) (t ++ OFlag n' (j_next s1) :: r)) as Hr2 by (exists ta; by rewrite <- Htr).
  destruct (unlocked_tasks_are_queued_before_flag _ _ _ _ _ _ Hok Hr2) as ((c2 & x2 & e2 & Hs2 & Hf2) & Hp & Hm).
  assert (OSentFinished c n (Code (ServerModel.rp_status rep)) (Some (j_next s1)) ∈ tracker_side T) as Hsent.
  { subst T. rewrite !tracker_side_app, tracker_side_l. set_solver. }
  assert (OSentFinished c2 n' x2 (Some (j_next s1)) ∈ tracker_side T) as Hsent2.
  { rewrite Htr. apply elem_of_list_In, in_or_app. by left. }
  destruct (Hu _ _ _ _ _ _ _ Hsent2 Hsent) as [-> ->].
  exists t, (OFlag n (j_next s1) :: r). split; [done|]. split.
  2: { intros Hsoft m Hedge Hall. pose proof (Hm Hsoft m Hedge Hall) as Hready. split; [done|]. intros i Hi Hb. by eapply Hp. }
  by exists e2.
Qed.
Print Assumptions next_task_after_unlocked.

(** If every runner announces each transaction at most once, as execgraph-remote does (C52: runner_counts), every message
    of the server is accepted. *)
Definition announces (secret : string) (tx : N) (a : jaction) : bool :=
  match a with
  | JHttp (ServerModel.LRequest _ token (Some _) (ServerModel.QBegun tx' _ _)) _ => String.eqb token secret && N.eqb tx tx'
  | _ => false
  end.
Theorem announced_once_accepted secret cfg nlocal acts s t l sv evs c0 :
  config_ok cfg -> jreachable secret cfg nlocal acts s t -> j_closed s = false -> is_deliver l = false -> flag_ok s l = true ->
  ServerModel.step secret (j_http s) l = Some (sv, evs) -> (exists e, e ∈ evs /\ is_message e) ->
  (forall tx, length (List.filter (announces secret tx) (acts ++ [JHttp l c0])) <= 1) ->
  exists c s' t', jstep secret cfg nlocal s (JHttp l c) = Some (s', t') /\ nlocal <= c /\ j_http s' = sv /\ http_side t' = evs.
Proof.
  intros Hok H Hcl Hd Hf Eh Hm Hone. eapply server_messages_accepted; [done..|].
  intros n e e' He (host & pid & job & ->) He' (host' & pid' & job' & ->).
  destruct (started_by_begun secret _ _ _ _ _ _ _ _ Eh He) as (h & tx & c & -> & Hc & <-).
  destruct (joint_runs_are_server_runs _ _ _ _ _ _ H) as (ls & Hs & Hls).
  destruct (ServerTrace.so_conn _ _ _ _ (ServerTrace.sources_run secret ls _ _ Hs) _ _ Hc) as ((a & g & b & Habg & Hg & _) & _).
  destruct (started_origin secret ls _ _ _ _ _ _ Hs He') as (h' & tx' & g' & Hreq & Hing' & Hg').
  assert (g = g') as <-.
  { eapply (one_given (ServerModel.c_node c) (http_side t)); [|rewrite Habg; set_solver|done|by eapply gives_is_given..].
    apply (given_le_tasks secret (ServerModel.c_node c)) in Hs. pose proof (jrun_tasks _ _ _ _ _ _ _ (ServerModel.c_node c) H) as Ht. rewrite outs_handed in Ht.
    pose proof (nodup_count (ServerModel.c_node c) _ (SchedProofs.c03 cfg Hok _ _ (joint_runs_are_tracker_runs _ _ _ _ _ _ H))). lia. }
  assert (tx' = tx) as ->. { destruct Hg as (h1 & [-> | ->]), Hg' as (h2 & [? | ?]); by simplify_eq. }
  destruct (Hls _ Hreq) as [(? & ? & ?)|(c1 & Hact)]; [done|]. specialize (Hone tx). rewrite List.filter_app, app_length in Hone. cbn in Hone.
  rewrite String.eqb_refl, N.eqb_refl in Hone. cbn in Hone.
  assert (In (JHttp (ServerModel.LRequest h' secret (Some job') (ServerModel.QBegun tx host' pid')) c1) (List.filter (announces secret tx) acts)) as Hin.
  { apply filter_In. split; [by apply elem_of_list_In|]. cbn. by rewrite String.eqb_refl, N.eqb_refl. }
  destruct (List.filter (announces secret tx) acts); cbn in *; [done|lia].
Qed.
Print Assumptions announced_once_accepted.

(** A remote runner is given only tasks whose mask contains the runner type of its request. *)
Theorem given_task_fits_runner secret cfg nlocal acts s t a s' t' h tx n : config_ok cfg ->
  jreachable secret cfg nlocal acts s t -> jstep secret cfg nlocal s a = Some (s', t') ->
  inr (ServerModel.EReply h (ServerModel.RStart tx n)) ∈ t' \/ inr (ServerModel.EReply h (ServerModel.REnd (Some (tx, n)))) ∈ t' ->
  exists q sr, last_request h acts = Some q /\ asks q = Some sr /\
    (ServerModel.sr_runnertype sr < 64)%N /\ N.testbit (aff cfg n) (ServerModel.sr_runnertype sr) = true.
Proof.
  intros Hok H Hs Hin. rewrite <- !in_http_side in Hin. pose proof (fit_run _ _ _ Hok _ _ _ H) as HF.
  assert (exists l evs, ServerModel.step secret (j_http s) l = Some (j_http s', evs) /\ http_side t' = evs) as (l & evs & E & He).
  { destruct (http_part _ _ _ _ _ _ _ Hs) as [(_ & E & _)|[(l & c & evs & _ & _ & E & He)|(h' & c & b & u & os & d & evs & _ & _ & _ & _ & _ & E & He)]]; [|eauto..].
    rewrite E in Hin. by destruct Hin as [?%elem_of_nil|?%elem_of_nil]. }
  rewrite He in Hin. destruct (gives_handler _ _ _ _ _ _ _ _ E Hin) as (y & sr & Hy & Hg & Hw). destruct (HF h y Hy) as [A B].
  destruct (last_request h acts) as [q|]; [|done]. exists q, sr. split; [done|]. cbn in A. injection A as A. split; [congruence|]. by apply B.
Qed.
Print Assumptions given_task_fits_runner.

(** The answer "no such runner type" is given only to requests with an unknown runner type. *)
Theorem no_such_runner_type_means_unknown secret cfg nlocal acts s t a s' t' h : config_ok cfg ->
  jreachable secret cfg nlocal acts s t -> jstep secret cfg nlocal s a = Some (s', t') ->
  inr (ServerModel.EReply h (ServerModel.RError ServerModel.NoSuchRunnerType)) ∈ t' ->
  exists q sr, last_request h acts = Some q /\ asks q = Some sr /\ (64 <= ServerModel.sr_runnertype sr)%N.
Proof.
  intros Hok H Hs Hin. rewrite <- !in_http_side in Hin. pose proof (fit_run _ _ _ Hok _ _ _ H) as HF. pose proof (jinv_run _ _ _ _ _ _ H) as HI.
  destruct (http_part _ _ _ _ _ _ _ Hs) as [(_ & E & _)|[(l & c & evs & _ & Hd & E & He)|(h' & c & b & u & os & d & evs & _ & Hc & Ha & Es & Hr & E & He)]].
  - rewrite E in Hin. by apply elem_of_nil in Hin.
  - rewrite He in Hin. destruct (unknown_handler _ _ _ _ _ _ E Hin) as (-> & _). done.
  - rewrite He in Hin. destruct (unknown_handler _ _ _ _ _ _ E Hin) as ([= -> ->] & sr & Hsr).
    destruct (ServerModel.sv_handlers (j_http s) !! h) as [y|] eqn:Hy; [|done]. cbn in Hsr. injection Hsr as Hsr. destruct (HF h y Hy) as [A _].
    destruct (last_request h acts) as [q|]; [|done]. exists q, sr. split; [done|]. cbn in A. injection A as A. split; [congruence|].
    destruct (ji_recv _ _ _ _ _ _ HI h c Hc) as (_ & (i & Hw' & Hty) & _). unfold waiting in Hw'. rewrite Hy in Hw'. destruct y; try done. cbn in Hsr. injection Hsr as ->. injection Hw' as <-.
    destruct (recv_step _ _ _ _ _ _ Es Ha) as (_ & [(Hn0 & _)|[(i' & m & -> & _)|(e & -> & _)]]); [congruence|done|].
    assert (reachable cfg u (tracker_side t ++ [ORecvErr c e])) as Hreach.
    { destruct (ji_tracker _ _ _ _ _ _ HI) as (ta & Hta). exists (ta ++ [b]). apply trun_app. eexists _, _, _. split; [done|]. split; [by apply trun_one|done]. }
    destruct (unknown_runner_type_refused cfg _ _ c e Hok Hreach) as (i & Hty' & He'); [apply in_or_app; right; by left|].
    rewrite Hty in Hty'. injection Hty' as <-. assert (e = NoSuchRunnerType) as -> by (by destruct e). destruct He' as [He' _]. specialize (He' eq_refl). lia.
Qed.
Print Assumptions no_such_runner_type_means_unknown.

(** ** A concrete run: a -> b; a remote runner takes a, begins, ends it and asks for the next task in the same request,
    and gets b. Client 0 is a local loop of type 0, which can run neither. *)
Definition duo : config := Config (DiGraph [task "a" 2 0; task "b" 2 0] [(0, 1)]) 3 [0; 1; 1] (fun n => SysTime (N.of_nat n) 0) log0.
Example duo_ok : config_ok duo.
Proof. config_ok. Qed.
Definition instrs (k : nat) : list jaction := repeat (JTracker AInstr) k.
Definition duo_recv (h : N) (c : nat) : list jaction := map (JRecv h) [ARecv c; APop c 0; AClaim c; ACount c].
Definition duo_1 : list jaction :=
  [JTracker (AInit [0])] ++ instrs 5 ++ [JTracker (ARecv 0);
   JHttp (ServerModel.LRequest 1 "s" (Some "j") (ServerModel.QStart ServerProps.sr0)) 1] ++ duo_recv 1 1 ++
  [JHttp (ServerModel.LRun 1 10) 1; JHttp (ServerModel.LRun 1 0) 1;
   JHttp (ServerModel.LRequest 2 "s" (Some "j") (ServerModel.QBegun 10 "host" 7)) 1; JTracker (AEvent 10);
   JHttp (ServerModel.LRequest 3 "s" (Some "j") (ServerModel.QEnd 10 ServerProps.rep0 (Some ServerProps.sr0))) 1].
Definition duo_2 : list jaction := JTracker (AEvent 20) :: instrs 6.
Definition duo_3 : list jaction := JHttp (ServerModel.LFlag 3) 2 :: duo_recv 3 2 ++ [JHttp (ServerModel.LRun 3 11) 1; JHttp (ServerModel.LRun 3 0) 1].
Definition duo_acts := duo_1 ++ [JHttp (ServerModel.LRun 3 0) 1; JHttp (ServerModel.LRun 3 0) 1] ++ duo_2 ++ duo_3.
Definition duo_before : list (obs + ServerModel.event) :=
  [inl (OReady 0); inl (OPushed 1 0); inl (OHandedOut 1 1 0); inr (ServerModel.ETask 1 0);
   inr (ServerModel.EReply 1 (ServerModel.RStart 10 0)); inl (OSentStarted 1 0); inr (ServerModel.EStarted 0 "host" 7 "j");
   inr (ServerModel.EReply 2 ServerModel.ROk); inl (OStarted 0); inl (OSentFinished 1 0 (Code 0) (Some 0));
   inr (ServerModel.EFinished 0 (inl ServerProps.rep0)); inl (OFinished 0 (Code 0) (Some 10%N));
   inl (OReady 1); inl (OPushed 1 1); inl (OFlag 0 0); inl (OHandedOut 2 1 1); inr (ServerModel.ETask 3 1)].
Definition duo_reply : ServerModel.event := ServerModel.EReply 3 (ServerModel.REnd (Some (11%N, 1))).
(** The run meets the hypotheses of given_after_dependencies and remote_status_is_reported. *)
Example duo_run : exists s, jreachable "s" duo 1 duo_acts s (duo_before ++ inr duo_reply :: []) /\ j_closed s = false /\
  ServerSpec.gives 11 1 duo_reply /\ edge (cf_g duo) 0 1 /\ In (OFinished 0 (Code 0) (Some 10%N)) (tracker_side duo_before).
Proof.
  eexists. split; [vm_compute; reflexivity|]. split; [reflexivity|]. split; [by exists 3%N; right|]. split; [by left|]. vm_compute. auto 30.
Qed.
(** The moment before the report of task 0 meets those of server_messages_accepted; the moment before the second call of
    recv those of next_task_after_unlocked. *)
Example duo_message : exists s t sv, jreachable "s" duo 1 (duo_1 ++ [JHttp (ServerModel.LRun 3 0) 1]) s t /\ j_closed s = false /\
  flag_ok s (ServerModel.LRun 3 0) = true /\
  ServerModel.step "s" (j_http s) (ServerModel.LRun 3 0) = Some (sv, [ServerModel.EFinished 0 (inl ServerProps.rep0)]).
Proof. eexists _, _, _. split; [vm_compute; reflexivity|]. split; [reflexivity|]. split; [reflexivity|]. vm_compute. reflexivity. Qed.
Example duo_flag : exists s1 t1 s2 t2 s3 t3 s4 t4, jreachable "s" duo 1 (duo_1 ++ [JHttp (ServerModel.LRun 3 0) 1]) s1 t1 /\
  jstep "s" duo 1 s1 (JHttp (ServerModel.LRun 3 0) 1) = Some (s2, t2) /\ inr (ServerModel.EFinished 0 (inl ServerProps.rep0)) ∈ t2 /\
  jrun "s" duo 1 s2 duo_2 = Some (s3, t3) /\ (forall l c, JHttp l c ∈ duo_2 -> label_handler l <> Some 3%N) /\
  jstep "s" duo 1 s3 (JHttp (ServerModel.LFlag 3) 2) = Some (s4, t4) /\ forall cause, ~ In (OSoft cause) (tracker_side (t1 ++ t2 ++ t3)).
Proof.
  eexists _, _, _, _, _, _, _, _. split; [vm_compute; reflexivity|]. split; [vm_compute; reflexivity|].
  split; [apply elem_of_list_In; vm_compute; auto|]. split; [vm_compute; reflexivity|].
  split; [intros l c Hin; apply elem_of_list_In in Hin; vm_compute in Hin; intuition discriminate|].
  split; [vm_compute; reflexivity|]. intros cause Hin. vm_compute in Hin. intuition discriminate.
Qed.
(** A second /begun of the runner: the server sends the message, and the tracker stops when it reads it. *)
Example duo_second_begun : exists s t sv t2,
  jreachable "s" duo 1 (firstn 16 duo_1) s t /\ tracker_side t = [OReady 0; OPushed 1 0; OHandedOut 1 1 0; OSentStarted 1 0; OStarted 0] /\
  ServerModel.step "s" (j_http s) (ServerModel.LRequest 4 "s" (Some "j") (ServerModel.QBegun 10 "host" 7)) =
    Some (sv, [ServerModel.EStarted 0 "host" 7 "j"; ServerModel.EReply 4 ServerModel.ROk]) /\
  step duo (set_events (j_tracker s) [EvStarted 0 "host" 7 "j"]) (AEvent 15) = Some (t2, [OPanic]).
Proof. eexists _, _, _, _. split; [vm_compute; reflexivity|]. split; [reflexivity|]. split; vm_compute; reflexivity. Qed.
Example duo_announced : forall tx, length (List.filter (announces "s" tx) duo_acts) <= 1.
Proof. intros tx. cbn. destruct (N.eqb tx 10); cbn; lia. Qed.

(** The reply with task b meets the hypotheses of given_task_fits_runner; with runner type 64, the error. *)
Example duo_fits : exists s1 t1 s2 t2, jreachable "s" duo 1 (removelast duo_acts) s1 t1 /\
  jstep "s" duo 1 s1 (JHttp (ServerModel.LRun 3 0) 1) = Some (s2, t2) /\ inr duo_reply ∈ t2 /\
  last_request 3 (removelast duo_acts) = Some (ServerModel.QEnd 10 ServerProps.rep0 (Some ServerProps.sr0)).
Proof.
  eexists _, _, _, _. split; [vm_compute; reflexivity|]. split; [vm_compute; reflexivity|]. split; [apply elem_of_list_In; vm_compute; auto|]. vm_compute. reflexivity.
Qed.
Definition duo64 : config := Config (DiGraph [task "a" 2 0; task "b" 2 0] [(0, 1)]) 3 [0; 64] (fun n => SysTime (N.of_nat n) 0) log0.
Definition duo64_q := ServerModel.QStart (ServerModel.StartReq 64 "m").
Example duo64_error : config_ok duo64 /\ exists s1 t1 s2 t2,
  jreachable "s" duo64 1 [JTracker (AInit [0]); JHttp (ServerModel.LRequest 1 "s" (Some "j") duo64_q) 1] s1 t1 /\
  jstep "s" duo64 1 s1 (JRecv 1 (ARecv 1)) = Some (s2, t2) /\
  inr (ServerModel.EReply 1 (ServerModel.RError ServerModel.NoSuchRunnerType)) ∈ t2.
Proof.
  split; [config_ok|].
  eexists _, _, _, _. split; [vm_compute; reflexivity|]. split; [vm_compute; reflexivity|]. apply elem_of_list_In; vm_compute; auto.
Qed.
