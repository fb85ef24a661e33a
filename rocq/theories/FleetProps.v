(** C70. Remote runners, server and tracker together. *)
From Verif Require Import FleetSpec FleetProofs JointProofs JointInv JointTrace JointProps SchedProofs SchedProps.
From Verif Require ServerProofs ServerTrace ServerSpec ServerProps RemoteModel LocalModel LocalSpec LocalProofs.
From Coq Require Import Lia.
From stdpp Require Import prelude gmap.
Local Open Scope nat_scope.

(** Whatever the runners do, what is seen of server and tracker is a run of JointModel.v: everything in JointProps.v, and so in ServerProps.v and
    SchedProps.v, holds with runners. *)
Theorem fleet_runs_are_joint_runs secret cfg nlocal rcs acts f t :
  freachable secret cfg nlocal rcs acts f t -> exists jacts, jreachable secret cfg nlocal jacts (f_joint f) (joint_side t).
Proof. intros H. destruct (finv_run _ _ _ _ _ _ _ H) as [jacts HI]. exists jacts. exact (fi_run _ _ _ _ _ _ _ HI). Qed.
Print Assumptions fleet_runs_are_joint_runs.

Lemma givings_one secret cfg nlocal jacts s t n : config_ok cfg -> jreachable secret cfg nlocal jacts s t -> givings n (http_side t) <= 1.
Proof.
  intros Hok H. pose proof (joint_runs_are_tracker_runs _ _ _ _ _ _ H) as Hr. destruct (joint_runs_are_server_runs _ _ _ _ _ _ H) as (ls & Hs & _).
  apply (given_le_tasks secret n) in Hs. pose proof (jrun_tasks _ _ _ _ _ _ _ n H) as Ht. rewrite outs_handed in Ht.
  pose proof (nodup_count n _ (SchedProofs.c03 cfg Hok _ _ Hr)). lia.
Qed.
Lemma filter_two {A} (P : A -> bool) (a : list A) x b y c : P x = true -> P y = true -> 2 <= length (List.filter P (a ++ x :: b ++ y :: c)).
Proof.
  intros Hx Hy. rewrite List.filter_app, app_length. cbn [List.filter]. rewrite Hx, List.filter_app. cbn [List.filter]. rewrite Hy. cbn [length]. rewrite app_length. cbn [length]. lia.
Qed.
Lemma filter_some {A} (P : A -> bool) (l : list A) : 0 < length (List.filter P l) -> exists x, x ∈ l /\ P x = true.
Proof.
  destruct (List.filter P l) as [|x r] eqn:E; [cbn; lia|]. intros _. exists x. assert (In x (x :: r)) as Hin by (by left). rewrite <- E in Hin.
  apply filter_In in Hin as [? ?]. by rewrite elem_of_list_In.
Qed.

(** Over all remote runners, whatever is lost and whoever gives up: the command of a task is started at most once, and a failed attempt to start it is
    not followed by another. *)
Theorem command_attempted_at_most_once secret cfg nlocal rcs acts f t1 o t2 o' t3 n : config_ok cfg ->
  freachable secret cfg nlocal rcs acts f (t1 ++ o :: t2 ++ o' :: t3) -> attempt n o = true -> attempt n o' = true -> False.
Proof.
  intros Hok H Ho Ho'. destruct (finv_run _ _ _ _ _ _ _ H) as [jacts HI]. pose proof (fi_count _ _ _ _ _ _ _ HI n) as Hc.
  pose proof (givings_one _ _ _ _ _ _ n Hok (fi_run _ _ _ _ _ _ _ HI)). pose proof (filter_two (attempt n) t1 o t2 o' t3 Ho Ho') as H2. unfold nattempts in Hc. lia.
Qed.
Print Assumptions command_attempted_at_most_once.

(** A task whose command a remote runner tries to start has not been handed out to a local loop, and never is. *)
Theorem not_locally_and_remotely secret cfg nlocal rcs acts f t o n c i : config_ok cfg ->
  freachable secret cfg nlocal rcs acts f t -> o ∈ t -> attempt n o = true -> FJ (inl (OHandedOut c i n)) ∈ t -> nlocal <= c.
Proof.
  intros Hok H Hin Ho Hout. destruct (finv_run _ _ _ _ _ _ _ H) as [jacts HI]. pose proof (fi_count _ _ _ _ _ _ _ HI n) as Hc.
  pose proof (fi_run _ _ _ _ _ _ _ HI) as Hj. pose proof (joint_runs_are_tracker_runs _ _ _ _ _ _ Hj) as Hr.
  assert (0 < nattempts n t) as Ha. { unfold nattempts. apply elem_of_list_split in Hin as (a & b & ->). rewrite List.filter_app, app_length. cbn [List.filter]. rewrite Ho. cbn. lia. }
  destruct (joint_runs_are_server_runs _ _ _ _ _ _ Hj) as (ls & Hs & _). apply (given_le_tasks secret n) in Hs.
  assert (0 < ServerSpec.tasks n (http_side (joint_side t))) as Hp by lia.
  destruct (filter_some _ _ Hp) as (e1 & He1 & Hn). destruct e1 as [|h m| |]; try done. cbn in Hn. apply Nat.eqb_eq in Hn as <-.
  destruct (ji_task _ _ _ _ _ _ (jinv_run _ _ _ _ _ _ Hj) h n He1) as (c' & i' & Hc' & Hout').
  apply in_joint_side, in_tracker_side in Hout. apply elem_of_list_split in Hout' as (p & q & Hpq). rewrite Hpq in Hout, Hr.
  apply elem_of_app in Hout as [Hout|[Hout|Hout]%elem_of_cons].
  - apply elem_of_list_split in Hout as (p1 & p2 & ->). rewrite <- List.app_assoc in Hr. cbn [app] in Hr. exfalso.
    eapply (handed_out_at_most_once _ _ _ _ _ _ _ c' i' Hok Hr). apply in_or_app. right. by left.
  - by injection Hout as -> _.
  - exfalso. eapply (handed_out_at_most_once _ _ _ _ _ _ _ c i Hok Hr). by apply elem_of_list_In.
Qed.
Print Assumptions not_locally_and_remotely.

(** The status under which the task of a remote runner finishes tells how its command ended there, or is "disconnected". *)
Theorem finished_status_true secret cfg nlocal rcs acts f t tx n x el : config_ok cfg ->
  freachable secret cfg nlocal rcs acts f t -> distinct_ids t -> real_endings t ->
  given t tx n -> FJ (inl (OFinished n x el)) ∈ t ->
  x = Disconnected \/ exists r o, LocalSpec.outcome_ok o /\ ended_as t r n o /\ x = Code (LocalSpec.number o).
Proof.
  intros Hok H Hd Hre (e & He & Hg) Hf. destruct (finv_run _ _ _ _ _ _ _ H) as [jacts HI].
  assert (In (OFinished n x el) (tracker_side (joint_side t))) as Hin by (by apply elem_of_list_In, in_tracker_side, in_joint_side).
  assert (e ∈ http_side (joint_side t)) as He' by (by apply in_http_side, in_joint_side).
  destruct (remote_status_is_reported _ _ _ _ _ _ n x el tx e Hok (fi_run _ _ _ _ _ _ _ HI) Hin He' Hg) as [|(h & job & tx' & rep & next & c & e' & Hact & -> & Hine & Hge)]; [by left|right].
  destruct (fi_acts _ _ _ _ _ _ _ HI _ _ _ _ Hact) as (r & n' & Hg' & _ & Hc).
  assert (n' = n) as ->. { eapply Hd; [exact Hg'|]. exists e'. split; [by apply in_joint_side, in_http_side|done]. }
  exists r. destruct Hc as [(Hc & -> & _)|[Hpid [(msg & Hc & -> & _)|(raw & out & s & Hc & Hs & -> & _)]]].
  - by exists LocalSpec.CannotStartRemotely.
  - exists LocalSpec.SlurmCancelled. split; [done|]. split; [|done]. split; [done|by exists msg].
  - destruct (Hre _ _ _ _ Hc) as (en & Hen & ->). exists (LocalSpec.Ended en). split; [done|]. split; [split; [done|by exists out]|].
    destruct en as [k|sg core]; cbn [LocalSpec.ending_ok] in Hen; [rewrite LocalProofs.child_code_exited in Hs by done|rewrite LocalProofs.child_code_killed in Hs by done]; by injection Hs as <-.
Qed.
Print Assumptions finished_status_true.

(** A report about the end of a task that the server passes on tells the truth about the command on the runner that had it: its status, its output and the values
    that it wrote to file descriptor 3 (see [tells_truth]). *)
Theorem finished_report_true secret cfg nlocal rcs acts f t n rep : config_ok cfg ->
  freachable secret cfg nlocal rcs acts f t -> distinct_ids t -> FJ (inr (ServerModel.EFinished n (inl rep))) ∈ t -> exists r, tells_truth t r n rep.
Proof.
  intros Hok H Hd Hin. destruct (finv_run _ _ _ _ _ _ _ H) as [jacts HI]. pose proof (fi_run _ _ _ _ _ _ _ HI) as Hj.
  destruct (joint_runs_are_server_runs _ _ _ _ _ _ Hj) as (ls & Hs & Hls).
  assert (ServerModel.EFinished n (inl rep) ∈ http_side (joint_side t)) as Hin' by (by apply in_http_side, in_joint_side).
  destruct (ServerTrace.so_fin _ _ _ _ (ServerTrace.sources_run secret ls _ _ Hs) _ _ Hin') as (ls1 & h & j & tx & next & ls2 & s1 & ev1 & -> & Hs1 & Hlast).
  destruct (Hls (ServerModel.LRequest h secret (Some j) (ServerModel.QEnd tx rep next))) as [(? & ? & ?)|(c & Hact)]; [apply elem_of_app; right; by left|done|].
  destruct (fi_acts _ _ _ _ _ _ _ HI _ _ _ _ Hact) as (r & n' & Hg' & _ & Hc). destruct Hlast as (a & e' & b & -> & Hg & _).
  assert (n' = n) as ->; [|by exists r]. eapply Hd; [exact Hg'|]. exists e'. split; [|done]. apply in_joint_side, in_http_side.
  apply ServerProofs.run_app in Hs as (s2 & ev2 & ev3 & H1 & H2 & ->). rewrite Hs1 in H1. injection H1 as <- <-.
  apply elem_of_app. left. apply elem_of_app. right. by left.
Qed.
Print Assumptions finished_report_true.

(** The host, the process id and the job under which the tracker is told that a task has begun are those of the runner that has it; the process is the
    one that runs the command, or 0 if it could not be started. *)
Theorem started_message_true secret cfg nlocal rcs acts f t n host pid job : config_ok cfg ->
  freachable secret cfg nlocal rcs acts f t -> distinct_ids t -> FJ (inr (ServerModel.EStarted n host pid job)) ∈ t ->
  exists r, host = rc_host (rcs r) /\ job = rc_job (rcs r) /\ (FSpawned r n pid ∈ t \/ pid = 0%N /\ FNotSpawned r n ∈ t).
Proof.
  intros Hok H Hd Hin. destruct (finv_run _ _ _ _ _ _ _ H) as [jacts HI]. pose proof (fi_run _ _ _ _ _ _ _ HI) as Hj.
  destruct (joint_runs_are_server_runs _ _ _ _ _ _ Hj) as (ls & Hs & Hls).
  assert (ServerModel.EStarted n host pid job ∈ http_side (joint_side t)) as Hin' by (by apply in_http_side, in_joint_side).
  destruct (started_origin secret ls _ _ _ _ _ _ Hs Hin') as (h & tx & e & Hl & He & Hg).
  destruct (Hls _ Hl) as [(? & ? & ?)|(c & Hact)]; [done|].
  destruct (fi_acts _ _ _ _ _ _ _ HI _ _ _ _ Hact) as (r & n' & Hg' & -> & [= ->] & Hb).
  assert (n' = n) as ->. { eapply Hd; [exact Hg'|]. exists e. split; [by apply in_joint_side, in_http_side|done]. }
  exists r. split; [done|]. split; [done|]. exact Hb.
Qed.
Print Assumptions started_message_true.

(** When a runner starts the command of a task, every dependency has succeeded before. *)
Theorem spawned_after_dependencies secret cfg nlocal rcs acts f t1 r n pid t2 m : config_ok cfg ->
  freachable secret cfg nlocal rcs acts f (t1 ++ FSpawned r n pid :: t2) -> edge (cf_g cfg) m n ->
  exists el, FJ (inl (OFinished m (Code 0) el)) ∈ t1.
Proof.
  intros Hok H He. destruct (finv_run _ _ _ _ _ _ _ H) as [jacts HI]. destruct (fi_before _ _ _ _ _ _ _ HI _ _ _ _ _ eq_refl) as (tx & e & Hin & Hg).
  apply elem_of_list_split in Hin as (a & b & ->). pose proof (fi_run _ _ _ _ _ _ _ HI) as Hj. rewrite <- List.app_assoc in Hj. cbn [app] in Hj.
  rewrite joint_side_app in Hj. change (joint_side (FJ (inr e) :: b ++ FSpawned r n pid :: t2)) with (inr e :: joint_side (b ++ FSpawned r n pid :: t2)) in Hj.
  destruct (given_after_dependencies _ _ _ _ _ _ _ _ _ _ _ Hok Hj Hg He) as [el Hel]. exists el. apply elem_of_app. left.
  by apply in_joint_side, in_tracker_side, elem_of_list_In.
Qed.
Print Assumptions spawned_after_dependencies.

(** If a dependency was given to a remote runner, its command was started there and has exited with 0 before. *)
Theorem spawned_after_commands_exited secret cfg nlocal rcs acts f t1 r n pid t2 m tx : config_ok cfg ->
  freachable secret cfg nlocal rcs acts f (t1 ++ FSpawned r n pid :: t2) -> distinct_ids t1 -> real_endings t1 -> edge (cf_g cfg) m n -> given t1 tx m ->
  exists r' pid' out, FSpawned r' m pid' ∈ t1 /\ FEnded r' m (LocalSpec.raw_status (LocalSpec.Exited 0)) out ∈ t1.
Proof.
  intros Hok H Hd Hre He Hg. destruct (spawned_after_dependencies _ _ _ _ _ _ _ _ _ _ _ _ Hok H He) as [el Hel].
  destruct (frun_before _ _ _ _ _ _ _ _ _ _ _ _ H) as (a & f1 & H1).
  destruct (finished_status_true _ _ _ _ _ _ _ _ _ _ _ Hok H1 Hd Hre Hg Hel) as [|(r' & o & Hoo & Ho & Hn)]; [done|]. injection Hn as Hn.
  destruct o as [[k|sg core]| | | | |]; cbn in Hn, Ho, Hoo; try done; try lia.
  destruct Ho as [[pid' Hp] [out Ho]]. assert (k = 0%N) as -> by lia. by exists r', pid', out.
Qed.
Print Assumptions spawned_after_commands_exited.

(** Every message that the server sends because of a runner's request, or by itself, is accepted by the tracker: runners announce each task once. *)
Lemma txgivings_given secret cfg nlocal rcs acts f t tx : config_ok cfg -> freachable secret cfg nlocal rcs acts f t -> distinct_ids t -> txgivings tx (http_side (joint_side t)) <= 1.
Proof.
  intros Hok H Hd. destruct (finv_run _ _ _ _ _ _ _ H) as [jacts HI]. pose proof (fi_run _ _ _ _ _ _ _ HI) as Hj.
  assert (forall evs n, (forall e n', e ∈ evs -> ServerSpec.gives tx n' e -> n' = n) -> txgivings tx evs <= givings n evs) as Hle.
  { induction evs as [|e evs IH]; intros n Hall; [done|]. change (e :: evs) with ([e] ++ evs). rewrite txgivings_app, givings_app.
    assert (txgivings tx [e] <= givings n [e]) as H0; [|specialize (IH n (fun e' n' H' => Hall e' n' (elem_of_list_further _ _ _ H'))); lia].
    destruct e as [h rep| | |]; try (cbn; lia). unfold txgivings. cbn [map sum_list]. destruct rep as [|tx' m|[[tx' m]|]| |]; try (cbn; lia); cbn [rtx].
    all: destruct (N.eqb_spec tx tx') as [<-|]; [|cbn; lia].
    all: assert (m = n) as -> by (eapply Hall; [by left|by eexists; eauto]); unfold givings; cbn; rewrite Nat.eqb_refl; cbn; lia. }
  destruct (Nat.eq_dec (txgivings tx (http_side (joint_side t))) 0) as [|Hpos]; [lia|].
  assert (exists e n, e ∈ http_side (joint_side t) /\ ServerSpec.gives tx n e) as (e & n & He & Hg).
  { clear -Hpos. induction (http_side (joint_side t)) as [|e evs IH]; [done|]. change (e :: evs) with ([e] ++ evs) in Hpos. rewrite txgivings_app in Hpos.
    destruct (Nat.eq_dec (txgivings tx evs) 0) as [E|E]; [|destruct (IH E) as (e' & n & ? & ?); exists e', n; split; [by right|done]].
    rewrite E in Hpos. exists e. destruct e as [h rep| | |]; try done. unfold txgivings in Hpos. cbn [map sum_list] in Hpos.
    destruct rep as [|tx' m|[[tx' m]|]| |]; try done; cbn [rtx] in Hpos; destruct (N.eqb_spec tx tx') as [<-|]; try done; exists m; (split; [by left|eexists; eauto]). }
  pose proof (givings_one _ _ _ _ _ _ n Hok Hj). enough (txgivings tx (http_side (joint_side t)) <= givings n (http_side (joint_side t))) by lia.
  apply Hle. intros e' n' He' Hg'. apply (Hd tx); [exists e'|exists e]; (split; [by apply in_joint_side, in_http_side|done]).
Qed.
Theorem fleet_messages_accepted secret cfg nlocal rcs acts f t l sv evs : config_ok cfg ->
  freachable secret cfg nlocal rcs acts f t -> distinct_ids t -> j_closed (f_joint f) = false -> is_deliver l = false -> flag_ok (f_joint f) l = true ->
  ServerModel.step secret (j_http (f_joint f)) l = Some (sv, evs) -> (exists e, e ∈ evs /\ is_message e) ->
  foreign secret (JHttp l 0) = true \/
    (exists r x e h q note, f_runners f !! r = Some x /\ (r_out x = Some e \/ e ∈ r_late x) /\ request_of (rcs r) e note = Some q /\
       l = ServerModel.LRequest h secret (Some (rc_job (rcs r))) q) ->
  exists c j' tj, jstep secret cfg nlocal (f_joint f) (JHttp l c) = Some (j', tj) /\ nlocal <= c /\ j_http j' = sv /\ http_side tj = evs.
Proof.
  intros Hok H Hd Hcl Hdl Hfl Hs Hm Hl. destruct (finv_run _ _ _ _ _ _ _ H) as [jacts HI].
  apply (announced_once_accepted secret cfg nlocal jacts (f_joint f) (joint_side t) l sv evs 0); try done; [exact (fi_run _ _ _ _ _ _ _ HI)|].
  intros tx. pose proof (fi_tx _ _ _ _ _ _ _ HI tx) as Htx. pose proof (txgivings_given _ _ _ _ _ _ _ tx Hok H Hd) as H1.
  rewrite List.filter_app, app_length. cbn [List.filter].
  destruct (announces secret tx (JHttp l 0)) eqn:Ea; cbn [length]; [|lia]. destruct Hl as [Hl|(r & x & e & h & q & note & Hx & Hin & Hq & ->)].
  - exfalso. destruct l as [h token [j|] q| | | | | | | | | | | |]; try done. destruct q; try done. cbn in *. rewrite orb_false_r in Hl. apply negb_true_iff in Hl. by rewrite Hl in Ea.
  - rewrite (wsum_delete _ _ _ _ Hx) in Htx. enough (1 <= announcing tx x) by lia.
    destruct e as [|tx'|tx' pid|pid now|tx' st late sl next out]; cbn in Hq; try done; try (injection Hq as <-); try done; [|by destruct st; try done; injection Hq as <-].
    cbn in Ea. apply andb_true_iff in Ea as [_ Ea]. unfold announcing. destruct Hin as [-> |Hin]; cbn [vb]; [rewrite Ea; cbn; lia|].
    apply elem_of_list_split in Hin as (a & b & ->). rewrite map_app. cbn [map vb]. rewrite Ea.
    enough (1 <= sum_list (map (vb tx) a ++ 1 :: map (vb tx) b)) by (cbn in *; lia). clear. induction (map (vb tx) a); cbn; lia.
Qed.
Print Assumptions fleet_messages_accepted.

(** ** A concrete run: a -> b; client 0 is a local loop of type 0, which can run neither. Runner 7 takes a, starts it as process 99, and reports that it has exited with 0; the
    answer has b, which it starts as process 100. Runner 8 asks too, and gives up before its request arrives, which it does at the end. *)
Definition rcs0 (r : N) : rconfig := RConfig (RemoteModel.Config 0 None None) "j" ServerProps.sr0 "host".
Definition duo4 : config := Config (DiGraph [task "a" 2 0; task "b" 2 0] [(0, 1)]) 3 [0; 1; 1; 1] (fun n => SysTime (N.of_nat n) 0) log0.
Example duo4_ok : config_ok duo4.
Proof. config_ok. Qed.
Definition ft_out : RemoteModel.child_output := RemoteModel.ChildOutput (list_ascii_of_string "out") (list_ascii_of_string "err") (list_ascii_of_string "x=1").
Definition ft_1 : list faction :=
  map FServer ([JTracker (AInit [0])] ++ instrs 5 ++ [JTracker (ARecv 0)]) ++
  [FStartup 7; FStartup 8; FFails 8; FSend 7 1 1 ""] ++ map FServer (duo_recv 1 1 ++ [JHttp (ServerModel.LRun 1 10) 1; JHttp (ServerModel.LRun 1 0) 1]) ++
  [FAnswer 7 false 0; FOwn 7 (RemoteModel.ISpawned 99 false); FSend 7 2 1 ""; FServer (JTracker (AEvent 10)); FAnswer 7 false 0;
   FOwn 7 (RemoteModel.IOutput 0 false 0 ft_out)].
Definition ft_2 : list faction :=
  FSend 7 3 1 "" :: map FServer ([JHttp (ServerModel.LRun 3 0) 1; JHttp (ServerModel.LRun 3 0) 1] ++ duo_2 ++ duo_3) ++ [FAnswer 7 false 0].
Definition ft_3 : list faction := [FOwn 7 (RemoteModel.ISpawned 100 false)].
Definition ft_4 : list faction := [FLate 8 0 4 3 ""].
Definition ft_before : list fobs :=
  map FJ [inl (OReady 0); inl (OPushed 1 0); inl (OHandedOut 1 1 0); inr (ServerModel.ETask 1 0); inr (ServerModel.EReply 1 (ServerModel.RStart 10 0))] ++
  [FSpawned 7 0 99] ++
  map FJ [inl (OSentStarted 1 0); inr (ServerModel.EStarted 0 "host" 99 "j"); inr (ServerModel.EReply 2 ServerModel.ROk); inl (OStarted 0)] ++
  [FEnded 7 0 0 ft_out] ++
  map FJ [inl (OSentFinished 1 0 (Code 0) (Some 0)); inr (ServerModel.EFinished 0 (inl (ServerModel.Report 0 "out" "err" (LocalModel.fd3_values (list_ascii_of_string "x=1"))))); inl (OFinished 0 (Code 0) (Some 10%N));
   inl (OReady 1); inl (OPushed 1 1); inl (OFlag 0 0); inl (OHandedOut 2 1 1); inr (ServerModel.ETask 3 1); inr (ServerModel.EReply 3 (ServerModel.REnd (Some (11%N, 1))))].
Example ft_run : exists f, freachable "s" duo4 1 rcs0 (ft_1 ++ ft_2 ++ ft_3) f (ft_before ++ FSpawned 7 1 100 :: []) /\ j_closed (f_joint f) = false.
Proof. eexists. split; [vm_compute; reflexivity|]. reflexivity. Qed.
Example ft_late : exists f, freachable "s" duo4 1 rcs0 (ft_1 ++ ft_2 ++ ft_3 ++ ft_4) f (ft_before ++ FSpawned 7 1 100 :: []).
Proof. eexists. vm_compute. reflexivity. Qed.
(** The run meets the hypotheses of the theorems above. *)
Lemma ft_given tx n : given ft_before tx n -> tx = 10%N /\ n = 0 \/ tx = 11%N /\ n = 1.
Proof.
  intros (e & He & Hg). apply elem_of_list_In in He. vm_compute in He. destruct Hg as (h & Hg).
  repeat (destruct He as [He|He]; [first [discriminate He|injection He as <-; destruct Hg as [Hg|Hg]; first [discriminate Hg|injection Hg as _ <- <-; auto]]|]). destruct He.
Qed.
Example ft_distinct : distinct_ids ft_before.
Proof. intros tx n n' H H'. apply ft_given in H, H'. destruct H as [[-> ->]|[-> ->]], H' as [[? ?]|[? ?]]; by subst. Qed.
Example ft_endings : real_endings ft_before.
Proof.
  intros r n raw out H. apply elem_of_list_In in H. vm_compute in H. exists (LocalSpec.Exited 0).
  repeat (destruct H as [H|H]; [first [discriminate H|injection H as _ _ <- _; by split]|]). destruct H.
Qed.
Example ft_hypotheses : given ft_before 10 0 /\ given ft_before 11 1 /\ edge (cf_g duo4) 0 1 /\ FJ (inl (OFinished 0 (Code 0) (Some 10%N))) ∈ ft_before /\
  FJ (inr (ServerModel.EStarted 0 "host" 99 "j")) ∈ ft_before /\ FSpawned 7 0 99 ∈ ft_before /\ attempt 0 (FSpawned 7 0 99) = true /\
  FJ (inl (OHandedOut 1 1 0)) ∈ ft_before /\ exists rep, FJ (inr (ServerModel.EFinished 0 (inl rep))) ∈ ft_before.
Proof.
  split; [exists (ServerModel.EReply 1 (ServerModel.RStart 10 0)); split; [apply elem_of_list_In; vm_compute; repeat (first [left; reflexivity|right])|exists 1%N; by left]|].
  split; [exists (ServerModel.EReply 3 (ServerModel.REnd (Some (11%N, 1)))); split; [apply elem_of_list_In; vm_compute; repeat (first [left; reflexivity|right])|exists 3%N; by right]|].
  split; [by left|]. split; [apply elem_of_list_In; vm_compute; auto 30|]. do 4 (split; [first [reflexivity|apply elem_of_list_In; vm_compute; auto 30]|]).
  eexists. apply elem_of_list_In. unfold ft_before. do 3 (apply in_or_app; right). apply in_or_app. right. right. left. reflexivity.
Qed.
(** Before the second request of runner 7 those of fleet_messages_accepted. *)
Example ft_message : exists f t x q sv, freachable "s" duo4 1 rcs0 (firstn 19 ft_1) f t /\ j_closed (f_joint f) = false /\
  f_runners f !! 7%N = Some x /\ r_out x = Some (RemoteModel.VBegun 10 99) /\ request_of (rcs0 7) (RemoteModel.VBegun 10 99) "" = Some q /\
  ServerModel.step "s" (j_http (f_joint f)) (ServerModel.LRequest 2 "s" (Some (rc_job (rcs0 7))) q) =
    Some (sv, [ServerModel.EStarted 0 "host" 99 "j"; ServerModel.EReply 2 ServerModel.ROk]).
Proof.
  eexists _, _, _, _, _. split; [vm_compute; reflexivity|]. split; [reflexivity|]. split; [vm_compute; reflexivity|]. split; [reflexivity|]. split; [reflexivity|]. vm_compute. reflexivity.
Qed.
