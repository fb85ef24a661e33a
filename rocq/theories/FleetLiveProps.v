(** C71. No task that the server has taken for a runner is lost. *)
From Verif Require Import FleetSpec FleetProofs FleetProps FleetJobs JointProofs JointInv JointTrace JointProps JointLive JointLiveProps SchedProofs SchedProps.
From Verif Require ServerProofs ServerTrace ServerSpec ServerProps RemoteModel.
From Coq Require Import Lia.
From stdpp Require Import prelude gmap.
Local Open Scope nat_scope.

(** The report of a runner about a transaction that is open is never refused: it is taken as the report about the task that was given under it. *)
Theorem runner_report_accepted secret cfg nlocal rcs acts f t r x e tx rep next note c h : config_ok cfg ->
  freachable secret cfg nlocal rcs acts f t -> distinct_ids t -> f_runners f !! r = Some x -> r_out x = Some e \/ e ∈ r_late x ->
  request_of (rcs r) e note = Some (ServerModel.QEnd tx rep next) ->
  ServerModel.sv_conns (j_http (f_joint f)) !! tx = Some c -> ServerModel.sv_handlers (j_http (f_joint f)) !! h = None ->
  exists s', ServerModel.step secret (j_http (f_joint f)) (ServerModel.LRequest h secret (Some (rc_job (rcs r))) (ServerModel.QEnd tx rep next)) = Some (s', []) /\
    ServerModel.sv_handlers s' !! h = Some (ServerModel.HEnd c rep next) /\ given t tx (ServerModel.c_node c).
Proof.
  intros Hok H Hd Hx He Hq Hc Hh. destruct (jb_run _ _ _ _ _ _ _ H) as (jacts & HI & HB).
  assert (ServerModel.c_job c = rc_job (rcs r)) as Ej.
  { eapply (got_one _ _ jacts f t tx); [exact HB|by eapply txgivings_given|by apply (jb_conn _ _ _ _ _ HB)|].
    destruct e as [| | | |tx' st late sl nxt out]; try done. destruct st as [k| |]; try done. cbn in Hq. injection Hq as <- _ _. by eapply (jb_out _ _ _ _ _ HB). }
  eexists. cbn [ServerModel.step]. rewrite Hh. unfold ServerModel.request_step. rewrite String.eqb_refl. unfold ServerModel.end_. rewrite Hc, Ej, String.eqb_refl.
  split; [reflexivity|]. split; [cbn; by rewrite lookup_insert|].
  destruct (joint_runs_are_server_runs _ _ _ _ _ _ (fi_run _ _ _ _ _ _ _ HI)) as (ls & Hs & _).
  destruct (ServerTrace.so_conn _ _ _ _ (ServerTrace.sources_run secret ls _ _ Hs) tx c Hc) as [(a & ev & b & E & Hg & _) _].
  exists ev. split; [|done]. apply in_joint_side, in_http_side. rewrite E. apply elem_of_app. right. by left.
Qed.
Print Assumptions runner_report_accepted.

Lemma cnt_pos {A} (P : A -> bool) (m : gmap N A) : 0 < ServerProofs.cnt P m <-> exists k x, m !! k = Some x /\ P x = true.
Proof.
  split.
  - intros H. apply filter_some in H as ([k x] & Hin & HP). exists k, x. split; [by apply elem_of_map_to_list|done].
  - intros (k & x & Hx & HP). rewrite (ServerProofs.cnt_delete _ _ _ _ Hx), HP. lia.
Qed.
Lemma filter_pos {A} (P : A -> bool) (l : list A) x : x ∈ l -> P x = true -> 0 < length (List.filter P l).
Proof. intros H HP. apply elem_of_list_split in H as (a & b & ->). rewrite List.filter_app, app_length. cbn [List.filter]. rewrite HP. cbn. lia. Qed.
Lemma held_under_way n s : 0 < ServerProofs.held n s <-> under_way s n.
Proof.
  unfold ServerProofs.held, under_way.
  assert (0 < ServerProofs.cnt (ServerProofs.conn_of n) (ServerModel.sv_conns s) <-> exists tx c, ServerModel.sv_conns s !! tx = Some c /\ ServerModel.c_node c = n) as H1.
  { rewrite cnt_pos. unfold ServerProofs.conn_of. split; intros (k & x & ? & E); exists k, x; (split; [done|]); [by apply Nat.eqb_eq in E|by apply Nat.eqb_eq]. }
  rewrite <- H1. assert (0 < ServerProofs.cnt (ServerProofs.handler_of n) (ServerModel.sv_handlers s) <-> exists h x, ServerModel.sv_handlers s !! h = Some x /\
     match x with
     | ServerModel.HGot m _ _ _ | ServerModel.HTimed m _ _ _ _ _ => m = n
     | ServerModel.HEnd c _ _ | ServerModel.HEndCancelled c _ _ => ServerModel.c_node c = n
     | ServerModel.HWait _ _ _ | ServerModel.HEndFlag _ _ => False
     end) as H2.
  { rewrite cnt_pos. split; intros (k & x & ? & E); exists k, x; (split; [done|]); destruct x; cbn in *; try done; try (by apply Nat.eqb_eq in E); by apply Nat.eqb_eq. }
  rewrite <- H2. assert (0 < length (List.filter (ServerProofs.conn_of n) (ServerProofs.expired_of (ServerModel.sv_reaper s))) <->
    exists c, c ∈ ServerProofs.expired_of (ServerModel.sv_reaper s) /\ ServerModel.c_node c = n) as H3.
  { split; [intros (c & ? & E)%filter_some; exists c; split; [done|]; by apply Nat.eqb_eq in E|]. intros (c & Hc & E). eapply filter_pos; [exact Hc|]. by apply Nat.eqb_eq. }
  unfold ServerProofs.expired_of in *. rewrite <- H3. lia.
Qed.
Lemma finishes_pos n t : 0 < ServerSpec.finishes n (http_side (joint_side t)) <-> exists how, FJ (inr (ServerModel.EFinished n how)) ∈ t.
Proof.
  split.
  - intros (e & He & Hn)%filter_some. destruct e; try done. cbn in Hn. apply Nat.eqb_eq in Hn as <-. exists how. by apply in_joint_side, in_http_side.
  - intros (how & H). eapply filter_pos; [by apply in_http_side, in_joint_side|]. cbn. by apply Nat.eqb_eq.
Qed.
Lemma finishes_one n t : ServerSpec.finishes n (http_side (joint_side t)) = 1 -> reported_once t n.
Proof.
  intros H. assert (0 < ServerSpec.finishes n (http_side (joint_side t))) as (how & Hin)%finishes_pos by lia.
  apply elem_of_list_split in Hin as (t1 & t2 & ->). exists t1, how, t2. split; [done|]. intros how' H'.
  assert (0 < ServerSpec.finishes n (http_side (joint_side (t1 ++ t2)))) as Hp by (apply finishes_pos; eauto).
  change (FJ (inr (ServerModel.EFinished n how)) :: t2) with ([FJ (inr (ServerModel.EFinished n how))] ++ t2) in H.
  rewrite !joint_side_app, !http_side_app, !ServerProofs.finishes_app in *. unfold ServerSpec.finishes at 2 in H. cbn [joint_side http_side omap list_omap List.filter ServerSpec.is_finish] in H.
  rewrite Nat.eqb_refl in H. cbn [length] in H. lia.
Qed.

(** A task that the tracker has handed out to the server for a runner is in the server's books, or its end has been reported, once; never both, never
    neither. The reaper must not have panicked (see [ServerProps.reaper_never_panics_refuted]). *)
Theorem task_kept_or_reported secret cfg nlocal rcs acts f t h n : config_ok cfg ->
  freachable secret cfg nlocal rcs acts f t -> distinct_ids t -> ServerModel.sv_reaper (j_http (f_joint f)) <> ServerModel.PPanicked ->
  FJ (inr (ServerModel.ETask h n)) ∈ t ->
  (under_way (j_http (f_joint f)) n /\ not_reported t n) \/ (~ under_way (j_http (f_joint f)) n /\ reported_once t n).
Proof.
  intros Hok H Hd Hp Hin. pose proof (fleet_account _ _ _ _ _ _ _ n Hok H Hd Hp) as Ha. destruct (finv_run _ _ _ _ _ _ _ H) as [jacts HI].
  pose proof (fi_run _ _ _ _ _ _ _ HI) as Hj. pose proof (joint_runs_are_tracker_runs _ _ _ _ _ _ Hj) as Hr.
  pose proof (jrun_tasks _ _ _ _ _ _ _ n Hj) as Ht. rewrite outs_handed in Ht. pose proof (nodup_count n _ (SchedProofs.c03 cfg Hok _ _ Hr)) as H1.
  assert (0 < ServerSpec.tasks n (http_side (joint_side t))) as H0. { eapply filter_pos; [by apply in_http_side, in_joint_side|]. cbn. by apply Nat.eqb_eq. }
  destruct (Nat.eq_dec (ServerProofs.held n (j_http (f_joint f))) 0) as [E|E].
  - right. rewrite <- held_under_way. split; [lia|]. apply finishes_one. lia.
  - left. rewrite <- held_under_way. split; [lia|]. intros how H'. assert (0 < ServerSpec.finishes n (http_side (joint_side t))) by (apply finishes_pos; eauto). lia.
Qed.
Print Assumptions task_kept_or_reported.

(** So when the server is at rest, every task that it has taken has been reported, once. *)
Theorem fleet_at_rest_all_reported secret cfg nlocal rcs acts f t h n : config_ok cfg ->
  freachable secret cfg nlocal rcs acts f t -> distinct_ids t -> ServerSpec.at_rest (j_http (f_joint f)) -> FJ (inr (ServerModel.ETask h n)) ∈ t -> reported_once t n.
Proof.
  intros Hok H Hd Hr Hin. assert (ServerModel.sv_reaper (j_http (f_joint f)) <> ServerModel.PPanicked) as Hp by (destruct Hr as (_ & _ & [-> | ->]); done).
  destruct (task_kept_or_reported _ _ _ _ _ _ _ _ _ Hok H Hd Hp Hin) as [[Hu _]|[_ Ho]]; [|done]. apply held_under_way in Hu. rewrite (ServerProofs.held_rest n _ Hr) in Hu. lia.
Qed.
Print Assumptions fleet_at_rest_all_reported.

(** And once the tracker has read what was sent to it, the task has come to its end there. *)
Theorem taken_task_ends secret cfg nlocal rcs acts f t h n : config_ok cfg ->
  freachable secret cfg nlocal rcs acts f t -> distinct_ids t -> ServerModel.sv_reaper (j_http (f_joint f)) <> ServerModel.PPanicked ->
  FJ (inr (ServerModel.ETask h n)) ∈ t -> ~ under_way (j_http (f_joint f)) n -> st_events (j_tracker (f_joint f)) = [] ->
  exists x, (exists el, FJ (inl (OFinished n x el)) ∈ t) \/ FJ (inl (ODrainFinished n x)) ∈ t.
Proof.
  intros Hok H Hd Hp Hin Hu He. destruct (task_kept_or_reported _ _ _ _ _ _ _ _ _ Hok H Hd Hp Hin) as [[? _]|[_ (t1 & how & t2 & Et & _)]]; [done|].
  destruct (finv_run _ _ _ _ _ _ _ H) as [jacts HI]. pose proof (fi_run _ _ _ _ _ _ _ HI) as Hj. pose proof (joint_runs_are_tracker_runs _ _ _ _ _ _ Hj) as Hr.
  destruct (jrun_http _ _ _ _ _ _ _ Hj) as (_ & _ & _ & _ & _ & Hf).
  assert (ServerModel.EFinished n how ∈ http_side (joint_side t)) as Hfin. { apply in_http_side, in_joint_side. rewrite Et. apply elem_of_app. right. by left. }
  destruct (Hf _ _ Hfin) as (c & fl & Hs & _). exists (status_of how). apply elem_of_list_In in Hs.
  destruct (report_not_lost cfg _ _ _ _ _ _ Hok Hr Hs) as [[(v & Hv)|[(el & Hel)|Hel]] _].
  - by rewrite He in Hv.
  - left. exists el. by apply in_joint_side, in_tracker_side, elem_of_list_In.
  - right. by apply in_joint_side, in_tracker_side, elem_of_list_In.
Qed.
Print Assumptions taken_task_ends.

(** ** The run of FleetProps.v goes on: runner 7 reports b too, and goes away while it waits for the answer. *)
Definition ft_none : RemoteModel.child_output := RemoteModel.ChildOutput [] [] [].
Definition ft_end : list faction :=
  [FSend 7 5 2 ""; FServer (JTracker (AEvent 20)); FAnswer 7 false 0; FOwn 7 (RemoteModel.IOutput 0 false 0 ft_none)].
Definition ft_over : list faction :=
  FSend 7 6 2 "" :: map FServer [JHttp (ServerModel.LRun 6 0) 2; JHttp (ServerModel.LRun 6 0) 2; JHttp (ServerModel.LDrop 6) 2; JTracker (AEvent 21)].
Definition ft_after : list fobs :=
  map FJ [inl (OSentStarted 2 1); inr (ServerModel.EStarted 1 "host" 100 "j"); inr (ServerModel.EReply 5 ServerModel.ROk); inl (OStarted 1)] ++ [FEnded 7 1 0 ft_none].
Definition ft_rest : list fobs :=
  map FJ [inl (OSentFinished 2 1 (Code 0) (Some 1)); inr (ServerModel.EFinished 1 (inl (ServerModel.Report 0 "" "" []))); inl (OFinished 1 (Code 0) (Some 1%N)); inl (OExit ExitDone)].
Lemma ft_given2 tx n t : t = ft_before ++ FSpawned 7 1 100 :: ft_after \/ t = ft_before ++ FSpawned 7 1 100 :: ft_after ++ ft_rest -> given t tx n -> tx = 10%N /\ n = 0 \/ tx = 11%N /\ n = 1.
Proof.
  intros Ht (e & He & Hg). apply ft_given. exists e. split; [|done]. destruct Hg as (h & Hg).
  assert (FJ (inr e) ∈ ft_before \/ FJ (inr e) ∈ FSpawned 7 1 100 :: ft_after ++ ft_rest) as [|Hin]; [|done|].
  { destruct Ht as [-> | ->]; rewrite elem_of_app in He; destruct He as [|He]; [by left|right|by left|by right].
    apply elem_of_cons in He as [|He]; [done|]. right. apply elem_of_app. by left. }
  exfalso. apply elem_of_list_In in Hin. vm_compute in Hin.
  repeat (destruct Hin as [Hin|Hin]; [first [discriminate Hin|injection Hin as <-; destruct Hg as [Hg|Hg]; discriminate Hg]|]). destruct Hin.
Qed.
Lemma ft_distinct2 t : t = ft_before ++ FSpawned 7 1 100 :: ft_after \/ t = ft_before ++ FSpawned 7 1 100 :: ft_after ++ ft_rest -> distinct_ids t.
Proof. intros Ht tx n n' H H'. apply (ft_given2 tx n t Ht) in H. apply (ft_given2 tx n' t Ht) in H'. destruct H as [[-> ->]|[-> ->]], H' as [[? ?]|[? ?]]; by subst. Qed.
Definition is_rest (s : ServerModel.server) : bool :=
  match map_to_list (ServerModel.sv_handlers s), map_to_list (ServerModel.sv_conns s), ServerModel.sv_reaper s with [], [], ServerModel.PIdle => true | _, _, _ => false end.
Definition fcheck (r : option (fleet * list fobs)) (p : fleet -> bool) : bool := match r with Some (f, _) => p f | None => false end.
Lemma run_parts (r : option (fleet * list fobs)) T p : snd <$> r = Some T -> fcheck r p = true -> exists f, r = Some (f, T) /\ p f = true.
Proof. destruct r as [[f t]|]; [|done]. cbn. intros [= ->] H. by exists f. Qed.
Lemma rest_check s : is_rest s = true -> ServerSpec.at_rest s.
Proof.
  unfold is_rest.   destruct (map_to_list (ServerModel.sv_handlers s)) eqn:E1; [|done]. destruct (map_to_list (ServerModel.sv_conns s)) eqn:E2; [|done]. destruct (ServerModel.sv_reaper s) eqn:E3; try done.
  intros _. split; [by apply map_to_list_empty_iff|]. split; [by apply map_to_list_empty_iff|by left].
Qed.
Lemma rest_not_under_way s n : ServerSpec.at_rest s -> ~ under_way s n.
Proof. intros Hr. rewrite <- held_under_way, (ServerProofs.held_rest n _ Hr). lia. Qed.
(** Before the last report: task b is under way, task a has been reported; the request of runner 7 meets the hypotheses of runner_report_accepted. *)
Definition kept_check (f : fleet) : bool :=
  ServerProps.is_idle (ServerModel.sv_reaper (j_http (f_joint f))) &&
  match f_runners f !! 7%N with Some x => match r_out x with Some (RemoteModel.VEnd 11 (Code 0) false None true (Some (RemoteModel.ChildOutput [] [] []))) => true | _ => false end | None => false end &&
  match ServerModel.sv_conns (j_http (f_joint f)) !! 11%N with Some c => Nat.eqb (ServerModel.c_node c) 1 | None => false end.
Lemma kept_check_spec f : kept_check f = true -> exists x c, ServerModel.sv_reaper (j_http (f_joint f)) <> ServerModel.PPanicked /\ under_way (j_http (f_joint f)) 1 /\
  f_runners f !! 7%N = Some x /\ r_out x = Some (RemoteModel.VEnd 11 (Code 0) false None true (Some (RemoteModel.ChildOutput [] [] []))) /\
  ServerModel.sv_conns (j_http (f_joint f)) !! 11%N = Some c /\ ServerModel.c_node c = 1.
Proof.
  unfold kept_check. intros [[Hi%ServerProps.is_idle_spec Hx]%andb_true_iff Hc]%andb_true_iff.
  destruct (f_runners f !! 7%N) as [x|] eqn:Ex; [|done]. destruct (ServerModel.sv_conns (j_http (f_joint f)) !! 11%N) as [c|] eqn:Ec; [|done]. apply Nat.eqb_eq in Hc.
  exists x, c. split; [by rewrite Hi|]. split; [left; by exists 11%N, c|]. split; [done|]. split; [|done]. clear -Hx. repeat (case_match; try done).
Qed.
Example ft_kept : exists f x c, let t := ft_before ++ FSpawned 7 1 100 :: ft_after in
  freachable "s" duo4 1 rcs0 (ft_1 ++ ft_2 ++ ft_3 ++ ft_end) f t /\ distinct_ids t /\
  FJ (inr (ServerModel.ETask 1 0)) ∈ t /\ FJ (inr (ServerModel.ETask 3 1)) ∈ t /\
  ServerModel.sv_reaper (j_http (f_joint f)) <> ServerModel.PPanicked /\ under_way (j_http (f_joint f)) 1 /\
  f_runners f !! 7%N = Some x /\ r_out x = Some (RemoteModel.VEnd 11 (Code 0) false None true (Some (RemoteModel.ChildOutput [] [] []))) /\
  ServerModel.sv_conns (j_http (f_joint f)) !! 11%N = Some c /\ ServerModel.c_node c = 1.
Proof.
  cbv zeta. destruct (run_parts (frun "s" duo4 1 rcs0 (fleet_new duo4) (ft_1 ++ ft_2 ++ ft_3 ++ ft_end)) (ft_before ++ FSpawned 7 1 100 :: ft_after) kept_check) as (f & E & Hc).
  { vm_compute. reflexivity. }
  { vm_compute. reflexivity. }
  apply kept_check_spec in Hc as (x & c & Hc). exists f, x, c. split; [exact E|]. clear E. split; [apply ft_distinct2; by left|].
  split; [apply elem_of_list_In; vm_compute; repeat (first [left; reflexivity|right])|]. split; [apply elem_of_list_In; vm_compute; repeat (first [left; reflexivity|right])|]. exact Hc.
Qed.
(** At the end the server is at rest, and the tracker has read everything. *)
Definition over_check (f : fleet) : bool := is_rest (j_http (f_joint f)) && match st_events (j_tracker (f_joint f)) with [] => true | _ => false end.
Lemma over_check_spec f : over_check f = true -> ServerSpec.at_rest (j_http (f_joint f)) /\ st_events (j_tracker (f_joint f)) = [] /\ ~ under_way (j_http (f_joint f)) 1.
Proof.
  unfold over_check. intros [Hr%rest_check He]%andb_true_iff. split; [exact Hr|]. split; [by destruct (st_events (j_tracker (f_joint f)))|]. by apply rest_not_under_way.
Qed.
Example ft_at_rest : exists f, let t := ft_before ++ FSpawned 7 1 100 :: ft_after ++ ft_rest in
  freachable "s" duo4 1 rcs0 (ft_1 ++ ft_2 ++ ft_3 ++ ft_end ++ ft_over) f t /\ distinct_ids t /\ FJ (inr (ServerModel.ETask 3 1)) ∈ t /\
  ServerSpec.at_rest (j_http (f_joint f)) /\ st_events (j_tracker (f_joint f)) = [] /\ ~ under_way (j_http (f_joint f)) 1.
Proof.
  cbv zeta. destruct (run_parts (frun "s" duo4 1 rcs0 (fleet_new duo4) (ft_1 ++ ft_2 ++ ft_3 ++ ft_end ++ ft_over)) (ft_before ++ FSpawned 7 1 100 :: ft_after ++ ft_rest) over_check) as (f & E & Hc).
  { vm_compute. reflexivity. }
  { vm_compute. reflexivity. }
  apply over_check_spec in Hc. exists f. split; [exact E|]. clear E. split; [apply ft_distinct2; by right|].
  split; [apply elem_of_list_In; vm_compute; repeat (first [left; reflexivity|right])|]. exact Hc.
Qed.
