(** C53. What becomes of the reports of runners, and of a runner that is not heard of any more. *)
From Verif Require Import JointSpec JointProofs JointInv JointTrace JointLive SchedTrace SchedProofs SchedProps JointProps.
From Verif Require ServerProofs ServerSpec ServerProps.
From Coq Require Import Lia.
From stdpp Require Import prelude.
Local Open Scope nat_scope.

(** A report that a runner, local or remote, has sent to the tracker is waiting to be read, or has been processed with the
    status the runner gave; when the tracker is done, it has been processed. *)
Theorem report_not_lost cfg s t c n x f : config_ok cfg -> reachable cfg s t -> In (OSentFinished c n x f) t ->
  ((exists v, In (EvFinished n x v f) (st_events s)) \/ finished_with t n x \/ In (ODrainFinished n x) t) /\
  (st_phase s = PDrained -> finished_with t n x \/ In (ODrainFinished n x) t).
Proof.
  intros Hok Hr Hi. destruct (sent_not_lost cfg s t Hok Hr) as [H1 H2]. apply elem_of_list_In in Hi.
  assert ((exists v, In (EvFinished n x v f) (st_events s)) \/ finished_with t n x \/ In (ODrainFinished n x) t) as H.
  { destruct (H1 _ _ _ _ Hi) as [(v & Hv)|[(el & He)|He]]; [left; exists v; by apply elem_of_list_In|right; left; exists el; by apply elem_of_list_In|right; right; by apply elem_of_list_In]. }
  split; [exact H|]. intros Hp. destruct H as [(v & Hv)|H]; [by rewrite (H2 Hp) in Hv|done].
Qed.
Print Assumptions report_not_lost.

(** A remote runner that has a task and about which nothing is heard during 255 ticks of the reaper: its task is reported to
    the tracker as disconnected; once the tracker has read what was sent to it, the task has failed, so that the run goes on
    without it. *)
Theorem silent_runner_fails_its_task secret cfg nlocal a1 s1 t1 a2 s2 t2 tx c :
  config_ok cfg -> jreachable secret cfg nlocal a1 s1 t1 -> jrun secret cfg nlocal s1 a2 = Some (s2, t2) ->
  jalong secret cfg nlocal ServerSpec.calm (joint_new cfg) (a1 ++ a2) ->
  ServerModel.sv_conns (j_http s1) !! tx = Some c ->
  (forall l cl, In (JHttp l cl) a2 -> ~ ServerSpec.pings secret tx l /\ ~ ServerSpec.ends secret tx l) ->
  255 <= ServerSpec.nticks (http_labels a2) -> ServerModel.sv_reaper (j_http s2) = ServerModel.PIdle ->
  (exists cl, In (OSentFinished cl (ServerModel.c_node c) Disconnected None) (tracker_side t2)) /\
  (st_events (j_tracker s2) = [] ->
     finished_with (tracker_side (t1 ++ t2)) (ServerModel.c_node c) Disconnected \/ In (ODrainFinished (ServerModel.c_node c) Disconnected) (tracker_side (t1 ++ t2))).
Proof.
  intros Hok H1 H2 Hcalm Hc Hno Hticks Hidle. apply (jalong_app secret cfg nlocal _ a1 _ a2 s1 t1 H1) in Hcalm as [C1 C2].
  destruct (jrun_http _ _ _ _ _ _ _ H1) as (ls1 & Hr1 & _ & _ & Ha1 & _). destruct (jrun_http _ _ _ _ _ _ _ H2) as (ls2 & Hr2 & Ht2 & Hl2 & Ha2 & Hf2).
  specialize (Ha1 C1). specialize (Ha2 C2). change (j_http (joint_new cfg)) with ServerModel.server_new in *.
  assert (ServerModel.EFinished (ServerModel.c_node c) (inr (ServerModel.c_msg c)) ∈ http_side t2) as Hfin.
  { eapply (ServerProps.silent_runner_detected secret ls1 _ _ ls2); [exact Hr1|exact Hr2| |exact Hc| |lia|done].
    - eapply ServerProofs.along_app; [exact Hr1|done].
    - intros l Hl. destruct (Hl2 l Hl) as [Hd|Hl'].
      + destruct l; try done. split; [by intros (h' & j & ?)|by intros (h' & j & rep & next & ?)].
      + apply elem_of_list_omap in Hl' as (a & Ha & Hal). destruct a; try done. injection Hal as <-. eapply (Hno l0 c0). by apply elem_of_list_In. }
  destruct (Hf2 _ _ Hfin) as (cl & fl & Hs & Hfl). cbn [status_of] in Hs.
  assert (jreachable secret cfg nlocal (a1 ++ a2) s2 (t1 ++ t2)) as H12. { apply jrun_app. by exists s1, t1, t2. }
  pose proof (joint_runs_are_tracker_runs _ _ _ _ _ _ H12) as Hr.
  specialize (Hfl _ eq_refl) as ->.
  split; [exists cl; by apply elem_of_list_In|]. intros He.
  destruct (report_not_lost cfg _ _ cl (ServerModel.c_node c) Disconnected None Hok Hr) as [[(v & Hv)|H] _]; [|by rewrite He in Hv|exact H].
  rewrite tracker_side_app. apply in_or_app. right. by apply elem_of_list_In.
Qed.
Print Assumptions silent_runner_fails_its_task.

(** Whatever runners and local loops have done: if none of them ever says anything again, the server on its own (its clock
    ticks, and it acts upon it) takes back every task that a remote runner has. *)
Theorem server_alone_takes_tasks_back secret cfg nlocal a1 s1 t1 :
  config_ok cfg -> jreachable secret cfg nlocal a1 s1 t1 -> jalong secret cfg nlocal ServerSpec.calm (joint_new cfg) a1 ->
  j_closed s1 = false -> ServerModel.sv_handlers (j_http s1) = ∅ -> ServerModel.sv_reaper (j_http s1) = ServerModel.PIdle ->
  exists a2 s2 t2, jrun secret cfg nlocal s1 a2 = Some (s2, t2) /\
    (forall a, In a a2 -> exists c, a = JHttp ServerModel.LTick c \/ a = JHttp ServerModel.LReap c) /\
    forall tx c, ServerModel.sv_conns (j_http s1) !! tx = Some c -> exists cl, In (OSentFinished cl (ServerModel.c_node c) Disconnected None) (tracker_side t2).
Proof.
  intros Hok H1 C1 Hcl Hh Hi. destruct (turns secret 255 (j_http s1) Hi) as (ls & sv & evs & Hr & Hi' & Hh' & Hn & Hf).
  destruct (jfollow secret cfg nlocal ls a1 s1 t1 sv evs H1 Hcl Hr Hf) as (a2 & s2 & t2 & H2 & Hl & Hsv & Ha). exists a2, s2, t2. split; [done|]. split.
  { intros a Hin. rewrite Forall_forall in Ha. apply Ha. by apply elem_of_list_In. }
  intros tx c Hc. eapply (silent_runner_fails_its_task secret cfg nlocal a1 s1 t1 a2 s2 t2 tx c Hok H1 H2); [|done| |rewrite Hl; lia|by rewrite Hsv].
  - eapply jalong_app; [exact H1|]. split; [done|]. apply jquiet_calm; [done|]. eapply Forall_impl; [exact Ha|]. intros a (c0 & [-> | ->]); auto.
  - intros l cl Hin%elem_of_list_In. rewrite Forall_forall in Ha. destruct (Ha _ Hin) as (c0 & [[= -> _]|[= -> _]]);
      (split; [by intros (h & j & ?)|by intros (h & j & rep & next & ?)]).
Qed.
Print Assumptions server_alone_takes_tasks_back.

(** A remote runner gets task a of [duo], and says nothing for 255 ticks. *)
Definition silent_0 : list jaction := firstn 12 duo_1.
Definition silent_1 : list jaction := firstn 14 duo_1.
Definition silent_2 : list jaction :=
  map (fun l => JHttp l 1) (ServerProps.turns 254 ++ [ServerModel.LTick; ServerModel.LReap; ServerModel.LReap; ServerModel.LReap; ServerModel.LReap]) ++ [JTracker (AEvent 20)].
Definition jcheck (r : option (joint * list (obs + ServerModel.event))) (f : joint -> list (obs + ServerModel.event) -> bool) : bool :=
  match r with Some (s, t) => f s t | None => false end.
Lemma silent_opening : jalong "s" duo 1 ServerSpec.calm (joint_new duo) silent_1.
Proof.
  change silent_1 with (silent_0 ++ [JHttp (ServerModel.LRun 1 10) 1; JHttp (ServerModel.LRun 1 0) 1]).
  destruct (jrun "s" duo 1 (joint_new duo) silent_0) as [[s0 t0]|] eqn:E0; [|vm_compute in E0; discriminate]. eapply jalong_app; [exact E0|]. split.
  + apply jplain_calm. repeat constructor.
  + vm_compute in E0. injection E0 as <- _. split; [split; [discriminate|]|].
    * intros h tx node sr job b [= <- <-] _. split; [done|]. split; [|apply not_elem_of_nil].
      intros (i & m & k & Hm & _). change (WheelModel.w_slots _) with (∅ : gmap N (WheelModel.smap N)) in Hm. by rewrite lookup_empty in Hm.
    * destruct (jstep _ _ _ _ _) as [[s3 t3]|] eqn:E3; [|done]. vm_compute in E3. injection E3 as <- _. split; [|by destruct (jstep _ _ _ _ _) as [[? ?]|]].
      split; [discriminate|]. intros h tx node sr job b [= <- _]. vm_compute. discriminate.
Qed.
Lemma silent_turns s : ServerModel.sv_handlers (j_http s) = ∅ -> jalong "s" duo 1 ServerSpec.calm s silent_2.
Proof.
  intros Hh. apply jquiet_calm; [exact Hh|]. unfold silent_2. apply Forall_app. split; [|by repeat constructor]. apply Forall_forall. intros a (l & -> & Hl)%elem_of_list_fmap.
  apply elem_of_app in Hl as [Hl|Hl]; [by eapply ServerProps.turns_shape|]. rewrite !elem_of_cons, elem_of_nil in Hl. intuition auto.
Qed.
Lemma jcheck_spec r f : jcheck r f = true -> exists s t, r = Some (s, t) /\ f s t = true.
Proof. destruct r as [[s t]|]; [eauto|done]. Qed.
Example silent : exists s1 t1 s2 t2 c, jreachable "s" duo 1 silent_1 s1 t1 /\ jrun "s" duo 1 s1 silent_2 = Some (s2, t2) /\
  jalong "s" duo 1 ServerSpec.calm (joint_new duo) (silent_1 ++ silent_2) /\ ServerModel.sv_conns (j_http s1) !! 10%N = Some c /\
  255 <= ServerSpec.nticks (http_labels silent_2) /\ ServerModel.sv_reaper (j_http s2) = ServerModel.PIdle /\ st_events (j_tracker s2) = [] /\
  In (OFinished 0 Disconnected None) (tracker_side t2).
Proof.
  assert (jcheck (jrun "s" duo 1 (joint_new duo) silent_1) (fun s1 _ => match ServerModel.sv_conns (j_http s1) !! 10%N, map_to_list (ServerModel.sv_handlers (j_http s1)) with
    | Some _, [] => jcheck (jrun "s" duo 1 s1 silent_2) (fun s2 t2 => ServerProps.is_idle (ServerModel.sv_reaper (j_http s2)) && match st_events (j_tracker s2) with [] => true | _ => false end
        && existsb (fun o => match o with OFinished 0 Disconnected None => true | _ => false end) (tracker_side t2))
    | _, _ => false end) = true) as Hb by (vm_compute; reflexivity).
  apply jcheck_spec in Hb as (s1 & t1 & H1 & Hb).
  destruct (ServerModel.sv_conns (j_http s1) !! 10%N) as [c|] eqn:Hc; [|done]. destruct (map_to_list _) eqn:Hh; [|done]. apply map_to_list_empty_iff in Hh.
  apply jcheck_spec in Hb as (s2 & t2 & H2 & Hb). apply andb_true_iff in Hb as [[Hi%ServerProps.is_idle_spec He]%andb_true_iff Hf].
  assert (st_events (j_tracker s2) = []) as He' by (by destruct (st_events (j_tracker s2))). apply existsb_exists in Hf as (o & Ho & Hf).
  assert (o = OFinished 0 Disconnected None) as -> by (destruct o as [| | | | | | |[|?] [] []| | | | | | |]; done).
  exists s1, t1, s2, t2, c. split; [exact H1|]. split; [exact H2|]. split; [|split; [exact Hc|split; [vm_compute; lia|split; [exact Hi|split; [exact He'|exact Ho]]]]].
  eapply jalong_app; [exact H1|]. split.
  - exact silent_opening.
  - by apply silent_turns.
Qed.
