(** C64: the heartbeat of a remote runner. A server that has waited in vain reports the task as lost, and it may then be run
    again: the theorems say under which conditions on the network the runner has stopped by then, and under which no
    connection that is alive is taken for a dead one. *)
From Verif Require Import HeartProofs HeartSpec.
Open Scope N_scope.

Definition SECOND : N := 1000 * MS.

(** When the server reports a task as disconnected, its runner does not run it any more, whatever becomes of the pings,
    provided that an answer of the server takes at most [b] to reach the runner and timers of the runner are late by at most
    [nw_slack nw], together 4.73 seconds: 34.73 seconds is what the server waits, 30 what the runner waits. *)
Theorem disconnected_runner_has_stopped nw b s t t1 now t2 : nw_back nw = Some b -> b + nw_slack nw + 30 * SECOND < PATIENCE ->
  hreachable nw s t -> t = t1 ++ EDisconnected now :: t2 -> runner_over t1.
Proof. intros Hb Hc R E. destruct (disconnected_step _ _ _ R _ _ _ E) as (s0 & s1 & R0 & H). eapply back_over; eauto. by left. Qed.

(** No runner gives up for want of pongs, provided that it gets the answer to each ping within [r] and [r] and the lateness of
    its timers make less than 15 seconds together. *)
Theorem live_runner_goes_on nw r s t now : nw_trip nw = Some r -> 15 * SECOND + nw_slack nw + r < 30 * SECOND ->
  hreachable nw s t -> ~ In (EStopped now) t.
Proof. intros Hr Hc R. eapply never_stopped; eauto. Qed.

(** The server reports no task as disconnected whose runner goes on with it, provided that answers come within [r] and twice
    [r] and the lateness of the timers make less than 19.73 seconds together. *)
Theorem live_task_not_disconnected nw r s t t1 now t2 : nw_trip nw = Some r -> 15 * SECOND + nw_slack nw + 2 * r < PATIENCE ->
  hreachable nw s t -> t = t1 ++ EDisconnected now :: t2 -> runner_over t1.
Proof. intros Hr Hc R E. destruct (disconnected_step _ _ _ R _ _ _ E) as (s0 & s1 & R0 & H). eapply trip_over; eauto. by left. Qed.

(** So with answers in 9 seconds and timers late by at most a second, a task is lost only if a ping has failed or the task was
    finished already. *)
Theorem healthy_connection nw s t t1 now t2 : nw_trip nw = Some (9 * SECOND) -> nw_slack nw <= SECOND ->
  hreachable nw s t -> t = t1 ++ EDisconnected now :: t2 -> exists x, In (EPingFailed x) t1 \/ In (EFinished x) t1.
Proof.
  intros Hr Hs R E. destruct (live_task_not_disconnected nw (9 * SECOND) s t t1 now t2 Hr) as (x & Hx); eauto.
  { change PATIENCE with 34727554624. change SECOND with 1000000000 in *. lia. }
  exists x. destruct Hx as [Hx|Hx]; [|done]. exfalso. eapply live_runner_goes_on; [exact Hr| |exact R|subst t; apply in_app_iff; left; exact Hx].
  change SECOND with 1000000000 in *. lia.
Qed.

(** Whatever the network does, a runner that goes on has heard of the server in the last 30 seconds, but for the lateness of
    its timers. *)
Theorem no_runner_without_pong nw s t : hreachable nw s t -> ~ runner_over t -> (exists h at_, In (EPong h at_) t) ->
  exists h at_, In (EPong h at_) t /\ at_ <= he_now s /\ he_now s <= at_ + 30 * SECOND + nw_slack nw.
Proof.
  intros R Ho Hp. destruct (he_runner s) eqn:E.
  - exfalso. destruct Hp as (h & x & Hp). eapply awaiting_no_pong; eauto.
  - destruct (basic_reach _ _ _ R) as (B1 & B2 & B3 & B4). rewrite may_pass_spec in B4. destruct B4 as (P1 & P2 & P3).
    pose proof (last_reach _ _ _ R) as HL. rewrite E in *. destruct HL as [h HL]. exists h, last. split; [done|]. split; [lia|]. change (30 * SECOND) with PONG_TIMEOUT. lia.
  - exfalso. apply Ho. eapply over_reach; eauto.
  - exfalso. apply Ho. eapply over_reach; eauto.
Qed.

(** ** The condition of [disconnected_runner_has_stopped] is needed: the server answers pings of tasks it has given up like all
    others. If the task took 10 seconds to reach the runner and the first ping 10 seconds to reach the server, the task is
    reported as disconnected, and may run elsewhere, while the runner goes on with it for any time. *)
Definition ticks (n : nat) : list haction := concat (repeat [HPass TICK; HTick] n).
Definition late_start : list haction :=
  [HTick] ++ ticks 73 ++ [HPass (10 * SECOND - 73 * TICK); HPong 0; HPass (74 * TICK - 10 * SECOND); HTick] ++ ticks 108 ++
  [HPass (25 * SECOND - 182 * TICK); HPing; HPass (183 * TICK - 25 * SECOND); HTick] ++ ticks 71 ++
  [HPass (35 * SECOND - 254 * TICK); HHandle 0; HPong 0; HPass (5 * SECOND); HPing; HHandle 0; HPong 0].
Definition beat : list haction := [HPass (15 * SECOND); HPing; HHandle 0; HPong 0].
Definition late : network := Network 0 (Some (10 * SECOND)) None.

Lemma late_start_run : hrun late heart_start late_start =
  Some (Heart (40 * SECOND) None (255 * TICK) (Beating (40 * SECOND) (55 * SECOND)) [] [],
        [EPong 0 (10 * SECOND); EDisconnected (254 * TICK); EPong (35 * SECOND) (35 * SECOND); EPong (40 * SECOND) (40 * SECOND)]).
Proof. vm_compute. reflexivity. Qed.
Lemma beat_run now tick : hrun late (Heart now None tick (Beating now (now + PING_INTERVAL)) [] []) beat =
  Some (Heart (now + PING_INTERVAL) None tick (Beating (now + PING_INTERVAL) (now + PING_INTERVAL + PING_INTERVAL)) [] [],
        [EPong (now + PING_INTERVAL) (now + PING_INTERVAL)]).
Proof.
  unfold beat. cbn [hrun]. unfold hstep at 1. change (15 * SECOND) with PING_INTERVAL.
  assert (HP : may_pass late (Heart now None tick (Beating now (now + PING_INTERVAL)) [] []) (now + PING_INTERVAL) = true).
  { rewrite may_pass_spec. cbn [he_runner he_pings he_pongs nw_slack late]. unfold PONG_TIMEOUT. split; [lia|]. split; intros; done. }
  rewrite HP. cbn [hstep]. rewrite (proj2 (N.leb_le _ _) (N.le_refl _)). reflexivity.
Qed.

Theorem disconnected_runner_has_stopped_refuted : exists nw, nw_slack nw = 0 /\ nw_trip nw = Some (10 * SECOND) /\
  forall T, exists s t now h later, hreachable nw s t /\ In (EDisconnected now) t /\ In (EPong h later) t /\ now + T <= later /\ ~ runner_over t.
Proof.
  exists late. split; [done|]. split; [done|]. intros T.
  assert (Hk : forall k, exists s t, hreachable late s t /\ In (EDisconnected (254 * TICK)) t /\
    (exists h, In (EPong h (40 * SECOND + N.of_nat k * PING_INTERVAL)) t) /\ ~ runner_over t /\
    exists tick, s = Heart (40 * SECOND + N.of_nat k * PING_INTERVAL) None tick
      (Beating (40 * SECOND + N.of_nat k * PING_INTERVAL) (40 * SECOND + N.of_nat k * PING_INTERVAL + PING_INTERVAL)) [] []).
  { induction k as [|k (s & t & (acts & R) & H1 & H2 & H3 & tick & ->)].
    - eexists _, _. split; [exists late_start; apply late_start_run|]. split; [by right; left|]. split; [exists (40 * SECOND); by right; right; right; left|].
      split; [|by eexists]. intros (x & Hx). cbn [In] in Hx. intuition discriminate.
    - assert (En : 40 * SECOND + N.of_nat k * PING_INTERVAL + PING_INTERVAL = 40 * SECOND + N.of_nat (S k) * PING_INTERVAL) by lia.
      eexists _, _. split; [exists (acts ++ beat); rewrite hrun_app, R, beat_run; reflexivity|]. rewrite En.
      split; [apply in_app_iff; by left|]. split; [eexists; apply in_app_iff; right; left; reflexivity|]. split; [|by eexists].
      intros (x & Hx). apply H3. exists x. rewrite !in_app_iff in Hx. cbn [In] in Hx. intuition discriminate. }
  destruct (Hk (N.to_nat T)) as (s & t & R & H1 & [h H2] & H3 & _). exists s, t, (254 * TICK), h, (40 * SECOND + N.of_nat (N.to_nat T) * PING_INTERVAL).
  repeat (split; [done|]). split; [|done]. rewrite N2Nat.id. change (254 * TICK) with 34727554624. change SECOND with 1000000000. change PING_INTERVAL with 15000000000. lia.
Qed.

(** ** The hypotheses are met. *)
(** A connection breaks after the first pong: the runner gives up after 30 seconds, the server reports the task later. *)
Example broken_connection : exists s, hreachable (Network 0 None (Some SECOND)) s
  [EPong 0 0; EStopped (30 * SECOND); EDisconnected (254 * TICK)].
Proof.
  eexists. exists ([HPong 0; HTick] ++ ticks 109 ++ [HPass (15 * SECOND - 109 * TICK); HPing; HPass (110 * TICK - 15 * SECOND); HTick] ++ ticks 109 ++
    [HPass (30 * SECOND - 219 * TICK); HPing; HGiveUp; HPass (220 * TICK - 30 * SECOND); HTick] ++ ticks 34). vm_compute. reflexivity.
Qed.
(** A runner that goes on for 45 seconds with a slow connection. *)
Example slow_connection : exists s, hreachable (Network SECOND (Some (9 * SECOND)) None) s
  [EPong 0 (5 * SECOND); EPong (24 * SECOND) (29 * SECOND); EPong (37 * SECOND) (45 * SECOND); EFinished (45 * SECOND)] /\ he_left s <> None.
Proof.
  eexists. split; [|shelve]. exists [HPass (5 * SECOND); HPong 0; HPass (15 * SECOND); HPing; HPass (4 * SECOND); HHandle 0; HPass (5 * SECOND); HPong 0;
    HPass (7 * SECOND); HPing; HPass SECOND; HHandle 0; HPass (8 * SECOND); HPong 0; HFinish]. vm_compute. reflexivity. Unshelve. done.
Qed.
(** A task is lost because a ping has failed. *)
Example failed_ping : exists s, hreachable (Network 0 (Some (9 * SECOND)) None) s
  [EPong 0 0; EPingFailed (15 * SECOND); EDisconnected (15 * SECOND + 254 * TICK)].
Proof. eexists. exists ([HPong 0; HPass (15 * SECOND); HPing; HFail 0; HTick] ++ ticks 254). vm_compute. reflexivity. Qed.

Print Assumptions disconnected_runner_has_stopped.
Print Assumptions live_runner_goes_on.
Print Assumptions live_task_not_disconnected.
Print Assumptions healthy_connection.
Print Assumptions no_runner_without_pong.
Print Assumptions disconnected_runner_has_stopped_refuted.
