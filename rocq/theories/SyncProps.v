(** Theorems about flags and counters (C38), status requests (C39) and the cancellation token (C37). *)
From Verif Require Import SyncProofs.
From Coq Require Import Lia.

Local Ltac by_decide := apply (bool_decide_eq_true_1 _); vm_compute; reflexivity.

(** ** C38 *)
(** The flag is set, no thread is still inside set, and nobody unsets it: a waiter can always go on, and after at most two
    of its own steps it has returned, whatever the other threads do in between. *)
Theorem flag_wait_never_missed acts s w acts' s' :
  Forall (flag_act true) acts -> ev_run (ev_new false) acts = Some s -> is_waiting s w (fun v => v) ->
  ev_value s = true -> ev_setters s = ∅ ->
  Forall (flag_act false) acts' -> ev_run s acts' = Some s' ->
  ((2 <= own_steps w acts')%nat -> has_returned s' w true) /\
  (is_waiting s' w (fun v => v) -> exists s'', ev_step s' (EvStep w) = Some s'').
Proof.
  intros Hf Hrun Hw Hv Hset Hf' Hrun'.
  destruct (no_missed_wakeup false acts s w (fun v => v) acts' s' Hrun Hw Hset (flag_stays _ _ Hf' Hv) Hrun') as [H1 H2].
  split; [|done]. intros H. destruct (H1 H) as [v [ok Hr]].
  assert (ev_run (ev_new false) (acts ++ acts') = Some s') as Hall by (rewrite (ev_run_app_2 _ _ _ _ Hrun); done).
  assert (Forall (flag_act true) (acts ++ acts')) as Hfall.
  { apply Forall_app. split; [done|]. eapply Forall_impl; [exact Hf'|]. intros a []; constructor; done. }
  pose proof (flag_tests _ _ _ Hfall Hall _ _ _ Hr) as ->.
  pose proof (ei_done _ (ev_inv_run _ _ _ (ev_inv_new false) Hall) _ _ _ Hr) as Hd. simpl in Hd. subst v. by exists (fun v => v).
Qed.
Print Assumptions flag_wait_never_missed.

(** A waiter returns only by a step taken while the flag was set. *)
Theorem flag_wait_sound acts s w v :
  Forall (flag_act true) acts -> ev_run (ev_new false) acts = Some s -> has_returned s w v ->
  exists acts1 acts2 s1, acts = acts1 ++ EvStep w :: acts2 /\ ev_run (ev_new false) acts1 = Some s1 /\
    is_waiting s1 w (fun v => v) /\ ev_value s1 = true.
Proof.
  intros Hf Hrun Hr. destruct (returned_was_seen _ _ _ _ _ Hrun Hr) as (a1 & a2 & s1 & ok & Heq & Hr1 & Hw & Hv & Hok).
  { intros [ok H]. simpl in H. by rewrite lookup_empty in H. }
  exists a1, a2, s1. split; [done|]. split; [done|]. subst acts. apply Forall_app in Hf as [Hf1 _].
  assert (ok = (fun v => v)) as ->; [destruct Hw as (x & Hx & _); by eapply flag_tests|]. split; [done|]. by rewrite Hv.
Qed.
Print Assumptions flag_wait_sound.

(** The same for a counter: once it is above the waited value it stays so. *)
Theorem counter_wait_never_missed acts s w from acts' s' :
  Forall counter_act acts -> ev_run (ev_new 0) acts = Some s -> is_waiting s w (fun v => N.ltb from v) ->
  from < ev_value s -> ev_setters s = ∅ ->
  Forall counter_act acts' -> ev_run s acts' = Some s' ->
  ((2 <= own_steps w acts')%nat -> exists v, has_returned s' w v /\ from < v) /\
  (is_waiting s' w (fun v => N.ltb from v) -> exists s'', ev_step s' (EvStep w) = Some s'').
Proof.
  intros Hf Hrun Hw Hv Hset Hf' Hrun'. pose proof (counter_stays _ _ _ Hf' Hv) as Hst.
  destruct (no_missed_wakeup 0 acts s w _ acts' s' Hrun Hw Hset Hst Hrun') as [H1 H2].
  split; [|done]. intros H. destruct (H1 H) as [v Hr]. exists v. split; [done|].
  destruct (returned_was_seen _ _ _ _ _ Hrun' Hr) as (a1 & a2 & s1 & ok & -> & Hr1 & Hw1 & Hv1 & _).
  { intros [ok Hd]. destruct Hw as (x & Hx & Hnd). rewrite Hx in Hd. injection Hd as _ ->. by destruct (Hnd v). }
  apply Forall_app in Hf' as [Hf1 _]. pose proof (stays_end _ _ _ _ (counter_stays from _ _ Hf1 Hv) Hr1) as He.
  simpl in He. rewrite Hv1 in He. by apply N.ltb_lt.
Qed.
Print Assumptions counter_wait_never_missed.

Theorem counter_wait_sound acts s w v :
  Forall counter_act acts -> ev_run (ev_new 0) acts = Some s -> has_returned s w v ->
  exists acts1 acts2 s1 from, acts = acts1 ++ EvStep w :: acts2 /\ ev_run (ev_new 0) acts1 = Some s1 /\
    is_waiting s1 w (fun v => N.ltb from v) /\ ev_value s1 = v /\ from < v.
Proof.
  intros Hf Hrun Hr. destruct (returned_was_seen _ _ _ _ _ Hrun Hr) as (a1 & a2 & s1 & ok & Heq & Hr1 & Hw & Hv & Hok).
  { intros [ok H]. simpl in H. by rewrite lookup_empty in H. }
  subst acts. apply Forall_app in Hf as [Hf1 _]. pose proof Hw as (x & Hx & _).
  destruct (counter_tests _ _ Hf1 Hr1 _ _ _ Hx) as [from ->]. exists a1, a2, s1, from. repeat split; try done. by apply N.ltb_lt.
Qed.
Print Assumptions counter_wait_sound.

(** A waiter caught between its listen and its second look, with a set in between. *)
Definition flag_demo : list (ev_action bool) :=
  [flag_wait 0; flag_wait 1; EvStep 0; EvStep 0; EvStep 0; EvStep 1; flag_set 7; flag_set 8; EvStep 1; EvNotify 8; flag_unset 8; EvNotify 7; EvNotify 8; EvStep 0; flag_set 7; EvNotify 7].
Example flag_demo_ok : exists s s', ev_run (ev_new false) flag_demo = Some s /\ Forall (flag_act true) flag_demo /\
  is_waiting s 0 (fun v => v) /\ is_waiting s 1 (fun v => v) /\ ev_value s = true /\ ev_setters s = ∅ /\
  ev_run s [EvStep 1; EvStep 0; flag_set 3] = Some s' /\ has_returned s' 0 true /\ has_returned s' 1 true.
Proof.
  eexists _, _. split; [vm_compute; reflexivity|]. split; [repeat constructor|].
  split; [eexists; split; [vm_compute; reflexivity|done]|]. split; [eexists; split; [vm_compute; reflexivity|done]|].
  split; [reflexivity|]. split; [by_decide|]. split; [vm_compute; reflexivity|]. split; eexists; vm_compute; reflexivity.
Qed.

(** Why the hypothesis about setters: between the store and the notification of set a waiter may be asleep. *)
Example between_store_and_notify : exists s, ev_run (ev_new false) [flag_wait 0; EvStep 0; EvStep 0; EvStep 0; flag_set 7] = Some s /\
  ev_value s = true /\ ev_step s (EvStep 0) = None /\ exists s', ev_run s [EvNotify 7; EvStep 0; EvStep 0] = Some s' /\ has_returned s' 0 true.
Proof.
  eexists. split; [vm_compute; reflexivity|]. split; [reflexivity|]. split; [vm_compute; reflexivity|].
  eexists. split; [vm_compute; reflexivity|]. eexists. vm_compute. reflexivity.
Qed.

(** ** C39 *)
(** Never before the minimum time; and with an etag not larger than the one asked for, only after the timeout. *)
Theorem status_not_too_early acts s r q etag t :
  poll_run poll_new acts = Some s -> answered s r q etag t ->
  rq_start q + rq_timemin q <= t /\ (rq_etag q < etag \/ rq_start q + rq_timeout q <= t).
Proof.
  intros Hrun [Hq Hp]. destruct (pi_returned _ _ _ (poll_inv_run _ _ _ _ _ poll_inv_new Hrun) _ _ _ _ Hq Hp) as (? & ? & ? & ? & ?). done.
Qed.
Print Assumptions status_not_too_early.

(** Nor late: when both the timeout and the minimum time have passed, or a newer etag exists and the minimum time has
    passed, the request can be answered at once. *)
Theorem status_answered_in_time acts s r q :
  poll_run poll_new acts = Some s -> unanswered s r q -> rq_start q + rq_timemin q <= ps_now s ->
  (rq_start q + rq_timeout q <= ps_now s \/ rq_phase q = RSleeping ->
   exists a s' q' etag, In a [PReady r; PTimeout r; PWake r] /\ poll_step s a = Some s' /\ answered s' r q' etag (ps_now s)) /\
  (rq_phase q = RWaiting -> rq_etag q < ev_value (ps_counter s) -> ev_setters (ps_counter s) = ∅ ->
   exists k s' q' etag, (k <= 2)%nat /\ poll_run s (repeat (PStep r) k ++ [PReady r]) = Some s' /\ answered s' r q' etag (ps_now s) /\ rq_etag q < etag).
Proof.
  intros Hrun [Hq Hun] Hm. split.
  - intros [Ht|Hp]; [by eapply request_ends|]. 
    exists (PWake r). eexists _, _, (ev_value (ps_counter s)). split; [right; right; by left|].
    split; [cbn [poll_step]; rewrite Hq, Hp; destruct (N.leb_spec (rq_start q + rq_timemin q) (ps_now s)); [reflexivity|lia]|].
    split; [simpl; by rewrite lookup_insert|]. done.
  - intros Hp Hlt Hset. destruct (request_woken _ _ _ _ Hrun Hq Hp Hlt Hset) as (k & s' & q' & Hk & Hr' & Hq' & _ & H).
    destruct (H Hm) as (etag & Hph & Hle). exists k, s', q', etag. done.
Qed.
Print Assumptions status_answered_in_time.

(** The answer is a value the counter had: not larger than now, and not smaller than at any moment before the request came. *)
Theorem status_etag_true acts1 s1 acts2 s2 r q etag t :
  poll_run poll_new acts1 = Some s1 -> ps_requests s1 !! r = None -> poll_run s1 acts2 = Some s2 -> answered s2 r q etag t ->
  ev_value (ps_counter s1) <= etag <= ev_value (ps_counter s2).
Proof.
  intros Hr1 Hnone Hr2 [Hq Hp].
  pose proof (poll_inv_run _ _ _ _ _ (poll_inv_restart _ _ _ (poll_inv_run _ _ _ _ _ poll_inv_new Hr1)) Hr2) as Hi.
  destruct (pi_returned _ _ _ Hi _ _ _ _ Hq Hp) as (? & ? & ? & ? & H). split; [|done]. apply H. by apply not_elem_of_dom.
Qed.
Print Assumptions status_etag_true.

(** Etags never decrease from an answer to that of a later request. *)
Theorem status_etags_grow acts1 s1 acts2 s2 r1 q1 e1 t1 r2 q2 e2 t2 :
  poll_run poll_new acts1 = Some s1 -> answered s1 r1 q1 e1 t1 -> ps_requests s1 !! r2 = None ->
  poll_run s1 acts2 = Some s2 -> answered s2 r2 q2 e2 t2 -> e1 <= e2.
Proof.
  intros Hr1 [Hq1 Hp1] Hnone Hr2 Ha2. destruct (status_etag_true _ _ _ _ _ _ _ _ Hr1 Hnone Hr2 Ha2) as [H _].
  destruct (pi_returned _ _ _ (poll_inv_run _ _ _ _ _ poll_inv_new Hr1) _ _ _ _ Hq1 Hp1) as (? & ? & ? & ? & ?). lia.
Qed.
Print Assumptions status_etags_grow.

(** Two requests: one answered by an increment after the minimum time, one by the timeout. *)
Definition poll_demo : list poll_action :=
  [PStart 0 0 50 100; PStep 0; PStep 0; PStep 0; PTick 10; PIncr 9; PNotify 9; PStep 0; PStep 0; PReady 0; PTick 40; PWake 0].
Definition poll_demo2 : list poll_action := [PStart 1 1 0 100; PStep 1; PTick 100; PTimeout 1].
Example poll_demo_ok : exists s1 s2 q1 q2, poll_run poll_new poll_demo = Some s1 /\ answered s1 0 q1 1 50 /\
  ps_requests s1 !! 1%nat = None /\ poll_run s1 poll_demo2 = Some s2 /\ answered s2 1 q2 1 150.
Proof.
  eexists _, _, _, _. split; [vm_compute; reflexivity|]. split; [split; vm_compute; reflexivity|].
  split; [vm_compute; reflexivity|]. split; [vm_compute; reflexivity|]. split; vm_compute; reflexivity.
Qed.
Example poll_demo_wakes : exists s q, poll_run poll_new (take 7 poll_demo) = Some s /\ unanswered s 0 q /\ rq_phase q = RWaiting /\
  rq_etag q < ev_value (ps_counter s) /\ ev_setters (ps_counter s) = ∅.
Proof.
  eexists _, _. split; [vm_compute; reflexivity|]. split; [split; [vm_compute; reflexivity|done]|]. split; [reflexivity|]. split; [vm_compute; reflexivity|by_decide].
Qed.

(** ** C37 *)
(** If no two calls of cancel overlap, the token is what the calls so far amount to: hard if one of them was, and else soft
    with the earliest time. *)
Theorem cancels_combine acts s :
  tok_run tok_new acts = Some s -> no_overlap tok_new acts -> t_cancels s = ∅ -> amounts_to (tok_calls acts) (t_value s).
Proof.
  intros Hrun Hno Hc. destruct (no_overlap_value acts tok_new s [] Hno Hrun) as [[_ H]|(c & new & H & _)].
  - by left.
  - rewrite H. apply cancel_sequence.
  - rewrite Hc in H. symmetry in H. by apply map_non_empty_singleton in H.
Qed.
Print Assumptions cancels_combine.

(** So the order of the calls does not matter. *)
Theorem cancels_commute acts acts' s s' :
  tok_run tok_new acts = Some s -> no_overlap tok_new acts -> t_cancels s = ∅ ->
  tok_run tok_new acts' = Some s' -> no_overlap tok_new acts' -> t_cancels s' = ∅ ->
  Permutation (tok_calls acts) (tok_calls acts') -> t_value s = t_value s'.
Proof.
  intros H1 H2 H3 H1' H2' H3' Hp. eapply amounts_unique; [|by apply cancels_combine].
  eapply amounts_permutation; [exact Hp|]. by apply cancels_combine.
Qed.
Print Assumptions cancels_commute.

(** A waiter for work begun at [time] returns only on a state that releases it, and whenever the token releases it, it can
    return in two steps; this holds for all interleavings, overlapping calls included. *)
Theorem soft_waiter_released acts s w x time :
  tok_run tok_new acts = Some s -> t_waiters s !! w = Some x -> tok_rel x = soft_released time ->
  (forall y, x = TReturned (soft_released time) y ->
     releases y time /\ exists acts1 acts2 s1, acts = acts1 ++ TStep w :: acts2 /\ tok_run tok_new acts1 = Some s1 /\ t_value s1 = y) /\
  (releases (t_value s) time ->
     exists k s' y, (k <= 2)%nat /\ tok_run s (repeat (TStep w) k) = Some s' /\ t_waiters s' !! w = Some (TReturned (soft_released time) y)).
Proof.
  intros Hrun Hx Hrel. split.
  - intros y ->. destruct (tok_returned _ _ _ _ _ Hrun Hx) as [Hr H]. split; [|done].
    destruct y as [[t|]|]; simpl in Hr; [right; exists t; by rewrite <- N.ltb_lt|by left|done].
  - intros Hv. destruct (tok_no_miss s w x (tok_inv_run _ _ _ tok_inv_new Hrun) Hx) as (k & s' & Hk & Hr & y & Hy).
    { rewrite Hrel. destruct Hv as [->|(t & -> & Ht)]; [done|]. simpl. by apply N.ltb_lt. }
    rewrite Hrel in Hy. eauto 10.
Qed.
Print Assumptions soft_waiter_released.

Theorem hard_waiter_released acts s w x :
  tok_run tok_new acts = Some s -> t_waiters s !! w = Some x -> tok_rel x = hard_released ->
  (forall y, x = TReturned hard_released y -> y = Some HardCancelled) /\
  (t_value s = Some HardCancelled ->
     exists k s' y, (k <= 2)%nat /\ tok_run s (repeat (TStep w) k) = Some s' /\ t_waiters s' !! w = Some (TReturned hard_released y)).
Proof.
  intros Hrun Hx Hrel. split.
  - intros y ->. destruct (tok_returned _ _ _ _ _ Hrun Hx) as [Hr _]. by destruct y as [[]|].
  - intros Hv. destruct (tok_no_miss s w x (tok_inv_run _ _ _ tok_inv_new Hrun) Hx) as (k & s' & Hk & Hr & y & Hy).
    { by rewrite Hrel, Hv. }
    rewrite Hrel in Hy. eauto 10.
Qed.
Print Assumptions hard_waiter_released.

Definition tok_demo : list tok_action :=
  [TWait 0 (soft_released 5); TStep 0; TCancelRead 0 (CancelledAfterTime 9); TCancelStore 0; TStep 0; TStep 0;
   TCancelRead 1 (CancelledAfterTime 4); TCancelStore 1; TCancelRead 0 (CancelledAfterTime 6); TWait 1 hard_released].
Fixpoint no_overlap_b (s : token) (acts : list tok_action) : bool :=
  match acts with
  | [] => true
  | a :: acts =>
      match a with TCancelRead _ _ => bool_decide (t_cancels s = ∅) | _ => true end &&
      match tok_step s a with Some s' => no_overlap_b s' acts | None => true end
  end.
Lemma no_overlap_check acts : forall s, no_overlap_b s acts = true -> no_overlap s acts.
Proof.
  induction acts as [|a acts IH]; intros s H; [done|]. cbn [no_overlap_b no_overlap] in *. apply andb_prop in H as [H1 H2]. split.
  - destruct a; try done. by apply bool_decide_eq_true_1 in H1.
  - destruct (tok_step s a); [by apply IH|done].
Qed.
Example tok_demo_ok : exists s x, tok_run tok_new tok_demo = Some s /\ no_overlap tok_new tok_demo /\ t_cancels s = ∅ /\
  t_value s = Some (CancelledAfterTime 4) /\ t_waiters s !! 0%nat = Some x /\ tok_rel x = soft_released 5 /\ releases (t_value s) 5.
Proof.
  eexists _, _. split; [vm_compute; reflexivity|]. split; [apply no_overlap_check; vm_compute; reflexivity|]. split; [by_decide|]. split; [reflexivity|].
  split; [vm_compute; reflexivity|]. split; [reflexivity|]. right. exists 4. split; [reflexivity|lia].
Qed.

(** Without the hypothesis that calls do not overlap the claim is false: cancel reads the token, decides and then stores, so
    a soft call that read before a hard one stored undoes the hard cancellation. *)
Theorem cancels_combine_refuted :
  exists acts s, tok_run tok_new acts = Some s /\ t_cancels s = ∅ /\ In HardCancelled (tok_calls acts) /\ t_value s <> Some HardCancelled.
Proof.
  exists [TCancelRead 0 (CancelledAfterTime 3); TCancelRead 1 HardCancelled; TCancelStore 1; TCancelStore 0]. eexists.
  split; [vm_compute; reflexivity|]. split; [by_decide|]. split; [simpl; tauto|]. done.
Qed.
Print Assumptions cancels_combine_refuted.
(** Likewise two overlapping soft calls may leave the later time. *)
Theorem earliest_time_refuted :
  exists acts s, tok_run tok_new acts = Some s /\ t_cancels s = ∅ /\ tok_calls acts = [CancelledAfterTime 7; CancelledAfterTime 3] /\ t_value s = Some (CancelledAfterTime 7).
Proof.
  exists [TCancelRead 0 (CancelledAfterTime 7); TCancelRead 1 (CancelledAfterTime 3); TCancelStore 1; TCancelStore 0]. eexists.
  split; [vm_compute; reflexivity|]. split; [by_decide|]. split; reflexivity.
Qed.
Print Assumptions earliest_time_refuted.
