From Verif Require Export SyncSpec.
From Coq Require Import Lia.

(** ** Events *)
Section event.
  Context {V : Type}.
  Implicit Types (s : ev_state V).

  Record ev_inv s : Prop := EvInv {
    ei_await : forall w ok, ev_waiters s !! w = Some (ok, WAwait) ->
      w ∈ ev_notified s \/ ok (ev_value s) = false \/ ev_setters s <> ∅;
    ei_done : forall w ok v, ev_waiters s !! w = Some (ok, WDone v) -> ok v = true
  }.

  Lemma ev_inv_set s w ok x :
    ev_inv s -> (x = WAwait -> ok (ev_value s) = false) -> (forall v, x = WDone v -> ok v = true) -> ev_inv (set_waiter s w (ok, x)).
  Proof.
    intros [H1 H2] Ha Hd. split; simpl.
    - intros w' ok' Hw. destruct (decide (w = w')) as [<-|Hne].
      + rewrite lookup_insert in Hw. injection Hw as <- ->. auto.
      + rewrite lookup_insert_ne in Hw by done. eauto.
    - intros w' ok' v Hw. destruct (decide (w = w')) as [<-|Hne].
      + rewrite lookup_insert in Hw. injection Hw as <- ->. auto.
      + rewrite lookup_insert_ne in Hw by done. eauto.
  Qed.

  Lemma ev_inv_step s a s' : ev_inv s -> ev_step s a = Some s' -> ev_inv s'.
  Proof.
    intros Hi Hs. destruct a as [w ok|w|t f|t]; cbn [ev_step] in Hs.
    - destruct (ev_waiters s !! w); [done|]. injection Hs as <-. by apply ev_inv_set.
    - destruct (ev_waiters s !! w) as [[ok x]|] eqn:Hw; [|done]. destruct x; try done.
      + injection Hs as <-. apply ev_inv_set; [done|by destruct (ok (ev_value s))|].
        intros v. destruct (ok (ev_value s)) eqn:E; [by intros [= <-]|done].
      + injection Hs as <-. destruct Hi as [H1 H2]. split; simpl.
        * intros w' ok' Hw'. destruct (decide (w = w')) as [<-|Hne]; [by rewrite lookup_insert in Hw'|].
          rewrite lookup_insert_ne in Hw' by done. destruct (H1 w' ok' Hw') as [?|?]; [left; set_solver|by right].
        * intros w' ok' v Hw'. destruct (decide (w = w')) as [<-|Hne]; [by rewrite lookup_insert in Hw'|].
          rewrite lookup_insert_ne in Hw' by done. eauto.
      + injection Hs as <-. apply ev_inv_set; [done|by destruct (ok (ev_value s))|].
        intros v. destruct (ok (ev_value s)) eqn:E; [by intros [= <-]|done].
      + case_bool_decide; [|done]. injection Hs as <-. by apply ev_inv_set.
    - case_bool_decide; [done|]. injection Hs as <-. destruct Hi as [H1 H2]. split; simpl; [|done].
      intros w ok Hw. right. right. set_solver.
    - case_bool_decide; [|done]. injection Hs as <-. destruct Hi as [H1 H2]. split; simpl; [|done].
      intros w ok Hw. left. apply elem_of_union_r. apply elem_of_dom. exists (ok, WAwait). by apply map_filter_lookup_Some.
  Qed.

  Lemma ev_run_app acts1 : forall s acts2 s', ev_run s (acts1 ++ acts2) = Some s' ->
    exists s1, ev_run s acts1 = Some s1 /\ ev_run s1 acts2 = Some s'.
  Proof.
    induction acts1 as [|a acts1 IH]; intros s acts2 s' H; simpl in *; [eauto|]. destruct (ev_step s a); [eauto|done].
  Qed.
  Lemma ev_run_app_2 acts1 : forall s acts2 s1, ev_run s acts1 = Some s1 -> ev_run s (acts1 ++ acts2) = ev_run s1 acts2.
  Proof.
    induction acts1 as [|a acts1 IH]; intros s acts2 s1 H; simpl in *; [by injection H as <-|]. destruct (ev_step s a); [eauto|done].
  Qed.

  Lemma ev_inv_run acts : forall s s', ev_inv s -> ev_run s acts = Some s' -> ev_inv s'.
  Proof.
    induction acts as [|a acts IH]; intros s s' Hi H; simpl in H; [by injection H as <-|].
    destruct (ev_step s a) as [s1|] eqn:Hs; [|done]. eapply IH; [|done]. by eapply ev_inv_step.
  Qed.
  Lemma ev_inv_new v : ev_inv (ev_new v).
  Proof. split; simpl; intros *; by rewrite lookup_empty. Qed.

  (** Waiters keep their test; a waiter that is not done is still there after any step. *)
  Definition left_ (x : waiter V) : nat := match x with WCheck | WRecheck => 1 | WListen | WAwait => 2 | WDone _ => 0 end.

  (** A waiter that can go on, while its test holds: it is not asleep without having been notified. *)
  Definition going s (w : nat) (ok : V -> bool) (n : nat) : Prop :=
    exists x, ev_waiters s !! w = Some (ok, x) /\ (left_ x <= n)%nat /\ (x = WAwait -> w ∈ ev_notified s).

  Lemma going_step s a s' w ok n : going s w ok n -> ok (ev_value s) = true -> ev_step s a = Some s' ->
    going s' w ok (if own_step w a then pred n else n).
  Proof.
    intros (x & Hx & Hn & Ha) Hok Hs. destruct a as [w' ok'|w'|t f|t]; cbn [ev_step] in Hs; cbn [own_step].
    - destruct (ev_waiters s !! w') eqn:Hw'; [done|]. injection Hs as <-. exists x.
      split; [simpl; rewrite lookup_insert_ne; [done|congruence]|done].
    - destruct (Nat.eqb_spec w w') as [<-|Hne].
      + rewrite Hx in Hs. destruct x as [| | | |v]; try done; cbn [left_] in Hn.
        * injection Hs as <-. rewrite Hok. eexists. split; [simpl; by rewrite lookup_insert|]. split; [simpl; lia|done].
        * injection Hs as <-. eexists. split; [simpl; by rewrite lookup_insert|]. split; [simpl; lia|done].
        * injection Hs as <-. rewrite Hok. eexists. split; [simpl; by rewrite lookup_insert|]. split; [simpl; lia|done].
        * case_bool_decide; [|done]. injection Hs as <-. eexists. split; [simpl; by rewrite lookup_insert|]. split; [simpl; lia|done].
      + destruct (ev_waiters s !! w') as [[ok' y]|] eqn:Hw'; [|done]. exists x. 
        destruct y; try done; try (case_bool_decide; [|done]); injection Hs as <-;
          (split; [simpl; by rewrite lookup_insert_ne|]); (split; [done|]); simpl; try done.
        intros Hxa. specialize (Ha Hxa). set_solver.
    - case_bool_decide; [done|]. injection Hs as <-. exists x. done.
    - case_bool_decide; [|done]. injection Hs as <-. exists x. split; [done|]. split; [done|]. simpl. intros Hxa. specialize (Ha Hxa). set_solver.
  Qed.

  Lemma going_run acts : forall s s' w ok n, going s w ok n -> stays ok s acts -> ev_run s acts = Some s' -> going s' w ok (n - own_steps w acts).
  Proof.
    induction acts as [|a acts IH]; intros s s' w ok n Hg Hst Hrun; simpl in Hrun.
    { injection Hrun as <-. unfold own_steps. simpl. by rewrite Nat.sub_0_r. }
    destruct Hst as [Hok Hst]. destruct (ev_step s a) as [s1|] eqn:Hs; [|done].
    pose proof (going_step _ _ _ _ _ _ Hg Hok Hs) as Hg1. specialize (IH _ _ _ _ _ Hg1 Hst Hrun).
    unfold own_steps in *. simpl. destruct (own_step w a); simpl; [|done].
    replace (n - S (length (List.filter (own_step w) acts)))%nat with (pred n - length (List.filter (own_step w) acts))%nat by lia. done.
  Qed.

  Lemma stays_end acts : forall s s' ok, stays ok s acts -> ev_run s acts = Some s' -> ok (ev_value s') = true.
  Proof.
    induction acts as [|a acts IH]; intros s s' ok [Hok Hst] Hrun; simpl in *; [by injection Hrun as <-|].
    destruct (ev_step s a) eqn:Hs; [|done]. eauto.
  Qed.

  Lemma no_missed_wakeup v0 acts s w ok acts' s' :
    ev_run (ev_new v0) acts = Some s -> is_waiting s w ok -> ev_setters s = ∅ -> stays ok s acts' -> ev_run s acts' = Some s' ->
    ((2 <= own_steps w acts')%nat -> exists v, has_returned s' w v) /\
    (is_waiting s' w ok -> exists s'', ev_step s' (EvStep w) = Some s'').
  Proof.
    intros Hrun (x & Hx & Hnd) Hset Hst Hrun'.
    pose proof (ev_inv_run _ _ _ (ev_inv_new v0) Hrun) as [Hi _].
    assert (going s w ok 2) as Hg.
    { exists x. split; [done|]. split; [destruct x; simpl; lia|]. intros ->.
      destruct (Hi _ _ Hx) as [?|[Hf|?]]; [done| |done]. destruct acts'; destruct Hst as [Hok _]; congruence. }
    destruct (going_run _ _ _ _ _ _ Hg Hst Hrun') as (y & Hy & Hl & Ha). split.
    - intros H2. destruct y; simpl in Hl; try lia. eexists. eexists. done.
    - intros (y' & Hy' & Hnd'). rewrite Hy in Hy'. injection Hy' as <-. cbn [ev_step]. rewrite Hy.
      destruct y; try (eexists; reflexivity).
      + rewrite bool_decide_eq_true_2 by auto. eexists; reflexivity.
      + by destruct (Hnd' v).
  Qed.

  (** What a waiter returned was the value at some moment of its call, and satisfies its test. *)
  Lemma returned_was_seen acts : forall s0 s w v, ev_run s0 acts = Some s -> has_returned s w v -> ~ has_returned s0 w v ->
    exists acts1 acts2 s1 ok, acts = acts1 ++ EvStep w :: acts2 /\ ev_run s0 acts1 = Some s1 /\
      is_waiting s1 w ok /\ ev_value s1 = v /\ ok v = true.
  Proof.
    induction acts as [|a acts IH] using rev_ind; intros s0 s w v Hrun [ok Hret] Hnot; [simpl in Hrun; injection Hrun as ->; destruct Hnot; by exists ok|].
    apply ev_run_app in Hrun as (s1 & Hrun & Hs). simpl in Hs. destruct (ev_step s1 a) as [s2|] eqn:Hstep; [|done]. injection Hs as ->.
    assert (has_returned s1 w v \/ a = EvStep w /\ is_waiting s1 w ok /\ ev_value s1 = v /\ ok v = true) as [Hr|(-> & Hw & Hv & Hok)].
    { destruct a as [w' ok'|w'|t f|t]; cbn [ev_step] in Hstep.
      - destruct (ev_waiters s1 !! w') eqn:Hw'; [done|]. injection Hstep as <-. simpl in Hret. left. exists ok.
        destruct (decide (w' = w)) as [->|Hne]; [by rewrite lookup_insert in Hret|]. by rewrite lookup_insert_ne in Hret.
      - destruct (ev_waiters s1 !! w') as [[ok' y]|] eqn:Hw'; [|done].
        destruct (decide (w' = w)) as [->|Hne].
        + destruct y; try done; try (case_bool_decide; [|done]); injection Hstep as <-; simpl in Hret; rewrite lookup_insert in Hret; try done.
          * destruct (ok' (ev_value s1)) eqn:E; [|done]. injection Hret as -> <-. right. split; [done|]. split; [|done]. by exists WCheck.
          * destruct (ok' (ev_value s1)) eqn:E; [|done]. injection Hret as -> <-. right. split; [done|]. split; [|done]. by exists WRecheck.
        + left. exists ok. destruct y; try done; try (case_bool_decide; [|done]); injection Hstep as <-; simpl in Hret; by rewrite lookup_insert_ne in Hret.
      - case_bool_decide; [done|]. injection Hstep as <-. left. by exists ok.
      - case_bool_decide; [|done]. injection Hstep as <-. left. by exists ok. }
    - destruct (IH _ _ _ _ Hrun Hr Hnot) as (a1 & a2 & s3 & ok' & -> & H1 & H2 & H3 & H4).
      exists a1, (a2 ++ [a]), s3, ok'. split; [by rewrite <- app_assoc|done].
    - exists acts, [], s1, ok. done.
  Qed.
End event.

(** ** Status requests *)
Lemma counter_step_value (c c' : ev_state N) a : ev_step c a = Some c' ->
  ev_value c' = match a with EvStore _ f => f (ev_value c) | _ => ev_value c end.
Proof.
  intros H. destruct a as [w ok|w|t f|t]; cbn [ev_step] in H.
  - destruct (ev_waiters c !! w); [done|]. by injection H as <-.
  - destruct (ev_waiters c !! w) as [[ok x]|]; [|done]. destruct x; try done; try (case_bool_decide; [|done]); by injection H as <-.
  - case_bool_decide; [done|]. by injection H as <-.
  - case_bool_decide; [|done]. by injection H as <-.
Qed.

(** How waiter [r] changes. *)
Lemma counter_step_waiter (c c' : ev_state N) a r ok x : ev_step c a = Some c' -> ev_waiters c' !! r = Some (ok, x) ->
  (exists y, ev_waiters c !! r = Some (ok, y) /\ (x = y \/ forall v, x = WDone v -> v = ev_value c /\ ok v = true)) \/
  (a = EvWait r ok /\ x = WCheck /\ ev_waiters c !! r = None).
Proof.
  intros H Hx. destruct a as [w ok'|w|t f|t]; cbn [ev_step] in H.
  - destruct (ev_waiters c !! w) eqn:Hw; [done|]. injection H as <-. simpl in Hx. destruct (decide (w = r)) as [->|Hne].
    + rewrite lookup_insert in Hx. injection Hx as <- <-. by right.
    + rewrite lookup_insert_ne in Hx by done. left. eauto.
  - left. destruct (ev_waiters c !! w) as [[ok' y]|] eqn:Hw; [|done]. destruct (decide (w = r)) as [->|Hne].
    + destruct y; try done; try (case_bool_decide; [|done]); injection H as <-; simpl in Hx; rewrite lookup_insert in Hx; injection Hx as <- <-;
        (eexists; split; [done|]); right; try done.
      * destruct (ok' (ev_value c)) eqn:E; [|done]. by intros v [= <-].
      * destruct (ok' (ev_value c)) eqn:E; [|done]. by intros v [= <-].
    + exists x. split; [|by left]. destruct y; try done; try (case_bool_decide; [|done]); injection H as <-; simpl in Hx; by rewrite lookup_insert_ne in Hx.
  - case_bool_decide; [done|]. injection H as <-. left. eauto.
  - case_bool_decide; [|done]. injection H as <-. left. eauto.
Qed.

(** [b] is a lower bound of the counter since some moment, [old] are the requests that existed then. *)
Record poll_inv (b : N) (old : gset nat) (s : poll_state) : Prop := PollInv {
  pi_value : b <= ev_value (ps_counter s);
  pi_waiter : forall r ok x, ev_waiters (ps_counter s) !! r = Some (ok, x) ->
     exists q, ps_requests s !! r = Some q /\ ok = (fun v => N.ltb (rq_etag q) v) /\
       (forall v, x = WDone v -> v <= ev_value (ps_counter s) /\ rq_etag q < v /\ (r ∉ old -> b <= v));
  pi_start : forall r q, ps_requests s !! r = Some q -> rq_start q <= ps_now s;
  pi_sleep : forall r q, ps_requests s !! r = Some q -> rq_phase q = RSleeping ->
     rq_etag q < ev_value (ps_counter s) \/ rq_start q + rq_timeout q <= ps_now s;
  pi_returned : forall r q etag t, ps_requests s !! r = Some q -> rq_phase q = RReturned etag t ->
     rq_start q + rq_timemin q <= t /\ t <= ps_now s /\ etag <= ev_value (ps_counter s) /\
     (rq_etag q < etag \/ rq_start q + rq_timeout q <= t) /\ (r ∉ old -> b <= etag)
}.

(** Steps of the counter alone. *)
Lemma poll_counter_step b old s a c : poll_inv b old s -> (forall w ok, a <> EvWait w ok) -> 
  ev_value (ps_counter s) <= match a with EvStore _ f => f (ev_value (ps_counter s)) | _ => ev_value (ps_counter s) end ->
  ev_step (ps_counter s) a = Some c -> poll_inv b old (set_counter s c).
Proof.
  intros [H1 H2 H3 H4 H5] Hna Hmono Hs. pose proof (counter_step_value _ _ _ Hs) as Hv. rewrite <- Hv in Hmono.
  split; simpl.
  - lia.
  - intros r ok x Hx. destruct (counter_step_waiter _ _ _ _ _ _ Hs Hx) as [(y & Hy & Hxy)|(-> & _)]; [|by destruct (Hna r ok)].
    destruct (H2 _ _ _ Hy) as (q & Hq & -> & Hd). exists q. split; [done|]. split; [done|]. intros v ->.
    destruct Hxy as [<-|Hxy].
    + destruct (Hd v eq_refl) as (? & ? & ?). split; [lia|]. done.
    + destruct (Hxy v eq_refl) as [-> Hlt]. apply N.ltb_lt in Hlt. split; [lia|]. split; [done|]. intros _. lia.
  - done.
  - intros r q Hq Hp. destruct (H4 r q Hq Hp); [left; lia|by right].
  - intros r q etag t Hq Hp. destruct (H5 r q etag t Hq Hp) as (? & ? & ? & ? & ?). repeat split; try done. lia.
Qed.

Lemma poll_set_phase b old s r q p : poll_inv b old s -> ps_requests s !! r = Some q ->
  (p = RSleeping -> rq_etag q < ev_value (ps_counter s) \/ rq_start q + rq_timeout q <= ps_now s) ->
  (forall etag t, p = RReturned etag t -> rq_start q + rq_timemin q <= t /\ t <= ps_now s /\ etag <= ev_value (ps_counter s) /\
     (rq_etag q < etag \/ rq_start q + rq_timeout q <= t) /\ (r ∉ old -> b <= etag)) ->
  poll_inv b old (set_request s r (with_phase q p)).
Proof.
  intros [H1 H2 H3 H4 H5] Hq Hsl Hret. split; simpl; try done.
  - intros r' ok x Hx. destruct (H2 _ _ _ Hx) as (q' & Hq' & -> & Hd). destruct (decide (r = r')) as [<-|Hne].
    + rewrite lookup_insert. eexists. split; [reflexivity|]. rewrite Hq in Hq'. injection Hq' as <-. done.
    + rewrite lookup_insert_ne by done. eauto.
  - intros r' q' Hq'. destruct (decide (r = r')) as [<-|Hne]; [rewrite lookup_insert in Hq'; injection Hq' as <-; by apply (H3 r q)|].
    rewrite lookup_insert_ne in Hq' by done. eauto.
  - intros r' q' Hq' Hp. destruct (decide (r = r')) as [<-|Hne]; [rewrite lookup_insert in Hq'; injection Hq' as <-; by apply Hsl|].
    rewrite lookup_insert_ne in Hq' by done. eauto.
  - intros r' q' etag t Hq' Hp. destruct (decide (r = r')) as [<-|Hne]; [rewrite lookup_insert in Hq'; injection Hq' as <-; by apply Hret|].
    rewrite lookup_insert_ne in Hq' by done. eauto.
Qed.

Lemma poll_inv_step b old s a s' : poll_inv b old s -> poll_step s a = Some s' -> poll_inv b old s'.
Proof.
  intros Hi Hs. destruct a as [dt|t|t|r etag tmin tout|r|r|r|r]; cbn [poll_step] in Hs.
  - injection Hs as <-. destruct Hi as [H1 H2 H3 H4 H5]. split; simpl; try done.
    + intros r q Hq. specialize (H3 r q Hq). lia.
    + intros r q Hq Hp. destruct (H4 r q Hq Hp); [by left|right; lia].
    + intros r q etag t Hq Hp. destruct (H5 r q etag t Hq Hp) as (? & ? & ? & ? & ?). repeat split; try done. lia.
  - destruct (ev_step (ps_counter s) (counter_incr t)) as [c|] eqn:Hc; [|done]. injection Hs as <-.
    refine (poll_counter_step _ _ _ _ _ Hi _ _ Hc); [done|]. simpl. lia.
  - destruct (ev_step (ps_counter s) (EvNotify t)) as [c|] eqn:Hc; [|done]. injection Hs as <-.
    refine (poll_counter_step _ _ _ _ _ Hi _ _ Hc); [done|]. done.
  - destruct (ps_requests s !! r) as [|] eqn:Hr; [done|]. destruct (ev_step (ps_counter s) (counter_wait r etag)) as [c|] eqn:Hc; [|done].
    injection Hs as <-. pose proof (counter_step_value _ _ _ Hc) as Hv. simpl in Hv. destruct Hi as [H1 H2 H3 H4 H5]. split; simpl.
    + by rewrite Hv.
    + intros r' ok x Hx. destruct (counter_step_waiter _ _ _ _ _ _ Hc Hx) as [(y & Hy & Hxy)|(Heq & -> & Hnone)].
      * destruct (H2 _ _ _ Hy) as (q & Hq & -> & Hd). assert (r <> r') by congruence. rewrite lookup_insert_ne by done.
        exists q. split; [done|]. split; [done|]. intros v ->. rewrite Hv. destruct Hxy as [<-|Hxy]; [by apply Hd|].
        destruct (Hxy v eq_refl) as [-> Hlt]. apply N.ltb_lt in Hlt. done.
      * injection Heq as <- <-. rewrite lookup_insert. eexists. split; [reflexivity|]. done.
    + intros r' q Hq. destruct (decide (r = r')) as [<-|Hne]; [rewrite lookup_insert in Hq; injection Hq as <-; done|].
      rewrite lookup_insert_ne in Hq by done. eauto.
    + intros r' q Hq Hp. destruct (decide (r = r')) as [<-|Hne]; [rewrite lookup_insert in Hq; injection Hq as <-; done|].
      rewrite lookup_insert_ne in Hq by done. rewrite Hv. eauto.
    + intros r' q e t Hq Hp. destruct (decide (r = r')) as [<-|Hne]; [rewrite lookup_insert in Hq; injection Hq as <-; done|].
      rewrite lookup_insert_ne in Hq by done. rewrite Hv. eauto.
  - destruct (ev_step (ps_counter s) (EvStep r)) as [c|] eqn:Hc; [|done]. injection Hs as <-.
    refine (poll_counter_step _ _ _ _ _ Hi _ _ Hc); [done|]. done.
  - destruct (ps_requests s !! r) as [q|] eqn:Hr; [|done]. destruct (ev_waiters (ps_counter s) !! r) as [[ok [| | | |v]]|] eqn:Hw; try done.
    destruct (rq_phase q) eqn:Hph; try done. injection Hs as <-.
    destruct (pi_waiter _ _ _ Hi _ _ _ Hw) as (q' & Hq' & _ & Hd). rewrite Hr in Hq'. injection Hq' as <-. destruct (Hd v eq_refl) as (Hd1 & Hd2 & Hd3).
    pose proof (pi_start _ _ _ Hi _ _ Hr).
    apply poll_set_phase; [done|done| |]; unfold after_wait.
    + intros _. left. lia.
    + intros e t. destruct (N.ltb_spec (ps_now s - rq_start q) (rq_timemin q)); [done|]. intros [= <- <-]. repeat split; try done; try lia.
  - destruct (ps_requests s !! r) as [q|] eqn:Hr; [|done].
    destruct (ev_waiters (ps_counter s) !! r) as [[ok x]|] eqn:Hw; [|done]. 
    assert (rq_phase q = RWaiting /\ rq_start q + rq_timeout q <= ps_now s /\
            s' = set_request s r (with_phase q (after_wait s q (ev_value (ps_counter s))))) as (Hph & Hle & ->).
    { destruct x; try done; destruct (rq_phase q); try done; destruct (N.leb_spec (rq_start q + rq_timeout q) (ps_now s)); try done; by injection Hs as <-. }
    pose proof (pi_start _ _ _ Hi _ _ Hr). pose proof (pi_value _ _ _ Hi).
    apply poll_set_phase; [done|done| |]; unfold after_wait.
    + intros _. by right.
    + intros e t. destruct (N.ltb_spec (ps_now s - rq_start q) (rq_timemin q)); [done|]. intros [= <- <-]. repeat split; try done; try lia.
  - destruct (ps_requests s !! r) as [q|] eqn:Hr; [|done]. destruct (rq_phase q) eqn:Hph; try done.
    destruct (N.leb_spec (rq_start q + rq_timemin q) (ps_now s)); [|done]. injection Hs as <-.
    pose proof (pi_value _ _ _ Hi). apply poll_set_phase; [done|done|done|]. intros e t [= <- <-]. repeat split; try done.
    apply (pi_sleep _ _ _ Hi r q Hr Hph).
Qed.

Lemma poll_inv_run b old acts : forall s s', poll_inv b old s -> poll_run s acts = Some s' -> poll_inv b old s'.
Proof.
  induction acts as [|a acts IH]; intros s s' Hi H; simpl in H; [by injection H as <-|].
  destruct (poll_step s a) as [s1|] eqn:Hs; [|done]. eapply IH; [|done]. by eapply poll_inv_step.
Qed.
Lemma poll_inv_new : poll_inv 0 ∅ poll_new.
Proof. split; simpl; try done; intros *; by rewrite ?lookup_empty. Qed.

(** Start again from a state, with the present value as bound. *)
Lemma poll_inv_restart s b old : poll_inv b old s -> poll_inv (ev_value (ps_counter s)) (dom (ps_requests s)) s.
Proof.
  intros [H1 H2 H3 H4 H5]. split; try done.
  - intros r ok x Hx. destruct (H2 _ _ _ Hx) as (q & Hq & Hok & Hd). exists q. split; [done|]. split; [done|]. intros v Hv.
    destruct (Hd v Hv) as (? & ? & ?). split; [done|]. split; [done|]. intros Hn. exfalso. apply Hn. apply elem_of_dom. eauto.
  - intros r q e t Hq Hp. destruct (H5 _ _ _ _ Hq Hp) as (? & ? & ? & ? & ?). repeat split; try done.
    intros Hn. exfalso. apply Hn. apply elem_of_dom. eauto.
Qed.

(** The counter inside the requests is a counter with waiters. *)
Lemma poll_counter acts : forall s0 s, poll_run s0 acts = Some s -> exists eacts, ev_run (ps_counter s0) eacts = Some (ps_counter s).
Proof.
  induction acts as [|a acts IH]; intros s0 s H; simpl in H; [injection H as <-; by exists []|].
  destruct (poll_step s0 a) as [s1|] eqn:Hs; [|done]. destruct (IH _ _ H) as [ea Hea].
  assert (ps_counter s1 = ps_counter s0 \/ exists e, ev_step (ps_counter s0) e = Some (ps_counter s1)) as [Heq|[e He]].
  { destruct a as [dt|t|t|r etag tmin tout|r|r|r|r]; cbn [poll_step] in Hs.
    - injection Hs as <-. by left.
    - destruct (ev_step (ps_counter s0) _) as [c|] eqn:Hc; [|done]. injection Hs as <-. right. eauto.
    - destruct (ev_step (ps_counter s0) _) as [c|] eqn:Hc; [|done]. injection Hs as <-. right. eauto.
    - destruct (ps_requests s0 !! r); [done|]. destruct (ev_step (ps_counter s0) _) as [c|] eqn:Hc; [|done]. injection Hs as <-. right. eauto.
    - destruct (ev_step (ps_counter s0) _) as [c|] eqn:Hc; [|done]. injection Hs as <-. right. eauto.
    - left. destruct (ps_requests s0 !! r); [|done]. destruct (ev_waiters (ps_counter s0) !! r) as [[? []]|]; try done. destruct (rq_phase _); try done. by injection Hs as <-.
    - left. destruct (ps_requests s0 !! r); [|done]. destruct (ev_waiters (ps_counter s0) !! r) as [[? []]|]; try done; (destruct (rq_phase _); try done); (destruct (N.leb _ _); [|done]); by injection Hs as <-.
    - left. destruct (ps_requests s0 !! r); [|done]. destruct (rq_phase _); try done. destruct (N.leb _ _); [|done]. by injection Hs as <-. }
  - rewrite Heq in Hea. eauto.
  - exists (e :: ea). simpl. by rewrite He.
Qed.

(** ** The cancellation token *)
Lemma cancel_hard x : cancel x HardCancelled = Some HardCancelled.
Proof. done. Qed.
Lemma amounts_snoc calls x c : amounts_to calls x -> amounts_to (calls ++ [c]) (cancel x c).
Proof.
  intros (Hn & Hh & Hs). unfold cancel. destruct c as [t|].
  - destruct x as [[u|]|]; cbn [cancel_decides].
    + assert (~ In HardCancelled calls) as Hnh by (intros H; apply Hh in H; done).
      destruct (proj1 (Hs u) eq_refl) as (_ & Hin & Hmin).
      assert (~ In HardCancelled (calls ++ [CancelledAfterTime t])) as Hnh' by (rewrite in_app_iff; simpl; intros [?|[?|[]]]; done).
      destruct (N.ltb_spec u t) as [Hlt|Hle]; cbn [negb].
      * split; [split; [done|intros H; by destruct calls]|]. split; [split; [done|intros; done]|].
        intros t'. split.
        -- intros [= <-]. split; [done|]. split; [apply in_app_iff; by left|]. intros t' Ht'. apply in_app_iff in Ht' as [?|[[= <-]|[]]]; [auto|lia].
        -- intros (_ & Ht' & Hm). f_equal. f_equal. apply in_app_iff in Ht'. destruct Ht' as [Ht'|[[= <-]|[]]].
           ++ assert (u <= t') by auto. assert (t' <= u) by (apply Hm; apply in_app_iff; by left). lia.
           ++ assert (t <= u) by (apply Hm; apply in_app_iff; by left). lia.
      * split; [split; [done|intros H; by destruct calls]|]. split; [split; [done|intros; done]|].
        intros t'. split.
        -- intros [= <-]. split; [done|]. split; [apply in_app_iff; right; by left|]. intros t' Ht'. apply in_app_iff in Ht' as [H|[[= <-]|[]]]; [apply Hmin in H; lia|lia].
        -- intros (_ & Ht' & Hm). f_equal. f_equal. assert (t' <= t) by (apply Hm; apply in_app_iff; right; by left).
           apply in_app_iff in Ht'. destruct Ht' as [Ht'|[[= <-]|[]]]; [apply Hmin in Ht'; lia|done].
    + assert (In HardCancelled calls) as Hin by (by apply Hh).
      split; [split; [done|intros H; by destruct calls]|]. split; [split; [intros _; apply in_app_iff; by left|done]|].
      intros t'. split; [done|]. intros (H & _). destruct H. apply in_app_iff. by left.
    + assert (calls = []) as -> by (by apply Hn). simpl. split; [done|]. split; [split; [done|intros [|[]]; done]|].
      intros t'. split.
      * intros [= <-]. split; [intros [|[]]; done|]. split; [by left|]. intros u [[= <-]|[]]. lia.
      * intros (_ & [[= ->]|[]] & _). done.
  - cbn [cancel_decides]. split; [split; [done|intros H; by destruct calls]|]. split; [split; [intros _; apply in_app_iff; right; by left|done]|].
    intros t'. split; [done|]. intros (H & _). destruct H. apply in_app_iff. right. by left.
Qed.
Lemma amounts_nil : amounts_to [] None.
Proof. split; [done|]. split; [split; [done|intros []]|]. intros t. split; [done|]. by intros (_ & [] & _). Qed.

Lemma cancel_sequence calls : amounts_to calls (fold_left cancel calls None).
Proof.
  induction calls as [|c calls IH] using rev_ind; [apply amounts_nil|]. rewrite fold_left_app. by apply amounts_snoc.
Qed.
Lemma amounts_unique calls x y : amounts_to calls x -> amounts_to calls y -> x = y.
Proof.
  intros (A1 & A2 & A3) (B1 & B2 & B3). destruct x as [[t|]|].
  - symmetry. apply B3. by apply A3.
  - symmetry. apply B2. by apply A2.
  - symmetry. apply B1. by apply A1.
Qed.
Lemma amounts_permutation calls calls' x : Permutation calls calls' -> amounts_to calls x -> amounts_to calls' x.
Proof.
  intros Hp (A1 & A2 & A3). assert (forall c, In c calls <-> In c calls') as Hin.
  { intros c. split; apply Permutation_in; [done|by symmetry]. }
  split; [|split].
  - rewrite A1. split; [intros ->; by apply Permutation_nil|intros ->; by apply Permutation_nil; symmetry].
  - rewrite A2. apply Hin.
  - intros t. rewrite A3, !Hin. setoid_rewrite Hin. done.
Qed.

(** Runs without overlapping calls. *)
Definition applied (s : token) : option cancellation :=
  fold_left (fun v kc => Some (snd kc)) (map_to_list (t_cancels s)) (t_value s).

Lemma tok_run_app acts1 : forall s acts2, tok_run s (acts1 ++ acts2) = match tok_run s acts1 with Some s1 => tok_run s1 acts2 | None => None end.
Proof. induction acts1 as [|a acts1 IH]; intros s acts2; simpl; [done|]. destruct (tok_step s a); [apply IH|done]. Qed.

Lemma no_overlap_value acts : forall s s' calls, no_overlap s acts -> tok_run s acts = Some s' ->
  (t_cancels s = ∅ /\ t_value s = fold_left cancel calls None \/
   exists c new, t_cancels s = {[c := new]} /\ Some new = fold_left cancel calls None) ->
  (t_cancels s' = ∅ /\ t_value s' = fold_left cancel (calls ++ tok_calls acts) None \/
   exists c new, t_cancels s' = {[c := new]} /\ Some new = fold_left cancel (calls ++ tok_calls acts) None).
Proof.
  induction acts as [|a acts IH]; intros s s' calls Hno Hrun Hs; simpl in Hrun.
  { injection Hrun as <-. unfold tok_calls. simpl. by rewrite app_nil_r. }
  destruct Hno as [Ha Hno]. destruct (tok_step s a) as [s1|] eqn:Hst; [|done].
  destruct a as [c new|c|w rel|w].
  - replace (calls ++ tok_calls (TCancelRead c new :: acts)) with ((calls ++ [new]) ++ tok_calls acts) by (rewrite <- app_assoc; done).
    apply (IH s1 s' (calls ++ [new]) Hno Hrun). cbn [tok_step] in Hst. rewrite Ha in Hst. rewrite lookup_empty in Hst. injection Hst as <-.
    destruct Hs as [[_ Hv]|(c' & new' & Hc' & _)].
    2: { rewrite Ha in Hc'. symmetry in Hc'. by apply map_non_empty_singleton in Hc'. }
    rewrite fold_left_app. simpl. rewrite <- Hv. unfold cancel. destruct (cancel_decides (t_value s) new).
    + right. exists c, new. simpl. rewrite ?Ha, ?insert_empty. done.
    + left. done.
  - change (tok_calls (TCancelStore c :: acts)) with (tok_calls acts). apply (IH s1 s' calls Hno Hrun). cbn [tok_step] in Hst.
    destruct (t_cancels s !! c) as [new|] eqn:Hc; [|done]. injection Hst as <-. left. simpl.
    destruct Hs as [[He _]|(c' & new' & Hc' & Hv)]; [by rewrite He, lookup_empty in Hc|].
    rewrite Hc' in Hc. apply lookup_singleton_Some in Hc as [-> ->]. rewrite Hc', delete_singleton. done.
  - change (tok_calls (TWait w rel :: acts)) with (tok_calls acts). apply (IH s1 s' calls Hno Hrun). cbn [tok_step] in Hst.
    destruct (t_waiters s !! w); [done|]. by injection Hst as <-.
  - change (tok_calls (TStep w :: acts)) with (tok_calls acts). apply (IH s1 s' calls Hno Hrun). cbn [tok_step] in Hst.
    destruct (t_waiters s !! w) as [[]|]; try done; [by injection Hst as <-|]. destruct (N.eqb _ _); [done|]. by injection Hst as <-.
Qed.

(** Waiters *)
Record tok_inv (s : token) : Prop := TokInv {
  ti_sleep : forall w rel seen, t_waiters s !! w = Some (TSleep rel seen) ->
    seen <= t_version s /\ (seen = t_version s -> rel (t_value s) = false);
  ti_ret : forall w rel x, t_waiters s !! w = Some (TReturned rel x) -> rel x = true
}.
Lemma tok_inv_set s w x cs : tok_inv s -> 
  (forall rel seen, x = TSleep rel seen -> seen <= t_version s /\ (seen = t_version s -> rel (t_value s) = false)) ->
  (forall rel y, x = TReturned rel y -> rel y = true) ->
  tok_inv (Token (t_value s) (t_version s) (<[w := x]> (t_waiters s)) cs).
Proof.
  intros [H1 H2] Ha Hb. split; simpl.
  - intros w' rel seen Hw. destruct (decide (w = w')) as [<-|Hne]; [rewrite lookup_insert in Hw; injection Hw as ->; by apply Ha|].
    rewrite lookup_insert_ne in Hw by done. eauto.
  - intros w' rel y Hw. destruct (decide (w = w')) as [<-|Hne]; [rewrite lookup_insert in Hw; injection Hw as ->; by apply Hb|].
    rewrite lookup_insert_ne in Hw by done. eauto.
Qed.
Lemma tok_inv_step s a s' : tok_inv s -> tok_step s a = Some s' -> tok_inv s'.
Proof.
  intros Hi Hs. destruct a as [c new|c|w rel|w]; cbn [tok_step] in Hs.
  - destruct (t_cancels s !! c); [done|]. injection Hs as <-. destruct (cancel_decides _ _); [|done]. destruct Hi. by split.
  - destruct (t_cancels s !! c) as [new|]; [|done]. injection Hs as <-. destruct Hi as [H1 H2]. split; simpl; [|done].
    intros w rel seen Hw. destruct (H1 _ _ _ Hw). split; lia.
  - destruct (t_waiters s !! w); [done|]. injection Hs as <-. by apply tok_inv_set.
  - destruct (t_waiters s !! w) as [[rel|rel seen|rel y]|] eqn:Hw; try done.
    + injection Hs as <-. apply tok_inv_set; [done| |]; destruct (rel (t_value s)) eqn:E; try done; intros rel' y [= <- <-]; done.
    + destruct (N.eqb_spec seen (t_version s)); [done|]. injection Hs as <-. by apply tok_inv_set.
Qed.
Lemma tok_inv_run acts : forall s s', tok_inv s -> tok_run s acts = Some s' -> tok_inv s'.
Proof.
  induction acts as [|a acts IH]; intros s s' Hi H; simpl in H; [by injection H as <-|].
  destruct (tok_step s a) as [s1|] eqn:Hs; [|done]. eapply IH; [|done]. by eapply tok_inv_step.
Qed.
Lemma tok_inv_new : tok_inv tok_new.
Proof. split; simpl; intros *; by rewrite lookup_empty. Qed.

Definition tok_rel (x : tok_waiter) : option cancellation -> bool := match x with TCheck r | TSleep r _ | TReturned r _ => r end.
Definition tok_left (x : tok_waiter) : nat := match x with TCheck _ => 1 | TSleep _ _ => 2 | TReturned _ _ => 0 end.

(** A waiter whose condition holds returns in two of its own steps. *)
Lemma tok_no_miss s w x : tok_inv s -> t_waiters s !! w = Some x -> tok_rel x (t_value s) = true ->
  exists k s', (k <= 2)%nat /\ tok_run s (repeat (TStep w) k) = Some s' /\ exists y, t_waiters s' !! w = Some (TReturned (tok_rel x) y).
Proof.
  intros [H1 H2] Hx Hr. destruct x as [rel|rel seen|rel y]; simpl in Hr.
  - exists 1%nat. eexists. split; [lia|]. split; [simpl; rewrite Hx; reflexivity|]. exists (t_value s). simpl. rewrite Hr. by rewrite lookup_insert.
  - exists 2%nat. destruct (H1 _ _ _ Hx) as [Hle Hne]. eexists. split; [lia|]. split.
    { simpl. rewrite Hx. destruct (N.eqb_spec seen (t_version s)) as [E|]; [rewrite Hne in Hr by done; done|]. simpl. rewrite lookup_insert. reflexivity. }
    simpl. rewrite Hr. eexists. by rewrite lookup_insert.
  - exists 0%nat, s. split; [lia|]. split; [done|]. eauto.
Qed.

(** What a waiter returned was the state of the token at some moment. *)
Lemma tok_returned acts : forall s w rel y, tok_run tok_new acts = Some s -> t_waiters s !! w = Some (TReturned rel y) ->
  rel y = true /\ exists acts1 acts2 s1, acts = acts1 ++ TStep w :: acts2 /\ tok_run tok_new acts1 = Some s1 /\ t_value s1 = y.
Proof.
  induction acts as [|a acts IH] using rev_ind; intros s w rel y Hrun Hw; [simpl in Hrun; injection Hrun as <-; simpl in Hw; by rewrite lookup_empty in Hw|].
  split; [by eapply (ti_ret _ (tok_inv_run _ _ _ tok_inv_new Hrun))|].
  rewrite tok_run_app in Hrun. destruct (tok_run tok_new acts) as [s1|] eqn:Hr; [|done]. simpl in Hrun.
  destruct (tok_step s1 a) as [s2|] eqn:Hs; [|done]. injection Hrun as ->.
  assert (t_waiters s1 !! w = Some (TReturned rel y) \/ a = TStep w /\ t_value s1 = y) as [H|[-> H]].
  { destruct a as [c new|c|w' rel'|w']; cbn [tok_step] in Hs.
    - destruct (t_cancels s1 !! c); [done|]. injection Hs as <-. destruct (cancel_decides _ _); by left.
    - destruct (t_cancels s1 !! c); [|done]. injection Hs as <-. by left.
    - destruct (t_waiters s1 !! w') eqn:Hw'; [done|]. injection Hs as <-. simpl in Hw. left.
      destruct (decide (w' = w)) as [->|Hne]; [by rewrite lookup_insert in Hw|]. by rewrite lookup_insert_ne in Hw.
    - destruct (decide (w' = w)) as [->|Hne].
      + destruct (t_waiters s1 !! w) as [[rel'|rel' seen|rel' y']|] eqn:Hw'; try done.
        * injection Hs as <-. simpl in Hw. rewrite lookup_insert in Hw. destruct (rel' (t_value s1)); [|done]. injection Hw as _ <-. by right.
        * destruct (N.eqb _ _); [done|]. injection Hs as <-. simpl in Hw. by rewrite lookup_insert in Hw.
      + left. destruct (t_waiters s1 !! w') as [[]|]; try done; [|destruct (N.eqb _ _); [done|]]; injection Hs as <-; simpl in Hw; by rewrite lookup_insert_ne in Hw. }
  - destruct (IH _ _ _ _ eq_refl H) as (_ & a1 & a2 & s3 & -> & H1 & H2). exists a1, (a2 ++ [a]), s3. split; [by rewrite <- app_assoc|done].
  - exists acts, [], s1. done.
Qed.

(** ** Specialisations *)
Lemma ev_step_value {V} (c c' : ev_state V) a : ev_step c a = Some c' ->
  ev_value c' = match a with EvStore _ f => f (ev_value c) | _ => ev_value c end.
Proof.
  intros H. destruct a as [w ok|w|t f|t]; cbn [ev_step] in H.
  - destruct (ev_waiters c !! w); [done|]. by injection H as <-.
  - destruct (ev_waiters c !! w) as [[ok x]|]; [|done]. destruct x; try done; try (case_bool_decide; [|done]); by injection H as <-.
  - case_bool_decide; [done|]. by injection H as <-.
  - case_bool_decide; [|done]. by injection H as <-.
Qed.
Lemma flag_stays acts : forall s, Forall (flag_act false) acts -> ev_value s = true -> stays (fun v => v) s acts.
Proof.
  induction acts as [|a acts IH]; intros s Hf Hv; simpl; [done|]. apply Forall_cons in Hf as [Ha Hf]. split; [done|].
  destruct (ev_step s a) as [s'|] eqn:Hs; [|done]. apply IH; [done|]. rewrite (ev_step_value _ _ _ Hs). destruct Ha; done.
Qed.
Lemma counter_stays from acts : forall s, Forall counter_act acts -> from < ev_value s -> stays (fun v => N.ltb from v) s acts.
Proof.
  induction acts as [|a acts IH]; intros s Hf Hv; simpl; (split; [by apply N.ltb_lt|]); [done|]. apply Forall_cons in Hf as [Ha Hf].
  destruct (ev_step s a) as [s'|] eqn:Hs; [|done]. apply IH; [done|]. rewrite (ev_step_value _ _ _ Hs). destruct Ha; simpl; lia.
Qed.

(** Waiters of a run of flag or counter actions have the tests of those. *)
Lemma waiter_tests {V} (P : (V -> bool) -> Prop) acts : forall s0 s, ev_run s0 acts = Some s ->
  (forall w ok, In (EvWait w ok) acts -> P ok) -> (forall w ok x, ev_waiters s0 !! w = Some (ok, x) -> P ok) ->
  forall w ok x, ev_waiters s !! w = Some (ok, x) -> P ok.
Proof.
  induction acts as [|a acts IH]; intros s0 s Hrun Hin H0; simpl in Hrun; [by injection Hrun as <-|].
  destruct (ev_step s0 a) as [s1|] eqn:Hs; [|done]. eapply IH; [done|intros; eapply Hin; by right|].
  intros w ok x Hx. destruct a as [w' ok'|w'|t f|t]; cbn [ev_step] in Hs.
  - destruct (ev_waiters s0 !! w'); [done|]. injection Hs as <-. simpl in Hx. destruct (decide (w' = w)) as [->|Hne].
    + rewrite lookup_insert in Hx. injection Hx as <- <-. eapply Hin. by left.
    + rewrite lookup_insert_ne in Hx by done. eauto.
  - destruct (ev_waiters s0 !! w') as [[ok' y]|] eqn:Hw'; [|done]. destruct (decide (w' = w)) as [->|Hne].
    + assert (ok = ok') as ->; [|by eauto].
      destruct y; try done; try (case_bool_decide; [|done]); injection Hs as <-; simpl in Hx; rewrite lookup_insert in Hx; by injection Hx as <-.
    + destruct y; try done; try (case_bool_decide; [|done]); injection Hs as <-; simpl in Hx; rewrite lookup_insert_ne in Hx by done; eauto.
  - case_bool_decide; [done|]. injection Hs as <-. eauto.
  - case_bool_decide; [|done]. injection Hs as <-. eauto.
Qed.

Lemma flag_tests u acts s : Forall (flag_act u) acts -> ev_run (ev_new false) acts = Some s ->
  forall w ok x, ev_waiters s !! w = Some (ok, x) -> ok = (fun v => v).
Proof.
  intros Hf Hrun. eapply (waiter_tests (fun ok => ok = (fun v => v))); [exact Hrun| |].
  - intros w ok Hin. rewrite Forall_forall in Hf. apply elem_of_list_In, Hf in Hin. inversion Hin; done.
  - simpl. intros *. by rewrite lookup_empty.
Qed.
Lemma counter_tests acts s : Forall counter_act acts -> ev_run (ev_new 0) acts = Some s ->
  forall w ok x, ev_waiters s !! w = Some (ok, x) -> exists from, ok = (fun v => N.ltb from v).
Proof.
  intros Hf Hrun. eapply (waiter_tests (fun ok => exists from, ok = (fun v => N.ltb from v))); [exact Hrun| |].
  - intros w ok Hin. rewrite Forall_forall in Hf. apply elem_of_list_In, Hf in Hin. inversion Hin; eauto.
  - simpl. intros *. by rewrite lookup_empty.
Qed.

(** Every request has its waiter. *)
Lemma request_waiter acts : forall s0 s, poll_run s0 acts = Some s -> 
  (forall r q, ps_requests s0 !! r = Some q -> is_Some (ev_waiters (ps_counter s0) !! r)) ->
  forall r q, ps_requests s !! r = Some q -> is_Some (ev_waiters (ps_counter s) !! r).
Proof.
  assert (forall (c c' : ev_state N) a r, ev_step c a = Some c' -> is_Some (ev_waiters c !! r) -> is_Some (ev_waiters c' !! r)) as Hkeep.
  { intros c c' a r Hs [x Hx]. destruct a as [w ok|w|t f|t]; cbn [ev_step] in Hs.
    - destruct (ev_waiters c !! w) eqn:Hw; [done|]. injection Hs as <-. simpl. apply lookup_insert_is_Some'. eauto.
    - destruct (ev_waiters c !! w) as [[ok y]|] eqn:Hw; [|done].
      destruct y; try done; try (case_bool_decide; [|done]); injection Hs as <-; simpl; apply lookup_insert_is_Some'; eauto.
    - case_bool_decide; [done|]. injection Hs as <-. eauto.
    - case_bool_decide; [|done]. injection Hs as <-. eauto. }
  induction acts as [|a acts IH]; intros s0 s Hrun H0; simpl in Hrun; [by injection Hrun as <-|].
  destruct (poll_step s0 a) as [s1|] eqn:Hs; [|done]. eapply IH; [done|]. clear IH Hrun. intros r q Hq.
  destruct a as [dt|t|t|r' etag tmin tout|r'|r'|r'|r']; cbn [poll_step] in Hs.
  - injection Hs as <-. eauto.
  - destruct (ev_step (ps_counter s0) _) as [c|] eqn:Hc; [|done]. injection Hs as <-. eauto.
  - destruct (ev_step (ps_counter s0) _) as [c|] eqn:Hc; [|done]. injection Hs as <-. eauto.
  - destruct (ps_requests s0 !! r') eqn:Hr'; [done|]. destruct (ev_step (ps_counter s0) _) as [c|] eqn:Hc; [|done]. injection Hs as <-. simpl in Hq |- *.
    destruct (decide (r' = r)) as [->|Hne]; [|rewrite lookup_insert_ne in Hq by done; eauto].
    unfold counter_wait in Hc. cbn [ev_step] in Hc. destruct (ev_waiters (ps_counter s0) !! r); [done|]. injection Hc as <-. simpl. rewrite lookup_insert. eauto.
  - destruct (ev_step (ps_counter s0) _) as [c|] eqn:Hc; [|done]. injection Hs as <-. eauto.
  - destruct (ps_requests s0 !! r') as [q'|] eqn:Hr'; [|done]. destruct (ev_waiters (ps_counter s0) !! r') as [[? []]|]; try done. destruct (rq_phase _); try done.
    injection Hs as <-. simpl in *. destruct (decide (r' = r)) as [->|Hne]; [eauto|rewrite lookup_insert_ne in Hq by done; eauto].
  - destruct (ps_requests s0 !! r') as [q'|] eqn:Hr'; [|done].
    assert (exists p, s1 = set_request s0 r' (with_phase q' p)) as [p ->].
    { destruct (ev_waiters (ps_counter s0) !! r') as [[? []]|]; try done; (destruct (rq_phase _); try done); (destruct (N.leb _ _); [|done]); injection Hs as <-; eauto. }
    simpl in *. destruct (decide (r' = r)) as [->|Hne]; [eauto|rewrite lookup_insert_ne in Hq by done; eauto].
  - destruct (ps_requests s0 !! r') as [q'|] eqn:Hr'; [|done]. destruct (rq_phase _); try done. destruct (N.leb _ _); [|done]. 
    injection Hs as <-. simpl in *. destruct (decide (r' = r)) as [->|Hne]; [eauto|rewrite lookup_insert_ne in Hq by done; eauto].
Qed.

Lemma request_ends acts s r q : poll_run poll_new acts = Some s -> unanswered s r q ->
  rq_start q + rq_timeout q <= ps_now s -> rq_start q + rq_timemin q <= ps_now s ->
  exists a s' q' etag, In a [PReady r; PTimeout r; PWake r] /\ poll_step s a = Some s' /\ answered s' r q' etag (ps_now s).
Proof.
  intros Hrun [Hq Hun] Ht Hm.
  assert (is_Some (ev_waiters (ps_counter s) !! r)) as [[ok x] Hw].
  { eapply request_waiter; [exact Hrun| |exact Hq]. simpl. intros *. by rewrite lookup_empty. }
  destruct (rq_phase q) as [| |e t] eqn:Hp; [| |by destruct (Hun e t)].
  - assert (forall e, after_wait s q e = RReturned e (ps_now s)) as Haw.
    { intros e. unfold after_wait. destruct (N.ltb_spec (ps_now s - rq_start q) (rq_timemin q)); [lia|done]. }
    assert ((exists v, x = WDone v) \/ forall v, x <> WDone v) as [[v ->]|Hnd] by (destruct x; try (by right); left; eauto).
    + exists (PReady r). eexists _, _, v. split; [by left|]. split; [cbn [poll_step]; rewrite Hq, Hw, Hp; reflexivity|].
      split; [simpl; by rewrite lookup_insert|]. simpl. apply Haw.
    + exists (PTimeout r). eexists _, _, (ev_value (ps_counter s)). split; [right; by left|].
      split; [cbn [poll_step]; rewrite Hq, Hw, Hp; destruct x; try (by destruct (Hnd v)); (destruct (N.leb_spec (rq_start q + rq_timeout q) (ps_now s)); [reflexivity|lia])|].
      split; [simpl; by rewrite lookup_insert|]. simpl. apply Haw.
  - exists (PWake r). eexists _, _, (ev_value (ps_counter s)). split; [right; right; by left|].
    split; [cbn [poll_step]; rewrite Hq, Hp; destruct (N.leb_spec (rq_start q + rq_timemin q) (ps_now s)); [reflexivity|lia]|].
    split; [simpl; by rewrite lookup_insert|]. done.
Qed.

(** A newer etag ends the wait of a request. *)
Lemma request_woken acts s r q : poll_run poll_new acts = Some s -> ps_requests s !! r = Some q -> rq_phase q = RWaiting ->
  rq_etag q < ev_value (ps_counter s) -> ev_setters (ps_counter s) = ∅ ->
  exists k s' q', (k <= 2)%nat /\ poll_run s (repeat (PStep r) k ++ [PReady r]) = Some s' /\ ps_requests s' !! r = Some q' /\ rq_phase q' <> RWaiting /\
    (rq_start q + rq_timemin q <= ps_now s -> exists etag, rq_phase q' = RReturned etag (ps_now s) /\ rq_etag q < etag).
Proof.
  intros Hrun Hq Hp Hlt Hset.
  assert (is_Some (ev_waiters (ps_counter s) !! r)) as [[ok x] Hw].
  { eapply request_waiter; [exact Hrun| |exact Hq]. simpl. intros *. by rewrite lookup_empty. }
  pose proof (poll_inv_run _ _ _ _ _ poll_inv_new Hrun) as Hi. destruct (pi_waiter _ _ _ Hi _ _ _ Hw) as (q0 & Hq0 & Hok & Hd).
  rewrite Hq in Hq0. injection Hq0 as <-.
  destruct (poll_counter _ _ _ Hrun) as [ea Hea]. pose proof (ei_await _ (ev_inv_run _ _ _ (ev_inv_new 0) Hea)) as Haw.
  assert (ok (ev_value (ps_counter s)) = true) as Hokv by (subst ok; by apply N.ltb_lt).
  (* the last step *)
  assert (forall s1 v, ps_now s1 = ps_now s -> ps_requests s1 = ps_requests s -> ev_waiters (ps_counter s1) !! r = Some (ok, WDone v) -> rq_etag q < v ->
    exists s' q', poll_run s1 [PReady r] = Some s' /\ ps_requests s' !! r = Some q' /\ rq_phase q' <> RWaiting /\
    (rq_start q + rq_timemin q <= ps_now s -> exists etag, rq_phase q' = RReturned etag (ps_now s) /\ rq_etag q < etag)) as Hlast.
  { intros s1 v Hn1 Hr1 Hw1 Hlv. eexists _, _. split; [cbn [poll_run poll_step]; rewrite Hr1, Hq, Hw1, Hp; reflexivity|].
    split; [simpl; by rewrite lookup_insert|]. simpl. unfold after_wait. rewrite Hn1.
    destruct (N.ltb_spec (ps_now s - rq_start q) (rq_timemin q)); (split; [done|]); [lia|]. eauto. }
  destruct x as [| | | |v].
  - edestruct (Hlast (set_counter s (set_waiter (ps_counter s) r (ok, WDone (ev_value (ps_counter s)))))) as (s' & q' & H1 & H2 & H3 & H4); [done|done| |exact Hlt|].
    { simpl. by rewrite lookup_insert. }
    exists 1%nat, s', q'. split; [lia|]. split; [|done]. cbn [repeat app]. 
    cbn [poll_run poll_step ev_step]. rewrite Hw, Hokv. exact H1.
  - edestruct (Hlast (set_counter s (set_waiter (EvState (ev_value (ps_counter s)) (<[r := (ok, WRecheck)]> (ev_waiters (ps_counter s))) (ev_notified (ps_counter s) ∖ {[r]}) (ev_setters (ps_counter s))) r (ok, WDone (ev_value (ps_counter s)))))) as (s' & q' & H1 & H2 & H3 & H4); [done|done| |exact Hlt|].
    { simpl. by rewrite lookup_insert. }
    exists 2%nat, s', q'. split; [lia|]. split; [|done]. cbn [repeat app]. 
    cbn [poll_run poll_step ev_step]. rewrite Hw. cbn [set_counter ps_counter ev_waiters]. rewrite lookup_insert. cbn [ev_value]. rewrite Hokv. exact H1.
  - edestruct (Hlast (set_counter s (set_waiter (ps_counter s) r (ok, WDone (ev_value (ps_counter s)))))) as (s' & q' & H1 & H2 & H3 & H4); [done|done| |exact Hlt|].
    { simpl. by rewrite lookup_insert. }
    exists 1%nat, s', q'. split; [lia|]. split; [|done]. cbn [repeat app]. 
    cbn [poll_run poll_step ev_step]. rewrite Hw, Hokv. exact H1.
  - edestruct (Hlast (set_counter s (set_waiter (set_waiter (ps_counter s) r (ok, WCheck)) r (ok, WDone (ev_value (ps_counter s)))))) as (s' & q' & H1 & H2 & H3 & H4); [done|done| |exact Hlt|].
    { simpl. by rewrite lookup_insert. }
    exists 2%nat, s', q'. split; [lia|]. split; [|done]. cbn [repeat app]. 
    destruct (Haw _ _ Hw) as [Hin|[?|?]]; [|congruence|done].
    cbn [poll_run poll_step ev_step]. rewrite Hw, bool_decide_eq_true_2 by done. cbn [set_counter ps_counter ev_waiters set_waiter]. rewrite lookup_insert. cbn [set_counter set_waiter ps_counter ev_value ev_waiters]. rewrite Hokv. exact H1.
  - destruct (Hd v eq_refl) as (_ & Hlv & _). destruct (Hlast s v eq_refl eq_refl Hw Hlv) as (s' & q' & ?). exists 0%nat, s', q'. split; [lia|]. done.
Qed.

Lemma poll_value_le acts : forall s s', poll_run s acts = Some s' -> ev_value (ps_counter s) <= ev_value (ps_counter s').
Proof.
  induction acts as [|a acts IH]; intros s s' H; simpl in H; [by injection H as <-|].
  destruct (poll_step s a) as [s1|] eqn:Hs; [|done]. etransitivity; [|by eapply IH]. clear IH H.
  destruct a as [dt|t|t|r etag tmin tout|r|r|r|r]; cbn [poll_step] in Hs.
  - by injection Hs as <-.
  - destruct (ev_step (ps_counter s) _) as [c|] eqn:Hc; [|done]. injection Hs as <-. apply ev_step_value in Hc. simpl in *. lia.
  - destruct (ev_step (ps_counter s) _) as [c|] eqn:Hc; [|done]. injection Hs as <-. apply ev_step_value in Hc. simpl in *. lia.
  - destruct (ps_requests s !! r); [done|]. destruct (ev_step (ps_counter s) _) as [c|] eqn:Hc; [|done]. injection Hs as <-. apply ev_step_value in Hc. simpl in *. lia.
  - destruct (ev_step (ps_counter s) _) as [c|] eqn:Hc; [|done]. injection Hs as <-. apply ev_step_value in Hc. simpl in *. lia.
  - destruct (ps_requests s !! r); [|done]. destruct (ev_waiters (ps_counter s) !! r) as [[? []]|]; try done. destruct (rq_phase _); try done. by injection Hs as <-.
  - destruct (ps_requests s !! r); [|done]. destruct (ev_waiters (ps_counter s) !! r) as [[? []]|]; try done; (destruct (rq_phase _); try done); (destruct (N.leb _ _); [|done]); by injection Hs as <-.
  - destruct (ps_requests s !! r); [|done]. destruct (rq_phase _); try done. destruct (N.leb _ _); [|done]. by injection Hs as <-.
Qed.
