(** Proofs for C72: the reports of local loops, and their processes. *)
From Verif Require Export PoolRecordSpec PoolTrace.
From Coq Require Import Lia.
From stdpp Require Import prelude gmap.
Local Open Scope nat_scope.

Section precord.
Variable cfg : config.
Hypothesis Hok : config_ok cfg.

(** ** What reports of beginnings say *)
Definition begun_as (t : list pobs) (c n : nat) (pid : N) : Prop := (exists st, In (PSpawned c n pid st) t) \/ pid = 0%N /\ ~ spawned_task t n.
Definition StatB (p : pool) (t : list pobs) : Prop := forall c lp n q, po_loops p !! c = Some lp -> CallStarted n q ∈ lp_calls lp ->
  (exists i, OHandedOut c i n ∈ tracker_part t) /\ begun_as t c n q.
Lemma begun_mono t os c n q : begun_as t c n q -> (forall d pid st, PSpawned d n pid st ∉ os) -> begun_as (t ++ os) c n q.
Proof.
  intros [[st H]|[-> H]] Ho; [left; exists st; apply in_or_app; by left|]. right. split; [done|]. intros (d & pid & st & Hin).
  apply in_app_or in Hin as [Hin|Hin]; [apply H; by exists d, pid, st|]. apply elem_of_list_In in Hin. by apply Ho in Hin.
Qed.
Lemma procs_spawned c l n pid st : Procs c l (Some (n, pid, st)) -> PSpawned c n pid st ∈ l.
Proof. inversion 1; subst. apply elem_of_app. right. by left. Qed.
Lemma in_procs c o t : o ∈ processes_of c t -> o ∈ t.
Proof. unfold processes_of. rewrite !elem_of_list_In, filter_In. tauto. Qed.
Lemma running_spawned k acts p t c lp n pid st : PI cfg k acts p t -> po_loops p !! c = Some lp -> current lp = Some (n, pid, st) -> In (PSpawned c n pid st) t.
Proof. intros HP Hc E. pose proof (pi_procs _ _ _ _ _ HP c) as H. unfold procs_ok in H. rewrite Hc, E in H. apply elem_of_list_In, (in_procs c). by apply procs_spawned. Qed.
Lemma recv_started lp os n q : CallStarted n q ∈ lp_calls (recv_returns lp os) -> CallStarted n q ∈ lp_calls lp.
Proof.
  assert (Hd : forall i, match i with InTask _ | InErr => True | _ => False end ->
    CallStarted n q ∈ lp_calls (deliver lp i) -> CallStarted n q ∈ lp_calls lp).
  { intros i Hi. unfold deliver. destruct (lp_state lp), i; try done; simpl; rewrite elem_of_app; intros [H|H]; try done;
      [by apply elem_of_list_singleton in H|by apply elem_of_nil in H]. }
  unfold recv_returns. destruct os as [|o [|]]; try done; destruct o; try done; by apply Hd.
Qed.

Lemma statb_step k acts p t a p' os : PI cfg k acts p t -> StatB p t -> pool_step cfg p a = Some (p', os) -> StatB p' (t ++ os).
Proof.
  intros HP HS Hs.
  assert (Hkeep : forall loops' os', (forall c lp n q, loops' !! c = Some lp -> CallStarted n q ∈ lp_calls lp ->
      exists lp0, po_loops p !! c = Some lp0 /\ CallStarted n q ∈ lp_calls lp0) -> po_loops p' = loops' -> os = map PO os' -> StatB p' (t ++ os)).
  { intros loops' os' Hl <- -> c lp n q Hc Hin. destruct (Hl _ _ _ _ Hc Hin) as (lp0 & Hc0 & Hin0). destruct (HS _ _ _ _ Hc0 Hin0) as [[i H1] H2]. split.
    - exists i. rewrite tracker_app. apply elem_of_app. by left.
    - apply begun_mono; [done|]. intros d pid st. apply no_spawn_po. }
  assert (Hone : forall c lp lp' os', po_loops p !! c = Some lp -> (forall n q, CallStarted n q ∈ lp_calls lp' -> CallStarted n q ∈ lp_calls lp) ->
    po_loops p' = <[c := lp']> (po_loops p) -> os = map PO os' -> StatB p' (t ++ os)).
  { intros c lp lp' os' Hc Hl E1 E2. eapply Hkeep; [|exact E1|exact E2]. intros d x n q Hd Hin. destruct (decide (d = c)) as [->|Hne].
    - rewrite list_lookup_insert in Hd by (by eapply lookup_lt_Some). injection Hd as <-. exists lp. split; [done|by eapply Hl].
    - rewrite list_lookup_insert_ne in Hd by done. eauto. }
  destruct a as [b| |c host|b|c i now|c]; cbn [pool_step] in Hs; unfold client_step in Hs.
  - destruct (_ || _) in Hs; [done|]. destruct (step cfg (po_sched p) b) as [[s' os']|] eqn:E; [|done]. injection Hs as <- <-. eapply Hkeep; [|done|done]. eauto.
  - destruct (st_phase _); try done. destruct (st_todo _); [|done]. destruct (SyncModel.hard_released _) eqn:Hh; [done|]. injection Hs as <- <-.
    eapply (Hkeep _ []); [|done|done]. eauto.
  - destruct (po_loops p !! c) as [[st' [|x rest] child start]|] eqn:Hc; try done.
    assert (Hsub : forall n q, CallStarted n q ∈ rest -> CallStarted n q ∈ x :: rest) by (intros; by right).
    destruct (call_act c host x) as [b|].
    + destruct (step cfg (po_sched p) b) as [[s' os']|] eqn:E; [|done]. injection Hs as <- <-. eapply Hone; [done| |done|done].
      intros n q Hin. apply recv_started in Hin. by apply Hsub.
    + injection Hs as <- <-. eapply (Hone _ _ _ []); [done| |done|done]. exact Hsub.
  - destruct (inside_recv b) eqn:Hb; [|done]. destruct (client_of b) as [c|] eqn:Hcb; [|done].
    destruct (po_loops p !! c) as [lp|] eqn:Hc; [|done].
    destruct (step cfg (po_sched p) b) as [[s' os']|] eqn:E; [|done]. injection Hs as <- <-. eapply Hone; [done| |done|done].
    intros n q Hin. by apply recv_started in Hin.
  - destruct (po_loops p !! c) as [lp|] eqn:Hc; [|done].
    destruct (lp_calls lp) as [|] eqn:Hcalls; [|done]. destruct (input_possible (po_token p) lp i) eqn:Hi; [|done].
    destruct (loop_step (lp_state lp) i) as [[st' cs]|] eqn:Hst; [|done]. injection Hs as <- <-.
    intros d lp' n q Hd Hin. cbn [po_loops] in Hd. rewrite tracker_app, tracker_input, app_nil_r.
    destruct (decide (d = c)) as [->|Hne].
    + rewrite list_lookup_insert in Hd by (by eapply lookup_lt_Some). injection Hd as <-. cbn [lp_calls] in Hin.
      destruct (pi_link _ _ _ _ _ HP c lp Hc) as (x & Hx & HL). pose proof (pi_task _ _ _ _ _ HP c lp n Hc) as Htask. pose proof (pi_fresh _ _ _ _ _ HP c lp n Hc) as Hfresh.
      inversion HL; subst; cbn [lp_calls] in Hcalls; try done; destruct i; try done; cbn [loop_step lp_state] in Hst, Htask, Hfresh;
        repeat (case_match; try done); injection Hst as <- <-; rewrite ?elem_of_cons, elem_of_nil in Hin; destruct_or? Hin; try done;
        simplify_eq; (split; [by apply Htask|]); unfold input_obs; cbn.
      * right. split; [done|]. rewrite app_nil_r. intros (d & pid & st2 & Hin). apply elem_of_list_In in Hin. by eapply Hfresh.
      * left. eexists. apply in_or_app. right. by left.
      * left. eexists. rewrite app_nil_r. eapply (running_spawned _ _ _ _ _ _ _ _ _ HP Hc). reflexivity.
    + rewrite list_lookup_insert_ne in Hd by done. destruct (HS _ _ _ _ Hd Hin) as [[j Hj] Ho]. split; [eauto|]. apply begun_mono; [done|].
      intros e pid st Hsp. unfold input_obs in Hsp.
      assert (task_of (lp_state lp) = Some n) as Ht.
      { destruct (task_of (lp_state lp)); [|by apply elem_of_nil in Hsp]. destruct i, (lp_child lp); try (by apply elem_of_nil in Hsp);
          apply elem_of_list_singleton in Hsp; try done; by injection Hsp as _ -> _ _. }
      destruct (pi_task _ _ _ _ _ HP c lp n Hc Ht) as [j' Hj'].
      pose proof (c03 cfg Hok _ _ (pi_reachable _ _ _ _ _ HP)) as Hnd. by destruct (handed_unique _ _ _ _ _ _ Hnd Hj Hj') as [-> _].
  - destruct (po_loops p !! c) as [lp|] eqn:Hc; [|done]. destruct (loop_over lp) eqn:Hov; [|done].
    destruct (step cfg (po_sched p) (ADrop c)) as [[s' os']|] eqn:E; [|done]. injection Hs as <- <-. eapply Hkeep; [|done|done]. eauto.
Qed.

Lemma statb_run k acts : k <= length (cf_types cfg) -> forall p t, pool_run cfg (pool_start cfg k) acts = Some (p, t) -> StatB p t.
Proof.
  intros Hk. induction acts as [|a acts IH] using rev_ind; intros p t H.
  - injection H as <- <-. intros c lp n q Hc Hin. apply lookup_repeat in Hc as [-> _]. by apply elem_of_list_singleton in Hin.
  - apply pool_run_snoc in H as (p1 & t1 & os & H1 & Hs & ->). eapply statb_step; [by apply pi_pool_run|by apply IH|done].
Qed.


(** ** The reports of a run *)
Lemma run_one s acts a s1 t1 s' os : run cfg s acts = Some (s1, t1) -> step cfg s1 a = Some (s', os) ->
  run cfg s (acts ++ [a]) = Some (s', t1 ++ os) /\ reports cfg s (acts ++ [a]) = reports cfg s acts ++ tells s1 a.
Proof.
  revert s t1. induction acts as [|b acts IH]; intros s t1 H Hs; cbn [run reports app] in *.
  - injection H as <- <-. rewrite Hs. by rewrite !app_nil_r.
  - destruct (step cfg s b) as [[s2 t2]|]; [|done]. destruct (run cfg s2 acts) as [[s3 t3]|] eqn:E; [|done]. injection H as <- <-.
    destruct (IH _ _ E Hs) as [-> ->]. by rewrite <- !List.app_assoc.
Qed.

Definition Src (k : nat) (p : pool) (t : list pobs) : Prop := exists sacts,
  run cfg (initial cfg) sacts = Some (po_sched p, tracker_part t) /\
  (forall c r, (c, r) ∈ reports cfg (initial cfg) sacts -> c < k -> exists t1 t2, t = t1 ++ t2 /\ local_truth t1 c r) /\
  (forall c n pid w s vs, POver c n pid w ∈ t -> to_report w = Some (s, vs) ->
     (exists lp, po_loops p !! c = Some lp /\ CallFinished n s vs ∈ lp_calls lp) \/ (c, Ended n s vs) ∈ reports cfg (initial cfg) sacts).

Lemma no_over_po os c n pid w : POver c n pid w ∉ map PO os.
Proof. intros H. by apply elem_of_list_fmap in H as (x & ? & _). Qed.
Lemma src_sched k p t b s' os' loops' tok' : Src k p t -> step cfg (po_sched p) b = Some (s', os') ->
  (forall c r, (c, r) ∈ tells (po_sched p) b -> c < k -> local_truth t c r) ->
  (forall c lp n s vs, po_loops p !! c = Some lp -> CallFinished n s vs ∈ lp_calls lp ->
     (exists lp', loops' !! c = Some lp' /\ CallFinished n s vs ∈ lp_calls lp') \/ (c, Ended n s vs) ∈ tells (po_sched p) b) ->
  Src k (Pool s' loops' tok') (t ++ map PO os').
Proof.
  intros (sacts & H1 & H2 & H3) Hs Ht Hl. destruct (run_one _ _ _ _ _ _ _ H1 Hs) as [Hr Er]. exists (sacts ++ [b]). cbn [po_sched po_loops].
  rewrite tracker_app, tracker_po. split; [done|]. rewrite Er. split.
  - intros c r [X|X]%elem_of_app Hc; [|exists t, (map PO os'); split; [done|by apply Ht]]. destruct (H2 _ _ X Hc) as (t1 & t2 & -> & X').
    exists t1, (t2 ++ map PO os'). by rewrite List.app_assoc.
  - intros c n pid w s vs [X|X]%elem_of_app Hw; [|by apply no_over_po in X]. destruct (H3 _ _ _ _ _ _ X Hw) as [(lp & Hc & Y)|Y].
    + destruct (Hl _ _ _ _ _ Hc Y) as [Z|Z]; [by left|]. right. apply elem_of_app. by right.
    + right. apply elem_of_app. by left.
Qed.
Lemma recv_keeps lp os x : x ∈ lp_calls lp -> x ∈ lp_calls (recv_returns lp os).
Proof.
  intros H. assert (forall i, x ∈ lp_calls (deliver lp i)) as Hd.
  { intros i. unfold deliver. destruct (loop_step (lp_state lp) i) as [[st' cs]|]; [|done]. cbn [lp_calls]. apply elem_of_app. by left. }
  unfold recv_returns. destruct os as [|o [|]]; try done; destruct o; try done; apply Hd.
Qed.

Lemma src_step k acts p t a p' os : PI cfg k acts p t -> Stat p t -> StatB p t -> Src k p t -> pool_step cfg p a = Some (p', os) -> Src k p' (t ++ os).
Proof.
  intros HP HS HB HI Hs. destruct a as [b| |c host|b|c i now|c]; cbn [pool_step] in Hs; unfold client_step in Hs.
  - destruct (_ || _) eqn:Hl in Hs; [done|]. apply orb_false_iff in Hl as [Hl _]. destruct (step cfg (po_sched p) b) as [[s' os']|] eqn:E; [|done]. injection Hs as <- <-.
    apply (src_sched k p t b); [done|done| |eauto]. rewrite (pi_len _ _ _ _ _ HP) in Hl. intros c r X Hc. exfalso.
    destruct b; cbn [tells] in X; try (by apply elem_of_nil in X); cbn [client_of] in Hl; apply Nat.ltb_ge in Hl;
      (destruct (st_clients (po_sched p) !! _) as [[]|]; try (by apply elem_of_nil in X)); apply elem_of_list_singleton in X; injection X as -> _; lia.
  - destruct (st_phase _) eqn:Hp; try done. destruct (st_todo _) eqn:Ht; [|done]. destruct (SyncModel.hard_released _); [done|]. injection Hs as <- <-.
    apply (src_sched k p t AHardCancel _ []); [done|done| |eauto]. intros c r X. by apply elem_of_nil in X.
  - destruct (po_loops p !! c) as [[st' [|x rest] child start]|] eqn:Hc; try done. set (lp0 := Loop st' (x :: rest) child start) in *.
    destruct (pi_link _ _ _ _ _ HP c _ Hc) as (y & Hy & HL).
    assert (forall lp', (forall z, z ∈ rest -> z ∈ lp_calls lp') -> forall d lp n s vs, po_loops p !! d = Some lp -> CallFinished n s vs ∈ lp_calls lp ->
      (exists l, <[c := lp']> (po_loops p) !! d = Some l /\ CallFinished n s vs ∈ lp_calls l) \/ d = c /\ x = CallFinished n s vs) as Hpend.
    { intros lp' Hlp' d lp n s vs Hd X. destruct (decide (d = c)) as [->|Hne]; [|left; rewrite list_lookup_insert_ne by done; eauto].
      rewrite Hc in Hd. injection Hd as <-. unfold lp0 in X. cbn [lp_calls] in X. apply elem_of_cons in X as [<-|X]; [by right|left].
      rewrite list_lookup_insert by (by eapply lookup_lt_Some). eauto. }
    destruct (call_act c host x) as [b|] eqn:Eb.
    + destruct (step cfg (po_sched p) b) as [[s' os']|] eqn:E; [|done]. injection Hs as <- <-. apply (src_sched k p t b); [done|done| |].
      * intros d r X Hd. destruct x; cbn [call_act] in Eb; try discriminate Eb; injection Eb as <-; cbn [tells] in X; try (by apply elem_of_nil in X).
        -- destruct (HB c _ n pid Hc) as [_ Hb]; [by left|]. inversion HL; subst; rewrite Hy in X; apply elem_of_list_singleton in X; injection X as -> ->; by split.
        -- destruct (HS c _ n s values Hc) as [_ Ho]; [by left|]. inversion HL; subst; rewrite Hy in X; apply elem_of_list_singleton in X; injection X as -> ->; done.
      * intros d lp n s vs Hd X. assert (forall z, z ∈ rest -> z ∈ lp_calls (recv_returns (Loop st' rest child start) os')) as Hz by (intros z Hz; by apply recv_keeps).
        destruct (Hpend _ Hz d lp n s vs Hd X) as [Y|[-> ->]]; [by left|].
        right. cbn [call_act] in Eb. injection Eb as <-. cbn [tells]. inversion HL; subst; rewrite Hy; by left.
    + injection Hs as <- <-. destruct HI as (sacts & H1 & H2 & H3). exists sacts. rewrite app_nil_r. cbn [po_sched po_loops]. split; [done|]. split; [done|].
      intros d n pid w s vs X Hw. destruct (H3 _ _ _ _ _ _ X Hw) as [(lp & Hd & Y)|Y]; [|by right].
      destruct (Hpend (Loop st' rest child start) (fun z Hz => Hz) d lp n s vs Hd Y) as [Z|[-> ->]]; [by left|done].
  - destruct (inside_recv b) eqn:Hb; [|done]. destruct (client_of b) as [c|] eqn:Hcb; [|done]. destruct (po_loops p !! c) as [lp|] eqn:Hc; [|done].
    destruct (step cfg (po_sched p) b) as [[s' os']|] eqn:E; [|done]. injection Hs as <- <-. apply (src_sched k p t b); [done|done| |].
    + intros d r X. destruct b; try done; by apply elem_of_nil in X.
    + intros d lp' n s vs Hd X. left. destruct (decide (d = c)) as [->|Hne]; [|rewrite list_lookup_insert_ne by done; eauto].
      rewrite Hc in Hd. injection Hd as <-. rewrite list_lookup_insert by (by eapply lookup_lt_Some). eexists. split; [done|]. by apply recv_keeps.
  - destruct (po_loops p !! c) as [lp|] eqn:Hc; [|done]. destruct (lp_calls lp) as [|] eqn:Hcalls; [|done]. destruct (input_possible (po_token p) lp i) eqn:Hi; [|done].
    destruct (loop_step (lp_state lp) i) as [[st' cs]|] eqn:Hst; [|done]. injection Hs as <- <-. destruct HI as (sacts & H1 & H2 & H3). exists sacts. cbn [po_sched po_loops].
    rewrite tracker_app, tracker_input, app_nil_r. split; [done|]. split.
    + intros d r X Hd. destruct (H2 _ _ X Hd) as (t1 & t2 & -> & X'). exists t1, (t2 ++ input_obs c lp i now). by rewrite List.app_assoc.
    + intros d n pid w s vs [X|X]%elem_of_app Hw.
      * destruct (H3 _ _ _ _ _ _ X Hw) as [(lp' & Hd & Y)|Y]; [left|by right]. destruct (decide (d = c)) as [->|Hne]; [|rewrite list_lookup_insert_ne by done; eauto].
        rewrite Hc in Hd. injection Hd as <-. rewrite Hcalls in Y. by apply elem_of_nil in Y.
      * left. destruct (pi_link _ _ _ _ _ HP c _ Hc) as (y & Hy & HL). unfold input_obs in X.
        assert (d = c /\ CallFinished n s vs ∈ cs) as [-> Hcs].
        { inversion HL; subst; cbn [lp_state lp_child task_of lp_calls] in *; try done; try (by apply elem_of_nil in X); destruct i; try done; try (by apply elem_of_nil in X);
            apply elem_of_list_singleton in X; try done; injection X as -> -> -> ->; cbn [to_report] in Hw; try done; split; try done; cbn [loop_step] in Hst.
          - injection Hst as _ <-. injection Hw as <- <-. by left.
          - destruct (child_code raw); [|done]. injection Hst as _ <-. injection Hw as <- <-. by left. }
        rewrite list_lookup_insert by (by eapply lookup_lt_Some). eauto.
  - destruct (po_loops p !! c) as [lp|] eqn:Hc; [|done]. destruct (loop_over lp) eqn:Hov; [|done].
    destruct (step cfg (po_sched p) (ADrop c)) as [[s' os']|] eqn:E; [|done]. injection Hs as <- <-. apply (src_sched k p t (ADrop c)); [done|done| |eauto].
    intros d r X. by apply elem_of_nil in X.
Qed.
Lemma src_run k acts : k <= length (cf_types cfg) -> forall p t, pool_run cfg (pool_start cfg k) acts = Some (p, t) -> Src k p t.
Proof.
  intros Hk. induction acts as [|a acts IH] using rev_ind; intros p t H.
  - injection H as <- <-. exists []. split; [done|]. split; [intros c r X; by apply elem_of_nil in X|]. intros c n pid w s vs X. by apply elem_of_nil in X.
  - apply pool_run_snoc in H as (p1 & t1 & os & H1 & Hs & ->). eapply src_step; [by apply pi_pool_run|by eapply stat_run|by eapply statb_run|by apply IH|done].
Qed.
(** When the call is over no loop has a call left to make. *)
Lemma ended_no_calls k acts p t c lp n s vs : PI cfg k acts p t -> st_phase (po_sched p) = PDrained -> po_loops p !! c = Some lp -> CallFinished n s vs ∉ lp_calls lp.
Proof.
  intros HP Hd Hc X. pose proof (pi_reachable _ _ _ _ _ HP) as Hr. destruct (pi_link _ _ _ _ _ HP c lp Hc) as (x & Hx & HL).
  destruct (full_or_done cfg Hok _ _ Hr) as [HF|HD].
  - by destruct (c_phase _ _ _ (inv_c _ _ _ (f_inv _ _ _ HF))) as [_ P2].
  - destruct HD as (s0 & t0 & os0 & now0 & order0 & HI & Hp0 & Ht0 & He & Hxx & Hdr & Hz & Hpp & Hcc & Hu).
    rewrite Hcc in Hx. assert (ended x = true) as E by (by eapply ended_no_client). destruct HL; try done; cbn [lp_calls] in X; by apply elem_of_nil in X.
Qed.
End precord.
