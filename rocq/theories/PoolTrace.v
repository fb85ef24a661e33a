(** Proofs about the traces of the local runners. *)
From Verif Require Export PoolEnd.

Section ptrace.
Variable cfg : config.
Hypothesis Hok : config_ok cfg.
Notation g := (cf_g cfg).

(** ** Where an observation comes from *)
Lemma pool_split p0 acts : forall p t1 o t2, pool_run cfg p0 acts = Some (p, t1 ++ o :: t2) ->
  exists acts1 a acts2 p1 tt p1' os1 os2, acts = acts1 ++ a :: acts2 /\ pool_run cfg p0 acts1 = Some (p1, tt) /\
    pool_step cfg p1 a = Some (p1', os1 ++ o :: os2) /\ t1 = tt ++ os1.
Proof.
  induction acts as [|a acts IH] using rev_ind; intros p t1 o t2 H.
  - injection H as _ H. by destruct t1.
  - apply pool_run_snoc in H as (p1 & ta & os & H1 & Hs & E). symmetry in E.
    apply app_eq_app in E as (k & [[-> E]|[-> E]]).
    + destruct k as [|x k].
      * rewrite app_nil_r in H1. exists acts, a, [], p1, t1, p, [], t2. simpl in E. subst os. rewrite app_nil_r. done.
      * simpl in E. injection E as <- ->. apply IH in H1 as (acts1 & b & acts2 & q1 & tt & q1' & os1 & os2 & -> & B1 & B2 & B3).
        exists acts1, b, (acts2 ++ [a]), q1, tt, q1', os1, os2. split; [by rewrite <- (assoc_L app)|done].
    + exists acts, a, [], p1, ta, p, k, t2. rewrite E in Hs. done.
Qed.

Lemma tracker_in o t : o ∈ tracker_part t <-> PO o ∈ t.
Proof.
  unfold tracker_part. rewrite elem_of_list_omap. split.
  - intros (x & Hx & E). destruct x; try done. by injection E as ->.
  - intros H. exists (PO o). done.
Qed.

(** Steps that show a process are inputs of a loop. *)
Lemma step_process k acts p t a p' os1 o os2 : PI cfg k acts p t -> pool_step cfg p a = Some (p', os1 ++ o :: os2) ->
  match o with PO _ => False | _ => True end ->
  exists c i now lp st' cs, a = PInput c i now /\ os1 = [] /\ po_loops p !! c = Some lp /\ lp_calls lp = [] /\
    input_possible (po_token p) lp i = true /\ loop_step (lp_state lp) i = Some (st', cs) /\ input_obs c lp i now = [o].
Proof.
  intros HP Hs Ho.
  assert (Hno : forall os, os1 ++ o :: os2 = map PO os -> False).
  { intros os E. assert (o ∈ map PO os) as H by (rewrite <- E, elem_of_app, elem_of_cons; auto).
    apply elem_of_list_fmap in H as (x & -> & _). done. }
  destruct a as [b| |c host|b|c i now|c]; cbn [pool_step] in Hs; unfold client_step in Hs.
  - destruct (_ || _) in Hs; [done|]. destruct (step cfg (po_sched p) b) as [[s' os']|] eqn:E; [|done]. injection Hs as _ Hs. by destruct (Hno os').
  - destruct (st_phase _) eqn:Hp; try done. destruct (st_todo _); [|done]. destruct (SyncModel.hard_released _) eqn:Hh; [done|].
    injection Hs as _ Hs. by destruct (Hno []).
  - destruct (po_loops p !! c) as [[st' [|x rest] child start]|] eqn:Hc; try done.
    destruct (call_act c host x) as [b|] eqn:Hb; [|injection Hs as _ Hs; by destruct (Hno [])].
    destruct (step cfg (po_sched p) b) as [[s' os']|] eqn:E; [|done]. injection Hs as _ Hs. by destruct (Hno os').
  - destruct (inside_recv b) eqn:Hb; [|done]. destruct (client_of b) as [c|] eqn:Hcb; [|done].
    destruct (po_loops p !! c) as [lp|] eqn:Hc; [|done].
    destruct (step cfg (po_sched p) b) as [[s' os']|] eqn:E; [|done]. injection Hs as _ Hs. by destruct (Hno os').
  - destruct (po_loops p !! c) as [lp|] eqn:Hc; [|done].
    destruct (lp_calls lp) as [|] eqn:Hcalls; [|done]. destruct (input_possible (po_token p) lp i) eqn:Hi; [|done].
    destruct (loop_step (lp_state lp) i) as [[st' cs]|] eqn:Hst; [|done]. injection Hs as _ Hs.
    exists c, i, now, lp, st', cs.
    assert (exists x, input_obs c lp i now = [x]) as [x E].
    { unfold input_obs in *. destruct (task_of _); [|by destruct os1]. destruct i, (lp_child lp); eauto; by destruct os1. }
    rewrite E in Hs. destruct os1 as [|y os1]; [|by destruct os1]. injection Hs as -> _. done.
  - destruct (po_loops p !! c) as [lp|] eqn:Hc; [|done]. destruct (loop_over lp) eqn:Hov; [|done].
    destruct (step cfg (po_sched p) (ADrop c)) as [[s' os']|] eqn:E; [|done]. injection Hs as _ Hs. by destruct (Hno os').
Qed.

(** ** How many processes run *)
Lemma busy_le P loops : forall off, busy P off loops <= length (List.filter P (seq off (length loops))).
Proof.
  induction loops as [|lp loops IH]; intros off; simpl; [lia|]. specialize (IH (S off)). unfold one.
  destruct (P off); simpl; [destruct (current lp); lia|lia].
Qed.
Lemma busy_single loops c lp : forall off, loops !! c = Some lp -> busy (Nat.eqb (off + c)) off loops = one true lp.
Proof.
  assert (Hz : forall l off d, d < off -> busy (Nat.eqb d) off l = 0).
  { induction l as [|x l IH]; intros off d H; simpl; [done|]. rewrite IH by lia. unfold one. replace (Nat.eqb d off) with false; [done|].
    symmetry. apply Nat.eqb_neq. lia. }
  revert c. induction loops as [|x loops IH]; intros [|c] off H; simpl in *; try done.
  - injection H as ->. rewrite Nat.add_0_r, Nat.eqb_refl, Hz by lia. unfold one. by rewrite Nat.add_0_r.
  - replace (off + S c) with (S off + c) by lia. rewrite IH by done. replace (Nat.eqb (S off + c) off) with false; [done|].
    symmetry. apply Nat.eqb_neq. lia.
Qed.

Lemma count_le (P : nat -> bool) l : length (List.filter P l) <= length l.
Proof. induction l as [|x l IH]; simpl; [lia|]. destruct (P x); simpl; lia. Qed.
Lemma count_none (P : nat -> bool) l : (forall x, x ∈ l -> P x = false) -> length (List.filter P l) = 0.
Proof.
  induction l as [|x l IH]; intros H; simpl; [done|]. rewrite (H x) by left. apply IH. intros y Hy. apply H. by right.
Qed.
Lemma types_count num_parallel remote i : cf_types cfg = local_types num_parallel ++ remote ->
  length (List.filter (is_type cfg i) (seq 0 (length (local_types num_parallel)))) <=
  match i with 0 => num_parallel | 1 => Nat.min 1 num_parallel | _ => 0 end.
Proof.
  intros Ht. unfold local_types in *. rewrite app_length, repeat_length, seq_app, List.filter_app, app_length. change (0 + num_parallel) with num_parallel.
  assert (H0 : forall c, c < num_parallel -> cf_types cfg !! c = Some 0).
  { intros c Hc. rewrite Ht, <- (assoc_L app), lookup_app_l by (by rewrite repeat_length).
    destruct (repeat 0 num_parallel !! c) eqn:E; [by apply lookup_repeat in E as [-> _]|]. apply lookup_ge_None in E. rewrite repeat_length in E. lia. }
  assert (H1 : 0 < num_parallel -> cf_types cfg !! num_parallel = Some 1).
  { intros Hp. rewrite Ht, <- (assoc_L app), lookup_app_r by (by rewrite repeat_length). rewrite repeat_length, Nat.sub_diag.
    apply Nat.ltb_lt in Hp. by rewrite Hp. }
  assert (Hfst : i <> 0 -> length (List.filter (is_type cfg i) (seq 0 num_parallel)) = 0).
  { intros Hi. apply count_none. intros x Hx. apply elem_of_seq in Hx. unfold is_type. rewrite H0 by lia. by apply Nat.eqb_neq. }
  assert (Hsnd : i <> 1 -> length (List.filter (is_type cfg i) (seq num_parallel (length (if Nat.ltb 0 num_parallel then [1] else [])))) = 0).
  { intros Hi. apply count_none. intros x Hx. destruct (Nat.ltb 0 num_parallel) eqn:E; [|by apply elem_of_nil in Hx].
    simpl in Hx. apply elem_of_list_singleton in Hx as ->. unfold is_type. rewrite H1 by (by apply Nat.ltb_lt). by apply Nat.eqb_neq. }
  destruct i as [|[|i]].
  - rewrite Hsnd by done. pose proof (count_le (is_type cfg 0) (seq 0 num_parallel)) as H. rewrite seq_length in H. lia.
  - rewrite Hfst by done. etrans; [apply count_le|]. rewrite seq_length. destruct (Nat.ltb_spec 0 num_parallel); cbn [length]; lia.
  - rewrite Hfst, Hsnd by done. done.
Qed.

Lemma procs_one c l x : Procs c l x -> (x = None -> forall t', one_at_a_time c t' -> one_at_a_time c (l ++ t')) /\
  (forall n pid st, x = Some (n, pid, st) -> exists l0, l = l0 ++ [PSpawned c n pid st] /\ forall t', one_at_a_time c t' -> one_at_a_time c (l0 ++ t')).
Proof.
  induction 1 as [|l n pid st H [IH _]|l n pid st w H [_ IH]].
  - done.
  - split; [done|]. intros ? ? ? [= <- <- <-]. exists l. split; [done|]. by apply IH.
  - split; [|done]. intros _ t' Ht'. destruct (IH n pid st eq_refl) as (l0 & -> & H0). rewrite <- !(assoc_L app). simpl. apply H0. by constructor.
Qed.
Lemma procs_one_at_a_time c l x : Procs c l x -> one_at_a_time c l.
Proof.
  intros H. apply procs_one in H as [H1 H2]. destruct x as [[[n pid] st]|].
  - destruct (H2 n pid st eq_refl) as (l0 & -> & H). apply H. constructor.
  - rewrite <- (app_nil_r l). apply H1; [done|constructor].
Qed.

Lemma ended_all_over k acts p t : PI cfg k acts p t -> st_phase (po_sched p) = PDrained -> forall c lp, po_loops p !! c = Some lp -> current lp = None.
Proof.
  intros HP Hd c lp Hc. pose proof (pi_reachable _ _ _ _ _ HP) as Hr. destruct (pi_link _ _ _ _ _ HP c lp Hc) as (x & Hx & HL).
  destruct (full_or_done cfg Hok _ _ Hr) as [HF|HD].
  - by destruct (c_phase _ _ _ (inv_c _ _ _ (f_inv _ _ _ HF))) as [_ P2].
  - destruct HD as (s0 & t0 & os0 & now0 & order0 & HI & Hp0 & Ht0 & He & Hxx & Hdr & Hz & Hpp & Hcc & Hu).
    rewrite Hcc in Hx. assert (ended x = true) as E by (by eapply ended_no_client). by destruct HL.
Qed.
Lemma busy_zero P loops : (forall c lp, loops !! c = Some lp -> current lp = None) -> forall off, busy P off loops = 0.
Proof.
  induction loops as [|lp loops IH]; intros H off; [done|]. simpl. rewrite IH by (intros c; apply (H (S c))). unfold one.
  rewrite (H 0 lp eq_refl). by destruct (P off).
Qed.

(** ** What finish reports say *)
Definition Stat (p : pool) (t : list pobs) : Prop := forall c lp n s vs, po_loops p !! c = Some lp -> CallFinished n s vs ∈ lp_calls lp ->
  (exists i, OHandedOut c i n ∈ tracker_part t) /\ outcome t c n s vs.

Lemma outcome_mono t os c n s vs : outcome t c n s vs -> (forall d pid st, PSpawned d n pid st ∉ os) -> outcome (t ++ os) c n s vs.
Proof.
  intros [H|pid raw fd3 s' H1 H2|pid H] Ho.
  - apply no_process. intros (d & pid & st & Hin). apply in_app_or in Hin as [Hin|Hin]; [apply H; by exists d, pid, st|].
    apply elem_of_list_In in Hin. by apply Ho in Hin.
  - eapply process_ended; [|done]. apply in_or_app. eauto.
  - eapply process_stopped. apply in_or_app. eauto.
Qed.
Lemma no_spawn_po os d n pid st : PSpawned d n pid st ∉ map PO os.
Proof. intros H. by apply elem_of_list_fmap in H as (x & ? & _). Qed.

Lemma recv_finished lp os n s vs : CallFinished n s vs ∈ lp_calls (recv_returns lp os) -> CallFinished n s vs ∈ lp_calls lp.
Proof.
  assert (Hd : forall i, match i with InTask _ | InErr => True | _ => False end ->
    CallFinished n s vs ∈ lp_calls (deliver lp i) -> CallFinished n s vs ∈ lp_calls lp).
  { intros i Hi. unfold deliver. destruct (lp_state lp), i; try done; simpl; rewrite elem_of_app; intros [H|H]; try done;
      [by apply elem_of_list_singleton in H|by apply elem_of_nil in H]. }
  unfold recv_returns. destruct os as [|o [|]]; try done; destruct o; try done; by apply Hd.
Qed.

Lemma stat_step k acts p t a p' os : PI cfg k acts p t -> Stat p t -> pool_step cfg p a = Some (p', os) -> Stat p' (t ++ os).
Proof.
  intros HP HS Hs.
  assert (Hkeep : forall loops' os', (forall c lp n s vs, loops' !! c = Some lp -> CallFinished n s vs ∈ lp_calls lp ->
      exists lp0, po_loops p !! c = Some lp0 /\ CallFinished n s vs ∈ lp_calls lp0) -> po_loops p' = loops' -> os = map PO os' -> Stat p' (t ++ os)).
  { intros loops' os' Hl <- -> c lp n s vs Hc Hin. destruct (Hl _ _ _ _ _ Hc Hin) as (lp0 & Hc0 & Hin0). destruct (HS _ _ _ _ _ Hc0 Hin0) as [[i H1] H2]. split.
    - exists i. rewrite tracker_app. apply elem_of_app. by left.
    - apply outcome_mono; [done|]. intros d pid st. apply no_spawn_po. }
  assert (Hone : forall c lp lp' os', po_loops p !! c = Some lp -> (forall n s vs, CallFinished n s vs ∈ lp_calls lp' -> CallFinished n s vs ∈ lp_calls lp) ->
    po_loops p' = <[c := lp']> (po_loops p) -> os = map PO os' -> Stat p' (t ++ os)).
  { intros c lp lp' os' Hc Hl E1 E2. eapply Hkeep; [|exact E1|exact E2]. intros d x n s vs Hd Hin. destruct (decide (d = c)) as [->|Hne].
    - rewrite list_lookup_insert in Hd by (by eapply lookup_lt_Some). injection Hd as <-. exists lp. split; [done|by eapply Hl].
    - rewrite list_lookup_insert_ne in Hd by done. eauto. }
  destruct a as [b| |c host|b|c i now|c]; cbn [pool_step] in Hs; unfold client_step in Hs.
  - destruct (_ || _) in Hs; [done|]. destruct (step cfg (po_sched p) b) as [[s' os']|] eqn:E; [|done]. injection Hs as <- <-. eapply Hkeep; [|done|done]. eauto.
  - destruct (st_phase _); try done. destruct (st_todo _); [|done]. destruct (SyncModel.hard_released _) eqn:Hh; [done|]. injection Hs as <- <-.
    eapply (Hkeep _ []); [|done|done]. eauto.
  - destruct (po_loops p !! c) as [[st' [|x rest] child start]|] eqn:Hc; try done.
    assert (Hsub : forall n s vs, CallFinished n s vs ∈ rest -> CallFinished n s vs ∈ x :: rest) by (intros; by right).
    destruct (call_act c host x) as [b|].
    + destruct (step cfg (po_sched p) b) as [[s' os']|] eqn:E; [|done]. injection Hs as <- <-. eapply Hone; [done| |done|done].
      intros n s vs Hin. apply recv_finished in Hin. by apply Hsub.
    + injection Hs as <- <-. eapply (Hone _ _ _ []); [done| |done|done]. exact Hsub.
  - destruct (inside_recv b) eqn:Hb; [|done]. destruct (client_of b) as [c|] eqn:Hcb; [|done].
    destruct (po_loops p !! c) as [lp|] eqn:Hc; [|done].
    destruct (step cfg (po_sched p) b) as [[s' os']|] eqn:E; [|done]. injection Hs as <- <-. eapply Hone; [done| |done|done].
    intros n s vs Hin. by apply recv_finished in Hin.
  - destruct (po_loops p !! c) as [lp|] eqn:Hc; [|done].
    destruct (lp_calls lp) as [|] eqn:Hcalls; [|done]. destruct (input_possible (po_token p) lp i) eqn:Hi; [|done].
    destruct (loop_step (lp_state lp) i) as [[st' cs]|] eqn:Hst; [|done]. injection Hs as <- <-.
    intros d lp' n s vs Hd Hin. cbn [po_loops] in Hd. rewrite tracker_app, tracker_input, app_nil_r.
    destruct (decide (d = c)) as [->|Hne].
    + rewrite list_lookup_insert in Hd by (by eapply lookup_lt_Some). injection Hd as <-. cbn [lp_calls] in Hin.
      destruct (pi_link _ _ _ _ _ HP c lp Hc) as (x & Hx & HL). pose proof (pi_task _ _ _ _ _ HP c lp n Hc) as Htask. pose proof (pi_fresh _ _ _ _ _ HP c lp n Hc) as Hfresh.
      inversion HL; subst; cbn [lp_calls] in Hcalls; try done; destruct i; try done; cbn [loop_step lp_state] in Hst, Htask, Hfresh;
        repeat (case_match; try done); injection Hst as <- <-; rewrite ?elem_of_cons, elem_of_nil in Hin; destruct_or? Hin; try done;
        simplify_eq; (split; [by apply Htask|]); unfold input_obs; cbn.
      * apply no_process. rewrite app_nil_r. intros (d & pid & st2 & Hin). apply elem_of_list_In in Hin. by eapply Hfresh.
      * eapply process_stopped. apply in_or_app. right. by left.
      * eapply process_ended; [|done]. apply in_or_app. right. by left.
    + rewrite list_lookup_insert_ne in Hd by done. destruct (HS _ _ _ _ _ Hd Hin) as [[j Hj] Ho]. split; [eauto|]. apply outcome_mono; [done|].
      intros e pid st Hsp. unfold input_obs in Hsp.
      assert (task_of (lp_state lp) = Some n) as Ht.
      { destruct (task_of (lp_state lp)); [|by apply elem_of_nil in Hsp]. destruct i, (lp_child lp); try (by apply elem_of_nil in Hsp);
          apply elem_of_list_singleton in Hsp; try done; by injection Hsp as _ -> _ _. }
      destruct (pi_task _ _ _ _ _ HP c lp n Hc Ht) as [j' Hj'].
      pose proof (c03 cfg Hok _ _ (pi_reachable _ _ _ _ _ HP)) as Hnd. by destruct (handed_unique _ _ _ _ _ _ Hnd Hj Hj') as [-> _].
  - destruct (po_loops p !! c) as [lp|] eqn:Hc; [|done]. destruct (loop_over lp) eqn:Hov; [|done].
    destruct (step cfg (po_sched p) (ADrop c)) as [[s' os']|] eqn:E; [|done]. injection Hs as <- <-. eapply Hkeep; [|done|done]. eauto.
Qed.

Lemma stat_run k acts : k <= length (cf_types cfg) -> forall p t, pool_run cfg (pool_start cfg k) acts = Some (p, t) -> Stat p t.
Proof.
  intros Hk. induction acts as [|a acts IH] using rev_ind; intros p t H.
  - injection H as <- <-. intros c lp n s vs Hc Hin. apply lookup_repeat in Hc as [-> _]. by apply elem_of_list_singleton in Hin.
  - apply pool_run_snoc in H as (p1 & t1 & os & H1 & Hs & ->). eapply stat_step; [by apply pi_pool_run|by apply IH|done].
Qed.

(** A finish report of a local loop. *)
Lemma report_step k acts p t a p' os1 os2 c n s f : PI cfg k acts p t -> c < k ->
  pool_step cfg p a = Some (p', os1 ++ PO (OSentFinished c n s f) :: os2) ->
  os1 = [] /\ exists lp vs rest, po_loops p !! c = Some lp /\ lp_calls lp = CallFinished n s vs :: rest.
Proof.
  intros HP Hk Hs.
  assert (HT : forall b s' os', step cfg (po_sched p) b = Some (s', os') -> os1 ++ PO (OSentFinished c n s f) :: os2 = map PO os' ->
    exists vs, b = ASendFinished c s vs f /\ os1 = [] /\ (st_clients (po_sched p) !! c = Some (CHolding n) \/ st_clients (po_sched p) !! c = Some (CRunning n))).
  { intros b s' os' E Eo.
    assert (OSentFinished c n s f ∈ os') as Hin.
    { assert (PO (OSentFinished c n s f) ∈ map PO os') as H by (rewrite <- Eo, elem_of_app, elem_of_cons; auto).
      apply elem_of_list_fmap in H as (x & [= <-] & H). done. }
    pose proof (step_origin _ _ _ _ _ E) as Ho. rewrite Forall_forall in Ho. apply Ho in Hin as (-> & Hcl & vs & ->). exists vs. split; [done|]. split; [|done].
    destruct os1 as [|? os1]; [done|]. injection Eo as _ Eo. by destruct os1. }
  assert (HH : forall host x b, call_act c host x = Some b -> forall vs, b = ASendFinished c s vs f -> exists n' , x = CallFinished n' s vs).
  { intros host [] b Hb vs ->; try done. injection Hb as <- <- <-. eauto. }
  destruct a as [b| |d host|b|d i now|d]; cbn [pool_step] in Hs; unfold client_step in Hs.
  - destruct (_ || _) eqn:Hl in Hs; [done|]. apply orb_false_iff in Hl as [Hl _]. destruct (step cfg (po_sched p) b) as [[s' os']|] eqn:E; [|done].
    injection Hs as _ Hs. symmetry in Hs. destruct (HT _ _ _ E Hs) as (vs & -> & _). simpl in Hl. rewrite (pi_len _ _ _ _ _ HP) in Hl. apply Nat.ltb_ge in Hl. lia.
  - destruct (st_phase _); try done. destruct (st_todo _); [|done]. destruct (SyncModel.hard_released _) eqn:Hh; [done|]. injection Hs as _ Hs. by destruct os1.
  - destruct (po_loops p !! d) as [[st' [|x rest] child start]|] eqn:Hc; try done.
    destruct (call_act d host x) as [b|] eqn:Hb; [|injection Hs as _ Hs; by destruct os1].
    destruct (step cfg (po_sched p) b) as [[s' os']|] eqn:E; [|done]. injection Hs as _ Hs. symmetry in Hs.
    destruct (HT _ _ _ E Hs) as (vs & -> & -> & Hcl). split; [done|].
    destruct (pi_link _ _ _ _ _ HP d _ Hc) as (y & Hy & HL).
    destruct x; try done. cbn [call_act] in Hb. injection Hb as -> -> -> _.
    assert (n0 = n) as ->. { inversion HL; subst; destruct Hcl as [Hcl|Hcl]; rewrite Hy in Hcl; by injection Hcl. }
    eexists _, _, _. split; [exact Hc|done].
  - destruct (inside_recv b) eqn:Hb; [|done]. destruct (client_of b) as [d|] eqn:Hcb; [|done].
    destruct (po_loops p !! d) as [lp|] eqn:Hc; [|done].
    destruct (step cfg (po_sched p) b) as [[s' os']|] eqn:E; [|done]. injection Hs as _ Hs. symmetry in Hs. by destruct (HT _ _ _ E Hs) as (vs & -> & _).
  - destruct (po_loops p !! d) as [lp|] eqn:Hc; [|done].
    destruct (lp_calls lp) as [|] eqn:Hcalls; [|done]. destruct (input_possible (po_token p) lp i) eqn:Hi; [|done].
    destruct (loop_step (lp_state lp) i) as [[st' cs]|] eqn:Hst; [|done]. injection Hs as _ Hs.
    exfalso. assert (tracker_part (input_obs d lp i now) = []) as Ht by apply tracker_input. rewrite Hs, tracker_app in Ht.
    apply app_eq_nil in Ht as [_ Ht]. done.
  - destruct (po_loops p !! d) as [lp|] eqn:Hc; [|done]. destruct (loop_over lp) eqn:Hov; [|done].
    destruct (step cfg (po_sched p) (ADrop d)) as [[s' os']|] eqn:E; [|done]. injection Hs as _ Hs. symmetry in Hs. by destruct (HT _ _ _ E Hs) as (vs & ? & _).
Qed.

(** ** Why the loops and the tracker stop *)
Definition left_loop (t : list pobs) : Prop := exists x, OExit x ∈ tracker_part t.
Record Hard (acts : list paction) (p : pool) (t : list pobs) : Prop := {
  hd_flag : st_hard (po_sched p) = true -> PSched AHardCancel ∈ acts \/ left_loop t;
  hd_exit : OExit ExitHard ∈ tracker_part t -> PSched AHardCancel ∈ acts;
  hd_token : po_token p = Some SyncModel.HardCancelled -> PSched AHardCancel ∈ acts \/ left_loop t
}.

Lemma hard_flag s a s' os : step cfg s a = Some (s', os) -> st_hard s' = true -> st_hard s = true \/ a = AHardCancel.
Proof.
  intros Hs H. destruct a; cbn [step] in Hs; try (by right); left; repeat (case_match; try done); simplify_eq; try done;
    unfold server_result, exec_instr, leave, panic in *; repeat case_match; simplify_eq; done.
Qed.
Lemma hard_exit s t a s' os : reachable cfg s t -> step cfg s a = Some (s', os) -> OExit ExitHard ∈ os -> st_hard s = true /\ forall x, OExit x ∉ t.
Proof.
  intros Hr Hs Hin. pose proof (step_origin _ _ _ _ _ Hs) as Ho. rewrite Forall_forall in Ho. apply Ho in Hin as ->. cbn [step] in Hs.
  destruct (server_idle s && st_hard s) eqn:E; [|done]. apply andb_true_iff in E as [Hi Hh]. split; [done|]. intros x Hx.
  apply server_idle_true in Hi as [Hp Ht].
  destruct (full_or_done cfg Hok _ _ Hr) as [HF|HD].
  - assert (exiting s) as [X|X]; [|congruence|rewrite Ht in X; by apply elem_of_nil in X].
    apply (s_exit _ _ _ (f_ts _ _ _ HF)). apply existsb_exists. exists (OExit x). split; [by apply elem_of_list_In|done].
  - destruct HD as (s0 & t0 & os0 & now0 & order0 & HI & Hp0 & Ht0 & He & Hxx & Hdr & Hz & Hpp & Hcc & Hu). congruence.
Qed.

Lemma left_mono t os : left_loop t -> left_loop (t ++ os).
Proof. intros [x H]. exists x. rewrite tracker_app. apply elem_of_app. by left. Qed.

Lemma hard_step k acts p t a p' os : PI cfg k acts p t -> Hard acts p t -> pool_step cfg p a = Some (p', os) -> Hard (acts ++ [a]) p' (t ++ os).
Proof.
  intros HP [H1 H2 H3] Hs.
  assert (Hm : PSched AHardCancel ∈ acts \/ left_loop t -> PSched AHardCancel ∈ acts ++ [a] \/ left_loop (t ++ os)).
  { intros [H|H]; [left; apply elem_of_app; by left|right; by apply left_mono]. }
  assert (HT : forall b s' os' tok, step cfg (po_sched p) b = Some (s', os') -> po_sched p' = s' -> os = map PO os' ->
    (b = AHardCancel -> PSched AHardCancel ∈ acts ++ [a]) -> po_token p' = token_after tok os' ->
    (tok = Some SyncModel.HardCancelled -> po_token p = Some SyncModel.HardCancelled \/ PSched AHardCancel ∈ acts ++ [a]) ->
    Hard (acts ++ [a]) p' (t ++ os)).
  { intros b s' os' tok E E1 E2 Hb E3 Htok. split; rewrite ?E1, ?E2, ?E3, ?tracker_app, ?tracker_po.
    - intros H. destruct (hard_flag _ _ _ _ E H) as [H'| ->]; [rewrite <- E2; by apply Hm, H1|left; by apply Hb].
    - intros H. apply elem_of_app. apply elem_of_app in H as [H|H]; [left; by apply H2|].
      destruct (hard_exit _ _ _ _ _ (pi_reachable _ _ _ _ _ HP) E H) as [Hh Hno]. destruct (H1 Hh) as [?|[x Hx]]; [by left|]. by apply Hno in Hx.
    - intros H. apply token_after_hard in H. rewrite <- E2. destruct (Htok H) as [H'|H']; [by apply Hm, H3|by left]. }
  assert (HK : po_sched p' = po_sched p -> po_token p' = po_token p -> tracker_part os = [] -> Hard (acts ++ [a]) p' (t ++ os)).
  { intros E1 E2 E3. split; rewrite ?E1, ?E2; [by intros; apply Hm, H1| |by intros; apply Hm, H3]. rewrite tracker_app, E3, app_nil_r.
    intros H. apply elem_of_app. left. by apply H2. }
  destruct a as [b| |c host|b|c i now|c]; cbn [pool_step] in Hs; unfold client_step in Hs.
  - destruct (_ || _) in Hs; [done|]. destruct (step cfg (po_sched p) b) as [[s' os']|] eqn:E; [|done]. injection Hs as <- <-.
    eapply HT; [exact E|done|done| |done|].
    + intros ->. apply elem_of_app. right. by left.
    + destruct b; try (by left). intros _. right. apply elem_of_app. right. by left.
  - destruct (st_phase _) eqn:Hp; try done. destruct (st_todo _); [|done]. destruct (SyncModel.hard_released _) eqn:Hh; [done|]. injection Hs as <- <-.
    assert (left_loop t) as Hl.
    { pose proof (pi_reachable _ _ _ _ _ HP) as Hr. destruct (full_or_done cfg Hok _ _ Hr) as [HF|HD].
      - assert (existsb is_exit (tracker_part t) = true) as Hx by (apply (s_exit _ _ _ (f_ts _ _ _ HF)); by left).
        apply existsb_exists in Hx as (o & Ho & Hx). destruct o; try done. eexists. by apply elem_of_list_In.
      - destruct HD as (s0 & t0 & os0 & now0 & order0 & HI & Hp0 & Ht0 & He & Hxx & Hdr & Hz & Hpp & Hcc & Hu). congruence. }
    rewrite app_nil_r. split; cbn [po_sched po_token]; [by right| |by right]. intros H. apply elem_of_app. left. by apply H2.
  - destruct (po_loops p !! c) as [[st' [|x rest] child start]|] eqn:Hc; try done.
    destruct (call_act c host x) as [b|] eqn:Hb; [|injection Hs as <- <-; by apply HK].
    destruct (step cfg (po_sched p) b) as [[s' os']|] eqn:E; [|done]. injection Hs as <- <-.
    eapply HT; [exact E|done|done| |done|by left]. intros ->. by destruct x.
  - destruct (inside_recv b) eqn:Hb; [|done]. destruct (client_of b) as [c|] eqn:Hcb; [|done].
    destruct (po_loops p !! c) as [lp|] eqn:Hc; [|done].
    destruct (step cfg (po_sched p) b) as [[s' os']|] eqn:E; [|done]. injection Hs as <- <-.
    eapply HT; [exact E|done|done| |done|by left]. by intros ->.
  - destruct (po_loops p !! c) as [lp|] eqn:Hc; [|done].
    destruct (lp_calls lp) as [|] eqn:Hcalls; [|done]. destruct (input_possible (po_token p) lp i) eqn:Hi; [|done].
    destruct (loop_step (lp_state lp) i) as [[st' cs]|] eqn:Hst; [|done]. injection Hs as <- <-. apply HK; [done..|]. apply tracker_input.
  - destruct (po_loops p !! c) as [lp|] eqn:Hc; [|done]. destruct (loop_over lp) eqn:Hov; [|done].
    destruct (step cfg (po_sched p) (ADrop c)) as [[s' os']|] eqn:E; [|done]. injection Hs as <- <-.
    assert (os' = []) as ->. { cbn [step] in E. repeat (case_match; try done); by injection E as <- <-. }
    eapply (HT _ _ [] (po_token p)); [exact E|done|done|done|done|by left].
Qed.

Lemma hard_run k acts : k <= length (cf_types cfg) -> forall p t, pool_run cfg (pool_start cfg k) acts = Some (p, t) -> Hard acts p t.
Proof.
  intros Hk. induction acts as [|a acts IH] using rev_ind; intros p t H.
  - injection H as <- <-. split; simpl; try done. intros H. by apply elem_of_nil in H.
  - apply pool_run_snoc in H as (p1 & t1 & os & H1 & Hs & ->). eapply hard_step; [by apply pi_pool_run|by apply IH|done].
Qed.
End ptrace.
