(** Proofs about the local runners of one execute() call. *)
From Verif Require Export PoolSpec SchedBound.

Section pool.
Variable cfg : config.
Hypothesis Hok : config_ok cfg.

(** ** The tracker *)
Lemma client_frame s a s' os d : step cfg s a = Some (s', os) -> client_of a <> Some d -> st_clients s' !! d = st_clients s !! d.
Proof.
  intros Hs Hd.
  assert (Hins : forall s1 c x, client_of a = Some c -> st_clients s1 = st_clients s -> st_clients (set_client s1 c x) !! d = st_clients s !! d).
  { intros s1 c x Hc E. simpl. rewrite list_lookup_insert_ne by congruence. by rewrite E. }
  destruct a; cbn [step] in Hs; repeat (case_match; try done); simplify_eq; try (by apply Hins); try done;
    unfold server_result, exec_instr, leave, panic in *; repeat case_match; simplify_eq; done.
Qed.

Lemma handed_unique (t : list obs) c i n c' i' : NoDup (handed t) -> OHandedOut c i n ∈ t -> OHandedOut c' i' n ∈ t -> c = c' /\ i = i'.
Proof.
  induction t as [|o t IH]; intros Hnd H1 H2; [by apply elem_of_nil in H1|].
  assert (Hin : forall c i, OHandedOut c i n ∈ t -> n ∈ handed t).
  { intros c0 i0 H. apply elem_of_list_omap. by exists (OHandedOut c0 i0 n). }
  change (o :: t) with ([o] ++ t) in Hnd. rewrite handed_app in Hnd. apply NoDup_app in Hnd as (_ & N1 & N2).
  apply elem_of_cons in H1 as [<-|H1], H2 as [E|H2].
  - by injection E.
  - exfalso. apply (N1 n); [by left|eauto].
  - subst o. exfalso. apply (N1 n); [by left|eauto].
  - auto.
Qed.

(** ** The trace of a pool *)
Lemma tracker_app t1 t2 : tracker_part (t1 ++ t2) = tracker_part t1 ++ tracker_part t2.
Proof. apply omap_app'. Qed.
Lemma tracker_po os : tracker_part (map PO os) = os.
Proof. induction os as [|o os IH]; [done|]. simpl. unfold tracker_part in *. simpl. by rewrite IH. Qed.
Lemma tracker_input c lp i now : tracker_part (input_obs c lp i now) = [].
Proof. unfold input_obs. destruct (task_of _); [|done]. destruct i, (lp_child lp); done. Qed.
Lemma procs_app c t1 t2 : processes_of c (t1 ++ t2) = processes_of c t1 ++ processes_of c t2.
Proof. apply List.filter_app. Qed.
Lemma procs_po c os : processes_of c (map PO os) = [].
Proof. by induction os. Qed.
Lemma spawned_po c n pid start t os : PSpawned c n pid start ∈ t ++ map PO os <-> PSpawned c n pid start ∈ t.
Proof.
  rewrite elem_of_app. split; [|auto]. intros [H|H]; [done|]. apply elem_of_list_fmap in H as (o & H & _). done.
Qed.

(** ** Loops and the clients they are *)
Inductive Link : loop -> cstate -> Prop :=
| L_first st : Link (Loop LRecv [CallRecv] None st) CIdle
| L_wait st : Link (Loop LRecv [] None st) CWait
| L_popped st it : Link (Loop LRecv [] None st) (CPopped it)
| L_claimed st it : Link (Loop LRecv [] None st) (CClaimed it)
| L_failed1 n s vs st : Link (Loop LRecv [CallStarted n 0; CallFinished n s vs; CallRecv] None st) (CHolding n)
| L_failed2 n s vs st : Link (Loop LRecv [CallFinished n s vs; CallRecv] None st) (CRunning n)
| L_taken1 n st : Link (Loop (LTaken n) [CallPreamble n] None st) (CHolding n)
| L_taken2 n st : Link (Loop (LTaken n) [] None st) (CHolding n)
| L_feeding n pid st : Link (Loop (LFeeding n pid) [] (Some pid) st) (CHolding n)
| L_running1 n pid st : Link (Loop (LRunning n) [CallStarted n pid] (Some pid) st) (CHolding n)
| L_running2 n pid st : Link (Loop (LRunning n) [] (Some pid) st) (CRunning n)
| L_gone st : Link (Loop LEnded [] None st) CGone
| L_soft1 n s vs st : Link (Loop LEnded [CallFinished n s vs] None st) (CRunning n)
| L_soft2 st : Link (Loop LEnded [] None st) CIdle
| L_hard n st : Link (Loop LEnded [] None st) (CRunning n)
| L_dropped n b st : Link (Loop LEnded [] None st) (CDropped n b)
| L_panic1 n st : Link (Loop LPanicked [] None st) (CHolding n)
| L_panic2 n st : Link (Loop LPanicked [] None st) (CRunning n)
| L_panic3 n b st : Link (Loop LPanicked [] None st) (CDropped n b).

(** The processes of loop [c] so far, and the one that runs. *)
Inductive Procs (c : nat) : list pobs -> option (nat * N * N) -> Prop :=
| P_nil : Procs c [] None
| P_spawn l n pid st : Procs c l None -> Procs c (l ++ [PSpawned c n pid st]) (Some (n, pid, st))
| P_over l n pid st w : Procs c l (Some (n, pid, st)) -> Procs c (l ++ [POver c n pid w]) None.

Definition current (lp : loop) : option (nat * N * N) :=
  match task_of (lp_state lp), lp_child lp with Some n, Some pid => Some (n, pid, lp_start lp) | _, _ => None end.
Definition procs_ok (loops : list loop) (t : list pobs) (c : nat) : Prop :=
  Procs c (processes_of c t) (match loops !! c with Some lp => current lp | None => None end).

(** Loops with a running process. *)
Definition one (b : bool) (lp : loop) : nat := if b then match current lp with Some _ => 1 | None => 0 end else 0.
Fixpoint busy (P : nat -> bool) (off : nat) (loops : list loop) : nat :=
  match loops with [] => 0 | lp :: l => one (P off) lp + busy P (S off) l end.
Lemma busy_insert P loops c lp lp' off : loops !! c = Some lp ->
  busy P off (<[c := lp']> loops) + one (P (off + c)) lp = busy P off loops + one (P (off + c)) lp'.
Proof.
  revert c off. induction loops as [|l loops IH]; intros [|c] off H; simpl in H; try done.
  - injection H as ->. simpl. rewrite Nat.add_0_r. lia.
  - specialize (IH c (S off) H). rewrite Nat.add_succ_l, <- Nat.add_succ_r in IH. simpl. lia.
Qed.
Lemma busy_ext P l1 : forall l2 off, length l1 = length l2 ->
  (forall c x, l1 !! c = Some x -> exists y, l2 !! c = Some y /\ current x = current y) -> busy P off l1 = busy P off l2.
Proof.
  induction l1 as [|x l1 IH]; intros [|y l2] off Hl H; try done. simpl in *. rewrite (IH l2) by (try lia; intros c z Hz; by apply (H (S c))).
  destruct (H 0 x eq_refl) as (y' & [= <-] & E). unfold one. by rewrite E.
Qed.
Lemma spawned_by_app P t1 t2 : spawned_by P (t1 ++ t2) = spawned_by P t1 + spawned_by P t2.
Proof. unfold spawned_by. by rewrite List.filter_app, app_length. Qed.
Lemma over_by_app P t1 t2 : over_by P (t1 ++ t2) = over_by P t1 + over_by P t2.
Proof. unfold over_by. by rewrite List.filter_app, app_length. Qed.
Lemma spawned_by_po P os : spawned_by P (map PO os) = 0.
Proof. by induction os. Qed.
Lemma over_by_po P os : over_by P (map PO os) = 0.
Proof. by induction os. Qed.

(** The tracker's share of the actions. *)
Definition same_requests (acts : list paction) (sacts : list action) : Prop :=
  (ATriggerSoft ∈ sacts -> PSched ATriggerSoft ∈ acts) /\ (ACtrlC ∈ sacts -> PSched ACtrlC ∈ acts).

Record PI (k : nat) (acts : list paction) (p : pool) (t : list pobs) : Prop := {
  pi_run : exists sacts, run cfg (initial cfg) sacts = Some (po_sched p, tracker_part t) /\ same_requests acts sacts;
  pi_len : length (po_loops p) = k;
  pi_link : forall c lp, po_loops p !! c = Some lp -> exists x, st_clients (po_sched p) !! c = Some x /\ Link lp x;
  pi_procs : forall c, procs_ok (po_loops p) t c;
  pi_count : forall P, spawned_by P t = over_by P t + busy P 0 (po_loops p);
  pi_task : forall c lp n, po_loops p !! c = Some lp -> task_of (lp_state lp) = Some n -> exists i, OHandedOut c i n ∈ tracker_part t;
  pi_fresh : forall c lp n, po_loops p !! c = Some lp -> lp_state lp = LTaken n -> forall d pid st, PSpawned d n pid st ∉ t;
  pi_spawned : forall c n pid st, PSpawned c n pid st ∈ t -> exists i, OHandedOut c i n ∈ tracker_part t;
  pi_token : forall x, po_token p = Some (SyncModel.CancelledAfterTime x) ->
    exists now, OCancelToken now ∈ tracker_part t /\ x = (now - FIZZLED_TIME_CUTOFF)%N
}.

Lemma same_requests_keep acts sacts a : same_requests acts sacts -> same_requests (acts ++ [a]) sacts.
Proof. intros [H1 H2]. split; intros H; apply elem_of_app; left; auto. Qed.
Lemma same_requests_snoc acts sacts a b : same_requests acts sacts -> (b = ATriggerSoft \/ b = ACtrlC -> a = PSched b) ->
  same_requests (acts ++ [a]) (sacts ++ [b]).
Proof.
  intros [H1 H2] Hb. split; intros H; apply elem_of_app in H as [H|H]; apply elem_of_app; auto; apply elem_of_list_singleton in H; subst b;
    right; rewrite Hb by auto; by left.
Qed.

Lemma pi_reachable k acts p t : PI k acts p t -> reachable cfg (po_sched p) (tracker_part t).
Proof. intros [(sacts & H & _)]. by exists sacts. Qed.

Lemma token_after_spec tok os x : token_after tok os = Some (SyncModel.CancelledAfterTime x) ->
  tok = Some (SyncModel.CancelledAfterTime x) \/ exists now, OCancelToken now ∈ os /\ x = (now - FIZZLED_TIME_CUTOFF)%N.
Proof.
  revert tok. induction os as [|o os IH]; intros tok H; [by left|]. unfold token_after in *. simpl in H.
  apply IH in H as [H|(now & H & ->)]; [|right; exists now; split; [by right|done]].
  destruct o; try (by left). unfold SyncModel.cancel in H. destruct (SyncModel.cancel_decides _ _); [|by left].
  injection H as <-. right. eexists. split; [by left|done].
Qed.

(** *** The initial state *)
Lemma lookup_repeat {A} (x y : A) k c : repeat x k !! c = Some y -> y = x /\ c < k.
Proof. revert c. induction k as [|k IH]; intros [|c] H; simpl in H; try done; [by injection H as ->; split; [|lia]|]. apply IH in H as [-> H]. split; [done|lia]. Qed.

Lemma pi_start k : k <= length (cf_types cfg) -> PI k [] (pool_start cfg k) [].
Proof.
  intros Hk. split; simpl.
  - exists []. split; [done|]. split; intros H; by apply elem_of_nil in H.
  - apply repeat_length.
  - intros c lp H. apply lookup_repeat in H as [-> H]. exists CIdle. split; [|constructor].
    change (map ?f ?l) with (f <$> l). rewrite list_lookup_fmap.
    destruct (cf_types cfg !! c) eqn:E; [done|]. apply lookup_ge_None in E. lia.
  - intros c. unfold procs_ok. simpl. destruct (repeat _ _ !! c) eqn:E; [|constructor].
    apply lookup_repeat in E as [-> _]. constructor.
  - intros P. assert (forall off, busy P off (repeat (Loop LRecv [CallRecv] None 0) k) = 0) as ->; [|done]. clear Hk.
    induction k as [|k IH]; intros off; [done|]. simpl. rewrite IH. unfold one. by destruct (P off).
  - intros c lp n H. apply lookup_repeat in H as [-> H]. done.
  - intros c lp n H. apply lookup_repeat in H as [-> H]. done.
  - intros c n pid st H. by apply elem_of_nil in H.
  - done.
Qed.

(** *** Steps of the tracker *)
Lemma pi_tracker k acts p t a b s' os loops' tok' : PI k acts p t -> step cfg (po_sched p) b = Some (s', os) ->
  (b = ATriggerSoft \/ b = ACtrlC -> a = PSched b) ->
  length loops' = length (po_loops p) ->
  (forall c lp', loops' !! c = Some lp' -> exists x lp, st_clients s' !! c = Some x /\ Link lp' x /\
     po_loops p !! c = Some lp /\ current lp' = current lp /\
     (lp_state lp' = lp_state lp \/
      (exists i n, os = [OHandedOut c i n] /\ task_of (lp_state lp') = Some n) \/ task_of (lp_state lp') = None)) ->
  (forall x, tok' = Some (SyncModel.CancelledAfterTime x) -> po_token p = Some (SyncModel.CancelledAfterTime x) \/
     exists now, OCancelToken now ∈ os /\ x = (now - FIZZLED_TIME_CUTOFF)%N) ->
  PI k (acts ++ [a]) (Pool s' loops' tok') (t ++ map PO os).
Proof.
  intros HP Hs Hb Hlen Hloops Htok. pose proof (pi_reachable _ _ _ _ HP) as Hr.
  assert (Hr' : reachable cfg s' (tracker_part t ++ os)) by (by eapply reachable_step).
  destruct HP as [(sacts & Hrun & Hreq) H2 H3 H4 H4' H5 H6 H7 H8].
  assert (Htr : tracker_part (t ++ map PO os) = tracker_part t ++ os) by (by rewrite tracker_app, tracker_po).
  split; cbn [po_sched po_loops po_token]; rewrite ?Htr.
  - exists (sacts ++ [b]). split; [|by apply same_requests_snoc]. apply run_app. exists (po_sched p), (tracker_part t), os.
    split_and!; try done. cbn [run]. rewrite Hs. by rewrite app_nil_r.
  - by rewrite Hlen.
  - intros c lp' H. destruct (Hloops c lp' H) as (x & lp & X1 & X2 & _). eauto.
  - intros c. specialize (H4 c). unfold procs_ok in *. rewrite procs_app, procs_po, app_nil_r.
    destruct (loops' !! c) as [lp'|] eqn:E.
    + destruct (Hloops c lp' E) as (x & lp & _ & _ & X3 & -> & _). by rewrite X3 in H4.
    + destruct (po_loops p !! c) eqn:E'; [|done]. apply lookup_ge_None in E. apply lookup_lt_Some in E'. lia.
  - intros P. rewrite spawned_by_app, over_by_app, spawned_by_po, over_by_po, H4', !Nat.add_0_r. f_equal. symmetry. apply busy_ext; [done|].
    intros c lp' H. destruct (Hloops c lp' H) as (x & lp & _ & _ & X3 & X4 & _). eauto.
  - intros c lp' n H Hn. destruct (Hloops c lp' H) as (x & lp & X1 & X2 & X3 & _ & [X|[(i & m & -> & X)|X]]).
    + rewrite X in Hn. destruct (H5 c lp n X3 Hn) as [i Hi]. exists i. apply elem_of_app. by left.
    + rewrite Hn in X. injection X as <-. exists i. apply elem_of_app. right. by left.
    + congruence.
  - intros c lp' n H Hn d pid st Hin. rewrite spawned_po in Hin.
    destruct (Hloops c lp' H) as (x & lp & X1 & X2 & X3 & _ & [X|[(i & m & -> & X)|X]]).
    + rewrite X in Hn. by eapply H6.
    + rewrite Hn in X. injection X as <-. destruct (H7 _ _ _ _ Hin) as [j Hj].
      pose proof (c03 cfg Hok _ _ Hr') as Hnd. rewrite handed_app in Hnd. apply NoDup_app in Hnd as (_ & Hnd & _).
      apply (Hnd n); [|by left]. apply elem_of_list_omap. by exists (OHandedOut d j n).
    + by rewrite Hn in X.
  - intros c n pid st Hin. rewrite spawned_po in Hin. destruct (H7 _ _ _ _ Hin) as [i Hi]. exists i. apply elem_of_app. by left.
  - intros x Hx. apply Htok in Hx as [Hx|(now & Hin & ->)].
    + destruct (H8 x Hx) as (now & Hin & ->). exists now. split; [|done]. apply elem_of_app. by left.
    + exists now. split; [|done]. apply elem_of_app. by right.
Qed.

(** Steps that leave the loops alone. *)
Lemma pi_outside k acts p t a b s' os tok' : PI k acts p t -> step cfg (po_sched p) b = Some (s', os) ->
  (b = ATriggerSoft \/ b = ACtrlC -> a = PSched b) ->
  (forall c lp, po_loops p !! c = Some lp -> exists x, st_clients s' !! c = Some x /\ Link lp x) ->
  (forall x, tok' = Some (SyncModel.CancelledAfterTime x) -> po_token p = Some (SyncModel.CancelledAfterTime x) \/
     exists now, OCancelToken now ∈ os /\ x = (now - FIZZLED_TIME_CUTOFF)%N) ->
  PI k (acts ++ [a]) (Pool s' (po_loops p) tok') (t ++ map PO os).
Proof.
  intros HP Hs Hb Hl Ht. eapply pi_tracker; try done. intros c lp H. destruct (Hl c lp H) as (x & X1 & X2). exists x, lp. auto 10.
Qed.

(** Steps of a local client. *)
Lemma pi_client k acts p t a b c lp0 lp' y s' os :
  PI k acts p t -> step cfg (po_sched p) b = Some (s', os) -> (b = ATriggerSoft \/ b = ACtrlC -> a = PSched b) ->
  client_of b = Some c -> po_loops p !! c = Some lp0 -> st_clients s' !! c = Some y -> Link lp' y -> current lp' = current lp0 ->
  (lp_state lp' = lp_state lp0 \/ (exists i n, os = [OHandedOut c i n] /\ task_of (lp_state lp') = Some n) \/ task_of (lp_state lp') = None) ->
  PI k (acts ++ [a]) (Pool s' (<[c := lp']> (po_loops p)) (token_after (po_token p) os)) (t ++ map PO os).
Proof.
  intros HP Hs Hb Hc Hlp Hy HL Hcur Hst. eapply pi_tracker; try done; [by rewrite insert_length| |apply token_after_spec].
  intros d lp Hd. destruct (decide (d = c)) as [->|Hne].
  - rewrite list_lookup_insert in Hd by (by eapply lookup_lt_Some). injection Hd as <-. exists y, lp0. auto 10.
  - rewrite list_lookup_insert_ne in Hd by done. destruct (pi_link _ _ _ _ HP d lp Hd) as (x & Hx & HL0).
    exists x, lp. rewrite (client_frame _ _ _ _ d Hs) by congruence. auto 10.
Qed.

Lemma lookup_set_client s c x y : st_clients s !! c = Some x -> st_clients (set_client s c y) !! c = Some y.
Proof. intros H. simpl. apply list_lookup_insert. by eapply lookup_lt_Some. Qed.

Lemma pi_call k acts p t c host p' os : PI k acts p t -> pool_step cfg p (PCall c host) = Some (p', os) -> PI k (acts ++ [PCall c host]) p' (t ++ os).
Proof.
  intros HP Hs. cbn [pool_step] in Hs. destruct (po_loops p !! c) as [lp|] eqn:Hc; [|done].
  destruct (pi_link _ _ _ _ HP c lp Hc) as (x & Hx & HL).
  inversion HL; subst; try done; cbn [call_act] in Hs.
  - (* recv *) unfold client_step in Hs. destruct (step cfg (po_sched p) (ARecv c)) as [[s' os']|] eqn:E; [|done]. injection Hs as <- <-.
    pose proof E as E'. cbn [step] in E'. rewrite Hx in E'. destruct (cf_types cfg !! c) as [i|]; [|done].
    destruct (st_closed _ !! i) as [[]|]; injection E' as <- <-;
      (eapply pi_client; [done|exact E|by intros [|]|done|exact Hc|by eapply lookup_set_client|constructor|done|auto]).
  - unfold client_step in Hs. destruct (step cfg (po_sched p) _) as [[s' os']|] eqn:E; [|done]. injection Hs as <- <-.
    pose proof E as E'. cbn [step] in E'. rewrite Hx in E'. injection E' as <- <-.
    eapply pi_client; [done|exact E|by intros [|]|done|exact Hc|eapply (lookup_set_client (set_events _ _)); exact Hx|constructor|done|auto].
  - unfold client_step in Hs. destruct (step cfg (po_sched p) _) as [[s' os']|] eqn:E; [|done]. injection Hs as <- <-.
    pose proof E as E'. cbn [step] in E'. rewrite Hx in E'. injection E' as <- <-.
    eapply pi_client; [done|exact E|by intros [|]|done|exact Hc|eapply (lookup_set_client (set_events _ _)); exact Hx|constructor|done|auto].
  - (* preamble *) injection Hs as <- <-. rewrite app_nil_r. destruct HP as [(sacts & Hrun & Hreq) H2 H3 H4 H4' H5 H6 H7 H8]. split; cbn [po_sched po_loops po_token]; try done.
    + exists sacts. split; [done|by apply same_requests_keep].
    + by rewrite insert_length.
    + intros d lp Hd. destruct (decide (d = c)) as [->|Hne].
      * rewrite list_lookup_insert in Hd by (by eapply lookup_lt_Some). injection Hd as <-. eexists. split; [done|constructor].
      * rewrite list_lookup_insert_ne in Hd by done. eauto.
    + intros d. specialize (H4 d). unfold procs_ok in *. destruct (decide (d = c)) as [->|Hne].
      * rewrite list_lookup_insert by (by eapply lookup_lt_Some). by rewrite Hc in H4.
      * by rewrite list_lookup_insert_ne by done.
    + intros P. rewrite H4'. f_equal.
      pose proof (busy_insert P _ _ _ (Loop (LTaken n) [] None st) 0 Hc) as H. change (one (P (0 + c)) (Loop (LTaken n) [CallPreamble n] None st)) with
        (one (P (0 + c)) (Loop (LTaken n) [] None st)) in H. lia.
    + intros d lp m Hd. destruct (decide (d = c)) as [->|Hne].
      * rewrite list_lookup_insert in Hd by (by eapply lookup_lt_Some). injection Hd as <-. intros Hm. by eapply H5.
      * rewrite list_lookup_insert_ne in Hd by done. by eapply H5.
    + intros d lp m Hd. destruct (decide (d = c)) as [->|Hne].
      * rewrite list_lookup_insert in Hd by (by eapply lookup_lt_Some). injection Hd as <-. intros Hm. by eapply H6.
      * rewrite list_lookup_insert_ne in Hd by done. by eapply H6.
  - unfold client_step in Hs. destruct (step cfg (po_sched p) _) as [[s' os']|] eqn:E; [|done]. injection Hs as <- <-.
    pose proof E as E'. cbn [step] in E'. rewrite Hx in E'. injection E' as <- <-.
    eapply pi_client; [done|exact E|by intros [|]|done|exact Hc|eapply (lookup_set_client (set_events _ _)); exact Hx|constructor|done|auto].
  - unfold client_step in Hs. destruct (step cfg (po_sched p) _) as [[s' os']|] eqn:E; [|done]. injection Hs as <- <-.
    pose proof E as E'. cbn [step] in E'. rewrite Hx in E'. injection E' as <- <-.
    eapply pi_client; [done|exact E|by intros [|]|done|exact Hc|eapply (lookup_set_client (set_events _ _)); exact Hx|constructor|done|auto].
Qed.

Lemma pi_recv k acts p t b p' os : PI k acts p t -> pool_step cfg p (PRecv b) = Some (p', os) -> PI k (acts ++ [PRecv b]) p' (t ++ os).
Proof.
  intros HP Hs. cbn [pool_step] in Hs. destruct (inside_recv b) eqn:Hb; [|done]. destruct (client_of b) as [c|] eqn:Hcb; [|done].
  destruct (po_loops p !! c) as [lp|] eqn:Hc; [|done].
  destruct (pi_link _ _ _ _ HP c lp Hc) as (x & Hx & HL). unfold client_step in Hs.
  destruct (step cfg (po_sched p) b) as [[s' os']|] eqn:E; [|done]. injection Hs as <- <-. pose proof E as E'.
  assert (Hreq : b = ATriggerSoft \/ b = ACtrlC -> PRecv b = PSched b) by (by intros [->| ->]).
  destruct b; try done; injection Hcb as ->; cbn [step] in E'; rewrite Hx in E'.
  - destruct x; try done. inversion HL; subst. destruct (cf_types cfg !! c) as [i|]; [|done].
    destruct (st_queues _ !! i); [|done]. destruct (_ !! j); [|done]. destruct (is_max _ _); [|done]. injection E' as <- <-.
    eapply pi_client; [done|exact E|done|done|exact Hc|by eapply (lookup_set_client (set_queues _ _))|constructor|done|auto].
  - destruct x; try done. inversion HL; subst. destruct (cf_types cfg !! c) as [i|]; [|done].
    destruct (st_queues _ !! i) as [[]|]; try done. destruct (st_closed _ !! i) as [[]|]; try done. injection E' as <- <-.
    eapply pi_client; [done|exact E|done|done|exact Hc|by eapply lookup_set_client|constructor|done|auto].
  - destruct x; try done. inversion HL; subst. destruct (decide _); injection E' as <- <-.
    + eapply pi_client; [done|exact E|done|done|exact Hc|by eapply lookup_set_client|constructor|done|auto].
    + eapply pi_client; [done|exact E|done|done|exact Hc|by eapply (lookup_set_client (set_taken _ _))|constructor|done|auto].
  - destruct x; try done. inversion HL; subst. destruct (cf_types cfg !! c) as [i|]; [|done].
    destruct (hand_out _ _) as [q|]; injection E' as <- <-.
    + eapply pi_client; [done|exact E|done|done|exact Hc|by eapply (lookup_set_client (set_qstate _ _))|constructor|done|]. right. left. eauto.
    + exfalso. destruct (c08 cfg Hok (set_phase (po_sched p) PPanicked) (tracker_part t ++ [OPanic])) as [_ X]; [|done].
      eapply reachable_step; [by eapply pi_reachable|exact E].
Qed.

(** *** The other steps *)
Lemma pi_sched k acts p t b p' os : PI k acts p t -> pool_step cfg p (PSched b) = Some (p', os) -> PI k (acts ++ [PSched b]) p' (t ++ os).
Proof.
  intros HP Hs. cbn [pool_step] in Hs. destruct (_ || _) eqn:Hl in Hs; [done|]. apply orb_false_iff in Hl as [Hl _].
  destruct (step cfg (po_sched p) b) as [[s' os']|] eqn:E; [|done]. injection Hs as <- <-.
  eapply pi_outside; [done|exact E|done| |].
  - intros c lp Hc. rewrite (client_frame _ _ _ _ c E); [by eapply pi_link|]. intros Hb. rewrite Hb in Hl.
    apply Nat.ltb_ge in Hl. apply lookup_lt_Some in Hc. lia.
  - intros x Hx. apply token_after_spec in Hx as [Hx|Hx]; [|by right]. left. by destruct b.
Qed.

Lemma pi_cancel k acts p t p' os : PI k acts p t -> pool_step cfg p PHardCancel = Some (p', os) -> PI k (acts ++ [PHardCancel]) p' (t ++ os).
Proof.
  intros HP Hs. cbn [pool_step] in Hs. destruct (st_phase _); try done. destruct (st_todo _); [|done].
  destruct (SyncModel.hard_released _); [done|]. injection Hs as <- <-.
  change (t ++ []) with (t ++ map PO []). eapply (pi_outside _ _ _ _ _ AHardCancel); [done|done|by intros [|]| |done].
  intros c lp Hc. by eapply pi_link in Hc.
Qed.

Lemma pi_drop k acts p t c p' os : PI k acts p t -> pool_step cfg p (PDrop c) = Some (p', os) -> PI k (acts ++ [PDrop c]) p' (t ++ os).
Proof.
  intros HP Hs. cbn [pool_step] in Hs. destruct (po_loops p !! c) as [lp|] eqn:Hc; [|done]. destruct (loop_over lp) eqn:Ho; [|done].
  destruct (step cfg (po_sched p) (ADrop c)) as [[s' os']|] eqn:E; [|done]. injection Hs as <- <-.
  destruct (pi_link _ _ _ _ HP c lp Hc) as (x & Hx & HL).
  eapply pi_outside; [done|exact E|by intros [|]| |auto].
  intros d lp' Hd. destruct (decide (d = c)) as [->|Hne].
  - rewrite Hc in Hd. injection Hd as <-. pose proof E as E'. cbn [step] in E'. rewrite Hx in E'.
    inversion HL; subst; try done; injection E' as <- <-; eexists; (split; [by eapply lookup_set_client|constructor]).
  - rewrite (client_frame _ _ _ _ d E) by (simpl; congruence). by eapply pi_link.
Qed.

Lemma pi_input k acts p t c i now p' os : PI k acts p t -> pool_step cfg p (PInput c i now) = Some (p', os) ->
  PI k (acts ++ [PInput c i now]) p' (t ++ os).
Proof.
  intros HP Hs. cbn [pool_step] in Hs. destruct (po_loops p !! c) as [lp|] eqn:Hc; [|done].
  destruct (lp_calls lp) as [|] eqn:Hcalls; [|done]. destruct (input_possible (po_token p) lp i) eqn:Hi; [|done].
  destruct (loop_step (lp_state lp) i) as [[st' cs]|] eqn:Hst; [|done]. injection Hs as <- <-.
  pose proof (pi_reachable _ _ _ _ HP) as Hr. pose proof (c03 cfg Hok _ _ Hr) as Hnd.
  destruct HP as [(sacts & Hrun & Hreq) H2 H3 H4 H4' H5 H6 H7 H8].
  destruct (H3 c lp Hc) as (x & Hx & HL).
  assert (Hlt : c < length (po_loops p)) by (by eapply lookup_lt_Some).
  assert (Htr : tracker_part (t ++ input_obs c lp i now) = tracker_part t) by (by rewrite tracker_app, tracker_input, app_nil_r).
  (* the trace of the processes *)
  assert (Hpr : Procs c (processes_of c (t ++ input_obs c lp i now)) (current (Loop st' cs (child_after lp i) (start_after lp i now)))).
  { specialize (H4 c). unfold procs_ok in H4. rewrite Hc in H4. rewrite procs_app.
    inversion HL; subst; cbn [lp_calls] in Hcalls; try done; destruct i; try done; cbn [loop_step lp_state] in Hst;
      repeat (case_match; try done); injection Hst as <- <-; unfold current, input_obs in *; cbn in *; rewrite ?Nat.eqb_refl, ?app_nil_r;
      try exact H4; try (apply P_spawn; exact H4); try (eapply P_over; exact H4). }
  assert (Hoth : forall d, d <> c -> processes_of d (t ++ input_obs c lp i now) = processes_of d t).
  { intros d Hd. rewrite procs_app. unfold input_obs. apply Nat.eqb_neq in Hd.
    destruct (task_of _); [|by rewrite app_nil_r]. destruct i, (lp_child lp); simpl; rewrite ?Hd; by rewrite app_nil_r. }
  assert (Hsp : forall d n pid st, PSpawned d n pid st ∈ t ++ input_obs c lp i now ->
    PSpawned d n pid st ∈ t \/ (d = c /\ lp_state lp = LTaken n)).
  { intros d n pid st Hin. apply elem_of_app in Hin as [Hin|Hin]; [by left|right]. unfold input_obs in Hin.
    destruct (lp_state lp); simpl in Hst; try done; destruct i; try done; simpl in Hin; destruct (lp_child lp);
      try (by apply elem_of_nil in Hin); apply elem_of_list_singleton in Hin; try done; by injection Hin as -> -> _ _. }
  assert (Htask : forall n, task_of st' = Some n -> task_of (lp_state lp) = Some n /\ st' <> LTaken n).
  { intros n. destruct (lp_state lp); simpl in Hst; try done; destruct i; simpl in Hst, Hi; repeat (case_match; try done); simplify_eq; simpl; try done;
    intros [= ->]; split; done. }
  split; cbn [po_sched po_loops po_token]; rewrite ?Htr; try done.
  - exists sacts. split; [done|by apply same_requests_keep].
  - by rewrite insert_length.
  - intros d lp' Hd. destruct (decide (d = c)) as [->|Hne].
    + rewrite list_lookup_insert in Hd by done. injection Hd as <-. exists x. split; [done|].
      inversion HL; subst; cbn [lp_calls] in Hcalls; try done; destruct i; try done; cbn [loop_step lp_state] in Hst;
        repeat (case_match; try done); injection Hst as <- <-; cbn; constructor.
    + rewrite list_lookup_insert_ne in Hd by done. eauto.
  - intros d. unfold procs_ok. destruct (decide (d = c)) as [->|Hne].
    + by rewrite list_lookup_insert by done.
    + rewrite list_lookup_insert_ne by done. rewrite Hoth by done. apply H4.
  - intros P. rewrite spawned_by_app, over_by_app, H4'.
    pose proof (busy_insert P _ _ _ (Loop st' cs (child_after lp i) (start_after lp i now)) 0 Hc) as H. simpl in H.
    assert (spawned_by P (input_obs c lp i now) + one (P c) lp = over_by P (input_obs c lp i now) + one (P c) (Loop st' cs (child_after lp i) (start_after lp i now))); [|lia].
    clear - HL Hst Hcalls Hi. inversion HL; subst; cbn [lp_calls] in Hcalls; try done; destruct i; try done; cbn [loop_step lp_state] in Hst;
      repeat (case_match; try done); injection Hst as <- <-; unfold spawned_by, over_by, one, current, input_obs; cbn; by destruct (P c).
  - intros d lp' n Hd Hn. destruct (decide (d = c)) as [->|Hne].
    + rewrite list_lookup_insert in Hd by done. injection Hd as <-. apply Htask in Hn as [Hn _]. by eapply H5.
    + rewrite list_lookup_insert_ne in Hd by done. by eapply H5.
  - intros d lp' n Hd Hn e pid st Hin. destruct (decide (d = c)) as [->|Hne].
    + rewrite list_lookup_insert in Hd by done. injection Hd as <-. cbn [lp_state] in Hn. subst st'.
      by destruct (Htask n eq_refl) as [_ ?].
    + rewrite list_lookup_insert_ne in Hd by done. apply Hsp in Hin as [Hin|[-> Hin]]; [by eapply H6|].
      destruct (H5 c lp n Hc) as [j Hj]; [by rewrite Hin|]. destruct (H5 d lp' n Hd) as [j' Hj']; [by rewrite Hn|].
      destruct (handed_unique _ _ _ _ _ _ Hnd Hj Hj') as [-> _]. done.
  - intros d n pid st Hin. apply Hsp in Hin as [Hin|[-> Hin]]; [by eapply H7|]. apply (H5 c lp n Hc). by rewrite Hin.
Qed.

Lemma pi_step k acts p t a p' os : PI k acts p t -> pool_step cfg p a = Some (p', os) -> PI k (acts ++ [a]) p' (t ++ os).
Proof.
  destruct a; [apply pi_sched|apply pi_cancel|apply pi_call|apply pi_recv|apply pi_input|apply pi_drop].
Qed.

Lemma pool_run_app p a1 a2 p2 t : pool_run cfg p (a1 ++ a2) = Some (p2, t) <->
  exists p1 t1 t2, pool_run cfg p a1 = Some (p1, t1) /\ pool_run cfg p1 a2 = Some (p2, t2) /\ t = t1 ++ t2.
Proof.
  revert p p2 t. induction a1 as [|a a1 IH]; intros p p2 t; cbn [pool_run app].
  - split.
    + intros H. exists p, [], t. done.
    + intros (p1 & t1 & t2 & [= <- <-] & H & ->). done.
  - destruct (pool_step cfg p a) as [[p1 os]|].
    + split.
      * destruct (pool_run cfg p1 (a1 ++ a2)) as [[p3 os']|] eqn:E; [|done]. intros [= <- <-].
        apply IH in E as (p4 & t1 & t2 & -> & H & ->). exists p4, (os ++ t1), t2. split_and!; try done. by rewrite List.app_assoc.
      * intros (p3 & t1 & t2 & H1 & H2 & ->). destruct (pool_run cfg p1 a1) as [[p4 os']|] eqn:E; [|done]. injection H1 as <- <-.
        assert (pool_run cfg p1 (a1 ++ a2) = Some (p2, os' ++ t2)) as ->; [|by rewrite List.app_assoc]. apply IH. eauto 10.
    + split; [done|]. by intros (p3 & t1 & t2 & H1 & H2 & ->).
Qed.
Lemma pool_run_snoc p acts a p' t : pool_run cfg p (acts ++ [a]) = Some (p', t) ->
  exists p1 t1 os, pool_run cfg p acts = Some (p1, t1) /\ pool_step cfg p1 a = Some (p', os) /\ t = t1 ++ os.
Proof.
  intros H. apply pool_run_app in H as (p1 & t1 & t2 & H1 & H2 & ->). cbn [pool_run] in H2.
  destruct (pool_step cfg p1 a) as [[p2 os]|] eqn:E; [|done]. injection H2 as <- <-. exists p1, t1, os. by rewrite app_nil_r.
Qed.

Lemma pi_pool_run k acts : k <= length (cf_types cfg) -> forall p t, pool_run cfg (pool_start cfg k) acts = Some (p, t) -> PI k acts p t.
Proof.
  intros Hk. induction acts as [|a acts IH] using rev_ind; intros p t H.
  - injection H as <- <-. by apply pi_start.
  - apply pool_run_snoc in H as (p1 & t1 & os & H1 & Hs & ->). eapply pi_step; eauto.
Qed.
End pool.
