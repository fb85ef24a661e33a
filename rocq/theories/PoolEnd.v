(** Proofs that the local part of execute() ends: progress and a potential. *)
From Verif Require Export PoolLive.

Section pend.
Variable cfg : config.
Hypothesis Hok : config_ok cfg.
Notation g := (cf_g cfg).

(** ** Something can happen *)
Definition pool_can (p : pool) : Prop := exists a, goes_on a /\ pool_step cfg p a <> None.

Lemma drop_can p c lp x : po_loops p !! c = Some lp -> loop_over lp = true -> st_clients (po_sched p) !! c = Some x ->
  match x with CIdle | CWait | CHolding _ | CRunning _ => True | _ => False end -> pool_can p.
Proof.
  intros Hc Ho Hx H. exists (PDrop c). split; [split; auto|]. cbn [pool_step]. rewrite Hc, Ho. cbn [step]. rewrite Hx. by destruct x.
Qed.

Lemma recv_can p c lp b : po_loops p !! c = Some lp -> inside_recv b = true -> client_of b = Some c ->
  step cfg (po_sched p) b <> None -> pool_can p.
Proof.
  intros Hc Hb Hcb Hs. exists (PRecv b). split; [split; auto|]. cbn [pool_step]. rewrite Hb, Hcb, Hc. unfold client_step.
  by destruct (step cfg (po_sched p) b) as [[]|].
Qed.

Lemma loop_can p c lp x b : po_loops p !! c = Some lp -> st_clients (po_sched p) !! c = Some x -> Link lp x ->
  client_of b = Some c -> routine b -> step cfg (po_sched p) b <> None -> pool_can p.
Proof.
  intros Hc Hx HL Hcb Hb Hs.
  assert (HI : forall i now, lp_calls lp = [] -> input_possible (po_token p) lp i = true -> loop_step (lp_state lp) i <> None ->
    ~ accident (PInput c i now) -> pool_can p).
  { intros i now H1 H2 H3 H4. exists (PInput c i now). split; [split; [done|by intros []]|]. cbn [pool_step]. rewrite Hc, H1, H2.
    by destruct (loop_step _ _) as [[]|]. }
  inversion HL; subst.
  - exists (PCall c EmptyString). split; [split; auto|]. cbn [pool_step]. rewrite Hc. cbn [call_act]. unfold client_step. cbn [step]. rewrite Hx.
    destruct b; try done; injection Hcb as ->; cbn [step] in Hs; rewrite Hx in Hs; try done.
    destruct (cf_types cfg !! c) as [i|]; [|done]. by destruct (st_closed _ !! i) as [[]|].
  - eapply (recv_can _ _ _ b); try done. destruct b; try done; injection Hcb as ->; cbn [step] in Hs; rewrite Hx in Hs; done.
  - eapply (recv_can _ _ _ b); try done. destruct b; try done; injection Hcb as ->; cbn [step] in Hs; rewrite Hx in Hs; done.
  - eapply (recv_can _ _ _ b); try done. destruct b; try done; injection Hcb as ->; cbn [step] in Hs; rewrite Hx in Hs; done.
  - exists (PCall c EmptyString). split; [split; auto|]. cbn [pool_step]. rewrite Hc. cbn [call_act]. unfold client_step. cbn [step]. by rewrite Hx.
  - exists (PCall c EmptyString). split; [split; auto|]. cbn [pool_step]. rewrite Hc. cbn [call_act]. unfold client_step. cbn [step]. by rewrite Hx.
  - exists (PCall c EmptyString). split; [split; auto|]. cbn [pool_step]. by rewrite Hc.
  - apply (HI InSpawnFails 0%N); try done; by intros ?.
  - apply (HI InFed 0%N); try done; by intros ?.
  - exists (PCall c EmptyString). split; [split; auto|]. cbn [pool_step]. rewrite Hc. cbn [call_act]. unfold client_step. cbn [step]. by rewrite Hx.
  - apply (HI (InOutput 0 []) 0%N); try done; by intros ?.
  - exfalso. destruct b; try done; injection Hcb as ->; cbn [step] in Hs; rewrite Hx in Hs; done.
  - exists (PCall c EmptyString). split; [split; auto|]. cbn [pool_step]. rewrite Hc. cbn [call_act]. unfold client_step. cbn [step]. by rewrite Hx.
  - eapply drop_can; done.
  - eapply drop_can; done.
  - exfalso. destruct b; try done; injection Hcb as ->; cbn [step] in Hs; rewrite Hx in Hs; done.
  - eapply drop_can; done.
  - eapply drop_can; done.
  - exfalso. destruct b; try done; injection Hcb as ->; cbn [step] in Hs; rewrite Hx in Hs; done.
Qed.

Lemma ended_over lp x : Link lp x -> ended x = true -> loop_over lp = true.
Proof. by intros []. Qed.

(** A step of the tracker that happens by itself is one of the pool, or another step of the pool comes first. *)
Lemma can_pool acts p t : PI cfg (length (cf_types cfg)) acts p t -> Full cfg (po_sched p) (tracker_part t) ->
  can cfg (po_sched p) -> pool_can p.
Proof.
  intros HP HF (b & Hb & Hs).
  pose proof (a_ncl _ _ _ (inv_a _ _ _ (f_inv _ _ _ HF))) as Hn. pose proof (pi_len _ _ _ _ _ HP) as Hl.
  destruct (client_of b) as [c|] eqn:Hcb.
  - assert (c < length (po_loops p)) as Hlt.
    { rewrite Hl, <- Hn. destruct b; try done; injection Hcb as ->; cbn [step] in Hs;
        (destruct (st_clients (po_sched p) !! c) eqn:E; [by eapply lookup_lt_Some|done]). }
    apply lookup_lt_is_Some in Hlt as [lp Hc]. destruct (pi_link _ _ _ _ _ HP c lp Hc) as (x & Hx & HL). by eapply loop_can.
  - assert ({exists order now, b = ADrain order now} + {match b with ADrain _ _ => False | _ => True end}) as [Hd|Hd] by (destruct b; eauto).
    + destruct Hd as (order & now & ->). pose proof Hs as Hs0. cbn [step] in Hs. destruct (st_phase (po_sched p)) eqn:Hp; try done.
      destruct (st_todo (po_sched p)) eqn:Et; [|done]. destruct (forallb ended (st_clients (po_sched p))) eqn:He; [|done].
      destruct (SyncModel.hard_released (po_token p)) eqn:Hh.
      * exists (PSched (ADrain order now)). split; [split; auto|]. cbn [pool_step client_of]. rewrite Hh.
        assert (forallb loop_over (po_loops p) = true) as ->.
        { apply forallb_forall. intros lp Hlp. apply elem_of_list_In, elem_of_list_lookup in Hlp as [c Hc].
          destruct (pi_link _ _ _ _ _ HP c lp Hc) as (x & Hx & HL). eapply ended_over; [done|].
          rewrite forallb_forall in He. apply He. apply elem_of_list_In. by eapply elem_of_list_lookup_2. }
        cbn [orb negb andb]. by destruct (step cfg (po_sched p) (ADrain order now)) as [[]|].
      * exists PHardCancel. split; [split; auto|]. cbn [pool_step]. by rewrite Hp, Et, Hh.
    + exists (PSched b). split; [split; [auto|destruct b; simpl in *; auto]|]. cbn [pool_step]. rewrite Hcb.
      assert (match b with ADrain _ _ => SyncModel.hard_released (po_token p) && forallb loop_over (po_loops p) | _ => true end = true) as ->
        by (by destruct b).
      simpl. by destruct (step cfg (po_sched p) b) as [[]|].
Qed.

Lemma pool_progress acts p t : PI cfg (length (cf_types cfg)) acts p t -> SI cfg p t -> 0 < node_count g -> all_served cfg ->
  PSched ATriggerSoft ∉ acts -> pool_can p \/ st_phase (po_sched p) = PDrained.
Proof.
  intros HP HS Hpos Hsv Hno. pose proof (pi_reachable _ _ _ _ _ HP) as Hr.
  destruct (full_or_done cfg Hok _ _ Hr) as [HF|HD].
  - left. eapply can_pool; [done..|].
    destruct (c_phase _ _ _ (inv_c _ _ _ (f_inv _ _ _ HF))) as [P1 P2].
    destruct (st_phase (po_sched p)) eqn:Hp; try done.
    3: by eapply progress_exited.
    all: (destruct (HS ltac:(unfold serving; auto)) as [G1 _ _ _ _]; destruct (progress cfg Hok _ _ HF G1 Hpos Hsv) as [H|[H _]]; [done|];
      destruct (pi_run _ _ _ _ _ HP) as (sacts & Hrun & [Hq _]); apply (causes cfg sacts _ _ Hrun) in H; by apply Hq in H).
  - right. by destruct HD as (s0 & t0 & os0 & now0 & order0 & HI & Hp0 & Ht0 & He & Hx & Hdr & Hz & Hpp & Hc & Hu).
Qed.

(** ** Each step lowers a potential *)
Definition wl (lp : loop) : nat :=
  match lp_state lp, lp_calls lp with
  | LTaken _, _ :: _ => 4 | LTaken _, [] => 3 | LFeeding _ _, _ => 2 | LRunning _, _ => 1 | _, _ => 0
  end.
Definition wt (tok : option SyncModel.cancellation) : nat := if SyncModel.hard_released tok then 0 else 1.
Definition PhiP (p : pool) : nat := 6 * Phi cfg (po_sched p) + sum wl (po_loops p) + wt (po_token p).

Lemma wt_after tok os : wt (token_after tok os) <= wt tok.
Proof.
  revert tok. induction os as [|o os IH]; intros tok; [done|]. unfold token_after in *. simpl. etrans; [apply IH|]. destruct o; try done.
  unfold SyncModel.cancel, SyncModel.cancel_decides, wt. destruct tok as [[]|]; simpl; try lia. by destruct (negb _).
Qed.
Lemma wt_hard tok : wt (SyncModel.cancel tok SyncModel.HardCancelled) = 0.
Proof. done. Qed.

Definition pool_work (a : paction) : bool := match a with PSched b => work b | _ => true end.
Definition pool_soft_request (a : paction) : bool := match a with PSched b => soft_request b | _ => false end.

Lemma client_work b c : client_of b = Some c -> work b = true /\ soft_request b = false.
Proof. by destruct b. Qed.

Lemma phi_pool_step k acts p t a p' os : PI cfg k acts p t -> pool_step cfg p a = Some (p', os) ->
  (if pool_work a then 1 else 0) + PhiP p' <= PhiP p + (if pool_soft_request a then 6 * (node_count g + 66) else 0).
Proof.
  intros HP Hs. pose proof (pi_reachable _ _ _ _ _ HP) as Hr.
  assert (HC : forall b c lp0 lp s' os', po_loops p !! c = Some lp0 -> client_of b = Some c -> step cfg (po_sched p) b = Some (s', os') ->
    wl lp <= wl lp0 + 4 -> 1 + PhiP (Pool s' (<[c := lp]> (po_loops p)) (token_after (po_token p) os')) <= PhiP p + 0).
  { intros b c lp0 lp s' os' Hc Hcb E Hw. destruct (client_work _ _ Hcb) as [W1 W2]. pose proof (phi_step cfg Hok _ _ _ _ _ Hr E) as Hphi.
    rewrite W1, W2 in Hphi. pose proof (sum_insert wl _ _ _ lp Hc) as Hsum. pose proof (wt_after (po_token p) os'). unfold PhiP. cbn [po_sched po_loops po_token]. lia. }
  destruct a as [b| |c host|b|c i now|c]; cbn [pool_step] in Hs; cbn [pool_work pool_soft_request].
  - destruct (_ || _) in Hs; [done|]. destruct (step cfg (po_sched p) b) as [[s' os']|] eqn:E; [|done]. injection Hs as <- <-.
    pose proof (phi_step cfg Hok _ _ _ _ _ Hr E) as Hphi. unfold PhiP. cbn [po_sched po_loops po_token].
    set (tok := match b with AHardCancel => _ | _ => _ end).
    assert (wt (token_after tok os') <= wt (po_token p)).
    { etrans; [apply wt_after|]. subst tok. destruct b; try done. rewrite wt_hard. lia. }
    destruct (work b), (soft_request b); lia.
  - destruct (st_phase _); try done. destruct (st_todo _); [|done]. destruct (SyncModel.hard_released _) eqn:Hh; [done|]. injection Hs as <- <-.
    unfold PhiP. cbn [po_sched po_loops po_token]. rewrite wt_hard. unfold wt. rewrite Hh.
    change (Phi cfg (set_hard (po_sched p) true)) with (Phi cfg (po_sched p)). lia.
  - destruct (po_loops p !! c) as [lp|] eqn:Hc; [|done]. destruct lp as [st' cs child start]. destruct cs as [|x rest]; [done|].
    destruct (pi_link _ _ _ _ _ HP c _ Hc) as (y & Hy & HL).
    destruct (call_act c host x) as [b|] eqn:Hb.
    + unfold client_step in Hs. destruct (step cfg (po_sched p) b) as [[s' os']|] eqn:E; [|done]. injection Hs as <- <-.
      eapply HC; [done| |done|]. { destruct x; try done; by injection Hb as <-. }
      assert (wl (recv_returns (Loop st' rest child start) os') <= 4); [|lia].
      unfold wl. destruct (lp_state _); try lia; destruct (lp_calls _); lia.
    + destruct x; try done. injection Hs as <- <-. unfold PhiP. cbn [po_sched po_loops po_token].
      pose proof (sum_insert wl _ _ _ (Loop st' rest child start) Hc) as Hsum.
      inversion HL; subst. cbn in Hsum. lia.
  - destruct (inside_recv b) eqn:Hb; [|done]. destruct (client_of b) as [c|] eqn:Hcb; [|done].
    destruct (po_loops p !! c) as [lp|] eqn:Hc; [|done]. unfold client_step in Hs.
    destruct (step cfg (po_sched p) b) as [[s' os']|] eqn:E; [|done]. injection Hs as <- <-.
    eapply HC; [done..|]. assert (wl (recv_returns lp os') <= 4); [|lia].
    unfold wl. destruct (lp_state _); try lia; destruct (lp_calls _); lia.
  - destruct (po_loops p !! c) as [lp|] eqn:Hc; [|done].
    destruct (lp_calls lp) as [|] eqn:Hcalls; [|done]. destruct (input_possible (po_token p) lp i) eqn:Hi; [|done].
    destruct (loop_step (lp_state lp) i) as [[st' cs]|] eqn:Hst; [|done]. injection Hs as <- <-.
    unfold PhiP. cbn [po_sched po_loops po_token].
    pose proof (sum_insert wl _ _ _ (Loop st' cs (child_after lp i) (start_after lp i now)) Hc) as Hsum.
    assert (1 + wl (Loop st' cs (child_after lp i) (start_after lp i now)) <= wl lp); [|lia].
    unfold wl. rewrite Hcalls. cbn [lp_state lp_calls].
    destruct (lp_state lp); try done; destruct i; try done; simpl in Hst; repeat (case_match; try done); simplify_eq; lia.
  - destruct (po_loops p !! c) as [lp|] eqn:Hc; [|done]. destruct (loop_over lp) eqn:Hov; [|done].
    destruct (step cfg (po_sched p) (ADrop c)) as [[s' os']|] eqn:E; [|done]. injection Hs as <- <-.
    pose proof (phi_step cfg Hok _ _ _ _ _ Hr E) as Hphi. cbn [work soft_request] in Hphi. unfold PhiP. cbn [po_sched po_loops po_token]. lia.
Qed.

Definition pool_number (f : paction -> bool) (acts : list paction) : nat := length (List.filter f acts).
Lemma pool_number_snoc f acts a : pool_number f (acts ++ [a]) = pool_number f acts + (if f a then 1 else 0).
Proof. unfold pool_number. rewrite List.filter_app, app_length. simpl. by destruct (f a). Qed.

Lemma pool_work_bound k acts : k <= length (cf_types cfg) -> forall p t, pool_run cfg (pool_start cfg k) acts = Some (p, t) ->
  pool_number pool_work acts + PhiP p <= PhiP (pool_start cfg k) + 6 * (node_count g + 66) * pool_number pool_soft_request acts.
Proof.
  intros Hk. induction acts as [|a acts IH] using rev_ind; intros p t H.
  - injection H as <- <-. unfold pool_number. simpl. lia.
  - apply pool_run_snoc in H as (p1 & t1 & os & H1 & Hs & ->). specialize (IH _ _ H1).
    apply (phi_pool_step k acts p1 t1) in Hs; [|by apply pi_pool_run]. rewrite !pool_number_snoc. destruct (pool_work a), (pool_soft_request a); lia.
Qed.

Lemma phi_pool_start k : PhiP (pool_start cfg k) = 6 * (270 * node_count g + 2 * length (cf_types cfg) + 71) + 1.
Proof.
  unfold PhiP, pool_start. cbn [po_sched po_loops po_token]. rewrite phi_initial.
  rewrite (sum_const wl 0); [unfold wt; simpl; lia|]. intros x Hx. apply elem_of_list_In in Hx. by apply repeat_spec in Hx as ->.
Qed.

(** ** The end *)
Lemma goes_on_smooth a : goes_on a -> smooth a /\ a <> PSched ACtrlC.
Proof. intros [H1 H2]. split; [split; [done|]; split|]; intros ->; by apply H2. Qed.
Lemma local_only_smooth a : local_only a -> smooth a.
Proof. intros [H| ->]; [by apply goes_on_smooth|]. split; [by intros []|done]. Qed.
Lemma goes_on_work a : goes_on a -> pool_work a = true /\ pool_soft_request a = false.
Proof. intros [_ H]. destruct a as [[]| | | | |]; try done; by destruct H. Qed.

Lemma si_run acts p t : Forall smooth acts -> pool_run cfg (pool_start cfg (length (cf_types cfg))) acts = Some (p, t) -> SI cfg p t.
Proof.
  revert p t. induction acts as [|a acts IH] using rev_ind; intros p t Ha H.
  - injection H as <- <-. apply si_start.
  - apply Forall_app in Ha as [Ha1 Ha2]. apply Forall_cons in Ha2 as [Ha2 _].
    apply pool_run_snoc in H as (p1 & t1 & os & H1 & Hs & ->). eapply (si_step cfg Hok); [done|by eapply pi_pool_run|by apply IH|done..].
Qed.

Lemma smooth_no_trigger acts : Forall smooth acts -> PSched ATriggerSoft ∉ acts.
Proof. rewrite Forall_forall. intros H Hin. by destruct (H _ Hin) as (_ & ? & _). Qed.

Lemma pool_can_end acts p t : 0 < node_count g -> all_served cfg -> Forall smooth acts ->
  pool_run cfg (pool_start cfg (length (cf_types cfg))) acts = Some (p, t) ->
  exists more p' t', Forall goes_on more /\ pool_run cfg p more = Some (p', t') /\ st_phase (po_sched p') = PDrained.
Proof.
  intros Hpos Hsv. remember (PhiP p) as k eqn:Ek. revert acts p t Ek. induction (lt_wf k) as [k _ IH]. intros acts p t -> Ha H.
  assert (HP : PI cfg (length (cf_types cfg)) acts p t) by (by apply pi_pool_run).
  destruct (pool_progress acts p t HP (si_run _ _ _ Ha H) Hpos Hsv (smooth_no_trigger _ Ha)) as [(a & Hg & Hs)|Hd].
  - destruct (pool_step cfg p a) as [[p1 os]|] eqn:E; [|done].
    assert (Hlt : PhiP p1 < PhiP p).
    { apply goes_on_work in Hg as [W1 W2]. apply (phi_pool_step _ _ _ _ _ _ _ HP) in E. rewrite W1, W2 in E. lia. }
    destruct (IH _ Hlt (acts ++ [a]) p1 (t ++ os) eq_refl) as (more & p' & t' & M1 & M2 & M3).
    + apply Forall_app. split; [done|]. constructor; [|constructor]. by apply goes_on_smooth.
    + apply pool_run_app. exists p, t, os. split_and!; try done. cbn [pool_run]. rewrite E. by rewrite app_nil_r.
    + exists (a :: more), p', (os ++ t'). split_and!; try done; [by constructor|]. cbn [pool_run]. by rewrite E, M2.
  - by exists [], p, [].
Qed.
End pend.
