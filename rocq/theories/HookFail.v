(** C62: what happens when the postamble or the preamble of a task fails. *)
From Verif Require Import PoolModel PoolProofs FlushModel FlushProofs FlushProps SessionSpec SessionProofs SessionProps SessionDemo LogProofs SchedProofs SchedProps SchedOutcome SchedClient RecordOpen.
From Coq Require Import Lia.
From stdpp Require Import prelude gmap.
Local Open Scope nat_scope.

(** sync.rs:287-303 and 401-410, execgraph.rs:163-178: the report about [n] is taken from the channel, and the postamble of [n], the first thing that is
    done about it, returns something else than 0. This panics execute() (execgraph.rs:388-391). The log keeps what was written; it is flushed when it
    is dropped. *)
Definition postamble_fails (s : st) (n : nat) : Prop :=
  server_idle s = true /\ exists x v fl rest, st_events s = EvFinished n x v fl :: rest.

(** The records of a call. *)
Lemma waiting_unfinished cfg s t n x v fl rest : config_ok cfg -> reachable cfg s t -> server_idle s = true -> st_events s = EvFinished n x v fl :: rest ->
  exists new, written s = lf_entries (cf_log cfg) ++ new /\ (history (task_key cfg n) new = [KReady] \/ history (task_key cfg n) new = [KReady; KStarted]) /\ n < node_count (cf_g cfg).
Proof.
  intros Hok Hr Hi He. destruct (full_or_done cfg Hok _ _ Hr) as [HF|HD].
  2: { destruct HD as (s0 & t0 & os0 & now0 & order0 & HI & Hp0 & Ht0 & Hen & Hxx & Hdr & Hz & Hpp & Hcc & Hu). unfold server_idle in Hi. by rewrite Hpp in Hi. }
  pose proof (f_inv _ _ _ HF) as [HA [_ (new & Hn & HB)] _ _]. exists new. split; [exact Hn|].
  assert (1 <= nfe s n) as Hf. { unfold nfe. rewrite He. rewrite occ_omap_cons. cbn. unfold SchedBase.one. rewrite Nat.eqb_refl. lia. }
  assert (n ∈ readied t) as Hrd by (eapply own_readied; [exact HA|lia]).
  pose proof (a_lt _ _ _ HA n Hrd) as Hlt. split; [|exact Hlt]. rewrite (b_stage _ _ _ _ HB n Hlt). unfold stage. rewrite decide_True by done.
  rewrite decide_False; [by destruct (decide _); auto|]. intros X. pose proof (a_own _ _ _ HA n) as Ho. unfold tk in Ho.
  assert (1 <= occ n (finish_order t)) as Hocc by (by apply occ_pos).
  destruct (tkb (st_taken s) (readied t) n); cbn [Nat.b2n] in Ho; lia.
Qed.

(** Nothing about the end of the task is in the log then: it counts neither as a success nor as a failure, so that the next session runs it like one that
    has not ended, also if it had succeeded. If the process ends with it, that is one of the ends that the histories of sessions have. *)
Theorem failing_postamble_forgets h F p x e cfg acts s t n :
  possible h (World F (Some p)) -> args_ok x -> start_execute p x = Some (e, cfg) -> run cfg (initial cfg) acts = Some (s, t) -> postamble_fails s n ->
  ~ log_success (written s) (task_key cfg n) /\ ~ log_failure (written s) (task_key cfg n) /\
  (exists new, written s = lf_entries (cf_log cfg) ++ new /\ forall f, In (Finished f) new -> f_key f <> task_key cfg n) /\
  wstep (World F (Some p)) (HKilledInExecute (x_target x) cfg t) (World (written s) None).
Proof.
  intros Hh Ha Hst Hr [Hi (y & v & fl & rest & He)].
  pose proof (possible_inv _ _ Hh) as [_ Hinv]. cbn [w_proc w_file] in Hinv. destruct (begin_execute _ _ _ Hinv Ha) as (e' & cfg' & ids & bs & Hb).
  destruct (begun_unique _ _ _ _ _ _ _ _ Hb Hst) as [E1 E2]; subst e' cfg'. pose proof (begun_config _ _ _ _ _ _ _ Hinv Hb) as Hok.
  destruct (waiting_unfinished _ _ _ _ _ _ _ _ Hok (ex_intro _ acts Hr) Hi He) as (new & Hw & Hnew & Hlt).
  assert (forall f, In (Finished f) new -> f_key f <> task_key cfg n) as Hno.
  { intros f (l1 & l2 & ->)%in_split E. rewrite history_app, history_cons in Hnew. rewrite (record_of_finished _ _ E) in Hnew.
    destruct Hnew as [X|X]; destruct (history _ l1) as [|? [|? [|? ?]]]; cbn [app] in X; simplify_eq. }
  assert (forall c sr ok, ~ status_in (written s) (task_key cfg n) (Some (RFinished c sr ok))) as Hstat.
  { intros c sr ok (pre & r & mid & b & mid' & f & post & E & _ & _ & _ & _ & _ & _ & Ef & _ & Hpost). rewrite Hw in E.
    assert (history (task_key cfg n) (lf_entries (cf_log cfg) ++ new) = history (task_key cfg n) (pre ++ Ready r :: mid ++ Started b :: mid') ++ [KFinished]) as X.
    { rewrite E. replace (pre ++ Ready r :: mid ++ Started b :: mid' ++ Finished f :: post) with ((pre ++ Ready r :: mid ++ Started b :: mid') ++ Finished f :: post)
        by (rewrite <- List.app_assoc; cbn [app]; do 2 f_equal; by rewrite <- List.app_assoc).
      rewrite history_app, history_cons. rewrite (record_of_finished _ _ Ef). by rewrite (history_nil_of _ _ Hpost). }
    rewrite history_app in X. destruct Hnew as [Y|Y]; rewrite Y in X.
    - apply app_inj_tail in X as [_ X]. discriminate X.
    - change [KReady; KStarted] with ([KReady] ++ [KStarted]) in X. rewrite List.app_assoc in X. apply app_inj_tail in X as [_ X]. discriminate X. }
  split; [by intros (c & sr & X); eapply Hstat|]. split; [by intros (c & sr & X); eapply Hstat|]. split; [by exists new|].
  rewrite <- (firstn_all (written s)) at 1. eapply W_kill_in_execute; [done|exact Hst|exact Hr|]. fold (written s). rewrite Hw, (bg_cflog _ _ _ _ _ _ Hb), (bg_log _ _ _ _ _ _ Hb). cbn [lf_entries].
  destruct (pi_prefix _ _ Hinv) as [more Hm]. rewrite Hm, !app_length. lia.
Qed.
Print Assumptions failing_postamble_forgets.

(** ** The preamble *)
(** A task that went to a thread that is no longer there has not been reported. *)
Lemma lost_not_done_1 cfg s t c n b : config_ok cfg -> Full cfg s t -> st_clients s !! c = Some (CDropped n b) ->
  (forall k, ~ In (OSoft k) t) -> ~ In (OExit ExitDone) t.
Proof.
  intros Hok HF Hc Hsoft X. apply in_split in X as (t1 & t2 & ->). pose proof (f_reach _ _ _ HF) as Hr.
  pose proof (inv_a _ _ _ (f_inv _ _ _ HF)) as HA.
  assert (1 <= nhold s n + nrun s n) as H1.
  { unfold nhold, nrun. destruct b; [pose proof (occ_at run_of _ _ _ n Hc eq_refl)|pose proof (occ_at hold_of _ _ _ n Hc eq_refl)]; lia. }
  pose proof (own_readied _ _ _ n HA ltac:(lia)) as Hrd. pose proof (a_own _ _ _ HA n) as Ho. unfold tk in Ho.
  destruct (normal_end_means_all_done _ _ _ _ n Hok Hr ltac:(intros k Hk; apply (Hsoft k), in_or_app; by left) (a_lt _ _ _ HA n Hrd)) as [Hf|(m & Hm & Hf)].
  - assert (n ∈ finish_order (t1 ++ OExit ExitDone :: t2)) as X.
    { apply elem_of_finish_order. destruct Hf as (y & e & Hf). exists y, e. apply in_or_app. by left. }
    assert (1 <= occ n (finish_order (t1 ++ OExit ExitDone :: t2))) by (by apply occ_pos). destruct (tkb _ _ _); cbn [Nat.b2n] in Ho; lia.
  - assert (ended_badly (t1 ++ OExit ExitDone :: t2) m) as Hbad.
    { destruct Hf as (y & (e & Hf) & Hy). exists y. split; [done|]. left. exists e. apply in_or_app. by left. }
    by apply (c02_unready cfg Hok _ _ _ _ Hr Hbad Hm).
Qed.
Lemma lost_not_done cfg s t c n b : config_ok cfg -> reachable cfg s t -> st_clients s !! c = Some (CDropped n b) ->
  (forall k, ~ In (OSoft k) t) -> ~ In (OExit ExitDone) t.
Proof.
  intros Hok Hr Hc Hsoft. destruct (full_or_done cfg Hok _ _ Hr) as [HF|HD]; [by eapply lost_not_done_1|].
  destruct HD as (s0 & t0 & os0 & now0 & order0 & HI & Hp0 & Ht0 & Hen & -> & Hdr & Hz & Hpp & Hcc & Hu). rewrite Hcc in Hc.
  intros [X|X]%in_app_or.
  - eapply lost_not_done_1; [done|exact HI|exact Hc| |exact X]. intros k Hk. apply (Hsoft k), in_or_app. by left.
  - pose proof (z_obs _ _ _ _ _ _ Hz) as Y. rewrite Forall_forall in Y. by apply elem_of_list_In, Y in X.
Qed.
Lemma lost_stays cfg s a s' os c n b : step cfg s a = Some (s', os) -> st_clients s !! c = Some (CDropped n b) -> st_clients s' !! c = Some (CDropped n b).
Proof.
  intros Hs Hc. destruct (decide (client_of a = Some c)) as [E|E]; [|by rewrite (client_frame cfg _ _ _ _ c Hs E)].
  destruct a; cbn [client_of] in E; try done; injection E as ->; cbn [step] in Hs; rewrite Hc in Hs; done.
Qed.
(** server.rs:371-373, localrunner.rs:46-48, sync.rs:652, execgraph.rs:146-161: the preamble is called by the one who has taken the task. If it fails it
    panics that handler or loop, and nobody has the task any more. Then execute() never comes to its normal end, whatever the runners do: unless there is a soft shutdown it goes on until it is cancelled. *)
Theorem failing_preamble_blocks_end cfg s t c n b acts s' t' : config_ok cfg -> reachable cfg s t ->
  st_clients s !! c = Some (CDropped n b) -> run cfg s acts = Some (s', t') -> (forall k, ~ In (OSoft k) (t ++ t')) -> ~ In (OExit ExitDone) (t ++ t').
Proof.
  intros Hok Hr Hc Hrun. apply (lost_not_done cfg s' _ c n b); [done| |].
  - destruct Hr as [acts0 Hr]. exists (acts0 ++ acts). apply run_app. by exists s, t, t'.
  - clear Hr. revert s t' Hc Hrun. induction acts as [|a acts IH]; intros s t' Hc Hrun; [by injection Hrun as <- <-|].
    cbn [run] in Hrun. destruct (step cfg s a) as [[s2 os]|] eqn:Es; [|done]. destruct (run cfg s2 acts) as [[s3 u]|] eqn:Er; [|done]. injection Hrun as <- <-.
    eapply IH; [by eapply lost_stays|exact Er].
Qed.
Print Assumptions failing_preamble_blocks_end.

(** ** That the hypotheses are met *)
(** Task a is taken, its command succeeds, its report waits to be taken from the channel. *)
Definition hf_script : list script := [Do (AInit [0]); Flush] ++ take_task 0 ++ map Do [ASendStarted 0 "host" 7 ""; ASendFinished 0 (Code 0) [] None; AEvent 10].
Definition hf_acts : list action := expand fl_cfg (initial fl_cfg) hf_script.
Definition hf_waits (n : nat) (s : st) : bool := server_idle s && match st_events s with EvFinished m (Code 0) _ _ :: _ => Nat.eqb m n | _ => false end.
Example failing_postamble : exists h F p e s t, possible h (World F (Some p)) /\ args_ok fl_args /\ start_execute p fl_args = Some (e, fl_cfg) /\
  run fl_cfg (initial fl_cfg) hf_acts = Some (s, t) /\ postamble_fails s 0 /\ task_key fl_cfg 0 = "a" /\ length (written s) = 3.
Proof.
  destruct fl_begins as [buf HB]. destruct (be_possible _ _ _ _ _ HB) as [h Hh]. destruct (be_start _ _ _ _ _ HB) as [e He].
  assert ((match run fl_cfg (initial fl_cfg) hf_acts with Some (s, _) => hf_waits 0 s && Nat.eqb (length (written s)) 3 | None => false end) = true) as X by (vm_compute; reflexivity).
  destruct (run fl_cfg (initial fl_cfg) hf_acts) as [[s t]|] eqn:E; [|discriminate X]. clear E. apply andb_true_iff in X as [X Y]. apply andb_true_iff in X as [X1 X2].
  exists h, [], (proc_of fl_world), e, s, t. split; [exact Hh|]. split; [exact (be_args _ _ _ _ _ HB)|]. split; [exact He|]. split; [reflexivity|].
  split; [|split; [vm_compute; reflexivity|by apply Nat.eqb_eq]].
  split; [exact X1|]. destruct (st_events s) as [|[|m [z| |] v fl] rest]; try discriminate X2. destruct z; try discriminate X2. apply Nat.eqb_eq in X2 as ->. by eexists _, v, fl, rest.
Qed.
(** The one who took task a is gone; what is left of the call is a hard cancellation. *)
Definition hp_script : list script := [Do (AInit [0]); Flush] ++ take_task 0 ++ [Do (ADrop 0)].
Definition hp_acts : list action := expand fl_cfg (initial fl_cfg) hp_script.
Definition hp_more : list action := [AHardCancel; AHardExit].
Example failing_preamble : exists s t s' t', run fl_cfg (initial fl_cfg) hp_acts = Some (s, t) /\ st_clients s !! 0 = Some (CDropped 0 false) /\
  run fl_cfg s hp_more = Some (s', t') /\ In (OExit ExitHard) t' /\ (forall k, ~ In (OSoft k) (t ++ t')).
Proof.
  assert ((match run fl_cfg (initial fl_cfg) hp_acts with
    | Some (s, t) => match st_clients s !! 0, run fl_cfg s hp_more with
                     | Some (CDropped 0 false), Some (_, t') => existsb (fun o => match o with OExit ExitHard => true | _ => false end) t' && negb (existsb (fun o => match o with OSoft _ => true | _ => false end) (t ++ t'))
                     | _, _ => false end
    | None => false end) = true) as X by (vm_compute; reflexivity).
  destruct (run fl_cfg (initial fl_cfg) hp_acts) as [[s t]|] eqn:E; [|discriminate X]. clear E.
  destruct (st_clients s !! 0) as [[| | | | | | |[|] [|]]|] eqn:Ec; try discriminate X. destruct (run fl_cfg s hp_more) as [[s' t']|] eqn:E2; [|discriminate X].
  exists s, t, s', t'. apply andb_true_iff in X as [X1 X2]. split; [reflexivity|]. split; [exact Ec|]. split; [exact E2|]. clear E2. split.
  - apply existsb_exists in X1 as (o & Ho & X). destruct o as [| | | | | | | | | | | | |[]|]; try discriminate X; exact Ho.
  - intros k Hk. apply negb_true_iff in X2. assert (existsb (fun o => match o with OSoft _ => true | _ => false end) (t ++ t') = true) as Y by (apply existsb_exists; by exists (OSoft k)).
    by rewrite Y in X2.
Qed.
