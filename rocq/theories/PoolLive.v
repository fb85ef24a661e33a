(** A call with local runners only ends: proofs. *)
From Verif Require Export PoolProofs.

Section live.
Variable cfg : config.
Hypothesis Hok : config_ok cfg.

(** ** The tracker before it leaves its loop *)
Definition serving (s : st) : Prop := st_phase s = PInit \/ st_phase s = PLoop.

Lemma no_cancel_close now : ICancelToken now ∉ close_all.
Proof. intros H. by apply elem_of_list_fmap in H as (i & ? & _). Qed.
Lemma no_cancel_zero now : ICancelToken now ∉ zero_all cfg.
Proof. intros H. by apply elem_of_list_fmap in H as (i & ? & _). Qed.
Lemma no_cancel_pushes now items : ICancelToken now ∉ pushes items.
Proof.
  intros H. unfold pushes in H. apply elem_of_list_In, in_concat in H as (l & Hl & H). apply elem_of_list_In in Hl, H.
  apply elem_of_list_fmap in Hl as (i & -> & _). by apply elem_of_list_fmap in H as (it & ? & _).
Qed.
Lemma no_cancel_atrq sv ready sv' is os now : add_to_ready_queue cfg sv ready = Some (sv', is, os) -> ICancelToken now ∉ is.
Proof.
  unfold add_to_ready_queue. destruct ready; [intros [= <- <- <-]; apply not_elem_of_nil|].
  destruct (N.leb _ _); [done|]. destruct (ready_records _ _ _ _) as [[l items]|]; [|done]. destruct (sv_open sv); [|done].
  intros [= <- <- <-]. rewrite not_elem_of_cons, !not_elem_of_app. split; [done|]. split; [|split].
  - intros H. by apply elem_of_list_fmap in H as (it & ? & _).
  - apply no_cancel_pushes.
  - rewrite not_elem_of_cons. split; [done|apply not_elem_of_nil].
Qed.

Lemma sv_step s a s' os : step cfg s a = Some (s', os) -> serving s' ->
  serving s /\ (sv_open (st_sv s) = false -> sv_open (st_sv s') = false) /\
  (forall now, ICancelToken now ∈ st_todo s' -> ICancelToken now ∈ st_todo s \/ sv_open (st_sv s') = false) /\
  (forall now, OCancelToken now ∈ os -> ICancelToken now ∈ st_todo s).
Proof.
  intros Hs Hp.
  assert (B : forall s1 os1, Some (s1, os1) = Some (s', os) -> st_phase s1 = st_phase s -> st_sv s1 = st_sv s -> st_todo s1 = st_todo s ->
    (forall now, OCancelToken now ∈ os1 -> False) ->
    serving s /\ (sv_open (st_sv s) = false -> sv_open (st_sv s') = false) /\
    (forall now, ICancelToken now ∈ st_todo s' -> ICancelToken now ∈ st_todo s \/ sv_open (st_sv s') = false) /\
    (forall now, OCancelToken now ∈ os -> ICancelToken now ∈ st_todo s)).
  { intros s1 os1 [= -> ->] B1 B2 B3 B4. rewrite B2, B3. unfold serving in *. rewrite B1 in Hp. split; [done|]. split; [done|]. split; [auto|].
    intros now H. by apply B4 in H. }
  assert (E0 : forall now, OCancelToken now ∈ [] -> False) by (intros now H; by apply elem_of_nil in H).
  assert (E1 : forall o, (forall now, OCancelToken now <> o) -> forall now, OCancelToken now ∈ [o] -> False).
  { intros o Ho now H. apply elem_of_list_singleton in H. by apply (Ho now). }
  destruct a; cbn [step] in Hs; try (repeat (case_match; try done); (eapply B; [exact Hs|done|done|done|first [exact E0|by apply E1]])).
  - (* AInit *) destruct (st_phase s) eqn:E; try done. destruct (is_reordering _ _); [|done].
    destruct (add_to_ready_queue _ _ _) as [[[sv is] os']|] eqn:Ea; injection Hs as <- <-; [|by destruct Hp].
    split; [by left|]. pose proof (atrq_effect _ _ _ _ _ _ Ea) as (O1 & _). pose proof (atrq_obs _ _ _ _ _ _ Ea) as ->.
    split; [simpl; by rewrite O1|]. split.
    + intros now H. simpl in H. apply elem_of_cons in H as [H|H]; [done|]. by eapply no_cancel_atrq in H.
    + intros now H. by apply elem_of_list_fmap in H as (n & ? & _).
  - (* AInstr *) assert (exists i rest, st_todo s = i :: rest /\ exec_instr (set_todo s rest) i = (s', os)) as (i & rest & Et & Hx).
    { destruct (st_phase s); try done; (destruct (st_todo s) as [|i rest]; [done|]); exists i, rest; split; try done; by injection Hs. }
    clear Hs. assert (Hph : serving s). { unfold serving in *. destruct i; cbn [exec_instr] in Hx; repeat (case_match; try done); injection Hx as <- <-; try exact Hp; simpl in Hp; destruct Hp; done. }
    split; [done|].
    assert (st_sv s' = st_sv s /\ st_todo s' = rest) as [S1 S2].
    { destruct i; cbn [exec_instr] in Hx; repeat (case_match; try done); injection Hx as <- <-; done. }
    rewrite S1, S2, Et. split; [done|]. split; [intros now H; left; by right|].
    intros now H. destruct i; cbn [exec_instr] in Hx; repeat (case_match; try done); injection Hx as <- <-;
      try (by apply elem_of_nil in H); apply elem_of_list_singleton in H; try done. injection H as ->. by left.
  - (* AEvent *) destruct (server_idle s) eqn:Hi; [|done]. apply server_idle_true in Hi as [Hph Ht].
    destruct (st_events s) as [|[id h p j|id x v f] rest] eqn:Ee; [done| |].
    + destruct (handle_started _ _ _ _ _ _ _) as [[[sv is] os']|] eqn:E; injection Hs as <- <-; [|by destruct Hp].
      split; [by right|]. unfold handle_started in E. destruct (nodes _ !! id); [|done]. destruct (write_started _ _ _ _ _ _); [|done].
      destruct (sv_inflight _ !! id); [done|]. injection E as <- <- <-. split; [done|]. split; [intros now1 H; by apply elem_of_nil in H|].
      intros now1 H. by apply elem_of_list_singleton in H.
    + destruct (handle_finished _ _ _ _ _ _ _) as [[[sv is] os']|] eqn:E; injection Hs as <- <-; [|by destruct Hp].
      apply handle_finished_inv in E as (c & items & ready & over & stop & Hc & Hover & Hstop & Hid & Hm & Hs0 & Z1 & Z2 & Z3 & Z4 & Z5 & Z6 & Z7 & Z8 & -> & ->).
      cbn [set_events st_sv] in *. split; [by right|]. simpl. rewrite Z6. split; [by intros ->|]. split.
      * intros now' H. right. apply elem_of_cons in H as [H|H]; [done|]. apply elem_of_app in H as [H|H].
        { exfalso. revert H. unfold rinstrs. destruct items; [apply not_elem_of_nil|]. rewrite elem_of_cons, !elem_of_app, elem_of_list_singleton.
          intros [H|[H|[H|H]]]; try done; [by apply elem_of_list_fmap in H as (it & ? & _)|by apply no_cancel_pushes in H]. }
        apply elem_of_app in H as [H|H]; [destruct f; [by apply elem_of_list_singleton in H|by apply elem_of_nil in H]|].
        destruct over; [by rewrite andb_false_r|]. simpl in H. destruct stop; [|by apply elem_of_nil in H].
        by rewrite andb_false_r.
      * intros now' H. apply elem_of_cons in H as [H|H]; [done|]. apply elem_of_app in H as [H|H]; [by apply elem_of_list_fmap in H as (n & ? & _)|].
        apply elem_of_app in H as [H|H].
        -- destruct over; [by apply elem_of_list_singleton in H|by apply elem_of_nil in H].
        -- destruct stop; [by apply elem_of_list_singleton in H|by apply elem_of_nil in H].
  - (* ASoft *) destruct (server_idle s && st_soft_trigger s) eqn:Hi; [|done]. apply andb_true_iff in Hi as [Hi _].
    apply server_idle_true in Hi as [Hph Ht]. injection Hs as <- <-. split; [by right|]. split; [done|]. split; [by right|].
    intros now H. by apply elem_of_list_singleton in H.
  - destruct (server_idle s && st_hard s) eqn:Hi; [|done]. apply andb_true_iff in Hi as [Hi _].
    apply server_idle_true in Hi as [Hph Ht]. injection Hs as <- <-. split; [by right|]. split; [done|]. split; [by right|].
    intros now H. by apply elem_of_list_singleton in H.
  - destruct (server_idle s) eqn:Hi; [|done].
    apply server_idle_true in Hi as [Hph Ht]. injection Hs as <- <-. split; [by right|]. split; [done|]. split; [by right|].
    intros now H. by apply elem_of_list_singleton in H.
  - (* ADrain *) exfalso. repeat (case_match; try done); injection Hs as <- <-; by destruct Hp.
  - (* ACount *) destruct (st_clients s !! c) as [[]|]; try done. destruct (cf_types cfg !! c); [|done].
    destruct (hand_out _ _); [|injection Hs as <- <-; by destruct Hp]. eapply B; [exact Hs|done|done|done|by apply E1].
Qed.

Lemma serving_full s t : reachable cfg s t -> serving s -> Full cfg s t.
Proof.
  intros Hr Hp. destruct (full_or_done cfg Hok s t Hr) as [HF|HD]; [done|].
  destruct HD as (s0 & t0 & os0 & now0 & order0 & HI & Hp0 & Ht0 & He & Hx & Hdr & Hz & Hpp & Hc & Hu). destruct Hp; congruence.
Qed.

Lemma serving_live s t b s' os : reachable cfg s t -> step cfg s b = Some (s', os) -> serving s -> serving s' -> harmless_drop s b ->
  Live cfg s t -> Live cfg s' (t ++ os).
Proof.
  intros Hr Hs Hp Hp' Hh HL. destruct (live_step cfg s t b s' os) as [H|H]; try done.
  - by apply serving_full.
  - destruct Hp'; congruence.
  - destruct Hp'; congruence.
Qed.

(** ** Runs without accidents and without requests other than Ctrl-C *)
Definition ended_ok (s : st) (c : nat) (lp : loop) : Prop :=
  lp_state lp <> LPanicked /\
  (lp_state lp = LEnded -> st_clients s !! c = Some CGone \/
     sv_open (st_sv s) = false /\ (lp_calls lp <> [] \/ st_clients s !! c = Some CIdle)).

Record Serving (p : pool) (t : list pobs) : Prop := {
  sg_live : Live cfg (po_sched p) (tracker_part t);
  sg_hard : po_token p <> Some SyncModel.HardCancelled;
  sg_token : po_token p <> None -> sv_open (st_sv (po_sched p)) = false;
  sg_todo : forall now, ICancelToken now ∈ st_todo (po_sched p) -> sv_open (st_sv (po_sched p)) = false;
  sg_loops : forall c lp, po_loops p !! c = Some lp -> ended_ok (po_sched p) c lp
}.
Definition SI (p : pool) (t : list pobs) : Prop := serving (po_sched p) -> Serving p t.

Lemma token_after_hard tok os : token_after tok os = Some SyncModel.HardCancelled -> tok = Some SyncModel.HardCancelled.
Proof.
  revert tok. induction os as [|o os IH]; intros tok H; [done|]. unfold token_after in *. simpl in H. apply IH in H.
  destruct o; try done. unfold SyncModel.cancel in H. by destruct (SyncModel.cancel_decides _ _).
Qed.
Lemma token_after_none tok os : token_after tok os <> None -> tok <> None \/ exists now, OCancelToken now ∈ os.
Proof.
  revert tok. induction os as [|o os IH]; intros tok H; [by left|]. unfold token_after in *. simpl in H.
  apply IH in H as [H|(now & H)]; [|right; exists now; by right]. destruct o; try (by left). right. eexists. by left.
Qed.

(** A step of the tracker in such a run. *)
Lemma serving_tracker k acts p t b s' os loops' : PI cfg k acts p t -> SI p t -> step cfg (po_sched p) b = Some (s', os) ->
  (serving (po_sched p) -> Serving p t -> harmless_drop (po_sched p) b) ->
  (serving (po_sched p) -> Serving p t -> (sv_open (st_sv (po_sched p)) = false -> sv_open (st_sv s') = false) ->
     forall c lp, loops' !! c = Some lp -> ended_ok s' c lp) ->
  SI (Pool s' loops' (token_after (po_token p) os)) (t ++ map PO os).
Proof.
  intros HP HS Hs Hh Hl Hp'. cbn [po_sched] in Hp'. destruct (sv_step _ _ _ _ Hs Hp') as (Hp & A1 & A2 & A3).
  pose proof (HS Hp) as HG. destruct HG as [G1 G2 G3 G4 G5]. pose proof (pi_reachable _ _ _ _ _ HP) as Hr.
  assert (Htr : tracker_part (t ++ map PO os) = tracker_part t ++ os) by (by rewrite tracker_app, tracker_po).
  split; cbn [po_sched po_loops po_token]; rewrite ?Htr.
  - eapply serving_live; try done. by apply Hh.
  - intros H. by apply token_after_hard in H.
  - intros H. apply A1. apply token_after_none in H as [H|(now & H)]; [by apply G3|]. by eapply G4, A3.
  - intros now H. apply A2 in H as [H|H]; [|done]. apply A1. by eapply G4.
  - by apply Hl; [|apply HS|].
Qed.

(** The loops that a step of the tracker does not touch. *)
Lemma ended_frame s b s' os c lp : step cfg s b = Some (s', os) -> client_of b <> Some c ->
  (sv_open (st_sv s) = false -> sv_open (st_sv s') = false) -> ended_ok s c lp -> ended_ok s' c lp.
Proof.
  intros Hs Hc Ho [H1 H2]. split; [done|]. intros H. rewrite (client_frame _ _ _ _ _ c Hs Hc). destruct (H2 H) as [X|[X Y]]; [by left|right]. split; [by apply Ho|done].
Qed.

Lemma serving_client k acts p t b c lp' s' os : PI cfg k acts p t -> SI p t -> step cfg (po_sched p) b = Some (s', os) ->
  client_of b = Some c -> (forall s, harmless_drop s b) ->
  (serving (po_sched p) -> (sv_open (st_sv (po_sched p)) = false -> sv_open (st_sv s') = false) ->
    (forall lp, po_loops p !! c = Some lp -> ended_ok (po_sched p) c lp) -> ended_ok s' c lp') ->
  SI (Pool s' (<[c := lp']> (po_loops p)) (token_after (po_token p) os)) (t ++ map PO os).
Proof.
  intros HP HS Hs Hc Hh Hl. eapply serving_tracker; try done. intros Hp HG Ho d lp Hd.
  destruct (decide (d = c)) as [->|Hne].
  - destruct (decide (c < length (po_loops p))).
    + rewrite list_lookup_insert in Hd by done. injection Hd as <-. apply Hl; try done. apply (sg_loops _ _ HG).
    + rewrite list_insert_ge in Hd by lia. apply lookup_lt_Some in Hd. lia.
  - rewrite list_lookup_insert_ne in Hd by done. eapply ended_frame; [done|congruence|done|by apply (sg_loops _ _ HG)].
Qed.

Lemma ended_other s c lp : lp_state lp <> LPanicked -> lp_state lp <> LEnded -> ended_ok s c lp.
Proof. split; done. Qed.

Definition smooth (a : paction) : Prop := ~ accident a /\ a <> PSched ATriggerSoft /\ a <> PSched AHardCancel.

Lemma si_step k acts p t a p' os : k = length (cf_types cfg) -> PI cfg k acts p t -> SI p t -> smooth a ->
  pool_step cfg p a = Some (p', os) -> SI p' (t ++ os).
Proof.
  intros Hk HP HS (Ha1 & Ha2 & Ha3) Hs. destruct a as [b| |c host|b|c i now|c]; cbn [pool_step] in Hs.
  - (* PSched *) destruct (_ || _) eqn:Hl in Hs; [done|]. apply orb_false_iff in Hl as [Hl _].
    destruct (step cfg (po_sched p) b) as [[s' os']|] eqn:E; [|done]. injection Hs as <- <-.
    assert (match b with AHardCancel => SyncModel.cancel (po_token p) SyncModel.HardCancelled | _ => po_token p end = po_token p) as -> by (by destruct b).
    assert (Hcl : forall c, client_of b = Some c -> length (po_loops p) <= c).
    { intros c Hc. rewrite Hc in Hl. by apply Nat.ltb_ge in Hl. }
    eapply serving_tracker; try done.
    + intros Hp HG. destruct b; try done. exfalso. specialize (Hcl c eq_refl). rewrite (pi_len _ _ _ _ _ HP) in Hcl.
      pose proof (serving_full _ _ (pi_reachable _ _ _ _ _ HP) Hp) as HF. pose proof (a_ncl _ _ _ (inv_a _ _ _ (f_inv _ _ _ HF))) as Hn.
      cbn [step] in E. destruct (st_clients (po_sched p) !! c) eqn:Hx; [|done]. apply lookup_lt_Some in Hx. lia.
    + intros Hp HG Ho c lp Hc. eapply ended_frame; [done| |done|by apply (sg_loops _ _ HG)].
      intros Hb. apply Hcl in Hb. apply lookup_lt_Some in Hc. lia.
  - (* PHardCancel *) destruct (st_phase (po_sched p)) eqn:Hp; try done. destruct (st_todo _); [|done]. destruct (SyncModel.hard_released _); [done|].
    injection Hs as <- <-. intros [H|H]; cbn in H; congruence.
  - (* PCall *) destruct (po_loops p !! c) as [lp|] eqn:Hc; [|done].
    destruct (pi_link _ _ _ _ _ HP c lp Hc) as (x & Hx & HL).
    inversion HL; subst; try done; cbn [call_act] in Hs.
    all: try (unfold client_step in Hs; destruct (step cfg (po_sched p) _) as [[s' os']|] eqn:E; [|done]; injection Hs as <- <-;
      pose proof E as E'; cbn [step] in E'; rewrite Hx in E').
    + destruct (cf_types cfg !! c) as [i|]; [|done]. destruct (st_closed _ !! i) as [[]|]; injection E' as <- <-;
        (eapply serving_client; [done|done|exact E|done|done|]); intros _ _ _; try (by apply ended_other);
        (split; [done|]; intros _; left; by eapply lookup_set_client).
    + injection E' as <- <-. eapply serving_client; [done|done|exact E|done|done|]. intros _ _ _. by apply ended_other.
    + injection E' as <- <-. eapply serving_client; [done|done|exact E|done|done|]. intros _ _ _. by apply ended_other.
    + injection Hs as <- <-. rewrite app_nil_r. intros Hp. destruct (HS Hp). split; try done. cbn [po_loops po_sched]. intros d lp Hd.
      destruct (decide (d = c)) as [->|Hne].
      * rewrite list_lookup_insert in Hd by (by eapply lookup_lt_Some). injection Hd as <-. by apply ended_other.
      * rewrite list_lookup_insert_ne in Hd by done. auto.
    + injection E' as <- <-. eapply serving_client; [done|done|exact E|done|done|]. intros _ _ _. by apply ended_other.
    + injection E' as <- <-. eapply serving_client; [done|done|exact E|done|done|]. intros Hp Ho H. destruct (H _ Hc) as [_ H1].
      destruct (H1 eq_refl) as [X|[X _]]; [congruence|]. split; [done|]. intros _. right. split; [by apply Ho|]. right.
      by eapply (lookup_set_client (set_events _ _)).
  - (* PRecv *) destruct (inside_recv b) eqn:Hb; [|done]. destruct (client_of b) as [c|] eqn:Hcb; [|done].
    destruct (po_loops p !! c) as [lp|] eqn:Hc; [|done].
    destruct (pi_link _ _ _ _ _ HP c lp Hc) as (x & Hx & HL). unfold client_step in Hs.
    destruct (step cfg (po_sched p) b) as [[s' os']|] eqn:E; [|done]. injection Hs as <- <-. pose proof E as E'.
    eapply serving_client; [done|done|exact E|done|by destruct b|]. intros _ _ _.
    destruct b; try done; injection Hcb as ->; cbn [step] in E'; rewrite Hx in E'; destruct x; try done; inversion HL; subst.
    + destruct (cf_types cfg !! c) as [i|]; [|done].
      destruct (st_queues _ !! i); [|done]. destruct (_ !! j); [|done]. destruct (is_max _ _); [|done]. injection E' as <- <-. by apply ended_other.
    + destruct (cf_types cfg !! c) as [i|]; [|done].
      destruct (st_queues _ !! i) as [[]|]; try done. destruct (st_closed _ !! i) as [[]|]; try done. injection E' as <- <-.
      split; [done|]. intros _. left. by eapply lookup_set_client.
    + destruct (decide _); injection E' as <- <-; by apply ended_other.
    + destruct (cf_types cfg !! c) as [i|]; [|done]. destruct (hand_out _ _) as [q|]; injection E' as <- <-; by apply ended_other.
  - (* PInput *) destruct (po_loops p !! c) as [lp|] eqn:Hc; [|done].
    destruct (lp_calls lp) as [|] eqn:Hcalls; [|done]. destruct (input_possible (po_token p) lp i) eqn:Hi; [|done].
    destruct (loop_step (lp_state lp) i) as [[st' cs]|] eqn:Hst; [|done]. injection Hs as <- <-.
    intros Hp. cbn [po_sched] in Hp. pose proof (HS Hp) as HG. destruct HG as [G1 G2 G3 G4 G5].
    assert (Htr : tracker_part (t ++ input_obs c lp i now) = tracker_part t) by (by rewrite tracker_app, tracker_input, app_nil_r).
    split; cbn [po_sched po_loops po_token]; rewrite ?Htr; try done. intros d lp' Hd. destruct (decide (d = c)) as [->|Hne].
    + rewrite list_lookup_insert in Hd by (by eapply lookup_lt_Some). injection Hd as <-.
      destruct (lp_state lp); try done; destruct i; try done; simpl in Hst, Ha1, Hi; repeat (case_match; try done); simplify_eq; try (by apply ended_other);
        try (by destruct Ha1).
      * split; [done|]. intros _. right. split; [|by left]. apply G3. by rewrite andb_false_r in Hi || (intros Hn; rewrite Hn in Hi).
      * exfalso. apply G2. destruct (po_token p) as [[]|]; done.
    + rewrite list_lookup_insert_ne in Hd by done. auto.
  - (* PDrop *) destruct (po_loops p !! c) as [lp|] eqn:Hc; [|done]. destruct (loop_over lp) eqn:Hov; [|done].
    destruct (step cfg (po_sched p) (ADrop c)) as [[s' os']|] eqn:E; [|done]. injection Hs as <- <-.
    assert (os' = []) as ->. { cbn [step] in E. repeat (case_match; try done); by injection E as <- <-. }
    change (po_token p) with (token_after (po_token p) []). eapply serving_tracker; try done.
    + intros Hp HG. cbn [step] in E. destruct (sg_loops _ _ HG c lp Hc) as [X1 X2].
      unfold loop_over in Hov. destruct (lp_state lp) eqn:Es; try done. destruct (lp_calls lp) eqn:Ecs; [|done].
      destruct (X2 eq_refl) as [X|[Y [X|X]]]; [by rewrite X in E|done|]. split; [by left|done].
    + intros Hp HG Ho d lp' Hd. destruct (decide (d = c)) as [->|Hne].
      * rewrite Hc in Hd. injection Hd as <-. destruct (sg_loops _ _ HG c lp Hc) as [X1 X2]. split; [done|]. intros _. left.
        unfold loop_over in Hov. destruct (lp_state lp) eqn:Es; try done. destruct (lp_calls lp) eqn:Ecs; [|done].
        cbn [step] in E. destruct (X2 eq_refl) as [X|[Y [X|X]]]; [by rewrite X in E|done|]. rewrite X in E. injection E as <-.
        by eapply lookup_set_client.
      * eapply ended_frame; [done|simpl; congruence|done|by apply (sg_loops _ _ HG)].
Qed.

Lemma si_start k : SI (pool_start cfg k) [].
Proof.
  intros _. split; simpl; try done.
  - apply live_initial.
  - intros now H. by apply elem_of_nil in H.
  - intros c lp H. apply lookup_repeat in H as [-> _]. by apply ended_other.
Qed.
End live.
