(** No deadlock: as long as runners keep going, something can happen until execute() ends. *)
From Verif Require Export SchedLiveSpec SchedOutcome SchedResult.

Section live.
Variable cfg : config.
Notation g := (cf_g cfg).

(** ** Effects of handling an event *)
Lemma atrq_effect sv ready sv' is os : add_to_ready_queue cfg sv ready = Some (sv', is, os) ->
  sv_open sv' = sv_open sv /\ sv_soft sv' = sv_soft sv /\ sv_inflight sv' = sv_inflight sv.
Proof.
  unfold add_to_ready_queue. destruct ready as [|n ready]; [intros [= <- <- <-]; done|].
  destruct (N.leb _ _); [done|]. destruct (ready_records _ _ _ _) as [[l items]|]; [|done].
  destruct (sv_open sv) eqn:E; [|done]. intros [= <- <- <-]. done.
Qed.
(** ** Invariant of schedules that keep going *)
Record Live (s : st) (t : list obs) : Prop := {
  v_soft : sv_soft (st_sv s) = true -> ~ exiting s -> sv_inflight (st_sv s) <> ∅ \/ OSoft SoftTrigger ∈ t;
  v_closed : sv_open (st_sv s) = false -> forall i, i < NUM_RUNNER_TYPES -> st_closed s !! i = Some true \/ IClose i ∈ st_todo s;
  v_clients : forall c x, st_clients s !! c = Some x ->
    match x with
    | CDropped _ _ => False
    | CGone => forall i, cf_types cfg !! c = Some i ->
        NUM_RUNNER_TYPES <= i \/ st_closed s !! i = Some true \/ sv_open (st_sv s) = false
    | _ => True
    end
}.

Lemma close_in i : i < NUM_RUNNER_TYPES -> IClose i ∈ close_all.
Proof. intros H. apply elem_of_list_fmap. exists i. split; [done|]. apply elem_of_seq. lia. Qed.

Local Opaque close_all.
Lemma live_initial : Live (initial cfg) [].
Proof.
  split; try done. simpl. intros c x H. apply list_lookup_fmap_inv in H as (y & -> & _). done.
Qed.

Lemma live_client s t os c x : Live s t -> length (st_closed s) = NUM_RUNNER_TYPES ->
  match x with
  | CDropped _ _ => False
  | CGone => forall i, cf_types cfg !! c = Some i ->
      NUM_RUNNER_TYPES <= i \/ st_closed s !! i = Some true \/ sv_open (st_sv s) = false
  | _ => True
  end -> Live (set_client s c x) (t ++ os).
Proof.
  intros [] _ Hx. split; try done.
  { intros H1 H2. destruct (v_soft0 H1 H2); [by left|right; apply elem_of_app; by left]. }
  simpl. intros d y Hy. destruct (decide (d = c)) as [->|Hne].
  - destruct (decide (c < length (st_clients s))).
    + rewrite list_lookup_insert in Hy by done. by injection Hy as <-.
    + rewrite list_insert_ge in Hy by lia. by apply v_clients0.
  - rewrite list_lookup_insert_ne in Hy by done. by apply v_clients0.
Qed.

Lemma elem_of_leave_break : IBreak ∈ close_all ++ IBreak :: zero_all cfg.
Proof. apply elem_of_app. right. by left. Qed.

(** A runner without a task that leaves once the queues are being closed. *)
Definition harmless_drop (s : st) (a : action) : Prop :=
  match a with
  | ADrop c => (st_clients s !! c = Some CIdle \/ st_clients s !! c = Some CWait) /\ sv_open (st_sv s) = false
  | _ => True
  end.

(** [v_clients] goes on when clients and queues stay and the tracker does not reopen. *)
Lemma live_clients s t s' : Live s t -> st_clients s' = st_clients s -> st_closed s' = st_closed s ->
  (sv_open (st_sv s) = false -> sv_open (st_sv s') = false) ->
  forall c x, st_clients s' !! c = Some x ->
    match x with
    | CDropped _ _ => False
    | CGone => forall i, cf_types cfg !! c = Some i ->
        NUM_RUNNER_TYPES <= i \/ st_closed s' !! i = Some true \/ sv_open (st_sv s') = false
    | _ => True
    end.
Proof.
  intros HL E1 E2 Ho c x Hc. rewrite E1 in Hc. pose proof (v_clients _ _ HL c x Hc) as H. destruct x; try done.
  intros i Hi. rewrite E2. destruct (H i Hi) as [X|[X|X]]; auto.
Qed.

Lemma live_step s t a s' os : Full cfg s t -> Live s t -> harmless_drop s a ->
  step cfg s a = Some (s', os) -> st_phase s' <> PPanicked -> st_phase s' = PDrained \/ Live s' (t ++ os).
Proof.
  intros HF HL Ha Hs Hnp. pose proof HL as HL0. assert (Hmono : forall o, o ∈ t -> o ∈ t ++ os) by (intros; apply elem_of_app; by left). pose proof (inv_a _ _ _ (f_inv _ _ _ HF)) as HA. pose proof (a_nc _ _ _ HA) as Hnc.
  destruct a; cbn [step] in Hs; try done.
  - (* AInit *) destruct (st_phase s) eqn:Hp; try done. destruct (is_reordering _ _); [|done].
    destruct (c_init _ _ _ (inv_c _ _ _ (f_inv _ _ _ HF)) Hp) as (_ & Ht & Hsoft & Hopen).
    destruct (add_to_ready_queue _ _ _) as [[[sv is] os']|] eqn:E; injection Hs as <- <-; [|by destruct Hnp].
    right. apply atrq_effect in E as (E1 & E2 & E3). destruct HL. split; simpl; try done.
    + rewrite E2. simpl. by rewrite Hsoft.
    + rewrite E1. simpl. by rewrite Hopen.
    + apply (live_clients s t (set_todo (set_sv s sv) []) HL0); try done. simpl. by rewrite E1.
  - (* AInstr *) right.
    assert (exists i rest, st_todo s = i :: rest /\ exec_instr (set_todo s rest) i = (s', os)) as (i & rest & Et & Hx).
    { destruct (st_phase s); try done; (destruct (st_todo s) as [|i rest]; [done|]); exists i, rest; split; try done; by injection Hs. }
    clear Hs. destruct HL as [L2 L3 L4].
    assert (B : forall s1, st_sv s1 = st_sv s -> st_closed s1 = st_closed s -> st_clients s1 = st_clients s ->
      st_todo s1 = rest -> (exiting s -> exiting s1) -> (forall j, i <> IClose j) -> Live s1 (t ++ os)).
    { intros s1 B2 B3 B4 B5 B6 B7. split; rewrite ?B2, ?B3, ?B4, ?B5; try done.
      - intros Hsoft He. destruct (L2 Hsoft) as [?|?]; auto.
      - intros Ho j Hj. destruct (L3 Ho j Hj) as [X|X]; [by left|]. right. rewrite Et in X. apply elem_of_cons in X as [X|X]; [|done].
        by destruct (B7 j). }
    assert (X1 : forall s1, i <> IBreak -> st_phase s1 = st_phase s -> st_todo s1 = rest -> exiting s -> exiting s1).
    { intros s1 Hi Hp1 Ht1 [X|X]; [left; congruence|]. right. rewrite Ht1. rewrite Et in X. apply elem_of_cons in X as [X|X]; [|done]. by destruct Hi. }
    destruct i; cbn [exec_instr] in Hx;
      try (injection Hx as <- <-; apply B; try done; [by apply X1]).
    + destruct (N.ltb _ _); injection Hx as <- <-; [by destruct Hnp|]. apply B; try done. by apply X1.
    + destruct (dec_inflight _ _); injection Hx as <- <-; [|by destruct Hnp]. apply B; try done. by apply X1.
    + destruct (st_queues _ !! _); injection Hx as <- <-; [|by destruct Hnp]. apply B; try done. by apply X1.
    + (* IClose *) injection Hx as <- <-. split; simpl; try done.
      * intros Hsoft He. assert (Hne : ~ exiting s). { intros X. apply He. by apply (X1 _ ltac:(done)). }
        destruct (L2 Hsoft Hne); auto.
      * intros Ho j Hj. destruct (decide (i = j)) as [->|Hne].
        -- left. rewrite list_lookup_insert; [done|lia].
        -- destruct (L3 Ho j Hj) as [X|X]; [left; by rewrite list_lookup_insert_ne|]. right.
           rewrite Et in X. apply elem_of_cons in X as [X|X]; [congruence|done].
      * intros c x Hc. specialize (L4 c x Hc). destruct x; try done. intros j Hj. destruct (L4 j Hj) as [X|[X|X]]; [by left| |by right; right]. right. left.
        destruct (decide (i = j)) as [->|Hne]; [|by rewrite list_lookup_insert_ne].
        rewrite list_lookup_insert; [done|]. by apply lookup_lt_Some in X.
    + destruct (st_qstate _ !! _) as [[]|]; injection Hx as <- <-; apply B; try done; by apply X1.
    + injection Hx as <- <-. apply B; try done. intros _. by left.
  - (* AEvent *) right. destruct (server_idle s) eqn:Hi; [|done]. apply server_idle_true in Hi as [Hp Ht].
    destruct (st_events s) as [|[id h p j|id x v f] rest] eqn:Ee; [done| |].
    + destruct (handle_started _ _ _ _ _ _ _) as [[[sv is] os']|] eqn:E; injection Hs as <- <-; [|by destruct Hnp].
      unfold handle_started in E. destruct (nodes g !! id); [|done]. destruct (write_started _ _ _ _ _ _); [|done].
      destruct (sv_inflight _ !! id); [done|]. injection E as <- <- <-. destruct HL. split; simpl; try done.
      * intros _ _. left. apply insert_non_empty.
      * rewrite Ht in v_closed0. done.
    + destruct (handle_finished _ _ _ _ _ _ _) as [[[sv is] os']|] eqn:E; injection Hs as <- <-; [|by destruct Hnp].
      apply handle_finished_inv in E as (c & items & ready & over & stop & Hc & Hover & Hstop & Hid & Hm & Hs0 & Z1 & Z2 & Z3 & Z4 & Z5 & Z6 & Z7 & Z8 & -> & ->).
      cbn [set_events st_sv] in *. destruct HL as [L2 L3 L4]. split; simpl; try done.
      * rewrite Z5, Z7. intros Hsoft He. left. intros X. destruct stop.
        -- apply He. right. simpl. apply elem_of_cons. right. do 3 (apply elem_of_app; right). apply elem_of_leave_break.
        -- symmetry in Hstop. apply orb_false_iff in Hstop as [_ Hstop]. rewrite Hsoft, bool_decide_true in Hstop by done. done.
      * rewrite Z6. intros Ho i Hi. destruct (sv_open (st_sv s)) eqn:Hop.
        -- right. apply elem_of_cons. right. do 2 (apply elem_of_app; right). apply elem_of_app. destruct over.
           ++ left. apply elem_of_cons. right. by apply close_in.
           ++ right. destruct stop; [|done]. apply elem_of_app. left. by apply close_in.
        -- left. destruct (L3 eq_refl i Hi) as [X|X]; [done|]. rewrite Ht in X. by apply elem_of_nil in X.
      * apply (live_clients s t (set_sv s sv) HL0); try done. simpl. rewrite Z6. by intros ->.
  - (* ASoft *) destruct (server_idle s && st_soft_trigger s); [|done]. injection Hs as <- <-. right. destruct HL. split; simpl; try done.
    + intros _ _. right. apply elem_of_app. right. by left.
    + intros _ i Hi. right. apply elem_of_app. left. by apply close_in.
    + apply (live_clients s t (set_sv s (with_closed (st_sv s) true)) HL0); done.
  - (* AHardExit *) destruct (server_idle s && st_hard s); [|done]. injection Hs as <- <-. right. destruct HL. split; simpl; try done.
    + intros _ He. destruct He. right. apply elem_of_leave_break.
    + intros _ i Hi. right. apply elem_of_app. left. by apply close_in.
    + apply (live_clients s t (set_sv s (with_closed (st_sv s) false)) HL0); done.
  - (* ACtrlC *) destruct (server_idle s); [|done]. injection Hs as <- <-. right. destruct HL. split; simpl; try done.
    + intros _ He. destruct He. right. apply elem_of_leave_break.
    + intros _ i Hi. right. apply elem_of_app. left. by apply close_in.
    + apply (live_clients s t (set_sv s (with_closed (st_sv s) false)) HL0); done.
  - (* ADrain *) left. destruct (st_phase s); try done. destruct (st_todo s); [|done]. destruct (forallb _ _); [|done].
    destruct (drain_events _ _ _ _ _ _) as [[[[sv q] inf] os1]|]; [|injection Hs as <- <-; by destruct Hnp].
    destruct (is_reordering _ _); [|done]. destruct (drain _ _ _ _ _ _) as [[[sv2 q2] os2]|]; injection Hs as <- <-; [done|by destruct Hnp].
  - (* ARecv *) right. destruct (st_clients s !! c) as [[]|] eqn:Hc; try done. destruct (cf_types cfg !! c) as [i|] eqn:Hi; [|done].
    destruct (st_closed s !! i) as [[]|] eqn:Hcl; injection Hs as <- <-; apply live_client; try done.
    + intros j Hj. rewrite Hi in Hj. injection Hj as <-. right. by left.
    + intros j Hj. rewrite Hi in Hj. injection Hj as <-. left. apply lookup_ge_None in Hcl. lia.
  - (* APop *) right. destruct (st_clients s !! c) as [[]|] eqn:Hc; try done. destruct (cf_types cfg !! c) as [i|] eqn:Hi; [|done].
    destruct (st_queues s !! i) as [q|]; [|done]. destruct (q !! j) as [it|]; [|done]. destruct (is_max q it); [|done].
    injection Hs as <- <-. apply live_client; try done. by destruct HL.
  - (* ARecvClosed *) right. destruct (st_clients s !! c) as [[]|] eqn:Hc; try done. destruct (cf_types cfg !! c) as [i|] eqn:Hi; [|done].
    destruct (st_queues s !! i) as [[|]|]; try done. destruct (st_closed s !! i) as [[]|] eqn:Hcl; try done.
    injection Hs as <- <-. apply live_client; try done. intros j Hj. rewrite Hi in Hj. injection Hj as <-. right. by left.
  - (* AClaim *) right. destruct (st_clients s !! c) as [[]|] eqn:Hc; try done.
    destruct (decide _); injection Hs as <- <-; apply live_client; try done. by destruct HL.
  - (* ACount *) right. destruct (st_clients s !! c) as [[]|] eqn:Hc; try done. destruct (cf_types cfg !! c) as [i|] eqn:Hi; [|done].
    destruct (hand_out _ _); injection Hs as <- <-; [|by destruct Hnp]. apply live_client; try done. by destruct HL.
  - (* ASendStarted *) right. destruct (st_clients s !! c) as [[]|] eqn:Hc; try done. injection Hs as <- <-.
    apply live_client; try done. by destruct HL.
  - (* ASendFinished *) right. destruct (st_clients s !! c) as [[]|] eqn:Hc; try done; injection Hs as <- <-;
    apply live_client; try done; by destruct HL.
  - (* ADrop *) right. destruct Ha as [[Hc|Hc] Ho]; rewrite Hc in Hs; injection Hs as <- <-;
    (apply live_client; [done|done|]; intros i Hi; right; by right).
  - (* ATriggerSoft *) right. injection Hs as <- <-. destruct HL. split; try done. intros H1 H2. destruct (v_soft0 H1 H2); auto.
  - (* AHardCancel *) right. injection Hs as <- <-. destruct HL. split; try done. intros H1 H2. destruct (v_soft0 H1 H2); auto.
Qed.

(** ** Runs *)
Hypothesis Hok : config_ok cfg.

Lemma live_run acts : forall s t, nobody_drops acts -> run cfg (initial cfg) acts = Some (s, t) ->
  (Full cfg s t /\ Live s t) \/ Done cfg s t.
Proof.
  induction acts as [|a acts IH] using rev_ind; intros s t Hk H.
  - injection H as <- <-. destruct (full_or_done cfg Hok (initial cfg) []) as [HF|HD]; [by exists []| |by right].
    left. split; [done|apply live_initial].
  - assert (Ha : forall s, harmless_drop s a).
    { destruct a; try done. exfalso. apply (Hk c). apply elem_of_app. right. by left. }
    assert (Hk' : nobody_drops acts). { intros c Hc. apply (Hk c). apply elem_of_app. by left. } clear Hk. rename Hk' into Hk.
    assert (Hr : reachable cfg s t) by (by eexists). destruct (full_or_done cfg Hok s t Hr) as [HF|HD]; [|by right].
    apply run_snoc in H as (s1 & t1 & os & H1 & Hs & ->). left. split; [done|].
    pose proof (c_phase _ _ _ (inv_c _ _ _ (f_inv _ _ _ HF))) as [P1 P2].
    destruct (IH _ _ Hk H1) as [[HF1 HL]|HD].
    + by destruct (live_step _ _ _ _ _ HF1 HL (Ha _) Hs P1).
    + exfalso. apply P2. destruct HD as (s0 & t0 & os0 & now0 & order0 & HI & Hp0 & Ht0 & He & -> & Hdr & Hz & Hp & Hc & Hu).
      assert (Hcl : forall c x, st_clients s1 !! c = Some x -> ended x = true).
      { intros c x Hx. rewrite Hc in Hx. by eapply ended_no_client. }
      destruct a; cbn [step] in Hs; rewrite ?Hp in Hs; try done;
        try (unfold server_idle in Hs; rewrite Hp in Hs; done);
        try (destruct (st_clients s1 !! c) as [[]|] eqn:Hx; try done; specialize (Hcl _ _ Hx); done);
      by injection Hs as <- <-.
Qed.

(** Once closed, all queues get closed, in every run. *)
Definition Closing (s : st) : Prop := sv_open (st_sv s) = false ->
  forall i, i < NUM_RUNNER_TYPES -> st_closed s !! i = Some true \/ IClose i ∈ st_todo s.

Lemma closing_step s t a s' os : Full cfg s t -> Closing s ->
  step cfg s a = Some (s', os) -> st_phase s' <> PPanicked -> st_phase s' = PDrained \/ Closing s'.
Proof.
  intros HF HL Hs Hnp. pose proof (inv_a _ _ _ (f_inv _ _ _ HF)) as HA. pose proof (a_nc _ _ _ HA) as Hnc.
  assert (Hall : forall l1 l2 s1, st_todo s1 = l1 ++ close_all ++ l2 -> Closing s1).
  { intros l1 l2 s1 E _ i Hi. right. rewrite E. apply elem_of_app. right. apply elem_of_app. left. by apply close_in. }
  destruct a; cbn [step] in Hs; try done;
    try (right; repeat (case_match; try done); injection Hs as <- <-; exact HL).
  - (* AInit *) destruct (st_phase s) eqn:Hp; try done. destruct (is_reordering _ _); [|done].
    destruct (c_init _ _ _ (inv_c _ _ _ (f_inv _ _ _ HF)) Hp) as (_ & Ht & Hsoft & Hopen).
    destruct (add_to_ready_queue _ _ _) as [[[sv is] os']|] eqn:E; injection Hs as <- <-; [|by destruct Hnp].
    right. apply atrq_effect in E as (E1 & E2 & E3). intros Ho. simpl in Ho. rewrite E1 in Ho. simpl in Ho. congruence.
  - (* AInstr *) right.
    assert (exists i rest, st_todo s = i :: rest /\ exec_instr (set_todo s rest) i = (s', os)) as (i & rest & Et & Hx).
    { destruct (st_phase s); try done; (destruct (st_todo s) as [|i rest]; [done|]); exists i, rest; split; try done; by injection Hs. }
    clear Hs.
    assert (B : forall s1, st_sv s1 = st_sv s -> st_closed s1 = st_closed s ->
      st_todo s1 = rest -> (forall j, i <> IClose j) -> Closing s1).
    { intros s1 B2 B3 B5 B7. unfold Closing. rewrite B2, B3, B5.
      intros Ho j Hj. destruct (HL Ho j Hj) as [X|X]; [by left|]. right. rewrite Et in X. apply elem_of_cons in X as [X|X]; [|done].
      by destruct (B7 j). }
    destruct i; cbn [exec_instr] in Hx; try (injection Hx as <- <-; by apply B);
      try (repeat (case_match; try done); injection Hx as <- <-; by apply B).
    injection Hx as <- <-. intros Ho j Hj. simpl in *. destruct (decide (i = j)) as [->|Hne].
    + left. rewrite list_lookup_insert; [done|lia].
    + destruct (HL Ho j Hj) as [X|X]; [left; by rewrite list_lookup_insert_ne|]. right.
      rewrite Et in X. apply elem_of_cons in X as [X|X]; [congruence|done].
  - (* AEvent *) right. destruct (server_idle s) eqn:Hi; [|done]. apply server_idle_true in Hi as [Hp Ht].
    destruct (st_events s) as [|[id h p j|id x v f] rest] eqn:Ee; [done| |].
    + destruct (handle_started _ _ _ _ _ _ _) as [[[sv is] os']|] eqn:E; injection Hs as <- <-; [|by destruct Hnp].
      unfold handle_started in E. destruct (nodes g !! id); [|done]. destruct (write_started _ _ _ _ _ _); [|done].
      destruct (sv_inflight _ !! id); [done|]. injection E as <- <- <-. unfold Closing in *. rewrite Ht in HL. exact HL.
    + destruct (handle_finished _ _ _ _ _ _ _) as [[[sv is] os']|] eqn:E; injection Hs as <- <-; [|by destruct Hnp].
      apply handle_finished_inv in E as (c & items & ready & over & stop & Hc & Hover & Hstop & Hid & Hm & Hs0 & Z1 & Z2 & Z3 & Z4 & Z5 & Z6 & Z7 & Z8 & -> & ->).
      cbn [set_events st_sv] in *. unfold Closing in *. simpl.
      rewrite Z6. intros Ho i Hi. destruct (sv_open (st_sv s)) eqn:Hop.
      * right. apply elem_of_cons. right. do 2 (apply elem_of_app; right). apply elem_of_app. destruct over.
        -- left. apply elem_of_cons. right. by apply close_in.
        -- right. destruct stop; [|done]. apply elem_of_app. left. by apply close_in.
      * left. destruct (HL eq_refl i Hi) as [X|X]; [done|]. rewrite Ht in X. by apply elem_of_nil in X.
  - destruct (server_idle s && st_soft_trigger s); [|done]. injection Hs as <- <-. right. by apply (Hall [] (zero_all cfg ++ [IUnsetSoft])).
  - destruct (server_idle s && st_hard s); [|done]. injection Hs as <- <-. right. by apply (Hall [] (IBreak :: zero_all cfg)).
  - destruct (server_idle s); [|done]. injection Hs as <- <-. right. by apply (Hall [] (IBreak :: zero_all cfg)).
  - (* ADrain *) left. destruct (st_phase s); try done. destruct (st_todo s); [|done]. destruct (forallb _ _); [|done].
    destruct (drain_events _ _ _ _ _ _) as [[[[sv q] inf] os1]|]; [|injection Hs as <- <-; by destruct Hnp].
    destruct (is_reordering _ _); [|done]. destruct (drain _ _ _ _ _ _) as [[[sv2 q2] os2]|]; injection Hs as <- <-; [done|by destruct Hnp].
Qed.

Lemma closing_reach s t : Full cfg s t -> Closing s.
Proof.
  intros HF. pose proof (f_reach _ _ _ HF) as [acts H]. revert s t HF H. induction acts as [|a acts IH] using rev_ind; intros s t HF H.
  - injection H as <- <-. intros Ho. done.
  - apply run_snoc in H as (s1 & t1 & os & H1 & Hs & ->).
    pose proof (c_phase _ _ _ (inv_c _ _ _ (f_inv _ _ _ HF))) as [P1 P2].
    destruct (full_or_done cfg Hok s1 t1) as [HF1|HD]; [by eexists| |].
    + destruct (closing_step _ _ _ _ _ HF1 (IH _ _ HF1 H1) Hs P1); done.
    + exfalso. apply P2. destruct HD as (s0 & t0 & os0 & now0 & order0 & HI & Hp0 & Ht0 & He & -> & Hdr & Hz & Hp & Hc & Hu).
      assert (Hcl : forall c x, st_clients s1 !! c = Some x -> ended x = true).
      { intros c x Hx. rewrite Hc in Hx. by eapply ended_no_client. }
      destruct a; cbn [step] in Hs; rewrite ?Hp in Hs; try done;
        try (unfold server_idle in Hs; rewrite Hp in Hs; done);
        try (destruct (st_clients s1 !! c) as [[]|] eqn:Hx; try done; specialize (Hcl _ _ Hx); done);
        by injection Hs as <- <-.
Qed.

(** ** Something can happen *)
Definition can (s : st) : Prop := exists a, routine a /\ step cfg s a <> None.

Lemma reordering_refl l : NoDup l -> is_reordering l l = true.
Proof.
  intros H. unfold is_reordering. rewrite bool_decide_true, Nat.eqb_refl by done. simpl. apply forallb_forall.
  intros x Hx. apply existsb_exists. exists x. split; [done|]. apply Nat.eqb_refl.
Qed.

Lemma max_exists (q : list item) : q <> [] -> exists j it, q !! j = Some it /\ is_max q it = true.
Proof.
  induction q as [|x q IH]; [done|]. intros _. destruct q as [|y q].
  - exists 0, x. split; [done|]. simpl. by rewrite N.leb_refl.
  - destruct IH as (j & it & Hj & Hm); [done|]. destruct (N.leb (i_priority x) (i_priority it)) eqn:E.
    + exists (S j), it. split; [done|]. cbn [is_max forallb]. by rewrite E.
    + apply N.leb_gt in E. exists 0, x. split; [done|]. unfold is_max in *. rewrite forallb_forall in *. intros z [<-|Hz].
      * apply N.leb_refl.
      * apply Hm in Hz. apply N.leb_le in Hz. apply N.leb_le. lia.
Qed.

(** A client that is not ended and not waiting on an empty open queue can go on. *)
Lemma client_can s t c x i : Full cfg s t -> st_clients s !! c = Some x -> cf_types cfg !! c = Some i ->
  match x with
  | CGone | CDropped _ _ => False
  | CWait => (exists q, st_queues s !! i = Some q /\ q <> []) \/ st_closed s !! i = Some true
  | _ => True
  end -> can s.
Proof.
  intros HF Hx Hi H. pose proof (inv_a _ _ _ (f_inv _ _ _ HF)) as HA. destruct x; try done.
  - exists (ARecv c). split; [done|]. cbn [step]. rewrite Hx, Hi. by destruct (st_closed s !! i) as [[]|].
  - destruct (st_queues s !! i) as [q|] eqn:Hq.
    + destruct (decide (q = [])) as [->|Hne].
      * destruct H as [(q' & [= <-] & ?)|H]; [done|]. exists (ARecvClosed c). split; [done|]. cbn [step]. by rewrite Hx, Hi, Hq, H.
      * destruct (max_exists q Hne) as (j & it & Hj & Hm). exists (APop c j). split; [done|]. cbn [step]. by rewrite Hx, Hi, Hq, Hj, Hm.
    + exfalso. destruct H as [(q' & ? & ?)|H]; [done|]. apply lookup_ge_None in Hq. apply lookup_lt_Some in H.
      rewrite (a_nq _ _ _ HA) in Hq. rewrite (a_nc _ _ _ HA) in H. lia.
  - exists (AClaim c). split; [done|]. cbn [step]. rewrite Hx. by destruct (decide _).
  - exists (ACount c). split; [done|]. cbn [step]. rewrite Hx, Hi. by destruct (hand_out _ _).
  - exists (ASendFinished c Cancelled [] None). split; [done|]. cbn [step]. by rewrite Hx.
  - exists (ASendFinished c Cancelled [] None). split; [done|]. cbn [step]. by rewrite Hx.
Qed.

Lemma client_type s t c x : Full cfg s t -> st_clients s !! c = Some x -> exists i, cf_types cfg !! c = Some i.
Proof.
  intros HF Hx. apply lookup_lt_Some in Hx. rewrite (a_ncl _ _ _ (inv_a _ _ _ (f_inv _ _ _ HF))) in Hx. by apply lookup_lt_is_Some.
Qed.

Lemma occ_omap_lookup {A} (f : A -> option nat) l n : 0 < occ n (omap f l) -> exists c x, l !! c = Some x /\ f x = Some n.
Proof.
  intros H. apply occ_pos, elem_of_list_omap in H as (x & Hx & Hf). apply elem_of_list_lookup in Hx as [c Hc]. eauto.
Qed.

Lemma progress_exited s t : Full cfg s t -> st_phase s = PExited -> can s.
Proof.
  intros HF Hp. pose proof (inv_a _ _ _ (f_inv _ _ _ HF)) as HA. pose proof (inv_c _ _ _ (f_inv _ _ _ HF)) as HC.
  destruct (st_todo s) as [|i rest] eqn:Et; [|exists AInstr; split; [done|]; cbn [step]; by rewrite Hp, Et].
  assert (Hcl : sv_open (st_sv s) = false) by (apply (c_closed _ _ _ HC); by left).
  destruct (forallb ended (st_clients s)) eqn:Hend.
  - destruct (drain_ok cfg s t 0%N Hok (f_inv _ _ _ HF) Et) as (sv1 & q1 & inf & os1 & Hd & Hall).
    exists (ADrain (map fst (map_to_list inf)) 0). split; [done|]. cbn [step]. rewrite Hp, Et, Hend, Hd.
    rewrite reordering_refl by apply NoDup_fst_map_to_list. by destruct (drain _ _ _ _ _ _) as [[[]]|].
  - assert (exists c x, st_clients s !! c = Some x /\ ended x = false) as (c & x & Hc & Hx).
    { clear - Hend. induction (st_clients s) as [|y l IH]; [done|]. simpl in Hend. destruct (ended y) eqn:E.
      - destruct (IH Hend) as (c & x & ? & ?). exists (S c), x. done.
      - exists 0, y. done. }
    destruct (client_type _ _ _ _ HF Hc) as [i Hi]. apply (client_can _ _ _ _ _ HF Hc Hi). destruct x; try done.
    right. destruct (k_type _ _ _ (f_tc _ _ _ HF) c CWait Hc) as (i' & Hi' & Hlt); [done|]. rewrite Hi in Hi'. injection Hi' as <-.
    destruct (closing_reach _ _ HF Hcl i Hlt) as [X|X]; [done|]. rewrite Et in X. by apply elem_of_nil in X.
Qed.

(** With the hard token cancelled the loop can always be left. *)
Lemma progress_hard s t : Full cfg s t -> st_hard s = true -> exists a, (routine a \/ a = AHardExit) /\ step cfg s a <> None.
Proof.
  intros HF Hh. pose proof (inv_c _ _ _ (f_inv _ _ _ HF)) as HC.
  destruct (c_phase _ _ _ HC) as [P1 P2]. destruct (st_phase s) eqn:Hp; try done.
  - exists (AInit (roots cfg)). split; [by left|]. cbn [step]. rewrite Hp, reordering_refl by apply nodup_roots.
    by destruct (add_to_ready_queue _ _ _) as [[[]]|].
  - destruct (st_todo s) as [|i rest] eqn:Et; [|exists AInstr; split; [by left|]; cbn [step]; by rewrite Hp, Et].
    exists AHardExit. split; [by right|]. cbn [step]. unfold server_idle. by rewrite Hp, Et, Hh.
  - destruct (progress_exited s t HF Hp) as (a & Ha & Hs). exists a. split; [by left|done].
Qed.

Lemma progress s t : Full cfg s t -> Live s t -> 0 < node_count g -> all_served cfg ->
  can s \/ OSoft SoftTrigger ∈ t /\ forall n, n ∈ handed t -> n ∈ finish_order t.
Proof.
  intros HF HL Hpos Hsv. pose proof (inv_a _ _ _ (f_inv _ _ _ HF)) as HA. pose proof (inv_c _ _ _ (f_inv _ _ _ HF)) as HC.
  pose proof (inv_d _ _ _ (f_inv _ _ _ HF)) as HD.
  destruct (c_phase _ _ _ HC) as [P1 P2]. destruct (st_phase s) eqn:Hp; try done.
  - (* PInit *) left. exists (AInit (roots cfg)). split; [done|]. cbn [step]. rewrite Hp, reordering_refl by apply nodup_roots.
    by destruct (add_to_ready_queue _ _ _) as [[[]]|].
  - (* PLoop *)
    destruct (st_todo s) as [|i rest] eqn:Et; [|left; exists AInstr; split; [done|]; cbn [step]; by rewrite Hp, Et].
    assert (Hidle : server_idle s = true) by (unfold server_idle; by rewrite Hp, Et).
    destruct (st_events s) as [|e rest] eqn:Ee; [|left; exists (AEvent 0); split; [done|]; cbn [step]; rewrite Hidle, Ee; by destruct e].
    assert (Hx : ~ exiting s). { intros [X|X]; [congruence|]. rewrite Et in X. by apply elem_of_nil in X. }
    assert (Hnfe : forall n, nfe s n = 0) by (intros; unfold nfe; by rewrite Ee).
    assert (Hdrop : forall c n b, st_clients s !! c <> Some (CDropped n b)).
    { intros c n b X. by apply (v_clients _ _ HL) in X. }
    assert (Hhold : forall n, 0 < nhold s n + nrun s n -> can s).
    { intros n Hn. assert (0 < nhold s n \/ 0 < nrun s n) as [H|H] by lia; apply occ_omap_lookup in H as (c & x & Hc & Hf);
        destruct (client_type _ _ _ _ HF Hc) as [i Hi]; apply (client_can _ _ _ _ _ HF Hc Hi); destruct x; try done;
        by destruct (Hdrop _ _ _ Hc). }
    destruct (sv_soft (st_sv s)) eqn:Hsoft.
    + destruct (v_soft _ _ HL Hsoft Hx) as [Hinf|Htr].
      * left. apply map_choose in Hinf as (n & y & Hn).
        pose proof (a_se _ _ _ HA n) as H. rewrite Hnfe in H. unfold ninf in H. rewrite decide_True in H by (rewrite Hn; eauto).
        apply (Hhold n). lia.
      * destruct (decide (Forall (fun n => n ∈ finish_order t) (handed t))) as [Hall|Hall].
        -- right. split; [done|]. by rewrite Forall_forall in Hall.
        -- left. apply not_Forall_Exists, Exists_exists in Hall as (n & H1 & H2); [|intros ?; apply elem_of_list_dec].
           apply (Hhold n). pose proof (a_own _ _ _ HA n) as H. pose proof (a_hd _ _ _ HA n) as H'. rewrite Hnfe in H.
           apply occ_pos in H1. apply occ_zero in H2. lia.
    + left. assert (Hopen : sv_open (st_sv s) = true) by (rewrite (c_open _ _ _ HC Hx), Hsoft; done).
      assert (exists n, n ∈ readied t /\ n ∉ finish_order t) as (n & Hr & Hnf).
      { destruct (decide (Forall (fun n => n ∈ finish_order t) (readied t))) as [Hall|Hall].
        - exfalso. rewrite Forall_forall in Hall. by apply (c06_ends cfg Hok s t (f_reach _ _ _ HF) Hp Et Hpos).
        - apply not_Forall_Exists, Exists_exists in Hall as (n & H1 & H2); [|intros ?; apply elem_of_list_dec]. eauto. }
      apply elem_of_list_lookup in Hr as Hf. destruct Hf as [f Hf].
      destruct (decide (f ∈ st_taken s)) as [Htk|Htk].
      * apply (Hhold n). pose proof (a_own _ _ _ HA n) as H. rewrite Hnfe in H. apply occ_zero in Hnf.
        unfold tk in H. assert (tkb (st_taken s) (readied t) n = true) as E by (apply tkb_true; eauto). rewrite E in H. simpl in H. lia.
      * destruct (Hsv n) as (c & i & Hi & Hlt & Hb); [by apply (a_lt _ _ _ HA)|].
        destruct (p_push _ _ _ (f_tp _ _ _ HF) n i Hr Hlt Hb) as [Hpu|(it & X & _)]; [|rewrite Et in X; by apply elem_of_nil in X].
        destruct (p_offered _ _ _ (f_tp _ _ _ HF) f n i Hf Htk Hpu) as (it & Hif & Hin & [(q & Hq & Hit)|(c' & Hc' & Hi')]).
        -- assert (c < length (st_clients s)) as Hcl by (rewrite (a_ncl _ _ _ HA); by eapply lookup_lt_Some).
           apply lookup_lt_is_Some in Hcl as [x Hc]. apply (client_can _ _ _ _ _ HF Hc Hi). destruct x; try done.
           ++ left. exists q. split; [done|]. intros ->. by apply elem_of_nil in Hit.
           ++ destruct (v_clients _ _ HL _ _ Hc i Hi) as [X|[X|X]]; [unfold NUM_RUNNER_TYPES in X; lia| |congruence].
              destruct (d_close _ _ _ HD Hopen) as [_ Y]. by apply Y in X.
           ++ by destruct (Hdrop _ _ _ Hc).
        -- by apply (client_can _ _ _ _ _ HF Hc' Hi').
  - left. by apply (progress_exited s t).
Qed.
End live.
