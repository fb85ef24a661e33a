(** Properties of traces that follow from the invariant. *)
From Verif Require Export SchedDrain.

(** ** Induction along dependencies *)
Lemma path_nodes {A} (g : digraph A) u v k : path g u v k ->
  exists l, length l = S k /\ l !! 0 = Some u /\
    (forall i j x y, i < j -> l !! i = Some x -> l !! j = Some y -> reaches g x y) /\
    (graph_wf g -> v < node_count g -> forall x, x ∈ l -> x < node_count g).
Proof.
  induction 1 as [u|u v w k He Hp IH].
  - exists [u]. split; [done|]. split; [done|]. split.
    + intros i j x y Hij Hi Hj. destruct j; [lia|]. done.
    + intros _ Hv x Hx. apply elem_of_list_singleton in Hx as ->. done.
  - destruct IH as (l & Hl & H0 & Hr & Hlt). exists (u :: l). split; [simpl; by rewrite Hl|]. split; [done|]. split.
    + intros [|i] [|j] x y Hij Hi Hj; simpl in *; try lia.
      * injection Hi as <-. destruct j as [|j].
        -- rewrite H0 in Hj. injection Hj as <-. by apply reaches_edge.
        -- eapply reaches_trans; [by apply reaches_edge|]. eapply (Hr 0 (S j)); try done. lia.
      * eapply (Hr i j); try done. lia.
    + intros Hwf Hw x. rewrite elem_of_cons. intros [->|Hx]; [by apply (Hwf u v)|by apply Hlt].
Qed.

Lemma path_bound {A} (g : digraph A) u v k :
  graph_wf g -> acyclic g -> v < node_count g -> path g u v k -> k < node_count g.
Proof.
  intros Hwf Hac Hv Hp. destruct (path_nodes g u v k Hp) as (l & Hl & _ & Hr & Hlt).
  assert (NoDup l) as Hnd.
  { apply NoDup_alt. intros i j x Hi Hj. destruct (Nat.lt_trichotomy i j) as [H|[H|H]]; [|done|].
    - by destruct (Hac x (Hr i j x x H Hi Hj)).
    - by destruct (Hac x (Hr j i x x H Hj Hi)). }
  pose proof (nodup_bound l (node_count g) (Hlt Hwf Hv)) as Hb. rewrite <- occ_nodup in Hb. specialize (Hb Hnd). lia.
Qed.

Lemma acyclic_ind {A} (g : digraph A) (P : nat -> Prop) :
  graph_wf g -> acyclic g ->
  (forall n, n < node_count g -> (forall m, edge g m n -> P m) -> P n) ->
  forall n, n < node_count g -> P n.
Proof.
  intros Hwf Hac HP.
  assert (forall k n, n < node_count g -> (forall m j, path g m n j -> j < k) -> P n) as H.
  { induction k as [|k IH]; intros n Hn Hk.
    - specialize (Hk n 0 (path_nil g n)). lia.
    - apply HP; [done|]. intros m Hm. apply IH; [by apply (Hwf m n)|].
      intros m' j Hj. specialize (Hk m' (S j) (path_snoc g _ _ _ _ Hj Hm)). lia. }
  intros n Hn. apply (H (node_count g)); [done|]. intros m j Hj. by eapply path_bound.
Qed.

Section trace.
Variable cfg : config.
Notation g := (cf_g cfg).

(** ** Which action produces which observation *)
Definition server_obs (o : obs) : Prop :=
  match o with
  | OReady _ | OFinished _ _ _ | OSoft SoftFailures
  | OExit ExitDone | OExit ExitSoft => True
  | _ => False
  end.

Lemma atrq_obs sv ready sv' is os :
  add_to_ready_queue cfg sv ready = Some (sv', is, os) -> os = map OReady ready.
Proof.
  unfold add_to_ready_queue. destruct ready; [intros; by simplify_eq|]. intros H.
  repeat case_match; by simplify_eq.
Qed.

Lemma handle_started_obs sv id h p j now sv' is os :
  handle_started cfg sv id h p j now = Some (sv', is, os) -> os = [OStarted id] /\ is = [].
Proof. unfold handle_started. intros H. repeat case_match; by simplify_eq. Qed.

Lemma handle_finished_obs sv id x v f now sv' is os :
  handle_finished cfg sv id x v f now = Some (sv', is, os) ->
  exists ready tail, os = OFinished id x (elapsed_of sv id now) :: map OReady ready ++ tail /\
    Forall server_obs os /\ Forall neutral tail /\ handed tail = [].
Proof.
  unfold handle_finished. destruct (nodes g !! id); [|done].
  destruct (finished_bookkeeping_2 _ _ _ _) as [[[sv2 is2] os2]|] eqn:E2; [|done].
  destruct (log_finish _ _ _ _ _ _ _); [|done].
  assert (exists ready, os2 = map OReady ready) as [ready ->].
  { unfold finished_bookkeeping_2 in E2. case_match; [case_match; [done|]; simplify_eq; by exists []|].
    case_match; [|done]. case_match. exists l1. by eapply atrq_obs. }
  intros H. injection H as _ _ <-. eexists ready, _. split; [done|].
  assert (Forall server_obs (map OReady ready)) as Hr.
  { apply Forall_forall. intros o Ho. by apply elem_of_list_fmap in Ho as (n & -> & _). }
  assert (forall (b d : bool) (dn : bool), Forall server_obs ((if b then [OSoft SoftFailures] else [])
     ++ (if d then [OExit (if dn then ExitDone else ExitSoft)] else []))) as Ht.
  { intros [] [] []; by repeat constructor. }
  split_and!.
  - constructor; [done|]. apply Forall_app. split; [done|]. apply Ht.
  - repeat case_match; by repeat constructor.
  - repeat case_match; done.
Qed.

Definition obs_origin (s : st) (a : action) (os : list obs) (o : obs) : Prop :=
  match o with
  | OReady _ => (exists order, a = AInit order) \/ (exists now, a = AEvent now)
  | OPushed i n => exists it rest, st_todo s = IPush i it :: rest /\ n = i_id it
  | OHandedOut c i n => a = ACount c /\ os = [o] /\ cf_types cfg !! c = Some i /\
      exists it, st_clients s !! c = Some (CClaimed it) /\ n = i_id it
  | ORecvErr c e => os = [o] /\ match e with
      | NoSuchRunnerType => a = ARecv c /\ exists i, cf_types cfg !! c = Some i /\ st_closed s !! i = None
      | SoftShutdown => a = ARecv c /\ exists i, cf_types cfg !! c = Some i /\ st_closed s !! i = Some true
      | ChannelRecvError => a = ARecvClosed c
      end
  | OSentStarted c n => os = [o] /\ st_clients s !! c = Some (CHolding n)
  | OSentFinished c n x f => os = [o] /\
      (st_clients s !! c = Some (CHolding n) \/ st_clients s !! c = Some (CRunning n)) /\
      exists v, a = ASendFinished c x v f
  | OStarted n => os = [o] /\ exists h p j rest, st_events s = EvStarted n h p j :: rest
  | OFinished n x e => exists v f rest, st_events s = EvFinished n x v f :: rest /\
      exists os', os = o :: os' /\ forall n' x' e', In (OFinished n' x' e') os' -> False
  | ODrainStarted _ | ODrainFinished _ _ => exists order now, a = ADrain order now
  | OSoft SoftTrigger => a = ASoft /\ os = [o]
  | OSoft SoftFailures => exists now, a = AEvent now
  | OCancelToken _ => exists rest now, st_todo s = ICancelToken now :: rest
  | OFlag n f => os = [o] /\ exists rest, st_todo s = ISetFlag n f :: rest
  | OExit (ExitDone | ExitSoft) => exists now, a = AEvent now
  | OExit ExitHard => a = AHardExit
  | OExit ExitCtrlC => a = ACtrlC
  | OPanic => True
  end.

Lemma handle_finished_origin s id x v f rest now sv' is os :
  st_events s = EvFinished id x v f :: rest ->
  handle_finished cfg (st_sv s) id x v f now = Some (sv', is, os) ->
  Forall (obs_origin s (AEvent now) os) os.
Proof.
  intros Ev H. apply handle_finished_obs in H as (ready & tail & -> & Hs & Ht & _).
  constructor.
  - exists v, f, rest. split; [done|]. eexists. split; [done|]. intros n' x' e' Hin.
    apply in_app_or in Hin as [Hin|Hin].
    + by apply in_map_iff in Hin as (? & ? & _).
    + rewrite Forall_forall in Ht. apply elem_of_list_In, Ht in Hin. done.
  - apply Forall_cons in Hs as [_ Hs]. apply Forall_app in Hs as [Hs1 Hs2]. apply Forall_app. split.
    + apply Forall_forall. intros o Ho. apply elem_of_list_fmap in Ho as (n & -> & _). right. by eexists.
    + apply Forall_forall. intros o Ho. rewrite Forall_forall in Hs2, Ht. specialize (Hs2 o Ho). specialize (Ht o Ho).
      destruct o as [| | | | | | | | | |[]| | |[]|]; simpl in *; try done; eauto.
Qed.

Lemma step_origin s a s' os :
  step cfg s a = Some (s', os) -> Forall (obs_origin s a os) os.
Proof.
  intros H. destruct a; cbn [step] in H.
  - destruct (st_phase s); try done. destruct (is_reordering _ _); [|done].
    destruct (add_to_ready_queue _ _ _) as [[[sv is] os']|] eqn:E; injection H as _ <-.
    + apply atrq_obs in E as ->. apply Forall_forall. intros o Ho.
      apply elem_of_list_fmap in Ho as (n & -> & _). left. by eexists.
    + by repeat constructor.
  - destruct (st_phase s); try done; (destruct (st_todo s) as [|i rest] eqn:Et; [done|]); injection H as H.
    all: destruct i; cbn [exec_instr] in H; repeat case_match; try unfold panic in H;
      injection H as _ <-; repeat constructor; simpl; try done; eauto 10.
  - destruct (server_idle s); [|done].
    destruct (st_events s) as [|[id h p j|id x v f] rest] eqn:Ev; [done| |].
    + change (st_sv (set_events s rest)) with (st_sv s) in H.
      destruct (handle_started cfg (st_sv s) id h p j now) as [[[sv is] os']|] eqn:E; cbn [server_result] in H.
      * apply handle_started_obs in E as [-> ->]. injection H as _ <-. repeat constructor. eauto 10.
      * injection H as _ <-. by repeat constructor.
    + change (st_sv (set_events s rest)) with (st_sv s) in H.
      destruct (handle_finished cfg (st_sv s) id x v f now) as [[[sv is] os']|] eqn:E; cbn [server_result] in H.
      * injection H as _ <-. by eapply handle_finished_origin.
      * injection H as _ <-. by repeat constructor.
  - destruct (server_idle s && st_soft_trigger s); [|done]. injection H as _ <-. by repeat constructor.
  - destruct (server_idle s && st_hard s); [|done]. injection H as _ <-. by repeat constructor.
  - destruct (server_idle s); [|done]. injection H as _ <-. by repeat constructor.
  - destruct (st_phase s); try done. destruct (st_todo s); [|done]. destruct (forallb _ _); [|done].
    destruct (drain_events _ _ _ _ _ _) as [[[[sv1 q1] inf] os1]|] eqn:E; [|injection H as _ <-; by repeat constructor].
    destruct (is_reordering _ _) eqn:Hord; [|done].
    unfold drain in H. rewrite E, Hord in H.
    destruct (drain_inflight _ _ _ _ _) as [[[sv2 q2] os2]|] eqn:E2; injection H as _ <-; [|by repeat constructor].
    assert (Forall drain_obs os1) as H1.
    { clear -E. revert E. generalize (st_sv s) (st_qstate s) (sv_inflight (st_sv s)). revert sv1 q1 inf os1.
      induction (st_events s) as [|[id h p j|id x v f] evs IH]; intros sv1 q1 inf os1 sv q inf0 E; cbn [drain_events] in E.
      - injection E as _ _ _ <-. done.
      - repeat case_match; try done. injection E as _ _ _ <-. constructor; [done|]. by eapply IH.
      - repeat case_match; try done. injection E as _ _ _ <-. constructor; [done|]. by eapply IH. }
    assert (Forall drain_obs os2) as H2.
    { clear -E2. revert E2. generalize (with_log_inflight sv1 (sv_log sv1) ∅) q1. revert sv2 q2 os2.
      induction order as [|id order IH]; intros sv2 q2 os2 sv q E; cbn [drain_inflight] in E.
      - injection E as _ _ <-. done.
      - repeat case_match; try done. injection E as _ _ <-. constructor; [done|]. by eapply IH. }
    apply Forall_forall. intros o Ho. rewrite elem_of_app in Ho.
    assert (drain_obs o) as Hd by (rewrite Forall_forall in H1, H2; destruct Ho; auto).
    destruct o; try done; simpl; eauto.
  - repeat case_match; try done; simplify_eq; repeat constructor; simpl; eauto 10.
  - repeat case_match; try done; simplify_eq; repeat constructor; simpl; eauto 10.
  - repeat case_match; try done; simplify_eq; repeat constructor; simpl; eauto 10.
  - repeat case_match; try done; simplify_eq; repeat constructor; simpl; eauto 10.
  - destruct (st_clients s !! c) as [[]|] eqn:Hc; try done. destruct (cf_types cfg !! c) as [i|] eqn:Ht; [|done].
    destruct (hand_out _ _); [|injection H as _ <-; by repeat constructor].
    injection H as _ <-. repeat constructor; simpl; eauto 10.
  - repeat case_match; try done; simplify_eq; repeat constructor; simpl; eauto 10.
  - repeat case_match; try done; simplify_eq; (apply Forall_cons; split; [|apply Forall_nil; done]); simpl; eauto 10.
  - repeat case_match; try done; simplify_eq; repeat constructor; simpl; eauto 10.
  - simplify_eq. constructor.
  - simplify_eq. constructor.
Qed.

(** ** What a successful server step did *)
Lemma ready_records_inv ready : forall l flag l' items,
  ready_records cfg ready l flag = Some (l', items) ->
  map i_id items = ready /\ item_matches cfg flag items.
Proof.
  induction ready as [|n ready IH]; intros l flag l' items H; cbn [ready_records] in H.
  - injection H as <- <-. split; [done|]. intros j it Hj. by rewrite lookup_nil in Hj.
  - destruct (nodes g !! n) as [c|] eqn:Hc; [|done]. destruct (write_ready cfg l c); [|done].
    destruct (ready_records cfg ready l0 (S flag)) as [[l1 its]|] eqn:E; [|done].
    injection H as <- <-. destruct (IH _ _ _ _ E) as [<- Hm]. split; [done|].
    intros [|j] it Hj; simpl in Hj.
    + injection Hj as <-. simpl. split; [lia|]. eauto.
    + apply Hm in Hj as [? ?]. split; [lia|done].
Qed.

Lemma atrq_inv sv ready sv' is os :
  add_to_ready_queue cfg sv ready = Some (sv', is, os) ->
  exists l items,
    sv' = Server (sv_finished_order sv) (sv_n_failed sv) (sv_n_fizzled sv)
              (sv_n_success sv) (sv_n_roi sv + N.of_nat (length ready)) (sv_inflight sv)
              (sv_statuses sv) (sv_soft sv) (sv_open sv) l (sv_next_flag sv + length ready)
              (sv_recent sv) /\
    is = rinstrs items /\ os = map OReady ready /\ map i_id items = ready /\
    item_matches cfg (sv_next_flag sv) items.
Proof.
  destruct ready as [|n ready].
  - intros H. simpl in H. injection H as <- <- <-. exists (sv_log sv), []. simpl.
    rewrite N.add_0_r, Nat.add_0_r. destruct sv. split_and!; try done.
  - unfold add_to_ready_queue. destruct (N.leb U32 _); [done|].
    destruct (ready_records cfg (n :: ready) (sv_log sv) (sv_next_flag sv)) as [[l items]|] eqn:E; [|done].
    destruct (sv_open sv) eqn:Ho; [|done]. intros H. injection H as <- <- <-.
    apply ready_records_inv in E as [Hid Hm]. exists l, items. split_and!; try done.
    assert (length items = length (n :: ready)) as Hl by (by rewrite <- Hid, map_length).
    destruct items as [|it items]; [done|]. simpl in *. injection Hl as ->. done.
Qed.

Lemma handle_finished_inv sv id x v f now sv' is os :
  handle_finished cfg sv id x v f now = Some (sv', is, os) ->
  exists c items ready (over stop : bool),
    let fizz := (if is_fizzle x (elapsed_of sv id now) then sv_n_fizzled sv + 1 else sv_n_fizzled sv)%N in
    let roi := (N.pred (sv_n_roi sv) + N.of_nat (length ready))%N in
    let post := (if over then ICancelToken now :: close_all else [])
                ++ (if stop then close_all ++ IBreak :: zero_all cfg else []) in
    let tail := (if over then [OSoft SoftFailures] else [])
                ++ (if stop then [OExit (if N.eqb roi 0 then ExitDone else ExitSoft)] else []) in
    nodes g !! id = Some c /\
    over = N.leb (cf_allowed cfg) fizz /\
    stop = N.eqb roi 0 || ((over || sv_soft sv) && bool_decide (delete id (sv_inflight sv) = ∅)) /\
    map i_id items = ready /\ item_matches cfg (sv_next_flag sv) items /\
    (sv_soft sv = true -> ready = []) /\
    sv_n_fizzled sv' = fizz /\
    sv_n_failed sv' = (if is_success x then sv_n_failed sv else sv_n_failed sv + 1)%N /\
    sv_n_success sv' = (if is_success x then sv_n_success sv + 1 else sv_n_success sv)%N /\
    sv_n_roi sv' = roi /\ sv_soft sv' = over || sv_soft sv /\
    sv_open sv' = sv_open sv && negb over && negb stop /\
    sv_inflight sv' = delete id (sv_inflight sv) /\
    sv_recent sv' = (match elapsed_of sv id now with
               | Some e => if is_success x then sv_recent sv ++ [e] else sv_recent sv
               | None => sv_recent sv
               end) /\
    is = IDecInflight id (c_affinity c) :: rinstrs items ++
           (match f with Some f => [ISetFlag id f] | None => [] end) ++ post /\
    os = OFinished id x (elapsed_of sv id now) :: map OReady ready ++ tail.
Proof.
  unfold handle_finished. destruct (nodes g !! id) as [c|] eqn:Hc; [|done].
  destruct (finished_bookkeeping_2 _ _ _ _) as [[[sv2 is2] os2]|] eqn:E2; [|done].
  destruct (log_finish _ _ _ _ _ _ _) as [l|]; [|done].
  assert (exists l items ready ss flag,
    sv2 = Server (sv_finished_order sv ++ [id])
              (if is_success x then sv_n_failed sv else sv_n_failed sv + 1)%N
              (if is_fizzle x (elapsed_of sv id now) then sv_n_fizzled sv + 1 else sv_n_fizzled sv)%N
              (if is_success x then sv_n_success sv + 1 else sv_n_success sv)%N
              (N.pred (sv_n_roi sv) + N.of_nat (length ready)) (sv_inflight sv) ss
              (sv_soft sv) (sv_open sv) l flag
              (match elapsed_of sv id now with
               | Some e => if is_success x then sv_recent sv ++ [e] else sv_recent sv
               | None => sv_recent sv
               end) /\
    is2 = rinstrs items /\ os2 = map OReady ready /\ map i_id items = ready /\
    item_matches cfg (sv_next_flag sv) items /\ (sv_soft sv = true -> ready = []))
    as (l2 & items & ready & ss & flag & -> & -> & -> & Hid & Hm & Hsoft).
  { unfold finished_bookkeeping_2 in E2.
    change (sv_soft (finished_bookkeeping_1 (with_finished sv id) id x now)) with (sv_soft sv) in E2.
    change (sv_open (finished_bookkeeping_1 (with_finished sv id) id x now)) with (sv_open sv) in E2.
    destruct (sv_soft sv) eqn:Hs.
    - destruct (sv_open sv) eqn:Ho; [done|]. injection E2 as <- <- <-.
      exists (sv_log sv), [], [], (sv_statuses sv), (sv_next_flag sv).
      unfold finished_bookkeeping_1. simpl. rewrite N.add_0_r, Hs, Ho. split_and!; try done.
    - destruct (visit_downstream _ _ _) as [[ss ready]|]; [|done].
      apply atrq_inv in E2 as (l2 & items & -> & -> & -> & Hid & Hm).
      exists l2, items, ready, ss, (sv_next_flag sv + length ready). simpl. rewrite Hs. split_and!; try done. }
  set (fizz := (if is_fizzle x (elapsed_of sv id now) then sv_n_fizzled sv + 1 else sv_n_fizzled sv)%N).
  set (roi := (N.pred (sv_n_roi sv) + N.of_nat (length ready))%N).
  cbn [with_log_inflight sv_n_fizzled sv_finished_order sv_n_failed sv_n_success sv_n_roi sv_inflight
       sv_statuses sv_soft sv_open sv_log sv_next_flag sv_recent].
  set (over := N.leb (cf_allowed cfg) fizz).
  intros H. exists c, items, ready, over,
    (N.eqb roi 0 || ((over || sv_soft sv) && bool_decide (delete id (sv_inflight sv) = ∅))).
  cbn zeta. fold fizz roi.
  split; [done|]. split; [done|]. split; [done|].
  unfold with_closed, with_log_inflight in H.
  destruct over; cbn [sv_n_fizzled sv_finished_order sv_n_failed sv_n_success sv_n_roi sv_inflight
       sv_statuses sv_soft sv_open sv_log sv_next_flag sv_recent orb] in H |- *;
    (destruct (N.eqb roi 0 || _) eqn:Hst in H; rewrite Hst in *; injection H as <- <- <-;
     split_and!; try done; simpl; by rewrite ?andb_true_r, ?andb_false_r).
Qed.

(** ** Prefixes of executions *)
Lemma trace_split s t1 o t2 :
  reachable cfg s (t1 ++ o :: t2) ->
  exists s0 t0 a s' pre post,
    reachable cfg s0 t0 /\ step cfg s0 a = Some (s', pre ++ o :: post) /\
    t1 = t0 ++ pre /\ reachable cfg s' (t1 ++ o :: post) /\ exists t3, t2 = post ++ t3.
Proof.
  intros H. remember (t1 ++ o :: t2) as t eqn:Ht. revert t1 o t2 Ht. revert s t H.
  apply (reachable_ind' cfg (fun s t => forall t1 o t2, t = t1 ++ o :: t2 -> exists s0 t0 a s' pre post,
    reachable cfg s0 t0 /\ step cfg s0 a = Some (s', pre ++ o :: post) /\
    t1 = t0 ++ pre /\ reachable cfg s' (t1 ++ o :: post) /\ exists t3, t2 = post ++ t3)).
  - intros t1 o t2 H. by destruct t1.
  - intros s t a s' os Hr IH Hs t1 o t2 H.
    apply app_eq_app in H as (k & [[-> Hk]|[-> Hk]]).
    + destruct k as [|o' k].
      * simpl in Hk. subst os. exists s, t1, a, s', [], t2. rewrite app_nil_r in *.
        split_and!; try done; [|exists []; by rewrite app_nil_r]. by eapply reachable_step.
      * simpl in Hk. injection Hk as <- ->. destruct (IH t1 o k eq_refl)
          as (s0 & t0 & a0 & s1 & pre & post & H1 & H2 & H3 & H4 & t3 & ->).
        exists s0, t0, a0, s1, pre, post. split_and!; try done. exists (t3 ++ os).
        by rewrite List.app_assoc.
    + subst os. exists s, t, a, s', k, t2. split_and!; try done; [|exists []; by rewrite app_nil_r].
      rewrite <- List.app_assoc. by eapply reachable_step.
Qed.

End trace.
