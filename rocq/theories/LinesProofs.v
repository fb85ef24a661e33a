(** What execute() prints, from the observations. *)
From Verif Require Export LinesSpec SchedResult SchedBound LocProofs.
Open Scope list_scope.

Lemma reports_app t1 t2 : reports (t1 ++ t2) = reports t1 ++ reports t2.
Proof. apply omap_app'. Qed.

Lemma reports_one t o y : finish_report o = Some y -> reports (t ++ [o]) = reports t ++ [y].
Proof. intros H. rewrite reports_app. f_equal. unfold reports. cbn. by rewrite H. Qed.

Section lines.
Variable cfg : config.
Hypothesis Hok : config_ok cfg.
Notation g := (cf_g cfg).

(** A task in flight was started. *)
Lemma atrq_inflight sv ready sv' is os : add_to_ready_queue cfg sv ready = Some (sv', is, os) -> sv_inflight sv' = sv_inflight sv.
Proof. unfold add_to_ready_queue. intros H. repeat case_match; by simplify_eq. Qed.
Lemma drain_inflight_inf order : forall sv q now sv' q' os, drain_inflight cfg order sv q now = Some (sv', q', os) -> sv_inflight sv' = sv_inflight sv.
Proof.
  induction order as [|id order IH]; intros sv q now sv' q' os H; cbn [drain_inflight] in H; [by injection H as <- _ _|].
  repeat case_match; try done. simplify_eq. by erewrite IH by done.
Qed.
Lemma inflight_started s t : reachable cfg s t -> forall n x, sv_inflight (st_sv s) !! n = Some x -> In (OStarted n) t.
Proof.
  revert s t. apply (reachable_ind' cfg (fun s t => forall n x, sv_inflight (st_sv s) !! n = Some x -> In (OStarted n) t)); [by intros n x|]. intros s t a s' os Hr IH H n x Hn. apply in_or_app.
  assert (Hkeep : sv_inflight (st_sv s') = sv_inflight (st_sv s) -> In (OStarted n) t \/ In (OStarted n) os).
  { intros E. left. rewrite E in Hn. by eapply IH. }
  destruct a; cbn [step] in H.
  - destruct (st_phase s); try done. destruct (is_reordering _ _); [|done].
    destruct (add_to_ready_queue _ _ _) as [[[sv is] os']|] eqn:E; injection H as <- <-; apply Hkeep; [|done].
    simpl. by apply atrq_inflight in E.
  - destruct (st_phase s); try done; (destruct (st_todo s) as [|i rest]; [done|]); injection H as H;
    destruct i; cbn [exec_instr] in H; repeat case_match; try unfold panic in H; injection H as <- <-; by apply Hkeep.
  - destruct (server_idle s); [|done]. destruct (st_events s) as [|[id h p j|id y v f] rest]; [done| |];
    change (st_sv (set_events s rest)) with (st_sv s) in H.
    + destruct (handle_started _ _ _ _ _ _ _) as [[[sv is] os']|] eqn:E; cbn [server_result] in H; injection H as <- <-; [|by apply Hkeep].
      unfold handle_started in E. repeat case_match; try done. simplify_eq. cbn in Hn. destruct (decide (n = id)) as [->|Hne]; [by right; left|].
      rewrite lookup_insert_ne in Hn by done. left. by eapply IH.
    + destruct (handle_finished _ _ _ _ _ _ _) as [[[sv is] os']|] eqn:E; cbn [server_result] in H; injection H as <- <-; [|by apply Hkeep].
      apply handle_finished_inv in E as (c & items & ready & over & stop & E). cbn zeta in E. destruct E as (_ & _ & _ & _ & _ & _ & _ & _ & _ & _ & _ & _ & Hi & _).
      cbn in Hn. rewrite Hi in Hn. apply lookup_delete_Some in Hn as [_ Hn]. left. by eapply IH.
  - destruct (server_idle s && st_soft_trigger s); [|done]. injection H as <- <-. by apply Hkeep.
  - destruct (server_idle s && st_hard s); [|done]. injection H as <- <-. by apply Hkeep.
  - destruct (server_idle s); [|done]. injection H as <- <-. by apply Hkeep.
  - destruct (st_phase s); try done. destruct (st_todo s); [|done]. destruct (forallb _ _); [|done].
    destruct (drain_events _ _ _ _ _ _) as [[[[sv1 q1] inf] os1]|] eqn:E; [|injection H as <- <-; by apply Hkeep].
    destruct (is_reordering _ _) eqn:Hord; [|done].
    destruct (drain _ _ _ _ _ _) as [[[sv2 q2] os2]|] eqn:E2; injection H as <- <-; [|by apply Hkeep].
    apply drain_split in E2 as (sv3 & q3 & inf3 & os3 & E3 & _ & E4 & _). apply drain_inflight_inf in E4. cbn in Hn. rewrite E4 in Hn. cbn [with_log_inflight sv_inflight] in Hn. by apply lookup_empty_Some in Hn.
  - repeat case_match; try done; injection H as <- <-; by apply Hkeep.
  - repeat case_match; try done; injection H as <- <-; by apply Hkeep.
  - repeat case_match; try done; injection H as <- <-; by apply Hkeep.
  - repeat case_match; try done; injection H as <- <-; by apply Hkeep.
  - repeat case_match; try done; injection H as <- <-; by apply Hkeep.
  - repeat case_match; try done; injection H as <- <-; by apply Hkeep.
  - repeat case_match; try done; injection H as <- <-; by apply Hkeep.
  - repeat case_match; try done; injection H as <- <-; by apply Hkeep.
  - injection H as <- <-. by apply Hkeep.
  - injection H as <- <-. by apply Hkeep.
Qed.

(** Each task is reported at most once. *)
Lemma reports_loop t : (forall o, o ∈ t -> ~ drain_obs o) -> map fst (reports t) = finish_order t.
Proof.
  induction t as [|o t IH]; intros H; [done|]. assert (IH' : map fst (reports t) = finish_order t) by (apply IH; intros o' Ho; apply H; by right).
  specialize (H o ltac:(by left)). destruct o; try exact IH'; [|by destruct H]. cbn. f_equal. exact IH'.
Qed.
Lemma reports_drain os : Forall drain_obs os -> map fst (reports os) = drained os.
Proof. induction 1 as [|o os Ho _ IH]; [done|]. destruct o; try done. cbn. f_equal. exact IH. Qed.
Lemma reports_nodup s t : reachable cfg s t -> NoDup (map fst (reports t)) /\ forall n, n ∈ map fst (reports t) -> n < node_count g.
Proof.
  intros Hr. destruct (full_or_done cfg Hok s t Hr) as [HF|HD].
  - rewrite (reports_loop t (s_nodrain _ _ _ (f_ts _ _ _ HF))). split; [by eapply nodup_finish|]. intros n. by eapply finish_lt.
  - destruct HD as (s0 & t0 & os & now & order & HF & Hp0 & Ht0 & He & -> & Hdr & Hz & _).
    rewrite reports_app, map_app, (reports_loop t0 (s_nodrain _ _ _ (f_ts _ _ _ HF))), (reports_drain os (z_obs _ _ _ _ _ _ Hz)).
    pose proof (z_nodup _ _ _ _ _ _ Hz) as Hn. pose proof (nodup_handed cfg Hok s0 t0 HF) as Hh.
    split.
    + apply occ_nodup. intros n. specialize (Hn n). pose proof (proj1 (occ_nodup (handed t0)) (nodup_handed cfg Hok s0 t0 HF) n). lia.
    + intros n Hin. apply occ_pos in Hin. specialize (Hn n). assert (n ∈ handed t0) as Hx by (apply occ_pos; lia).
      apply (handed_readied cfg s0 t0 n HF) in Hx. by apply (a_lt _ _ _ (inv_a _ _ _ (f_inv _ _ _ HF))).
Qed.
Lemma reports_le s t : reachable cfg s t -> length (reports t) <= node_count g.
Proof.
  intros Hr. destruct (reports_nodup s t Hr) as [Hn Hl]. rewrite <- (map_length fst). rewrite <- (seq_length (node_count g) 0).
  apply NoDup_incl_length; [by apply NoDup_ListNoDup|]. intros n Hin. apply in_seq. split; [lia|]. apply Hl. by apply elem_of_list_In.
Qed.

Variable offset : N.
Variable outs : nat -> string * string.
Hypothesis Hoff : (offset + N.of_nat (node_count g) < U32)%N.
Notation shows := (shows cfg offset outs).

Lemma shows_others t c os : shows t c -> Forall (fun o => finish_report o = None) os -> shows (t ++ os) c.
Proof.
  intros Hs. induction os as [|o os IH] using rev_ind; intros H; [by rewrite app_nil_r|]. apply Forall_app in H as [H1 H2]. rewrite List.app_assoc. inversion_clear H2.
  constructor; [by apply IH|done].
Qed.
Lemma existsb_soft t : existsb is_soft t = true <-> soft_begun t.
Proof.
  rewrite existsb_exists. split; [intros (o & Hin & Ho); destruct o; try done; by eexists|]. intros [x Hx]. by exists (OSoft x).
Qed.
Lemma not_soft t : existsb is_soft t = false -> ~ soft_begun t.
Proof. intros H Hs%existsb_soft. congruence. Qed.

Definition tied (sv : server) (t : list obs) : Prop :=
  (sv_n_success sv + sv_n_failed sv)%N = N.of_nat (length (reports t)) /\ sv_soft sv = existsb is_soft t /\ length (sv_statuses sv) = node_count g.

(** One report. *)
Lemma outputs_eq out : outputs out = outputs_of out.
Proof. unfold outputs, outputs_of. cbn [List.filter]. by destruct (String.eqb (fst out) ""), (String.eqb (snd out) ""). Qed.
Lemma shows_report sv t c id x now out o :
  shows t c -> tied sv t -> id < node_count g -> length (reports t) < node_count g ->
  finish_report o = Some (id, x) ->
  (match o with OFinished _ _ e => e = elapsed_of sv id now | _ => forall y, sv_inflight sv !! id = Some y -> In (OStarted id) t end) ->
  out = outs id \/ out = (""%string, ""%string) /\ o = ODrainFinished id Disconnected ->
  shows (t ++ [o]) (c ++ report cfg offset sv id x now out).
Proof.
  intros Hs (Hnum & Hsoft & Hlen) Hid Hle Ho Hel Hout. unfold report. rewrite outputs_eq. destruct (lookup_lt_is_Some_2 (nodes g) id Hid) as [cm Hcm]. rewrite Hcm.
  assert (Htext : display cm = task_text cfg id) by (unfold task_text; by rewrite Hcm).
  assert (Hkey : c_key cm = task_key cfg id) by (unfold task_key; by rewrite Hcm).
  assert (Hrc : c_runcount cm = task_runcount cfg id) by (unfold task_runcount; by rewrite Hcm).
  destruct (is_success x) eqn:Ex.
  - assert (x = Code 0) as -> by (by destruct x as [[]| |]).
    assert (Hout' : out = outs id). { destruct Hout as [|[_ ->]]; [done|]. done. } subst out.
    assert (Hk : ((sv_n_success sv + 1 + sv_n_failed sv + offset) mod U32)%N = (offset + N.of_nat (length (reports t)) + 1)%N).
    { rewrite N.mod_small by (unfold U32 in *; lia). lia. }
    assert (Hn : ((N.of_nat (length (sv_statuses sv)) + offset) mod U32)%N = (offset + N.of_nat (length (nodes g)))%N).
    { unfold node_count in *. rewrite N.mod_small by (unfold U32 in *; lia). lia. }
    rewrite Hk, Hn, Htext. cbn [app]. destruct (sv_soft sv) eqn:Es.
    + apply shows_success_soft; [done|done|]. by apply existsb_soft.
    + apply shows_success; [done|done|]. by apply not_soft.
  - assert (x <> Code 0) as Hx by (intros ->; done). destruct (sv_soft sv) eqn:Es.
    + cbn [app]. rewrite app_nil_r. eapply shows_failure_soft; [done|done|done|]. by apply existsb_soft.
    + rewrite Hkey, Hrc, Htext. cbn [app]. eapply shows_failure; [done|done|done|by apply not_soft| |].
      * destruct o as [| | | | | | |n y e| |n y| | | | |]; try done; injection Ho as -> ->.
        -- destruct x as [z| |]; try done. rewrite Hel. cbn [label_of fail_description]. by rewrite fizzle_is_fizzle.
        -- destruct x as [z| |]; try done. cbn [label_of fail_description]. unfold is_fizzle, elapsed_of. rewrite Ex. cbn [negb andb].
           destruct (sv_inflight sv !! id) as [y|] eqn:Ei; [|by left]. cbn [option_map]. destruct (N.ltb _ _); [|by left]. right. split; [done|]. by eapply Hel.
      * destruct Hout as [-> |[-> ->]]; [by left|]. right. split; [done|]. by injection Ho as <-.
Qed.

Lemma tied_report sv t id x now o : tied sv t -> finish_report o = Some (id, x) -> tied (finished_bookkeeping_1 sv id x now) (t ++ [o]).
Proof.
  intros (H1 & H2 & H3) Ho. unfold tied. rewrite (reports_one _ _ _ Ho), app_length, existsb_app. cbn [length existsb].
  split; [|split; [|done]].
  - cbn [finished_bookkeeping_1 sv_n_success sv_n_failed]. destruct (is_success x); lia.
  - cbn [finished_bookkeeping_1 sv_soft]. rewrite H2. destruct o; try done; cbn; by rewrite orb_false_r.
Qed.

Lemma drain_events_shows evs : forall sv q inf now sv' q' inf' os t c,
  drain_events cfg evs sv q inf now = Some (sv', q', inf', os) -> shows t c -> tied sv t ->
  (forall n y, sv_inflight sv !! n = Some y -> In (OStarted n) t) -> length (reports (t ++ os)) <= node_count g ->
  shows (t ++ os) (c ++ drain_events_lines cfg offset outs evs sv now) /\ tied (after_drain_events evs sv now) (t ++ os) /\
  tied sv' (t ++ os).
Proof.
  induction evs as [|[id h p j|id x v f] evs IH]; intros sv q inf now sv' q' inf' os t c H Hs Ht Hi Hle; cbn [drain_events] in H.
  - injection H as <- _ _ <-. cbn. by rewrite !app_nil_r.
  - destruct (nodes g !! id); [|done]. destruct (write_started _ _ _ _ _ _) as [l|] eqn:Ew; [|done].
    destruct (inf !! id); [done|]. destruct (drain_events _ _ _ _ _ _) as [[[[sv1 q1] inf1] os1]|] eqn:Ed; [|done].
    injection H as <- _ _ <-. cbn [drain_events_lines after_drain_events].
    change (ODrainStarted id :: os1) with ([ODrainStarted id] ++ os1) in *. rewrite List.app_assoc in *.
    assert (Ht' : tied (with_log_inflight sv l (sv_inflight sv)) (t ++ [ODrainStarted id])).
    { destruct Ht as (H1 & H2 & H3). unfold tied. rewrite reports_app, existsb_app. cbn. rewrite app_nil_r, orb_false_r. done. }
    assert (Ht'' : tied sv (t ++ [ODrainStarted id])) by exact Ht'.
    destruct (IH _ _ _ _ _ _ _ _ (t ++ [ODrainStarted id]) c Ed) as (A & B & C); [by constructor|done| |done|].
    { intros n y Hn. apply in_or_app. left. by eapply Hi. }
    assert (Hsame : forall evs sv l' i', sv_inflight sv = i' -> drain_events_lines cfg offset outs evs (with_log_inflight sv l' i') now = drain_events_lines cfg offset outs evs sv now /\
      forall t, tied (after_drain_events evs (with_log_inflight sv l' i') now) t -> tied (after_drain_events evs sv now) t).
    { clear. induction evs as [|[id h p j|id x v f] evs IH]; intros sv l' i' E; cbn [drain_events_lines after_drain_events]; [done|by apply IH|].
      destruct (IH (finished_bookkeeping_1 sv id x now) l' i' E) as [I1 I2].
      change (finished_bookkeeping_1 (with_log_inflight sv l' i') id x now) with
        (Server (sv_finished_order sv) (if is_success x then sv_n_failed sv else sv_n_failed sv + 1)%N
          (if is_fizzle x (elapsed_of (with_log_inflight sv l' i') id now) then sv_n_fizzled sv + 1 else sv_n_fizzled sv)%N
          (if is_success x then sv_n_success sv + 1 else sv_n_success sv)%N (N.pred (sv_n_roi sv)) i' (sv_statuses sv) (sv_soft sv) (sv_open sv) l' (sv_next_flag sv)
          (match elapsed_of (with_log_inflight sv l' i') id now with Some e => if is_success x then sv_recent sv ++ [e] else sv_recent sv | None => sv_recent sv end)).
      assert (Ee : elapsed_of (with_log_inflight sv l' i') id now = elapsed_of sv id now) by (unfold elapsed_of; cbn [with_log_inflight sv_inflight]; by rewrite E).
      rewrite Ee. split; [|exact I2]. f_equal; [|exact I1]. unfold report. rewrite Ee. done. }
    destruct (Hsame evs sv l (sv_inflight sv) eq_refl) as [E1 E2]. rewrite E1 in A. split; [done|]. split; [by apply E2|done].
  - destruct (nodes g !! id) as [cm|] eqn:Ecm; [|done]. destruct (dec_inflight _ _) as [qq|]; [|done].
    destruct (log_finish _ _ _ _ _ _ _) as [l|] eqn:Ew; [|done].
    destruct (drain_events _ _ _ _ _ _) as [[[[sv1 q1] inf1] os1]|] eqn:Ed; [|done].
    injection H as <- _ _ <-. cbn [drain_events_lines after_drain_events].
    change (ODrainFinished id x :: os1) with ([ODrainFinished id x] ++ os1) in *. rewrite (List.app_assoc t), (List.app_assoc c) in *.
    assert (Hone : length (reports t) < node_count g).
    { rewrite !reports_app, !app_length in Hle. cbn [reports omap list_omap finish_report length] in Hle. change (length (reports [ODrainFinished id x])) with 1 in Hle. lia. }
    assert (Hs1 : shows (t ++ [ODrainFinished id x]) (c ++ report cfg offset sv id x now (outs id))).
    { eapply shows_report; [done|done|by eapply lookup_lt_Some|done|done| |by left]. intros y. apply Hi. }
    assert (Ht1 : tied (finished_bookkeeping_1 sv id x now) (t ++ [ODrainFinished id x])) by (by apply tied_report).
    destruct (IH _ _ _ _ _ _ _ _ _ _ Ed Hs1) as (A & B & C); [done| |done|].
    { intros n y Hn. apply in_or_app. left. by eapply Hi. }
    assert (Hsame : forall evs sv l', drain_events_lines cfg offset outs evs (with_log_inflight sv l' (sv_inflight sv)) now = drain_events_lines cfg offset outs evs sv now /\
      forall t, tied (after_drain_events evs (with_log_inflight sv l' (sv_inflight sv)) now) t -> tied (after_drain_events evs sv now) t).
    { clear. intros evs. induction evs as [|[id h p j|id x v f] evs IH]; intros sv l'; cbn [drain_events_lines after_drain_events]; [done|by apply IH|].
      destruct (IH (finished_bookkeeping_1 sv id x now) l') as [I1 I2]. split; [|exact I2]. f_equal. exact I1. }
    destruct (Hsame evs (finished_bookkeeping_1 sv id x now) l) as [E1 E2]. rewrite E1 in A. split; [done|]. split; [by apply E2|done].
Qed.

Lemma drain_inflight_shows order : forall sv now t c, shows t c -> tied sv t -> sv_inflight sv = ∅ -> (forall n, n ∈ order -> n < node_count g) ->
  length (reports (t ++ map (fun n => ODrainFinished n Disconnected) order)) <= node_count g ->
  shows (t ++ map (fun n => ODrainFinished n Disconnected) order) (c ++ drain_inflight_lines cfg offset order sv now).
Proof.
  induction order as [|id order IH]; intros sv now t c Hs Ht Hi Hlt Hle; cbn [drain_inflight_lines map]; [by rewrite !app_nil_r|].
  change (ODrainFinished id Disconnected :: ?l) with ([ODrainFinished id Disconnected] ++ l) in *. cbn [map] in Hle.
  change (ODrainFinished id Disconnected :: map (fun n => ODrainFinished n Disconnected) order) with ([ODrainFinished id Disconnected] ++ map (fun n => ODrainFinished n Disconnected) order) in *.
  rewrite (List.app_assoc t), (List.app_assoc c) in *. apply IH; [|by apply tied_report|done|intros n Hn; apply Hlt; by right|done].
  eapply shows_report; [done|done|apply Hlt; by left| |done| |by right].
  - rewrite !reports_app, !app_length in Hle. change (length (reports [ODrainFinished id Disconnected])) with 1 in Hle. lia.
  - intros y. rewrite Hi. by rewrite lookup_empty.
Qed.

Lemma lines_run_snoc acts : forall s a s' t c, lines_run cfg offset outs s (acts ++ [a]) = Some (s', t, c) ->
  exists s1 t1 c1 os, lines_run cfg offset outs s acts = Some (s1, t1, c1) /\ step cfg s1 a = Some (s', os) /\ t = t1 ++ os /\ c = c1 ++ lines cfg offset outs s1 a.
Proof.
  induction acts as [|b acts IH]; intros s a s' t c H; cbn [app lines_run] in H.
  - destruct (step cfg s a) as [[s1 os]|] eqn:E; [|done]. injection H as <- <- <-. exists s, [], [], os. rewrite !app_nil_r. done.
  - destruct (step cfg s b) as [[s1 os]|] eqn:E; [|done]. destruct (lines_run cfg offset outs s1 (acts ++ [a])) as [[[s2 t2] c2]|] eqn:E2; [|done]. injection H as <- <- <-.
    destruct (IH _ _ _ _ _ E2) as (s3 & t3 & c3 & os3 & H1 & H2 & -> & ->). exists s3, (os ++ t3), (lines cfg offset outs s b ++ c3), os3. cbn [lines_run]. rewrite E, H1. by rewrite !List.app_assoc.
Qed.
Lemma lines_run_run acts : forall s s' t c, lines_run cfg offset outs s acts = Some (s', t, c) -> run cfg s acts = Some (s', t).
Proof.
  induction acts as [|b acts IH]; intros s s' t c H; cbn [lines_run run] in *; [by injection H as <- <- _|].
  destruct (step cfg s b) as [[s1 os]|]; [|done]. destruct (lines_run cfg offset outs s1 acts) as [[[s2 t2] c2]|] eqn:E; [|done]. injection H as <- <- <-. by rewrite (IH _ _ _ _ E).
Qed.
Lemma run_lines_run acts : forall s s' t, run cfg s acts = Some (s', t) -> exists c, lines_run cfg offset outs s acts = Some (s', t, c).
Proof.
  induction acts as [|b acts IH]; intros s s' t H; cbn [lines_run run] in *; [injection H as <- <-; by eexists|].
  destruct (step cfg s b) as [[s1 os]|]; [|done]. destruct (run cfg s1 acts) as [[s2 t2]|] eqn:E; [|done]. injection H as <- <-. destruct (IH _ _ _ E) as [c ->]. by eexists.
Qed.

Lemma full_tied s t : Full cfg s t -> tied (st_sv s) t.
Proof.
  intros HF. pose proof (f_ts _ _ _ HF) as HT. split; [|split; [apply (s_soft _ _ _ HT)|apply (c_len _ _ _ (inv_c _ _ _ (f_inv _ _ _ HF)))]].
  rewrite (s_failed _ _ _ HT), (s_succ _ _ _ HT), <- (map_length fst), (reports_loop t (s_nodrain _ _ _ HT)).
  assert (length (good t) + length (bad t) = length (finish_order t)); [|lia].
  clear. induction t as [|o t IH]; [done|]. destruct o; try exact IH. unfold good, bad, finish_order in *. cbn. destruct (is_success _); cbn; lia.
Qed.

Lemma lines_shows acts s t c : lines_run cfg offset outs (initial cfg) acts = Some (s, t, c) -> shows t c.
Proof.
  revert s t c. induction acts as [|a acts IH] using rev_ind; intros s t c H; [injection H as <- <- <-; constructor|].
  pose proof (lines_run_run _ _ _ _ _ H) as Hrun. assert (Hr : reachable cfg s t) by (by eexists).
  apply lines_run_snoc in H as (s1 & t1 & c1 & os & H1 & Hs & -> & ->). pose proof (IH _ _ _ H1) as Hsh. clear IH.
  assert (Hr1 : reachable cfg s1 t1) by (exists acts; by eapply lines_run_run).
  pose proof (reports_le s _ Hr) as Hle. destruct (c08 cfg Hok s _ Hr) as [Hnp _].
  destruct (full_or_done cfg Hok s1 t1 Hr1) as [HF|HD].
  - pose proof (full_tied _ _ HF) as Ht. pose proof (inflight_started s1 t1 Hr1) as Hi.
    assert (Hno : lines cfg offset outs s1 a = [] -> Forall (fun o => finish_report o = None) os -> shows (t1 ++ os) (c1 ++ lines cfg offset outs s1 a)).
    { intros -> Hos. rewrite app_nil_r. by apply shows_others. }
    destruct a; cbn [step] in Hs.
    + destruct (st_phase s1); try done. destruct (is_reordering _ _); [|done].
      destruct (add_to_ready_queue _ _ _) as [[[sv is] os']|] eqn:E; injection Hs as <- <-; (apply Hno; [done|]); [|by repeat constructor].
      apply atrq_obs in E as ->. apply Forall_forall. intros o Ho. by apply elem_of_list_fmap in Ho as (n & -> & _).
    + apply Hno; [done|]. destruct (st_phase s1); try done; (destruct (st_todo s1) as [|i rest]; [done|]); injection Hs as H;
      destruct i; cbn [exec_instr] in H; repeat case_match; try unfold panic in H; injection H as <- <-; by repeat constructor.
    + destruct (server_idle s1); [|done]. destruct (st_events s1) as [|[id h p j|id x v f] rest] eqn:Eev; [done| |];
      change (st_sv (set_events s1 rest)) with (st_sv s1) in Hs; cbn [lines]; rewrite Eev.
      * destruct (handle_started _ _ _ _ _ _ _) as [[[sv is] os']|] eqn:E; cbn [server_result] in Hs; injection Hs as <- <-; cbn [lines] in Hno; rewrite Eev in Hno; (apply Hno; [done|]); [|by repeat constructor].
        apply handle_started_obs in E as [-> _]. by repeat constructor.
      * destruct (handle_finished _ _ _ _ _ _ _) as [[[sv is] os']|] eqn:E; cbn [server_result] in Hs; injection Hs as <- <-; [|destruct Hnp; apply in_or_app; right; by left].
        apply handle_finished_inv in E as (cm & items & ready & over & stop & E). cbn zeta in E. destruct E as (Hc & _ & _ & _ & _ & _ & _ & _ & _ & _ & _ & _ & _ & _ & _ & ->).
        rewrite cons_middle, List.app_assoc. apply shows_others.
        -- eapply shows_report; [done|done|by eapply lookup_lt_Some| |done|done|by left].
           rewrite cons_middle, List.app_assoc, reports_app in Hle. erewrite (reports_one t1) in Hle by reflexivity. rewrite !app_length in Hle. cbn [length] in Hle. lia.
        -- apply Forall_app. split; [apply Forall_forall; intros o Ho; by apply elem_of_list_fmap in Ho as (n & -> & _)|]. destruct over, stop; by repeat constructor.
    + apply Hno; [done|]. destruct (server_idle s1 && st_soft_trigger s1); [|done]. injection Hs as <- <-. by repeat constructor.
    + apply Hno; [done|]. destruct (server_idle s1 && st_hard s1); [|done]. injection Hs as <- <-. by repeat constructor.
    + apply Hno; [done|]. destruct (server_idle s1); [|done]. injection Hs as <- <-. by repeat constructor.
    + destruct (st_phase s1); try done. destruct (st_todo s1); [|done]. destruct (forallb _ _); [|done].
      destruct (drain_events _ _ _ _ _ _) as [[[[sv1 q1] inf] os1]|] eqn:E; [|injection Hs as <- <-; destruct Hnp; apply in_or_app; right; by left].
      destruct (is_reordering _ _) eqn:Hord; [|done].
      destruct (drain _ _ _ _ _ _) as [[[sv2 q2] os2]|] eqn:E2; injection Hs as <- <-; [|destruct Hnp; apply in_or_app; right; by left].
      apply drain_split in E2 as (sv3 & q3 & inf3 & os3 & E3 & _ & E4 & ->). cbn [lines]. rewrite !List.app_assoc.
      assert (Hle3 : length (reports (t1 ++ os3)) <= node_count g) by (rewrite List.app_assoc, reports_app, app_length in Hle; lia).
      destruct (drain_events_shows _ _ _ _ _ _ _ _ _ t1 c1 E3 Hsh Ht Hi Hle3) as (A & B & _). apply drain_inflight_shows; [done|exact B|done| |by rewrite List.app_assoc in Hle].
      intros n Hn. destruct (reports_nodup _ _ Hr) as [_ Hl]. apply Hl. rewrite !reports_app, !map_app, !elem_of_app. right. right.
      change (n ∈ fst <$> reports (map (λ n : nat, ODrainFinished n Disconnected) order)). apply elem_of_list_fmap. exists (n, Disconnected). split; [done|].
      unfold reports. apply elem_of_list_omap. exists (ODrainFinished n Disconnected). split; [|done]. by apply elem_of_list_fmap_1 with (f := fun n => ODrainFinished n Disconnected).
    + apply Hno; [done|]. repeat case_match; try done; injection Hs as <- <-; by repeat constructor.
    + apply Hno; [done|]. repeat case_match; try done; injection Hs as <- <-; by repeat constructor.
    + apply Hno; [done|]. repeat case_match; try done; injection Hs as <- <-; by repeat constructor.
    + apply Hno; [done|]. repeat case_match; try done; injection Hs as <- <-; by repeat constructor.
    + apply Hno; [done|]. repeat case_match; try done; injection Hs as <- <-; by repeat constructor.
    + apply Hno; [done|]. repeat case_match; try done; injection Hs as <- <-; by repeat constructor.
    + apply Hno; [done|]. repeat case_match; try done; injection Hs as <- <-; by repeat constructor.
    + apply Hno; [done|]. repeat case_match; try done; injection Hs as <- <-; by repeat constructor.
    + apply Hno; [done|]. injection Hs as <- <-. done.
    + apply Hno; [done|]. injection Hs as <- <-. done.
  - destruct (SchedBound.done_step cfg s1 t1 a s os HD Hs) as [[-> ->]|[-> ->]]; cbn [step] in Hs; injection Hs as <-; cbn [lines]; by rewrite !app_nil_r.
Qed.
End lines.

(** Consequences. *)
Lemma success_dec (x : exit_status) : {x = Code 0} + {x <> Code 0}.
Proof. destruct x as [z| |]; [destruct (Z.eq_dec z 0%Z) as [-> |H]; [by left|right; congruence]|by right|by right]. Qed.

Section shows.
Variable cfg : config.
Variable offset : N.
Variable outs : nat -> string * string.
Notation shows := (shows cfg offset outs).
Notation tasks := (N.of_nat (length (nodes (cf_g cfg)))).

Lemma outputs_only {B} (f : message -> option B) out : (forall x, f (Output x) = None) -> omap f (outputs_of out) = [].
Proof. intros H. unfold outputs_of. cbn [List.filter]. destruct (String.eqb _ _), (String.eqb _ _); cbn; by rewrite ?H. Qed.
#[local] Arguments outputs_of : simpl never.
Lemma shown_only {B} (f : message -> option B) n shown o : (forall x, f (Output x) = None) ->
  shown = outputs_of (outs n) \/ (shown = [] /\ o = ODrainFinished n Disconnected) -> omap f shown = [].
Proof. intros H [-> |[-> _]]; [by apply outputs_only|done]. Qed.

Lemma shows_numbers t c : shows t c ->
  StronglySorted N.lt (numbers c) /\ Forall (fun k => (offset < k <= offset + N.of_nat (length (reports t)))%N) (numbers c) /\ Forall (fun n => n = offset + tasks)%N (totals c).
Proof.
  assert (Hadd : forall l k, StronglySorted N.lt l -> Forall (fun x => (x < k)%N) l -> StronglySorted N.lt (l ++ [k])).
  { clear. induction l as [|x l IH]; intros k H1 H2; cbn; [by repeat constructor|]. inversion_clear H1. inversion_clear H2. constructor; [by apply IH|]. apply Forall_app. split; [done|by repeat constructor]. }
  assert (Hnew : forall t c o n m, finish_report o = Some (n, Code 0) ->
    StronglySorted N.lt (numbers c) /\ Forall (fun k => (offset < k <= offset + N.of_nat (length (reports t)))%N) (numbers c) /\ Forall (fun n => n = offset + tasks)%N (totals c) ->
    numbers m = [] -> totals m = [] ->
    let c' := c ++ Progress (offset + N.of_nat (length (reports t)) + 1) (offset + tasks) (task_text cfg n) :: m in
    StronglySorted N.lt (numbers c') /\ Forall (fun k => (offset < k <= offset + N.of_nat (length (reports (t ++ [o]))))%N) (numbers c') /\ Forall (fun n => n = offset + tasks)%N (totals c')).
  { clear - Hadd. intros t c o n m Ho (H1 & H2 & H3) Hm1 Hm2 c'. subst c'. rewrite (reports_one t o _ Ho), app_length. cbn [length].
    assert (E1 : forall x y z, numbers (c ++ Progress x y z :: m) = numbers c ++ [x]) by (intros; unfold numbers in *; rewrite omap_app'; cbn; by rewrite Hm1).
    assert (E2 : forall x y z, totals (c ++ Progress x y z :: m) = totals c ++ [y]) by (intros; unfold totals in *; rewrite omap_app'; cbn; by rewrite Hm2).
    rewrite E1, E2. split; [|split].
    - apply Hadd; [done|]. eapply Forall_impl; [exact H2|]. cbn. intros; lia.
    - apply Forall_app. split; [eapply Forall_impl; [exact H2|]; cbn; intros; lia|]. repeat constructor; lia.
    - apply Forall_app. split; [done|]. by repeat constructor. }
  induction 1 as [|t c o Hs IH Ho|t c o n Hs IH Ho Hn|t c o n Hs IH Ho Hn|t c o n x label shown Hs IH Ho Hx Hn Hl Hsh|t c o n x Hs IH Ho Hx Hn].
  - cbn. repeat constructor.
  - destruct IH as (H1 & H2 & H3). split; [done|]. split; [|done]. eapply Forall_impl; [exact H2|]. cbn. rewrite reports_app, app_length. intros; lia.
  - apply Hnew; [done|done| |]; by apply outputs_only.
  - apply Hnew; [done|done|done|done].
  - destruct IH as (H1 & H2 & H3).
    assert (E1 : forall k r z, numbers (c ++ Failure label k r z :: shown) = numbers c).
    { intros. unfold numbers. rewrite omap_app'. cbn. erewrite (shown_only _ _ shown o) by done. by rewrite app_nil_r. }
    assert (E2 : forall k r z, totals (c ++ Failure label k r z :: shown) = totals c).
    { intros. unfold totals. rewrite omap_app'. cbn. erewrite (shown_only _ _ shown o) by done. by rewrite app_nil_r. }
    rewrite E1, E2. split; [done|]. split; [|done]. eapply Forall_impl; [exact H2|]. cbn. rewrite reports_app, app_length. intros; lia.
  - destruct IH as (H1 & H2 & H3). split; [done|]. split; [|done]. eapply Forall_impl; [exact H2|]. cbn. rewrite reports_app, app_length. intros; lia.
Qed.

Lemma good_reports_app t1 t2 : good_reports (t1 ++ t2) = good_reports t1 ++ good_reports t2.
Proof. unfold good_reports. rewrite reports_app. apply omap_app'. Qed.
Lemma good_one t o n : finish_report o = Some (n, Code 0) -> good_reports (t ++ [o]) = good_reports t ++ [n].
Proof. intros H. rewrite good_reports_app. f_equal. unfold good_reports, reports. cbn. by rewrite H. Qed.
Lemma good_none t o : (forall n, finish_report o <> Some (n, Code 0)) -> good_reports (t ++ [o]) = good_reports t.
Proof.
  intros H. rewrite good_reports_app. rewrite <- app_nil_r. f_equal. unfold good_reports, reports. cbn.
  destruct (finish_report o) as [[n x]|] eqn:E; [|done]. cbn. destruct x as [[]| |]; try done. by destruct (H n).
Qed.
Lemma shows_texts t c : shows t c -> texts c = map (task_text cfg) (good_reports t).
Proof.
  induction 1 as [|t c o Hs IH Ho|t c o n Hs IH Ho Hn|t c o n Hs IH Ho Hn|t c o n x label shown Hs IH Ho Hx Hn Hl Hsh|t c o n x Hs IH Ho Hx Hn].
  - done.
  - rewrite good_none; [done|]. intros n. congruence.
  - rewrite (good_one _ _ _ Ho), map_app, <- IH. unfold texts. rewrite omap_app'. cbn. by rewrite outputs_only.
  - rewrite (good_one _ _ _ Ho), map_app, <- IH. unfold texts. by rewrite omap_app'.
  - rewrite good_none; [|intros m; congruence]. rewrite <- IH. unfold texts. rewrite omap_app'. cbn. erewrite (shown_only _ _ shown o) by done. by rewrite app_nil_r.
  - rewrite good_none; [done|]. intros m. congruence.
Qed.

Lemma before_soft_same t : ~ soft_begun t -> before_soft t = t.
Proof.
  induction t as [|o t IH]; intros H; [done|]. assert (H' : ~ soft_begun t) by (intros [x Hx]; apply H; exists x; by right).
  destruct o; cbn; rewrite ?IH by done; try done. destruct H. eexists. by left.
Qed.
Lemma before_soft_snoc t o : soft_begun t -> before_soft (t ++ [o]) = before_soft t.
Proof.
  induction t as [|p t IH]; [by intros [x []]|]. intros [x [->|Hx]]; [done|]. cbn. rewrite IH by (by exists x). done.
Qed.
Lemma bad_reports_app t1 t2 : bad_reports (t1 ++ t2) = bad_reports t1 ++ bad_reports t2.
Proof. unfold bad_reports. rewrite reports_app. apply omap_app'. Qed.
Lemma bad_one t o n x : finish_report o = Some (n, x) -> x <> Code 0 -> bad_reports (t ++ [o]) = bad_reports t ++ [n].
Proof. intros H Hx. rewrite bad_reports_app. f_equal. unfold bad_reports, reports. cbn. rewrite H. cbn. by destruct x as [[]| |]. Qed.
Lemma bad_none t o : (forall n x, x <> Code 0 -> finish_report o <> Some (n, x)) -> bad_reports (t ++ [o]) = bad_reports t.
Proof.
  intros H. rewrite bad_reports_app. rewrite <- app_nil_r. f_equal. unfold bad_reports, reports. cbn.
  destruct (finish_report o) as [[n x]|] eqn:E; [|done]. destruct (success_dec x) as [-> |Hx]; [done|]. by destruct (H n x Hx).
Qed.
Lemma soft_dec t : soft_begun t \/ ~ soft_begun t.
Proof. destruct (existsb is_soft t) eqn:E; [left; by apply existsb_soft|right; by apply not_soft]. Qed.
Lemma soft_snoc t o : soft_begun (t ++ [o]) -> finish_report o <> None -> soft_begun t.
Proof. intros [x [Hx|[->|[]]]%in_app_or] H; [by exists x|done]. Qed.
Lemma shows_failures t c : shows t c ->
  failure_lines c = map (fun n => (task_key cfg n, task_runcount cfg n, task_text cfg n)) (bad_reports (before_soft t)).
Proof.
  induction 1 as [|t c o Hs IH Ho|t c o n Hs IH Ho Hn|t c o n Hs IH Ho Hn|t c o n x label shown Hs IH Ho Hx Hn Hl Hsh|t c o n x Hs IH Ho Hx Hn].
  - done.
  - destruct (soft_dec t) as [Hn|Hn]; [by rewrite before_soft_snoc|]. rewrite before_soft_same in IH by done.
    destruct (soft_dec (t ++ [o])) as [Hn'|Hn'].
    + rewrite IH. clear - Hn Hn'. do 2 f_equal. destruct Hn' as [x [Hx|[->|[]]]%in_app_or]; [destruct Hn; by exists x|].
      induction t as [|p t IH]; [done|]. assert (H' : ~ soft_begun t) by (intros [y Hy]; apply Hn; exists y; by right).
      destruct p; cbn [before_soft app]; try (f_equal; by apply IH). destruct Hn. eexists. by left.
    + rewrite before_soft_same, bad_none; [done| |done]. intros n x _. congruence.
  - assert (Hn' : ~ soft_begun (t ++ [o])) by (intros H; apply Hn; eapply soft_snoc; [done|congruence]).
    rewrite before_soft_same in IH by done. rewrite before_soft_same, bad_none; [| |done].
    2:{ intros m x Hx. congruence. }
    rewrite <- IH. unfold failure_lines. rewrite omap_app'. cbn. rewrite outputs_only by done. by rewrite app_nil_r.
  - rewrite before_soft_snoc by done. rewrite <- IH. unfold failure_lines. rewrite omap_app'. cbn. by rewrite app_nil_r.
  - assert (Hn' : ~ soft_begun (t ++ [o])) by (intros H; apply Hn; eapply soft_snoc; [done|congruence]).
    rewrite before_soft_same in IH by done. rewrite before_soft_same, (bad_one _ _ _ _ Ho Hx), map_app by done.
    rewrite <- IH. unfold failure_lines. rewrite omap_app'. cbn. by erewrite (shown_only _ _ shown o) by done.
  - by rewrite before_soft_snoc.
Qed.

(** No failure: the numbers are consecutive. *)
Lemma shows_all_numbers t c : shows t c -> bad_reports t = [] ->
  numbers c = map (fun i => (offset + N.of_nat i)%N) (seq 1 (length (reports t))).
Proof.
  assert (Hnew : forall t c o n m x, finish_report o = Some (n, Code 0) -> numbers m = [] ->
    numbers c = map (fun i => (offset + N.of_nat i)%N) (seq 1 (length (reports t))) ->
    numbers (c ++ Progress (offset + N.of_nat (length (reports t)) + 1) (offset + tasks) x :: m) = map (fun i => (offset + N.of_nat i)%N) (seq 1 (length (reports (t ++ [o]))))).
  { clear. intros t c o n m x Ho Hm IH. rewrite (reports_one t o _ Ho), app_length. cbn [length]. rewrite seq_app, map_app, <- IH.
    unfold numbers in *. rewrite omap_app'. cbn. rewrite Hm. do 2 f_equal. lia. }
  induction 1 as [|t c o Hs IH Ho|t c o n Hs IH Ho Hn|t c o n Hs IH Ho Hn|t c o n x label shown Hs IH Ho Hx Hn Hl Hsh|t c o n x Hs IH Ho Hx Hn]; intros Hb.
  - done.
  - rewrite bad_none in Hb by (intros; congruence). rewrite IH by done. rewrite reports_app. unfold reports at 3. cbn. rewrite Ho. by rewrite app_nil_r.
  - rewrite bad_none in Hb by (intros; congruence). eapply Hnew; [done|by apply outputs_only|by apply IH].
  - rewrite bad_none in Hb by (intros; congruence). eapply Hnew; [done|done|by apply IH].
  - rewrite (bad_one _ _ _ _ Ho Hx) in Hb. by destruct (bad_reports t).
  - rewrite (bad_one _ _ _ _ Ho Hx) in Hb. by destruct (bad_reports t).
Qed.
End shows.

(** A call that ends normally without a failure reports all tasks. *)
Lemma all_reported cfg s t : config_ok cfg -> reachable cfg s t -> In (OExit ExitDone) t -> ~ soft_begun t -> bad_reports t = [] ->
  Permutation (good_reports t) (seq 0 (length (nodes (cf_g cfg)))) /\ length (reports t) = length (nodes (cf_g cfg)).
Proof.
  intros Hok Hr Hin Hns Hb. assert (Hg : good_reports t = map fst (reports t)).
  { clear - Hb. unfold good_reports, bad_reports in *. induction (reports t) as [|[n x] l IH]; [done|]. cbn in *. destruct (success_dec x) as [-> |Hx]; [|by destruct x as [[]| |]].
    cbn. f_equal. by apply IH. }
  destruct (reports_nodup cfg Hok s t Hr) as [Hnd Hlt].
  assert (Hall : forall n, n < length (nodes (cf_g cfg)) -> n ∈ map fst (reports t)).
  { intros n Hn. apply elem_of_list_In, elem_of_list_split in Hin as (t1 & t2 & ->).
    assert (Hrep : forall x e m, In (OFinished m x e) t1 -> (m, x) ∈ reports (t1 ++ OExit ExitDone :: t2)).
    { intros x e m H. unfold reports. apply elem_of_list_omap. exists (OFinished m x e). split; [|done]. apply elem_of_app. left. by apply elem_of_list_In. }
    destruct (c06 cfg Hok s t1 t2 n Hr) as [[x [e Hf]]|(m & _ & x & [e Hf] & Hx)]; [|done| |].
    - intros c Hc. apply Hns. exists c. apply in_or_app. by left.
    - change (n ∈ fst <$> reports (t1 ++ OExit ExitDone :: t2)). apply elem_of_list_fmap. exists (n, x). split; [done|]. by eapply Hrep.
    - exfalso. assert (m ∈ bad_reports (t1 ++ OExit ExitDone :: t2)) as Hm; [|rewrite Hb in Hm; by apply elem_of_nil in Hm].
      unfold bad_reports. apply elem_of_list_omap. exists (m, x). split; [by eapply Hrep|]. by destruct x as [[]| |]. }
  assert (HP : Permutation (map fst (reports t)) (seq 0 (length (nodes (cf_g cfg))))).
  { apply NoDup_Permutation; [done|apply NoDup_ListNoDup, seq_NoDup|]. intros n. split; [|intros H%elem_of_seq; apply Hall; lia]. intros H. apply elem_of_seq. specialize (Hlt n H). unfold node_count in Hlt. lia. }
  split; [by rewrite Hg|]. apply Permutation_length in HP. by rewrite map_length, seq_length in HP.
Qed.

(** A progress line can be read. *)
Lemma has_char_cons c d s : has_char c s -> has_char c (String d s).
Proof. intros (a & b & ->). by exists (String d a), b. Qed.
Lemma first_split c a b x y : a +:+ String c x = b +:+ String c y -> ~ has_char c a -> ~ has_char c b -> a = b /\ x = y.
Proof.
  revert b. induction a as [|d a IH]; intros [|e b] H Ha Hb; cbn in H.
  - by injection H as ->.
  - injection H as <- _. destruct Hb. by exists ""%string, b.
  - injection H as -> _. destruct Ha. by exists ""%string, a.
  - injection H as -> H. destruct (IH b H) as [-> ->]; [intros Hh; apply Ha; by apply has_char_cons|intros Hh; apply Hb; by apply has_char_cons|done].
Qed.
Lemma snoc_inj c (a b : string) : a +:+ String c "" = b +:+ String c "" -> a = b.
Proof.
  revert b. induction a as [|d a IH]; intros [|e b] H; cbn in H; try done.
  - injection H as _ H. by destruct b.
  - injection H as _ H. by destruct a.
  - injection H as -> H. by rewrite (IH b H).
Qed.
Lemma progress_inj k n x k' n' x' : show (Progress k n x) = show (Progress k' n' x') -> k = k' /\ n = n' /\ x = x'.
Proof.
  intros H. cbn [show] in H. injection H as H. rewrite ?sapp_assoc in H. cbn in H.
  apply first_split in H as [H1 H]; [|apply no_slash..]. rewrite ?sapp_assoc in H. cbn in H.
  apply first_split in H as [H2 H]; [|apply string_of_uint_no; vm_compute; by right..]. injection H as H.
  apply decimal_inj in H1, H2. apply snoc_inj in H. done.
Qed.

Lemma hex_value_pos u : forall p, hex_value (N.pos p) (HexadecimalString.NilEmpty.string_of_uint u) = Some (N.pos (Pos.of_hex_uint_acc u p)).
Proof.
  induction u as [|u IH|u IH|u IH|u IH|u IH|u IH|u IH|u IH|u IH|u IH|u IH|u IH|u IH|u IH|u IH|u IH]; intros p; [done|..];
    cbn [HexadecimalString.NilEmpty.string_of_uint hex_value];
    match goal with |- (match ?b with Some _ => _ | None => _ end) = _ => let v := eval vm_compute in b in change b with v end; cbn [Pos.of_hex_uint_acc];
    match goal with |- hex_value ?x _ = Some (N.pos (Pos.of_hex_uint_acc _ ?y)) => replace x with (N.pos y) by lia; apply IH end.
Qed.
Lemma hex_value_uint u : hex_value 0 (HexadecimalString.NilEmpty.string_of_uint u) = Some (N.of_hex_uint u).
Proof.
  induction u as [|u IH|u IH|u IH|u IH|u IH|u IH|u IH|u IH|u IH|u IH|u IH|u IH|u IH|u IH|u IH|u IH]; [done|..]; cbn [HexadecimalString.NilEmpty.string_of_uint hex_value];
    match goal with |- (match ?b with Some _ => _ | None => _ end) = _ => let v := eval vm_compute in b in change b with v end.
  1: exact IH. all: apply hex_value_pos.
Qed.
Lemma hexadecimal_value n : hex_value 0 (hexadecimal n) = Some n.
Proof. unfold hexadecimal. rewrite hex_value_uint. f_equal. apply HexadecimalN.Unsigned.of_to. Qed.

Lemma plain_label s r : no_escape s -> uncoloured false (s +:+ r) = s +:+ uncoloured false r.
Proof.
  induction s as [|c s IH]; intros H; [done|]. change (String c s +:+ r) with (String c (s +:+ r)). cbn [uncoloured].
  destruct (Ascii.eqb_spec c "027") as [->|]; [by destruct (H "" s)|]. rewrite IH; [done|]. intros a b ->. by apply (H (String c a) b).
Qed.
