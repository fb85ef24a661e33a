(** Proofs of the scheduler properties: returned value, log, completion flag, exit causes. *)
From Verif Require Export SchedOutcome.

Lemma log_writes_snoc l es l1 e l2 :
  log_writes l es = Some l1 -> log_write l1 e = Some l2 -> log_writes l (es ++ [e]) = Some l2.
Proof.
  revert l. induction es as [|x es IH]; intros l H1 H2; simpl in *.
  - injection H1 as ->. by rewrite H2.
  - destruct (log_write l x); [|done]. by apply IH.
Qed.

Definition extends (l l' : log_file) : Prop := exists es, log_writes l es = Some l'.
Lemma extends_refl l : extends l l.
Proof. by exists []. Qed.
Lemma extends_write l l1 e l2 : extends l l1 -> log_write l1 e = Some l2 -> extends l l2.
Proof. intros [es H] Hw. exists (es ++ [e]). by eapply log_writes_snoc. Qed.

Section result.
Variable cfg : config.
Notation g := (cf_g cfg).

(** *** The log only grows by accepted writes. *)
Lemma ready_records_extends ready : forall l flag l' items l0,
  ready_records cfg ready l flag = Some (l', items) -> extends l0 l -> extends l0 l'.
Proof.
  induction ready as [|n ready IH]; intros l flag l' items l0 H He; cbn [ready_records] in H; [by injection H as <- _|].
  destruct (nodes g !! n); [|done]. destruct (write_ready cfg l c) as [l1|] eqn:E; [|done].
  destruct (ready_records cfg ready l1 (S flag)) as [[l2 its]|] eqn:E2; [|done]. injection H as <- _.
  eapply IH; [done|]. by eapply extends_write.
Qed.

Lemma log_finish_extends l inf id c x v l' l0 :
  log_finish cfg l inf id c x v = Some l' -> extends l0 l -> extends l0 l'.
Proof.
  unfold log_finish. destruct (inf !! id).
  - intros H He. by eapply extends_write.
  - destruct (write_started _ _ _ _ _ _) as [l1|] eqn:E; [|done]. intros H He.
    eapply extends_write; [|done]. by eapply extends_write.
Qed.

Lemma atrq_extends sv ready sv' is os l0 :
  add_to_ready_queue cfg sv ready = Some (sv', is, os) -> extends l0 (sv_log sv) -> extends l0 (sv_log sv').
Proof.
  unfold add_to_ready_queue. destruct ready as [|n ready].
  - intros H He. by injection H as <- _ _.
  - cbn zeta. destruct (N.leb _ _); [done|]. destruct (ready_records _ _ _ _) as [[l its]|] eqn:E; [|done].
    destruct (sv_open sv); [|done]. intros H He. injection H as <- _ _. by eapply ready_records_extends.
Qed.

Lemma started_extends sv id h p j now sv' is os l0 :
  handle_started cfg sv id h p j now = Some (sv', is, os) -> extends l0 (sv_log sv) -> extends l0 (sv_log sv').
Proof.
  unfold handle_started. destruct (nodes g !! id); [|done]. destruct (write_started _ _ _ _ _ _) as [l|] eqn:E; [|done].
  destruct (sv_inflight sv !! id); [done|]. intros H He. injection H as <- _ _. by eapply extends_write.
Qed.

Lemma finished_extends sv id x v f now sv' is os l0 :
  handle_finished cfg sv id x v f now = Some (sv', is, os) -> extends l0 (sv_log sv) -> extends l0 (sv_log sv').
Proof.
  unfold handle_finished. destruct (nodes g !! id) as [c|]; [|done].
  destruct (finished_bookkeeping_2 _ _ _ _) as [[[sv2 is2] os2]|] eqn:E2; [|done].
  destruct (log_finish _ _ _ _ _ _ _) as [l|] eqn:E3; [|done]. intros H He.
  assert (extends l0 (sv_log sv2)) as H2.
  { unfold finished_bookkeeping_2 in E2. destruct (sv_soft _).
    - destruct (sv_open _); [done|]. by injection E2 as <- _ _.
    - destruct (visit_downstream _ _ _) as [[ss rd]|]; [|done]. by eapply atrq_extends. }
  injection H as <- _ _. repeat case_match; simpl; by eapply log_finish_extends.
Qed.

Lemma drain_events_extends evs : forall sv q inf now sv' q' inf' os l0,
  drain_events cfg evs sv q inf now = Some (sv', q', inf', os) -> extends l0 (sv_log sv) -> extends l0 (sv_log sv').
Proof.
  induction evs as [|[id h p j|id x v f] evs IH]; intros sv q inf now sv' q' inf' os l0 E He; cbn [drain_events] in E.
  - by injection E as <- _ _ _.
  - destruct (nodes g !! id); [|done]. destruct (write_started _ _ _ _ _ _) as [l|] eqn:Ew; [|done].
    destruct (inf !! id); [done|]. destruct (drain_events _ _ _ _ _ _) as [[[[sv1 q1] inf1] os1]|] eqn:Ed; [|done].
    injection E as <- _ _ _. eapply IH; [done|]. simpl. by eapply extends_write.
  - destruct (nodes g !! id); [|done]. destruct (dec_inflight _ _); [|done].
    destruct (log_finish _ _ _ _ _ _ _) as [l|] eqn:Ew; [|done].
    destruct (drain_events _ _ _ _ _ _) as [[[[sv1 q1] inf1] os1]|] eqn:Ed; [|done].
    injection E as <- _ _ _. eapply IH; [done|]. simpl. by eapply log_finish_extends.
Qed.

Lemma drain_inflight_extends order : forall sv q now sv' q' os l0,
  drain_inflight cfg order sv q now = Some (sv', q', os) -> extends l0 (sv_log sv) -> extends l0 (sv_log sv').
Proof.
  induction order as [|id order IH]; intros sv q now sv' q' os l0 E He; cbn [drain_inflight] in E.
  - by injection E as <- _ _.
  - destruct (nodes g !! id); [|done]. destruct (dec_inflight _ _); [|done].
    destruct (write_finished _ _ _ _ _) as [l|] eqn:Ew; [|done].
    destruct (drain_inflight _ _ _ _ _) as [[[sv1 q1] os1]|] eqn:Ed; [|done]. injection E as <- _ _.
    eapply IH; [done|]. simpl. by eapply extends_write.
Qed.

Lemma step_extends s a s' os l0 : step cfg s a = Some (s', os) -> extends l0 (sv_log (st_sv s)) -> extends l0 (sv_log (st_sv s')).
Proof.
  intros H He. destruct a; cbn [step] in H.
  - destruct (st_phase s); try done. destruct (is_reordering _ _); [|done].
    destruct (add_to_ready_queue _ _ _) as [[[sv is] os']|] eqn:E; injection H as <- _; [|done].
    simpl. by eapply atrq_extends.
  - destruct (st_phase s); try done; (destruct (st_todo s) as [|i rest]; [done|]); injection H as H;
    destruct i; cbn [exec_instr] in H; repeat case_match; try unfold panic in H; injection H as <- _; done.
  - destruct (server_idle s); [|done]. destruct (st_events s) as [|[id h p j|id x v f] rest]; [done| |];
    change (st_sv (set_events s rest)) with (st_sv s) in H.
    + destruct (handle_started _ _ _ _ _ _ _) as [[[sv is] os']|] eqn:E; cbn [server_result] in H; injection H as <- _; [|done].
      simpl. by eapply started_extends.
    + destruct (handle_finished _ _ _ _ _ _ _) as [[[sv is] os']|] eqn:E; cbn [server_result] in H; injection H as <- _; [|done].
      simpl. by eapply finished_extends.
  - destruct (server_idle s && st_soft_trigger s); [|done]. by injection H as <- _.
  - destruct (server_idle s && st_hard s); [|done]. by injection H as <- _.
  - destruct (server_idle s); [|done]. by injection H as <- _.
  - destruct (st_phase s); try done. destruct (st_todo s); [|done]. destruct (forallb _ _); [|done].
    destruct (drain_events _ _ _ _ _ _) as [[[[sv1 q1] inf] os1]|] eqn:E; [|injection H as <- _; done].
    destruct (is_reordering _ _) eqn:Hord; [|done].
    destruct (drain _ _ _ _ _ _) as [[[sv2 q2] os2]|] eqn:E2; injection H as <- _; [|done].
    apply drain_split in E2 as (sv3 & q3 & inf3 & os3 & E3 & _ & E4 & _). simpl.
    eapply drain_inflight_extends; [done|]. simpl. by eapply drain_events_extends.
  - repeat case_match; try done; by injection H as <- _.
  - repeat case_match; try done; by injection H as <- _.
  - repeat case_match; try done; by injection H as <- _.
  - repeat case_match; try done; by injection H as <- _.
  - repeat case_match; try done; by injection H as <- _.
  - repeat case_match; try done; by injection H as <- _.
  - repeat case_match; try done; by injection H as <- _.
  - repeat case_match; try done; by injection H as <- _.
  - by injection H as <- _.
  - by injection H as <- _.
Qed.

Lemma reach_extends s t : reachable cfg s t -> extends (cf_log cfg) (sv_log (st_sv s)).
Proof.
  revert s t. apply reachable_ind'.
  - apply extends_refl.
  - intros s t a s' os _ IH Hs. by eapply step_extends.
Qed.

Hypothesis Hok : config_ok cfg.

(** ** C10 *)
Definition bad_drain (o : obs) : bool :=
  match o with ODrainFinished _ x => negb (is_success x) | _ => false end.

Lemma drain_events_failed evs : forall sv q inf now sv' q' inf' os,
  drain_events cfg evs sv q inf now = Some (sv', q', inf', os) ->
  sv_n_failed sv' = (sv_n_failed sv + N.of_nat (length (List.filter bad_drain os)))%N.
Proof.
  induction evs as [|[id h p j|id x v f] evs IH]; intros sv q inf now sv' q' inf' os E; cbn [drain_events] in E.
  - injection E as <- _ _ <-. simpl. lia.
  - destruct (nodes g !! id); [|done]. destruct (write_started _ _ _ _ _ _) as [l|] eqn:Ew; [|done].
    destruct (inf !! id); [done|]. destruct (drain_events _ _ _ _ _ _) as [[[[sv1 q1] inf1] os1]|] eqn:Ed; [|done].
    injection E as <- _ _ <-. apply IH in Ed. simpl in *. done.
  - destruct (nodes g !! id); [|done]. destruct (dec_inflight _ _); [|done].
    destruct (log_finish _ _ _ _ _ _ _) as [l|] eqn:Ew; [|done].
    destruct (drain_events _ _ _ _ _ _) as [[[[sv1 q1] inf1] os1]|] eqn:Ed; [|done].
    injection E as <- _ _ <-. apply IH in Ed. cbn [List.filter bad_drain]. simpl in Ed.
    destruct (is_success x); cbn [negb length]; lia.
Qed.

Lemma drain_inflight_failed order : forall sv q now sv' q' os,
  drain_inflight cfg order sv q now = Some (sv', q', os) ->
  sv_n_failed sv' = (sv_n_failed sv + N.of_nat (length order))%N.
Proof.
  induction order as [|id order IH]; intros sv q now sv' q' os E; cbn [drain_inflight] in E.
  - injection E as <- _ _. simpl. lia.
  - destruct (nodes g !! id); [|done]. destruct (dec_inflight _ _); [|done].
    destruct (write_finished _ _ _ _ _) as [l|] eqn:Ew; [|done].
    destruct (drain_inflight _ _ _ _ _) as [[[sv1 q1] os1]|] eqn:Ed; [|done]. injection E as <- _ _.
    apply IH in Ed. simpl in *. lia.
Qed.

Definition bad_obs (o : obs) : bool :=
  match o with OFinished _ x _ | ODrainFinished _ x => negb (is_success x) | _ => false end.

Lemma as_i32_success x : Z.eqb (as_i32 x) 0 = is_success x.
Proof. by destruct x. Qed.

Lemma failed_records new t : omap fin_rec new = omap (fin_obs cfg) t ->
  length (List.filter failure_record new) = length (List.filter bad_obs t).
Proof.
  intros H. pose proof (filter_len_omap fin_rec (fun p => negb (Z.eqb p.2 0)) new) as H1. rewrite H in H1.
  rewrite filter_len_omap in H1.
  transitivity (length (List.filter (fun a => match fin_rec a with Some b => negb (Z.eqb b.2 0) | None => false end) new)).
  - f_equal. apply List.filter_ext. intros []; done.
  - rewrite <- H1. f_equal. apply List.filter_ext. intros []; try done; simpl; by rewrite as_i32_success.
Qed.

Lemma bad_length t : (forall o, o ∈ t -> ~ drain_obs o) -> length (bad t) = length (List.filter bad_obs t).
Proof.
  induction t as [|o t IH]; intros H; [done|].
  assert (forall o, o ∈ t -> ~ drain_obs o) as H' by (intros o' Ho; apply H; by right).
  specialize (H o ltac:(by left)). unfold bad in *. destruct o; simpl in *; auto; try (destruct H; done).
  destruct (is_success s); simpl; auto.
Qed.

Lemma drain_length os : Forall drain_obs os -> List.filter bad_obs os = List.filter bad_drain os.
Proof. induction 1 as [|o os Ho _ IH]; [done|]. destruct o; simpl; try done. by rewrite IH. Qed.

Lemma drained_state s t : reachable cfg s t -> st_phase s = PDrained -> Done cfg s t.
Proof.
  intros Hr Hp. destruct (full_or_done cfg Hok s t Hr) as [HF|HD]; [|done].
  by destruct (c_phase _ _ _ (inv_c _ _ _ (f_inv _ _ _ HF))).
Qed.

Lemma omap_keys l : (forall n, n ∈ l -> n < node_count g) ->
  omap (fun n => option_map c_key (nodes g !! n)) l = map (task_key cfg) l.
Proof.
  induction l as [|n l IH]; intros H; [done|].
  change (omap (fun n => option_map c_key (nodes g !! n)) (n :: l)) with
    (match option_map c_key (nodes g !! n) with Some x => x :: omap (fun n => option_map c_key (nodes g !! n)) l | None => omap (fun n => option_map c_key (nodes g !! n)) l end).
  rewrite IH by (intros m Hm; apply H; by right). destruct (nodes g !! n) as [c|] eqn:E.
  { simpl. f_equal. unfold task_key. by rewrite E. } apply lookup_ge_None in E. specialize (H n ltac:(by left)). unfold node_count in H. lia.
Qed.

Lemma task_key_inj n m : n < node_count g -> m < node_count g -> task_key cfg n = task_key cfg m -> n = m.
Proof.
  intros Hn Hm Hk. unfold task_key in Hk.
  destruct (lookup_lt_is_Some_2 (nodes g) n Hn) as [c Hc]. destruct (lookup_lt_is_Some_2 (nodes g) m Hm) as [d Hd].
  rewrite Hc, Hd in Hk. eapply (NoDup_lookup _ _ _ (c_key c) (ok_keys _ Hok)).
  - change (map c_key (nodes g)) with (c_key <$> nodes g). by rewrite list_lookup_fmap, Hc.
  - change (map c_key (nodes g)) with (c_key <$> nodes g). rewrite list_lookup_fmap, Hd. simpl. congruence.
Qed.

Lemma finish_lt s t n : Full cfg s t -> n ∈ finish_order t -> n < node_count g.
Proof.
  intros HF H. apply (a_lt _ _ _ (inv_a _ _ _ (f_inv _ _ _ HF))). eapply own_readied; [apply (f_inv _ _ _ HF)|].
  apply occ_pos in H. lia.
Qed.

Lemma c10 s t : reachable cfg s t -> st_phase s = PDrained ->
  exists new, new_records cfg s new /\
    execute_result cfg s = (N.of_nat (length (List.filter failure_record new)), map (task_key cfg) (finish_order t)) /\
    NoDup (map (task_key cfg) (finish_order t)).
Proof.
  intros Hr Hp. destruct (log_records cfg Hok s t Hr) as (new & inf & fin & Hnew & _ & HDL & _).
  exists new. split; [done|]. pose proof (drained_state s t Hr Hp) as HD.
  destruct HD as (s0 & t0 & os0 & now0 & order0 & HF & Hp0 & Ht0 & He & -> & Hdr & Hz & _ & Hc & Hu).
  pose proof (z_obs _ _ _ _ _ _ Hz) as Ho.
  assert (finish_order (t0 ++ os0) = finish_order t0) as Ef by (rewrite finish_order_app, (drain_finish os0 Ho); apply app_nil_r).
  rewrite Ef. split.
  - unfold execute_result. f_equal.
    + rewrite (failed_records new _ (l_fin _ _ _ _ _ _ _ HDL)), List.filter_app, app_length, (drain_length os0 Ho).
      rewrite <- (bad_length t0 (s_nodrain _ _ _ (f_ts _ _ _ HF))).
      apply drain_split in Hdr as (sv1 & q1 & inf1 & os1 & E1 & _ & E2 & ->).
      apply drain_events_failed in E1. apply drain_inflight_failed in E2. rewrite E2. simpl. rewrite E1.
      rewrite (s_failed _ _ _ (f_ts _ _ _ HF)). rewrite List.filter_app, app_length.
      replace (List.filter bad_drain (map (λ n : nat, ODrainFinished n Disconnected) order0)) with
        (map (λ n : nat, ODrainFinished n Disconnected) order0); [rewrite map_length; lia|].
      clear. induction order0; simpl; congruence.
    + rewrite (z_fo _ _ _ _ _ _ Hz). apply omap_keys. intros n. by eapply finish_lt.
  - apply NoDup_ListNoDup. apply NoDup_ListNoDup.
    pose proof (nodup_finish cfg s0 t0 HF) as Hnd.
    assert (forall n, n ∈ finish_order t0 -> n < node_count g) as Hlt by (intros n; by eapply finish_lt).
    revert Hnd Hlt. generalize (finish_order t0). clear - Hok. induction l as [|n l IH]; intros Hnd Hlt; [constructor|].
    apply NoDup_cons in Hnd as [Hn Hnd]. simpl. constructor.
    + rewrite elem_of_list_fmap. intros (m & Hm & Hin). apply task_key_inj in Hm; [by subst| |]; apply Hlt; [by left|by right].
    + apply IH; [done|]. intros m Hm. apply Hlt. by right.
Qed.

Lemma c10_order s t l1 n l2 m : reachable cfg s t -> finish_order t = l1 ++ n :: l2 -> edge g m n -> m ∈ l1.
Proof.
  intros Hr Hf He. unfold finish_order in Hf. apply omap_split in Hf as (t1 & o & t2 & -> & <- & Ho & _).
  destruct o as [| | | | | | |n' x e| | | | | | |]; try done. injection Ho as ->.
  apply full_split in Hr as (s0 & t0 & a & s' & pre & post & HF & Hs & -> & (v & f & rest & Hev & os' & Hos & Hno) & Hf' & t3 & ->); [|done].
  destruct pre as [|o pre].
  - rewrite app_nil_r. change (omap _ t0) with (finish_order t0).
    assert (n ∈ readied t0) as Hn.
    { eapply own_readied; [apply (f_inv _ _ _ HF)|]. assert (0 < nfe s0 n); [|lia]. eapply nfe_pos. rewrite Hev. by left. }
    apply elem_of_finish_order. destruct (readied_causal cfg s0 t0 n m HF Hn He) as [e' Hin]. exists (Code 0), e'. done.
  - exfalso. simpl in Hos. injection Hos as -> <-. eapply Hno, in_or_app. right. by left.
Qed.

(** Every processed finish report was sent by the runner that had received the task. *)
Lemma c10_origin s t1 n x e t2 : reachable cfg s (t1 ++ OFinished n x e :: t2) ->
  exists c i f, In (OSentFinished c n x f) t1 /\ In (OHandedOut c i n) t1.
Proof.
  intros Hr.
  apply full_split in Hr as (s0 & t0 & a & s' & pre & post & HF & Hs & -> & (v & f & rest & Hev & os' & Hos & Hno) & Hf' & t3 & ->); [|done].
  destruct (k_fin _ _ _ (f_tc _ _ _ HF) n x v f) as [c Hc]; [rewrite Hev; by left|].
  pose proof (f_reach _ _ _ HF) as Hr0. pose proof Hc as Hc'. apply elem_of_list_split in Hc as (u1 & u2 & ->).
  apply full_split in Hr0 as (s1 & t1 & a1 & s1' & pre1 & post1 & HF1 & Hs1 & -> & (Hos1 & Hcl & _) & _); [|done].
  assert (exists i, OHandedOut c i n ∈ t1) as [i Hi].
  { destruct Hcl as [Hcl|Hcl]; by eapply (k_own _ _ _ (f_tc _ _ _ HF1)). }
  exists c, i, f. split; apply elem_of_list_In.
  - apply elem_of_app. by left.
  - rewrite !elem_of_app. by left; left; left.
Qed.

(** ** C12 *)
Lemma c12 s t : reachable cfg s t -> log_wf (lf_entries (sv_log (st_sv s))) /\
  exists new, new_records cfg s new /\ Forall task_rec new /\
    forall k, history k new ∈ [[]; [KReady]; [KReady; KStarted]; [KReady; KStarted; KFinished]].
Proof.
  intros Hr. destruct (log_records cfg Hok s t Hr) as (new & inf & fin & Hnew & Hg & HDL & _).
  split; [apply Hg|]. exists new. split; [done|]. split; [apply (l_rec _ _ _ _ _ _ _ HDL)|].
  intros k. destruct (decide (Exists (fun n => task_key cfg n = k) (seq 0 (node_count g)))) as [Hx|Hx].
  - apply Exists_exists in Hx as (n & Hn & <-). apply elem_of_seq in Hn. rewrite (l_stage _ _ _ _ _ _ _ HDL) by lia.
    unfold stage'. repeat case_decide; set_solver.
  - rewrite (l_other _ _ _ _ _ _ _ HDL); [by left|]. intros n Hn Hk. apply Hx, Exists_exists. exists n.
    split; [|done]. apply elem_of_seq. lia.
Qed.

(** ** C13 *)
Lemma history_in k es x : x ∈ history k es -> exists e, In e es /\ record_of k e = Some x.
Proof. intros H. apply elem_of_list_omap in H as (e & He & Hx). exists e. split; [by apply elem_of_list_In|done]. Qed.

Lemma c13 s t : reachable cfg s t -> st_phase s = PDrained ->
  exists new, new_records cfg s new /\ forall l1 e l2, new = l1 ++ Started e :: l2 ->
    exists f, In (Finished f) l2 /\ f_key f = s_key e.
Proof.
  intros Hr Hp. destruct (log_records cfg Hok s t Hr) as (new & inf & fin & Hnew & Hg & HDL & Hinf & _).
  exists new. split; [done|]. intros l1 e l2 ->. rewrite (Hinf Hp) in HDL.
  destruct (l_causal _ _ _ _ _ _ _ HDL l1 e l2 eq_refl) as (n & Hn & Hk & _).
  pose proof (l_stage _ _ _ _ _ _ _ HDL n Hn) as Hh. rewrite Hk, history_app, history_cons in Hh.
  assert (record_of (s_key e) (Started e) = Some KStarted) as E by (simpl; by rewrite String.eqb_refl).
  rewrite E in Hh. unfold stage' in Hh.
  destruct (decide (n ∈ readied t)); [|by destruct (history (s_key e) l1)].
  destruct (decide (n ∈ fin)).
  - destruct (history (s_key e) l1) as [|a [|b h]] eqn:E1; simpl in Hh; try done.
    + injection Hh as -> Hh. destruct (history_in (s_key e) l2 KFinished) as (x & Hx & Hr'); [rewrite Hh; by left|].
      destruct x as [| |x|x|]; try done; simpl in Hr'; destruct (String.eqb _ _) eqn:Ek; try done.
      exists x. split; [done|]. by apply String.eqb_eq.
    + injection Hh as -> -> Hh. destruct h as [|? [|]]; done.
  - rewrite lookup_empty in Hh. destruct (decide (is_Some None)) as [[]|]; [done|].
    destruct (history (s_key e) l1) as [|? []]; done.
Qed.

(** ** C14 *)
Lemma c14 s t : reachable cfg s t -> exists new, new_records cfg s new /\
  forall l1 e l2, new = l1 ++ Started e :: l2 ->
    exists n, n < node_count g /\ task_key cfg n = s_key e /\
      forall m, edge g m n -> exists f, In (Finished f) l1 /\ f_key f = task_key cfg m /\ f_status f = 0%Z.
Proof.
  intros Hr. destruct (log_records cfg Hok s t Hr) as (new & inf & fin & Hnew & Hg & HDL & _).
  exists new. split; [done|]. apply (l_causal _ _ _ _ _ _ _ HDL).
Qed.

(** ** C34 *)
Lemma c34 s t1 n f t2 : reachable cfg s (t1 ++ OFlag n f :: t2) ->
  (exists c x e, In (OSentFinished c n x (Some f)) t1 /\ In (OFinished n x e) t1) /\
  (forall m i, made_ready t1 m -> i < 64 -> N.testbit (aff cfg m) (N.of_nat i) = true -> In (OPushed i m) t1) /\
  ((forall c, ~ In (OSoft c) t1) -> forall m, edge g n m -> (forall k, edge g k m -> succeeded t1 k) -> made_ready t1 m).
Proof.
  intros Hr.
  apply full_split in Hr as (s0 & t0 & a & s' & pre & post & HF & Hs & -> & (Hos & rest & Ht) & Hf' & t3 & ->); [|done].
  apply sing_split in Hos as [-> ->]. rewrite app_nil_r. split_and!.
  - destruct (p_flag _ _ _ (f_tp _ _ _ HF) n f) as (c & x & e & H1 & H2); [rewrite Ht; by left|].
    exists c, x, e. by rewrite <- !elem_of_list_In.
  - intros m i Hm Hi Hb. apply elem_of_readied in Hm.
    destruct (p_push _ _ _ (f_tp _ _ _ HF) m i Hm Hi Hb) as [H|(it & Hin & _)]; [by apply elem_of_list_In|].
    exfalso. rewrite Ht in Hin. apply elem_of_cons in Hin as [?|Hin]; [done|].
    by apply (p_flagpos _ _ _ (f_tp _ _ _ HF) [] n f rest Ht i it).
  - intros Hsoft m Hm Hall. apply elem_of_readied.
    pose proof (inv_c _ _ _ (f_inv _ _ _ HF)) as HC.
    apply (c_ready _ _ _ HC).
    + intros Hp. destruct (c_init _ _ _ HC Hp) as (_ & E & _). rewrite Ht in E. done.
    + rewrite (s_soft _ _ _ (f_ts _ _ _ HF)). by apply soft_none.
    + by destruct (ok_wf _ Hok n m Hm).
    + intros k Hk. by apply elem_of_good, Hall.
Qed.

End result.

(** ** Where exits and shutdowns come from *)
Section causes.
Variable cfg : config.

Lemma run_snoc s acts a s' t : run cfg s (acts ++ [a]) = Some (s', t) ->
  exists s1 t1 os, run cfg s acts = Some (s1, t1) /\ step cfg s1 a = Some (s', os) /\ t = t1 ++ os.
Proof.
  intros H. apply run_app in H as (s1 & t1 & t2 & H1 & H2 & ->). cbn [run] in H2.
  destruct (step cfg s1 a) as [[s2 os]|] eqn:E; [|done]. injection H2 as <- <-.
  exists s1, t1, os. split_and!; try done. by rewrite app_nil_r.
Qed.

Lemma causes acts : forall s t, run cfg (initial cfg) acts = Some (s, t) ->
  (st_hard s = true -> AHardCancel ∈ acts) /\ (st_soft_trigger s = true -> ATriggerSoft ∈ acts) /\
  (OExit ExitHard ∈ t -> AHardCancel ∈ acts) /\ (OExit ExitCtrlC ∈ t -> ACtrlC ∈ acts) /\
  (OSoft SoftTrigger ∈ t -> ATriggerSoft ∈ acts).
Proof.
  induction acts as [|a acts IH] using rev_ind; intros s t H.
  - injection H as <- <-. split_and!; try done; intros Hx; by apply elem_of_nil in Hx.
  - apply run_snoc in H as (s1 & t1 & os & H1 & Hs & ->). destruct (IH _ _ H1) as (I1 & I2 & I3 & I4 & I5).
    assert (st_hard s = true -> st_hard s1 = true \/ a = AHardCancel) as K1.
    { clear - Hs. intros Hx. destruct a; cbn [step] in Hs; try (by right); left;
        repeat (case_match; try done); simplify_eq; cbn in Hx; try done;
        unfold server_result, exec_instr, leave, panic in *; repeat case_match; simplify_eq; cbn in Hx; done. }
    assert (st_soft_trigger s = true -> st_soft_trigger s1 = true \/ a = ATriggerSoft) as K2.
    { clear - Hs. intros Hx. destruct a; cbn [step] in Hs; try (by right); left;
        repeat (case_match; try done); simplify_eq; cbn in Hx; try done;
        unfold server_result, exec_instr, leave, panic in *; repeat case_match; simplify_eq; cbn in Hx; done. }
    apply step_origin in Hs as Ho. rewrite Forall_forall in Ho.
    setoid_rewrite elem_of_app. setoid_rewrite elem_of_list_singleton. split_and!.
    + intros Hx. destruct (K1 Hx) as [?| ->]; [left; auto|by right].
    + intros Hx. destruct (K2 Hx) as [?| ->]; [left; auto|by right].
    + intros [Hx|Hx]; [left; auto|]. apply Ho in Hx as ->. left. apply I1. cbn [step] in Hs.
      destruct (server_idle s1 && st_hard s1) eqn:E; [|done]. by apply andb_true_iff in E as [_ ?].
    + intros [Hx|Hx]; [left; auto|]. apply Ho in Hx as ->. by right.
    + intros [Hx|Hx]; [left; auto|]. apply Ho in Hx as [-> _]. left. apply I2. cbn [step] in Hs.
      destruct (server_idle s1 && st_soft_trigger s1) eqn:E; [|done]. by apply andb_true_iff in E as [_ ?].
Qed.
End causes.
