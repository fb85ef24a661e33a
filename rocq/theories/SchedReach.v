(** The invariant holds initially and is kept by each action except the final drain. *)
From Verif Require Export SchedFinish.

Lemma is_reordering_perm order l : NoDup l -> is_reordering order l = true -> order ≡ₚ l.
Proof.
  intros Hl H. unfold is_reordering in H. apply andb_true_iff in H as [H H3].
  apply andb_true_iff in H as [H1 H2]. apply bool_decide_eq_true in H1. apply Nat.eqb_eq in H2.
  apply submseteq_Permutation_length_eq; [lia|].
  apply NoDup_submseteq; [done|]. intros x Hx. apply elem_of_list_In in Hx.
  rewrite forallb_forall in H3. specialize (H3 x Hx). apply existsb_exists in H3 as (y & Hy & He).
  apply Nat.eqb_eq in He as ->. by apply elem_of_list_In.
Qed.

Section reach.
Variable cfg : config.
Notation g := (cf_g cfg).

Lemma elem_of_roots n : n ∈ roots cfg <-> n < node_count g /\ in_neighbors g n = [].
Proof.
  unfold roots. rewrite elem_of_list_In, filter_In, in_seq, Nat.eqb_eq, length_zero_iff_nil.
  split; intros [? ?]; (split; [lia|done]).
Qed.

Lemma nodup_roots : NoDup (roots cfg).
Proof. unfold roots. apply NoDup_ListNoDup, List.NoDup_filter. apply NoDup_ListNoDup, NoDup_seq. Qed.

Lemma no_finish_when_unready s t : InvA cfg s t -> readied t = [] ->
  finish_order t = [] /\ good t = [] /\ bad t = [] /\ handed t = [].
Proof.
  intros HA Hr.
  assert (forall n, n ∉ finish_order t) as Hf.
  { intros n. apply (unready_nowhere cfg s t n HA). rewrite Hr. apply not_elem_of_nil. }
  assert (forall n, occ n (good t) + occ n (bad t) = 0) as Hgb.
  { intros n. rewrite occ_good_bad. by apply occ_zero. }
  split_and!; apply elem_of_nil_inv; intros n Hn; apply occ_pos in Hn.
  - apply (Hf n). by apply occ_pos.
  - specialize (Hgb n). lia.
  - specialize (Hgb n). lia.
  - pose proof (inv_handed_sub cfg s t HA n). rewrite Hr, occ_nil in *. lia.
Qed.

Lemma inv_init s t order :
  config_ok cfg -> Inv cfg s t -> st_phase s = PInit -> is_reordering order (roots cfg) = true ->
  forall s' os,
  match add_to_ready_queue cfg (st_sv s) order with
  | None => Some (panic (set_phase s PLoop))
  | Some (sv, is, os) =>
      Some (set_todo (set_sv (set_phase s PLoop) sv) (ISetUnready (N.of_nat (node_count g)) :: is), os)
  end = Some (s', os) ->
  Inv cfg s' (t ++ os).
Proof.
  intros Hok [HA HB HC HD] Hph Hord s' os Heq.
  pose proof (is_reordering_perm _ _ nodup_roots Hord) as Hperm.
  assert (Hin : forall n, n ∈ order <-> n < node_count g /\ in_neighbors g n = []).
  { intros n. by rewrite Hperm, elem_of_roots. }
  assert (Hnd : forall n, occ n order <= 1).
  { apply occ_nodup. rewrite Hperm. apply nodup_roots. }
  destruct (c_init _ _ _ HC Hph) as (Hr0 & Et & Hsoft & Hopen).
  destruct (no_finish_when_unready s t HA Hr0) as (Hf0 & Hg0 & Hb0 & Hh0).
  destruct HB as (Hg & new & Hnew & Hln).
  pose proof (c_roi _ _ _ HC) as Hroi. rewrite Hf0, Hr0 in Hroi. simpl in Hroi.
  assert (Hlen : length order <= node_count g).
  { apply nodup_bound; [|done]. intros n Hn. by apply Hin. }
  pose proof (ok_size _ Hok) as Hsz.
  destruct (add_to_ready_queue_ok cfg (st_sv s) order)
    as (l & items & recs & Ha & Hgl & Hle & Hrr & Hrk & Hid & Him); try done.
  { intros n Hn. by apply Hin. }
  { unfold U32. lia. }
  rewrite Ha in Heq. injection Heq as <- <-.
  assert (Ord : readied (map OReady order) = order) by apply readied_map_ready.
  assert (Ohd : handed (map OReady order) = []) by apply handed_map_ready.
  assert (Ofo : finish_order (map OReady order) = []) by apply finish_order_map_ready.
  assert (Hnb : IBreak ∉ ISetUnready (N.of_nat (node_count g)) :: rinstrs items).
  { rewrite elem_of_cons, rinstrs_split, elem_of_app. intros [?|[H|H]]; [done| |].
    - by apply elem_of_rpre in H as [?|(?&?&?)].
    - by apply elem_of_rpost in H as [?|(?&?&?&_)]. }
  split.
  - pose proof HA as HA0. destruct HA. split; unfold tk; rewrite ?readied_app, ?finish_order_app, ?handed_app, ?Ord, ?Ohd, ?Ofo, ?app_nil_r; simpl; try done.
    + rewrite app_length, a_flag. lia.
    + intros n. by rewrite Hr0.
    + intros n Hn. rewrite Hr0 in Hn. simpl in Hn. by apply Hin.
    + intros f0 Hf. rewrite app_length. specialize (a_taken f0 Hf). lia.
    + intros n. rewrite tkb_app by done. apply a_own.
    + intros n. rewrite tkb_app by done. apply a_hd.
    + intros i q it Hq Hit. by eapply item_ok_mono, a_q.
    + eapply (invA_todo_server cfg t (map OReady order) items [ISetUnready (N.of_nat (node_count g))] []); try done.
      * by rewrite Ord.
      * by rewrite <- a_flag.
      * intros i it Hi. by apply elem_of_list_singleton in Hi.
      * by rewrite app_nil_r.
    + intros c0 it Hc0. destruct (a_pop c0 it Hc0) as (i & Hi & Hit). exists i. split; [done|]. by apply item_ok_mono.
    + intros c0 it Hc0. destruct (a_claim c0 it Hc0) as (i & Hi & Hit). exists i. split; [done|]. by apply item_ok_mono.
  - split; [done|]. exists (new ++ recs). simpl. split; [by rewrite Hle, Hnew, <- List.app_assoc|].
    pose proof Hln as Hln0. destruct Hln. split.
    + intros n Hn. rewrite history_app, b_stage by done.
      rewrite (history_ready_exact cfg order recs n) by (try done; intros; by apply Hin).
      destruct (unready_nowhere cfg s t n HA) as [H1 H2]; [rewrite Hr0; apply not_elem_of_nil|].
      unfold stage. rewrite readied_app, finish_order_app, Ord, Ofo, Hr0, Hf0, H2. rewrite !app_nil_l.
      destruct (decide (n ∈ [])) as [Hx|_]; [by apply elem_of_nil in Hx|].
      destruct (decide (n ∈ order)); [|done].
      destruct (decide (is_Some None)) as [Hx|_]; [by destruct Hx|done].
    + intros k Hk. rewrite history_app, b_other by done.
      rewrite (history_ready_recs cfg recs order); [done|done|done|].
      intros n c' Hn Hc' He. apply (Hk n); [by apply Hin|]. by rewrite (task_key_lookup cfg n c' Hc').
    + rewrite !omap_app', b_fin. f_equal. rewrite omap_map_none by done.
      clear -Hrr. induction Hrr as [|e recs [r ->] _ IH]; [done|]. exact IH.
    + rewrite omap_app', b_ready, readied_app, Ord, Hrk. unfold ready_infos. by rewrite omap_app'.
    + apply causal_app; [done|]. intros e He. exfalso. rewrite Forall_forall in Hrr.
      apply elem_of_list_In in He. by destruct (Hrr _ He).
    + apply Forall_app. split; [done|].
      clear -Hrr. induction Hrr as [|e recs [r ->] _ IH]; by constructor.
  - assert (good (t ++ map OReady order) = []) as Hg1 by (by rewrite good_app, good_map_ready, Hg0).
    assert (bad (t ++ map OReady order) = []) as Hb1 by (by rewrite bad_app, bad_map_ready, Hb0).
    split; simpl; try done.
    + apply (c_len _ _ _ HC).
    + intros Hs n x Hx. destruct (c_stat _ _ _ HC Hs n x Hx) as [H1 H2]. unfold unmet in *.
      rewrite Hg1, Hb1. rewrite Hg0 in H2. by rewrite Hb0 in H1.
    + intros _ _ n Hn. rewrite Hg1, readied_app, Ord, Hr0. simpl. rewrite Hin. split.
      * intros [_ H] m Hm. apply elem_of_in_neighbors in Hm. by rewrite H in Hm.
      * intros H. split; [done|]. apply elem_of_nil_inv. intros m Hm. apply elem_of_in_neighbors in Hm.
        specialize (H m Hm). by apply elem_of_nil in H.
    + intros t1 n t2 H m Hm. exfalso.
      assert (n ∈ order) as Hn.
      { assert (n ∈ readied (t ++ map OReady order)) as Hn.
        { rewrite H, readied_app, elem_of_app. right. by left. }
        by rewrite readied_app, Ord, Hr0 in Hn. }
      apply Hin in Hn as [_ Hn]. apply elem_of_in_neighbors in Hm. rewrite Hn in Hm. by apply elem_of_nil in Hm.
    + intros _. by rewrite Hopen, Hsoft.
    + intros [?|?]; done.
    + rewrite readied_app, finish_order_app, Ord, Ofo, Hr0, Hf0. simpl. lia.
    + intros _ _ Hpos. destruct (root_exists g (ok_wf _ Hok) (ok_acyclic _ Hok) Hpos) as (n & Hn1 & Hn2).
      assert (n ∈ order) as Hn by (by apply Hin).
      destruct order as [|z order]; [by apply elem_of_nil in Hn|]. simpl. lia.
  - eapply (invD_server cfg s _ t (map OReady order) items order [ISetUnready (N.of_nat (node_count g))] []); try done.
    + by rewrite app_nil_r.
    + by rewrite <- (a_flag _ _ _ HA).
    + intros n Hn. rewrite Hr0. apply not_elem_of_nil.
    + intros i it Hi. by apply elem_of_list_singleton in Hi.
    + intros n a Hi. by apply elem_of_list_singleton in Hi.
    + intros n Hi. by apply elem_of_list_singleton in Hi.
    + intros n Hi. by apply elem_of_list_singleton in Hi.
    + by left.
    + intros _. split; [done|]. split; intros z Hz; by apply elem_of_nil in Hz.
Qed.

(** The senders are dropped: soft shutdown on request, and leaving the loop. *)
Lemma inv_close s t soft post o :
  Inv cfg s t -> st_phase s = PLoop -> st_todo s = [] -> Forall plain post ->
  (sv_soft (st_sv s) = true -> soft = true) -> (IBreak ∈ post \/ soft = true) ->
  neutral o -> handed [o] = [] ->
  Inv cfg (set_todo (set_sv s (with_closed (st_sv s) soft)) post) (t ++ [o]).
Proof.
  intros [HA HB HC HD] Hph Et Hpost Hs1 Hs2 Ho Hh.
  assert (Forall neutral [o]) as Hos by (by repeat constructor).
  assert (Hph' : st_phase s <> PInit) by (by rewrite Hph).
  assert (Hnex : ~ exiting s).
  { intros [H|H]; [by rewrite Hph in H|]. rewrite Et in H. by apply elem_of_nil in H. }
  split.
  - destruct HA. split; unfold tk, item_ok; rewrite ?readied_neutral, ?finish_neutral by done;
      try (rewrite handed_app, Hh, app_nil_r); simpl; try done.
    intros i it Hi. exfalso. rewrite Forall_forall in Hpost. by apply Hpost in Hi.
  - by eapply invB_frame.
  - destruct HC. split; simpl; rewrite ?Hph, ?readied_neutral, ?finish_neutral by done; try done.
    + intros Hs n x Hx. destruct soft; [done|]. destruct (sv_soft (st_sv s)); [by specialize (Hs1 eq_refl)|].
      destruct (c_stat eq_refl n x Hx) as [H1 H2]. unfold unmet in *. by rewrite good_neutral, bad_neutral.
    + intros _ Hs. destruct soft; [done|]. destruct (sv_soft (st_sv s)); [by specialize (Hs1 eq_refl)|].
      rewrite good_neutral by done. by apply c_ready.
    + by apply causal_neutral.
    + unfold exiting. simpl. intros Hn. destruct Hs2 as [Hs2| ->]; [|done]. destruct Hn. by right.
    + intros _ _ Hpos. by apply c_live.
  - eapply (invD_server cfg s _ t [o] [] [] [] post); try done.
    + by apply neutral_readied.
    + by apply neutral_finish.
    + intros n. rewrite occ_nil. lia.
    + intros n Hn. by apply elem_of_nil in Hn.
    + intros i it Hi. by apply elem_of_nil in Hi.
    + intros n a Hi. by apply elem_of_nil in Hi.
    + intros a Hi. by apply elem_of_nil in Hi.
    + intros a Hi. by apply elem_of_nil in Hi.
    + right. split; [|done]. intros k Hi. by apply elem_of_nil in Hi.
Qed.

Lemma inv_initial : config_ok cfg -> Inv cfg (initial cfg) [].
Proof.
  intros Hok.
  assert (forall i (q : list item), repeat [] NUM_RUNNER_TYPES !! i = Some q -> q = []) as Hq.
  { intros i q H. apply elem_of_list_lookup_2, elem_of_list_In, repeat_spec in H. done. }
  assert (forall i b, repeat false NUM_RUNNER_TYPES !! i = Some b -> b = false) as Hfalse.
  { intros i b H. by apply elem_of_list_lookup_2, elem_of_list_In, repeat_spec in H. }
  assert (forall c x, map (fun _ => CIdle) (cf_types cfg) !! c = Some x -> x = CIdle) as Hcl.
  { intros c x H. apply elem_of_list_lookup_2, elem_of_list_fmap in H as (y & -> & _). done. }
  assert (forall (f : cstate -> option nat) n, f CIdle = None -> occ n (omap f (map (fun _ => CIdle) (cf_types cfg))) = 0) as Hz.
  { intros f n Hf. rewrite omap_map_none by done. done. }
  split.
  - split; unfold tk, nhold, nrun, nfe, nse, nclaim, ninf; simpl; rewrite ?Hz by done; try done.
    + intros n. rewrite occ_nil. lia.
    + intros n Hn. by apply elem_of_nil in Hn.
    + intros n. rewrite !Hz by done. unfold tkb. rewrite elements_empty. done.
    + intros n. rewrite !Hz by done. unfold tkb. rewrite elements_empty. done.
    + intros n. rewrite !Hz by done. rewrite lookup_empty, decide_False by (by intros []). rewrite occ_nil. lia.
    + intros e1 n x v f e2 H. by destruct e1.
    + intros i q it H Hi. rewrite (Hq i q H) in Hi. by apply elem_of_nil in Hi.
    + intros i it Hi. by apply elem_of_nil in Hi.
    + intros c it H. by apply Hcl in H.
    + intros c it H. by apply Hcl in H.
    + by rewrite map_length.
  - split.
    + apply (log_writes_good (LogFile empty_log_state []) (lf_entries (cf_log cfg))); [|apply Hok].
      apply new_log_good.
    + exists []. simpl. rewrite app_nil_r. split; [done|]. split; try done.
      intros l1 e l2 H. by destruct l1.
  - split; simpl; try done.
    + unfold initial_statuses. by rewrite map_length, seq_length.
    + intros _ n x Hx. unfold initial_statuses in Hx. rewrite list_lookup_fmap in Hx.
      destruct (seq 0 (node_count g) !! n) as [n'|] eqn:En; [|done]. apply lookup_seq in En as [-> _].
      simpl in Hx. injection Hx as <-. simpl. split.
      * split; [done|]. intros (m & _ & Hm). by apply elem_of_nil in Hm.
      * intros _. unfold unmet. simpl. induction (in_neighbors g n) as [|y l IH]; [done|]. simpl. f_equal. done.
    + intros t1 n t2 H. by destruct t1.
    + intros [H|H]; [done|by apply elem_of_nil in H].
  - split; simpl; try done.
    + intros i q it H Hi. rewrite (Hq i q H) in Hi. by apply elem_of_nil in Hi.
    + intros c it H. by apply Hcl in H.
    + intros c it H. by apply Hcl in H.
    + intros l1 i it l2 H. by destruct l1.
    + constructor.
    + intros n a Hn. by apply elem_of_nil in Hn.
    + intros n a Hn. by apply elem_of_nil in Hn.
    + intros n Hn. by apply elem_of_nil in Hn.
    + intros l1 k l2 H. by destruct l1.
    + intros _ a Hn. by apply elem_of_nil in Hn.
    + intros _. split.
      * intros k Hn. by apply elem_of_nil in Hn.
      * exact Hfalse.
Qed.

Lemma plain_soft : Forall plain (close_all ++ zero_all cfg ++ [IUnsetSoft]).
Proof.
  apply Forall_app. split; [apply plain_close|]. apply Forall_app. split; [apply plain_zero|].
  by repeat constructor.
Qed.
Lemma plain_leave : Forall plain (close_all ++ IBreak :: zero_all cfg).
Proof. apply Forall_app. split; [apply plain_close|]. constructor; [done|]. apply plain_zero. Qed.

Lemma inv_leave s t c : Inv cfg s t -> st_phase s = PLoop -> st_todo s = [] ->
  forall s' os, leave cfg s c = (s', os) -> Inv cfg s' (t ++ os).
Proof.
  intros HI Hph Et s' os H. unfold leave in H. injection H as <- <-.
  assert (IBreak ∈ close_all ++ IBreak :: zero_all cfg) as Hb.
  { rewrite elem_of_app. right. by left. }
  apply inv_close; try done; [apply plain_leave|by left].
Qed.

Lemma server_idle_true s : server_idle s = true -> st_phase s = PLoop /\ st_todo s = [].
Proof. unfold server_idle. by destruct (st_phase s), (st_todo s). Qed.

(** Every action other than the drain. *)
Lemma inv_step s t a s' os :
  config_ok cfg -> Inv cfg s t -> step cfg s a = Some (s', os) ->
  (forall order now, a <> ADrain order now) -> Inv cfg s' (t ++ os).
Proof.
  intros Hok HI H Hnd. destruct a; cbn [step] in H.
  - destruct (st_phase s) eqn:Hph; try done.
    destruct (is_reordering order (roots cfg)) eqn:Hord; [|done].
    eapply inv_init; try done.
  - destruct (st_phase s) eqn:Hph; try done; (destruct (st_todo s) as [|i rest] eqn:Et; [done|]);
      injection H as H; eapply inv_instr; try done; by rewrite Hph.
  - destruct (server_idle s) eqn:Hi; [|done]. apply server_idle_true in Hi as [Hph Et].
    destruct (st_events s) as [|[id host pid slurm|id x v f] rest] eqn:Ev; [done| |].
    + injection H as H. eapply inv_started; done.
    + injection H as H. eapply inv_finished; done.
  - destruct (server_idle s) eqn:Hi; [|done]. apply server_idle_true in Hi as [Hph Et].
    destruct (st_soft_trigger s); [|done]. simpl in H. injection H as <- <-.
    apply inv_close; try done; [apply plain_soft|by right].
  - destruct (server_idle s) eqn:Hi; [|done]. apply server_idle_true in Hi as [Hph Et].
    destruct (st_hard s); cbn [andb] in H; [|done].
    assert (leave cfg s ExitHard = (s', os)) by congruence. by eapply inv_leave.
  - destruct (server_idle s) eqn:Hi; [|done]. apply server_idle_true in Hi as [Hph Et].
    assert (leave cfg s ExitCtrlC = (s', os)) by congruence. by eapply inv_leave.
  - by destruct (Hnd order now).
  - destruct (st_clients s !! c) as [[]|] eqn:Hc; try done.
    destruct (cf_types cfg !! c) as [i|]; [|done].
    destruct (st_closed s !! i) as [[]|]; injection H as <- <-;
      eapply inv_free; try done; by repeat constructor.
  - destruct (st_clients s !! c) as [[]|] eqn:Hc; try done.
    destruct (cf_types cfg !! c) as [i|] eqn:Ht; [|done].
    destruct (st_queues s !! i) as [q|] eqn:Hq; [|done].
    destruct (q !! j) as [it|] eqn:Hj; [|done]. destruct (is_max q it); [|done].
    injection H as <- <-. by apply inv_pop.
  - destruct (st_clients s !! c) as [[]|] eqn:Hc; try done.
    destruct (cf_types cfg !! c) as [i|]; [|done].
    destruct (st_queues s !! i) as [[|]|]; try done. destruct (st_closed s !! i) as [[]|]; try done.
    injection H as <- <-. eapply inv_free; try done; by repeat constructor.
  - destruct (st_clients s !! c) as [[]|] eqn:Hc; try done.
    destruct (decide (i_flag it ∈ st_taken s)) as [Hf|Hf]; injection H as <- <-.
    + by eapply inv_claim_no.
    + by eapply inv_claim_yes.
  - destruct (st_clients s !! c) as [[]|] eqn:Hc; try done.
    destruct (cf_types cfg !! c) as [i|] eqn:Ht; [|done].
    destruct (inv_count cfg s t c i it Hok HI Hc Ht) as (q & Hq & HI'). rewrite Hq in H.
    by injection H as <- <-.
  - destruct (st_clients s !! c) as [[]|] eqn:Hc; try done. injection H as <- <-.
    by apply inv_send_started.
  - destruct (st_clients s !! c) as [[]|] eqn:Hc; try done; injection H as <- <-;
      (eapply inv_send_finished; [done|done|]); [by left|by right].
  - destruct (st_clients s !! c) as [[]|] eqn:Hc; try done; injection H as <- <-.
    + eapply inv_free; try done.
    + eapply inv_free; try done.
    + by apply (inv_drop cfg s t c (CHolding n) n false).
    + by apply (inv_drop cfg s t c (CRunning n) n true).
  - injection H as <- <-. eapply inv_env; [done|]. left. by eexists.
  - injection H as <- <-. eapply inv_env; [done|]. right. by eexists.
Qed.
End reach.
