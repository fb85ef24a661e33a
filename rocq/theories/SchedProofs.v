(** Proofs of the scheduler properties. *)
From Verif Require Export SchedQueueTrace.

Section proofs.
Variable cfg : config.
Notation g := (cf_g cfg).
Hypothesis Hok : config_ok cfg.

Lemma b2n_le b : Nat.b2n b <= 1.
Proof. destruct b; simpl; lia. Qed.

Lemma done_silent s t a s' os : Done cfg s t -> step cfg s a = Some (s', os) -> os = [].
Proof.
  intros (s0 & t0 & os0 & now0 & order0 & HI & Hp0 & Ht0 & He & -> & Hdr & Hz & Hp & Hc & Hu) Hs.
  assert (Hcl : forall c x, st_clients s !! c = Some x -> ended x = true).
  { intros c x Hx. rewrite Hc in Hx. by eapply ended_no_client. }
  destruct a; cbn [step] in Hs; rewrite ?Hp in Hs; try done;
    try (unfold server_idle in Hs; rewrite Hp in Hs; done);
    try (destruct (st_clients s !! c) as [[]|] eqn:Hx; try done; specialize (Hcl _ _ Hx); done);
    by injection Hs as <- <-.
Qed.

Lemma full_split s t1 o t2 :
  reachable cfg s (t1 ++ o :: t2) ->
  exists s0 t0 a s' pre post,
    Full cfg s0 t0 /\ step cfg s0 a = Some (s', pre ++ o :: post) /\
    t1 = t0 ++ pre /\ obs_origin cfg s0 a (pre ++ o :: post) o /\
    (Full cfg s' (t1 ++ o :: post) \/ Done cfg s' (t1 ++ o :: post)) /\ exists t3, t2 = post ++ t3.
Proof.
  intros H. apply trace_split in H as (s0 & t0 & a & s' & pre & post & Hr & Hs & -> & Hr' & t3 & ->).
  exists s0, t0, a, s', pre, post. split_and!; try done.
  - destruct (reach_full cfg s0 t0 Hok Hr) as [?|Hd]; [done|]. apply (done_silent _ _ _ _ _ Hd) in Hs.
    by destruct pre.
  - apply step_origin in Hs. rewrite Forall_forall in Hs. apply Hs. apply elem_of_app. right. by left.
  - by apply reach_full.
  - eauto.
Qed.

Lemma sing_split {A} (pre post : list A) o : pre ++ o :: post = [o] -> pre = [] /\ post = [].
Proof. destruct pre as [|? []]; simpl; intros H; simplify_eq; done. Qed.

Lemma full_or_done s t : reachable cfg s t -> Full cfg s t \/ Done cfg s t.
Proof. by apply reach_full. Qed.

(** The loop part of a trace. *)
Lemma loop_part s t : reachable cfg s t ->
  exists s0 t0 os, Full cfg s0 t0 /\ t = t0 ++ os /\ Forall drain_obs os /\
    (os = [] /\ s0 = s \/ Done cfg s t /\ forall n, occ n (finish_order t0 ++ drained os) <= occ n (handed t0)).
Proof.
  intros H. apply full_or_done in H as [H|H].
  - exists s, t, []. rewrite app_nil_r. split_and!; try done. by left.
  - pose proof H as H'.
    destruct H as (s0 & t0 & os0 & now0 & order0 & HI & Hp0 & Ht0 & He & -> & Hdr & Hz & Hp & Hc & Hu).
    exists s0, t0, os0. split_and!; try done; [apply (z_obs _ _ _ _ _ _ Hz)|].
    right. split; [done|]. apply (z_nodup _ _ _ _ _ _ Hz).
Qed.

Lemma drain_readied os : Forall drain_obs os -> readied os = [].
Proof. induction 1 as [|o os Ho _ IH]; [done|]. destruct o; done. Qed.
Lemma drain_handed os : Forall drain_obs os -> handed os = [].
Proof. induction 1 as [|o os Ho _ IH]; [done|]. destruct o; done. Qed.
Lemma drain_finish os : Forall drain_obs os -> finish_order os = [].
Proof. induction 1 as [|o os Ho _ IH]; [done|]. destruct o; done. Qed.
Lemma drain_good os : Forall drain_obs os -> good os = [].
Proof. induction 1 as [|o os Ho _ IH]; [done|]. destruct o; done. Qed.
Lemma drain_bad os : Forall drain_obs os -> bad os = [].
Proof. induction 1 as [|o os Ho _ IH]; [done|]. destruct o; done. Qed.

(** ** C01 *)
Lemma handed_state s t1 c i n t2 :
  reachable cfg s (t1 ++ OHandedOut c i n :: t2) ->
  exists s0 it, Full cfg s0 t1 /\ st_clients s0 !! c = Some (CClaimed it) /\ n = i_id it /\
    cf_types cfg !! c = Some i /\ item_ok cfg t1 i it.
Proof.
  intros H. apply full_split in H as (s0 & t0 & a & s' & pre & post & HF & Hs & -> & Ho & _).
  destruct Ho as (-> & Hos & Ht & it & Hc & ->). apply sing_split in Hos as [-> ->]. rewrite app_nil_r.
  exists s0, it. split_and!; try done.
  destruct (a_claim _ _ _ (inv_a _ _ _ (f_inv _ _ _ HF)) c it Hc) as (i' & Ht' & Hit). congruence.
Qed.

Lemma readied_causal s t n m : Full cfg s t -> n ∈ readied t -> edge g m n -> succeeded t m.
Proof.
  intros HF Hn He. apply elem_of_good. eapply ready_deps_good; try done. apply (f_inv _ _ _ HF).
Qed.

Lemma c01 s t1 c i n t2 m :
  reachable cfg s (t1 ++ OHandedOut c i n :: t2) -> edge g m n -> succeeded t1 m.
Proof.
  intros H He. apply handed_state in H as (s0 & it & HF & Hc & -> & _ & (Hf & _)).
  eapply readied_causal; try done. by eapply elem_of_list_lookup_2.
Qed.

(** ** What happens to tasks that were not made ready *)
Lemma own_readied s t n : InvA cfg s t -> 0 < nhold s n + nrun s n + nfe s n + occ n (finish_order t) + occ n (handed t) + nse s n + ninf s n -> n ∈ readied t.
Proof.
  intros HA H. apply occ_pos. pose proof (a_own _ _ _ HA n). pose proof (a_hd _ _ _ HA n). pose proof (a_se _ _ _ HA n).
  pose proof (tkb_occ (st_taken s) (readied t) n). unfold tk in *. lia.
Qed.

Lemma nfe_pos s n x v f : EvFinished n x v f ∈ st_events s -> 0 < nfe s n.
Proof.
  intros H. unfold nfe. apply occ_pos. apply elem_of_list_omap. by exists (EvFinished n x v f).
Qed.
Lemma nse_pos s n h p j : EvStarted n h p j ∈ st_events s -> 0 < nse s n.
Proof.
  intros H. unfold nse. apply occ_pos. apply elem_of_list_omap. by exists (EvStarted n h p j).
Qed.
Lemma hold_pos s c n : st_clients s !! c = Some (CHolding n) -> 0 < nhold s n.
Proof.
  intros H. unfold nhold. apply occ_pos. apply elem_of_list_omap. exists (CHolding n). split; [|done]. by eapply elem_of_list_lookup_2.
Qed.
Lemma run_pos s c n : st_clients s !! c = Some (CRunning n) -> 0 < nrun s n.
Proof.
  intros H. unfold nrun. apply occ_pos. apply elem_of_list_omap. exists (CRunning n). split; [|done]. by eapply elem_of_list_lookup_2.
Qed.

Lemma drain_events_obs evs : forall sv q inf now sv' q' inf' os,
  drain_events cfg evs sv q inf now = Some (sv', q', inf', os) ->
  forall o, o ∈ os -> (exists n h p j, o = ODrainStarted n /\ EvStarted n h p j ∈ evs) \/
    exists n x v f, o = ODrainFinished n x /\ EvFinished n x v f ∈ evs.
Proof.
  induction evs as [|[id h p j|id x v f] evs IH]; intros sv q inf now sv' q' inf' os E o Ho; cbn [drain_events] in E.
  - injection E as _ _ _ <-. by apply elem_of_nil in Ho.
  - repeat case_match; try done. injection E as _ _ _ <-. apply elem_of_cons in Ho as [->|Ho].
    + left. exists id, h, p, j. split; [done|]. by left.
    + match goal with E : drain_events _ _ _ _ _ _ = _ |- _ =>
        destruct (IH _ _ _ _ _ _ _ _ E o Ho) as [(?&?&?&?&?&?)|(?&?&?&?&?&?)] end;
      [left|right]; eexists _, _, _, _; (split; [done|]); by right.
  - repeat case_match; try done. injection E as _ _ _ <-. apply elem_of_cons in Ho as [->|Ho].
    + right. exists id, x, v, f. split; [done|]. by left.
    + match goal with E : drain_events _ _ _ _ _ _ = _ |- _ =>
        destruct (IH _ _ _ _ _ _ _ _ E o Ho) as [(?&?&?&?&?&?)|(?&?&?&?&?&?)] end;
      [left|right]; eexists _, _, _, _; (split; [done|]); by right.
Qed.

Lemma drain_inflight_obs order : forall sv q now sv' q' os,
  drain_inflight cfg order sv q now = Some (sv', q', os) -> os = map (fun n => ODrainFinished n Disconnected) order.
Proof.
  induction order as [|id order IH]; intros sv q now sv' q' os E; cbn [drain_inflight] in E.
  - by injection E as _ _ <-.
  - repeat case_match; try done. injection E as _ _ <-. simpl. f_equal. by eapply IH.
Qed.

Lemma drain_split sv q evs order now sv' q' os :
  drain cfg sv q evs order now = Some (sv', q', os) ->
  exists sv1 q1 inf os1, drain_events cfg evs sv q (sv_inflight sv) now = Some (sv1, q1, inf, os1) /\
    is_reordering order (map fst (map_to_list inf)) = true /\
    drain_inflight cfg order (with_log_inflight sv1 (sv_log sv1) ∅) q1 now =
      Some (sv', q', map (fun n => ODrainFinished n Disconnected) order) /\
    os = os1 ++ map (fun n => ODrainFinished n Disconnected) order.
Proof.
  unfold drain. intros H. destruct (drain_events _ _ _ _ _ _) as [[[[sv1 q1] inf] os1]|] eqn:E; [|done].
  destruct (is_reordering _ _) eqn:Ho; [|done].
  destruct (drain_inflight _ _ _ _ _) as [[[sv2 q2] os2]|] eqn:E2; [|done]. injection H as <- <- <-.
  pose proof (drain_inflight_obs _ _ _ _ _ _ _ E2) as ->. exists sv1, q1, inf, os1. done.
Qed.

Lemma mentions_readied s t o n : reachable cfg s t -> o ∈ t -> mentions o n -> n ∈ readied t.
Proof.
  intros Hr Ho Hm. apply elem_of_list_split in Ho as (t1 & t2 & ->).
  apply full_split in Hr as (s0 & t0 & a & s' & pre & post & HF & Hs & -> & Hor & Hf' & t3 & ->).
  pose proof (inv_a _ _ _ (f_inv _ _ _ HF)) as HA.
  assert (Hin : n ∈ readied t0 -> n ∈ readied ((t0 ++ pre) ++ o :: post ++ t3)).
  { intros H. rewrite !readied_app, !elem_of_app. by left; left. }
  destruct o; simpl in Hm; subst; try done.
  - rewrite elem_of_readied. unfold made_ready. apply in_or_app. right. by left.
  - destruct Hor as (it & rest & Ht & ->). apply Hin.
    pose proof (a_todo _ _ _ HA i it) as Hit. rewrite Ht in Hit. destruct (Hit ltac:(by left)) as [(Hf & _) _].
    by eapply elem_of_list_lookup_2.
  - destruct Hor as (_ & _ & _ & it & Hc & ->). apply Hin.
    destruct (a_claim _ _ _ HA c it Hc) as (? & _ & Hf & _). by eapply elem_of_list_lookup_2.
  - destruct Hor as (_ & Hc). apply Hin. eapply own_readied; [done|]. apply hold_pos in Hc. lia.
  - destruct Hor as (_ & [Hc|Hc] & _); apply Hin; (eapply own_readied; [done|]).
    + apply hold_pos in Hc. lia.
    + apply run_pos in Hc. lia.
  - destruct Hor as (_ & h & p & j & rest & Hev). apply Hin. eapply own_readied; [done|].
    assert (0 < nse s0 n); [|lia]. eapply nse_pos. rewrite Hev. by left.
  - destruct Hor as (v & f & rest & Hev & _). apply Hin. eapply own_readied; [done|].
    assert (0 < nfe s0 n); [|lia]. eapply nfe_pos. rewrite Hev. by left.
  - destruct Hf' as [Hf'|Hd].
    + destruct (s_nodrain _ _ _ (f_ts _ _ _ Hf') (ODrainStarted n)); [|done]. apply elem_of_app. right. by left.
    + destruct Hd as (s1 & t1 & os0 & now0 & order0 & HF1 & Hp0 & Ht0 & He & Heq & Hdr & Hz & _).
      pose proof (z_obs _ _ _ _ _ _ Hz) as Hzo.
      assert (ODrainStarted n ∈ t1 ++ os0) as Hx by (rewrite <- Heq; apply elem_of_app; right; by left).
      apply elem_of_app in Hx as [Hx|Hx]; [by apply (s_nodrain _ _ _ (f_ts _ _ _ HF1)) in Hx|].
      rewrite app_comm_cons, List.app_assoc, readied_app, Heq, readied_app, !elem_of_app. left. left.
      apply drain_split in Hdr as (sv1 & q1 & inf & os1 & E & _ & _ & ->).
      apply elem_of_app in Hx as [Hx|Hx]; [|by apply elem_of_list_fmap in Hx as (? & ? & _)].
      eapply drain_events_obs in Hx as [(n' & h & p & j & [= ->] & Hev)|(?&?&?&?&?&_)]; [|done|done].
      eapply own_readied; [apply (f_inv _ _ _ HF1)|]. assert (0 < nse s1 n'); [|lia]. by eapply nse_pos.
  - destruct Hf' as [Hf'|Hd].
    + destruct (s_nodrain _ _ _ (f_ts _ _ _ Hf') (ODrainFinished n s1)); [|done]. apply elem_of_app. right. by left.
    + destruct Hd as (s2 & t1 & os0 & now0 & order0 & HF1 & Hp0 & Ht0 & He & Heq & Hdr & Hz & _).
      assert (ODrainFinished n s1 ∈ t1 ++ os0) as Hx by (rewrite <- Heq; apply elem_of_app; right; by left).
      apply elem_of_app in Hx as [Hx|Hx]; [by apply (s_nodrain _ _ _ (f_ts _ _ _ HF1)) in Hx|].
      rewrite app_comm_cons, List.app_assoc, readied_app, Heq, readied_app, !elem_of_app. left. left.
      eapply own_readied; [apply (f_inv _ _ _ HF1)|].
      assert (0 < occ n (handed t1)); [|lia].
      pose proof (z_nodup _ _ _ _ _ _ Hz n) as Hzn. rewrite occ_app in Hzn.
      assert (0 < occ n (drained os0)); [|lia]. apply occ_pos. apply elem_of_list_omap. eauto.
  - destruct Hor as (_ & rest & Ht).
    destruct (p_flag _ _ _ (f_tp _ _ _ HF) n f) as (c & x & e & _ & Hx); [rewrite Ht; by left|].
    apply Hin. eapply own_readied; [done|]. assert (0 < occ n (finish_order t0)); [|lia].
    apply occ_pos. apply elem_of_finish_order. exists x, e. by apply elem_of_list_In.
Qed.

(** ** C02 *)
Lemma bad_not_good s t n : Full cfg s t -> n ∈ bad t -> n ∉ good t.
Proof.
  intros HF Hb Hg. apply occ_pos in Hb, Hg. pose proof (occ_good_bad t n).
  pose proof (finish_nodup cfg s t n (inv_a _ _ _ (f_inv _ _ _ HF))). lia.
Qed.

Lemma good_readied s t n : Full cfg s t -> n ∈ good t -> n ∈ readied t.
Proof.
  intros HF Hg. eapply own_readied; [apply (f_inv _ _ _ HF)|]. apply occ_pos in Hg. pose proof (occ_good_bad t n). lia.
Qed.

Lemma not_good_unready s t n m : Full cfg s t -> n ∉ good t -> reaches g n m -> m ∉ readied t.
Proof.
  intros HF Hn (k & Hk & Hp). revert Hk Hn. induction Hp as [u|u v w k He Hp IH]; intros Hk Hn; [lia|].
  assert (v ∉ readied t) as Hv.
  { intros Hv. apply Hn. eapply ready_deps_good; try done. apply (f_inv _ _ _ HF). }
  destruct k as [|k].
  - inversion Hp; subst. done.
  - apply IH; [lia|]. intros Hg. apply Hv. by eapply good_readied.
Qed.

Lemma ended_badly_not_good s t n : reachable cfg s t -> ended_badly t n ->
  exists s0 t0 os, Full cfg s0 t0 /\ t = t0 ++ os /\ Forall drain_obs os /\ n ∉ good t0.
Proof.
  intros Hr Hb. apply loop_part in Hr as (s0 & t0 & os & HF & -> & Hos & Hcase).
  exists s0, t0, os. split_and!; try done.
  destruct Hb as (x & Hx & [[e Hin]|Hin]); apply elem_of_list_In, elem_of_app in Hin as [Hin|Hin].
  - eapply bad_not_good; [done|]. apply elem_of_bad. exists x. split; [|done]. exists e. by apply elem_of_list_In.
  - rewrite Forall_forall in Hos. by apply Hos in Hin.
  - by apply (s_nodrain _ _ _ (f_ts _ _ _ HF)) in Hin.
  - destruct Hcase as [[-> _]|[_ Hz]]; [by apply elem_of_nil in Hin|].
    intros Hg. apply occ_pos in Hg. pose proof (occ_good_bad t0 n). specialize (Hz n). rewrite occ_app in Hz.
    assert (0 < occ n (drained os)). { apply occ_pos. apply elem_of_list_omap. eauto. }
    pose proof (a_hd _ _ _ (inv_a _ _ _ (f_inv _ _ _ HF)) n). pose proof (b2n_le (tkb (st_taken s0) (readied t0) n)).
    unfold tk in *. lia.
Qed.

Lemma c02_unready s t n m : reachable cfg s t -> ended_badly t n -> reaches g n m -> m ∉ readied t.
Proof.
  intros Hr Hb Hm. destruct (ended_badly_not_good s t n Hr Hb) as (s0 & t0 & os & HF & -> & Hos & Hg).
  rewrite readied_app, (drain_readied os Hos), app_nil_r. by eapply not_good_unready.
Qed.

Lemma c02 s t n m : reachable cfg s t -> ended_badly t n -> reaches g n m ->
  forall o, In o t -> ~ mentions o m.
Proof.
  intros Hr Hb Hm o Ho Hmm. apply (c02_unready s t n m Hr Hb Hm). eapply mentions_readied; try done.
  by apply elem_of_list_In.
Qed.

(** Log records of a call. *)
Lemma log_records s t : reachable cfg s t ->
  exists new inf fin, new_records cfg s new /\ log_good (sv_log (st_sv s)) /\
    DL cfg new inf (readied t) fin (good t) (omap (fin_obs cfg) t) /\
    (st_phase s = PDrained -> inf = ∅) /\ (forall n, n ∈ fin -> n ∈ handed t).
Proof.
  intros Hr. apply full_or_done in Hr as [HF|HD].
  - destruct (f_inv _ _ _ HF) as [HA (Hg & new & Hn & Hln) HC HD].
    exists new, (sv_inflight (st_sv s)), (finish_order t). split_and!; try done.
    + by eapply log_new_DL.
    + intros H. by destruct (c_phase _ _ _ HC).
    + intros n Hx. apply occ_pos. apply occ_pos in Hx. pose proof (inv_handed_sub cfg s t HA n). lia.
  - destruct HD as (s0 & t0 & os0 & now0 & order0 & HF & Hp0 & Ht0 & He & -> & Hdr & Hz & Hp & Hc & Hu).
    destruct Hz as [(Hg & new & Hn & HDL) Hq Hnd Hfo Hin Hso Hob].
    exists new, ∅, (finish_order t0 ++ drained os0). split_and!; try done.
    + by rewrite readied_app, (drain_readied os0 Hob), app_nil_r, good_app, (drain_good os0 Hob), app_nil_r.
    + intros n Hx. rewrite handed_app, elem_of_app. left. apply occ_pos. apply occ_pos in Hx. specialize (Hnd n). lia.
Qed.

Lemma c02_log s t n m : reachable cfg s t -> ended_badly t n -> reaches g n m -> m < node_count g ->
  exists new, new_records cfg s new /\ history (task_key cfg m) new = [].
Proof.
  intros Hr Hb Hm Hlt. destruct (log_records s t Hr) as (new & inf & fin & Hnew & _ & HDL & _).
  exists new. split; [done|]. rewrite (l_stage _ _ _ _ _ _ _ HDL) by done. unfold stage'.
  rewrite decide_False; [done|]. by eapply c02_unready.
Qed.

(** ** C03 *)
Lemma c03 s t : reachable cfg s t -> NoDup (handed t).
Proof.
  intros Hr. apply loop_part in Hr as (s0 & t0 & os & HF & -> & Hos & _).
  rewrite handed_app, (drain_handed os Hos), app_nil_r. apply occ_nodup. intros n.
  pose proof (a_hd _ _ _ (inv_a _ _ _ (f_inv _ _ _ HF)) n). pose proof (b2n_le (tkb (st_taken s0) (readied t0) n)).
  unfold tk in *. lia.
Qed.

(** ** C04 *)
Lemma c04 s t c i n : reachable cfg s t -> In (OHandedOut c i n) t ->
  cf_types cfg !! c = Some i /\ i < 64 /\ N.testbit (aff cfg n) (N.of_nat i) = true.
Proof.
  intros Hr Hin. apply elem_of_list_In, elem_of_list_split in Hin as (t1 & t2 & ->).
  apply handed_state in Hr as (s0 & it & HF & Hc & -> & Hty & (Hf & Hb & cm & Hcm & Ha & _)).
  split; [done|]. split.
  - destruct (k_type _ _ _ (f_tc _ _ _ HF) c (CClaimed it) Hc) as (i' & Hi' & Hlt); [done|].
    rewrite Hty in Hi'. by injection Hi' as ->.
  - unfold aff. rewrite Hcm. by rewrite <- Ha.
Qed.

Lemma c04_checked s t c i : reachable cfg s t -> st_clients s !! c = Some CIdle -> cf_types cfg !! c = Some i ->
  exists s' os, step cfg s (ARecv c) = Some (s', os) /\
    (64 <= i -> os = [ORecvErr c NoSuchRunnerType]) /\ (i < 64 -> ~ In (ORecvErr c NoSuchRunnerType) os).
Proof.
  intros Hr Hc Hi. destruct (full_or_done _ _ Hr) as [HF|HD].
  2:{ destruct HD as (s0 & t0 & os & now & order & _ & _ & _ & He & _ & _ & _ & _ & Hcl & _). rewrite Hcl in Hc.
      rewrite forallb_forall in He. apply elem_of_list_lookup_2, elem_of_list_In, He in Hc. done. }
  pose proof (inv_a _ _ _ (f_inv _ _ _ HF)) as HA. cbn [step]. rewrite Hc, Hi.
  destruct (st_closed s !! i) as [[|]|] eqn:Hcl; (eexists _, _; split; [reflexivity|]).
  - apply lookup_lt_Some in Hcl. rewrite (a_nc _ _ _ HA) in Hcl. unfold NUM_RUNNER_TYPES in Hcl. split; [lia|]. intros _ [H|[]]. discriminate.
  - apply lookup_lt_Some in Hcl. rewrite (a_nc _ _ _ HA) in Hcl. unfold NUM_RUNNER_TYPES in Hcl. split; [lia|]. by intros _ [].
  - apply lookup_ge_None in Hcl. rewrite (a_nc _ _ _ HA) in Hcl. unfold NUM_RUNNER_TYPES in Hcl. split; [done|]. lia.
Qed.

Lemma c04_error s t c e : reachable cfg s t -> In (ORecvErr c e) t ->
  exists i, cf_types cfg !! c = Some i /\ (e = NoSuchRunnerType <-> 64 <= i).
Proof.
  intros Hr Hin. apply elem_of_list_In, elem_of_list_split in Hin as (t1 & t2 & ->).
  apply full_split in Hr as (s0 & t0 & a & s' & pre & post & HF & Hs & -> & (Hos & Hor) & _).
  pose proof (inv_a _ _ _ (f_inv _ _ _ HF)) as HA. rewrite Hos in Hs.
  destruct e.
  - destruct Hor as (-> & i & Hi & Hcl). exists i. split; [done|].
    apply lookup_ge_None in Hcl. rewrite (a_nc _ _ _ HA) in Hcl. done.
  - destruct Hor as (-> & i & Hi & Hcl). exists i. split; [done|].
    apply lookup_lt_Some in Hcl. rewrite (a_nc _ _ _ HA) in Hcl. unfold NUM_RUNNER_TYPES in Hcl. split; [done|lia].
  - subst a. cbn [step] in Hs. destruct (st_clients s0 !! c) as [[]|] eqn:Hc; try done.
    destruct (k_type _ _ _ (f_tc _ _ _ HF) c CWait Hc) as (i' & Hi' & Hlt); [done|].
    exists i'. split; [done|]. unfold NUM_RUNNER_TYPES in Hlt. split; [done|lia].
Qed.

(** ** C08 *)
Lemma c08 s t : reachable cfg s t -> ~ In OPanic t /\ st_phase s <> PPanicked.
Proof.
  intros Hr. assert (Hall : forall s t, reachable cfg s t -> st_phase s <> PPanicked).
  { intros s1 t1 H1. apply full_or_done in H1 as [HF|HD].
    - apply (c_phase _ _ _ (inv_c _ _ _ (f_inv _ _ _ HF))).
    - destruct HD as (s0 & t0 & os0 & now0 & order0 & HF & Hp0 & Ht0 & He & -> & Hdr & Hz & Hp & Hc & Hu). congruence. }
  split; [|by eapply Hall]. intros Hin. apply elem_of_list_In, elem_of_list_split in Hin as (t1 & t2 & ->).
  apply trace_split in Hr as (s0 & t0 & a & s' & pre & post & Hr & Hs & -> & Hr' & t3 & ->).
  apply (Hall _ _ Hr').
  assert (OPanic ∈ pre ++ OPanic :: post) as Hp by (apply elem_of_app; right; by left).
  revert Hs Hp. generalize (pre ++ OPanic :: post). clear. intros os H Hp.
  destruct a; cbn [step] in H.
  - destruct (st_phase s0); try done. destruct (is_reordering _ _); [|done].
    destruct (add_to_ready_queue _ _ _) as [[[sv is] os']|] eqn:E; injection H as <- <-; [|done].
    apply atrq_obs in E as ->. by apply elem_of_list_fmap in Hp as (? & ? & _).
  - destruct (st_phase s0); try done; (destruct (st_todo s0) as [|i rest]; [done|]); injection H as H;
    destruct i; cbn [exec_instr] in H; repeat case_match; try unfold panic in H; injection H as <- <-; try done;
      try (by apply elem_of_nil in Hp); by apply elem_of_list_singleton in Hp.
  - destruct (server_idle s0); [|done]. destruct (st_events s0) as [|[id h p j|id x v f] rest]; [done| |];
    change (st_sv (set_events s0 rest)) with (st_sv s0) in H.
    + destruct (handle_started cfg (st_sv s0) id h p j now) as [[[sv is] os']|] eqn:E; cbn [server_result] in H; injection H as <- <-; [|done].
      apply handle_started_obs in E as [-> ->]. by apply elem_of_list_singleton in Hp.
    + destruct (handle_finished cfg (st_sv s0) id x v f now) as [[[sv is] os']|] eqn:E; cbn [server_result] in H; injection H as <- <-; [|done].
      apply handle_finished_obs in E as (ready & tail & -> & Hs & _). rewrite Forall_forall in Hs. by apply Hs in Hp.
  - destruct (server_idle s0 && st_soft_trigger s0); [|done]. injection H as <- <-. by apply elem_of_list_singleton in Hp.
  - destruct (server_idle s0 && st_hard s0); [|done]. injection H as <- <-. by apply elem_of_list_singleton in Hp.
  - destruct (server_idle s0); [|done]. injection H as <- <-. by apply elem_of_list_singleton in Hp.
  - destruct (st_phase s0); try done. destruct (st_todo s0); [|done]. destruct (forallb _ _); [|done].
    destruct (drain_events _ _ _ _ _ _) as [[[[sv1 q1] inf] os1]|] eqn:E; [|injection H as <- <-; done].
    destruct (is_reordering _ _) eqn:Hord; [|done].
    destruct (drain _ _ _ _ _ _) as [[[sv2 q2] os2]|] eqn:E2; injection H as <- <-; [|done]. exfalso.
    apply drain_split in E2 as (sv3 & q3 & inf3 & os3 & E3 & _ & _ & ->). apply elem_of_app in Hp as [Hp|Hp].
    + by eapply drain_events_obs in Hp as [(?&?&?&?&?&_)|(?&?&?&?&?&_)].
    + by apply elem_of_list_fmap in Hp as (? & ? & _).
  - repeat case_match; try done; injection H as <- <-; first [by apply elem_of_nil in Hp|by apply elem_of_list_singleton in Hp].
  - repeat case_match; try done; injection H as <- <-; first [by apply elem_of_nil in Hp|by apply elem_of_list_singleton in Hp].
  - repeat case_match; try done; injection H as <- <-; first [by apply elem_of_nil in Hp|by apply elem_of_list_singleton in Hp].
  - repeat case_match; try done; injection H as <- <-; first [by apply elem_of_nil in Hp|by apply elem_of_list_singleton in Hp].
  - repeat case_match; try done; try unfold panic in H; injection H as <- <-; first [done|by apply elem_of_nil in Hp|by apply elem_of_list_singleton in Hp].
  - repeat case_match; try done; injection H as <- <-; first [by apply elem_of_nil in Hp|by apply elem_of_list_singleton in Hp].
  - repeat case_match; try done; injection H as <- <-; first [by apply elem_of_nil in Hp|by apply elem_of_list_singleton in Hp].
  - repeat case_match; try done; injection H as <- <-; first [by apply elem_of_nil in Hp|by apply elem_of_list_singleton in Hp].
  - injection H as <- <-; by apply elem_of_nil in Hp.
  - injection H as <- <-; by apply elem_of_nil in Hp.
Qed.
End proofs.
