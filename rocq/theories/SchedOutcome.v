(** Proofs of the scheduler properties: result, counters, limits, log. *)
From Verif Require Export SchedProofs.

Lemma omap_split {A B} (f : A -> option B) l l1 b l2 :
  omap f l = l1 ++ b :: l2 -> exists t1 a t2, l = t1 ++ a :: t2 /\ omap f t1 = l1 /\ f a = Some b /\ omap f t2 = l2.
Proof.
  revert l1. induction l as [|a l IH]; intros l1 H; [by destruct l1|].
  change (omap f (a :: l)) with (match f a with Some x => x :: omap f l | None => omap f l end) in H.
  destruct (f a) as [x|] eqn:E.
  - destruct l1 as [|y l1]; simpl in H; injection H as -> H.
    + exists [], a, l. done.
    + destruct (IH _ H) as (t1 & a' & t2 & -> & <- & E2 & <-). exists (a :: t1), a', t2. split_and!; try done.
      change (omap f (a :: t1)) with (match f a with Some x => x :: omap f t1 | None => omap f t1 end). by rewrite E.
  - destruct (IH _ H) as (t1 & a' & t2 & -> & <- & E2 & <-). exists (a :: t1), a', t2. split_and!; try done.
    change (omap f (a :: t1)) with (match f a with Some x => x :: omap f t1 | None => omap f t1 end). by rewrite E.
Qed.

Lemma filter_len_omap {A B} (f : A -> option B) (p : B -> bool) l :
  length (List.filter p (omap f l)) = length (List.filter (fun a => match f a with Some b => p b | None => false end) l).
Proof.
  induction l as [|a l IH]; [done|].
  change (omap f (a :: l)) with (match f a with Some x => x :: omap f l | None => omap f l end).
  simpl. destruct (f a); simpl; [|done]. destruct (p b); simpl; by rewrite IH.
Qed.

Section outcome.
Variable cfg : config.
Notation g := (cf_g cfg).
Hypothesis Hok : config_ok cfg.

(** ** C05 *)
Lemma c05 s t c j s' os :
  reachable cfg s t -> step cfg s (APop c j) = Some (s', os) ->
  exists i it, cf_types cfg !! c = Some i /\ st_clients s' !! c = Some (CPopped it) /\
    (exists cm, nodes g !! i_id it = Some cm /\ i_priority it = c_priority cm) /\
    forall m cm, OPushed i m ∈ t -> m ∉ handed t ->
      (forall c' it', st_clients s !! c' = Some (CClaimed it') -> i_id it' <> m) ->
      (forall c' it', st_clients s !! c' = Some (CPopped it') -> cf_types cfg !! c' = Some i -> i_id it' <> m) ->
      nodes g !! m = Some cm -> (c_priority cm <= i_priority it)%N.
Proof.
  intros Hr Hs.
  assert (Full cfg s t) as HF.
  { destruct (full_or_done cfg Hok s t Hr) as [?|HD]; [done|].
    destruct HD as (s0 & t0 & os0 & now0 & order0 & HF & Hp0 & Ht0 & He & -> & Hdr & Hz & Hp & Hc & Hu).
    cbn [step] in Hs. destruct (st_clients s !! c) as [[]|] eqn:Hx; try done.
    rewrite Hc in Hx. by pose proof (ended_no_client s0 c _ He Hx). }
  pose proof (inv_a _ _ _ (f_inv _ _ _ HF)) as HA.
  cbn [step] in Hs. destruct (st_clients s !! c) as [[]|] eqn:Hx; try done.
  destruct (cf_types cfg !! c) as [i|] eqn:Hty; [|done].
  destruct (st_queues s !! i) as [q|] eqn:Hq; [|done]. destruct (q !! j) as [it|] eqn:Hj; [|done].
  destruct (is_max q it) eqn:Hmax; [|done]. injection Hs as <- <-.
  exists i, it. split; [done|].
  assert (Hit : item_ok cfg t i it) by (eapply (a_q _ _ _ HA); [done|]; by eapply elem_of_list_lookup_2).
  split. { cbn. apply list_lookup_insert. by eapply lookup_lt_Some. }
  split. { destruct Hit as (_ & _ & cm & H1 & _ & H2). by exists cm. }
  intros m cm Hp Hh Hcl Hpo Hm.
  pose proof (p_pushed _ _ _ (f_tp _ _ _ HF) i m Hp) as Hrd.
  apply elem_of_list_lookup in Hrd as [f Hf].
  assert (f ∉ st_taken s) as Hnt.
  { intros Hin. assert (tkb (st_taken s) (readied t) m = true) as Htk by (apply tkb_true; eauto).
    pose proof (a_hd _ _ _ HA m) as Hhd. unfold tk in Hhd. rewrite Htk in Hhd. simpl in Hhd.
    assert (occ m (handed t) = 0) as E0.
    { destruct (occ m (handed t)) eqn:E; [done|]. destruct Hh. apply occ_pos. lia. }
    assert (0 < nclaim s m) as Hnc by lia. unfold nclaim in Hnc. apply occ_pos, elem_of_list_omap in Hnc as (x & Hx1 & Hx2).
    apply elem_of_list_lookup in Hx1 as [c' Hc']. destruct x; try done. injection Hx2 as Hx2. by eapply Hcl. }
  destruct (p_offered _ _ _ (f_tp _ _ _ HF) f m i Hf Hnt Hp) as (it' & _ & Hid & [(q' & Hq' & Hin)|(c' & Hc' & Hty')]).
  - rewrite Hq in Hq'. injection Hq' as <-.
    unfold is_max in Hmax. rewrite forallb_forall in Hmax. specialize (Hmax it'). rewrite <- elem_of_list_In in Hmax.
    apply Hmax in Hin as Hle. apply N.leb_le in Hle.
    destruct (a_q _ _ _ HA i q it' Hq Hin) as (_ & _ & cm' & Hcm' & _ & Hpr). rewrite Hid, Hm in Hcm'. injection Hcm' as <-. lia.
  - by destruct (Hpo c' it' Hc' Hty').
Qed.

(** ** C06 *)
Lemma soft_none t : (forall c, ~ In (OSoft c) t) -> existsb is_soft t = false.
Proof.
  intros H. destruct (existsb is_soft t) eqn:E; [|done]. apply existsb_exists in E as (o & Ho & Hs).
  destruct o; try done. by apply H in Ho.
Qed.
Lemma exit_none t : (forall c, ~ In (OExit c) t) -> existsb is_exit t = false.
Proof.
  intros H. destruct (existsb is_exit t) eqn:E; [|done]. apply existsb_exists in E as (o & Ho & Hs).
  destruct o; try done. by apply H in Ho.
Qed.

Lemma all_finished s t n : Full cfg s t -> sv_n_roi (st_sv s) = 0%N -> n ∈ readied t -> n ∈ finish_order t.
Proof.
  intros HF H0 Hn. pose proof (inv_a _ _ _ (f_inv _ _ _ HF)) as HA.
  pose proof (c_roi _ _ _ (inv_c _ _ _ (f_inv _ _ _ HF))) as Hroi. rewrite H0 in Hroi.
  assert (length (finish_order t) = length (readied t)) as Hlen by lia.
  assert (finish_order t ⊆+ readied t) as Hsub.
  { apply occ_submset; intros k; pose proof (a_own _ _ _ HA k); pose proof (tkb_occ (st_taken s) (readied t) k);
      pose proof (b2n_le (tkb (st_taken s) (readied t) k)); unfold tk in *; lia. }
  assert (finish_order t ≡ₚ readied t) as Hp by (apply submseteq_Permutation_length_eq; done). by rewrite Hp.
Qed.

Lemma exit_last s now s' pre c post :
  step cfg s (AEvent now) = Some (s', pre ++ OExit c :: post) -> post = [].
Proof.
  cbn [step]. destruct (server_idle s); [|done]. destruct (st_events s) as [|[id h p j|id x v f] rest]; [done| |].
  - change (st_sv (set_events s rest)) with (st_sv s). intros H.
    destruct (handle_started cfg (st_sv s) id h p j now) as [[[sv is] os']|] eqn:E; cbn [server_result] in H.
    + apply handle_started_obs in E as [-> ->]. injection H as _ H. by destruct pre as [|? []].
    + injection H as _ H. by destruct pre as [|? []].
  - change (st_sv (set_events s rest)) with (st_sv s). intros H.
    destruct (handle_finished cfg (st_sv s) id x v f now) as [[[sv is] os']|] eqn:E; cbn [server_result] in H.
    + apply handle_finished_inv in E as (cm & items & ready & over & stop & Hall). cbn zeta in Hall.
      destruct Hall as (_&_&_&_&_&_&_&_&_&_&_&_&_&_&_&Hos). injection H as _ H. rewrite Hos in H. clear Hos.
      destruct post as [|o post]; [done|]. exfalso.
      set (e := if N.eqb _ 0 then ExitDone else ExitSoft) in H. clearbody e.
      assert (forall l, (forall o, o ∈ l -> is_exit o = false) -> forall b : bool,
        l ++ (if b then [OExit e] else []) = pre ++ OExit c :: o :: post -> False) as Hgen.
      { clear. intros l Hl b Heq. assert (existsb is_exit l = false) as E.
        { destruct (existsb is_exit l) eqn:E; [|done]. apply existsb_exists in E as (o' & Ho & Hx).
          apply elem_of_list_In, Hl in Ho. congruence. }
        apply app_eq_app in Heq as (k & [[-> Hk]|[-> Hk]]).
        - destruct k as [|o' k]; simpl in Hk; [by destruct b|]. injection Hk as <- Hk.
          rewrite existsb_app in E. simpl in E. by rewrite orb_true_r in E.
        - destruct k as [|? [|? k]]; destruct b; try done. }
      eapply (Hgen (OFinished id x (elapsed_of (st_sv s) id now) :: map OReady ready ++ (if over then [OSoft SoftFailures] else []))); cycle 1.
      * rewrite <- app_comm_cons, <- List.app_assoc. exact H.
      * intros o'. rewrite elem_of_cons, elem_of_app. intros [->|[Hx|Hx]]; [done| |].
        -- by apply elem_of_list_fmap in Hx as (? & -> & _).
        -- destruct over; [|by apply elem_of_nil in Hx]. by apply elem_of_list_singleton in Hx as ->.
    + injection H as _ H. by destruct pre as [|? []].
Qed.

Lemma exit_done_state s t1 t2 : reachable cfg s (t1 ++ OExit ExitDone :: t2) ->
  exists s1, Full cfg s1 (t1 ++ [OExit ExitDone]).
Proof.
  intros Hr. apply full_split in Hr as (s0 & t0 & a & s' & pre & post & HF & Hs & -> & (now & ->) & Hf' & t3 & ->); [|done].
  pose proof (exit_last _ _ _ _ _ _ Hs) as ->. destruct Hf' as [?|HD]; [eauto|]. exfalso.
  destruct HD as (s1 & t1 & os & now' & order & HF1 & _ & _ & _ & _ & _ & _ & Hp & _).
  cbn [step] in Hs. destruct (server_idle s0) eqn:Hid; [|done]. unfold server_idle in Hid.
  destruct (st_phase s0) eqn:Hp0; try done.
  destruct (st_events s0) as [|[id h p j|id x v f] rest]; [done| |]; injection Hs as Hs; unfold server_result in Hs;
  [destruct (handle_started _ _ _ _ _ _ _) as [[[]]|]|destruct (handle_finished _ _ _ _ _ _ _) as [[[]]|]];
    try unfold panic in Hs; injection Hs as <- _; cbn in Hp; congruence.
Qed.

Lemma c06 s t1 t2 n :
  reachable cfg s (t1 ++ OExit ExitDone :: t2) -> (forall c, ~ In (OSoft c) t1) -> n < node_count g ->
  finished t1 n \/ exists m, reaches g m n /\ failed t1 m.
Proof.
  intros Hr Hsoft. apply exit_done_state in Hr as [s1 HF].
  assert (st_phase s1 <> PInit) as Hph.
  { intros Hp. destruct (proj1 (s_exit _ _ _ (f_ts _ _ _ HF))) as [Hx|Hx].
    - apply existsb_exists. exists (OExit ExitDone). split; [apply in_or_app; right; by left|done].
    - congruence.
    - destruct (c_init _ _ _ (inv_c _ _ _ (f_inv _ _ _ HF)) Hp) as (_ & Ht & _). rewrite Ht in Hx. by apply elem_of_nil in Hx. }
  assert (sv_n_roi (st_sv s1) = 0%N) as H0.
  { apply (s_done _ _ _ (f_ts _ _ _ HF)). apply elem_of_app. right. by left. }
  assert (sv_soft (st_sv s1) = false) as Hs.
  { rewrite (s_soft _ _ _ (f_ts _ _ _ HF)), existsb_app, (soft_none t1 Hsoft). done. }
  assert (readied (t1 ++ [OExit ExitDone]) = readied t1) as Er by (rewrite readied_app; apply app_nil_r).
  assert (good (t1 ++ [OExit ExitDone]) = good t1) as Eg by (rewrite good_app; apply app_nil_r).
  assert (finish_order (t1 ++ [OExit ExitDone]) = finish_order t1) as Ef by (rewrite finish_order_app; apply app_nil_r).
  pose proof (c_ready _ _ _ (inv_c _ _ _ (f_inv _ _ _ HF)) Hph Hs) as Hready. rewrite Er, Eg in Hready.
  assert (forall n, n ∈ readied t1 -> n ∈ finish_order t1) as Hall.
  { intros k Hk. rewrite <- Ef. eapply all_finished; try done. by rewrite Er. }
  revert n. apply (acyclic_ind g _ (ok_wf _ Hok) (ok_acyclic _ Hok)). intros n Hn IH.
  destruct (decide (Forall (fun m => m ∈ good t1) (in_neighbors g n))) as [Hf|Hf].
  - left. apply elem_of_finish_order, Hall, Hready; [done|]. intros m Hm.
    rewrite Forall_forall in Hf. apply Hf. by apply elem_of_in_neighbors.
  - right. apply not_Forall_Exists in Hf; [|apply _]. apply Exists_exists in Hf as (m & Hm & Hng).
    apply elem_of_in_neighbors in Hm.
    assert (reaches g m n) as Hmn by (by apply reaches_edge).
    destruct (IH m Hm) as [Hfin|(k & Hk & Hbad)].
    + exists m. split; [done|]. destruct Hfin as [x Hx]. exists x. split; [done|]. intros ->. by apply Hng, elem_of_good.
    + exists k. split; [|done]. by eapply reaches_trans.
Qed.

(** As soon as every task made ready is finished, the loop ends. *)
Lemma c06_ends s t : reachable cfg s t -> st_phase s = PLoop -> st_todo s = [] -> 0 < node_count g ->
  (forall n, n ∈ readied t -> n ∈ finish_order t) -> False.
Proof.
  intros Hr Hp Ht Hn Hall. destruct (full_or_done cfg Hok s t Hr) as [HF|HD].
  - pose proof (inv_a _ _ _ (f_inv _ _ _ HF)) as HA. pose proof (inv_c _ _ _ (f_inv _ _ _ HF)) as HC.
    assert (~ exiting s) as Hx. { intros [Hx|Hx]; [congruence|]. rewrite Ht in Hx. by apply elem_of_nil in Hx. }
    pose proof (c_live _ _ _ HC Hp Hx Hn). pose proof (c_roi _ _ _ HC).
    assert (readied t ⊆+ finish_order t) as Hsub.
    { apply occ_submset; intros k; pose proof (a_nodup _ _ _ HA k); [|done].
      destruct (decide (k ∈ readied t)) as [Hk|Hk].
      - apply Hall, occ_pos in Hk. lia.
      - destruct (occ k (readied t)) eqn:E; [lia|]. destruct Hk. apply occ_pos. lia. }
    apply submseteq_length in Hsub. lia.
  - destruct HD as (s0 & t0 & os0 & now0 & order0 & HF & Hp0 & Ht0 & He & -> & Hdr & Hz & Hp' & Hc & Hu). congruence.
Qed.

Lemma c06_soft s t1 t2 : reachable cfg s (t1 ++ OExit ExitSoft :: t2) -> exists c, In (OSoft c) t1.
Proof.
  intros Hr. apply full_split in Hr as (s0 & t0 & a & s' & pre & post & HF & Hs & -> & (now & ->) & Hf' & t3 & ->); [|done].
  pose proof (exit_last _ _ _ _ _ _ Hs) as ->.
  assert (existsb is_soft (t0 ++ pre) = true) as E.
  { destruct Hf' as [HF'|HD].
    - assert (OExit ExitSoft ∈ (t0 ++ pre) ++ [OExit ExitSoft]) as Hin by (apply elem_of_app; right; by left).
      apply (s_exitsoft _ _ _ (f_ts _ _ _ HF')) in Hin. rewrite existsb_app in Hin. by rewrite orb_false_r in Hin.
    - destruct HD as (s1 & t1 & os & now' & order & HF1 & _ & _ & _ & Heq & _ & Hz & _).
      pose proof (z_obs _ _ _ _ _ _ Hz) as Ho. destruct os as [|o os] using rev_ind.
      + rewrite app_nil_r in Heq. rewrite <- Heq in HF1.
        assert (OExit ExitSoft ∈ (t0 ++ pre) ++ [OExit ExitSoft]) as Hin by (apply elem_of_app; right; by left).
        apply (s_exitsoft _ _ _ (f_ts _ _ _ HF1)) in Hin. rewrite existsb_app in Hin. by rewrite orb_false_r in Hin.
      + rewrite List.app_assoc in Heq. apply app_inj_tail in Heq as [_ <-]. apply Forall_app in Ho as [_ Ho].
        by apply Forall_cons in Ho as [[] _]. }
  apply existsb_exists in E as (o & Ho & Hx). destruct o; try done. eauto.
Qed.

(** ** C09 *)
Lemma undisturbed_full s t : reachable cfg s t -> undisturbed t -> Full cfg s t /\ sv_open (st_sv s) = true /\ ~ exiting s /\ sv_soft (st_sv s) = false.
Proof.
  intros Hr [Hs Hx]. destruct (full_or_done cfg Hok s t Hr) as [HF|HD].
  - split; [done|]. rewrite (s_open _ _ _ (f_ts _ _ _ HF)), (s_soft _ _ _ (f_ts _ _ _ HF)), <- (s_exit _ _ _ (f_ts _ _ _ HF)), soft_none, exit_none by done. done.
  - destruct HD as (s0 & t0 & os0 & now0 & order0 & HF & Hp0 & Ht0 & He & -> & Hdr & Hz & Hp' & Hc & Hu). exfalso.
    assert (exiting s0) as E by (by left). apply (s_exit _ _ _ (f_ts _ _ _ HF)) in E.
    apply existsb_exists in E as (o & Ho & E). destruct o; try done. eapply Hx, in_or_app. by left.
Qed.

Lemma minus_len p (l l' : list nat) :
  NoDup l -> NoDup l' -> (forall n, n ∈ l' -> n ∈ l) ->
  length (List.filter p (minus l l')) + length (List.filter p l') = length (List.filter p l).
Proof.
  intros Hl Hl' Hsub. rewrite <- app_length. apply Permutation_length. apply NoDup_Permutation.
  - apply NoDup_app. split_and!.
    + apply NoDup_ListNoDup, List.NoDup_filter, List.NoDup_filter. by apply NoDup_ListNoDup.
    + intros x. rewrite !elem_of_list_In, !filter_In. unfold minus. rewrite filter_In. intros [[_ Hx] _] [Hin _].
      apply negb_true_iff in Hx. enough (existsb (Nat.eqb x) l' = true) by congruence.
      apply existsb_exists. exists x. split; [done|]. apply Nat.eqb_refl.
    + apply NoDup_ListNoDup, List.NoDup_filter. by apply NoDup_ListNoDup.
  - apply NoDup_ListNoDup, List.NoDup_filter. by apply NoDup_ListNoDup.
  - intros x. rewrite elem_of_app, !elem_of_list_In, !filter_In. unfold minus. rewrite filter_In. split.
    + intros [[[H1 _] H2]|[H1 H2]]; [done|]. split; [|done]. apply elem_of_list_In, Hsub. by apply elem_of_list_In.
    + intros [H1 H2]. destruct (existsb (Nat.eqb x) l') eqn:E; [|by left].
      right. split; [|done]. apply existsb_exists in E as (y & Hy & E). apply Nat.eqb_eq in E. by subst.
Qed.

Lemma nodup_handed s t : Full cfg s t -> NoDup (handed t).
Proof. intros HF. eapply c03; [done|]. apply (f_reach _ _ _ HF). Qed.
Lemma nodup_readied s t : Full cfg s t -> NoDup (readied t).
Proof. intros HF. apply occ_nodup. apply (a_nodup _ _ _ (inv_a _ _ _ (f_inv _ _ _ HF))). Qed.
Lemma handed_readied s t n : Full cfg s t -> n ∈ handed t -> n ∈ readied t.
Proof. intros HF H. eapply own_readied; [apply (f_inv _ _ _ HF)|]. apply occ_pos in H. lia. Qed.
Lemma finish_handed s t n : Full cfg s t -> n ∈ finish_order t -> n ∈ handed t.
Proof.
  intros HF H. apply occ_pos in H. apply occ_pos.
  pose proof (inv_handed_sub cfg s t (inv_a _ _ _ (f_inv _ _ _ HF)) n). lia.
Qed.
Lemma nodup_finish s t : Full cfg s t -> NoDup (finish_order t).
Proof. intros HF. apply occ_nodup. intros n. by eapply finish_nodup, HF. Qed.

Lemma c09_ready s t a : reachable cfg s t -> undisturbed t -> quiescent s ->
  num_ready s a = N.of_nat (length (with_mask cfg a (minus (readied t) (handed t)))).
Proof.
  intros Hr Hu [_ Ht]. destruct (undisturbed_full s t Hr Hu) as (HF & Ho & _).
  pose proof (d_ready _ _ _ (inv_d _ _ _ (f_inv _ _ _ HF)) Ho a) as H. rewrite Ht in H.
  change (count_aff cfg a (pend [])) with 0 in H.
  pose proof (minus_len (fun n => N.eqb (aff cfg n) a) (readied t) (handed t) (nodup_readied _ _ HF) (nodup_handed _ _ HF)
    (fun n => handed_readied s t n HF)) as Hm. unfold count_aff in H. unfold with_mask. lia.
Qed.

Lemma c09_inflight s t a : reachable cfg s t -> quiescent s ->
  num_inflight s a = N.of_nat (length (with_mask cfg a (minus (handed t) (finish_order t ++ drained t)))).
Proof.
  intros Hr [_ Ht]. destruct (full_or_done cfg Hok s t Hr) as [HF|HD].
  - pose proof (d_infl _ _ _ (inv_d _ _ _ (f_inv _ _ _ HF)) a) as H. rewrite Ht in H.
    change (count_aff cfg a (pdec [])) with 0 in H.
    assert (drained t = []) as Hd.
    { destruct (drained t) as [|n l] eqn:E; [done|]. assert (n ∈ drained t) as Hin by (rewrite E; by left).
      apply elem_of_list_omap in Hin as (o & Ho & Hx). apply (s_nodrain _ _ _ (f_ts _ _ _ HF)) in Ho. by destruct o. }
    rewrite Hd, app_nil_r.
    pose proof (minus_len (fun n => N.eqb (aff cfg n) a) (handed t) (finish_order t) (nodup_handed _ _ HF) (nodup_finish _ _ HF)
      (fun n => finish_handed s t n HF)) as Hm. unfold count_aff in H. unfold with_mask. lia.
  - destruct HD as (s0 & t0 & os0 & now0 & order0 & HF & Hp0 & Ht0 & He & -> & Hdr & Hz & Hp' & Hc & Hu).
    pose proof (z_q _ _ _ _ _ _ Hz a) as H. pose proof (z_obs _ _ _ _ _ _ Hz) as Ho.
    assert (drained t0 = []) as Hd.
    { destruct (drained t0) as [|n l] eqn:E; [done|]. assert (n ∈ drained t0) as Hin by (rewrite E; by left).
      apply elem_of_list_omap in Hin as (o & Hoo & Hx). apply (s_nodrain _ _ _ (f_ts _ _ _ HF)) in Hoo. by destruct o. }
    rewrite handed_app, (drain_handed os0 Ho), app_nil_r, finish_order_app, (drain_finish os0 Ho), app_nil_r, drained_app, Hd.
    assert (forall n, occ n (handed t0) <= 1) as H1 by (intros n; pose proof (nodup_handed _ _ HF) as Hx; rewrite occ_nodup in Hx; apply Hx).
    assert (NoDup (finish_order t0 ++ drained os0)) as Hnd.
    { apply occ_nodup. intros n. pose proof (z_nodup _ _ _ _ _ _ Hz n). specialize (H1 n). lia. }
    assert (forall n, n ∈ finish_order t0 ++ drained os0 -> n ∈ handed t0) as Hsub.
    { intros n Hn. apply occ_pos. apply occ_pos in Hn. pose proof (z_nodup _ _ _ _ _ _ Hz n). lia. }
    pose proof (minus_len (fun n => N.eqb (aff cfg n) a) _ _ (nodup_handed _ _ HF) Hnd Hsub) as Hm.
    unfold infl in H. unfold num_inflight. unfold count_aff in H. unfold with_mask. simpl. lia.
Qed.

Lemma c09_unready s t : reachable cfg s t -> quiescent s ->
  st_unready s = N.of_nat (length (minus (seq 0 (node_count g)) (readied t))).
Proof.
  intros Hr [Hph Ht].
  assert (exists s0 t0, Full cfg s0 t0 /\ readied t = readied t0 /\ st_unready s = st_unready s0 /\ st_phase s0 <> PInit /\ st_todo s0 = []) as
    (s0 & t0 & HF & -> & -> & Hp0 & Ht0).
  { destruct (full_or_done cfg Hok s t Hr) as [HF|HD]; [exists s, t; done|].
    destruct HD as (s0 & t0 & os0 & now0 & order0 & HF & Hp0 & Ht0 & He & -> & Hdr & Hz & Hp' & Hc & Hu).
    exists s0, t0. split_and!; try done; [|congruence].
    rewrite readied_app, (drain_readied os0 (z_obs _ _ _ _ _ _ Hz)). apply app_nil_r. }
  pose proof (d_unready _ _ _ (inv_d _ _ _ (f_inv _ _ _ HF)) Hp0) as H. rewrite Ht0 in H.
  specialize (H (fun k Hk => not_elem_of_nil _ Hk)). change (psub []) with 0 in H.
  pose proof (minus_len (fun _ => true) (seq 0 (node_count g)) (readied t0)) as Hm.
  assert (forall l : list nat, List.filter (fun _ => true) l = l) as Hft by (induction l; simpl; congruence).
  rewrite !Hft, seq_length in Hm. assert (length (minus (seq 0 (node_count g)) (readied t0)) + length (readied t0) = node_count g); [|lia].
  apply Hm; [apply NoDup_seq|by eapply nodup_readied|].
  intros n Hn. apply elem_of_seq. apply (a_lt _ _ _ (inv_a _ _ _ (f_inv _ _ _ HF))) in Hn. lia.
Qed.

(** No wrap-around, also between the server's steps. *)
Lemma count_aff_le a l : count_aff cfg a l <= length l.
Proof. unfold count_aff. induction l as [|x l IH]; [done|]. simpl. case_match; simpl; lia. Qed.

Lemma readied_le s t : Full cfg s t -> length (readied t) <= node_count g.
Proof.
  intros HF. rewrite <- (seq_length (node_count g) 0). apply submseteq_length, NoDup_submseteq; [by eapply nodup_readied|].
  intros n Hn. apply elem_of_seq. apply (a_lt _ _ _ (inv_a _ _ _ (f_inv _ _ _ HF))) in Hn. lia.
Qed.

Lemma c09_ready_bound s t a : reachable cfg s t -> undisturbed t -> (num_ready s a <= N.of_nat (node_count g))%N.
Proof.
  intros Hr Hu. destruct (undisturbed_full s t Hr Hu) as (HF & Ho & _).
  pose proof (d_ready _ _ _ (inv_d _ _ _ (f_inv _ _ _ HF)) Ho a) as H.
  pose proof (count_aff_le a (readied t)). pose proof (readied_le s t HF). lia.
Qed.

(** ** C11 *)
Lemma fizzle_last t : fizzles t <> 0%N ->
  exists t1 n x e t2, t = t1 ++ OFinished n x e :: t2 /\ fizzles (t1 ++ [OFinished n x e]) = fizzles t.
Proof.
  induction t as [|o t IH] using rev_ind; [done|]. intros H. destruct (fizzle o) eqn:Ef.
  - destruct o as [| | | | | | |n x e| | | | | | |]; try done. exists t, n, x, e, []. done.
  - assert (fizzles [o] = 0%N) as E0 by (unfold fizzles; simpl; by rewrite Ef).
    rewrite fizzles_app, E0, N.add_0_r in H. destruct (IH H) as (t1 & n & x & e & t2 & -> & E).
    exists t1, n, x, e, (t2 ++ [o]). rewrite <- List.app_assoc. split; [done|]. rewrite E, !fizzles_app, E0. lia.
Qed.

Lemma drain_fizzles os : Forall drain_obs os -> fizzles os = 0%N.
Proof.
  intros H. unfold fizzles. replace (List.filter fizzle os) with (@nil obs); [done|].
  induction H as [|o os Ho _ IH]; [done|]. destruct o; done.
Qed.

Lemma c11 s t : reachable cfg s t -> (0 < cf_allowed cfg)%N ->
  (In (OSoft SoftFailures) t <-> (cf_allowed cfg <= fizzles t)%N).
Proof.
  intros Hr Ha. apply loop_part in Hr as (s0 & t0 & os & HF & -> & Hos & _); [|done].
  rewrite fizzles_app, (drain_fizzles os Hos), N.add_0_r. rewrite <- elem_of_list_In, elem_of_app. split.
  - intros [H|H].
    + apply elem_of_list_split in H as (t1 & t2 & ->).
      destruct (s_limit _ _ _ (f_ts _ _ _ HF) t1 t2 eq_refl) as [_ H]. rewrite fizzles_app. lia.
    + rewrite Forall_forall in Hos. by apply Hos in H.
  - intros H. left. destruct (fizzle_last t0) as (t1 & n & x & e & t2 & -> & E); [lia|].
    destruct (s_now _ _ _ (f_ts _ _ _ HF) t1 n x e t2 eq_refl) as (r & t3 & ->); [lia|].
    apply elem_of_app. right. right. apply elem_of_app. right. by left.
Qed.

Lemma c11_before s t1 t2 : reachable cfg s (t1 ++ OSoft SoftFailures :: t2) -> (cf_allowed cfg <= fizzles t1)%N.
Proof.
  intros Hr. apply loop_part in Hr as (s0 & t0 & os & HF & Heq & Hos & _); [|done].
  symmetry in Heq. apply app_eq_app in Heq as (k & [[-> Hk]|[-> Hk]]).
  - destruct k as [|o k]; simpl in Hk.
    + subst os. by apply Forall_cons in Hos as [[] _].
    + injection Hk as <- Hk. by destruct (s_limit _ _ _ (f_ts _ _ _ HF) t1 k eq_refl).
  - rewrite Hk in Hos. apply Forall_app in Hos as [_ Hos]. by apply Forall_cons in Hos as [[] _].
Qed.

Lemma c11_now s t1 n x e t2 : reachable cfg s (t1 ++ OFinished n x e :: t2) ->
  (cf_allowed cfg <= fizzles (t1 ++ [OFinished n x e]))%N ->
  exists r t3, t2 = map OReady r ++ OSoft SoftFailures :: t3.
Proof.
  intros Hr Ha. apply loop_part in Hr as (s0 & t0 & os & HF & Heq & Hos & _); [|done].
  symmetry in Heq. apply app_eq_app in Heq as (k & [[-> Hk]|[-> Hk]]).
  - destruct k as [|o k]; simpl in Hk.
    + subst os. by apply Forall_cons in Hos as [[] _].
    + injection Hk as <- ->. destruct (s_now _ _ _ (f_ts _ _ _ HF) t1 n x e k eq_refl Ha) as (r & t3 & ->).
      exists r, (t3 ++ os). by rewrite <- List.app_assoc.
  - rewrite Hk in Hos. apply Forall_app in Hos as [_ Hos]. by apply Forall_cons in Hos as [[] _].
Qed.

Lemma c11_after s t1 c t2 : reachable cfg s (t1 ++ OSoft c :: t2) -> forall n, ~ In (OReady n) t2.
Proof.
  intros Hr n Hin. apply loop_part in Hr as (s0 & t0 & os & HF & Heq & Hos & _); [|done].
  symmetry in Heq. apply app_eq_app in Heq as (k & [[-> Hk]|[-> Hk]]).
  - destruct k as [|o k]; simpl in Hk.
    + subst os. by apply Forall_cons in Hos as [[] _].
    + injection Hk as <- ->. pose proof (s_after _ _ _ (f_ts _ _ _ HF) t1 c k eq_refl) as H.
      apply elem_of_list_In, elem_of_app in Hin as [Hin|Hin].
      * assert (n ∈ readied k) as Hx by (apply elem_of_readied; by apply elem_of_list_In). rewrite H in Hx. by apply elem_of_nil in Hx.
      * rewrite Forall_forall in Hos. by apply Hos in Hin.
  - rewrite Hk in Hos. apply Forall_app in Hos as [_ Hos]. by apply Forall_cons in Hos as [[] _].
Qed.

End outcome.
