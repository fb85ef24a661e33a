(** Proofs about the preambles and postambles of the tasks. *)
From Verif Require Export HookSpec LinesProofs PoolTrace.
From Verif Require Import PoolProps.
From stdpp Require Import prelude.
Open Scope list_scope.
Open Scope nat_scope.

Section hook.
Variable cfg : config.
Hypothesis Hok : config_ok cfg.
Notation g := (cf_g cfg).

(** ** Traces *)
Lemma unhooked_app t1 t2 : unhooked (t1 ++ t2) = unhooked t1 ++ unhooked t2.
Proof. apply omap_app'. Qed.
Lemma pres_app t1 t2 : pres (t1 ++ t2) = pres t1 ++ pres t2.
Proof. apply omap_app'. Qed.
Lemma posts_app t1 t2 : posts (t1 ++ t2) = posts t1 ++ posts t2.
Proof. apply omap_app'. Qed.
Lemma unhooked_in o t : o ∈ unhooked t <-> HP o ∈ t.
Proof.
  unfold unhooked. rewrite elem_of_list_omap. split.
  - intros (x & Hx & E). destruct x; try done. by injection E as ->.
  - intros H. by exists (HP o).
Qed.
Lemma pres_in n t : n ∈ pres t <-> HPre n ∈ t.
Proof.
  unfold pres. rewrite elem_of_list_omap. split.
  - intros (x & Hx & E). destruct x; try done. by injection E as ->.
  - intros H. by exists (HPre n).
Qed.
Lemma tracker_of_in o t : o ∈ tracker_of t <-> HP (PO o) ∈ t.
Proof. unfold tracker_of. by rewrite tracker_in, unhooked_in. Qed.

Lemma decorate_plain k o : unhooked (decorate cfg k o) = [o].
Proof. unfold decorate. destruct o as [[]| |]; try done. by destruct (Nat.ltb c k). Qed.
Lemma unhooked_decorate k os : unhooked (flat_map (decorate cfg k) os) = os.
Proof. induction os as [|o os IH]; [done|]. cbn [flat_map]. rewrite unhooked_app, IH, decorate_plain. done. Qed.
Lemma loop_hooks_plain p a : unhooked (loop_hooks p a) = [].
Proof. unfold loop_hooks. destruct a; try done. destruct (po_loops p !! c) as [[st [|[] ?] ? ?]|]; done. Qed.

Lemma hook_run_plain acts : forall p p' t, hook_run cfg p acts = Some (p', t) -> pool_run cfg p acts = Some (p', unhooked t).
Proof.
  induction acts as [|a acts IH]; intros p p' t H; cbn [hook_run pool_run] in *; [by injection H as <- <-|].
  unfold hook_step in H. destruct (pool_step cfg p a) as [[p1 os]|]; [|done].
  destruct (hook_run cfg p1 acts) as [[p2 os2]|] eqn:E; [|done]. injection H as <- <-. rewrite (IH _ _ _ E).
  by rewrite !unhooked_app, loop_hooks_plain, unhooked_decorate.
Qed.
Lemma pool_run_hook acts : forall p p' t, pool_run cfg p acts = Some (p', t) -> exists t', hook_run cfg p acts = Some (p', t') /\ unhooked t' = t.
Proof.
  intros p p' t H. assert (exists t', hook_run cfg p acts = Some (p', t')) as [t' Ht].
  { revert p p' t H. induction acts as [|a acts IH]; intros p p' t H; cbn [hook_run pool_run] in *; [eexists; by injection H as <- <-|].
    unfold hook_step. destruct (pool_step cfg p a) as [[p1 os]|]; [|done].
    destruct (pool_run cfg p1 acts) as [[p2 os2]|] eqn:E; [|done]. injection H as <- <-. apply IH in E as [t' ->]. by eexists. }
  exists t'. split; [done|]. apply hook_run_plain in Ht. congruence.
Qed.

Lemma hook_run_snoc p acts a p' t : hook_run cfg p (acts ++ [a]) = Some (p', t) ->
  exists p1 t1 os, hook_run cfg p acts = Some (p1, t1) /\ hook_step cfg p1 a = Some (p', os) /\ t = t1 ++ os.
Proof.
  revert p t. induction acts as [|b acts IH]; intros p t H; cbn [app hook_run] in *.
  - destruct (hook_step cfg p a) as [[p1 os]|] eqn:E; [|done]. injection H as <- <-. exists p, [], os. rewrite app_nil_r. done.
  - destruct (hook_step cfg p b) as [[p1 os]|]; [|done]. destruct (hook_run cfg p1 (acts ++ [a])) as [[p2 os2]|] eqn:E; [|done].
    injection H as <- <-. apply IH in E as (p3 & t3 & os3 & -> & B & ->). exists p3, (os ++ t3), os3. rewrite (assoc_L app). done.
Qed.

Lemma hook_split p0 acts : forall p t1 o t2, hook_run cfg p0 acts = Some (p, t1 ++ o :: t2) ->
  exists acts1 a acts2 p1 tt p1' os1 os2 t3, acts = acts1 ++ a :: acts2 /\ hook_run cfg p0 acts1 = Some (p1, tt) /\
    hook_step cfg p1 a = Some (p1', os1 ++ o :: os2) /\ t1 = tt ++ os1 /\ t2 = os2 ++ t3.
Proof.
  induction acts as [|a acts IH] using rev_ind; intros p t1 o t2 H.
  - injection H as _ H. by destruct t1.
  - apply hook_run_snoc in H as (p1 & ta & os & H1 & Hs & E). symmetry in E.
    apply app_eq_app in E as (k & [[-> E]|[-> E]]).
    + destruct k as [|x k].
      * rewrite app_nil_r in H1. exists acts, a, [], p1, t1, p, [], t2, []. simpl in E. subst os. rewrite !app_nil_r. done.
      * simpl in E. injection E as <- ->. apply IH in H1 as (acts1 & b & acts2 & q1 & tt & q1' & os1 & os2 & t3 & -> & B1 & B2 & B3 & ->).
        exists acts1, b, (acts2 ++ [a]), q1, tt, q1', os1, os2, (t3 ++ os). split; [by rewrite <- (assoc_L app)|]. rewrite <- (assoc_L app). done.
    + exists acts, a, [], p1, ta, p, k, t2, []. rewrite E in Hs. rewrite app_nil_r. done.
Qed.

Lemma flat_map_split {A B} (f : A -> list B) l : forall x1 o x2, flat_map f l = x1 ++ o :: x2 ->
  exists l1 y l2 z1 z2, l = l1 ++ y :: l2 /\ f y = z1 ++ o :: z2 /\ x1 = flat_map f l1 ++ z1 /\ x2 = z2 ++ flat_map f l2.
Proof.
  induction l as [|y l IH]; intros x1 o x2 H; cbn [flat_map] in H; [by destruct x1|].
  apply app_eq_app in H as (k & [[E1 E2]|[-> E]]).
  - destruct k as [|z k].
    + rewrite app_nil_r in E1. simpl in E2. symmetry in E2. destruct (IH [] o x2 E2) as (l1 & y' & l2 & z1 & z2 & -> & B1 & B2 & B3).
      exists (y :: l1), y', l2, z1, z2. cbn [flat_map]. rewrite <- (assoc_L app), <- B2, app_nil_r. done.
    + simpl in E2. injection E2 as <- ->. exists [], y, l, x1, k. done.
  - apply IH in E as (l1 & y' & l2 & z1 & z2 & -> & B1 & -> & ->). exists (y :: l1), y', l2, z1, z2. cbn [flat_map]. rewrite <- (assoc_L app). done.
Qed.

(** ** Postambles *)
Lemma decorate_post k o n ok r m z1 z2 : decorate cfg k o = z1 ++ HPost n ok r m :: z2 ->
  exists o' s, o = PO o' /\ finish_report o' = Some (n, s) /\ z1 = [] /\ z2 = [HP o] /\ HPost n ok r m = postamble cfg n s.
Proof.
  intros H. assert (forall a b (x : hobs), [a; b] = z1 ++ x :: z2 -> (z1 = [] /\ x = a /\ z2 = [b]) \/ (z1 = [a] /\ x = b /\ z2 = [])) as H2.
  { intros a b x E. destruct z1 as [|? [|? [|]]]; simpl in E; simplify_eq; auto. }
  assert (forall a (x : hobs), [a] = z1 ++ x :: z2 -> z1 = [] /\ x = a /\ z2 = []) as H1.
  { intros a x E. destruct z1 as [|? [|]]; simpl in E; simplify_eq; auto. }
  destruct o as [[]| |]; cbn [decorate] in H; try (destruct (Nat.ltb c k)); first [apply H1 in H as (-> & ? & ->)|apply H2 in H as [(-> & ? & ->)|(-> & ? & ->)]];
    try done; unfold postamble in *; simplify_eq; (eexists _, _; eauto).
Qed.

Lemma hook_step_post p a p' os1 os2 n ok r m : hook_step cfg p a = Some (p', os1 ++ HPost n ok r m :: os2) ->
  exists l1 o s l2, pool_step cfg p a = Some (p', l1 ++ PO o :: l2) /\ finish_report o = Some (n, s) /\
    os1 = loop_hooks p a ++ flat_map (decorate cfg (length (po_loops p))) l1 /\
    os2 = HP (PO o) :: flat_map (decorate cfg (length (po_loops p))) l2 /\ HPost n ok r m = postamble cfg n s.
Proof.
  unfold hook_step. destruct (pool_step cfg p a) as [[p1 os]|] eqn:E; [|done]. intros [= <- H].
  apply app_eq_app in H as (k & [[E1 E2]|[-> E2]]).
  - destruct k as [|x k].
    + rewrite app_nil_r in E1. simpl in E2. symmetry in E2. apply (flat_map_split _ _ []) in E2 as (l1 & y & l2 & z1 & z2 & -> & B1 & B2 & ->).
      apply decorate_post in B1 as (o & s & -> & Hf & -> & -> & Hp). exists l1, o, s, l2. rewrite app_nil_r in B2. rewrite <- B2, app_nil_r. done.
    + simpl in E2. injection E2 as <- ->. exfalso. unfold loop_hooks in E1. destruct a; try by destruct os1.
      destruct (po_loops p !! c) as [[st [|[] ?] ? ?]|]; try (by destruct os1). destruct os1 as [|? [|]]; done.
  - apply flat_map_split in E2 as (l1 & y & l2 & z1 & z2 & -> & B1 & -> & ->).
    apply decorate_post in B1 as (o & s & -> & Hf & -> & -> & Hp). exists l1, o, s, l2. rewrite app_nil_r. done.
Qed.

Lemma posts_reports t p0 acts p : hook_run cfg p0 acts = Some (p, t) -> posts t = map fst (reports (tracker_of t)).
Proof.
  revert p t. induction acts as [|a acts IH] using rev_ind; intros p t H.
  - injection H as <- <-. done.
  - apply hook_run_snoc in H as (p1 & t1 & os & H1 & Hs & ->). apply IH in H1. unfold tracker_of. rewrite posts_app, unhooked_app, tracker_app, reports_app, map_app, H1.
    f_equal. unfold hook_step in Hs. destruct (pool_step cfg p1 a) as [[p2 l]|]; [|done]. injection Hs as _ <-.
    rewrite posts_app, unhooked_app, loop_hooks_plain, unhooked_decorate.
    assert (posts (loop_hooks p1 a) = []) as ->. { unfold loop_hooks. destruct a; try done. destruct (po_loops p1 !! c) as [[st [|[] ?] ? ?]|]; done. }
    cbn [app]. induction l as [|o l IHl]; [done|]. cbn [flat_map]. rewrite posts_app, IHl.
    change (o :: l) with ([o] ++ l). rewrite tracker_app, reports_app, map_app. f_equal.
    destruct o as [[]| |]; try done. cbn [decorate]. by destruct (Nat.ltb c _).
Qed.

(** ** Start reports *)
Definition sents (t : list obs) : list nat := omap (fun o => match o with OSentStarted _ n => Some n | _ => None end) t.
Lemma sents_app t1 t2 : sents (t1 ++ t2) = sents t1 ++ sents t2.
Proof. apply omap_app'. Qed.
Lemma sents_in n t : n ∈ sents t <-> exists c, OSentStarted c n ∈ t.
Proof.
  unfold sents. rewrite elem_of_list_omap. split.
  - intros (x & Hx & E). destruct x; try done. injection E as ->. by eexists.
  - intros [c H]. by exists (OSentStarted c n).
Qed.

Lemma sent_by s a s' os c n : step cfg s a = Some (s', os) -> OSentStarted c n ∈ os -> exists host pid j, a = ASendStarted c host pid j.
Proof.
  intros H Hin. pose proof (step_origin cfg _ _ _ _ H) as Ho. rewrite Forall_forall in Ho. apply Ho in Hin as [-> Hc]. clear Ho.
  destruct a; cbn [step] in H.
  - destruct (st_phase s); try done. destruct (is_reordering _ _); [|done].
    destruct (add_to_ready_queue _ _ _) as [[[sv is] os']|] eqn:E; injection H as _ H; [|done].
    apply atrq_obs in E as ->. destruct order as [|? []]; done.
  - destruct (st_phase s); try done; (destruct (st_todo s) as [|i rest] eqn:Et; [done|]); injection H as H;
      destruct i; cbn [exec_instr] in H; repeat case_match; try unfold panic in H; simplify_eq.
  - destruct (server_idle s); [|done].
    destruct (st_events s) as [|[id h p j|id x v f] rest] eqn:Ev; [done| |];
      change (st_sv (set_events s rest)) with (st_sv s) in H.
    + destruct (handle_started cfg (st_sv s) id h p j now) as [[[sv is] os']|] eqn:E; cbn [server_result] in H; [|by injection H].
      apply handle_started_obs in E as [-> ->]. by injection H.
    + destruct (handle_finished cfg (st_sv s) id x v f now) as [[[sv is] os']|] eqn:E; cbn [server_result] in H; [|by injection H].
      apply handle_finished_obs in E as (r & tl & -> & _). by injection H.
  - destruct (server_idle s && st_soft_trigger s); [|done]. by injection H.
  - destruct (server_idle s && st_hard s); [|done]. by injection H.
  - destruct (server_idle s); [|done]. by injection H.
  - exfalso. destruct (st_phase s); try done. destruct (st_todo s); [|done]. destruct (forallb _ _) eqn:Hf; [|done].
    rewrite forallb_forall in Hf. apply elem_of_list_lookup_2, elem_of_list_In, Hf in Hc. done.
  - repeat case_match; simplify_eq.
  - repeat case_match; simplify_eq.
  - repeat case_match; simplify_eq.
  - repeat case_match; simplify_eq.
  - repeat case_match; unfold panic in *; simplify_eq.
  - repeat case_match; simplify_eq. eauto.
  - repeat case_match; simplify_eq.
  - repeat case_match; simplify_eq.
  - simplify_eq.
  - simplify_eq.
Qed.
Lemma no_sents s a s' os : step cfg s a = Some (s', os) -> (forall c host pid j, a <> ASendStarted c host pid j) -> sents os = [].
Proof.
  intros H Ha. destruct (sents os) as [|n l] eqn:E; [done|]. assert (n ∈ sents os) as Hin by (rewrite E; by left).
  apply sents_in in Hin as [c Hin]. destruct (sent_by _ _ _ _ _ _ H Hin) as (h & p & j & ->). by destruct (Ha c h p j).
Qed.
Lemma no_handed s a s' os : step cfg s a = Some (s', os) -> (forall c, a <> ACount c) -> handed os = [].
Proof.
  intros H Ha. destruct (handed os) as [|n l] eqn:E; [done|]. assert (n ∈ handed os) as Hin by (rewrite E; by left).
  apply elem_of_list_omap in Hin as (o & Hin & Eo). destruct o; try done.
  pose proof (step_origin cfg _ _ _ _ H) as Ho. rewrite Forall_forall in Ho. apply Ho in Hin as [-> _]. by destruct (Ha c).
Qed.

(** A client that holds a task has not reported its start. *)
Definition held_of (x : cstate) : option nat := match x with CHolding n | CDropped n false => Some n | _ => None end.
Definition nheld (s : st) (n : nat) : nat := occ n (omap held_of (st_clients s)).

Lemma held_bound s t : reachable cfg s t -> forall n, occ n (sents t) + nheld s n <= occ n (handed t).
Proof.
  apply (reachable_ind' cfg (fun s t => forall n, occ n (sents t) + nheld s n <= occ n (handed t))).
  - intros n. unfold nheld. cbn [st_clients initial]. induction (cf_types cfg) as [|x l IH]; [done|]. cbn [map]. rewrite occ_omap_cons. exact IH.
  - intros s1 t1 a s2 os Hr IH Hs n. specialize (IH n). rewrite sents_app, handed_app, !occ_app.
    assert (Hk : nheld s2 n <= nheld s1 n -> (forall c host pid j, a <> ASendStarted c host pid j) -> occ n (sents t1) + occ n (sents os) + nheld s2 n <= occ n (handed t1) + occ n (handed os)).
    { intros H1 H2. rewrite (no_sents _ _ _ _ Hs H2). rewrite occ_nil. lia. }
    assert (Hset : forall c x y, st_clients s1 !! c = Some y -> st_clients s2 = <[c := x]> (st_clients s1) ->
      nheld s2 n + SchedBase.one n (held_of y) = nheld s1 n + SchedBase.one n (held_of x)).
    { intros c x y H1 H2. unfold nheld. rewrite H2. by apply occ_omap_insert. }
    assert (forall c, client_of a = Some c -> exists x, st_clients s1 !! c = Some x) as Hex.
    { intros c Hc. destruct a; try done; injection Hc as ->; cbn [step] in Hs; destruct (st_clients s1 !! c); eauto; done. }
    destruct (client_of a) as [c|] eqn:Hca.
    + destruct (Hex c eq_refl) as [y Hy].
      destruct a; try done; injection Hca as ->; cbn [step] in Hs; rewrite Hy in Hs.
      * apply Hk; [|done]. destruct y; try done. repeat (case_match; try done); simplify_eq; specialize (Hset _ _ _ Hy eq_refl); cbn in Hset; unfold SchedBase.one in Hset; lia.
      * apply Hk; [|done]. destruct y; try done. repeat (case_match; try done); simplify_eq; specialize (Hset _ _ _ Hy eq_refl); cbn in Hset; unfold SchedBase.one in Hset; lia.
      * apply Hk; [|done]. destruct y; try done. repeat (case_match; try done); simplify_eq; specialize (Hset _ _ _ Hy eq_refl); cbn in Hset; unfold SchedBase.one in Hset; lia.
      * apply Hk; [|done]. destruct y; try done. repeat (case_match; try done); simplify_eq; specialize (Hset _ _ _ Hy eq_refl); cbn in Hset; unfold SchedBase.one in Hset; lia.
      * destruct y; try done. destruct (cf_types cfg !! c); [|done]. destruct (hand_out _ _) in Hs; simplify_eq.
        -- specialize (Hset _ _ _ Hy eq_refl). cbn [held_of] in Hset. change (occ n (sents _)) with (occ n []) at 2. rewrite occ_nil.
           change (handed [OHandedOut c _ _]) with [i_id it]. rewrite occ_cons, occ_nil. unfold SchedBase.one in *. lia.
        -- unfold panic in Hs. injection Hs as <- <-. apply Hk; [apply Nat.le_refl|done].
      * destruct y; try done. simplify_eq. specialize (Hset _ _ _ Hy eq_refl). cbn [held_of] in Hset.
        change (sents [OSentStarted c n0]) with [n0]. change (handed [OSentStarted c n0]) with (@nil nat). rewrite occ_cons, !occ_nil. unfold SchedBase.one in *. lia.
      * apply Hk; [|done]. destruct y; try done; simplify_eq; specialize (Hset _ _ _ Hy eq_refl); cbn in Hset; unfold SchedBase.one in Hset; repeat case_match; lia.
      * apply Hk; [|done]. destruct y; try done; simplify_eq; specialize (Hset _ _ _ Hy eq_refl); cbn in Hset; unfold SchedBase.one in Hset; repeat case_match; lia.
    + assert (st_clients s2 = st_clients s1) as E.
      { apply list_eq. intros d. eapply client_frame; [done|by rewrite Hca]. }
      apply Hk; [unfold nheld; by rewrite E|]. intros c host pid j ->. done.
Qed.

(** ** Preambles *)
Definition pend_of (lp : loop) : option nat := match lp_calls lp with CallPreamble n :: _ => Some n | _ => None end.
Definition npend (p : pool) (n : nat) : nat := occ n (omap pend_of (po_loops p)).

Lemma pres_tracker k os : (forall c i n, OHandedOut c i n ∈ os -> k <= c) -> forall n,
  occ n (pres (flat_map (decorate cfg k) (map PO os))) = occ n (handed os) + occ n (sents os).
Proof.
  induction os as [|o os IH]; intros H n; [done|]. cbn [map flat_map]. rewrite pres_app, occ_app, IH by (intros c i m Hin; eapply H; by right).
  change (o :: os) with ([o] ++ os). rewrite handed_app, sents_app, !occ_app. destruct o; try (cbn; rewrite ?occ_nil; lia).
  - assert (k <= c) as Hc by (eapply H; by left). cbn [decorate]. apply Nat.ltb_ge in Hc as ->.
    change (occ n (pres _)) with (occ n [n0]). change (handed [OHandedOut c i n0]) with [n0]. change (sents [OHandedOut c i n0]) with (@nil nat). rewrite occ_nil. lia.
Qed.
Lemma pres_process k os : tracker_part os = [] -> pres (flat_map (decorate cfg k) os) = [].
Proof.
  induction os as [|o os IH]; intros H; [done|]. change (o :: os) with ([o] ++ os) in H. rewrite tracker_app in H. apply app_eq_nil in H as [H1 H2].
  cbn [flat_map]. rewrite pres_app, IH by done. by destruct o.
Qed.

Lemma pre_step k acts p t a p' os n : PI cfg k acts p (unhooked t) -> hook_step cfg p a = Some (p', os) ->
  occ n (pres t) + npend p n = occ n (handed (tracker_of t)) + occ n (sents (tracker_of t)) ->
  occ n (pres (t ++ os)) + npend p' n = occ n (handed (tracker_of (t ++ os))) + occ n (sents (tracker_of (t ++ os))).
Proof.
  intros HP Hs IH. unfold hook_step in Hs. destruct (pool_step cfg p a) as [[p1 l]|] eqn:Hp; [|done]. injection Hs as -> <-.
  unfold tracker_of in *. rewrite !unhooked_app, loop_hooks_plain, unhooked_decorate, !pres_app, !tracker_app, !handed_app, !sents_app, !occ_app.
  change (handed (tracker_part [])) with (@nil nat). change (sents (tracker_part [])) with (@nil nat). change (occ n []) with 0. cbn [Nat.add].
  rewrite (pi_len _ _ _ _ _ HP).
  assert (Hset : forall c lp lp', po_loops p !! c = Some lp -> po_loops p' = <[c := lp']> (po_loops p) ->
    npend p' n + SchedBase.one n (pend_of lp) = npend p n + SchedBase.one n (pend_of lp')).
  { intros c lp lp' H1 H2. unfold npend. rewrite H2. by apply occ_omap_insert. }
  destruct a as [b| |c host|b|c i now|c]; cbn [pool_step] in Hp; unfold client_step in Hp.
  - destruct (_ || _) eqn:Hl in Hp; [done|]. apply orb_false_iff in Hl as [Hl _]. destruct (step cfg (po_sched p) b) as [[s' os']|] eqn:E; [|done]. injection Hp as <- <-.
    rewrite pres_tracker.
    + rewrite tracker_po. cbn [loop_hooks]. unfold npend in *. cbn [po_loops]. change (occ n (pres [])) with 0. lia.
    + intros c i m Hin. pose proof (step_origin cfg _ _ _ _ E) as Ho. rewrite Forall_forall in Ho. apply Ho in Hin as [-> _].
      cbn [client_of] in Hl. apply Nat.ltb_ge in Hl. by rewrite (pi_len _ _ _ _ _ HP) in Hl.
  - destruct (st_phase _) eqn:Hph; try done. destruct (st_todo _); [|done]. destruct (SyncModel.hard_released _) eqn:Hh; [done|]. injection Hp as <- <-.
    unfold npend in *. cbn. change (occ n []) with 0. lia.
  - destruct (po_loops p !! c) as [[st' [|x rest] child start]|] eqn:Hc; try done.
    destruct (pi_link _ _ _ _ _ HP c _ Hc) as (y & Hy & HL).
    destruct (call_act c host x) as [b|] eqn:Hb.
    + destruct (step cfg (po_sched p) b) as [[s' os']|] eqn:E; [|done]. injection Hp as <- <-.
      specialize (Hset c _ _ Hc eq_refl).
      assert (handed os' = []) as Hh. { eapply no_handed; [exact E|]. intros d ->. by destruct x. }
      rewrite pres_tracker, tracker_po.
      * assert (loop_hooks p (PCall c host) = []) as ->. { cbn [loop_hooks]. rewrite Hc. by destruct x. }
        change (occ n (pres [])) with 0. rewrite Hh in *.
        assert (pend_of (Loop st' (x :: rest) child start) = None) as E1 by (by destruct x).
        assert (pend_of (recv_returns (Loop st' rest child start) os') = None) as E2.
        { assert (pend_of (Loop st' rest child start) = None) as E3 by (inversion HL; subst; try done; simpl in Hb; done).
          unfold recv_returns. destruct os' as [|[] []]; try done. unfold deliver. cbn [lp_state lp_calls].
          destruct (loop_step st' InErr) as [[st2 cs]|] eqn:El; [|done]. destruct st'; try done. injection El as <- <-. cbn. by rewrite app_nil_r. }
        rewrite E1, E2 in Hset. cbn in Hset. lia.
      * intros d i m Hin. exfalso. assert (m ∈ handed os') as Hm by (apply elem_of_list_omap; by exists (OHandedOut d i m)).
        rewrite Hh in Hm. by apply elem_of_nil in Hm.
    + injection Hp as <- <-. destruct x; try done. specialize (Hset c _ _ Hc eq_refl).
      cbn [loop_hooks]. rewrite Hc. cbn [flat_map pres]. change (pres [HPre n0]) with [n0]. change (pres []) with (@nil nat).
      change (handed (tracker_part [])) with (@nil nat). change (sents (tracker_part [])) with (@nil nat).
      assert (pend_of (Loop st' rest child start) = None) as E3 by (inversion HL; by subst).
      rewrite E3 in Hset. rewrite occ_cons, !occ_nil. unfold pend_of in Hset. cbn [lp_calls] in Hset. change (SchedBase.one n None) with 0 in Hset. lia.
  - destruct (inside_recv b) eqn:Hb; [|done]. destruct (client_of b) as [c|] eqn:Hcb; [|done].
    destruct (po_loops p !! c) as [lp|] eqn:Hc; [|done].
    destruct (step cfg (po_sched p) b) as [[s' os']|] eqn:E; [|done]. injection Hp as <- <-.
    specialize (Hset c _ _ Hc eq_refl). cbn [loop_hooks]. change (occ n (pres [])) with 0. rewrite tracker_po.
    destruct (pi_link _ _ _ _ _ HP c _ Hc) as (y & Hy & HL).
    assert (lp_state lp = LRecv /\ lp_calls lp = []) as [Hst Hcalls].
    { destruct b; try done; injection Hcb as ->; cbn [step] in E; rewrite Hy in E; destruct y; try done; inversion HL; by subst. }
    assert (sents os' = []) as Hse. { eapply no_sents; [exact E|]. by intros d h pid j ->. }
    rewrite Hse. change (occ n []) with 0.
    assert (pend_of lp = None) as E1 by (unfold pend_of; by rewrite Hcalls). rewrite E1 in Hset. change (SchedBase.one n None) with 0 in Hset.
    destruct (decide (handed os' = [])) as [Hh|Hh].
    + assert (pend_of (recv_returns lp os') = None) as E2.
      { unfold recv_returns. destruct os' as [|[] []]; try done. unfold deliver. rewrite Hst, Hcalls. done. }
      rewrite E2 in Hset. change (SchedBase.one n None) with 0 in Hset. rewrite pres_tracker, Hh, Hse; [change (occ n []) with 0; lia|].
      intros d i m Hin. exfalso. assert (m ∈ handed os') as Hm by (apply elem_of_list_omap; by exists (OHandedOut d i m)).
      rewrite Hh in Hm. by apply elem_of_nil in Hm.
    + destruct (handed os') as [|m lh] eqn:Eh; [done|].
      assert (m ∈ handed os') as Hm by (rewrite Eh; by left). apply elem_of_list_omap in Hm as (o & Hin & Eo). destruct o; try done. injection Eo as ->.
      pose proof (step_origin cfg _ _ _ _ E) as Ho. rewrite Forall_forall in Ho. apply Ho in Hin as (-> & Eos & _). subst os'.
      injection Hcb as ->. injection Eh as <-. assert (pend_of (recv_returns lp [OHandedOut c i m]) = Some m) as E3 by (unfold recv_returns, deliver; by rewrite Hst, Hcalls). rewrite E3 in Hset.
      cbn [map flat_map decorate]. assert (Nat.ltb c k = true) as ->.
      { apply Nat.ltb_lt. rewrite <- (pi_len _ _ _ _ _ HP). by eapply lookup_lt_Some. }
      cbn [app pres omap list_omap]. change (pres [HookModel.HP _]) with (@nil nat). rewrite occ_cons, !occ_nil. lia.
  - destruct (po_loops p !! c) as [lp|] eqn:Hc; [|done].
    destruct (lp_calls lp) as [|] eqn:Hcalls; [|done]. destruct (input_possible (po_token p) lp i) eqn:Hi; [|done].
    destruct (loop_step (lp_state lp) i) as [[st' cs]|] eqn:Hst; [|done]. injection Hp as <- <-.
    specialize (Hset c _ _ Hc eq_refl). rewrite pres_process, tracker_input by apply tracker_input.
    assert (pend_of lp = None) as E1 by (unfold pend_of; by rewrite Hcalls).
    assert (pend_of (Loop st' cs (child_after lp i) (start_after lp i now)) = None) as E2.
    { unfold pend_of. cbn [lp_calls]. destruct (lp_state lp), i; try done; cbn [loop_step] in Hst; repeat (case_match; try done); by simplify_eq. }
    rewrite E1, E2 in Hset. change (SchedBase.one n None) with 0 in Hset. cbn [loop_hooks].
    change (pres []) with (@nil nat). change (handed []) with (@nil nat). change (sents []) with (@nil nat). rewrite !occ_nil. lia.
  - destruct (po_loops p !! c) as [lp|] eqn:Hc; [|done]. destruct (loop_over lp) eqn:Hov; [|done].
    destruct (step cfg (po_sched p) (ADrop c)) as [[s' os']|] eqn:E; [|done]. injection Hp as <- <-.
    assert (os' = []) as ->. { cbn [step] in E. repeat (case_match; try done); by injection E as <- <-. }
    cbn [loop_hooks map flat_map]. unfold npend in *. cbn [po_loops]. change (pres []) with (@nil nat). change (handed (tracker_part [])) with (@nil nat). change (sents (tracker_part [])) with (@nil nat).
    rewrite !occ_nil. lia.
Qed.

Lemma hook_pi k acts p t : k <= length (cf_types cfg) -> hook_run cfg (pool_start cfg k) acts = Some (p, t) -> PI cfg k acts p (unhooked t).
Proof. intros Hk H. apply pi_pool_run; [done..|]. by apply hook_run_plain. Qed.

Lemma pre_count k acts : k <= length (cf_types cfg) -> forall p t n, hook_run cfg (pool_start cfg k) acts = Some (p, t) ->
  occ n (pres t) + npend p n = occ n (handed (tracker_of t)) + occ n (sents (tracker_of t)).
Proof.
  intros Hk. induction acts as [|a acts IH] using rev_ind; intros p t n H.
  - injection H as <- <-. unfold npend. cbn [po_loops pool_start]. clear Hk. induction k as [|k IHk]; [done|]. cbn [repeat]. rewrite occ_omap_cons. exact IHk.
  - apply hook_run_snoc in H as (p1 & t1 & os & H1 & Hs & ->). eapply pre_step; [by apply hook_pi|done|by apply IH].
Qed.

(** ** The calls in order *)
Lemma decorate_report k o o' n s z1 z2 : decorate cfg k o = z1 ++ HP (PO o') :: z2 -> finish_report o' = Some (n, s) -> z1 = [postamble cfg n s] /\ z2 = [] /\ o = PO o'.
Proof.
  intros H Hf. assert (H2 : forall a b, [a; b] = z1 ++ HP (PO o') :: z2 -> (z1 = [] /\ HP (PO o') = a /\ z2 = [b]) \/ (z1 = [a] /\ HP (PO o') = b /\ z2 = [])).
  { intros a b E. destruct z1 as [|? [|? [|]]]; simpl in E; simplify_eq; auto. }
  assert (H1 : forall a, [a] = z1 ++ HP (PO o') :: z2 -> z1 = [] /\ HP (PO o') = a /\ z2 = []).
  { intros a E. destruct z1 as [|? [|]]; simpl in E; simplify_eq; auto. }
  destruct o as [[]| |]; cbn [decorate] in H; try (destruct (Nat.ltb c k));
    first [apply H1 in H as (-> & [= ->] & ->)|apply H1 in H as (-> & [=] & ->)|apply H2 in H as [(-> & [= ->] & ->)|(-> & [= ->] & ->)]|apply H2 in H as [(-> & [= ->] & ->)|(-> & [=] & ->)]
           |apply H2 in H as [(-> & [=] & ->)|(-> & [= ->] & ->)]];
    cbn in Hf; simplify_eq; done.
Qed.

Lemma loop_hooks_in p a o : o ∈ loop_hooks p a -> exists n c host lp rest, o = HPre n /\ a = PCall c host /\ po_loops p !! c = Some lp /\ lp_calls lp = CallPreamble n :: rest.
Proof.
  unfold loop_hooks. destruct a; try (intros H; by apply elem_of_nil in H). destruct (po_loops p !! c) as [[st [|[] ?] ? ?]|] eqn:El; intros H; try (by apply elem_of_nil in H).
  apply elem_of_list_singleton in H as ->. eexists _, _, _, _, _. split_and!; [done|done|exact El|done].
Qed.

Lemma report_has_post p0 acts p t1 o t2 n s : hook_run cfg p0 acts = Some (p, t1 ++ HP (PO o) :: t2) -> finish_report o = Some (n, s) ->
  exists t0, t1 = t0 ++ [postamble cfg n s].
Proof.
  intros H Hf. apply hook_split in H as (acts1 & a & acts2 & p1 & tt & p1' & os1 & os2 & t3 & _ & _ & Hs & -> & _).
  unfold hook_step in Hs. destruct (pool_step cfg p1 a) as [[p2 l]|]; [|done]. injection Hs as _ E.
  apply app_eq_app in E as (k & [[E1 E2]|[-> E2]]).
  - destruct k as [|x k].
    + simpl in E2. symmetry in E2. apply (flat_map_split _ _ []) in E2 as (l1 & y & l2 & z1 & z2 & -> & B1 & B2 & _).
      apply decorate_report with (n := n) (s := s) in B1 as (-> & _); [|done]. symmetry in B2. by apply app_eq_nil in B2 as [_ B2].
    + simpl in E2. injection E2 as <- _. exfalso. assert (HP (PO o) ∈ loop_hooks p1 a) as Hin by (rewrite E1; apply elem_of_app; right; by left).
      apply loop_hooks_in in Hin as (? & ? & ? & ? & ? & ? & _). done.
  - apply flat_map_split in E2 as (l1 & y & l2 & z1 & z2 & -> & B1 & -> & _).
    apply decorate_report with (n := n) (s := s) in B1 as (-> & _); [|done]. eexists. by rewrite !(assoc_L app).
Qed.

Lemma client_count {f : cstate -> option nat} (cl : list cstate) c x n : cl !! c = Some x -> f x = Some n -> 0 < occ n (omap f cl).
Proof. intros H1 H2. apply occ_pos, elem_of_list_omap. exists x. split; [by eapply elem_of_list_lookup_2|done]. Qed.

Lemma decorate_pre k o n z1 z2 : decorate cfg k o = z1 ++ HPre n :: z2 ->
  (exists c i, o = PO (OHandedOut c i n) /\ z1 = [HP o]) \/ (exists c, o = PO (OSentStarted c n) /\ z1 = []).
Proof.
  intros H. assert (H2 : forall a b, [a; b] = z1 ++ HPre n :: z2 -> (z1 = [] /\ HPre n = a /\ z2 = [b]) \/ (z1 = [a] /\ HPre n = b /\ z2 = [])).
  { intros a b E. destruct z1 as [|? [|? [|]]]; simpl in E; simplify_eq; auto. }
  assert (H1 : forall a, [a] = z1 ++ HPre n :: z2 -> z1 = [] /\ HPre n = a /\ z2 = []).
  { intros a E. destruct z1 as [|? [|]]; simpl in E; simplify_eq; auto. }
  destruct o as [[]| |]; cbn [decorate] in H; try (destruct (Nat.ltb c k));
    first [apply H1 in H as (-> & E & ->)|apply H2 in H as [(-> & E & ->)|(-> & E & ->)]]; try done; unfold postamble in E; try discriminate E; injection E as <-; first [left; by eauto|right; by eauto].
Qed.

Lemma pool_tracker_step k acts p t a p' l1 o l2 : PI cfg k acts p t -> pool_step cfg p a = Some (p', l1 ++ PO o :: l2) ->
  exists b s' os', step cfg (po_sched p) b = Some (s', os') /\ o ∈ os' /\ l1 ++ PO o :: l2 = map PO os' /\
    ((exists order now, b = ADrain order now) -> forallb loop_over (po_loops p) = true).
Proof.
  intros HP Hs.
  assert (HT : forall b s' os', step cfg (po_sched p) b = Some (s', os') -> l1 ++ PO o :: l2 = map PO os' ->
    ((exists order now, b = ADrain order now) -> forallb loop_over (po_loops p) = true) ->
    exists b s' os', step cfg (po_sched p) b = Some (s', os') /\ o ∈ os' /\ l1 ++ PO o :: l2 = map PO os' /\
    ((exists order now, b = ADrain order now) -> forallb loop_over (po_loops p) = true)).
  { intros b s' os' E Eo Hd. exists b, s', os'. split_and!; try done.
    assert (PO o ∈ map PO os') as H by (rewrite <- Eo, elem_of_app, elem_of_cons; auto).
    apply elem_of_list_fmap in H as (x & [= <-] & H). done. }
  destruct a as [b| |c host|b|c i now|c]; cbn [pool_step] in Hs; unfold client_step in Hs.
  - destruct (_ || _) eqn:Hl in Hs; [done|]. apply orb_false_iff in Hl as [_ Hl]. apply negb_false_iff in Hl.
    destruct (step cfg (po_sched p) b) as [[s' os']|] eqn:E; [|done]. injection Hs as _ Hs. eapply HT; [exact E|done|].
    intros (order & now & ->). by apply andb_true_iff in Hl as [_ ?].
  - destruct (st_phase _); try done. destruct (st_todo _); [|done]. destruct (SyncModel.hard_released _) eqn:Hh; [done|]. injection Hs as _ Hs. by destruct l1.
  - destruct (po_loops p !! c) as [[st' [|x rest] child start]|] eqn:Hc; try done.
    destruct (call_act c host x) as [b|] eqn:Hb; [|injection Hs as _ Hs; by destruct l1].
    destruct (step cfg (po_sched p) b) as [[s' os']|] eqn:E; [|done]. injection Hs as _ Hs. eapply HT; [exact E|done|].
    intros (order & now & ->). by destruct x.
  - destruct (inside_recv b) eqn:Hb; [|done]. destruct (client_of b) as [c|] eqn:Hcb; [|done].
    destruct (po_loops p !! c) as [lp|] eqn:Hc; [|done].
    destruct (step cfg (po_sched p) b) as [[s' os']|] eqn:E; [|done]. injection Hs as _ Hs. eapply HT; [exact E|done|].
    by intros (order & now & ->).
  - destruct (po_loops p !! c) as [lp|] eqn:Hc; [|done].
    destruct (lp_calls lp) as [|] eqn:Hcalls; [|done]. destruct (input_possible (po_token p) lp i) eqn:Hi; [|done].
    destruct (loop_step (lp_state lp) i) as [[st' cs]|] eqn:Hst; [|done]. injection Hs as _ Hs.
    exfalso. assert (tracker_part (input_obs c lp i now) = []) as Ht by apply tracker_input. rewrite Hs, tracker_app in Ht.
    apply app_eq_nil in Ht as [_ Ht]. done.
  - destruct (po_loops p !! c) as [lp|] eqn:Hc; [|done]. destruct (loop_over lp) eqn:Hov; [|done].
    destruct (step cfg (po_sched p) (ADrop c)) as [[s' os']|] eqn:E; [|done]. injection Hs as _ Hs. eapply HT; [exact E|done|].
    by intros (order & now & ?).
Qed.

Lemma step_full k acts p t b s' o os' : PI cfg k acts p t -> step cfg (po_sched p) b = Some (s', os') -> o ∈ os' -> Full cfg (po_sched p) (tracker_part t).
Proof.
  intros HP Hs Hin. destruct (full_or_done cfg Hok _ _ (pi_reachable _ _ _ _ _ HP)) as [HF|HD]; [done|].
  apply (done_silent cfg _ _ _ _ _ HD) in Hs as ->. by apply elem_of_nil in Hin.
Qed.

(** Loops at work have no finish report. *)
Lemma not_over_full k acts p t c lp : PI cfg k acts p t -> po_loops p !! c = Some lp -> loop_over lp = false -> Full cfg (po_sched p) (tracker_part t).
Proof.
  intros HP Hc Hov. destruct (full_or_done cfg Hok _ _ (pi_reachable _ _ _ _ _ HP)) as [HF|HD]; [done|]. exfalso.
  destruct HD as (s0 & t0 & os0 & now0 & order0 & HI & Hp0 & Ht0 & He & Hxx & Hdr & Hz & Hpp & Hcc & Hu).
  destruct (pi_link _ _ _ _ _ HP c lp Hc) as (x & Hx & HL). rewrite Hcc in Hx. rewrite forallb_forall in He.
  apply elem_of_list_lookup_2, elem_of_list_In, He in Hx. inversion HL; subst; try done.
Qed.

Lemma pre_origin k acts p t a p' os1 n os2 : PI cfg k acts p (unhooked t) -> hook_step cfg p a = Some (p', os1 ++ HPre n :: os2) ->
  Full cfg (po_sched p) (tracker_of t) /\ 0 < nhold (po_sched p) n /\ (forall ok r m, HPost n ok r m ∉ os1) /\
  exists c i, HP (PO (OHandedOut c i n)) ∈ t ++ os1.
Proof.
  intros HI H. unfold hook_step in H. destruct (pool_step cfg p a) as [[p2 l]|] eqn:Hp; [|done]. injection H as _ E.
  assert (HA : forall l1 y l2 z1, l = l1 ++ y :: l2 -> (exists z2, decorate cfg (length (po_loops p)) y = z1 ++ HPre n :: z2) ->
    l1 = [] /\ Full cfg (po_sched p) (tracker_of t) /\ 0 < nhold (po_sched p) n /\ (forall ok r m, HPost n ok r m ∉ z1) /\ exists c i, HP (PO (OHandedOut c i n)) ∈ t ++ z1).
  { intros l1 y l2 z1 -> [z2 Hd]. apply decorate_pre in Hd as [(c & i & -> & ->)|(c & -> & ->)].
    - destruct (pool_tracker_step _ _ _ _ _ _ _ _ _ HI Hp) as (b & s' & os' & Hs & Hin & El & _).
      pose proof (step_full _ _ _ _ _ _ _ _ HI Hs Hin) as HF. pose proof (step_origin cfg _ _ _ _ Hs) as Ho. rewrite Forall_forall in Ho.
      apply Ho in Hin as (-> & -> & _ & it & Hcl & ->). split; [by destruct l1 as [|? []]|]. split; [done|].
      split; [by eapply client_count|]. split; [intros ok r m Hin; apply elem_of_list_singleton in Hin; done|]. exists c, i. apply elem_of_app. right. by left.
    - destruct (pool_tracker_step _ _ _ _ _ _ _ _ _ HI Hp) as (b & s' & os' & Hs & Hin & El & _).
      pose proof (step_full _ _ _ _ _ _ _ _ HI Hs Hin) as HF. pose proof (step_origin cfg _ _ _ _ Hs) as Ho. rewrite Forall_forall in Ho.
      apply Ho in Hin as (-> & Hcl). split; [by destruct l1 as [|? []]|]. split; [done|].
      split; [by eapply client_count|]. split; [intros ok r m Hin; by apply elem_of_nil in Hin|].
      destruct (k_own _ _ _ (f_tc _ _ _ HF) c _ n Hcl eq_refl) as [i Hi]. exists c, i. rewrite app_nil_r. by apply tracker_of_in. }
  apply app_eq_app in E as (k' & [[E1 E2]|[-> E2]]).
  - destruct k' as [|x k'].
    + rewrite app_nil_r in E1. simpl in E2. symmetry in E2. apply (flat_map_split _ _ []) in E2 as (l1 & y & l2 & z1 & z2 & -> & B1 & B2 & _).
      destruct (HA l1 y l2 z1 eq_refl (ex_intro _ z2 B1)) as (-> & HF & Hn & _ & c & i & Hin). symmetry in B2. apply app_eq_nil in B2 as [_ ->].
      rewrite <- E1. split; [done|]. split; [done|]. split; [|exists c, i; rewrite app_nil_r in Hin; apply elem_of_app; by left].
      intros ok r m Hx. apply loop_hooks_in in Hx as (? & ? & ? & ? & ? & ? & _). done.
    + simpl in E2. injection E2 as <- _. assert (HPre n ∈ loop_hooks p a) as Hin by (rewrite E1; apply elem_of_app; right; by left).
      apply loop_hooks_in in Hin as (n' & c & host & lp & rest & [= <-] & -> & Hc & Hcalls).
      assert (os1 = []) as ->. { cbn [loop_hooks] in E1. rewrite Hc in E1. destruct lp as [st cs ch sa]. cbn [lp_calls] in Hcalls. subst cs. by destruct os1 as [|? []]. }
      destruct (pi_link _ _ _ _ _ HI c lp Hc) as (x & Hx & HL).
      assert (loop_over lp = false) as Hov by (unfold loop_over; rewrite Hcalls; by destruct (lp_state lp)).
      assert (x = CHolding n /\ task_of (lp_state lp) = Some n) as [-> Ht] by (inversion HL; subst; cbn in Hcalls; simplify_eq; done).
      split; [by eapply not_over_full|]. split; [by eapply client_count|]. split; [intros ok r m Hin; by apply elem_of_nil in Hin|].
      destruct (pi_task _ _ _ _ _ HI c lp n Hc Ht) as [i Hi]. exists c, i. rewrite app_nil_r. by apply tracker_of_in.
  - apply flat_map_split in E2 as (l1 & y & l2 & z1 & z2 & -> & B1 & -> & _).
    destruct (HA l1 y l2 z1 eq_refl (ex_intro _ z2 B1)) as (-> & HF & Hn & Hz & c & i & Hin). split; [done|]. split; [done|]. cbn [flat_map app]. split.
    + intros ok r m Hx. apply elem_of_app in Hx as [Hx|Hx]; [|by eapply Hz]. apply loop_hooks_in in Hx as (? & ? & ? & ? & ? & ? & _). done.
    + exists c, i. rewrite !elem_of_app in *. tauto.
Qed.

Lemma posts_in n t : n ∈ posts t <-> exists ok r m, HPost n ok r m ∈ t.
Proof.
  unfold posts. rewrite elem_of_list_omap. split.
  - intros (x & Hx & E). destruct x; try done. injection E as ->. eauto.
  - intros (ok & r & m & H). by exists (HPost n ok r m).
Qed.

(** While a client holds the task, no postamble was called. *)
Lemma held_no_post acts p0 p t n : hook_run cfg p0 acts = Some (p, t) -> Full cfg (po_sched p) (tracker_of t) -> 0 < nhold (po_sched p) n + nrun (po_sched p) n + nfe (po_sched p) n -> n ∉ posts t.
Proof.
  intros H HF Hn Hin. rewrite (posts_reports _ _ _ _ H), (reports_loop _ (s_nodrain _ _ _ (f_ts _ _ _ HF))) in Hin.
  apply occ_pos in Hin. pose proof (a_own _ _ _ (inv_a _ _ _ (f_inv _ _ _ HF)) n) as Ho.
  assert (tk (po_sched p) (tracker_of t) n <= 1) by (unfold tk; destruct (tkb _ _ _); cbn; lia). lia.
Qed.

(** A finish report. *)
Lemma report_origin k acts p t a p' l1 o l2 n s : k <= length (cf_types cfg) -> PI cfg k acts p t -> pool_step cfg p a = Some (p', l1 ++ PO o :: l2) -> finish_report o = Some (n, s) ->
  (exists l1', l1 = map PO l1') /\ n ∈ handed (tracker_part t) /\
  forall c lp, po_loops p !! c = Some lp -> pend_of lp <> Some n /\ forall pid st, current lp <> Some (n, pid, st).
Proof.
  intros Hk HI Hp Hf. destruct (pool_tracker_step _ _ _ _ _ _ _ _ _ HI Hp) as (b & s' & os' & Hs & Hin & El & Hov).
  split. { symmetry in El. apply map_eq_app in El as (x1 & x2 & _ & E & _). by exists x1. }
  pose proof (step_full _ _ _ _ _ _ _ _ HI Hs Hin) as HF. pose proof (step_origin cfg _ _ _ _ Hs) as Ho. rewrite Forall_forall in Ho.
  pose proof (Ho _ Hin) as Hor. destruct o; try done; injection Hf as -> ->.
  - destruct Hor as (v & f & rest & Hev & _).
    assert (1 <= nfe (po_sched p) n) as Hn. { unfold nfe. rewrite Hev, occ_omap_cons. unfold SchedBase.one. simpl. rewrite Nat.eqb_refl. lia. }
    pose proof (inv_a _ _ _ (f_inv _ _ _ HF)) as HA. pose proof (a_own _ _ _ HA n) as H1. pose proof (a_hd _ _ _ HA n) as H2.
    assert (tk (po_sched p) (tracker_part t) n <= 1) as H3 by (unfold tk; destruct (tkb _ _ _); cbn; lia).
    assert (nclaim (po_sched p) n <= nhold (po_sched p) n) as H4.
    { unfold nclaim, nhold. apply occ_omap_le. intros x m. destruct x; cbn; unfold SchedBase.one; lia. }
    split; [apply occ_pos; lia|]. intros c lp Hc. destruct (pi_link _ _ _ _ _ HI c lp Hc) as (x & Hx & HL).
    assert (hold_of x <> Some n) as Hnh. { intros E. assert (0 < nhold (po_sched p) n) by (by eapply client_count). lia. }
    assert (run_of x <> Some n) as Hnr. { intros E. assert (0 < nrun (po_sched p) n) by (by eapply client_count). lia. }
    split; [|intros pid st]; intros E; inversion HL; subst; try done; cbn in E; simplify_eq; by destruct Hnh || by destruct Hnr.
  - destruct Hor as (order & now & ->). split.
    + assert (Hr' : reachable cfg s' (tracker_part t ++ os')) by (eapply reachable_step; [by eapply pi_reachable|done]).
      destruct (full_or_done cfg Hok _ _ Hr') as [HF'|HD].
      { exfalso. eapply (s_nodrain _ _ _ (f_ts _ _ _ HF')); [apply elem_of_app; right; exact Hin|done]. }
      destruct HD as (s0 & t0 & os0 & now0 & order0 & HF0 & Hp0 & Ht0 & He & E & Hdr & Hz & _).
      assert (ODrainFinished n s ∈ t0 ++ os0) as Hin' by (rewrite <- E; apply elem_of_app; by right).
      apply elem_of_app in Hin' as [Hin'|Hin']; [exfalso; by eapply (s_nodrain _ _ _ (f_ts _ _ _ HF0))|].
      assert (n ∈ drained os0) as Hd by (apply elem_of_list_omap; by exists (ODrainFinished n s)).
      apply occ_pos in Hd. pose proof (z_nodup _ _ _ _ _ _ Hz n) as Hzn. rewrite occ_app in Hzn.
      assert (n ∈ handed (tracker_part t ++ os')) as Hh by (rewrite E, handed_app; apply elem_of_app; left; apply occ_pos; lia).
      rewrite handed_app, (no_handed _ _ _ _ Hs) in Hh by done. by rewrite app_nil_r in Hh.
    + intros c lp Hc. assert (loop_over lp = true) as Hl.
      { specialize (Hov (ex_intro _ order (ex_intro _ now eq_refl))). rewrite forallb_forall in Hov. apply Hov, elem_of_list_In. by eapply elem_of_list_lookup_2. }
      unfold loop_over in Hl. unfold pend_of, current. destruct (lp_state lp), (lp_calls lp); done.
Qed.

Lemma procs_in c l x n pid st : Procs c l x -> PSpawned c n pid st ∈ l -> (exists w, POver c n pid w ∈ l) \/ x = Some (n, pid, st).
Proof.
  induction 1 as [|l m pid' st' H IH|l m pid' st' w H IH]; intros Hin.
  - by apply elem_of_nil in Hin.
  - apply elem_of_app in Hin as [Hin|Hin].
    + destruct (IH Hin) as [[w Hw]|[=]]. left. exists w. apply elem_of_app. by left.
    + apply elem_of_list_singleton in Hin. injection Hin as <- <- <-. by right.
  - apply elem_of_app in Hin as [Hin|Hin]; [|by apply elem_of_list_singleton in Hin].
    left. destruct (IH Hin) as [[w' Hw]|[= -> -> ->]]; [exists w'; apply elem_of_app; by left|]. exists w. apply elem_of_app. right. by left.
Qed.
Lemma over_or_current k acts p t c n pid st : PI cfg k acts p t -> PSpawned c n pid st ∈ t ->
  (exists w, POver c n pid w ∈ t) \/ exists lp, po_loops p !! c = Some lp /\ current lp = Some (n, pid, st).
Proof.
  intros HI Hin. pose proof (pi_procs _ _ _ _ _ HI c) as HPr. unfold procs_ok in HPr.
  destruct (procs_in _ _ _ n pid st HPr) as [[w Hw]|E].
  - apply elem_of_list_In, List.filter_In. split; [by apply elem_of_list_In|]. apply Nat.eqb_refl.
  - left. exists w. apply elem_of_list_In, List.filter_In in Hw as [Hw _]. by apply elem_of_list_In.
  - right. destruct (po_loops p !! c) as [lp|]; [|done]. eauto.
Qed.

Lemma spawn_origin k acts p t a p' os1 c n pid start os2 : PI cfg k acts p (unhooked t) -> hook_step cfg p a = Some (p', os1 ++ HP (PSpawned c n pid start) :: os2) ->
  os1 = [] /\ exists lp, po_loops p !! c = Some lp /\ lp_state lp = LTaken n /\ lp_calls lp = [].
Proof.
  intros HI H. unfold hook_step in H. destruct (pool_step cfg p a) as [[p2 l]|] eqn:Hp; [|done]. injection H as _ E.
  assert (PSpawned c n pid start ∈ l) as Hin.
  { assert (HP (PSpawned c n pid start) ∈ loop_hooks p a ++ flat_map (decorate cfg (length (po_loops p))) l) as Hin by (rewrite E; apply elem_of_app; right; by left).
    apply unhooked_in in Hin. by rewrite unhooked_app, loop_hooks_plain, unhooked_decorate in Hin. }
  apply elem_of_list_split in Hin as (l1 & l2 & ->).
  destruct (step_process cfg _ _ _ _ _ _ _ _ _ HI Hp I) as (d & i & now & lp & st' & cs & -> & -> & B1 & B2 & B3 & B4 & B5).
  assert (d = c /\ lp_state lp = LTaken n) as (-> & Hst).
  { unfold input_obs in B5. destruct (task_of (lp_state lp)) as [m|] eqn:Et; [|done].
    destruct (lp_state lp), i; try done; destruct (lp_child lp); try done; injection B5 as -> -> _ _; split; try done; by injection Et as ->. }
  cbn [pool_step] in Hp. rewrite B1, B2, B3, B4, B5 in Hp. injection Hp as _ <-. split; [|by exists lp].
  cbn in E. destruct os1 as [|? []]; done.
Qed.

(** *** The end of the call *)
Lemma drain_events_in n evs : forall sv q inf now sv' q' inf' os, drain_events cfg evs sv q inf now = Some (sv', q', inf', os) ->
  (n ∈ omap fin_of evs -> n ∈ drained os) /\ (is_Some (inf !! n) \/ n ∈ omap start_of evs -> n ∈ drained os \/ is_Some (inf' !! n)).
Proof.
  induction evs as [|[id h p j|id x v f] evs IH]; intros sv q inf now sv' q' inf' os H; cbn [drain_events] in H.
  - injection H as <- <- <- <-. split; [done|]. intros [?|H]; [by right|by apply elem_of_nil in H].
  - destruct (nodes g !! id); [|done]. destruct (write_started _ _ _ _ _ _); [|done]. destruct (inf !! id) eqn:Ei; [done|].
    destruct (drain_events _ evs _ _ _ _) as [[[[sv1 q1] inf1] os1]|] eqn:E; [|done]. injection H as <- <- <- <-.
    destruct (IH _ _ _ _ _ _ _ _ E) as [H1 H2]. split; [exact H1|]. intros H. apply H2.
    destruct (decide (n = id)) as [->|Hne]; [left; rewrite lookup_insert; by eexists|]. destruct H as [H|H]; [left; by rewrite lookup_insert_ne|].
    right. cbn in H. apply elem_of_cons in H as [?|H]; [done|done].
  - destruct (nodes g !! id); [|done]. destruct (dec_inflight _ _); [|done]. destruct (log_finish _ _ _ _ _ _ _); [|done].
    destruct (drain_events _ evs _ _ _ _) as [[[[sv1 q1] inf1] os1]|] eqn:E; [|done]. injection H as <- <- <- <-.
    destruct (IH _ _ _ _ _ _ _ _ E) as [H1 H2]. change (drained (ODrainFinished id x :: os1)) with (id :: drained os1). split.
    + intros H. cbn in H. apply elem_of_cons in H as [->|H]; [by left|right; by apply H1].
    + intros H. destruct (decide (n = id)) as [->|Hne]; [left; by left|].
      destruct H2 as [H2|H2]; [|left; by right|by right]. destruct H as [H|H]; [left; by rewrite lookup_delete_ne|by right].
Qed.
Lemma drain_inflight_in order : forall sv q now sv' q' os, drain_inflight cfg order sv q now = Some (sv', q', os) -> drained os = order.
Proof.
  induction order as [|id order IH]; intros sv q now sv' q' os H; cbn [drain_inflight] in H; [by injection H as <- <- <-|].
  repeat (case_match; try done). injection H as <- <- <-. change (id :: drained l0 = id :: order). f_equal. by eapply IH.
Qed.

Lemma started_reported s t n : reachable cfg s t -> st_phase s = PDrained -> n ∈ sents t -> n ∈ map fst (reports t).
Proof.
  intros Hr Hph Hin. pose proof (drained_state cfg Hok s t Hr Hph) as HD.
  destruct HD as (s0 & t0 & os & now & order & HF & Hp0 & Ht0 & He & -> & Hdr & Hz & _).
  rewrite reports_app, map_app, (reports_loop t0 (s_nodrain _ _ _ (f_ts _ _ _ HF))), (reports_drain os (z_obs _ _ _ _ _ _ Hz)).
  assert (n ∈ sents t0) as Hin0.
  { rewrite sents_app in Hin. apply elem_of_app in Hin as [?|Hin]; [done|]. apply sents_in in Hin as [c Hin].
    pose proof (z_obs _ _ _ _ _ _ Hz) as Ho. rewrite Forall_forall in Ho. by apply Ho in Hin. }
  apply occ_pos in Hin0. pose proof (held_bound s0 t0 (f_reach _ _ _ HF) n) as Hb.
  pose proof (inv_a _ _ _ (f_inv _ _ _ HF)) as HA. pose proof (a_own _ _ _ HA n) as H1. pose proof (a_hd _ _ _ HA n) as H2. pose proof (a_se _ _ _ HA n) as H3.
  assert (tk s0 t0 n <= 1) as H4 by (unfold tk; destruct (tkb _ _ _); cbn; lia).
  assert (nhold s0 n = nclaim s0 n + nheld s0 n) as H5.
  { unfold nhold, nclaim, nheld. clear. induction (st_clients s0) as [|x l IH]; [done|]. rewrite !occ_omap_cons, IH.
    destruct x as [| | | | | | |? []]; cbn; unfold SchedBase.one; lia. }
  unfold drain in Hdr. destruct (drain_events _ _ _ _ _ _) as [[[[sv1 q1] inf] os1]|] eqn:E; [|done].
  destruct (is_reordering order (map fst (map_to_list inf))) eqn:Hord; [|done].
  destruct (drain_inflight _ _ _ _ _) as [[[sv2 q2] os2]|] eqn:E2; [|done]. injection Hdr as _ _ <-.
  apply drain_inflight_in in E2. destruct (drain_events_in n _ _ _ _ _ _ _ _ _ E) as [D1 D2]. rewrite drained_app, E2.
  apply elem_of_app.
  assert (0 < occ n (finish_order t0) \/ 0 < nfe s0 n \/ 0 < nse s0 n \/ 0 < ninf s0 n) as [H|[H|H]] by lia.
  - left. by apply occ_pos.
  - right. apply elem_of_app. left. apply D1. by apply occ_pos.
  - right. apply elem_of_app. destruct D2 as [D2|D2]; [|by left|right].
    + destruct H as [H|H]; [right; by apply occ_pos|left]. unfold ninf in H. destruct (decide _); [done|lia].
    + apply (is_reordering_perm _ _ (NoDup_fst_map_to_list inf)) in Hord. rewrite Hord.
      destruct D2 as [y Hy]. apply elem_of_list_fmap. exists (n, y). split; [done|]. by apply elem_of_map_to_list.
Qed.
End hook.
