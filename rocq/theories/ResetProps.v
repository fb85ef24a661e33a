(** C35: changes of the launch limit that overlap. Vocabulary: GcraSpec.v. *)
From Verif Require Import GcraProofs ResetModel.
From Coq Require Import Lia.

(** What the fields of the limiter and of the calls come from. *)
Record requested (acts : list raction) (l0 : limiter) (s : rstate) : Prop := {
  rq_tau : l_tau (rs_lim s) = l_tau l0 \/ exists c now rate, In (RClock c now rate) acts /\ l_tau (rs_lim s) = tau_of rate;
  rq_tat : l_tat (rs_lim s) = l_tat l0 \/ exists c now rate, In (RClock c now rate) acts /\ l_tat (rs_lim s) = tat_of now rate;
  rq_read : forall c tau tat, rs_calls s !! c = Some (RRead tau tat) -> exists now rate, In (RClock c now rate) acts /\ tau = tau_of rate /\ tat = tat_of now rate;
  rq_stored : forall c tat, rs_calls s !! c = Some (RStored tat) -> exists now rate, In (RClock c now rate) acts /\ tat = tat_of now rate;
  rq_tau_set : forall c, (exists now rate, In (RClock c now rate) acts) -> (exists tau tat, rs_calls s !! c = Some (RRead tau tat)) \/
                 exists c' now rate, In (RClock c' now rate) acts /\ l_tau (rs_lim s) = tau_of rate;
  rq_tat_set : forall c, (exists now rate, In (RClock c now rate) acts) -> is_Some (rs_calls s !! c) \/
                 exists c' now rate, In (RClock c' now rate) acts /\ l_tat (rs_lim s) = tat_of now rate
}.
Lemma rrun_app acts : forall s acts', rrun s (acts ++ acts') = match rrun s acts with None => None | Some s1 => rrun s1 acts' end.
Proof. induction acts as [|a acts IH]; intros s acts'; simpl; [done|]. by destruct (rstep s a). Qed.
Lemma in_more (acts : list raction) a x : In x acts -> In x (acts ++ [a]).
Proof. intros H. apply in_app_iff. by left. Qed.
Lemma in_last (acts : list raction) a : In a (acts ++ [a]).
Proof. apply in_app_iff. right. by left. Qed.
Lemma requested_step acts l0 s a s' : requested acts l0 s -> rstep s a = Some s' -> requested (acts ++ [a]) l0 s'.
Proof.
  intros [H1 H2 H3 H4 H5 H6] Hs. pose proof (in_more acts a) as Hm. destruct a as [c now rate|c|c]; simpl in Hs.
  - destruct (rs_calls s !! c) eqn:Hc; [done|]. injection Hs as <-. split; cbn [rs_lim rs_calls].
    + destruct H1 as [?|(x & y & z & ? & ?)]; [by left|right; exists x, y, z; auto].
    + destruct H2 as [?|(x & y & z & ? & ?)]; [by left|right; exists x, y, z; auto].
    + intros d tau tat Hd. destruct (decide (d = c)) as [->|Hne].
      * rewrite lookup_insert in Hd. injection Hd as <- <-. exists now, rate. split; [apply in_last|done].
      * rewrite lookup_insert_ne in Hd by done. destruct (H3 _ _ _ Hd) as (y & z & ? & ?). exists y, z. auto.
    + intros d tat Hd. destruct (decide (d = c)) as [->|Hne]; [by rewrite lookup_insert in Hd|].
      rewrite lookup_insert_ne in Hd by done. destruct (H4 _ _ Hd) as (y & z & ? & ?). exists y, z. auto.
    + intros d (n & r & Hd). destruct (decide (d = c)) as [->|Hne]; [left; rewrite lookup_insert; eauto|]. rewrite lookup_insert_ne by done.
      apply in_app_iff in Hd as [Hd|[Hd|[]]]; [|injection Hd as <- _ _; done]. destruct (H5 d) as [?|(x & y & z & ? & ?)]; [eauto|by left|right; exists x, y, z; auto].
    + intros d (n & r & Hd). destruct (decide (d = c)) as [->|Hne]; [left; rewrite lookup_insert; eauto|]. rewrite lookup_insert_ne by done.
      apply in_app_iff in Hd as [Hd|[Hd|[]]]; [|injection Hd as <- _ _; done]. destruct (H6 d) as [?|(x & y & z & ? & ?)]; [eauto|by left|right; exists x, y, z; auto].
  - destruct (rs_calls s !! c) as [[tau tat|]|] eqn:Hc; try done. injection Hs as <-. destruct (H3 _ _ _ Hc) as (n & r & Hin & -> & ->).
    split; cbn [rs_lim rs_calls l_tau l_tat].
    + right. exists c, n, r. auto.
    + destruct H2 as [?|(x & y & z & ? & ?)]; [by left|right; exists x, y, z; auto].
    + intros d tau tat Hd. destruct (decide (d = c)) as [->|Hne]; [by rewrite lookup_insert in Hd|].
      rewrite lookup_insert_ne in Hd by done. destruct (H3 _ _ _ Hd) as (y & z & ? & ?). exists y, z. auto.
    + intros d tat Hd. destruct (decide (d = c)) as [->|Hne].
      * rewrite lookup_insert in Hd. injection Hd as <-. exists n, r. auto.
      * rewrite lookup_insert_ne in Hd by done. destruct (H4 _ _ Hd) as (y & z & ? & ?). exists y, z. auto.
    + intros d _. right. exists c, n, r. auto.
    + intros d (n' & r' & Hd). destruct (decide (d = c)) as [->|Hne]; [left; rewrite lookup_insert; eauto|]. rewrite lookup_insert_ne by done.
      apply in_app_iff in Hd as [Hd|[Hd|[]]]; [|done]. destruct (H6 d) as [?|(x & y & z & ? & ?)]; [eauto|by left|right; exists x, y, z; auto].
  - destruct (rs_calls s !! c) as [[|tat]|] eqn:Hc; try done. injection Hs as <-. destruct (H4 _ _ Hc) as (n & r & Hin & ->).
    split; cbn [rs_lim rs_calls l_tau l_tat].
    + destruct H1 as [?|(x & y & z & ? & ?)]; [by left|right; exists x, y, z; auto].
    + right. exists c, n, r. auto.
    + intros d tau tat Hd. destruct (decide (d = c)) as [->|Hne]; [by rewrite lookup_delete in Hd|].
      rewrite lookup_delete_ne in Hd by done. destruct (H3 _ _ _ Hd) as (y & z & ? & ?). exists y, z. auto.
    + intros d tat Hd. destruct (decide (d = c)) as [->|Hne]; [by rewrite lookup_delete in Hd|].
      rewrite lookup_delete_ne in Hd by done. destruct (H4 _ _ Hd) as (y & z & ? & ?). exists y, z. auto.
    + intros d (n' & r' & Hd). apply in_app_iff in Hd as [Hd|[Hd|[]]]; [|done]. destruct (H5 d) as [(tau & tat & E)|(x & y & z & ? & ?)]; [eauto| |right; exists x, y, z; auto].
      left. exists tau, tat. rewrite lookup_delete_ne; [done|]. intros ->. by rewrite Hc in E.
    + intros d _. right. exists c, n, r. auto.
Qed.
Lemma requested_run l0 acts : forall s, rrun (RState l0 ∅) acts = Some s -> requested acts l0 s.
Proof.
  induction acts as [|a acts IH] using rev_ind; intros s H.
  - injection H as <-. split; cbn [rs_lim rs_calls]; try (by left); intros c; try (intros ? ?; by rewrite lookup_empty); try (intros ?; by rewrite lookup_empty); intros (? & ? & []).
  - rewrite rrun_app in H. destruct (rrun _ acts) as [s1|] eqn:E; [|done]. simpl in H. destruct (rstep s1 a) as [s2|] eqn:E2; [|done]. injection H as <-. eapply requested_step; eauto.
Qed.

(** C35: when requests to set the limit overlap in any way and are over, the rate is one of those requested, and the time is that of one of them. *)
Theorem limit_is_requested_one l0 acts s : rrun (RState l0 ∅) acts = Some s -> rs_calls s = ∅ -> acts <> [] ->
  exists c now rate c' now' rate', In (RClock c now rate) acts /\ In (RClock c' now' rate') acts /\ rs_lim s = Limiter (tau_of rate) (tat_of now' rate').
Proof.
  intros H Hc Hne. pose proof (requested_run _ _ _ H) as [_ _ _ _ H5 H6].
  assert (exists c, exists now rate, In (RClock c now rate) acts) as [c Hin].
  { destruct acts as [|[c now rate|c|c] acts]; [done|exists c, now, rate; by left| |]; simpl in H; rewrite lookup_empty in H; done. }
  destruct (H5 c Hin) as [(? & ? & E)|(c1 & n1 & r1 & I1 & E1)]; [by rewrite Hc, lookup_empty in E|].
  destruct (H6 c Hin) as [[? E]|(c2 & n2 & r2 & I2 & E2)]; [by rewrite Hc, lookup_empty in E|].
  exists c1, n1, r1, c2, n2, r2. split; [done|]. split; [done|]. destruct (rs_lim s) as [u v]. simpl in *. by subst.
Qed.
Print Assumptions limit_is_requested_one.

(** C35: the launches after such requests keep to a requested rate in every window, if this is between 1 and 10^9 per second. *)
Theorem launch_rate_after_overlap l0 resets s0 lo hi : rrun (RState l0 ∅) resets = Some s0 -> rs_calls s0 = ∅ -> resets <> [] ->
  PERIOD <= lo -> hi + 3 * PERIOD < U64 -> (forall c now rate, In (RClock c now rate) resets -> lo <= now <= hi) ->
  exists c now rate, In (RClock c now rate) resets /\ l_tau (rs_lim s0) = tau_of rate /\
    forall acts s t a b, 0 < rate <= PERIOD -> (forall x, In x acts -> ~ is_reset x) -> clocks_within lo hi acts ->
      run (fresh (rs_lim s0)) acts = Some (s, t) -> a <= b -> launches a b t * (PERIOD / rate) <= (b - a) + PERIOD.
Proof.
  intros H Hc Hne H1 H2 Hcl. destruct (limit_is_requested_one _ _ _ H Hc Hne) as (c & now & rate & c' & now' & rate' & I1 & I2 & E).
  exists c, now, rate. split; [done|]. rewrite E. split; [done|]. intros acts s t a b Hr Hres Hw Hrun Hab.
  pose proof (Hcl _ _ _ I2) as Hn'.
  assert (ginv lo hi (tau_of rate) (fresh (Limiter (tau_of rate) (tat_of now' rate')))) as Hi.
  { split; try done.
    - intros d n [X|[[? X]|[? [? X]]]]; unfold thread_of in X; simpl in X; by rewrite lookup_empty in X.
    - simpl. pose proof (tau_rate rate'). unfold PERIOD in *. rewrite tat_of_small by (unfold PERIOD; lia). lia. }
  assert (tau_of rate = PERIOD / rate) as <- by (unfold tau_of; destruct (N.eqb_spec rate 0); [lia|done]).
  destruct (window_run lo hi (tau_of rate) (conj (tau_pos _ Hr) (tau_le rate)) H1 H2 acts _ _ _ Hi Hres Hw Hrun a b) as [->|[X _]]; lia.
Qed.
Print Assumptions launch_rate_after_overlap.

(** Requests for no limit and for 2 per second overlap: the rate is that of the second, the time that of the first. *)
Definition overlap : list raction := [RClock 0 6000000000 0; RClock 1 6000000000 2; RTau 0; RTau 1; RTat 1; RTat 0].
Definition both_attempt : list action := [AClock 0 6000000000; ALoadTau 0; ALoadTat 0; ACas 0; AClock 1 6000000000; ALoadTau 1; ALoadTat 1; ACas 1].
Example overlap_run : rrun (RState (new_limiter 4000000000 5) ∅) overlap = Some (RState (Limiter 500000000 6000000000) ∅).
Proof.
  assert (match rrun (RState (new_limiter 4000000000 5) ∅) overlap with Some s => Some (rs_lim s, map_to_list (rs_calls s)) | None => None end = Some (Limiter 500000000 6000000000, [])) as X by (vm_compute; reflexivity).
  revert X. destruct (rrun _ overlap) as [[l m]|]; [|discriminate]. intros X. injection X as X1 X2. apply map_to_list_empty_iff in X2. cbn [rs_lim rs_calls] in *. by rewrite X1, X2.
Qed.

(** Not true: after requests that overlap the limiter is as one of them alone would have left it. With [overlap] two launches are admitted at the
    instant of the change; the request for 2 per second alone admits none at this instant (launch_rate_after_reset). *)
Theorem one_request_wins_refuted : exists l0 resets s, rrun (RState l0 ∅) resets = Some s /\ rs_calls s = ∅ /\
  (forall c now rate, In (RClock c now rate) resets -> rs_lim s <> new_limiter now rate) /\ rate_per_second (rs_lim s) = 2 /\
  exists s' t, run (fresh (rs_lim s)) both_attempt = Some (s', t) /\ launches 6000000000 6000000000 t = 2.
Proof.
  exists (new_limiter 4000000000 5), overlap, (RState (Limiter 500000000 6000000000) ∅). split; [exact overlap_run|]. split; [done|]. split.
  - intros c now rate H. unfold overlap in H. simpl in H. repeat (destruct H as [H|H]; [try discriminate H; injection H as _ <- <-; vm_compute; discriminate|]). done.
  - split; [vm_compute; reflexivity|]. eexists _, _. split; [vm_compute; reflexivity|vm_compute; reflexivity].
Qed.
Print Assumptions one_request_wins_refuted.
