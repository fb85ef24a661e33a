(** C35: a change of the launch limit while attempts are under way. Vocabulary: GcraSpec.v. *)
From Verif Require Import GcraProofs.
From Coq Require Import Lia.

(** What a caller of compute has read: a clock value and a tau. *)
Definition read_ok (lo hi : N) (t : thread) : Prop :=
  match t with TIdle => True | TNow n => lo <= n <= hi | TTau n x | TTat n x _ => lo <= n <= hi /\ x <= PERIOD end.
(** It has read this tau, if any. *)
Definition read_tau (tau : N) (t : thread) : Prop := match t with TTau _ x | TTat _ x _ => x = tau | _ => True end.

(** In every run: all that was read is in range. *)
Record any_inv (lo hi : N) (s : state) : Prop := {
  an_tau : l_tau (g_lim s) <= PERIOD;
  an_read : forall c, read_ok lo hi (thread_of s c)
}.
(** After a change: only the callers in [S] may have read another tau. *)
Record busy_inv (lo hi tau : N) (S : gset nat) (s : state) : Prop := {
  bu_reset : g_reset s = None;
  bu_tau : l_tau (g_lim s) = tau;
  bu_read : forall c, read_ok lo hi (thread_of s c);
  bu_same : forall c, c ∉ S -> read_tau tau (thread_of s c);
  bu_tat : l_tat (g_lim s) <= hi + PERIOD
}.
Lemma thread_state s c t l c' : thread_of (State l (<[c := t]> (g_threads s)) (g_reset s)) c' = if decide (c = c') then t else thread_of s c'.
Proof. unfold thread_of. simpl. destruct (decide (c = c')) as [->|Hne]; [by rewrite lookup_insert|by rewrite lookup_insert_ne]. Qed.
Lemma any_step lo hi s a s' os : any_inv lo hi s -> (forall c now, a = AClock c now -> lo <= now <= hi) -> step s a = Some (s', os) -> any_inv lo hi s'.
Proof.
  intros [H1 H2] Hc Hs. destruct a as [c now|c|c|c|now rate|]; simpl in Hs.
  - destruct (thread_of s c); try done. injection Hs as <- _. split; [done|]. intros c'. rewrite thread_of_set. destruct (decide (c = c')); [by apply (Hc c)|done].
  - pose proof (H2 c) as Hr. destruct (thread_of s c) as [|n| |]; try done. injection Hs as <- _. split; [done|]. intros c'. rewrite thread_of_set. by destruct (decide (c = c')).
  - pose proof (H2 c) as Hr. destruct (thread_of s c) as [| |n x|]; try done. injection Hs as <- _. split; [done|]. intros c'. rewrite thread_of_set. by destruct (decide (c = c')).
  - pose proof (H2 c) as Hr. destruct (thread_of s c) as [| | |n x tat]; try done. destruct (compute_raw n tat x 1) as [u v]. destruct (N.eqb (l_tat (g_lim s)) tat); injection Hs as <- _.
    + split; [done|]. intros c'. rewrite thread_state. by destruct (decide (c = c')).
    + split; [done|]. intros c'. rewrite thread_of_set. destruct (decide (c = c')); [apply Hr|done].
  - destruct (g_reset s); [done|]. injection Hs as <- _. split; [apply tau_le|done].
  - destruct (g_reset s); [|done]. injection Hs as <- _. by split.
Qed.
Lemma any_run lo hi acts : forall s s' t, any_inv lo hi s -> clocks_within lo hi acts -> run s acts = Some (s', t) -> any_inv lo hi s'.
Proof.
  induction acts as [|x acts IH]; intros s s' t Hi Hc Hrun; simpl in Hrun; [by injection Hrun as <- _|].
  destruct (step s x) as [[s1 o1]|] eqn:Hs; [|done]. destruct (run s1 acts) as [[s2 o2]|] eqn:Hr; [|done]. injection Hrun as <- _.
  eapply IH; [eapply any_step; [exact Hi| |exact Hs]| |exact Hr]; [intros c now ->; apply (Hc c); by left|intros c now H; apply (Hc c); by right].
Qed.
Lemma run_app s acts : forall acts', run s (acts ++ acts') = match run s acts with None => None | Some (s1, o1) => match run s1 acts' with None => None | Some (s2, o2) => Some (s2, o1 ++ o2) end end.
Proof.
  revert s. induction acts as [|a acts IH]; intros s acts'; simpl; [by destruct (run s acts') as [[? ?]|]|]. destruct (step s a) as [[s1 o1]|]; [|done]. rewrite IH.
  destruct (run s1 acts) as [[s2 o2]|]; [|done]. destruct (run s2 acts') as [[s3 o3]|]; [|done]. by rewrite List.app_assoc.
Qed.
Lemma pending_run acts : forall s s' t, (forall x, In x acts -> ~ is_reset x) -> run s acts = Some (s', t) -> g_reset s' = g_reset s /\ l_tau (g_lim s') = l_tau (g_lim s).
Proof.
  induction acts as [|x acts IH]; intros s s' t Hr Hrun; simpl in Hrun; [by injection Hrun as <- _|].
  destruct (step s x) as [[s1 o1]|] eqn:Hs; [|done]. destruct (run s1 acts) as [[s2 o2]|] eqn:Hrun'; [|done]. injection Hrun as <- _.
  destruct (IH s1 s2 o2) as [-> ->]; [intros y Hy; apply Hr; by right|done|]. assert (~ is_reset x) as Hx by (apply Hr; by left).
  destruct x as [c now|c|c|c|now rate|]; simpl in Hs; try by destruct (Hx I).
  - destruct (thread_of s c); try done. by injection Hs as <- _.
  - destruct (thread_of s c); try done. by injection Hs as <- _.
  - destruct (thread_of s c); try done. by injection Hs as <- _.
  - destruct (thread_of s c) as [| | |n y tat]; try done. destruct (compute_raw n tat y 1). destruct (N.eqb (l_tat (g_lim s)) tat); by injection Hs as <- _.
Qed.

Lemma launches_cat a b t1 t2 : launches a b (t1 ++ t2) = launches a b t1 + launches a b t2.
Proof. unfold launches. rewrite List.filter_app, app_length. lia. Qed.

Section busy.
  Context (lo hi tau : N).
  Hypothesis Htau : 0 < tau <= PERIOD.
  Hypothesis Hlo : PERIOD <= lo.
  Hypothesis Hhi : hi + 3 * PERIOD < U64.

  Lemma busy_thread S s c t l : busy_inv lo hi tau S s -> read_ok lo hi t -> (read_tau tau t \/ c ∈ S) -> l_tau l = tau -> l_tat l <= hi + PERIOD ->
    busy_inv lo hi tau S (State l (<[c := t]> (g_threads s)) (g_reset s)).
  Proof.
    intros [H1 H2 H3 H4 H5] Ht Hs Hl1 Hl2. split; try done.
    - intros c'. rewrite thread_state. by destruct (decide (c = c')).
    - intros c' Hc'. rewrite thread_state. destruct (decide (c = c')) as [<-|]; [by destruct Hs|by apply H4].
  Qed.
  Lemma busy_less S s c : busy_inv lo hi tau S s -> read_tau tau (thread_of s c) -> busy_inv lo hi tau (S ∖ {[c]}) s.
  Proof. intros [H1 H2 H3 H4 H5] Hr. split; try done. intros c' Hc'. destruct (decide (c' = c)) as [->|]; [done|]. apply H4. set_solver. Qed.

  Lemma busy_step S s a s' os :
    busy_inv lo hi tau S s -> ~ is_reset a -> (forall c now, a = AClock c now -> lo <= now <= hi) -> step s a = Some (s', os) ->
    l_tat (g_lim s) <= l_tat (g_lim s') /\
    ((busy_inv lo hi tau S s' /\ (os = [] \/ (exists c now d, os = [ORefused c now d]) \/
       exists c now, os = [OAdmitted c now] /\ l_tat (g_lim s') <= now + PERIOD /\ l_tat (g_lim s) + tau <= l_tat (g_lim s') /\ now + tau <= l_tat (g_lim s'))) \/
     exists c now, os = [OAdmitted c now] /\ c ∈ S /\ busy_inv lo hi tau (S ∖ {[c]}) s').
  Proof.
    intros Hi Hr Hc Hs. pose proof Hi as [H1 H2 H3 H4 H5]. destruct a as [c now|c|c|c|now rate|]; simpl in Hs; try by destruct (Hr I).
    - destruct (thread_of s c); try done. injection Hs as <- <-. split; [done|]. left. split; [|by left]. apply busy_thread; try done; [by apply (Hc c)|by left].
    - pose proof (H3 c) as Hrd. destruct (thread_of s c) as [|n| |]; try done. injection Hs as <- <-. split; [done|]. left. split; [|by left].
      apply busy_thread; try done; [split; [done|]; rewrite H2; apply Htau|by left].
    - pose proof (H3 c) as Hrd. pose proof (H4 c) as Hsm. destruct (thread_of s c) as [| |n x|]; try done. injection Hs as <- <-. split; [done|]. left. split; [|by left].
      apply busy_thread; try done. destruct (decide (c ∈ S)); [by right|left; by apply Hsm].
    - pose proof (H3 c) as Hrd. pose proof (H4 c) as Hsm. destruct (thread_of s c) as [| | |n x tat] eqn:E; try done. destruct Hrd as [Hn Hx].
      destruct (compute_raw n tat x 1) as [new_tat retry] eqn:Hraw. destruct (N.eqb_spec (l_tat (g_lim s)) tat) as [<-|Hne].
      2: { injection Hs as <- <-. split; [done|]. left. split; [|by left]. apply busy_thread; try done. by left. }
      injection Hs as <- <-. cbn [g_lim l_tat]. destruct (N.eq_dec x 0) as [->|Hx0].
      + unfold compute_raw in Hraw. simpl in Hraw. injection Hraw as <- <-. split; [done|]. right. exists c, n. split; [done|]. split.
        { destruct (decide (c ∈ S)); [done|]. specialize (Hsm n0). simpl in Hsm. lia. }
        apply busy_less; [apply busy_thread; try done; by left|]. rewrite thread_state. by rewrite decide_True.
      + rewrite compute_spec in Hraw by (unfold PERIOD in *; lia). cbv zeta in Hraw.
        assert (new_tat <= hi + PERIOD /\ l_tat (g_lim s) <= new_tat) as [Hnt1 Hnt2].
        { destruct (N.ltb_spec (n + PERIOD) (N.max (l_tat (g_lim s)) n + x)); injection Hraw as <- <-; unfold PERIOD in *; lia. }
        split; [done|].
        assert (busy_inv lo hi tau S (State (Limiter (l_tau (g_lim s)) new_tat) (<[c := TIdle]> (g_threads s)) (g_reset s))) as Hi' by (apply busy_thread; try done; by left).
        destruct (N.ltb_spec (n + PERIOD) (N.max (l_tat (g_lim s)) n + x)); injection Hraw as <- <-.
        * left. split; [exact Hi'|]. right. left. destruct (N.eqb_spec (N.max (l_tat (g_lim s)) n + x - PERIOD - n) 0); [unfold PERIOD in *; lia|eauto].
        * destruct (decide (c ∈ S)) as [HcS|HcS].
          -- right. exists c, n. split; [done|]. split; [done|]. apply busy_less; [exact Hi'|]. rewrite thread_state. by rewrite decide_True.
          -- specialize (Hsm HcS). simpl in Hsm. subst x. left. split; [exact Hi'|]. right. right. exists c, n. split; [done|]. lia.
  Qed.

  Lemma busy_run acts : forall S s s' t, busy_inv lo hi tau S s ->
    (forall a, In a acts -> ~ is_reset a) -> clocks_within lo hi acts -> run s acts = Some (s', t) ->
    forall a b n, (n = 0 \/ (n * tau + a <= l_tat (g_lim s) /\ n * tau + a <= b + PERIOD)) ->
      exists j k, launches a b t = k + j /\ j <= N.of_nat (size S) /\ (n + k = 0 \/ (n + k) * tau + a <= b + PERIOD).
  Proof.
    induction acts as [|x acts IH]; intros S s s' t Hi Hr Hc Hrun a b n Hn; simpl in Hrun.
    - injection Hrun as _ <-. exists 0, 0. split; [done|]. split; [lia|]. rewrite N.add_0_r. tauto.
    - destruct (step s x) as [[s1 o1]|] eqn:Hs; [|done]. destruct (run s1 acts) as [[s2 o2]|] eqn:Hrun'; [|done]. injection Hrun as <- <-.
      destruct (busy_step S s x s1 o1 Hi) as (Htat & Ho); [apply Hr; by left| |done|].
      { intros c now ->. apply (Hc c). by left. }
      assert (forall a, In a acts -> ~ is_reset a) as Hr' by (intros y Hy; apply Hr; by right).
      assert (clocks_within lo hi acts) as Hc' by (intros c now Hy; apply (Hc c); by right).
      rewrite launches_cat. destruct Ho as [[Hi1 Ho]|(c & now & -> & HcS & Hi1)].
      + destruct (IH S s1 s2 o2 Hi1 Hr' Hc' Hrun' a b (n + launches a b o1)) as (j & k & E1 & E2 & E3).
        * destruct Ho as [->|[(c & now & d & ->)|(c & now & -> & H1 & H2 & H3)]]; unfold launches; simpl; rewrite ?N.add_0_r.
          -- destruct Hn as [?|[? ?]]; [by left|right; lia].
          -- destruct Hn as [?|[? ?]]; [by left|right; lia].
          -- destruct (N.leb_spec a now), (N.leb_spec now b); simpl; rewrite ?N.add_0_r;
               try (destruct Hn as [?|[? ?]]; [by left|right; lia]).
             right. change (N.of_nat 1) with 1. destruct Hn as [->|[? ?]]; nia.
        * exists j, (launches a b o1 + k). split; [lia|]. split; [done|]. by rewrite N.add_assoc.
      + destruct (IH (S ∖ {[c]}) s1 s2 o2 Hi1 Hr' Hc' Hrun' a b n) as (j & k & E1 & E2 & E3); [destruct Hn as [?|[? ?]]; [by left|right; lia]|].
        assert (size (S ∖ {[c]}) + 1 = size S)%nat as Hsz.
        { rewrite size_difference by set_solver. rewrite size_singleton. assert (size S <> 0)%nat; [|lia]. intros H0. apply size_empty_inv in H0. set_solver. }
        assert (launches a b [OAdmitted c now] <= 1) as Hl by (unfold launches; simpl; destruct (_ && _); simpl; lia).
        exists (launches a b [OAdmitted c now] + j), k. split; [lia|]. split; [lia|done].
  Qed.
End busy.

(** C35: a change of the limit at any moment, whatever happened before. Once it is stored, the launches in every window keep to the new rate,
    but for one launch of each attempt that was under way when the change was complete. *)
Theorem launch_rate_after_busy_reset : forall rate0 t0 acts0 now rate mid s1 o1 acts s t lo hi (S : gset nat) a b,
  0 < rate <= PERIOD -> PERIOD <= lo -> hi + 3 * PERIOD < U64 -> lo <= now <= hi ->
  run (fresh (new_limiter t0 rate0)) (acts0 ++ [AResetTau now rate] ++ mid ++ [AResetTat]) = Some (s1, o1) ->
  (forall x, In x mid -> ~ is_reset x) -> clocks_within lo hi (acts0 ++ mid ++ acts) ->
  (forall c, thread_of s1 c <> TIdle -> c ∈ S) ->
  (forall x, In x acts -> ~ is_reset x) -> run s1 acts = Some (s, t) -> a <= b ->
  launches a b t * (PERIOD / rate) <= (b - a) + PERIOD + N.of_nat (size S) * (PERIOD / rate).
Proof.
  intros rate0 t0 acts0 now rate mid s1 o1 acts s t lo hi S a b Hr H1 H2 Hnow Hrun0 Hmid Hcl HS Hres Hrun Hab.
  assert (clocks_within lo hi acts0) as C0 by (intros c n Hin; apply (Hcl c); apply in_app_iff; by left).
  assert (clocks_within lo hi mid) as C1 by (intros c n Hin; apply (Hcl c); apply in_app_iff; right; apply in_app_iff; by left).
  assert (clocks_within lo hi acts) as C2 by (intros c n Hin; apply (Hcl c); apply in_app_iff; right; apply in_app_iff; by right).
  assert (any_inv lo hi (fresh (new_limiter t0 rate0))) as Hi0.
  { split; [apply tau_le|]. intros c. unfold thread_of. simpl. by rewrite lookup_empty. }
  rewrite run_app in Hrun0. destruct (run _ acts0) as [[sa oa]|] eqn:Ea; [|done]. pose proof (any_run _ _ _ _ _ _ Hi0 C0 Ea) as Hia.
  simpl in Hrun0. destruct (g_reset sa) eqn:Eg; [done|]. set (sb := State _ _ (Some (tat_of now rate))) in Hrun0.
  assert (any_inv lo hi sb) as Hib by (split; [apply tau_le|apply Hia]).
  rewrite run_app in Hrun0. destruct (run sb mid) as [[sc oc]|] eqn:Ec; [|done]. pose proof (any_run _ _ _ _ _ _ Hib C1 Ec) as Hic.
  destruct (pending_run _ _ _ _ Hmid Ec) as [Hp1 Hp2]. simpl in Hrun0. rewrite Hp1 in Hrun0. cbn [sb g_reset] in Hrun0. injection Hrun0 as <- _.
  assert (tau_of rate = PERIOD / rate) as <- by (unfold tau_of; destruct (N.eqb_spec rate 0); [lia|done]).
  assert (busy_inv lo hi (tau_of rate) S (State (Limiter (l_tau (g_lim sc)) (tat_of now rate)) (g_threads sc) None)) as Hb.
  { split; try done.
    - apply Hic.
    - intros c Hc. destruct (thread_of _ c) eqn:E; try done; exfalso; apply Hc, HS; by rewrite E.
    - cbn [g_lim l_tat]. pose proof (tau_rate rate). unfold PERIOD in *. rewrite tat_of_small by (unfold PERIOD; lia). lia. }
  destruct (busy_run lo hi (tau_of rate) (conj (tau_pos _ Hr) (tau_le rate)) H1 H2 acts S _ _ _ Hb Hres C2 Hrun a b 0) as (j & k & E1 & E2 & E3); [by left|].
  rewrite E1. rewrite N.add_0_l in E3. assert (k * tau_of rate <= b - a + PERIOD) by (destruct E3 as [->|E3]; lia). nia.
Qed.
Print Assumptions launch_rate_after_busy_reset.

(** Caller 0 has read that there is no limit when the limit is set to 2 per second; caller 1 reads the new one. Caller 0 starts at once. *)
Lemma busy_callers s c : thread_of s c <> TIdle -> c ∈ map fst (map_to_list (g_threads s)).
Proof.
  unfold thread_of. destruct (g_threads s !! c) as [t|] eqn:E; [|done]. intros _. apply elem_of_list_fmap. exists (c, t). split; [done|]. by apply elem_of_map_to_list.
Qed.
Definition busy_before : list action := [AClock 0 6000000000; ALoadTau 0].
Definition busy_after : list action := [ALoadTat 0; ACas 0; AClock 1 6000000000; ALoadTau 1; ALoadTat 1; ACas 1; AClock 2 6500000000; ALoadTau 2; ALoadTat 2; ACas 2].
Example busy_demo : exists s1 o1 s t,
  run (fresh (new_limiter 5000000000 0)) (busy_before ++ [AResetTau 6000000000 2] ++ [] ++ [AResetTat]) = Some (s1, o1) /\
  (forall c, thread_of s1 c <> TIdle -> c ∈ ({[0%nat]} : gset nat)) /\ run s1 busy_after = Some (s, t) /\
  t = [OAdmitted 0 6000000000; ORefused 1 6000000000 500000000; OAdmitted 2 6500000000].
Proof.
  eexists _, _, _, _. split; [vm_compute; reflexivity|]. split; [|split; vm_compute; reflexivity].
  intros c H. apply busy_callers in H. vm_compute in H. apply elem_of_list_singleton in H. set_solver.
Qed.
