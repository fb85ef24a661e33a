From Verif Require Export GcraSpec.
From Coq Require Import Lia.

Lemma wadd_small a b : a + b < U64 -> wadd a b = a + b.
Proof. intros H. unfold wadd. by apply N.mod_small. Qed.
Lemma wmul_small a b : a * b < U64 -> wmul a b = a * b.
Proof. intros H. unfold wmul. by apply N.mod_small. Qed.
Lemma wsub_small a b : b <= a -> a < U64 -> wsub a b = a - b.
Proof.
  intros H1 H2. unfold wsub. replace (a + (U64 - b)) with (a - b + 1 * U64) by lia.
  rewrite N.mod_add by done. apply N.mod_small. lia.
Qed.

Lemma tau_le rate : tau_of rate <= PERIOD.
Proof.
  unfold tau_of. destruct (N.eqb_spec rate 0); [unfold PERIOD; lia|]. 
  apply N.div_le_upper_bound; [done|]. nia.
Qed.
Lemma tau_rate rate : tau_of rate * rate <= PERIOD.
Proof.
  unfold tau_of. destruct (N.eqb_spec rate 0); [unfold PERIOD; lia|]. rewrite N.mul_comm. by apply N.mul_div_le.
Qed.
Lemma tau_rate_mod rate : rate <> 0 -> tau_of rate * rate + PERIOD mod rate = PERIOD.
Proof.
  intros H. unfold tau_of. destruct (N.eqb_spec rate 0); [done|]. rewrite (N.mul_comm (PERIOD / rate)).
  symmetry. by apply N.div_mod.
Qed.
Lemma tat_of_small now rate : now + PERIOD < U64 -> tat_of now rate = now + tau_of rate * rate.
Proof.
  intros H. pose proof (tau_rate rate). unfold tat_of. rewrite wmul_small by lia. apply wadd_small. lia.
Qed.

(** compute_raw with cost 1 in ordinary numbers *)
Lemma compute_spec now tat tau :
  0 < tau -> tau <= PERIOD -> PERIOD <= now -> now + 2 * PERIOD < U64 -> tat + 2 * PERIOD < U64 ->
  compute_raw now tat tau 1 =
  let tat := N.max tat now in
  if N.ltb (now + PERIOD) (tat + tau) then (tat, tat + tau - PERIOD - now) else (tat + tau, 0).
Proof.
  intros H1 H2 H3 H4 H5. unfold compute_raw. destruct (N.eqb_spec tau 0) as [->|_]; [lia|].
  unfold PERIOD in *. cbv zeta. rewrite wmul_small by lia. rewrite N.mul_1_r.
  rewrite (wadd_small (N.max tat now)) by lia. rewrite (wsub_small (N.max tat now + tau)) by lia.
  destruct (N.ltb_spec now (N.max tat now + tau - 1000000000)), (N.ltb_spec (now + 1000000000) (N.max tat now + tau)); try lia; [|done].
  f_equal. rewrite wsub_small by lia. lia.
Qed.

(** ** Windows *)
Lemma thread_of_set s c t c' : thread_of (set_thread s c t) c' = if decide (c = c') then t else thread_of s c'.
Proof.
  unfold thread_of, set_thread. simpl. destruct (decide (c = c')) as [->|Hne]; [by rewrite lookup_insert|by rewrite lookup_insert_ne].
Qed.

Record ginv (lo hi tau : N) (s : state) : Prop := GInv {
  gi_reset : g_reset s = None;
  gi_tau : l_tau (g_lim s) = tau;
  gi_loaded : forall c now t, thread_of s c = TTau now t -> t = tau;
  gi_loaded' : forall c now t x, thread_of s c = TTat now t x -> t = tau;
  gi_clock : forall c now, (thread_of s c = TNow now \/ (exists t, thread_of s c = TTau now t) \/ (exists t x, thread_of s c = TTat now t x)) ->
    lo <= now <= hi;
  gi_tat : l_tat (g_lim s) <= hi + PERIOD
}.

Section window.
  Context (lo hi tau : N).
  Hypothesis Htau : 0 < tau <= PERIOD.
  Hypothesis Hlo : PERIOD <= lo.
  Hypothesis Hhi : hi + 3 * PERIOD < U64.

  Lemma ginv_thread s c t : ginv lo hi tau s ->
    match t with TIdle => True | TNow n => lo <= n <= hi | TTau n x => lo <= n <= hi /\ x = tau | TTat n x _ => lo <= n <= hi /\ x = tau end ->
    ginv lo hi tau (set_thread s c t).
  Proof.
    intros [H1 H2 H3 H4 H5 H6] Ht. split; try done.
    - intros c' now x. rewrite thread_of_set. destruct (decide (c = c')); [intros ->; apply Ht|apply H3].
    - intros c' now x y. rewrite thread_of_set. destruct (decide (c = c')); [intros ->; apply Ht|apply H4].
    - intros c' now. rewrite thread_of_set. destruct (decide (c = c')); [|apply H5].
      intros [->|[[x ->]|[x [y ->]]]]; [done|apply Ht|apply Ht].
  Qed.

  (** One step: the counters of windows. *)
  Lemma window_step s a s' os :
    ginv lo hi tau s -> ~ is_reset a -> (forall c now, a = AClock c now -> lo <= now <= hi) -> step s a = Some (s', os) ->
    ginv lo hi tau s' /\ l_tat (g_lim s) <= l_tat (g_lim s') /\
    (os = [] \/ (exists c now d, os = [ORefused c now d]) \/
     exists c now, os = [OAdmitted c now] /\ l_tat (g_lim s') <= now + PERIOD /\
       l_tat (g_lim s) + tau <= l_tat (g_lim s') /\ now + tau <= l_tat (g_lim s')).
  Proof.
    intros Hi Hr Hc Hs. destruct a as [c now|c|c|c|now rate|]; simpl in Hs; try by destruct (Hr I).
    - destruct (thread_of s c); try done. injection Hs as <- <-. split; [apply ginv_thread; [done|by eapply Hc]|]. split; [done|by left].
    - destruct (thread_of s c) as [|now| |] eqn:E; try done. injection Hs as <- <-. split; [|split; [done|by left]].
      apply ginv_thread; [done|]. split; [apply (gi_clock _ _ _ _ Hi c); auto|apply (gi_tau _ _ _ _ Hi)].
    - destruct (thread_of s c) as [| |now x|] eqn:E; try done. injection Hs as <- <-. split; [|split; [done|by left]].
      apply ginv_thread; [done|]. split; [apply (gi_clock _ _ _ _ Hi c); eauto|by eapply (gi_loaded _ _ _ _ Hi)].
    - destruct (thread_of s c) as [| | |now x tat] eqn:E; try done.
      assert (lo <= now <= hi) as Hn by (apply (gi_clock _ _ _ _ Hi c); eauto).
      assert (x = tau) as -> by (by eapply (gi_loaded' _ _ _ _ Hi)).
      destruct (compute_raw now tat tau 1) as [new_tat retry] eqn:Hraw.
      destruct (N.eqb_spec (l_tat (g_lim s)) tat) as [<-|Hne].
      + injection Hs as <- <-. pose proof (gi_tat _ _ _ _ Hi) as Htat.
        rewrite compute_spec in Hraw by (unfold PERIOD in *; lia). cbv zeta in Hraw.
        assert (new_tat <= hi + PERIOD /\ l_tat (g_lim s) <= new_tat) as [Hnt1 Hnt2].
        { destruct (N.ltb_spec (now + PERIOD) (N.max (l_tat (g_lim s)) now + tau)); injection Hraw as <- <-; unfold PERIOD in *; lia. }
        split.
        { pose proof (ginv_thread s c TIdle Hi I) as [H1 H2 H3 H4 H5 H6]. split; try done. }
        split; [done|]. right.
        destruct (N.ltb_spec (now + PERIOD) (N.max (l_tat (g_lim s)) now + tau)); injection Hraw as <- <-; simpl.
        * left. destruct (N.eqb_spec (N.max (l_tat (g_lim s)) now + tau - PERIOD - now) 0); [unfold PERIOD in *; lia|eauto].
        * right. exists c, now. split; [done|]. lia.
      + injection Hs as <- <-. split; [apply ginv_thread; [done|]; done|]. split; [done|by left].
  Qed.

  Lemma launches_app a b t1 t2 : launches a b (t1 ++ t2) = launches a b t1 + launches a b t2.
  Proof. unfold launches. rewrite List.filter_app, app_length. lia. Qed.

  Lemma window_run acts : forall s s' t, ginv lo hi tau s ->
    (forall a, In a acts -> ~ is_reset a) -> clocks_within lo hi acts -> run s acts = Some (s', t) ->
    forall a b, launches a b t = 0 \/
      (launches a b t * tau + a <= b + PERIOD /\ launches a b t * tau + l_tat (g_lim s) <= b + PERIOD).
  Proof.
    assert (forall acts s s' t, ginv lo hi tau s ->
      (forall a, In a acts -> ~ is_reset a) -> clocks_within lo hi acts -> run s acts = Some (s', t) ->
      forall a b n t0, (n = 0 \/ (n * tau + a <= l_tat (g_lim s) /\ n * tau + a <= b + PERIOD /\ n * tau + t0 <= b + PERIOD)) ->
        n * tau + t0 <= l_tat (g_lim s) ->
        let m := n + launches a b t in m = 0 \/ (m * tau + a <= b + PERIOD /\ m * tau + t0 <= b + PERIOD)) as Hgen.
    { clear acts. induction acts as [|x acts IH]; intros s s' t Hi Hr Hc Hrun a b n t0 Hn Hn0; simpl in Hrun.
      - injection Hrun as _ <-. unfold launches. simpl. rewrite N.add_0_r. tauto.
      - destruct (step s x) as [[s1 o1]|] eqn:Hs; [|done]. destruct (run s1 acts) as [[s2 o2]|] eqn:Hrun'; [|done]. injection Hrun as <- <-.
        destruct (window_step s x s1 o1 Hi) as (Hi1 & Htat & Ho); [apply Hr; by left| |done|].
        { intros c now ->. apply (Hc c). by left. }
        assert (forall a, In a acts -> ~ is_reset a) as Hr' by (intros y Hy; apply Hr; by right).
        assert (clocks_within lo hi acts) as Hc' by (intros c now Hy; apply (Hc c); by right).
        rewrite launches_app. cbv zeta. rewrite N.add_assoc.
        apply (IH s1 s2 o2 Hi1 Hr' Hc' Hrun').
        + destruct Ho as [->|[(c & now & d & ->)|(c & now & -> & H1 & H2 & H3)]]; unfold launches; simpl; rewrite ?N.add_0_r.
          * destruct Hn as [?|(?&?&?)]; [by left|right; lia].
          * destruct Hn as [?|(?&?&?)]; [by left|right; lia].
          * destruct (N.leb_spec a now), (N.leb_spec now b); simpl; rewrite ?N.add_0_r;
              try (destruct Hn as [?|(?&?&?)]; [by left|right; lia]).
            right. change (N.of_nat 1) with 1. destruct Hn as [->|(?&?&?)]; nia.
        + destruct Ho as [->|[(c & now & d & ->)|(c & now & -> & H1 & H2 & H3)]]; unfold launches; simpl; try (rewrite ?N.add_0_r; nia).
          destruct (N.leb a now && N.leb now b); simpl; nia. }
    intros s s' t Hi Hr Hc Hrun a b.
    apply (Hgen acts s s' t Hi Hr Hc Hrun a b 0 (l_tat (g_lim s))); [by left|lia].
  Qed.
End window.

Lemma fresh_inv lo hi t0 rate : PERIOD <= lo -> hi + 3 * PERIOD < U64 -> lo <= t0 <= hi ->
  ginv lo hi (tau_of rate) (fresh (new_limiter t0 rate)).
Proof.
  intros H1 H2 H3. split; try done.
  - intros c now [H|[[? H]|[? [? H]]]]; unfold thread_of in H; simpl in H; by rewrite lookup_empty in H.
  - simpl. pose proof (tau_rate rate). unfold PERIOD in *. rewrite tat_of_small by (unfold PERIOD; lia). lia.
Qed.

(** ** Waiting times *)
Lemma refused_spec now tat tau d tat' :
  tau <= PERIOD -> PERIOD <= now -> now + 2 * PERIOD < U64 -> tat + 2 * PERIOD < U64 ->
  compute_raw now tat tau 1 = (tat', d) -> d <> 0 ->
  0 < tau /\ tat' = tat /\ now < tat /\ now + d = tat + tau - PERIOD /\ PERIOD < tat + tau.
Proof.
  intros H1 H2 H3 H4 H Hd. destruct (N.eq_dec tau 0) as [->|Ht]; [unfold compute_raw in H; simpl in H; congruence|].
  rewrite compute_spec in H by lia. cbv zeta in H. 
  destruct (N.ltb_spec (now + PERIOD) (N.max tat now + tau)); injection H as <- <-; [|done].
  unfold PERIOD in *. lia.
Qed.

Lemma reported_rate rate now : rate <> 0 -> rate * rate <= PERIOD -> rate_per_second (new_limiter now rate) = rate.
Proof.
  intros Hr Hsq. unfold rate_per_second, new_limiter. simpl. pose proof (tau_rate_mod rate Hr) as Hm.
  pose proof (N.mod_lt PERIOD rate Hr).
  assert (rate <= tau_of rate).
  { unfold tau_of. destruct (N.eqb_spec rate 0); [done|]. apply N.div_le_lower_bound; done. }
  destruct (N.eqb_spec (tau_of rate) 0); [lia|]. symmetry. apply (N.div_unique _ _ _ (PERIOD mod rate)); [lia|lia].
Qed.

(** ** Waiting times, with any number of threads *)
Section waiting.
  Context (lo hi tau : N).
  Hypothesis Htau : 0 < tau <= PERIOD.
  Hypothesis Hlo : PERIOD <= lo.
  Hypothesis Hhi : hi + 3 * PERIOD < U64.

  Lemma cas_step s c s' os : ginv lo hi tau s -> step s (ACas c) = Some (s', os) -> os <> [] ->
    exists now, lo <= now <= hi /\ 
      let tat := N.max (l_tat (g_lim s)) now in
      (now + PERIOD < tat + tau /\ os = [ORefused c now (tat + tau - PERIOD - now)] /\ l_tat (g_lim s') = tat \/
       tat + tau <= now + PERIOD /\ os = [OAdmitted c now] /\ l_tat (g_lim s') = tat + tau).
  Proof.
    intros Hi Hs Hne. simpl in Hs. destruct (thread_of s c) as [| | |now x tat] eqn:E; try done.
    assert (lo <= now <= hi) as Hn by (apply (gi_clock _ _ _ _ Hi c); eauto).
    assert (x = tau) as -> by (by eapply (gi_loaded' _ _ _ _ Hi)).
    destruct (compute_raw now tat tau 1) as [new_tat retry] eqn:Hraw.
    destruct (N.eqb_spec (l_tat (g_lim s)) tat) as [<-|]; [|injection Hs as <- <-; done].
    injection Hs as <- <-. pose proof (gi_tat _ _ _ _ Hi) as Htat.
    rewrite compute_spec in Hraw by (unfold PERIOD in *; lia). cbv zeta in Hraw. exists now. split; [done|]. cbv zeta.
    destruct (N.ltb_spec (now + PERIOD) (N.max (l_tat (g_lim s)) now + tau)); injection Hraw as <- <-; simpl.
    - left. split; [done|]. destruct (N.eqb_spec (N.max (l_tat (g_lim s)) now + tau - PERIOD - now) 0); [unfold PERIOD in *; lia|done].
    - right. done.
  Qed.

  (** Once somebody has been refused, tat only moves by admissions. *)
  Lemma tat_kept acts : forall s s' t, ginv lo hi tau s -> 
    (forall a, In a acts -> ~ is_reset a) -> clocks_within lo hi acts -> run s acts = Some (s', t) -> no_launch t ->
    forall due, l_tat (g_lim s) + tau = due + PERIOD ->
      (forall c now d, In (ORefused c now d) t -> now < due /\ now + d = due) -> 
      ginv lo hi tau s' /\ l_tat (g_lim s') = l_tat (g_lim s).
  Proof.
    induction acts as [|x acts IH]; intros s s' t Hi Hr Hc Hrun Hno due Hdue Hd; simpl in Hrun.
    { injection Hrun as <- <-. done. }
    destruct (step s x) as [[s1 o1]|] eqn:Hs; [|done]. destruct (run s1 acts) as [[s2 o2]|] eqn:Hrun'; [|done]. injection Hrun as <- <-.
    destruct (window_step lo hi tau Htau Hlo Hhi s x s1 o1 Hi) as (Hi1 & Htat & Ho); [apply Hr; by left| |done|].
    { intros c now ->. apply (Hc c). by left. }
    assert (l_tat (g_lim s1) = l_tat (g_lim s)) as Heq.
    { destruct x as [c now|c|c|c|now rate|]; try (exfalso; apply (Hr _ (or_introl eq_refl)); exact I).
      - simpl in Hs. destruct (thread_of s c); try done. by injection Hs as <- <-.
      - simpl in Hs. destruct (thread_of s c); try done. by injection Hs as <- <-.
      - simpl in Hs. destruct (thread_of s c); try done. by injection Hs as <- <-.
      - destruct o1 as [|o o1].
        { simpl in Hs. destruct (thread_of s c); try done. destruct (compute_raw _ _ _ _). destruct (N.eqb _ _); [done|]. by injection Hs as <-. }
        destruct (cas_step s c s1 _ Hi Hs) as (now & Hn & [(H1 & H2 & H3)|(H1 & H2 & H3)]); [done| |].
        + rewrite H3. injection H2 as -> ->. 
          destruct (Hd c now _ (or_introl eq_refl)) as [Hlt Hpl]. unfold PERIOD in *. lia.
        + injection H2 as -> ->. exfalso. apply (Hno c now). by left. }
    rewrite <- Heq in Hdue |- *.
    apply (IH s1 s2 o2 Hi1) with (due := due).
    - intros y Hy. apply Hr. by right.
    - intros c now Hy. apply (Hc c). by right.
    - done.
    - intros c now Hy. apply (Hno c now). apply in_app_iff. by right.
    - done.
    - intros c now d Hy. apply (Hd c now d). apply in_app_iff. by right.
  Qed.

  (** all the refusals agree, as long as nobody is admitted *)
  Lemma refusals acts : forall s s' t due, ginv lo hi tau s -> 
    (forall a, In a acts -> ~ is_reset a) -> clocks_within lo hi acts -> run s acts = Some (s', t) -> no_launch t ->
    l_tat (g_lim s) + tau = due + PERIOD -> forall c now d, In (ORefused c now d) t -> now < due /\ now + d = due.
  Proof.
    induction acts as [|x acts IH]; intros s s' t due Hi Hr Hc Hrun Hno Hdue c now d Hin; simpl in Hrun.
    { injection Hrun as <- <-. done. }
    destruct (step s x) as [[s1 o1]|] eqn:Hs; [|done]. destruct (run s1 acts) as [[s2 o2]|] eqn:Hrun'; [|done]. injection Hrun as <- <-.
    assert (no_launch o1) as Hno1 by (intros c' n' Hy; apply (Hno c' n'); apply in_app_iff; by left).
    assert (run s [x] = Some (s1, o1)) as Hrun1 by (simpl; rewrite Hs, app_nil_r; done).
    assert (forall c now d, In (ORefused c now d) o1 -> now < due /\ now + d = due) as H1.
    { intros c' n' d' Hy. destruct o1 as [|o o1]; [done|].
      destruct x as [c1 now1|c1|c1|c1|now1 rate|]; try (exfalso; apply (Hr _ (or_introl eq_refl)); exact I);
        try (simpl in Hs; by destruct (thread_of s c1)).
      destruct (cas_step s c1 s1 _ Hi Hs) as (n & Hn & [(H1 & H2 & H3)|(H1 & H2 & H3)]); [done| |].
      - rewrite H2 in Hy. destruct Hy as [Hy|[]]. injection Hy as <- <- <-. unfold PERIOD in *. lia.
      - exfalso. apply (Hno1 c1 n). rewrite H2. by left. }
    apply in_app_iff in Hin. destruct Hin as [Hin|Hin]; [by eapply H1|].
    destruct (tat_kept [x] s s1 o1 Hi) with (due := due) as [Hi1 Heq]; try done.
    { intros y [<-|[]]. apply Hr. by left. }
    { intros c' n' [->|[]]. apply (Hc c'). by left. }
    rewrite <- Heq in Hdue. eapply (IH s1 s2 o2 due Hi1); try done.
    - intros y Hy. apply Hr. by right.
    - intros c' n' Hy. apply (Hc c'). by right.
    - intros c' n' Hy. apply (Hno c' n'). apply in_app_iff. by right.
  Qed.

  Lemma waiting_exact s c s1 now d acts s2 t2 c' s3 o :
    ginv lo hi tau s -> step s (ACas c) = Some (s1, [ORefused c now d]) ->
    (forall a, In a acts -> ~ is_reset a) -> clocks_within lo hi acts -> run s1 acts = Some (s2, t2) -> no_launch t2 ->
    step s2 (ACas c') = Some (s3, [o]) ->
    (exists now', o = OAdmitted c' now' /\ now + d <= now') \/
    (exists now' d', o = ORefused c' now' d' /\ now' < now + d /\ now' + d' = now + d).
  Proof.
    intros Hi Hs Hr Hc Hrun Hno Hs3.
    destruct (cas_step s c s1 _ Hi Hs) as (n & Hn & [(H1 & H2 & H3)|(H1 & H2 & H3)]); [done| |done].
    injection H2 as -> ->.
    destruct (window_step lo hi tau Htau Hlo Hhi s (ACas c) s1 _ Hi (fun f => f) ltac:(discriminate) Hs) as (Hi1 & _ & _).
    set (due := n + (N.max (l_tat (g_lim s)) n + tau - PERIOD - n)) in *.
    assert (l_tat (g_lim s1) + tau = due + PERIOD) as Hdue by (rewrite H3; unfold due, PERIOD in *; lia).
    destruct (tat_kept acts s1 s2 t2 Hi1 Hr Hc Hrun Hno due Hdue) as [Hi2 Heq]; [by apply (refusals acts s1 s2 t2 due)|].
    destruct (cas_step s2 c' s3 _ Hi2 Hs3) as (n' & Hn' & [(H4 & H5 & H6)|(H4 & H5 & H6)]); [done| |].
    - right. injection H5 as ->. exists n', (N.max (l_tat (g_lim s2)) n' + tau - PERIOD - n'). split; [done|].
      rewrite Heq in *. unfold PERIOD in *. lia.
    - left. injection H5 as ->. exists n'. split; [done|]. rewrite Heq in *. unfold PERIOD in *. lia.
  Qed.
End waiting.

Lemma ginv_run lo hi tau acts : 0 < tau <= PERIOD -> PERIOD <= lo -> hi + 3 * PERIOD < U64 ->
  forall s s' t, ginv lo hi tau s -> (forall a, In a acts -> ~ is_reset a) -> clocks_within lo hi acts -> run s acts = Some (s', t) ->
  ginv lo hi tau s'.
Proof.
  intros H1 H2 H3. induction acts as [|x acts IH]; intros s s' t Hi Hr Hc Hrun; simpl in Hrun.
  { by injection Hrun as <- _. }
  destruct (step s x) as [[s1 o1]|] eqn:Hs; [|done]. destruct (run s1 acts) as [[s2 o2]|] eqn:Hrun'; [|done]. injection Hrun as <- <-.
  destruct (window_step lo hi tau H1 H2 H3 s x s1 o1 Hi) as (Hi1 & _); [apply Hr; by left| |done|].
  { intros c now ->. apply (Hc c). by left. }
  apply (IH s1 s2 o2 Hi1); [intros y Hy; apply Hr; by right|intros c now Hy; apply (Hc c); by right|done].
Qed.

Lemma reset_inv lo hi now rate s s' t : PERIOD <= lo -> hi + 3 * PERIOD < U64 -> lo <= now <= hi -> quiet s ->
  run s [AResetTau now rate; AResetTat] = Some (s', t) -> ginv lo hi (tau_of rate) s' /\ l_tat (g_lim s') = now + tau_of rate * rate.
Proof.
  intros H1 H2 H3 [Hr Hq] Hrun. simpl in Hrun. rewrite Hr in Hrun. simpl in Hrun. injection Hrun as <- <-. simpl.
  pose proof (tau_rate rate). split; [|apply tat_of_small; unfold PERIOD in *; lia].
  split; try done; simpl.
  - intros c n x Hx. change (thread_of s c = TTau n x) in Hx. by rewrite Hq in Hx.
  - intros c n x y Hx. change (thread_of s c = TTat n x y) in Hx. by rewrite Hq in Hx.
  - intros c n Hx. change (thread_of s c = TNow n \/ (exists t, thread_of s c = TTau n t) \/ (exists t x, thread_of s c = TTat n t x)) in Hx.
    rewrite Hq in Hx. by destruct Hx as [?|[[? ?]|[? [? ?]]]].
  - rewrite tat_of_small; unfold PERIOD in *; lia.
Qed.

Lemma tau_pos rate : 0 < rate <= PERIOD -> 0 < tau_of rate.
Proof.
  intros H. unfold tau_of. destruct (N.eqb_spec rate 0); [lia|]. apply N.div_str_pos. lia.
Qed.

(** ** No limit *)
Record uinv (tat : N) (s : state) : Prop := UInv {
  ui_lim : g_lim s = Limiter 0 tat;
  ui_reset : g_reset s = None;
  ui_tau : forall c now t, thread_of s c = TTau now t -> t = 0;
  ui_tat : forall c now t x, thread_of s c = TTat now t x -> t = 0 /\ x = tat
}.
Lemma uinv_step tat s a s' os : uinv tat s -> ~ is_reset a -> step s a = Some (s', os) -> uinv tat s'.
Proof.
  intros [H1 H2 H3 H4] Hr Hs.
  assert (forall c t, (forall now x, t = TTau now x -> x = 0) -> (forall now x y, t = TTat now x y -> x = 0 /\ y = tat) -> uinv tat (set_thread s c t)) as Hset.
  { intros c t Ha Hb. split; try done.
    - intros c' now x. rewrite thread_of_set. destruct (decide (c = c')); [apply Ha|apply H3].
    - intros c' now x y. rewrite thread_of_set. destruct (decide (c = c')); [apply Hb|apply H4]. }
  destruct a as [c now|c|c|c|now rate|]; simpl in Hs; try by destruct (Hr I).
  - destruct (thread_of s c); try done. injection Hs as <- <-. by apply Hset.
  - destruct (thread_of s c) as [|now| |] eqn:E; try done. injection Hs as <- <-. rewrite H1. apply Hset; [by intros ?? [= _ <-]|done].
  - destruct (thread_of s c) as [| |now x|] eqn:E; try done. injection Hs as <- <-. rewrite H1. apply Hset; [done|].
    intros ??? [= _ <- <-]. split; [by eapply H3|done].
  - destruct (thread_of s c) as [| | |now x y] eqn:E; try done. destruct (H4 _ _ _ _ E) as [-> ->].
    rewrite H1 in Hs. simpl in Hs. rewrite N.eqb_refl in Hs. injection Hs as <- <-.
    pose proof (Hset c TIdle ltac:(done) ltac:(done)) as [_ A2 A3 A4]. split; try done.
Qed.
Lemma uinv_run tat acts : forall s s' t, uinv tat s -> (forall a, In a acts -> ~ is_reset a) -> run s acts = Some (s', t) -> uinv tat s'.
Proof.
  induction acts as [|x acts IH]; intros s s' t Hi Hr Hrun; simpl in Hrun.
  { by injection Hrun as <- _. }
  destruct (step s x) as [[s1 o1]|] eqn:Hs; [|done]. destruct (run s1 acts) as [[s2 o2]|] eqn:Hrun'; [|done]. injection Hrun as <- <-.
  eapply IH; [|intros y Hy; apply Hr; by right|done]. eapply uinv_step; [done|apply Hr; by left|done].
Qed.
Lemma unlimited_cas tat s c now tau x : uinv tat s -> thread_of s c = TTat now tau x ->
  exists s', step s (ACas c) = Some (s', [OAdmitted c now]).
Proof.
  intros [H1 H2 H3 H4] E. simpl. rewrite E. destruct (H4 _ _ _ _ E) as [-> ->]. rewrite H1. simpl. rewrite N.eqb_refl. eauto.
Qed.
