(** The rate limiter: C35, C36. *)
From Verif Require Import GcraProofs.
From Coq Require Import Lia.

(** A runner that makes one attempt at clock [now], undisturbed. *)
Definition attempt (c : nat) (now : N) : list action := [AClock c now; ALoadTau c; ALoadTat c; ACas c].

(** C35: in every window of clock values [a, b], at most (b - a + 10^9) / floor(10^9 / rate) launches, for every
    interleaving of any number of runners. *)
Theorem launch_rate_window : forall rate t0 hi acts s t a b,
  0 < rate <= PERIOD -> PERIOD <= t0 -> hi + 3 * PERIOD < U64 -> t0 <= hi ->
  (forall x, In x acts -> ~ is_reset x) -> clocks_within t0 hi acts ->
  run (fresh (new_limiter t0 rate)) acts = Some (s, t) -> a <= b ->
  launches a b t * (PERIOD / rate) <= (b - a) + PERIOD.
Proof.
  intros rate t0 hi acts s t a b Hr H1 H2 H3 Hres Hc Hrun Hab.
  assert (tau_of rate = PERIOD / rate) as <- by (unfold tau_of; destruct (N.eqb_spec rate 0); [lia|done]).
  destruct (window_run t0 hi (tau_of rate) (conj (tau_pos _ Hr) (tau_le rate)) H1 H2 acts _ _ _
    (fresh_inv t0 hi t0 rate H1 H2 ltac:(lia)) Hres Hc Hrun a b) as [->|[H _]]; lia.
Qed.
Print Assumptions launch_rate_window.

(** C35: there is no burst at the start: the launches admitted until the time b take (b - t0) + (10^9 mod rate)
    nanoseconds at least. *)
Theorem launch_rate_start : forall rate t0 hi acts s t a b,
  0 < rate <= PERIOD -> PERIOD <= t0 -> hi + 3 * PERIOD < U64 -> t0 <= hi ->
  (forall x, In x acts -> ~ is_reset x) -> clocks_within t0 hi acts ->
  run (fresh (new_limiter t0 rate)) acts = Some (s, t) -> t0 <= b ->
  launches a b t * (PERIOD / rate) <= (b - t0) + PERIOD mod rate.
Proof.
  intros rate t0 hi acts s t a b Hr H1 H2 H3 Hres Hc Hrun Hab.
  pose proof (tau_rate_mod rate ltac:(lia)) as Hm.
  assert (tau_of rate = PERIOD / rate) as <- by (unfold tau_of; destruct (N.eqb_spec rate 0); [lia|done]).
  destruct (window_run t0 hi (tau_of rate) (conj (tau_pos _ Hr) (tau_le rate)) H1 H2 acts _ _ _
    (fresh_inv t0 hi t0 rate H1 H2 ltac:(lia)) Hres Hc Hrun a b) as [->|[_ H]]; [apply N.le_0_l|].
  simpl in H. rewrite tat_of_small in H by (clear -H2 H3; lia). lia.
Qed.
Print Assumptions launch_rate_start.

(** C35: nothing at all is admitted at the instant of the start for limits with rate * rate <= 10^9. *)
Theorem no_launch_at_start : forall rate t0 hi acts s t a,
  0 < rate -> rate * rate <= PERIOD -> PERIOD <= t0 -> hi + 3 * PERIOD < U64 -> t0 <= hi ->
  (forall x, In x acts -> ~ is_reset x) -> clocks_within t0 hi acts ->
  run (fresh (new_limiter t0 rate)) acts = Some (s, t) -> launches a t0 t = 0.
Proof.
  intros rate t0 hi acts s t a Hr Hsq H1 H2 H3 Hres Hc Hrun.
  assert (rate <= PERIOD) by nia.
  pose proof (launch_rate_start rate t0 hi acts s t a t0 ltac:(lia) H1 H2 H3 Hres Hc Hrun ltac:(lia)) as H'.
  pose proof (N.mod_lt PERIOD rate ltac:(lia)).
  assert (rate <= PERIOD / rate) by (apply N.div_le_lower_bound; lia). nia.
Qed.
Print Assumptions no_launch_at_start.

(** C35: the same after a change of the limit made while no attempt is under way, whatever happened before. *)
Theorem launch_rate_after_reset : forall rate now hi s0 s1 t1 acts s t a b,
  0 < rate <= PERIOD -> PERIOD <= now -> hi + 3 * PERIOD < U64 -> now <= hi ->
  quiet s0 -> run s0 [AResetTau now rate; AResetTat] = Some (s1, t1) ->
  (forall x, In x acts -> ~ is_reset x) -> clocks_within now hi acts ->
  run s1 acts = Some (s, t) ->
  (a <= b -> launches a b t * (PERIOD / rate) <= (b - a) + PERIOD) /\
  (now <= b -> launches a b t * (PERIOD / rate) <= (b - now) + PERIOD mod rate).
Proof.
  intros rate now hi s0 s1 t1 acts s t a b Hr H1 H2 H3 Hq Hres1 Hres Hc Hrun.
  pose proof (tau_rate_mod rate ltac:(lia)) as Hm.
  assert (tau_of rate = PERIOD / rate) as <- by (unfold tau_of; destruct (N.eqb_spec rate 0); [lia|done]).
  destruct (reset_inv now hi now rate s0 s1 t1 H1 H2 ltac:(lia) Hq Hres1) as [Hi Htat].
  destruct (window_run now hi (tau_of rate) (conj (tau_pos _ Hr) (tau_le rate)) H1 H2 acts _ _ _ Hi Hres Hc Hrun a b) as [->|[? H]]; [split; intros; apply N.le_0_l|].
  rewrite Htat in H. split; lia.
Qed.
Print Assumptions launch_rate_after_reset.

(** C35: without a limit (rate = 0) every attempt is admitted, at its first compare-and-exchange. *)
Theorem no_limit_admits_all : forall t0 acts s t c now tau tat,
  (forall x, In x acts -> ~ is_reset x) -> run (fresh (new_limiter t0 0)) acts = Some (s, t) ->
  thread_of s c = TTat now tau tat -> exists s', step s (ACas c) = Some (s', [OAdmitted c now]).
Proof.
  intros t0 acts s t c now tau tat Hr Hrun Hth. eapply unlimited_cas; [|done].
  eapply (uinv_run (tat_of t0 0) acts); [|done|done].
  split; try done; intros ?????; unfold thread_of in *; simpl in *; by rewrite lookup_empty in *.
Qed.
Print Assumptions no_limit_admits_all.

(** C36: after a refusal with delay d at time [now], and as long as nobody is admitted, any attempt is refused if
    its clock is before [now + d] and is told the rest of that time; it is admitted if its clock is later. *)
Theorem waiting_time_exact : forall rate t0 hi acts0 s0 t0' c s1 now d acts s2 t2 c' s3 o,
  0 < rate <= PERIOD -> PERIOD <= t0 -> hi + 3 * PERIOD < U64 -> t0 <= hi ->
  (forall x, In x (acts0 ++ acts) -> ~ is_reset x) -> clocks_within t0 hi (acts0 ++ acts) ->
  run (fresh (new_limiter t0 rate)) acts0 = Some (s0, t0') ->
  step s0 (ACas c) = Some (s1, [ORefused c now d]) ->
  run s1 acts = Some (s2, t2) -> no_launch t2 ->
  step s2 (ACas c') = Some (s3, [o]) ->
  (exists now', o = OAdmitted c' now' /\ now + d <= now') \/
  (exists now' d', o = ORefused c' now' d' /\ now' < now + d /\ now' + d' = now + d).
Proof.
  intros rate t0 hi acts0 s0 t0' c s1 now d acts s2 t2 c' s3 o Hr H1 H2 H3 Hres Hc Hrun Hs1 Hrun2 Hno Hs3.
  pose proof (conj (tau_pos _ Hr) (tau_le rate)) as Ht.
  eapply (waiting_exact t0 hi (tau_of rate) Ht H1 H2 s0 c s1 now d acts s2 t2 c' s3 o); try done.
  - eapply (ginv_run t0 hi (tau_of rate) acts0 Ht H1 H2); [apply fresh_inv; [done|done|split; [apply N.le_refl|done]]| | |done].
    + intros x Hx. apply Hres. apply in_app_iff. by left.
    + intros x n Hx. apply (Hc x). apply in_app_iff. by left.
  - intros x Hx. apply Hres. apply in_app_iff. by right.
  - intros x n Hx. apply (Hc x). apply in_app_iff. by right.
Qed.
Print Assumptions waiting_time_exact.

(** C36: the reported limit is the configured one. *)
Theorem reported_limit : forall rate now, rate * rate <= PERIOD -> rate_per_second (new_limiter now rate) = rate.
Proof.
  intros rate now H. destruct (N.eq_dec rate 0) as [->|Hr]; [done|by apply reported_rate].
Qed.
Print Assumptions reported_limit.

(** ** A run: limit 2 per second, two runners, one compare-and-exchange fails *)
Definition demo : list action :=
  attempt 0 5000000000 ++ attempt 1 5500000000 ++
  [AClock 0 6000000000; AClock 1 6000000001; ALoadTau 0; ALoadTau 1; ALoadTat 0; ALoadTat 1; ACas 1; ACas 0; ALoadTau 0; ALoadTat 0; ACas 0].
Example demo_run : exists s t, run (fresh (new_limiter 5000000000 2)) demo = Some (s, t) /\
  t = [ORefused 0 5000000000 500000000; OAdmitted 1 5500000000; OAdmitted 1 6000000001; ORefused 0 6000000000 500000000] /\
  launches 5000000000 6000000001 t = 2 /\ clocks_within 5000000000 6000000001 demo /\ (forall x, In x demo -> ~ is_reset x).
Proof.
  eexists _, _. split; [vm_compute; reflexivity|]. split; [reflexivity|]. split; [reflexivity|]. split.
  - intros c now H. unfold demo, attempt in H. simpl in H. repeat (destruct H as [H|H]; [try discriminate H; injection H as _ <-; split; vm_compute; discriminate|]). done.
  - intros x H. unfold demo, attempt in H. simpl in H. repeat (destruct H as [H|H]; [subst x; intros []|]). done.
Qed.
Example waiting_demo : exists s0 s1 s2 s3 t0 t2,
  run (fresh (new_limiter 5000000000 2)) [AClock 0 5000000000; ALoadTau 0; ALoadTat 0] = Some (s0, t0) /\
  step s0 (ACas 0) = Some (s1, [ORefused 0 5000000000 500000000]) /\
  run s1 (attempt 1 5400000000 ++ [AClock 1 5500000000; ALoadTau 1; ALoadTat 1]) = Some (s2, t2) /\
  t2 = [ORefused 1 5400000000 100000000] /\
  step s2 (ACas 1) = Some (s3, [OAdmitted 1 5500000000]).
Proof. do 6 eexists. repeat split; vm_compute; reflexivity. Qed.
Example no_limit_demo : exists s t, run (fresh (new_limiter 5000000000 0)) (attempt 0 5000000000 ++ attempt 1 5000000000) = Some (s, t) /\
  t = [OAdmitted 0 5000000000; OAdmitted 1 5000000000].
Proof. eexists _, _. split; vm_compute; reflexivity. Qed.
Example reset_demo : exists s1 s t, quiet (fresh (new_limiter 5000000000 0)) /\
  run (fresh (new_limiter 5000000000 0)) [AResetTau 6000000000 10; AResetTat] = Some (s1, []) /\
  run s1 (attempt 0 6000000000 ++ attempt 0 6100000000) = Some (s, t) /\
  t = [ORefused 0 6000000000 100000000; OAdmitted 0 6100000000].
Proof. do 3 eexists. split; [split; [done|]; intros c; unfold thread_of; simpl; by rewrite lookup_empty|]. repeat split; vm_compute; reflexivity. Qed.

(** ** Where the words are not true *)
(** The limit of 600 million per second grants a burst at the start: 10^9 mod rate is not small. *)
Theorem no_launch_at_start_refuted : exists rate t0 acts s t,
  0 < rate <= PERIOD /\ PERIOD <= t0 /\ (forall x, In x acts -> ~ is_reset x) /\ clocks_within t0 t0 acts /\
  run (fresh (new_limiter t0 rate)) acts = Some (s, t) /\ launches t0 t0 t = 2.
Proof.
  exists 600000000, 5000000000, (attempt 0 5000000000 ++ attempt 1 5000000000). eexists _, _.
  split; [split; [vm_compute; reflexivity|vm_compute; discriminate]|]. split; [vm_compute; discriminate|].
  split; [intros x H; simpl in H; repeat (destruct H as [H|H]; [subst x; intros []|]); done|].
  split; [intros c now H; simpl in H; repeat (destruct H as [H|H]; [try discriminate H; injection H as _ <-; split; vm_compute; discriminate|]); done|].
  split; [vm_compute; reflexivity|reflexivity].
Qed.
Print Assumptions no_launch_at_start_refuted.

(** A limit above 10^9 per second is no limit, and is reported as 0; one of 600 million is reported as 10^9. *)
Theorem reported_limit_refuted : 
  rate_per_second (new_limiter 5000000000 600000000) = 1000000000 /\ rate_per_second (new_limiter 5000000000 1000000001) = 0.
Proof. by vm_compute. Qed.
Print Assumptions reported_limit_refuted.

(** An attempt made between the two stores of a change of the limit sees the new rate with the old time: changing the
    limit from unlimited to 2 per second grants a burst of 2, at the instant of the change. *)
Theorem no_burst_after_change_refuted : exists s t,
  run (fresh (new_limiter 5000000000 0))
    ([AResetTau 6000000000 2] ++ attempt 0 6000000000 ++ attempt 1 6000000000 ++ [AResetTat]) = Some (s, t) /\
  launches 6000000000 6000000000 t = 2.
Proof. eexists _, _. split; [vm_compute; reflexivity|reflexivity]. Qed.
Print Assumptions no_burst_after_change_refuted.

(** In the first second after boot the subtraction wraps around: at limit 600 million the first runner, 0.1 s after
    boot, is told to wait more than 500 years. *)
Theorem waiting_time_first_second_refuted : exists s c now d,
  run (fresh (new_limiter 100000000 600000000)) (attempt c now) = Some (s, [ORefused c now d]) /\
  now = 100000000 /\ 500 * 365 * 86400 * PERIOD < d.
Proof. eexists _, 0%nat, 100000000, _. split; [vm_compute; reflexivity|]. split; [done|vm_compute; reflexivity]. Qed.
Print Assumptions waiting_time_first_second_refuted.
