(** C36: when an attempt to launch has to be repeated. Vocabulary: GcraSpec.v. *)
From Verif Require Import GcraProofs BusyProps.
From Coq Require Import Lia.

(** All clock values of the run, those of changes of the limit too, lie in [lo, hi]. *)
Definition all_clocks_within (lo hi : N) (acts : list action) : Prop :=
  clocks_within lo hi acts /\ forall now rate, In (AResetTau now rate) acts -> lo <= now <= hi.

Record all_inv (lo hi : N) (s : state) : Prop := {
  al_any : any_inv lo hi s;
  al_tat : l_tat (g_lim s) <= hi + PERIOD;
  al_pending : forall x, g_reset s = Some x -> x <= hi + PERIOD
}.
Section again.
  Context (lo hi : N).
  Hypothesis Hlo : PERIOD <= lo.
  Hypothesis Hhi : hi + 3 * PERIOD < U64.

  Lemma tat_bound now rate : lo <= now <= hi -> tat_of now rate <= hi + PERIOD.
  Proof. intros H. pose proof (tau_rate rate). unfold PERIOD in *. rewrite tat_of_small by (unfold PERIOD; lia). lia. Qed.
  Lemma raw_bound n tat x u v : lo <= n <= hi -> x <= PERIOD -> tat <= hi + PERIOD -> compute_raw n tat x 1 = (u, v) -> u <= hi + PERIOD /\ (v <> 0 -> u = tat).
  Proof.
    intros Hn Hx Ht H. destruct (N.eq_dec x 0) as [->|Hx0]; [unfold compute_raw in H; simpl in H; injection H as <- <-; done|].
    rewrite compute_spec in H by (unfold PERIOD in *; lia). cbv zeta in H.
    destruct (N.ltb_spec (n + PERIOD) (N.max tat n + x)); injection H as <- <-; unfold PERIOD in *; lia.
  Qed.
  Lemma all_step s a s' os : all_inv lo hi s -> all_clocks_within lo hi [a] -> step s a = Some (s', os) -> all_inv lo hi s'.
  Proof.
    intros [H1 H2 H3] [Hc Hr] Hs. assert (any_inv lo hi s') as Ha by (eapply any_step; [exact H1| |exact Hs]; intros c now ->; apply (Hc c); by left).
    destruct H1 as [_ Hrd]. split; [exact Ha| |]; clear Ha; destruct a as [c now|c|c|c|now rate|]; simpl in Hs.
    1-3, 7-9: destruct (thread_of s c); try done; by injection Hs as <- _.
    - specialize (Hrd c). destruct (thread_of s c) as [| | |n x tat]; try done. destruct (compute_raw n tat x 1) as [u v] eqn:E. destruct (N.eqb_spec (l_tat (g_lim s)) tat) as [<-|]; injection Hs as <- _; [|done].
      simpl. apply (raw_bound _ _ _ _ _ (proj1 Hrd) (proj2 Hrd) H2 E).
    - destruct (g_reset s); [done|]. by injection Hs as <- _.
    - destruct (g_reset s) as [x|]; [|done]. injection Hs as <- _. by apply H3.
    - destruct (thread_of s c) as [| | |n x tat]; try done. destruct (compute_raw n tat x 1). destruct (N.eqb (l_tat (g_lim s)) tat); by injection Hs as <- _.
    - destruct (g_reset s); [done|]. injection Hs as <- _. intros x [= <-]. apply tat_bound, (Hr now rate). by left.
    - destruct (g_reset s) as [x|]; [|done]. by injection Hs as <- _.
  Qed.
  Lemma all_run acts : forall s s' t, all_inv lo hi s -> all_clocks_within lo hi acts -> run s acts = Some (s', t) -> all_inv lo hi s'.
  Proof.
    induction acts as [|x acts IH]; intros s s' t Hi [Hc Hr] Hrun; simpl in Hrun; [by injection Hrun as <- _|].
    destruct (step s x) as [[s1 o1]|] eqn:Hs; [|done]. destruct (run s1 acts) as [[s2 o2]|] eqn:E; [|done]. injection Hrun as <- _.
    eapply IH; [eapply all_step; [exact Hi| |exact Hs]| |exact E].
    - split; [intros c now [->|[]]; apply (Hc c); by left|intros now rate [->|[]]; apply (Hr now rate); by left].
    - split; [intros c now H; apply (Hc c); by right|intros now rate H; apply (Hr now rate); by right].
  Qed.

  (** One step changes the time only by an admission or the end of a change of the limit. *)
  Lemma tat_kept s a s' os : all_inv lo hi s -> a <> AResetTat -> step s a = Some (s', os) -> (forall c now, os <> [OAdmitted c now]) -> l_tat (g_lim s') = l_tat (g_lim s).
  Proof.
    intros [[_ Hrd] H2 _] Ha Hs Hos. destruct a as [c now|c|c|c|now rate|]; simpl in Hs; [| | | | |done].
    1-3: destruct (thread_of s c); try done; by injection Hs as <- _.
    - specialize (Hrd c). destruct (thread_of s c) as [| | |n x tat]; try done. destruct (compute_raw n tat x 1) as [u v] eqn:E. destruct (N.eqb_spec (l_tat (g_lim s)) tat) as [<-|]; [|by injection Hs as <- _].
      injection Hs as <- <-. simpl. apply (raw_bound _ _ _ _ _ (proj1 Hrd) (proj2 Hrd) H2 E). intros ->. by apply (Hos c n).
    - destruct (g_reset s); [done|]. by injection Hs as <- _.
  Qed.
  Lemma tat_kept_run acts : forall s s' t, all_inv lo hi s -> all_clocks_within lo hi acts -> ~ In AResetTat acts -> run s acts = Some (s', t) -> no_launch t -> l_tat (g_lim s') = l_tat (g_lim s).
  Proof.
    induction acts as [|x acts IH]; intros s s' t Hi [Hc Hr] Hn Hrun Ht; simpl in Hrun; [by injection Hrun as <- _|].
    destruct (step s x) as [[s1 o1]|] eqn:Hs; [|done]. destruct (run s1 acts) as [[s2 o2]|] eqn:E; [|done]. injection Hrun as <- <-.
    assert (all_inv lo hi s1) as Hi1.
    { eapply all_step; [exact Hi| |exact Hs]. split; [intros c now [->|[]]; apply (Hc c); by left|intros now rate [->|[]]; apply (Hr now rate); by left]. }
    transitivity (l_tat (g_lim s1)).
    - eapply IH; [exact Hi1| | |exact E|].
      + split; [intros c now H; apply (Hc c); by right|intros now rate H; apply (Hr now rate); by right].
      + intros H. apply Hn. by right.
      + intros c now H. apply (Ht c now). apply in_app_iff. by right.
    - eapply tat_kept; [exact Hi| |exact Hs|].
      + intros ->. apply Hn. by left.
      + intros c now ->. apply (Ht c now). by left.
  Qed.
  Lemma other_run c acts : forall s s' t, (forall now, ~ In (AClock c now) acts) -> ~ In (ALoadTau c) acts -> ~ In (ALoadTat c) acts -> ~ In (ACas c) acts -> run s acts = Some (s', t) -> thread_of s' c = thread_of s c.
  Proof.
    induction acts as [|x acts IH]; intros s s' t N1 N2 N3 N4 Hrun; simpl in Hrun; [by injection Hrun as <- _|].
    destruct (step s x) as [[s1 o1]|] eqn:Hs; [|done]. destruct (run s1 acts) as [[s2 o2]|] eqn:E; [|done]. injection Hrun as <- _.
    assert (thread_of s2 c = thread_of s1 c) as ->.
    { eapply IH; [| | | |exact E]; [intros now H; apply (N1 now); by right|intros H; apply N2; by right|intros H; apply N3; by right|intros H; apply N4; by right]. }
    destruct x as [d now|d|d|d|now rate|]; simpl in Hs.
    - assert (d <> c) by (intros ->; apply (N1 now); by left). destruct (thread_of s d); try done. injection Hs as <- _. rewrite thread_of_set. by rewrite decide_False.
    - assert (d <> c) by (intros ->; apply N2; by left). destruct (thread_of s d); try done. injection Hs as <- _. rewrite thread_of_set. by rewrite decide_False.
    - assert (d <> c) by (intros ->; apply N3; by left). destruct (thread_of s d); try done. injection Hs as <- _. rewrite thread_of_set. by rewrite decide_False.
    - assert (d <> c) by (intros ->; apply N4; by left). destruct (thread_of s d) as [| | |n x tat]; try done. destruct (compute_raw n tat x 1). destruct (N.eqb (l_tat (g_lim s)) tat); injection Hs as <- _.
      + rewrite thread_state. by rewrite decide_False.
      + rewrite thread_of_set. by rewrite decide_False.
    - destruct (g_reset s); [done|]. by injection Hs as <- _.
    - destruct (g_reset s); [|done]. by injection Hs as <- _.
  Qed.
End again.
Lemma launch_or_not t : (exists c now, In (OAdmitted c now) t) \/ no_launch t.
Proof.
  induction t as [|o t IH]; [right; intros c now []|]. destruct o as [c now|c now d]; [left; exists c, now; by left|].
  destruct IH as [(c' & now' & H)|H]; [left; exists c', now'; by right|]. right. intros c' now' [X|X]; [discriminate X|by apply (H c' now')].
Qed.

(** C36: an attempt has an answer at once, unless between its reading of the state and its writing another attempt was admitted or the limit was
    changed. So among any number of runners someone gets on: nobody is kept from an answer by others that are refused. *)
Theorem attempt_repeated_only_after_launch : forall rate0 t0 lo hi acts0 s0 o0 c s1 acts s t s',
  PERIOD <= lo -> hi + 3 * PERIOD < U64 -> lo <= t0 <= hi -> all_clocks_within lo hi (acts0 ++ acts) ->
  run (fresh (new_limiter t0 rate0)) acts0 = Some (s0, o0) -> step s0 (ALoadTat c) = Some (s1, []) ->
  run s1 acts = Some (s, t) -> (forall now, ~ In (AClock c now) acts) -> ~ In (ALoadTau c) acts -> ~ In (ALoadTat c) acts -> ~ In (ACas c) acts ->
  step s (ACas c) = Some (s', []) -> (exists c' now, In (OAdmitted c' now) t) \/ In AResetTat acts.
Proof.
  intros rate0 t0 lo hi acts0 s0 o0 c s1 acts s t s' H1 H2 H3 [Hc Hr] Hrun0 Hload Hrun N1 N2 N3 N4 Hcas.
  assert ({In AResetTat acts} + {~ In AResetTat acts}) as [Hin|Hnin] by (apply in_dec; repeat decide equality); [by right|left]. destruct (launch_or_not t) as [Hl|Ht]; [exact Hl|exfalso].
  assert (all_inv lo hi (fresh (new_limiter t0 rate0))) as Hi0.
  { split; [|by apply (tat_bound lo)|done]. split; [apply tau_le|]. intros d. unfold thread_of. simpl. by rewrite lookup_empty. }
  assert (all_inv lo hi s0) as Hi by (eapply all_run; [done|done|exact Hi0| |exact Hrun0]; split; [intros d n X; apply (Hc d)|intros n r X; apply (Hr n r)]; apply in_app_iff; by left).
  assert (all_inv lo hi s1) as Hi1 by (eapply all_step; [done|done|exact Hi| |exact Hload]; split; [intros d n [X|[]]; discriminate X|intros n r [X|[]]; discriminate X]).
  assert (l_tat (g_lim s) = l_tat (g_lim s1)) as Htat.
  { eapply (tat_kept_run lo hi); [done|done|exact Hi1| |exact Hnin|exact Hrun|exact Ht]. split; [intros d n X; apply (Hc d)|intros n r X; apply (Hr n r)]; apply in_app_iff; by right. }
  pose proof (other_run c acts s1 s t N1 N2 N3 N4 Hrun) as Hth. simpl in Hload. destruct (thread_of s0 c) as [| |n x|] eqn:E0; try done. injection Hload as <-.
  rewrite thread_of_set, decide_True in Hth by done. simpl in Hcas. rewrite Hth in Hcas. destruct (compute_raw n (l_tat (g_lim s0)) x 1) as [u v].
  rewrite Htat in Hcas. simpl in Hcas. rewrite N.eqb_refl in Hcas. discriminate Hcas.
Qed.
Print Assumptions attempt_repeated_only_after_launch.

(** Caller 1 is admitted between the reading and the writing of caller 0, which has to try again. *)
Definition again_before : list action := [AClock 0 6000000000; ALoadTau 0].
Definition again_between : list action := [AClock 1 6000000000; ALoadTau 1; ALoadTat 1; ACas 1].
Example again_demo : exists s0 s1 s s' t, run (fresh (new_limiter 5000000000 2)) again_before = Some (s0, []) /\ step s0 (ALoadTat 0) = Some (s1, []) /\
  run s1 again_between = Some (s, t) /\ t = [OAdmitted 1 6000000000] /\ step s (ACas 0) = Some (s', []).
Proof. do 5 eexists. repeat split; vm_compute; reflexivity. Qed.
