(** Trace invariants of the clients and of the ready queues. *)
From Verif Require Export SchedServerTrace.

Section ctrace.
Variable cfg : config.
Notation g := (cf_g cfg).

Definition receiving (x : cstate) : Prop :=
  match x with CWait | CPopped _ | CClaimed _ => True | _ => False end.
Definition has_task (x : cstate) : option nat :=
  match x with CHolding n | CRunning n | CDropped n _ => Some n | _ => None end.

Record TC (s : st) (t : list obs) : Prop := {
  k_type : forall c x, st_clients s !! c = Some x -> receiving x ->
    exists i, cf_types cfg !! c = Some i /\ i < NUM_RUNNER_TYPES;
  k_fin : forall n x v f, EvFinished n x v f ∈ st_events s -> exists c, OSentFinished c n x f ∈ t;
  k_start : forall n h p j, EvStarted n h p j ∈ st_events s -> exists c, OSentStarted c n ∈ t;
  k_own : forall c x n, st_clients s !! c = Some x -> has_task x = Some n -> exists i, OHandedOut c i n ∈ t;
  k_running : forall c n, st_clients s !! c = Some (CRunning n) \/ st_clients s !! c = Some (CDropped n true) ->
    OSentStarted c n ∈ t
}.

Lemma tc_frame s s' t os :
  TC s t -> st_clients s' = st_clients s -> (forall e, e ∈ st_events s' -> e ∈ st_events s) ->
  TC s' (t ++ os).
Proof.
  intros [] E1 E2. split; rewrite ?E1; try done.
  - intros n x v f H. destruct (k_fin0 n x v f (E2 _ H)) as [c ?]. exists c. apply elem_of_app. by left.
  - intros n h p j H. destruct (k_start0 n h p j (E2 _ H)) as [c ?]. exists c. apply elem_of_app. by left.
  - intros c x n Hc Hx. destruct (k_own0 c x n Hc Hx) as [i ?]. exists i. apply elem_of_app. by left.
  - intros c n H. apply elem_of_app. left. auto.
Qed.

Lemma tc_client s s' t c y x os :
  TC s t -> st_clients s' = <[c := x]> (st_clients s) -> st_clients s !! c = Some y ->
  (receiving x -> exists i, cf_types cfg !! c = Some i /\ i < NUM_RUNNER_TYPES) ->
  (forall n, has_task x = Some n -> exists i, OHandedOut c i n ∈ t ++ os) ->
  (forall n, x = CRunning n \/ x = CDropped n true -> OSentStarted c n ∈ t ++ os) ->
  (forall n z v f, EvFinished n z v f ∈ st_events s' -> EvFinished n z v f ∈ st_events s \/ OSentFinished c n z f ∈ os) ->
  (forall n h p j, EvStarted n h p j ∈ st_events s' -> EvStarted n h p j ∈ st_events s \/ OSentStarted c n ∈ os) ->
  TC s' (t ++ os).
Proof.
  intros [] E Hc H1 H2 H3 H4 H5. split; rewrite ?E.
  - intros c' z Hz Hr. apply insert_lookup_cases in Hz as [[-> ->]|[_ Hz]]; [auto|eauto].
  - intros n z v f Hin. apply H4 in Hin as [Hin|Hin].
    + destruct (k_fin0 _ _ _ _ Hin) as [c' ?]. exists c'. apply elem_of_app. by left.
    + exists c. apply elem_of_app. by right.
  - intros n h p j Hin. apply H5 in Hin as [Hin|Hin].
    + destruct (k_start0 _ _ _ _ Hin) as [c' ?]. exists c'. apply elem_of_app. by left.
    + exists c. apply elem_of_app. by right.
  - intros c' z n Hz Hr. apply insert_lookup_cases in Hz as [[-> ->]|[_ Hz]]; [auto|].
    destruct (k_own0 _ _ _ Hz Hr) as [i ?]. exists i. apply elem_of_app. by left.
  - intros c' n [Hz|Hz]; (apply insert_lookup_cases in Hz as [[-> <-]|[_ Hz]]; [auto|]);
      apply elem_of_app; left; auto.
Qed.

Lemma tc_initial : TC (initial cfg) [].
Proof.
  assert (forall c x, st_clients (initial cfg) !! c = Some x -> x = CIdle) as H.
  { intros c x Hc. unfold initial in Hc. cbn [st_clients] in Hc.
    rewrite list_lookup_fmap in Hc. destruct (cf_types cfg !! c); by simplify_eq/=. }
  split.
  - intros c x Hc. by apply H in Hc as ->.
  - intros n x v f Hx. by apply elem_of_nil in Hx.
  - intros n h p j Hx. by apply elem_of_nil in Hx.
  - intros c x n Hc. by apply H in Hc as ->.
  - intros c n [Hc|Hc]; by apply H in Hc.
Qed.

Lemma tc_step s t a s' os :
  InvA cfg s t -> TC s t -> step cfg s a = Some (s', os) -> st_phase s' <> PPanicked -> TC s' (t ++ os).
Proof.
  intros HA HT H Hnp.
  assert (Hl : forall o, o ∈ t -> o ∈ t ++ os) by (intros o Ho; apply elem_of_app; by left).
  destruct a; cbn [step] in H.
  - repeat case_match; try done; injection H as <- <-; eapply tc_frame; try done.
  - destruct (st_phase s) eqn:Hph; try done; (destruct (st_todo s) as [|i rest] eqn:Et; [done|]); injection H as H.
    all: destruct i; cbn [exec_instr] in H; repeat case_match; try unfold panic in H;
      injection H as <- <-; try done; eapply tc_frame; try done.
  - destruct (server_idle s) eqn:Hi; [|done]. apply server_idle_true in Hi as [Hph Et].
    destruct (st_events s) as [|[id h p j|id x v f] rest] eqn:Ev; [done| |];
    injection H as H; unfold server_result in H; repeat case_match; injection H as <- <-;
      (eapply tc_frame; [done|done|]); intros e He; rewrite Ev; by right.
  - repeat case_match; try done; injection H as <- <-; eapply tc_frame; try done.
  - repeat case_match; try done; injection H as <- <-; eapply tc_frame; try done.
  - repeat case_match; try done; injection H as <- <-; eapply tc_frame; try done.
  - repeat case_match; try done; injection H as <- <-; eapply tc_frame; try done; cbn; by intros e ?%elem_of_nil.
  - destruct (st_clients s !! c) as [[]|] eqn:Hc; try done. destruct (cf_types cfg !! c) as [i|] eqn:Ht; [|done].
    destruct (st_closed s !! i) as [[]|] eqn:Hcl; injection H as <- <-;
      eapply tc_client; try done; auto; try naive_solver.
    intros _. exists i. split; [done|]. apply lookup_lt_Some in Hcl. by rewrite (a_nc _ _ _ HA) in Hcl.
  - destruct (st_clients s !! c) as [[]|] eqn:Hc; try done. destruct (cf_types cfg !! c) as [i|] eqn:Ht; [|done].
    repeat case_match; try done. injection H as <- <-.
    eapply tc_client; try done; auto; try naive_solver.
    intros _. by eapply (k_type _ _ HT).
  - destruct (st_clients s !! c) as [[]|] eqn:Hc; try done. destruct (cf_types cfg !! c) as [i|] eqn:Ht; [|done].
    repeat case_match; try done. injection H as <- <-.
    eapply tc_client; try done; auto; try naive_solver.
  - destruct (st_clients s !! c) as [[]|] eqn:Hc; try done.
    case_match; injection H as <- <-;
    eapply tc_client; try done; auto; try naive_solver.
    all: intros _; by eapply (k_type _ _ HT).
  - destruct (st_clients s !! c) as [[]|] eqn:Hc; try done. destruct (cf_types cfg !! c) as [i|] eqn:Ht; [|done].
    case_match; injection H as <- <-; [|done].
    eapply tc_client; try done; auto; try naive_solver.
    intros n [= <-]. exists i. apply elem_of_app. right. by left.
  - destruct (st_clients s !! c) as [[]|] eqn:Hc; try done. injection H as <- <-.
    eapply tc_client; try done; auto; try naive_solver.
    + intros n' [= <-]. destruct (k_own _ _ HT _ _ n Hc eq_refl) as [i Hi]. eauto.
    + intros n' [[= <-]|?]; [|done]. apply elem_of_app. right. by left.
    + intros n' z v f. cbn [st_events set_events set_client]; rewrite elem_of_app, elem_of_list_singleton. intros [?|?]; [by left|done].
    + intros n' h p j. cbn [st_events set_events set_client]; rewrite elem_of_app, elem_of_list_singleton. intros [?|[= -> -> -> ->]]; [by left|right; by left].
  - assert (exists n y, st_clients s !! c = Some y /\ s' = set_client (set_events s (st_events s ++ [EvFinished n s0 values flag])) c CIdle
       /\ os = [OSentFinished c n s0 flag]) as (n & y & Hc & -> & ->).
    { destruct (st_clients s !! c) as [[]|] eqn:Hc; try done; injection H as <- <-; eauto 10. }
    eapply tc_client; try done; auto; try naive_solver.
    + intros n' z v f. cbn [st_events set_events set_client]; rewrite elem_of_app, elem_of_list_singleton. intros [?|[= -> -> -> ->]]; [by left|right; by left].
    + intros n' h p j. cbn [st_events set_events set_client]; rewrite elem_of_app, elem_of_list_singleton. intros [?|?]; [by left|done].
  - destruct (st_clients s !! c) as [[]|] eqn:Hc; try done; injection H as <- <-;
      eapply tc_client; try done; auto; try naive_solver.
    + intros n' [= <-]. destruct (k_own _ _ HT _ _ n Hc eq_refl) as [i Hi]. eauto.
    + intros n' [= <-]. destruct (k_own _ _ HT _ _ n Hc eq_refl) as [i Hi]. eauto.
    + intros n' [?|[= <-]]; [done|]. apply Hl. apply (k_running _ _ HT). by left.
  - injection H as <- <-. by eapply tc_frame.
  - injection H as <- <-. by eapply tc_frame.
Qed.
End ctrace.
