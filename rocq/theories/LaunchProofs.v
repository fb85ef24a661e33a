(** Proofs about the limiter in front of the queues. *)
From Verif Require Import LaunchSpec JointModel SchedTrace JointProofs.
From Verif Require GcraProofs.
From Coq Require Import Lia.
From stdpp Require Import prelude.
Local Open Scope nat_scope.

Lemma gate_side_app a b : gate_side (a ++ b) = gate_side a ++ gate_side b.
Proof. apply omap_app. Qed.
Lemma task_side_app a b : task_side (a ++ b) = task_side a ++ task_side b.
Proof. apply omap_app. Qed.
Lemma gate_side_l os : gate_side (map inl os) = os.
Proof. induction os; cbn; [done|]. by f_equal. Qed.
Lemma gate_side_r os : gate_side (map inr os) = [].
Proof. by induction os. Qed.
Lemma task_side_l os : task_side (map inl os) = [].
Proof. by induction os. Qed.
Lemma task_side_r os : task_side (map inr os) = os.
Proof. induction os; cbn; [done|]. by f_equal. Qed.
Lemma handed_app2 a b : handed (a ++ b) = handed a ++ handed b.
Proof. apply omap_app. Qed.

Definition inq (l : list cstate) : nat := length (List.filter in_queue l).
Lemma inq_cons x l : inq (x :: l) = b2n (in_queue x) + inq l.
Proof. unfold inq. cbn. by destruct (in_queue x). Qed.
Lemma inq_insert l c x y : l !! c = Some x -> inq (<[c := y]> l) + b2n (in_queue x) = inq l + b2n (in_queue y).
Proof.
  revert c. induction l as [|z l IH]; intros [|c] H; try done.
  - injection H as ->. change (<[0:=y]> (x :: l)) with (y :: l). rewrite !inq_cons. lia.
  - specialize (IH c H). change (<[S c:=y]> (z :: l)) with (z :: <[c:=y]> l). rewrite !inq_cons. lia.
Qed.

Section launch.
Context (cfg : config).
Local Notation lstep := (lstep cfg).
Local Notation lrun := (lrun cfg).

Definition LInv (s : launch) : Prop :=
  forall c, GcraModel.thread_of (la_gate s) c <> GcraModel.TIdle -> c ∉ la_through s /\ st_clients (la_tracker s) !! c = Some CIdle.
Definition pot (s : launch) : nat := size (la_through s) + inq (st_clients (la_tracker s)).

Lemma thread_insert g c t c' : GcraModel.thread_of (GcraModel.set_thread g c t) c' = if decide (c' = c) then t else GcraModel.thread_of g c'.
Proof.
  unfold GcraModel.thread_of, GcraModel.set_thread. cbn. destruct (decide (c' = c)) as [->|]; [by rewrite lookup_insert|by rewrite lookup_insert_ne].
Qed.

(** What a step of the limiter does to its threads. *)
Lemma gate_step g a g' o : GcraModel.step g a = Some (g', o) ->
  (forall c, GcraModel.thread_of g' c <> GcraModel.TIdle -> GcraModel.thread_of g c <> GcraModel.TIdle \/ exists now, a = GcraModel.AClock c now) /\
  (o = [] \/ exists c now, GcraModel.thread_of g c <> GcraModel.TIdle /\ GcraModel.thread_of g' c = GcraModel.TIdle /\
     (o = [GcraModel.OAdmitted c now] \/ exists d, o = [GcraModel.ORefused c now d])).
Proof.
  intros H. destruct a; cbn [GcraModel.step] in H.
  - destruct (GcraModel.thread_of g c) eqn:E; simplify_eq. split; [|by left]. intros c' Hc'. rewrite thread_insert in Hc'. case_decide; [subst; eauto|auto].
  - destruct (GcraModel.thread_of g c) eqn:E; simplify_eq. split; [|by left]. intros c' Hc'. rewrite thread_insert in Hc'. case_decide; [subst; rewrite E; by left|auto].
  - destruct (GcraModel.thread_of g c) eqn:E; simplify_eq. split; [|by left]. intros c' Hc'. rewrite thread_insert in Hc'. case_decide; [subst; rewrite E; by left|auto].
  - destruct (GcraModel.thread_of g c) eqn:E; simplify_eq. destruct (GcraModel.compute_raw now tat tau 1) as [nt r].
    destruct (N.eqb (GcraModel.l_tat (GcraModel.g_lim g)) tat); simplify_eq.
    + assert (forall l gr c', GcraModel.thread_of (GcraModel.State l (<[c:=GcraModel.TIdle]> (GcraModel.g_threads g)) gr) c' = if decide (c' = c) then GcraModel.TIdle else GcraModel.thread_of g c') as Ht.
      { intros l gr c'. unfold GcraModel.thread_of. cbn. destruct (decide (c' = c)) as [->|]; [by rewrite lookup_insert|by rewrite lookup_insert_ne]. }
      split.
      * intros c' Hc'. rewrite Ht in Hc'. case_decide; [done|auto].
      * right. exists c, now. rewrite E, Ht, decide_True by done. split; [done|]. split; [done|]. destruct (N.eqb r 0); eauto.
    + split; [|by left]. intros c' Hc'. rewrite thread_insert in Hc'. case_decide; [subst; rewrite E; by left|auto].
  - repeat case_match; simplify_eq. split; [|by left]. intros c' Hc'. by left.
  - repeat case_match; simplify_eq. split; [|by left]. intros c' Hc'. by left.
Qed.

Lemma handed_none os : (forall c i n, OHandedOut c i n ∉ os) -> handed os = [].
Proof.
  induction os as [|o os IH]; [done|]. intros H. unfold handed in *. cbn. rewrite IH by (intros c i n Hi; eapply H; by right).
  destruct o; try done. exfalso. eapply H. by left.
Qed.

(** What a step of the tracker does to the number of clients in recv. *)
Lemma track_step t a t' os : step cfg t a = Some (t', os) ->
  match a with
  | ARecv c => st_clients t !! c = Some CIdle /\ handed os = [] /\ (exists y, st_clients t' !! c = Some y /\ y <> CIdle) /\ inq (st_clients t') <= S (inq (st_clients t))
  | ADrop c => handed os = [] /\ inq (st_clients t') <= inq (st_clients t)
  | _ => length (handed os) + inq (st_clients t') <= inq (st_clients t)
  end /\
  (forall c, client_of a <> Some c -> st_clients t' !! c = st_clients t !! c) /\
  (forall c, client_of a = Some c -> match a with ARecv _ | ADrop _ => True | _ => st_clients t !! c <> Some CIdle end).
Proof.
  intros H. destruct (client_of a) as [c|] eqn:Hca.
  - split.
    2: { split.
      - intros c' Hc'. destruct (client_step _ _ _ _ _ _ H Hca) as (_ & [[-> _]|(x & ->)]); [done|]. apply list_lookup_insert_ne. congruence.
      - intros c' [= <-]. destruct a; try done; cbn in Hca; injection Hca as ->; cbn [step] in H; repeat case_match; simplify_eq; congruence. }
    destruct a; try done; cbn in Hca; injection Hca as ->; cbn [step] in H; unfold panic in H; repeat case_match; simplify_eq; cbn [set_client set_queues set_taken set_qstate set_events set_phase st_clients handed omap list_omap length].
    all: try match goal with Hx : st_clients ?t !! ?k = Some ?x |- context [<[?k := ?y]> (st_clients ?t)] =>
      pose proof (inq_insert _ _ _ y Hx) as Hq; cbn [in_queue b2n] in Hq end.
    all: try (split; [done|split; [done|split; [eexists; split; [apply list_lookup_insert; by eapply lookup_lt_Some|done]|lia]]]).
    all: try (split; [done|lia]). all: try lia.
  - assert (handed os = []) as Hh.
    { apply handed_none. intros c i n Hi. pose proof (step_origin cfg _ _ _ _ H) as F. rewrite Forall_forall in F. apply F in Hi. cbn [obs_origin] in Hi. naive_solver. }
    pose proof (others_clients _ _ _ _ _ H Hca) as E. split; [destruct a; try done; rewrite Hh, E; cbn; lia|]. split; [by rewrite E|done].
Qed.

Lemma linv_step s a s' t : LInv s -> lstep s a = Some (s', t) ->
  LInv s' /\ length (handed (task_side t)) + pot s' <= pot s + length (List.filter is_admitted (gate_side t)).
Proof.
  intros HI H. destruct a as [a|a]; cbn [LaunchModel.lstep] in H.
  - destruct (may_gate s a) eqn:Hm; [|done]. destruct (GcraModel.step (la_gate s) a) as [[g o]|] eqn:E; [|done]. injection H as <- <-.
    rewrite gate_side_l, task_side_l. destruct (gate_step _ _ _ _ E) as [Hth Ho]. unfold LInv, pot. cbn [la_gate la_tracker la_through].
    assert (forall c, GcraModel.thread_of g c <> GcraModel.TIdle -> c ∉ la_through s /\ st_clients (la_tracker s) !! c = Some CIdle) as HI'.
    { intros c Hc. destruct (Hth c Hc) as [Hc'|(now & ->)]; [by apply HI|]. cbn in Hm. destruct (st_clients (la_tracker s) !! c) as [x|]; [|done]. destruct x; try done.
      apply negb_true_iff in Hm. apply bool_decide_eq_false_1 in Hm. done. }
    destruct Ho as [->|(c & now & Hc & Hc' & [->|(d & ->)])]; cbn [through List.filter is_admitted length handed omap list_omap].
    + split; [done|]. lia.
    + split.
      * intros c' Hd. destruct (HI' c' Hd) as [H1 H2]. split; [|done]. apply not_elem_of_union. split; [|done]. intros ->%elem_of_singleton. done.
      * rewrite size_union, size_singleton; [lia|]. apply disjoint_singleton_l. by apply HI.
    + split; [done|]. lia.
  - destruct (may_track s a) eqn:Hm; [|done]. destruct (step cfg (la_tracker s) a) as [[u os]|] eqn:E; [|done]. injection H as <- <-.
    rewrite gate_side_r, task_side_r. destruct (track_step _ _ _ _ E) as (Hq & Hoth & Hown). unfold LInv, pot. cbn [la_gate la_tracker la_through List.filter length].
    split.
    + intros c Hc. destruct (HI c Hc) as [H1 H2]. destruct (decide (client_of a = Some c)) as [Hca|Hca].
      * exfalso. specialize (Hown c Hca). destruct a; try done; cbn in Hca; injection Hca as ->; cbn in Hm.
        -- apply bool_decide_eq_true_1 in Hm. done.
        -- unfold at_rest in Hm. by destruct (GcraModel.thread_of (la_gate s) c).
      * rewrite Hoth by done. split; [|done]. destruct a; try done; cbn; set_solver.
    + destruct a; cbn [behind]; try lia.
      * destruct Hq as (_ & -> & _ & Hq). cbn in Hm. apply bool_decide_eq_true_1 in Hm. cbn [length].
        rewrite size_difference by set_solver. rewrite size_singleton.
        assert (size (la_through s) <> 0). { intros Hz%size_empty_iff. rewrite Hz in Hm. set_solver. } lia.
      * destruct Hq as (-> & Hq). cbn [length]. assert (size (la_through s ∖ {[c]}) <= size (la_through s)) by (apply subseteq_size; set_solver). lia.
Qed.

Lemma lrun_pot acts : forall s s' t, LInv s -> lrun s acts = Some (s', t) ->
  LInv s' /\ length (handed (task_side t)) + pot s' <= pot s + length (List.filter is_admitted (gate_side t)).
Proof.
  induction acts as [|a acts IH]; intros s s' t HI H; cbn [LaunchModel.lrun] in H.
  { injection H as <- <-. split; [done|]. cbn. lia. }
  destruct (lstep s a) as [[s1 t1]|] eqn:E; [|done]. destruct (lrun s1 acts) as [[s2 t2]|] eqn:E2; [|done]. injection H as <- <-.
  destruct (linv_step _ _ _ _ HI E) as [H1 H1']. destruct (IH _ _ _ H1 E2) as [H2 H2']. split; [done|].
  rewrite task_side_app, gate_side_app, handed_app2, List.filter_app, !app_length. lia.
Qed.
Lemma linv_new now rate : LInv (launch_new cfg now rate).
Proof. intros c Hc. exfalso. apply Hc. unfold GcraModel.thread_of, launch_new, GcraModel.fresh. cbn. by rewrite lookup_empty. Qed.
Lemma pot_new now rate : pot (launch_new cfg now rate) = 0.
Proof.
  unfold pot, launch_new. cbn [la_through la_tracker]. rewrite size_empty. unfold initial. cbn [st_clients]. induction (cf_types cfg); [done|]. unfold inq in *. cbn in *. done.
Qed.

(** The two sides are runs of the limiter and of the tracker. *)
Lemma lrun_gate acts : forall s s' t, lrun s acts = Some (s', t) ->
  GcraModel.run (la_gate s) (gate_actions acts) = Some (la_gate s', gate_side t) /\
  run cfg (la_tracker s) (task_actions acts) = Some (la_tracker s', task_side t).
Proof.
  induction acts as [|a acts IH]; intros s s' t H; cbn [LaunchModel.lrun] in H.
  { injection H as <- <-. done. }
  destruct (lstep s a) as [[s1 t1]|] eqn:E; [|done]. destruct (lrun s1 acts) as [[s2 t2]|] eqn:E2; [|done]. injection H as <- <-.
  destruct (IH _ _ _ E2) as [H1 H2]. rewrite task_side_app, gate_side_app. destruct a as [a|a]; cbn [LaunchModel.lstep] in E.
  - destruct (may_gate s a); [|done]. destruct (GcraModel.step (la_gate s) a) as [[g o]|] eqn:Eg; [|done]. injection E as <- <-.
    rewrite gate_side_l, task_side_l. split; [|done]. change (gate_actions (LGate a :: acts)) with (a :: gate_actions acts). cbn [GcraModel.run]. cbn [la_gate] in H1. by rewrite Eg, H1.
  - destruct (may_track s a); [|done]. destruct (step cfg (la_tracker s) a) as [[u o]|] eqn:Eg; [|done]. injection E as <- <-.
    rewrite gate_side_r, task_side_r. split; [done|]. change (task_actions (LTracker a :: acts)) with (a :: task_actions acts). cbn [run]. cbn [la_tracker] in H2. by rewrite Eg, H2.
Qed.
End launch.

(** ** One client *)
Section one.
Context (cfg : config) (c : nat).
Definition mine (s : launch) : nat :=
  b2n (bool_decide (c ∈ la_through s)) + match st_clients (la_tracker s) !! c with Some x => b2n (in_queue x) | None => 0 end.

Lemma no_handout os : (forall i n, OHandedOut c i n ∉ os) -> List.filter (to_client c) os = [].
Proof.
  induction os as [|o os IH]; [done|]. intros H. cbn. rewrite IH by (intros i n Hi; eapply H; by right).
  destruct o; try done. cbn. destruct (Nat.eqb_spec c0 c) as [->|]; [|done]. exfalso. eapply H. by left.
Qed.
Lemma one_track t a t' os : step cfg t a = Some (t', os) ->
  (client_of a <> Some c -> List.filter (to_client c) os = [] /\ st_clients t' !! c = st_clients t !! c) /\
  (client_of a = Some c -> exists x y, st_clients t !! c = Some x /\ st_clients t' !! c = Some y /\
     match a with
     | ARecv _ => List.filter (to_client c) os = [] /\ x = CIdle
     | ADrop _ => List.filter (to_client c) os = [] /\ b2n (in_queue y) <= b2n (in_queue x)
     | _ => length (List.filter (to_client c) os) + b2n (in_queue y) <= b2n (in_queue x)
     end).
Proof.
  intros H. split.
  - intros Hca. destruct (track_step _ _ _ _ _ H) as (_ & Ho & _). split; [|by apply Ho]. apply no_handout. intros i n Hi.
    pose proof (step_origin cfg _ _ _ _ H) as F. rewrite Forall_forall in F. apply F in Hi. cbn [obs_origin] in Hi. naive_solver.
  - intros Hca. destruct a; try done; cbn in Hca; injection Hca as ->; cbn [step] in H; unfold panic in H; repeat case_match; simplify_eq.
    all: eexists _, _; split; [first [reflexivity|eassumption]|].
    all: cbn [set_client set_queues set_taken set_qstate set_events set_phase st_clients].
    all: (split; [first [eassumption|apply list_lookup_insert; by eapply lookup_lt_Some|reflexivity]|]).
    all: cbn [List.filter to_client length in_queue b2n]; rewrite ?Nat.eqb_refl; cbn [length]; try lia.
    all: split; [done|]; first [done|lia].
Qed.
Lemma one_step s a s' t : LInv s -> lstep cfg s a = Some (s', t) -> handouts_to c t + mine s' <= mine s + admissions_of c t.
Proof.
  intros HI H. destruct a as [a|a]; cbn [LaunchModel.lstep] in H.
  - destruct (may_gate s a) eqn:Hm; [|done]. destruct (GcraModel.step (la_gate s) a) as [[g o]|] eqn:E; [|done]. injection H as <- <-.
    unfold handouts_to, admissions_of. rewrite gate_side_l, task_side_l. destruct (gate_step _ _ _ _ E) as [Hth Ho]. unfold mine. cbn [la_gate la_tracker la_through].
    destruct Ho as [->|(c' & now & Hc & Hc' & [->|(d & ->)])]; cbn [through List.filter of_client length]; try lia.
    destruct (Nat.eqb_spec c' c) as [->|Hne].
    + cbn [length]. destruct (HI c Hc) as [Hn _]. rewrite (bool_decide_eq_false_2 (c ∈ la_through s)) by done. destruct (bool_decide _); cbn [b2n]; lia.
    + rewrite (bool_decide_ext (c ∈ {[c']} ∪ la_through s) (c ∈ la_through s)) by set_solver. cbn [length]. lia.
  - destruct (may_track s a) eqn:Hm; [|done]. destruct (step cfg (la_tracker s) a) as [[u os]|] eqn:E; [|done]. injection H as <- <-.
    unfold handouts_to, admissions_of. rewrite gate_side_r, task_side_r. destruct (one_track _ _ _ _ E) as (Ho & Hc). unfold mine. cbn [la_gate la_tracker la_through List.filter length].
    destruct (decide (client_of a = Some c)) as [Hca|Hca].
    + destruct (Hc Hca) as (x & y & Ex & Ey & Hq). rewrite Ex, Ey. destruct a; try done; cbn in Hca; injection Hca as ->; cbn [behind]; try lia.
      * destruct Hq as [-> ->]. cbn in Hm. rewrite Hm. rewrite (bool_decide_eq_false_2 (c ∈ la_through s ∖ {[c]})) by set_solver. cbn. destruct (in_queue y); cbn; lia.
      * destruct Hq as [-> Hq]. rewrite (bool_decide_eq_false_2 (c ∈ la_through s ∖ {[c]})) by set_solver. cbn [b2n length]. lia.
    + destruct (Ho Hca) as [-> ->]. cbn [length].
      rewrite (bool_decide_ext (c ∈ behind a (la_through s)) (c ∈ la_through s)) by (destruct a; cbn in *; set_solver). lia.
Qed.
Lemma one_run acts : forall s s' t, LInv s -> lrun cfg s acts = Some (s', t) -> handouts_to c t + mine s' <= mine s + admissions_of c t.
Proof.
  induction acts as [|a acts IH]; intros s s' t HI H; cbn [LaunchModel.lrun] in H.
  { injection H as <- <-. unfold handouts_to, admissions_of. cbn. lia. }
  destruct (lstep cfg s a) as [[s1 t1]|] eqn:E; [|done]. destruct (lrun cfg s1 acts) as [[s2 t2]|] eqn:E2; [|done]. injection H as <- <-.
  destruct (linv_step _ _ _ _ _ HI E) as [H1 _]. pose proof (one_step _ _ _ _ HI E) as H1'. pose proof (IH _ _ _ H1 E2) as H2'.
  unfold handouts_to, admissions_of in *. rewrite task_side_app, gate_side_app, !List.filter_app, !app_length. lia.
Qed.
Lemma mine_new now rate : mine (launch_new cfg now rate) = 0.
Proof.
  unfold mine, launch_new. cbn [la_through la_tracker]. rewrite bool_decide_eq_false_2 by set_solver. unfold initial. cbn [st_clients b2n].
  destruct (map _ _ !! c) as [x|] eqn:E; [|done]. apply elem_of_list_lookup_2, elem_of_list_In, in_map_iff in E as (? & <- & _). done.
Qed.
End one.

(** ** The clocks of the attempts *)
Definition clocked (lo hi : N) (th : GcraModel.thread) : Prop :=
  match th with
  | GcraModel.TIdle => True
  | GcraModel.TNow n | GcraModel.TTau n _ | GcraModel.TTat n _ _ => (lo <= n <= hi)%N
  end.
Lemma clocked_run lo hi acts : forall g g' t, (forall c, clocked lo hi (GcraModel.thread_of g c)) ->
  GcraSpec.clocks_within lo hi acts -> GcraModel.run g acts = Some (g', t) ->
  forall c now, In (GcraModel.OAdmitted c now) t -> (lo <= now <= hi)%N.
Proof.
  induction acts as [|a acts IH]; intros g g' t HI Hc H; cbn [GcraModel.run] in H.
  { injection H as <- <-. done. }
  destruct (GcraModel.step g a) as [[g1 t1]|] eqn:E; [|done]. destruct (GcraModel.run g1 acts) as [[g2 t2]|] eqn:E2; [|done]. injection H as <- <-.
  assert ((forall c, clocked lo hi (GcraModel.thread_of g1 c)) /\ forall c now, In (GcraModel.OAdmitted c now) t1 -> (lo <= now <= hi)%N) as [H1 H2].
  { destruct a; cbn [GcraModel.step] in E.
    - destruct (GcraModel.thread_of g c) eqn:Eth; simplify_eq. split; [|done]. intros c'. rewrite thread_insert. case_decide; [|done]. cbn. eapply Hc. by left.
    - pose proof (HI c) as Hx. destruct (GcraModel.thread_of g c) eqn:Eth; simplify_eq. split; [|done]. intros c'. rewrite thread_insert. case_decide; done.
    - pose proof (HI c) as Hx. destruct (GcraModel.thread_of g c) eqn:Eth; simplify_eq. split; [|done]. intros c'. rewrite thread_insert. case_decide; done.
    - pose proof (HI c) as Hx. destruct (GcraModel.thread_of g c) eqn:Eth; simplify_eq. destruct (GcraModel.compute_raw now tat tau 1) as [nt r].
      destruct (N.eqb (GcraModel.l_tat (GcraModel.g_lim g)) tat); simplify_eq.
      + split.
        * intros c'. unfold GcraModel.thread_of. cbn. destruct (decide (c' = c)) as [->|]; [by rewrite lookup_insert|rewrite lookup_insert_ne by done; apply HI].
        * intros c' now' Hi. destruct (N.eqb r 0); destruct Hi as [Hi|[]]; simplify_eq. done.
      + split; [|done]. intros c'. rewrite thread_insert. case_decide; done.
    - repeat case_match; simplify_eq. split; done.
    - repeat case_match; simplify_eq. split; done. }
  intros c now [Hi|Hi]%in_app_or; [by eapply H2|]. eapply IH; [exact H1| |exact E2|exact Hi]. intros c' n' Hi'. eapply Hc. by right.
Qed.
Lemma grun_app s1 s2 acts1 acts2 t1 t2 : forall s, GcraModel.run s acts1 = Some (s1, t1) -> GcraModel.run s1 acts2 = Some (s2, t2) ->
  GcraModel.run s (acts1 ++ acts2) = Some (s2, t1 ++ t2).
Proof.
  revert t1. induction acts1 as [|a acts1 IH]; intros t1 s H1 H2; cbn [GcraModel.run app] in *.
  { by injection H1 as -> <-. }
  destruct (GcraModel.step s a) as [[x y]|]; [|done]. destruct (GcraModel.run x acts1) as [[u v]|] eqn:E; [|done]. injection H1 as -> <-.
  erewrite IH; [|done|done]. by rewrite List.app_assoc.
Qed.
