(** One execute() call does a bounded amount of work: a potential that each step lowers. *)
From Verif Require Export SchedLive.

Section bound.
Variable cfg : config.
Notation g := (cf_g cfg).
Notation N0 := (node_count g).

Definition wi (i : instr) : nat := match i with IPush _ _ => 3 | _ => 1 end.
Definition we (e : event) : nat := match e with EvStarted _ _ _ _ => 1 | EvFinished _ _ _ _ => 70 end.
Definition wc (x : cstate) : nat :=
  match x with
  | CIdle => 2 | CWait => 1 | CPopped _ => 2 | CClaimed _ => 76 | CHolding _ => 75 | CRunning _ => 73
  | CGone | CDropped _ _ => 0
  end.
Definition sum {A} (f : A -> nat) (l : list A) : nat := list_sum (map f l).

Definition is_break (i : instr) : bool := match i with IBreak => true | _ => false end.
Definition is_unset (i : instr) : bool := match i with IUnsetSoft => true | _ => false end.
Definition wexit (s : st) : nat :=
  match st_phase s with
  | PInit | PLoop => if existsb is_break (st_todo s) then 0 else 66 + N0
  | _ => 0
  end.
Definition wsoft (s : st) : nat :=
  if st_soft_trigger s then (if existsb is_unset (st_todo s) then 0 else 66 + N0) else 0.
Definition wphase (s : st) : nat :=
  match st_phase s with PInit => 5 | PLoop | PExited => 1 | _ => 0 end.
Definition Phi (s : st) : nat :=
  75 * (N0 - size (st_taken s)) + 194 * (N0 - sv_next_flag (st_sv s)) + sum wi (st_todo s) +
  2 * sum length (st_queues s) + sum we (st_events s) + sum wc (st_clients s) + wexit s + wsoft s + wphase s.

Lemma sum_app {A} (f : A -> nat) l1 l2 : sum f (l1 ++ l2) = sum f l1 + sum f l2.
Proof. unfold sum. by rewrite map_app, list_sum_app. Qed.
Lemma sum_cons {A} (f : A -> nat) x l : sum f (x :: l) = f x + sum f l.
Proof. done. Qed.
Lemma sum_insert {A} (f : A -> nat) l i x y : l !! i = Some x -> sum f (<[i := y]> l) + f x = sum f l + f y.
Proof.
  revert i. induction l as [|z l IH]; intros [|i] H; simpl in H; try done.
  - injection H as ->. unfold sum. simpl. lia.
  - specialize (IH i H). change (f z + sum f (<[i:=y]> l) + f x = f z + sum f l + f y). lia.
Qed.
Lemma sum_const {A} (f : A -> nat) k l : (forall x, x ∈ l -> f x = k) -> sum f l = k * length l.
Proof.
  induction l as [|x l IH]; intros H; [simpl; unfold sum; simpl; lia|]. rewrite sum_cons, IH, (H x) by (try (intros; apply H); by constructor).
  simpl. lia.
Qed.

Lemma sum_close : sum wi close_all = 64.
Proof. vm_compute. done. Qed.
Lemma sum_zero : sum wi (zero_all cfg) = N0.
Proof.
  rewrite (sum_const _ 1).
  - unfold zero_all. rewrite map_length. simpl. by rewrite Nat.add_0_r.
  - intros x Hx. by apply elem_of_zero in Hx as [a ->].
Qed.
Lemma filter_len {A} (f : A -> bool) l : length (List.filter f l) <= length l.
Proof. induction l as [|x l IH]; [done|]. simpl. destruct (f x); simpl; lia. Qed.
Lemma len_pushes items l : length (concat (map (fun i =>
    map (IPush i) (List.filter (fun it => N.testbit (i_affinity it) (N.of_nat i)) items)) l)) <= length l * length items.
Proof.
  induction l as [|i l IH]; [simpl; lia|]. cbn [map concat length]. rewrite app_length, map_length.
  pose proof (filter_len (fun it => N.testbit (i_affinity it) (N.of_nat i)) items). lia.
Qed.
Lemma sum_pushes items : sum wi (pushes items) <= 192 * length items.
Proof.
  rewrite (sum_const _ 3).
  - unfold pushes. pose proof (len_pushes items (seq 0 NUM_RUNNER_TYPES)) as H. rewrite seq_length in H.
    unfold NUM_RUNNER_TYPES in *. lia.
  - intros x Hx. by apply elem_of_pushes in Hx as (i & it & -> & _).
Qed.
Lemma sum_rinstrs items : sum wi (rinstrs items) <= 1 + 194 * length items.
Proof.
  destruct items as [|it items]; [unfold sum; simpl; lia|]. unfold rinstrs. rewrite sum_cons, !sum_app.
  rewrite (sum_const wi 1 (map _ _)).
  - rewrite map_length. pose proof (sum_pushes (it :: items)). change (sum wi [IIncrCounter]) with 1. cbn [wi length] in *. lia.
  - intros x Hx. by apply elem_of_list_fmap in Hx as (y & -> & _).
Qed.

Lemma existsb_none {A} (f : A -> bool) l : (forall x, x ∈ l -> f x = false) -> existsb f l = false.
Proof.
  induction l as [|x l IH]; intros H; [done|]. simpl. rewrite (H x), IH; try done; [|by constructor]. intros; apply H. by constructor.
Qed.
Lemma elem_of_rinstrs items x : x ∈ rinstrs items -> is_break x = false /\ is_unset x = false.
Proof.
  intros H. unfold rinstrs in H. destruct items as [|it items]; [by apply elem_of_nil in H|].
  rewrite elem_of_cons, !elem_of_app, elem_of_list_singleton in H. destruct H as [->|[H|[H| ->]]]; try done.
  - apply elem_of_list_fmap in H as (y & -> & _). done.
  - apply elem_of_pushes in H as (i & it' & -> & _). done.
Qed.
Lemma brk_rinstrs items : existsb is_break (rinstrs items) = false.
Proof. apply existsb_none. intros x Hx. apply elem_of_rinstrs in Hx as [? ?]. done. Qed.
Lemma uns_rinstrs items : existsb is_unset (rinstrs items) = false.
Proof. apply existsb_none. intros x Hx. apply elem_of_rinstrs in Hx as [? ?]. done. Qed.
Lemma brk_close : existsb is_break close_all = false.
Proof. done. Qed.
Lemma uns_close : existsb is_unset close_all = false.
Proof. done. Qed.
Lemma brk_zero : existsb is_break (zero_all cfg) = false.
Proof. apply existsb_none. intros x Hx. by apply elem_of_zero in Hx as [? ->]. Qed.
Lemma uns_zero : existsb is_unset (zero_all cfg) = false.
Proof. apply existsb_none. intros x Hx. by apply elem_of_zero in Hx as [? ->]. Qed.

Lemma taken_le s t : Full cfg s t -> size (st_taken s) <= N0.
Proof.
  intros HF. pose proof (inv_a _ _ _ (f_inv _ _ _ HF)) as HA. pose proof (invA_readied_bound _ _ _ HA) as H.
  transitivity (size (list_to_set (seq 0 N0) : gset nat)).
  - apply subseteq_size. intros f Hf. apply elem_of_list_to_set, elem_of_seq. apply (a_taken _ _ _ HA) in Hf. lia.
  - rewrite size_list_to_set by apply NoDup_seq. by rewrite seq_length.
Qed.
Lemma flag_le s t : Full cfg s t -> sv_next_flag (st_sv s) <= N0.
Proof.
  intros HF. pose proof (inv_a _ _ _ (f_inv _ _ _ HF)) as HA. pose proof (invA_readied_bound _ _ _ HA) as H.
  by rewrite (a_flag _ _ _ HA).
Qed.

Lemma drain_events_flag evs : forall sv q inf now sv' q' inf' os,
  drain_events cfg evs sv q inf now = Some (sv', q', inf', os) -> sv_next_flag sv' = sv_next_flag sv.
Proof.
  induction evs as [|[id h p j|id x v f] evs IH]; intros sv q inf now sv' q' inf' os H; cbn [drain_events] in H.
  - by injection H as <- <- <- <-.
  - destruct (nodes g !! id); [|done]. destruct (write_started _ _ _ _ _ _); [|done]. destruct (inf !! id); [done|].
    destruct (drain_events _ _ _ _ _ _) as [[[[sv1 q1] inf1] os1]|] eqn:E; [|done]. injection H as <- <- <- <-. by apply IH in E.
  - destruct (nodes g !! id); [|done]. destruct (dec_inflight _ _); [|done]. destruct (log_finish _ _ _ _ _ _ _); [|done].
    destruct (drain_events _ _ _ _ _ _) as [[[[sv1 q1] inf1] os1]|] eqn:E; [|done]. injection H as <- <- <- <-. by apply IH in E.
Qed.
Lemma drain_inflight_flag order : forall sv q now sv' q' os,
  drain_inflight cfg order sv q now = Some (sv', q', os) -> sv_next_flag sv' = sv_next_flag sv.
Proof.
  induction order as [|id order IH]; intros sv q now sv' q' os H; cbn [drain_inflight] in H.
  - by injection H as <- <- <-.
  - destruct (nodes g !! id); [|done]. destruct (dec_inflight _ _); [|done]. destruct (write_finished _ _ _ _ _); [|done].
    destruct (drain_inflight _ _ _ _ _) as [[[sv1 q1] os1]|] eqn:E; [|done]. injection H as <- <- <-. by apply IH in E.
Qed.
Lemma drain_flag sv q evs order now sv' q' os :
  drain cfg sv q evs order now = Some (sv', q', os) -> sv_next_flag sv' = sv_next_flag sv.
Proof.
  unfold drain. destruct (drain_events _ _ _ _ _ _) as [[[[sv1 q1] inf1] os1]|] eqn:E; [|done]. destruct (is_reordering _ _); [|done].
  destruct (drain_inflight _ _ _ _ _) as [[[sv2 q2] os2]|] eqn:E2; [|done]. intros [= <- <- <-].
  apply drain_inflight_flag in E2. apply drain_events_flag in E. simpl in *. congruence.
Qed.

Ltac flat := cbn [set_todo set_sv set_phase set_events set_closed set_qstate set_queues set_taken set_client set_unready set_counter
  set_flags set_soft_trigger set_hard with_closed with_log_inflight
  st_todo st_phase st_sv st_taken st_queues st_events st_clients st_soft_trigger sv_next_flag
  existsb is_break is_unset orb wi we wc] in *.

Local Opaque close_all zero_all pushes.

Ltac fin := first [lia|by left|by right|match goal with WE : _ -> _ -> _ -> _ <= _ |- _ => by apply WE end].

(** A client changes its state, and nothing else but queues, events and flags changes. *)
Lemma phi_client s s' c x y : st_clients s !! c = Some x -> st_clients s' = <[c := y]> (st_clients s) ->
  st_phase s' = st_phase s -> st_todo s' = st_todo s -> st_soft_trigger s' = st_soft_trigger s ->
  sv_next_flag (st_sv s') = sv_next_flag (st_sv s) ->
  75 * (N0 - size (st_taken s')) + 2 * sum length (st_queues s') + sum we (st_events s') + wc y + 1 <=
  75 * (N0 - size (st_taken s)) + 2 * sum length (st_queues s) + sum we (st_events s) + wc x ->
  1 + Phi s' <= Phi s.
Proof.
  intros Hx E1 E2 E3 E4 E5 H. pose proof (sum_insert wc _ _ _ y Hx) as HS. rewrite <- E1 in HS.
  unfold Phi, wexit, wsoft, wphase. rewrite E2, E3, E4, E5. lia.
Qed.

Lemma phi_step_full s t a s' os : Full cfg s t -> step cfg s a = Some (s', os) ->
  Full cfg s' (t ++ os) \/ st_phase s' = PDrained ->
  (if work a then 1 else 0) + Phi s' <= Phi s + (if soft_request a then N0 + 66 else 0).
Proof.
  intros HF Hs HF'. pose proof (inv_a _ _ _ (f_inv _ _ _ HF)) as HA.
  assert (Hnp : st_phase s' <> PPanicked).
  { destruct HF' as [HF'|HF']; [|congruence]. apply (c_phase _ _ _ (inv_c _ _ _ (f_inv _ _ _ HF'))). }
  assert (Hfl : st_phase s' <> PDrained -> sv_next_flag (st_sv s') = sv_next_flag (st_sv s) + length (readied os) /\ sv_next_flag (st_sv s') <= N0
     /\ size (st_taken s') <= N0).
  { intros Hnd. destruct HF' as [HF'|?]; [|done]. split; [|split; [by eapply flag_le|by eapply taken_le]].
    rewrite (a_flag _ _ _ HA), (a_flag _ _ _ (inv_a _ _ _ (f_inv _ _ _ HF'))), readied_app, app_length. done. }
  destruct a; cbn [step] in Hs; cbn [work soft_request].
  - (* AInit *) destruct (st_phase s) eqn:Hp; try done. destruct (is_reordering _ _); [|done].
    destruct (c_init _ _ _ (inv_c _ _ _ (f_inv _ _ _ HF)) Hp) as (_ & Ht & Hsoft & Hopen).
    destruct (add_to_ready_queue _ _ _) as [[[sv is] os']|] eqn:E; injection Hs as <- <-; [|by destruct Hnp].
    apply atrq_inv in E as (l & items & -> & -> & -> & Hid & Hm). destruct Hfl as (F1 & F2 & _); [done|].
    rewrite readied_map_ready in F1. pose proof (sum_rinstrs items) as Hr.
    assert (length items = length order) as Hl by (by rewrite <- Hid, map_length).
    unfold Phi, wexit, wsoft, wphase. flat.
    rewrite Hp, Ht, sum_cons, brk_rinstrs, uns_rinstrs. flat. change (sum wi []) with 0. destruct (st_soft_trigger s); lia.
  - (* AInstr *)
    assert (exists i rest, st_todo s = i :: rest /\ exec_instr (set_todo s rest) i = (s', os) /\ (st_phase s = PLoop \/ st_phase s = PExited)) as (i & rest & Et & Hx & Hp).
    { destruct (st_phase s); try done; (destruct (st_todo s) as [|i rest]; [done|]); exists i, rest; (split; [done|]); (split; [by injection Hs|]); auto. }
    clear Hs.
    assert (B : st_taken s' = st_taken s -> st_sv s' = st_sv s -> st_todo s' = rest -> st_events s' = st_events s -> st_clients s' = st_clients s ->
      2 * sum length (st_queues s') + 1 <= 2 * sum length (st_queues s) + wi i -> wexit s' <= wexit s -> wsoft s' <= wsoft s -> st_phase s' = st_phase s \/ st_phase s' = PExited -> 1 + Phi s' <= Phi s + 0).
    { intros B1 B2 B3 B4 B5 B6 B7 B8 B9. unfold Phi. rewrite B1, B2, B3, B4, B5, Et, sum_cons.
      assert (wphase s' <= wphase s) by (unfold wphase; destruct B9 as [-> | ->]; destruct Hp as [-> | ->]; lia). lia. }
    assert (WE : st_phase s' = st_phase s -> st_todo s' = rest -> is_break i = false -> wexit s' <= wexit s).
    { intros E1 E2 E3. unfold wexit. rewrite E1, E2, Et. cbn [existsb]. rewrite E3. cbn [orb]. done. }
    assert (WS : st_soft_trigger s' = st_soft_trigger s -> st_todo s' = rest -> is_unset i = false -> wsoft s' <= wsoft s).
    { intros E1 E2 E3. unfold wsoft. rewrite E1, E2, Et. cbn [existsb]. rewrite E3. cbn [orb]. done. }
    destruct i; cbn [exec_instr] in Hx;
      try (injection Hx as <- <-; (apply B; try done; flat; fin)).
    + destruct (N.ltb _ _); injection Hx as <- <-; [by destruct Hnp|]. (apply B; try done; flat; fin).
    + destruct (dec_inflight _ _); injection Hx as <- <-; [|by destruct Hnp]. (apply B; try done; flat; fin).
    + destruct (st_queues _ !! _) as [q|] eqn:Hq; injection Hx as <- <-; [|by destruct Hnp]. apply B; try done; flat; try fin.
      pose proof (sum_insert length _ _ _ (q ++ [it]) Hq) as H. rewrite app_length in H. simpl in H. lia.
    + destruct (st_qstate _ !! _) as [[]|]; injection Hx as <- <-; ((apply B; try done; flat; fin)).
    + injection Hx as <- <-. apply B; try done; flat; try fin. unfold wsoft. flat. lia.
    + injection Hx as <- <-. apply B; try done; flat; try fin. unfold wexit. flat. lia.
  - (* AEvent *) destruct (server_idle s) eqn:Hi; [|done]. apply server_idle_true in Hi as [Hp Ht].
    destruct (st_events s) as [|[id h p j|id x v f] rest] eqn:Ee; [done| |].
    + destruct (handle_started _ _ _ _ _ _ _) as [[[sv is] os']|] eqn:E; injection Hs as <- <-; [|by destruct Hnp].
      unfold handle_started in E. destruct (nodes g !! id); [|done]. destruct (write_started _ _ _ _ _ _); [|done].
      destruct (sv_inflight _ !! id); [done|]. injection E as <- <- <-.
      unfold Phi, wexit, wsoft, wphase. flat. rewrite Hp, Ht, Ee, sum_cons. flat. lia.
    + destruct (handle_finished _ _ _ _ _ _ _) as [[[sv is] os']|] eqn:E; injection Hs as <- <-; [|by destruct Hnp].
      apply handle_finished_inv in E as (c & items & ready & over & stop & Hc & Hover & Hstop & Hid & Hm & Hs0 & Z1 & Z2 & Z3 & Z4 & Z5 & Z6 & Z7 & Z8 & -> & ->).
      destruct Hfl as (F1 & F2 & _); [flat; congruence|].
      assert (length (readied (OFinished id x (elapsed_of (st_sv s) id now) :: map OReady ready ++ (if over then [OSoft SoftFailures] else []) ++
        (if stop then [OExit (if N.eqb (N.pred (sv_n_roi (st_sv s)) + N.of_nat (length ready)) 0 then ExitDone else ExitSoft)] else []))) = length ready) as Hlen.
      { change (length (readied (map OReady ready ++ (if over then [OSoft SoftFailures] else []) ++
        (if stop then [OExit (if N.eqb (N.pred (sv_n_roi (st_sv s)) + N.of_nat (length ready)) 0 then ExitDone else ExitSoft)] else []))) = length ready).
        rewrite !readied_app, readied_map_ready, !app_length. destruct over, stop; simpl; lia. }
      cbn [set_events st_sv] in *. cbn [set_todo set_sv st_sv st_phase] in F1, F2. rewrite Hlen in F1.
      assert (length items = length ready) as Hl by (by rewrite <- Hid, map_length).
      pose proof (sum_rinstrs items) as Hr. 
      assert (Hw : sum wi (match f with Some f => [ISetFlag id f] | None => [] end) <= 1) by (destruct f; unfold sum; simpl; lia).
      assert (Hf1 : existsb is_break (match f with Some f => [ISetFlag id f] | None => [] end) = false) by (by destruct f).
      assert (Hf2 : existsb is_unset (match f with Some f => [ISetFlag id f] | None => [] end) = false) by (by destruct f).
      unfold Phi, wexit, wsoft, wphase. flat. rewrite Hp, Ht, Ee, !sum_cons, !sum_app, !existsb_app, brk_rinstrs, uns_rinstrs, Hf1, Hf2.
      change (sum wi []) with 0. flat.
      assert (Ho : sum wi (if over then ICancelToken now :: close_all else []) <= 65) by (destruct over; [rewrite sum_cons, sum_close; simpl; lia|unfold sum; simpl; lia]).
      assert (Ho1 : existsb is_break (if over then ICancelToken now :: close_all else []) = false) by (destruct over; [|done]; cbn [existsb is_break orb]; apply brk_close).
      assert (Ho2 : existsb is_unset (if over then ICancelToken now :: close_all else []) = false) by (destruct over; [|done]; cbn [existsb is_unset orb]; apply uns_close).
      rewrite Ho1, Ho2. cbn [orb].
      destruct stop.
      * rewrite !existsb_app, brk_close, uns_close, sum_app, sum_close, sum_cons, sum_zero. flat. rewrite uns_zero. destruct (st_soft_trigger s); lia.
      * change (sum wi []) with 0. flat. destruct (st_soft_trigger s); lia.
  - (* ASoft *) destruct (server_idle s && st_soft_trigger s) eqn:Hi; [|done]. apply andb_true_iff in Hi as [Hi Htr]. apply server_idle_true in Hi as [Hp Ht].
    injection Hs as <- <-. unfold Phi, wexit, wsoft, wphase. flat. rewrite Hp, Ht, Htr, !sum_app, !existsb_app, sum_close, sum_zero, brk_close, uns_close, brk_zero, uns_zero.
    flat. change (sum wi []) with 0. change (sum wi [IUnsetSoft]) with 1. lia.
  - (* AHardExit *) destruct (server_idle s && st_hard s) eqn:Hi; [|done]. apply andb_true_iff in Hi as [Hi _]. apply server_idle_true in Hi as [Hp Ht].
    injection Hs as <- <-. unfold Phi, wexit, wsoft, wphase. flat. rewrite Hp, Ht, !sum_app, !existsb_app, sum_cons, sum_close, sum_zero, brk_close, uns_close.
    flat. rewrite uns_zero. change (sum wi []) with 0. destruct (st_soft_trigger s); lia.
  - (* ACtrlC *) destruct (server_idle s) eqn:Hi; [|done]. apply server_idle_true in Hi as [Hp Ht].
    injection Hs as <- <-. unfold Phi, wexit, wsoft, wphase. flat. rewrite Hp, Ht, !sum_app, !existsb_app, sum_cons, sum_close, sum_zero, brk_close, uns_close.
    flat. rewrite uns_zero. change (sum wi []) with 0. destruct (st_soft_trigger s); lia.
  - (* ADrain *) destruct (st_phase s) eqn:Hp; try done. destruct (st_todo s) eqn:Et; [|done]. destruct (forallb _ _); [|done].
    destruct (drain_events _ _ _ _ _ _) as [[[[sv q] inf] os1]|]; [|injection Hs as <- <-; by destruct Hnp].
    destruct (is_reordering _ _); [|done]. destruct (drain _ _ _ _ _ _) as [[[sv2 q2] os2]|] eqn:Ed; injection Hs as <- <-; [|by destruct Hnp].
    apply drain_flag in Ed. unfold Phi, wexit, wsoft, wphase. flat. rewrite Hp, Et, Ed. change (sum we []) with 0. lia.
  - (* ARecv *) destruct (st_clients s !! c) as [[]|] eqn:Hc; try done. destruct (cf_types cfg !! c) as [i|] eqn:Hi; [|done].
    rewrite Nat.add_0_r. destruct (st_closed s !! i) as [[]|] eqn:Hcl; injection Hs as <- <-; eapply phi_client; try done; flat; lia.
  - (* APop *) destruct (st_clients s !! c) as [[]|] eqn:Hc; try done. destruct (cf_types cfg !! c) as [i|] eqn:Hi; [|done].
    destruct (st_queues s !! i) as [q|] eqn:Hq; [|done]. destruct (q !! j) as [it|] eqn:Hj; [|done]. destruct (is_max q it); [|done].
    injection Hs as <- <-. rewrite Nat.add_0_r. eapply phi_client; try done. flat.
    pose proof (sum_insert length _ _ _ (delete j q) Hq) as H. rewrite length_delete in H by (rewrite Hj; eauto).
    apply lookup_lt_Some in Hj. lia.
  - (* ARecvClosed *) destruct (st_clients s !! c) as [[]|] eqn:Hc; try done. destruct (cf_types cfg !! c) as [i|] eqn:Hi; [|done].
    destruct (st_queues s !! i) as [[|]|]; try done. destruct (st_closed s !! i) as [[]|] eqn:Hcl; try done.
    injection Hs as <- <-. rewrite Nat.add_0_r. eapply phi_client; try done. flat. lia.
  - (* AClaim *) destruct (st_clients s !! c) as [[]|] eqn:Hc; try done. rewrite Nat.add_0_r.
    destruct (decide _) as [Hin|Hin]; injection Hs as <- <-; (eapply phi_client; try done); flat; [lia|].
    destruct Hfl as (_ & _ & F3).
    { destruct HF' as [HF'|HF']; [apply (c_phase _ _ _ (inv_c _ _ _ (f_inv _ _ _ HF')))|].
      intros _. destruct (c_phase _ _ _ (inv_c _ _ _ (f_inv _ _ _ HF))) as [_ P]. by apply P. }
    rewrite size_union in F3 |- * by set_solver. rewrite size_singleton in *. lia.
  - (* ACount *) destruct (st_clients s !! c) as [[]|] eqn:Hc; try done. destruct (cf_types cfg !! c) as [i|] eqn:Hi; [|done].
    rewrite Nat.add_0_r. destruct (hand_out _ _); injection Hs as <- <-; [|by destruct Hnp]. eapply phi_client; try done. flat. lia.
  - (* ASendStarted *) destruct (st_clients s !! c) as [[]|] eqn:Hc; try done. injection Hs as <- <-.
    rewrite Nat.add_0_r. eapply phi_client; try done. flat. rewrite sum_app. change (sum we [EvStarted n host pid slurm]) with 1. lia.
  - (* ASendFinished *) rewrite Nat.add_0_r. destruct (st_clients s !! c) as [[]|] eqn:Hc; try done; injection Hs as <- <-;
      (eapply phi_client; try done); flat; rewrite sum_app; change (sum we [EvFinished n s0 values flag]) with 70; lia.
  - (* ADrop *) rewrite Nat.add_0_r. destruct (st_clients s !! c) as [[]|] eqn:Hc; try done; injection Hs as <- <-;
      (eapply phi_client; try done); flat; lia.
  - (* ATriggerSoft *) injection Hs as <- <-. unfold Phi, wexit, wsoft, wphase. flat. destruct (existsb is_unset _), (st_soft_trigger s); lia.
  - (* AHardCancel *) injection Hs as <- <-. unfold Phi, wexit, wsoft, wphase. flat. lia.
Qed.

Hypothesis Hok : config_ok cfg.

Lemma done_step s t a s' os : Done cfg s t -> step cfg s a = Some (s', os) ->
  (a = ATriggerSoft /\ s' = set_soft_trigger s true) \/ (a = AHardCancel /\ s' = set_hard s true).
Proof.
  intros (s0 & t0 & os0 & now0 & order0 & HI & Hp0 & Ht0 & He & -> & Hdr & Hz & Hp & Hc & Hu) Hs.
  assert (Hcl : forall c x, st_clients s !! c = Some x -> ended x = true).
  { intros c x Hx. rewrite Hc in Hx. by eapply ended_no_client. }
  destruct a; cbn [step] in Hs; rewrite ?Hp in Hs; try done;
    try (unfold server_idle in Hs; rewrite Hp in Hs; done);
    try (destruct (st_clients s !! c) as [[]|] eqn:Hx; try done; specialize (Hcl _ _ Hx); done);
    injection Hs as <- <-; auto.
Qed.

Lemma phi_step s t a s' os : reachable cfg s t -> step cfg s a = Some (s', os) ->
  (if work a then 1 else 0) + Phi s' <= Phi s + (if soft_request a then N0 + 66 else 0).
Proof.
  intros Hr Hs. destruct (full_or_done cfg Hok s t Hr) as [HF|HD].
  - eapply phi_step_full; [done..|]. assert (Hr' : reachable cfg s' (t ++ os)) by (by eapply reachable_step).
    destruct (full_or_done cfg Hok s' _ Hr') as [HF'|HD']; [by left|right].
    destruct HD' as (s0 & t0 & os0 & now0 & order0 & HI & Hp0 & Ht0 & He & Hx & Hdr & Hz & Hp & Hc & Hu). done.
  - destruct (done_step _ _ _ _ _ HD Hs) as [[-> ->]|[-> ->]]; unfold Phi, wexit, wsoft, wphase; cbn [work soft_request]; flat;
      destruct (existsb is_unset _), (st_soft_trigger s); lia.
Qed.

Lemma phi_initial : Phi (initial cfg) = 270 * N0 + 2 * length (cf_types cfg) + 71.
Proof.
  unfold Phi, wexit, wsoft, wphase. unfold initial. cbn [st_todo st_phase st_sv st_taken st_queues st_events st_clients st_soft_trigger sv_next_flag existsb].
  rewrite size_empty. change (sum length (repeat [] NUM_RUNNER_TYPES : list (list item))) with 0. change (sum wi []) with 0. change (sum we []) with 0.
  rewrite (sum_const wc 2); [rewrite map_length; lia|]. intros x Hx. by apply elem_of_list_fmap in Hx as (y & -> & _).
Qed.

Lemma number_snoc f acts a : number f (acts ++ [a]) = number f acts + (if f a then 1 else 0).
Proof. unfold number. rewrite List.filter_app, app_length. simpl. by destruct (f a). Qed.

Lemma work_bound acts : forall s t, run cfg (initial cfg) acts = Some (s, t) ->
  number work acts + Phi s <= Phi (initial cfg) + (N0 + 66) * number soft_request acts.
Proof.
  induction acts as [|a acts IH] using rev_ind; intros s t H.
  - injection H as <- <-. unfold number. simpl. lia.
  - apply run_snoc in H as (s1 & t1 & os & H1 & Hs & ->). specialize (IH _ _ H1).
    apply (phi_step s1 t1) in Hs; [|by eexists]. rewrite !number_snoc. destruct (work a), (soft_request a); lia.
Qed.

(** ** Everything ends *)
Lemma routine_work a : routine a -> work a = true /\ soft_request a = false.
Proof. by destruct a. Qed.
Lemma routine_keeps acts : Forall routine acts -> keeps_going acts.
Proof. intros H. eapply Forall_impl; [exact H|]. by intros []. Qed.

Lemma can_end acts s t : 0 < N0 -> all_served cfg -> keeps_going acts -> run cfg (initial cfg) acts = Some (s, t) ->
  exists more s' t', Forall routine more /\ run cfg s more = Some (s', t') /\ st_phase s' = PDrained.
Proof.
  intros Hpos Hsv. remember (Phi s) as k eqn:Ek. revert acts s t Ek. induction (lt_wf k) as [k _ IH]. intros acts s t -> Hk Hr.
  assert (Hnd : nobody_drops acts). { intros c Hc. unfold keeps_going in Hk. rewrite Forall_forall in Hk. by apply Hk in Hc. }
  destruct (live_run cfg Hok acts s t Hnd Hr) as [[HF HL]|HD].
  - destruct (progress cfg Hok s t HF HL Hpos Hsv) as [(a & Ha & Hs)|[Htr _]].
    2: { apply (causes cfg acts s t Hr) in Htr. unfold keeps_going in Hk. rewrite Forall_forall in Hk. by apply Hk in Htr. }
    destruct (step cfg s a) as [[s1 os]|] eqn:E; [|done].
    assert (Hp : Phi s1 < Phi s).
    { apply routine_work in Ha as [H1 H2]. apply (phi_step s t) in E; [|by eexists]. rewrite H1, H2 in E. lia. }
    destruct (IH _ Hp (acts ++ [a]) s1 (t ++ os) eq_refl) as (more & s' & t' & M1 & M2 & M3).
    + apply Forall_app. split; [done|]. constructor; [|constructor]. by destruct a.
    + apply run_app. exists s, t, os. split_and!; try done. cbn [run]. rewrite E. by rewrite app_nil_r.
    + exists (a :: more), s', (os ++ t'). split_and!; try done; [by constructor|]. cbn [run]. by rewrite E, M2.
  - exists [], s, []. split_and!; try done.
    by destruct HD as (s0 & t0 & os0 & now0 & order0 & HI & Hp0 & Ht0 & He & -> & Hdr & Hz & Hp & Hc & Hu).
Qed.

(** Once the hard token is cancelled, execute() can end whatever the runners do. *)
Lemma hard_stays s a s' os : st_hard s = true -> step cfg s a = Some (s', os) -> st_hard s' = true.
Proof.
  intros Hh Hs. destruct a; cbn [step] in Hs; repeat (case_match; try done); simplify_eq; try done;
    unfold server_result, exec_instr, leave, panic in *; repeat case_match; simplify_eq; done.
Qed.

Lemma hard_can_end s t : reachable cfg s t -> st_hard s = true ->
  exists more s' t', Forall (fun a => routine a \/ a = AHardExit) more /\ run cfg s more = Some (s', t') /\ st_phase s' = PDrained.
Proof.
  remember (Phi s) as k eqn:Ek. revert s t Ek. induction (lt_wf k) as [k _ IH]. intros s t -> Hr Hh.
  destruct (full_or_done cfg Hok s t Hr) as [HF|HD].
  - destruct (progress_hard cfg Hok s t HF Hh) as (a & Ha & Hs). destruct (step cfg s a) as [[s1 os]|] eqn:E; [|done].
    assert (Hp : Phi s1 < Phi s).
    { assert (work a = true /\ soft_request a = false) as [H1 H2] by (destruct Ha as [Ha| ->]; [by apply routine_work|done]).
      apply (phi_step s t) in E; [|done]. rewrite H1, H2 in E. lia. }
    destruct (IH _ Hp s1 (t ++ os) eq_refl) as (more & s' & t' & M1 & M2 & M3); [by eapply reachable_step|by eapply hard_stays|].
    exists (a :: more), s', (os ++ t'). split_and!; try done; [by constructor|]. cbn [run]. by rewrite E, M2.
  - exists [], s, []. split_and!; try done.
    by destruct HD as (s0 & t0 & os0 & now0 & order0 & HI & Hp0 & Ht0 & He & -> & Hdr & Hz & Hp & Hc & Hu).
Qed.

(** The same once the loop was left. *)
Lemma exited_stays s t a s' os : Full cfg s t -> exiting s -> step cfg s a = Some (s', os) -> exiting s' \/ st_phase s' = PDrained \/ st_phase s' = PPanicked.
Proof.
  intros HF He Hs. assert (Hni : server_idle s = false).
  { unfold server_idle. destruct He as [->|He]; [done|]. destruct (st_phase s); try done. destruct (st_todo s); [by apply elem_of_nil in He|done]. }
  destruct a; cbn [step] in Hs; rewrite ?Hni in Hs; try done;
    try (repeat (case_match; try done); injection Hs as <- <-; first [by left|by (right; left)|by (right; right)]).
  - destruct (st_phase s) eqn:Hp; try done. destruct (c_init _ _ _ (inv_c _ _ _ (f_inv _ _ _ HF)) Hp) as (_ & Ht & _).
    destruct He as [He|He]; [congruence|]. rewrite Ht in He. by apply elem_of_nil in He.
  - assert (exists i rest, st_todo s = i :: rest /\ exec_instr (set_todo s rest) i = (s', os)) as (i & rest & Et & Hx).
    { destruct (st_phase s); try done; (destruct (st_todo s) as [|i rest]; [done|]); exists i, rest; split; try done; by injection Hs. }
    assert (X1 : forall s1, i <> IBreak -> st_phase s1 = st_phase s -> st_todo s1 = rest -> exiting s1).
    { intros s1 Hi Hp1 Ht1. destruct He as [X|X]; [left; congruence|]. right. rewrite Ht1. rewrite Et in X. apply elem_of_cons in X as [X|X]; [|done]. by destruct Hi. }
    destruct i; cbn [exec_instr] in Hx; repeat (case_match; try done); injection Hx as <- <-;
      first [by (right; right)|by (left; apply X1)|by (left; left)].
Qed.

Lemma exited_can_end s t : reachable cfg s t -> exiting s ->
  exists more s' t', Forall routine more /\ run cfg s more = Some (s', t') /\ st_phase s' = PDrained.
Proof.
  remember (Phi s) as k eqn:Ek. revert s t Ek. induction (lt_wf k) as [k _ IH]. intros s t -> Hr Hh.
  destruct (full_or_done cfg Hok s t Hr) as [HF|HD].
  - assert (can cfg s) as (a & Ha & Hs).
    { destruct (st_phase s) eqn:Hp; try by apply (progress_exited cfg Hok s t HF).
      - destruct (c_init _ _ _ (inv_c _ _ _ (f_inv _ _ _ HF)) Hp) as (_ & Ht & _).
        destruct Hh as [He|He]; [congruence|]. rewrite Ht in He. by apply elem_of_nil in He.
      - destruct Hh as [He|He]; [congruence|]. exists AInstr. split; [done|]. cbn [step]. rewrite Hp.
        destruct (st_todo s); [by apply elem_of_nil in He|done].
      - by destruct (c_phase _ _ _ (inv_c _ _ _ (f_inv _ _ _ HF))) as [_ P].
      - by destruct (c_phase _ _ _ (inv_c _ _ _ (f_inv _ _ _ HF))) as [P _]. }
    destruct (step cfg s a) as [[s1 os]|] eqn:E; [|done].
    assert (Hr' : reachable cfg s1 (t ++ os)) by (by eapply reachable_step).
    pose proof E as E'. apply (exited_stays s t) in E' as [He|[He|He]]; try done.
    + assert (Hp : Phi s1 < Phi s).
      { apply routine_work in Ha as [H1 H2]. apply (phi_step s t) in E; [|done]. rewrite H1, H2 in E. lia. }
      destruct (IH _ Hp s1 (t ++ os) eq_refl Hr' He) as (more & s' & t' & M1 & M2 & M3).
      exists (a :: more), s', (os ++ t'). split_and!; try done; [by constructor|]. cbn [run]. by rewrite E, M2.
    + exists [a], s1, os. split_and!; try done; [by constructor; [|constructor]|]. cbn [run]. by rewrite E, app_nil_r.
    + by destruct (c08 cfg Hok _ _ Hr') as [_ ?].
  - exists [], s, []. split_and!; try done.
    by destruct HD as (s0 & t0 & os0 & now0 & order0 & HI & Hp0 & Ht0 & He & -> & Hdr & Hz & Hp & Hc & Hu).
Qed.
End bound.
