(** num_ready once the loop has reset it (second part of C09): it is 0 less the hand-outs that are counted after that,
    modulo 2^32. *)
From Verif Require Import SchedResult SchedProps.

(** The queue state is reset when a requested soft shutdown is carried out and when the loop is left
    (sync.rs:355-366 and 380-388), not when too many tasks fail (sync.rs:332-340). *)
Definition resets (o : obs) : Prop := o = OSoft SoftTrigger \/ exists e, o = OExit e.

Section soft.
Variable cfg : config.
Hypothesis Hok : config_ok cfg.
Variable c0 : cmd.
Hypothesis Hc0 : In c0 (nodes (cf_g cfg)).
Notation a := (c_affinity c0).

Definition late (s : st) : Prop :=
  st_phase s <> PInit /\ (sv_soft (st_sv s) = true \/ st_phase s <> PLoop \/ In IBreak (st_todo s)).

Definition owed (r : N) (k : nat) : Prop := (r < U32)%N /\ exists j, j <= k /\ ((r + N.of_nat j) mod U32 = 0)%N.

Definition zeroed (s : st) (k : nat) : Prop :=
  (exists l1 l2, st_todo s = l1 ++ IZeroReady a :: l2 /\ pend l2 = []) \/ (pend (st_todo s) = [] /\ owed (num_ready s a) k).

Lemma owed_mono r k k' : k <= k' -> owed r k -> owed r k'.
Proof. intros H [Hr (j & Hj & E)]. split; [done|]. exists j. split; [lia|done]. Qed.

Lemma zeroed_mono s k k' : k <= k' -> zeroed s k -> zeroed s k'.
Proof. intros H [Hz|[Hp Hz]]; [by left|right]. split; [done|]. by eapply owed_mono. Qed.

Lemma owed_0 : owed 0 0.
Proof. split; [done|]. exists 0. done. Qed.

Lemma owed_hand r k : owed r k -> owed ((r + (U32 - 1)) mod U32) (S k).
Proof.
  intros [Hr (j & Hj & E)]. split; [by apply N.mod_upper_bound|]. exists (S j). split; [lia|].
  rewrite N.add_mod_idemp_l by done. replace (r + (U32 - 1) + N.of_nat (S j))%N with (r + N.of_nat j + 1 * U32)%N by (unfold U32; lia).
  by rewrite N.mod_add.
Qed.

Lemma in_zero_all : exists l1 l2, zero_all cfg = l1 ++ IZeroReady a :: l2 /\ pend l2 = [].
Proof.
  assert (H : In (IZeroReady a) (zero_all cfg)) by (unfold zero_all; apply (in_map (fun c => IZeroReady (c_affinity c))); done).
  apply in_split in H as (l1 & l2 & E). exists l1, l2. split; [done|]. pose proof (pend_zero cfg) as Hp. rewrite E, pend_app in Hp. apply app_eq_nil in Hp as [_ Hp]. done.
Qed.

Lemma dec_ready q b q' : dec_inflight q b = Some q' -> forall x, option_map fst (q' !! x) = option_map fst (q !! x).
Proof.
  unfold dec_inflight. destruct (q !! b) as [[r i]|] eqn:E; [|done]. destruct (N.eqb i 0); [done|]. intros [= <-] x.
  destruct (decide (b = x)) as [<-|Hne]; [by rewrite lookup_insert, E|by rewrite lookup_insert_ne].
Qed.

Lemma drain_events_ready evs : forall sv q inf now sv' q' inf' os,
  drain_events cfg evs sv q inf now = Some (sv', q', inf', os) -> forall x, option_map fst (q' !! x) = option_map fst (q !! x).
Proof.
  induction evs as [|[id h p j|id x v f] evs IH]; intros sv q inf now sv' q' inf' os H y; cbn [drain_events] in H; [by injection H as <- <- <- <-| |].
  - repeat (case_match; try done). injection H as <- <- <- <-. by eapply IH.
  - destruct (nodes _ !! id) as [c|]; [|done]. destruct (dec_inflight q _) as [q1|] eqn:E; [|done].
    destruct (log_finish _ _ _ _ _ _ _) as [l|]; [|done]. destruct (drain_events _ _ _ _ _ _) as [[[[? ?] ?] ?]|] eqn:E2; [|done]. injection H as <- <- <- <-.
    rewrite (IH _ _ _ _ _ _ _ _ E2). by eapply dec_ready.
Qed.

Lemma drain_inflight_ready order : forall sv q now sv' q' os,
  drain_inflight cfg order sv q now = Some (sv', q', os) -> forall x, option_map fst (q' !! x) = option_map fst (q !! x).
Proof.
  induction order as [|id order IH]; intros sv q now sv' q' os H y; cbn [drain_inflight] in H; [by injection H as <- <- <-|].
  destruct (nodes _ !! id) as [c|]; [|done]. destruct (dec_inflight q _) as [q1|] eqn:E; [|done].
  destruct (write_finished _ _ _ _) as [l|]; [|done]. destruct (drain_inflight _ _ _ _ _) as [[[? ?] ?]|] eqn:E2; [|done]. injection H as <- <- <-.
  rewrite (IH _ _ _ _ _ _ E2). by eapply dec_ready.
Qed.

Lemma num_ready_fst s s' : option_map fst (st_qstate s' !! a) = option_map fst (st_qstate s !! a) -> num_ready s' a = num_ready s a.
Proof. unfold num_ready. destruct (st_qstate s' !! a) as [[r i]|], (st_qstate s !! a) as [[r' i']|]; cbn [option_map fst]; intros E; try done. by injection E. Qed.

Lemma zeroed_same s s' k : st_todo s' = st_todo s -> option_map fst (st_qstate s' !! a) = option_map fst (st_qstate s !! a) -> zeroed s k -> zeroed s' k.
Proof. intros Et Eq. unfold zeroed. by rewrite Et, (num_ready_fst _ _ Eq). Qed.

Lemma handle_started_soft sv id h p j now sv' is os : handle_started cfg sv id h p j now = Some (sv', is, os) -> sv_soft sv' = sv_soft sv /\ is = [] /\ os = [OStarted id].
Proof. unfold handle_started. intros H. repeat case_match; by simplify_eq. Qed.

Lemma pend_flag id (f : option nat) : pend (match f with Some f => [ISetFlag id f] | None => [] end) = [].
Proof. by destruct f. Qed.

Lemma drain_ready sv q evs order now sv' q' os : drain cfg sv q evs order now = Some (sv', q', os) -> forall x, option_map fst (q' !! x) = option_map fst (q !! x).
Proof.
  unfold drain. intros H x. destruct (drain_events _ _ _ _ _ _) as [[[[sv1 q1] inf1] os1]|] eqn:E; [|done].
  rewrite <- (drain_events_ready _ _ _ _ _ _ _ _ _ E). repeat (case_match; try done). injection H as <- <- <-. by eapply drain_inflight_ready.
Qed.

(** A step adds to what is owed only by handing out a task with this mask. *)
Lemma zeroed_step s t b s' os k : reachable cfg s t -> late s -> zeroed s k -> step cfg s b = Some (s', os) ->
  late s' /\ zeroed s' (k + length (with_mask cfg a (handed os))).
Proof.
  intros Hr [Hl1 Hl2] Hz Hs.
  destruct b as [order| |now| | | |order now|c|c j|c|c|c|c h p sl|c x v f|c| |]; cbn [step] in Hs.
  - destruct (st_phase s); done.
  - assert (exists i rest, st_todo s = i :: rest /\ (s', os) = exec_instr (set_todo s rest) i) as (i & rest & Et & E).
    { destruct (st_phase s); try done; destruct (st_todo s) as [|i rest]; try done; injection Hs as Hs; eexists _, _; (split; [done|by rewrite Hs]). }
    clear Hs. assert (Hd : handed os = []) by (destruct i; cbn in E; repeat (case_match; try done); by injection E as -> ->).
    rewrite Hd. change (length _) with 0. rewrite Nat.add_0_r. split.
    { assert (Hp : st_phase s' = st_phase s \/ st_phase s' = PPanicked \/ st_phase s' = PExited) by (destruct i; cbn in E; repeat (case_match; try done); injection E as -> ->; auto).
      assert (Hv : st_sv s' = st_sv s) by (destruct i; cbn in E; repeat (case_match; try done); by injection E as -> ->).
      assert (Ht : st_todo s' = rest) by (destruct i; cbn in E; repeat (case_match; try done); by injection E as -> ->).
      split; [destruct Hp as [-> |[-> | ->]]; done|]. rewrite Hv, Ht. destruct Hl2 as [?|[H|H]]; [by left| |].
      - right. left. destruct Hp as [-> |[-> | ->]]; done.
      - rewrite Et in H. destruct H as [-> |H]; [|by do 2 right]. cbn in E. injection E as -> _. right. left. done. }
    assert (Ht : st_todo s' = rest) by (destruct i; cbn in E; repeat (case_match; try done); by injection E as -> ->).
    destruct Hz as [(l1 & l2 & Hx & Hp)|[Hp Hz]].
    + rewrite Et in Hx. destruct l1 as [|y l1]; cbn [app] in Hx; injection Hx as -> ->.
      * right. rewrite Ht. split; [done|]. cbn [exec_instr set_todo st_qstate] in E. eapply owed_mono; [|replace (num_ready s' a) with 0%N; [apply owed_0|]]; [lia|].
        destruct (st_qstate s !! a) as [[r i]|] eqn:Eq; injection E as -> _; unfold num_ready; cbn [set_qstate st_qstate set_todo]; [by rewrite lookup_insert|by rewrite Eq].
      * left. eexists _, _. rewrite Ht. done.
    + right. rewrite Et in Hp. rewrite Ht. assert (Hp' : pend rest = []) by (change (i :: rest) with ([i] ++ rest) in Hp; rewrite pend_app in Hp; by apply app_eq_nil in Hp as [_ ?]).
      split; [done|].
      assert (Hn : num_ready s' a = num_ready s a \/ num_ready s' a = 0%N).
      { destruct i; cbn in E; try (injection E as -> _; by left).
        - case_match; injection E as -> _; by left.
        - destruct (dec_inflight _ _) as [q|] eqn:Eq; injection E as -> _; [|by left]. left. apply num_ready_fst. cbn [set_qstate st_qstate]. by rewrite (dec_ready _ _ _ Eq).
        - case_match; injection E as -> _; by left.
        - destruct (st_qstate s !! aff) as [[r i]|] eqn:Eq; injection E as -> _; [|by left]. unfold num_ready. cbn [set_qstate st_qstate set_todo].
          destruct (decide (aff = a)) as [-> |Hne]; [rewrite lookup_insert; by right|rewrite lookup_insert_ne by done; by left]. }
      destruct Hn as [-> | ->]; [done|]. eapply owed_mono; [|apply owed_0]. lia.
  - destruct (server_idle s) eqn:Hi; [|done]. unfold server_idle in Hi. destruct (st_phase s) eqn:Hp; try done. destruct (st_todo s) eqn:Et; [|done].
    destruct Hl2 as [Hsoft|[H|H]]; [|done|rewrite ?Et in H; done].
    assert (Hz' : owed (num_ready s a) k). { destruct Hz as [(l1 & l2 & Hx & _)|[_ ?]]; [|done]. rewrite Et in Hx. by destruct l1. }
    destruct (st_events s) as [|[id h p j|id x v f] rest]; [done| |]; injection Hs as Hs; unfold server_result in Hs.
    + destruct (handle_started _ _ _ _ _ _ _) as [[[sv is] os']|] eqn:E; [|injection Hs as <- <-; split; [split; [done|right; by left]|right; cbn [set_phase st_todo set_events]; rewrite Et; split; [done|]; by rewrite Nat.add_0_r]].
      apply handle_started_soft in E as (E1 & -> & ->). injection Hs as <- <-. cbn [st_sv set_events] in E1. split.
      * split; [cbn; by rewrite Hp|]. left. cbn. by rewrite E1.
      * right. split; [done|]. cbn [length handed omap list_omap with_mask List.filter]. rewrite Nat.add_0_r. done.
    + destruct (handle_finished _ _ _ _ _ _ _) as [[[sv is] os']|] eqn:E; [|injection Hs as <- <-; split; [split; [done|right; by left]|right; cbn [set_phase st_todo set_events]; rewrite Et; split; [done|]; by rewrite Nat.add_0_r]].
      injection Hs as <- <-. apply handle_finished_inv in E as (c & items & ready & over & stop & E). cbv zeta in E.
      destruct E as (_ & _ & _ & Em & _ & Er & _ & _ & _ & _ & Es & _ & _ & _ & Ei & Eo). cbn [st_sv set_events] in *. specialize (Er Hsoft). subst ready.
      assert (items = []) as -> by (destruct items; done). cbn [map rinstrs app] in *.
      split; [split; [cbn; by rewrite Hp|left; cbn; rewrite Es, Hsoft; apply orb_true_r]|].
      right. split; [|eapply owed_mono; [|exact Hz']; lia]. cbn [set_todo st_todo]. rewrite Ei.
      change (IDecInflight id (c_affinity c) :: ?l) with ([IDecInflight id (c_affinity c)] ++ l). rewrite !pend_app, pend_flag. cbn [pend omap list_omap inc_of app].
      destruct over, stop; rewrite ?app_nil_r; cbn [app]; try (change (ICancelToken now :: ?l) with ([ICancelToken now] ++ l)); rewrite ?pend_app; cbn [app pend omap list_omap inc_of];
        try change (list_omap _ _ inc_of ?l) with (pend l); try change (omap inc_of ?l) with (pend l); rewrite ?pend_close, ?pend_zero; done.
  - destruct (server_idle s && st_soft_trigger s) eqn:Hi; [|done]. injection Hs as <- <-. split; [split; [|by left]; cbn; apply andb_true_iff in Hi as [Hi _]; unfold server_idle in Hi; by destruct (st_phase s)|].
    left. destruct in_zero_all as (l1 & l2 & E & Hp). cbn [set_todo st_todo]. rewrite E. exists (close_all ++ l1), (l2 ++ [IUnsetSoft]). split; [by rewrite <- !List.app_assoc|by rewrite pend_app, Hp].
  - destruct (server_idle s && st_hard s) eqn:Hi; [|done]. injection Hs as <- <-. split; [split; [cbn; apply andb_true_iff in Hi as [Hi _]; unfold server_idle in Hi; by destruct (st_phase s)|do 2 right; cbn; tauto]|].
    left. destruct in_zero_all as (l1 & l2 & E & Hp). cbn [set_todo st_todo]. rewrite E. exists (close_all ++ IBreak :: l1), l2. split; [by rewrite <- !List.app_assoc|done].
  - destruct (server_idle s) eqn:Hi; [|done]. injection Hs as <- <-. split; [split; [cbn; unfold server_idle in Hi; by destruct (st_phase s)|do 2 right; cbn; tauto]|].
    left. destruct in_zero_all as (l1 & l2 & E & Hp). cbn [set_todo st_todo]. rewrite E. exists (close_all ++ IBreak :: l1), l2. split; [by rewrite <- !List.app_assoc|done].
  - destruct (st_phase s) eqn:Hp; try done. destruct (st_todo s) eqn:Et; [|done]. destruct (forallb _ _); [|done].
    destruct (drain_events _ _ _ _ _ _) as [[[[sv1 q1] inf] os1]|] eqn:Ed; [|injection Hs as <- <-; split; [split; [done|right; by left]|]; eapply zeroed_mono, zeroed_same; [|..|exact Hz]; [lia|done|done]].
    destruct (is_reordering _ _); [|done].
    destruct (drain _ _ _ _ _ _) as [[[sv q] os2]|] eqn:E; [|injection Hs as <- <-; split; [split; [done|right; by left]|]; eapply zeroed_mono, zeroed_same; [|..|exact Hz]; [lia|done|done]].
    injection Hs as <- <-. split; [split; [done|right; by left]|]. eapply zeroed_mono, zeroed_same; [|..|exact Hz]; [lia|done|]. cbn. by eapply drain_ready.
  - assert (Hsame : st_todo s' = st_todo s /\ st_qstate s' = st_qstate s /\ st_sv s' = st_sv s /\ st_phase s' = st_phase s) by (repeat (case_match; try done); by injection Hs as <- <-).
    destruct Hsame as (E1 & E2 & E3 & E4). unfold late. rewrite E1, E3, E4. split; [done|]. eapply zeroed_mono, zeroed_same; [|..|exact Hz]; [lia|done|by rewrite E2].
  - assert (Hsame : st_todo s' = st_todo s /\ st_qstate s' = st_qstate s /\ st_sv s' = st_sv s /\ st_phase s' = st_phase s) by (repeat (case_match; try done); by injection Hs as <- <-).
    destruct Hsame as (E1 & E2 & E3 & E4). unfold late. rewrite E1, E3, E4. split; [done|]. eapply zeroed_mono, zeroed_same; [|..|exact Hz]; [lia|done|by rewrite E2].
  - assert (Hsame : st_todo s' = st_todo s /\ st_qstate s' = st_qstate s /\ st_sv s' = st_sv s /\ st_phase s' = st_phase s) by (repeat (case_match; try done); by injection Hs as <- <-).
    destruct Hsame as (E1 & E2 & E3 & E4). unfold late. rewrite E1, E3, E4. split; [done|]. eapply zeroed_mono, zeroed_same; [|..|exact Hz]; [lia|done|by rewrite E2].
  - assert (Hsame : st_todo s' = st_todo s /\ st_qstate s' = st_qstate s /\ st_sv s' = st_sv s /\ st_phase s' = st_phase s) by (repeat (case_match; try done); by injection Hs as <- <-).
    destruct Hsame as (E1 & E2 & E3 & E4). unfold late. rewrite E1, E3, E4. split; [done|]. eapply zeroed_mono, zeroed_same; [|..|exact Hz]; [lia|done|by rewrite E2].
  - destruct (st_clients s !! c) as [[| | |it| | | |]|] eqn:Ec; try done. destruct (cf_types cfg !! c) as [i|] eqn:Ety; [|done].
    destruct (reach_inv cfg s t Hok Hr) as [HI|HF].
    2:{ destruct HF as (s0 & t0 & os0 & HI & Hp0 & Ht0 & He & -> & Hz0 & Hp & Hcl & Hu). rewrite Hcl in Ec. by apply (ended_no_client _ _ _ He) in Ec. }
    assert (Hi : i_affinity it = aff cfg (i_id it)).
    { destruct HI as [HA _ _ _]. destruct (a_claim _ _ _ HA _ _ Ec) as (i' & _ & _ & _ & cc & Hcc & -> & _). unfold aff. by rewrite Hcc. }
    unfold hand_out in Hs. destruct (st_qstate s !! i_affinity it) as [[r n]|] eqn:Eq.
    2:{ injection Hs as <- <-. split; [split; [done|right; by left]|]. eapply zeroed_mono, zeroed_same; [|..|exact Hz]; [lia|done|done]. }
    injection Hs as <- <-. split; [done|]. cbn [handed omap list_omap with_mask List.filter]. rewrite <- Hi.
    destruct Hz as [Hz|[Hp Hz]]; [by left|right]. split; [done|]. unfold num_ready in *. cbn [set_client set_qstate st_qstate].
    destruct (N.eqb_spec (i_affinity it) a) as [E|Hne]; cbn [length].
    + rewrite <- E in *. rewrite lookup_insert. rewrite Eq in Hz. rewrite Nat.add_1_r. by apply owed_hand.
    + rewrite lookup_insert_ne by done. by rewrite Nat.add_0_r.
  - assert (Hsame : st_todo s' = st_todo s /\ st_qstate s' = st_qstate s /\ st_sv s' = st_sv s /\ st_phase s' = st_phase s) by (repeat (case_match; try done); by injection Hs as <- <-).
    destruct Hsame as (E1 & E2 & E3 & E4). unfold late. rewrite E1, E3, E4. split; [done|]. eapply zeroed_mono, zeroed_same; [|..|exact Hz]; [lia|done|by rewrite E2].
  - assert (Hsame : st_todo s' = st_todo s /\ st_qstate s' = st_qstate s /\ st_sv s' = st_sv s /\ st_phase s' = st_phase s) by (repeat (case_match; try done); by injection Hs as <- <-).
    destruct Hsame as (E1 & E2 & E3 & E4). unfold late. rewrite E1, E3, E4. split; [done|]. eapply zeroed_mono, zeroed_same; [|..|exact Hz]; [lia|done|by rewrite E2].
  - assert (Hsame : st_todo s' = st_todo s /\ st_qstate s' = st_qstate s /\ st_sv s' = st_sv s /\ st_phase s' = st_phase s) by (repeat (case_match; try done); by injection Hs as <- <-).
    destruct Hsame as (E1 & E2 & E3 & E4). unfold late. rewrite E1, E3, E4. split; [done|]. eapply zeroed_mono, zeroed_same; [|..|exact Hz]; [lia|done|by rewrite E2].
  - injection Hs as <- <-. split; [done|]. eapply zeroed_mono, zeroed_same; [|..|exact Hz]; [lia|done|done].
  - injection Hs as <- <-. split; [done|]. eapply zeroed_mono, zeroed_same; [|..|exact Hz]; [lia|done|done].
Qed.

Lemma leave_zeroed s e s' os : server_idle s = true -> leave cfg s e = (s', os) -> late s' /\ zeroed s' 0.
Proof.
  intros Hi H. injection H as <- <-. unfold server_idle in Hi. split; [split; [cbn; by destruct (st_phase s)|do 2 right; cbn; tauto]|].
  left. destruct in_zero_all as (l1 & l2 & E & Hp). cbn [set_todo st_todo]. rewrite E. exists (close_all ++ IBreak :: l1), l2. split; [by rewrite <- !List.app_assoc|done].
Qed.

Ltac not_a_reset Hin Hre :=
  exfalso; cbn [In] in Hin; repeat (destruct Hin as [Hin|Hin]; [rewrite <- Hin in Hre; destruct Hre as [Hre|[? Hre]]; discriminate Hre|]); exact Hin.

Lemma drain_events_no_reset evs : forall sv q inf now sv' q' inf' os o,
  drain_events cfg evs sv q inf now = Some (sv', q', inf', os) -> In o os -> ~ resets o.
Proof.
  induction evs as [|[id h p j|id x v f] evs IH]; intros sv q inf now sv' q' inf' os o H Hi; cbn [drain_events] in H; [by injection H as <- <- <- <-| |].
  - repeat (case_match; try done). injection H as <- <- <- <-. destruct Hi as [<-|Hi]; [by intros [?|[? ?]]|by eapply IH].
  - repeat (case_match; try done). injection H as <- <- <- <-. destruct Hi as [<-|Hi]; [by intros [?|[? ?]]|by eapply IH].
Qed.
Lemma drain_inflight_no_reset order : forall sv q now sv' q' os o,
  drain_inflight cfg order sv q now = Some (sv', q', os) -> In o os -> ~ resets o.
Proof.
  induction order as [|id order IH]; intros sv q now sv' q' os o H Hi; cbn [drain_inflight] in H; [by injection H as <- <- <-|].
  repeat (case_match; try done). injection H as <- <- <-. destruct Hi as [<-|Hi]; [by intros [?|[? ?]]|by eapply IH].
Qed.
Lemma drain_no_reset sv q evs order now sv' q' os o : drain cfg sv q evs order now = Some (sv', q', os) -> In o os -> ~ resets o.
Proof.
  unfold drain. intros H Hi. destruct (drain_events _ _ _ _ _ _) as [[[[sv1 q1] inf1] os1]|] eqn:E; [|done].
  case_match; [|done]. destruct (drain_inflight _ _ _ _ _) as [[[sv2 q2] os2]|] eqn:E2; [|done]. injection H as <- <- <-.
  apply in_app_or in Hi as [Hi|Hi]; [by eapply drain_events_no_reset|by eapply drain_inflight_no_reset].
Qed.

Lemma ready_no_reset ready o : In o (map OReady ready) -> ~ resets o.
Proof. intros (n & <- & _)%in_map_iff [?|[? ?]]; done. Qed.

Lemma reset_step s b s' os o : step cfg s b = Some (s', os) -> In o os -> resets o -> late s' /\ zeroed s' 0.
Proof.
  intros Hs Hin Hre.
  destruct b as [order| |now| | | |order now|c|c j|c|c|c|c h p sl|c x v f|c| |]; cbn [step] in Hs.
  - destruct (st_phase s); try done. destruct (is_reordering _ _); [|done]. destruct (add_to_ready_queue _ _ _) as [[[sv is] os']|] eqn:E; injection Hs as <- <-; [|not_a_reset Hin Hre].
    rewrite (atrq_obs _ _ _ _ _ _ E) in Hin. by apply ready_no_reset in Hin.
  - assert (exists i rest, (s', os) = exec_instr (set_todo s rest) i) as (i & rest & E).
    { destruct (st_phase s); try done; destruct (st_todo s) as [|i rest]; try done; injection Hs as Hs; eexists _, _; by rewrite Hs. }
    destruct i; cbn in E; repeat (case_match; try done); injection E as -> ->; not_a_reset Hin Hre.
  - destruct (server_idle s) eqn:Hi; [|done]. unfold server_idle in Hi. destruct (st_phase s) eqn:Hp; try done.
    destruct (st_events s) as [|[id h p j|id x v f] rest]; [done| |]; injection Hs as Hs; unfold server_result in Hs.
    + destruct (handle_started _ _ _ _ _ _ _) as [[[sv is] os']|] eqn:E; [|injection Hs as <- <-; not_a_reset Hin Hre].
      apply handle_started_soft in E as (E1 & -> & ->). injection Hs as <- <-. not_a_reset Hin Hre.
    + destruct (handle_finished _ _ _ _ _ _ _) as [[[sv is] os']|] eqn:E; [|injection Hs as <- <-; not_a_reset Hin Hre].
      injection Hs as <- <-. apply handle_finished_inv in E as (c & items & ready & over & stop & E). cbv zeta in E.
      destruct E as (_ & _ & _ & _ & _ & _ & _ & _ & _ & _ & _ & _ & _ & _ & Ei & Eo).
      assert (stop = true) as ->.
      { rewrite Eo in Hin. destruct Hin as [<-|Hin]; [by destruct Hre as [?|[? ?]]|]. apply in_app_or in Hin as [Hin|Hin]; [by apply ready_no_reset in Hin|].
        destruct stop; [done|]. destruct over; cbn [app] in Hin; not_a_reset Hin Hre. }
      split; [split; [cbn; by rewrite Hp|]; do 2 right|].
      * cbn [set_todo st_todo]. rewrite Ei. right. do 3 (apply in_or_app; right). apply in_or_app. right. by left.
      * left. destruct in_zero_all as (l1 & l2 & E & Hpe). cbn [set_todo st_todo]. rewrite Ei, E.
        exists (IDecInflight id (c_affinity c) :: rinstrs items ++ (match f with Some f => [ISetFlag id f] | None => [] end) ++
                (if over then ICancelToken now :: close_all else []) ++ close_all ++ IBreak :: l1), l2.
        split; [|done]. cbn [app]. f_equal. by rewrite <- !List.app_assoc.
  - destruct (server_idle s && st_soft_trigger s) eqn:Hi; [|done]. injection Hs as <- <-. split; [split; [|by left]; cbn; apply andb_true_iff in Hi as [Hi _]; unfold server_idle in Hi; by destruct (st_phase s)|].
    left. destruct in_zero_all as (l1 & l2 & E & Hp). cbn [set_todo st_todo]. rewrite E. exists (close_all ++ l1), (l2 ++ [IUnsetSoft]). split; [by rewrite <- !List.app_assoc|by rewrite pend_app, Hp].
  - destruct (server_idle s && st_hard s) eqn:Hi; [|done]. apply andb_true_iff in Hi as [Hi _]. assert (Hl := f_equal (fun x => match x with Some y => y | None => (s, []) end) Hs). cbv beta iota in Hl. by eapply leave_zeroed.
  - destruct (server_idle s) eqn:Hi; [|done]. assert (Hl := f_equal (fun x => match x with Some y => y | None => (s, []) end) Hs). cbv beta iota in Hl. by eapply leave_zeroed.
  - destruct (st_phase s) eqn:Hp; try done. destruct (st_todo s) eqn:Et; [|done]. destruct (forallb _ _); [|done].
    destruct (drain_events _ _ _ _ _ _) as [[[[sv1 q1] inf] os1]|] eqn:Ed; [|injection Hs as <- <-; not_a_reset Hin Hre].
    destruct (is_reordering _ _); [|done].
    destruct (drain _ _ _ _ _ _) as [[[sv q] os2]|] eqn:E; [|injection Hs as <- <-; not_a_reset Hin Hre].
    injection Hs as <- <-. by eapply drain_no_reset in E.
  - repeat (case_match; try done); injection Hs as <- <-; not_a_reset Hin Hre.
  - repeat (case_match; try done); injection Hs as <- <-; not_a_reset Hin Hre.
  - repeat (case_match; try done); injection Hs as <- <-; not_a_reset Hin Hre.
  - repeat (case_match; try done); injection Hs as <- <-; not_a_reset Hin Hre.
  - repeat (case_match; try done); injection Hs as <- <-; not_a_reset Hin Hre.
  - repeat (case_match; try done); injection Hs as <- <-; not_a_reset Hin Hre.
  - repeat (case_match; try done); injection Hs as <- <-; not_a_reset Hin Hre.
  - repeat (case_match; try done); injection Hs as <- <-; not_a_reset Hin Hre.
  - injection Hs as <- <-; not_a_reset Hin Hre.
  - injection Hs as <- <-; not_a_reset Hin Hre.
Qed.

Lemma zeroed_reach s t : reachable cfg s t -> forall t1 o t2, t = t1 ++ o :: t2 -> resets o -> late s /\ zeroed s (length (with_mask cfg a (handed t2))).
Proof.
  intros Hr. revert s t Hr. apply (reachable_ind' cfg (fun s t => forall t1 o t2, t = t1 ++ o :: t2 -> resets o -> late s /\ zeroed s (length (with_mask cfg a (handed t2))))).
  - intros t1 o t2 H. by destruct t1.
  - intros s t b s' os Hr IH Hs t1 o t2 E Ho.
    apply app_eq_inv in E as [(l & E1 & E)|(l & E1 & E)].
    + destruct l as [|x l]; cbn [app] in E.
      * destruct (reset_step _ _ _ _ o Hs) as [H1 H2]; [rewrite <- E; by left|done|]. split; [done|]. eapply zeroed_mono; [|done]. lia.
      * injection E as <- ->. destruct (IH _ _ _ E1 Ho) as [H1 H2]. rewrite handed_app. unfold with_mask. rewrite List.filter_app, app_length. by eapply zeroed_step.
    + destruct (reset_step _ _ _ _ o Hs) as [H1 H2]; [rewrite E; apply in_or_app; right; by left|done|]. split; [done|]. eapply zeroed_mono; [|done]. lia.
Qed.
End soft.

(** C09. Once a soft shutdown on request, or the end of the loop, has been carried out, num_ready of the mask of a task is 0 less
    the hand-outs counted since (at most all of those with this mask), modulo 2^32. *)
Theorem num_ready_after_reset cfg s t1 o t2 c :
  config_ok cfg -> reachable cfg s (t1 ++ o :: t2) -> resets o -> st_todo s = [] -> In c (nodes (cf_g cfg)) ->
  (num_ready s (c_affinity c) < U32)%N /\
  exists k, k <= length (with_mask cfg (c_affinity c) (handed t2)) /\ ((num_ready s (c_affinity c) + N.of_nat k) mod U32 = 0)%N.
Proof.
  intros Hok Hr Ho Ht Hc. destruct (zeroed_reach cfg Hok c Hc _ _ Hr _ _ _ eq_refl Ho) as [_ [(l1 & l2 & E & _)|[_ H]]]; [rewrite Ht in E; by destruct l1|]. exact H.
Qed.
Print Assumptions num_ready_after_reset.

(** In particular it is 0 if no task is handed out after the reset. *)
Theorem num_ready_zero_after_reset cfg s t1 o t2 c :
  config_ok cfg -> reachable cfg s (t1 ++ o :: t2) -> resets o -> st_todo s = [] -> In c (nodes (cf_g cfg)) -> handed t2 = [] -> num_ready s (c_affinity c) = 0%N.
Proof.
  intros Hok Hr Ho Ht Hc Hh. destruct (num_ready_after_reset cfg s t1 o t2 c Hok Hr Ho Ht Hc) as [H1 (k & Hk & H2)]. rewrite Hh in Hk. cbn in Hk.
  replace k with 0 in H2 by lia. rewrite N.add_0_r, N.mod_small in H2 by done. done.
Qed.
Print Assumptions num_ready_zero_after_reset.

(** Both cases occur: in [wrap_script] of SchedProps.v a task is counted after the reset, and one less than 0 is 2^32 - 1; when the loop is
    left because of a hard cancellation nothing is handed out afterwards. *)
Example reset_wraps : exists s t1 o t2 c, reachable demo s (t1 ++ o :: t2) /\ resets o /\ st_todo s = [] /\ In c (nodes (cf_g demo)) /\
  with_mask demo (c_affinity c) (handed t2) = [0] /\ num_ready s (c_affinity c) = 4294967295%N.
Proof.
  eexists _, [OReady 0; OPushed 0 0], _, [OHandedOut 0 0 0], (task "a" 1 0). split; [exists (expand demo (initial demo) wrap_script); vm_compute; reflexivity|].
  split; [by left|]. split; [reflexivity|]. split; [by left|]. by vm_compute.
Qed.
Example reset_on_exit : exists s t1 o t2 c, reachable demo s (t1 ++ o :: t2) /\ resets o /\ st_todo s = [] /\ In c (nodes (cf_g demo)) /\
  handed t1 = [0] /\ handed t2 = [].
Proof.
  eexists _, [OReady 0; OPushed 0 0; OHandedOut 0 0 0; OSentStarted 0 0; OStarted 0], _, _, (task "a" 1 0). split; [exists (expand demo (initial demo) hard_script); vm_compute; reflexivity|].
  split; [right; by eexists|]. split; [reflexivity|]. split; [by left|]. by vm_compute.
Qed.

(** ** What does not hold *)
(** No client waits for a task and all queues are closed. *)
Definition nobody_waits (s : st) : Prop :=
  (forall i b, st_closed s !! i = Some b -> b = true) /\
  (forall c x, st_clients s !! c = Some x -> match x with CWait | CPopped _ | CClaimed _ => False | _ => True end).

Lemma nobody_waits_same s s' : st_closed s' = st_closed s -> st_clients s' = st_clients s -> nobody_waits s -> nobody_waits s'.
Proof. unfold nobody_waits. by intros -> ->. Qed.

Lemma handed_ready l : handed (map OReady l) = [].
Proof. by induction l. Qed.

Lemma drain_handed cfg sv q evs order now sv' q' os : drain cfg sv q evs order now = Some (sv', q', os) -> handed os = [].
Proof.
  assert (H1 : forall evs sv q inf sv' q' inf' os, drain_events cfg evs sv q inf now = Some (sv', q', inf', os) -> handed os = []).
  { clear. induction evs as [|[id h p j|id x v f] evs IH]; intros sv q inf sv' q' inf' os H; cbn [drain_events] in H; [by injection H as <- <- <- <-| |];
      repeat (case_match; try done); injection H as <- <- <- <-; match goal with E : drain_events _ _ _ _ _ _ = _ |- _ => exact (IH _ _ _ _ _ _ _ E) end. }
  assert (H2 : forall order sv q sv' q' os, drain_inflight cfg order sv q now = Some (sv', q', os) -> handed os = []).
  { clear. induction order as [|id order IH]; intros sv q sv' q' os H; cbn [drain_inflight] in H; [by injection H as <- <- <-|].
    repeat (case_match; try done). injection H as <- <- <-. match goal with E : drain_inflight _ _ _ _ _ = _ |- _ => exact (IH _ _ _ _ _ E) end. }
  unfold drain. intros H. destruct (drain_events _ _ _ _ _ _) as [[[[sv1 q1] inf1] os1]|] eqn:E; [|done].
  case_match; [|done]. destruct (drain_inflight _ _ _ _ _) as [[[sv2 q2] os2]|] eqn:E2; [|done]. injection H as <- <- <-.
  by rewrite handed_app, (H1 _ _ _ _ _ _ _ _ E), (H2 _ _ _ _ _ _ E2).
Qed.

Lemma nobody_waits_step cfg s b s' os : nobody_waits s -> step cfg s b = Some (s', os) -> nobody_waits s' /\ handed os = [].
Proof.
  intros Hw Hs. pose proof Hw as [H1 H2].
  destruct b as [order| |now| | | |order now|c|c j|c|c|c|c h p sl|c x v f|c| |]; cbn [step] in Hs.
  - destruct (st_phase s); try done. destruct (is_reordering _ _); [|done]. destruct (add_to_ready_queue _ _ _) as [[[sv is] os']|] eqn:E; injection Hs as <- <-; [|done].
    rewrite (atrq_obs _ _ _ _ _ _ E), handed_ready. done.
  - assert (exists i rest, (s', os) = exec_instr (set_todo s rest) i) as (i & rest & E).
    { destruct (st_phase s); try done; destruct (st_todo s) as [|i rest]; try done; injection Hs as Hs; eexists _, _; by rewrite Hs. }
    clear Hs. destruct i; cbn [exec_instr] in E; repeat (case_match; try done); injection E as -> ->; try (cbn [panic]; split; [by eapply nobody_waits_same; [| |exact Hw]|done]).
    split; [|done]. split; [|done]. cbn [set_closed st_closed set_todo]. intros iq bq Hx. apply list_lookup_insert_Some in Hx as [(_ & <- & _)|[_ Hx]]; [done|by eapply H1].
  - destruct (server_idle s) eqn:Hi; [|done].
    destruct (st_events s) as [|[id h p j|id x v f] rest]; [done| |]; injection Hs as Hs; unfold server_result in Hs.
    + destruct (handle_started _ _ _ _ _ _ _) as [[[sv is] os']|] eqn:E; [|by injection Hs as <- <-].
      apply handle_started_soft in E as (E1 & -> & ->). by injection Hs as <- <-.
    + destruct (handle_finished _ _ _ _ _ _ _) as [[[sv is] os']|] eqn:E; [|by injection Hs as <- <-].
      injection Hs as <- <-. apply handle_finished_obs in E as (ready & tail & -> & _ & _ & Ht). split; [done|].
      change (handed (map OReady ready ++ tail) = []). by rewrite handed_app, handed_ready, Ht.
  - destruct (server_idle s && st_soft_trigger s) eqn:Hi; [|done]. by injection Hs as <- <-.
  - destruct (server_idle s && st_hard s) eqn:Hi; [|done]. by injection Hs as <- <-.
  - destruct (server_idle s) eqn:Hi; [|done]. by injection Hs as <- <-.
  - destruct (st_phase s) eqn:Hp; try done. destruct (st_todo s) eqn:Et; [|done]. destruct (forallb _ _); [|done].
    destruct (drain_events _ _ _ _ _ _) as [[[[sv1 q1] inf] os1]|] eqn:Ed; [|by injection Hs as <- <-].
    destruct (is_reordering _ _); [|done].
    destruct (drain _ _ _ _ _ _) as [[[sv q] os2]|] eqn:E; [|by injection Hs as <- <-].
    injection Hs as <- <-. split; [done|]. by eapply drain_handed.
  - destruct (st_clients s !! c) as [[]|] eqn:Ec; try done. destruct (cf_types cfg !! c) as [i|]; [|done].
    destruct (st_closed s !! i) as [[]|] eqn:Ei; [|by apply H1 in Ei|]; injection Hs as <- <-; (split; [|done]); (split; [done|]);
      cbn [set_client st_clients]; intros d y H; apply list_lookup_insert_Some in H as [(_ & <- & _)|[_ H]]; try done; by eapply H2.
  - destruct (st_clients s !! c) as [[]|] eqn:Ec; try done. by apply H2 in Ec.
  - destruct (st_clients s !! c) as [[]|] eqn:Ec; try done. by apply H2 in Ec.
  - destruct (st_clients s !! c) as [[]|] eqn:Ec; try done. by apply H2 in Ec.
  - destruct (st_clients s !! c) as [[]|] eqn:Ec; try done. by apply H2 in Ec.
  - destruct (st_clients s !! c) as [[]|] eqn:Ec; try done. injection Hs as <- <-. split; [|done]. split; [done|].
    cbn [set_client st_clients set_events]. intros d y H. apply list_lookup_insert_Some in H as [(_ & <- & _)|[_ H]]; try done. by eapply H2.
  - destruct (st_clients s !! c) as [[]|] eqn:Ec; try done; injection Hs as <- <-; (split; [|done]); (split; [done|]);
    cbn [set_client st_clients set_events]; intros d y H; apply list_lookup_insert_Some in H as [(_ & <- & _)|[_ H]]; try done; by eapply H2.
  - destruct (st_clients s !! c) as [[]|] eqn:Ec; try done; injection Hs as <- <-; (split; [|done]); (split; [done|]);
    cbn [set_client st_clients set_events]; intros d y H; apply list_lookup_insert_Some in H as [(_ & <- & _)|[_ H]]; try done; by eapply H2.
  - by injection Hs as <- <-.
  - by injection Hs as <- <-.
Qed.

Lemma nobody_waits_run cfg acts : forall s s' t, nobody_waits s -> run cfg s acts = Some (s', t) -> handed t = [].
Proof.
  induction acts as [|b acts IH]; intros s s' t Hw H; cbn [run] in H; [by injection H as <- <-|].
  destruct (step cfg s b) as [[s1 os]|] eqn:Hs; [|done]. destruct (run cfg s1 acts) as [[s2 os2]|] eqn:Hr; [|done]. injection H as <- <-.
  destruct (nobody_waits_step _ _ _ _ _ Hw Hs) as [Hw1 H1]. by rewrite handed_app, H1, (IH _ _ _ Hw1 Hr).
Qed.

(** The comment at sync.rs:358-360 says that after a soft shutdown the status shows that there are no more tasks. After too many failures it
    does not: the counter is not reset until the loop is left. Here a task is reported as ready although none will be handed out. *)
Definition one_failure : config :=
  Config (DiGraph [task "a" 1 0; task "b" 1 0; task "c" 1 0] []) 1 [0; 0; 0] (fun n => SysTime (N.of_nat n) 0) log0.
Definition one_failure_script : list script :=
  [Do (AInit [0; 1; 2]); Flush] ++ take_task 0 ++ take_task 1 ++ [Do (ASendStarted 1 "host" 8 ""); Do (AEvent 5)] ++ finish_task 0 (Code 1).
Theorem num_ready_zero_after_failures_refuted :
  exists cfg s t c, config_ok cfg /\ reachable cfg s t /\ In (OSoft SoftFailures) t /\ quiescent s /\ In c (nodes (cf_g cfg)) /\
    num_ready s (c_affinity c) = 1%N /\ forall acts s' t', run cfg s acts = Some (s', t') -> handed t' = [].
Proof.
  exists one_failure. eexists _, _, (task "a" 1 0). split; [config_ok|].
  split; [exists (expand one_failure (initial one_failure) one_failure_script); vm_compute; reflexivity|].
  split; [simpl; tauto|]. split; [split; [discriminate|reflexivity]|]. split; [by left|]. split; [by vm_compute|].
  intros acts s' t' H. eapply nobody_waits_run; [|exact H]. split.
  - intros i b Hi. apply elem_of_list_lookup_2 in Hi. cbn [st_closed] in Hi. repeat (apply elem_of_cons in Hi as [-> |Hi]; [done|]). by apply elem_of_nil in Hi.
  - intros c x Hi. apply elem_of_list_lookup_2 in Hi. cbn [st_clients] in Hi. repeat (apply elem_of_cons in Hi as [-> |Hi]; [done|]). by apply elem_of_nil in Hi.
Qed.
Print Assumptions num_ready_zero_after_failures_refuted.
