(** C67: process groups and signals of a call of execute(). *)
From Verif Require Import GroupProofs GroupSpec.
From stdpp Require Import prelude gmap.
Open Scope list_scope.

(** The SIGTERM at the end of execute() does not end the caller. *)
Theorem caller_survives o c o' os : step o (AEnd c) = Some (o', os) -> alive o' c.
Proof.
  cbn [step]. destruct (os_procs o !! c) as [x|] eqn:E; [|done]. intros [= H]. unfold drain_end in H. rewrite E in H. injection H as <- <-.
  exists (set_term x Handled). apply term_lookup. cbn [with_procs os_procs]. rewrite lookup_insert. split; [done|]. by intros [_ ?].
Qed.

(** It reaches every process started since the call began, by the caller or by processes started so, at any depth, that has not left the
    group; one that neither handles nor ignores it ends. *)
Theorem processes_of_tasks_terminated o c h o1 os1 o2 os2 p : sane o -> run o (ABegin c :: h) = Some (o1, os1) -> keeps_group c h ->
  stayed c h p -> alive o1 p -> step o1 (AEnd c) = Some (o2, os2) -> OTerm p ∈ os2 /\ (p <> c -> disposes o1 p Default -> ~ alive o2 p).
Proof.
  intros Hs H Hk Hp Ha H2. cbn [run] in H. destruct (step o (ABegin c)) as [[o0 os0]|] eqn:Eb; [|done].
  destruct (run o0 h) as [[o1' os1']|] eqn:Er; [|done]. injection H as <- <-.
  pose proof (begin_leads _ _ _ _ Hs Eb) as Hl. pose proof (sane_step _ _ _ _ Hs Eb) as Hs0.
  assert (Hu : c ∈ os_used o0). { destruct Hl as (x & E & _). by destruct (Hs0 _ _ E) as (_ & ? & _). }
  destruct (stayed_group _ _ _ _ _ _ Hl Hu Hk Er Hp) as [_ Hg]. specialize (Hg Ha). destruct (leader_stays _ _ _ _ _ Hl Hu Hk Er) as [Hl1 _].
  assert (Hc : alive o1' c). { cbn [step] in H2. destruct (os_procs o1' !! c) eqn:E; [by eexists|done]. }
  assert (Ht : OTerm p ∈ os2). { rewrite (end_signals _ _ _ _ _ H2). exists c. auto. }
  split; [done|]. intros Hne (x & Ex & Ed) [x' Hx']. cbn [step] in H2. destruct (os_procs o1' !! c) as [y|] eqn:E; [|done]. injection H2 as H2. unfold drain_end in H2.
  rewrite E in H2. injection H2 as <- <-. apply term_lookup in Hx' as [E1 E2]. cbn [with_procs os_procs] in E1. rewrite lookup_insert_ne in E1 by done. rewrite Ex in E1. injection E1 as <-.
  apply E2. split; [|done]. apply elem_of_list_fmap in Ht as (z & [= <-] & Hz). by apply elem_of_list_In.
Qed.

(** It reaches nobody else than the caller and processes started by it since, at any depth, unless others were in its group or have joined it. *)
Theorem others_spared o c h o1 os1 o2 os2 p : sane o -> run o (ABegin c :: h) = Some (o1, os1) -> keeps_group c h ->
  (forall q, in_group o q c -> q = c) -> nobody_joins c h -> step o1 (AEnd c) = Some (o2, os2) -> OTerm p ∈ os2 -> p = c \/ descendant c h p.
Proof.
  intros Hs H Hk Hn Hj H2 Ht. cbn [run] in H. destruct (step o (ABegin c)) as [[o0 os0]|] eqn:Eb; [|done].
  destruct (run o0 h) as [[o1' os1']|] eqn:Er; [|done]. injection H as <- <-.
  pose proof (begin_leads _ _ _ _ Hs Eb) as Hl. pose proof (sane_step _ _ _ _ Hs Eb) as Hs0.
  assert (Hu : c ∈ os_used o0). { destruct Hl as (x & E & _). by destruct (Hs0 _ _ E) as (_ & ? & _). }
  destruct (leader_stays _ _ _ _ _ Hl Hu Hk Er) as [Hl1 _].
  assert (Hc : alive o1' c). { cbn [step] in H2. destruct (os_procs o1' !! c) eqn:E; [by eexists|done]. }
  apply (end_signals _ _ _ _ _ H2) in Ht as (g & Hg1 & Hg2). rewrite (in_group_unique _ _ _ _ Hg1 (Hl1 Hc)) in Hg2.
  eapply group_descends; [|exact Hj|exact Er|exact Hg2].
  intros q Hq. destruct (step_group _ _ _ _ _ _ Eb Hq) as [I|[(q' & [=] & _)|[[=]|[[[=]|[= <-]] _]]]]; [by apply Hn|done].
Qed.

(** A caller that leads the foreground group of the terminal is reached by Ctrl-C during the call. *)
Theorem ctrl_c_reaches_leader o c h o1 os1 o2 os2 : sane o -> in_group o c c -> os_foreground o = c -> run o (ABegin c :: h) = Some (o1, os1) -> keeps_group c h ->
  (forall g, ~ In (AForeground g) h) -> alive o1 c -> step o1 ACtrlC = Some (o2, os2) -> OInt c ∈ os2.
Proof.
  intros Hs Hg Hf H Hk Hn Hc [= <- <-]. cbn [run] in H. destruct (step o (ABegin c)) as [[o0 os0]|] eqn:Eb; [|done].
  destruct (run o0 h) as [[o1' os1']|] eqn:Er; [|done]. injection H as <- <-.
  pose proof (begin_leads _ _ _ _ Hs Eb) as Hl. pose proof (sane_step _ _ _ _ Hs Eb) as Hs0.
  assert (Hu : c ∈ os_used o0). { destruct Hl as (x & E & _). by destruct (Hs0 _ _ E) as (_ & ? & _). }
  destruct (leader_stays _ _ _ _ _ Hl Hu Hk Er) as [Hl1 _].
  assert (Hfg : forall a o o' os, step o a = Some (o', os) -> (forall g, a <> AForeground g) -> os_foreground o' = os_foreground o).
  { clear. intros a o o' os H Ha. destruct a as [q c|q|q d|q h|q|q|q|h| |q|q]; cbn [step] in H; try (destruct (os_procs o !! q) as [x|] eqn:E; [|done]).
    11: { injection H as H. unfold drain_end in H. rewrite E in H. by injection H as <- <-. }
    9: { by injection H as <- <-. }
    1: { destruct (decide _); [done|]. by injection H as <- <-. }
    all: try (by destruct (Ha h)).
    all: injection H as <- <-; unfold setpgid, setsid, term; try rewrite E; repeat case_match; done. }
  assert (Hff : os_foreground o1' = c).
  { rewrite <- Hf, <- (Hfg _ _ _ _ Eb) by done. clear -Hfg Hn Er. revert o1' os1' Er. induction h as [|a h IH] using rev_ind; intros o1' os1' Er; [by injection Er as <- <-|].
    apply run_snoc in Er as (o2 & os1 & os2 & H1 & H2 & _). rewrite (Hfg _ _ _ _ H2); [eapply IH; [|exact H1]|].
    - intros g Hg. apply (Hn g). apply in_app_iff. by left.
    - intros g ->. apply (Hn g). apply in_app_iff. right. by left. }
  apply elem_of_list_fmap. exists c. split; [done|]. apply elem_of_list_In, members_spec. rewrite Hff. by apply Hl1.
Qed.

(** After a call of execute() the caller does not end by SIGTERM, until it sets another handler itself. *)
Theorem no_end_by_sigterm o c o1 os1 h o2 os2 o3 os3 : step o (AEnd c) = Some (o1, os1) -> keeps_disposition c h -> run o1 h = Some (o2, os2) ->
  alive o2 c -> c ∈ os_used o1 -> step o2 (AKill c) = Some (o3, os3) -> alive o3 c.
Proof.
  intros H Hk Hr Hc Hu Hkill.
  assert (Hd : disposes o1 c Handled).
  { cbn [step] in H. destruct (os_procs o !! c) as [x|] eqn:E; [|done]. injection H as H. unfold drain_end in H. rewrite E in H. injection H as <- <-.
    exists (set_term x Handled). split; [|done]. apply term_lookup. cbn [with_procs os_procs]. rewrite lookup_insert. split; [done|]. by intros [_ ?]. }
  assert (Hd2 : disposes o2 c Handled).
  { clear H Hkill. revert o2 os2 Hr Hc. induction h as [|a h IH] using rev_ind; intros o2 os2 Hr Hc; [by injection Hr as <- <-|].
    apply run_snoc in Hr as (o2' & os1' & os2' & H1 & H2 & _).
    assert (Hu2 : os_used o1 ⊆ os_used o2').
    { clear -H1. revert o2' os1' H1. induction h as [|b h IH] using rev_ind; intros o2' os1' H1; [by injection H1 as <- <-|].
      apply run_snoc in H1 as (o4 & os4 & os5 & H3 & H4 & _). etrans; [by eapply IH|by eapply step_used]. }
    destruct (step_alive _ _ _ _ _ H2 Hc) as [Hc'|(q & _ & Hq)]; [|set_solver].
    assert (Hk' : keeps_disposition c h). { intros b Hb. apply Hk, in_app_iff. by left. }
    destruct (IH Hk' _ _ H1 Hc') as (x & Ex & Ed). destruct (Hk a) as [Ha1 Ha2]; [apply in_app_iff; right; by left|]. destruct Hc as [x' Ex'].
    exists x'. split; [done|]. clear -H2 Ex Ed Ha1 Ha2 Ex' Hu Hu2.
    destruct a as [q c'|q|q d|q g|q|q|q|g| |q|q]; cbn [step] in H2; try (destruct (os_procs o2' !! q) as [y|] eqn:E; [|done]).
    - destruct (decide _); [done|]. injection H2 as <- <-. cbn [os_procs] in Ex'. rewrite lookup_insert_ne in Ex' by set_solver. congruence.
    - injection H2 as <- <-. cbn [os_procs with_procs] in Ex'. rewrite lookup_insert_ne in Ex' by congruence. congruence.
    - injection H2 as <- <-. cbn [os_procs with_procs] in Ex'. rewrite lookup_insert_ne in Ex' by (intros ->; by apply (Ha1 d)). congruence.
    - injection H2 as <- <-. apply setpgid_lookup in Ex' as [Ex'|(-> & x0 & E0 & _ & ->)]; [congruence|]. cbn. congruence.
    - injection H2 as <- <-. apply setsid_lookup in Ex' as [Ex'|(-> & x0 & E0 & ->)]; [congruence|]. cbn. congruence.
    - injection H2 as <- <-. cbn [os_procs with_procs] in Ex'. apply lookup_delete_Some in Ex' as [_ Ex']. congruence.
    - injection H2 as <- <-. apply term_lookup in Ex' as [Ex' _]. congruence.
    - injection H2 as <- <-. cbn in Ex'. congruence.
    - injection H2 as <- <-. congruence.
    - injection H2 as <- <-. apply setpgid_lookup in Ex' as [Ex'|(-> & x0 & E0 & _ & ->)]; [congruence|]. cbn. congruence.
    - injection H2 as H2. unfold drain_end in H2. rewrite E in H2. injection H2 as <- <-. apply term_lookup in Ex' as [Ex' _]. cbn [os_procs with_procs] in Ex'.
      destruct (decide (c = q)) as [->|Hn]; [rewrite lookup_insert in Ex'; by injection Ex' as <-|]. rewrite lookup_insert_ne in Ex' by done. congruence. }
  destruct Hd2 as (x & Ex & Ed). cbn [step] in Hkill. rewrite Ex in Hkill. injection Hkill as <- <-. exists x. apply term_lookup. split; [done|]. intros [_ ?]. congruence.
Qed.

(** ** Refutations *)
(** An interactive shell (1) starts "python | tee": python (2) leads the group, tee (3) is in it. The end of execute() ends tee. *)
Definition shell : os := Os {[1 := OProc 1 1 Default]} {[1]} 1.
Definition pipeline : list action := [AFork 1 2; ASetpgid 2 2; AFork 1 3; ASetpgid 3 2; AForeground 2; AExec 2; AExec 3].
Lemma shell_sane : sane shell.
Proof. intros p x H. cbn in H. apply lookup_singleton_Some in H as [<- <-]. cbn. set_solver. Qed.
Theorem others_spared_refuted : exists o o1 os1 o2 os2, run shell pipeline = Some (o, []) /\ run o [ABegin 2] = Some (o1, os1) /\ alive o1 3 /\
  step o1 (AEnd 2) = Some (o2, os2) /\ OTerm 3 ∈ os2 /\ ~ alive o2 3.
Proof.
  eexists _, _, _, _, _. split; [vm_compute; reflexivity|]. split; [vm_compute; reflexivity|]. split; [vm_compute; by eexists|]. split; [vm_compute; reflexivity|].
  split; [repeat (first [apply elem_of_list_here|apply elem_of_list_further])|]. intros [x H]. vm_compute in H. discriminate H.
Qed.
(** A helper that the program starts after one call of execute() is ended by the next call. *)
Theorem own_helper_spared_refuted : exists o o1 os1 o2 os2, run shell pipeline = Some (o, []) /\
  run o [ABegin 2; AEnd 2; AFork 2 9; AExec 9; ABegin 2] = Some (o1, os1) /\ alive o1 9 /\ step o1 (AEnd 2) = Some (o2, os2) /\ ~ alive o2 9.
Proof.
  eexists _, _, _, _, _. split; [vm_compute; reflexivity|]. split; [vm_compute; reflexivity|]. split; [vm_compute; by eexists|]. split; [vm_compute; reflexivity|].
  intros [x H]. vm_compute in H. discriminate H.
Qed.
(** "generator | python": python is not the leader. Before the call Ctrl-C reaches it, during the call it does not. *)
Definition second_in_pipeline : list action := [AFork 1 2; ASetpgid 2 2; AFork 1 3; ASetpgid 3 2; AForeground 2; AExec 2; AExec 3].
Theorem ctrl_c_reaches_caller_refuted : exists o o0 os0 o1 os1 o2 os2, run shell second_in_pipeline = Some (o, []) /\
  step o ACtrlC = Some (o0, os0) /\ OInt 3 ∈ os0 /\ run o [ABegin 3] = Some (o1, os1) /\ step o1 ACtrlC = Some (o2, os2) /\ OInt 3 ∉ os2.
Proof.
  eexists _, _, _, _, _, _, _. split; [vm_compute; reflexivity|]. split; [vm_compute; reflexivity|].
  split; [repeat (first [apply elem_of_list_here|apply elem_of_list_further])|]. split; [vm_compute; reflexivity|]. split; [vm_compute; reflexivity|].
  intros H. repeat (apply elem_of_cons in H as [H|H]; [discriminate H|]). by apply elem_of_nil in H.
Qed.
(** Before its first call of execute() the program ends by SIGTERM, afterwards it does not. *)
Theorem sigterm_ends_caller_refuted : exists o o0 os0 o1 os1 o2 os2, run shell pipeline = Some (o, []) /\
  step o (AKill 2) = Some (o0, os0) /\ ~ alive o0 2 /\ run o [ABegin 2; AEnd 2] = Some (o1, os1) /\ step o1 (AKill 2) = Some (o2, os2) /\ alive o2 2.
Proof.
  eexists _, _, _, _, _, _, _. split; [vm_compute; reflexivity|]. split; [vm_compute; reflexivity|].
  split; [intros [x H]; vm_compute in H; discriminate H|]. split; [vm_compute; reflexivity|]. split; [vm_compute; reflexivity|]. vm_compute. by eexists.
Qed.
(** A task that makes a session of its own outlives the call. *)
Theorem daemons_terminated_refuted : exists o o1 os1 o2 os2, run shell pipeline = Some (o, []) /\
  run o [ABegin 2; AFork 2 5; AFork 5 6; ASetsid 6] = Some (o1, os1) /\ descendant 2 [AFork 2 5; AFork 5 6; ASetsid 6] 6 /\
  step o1 (AEnd 2) = Some (o2, os2) /\ OTerm 6 ∉ os2 /\ alive o2 6.
Proof.
  eexists _, _, _, _, _. split; [vm_compute; reflexivity|]. split; [vm_compute; reflexivity|].
  split; [apply (de_on 2 [AFork 2 5; AFork 5 6]), (de_next 2 [AFork 2 5]), (de_child 2 [])|]. split; [vm_compute; reflexivity|].
  split; [|vm_compute; by eexists]. intros H. repeat (apply elem_of_cons in H as [H|H]; [discriminate H|]). by apply elem_of_nil in H.
Qed.

Print Assumptions caller_survives.
Print Assumptions processes_of_tasks_terminated.
Print Assumptions others_spared.
Print Assumptions ctrl_c_reaches_leader.
Print Assumptions no_end_by_sigterm.
Print Assumptions others_spared_refuted.
Print Assumptions own_helper_spared_refuted.
Print Assumptions ctrl_c_reaches_caller_refuted.
Print Assumptions sigterm_ends_caller_refuted.
Print Assumptions daemons_terminated_refuted.

(** ** Example: python (2) alone in its group; a task (5) whose child (6) goes on. *)
Definition alone : list action := [AFork 1 2; ASetpgid 2 2; AForeground 2; AExec 2].
Definition during : list action := [AFork 2 5; AExec 5; AFork 5 6; AExec 6; AExit 5].
Example task_with_child : exists o o1 os1 o2 os2, run shell alone = Some (o, []) /\ sane o /\ run o (ABegin 2 :: during) = Some (o1, os1) /\ keeps_group 2 during /\
  stayed 2 during 6 /\ alive o1 6 /\ disposes o1 6 Default /\ (forall q, in_group o q 2 -> q = 2) /\ nobody_joins 2 during /\ in_group o 2 2 /\ os_foreground o = 2 /\
  step o1 (AEnd 2) = Some (o2, os2) /\ keeps_disposition 2 [ACtrlC] /\ 2 ∈ os_used o2.
Proof.
  assert (E : exists o, run shell alone = Some (o, [])) by (eexists; vm_compute; reflexivity). destruct E as [o E].
  pose proof (sane_run _ _ _ _ shell_sane E) as Hs. vm_compute in E. injection E as <-.
  eexists _, _, _, _, _. split; [vm_compute; reflexivity|]. split; [exact Hs|]. split; [vm_compute; reflexivity|]. split.
  { intros a Ha. cbn in Ha. intros Hr. destruct Ha as [<-|[<-|[<-|[<-|[<-|[]]]]]]; by destruct Hr as [[g [=]]|[[=]|[=]]]. }
  split.
  { assert (Hno : forall a, a = AExec 6 \/ a = AExit 5 -> ~ regroups a 6) by (intros a [-> | ->] [[g [=]]|[[=]|[=]]]).
    apply (sy_on 2 [AFork 2 5; AExec 5; AFork 5 6; AExec 6]); [|apply Hno; by right]. apply (sy_on 2 [AFork 2 5; AExec 5; AFork 5 6]); [|apply Hno; by left].
    apply (sy_next 2 [AFork 2 5; AExec 5]). apply (sy_on 2 [AFork 2 5]); [apply (sy_child 2 [])|]. by intros [[g [=]]|[[=]|[=]]]. }
  split; [vm_compute; by eexists|]. split; [vm_compute; by eexists|]. split.
  { intros q Hq. apply members_spec in Hq. vm_compute in Hq. by destruct Hq as [<-|[]]. }
  split. { intros h1 q h2 Eh. assert (Hin : In (ASetpgid q 2) during) by (rewrite Eh; apply in_app_iff; right; by left). cbn in Hin. intuition discriminate. }
  split; [apply members_spec; vm_compute; by left|]. split; [reflexivity|]. split; [vm_compute; reflexivity|]. split.
  - intros a [<-|[]]. by split.
  - refine (bool_decide_eq_true_1 (2 ∈ _) _). vm_compute. reflexivity.
Qed.
