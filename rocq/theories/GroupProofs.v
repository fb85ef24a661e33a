(** Proofs for process groups. *)
From Verif Require Import GroupSpec.
From stdpp Require Import prelude gmap.
Open Scope list_scope.

Lemma run_snoc o acts a o' os : run o (acts ++ [a]) = Some (o', os) ->
  exists o1 os1 os2, run o acts = Some (o1, os1) /\ step o1 a = Some (o', os2) /\ os = os1 ++ os2.
Proof.
  revert o os. induction acts as [|x acts IH]; intros o os; cbn [run app].
  - destruct (step o a) as [[s1 o1]|] eqn:E; [|done]. intros [= <- <-]. exists o, [], o1. split; [done|]. split; [done|]. by rewrite app_nil_r.
  - destruct (step o x) as [[s1 o1]|]; [|done]. destruct (run s1 (acts ++ [a])) as [[s2 o2]|] eqn:E; [|done]. intros [= <- <-].
    destruct (IH _ _ E) as (s3 & o3 & o4 & H1 & H2 & ->). exists s3, (o1 ++ o3), o4. rewrite H1. split; [done|]. split; [done|]. by rewrite List.app_assoc.
Qed.

Lemma members_spec o g p : In p (members o g) <-> in_group o p g.
Proof.
  unfold members, in_group. rewrite in_map_iff. split.
  - intros ([q x] & <- & H). apply filter_In in H as [H1 H2]. apply elem_of_list_In, elem_of_map_to_list in H1. apply Nat.eqb_eq in H2. by exists x.
  - intros (x & H1 & H2). exists (p, x). split; [done|]. apply filter_In. split; [by apply elem_of_list_In, elem_of_map_to_list|by apply Nat.eqb_eq].
Qed.

Lemma term_lookup o ps p x : os_procs (term o ps) !! p = Some x <-> os_procs o !! p = Some x /\ ~ (In p ps /\ op_term x = Default).
Proof.
  unfold term. cbn [os_procs with_procs]. rewrite map_filter_lookup_Some. unfold dies. cbn [fst snd]. rewrite andb_false_iff.
  assert (E : existsb (Nat.eqb p) ps = true <-> In p ps).
  { rewrite existsb_exists. split; [intros (y & Hy & Hy'); apply Nat.eqb_eq in Hy'; by subst|intros Hy; exists p; split; [done|apply Nat.eqb_refl]]. }
  split; intros [H1 H2]; (split; [done|]).
  - intros [H3 H4]. apply E in H3. rewrite H3, H4 in H2. by destruct H2.
  - destruct (existsb (Nat.eqb p) ps); [right|by left]. destruct (op_term x); [|done|done]. destruct H2. split; [by apply E|done].
Qed.

(** The effect of the calls on the group of a process. *)
Lemma setpgid_lookup o p g q x' : os_procs (setpgid o p g) !! q = Some x' ->
  os_procs o !! q = Some x' \/ q = p /\ exists x, os_procs o !! p = Some x /\ op_session x <> p /\ x' = set_group x g.
Proof.
  unfold setpgid. destruct (os_procs o !! p) as [x|] eqn:E; [|by left]. destruct (Nat.eqb_spec (op_session x) p); [by left|].
  assert (Hc : forall h, os_procs (with_procs o (<[p := set_group x h]> (os_procs o))) !! q = Some x' ->
    os_procs o !! q = Some x' \/ q = p /\ exists x0, Some x = Some x0 /\ op_session x0 <> p /\ x' = set_group x0 h).
  { intros h. cbn [with_procs os_procs]. destruct (decide (q = p)) as [->|Hn]; [|rewrite lookup_insert_ne by done; by left].
    rewrite lookup_insert. intros [= <-]. right. split; [done|]. by exists x. }
  destruct (Nat.eqb_spec g p) as [->|]; [apply Hc|]. destruct (existsb _ _); [apply Hc|by left].
Qed.
Lemma setsid_lookup o p q x' : os_procs (setsid o p) !! q = Some x' ->
  os_procs o !! q = Some x' \/ q = p /\ exists x, os_procs o !! p = Some x /\ x' = OProc p p (op_term x).
Proof.
  unfold setsid. destruct (os_procs o !! p) as [x|] eqn:E; [|by left]. destruct (members o p); [|by left]. cbn [with_procs os_procs].
  destruct (decide (q = p)) as [->|Hn]; [|rewrite lookup_insert_ne by done; by left]. rewrite lookup_insert. intros [= <-]. right. split; [done|]. by exists x.
Qed.
Lemma drain_lookup o p o' os q x' : drain_end o p = (o', os) -> os_procs o' !! q = Some x' ->
  exists x, os_procs o !! q = Some x /\ op_group x' = op_group x /\ op_session x' = op_session x.
Proof.
  unfold drain_end. destruct (os_procs o !! p) as [x|] eqn:E; [|intros [= <- <-]; eauto]. intros [= <- <-]. rewrite term_lookup. intros [H _]. cbn [with_procs os_procs] in H.
  destruct (decide (q = p)) as [->|Hn]; [|rewrite lookup_insert_ne in H by done; eauto]. rewrite lookup_insert in H. injection H as <-. by exists x.
Qed.

Lemma step_group o a o' os p g : step o a = Some (o', os) -> in_group o' p g ->
  in_group o p g \/ (exists q, a = AFork q p /\ in_group o q g) \/ a = ASetpgid p g \/ (a = ASetsid p \/ a = ABegin p) /\ p = g.
Proof.
  intros H (x' & H1 & H2). destruct a as [q c|q|q d|q h|q|q|q|h| |q|q]; cbn [step] in H.
  - destruct (os_procs o !! q) as [x|] eqn:E; [|done]. destruct (decide _); [done|]. injection H as <- <-. cbn [os_procs] in H1.
    destruct (decide (p = c)) as [->|Hn]; [|rewrite lookup_insert_ne in H1 by done; left; by exists x']. rewrite lookup_insert in H1. injection H1 as <-.
    right. left. exists q. split; [done|]. by exists x.
  - destruct (os_procs o !! q) as [x|] eqn:E; [|done]. injection H as <- <-. cbn [os_procs with_procs] in H1. left.
    destruct (decide (p = q)) as [->|Hn]; [|rewrite lookup_insert_ne in H1 by done; by exists x']. rewrite lookup_insert in H1. injection H1 as <-. by exists x.
  - destruct (os_procs o !! q) as [x|] eqn:E; [|done]. injection H as <- <-. cbn [os_procs with_procs] in H1. left.
    destruct (decide (p = q)) as [->|Hn]; [|rewrite lookup_insert_ne in H1 by done; by exists x']. rewrite lookup_insert in H1. injection H1 as <-. by exists x.
  - destruct (os_procs o !! q) as [x|] eqn:E; [|done]. injection H as <- <-. apply setpgid_lookup in H1 as [H1|(-> & x0 & _ & _ & ->)]; [left; by exists x'|].
    cbn in H2. subst h. by right; right; left.
  - destruct (os_procs o !! q) as [x|] eqn:E; [|done]. injection H as <- <-. apply setsid_lookup in H1 as [H1|(-> & x0 & _ & ->)]; [left; by exists x'|].
    right. right. right. cbn in H2. by split; [left|].
  - destruct (os_procs o !! q) as [x|] eqn:E; [|done]. injection H as <- <-. cbn [os_procs with_procs] in H1. apply lookup_delete_Some in H1 as [_ H1]. left. by exists x'.
  - destruct (os_procs o !! q) as [x|] eqn:E; [|done]. injection H as <- <-. apply term_lookup in H1 as [H1 _]. left. by exists x'.
  - injection H as <- <-. left. by exists x'.
  - injection H as <- <-. left. by exists x'.
  - destruct (os_procs o !! q) as [x|] eqn:E; [|done]. injection H as <- <-. apply setpgid_lookup in H1 as [H1|(-> & x0 & _ & _ & ->)]; [left; by exists x'|].
    right. right. right. cbn in H2. by split; [right|].
  - destruct (os_procs o !! q) as [x|] eqn:E; [|done]. injection H as H. destruct (drain_lookup _ _ _ _ _ _ H H1) as (x0 & E1 & E2 & _). left. exists x0. split; [done|congruence].
Qed.

(** A process that is new has been forked. *)
Lemma step_alive o a o' os p : step o a = Some (o', os) -> alive o' p -> alive o p \/ exists q, a = AFork q p /\ p ∉ os_used o.
Proof.
  intros H [x' H1]. destruct (step_group o a o' os p (op_group x') H) as [(x & E & _)|[(q & -> & Hq)|[->|[[-> | ->] _]]]]; [by exists x'|left; by exists x| | |..].
  - right. exists q. split; [done|]. cbn [step] in H. destruct (os_procs o !! q); [|done]. by destruct (decide (p ∈ os_used o)).
  - left. cbn [step] in H. by destruct (os_procs o !! p) eqn:E; [exists o0|].
  - left. cbn [step] in H. by destruct (os_procs o !! p) eqn:E; [exists o0|].
  - left. cbn [step] in H. by destruct (os_procs o !! p) eqn:E; [exists o0|].
Qed.

Lemma sane_step o a o' os : sane o -> step o a = Some (o', os) -> sane o'.
Proof.
  intros Hs H. destruct a as [q c|q|q d|q h|q|q|q|h| |q|q]; cbn [step] in H; intros p x' H1.
  - destruct (os_procs o !! q) as [x|] eqn:E; [|done]. destruct (decide _) as [|Hu]; [done|]. injection H as <- <-. cbn [os_procs os_used] in *.
    destruct (decide (p = c)) as [->|Hn].
    + rewrite lookup_insert in H1. injection H1 as <-. destruct (Hs _ _ E) as (_ & S2 & S3 & S4). split; [intros <-; done|]. set_solver.
    + rewrite lookup_insert_ne in H1 by done. destruct (Hs _ _ H1) as (S1 & S2 & S3 & S4). split; [done|]. set_solver.
  - destruct (os_procs o !! q) as [x|] eqn:E; [|done]. injection H as <- <-. cbn [os_procs os_used with_procs] in *.
    destruct (decide (p = q)) as [->|Hn]; [|rewrite lookup_insert_ne in H1 by done; by apply Hs]. rewrite lookup_insert in H1. injection H1 as <-. exact (Hs _ _ E).
  - destruct (os_procs o !! q) as [x|] eqn:E; [|done]. injection H as <- <-. cbn [os_procs os_used with_procs] in *.
    destruct (decide (p = q)) as [->|Hn]; [|rewrite lookup_insert_ne in H1 by done; by apply Hs]. rewrite lookup_insert in H1. injection H1 as <-. exact (Hs _ _ E).
  - destruct (os_procs o !! q) as [x|] eqn:E; [|done]. injection H as <- <-.
    assert (Hu : os_used (setpgid o q h) = os_used o). { unfold setpgid. rewrite E. by repeat case_match. }
    rewrite Hu. destruct (Hs _ _ E) as (S1 & S2 & S3 & S4).
    revert H1. unfold setpgid. rewrite E. destruct (Nat.eqb_spec (op_session x) q) as [|Hnl]; [by apply Hs|].
    destruct (Nat.eqb_spec h q) as [->|]; cbn [with_procs os_procs].
    + destruct (decide (p = q)) as [->|Hn]; [|rewrite lookup_insert_ne by done; by apply Hs]. rewrite lookup_insert. intros [= <-]. done.
    + destruct (existsb _ _) eqn:Ee; [|by apply Hs]. cbn [with_procs os_procs]. destruct (decide (p = q)) as [->|Hn]; [|rewrite lookup_insert_ne by done; by apply Hs].
      rewrite lookup_insert. intros [= <-]. cbn. split; [done|]. split; [done|]. split; [|done].
      apply existsb_exists in Ee as ([q' y] & Ey & Eg). apply elem_of_list_In, elem_of_map_to_list in Ey. apply andb_prop in Eg as [Eg _]. apply Nat.eqb_eq in Eg. cbn in Eg. subst h.
      by destruct (Hs _ _ Ey) as (_ & _ & ? & _).
  - destruct (os_procs o !! q) as [x|] eqn:E; [|done]. injection H as <- <-.
    assert (Hu : os_used (setsid o q) = os_used o). { unfold setsid. rewrite E. by repeat case_match. }
    rewrite Hu. destruct (Hs _ _ E) as (S1 & S2 & S3 & S4). apply setsid_lookup in H1 as [H1|(-> & x0 & E0 & ->)]; [by apply Hs|]. by cbn.
  - destruct (os_procs o !! q) as [x|] eqn:E; [|done]. injection H as <- <-. cbn [os_procs os_used with_procs] in *. apply lookup_delete_Some in H1 as [_ H1]. by apply Hs.
  - destruct (os_procs o !! q) as [x|] eqn:E; [|done]. injection H as <- <-. apply term_lookup in H1 as [H1 _]. by apply Hs.
  - injection H as <- <-. by apply Hs.
  - injection H as <- <-. by apply Hs.
  - destruct (os_procs o !! q) as [x|] eqn:E; [|done]. injection H as <- <-.
    assert (Hu : os_used (setpgid o q q) = os_used o). { unfold setpgid. rewrite E. by repeat case_match. }
    rewrite Hu. destruct (Hs _ _ E) as (S1 & S2 & S3 & S4). apply setpgid_lookup in H1 as [H1|(-> & x0 & E0 & E1 & ->)]; [by apply Hs|]. rewrite E in E0. by injection E0 as <-.
  - destruct (os_procs o !! q) as [x|] eqn:E; [|done]. injection H as H. destruct (drain_lookup _ _ _ _ _ _ H H1) as (x0 & E1 & E2 & E3).
    assert (Hu : os_used o' = os_used o). { unfold drain_end in H. rewrite E in H. by injection H as <- <-. }
    rewrite Hu, E2, E3. by apply Hs.
Qed.
Lemma sane_run o acts o' os : sane o -> run o acts = Some (o', os) -> sane o'.
Proof.
  intros Hs. revert o' os. induction acts as [|a acts IH] using rev_ind; intros o' os H; [by injection H as <- <-|].
  apply run_snoc in H as (o1 & os1 & os2 & H1 & H2 & _). apply IH in H1. by eapply sane_step.
Qed.

(** execute() makes its caller the leader of its group. *)
Lemma begin_leads o p o' os : sane o -> step o (ABegin p) = Some (o', os) -> in_group o' p p.
Proof.
  intros Hs. cbn [step]. destruct (os_procs o !! p) as [x|] eqn:E; [|done]. intros [= <- <-]. unfold setpgid, in_group. rewrite E.
  destruct (Nat.eqb_spec (op_session x) p) as [Hl|].
  - exists x. split; [done|]. by destruct (Hs _ _ E) as [? _]; auto.
  - rewrite Nat.eqb_refl. cbn [with_procs os_procs]. rewrite lookup_insert. by eexists.
Qed.

Lemma end_signals o p o' os q : step o (AEnd p) = Some (o', os) -> OTerm q ∈ os <-> exists g, in_group o p g /\ in_group o q g.
Proof.
  cbn [step]. destruct (os_procs o !! p) as [x|] eqn:E; [|done]. intros [= H]. unfold drain_end in H. rewrite E in H. injection H as <- <-.
  rewrite elem_of_list_fmap. setoid_rewrite elem_of_list_In. setoid_rewrite members_spec. cbn [set_term].
  assert (Hi : forall g, in_group (with_procs o (<[p := set_term x Handled]> (os_procs o))) q g <-> in_group o q g).
  { intros g. unfold in_group. cbn [with_procs os_procs]. destruct (decide (q = p)) as [->|Hn]; [|by rewrite lookup_insert_ne by done].
    rewrite lookup_insert, E. split; intros (y & [= <-] & Hy); [by exists x|by eexists]. }
  split.
  - intros (y & [= <-] & Hy). exists (op_group x). split; [by exists x|by apply Hi].
  - intros (g & (x0 & E0 & <-) & Hq). rewrite E in E0. injection E0 as <-. exists q. split; [done|by apply Hi].
Qed.

Lemma in_group_unique o p g g' : in_group o p g -> in_group o p g' -> g = g'.
Proof. intros (x & E & <-) (x' & E' & <-). rewrite E in E'. by injection E' as <-. Qed.
Lemma step_used o a o' os : step o a = Some (o', os) -> os_used o ⊆ os_used o'.
Proof.
  intros H. destruct a as [q c|q|q d|q h|q|q|q|h| |q|q]; cbn [step] in H; try (destruct (os_procs o !! q) as [x|] eqn:E; [|done]).
  1: { destruct (decide _); [done|]. injection H as <- <-. cbn. set_solver. }
  10: { injection H as H. unfold drain_end in H. rewrite E in H. by injection H as <- <-. }
  all: injection H as <- <-; unfold setpgid, setsid, term; try rewrite E; repeat case_match; done.
Qed.

(** The caller stays the leader unless it changes its group. *)
Lemma leader_stays o c h o' os : in_group o c c -> c ∈ os_used o -> keeps_group c h -> run o h = Some (o', os) -> (alive o' c -> in_group o' c c) /\ c ∈ os_used o'.
Proof.
  intros Hg Hu Hk. revert o' os. induction h as [|a h IH] using rev_ind; intros o' os H; [by injection H as <- <-|].
  apply run_snoc in H as (o1 & os1 & os2 & H1 & H2 & _). destruct (IH ltac:(intros x Hx; apply Hk, in_app_iff; by left) _ _ H1) as [I1 I2].
  split; [|by apply (step_used _ _ _ _ H2)]. intros Ha. destruct (step_alive _ _ _ _ _ H2 Ha) as [Ha1|(q & _ & Hq)]; [|done]. specialize (I1 Ha1).
  destruct Ha as [x' Hx]. destruct (step_group _ _ _ _ c (op_group x') H2) as [I|[(q & -> & Hq)|[->|[[-> | ->] E]]]]; [by exists x'|..].
  - exists x'. split; [done|]. exact (in_group_unique _ _ _ _ I I1).
  - cbn [step] in H2. destruct (os_procs o1 !! q); [|done]. by destruct (decide (c ∈ os_used o1)).
  - assert (E : ASetpgid c (op_group x') = ABegin c); [|done]. apply Hk; [apply in_app_iff; right; by left|]. left. by eexists.
  - exists x'. by split.
  - exists x'. by split.
Qed.
Lemma keeps_app c h a : keeps_group c (h ++ [a]) -> keeps_group c h.
Proof. intros H x Hx. apply H. apply in_app_iff. by left. Qed.

Lemma stayed_group o c h o' os p : in_group o c c -> c ∈ os_used o -> keeps_group c h -> run o h = Some (o', os) -> stayed c h p ->
  p ∈ os_used o' /\ (alive o' p -> in_group o' p c).
Proof.
  intros Hg Hu Hk H Hs. revert o' os H Hk. induction Hs as [h p|h q p Hs IH|h a p Hs IH Hr]; intros o' os H Hk.
  - apply run_snoc in H as (o1 & os1 & os2 & H1 & H2 & _). destruct (leader_stays _ _ _ _ _ Hg Hu (keeps_app _ _ _ Hk) H1) as [I1 I2].
    cbn [step] in H2. destruct (os_procs o1 !! c) as [x|] eqn:E; [|done]. destruct (decide _); [done|]. injection H2 as <- <-. split; [cbn; set_solver|].
    intros _. destruct (I1 ltac:(by exists x)) as (x0 & E0 & E1). rewrite E in E0. injection E0 as <-. exists x. cbn [os_procs]. by rewrite lookup_insert.
  - apply run_snoc in H as (o1 & os1 & os2 & H1 & H2 & _). destruct (IH _ _ H1 (keeps_app _ _ _ Hk)) as [I1 I2].
    cbn [step] in H2. destruct (os_procs o1 !! q) as [x|] eqn:E; [|done]. destruct (decide _); [done|]. injection H2 as <- <-. split; [cbn; set_solver|].
    intros _. destruct (I2 ltac:(by exists x)) as (x0 & E0 & E1). rewrite E in E0. injection E0 as <-. exists x. cbn [os_procs]. by rewrite lookup_insert.
  - apply run_snoc in H as (o1 & os1 & os2 & H1 & H2 & _). destruct (IH _ _ H1 (keeps_app _ _ _ Hk)) as [I1 I2].
    split; [by apply (step_used _ _ _ _ H2)|]. intros Ha. destruct (step_alive _ _ _ _ _ H2 Ha) as [Ha1|(q & _ & Hq)]; [|done]. specialize (I2 Ha1).
    destruct Ha as [x' Hx]. destruct (step_group _ _ _ _ p (op_group x') H2) as [I|[(q & -> & Hq)|[->|[[-> | ->] E]]]]; [by exists x'|..].
    + exists x'. split; [done|]. exact (in_group_unique _ _ _ _ I I2).
    + cbn [step] in H2. destruct (os_procs o1 !! q); [|done]. by destruct (decide (p ∈ os_used o1)).
    + destruct Hr. left. by eexists.
    + destruct Hr. by right; left.
    + destruct Hr. by right; right.
Qed.

Lemma group_descends o c h o' os p : (forall q, in_group o q c -> q = c) ->
  (forall h1 q h2, h = h1 ++ ASetpgid q c :: h2 -> q = c \/ descendant c h1 q) ->
  run o h = Some (o', os) -> in_group o' p c -> p = c \/ descendant c h p.
Proof.
  intros Ha. revert o' os p. induction h as [|a h IH] using rev_ind; intros o' os p Hj H Hp; [injection H as <- <-; left; by apply Ha|].
  apply run_snoc in H as (o1 & os1 & os2 & H1 & H2 & _).
  assert (Hj' : forall h1 q h2, h = h1 ++ ASetpgid q c :: h2 -> q = c \/ descendant c h1 q).
  { intros h1 q h2 ->. apply (Hj h1 q (h2 ++ [a])). by rewrite <- List.app_assoc. }
  destruct (step_group _ _ _ _ _ _ H2 Hp) as [I|[(q & -> & Hq)|[->|[[-> | ->] E]]]].
  - destruct (IH _ _ _ Hj' H1 I) as [->|Hd]; [by left|right; by apply de_on].
  - right. destruct (IH _ _ _ Hj' H1 Hq) as [->|Hd]; [apply de_child|by apply de_next].
  - destruct (Hj h p [] eq_refl) as [->|Hd]; [by left|right; by apply de_on].
  - by left.
  - by left.
Qed.
