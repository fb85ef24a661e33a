(** C60: the admin sockets. Vocabulary: AdminSpec.v. *)
From Verif Require Import AdminProofs.
Open Scope list_scope.

Section props.
Variable other_digit : N -> bool.
Notation run := (admin_run other_digit).

(** C60. The cleaning up recognizes the sockets of all processes: visiting the name that a process uses checks that process. *)
Theorem socket_names_recognized w c pid ph p : (p < 18446744073709551616)%N -> wo_calls w !! c = Some (Call pid ph Cleaning) ->
  exists w', admin_step other_digit w (Visit c (sock_name p) (Some true)) = Some (w', [Checked c (sock_name p) p (wo_alive w p)]) /\
  (wo_alive w p = false -> exists w'' os, admin_step other_digit w' (Remove c) = Some (w'', os) /\ wo_dir w'' (sock_name p) = None) /\
  (wo_alive w p = true -> w' = w).
Proof.
  intros Hp Hc. cbn [admin_step]. rewrite Hc, captures_sock_name.
  assert (parse_usize (text (decimal p)) = Some p) as ->.
  { unfold parse_usize. pose proof (decimal_nonempty p). destruct (text (decimal p)) eqn:E; [done|]. rewrite <- E, value_text, decimal_value. apply N.ltb_lt in Hp. by rewrite Hp. }
  eexists. split; [done|]. split; [|by intros ->]. intros ->. unfold set_call. cbn [admin_step wo_calls]. rewrite list_lookup_insert by (by eapply lookup_lt_Some). cbn [wo_dir].
  destruct (wo_dir w (sock_name p)) eqn:E; eexists _, _; (split; [done|]); cbn [wo_dir set_call]; [|done]. unfold set_dir. by rewrite bool_decide_true.
Qed.

Lemma alive_app alive t t' p : alive_after alive (t ++ t') p = alive_after (alive_after alive t) t' p.
Proof. unfold alive_after. by rewrite fold_left_app. Qed.
Lemma call_map k pid : (if N.eqb (ca_pid k) pid then Call pid Over NotCleaning else k) = Call (ca_pid k) Over NotCleaning \/ (if N.eqb (ca_pid k) pid then Call pid Over NotCleaning else k) = k /\ ca_pid k <> pid.
Proof. destruct (N.eqb (ca_pid k) pid) eqn:E; [apply N.eqb_eq in E as <-; by left|]. apply N.eqb_neq in E. by right. Qed.

(** Who runs is told by the trace. *)
Lemma alive_run alive names acts w t p : run (admin_start alive names) acts = Some (w, t) -> wo_alive w p = alive_after alive t p.
Proof.
  revert w t. induction acts as [|a acts IH] using rev_ind; intros w t H; [by injection H as <- <-|].
  apply admin_run_snoc in H as (w1 & t1 & os & H1 & H2 & ->). rewrite alive_app. unfold alive_after at 1. rewrite <- (IH _ _ H1). clear IH H1.
  destruct a as [pid|pid|pid|c|c|c name kind|c|c|c|c]; cbn [admin_step] in H2;
    repeat match type of H2 with
    | (if ?b then _ else _) = _ => destruct b eqn:?; try done
    | match ?b with _ => _ end = _ => destruct b eqn:?; try done
    end; injection H2 as <- <-; cbn [fold_left wo_alive set_call]; rewrite ?(N.eqb_sym pid p); try done; by destruct (wo_alive w1 _).
Qed.

(** What call [c] is about to remove, according to the trace. *)
Definition justified (alive : N -> bool) (t : list adminobs) (c : nat) (name : list N) : Prop :=
  exists ta tb p, t = ta ++ Checked c name p false :: tb /\ no_news c tb /\ names_process name p /\ alive_after alive ta p = false.
Lemma removing_run alive names acts w t : run (admin_start alive names) acts = Some (w, t) ->
  (forall c k name, wo_calls w !! c = Some k -> ca_cleaner k = Removing name -> justified alive t c name) /\
  (forall t1 c name t2, t = t1 ++ Removed c name :: t2 -> justified alive t1 c name).
Proof.
  revert w t. induction acts as [|a acts IH] using rev_ind; intros w t H; [injection H as <- <-; split; [done|]; intros t1 c name t2 E; by destruct t1|].
  apply admin_run_snoc in H as (w1 & t1 & os & H1 & H2 & ->). pose proof (fun p => alive_run _ _ _ _ _ p H1) as Hal. destruct (IH _ _ H1) as [Hr Ht]. clear IH H1.
  assert (Hj : forall c name os', justified alive t1 c name -> no_news c os' -> justified alive (t1 ++ os') c name).
  { intros c name os' (ta & tb & p & -> & Hn & Hm & Ha) Hos. exists ta, (tb ++ os'), p. split; [by rewrite <- List.app_assoc|]. split; [|done].
    intros o [Ho|Ho]%in_app_or; [by apply Hn|by apply Hos]. }
  assert (Hsame : forall os', os = os' -> (forall c, no_news c os') -> (forall c k name, wo_calls w !! c = Some k -> ca_cleaner k = Removing name -> exists k', wo_calls w1 !! c = Some k' /\ ca_cleaner k' = Removing name) ->
    (forall c k name, wo_calls w !! c = Some k -> ca_cleaner k = Removing name -> justified alive (t1 ++ os) c name) /\ (forall t0 c name t2, t1 ++ os = t0 ++ Removed c name :: t2 -> justified alive t0 c name)).
  { intros os' -> Hn Hk. split.
    - intros c k name Hc Hcl. apply Hj; [|apply Hn]. destruct (Hk _ _ _ Hc Hcl) as (k' & Hc' & Hcl'). by eapply Hr.
    - intros t0 c name t2 E. assert (In (Removed c name) t1 \/ In (Removed c name) os') as Hin by (apply in_app_or; rewrite E; apply in_or_app; right; by left).
      assert (exists t2', t1 = t0 ++ Removed c name :: t2') as [t2' Et]; [|by eapply Ht].
      clear - E Hn. revert t1 E. induction t0 as [|o t0 IH]; intros t1 E.
      + destruct t1 as [|o t1]; [|injection E as -> _; by exists t1]. cbn [app] in E. exfalso. destruct (Hn c (Removed c name)) as [Hx _]; [rewrite E; by left|]. by destruct (Hx name).
      + destruct t1 as [|o' t1]; [|injection E as -> E; destruct (IH _ E) as [t2' ->]; by exists t2']. cbn [app] in E. exfalso.
        destruct (Hn c (Removed c name)) as [Hx _]; [rewrite E; right; apply in_or_app; right; by left|]. by destruct (Hx name). }
  assert (Hins : forall c k, (forall name, ca_cleaner k = Removing name -> exists k', wo_calls w1 !! c = Some k' /\ ca_cleaner k' = Removing name) ->
    forall c' k' name, <[c := k]> (wo_calls w1) !! c' = Some k' -> ca_cleaner k' = Removing name -> exists k'', wo_calls w1 !! c' = Some k'' /\ ca_cleaner k'' = Removing name).
  { intros c k Hk c' k' name Hc Hcl. apply list_lookup_insert_Some in Hc as [(<- & <- & _)|[_ Hc]]; [by apply Hk|by exists k']. }
  destruct a as [pid|pid|pid|c|c|c name kind|c|c|c|c]; cbn [admin_step] in H2.
  - destruct (wo_alive w1 pid); [done|]. injection H2 as <- <-. eapply Hsame; [done|intros ? ? [<-|[]]; done|]. intros c k name Hc Hcl. by exists k.
  - destruct (wo_alive w1 pid); [|done]. injection H2 as <- <-. eapply Hsame; [done|intros ? ? [<-|[]]; done|]. intros c k name Hc Hcl. cbn [wo_calls] in Hc.
    rewrite list_lookup_fmap in Hc. destruct (wo_calls w1 !! c) as [k'|] eqn:E; [|done]. injection Hc as <-. exists k'. split; [done|]. by destruct (N.eqb (ca_pid k') pid).
  - destruct (wo_alive w1 pid); [|done]. injection H2 as <- <-. eapply Hsame; [done|done|]. intros c k name Hc Hcl. cbn [wo_calls] in Hc.
    apply lookup_app_Some in Hc as [Hc|[_ Hc]]; [by exists k|]. destruct (c - length (wo_calls w1)); [injection Hc as <-; done|done].
  - destruct (wo_calls w1 !! c) as [[pid [] k]|] eqn:E; try done. injection H2 as <- <-. eapply Hsame; [done|done|]. cbn [wo_calls]. apply Hins. intros name Hn. by eexists.
  - destruct (wo_calls w1 !! c) as [[pid [] k]|] eqn:E; try done. destruct (wo_dir w1 _); injection H2 as <- <-; (eapply Hsame; [done|intros ? ? [<-|[]]; done|]); cbn [wo_calls set_call]; by apply Hins.
  - destruct (wo_calls w1 !! c) as [[pid ph []]|] eqn:E; try done. destruct kind as [[]|].
    + destruct (captures other_digit name) as [d|] eqn:Ed; [|injection H2 as <- <-; eapply Hsame; [done|done|]; intros c' k' n Hc Hcl; by exists k'].
      destruct (parse_usize d) as [p|] eqn:Ep; [|injection H2 as <- <-; eapply Hsame; [done|intros ? ? [<-|[]]; done|]; cbn [wo_calls set_call]; by apply Hins].
      injection H2 as <- <-. assert (Hm : names_process name p) by (by eapply captures_mentions). split.
      * intros c' k' n Hc Hcl. destruct (decide (c' = c)) as [->|Hne].
        -- destruct (wo_alive w1 p) eqn:Ea; [rewrite E in Hc; by injection Hc as <-|]. cbn [wo_calls set_call] in Hc. rewrite list_lookup_insert in Hc by (by eapply lookup_lt_Some). injection Hc as <-. injection Hcl as <-.
           exists t1, [], p. split; [done|]. split; [done|]. split; [done|]. by rewrite <- Hal.
        -- apply Hj; [|intros o [<-|[]]; split; [done|]; intros n' p' b [= Hx]; congruence]. eapply Hr; [|done]. destruct (wo_alive w1 p); [done|]. cbn [wo_calls set_call] in Hc. by rewrite list_lookup_insert_ne in Hc.
      * intros t0 c' n t2 E'. destruct (list_snoc_cases t2) as [->|(t2' & o & ->)].
        -- apply app_inj_tail in E' as [_ E']. done.
        -- rewrite app_comm_cons, List.app_assoc in E'. apply app_inj_tail in E' as [-> _]. by eapply Ht.
    + injection H2 as <- <-. eapply Hsame; [done|done|]. intros c' k' n Hc Hcl. by exists k'.
    + injection H2 as <- <-. eapply Hsame; [done|intros ? ? [<-|[]]; done|]; cbn [wo_calls set_call]; by apply Hins.
  - destruct (wo_calls w1 !! c) as [[pid ph [| |name]]|] eqn:E; try done. destruct (wo_dir w1 name) as [ow|].
    + injection H2 as <- <-. split.
      * intros c' k' n Hc Hcl. cbn [wo_calls] in Hc. apply list_lookup_insert_Some in Hc as [(<- & <- & _)|[Hne Hc]]; [done|]. apply Hj; [by eapply Hr|].
        intros o [<-|[]]. split; [|done]. intros n' [= Hx]. congruence.
      * intros t0 c' n t2 E'. destruct (list_snoc_cases t2) as [->|(t2' & o & ->)].
        -- apply app_inj_tail in E' as [<- [= <- <-]]. by eapply Hr.
        -- rewrite app_comm_cons, List.app_assoc in E'. apply app_inj_tail in E' as [-> _]. by eapply Ht.
    + injection H2 as <- <-. eapply Hsame; [done|intros ? ? [<-|[]]; done|]; cbn [wo_calls set_call]; by apply Hins.
  - destruct (wo_calls w1 !! c) as [[pid ph []]|] eqn:E; try done. injection H2 as <- <-. eapply Hsame; [done|done|]. cbn [wo_calls set_call]. by apply Hins.
  - destruct (wo_calls w1 !! c) as [[pid [] k]|] eqn:E; try done. destruct (wo_dir w1 _); injection H2 as <- <-; (eapply Hsame; [done|try done; intros ? ? [<-|[]]; done|]); cbn [wo_calls set_call]; apply Hins; intros name Hn; by eexists.
  - destruct (wo_calls w1 !! c) as [[pid ph k]|] eqn:E; [|done]. injection H2 as <- <-. eapply Hsame; [done|intros ? ? [<-|[]]; done|]. cbn [wo_calls set_call]. by apply Hins.
Qed.

(** C60. The cleaning up removes a name only if it contains the number of a process that did not run when it was looked
    for, just before. *)
Theorem only_stale_sockets_removed alive names acts w t t1 c name t2 :
  run (admin_start alive names) acts = Some (w, t) -> t = t1 ++ Removed c name :: t2 ->
  exists ta tb p, t1 = ta ++ Checked c name p false :: tb /\ no_news c tb /\ names_process name p /\ alive_after alive ta p = false.
Proof. intros Hr Ht. destruct (removing_run _ _ _ _ _ Hr) as [_ H]. by eapply H. Qed.

(** ** The sockets of running calls *)
Record owned (w : AdminModel.world) : Prop := {
  o_alive c k : wo_calls w !! c = Some k -> ca_phase k <> Over -> wo_alive w (ca_pid k) = true;
  o_one c1 k1 c2 k2 : wo_calls w !! c1 = Some k1 -> wo_calls w !! c2 = Some k2 -> ca_phase k1 <> Over -> ca_phase k2 <> Over -> ca_pid k1 = ca_pid k2 -> c1 = c2;
  o_dir c k : wo_calls w !! c = Some k -> ca_phase k = Serving -> wo_dir w (sock_name (ca_pid k)) = Some (Some c);
  o_none c k : wo_calls w !! c = Some k -> ca_phase k = Unlinked -> wo_dir w (sock_name (ca_pid k)) = None;
  o_rem c k p : wo_calls w !! c = Some k -> ca_cleaner k = Removing (sock_name p) -> wo_alive w p = false }.

(** Changing one call to something with no more claims keeps the claims. *)
Lemma owned_run alive names acts w t : run (admin_start alive names) acts = Some (w, t) -> calm other_digit alive names acts -> owned w /\ forall c, ~ In (Panics c) t.
Proof.
  revert w t. induction acts as [|a acts IH] using rev_ind; intros w t H Hcalm.
  - injection H as <- <-. split; [by constructor|]. by intros c Hin.
  - apply admin_run_snoc in H as (w1 & t1 & os & H1 & H2 & ->).
    assert (Hc1 : calm other_digit alive names acts).
    { intros a1 b a2 w' t' E. apply (Hcalm a1 b (a2 ++ [a])). by rewrite E, <- List.app_assoc. }
    specialize (Hcalm acts a [] w1 t1 eq_refl H1). destruct (IH _ _ H1 Hc1) as [[Ha Ho Hd Hn Hr] Hp]. clear IH H1 Hc1.
    assert (Hlt : forall c k, wo_calls w1 !! c = Some k -> c < length (wo_calls w1)) by (intros c k Hx; by eapply lookup_lt_Some).
    destruct a as [pid|pid|pid|c|c|c name kind|c|c|c|c]; cbn [admin_step] in H2.
    + destruct (wo_alive w1 pid) eqn:Ea; [done|]. injection H2 as <- <-. split; [|intros c [Hin|[Hin|[]]]%in_app_or; [by eapply Hp|done]].
      constructor; cbn [wo_calls wo_alive wo_dir]; try done.
      * intros c k Hc Hph. destruct (N.eqb (ca_pid k) pid); [done|]. by eapply Ha.
      * intros c k p Hc Hcl. destruct (N.eqb p pid) eqn:E; [|by eapply Hr]. apply N.eqb_eq in E as ->. by destruct (Hcalm _ _ Hc).
    + destruct (wo_alive w1 pid) eqn:Ea; [|done]. injection H2 as <- <-. split; [|intros c [Hin|[Hin|[]]]%in_app_or; [by eapply Hp|done]].
      assert (Hm : forall c k, map (fun k => if N.eqb (ca_pid k) pid then Call pid Over NotCleaning else k) (wo_calls w1) !! c = Some k ->
        (ca_phase k = Over /\ ca_cleaner k = NotCleaning) \/ (wo_calls w1 !! c = Some k /\ ca_pid k <> pid)).
      { intros c k Hc. rewrite list_lookup_fmap in Hc. destruct (wo_calls w1 !! c) as [k'|] eqn:E; [|done]. injection Hc as <-.
        destruct (N.eqb (ca_pid k') pid) eqn:E'; [by left|]. apply N.eqb_neq in E'. by right. }
      constructor; cbn [wo_calls wo_alive wo_dir].
      * intros c k Hc Hph. apply Hm in Hc as [[? _]|[Hc Hne]]; [done|]. apply N.eqb_neq in Hne. rewrite Hne. by eapply Ha.
      * intros c1 k1 c2 k2 H1 H2 Hp1 Hp2. apply Hm in H1 as [[? _]|[H1 _]]; [done|]. apply Hm in H2 as [[? _]|[H2 _]]; [done|]. by eapply Ho.
      * intros c k Hc Hph. apply Hm in Hc as [[Hx _]|[Hc _]]; [by rewrite Hx in Hph|]. by eapply Hd.
      * intros c k Hc Hph. apply Hm in Hc as [[Hx _]|[Hc _]]; [by rewrite Hx in Hph|]. by eapply Hn.
      * intros c k p Hc Hcl. apply Hm in Hc as [[_ Hx]|[Hc _]]; [by rewrite Hx in Hcl|]. destruct (N.eqb p pid); [done|]. by eapply Hr.
    + destruct (wo_alive w1 pid) eqn:Ea; [|done]. injection H2 as <- <-. split; [|intros c Hin; rewrite app_nil_r in Hin; by eapply Hp].
      assert (Hm : forall c k, (wo_calls w1 ++ [Call pid Starting NotCleaning]) !! c = Some k -> wo_calls w1 !! c = Some k \/ c = length (wo_calls w1) /\ k = Call pid Starting NotCleaning).
      { intros c k Hc. apply lookup_app_Some in Hc as [Hc|[Hge Hc]]; [by left|]. destruct (c - length (wo_calls w1)) eqn:E; [|done]. injection Hc as <-. right. split; [lia|done]. }
      constructor; cbn [wo_calls wo_alive wo_dir].
      * intros c k Hc Hph. apply Hm in Hc as [Hc|[_ ->]]; [by eapply Ha|done].
      * intros c1 k1 c2 k2 H1 H2 Hp1 Hp2 Hpid. apply Hm in H1 as [H1|[-> ->]]; apply Hm in H2 as [H2|[-> ->]]; [by eapply Ho| | |done].
        -- by rewrite (Hcalm _ _ H1) in Hp1.
        -- by rewrite (Hcalm _ _ H2) in Hp2.
      * intros c k Hc Hph. apply Hm in Hc as [Hc|[_ ->]]; [by eapply Hd|done].
      * intros c k Hc Hph. apply Hm in Hc as [Hc|[_ ->]]; [by eapply Hn|done].
      * intros c k p Hc Hcl. apply Hm in Hc as [Hc|[_ ->]]; [by eapply Hr|done].
    + destruct (wo_calls w1 !! c) as [[pid [] k]|] eqn:E; try done. injection H2 as <- <-. split; [|intros c' Hin; rewrite app_nil_r in Hin; by eapply Hp].
      assert (Hm : forall c' k', <[c := Call pid Unlinked k]> (wo_calls w1) !! c' = Some k' -> (c' = c /\ k' = Call pid Unlinked k) \/ (c' <> c /\ wo_calls w1 !! c' = Some k')).
      { intros c' k' Hx. apply list_lookup_insert_Some in Hx as [(<- & <- & _)|[Hne Hx]]; [by left|by right]. }
      assert (Hother : forall c' k', wo_calls w1 !! c' = Some k' -> c' <> c -> ca_phase k' <> Over -> sock_name (ca_pid k') <> sock_name pid).
      { intros c' k' Hx Hne Hph Heq%sock_name_inj; [|exact other_digit]. apply Hne. eapply Ho; [done|exact E|done|done|done]. }
      constructor; cbn [wo_calls wo_alive wo_dir].
      * intros c' k' Hx Hph. apply Hm in Hx as [[-> ->]|[_ Hx]]; [by apply (Ha c _ E)|by eapply Ha].
      * intros c1 k1 c2 k2 H1 H2 Hp1 Hp2 Hpid. apply Hm in H1 as [[-> ->]|[_ H1]]; apply Hm in H2 as [[-> ->]|[_ H2]]; [done| | |by eapply Ho].
        -- by eapply (Ho _ _ _ _ E H2).
        -- by eapply (Ho _ _ _ _ H1 E).
      * intros c' k' Hx Hph. apply Hm in Hx as [[-> ->]|[Hne Hx]]; [done|]. unfold set_dir. rewrite bool_decide_false by (eapply Hother; [done|done|by rewrite Hph]). by eapply Hd.
      * intros c' k' Hx Hph. apply Hm in Hx as [[-> ->]|[Hne Hx]]; [unfold set_dir; cbn [ca_pid]; by rewrite bool_decide_true|]. unfold set_dir. rewrite bool_decide_false by (eapply Hother; [done|done|by rewrite Hph]). by eapply Hn.
      * intros c' k' p Hx Hcl. apply Hm in Hx as [[-> ->]|[Hne Hx]]; [by apply (Hr _ _ _ E)|by eapply Hr].
    + destruct (wo_calls w1 !! c) as [[pid [] k]|] eqn:E; try done. pose proof (Hn _ _ E eq_refl) as Hn1. cbn [ca_pid] in Hn1. rewrite Hn1 in H2. injection H2 as <- <-. split; [|intros c' [Hin|[Hin|[]]]%in_app_or; [by eapply Hp|done]].
      assert (Hm : forall c' k', <[c := Call pid Serving Cleaning]> (wo_calls w1) !! c' = Some k' -> (c' = c /\ k' = Call pid Serving Cleaning) \/ (c' <> c /\ wo_calls w1 !! c' = Some k')).
      { intros c' k' Hx. apply list_lookup_insert_Some in Hx as [(<- & <- & _)|[Hne Hx]]; [by left|by right]. }
      assert (Hother : forall c' k', wo_calls w1 !! c' = Some k' -> c' <> c -> ca_phase k' <> Over -> sock_name (ca_pid k') <> sock_name pid).
      { intros c' k' Hx Hne Hph Heq%sock_name_inj; [|exact other_digit]. apply Hne. eapply Ho; [done|exact E|done|done|done]. }
      constructor; cbn [wo_calls wo_alive wo_dir].
      * intros c' k' Hx Hph. apply Hm in Hx as [[-> ->]|[_ Hx]]; [by apply (Ha c _ E)|by eapply Ha].
      * intros c1 k1 c2 k2 H1 H2 Hp1 Hp2 Hpid. apply Hm in H1 as [[-> ->]|[_ H1]]; apply Hm in H2 as [[-> ->]|[_ H2]]; [done| | |by eapply Ho].
        -- by eapply (Ho _ _ _ _ E H2).
        -- by eapply (Ho _ _ _ _ H1 E).
      * intros c' k' Hx Hph. apply Hm in Hx as [[-> ->]|[Hne Hx]]; [unfold set_dir; cbn [ca_pid]; by rewrite bool_decide_true|]. unfold set_dir. rewrite bool_decide_false by (eapply Hother; [done|done|by rewrite Hph]). by eapply Hd.
      * intros c' k' Hx Hph. apply Hm in Hx as [[-> ->]|[Hne Hx]]; [done|]. unfold set_dir. rewrite bool_decide_false by (eapply Hother; [done|done|by rewrite Hph]). by eapply Hn.
      * intros c' k' p Hx Hcl. apply Hm in Hx as [[-> ->]|[Hne Hx]]; [done|by eapply Hr].
    + assert (Hcl : forall w' os', (w', os') = (w, os) -> w' = w1 \/ (exists pid ph k cl, wo_calls w1 !! c = Some (Call pid ph k) /\ w' = set_call w1 c (Call pid ph cl) /\ (forall p, cl = Removing (sock_name p) -> wo_alive w1 p = false))).
      { intros w' os' [= -> ->]. destruct (wo_calls w1 !! c) as [[pid ph []]|] eqn:E; try done. destruct kind as [[]|].
        - destruct (captures other_digit name) as [d|] eqn:Ed; [|injection H2 as <- <-; by left]. destruct (parse_usize d) as [q|] eqn:Eq.
          + injection H2 as <- <-. destruct (wo_alive w1 q) eqn:Eal; [by left|]. right. eexists pid, ph, _, _. split; [done|]. split; [done|]. intros p [= ->].
            rewrite captures_sock_name in Ed. injection Ed as <-. apply parse_sock_name in Eq as <-. done.
          + injection H2 as <- <-. right. by eexists pid, ph, _, _.
        - injection H2 as <- <-. by left.
        - injection H2 as <- <-. right. by eexists pid, ph, _, _. }
      assert (Hos : forall c', ~ In (Panics c') os).
      { intros c' Hin. destruct (wo_calls w1 !! c) as [[pid ph []]|]; try done. destruct kind as [[]|]; [destruct (captures other_digit name) as [d|]; [destruct (parse_usize d)|]| |]; injection H2 as <- <-; try done; destruct Hin as [Hin|[]]; done. }
      split; [|intros c' [Hin|Hin]%in_app_or; [by eapply Hp|by eapply Hos]].
      destruct (Hcl w os eq_refl) as [-> |(pid & ph & k & cl & E & -> & Hcl')]; [by constructor|].
      assert (Hm : forall c' k', <[c := Call pid ph cl]> (wo_calls w1) !! c' = Some k' -> (c' = c /\ k' = Call pid ph cl) \/ (c' <> c /\ wo_calls w1 !! c' = Some k')).
      { intros c' k' Hx. apply list_lookup_insert_Some in Hx as [(<- & <- & _)|[Hne Hx]]; [by left|by right]. }
      constructor; cbn [wo_calls wo_alive wo_dir set_call].
      * intros c' k' Hx Hph. apply Hm in Hx as [[-> ->]|[_ Hx]]; [by apply (Ha c _ E)|by eapply Ha].
      * intros c1 k1 c2 k2 H1 H2' Hp1 Hp2 Hpid. apply Hm in H1 as [[-> ->]|[_ H1]]; apply Hm in H2' as [[-> ->]|[_ H2']]; [done| | |by eapply Ho].
        -- by eapply (Ho _ _ _ _ E H2').
        -- by eapply (Ho _ _ _ _ H1 E).
      * intros c' k' Hx Hph. apply Hm in Hx as [[-> ->]|[Hne Hx]]; [by apply (Hd _ _ E)|]. by eapply Hd.
      * intros c' k' Hx Hph. apply Hm in Hx as [[-> ->]|[Hne Hx]]; [by apply (Hn _ _ E)|]. by eapply Hn.
      * intros c' k' p Hx Hc'. apply Hm in Hx as [[-> ->]|[Hne Hx]]; [by apply Hcl'|by eapply Hr].
    + destruct (wo_calls w1 !! c) as [[pid ph [| |name]]|] eqn:E; try done.
      assert (Hw : wo_calls w = <[c := Call pid ph (match wo_dir w1 name with Some _ => Cleaning | None => NotCleaning end)]> (wo_calls w1) /\ wo_alive w = wo_alive w1 /\ (forall n, n <> name -> wo_dir w n = wo_dir w1 n) /\ wo_dir w name = None /\ forall c', ~ In (Panics c') os).
      { destruct (wo_dir w1 name) eqn:Ed; injection H2 as <- <-; cbn [wo_calls wo_alive wo_dir set_call]; (split; [done|]); (split; [done|]).
        - split; [intros n Hne; unfold set_dir; by rewrite bool_decide_false|]. split; [unfold set_dir; by rewrite bool_decide_true|]. by intros c' [Hin|[]].
        - split; [done|]. split; [done|]. by intros c' [Hin|[]]. }
      destruct Hw as (Hwc & Hwa & Hwd & Hwn & Hos). split; [|intros c' [Hin|Hin]%in_app_or; [by eapply Hp|by eapply Hos]].
      set (cl := match wo_dir w1 name with Some _ => Cleaning | None => NotCleaning end) in *.
      assert (Hm : forall c' k', wo_calls w !! c' = Some k' -> exists k'', wo_calls w1 !! c' = Some k'' /\ ca_pid k'' = ca_pid k' /\ ca_phase k'' = ca_phase k' /\ (k'' = k' \/ ca_cleaner k' = cl)).
      { intros c' k' Hx. rewrite Hwc in Hx. apply list_lookup_insert_Some in Hx as [(<- & <- & _)|[Hne Hx]]; [eexists; split; [exact E|]; split; [done|]; split; [done|]; by right|]. exists k'. auto. }
      constructor; rewrite ?Hwa.
      * intros c' k' Hx Hph. apply Hm in Hx as (k'' & Hx & <- & Hp' & _). rewrite <- Hp' in Hph. by eapply Ha.
      * intros c1 k1 c2 k2 H1 H2' Hp1 Hp2 Hpid. apply Hm in H1 as (k1' & H1 & E1 & Hx1 & _). apply Hm in H2' as (k2' & H2' & E2 & Hx2 & _). rewrite <- Hx1 in Hp1. rewrite <- Hx2 in Hp2. rewrite <- E1, <- E2 in Hpid. by eapply Ho.
      * intros c' k' Hx Hph. apply Hm in Hx as (k'' & Hx & <- & Hp' & _). rewrite <- Hp' in Hph. rewrite Hwd; [by eapply Hd|]. intros <-. pose proof (Hr _ _ (ca_pid k'') E eq_refl) as Hdead.
        rewrite (Ha _ _ Hx) in Hdead; [done|by rewrite Hph].
      * intros c' k' Hx Hph. apply Hm in Hx as (k'' & Hx & <- & Hp' & _). rewrite <- Hp' in Hph. destruct (decide (sock_name (ca_pid k'') = name)) as [-> |Hne]; [done|]. rewrite Hwd by done. by eapply Hn.
      * intros c' k' p Hx Hc'. apply Hm in Hx as (k'' & Hx & _ & _ & [-> |Hy]); [by eapply Hr|]. rewrite Hc' in Hy. unfold cl in Hy. by destruct (wo_dir w1 name).
    + destruct (wo_calls w1 !! c) as [[pid ph []]|] eqn:E; try done. injection H2 as <- <-. split; [|intros c' Hin; rewrite app_nil_r in Hin; by eapply Hp].
      assert (Hm : forall c' k', <[c := Call pid ph NotCleaning]> (wo_calls w1) !! c' = Some k' -> (c' = c /\ k' = Call pid ph NotCleaning) \/ (c' <> c /\ wo_calls w1 !! c' = Some k')).
      { intros c' k' Hx. apply list_lookup_insert_Some in Hx as [(<- & <- & _)|[Hne Hx]]; [by left|by right]. }
      constructor; cbn [wo_calls wo_alive wo_dir set_call].
      * intros c' k' Hx Hph. apply Hm in Hx as [[-> ->]|[_ Hx]]; [by apply (Ha c _ E)|by eapply Ha].
      * intros c1 k1 c2 k2 H1 H2' Hp1 Hp2 Hpid. apply Hm in H1 as [[-> ->]|[_ H1]]; apply Hm in H2' as [[-> ->]|[_ H2']]; [done| | |by eapply Ho].
        -- by eapply (Ho _ _ _ _ E H2').
        -- by eapply (Ho _ _ _ _ H1 E).
      * intros c' k' Hx Hph. apply Hm in Hx as [[-> ->]|[Hne Hx]]; [by apply (Hd _ _ E)|]. by eapply Hd.
      * intros c' k' Hx Hph. apply Hm in Hx as [[-> ->]|[Hne Hx]]; [by apply (Hn _ _ E)|]. by eapply Hn.
      * intros c' k' p Hx Hc'. apply Hm in Hx as [[-> ->]|[Hne Hx]]; [done|by eapply Hr].
    + destruct (wo_calls w1 !! c) as [[pid [] k]|] eqn:E; try done. pose proof (Hd _ _ E eq_refl) as Hd1. cbn [ca_pid] in Hd1. rewrite Hd1 in H2. injection H2 as <- <-. split; [|intros c' Hin; rewrite app_nil_r in Hin; by eapply Hp].
      assert (Hm : forall c' k', <[c := Call pid Over k]> (wo_calls w1) !! c' = Some k' -> (c' = c /\ k' = Call pid Over k) \/ (c' <> c /\ wo_calls w1 !! c' = Some k')).
      { intros c' k' Hx. apply list_lookup_insert_Some in Hx as [(<- & <- & _)|[Hne Hx]]; [by left|by right]. }
      assert (Hother : forall c' k', wo_calls w1 !! c' = Some k' -> c' <> c -> ca_phase k' <> Over -> sock_name (ca_pid k') <> sock_name pid).
      { intros c' k' Hx Hne Hph Heq%sock_name_inj; [|exact other_digit]. apply Hne. eapply Ho; [done|exact E|done|done|done]. }
      constructor; cbn [wo_calls wo_alive wo_dir].
      * intros c' k' Hx Hph. apply Hm in Hx as [[-> ->]|[_ Hx]]; [done|by eapply Ha].
      * intros c1 k1 c2 k2 H1 H2 Hp1 Hp2 Hpid. apply Hm in H1 as [[-> ->]|[_ H1]]; apply Hm in H2 as [[-> ->]|[_ H2]]; [done|done|done|by eapply Ho].
      * intros c' k' Hx Hph. apply Hm in Hx as [[-> ->]|[Hne Hx]]; [done|]. unfold set_dir. rewrite bool_decide_false by (eapply Hother; [done|done|by rewrite Hph]). by eapply Hd.
      * intros c' k' Hx Hph. apply Hm in Hx as [[-> ->]|[Hne Hx]]; [done|]. unfold set_dir. rewrite bool_decide_false by (eapply Hother; [done|done|by rewrite Hph]). by eapply Hn.
      * intros c' k' p Hx Hcl. apply Hm in Hx as [[-> ->]|[Hne Hx]]; [by apply (Hr _ _ _ E)|by eapply Hr].
    + destruct (wo_calls w1 !! c) as [[pid ph k]|] eqn:E; [|done]. injection H2 as <- <-. split; [|intros c' [Hin|[Hin|[]]]%in_app_or; [by eapply Hp|done]].
      assert (Hm : forall c' k', <[c := Call pid Over NotCleaning]> (wo_calls w1) !! c' = Some k' -> (c' = c /\ k' = Call pid Over NotCleaning) \/ (c' <> c /\ wo_calls w1 !! c' = Some k')).
      { intros c' k' Hx. apply list_lookup_insert_Some in Hx as [(<- & <- & _)|[Hne Hx]]; [by left|by right]. }
      constructor; cbn [wo_calls wo_alive wo_dir set_call].
      * intros c' k' Hx Hph. apply Hm in Hx as [[-> ->]|[_ Hx]]; [done|by eapply Ha].
      * intros c1 k1 c2 k2 H1 H2' Hp1 Hp2 Hpid. apply Hm in H1 as [[-> ->]|[_ H1]]; apply Hm in H2' as [[-> ->]|[_ H2']]; [done|done|done|by eapply Ho].
      * intros c' k' Hx Hph. apply Hm in Hx as [[-> ->]|[Hne Hx]]; [done|]. by eapply Hd.
      * intros c' k' Hx Hph. apply Hm in Hx as [[-> ->]|[Hne Hx]]; [done|]. by eapply Hn.
      * intros c' k' p Hx Hc'. apply Hm in Hx as [[-> ->]|[Hne Hx]]; [done|by eapply Hr].
Qed.

(** C60. The socket of a call that is being served is at its place and is the call's own, whatever other calls clean up; and
    no server panics. *)
Theorem running_sockets_kept alive names acts w t c pid k :
  run (admin_start alive names) acts = Some (w, t) -> calm other_digit alive names acts ->
  (wo_calls w !! c = Some (Call pid Serving k) -> wo_dir w (sock_name pid) = Some (Some c)) /\ ~ In (Panics c) t.
Proof. intros Hr Hc. destruct (owned_run _ _ _ _ _ Hr Hc) as [HO Hp]. split; [|apply Hp]. intros Hx. by apply (o_dir _ HO _ _ Hx). Qed.

(** Cleaning up starts after binding. *)
Lemma early_run alive names acts w t : run (admin_start alive names) acts = Some (w, t) ->
  forall c k, wo_calls w !! c = Some k -> (ca_phase k = Starting \/ ca_phase k = Unlinked) -> ca_cleaner k = NotCleaning.
Proof.
  revert w t. induction acts as [|a acts IH] using rev_ind; intros w t H; [by injection H as <- <-|].
  apply admin_run_snoc in H as (w1 & t1 & os & H1 & H2 & ->). specialize (IH _ _ H1). clear H1.
  assert (Hins : forall c k, (ca_phase k = Starting \/ ca_phase k = Unlinked -> ca_cleaner k = NotCleaning) -> forall c' k', <[c := k]> (wo_calls w1) !! c' = Some k' -> (ca_phase k' = Starting \/ ca_phase k' = Unlinked) -> ca_cleaner k' = NotCleaning).
  { intros c k Hk c' k' Hx. apply list_lookup_insert_Some in Hx as [(<- & <- & _)|[_ Hx]]; [done|by eapply IH]. }
  destruct a as [pid|pid|pid|c|c|c name kind|c|c|c|c]; cbn [admin_step] in H2.
  - destruct (wo_alive w1 pid); [done|]. by injection H2 as <- <-.
  - destruct (wo_alive w1 pid); [|done]. injection H2 as <- <-. cbn [wo_calls]. intros c k Hx. rewrite list_lookup_fmap in Hx. destruct (wo_calls w1 !! c) as [k'|] eqn:E; [|done]. injection Hx as <-.
    destruct (N.eqb (ca_pid k') pid); [done|]. by eapply IH.
  - destruct (wo_alive w1 pid); [|done]. injection H2 as <- <-. cbn [wo_calls]. intros c k Hx. apply lookup_app_Some in Hx as [Hx|[_ Hx]]; [by eapply IH|]. destruct (c - length (wo_calls w1)); [by injection Hx as <-|done].
  - destruct (wo_calls w1 !! c) as [[pid [] k]|] eqn:E; try done. injection H2 as <- <-. cbn [wo_calls]. apply Hins. intros _. apply (IH _ _ E). by left.
  - destruct (wo_calls w1 !! c) as [[pid [] k]|] eqn:E; try done. destruct (wo_dir w1 _); injection H2 as <- <-; cbn [wo_calls set_call]; apply Hins; by intros [].
  - destruct (wo_calls w1 !! c) as [[pid ph []]|] eqn:E; try done. pose proof (IH _ _ E) as Hph. cbn [ca_phase ca_cleaner] in Hph.
    destruct kind as [[]|]; [destruct (captures other_digit name) as [d|]; [destruct (parse_usize d)|]| |]; injection H2 as <- <-; try done; [destruct (wo_alive w1 n); [done|]| |]; cbn [wo_calls set_call]; apply Hins; intros Hp; by specialize (Hph Hp).
  - destruct (wo_calls w1 !! c) as [[pid ph [| |name]]|] eqn:E; try done. pose proof (IH _ _ E) as Hph. cbn [ca_phase ca_cleaner] in Hph. destruct (wo_dir w1 name); injection H2 as <- <-; cbn [wo_calls set_call]; apply Hins; intros Hp; by specialize (Hph Hp).
  - destruct (wo_calls w1 !! c) as [[pid ph []]|] eqn:E; try done. injection H2 as <- <-. cbn [wo_calls set_call]. by apply Hins.
  - destruct (wo_calls w1 !! c) as [[pid [] k]|] eqn:E; try done. destruct (wo_dir w1 _); injection H2 as <- <-; cbn [wo_calls set_call]; apply Hins; by intros [].
  - destruct (wo_calls w1 !! c) as [[pid ph k]|] eqn:E; [|done]. injection H2 as <- <-. cbn [wo_calls set_call]. by apply Hins.
Qed.

(** C60. What the cleaning up finds to be left over it removes: only an error or the end of its process prevents it. *)
Theorem stale_sockets_removed alive names acts w t t1 c name p t2 :
  run (admin_start alive names) acts = Some (w, t) -> t = t1 ++ Checked c name p false :: t2 ->
  exists pid ph k, wo_calls w !! c = Some (Call pid ph k) /\
  (In (Removed c name) t2 \/ In (CleanFailed c) t2 \/ In (Abandoned c) t2 \/ In (ProcDied pid) t2 \/ k = Removing name /\ no_news c t2).
Proof.
  revert w t t2. induction acts as [|a acts IH] using rev_ind; intros w t t2 H Ht; [injection H as <- <-; by destruct t1|].
  apply admin_run_snoc in H as (w1 & t0 & os & H1 & H2 & ->). pose proof (early_run _ _ _ _ _ H1) as Hearly.
  assert (Hc : (exists t2', t0 = t1 ++ Checked c name p false :: t2' /\ t2 = t2' ++ os) \/ (exists o1, os = o1 ++ Checked c name p false :: t2)).
  { clear - Ht. revert t0 Ht. induction t1 as [|o t1 IH]; intros t0 Ht.
    - destruct t0 as [|o t0]; [by right; exists []|]. injection Ht as -> <-. left. by exists t0.
    - destruct t0 as [|o' t0]; [right; by exists (o :: t1)|]. injection Ht as -> Ht. destruct (IH _ Ht) as [(t2' & -> & ->)|Hr]; [left; by exists t2'|by right]. }
  destruct Hc as [(t2' & Et & ->)|[o1 Eo]].
  - destruct (IH _ _ t2' H1 Et) as (pid & ph & k & Hk & Hor). clear IH Ht H1 Et.
    destruct Hor as [Hin|[Hin|[Hin|[Hin|[-> Hn]]]]].
    1-4: assert (exists ph' k', wo_calls w !! c = Some (Call pid ph' k')) as (ph' & k' & Hk'); [|exists pid, ph', k'; split; [done|]; rewrite !in_app_iff; tauto].
    1-4: clear Hin Hearly; destruct a as [q|q|q|c'|c'|c' nm kind|c'|c'|c'|c']; cbn [admin_step] in H2;
      [destruct (wo_alive w1 q); [done|]; injection H2 as <- <-; by eauto
      |destruct (wo_alive w1 q); [|done]; injection H2 as <- <-; cbn [wo_calls]; rewrite list_lookup_fmap, Hk; cbn; destruct (N.eqb pid q) eqn:Eq; [apply N.eqb_eq in Eq as <-|]; by eauto
      |destruct (wo_alive w1 q); [|done]; injection H2 as <- <-; cbn [wo_calls]; rewrite lookup_app_l by (by eapply lookup_lt_Some); by eauto
      |..]; (destruct (decide (c' = c)) as [->|Hne];
      [rewrite Hk in H2; repeat match type of H2 with match ?b with _ => _ end = _ => destruct b eqn:?; try done end; injection H2 as <- <-; try (by eauto);
        try destruct (wo_alive w1 _); try (by eauto); unfold set_call; cbn [wo_calls]; rewrite list_lookup_insert by (by eapply lookup_lt_Some); by eauto
      |repeat match type of H2 with match ?b with _ => _ end = _ => destruct b eqn:?; try done end; injection H2 as <- <-; try (by eauto);
        try destruct (wo_alive w1 _); try (by eauto); unfold set_call; cbn [wo_calls]; rewrite list_lookup_insert_ne by done; by eauto]).
    assert (Hkeep : no_news c os -> (exists ph', wo_calls w !! c = Some (Call pid ph' (Removing name))) -> exists pid0 ph0 k, wo_calls w !! c = Some (Call pid0 ph0 k) /\
      (In (Removed c name) (t2' ++ os) \/ In (CleanFailed c) (t2' ++ os) \/ In (Abandoned c) (t2' ++ os) \/ In (ProcDied pid0) (t2' ++ os) \/ k = Removing name /\ no_news c (t2' ++ os))).
    { intros Hos [ph' Hx]. exists pid, ph', (Removing name). split; [done|]. right. right. right. right. split; [done|]. intros o [Ho|Ho]%in_app_or; [by apply Hn|by apply Hos]. }
    destruct a as [q|q|q|c'|c'|c' nm kind|c'|c'|c'|c']; cbn [admin_step] in H2.
    + destruct (wo_alive w1 q); [done|]; injection H2 as <- <-. apply Hkeep; [by intros ? [<-|[]]|by eauto].
    + destruct (wo_alive w1 q); [|done]; injection H2 as <- <-. destruct (N.eqb pid q) eqn:Eq.
      * apply N.eqb_eq in Eq as <-. exists pid, Over, NotCleaning. cbn [wo_calls]. rewrite list_lookup_fmap, Hk. cbn. rewrite N.eqb_refl. split; [done|]. right. right. right. left. rewrite in_app_iff. right. by left.
      * apply Hkeep; [by intros ? [<-|[]]|]. cbn [wo_calls]. rewrite list_lookup_fmap, Hk. cbn. rewrite Eq. by eauto.
    + destruct (wo_alive w1 q); [|done]; injection H2 as <- <-. apply Hkeep; [done|]. cbn [wo_calls]; rewrite lookup_app_l by (by eapply lookup_lt_Some); by eauto.
    + destruct (decide (c' = c)) as [->|Hne].
      * rewrite Hk in H2. destruct ph; try done. exfalso. pose proof (Hearly _ _ Hk) as Hx. cbn in Hx. discriminate Hx. by left.
      * destruct (wo_calls w1 !! c') as [[q [] k]|] eqn:E; try done. injection H2 as <- <-. apply Hkeep; [done|]. cbn [wo_calls]. rewrite list_lookup_insert_ne by done; by eauto.
    + destruct (decide (c' = c)) as [->|Hne].
      * rewrite Hk in H2. destruct ph; try done. exfalso. pose proof (Hearly _ _ Hk) as Hx. cbn in Hx. discriminate Hx. by right.
      * destruct (wo_calls w1 !! c') as [[q [] k]|] eqn:E; try done. destruct (wo_dir w1 _); injection H2 as <- <-; (apply Hkeep; [by intros ? [<-|[]]|]); cbn [wo_calls set_call]; rewrite list_lookup_insert_ne by done; by eauto.
    + destruct (decide (c' = c)) as [->|Hne]; [by rewrite Hk in H2|].
      destruct (wo_calls w1 !! c') as [[q qh []]|] eqn:E; try done.
      destruct kind as [[]|]; [destruct (captures other_digit nm) as [d|]; [destruct (parse_usize d)|]| |]; injection H2 as <- <-; (apply Hkeep; [try done; intros ? [<-|[]]; (split; [done|]); try done; intros ? ? ? [= Hx]; congruence|]);
        try (by eauto); try destruct (wo_alive w1 _); try (by eauto); unfold set_call; cbn [wo_calls]; rewrite list_lookup_insert_ne by done; by eauto.
    + destruct (decide (c' = c)) as [->|Hne].
      * rewrite Hk in H2. destruct (wo_dir w1 name); injection H2 as <- <-; exists pid, ph; eexists; unfold set_call; cbn [wo_calls]; (rewrite list_lookup_insert by (by eapply lookup_lt_Some)); (split; [done|]).
        -- left. rewrite in_app_iff. right. by left.
        -- right. left. rewrite in_app_iff. right. by left.
      * destruct (wo_calls w1 !! c') as [[q qh [| |nm]]|] eqn:E; try done. destruct (wo_dir w1 nm); injection H2 as <- <-; (apply Hkeep; [intros ? [<-|[]]; (split; [|done]); try done; intros ? [= Hx]; congruence|]);
          unfold set_call; cbn [wo_calls]; rewrite list_lookup_insert_ne by done; by eauto.
    + destruct (decide (c' = c)) as [->|Hne]; [by rewrite Hk in H2|].
      destruct (wo_calls w1 !! c') as [[q qh []]|] eqn:E; try done. injection H2 as <- <-. apply Hkeep; [done|]. unfold set_call. cbn [wo_calls]. rewrite list_lookup_insert_ne by done; by eauto.
    + destruct (decide (c' = c)) as [->|Hne].
      * rewrite Hk in H2. destruct ph; try done. destruct (wo_dir w1 _); injection H2 as <- <-; (apply Hkeep; [try done; by intros ? [<-|[]]|]); unfold set_call; cbn [wo_calls]; rewrite list_lookup_insert by (by eapply lookup_lt_Some); by eauto.
      * destruct (wo_calls w1 !! c') as [[q [] k]|] eqn:E; try done. destruct (wo_dir w1 _); injection H2 as <- <-; (apply Hkeep; [try done; by intros ? [<-|[]]|]); unfold set_call; cbn [wo_calls]; rewrite list_lookup_insert_ne by done; by eauto.
    + destruct (decide (c' = c)) as [->|Hne].
      * rewrite Hk in H2. injection H2 as <- <-. exists pid, Over, NotCleaning. unfold set_call. cbn [wo_calls]. rewrite list_lookup_insert by (by eapply lookup_lt_Some). split; [done|]. right. right. left. rewrite in_app_iff. right. by left.
      * destruct (wo_calls w1 !! c') as [[q qh qk]|] eqn:E; [|done]. injection H2 as <- <-. apply Hkeep; [by intros ? [<-|[]]|]. unfold set_call. cbn [wo_calls]. rewrite list_lookup_insert_ne by done; by eauto.
  - clear IH Ht. destruct a as [q|q|q|c'|c'|c' nm kind|c'|c'|c'|c']; cbn [admin_step] in H2.
    6: { destruct (wo_calls w1 !! c') as [[q qh []]|] eqn:E; try done. destruct kind as [[]|]; [destruct (captures other_digit nm) as [d|]; [destruct (parse_usize d) as [v|] eqn:Ev|]| |]; injection H2 as <- <-; try (destruct o1 as [|? [|? ?]]; done).
      destruct o1 as [|? [|? ?]]; [|done|done]. injection Eo as -> -> -> Ea <-. rewrite Ea. exists q, qh, (Removing name). unfold set_call. cbn [wo_calls]. rewrite list_lookup_insert by (by eapply lookup_lt_Some). split; [done|]. right. right. right. right. done. }
    all: repeat match type of H2 with
      | (if ?b then _ else _) = _ => destruct b eqn:?; try done
      | match ?b with _ => _ end = _ => destruct b eqn:?; try done
      end; injection H2 as <- <-; destruct o1 as [|? [|? ?]]; done.
Qed.
End props.
Print Assumptions socket_names_recognized.
Print Assumptions only_stale_sockets_removed.
Print Assumptions running_sockets_kept.
Print Assumptions stale_sockets_removed.

Definition no_other : N -> bool := fun _ => false.
Definition only (ns : list (list N)) : list N -> bool := fun n => bool_decide (n ∈ ns).
Definition pids (ps : list N) : N -> bool := fun p => existsb (N.eqb p) ps.

(** The socket of process 7, which has ended, is left over; 8 runs. Process 9 removes the one, leaves the other and ends. *)
Definition tidy : list adminact :=
  [CallStart 9; Unlink 0; Bind 0; Visit 0 (sock_name 8) (Some true); Visit 0 (text "bus") (Some true); Visit 0 (sock_name 7) (Some true); Remove 0; Visit 0 (sock_name 9) (Some true); CleanEnd 0].
Example tidy_runs : match admin_run no_other (admin_start (pids [8%N; 9%N]) (only [sock_name 7; sock_name 8; text "bus"])) tidy with
  | Some (w, t) => t = [Bound 0 (sock_name 9); Checked 0 (sock_name 8) 8 true; Checked 0 (sock_name 7) 7 false; Removed 0 (sock_name 7); Checked 0 (sock_name 9) 9 true] /\
    wo_dir w (sock_name 7) = None /\ wo_dir w (sock_name 8) = Some None /\ wo_dir w (sock_name 9) = Some (Some 0) /\ wo_calls w = [Call 9 Serving NotCleaning]
  | None => False
  end.
Proof. vm_compute. auto. Qed.
Example tidy_calm : calm no_other (pids [8%N; 9%N]) (only [sock_name 7; sock_name 8; text "bus"]) tidy.
Proof.
  intros a1 a a2 w t E Hr. unfold tidy in E.
  destruct a1 as [|x1 a1]; [injection E as <- <-; by injection Hr as <- <-|]. injection E as <- E.
  repeat (destruct a1 as [|? a1]; [injection E as <- <-; done|]; injection E as <- E). by destruct a1.
Qed.

(** ** What does not hold *)

(** The pattern is not anchored: the socket of another program with a name like that is removed. *)
Theorem other_sockets_kept_refuted : exists alive names acts w t name,
  admin_run no_other (admin_start alive names) acts = Some (w, t) /\ In (Removed 0 name) t /\ (forall p, name <> sock_name p) /\ names name = true.
Proof.
  exists (pids [9%N]), (only [text "my-wrk-7.socket"]), [CallStart 9; Unlink 0; Bind 0; Visit 0 (text "my-wrk-7.socket") (Some true); Remove 0]. eexists _, _, (text "my-wrk-7.socket").
  split; [vm_compute; reflexivity|]. split; [vm_compute; auto|]. split; [|by vm_compute]. intros p Hp. unfold sock_name, prefix_ in Hp. vm_compute (text "wrk-") in Hp. vm_compute (text "my-wrk-7.socket") in Hp. discriminate Hp.
Qed.

(** Nor does the point need to be one, or to be after the number: this is taken for the socket of process 1. *)
Example number_cut : captures no_other (text "wrk-12sock") = Some (text "1") := eq_refl.

(** If a number is used again between the check and the removal then the socket of a running process is removed, and the
    server of that process panics at its end. *)
Theorem reused_number_refuted : exists alive names acts w t,
  admin_run no_other (admin_start alive names) acts = Some (w, t) /\ In (Bound 1 (sock_name 7)) t /\ In (Removed 0 (sock_name 7)) t /\ In (Panics 1) t /\ ~ In (ProcDied 7) t.
Proof.
  exists (pids [9%N]), (only [sock_name 7]), [CallStart 9; Unlink 0; Bind 0; Visit 0 (sock_name 7) (Some true); ProcStart 7; CallStart 7; Unlink 1; Bind 1; Remove 0; CallEnd 1].
  eexists _, _. split; [vm_compute; reflexivity|]. split; [vm_compute; auto 10|]. split; [vm_compute; auto 10|]. split; [vm_compute; auto 10|]. vm_compute. intros Hin. repeat (destruct Hin as [Hin|Hin]; [discriminate Hin|]). done.
Qed.

(** Two calls of one process at a time use one path: the second takes it from the first, and the first to end removes it
    from the other, which panics at its end. *)
Theorem two_calls_refuted : exists acts w t,
  admin_run no_other (admin_start (pids [9%N]) (only [])) acts = Some (w, t) /\
  t = [Bound 0 (sock_name 9); Bound 1 (sock_name 9); Panics 1].
Proof. exists [CallStart 9; Unlink 0; Bind 0; CallStart 9; Unlink 1; Bind 1; CallEnd 0; CallEnd 1]. eexists _, _. split; [vm_compute; reflexivity|]. reflexivity. Qed.

(** A socket whose number does not fit stops the cleaning up: what comes after it stays. *)
Theorem cleaning_goes_on_refuted : exists names acts w t,
  admin_run no_other (admin_start (pids [9%N]) names) acts = Some (w, t) /\ t = [Bound 0 (sock_name 9); CleanFailed 0] /\ wo_dir w (sock_name 7) = Some None /\
  admin_step no_other w (Visit 0 (sock_name 7) (Some true)) = None.
Proof.
  exists (only [sock_name 18446744073709551616; sock_name 7]), [CallStart 9; Unlink 0; Bind 0; Visit 0 (sock_name 18446744073709551616) (Some true)]. eexists _, _.
  split; [vm_compute; reflexivity|]. split; [reflexivity|]. split; vm_compute; reflexivity.
Qed.
Print Assumptions other_sockets_kept_refuted.
Print Assumptions reused_number_refuted.
Print Assumptions two_calls_refuted.
Print Assumptions cleaning_goes_on_refuted.
