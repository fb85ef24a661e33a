(** Proofs about the records of tasks of remote runners. *)
From Verif Require Export RecordJointSpec RecordProofs.
From Verif Require Import JointProofs JointInv JointTrace JointProps SchedProofs SchedProps.
From Verif Require ServerModel.
From Coq Require Import Lia.
From stdpp Require Import prelude gmap.

Section joint.
Context (secret : string) (cfg : config) (nlocal : nat).

Lemma reports_app a b : forall s s' t', run cfg s a = Some (s', t') -> reports cfg s (a ++ b) = reports cfg s a ++ reports cfg s' b.
Proof.
  induction a as [|x a IH]; intros s s' t' H; cbn [run app reports] in *; [by injection H as <- <-|].
  destruct (step cfg s x) as [[s1 o1]|]; [|done]. destruct (run cfg s1 a) as [[s2 o2]|] eqn:R; [|done]. injection H as <- <-.
  rewrite (IH _ _ _ R), List.app_assoc. done.
Qed.
Lemma run_cat a b s s1 t1 s2 t2 : run cfg s a = Some (s1, t1) -> run cfg s1 b = Some (s2, t2) -> run cfg s (a ++ b) = Some (s2, t1 ++ t2).
Proof.
  revert s s1 t1. induction a as [|x a IH]; intros s s1 t1 H1 H2; cbn [run app] in *; [by injection H1 as <- <-|].
  destruct (step cfg s x) as [[s' o]|]; [|done]. destruct (run cfg s' a) as [[s'' o']|] eqn:R; [|done]. injection H1 as <- <-.
  rewrite (IH _ _ _ R H2), List.app_assoc. done.
Qed.
Lemma remote_app a b : remote_part nlocal (a ++ b) = remote_part nlocal a ++ remote_part nlocal b.
Proof. apply omap_app. Qed.

(** Some actions take the tracker from [u] to [u']; the remote reports in them are [ms], and the local ones are made by actions in [L]. *)
Definition goes (L : list action) (u u' : st) (os : list obs) (ms : list told) : Prop :=
  exists ta, run cfg u ta = Some (u', os) /\ remote_part nlocal (reports cfg u ta) = ms /\
    forall c r, (c, r) ∈ reports cfg u ta -> c < nlocal -> exists a v, a ∈ L /\ tells v a = [(c, r)].
Lemma goes_nil L u : goes L u u [] [].
Proof. exists []. split; [done|]. split; [done|]. intros c r X. by apply elem_of_nil in X. Qed.
Lemma goes_app L L' u u' u'' os os' ms ms' : goes L u u' os ms -> goes L' u' u'' os' ms' -> goes (L ++ L') u u'' (os ++ os') (ms ++ ms').
Proof.
  intros (a & Ha & <- & La) (b & Hb & <- & Lb). exists (a ++ b). split; [by eapply run_cat|]. rewrite (reports_app _ _ _ _ _ Ha), remote_app. split; [done|].
  intros c r [X|X]%elem_of_app Hc; [destruct (La c r X Hc) as (x & v & ? & ?)|destruct (Lb c r X Hc) as (x & v & ? & ?)]; exists x, v; (split; [apply elem_of_app; tauto|done]).
Qed.
Lemma tells_single u a c r : (c, r) ∈ tells u a -> tells u a = [(c, r)].
Proof. destruct a; cbn [tells]; try (intros X; by apply elem_of_nil in X); destruct (st_clients u !! _) as [[]|]; intros X; first [by apply elem_of_nil in X|apply elem_of_list_singleton in X; by rewrite X]. Qed.
Lemma goes_one L u a u' os : (a ∈ L \/ forall c r, (c, r) ∈ tells u a -> nlocal <= c) -> step cfg u a = Some (u', os) -> goes L u u' os (remote_part nlocal (tells u a)).
Proof.
  intros HL H. exists [a]. cbn [run reports]. rewrite H. rewrite !app_nil_r. split; [done|]. split; [done|].
  intros c r X Hc. destruct HL as [HL|HL]; [exists a, u; split; [done|by apply tells_single]|]. pose proof (HL _ _ X). lia.
Qed.
Lemma goes_quiet u a u' os : step cfg u a = Some (u', os) -> (forall c h p j, a <> ASendStarted c h p j) -> (forall c x v f, a <> ASendFinished c x v f) -> goes [] u u' os [].
Proof.
  intros H H1 H2. assert (tells u a = []) as E by (destruct a; try done; [by destruct (H1 c host pid slurm)|by destruct (H2 c s values flag)]).
  pose proof (goes_one [] u a u' os) as G. rewrite E in G. apply G; [|done]. right. intros c r X. by apply elem_of_nil in X.
Qed.

Lemma send_goes u c fl e u' os : send cfg nlocal u c fl e = Some (u', os) -> goes [] u u' os (omap message_tells [e]).
Proof.
  unfold send. destruct e as [h r|h n|n host pid job|n how]; cbn [omap list_omap message_tells]; try (intros H; injection H as <- <-; apply goes_nil).
  all: destruct (Nat.leb nlocal c) eqn:Hc; [|done]; cbn [andb]; destruct (holds u c n) eqn:Hh; [|done]; intros H.
  - pose proof (fun X => goes_one [] _ _ _ _ (or_intror X) H) as G. cbn [step tells] in *. unfold holds in Hh. destruct (st_clients u !! c) as [[]|]; try done. apply Nat.eqb_eq in Hh as <-.
    unfold remote_part in G. cbn [omap list_omap fst snd] in G. rewrite Hc in G; apply G; intros c' r' X; apply elem_of_list_singleton in X; injection X as -> ->; by apply Nat.leb_le.
  - pose proof (fun X => goes_one [] _ _ _ _ (or_intror X) H) as G. unfold holds in Hh. destruct how as [rep|msg]; cbn [report_action step tells message_tells] in *;
      (destruct (st_clients u !! c) as [[]|]; try done; apply Nat.eqb_eq in Hh as <-; unfold remote_part in G; cbn [omap list_omap fst snd] in G; rewrite Hc in G; apply G; intros c' r' X; apply elem_of_list_singleton in X; injection X as -> ->; by apply Nat.leb_le).
Qed.
Lemma send_all_goes c fl evs : forall u u' os, send_all cfg nlocal u c fl evs = Some (u', os) -> goes [] u u' os (omap message_tells evs).
Proof.
  induction evs as [|e evs IH]; intros u u' os H; cbn [send_all] in H; [injection H as <- <-; apply goes_nil|].
  destruct (send cfg nlocal u c fl e) as [[u1 o1]|] eqn:E1; [|done]. destruct (send_all cfg nlocal u1 c fl evs) as [[u2 o2]|] eqn:E2; [|done]. injection H as <- <-.
  change (e :: evs) with ([e] ++ evs). rewrite omap_app. eapply (goes_app [] []); [by eapply send_goes|by eapply IH].
Qed.
Lemma deliver_quiet sv h d sv' evs : ServerModel.step secret sv (ServerModel.LDeliver h d) = Some (sv', evs) -> omap message_tells evs = [].
Proof.
  cbn [ServerModel.step]. destruct (ServerModel.sv_handlers sv !! h) as [[]|]; try done. destruct d; intros H; by injection H as <- <-.
Qed.
Lemma jstep_goes s a s' t : jstep secret cfg nlocal s a = Some (s', t) -> goes (local_actions [a]) (j_tracker s) (j_tracker s') (tracker_side t) (omap message_tells (http_side t)).
Proof.
  destruct a as [a|h a|l c| |c]; cbn [jstep local_actions omap list_omap].
  - destruct (match client_of a with Some c => Nat.ltb c nlocal && no_flag a | None => true end) eqn:Ha; [|done].
    destruct (step cfg (j_tracker s) a) as [[u os]|] eqn:E; [|done]. intros H. injection H as <- <-. rewrite tracker_side_l, http_side_l. cbn [j_tracker].
    pose proof (goes_one [a] _ _ _ _ (or_introl (elem_of_list_here a [])) E) as G. assert (remote_part nlocal (tells (j_tracker s) a) = []) as E0; [|by rewrite E0 in G].
    destruct a; try done; cbn [client_of] in Ha; apply andb_true_iff in Ha as [Ha _]; apply Nat.ltb_lt in Ha;
      cbn [tells]; destruct (st_clients (j_tracker s) !! c) as [[]|]; try done; unfold remote_part; cbn [omap list_omap fst snd]; rewrite (proj2 (Nat.leb_gt nlocal c)) by lia; done.
  - destruct (j_recv s !! h) as [c|]; [|done]. destruct (recv_action c a) eqn:Ha; [|done]. destruct (step cfg (j_tracker s) a) as [[u os]|] eqn:E; [|done].
    assert (goes [] (j_tracker s) u os []) as G by (eapply goes_quiet; [exact E|by intros; intros -> |by intros; intros ->]).
    destruct (returned os) as [d|].
    + destruct (ServerModel.step _ _ _) as [[sv evs]|] eqn:Es; [|done]. intros H. injection H as <- <-.
      rewrite tracker_side_app, http_side_app, tracker_side_l, tracker_side_r, http_side_l, http_side_r, app_nil_r, app_nil_l. cbn [j_tracker]. by rewrite (deliver_quiet _ _ _ _ _ Es).
    + intros H. injection H as <- <-. by rewrite tracker_side_l, http_side_l.
  - destruct (j_closed s || is_deliver l || negb (flag_ok s l)); [done|]. destruct (ServerModel.step _ _ _) as [[sv evs]|]; [|done].
    destruct (send_all _ _ _ _ _ _) as [[u os]|] eqn:E; [|done]. apply send_all_goes in E. destruct (new_flags s l evs) as [fls nx].
    assert (forall os', tracker_side (map inl os' ++ map inr evs) = os') as E1 by (intros; by rewrite tracker_side_app, tracker_side_l, tracker_side_r, app_nil_r).
    assert (forall os', http_side (map inl os' ++ map inr evs) = evs) as E2 by (intros; by rewrite http_side_app, http_side_l, http_side_r).
    destruct (label_handler l) as [h|]; [|intros H; injection H as <- <-; by rewrite E1, E2].
    destruct (waiting (j_http s) h), (waiting sv h); try (intros H; injection H as <- <-; by rewrite E1, E2).
    + destruct (j_recv s !! h) as [c'|]; [|done]. destruct (step cfg u (ADrop c')) as [[u' os']|] eqn:Ed; [|done]. intros H. injection H as <- <-. rewrite E1, E2. cbn [j_tracker].
      rewrite <- (app_nil_r (omap message_tells evs)). eapply (goes_app [] []); [exact E|]. by eapply goes_quiet.
    + destruct (can_attach _ _ _ _ _ _); [|done]. intros H. injection H as <- <-. by rewrite E1, E2.
  - destruct (ServerModel.sv_reaper (j_http s)); try done; (destruct (bool_decide _); [|done]); intros H; injection H as <- <-; apply goes_nil.
  - destruct (j_closed s && Nat.leb nlocal c); [|done]. destruct (step cfg (j_tracker s) (ADrop c)) as [[u os]|] eqn:E; [|done]. intros H. injection H as <- <-.
    rewrite tracker_side_l, http_side_l. cbn [j_tracker]. by eapply goes_quiet.
Qed.
Lemma jrun_goes acts : forall s s' t, jrun secret cfg nlocal s acts = Some (s', t) -> goes (local_actions acts) (j_tracker s) (j_tracker s') (tracker_side t) (omap message_tells (http_side t)).
Proof.
  induction acts as [|a acts IH]; intros s s' t H; cbn [jrun] in H; [injection H as <- <-; apply goes_nil|].
  destruct (jstep secret cfg nlocal s a) as [[s1 t1]|] eqn:E; [|done]. destruct (jrun secret cfg nlocal s1 acts) as [[s2 t2]|] eqn:R; [|done]. injection H as <- <-.
  rewrite tracker_side_app, http_side_app, omap_app. change (a :: acts) with ([a] ++ acts). unfold local_actions. rewrite omap_app. eapply goes_app; [by eapply jstep_goes|by eapply IH].
Qed.
End joint.
