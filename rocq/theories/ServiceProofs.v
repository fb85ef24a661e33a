(** Proofs about the parts of a call that run side by side. *)
From Verif Require Export LocProofs ServiceSpec.
Open Scope list_scope.

Arguments token_of : simpl never.
Arguments url_of : simpl never.

Section proofs.
Variable pl : plan.

Lemma srun_app s acts acts' : srun pl s (acts ++ acts') =
  match srun pl s acts with None => None | Some (s', t) => match srun pl s' acts' with None => None | Some (s'', t') => Some (s'', t ++ t') end end.
Proof.
  revert s. induction acts as [|a acts IH]; intros s; cbn [srun app].
  - destruct (srun pl s acts') as [[? ?]|]; done.
  - destruct (sstep pl s a) as [[s1 os]|]; [|done]. rewrite IH. destruct (srun pl s1 acts) as [[s2 t2]|]; [|done].
    destruct (srun pl s2 acts') as [[s3 t3]|]; [|done]. by rewrite List.app_assoc.
Qed.

Lemma sreachable_ind' (P : call -> list sobs -> Prop) : P (start pl) [] ->
  (forall s t a s' os, sreachable pl s t -> P s t -> sstep pl s a = Some (s', os) -> P s' (t ++ os)) ->
  forall s t, sreachable pl s t -> P s t.
Proof.
  intros H0 HS s t [acts Hr]. revert s t Hr. induction acts as [|a acts IH] using rev_ind; intros s t Hr.
  - cbn in Hr. by injection Hr as <- <-.
  - rewrite srun_app in Hr. destruct (srun pl (start pl) acts) as [[s1 t1]|] eqn:E; [|done]. cbn in Hr.
    destruct (sstep pl s1 a) as [[s2 os]|] eqn:E2; [|done]. injection Hr as <- <-. rewrite app_nil_r.
    eapply HS; [by exists acts|by apply IH|done].
Qed.

Lemma sreachable_more s t acts s' t' : sreachable pl s t -> srun pl s acts = Some (s', t') -> sreachable pl s' (t ++ t').
Proof. intros [a Ha] H. exists (a ++ acts). by rewrite srun_app, Ha, H. Qed.

(** One case per action that is possible. *)
Ltac step_cases H := unfold sstep in H;
  repeat match type of H with
  | context [match ?x with _ => _ end] => destruct x eqn:?; try discriminate H
  end; injection H as <- <-.

(** The phases of the provisioner determine its history. *)
Definition spawned_obs (t : list sobs) (o : sobs) (pid : N) : Prop :=
  exists cmd port, pl_prov pl = Some cmd /\ In (OListening port) t /\ o = OSpawned cmd (url_of port) (token_of (pl_random pl)) pid.
Definition prov_inv (s : call) (t : list sobs) : Prop :=
  match ca_prov s with
  | PvWaiting => provisioner_history t = [] /\ ca_proc s = NoProcess /\ pl_prov pl <> None
  | PvRunning pid => exists o, spawned_obs t o pid /\ provisioner_history t = [o] /\ (ca_proc s = Alive \/ ca_proc s = Exited)
  | PvSignalled pid => ca_hard s = true /\ exists o, spawned_obs t o pid /\ provisioner_history t = [o; OKilled pid SIGINT] /\ ca_proc s <> Waited
  | PvPanicked => provisioner_history t = [] /\ ca_addr s = Dropped
  | PvEnded =>
      (pl_prov pl = None /\ provisioner_history t = []) \/
      (ca_hard s = true /\ (provisioner_history t = [OSpawnFailed] \/
         exists o pid, spawned_obs t o pid /\ (provisioner_history t = [o; OWaited pid] \/ provisioner_history t = [o; OKilled pid SIGKILL] \/
                       provisioner_history t = [o; OKilled pid SIGINT; OKilled pid SIGKILL])))
  end.
Definition addr_inv (s : call) (t : list sobs) : Prop :=
  match ca_addr s with
  | Sent url => exists port, url = url_of port /\ In (OListening port) t
  | NotYet => pl_prov pl = None \/ ca_server s = SvStarting
  | Dropped => ca_server s = SvPanicked
  end.

Lemma addr_reach s t : sreachable pl s t -> addr_inv s t.
Proof.
  revert s t. apply sreachable_ind'.
  - unfold addr_inv, start. destruct (pl_prov pl); cbn; tauto.
  - intros s t a s' os _ IH H. unfold addr_inv in *.
    destruct a; step_cases H; cbn in *;
      repeat match goal with
      | H : context [match ca_addr ?s with _ => _ end] |- _ => destruct (ca_addr s) eqn:?
      | |- context [match ca_addr ?s with _ => _ end] => destruct (ca_addr s) eqn:?
      end; simplify_eq; try done; try (destruct IH as (? & ? & ?); eexists; split; [eassumption|]; rewrite in_app_iff; tauto);
      try (destruct IH as [?|?]; [by left|congruence]); try congruence; try (eexists; split; [done|]; rewrite in_app_iff; cbn; tauto).
Qed.

Lemma history_app t t' : provisioner_history (t ++ t') = provisioner_history t ++ provisioner_history t'.
Proof. apply List.filter_app. Qed.
Lemma spawned_more t t' o pid : spawned_obs t o pid -> spawned_obs (t ++ t') o pid.
Proof. intros (cmd & port & ? & ? & ?). exists cmd, port. rewrite in_app_iff. tauto. Qed.

Lemma prov_more s s' t os : prov_inv s t -> ca_prov s' = ca_prov s -> ca_proc s' = ca_proc s -> (ca_hard s = true -> ca_hard s' = true) ->
  (ca_addr s = Dropped -> ca_addr s' = Dropped) -> provisioner_history os = [] -> prov_inv s' (t ++ os).
Proof.
  unfold prov_inv. intros HI -> -> Hh Ha Ho. rewrite history_app, Ho, app_nil_r. destruct (ca_prov s).
  - done.
  - destruct HI as (o & ? & ? & ?). exists o. split; [by apply spawned_more|done].
  - destruct HI as (? & o & ? & ? & ?). split; [tauto|]. exists o. split; [by apply spawned_more|done].
  - destruct HI as [?|(? & HI)]; [by left|]. right. split; [tauto|]. destruct HI as [?|(o & pid & ? & ?)]; [by left|].
    right. exists o, pid. split; [by apply spawned_more|done].
  - tauto.
Qed.

Lemma prov_reach s t : sreachable pl s t -> prov_inv s t.
Proof.
  revert s t. apply sreachable_ind'.
  - unfold prov_inv, start. destruct (pl_prov pl) eqn:E; cbn; [done|]. by left.
  - intros s t a s' os Hr IH H. pose proof (addr_reach _ _ Hr) as HA.
    destruct a; step_cases H; try solve [apply (prov_more s); cbn; first [done|congruence|tauto]].
    + (* AListen *) apply (prov_more s); cbn; try done. intros Hd. unfold addr_inv in HA. rewrite Hd in HA. congruence.
    + (* AStart *) unfold prov_inv in *. cbn. rewrite Heqp in IH. unfold addr_inv in HA. rewrite Heqa in HA. destruct HA as (port & -> & HA).
      destruct IH as (Hh & _). eexists. split; [|split; [by rewrite history_app, Hh|by left]].
      exists s0, port. rewrite in_app_iff. tauto.
    + (* AStartFails *) unfold prov_inv in *. cbn. rewrite Heqp in IH. destruct IH as (Hh & _). right. split; [done|]. left. by rewrite history_app, Hh.
    + (* ANoAddress *) unfold prov_inv in *. cbn. rewrite Heqp in IH. destruct IH as (Hh & _). split; [|done]. by rewrite history_app, Hh.
    + (* AProcessExits *) unfold prov_inv in *. cbn. rewrite app_nil_r, Heqp in *. destruct (ca_prov s).
      * by destruct IH as (_ & ? & _).
      * destruct IH as (o & ? & ? & ?). exists o. tauto.
      * destruct IH as (? & o & ? & ? & ?). split; [done|]. by exists o.
      * done.
      * done.
    + (* AWait *) unfold prov_inv in *. cbn. rewrite Heqp in IH. destruct IH as (o & Ho & Hh & _). right. split; [done|]. right. exists o, pid.
      split; [by apply spawned_more|]. left. by rewrite history_app, Hh.
    + (* AWaitFails *) unfold prov_inv in *. cbn. rewrite Heqp in IH. destruct IH as (o & Ho & Hh & _). right. split; [done|]. right. exists o, pid.
      split; [by apply spawned_more|]. right. left. by rewrite history_app, Hh.
    + (* AInterrupt *) unfold prov_inv in *. cbn. rewrite Heqp in IH. destruct IH as (o & Ho & Hh & Hp). split; [done|]. exists o.
      split; [by apply spawned_more|]. split; [by rewrite history_app, Hh|]. destruct Hp as [-> | ->]; done.
    + (* ADropChild *) unfold prov_inv in *. cbn. rewrite Heqp in IH. destruct IH as (_ & o & Ho & Hh & Hp). right. split; [done|]. right. exists o, pid.
      split; [by apply spawned_more|]. right. right. by rewrite history_app, Hh.
Qed.

(** Who is there to use the tracker. *)
Definition users_inv (s : call) (t : list sobs) : Prop :=
  match ca_server s with
  | SvStarting => ca_conns s = 0 /\ ca_reaper s = RpAbsent
  | SvServing | SvDraining => ca_reaper s <> RpAbsent /\ (ca_server s = SvDraining -> ca_hard s = true)
  | SvJoining => ca_conns s = 0 /\ ca_stop s = true /\ ca_reaper s <> RpAbsent /\ ca_hard s = true
  | SvEnded | SvPanicked => ca_conns s = 0 /\ ca_reaper s <> RpRunning
  end /\
  match ca_admin s with
  | AdStarting => ca_aconns s = 0
  | AdEnded => ca_aconns s = 0 \/ In OAdminBroken t
  | _ => True
  end /\
  match ca_main s with
  | MServing => ~ In OFree t
  | MJoining => ~ In OFree t /\ ca_hard s = true
  | MReturned => joined s = true /\ In OReturned t
  | MPanicked => joined s = true \/ In OServeFailed t
  end.

Lemma users_reach s t : sreachable pl s t -> users_inv s t.
Proof.
  revert s t. apply sreachable_ind'.
  - unfold users_inv, start. destruct (pl_prov pl); cbn; repeat split; auto; try (by left); done.
  - intros s t a s' os _ (H1 & H2 & H3) H. unfold users_inv.
    assert (Hj : joined s = true -> joined s' = true).
    { clear H1 H2 H3. unfold joined. destruct a; step_cases H; cbn; repeat match goal with H : ca_server _ = _ |- _ => rewrite H | H : ca_admin _ = _ |- _ => rewrite H | H : ca_prov _ = _ |- _ => rewrite H end; try done; try (by rewrite ?andb_false_r).
      intros Hj. repeat (apply andb_true_iff in Hj as [Hj ?]). repeat (apply andb_true_iff; split); try done.
      apply forallb_forall. intros x Hx. rewrite forallb_forall in Hj. apply elem_of_list_In in Hx. apply elem_of_list_lookup in Hx as [j Hx].
      destruct (decide (i = j)) as [-> |Hne].
      - rewrite list_lookup_insert in Hx; [by injection Hx as <-|]. apply lookup_lt_Some in Hx. by rewrite insert_length in Hx.
      - rewrite list_lookup_insert_ne in Hx by done. apply Hj. apply elem_of_list_In, elem_of_list_lookup. by exists j. }
    assert (Hm : match ca_main s' with
      | MServing => ~ In OFree (t ++ os)
      | MJoining => ~ In OFree (t ++ os) /\ ca_hard s' = true
      | MReturned => joined s' = true /\ In OReturned (t ++ os)
      | MPanicked => joined s' = true \/ In OServeFailed (t ++ os)
      end).
    { destruct a; step_cases H; cbn [ca_main ca_hard set_main set_hard set_finished set_loops set_server set_conns set_reaper set_stop set_admin set_aconns set_addr set_prov set_proc] in *;
        repeat match goal with H : ca_main _ = _ |- _ => rewrite H in * end;
        try (destruct (ca_main s); repeat rewrite in_app_iff; cbn in *; intuition discriminate);
        repeat rewrite in_app_iff; cbn in *; intuition discriminate. }
    split; [|split; [|exact Hm]].
    + clear Hm Hj H2 H3. destruct a; step_cases H; cbn in *; repeat match goal with H : ca_server _ = _ |- _ => rewrite H in * | H : ca_reaper _ = _ |- _ => rewrite H in * | H : ca_conns _ = _ |- _ => rewrite H in * end;
        try done; try tauto; try (destruct (ca_server s); try tauto; (repeat split; try tauto; try done; intuition discriminate || intuition congruence)).
    + clear Hm Hj H1 H3. destruct a; step_cases H; cbn in *; repeat match goal with H : ca_admin _ = _ |- _ => rewrite H in * | H : ca_aconns _ = _ |- _ => rewrite H in * end;
        try done; try tauto; try (destruct (ca_admin s); try tauto; try done; rewrite ?in_app_iff; cbn; intuition discriminate);
        rewrite ?in_app_iff; cbn; tauto.
Qed.

Lemma uaf_app t os : use_after_free (t ++ os) -> use_after_free t \/ (exists u, In OFree t /\ In (OUse u) os) \/ use_after_free os.
Proof.
  intros (t1 & t2 & u & E & Hu). apply app_eq_app in E as (l & [[-> E]|[-> E]]).
  - destruct l as [|o l].
    + cbn in E. right. right. exists [], t2, u. by rewrite E.
    + injection E as <- ->. apply in_app_iff in Hu as [Hu|Hu]; [left; by exists t1, l, u|]. right. left. exists u. split; [|done].
      rewrite in_app_iff. right. by left.
  - right. right. exists l, t2, u. done.
Qed.

Lemma no_uaf s t : sreachable pl s t -> ~ In OServeFailed t -> ~ In OAdminBroken t -> ~ use_after_free t.
Proof.
  revert s t. apply (sreachable_ind' (fun s t => ~ In OServeFailed t -> ~ In OAdminBroken t -> ~ use_after_free t)).
  - intros _ _ (t1 & t2 & u & E & _). by destruct t1.
  - intros s t a s' os Hr IH H H1 H2 HU. rewrite in_app_iff in H1, H2. apply uaf_app in HU as [HU|[(u & Hf & Hu)|HU]].
    + apply IH; tauto.
    + destruct (users_reach _ _ Hr) as (I1 & I2 & I3).
      assert (HJ : joined s = true). { destruct (ca_main s); [done|by destruct I3|by destruct I3|destruct I3; [done|tauto]]. }
      unfold joined in HJ. apply andb_true_iff in HJ as [HJ HP]. apply andb_true_iff in HJ as [HJ HA]. apply andb_true_iff in HJ as [HL HS].
      destruct a; step_cases H; cbn in Hu; try tauto; destruct Hu as [Hu|Hu]; try tauto; try discriminate; try (destruct Hu; [discriminate|done]).
      * unfold is_loop in Heqb. destruct (ca_loops s !! i) eqn:E; [|done]. subst b. rewrite forallb_forall in HL.
        apply elem_of_list_lookup_2, elem_of_list_In in E. by specialize (HL _ E).
      * destruct (ca_server s); try done; destruct I1; congruence.
      * destruct (ca_server s); try done; destruct I1; congruence.
      * destruct (ca_admin s); try done. destruct I2; [congruence|tauto].
    + destruct HU as (t1 & t2 & u & E & Hu). assert (In OFree os) as HF by (subst os; rewrite in_app_iff; right; by left).
      destruct a; step_cases H; cbn in HF; try tauto;
        try (destruct HF as [HF|[]]; discriminate); destruct t1 as [|? [|? [|? ?]]]; cbn in E; injection E as; subst; cbn in *; intuition discriminate.
Qed.

(** Everything but the repeatable actions uses up something. *)
Definition measure (s : call) : nat :=
  match ca_main s with MServing => 2 | MJoining => 1 | _ => 0 end + length (List.filter (fun b => b) (ca_loops s)) +
  match ca_server s with SvStarting => 5 | SvServing => 3 | SvDraining => 2 | SvJoining => 1 | _ => 0 end + ca_conns s +
  match ca_reaper s with RpAbsent | RpRunning => 1 | _ => 0 end +
  match ca_admin s with AdStarting => 3 | AdServing => 2 | AdDraining => 1 | AdEnded => 0 end + ca_aconns s +
  match ca_prov s with PvWaiting => 4 | PvRunning _ => 2 | PvSignalled _ => 1 | _ => 0 end +
  match ca_proc s with NoProcess | Alive => 1 | _ => 0 end.

Lemma filter_end (l : list bool) i : l !! i = Some true -> S (length (List.filter (fun b => b) (<[i:=false]> l))) = length (List.filter (fun b => b) l).
Proof.
  revert i. induction l as [|b l IH]; intros [|i] H; try done.
  - by injection H as ->.
  - cbn in *. destruct b; cbn; by rewrite IH.
Qed.

Lemma measure_step s a s' os : sstep pl s a = Some (s', os) ->
  measure s' + (if repeatable a then 0 else 1) <= measure s + (if connects a then 1 else 0).
Proof.
  intros H. unfold measure. destruct a; step_cases H; cbn;
    repeat match goal with H : ca_main _ = _ |- _ => rewrite H | H : ca_server _ = _ |- _ => rewrite H | H : ca_reaper _ = _ |- _ => rewrite H
      | H : ca_admin _ = _ |- _ => rewrite H | H : ca_prov _ = _ |- _ => rewrite H | H : ca_proc _ = _ |- _ => rewrite H
      | H : ca_conns _ = _ |- _ => rewrite H | H : ca_aconns _ = _ |- _ => rewrite H end; try lia.
  unfold is_loop in Heqb. destruct (ca_loops s !! i) eqn:E; [|done]. subst b. pose proof (filter_end _ _ E). lia.
  all: try (destruct (ca_proc s)); try (destruct (ca_reaper s)); lia.
Qed.

Lemma measure_run acts : forall s s' t, srun pl s acts = Some (s', t) ->
  measure s' + length (List.filter (fun a => negb (repeatable a)) acts) <= measure s + length (List.filter connects acts).
Proof.
  induction acts as [|a acts IH]; intros s s' t H; cbn in H.
  - injection H as <- <-. cbn. lia.
  - destruct (sstep pl s a) as [[s1 os]|] eqn:E; [|done]. destruct (srun pl s1 acts) as [[s2 t2]|] eqn:E2; [|done]. injection H as <- <-.
    apply IH in E2. apply measure_step in E. cbn. destruct (repeatable a), (connects a); cbn in *; lia.
Qed.
Lemma measure_start : measure (start pl) <= 16 + pl_loops pl.
Proof.
  assert (H : forall n, length (List.filter (fun b => b) (replicate n true)) = n) by (induction n; cbn; congruence).
  unfold start. destruct (pl_prov pl); unfold measure; cbn; rewrite H; lia.
Qed.

Lemma hard_step s a s' os : sstep pl s a = Some (s', os) -> ca_hard s = true -> ca_hard s' = true.
Proof. intros H Hh. destruct a; step_cases H; cbn; done. Qed.

(** Once the token is cancelled, there is always something to do until the end. *)
Lemma go_on s t : sreachable pl s t -> ca_hard s = true -> ca_main s = MServing \/ ca_main s = MJoining ->
  exists a s' os, sstep pl s a = Some (s', os) /\ repeatable a = false /\ unwanted a = false.
Proof.
  intros Hr Hh Hm. destruct (users_reach _ _ Hr) as (I1 & I2 & _). pose proof (prov_reach _ _ Hr) as IP. pose proof (addr_reach _ _ Hr) as IA.
  destruct Hm as [Hm|Hm]; [exists AServeEnds; cbn; rewrite Hm, Hh; eauto|].
  destruct (forallb negb (ca_loops s)) eqn:EL.
  2:{ assert (exists i, ca_loops s !! i = Some true) as [i Hi].
      { clear -EL. induction (ca_loops s) as [|[] l IH]; [done|by exists 0|]. cbn in EL. destruct (IH EL) as [i Hi]. by exists (S i). }
      exists (ALoopEnd i). cbn. unfold is_loop. rewrite Hi. eauto. }
  destruct (ca_server s) eqn:ES.
  - exists (AListen 1). cbn. rewrite ES. eauto.
  - exists AShutdown. cbn. rewrite ES, Hh. eauto.
  - destruct (ca_conns s) eqn:EC; [exists ADrained|exists AConnEnd]; cbn; rewrite ?ES, ?EC; [|eauto]. destruct (ca_reaper s); eauto.
  - destruct I1 as (_ & Hs & Hn & _). destruct (ca_reaper s) eqn:ER; [done| |exists AServerJoins; cbn; rewrite ES, ER; eauto|exists AServerJoins; cbn; rewrite ES, ER; eauto].
    exists AReaperStops. cbn. rewrite ER, Hs. eauto.
  - destruct (ca_admin s) eqn:EA.
    + exists AAdminListens. cbn. rewrite EA. eauto.
    + exists AAdminShutdown. cbn. rewrite EA, Hh. eauto.
    + destruct (ca_aconns s) eqn:EC; [exists AAdminDrained|exists AAdminConnEnd]; cbn; rewrite ?EA, ?EC; eauto.
    + destruct (ca_prov s) eqn:EP.
      * unfold addr_inv in IA. unfold prov_inv in IP. rewrite EP in IP. destruct IP as (_ & _ & IP). destruct (ca_addr s) eqn:ED; [destruct IA; congruence| |congruence].
        exists (AStart 1). cbn. rewrite EP, ED. destruct (pl_prov pl); [eauto|done].
      * exists AInterrupt. cbn. rewrite EP, Hh. eauto.
      * exists ADropChild. cbn. rewrite EP. eauto.
      * exists AReturn. cbn. unfold joined. rewrite Hm, EL, ES, EA, EP. eauto.
      * exists AReturn. cbn. unfold joined. rewrite Hm, EL, ES, EA, EP. eauto.
  - destruct (ca_admin s) eqn:EA.
    + exists AAdminListens. cbn. rewrite EA. eauto.
    + exists AAdminShutdown. cbn. rewrite EA, Hh. eauto.
    + destruct (ca_aconns s) eqn:EC; [exists AAdminDrained|exists AAdminConnEnd]; cbn; rewrite ?EA, ?EC; eauto.
    + destruct (ca_prov s) eqn:EP.
      * unfold addr_inv in IA. unfold prov_inv in IP. rewrite EP in IP. destruct IP as (_ & _ & IP). destruct (ca_addr s) eqn:ED; [destruct IA; congruence| |].
        -- exists (AStart 1). cbn. rewrite EP, ED. destruct (pl_prov pl); [eauto|done].
        -- exists ANoAddress. cbn. rewrite EP, ED. eauto.
      * exists AInterrupt. cbn. rewrite EP, Hh. eauto.
      * exists ADropChild. cbn. rewrite EP. eauto.
      * exists AReturn. cbn. unfold joined. rewrite Hm, EL, ES, EA, EP. eauto.
      * exists AReturn. cbn. unfold joined. rewrite Hm, EL, ES, EA, EP. eauto.
Qed.

Lemma connects_repeatable a : repeatable a = false -> connects a = false.
Proof. by destruct a. Qed.
Lemma main_step s a s' os : sstep pl s a = Some (s', os) -> unwanted a = false -> ca_main s = MServing \/ ca_main s = MJoining ->
  ca_main s' = MServing \/ ca_main s' = MJoining \/ In OReturned os.
Proof. intros H Hu Hm. destruct a; try discriminate Hu; step_cases H; cbn in *; tauto. Qed.

Lemma comes_to_end s t : sreachable pl s t -> ca_hard s = true -> ca_main s = MServing \/ ca_main s = MJoining ->
  exists acts s' t', srun pl s acts = Some (s', t') /\ In OReturned t' /\ Forall (fun a => unwanted a = false) acts.
Proof.
  remember (measure s) as n eqn:E. revert s t E. induction (lt_wf n) as [n _ IH]. intros s t -> Hr Hh Hm.
  destruct (go_on _ _ Hr Hh Hm) as (a & s1 & os & H1 & H2 & H3). pose proof (measure_step _ _ _ _ H1) as Hd. rewrite H2, (connects_repeatable _ H2) in Hd.
  assert (sreachable pl s1 (t ++ os)) as Hr1 by (apply (sreachable_more _ _ [a] _ _ Hr); cbn; by rewrite H1, app_nil_r).
  destruct (main_step _ _ _ _ H1 H3 Hm) as [Hm1|[Hm1|Ho]].
  3:{ exists [a], s1, os. cbn. rewrite H1, app_nil_r. split; [done|]. split; [done|]. by constructor. }
  all: destruct (IH (measure s1) ltac:(lia) s1 (t ++ os) eq_refl Hr1 (hard_step _ _ _ _ H1 Hh) ltac:(tauto)) as (acts & s2 & t2 & R1 & R2 & R3);
    exists (a :: acts), s2, (os ++ t2); cbn; rewrite H1, R1; split; [done|]; split; [rewrite in_app_iff; tauto|by constructor].
Qed.

Lemma main_free s t : sreachable pl s t -> ~ In OFree t -> ca_main s = MServing \/ ca_main s = MJoining.
Proof.
  intros Hr. assert (H : ca_main s = MServing \/ ca_main s = MJoining \/ In OFree t).
  { revert s t Hr. apply (sreachable_ind' (fun s t => ca_main s = MServing \/ ca_main s = MJoining \/ In OFree t)).
    - unfold start. destruct (pl_prov pl); by left.
    - intros s t a s' os _ IH H. rewrite in_app_iff. destruct a; step_cases H; cbn in *; tauto. }
  tauto.
Qed.

Lemma over_hard s t : sreachable pl s t -> provisioner_over t -> ca_hard s = true.
Proof.
  intros Hr Ho. pose proof (prov_reach _ _ Hr) as IP.
  assert (Hin : In OSpawnFailed (provisioner_history t) \/ (exists pid, In (OWaited pid) (provisioner_history t)) \/ (exists pid, In (OKilled pid SIGKILL) (provisioner_history t))).
  { unfold provisioner_history. destruct Ho as [?|[[pid ?]|[pid ?]]]; [left|right; left; exists pid|right; right; exists pid]; apply List.filter_In; done. }
  unfold prov_inv in IP. destruct (ca_prov s).
  - destruct IP as (E & _). rewrite E in Hin. cbn in Hin. destruct Hin as [[]|[[? []]|[? []]]].
  - destruct IP as (o & (cmd & port & _ & _ & ->) & E & _). rewrite E in Hin. cbn in Hin. destruct Hin as [[?|[]]|[[? [?|[]]]|[? [?|[]]]]]; discriminate.
  - tauto.
  - destruct IP as [(_ & E)|[? _]]; [|done]. rewrite E in Hin. cbn in Hin. destruct Hin as [[]|[[? []]|[? []]]].
  - destruct IP as (E & _). rewrite E in Hin. cbn in Hin. destruct Hin as [[]|[[? []]|[? []]]].
Qed.

Lemma returned_main s t : sreachable pl s t -> In OReturned t -> ca_main s = MReturned.
Proof.
  revert s t. apply (sreachable_ind' (fun s t => In OReturned t -> ca_main s = MReturned)); [done|].
  intros s t a s' os _ IH H Hin. apply in_app_iff in Hin. destruct a; step_cases H; cbn in *; destruct Hin as [Hin|Hin]; try apply IH in Hin; try tauto; try congruence;
    intuition congruence.
Qed.

(** An observation is made by a step. *)
Lemma made_by s t : sreachable pl s t -> forall t1 o t2, t = t1 ++ o :: t2 ->
  exists s0 t0 a s1 os l1 l2, sreachable pl s0 t0 /\ sstep pl s0 a = Some (s1, os) /\ os = l1 ++ o :: l2 /\ t1 = t0 ++ l1.
Proof.
  revert s t. apply (sreachable_ind' (fun s t => forall t1 o t2, t = t1 ++ o :: t2 ->
    exists s0 t0 a s1 os l1 l2, sreachable pl s0 t0 /\ sstep pl s0 a = Some (s1, os) /\ os = l1 ++ o :: l2 /\ t1 = t0 ++ l1)).
  - intros [|? ?]; done.
  - intros s t a s' os Hr IH H t1 o t2 E. apply app_eq_app in E as (l & [[-> E]|[-> E]]).
    + destruct l as [|o' l].
      * cbn in E. subst os. exists s, (t1 ++ []), a, s', (o :: t2), [], t2. rewrite !app_nil_r in *. done.
      * injection E as <- ->. by apply (IH t1 o l).
    + exists s, t, a, s', os, l, t2. done.
Qed.

(** The call is cancelled for a reason. *)
Lemma running_not_over s t pid : sreachable pl s t -> ca_prov s = PvRunning pid -> ~ provisioner_over t.
Proof.
  intros Hr Hp Ho. pose proof (prov_reach _ _ Hr) as IP. unfold prov_inv in IP. rewrite Hp in IP. destruct IP as (o & (cmd & port & _ & _ & ->) & E & _).
  assert (H : forall o', of_provisioner o' = true -> In o' t -> In o' (provisioner_history t)) by (intros; apply List.filter_In; done).
  rewrite E in H. destruct Ho as [Ho|[[p Ho]|[p Ho]]]; apply H in Ho; try done; destruct Ho as [Ho|[]]; discriminate Ho.
Qed.
Definition phases_inv (s : call) : Prop :=
  (match ca_server s with SvDraining | SvJoining => ca_hard s = true | _ => True end) /\
  (match ca_main s with MJoining | MReturned => ca_hard s = true | _ => True end) /\
  (match ca_prov s with PvSignalled _ => ca_hard s = true | _ => True end).
Lemma phases_reach s t : sreachable pl s t -> phases_inv s.
Proof.
  revert s t. apply (sreachable_ind' (fun s t => phases_inv s)).
  - unfold phases_inv, start. by destruct (pl_prov pl).
  - intros s t a s' os _ (I1 & I2 & I3) H. unfold phases_inv. destruct a; step_cases H; cbn;
      repeat match goal with E : ca_hard s = true |- _ => rewrite E in * | E : ca_server s = _ |- _ => rewrite E in * | E : ca_main s = _ |- _ => rewrite E in * | E : ca_prov s = _ |- _ => rewrite E in * end;
      (split; [|split]); first [done | destruct (ca_server s); done | destruct (ca_main s); done | destruct (ca_prov s); done].
Qed.
Lemma srun_snoc acts a s t : srun pl (start pl) (acts ++ [a]) = Some (s, t) ->
  exists s1 t1 os, srun pl (start pl) acts = Some (s1, t1) /\ sstep pl s1 a = Some (s, os) /\ t = t1 ++ os.
Proof.
  rewrite srun_app. destruct (srun pl (start pl) acts) as [[s1 t1]|]; [|done]. cbn [srun]. destruct (sstep pl s1 a) as [[s2 os]|] eqn:E; [|done].
  intros [= <- <-]. exists s1, t1, os. by rewrite app_nil_r.
Qed.
Lemma finished_reason acts : forall s t, srun pl (start pl) acts = Some (s, t) -> ca_finished s = true -> In AAllFinished acts.
Proof.
  induction acts as [|a acts IH] using rev_ind; intros s t H Hf.
  - injection H as <- <-. unfold start in Hf. by destruct (pl_prov pl).
  - apply srun_snoc in H as (s1 & t1 & os & H1 & H2 & _). apply in_app_iff. destruct (ca_finished s1) eqn:E; [left; by eapply IH|]. right.
    destruct a; step_cases H2; cbn in Hf; try congruence. by left.
Qed.
Lemma asked_more acts a : asked_to_end acts -> asked_to_end (acts ++ [a]).
Proof. unfold asked_to_end. rewrite !in_app_iff. tauto. Qed.
Lemma over_more t os : provisioner_over t -> provisioner_over (t ++ os).
Proof. intros [?|[[p ?]|[p ?]]]; [left|right; left; exists p|right; right; exists p]; apply in_app_iff; by left. Qed.
Lemma hard_reason acts : forall s t, srun pl (start pl) acts = Some (s, t) -> ca_hard s = true -> asked_to_end acts \/ provisioner_over t.
Proof.
  induction acts as [|a acts IH] using rev_ind; intros s t H Hh.
  - injection H as <- <-. unfold start in Hh. by destruct (pl_prov pl).
  - apply srun_snoc in H as (s1 & t1 & os & H1 & H2 & ->). destruct (ca_hard s1) eqn:E.
    { destruct (IH _ _ H1 E) as [I|I]; [left; by apply asked_more|right; by apply over_more]. }
    pose proof (finished_reason _ _ _ H1) as Hf. destruct (phases_reach s1 t1) as (P1 & P2 & P3); [by exists acts|]. clear IH H1.
    destruct a; try (left; unfold asked_to_end; rewrite !in_app_iff; cbn; tauto); step_cases H2; cbn in Hh; try congruence.
    + left. left. apply in_app_iff. left. apply Hf. by rewrite E in *.
    + right. left. apply in_app_iff. right. by left.
    + right. right. left. eexists. apply in_app_iff. right. by left.
    + right. right. right. eexists. apply in_app_iff. right. by left.
Qed.
Lemma interrupt_reason acts : forall s t pid, srun pl (start pl) acts = Some (s, t) -> In (OKilled pid SIGINT) t -> asked_to_end acts.
Proof.
  induction acts as [|a acts IH] using rev_ind; intros s t pid H Hi; [by injection H as <- <-|].
  apply srun_snoc in H as (s1 & t1 & os & H1 & H2 & ->). apply in_app_iff in Hi as [Hi|Hi]; [by eapply asked_more, IH|].
  destruct a; step_cases H2; cbn in Hi; try (destruct Hi as [Hi|Hi]; try discriminate Hi); try done.
  all: try (destruct Hi as [Hi|Hi]; try discriminate Hi; done).
  destruct (hard_reason _ _ _ H1) as [I|I]; [done|by apply asked_more|]. exfalso. eapply running_not_over; [by exists acts|done|done].
Qed.
Lemma return_reason acts s t : srun pl (start pl) acts = Some (s, t) -> In OReturned t -> asked_to_end acts \/ provisioner_over t.
Proof.
  intros H Hi. apply (hard_reason _ _ _ H). assert (Hr : sreachable pl s t) by (by exists acts).
  destruct (phases_reach _ _ Hr) as (_ & P & _). by rewrite (returned_main _ _ Hr Hi) in P.
Qed.
End proofs.

(** The authorization token. *)
Definition sextets : list N := map N.of_nat (seq 0 64).
Lemma sextet_in x : (x < 64)%N -> In x sextets.
Proof. intros H. apply in_map_iff. exists (N.to_nat x). split; [lia|]. apply in_seq. lia. Qed.
Lemma b64_table : forallb (fun x => forallb (fun y => implb (Ascii.eqb (b64_char x) (b64_char y)) (N.eqb x y)) sextets) sextets = true.
Proof. vm_compute. reflexivity. Qed.
Lemma b64_char_inj x y : (x < 64)%N -> (y < 64)%N -> b64_char x = b64_char y -> x = y.
Proof.
  intros Hx Hy E. pose proof b64_table as H. rewrite forallb_forall in H. specialize (H _ (sextet_in _ Hx)). rewrite forallb_forall in H.
  specialize (H _ (sextet_in _ Hy)). rewrite E, Ascii.eqb_refl in H. cbn in H. by apply N.eqb_eq.
Qed.
Lemma b64_char_token x : (x < 64)%N -> token_char (b64_char x) = true.
Proof.
  intros Hx. assert (H : forallb (fun x => token_char (b64_char x)) sextets = true) by (vm_compute; reflexivity).
  rewrite forallb_forall in H. by apply H, sextet_in.
Qed.

Definition byte (b : N) : Prop := (b < 256)%N.
Ltac divmod := unfold byte in *; zify; Z.to_euclidean_division_equations; lia.
Lemma b64_inj n : forall l l', length l < n -> length l = length l' -> Forall byte l -> Forall byte l' -> b64_encode l = b64_encode l' -> l = l'.
Proof.
  induction n as [|n IH]; intros l l' Hn Hl H H' E; [lia|].
  destruct l as [|a [|b [|c l]]], l' as [|a' [|b' [|c' l']]]; try discriminate Hl; [done| | |];
    repeat match goal with H : Forall _ (_ :: _) |- _ => apply Forall_cons in H as [? ?] end; cbn in E.
  - injection E as E1 E2. apply b64_char_inj in E1, E2; try divmod. f_equal. divmod.
  - injection E as E1 E2 E3. apply b64_char_inj in E1, E2, E3; try divmod. repeat f_equal; divmod.
  - injection E as E1 E2 E3 E4 E. apply b64_char_inj in E1, E2, E3, E4; try divmod. cbn in Hl, Hn. assert (l = l') as -> by (apply IH; [lia|lia|done..]).
    repeat f_equal; divmod.
Qed.
Lemma le_bytes_ok k : forall n, length (le_bytes k n) = k /\ Forall byte (le_bytes k n).
Proof.
  induction k as [|k IH]; intros n; cbn; [done|]. destruct (IH (n / 256)%N) as [H1 H2]. split; [by rewrite H1|]. constructor; [|done]. apply N.mod_lt. done.
Qed.
Lemma le_bytes_inj k : forall n m, (n < 256 ^ N.of_nat k)%N -> (m < 256 ^ N.of_nat k)%N -> le_bytes k n = le_bytes k m -> n = m.
Proof.
  induction k as [|k IH]; intros n m Hn Hm E.
  - cbn in *. lia.
  - rewrite Nat2N.inj_succ, N.pow_succ_r' in Hn, Hm. cbn in E. injection E as E1 E2. apply IH in E2; [|apply N.div_lt_upper_bound; lia..].
    rewrite (N.div_mod n 256), (N.div_mod m 256) by done. by rewrite E1, E2.
Qed.
Lemma token_inj n m : (n < 2 ^ 128)%N -> (m < 2 ^ 128)%N -> token_of n = token_of m -> n = m.
Proof.
  intros Hn Hm E. unfold token_of in E. destruct (le_bytes_ok 16 n) as [L1 F1], (le_bytes_ok 16 m) as [L2 F2].
  apply (b64_inj 17) in E; [|lia|lia|done..]. by apply le_bytes_inj in E.
Qed.
Lemma url_inj p q : url_of p = url_of q -> p = q.
Proof. unfold url_of. intros H. injection H as H. by apply decimal_inj. Qed.

Lemma token_shape n : length (list_ascii_of_string (token_of n)) = 24 /\ is_b64token (token_of n).
Proof.
  unfold token_of. destruct (le_bytes_ok 16 n) as [L F]. destruct (le_bytes 16 n) as [|a0 [|a1 [|a2 [|a3 [|a4 [|a5 [|a6 [|a7 [|a8 [|a9 [|a10 [|a11 [|a12 [|a13 [|a14 [|a15 [|]]]]]]]]]]]]]]]]] eqn:El; try discriminate L.
  repeat match goal with H : Forall _ (_ :: _) |- _ => apply Forall_cons in H as [? ?] end. clear El L. split; [reflexivity|].
  set (s := b64_encode [a0; a1; a2; a3; a4; a5; a6; a7; a8; a9; a10; a11; a12; a13; a14; a15]).
  assert (E : s = string_of_list_ascii (firstn 22 (list_ascii_of_string s)) +:+ "==") by reflexivity.
  exists (string_of_list_ascii (firstn 22 (list_ascii_of_string s))), "=="%string. split; [exact E|]. split; [done|].
  split; [|cbn; repeat constructor]. rewrite list_ascii_of_string_of_list_ascii. cbn [s b64_encode list_ascii_of_string firstn].
  repeat (apply Forall_cons; split; [apply b64_char_token; divmod|]). apply Forall_nil. done.
Qed.
