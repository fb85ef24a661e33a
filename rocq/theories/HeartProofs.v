(** Proofs about the heartbeat. *)
From Verif Require Export HeartSpec.
Open Scope N_scope.

Arguments may_pass : simpl never.

Section proofs.
Variable nw : network.

Lemma hrun_app s acts acts' : hrun nw s (acts ++ acts') =
  match hrun nw s acts with None => None | Some (s', t) => match hrun nw s' acts' with None => None | Some (s'', t') => Some (s'', t ++ t') end end.
Proof.
  revert s. induction acts as [|a acts IH]; intros s; cbn [hrun app].
  - destruct (hrun nw s acts') as [[? ?]|]; done.
  - destruct (hstep nw s a) as [[s1 os]|]; [|done]. rewrite IH. destruct (hrun nw s1 acts) as [[s2 t2]|]; [|done].
    destruct (hrun nw s2 acts') as [[s3 t3]|]; [|done]. by rewrite List.app_assoc.
Qed.

Lemma hreachable_ind' (P : heart -> list hevent -> Prop) : P heart_start [] ->
  (forall s t a s' os, hreachable nw s t -> P s t -> hstep nw s a = Some (s', os) -> P s' (t ++ os)) ->
  forall s t, hreachable nw s t -> P s t.
Proof.
  intros H0 HS s t [acts Hr]. revert s t Hr. induction acts as [|a acts IH] using rev_ind; intros s t Hr.
  - cbn in Hr. by injection Hr as <- <-.
  - rewrite hrun_app in Hr. destruct (hrun nw heart_start acts) as [[s1 t1]|] eqn:E; [|done]. cbn in Hr.
    destruct (hstep nw s1 a) as [[s2 os]|] eqn:E2; [|done]. injection Hr as <- <-. rewrite app_nil_r.
    eapply HS; [by exists acts|by apply IH|done].
Qed.

Lemma in_delete {A} (l : list A) i x : In x (delete i l) -> In x l.
Proof. rewrite <- !elem_of_list_In. intros H. apply elem_of_list_lookup in H as [j H].
  destruct (decide (j < i)%nat).
  - rewrite lookup_delete_lt in H by done. by eapply elem_of_list_lookup_2.
  - rewrite lookup_delete_ge in H by lia. by eapply elem_of_list_lookup_2.
Qed.
Lemma in_delete_other {A} (l : list A) i x y : l !! i = Some y -> In x l -> x = y \/ In x (delete i l).
Proof.
  intros Hi. revert i Hi. induction l as [|z l IH]; intros [|i] Hi Hx; try done.
  - injection Hi as ->. destruct Hx as [-> |Hx]; [by left|by right].
  - destruct Hx as [-> |Hx]; [right; by left|]. destruct (IH i Hi Hx); [by left|right; by right].
Qed.

Ltac step_cases H := unfold hstep in H;
  repeat match type of H with
  | match ?x with _ => _ end = Some _ => destruct x eqn:?; try discriminate H
  end; injection H as <- <-.

Lemma may_pass_spec s now : may_pass nw s now = true <->
  match he_runner s with Beating last due => now <= last + PONG_TIMEOUT + nw_slack nw /\ now <= due + nw_slack nw | _ => True end /\
  (forall sent, In sent (he_pings s) -> forall r, nw_trip nw = Some r -> now <= sent + r) /\
  (forall sent h, In (sent, h) (he_pongs s) -> (forall r, nw_trip nw = Some r -> now <= sent + r) /\ (forall b, nw_back nw = Some b -> now <= h + b)).
Proof.
  unfold may_pass. rewrite !andb_true_iff, !forallb_forall.
  assert (HW : forall o sent, within o sent now = true <-> forall r, o = Some r -> now <= sent + r).
  { intros [b|] sent; cbn; [|by split]. rewrite N.leb_le. split; [by intros ? ? [= ->]|eauto]. }
  split.
  - intros [[H1 H2] H3]. split; [|split].
    + destruct (he_runner s); try done. rewrite andb_true_iff, !N.leb_le in H1. done.
    + intros sent Hs. apply HW. by apply H2.
    + intros sent h Hs. specialize (H3 _ Hs). rewrite andb_true_iff, !HW in H3. done.
  - intros (H1 & H2 & H3). split; [split|].
    + destruct (he_runner s); try done. rewrite andb_true_iff, !N.leb_le. done.
    + intros sent Hs. apply HW. by apply H2.
    + intros [sent h] Hs. rewrite andb_true_iff, !HW. by apply H3.
Qed.

Definition basic (s : heart) : Prop :=
  (forall sent, In sent (he_pings s) -> sent <= he_now s) /\
  (forall sent h, In (sent, h) (he_pongs s) -> sent <= he_now s /\ h <= he_now s) /\
  match he_runner s with
  | Awaiting => he_pings s = [] /\ he_pongs s = [(0, 0)]
  | Beating last due => last <= he_now s /\ due <= he_now s + PING_INTERVAL
  | _ => True
  end /\ may_pass nw s (he_now s) = true.

Lemma basic_reach s t : hreachable nw s t -> basic s.
Proof.
  revert s t. apply (hreachable_ind' (fun s _ => basic s)).
  - unfold basic, heart_start. cbn. split; [done|]. split; [intros ? ? [[= <- <-]|[]]; lia|]. split; [done|].
    apply may_pass_spec. cbn. split; [done|]. split; [by intros ? []|]. intros ? ? [[= <- <-]|[]]. split; intros; lia.
  - intros [now togo tick r pings pongs] _ a s' os _ (B1 & B2 & B3 & B4) H. rewrite may_pass_spec in B4. unfold basic. rewrite may_pass_spec.
    cbn in *. destruct B4 as (P1 & P2 & P3). destruct a; step_cases H; cbn.
    + rewrite may_pass_spec in Heqb. cbn in Heqb. destruct Heqb as (Q1 & Q2 & Q3). split; [intros x Hx; apply B1 in Hx; lia|].
      split; [intros x h Hx; apply B2 in Hx; lia|]. split; [|done]. destruct r; try done. lia.
    + apply N.leb_le in Heqb. split; [|split; [|split; [|split; [|split]]]].
      * intros x [Hx|[<- |[]]]%in_app_iff; [by apply B1|lia].
      * done.
      * lia.
      * split; [lia|]. unfold PING_INTERVAL, MS. lia.
      * intros x [Hx|[<- |[]]]%in_app_iff r' Hr'; [by apply (P2 x)|lia].
      * done.
    + assert (Hn : In n pings) by (by eapply elem_of_list_In, elem_of_list_lookup_2). split; [|split; [|split; [|split; [|split]]]].
      * intros x Hx%in_delete. by apply B1.
      * intros x h [Hx|[[= <- <-]|[]]]%in_app_iff; [by apply B2|]. specialize (B1 _ Hn). lia.
      * destruct r; try done. destruct B3 as [-> _]. done.
      * done.
      * intros x Hx%in_delete. by apply P2.
      * intros x h [Hx|[[= <- <-]|[]]]%in_app_iff; [by apply P3|]. split; [by apply P2|]. intros; lia.
    + assert (Hn : In (n, n0) pongs) by (by eapply elem_of_list_In, elem_of_list_lookup_2). split; [|split; [|split; [|split; [|split]]]].
      * done.
      * intros x h Hx%in_delete. by apply B2.
      * destruct r; try done; unfold PING_INTERVAL, MS in *; lia.
      * destruct r; try done; unfold PING_INTERVAL, MS in *; lia.
      * done.
      * intros x h Hx%in_delete. by apply P3.
    + split; [intros x Hx%in_delete; by apply B1|]. split; [done|]. split; [done|]. split; [done|]. split; [intros x Hx%in_delete; by apply P2|done].
    + done.
    + done.
    + done.
    + done.
    + done.
    + done.
    + done.
Qed.

Lemma over_reach s t : hreachable nw s t -> he_runner s = NoPong \/ he_runner s = Over -> runner_over t.
Proof.
  revert s t. apply (hreachable_ind' (fun s t => he_runner s = NoPong \/ he_runner s = Over -> runner_over t)).
  - by intros [?|?].
  - intros [now togo tick r pings pongs] t a s' os _ IH H Hs. unfold runner_over in *. cbn in *.
    assert (Hm : (exists now, In (EStopped now) t \/ In (EPingFailed now) t \/ In (EFinished now) t) ->
      exists now, In (EStopped now) (t ++ os) \/ In (EPingFailed now) (t ++ os) \/ In (EFinished now) (t ++ os)).
    { intros [x Hx]. exists x. rewrite !in_app_iff. tauto. }
    destruct a; step_cases H; cbn in *; try (apply Hm, IH; tauto); try (destruct Hs; discriminate).
    + apply Hm, IH. destruct r; tauto || (destruct Hs; discriminate).
    + exists now. rewrite !in_app_iff. cbn. tauto.
    + exists now. rewrite !in_app_iff. cbn. tauto.
    + exists now. rewrite !in_app_iff. cbn. tauto.
Qed.

(** The last sign of life, [s0], and the ticks since. *)
Definition since (s : heart) (s0 : N) : Prop :=
  s0 <= he_now s /\ exists n, he_left s = Some n /\ (1 <= n <= TICKS)%nat /\ ((n < TICKS)%nat -> s0 + N.of_nat (TICKS - n) * TICK <= he_tick s).

Lemma since_last s s0 s' os : since s s0 -> hstep nw s HTick = Some (s', os) -> (exists now, In (EDisconnected now) os) -> s0 + PATIENCE <= he_now s.
Proof.
  intros (H0 & n & Hn & Hb & Ht) H [x Hin]. destruct s as [now togo tick r pings pongs]. cbn [he_left he_now he_tick he_runner he_pings he_pongs] in *. subst togo. step_cases H; try (by destruct Hin).
  1: lia.
  apply N.leb_le in Heqb. specialize (Ht ltac:(unfold TICKS; lia)). change (N.of_nat (TICKS - 1)) with 254 in Ht. change PATIENCE with (254 * TICK). lia.
Qed.
(** All steps but the handling of a ping keep it, unless the transaction ends. *)
Lemma since_step s s0 a s' os : since s s0 -> hstep nw s a = Some (s', os) -> (forall i, a <> HHandle i) -> he_left s' = None \/ since s' s0.
Proof.
  intros (H0 & n & Hn & Hb & Ht) H Hh. destruct s as [now togo tick r pings pongs]. cbn in *. subst togo. unfold since.
  destruct a; step_cases H; cbn; try (by left); try (right; split; [lia|]; by exists n); try (by destruct (Hh i)).
  right. split; [done|]. exists (S n1). split; [done|]. apply N.leb_le in Heqb. split; [lia|]. intros _. unfold TICKS in *.
  destruct (decide (S (S n1) = 255)%nat) as [E|E].
  - replace (255 - S n1)%nat with 1%nat by lia. lia.
  - specialize (Ht ltac:(lia)). replace (255 - S n1)%nat with (S (255 - S (S n1))) by lia. rewrite Nat2N.inj_succ. lia.
Qed.
Lemma since_handle s s0 i s' os : since s s0 -> hstep nw s (HHandle i) = Some (s', os) -> since s' (he_now s') /\ he_now s' = he_now s.
Proof.
  intros (H0 & n & Hn & Hb & Ht) H. destruct s as [now togo tick r pings pongs]. cbn in *. subst togo. step_cases H. cbn. split; [|done]. unfold since. cbn.
  split; [lia|]. exists TICKS. split; [done|]. unfold TICKS. lia.
Qed.

Definition alive (s : heart) : Prop := he_runner s = Awaiting \/ exists last due, he_runner s = Beating last due.
Lemma alive_step s a s' os : hstep nw s a = Some (s', os) -> alive s' -> alive s.
Proof.
  unfold alive. intros H Ha. destruct s as [now togo tick r pings pongs]. cbn. destruct a; step_cases H; cbn in *; try done; try (right; by eauto);
    try (destruct Ha as [?|(? & ? & ?)]; discriminate).
  destruct r; [by left|right; eauto|..]; destruct Ha as [?|(? & ? & ?)]; discriminate.
Qed.
Lemma togo_step s a s' os : hstep nw s a = Some (s', os) -> he_left s = None -> he_left s' = None.
Proof. intros H. destruct s as [now togo tick r pings pongs]. cbn. intros ->. destruct a; step_cases H; cbn; done. Qed.

Lemma is_handle a : (exists i, a = HHandle i) \/ forall i, a <> HHandle i.
Proof. destruct a; try (by right). left. eauto. Qed.

(** Pongs come back in time [b]. *)
Section back.
Variable b : N.
Hypothesis Hb : nw_back nw = Some b.
Definition back_inv (s : heart) : Prop := alive s -> he_left s = None \/ exists s0, since s s0 /\ (forall sent h, In (sent, h) (he_pongs s) -> h <= s0) /\
  match he_runner s with Beating last _ => last <= s0 + b | _ => True end.
Lemma back_reach s t : hreachable nw s t -> back_inv s.
Proof.
  revert s t. apply (hreachable_ind' (fun s _ => back_inv s)).
  - intros _. right. exists 0. split; [|split; [|done]].
    + split; [done|]. exists TICKS. split; [done|]. unfold TICKS. lia.
    + intros ? ? [[= <- <-]|[]]. done.
  - intros s t a s' os Hr IH H Ha. destruct (IH (alive_step _ _ _ _ H Ha)) as [Hn|(s0 & Hs & HP & HL)]; [left; by eapply togo_step|].
    destruct (basic_reach _ _ Hr) as (B1 & B2 & B3 & B4). rewrite may_pass_spec in B4. destruct B4 as (P1 & P2 & P3).
    destruct (is_handle a) as [[i ->]|Hh].
    + right. destruct (since_handle _ _ _ _ _ Hs H) as [Hs' En]. exists (he_now s'). split; [done|]. destruct s as [now togo tick r pings pongs]. cbn in *. step_cases H. cbn in *.
      split; [intros x h [Hx|[[= <- <-]|[]]]%in_app_iff; [by destruct (B2 _ _ Hx)|done]|]. destruct r; try done. lia.
    + destruct (since_step _ _ _ _ _ Hs H) as [?|Hs']; [done|by left|]. right. exists s0. split; [done|]. clear Hs Hs'.
      destruct s as [now togo tick r pings pongs]. cbn in *. destruct a; step_cases H; cbn in *; try (by split); try (by destruct (Hh i)).
      assert (Hn : In (n, n0) pongs) by (by eapply elem_of_list_In, elem_of_list_lookup_2). specialize (P3 _ _ Hn) as [_ P3]. specialize (P3 _ Hb). pose proof HP as HQ. specialize (HP _ _ Hn).
      split; [intros x h Hx%in_delete; by apply (HQ x)|]. destruct r; try done; lia.
Qed.
End back.

(** Pings and pongs take no longer than [r]. *)
Section trip.
Variable r : N.
Hypothesis Hr : nw_trip nw = Some r.

Definition trip_inv (s : heart) : Prop := alive s -> he_left s = None \/ exists s0, since s s0 /\
  match he_runner s with
  | Beating last due => (exists sent, In sent (he_pings s) /\ sent + r < s0 + PATIENCE) \/ due + nw_slack nw + r < s0 + PATIENCE
  | Awaiting => s0 = 0
  | _ => True
  end.
Lemma trip_reach : PING_INTERVAL + nw_slack nw + 2 * r < PATIENCE -> forall s t, hreachable nw s t -> trip_inv s.
Proof.
  intros Hc. apply (hreachable_ind' (fun s _ => trip_inv s)).
  - intros _. right. exists 0. split; [|done]. split; [done|]. exists TICKS. split; [done|]. unfold TICKS. lia.
  - intros s t a s' os R IH H Ha. destruct (IH (alive_step _ _ _ _ H Ha)) as [Hn|(s0 & Hs & HL)]; [left; by eapply togo_step|].
    destruct (basic_reach _ _ R) as (B1 & B2 & B3 & B4). rewrite may_pass_spec in B4. destruct B4 as (P1 & P2 & P3).
    destruct (is_handle a) as [[i ->]|Hh].
    + right. destruct (since_handle _ _ _ _ _ Hs H) as [Hs' En]. exists (he_now s'). split; [done|]. destruct s as [now togo tick q pings pongs].
      cbn [he_left he_now he_tick he_runner he_pings he_pongs] in *. step_cases H. cbn [he_left he_now he_tick he_runner he_pings he_pongs] in *.
      destruct q; try done. 1: { destruct B3 as [-> _]. done. } right. lia.
    + destruct (since_step _ _ _ _ _ Hs H) as [?|Hs']; [done|by left|]. right. exists s0. split; [done|]. clear Hs Hs'.
      destruct s as [now togo tick q pings pongs]. cbn [he_left he_now he_tick he_runner he_pings he_pongs] in *.
      destruct a; step_cases H; cbn [he_left he_now he_tick he_runner he_pings he_pongs] in *; try done; try (by destruct (Hh i)).
      * (* HPing *) left. destruct HL as [(x & Hx & HL)|HL]; [exists x; rewrite in_app_iff; tauto|]. exists now. rewrite in_app_iff. cbn [In]. split; [tauto|]. lia.
      * (* HPong *) assert (Hn : In (n, n0) pongs) by (by eapply elem_of_list_In, elem_of_list_lookup_2).
        destruct q; try done.
        { right. subst s0. destruct B3 as [_ ->]. destruct Hn as [[= <- <-]|[]]. destruct (P3 0 0 ltac:(by left)) as [P4 _]. specialize (P4 _ Hr). lia. }
Qed.
Lemma trip_over s t now s' os : PING_INTERVAL + nw_slack nw + 2 * r < PATIENCE -> hreachable nw s t -> hstep nw s HTick = Some (s', os) -> In (EDisconnected now) os -> runner_over t.
Proof.
  intros Hc R H Hin. destruct (he_runner s) eqn:E; [exfalso|exfalso|eapply over_reach; eauto..].
  all: destruct (basic_reach _ _ R) as (B1 & B2 & B3 & B4); rewrite may_pass_spec in B4; destruct B4 as (P1 & P2 & P3); rewrite E in *.
  all: (destruct (trip_reach Hc _ _ R) as [Hn|(s0 & Hs & HL)]; [unfold alive; rewrite E; eauto|
    destruct s as [now' togo tick q pings pongs]; cbn in *; subst togo; step_cases H; by destruct Hin|]); rewrite E in HL;
    pose proof (since_last _ _ _ _ Hs H ltac:(eauto)) as HS.
  - subst s0. destruct B3 as [_ B3]. destruct (P3 0 0) as [P4 _]; [rewrite B3; by left|]. specialize (P4 _ Hr). lia.
  - destruct HL as [(x & Hx & HL)|HL]; [|lia]. specialize (P2 _ Hx _ Hr). lia.
Qed.

Definition fresh (s : heart) : Prop :=
  match he_runner s with
  | Beating last due => (exists sent, (In sent (he_pings s) \/ exists h, In (sent, h) (he_pongs s)) /\ sent + r < last + PONG_TIMEOUT) \/ due + nw_slack nw + r < last + PONG_TIMEOUT
  | _ => True
  end.
Lemma fresh_reach : PING_INTERVAL + nw_slack nw + r < PONG_TIMEOUT -> forall s t, hreachable nw s t -> fresh s.
Proof.
  intros Hc. apply (hreachable_ind' (fun s _ => fresh s)); [done|].
  intros s t a s' os R IH H. destruct (basic_reach _ _ R) as (B1 & B2 & B3 & B4). rewrite may_pass_spec in B4. destruct B4 as (P1 & P2 & P3).
  unfold fresh in *. destruct s as [now togo tick q pings pongs]. cbn [he_left he_now he_tick he_runner he_pings he_pongs] in *.
  destruct a; step_cases H; cbn [he_left he_now he_tick he_runner he_pings he_pongs] in *; try done.
  - (* HPing *) left. destruct IH as [(x & Hx & HL)|HL].
    + exists x. rewrite in_app_iff. tauto.
    + exists now. rewrite in_app_iff. cbn [In]. split; [tauto|]. lia.
  - (* HHandle *) destruct q; try done. destruct IH as [(x & Hx & HL)|HL]; [left|by right]. exists x. split; [|done]. destruct Hx as [Hx|[h Hx]].
    + destruct (in_delete_other _ _ _ _ Heqo Hx) as [-> |?]; [|by left]. right. exists now. rewrite in_app_iff. right. by left.
    + right. exists h. rewrite in_app_iff. by left.
  - (* HPong *) destruct q; try done; right; lia.
Qed.
Lemma never_stopped s t now : PING_INTERVAL + nw_slack nw + r < PONG_TIMEOUT -> hreachable nw s t -> ~ In (EStopped now) t.
Proof.
  intros Hc. revert s t. apply (hreachable_ind' (fun s t => ~ In (EStopped now) t)); [by intros []|].
  intros s t a s' os R IH H Hin. apply in_app_iff in Hin as [Hin|Hin]; [done|].
  pose proof (fresh_reach Hc _ _ R) as HF. destruct (basic_reach _ _ R) as (B1 & B2 & B3 & B4). rewrite may_pass_spec in B4. destruct B4 as (P1 & P2 & P3).
  unfold fresh in *. destruct s as [now' togo tick q pings pongs]. cbn [he_left he_now he_tick he_runner he_pings he_pongs] in *.
  destruct a; step_cases H; try (by destruct Hin); try (by destruct Hin as [?|[]]). apply N.leb_le in Heqb.
  destruct HF as [(x & [Hx|[h Hx]] & HF)|HF]; [specialize (P2 _ Hx _ Hr)|destruct (P3 _ _ Hx) as [P4 _]; specialize (P4 _ Hr)|]; lia.
Qed.
End trip.

Lemma back_over b s t now s' os : nw_back nw = Some b -> b + nw_slack nw + PONG_TIMEOUT < PATIENCE -> hreachable nw s t -> hstep nw s HTick = Some (s', os) ->
  In (EDisconnected now) os -> runner_over t.
Proof.
  intros Hb Hc R H Hin. destruct (he_runner s) eqn:E; [exfalso|exfalso|eapply over_reach; eauto..].
  all: destruct (basic_reach _ _ R) as (B1 & B2 & B3 & B4); rewrite may_pass_spec in B4; destruct B4 as (P1 & P2 & P3); rewrite E in *.
  all: (destruct (back_reach b Hb _ _ R) as [Hn|(s0 & Hs & HP & HL)]; [unfold alive; rewrite E; eauto|
    destruct s as [now' togo tick q pings pongs]; cbn in *; subst togo; step_cases H; by destruct Hin|]); rewrite E in HL;
    pose proof (since_last _ _ _ _ Hs H ltac:(eauto)) as HS.
  - destruct B3 as [_ B3]. destruct (P3 0 0) as [_ P4]; [rewrite B3; by left|]. specialize (P4 _ Hb). lia.
  - lia.
Qed.

Lemma disconnected_step s t : hreachable nw s t -> forall t1 now t2, t = t1 ++ EDisconnected now :: t2 ->
  exists s0 s1, hreachable nw s0 t1 /\ hstep nw s0 HTick = Some (s1, [EDisconnected now]).
Proof.
  revert s t. apply (hreachable_ind' (fun s t => forall t1 now t2, t = t1 ++ EDisconnected now :: t2 ->
    exists s0 s1, hreachable nw s0 t1 /\ hstep nw s0 HTick = Some (s1, [EDisconnected now]))).
  - intros [|? ?]; done.
  - intros s t a s' os R IH H t1 now t2 E. apply app_eq_app in E as (l & [[-> E]|[-> E]]).
    + destruct l as [|o' l].
      * cbn in E. subst os. rewrite app_nil_r in *. exists s, s'. split; [done|].
        destruct s as [now' togo tick q pings pongs]. destruct a; pose proof H as H'; step_cases H; subst; try done; exact H'.
      * injection E as <- ->. by apply (IH t1 now l).
    + pose proof H as H'. destruct s as [now' togo tick q pings pongs]. destruct a; step_cases H; destruct l as [|? [|? ?]]; try discriminate E.
      all: injection E as -> <-; rewrite app_nil_r; eauto.
Qed.

(** The last pong is on record. *)
Lemma last_reach s t : hreachable nw s t -> match he_runner s with Beating last _ => exists h, In (EPong h last) t | _ => True end.
Proof.
  revert s t. apply (hreachable_ind' (fun s t => match he_runner s with Beating last _ => exists h, In (EPong h last) t | _ => True end)); [done|].
  intros s t a s' os R IH H. destruct s as [now togo tick q pings pongs]. cbn [he_left he_now he_tick he_runner he_pings he_pongs] in *.
  destruct a; step_cases H; cbn [he_left he_now he_tick he_runner he_pings he_pongs] in *; rewrite ?app_nil_r; try done.
  1: (destruct q; try done; exists n0; rewrite in_app_iff; right; by left).
  all: destruct q; try done; destruct IH as [h IH]; exists h; rewrite in_app_iff; by left.
Qed.

Lemma awaiting_no_pong s t h now : hreachable nw s t -> he_runner s = Awaiting -> ~ In (EPong h now) t.
Proof.
  revert s t. apply (hreachable_ind' (fun s t => he_runner s = Awaiting -> ~ In (EPong h now) t)); [by intros _ []|].
  intros s t a s' os R IH H. destruct s as [now' togo tick q pings pongs]. cbn [he_left he_now he_tick he_runner he_pings he_pongs] in *.
  destruct a; step_cases H; cbn [he_left he_now he_tick he_runner he_pings he_pongs] in *; rewrite ?app_nil_r; try done.
  1: by destruct q.
  all: intros E; rewrite in_app_iff; intros [Hin|[?|[]]]; [by apply IH|done].
Qed.
End proofs.
