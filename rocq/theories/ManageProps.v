(** C75: the administrators' requests take effect, and the answers show it. *)
From Verif Require Import ManageSpec ManageProofs GcraProps.
From Coq Require Import Lia.
From stdpp Require Import prelude gmap.
Local Open Scope nat_scope.

Lemma ran_told now rate info acts s t : arun (admin_start now rate info) acts = Some (s, t) -> kept (ad_shared (admin_start now rate info)) s t.
Proof. intros H. exact (kept_run _ _ _ _ _ _ (kept_start now rate info) H). Qed.

(** The information in the answer of [i] is what execute() was called with, and then no change of it has to be visible to [i]; or it was posted by some [j]
    that came before, and none of the changes that came after [j] had been answered has to be visible to [i]. *)
Theorem info_is_current now rate info acts s t e i l v : arun (admin_start now rate info) acts = Some (s, t) -> answer t e i l v ->
  (v = info /\ forall k u b, came t b k (RInfo u) -> ~ before_or_same t k i) \/
  (exists j b, came t b j (RInfo v) /\ b < e /\ forall k u b', came t b' k (RInfo u) -> follows t j k -> ~ before_or_same t k i).
Proof.
  intros H He. destruct (ran_told _ _ _ _ _ _ H) as [HT _ _ _]. destruct (to_reply _ _ HT _ _ _ _ He) as (p1 & p2 & tau & L1 & L2 & H1 & H2 & ->).
  destruct (read_is_current _ _ _ _ _ HT H2) as [[E Hn]|(j & q & b & Hb & Lb & Hq & Hn)].
  - left. split; [by injection E|]. intros k u b Hb. by eapply Hn.
  - right. destruct q as [r|v'|soft|]; try done. injection Hq as ->. exists j, b. split; [done|]. split; [lia|]. intros k u b' Hb'. by eapply Hn.
Qed.
Print Assumptions info_is_current.

Lemma limit_shown r : (r * r <= PERIOD)%N -> limit_of (tau_of r) = r.
Proof.
  intros H. pose proof (reported_limit r 0 H) as E. unfold rate_per_second, new_limiter in E. cbn [l_tau] in E. unfold limit_of. rewrite E.
  apply N.mod_small. unfold PERIOD in H. destruct (N.lt_ge_cases r 4294967296) as [L|L]; [done|]. exfalso. nia.
Qed.
(** The same for the limit. It is shown exactly if its square is at most 10^9; see [reported_limit_refuted] for others. *)
Theorem limit_is_current now rate info acts s t e i l v : arun (admin_start now rate info) acts = Some (s, t) -> answer t e i l v ->
  (((rate * rate <= PERIOD)%N -> l = rate) /\ forall k r b, came t b k (RLimit r) -> ~ before_or_same t k i) \/
  (exists j r b, came t b j (RLimit r) /\ ((r * r <= PERIOD)%N -> l = r) /\ b < e /\
    forall k r' b', came t b' k (RLimit r') -> follows t j k -> ~ before_or_same t k i).
Proof.
  intros H He. destruct (ran_told _ _ _ _ _ _ H) as [HT _ _ _]. destruct (to_reply _ _ HT _ _ _ _ He) as (p1 & p2 & tau & L1 & L2 & H1 & H2 & ->).
  destruct (read_is_current _ _ _ _ _ HT H1) as [[E Hn]|(j & q & b & Hb & Lb & Hq & Hn)].
  - left. injection E as ->. split; [by apply limit_shown|]. intros k u b Hb. by eapply Hn.
  - right. destruct q as [r|v'|soft|]; try done. injection Hq as <-. exists j, r, b. split; [done|]. split; [by apply limit_shown|]. split; [lia|]. intros k u b' Hb'. by eapply Hn.
Qed.
Print Assumptions limit_is_current.

(** In particular: what was posted is shown from then on, if the other changes are over before or come later. *)
Theorem posted_info_is_shown now rate info acts s t j v bj i bi q e l x : arun (admin_start now rate info) acts = Some (s, t) ->
  came t bj j (RInfo v) -> came t bi i q -> (i = j \/ answered_before t j bi) -> answer t e i l x ->
  (forall k u b, came t b k (RInfo u) -> k <> j -> answered_before t k bj \/ e < b) -> x = v.
Proof.
  intros H Hj Hi Hji He Ho. pose proof (ran_told _ _ _ _ _ _ H) as [HT _ _ _].
  assert (before_or_same t j i) as Hs. { destruct Hji as [->|Hji]; [by left|]. right. by exists bi, q. }
  destruct (info_is_current _ _ _ _ _ _ _ _ _ _ H He) as [[_ Hn]|(k & b & Hk & L & Hn)]; [by destruct (Hn _ _ _ Hj)|].
  destruct (decide (k = j)) as [->|Hne]; [destruct (to_inv _ _ HT _ _ _ _ _ Hk Hj) as [_ X]; by injection X|].
  destruct (Ho _ _ _ Hk Hne) as [Ha|Ha]; [|lia]. destruct (Hn _ _ _ Hj); [by exists bj, (RInfo v)|done].
Qed.
Print Assumptions posted_info_is_shown.
Theorem posted_limit_is_shown now rate info acts s t j r bj i bi q e l x : arun (admin_start now rate info) acts = Some (s, t) -> (r * r <= PERIOD)%N ->
  came t bj j (RLimit r) -> came t bi i q -> (i = j \/ answered_before t j bi) -> answer t e i l x ->
  (forall k u b, came t b k (RLimit u) -> k <> j -> answered_before t k bj \/ e < b) -> l = r.
Proof.
  intros H Hr Hj Hi Hji He Ho. pose proof (ran_told _ _ _ _ _ _ H) as [HT _ _ _].
  assert (before_or_same t j i) as Hs. { destruct Hji as [->|Hji]; [by left|]. right. by exists bi, q. }
  destruct (limit_is_current _ _ _ _ _ _ _ _ _ _ H He) as [[_ Hn]|(k & r' & b & Hk & Hl & L & Hn)]; [by destruct (Hn _ _ _ Hj)|].
  destruct (decide (k = j)) as [->|Hne]; [destruct (to_inv _ _ HT _ _ _ _ _ Hk Hj) as [_ X]; injection X as ->; by apply Hl|].
  destruct (Ho _ _ _ Hk Hne) as [Ha|Ha]; [|lia]. destruct (Hn _ _ _ Hj); [by exists bj, (RLimit r)|done].
Qed.
Print Assumptions posted_limit_is_shown.

(** When a shutdown request is answered, the trigger is set or the token cancelled; and neither happens unless somebody has asked for it. *)
Theorem shutdown_in_effect now rate info acts s t b i soft e l v : arun (admin_start now rate info) acts = Some (s, t) ->
  came t b i (RShutdown soft) -> answer t e i l v -> (if soft then a_soft (ad_shared s) else a_hard (ad_shared s)) = true.
Proof.
  intros H Hb He. destruct (ran_told _ _ _ _ _ _ H) as [HT _ _ HU]. destruct (set_before_reply _ _ _ _ _ _ _ _ (VShut soft) HT Hb He eq_refl) as (p & _ & Hp).
  exact (proj2 (HU soft) (ex_intro _ p (ex_intro _ i Hp))).
Qed.
Print Assumptions shutdown_in_effect.
Theorem shutdown_only_if_asked now rate info acts s t (soft : bool) : arun (admin_start now rate info) acts = Some (s, t) ->
  (if soft then a_soft (ad_shared s) else a_hard (ad_shared s)) = true -> exists b i, came t b i (RShutdown soft).
Proof.
  intros H Hs. destruct (ran_told _ _ _ _ _ _ H) as [HT _ _ HU]. apply (HU soft) in Hs as (p & i & Hp). destruct (to_set _ _ HT _ _ _ Hp) as (b & q & _ & Hb & Hq).
  exists b, i. destruct q; try done. by injection Hq as ->.
Qed.
Print Assumptions shutdown_only_if_asked.

(** Only what was asked is answered. *)
Theorem answers_follow_requests now rate info acts s t i e l v : arun (admin_start now rate info) acts = Some (s, t) -> answer t e i l v -> exists b q, b < e /\ came t b i q.
Proof.
  intros H He. destruct (ran_told _ _ _ _ _ _ H) as [HT _ _ _]. destruct (to_reply _ _ HT _ _ _ _ He) as (p1 & p2 & tau & L1 & L2 & H1 & H2 & ->).
  destruct (to_read _ _ HT _ _ _ H1) as (b & q & L & Hb & _). exists b, q. split; [lia|done].
Qed.
Print Assumptions answers_follow_requests.

(** ** That the hypotheses are met *)
(** Request 0 posts "a", then request 1 posts the limit 5, then 2 asks for the status. *)
Definition mg_one (i : nat) (q : request) : list aaction := [AInvoke i q; AWrite i 7] ++ (match q with RLimit _ => [ATat i] | _ => [] end) ++ [APolled i; ALimit i; AInfo i; AReply i].
Definition mg_acts : list aaction := mg_one 0 (RInfo (Some "a"%string)) ++ mg_one 1 (RLimit 5) ++ [AInvoke 2 RStatus; APolled 2; ALimit 2; AInfo 2; AReply 2].
Definition mg_trace (acts : list aaction) : list aobs := match arun (admin_start 3 2 None) acts with Some (_, t) => t | None => [] end.
Lemma mg_came t n i q : came t n i q -> In (i, q) (omap (fun o => match o with OInvoked i q => Some (i, q) | _ => None end) t).
Proof.
  intros H. apply elem_of_list_In, elem_of_list_omap. exists (OInvoked i q). split; [by eapply elem_of_list_lookup_2|done].
Qed.
Lemma mg_all : omap (fun o => match o with OInvoked i q => Some (i, q) | _ => None end) (mg_trace mg_acts) = [(0, RInfo (Some "a"%string)); (1, RLimit 5); (2, RStatus)].
Proof. vm_compute. reflexivity. Qed.
Example mg_run : exists s t, arun (admin_start 3 2 None) mg_acts = Some (s, t) /\ came t 0 0 (RInfo (Some "a"%string)) /\ came t 5 1 (RLimit 5) /\ came t 10 2 RStatus /\
  answered_before t 0 10 /\ answered_before t 1 10 /\ answer t 13 2 5%N (Some "a"%string) /\
  (forall k u b, came t b k (RInfo u) -> k <> 0 -> answered_before t k 0 \/ 13 < b) /\ (forall k r b, came t b k (RLimit r) -> k <> 1 -> answered_before t k 5 \/ 13 < b).
Proof.
  assert ((if arun (admin_start 3 2 None) mg_acts then true else false) = true) as X by (vm_compute; reflexivity).
  assert (mg_trace mg_acts = mg_trace mg_acts) as E by done. unfold mg_trace at 1 in E. destruct (arun (admin_start 3 2 None) mg_acts) as [[s t]|]; [|discriminate X]. clear X.
  exists s, t. split; [done|]. subst t. split; [vm_compute; reflexivity|]. split; [vm_compute; reflexivity|]. split; [vm_compute; reflexivity|].
  split; [exists 4, 2%N, (Some "a"%string); split; [lia|vm_compute; reflexivity]|]. split; [exists 9, 5%N, (Some "a"%string); split; [lia|vm_compute; reflexivity]|].
  split; [vm_compute; reflexivity|]. split.
  - intros k u b H%mg_came Hk. rewrite mg_all in H. destruct H as [[= <- _]|[[= _ H]|[[= _ H]|[]]]]; done.
  - intros k u b H%mg_came Hk. rewrite mg_all in H. destruct H as [[= _ H]|[[= <- _]|[[= _ H]|[]]]]; done.
Qed.
(** A shutdown is asked for and answered. *)
Example mg_shutdown : exists s t, arun (admin_start 3 2 None) (mg_one 4 (RShutdown true)) = Some (s, t) /\ came t 0 4 (RShutdown true) /\ answer t 4 4 2%N None.
Proof. eexists _, _. split; [vm_compute; reflexivity|]. by split. Qed.

(** The answer to a request need not show what it posted: another one may come in between. *)
Definition mg_both : list aaction := [AInvoke 0 (RInfo (Some "a"%string)); AInvoke 1 (RInfo (Some "b"%string)); AWrite 0 7; AWrite 1 7; APolled 0; ALimit 0; AInfo 0; AReply 0].
Theorem own_post_shown_refuted : exists s t e l, arun (admin_start 3 2 None) mg_both = Some (s, t) /\ came t 0 0 (RInfo (Some "a"%string)) /\ answer t e 0 l (Some "b"%string).
Proof. eexists _, _, 6, _. split; [vm_compute; reflexivity|]. by split. Qed.
Print Assumptions own_post_shown_refuted.
(** A shutdown request whose text cannot be printed (admin_server.rs:45-54) is not carried out: the handler panics first. *)
Theorem asked_shutdown_refuted : exists s t, arun (admin_start 3 2 None) [AInvoke 0 (RShutdown false); AFail 0] = Some (s, t) /\ came t 0 0 (RShutdown false) /\
  a_hard (ad_shared s) = false /\ forall a s' os, astep s a = Some (s', os) -> exists i q, a = AInvoke i q /\ i <> 0.
Proof.
  exists (set_handler (set_handler (admin_start 3 2 None) 0 (HWrite (RShutdown false))) 0 HOver), [OInvoked 0 (RShutdown false)].
  split; [vm_compute; reflexivity|]. split; [reflexivity|]. split; [reflexivity|]. intros a s' os H.
  assert (forall i, ad_handlers (set_handler (set_handler (admin_start 3 2 None) 0 (HWrite (RShutdown false))) 0 HOver) !! i = if decide (i = 0) then Some HOver else None) as E.
  { intros i. cbn [set_handler ad_handlers admin_start]. destruct (decide (i = 0)) as [->|Hi]; [by rewrite lookup_insert|]. by rewrite !lookup_insert_ne, lookup_empty. }
  destruct a as [i q|i now|i|i|i|i|i|i|i]; cbn [astep] in H; rewrite E in H; destruct (decide (i = 0)) as [->|Hi]; try discriminate H. by exists i, q.
Qed.
Print Assumptions asked_shutdown_refuted.
