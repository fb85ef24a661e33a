(** Which task a report is about: C31. *)
From Verif Require Import ServerSpec ServerProofs.
From Coq Require Import Lia.
From stdpp Require Import prelude.

Section server.
Context (secret : string).
Notation step := (step secret).
Notation run := (run secret).

Lemma run_snoc s ls l s' ev : run s (ls ++ [l]) = Some (s', ev) ->
  exists s1 ev1 ev2, run s ls = Some (s1, ev1) /\ step s1 l = Some (s', ev2) /\ ev = ev1 ++ ev2.
Proof.
  intros (s1 & ev1 & ev2 & H1 & H2 & ->)%run_app. cbn in H2.
  destruct (step s1 l) as [[s2 e2]|] eqn:E; [|discriminate]. injection H2 as <- <-.
  exists s1, ev1, e2. by rewrite app_nil_r.
Qed.

(** ** Transactions open only when a reply hands them out *)
Lemma opens s l s' evs tx : step s l = Some (s', evs) -> sv_conns s !! tx = None ->
  (forall e n, e ∈ evs -> ~ gives tx n e) -> sv_conns s' !! tx = None.
Proof.
  intros H Hn Hg. destruct l; cbn [ServerModel.step] in H.
  1: { destruct (sv_handlers s !! h); [discriminate|]. unfold request_step in H. destruct (String.eqb token secret); [|by unfold reply_now in H; simplify_eq].
    destruct q; unfold start, begun, end_, ping, mark, reply_now in H; repeat case_match; simplify_eq; cbn; try done.
    - by rewrite lookup_delete_None; auto.
    - by rewrite lookup_delete_None; auto.
    - destruct (decide (tx0 = tx)) as [->|]; [congruence|]. by rewrite lookup_insert_ne. }
  4: { unfold run_step in H. destruct (sv_handlers s !! h) as [x|]; [|discriminate].
    destruct x; repeat case_match; simplify_eq; cbn; try done;
    (destruct (decide (tx1 = tx)) as [->|]; [|by rewrite lookup_insert_ne]; exfalso;
     eapply (Hg _ node); [by left|]; exists h; destruct in_end; cbn; auto). }
  all: unfold reap_step in H; repeat case_match; simplify_eq; cbn; try done; rewrite lookup_delete_None; auto.
Qed.
Lemma opens_run ls : forall s s' evs tx, run s ls = Some (s', evs) -> sv_conns s !! tx = None ->
  (forall e n, e ∈ evs -> ~ gives tx n e) -> sv_conns s' !! tx = None.
Proof.
  induction ls as [|l ls IH]; intros s s' evs tx H Hn Hg; cbn in H.
  { by injection H as <- <-. }
  destruct (step s l) as [[s1 e1]|] eqn:E; [|discriminate].
  destruct (run s1 ls) as [[s2 e2]|] eqn:E2; [|discriminate]. injection H as <- <-.
  eapply IH; [done| |]. { eapply opens; [done|done|]. intros e n He. apply Hg. set_solver. } intros e n He. apply Hg. set_solver.
Qed.
Lemma end_closes s h job tx rep next s' evs :
  step s (LRequest h secret (Some job) (QEnd tx rep next)) = Some (s', evs) -> sv_conns s' !! tx = None.
Proof.
  cbn [ServerModel.step]. destruct (sv_handlers s !! h); [discriminate|]. unfold request_step. rewrite String.eqb_refl.
  unfold end_, reply_now. destruct (sv_conns s !! tx) as [c|] eqn:E; [|by intros; simplify_eq].
  destruct (String.eqb (c_job c) job); intros; simplify_eq; cbn; apply lookup_delete.
Qed.
Lemma end_of_unknown s h job tx rep next : sv_handlers s !! h = None -> sv_conns s !! tx = None ->
  step s (LRequest h secret (Some job) (QEnd tx rep next)) = Some (s, [EReply h (RError NoSuchTransaction)]).
Proof.
  intros Hh Hc. cbn [ServerModel.step]. rewrite Hh. unfold request_step. rewrite String.eqb_refl. unfold end_. by rewrite Hc.
Qed.

(** ** Where reports come from *)
Lemma last_given_mono tx n evs evs' : last_given tx n evs -> (forall e n', e ∈ evs' -> ~ gives tx n' e) -> last_given tx n (evs ++ evs').
Proof.
  intros (a & e & b & -> & Hg & Hb) H. exists a, e, (b ++ evs'). rewrite <- List.app_assoc. split; [done|]. split; [done|].
  intros e' n' [He|He]%elem_of_app; eauto.
Qed.
Definition asked_end (ls : list label) (n : nat) (rep : report) : Prop :=
  exists ls1 h j tx next ls2 s1 ev1, ls = ls1 ++ LRequest h secret (Some j) (QEnd tx rep next) :: ls2 /\
    run server_new ls1 = Some (s1, ev1) /\ last_given tx n ev1.
Definition asked_start (ls : list label) (msg : string) : Prop :=
  exists h j q, LRequest h secret j q ∈ ls /\
    exists rt, q = QStart (StartReq rt msg) \/ exists tx rep, q = QEnd tx rep (Some (StartReq rt msg)).
Definition was_given (evs : list event) (n : nat) : Prop := exists tx e, e ∈ evs /\ gives tx n e.

Record sources (s : server) (ls : list label) (evs : list event) : Prop := Sources {
  so_conn : forall tx c, sv_conns s !! tx = Some c -> last_given tx (c_node c) evs /\ asked_start ls (c_msg c);
  so_end : forall h c rep next, sv_handlers s !! h = Some (HEnd c rep next) \/ sv_handlers s !! h = Some (HEndCancelled c rep next) ->
    asked_end ls (c_node c) rep /\ forall sr, next = Some sr -> asked_start ls (sr_msg sr);
  so_wait : forall h, match sv_handlers s !! h with
    | Some (HWait sr _ _) | Some (HGot _ sr _ _) | Some (HTimed _ sr _ _ _ _) | Some (HEndFlag sr _) => asked_start ls (sr_msg sr)
    | _ => True end;
  so_exp : forall c, c ∈ expired_of (sv_reaper s) -> was_given evs (c_node c) /\ asked_start ls (c_msg c);
  so_fin : forall n how, EFinished n how ∈ evs ->
    match how with inl rep => asked_end ls n rep | inr msg => was_given evs n /\ asked_start ls msg end
}.

Lemma asked_end_mono ls l n rep : asked_end ls n rep -> asked_end (ls ++ [l]) n rep.
Proof.
  intros (ls1 & h & j & tx & next & ls2 & s1 & ev1 & -> & H). exists ls1, h, j, tx, next, (ls2 ++ [l]), s1, ev1.
  split; [|done]. by rewrite <- List.app_assoc.
Qed.
Lemma asked_start_mono ls l msg : asked_start ls msg -> asked_start (ls ++ [l]) msg.
Proof. intros (h & j & q & H & H'). exists h, j, q. split; [set_solver|done]. Qed.
Lemma was_given_mono evs evs' n : was_given evs n -> was_given (evs ++ evs') n.
Proof. intros (tx & e & H & H'). exists tx, e. split; [set_solver|done]. Qed.
Lemma last_was tx n evs : last_given tx n evs -> was_given evs n.
Proof. intros (a & e & b & -> & Hg & _). exists tx, e. split; [set_solver|done]. Qed.

(** A step that changes at most the parts named. *)
Lemma sources_mono s ls evs l evs' s' : sources s ls evs ->
  (forall e, e ∈ evs' -> (forall tx n, ~ gives tx n e) /\ (forall n how, e <> EFinished n how)) ->
  (forall tx c, sv_conns s' !! tx = Some c -> exists c', sv_conns s !! tx = Some c' /\ c_node c' = c_node c /\ c_msg c' = c_msg c) ->
  (forall h, sv_handlers s' !! h = sv_handlers s !! h \/ sv_handlers s' !! h = None) ->
  (forall c, c ∈ expired_of (sv_reaper s') -> c ∈ expired_of (sv_reaper s) \/ exists tx, sv_conns s !! tx = Some c) ->
  sources s' (ls ++ [l]) (evs ++ evs').
Proof.
  intros [S1 S2 S3 S4 S5] He Hc Hh Hr. split.
  - intros tx c H. destruct (Hc _ _ H) as (c' & H' & E1 & E2). destruct (S1 _ _ H') as [A B]. rewrite E1, E2 in *.
    split; [apply last_given_mono; [done|]; intros e n' Hin; by apply He|by apply asked_start_mono].
  - intros h c rep next H. destruct (Hh h) as [E|E]; rewrite E in H; [|by destruct H].
    destruct (S2 _ _ _ _ H) as [A B]. split; [by apply asked_end_mono|]. intros sr Hs. by apply asked_start_mono, B.
  - intros h. destruct (Hh h) as [E|E]; rewrite E; [|done]. specialize (S3 h).
    destruct (sv_handlers s !! h) as [[]|]; try done; by apply asked_start_mono.
  - intros c H. destruct (Hr c H) as [H'|[tx H']].
    + destruct (S4 c H'). split; [by apply was_given_mono|by apply asked_start_mono].
    + destruct (S1 _ _ H') as [A B]. split; [by eapply was_given_mono, last_was|by apply asked_start_mono].
  - intros n how [H|H]%elem_of_app; [|by apply He in H as [_ H]; edestruct H].
    specialize (S5 n how H). destruct how; [by apply asked_end_mono|]. destruct S5. split; [by apply was_given_mono|by apply asked_start_mono].
Qed.

(** The same with one new handler or one changed. *)
Lemma sources_put s ls evs l evs' s' h x : sources s ls evs ->
  (forall e, e ∈ evs' -> (forall tx n, ~ gives tx n e) /\ (forall n how, e = EFinished n how ->
      match how with inl rep => asked_end (ls ++ [l]) n rep | inr _ => False end)) ->
  (forall tx c, sv_conns s' !! tx = Some c -> sv_conns s !! tx = Some c) ->
  sv_handlers s' = <[h := x]> (sv_handlers s) -> sv_reaper s' = sv_reaper s ->
  match x with
  | HWait sr _ _ | HGot _ sr _ _ | HTimed _ sr _ _ _ _ | HEndFlag sr _ => asked_start (ls ++ [l]) (sr_msg sr)
  | HEnd c rep next | HEndCancelled c rep next =>
      asked_end (ls ++ [l]) (c_node c) rep /\ forall sr, next = Some sr -> asked_start (ls ++ [l]) (sr_msg sr)
  end -> sources s' (ls ++ [l]) (evs ++ evs').
Proof.
  intros [S1 S2 S3 S4 S5] He Hc Hh Hr Hx. split.
  - intros tx c H. destruct (S1 _ _ (Hc _ _ H)) as [A B].
    split; [apply last_given_mono; [done|]; intros e n' Hin; by apply He|by apply asked_start_mono].
  - intros h' c rep next H. rewrite Hh in H. destruct (decide (h = h')) as [<-|Hne].
    + rewrite lookup_insert in H. destruct H as [H|H]; injection H as ->; exact Hx.
    + rewrite lookup_insert_ne in H by done.
      destruct (S2 _ _ _ _ H) as [A B]. split; [by apply asked_end_mono|]. intros sr Hs. by apply asked_start_mono, B.
  - intros h'. rewrite Hh. destruct (decide (h = h')) as [<-|Hne].
    + rewrite lookup_insert. by destruct x.
    + rewrite lookup_insert_ne by done. specialize (S3 h').
      destruct (sv_handlers s !! h') as [[]|]; try done; by apply asked_start_mono.
  - intros c H. rewrite Hr in H. destruct (S4 c H). split; [by apply was_given_mono|by apply asked_start_mono].
  - intros n how [H|H]%elem_of_app.
    + specialize (S5 n how H). destruct how; [by apply asked_end_mono|]. destruct S5. split; [by apply was_given_mono|by apply asked_start_mono].
    + apply He in H as [_ H]. specialize (H n how eq_refl). by destruct how.
Qed.

Ltac no_gives := let e := fresh in let H := fresh in intros e H; cbn in H; rewrite ?elem_of_cons, ?elem_of_nil in H;
  repeat destruct H as [->|H]; try done; (split; [intros ? ? (? & [?|?]); discriminate|try discriminate]).
Lemma in_snoc (ls : list label) l : l ∈ ls ++ [l].
Proof. set_solver. Qed.

Lemma sources_run ls : forall s evs, run server_new ls = Some (s, evs) -> sources s ls evs.
Proof.
  induction ls as [|l ls IH] using rev_ind; intros s' evs0 H.
  { cbn in H. injection H as <- <-. split; cbn; try set_solver; intros *; try done; try (by intros [|]); by rewrite lookup_empty. }
  apply run_snoc in H as (s & evs & evs' & Hrun & H & ->). specialize (IH _ _ Hrun). pose proof IH as [S1 S2 S3 S4 S5].
  destruct l; cbn [ServerModel.step] in H.
  - destruct (sv_handlers s !! h) eqn:Eh; [discriminate|]. unfold request_step in H.
    destruct (String.eqb_spec token secret) as [->|Hne].
    2: { unfold reply_now in H; simplify_eq. eapply sources_mono; [done|no_gives|eauto|auto|auto]. }
    destruct q; unfold start, begun, end_, ping, mark, reply_now in H.
    + destruct job as [j|]; [destruct (bool_decide (j ∈ sv_cancelled s))|]; simplify_eq;
        try (eapply sources_mono; [done|no_gives|eauto|auto|auto]; done).
      eapply (sources_put _ _ _ _ [] _ h); [done|no_gives|cbn; auto|done|done|].
      exists h, (Some j), (QStart r). split; [apply in_snoc|]. destruct r as [rt msg]. eauto.
    + repeat case_match; simplify_eq; (eapply sources_mono; [done|no_gives|eauto|auto|auto]).
    + destruct job as [j|]; [|simplify_eq; eapply sources_mono; [done|no_gives|eauto|auto|auto]].
      destruct (sv_conns s !! tx) as [c|] eqn:Ec; [|simplify_eq; eapply sources_mono; [done|no_gives|eauto|auto|auto]].
      destruct (String.eqb (c_job c) j).
      * simplify_eq. eapply (sources_put _ _ _ _ [] _ h); [done|no_gives| |done|done|].
        { cbn. intros tx' c' H. by apply lookup_delete_Some in H as [_ ?]. }
        split.
        -- exists ls, h, j, tx, next, [], s, evs. split; [done|]. split; [done|]. by apply S1.
        -- intros [rt msg] ->. exists h, (Some j), (QEnd tx rep (Some (StartReq rt msg))). split; [apply in_snoc|]. eauto 6.
      * simplify_eq. eapply sources_mono; [done|no_gives| |auto|auto].
        cbn. intros tx' c' H. apply lookup_delete_Some in H as [_ H]. eauto.
    + destruct (sv_conns s !! tx) as [c|] eqn:Ec; [|simplify_eq; eapply sources_mono; [done|no_gives|eauto|auto|auto]].
      destruct (WheelModel.insert (WheelModel.cancel (sv_wheel s) (c_timer c)) PING_TIMEOUT_NS tx) as [[w id]|]; [|discriminate].
      simplify_eq. eapply sources_mono; [done|no_gives| |auto|auto].
      cbn. intros tx' c' H. destruct (decide (tx = tx')) as [<-|]; [rewrite lookup_insert in H|rewrite lookup_insert_ne in H by done; eauto].
      injection H as <-. exists c. by rewrite Ec.
    + simplify_eq. eapply sources_mono; [done|no_gives|eauto|auto|auto].
  - destruct (sv_handlers s !! h) as [x|] eqn:Eh; [|discriminate]. destruct x; try discriminate.
    specialize (S3 h) as S3'. rewrite Eh in S3'.
    destruct d; simplify_eq.
    + eapply (sources_put _ _ _ _ _ _ h); [done|no_gives|cbn; auto|done|done|]. by apply asked_start_mono.
    + eapply sources_mono; [done|no_gives|eauto| |auto]. cbn. intros h'. destruct (decide (h = h')) as [<-|]; [right; apply lookup_delete|left; by apply lookup_delete_ne].
    + eapply sources_mono; [done|no_gives|eauto| |auto]. cbn. intros h'. destruct (decide (h = h')) as [<-|]; [right; apply lookup_delete|left; by apply lookup_delete_ne].
  - repeat case_match; simplify_eq.
    eapply sources_mono; [done|no_gives|eauto| |auto]. cbn. intros h'. destruct (decide (h = h')) as [<-|]; [right; apply lookup_delete|left; by apply lookup_delete_ne].
  - destruct (sv_hard s); [|discriminate]. destruct (sv_handlers s !! h) as [x|] eqn:Eh; [|discriminate].
    specialize (S3 h) as S3'. rewrite Eh in S3'. destruct x; try discriminate; simplify_eq.
    + eapply sources_mono; [done|no_gives|eauto| |auto]. cbn. intros h'. destruct (decide (h = h')) as [<-|]; [right; apply lookup_delete|left; by apply lookup_delete_ne].
    + eapply (sources_put _ _ _ _ [] _ h); [done|no_gives|cbn; auto|done|done|]. by apply asked_start_mono.
  - unfold run_step in H. destruct (sv_handlers s !! h) as [x|] eqn:Eh; [|discriminate].
    specialize (S3 h) as S3'. rewrite Eh in S3'. destruct x; try discriminate.
    + destruct (WheelModel.insert (sv_wheel s) PING_TIMEOUT_NS tx) as [[w id]|]; [|discriminate]. simplify_eq.
      eapply (sources_put _ _ _ _ [] _ h); [done|no_gives|cbn; auto|done|done|]. by apply asked_start_mono.
    + simplify_eq.
      assert (gives tx0 node (EReply h (started_reply in_end tx0 node))) as Hg.
      { exists h. destruct in_end; cbn; auto. }
      assert (forall tx' n', gives tx' n' (EReply h (started_reply in_end tx0 node)) -> tx' = tx0) as Hg'.
      { intros tx' n' (h' & [E|E]); destruct in_end; cbn in E; by simplify_eq. }
      split.
      * cbn. intros tx' c H. destruct (decide (tx0 = tx')) as [<-|Hne].
        -- rewrite lookup_insert in H. injection H as <-. cbn. split; [|by apply asked_start_mono].
           exists evs, (EReply h (started_reply in_end tx0 node)), []. split; [done|]. split; [done|]. set_solver.
        -- rewrite lookup_insert_ne in H by done. destruct (S1 _ _ H) as [A B]. split; [|by apply asked_start_mono].
           apply last_given_mono; [done|]. intros e n' ->%elem_of_list_singleton E. by apply Hg' in E.
      * cbn. intros h' c rep next H. destruct (decide (h = h')) as [<-|Hne]; [by rewrite lookup_delete in H; destruct H|].
        rewrite lookup_delete_ne in H by done. destruct (S2 _ _ _ _ H) as [A B]. split; [by apply asked_end_mono|]. intros sr' Hs. by apply asked_start_mono, B.
      * cbn. intros h'. destruct (decide (h = h')) as [<-|Hne]; [by rewrite lookup_delete|]. rewrite lookup_delete_ne by done.
        specialize (S3 h'). destruct (sv_handlers s !! h') as [[]|]; try done; by apply asked_start_mono.
      * cbn. intros c H. destruct (S4 c H). split; [by apply was_given_mono|by apply asked_start_mono].
      * intros n how [H|H%elem_of_list_singleton]%elem_of_app; [|by destruct in_end].
        specialize (S5 n how H). destruct how; [by apply asked_end_mono|]. destruct S5. split; [by apply was_given_mono|by apply asked_start_mono].
    + simplify_eq. destruct (S2 h c rep next (or_introl Eh)) as [A B].
      eapply (sources_put _ _ _ _ [] _ h); [done|no_gives|cbn; auto|done|done|]. split; [by apply asked_end_mono|]. intros sr Hs. by apply asked_start_mono, B.
    + destruct (S2 h c rep next (or_intror Eh)) as [A B]. destruct next as [sr|]; simplify_eq.
      * eapply (sources_put _ _ _ _ _ _ h); [done| |cbn; auto|done|done|].
        -- intros e ->%elem_of_list_singleton. split; [intros ? ? (? & [?|?]); discriminate|]. intros n how [= <- <-]. by apply asked_end_mono.
        -- by apply asked_start_mono, B.
      * split.
        -- cbn. intros tx' c' H. destruct (S1 _ _ H) as [A' B']. split; [|by apply asked_start_mono].
           apply last_given_mono; [done|]. intros e n'. rewrite !elem_of_cons, elem_of_nil. intros [->|[->|[]]] (? & [?|?]); discriminate.
        -- cbn. intros h' c' rep' next H. destruct (decide (h = h')) as [<-|Hne]; [by rewrite lookup_delete in H; destruct H|].
           rewrite lookup_delete_ne in H by done. destruct (S2 _ _ _ _ H) as [A' B']. split; [by apply asked_end_mono|]. intros sr' Hs. by apply asked_start_mono, B'.
        -- cbn. intros h'. destruct (decide (h = h')) as [<-|Hne]; [by rewrite lookup_delete|]. rewrite lookup_delete_ne by done.
           specialize (S3 h'). destruct (sv_handlers s !! h') as [[]|]; try done; by apply asked_start_mono.
        -- cbn. intros c' H. destruct (S4 c' H). split; [by apply was_given_mono|by apply asked_start_mono].
        -- intros n how. rewrite elem_of_app, !elem_of_cons, elem_of_nil. intros [H|[H|[H|[]]]]; [|injection H as -> ->; by apply asked_end_mono|discriminate].
           specialize (S5 n how H). destruct how; [by apply asked_end_mono|]. destruct S5. split; [by apply was_given_mono|by apply asked_start_mono].
  - destruct (sv_handlers s !! h) as [x|] eqn:Eh; [|discriminate].
    specialize (S3 h) as S3'. rewrite Eh in S3'. destruct x; try discriminate; simplify_eq.
    eapply (sources_put _ _ _ _ [] _ h); [done|no_gives|cbn; auto|done|done|]. by apply asked_start_mono.
  - repeat case_match; simplify_eq;
    (eapply sources_mono; [done|no_gives|eauto| |auto]; cbn; intros h'; destruct (decide (h = h')) as [<-|]; [right; apply lookup_delete|left; by apply lookup_delete_ne]).
  - destruct (sv_reaper s) eqn:Er; try discriminate. destruct (tick (sv_wheel s)) as [w l]. simplify_eq.
    eapply sources_mono; [done|no_gives|eauto|auto|]. cbn. set_solver.
  - unfold reap_step in H. destruct (sv_reaper s) as [|txs ex|txs ex|ex| |] eqn:Er; try discriminate.
    + destruct txs as [|tx txs].
      * destruct (sv_soft s); simplify_eq; (eapply sources_mono; [done|no_gives|eauto|auto|]; cbn; rewrite Er; auto).
      * destruct (sv_conns s !! tx) as [c|] eqn:Ec; simplify_eq.
        -- eapply sources_mono; [done|no_gives| |auto|].
           ++ cbn. intros tx' c' H. apply lookup_delete_Some in H as [_ H]. eauto.
           ++ cbn. rewrite Er. intros c' [H|H%elem_of_list_singleton]%elem_of_app; [by left|subst; eauto].
        -- eapply sources_mono; [done|no_gives|eauto|auto|]. cbn. rewrite Er. auto.
    + destruct txs as [|tx txs]; [simplify_eq; eapply sources_mono; [done|no_gives|eauto|auto|]; cbn; rewrite Er; auto|].
      destruct (sv_conns s !! tx) as [c|] eqn:Ec; simplify_eq.
      * eapply sources_mono; [done|no_gives| |auto|].
        ++ cbn. intros tx' c' H. apply lookup_delete_Some in H as [_ H]. eauto.
        ++ cbn. rewrite Er. intros c' [H|H%elem_of_list_singleton]%elem_of_app; [by left|subst; eauto].
      * eapply sources_mono; [done|no_gives|eauto|auto|]. cbn. set_solver.
    + destruct ex as [|c ex]; simplify_eq; [eapply sources_mono; [done|no_gives|eauto|auto|]; cbn; set_solver|].
      destruct (S4 c) as [A B]; [cbn; set_solver|].
      split.
      * cbn. intros tx' c' H. destruct (S1 _ _ H) as [A' B']. split; [|by apply asked_start_mono].
        apply last_given_mono; [done|]. intros e n' ->%elem_of_list_singleton (? & [?|?]); discriminate.
      * cbn. intros h' c' rep' next H. destruct (S2 _ _ _ _ H) as [A' B']. split; [by apply asked_end_mono|]. intros sr' Hs. by apply asked_start_mono, B'.
      * cbn. intros h'. specialize (S3 h'). destruct (sv_handlers s !! h') as [[]|]; try done; by apply asked_start_mono.
      * cbn. intros c' H. destruct (S4 c') as [A' B']; [cbn; set_solver|]. split; [by apply was_given_mono|by apply asked_start_mono].
      * intros n how [H|H%elem_of_list_singleton]%elem_of_app.
        -- specialize (S5 n how H). destruct how; [by apply asked_end_mono|]. destruct S5. split; [by apply was_given_mono|by apply asked_start_mono].
        -- injection H as -> ->. split; [by apply was_given_mono|by apply asked_start_mono].
  - repeat case_match; simplify_eq. eapply sources_mono; [done|no_gives|eauto|auto|]. cbn. set_solver.
  - simplify_eq. eapply sources_mono; [done|no_gives|eauto|auto|auto].
  - simplify_eq. eapply sources_mono; [done|no_gives|eauto|auto|auto].
  - simplify_eq. eapply sources_mono; [done|no_gives|eauto|auto|auto].
Qed.
End server.
