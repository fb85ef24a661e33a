(** Proofs about the remote runner. *)
From Verif Require Export RemoteSpec.
From Coq Require Import Lia.
From stdpp Require Import prelude.
Open Scope N_scope.

(** ** The messages *)
Definition shape (m : remote) (tr : list remote_event) : Prop :=
  match m with
  | MStart => tr = [VStart]
  | MSpawn tx | MFeed tx _ => exists a, tr = a ++ [VGiven tx]
  | MBegunNone tx => exists a, tr = a ++ [VGiven tx; VBegun tx 0]
  | MBegun tx pid => exists a, tr = a ++ [VGiven tx; VBegun tx pid]
  | MWait tx pid late =>
      exists a sigs, tr = a ++ VGiven tx :: VBegun tx pid :: sigs
        /\ Forall (fun e => exists now, e = VSigterm pid (Some now)) sigs /\ (late = true <-> sigs <> [])
  | MEnd _ => exists a tx st late next out, tr = a ++ [VEnd tx st late None next out]
  | MSlurmEnd | MCleanup | MCrashed => True
  end.
Definition good (tr : list remote_event) : Prop := forall a e b, tr = a ++ e :: b -> in_place a e.

Lemma good_snoc tr e : good tr -> in_place tr e -> good (tr ++ [e]).
Proof.
  intros G I a e' b H. destruct b as [|x b] using rev_ind.
  - apply app_inj_tail in H as [-> ->]. done.
  - rewrite app_comm_cons, List.app_assoc in H. apply app_inj_tail in H as [-> _]. exact (G a e' b eq_refl).
Qed.

Lemma sigs_sigterm pid sigs : Forall (fun e => exists now, e = VSigterm pid (Some now)) sigs -> Forall (sigterm_to pid) sigs.
Proof. intros F. eapply Forall_impl; [exact F|]. intros e [now ->]. by eexists. Qed.
Lemma sigs_late pid sigs : Forall (fun e => exists now, e = VSigterm pid (Some now)) sigs -> sigs <> [] <-> exists now, VSigterm pid (Some now) ∈ sigs.
Proof.
  intros F. split.
  - destruct F as [|e sigs [now ->] _]; [done|]. intros _. exists now. left.
  - intros [now H] ->. by apply elem_of_nil in H.
Qed.
Lemma sigs_none pid sigs : Forall (fun e => exists now, e = VSigterm pid (Some now)) sigs -> VSigterm pid None ∉ sigs.
Proof. intros F H. rewrite Forall_forall in F. by destruct (F _ H) as [now [=]]. Qed.

Lemma step_shape cf m i m' es tr : remote_step cf m i = Some (m', es) -> shape m tr -> good tr -> shape m' (tr ++ es) /\ good (tr ++ es).
Proof.
  intros H S G. destruct m as [|tx|tx|tx pid|tx pid|tx pid late| |tx| |], i as [tx'| |u n| | |pid' [|]| | |raw u n o| |msg|now]; try discriminate; simpl in H;
    try (injection H as <- <-; rewrite app_nil_r; split; [done|done]).
  - injection H as <- <-. split; [by eexists|]. apply good_snoc; [done|]. simpl in *. by left.
  - injection H as <- <-. destruct S as [a ->]. split; [exists a; by rewrite <- List.app_assoc|]. apply good_snoc; [done|]. by exists a.
  - injection H as <- <-. destruct S as [a ->]. split; [exists a; by rewrite <- List.app_assoc|]. apply good_snoc; [done|]. by exists a.
  - injection H as <- <-. destruct S as [a ->]. split; [eexists _, _, _, _, _, _; reflexivity|]. apply good_snoc; [done|].
    exists a, 0, []. split; [done|]. split; [done|]. split; [|split; [done|intros X; by apply elem_of_nil in X]].
    split; [done|]. intros [now X]. by apply elem_of_nil in X.
  - injection H as <- <-. destruct S as [a ->]. split; [exists a; by rewrite <- List.app_assoc|]. apply good_snoc; [done|]. by exists a.
  - injection H as <- <-. destruct S as [a ->]. rewrite app_nil_r. split; [|done]. exists a, []. done.
  - destruct (child_code raw) as [st|]; [|injection H as <- <-; rewrite app_nil_r; done].
    injection H as <- <-. destruct S as (a & sigs & -> & F & L). split; [eexists _, _, _, _, _, _; reflexivity|]. apply good_snoc; [done|].
    exists a, pid, sigs. split; [done|]. split; [by apply sigs_sigterm|]. split; [by rewrite L, sigs_late|].
    split; [done|]. intros X. by apply (sigs_none pid sigs F) in X.
  - injection H as <- <-. destruct S as (a & sigs & -> & F & L). split; [done|].
    assert (G1 : good ((a ++ VGiven tx :: VBegun tx pid :: sigs) ++ [VSigterm pid None])).
    { apply good_snoc; [done|]. exists a, tx, sigs. split; [done|]. by apply sigs_sigterm. }
    change [VSigterm pid None; VEnd tx (Code (-15)) late (Some msg) false None] with ([VSigterm pid None] ++ [VEnd tx (Code (-15)) late (Some msg) false None]).
    rewrite List.app_assoc. apply good_snoc; [done|]. exists a, pid, (sigs ++ [VSigterm pid None]).
    split; [by rewrite <- List.app_assoc|]. split; [apply Forall_app; split; [by apply sigs_sigterm|repeat constructor; by eexists]|].
    split; [|split; [intros _; apply elem_of_app; right; left|done]].
    rewrite L, (sigs_late _ _ F). split; intros [now X]; exists now.
    + apply elem_of_app. by left.
    + apply elem_of_app in X as [X|X]; [done|]. apply elem_of_list_singleton in X. done.
  - destruct (N.leb _ now); [|done]. injection H as <- <-. destruct S as (a & sigs & -> & F & L). split.
    + exists a, (sigs ++ [VSigterm pid (Some now)]). split; [by rewrite <- List.app_assoc|]. split.
      * apply Forall_app. split; [done|]. repeat constructor. by eexists.
      * split; [|done]. by destruct sigs.
    + apply good_snoc; [done|]. exists a, tx, sigs. split; [done|]. by apply sigs_sigterm.
  - injection H as <- <-. destruct S as (a & tx0 & st & late & next & out & ->). split; [by eexists|]. apply good_snoc; [done|].
    simpl. right. eauto 10.
Qed.

Lemma run_shape cf is : forall m m' es tr, remote_run cf m is = Some (m', es) -> shape m tr -> good tr -> shape m' (tr ++ es) /\ good (tr ++ es).
Proof.
  induction is as [|i is IH]; intros m m' es tr H S G; simpl in H.
  - injection H as <- <-. by rewrite app_nil_r.
  - destruct (remote_step cf m i) as [[m1 e1]|] eqn:E; [|done]. destruct (remote_run cf m1 is) as [[m2 e2]|] eqn:R; [|done].
    injection H as <- <-. destruct (step_shape _ _ _ _ _ _ E S G) as [S1 G1]. rewrite List.app_assoc. exact (IH m1 m2 e2 _ R S1 G1).
Qed.
Lemma good_start : good [VStart].
Proof. intros [|x a] e b [= <- H]; [done|]. by destruct a. Qed.

Definition busy (m : remote) : nat := match m with MSpawn _ | MFeed _ _ => 1 | _ => 0 end.
Definition open (m : remote) : nat := match m with MSpawn _ | MFeed _ _ | MBegunNone _ | MBegun _ _ | MWait _ _ _ => 1 | _ => 0 end.
Lemma count_app {A} f (a b : list A) : count f (a ++ b) = (count f a + count f b)%nat.
Proof. unfold count. by rewrite List.filter_app, app_length. Qed.
Lemma step_counts cf m i m' es : remote_step cf m i = Some (m', es) ->
  (count is_begun es + busy m' <= count is_given es + busy m /\ count is_end es + open m' <= count is_given es + open m
   /\ count is_end es <= count is_begun es + open m - busy m /\ count is_begun es + (open m - busy m) - count is_end es >= open m' - busy m')%nat.
Proof.
  intros H. destruct m as [|tx|tx|tx pid|tx pid|tx pid late| |tx| |], i as [tx'| |u n| | |pid' [|]| | |raw u n o| |msg|now]; try discriminate; simpl in H;
    try (injection H as <- <-; cbn; lia).
  - destruct (child_code raw) as [st|]; injection H as <- <-; cbn; lia.
  - destruct (N.leb _ now); [|done]. injection H as <- <-; cbn; lia.
Qed.
Lemma busy_open m : (busy m <= open m)%nat.
Proof. destruct m; simpl; lia. Qed.
Lemma run_counts cf is : forall m m' es, remote_run cf m is = Some (m', es) ->
  (count is_begun es + busy m' <= count is_given es + busy m
   /\ count is_end es + (open m' - busy m') <= count is_begun es + (open m - busy m))%nat.
Proof.
  induction is as [|i is IH]; intros m m' es H; simpl in H.
  - injection H as <- <-. cbn. lia.
  - destruct (remote_step cf m i) as [[m1 e1]|] eqn:E; [|done]. destruct (remote_run cf m1 is) as [[m2 e2]|] eqn:R; [|done].
    injection H as <- <-. rewrite !count_app. pose proof (step_counts _ _ _ _ _ E). pose proof (IH _ _ _ R).
    pose proof (busy_open m). pose proof (busy_open m1). pose proof (busy_open m2). lia.
Qed.

(** ** Cleanup *)
Definition tracks (m : gmap Z N) (hist : list sent) : Prop :=
  (forall pid t, m !! pid = Some t <-> exists c, pr_pid c = pid /\ (c, SIGTERM, t) ∈ hist)
  /\ NoDup (map pr_pid (sigterms hist)).
Definition kills_ok (hist es : list sent) : Prop :=
  forall a c t b, es = a ++ (c, SIGKILL, t) :: b ->
    exists d t0, pr_pid d = pr_pid c /\ (d, SIGTERM, t0) ∈ hist ++ a /\ t0 + GRACE < t.

Lemma sigterms_app a b : sigterms (a ++ b) = sigterms a ++ sigterms b.
Proof. unfold sigterms. apply omap_app. Qed.
Lemma elem_sigterms c es : c ∈ sigterms es <-> exists t, (c, SIGTERM, t) ∈ es.
Proof.
  unfold sigterms. rewrite elem_of_list_omap. split.
  - intros ([[d []] t] & H & E); [|done]. injection E as ->. eauto.
  - intros [t H]. exists (c, SIGTERM, t). done.
Qed.

Lemma tracks_term m hist c t : tracks m hist -> m !! pr_pid c = None -> tracks (<[pr_pid c := t]> m) (hist ++ [(c, SIGTERM, t)]).
Proof.
  intros [T D] Hn. split.
  - intros pid u. rewrite lookup_insert_Some, T. split.
    + intros [[<- <-]|[Hne (d & Hd & Hin)]].
      * exists c. split; [done|]. apply elem_of_app. right. left.
      * exists d. split; [done|]. apply elem_of_app. by left.
    + intros (d & Hd & Hin). apply elem_of_app in Hin as [Hin|Hin].
      * right. split; [|by eauto]. intros E. assert (m !! pr_pid c = Some u) by (rewrite E; apply T; eauto). congruence.
      * apply elem_of_list_singleton in Hin. injection Hin as -> ->. by left.
  - rewrite sigterms_app. cbn. rewrite map_app. cbn. apply NoDup_app. split; [done|]. split; [|apply NoDup_singleton].
    intros pid Hin Hc. apply elem_of_list_singleton in Hc as ->. apply elem_of_list_fmap in Hin as (d & Hd & Hin).
    apply elem_sigterms in Hin as [u Hu]. assert (m !! pr_pid c = Some u) by (apply T; eauto). congruence.
Qed.
Lemma tracks_kill m hist c t : tracks m hist -> tracks m (hist ++ [(c, SIGKILL, t)]).
Proof.
  intros [T D]. split.
  - intros pid u. rewrite T. split; intros (d & Hd & Hin); exists d; (split; [done|]).
    + apply elem_of_app. by left.
    + apply elem_of_app in Hin as [Hin|Hin]; [done|]. by apply elem_of_list_singleton in Hin.
  - rewrite sigterms_app. cbn. by rewrite app_nil_r.
Qed.

Lemma signal_children_spec now cs : forall m m' es hist, signal_children m now cs = (m', es) -> tracks m hist ->
  tracks m' (hist ++ es) /\ kills_ok hist es
  /\ (forall c t, (c, t) ∈ cs -> exists d t', pr_pid d = pr_pid c /\ (d, SIGTERM, t') ∈ hist ++ es)
  /\ (forall c t t0, (c, t) ∈ cs -> m !! pr_pid c = Some t0 -> t0 + GRACE < now -> (c, SIGKILL, now) ∈ es).
Proof.
  induction cs as [|[c t] cs IH]; intros m m' es hist H T; simpl in H.
  - injection H as <- <-. rewrite app_nil_r. split; [done|]. split; [|split].
    + intros a c u b E. by destruct a.
    + intros c u X. by apply elem_of_nil in X.
    + intros c u u0 X. by apply elem_of_nil in X.
  - unfold which_signal in H. destruct (m !! pr_pid c) as [t0|] eqn:Hm; [destruct (N.ltb_spec t0 (now - GRACE)) as [Hlt|Hge]|].
    + destruct (signal_children m now cs) as [m1 es1] eqn:E. injection H as <- <-.
      destruct (IH _ _ _ _ E (tracks_kill _ _ c now T)) as (T1 & K1 & A1 & S1). rewrite <- List.app_assoc in T1, A1. cbn [app] in T1, A1.
      split; [done|]. split; [|split].
      * intros a d u b X. destruct a as [|x a]; cbn in X.
        -- injection X as <- <- <-. rewrite app_nil_r. destruct T as [T _]. apply T in Hm as (d & Hd & Hin). exists d, t0. split; [done|]. split; [done|]. lia.
        -- injection X as <- X. destruct (K1 a d u b X) as (d' & u0 & H1 & H2 & H3). exists d', u0. rewrite <- List.app_assoc in H2. done.
      * intros d u X. apply elem_of_cons in X as [X|X]; [|by eapply A1]. injection X as -> ->.
        destruct T as [T _]. apply T in Hm as (d & Hd & Hin). exists d, t0. split; [done|]. apply elem_of_app. by left.
      * intros d u u0 X Hd Hu. apply elem_of_cons in X as [X|X]; [injection X as -> ->; left|]. right. by eapply S1.
    + destruct (IH _ _ _ _ H T) as (T1 & K1 & A1 & S1). split; [done|]. split; [done|]. split.
      * intros d u X. apply elem_of_cons in X as [X|X]; [|by eapply A1]. injection X as -> ->.
        destruct T as [T _]. apply T in Hm as (d & Hd & Hin). exists d, t0. split; [done|]. apply elem_of_app. by left.
      * intros d u u0 X Hd Hu. apply elem_of_cons in X as [X|X]; [|by eapply S1]. injection X as -> ->. rewrite Hm in Hd. injection Hd as ->. lia.
    + destruct (signal_children (<[pr_pid c := t]> m) now cs) as [m1 es1] eqn:E. injection H as <- <-.
      destruct (IH _ _ _ _ E (tracks_term _ _ c t T Hm)) as (T1 & K1 & A1 & S1). rewrite <- List.app_assoc in T1, A1. cbn [app] in T1, A1.
      split; [done|]. split; [|split].
      * intros a d u b X. destruct a as [|x a]; cbn in X; [done|].
        injection X as <- X. destruct (K1 a d u b X) as (d' & u0 & H1 & H2 & H3). exists d', u0. rewrite <- List.app_assoc in H2. done.
      * intros d u X. apply elem_of_cons in X as [X|X]; [|by eapply A1]. injection X as -> ->.
        exists c, t. split; [done|]. apply elem_of_app. right. left.
      * intros d u u0 X Hd Hu. apply elem_of_cons in X as [X|X]; [injection X as -> ->; congruence|]. right. eapply S1; [done| |done].
        rewrite lookup_insert_ne; [done|]. intros Q. rewrite Q in Hm. congruence.
Qed.

(** Passes that go on: the signals and the table after them. *)
Fixpoint through (m : gmap Z N) (passes : list pass) : gmap Z N * list sent :=
  match passes with
  | [] => (m, [])
  | p :: passes =>
      let '(m1, es1) := signal_children m (ps_now p) (ps_children p) in
      let '(m2, es2) := through m1 passes in (m2, es1 ++ es2)
  end.
Lemma cleanup_through a : forall m rest, Forall goes_on a ->
  cleanup_from m (a ++ rest) = (let '(m1, es1) := through m a in let '(es2, r) := cleanup_from m1 rest in (es1 ++ es2, r)).
Proof.
  induction a as [|p a IH]; intros m rest F; cbn.
  - by destruct (cleanup_from m rest).
  - inversion F as [|? ? [Hne Herr] F2]; subst. destruct (ps_children p) as [|x cs] eqn:Hc; [done|].
    destruct (signal_children m (ps_now p) (x :: cs)) as [m1 es1]. rewrite Herr, IH by done. destruct (through m1 a) as [m2 es2].
    destruct (cleanup_from m2 rest) as [es3 r]. by rewrite List.app_assoc.
Qed.
Lemma kills_app hist es1 es2 : kills_ok hist es1 -> kills_ok (hist ++ es1) es2 -> kills_ok hist (es1 ++ es2).
Proof.
  intros K1 K2 a c t b E. apply app_eq_app in E as (l & [[-> E]|[-> E]]).
  - destruct l as [|x l].
    + cbn in E. destruct (K2 [] c t b (eq_sym E)) as (d & t0 & H1 & H2 & H3). rewrite !app_nil_r in *. exists d, t0. done.
    + cbn in E. injection E as <- E. exact (K1 a c t l eq_refl).
  - destruct (K2 l c t b E) as (d & t0 & H1 & H2 & H3). exists d, t0. rewrite <- List.app_assoc in H2. done.
Qed.
Lemma through_spec a : forall m m' es hist, through m a = (m', es) -> tracks m hist -> tracks m' (hist ++ es) /\ kills_ok hist es.
Proof.
  induction a as [|p a IH]; intros m m' es hist H T; cbn in H.
  - injection H as <- <-. rewrite app_nil_r. split; [done|]. intros x c u b E. by destruct x.
  - destruct (signal_children m (ps_now p) (ps_children p)) as [m1 es1] eqn:E. destruct (through m1 a) as [m2 es2] eqn:R. injection H as <- <-.
    destruct (signal_children_spec _ _ _ _ _ _ E T) as (T1 & K1 & _). destruct (IH _ _ _ _ R T1) as (T2 & K2).
    rewrite List.app_assoc. split; [done|]. by apply kills_app.
Qed.
Lemma tracks_empty : tracks ∅ [].
Proof.
  split; [|constructor]. intros pid t. rewrite lookup_empty. split; [done|]. intros (c & _ & X). by apply elem_of_nil in X.
Qed.

(** The passes up to the one that ends the cleanup. *)
Lemma cleanup_parts passes : exists a rest, passes = a ++ rest /\ Forall goes_on a /\
  (rest = [] \/ exists p b, rest = p :: b /\ (ps_children p = [] \/ ps_error p = true)).
Proof.
  induction passes as [|p passes IH]; [exists [], []; split; [done|]; split; [constructor|by left]|].
  destruct (decide (ps_children p = [])) as [Hc|Hc]; [exists [], (p :: passes); split; [done|]; split; [constructor|]; right; eauto 10|].
  destruct (ps_error p) eqn:He; [exists [], (p :: passes); split; [done|]; split; [constructor|]; right; eauto 10|].
  destruct IH as (a & rest & -> & F & H). exists (p :: a), rest. split; [done|]. split; [by constructor|done].
Qed.
Lemma cleanup_spec passes es r : cleanup passes = (es, r) -> exists m, tracks m es /\ kills_ok [] es.
Proof.
  unfold cleanup. destruct (cleanup_parts passes) as (a & rest & -> & F & Hrest). rewrite cleanup_through by done.
  destruct (through ∅ a) as [m1 es1] eqn:E. destruct (through_spec _ _ _ _ _ E tracks_empty) as [T K]. cbn [app] in T.
  destruct Hrest as [->|(p & b & -> & Hp)]; cbn.
  - intros [= <- <-]. rewrite app_nil_r. eauto.
  - destruct (ps_children p) as [|x cs] eqn:Hc.
    + intros [= <- <-]. rewrite app_nil_r. eauto.
    + destruct Hp as [|Hp]; [done|]. rewrite Hp. destruct (signal_children m1 (ps_now p) (x :: cs)) as [m2 es2] eqn:E2. intros [= <- <-].
      destruct (signal_children_spec _ _ _ _ _ _ E2 T) as (T2 & K2 & _). exists m2. split; [done|]. by apply kills_app.
Qed.
