(** Proofs about the server: accounting of tasks, tokens, cancelled jobs. *)
From Verif Require Import ServerSpec.
From Coq Require Import Lia.
From stdpp Require Import prelude.

Section server.
Context (secret : string).
Notation step := (step secret).
Notation run := (run secret).
Notation along := (along secret).

Lemma run_app ls1 : forall s ls2 s' ev, run s (ls1 ++ ls2) = Some (s', ev) ->
  exists s1 ev1 ev2, run s ls1 = Some (s1, ev1) /\ run s1 ls2 = Some (s', ev2) /\ ev = ev1 ++ ev2.
Proof.
  induction ls1 as [|l ls1 IH]; intros s ls2 s' ev H; cbn [run app] in H.
  { by exists s, [], ev. }
  cbn in H. destruct (step s l) as [[s1 e1]|] eqn:E; [|discriminate].
  destruct (run s1 (ls1 ++ ls2)) as [[s2 e2]|] eqn:E2; [|discriminate]. injection H as <- <-.
  destruct (IH _ _ _ _ E2) as (s3 & ev1 & ev2 & H1 & H2 & ->).
  exists s3, (e1 ++ ev1), ev2. cbn. by rewrite E, H1, List.app_assoc.
Qed.
Lemma run_app_2 ls1 : forall s ls2 s1 ev1 s' ev2, run s ls1 = Some (s1, ev1) -> run s1 ls2 = Some (s', ev2) ->
  run s (ls1 ++ ls2) = Some (s', ev1 ++ ev2).
Proof.
  induction ls1 as [|l ls1 IH]; intros s ls2 s1 ev1 s' ev2 H1 H2; cbn in H1 |- *.
  { by injection H1 as <- <-. }
  destruct (step s l) as [[s3 e3]|] eqn:E; [|discriminate].
  destruct (run s3 ls1) as [[s4 e4]|] eqn:E4; [|discriminate]. injection H1 as <- <-.
  by rewrite (IH _ _ _ _ _ _ E4 H2), List.app_assoc.
Qed.
Lemma along_app P ls1 : forall s ls2 s1 ev1, run s ls1 = Some (s1, ev1) ->
  along P s (ls1 ++ ls2) <-> along P s ls1 /\ along P s1 ls2.
Proof.
  induction ls1 as [|l ls1 IH]; intros s ls2 s1 ev1 H; cbn in H |- *.
  { injection H as <- <-. tauto. }
  destruct (step s l) as [[s3 e3]|] eqn:E; [|discriminate].
  destruct (run s3 ls1) as [[s4 e4]|] eqn:E4; [|discriminate]. injection H as <- <-.
  rewrite (IH _ _ _ _ E4). tauto.
Qed.

(** ** C32 *)
Lemma wrong_token s h token job q : token <> secret -> sv_handlers s !! h = None ->
  step s (LRequest h token job q) = Some (s, [EReply h (RError Unauthorized)]).
Proof.
  intros Ht Hh. cbn [ServerModel.step]. rewrite Hh. unfold request_step.
  destruct (String.eqb_spec token secret); done.
Qed.
Lemma step_401 s l s' evs e : step s l = Some (s', evs) -> unauthorized secret l = false -> e ∈ evs -> reply_401 e = false.
Proof.
  intros H Hu He. destruct l; cbn [ServerModel.step unauthorized] in *.
  1: { destruct (sv_handlers s !! h); [discriminate|]. apply negb_false_iff in Hu. unfold request_step in H. rewrite Hu in H.
    destruct q; unfold start, begun, end_, ping, mark, reply_now in H; repeat case_match; simplify_eq; set_solver. }
  all: unfold run_step, reap_step, started_reply in H; repeat case_match; simplify_eq; set_solver.
Qed.
Lemma skip_unauthorized ls : forall s s' evs, run s ls = Some (s', evs) ->
  run s (List.filter (fun l => negb (unauthorized secret l)) ls) = Some (s', List.filter (fun e => negb (reply_401 e)) evs).
Proof.
  induction ls as [|l ls IH]; intros s s' evs H; cbn in H |- *.
  { by injection H as <- <-. }
  destruct (step s l) as [[s1 e1]|] eqn:E; [|discriminate].
  destruct (run s1 ls) as [[s2 e2]|] eqn:E2; [|discriminate]. injection H as <- <-.
  destruct (unauthorized secret l) eqn:Hu; cbn.
  - destruct l; try discriminate. cbn [unauthorized] in Hu. apply negb_true_iff, String.eqb_neq in Hu.
    destruct (sv_handlers s !! h) eqn:Hh; [cbn [ServerModel.step] in E; by rewrite Hh in E|].
    rewrite wrong_token in E by done. injection E as <- <-. cbn. by apply IH.
  - rewrite E. rewrite (IH _ _ _ E2). do 2 f_equal. rewrite List.filter_app. f_equal. symmetry.
    assert (forall e, e ∈ e1 -> reply_401 e = false) as Hn by (intros e He; by eapply step_401).
    clear -Hn. induction e1 as [|e e1 IH]; [done|]. cbn. rewrite (Hn e) by set_solver. cbn. f_equal. apply IH. set_solver.
Qed.

(** ** C33 *)
Lemma cancelled_grows s l s' evs : step s l = Some (s', evs) -> sv_cancelled s ⊆ sv_cancelled s'.
Proof.
  intros H. destruct l; cbn [ServerModel.step] in *.
  1: { destruct (sv_handlers s !! h); [discriminate|]. unfold request_step in H. destruct (String.eqb token secret); [|by unfold reply_now in H; simplify_eq].
    destruct q; unfold start, begun, end_, ping, mark, reply_now in H; repeat case_match; simplify_eq; cbn; set_solver. }
  all: unfold run_step, reap_step in H; repeat case_match; simplify_eq; done.
Qed.
Lemma cancelled_grows_run ls : forall s s' evs, run s ls = Some (s', evs) -> sv_cancelled s ⊆ sv_cancelled s'.
Proof.
  induction ls as [|l ls IH]; intros s s' evs H; cbn in H.
  { by injection H as <- <-. }
  destruct (step s l) as [[s1 e1]|] eqn:E; [|discriminate].
  destruct (run s1 ls) as [[s2 e2]|] eqn:E2; [|discriminate]. injection H as <- <-.
  etransitivity; [by eapply cancelled_grows|by eapply IH].
Qed.

(** ** C31: accounting *)
Definition cnt {A} (P : A -> bool) (m : gmap N A) : nat := length (List.filter (fun p => P (snd p)) (map_to_list m)).
Lemma filter_perm_len {A} (P : A -> bool) l l' : l ≡ₚ l' -> length (List.filter P l) = length (List.filter P l').
Proof. induction 1; cbn; repeat case_match; cbn; lia. Qed.
Lemma cnt_delete {A} P (m : gmap N A) k x : m !! k = Some x -> cnt P m = (if P x then 1 else 0) + cnt P (delete k m).
Proof.
  intros H. unfold cnt. rewrite <- (filter_perm_len _ _ _ (map_to_list_delete m k x H)). cbn. by destruct (P x).
Qed.
Lemma cnt_insert {A} P (m : gmap N A) k x : cnt P (<[k := x]> m) = (if P x then 1 else 0) + cnt P (delete k m).
Proof.
  rewrite <- insert_delete_insert. unfold cnt.
  rewrite (filter_perm_len _ _ _ (map_to_list_insert (delete k m) k x (lookup_delete m k))). cbn. by destruct (P x).
Qed.
Lemma cnt_delete_le {A} P (m : gmap N A) k : cnt P (delete k m) <= cnt P m.
Proof.
  destruct (m !! k) as [x|] eqn:E; [rewrite (cnt_delete P m k x E); lia|]. by rewrite delete_notin.
Qed.

Definition conn_of (n : nat) (c : conn) : bool := Nat.eqb n (c_node c).
Lemma conn_of_eq n c : conn_of n c = Nat.eqb n (c_node c).
Proof. done. Qed.
Definition handler_of (n : nat) (x : handler) : bool :=
  match x with
  | HGot m _ _ _ | HTimed m _ _ _ _ _ => Nat.eqb n m
  | HEnd c _ _ | HEndCancelled c _ _ => Nat.eqb n (c_node c)
  | _ => false
  end.
Definition expired_of (r : reaper) : list conn :=
  match r with PTicked _ ex | PSoft _ ex | PSend ex => ex | _ => [] end.
Definition held (n : nat) (s : server) : nat :=
  cnt (conn_of n) (sv_conns s) + cnt (handler_of n) (sv_handlers s) +
  length (List.filter (conn_of n) (expired_of (sv_reaper s))).

Lemma tasks_app n a b : tasks n (a ++ b) = tasks n a + tasks n b.
Proof. unfold tasks. by rewrite List.filter_app, app_length. Qed.
Lemma finishes_app n a b : finishes n (a ++ b) = finishes n a + finishes n b.
Proof. unfold finishes. by rewrite List.filter_app, app_length. Qed.

(** [le]: what is held and finished afterwards was held or delivered before; equal if the step is honest and the
    reaper does not panic. *)
Lemma account n s l s' evs : step s l = Some (s', evs) -> 
  held n s' + finishes n evs <= held n s + tasks n evs /\
  (honest secret s l -> sv_reaper s' <> PPanicked -> held n s' + finishes n evs = held n s + tasks n evs).
Proof.
  intros H. unfold held.
  assert (forall m k c c', m !! k = Some c -> c_node c' = c_node c -> cnt (conn_of n) (<[k := c']> m) = cnt (conn_of n) m) as Hsame.
  { intros m k c c' Hm Hc. rewrite cnt_insert, (cnt_delete _ _ _ _ Hm). unfold conn_of. by rewrite Hc. }
  destruct l; cbn [ServerModel.step] in H.
  - destruct (sv_handlers s !! h) eqn:Hh; [discriminate|]. unfold request_step in H.
    destruct (String.eqb_spec token secret) as [->|Hne]; [|unfold reply_now in H; simplify_eq; cbn; lia].
    destruct q; unfold start, begun, end_, ping, mark, reply_now in H.
    + repeat case_match; simplify_eq; cbn; try lia. rewrite cnt_insert, delete_notin by done. cbn. lia.
    + repeat case_match; simplify_eq; cbn; lia.
    + destruct job as [j|]; [|simplify_eq; cbn; lia].
      destruct (sv_conns s !! tx) as [c|] eqn:Ec; [|simplify_eq; cbn; lia].
      destruct (String.eqb_spec (c_job c) j) as [Hj|Hj].
      * simplify_eq; cbn. rewrite cnt_insert, (delete_notin (sv_handlers s)) by done. cbn.
        rewrite (cnt_delete _ (sv_conns s) _ _ Ec), conn_of_eq. repeat case_match; lia.
      * simplify_eq; cbn. split; [pose proof (cnt_delete_le (conn_of n) (sv_conns s) tx); lia|].
        intros Hhon. exfalso. by apply Hj, Hhon.
    + destruct (sv_conns s !! tx) as [c|] eqn:Ec; [|simplify_eq; cbn; lia].
      destruct (WheelModel.insert (WheelModel.cancel (sv_wheel s) (c_timer c)) PING_TIMEOUT_NS tx) as [[w id]|]; [|discriminate]. simplify_eq. cbn.
      rewrite (Hsame _ _ c) by done. lia.
    + simplify_eq. cbn. lia.
  - destruct (sv_handlers s !! h) as [x|] eqn:Hh; [|discriminate]. destruct x; try discriminate.
    destruct d; simplify_eq; cbn; rewrite ?cnt_insert, (cnt_delete _ (sv_handlers s) h _ Hh); cbn; repeat case_match; cbn; lia.
  - repeat case_match; simplify_eq; cbn.
    match goal with Hh : sv_handlers s !! h = Some _ |- _ => rewrite (cnt_delete _ (sv_handlers s) h _ Hh); cbn; lia end.
  - repeat case_match; simplify_eq; cbn;
    match goal with Hh : sv_handlers s !! h = Some _ |- _ => rewrite ?cnt_insert, (cnt_delete _ (sv_handlers s) h _ Hh); cbn; lia end.
  - unfold run_step in H. destruct (sv_handlers s !! h) as [x|] eqn:Hh; [|discriminate]. destruct x; try discriminate.
    + destruct (WheelModel.insert (sv_wheel s) PING_TIMEOUT_NS tx) as [[w id]|]; [|discriminate]. simplify_eq. cbn.
      rewrite cnt_insert, (cnt_delete _ (sv_handlers s) h _ Hh). cbn. lia.
    + simplify_eq. cbn. rewrite (cnt_delete _ (sv_handlers s) h _ Hh), cnt_insert. cbn. rewrite ?conn_of_eq. cbn.
      split; [pose proof (cnt_delete_le (conn_of n) (sv_conns s) tx0); lia|].
      intros Hhon _. rewrite (delete_notin (sv_conns s)) by (by eapply Hhon). lia.
    + simplify_eq. cbn. rewrite cnt_insert, (cnt_delete _ (sv_handlers s) h _ Hh). cbn. lia.
    + destruct next; simplify_eq; cbn; rewrite ?cnt_insert, (cnt_delete _ (sv_handlers s) h _ Hh); cbn;
      repeat case_match; cbn; lia.
  - repeat case_match; simplify_eq; cbn;
    match goal with Hh : sv_handlers s !! h = Some _ |- _ => rewrite ?cnt_insert, (cnt_delete _ (sv_handlers s) h _ Hh); cbn; lia end.
  - repeat case_match; simplify_eq; cbn;
    match goal with Hh : sv_handlers s !! h = Some _ |- _ => rewrite ?cnt_insert, (cnt_delete _ (sv_handlers s) h _ Hh); cbn; lia end.
  - destruct (sv_reaper s) eqn:Er; try discriminate. destruct (tick (sv_wheel s)) as [w l]. simplify_eq. cbn. lia.
  - unfold reap_step in H. destruct (sv_reaper s) as [|txs ex|txs ex|ex| |] eqn:Er; try discriminate.
    + destruct txs as [|tx txs].
      * destruct (sv_soft s); simplify_eq; cbn; lia.
      * destruct (sv_conns s !! tx) as [c|] eqn:Ec; simplify_eq; cbn; [|lia].
        rewrite (cnt_delete _ (sv_conns s) _ _ Ec), List.filter_app, app_length. cbn.
        rewrite ?conn_of_eq. repeat case_match; cbn; lia.
    + destruct txs as [|tx txs]; [simplify_eq; cbn; lia|].
      destruct (sv_conns s !! tx) as [c|] eqn:Ec; simplify_eq; cbn.
      * rewrite (cnt_delete _ (sv_conns s) _ _ Ec), List.filter_app, app_length. cbn.
        rewrite ?conn_of_eq. repeat case_match; cbn; lia.
      * split; [lia|done].
    + destruct ex as [|c ex]; simplify_eq; cbn; [lia|]. rewrite ?conn_of_eq. repeat case_match; cbn; lia.
  - repeat case_match; simplify_eq. cbn. lia.
  - simplify_eq. cbn. lia.
  - simplify_eq. cbn. lia.
  - simplify_eq. cbn. lia.
Qed.

Lemma panicked_stays ls : forall s s' evs, run s ls = Some (s', evs) -> sv_reaper s = PPanicked -> sv_reaper s' = PPanicked.
Proof.
  induction ls as [|l ls IH]; intros s s' evs H Hp; cbn in H.
  { by injection H as <- <-. }
  destruct (step s l) as [[s1 e1]|] eqn:E; [|discriminate].
  destruct (run s1 ls) as [[s2 e2]|] eqn:E2; [|discriminate]. injection H as <- <-.
  eapply IH; [done|]. clear E2 IH. destruct l; cbn [ServerModel.step] in E.
  1: { destruct (sv_handlers s !! h); [discriminate|]. unfold request_step in E. destruct (String.eqb token secret); [|by unfold reply_now in E; simplify_eq].
    destruct q; unfold start, begun, end_, ping, mark, reply_now in E; repeat case_match; by simplify_eq. }
  all: unfold run_step, reap_step in E; try rewrite Hp in E; repeat case_match; by simplify_eq.
Qed.

Lemma account_run n ls : forall s s' evs, run s ls = Some (s', evs) ->
  held n s' + finishes n evs <= held n s + tasks n evs /\
  (along (honest secret) s ls -> sv_reaper s' <> PPanicked -> held n s' + finishes n evs = held n s + tasks n evs).
Proof.
  induction ls as [|l ls IH]; intros s s' evs H; cbn in H.
  { injection H as <- <-. cbn. lia. }
  destruct (step s l) as [[s1 e1]|] eqn:E; [|discriminate].
  destruct (run s1 ls) as [[s2 e2]|] eqn:E2; [|discriminate]. injection H as <- <-.
  destruct (account n _ _ _ _ E) as [H1 H1']. destruct (IH _ _ _ E2) as [H2 H2'].
  rewrite finishes_app, tasks_app. split; [lia|]. cbn. rewrite E. intros [Hh Ha] Hp.
  specialize (H2' Ha Hp). assert (sv_reaper s1 <> PPanicked) as Hp1 by (intros Hq; by eapply Hp, panicked_stays).
  specialize (H1' Hh Hp1). lia.
Qed.
Lemma held_new n : held n server_new = 0.
Proof. done. Qed.
Lemma held_rest n s : at_rest s -> held n s = 0.
Proof. intros (H1 & H2 & H3). unfold held. rewrite H1, H2. by destruct H3 as [-> | ->]. Qed.
End server.
