(** C46: at most one writer per log directory. *)
From Verif Require Import LockProofs.
From Coq Require Import Lia.
From stdpp Require Import prelude.

Lemma may_touch_active s p : may_touch s p <-> exists x, f_procs s !! p = Some x /\ active x = true.
Proof.
  unfold may_touch. split.
  - intros (i & [H|(x & [H|H])]); eexists; (split; [exact H|done]).
  - intros ([i|i|i x|i x|i] & H & A); try done; exists i; [by left|right..]; exists x; [by left|by right].
Qed.

(** While openings and closings do not overlap, at most one process may read or write the log. *)
Theorem one_session old log acts s es p q :
  calm_run (quiet old log) acts -> run (quiet old log) acts = Some (s, es) ->
  may_touch s p -> may_touch s q -> p = q.
Proof.
  intros C R Hp Hq. apply may_touch_active in Hp as (x & Hp & Ax), Hq as (y & Hq & Ay).
  exact (active_one s p q x y (inv_run _ _ _ _ (inv_quiet old log) C R) Hp Hq Ax Ay).
Qed.
Print Assumptions one_session.

(** A second process that tries to lock is refused; the log and the first one's session stay as they are. *)
Theorem second_opening_refused old log acts s es p q i :
  calm_run (quiet old log) acts -> run (quiet old log) acts = Some (s, es) ->
  may_touch s p -> f_procs s !! q = Some (POpened i) ->
  exists s', step s (ALock q) = Some (s', [ERefused q]) /\ f_log s' = f_log s
    /\ f_procs s' !! p = f_procs s !! p /\ f_procs s' !! q = None.
Proof.
  intros C R Hp Hq. apply may_touch_active in Hp as (x & Hp & Ax).
  pose proof (inv_run _ _ _ _ (inv_quiet old log) C R) as I.
  pose proof (inv_named s I q _ i Hq eq_refl) as Hd.
  assert (Hl : f_locks s !! i = Some p).
  { destruct x as [j|j|j x|j x|j]; try done.
    - pose proof (inv_named s I p _ j Hp eq_refl). pose proof (inv_holds s I p _ j Hp eq_refl). congruence.
    - pose proof (inv_named s I p _ j Hp eq_refl). pose proof (inv_holds s I p _ j Hp eq_refl). congruence.
    - pose proof (inv_unlinked s I p _ Hp eq_refl). congruence. }
  exists (gone s q). simpl. rewrite Hq, Hl. split; [done|]. split; [done|].
  assert (p <> q) by (intros ->; rewrite Hp in Hq; injection Hq as ->; done).
  rewrite lookup_delete_ne by done. rewrite lookup_delete. done.
Qed.
Print Assumptions second_opening_refused.

Definition ends (p : nat) (a : action) : bool := match a with ADrop q | ACrash q => Nat.eqb p q | _ => false end.
Lemma keeps_session s a s' es p : has_log s p -> ends p a = false -> step s a = Some (s', es) -> has_log s' p.
Proof.
  intros (i & x & Hp) He H.
  assert (G : forall q, q <> p -> has_log (gone s q) p).
  { intros q Hne. exists i, x. apply gone_procs. done. }
  destruct a as [q|q|q|q|q b|q n|q|q|q|q]; simpl in H, He; destruct (decide (q = p)) as [->|Hne]; try (rewrite Hp in H);
    try done; try (rewrite Nat.eqb_refl in He; done); try (injection H as <- <-; eexists _, _; simpl; apply lookup_insert);
    destruct (f_procs s !! q) as [[j|j|j y|j y|j]|] eqn:Hq; try done; try (injection H as <- <-; first [by apply G|eexists _, _; simpl; rewrite lookup_insert_ne by done; exact Hp]).
  - destruct (f_dir s); injection H as <- <-; eexists _, _; simpl; rewrite lookup_insert_ne by done; exact Hp.
  - destruct (f_locks s !! j); injection H as <- <-; [by apply G|]. eexists _, _; simpl; rewrite lookup_insert_ne by done; exact Hp.
Qed.
(** As long as a process has the log open, no other process opens it. *)
Theorem no_second_session old log acts s es p more s' es' :
  calm_run (quiet old log) (acts ++ more) -> run (quiet old log) acts = Some (s, es) -> has_log s p ->
  run s more = Some (s', es') -> Forall (fun a => ends p a = false) more ->
  has_log s' p /\ forall q c, EOpened q c ∉ es'.
Proof.
  intros C R. assert (I : inv s).
  { revert C R. generalize (quiet old log) (inv_quiet old log). clear. intros s0 I0. revert s0 es I0.
    induction acts as [|a acts IH]; intros s0 es I0 C R; simpl in *; [by injection R as <- <-|].
    destruct (step s0 a) as [[s1 e1]|] eqn:E; [|done]. destruct C as [C1 C2].
    destruct (run s1 acts) as [[s2 e2]|] eqn:R2; [|done]. injection R as <- <-. exact (IH s1 e2 (inv_step _ _ _ _ I0 C1 E) C2 R2). }
  assert (Cm : calm_run s more).
  { revert C R. generalize (quiet old log). clear. intros s0. revert s0 es.
    induction acts as [|a acts IH]; intros s0 es C R; simpl in *; [by injection R as <- <-|].
    destruct (step s0 a) as [[s1 e1]|] eqn:E; [|done]. destruct C as [C1 C2].
    destruct (run s1 acts) as [[s2 e2]|] eqn:R2; [|done]. injection R as <- <-. exact (IH s1 e2 C2 R2). }
  clear C R es acts old log. revert s es' I Cm. induction more as [|a more IH]; intros s es' I C Hp R F; simpl in *.
  - injection R as <- <-. split; [done|]. intros q c H. by apply elem_of_nil in H.
  - destruct (step s a) as [[s1 e1]|] eqn:E; [|done]. destruct C as [C1 C2]. inversion F as [|? ? F1 F2]; subst.
    destruct (run s1 more) as [[s2 e2]|] eqn:R2; [|done]. injection R as <- <-.
    destruct (IH s1 e2 (inv_step _ _ _ _ I C1 E) C2 (keeps_session _ _ _ _ _ Hp F1 E) R2 F2) as [Hend Hno]. split; [done|].
    intros q c Hin. apply elem_of_app in Hin as [Hin|Hin]; [|exact (Hno q c Hin)].
    assert (exists i, f_procs s !! q = Some (PLocked i)) as [j Hq].
    { destruct a as [z|z|z|z|z b|z n|z|z|z|z]; simpl in E; destruct (f_procs s !! z) as [[j|j|j y|j y|j]|] eqn:Hz; try done;
        try (injection E as <- <-; set_solver).
      - destruct (f_dir s); injection E as <- <-; set_solver.
      - destruct (f_locks s !! j); injection E as <- <-; set_solver. }
    destruct Hp as (i & x & Hp). pose proof (active_one s p q _ _ I Hp Hq eq_refl eq_refl). subst q. congruence.
Qed.
Print Assumptions no_second_session.

(** Opening and locking never touch the log, with or without overlap: a refused process has done nothing else. *)
Theorem opening_leaves_log s q s' es :
  step s (AOpen q) = Some (s', es) \/ step s (ALock q) = Some (s', es) -> f_log s' = f_log s.
Proof.
  simpl. intros [H|H]; destruct (f_procs s !! q) as [[j|j|j y|j y|j]|]; try done.
  - destruct (f_dir s); by injection H as <- <-.
  - destruct (f_locks s !! j); by injection H as <- <-.
Qed.
Print Assumptions opening_leaves_log.

(** While openings and closings do not overlap, the log only grows, crashes included. *)
Theorem log_only_grows old log acts s es more s' es' :
  calm_run (quiet old log) acts -> run (quiet old log) acts = Some (s, es) ->
  calm_run s more -> run s more = Some (s', es') -> exists w, f_log s' = f_log s ++ w.
Proof. intros C R. exact (log_grows s more s' es' (inv_run _ _ _ _ (inv_quiet old log) C R)). Qed.
Print Assumptions log_only_grows.

(** Each session reads everything that all sessions before it wrote, if none of them died. *)
Theorem session_reads_all old log acts s es p s' c :
  calm_run (quiet old log) acts -> Forall (fun a => crash a = false) acts -> run (quiet old log) acts = Some (s, es) ->
  step s (ALoad p) = Some (s', [EOpened p c]) -> c = log ++ written acts.
Proof.
  intros C F R H. pose proof (inv_run _ _ _ _ (inv_quiet old log) C R) as I.
  assert (P : pending (quiet old log) []) by (right; split; [intros q x Hq; simpl in Hq; by rewrite lookup_empty in Hq|done]).
  destruct (log_written _ _ _ _ [] (inv_quiet old log) C F R P) as (b & Pb & E). simpl in E, H.
  destruct (f_procs s !! p) as [[i|i|i x|i x|i]|] eqn:Hp; try done. injection H as <- <-. rewrite E.
  destruct Pb as [(q & y & o & Hq & Ho & Hb)|[_ ->]]; [|by rewrite app_nil_r]. exfalso.
  assert (Ay : active y = true) by (destruct y; done).
  pose proof (active_one s p q _ y I Hp Hq eq_refl Ay). subst q. rewrite Hp in Hq. by injection Hq as <-.
Qed.
Print Assumptions session_reads_all.

(** A lock file left behind, by a crash or otherwise, blocks nobody: once all processes are gone, however they
    interleaved, the log can be opened. *)
Lemma held_run acts : forall s s' es, (forall i p, f_locks s !! i = Some p -> is_Some (f_procs s !! p)) -> run s acts = Some (s', es) ->
  forall i p, f_locks s' !! i = Some p -> is_Some (f_procs s' !! p).
Proof.
  induction acts as [|a acts IH]; intros s s' es I R; simpl in R; [by injection R as <- <-|].
  destruct (step s a) as [[s1 e1]|] eqn:E; [|done]. destruct (run s1 acts) as [[s2 e2]|] eqn:R2; [|done]. injection R as <- <-.
  refine (IH s1 s2 e2 _ R2).
  assert (G : forall q i p, f_locks (gone s q) !! i = Some p -> is_Some (f_procs (gone s q) !! p)).
  { intros q i p H. apply gone_locks in H as [H Hne]. destruct (I i p H) as [x Hx]. exists x. by apply gone_procs. }
  assert (S : forall d n l p0 x i p, f_locks s !! i = Some p -> is_Some (f_procs (Fs d n (f_locks s) l (<[p0 := x]> (f_procs s))) !! p)).
  { intros d n l p0 x i p H. simpl. destruct (decide (p0 = p)) as [->|Hne]; [rewrite lookup_insert; eauto|]. rewrite lookup_insert_ne by done. eauto. }
  destruct a as [z|z|z|z|z b|z n|z|z|z|z]; simpl in E; destruct (f_procs s !! z) as [[j|j|j y|j y|j]|] eqn:Hz; try done;
    try (injection E as <- <-; first [apply G|by eauto]).
  - destruct (f_dir s); injection E as <- <-; eauto.
  - destruct (f_locks s !! j); injection E as <- <-; [apply G|]. simpl. intros i p H.
    apply lookup_insert_Some in H as [[<- <-]|[Hne H]]; [rewrite lookup_insert; eauto|].
    destruct (decide (z = p)) as [->|Hne2]; [rewrite lookup_insert; eauto|]. rewrite lookup_insert_ne by done. eauto.
Qed.
Theorem stale_lock_harmless old log acts s es p :
  run (quiet old log) acts = Some (s, es) -> f_procs s = ∅ ->
  exists s', run s [AOpen p; ALock p; ALoad p] = Some (s', [EOpened p (f_log s)]) /\ has_log s' p.
Proof.
  intros R He. assert (L : forall i, f_locks s !! i = None).
  { intros i. destruct (f_locks s !! i) as [q|] eqn:H; [|done]. exfalso.
    assert (H0 : forall i p, f_locks (quiet old log) !! i = Some p -> is_Some (f_procs (quiet old log) !! p)).
    { intros ? ? X. simpl in X. by rewrite lookup_empty in X. }
    destruct (held_run acts _ _ _ H0 R i q H) as [x Hx].
    by rewrite He, lookup_empty in Hx. }
  simpl. rewrite He, lookup_empty. destruct (f_dir s) as [i|] eqn:Hd; simpl; rewrite lookup_insert, L; simpl; rewrite lookup_insert.
  - eexists. split; [reflexivity|]. eexists _, _. simpl. apply lookup_insert.
  - eexists. split; [reflexivity|]. eexists _, _. simpl. apply lookup_insert.
Qed.
Print Assumptions stale_lock_harmless.

(** ** With overlap the claim is false *)
Definition opens (p : nat) : list action := [AOpen p; ALock p; ALoad p].
Definition closes (p : nat) : list action := [ADrop p; AFinal p; AClose p].

(** Process 2 opens the lock file before process 1 removes it and locks it afterwards; process 3 finds no lock file and
    makes a new one. Both have the log open. *)
Theorem one_session_refuted : exists acts s es,
  run (quiet false []) acts = Some (s, es) /\ has_log s 2 /\ has_log s 3.
Proof.
  exists (opens 1 ++ [AOpen 2] ++ closes 1 ++ [ALock 2; ALoad 2] ++ opens 3). eexists _, _. split; [vm_compute; reflexivity|].
  split; eexists _, _; vm_compute; reflexivity.
Qed.
Print Assumptions one_session_refuted.

(** Process 2 opens the log between process 1's removal of the lock file and its last write: it does not see that
    record, and then writes over it. All the rest is orderly, and no process dies. *)
Theorem session_reads_all_refuted : exists x y acts s es,
  run (quiet false []) acts = Some (s, es) /\ Forall (fun a => crash a = false) acts /\ f_procs s = ∅
  /\ written acts = x ++ y /\ x <> [] /\ EOpened 2 [] ∈ es /\ f_log s = y.
Proof.
  exists ["x"%char], ["y"%char], (opens 1 ++ [AWrite 1 ["x"%char]; ADrop 1] ++ opens 2 ++ [AFinal 1; AClose 1; AWrite 2 ["y"%char]] ++ closes 2).
  eexists _, _. split; [vm_compute; reflexivity|]. split; [repeat constructor|].
  split; [apply map_to_list_empty_iff; vm_compute; reflexivity|]. split; [reflexivity|]. split; [done|].
  split; [vm_compute; right; left|reflexivity].
Qed.
Print Assumptions session_reads_all_refuted.

(** ** A case: two sessions one after the other, a refused one in between, and a crash. *)
Definition demo_acts : list action :=
  opens 1 ++ [AWrite 1 ["a"%char]; AOpen 2; AFlush 1 5; ALock 2] ++ [AWrite 1 ["b"%char]] ++ closes 1
  ++ opens 3 ++ [AWrite 3 ["c"%char]; AFlush 3 1].
Fixpoint calm_check (s : fs) (acts : list action) : bool :=
  match acts with
  | [] => true
  | a :: acts =>
      match a with
      | AOpen _ => forallb (fun x => negb (unlinked (snd x))) (map_to_list (f_procs s))
      | ADrop _ => forallb (fun x => match snd x with POpened _ => false | _ => true end) (map_to_list (f_procs s))
      | _ => true
      end && match step s a with Some (s1, _) => calm_check s1 acts | None => true end
  end.
Lemma calm_check_sound acts : forall s, calm_check s acts = true -> calm_run s acts.
Proof.
  induction acts as [|a acts IH]; intros s H; simpl in *; [done|]. apply andb_prop in H as [H1 H2]. split.
  - destruct a; simpl; try done; rewrite forallb_forall in H1.
    + intros q i x Hq. by apply elem_of_map_to_list, elem_of_list_In, H1 in Hq.
    + intros q i Hq. by apply elem_of_map_to_list, elem_of_list_In, H1 in Hq.
  - destruct (step s a) as [[s1 e1]|]; [|done]. by apply IH.
Qed.
Example demo46 : calm_run (quiet true ["z"%char]) demo_acts
  /\ exists s es, run (quiet true ["z"%char]) demo_acts = Some (s, es)
     /\ es = [EOpened 1 ["z"]; ERefused 2; EOpened 3 ["z"; "a"; "b"]]%char /\ f_log s = ["z"; "a"; "b"; "c"]%char /\ may_touch s 3.
Proof.
  split; [apply calm_check_sound; vm_compute; reflexivity|]. eexists _, _. split; [vm_compute; reflexivity|].
  split; [reflexivity|]. split; [reflexivity|]. exists 1. right. eexists. left. vm_compute. reflexivity.
Qed.
