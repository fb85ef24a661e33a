(** Proofs about the lock on a log directory. *)
From Verif Require Export LockSpec.
From Coq Require Import Lia.
From stdpp Require Import prelude.

Definition locked_ino (x : phase) : option nat :=
  match x with POpened _ => None | PLocked i | PSession i _ | PUnlinked i _ | PFlushed i => Some i end.
Definition named_ino (x : phase) : option nat :=
  match x with POpened i | PLocked i | PSession i _ => Some i | _ => None end.
Definition open_session (x : phase) : option session :=
  match x with PSession _ x | PUnlinked _ x => Some x | _ => None end.
Definition unlinked (x : phase) : bool := match x with PUnlinked _ _ => true | _ => false end.
Definition ino (x : phase) : nat :=
  match x with POpened i | PLocked i | PSession i _ | PUnlinked i _ | PFlushed i => i end.
Definition active (x : phase) : bool := match x with PLocked _ | PSession _ _ | PUnlinked _ _ => true | _ => false end.

Record inv (s : fs) : Prop := {
  inv_held : forall i p, f_locks s !! i = Some p -> exists x, f_procs s !! p = Some x /\ locked_ino x = Some i;
  inv_holds : forall p x i, f_procs s !! p = Some x -> locked_ino x = Some i -> f_locks s !! i = Some p;
  inv_named : forall p x i, f_procs s !! p = Some x -> named_ino x = Some i -> f_dir s = Some i;
  inv_unlinked : forall p x, f_procs s !! p = Some x -> unlinked x = true -> f_dir s = None;
  inv_one : forall p q x y, f_procs s !! p = Some x -> f_procs s !! q = Some y -> unlinked x = true -> unlinked y = true -> p = q;
  inv_fresh : forall p x, f_procs s !! p = Some x -> ino x < f_next s;
  inv_dir : forall i, f_dir s = Some i -> i < f_next s;
  inv_pos : forall p x o, f_procs s !! p = Some x -> open_session x = Some o -> s_pos o = length (f_log s)
}.

Lemma inv_quiet old log : inv (quiet old log).
Proof. constructor; simpl; intros; try (by simplify_map_eq). destruct old; simplify_eq. lia. Qed.

(** At most one process is between locking and its last write. *)
Lemma active_one s p q x y : inv s -> f_procs s !! p = Some x -> f_procs s !! q = Some y -> active x = true -> active y = true -> p = q.
Proof.
  intros I Hp Hq Hx Hy.
  destruct (unlinked x) eqn:Ux, (unlinked y) eqn:Uy.
  - exact (inv_one s I p q x y Hp Hq Ux Uy).
  - pose proof (inv_unlinked s I p x Hp Ux) as Hn. destruct y; try discriminate;
      pose proof (inv_named s I q _ _ Hq eq_refl); congruence.
  - pose proof (inv_unlinked s I q y Hq Uy) as Hn. destruct x; try discriminate;
      pose proof (inv_named s I p _ _ Hp eq_refl); congruence.
  - assert (Nx : named_ino x = locked_ino x) by (destruct x; try discriminate; done).
    assert (Ny : named_ino y = locked_ino y) by (destruct y; try discriminate; done).
    destruct (locked_ino x) as [i|] eqn:Lx; [|destruct x; discriminate].
    destruct (locked_ino y) as [j|] eqn:Ly; [|destruct y; discriminate].
    pose proof (inv_named s I p x i Hp Nx). pose proof (inv_named s I q y j Hq Ny).
    pose proof (inv_holds s I p x i Hp Lx). pose proof (inv_holds s I q y j Hq Ly). congruence.
Qed.

Lemma gone_locks s p i q : f_locks (gone s p) !! i = Some q <-> f_locks s !! i = Some q /\ q <> p.
Proof. simpl. rewrite map_filter_lookup_Some. simpl. done. Qed.
Lemma gone_procs s p q x : f_procs (gone s p) !! q = Some x <-> f_procs s !! q = Some x /\ q <> p.
Proof. simpl. rewrite lookup_delete_Some. naive_solver. Qed.

Lemma inv_gone s p : inv s -> inv (gone s p).
Proof.
  intros I. constructor.
  - intros i q H. apply gone_locks in H as [H Hne]. destruct (inv_held s I i q H) as (x & Hx & Hl). exists x. split; [|done].
    by apply gone_procs.
  - intros q x i H Hl. apply gone_procs in H as [H Hne]. apply gone_locks. split; [|done]. exact (inv_holds s I q x i H Hl).
  - intros q x i H Hn. apply gone_procs in H as [H Hne]. exact (inv_named s I q x i H Hn).
  - intros q x H Hn. apply gone_procs in H as [H Hne]. exact (inv_unlinked s I q x H Hn).
  - intros q q' x y H H' Hx Hy. apply gone_procs in H as [H _]. apply gone_procs in H' as [H' _]. exact (inv_one s I q q' x y H H' Hx Hy).
  - intros q x H. apply gone_procs in H as [H _]. exact (inv_fresh s I q x H).
  - exact (inv_dir s I).
  - intros q x o H Ho. apply gone_procs in H as [H _]. exact (inv_pos s I q x o H Ho).
Qed.

(** A process changes its phase and keeps its lock and the names. *)
Lemma inv_set s p x y log :
  inv s -> f_procs s !! p = Some x -> ino y = ino x -> locked_ino y = locked_ino x -> named_ino y = named_ino x ->
  unlinked y = unlinked x -> active x = true ->
  (forall o, open_session y = Some o -> s_pos o = length log) ->
  inv (Fs (f_dir s) (f_next s) (f_locks s) log (<[p := y]> (f_procs s))).
Proof.
  intros I Hp Hi Hl Hn Hu Ha Ho. constructor; simpl.
  - intros i q H. destruct (inv_held s I i q H) as (z & Hz & Hlz). destruct (decide (q = p)) as [->|Hne].
    + exists y. rewrite lookup_insert. split; [done|]. congruence.
    + exists z. by rewrite lookup_insert_ne.
  - intros q z i H Hlz. apply lookup_insert_Some in H as [[<- <-]|[Hne H]].
    + apply (inv_holds s I p x i Hp). congruence.
    + exact (inv_holds s I q z i H Hlz).
  - intros q z i H Hnz. apply lookup_insert_Some in H as [[<- <-]|[Hne H]].
    + apply (inv_named s I p x i Hp). congruence.
    + exact (inv_named s I q z i H Hnz).
  - intros q z H Huz. apply lookup_insert_Some in H as [[<- <-]|[Hne H]].
    + apply (inv_unlinked s I p x Hp). congruence.
    + exact (inv_unlinked s I q z H Huz).
  - intros q q' z z' H H' Hz Hz'. apply lookup_insert_Some in H as [[<- <-]|[Hne H]], H' as [[<- <-]|[Hne' H']]; try done.
    + apply (inv_one s I p q' x z'); [done|done|congruence|done].
    + apply (inv_one s I q p z x); [done|done|done|congruence].
    + exact (inv_one s I q q' z z' H H' Hz Hz').
  - intros q z H. apply lookup_insert_Some in H as [[<- <-]|[Hne H]].
    + rewrite Hi. exact (inv_fresh s I p x Hp).
    + exact (inv_fresh s I q z H).
  - exact (inv_dir s I).
  - intros q z o H Hoz. apply lookup_insert_Some in H as [[<- <-]|[Hne H]].
    + by apply Ho.
    + exfalso. assert (Az : active z = true) by (destruct z; done). by apply Hne, (active_one s p q x z I).
Qed.

Lemma write_at_end f b : write_at f (length f) b = f ++ b.
Proof. unfold write_at. rewrite take_ge, drop_ge by lia. by rewrite app_nil_r. Qed.

Lemma inv_step s a s' es : inv s -> calm s a -> step s a = Some (s', es) -> inv s'.
Proof.
  intros I C H. destruct a as [p|p|p|p|p b|p n|p|p|p|p]; simpl in H.
  - (* open *)
    destruct (f_procs s !! p) as [?|] eqn:Hp; [done|].
    assert (Hne : forall q x, f_procs s !! q = Some x -> q <> p) by (intros q x Hq ->; congruence).
    destruct (f_dir s) as [i|] eqn:Hd; injection H as <- <-; simpl.
    + constructor; simpl.
      * intros j q H. destruct (inv_held s I j q H) as (x & Hx & Hl). exists x. rewrite lookup_insert_ne; [done|]. apply not_eq_sym. eauto.
      * intros q x j H Hl. apply lookup_insert_Some in H as [[<- <-]|[_ H]]; [done|]. exact (inv_holds s I q x j H Hl).
      * intros q x j H Hn. apply lookup_insert_Some in H as [[<- <-]|[_ H]]; [simpl in Hn; congruence|]. exact (inv_named s I q x j H Hn).
      * intros q x H Hu. apply lookup_insert_Some in H as [[<- <-]|[_ H]]; [done|]. exact (inv_unlinked s I q x H Hu).
      * intros q q' x y H H' Hx Hy. apply lookup_insert_Some in H as [[<- <-]|[_ H]], H' as [[<- <-]|[_ H']]; try done.
        exact (inv_one s I q q' x y H H' Hx Hy).
      * intros q x H. apply lookup_insert_Some in H as [[<- <-]|[_ H]]; [exact (inv_dir s I i Hd)|]. exact (inv_fresh s I q x H).
      * exact (inv_dir s I).
      * intros q x o H Ho. apply lookup_insert_Some in H as [[<- <-]|[_ H]]; [done|]. exact (inv_pos s I q x o H Ho).
    + constructor; simpl.
      * intros j q H. destruct (inv_held s I j q H) as (x & Hx & Hl). exists x. rewrite lookup_insert_ne; [done|]. apply not_eq_sym. eauto.
      * intros q x j H Hl. apply lookup_insert_Some in H as [[<- <-]|[_ H]]; [done|]. exact (inv_holds s I q x j H Hl).
      * intros q x j H Hn. apply lookup_insert_Some in H as [[<- <-]|[_ H]]; [simpl in Hn; congruence|].
        pose proof (inv_named s I q x j H Hn). congruence.
      * intros q x H Hu. apply lookup_insert_Some in H as [[<- <-]|[_ H]]; [done|]. destruct x; try discriminate. by destruct (C q ino0 s0).
      * intros q q' x y H H' Hx Hy. apply lookup_insert_Some in H as [[<- <-]|[_ H]], H' as [[<- <-]|[_ H']]; try done.
        exact (inv_one s I q q' x y H H' Hx Hy).
      * intros q x H. apply lookup_insert_Some in H as [[<- <-]|[_ H]]; [simpl; lia|]. pose proof (inv_fresh s I q x H). lia.
      * intros j [= <-]. lia.
      * intros q x o H Ho. apply lookup_insert_Some in H as [[<- <-]|[_ H]]; [done|]. exact (inv_pos s I q x o H Ho).
  - (* lock *)
    destruct (f_procs s !! p) as [[i|i|i x|i x|i]|] eqn:Hp; try done.
    destruct (f_locks s !! i) as [q|] eqn:Hl; injection H as <- <-; [by apply inv_gone|].
    constructor; simpl.
    + intros j q H. apply lookup_insert_Some in H as [[<- <-]|[Hne H]].
      * exists (PLocked i). by rewrite lookup_insert.
      * destruct (inv_held s I j q H) as (x & Hx & Hlx). exists x. rewrite lookup_insert_ne; [done|]. intros <-. rewrite Hp in Hx. by injection Hx as <-.
    + intros q x j H Hlx. apply lookup_insert_Some in H as [[<- <-]|[Hne H]]; [injection Hlx as <-; apply lookup_insert|].
      pose proof (inv_holds s I q x j H Hlx). rewrite lookup_insert_ne; [done|]. intros <-. congruence.
    + intros q x j H Hn. apply lookup_insert_Some in H as [[<- <-]|[Hne H]]; [|exact (inv_named s I q x j H Hn)].
      exact (inv_named s I p _ j Hp Hn).
    + intros q x H Hu. apply lookup_insert_Some in H as [[<- <-]|[_ H]]; [done|]. exact (inv_unlinked s I q x H Hu).
    + intros q q' x y H H' Hx Hy. apply lookup_insert_Some in H as [[<- <-]|[_ H]], H' as [[<- <-]|[_ H']]; try done.
      exact (inv_one s I q q' x y H H' Hx Hy).
    + intros q x H. apply lookup_insert_Some in H as [[<- <-]|[_ H]]; [exact (inv_fresh s I p _ Hp)|]. exact (inv_fresh s I q x H).
    + exact (inv_dir s I).
    + intros q x o H Ho. apply lookup_insert_Some in H as [[<- <-]|[_ H]]; [done|]. exact (inv_pos s I q x o H Ho).
  - (* load *)
    destruct (f_procs s !! p) as [[i|i|i x|i x|i]|] eqn:Hp; try done. injection H as <- <-.
    apply (inv_set s p (PLocked i)); try done. by intros o [= <-].
  - destruct (f_procs s !! p) as [[i|i|i x|i x|i]|] eqn:Hp; try done. injection H as <- <-. by apply inv_gone.
  - (* write *)
    destruct (f_procs s !! p) as [[i|i|i x|i x|i]|] eqn:Hp; try done. injection H as <- <-.
    apply (inv_set s p (PSession i x)); try done. intros o [= <-]. exact (inv_pos s I p _ x Hp eq_refl).
  - (* flush *)
    destruct (f_procs s !! p) as [[i|i|i x|i x|i]|] eqn:Hp; try done. injection H as <- <-.
    apply (inv_set s p (PSession i x)); try done. intros o [= <-]. simpl.
    rewrite (inv_pos s I p _ x Hp eq_refl), write_at_end, app_length. done.
  - (* drop *)
    destruct (f_procs s !! p) as [[i|i|i x|i x|i]|] eqn:Hp; try done. injection H as <- <-.
    assert (Hd : f_dir s = Some i) by exact (inv_named s I p _ i Hp eq_refl).
    assert (Hoth : forall q y, f_procs s !! q = Some y -> p <> q -> named_ino y = None /\ unlinked y = false).
    { intros q y Hq Hne. destruct y as [j|j|j y|j y|j]; simpl.
      - by destruct (C q j).
      - destruct Hne. by apply (active_one s p q _ _ I Hp Hq).
      - destruct Hne. by apply (active_one s p q _ _ I Hp Hq).
      - destruct Hne. by apply (active_one s p q _ _ I Hp Hq).
      - done. }
    constructor; simpl.
    + intros j q H. destruct (inv_held s I j q H) as (z & Hz & Hlz). destruct (decide (q = p)) as [->|Hne].
      * exists (PUnlinked i x). rewrite lookup_insert. split; [done|]. rewrite Hp in Hz. by injection Hz as <-.
      * exists z. by rewrite lookup_insert_ne.
    + intros q z j H Hlz. apply lookup_insert_Some in H as [[<- <-]|[Hne H]].
      * exact (inv_holds s I p _ j Hp Hlz).
      * exact (inv_holds s I q z j H Hlz).
    + intros q z j H Hnz. apply lookup_insert_Some in H as [[<- <-]|[Hne H]]; [done|]. destruct (Hoth q z H Hne). congruence.
    + done.
    + intros q q' z z' H H' Hz Hz'. apply lookup_insert_Some in H as [[<- <-]|[Hne H]], H' as [[<- <-]|[Hne' H']]; try done.
      * destruct (Hoth q' z' H' Hne'). congruence.
      * destruct (Hoth q z H Hne). congruence.
      * destruct (Hoth q z H Hne). congruence.
    + intros q z H. apply lookup_insert_Some in H as [[<- <-]|[_ H]]; [exact (inv_fresh s I p _ Hp)|]. exact (inv_fresh s I q z H).
    + done.
    + intros q z o H Ho. apply lookup_insert_Some in H as [[<- <-]|[_ H]]; [exact (inv_pos s I p _ o Hp Ho)|]. exact (inv_pos s I q z o H Ho).
  - (* final *)
    destruct (f_procs s !! p) as [[i|i|i x|i x|i]|] eqn:Hp; try done. injection H as <- <-.
    assert (Hoth : forall q y, f_procs s !! q = Some y -> p <> q -> active y = false).
    { intros q y Hq Hne. destruct (active y) eqn:Ay; [|done]. destruct Hne. exact (active_one s p q _ _ I Hp Hq eq_refl Ay). }
    constructor; simpl.
    + intros j q H. destruct (inv_held s I j q H) as (z & Hz & Hlz). destruct (decide (q = p)) as [->|Hne].
      * exists (PFlushed i). rewrite lookup_insert. split; [done|]. rewrite Hp in Hz. by injection Hz as <-.
      * exists z. by rewrite lookup_insert_ne.
    + intros q z j H Hlz. apply lookup_insert_Some in H as [[<- <-]|[Hne H]].
      * exact (inv_holds s I p _ j Hp Hlz).
      * exact (inv_holds s I q z j H Hlz).
    + intros q z j H Hnz. apply lookup_insert_Some in H as [[<- <-]|[Hne H]]; [done|]. exact (inv_named s I q z j H Hnz).
    + intros q z H Hu. apply lookup_insert_Some in H as [[<- <-]|[Hne H]]; [done|]. exact (inv_unlinked s I q z H Hu).
    + intros q q' z z' H H' Hz Hz'. apply lookup_insert_Some in H as [[<- <-]|[Hne H]], H' as [[<- <-]|[Hne' H']]; try done.
      exact (inv_one s I q q' z z' H H' Hz Hz').
    + intros q z H. apply lookup_insert_Some in H as [[<- <-]|[_ H]]; [exact (inv_fresh s I p _ Hp)|]. exact (inv_fresh s I q z H).
    + exact (inv_dir s I).
    + intros q z o H Ho. apply lookup_insert_Some in H as [[<- <-]|[Hne H]]; [done|]. pose proof (Hoth q z H Hne). destruct z; done.
  - destruct (f_procs s !! p) as [[i|i|i x|i x|i]|] eqn:Hp; try done. injection H as <- <-. by apply inv_gone.
  - destruct (f_procs s !! p) as [?|] eqn:Hp; try done. injection H as <- <-. by apply inv_gone.
Qed.

Lemma inv_run s acts s' es : inv s -> calm_run s acts -> run s acts = Some (s', es) -> inv s'.
Proof.
  revert s es. induction acts as [|a acts IH]; intros s es I C H; simpl in *; [by injection H as <- <-|].
  destruct (step s a) as [[s1 e1]|] eqn:E; [|done]. destruct C as [C1 C2].
  destruct (run s1 acts) as [[s2 e2]|] eqn:R; [|done]. injection H as <- <-. exact (IH s1 e2 (inv_step _ _ _ _ I C1 E) C2 R).
Qed.

(** ** The log *)
(** What is buffered. *)
Definition pending (s : fs) (b : bytes) : Prop :=
  (exists p x o, f_procs s !! p = Some x /\ open_session x = Some o /\ s_buf o = b)
  \/ ((forall p x, f_procs s !! p = Some x -> open_session x = None) /\ b = []).
Definition wr (a : action) : bytes := match a with AWrite _ b => b | _ => [] end.

Lemma pending_gone s p x b : f_procs s !! p = Some x -> open_session x = None -> pending s b -> pending (gone s p) b.
Proof.
  intros Hp Hx [(q & y & o & Hq & Ho & Hb)|[Hno ->]].
  - left. exists q, y, o. split; [|done]. apply gone_procs. split; [done|]. intros ->. congruence.
  - right. split; [|done]. intros q y H. apply gone_procs in H as [H _]. eauto.
Qed.

Lemma log_step s a s' es b : inv s -> calm s a -> step s a = Some (s', es) -> pending s b ->
  exists w, f_log s' = f_log s ++ w /\ (crash a = false -> exists b', pending s' b' /\ b ++ wr a = w ++ b').
Proof.
  intros I C H P. destruct a as [p|p|p|p|p c|p n|p|p|p|p]; simpl in H.
  - destruct (f_procs s !! p) as [?|] eqn:Hp; [done|].
    assert (exists x, s' = Fs (f_dir s') (f_next s') (f_locks s') (f_log s) (<[p := x]> (f_procs s)) /\ open_session x = None) as (x & E & Hx).
    { destruct (f_dir s); injection H as <- <-; eexists; (split; [reflexivity|done]). }
    rewrite E. exists []. split; [by rewrite app_nil_r|]. intros _. exists b. split; [|by rewrite app_nil_r].
    destruct P as [(q & y & o & Hq & Ho & Hb)|[Hno ->]].
    + left. exists q, y, o. split; [|done]. simpl. rewrite lookup_insert_ne; [done|]. intros ->. congruence.
    + right. split; [|done]. intros q y Hq. simpl in Hq. apply lookup_insert_Some in Hq as [[<- <-]|[_ Hq]]; eauto.
  - destruct (f_procs s !! p) as [[i|i|i x|i x|i]|] eqn:Hp; try done.
    exists []. rewrite app_nil_r. destruct (f_locks s !! i) as [q|] eqn:Hl; injection H as <- <-.
    + split; [done|]. intros _. exists b. split; [|by rewrite app_nil_r]. by apply (pending_gone s p (POpened i)).
    + split; [done|]. intros _. exists b. split; [|by rewrite app_nil_r].
      destruct P as [(q & y & o & Hq & Ho & Hb)|[Hno ->]].
      * left. exists q, y, o. split; [|done]. simpl. rewrite lookup_insert_ne; [done|]. intros ->. rewrite Hp in Hq. by injection Hq as <-.
      * right. split; [|done]. intros q y Hq. simpl in Hq. apply lookup_insert_Some in Hq as [[<- <-]|[_ Hq]]; eauto.
  - destruct (f_procs s !! p) as [[i|i|i x|i x|i]|] eqn:Hp; try done. injection H as <- <-.
    exists []. rewrite app_nil_r. split; [done|]. intros _. exists []. simpl. split.
    + left. eexists p, _, _. simpl. rewrite lookup_insert. done.
    + rewrite app_nil_r. destruct P as [(q & y & o & Hq & Ho & Hb)|[Hno ->]]; [|done]. exfalso.
      assert (Ay : active y = true) by (destruct y; done).
      pose proof (active_one s p q _ y I Hp Hq eq_refl Ay). subst q. rewrite Hp in Hq. by injection Hq as <-.
  - destruct (f_procs s !! p) as [[i|i|i x|i x|i]|] eqn:Hp; try done. injection H as <- <-.
    exists []. rewrite app_nil_r. split; [done|]. intros _. exists b. split; [|by rewrite app_nil_r]. by apply (pending_gone s p (PLocked i)).
  - destruct (f_procs s !! p) as [[i|i|i x|i x|i]|] eqn:Hp; try done. injection H as <- <-.
    exists []. rewrite app_nil_r. split; [done|]. intros _. exists (s_buf x ++ c). simpl. split.
    + left. eexists p, _, _. simpl. rewrite lookup_insert. done.
    + destruct P as [(q & y & o & Hq & Ho & Hb)|[Hno ->]].
      * assert (Ay : active y = true) by (destruct y; done).
        pose proof (active_one s p q _ y I Hp Hq eq_refl Ay). subst q. rewrite Hp in Hq. injection Hq as <-. injection Ho as <-. by rewrite Hb.
      * by pose proof (Hno p _ Hp).
  - destruct (f_procs s !! p) as [[i|i|i x|i x|i]|] eqn:Hp; try done. injection H as <- <-. simpl.
    exists (take n (s_buf x)). rewrite (inv_pos s I p _ x Hp eq_refl), write_at_end. split; [done|].
    intros _. exists (drop n (s_buf x)). split.
    + left. eexists p, _, _. simpl. rewrite lookup_insert. done.
    + rewrite app_nil_r, take_drop. destruct P as [(q & y & o & Hq & Ho & Hb)|[Hno ->]].
      * assert (Ay : active y = true) by (destruct y; done).
        pose proof (active_one s p q _ y I Hp Hq eq_refl Ay). subst q. rewrite Hp in Hq. injection Hq as <-. by injection Ho as <-.
      * by pose proof (Hno p _ Hp).
  - destruct (f_procs s !! p) as [[i|i|i x|i x|i]|] eqn:Hp; try done. injection H as <- <-. simpl.
    exists []. rewrite app_nil_r. split; [done|]. intros _. exists (s_buf x). simpl. split.
    + left. eexists p, _, _. simpl. rewrite lookup_insert. done.
    + rewrite app_nil_r. destruct P as [(q & y & o & Hq & Ho & Hb)|[Hno ->]].
      * assert (Ay : active y = true) by (destruct y; done).
        pose proof (active_one s p q _ y I Hp Hq eq_refl Ay). subst q. rewrite Hp in Hq. injection Hq as <-. by injection Ho as <-.
      * by pose proof (Hno p _ Hp).
  - destruct (f_procs s !! p) as [[i|i|i x|i x|i]|] eqn:Hp; try done. injection H as <- <-. simpl.
    exists (s_buf x). rewrite (inv_pos s I p _ x Hp eq_refl), write_at_end. split; [done|].
    intros _. exists []. rewrite !app_nil_r. split.
    + right. split; [|done]. simpl. intros q y Hq. apply lookup_insert_Some in Hq as [[<- <-]|[Hne Hq]]; [done|].
      destruct (open_session y) eqn:Ho; [|done]. exfalso. assert (Ay : active y = true) by (destruct y; done).
      exact (Hne (active_one s p q _ y I Hp Hq eq_refl Ay)).
    + destruct P as [(q & y & o & Hq & Ho & Hb)|[Hno ->]].
      * assert (Ay : active y = true) by (destruct y; done).
        pose proof (active_one s p q _ y I Hp Hq eq_refl Ay). subst q. rewrite Hp in Hq. injection Hq as <-. by injection Ho as <-.
      * by pose proof (Hno p _ Hp).
  - destruct (f_procs s !! p) as [[i|i|i x|i x|i]|] eqn:Hp; try done. injection H as <- <-.
    exists []. rewrite app_nil_r. split; [done|]. intros _. exists b. split; [|by rewrite app_nil_r]. by apply (pending_gone s p (PFlushed i)).
  - destruct (f_procs s !! p) as [?|] eqn:Hp; try done. injection H as <- <-. exists []. rewrite app_nil_r. done.
Qed.

Lemma pending_some s : exists b, pending s b.
Proof.
  destruct (omap (fun p => open_session (snd p)) (map_to_list (f_procs s))) as [|o os] eqn:E.
  - exists []. right. split; [|done]. intros p x Hp. destruct (open_session x) as [o|] eqn:Ho; [|done]. exfalso.
    assert (Hin : o ∈ omap (fun p : nat * phase => open_session (snd p)) (map_to_list (f_procs s))).
    { apply elem_of_list_omap. exists (p, x). split; [by apply elem_of_map_to_list|done]. }
    rewrite E in Hin. by apply elem_of_nil in Hin.
  - assert (Hin : o ∈ omap (fun p : nat * phase => open_session (snd p)) (map_to_list (f_procs s))) by (rewrite E; left).
    apply elem_of_list_omap in Hin as ([p x] & Hp & Ho). apply elem_of_map_to_list in Hp. exists (s_buf o). left. exists p, x, o. done.
Qed.

Lemma log_grows s acts s' es : inv s -> calm_run s acts -> run s acts = Some (s', es) -> exists w, f_log s' = f_log s ++ w.
Proof.
  revert s es. induction acts as [|a acts IH]; intros s es I C H; simpl in *.
  - injection H as <- <-. exists []. by rewrite app_nil_r.
  - destruct (step s a) as [[s1 e1]|] eqn:E; [|done]. destruct C as [C1 C2].
    destruct (run s1 acts) as [[s2 e2]|] eqn:R; [|done]. injection H as <- <-.
    destruct (pending_some s) as [b P]. destruct (log_step s a s1 e1 b I C1 E P) as (w & Hw & _).
    destruct (IH s1 e2 (inv_step _ _ _ _ I C1 E) C2 R) as [w' Hw']. exists (w ++ w'). by rewrite Hw', Hw, <- List.app_assoc.
Qed.

Lemma log_written s acts s' es b : inv s -> calm_run s acts -> Forall (fun a => crash a = false) acts -> run s acts = Some (s', es) -> pending s b ->
  exists b', pending s' b' /\ f_log s ++ b ++ written acts = f_log s' ++ b'.
Proof.
  revert s es b. induction acts as [|a acts IH]; intros s es b I C F H P; simpl in *.
  - injection H as <- <-. exists b. unfold written. simpl. by rewrite app_nil_r.
  - destruct (step s a) as [[s1 e1]|] eqn:E; [|done]. destruct C as [C1 C2]. inversion F as [|? ? F1 F2]; subst.
    destruct (run s1 acts) as [[s2 e2]|] eqn:R; [|done]. injection H as <- <-.
    destruct (log_step s a s1 e1 b I C1 E P) as (w & Hw & Hc). destruct (Hc F1) as (b1 & P1 & Eb).
    destruct (IH s1 e2 b1 (inv_step _ _ _ _ I C1 E) C2 F2 R P1) as (b2 & P2 & Eq). exists b2. split; [done|].
    rewrite <- Eq, Hw. unfold written. simpl. change (match a with AWrite _ b0 => b0 | _ => [] end) with (wr a).
    rewrite <- !List.app_assoc. f_equal. rewrite !List.app_assoc, Eb. done.
Qed.
