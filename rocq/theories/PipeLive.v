From Verif Require Export PipeProofs.

Section pipe.
Context (K : nat).
Hypothesis HK : 1 <= K.

(** ** States in which nothing can happen *)
Lemma parent_child_step s i m p : io_procs s !! i = Some p -> io_parent s <> Panicked -> io_step K s (Child i m) = child_step K s i m p.
Proof. intros Hi Hp. unfold io_step. rewrite Hi. destruct (io_parent s) as [[]|? ? []| |]; done. Qed.

Lemma blocked_cases s i p : io_procs s !! i = Some p -> io_parent s <> Panicked -> (forall m, io_step K s (Child i m) = None) ->
  ended p \/ blocked_writing K s p \/ exists n k, pr_prog p = Read n k /\ pr_open p FIn = true /\ io_pipe s FIn = [] /\ feeding (io_parent s) = true.
Proof.
  intros Hi Hp H. pose proof (fun m => eq_trans (eq_sym (parent_child_step s i m p Hi Hp)) (H m)) as Hc. clear H.
  unfold child_step in Hc. destruct (pr_prog p) as [raw|f b k|n k|f k|c k] eqn:Ep.
  - left. by exists raw.
  - right. left. destruct (fd_eqb f FIn || negb (pr_open p f)) eqn:Eo; [by specialize (Hc 0)|]. apply orb_false_iff in Eo as [E1 E2].
    destruct b as [|x b]; [by specialize (Hc 0)|]. exists f, (x :: b), k. split; [done|]. split; [done|].
    split; [intros ->; by rewrite fd_eqb_refl in E1|]. split; [by destruct (pr_open p f)|].
    specialize (Hc 1). destruct (transfer _ _ _) eqn:Et; [done|]. destruct (decide (K <= length (io_pipe s f))) as [|Hlt]; [done|].
    assert (transfer 1 (K - length (io_pipe s f)) (length (x :: b)) = true) by (apply transfer_spec; simpl; lia). congruence.
  - right. right. destruct (Nat.eqb n 0 || _) eqn:Eo; [by specialize (Hc 0)|]. apply orb_false_iff in Eo as [E1 E2]. apply Nat.eqb_neq in E1.
    exists n, k. split; [done|]. split; [by destruct (pr_open p FIn)|]. destruct (io_pipe s FIn) as [|x b] eqn:Eb.
    + split; [done|]. specialize (Hc 0). by destruct (feeding (io_parent s)).
    + specialize (Hc 1). destruct (transfer _ _ _) eqn:Et; [done|].
      assert (transfer 1 n (length (x :: b)) = true) by (apply transfer_spec; simpl; lia). congruence.
  - by specialize (Hc 0).
  - by specialize (Hc 0).
Qed.

Lemma stuck_cases input s t : Inv K input s t -> stuck K s ->
  (finished s /\ forall i p, io_procs s !! i = Some p -> ended p) \/ panicked s \/ deadlocked K s.
Proof.
  intros HI Hst. destruct (io_parent s) as [rest|got eof st|raw o e d|] eqn:Ep.
  - right. right. destruct rest as [|x rest]; [specialize (Hst ParentClose); unfold io_step in Hst; by rewrite Ep in Hst|].
    pose proof (Hst (ParentWrite 1)) as Hw. unfold io_step in Hw. rewrite Ep in Hw. destruct (existsb (holds FIn) (io_procs s)) eqn:Eh; [|done].
    destruct (transfer _ _ _) eqn:Et; [done|]. assert (K <= length (io_pipe s FIn)) as Hf.
    { destruct (decide (K <= length (io_pipe s FIn))) as [|Hlt]; [done|].
      assert (transfer 1 (K - length (io_pipe s FIn)) (length (x :: rest)) = true) by (apply transfer_spec; simpl; lia). congruence. }
    split; [by exists (x :: rest)|]. split; [done|]. split; [by apply existsb_lookup|]. intros i p Hi.
    destruct (blocked_cases s i p Hi) as [H|[H|(n & k & _ & _ & H & _)]]; [by rewrite Ep|intros m; apply Hst|by left|by right|].
    rewrite H in Hf. simpl in Hf. lia.
  - left. exfalso. assert (Hr : forall f m, eof f = false -> 0 < m -> m <= length (io_pipe s f) -> False).
    { intros f m He H0 Hm. specialize (Hst (ParentRead f m)). unfold io_step in Hst. rewrite Ep, He in Hst. simpl in Hst.
      assert (transfer m (length (io_pipe s f)) (length (io_pipe s f)) = true) as Ht by (apply transfer_spec; lia). rewrite Ht in Hst. by destruct st. }
    assert (Hall : forall i p, io_procs s !! i = Some p -> ended p).
    { intros i p Hi. destruct (blocked_cases s i p Hi) as [H|[(f & b & k & E1 & E2 & E3 & E4 & E5)|(n & k & _ & _ & _ & H)]]; [by rewrite Ep|intros m; apply Hst|done| |by rewrite Ep in H].
      destruct (eof f) eqn:Ee; [|exfalso; eapply (Hr f 1); [done|lia..]].
      destruct (i_over _ _ _ _ HI f E3) as [Hn _]; [by rewrite Ep|]. rewrite existsb_false in Hn. specialize (Hn _ _ Hi). unfold holds in Hn. by rewrite E1, E4 in Hn. }
    assert (He : forall f, eof f = true).
    { intros f. destruct (eof f) eqn:Ee; [done|]. specialize (Hst (ParentEof f)). unfold io_step in Hst. rewrite Ep, Ee in Hst.
      destruct (io_pipe s f) as [|x b] eqn:Eb; [|exfalso; eapply (Hr f 1); [done|lia|rewrite Eb; simpl; lia]].
      assert (existsb (holds f) (io_procs s) = false) as Hn.
      { apply existsb_false. intros i p Hi. destruct (Hall _ _ Hi) as [raw E]. unfold holds. by rewrite E. }
      rewrite Hn in Hst. by destruct st. }
    destruct st as [raw|].
    + specialize (Hst ParentDone). unfold io_step in Hst. by rewrite Ep, !He in Hst.
    + specialize (Hst ParentWait). unfold io_step in Hst. rewrite Ep in Hst. destruct (i_root _ _ _ _ HI) as [Hne _].
      destruct (io_procs s) as [|[q o] ps] eqn:Eps; [done|]. destruct (Hall 0 _ eq_refl) as [raw E]. simpl in E. by subst.
  - left. split; [by exists raw, o, e, d|]. intros i p Hi.
    destruct (blocked_cases s i p Hi) as [H|[(f & b & k & E1 & E2 & E3 & E4 & E5)|(n & k & _ & _ & _ & H)]]; [by rewrite Ep|intros m; apply Hst|done| |by rewrite Ep in H].
    destruct (i_over _ _ _ _ HI f E3) as [Hn _]; [by rewrite Ep|]. rewrite existsb_false in Hn. specialize (Hn _ _ Hi). unfold holds in Hn. by rewrite E1, E4 in Hn.
  - right. by left.
Qed.

(** ** The number of steps *)
Lemma ends_le L n p : ends L n p -> forall L' n', L' <= L -> n <= n' -> ends L' n' p.
Proof.
  induction 1 as [L n raw|L n n1 f b k _ IH Hn|L n r k _ IH|L n f k _ IH|L n m n1 c k _ IH1 _ IH2 Hn]; intros L' n' HL Hn'.
  - constructor.
  - eapply e_write; [apply (IH L' n); lia|lia].
  - destruct n' as [|n']; [lia|]. constructor. intros b Hb. apply IH; lia.
  - destruct n' as [|n']; [lia|]. constructor. apply IH; lia.
  - eapply e_fork; [apply (IH1 L' n); lia|apply (IH2 L' m); lia|lia].
Qed.

Definition input_left (s : io) : nat := length (io_pipe s FIn) + match io_parent s with Feeding rest => length rest | _ => 0 end.
Definition open_eof (eof : fd -> bool) : nat := (if eof FOut then 0 else 1) + (if eof FErr then 0 else 1) + (if eof FThree then 0 else 1).
Definition parent_work (p : parent) : nat :=
  match p with
  | Feeding rest => length rest + 6
  | Reading _ eof st => open_eof eof + match st with None => 2 | Some _ => 1 end
  | _ => 0
  end.
Definition out_bytes (s : io) : nat := length (io_pipe s FOut) + length (io_pipe s FErr) + length (io_pipe s FThree).
(** [w]: the work left for all processes together. *)
Definition work_left (s : io) (w : nat) : Prop :=
  exists ns, Forall2 (fun n p => ends (input_left s) n (pr_prog p)) ns (io_procs s) /\ 2 * sum_list ns + out_bytes s + parent_work (io_parent s) <= w.

Lemma sum_list_insert ns i n n' : ns !! i = Some n -> sum_list (<[i := n']> ns) + n = sum_list ns + n'.
Proof. revert i. induction ns as [|x ns IH]; intros [|i] H; simplify_eq/=; [lia|]. specialize (IH i H). lia. Qed.

Lemma out_bytes_set pr pi pa f b : f <> FIn -> out_bytes (Io pr (set f b pi) pa) + length (pi f) = out_bytes (Io pr pi pa) + length b.
Proof. destruct f; [done|..]; intros _; unfold out_bytes, set; simpl; lia. Qed.
Lemma out_bytes_in pr pi pa b : out_bytes (Io pr (set FIn b pi) pa) = out_bytes (Io pr pi pa).
Proof. done. Qed.
Lemma input_left_set pr pi pa f b : f <> FIn -> input_left (Io pr (set f b pi) pa) = input_left (Io pr pi pa).
Proof. intros. unfold input_left. simpl. by rewrite set_other. Qed.

Lemma io_eta s : s = Io (io_procs s) (io_pipe s) (io_parent s).
Proof. by destruct s. Qed.

Lemma work_child s i m p s' os w : io_procs s !! i = Some p -> child_step K s i m p = Some (s', os) -> work_left s w ->
  exists w', work_left s' w' /\ w' < w.
Proof.
  intros Hi Hs (ns & HF & Hw). destruct (Forall2_lookup_r _ _ _ _ _ HF Hi) as (n & Hn & He). simpl in He.
  assert (Hgo : forall q n' pr', pr' = <[i := q]> (io_procs s) -> forall s2, io_procs s2 = pr' -> input_left s2 <= input_left s -> ends (input_left s2) n' (pr_prog q) ->
    Forall2 (fun n p => ends (input_left s2) n (pr_prog p)) (<[i := n']> ns) (io_procs s2)).
  { intros q n' pr' -> s2 -> HL Hq. apply Forall2_insert; [|done]. eapply Forall2_impl; [exact HF|]. intros x y Hxy. eapply ends_le; [exact Hxy|done..]. }
  pose proof (fun n' => sum_list_insert ns i n n' Hn) as Hsum.
  unfold child_step in Hs. destruct (pr_prog p) as [raw|f b k|r k|f k|c k] eqn:Ep; [done| | | |].
  - inversion He as [|? n0 ? ? ? ? H1 H2| | |]; subst.
    destruct (fd_eqb f FIn || negb (pr_open p f)) eqn:Eo.
    { injection Hs as <- <-. exists (2 * sum_list (<[i := n0]> ns) + out_bytes s + parent_work (io_parent s)). split; [|specialize (Hsum n0); lia].
      exists (<[i := n0]> ns). split; [|done]. eapply Hgo; done. }
    apply orb_false_iff in Eo as [E1 E2]. assert (f <> FIn) as Hf by (intros ->; by rewrite fd_eqb_refl in E1). destruct b as [|x b].
    { injection Hs as <- <-. exists (2 * sum_list (<[i := n0]> ns) + out_bytes s + parent_work (io_parent s)). split; [|specialize (Hsum n0); simpl in H2; lia].
      exists (<[i := n0]> ns). split; [|done]. eapply Hgo; done. }
    destruct (transfer _ _ _) eqn:Et; [|done]. apply transfer_spec in Et as (T1 & T2 & T3). injection Hs as <- <-.
    pose proof (out_bytes_set (<[i:=Proc (Write f (drop m (x :: b)) k) (pr_open p)]> (io_procs s)) (io_pipe s) (io_parent s) f (io_pipe s f ++ take m (x :: b)) Hf) as Hb.
    rewrite app_length, take_length in Hb.
    assert (out_bytes (Io (<[i:=Proc (Write f (drop m (x :: b)) k) (pr_open p)]> (io_procs s)) (io_pipe s) (io_parent s)) = out_bytes s) as Ho by done.
    specialize (Hsum (n - m)). eexists. split; [exists (<[i := n - m]> ns); split; [|reflexivity]|].
    + eapply Hgo; [done|done|by rewrite input_left_set|]. simpl. rewrite input_left_set by done. eapply e_write; [exact H1|]. rewrite drop_length. lia.
    + cbn [io_parent]. rewrite Ho in Hb. rewrite Nat.min_l in Hb by done.
      match goal with |- _ + ?a + _ < _ => assert (a = out_bytes s + m) as -> by (change (a + length (io_pipe s f) = out_bytes s + (length (io_pipe s f) + m)) in Hb; lia) end. lia.
  - inversion He as [| |? n0 ? ? H1| |]; subst. destruct (Nat.eqb r 0 || _) eqn:Eo.
    { injection Hs as <- <-. exists (2 * sum_list (<[i := n0]> ns) + out_bytes s + parent_work (io_parent s)). split; [|specialize (Hsum n0); lia].
      exists (<[i := n0]> ns). split; [|done]. eapply Hgo; try done. simpl. specialize (H1 [] (Nat.le_0_l _)). simpl in H1. by rewrite Nat.sub_0_r in H1. }
    destruct (io_pipe s FIn) as [|x b] eqn:Eb.
    { destruct (feeding (io_parent s)); [done|]. injection Hs as <- <-.
      exists (2 * sum_list (<[i := n0]> ns) + out_bytes s + parent_work (io_parent s)). split; [|specialize (Hsum n0); lia].
      exists (<[i := n0]> ns). split; [|done]. eapply Hgo; try done. simpl. specialize (H1 [] (Nat.le_0_l _)). simpl in H1. by rewrite Nat.sub_0_r in H1. }
    destruct (transfer _ _ _) eqn:Et; [|done]. apply transfer_spec in Et as (T1 & T2 & T3). injection Hs as <- <-.
    assert (input_left (Io (<[i:=Proc (k (take m (x :: b))) (pr_open p)]> (io_procs s)) (set FIn (drop m (x :: b)) (io_pipe s)) (io_parent s)) = input_left s - m /\ m <= input_left s) as [Hl Hm].
    { unfold input_left. cbn [io_pipe io_parent]. rewrite set_same, Eb, drop_length. lia. }
    specialize (Hsum n0). eexists. split; [exists (<[i := n0]> ns); split; [|reflexivity]|].
    + eapply Hgo; [done|done|lia|]. rewrite Hl. simpl. specialize (H1 (take m (x :: b))). rewrite take_length in H1.
      replace (Nat.min m (length (x :: b))) with m in H1 by lia. by apply H1.
    + rewrite out_bytes_in. cbn [io_parent]. unfold out_bytes in *. cbn [io_pipe]. lia.
  - inversion He as [| | |? n0 ? ? H1|]; subst. injection Hs as <- <-. exists (2 * sum_list (<[i := n0]> ns) + out_bytes s + parent_work (io_parent s)). split; [|specialize (Hsum n0); lia].
    exists (<[i := n0]> ns). split; [|done]. eapply Hgo; done.
  - inversion He as [| | | |? n1 n2 ? ? ? H1 H2 H3]; subst. injection Hs as <- <-.
    specialize (Hsum n2). exists (2 * sum_list (<[i := n2]> ns ++ [n1]) + out_bytes s + parent_work (io_parent s)). split.
    + exists (<[i := n2]> ns ++ [n1]). split; [|done]. apply Forall2_app; [|by repeat constructor]. eapply (Hgo _ _ _ eq_refl (Io (<[i := Proc k (pr_open p)]> (io_procs s)) (io_pipe s) (io_parent s))); done.
    + assert (forall l x, sum_list (l ++ [x]) = sum_list l + x) as Hap by (induction l; intros; simpl in *; [lia|rewrite IHl; lia]). rewrite Hap. lia.
Qed.

Lemma work_step s a s' os w : io_step K s a = Some (s', os) -> work_left s w -> (forall got eof st, io_parent s = Reading got eof st -> eof FIn = true) ->
  exists w', work_left s' w' /\ w' < w.
Proof.
  intros Hs Hw Hin. unfold io_step in Hs.
  destruct (io_parent s) as [rest|got eof st|raw o e d|] eqn:Ep; [| | |done].
  - destruct a as [m| |f m|f| | |i m]; try (by destruct rest).
    + destruct rest as [|x rest]; [done|]. destruct Hw as (ns & HF & Hw). destruct (existsb (holds FIn) (io_procs s)) eqn:Eh.
      * destruct (transfer _ _ _) eqn:Et; [|done]. apply transfer_spec in Et as (T1 & T2 & T3). injection Hs as <- <-.
        eexists. split; [exists ns; split; [|reflexivity]|].
        -- cbn [io_procs]. replace (input_left _) with (input_left s); [done|]. unfold input_left. cbn [io_pipe io_parent]. rewrite Ep, set_same, app_length, take_length, drop_length. lia.
        -- rewrite Ep in Hw. rewrite out_bytes_in. unfold out_bytes in *. cbn [io_pipe io_parent parent_work] in *. rewrite drop_length. lia.
      * injection Hs as <- <-. eexists. split; [exists ns; split; [|reflexivity]|].
        -- eapply Forall2_impl; [exact HF|]. intros ? ? H. eapply ends_le; [exact H| |done]. unfold input_left. cbn. lia.
        -- rewrite Ep in Hw. unfold out_bytes in *. cbn [with_parent io_pipe io_parent parent_work] in *. lia.
    + destruct rest as [|x rest]; [|done]. destruct Hw as (ns & HF & Hw). injection Hs as <- <-. eexists. split; [exists ns; split; [|reflexivity]|].
      * eapply Forall2_impl; [exact HF|]. intros ? ? H. eapply ends_le; [exact H| |done]. unfold input_left. cbn. lia.
      * rewrite Ep in Hw. unfold out_bytes in *. cbn in *. lia.
    + assert (exists p, io_procs s !! i = Some p /\ child_step K s i m p = Some (s', os)) as (p & Hi & Hc) by (destruct rest; (destruct (io_procs s !! i) as [p|] eqn:E; [by exists p|done])).
      by eapply work_child.
  - destruct a as [m| |f m|f| | |i m]; try (by destruct st).
    + destruct (negb (eof f) && _) eqn:Et; [|by destruct st]. apply andb_true_iff in Et as [Ee Et]. apply transfer_spec in Et as (T1 & T2 & _).
      assert (f <> FIn) as Hf. { intros ->. by rewrite (Hin _ _ _ eq_refl) in Ee. }
      assert (s' = Io (io_procs s) (set f (drop m (io_pipe s f)) (io_pipe s)) (Reading (set f (got f ++ take m (io_pipe s f)) got) eof st) /\ os = []) as [-> ->] by (destruct st; by injection Hs as <- <-).
      destruct Hw as (ns & HF & Hw). eexists. split; [exists ns; split; [|reflexivity]|].
      * rewrite input_left_set by done. eapply Forall2_impl; [exact HF|]. intros ? ? H. eapply ends_le; [exact H| |done]. unfold input_left. cbn. lia.
      * pose proof (out_bytes_set (io_procs s) (io_pipe s) (Reading (set f (got f ++ take m (io_pipe s f)) got) eof st) f (drop m (io_pipe s f)) Hf) as Hb.
        rewrite drop_length in Hb. rewrite Ep in Hw. cbn [io_parent parent_work] in *.
        match goal with |- _ + ?a + _ < _ => change (a + length (io_pipe s f) = out_bytes s + (length (io_pipe s f) - m)) in Hb end. lia.
    + destruct (eof f) eqn:Ee; [by destruct st|]. destruct (io_pipe s f) eqn:Epf; [|by destruct st]. destruct (existsb (holds f) (io_procs s)) eqn:Eh; [by destruct st|].
      assert (s' = with_parent s (Reading got (set f true eof) st) /\ os = []) as [-> ->] by (destruct st; by injection Hs as <- <-).
      destruct Hw as (ns & HF & Hw). eexists. split; [exists ns; split; [|reflexivity]|].
      * eapply Forall2_impl; [exact HF|]. intros ? ? H. eapply ends_le; [exact H| |done]. unfold input_left. cbn. lia.
      * rewrite Ep in Hw. assert (open_eof (set f true eof) < open_eof eof) as Ho.
        { unfold open_eof. destruct f; [by rewrite (Hin _ _ _ eq_refl) in Ee|..]; rewrite set_same, !set_other by done; rewrite Ee; lia. }
        unfold out_bytes in *. cbn [with_parent io_pipe io_parent parent_work] in *. lia.
    + destruct st; [done|]. destruct (io_procs s) as [|[[raw| | | |] o] ps] eqn:Eps; try done. injection Hs as <- <-.
      destruct Hw as (ns & HF & Hw). rewrite Ep in Hw. eexists. split; [exists ns; split; [|reflexivity]|].
      * unfold with_parent. cbn [io_procs]. eapply Forall2_impl; [exact HF|]. intros ? ? H. eapply ends_le; [exact H| |done]. unfold input_left. cbn. lia.
      * unfold out_bytes in *. cbn [with_parent io_pipe io_parent parent_work] in *. lia.
    + destruct st as [raw|]; [|done]. destruct (eof FOut && eof FErr && eof FThree) eqn:Ee; [|done]. injection Hs as <- <-.
      destruct Hw as (ns & HF & Hw). rewrite Ep in Hw. eexists. split; [exists ns; split; [|reflexivity]|].
      * eapply Forall2_impl; [exact HF|]. intros ? ? H. eapply ends_le; [exact H| |done]. unfold input_left. cbn. lia.
      * unfold out_bytes in *. cbn [with_parent io_pipe io_parent parent_work] in *. lia.
    + assert (exists p, io_procs s !! i = Some p /\ child_step K s i m p = Some (s', os)) as (p & Hi & Hc) by (destruct st; (destruct (io_procs s !! i) as [p|] eqn:E; [by exists p|done])).
      by eapply work_child.
  - destruct a as [m| |f m|f| | |i m]; try done. destruct (io_procs s !! i) as [p|] eqn:Hi; [|done]. by eapply work_child.
Qed.

Lemma work_run console input p n acts s t : ends (length (input_bytes input)) n p -> io_run K (io_start console input p) acts = Some (s, t) ->
  exists w, work_left s w /\ w + length acts <= 2 * n + length (input_bytes input) + 6.
Proof.
  intros He. revert s t. induction acts as [|a acts IH] using rev_ind; intros s t H.
  - injection H as <- <-. exists (2 * n + length (input_bytes input) + 6). split; [|simpl; lia]. exists [n]. destruct input as [b|]; simpl in *.
    + split; [|unfold out_bytes; simpl; lia]. repeat constructor. done.
    + split; [|unfold out_bytes; simpl; lia]. repeat constructor. done.
  - apply io_run_snoc in H as (s1 & t1 & os & H1 & H2 & ->). destruct (IH _ _ H1) as (w & Hw & Hb).
    pose proof (inv_run _ _ _ _ _ _ _ H1) as HI.
    destruct (work_step _ _ _ _ _ H2 Hw (i_eofin _ _ _ _ HI)) as (w' & Hw' & Hlt). exists w'. split; [done|]. rewrite app_length. simpl. lia.
Qed.

(** ** Processes that read their input first *)
Lemma reads_first_ext L r r' p : reads_first L r p -> (forall f, f <> FIn -> r f <= r' f) -> reads_first L r' p.
Proof.
  intros H. revert r'. induction H as [L r n k Hn _ IH|L r f b k Hf Hb _ IH|L r f k Hf _ IH]; intros r' Hr.
  - constructor; [done|]. intros b Hne Hl. by apply IH.
  - specialize (Hr f Hf) as Hrf. constructor; [done|lia|]. apply IH. intros g Hg. destruct (fd_dec f g) as [<-|Hne]; [rewrite !set_same; lia|rewrite !set_other by done; by apply Hr].
  - constructor; [done|]. by apply IH.
Qed.

Definition first_inv (s : io) : Prop :=
  (exists q, io_procs s = [q] /\ pr_open q FIn = true /\ reads_first (input_left s) (fun f => K - length (io_pipe s f)) (pr_prog q) /\ (io_parent s <> Panicked)) \/
  (feeding (io_parent s) = false /\ io_parent s <> Panicked).

Lemma first_step s a s' os : first_inv s -> (forall got eof st, io_parent s = Reading got eof st -> eof FIn = true) -> io_step K s a = Some (s', os) -> first_inv s'.
Proof.
  intros HF Hin Hs. destruct a as [m| |f m|f| | |i m].
  - unfold io_step in Hs. destruct (io_parent s) as [[|x rest]|? ? []|? ? ? ?|] eqn:Ep; try done. destruct HF as [(q & Hq & Ho & Hr & _)|[H _]]; [|by rewrite Ep in H].
    assert (existsb (holds FIn) (io_procs s) = true) as Hh by (rewrite Hq; simpl; unfold holds; rewrite Ho; inversion Hr; by subst).
    rewrite Hh in Hs. destruct (transfer _ _ _) eqn:Et; [|done]. apply transfer_spec in Et as (T1 & T2 & T3). injection Hs as <- <-.
    left. exists q. cbn [io_procs io_parent]. split; [done|]. split; [done|]. split; [|done].
    replace (input_left _) with (input_left s); [|unfold input_left; cbn [io_pipe io_parent]; rewrite Ep, set_same, app_length, take_length, drop_length; lia].
    eapply reads_first_ext; [exact Hr|]. intros f Hf. cbn [io_pipe]. by rewrite set_other.
  - unfold io_step in Hs. destruct (io_parent s) as [[|x rest]|? ? []|? ? ? ?|] eqn:Ep; try done. injection Hs as <- <-. by right.
  - unfold io_step in Hs. destruct (io_parent s) as [[|x rest]|got eof st|? ? ? ?|] eqn:Ep; try done.
    right. destruct (negb (eof f) && _); [|by destruct st]. destruct st; injection Hs as <- <-; done.
  - unfold io_step in Hs. destruct (io_parent s) as [[|x rest]|got eof st|? ? ? ?|] eqn:Ep; try done.
    right. destruct (eof f); [by destruct st|]. destruct (io_pipe s f); [|by destruct st]. destruct (existsb _ _); [by destruct st|]. destruct st; injection Hs as <- <-; done.
  - unfold io_step in Hs. destruct (io_parent s) as [[|x rest]|got eof []|? ? ? ?|] eqn:Ep; try done.
    right. destruct (io_procs s) as [|[[]]]; try done. by injection Hs as <- <-.
  - unfold io_step in Hs. destruct (io_parent s) as [[|x rest]|got eof []|? ? ? ?|] eqn:Ep; try done.
    right. destruct (_ && _); [|done]. by injection Hs as <- <-.
  - assert (Hnp : io_parent s <> Panicked) by (intros E; unfold io_step in Hs; by rewrite E in Hs).
    destruct (io_procs s !! i) as [p|] eqn:Hi; [|unfold io_step in Hs; rewrite Hi in Hs; by destruct (io_parent s) as [[]|? ? []| |]].
    rewrite (parent_child_step _ _ _ _ Hi Hnp) in Hs. destruct (child_effect _ _ _ _ _ _ _ Hs) as [_ Hp].
    destruct HF as [(q & Hq & Ho & Hr & _)|[H1 H2]]; [|right; by rewrite Hp].
    assert (i = 0 /\ p = q) as [-> ->] by (rewrite Hq in Hi; destruct i; [split; [done|by injection Hi as ->]|done]).
    unfold child_step in Hs. inversion Hr as [L r n k Hn Hk HL Hrr Epr|L r f b k Hf Hb Hk HL Hrr Epr|L r f k Hf Hk HL Hrr Epr]; subst; rewrite <- Epr in Hs.
    + rewrite Ho in Hs. destruct (Nat.eqb n 0) eqn:En; [apply Nat.eqb_eq in En; lia|]. simpl in Hs. destruct (io_pipe s FIn) as [|x b] eqn:Eb.
      * destruct (feeding (io_parent s)) eqn:Ef; [done|]. right. by rewrite Hp.
      * destruct (transfer _ _ _) eqn:Et; [|done]. apply transfer_spec in Et as (T1 & T2 & T3). injection Hs as <- <-. left.
        eexists. split; [cbn [io_procs]; rewrite Hq; reflexivity|]. split; [done|]. split; [|done]. cbn [pr_prog io_pipe].
        replace (input_left _) with (input_left s - length (take m (x :: b))); [|unfold input_left; cbn [io_pipe io_parent]; rewrite set_same, Eb, drop_length, take_length; lia].
        eapply reads_first_ext; [apply Hk|].
        -- by destruct m; [lia|].
        -- unfold input_left. rewrite Eb, take_length. lia.
        -- intros f Hf. cbn beta. by rewrite set_other.
    + destruct (fd_eqb f FIn || negb (pr_open q f)) eqn:Eo.
      { injection Hs as <- <-. left. eexists. split; [cbn [io_procs]; rewrite Hq; reflexivity|]. split; [done|]. split; [|done].
        eapply reads_first_ext; [exact Hk|]. intros g Hg. cbn [io_pipe]. destruct (fd_dec f g) as [<-|Hne]; [rewrite set_same; lia|by rewrite set_other]. }
      destruct b as [|x b].
      { injection Hs as <- <-. left. eexists. split; [cbn [io_procs]; rewrite Hq; reflexivity|]. split; [done|]. split; [|done].
        eapply reads_first_ext; [exact Hk|]. intros g Hg. cbn [io_pipe]. destruct (fd_dec f g) as [<-|Hne]; [rewrite set_same; lia|by rewrite set_other]. }
      destruct (transfer _ _ _) eqn:Et; [|done]. apply transfer_spec in Et as (T1 & T2 & T3). injection Hs as <- <-. left.
      eexists. split; [cbn [io_procs]; rewrite Hq; reflexivity|]. split; [done|]. split; [|done]. rewrite input_left_set by done. cbn [pr_prog io_pipe].
      constructor; [done|rewrite set_same, drop_length, app_length, take_length; lia|]. eapply reads_first_ext; [exact Hk|]. intros g Hg.
      destruct (fd_dec f g) as [<-|Hne]; [rewrite !set_same, drop_length, app_length, take_length; lia|]. rewrite !set_other by done. done.
    + injection Hs as <- <-. left. eexists. split; [cbn [io_procs]; rewrite Hq; reflexivity|]. split; [cbn; by rewrite set_other|]. split; [|done]. done.
Qed.

Lemma first_run console b p acts s t : reads_first (length b) (fun _ => K) p -> io_run K (io_start console (Some b) p) acts = Some (s, t) -> first_inv s.
Proof.
  intros Hf. revert s t. induction acts as [|a acts IH] using rev_ind; intros s t H.
  - injection H as <- <-. left. eexists. split; [reflexivity|]. split; [done|]. split; [|done]. eapply reads_first_ext; [exact Hf|]. intros f _. simpl. lia.
  - apply io_run_snoc in H as (s1 & t1 & os & H1 & H2 & ->). pose proof (inv_run _ _ _ _ _ _ _ H1) as HI.
    eapply first_step; [by eapply IH|apply (i_eofin _ _ _ _ HI)|done].
Qed.
Lemma first_not_stuck s : first_inv s -> ~ panicked s /\ ~ deadlocked K s.
Proof.
  intros [(q & Hq & Ho & Hr & Hp)|[H1 H2]]; (split; [done|]); intros ((rest & Hrest & _) & _ & _ & Hb); [|by rewrite Hrest in H1].
  destruct (Hb 0 q) as [[raw E]|(f & b & k & E & Hne & Hf & _ & Hl)]; [by rewrite Hq|inversion Hr; by subst; congruence|].
  rewrite E in Hr. inversion Hr as [|? ? ? ? ? ? Hb' |]; subst. destruct b; [done|]. simpl in Hb'. lia.
Qed.
End pipe.
