(** Proofs about the log state machine and the snapshot reader. *)
From Verif Require Import LogModel LogSpec.

Lemma history_app k es1 es2 : history k (es1 ++ es2) = history k es1 ++ history k es2.
Proof. unfold history. apply omap_app. Qed.

Lemma no_record_history k es : no_record k es <-> history k es = [].
Proof.
  unfold no_record, history. induction es as [|e es IH]; simpl.
  - split; [done|]. intros _ e [].
  - split.
    + intros H. rewrite (H e) by (by left). apply IH. intros e' He'. apply H. by right.
    + destruct (record_of k e) eqn:He; [done|]. intros Hh e' [<-|Hin]; [done|].
      by apply IH.
Qed.

Lemma no_record_app k es1 es2 : no_record k (es1 ++ es2) <-> no_record k es1 /\ no_record k es2.
Proof.
  unfold no_record. setoid_rewrite in_app_iff. firstorder.
Qed.

Lemma no_record_snoc k es e :
  no_record k es -> record_of k e = None -> no_record k (es ++ [e]).
Proof.
  intros H1 H2. apply no_record_app. split; [done|]. intros e' [<-|[]]. done.
Qed.

(** A record that does not concern [k] does not change the status of [k]. *)
Lemma status_in_snoc_other es k o e :
  status_in es k o -> record_of k e = None -> status_in (es ++ [e]) k o.
Proof.
  intros H He. destruct o as [[c sr|c sr|c sr ok]|]; simpl in *.
  - destruct H as (pre & r & post & -> & H1 & H2 & H3 & H4).
    exists pre, r, (post ++ [e]). rewrite <- List.app_assoc. simpl.
    split_and!; try done. by apply no_record_snoc.
  - destruct H as (pre & r & mid & s & post & -> & H1 & H2 & H3 & H4 & H5 & H6).
    exists pre, r, mid, s, (post ++ [e]). rewrite <- List.app_assoc. simpl.
    rewrite <- List.app_assoc. simpl. split_and!; try done. by apply no_record_snoc.
  - destruct H as (pre & r & mid & s & mid' & f & post & -> & H1 & H2 & H3 & H4 & H5 & H6 & H7 & H8 & H9).
    exists pre, r, mid, s, mid', f, (post ++ [e]). rewrite <- List.app_assoc. simpl.
    rewrite <- List.app_assoc. simpl. rewrite <- List.app_assoc. simpl.
    split_and!; try done. by apply no_record_snoc.
  - by apply no_record_snoc.
Qed.

Definition last_kind (o : option runcount_status) : option kind :=
  match o with
  | None => None
  | Some (RReady _ _) => Some KReady
  | Some (RStarted _ _) => Some KStarted
  | Some (RFinished _ _ _) => Some KFinished
  end.

Lemma history_nil_of k es : no_record k es -> history k es = [].
Proof. apply no_record_history. Qed.

Lemma record_of_ready k r : r_key r = k -> record_of k (Ready r) = Some KReady.
Proof. intros <-. simpl. by rewrite String.eqb_refl. Qed.
Lemma record_of_started k s : s_key s = k -> record_of k (Started s) = Some KStarted.
Proof. intros <-. simpl. by rewrite String.eqb_refl. Qed.
Lemma record_of_finished k f : f_key f = k -> record_of k (Finished f) = Some KFinished.
Proof. intros <-. simpl. by rewrite String.eqb_refl. Qed.

Lemma history_cons k e es :
  history k (e :: es) = match record_of k e with Some x => x :: history k es | None => history k es end.
Proof. done. Qed.

Lemma status_in_last_kind es k o :
  status_in es k o -> last (history k es) = last_kind o.
Proof.
  intros H. destruct o as [[c sr|c sr|c sr ok]|]; simpl in *.
  - destruct H as (pre & r & post & -> & H1 & H2 & H3 & H4).
    rewrite history_app, history_cons, record_of_ready by done.
    rewrite (history_nil_of k post) by done. apply last_snoc.
  - destruct H as (pre & r & mid & s & post & -> & H1 & H2 & H3 & H4 & H5 & H6).
    rewrite history_app, history_cons, record_of_ready by done.
    rewrite history_app, (history_nil_of k mid) by done. cbn [app].
    rewrite history_cons, record_of_started by done.
    rewrite (history_nil_of k post) by done.
    change [KReady; KStarted] with ([KReady] ++ [KStarted]).
    rewrite List.app_assoc. apply last_snoc.
  - destruct H as (pre & r & mid & s & mid' & f & post & -> & H1 & H2 & H3 & H4 & H5 & H6 & H7 & H8 & H9).
    rewrite history_app, history_cons, record_of_ready by done.
    rewrite history_app, (history_nil_of k mid) by done. cbn [app].
    rewrite history_cons, record_of_started by done.
    rewrite history_app, (history_nil_of k mid') by done. cbn [app].
    rewrite history_cons, record_of_finished by done.
    rewrite (history_nil_of k post) by done.
    change [KReady; KStarted; KFinished] with ([KReady; KStarted] ++ [KFinished]).
    rewrite List.app_assoc. apply last_snoc.
  - apply no_record_history in H. by rewrite H.
Qed.

Lemma attempts_snoc_ready h : attempts (h ++ [KReady]) <-> attempts h.
Proof.
  split; [|apply attempts_ready].
  intros H. inversion H as [Hn|h' H' Heq|h' H' Heq|h' H' Heq].
  - symmetry in Hn. by apply app_nil in Hn as [_ Hn].
  - apply app_inj_tail in Heq as [-> _]. done.
  - change [KReady; KStarted] with ([KReady] ++ [KStarted]) in Heq.
    rewrite List.app_assoc in Heq. by apply app_inj_tail in Heq as [_ Heq].
  - change [KStarted; KFinished] with ([KStarted] ++ [KFinished]) in Heq.
    rewrite List.app_assoc in Heq. by apply app_inj_tail in Heq as [_ Heq].
Qed.

Lemma attempts_snoc_started h :
  attempts (h ++ [KStarted]) <-> attempts h /\ last h = Some KReady.
Proof.
  split.
  - intros H. inversion H as [Hn|h' H' Heq|h' H' Heq|h' H' Heq].
    + symmetry in Hn. by apply app_nil in Hn as [_ Hn].
    + by apply app_inj_tail in Heq as [_ Heq].
    + change [KReady; KStarted] with ([KReady] ++ [KStarted]) in Heq.
      rewrite List.app_assoc in Heq. apply app_inj_tail in Heq as [<- _].
      split; [done|]. apply last_snoc.
    + change [KStarted; KFinished] with ([KStarted] ++ [KFinished]) in Heq.
      rewrite List.app_assoc in Heq. by apply app_inj_tail in Heq as [_ Heq].
  - intros [H Hl]. apply last_Some in Hl as (h' & ->).
    rewrite <- List.app_assoc. by apply attempts_started.
Qed.

Lemma attempts_snoc_finished h :
  attempts (h ++ [KFinished]) <-> attempts h /\ last h = Some KStarted.
Proof.
  split.
  - intros H. inversion H as [Hn|h' H' Heq|h' H' Heq|h' H' Heq].
    + symmetry in Hn. by apply app_nil in Hn as [_ Hn].
    + by apply app_inj_tail in Heq as [_ Heq].
    + change [KReady; KStarted] with ([KReady] ++ [KStarted]) in Heq.
      rewrite List.app_assoc in Heq. by apply app_inj_tail in Heq as [_ Heq].
    + change [KStarted; KFinished] with ([KStarted] ++ [KFinished]) in Heq.
      rewrite List.app_assoc in Heq. apply app_inj_tail in Heq as [<- _].
      split; [done|]. apply last_snoc.
  - intros [H Hl]. apply last_Some in Hl as (h' & ->).
    rewrite <- List.app_assoc. by apply attempts_finished.
Qed.

(** The memory state agrees with the records. *)
Definition state_matches (st : log_state) (es : list log_entry) : Prop :=
  (forall k, status_in es k (runcounts st !! k)) /\ last_header es (log_header st).

Lemma state_matches_empty : state_matches empty_log_state [].
Proof. split; simpl; [|intros h []]. intros k. rewrite lookup_empty. intros e []. Qed.

Lemma last_header_snoc_other es o e :
  last_header es o -> (forall h, e <> Header h) -> last_header (es ++ [e]) o.
Proof.
  intros H He. destruct o as [h|]; simpl in *.
  - destruct H as (pre & post & -> & H). exists pre, (post ++ [e]).
    rewrite <- List.app_assoc. split; [done|]. intros h' Hin.
    apply in_app_iff in Hin as [Hin|[Hin|[]]]; [by apply (H h')|]. by apply (He h').
  - intros h Hin. apply in_app_iff in Hin as [Hin|[Hin|[]]]; [by apply (H h)|]. by apply (He h).
Qed.

Lemma eqb_neq_record k1 k : k1 <> k -> String.eqb k1 k = false.
Proof. apply String.eqb_neq. Qed.

Lemma write_state_matches st es e st' :
  state_matches st es -> write_state st e = WOk st' -> state_matches st' (es ++ [e]).
Proof.
  intros [Hs Hh] Hw. destruct e as [h|r|s|f|b]; simpl in Hw.
  - inversion Hw; subst; clear Hw. split; simpl.
    + intros k. by apply status_in_snoc_other.
    + exists es, []. split; [done|]. intros h' [].
  - inversion Hw; subst; clear Hw. split; simpl.
    + intros k. destruct (decide (r_key r = k)) as [<-|Hne].
      * rewrite lookup_insert. exists es, r, []. split_and!; try done. intros e [].
      * rewrite lookup_insert_ne by done. apply status_in_snoc_other; [done|].
        simpl. by rewrite eqb_neq_record.
    + by apply last_header_snoc_other.
  - destruct (runcounts st !! s_key s) as [[c sr|c sr|c sr ok]|] eqn:Hk; try done.
    inversion Hw; subst; clear Hw. split; simpl.
    + intros k. destruct (decide (s_key s = k)) as [<-|Hne].
      * rewrite lookup_insert. pose proof (Hs (s_key s)) as H. rewrite Hk in H.
        destruct H as (pre & r & post & -> & H1 & H2 & H3 & H4).
        exists pre, r, post, s, []. rewrite <- List.app_assoc. split_and!; try done. intros e [].
      * rewrite lookup_insert_ne, lookup_delete_ne by done. apply status_in_snoc_other; [done|].
        simpl. by rewrite eqb_neq_record.
    + by apply last_header_snoc_other.
  - destruct (runcounts st !! f_key f) as [[c sr|c sr|c sr ok]|] eqn:Hk; try done.
    inversion Hw; subst; clear Hw. split; simpl.
    + intros k. destruct (decide (f_key f = k)) as [<-|Hne].
      * rewrite lookup_insert. pose proof (Hs (f_key f)) as H. rewrite Hk in H.
        destruct H as (pre & r & mid & s & post & -> & H1 & H2 & H3 & H4 & H5 & H6).
        exists pre, r, mid, s, post, f, []. rewrite <- List.app_assoc. simpl.
        rewrite <- List.app_assoc. split_and!; try done.
        -- apply Z.eqb_eq.
        -- intros e [].
      * rewrite lookup_insert_ne, lookup_delete_ne by done. apply status_in_snoc_other; [done|].
        simpl. by rewrite eqb_neq_record.
    + by apply last_header_snoc_other.
  - inversion Hw; subst; clear Hw. split; simpl.
    + intros k. by apply status_in_snoc_other.
    + by apply last_header_snoc_other.
Qed.

Lemma history_snoc_other k es e :
  record_of k e = None -> history k (es ++ [e]) = history k es.
Proof.
  intros He. rewrite history_app, history_cons, He. simpl. apply app_nil_r.
Qed.

Lemma history_snoc k es e x :
  record_of k e = Some x -> history k (es ++ [e]) = history k es ++ [x].
Proof. intros He. by rewrite history_app, history_cons, He. Qed.

(** A write is accepted exactly when the grammar allows the record. *)
Lemma write_state_ok_iff st es e :
  state_matches st es -> log_wf es ->
  ((exists st', write_state st e = WOk st') <-> log_wf (es ++ [e])).
Proof.
  intros [Hs _] Hwf.
  assert (forall k, last (history k es) = last_kind (runcounts st !! k)) as Hlast.
  { intros k. by apply status_in_last_kind. }
  assert (forall e' x k0, record_of k0 e' = Some x ->
    (forall k, k <> k0 -> record_of k e' = None) ->
    (log_wf (es ++ [e']) <-> attempts (history k0 es ++ [x]))) as Hred.
  { intros e' x k0 Hk0 Hother. split.
    - intros H. rewrite <- (history_snoc k0 es e' x Hk0). apply H.
    - intros H k. destruct (decide (k = k0)) as [->|Hne].
      + by rewrite (history_snoc k0 es e' x Hk0).
      + rewrite history_snoc_other by auto. apply Hwf. }
  assert (forall e', (forall k, record_of k e' = None) -> log_wf (es ++ [e'])) as Hnone.
  { intros e' He' k. rewrite history_snoc_other by done. apply Hwf. }
  destruct e as [h|r|s|f|b]; simpl.
  - split; [intros _; by apply Hnone|]. intros _. eexists. done.
  - split; [intros _|intros _; eexists; done].
    rewrite (Hred (Ready r) KReady (r_key r)).
    + apply attempts_ready. apply Hwf.
    + by apply record_of_ready.
    + intros k Hne. simpl. by rewrite eqb_neq_record.
  - rewrite (Hred (Started s) KStarted (s_key s)).
    + rewrite attempts_snoc_started, Hlast.
      destruct (runcounts st !! s_key s) as [[c sr|c sr|c sr ok]|]; simpl; split;
        try (intros [? ?]; congruence).
      * intros _. split; [apply Hwf|done].
      * intros _. eexists. done.
    + by apply record_of_started.
    + intros k Hne. simpl. by rewrite eqb_neq_record.
  - rewrite (Hred (Finished f) KFinished (f_key f)).
    + rewrite attempts_snoc_finished, Hlast.
      destruct (runcounts st !! f_key f) as [[c sr|c sr|c sr ok]|]; simpl; split;
        try (intros [? ?]; congruence).
      * intros _. split; [apply Hwf|done].
      * intros _. eexists. done.
    + by apply record_of_finished.
    + intros k Hne. simpl. by rewrite eqb_neq_record.
  - split; [intros _; by apply Hnone|]. intros _. eexists. done.
Qed.

Lemma log_writes_app l es1 es2 :
  log_writes l (es1 ++ es2) =
  match log_writes l es1 with Some l' => log_writes l' es2 | None => None end.
Proof.
  revert l. induction es1 as [|e es1 IH]; intros l; simpl; [done|].
  destruct (log_write l e); [apply IH|done].
Qed.

(** A log file whose memory and records agree and whose records are well-formed. *)
Definition log_good (l : log_file) : Prop :=
  state_matches (lf_state l) (lf_entries l) /\ log_wf (lf_entries l).

Lemma log_write_good l e l' : log_good l -> log_write l e = Some l' ->
  log_good l' /\ lf_entries l' = lf_entries l ++ [e].
Proof.
  intros [Hm Hwf] Hw. unfold log_write in Hw.
  destruct (write_state (lf_state l) e) as [st| | | |] eqn:He; try done.
  inversion Hw; subst; clear Hw. simpl. split; [|done]. split; simpl.
  - eapply write_state_matches; eauto.
  - eapply write_state_ok_iff; eauto.
Qed.

Lemma log_writes_good l es l' : log_good l -> log_writes l es = Some l' ->
  log_good l' /\ lf_entries l' = lf_entries l ++ es.
Proof.
  revert l. induction es as [|e es IH]; intros l Hg Hw; simpl in Hw.
  - inversion Hw; subst. by rewrite app_nil_r.
  - destruct (log_write l e) as [l1|] eqn:He; [|done].
    destruct (log_write_good _ _ _ Hg He) as [Hg1 Hl1].
    destruct (IH _ Hg1 Hw) as [Hg' Hl']. split; [done|].
    rewrite Hl', Hl1. by rewrite <- List.app_assoc.
Qed.

Lemma log_wf_prefix es1 es2 : log_wf (es1 ++ es2) -> log_wf es1.
Proof.
  induction es2 as [|e es2 IH] using rev_ind; [by rewrite app_nil_r|].
  intros H. apply IH. rewrite List.app_assoc in H. intros k. specialize (H k).
  revert H. rewrite !history_app. cbn [history omap].
  change (omap (record_of k)) with (history k). rewrite history_cons.
  destruct (record_of k e) as [x|]; simpl; [|by rewrite app_nil_r].
  rewrite <- history_app. intros H. destruct x.
  - by apply attempts_snoc_ready.
  - by apply attempts_snoc_started in H as [? _].
  - by apply attempts_snoc_finished in H as [? _].
Qed.

Lemma log_writes_total l es :
  log_good l -> log_wf (lf_entries l ++ es) -> exists l', log_writes l es = Some l'.
Proof.
  revert l. induction es as [|e es IH]; intros l Hg Hwf; simpl; [eexists; done|].
  destruct Hg as [Hm Hwf0].
  assert (log_wf (lf_entries l ++ [e])) as Hwf1.
  { apply (log_wf_prefix _ es). rewrite <- List.app_assoc. exact Hwf. }
  apply (write_state_ok_iff _ _ _ Hm Hwf0) in Hwf1 as (st' & Hst').
  unfold log_write. rewrite Hst'.
  assert (log_write l e = Some (LogFile st' (lf_entries l ++ [e]))) as Hw.
  { unfold log_write. by rewrite Hst'. }
  destruct (log_write_good l e _ (conj Hm Hwf0) Hw) as [Hg' _].
  apply IH; [done|]. simpl. by rewrite <- List.app_assoc.
Qed.

Definition new_log : log_file := LogFile empty_log_state [].

Lemma new_log_good : log_good new_log.
Proof. split; [apply state_matches_empty|]. intros k. constructor. Qed.

(** Every sequence of writes to a new log succeeds iff it obeys the grammar, and then the
    memory holds what the records say. *)
Lemma log_writes_iff es :
  (exists l, log_writes new_log es = Some l) <-> log_wf es.
Proof.
  split.
  - intros (l & Hl). destruct (log_writes_good _ _ _ new_log_good Hl) as [[_ Hwf] Hes].
    simpl in Hes. by rewrite Hes in Hwf.
  - intros Hwf. apply log_writes_total; [apply new_log_good|exact Hwf].
Qed.

(** ** Loading *)

Lemma load_loop_app v es1 es2 :
  load_loop v (es1 ++ es2) =
  (fix go v es := match es with
     | [] => load_loop v es2
     | e :: es => match load_step v e with inl v' => go v' es | inr err => err end end) v es1.
Proof. revert v. induction es1 as [|e es1 IH]; intros v; simpl; [done|]. destruct (load_step v e); done. Qed.

(** Relation between loader variables and the records read so far. *)
Definition load_matches (v : load_vars) (es : list log_entry) : Prop :=
  state_matches (LogState (lv_runcounts v) (lv_header v)) es /\
  lv_workflow_key v = option_map h_workflow_key (lv_header v) /\ headers_ok es.

Lemma headers_ok_snoc_other es e :
  headers_ok es -> (forall h, e <> Header h) -> headers_ok (es ++ [e]).
Proof.
  intros [H1 H2] He. split.
  - intros h Hin. apply in_app_iff in Hin as [Hin|[Hin|[]]]; [by apply H1|]. by apply He in Hin.
  - intros h h' Hin Hin'. apply in_app_iff in Hin as [Hin|[Hin|[]]]; [|by apply He in Hin].
    apply in_app_iff in Hin' as [Hin'|[Hin'|[]]]; [|by apply He in Hin']. by apply H2.
Qed.

Lemma headers_ok_prefix es1 es2 : headers_ok (es1 ++ es2) -> headers_ok es1.
Proof.
  intros [H1 H2]. split.
  - intros h Hin. apply H1. apply in_app_iff. by left.
  - intros h h' Hin Hin'. apply H2; apply in_app_iff; by left.
Qed.

(** One step of the loader agrees with one write plus the header checks. *)
Lemma load_step_spec v es e :
  load_matches v es -> log_wf es ->
  match load_step v e with
  | inl v' => load_matches v' (es ++ [e]) /\ log_wf (es ++ [e])
  | inr err => (forall s, err <> LOk s) /\ ~ (log_wf (es ++ [e]) /\ headers_ok (es ++ [e])) /\
      match err with
      | LOk _ => False
      | LErrWorkflowKeyMismatch =>
          exists h h', e = Header h /\ In (Header h') es /\ h_workflow_key h <> h_workflow_key h'
      | LErrMismatchedVersion n => exists h, e = Header h /\ h_version h = n /\ n <> 4%N
      | LPanic => ~ log_wf (es ++ [e])
      end
  end.
Proof.
  intros (Hm & Hwk & Hok) Hwf.
  set (st := LogState (lv_runcounts v) (lv_header v)) in *.
  pose proof (write_state_ok_iff st es e Hm Hwf) as Hiff.
  pose proof (write_state_matches st es e) as Hwm.
  destruct e as [h|r|s|f|b].
  - unfold load_step.
    assert (log_wf (es ++ [Header h])) as Hwf' by (apply Hiff; eexists; done).
    assert (state_matches (LogState (lv_runcounts v) (Some h)) (es ++ [Header h])) as Hm'
      by (by apply Hwm).
    assert (lv_workflow_key v <> Some (h_workflow_key h) -> lv_workflow_key v <> None ->
      exists h', In (Header h') es /\ h_workflow_key h <> h_workflow_key h' ) as Hmis.
    { rewrite Hwk. destruct Hm as [_ Hh]. unfold st in Hh. simpl in Hh.
      destruct (lv_header v) as [h0|] eqn:Hh0; [|done]. simpl. intros Hne _.
      exists h0. destruct Hh as (pre & post & -> & _). split; [apply in_app_iff; right; by left|].
      congruence. }
    assert (forall wk,
      wk = Some (h_workflow_key h) ->
      (forall h', In (Header h') es -> h_workflow_key h' = h_workflow_key h) ->
      match (if N.eqb (h_version h) LOGFILE_VERSION
             then inl (LoadVars (lv_runcounts v) (Some h) wk)
             else inr (LErrMismatchedVersion (h_version h)) : load_vars + load_result) with
      | inl v' => load_matches v' (es ++ [Header h]) /\ log_wf (es ++ [Header h])
      | inr err => (forall s, err <> LOk s) /\
          ~ (log_wf (es ++ [Header h]) /\ headers_ok (es ++ [Header h])) /\
          match err with
          | LOk _ => False
          | LErrWorkflowKeyMismatch =>
              exists h1 h', Header h = Header h1 /\ In (Header h') es /\
                h_workflow_key h1 <> h_workflow_key h'
          | LErrMismatchedVersion n => exists h1, Header h = Header h1 /\ h_version h1 = n /\ n <> 4%N
          | LPanic => ~ log_wf (es ++ [Header h])
          end
      end) as Hver.
    { intros wk Hwk' Hsame. destruct (N.eqb_spec (h_version h) LOGFILE_VERSION) as [Hv|Hv].
      - split; [|done]. split_and!; [exact Hm'|done|]. destruct Hok as [Hok1 Hok2]. split.
        + intros h' Hin. apply in_app_iff in Hin as [Hin|[Hin|[]]]; [by apply Hok1|].
          inversion Hin; subst. exact Hv.
        + intros h1 h2 Hin1 Hin2.
          apply in_app_iff in Hin1 as [Hin1|[Hin1|[]]]; apply in_app_iff in Hin2 as [Hin2|[Hin2|[]]].
          * by apply Hok2.
          * inversion Hin2; subst. by apply Hsame.
          * inversion Hin1; subst. symmetry. by apply Hsame.
          * congruence.
      - split_and!; [done| |].
        + intros [_ [Hok1 _]]. apply Hv. apply Hok1. apply in_app_iff. right. by left.
        + exists h. split_and!; [done|done|exact Hv]. }
    destruct (lv_workflow_key v) as [wk|] eqn:Hwkv.
    + destruct (String.eqb_spec wk (h_workflow_key h)) as [->|Hne].
      * apply Hver; [done|]. intros h' Hin. symmetry in Hwk.
        destruct (lv_header v) as [h0|] eqn:Hh0; [|done]. simpl in Hwk. inversion Hwk as [Hwk1].
        destruct Hm as [_ Hh]. unfold st in Hh. simpl in Hh.
        destruct Hh as (pre & post & -> & _). transitivity (h_workflow_key h0); [|done].
        apply Hok; [done|]. apply in_app_iff. right. by left.
      * destruct Hmis as (h' & Hin & Hnk); [congruence|done|].
        split_and!; [done| |].
        -- intros [_ [_ Hok2]]. apply Hnk. apply Hok2; apply in_app_iff; [right; by left|by left].
        -- exists h, h'. done.
    + apply Hver; [done|]. intros h' Hin. symmetry in Hwk.
      destruct (lv_header v) as [h0|] eqn:Hh0; [done|].
      destruct Hm as [_ Hh]. unfold st in Hh. simpl in Hh. by apply Hh in Hin.
  - unfold load_step. simpl in Hiff. split; [|apply Hiff; eexists; done].
    split_and!; [apply (Hwm _ Hm); done|done|]. by apply headers_ok_snoc_other.
  - unfold load_step. simpl in Hiff, Hwm.
    destruct (lv_runcounts v !! s_key s) as [[c sr|c sr|c sr ok]|] eqn:Hk.
    + split; [|apply Hiff; eexists; done].
      split_and!; [apply (Hwm _ Hm); done|done|]. by apply headers_ok_snoc_other.
    + assert (~ log_wf (es ++ [Started s])) by (intros Hx; apply Hiff in Hx as [? Hx]; done).
      split_and!; [done| |done]. tauto.
    + assert (~ log_wf (es ++ [Started s])) by (intros Hx; apply Hiff in Hx as [? Hx]; done).
      split_and!; [done| |done]. tauto.
    + assert (~ log_wf (es ++ [Started s])) by (intros Hx; apply Hiff in Hx as [? Hx]; done).
      split_and!; [done| |done]. tauto.
  - unfold load_step. simpl in Hiff, Hwm.
    destruct (lv_runcounts v !! f_key f) as [[c sr|c sr|c sr ok]|] eqn:Hk.
    + assert (~ log_wf (es ++ [Finished f])) by (intros Hx; apply Hiff in Hx as [? Hx]; done).
      split_and!; [done| |done]. tauto.
    + split; [|apply Hiff; eexists; done].
      split_and!; [apply (Hwm _ Hm); done|done|]. by apply headers_ok_snoc_other.
    + assert (~ log_wf (es ++ [Finished f])) by (intros Hx; apply Hiff in Hx as [? Hx]; done).
      split_and!; [done| |done]. tauto.
    + assert (~ log_wf (es ++ [Finished f])) by (intros Hx; apply Hiff in Hx as [? Hx]; done).
      split_and!; [done| |done]. tauto.
  - unfold load_step. split; [|apply Hiff; eexists; done].
    split_and!; [apply (Hwm _ Hm); done|done|]. by apply headers_ok_snoc_other.
Qed.

Lemma load_loop_spec v es0 es :
  load_matches v es0 -> log_wf es0 ->
  match load_loop v es with
  | LOk s => state_matches s (es0 ++ es) /\ log_wf (es0 ++ es) /\ headers_ok (es0 ++ es)
  | _ => ~ (log_wf (es0 ++ es) /\ headers_ok (es0 ++ es))
  end.
Proof.
  revert v es0. induction es as [|e es IH]; intros v es0 Hm Hwf; simpl.
  - rewrite app_nil_r. destruct Hm as (Hm & _ & Hok). done.
  - pose proof (load_step_spec v es0 e Hm Hwf) as Hstep.
    destruct (load_step v e) as [v'|err].
    + destruct Hstep as [Hm' Hwf']. pose proof (IH v' (es0 ++ [e]) Hm' Hwf') as H.
      rewrite <- List.app_assoc in H. exact H.
    + destruct Hstep as (Hne & Hbad & _).
      assert (~ (log_wf (es0 ++ e :: es) /\ headers_ok (es0 ++ e :: es))).
      { intros [H1 H2]. apply Hbad.
        change (e :: es) with ([e] ++ es) in H1, H2. rewrite List.app_assoc in H1, H2.
        split; [by eapply log_wf_prefix|by eapply headers_ok_prefix]. }
      destruct err; try done. by exfalso; eapply Hne.
Qed.

Lemma load_matches_empty : load_matches (LoadVars ∅ None None) [].
Proof.
  split_and!; [apply state_matches_empty|done|]. split; [intros h []|intros h h' []].
Qed.

Lemma log_wf_nil : log_wf [].
Proof. intros k. constructor. Qed.

Lemma load_runcounts_spec es :
  match load_runcounts es with
  | LOk s => state_matches s es /\ log_wf es /\ headers_ok es
  | _ => ~ (log_wf es /\ headers_ok es)
  end.
Proof. apply (load_loop_spec _ [] es load_matches_empty log_wf_nil). Qed.

(** The state that matches given records is unique. *)
Lemma status_in_unique es k o o' : status_in es k o -> status_in es k o' -> o = o'.
Proof.
  revert o o'.
  assert (forall r post pre r' post' pre' (es : list log_entry),
    es = pre ++ Ready r :: post -> es = pre' ++ Ready r' :: post' ->
    r_key r = k -> r_key r' = k ->
    (forall x, In x post -> record_of k x <> Some KReady) ->
    (forall x, In x post' -> record_of k x <> Some KReady) -> r = r' /\ post = post') as Huniq.
  { clear. intros r post pre r' post' pre' es E1 E2 K1 K2 N1 N2. subst es.
    revert pre' E2. induction pre as [|x pre IH]; intros pre' E2.
    - destruct pre' as [|y pre']; simpl in E2; [by inversion E2|].
      exfalso. inversion E2; subst y. apply (N1 (Ready r')).
      + subst post. apply in_app_iff. right. by left.
      + by apply record_of_ready.
    - destruct pre' as [|y pre']; simpl in E2.
      + exfalso. inversion E2; subst x. apply (N2 (Ready r)).
        * subst post'. apply in_app_iff. right. by left.
        * by apply record_of_ready.
      + inversion E2. by apply (IH pre'). }
  assert (forall o, status_in es k o ->
    match o with
    | None => no_record k es
    | Some x => exists pre r post, es = pre ++ Ready r :: post /\ r_key r = k /\
        (forall x, In x post -> record_of k x <> Some KReady) /\
        match x with
        | RReady c sr => r_runcount r = c /\ r_storage_root r = sr /\ history k post = []
        | RStarted c sr => r_runcount r = c /\ r_storage_root r = sr /\ history k post = [KStarted]
        | RFinished c sr ok => r_runcount r = c /\ r_storage_root r = sr /\
            history k post = [KStarted; KFinished] /\
            exists f, In (Finished f) post /\ f_key f = k /\ (ok = true <-> f_status f = 0%Z) /\
              (forall f', In (Finished f') post -> f_key f' = k -> f' = f)
        end
    end) as Hnorm.
  { intros o Ho. destruct o as [[c sr|c sr|c sr ok]|]; simpl in Ho.
    - destruct Ho as (pre & r & post & -> & G1 & G2 & G3 & G4).
      exists pre, r, post. split_and!; try done.
      + intros x Hx. rewrite (G4 x Hx). done.
      + by apply no_record_history.
    - destruct Ho as (pre & r & mid & s & post & -> & G1 & G2 & G3 & G4 & G5 & G6).
      exists pre, r, (mid ++ Started s :: post). split_and!; try done.
      + intros x Hx. apply in_app_iff in Hx as [Hx|[<-|Hx]].
        * by rewrite (G4 x Hx).
        * by rewrite record_of_started.
        * by rewrite (G6 x Hx).
      + rewrite history_app, history_cons, record_of_started by done.
        rewrite (history_nil_of k mid), (history_nil_of k post) by done. done.
    - destruct Ho as (pre & r & mid & s & mid' & f & post & -> & G1 & G2 & G3 & G4 & G5 & G6 & G7 & G8 & G9).
      exists pre, r, (mid ++ Started s :: mid' ++ Finished f :: post). split_and!; try done.
      + intros x Hx. apply in_app_iff in Hx as [Hx|[<-|Hx]].
        * by rewrite (G4 x Hx).
        * by rewrite record_of_started.
        * apply in_app_iff in Hx as [Hx|[<-|Hx]].
          -- by rewrite (G6 x Hx).
          -- by rewrite record_of_finished.
          -- by rewrite (G9 x Hx).
      + rewrite history_app, history_cons, record_of_started by done.
        rewrite history_app, history_cons, record_of_finished by done.
        rewrite (history_nil_of k mid), (history_nil_of k mid'), (history_nil_of k post) by done.
        done.
      + exists f. split_and!; try done.
        * apply in_app_iff. right. right. apply in_app_iff. right. by left.
        * intros f' Hin Hk.
          apply in_app_iff in Hin as [Hx|[Hx|Hx]]; [|done|].
          -- apply G4 in Hx. rewrite record_of_finished in Hx by done. done.
          -- apply in_app_iff in Hx as [Hx|[Hx|Hx]].
             ++ apply G6 in Hx. rewrite record_of_finished in Hx by done. done.
             ++ by inversion Hx.
             ++ apply G9 in Hx. rewrite record_of_finished in Hx by done. done.
    - done. }
  intros o1 o2 S1 S2. apply Hnorm in S1, S2. clear Hnorm.
  destruct o1 as [x1|], o2 as [x2|]; [|exfalso|exfalso|done].
  + destruct S1 as (p1 & ra1 & q1 & E1 & K1 & N1 & M1).
    destruct S2 as (p2 & ra2 & q2 & E2 & K2 & N2 & M2).
    destruct (Huniq _ _ _ _ _ _ _ E1 E2 K1 K2 N1 N2) as [-> ->].
    destruct x1 as [c1 s1|c1 s1|c1 s1 b1], x2 as [c2 s2|c2 s2|c2 s2 b2];
      repeat match goal with H : _ /\ _ |- _ => destruct H end; subst; try congruence.
    match goal with H : exists _, _ |- _ => destruct H as (f1 & Hf1 & Kf1 & Hb1 & Hu1) end.
    match goal with H : exists _, _ |- _ => destruct H as (f2 & Hf2 & Kf2 & Hb2 & Hu2) end.
    assert (f1 = f2) as -> by (by apply Hu2).
    do 2 f_equal. apply eq_bool_prop_intro || idtac.
    destruct b1, b2; try done; exfalso; tauto || (destruct Hb1, Hb2; intuition congruence).
  + destruct S1 as (p1 & ra1 & q1 & E1 & K1 & N1 & M1).
    assert (record_of k (Ready ra1) = None) as Hc.
    { apply S2. rewrite E1. apply in_app_iff. right. by left. }
    by rewrite record_of_ready in Hc.
  + destruct S2 as (p1 & ra1 & q1 & E1 & K1 & N1 & M1).
    assert (record_of k (Ready ra1) = None) as Hc.
    { apply S1. rewrite E1. apply in_app_iff. right. by left. }
    by rewrite record_of_ready in Hc.
Qed.

Lemma state_matches_loop_unique (v1 v2 : log_state) es :
  state_matches v1 es -> state_matches v2 es -> log_wf es -> v1 = v2.
Proof.
  intros [H1 Hh1] [H2 Hh2] Hwf. destruct v1 as [r1 h1], v2 as [r2 h2]. simpl in *. f_equal.
  - apply map_eq. intros k. by eapply status_in_unique.
  - destruct h1 as [h1|], h2 as [h2|]; simpl in *.
    + destruct Hh1 as (p1 & q1 & E1 & N1), Hh2 as (p2 & q2 & E2 & N2). f_equal.
      subst es. clear -E2 N1 N2. revert p2 E2. induction p1 as [|x p1 IH]; intros p2 E2.
      * destruct p2 as [|y p2]; simpl in E2; [by inversion E2|].
        inversion E2; subst. exfalso. apply (N1 h2). apply in_app_iff. right. by left.
      * destruct p2 as [|y p2]; simpl in E2.
        -- inversion E2; subst. exfalso. apply (N2 h1). apply in_app_iff. right. by left.
        -- inversion E2. by apply (IH p2).
    + destruct Hh1 as (p1 & q1 & E1 & N1). exfalso. apply (Hh2 h1). rewrite E1.
      apply in_app_iff. right. by left.
    + destruct Hh2 as (p1 & q1 & E1 & N1). exfalso. apply (Hh1 h2). rewrite E1.
      apply in_app_iff. right. by left.
    + done.
Qed.

Lemma load_runcounts_complete es s :
  state_matches s es -> log_wf es -> headers_ok es -> load_runcounts es = LOk s.
Proof.
  intros Hm Hwf Hok. pose proof (load_runcounts_spec es) as H.
  destruct (load_runcounts es) as [s'| | |]; [|exfalso; tauto..].
  destruct H as (Hm' & _). f_equal. by eapply state_matches_loop_unique.
Qed.

Lemma log_open_good es l : log_open es = OpenOk l ->
  log_good l /\ lf_entries l = es /\ headers_ok es.
Proof.
  unfold log_open. pose proof (load_runcounts_spec es) as H.
  destruct (load_runcounts es) as [s| | |]; try done.
  intros Ho. inversion Ho; subst; clear Ho. destruct H as (Hm & Hwf & Hok).
  split_and!; done.
Qed.

Lemma memory_agrees es l :
  log_writes (LogFile empty_log_state []) es = Some l ->
  lf_entries l = es /\
  (forall k, status_in es k (runcount (lf_state l) k)) /\
  last_header es (log_header (lf_state l)).
Proof.
  intros H. destruct (log_writes_good _ _ _ new_log_good H) as [[[Hm Hh] _] He].
  simpl in He. rewrite He in *. done.
Qed.

Lemma reopen_same F l0 es l :
  log_open F = OpenOk l0 ->
  log_writes l0 es = Some l ->
  headers_ok (F ++ es) ->
  lf_entries l = F ++ es /\ log_open (lf_entries l) = OpenOk l.
Proof.
  intros Ho Hw Hok. apply log_open_good in Ho as (Hg & HF & _).
  destruct (log_writes_good _ _ _ Hg Hw) as [[Hm Hwf] He]. rewrite HF in He.
  split; [done|]. unfold log_open. rewrite (load_runcounts_complete _ (lf_state l)).
  - by destruct l.
  - done.
  - done.
  - by rewrite He.
Qed.

Lemma open_ok_iff es : (exists l, log_open es = OpenOk l) <-> log_wf es /\ headers_ok es.
Proof.
  unfold log_open. pose proof (load_runcounts_spec es) as H. split.
  - intros [l Hl]. destruct (load_runcounts es); try done. destruct H as (_ & ? & ?). done.
  - intros Hx. destruct (load_runcounts es); [eexists; done|exfalso; tauto..].
Qed.

Lemma workflow_key_of_any_header es l h :
  log_open es = OpenOk l -> In (Header h) es ->
  workflow_key (lf_state l) = Some (h_workflow_key h).
Proof.
  intros Ho Hin. apply log_open_good in Ho as ([[_ Hh] _] & He & [_ Hok]). rewrite He in Hh.
  unfold workflow_key. destruct (log_header (lf_state l)) as [h0|]; simpl in *.
  - destruct Hh as (pre & post & -> & _). f_equal. apply Hok; [|done].
    apply in_app_iff. right. by left.
  - by apply Hh in Hin.
Qed.

Lemma load_loop_refusal v es0 es :
  load_matches v es0 -> log_wf es0 -> log_wf (es0 ++ es) -> ~ headers_ok (es0 ++ es) ->
  exists pre h post, es = pre ++ Header h :: post /\ headers_ok (es0 ++ pre) /\
    ((load_loop v es = LErrWorkflowKeyMismatch /\
      exists h', In (Header h') (es0 ++ pre) /\ h_workflow_key h <> h_workflow_key h') \/
     (load_loop v es = LErrMismatchedVersion (h_version h) /\ h_version h <> 4%N)).
Proof.
  revert v es0. induction es as [|e es IH]; intros v es0 Hm Hwf Hwf' Hbad; simpl.
  - exfalso. rewrite app_nil_r in Hbad. apply Hbad. apply Hm.
  - pose proof (load_step_spec v es0 e Hm Hwf) as Hstep.
    destruct (load_step v e) as [v'|err].
    + destruct Hstep as [Hm' Hwf1].
      destruct (IH v' (es0 ++ [e])) as (pre & h & post & -> & Hpre & Hcase);
        [done|done|by rewrite <- List.app_assoc|by rewrite <- List.app_assoc|].
      rewrite <- List.app_assoc in Hpre, Hcase. simpl in Hpre, Hcase.
      exists (e :: pre), h, post. split_and!; done.
    + destruct Hstep as (Hne & _ & Herr).
      assert (log_wf (es0 ++ [e])) as Hwf1.
      { apply (log_wf_prefix _ es). by rewrite <- List.app_assoc. }
      destruct err as [s| |n|]; [done| | |done].
      * destruct Herr as (h & h' & -> & Hin & Hk). exists [], h, es. rewrite app_nil_r.
        split_and!; [done|apply Hm|]. left. split; [done|]. by exists h'.
      * destruct Herr as (h & -> & <- & Hk). exists [], h, es. rewrite app_nil_r.
        split_and!; [done|apply Hm|]. right. done.
Qed.

Lemma open_refusal es :
  log_wf es -> ~ headers_ok es ->
  exists pre h post, es = pre ++ Header h :: post /\ headers_ok pre /\
    ((log_open es = OpenErr LErrWorkflowKeyMismatch /\
      exists h', In (Header h') pre /\ h_workflow_key h <> h_workflow_key h') \/
     (log_open es = OpenErr (LErrMismatchedVersion (h_version h)) /\ h_version h <> 4%N)).
Proof.
  intros Hwf Hbad.
  destruct (load_loop_refusal _ [] es load_matches_empty log_wf_nil Hwf Hbad)
    as (pre & h & post & He & Hpre & Hcase).
  exists pre, h, post. split_and!; [done|done|].
  unfold log_open, load_runcounts. destruct Hcase as [[-> H]|[-> H]]; [left|right]; done.
Qed.
