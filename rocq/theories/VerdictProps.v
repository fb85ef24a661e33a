(** C79: after execute() the log says of a task what became of its last attempt. *)
From Verif Require Import GraphProofs SessionSpec SessionLists SessionInv SessionProofs SessionHistory SessionProps SessionDemo SchedProofs SchedProps SchedResult CompleteProps SuccessProps.
From Verif Require RecordSpec RecordProps.
From stdpp Require Import prelude gmap.
Open Scope nat_scope.

(** The report that task [i] ended otherwise than with status 0 was processed; a task given up at the end of the call counts as such. *)
Definition reported_bad (t : list obs) (i : nat) : Prop := exists x, x <> Code 0 /\ ((exists el, In (OFinished i x el) t) \/ In (ODrainFinished i x) t).
(** In this call of execute() a task with key [k] failed. *)
Definition failure_in (ev : event_of_history) (k : string) : Prop :=
  exists tg cfg t i, execution ev = Some (tg, cfg, t) /\ in_graph cfg i /\ task_key cfg i = k /\ reported_bad t i.
(** In this call of execute() a task with key [k] became ready. *)
Definition attempted_in (ev : event_of_history) (k : string) : Prop :=
  exists tg cfg t i, execution ev = Some (tg, cfg, t) /\ in_graph cfg i /\ task_key cfg i = k /\ made_ready t i.

Lemma failure_more es new k : log_failure es k -> no_record k new -> log_failure (es ++ new) k.
Proof. intros (c & sr & H) Hn. exists c, sr. by apply status_in_no_record. Qed.
Lemma failure_less es new k : good_log es -> log_failure (es ++ new) k -> no_record k new -> log_failure es k.
Proof.
  intros Hg (c & sr & H) Hn. destruct (proj2 (open_ok_iff es) (conj (g_wf _ Hg) (g_headers _ Hg))) as [l Hl].
  destruct (log_open_good _ _ Hl) as (Hgood & He & _). apply log_good_ok in Hgood. pose proof (log_ok_status _ k Hgood) as Hs. rewrite He in Hs.
  exists c, sr. rewrite (status_in_unique _ _ _ _ H (status_in_no_record _ _ _ _ Hs Hn)). done.
Qed.
Lemma file_failure_iff h w p k : possible h w -> w_proc w = Some p -> log_failure (plog p) k <-> log_failure (w_file w) k.
Proof.
  intros Hh Hp. destruct (unflushed _ _ Hh p Hp) as (rest & E & Hn). rewrite E. split; [|intros Hs; by apply failure_more].
  intros Hs. apply (failure_less _ rest); [apply (possible_inv _ _ Hh)|done|apply Hn].
Qed.
Lemma failure_status es e1 f e2 o :
  status_in es (f_key f) o -> es = e1 ++ Finished f :: e2 -> no_record (f_key f) e2 -> f_status f <> 0%Z ->
  exists c sr, o = Some (RFinished c sr false).
Proof.
  intros Hst He Hn Hf.
  assert (record_of (f_key f) (Finished f) <> None) as Hrf by (by rewrite record_of_finished).
  destruct o as [[c sr|c sr|c sr ok]|]; simpl in Hst.
  - destruct Hst as (pre & r & post & He' & Hr & _ & _ & Hpost). rewrite He in He'.
    apply (last_record_unique (f_key f)) in He' as (_ & ? & _); try done. by rewrite record_of_ready.
  - destruct Hst as (pre & r & mid & s' & post & He' & Hr & _ & _ & Hmid & Hs' & Hpost). rewrite He in He'.
    rewrite app_comm_cons, List.app_assoc in He'.
    apply (last_record_unique (f_key f)) in He' as (_ & ? & _); try done. by rewrite record_of_started.
  - destruct Hst as (pre & r & mid & s' & mid' & f' & post & He' & Hr & _ & _ & Hmid & Hs' & Hmid' & Hf' & Hok & Hpost).
    rewrite He in He'. rewrite !app_comm_cons, !List.app_assoc in He'.
    apply (last_record_unique (f_key f)) in He' as (_ & [= <-] & _); try done.
    + exists c, sr. destruct ok; [|done]. exfalso. by apply Hf, Hok.
    + by rewrite record_of_finished.
  - exfalso. rewrite He in Hst. apply no_record_sub in Hst as (_ & H & _). done.
Qed.
Lemma last_of_attempt k new n1 f n2 : history k new ∈ attempt_prefixes -> new = n1 ++ Finished f :: n2 -> f_key f = k -> no_record k n2.
Proof.
  intros Hh -> <-. apply no_record_history. rewrite history_app, history_cons, record_of_finished in Hh by done. revert Hh.
  unfold attempt_prefixes. rewrite !elem_of_cons, elem_of_nil. generalize (history (f_key f) n1), (history (f_key f) n2). intros a b HH.
  destruct a as [|a1 [|a2 [|a3 a]]], b as [|b1 b]; simpl in HH; destruct_or! HH; try done; injection HH; intros; by destruct a.
Qed.
Lemma run_failures F p x e cfg ids bs s t k : pinv F p -> begun p x e cfg ids bs -> reachable cfg s t ->
  log_failure (lf_entries (sv_log (st_sv s))) k <->
  (exists i, in_graph cfg i /\ task_key cfg i = k /\ reported_bad t i) \/
  (log_failure (plog p) k /\ ~ exists i, in_graph cfg i /\ task_key cfg i = k /\ made_ready t i).
Proof.
  intros Hp Hb Hr. pose proof (begun_config _ _ _ _ _ _ _ Hp Hb) as Hok. destruct (run_inv _ _ _ _ _ _ _ _ _ Hp Hb Hr) as (Hg & Hlok & new & He & _ & Hatt & Hkey).
  destruct (log_records cfg Hok s t Hr) as (new' & inf & fin & Hnew' & _ & HDL & _). unfold new_records in Hnew'.
  rewrite (bg_cflog _ _ _ _ _ _ Hb), (bg_log _ _ _ _ _ _ Hb) in Hnew'. cbn [lf_entries] in Hnew'.
  rewrite He, List.app_assoc in Hnew'. apply app_inv_head in Hnew' as <-.
  assert (forall i, in_graph cfg i -> task_key cfg i = k -> made_ready t i -> history k new <> []) as Hready.
  { intros i Hi <- Hm. rewrite (l_stage _ _ _ _ _ _ _ HDL i Hi). unfold stage'. rewrite decide_True by (by apply elem_of_readied). repeat case_decide; done. }
  assert (forall o i, In o t -> mentions o i -> in_graph cfg i /\ made_ready t i) as Hment.
  { intros o i Ho Hm. apply elem_of_list_In in Ho. assert (i ∈ readied t) as Hrd by (eapply mentions_readied; [done|done|exact Ho|done]).
    split; [|by apply elem_of_readied]. clear HDL Hready. apply (full_or_done cfg Hok) in Hr as [HF|HD].
    - apply (a_lt _ _ _ (inv_a _ _ _ (f_inv _ _ _ HF)) i Hrd).
    - destruct HD as (s1 & t1 & os0 & now0 & order0 & HF & _ & _ & _ & -> & _ & Hz & _). destruct Hz as [_ _ _ _ _ _ Hob].
      rewrite readied_app, (drain_readied os0 Hob), app_nil_r in Hrd. apply (a_lt _ _ _ (inv_a _ _ _ (f_inv _ _ _ HF)) i Hrd). }
  rewrite He. split.
  - intros Hf. destruct (decide (history k new = [])) as [Hn|Hn].
    + right. split.
      * apply (failure_less _ (brefs bs ++ new)); [apply (pi_good _ _ Hp)|done|]. apply no_record_app. split; [apply no_record_brefs|by apply no_record_history].
      * intros (i & Hi & Hk & Hm). by apply (Hready i).
    + left. destruct Hf as (c & sr & pre & r & mid & st & mid' & f & post & E & _ & _ & _ & _ & _ & _ & Hk & [_ H0] & Hpost).
      assert (f_status f <> 0%Z) as Hz by (intros Hz; by apply H0 in Hz).
      assert (In (Finished f) new) as Hin.
      { rewrite app_comm_cons, List.app_assoc, app_comm_cons, List.app_assoc, List.app_assoc in E. apply app_split in E as [(l2 & _ & ->)|(n1 & -> & _)].
        - exfalso. apply Hn, no_record_history. by apply no_record_app in Hpost as [_ ?].
        - apply in_app_iff. right. by left. }
      assert ((f_key f, f_status f) ∈ omap fin_rec new) as Hin'.
      { apply elem_of_list_omap. exists (Finished f). split; [by apply elem_of_list_In|done]. }
      rewrite (l_fin _ _ _ _ _ _ _ HDL) in Hin'. apply elem_of_list_omap in Hin' as (o & Ho & Eo). apply elem_of_list_In in Ho.
      destruct o as [| | | | | | |i y el| |i y| | | | |]; try discriminate Eo; cbn [fin_obs] in Eo; injection Eo as Hki Hx.
      * exists i. destruct (Hment _ i Ho eq_refl) as [Hi _]. split; [done|]. split; [congruence|]. exists y. split; [|left; by exists el].
        intros ->. by rewrite <- Hx in Hz.
      * exists i. destruct (Hment _ i Ho eq_refl) as [Hi _]. split; [done|]. split; [congruence|]. exists y. split; [|by right].
        intros ->. by rewrite <- Hx in Hz.
  - intros [(i & Hi & Hk & y & Hy & Hin)|[Hf Hno]].
    + assert ((k, as_i32 y) ∈ omap fin_rec new) as Hin'.
      { rewrite (l_fin _ _ _ _ _ _ _ HDL). apply elem_of_list_omap. rewrite <- Hk.
        destruct Hin as [[el Hin]|Hin]; apply elem_of_list_In in Hin; eexists; (split; [exact Hin|done]). }
      apply elem_of_list_omap in Hin' as (r & Hr1 & Hr2). destruct r as [| | |f|]; try discriminate Hr2. injection Hr2 as Hfk Hfs.
      apply elem_of_list_In, in_split in Hr1 as (n1 & n2 & En).
      assert (no_record (f_key f) n2) as Hn2 by (eapply (last_of_attempt _ new); [apply Hatt|exact En|done]).
      pose proof (log_ok_status _ (f_key f) Hlok) as Hst.
      destruct (failure_status _ ((plog p ++ brefs bs) ++ n1) f n2 _ Hst) as (rc & sr & Ho).
      * rewrite He, En, <- !List.app_assoc. done.
      * done.
      * rewrite Hfs. intros Hz. by apply Hy, status_zero.
      * rewrite <- He, <- Hfk. exists rc, sr. by rewrite <- Ho.
    + apply failure_more; [done|]. apply no_record_app. split; [apply no_record_brefs|]. apply no_record_history.
      destruct (decide (history k new = [])) as [Hn|Hn]; [done|]. exfalso. apply Hno. destruct (Hkey k Hn) as (i & c & Hc & Hck).
      assert (in_graph cfg i) as Hi by (by eapply lookup_lt_Some). assert (task_key cfg i = k) as Htk by (unfold task_key; by rewrite Hc).
      exists i. split; [done|]. split; [done|]. apply elem_of_readied. rewrite <- Htk in Hn. rewrite (l_stage _ _ _ _ _ _ _ HDL i Hi) in Hn.
      unfold stage' in Hn. destruct (decide (i ∈ readied t)); done.
Qed.

(** C79. After execute() the log file says that [k] failed iff a task with this key failed in this call, or the file said so before and the call has not made it ready. *)
Theorem failures_of_execute h w tg cfg t r w' k : possible h w -> wstep w (HExecuted tg cfg t r) w' ->
  log_failure (w_file w') k <->
  failure_in (HExecuted tg cfg t r) k \/ (log_failure (w_file w) k /\ ~ attempted_in (HExecuted tg cfg t r) k).
Proof.
  intros Hh Hs. pose proof (possible_inv _ _ Hh) as [HF Hi].
  assert (failure_in (HExecuted tg cfg t r) k <-> exists i, in_graph cfg i /\ task_key cfg i = k /\ reported_bad t i) as ->.
  { split; [intros (tg' & cfg' & t' & i & [= <- <- <-] & Hx); by exists i|]. intros (i & Hx). exists tg, cfg, t, i. by split. }
  assert (attempted_in (HExecuted tg cfg t r) k <-> exists i, in_graph cfg i /\ task_key cfg i = k /\ made_ready t i) as ->.
  { split; [intros (tg' & cfg' & t' & i & [= <- <- <-] & Hx); by exists i|]. intros (i & Hx). exists tg, cfg, t, i. by split. }
  inversion Hs as [| | |F0 p x e cfg0 Hargs Hst Hcount|F0 p x e cfg0 acts s t0 Hargs Hst Hcount Hrun Hph| | |]; subst; cbn [w_file w_proc] in *.
  - split; [intros H; right; split; [done|]; by intros (i & _ & _ & [])|]. intros [(i & Hi' & _)|[H _]]; [|done]. unfold in_graph, node_count in *. lia.
  - destruct (begin_execute _ _ _ Hi Hargs) as (e' & cfg' & ids & bs & Hb). destruct (begun_unique _ _ _ _ _ _ _ _ Hb Hst) as [-> ->].
    rewrite <- (file_failure_iff _ _ p k Hh eq_refl). eapply run_failures; [done|done|by exists acts].
Qed.
Print Assumptions failures_of_execute.

(** C79. The number of failures that execute() returns is 0 iff no task failed in it. *)
Theorem no_failures_iff h w tg cfg t nf ks w' : possible h w -> wstep w (HExecuted tg cfg t (nf, ks)) w' ->
  nf = 0%N <-> forall k, ~ failure_in (HExecuted tg cfg t (nf, ks)) k.
Proof.
  intros Hh Hs. pose proof (possible_inv _ _ Hh) as [HF Hi].
  inversion Hs as [| | |F0 p x e cfg0 Hargs Hst Hcount|F0 p x e cfg0 acts s t0 Hargs Hst Hcount Hrun Hph| | |]; subst; cbn [w_file w_proc] in *.
  - split; [|done]. intros _ k (tg' & cfg' & t' & i & [= <- <- <-] & Hi' & _). unfold in_graph, node_count in *. lia.
  - destruct (begin_execute _ _ _ Hi Hargs) as (e' & cfg' & ids & bs & Hb). destruct (begun_unique _ _ _ _ _ _ _ _ Hb Hst) as [-> ->].
    assert (reachable cfg' s t) as Hr by (by exists acts). pose proof (begun_config _ _ _ _ _ _ _ Hi Hb) as Hok.
    destruct (execute_result_truthful cfg' s t Hok Hr Hph) as (new & Hnew & Her & _).
    destruct (log_records cfg' Hok s t Hr) as (new' & inf & fin & Hnew' & _ & HDL & _). unfold new_records in Hnew, Hnew'. rewrite Hnew in Hnew'. apply app_inv_head in Hnew' as <-.
    unfold execute_result in Her. injection Her as Hcnt _. rewrite Hcnt.
    split.
    + intros H0 k (tg' & cfg'' & t' & i & [= <- <- <-] & _ & _ & y & Hy & Hin).
      assert ((task_key cfg' i, as_i32 y) ∈ omap fin_rec new) as Hin'.
      { rewrite (l_fin _ _ _ _ _ _ _ HDL). apply elem_of_list_omap.
        destruct Hin as [[el Hin]|Hin]; apply elem_of_list_In in Hin; eexists; (split; [exact Hin|done]). }
      apply elem_of_list_omap in Hin' as (r & Hr1 & Hr2). destruct r as [| | |f|]; try discriminate Hr2. injection Hr2 as _ Hfs.
      assert (In (Finished f) (List.filter failure_record new)) as Hf.
      { apply filter_In. split; [by apply elem_of_list_In|]. cbn [failure_record]. apply negb_true_iff, Z.eqb_neq. rewrite Hfs. intros Hz. by apply Hy, status_zero. }
      destruct (List.filter failure_record new); [done|]. cbn [length] in H0. lia.
    + intros Hno. destruct (List.filter failure_record new) as [|e0 l] eqn:E; [done|]. exfalso.
      assert (In e0 (List.filter failure_record new)) as Hf by (rewrite E; by left). apply filter_In in Hf as [Hf Hb0]. destruct e0 as [| | |f|]; try discriminate Hb0.
      cbn [failure_record] in Hb0. apply negb_true_iff, Z.eqb_neq in Hb0. apply (Hno (f_key f)).
      assert ((f_key f, f_status f) ∈ omap fin_rec new) as Hin'.
      { apply elem_of_list_omap. exists (Finished f). split; [by apply elem_of_list_In|done]. }
      rewrite (l_fin _ _ _ _ _ _ _ HDL) in Hin'. apply elem_of_list_omap in Hin' as (o & Ho & Eo).
      assert (exists i y, task_key cfg' i = f_key f /\ as_i32 y = f_status f /\ mentions o i /\ ((exists el, In (OFinished i y el) t) \/ In (ODrainFinished i y) t)) as (i & y & Hk & Hx & Hm & Hin).
      { pose proof Ho as Ho'. apply elem_of_list_In in Ho'.
        destruct o as [| | | | | | |i y el| |i y| | | | |]; try discriminate Eo; cbn [fin_obs] in Eo; injection Eo as Hki Hx; exists i, y; (split; [done|]); (split; [done|]); (split; [done|]); [left; by exists el|by right]. }
      exists (x_target x), cfg', t, i. split; [done|]. split; [|split; [done|]].
      * assert (i ∈ readied t) as Hrd by (eapply mentions_readied; [done|done|exact Ho|done]). clear - Hr Hok Hrd. apply (full_or_done cfg' Hok) in Hr as [HF|HD].
        -- apply (a_lt _ _ _ (inv_a _ _ _ (f_inv _ _ _ HF)) i Hrd).
        -- destruct HD as (s1 & t1 & os0 & now0 & order0 & HF & _ & _ & _ & -> & _ & Hz & _). destruct Hz as [_ _ _ _ _ _ Hob].
           rewrite readied_app, (drain_readied os0 Hob), app_nil_r in Hrd. apply (a_lt _ _ _ (inv_a _ _ _ (f_inv _ _ _ HF)) i Hrd).
      * exists y. split; [|done]. intros ->. by rewrite <- Hx in Hb0.
Qed.
Print Assumptions no_failures_iff.

(** ** Where records come from *)
(** In this call of execute() the end of a task with the key of [f] was reported, with the status of [f]. *)
Definition report_of (ev : event_of_history) (f : finished_entry) : Prop :=
  exists tg cfg t i x, execution ev = Some (tg, cfg, t) /\ in_graph cfg i /\ task_key cfg i = f_key f /\ as_i32 x = f_status f /\
    ((exists el, In (OFinished i x el) t) \/ In (ODrainFinished i x) t).
(** In this call of execute() a task became ready that has the key, the number of earlier attempts, the shown command and the storage root of [r]. *)
Definition announced_in (ev : event_of_history) (r : ready_entry) : Prop :=
  exists tg cfg t i c, execution ev = Some (tg, cfg, t) /\ nodes (cf_g cfg) !! i = Some c /\ made_ready t i /\
    c_key c = r_key r /\ c_runcount c = r_runcount r /\ display c = r_command r /\ c_storage_root c = r_storage_root r.
(** In this call of execute() a runner took a task with key [k]. *)
Definition taken_in (ev : event_of_history) (k : string) : Prop :=
  exists tg cfg t i, execution ev = Some (tg, cfg, t) /\ in_graph cfg i /\ task_key cfg i = k /\ handed_out t i.
Lemma inflight_handed cfg s t n : InvA cfg s t -> is_Some (sv_inflight (st_sv s) !! n) -> n ∈ handed t.
Proof.
  intros HA Hin. apply occ_pos. pose proof (a_own _ _ _ HA n) as H1. pose proof (a_hd _ _ _ HA n) as H2. pose proof (a_se _ _ _ HA n) as H5.
  unfold ninf in H5. rewrite decide_True in H5 by done. pose proof (tkb_occ (st_taken s) (readied t) n) as H3. unfold tk in *.
  assert (nclaim s n <= nhold s n) as H4.
  { unfold nclaim, nhold. apply occ_omap_le. intros x m. destruct x as [| |it|it|n0|n0| |n0 [|]]; unfold one; simpl; lia. }
  assert (Nat.b2n (tkb (st_taken s) (readied t) n) <= 1) by (destruct (tkb _ _ _); simpl; lia). lia.
Qed.
Lemma started_handed cfg s t new n : config_ok cfg -> reachable cfg s t -> new_records cfg s new -> in_graph cfg n -> KStarted ∈ history (task_key cfg n) new -> n ∈ handed t.
Proof.
  intros Hok Hr Hnew Hn Hin. unfold new_records in Hnew. apply (full_or_done cfg Hok) in Hr as [HF|HD].
  - destruct (f_inv _ _ _ HF) as [HA (_ & new' & Hn' & Hln) HC _]. rewrite Hnew in Hn'. apply app_inv_head in Hn' as <-.
    assert (HDL : DL cfg new (sv_inflight (st_sv s)) (readied t) (finish_order t) (good t) (omap (fin_obs cfg) t)) by (by eapply log_new_DL). rewrite (l_stage _ _ _ _ _ _ _ HDL n Hn) in Hin. unfold stage' in Hin. destruct (decide (n ∈ readied t)); [|by apply elem_of_nil in Hin].
    destruct (decide (n ∈ finish_order t)) as [Hf|_]; [apply occ_pos; apply occ_pos in Hf; pose proof (inv_handed_sub cfg s t HA n); lia|].
    destruct (decide (is_Some (sv_inflight (st_sv s) !! n))) as [Hi|_]; [by eapply inflight_handed|]. by apply elem_of_list_singleton in Hin.
  - destruct HD as (s0 & t0 & os0 & now0 & order0 & HF & _ & _ & _ & -> & _ & Hz & _). destruct Hz as [(_ & new' & Hn' & HDL) _ Hnd _ _ _ _].
    rewrite Hnew in Hn'. apply app_inv_head in Hn' as <-. rewrite (l_stage _ _ _ _ _ _ _ HDL n Hn) in Hin. unfold stage' in Hin. destruct (decide (n ∈ readied t0)); [|by apply elem_of_nil in Hin].
    destruct (decide (n ∈ finish_order t0 ++ drained os0)) as [Hf|_]; [rewrite handed_app, elem_of_app; left; apply occ_pos; apply occ_pos in Hf; specialize (Hnd n); lia|].
    rewrite decide_False in Hin by (rewrite lookup_empty; by intros []). by apply elem_of_list_singleton in Hin.
Qed.
Lemma ready_announced cfg s t new r : config_ok cfg -> reachable cfg s t -> new_records cfg s new -> In (Ready r) new ->
  exists i c, nodes (cf_g cfg) !! i = Some c /\ made_ready t i /\ c_key c = r_key r /\ c_runcount c = r_runcount r /\ display c = r_command r /\ c_storage_root c = r_storage_root r.
Proof.
  intros Hok Hr Hnew Hin. pose proof Hr as [acts Hrun]. pose proof (RecordProps.ready_lines_exact cfg acts s t Hok Hrun) as E.
  unfold new_records in Hnew. unfold RecordSpec.new_lines in E. rewrite Hnew, drop_app in E.
  assert (In (RecordSpec.LReady (r_key r) (r_runcount r) (r_command r) (r_storage_root r)) (List.filter RecordSpec.says_ready (omap RecordSpec.line_of new))) as X.
  { apply filter_In. split; [|done]. apply elem_of_list_In, elem_of_list_omap. exists (Ready r). split; [by apply elem_of_list_In|done]. }
  rewrite E in X. apply in_map_iff in X as (i & X & Hi). apply elem_of_list_In in Hi.
  assert (i < node_count (cf_g cfg)) as Hlt.
  { clear - Hr Hok Hi. apply (full_or_done cfg Hok) in Hr as [HF|HD].
    - apply (a_lt _ _ _ (inv_a _ _ _ (f_inv _ _ _ HF)) i Hi).
    - destruct HD as (s1 & t1 & os0 & now0 & order0 & HF & _ & _ & _ & -> & _ & Hz & _). destruct Hz as [_ _ _ _ _ _ Hob].
      rewrite readied_app, (drain_readied os0 Hob), app_nil_r in Hi. apply (a_lt _ _ _ (inv_a _ _ _ (f_inv _ _ _ HF)) i Hi). }
  apply lookup_lt_is_Some_2 in Hlt as [c Hc]. unfold RecordSpec.ready_line in X. rewrite Hc in X. injection X as X1 X2 X3 X4.
  exists i, c. split; [done|]. split; [by apply elem_of_readied|]. done.
Qed.
Lemma new_records_caused F p x e cfg ids bs s t : pinv F p -> begun p x e cfg ids bs -> reachable cfg s t ->
  exists new, lf_entries (sv_log (st_sv s)) = plog p ++ brefs bs ++ new /\
    (forall f, In (Finished f) new -> exists i y, in_graph cfg i /\ task_key cfg i = f_key f /\ as_i32 y = f_status f /\ ((exists el, In (OFinished i y el) t) \/ In (ODrainFinished i y) t)) /\
    (forall r, In (Ready r) new -> exists i c, nodes (cf_g cfg) !! i = Some c /\ made_ready t i /\ c_key c = r_key r /\ c_runcount c = r_runcount r /\ display c = r_command r /\ c_storage_root c = r_storage_root r) /\
    (forall r, In (Started r) new -> exists i, in_graph cfg i /\ task_key cfg i = s_key r /\ handed_out t i).
Proof.
  intros Hp Hb Hr. pose proof (begun_config _ _ _ _ _ _ _ Hp Hb) as Hok. destruct (run_inv _ _ _ _ _ _ _ _ _ Hp Hb Hr) as (Hg & Hlok & new & He & _ & Hatt & Hkey).
  exists new. split; [exact He|].
  destruct (log_records cfg Hok s t Hr) as (new' & inf & fin & Hnew' & _ & HDL & _). unfold new_records in Hnew'.
  rewrite (bg_cflog _ _ _ _ _ _ Hb), (bg_log _ _ _ _ _ _ Hb) in Hnew'. cbn [lf_entries] in Hnew'.
  rewrite He, List.app_assoc in Hnew'. pose proof Hnew' as Hnr. apply app_inv_head in Hnew' as <-. split; [|split].
  - intros f Hf. assert ((f_key f, f_status f) ∈ omap fin_rec new) as Hin'.
    { apply elem_of_list_omap. exists (Finished f). split; [by apply elem_of_list_In|done]. }
    rewrite (l_fin _ _ _ _ _ _ _ HDL) in Hin'. apply elem_of_list_omap in Hin' as (o & Ho & Eo).
    assert (exists i y, task_key cfg i = f_key f /\ as_i32 y = f_status f /\ mentions o i /\ ((exists el, In (OFinished i y el) t) \/ In (ODrainFinished i y) t)) as (i & y & Hk & Hx & Hm & Hin).
    { pose proof Ho as Ho'. apply elem_of_list_In in Ho'.
      destruct o as [| | | | | | |i y el| |i y| | | | |]; try discriminate Eo; cbn [fin_obs] in Eo; injection Eo as Hki Hx; exists i, y; (split; [done|]); (split; [done|]); (split; [done|]); [left; by exists el|by right]. }
    exists i, y. split; [|done]. assert (i ∈ readied t) as Hrd by (eapply mentions_readied; [done|done|exact Ho|done]). clear - Hr Hok Hrd. apply (full_or_done cfg Hok) in Hr as [HF|HD].
    + apply (a_lt _ _ _ (inv_a _ _ _ (f_inv _ _ _ HF)) i Hrd).
    + destruct HD as (s1 & t1 & os0 & now0 & order0 & HF & _ & _ & _ & -> & _ & Hz & _). destruct Hz as [_ _ _ _ _ _ Hob].
      rewrite readied_app, (drain_readied os0 Hob), app_nil_r in Hrd. apply (a_lt _ _ _ (inv_a _ _ _ (f_inv _ _ _ HF)) i Hrd).
  - intros r Hin. eapply ready_announced; [done|done| |exact Hin]. unfold new_records. by rewrite (bg_cflog _ _ _ _ _ _ Hb), (bg_log _ _ _ _ _ _ Hb), He, List.app_assoc.
  - intros r Hin. assert (KStarted ∈ history (s_key r) new) as Hks.
    { apply elem_of_list_omap. exists (Started r). split; [by apply elem_of_list_In|by apply record_of_started]. }
    assert (history (s_key r) new <> []) as Hn by (intros E; rewrite E in Hks; by apply elem_of_nil in Hks).
    destruct (Hkey _ Hn) as (i & c & Hc & Hck). assert (in_graph cfg i) as Hi by (by eapply lookup_lt_Some).
    assert (task_key cfg i = s_key r) as Htk by (unfold task_key; by rewrite Hc).
    exists i. split; [done|]. split; [done|]. apply elem_of_handed. rewrite <- Htk in Hks. eapply started_handed; [done|done| |done|exact Hks].
    unfold new_records. by rewrite (bg_cflog _ _ _ _ _ _ Hb), (bg_log _ _ _ _ _ _ Hb), He, List.app_assoc.
Qed.
Definition caused (h : list event_of_history) (e : log_entry) : Prop :=
  match e with
  | Finished f => exists ev, In ev h /\ report_of ev f
  | Ready r => exists ev, In ev h /\ announced_in ev r
  | Started r => exists ev, In ev h /\ taken_in ev (s_key r)
  | _ => True
  end.
Lemma caused_more h ev e : caused h e -> caused (h ++ [ev]) e.
Proof. destruct e; cbn [caused]; try done; intros (ev' & Hin & Hx); exists ev'; (split; [apply in_app_iff; by left|done]). Qed.
Lemma run_caused F p x e cfg ids bs s t h ev : pinv F p -> begun p x e cfg ids bs -> reachable cfg s t -> execution ev = Some (x_target x, cfg, t) ->
  (forall r, In r (plog p) -> caused h r) -> forall r, In r (lf_entries (sv_log (st_sv s))) -> caused (h ++ [ev]) r.
Proof.
  intros Hp Hb Hr Hev IH r Hin. destruct (new_records_caused _ _ _ _ _ _ _ _ _ Hp Hb Hr) as (new & E & Hf & Hrd & Hsd). rewrite E in Hin.
  apply in_app_iff in Hin as [Hin|Hin]; [by apply caused_more, IH|]. apply in_app_iff in Hin as [Hin|Hin].
  - by apply brefs_in in Hin as (k & -> & _).
  - assert (In ev (h ++ [ev])) as Hl by (apply in_app_iff; right; by left). destruct r as [| |st|f|]; cbn [caused]; try done.
    + exists ev. split; [done|]. destruct (Hrd _ Hin) as (i & c & Hx). exists (x_target x), cfg, t, i, c. by split.
    + exists ev. split; [done|]. destruct (Hsd _ Hin) as (i & Hx). exists (x_target x), cfg, t, i. by split.
    + exists ev. split; [done|]. destruct (Hf _ Hin) as (i & y & Hx). exists (x_target x), cfg, t, i, y. by split.
Qed.
Lemma all_caused h w : possible h w -> forall r, In r (current_log w) -> caused h r.
Proof.
  intros Hh. revert h w Hh. apply (possible_ind' (fun h w => forall r, In r (current_log w) -> caused h r)); [intros r []|].
  intros h w ev w' Hh IH Hs. pose proof (possible_inv _ _ Hh) as [HF Hi]. pose proof (unflushed _ _ Hh) as Hun.
  destruct Hs as [F a p Ho|F a Ho|F p cmdline key ds disp aff sr e r Ha Hfit|F p x e cfg Hargs Hst Hcount|F p x e cfg acts s t Hargs Hst Hcount Hrun Hph|F p|F p n Hn|F p x e cfg acts s t n Hargs Hst Hrun Hn];
    unfold current_log in *; cbn [w_file w_proc] in *; intros r0 Hin.
  - destruct (open_works F a HF) as (l & q & Hl & Hop & Hlog & _). simplify_eq. rewrite Hlog in Hin. cbn [lf_entries] in Hin.
    apply in_app_iff in Hin as [Hin|[<-|[]]]; [by apply caused_more, IH|done].
  - by apply caused_more, IH.
  - destruct (add_inv _ _ _ _ _ _ _ _ _ _ Hi Ha Hfit) as (_ & Hl & _). cbn [p_graph] in Hin. rewrite Hl in Hin. by apply caused_more, IH.
  - destruct (begin_execute _ _ _ Hi Hargs) as (e' & cfg' & ids & bs & Hb). destruct (begun_unique _ _ _ _ _ _ _ _ Hb Hst) as [-> ->].
    cbn [p_graph] in Hin. rewrite (bg_log _ _ _ _ _ _ Hb) in Hin. cbn [lf_entries] in Hin. apply in_app_iff in Hin as [Hin|Hin]; [by apply caused_more, IH|].
    by apply brefs_in in Hin as (k & -> & _).
  - destruct (begin_execute _ _ _ Hi Hargs) as (e' & cfg' & ids & bs & Hb). destruct (begun_unique _ _ _ _ _ _ _ _ Hb Hst) as [-> ->].
    eapply run_caused; [done|done|by exists acts|done|done|exact Hin].
  - by apply caused_more, IH.
  - apply caused_more, IH. rewrite <- (take_drop n (lf_entries _)). apply in_app_iff. by left.
  - destruct (begin_execute _ _ _ Hi Hargs) as (e' & cfg' & ids & bs & Hb). destruct (begun_unique _ _ _ _ _ _ _ _ Hb Hst) as [-> ->].
    eapply run_caused; [done|done|by exists acts|done|done|]. rewrite <- (take_drop n (lf_entries _)). apply in_app_iff. by left.
Qed.
Lemma in_current h w r : possible h w -> In r (w_file w) -> In r (current_log w).
Proof.
  intros Hh Hin. unfold current_log. destruct (w_proc w) as [p|] eqn:Hp; [|done]. destruct (unflushed _ _ Hh p Hp) as (rest & E & _). fold (plog p). rewrite E. apply in_app_iff. by left.
Qed.
(** C79. Each Finished record in the log file is the report, with this status, of a task with this key in an execute() of the history. *)
Theorem finished_record_has_report h w f : possible h w -> In (Finished f) (w_file w) -> exists ev, In ev h /\ report_of ev f.
Proof. intros Hh Hin. exact (all_caused _ _ Hh (Finished f) (in_current _ _ _ Hh Hin)). Qed.
Print Assumptions finished_record_has_report.
(** C79. Each Ready record shows a task that became ready in an execute() of the history: its key, the number of its attempts before, its command and its storage root. *)
Theorem ready_record_has_attempt h w r : possible h w -> In (Ready r) (w_file w) -> exists ev, In ev h /\ announced_in ev r.
Proof. intros Hh Hin. exact (all_caused _ _ Hh (Ready r) (in_current _ _ _ Hh Hin)). Qed.
Print Assumptions ready_record_has_attempt.
(** C79. Each Started record is that of a task with this key that a runner took in an execute() of the history. *)
Theorem started_record_was_taken h w r : possible h w -> In (Started r) (w_file w) -> exists ev, In ev h /\ taken_in ev (s_key r).
Proof. intros Hh Hin. exact (all_caused _ _ Hh (Started r) (in_current _ _ _ Hh Hin)). Qed.
Print Assumptions started_record_was_taken.
Lemma last_finished k es : last (history k es) = Some KFinished -> exists l1 f l2, es = l1 ++ Finished f :: l2 /\ f_key f = k /\ no_record k l2.
Proof.
  induction es as [|e es IH] using rev_ind; [discriminate|]. rewrite history_app. unfold history at 2. cbn [omap list_omap]. destruct (record_of k e) as [x|] eqn:E.
  - rewrite last_snoc. intros [= ->]. destruct e as [| | |f|]; cbn [record_of] in E; try discriminate E; destruct (String.eqb _ k) eqn:Ek; try discriminate E.
    exists es, f, []. split; [done|]. split; [by apply String.eqb_eq|]. by intros r [].
  - rewrite app_nil_r. intros H. destruct (IH H) as (l1 & f & l2 & -> & Hk & Hn). exists l1, f, (l2 ++ [e]). split; [by rewrite <- List.app_assoc|]. split; [done|].
    apply no_record_app. split; [done|]. intros r [<-|[]]. done.
Qed.
(** C79. Each Backref refers to an attempt that came to an end: the last record of its key before it is a Finished record, the report of an execute() of the history. *)
Theorem backref_refers_to_report h w l1 b l2 : possible h w -> w_file w = l1 ++ Backref b :: l2 ->
  exists m1 f m2, l1 = m1 ++ Finished f :: m2 /\ f_key f = b_key b /\ (forall e, In e m2 -> record_of (b_key b) e = None) /\ exists ev, In ev h /\ report_of ev f.
Proof.
  intros Hh E. destruct (possible_good _ _ Hh) as [Hg _]. destruct (last_finished _ _ (g_target _ Hg l1 b l2 E)) as (m1 & f & m2 & -> & Hk & Hn).
  exists m1, f, m2. split; [done|]. split; [done|]. split; [exact Hn|]. apply (finished_record_has_report h w); [done|]. rewrite E. apply in_app_iff. left. apply in_app_iff. right. by left.
Qed.
Print Assumptions backref_refers_to_report.

(** ** A case that meets the hypotheses: "a" fails and "b" succeeds; in a second session "a" succeeds. *)
Definition finds_failure (ev : event_of_history) (k : string) : bool :=
  match execution ev with
  | Some (_, cfg, t) => existsb (fun o => match o with OFinished i x _ => negb (is_success x) && Nat.ltb i (length (nodes (cf_g cfg))) && String.eqb (task_key cfg i) k | _ => false end) t
  | None => false
  end.
Lemma finds_failure_ok ev k : finds_failure ev k = true -> failure_in ev k.
Proof.
  unfold finds_failure. destruct (execution ev) as [[[tg cfg] t]|] eqn:E; [|discriminate]. intros H. apply existsb_exists in H as (o & Ho & H).
  destruct o as [| | | | | | |i x el| | | | | | |]; try discriminate H. apply andb_true_iff in H as [H Hk]. apply andb_true_iff in H as [Hx Hi].
  apply Nat.ltb_lt in Hi. apply String.eqb_eq in Hk. exists tg, cfg, t, i. split; [exact E|]. split; [exact Hi|]. split; [exact Hk|].
  exists x. split; [|left; by exists el]. intros ->. discriminate Hx.
Qed.
Definition vd_before : list call := [open_with "wk" ["/r"] true; add "a" []; add "b" []].
Definition vd_call : call := CExecute None [0] (run_tasks [0; 1] [Code 1; Code 0] stop).
Definition vd_again : list call := vd_before ++ [vd_call; CClose; open_with "wk" ["/r"] true; add "a" []; add "b" []].
Definition vd_retry : call := CExecute None [0] (run_tasks [0] [Code 0] stop).
Lemma executed ev : (match ev with HExecuted _ _ _ (nf, _) => negb (N.eqb nf 0) | _ => false end) = true -> exists tg cfg t nf ks, ev = HExecuted tg cfg t (nf, ks) /\ nf <> 0%N.
Proof. destruct ev as [| | |tg cfg t [nf ks]| | |]; try discriminate. intros H. exists tg, cfg, t, nf, ks. split; [done|]. by apply negb_true_iff, N.eqb_neq in H. Qed.
Example vd_failed : log_failure (w_file (did (ran vd_before).2 vd_call).2) "a".
Proof.
  assert (possible (ran vd_before).1 (ran vd_before).2) as Hh by (apply ran_possible; vm_compute; reflexivity).
  assert (wstep (ran vd_before).2 (did (ran vd_before).2 vd_call).1 (did (ran vd_before).2 vd_call).2) as Hs by (apply did_step; vm_compute; reflexivity).
  assert (failure_in (did (ran vd_before).2 vd_call).1 "a") as Hf by (apply finds_failure_ok; vm_compute; reflexivity).
  destruct (executed (did (ran vd_before).2 vd_call).1) as (tg & cfg & t & nf & ks & E & _); [vm_compute; reflexivity|].
  rewrite E in Hs, Hf. apply (failures_of_execute _ _ _ _ _ _ _ "a" Hh Hs). by left.
Qed.
Example vd_retried : (if do_calls (World [] None) vd_again then true else false, if do_call (ran vd_again).2 vd_retry then true else false,
    finds_success (did (ran vd_again).2 vd_retry).1 "a", result_of (did (ran vd_again).2 vd_retry).1) = (true, true, true, Some (0%N, ["a"])).
Proof. vm_compute. reflexivity. Qed.
Example vd_record : exists f ev, In (Finished f) (w_file (did (ran vd_before).2 vd_call).2) /\ f_key f = "a" /\ f_status f = 1%Z /\ In ev ((ran vd_before).1 ++ [(did (ran vd_before).2 vd_call).1]) /\ report_of ev f.
Proof.
  assert (possible (ran vd_before).1 (ran vd_before).2) as Hh by (apply ran_possible; vm_compute; reflexivity).
  assert (wstep (ran vd_before).2 (did (ran vd_before).2 vd_call).1 (did (ran vd_before).2 vd_call).2) as Hs by (apply did_step; vm_compute; reflexivity).
  assert (existsb (fun e => match e with Finished f => String.eqb (f_key f) "a" && Z.eqb (f_status f) 1 | _ => false end) (w_file (did (ran vd_before).2 vd_call).2) = true) as X by (vm_compute; reflexivity).
  revert Hh Hs X. generalize (ran vd_before).1, (ran vd_before).2. intros h w. generalize (did w vd_call).1, (did w vd_call).2. intros ev w' Hh Hs X.
  apply existsb_exists in X as (e & Hin & X). destruct e as [| | |f|]; try discriminate X. apply andb_true_iff in X as [Hk Hz].
  assert (possible (h ++ [ev]) w') as Hh' by (eapply whist_snoc; [exact Hh|exact Hs]). destruct (finished_record_has_report _ _ _ Hh' Hin) as (ev' & Hev & Hrep).
  exists f, ev'. split; [exact Hin|]. split; [by apply String.eqb_eq|]. split; [by apply Z.eqb_eq|]. split; [exact Hev|exact Hrep].
Qed.
Example vd_started : exists r ev, In (Started r) (w_file (did (ran vd_before).2 vd_call).2) /\ s_key r = "a" /\ In ev ((ran vd_before).1 ++ [(did (ran vd_before).2 vd_call).1]) /\ taken_in ev "a".
Proof.
  assert (possible (ran vd_before).1 (ran vd_before).2) as Hh by (apply ran_possible; vm_compute; reflexivity).
  assert (wstep (ran vd_before).2 (did (ran vd_before).2 vd_call).1 (did (ran vd_before).2 vd_call).2) as Hs by (apply did_step; vm_compute; reflexivity).
  assert (existsb (fun e => match e with Started r => String.eqb (s_key r) "a" | _ => false end) (w_file (did (ran vd_before).2 vd_call).2) = true) as X by (vm_compute; reflexivity).
  revert Hh Hs X. generalize (ran vd_before).1, (ran vd_before).2. intros h w. generalize (did w vd_call).1, (did w vd_call).2. intros ev w' Hh Hs X.
  apply existsb_exists in X as (e & Hin & X). destruct e as [| |r| |]; try discriminate X. apply String.eqb_eq in X.
  assert (possible (h ++ [ev]) w') as Hh' by (eapply whist_snoc; [exact Hh|exact Hs]). destruct (started_record_was_taken _ _ _ Hh' Hin) as (ev' & Hev & Hrep).
  exists r, ev'. split; [exact Hin|]. split; [exact X|]. split; [exact Hev|]. by rewrite <- X.
Qed.
Example vd_backref : exists l1 b l2, w_file (did (ran vd_again).2 vd_retry).2 = l1 ++ Backref b :: l2 /\ b_key b = "b".
Proof.
  assert (existsb (fun e => match e with Backref b => String.eqb (b_key b) "b" | _ => false end) (w_file (did (ran vd_again).2 vd_retry).2) = true) as X by (vm_compute; reflexivity).
  revert X. generalize (w_file (did (ran vd_again).2 vd_retry).2). intros es X. apply existsb_exists in X as (e & Hin & X). destruct e as [| | | |b]; try discriminate X.
  apply in_split in Hin as (l1 & l2 & ->). exists l1, b, l2. split; [reflexivity|]. by apply String.eqb_eq.
Qed.
