(** C78: the successes in the log are the tasks that have succeeded: no more, none twice, and none is lost. *)
From Verif Require Import GraphProofs SessionSpec SessionLists SessionInv SessionProofs SessionHistory SessionProps SessionDemo SchedProofs SchedProps SchedResult CompleteProps.
From stdpp Require Import prelude gmap.
Open Scope nat_scope.

(** The report that task [i] ended with status 0 was processed, in the loop or while the call was ending. *)
Definition reported_ok (t : list obs) (i : nat) : Prop := succeeded t i \/ In (ODrainFinished i (Code 0)) t.
(** In this call of execute() a task with key [k] ended with status 0. *)
Definition success_in (ev : event_of_history) (k : string) : Prop :=
  exists tg cfg t i, execution ev = Some (tg, cfg, t) /\ in_graph cfg i /\ task_key cfg i = k /\ reported_ok t i.

Lemma success_record es k : good_log es -> log_success es k <-> exists f, In (Finished f) es /\ f_key f = k /\ f_status f = 0%Z.
Proof.
  intros Hg. split.
  - intros (c & sr & pre & r & mid & st & mid' & f & post & -> & _ & _ & _ & _ & _ & _ & Hk & [H0 _] & _). exists f. split; [|auto].
    apply in_app_iff. right. right. apply in_app_iff. right. right. apply in_app_iff. right. by left.
  - intros (f & Hf & <- & H0). destruct (proj2 (open_ok_iff es) (conj (g_wf _ Hg) (g_headers _ Hg))) as [l Hl].
    destruct (log_open_good _ _ Hl) as (Hgood & He & _). apply log_good_ok in Hgood. pose proof (log_ok_status _ (f_key f) Hgood) as Hst. rewrite He in Hst.
    apply in_split in Hf as (n1 & n2 & E). destruct (success_status es n1 f n2 _ Hst E) as (rc & sr & Ho); [|done|].
    + intros e0 He0. apply in_split in He0 as (a & b & ->). by apply (g_success _ Hg n1 (Finished f) a e0 b).
    + exists rc, sr. by rewrite <- Ho.
Qed.
Lemma status_zero x : as_i32 x = 0%Z -> x = Code 0.
Proof. intros H. apply is_success_iff. rewrite <- as_i32_success, H. done. Qed.
(** The records with status 0 that a call writes are those of the tasks that ended with status 0. *)
Lemma new_successes F p x e cfg ids bs s t new k : pinv F p -> begun p x e cfg ids bs -> reachable cfg s t ->
  lf_entries (sv_log (st_sv s)) = plog p ++ brefs bs ++ new ->
  (exists f, In (Finished f) new /\ f_key f = k /\ f_status f = 0%Z) <-> exists i, in_graph cfg i /\ task_key cfg i = k /\ reported_ok t i.
Proof.
  intros Hp Hb Hr Hnew. pose proof (begun_config _ _ _ _ _ _ _ Hp Hb) as Hok.
  destruct (log_records cfg Hok s t Hr) as (new' & inf & fin & Hnew' & _ & HDL & _). unfold new_records in Hnew'.
  rewrite (bg_cflog _ _ _ _ _ _ Hb), (bg_log _ _ _ _ _ _ Hb) in Hnew'. cbn [lf_entries] in Hnew'.
  rewrite Hnew, List.app_assoc in Hnew'. apply app_inv_head in Hnew' as <-. split.
  - intros (f & Hf & <- & H0). assert ((f_key f, f_status f) ∈ omap fin_rec new) as Hin.
    { apply elem_of_list_omap. exists (Finished f). split; [by apply elem_of_list_In|done]. }
    rewrite (l_fin _ _ _ _ _ _ _ HDL) in Hin. apply elem_of_list_omap in Hin as (o & Ho & E). apply elem_of_list_In in Ho.
    assert (exists i, f_key f = task_key cfg i /\ reported_ok t i) as (i & Hk & Hi).
    { destruct o as [| | | | | | |i y el| |i y| | | | |]; try discriminate E; cbn [fin_obs] in E; injection E as Hk Hx; rewrite H0 in Hx;
        apply status_zero in Hx; subst y; exists i; (split; [done|]); [left; by exists el|by right]. }
    exists i. split; [|done].
    assert (exists o', In o' t /\ mentions o' i) as (o' & Ho' & Hm) by (destruct Hi as [[el Hi]|Hi]; eexists; split; [exact Hi|done|exact Hi|done]).
    apply elem_of_list_In in Ho'. assert (i ∈ readied t) as Hrd by (eapply mentions_readied; [done|done|exact Ho'|done]).
    apply (full_or_done cfg Hok) in Hr as [HF|HD].
    + apply (a_lt _ _ _ (inv_a _ _ _ (f_inv _ _ _ HF)) i Hrd).
    + destruct HD as (s1 & t1 & os0 & now0 & order0 & HF & _ & _ & _ & -> & _ & Hz & _). destruct Hz as [_ _ _ _ _ _ Hob].
      rewrite readied_app, (drain_readied os0 Hob), app_nil_r in Hrd. apply (a_lt _ _ _ (inv_a _ _ _ (f_inv _ _ _ HF)) i Hrd).
  - intros (i & Hi & <- & [Hs|Hs]).
    + destruct (l_good _ _ _ _ _ _ _ HDL i) as (f & Hf & Hk & H0); [by apply elem_of_good|]. by exists f.
    + assert ((task_key cfg i, 0%Z) ∈ omap fin_rec new) as Hin.
      { rewrite (l_fin _ _ _ _ _ _ _ HDL). apply elem_of_list_omap. exists (ODrainFinished i (Code 0)). split; [by apply elem_of_list_In|done]. }
      apply elem_of_list_omap in Hin as (r & Hr1 & Hr2). destruct r as [| | |f|]; try discriminate Hr2. injection Hr2 as Hk Hz. exists f.
      split; [by apply elem_of_list_In|done].
Qed.
Lemma in_brefs f bs : ~ In (Finished f) (brefs bs).
Proof. intros H. by apply brefs_in in H as (k & [=] & _). Qed.
Lemma run_successes F p x e cfg ids bs s t k : pinv F p -> begun p x e cfg ids bs -> reachable cfg s t ->
  log_success (lf_entries (sv_log (st_sv s))) k <-> log_success (plog p) k \/ exists i, in_graph cfg i /\ task_key cfg i = k /\ reported_ok t i.
Proof.
  intros Hp Hb Hr. destruct (run_inv _ _ _ _ _ _ _ _ _ Hp Hb Hr) as (Hg & _ & new & He & _). rewrite (success_record _ k Hg), (success_record _ k (pi_good _ _ Hp)).
  rewrite <- (new_successes _ _ _ _ _ _ _ _ _ _ k Hp Hb Hr He), He. split.
  - intros (f & Hf & Hk). apply in_app_iff in Hf as [Hf|Hf]; [left; by exists f|]. apply in_app_iff in Hf as [Hf|Hf]; [by apply in_brefs in Hf|right; by exists f].
  - intros [(f & Hf & Hk)|(f & Hf & Hk)]; exists f; (split; [|done]); apply in_app_iff; [by left|right; apply in_app_iff; by right].
Qed.
Lemma take_success es n k : good_log es -> log_success (take n es) k -> log_success es k.
Proof.
  intros Hg. rewrite (success_record _ _ (good_take _ n Hg)), (success_record _ _ Hg). intros (f & Hf & Hk). exists f. split; [|done].
  rewrite <- (take_drop n es). apply in_app_iff. by left.
Qed.
Lemma take_keeps F rest n k : good_log (F ++ rest) -> length F <= n -> log_success F k -> log_success (take n (F ++ rest)) k.
Proof.
  intros Hg Hn. rewrite (success_record _ _ (good_log_prefix _ _ Hg)), (success_record _ _ (good_take _ n Hg)). intros (f & Hf & Hk). exists f. split; [|done].
  rewrite take_app_ge by done. apply in_app_iff. by left.
Qed.
Lemma file_success_iff h w p k : possible h w -> w_proc w = Some p -> log_success (plog p) k <-> log_success (w_file w) k.
Proof.
  intros Hh Hp. split; [by eapply file_success|]. destruct (unflushed _ _ Hh p Hp) as (rest & E & Hn). rewrite E. intros Hs. by apply success_more.
Qed.

(** C78. execute() adds to the successes in the log file exactly the tasks that ended with status 0 in it. *)
Theorem successes_of_execute h w tg cfg t r w' k : possible h w -> wstep w (HExecuted tg cfg t r) w' ->
  log_success (w_file w') k <-> log_success (w_file w) k \/ success_in (HExecuted tg cfg t r) k.
Proof.
  intros Hh Hs. pose proof (possible_inv _ _ Hh) as [HF Hi].
  assert (success_in (HExecuted tg cfg t r) k <-> exists i, in_graph cfg i /\ task_key cfg i = k /\ reported_ok t i) as ->.
  { split; [intros (tg' & cfg' & t' & i & [= <- <- <-] & Hx); by exists i|]. intros (i & Hx). exists tg, cfg, t, i. by split. }
  inversion Hs as [| | |F0 p x e cfg0 Hargs Hst Hcount|F0 p x e cfg0 acts s t0 Hargs Hst Hcount Hrun Hph| | |]; subst; cbn [w_file w_proc] in *.
  - split; [by left|]. intros [H|(i & Hi' & _)]; [done|]. unfold in_graph, node_count in *. lia.
  - destruct (begin_execute _ _ _ Hi Hargs) as (e' & cfg' & ids & bs & Hb). destruct (begun_unique _ _ _ _ _ _ _ _ Hb Hst) as [-> ->].
    rewrite <- (file_success_iff _ _ p k Hh eq_refl). eapply run_successes; [done|done|by exists acts].
Qed.
Print Assumptions successes_of_execute.

(** C78. Whatever happens, the successes in the log file stay, and there are no others than those and the tasks that ended with status 0 meanwhile. *)
Theorem successes_step h w ev w' k : possible h w -> wstep w ev w' ->
  (log_success (w_file w) k -> log_success (w_file w') k) /\ (log_success (w_file w') k -> log_success (w_file w) k \/ success_in ev k).
Proof.
  intros Hh Hs. pose proof (possible_inv _ _ Hh) as [HF Hi]. pose proof (wstep_inv _ _ _ (conj HF Hi) Hs) as [HF' _].
  destruct Hs as [| | |F p x e cfg Hargs Hst Hcount|F p x e cfg acts s t Hargs Hst Hcount Hrun Hph|F p|F p n Hn|F p x e cfg acts s t n Hargs Hst Hrun Hn]; cbn [w_file w_proc] in *; try by auto.
  - assert (wstep (World F (Some p)) (HExecuted (x_target x) cfg t (execute_result cfg s)) (World (lf_entries (sv_log (st_sv s))) (Some (end_execute p e cfg s)))) as Hs by (by eapply W_execute).
    pose proof (successes_of_execute _ _ _ _ _ _ _ k Hh Hs) as [H1 H2]. cbn [w_file] in *. auto.
  - pose proof (file_success_iff _ _ p k Hh eq_refl) as [H1 H2]. cbn [w_file] in *. fold (plog p). auto.
  - fold (plog p) in *. pose proof (file_success_iff _ _ p k Hh eq_refl) as [H1 H2]. cbn [w_file] in *. destruct (unflushed _ _ Hh p eq_refl) as (rest & E & _). cbn [w_file] in E. split.
    + rewrite E. apply take_keeps; [|done]. rewrite <- E. apply (pi_good _ _ Hi).
    + intros H. left. apply H1. eapply take_success; [apply (pi_good _ _ Hi)|done].
  - destruct (begin_execute _ _ _ Hi Hargs) as (e' & cfg' & ids & bs & Hb). destruct (begun_unique _ _ _ _ _ _ _ _ Hb Hst) as [-> ->].
    assert (reachable cfg' s t) as Hr by (by exists acts). destruct (run_inv _ _ _ _ _ _ _ _ _ Hi Hb Hr) as (Hg & _ & new & He & _).
    pose proof (file_success_iff _ _ p k Hh eq_refl) as [H1 H2]. cbn [w_file] in *. destruct (unflushed _ _ Hh p eq_refl) as (rest & E & _). cbn [w_file] in E. split.
    + rewrite He, E, <- List.app_assoc. apply take_keeps; [|done]. by rewrite List.app_assoc, <- E, <- He.
    + intros H. apply take_success in H; [|done]. apply (run_successes _ _ _ _ _ _ _ _ _ k Hi Hb Hr) in H as [H|(i & H)]; [left; by apply H1|right].
      exists (x_target x), cfg', t, i. by split.
Qed.
Print Assumptions successes_step.

(** C78. Each success in the log is that of a task that ended with status 0 in an execute() of the history, after which no execute() had it to run. *)
Theorem success_has_run h w k : possible h w -> log_success (w_file w) k ->
  exists h1 ev h2, h = h1 ++ ev :: h2 /\ success_in ev k /\
    forall ev' tg cfg t i, In ev' h2 -> execution ev' = Some (tg, cfg, t) -> in_graph cfg i -> task_key cfg i <> k.
Proof.
  intros Hh. revert h w Hh. apply (possible_ind' (fun h w => log_success (w_file w) k -> exists h1 ev h2, h = h1 ++ ev :: h2 /\ success_in ev k /\
    forall ev' tg cfg t i, In ev' h2 -> execution ev' = Some (tg, cfg, t) -> in_graph cfg i -> task_key cfg i <> k)).
  - intros Hs. apply (success_record [] k good_log_nil) in Hs as (f & [] & _).
  - intros h w ev w' Hh IH Hs Hk. destruct (successes_step _ _ _ _ k Hh Hs) as [_ [Hold|Hnew]]; [exact Hk| |].
    + destruct (IH Hold) as (h1 & ev1 & h2 & -> & Hin & Hlater). exists h1, ev1, (h2 ++ [ev]). split; [by rewrite <- List.app_assoc|]. split; [done|].
      intros ev' tg cfg t i Hev. apply in_app_iff in Hev as [Hev|[<-|[]]]; [by eapply Hlater|].
      assert (whistory w [ev] w') as Hw by (apply (whist_snoc w w w' [] ev); [apply whist_nil|done]).
      destruct (completed_runs_nothing _ _ _ _ _ Hh Hold Hw) as [_ H]. eapply H. by left.
    + exists h, ev, []. split; [done|]. split; [done|]. intros ev' tg cfg t i [].
Qed.
Print Assumptions success_has_run.

(** C78. A task that ended with status 0 in an execute() that returned is in the log as a success ever after, and no execute() has it to run again. *)
Theorem success_counts_once h1 tg cfg t r h2 w k : possible (h1 ++ HExecuted tg cfg t r :: h2) w -> success_in (HExecuted tg cfg t r) k ->
  log_success (w_file w) k /\
  forall ev tg' cfg' t' i, In ev h2 -> execution ev = Some (tg', cfg', t') -> in_graph cfg' i -> task_key cfg' i <> k.
Proof.
  intros Hh Hin. apply whistory_split in Hh as (w1 & Hh1 & Hr). apply whistory_cons_inv in Hr as (w2 & Hs & Hr).
  assert (possible (h1 ++ [HExecuted tg cfg t r]) w2) as Hh2 by (eapply whist_snoc; [exact Hh1|exact Hs]).
  eapply completed_runs_nothing; [exact Hh2| |exact Hr]. apply (successes_of_execute _ _ _ _ _ _ _ k Hh1 Hs). by right.
Qed.
Print Assumptions success_counts_once.

(** ** Cases that meet the hypotheses *)
Definition finds_success (ev : event_of_history) (k : string) : bool :=
  match execution ev with
  | Some (_, cfg, t) => existsb (fun o => match o with OFinished i x _ => is_success x && Nat.ltb i (length (nodes (cf_g cfg))) && String.eqb (task_key cfg i) k | _ => false end) t
  | None => false
  end.
Lemma finds_success_ok ev k : finds_success ev k = true -> success_in ev k.
Proof.
  unfold finds_success. destruct (execution ev) as [[[tg cfg] t]|] eqn:E; [|discriminate]. intros H. apply existsb_exists in H as (o & Ho & H).
  destruct o as [| | | | | | |i x el| | | | | | |]; try discriminate H. apply andb_true_iff in H as [H Hk]. apply andb_true_iff in H as [Hx Hi].
  apply is_success_iff in Hx. apply Nat.ltb_lt in Hi. apply String.eqb_eq in Hk. subst x. exists tg, cfg, t, i. split; [exact E|]. split; [exact Hi|]. split; [exact Hk|].
  left. by exists el.
Qed.
(** The session of CompleteProps.v: its second execute() adds "c" to "a" and "b". *)
Definition su_history : list event_of_history := (ran cp_before).1.
Example su_first : exists h1 tg cfg t r h2, su_history = h1 ++ HExecuted tg cfg t r :: h2 /\ h2 <> [] /\ success_in (HExecuted tg cfg t r) "b".
Proof.
  assert ((match drop 3 su_history with (HExecuted _ _ _ _ as ev) :: _ :: _ => finds_success ev "b" | _ => false end) = true) as X by (vm_compute; reflexivity).
  destruct (drop 3 su_history) as [|[| | |tg cfg t r| | |] [|ev2 h2]] eqn:E; try discriminate X. apply finds_success_ok in X.
  exists (take 3 su_history), tg, cfg, t, r, (ev2 :: h2). split; [by rewrite <- E, take_drop|]. split; [discriminate|exact X].
Qed.
Example su_once : log_success (w_file (ran cp_before).2) "b".
Proof.
  destruct su_first as (h1 & tg & cfg & t & r & h2 & E & _ & Hin).
  assert (possible su_history (ran cp_before).2) as Hh by (apply ran_possible; vm_compute; reflexivity). rewrite E in Hh.
  exact (proj1 (success_counts_once _ _ _ _ _ _ _ _ Hh Hin)).
Qed.
Example su_new : success_in cp_event "c" /\ ~ log_success (w_file (ran cp_before).2) "c".
Proof.
  split; [apply finds_success_ok; vm_compute; reflexivity|]. intros H. apply key_success_ok in H. revert H.
  assert (key_success (w_file (ran cp_before).2) "c" = false) as -> by (vm_compute; reflexivity). discriminate.
Qed.

(** ** Refutation: a process that is killed takes with it the successes that were not yet flushed. *)
Definition ki_before : list call := [open_with "wk" ["/r"] true; add "a" []].
Definition ki_call : call := CKillIn None [0] (run_tasks [0] [Code 0] []) 0.
Theorem success_counts_killed_refuted :
  ~ (forall h ev w k, possible (h ++ [ev]) w -> success_in ev k -> log_success (w_file w) k).
Proof.
  intros H. assert ((if do_calls (World [] None) ki_before then true else false) = true) as X1 by (vm_compute; reflexivity).
  assert ((if do_call (ran ki_before).2 ki_call then true else false) = true) as X2 by (vm_compute; reflexivity).
  assert (finds_success (did (ran ki_before).2 ki_call).1 "a" = true) as X3 by (vm_compute; reflexivity).
  assert (key_success (w_file (did (ran ki_before).2 ki_call).2) "a" = false) as X4 by (vm_compute; reflexivity).
  apply ran_possible in X1. apply did_step in X2. apply finds_success_ok in X3.
  revert X1 X2 X3 X4. generalize (ran ki_before).1, (ran ki_before).2. intros h w. destruct (did w ki_call) as [ev w']. cbn [fst snd]. intros X1 X2 X3 X4.
  assert (possible (h ++ [ev]) w') as Hh by (eapply whist_snoc; [exact X1|exact X2]). specialize (H _ _ _ _ Hh X3). apply key_success_ok in H. rewrite H in X4. discriminate X4.
Qed.
Print Assumptions success_counts_killed_refuted.
