(** C77: an execute() that was not stopped and reports no failure has completed what it was asked for, for good. *)
From Verif Require Import GraphProofs SessionSpec SessionLists SessionInv SessionProofs SessionHistory SessionProps SessionDemo SchedProofs SchedProps SchedResult.
From stdpp Require Import prelude gmap.
Open Scope nat_scope.

(** Nobody asked the call to stop: no shutdown was requested, it was neither cancelled nor interrupted. *)
Definition not_stopped (t : list obs) : Prop := ~ In (OSoft SoftTrigger) t /\ ~ In (OExit ExitHard) t /\ ~ In (OExit ExitCtrlC) t.

Lemma drained_exit cfg s t : config_ok cfg -> reachable cfg s t -> st_phase s = PDrained -> exists c, In (OExit c) t.
Proof.
  intros Hok Hr Hp. apply (full_or_done cfg Hok) in Hr as [HF|HD].
  - exfalso. destruct (f_inv _ _ _ HF) as [_ _ HC _]. by destruct (c_phase _ _ _ HC).
  - destruct HD as (s1 & t1 & os0 & now0 & order0 & HF & Hp0 & _ & _ & -> & _). pose proof (s_exit _ _ _ (f_ts _ _ _ HF)) as He.
    assert (existsb is_exit t1 = true) as X by (apply He; by left).
    apply existsb_exists in X as (o & Ho & X). destruct o; try discriminate X. eexists. apply in_app_iff. by left.
Qed.
Lemma no_failure cfg s t : config_ok cfg -> reachable cfg s t -> st_phase s = PDrained -> fst (execute_result cfg s) = 0%N ->
  forall m x e, In (OFinished m x e) t -> x = Code 0.
Proof.
  intros Hok Hr Hp H0 m x e Hin. destruct (execute_result_truthful cfg s t Hok Hr Hp) as (new & Hnew & Her & _). rewrite Her in H0. cbn [fst] in H0.
  destruct (log_records cfg Hok s t Hr) as (new' & inf & fin & Hnew' & _ & HDL & _). unfold new_records in Hnew, Hnew'. rewrite Hnew in Hnew'. apply app_inv_head in Hnew' as <-.
  assert ((task_key cfg m, as_i32 x) ∈ omap fin_rec new) as Hf.
  { rewrite (l_fin _ _ _ _ _ _ _ HDL). apply elem_of_list_omap. exists (OFinished m x e). split; [by apply elem_of_list_In|done]. }
  apply elem_of_list_omap in Hf as (r & Hr1 & Hr2). destruct r as [| | |f|]; try discriminate Hr2. injection Hr2 as _ Hs.
  destruct (Z.eqb_spec (f_status f) 0) as [Hz|Hz].
  - apply is_success_iff. rewrite <- as_i32_success, <- Hs, Hz. done.
  - exfalso. assert (In (Finished f) (List.filter failure_record new)) as Hi.
    { apply filter_In. split; [by apply elem_of_list_In|]. cbn [failure_record]. by apply negb_true_iff, Z.eqb_neq. }
    destruct (List.filter failure_record new); [done|]. cbn [length] in H0. lia.
Qed.
(** A call that was not stopped and counts no failures has run all its tasks with success. *)
Theorem all_have_succeeded cfg s t n : config_ok cfg -> (0 < cf_allowed cfg)%N -> reachable cfg s t -> st_phase s = PDrained ->
  fst (execute_result cfg s) = 0%N -> not_stopped t -> in_graph cfg n -> succeeded t n.
Proof.
  intros Hok Ha Hr Hp H0 (Hn1 & Hn2 & Hn3) Hn. pose proof (no_failure _ _ _ Hok Hr Hp H0) as Hnf.
  assert (forall c, ~ In (OSoft c) t) as Hsoft.
  { intros [] Hin; [|done]. apply in_split in Hin as (t1 & t2 & E). rewrite E in Hr. pose proof (soft_shutdown_not_before_limit _ _ _ _ Hok Hr) as Hl.
    assert (fizzles t1 = 0%N) as Hz; [|lia]. unfold fizzles. destruct (List.filter fizzle t1) as [|o l] eqn:Ef; [done|]. exfalso.
    assert (In o (List.filter fizzle t1)) as Ho by (rewrite Ef; by left). apply filter_In in Ho as [Ho Hfz]. destruct o; try discriminate Hfz. cbn [fizzle] in Hfz.
    rewrite (Hnf n0 s0 elapsed) in Hfz by (rewrite E; apply in_app_iff; by left). destruct elapsed; discriminate Hfz. }
  destruct (drained_exit _ _ _ Hok Hr Hp) as (c & Hc). apply in_split in Hc as (t1 & t2 & E).
  destruct c; [| |exfalso; apply Hn2; rewrite E; apply in_app_iff; right; by left|exfalso; apply Hn3; rewrite E; apply in_app_iff; right; by left].
  - rewrite E in Hr. destruct (normal_end_means_all_done _ _ _ _ n Hok Hr) as [(x & e & Hf)|(m & _ & x & [e Hf] & Hx)]; [|done|..].
    + intros c Hc. apply (Hsoft c). rewrite E. apply in_app_iff. by left.
    + assert (In (OFinished n x e) t) as Hi by (rewrite E; apply in_app_iff; by left). rewrite (Hnf _ _ _ Hi) in Hi. by exists e.
    + exfalso. apply Hx. apply (Hnf m x e). rewrite E. apply in_app_iff. by left.
  - exfalso. rewrite E in Hr. destruct (soft_end_only_after_soft_shutdown _ _ _ _ Hok Hr) as [c Hc]. apply (Hsoft c). rewrite E. apply in_app_iff. by left.
Qed.
Print Assumptions all_have_succeeded.

(** ** Whole sessions *)
Definition no_failures (s : list event_of_history) : Prop := forall tg cfg t nf ks, In (HExecuted tg cfg t (nf, ks)) s -> nf = 0%N.

Lemma allowed_positive h w : possible h w -> forall p, w_proc w = Some p -> (0 < p_allowed p)%N.
Proof.
  intros Hh. revert h w Hh. apply (possible_ind' (fun _ w => forall p, w_proc w = Some p -> (0 < p_allowed p)%N)); [done|].
  intros h w ev w' Hh IH Hs p' Hp'. destruct Hs; cbn [w_proc] in *; try done; injection Hp' as <-; cbn [p_allowed end_execute]; try by apply IH.
  unfold open_session in H. destruct (log_open F) as [|l]; [|done]. destruct (log_write _ _); [|done]. injection H as <-. cbn [p_allowed].
  destruct (N.eqb_spec (oa_allowed a) 0); unfold U32; lia.
Qed.
Lemma unflushed h w : possible h w -> forall p, w_proc w = Some p -> exists rest, plog p = w_file w ++ rest /\ forall k, no_record k rest.
Proof.
  intros Hh. revert h w Hh. apply (possible_ind' (fun _ w => forall p, w_proc w = Some p -> exists rest, plog p = w_file w ++ rest /\ forall k, no_record k rest)); [done|].
  intros h w ev w' Hh IH Hs p' Hp'. pose proof (possible_inv _ _ Hh) as [HF Hi].
  destruct Hs; cbn [w_proc w_file] in *; try done; injection Hp' as <-.
  - destruct (open_works F a HF) as (l & q & Hl & Hop & Hlog & _). simplify_eq. exists [Header (session_header l a)]. split; [unfold plog; by rewrite Hlog|].
    intros k e [<-|[]]. done.
  - destruct (add_inv _ _ _ _ _ _ _ _ _ _ Hi H H0) as (_ & Hl & _). destruct (IH p eq_refl) as (rest & Hr & Hn). exists rest. split; [|done].
    unfold plog in *. cbn [p_graph]. by rewrite Hl.
  - destruct (begin_execute _ _ _ Hi H) as (e' & cfg' & ids & bs & Hb). destruct (begun_unique _ _ _ _ _ _ _ _ Hb H0) as [-> ->].
    destruct (IH p eq_refl) as (rest & Hr & Hn). exists (rest ++ brefs bs). split.
    + unfold plog at 1. cbn [p_graph]. rewrite (bg_log _ _ _ _ _ _ Hb). cbn [lf_entries]. by rewrite Hr, List.app_assoc.
    + intros k. apply no_record_app. split; [done|apply no_record_brefs].
  - exists []. split; [unfold plog; cbn; by rewrite app_nil_r|]. intros k e0 [].
Qed.
Lemma success_more es new k : log_success es k -> no_record k new -> log_success (es ++ new) k.
Proof. intros (c & sr & H) Hn. exists c, sr. by apply status_in_no_record. Qed.
Lemma success_less es new k : good_log es -> log_success (es ++ new) k -> no_record k new -> log_success es k.
Proof.
  intros Hg (c & sr & H) Hn. destruct (proj2 (open_ok_iff es) (conj (g_wf _ Hg) (g_headers _ Hg))) as [l Hl].
  destruct (log_open_good _ _ Hl) as (Hgood & He & _). apply log_good_ok in Hgood. pose proof (log_ok_status _ k Hgood) as Hs. rewrite He in Hs.
  exists c, sr. rewrite (status_in_unique _ _ _ _ H (status_in_no_record _ _ _ _ Hs Hn)). done.
Qed.
Lemma file_success h w p k : possible h w -> w_proc w = Some p -> log_success (plog p) k -> log_success (w_file w) k.
Proof.
  intros Hh Hp Hs. destruct (unflushed _ _ Hh p Hp) as (rest & E & Hn). rewrite E in Hs. apply (success_less _ rest); [|done|apply Hn].
  apply (possible_inv _ _ Hh).
Qed.
Lemma success_dec l k : log_ok l -> log_success (lf_entries l) k \/ ~ log_success (lf_entries l) k.
Proof.
  intros H. destruct (has_success (lf_state l) k) eqn:E; [left; by apply has_success_iff|right]. intros Hs. apply (has_success_iff l k H) in Hs. congruence.
Qed.
(** A task that finished with status 0 is in the log as a success. *)
Lemma succeeded_success F p x e cfg ids bs s t i : pinv F p -> begun p x e cfg ids bs -> reachable cfg s t ->
  succeeded t i -> log_success (lf_entries (sv_log (st_sv s))) (task_key cfg i).
Proof.
  intros Hp Hb Hr Hsu. destruct (run_inv _ _ _ _ _ _ _ _ _ Hp Hb Hr) as (Hg & Hok & _). pose proof (begun_config _ _ _ _ _ _ _ Hp Hb) as Hcok.
  destruct (log_records cfg Hcok s t Hr) as (new & inf & fin & Hnew & _ & HDL & _).
  destruct (l_good _ _ _ _ _ _ _ HDL i) as (f & Hf & Hk & H0); [by apply elem_of_good|].
  unfold new_records in Hnew. apply in_split in Hf as (n1 & n2 & ->). rewrite List.app_assoc in Hnew.
  pose proof (log_ok_status _ (f_key f) Hok) as Hst.
  destruct (success_status _ _ f n2 _ Hst Hnew) as (rc & sr & Ho); [|done|].
  - intros e0 He0. apply in_split in He0 as (a & b & ->). by apply (g_success _ Hg (lf_entries (cf_log cfg) ++ n1) (Finished f) a e0 b).
  - rewrite <- Hk. exists rc, sr. by rewrite <- Ho.
Qed.
Lemma kept_success F p x e cfg ids bs s t k : pinv F p -> begun p x e cfg ids bs -> reachable cfg s t -> log_success (plog p) k ->
  log_success (lf_entries (sv_log (st_sv s))) k.
Proof.
  intros Hp Hb Hr Hs. destruct (run_inv _ _ _ _ _ _ _ _ _ Hp Hb Hr) as (_ & _ & new & -> & _ & _ & Hk). apply success_more; [done|].
  apply no_record_app. split; [apply no_record_brefs|]. apply no_record_history. destruct (history k new) eqn:E; [done|]. exfalso.
  destruct (Hk k) as (n & c & Hc & <-); [by rewrite E|]. destruct (begun_key _ _ _ _ _ _ _ _ Hb Hc) as (_ & X & _). exact (X Hs).
Qed.
Lemma session_before h ev s : this_session (h ++ [ev]) s -> (forall a, ev <> HOpened a) -> exists s0, s = s0 ++ [ev] /\ this_session h s0.
Proof. intros Hs Hn. assert (~ is_open ev) as Ho by (intros [a E]; exact (Hn a E)). exact (this_session_snoc_inv _ _ _ Ho Hs). Qed.
(** In a session that reruns failures and has seen none, what counts as done is a success. *)
Lemma done_success h w : possible h w -> forall p s, w_proc w = Some p -> p_rerun p = true -> this_session h s -> no_failures s ->
  forall k, in_done p k -> log_success (plog p) k.
Proof.
  intros Hh. revert h w Hh. apply (possible_ind' (fun h w => forall p s, w_proc w = Some p -> p_rerun p = true -> this_session h s -> no_failures s ->
    forall k, in_done p k -> log_success (plog p) k)); [done|].
  intros h w ev w' Hh IH Hs p' s' Hp' Hrr Hts Hnf k Hk. pose proof (possible_inv _ _ Hh) as [HF Hi].
  destruct Hs; cbn [w_proc w_file] in *; try done; injection Hp' as <-.
  - destruct (open_works F a HF) as (l & q & Hl & Hop & Hlog & Hg & _). simplify_eq. unfold in_done in Hk. rewrite Hg in Hk. cbn in Hk. set_solver.
  - apply session_before in Hts as (s0 & -> & Hts); [|by intros a [=]].
    destruct (add_inv _ _ _ _ _ _ _ _ _ _ Hi H H0) as (_ & Hl & Hcp). unfold plog, in_done in *. cbn [p_graph] in *. rewrite Hl.
    apply (IH p s0); try done; [|congruence]. intros ????? Hin. eapply Hnf, in_app_iff. by left.
  - apply session_before in Hts as (s0 & -> & Hts); [|by intros a [=]].
    destruct (begin_execute _ _ _ Hi H) as (e' & cfg' & ids & bs & Hb). destruct (begun_unique _ _ _ _ _ _ _ _ Hb H0) as [-> ->].
    unfold plog. cbn [p_graph p_rerun] in *. rewrite (bg_log _ _ _ _ _ _ Hb). cbn [lf_entries]. apply success_more; [|apply no_record_brefs].
    unfold in_done in Hk. cbn [p_graph] in Hk. rewrite (bg_completed _ _ _ _ _ _ Hb) in Hk. apply elem_of_union in Hk as [Hk|Hk].
    + apply (IH p s0); try done. intros ????? Hin. eapply Hnf, in_app_iff. by left.
    + apply elem_of_list_to_set, elem_of_list_In, (bg_bs _ _ _ _ _ _ Hb) in Hk as (n & _ & _ & _ & [Hk|[Hk _]]); [done|congruence].
  - apply session_before in Hts as (s0 & -> & Hts); [|by intros a [=]].
    destruct (begin_execute _ _ _ Hi H) as (e' & cfg' & ids & bs & Hb). destruct (begun_unique _ _ _ _ _ _ _ _ Hb H0) as [-> ->].
    assert (reachable cfg' s t) as Hr by (by exists acts). pose proof (begun_config _ _ _ _ _ _ _ Hi Hb) as Hcok.
    unfold plog, in_done in *. cbn [p_graph p_rerun end_execute completed logfile] in *.
    apply elem_of_union in Hk as [Hk|Hk]; [rewrite (bg_completed _ _ _ _ _ _ Hb) in Hk; apply elem_of_union in Hk as [Hk|Hk]|].
    + eapply kept_success; [done|done|done|]. apply (IH p s0); try done. intros ????? Hin. eapply Hnf, in_app_iff. by left.
    + apply elem_of_list_to_set, elem_of_list_In, (bg_bs _ _ _ _ _ _ Hb) in Hk as (n & _ & _ & _ & [Hk|[Hk _]]); [|congruence]. by eapply kept_success.
    + assert (fst (execute_result cfg' s) = 0%N) as H00.
      { destruct (execute_result cfg' s) as [nf ks] eqn:Er. eapply Hnf. apply in_app_iff. right. left. done. }
      destruct (execute_result_truthful cfg' s t Hcok Hr H3) as (new & _ & Her & _). rewrite Her in Hk. cbn [snd] in Hk.
      apply elem_of_list_to_set, elem_of_list_fmap in Hk as (i & -> & Hin). apply elem_of_finish_order in Hin as (x0 & el & Hin).
      pose proof (no_failure _ _ _ Hcok Hr H3 H00 i x0 el Hin) as ->.
      eapply succeeded_success; [done|done|done|]. by exists el.
Qed.

(** One call: the tasks that it considers are in the log as successes afterwards. *)
Lemma completed_call h F p tg cfg t ks w n k : possible h (World F (Some p)) -> wstep (World F (Some p)) (HExecuted tg cfg t (0%N, ks)) w ->
  (p_rerun p = true \/ forall m k', considered (deps (p_graph p)) tg m -> task_has_key (deps (p_graph p)) m k' -> ~ log_failure (plog p) k') ->
  (forall k', in_done p k' -> log_success (plog p) k') -> not_stopped t ->
  considered (deps (p_graph p)) tg n -> task_has_key (deps (p_graph p)) n k -> log_success (w_file w) k.
Proof.
  intros Hh Hs Hrr Hdone Hns Hcon Hkey. pose proof (possible_inv _ _ Hh) as [HF Hi]. cbn [w_proc w_file] in *.
  pose proof (allowed_positive _ _ Hh p eq_refl) as Hal.
  assert (log_success (plog p) k \/ ~ log_success (plog p) k) as Hd by (apply success_dec, (pi_log _ _ Hi)).
  assert (forall x e ids bs, begun p x e cfg ids bs -> x_target x = tg -> ~ log_success (plog p) k ->
    exists i, in_graph cfg i /\ task_key cfg i = k) as Hsel.
  { intros x e ids bs Hb Ht Hnk. assert (In n ids) as Hin.
    { apply (bg_ids _ _ _ _ _ _ Hb). rewrite Ht. split.
      - split; [done|]. intros k' (c' & Hc' & <-). destruct Hkey as (c & Hc & <-). rewrite Hc in Hc'. injection Hc' as <-. split; [|done].
        intros Hdn. by apply Hnk, Hdone.
      - intros Hfalse m k' Hpath Hmk. destruct Hrr as [Hrr|Hrr]; [congruence|]. apply (Hrr m k'); [|done].
        destruct Hpath as [u [Hu _]|u v z [Hu _] _ _]; exact Hu. }
    apply elem_of_list_In, elem_of_list_lookup in Hin as [i Hidx]. exists i. destruct (bg_part _ _ _ _ _ _ Hb) as (_ & Hl & Hn & _).
    destruct (Hn i n Hidx) as [Hcn Hlt]. destruct Hkey as (c & Hc & <-). destruct (bg_same _ _ _ _ _ _ Hb) as [_ HF2].
    destruct (Forall2_lookup_l _ _ _ _ _ HF2 Hc) as (c1 & Hc1 & (_ & Hk1 & _)). rewrite Hc1 in Hcn. split.
    - unfold in_graph. by eapply lookup_lt_Some.
    - unfold task_key. by rewrite Hcn. }
  inversion Hs as [| | |F0 p0 x e cfg0 Hargs Hst Hcount|F0 p0 x e cfg0 acts s t0 Hargs Hst Hcount Hrun Hph| | |]; subst; cbn [w_file].
  - destruct (begin_execute _ _ _ Hi Hargs) as (e' & cfg' & ids & bs & Hb). destruct (begun_unique _ _ _ _ _ _ _ _ Hb Hst) as [-> ->].
    destruct Hd as [Hd|Hd]; [by apply (file_success h _ p k Hh)|]. exfalso. destruct (Hsel _ _ _ _ Hb eq_refl Hd) as (i & Hin & _). unfold in_graph, node_count in *. lia.
  - destruct (begin_execute _ _ _ Hi Hargs) as (e' & cfg' & ids & bs & Hb). destruct (begun_unique _ _ _ _ _ _ _ _ Hb Hst) as [-> ->].
    assert (reachable cfg' s t) as Hr by (by exists acts). destruct Hd as [Hd|Hd]; [by eapply kept_success|].
    destruct (Hsel _ _ _ _ Hb eq_refl Hd) as (i & Hin & <-). eapply succeeded_success; [done|done|done|].
    apply (all_have_succeeded cfg' s t i); try done; first [by eapply begun_config|by rewrite (bg_allowed _ _ _ _ _ _ Hb)].
Qed.

(** C77. In a session that reruns failed tasks and has seen no failure: a call that was not stopped and reports no failure has
    completed all that it was asked for. Each of these tasks is in the log file as a success. *)
Theorem workflow_completed h w p s tg cfg t ks w' n k : possible h w -> w_proc w = Some p -> p_rerun p = true -> this_session h s -> no_failures s ->
  wstep w (HExecuted tg cfg t (0%N, ks)) w' -> not_stopped t ->
  considered (deps (p_graph p)) tg n -> task_has_key (deps (p_graph p)) n k -> log_success (w_file w') k.
Proof.
  intros Hh Hp Hrr Hts Hnf Hs Hns. destruct w as [F q]. cbn [w_proc] in Hp. subst q. eapply completed_call; [done|done|by left| |done].
  by eapply done_success.
Qed.
Print Assumptions workflow_completed.

(** C77. The same of the first call of a session that does not rerun failed tasks, if the log has no failures of the tasks considered. *)
Theorem workflow_completed_first h w p s tg cfg t ks w' n k : possible h w -> w_proc w = Some p -> this_session h s -> executes_in s = 0 ->
  (forall m k', considered (deps (p_graph p)) tg m -> task_has_key (deps (p_graph p)) m k' -> ~ log_failure (current_log w) k') ->
  wstep w (HExecuted tg cfg t (0%N, ks)) w' -> not_stopped t ->
  considered (deps (p_graph p)) tg n -> task_has_key (deps (p_graph p)) n k -> log_success (w_file w') k.
Proof.
  intros Hh Hp Hts He Hnf Hs Hns. pose proof (done_fresh _ _ _ _ Hh Hp Hts He) as Hdf. pose proof (done_exact _ _ _ Hh Hp) as Hd.
  destruct w as [F q]. cbn [w_proc] in Hp. subst q. eapply completed_call; [done|done|by right| |done].
  intros k1 Hk1. exfalso. apply Hd in Hk1. by apply (Hdf k1).
Qed.
Print Assumptions workflow_completed_first.

(** C77. What is in the log file as a success stays there and is never run again, whatever happens to the log later. *)
Theorem completed_runs_nothing h w k h' w' : possible h w -> log_success (w_file w) k -> whistory w h' w' ->
  log_success (w_file w') k /\
  forall ev tg cfg t i, In ev h' -> execution ev = Some (tg, cfg, t) -> in_graph cfg i -> task_key cfg i <> k.
Proof.
  intros Hh Hls Hw. pose proof Hls as (c & sr & Hst). destruct Hst as (pre & r & mid & st & mid' & f & post & E & _ & _ & _ & _ & _ & _ & <- & [H0 _] & _).
  specialize (H0 eq_refl).
  assert (w_file w = (pre ++ Ready r :: mid ++ Started st :: mid') ++ Finished f :: post) as E'.
  { rewrite E, <- List.app_assoc. cbn [app]. by rewrite <- List.app_assoc. }
  destruct (success_is_final _ _ _ _ _ _ _ Hh E' H0 Hw) as [(new & En & Hn) H]. split; [|exact H]. rewrite En. by apply success_more.
Qed.
Print Assumptions completed_runs_nothing.

(** ** A case that meets the hypotheses: two tasks are run, a third is added that depends on them, and is asked for. *)
Definition session_quiet (h : list event_of_history) : bool :=
  match h with
  | HOpened _ :: s => forallb (fun ev => match ev with HOpened _ => false | HExecuted _ _ _ (nf, _) => N.eqb nf 0 | _ => true end) s
  | _ => false
  end.
Lemma session_quiet_ok h : session_quiet h = true -> exists s, this_session h s /\ no_failures s.
Proof.
  destruct h as [|[a| | | | | |] s]; try discriminate. cbn [session_quiet]. intros H. exists s. rewrite forallb_forall in H. split.
  - exists [], a. split; [reflexivity|]. intros a' Hin. specialize (H _ Hin). discriminate H.
  - intros tg cfg t nf ks Hin. specialize (H _ Hin). by apply N.eqb_eq in H.
Qed.
Definition quiet_trace (t : list obs) : bool := forallb (fun o => match o with OSoft SoftTrigger | OExit ExitHard | OExit ExitCtrlC => false | _ => true end) t.
Lemma quiet_trace_ok t : quiet_trace t = true -> not_stopped t.
Proof. intros H. unfold quiet_trace in H. rewrite forallb_forall in H. split_and!; intros Hin; specialize (H _ Hin); discriminate H. Qed.

Definition cp_before : list call :=
  [open_with "wk" ["/r"] true; add "a" []; add "b" [0]; CExecute None [0] (run_tasks [0] [Code 0; Code 0] stop); add "c" [1]].
Definition cp_call : call := CExecute (Some 2) [0] (run_tasks [0] [Code 0] stop).
Definition cp_event : event_of_history := (did (ran cp_before).2 cp_call).1.
Definition result_of (ev : event_of_history) : option (N * list string) := match ev with HExecuted _ _ _ r => Some r | _ => None end.
Example cp_runs : (if do_calls (World [] None) cp_before then true else false, if do_call (ran cp_before).2 cp_call then true else false,
    session_quiet (ran cp_before).1, result_of cp_event, quiet_trace (config_of cp_event).2) = (true, true, true, Some (0%N, ["c"]), true).
Proof. vm_compute. reflexivity. Qed.
Lemma cp_event_is : exists cfg t, cp_event = HExecuted (Some 2) cfg t (0%N, ["c"]) /\ quiet_trace t = true.
Proof.
  assert ((match cp_event with HExecuted (Some 2) _ t (0%N, [k]) => String.eqb k "c" && quiet_trace t | _ => false end) = true) as X by (vm_compute; reflexivity).
  destruct cp_event as [| | |[[|[|[|]]]|] cfg t [[|] [|k [|]]]| | |]; try discriminate X.
  apply andb_true_iff in X as [X Y]. apply String.eqb_eq in X. subst k. exists cfg, t. split; [reflexivity|exact Y].
Qed.
Lemma executed_inj tg cfg t r tg' cfg' t' r' : HExecuted tg cfg t r = HExecuted tg' cfg' t' r' -> tg = tg' /\ cfg = cfg' /\ t = t' /\ r = r'.
Proof. intros [= -> -> -> ->]. done. Qed.
Example cp_completed : forall k, In k ["a"; "b"; "c"] -> log_success (w_file (did (ran cp_before).2 cp_call).2) k.
Proof.
  intros k Hk. assert (possible (ran cp_before).1 (ran cp_before).2) as Hh by (apply ran_possible; vm_compute; reflexivity).
  assert (wstep (ran cp_before).2 cp_event (did (ran cp_before).2 cp_call).2) as Hs by (apply did_step; vm_compute; reflexivity).
  assert (w_proc (ran cp_before).2 = Some (proc_of (ran cp_before).2)) as Hp by (apply proc_of_some; vm_compute; reflexivity).
  assert (p_rerun (proc_of (ran cp_before).2) = true) as Hrr by (vm_compute; reflexivity).
  destruct (session_quiet_ok (ran cp_before).1) as (s & Hts & Hnf); [vm_compute; reflexivity|].
  destruct cp_event_is as (cfg & t & Hev & Hq). rewrite Hev in Hs. apply quiet_trace_ok in Hq.
  assert (exists n, considered (deps (p_graph (proc_of (ran cp_before).2))) (Some 2) n /\ task_has_key (deps (p_graph (proc_of (ran cp_before).2))) n k) as (n & Hc & Hn).
  { assert (forall i, map c_key (nodes (deps (p_graph (proc_of (ran cp_before).2)))) !! i = ["a"; "b"; "c"] !! i) as Hkeys by (intros i; f_equal; vm_compute; reflexivity).
    assert (length (nodes (deps (p_graph (proc_of (ran cp_before).2)))) = 3) as Hl by (vm_compute; reflexivity).
    assert (edge (deps (p_graph (proc_of (ran cp_before).2))) 0 1) as E1 by (vm_compute; tauto).
    assert (edge (deps (p_graph (proc_of (ran cp_before).2))) 1 2) as E2 by (vm_compute; tauto).
    revert Hkeys Hl E1 E2. clear - Hk. generalize (deps (p_graph (proc_of (ran cp_before).2))). intros g Hkeys Hl E1 E2.
    assert (forall i, ["a"; "b"; "c"] !! i = Some k -> task_has_key g i k) as Hn.
    { intros i Hi. rewrite <- Hkeys in Hi. apply list_lookup_fmap_inv in Hi as (c & -> & Hc). by exists c. }
    destruct Hk as [<-|[<-|[<-|[]]]].
    - exists 0. split; [|by apply Hn]. split; [lia|]. right. eapply reaches_trans; apply reaches_edge; eassumption.
    - exists 1. split; [|by apply Hn]. split; [lia|]. right. by apply reaches_edge.
    - exists 2. split; [|by apply Hn]. split; [lia|]. by left. }
  eapply workflow_completed; eassumption.
Qed.

(** ** Refutations *)
Definition key_success (es : list log_entry) (k : string) : bool := existsb (fun e => match e with Finished f => String.eqb (f_key f) k && Z.eqb (f_status f) 0 | _ => false end) es.
Lemma key_success_ok es k : log_success es k -> key_success es k = true.
Proof.
  intros (c & sr & pre & r & mid & st & mid' & f & post & -> & _ & _ & _ & _ & _ & _ & Hk & [H0 _] & _). specialize (H0 eq_refl).
  apply existsb_exists. exists (Finished f). split.
  - apply in_app_iff. right. right. apply in_app_iff. right. right. apply in_app_iff. right. by left.
  - by rewrite Hk, String.eqb_refl, H0.
Qed.
(** A call [c] after [cs] that reports no failures, and task 0 with key "a" that is no success afterwards. *)
Definition incomplete (cs : list call) (c : call) : bool :=
  (if do_calls (World [] None) cs then true else false) && (if do_call (ran cs).2 c then true else false) &&
  (if w_proc (ran cs).2 then true else false) && p_rerun (proc_of (ran cs).2) && session_quiet (ran cs).1 &&
  (match (did (ran cs).2 c).1 with HExecuted None _ _ (0%N, _) => true | _ => false end) &&
  (match map c_key (nodes (deps (p_graph (proc_of (ran cs).2)))) with k :: _ => String.eqb k "a" | _ => false end) &&
  negb (key_success (w_file (did (ran cs).2 c).2) "a").
Definition st_before : list call := [open_with "wk" ["/r"] true; add "a" []].
Definition st_call : call := CExecute None [0] ([Do (AInit [0]); Flush; Do ATriggerSoft; Do ASoft; Flush; Do AHardCancel; Do AHardExit; Flush] ++ stop).

(** That no failures are reported does not mean that the tasks were run, if the call was told to stop. *)
Theorem workflow_completed_when_stopped_refuted :
  ~ (forall h w p s tg cfg t ks w' n k, possible h w -> w_proc w = Some p -> p_rerun p = true -> this_session h s -> no_failures s ->
       wstep w (HExecuted tg cfg t (0%N, ks)) w' ->
       considered (deps (p_graph p)) tg n -> task_has_key (deps (p_graph p)) n k -> log_success (w_file w') k).
Proof.
  intros H. assert (incomplete st_before st_call = true) as X by (vm_compute; reflexivity). unfold incomplete in X. rewrite !andb_true_iff in X.
  destruct X as [[[[[[[X1 X2] X3] X4] X5] X6] X7] X8].
  apply ran_possible in X1. apply did_step in X2. apply proc_of_some in X3. destruct (session_quiet_ok _ X5) as (s & Hts & Hnf).
  revert X1 X2 X3 X4 X6 X7 X8 Hts. generalize (ran st_before).1, (ran st_before).2. intros h w. generalize (proc_of w) as p. 
  destruct (did w st_call) as [ev w']. cbn [fst snd]. intros p X1 X2 X3 X4 X6 X7 X8 Hts.
  destruct ev as [| | |[|] cfg t [[|] ks]| | |]; try discriminate X6.
  destruct (nodes (deps (p_graph p))) as [|c l] eqn:En; [discriminate X7|]. cbn [map] in X7. apply String.eqb_eq in X7.
  assert (log_success (w_file w') "a") as Hs.
  { apply (H h w p s None cfg t ks w' 0 "a"); try assumption.
    - split; [rewrite En; cbn [length]; lia|exact I].
    - exists c. split; [by rewrite En|done]. }
  apply key_success_ok in Hs. rewrite Hs in X8. discriminate X8.
Qed.
Print Assumptions workflow_completed_when_stopped_refuted.

Definition idle_session (n : nat) (h : list event_of_history) : bool :=
  match drop n h with HOpened _ :: s => forallb (fun ev => match ev with HAdded _ _ => true | _ => false end) s | _ => false end.
Lemma idle_session_ok n h : idle_session n h = true -> exists s, this_session h s /\ executes_in s = 0.
Proof.
  unfold idle_session. destruct (drop n h) as [|[a| | | | | |] s] eqn:E; try discriminate. intros H. exists s. split.
  - exists (take n h), a. split; [by rewrite <- E, take_drop|]. rewrite forallb_forall in H. intros a' Hin. specialize (H _ Hin). discriminate H.
  - clear E. induction s as [|ev s IH]; [done|]. cbn [forallb] in H. apply andb_true_iff in H as [H1 H2]. destruct ev; try discriminate H1. exact (IH H2).
Qed.
Definition unrepeated (cs : list call) (n : nat) (c : call) : bool :=
  (if do_calls (World [] None) cs then true else false) && (if do_call (ran cs).2 c then true else false) &&
  (if w_proc (ran cs).2 then true else false) && idle_session n (ran cs).1 &&
  (match (did (ran cs).2 c).1 with HExecuted None _ t (0%N, _) => quiet_trace t | _ => false end) &&
  (match map c_key (nodes (deps (p_graph (proc_of (ran cs).2)))) with k :: _ => String.eqb k "a" | _ => false end) &&
  negb (key_success (w_file (did (ran cs).2 c).2) "a").
Definition fl_before : list call :=
  [open_with "wk" ["/r"] false; add "a" []; CExecute None [0] (run_tasks [0] [Code 1] stop); CClose; open_with "wk" ["/r"] false; add "a" []].
Definition fl_call : call := CExecute None [0] [].

(** Nor does it without rerun_failures, if the log knows a failure of theirs: such tasks are left out and not counted. *)
Theorem workflow_completed_without_rerun_refuted :
  ~ (forall h w p s tg cfg t ks w' n k, possible h w -> w_proc w = Some p -> this_session h s -> executes_in s = 0 ->
       wstep w (HExecuted tg cfg t (0%N, ks)) w' -> not_stopped t ->
       considered (deps (p_graph p)) tg n -> task_has_key (deps (p_graph p)) n k -> log_success (w_file w') k).
Proof.
  intros H. assert (unrepeated fl_before 4 fl_call = true) as X by (vm_compute; reflexivity). unfold unrepeated in X. rewrite !andb_true_iff in X.
  destruct X as [[[[[[X1 X2] X3] X5] X6] X7] X8].
  apply ran_possible in X1. apply did_step in X2. apply proc_of_some in X3. destruct (idle_session_ok _ _ X5) as (s & Hts & He).
  revert X1 X2 X3 X6 X7 X8 Hts. generalize (ran fl_before).1, (ran fl_before).2. intros h w. generalize (proc_of w) as p.
  destruct (did w fl_call) as [ev w']. cbn [fst snd]. intros p X1 X2 X3 X6 X7 X8 Hts.
  destruct ev as [| | |[|] cfg t [[|] ks]| | |]; try discriminate X6. apply quiet_trace_ok in X6.
  destruct (nodes (deps (p_graph p))) as [|c l] eqn:En; [discriminate X7|]. cbn [map] in X7. apply String.eqb_eq in X7.
  assert (log_success (w_file w') "a") as Hs.
  { apply (H h w p s None cfg t ks w' 0 "a"); try assumption.
    - split; [rewrite En; cbn [length]; lia|exact I].
    - exists c. split; [by rewrite En|done]. }
  apply key_success_ok in Hs. rewrite Hs in X8. discriminate X8.
Qed.
Print Assumptions workflow_completed_without_rerun_refuted.

(** A case for [workflow_completed_first]: two tasks in a fresh log, failures are not rerun. *)
Definition fi_before : list call := [open_with "wk" ["/r"] false; add "a" []; add "b" [0]].
Definition fi_call : call := CExecute None [0] (run_tasks [0] [Code 0; Code 0] stop).
Lemma fi_event_is : exists cfg t, (did (ran fi_before).2 fi_call).1 = HExecuted None cfg t (0%N, ["a"; "b"]) /\ quiet_trace t = true.
Proof.
  assert ((match (did (ran fi_before).2 fi_call).1 with HExecuted None _ t (0%N, [k; k']) => String.eqb k "a" && String.eqb k' "b" && quiet_trace t | _ => false end) = true) as X by (vm_compute; reflexivity).
  destruct (did (ran fi_before).2 fi_call).1 as [| | |[|] cfg t [[|] [|k [|k' [|]]]]| | |]; try discriminate X.
  apply andb_true_iff in X as [X Y]. apply andb_true_iff in X as [X X']. apply String.eqb_eq in X. apply String.eqb_eq in X'. subst k k'. exists cfg, t. split; [reflexivity|exact Y].
Qed.
Lemma no_finished_no_failure es k : forallb (fun e => match e with Finished _ => false | _ => true end) es = true -> ~ log_failure es k.
Proof.
  rewrite forallb_forall. intros H (c & sr & pre & r & mid & st & mid' & f & post & -> & _). specialize (H (Finished f)). discriminate H.
  apply in_app_iff. right. right. apply in_app_iff. right. right. apply in_app_iff. right. by left.
Qed.
Example fi_completed : forall k, In k ["a"; "b"] -> log_success (w_file (did (ran fi_before).2 fi_call).2) k.
Proof.
  intros k Hk. assert (possible (ran fi_before).1 (ran fi_before).2) as Hh by (apply ran_possible; vm_compute; reflexivity).
  assert (wstep (ran fi_before).2 (did (ran fi_before).2 fi_call).1 (did (ran fi_before).2 fi_call).2) as Hs by (apply did_step; vm_compute; reflexivity).
  assert (w_proc (ran fi_before).2 = Some (proc_of (ran fi_before).2)) as Hp by (apply proc_of_some; vm_compute; reflexivity).
  destruct (idle_session_ok 0 (ran fi_before).1) as (s & Hts & He); [vm_compute; reflexivity|].
  destruct fi_event_is as (cfg & t & Hev & Hq). rewrite Hev in Hs. apply quiet_trace_ok in Hq.
  assert (forall k', ~ log_failure (current_log (ran fi_before).2) k') as Hnf by (intros k'; apply no_finished_no_failure; vm_compute; reflexivity).
  assert (exists n, considered (deps (p_graph (proc_of (ran fi_before).2))) None n /\ task_has_key (deps (p_graph (proc_of (ran fi_before).2))) n k) as (n & Hc & Hn).
  { assert (forall i, map c_key (nodes (deps (p_graph (proc_of (ran fi_before).2)))) !! i = ["a"; "b"] !! i) as Hkeys by (intros i; f_equal; vm_compute; reflexivity).
    assert (length (nodes (deps (p_graph (proc_of (ran fi_before).2)))) = 2) as Hl by (vm_compute; reflexivity).
    revert Hkeys Hl. clear - Hk. generalize (deps (p_graph (proc_of (ran fi_before).2))). intros g Hkeys Hl.
    assert (forall i, ["a"; "b"] !! i = Some k -> task_has_key g i k) as Hn.
    { intros i Hi. rewrite <- Hkeys in Hi. apply list_lookup_fmap_inv in Hi as (c & -> & Hc). by exists c. }
    destruct Hk as [<-|[<-|[]]]; [exists 0|exists 1]; (split; [split; [lia|exact I]|by apply Hn]). }
  apply (workflow_completed_first _ _ _ s None cfg t ["a"; "b"] _ n k Hh Hp Hts He); [intros m k' _ _; apply Hnf|assumption..].
Qed.
