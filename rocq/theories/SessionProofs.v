(** The invariant of whole histories, and the properties that follow. *)
From Verif Require Export SessionInv.

Definition status (p : process) (k : string) : option runcount_status :=
  runcount (lf_state (logfile (p_graph p))) k.
Definition plog (p : process) : list log_entry := lf_entries (logfile (p_graph p)).

Record pinv (F : list log_entry) (p : process) : Prop := PInv {
  pi_prefix : exists rest, plog p = F ++ rest;
  pi_log : log_ok (logfile (p_graph p));
  pi_good : good_log (plog p);
  pi_graph : graph_ok (p_graph p);
  pi_fits : fits (p_graph p);
  pi_seg : exists older hd seg, last_session (plog p) older hd seg /\
    (forall k, In k (backref_keys seg) -> k ∈ completed (p_graph p)) /\
    (forall k, (forall r, In (Ready r) seg -> r_key r <> k) -> no_record k seg) /\
    (forall c, In c (nodes (deps (p_graph p))) -> no_record (c_key c) seg ->
       c_runcount c = next_runcount (status p (c_key c)))
}.

Definition winv (w : world) : Prop :=
  good_log (w_file w) /\ match w_proc w with Some p => pinv (w_file w) p | None => True end.

(** ** Opening *)
Lemma open_works F a : good_log F ->
  exists l p, log_open F = OpenOk l /\ open_session F a = Some p /\
    logfile (p_graph p) = LogFile (LogState (runcounts (lf_state l)) (Some (session_header l a)))
       (F ++ [Header (session_header l a)]) /\
    p_graph p = exec_new (logfile (p_graph p)) /\ p_rerun p = oa_rerun a.
Proof.
  intros HF. destruct (proj2 (open_ok_iff F) (conj (g_wf _ HF) (g_headers _ HF))) as [l Hl].
  pose proof (log_open_good _ _ Hl) as (_ & He & _).
  unfold open_session. rewrite Hl. unfold log_write. cbn [write_state]. eexists l, _. split; [done|]. split; [done|].
  cbn [p_graph exec_new logfile p_rerun]. rewrite He. done.
Qed.

Lemma session_key_agrees F l a h : good_log F -> log_open F = OpenOk l -> In (Header h) F ->
  h_workflow_key h = session_key l a.
Proof. intros HF Hl Hin. unfold session_key. by rewrite (workflow_key_of_any_header F l h Hl Hin). Qed.

Lemma open_inv F a p : good_log F -> open_session F a = Some p -> pinv F p.
Proof.
  intros HF Ho. destruct (open_works F a HF) as (l & p' & Hl & Ho' & Hlog & Hg & _). simplify_eq.
  pose proof (log_open_good _ _ Hl) as (Hgood & He & _).
  assert (log_ok (logfile (p_graph p))) as Hok.
  { apply log_good_ok. eapply (log_write_good l (Header (session_header l a))); [done|]. rewrite Hlog. rewrite <- He. done. }
  split; unfold plog.
  - rewrite Hlog. simpl. eauto.
  - done.
  - rewrite Hlog. simpl. apply good_header; [done|done|]. intros h' Hin. by apply (session_key_agrees F l a h').
  - rewrite Hg. apply new_ok.
  - rewrite Hg. done.
  - exists F, (session_header l a), []. split_and!.
    + rewrite Hlog. split; [done|]. by intros [h []].
    + done.
    + intros k _ e [].
    + intros c Hc. by rewrite Hg in Hc.
Qed.

(** ** Adding a task *)
Lemma next_runcount_of s k rc o : logfile_runcount s k = Some (rc, o) -> rc = next_runcount (runcount s k).
Proof.
  unfold logfile_runcount. destruct (runcount s k) as [[c sr|c sr|c sr [|]]|]; simpl; try (intros [= <- _]; done).
  destruct (storage_root s sr); [|done]. intros [= <- _]. done.
Qed.

Lemma add_inv F p cmdline key ds disp a sr e r :
  pinv F p -> py_add_task (p_graph p) cmdline key ds disp a sr = (e, r) -> fits e ->
  pinv F (Process e (p_allowed p) (p_rerun p)) /\ logfile e = logfile (p_graph p) /\ completed e = completed (p_graph p).
Proof.
  intros Hp Ha Hfits. pose proof (py_add_task_ok _ _ _ _ _ _ _ _ _ (pi_graph _ _ Hp) Ha) as Hok.
  pose proof (py_add_task_spec (p_graph p) cmdline key ds disp a sr (pi_graph _ _ Hp)) as Hs.
  assert (logfile e = logfile (p_graph p) /\ completed e = completed (p_graph p) /\
    (nodes (deps e) = nodes (deps (p_graph p)) \/
     exists c, nodes (deps e) = nodes (deps (p_graph p)) ++ [c] /\ c_runcount c = next_runcount (status p (c_key c))))
    as (Hl & Hc & Hn).
  { destruct (logfile_runcount (lf_state (logfile (p_graph p))) key) as [[rc ro]|] eqn:Hrc.
    - cbv zeta in Hs. destruct Hs as [(n & _ & Hs)|[_ Hs]]; [rewrite Hs in Ha; injection Ha as <- _; auto|].
      destruct Hs as [[_ Hs]|[(_ & _ & Hs)|(_ & _ & e' & Hs & Hn & _ & Hl & Hc)]]; rewrite Hs in Ha; injection Ha as <- _; auto.
      split; [done|]. split; [done|]. right. eexists. split; [exact Hn|]. simpl. by eapply next_runcount_of.
    - rewrite Hs in Ha. injection Ha as <- _. auto. }
  split; [|done]. destruct Hp as [H1 H2 H3 H4 H5 H6]. unfold plog, status in *.
  split; unfold plog; cbn [p_graph]; try (by rewrite Hl); try done.
  destruct H6 as (older & hd & seg & Hseg & Hb & Hr & Hcnt). exists older, hd, seg. rewrite Hc. unfold status. cbn [p_graph]. rewrite Hl.
  split_and!; try done. intros c Hin Hnr. destruct Hn as [Hn|(c' & Hn & Hrc)]; rewrite Hn in Hin; [by apply Hcnt|].
  apply in_app_iff in Hin as [Hin|[<-|[]]]; [by apply Hcnt|done].
Qed.

(** ** Starting an execution *)
Definition in_done (p : process) (k : string) : Prop := k ∈ completed (p_graph p).

Record begun (p : process) (x : execute_args) (e : exec_graph) (cfg : config) (ids : list nat) (bs : list string) : Prop := {
  bg_start : start_execute p x = Some (e, cfg);
  bg_same : same_graph (deps (p_graph p)) (deps e);
  bg_prio : forall n c, nodes (deps e) !! n = Some c ->
       exists l, c_priority c = N.of_nat l /\ longest_path_to (deps (p_graph p)) n l;
  bg_part : part_of (deps e) ids (cf_g cfg);
  bg_ids : forall n, In n ids <-> selected (deps (p_graph p)) (x_target x) (in_done p) (plog p) (p_rerun p) n;
  bg_nodup : NoDup bs;
  bg_bs : forall k, In k bs <-> reused (deps (p_graph p)) (x_target x) (in_done p) (plog p) (p_rerun p) k;
  bg_table : key_to_nodeid e = key_to_nodeid (p_graph p);
  bg_log : logfile e = LogFile (lf_state (logfile (p_graph p))) (plog p ++ brefs bs);
  bg_completed : completed e = completed (p_graph p) ∪ list_to_set bs;
  bg_cflog : cf_log cfg = logfile e;
  bg_allowed : cf_allowed cfg = p_allowed p
}.

Lemma begin_execute F p x : pinv F p -> args_ok x -> exists e cfg ids bs, begun p x e cfg ids bs.
Proof.
  intros Hp [Ho Hr]. destruct (pi_graph _ _ Hp) as [Hwf Hinc Hk Ht].
  destruct (get_subgraph_spec (x_toposort x) (p_graph p) (x_target x) (p_rerun p) (x_reused_order x) Ho Hr Hwf Hinc (pi_log _ _ Hp))
    as (e & sub & ids & bs & Hg & H1 & H2 & H3 & H4 & H5 & H6 & H7 & H8 & H9).
  exists e, (Config sub (p_allowed p) (x_types x) (x_clock x) (logfile e)), ids, bs.
  split; try done. unfold start_execute. by rewrite Hg.
Qed.

Lemma selected_key p x n k : selected (deps (p_graph p)) (x_target x) (in_done p) (plog p) (p_rerun p) n ->
  task_has_key (deps (p_graph p)) n k ->
  ~ in_done p k /\ ~ log_success (plog p) k /\
  ~ reused (deps (p_graph p)) (x_target x) (in_done p) (plog p) (p_rerun p) k.
Proof.
  intros [Hc Hs] Hk. destruct (proj2 Hc k Hk) as [Hd Hl]. split_and!; try done.
  intros (m & _ & _ & _ & [Hsu|[Hrf Hf]]); [done|]. apply (Hs Hrf n k); [|done|done]. by constructor.
Qed.

(** Every task of the executed graph is a selected task of the whole graph. *)
Lemma begun_node p x e cfg ids bs i c : begun p x e cfg ids bs -> nodes (cf_g cfg) !! i = Some c ->
  exists n c0, In n ids /\ ids !! i = Some n /\ nodes (deps (p_graph p)) !! n = Some c0 /\ same_task c0 c /\
    task_has_key (deps (p_graph p)) n (c_key c).
Proof.
  intros Hb Hc. destruct (bg_part _ _ _ _ _ _ Hb) as (_ & Hl & Hn & _).
  destruct (lookup_lt_is_Some_2 ids i) as [n Hi]; [rewrite Hl; by eapply lookup_lt_Some|].
  destruct (Hn i n Hi) as [Hcn Hlt]. rewrite Hc in Hcn.
  destruct (bg_same _ _ _ _ _ _ Hb) as [_ HF2].
  destruct (Forall2_lookup_r _ _ _ _ _ HF2 (eq_sym Hcn)) as (c0 & Hc0 & Hst). exists n, c0.
  split_and!; try done.
  - by apply elem_of_list_In, elem_of_list_lookup; eauto.
  - exists c0. split; [done|]. apply Hst.
Qed.

Lemma begun_key p x e cfg ids bs i c : begun p x e cfg ids bs -> nodes (cf_g cfg) !! i = Some c ->
  ~ in_done p (c_key c) /\ ~ log_success (plog p) (c_key c) /\ ~ In (c_key c) bs.
Proof.
  intros Hb Hc. destruct (begun_node _ _ _ _ _ _ _ _ Hb Hc) as (n & c0 & Hin & _ & _ & _ & Hk).
  apply (bg_ids _ _ _ _ _ _ Hb) in Hin. destruct (selected_key _ _ _ _ Hin Hk) as (? & ? & Hr). split_and!; try done.
  intros Hbs. by apply Hr, (bg_bs _ _ _ _ _ _ Hb).
Qed.

Lemma part_keys g ids sub : part_of g ids sub -> NoDup (map c_key (nodes g)) -> NoDup (map c_key (nodes sub)).
Proof.
  intros (Hs & Hl & Hn & _) Hk. apply NoDup_alt. intros i j k Hi Hj.
  rewrite list_lookup_fmap in Hi, Hj.
  destruct (nodes sub !! i) as [ci|] eqn:Hci; [|done]. destruct (nodes sub !! j) as [cj|] eqn:Hcj; [|done].
  simpl in Hi, Hj.
  destruct (lookup_lt_is_Some_2 ids i) as [n Hni]; [rewrite Hl; by eapply lookup_lt_Some|].
  destruct (lookup_lt_is_Some_2 ids j) as [m Hmj]; [rewrite Hl; by eapply lookup_lt_Some|].
  destruct (Hn i n Hni) as [Hcn _]. destruct (Hn j m Hmj) as [Hcm _].
  assert (n = m) as ->; [|by eapply sorted_lookup_inj].
  eapply NoDup_alt; [exact Hk|..]; rewrite list_lookup_fmap; [rewrite <- Hcn, Hci|rewrite <- Hcm, Hcj]; done.
Qed.

Lemma sorted_length_le (ids : list nat) n : StronglySorted lt ids -> (forall i, In i ids -> i < n) -> length ids <= n.
Proof.
  intros Hs Hlt. assert (NoDup ids) as Hnd.
  { apply NoDup_alt. intros i j x Hi Hj. by eapply sorted_lookup_inj. }
  rewrite <- (seq_length n 0). apply submseteq_length, NoDup_submseteq; [done|].
  intros i Hi. apply elem_of_seq. apply elem_of_list_In, Hlt in Hi. lia.
Qed.

Lemma begun_config F p x e cfg ids bs : pinv F p -> begun p x e cfg ids bs -> config_ok cfg.
Proof.
  intros Hp Hb. destruct (pi_graph _ _ Hp) as [Hwf Hinc Hk Ht].
  pose proof (bg_part _ _ _ _ _ _ Hb) as Hpart. pose proof (bg_same _ _ _ _ _ _ Hb) as Hsame.
  split.
  - by eapply part_wf.
  - apply increasing_acyclic. eapply part_increasing; [done|]. by eapply same_graph_increasing.
  - eapply part_keys; [done|]. by rewrite (same_graph_keys _ _ Hsame).
  - pose proof (pi_fits _ _ Hp) as Hf. unfold fits, node_count, U32 in Hf. destruct Hpart as (Hs & Hl & Hn & _).
    assert (length ids <= length (nodes (deps (p_graph p)))) as Hle.
    { apply sorted_length_le; [done|]. intros i Hi. apply elem_of_list_In, elem_of_list_lookup in Hi as [j Hj].
      apply Hn in Hj as [_ Hj]. by rewrite (same_graph_length _ _ Hsame) in Hj. }
    unfold node_count. lia.
  - rewrite (bg_cflog _ _ _ _ _ _ Hb), (bg_log _ _ _ _ _ _ Hb). cbn [lf_entries]. rewrite log_writes_app.
    pose proof (pi_log _ _ Hp) as Hlog. unfold log_ok in Hlog. unfold plog. rewrite Hlog. apply log_writes_backrefs.
Qed.

Lemma last_finished_of l k c sr ok : status_in l k (Some (RFinished c sr ok)) -> last (history k l) = Some KFinished.
Proof. intros H. by rewrite (status_in_last_kind _ _ _ H). Qed.

Lemma status_in_brefs es k o bs : status_in es k o -> status_in (es ++ brefs bs) k o.
Proof.
  induction bs as [|b bs IH] using rev_ind; intros H; [by rewrite app_nil_r|].
  unfold brefs. rewrite map_app, List.app_assoc. apply status_in_snoc_other; [by apply IH|done].
Qed.

Lemma begun_inv F p x e cfg ids bs : pinv F p -> begun p x e cfg ids bs ->
  pinv F (Process e (p_allowed p) (p_rerun p)).
Proof.
  intros Hp Hb. pose proof (bg_log _ _ _ _ _ _ Hb) as Hlog.
  destruct (pi_seg _ _ Hp) as (older & hd & seg & [Hes Hseg] & Hbk & Hrd & Hcnt).
  assert (plog (Process e (p_allowed p) (p_rerun p)) = plog p ++ brefs bs) as Hpl by (unfold plog at 1; simpl; by rewrite Hlog).
  split.
  - rewrite Hpl. destruct (pi_prefix _ _ Hp) as [rest ->]. rewrite <- List.app_assoc. eauto.
  - pose proof (begun_config _ _ _ _ _ _ _ Hp Hb) as Hok. cbn [p_graph]. rewrite <- (bg_cflog _ _ _ _ _ _ Hb). apply Hok.
  - rewrite Hpl. eapply good_brefs; [apply (pi_good _ _ Hp)|by split|apply (bg_nodup _ _ _ _ _ _ Hb)|..].
    + intros k Hk Hin. apply (bg_bs _ _ _ _ _ _ Hb) in Hk as (n & _ & _ & Hd & _). by apply Hd, Hbk.
    + intros k Hk. apply (bg_bs _ _ _ _ _ _ Hb) in Hk as (n & _ & _ & _ & [(c & sr & Hs)|(_ & c & sr & Hs)]); by eapply last_finished_of.
  - eapply same_graph_ok; [apply (pi_graph _ _ Hp)|apply (bg_same _ _ _ _ _ _ Hb)|apply (bg_table _ _ _ _ _ _ Hb)].
  - unfold fits, node_count. cbn [p_graph]. rewrite (same_graph_length _ _ (bg_same _ _ _ _ _ _ Hb)). apply (pi_fits _ _ Hp).
  - exists older, hd, (seg ++ brefs bs). split_and!.
    + split; [by rewrite Hpl, Hes, <- List.app_assoc|]. intros Hh. apply has_header_app in Hh as [Hh|[h Hh]]; [done|].
      by apply brefs_in in Hh as (? & ? & _).
    + intros k Hk. rewrite backref_keys_app, backref_keys_brefs in Hk. cbn [p_graph]. rewrite (bg_completed _ _ _ _ _ _ Hb).
      apply in_app_iff in Hk as [Hk|Hk]; apply elem_of_union; [left; by apply Hbk|right; by apply elem_of_list_to_set, elem_of_list_In].
    + intros k Hk. apply no_record_app. split; [|apply no_record_brefs]. apply Hrd. intros r Hr. apply Hk. apply in_app_iff. by left.
    + intros c Hc Hnr. apply no_record_app in Hnr as [Hnr _]. unfold status. cbn [p_graph] in *. rewrite Hlog. cbn [lf_state].
      apply elem_of_list_In, elem_of_list_lookup in Hc as [n Hn].
      destruct (bg_same _ _ _ _ _ _ Hb) as [_ HF2]. destruct (Forall2_lookup_r _ _ _ _ _ HF2 Hn) as (c0 & Hc0 & Hst).
      destruct Hst as (_ & Hkey & _ & _ & Hrc & _). rewrite <- Hrc, <- Hkey. apply Hcnt; [|by rewrite Hkey].
      by apply elem_of_list_In, elem_of_list_lookup; eauto.
Qed.

(** ** The records of an execution *)
Lemma run_inv F p x e cfg ids bs s t : pinv F p -> begun p x e cfg ids bs -> reachable cfg s t ->
  good_log (lf_entries (sv_log (st_sv s))) /\ log_ok (sv_log (st_sv s)) /\
  exists new, lf_entries (sv_log (st_sv s)) = plog p ++ brefs bs ++ new /\ Forall task_rec new /\
    (forall k, history k new ∈ attempt_prefixes) /\
    (forall k, history k new <> [] -> exists n c, nodes (cf_g cfg) !! n = Some c /\ c_key c = k).
Proof.
  intros Hp Hb Hr. pose proof (begun_inv _ _ _ _ _ _ _ Hp Hb) as Hp'.
  destruct (execute_records cfg s t (begun_config _ _ _ _ _ _ _ Hp Hb) Hr) as (new & He & Hok & Ht & Hh & Hk & Hrd).
  assert (lf_entries (cf_log cfg) = plog p ++ brefs bs) as Hcl.
  { by rewrite (bg_cflog _ _ _ _ _ _ Hb), (bg_log _ _ _ _ _ _ Hb). }
  assert (plog (Process e (p_allowed p) (p_rerun p)) = plog p ++ brefs bs) as Hpl.
  { unfold plog at 1. simpl. by rewrite (bg_log _ _ _ _ _ _ Hb). }
  rewrite Hcl in He.
  split; [|split; [done|]; exists new; split_and!; try done; by rewrite He, <- List.app_assoc].
  destruct (pi_seg _ _ Hp') as (older & hd & seg & Hls & Hbk & Hsr & Hcnt). rewrite Hpl in Hls. cbn [p_graph] in *.
  rewrite He. eapply good_new; [|exact Hls|..]; try done.
  - rewrite <- Hpl. apply (pi_good _ _ Hp').
  - intros k. eexists. rewrite <- Hpl. apply (log_ok_status _ k (pi_log _ _ Hp')).
  - rewrite <- He. apply log_good_ok in Hok as [_ ?]. done.
  - intros k Hne. apply Hk in Hne as (n & c & Hc & <-). destruct (begun_key _ _ _ _ _ _ _ _ Hb Hc) as (Hd & Hs & Hbs). split.
    + intros Hin. apply Hbk in Hin. rewrite (bg_completed _ _ _ _ _ _ Hb) in Hin. apply elem_of_union in Hin as [Hin|Hin]; [done|].
      by apply Hbs, elem_of_list_In, (elem_of_list_to_set (C:=gset string)).
    + intros (c1 & sr & Hst). apply Hs. exists c1, sr.
      pose proof (log_ok_status _ (c_key c) (pi_log _ _ Hp)) as Hst0.
      rewrite <- (status_in_unique _ _ _ _ (status_in_brefs _ _ _ bs Hst0) Hst). exact Hst0.
  - intros r o Hin Hnr Hst. destruct (Hrd r Hin) as (n & c & Hc & Hck & <- & _). rewrite <- Hck in Hnr, Hst.
    destruct (bg_part _ _ _ _ _ _ Hb) as (_ & Hl & Hn & _).
    destruct (lookup_lt_is_Some_2 ids n) as [m Hm]; [rewrite Hl; by eapply lookup_lt_Some|].
    destruct (Hn n m Hm) as [Hcm _]. rewrite Hc in Hcm.
    rewrite (Hcnt c); [|by apply elem_of_list_In, elem_of_list_lookup; eauto|done].
    f_equal. eapply status_in_unique; [|exact Hst]. unfold status. rewrite <- Hpl.
    apply (log_ok_status _ (c_key c) (pi_log _ _ Hp')).
Qed.

Lemma status_in_no_record es k o new : status_in es k o -> no_record k new -> status_in (es ++ new) k o.
Proof.
  induction new as [|b bs IH] using rev_ind; intros H Hn; [by rewrite app_nil_r|].
  apply no_record_app in Hn as [Hn Hb].
  rewrite List.app_assoc. apply status_in_snoc_other; [by apply IH|]. apply Hb. by left.
Qed.

Lemma end_inv F p x e cfg ids bs s t : pinv F p -> begun p x e cfg ids bs -> reachable cfg s t ->
  pinv (lf_entries (sv_log (st_sv s))) (end_execute p e cfg s).
Proof.
  intros Hp Hb Hr. pose proof (begun_inv _ _ _ _ _ _ _ Hp Hb) as Hp'.
  destruct (run_inv _ _ _ _ _ _ _ _ _ Hp Hb Hr) as (Hg & Hok & new & He & Ht & Hh & Hk).
  rewrite Forall_forall in Ht. setoid_rewrite elem_of_list_In in Ht.
  assert (plog (Process e (p_allowed p) (p_rerun p)) = plog p ++ brefs bs) as Hpl.
  { unfold plog at 1. simpl. by rewrite (bg_log _ _ _ _ _ _ Hb). }
  split; unfold plog; cbn [p_graph end_execute deps key_to_nodeid logfile completed].
  - exists []. by rewrite app_nil_r.
  - done.
  - done.
  - destruct (pi_graph _ _ Hp'). split; done.
  - apply (pi_fits _ _ Hp').
  - destruct (pi_seg _ _ Hp') as (older & hd & seg & [Hls Hns] & Hbk & Hsr & Hcnt). rewrite Hpl in Hls. cbn [p_graph] in *.
    exists older, hd, (seg ++ new). split_and!.
    + split.
      * rewrite He. rewrite List.app_assoc, Hls. by rewrite <- List.app_assoc.
      * intros Hx. apply has_header_app in Hx as [Hx|[h Hx]]; [done|]. by apply Ht in Hx.
    + intros k Hin. rewrite backref_keys_app in Hin. apply in_app_iff in Hin as [Hin|Hin].
      * apply elem_of_union. left. by apply Hbk.
      * apply In_backref_keys in Hin as (b & Hin & _). by apply Ht in Hin.
    + intros k Hno. apply no_record_app. split.
      * apply Hsr. intros r Hin. apply Hno, in_app_iff. by left.
      * apply no_record_history. specialize (Hh k). unfold attempt_prefixes in Hh. rewrite !elem_of_cons, elem_of_nil in Hh.
        destruct (history k new) as [|kd rest] eqn:E; [done|]. exfalso.
        assert (kd = KReady) as -> by (destruct_or! Hh; try done; by injection Hh).
        assert (KReady ∈ history k new) as Hin by (rewrite E; by left).
        apply elem_of_list_omap in Hin as (ev & Hev & Hrec). destruct ev; simpl in Hrec; try done; case_match; try done.
        apply (Hno r); [apply in_app_iff; right; by apply elem_of_list_In|]. by apply String.eqb_eq.
    + intros c Hc Hnr. apply no_record_app in Hnr as [Hn1 Hn2]. rewrite (Hcnt c Hc Hn1). f_equal.
      unfold status. cbn [p_graph end_execute logfile].
      pose proof (log_ok_status _ (c_key c) (pi_log _ _ Hp')) as H1. cbn [p_graph] in H1.
      pose proof (log_ok_status _ (c_key c) Hok) as H2.
      eapply status_in_unique; [|exact H2]. rewrite He, List.app_assoc, <- Hpl. by apply status_in_no_record.
Qed.

Lemma good_take es n : good_log es -> good_log (take n es).
Proof. intros H. apply (good_log_prefix _ (drop n es)). by rewrite take_drop. Qed.

Lemma begun_unique p x e cfg ids bs e' cfg' :
  begun p x e cfg ids bs -> start_execute p x = Some (e', cfg') -> e' = e /\ cfg' = cfg.
Proof. intros Hb H. rewrite (bg_start _ _ _ _ _ _ Hb) in H. by injection H as <- <-. Qed.

Lemma wstep_inv w ev w' : winv w -> wstep w ev w' -> winv w'.
Proof.
  intros [HF Hp] Hs. destruct Hs; cbn [w_file w_proc] in *; unfold winv; cbn [w_file w_proc].
  - split; [done|]. by eapply open_inv.
  - done.
  - split; [done|]. by eapply add_inv.
  - split; [done|]. destruct (begin_execute _ _ _ Hp H) as (e' & cfg' & ids & bs & Hb).
    destruct (begun_unique _ _ _ _ _ _ _ _ Hb H0) as [-> ->]. by eapply begun_inv.
  - destruct (begin_execute _ _ _ Hp H) as (e' & cfg' & ids & bs & Hb).
    destruct (begun_unique _ _ _ _ _ _ _ _ Hb H0) as [-> ->].
    assert (reachable cfg' s t) as Hr by (by exists acts). split.
    + by eapply run_inv.
    + by eapply end_inv.
  - split; [apply (pi_good _ _ Hp)|done].
  - split; [apply good_take, (pi_good _ _ Hp)|done].
  - split; [|done]. destruct (begin_execute _ _ _ Hp H) as (e' & cfg' & ids & bs & Hb).
    destruct (begun_unique _ _ _ _ _ _ _ _ Hb H0) as [-> ->]. apply good_take. eapply run_inv; [done|done|]. by exists acts.
Qed.

Lemma whistory_inv w h w' : winv w -> whistory w h w' -> winv w'.
Proof. intros Hw Hh. induction Hh; [done|]. eapply wstep_inv; [by apply IHHh|done]. Qed.

Lemma possible_inv h w : possible h w -> winv w.
Proof. intros H. eapply whistory_inv; [|exact H]. split; [apply good_log_nil|done]. Qed.
