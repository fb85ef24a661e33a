(** C65: reading and writing log files from Python. *)
From Verif Require Import ToolProofs JsonProps SessionDemo SessionProps ToolSpec.
From stdpp Require Import prelude.
Open Scope list_scope.

(** For every log a history of sessions can leave, all four modes of load_logfile work: "all" gives the records, in order;
    "current" and "outdated" are the components of "current,outdated" (what these are: C27, C28). *)
Theorem load_modes h w f : possible h w -> Forall rust_record (w_file w) -> file_of (w_file w) f ->
  load_logfile (Some f) "all" = LoadedList (w_file w) /\
  exists cur out, read_current_and_outdated (w_file w) = Some (cur, out) /\ load_logfile (Some f) "current,outdated" = LoadedPair cur out /\
    load_logfile (Some f) "current" = LoadedList cur /\ load_logfile (Some f) "outdated" = LoadedList out.
Proof.
  intros Hh H1 H2. pose proof (file_of_reads _ _ H1 H2) as E. unfold load_logfile, on_snapshot. cbn [String.eqb Ascii.eqb Bool.eqb]. rewrite E.
  split; [done|]. destruct (snapshot_never_fails h w Hh) as [[cur out] Er]. rewrite Er. by exists cur, out.
Qed.
(** Any other mode is refused, provided that there is a file. *)
Theorem other_modes_refused f mode : ~ In mode ["current,outdated"; "current"; "outdated"; "all"]%string -> load_logfile (Some f) mode = LoadBadMode.
Proof.
  cbn [In]. intros H. unfold load_logfile.
  destruct (String.eqb_spec mode "current,outdated"); [intuition congruence|]. destruct (String.eqb_spec mode "current"); [intuition congruence|].
  destruct (String.eqb_spec mode "outdated"); [intuition congruence|]. destruct (String.eqb_spec mode "all"); [intuition congruence|done].
Qed.

(** write_logfile always has a result. *)
Theorem write_logfile_total old es : exists new ok, write_logfile old es new ok.
Proof.
  assert (Ht : forall l, exists t, file_of l t).
  { induction l as [|e l [t IH]] using rev_ind; [exists []; constructor|]. destruct (record_has_text e) as [x Hx].
    exists (t ++ x ++ [LF]). econstructor; [exact IH|]. by exists x. }
  unfold write_logfile. set (f := match old with Some f => f | None => [] end). destruct (load_file f) as [[s| | |]| |]; try (by exists f, false).
  destruct (Ht (fst (write_all s es))) as [t Hx]. exists (f ++ t), (snd (write_all s es)). split; [by exists t|done].
Qed.

(** Records are appended to the log. The function returns exactly if the records keep, key by key, to the order Ready, Started,
    Finished; otherwise it panics and the records before the first that does not are in the file. *)
Theorem write_logfile_appends F f s es g ok : Forall rust_record (F ++ es) -> file_of F f -> opens f s -> write_logfile (Some f) es g ok ->
  (ok = true <-> log_wf (F ++ es)) /\
  exists written, load_logfile (Some g) "all" = LoadedList (F ++ written) /\ log_wf (F ++ written) /\ begins f g /\
    (ok = true -> written = es) /\
    (ok = false -> exists e rest, es = written ++ e :: rest /\ ~ log_wf (F ++ written ++ [e])).
Proof.
  intros HR HF Ho. apply Forall_app in HR as [HR1 HR2]. unfold write_logfile. pose proof Ho as Ho'. unfold opens in Ho'. rewrite Ho'.
  intros [(t & Ht & ->) ->]. destruct (opens_spec _ _ _ HR1 HF Ho) as (Hm & Hwf & _).
  destruct (write_all_spec s F es Hm Hwf) as [H1 H2]. destruct (write_all s es) as [written ok]. cbn [fst snd] in *.
  assert (HRw : Forall rust_record written).
  { destruct ok; [by rewrite H2|]. destruct H2 as (e & rest & -> & _). by apply Forall_app in HR2 as [? _]. }
  split.
  - destruct ok; [subst; tauto|]. split; [done|]. intros Hc. destruct H2 as (e & rest & -> & H2). destruct H2.
    apply (log_wf_prefix _ rest). by rewrite <- !List.app_assoc.
  - exists written. split.
    { unfold load_logfile. cbn [String.eqb Ascii.eqb Bool.eqb]. rewrite (file_of_reads (F ++ written) (f ++ t)); [done|by apply Forall_app|by apply file_of_app]. }
    split; [done|]. split; [by exists t|]. destruct ok; split; done.
Qed.

(** Writing what "all" has read to a new file makes a log with the same records that opens with the same state. *)
Theorem copy_of_log es f s g ok : Forall rust_record es -> file_of es f -> opens f s -> write_logfile None es g ok ->
  ok = true /\ load_logfile (Some g) "all" = load_logfile (Some f) "all" /\ opens g s.
Proof.
  intros HR HF Ho. destruct (opens_spec _ _ _ HR HF Ho) as (Hm & Hwf & Hh). unfold write_logfile. change (load_file []) with (FLoaded (LOk empty_log_state)).
  cbv iota. intros [(t & Ht & ->) ->]. cbn [app]. destruct (write_all_spec empty_log_state [] es state_matches_empty log_wf_nil) as [H1 H2].
  destruct (write_all empty_log_state es) as [written ok]. cbn [fst snd app] in *. destruct ok.
  - subst written. split; [done|]. unfold load_logfile. cbn [String.eqb Ascii.eqb Bool.eqb]. rewrite (file_of_reads _ _ HR HF), (file_of_reads _ _ HR Ht). split; [done|].
    apply (file_of_opens es); [done|done|]. by apply (file_of_opens es f).
  - exfalso. destruct H2 as (e & rest & -> & H2). apply H2. apply (log_wf_prefix _ rest). by rewrite <- List.app_assoc.
Qed.

(** Compaction: writing what "current" has read to a new file makes a log that opens with the same header (so workflow key and storage
    roots) and the same run count and status of every key it mentions; other keys are forgotten. It is current as a whole. *)
Theorem compacted_log h w f cur g ok : possible h w -> Forall rust_record (w_file w) -> file_of (w_file w) f ->
  load_logfile (Some f) "current" = LoadedList cur -> write_logfile None cur g ok ->
  ok = true /\ load_logfile (Some g) "current,outdated" = LoadedPair cur [] /\
  exists s s', opens f s /\ opens g s' /\ log_header s' = log_header s /\
    (forall k, key_in k cur -> runcount s' k = runcount s k) /\ (forall k, ~ key_in k cur -> runcount s' k = None).
Proof.
  intros Hh HR HF HL HW. destruct (snapshot_never_fails h w Hh) as [[cur' out] Er].
  assert (cur' = cur) as ->.
  { revert HL. unfold load_logfile, on_snapshot. cbn [String.eqb Ascii.eqb Bool.eqb]. rewrite (file_of_reads _ _ HR HF), Er. by intros [= ->]. }
  destruct (possible_good _ _ Hh) as [Hg _]. destruct (last_segment_exists (w_file w)) as (older & hd & seg & Hs).
  pose proof (first_holds _ _ Hh) as Hrf. pose proof (g_wf _ Hg) as Hwf. pose proof (g_headers _ Hg) as Hho.
  pose proof (current_wf _ _ _ _ Hs Hwf Hrf _ _ Er) as Hcw. pose proof (current_subset _ _ _ _ Hs _ _ Er) as Hsub.
  assert (HRc : Forall rust_record cur). { apply Forall_forall. intros e He. rewrite Forall_forall in HR. apply HR. rewrite elem_of_list_In in *. by apply Hsub. }
  destruct (open_ok_iff (w_file w)) as [_ HO]. destruct (HO (conj Hwf Hho)) as [l Hl]. unfold log_open in Hl.
  destruct (load_runcounts (w_file w)) as [s| | |] eqn:Es; try done. clear HO Hl l.
  pose proof (load_runcounts_spec (w_file w)) as Hm. rewrite Es in Hm. destruct Hm as ((Hm1 & Hm2) & _).
  destruct (current_head _ _ _ _ Hs _ _ Er _ Hm2) as [Hh1 Hh2].
  assert (Hhc : headers_ok cur). { destruct Hho as [A1 A2]. split; intros; eauto. }
  destruct (open_ok_iff cur) as [_ HO]. destruct (HO (conj Hcw Hhc)) as [l Hl]. unfold log_open in Hl.
  destruct (load_runcounts cur) as [s'| | |] eqn:Es'; try done. clear HO Hl l.
  pose proof (load_runcounts_spec cur) as Hm'. rewrite Es' in Hm'. destruct Hm' as ((Hm1' & Hm2') & _).
  revert HW. unfold write_logfile. change (load_file []) with (FLoaded (LOk empty_log_state)).
  cbv iota. intros [(t & Ht & ->) ->]. cbn [app]. destruct (write_all_spec empty_log_state [] cur state_matches_empty log_wf_nil) as [H1 H2].
  destruct (write_all empty_log_state cur) as [written ok]. cbn [fst snd app] in *. destruct ok.
  2:{ exfalso. destruct H2 as (e & rest & -> & H2). apply H2. apply (log_wf_prefix _ rest). by rewrite <- List.app_assoc. }
  subst written. split; [done|]. split.
  - unfold load_logfile, on_snapshot. cbn [String.eqb Ascii.eqb Bool.eqb]. rewrite (file_of_reads _ _ HRc Ht).
    pose proof (current_no_backref _ _ _ _ Hs _ _ Er) as Hnb.
    assert (Hseg : exists rest, last_segment cur [] (option_map Header (log_header s)) rest /\ cur = head_of (option_map Header (log_header s)) ++ rest).
    { destruct (log_header s) as [h0|]; cbn [option_map head_of].
      - destruct Hh1 as (pre & post & Ec & _). destruct (Hh2 h0) as (rest & Ec' & Hrest); [rewrite Ec; apply in_app_iff; right; by left|].
        exists rest. split; [|done]. split; [done|]. split; [by exists h0|done].
      - exists cur. split; [|done]. split; [|done]. intros e He [h0 ->]. by apply (Hh1 h0). }
    destruct Hseg as (rest & Hseg & Ec). destruct (without_none rest) as [Hw1 Hw2]; [intros e He; apply Hnb; rewrite Ec; apply in_app_iff; by right|].
    destruct (read_succeeds_iff _ _ _ _ Hseg) as [_ Hsc]. destruct Hsc as [[c o] Hc]; [rewrite Hw2; constructor|]. rewrite Hc.
    destruct (read_exact _ _ _ _ _ _ Hseg Hc) as [-> ->]. rewrite Hw1, Hw2. cbn [latest_attempts superseded List.filter app fst snd]. by rewrite <- Ec.
  - exists s, s'. split; [by apply (file_of_opens (w_file w))|]. split; [by apply (file_of_opens cur)|].
    split; [by eapply last_header_unique|]. split.
    + intros k Hk. eapply status_in_unique; [apply Hm1'|]. eapply current_status; [exact Hs|exact Hwf|exact Hrf|exact Er|apply Hm1|exact Hk].
    + intros k Hk. eapply status_in_unique; [apply Hm1'|]. intros e He. destruct (record_of k e) eqn:E; [|done]. destruct Hk. exists e. split; [done|]. by rewrite E.
Qed.

(** write_logfile does not look at headers: it can make a log unusable. *)
Theorem written_log_opens_refuted : exists F f s es g, Forall rust_record (F ++ es) /\ file_of F f /\ opens f s /\ write_logfile (Some f) es g true /\ forall s', ~ opens g s'.
Proof.
  pose (hdr k := Header (HeaderEntry 4 t0 "me" "host" k ["prog"] "/tmp" 7 ["/a"])).
  destruct (file_exists [hdr "one"]%string) as [f Hf]. destruct (file_exists [hdr "two"]%string) as [t Ht].
  assert (HR : Forall rust_record ([hdr "one"%string] ++ [hdr "two"%string])).
  { repeat (apply List.Forall_cons; [split; [cbn; unfold a_time, u32, i32; cbn [secs nanos]; repeat split; lia|apply strings_checked; vm_compute; reflexivity]|]). apply List.Forall_nil. }
  apply Forall_app in HR as HR'. destruct HR' as [HR1 HR2].
  destruct (load_runcounts [hdr "one"%string]) as [s| | |] eqn:Es; try (vm_compute in Es; discriminate Es).
  assert (Ho : opens f s). { by apply (file_of_opens [hdr "one"%string]). }
  exists [hdr "one"%string], f, s, [hdr "two"%string], (f ++ t). split; [done|]. split; [done|]. split; [done|]. split.
  - unfold write_logfile. unfold opens in Ho. rewrite Ho. split; [|done]. by exists t.
  - intros s' Hs'. destruct (opens_spec _ _ _ HR (file_of_app _ _ _ _ Hf Ht) Hs') as (_ & _ & Hh).
    destruct (open_ok_iff ([hdr "one"%string] ++ [hdr "two"%string])) as [_ HO].
    assert (E : forall l, log_open ([hdr "one"%string] ++ [hdr "two"%string]) <> OpenOk l) by (intros l E; vm_compute in E; discriminate E).
    destruct HO as [l Hl]; [|by apply (E l)]. split; [|done].
    destruct (opens_spec _ _ _ HR (file_of_app _ _ _ _ Hf Ht) Hs') as (_ & Hw & _). exact Hw.
Qed.

Print Assumptions load_modes.
Print Assumptions other_modes_refused.
Print Assumptions write_logfile_total.
Print Assumptions write_logfile_appends.
Print Assumptions copy_of_log.
Print Assumptions compacted_log.
Print Assumptions written_log_opens_refuted.

(** The log of two sessions of which the second reuses a and runs b again: the hypotheses hold, and compaction drops the Backref of a and
    the first attempt of b. *)
Example rerun_compacted : exists h w f cur g, possible h w /\ Forall rust_record (w_file w) /\ file_of (w_file w) f /\
  load_logfile (Some f) "current" = LoadedList cur /\ length (w_file w) = 12 /\ length cur = 7 /\ key_in "a" cur /\ key_in "b" cur /\ write_logfile None cur g true.
Proof.
  destruct (file_exists (w_file (ran rerun_history).2)) as [f Hf].
  assert (HR : Forall rust_record (w_file (ran rerun_history).2)).
  { assert (E : exists l, w_file (ran rerun_history).2 = l) by (by eexists). destruct E as [l E]. rewrite E. vm_compute in E. subst l.
    repeat (apply List.Forall_cons; [split; [cbn; unfold a_time, u32, i32; cbn [secs nanos]; repeat split; lia|apply strings_checked; vm_compute; reflexivity]|]). apply List.Forall_nil. }
  assert (Hp : possible (ran rerun_history).1 (ran rerun_history).2) by (apply ran_possible; vm_compute; reflexivity).
  destruct (load_modes _ _ _ Hp HR Hf) as (_ & cur & out & Er & _ & Hc & _).
  destruct (write_logfile_total None cur) as (g & ok & Hw). destruct (compacted_log _ _ _ _ _ _ Hp HR Hf Hc Hw) as [-> _].
  exists (ran rerun_history).1, (ran rerun_history).2, f, cur, g. split; [done|]. split; [done|]. split; [done|]. split; [done|].
  split; [vm_compute; reflexivity|].
  assert (E : read_current_and_outdated (w_file (ran rerun_history).2) = Some (cur, out)) by done. vm_compute in E. injection E as <- _.
  split; [reflexivity|]. split; [|split; [|done]].
  - eexists. split; [right; left; reflexivity|]. vm_compute. done.
  - eexists. split; [do 6 right; left; reflexivity|]. vm_compute. done.
Qed.

(** A Started without a Ready stops write_logfile after the records before it. *)
Example write_stops : exists f g, Forall rust_record ([h0; r0] ++ [s0; s0; f0]) /\ file_of [h0; r0] f /\ (exists s, opens f s) /\
  write_logfile (Some f) [s0; s0; f0] g false /\ load_logfile (Some g) "all" = LoadedList [h0; r0; s0].
Proof.
  destruct (file_exists [h0; r0]) as [f Hf]. destruct (file_exists [s0]) as [t Ht].
  assert (HR : Forall rust_record [h0; r0; s0; s0; f0]).
  { pose proof demo_rust as H. unfold demo in H. do 4 (apply List.Forall_cons_iff in H as [? H]). repeat (apply List.Forall_cons; [done|]). apply List.Forall_nil. }
  assert (HR1 : Forall rust_record [h0; r0]) by (by apply (proj1 (Forall_app _ [h0; r0] [s0; s0; f0]))).
  assert (HR2 : Forall rust_record [h0; r0; s0]) by (by apply (proj1 (Forall_app _ [h0; r0; s0] [s0; f0]))).
  destruct (load_runcounts [h0; r0]) as [s| | |] eqn:Es; try (vm_compute in Es; discriminate Es).
  assert (Ho : opens f s) by (by apply (file_of_opens [h0; r0])).
  exists f, (f ++ t). split; [done|]. split; [done|]. split; [by exists s|]. split.
  - unfold write_logfile. unfold opens in Ho. rewrite Ho. assert (E : write_all s [s0; s0; f0] = ([s0], false)); [|rewrite E; split; [by exists t|done]].
    vm_compute in Es. injection Es as <-. vm_compute. reflexivity.
  - unfold load_logfile. cbn [String.eqb Ascii.eqb Bool.eqb]. rewrite (file_of_reads [h0; r0; s0] (f ++ t)); [done|done|by apply (file_of_app [h0; r0] f [s0] t)].
Qed.

Example demo_copied : exists f s g, Forall rust_record JsonProps.demo /\ file_of JsonProps.demo f /\ opens f s /\ write_logfile None JsonProps.demo g true.
Proof.
  destruct (file_exists JsonProps.demo) as [f Hf]. destruct demo_loads as (s & Es & _). pose proof demo_rust as HR.
  assert (Ho : opens f s) by (by apply (file_of_opens JsonProps.demo)). destruct (write_logfile_total None JsonProps.demo) as (g & ok & Hw).
  destruct (copy_of_log _ _ _ _ _ HR Hf Ho Hw) as [-> _]. by exists f, s, g.
Qed.
