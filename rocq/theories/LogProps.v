(** Properties of the log: C12 (log layer), C15, C18, C27, C28. *)
From Verif Require Import LogModel LogSpec LogProofs SnapshotProofs.

(** C12, log layer: a sequence of records can be written to a new log without a panic exactly
    if for each key Started follows Ready and Finished follows Started. *)
Theorem writes_succeed_iff_attempts es :
  (exists l, log_writes (LogFile empty_log_state []) es = Some l) <-> log_wf es.
Proof. exact (log_writes_iff es). Qed.
Print Assumptions writes_succeed_iff_attempts.

(** The memory of an open log says about each key what the records in the file say. *)
Theorem memory_agrees_with_records es l :
  log_writes (LogFile empty_log_state []) es = Some l ->
  lf_entries l = es /\
  (forall k, status_in es k (runcount (lf_state l) k)) /\
  last_header es (log_header (lf_state l)).
Proof. exact (memory_agrees es l). Qed.
Print Assumptions memory_agrees_with_records.

(** "What the records say about a key" is a function: the statement above pins the memory
    down completely. *)
Theorem status_in_functional es k o o' :
  status_in es k o -> status_in es k o' -> o = o'.
Proof. exact (status_in_unique es k o o'). Qed.
Print Assumptions status_in_functional.

(** C15: open a log [F], write [es], close: reopening gives the same state in memory. The
    headers written are those of this program (supported version, the workflow key of the
    log). *)
Theorem reopen_reproduces_state F l0 es l :
  log_open F = OpenOk l0 ->
  log_writes l0 es = Some l ->
  headers_ok (F ++ es) ->
  lf_entries l = F ++ es /\ log_open (lf_entries l) = OpenOk l.
Proof. exact (reopen_same F l0 es l). Qed.
Print Assumptions reopen_reproduces_state.

(** C18: a log is accepted exactly if its headers agree on the workflow key, all have
    version 4, and its records are well-formed. *)
Theorem open_accepts_iff es :
  (exists l, log_open es = OpenOk l) <-> log_wf es /\ headers_ok es.
Proof. exact (open_ok_iff es). Qed.
Print Assumptions open_accepts_iff.

(** C18: which error. A well-formed log with bad headers is refused with the error that
    names the first offending header. *)
Theorem open_refusal_reason es :
  log_wf es -> ~ headers_ok es ->
  exists pre h post, es = pre ++ Header h :: post /\ headers_ok pre /\
    ((log_open es = OpenErr LErrWorkflowKeyMismatch /\
      exists h', In (Header h') pre /\ h_workflow_key h <> h_workflow_key h') \/
     (log_open es = OpenErr (LErrMismatchedVersion (h_version h)) /\ h_version h <> 4%N)).
Proof. exact (open_refusal es). Qed.
Print Assumptions open_refusal_reason.

(** C18: the workflow key of an accepted log is that of its first header, and of all. *)
Theorem workflow_key_stable es l h :
  log_open es = OpenOk l -> In (Header h) es ->
  workflow_key (lf_state l) = Some (h_workflow_key h).
Proof. exact (workflow_key_of_any_header es l h). Qed.
Print Assumptions workflow_key_stable.

(** C27: reading succeeds exactly if no key occurs twice among the Backrefs of the last
    session ... *)
Theorem snapshot_succeeds_iff es older hd seg :
  last_segment es older hd seg ->
  ((exists r, read_current_and_outdated es = Some r) <-> NoDup (backref_keys seg)).
Proof. exact (read_succeeds_iff es older hd seg). Qed.
Print Assumptions snapshot_succeeds_iff.

(** ... and then returns: as current, the last header, the latest attempt of each key
    referred to, and the last session's other records, in the order of the file; as
    outdated, the remaining older records whose key is not current, in the order of the
    file. *)
Theorem snapshot_exact es older hd seg cur out :
  last_segment es older hd seg ->
  read_current_and_outdated es = Some (cur, out) ->
  cur = head_of hd ++ latest_attempts (backref_keys seg) older ++ without_backrefs seg /\
  out = List.filter (fun x => negb (has_key_of cur x)) (superseded (backref_keys seg) older).
Proof. exact (read_exact es older hd seg cur out). Qed.
Print Assumptions snapshot_exact.

(** Each record is in exactly one of: current, outdated, dropped; and only two kinds of
    records are dropped. *)
Theorem snapshot_loses_nothing es older hd seg cur out :
  last_segment es older hd seg ->
  read_current_and_outdated es = Some (cur, out) ->
  exists dropped, Permutation es (cur ++ out ++ dropped) /\
    forall x, In x dropped -> shares_key x cur \/ (is_backref x /\ In x seg).
Proof. exact (read_loses_nothing es older hd seg cur out). Qed.
Print Assumptions snapshot_loses_nothing.

(** C28, for every list of records whatsoever. *)
Theorem outdated_never_shares_key es cur out :
  read_current_and_outdated es = Some (cur, out) ->
  forall x, In x out -> ~ shares_key x cur.
Proof. exact (outdated_disjoint es cur out). Qed.
Print Assumptions outdated_never_shares_key.

(** Each log splits at its last header, so the hypotheses above can always be met. *)
Theorem every_log_has_last_segment es :
  exists older hd seg, last_segment es older hd seg.
Proof. exact (last_segment_exists es). Qed.

(** ** Non-trivial cases *)
Definition t0 := SysTime 0 0.
Definition hdr k := Header (HeaderEntry 4 t0 "u" "h" k [] "/" 1 [""%string]).
Definition rdy k n := Ready (ReadyEntry t0 k n "c" 0).
Definition sta k := Started (StartedEntry t0 k "h" 1 "").
Definition fin k z := Finished (FinishedEntry t0 k z []).
Definition bref k := Backref (BackrefEntry k).

Definition two_sessions : list log_entry :=
  [hdr "w"; rdy "a" 0; rdy "b" 0; sta "a"; sta "b"; fin "b" 1; fin "a" 0;
   hdr "w"; bref "a"; rdy "b" 1; sta "b"; fin "b" 0].

Example two_sessions_written :
  exists l, log_writes (LogFile empty_log_state []) two_sessions = Some l /\
    runcount (lf_state l) "b" = Some (RFinished 1 0 true) /\
    has_success (lf_state l) "a" = true /\
    runcount (lf_state l) "c" = None.
Proof. eexists. split; [vm_compute; reflexivity|]. vm_compute. auto. Qed.

Example two_sessions_reopen : exists l, log_open two_sessions = OpenOk l.
Proof. eexists. vm_compute. reflexivity. Qed.

Example two_sessions_headers_ok : headers_ok two_sessions.
Proof.
  unfold two_sessions, hdr, rdy, sta, fin, bref.
  split; simpl; intros; repeat match goal with H : _ \/ _ |- _ => destruct H as [H|H] end;
    try discriminate; try contradiction; congruence || (simplify_eq; done).
Qed.

Example two_sessions_snapshot :
  read_current_and_outdated two_sessions =
  Some ([hdr "w"; rdy "a" 0; sta "a"; fin "a" 0; rdy "b" 1; sta "b"; fin "b" 0],
        [hdr "w"]).
Proof. vm_compute. reflexivity. Qed.

Example mismatch_refused :
  log_open [hdr "w"; rdy "a" 0; hdr "x"] = OpenErr LErrWorkflowKeyMismatch.
Proof. vm_compute. reflexivity. Qed.

Example orphan_finish_panics : log_writes (LogFile empty_log_state []) [rdy "a" 0; fin "a" 0] = None.
Proof. vm_compute. reflexivity. Qed.

(** Refutation of C27 for arbitrary accepted logs: a log with two Backrefs to one key in its
    last session is accepted on opening, but reading the snapshot panics. *)
Theorem snapshot_of_accepted_log_can_panic_refuted :
  exists es l, log_open es = OpenOk l /\ read_current_and_outdated es = None.
Proof.
  exists [hdr "w"; rdy "a" 0; sta "a"; fin "a" 0; hdr "w"; bref "a"; bref "a"].
  eexists. split; vm_compute; reflexivity.
Qed.
Print Assumptions snapshot_of_accepted_log_can_panic_refuted.
