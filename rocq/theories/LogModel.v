(** Model of /repo/src/logfile2.rs: log records, the in-memory run table of an open log,
    writing, loading and the snapshot reader. Records are values here; their text form is
    in JsonModel.v. *)
From Coq Require Export Lia String.
From stdpp Require Export prelude gmap strings.

(** std::time::SystemTime, as seconds and nanoseconds since the epoch. The type of logfile2.rs:30, 44, 55, 66. *)
Record systime := SysTime { secs : N; nanos : N }.

(** logfile2.rs:27-40 HeaderEntry. Paths are their UTF-8 text. *)
Record header_entry := HeaderEntry {
  h_version : N;
  h_time : systime;
  h_user : string;
  h_hostname : string;
  h_workflow_key : string;
  h_cmdline : list string;
  h_workdir : string;
  h_pid : N;
  h_storage_roots : list string
}.

(** logfile2.rs:42-51 ReadyEntry *)
Record ready_entry := ReadyEntry {
  r_time : systime;
  r_key : string;
  r_runcount : N;
  r_command : string;
  r_storage_root : N
}.

(** logfile2.rs:53-62 StartedEntry *)
Record started_entry := StartedEntry {
  s_time : systime;
  s_key : string;
  s_host : string;
  s_pid : N;
  s_slurm_jobid : string
}.

(** logfile2.rs:64-71 FinishedEntry; [ValueMaps = Vec<HashMap<String, String>>]. *)
Record finished_entry := FinishedEntry {
  f_time : systime;
  f_key : string;
  f_status : Z;
  f_values : list (gmap string string)
}.

(** logfile2.rs:73-76 BackrefEntry *)
Record backref_entry := BackrefEntry { b_key : string }.

(** logfile2.rs:18-25 LogEntry *)
Inductive log_entry :=
| Header (h : header_entry)
| Ready (r : ready_entry)
| Started (s : started_entry)
| Finished (f : finished_entry)
| Backref (b : backref_entry).

(** logfile2.rs:16 *)
Definition LOGFILE_VERSION : N := 4.

(** logfile2.rs:166-181 RuncountStatus *)
Inductive runcount_status :=
| RReady (runcount storage_root : N)
| RStarted (runcount storage_root : N)
| RFinished (runcount storage_root : N) (success : bool).

(** The fields [runcounts] and [header] of LogFile, logfile2.rs:154-161. *)
Record log_state := LogState {
  runcounts : gmap string runcount_status;
  log_header : option header_entry
}.

(** logfile2.rs:300-301 *)
Definition empty_log_state : log_state := LogState ∅ None.

(** Outcome of LogFile::write; the constructors other than [WOk] are the panics of
    logfile2.rs:232, 246, 253, 268. I/O errors are not modelled here. *)
Inductive write_result :=
| WOk (s : log_state)
| WPanicStartedWithoutEntry
| WPanicStartedMalformed
| WPanicFinishedWithoutEntry
| WPanicFinishedMalformed.

(** logfile2.rs:213-277 LogFile::write, the state update. *)
Definition write_state (st : log_state) (e : log_entry) : write_result :=
  match e with
  | Header h => WOk (LogState (runcounts st) (Some h))
  | Ready r =>
      WOk (LogState (<[r_key r := RReady (r_runcount r) (r_storage_root r)]> (runcounts st))
                    (log_header st))
  | Started s =>
      match runcounts st !! s_key s with
      | None => WPanicStartedWithoutEntry
      | Some (RReady c srt) =>
          WOk (LogState (<[s_key s := RStarted c srt]> (delete (s_key s) (runcounts st)))
                        (log_header st))
      | Some _ => WPanicStartedMalformed
      end
  | Finished f =>
      match runcounts st !! f_key f with
      | None => WPanicFinishedWithoutEntry
      | Some (RStarted c srt) =>
          WOk (LogState (<[f_key f := RFinished c srt (Z.eqb (f_status f) 0)]>
                           (delete (f_key f) (runcounts st)))
                        (log_header st))
      | Some _ => WPanicFinishedMalformed
      end
  | Backref _ => WOk st
  end.

(** An open log: its memory state and the records of the file so far. logfile2.rs:154-161 *)
Record log_file := LogFile {
  lf_state : log_state;
  lf_entries : list log_entry
}.

(** logfile2.rs:213-277: state update, then the record is appended (274-275).
    [None] is a panic. *)
Definition log_write (l : log_file) (e : log_entry) : option log_file :=
  match write_state (lf_state l) e with
  | WOk s => Some (LogFile s (lf_entries l ++ [e]))
  | _ => None
  end.

(** One call of write (logfile2.rs:213) after the other. *)
Fixpoint log_writes (l : log_file) (es : list log_entry) : option log_file :=
  match es with
  | [] => Some l
  | e :: es => match log_write l e with Some l' => log_writes l' es | None => None end
  end.

(** Outcome of load_runcounts, logfile2.rs:297-390, on the parsed records.
    [LPanic] stands for the panics of lines 347, 361, 367, 382. *)
Inductive load_result :=
| LOk (s : log_state)
| LErrWorkflowKeyMismatch
| LErrMismatchedVersion (found : N)
| LPanic.

(** Loop variables of load_runcounts: runcounts, header, workflow_key. logfile2.rs:300-302 *)
Record load_vars := LoadVars {
  lv_runcounts : gmap string runcount_status;
  lv_header : option header_entry;
  lv_workflow_key : option string
}.

(** logfile2.rs:320-386, the match on one record. Written out as in the source: it is a
    second copy of the state machine of [write_state], not a call to it. *)
Definition load_step (v : load_vars) (e : log_entry) : load_vars + load_result :=
  match e with
  | Header h =>
      let check_version (wk : option string) :=
        if N.eqb (h_version h) LOGFILE_VERSION
        then inl (LoadVars (lv_runcounts v) (Some h) wk)
        else inr (LErrMismatchedVersion (h_version h)) in
      match lv_workflow_key v with
      | None => check_version (Some (h_workflow_key h))
      | Some existing =>
          if String.eqb existing (h_workflow_key h)
          then check_version (Some existing)
          else inr LErrWorkflowKeyMismatch
      end
  | Ready r =>
      inl (LoadVars (<[r_key r := RReady (r_runcount r) (r_storage_root r)]> (lv_runcounts v))
                    (lv_header v) (lv_workflow_key v))
  | Started s =>
      match lv_runcounts v !! s_key s with
      | Some (RReady c srt) =>
          inl (LoadVars (<[s_key s := RStarted c srt]> (delete (s_key s) (lv_runcounts v)))
                        (lv_header v) (lv_workflow_key v))
      | _ => inr LPanic
      end
  | Finished f =>
      match lv_runcounts v !! f_key f with
      | Some (RStarted c srt) =>
          inl (LoadVars (<[f_key f := RFinished c srt (Z.eqb (f_status f) 0)]>
                           (delete (f_key f) (lv_runcounts v)))
                        (lv_header v) (lv_workflow_key v))
      | _ => inr LPanic
      end
  | Backref _ => inl v
  end.

(** logfile2.rs:307-389, the loop. *)
Fixpoint load_loop (v : load_vars) (es : list log_entry) : load_result :=
  match es with
  | [] => LOk (LogState (lv_runcounts v) (lv_header v))
  | e :: es =>
      match load_step v e with
      | inl v' => load_loop v' es
      | inr err => err
      end
  end.

(** logfile2.rs:297-390 load_runcounts on parsed records. *)
Definition load_runcounts (es : list log_entry) : load_result :=
  load_loop (LoadVars ∅ None None) es.

(** logfile2.rs:185-211 LogFile::new, as far as the records are concerned: load, then go on
    appending at the end. (The lock is in LockModel.v, the bytes in JsonModel.v.) *)
Inductive open_result := OpenOk (l : log_file) | OpenErr (e : load_result).

(** logfile2.rs:202-210 *)
Definition log_open (es : list log_entry) : open_result :=
  match load_runcounts es with
  | LOk s => OpenOk (LogFile s es)
  | err => OpenErr err
  end.

(** logfile2.rs:392-394 workflow_key *)
Definition workflow_key (s : log_state) : option string :=
  option_map h_workflow_key (log_header s).

(** logfile2.rs:421-423 header_version *)
Definition header_version (s : log_state) : option N :=
  option_map h_version (log_header s).

(** logfile2.rs:429-431 runcount *)
Definition runcount (s : log_state) (key : string) : option runcount_status :=
  runcounts s !! key.

(** logfile2.rs:433-441 has_success *)
Definition has_success (s : log_state) (key : string) : bool :=
  match runcounts s !! key with
  | Some (RFinished _ _ success) => success
  | _ => false
  end.

(** logfile2.rs:443-451 has_failure *)
Definition has_failure (s : log_state) (key : string) : bool :=
  match runcounts s !! key with
  | Some (RFinished _ _ success) => negb success
  | _ => false
  end.

(** ** Snapshot reader, logfile2.rs:468-569 *)

(** logfile2.rs:477-491: iterate backward up to the first header. Argument: the records in
    reverse order, and the accumulators [result_current] (in push order) and
    [pending_backrefs]. Returns the header, the accumulators and the rest of the reversed
    records. *)
Fixpoint read_last_segment (rev_entries : list log_entry) (result_current : list log_entry)
    (pending : gset string)
    : option log_entry * list log_entry * gset string * list log_entry :=
  match rev_entries with
  | [] => (None, result_current, pending, [])
  | item :: rest =>
      match item with
      | Header _ => (Some item, result_current, pending, rest)
      | Backref b => read_last_segment rest result_current ({[ b_key b ]} ∪ pending)
      | _ => read_last_segment rest (result_current ++ [item]) pending
      end
  end.

(** logfile2.rs:497-528: continue backward, moving the records of pending keys to
    [result_current]; stop once nothing is pending. *)
Fixpoint read_backrefs (rev_entries : list log_entry) (current outdated : list log_entry)
    (pending : gset string) : list log_entry * list log_entry * list log_entry :=
  match rev_entries with
  | [] => (current, outdated, [])
  | item :: rest =>
      let '(current', outdated', pending') :=
        match item with
        | Ready v =>
            if decide (r_key v ∈ pending)
            then (current ++ [item], outdated, pending ∖ {[ r_key v ]})
            else (current, outdated ++ [item], pending)
        | Started v =>
            if decide (s_key v ∈ pending)
            then (current ++ [item], outdated, pending)
            else (current, outdated ++ [item], pending)
        | Finished v =>
            if decide (f_key v ∈ pending)
            then (current ++ [item], outdated, pending)
            else (current, outdated ++ [item], pending)
        | _ => (current, outdated ++ [item], pending)
        end in
      if decide (pending' = ∅) then (current', outdated', rest)
      else read_backrefs rest current' outdated' pending'
  end.

(** logfile2.rs:545-551: the key of a record, none for a header. *)
Definition entry_key (e : log_entry) : option string :=
  match e with
  | Header _ => None
  | Ready r => Some (r_key r)
  | Started s => Some (s_key s)
  | Finished f => Some (f_key f)
  | Backref b => Some (b_key b)
  end.

(** logfile2.rs:557-566 *)
Definition filter_outdated (current_keys : gset string) (outdated : list log_entry)
    : list log_entry :=
  List.filter (fun x => match entry_key x with
                        | None => true
                        | Some k => negb (bool_decide (k ∈ current_keys))
                        end) outdated.

(** logfile2.rs:468-569 read_current_and_outdated, on the records that [read] returned.
    [None] is the panic of the assertion on line 540. *)
Definition read_current_and_outdated (all_entries : list log_entry)
    : option (list log_entry * list log_entry) :=
  let count := length all_entries in
  let '(header, result_current, pending, rest) :=
    read_last_segment (rev all_entries) [] ∅ in
  let nbackrefs := size pending in
  let '(result_current, result_outdated, rest) :=
    read_backrefs rest result_current [] pending in
  let result_current :=
    match header with Some h => result_current ++ [h] | None => result_current end in
  let result_outdated := result_outdated ++ rest in
  let current := rev result_current in
  let outdated := rev result_outdated in
  if Nat.eqb (length current + length outdated + nbackrefs) count then
    let current_keys := list_to_set (omap entry_key current) in
    Some (current, filter_outdated current_keys outdated)
  else None.
