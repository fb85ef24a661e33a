(** The log of a running execute() in bytes: what is in the file already, and what is still in the buffer of the
    process. Models the writes and the flushing of /repo/src/sync.rs (background_serve) on top of SchedModel.v.

    Simplified: BufWriter (in the crate bufreaderwriter) decides by the size of its buffer when to pass bytes to the
    file; here it may pass any number of them at any time, so that the moment and the place of a cut are arbitrary.
    The operating system keeps what it was given: the death of the process is modelled, that of the machine is not
    (nothing in the code calls fsync). *)
From Verif Require Export SessionModel JsonModel JsonSpec.

(** An execute() call with the file and the buffer of its log (logfile2.rs:154-155, 425-427, sync.rs:279-286). *)
Record flushing := Flushing {
  fl_sched : st;                           (* tracker and runners *)
  fl_file : bytes;                         (* what the log file holds *)
  fl_buffer : bytes                        (* written, not passed on *)
}.

(** The records that were written (logfile2.rs:213-277, LogFile::write). *)
Definition written (s : st) : list log_entry := lf_entries (sv_log (st_sv s)).

Inductive flush_event :=
| EStep (a : action) (os : list obs)       (* anything SchedModel.v knows *)
| EPass (n : nat)                          (* the buffer passes its first n bytes to the file *)
| EFlush.                                  (* sync.rs:279-286: the ticker; flush *)

Inductive flush_step (cfg : config) : flushing -> flush_event -> flushing -> Prop :=
(* the records of the step go into the buffer (logfile2.rs:274-275) *)
| FS_step s file buf a s' os new text :
    step cfg s a = Some (s', os) -> written s' = written s ++ new -> file_of new text ->
    flush_step cfg (Flushing s file buf) (EStep a os) (Flushing s' file (buf ++ text))
(* bufreaderwriter, std::io::BufWriter *)
| FS_pass s file buf n :
    flush_step cfg (Flushing s file buf) (EPass n) (Flushing s (file ++ take n buf) (drop n buf))
(* sync.rs:279-286, 425-427 of logfile2.rs; only the select! of sync.rs:278 gets there *)
| FS_flush s file buf :
    server_idle s = true ->
    flush_step cfg (Flushing s file buf) EFlush (Flushing s (file ++ buf) []).

(** Any number of such steps of sync.rs:255-384. *)
Inductive flush_history (cfg : config) : flushing -> list flush_event -> flushing -> Prop :=
| fh_nil v : flush_history cfg v [] v
| fh_cons v1 e v2 es v3 : flush_step cfg v1 e v2 -> flush_history cfg v2 es v3 -> flush_history cfg v1 (e :: es) v3.

(** SIGKILL: some of the buffer may have got into the file, the rest is gone (the buffer of logfile2.rs:155). It models no code. *)
Definition killed (v : flushing) (g : bytes) : Prop := exists n, g = fl_file v ++ take n (fl_buffer v).
