(** Model of /repo/src/bin/execgraph-remote.rs: the watcher of slurm's error file, 671-729, with the task that is being waited for, and
    the placeholders in two options of the command line, 643-669. *)
From Verif Require Export JsonModel RemoteModel.
Open Scope list_scope.

(** ** Strings, as bytes *)
(** A helper of [contains], which is used at execgraph-remote.rs:707. *)
Fixpoint starts_with (p s : bytes) : bool :=
  match p, s with
  | [], _ => true
  | a :: p, b :: s => Ascii.eqb a b && starts_with p s
  | _, [] => false
  end.
(** str::contains, and Regex::is_match for a pattern without operators. execgraph-remote.rs:707 *)
Fixpoint contains (p s : bytes) : bool :=
  starts_with p s || match s with [] => false | _ :: s => contains p s end.

(** ** The watcher *)
(** 28 FINAL_SLURM_ERROR_MESSAGE_STRINGS: the regular expression CANCELLED|FAILED|ERROR *)
Definition FINAL_MESSAGES : list bytes := [B "CANCELLED"; B "FAILED"; B "ERROR"].
(** 705-706 *)
Definition shown (buffer : bytes) : bytes :=
  if utf8_valid buffer then buffer else B "Unable to read slurm error file. Utf8 issue?".
(** 707 *)
Definition is_alarm (s : bytes) : bool := existsb (fun w => contains w s) FINAL_MESSAGES || contains (B "Unable to read") s.

(** The file (which slurm appends to), the position of the watcher in it, the number of events of inotify that the watcher's thread has
    not yet taken, the message this thread is sending (tx.send waits while the channel, which has room for one, is full), the
    channel, and the runner. The buffer of the watcher is the file up to the position.
    execgraph-remote.rs:681, 687-688, 710, and run_command (201-516). *)
Record alarm := Alarm {
  al_file : bytes;
  al_pos : nat;
  al_events : nat;
  al_sending : option bytes;
  al_channel : option bytes;
  al_runner : remote
}.

Inductive alarm_action :=
| WAppend (b : bytes) (coalesced : bool)  (* slurm writes; inotify may merge the event with one that is waiting *)
| WTouch                                  (* a modification that writes nothing, as of the metadata *)
| WEvent                                  (* the watcher's thread takes an event, 690-716 *)
| WSend                                   (* there is room in the channel *)
| WRecv                                   (* notify_rx.recv() in run_command, 434 *)
| WRunner (i : remote_input).             (* anything else that happens to the runner *)

Inductive alarm_obs :=
| AMessage (m : bytes)                    (* a message enters the channel *)
| ARunner (e : remote_event).

(** Whether it comes through notify_rx (434). *)
Definition from_watcher (i : remote_input) : bool := match i with ISlurm _ => true | _ => false end.

(** 690-716 for the watcher, 434-460 for its message in the runner; the lines are at the actions. *)
Definition alarm_step (cf : config) (s : alarm) (a : alarm_action) : option (alarm * list alarm_obs) :=
  match s with
  | Alarm file pos events sending channel r =>
      match a with
      | WAppend b coalesced =>
          if coalesced && Nat.eqb events 0 then None
          else Some (Alarm (file ++ b) pos (if coalesced then events else S events) sending channel r, [])
      | WTouch => Some (Alarm file pos (S events) sending channel r, [])
      | WEvent =>
          match sending, events with
          | None, S n =>
              (* read_to_end: the buffer is now the whole file *)
              Some (Alarm file (length file) n (if is_alarm (shown file) then Some (shown file) else None) channel r, [])
          | _, _ => None
          end
      | WSend =>
          match sending, channel with
          | Some m, None => Some (Alarm file pos events None (Some m) r, [AMessage m])
          | _, _ => None
          end
      | WRecv =>
          match channel with
          | Some m =>
              match remote_step cf r (ISlurm (S_of m)) with
              | Some (r', es) => Some (Alarm file pos events sending None r', map ARunner es)
              | None => None
              end
          | None => None
          end
      | WRunner i =>
          if from_watcher i then None
          else match remote_step cf r i with
               | Some (r', es) => Some (Alarm file pos events sending channel r', map ARunner es)
               | None => None
               end
      end
  end.

(** A list of actions; it models no code: any interleaving of slurm, the watcher's thread (690-716) and the runner is such a
    list. *)
Fixpoint alarm_run (cf : config) (s : alarm) (acts : list alarm_action) : option (alarm * list alarm_obs) :=
  match acts with
  | [] => Some (s, [])
  | a :: acts =>
      match alarm_step cf s a with
      | Some (s1, os1) => match alarm_run cf s1 acts with Some (s2, os2) => Some (s2, os1 ++ os2) | None => None end
      | None => None
      end
  end.

(** 687-688, 717: the file is opened, and only later events are seen. *)
Definition alarm_start (file : bytes) : alarm := Alarm file 0 0 None None MStart.

(** ** Placeholders *)
(** str::replace of a percent sign and a letter. 644, 657-667 *)
Fixpoint replace (letter : ascii) (v s : bytes) : bytes :=
  match s with
  | [] => []
  | a :: s' =>
      match s' with
      | b :: s'' => if Ascii.eqb a "%" && Ascii.eqb b letter then v ++ replace letter v s'' else a :: replace letter v s'
      | [] => [a]
      end
  end.

(** What the options read: username(), and environment variables ([None]: not set). 644-646, 652-654, 657-667. *)
Record surroundings := Surroundings {
  su_user : bytes;
  su_job_id : option bytes;        (* SLURM_JOB_ID *)
  su_array_job : option bytes;     (* SLURM_ARRAY_JOB_ID *)
  su_array_task : option bytes;    (* SLURM_ARRAY_TASK_ID *)
  su_job_name : option bytes;      (* SLURM_JOB_NAME *)
  su_cluster : option bytes;       (* SLURM_CLUSTER_NAME *)
  su_host : bytes                  (* gethostname().to_string_lossy() *)
}.

(** 643-649 parse_slurm_error_logfile; [None]: panic *)
Definition error_logfile (su : surroundings) (s : bytes) : option bytes :=
  let out := replace "u" (su_user su) s in
  match su_job_id su with Some j => Some (replace "j" j out) | None => None end.

(** 651-669 parse_disconnect_error_message; 37-42 is the same text *)
Definition slurm_jobid (su : surroundings) : bytes := default [] (su_array_job su) ++ B "_" ++ default [] (su_array_task su).
(** 656-667 *)
Definition disconnect_message (su : surroundings) (s : bytes) : bytes :=
  replace "h" (su_host su)
   (replace "c" (default (B "%c") (su_cluster su))
    (replace "x" (default (B "%x") (su_job_name su))
     (replace "j" (slurm_jobid su)
      (replace "u" (su_user su) s)))).
