(** Model of /repo/src/localrunner.rs: exit statuses, the values read from file descriptor 3 and the loop of a local
    runner. *)
From Verif Require Export Utf8Model SchedModel.

(** ** Exit statuses *)
(** std::process::ExitStatus::code on Unix: WIFEXITED and WEXITSTATUS of the status from waitpid. *)
Definition wait_code (raw : N) : option Z :=
  if N.eqb (N.land raw 127) 0 then Some (Z.of_N (N.land (N.shiftr raw 8) 255)) else None.
(** ExitStatusExt::signal: WIFSIGNALED and WTERMSIG; 127 means stopped or continued. *)
Definition wait_signal (raw : N) : option Z :=
  let s := N.land raw 127 in if N.eqb s 0 || N.eqb s 127 then None else Some (Z.of_N s).
(** localrunner.rs:232-238 ChildOutput::code; [None]: the expect panics. *)
Definition child_code (raw : N) : option exit_status :=
  match wait_code raw with
  | Some c => Some (Code c)
  | None => match wait_signal raw with Some s => Some (Code (- s)) | None => None end
  end.

(** ** Values from file descriptor 3 *)
Definition NL : ascii := "010".
(** The characters that lines() (localrunner.rs:263), split() (250) and find() (254) look for. *)
Definition CR : ascii := "013".
(** (250) *)
Definition TAB : ascii := "009".
(** (250) *)
Definition SP : ascii := " ".
(** (250) *)
Definition QUOTE : ascii := "'".
(** (250) *)
Definition DQUOTE : ascii := """".
(** (250) *)
Definition BACKSLASH : ascii := "\".
(** (250) *)
Definition HASH : ascii := "#".
(** (254) *)
Definition EQUALS : ascii := "=".

(** str::lines: split at newlines; an empty rest after the last newline is no line; one carriage return before the
    newline is dropped. [cur] is the present line, reversed. Reached from localrunner.rs:263. *)
Fixpoint lines_from (cur : bytes) (s : bytes) : list bytes :=
  match s with
  | [] => match cur with [] => [] | _ => [rev cur] end
  | c :: s =>
      if decide (c = NL) then rev (match cur with d :: cur' => if decide (d = CR) then cur' else cur | [] => [] end) :: lines_from [] s
      else lines_from (c :: cur) s
  end.
(** localrunner.rs:263 *)
Definition str_lines (s : bytes) : list bytes := lines_from [] s.

(** shell_words 1.1.0 split: the states and the transitions of its loop. Its characters are the bytes here: it compares
    with ASCII characters only and copies the others. [word] is the present word, reversed. *)
Inductive sw_state := Delimiter | Backslash | Unquoted | UnquotedBackslash | SingleQuoted | DoubleQuoted | DoubleQuotedBackslash | Comment.
(** The separators of words (shell_words 1.1.0; localrunner.rs:250). *)
Definition is_blank (c : ascii) : bool := bool_decide (c = TAB) || bool_decide (c = SP) || bool_decide (c = NL).

(** The loop of shell_words::split (localrunner.rs:250); [None] is the ParseError of a missing closing quote. *)
Fixpoint sw_split (st : sw_state) (word : bytes) (s : bytes) : option (list bytes) :=
  match s with
  | [] =>
      match st with
      | Delimiter | Comment => Some []
      | Backslash | UnquotedBackslash => Some [rev (BACKSLASH :: word)]
      | Unquoted => Some [rev word]
      | SingleQuoted | DoubleQuoted | DoubleQuotedBackslash => None
      end
  | c :: s =>
      match st with
      | Delimiter =>
          if decide (c = QUOTE) then sw_split SingleQuoted word s
          else if decide (c = DQUOTE) then sw_split DoubleQuoted word s
          else if decide (c = BACKSLASH) then sw_split Backslash word s
          else if is_blank c then sw_split Delimiter word s
          else if decide (c = HASH) then sw_split Comment word s
          else sw_split Unquoted (c :: word) s
      | Backslash => if decide (c = NL) then sw_split Delimiter word s else sw_split Unquoted (c :: word) s
      | Unquoted =>
          if decide (c = QUOTE) then sw_split SingleQuoted word s
          else if decide (c = DQUOTE) then sw_split DoubleQuoted word s
          else if decide (c = BACKSLASH) then sw_split UnquotedBackslash word s
          else if is_blank c then match sw_split Delimiter [] s with Some ws => Some (rev word :: ws) | None => None end
          else sw_split Unquoted (c :: word) s
      | UnquotedBackslash => if decide (c = NL) then sw_split Unquoted word s else sw_split Unquoted (c :: word) s
      | SingleQuoted => if decide (c = QUOTE) then sw_split Unquoted word s else sw_split SingleQuoted (c :: word) s
      | DoubleQuoted =>
          if decide (c = DQUOTE) then sw_split Unquoted word s
          else if decide (c = BACKSLASH) then sw_split DoubleQuotedBackslash word s
          else sw_split DoubleQuoted (c :: word) s
      | DoubleQuotedBackslash =>
          if decide (c = NL) then sw_split DoubleQuoted word s
          else if bool_decide (c = "$"%char) || bool_decide (c = "`"%char) || bool_decide (c = DQUOTE) || bool_decide (c = BACKSLASH)
          then sw_split DoubleQuoted (c :: word) s
          else sw_split DoubleQuoted (c :: BACKSLASH :: word) s
      | Comment => if decide (c = NL) then sw_split Delimiter word s else sw_split Comment word s
      end
  end.
(** localrunner.rs:250 *)
Definition shell_split (s : bytes) : option (list bytes) := sw_split Delimiter [] s.

(** localrunner.rs:254-256: split at the first '='. *)
Fixpoint split_eq (s : bytes) : option (bytes * bytes) :=
  match s with
  | [] => None
  | c :: s => if decide (c = EQUALS) then Some ([], s) else match split_eq s with Some (k, v) => Some (c :: k, v) | None => None end
  end.
(** The String of some bytes (255). *)
Definition text (b : bytes) : string := string_of_list_ascii b.

(** localrunner.rs:249-258 parse_line: the pairs are collected into a HashMap in their order. *)
Definition parse_line (line : bytes) : option (gmap string string) :=
  match shell_split line with
  | Some fields =>
      Some (fold_left (fun m f => match split_eq f with Some (k, v) => <[text k := text v]> m | None => m end) fields ∅)
  | None => None
  end.
(** localrunner.rs:248-268 fd3_values *)
Definition fd3_values (b : bytes) : list (gmap string string) :=
  if utf8_valid b then omap parse_line (str_lines b) else [].

(** ** The loop of a local runner, localrunner.rs:34-159 *)
(** What the loop waits for. *)
Inductive loop_state :=
| LRecv                      (* in tracker.recv, 46 *)
| LTaken (n : nat)           (* a task was taken; the process is being spawned, 47-94 *)
| LFeeding (n : nat) (pid : N)(* writing to fd 4 of the process, 117-122 *)
| LRunning (n : nat)         (* in select!, 133-147 *)
| LEnded                     (* the function has returned *)
| LPanicked.                 (* the thread has panicked *)
(** What can happen. *)
Inductive loop_input :=
| InTask (n : nat) | InErr                          (* recv returns *)
| InSetupFails                                      (* a panic before the spawn: pipes cannot be created (51, 53; expect), or the
                                                       descriptor of fd_input is 3 as well (87-88: unwrap of FdMappingCollision) *)
| InSpawnFails                                      (* 99-113 *)
| InSpawned (pid : N) (has_input : bool)            (* 98; whether the command has fd_input *)
| InFed | InFeedFails                               (* 120-121: write_all and flush, with unwrap *)
| InSoft (t : N) | InHard                           (* 134: soft_cancelled returns *)
| InOutput (raw : N) (fd3 : bytes)                  (* 144: wait_with_output returns Ok *)
| InWaitFails.                                      (* 145: it returns Err; unwrap *)
(** What the loop does to the tracker. localrunner.rs:46, 48, 101, 104, 130, 138, 151. *)
Inductive loop_call :=
| CallRecv | CallPreamble (n : nat)
| CallStarted (n : nat) (pid : N)
| CallFinished (n : nat) (s : exit_status) (values : list (gmap string string)).

(** One step of localrunner.rs:46-153; the lines are at the inputs and the states. *)
Definition loop_step (st : loop_state) (i : loop_input) : option (loop_state * list loop_call) :=
  match st, i with
  | LRecv, InTask n => Some (LTaken n, [CallPreamble n])
  | LRecv, InErr => Some (LEnded, [])
  | LTaken n, InSetupFails => Some (LPanicked, [])
  | LTaken n, InSpawnFails => Some (LRecv, [CallStarted n 0; CallFinished n (Code (-1)) []; CallRecv])
  | LTaken n, InSpawned pid false => Some (LRunning n, [CallStarted n pid])
  | LTaken n, InSpawned pid true => Some (LFeeding n pid, [])
  | LFeeding n pid, InFed => Some (LRunning n, [CallStarted n pid])
  | LFeeding n pid, InFeedFails => Some (LPanicked, [])
  | LRunning n, InSoft _ => Some (LEnded, [CallFinished n Cancelled []])
  | LRunning n, InHard => Some (LEnded, [])
  | LRunning n, InOutput raw fd3 =>
      match child_code raw with
      | Some s => Some (LRecv, [CallFinished n s (fd3_values fd3); CallRecv])
      | None => Some (LPanicked, [])
      end
  | LRunning n, InWaitFails => Some (LPanicked, [])
  | _, _ => None
  end.

Fixpoint loop_run (st : loop_state) (is : list loop_input) : option (loop_state * list loop_call) :=
  match is with
  | [] => Some (st, [])
  | i :: is =>
      match loop_step st i with
      | Some (st', cs) => match loop_run st' is with Some (st'', cs') => Some (st'', cs ++ cs') | None => None end
      | None => None
      end
  end.
(** Line 46, the first time. *)
Definition loop_start : loop_state * list loop_call := (LRecv, [CallRecv]).

(** ** What a remote runner reports, execgraph-remote.rs:370-378, 448-457, 480-482, and server.rs:484 *)
Inductive remote_outcome := RUnspawnable | RSlurmError | ROutput (raw : N).
(** RUnspawnable: execgraph-remote.rs:373; RSlurmError: 452; ROutput: 480-482. *)
Definition remote_status (o : remote_outcome) : option exit_status :=
  match o with
  | RUnspawnable => Some (Code 13)
  | RSlurmError => Some (Code (-15))
  | ROutput raw => match child_code raw with Some s => Some (Code (as_i32 s)) | None => None end
  end.
