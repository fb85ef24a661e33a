(** Model of the console and the file to which messages go, /repo/src/logging.rs. The file is log.txt
    next to the log of the graph constructed last (/repo/src/pylib.rs:82-84). Messages are logged by several threads; one action = one critical section
    of the mutex. [C]: the capacity of std::io::BufWriter (8 KiB).

    Simplification: a path always names the same file. *)
From Verif Require Export Utf8Model.

(** What a write of a nonempty buffer to a file or to the console returns (logging.rs:76-78). *)
Inductive wres := Took (n : nat) | WFailed.

(** ConsoleAndFile (47-52): the file with what its BufWriter holds, and what was given to the console; the files; for each
    thread what it has yet to write; whether the mutex is poisoned. *)
Record sink := Sink { sk_file : option (string * bytes); sk_console : bytes; sk_disk : string -> bytes; sk_threads : nat -> option (list bytes); sk_poisoned : bool }.

(** It models no code: bytes appended to a file, which is opened for appending (logging.rs:96-102). *)
Definition put (f : string) (b : bytes) (d : string -> bytes) : string -> bytes := fun g => if String.eqb f g then d g ++ b else d g.
(** It models no code: a changed map of the threads that log (logging.rs:171-176). *)
Definition upd {A} (i : nat) (x : A) (m : nat -> A) : nat -> A := fun j => if Nat.eqb i j then x else m j.

(** The piece of [b] that a write has taken. It models no code of /repo: what a system call below logging.rs:76-78 has taken. *)
Definition piece (n : nat) (b : bytes) : option bytes := if Nat.leb 1 n && Nat.leb n (length b) then Some (take n b) else None.

(** BufWriter::flush_buf: success, what is still held, the files, the results not used
    (called by logging.rs:78, 87 and when the writer is dropped, 102). *)
Fixpoint flush_buf (f : string) (rs : list wres) (buf : bytes) (d : string -> bytes) : option (bool * bytes * (string -> bytes) * list wres) :=
  match buf with
  | [] => Some (true, [], d, rs)
  | _ =>
      match rs with
      | [] => None
      | WFailed :: rs' => Some (false, buf, d, rs')
      | Took n :: rs' => match piece n buf with Some p => flush_buf f rs' (drop n buf) (put f p d) | None => None end
      end
  end.

Inductive sinkact :=
| Init (path : option string) (opens : bool) (rs : list wres)  (* init_logging, 129-155 *)
| Begin (i : nat) (frags : list bytes)          (* _rawlog, or an event of tracing: write_fmt of these fragments begins *)
| Go (i : nat) (c : wres) (rs : list wres)      (* the next call of ConsoleAndFile::write by this thread *)
| Flush (c : bool) (rs : list wres).            (* flush_logging; c: the console could be flushed *)

Inductive sinkobs :=
| Began (i : nat) (frags : list bytes)
| ToConsole (i : nat) (b : bytes)
| ToFile (i : nat) (f : string) (b : bytes)
| Ended (i : nat) (ok : bool)                   (* write_fmt has returned *)
| Flushed (ok : bool)
| Panic.                                        (* lock().unwrap() of a poisoned mutex, or the file cannot be opened *)

Section sink.
Variable C : nat.

(** BufWriter::write: success with the number of bytes taken, what is held, the files (called by logging.rs:78). *)
Definition buf_write (f : string) (rs : list wres) (buf b : bytes) (d : string -> bytes) : option (option nat * bytes * (string -> bytes)) :=
  match (if Nat.ltb (C - length buf) (length b) then flush_buf f rs buf d else Some (true, buf, d, rs)) with
  | None => None
  | Some (false, buf', d', _) => Some (None, buf', d')
  | Some (true, buf', d', rs') =>
      if Nat.leb C (length b) then
        match rs' with
        | Took n :: _ => match piece n b with Some p => Some (Some n, buf', put f p d') | None => None end
        | WFailed :: _ => Some (None, buf', d')
        | [] => None
        end
      else Some (Some (length b), buf' ++ b, d')
  end.

(** ConsoleAndFile::write (74-81) within write_all of the fragment [b]: the console, then the file; the result of the
    console is only checked for errors, the number of bytes is that of the file. write_all gives up on 0 bytes. *)
Definition sink_write (s : sink) (i : nat) (b : bytes) (r : list bytes) (c : wres) (rs : list wres) : option (sink * list sinkobs) :=
  let stop con file d obs := Some (Sink file con d (upd i None (sk_threads s)) false, obs ++ [Ended i false]) in
  match c with
  | WFailed => stop (sk_console s) (sk_file s) (sk_disk s) []
  | Took k =>
      match piece k b with
      | None => None
      | Some p =>
          let con := sk_console s ++ p in
          match sk_file s with
          | None => stop con None (sk_disk s) [ToConsole i p]
          | Some (f, buf) =>
              match buf_write f rs buf b (sk_disk s) with
              | None => None
              | Some (None, buf', d') => stop con (Some (f, buf')) d' [ToConsole i p]
              | Some (Some n, buf', d') =>
                  Some (Sink (Some (f, buf')) con d' (upd i (Some (drop n b :: r)) (sk_threads s)) false, [ToConsole i p; ToFile i f (take n b)])
              end
          end
      end
  end.

Definition sink_step (s : sink) (a : sinkact) : option (sink * list sinkobs) :=
  match a with
  | Init None _ _ => Some (s, [])                                                      (* 95: set_path ignores None *)
  | Init (Some p) opens rs =>                                                          (* 94-106 *)
      if sk_poisoned s then Some (s, [Panic])
      else if opens then
        match sk_file s with
        | None => Some (Sink (Some (p, [])) (sk_console s) (sk_disk s) (sk_threads s) false, [])
        | Some (f, buf) =>                                                             (* the old writer is dropped: flushed, errors ignored *)
            match flush_buf f rs buf (sk_disk s) with
            | None => None
            | Some (_, _, d', _) => Some (Sink (Some (p, [])) (sk_console s) d' (sk_threads s) false, [])
            end
        end
      else Some (Sink (sk_file s) (sk_console s) (sk_disk s) (sk_threads s) true, [Panic])  (* 102 *)
  | Begin i frags =>
      match sk_threads s i with
      | None => Some (Sink (sk_file s) (sk_console s) (sk_disk s) (upd i (Some frags) (sk_threads s)) (sk_poisoned s), [Began i frags])
      | Some _ => None
      end
  | Go i c rs =>
      match sk_threads s i with
      | None => None
      | Some [] => Some (Sink (sk_file s) (sk_console s) (sk_disk s) (upd i None (sk_threads s)) (sk_poisoned s), [Ended i true])
      | Some ([] :: r) => Some (Sink (sk_file s) (sk_console s) (sk_disk s) (upd i (Some r) (sk_threads s)) (sk_poisoned s), [])
      | Some (b :: r) =>
          if sk_poisoned s then Some (Sink (sk_file s) (sk_console s) (sk_disk s) (upd i None (sk_threads s)) true, [Panic])
          else sink_write s i b r c rs
      end
  | Flush c rs =>                                                                      (* 83-90, 119-124 *)
      if sk_poisoned s then Some (s, [Panic])
      else if c then
        match sk_file s with
        | None => Some (s, [Flushed true])
        | Some (f, buf) =>
            match flush_buf f rs buf (sk_disk s) with
            | None => None
            | Some (ok, buf', d', _) => Some (Sink (Some (f, buf')) (sk_console s) d' (sk_threads s) false, [Flushed ok])
            end
        end
      else Some (s, [Flushed false])
  end.

(** A list of critical sections; it models no code: any order of the calls of logging.rs:74-105 is such a list. *)
Fixpoint sink_run (s : sink) (acts : list sinkact) : option (sink * list sinkobs) :=
  match acts with
  | [] => Some (s, [])
  | a :: rest =>
      match sink_step s a with
      | None => None
      | Some (s', os) => match sink_run s' rest with Some (s'', os') => Some (s'', os ++ os') | None => None end
      end
  end.
End sink.

(** The module has been imported (/repo/src/pylib.rs:428, init_logging of None); the files have this content. *)
Definition sink_start (disk : string -> bytes) : sink := Sink None [] disk (fun _ => None) false.
