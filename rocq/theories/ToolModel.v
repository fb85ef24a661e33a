(** Model of the functions that read and write log files from Python, /repo/src/pylib.rs:397-420.

    Simplifications: the conversion to Python values and back (pythonize) gives back the same records; the lock of
    write_logfile is in LockModel.v; the disk does not fail. *)
From Verif Require Export JsonModel JsonSpec.
Open Scope string_scope.

(** What load_logfile returns: a pair of lists for "current,outdated", a list otherwise. *)
Inductive loaded :=
| LoadedPair (current outdated : list log_entry)
| LoadedList (es : list log_entry)
| LoadFailed                       (* OSError: no file, or a line that is not UTF-8 *)
| LoadPanicked                     (* the assertion of logfile2.rs:540 *)
| LoadBadMode.                     (* ValueError *)

(** logfile2.rs:468-473: read, then split *)
Definition on_snapshot (f : bytes) (k : list log_entry * list log_entry -> loaded) : loaded :=
  match read_file f with
  | None => LoadFailed
  | Some es => match read_current_and_outdated es with None => LoadPanicked | Some r => k r end
  end.

(** pylib.rs:397-409; [None]: there is no such file *)
Definition load_logfile (file : option bytes) (mode : string) : loaded :=
  match file with
  | None => LoadFailed
  | Some f =>
      if String.eqb mode "current,outdated" then on_snapshot f (fun r => LoadedPair (fst r) (snd r))
      else if String.eqb mode "current" then on_snapshot f (fun r => LoadedList (fst r))
      else if String.eqb mode "outdated" then on_snapshot f (fun r => LoadedList (snd r))
      else if String.eqb mode "all" then match read_file f with None => LoadFailed | Some es => LoadedList es end
      else LoadBadMode
  end.

(** pylib.rs:416-418: the records that are written, and whether the loop comes to its end (otherwise: the panics of
    LogFile::write). *)
Fixpoint write_all (st : log_state) (es : list log_entry) : list log_entry * bool :=
  match es with
  | [] => ([], true)
  | e :: es =>
      match write_state st e with
      | WOk st' => (e :: fst (write_all st' es), snd (write_all st' es))
      | _ => ([], false)
      end
  end.

(** pylib.rs:411-420 [write_logfile old es new ok]: the file was [old] ([None]: there was none) and is [new]; [ok]: the function
    returned. After a panic the buffer is flushed when the log is dropped. LogFile::new leaves the file position at the
    end, so records are appended. *)
Definition write_logfile (old : option bytes) (es : list log_entry) (new : bytes) (ok : bool) : Prop :=
  let f := match old with Some f => f | None => [] end in
  match load_file f with
  | FLoaded (LOk s) => (exists t, file_of (fst (write_all s es)) t /\ new = (f ++ t)%list) /\ ok = snd (write_all s es)
  | _ => new = f /\ ok = false
  end.
