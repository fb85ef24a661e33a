(** Model of the places where tasks are stored: storage roots, and the location of a finished
    task. Models /repo/src/logfile2.rs:396-419 and /repo/src/pylib.rs:124-126, 134-172. A path
    is its text (Unix). [dir] is the directory of the log file: LogFile::new stores the
    canonical path of the log (logfile2.rs:204), so that [dir] begins with a slash. *)
From Coq Require Import DecimalString.
From Verif Require Export SessionModel.
Open Scope string_scope.

(** std::path::Path::is_absolute. Used at logfile2.rs:413. *)
Definition is_absolute (p : string) : bool :=
  match p with String "/" _ => true | _ => false end.

(** The text ends in a slash. A helper of [path_join] (logfile2.rs:416). *)
Fixpoint ends_in_slash (p : string) : bool :=
  match p with
  | EmptyString => false
  | String c EmptyString => Ascii.eqb c "/"
  | String _ r => ends_in_slash r
  end.

(** std::path::Path::join. Used at logfile2.rs:416 and pylib.rs:166. *)
Definition path_join (base p : string) : string :=
  if is_absolute p then p
  else if String.eqb base "" || ends_in_slash base then base +:+ p
  else base +:+ "/" +:+ p.

(** logfile2.rs:408-419: the storage root number [id], as a path. *)
Definition storage_root_path (dir : string) (s : log_state) (id : N) : option string :=
  option_map (fun p => if is_absolute p then p else path_join dir p) (storage_root s id).

(** Iterator::collect into an Option. Used at logfile2.rs:404. *)
Fixpoint collect {A} (l : list (option A)) : option (list A) :=
  match l with
  | [] => Some []
  | None :: _ => None
  | Some x :: l => match collect l with None => None | Some r => Some (x :: r) end
  end.

(** logfile2.rs:396-406, pylib.rs:124-126; [None] is the panic of unwrap. *)
Definition all_storage_roots (dir : string) (s : log_state) : option (list string) :=
  let n := match log_header s with Some h => length (h_storage_roots h) | None => 0 end in
  collect (map (fun id => storage_root_path dir s (N.of_nat id)) (seq 0 n)).

(** The Display of a u32. *)
Definition decimal (n : N) : string := NilEmpty.string_of_uint (N.to_uint n).

(** pylib.rs:134-172 with the path; [None] is the panic. *)
Definition py_logfile_runcount (dir : string) (s : log_state) (key : string)
    : option (N * option string) :=
  match runcount s key with
  | None => Some (0%N, None)
  | Some (RReady c _) => Some (c, None)
  | Some (RStarted c _) => Some ((c + 1)%N, None)
  | Some (RFinished c sr true) =>
      match storage_root_path dir s sr with
      | None => None
      | Some root => Some (c, Some (path_join root (key +:+ "." +:+ decimal c)))
      end
  | Some (RFinished c _ false) => Some ((c + 1)%N, None)
  end.
