(** Model of the lock on a log directory, /repo/src/logfile2.rs:185-211 (LogFile::new) and 454-460 (Drop), with the
    part of the file system it uses: the name .wrk.lock, inodes, flock(2) and the bytes of the log. Any number of
    processes; each system call is one step. The lock is that of the process's open file; a forked child that has not
    yet called exec is not modelled. What is written into the lock file (193-195) is never read. *)
From Coq Require Export Ascii.
From stdpp Require Export prelude gmap strings.

(** The content of a file (logfile2.rs:197-201). *)
Definition bytes := list ascii.

(** An open LogFile: what load_runcounts read, the offset of its file and what is buffered (BufReaderWriter). logfile2.rs:154-161, 204. *)
Record session := Session { s_loaded : bytes; s_pos : nat; s_buf : bytes }.

Inductive phase :=
| POpened (ino : nat)                      (* after line 191: the lock file is open *)
| PLocked (ino : nat)                      (* after 192: it is locked *)
| PSession (ino : nat) (s : session)       (* after 203: the log is open *)
| PUnlinked (ino : nat) (s : session)      (* after 457: Drop has removed the lock file; the fields are not dropped yet *)
| PFlushed (ino : nat).                    (* field f is dropped, field lockf is not *)

Record fs := Fs {
  f_dir : option nat;                      (* the inode of the name .wrk.lock *)
  f_next : nat;                            (* the next inode *)
  f_locks : gmap nat nat;                  (* inode -> the process that has it locked *)
  f_log : bytes;                           (* the log *)
  f_procs : gmap nat phase
}.

Inductive action :=
| AOpen (p : nat)                          (* 188-191 *)
| ALock (p : nat)                          (* 192 *)
| ALoad (p : nat) | ALoadFails (p : nat)   (* 197-202 *)
| AWrite (p : nat) (b : bytes)             (* LogFile::write, into the buffer *)
| AFlush (p : nat) (n : nat)               (* the buffer's first n bytes go to the file *)
| ADrop (p : nat)                          (* 454-459: remove_file *)
| AFinal (p : nat)                         (* drop of field f: its buffer goes to the file *)
| AClose (p : nat)                         (* drop of field lockf *)
| ACrash (p : nat).                        (* the process dies *)

Inductive event := ERefused (p : nat) | EOpened (p : nat) (content : bytes).

(** Changes one process (logfile2.rs:185-211, 454-460). *)
Definition set_proc (s : fs) (p : nat) (x : phase) : fs := Fs (f_dir s) (f_next s) (f_locks s) (f_log s) (<[p := x]> (f_procs s)).
(** The process is gone; a lock it has is released. flock(2); the file of logfile2.rs:188-191 is closed. *)
Definition gone (s : fs) (p : nat) : fs :=
  Fs (f_dir s) (f_next s) (filter (fun x : nat * nat => snd x <> p) (f_locks s)) (f_log s) (delete p (f_procs s)).

(** write(2) at an offset: the file is not opened for appending (197-201). *)
Definition write_at (f : bytes) (pos : nat) (b : bytes) : bytes := take pos f ++ b ++ drop (pos + length b) f.

(** One system call of logfile2.rs:185-211, 213-277 or 454-460; the lines are at the actions. *)
Definition step (s : fs) (a : action) : option (fs * list event) :=
  match a with
  | AOpen p =>
      match f_procs s !! p with
      | Some _ => None
      | None =>
          match f_dir s with
          | Some i => Some (set_proc s p (POpened i), [])
          | None =>
              Some (Fs (Some (f_next s)) (S (f_next s)) (f_locks s) (f_log s) (<[p := POpened (f_next s)]> (f_procs s)), [])
          end
      end
  | ALock p =>
      match (f_procs s !! p : option phase) with
      | Some (POpened i) =>
          match f_locks s !! i with
          | None => Some (Fs (f_dir s) (f_next s) (<[i := p]> (f_locks s)) (f_log s) (<[p := PLocked i]> (f_procs s)), [])
          | Some _ => Some (gone s p, [ERefused p])
          end
      | _ => None
      end
  | ALoad p =>
      match (f_procs s !! p : option phase) with
      | Some (PLocked i) =>
          Some (set_proc s p (PSession i (Session (f_log s) (length (f_log s)) [])), [EOpened p (f_log s)])
      | _ => None
      end
  | ALoadFails p =>
      match (f_procs s !! p : option phase) with Some (PLocked i) => Some (gone s p, []) | _ => None end
  | AWrite p b =>
      match (f_procs s !! p : option phase) with
      | Some (PSession i x) => Some (set_proc s p (PSession i (Session (s_loaded x) (s_pos x) (s_buf x ++ b))), [])
      | _ => None
      end
  | AFlush p n =>
      match (f_procs s !! p : option phase) with
      | Some (PSession i x) =>
          let b := take n (s_buf x) in
          Some (Fs (f_dir s) (f_next s) (f_locks s) (write_at (f_log s) (s_pos x) b)
                   (<[p := PSession i (Session (s_loaded x) (s_pos x + length b) (drop n (s_buf x)))]> (f_procs s)), [])
      | _ => None
      end
  | ADrop p =>
      match (f_procs s !! p : option phase) with
      | Some (PSession i x) => Some (Fs None (f_next s) (f_locks s) (f_log s) (<[p := PUnlinked i x]> (f_procs s)), [])
      | _ => None
      end
  | AFinal p =>
      match (f_procs s !! p : option phase) with
      | Some (PUnlinked i x) =>
          Some (Fs (f_dir s) (f_next s) (f_locks s) (write_at (f_log s) (s_pos x) (s_buf x)) (<[p := PFlushed i]> (f_procs s)), [])
      | _ => None
      end
  | AClose p =>
      match (f_procs s !! p : option phase) with Some (PFlushed i) => Some (gone s p, []) | _ => None end
  | ACrash p =>
      match (f_procs s !! p : option phase) with Some _ => Some (gone s p, []) | None => None end
  end.

(** A list of actions; it models no code: any interleaving of the processes that open the log (logfile2.rs:185) is such a list. *)
Fixpoint run (s : fs) (acts : list action) : option (fs * list event) :=
  match acts with
  | [] => Some (s, [])
  | a :: acts =>
      match step s a with
      | None => None
      | Some (s1, e1) => match run s1 acts with None => None | Some (s2, e2) => Some (s2, e1 ++ e2) end
      end
  end.

(** Nobody has the log open; an old lock file may be there. It models no code: what may be there before logfile2.rs:185. *)
Definition quiet (old : bool) (log : bytes) : fs := Fs (if old then Some 0 else None) 1 ∅ log ∅.
