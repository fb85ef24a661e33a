(** Model of the process groups and signals around a call of execute(): /repo/src/pylib.rs:335-343 (setpgid), /repo/src/sync.rs:243-249 (SIGTERM to
    the group) and /repo/src/sync.rs:267 (the handler of SIGINT), with the parts of Linux they use. Simplifications: numbers of processes are not
    used again; of the dispositions only that of SIGTERM; stopped processes and signals other than SIGTERM and SIGINT are left out. *)
From stdpp Require Export prelude gmap.

(** ** Linux *)
(** signal(2); tokio::signal::unix::signal at sync.rs:246 installs a handler. *)
Inductive disposition := Default | Ignored | Handled.
(** A process: credentials(7); pylib.rs:340 and sync.rs:247 change and read the group. *)
Record oproc := OProc { op_session : nat; op_group : nat; op_term : disposition }.
(** The living processes, all numbers that were ever in use (for processes, groups or sessions), and the foreground group of the terminal.
    The part of the kernel's state that pylib.rs:340 and sync.rs:245-247 act upon. *)
Record os := Os { os_procs : gmap nat oproc; os_used : gset nat; os_foreground : nat }.

Inductive action :=
| AFork (p c : nat)               (* process p starts c *)
| AExec (p : nat)                 (* p runs another program: handlers are reset *)
| ADispose (p : nat) (d : disposition)
| ASetpgid (p g : nat)            (* setpgid(0, g) by p *)
| ASetsid (p : nat)
| AExit (p : nat)
| AKill (p : nat)                 (* SIGTERM to p *)
| AForeground (g : nat)           (* tcsetpgrp *)
| ACtrlC                          (* at the terminal *)
| ABegin (p : nat)                (* p calls execute(), pylib.rs:339-343 *)
| AEnd (p : nat).                 (* the end of drain, sync.rs:243-249 *)

(** Signals that arrive. SIGTERM (sync.rs:247) and SIGINT (267). *)
Inductive obs := OTerm (p : nat) | OInt (p : nat).

(** Changes one field (pylib.rs:340, sync.rs:246-247). *)
Definition with_procs (o : os) (m : gmap nat oproc) : os := Os m (os_used o) (os_foreground o).
(** Changes one field (pylib.rs:340). *)
Definition set_group (x : oproc) (g : nat) : oproc := OProc (op_session x) g (op_term x).
(** Changes one field (sync.rs:246). *)
Definition set_term (x : oproc) (d : disposition) : oproc := OProc (op_session x) (op_group x) d.

Definition members (o : os) (g : nat) : list nat :=
  map fst (List.filter (fun px => Nat.eqb (op_group (snd px)) g) (map_to_list (os_procs o))).
(** setpgid(2): not for session leaders; another group must exist in the session. *)
Definition setpgid (o : os) (p g : nat) : os :=
  match os_procs o !! p with
  | Some x =>
      if Nat.eqb (op_session x) p then o
      else if Nat.eqb g p then with_procs o (<[p := set_group x p]> (os_procs o))
      else if existsb (fun px => Nat.eqb (op_group (snd px)) g && Nat.eqb (op_session (snd px)) (op_session x)) (map_to_list (os_procs o))
        then with_procs o (<[p := set_group x g]> (os_procs o))
        else o
  | None => o
  end.
(** setsid(2): not for numbers of groups that exist. *)
Definition setsid (o : os) (p : nat) : os :=
  match os_procs o !! p with
  | Some x => match members o p with [] => with_procs o (<[p := OProc p p (op_term x)]> (os_procs o)) | _ => o end
  | None => o
  end.
(** SIGTERM to the processes [ps]: those without a handler that do not ignore it end. signal(7); sync.rs:247. *)
Definition dies (ps : list nat) (px : nat * oproc) : bool :=
  existsb (Nat.eqb (fst px)) ps && match op_term (snd px) with Default => true | _ => false end.
(** kill(2) and killpg(3) with SIGTERM; sync.rs:247. *)
Definition term (o : os) (ps : list nat) : os := with_procs o (base.filter (fun px => dies ps px = false) (os_procs o)).

(** ** execute() *)
(** sync.rs:245-248: tokio installs a handler for SIGTERM, which stays for the life of the process; then killpg. *)
Definition drain_end (o : os) (p : nat) : os * list obs :=
  match os_procs o !! p with
  | Some x =>
      let o1 := with_procs o (<[p := set_term x Handled]> (os_procs o)) in
      let ps := members o1 (op_group x) in
      (term o1 ps, map OTerm ps)
  | None => (o, [])
  end.

(** fork(2), execve(2), signal(2), setpgid(2), setsid(2), exit(2), kill(2), tcsetpgrp(3); ABegin is pylib.rs:339-343, AEnd is
    sync.rs:243-249. *)
Definition step (o : os) (a : action) : option (os * list obs) :=
  match a with
  | AFork p c =>
      match os_procs o !! p with
      | Some x => if decide (c ∈ os_used o) then None else Some (Os (<[c := x]> (os_procs o)) ({[c]} ∪ os_used o) (os_foreground o), [])
      | None => None
      end
  | AExec p =>
      match os_procs o !! p with
      | Some x => Some (with_procs o (<[p := set_term x (match op_term x with Handled => Default | d => d end)]> (os_procs o)), [])
      | None => None
      end
  | ADispose p d =>
      match os_procs o !! p with Some x => Some (with_procs o (<[p := set_term x d]> (os_procs o)), []) | None => None end
  | ASetpgid p g => match os_procs o !! p with Some _ => Some (setpgid o p g, []) | None => None end
  | ASetsid p => match os_procs o !! p with Some _ => Some (setsid o p, []) | None => None end
  | AExit p => match os_procs o !! p with Some _ => Some (with_procs o (delete p (os_procs o)), []) | None => None end
  | AKill p => match os_procs o !! p with Some _ => Some (term o [p], [OTerm p]) | None => None end
  | AForeground g => Some (Os (os_procs o) (os_used o) g, [])
  | ACtrlC => Some (o, map OInt (members o (os_foreground o)))
  | ABegin p => match os_procs o !! p with Some _ => Some (setpgid o p p, []) | None => None end
  | AEnd p => match os_procs o !! p with Some _ => Some (drain_end o p) | None => None end
  end.

(** A list of actions; it models no code: any behaviour of the processes around pylib.rs:329 is such a list. *)
Fixpoint run (o : os) (acts : list action) : option (os * list obs) :=
  match acts with
  | [] => Some (o, [])
  | a :: acts =>
      match step o a with
      | Some (o1, os1) => match run o1 acts with Some (o2, os2) => Some (o2, os1 ++ os2) | None => None end
      | None => None
      end
  end.
