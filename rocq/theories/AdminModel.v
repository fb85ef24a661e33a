(** Model of the admin sockets and their cleaning up, /repo/src/admin_server.rs:71-152, with ADMIN_SOCKET_PREFIX = "wrk"
    (/repo/src/constants.rs:2). Several processes of one user share the directory; a process may make several calls of
    execute() with a provisioner, one after the other or in threads. One action = one system call or a start or an end.

    Simplifications: the directory is /run/user/UID, which could be created (80-97 choose between it and /scratch);
    sysinfo's Pid::from does not truncate; only names of this form and what happens to them are of interest, so the
    directory is a map from names to the call that has bound the socket there, if any has. *)
From Verif Require Export LocModel.
Open Scope list_scope.

(** Text as Unicode scalar values; file names are made text by to_string_lossy (131). *)
Definition text (s : string) : list N := map N_of_ascii (list_ascii_of_string s).
(** The end of the pattern (admin_server.rs:125). *)
Definition sock : list N := text "sock".
(** The beginning of the pattern (125), constants.rs:2. *)
Definition prefix_ : list N := text "wrk-".

(** 75-78: /run/user/UID/wrk-PID.sock *)
Definition sock_name (pid : N) : list N := prefix_ ++ text (decimal pid) ++ text ".sock".

(** The rest of a text after a prefix; models no code (a helper of [group] and [captures], 125). *)
Fixpoint strip (p s : list N) : option (list N) :=
  match p, s with
  | [], _ => Some s
  | x :: p', y :: s' => if N.eqb x y then strip p' s' else None
  | _ :: _, [] => None
  end.

Section regex.
(** The decimal digits of Unicode (class Nd) outside ASCII: the digit class of the regex crate contains them. *)
Variable other_digit : N -> bool.
(** 0 to 9, what parse accepts (138). *)
Definition ascii_digit (c : N) : bool := N.leb 48 c && N.leb c 57.
(** The class of digits of the pattern (125). *)
Definition re_digit (c : N) : bool := ascii_digit c || (N.leb 128 c && other_digit c).

Fixpoint span (s : list N) : list N * list N :=
  match s with
  | c :: r => if re_digit c then let '(d, r') := span r in (c :: d, r') else ([], s)
  | [] => ([], [])
  end.
(** One or more digits, any character but a newline, "sock"; the digits are as many as possible. *)
Definition group (s : list N) : option (list N) :=
  let '(d, r) := span s in
  match d with
  | [] => None
  | _ =>
      if match r with c :: r' => negb (N.eqb c 10) && match strip sock r' with Some _ => true | None => false end | [] => false end then Some d
      else match removelast d with [] => None | d' => match strip sock r with Some _ => Some d' | None => None end end
  end.
(** 125, 132: Regex::captures, the leftmost match of the prefix and the group, anywhere in the name. *)
Fixpoint captures (s : list N) : option (list N) :=
  match match strip prefix_ s with Some r => group r | None => None end with
  | Some d => Some d
  | None => match s with _ :: s' => captures s' | [] => None end
  end.
(** 138: parse of usize. *)
Fixpoint value (acc : N) (d : list N) : option N :=
  match d with
  | [] => Some acc
  | c :: d' => if ascii_digit c then value (10 * acc + (c - 48)) d' else None
  end.
(** 135-139: not empty, digits, below 2^64; [None]: the unwrap panics. *)
Definition parse_usize (d : list N) : option N :=
  match d with [] => None | _ => match value 0 d with Some v => if N.ltb v 18446744073709551616 then Some v else None | None => None end end.

(** A call of execute() with a provisioner. *)
Inductive phase := Starting | Unlinked | Serving | Over.
(** Its task of cleaning up: not running; going through the directory; about to remove that name (140-145). *)
Inductive cleaner := NotCleaning | Cleaning | Removing (name : list N).
(** 71-116 with 118-152. *)
Record call := Call { ca_pid : N; ca_phase : phase; ca_cleaner : cleaner }.

(** The processes that are alive (140), the calls, and the directory (105-145). *)
Record world := World { wo_alive : N -> bool; wo_calls : list call; wo_dir : list N -> option (option nat) }.

Inductive adminact :=
| ProcStart (pid : N)
| ProcDie (pid : N)                                  (* the process ends in any way *)
| CallStart (pid : N)
| Unlink (c : nat)                                   (* 105: what is at the path is removed *)
| Bind (c : nat)                                     (* 106-110 *)
| Visit (c : nat) (name : list N) (kind : option bool) (* 128-140: the next entry; kind: whether it is a socket, or an error *)
| Remove (c : nat)                                   (* 145 *)
| CleanEnd (c : nat)                                 (* 151: there are no more entries *)
| CallEnd (c : nat)                                  (* 112-115: the server has ended; its path is removed *)
| Abandon (c : nat).                                 (* the runtime of the call is dropped: execgraph.rs:388-391 panics *)

Inductive adminobs :=
| ProcStarted (pid : N) | ProcDied (pid : N)
| Bound (c : nat) (name : list N)
| Checked (c : nat) (name : list N) (pid : N) (alive : bool)
| Removed (c : nat) (name : list N)
| CleanFailed (c : nat)                              (* the cleaning up ends early, by an error or a panic *)
| Abandoned (c : nat)
| Panics (c : nat).                                  (* the task of the server panics *)

Definition set_dir (name : list N) (x : option (option nat)) (d : list N -> option (option nat)) : list N -> option (option nat) :=
  fun n => if bool_decide (n = name) then x else d n.
(** Changes one call (71-152). *)
Definition set_call (w : world) (c : nat) (k : call) : world := World (wo_alive w) (<[c := k]> (wo_calls w)) (wo_dir w).

(** One system call of 71-152, or a start or an end; the lines are at the actions. *)
Definition admin_step (w : world) (a : adminact) : option (world * list adminobs) :=
  match a with
  | ProcStart pid =>
      if wo_alive w pid then None
      else Some (World (fun p => if N.eqb p pid then true else wo_alive w p) (wo_calls w) (wo_dir w), [ProcStarted pid])
  | ProcDie pid =>
      if wo_alive w pid then
        Some (World (fun p => if N.eqb p pid then false else wo_alive w p)
                    (map (fun k => if N.eqb (ca_pid k) pid then Call pid Over NotCleaning else k) (wo_calls w)) (wo_dir w), [ProcDied pid])
      else None
  | CallStart pid =>
      if wo_alive w pid then Some (World (wo_alive w) (wo_calls w ++ [Call pid Starting NotCleaning]) (wo_dir w), []) else None
  | Unlink c =>
      match wo_calls w !! c with
      | Some (Call pid Starting k) =>
          Some (World (wo_alive w) (<[c := Call pid Unlinked k]> (wo_calls w)) (set_dir (sock_name pid) None (wo_dir w)), [])
      | _ => None
      end
  | Bind c =>
      match wo_calls w !! c with
      | Some (Call pid Unlinked k) =>
          match wo_dir w (sock_name pid) with
          | Some _ => Some (set_call w c (Call pid Over NotCleaning), [Panics c])            (* EADDRINUSE *)
          | None => Some (World (wo_alive w) (<[c := Call pid Serving Cleaning]> (wo_calls w)) (set_dir (sock_name pid) (Some (Some c)) (wo_dir w)),
                          [Bound c (sock_name pid)])
          end
      | _ => None
      end
  | Visit c name kind =>
      match wo_calls w !! c with
      | Some (Call pid ph Cleaning) =>
          match kind with
          | None => Some (set_call w c (Call pid ph NotCleaning), [CleanFailed c])
          | Some false => Some (w, [])
          | Some true =>
              match captures name with
              | None => Some (w, [])
              | Some d =>
                  match parse_usize d with
                  | None => Some (set_call w c (Call pid ph NotCleaning), [CleanFailed c])
                  | Some p =>
                      Some (if wo_alive w p then w else set_call w c (Call pid ph (Removing name)), [Checked c name p (wo_alive w p)])
                  end
              end
          end
      | _ => None
      end
  | Remove c =>
      match wo_calls w !! c with
      | Some (Call pid ph (Removing name)) =>
          match wo_dir w name with
          | Some _ => Some (World (wo_alive w) (<[c := Call pid ph Cleaning]> (wo_calls w)) (set_dir name None (wo_dir w)), [Removed c name])
          | None => Some (set_call w c (Call pid ph NotCleaning), [CleanFailed c])           (* ENOENT *)
          end
      | _ => None
      end
  | CleanEnd c =>
      match wo_calls w !! c with
      | Some (Call pid ph Cleaning) => Some (set_call w c (Call pid ph NotCleaning), [])
      | _ => None
      end
  | CallEnd c =>
      match wo_calls w !! c with
      | Some (Call pid Serving k) =>
          match wo_dir w (sock_name pid) with
          | Some _ => Some (World (wo_alive w) (<[c := Call pid Over k]> (wo_calls w)) (set_dir (sock_name pid) None (wo_dir w)), [])
          | None => Some (set_call w c (Call pid Over k), [Panics c])
          end
      | _ => None
      end
  | Abandon c =>
      match wo_calls w !! c with
      | Some (Call pid _ _) => Some (set_call w c (Call pid Over NotCleaning), [Abandoned c])
      | None => None
      end
  end.

(** A list of actions; it models no code: any interleaving of the calls (71-152) is such a list. *)
Fixpoint admin_run (w : world) (acts : list adminact) : option (world * list adminobs) :=
  match acts with
  | [] => Some (w, [])
  | a :: rest =>
      match admin_step w a with
      | None => None
      | Some (w', os) => match admin_run w' rest with Some (w'', os') => Some (w'', os ++ os') | None => None end
      end
  end.
End regex.

(** No call is made yet; these processes run and the directory contains these names. It models no code: what may be there at 71. *)
Definition admin_start (alive : N -> bool) (names : list N -> bool) : world :=
  World alive [] (fun n => if names n then Some None else None).
