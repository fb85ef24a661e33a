(** Model of the bytes that a runner exchanges with a process it has spawned, /repo/src/localrunner.rs:50-122 (pipes and
    input) and 161-194 wait_with_output; /repo/src/bin/execgraph-remote.rs:309-345, 394-399 and 421 are the same. Pipes are
    those of Linux with room for [K] bytes. One action = one system call of one process, in any order.

    Simplifications: a write transfers any number of bytes for which there is room, also below PIPE_BUF; tokio's BufWriter
    (119-121) only cuts the input into writes. Cancellation is left out here (PoolModel.v is about it). *)
From Verif Require Export Utf8Model.

(** The ends of the pipes that the process has: the read end of the input (66-69), and the write ends of stdout and stderr
    (78-79) and of file descriptor 3 (60-63). *)
Inductive fd := FIn | FOut | FErr | FThree.
(** It models no code: whether two ends (58-78) are the same. *)
Definition fd_eqb (f g : fd) : bool :=
  match f, g with FIn, FIn | FOut, FOut | FErr, FErr | FThree, FThree => true | _, _ => false end.
(** It models no code: a changed map of the ends (58-78). *)
Definition set {A} (f : fd) (x : A) (m : fd -> A) : fd -> A := fun g => if fd_eqb f g then x else m g.

(** What a process spawned at 89 does with them, as far as it is alive. It can run forever. *)
CoInductive prog :=
| Exit (raw : N)                        (* it has ended, with this wait status *)
| Write (f : fd) (b : bytes) (k : prog) (* it writes all of b *)
| Read (n : nat) (k : bytes -> prog)    (* it reads up to n bytes of the input; nothing at its end *)
| Close (f : fd) (k : prog)
| Fork (child k : prog).                (* it starts a process that inherits its descriptors *)

(** A process spawned at 89, or one that it has started: what it will do, and the ends it has open. *)
Record proc := Proc { pr_prog : prog; pr_open : fd -> bool }.
(** It models no code: whether a process can use an end (58-78): it is alive and has not closed it. *)
Definition holds (f : fd) (p : proc) : bool := match pr_prog p with Exit _ => false | _ => pr_open p f end.

(** The runner. *)
Inductive parent :=
| Feeding (rest : bytes)                                       (* 117-122: rest is to be written *)
| Reading (got : fd -> bytes) (eof : fd -> bool) (status : option N)  (* in try_join4, 183 *)
| Finished (raw : N) (out err fd3 : bytes)                     (* 188-193 *)
| Panicked.                                                    (* 120-121: unwrap of an EPIPE *)

Record io := Io { io_procs : list proc; io_pipe : fd -> bytes; io_parent : parent }.

Inductive ioact :=
| ParentWrite (m : nat)          (* 120-121: m bytes, or EPIPE if nobody can read them *)
| ParentClose                    (* 122: everything is written, the pipe is dropped *)
| ParentRead (f : fd) (m : nat)  (* 178-180: read_to_end gets m bytes *)
| ParentEof (f : fd)             (* 178-180: read_to_end returns: nobody can write any more *)
| ParentWait                     (* 183: child.wait returns *)
| ParentDone                     (* 183: try_join4 returns *)
| Child (i m : nat).             (* the next system call of process i; m bytes if it transfers some *)

Inductive ioobs :=
| Wrote (i : nat) (f : fd) (b : bytes)  (* process i has written b *)
| ReadIn (i : nat) (b : bytes)          (* process i has read b of its input *)
| ReadEof (i : nat).                    (* process i was told that its input is over *)

Section pipe.
Variable K : nat.

(** It models no code of /repo: m bytes can be written or read by a system call on a pipe (120-121, 170). *)
Definition transfer (m room len : nat) : bool := Nat.ltb 0 m && Nat.leb m room && Nat.leb m len.
(** Whether the write end of the input is open in the runner (117-122). *)
Definition feeding (p : parent) : bool := match p with Feeding _ => true | _ => false end.

(** The next system call of process i of those spawned at 89; it models no code of /repo. *)
Definition child_step (s : io) (i m : nat) (p : proc) : option (io * list ioobs) :=
  let go q := Io (<[i := Proc q (pr_open p)]> (io_procs s)) (io_pipe s) (io_parent s) in
  match pr_prog p with
  | Exit _ => None
  | Write f b k =>
      if fd_eqb f FIn || negb (pr_open p f) then Some (go k, [])   (* EBADF, or a descriptor that is no pipe of the runner *)
      else
        match b with
        | [] => Some (go k, [])
        | _ =>
            if transfer m (K - length (io_pipe s f)) (length b) then
              Some (Io (<[i := Proc (Write f (drop m b) k) (pr_open p)]> (io_procs s))
                       (set f (io_pipe s f ++ take m b) (io_pipe s)) (io_parent s), [Wrote i f (take m b)])
            else None
        end
  | Read n k =>
      if Nat.eqb n 0 || negb (pr_open p FIn) then Some (go (k []), [])
      else
        match io_pipe s FIn with
        | [] => if feeding (io_parent s) then None else Some (go (k []), [ReadEof i])
        | b =>
            if transfer m n (length b) then
              Some (Io (<[i := Proc (k (take m b)) (pr_open p)]> (io_procs s)) (set FIn (drop m b) (io_pipe s)) (io_parent s),
                    [ReadIn i (take m b)])
            else None
        end
  | Close f k => Some (Io (<[i := Proc k (set f false (pr_open p))]> (io_procs s)) (io_pipe s) (io_parent s), [])
  | Fork c k =>
      Some (Io (<[i := Proc k (pr_open p)]> (io_procs s) ++ [Proc c (pr_open p)]) (io_pipe s) (io_parent s), [])
  end.

(** Changes one field: where the runner is (117-194). *)
Definition with_parent (s : io) (q : parent) : io := Io (io_procs s) (io_pipe s) q.
(** It models no code: a step of the runner (117-194) at which the processes see nothing. *)
Definition nothing {A} (s : A) : option (A * list ioobs) := Some (s, []).

(** One system call of the runner (117-122, 161-194) or of a process. *)
Definition io_step (s : io) (a : ioact) : option (io * list ioobs) :=
  match io_parent s, a with
  | Panicked, _ => None     (* kill_on_drop: the process is killed *)
  | Feeding (x :: r), ParentWrite m =>
      if existsb (holds FIn) (io_procs s) then
        if transfer m (K - length (io_pipe s FIn)) (length (x :: r)) then
          nothing (Io (io_procs s) (set FIn (io_pipe s FIn ++ take m (x :: r)) (io_pipe s)) (Feeding (drop m (x :: r))))
        else None
      else nothing (with_parent s Panicked)
  | Feeding [], ParentClose => nothing (with_parent s (Reading (fun _ => []) (fun f => fd_eqb f FIn) None))
  | Reading got eof st, ParentRead f m =>
      if negb (eof f) && transfer m (length (io_pipe s f)) (length (io_pipe s f)) then
        nothing (Io (io_procs s) (set f (drop m (io_pipe s f)) (io_pipe s)) (Reading (set f (got f ++ take m (io_pipe s f)) got) eof st))
      else None
  | Reading got eof st, ParentEof f =>
      match eof f, io_pipe s f with
      | false, [] => if existsb (holds f) (io_procs s) then None else nothing (with_parent s (Reading got (set f true eof) st))
      | _, _ => None
      end
  | Reading got eof None, ParentWait =>
      match io_procs s with
      | Proc (Exit raw) _ :: _ => nothing (with_parent s (Reading got eof (Some raw)))
      | _ => None
      end
  | Reading got eof (Some raw), ParentDone =>
      if eof FOut && eof FErr && eof FThree then nothing (with_parent s (Finished raw (got FOut) (got FErr) (got FThree))) else None
  | _, Child i m => match io_procs s !! i with Some p => child_step s i m p | None => None end
  | _, _ => None
  end.

(** The process has been spawned. [input]: the bytes of fd_input, if any (52-57); [console]: the stdout and stderr of a
    console task are those of the runner (80-85), not pipes; read_to_end of None returns at once (169-172). *)
Definition io_start (console : bool) (input : option bytes) (p : prog) : io :=
  let opened f := match f with FIn => match input with Some _ => true | None => false end | FOut | FErr => negb console | FThree => true end in
  Io [Proc p opened] (fun _ => [])
     (match input with Some b => Feeding b | None => Reading (fun _ => []) (fun f => fd_eqb f FIn) None end).

(** A list of system calls; it models no code: any interleaving of 117-194 with the processes is such a list. *)
Fixpoint io_run (s : io) (acts : list ioact) : option (io * list ioobs) :=
  match acts with
  | [] => Some (s, [])
  | a :: rest =>
      match io_step s a with
      | None => None
      | Some (s', os) => match io_run s' rest with Some (s'', os') => Some (s'', os ++ os') | None => None end
      end
  end.
End pipe.

(** String::from_utf8_lossy (localrunner.rs:241, 245 stdout_str and stderr_str; core/src/str/lossy.rs Utf8Chunks::next):
    each longest prefix of a valid sequence that is not continued validly, and each other byte, becomes U+FFFD. *)
Definition FFFD : bytes := [ascii_of_N 239; ascii_of_N 191; ascii_of_N 189].
(** Which byte can follow the first of three (lossy.rs, at localrunner.rs:241, 245), *)
Definition second3 (b1 b2 : ascii) : bool :=
  if N.eqb (code b1) 224 then within 160 191 b2
  else if N.eqb (code b1) 237 then within 128 159 b2
  else within 225 239 b1 && within 128 191 b2.
(** and which can follow the first of four (lossy.rs, at localrunner.rs:241, 245). *)
Definition second4 (b1 b2 : ascii) : bool :=
  if N.eqb (code b1) 240 then within 144 191 b2
  else if N.eqb (code b1) 244 then within 128 143 b2
  else within 241 243 b1 && within 128 191 b2.
(** String::from_utf8_lossy (localrunner.rs:241, 245). *)
Fixpoint lossy (b : bytes) : bytes :=
  match b with
  | [] => []
  | b1 :: r1 =>
      if N.ltb (code b1) 128 then b1 :: lossy r1
      else if within 194 223 b1 then
        match r1 with
        | b2 :: r2 => if within 128 191 b2 then b1 :: b2 :: lossy r2 else FFFD ++ lossy r1
        | [] => FFFD
        end
      else if within 224 239 b1 then
        match r1 with
        | b2 :: r2 =>
            if second3 b1 b2 then
              match r2 with
              | b3 :: r3 => if within 128 191 b3 then b1 :: b2 :: b3 :: lossy r3 else FFFD ++ lossy r2
              | [] => FFFD
              end
            else FFFD ++ lossy r1
        | [] => FFFD
        end
      else if within 240 244 b1 then
        match r1 with
        | b2 :: r2 =>
            if second4 b1 b2 then
              match r2 with
              | b3 :: r3 =>
                  if within 128 191 b3 then
                    match r3 with
                    | b4 :: r4 => if within 128 191 b4 then b1 :: b2 :: b3 :: b4 :: lossy r4 else FFFD ++ lossy r3
                    | [] => FFFD
                    end
                  else FFFD ++ lossy r2
              | [] => FFFD
              end
            else FFFD ++ lossy r1
        | [] => FFFD
        end
      else FFFD ++ lossy r1
  end.
