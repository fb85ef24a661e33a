(** Vocabulary for the bytes exchanged with a process. *)
From Verif Require Export PipeModel.

(** A process with that program was spawned and the steps [acts] were made. *)
Definition exchange (K : nat) (console : bool) (input : option bytes) (p : prog) (acts : list ioact) (s : io) (t : list ioobs) : Prop :=
  1 <= K /\ io_run K (io_start console input p) acts = Some (s, t).

(** What the process and those it has started have written to [f], and what they have read of the input, in order. *)
Definition written (f : fd) (t : list ioobs) : bytes :=
  concat (map (fun o => match o with Wrote _ g b => if fd_eqb f g then b else [] | _ => [] end) t).
Definition read_in (t : list ioobs) : bytes := concat (map (fun o => match o with ReadIn _ b => b | _ => [] end) t).

Definition input_bytes (input : option bytes) : bytes := match input with Some b => b | None => [] end.

(** Nothing can happen any more. *)
Definition stuck (K : nat) (s : io) : Prop := forall a, io_step K s a = None.
Definition finished (s : io) : Prop := exists raw out err fd3, io_parent s = Finished raw out err fd3.
Definition panicked (s : io) : Prop := io_parent s = Panicked.
Definition ended (p : proc) : Prop := exists raw, pr_prog p = Exit raw.
(** It waits for room in a pipe. *)
Definition blocked_writing (K : nat) (s : io) (p : proc) : Prop :=
  exists f b k, pr_prog p = Write f b k /\ b <> [] /\ f <> FIn /\ pr_open p f = true /\ K <= length (io_pipe s f).

(** The program and all it starts come to their ends with at most [n] bytes written and other system calls together, if
    there are at most [L] bytes of input to read. *)
Inductive ends : nat -> nat -> prog -> Prop :=
| e_exit L n raw : ends L n (Exit raw)
| e_write L n n' f b k : ends L n k -> length b + n < n' -> ends L n' (Write f b k)
| e_read L n r k : (forall b, length b <= L -> ends (L - length b) n (k b)) -> ends L (S n) (Read r k)
| e_close L n f k : ends L n k -> ends L (S n) (Close f k)
| e_fork L n m n' c k : ends L n c -> ends L m k -> n + m < n' -> ends L n' (Fork c k).

(** The program reads its input, of which [L] bytes are left, to the end before it closes it, starts other processes or
    ends, and up to then it writes no more than [room f] bytes to each [f]. *)
Inductive reads_first : nat -> (fd -> nat) -> prog -> Prop :=
| r_read L room n k : 0 < n -> (forall b, b <> [] -> length b <= L -> reads_first (L - length b) room (k b)) -> reads_first L room (Read n k)
| r_write L room f b k : f <> FIn -> length b <= room f -> reads_first L (set f (room f - length b) room) k -> reads_first L room (Write f b k)
| r_close L room f k : f <> FIn -> reads_first L room k -> reads_first L room (Close f k).

(** The runner waits for room in the input of the process, and each process that runs waits for room in its output. *)
Definition deadlocked (K : nat) (s : io) : Prop :=
  (exists rest, io_parent s = Feeding rest /\ rest <> []) /\ K <= length (io_pipe s FIn) /\
  (exists i p, io_procs s !! i = Some p /\ holds FIn p = true) /\
  forall i p, io_procs s !! i = Some p -> ended p \/ blocked_writing K s p.

(** Text made of bytes. [pieces] cuts [b] into valid UTF-8 and pieces that are not: at the latter no character begins, and
    each is as long as it could still become one, or a single byte that begins none. *)
Definition completable (p : bytes) : Prop := exists q, utf8_valid (p ++ q) = true.
Definition maximal_subpart (p rest : bytes) : Prop :=
  (completable p /\ forall x r, rest = x :: r -> ~ completable (p ++ [x])) \/ (length p = 1 /\ ~ completable p).
Inductive pieces : bytes -> list (bool * bytes) -> Prop :=
| p_nil : pieces [] []
| p_valid p rest ps : utf8_valid p = true -> pieces rest ps -> pieces (p ++ rest) ((true, p) :: ps)
| p_invalid p rest ps : p <> [] -> (forall d r, p ++ rest = d ++ r -> utf8_valid d = true -> d = []) -> maximal_subpart p rest ->
    pieces rest ps -> pieces (p ++ rest) ((false, p) :: ps).
