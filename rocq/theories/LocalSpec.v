(** Vocabulary for exit statuses, values on file descriptor 3 and the local loop: UTF-8, lines and shell words as grammars. *)
From Verif Require Export LocalModel.

(** ** UTF-8 *)
Definition scalar (c : N) : Prop := (c < 55296 \/ 57344 <= c <= 1114111)%N.
Definition byte (n : N) : ascii := ascii_of_N n.
Definition utf8_char (c : N) : bytes :=
  if N.ltb c 128 then [byte c]
  else if N.ltb c 2048 then [byte (192 + c / 64); byte (128 + c mod 64)]
  else if N.ltb c 65536 then [byte (224 + c / 4096); byte (128 + c / 64 mod 64); byte (128 + c mod 64)]
  else [byte (240 + c / 262144); byte (128 + c / 4096 mod 64); byte (128 + c / 64 mod 64); byte (128 + c mod 64)].
Definition utf8 (cs : list N) : bytes := concat (map utf8_char cs).
Definition is_utf8 (b : bytes) : Prop := exists cs, Forall scalar cs /\ b = utf8 cs.

(** ** Lines *)
Definition no_nl (l : bytes) : Prop := NL ∉ l.
Inductive in_lines : bytes -> list bytes -> Prop :=
| il_none : in_lines [] []
| il_last l : l <> [] -> no_nl l -> in_lines l [l]
| il_nl l s ls : no_nl l -> (forall l', l <> l' ++ [CR]) -> in_lines s ls -> in_lines (l ++ NL :: s) (l :: ls)
| il_crnl l s ls : no_nl l -> in_lines s ls -> in_lines (l ++ CR :: NL :: s) (l :: ls).

(** ** Shell words of a line *)
(** The inside of double quotes, and what it means. *)
Inductive dq : bytes -> bytes -> Prop :=
| dq_nil : dq [] []
| dq_char c s t : c <> DQUOTE -> c <> BACKSLASH -> dq s t -> dq (c :: s) (c :: t)
| dq_escape c s t : c ∈ ["$"%char; "`"%char; DQUOTE; BACKSLASH] -> dq s t -> dq (BACKSLASH :: c :: s) (c :: t)
| dq_other c s t : c ∉ ["$"%char; "`"%char; DQUOTE; BACKSLASH; NL] -> dq s t -> dq (BACKSLASH :: c :: s) (BACKSLASH :: c :: t).
(** One piece of a word. *)
Inductive piece : bytes -> bytes -> Prop :=
| pc_plain c : c ∉ [QUOTE; DQUOTE; BACKSLASH; TAB; SP; NL] -> piece [c] [c]
| pc_escape c : c <> NL -> piece [BACKSLASH; c] [c]
| pc_single t : QUOTE ∉ t -> piece (QUOTE :: t ++ [QUOTE]) t
| pc_double s t : dq s t -> piece (DQUOTE :: s ++ [DQUOTE]) t.
Inductive pieces : bytes -> bytes -> Prop :=
| ps_nil : pieces [] []
| ps_cons s t s' t' : piece s t -> pieces s' t' -> pieces (s ++ s') (t ++ t').
(** A word: at least one piece, not beginning with #. *)
Definition word (s t : bytes) : Prop := pieces s t /\ s <> [] /\ head s <> Some HASH.
Definition blank (c : ascii) : Prop := c = TAB \/ c = SP.

(** The words of a line (without newline). *)
Inductive words : bytes -> list bytes -> Prop :=
| ws_nil : words [] []
| ws_blank c s ws : blank c -> words s ws -> words (c :: s) ws
| ws_comment s : words (HASH :: s) []
| ws_last s t : word s t -> words s [t]
| ws_word s t c s' ws : word s t -> blank c -> words s' ws -> words (s ++ c :: s') (t :: ws)
(* a backslash at the very end stands for itself *)
| ws_backslash s t : pieces s t -> head s <> Some HASH -> words (s ++ [BACKSLASH]) [t ++ [BACKSLASH]].

(** A word of the form name=value. *)
Definition assigns (w k v : bytes) : Prop := w = k ++ EQUALS :: v /\ EQUALS ∉ k.
(** The map of a line: the last assignment of each name. *)
Definition map_of (ws : list bytes) (m : gmap string string) : Prop :=
  forall k v, m !! text k = Some (text v) <->
    exists ws1 w ws2, ws = ws1 ++ w :: ws2 /\ assigns w k v /\ forall w' v', w' ∈ ws2 -> ~ assigns w' k v'.
(** The maps of the lines: lines that are not validly quoted contribute nothing. *)
Inductive maps_of : list bytes -> list (gmap string string) -> Prop :=
| mo_nil : maps_of [] []
| mo_bad l ls ms : (forall ws, ~ words l ws) -> maps_of ls ms -> maps_of (l :: ls) ms
| mo_line l ws m ls ms : words l ws -> map_of ws m -> maps_of ls ms -> maps_of (l :: ls) (m :: ms).

(** ** Exit statuses *)
(** How a process ends, and the status that waitpid gives (wait(2), Linux). *)
Inductive ending := Exited (c : N) | Killed (sig : N) (core : bool).
Definition ending_ok (e : ending) : Prop := match e with Exited c => (c < 256)%N | Killed s _ => (1 <= s <= 64)%N end.
Definition raw_status (e : ending) : N :=
  match e with Exited c => c * 256 | Killed s core => s + (if core then 128 else 0) end.

(** How an attempt can come to its end, and the number to be logged. *)
Inductive outcome :=
| Ended (e : ending)          (* the process ended; locally or on a remote runner *)
| CannotStart                 (* a local runner could not start it *)
| CannotStartRemotely         (* a remote runner could not start it *)
| SlurmCancelled              (* slurm ended the job of the remote runner *)
| SoftCancelled               (* cancelled by a soft shutdown *)
| Lost.                       (* the remote runner went silent, or execute() was interrupted *)
Definition outcome_ok (o : outcome) : Prop := match o with Ended e => ending_ok e | _ => True end.
Definition number (o : outcome) : Z :=
  match o with
  | Ended (Exited c) => Z.of_N c
  | Ended (Killed s _) => - Z.of_N s
  | CannotStart => -1
  | CannotStartRemotely => 13
  | SlurmCancelled => -15
  | SoftCancelled => -10
  | Lost => -1
  end.

(** ** The local loop *)
(** A completed round of the loop: the calls from one recv to the next. *)
Record round := Round { rd_task : nat; rd_pid : N; rd_status : exit_status; rd_values : list (gmap string string) }.
Definition round_calls (r : round) : list loop_call :=
  [CallPreamble (rd_task r); CallStarted (rd_task r) (rd_pid r); CallFinished (rd_task r) (rd_status r) (rd_values r); CallRecv].
(** Tasks taken, and how the attempts ended. *)
Definition tasks_taken (is : list loop_input) : list nat := omap (fun i => match i with InTask n => Some n | _ => None end) is.
Inductive attempt := NotSpawned | WithOutput (s : exit_status) (fd3 : bytes).
Definition loop_attempts (is : list loop_input) : list attempt :=
  omap (fun i => match i with
                 | InSpawnFails => Some NotSpawned
                 | InOutput raw fd3 => match child_code raw with Some s => Some (WithOutput s fd3) | None => None end
                 | _ => None end) is.
Definition round_reports (r : round) (a : attempt) : Prop :=
  match a with
  | NotSpawned => rd_pid r = 0%N /\ rd_status r = Code (-1) /\ rd_values r = []
  | WithOutput s fd3 => rd_status r = s /\ rd_values r = fd3_values fd3
  end.
(** The calls after the last completed round, by the state reached; [cur] is the task in hand. *)
Definition last_calls (is : list loop_input) (st : loop_state) (cur : option nat) (cs : list loop_call) : Prop :=
  match st with
  | LRecv => cur = None /\ cs = []
  | LTaken n | LFeeding n _ => cur = Some n /\ cs = [CallPreamble n]
  | LRunning n => cur = Some n /\ exists pid, cs = [CallPreamble n; CallStarted n pid]
  | LEnded =>
      (cur = None /\ cs = [] /\ last is = Some InErr) \/
      exists n pid, cur = Some n /\
        ((exists t, last is = Some (InSoft t)) /\ cs = [CallPreamble n; CallStarted n pid; CallFinished n Cancelled []] \/
         last is = Some InHard /\ cs = [CallPreamble n; CallStarted n pid])
  | LPanicked =>
      exists n, cur = Some n /\
        ((last is = Some InSetupFails \/ last is = Some InFeedFails) /\ cs = [CallPreamble n] \/
         (last is = Some InWaitFails \/ exists raw fd3, last is = Some (InOutput raw fd3) /\ child_code raw = None) /\
         exists pid, cs = [CallPreamble n; CallStarted n pid])
  end.

(** The client steps that the calls make; the results of recv come from the tracker. *)
Definition call_action (c : nat) (host : string) (x : loop_call) : option action :=
  match x with
  | CallRecv => Some (ARecv c)
  | CallPreamble _ => None
  | CallStarted _ pid => Some (ASendStarted c host pid EmptyString)
  | CallFinished _ s vs => Some (ASendFinished c s vs None)
  end.
