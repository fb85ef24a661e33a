(** Vocabulary for what execute() prints, in terms of the observations of the call. *)
From Verif Require Export LinesModel SchedSpec.
Open Scope list_scope.

(** A finish report, processed in the loop or in the final clean-up. *)
Definition finish_report (o : obs) : option (nat * exit_status) :=
  match o with OFinished n s _ | ODrainFinished n s => Some (n, s) | _ => None end.
Definition reports (t : list obs) : list (nat * exit_status) := omap finish_report t.
Definition soft_begun (t : list obs) : Prop := exists c, In (OSoft c) t.

Definition task_text (cfg : config) (n : nat) : string := match nodes (cf_g cfg) !! n with Some c => display c | None => "" end.
Definition task_runcount (cfg : config) (n : nat) : N := match nodes (cf_g cfg) !! n with Some c => c_runcount c | None => 0 end.

(** The word for a failure. In the clean-up the trace does not tell the time since the start. *)
Definition label_of (t : list obs) (o : obs) (label : string) : Prop :=
  match o with
  | OFinished _ (Code _) _ => label = (if fizzle o then "FIZZLED" else "FAILED")%string
  | ODrainFinished n (Code _) => label = "FAILED"%string \/ label = "FIZZLED"%string /\ In (OStarted n) t
  | OFinished _ Cancelled _ | ODrainFinished _ Cancelled => label = "CANCELLED"%string
  | OFinished _ Disconnected _ | ODrainFinished _ Disconnected => label = "DISCONNECTED"%string
  | _ => False
  end.

(** What is printed of stdout and stderr of a task: those that are not empty, in this order. *)
Definition outputs_of (out : string * string) : list message :=
  map Output (List.filter (fun s => negb (String.eqb s "")) [fst out; snd out]).

(** [shows t c]: exactly the messages [c] are printed for the observations [t]. [offset] tasks were completed before. *)
Section shows.
Variable cfg : config.
Variable offset : N.
Variable outs : nat -> string * string.
Notation tasks := (N.of_nat (length (nodes (cf_g cfg)))).
Inductive shows : list obs -> list message -> Prop :=
| shows_start : shows [] []
| shows_other t c o : shows t c -> finish_report o = None -> shows (t ++ [o]) c
| shows_success t c o n : shows t c -> finish_report o = Some (n, Code 0) -> ~ soft_begun t ->
    shows (t ++ [o]) (c ++ Progress (offset + N.of_nat (length (reports t)) + 1) (offset + tasks) (task_text cfg n) :: outputs_of (outs n))
| shows_success_soft t c o n : shows t c -> finish_report o = Some (n, Code 0) -> soft_begun t ->
    shows (t ++ [o]) (c ++ [Progress (offset + N.of_nat (length (reports t)) + 1) (offset + tasks) (task_text cfg n)])
| shows_failure t c o n s label shown : shows t c -> finish_report o = Some (n, s) -> s <> Code 0 -> ~ soft_begun t -> label_of t o label ->
    shown = outputs_of (outs n) \/ (shown = [] /\ o = ODrainFinished n Disconnected) ->
    shows (t ++ [o]) (c ++ Failure label (task_key cfg n) (task_runcount cfg n) (task_text cfg n) :: shown)
| shows_failure_soft t c o n s : shows t c -> finish_report o = Some (n, s) -> s <> Code 0 -> soft_begun t -> shows (t ++ [o]) c.
End shows.

(** The numbers k of the lines [k/n], and the texts. *)
Definition numbers (c : list message) : list N := omap (fun m => match m with Progress k _ _ => Some k | _ => None end) c.
Definition texts (c : list message) : list string := omap (fun m => match m with Progress _ _ s => Some s | _ => None end) c.

(** The tasks reported successful, and not successful, in the order of the reports. *)
Definition good_reports (t : list obs) : list nat := omap (fun r => match r with (n, Code 0) => Some n | _ => None end) (reports t).
Definition bad_reports (t : list obs) : list nat := omap (fun r => match r with (_, Code 0) => None | (n, _) => Some n end) (reports t).
(** The observations before the soft shutdown, all if there is none. *)
Fixpoint before_soft (t : list obs) : list obs :=
  match t with [] => [] | OSoft _ :: _ => [] | o :: rest => o :: before_soft rest end.
(** Key, run count and text of the lines about failures. *)
Definition failure_lines (c : list message) : list (string * N * string) :=
  omap (fun m => match m with Failure _ k r s => Some (k, r, s) | _ => None end) c.
(** The totals of the progress lines. *)
Definition totals (c : list message) : list N := omap (fun m => match m with Progress _ n _ => Some n | _ => None end) c.

(** ** The text of the lines *)
(** The number that a row of hexadecimal digits stands for ([acc]: the digits before). *)
Definition hex_digit (c : ascii) : option N :=
  let n := N_of_ascii c in
  if (48 <=? n)%N && (n <=? 57)%N then Some (n - 48)%N else if (97 <=? n)%N && (n <=? 102)%N then Some (n - 87)%N else None.
Fixpoint hex_value (acc : N) (s : string) : option N :=
  match s with
  | EmptyString => Some acc
  | String c r => match hex_digit c with Some d => hex_value (16 * acc + d)%N r | None => None end
  end.
(** The text without the escape sequences for colours, which go from the escape character to the letter m. *)
Fixpoint uncoloured (inside : bool) (s : string) : string :=
  match s with
  | EmptyString => EmptyString
  | String c r =>
      if inside then uncoloured (negb (Ascii.eqb c "m")) r
      else if Ascii.eqb c "027" then uncoloured true r else String c (uncoloured false r)
  end.
Definition no_escape (s : string) : Prop := forall a b, s <> a +:+ String "027" b.
