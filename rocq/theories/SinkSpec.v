(** Vocabulary for the console and the file of the messages. *)
From Verif Require Export SinkModel.

(** The module was imported when the files had the contents [disk], and the steps [acts] were made. *)
Definition logging (C : nat) (disk : string -> bytes) (acts : list sinkact) (s : sink) (t : list sinkobs) : Prop :=
  1 <= C /\ sink_run C (sink_start disk) acts = Some (s, t).

(** What was given to the writer of the file [f], and to the console, in order; the pieces that thread [i] has given to a file. *)
Definition filed (f : string) (t : list sinkobs) : bytes :=
  concat (map (fun o => match o with ToFile _ g b => if String.eqb f g then b else [] | _ => [] end) t).
Definition shown (t : list sinkobs) : bytes := concat (map (fun o => match o with ToConsole _ b => b | _ => [] end) t).
Definition all_filed (t : list sinkobs) : bytes := concat (map (fun o => match o with ToFile _ _ b => b | _ => [] end) t).
Definition pieces_by (i : nat) (t : list sinkobs) : list bytes :=
  flat_map (fun o => match o with ToFile j _ b => if Nat.eqb i j then [b] else [] | _ => [] end) t.

(** Thread [i] neither begins nor ends a message. *)
Definition same_message (i : nat) (t : list sinkobs) : Prop :=
  forall o, In o t -> (forall frags, o <> Began i frags) /\ (forall ok, o <> Ended i ok).

(** What the writer holds of [f]. *)
Definition held (f : string) (s : sink) : bytes := match sk_file s with Some (g, b) => if String.eqb f g then b else [] | None => [] end.

Definition nonempty (b : bytes) : bool := match b with [] => false | _ => true end.

(** No write to a file that is given up for another fails. *)
Definition replaced_safely (acts : list sinkact) : Prop := forall p o rs, In (Init p o rs) acts -> ~ In WFailed rs.
(** Nothing fails. *)
Definition no_failure (acts : list sinkact) : Prop :=
  forall a, In a acts ->
    match a with Init _ o rs => o = true /\ ~ In WFailed rs | Begin _ _ => True | Go _ c rs => c <> WFailed /\ ~ In WFailed rs | Flush c rs => c = true /\ ~ In WFailed rs end.
(** Each write to the console takes all that it is given. *)
Definition console_takes_all (C : nat) (disk : string -> bytes) (acts : list sinkact) : Prop :=
  forall acts1 i k rs acts2 s1 t1 b r,
    acts = acts1 ++ Go i (Took k) rs :: acts2 -> sink_run C (sink_start disk) acts1 = Some (s1, t1) -> sk_threads s1 i = Some (b :: r) -> b <> [] -> k = length b.
(** Each fragment of a message fits into the buffer. *)
Definition small (C : nat) (frags : list bytes) : Prop := forall b, In b frags -> length b < C.
(** The file chosen last. *)
Definition chosen (acts : list sinkact) : option string :=
  fold_left (fun o a => match a with Init (Some p) true _ => Some p | _ => o end) acts None.
