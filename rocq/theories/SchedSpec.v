(** Vocabulary for statements about one execute() call, in terms of observations. *)
From Verif Require Export SchedModel GraphSpec LogSpec.

(** A trace [t] leading to state [s]: some schedule of server, runners and environment. *)
Definition reachable (cfg : config) (s : st) (t : list obs) : Prop :=
  exists acts, run cfg (initial cfg) acts = Some (s, t).

(** What execute() guarantees about the graph and the log it starts the tracker with. *)
Record config_ok (cfg : config) : Prop := ConfigOk {
  ok_wf : graph_wf (cf_g cfg);
  ok_acyclic : acyclic (cf_g cfg);
  ok_keys : NoDup (map c_key (nodes (cf_g cfg)));
  ok_size : (N.of_nat (node_count (cf_g cfg)) < 4294967296)%N;
  ok_log : log_writes (LogFile empty_log_state []) (lf_entries (cf_log cfg)) = Some (cf_log cfg)
}.

Definition handed_out (t : list obs) (n : nat) : Prop := exists c i, In (OHandedOut c i n) t.
Definition made_ready (t : list obs) (n : nat) : Prop := In (OReady n) t.

(** The finish report of [n] was processed (in the loop), with that status. *)
Definition finished_with (t : list obs) (n : nat) (s : exit_status) : Prop :=
  exists e, In (OFinished n s e) t.
Definition finished (t : list obs) (n : nat) : Prop := exists s, finished_with t n s.
Definition succeeded (t : list obs) (n : nat) : Prop := finished_with t n (Code 0).
Definition failed (t : list obs) (n : nat) : Prop := exists s, finished_with t n s /\ s <> Code 0.

(** [n] ended unsuccessfully, in the loop or in the final clean-up. *)
Definition ended_badly (t : list obs) (n : nat) : Prop :=
  exists s, s <> Code 0 /\ ((exists e, In (OFinished n s e) t) \/ In (ODrainFinished n s) t).

(** The order in which finish reports were processed. *)
Definition finish_order (t : list obs) : list nat :=
  omap (fun o => match o with OFinished n _ _ => Some n | _ => None end) t.

(** Lists of tasks made ready and handed out. *)
Definition readied (t : list obs) : list nat :=
  omap (fun o => match o with OReady n => Some n | _ => None end) t.
Definition handed (t : list obs) : list nat :=
  omap (fun o => match o with OHandedOut _ _ n => Some n | _ => None end) t.

(** Failures within five seconds of the start report. *)
Definition fizzle (o : obs) : bool :=
  match o with
  | OFinished _ s (Some e) =>
      negb (match s with Code 0 => true | _ => false end) && N.ltb e 5000000000
  | _ => false
  end.
Definition fizzles (t : list obs) : N := N.of_nat (length (List.filter fizzle t)).

Definition in_graph (cfg : config) (n : nat) : Prop := n < length (nodes (cf_g cfg)).

(** affinity mask of a task *)
Definition aff (cfg : config) (n : nat) : N :=
  match nodes (cf_g cfg) !! n with Some c => c_affinity c | None => 0 end.

Definition task_key (cfg : config) (n : nat) : string :=
  match nodes (cf_g cfg) !! n with Some c => c_key c | None => "" end.

(** Number of tasks in a list that have affinity mask [a]. *)
Definition count_aff (cfg : config) (a : N) (l : list nat) : nat :=
  length (List.filter (fun n => N.eqb (aff cfg n) a) l).

(** The records written by this call. *)
Definition new_records (cfg : config) (s : st) (new : list log_entry) : Prop :=
  lf_entries (sv_log (st_sv s)) = lf_entries (cf_log cfg) ++ new.

(** Observations that show that task [n] is being run in this call. *)
Definition mentions (o : obs) (n : nat) : Prop :=
  match o with
  | OReady m | OPushed _ m | OHandedOut _ _ m | OSentStarted _ m | OSentFinished _ m _ _
  | OStarted m | OFinished m _ _ | ODrainStarted m | ODrainFinished m _ | OFlag m _ => m = n
  | _ => False
  end.

(** No shutdown was requested and the loop was not left. *)
Definition undisturbed (t : list obs) : Prop :=
  (forall c, ~ In (OSoft c) t) /\ (forall c, ~ In (OExit c) t).

(** The server is between two events: all effects of the last one are visible. *)
Definition quiescent (s : st) : Prop := st_phase s <> PInit /\ st_todo s = [].

(** Tasks of [l] with affinity mask [a]. *)
Definition with_mask (cfg : config) (a : N) (l : list nat) : list nat :=
  List.filter (fun n => N.eqb (aff cfg n) a) l.
(** Elements of [l] that are not in [l']. *)
Definition minus (l l' : list nat) : list nat :=
  List.filter (fun n => negb (existsb (Nat.eqb n) l')) l.

(** A Finished record that is not a success. *)
Definition failure_record (e : log_entry) : bool :=
  match e with Finished f => negb (Z.eqb (f_status f) 0) | _ => false end.
