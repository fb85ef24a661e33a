(** Vocabulary for whole histories of a log, in terms of API calls and log records. *)
From Verif Require Export SessionModel SchedSpec.

(** [h] is a possible history of a log that starts empty, [w] the situation after it. *)
Definition possible (h : list event_of_history) (w : world) : Prop :=
  whistory (World [] None) h w.

(** The log as seen by whoever has it open; the file if nobody has. *)
Definition current_log (w : world) : list log_entry :=
  match w_proc w with Some p => lf_entries (logfile (p_graph p)) | None => w_file w end.

Definition has_header (es : list log_entry) : Prop := exists h, In (Header h) es.

(** The events of the running (or last) session. *)
Definition this_session (h s : list event_of_history) : Prop :=
  exists h0 a, h = h0 ++ HOpened a :: s /\ forall a', ~ In (HOpened a') s.

(** [k] was among the finished tasks that an execute() of this session returned. *)
Definition returned_here (h : list event_of_history) (k : string) : Prop :=
  exists s target cfg t n ks, this_session h s /\
    In (HExecuted target cfg t (n, ks)) s /\ In k ks.

(** A Backref to [k] was logged in the running session. *)
Definition referred_here (es : list log_entry) (k : string) : Prop :=
  exists l1 b l2, es = l1 ++ Backref b :: l2 /\ b_key b = k /\ ~ has_header l2.

Definition done_here (h : list event_of_history) (es : list log_entry) (k : string) : Prop :=
  returned_here h k \/ referred_here es k.

(** The graph and the schedule of an event, if it is a call of execute(). *)
Definition execution (ev : event_of_history) : option (option nat * config * list obs) :=
  match ev with
  | HExecuted tg cfg t _ | HKilledInExecute tg cfg t => Some (tg, cfg, t)
  | _ => None
  end.

Fixpoint executes_in (s : list event_of_history) : nat :=
  match s with
  | [] => 0
  | ev :: s => (if execution ev then 1 else 0) + executes_in s
  end.

(** No session calls execute() more than once. *)
Definition one_execute_each (h : list event_of_history) : Prop :=
  forall h1 h2 s, h = h1 ++ h2 -> this_session h1 s -> executes_in s <= 1.

(** [k] becomes ready at most once in each session of the log. *)
Definition ready_once (k : string) (es : list log_entry) : Prop :=
  forall l1 r l2 r' l3, es = l1 ++ Ready r :: l2 ++ Ready r' :: l3 ->
    r_key r = k -> r_key r' = k -> has_header l2.

(** The run counts of started attempts of [k] are below those of all later attempts. *)
Definition counts_increase (k : string) (es : list log_entry) : Prop :=
  forall l1 r1 l2 s l3 r2 l4,
    es = l1 ++ Ready r1 :: l2 ++ Started s :: l3 ++ Ready r2 :: l4 ->
    r_key r1 = k -> no_record k l2 -> s_key s = k -> r_key r2 = k ->
    (r_runcount r1 < r_runcount r2)%N.

(** The run count that belongs to what the log says about a key. *)
Definition next_runcount (o : option runcount_status) : N :=
  match o with
  | None => 0
  | Some (RReady c _) => c
  | Some (RStarted c _) => c + 1
  | Some (RFinished c _ ok) => if ok then c else c + 1
  end.

(** [sub] is, up to priorities, the part of [g] on the nodes [ids]. *)
Definition runs_part (g : digraph cmd) (ids : list nat) (sub : digraph cmd) : Prop :=
  StronglySorted lt ids /\
  length ids = length (nodes sub) /\
  (forall i n, ids !! i = Some n ->
     exists c c', nodes g !! n = Some c /\ nodes sub !! i = Some c' /\ same_task c c') /\
  (forall i j, edge sub i j <-> exists u v, ids !! i = Some u /\ ids !! j = Some v /\ edge g u v).
