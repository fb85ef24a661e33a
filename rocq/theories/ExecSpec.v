(** Vocabulary for adding tasks, selecting what to run, and displaying commands. *)
From Coq Require Export Sorted.
From Verif Require Export ExecModel GraphSpec LogSpec.

(** Task [n] has key [k]. *)
Definition task_has_key (g : digraph cmd) (n : nat) (k : string) : Prop :=
  exists c, nodes g !! n = Some c /\ c_key c = k.

(** [sub] is the part of [g] on the nodes [ids]: node [i] of [sub] is node [ids !! i] of [g],
    and the edges are exactly those of [g] between these nodes. *)
Definition part_of {A} (g : digraph A) (ids : list nat) (sub : digraph A) : Prop :=
  StronglySorted lt ids /\
  length ids = length (nodes sub) /\
  (forall i n, ids !! i = Some n -> nodes sub !! i = nodes g !! n /\ n < length (nodes g)) /\
  (forall i j, edge sub i j <->
     exists u v, ids !! i = Some u /\ ids !! j = Some v /\ edge g u v).

(** A path from [u] to [v] all of whose nodes satisfy [P]. *)
Inductive path_via {A} (g : digraph A) (P : nat -> Prop) : nat -> nat -> Prop :=
| via_nil u : P u -> path_via g P u u
| via_cons u v w : P u -> edge g u v -> path_via g P v w -> path_via g P u w.

(** What execute(target) considers: the target and what it depends on; everything if there is
    no target. *)
Definition considered (g : digraph cmd) (target : option nat) (n : nat) : Prop :=
  n < length (nodes g) /\
  match target with None => True | Some t => n = t \/ reaches g n t end.

(** The log says that the latest attempt of [k] was a success / a failure. *)
Definition log_success (es : list log_entry) (k : string) : Prop :=
  exists c sr, status_in es k (Some (RFinished c sr true)).
Definition log_failure (es : list log_entry) (k : string) : Prop :=
  exists c sr, status_in es k (Some (RFinished c sr false)).

(** Considered, and neither done in this process ([done]) nor recorded as a success. *)
Definition candidate (g : digraph cmd) (target : option nat) (done : string -> Prop)
    (es : list log_entry) (n : nat) : Prop :=
  considered g target n /\
  forall k, task_has_key g n k -> ~ done k /\ ~ log_success es k.

(** What execute() runs: with rerun_failures all candidates, without it those candidates that
    neither failed nor depend, through candidates, on one that failed. *)
Definition selected (g : digraph cmd) (target : option nat) (done : string -> Prop)
    (es : list log_entry) (rerun : bool) (n : nat) : Prop :=
  candidate g target done es n /\
  (rerun = false -> forall m k, path_via g (candidate g target done es) m n ->
     task_has_key g m k -> ~ log_failure es k).

(** Keys for which execute() logs a Backref. *)
Definition reused (g : digraph cmd) (target : option nat) (done : string -> Prop)
    (es : list log_entry) (rerun : bool) (k : string) : Prop :=
  exists n, considered g target n /\ task_has_key g n k /\ ~ done k /\
    (log_success es k \/ (rerun = false /\ log_failure es k)).

(** The same task apart from its priority. *)
Definition same_task (c c' : cmd) : Prop :=
  c_cmdline c = c_cmdline c' /\ c_key c = c_key c' /\ c_display c = c_display c' /\
  c_affinity c = c_affinity c' /\ c_runcount c = c_runcount c' /\
  c_storage_root c = c_storage_root c'.

(** The characters of a string. *)
Definition chars (s : string) : list ascii := list_ascii_of_string s.

(** The substitution of the display string, as a relation: cut the text into pieces, each a
    backslash-newline, a tab or some other character. *)
Inductive piece := PEscapedNewline | PTab | PChar (c : ascii).
Definition piece_text (p : piece) : list ascii :=
  match p with
  | PEscapedNewline => ["\"; newline]%char
  | PTab => [tab]
  | PChar c => [c]
  end.
Definition piece_shown (p : piece) : list ascii :=
  match p with
  | PEscapedNewline => [" "]%char
  | PTab => ["\"; "t"]%char
  | PChar c => [c]
  end.
Definition text_of (ps : list piece) : list ascii := concat (map piece_text ps).
Definition shown_of (ps : list piece) : list ascii := concat (map piece_shown ps).
(** No piece boundary splits a backslash-newline, and [PChar] is used for nothing else. *)
Fixpoint proper (ps : list piece) : Prop :=
  match ps with
  | [] => True
  | PChar c :: rest =>
      c <> tab /\ ~ (c = "\"%char /\ exists r, rest = PChar newline :: r) /\ proper rest
  | _ :: rest => proper rest
  end.

(** Arguments joined by single spaces. *)
Fixpoint joined (args : list string) : list ascii :=
  match args with
  | [] => []
  | [x] => chars x
  | x :: rest => chars x ++ [" "%char] ++ joined rest
  end.

(** Invariant of the task table: dependencies point to earlier tasks, keys are unique, the key
    table knows exactly the keys of the tasks. *)
Record graph_ok (e : exec_graph) : Prop := GraphOk {
  gk_wf : graph_wf (deps e);
  gk_increasing : forall u v, edge (deps e) u v -> u < v;
  gk_keys : NoDup (map c_key (nodes (deps e)));
  gk_table : forall k n, key_to_nodeid e !! k = Some n <-> task_has_key (deps e) n k
}.

(** What is assumed of petgraph's toposort: its documented contract, on every graph. *)
Definition order_ok (toposort : digraph cmd -> option (list nat)) : Prop :=
  forall g, graph_wf g -> toposort_contract g (toposort g).

(** The order in which a hash set is read: each element once. *)
Definition reads_each_once (reused_order : gset string -> list string) : Prop :=
  forall s, NoDup (reused_order s) /\ forall k, k ∈ reused_order s <-> k ∈ s.
