(** Model of /repo/src/execgraph.rs (tasks, adding tasks, selecting the subgraph to run) and
    of the parts of /repo/src/pylib.rs that prepare its arguments. *)
From Verif Require Export GraphModel LogModel.
From Coq Require Export Ascii.

(** execgraph.rs:30-51 Cmd. Omitted: fd_input (data passed through to the child) and the
    preamble/postamble capsules (foreign C functions). OsString arguments are byte strings. *)
Record cmd := Cmd {
  c_cmdline : list string;
  c_key : string;
  c_display : option string;
  c_affinity : N;
  c_runcount : N;
  c_priority : N;
  c_storage_root : N
}.

(** The characters that are replaced (execgraph.rs:55), and what is written for them (133, 135): the backslash, *)
Definition backslash : ascii := ascii_of_nat 92.
(** the newline (55), *)
Definition newline : ascii := ascii_of_nat 10.
(** the tab (55), *)
Definition tab : ascii := ascii_of_nat 9.
(** the space (122, 133). *)
Definition space : ascii := ascii_of_nat 32.

(** execgraph.rs:53-57 and 131-140: replace, from left to right, each backslash-newline by a
    space and each tab by backslash-t. *)
Fixpoint replace_escapes (s : string) : string :=
  match s with
  | EmptyString => EmptyString
  | String c s1 =>
      match s1 with
      | String d s2 =>
          if Ascii.eqb c backslash && Ascii.eqb d newline
          then String space (replace_escapes s2)
          else if Ascii.eqb c tab
          then String backslash (String "t" (replace_escapes s1))
          else String c (replace_escapes s1)
      | EmptyString =>
          if Ascii.eqb c tab then String backslash (String "t" EmptyString)
          else String c EmptyString
      end
  end.

(** execgraph.rs:123-128: arguments joined by single spaces. *)
Fixpoint join_args (items : list string) : string :=
  match items with
  | [] => EmptyString
  | [x] => x
  | x :: rest => x +:+ String space (join_args rest)
  end.

(** execgraph.rs:117-144 Cmd::display. The panic for arguments that are not UTF-8 (129) is
    not modelled. *)
Definition display (c : cmd) : string :=
  match c_display c with
  | Some s => s
  | None => replace_escapes (join_args (c_cmdline c))
  end.

(** execgraph.rs:181-186 ExecGraph *)
Record exec_graph := ExecGraph {
  deps : digraph cmd;
  key_to_nodeid : gmap string nat;
  logfile : log_file;
  completed : gset string
}.

(** execgraph.rs:190-199 ExecGraph::new *)
Definition exec_new (l : log_file) : exec_graph := ExecGraph (DiGraph [] []) ∅ l ∅.

(** petgraph Graph::add_node. Used at execgraph.rs:227. *)
Definition add_node {A} (g : digraph A) (a : A) : digraph A :=
  DiGraph (nodes g ++ [a]) (edges g).

(** petgraph Graph::remove_node: drops the incident edges, and moves the last node to the
    freed index (swap_remove). (The order of the remaining edges is exact when the removed
    ones are the most recent, as they are in [add_task].). Used at execgraph.rs:230. *)
Definition remove_node {A} (g : digraph A) (a : nat) : digraph A :=
  let last := node_count g - 1 in
  let rename x := if Nat.eqb x last then a else x in
  match nodes g !! last with
  | None => g
  | Some w =>
      DiGraph (take last (<[a := w]> (nodes g)))
              (map (fun e => (rename (fst e), rename (snd e)))
                   (List.filter (fun e => negb (Nat.eqb (fst e) a || Nat.eqb (snd e) a)) (edges g)))
  end.

(** execgraph.rs:228-234, the loop over the dependencies; [None] is the error exit, with the
    edges added so far. *)
Fixpoint add_dependencies (g : digraph cmd) (new_node : nat) (dependencies : list nat)
    : digraph cmd * bool :=
  match dependencies with
  | [] => (g, true)
  | dep :: rest =>
      if Nat.eqb dep new_node || Nat.leb (node_count g) dep then (g, false)
      else add_dependencies (add_edge g dep new_node) new_node rest
  end.

(** Result of add_task: the index, one of the two errors, or the panic of pylib.rs:163. *)
Inductive add_result := AddOk (index : nat) | AddErrEmptyCmdline | AddErrInvalidDependency
| AddPanicNoStorageRoot.

(** execgraph.rs:217-239 add_task. Task indices are below 2^32 - 1 (petgraph panics beyond). *)
Definition add_task (e : exec_graph) (c : cmd) (dependencies : list nat)
    : exec_graph * add_result :=
  match key_to_nodeid e !! c_key c with
  | Some index => (e, AddOk index)
  | None =>
      if Nat.eqb (length (c_cmdline c)) 0 then (e, AddErrEmptyCmdline)
      else
        let new_node := node_count (deps e) in
        let '(g, ok) := add_dependencies (add_node (deps e) c) new_node dependencies in
        if ok then
          (ExecGraph g (<[c_key c := new_node]> (key_to_nodeid e)) (logfile e) (completed e),
           AddOk new_node)
        else
          (ExecGraph (remove_node g new_node) (key_to_nodeid e) (logfile e) (completed e),
           AddErrInvalidDependency)
  end.

(** logfile2.rs:409-419 storage_root, before joining with the directory of the log: the entry
    of the list in the newest header. *)
Definition storage_root (s : log_state) (id : N) : option string :=
  match log_header s with
  | None => None
  | Some h => h_storage_roots h !! N.to_nat id
  end.

(** pylib.rs:134-172 logfile_runcount: the run count and, for a success, the storage root of
    its directory (the last path component, key.runcount, is left out). [None] is the panic
    "Unable to find storage root". The run counts are unbounded here; the code wraps at
    2^32. *)
Definition logfile_runcount (s : log_state) (key : string) : option (N * option string) :=
  match runcount s key with
  | None => Some (0%N, None)
  | Some (RReady c _) => Some (c, None)
  | Some (RStarted c _) => Some ((c + 1)%N, None)
  | Some (RFinished c sr true) =>
      match storage_root s sr with
      | None => None
      | Some root => Some (c, Some root)
      end
  | Some (RFinished c _ false) => Some ((c + 1)%N, None)
  end.

(** pylib.rs:260-288 add_task *)
Definition py_add_task (e : exec_graph) (cmdline : list string) (key : string)
    (dependencies : list nat) (disp : option string) (affinity storage_root : N)
    : exec_graph * add_result :=
  match logfile_runcount (lf_state (logfile e)) key with
  | None => (e, AddPanicNoStorageRoot)
  | Some (rc, _) => add_task e (Cmd cmdline key disp affinity rc 0 storage_root) dependencies
  end.

(** petgraph Graph::filter_map: nodes for which [f] is [Some] are kept, renumbered in order;
    an edge is kept if both its ends are. Used at execgraph.rs:477, 491, 498 and 540. *)
Definition new_index {B} (l : list (option B)) (i : nat) : option nat :=
  match l !! i with
  | Some (Some _) => Some (length (omap id (take i l)))
  | _ => None
  end.

(** petgraph Graph::filter_map (execgraph.rs:477, 491, 498, 540). *)
Definition filter_map {A B} (f : nat -> A -> option B) (g : digraph A) : digraph B :=
  let l := imap f (nodes g) in
  DiGraph (omap id l)
          (omap (fun e => match new_index l (fst e), new_index l (snd e) with
                          | Some u, Some v => Some (u, v)
                          | _, _ => None
                          end) (edges g)).

(** execgraph.rs:455-459: set the priorities. *)
Definition with_priority (c : cmd) (p : nat) : cmd :=
  Cmd (c_cmdline c) (c_key c) (c_display c) (c_affinity c) (c_runcount c) (N.of_nat p)
      (c_storage_root c).

(** execgraph.rs:456-459 *)
Definition set_priorities (g : digraph cmd) (ps : list nat) : digraph cmd :=
  DiGraph (zip_with with_priority (nodes g) ps) (edges g).

(** execgraph.rs:464-492: restrict to the target and what it depends on. [toposort] is
    petgraph's function; theorems assume its documented contract only. *)
Definition select_target (toposort : digraph cmd -> option (list nat)) (g : digraph cmd)
    (target : option nat)
    : option (digraph cmd) :=
  match target with
  | None => Some (filter_map (fun _ w => Some w) g)
  | Some t =>
      match transitive_closure_dag (GraphModel.reverse g) (toposort (GraphModel.reverse g)) with
      | None => None
      | Some tc =>
          let relevant : gset nat := {[ t ]} ∪ list_to_set (out_neighbors tc t) in
          Some (filter_map (fun n w => if decide (n ∈ relevant) then Some w else None) g)
      end
  end.

(** execgraph.rs:498-523: drop what is done; also the keys put into [reused_old_keys]. *)
Definition drop_done (g : digraph cmd) (completed : gset string) (log : log_state)
    : digraph cmd * gset string :=
  (filter_map (fun _ w =>
     if decide (c_key w ∈ completed) then None
     else if has_success log (c_key w) then None
     else Some w) g,
   list_to_set (map c_key (List.filter (fun w =>
     negb (bool_decide (c_key w ∈ completed)) && has_success log (c_key w)) (nodes g)))).

(** execgraph.rs:528-561: drop earlier failures and what is downstream of them. *)
Definition drop_failures (toposort : digraph cmd -> option (list nat)) (g : digraph cmd)
    (log : log_state)
    : option (digraph cmd * gset string) :=
  match transitive_closure_dag g (toposort g) with
  | None => None
  | Some tc =>
      let failed n := match nodes tc !! n with
                      | Some w => has_failure log (c_key w)
                      | None => false
                      end in
      Some (filter_map (fun n w =>
              if failed n then None
              else if existsb failed (in_neighbors tc n) then None
              else Some w) g,
            list_to_set (map c_key (List.filter (fun w => has_failure log (c_key w)) (nodes g))))
  end.

(** execgraph.rs:446-571 get_subgraph. [reused_order]: the iteration order of the hash set
    [reused_old_keys].
    Result: the graph with priorities, the log, the completed keys, and the subgraph.
    [None]: an error or panic. *)
Definition get_subgraph (toposort : digraph cmd -> option (list nat)) (e : exec_graph)
    (target : option nat) (rerun_failures : bool) (reused_order : gset string -> list string)
    : option (exec_graph * digraph cmd) :=
  match tlevel_dag (deps e) (toposort (deps e)) with
  | None => None
  | Some ps =>
      let g := set_priorities (deps e) ps in
      match select_target toposort g target with
      | None => None
      | Some sub =>
          let st := lf_state (logfile e) in
          let '(filtered, reused) := drop_done sub (completed e) st in
          let finish filtered (reused : gset string) :=
            match log_writes (logfile e)
                    (map (fun k => Backref (BackrefEntry k)) (reused_order reused)) with
            | None => None
            | Some l =>
                Some (ExecGraph g (key_to_nodeid e) l
                        (completed e ∪ list_to_set (reused_order reused)), filtered)
            end in
          if rerun_failures then finish filtered reused
          else match drop_failures toposort filtered st with
               | None => None
               | Some (filtered', reused') => finish filtered' (reused ∪ reused')
               end
      end
  end.
