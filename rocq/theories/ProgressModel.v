(** Model of the messages of all calls of execute() in the histories of SessionModel.v: /repo/src/execgraph.rs:260, where execute()
    begins to count from, and 281, where it passes that on to the tracker (LinesModel.v). *)
From Verif Require Export SessionModel LinesModel.
Open Scope list_scope.

(** execgraph.rs:260: before get_subgraph adds the reused tasks to [completed]. *)
Definition count_offset (p : process) : N := N.of_nat (size (completed (p_graph p))).

(** One event of a history with the messages printed. Calls with nothing to run return before the tracker is made (execgraph.rs:268-271). *)
Inductive pstep : world -> event_of_history -> list message -> world -> Prop :=
| P_execute F p x e cfg outs acts s t c :
    args_ok x -> start_execute p x = Some (e, cfg) -> node_count (cf_g cfg) <> 0 ->
    lines_run cfg (count_offset p) outs (initial cfg) acts = Some (s, t, c) -> st_phase s = PDrained ->
    pstep (World F (Some p)) (HExecuted (x_target x) cfg t (execute_result cfg s)) c
          (World (lf_entries (sv_log (st_sv s))) (Some (end_execute p e cfg s)))
| P_killed F p x e cfg outs acts s t c n :
    args_ok x -> start_execute p x = Some (e, cfg) ->
    lines_run cfg (count_offset p) outs (initial cfg) acts = Some (s, t, c) -> length F <= n ->
    pstep (World F (Some p)) (HKilledInExecute (x_target x) cfg t) c (World (take n (lf_entries (sv_log (st_sv s)))) None)
| P_empty F p x e cfg :
    args_ok x -> start_execute p x = Some (e, cfg) -> node_count (cf_g cfg) = 0 ->
    pstep (World F (Some p)) (HExecuted (x_target x) cfg [] (0%N, [])) [] (World F (Some (Process e (p_allowed p) (p_rerun p))))
| P_other w ev w' :
    wstep w ev w' -> match ev with HExecuted _ _ _ _ | HKilledInExecute _ _ _ => False | _ => True end -> pstep w ev [] w'.

(** A list of events; it models no code: any use of pylib.rs:62-400 is such a list. *)
Inductive phistory : world -> list (event_of_history * list message) -> world -> Prop :=
| phist_nil w : phistory w [] w
| phist_snoc w1 w2 w3 h ev c : phistory w1 h w2 -> pstep w2 ev c w3 -> phistory w1 (h ++ [(ev, c)]) w3.
