(** Calls of the API as a script, to write down concrete histories. Used by examples only. *)
From Verif Require Export SessionMore TopoSort SchedProps.

Inductive call :=
| COpen (a : open_args)
| CAdd (cmdline : list string) (key : string) (ds : list nat) (disp : option string) (aff sr : N)
| CExecute (target : option nat) (types : list nat) (l : list script)
| CClose
| CKill (n : nat)
| CKillIn (target : option nat) (types : list nat) (l : list script) (n : nat).

Definition demo_args (target : option nat) (types : list nat) : execute_args :=
  ExecuteArgs target topo_sort (fun s => elements s) types (fun n => SysTime (N.of_nat n) 0).

Lemma demo_args_ok target types : args_ok (demo_args target types).
Proof.
  split.
  - intros g Hg. by apply topo_sort_contract.
  - intros s. split; [apply NoDup_elements|]. intros k. apply elem_of_elements.
Qed.

Definition do_call (w : world) (c : call) : option (event_of_history * world) :=
  match w_proc w, c with
  | None, COpen a =>
      match open_session (w_file w) a with
      | Some p => Some (HOpened a, World (w_file w) (Some p))
      | None => Some (HOpenFailed, World (w_file w) None)
      end
  | Some p, CAdd cmdline key ds disp aff sr =>
      let '(e, r) := py_add_task (p_graph p) cmdline key ds disp aff sr in
      if N.ltb (N.of_nat (node_count (deps e))) U32
      then Some (HAdded key r, World (w_file w) (Some (Process e (p_allowed p) (p_rerun p))))
      else None
  | Some p, CExecute target types l =>
      match start_execute p (demo_args target types) with
      | None => None
      | Some (e, cfg) =>
          if Nat.eqb (node_count (cf_g cfg)) 0
          then Some (HExecuted target cfg [] (0%N, []), World (w_file w) (Some (Process e (p_allowed p) (p_rerun p))))
          else match run cfg (initial cfg) (expand cfg (initial cfg) l) with
               | None => None
               | Some (s, t) =>
                   match st_phase s with
                   | PDrained => Some (HExecuted target cfg t (execute_result cfg s),
                                   World (lf_entries (sv_log (st_sv s))) (Some (end_execute p e cfg s)))
                   | _ => None
                   end
               end
      end
  | Some p, CClose => Some (HClosed, World (lf_entries (logfile (p_graph p))) None)
  | Some p, CKill n =>
      if Nat.leb (length (w_file w)) n then Some (HKilled, World (take n (lf_entries (logfile (p_graph p)))) None) else None
  | Some p, CKillIn target types l n =>
      match start_execute p (demo_args target types) with
      | None => None
      | Some (e, cfg) =>
          match run cfg (initial cfg) (expand cfg (initial cfg) l) with
          | None => None
          | Some (s, t) =>
              if Nat.leb (length (w_file w)) n
              then Some (HKilledInExecute target cfg t, World (take n (lf_entries (sv_log (st_sv s)))) None) else None
          end
      end
  | _, _ => None
  end.

Lemma do_call_step w c ev w' : do_call w c = Some (ev, w') -> wstep w ev w'.
Proof.
  destruct w as [F [p|]]; destruct c as [a|cmdline key ds disp aff sr|target types l| |n|target types l n]; cbn [do_call w_proc w_file]; try done.
  - destruct (py_add_task (p_graph p) cmdline key ds disp aff sr) as [e r] eqn:E. destruct (N.ltb_spec (N.of_nat (node_count (deps e))) U32); [|intros [=]].
    intros [= <- <-]. by eapply W_add.
  - destruct (start_execute p (demo_args target types)) as [[e cfg]|] eqn:E; [|done].
    destruct (Nat.eqb_spec (node_count (cf_g cfg)) 0) as [H0|H0].
    + intros [= <- <-]. apply (W_execute_empty F p (demo_args target types)); [apply demo_args_ok|done|done].
    + destruct (run cfg (initial cfg) (expand cfg (initial cfg) l)) as [[s t]|] eqn:Hr; [|done]. destruct (st_phase s) eqn:Hp; try done.
      intros [= <- <-]. eapply (W_execute F p (demo_args target types)); [apply demo_args_ok|done|done|exact Hr|done].
  - intros [= <- <-]. apply W_close.
  - destruct (Nat.leb_spec (length F) n); [|done]. intros [= <- <-]. by apply W_kill.
  - destruct (start_execute p (demo_args target types)) as [[e cfg]|] eqn:E; [|done].
    destruct (run cfg (initial cfg) (expand cfg (initial cfg) l)) as [[s t]|] eqn:Hr; [|done]. destruct (Nat.leb_spec (length F) n); [|done]. intros [= <- <-].
    eapply (W_kill_in_execute F p (demo_args target types)); [apply demo_args_ok|done|exact Hr|done].
  - destruct (open_session F a) eqn:E; intros [= <- <-]; [by apply W_open|by eapply W_open_fails].
Qed.

Fixpoint do_calls (w : world) (cs : list call) : option (list event_of_history * world) :=
  match cs with
  | [] => Some ([], w)
  | c :: cs =>
      match do_call w c with
      | None => None
      | Some (ev, w1) => match do_calls w1 cs with None => None | Some (h, w2) => Some (ev :: h, w2) end
      end
  end.

Lemma do_calls_history w cs h w' : do_calls w cs = Some (h, w') -> whistory w h w'.
Proof.
  revert w h. induction cs as [|c cs IH]; intros w h; simpl.
  - intros [= <- <-]. constructor.
  - destruct (do_call w c) as [[ev w1]|] eqn:E; [|done]. destruct (do_calls w1 cs) as [[h1 w2]|] eqn:E2; [|done].
    intros [= <- <-]. apply (whistory_app w [ev] w1); [|by apply IH]. apply do_call_step in E.
    change [ev] with ([] ++ [ev]). econstructor; [constructor|done].
Qed.

Lemma do_calls_possible cs h w : do_calls (World [] None) cs = Some (h, w) -> possible h w.
Proof. apply do_calls_history. Qed.

(** The outcome of a script as a term that is not computed: large terms in statements are slow to check. *)
Definition ran (cs : list call) : list event_of_history * world := default ([], World [] None) (do_calls (World [] None) cs).
Definition did (w : world) (c : call) : event_of_history * world := default (HClosed, w) (do_call w c).
Definition proc_of (w : world) : process :=
  default (Process (exec_new (LogFile empty_log_state [])) 0 false) (w_proc w).
Definition config_of (ev : event_of_history) : config * list obs :=
  match ev with
  | HExecuted _ cfg t _ | HKilledInExecute _ cfg t => (cfg, t)
  | _ => (Config (DiGraph [] []) 0 [] (fun _ => SysTime 0 0) (LogFile empty_log_state []), [])
  end.
Lemma ran_possible cs : (if do_calls (World [] None) cs then true else false) = true -> possible (ran cs).1 (ran cs).2.
Proof. unfold ran. destruct (do_calls (World [] None) cs) as [[h w]|] eqn:E; [|done]. intros _. by apply do_calls_possible in E. Qed.
Lemma did_step w c : (if do_call w c then true else false) = true -> wstep w (did w c).1 (did w c).2.
Proof. unfold did. destruct (do_call w c) as [[ev w']|] eqn:E; [|done]. intros _. by apply do_call_step in E. Qed.
Lemma proc_of_some w : (if w_proc w then true else false) = true -> w_proc w = Some (proc_of w).
Proof. unfold proc_of. by destruct (w_proc w). Qed.

(** Parts of scripts. *)
Definition open_with (key : string) (rts : list string) (rerun : bool) : call :=
  COpen (OpenArgs (SysTime 0 0) "u" "h" ["cmd"] "/" 1 rts key 0 rerun).
Definition add (key : string) (ds : list nat) : call := CAdd ["true"] key ds None 1 0.
Definition run_tasks (rs : list nat) (xs : list exit_status) (rest : list script) : list script :=
  [Do (AInit rs); Flush] ++ concat (map (fun x => take_task 0 ++ finish_task 0 x) xs) ++ rest.
Definition stop : list script := map Do [ADrop 0; ADrain [] 30].
(** The task of thread 0 is started, then the call is interrupted; its report [x] arrives only
    while the log is being closed. *)
Definition interrupted (x : exit_status) : list script :=
  map Do [ASendStarted 0 "host" 7 ""; AEvent 10; AHardCancel; AHardExit] ++ [Flush]
  ++ map Do [ASendFinished 0 x [] None; ADrop 0; ADrain [] 50].

(** Boolean check of [one_execute_each]: count the calls since the last opening. *)
Fixpoint most_executes (n : nat) (h : list event_of_history) : nat :=
  match h with
  | [] => n
  | HOpened _ :: h => Nat.max n (most_executes 0 h)
  | ev :: h => most_executes ((if execution ev then 1 else 0) + n) h
  end.
Lemma most_executes_ge n h : n <= most_executes n h.
Proof.
  revert n. induction h as [|ev h IH]; intros n; simpl; [lia|].
  destruct ev; simpl; try (etrans; [|apply IH]; lia). lia.
Qed.
Lemma most_executes_prefix n h h' : most_executes n h <= most_executes n (h ++ h').
Proof.
  revert n. induction h as [|ev h IH]; intros n; simpl; [apply most_executes_ge|].
  destruct ev; simpl; try apply IH. specialize (IH 0). lia.
Qed.
Lemma most_executes_suffix n h a s : most_executes 0 s <= most_executes n (h ++ HOpened a :: s).
Proof.
  revert n. induction h as [|ev h IH]; intros n; simpl; [lia|]. destruct ev; simpl; try apply IH. specialize (IH 0). lia.
Qed.
Lemma most_executes_session n s : (forall a, ~ In (HOpened a) s) -> most_executes n s = n + executes_in s.
Proof.
  revert n. induction s as [|ev s IH]; intros n Hs; simpl; [lia|].
  assert (forall a, ~ In (HOpened a) s) as Hs' by (intros a Ha; apply (Hs a); by right).
  destruct ev; simpl; rewrite ?IH by done; try lia. exfalso. apply (Hs a). by left.
Qed.
Lemma one_execute_checked h : most_executes 0 h <= 1 -> one_execute_each h.
Proof.
  intros H h1 h2 s -> (h0 & a & -> & Hs). pose proof (most_executes_prefix 0 (h0 ++ HOpened a :: s) h2).
  pose proof (most_executes_suffix 0 h0 a s). rewrite most_executes_session in H1 by done. lia.
Qed.

Lemma split_at_lookup {A} (l : list A) n x : l !! n = Some x -> l = take n l ++ x :: drop (S n) l.
Proof. intros H. symmetry. by apply take_drop_middle. Qed.
