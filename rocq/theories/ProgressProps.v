(** C68: the numbers in the progress lines of all calls of execute() of a session. Vocabulary: ProgressSpec.v. *)
From Verif Require Import ProgressProofs SessionDemo.
Open Scope list_scope.

(** Over all calls of a session the numbers grow, if none of the earlier calls was cut short. *)
Theorem session_progress_grows h ev c w s : printed (h ++ [(ev, c)]) w -> last_session_of h s ->
  (forall ev' c', In (ev', c') s -> ~ cut_short ev') -> StronglySorted N.lt (numbers (all_messages (s ++ [(ev, c)]))).
Proof. apply session_grows. Qed.
Print Assumptions session_progress_grows.

(** In each line k/n: 1 ≤ k ≤ n, and n is not more than the number of different keys added in the session. *)
Theorem progress_within_tasks h ev c w s keys k n text : printed (h ++ [(ev, c)]) w -> last_session_of h s ->
  (forall key, added s key -> In key keys) -> In (Progress k n text) c -> (1 <= k <= n)%N /\ (n <= N.of_nat (length keys))%N.
Proof. apply session_totals. Qed.
Print Assumptions progress_within_tasks.

(** Only calls of execute() print such messages. *)
Theorem only_execute_prints h ev c w : printed (h ++ [(ev, c)]) w -> c <> [] -> execution ev <> None.
Proof. intros H Hc. apply phistory_snoc_inv in H as (w2 & _ & H). by destruct H. Qed.
Print Assumptions only_execute_prints.

(** A call that ends because all its tasks are done is not cut short. *)
Theorem normal_end_not_cut_short h target cfg t r c w : printed (h ++ [(HExecuted target cfg t r, c)]) w ->
  In (OExit ExitDone) t -> ~ cut_short (HExecuted target cfg t r).
Proof.
  intros H Hin (tg & cfg' & t' & r' & n & x & [= <- <- <- <-] & Hd). apply phistory_snoc_inv in H as (w2 & H & Hs). apply pstep_wstep in Hs.
  destruct (execute_config_ok _ _ _ _ _ _ _ (phistory_possible _ _ H) Hs eq_refl) as [Hok Hr].
  destruct (decide (node_count (cf_g cfg) = 0)) as [H0|H0]; [inversion Hs; subst; [done|done]|].
  destruct (Hr H0) as [s Hs']. by eapply done_nothing_drained.
Qed.
Print Assumptions normal_end_not_cut_short.

(** Every history prints. *)
Theorem every_history_prints h w : possible h w -> exists h', printed h' w /\ map fst h' = h.
Proof. apply possible_printed. Qed.
Print Assumptions every_history_prints.
Theorem printed_is_history h w : printed h w -> possible (map fst h) w.
Proof. apply phistory_possible. Qed.
Print Assumptions printed_is_history.

(** ** Examples *)
(** The calls of SessionDemo.v with the messages, for tasks that write nothing. *)
Definition do_print (w : world) (c : call) : option (event_of_history * list message * world) :=
  match c, w_proc w with
  | CExecute target types l, Some p =>
      match start_execute p (demo_args target types) with
      | None => None
      | Some (e, cfg) =>
          if Nat.eqb (node_count (cf_g cfg)) 0
          then Some (HExecuted target cfg [] (0%N, []), [], World (w_file w) (Some (Process e (p_allowed p) (p_rerun p))))
          else match lines_run cfg (count_offset p) (fun _ => (""%string, ""%string)) (initial cfg) (expand cfg (initial cfg) l) with
               | None => None
               | Some (s, t, ms) =>
                   match st_phase s with
                   | PDrained => Some (HExecuted target cfg t (execute_result cfg s), ms,
                                   World (lf_entries (sv_log (st_sv s))) (Some (end_execute p e cfg s)))
                   | _ => None
                   end
               end
      end
  | CKillIn _ _ _ _, _ => None
  | CExecute _ _ _, None => None
  | _, _ => match do_call w c with Some (ev, w') => Some (ev, [], w') | None => None end
  end.
Lemma do_print_step w c ev ms w' : do_print w c = Some (ev, ms, w') -> pstep w ev ms w'.
Proof.
  destruct w as [F [p|]]; destruct c as [a|cmdline key ds disp aff sr|target types l| |n|target types l n]; try done; cbn [do_print w_proc w_file].
  all: try (destruct (do_call _ _) as [[ev1 w1]|] eqn:E; [|done]; intros [= <- <- <-]; pose proof (do_call_step _ _ _ _ E); apply P_other; [done|];
            cbn [do_call w_proc w_file] in E; repeat case_match; by simplify_eq).
  destruct (start_execute p (demo_args target types)) as [[e cfg]|] eqn:E; [|done].
  destruct (Nat.eqb_spec (node_count (cf_g cfg)) 0) as [H0|H0].
  - intros [= <- <- <-]. apply (P_empty F p (demo_args target types)); [apply demo_args_ok|done|done].
  - destruct (lines_run _ _ _ _ _) as [[[s t] c]|] eqn:Hr; [|done]. destruct (st_phase s) eqn:Hp; try done.
    intros [= <- <- <-]. eapply (P_execute F p (demo_args target types)); [apply demo_args_ok|done|done|exact Hr|done].
Qed.
Fixpoint do_prints (w : world) (cs : list call) (h : list (event_of_history * list message)) : option (list (event_of_history * list message) * world) :=
  match cs with
  | [] => Some (h, w)
  | c :: cs => match do_print w c with None => None | Some (ev, ms, w1) => do_prints w1 cs (h ++ [(ev, ms)]) end
  end.
Lemma do_prints_history w0 cs : forall w h h' w', phistory w0 h w -> do_prints w cs h = Some (h', w') -> phistory w0 h' w'.
Proof.
  induction cs as [|c cs IH]; intros w h h' w' H; cbn [do_prints]; [by intros [= <- <-]|].
  destruct (do_print w c) as [[[ev ms] w1]|] eqn:E; [|done]. apply IH. econstructor; [exact H|by eapply do_print_step].
Qed.
Definition did_print (cs : list call) : list (event_of_history * list message) * world := default ([], World [] None) (do_prints (World [] None) cs []).
Lemma did_print_history cs : (if do_prints (World [] None) cs [] then true else false) = true -> printed (did_print cs).1 (did_print cs).2.
Proof. unfold did_print. destruct (do_prints _ _ _) as [[h w]|] eqn:E; [|done]. intros _. eapply do_prints_history; [constructor|exact E]. Qed.
(** The numbers and totals of the lines. *)
Definition progress_of (h : list (event_of_history * list message)) : list (N * N) :=
  omap (fun m => match m with Progress k n _ => Some (k, n) | _ => None end) (all_messages h).

(** Two calls: 1/1, then 2/3 and 3/3. *)
Definition two_calls : list call :=
  [open_with "w" ["r"] true; add "a" []; CExecute None [0] (run_tasks [0] [Code 0] stop);
   add "b" [0]; add "c" [0]; CExecute None [0] (run_tasks [0; 1] [Code 0; Code 0] stop)].
Example two_calls_print : printed (did_print two_calls).1 (did_print two_calls).2 /\ progress_of (did_print two_calls).1 = [(1, 1); (2, 3); (3, 3)]%N.
Proof. split; [apply did_print_history|]; vm_compute; reflexivity. Qed.
Definition is_open_event (ev : event_of_history) : bool := match ev with HOpened _ => true | _ => false end.
Definition is_cut (ev : event_of_history) : bool :=
  match ev with HExecuted _ _ t _ => existsb (fun o => match o with ODrainFinished _ _ => true | _ => false end) t | _ => false end.
Lemma not_cut (l : list (event_of_history * list message)) : forallb (fun e => negb (is_cut (fst e))) l = true -> forall ev c, In (ev, c) l -> ~ cut_short ev.
Proof.
  intros H ev c Hin (tg & cfg & t & r & n & x & -> & Hd). rewrite forallb_forall in H. specialize (H _ Hin). cbn in H. apply negb_true_iff in H.
  enough (existsb (fun o => match o with ODrainFinished _ _ => true | _ => false end) t = true) by congruence. apply existsb_exists. by eexists.
Qed.
Lemma session_after h ev c s : is_open_event ev = true -> forallb (fun e => negb (is_open_event (fst e))) s = true -> last_session_of (h ++ (ev, c) :: s) s.
Proof.
  intros Ho H. destruct ev; try done. eexists h, _, c. split; [reflexivity|]. intros a' c' Hin. rewrite forallb_forall in H. by specialize (H _ Hin).
Qed.
Lemma session_at (h : list (event_of_history * list message)) n : match h !! n with Some e => is_open_event (fst e) | None => false end = true ->
  forallb (fun e => negb (is_open_event (fst e))) (drop (S n) h) = true -> last_session_of h (drop (S n) h).
Proof. intros Ho H. destruct (h !! n) as [[ev c]|] eqn:E; [|done]. rewrite <- (take_drop_middle h n _ E) at 1. by apply session_after. Qed.
Lemma was_added (h : list (event_of_history * list message)) k :
  existsb (fun e => match fst e with HAdded k' (AddOk _) => String.eqb k k' | _ => false end) h = true -> added h k.
Proof. intros H. apply existsb_exists in H as ([ev c] & Hin & H). destruct ev as [| |k' r| | | |]; try done. destruct r as [n| | |]; try done. cbn in H. apply String.eqb_eq in H as <-. by exists n, c. Qed.
Lemma added_in (h : list (event_of_history * list message)) keys :
  forallb (fun e => match fst e with HAdded k _ => existsb (String.eqb k) keys | _ => true end) h = true -> forall key, added h key -> In key keys.
Proof.
  intros H key (n & c & Hin). rewrite forallb_forall in H. specialize (H _ Hin). cbn in H. apply existsb_exists in H as (y & Hy & Heq). by apply String.eqb_eq in Heq as ->.
Qed.
Lemma snoc_of {A} (l : list A) n : length l = S n -> exists x, l = take n l ++ [x] /\ l !! n = Some x.
Proof. intros H. destruct (lookup_lt_is_Some_2 l n) as [x Hx]; [lia|]. exists x. split; [|done]. rewrite <- (take_S_r l n x Hx). symmetry. apply take_ge. lia. Qed.

(** The hypotheses of [session_progress_grows] and [progress_within_tasks]: the second call, with the session before it. *)
Example two_calls_session : exists h ev c w s, printed (h ++ [(ev, c)]) w /\ last_session_of h s /\ (forall ev' c', In (ev', c') s -> ~ cut_short ev') /\
  numbers (all_messages (s ++ [(ev, c)])) = [1; 2; 3]%N /\ (forall key, added s key -> In key ["a"; "b"; "c"]%string) /\ In (Progress 3 3 "true") c.
Proof.
  pose (h := (did_print two_calls).1). assert (Hlen : length h = 6) by (vm_compute; reflexivity). destruct (snoc_of h 5 Hlen) as [[ev c] [Hx E]].
  assert (Hc : c = [Progress 2 3 "true"; Progress 3 3 "true"]%string).
  { assert (E' : snd <$> (h !! 5) = Some [Progress 2 3 "true"; Progress 3 3 "true"]%string) by (vm_compute; reflexivity). rewrite E in E'. cbn in E'. congruence. }
  exists (take 5 h), ev, c, (did_print two_calls).2, (drop 1 (take 5 h)). split_and!.
  - rewrite <- Hx. apply did_print_history. vm_compute. reflexivity.
  - apply session_at; vm_compute; reflexivity.
  - apply not_cut. vm_compute. reflexivity.
  - rewrite all_messages_snoc, Hc. vm_compute. reflexivity.
  - apply added_in. vm_compute. reflexivity.
  - rewrite Hc. right. by left.
Qed.
Lemma ended_normally (h : list (event_of_history * list message)) n : length h = S n ->
  match h !! n with Some (HExecuted _ _ t _, c) => existsb (fun o => match o with OExit ExitDone => true | _ => false end) t && Nat.ltb 0 (length c) | _ => false end = true ->
  exists target cfg t r c, h = take n h ++ [(HExecuted target cfg t r, c)] /\ In (OExit ExitDone) t /\ c <> [].
Proof.
  intros Hlen E. destruct (snoc_of h n Hlen) as [[ev c] [Hx E2]]. rewrite E2 in E. destruct ev as [| | |target cfg t r| | |]; try done. apply andb_true_iff in E as [E Ec].
  exists target, cfg, t, r, c. split; [done|]. split; [|by intros ->]. apply existsb_exists in E as (o & Ho & Eo). destruct o as [| | | | | | | | | | | | |e|]; try done. by destruct e.
Qed.
(** The first of the two calls ends normally. *)
Example normal_end_demo : exists h target cfg t r c w, printed (h ++ [(HExecuted target cfg t r, c)]) w /\ In (OExit ExitDone) t /\ c <> [].
Proof.
  destruct (ended_normally (did_print (take 3 two_calls)).1 2) as (target & cfg & t & r & c & E & H); [vm_compute; reflexivity|vm_compute; reflexivity|].
  eexists _, target, cfg, t, r, c, _. split; [|exact H]. rewrite <- E. apply did_print_history. vm_compute. reflexivity.
Qed.

(** ** Refutations *)
(** Without the restriction: a task whose success is seen only in the final clean-up of an interrupted call is shown as 1/2.
    The next call counts from the beginning: 1/1 for the other task. *)
Definition cut_short_calls : list call :=
  [open_with "w" ["r"] true; add "a" []; add "b" []; CExecute None [0] (run_tasks [0; 1] [] (take_task 0 ++ interrupted (Code 0)));
   CExecute None [0] (run_tasks [0] [Code 0] stop)].
Theorem session_progress_grows_refuted : exists h w s, printed h w /\ last_session_of h s /\ ~ StronglySorted N.lt (numbers (all_messages s)) /\
  progress_of s = [(1, 2); (1, 1)]%N.
Proof.
  pose (h := (did_print cut_short_calls).1). exists h, (did_print cut_short_calls).2, (drop 1 h). split_and!.
  - apply did_print_history. vm_compute. reflexivity.
  - apply session_at; vm_compute; reflexivity.
  - assert (E : numbers (all_messages (drop 1 h)) = [1; 1]%N) by (vm_compute; reflexivity). rewrite E. intros H. inversion_clear H. inversion_clear H1. lia.
  - vm_compute. reflexivity.
Qed.
Print Assumptions session_progress_grows_refuted.

(** The last line of a session in which everything is done need not be n/n for all n tasks: tasks reused from the log by the same call
    are not counted. *)
Definition reuse_calls : list call :=
  [open_with "w" ["r"] true; add "a" []; CExecute None [0] (run_tasks [0] [Code 0] stop); CClose;
   open_with "x" ["r"] true; add "a" []; add "b" [0]; CExecute None [0] (run_tasks [0] [Code 0] stop)].
Theorem reused_tasks_counted_refuted : exists h w s, printed h w /\ last_session_of h s /\ added s "a" /\ added s "b" /\ progress_of s = [(1, 1)]%N.
Proof.
  pose (h := (did_print reuse_calls).1). exists h, (did_print reuse_calls).2, (drop 5 h). split_and!.
  - apply did_print_history. vm_compute. reflexivity.
  - apply session_at; vm_compute; reflexivity.
  - apply was_added. vm_compute. reflexivity.
  - apply was_added. vm_compute. reflexivity.
  - vm_compute. reflexivity.
Qed.
Print Assumptions reused_tasks_counted_refuted.
