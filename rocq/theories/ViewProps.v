(** C74: ntasks, get_task and task_keys tell exactly the tasks that were added. *)
From Verif Require Import ViewModel SessionSpec SessionProofs SessionHistory SessionMore SessionProps SessionDemo AddProofs ExecProofs.
From stdpp Require Import prelude gmap.
Open Scope nat_scope.

(** The keys of the calls of add_task that were answered with an index, in the order of the calls, each once, behind [ks]. *)
Fixpoint named (ks : list string) (s : list event_of_history) : list string :=
  match s with
  | [] => ks
  | HAdded k (AddOk _) :: s => named (if bool_decide (k ∈ ks) then ks else ks ++ [k]) s
  | _ :: s => named ks s
  end.

Lemma named_snoc s ev : forall ks, named ks (s ++ [ev]) = named (named ks s) [ev].
Proof. induction s as [|x s IH]; intros ks; [done|]. destruct x as [| |k [ | | | ]| | | |]; cbn [app named]; by rewrite IH. Qed.
Lemma same_keys g g' : same_graph g g' -> map c_key (nodes g') = map c_key (nodes g).
Proof. intros [_ H]. induction H as [|c c' l l' Hc _ IH]; [done|]. cbn [map]. rewrite IH. destruct Hc as (_ & -> & _). done. Qed.
Lemma keys_step w ev w' p p' : winv w -> wstep w ev w' -> w_proc w = Some p -> w_proc w' = Some p' ->
  py_task_keys (p_graph p') = named (py_task_keys (p_graph p)) [ev] /\
  forall k n, ev = HAdded k (AddOk n) -> py_task_keys (p_graph p') !! n = Some k.
Proof.
  intros [HF Hi] Hs Hp Hp'. unfold py_task_keys. destruct Hs as [F a q Hq|F a Hq|F q cmdline key ds disp aff sr e r H Hfit|F q x e cfg H H0 H1|F q x e cfg acts s t H H0 H1 H2 H3|F q|F q n Hn|F q x e cfg acts s t n H H0 H1 H2];
    cbn [w_proc w_file] in *; simplify_eq; cbn [p_graph end_execute deps named].
  - pose proof (py_add_task_spec (p_graph p) cmdline key ds disp aff sr (pi_graph _ _ Hi)) as Hspec.
    destruct (logfile_runcount (lf_state (logfile (p_graph p))) key) as [[rc ro]|]; [|rewrite Hspec in H; by simplify_eq].
    cbv zeta in Hspec. destruct Hspec as [(n & Hk & E)|[Hk [[_ E]|[(_ & _ & E)|(_ & Hd & e' & E & Hn & He & _)]]]]; rewrite E in H; simplify_eq; try done.
    + destruct Hk as (c & Hc & <-). assert (map c_key (nodes (deps (p_graph p))) !! n = Some (c_key c)) as X by (by rewrite list_lookup_fmap, Hc).
      split; [|intros k m; intros [= <- <-]; exact X]. rewrite bool_decide_eq_true_2; [done|]. by eapply elem_of_list_lookup_2.
    + rewrite Hn, map_app. cbn [map c_key]. split.
      * rewrite bool_decide_eq_false_2; [done|]. intros X. apply elem_of_list_lookup in X as [m Hm]. rewrite list_lookup_fmap in Hm.
        destruct (nodes (deps (p_graph p)) !! m) as [c|] eqn:Hc; [|done]. injection Hm as Hm.
        apply (Hk m). by exists c.
      * intros k m [= <- <-]. rewrite lookup_app_r by (rewrite map_length; unfold node_count; lia). rewrite map_length. unfold node_count. by rewrite Nat.sub_diag.
  - destruct (begin_execute _ _ _ Hi H) as (e' & cfg' & ids & bs & Hb). destruct (begun_unique _ _ _ _ _ _ _ _ Hb H0) as [-> ->].
    split; [|done]. apply same_keys, (bg_same _ _ _ _ _ _ Hb).
  - destruct (begin_execute _ _ _ Hi H) as (e' & cfg' & ids & bs & Hb). destruct (begun_unique _ _ _ _ _ _ _ _ Hb H0) as [-> ->].
    split; [|done]. apply same_keys, (bg_same _ _ _ _ _ _ Hb).
Qed.
Lemma named_grows s : forall ks, exists more, named ks s = ks ++ more.
Proof.
  induction s as [|x s IH]; intros ks; [exists []; by rewrite app_nil_r|]. destruct x as [| |k [ | | | ]| | | |]; cbn [named]; try apply IH.
  destruct (bool_decide _); [apply IH|]. destruct (IH (ks ++ [k])) as [m ->]. exists (k :: m). by rewrite <- List.app_assoc.
Qed.

(** In any history: task_keys() is the list of the keys that were added in this session, in this order, ntasks() is their
    number, and the index that add_task returned for a key is its place in the list. *)
Theorem tasks_listed h w p s : possible h w -> w_proc w = Some p -> this_session h s ->
  py_task_keys (p_graph p) = named [] s /\ py_ntasks (p_graph p) = length (named [] s) /\
  forall k n, In (HAdded k (AddOk n)) s -> py_task_keys (p_graph p) !! n = Some k.
Proof.
  intros Hh Hp Hs.
  enough (py_task_keys (p_graph p) = named [] s /\ forall k n, In (HAdded k (AddOk n)) s -> py_task_keys (p_graph p) !! n = Some k) as [H1 H2].
  { split; [done|]. split; [|done]. rewrite <- H1. unfold py_task_keys, py_ntasks. by rewrite map_length. }
  unfold possible in Hh. remember (World [] None) as w0 eqn:E0. revert p s Hp Hs. induction Hh as [w|w1 w2 w3 h ev Hh IH Hst]; intros p s Hp Hs; subst; [done|].
  specialize (IH eq_refl). assert ((exists a, ev = HOpened a) \/ ~ exists a, ev = HOpened a) as [[a ->]|Hno] by (destruct ev; (left; by eexists) || (right; by intros [? ?])).
  - rewrite (this_session_unique _ _ _ Hs (this_session_open h a)). inversion Hst as [F a' q Hq| | | | | | |]; subst. cbn [w_proc] in Hp. injection Hp as <-. cbn [named].
    split; [|by intros k n []]. unfold open_session in Hq. destruct (log_open F); [|done]. destruct (log_write _ _); [|done]. injection Hq as <-. done.
  - assert (~ is_open ev) as Hno' by (by destruct ev).
    destruct (this_session_snoc_inv _ _ _ Hno' Hs) as (s0 & -> & Hs0). destruct (proc_before _ _ _ _ Hst Hp) as [p2 Hp2]; [by intros a ->; apply Hno; eexists|].
    destruct (IH _ _ Hp2 Hs0) as [H1 H2]. assert (winv w2) as Hw by (by eapply possible_inv). destruct (keys_step _ _ _ _ _ Hw Hst Hp2 Hp) as [K1 K2].
    split; [by rewrite K1, H1, named_snoc|]. intros k n [X|[X|[]]]%in_app_or; [|by apply K2].
    rewrite K1. destruct (named_grows [ev] (py_task_keys (p_graph p2))) as [m ->]. apply lookup_app_l_Some. by apply H2.
Qed.
Print Assumptions tasks_listed.

(** get_task of an index that add_task has returned gives, from then on, what was passed when the key was first added;
    other indices are refused. *)
Theorem task_as_added h F p cmdline key ds disp aff sr e n h' w' p' :
  possible h (World F (Some p)) -> py_add_task (p_graph p) cmdline key ds disp aff sr = (e, AddOk n) -> fits e ->
  whistory (World F (Some (Process e (p_allowed p) (p_rerun p)))) h' w' -> (forall a, ~ In (HOpened a) h') -> w_proc w' = Some p' ->
  (~ In key (py_task_keys (p_graph p)) -> n = py_ntasks (p_graph p) /\ py_get_task (p_graph p') n = Some (cmdline, key, disp)) /\
  (In key (py_task_keys (p_graph p)) -> exists cmdline0 disp0, py_get_task (p_graph p) n = Some (cmdline0, key, disp0) /\ py_get_task (p_graph p') n = Some (cmdline0, key, disp0)).
Proof.
  intros Hh Ha Hfit Hh' Hno Hp'.
  assert (possible (h ++ [HAdded key (AddOk n)]) (World F (Some (Process e (p_allowed p) (p_rerun p))))) as Hh2.
  { econstructor; [exact Hh|]. by eapply W_add. }
  destruct (tasks_never_change _ _ _ _ _ _ Hh2 Hh' Hno eq_refl Hp') as [Hsame _]. cbn [p_graph] in Hsame.
  assert (forall c, nodes (deps e) !! n = Some c -> py_get_task (p_graph p') n = Some (c_cmdline c, c_key c, c_display c)) as Hget.
  { intros c Hc. destruct (Hsame _ _ Hc) as (c' & Hc' & S). unfold py_get_task. rewrite Hc'. destruct S as (-> & -> & -> & _). done. }
  pose proof (possible_inv _ _ Hh) as [_ Hi]. cbn [w_proc w_file] in Hi.
  pose proof (py_add_task_spec (p_graph p) cmdline key ds disp aff sr (pi_graph _ _ Hi)) as Hspec.
  destruct (logfile_runcount (lf_state (logfile (p_graph p))) key) as [[rc ro]|]; [|rewrite Hspec in Ha; by simplify_eq].
  cbv zeta in Hspec. destruct Hspec as [(m & Hk & E)|[Hk [[_ E]|[(_ & _ & E)|(_ & Hd & e' & E & Hn & He & _)]]]]; rewrite E in Ha; simplify_eq; try done.
  - destruct Hk as (c & Hc & <-). split.
    + intros X. exfalso. apply X. apply in_map_iff. exists c. split; [done|]. apply elem_of_list_In. by eapply elem_of_list_lookup_2.
    + intros _. exists (c_cmdline c), (c_display c). split; [unfold py_get_task; by rewrite Hc|]. by apply Hget.
  - split.
    + intros _. split; [done|]. rewrite (Hget (Cmd cmdline key disp aff rc 0 sr)); [done|]. rewrite Hn, lookup_app_r by (unfold node_count; lia). unfold node_count. by rewrite Nat.sub_diag.
    + intros X. exfalso. apply in_map_iff in X as (c & <- & Hin). apply elem_of_list_In, elem_of_list_lookup in Hin as [m Hm].
      apply (Hk m). by exists c.
Qed.
Print Assumptions task_as_added.
Theorem unknown_task_refused e n : py_get_task e n = None <-> py_ntasks e <= n.
Proof. unfold py_get_task, py_ntasks. destruct (nodes (deps e) !! n) as [c|] eqn:E; [apply lookup_lt_Some in E; split; [done|lia]|]. apply lookup_ge_None in E. done. Qed.
Print Assumptions unknown_task_refused.

(** A session in which a key is added twice and a call is refused, before and after an execute(). *)
Definition vw_calls : list call :=
  [open_with "wk" ["/r"] false; add "a" []; add "b" [0]; add "c" [7]; CAdd ["false"; "x"] "a" [1] (Some "other") 1 0;
   CExecute (Some 0) [0] (run_tasks [0] [Code 0] stop); add "d" [0]].
Example vw_run : possible (ran vw_calls).1 (ran vw_calls).2 /\
  py_task_keys (p_graph (proc_of (ran vw_calls).2)) = ["a"; "b"; "d"] /\ py_ntasks (p_graph (proc_of (ran vw_calls).2)) = 3 /\
  py_get_task (p_graph (proc_of (ran vw_calls).2)) 0 = Some (["true"], "a", None) /\ py_get_task (p_graph (proc_of (ran vw_calls).2)) 3 = None /\
  map (fun ev => match ev with HAdded k (AddOk n) => Some (k, n) | _ => None end) (ran vw_calls).1 =
    [None; Some ("a", 0); Some ("b", 1); None; Some ("a", 0); None; Some ("d", 2)].
Proof. split; [apply ran_possible; vm_compute; reflexivity|]. vm_compute. repeat split. Qed.
