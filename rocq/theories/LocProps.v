(** Where tasks are stored: C47, C55. Vocabulary: LocSpec.v, SessionSpec.v, LogSpec.v. *)
From Verif Require Import LocProofs SessionDemo.
From stdpp Require Import prelude.
Open Scope string_scope.
Open Scope list_scope.

(** C55. The storage roots of a session are those given to its constructor, in order, with
    $KEY replaced by the workflow key, seen from the directory [dir] of the log. *)
Theorem storage_roots_exact h w p h0 a s dir :
  possible h w -> w_proc w = Some p -> h = h0 ++ HOpened a :: s -> (forall b, ~ In (HOpened b) s) ->
  exists key roots, (forall hd, In (Header hd) (current_log w) -> h_workflow_key hd = key) /\
    all_storage_roots dir (lf_state (logfile (p_graph p))) = Some roots /\
    Forall2 (fun given root => exists text, key_replaced key given text /\ seen_from dir text root) (oa_roots a) roots.
Proof.
  intros Hh Hp E Hno. destruct (session_roots _ _ _ _ _ _ Hh Hp E Hno) as (hd & Hhd & Hl & Hr).
  exists (h_workflow_key hd), (map (path_join dir) (h_storage_roots hd)). split; [|split].
  - intros hd' Hin. destruct (possible_good _ _ Hh) as [_ Hg]. apply (g_headers _ Hg); [done|].
    unfold current_log. rewrite Hp. destruct Hl as (pre & post & Hpl & _). unfold plog in Hpl. rewrite Hpl. apply in_app_iff. right. by left.
  - by apply all_storage_roots_eq.
  - rewrite Hr. clear. induction (oa_roots a) as [|x l IH]; constructor; [|done]. exists (replace_key (h_workflow_key hd) x).
    split; [by apply replace_key_iff|by apply path_join_iff].
Qed.
Print Assumptions storage_roots_exact.

(** What [key_replaced] means is unambiguous, and every text can be read this way. *)
Theorem key_replaced_once key s : exists s', key_replaced key s s' /\ forall s2, key_replaced key s s2 -> s2 = s'.
Proof.
  exists (replace_key key s). split; [by apply replace_key_iff|]. intros s2 H. by apply replace_key_iff in H.
Qed.
Print Assumptions key_replaced_once.

Theorem seen_from_once base p : exists f, seen_from base p f /\ forall f2, seen_from base p f2 -> f2 = f.
Proof. exists (path_join base p). split; [by apply path_join_iff|]. intros f2 H. by apply path_join_iff in H. Qed.
Print Assumptions seen_from_once.

(** The number in the name of an attempt is its run count in decimal, without leading zeros. *)
Theorem attempt_number n :
  digits_value 0 (decimal n) = Some n /\ decimal n <> "" /\ (begins_with "0" (decimal n) -> n = 0%N).
Proof. split; [apply decimal_value|]. split; [apply decimal_nonempty|apply decimal_no_zero]. Qed.
Print Assumptions attempt_number.

(** C47. For a key that succeeded, the location is key.runcount in the storage root with the
    recorded number, among the roots of the running session; it panics if there is none. For
    other keys only a run count is returned. *)
Theorem location_exact h w p dir k o :
  possible h w -> w_proc w = Some p -> status_in (current_log w) k o ->
  exists roots, all_storage_roots dir (lf_state (logfile (p_graph p))) = Some roots /\
    match o with
    | Some (RFinished c i true) =>
        match roots !! N.to_nat i with
        | Some root => exists f, seen_from root (attempt_name k c) f /\
            py_logfile_runcount dir (lf_state (logfile (p_graph p))) k = Some (c, Some f)
        | None => py_logfile_runcount dir (lf_state (logfile (p_graph p))) k = None
        end
    | _ => py_logfile_runcount dir (lf_state (logfile (p_graph p))) k = Some (next_runcount o, None)
    end.
Proof.
  intros Hh Hp Hst. destruct (has_last_header _ _ _ Hh Hp) as (hd & Hhd & _).
  exists (map (path_join dir) (h_storage_roots hd)). split; [by apply all_storage_roots_eq|].
  pose proof (state_of _ _ _ _ _ Hh Hp Hst) as Hrc. unfold py_logfile_runcount. rewrite Hrc. destruct o as [[| |c i []]|]; try done.
  rewrite (storage_root_path_eq _ _ _ _ Hhd). rewrite list_lookup_fmap. destruct (h_storage_roots hd !! N.to_nat i) as [x|]; simpl; [|done].
  eexists. split; [by apply path_join_iff|done].
Qed.
Print Assumptions location_exact.

(** C47. The number recorded for an attempt is the one given to add_task, as is its run count
    (for those: [add_task_exact]). *)
Theorem attempts_are_recorded h w p ev w' tg cfg t r :
  possible h w -> w_proc w = Some p -> wstep w ev w' -> execution ev = Some (tg, cfg, t) ->
  In (Ready r) (current_log w') -> ~ In (Ready r) (current_log w) ->
  exists n cm, nodes (deps (p_graph p)) !! n = Some cm /\ c_key cm = r_key r /\
    c_runcount cm = r_runcount r /\ c_storage_root cm = r_storage_root r.
Proof. intros Hh Hp Hs He H1 H2. by eapply (records_of_execute h w p ev w' tg cfg t). Qed.
Print Assumptions attempts_are_recorded.

(** C47. So the location is where the attempt was stored (while the log was in [dir0], in a
    session with header [hd]) exactly if the running session has, under the same number, a
    root that is the same place. *)
Theorem location_right_iff h w p dir dir0 k c i pre hd mid r post root place0 stored :
  possible h w -> w_proc w = Some p -> status_in (current_log w) k (Some (RFinished c i true)) ->
  current_log w = pre ++ Header hd :: mid ++ Ready r :: post -> (forall h, ~ In (Header h) mid) ->
  r_key r = k -> (forall r', In (Ready r') post -> r_key r' <> k) ->
  begins_with "/" dir -> begins_with "/" dir0 -> ~ begins_with "/" k ->
  h_storage_roots hd !! N.to_nat (r_storage_root r) = Some root ->
  seen_from dir0 root place0 -> seen_from place0 (attempt_name k (r_runcount r)) stored ->
  py_logfile_runcount dir (lf_state (logfile (p_graph p))) k = Some (r_runcount r, Some stored) <->
  exists roots place, all_storage_roots dir (lf_state (logfile (p_graph p))) = Some roots /\
    roots !! N.to_nat (r_storage_root r) = Some place /\ same_place place place0.
Proof.
  intros Hh Hp Hst E Hmid Hk Hpost Hdir Hdir0 Hka Hroot Hpl Hsto.
  destruct (status_of_ready _ _ _ _ (pre ++ Header hd :: mid) r post Hst) as [Hc Hi]; [by rewrite E, <- List.app_assoc|done|done|]. subst c i.
  apply path_join_iff in Hpl as <-. apply path_join_iff in Hsto as <-. apply is_absolute_iff in Hdir, Hdir0.
  destruct (has_last_header _ _ _ Hh Hp) as (hd' & Hhd & _). rewrite (all_storage_roots_eq _ _ _ Hhd).
  pose proof (state_of _ _ _ _ _ Hh Hp Hst) as Hrc. unfold py_logfile_runcount. rewrite Hrc, (storage_root_path_eq _ _ _ _ Hhd).
  assert (forall x, path_join (path_join dir x) (attempt_name k (r_runcount r)) = path_join (path_join dir0 root) (attempt_name k (r_runcount r))
            <-> same_place (path_join dir x) (path_join dir0 root)) as Hj.
  { intros x. apply path_join_base; [by apply attempt_name_relative|by apply absolute_nonempty, path_join_absolute..]. }
  split.
  - intros H. destruct (h_storage_roots hd' !! N.to_nat (r_storage_root r)) as [x|] eqn:Ex; simpl in H; [|done]. injection H as H.
    exists (map (path_join dir) (h_storage_roots hd')), (path_join dir x). split; [done|]. split; [by rewrite list_lookup_fmap, Ex|]. by apply Hj.
  - intros (roots & place & [= <-] & Hl & Hs). rewrite list_lookup_fmap in Hl.
    destruct (h_storage_roots hd' !! N.to_nat (r_storage_root r)) as [x|]; simpl in *; [|done]. injection Hl as <-. apply Hj in Hs. unfold attempt_name in Hs. by rewrite Hs.
Qed.
Print Assumptions location_right_iff.

(** C55. Different attempts, of one or of two logs, have different locations, if their keys
    have no slashes. *)
Theorem locations_distinct dir dir' st st' k k' c c' f :
  begins_with "/" dir -> begins_with "/" dir' -> ~ has_char "/" k -> ~ has_char "/" k' ->
  py_logfile_runcount dir st k = Some (c, Some f) -> py_logfile_runcount dir' st' k' = Some (c', Some f) ->
  k = k' /\ c = c'.
Proof.
  intros Hd Hd' Hk Hk'. apply is_absolute_iff in Hd, Hd'. rewrite !runcount_eq.
  destruct (logfile_runcount st k) as [[? [x|]]|]; try done. destruct (logfile_runcount st' k') as [[? [x'|]]|]; try done.
  intros [= -> <-] [= -> E]. symmetry in E. eapply join_distinct; [..|exact E]; try done; by apply absolute_nonempty, path_join_absolute.
Qed.
Print Assumptions locations_distinct.

(** C55. A location begins with a slash; if the key has none it is a name directly in a storage
    root of the session. *)
Theorem location_in_root h w p dir k c f :
  possible h w -> w_proc w = Some p -> begins_with "/" dir ->
  py_logfile_runcount dir (lf_state (logfile (p_graph p))) k = Some (c, Some f) ->
  begins_with "/" f /\
  (~ has_char "/" k -> exists roots root parent, all_storage_roots dir (lf_state (logfile (p_graph p))) = Some roots /\
     In root roots /\ same_place root parent /\ f = parent +:+ attempt_name k c /\ (exists b, parent = b +:+ "/") /\
     ~ has_char "/" (attempt_name k c)).
Proof.
  intros Hh Hp Hd. apply is_absolute_iff in Hd. destruct (has_last_header _ _ _ Hh Hp) as (hd & Hhd & _).
  unfold py_logfile_runcount. destruct (runcount _ k) as [[| |c' i []]|]; try done.
  rewrite (storage_root_path_eq _ _ _ _ Hhd). destruct (h_storage_roots hd !! N.to_nat i) as [x|] eqn:Ex; simpl; [|done].
  intros [= -> <-]. split; [by apply is_absolute_iff, path_join_absolute, path_join_absolute|].
  intros Hk. rewrite (all_storage_roots_eq _ _ _ Hhd).
  exists (map (path_join dir) (h_storage_roots hd)), (path_join dir x), (if ends_in_slash (path_join dir x) then path_join dir x else path_join dir x +:+ "/").
  split; [done|]. split; [apply in_map, elem_of_list_In; by eapply elem_of_list_lookup_2|].
  change (k +:+ "." +:+ decimal c) with (attempt_name k c).
  rewrite (path_join_rel (path_join dir x)); [|by apply attempt_name_relative, no_slash_relative|by apply absolute_nonempty, path_join_absolute].
  destruct (ends_in_slash (path_join dir x)) eqn:E.
  - split; [by left|]. split; [done|]. split; [by apply ends_in_slash_iff|]. by apply attempt_name_no_slash.
  - split.
    + right. right. split; [|done]. intros b Hb. assert (ends_in_slash (path_join dir x) = true); [|congruence]. apply ends_in_slash_iff. by exists b.
    + split; [done|]. split; [by exists (path_join dir x)|]. by apply attempt_name_no_slash.
Qed.
Print Assumptions location_in_root.

(** ** Examples: the hypotheses are met. The first session runs a and b in the roots "x-$KEY"
    and "/s" of a log in /d; the second one, after the log was moved to /d/e, gives "../x-$KEY"
    and "/s/" instead. *)
Definition loc_history : list call :=
  [open_with "w" ["x-$KEY"; "/s"] true; CAdd ["true"] "a" [] None 1 0; CAdd ["true"] "b" [0] None 1 1;
   CExecute None [0] (run_tasks [0] [Code 0; Code 0] stop); CClose; open_with "v" ["../x-$KEY"; "/s/"] true].

Definition after (cs : list call) : world := (ran cs).2.
Definition state_after (cs : list call) : log_state := lf_state (logfile (p_graph (proc_of (after cs)))).

Lemma after_status cs k : (if do_calls (World [] None) cs then true else false) = true -> (if w_proc (after cs) then true else false) = true ->
  status_in (current_log (after cs)) k (runcount (state_after cs) k).
Proof.
  intros Hd Hp. apply proc_of_some in Hp. assert (possible (ran cs).1 (after cs)) as Hh by (by apply ran_possible).
  pose proof (possible_inv _ _ Hh) as [_ Hi]. rewrite Hp in Hi. unfold current_log. rewrite Hp. apply (log_ok_status _ k (pi_log _ _ Hi)).
Qed.

Example loc_places :
  possible (ran loc_history).1 (after loc_history) /\ w_proc (after loc_history) = Some (proc_of (after loc_history)) /\
  all_storage_roots "/d/e" (state_after loc_history) = Some ["/d/e/../x-w"; "/s/"] /\
  py_logfile_runcount "/d/e" (state_after loc_history) "a" = Some (0%N, Some "/d/e/../x-w/a.0") /\
  py_logfile_runcount "/d/e" (state_after loc_history) "b" = Some (0%N, Some "/s/b.0") /\
  py_logfile_runcount "/d/e" (state_after loc_history) "c" = Some (0%N, None) /\
  all_storage_roots "/d" (state_after (take 1 loc_history)) = Some ["/d/x-w"; "/s"].
Proof. split; [apply ran_possible; vm_compute; reflexivity|]. split; [apply proc_of_some|]; repeat split; vm_compute; reflexivity. Qed.

(** b is where it was stored. *)
Example loc_b : exists hd mid r post,
  current_log (after loc_history) = [] ++ Header hd :: mid ++ Ready r :: post /\ (forall h, ~ In (Header h) mid) /\
  status_in (current_log (after loc_history)) "b" (Some (RFinished 0 1 true)) /\
  r_key r = "b" /\ (forall r', In (Ready r') post -> r_key r' <> "b") /\
  h_storage_roots hd !! N.to_nat (r_storage_root r) = Some "/s" /\ seen_from "/d" "/s" "/s" /\
  seen_from "/s" (attempt_name "b" (r_runcount r)) "/s/b.0" /\ same_place "/s/" "/s" /\ ~ same_place "/d/e/../x-w" "/d/x-w".
Proof.
  eexists _, [_; _], _, _. split; [vm_compute; reflexivity|]. split; [simpl; intros h H; intuition discriminate|].
  split; [apply (after_status loc_history "b"); vm_compute; reflexivity|].
  split; [reflexivity|]. split; [simpl; intros r' H; intuition discriminate|]. split; [reflexivity|].
  split; [by apply path_join_iff|]. split; [by apply path_join_iff|]. split.
  - right. left. split; [|done]. intros b Hb. assert (ends_in_slash "/s" = true); [|done]. apply ends_in_slash_iff. by exists b.
  - intros [?|[[_ ?]|[_ ?]]]; done.
Qed.

(** ** Refutations: keys with slashes. Two tasks get one location; a task is outside of the
    storage roots. *)
Definition slash_history : list call :=
  [open_with "w" ["/s"] true; CAdd ["true"] "b" [] None 1 0; CAdd ["true"] "/s/b" [0] None 1 0; CAdd ["true"] "/t/b" [1] None 1 0;
   CExecute None [0] (run_tasks [0] [Code 0; Code 0; Code 0] stop)].
Theorem locations_distinct_refuted : exists h w p k k' c f,
  possible h w /\ w_proc w = Some p /\ k <> k' /\
  py_logfile_runcount "/d" (lf_state (logfile (p_graph p))) k = Some (c, Some f) /\
  py_logfile_runcount "/d" (lf_state (logfile (p_graph p))) k' = Some (c, Some f).
Proof.
  exists (ran slash_history).1, (after slash_history), (proc_of (after slash_history)), "b", "/s/b", 0%N, "/s/b.0".
  split; [apply ran_possible; vm_compute; reflexivity|]. split; [apply proc_of_some; vm_compute; reflexivity|]. split; [done|].
  split; vm_compute; reflexivity.
Qed.
Print Assumptions locations_distinct_refuted.

Theorem location_in_root_refuted : exists h w p k c f,
  possible h w /\ w_proc w = Some p /\ all_storage_roots "/d" (lf_state (logfile (p_graph p))) = Some ["/s"] /\
  py_logfile_runcount "/d" (lf_state (logfile (p_graph p))) k = Some (c, Some f) /\ ~ begins_with "/s" f.
Proof.
  exists (ran slash_history).1, (after slash_history), (proc_of (after slash_history)), "/t/b", 0%N, "/t/b.0".
  split; [apply ran_possible; vm_compute; reflexivity|]. split; [apply proc_of_some; vm_compute; reflexivity|].
  split; [vm_compute; reflexivity|]. split; [vm_compute; reflexivity|]. intros [b Hb]. done.
Qed.
Print Assumptions location_in_root_refuted.
