(** Consequences for whole histories: tasks are stable, dependencies have succeeded, the
    snapshot reader works, storage roots. *)
From Verif Require Export SessionOnce.

(** ** Logs *)
Lemma possible_good h w : possible h w -> good_log (w_file w) /\ good_log (current_log w).
Proof.
  intros Hh. destruct (possible_inv _ _ Hh) as [HF Hp]. split; [done|]. unfold current_log.
  destruct (w_proc w) as [p|]; [apply (pi_good _ _ Hp)|done].
Qed.

Lemma possible_simple h w : possible h w -> one_execute_each h -> simple_log (current_log w).
Proof.
  intros Hh Ho. destruct (once_holds h w Hh Ho) as [H1 H2]. unfold current_log. destruct (w_proc w) as [p|]; [apply H2|done].
Qed.

Lemma open_never_fails h w : possible h w -> ~ In HOpenFailed h.
Proof.
  revert h w. apply possible_ind'; [by intros []|]. intros h w ev w' Hh IH Hs Hin.
  apply in_app_iff in Hin as [Hin|[->|[]]]; [done|]. remember HOpenFailed as ev eqn:E. destruct Hs; try done.
  destruct (possible_inv _ _ Hh) as [HF _]. destruct (open_works F a HF) as (l & p & _ & Ho & _). by rewrite Ho in H.
Qed.

Lemma last_header_unique es o o' : last_header es o -> last_header es o' -> o = o'.
Proof.
  assert (forall hd h' a b a' b', a ++ Header hd :: b = a' ++ Header h' :: b' ->
    (forall h, ~ In (Header h) b) -> (forall h, ~ In (Header h) b') -> hd = h') as Hu.
  { intros hd h' a b a' b' E N1 N2. apply app_split in E as [(l2 & -> & ->)|(n1 & E & ->)].
    - exfalso. apply (N2 hd), in_app_iff. right. by left.
    - destruct n1 as [|y n1]; simpl in E; [by injection E|]. injection E as _ E. exfalso. apply (N1 h'). rewrite E. apply in_app_iff. right. by left. }
  destruct o as [h|], o' as [h'|]; simpl; [|..|done].
  - intros (a & b & -> & N1) (a' & b' & E & N2). f_equal. by eapply Hu.
  - intros (a & b & -> & N1) N2. exfalso. apply (N2 h), in_app_iff. right. by left.
  - intros N2 (a & b & -> & N1). exfalso. apply (N2 h'), in_app_iff. right. by left.
Qed.

(** ** Snapshots *)
Lemma snapshot_works h w : possible h w -> exists r, read_current_and_outdated (w_file w) = Some r.
Proof.
  intros Hh. destruct (possible_good _ _ Hh) as [HF _]. destruct (last_segment_exists (w_file w)) as (older & hd & seg & Hs).
  apply (read_succeeds_iff _ _ _ _ Hs). by eapply backrefs_distinct.
Qed.

Lemma latest_of_key ks k l : In k ks ->
  List.filter (is_record_of k) (latest_attempts ks l) = latest_attempts [k] l.
Proof.
  intros Hk. induction l as [|x l IH]; [done|]. cbn [latest_attempts].
  assert (in_latest_attempt [k] x l = is_record_of k x && in_latest_attempt ks x l) as Hx.
  { rewrite in_latest_one. unfold in_latest_attempt, is_record_of. destruct x as [h|r|s|f|b]; try done; cbn [entry_key record_of];
    match goal with |- context[String.eqb ?a k] => destruct (String.eqb_spec a k) as [Hek|Hne]; [rewrite Hek|done] end;
    assert (existsb (String.eqb k) ks = true) as -> by (apply existsb_exists; exists k; split; [done|apply String.eqb_refl]); done. }
  rewrite Hx. destruct (in_latest_attempt ks x l); cbn [List.filter].
  - rewrite andb_true_r. destruct (is_record_of k x); by rewrite IH.
  - rewrite andb_false_r. done.
Qed.

Lemma without_backrefs_filter k l : List.filter (is_record_of k) (without_backrefs l) = List.filter (is_record_of k) l.
Proof.
  unfold without_backrefs. induction l as [|x l IH]; [done|]. cbn [List.filter].
  destruct x; cbn [List.filter]; rewrite IH; done.
Qed.

Lemma snapshot_reused h w older hd seg cur out k :
  possible h w -> one_execute_each h -> last_segment (w_file w) older hd seg ->
  read_current_and_outdated (w_file w) = Some (cur, out) -> In k (backref_keys seg) ->
  exists r s f, List.filter (is_record_of k) cur = [Ready r; Started s; Finished f] /\
    latest_attempts [k] older = [Ready r; Started s; Finished f].
Proof.
  intros Hh Ho Hs Hr Hk. destruct (possible_good _ _ Hh) as [Hg _].
  destruct (reused_entries _ _ _ _ k Hg (once_file _ _ Hh Ho) Hs Hk) as (Hn & r & s & f & Hl & _).
  exists r, s, f. split; [|done]. destruct (read_exact _ _ _ _ _ _ Hs Hr) as [-> _].
  rewrite !List.filter_app, latest_of_key, without_backrefs_filter, (no_record_filter k seg), Hl, app_nil_r by done.
  destruct hd as [h0|]; [|done]. destruct Hs as [_ [[h1 ->] _]]. done.
Qed.

Lemma snapshot_run h w older hd seg cur out k :
  possible h w -> last_segment (w_file w) older hd seg ->
  read_current_and_outdated (w_file w) = Some (cur, out) -> ~ In k (backref_keys seg) ->
  List.filter (is_record_of k) cur = List.filter (is_record_of k) seg.
Proof.
  intros Hh Hs Hr Hk. destruct (read_exact _ _ _ _ _ _ Hs Hr) as [-> _].
  rewrite !List.filter_app, without_backrefs_filter.
  assert (List.filter (is_record_of k) (latest_attempts (backref_keys seg) older) = []) as ->.
  { clear - Hk. induction older as [|x l IH]; [done|]. cbn [latest_attempts].
    destruct (in_latest_attempt (backref_keys seg) x l) eqn:Hx; [|done]. cbn [List.filter]. rewrite IH.
    assert (is_record_of k x = false) as ->; [|done]. unfold in_latest_attempt, is_record_of in *.
    destruct x as [h|r|s|f|b]; try done; cbn [entry_key record_of] in *; apply andb_true_iff in Hx as [Hx _];
      apply existsb_exists in Hx as (k' & Hin & ->%String.eqb_eq);
      match goal with |- context[String.eqb ?a k] => destruct (String.eqb_spec a k) as [Hek|Hne]; [by rewrite Hek in Hin|done] end. }
  destruct hd as [h0|]; [|done]. destruct Hs as [_ [[h1 ->] _]]. done.
Qed.

(** ** Adding tasks *)
Definition no_open (h : list event_of_history) : Prop := forall a, ~ In (HOpened a) h.

Lemma proc_before w ev w' p' : wstep w ev w' -> w_proc w' = Some p' -> (forall a, ev <> HOpened a) -> exists p, w_proc w = Some p.
Proof. intros Hs Hp Hno. destruct Hs; simpl in *; try done; [by destruct (Hno a)|eauto..]. Qed.

(** [g'] has the tasks of [g], with the same dependencies, and possibly more tasks. *)
Definition extends (g g' : digraph cmd) : Prop :=
  (forall n c, nodes g !! n = Some c -> exists c', nodes g' !! n = Some c' /\ same_task c c') /\
  (forall u v, v < length (nodes g) -> edge g' u v <-> edge g u v).

Lemma extends_length g g' : extends g g' -> length (nodes g) <= length (nodes g').
Proof.
  intros [H _]. destruct (length (nodes g)) as [|n] eqn:E; [lia|]. destruct (lookup_lt_is_Some_2 (nodes g) n) as [c Hc]; [lia|].
  destruct (H _ _ Hc) as (c' & Hc' & _). apply lookup_lt_Some in Hc'. lia.
Qed.

Lemma extends_refl g : extends g g.
Proof. split; [|done]. intros n c Hc. exists c. split; [done|apply same_task_refl]. Qed.

Lemma extends_trans g1 g2 g3 : extends g1 g2 -> extends g2 g3 -> extends g1 g3.
Proof.
  intros H12 H23. pose proof (extends_length _ _ H12) as Hl. destruct H12 as [A1 B1], H23 as [A2 B2]. split.
  - intros n c Hc. destruct (A1 _ _ Hc) as (c' & Hc' & S1). destruct (A2 _ _ Hc') as (c2 & Hc2 & S2). exists c2. split; [done|].
    destruct S1 as (?&?&?&?&?&?), S2 as (?&?&?&?&?&?). repeat split; congruence.
  - intros u v Hv. rewrite B2 by lia. by apply B1.
Qed.

Lemma extends_same g g' : same_graph g g' -> extends g g'.
Proof.
  intros Hs. split.
  - intros n c Hc. destruct Hs as [_ HF]. destruct (Forall2_lookup_l _ _ _ _ _ HF Hc) as (c' & ? & ?). eauto.
  - intros u v _. by apply same_graph_edge.
Qed.

Lemma extends_step w ev w' p p' : winv w -> wstep w ev w' -> w_proc w = Some p -> w_proc w' = Some p' ->
  extends (deps (p_graph p)) (deps (p_graph p')).
Proof.
  intros [HF Hi] Hs Hp Hp'. destruct Hs; cbn [w_proc w_file] in *; simplify_eq; try done; cbn [p_graph end_execute deps].
  - pose proof (py_add_task_spec (p_graph p) cmdline key ds disp aff sr (pi_graph _ _ Hi)) as Hspec.
    destruct (logfile_runcount (lf_state (logfile (p_graph p))) key) as [[rc ro]|]; [|rewrite Hspec in H; simplify_eq; apply extends_refl].
    cbv zeta in Hspec. destruct Hspec as [(n & _ & E)|[_ [[_ E]|[(_ & _ & E)|(_ & Hd & e' & E & Hn & He & _)]]]];
      rewrite E in H; simplify_eq; try apply extends_refl.
    split.
    + intros n c Hc. exists c. split; [|apply same_task_refl]. rewrite Hn. by apply lookup_app_l_Some.
    + intros u v Hv. unfold edge. rewrite He, in_app_iff. split; [|by left]. intros [?|Hin]; [done|].
      apply in_map_iff in Hin as (d & [= <- <-] & _). lia.
  - destruct (begin_execute _ _ _ Hi H) as (e' & cfg' & ids & bs & Hb).
    destruct (begun_unique _ _ _ _ _ _ _ _ Hb H0) as [-> ->]. apply extends_same, (bg_same _ _ _ _ _ _ Hb).
  - destruct (begin_execute _ _ _ Hi H) as (e' & cfg' & ids & bs & Hb).
    destruct (begun_unique _ _ _ _ _ _ _ _ Hb H0) as [-> ->]. apply extends_same, (bg_same _ _ _ _ _ _ Hb).
Qed.

Lemma tasks_stable h w h' w' p p' : possible h w -> whistory w h' w' -> no_open h' ->
  w_proc w = Some p -> w_proc w' = Some p' -> extends (deps (p_graph p)) (deps (p_graph p')).
Proof.
  intros Hh Hh' Hno Hp. pose proof (possible_inv _ _ Hh) as Hw. clear Hh. revert p'. induction Hh' as [w|w1 w2 w3 h' ev Hh' IH Hs]; intros p' Hp'.
  - simplify_eq. apply extends_refl.
  - assert (no_open h') as Hno' by (intros a Hin; apply (Hno a), in_app_iff; by left).
    destruct (proc_before _ _ _ _ Hs Hp') as [p2 Hp2].
    { intros a ->. apply (Hno a), in_app_iff. right. by left. }
    eapply extends_trans; [by apply IH|]. eapply extends_step; [|exact Hs|done|done]. by eapply whistory_inv.
Qed.

Lemma add_effect h w p cmdline key ds disp aff sr e r o :
  possible h w -> w_proc w = Some p -> status_in (current_log w) key o ->
  py_add_task (p_graph p) cmdline key ds disp aff sr = (e, r) ->
  match r with
  | AddOk n =>
      (task_has_key (deps (p_graph p)) n key /\ e = p_graph p) \/
      ((forall m, ~ task_has_key (deps (p_graph p)) m key) /\
       n = length (nodes (deps (p_graph p))) /\ cmdline <> [] /\ (forall d, In d ds -> d < n) /\
       nodes (deps e) = nodes (deps (p_graph p)) ++ [Cmd cmdline key disp aff (next_runcount o) 0 sr] /\
       (forall u v, edge (deps e) u v <-> edge (deps (p_graph p)) u v \/ (v = n /\ In u ds)))
  | AddErrEmptyCmdline => e = p_graph p /\ cmdline = []
  | AddErrInvalidDependency => e = p_graph p /\ exists d, In d ds /\ length (nodes (deps (p_graph p))) <= d
  | AddPanicNoStorageRoot => e = p_graph p /\ exists c i, o = Some (RFinished c i true) /\
      forall hd, last_header (current_log w) (Some hd) -> h_storage_roots hd !! N.to_nat i = None
  end /\ logfile e = logfile (p_graph p).
Proof.
  intros Hh Hp Ho Ha. pose proof (possible_inv _ _ Hh) as [HF Hi]. unfold current_log in *. rewrite Hp in *.
  pose proof (log_ok_status _ key (pi_log _ _ Hi)) as Hst. rewrite <- (status_in_unique _ _ _ _ Hst Ho).
  pose proof (py_add_task_spec (p_graph p) cmdline key ds disp aff sr (pi_graph _ _ Hi)) as Hspec.
  destruct (logfile_runcount (lf_state (logfile (p_graph p))) key) as [[rc ro]|] eqn:Hrc.
  - apply next_runcount_of in Hrc as ->. cbv zeta in Hspec.
    destruct Hspec as [(n & Hn & E)|[Hnew [[Hc E]|[(Hc & Hd & E)|(Hc & Hd & e' & E & Hn & He & Hl & _)]]]]; rewrite E in Ha; simplify_eq; split; try done.
    + by left.
    + right. split_and!; try done. intros u v. unfold edge. rewrite He, in_app_iff, in_map_iff. split.
      * intros [?|(d & [= <- <-] & ?)]; eauto.
      * intros [?|[-> ?]]; eauto.
  - rewrite Hspec in Ha. simplify_eq. split; [|done]. split; [done|]. unfold logfile_runcount in Hrc.
    destruct (runcount (lf_state (logfile (p_graph p))) key) as [[| |c i [|]]|] eqn:Hr; try done.
    exists c, i. split; [done|]. intros hd Hhd. unfold storage_root in Hrc.
    pose proof (memory_agrees _ _ (pi_log _ _ Hi)) as (_ & _ & Hlh).
    rewrite (last_header_unique _ _ _ Hlh Hhd) in Hrc. by destruct (h_storage_roots hd !! N.to_nat i).
Qed.

(** ** Dependencies of what is run *)
Lemma path_snoc_edge {A} (g : digraph A) u v t : edge g u v -> (v = t \/ reaches g v t) -> reaches g u t.
Proof. intros He [->|(k & Hk & Hp)]; [exists 1|exists (S k)]; (split; [lia|]); [apply (path_cons _ _ t); [done|constructor]|by eapply path_cons]. Qed.

Lemma handed_out_needs h w p ev w' tg cfg t t1 c i n t2 u v k :
  possible h w -> w_proc w = Some p -> wstep w ev w' -> execution ev = Some (tg, cfg, t) ->
  t = t1 ++ OHandedOut c i n :: t2 -> in_graph cfg n ->
  edge (deps (p_graph p)) u v -> task_has_key (deps (p_graph p)) v (task_key cfg n) ->
  task_has_key (deps (p_graph p)) u k ->
  log_success (current_log w) k \/ done_here h (current_log w) k \/
  exists m, in_graph cfg m /\ task_key cfg m = k /\ succeeded t1 m.
Proof.
  intros Hh Hp Hs Hev -> Hin He Hv Hu.
  destruct (execute_config_ok _ _ _ _ _ _ _ Hh Hs Hev) as [Hok Hr].
  destruct Hr as [s Hr]; [unfold in_graph, node_count in *; lia|].
  pose proof (possible_inv _ _ Hh) as Hw.
  destruct (execution_begun _ _ _ _ _ _ _ Hw Hp Hs Hev) as (x & e & ids & bs & <- & Hb & _).
  destruct Hw as [HF Hi]. rewrite Hp in Hi.
  assert (current_log w = plog p) as Hcl by (unfold current_log; by rewrite Hp). rewrite Hcl.
  destruct (has_success (lf_state (logfile (p_graph p))) k) eqn:Hsu.
  { left. by apply (has_success_iff _ _ (pi_log _ _ Hi)). }
  destruct (decide (k ∈ completed (p_graph p))) as [Hd|Hd].
  { right. left. by apply (done_exact _ _ _ Hh Hp). }
  right. right.
  assert (~ log_success (plog p) k) as Hns.
  { intros H. apply (has_success_iff _ _ (pi_log _ _ Hi)) in H. congruence. }
  unfold in_graph in Hin. destruct (lookup_lt_is_Some_2 _ _ Hin) as [cn Hcn]. unfold task_key in Hv. rewrite Hcn in Hv.
  destruct (begun_node _ _ _ _ _ _ _ _ Hb Hcn) as (v' & c0 & Hinv & Hiv & Hc0 & Hst & Hv').
  assert (v' = v) as ->.
  { pose proof (gk_table _ (pi_graph _ _ Hi)) as Ht. apply Ht in Hv, Hv'. congruence. }
  pose proof (proj1 (bg_ids _ _ _ _ _ _ Hb v) Hinv) as [[Hcons Hcand] Hfail].
  assert (candidate (deps (p_graph p)) (x_target x) (in_done p) (plog p) u) as Hcu.
  { split.
    - split; [by apply (gk_wf _ (pi_graph _ _ Hi)) in He as [? _]|]. destruct Hcons as [_ Hc]. destruct (x_target x) as [tt|]; [|done].
      right. eapply path_snoc_edge; [exact He|exact Hc].
    - intros k' Hk'. assert (k' = k) as ->.
      { destruct Hk' as (? & ? & <-), Hu as (? & ? & <-). congruence. }
      done. }
  assert (selected (deps (p_graph p)) (x_target x) (in_done p) (plog p) (p_rerun p) u) as Hsel.
  { split; [done|]. intros Hrr m k' Hpath. apply (Hfail Hrr m k'). clear - Hpath He Hcand Hcons.
    induction Hpath as [u Hpu|u v' w Hpu Huv Hpath IH].
    - eapply via_cons; [done|exact He|]. apply via_nil. done.
    - eapply via_cons; [done|exact Huv|]. by apply IH. }
  apply (bg_ids _ _ _ _ _ _ Hb) in Hsel. apply elem_of_list_In, elem_of_list_lookup in Hsel as [m Hm].
  destruct (runs_part_of _ _ _ _ _ _ Hb) as (_ & Hlen & Hnodes & Hedges).
  destruct (Hnodes m u Hm) as (cu & cu' & Hcu1 & Hcu2 & Hsame).
  exists m. split; [|split].
  - unfold in_graph. by eapply lookup_lt_Some.
  - unfold task_key. rewrite Hcu2. destruct Hu as (cu1 & Hu1 & <-). destruct Hsame as (_ & <- & _). congruence.
  - eapply (c01 cfg Hok s t1 c i n t2 m); [done|]. apply Hedges. exists u, v. done.
Qed.

Lemma done_fresh h w p s : possible h w -> w_proc w = Some p -> this_session h s -> executes_in s = 0 ->
  forall k, ~ done_here h (current_log w) k.
Proof.
  intros Hh Hp Hs He k. 
  assert (forall h w, possible h w -> match w_proc w with None => True | Some p => exists s, this_session h s /\
      (executes_in s = 0 -> exists older hd, plog p = older ++ [Header hd]) end) as Hinv.
  { clear. apply possible_ind'; [done|]. intros h w ev w' Hh IH Hs. pose proof (possible_inv _ _ Hh) as [HF Hi].
    destruct Hs; cbn [w_proc w_file] in *; try done.
    - destruct (open_works F a HF) as (l & p' & Hl & Hop & Hlog & _). simplify_eq. exists []. split; [apply this_session_open|].
      intros _. unfold plog. rewrite Hlog. cbn [lf_entries]. eauto.
    - destruct IH as (s & H3 & H4). destruct (add_inv _ _ _ _ _ _ _ _ _ _ Hi H H0) as (_ & Hl & _).
      unfold plog in *. cbn [p_graph]. rewrite Hl. exists (s ++ [HAdded key r]). split.
      + apply this_session_snoc; [by intros [? ?]|done].
      + rewrite executes_app. simpl. intros. apply H4. lia.
    - destruct IH as (s & H3 & H4). eexists. split; [apply this_session_snoc; [by intros [? ?]|done]|]. rewrite executes_app. simpl. lia.
    - destruct IH as (s0 & H3' & H4'). eexists. split; [apply this_session_snoc; [by intros [? ?]|done]|]. rewrite executes_app. simpl. lia. }
  specialize (Hinv _ _ Hh). rewrite Hp in Hinv. destruct Hinv as (s' & Hs' & H0). rewrite (this_session_unique _ _ _ Hs' Hs) in H0.
  destruct (H0 He) as (older & hd & Hpl). unfold current_log. rewrite Hp. fold (plog p). rewrite Hpl.
  intros [(s2 & tg & cfg & t & n & ks & Hs2 & Hin & _)|(l1 & b & l2 & E & _ & Hn)].
  - rewrite (this_session_unique _ _ _ Hs2 Hs) in Hin. clear - Hin He. induction s as [|ev s IH]; [done|].
    simpl in He. destruct Hin as [->|Hin]; [simpl in He; lia|]. apply IH; [lia|done].
  - destruct l2 as [|z l2 _] using rev_ind.
    + by apply app_inj_tail in E as [_ E].
    + rewrite app_comm_cons, List.app_assoc in E. apply app_inj_tail in E as [_ <-]. apply Hn. exists hd. apply in_app_iff. right. by left.
Qed.

(** ** Storage roots *)
Lemma root_kept es l k c i pre hd mid r post hd' more root :
  log_ok l -> lf_entries l = es -> runcount (lf_state l) k = Some (RFinished c i true) ->
  es = pre ++ Header hd :: mid ++ Ready r :: post -> (forall h, ~ In (Header h) mid) -> r_key r = k -> (forall r', In (Ready r') post -> r_key r' <> k) ->
  last_header es (Some hd') -> h_storage_roots hd' = h_storage_roots hd ++ more ->
  h_storage_roots hd !! N.to_nat (r_storage_root r) = Some root ->
  logfile_runcount (lf_state l) k = Some (r_runcount r, Some root).
Proof.
  intros Hok Hes Hrc E Hmid Hk Hpost Hlast Hmore Hroot.
  pose proof (log_ok_status _ k Hok) as Hst. rewrite Hrc, Hes in Hst. simpl in Hst.
  destruct Hst as (pre' & r' & m1 & s & m2 & f & post' & E' & Hr' & Hc & Hi & Hm1 & Hs & Hm2 & Hf & _ & Hp').
  assert (r = r' /\ r_storage_root r = i /\ r_runcount r = c) as (<- & Hi' & Hc').
  { assert (E2 := E'). rewrite E in E2.
    replace (pre ++ Header hd :: mid ++ Ready r :: post) with ((pre ++ Header hd :: mid) ++ Ready r :: post) in E2 by (by rewrite <- List.app_assoc).
    apply app_split in E2 as [(l2 & Ha & Hb)|(n1 & Ha & Hb)].
    - exfalso. assert (In (Ready r) (m1 ++ Started s :: m2 ++ Finished f :: post')) as Hin by (rewrite Hb; apply in_app_iff; right; by left).
      apply in_app_iff in Hin as [Hin|[Hin|Hin]]; [apply Hm1 in Hin|done|apply in_app_iff in Hin as [Hin|[Hin|Hin]]; [apply Hm2 in Hin|done|apply Hp' in Hin]];
        by rewrite record_of_ready in Hin.
    - destruct n1 as [|y n1]; simpl in Ha; [by injection Ha as ->|]. injection Ha as _ Ha. exfalso.
      apply (Hpost r'); [|done]. rewrite Ha. apply in_app_iff. right. by left. }
  unfold logfile_runcount. rewrite Hrc. unfold storage_root.
  pose proof (memory_agrees _ _ Hok) as (_ & _ & Hlh). rewrite Hes in Hlh.
  rewrite (last_header_unique _ _ _ Hlh Hlast), Hmore, <- Hi'.
  rewrite (lookup_app_l_Some _ _ _ _ Hroot). by rewrite Hc'.
Qed.
