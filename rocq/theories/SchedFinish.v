(** Preservation of the invariant by the handling of a finish report. *)
From Verif Require Export SchedEvents.

Definition unm (G l : list nat) : nat :=
  length (List.filter (fun m => negb (bool_decide (m ∈ G))) l).

Lemma unm_add G id l : id ∉ G -> unm (G ++ [id]) l + occ id l = unm G l.
Proof.
  intros Hid. unfold unm. induction l as [|m l IH]; [done|]. rewrite occ_cons. unfold one. cbn [List.filter].
  destruct (Nat.eqb_spec id m) as [<-|Hne].
  - rewrite (bool_decide_true (id ∈ G ++ [id])) by set_solver.
    rewrite (bool_decide_false (id ∈ G)) by done. simpl. lia.
  - destruct (decide (m ∈ G)).
    + rewrite !bool_decide_true by set_solver. simpl. lia.
    + rewrite !bool_decide_false by set_solver. simpl. lia.
Qed.

Lemma unm_zero G l : unm G l = 0 <-> forall m, m ∈ l -> m ∈ G.
Proof.
  unfold unm. induction l as [|m l IH]; simpl.
  - split; [|done]. intros _ m Hm. by apply elem_of_nil in Hm.
  - destruct (decide (m ∈ G)).
    + rewrite bool_decide_true by done. simpl. rewrite IH. set_solver.
    + rewrite bool_decide_false by done. simpl. split; [done|]. intros H. destruct n. apply H. by left.
Qed.

Section finish.
Variable cfg : config.
Notation g := (cf_g cfg).

Lemma visit_ok s t id x :
  config_ok cfg -> InvC cfg s t -> sv_soft (st_sv s) = false -> st_phase s <> PInit ->
  (forall n, occ n (finish_order t) <= 1) -> id ∉ finish_order t -> id < node_count g ->
  let G := good t ++ (if is_success x then [id] else []) in
  let B := bad t ++ (if is_success x then [] else [id]) in
  exists ss ready,
    visit_downstream (is_success x) (out_neighbors g id) (sv_statuses (st_sv s)) = Some (ss, ready) /\
    length ss = node_count g /\ (forall n, occ n ready <= 1) /\
    (forall n, n ∈ ready -> n < node_count g /\ n ∉ readied t) /\
    (forall n, n ∈ ready -> forall m, edge g m n -> m ∈ G) /\
    (forall n y, ss !! n = Some y -> (poisoned y = true <-> exists m, edge g m n /\ m ∈ B) /\
       (poisoned y = false -> n_unmet_deps y = unm G (in_neighbors g n))) /\
    (forall n, n < node_count g -> (n ∈ readied t ++ ready <-> forall m, edge g m n -> m ∈ G)).
Proof.
  intros Hok HC Hsoft Hph Hnd Hid Hlt G B.
  pose proof (c_len _ _ _ HC) as Hlen.
  pose proof (c_stat _ _ _ HC Hsoft) as Hstat.
  pose proof (c_ready _ _ _ HC Hph Hsoft) as Hready.
  assert (forall m, m ∈ good t -> m ∈ finish_order t) as Hgf.
  { intros m Hm. apply occ_pos. apply occ_pos in Hm. pose proof (occ_good_bad t m). lia. }
  assert (forall m, m ∈ bad t -> m ∈ finish_order t) as Hbf.
  { intros m Hm. apply occ_pos. apply occ_pos in Hm. pose proof (occ_good_bad t m). lia. }
  assert (forall m, m ∈ good t -> m ∈ bad t -> False) as Hgb.
  { intros m H1 H2. apply occ_pos in H1. apply occ_pos in H2. pose proof (occ_good_bad t m).
    specialize (Hnd m). lia. }
  assert (id ∉ good t) as Hidg by (intros ?; by apply Hid, Hgf).
  assert (forall d, d ∈ out_neighbors g id -> d < node_count g) as Hout.
  { intros d Hd. apply elem_of_out_neighbors in Hd. by apply (ok_wf _ Hok) in Hd as [_ ?]. }
  destruct (is_success x) eqn:Hx.
  - destruct (visit_downstream_good (out_neighbors g id) (sv_statuses (st_sv s)))
      as (ss & ready & Hv & Hl & Hss & Ho & Hr).
    { intros d Hd. destruct (lookup_lt_is_Some_2 (sv_statuses (st_sv s)) d) as [y Hy].
      { rewrite Hlen. by apply Hout. }
      exists y. split; [done|]. intros Hp. rewrite (proj2 (Hstat d y Hy) Hp).
      change (unmet cfg t d) with (unm (good t) (in_neighbors g d)).
      pose proof (unm_add (good t) id (in_neighbors g d) Hidg) as Hu. rewrite in_out_occ in Hu. lia. }
    exists ss, ready. split; [done|]. split; [by rewrite Hl|]. split; [done|].
    assert (Hrc : forall n, n ∈ ready <-> edge g id n /\ forall m, edge g m n -> m ∈ G).
    { intros n. rewrite Hr, elem_of_out_neighbors. split.
      - intros (He & y & Hy & Hp & Hu). split; [done|]. intros m Hm. apply elem_of_in_neighbors in Hm.
        revert m Hm. apply unm_zero. unfold G.
        pose proof (unm_add (good t) id (in_neighbors g n) Hidg) as Hua. rewrite in_out_occ in Hua.
        rewrite (proj2 (Hstat n y Hy) Hp) in Hu.
        change (unmet cfg t n) with (unm (good t) (in_neighbors g n)) in Hu. lia.
      - intros (He & Hall). split; [done|].
        destruct (lookup_lt_is_Some_2 (sv_statuses (st_sv s)) n) as [y Hy].
        { rewrite Hlen. apply Hout. by apply elem_of_out_neighbors. }
        exists y. split; [done|]. destruct (poisoned y) eqn:Hp.
        + apply (proj1 (Hstat n y Hy)) in Hp as (m & Hm & Hb). exfalso.
          specialize (Hall m Hm). unfold G in Hall. rewrite elem_of_app, elem_of_list_singleton in Hall.
          destruct Hall as [Hg| ->]; [by eapply Hgb|]. by apply Hid, Hbf.
        + split; [done|]. rewrite (proj2 (Hstat n y Hy) Hp).
          change (unmet cfg t n) with (unm (good t) (in_neighbors g n)).
          pose proof (unm_add (good t) id (in_neighbors g n) Hidg) as Hua. rewrite in_out_occ in Hua.
          assert (unm (good t ++ [id]) (in_neighbors g n) = 0) as Hz; [|lia].
          apply unm_zero. intros m Hm. apply Hall. by apply elem_of_in_neighbors. }
    split.
    { intros n Hn. apply Hrc in Hn as [He _]. split; [apply Hout; by apply elem_of_out_neighbors|].
      intros Hn. rewrite Hready in Hn by (apply Hout; by apply elem_of_out_neighbors). by apply Hidg, Hn. }
    split. { intros n Hn. by apply Hrc. }
    split.
    { intros n y Hy.
      destruct (lookup_lt_is_Some_2 (sv_statuses (st_sv s)) n) as [z Hz].
      { rewrite <- Hl. by eapply lookup_lt_Some. }
      destruct (Hstat n z Hz) as [H1 H2]. specialize (Hss n z Hz). rewrite Hy in Hss.
      unfold B. rewrite app_nil_r. destruct (poisoned z) eqn:Hp.
      - injection Hss as ->. rewrite Hp. done.
      - injection Hss as ->. simpl. split; [done|]. intros _. rewrite (H2 eq_refl).
        change (unmet cfg t n) with (unm (good t) (in_neighbors g n)).
        pose proof (unm_add (good t) id (in_neighbors g n) Hidg) as Hua. rewrite in_out_occ in Hua.
        unfold G. lia. }
    intros n Hn. rewrite elem_of_app. split.
    + intros [Hr'|Hr']; [|by apply Hrc]. intros m Hm. unfold G. rewrite elem_of_app. left.
      rewrite Hready in Hr' by done. by apply Hr'.
    + intros Hall. destruct (decide (id ∈ in_neighbors g n)) as [He|He].
      * right. apply Hrc. split; [|done]. by apply elem_of_in_neighbors.
      * left. apply Hready; [done|]. intros m Hm. specialize (Hall m Hm). unfold G in Hall.
        rewrite elem_of_app, elem_of_list_singleton in Hall. destruct Hall as [Hall| ->]; [done|].
        destruct He. by apply elem_of_in_neighbors.
  - destruct (visit_downstream_bad (out_neighbors g id) (sv_statuses (st_sv s)))
      as (ss & Hv & Hl & Hss).
    { intros d Hd. rewrite Hlen. by apply Hout. }
    exists ss, []. split; [done|]. split; [by rewrite Hl|]. split; [intros n; rewrite occ_nil; lia|].
    split; [by intros n ?%elem_of_nil|]. split; [by intros n ?%elem_of_nil|].
    unfold G. rewrite !app_nil_r. split.
    { intros n y Hy.
      destruct (lookup_lt_is_Some_2 (sv_statuses (st_sv s)) n) as [z Hz].
      { rewrite <- Hl. by eapply lookup_lt_Some. }
      destruct (Hstat n z Hz) as [H1 H2]. specialize (Hss n z Hz). rewrite Hy in Hss.
      destruct (decide (n ∈ out_neighbors g id)) as [He|He]; injection Hss as ->; simpl.
      - split; [|done]. split; [|done]. intros _. exists id. rewrite <- elem_of_out_neighbors. split; [done|].
        unfold B. rewrite elem_of_app. right. by left.
      - split; [|done]. rewrite H1. split; intros (m & Hm & Hb); exists m; (split; [done|]).
        + unfold B. rewrite elem_of_app. by left.
        + unfold B in Hb. rewrite elem_of_app, elem_of_list_singleton in Hb. destruct Hb as [Hb| ->]; [done|].
          destruct He. by apply elem_of_out_neighbors. }
    done.
Qed.

Lemma causal_app new sfx : causal_log cfg new ->
  (forall e, In (Started e) sfx -> exists n, n < node_count g /\ task_key cfg n = s_key e /\
      forall m, edge g m n -> exists f, In (Finished f) new /\ f_key f = task_key cfg m /\
        f_status f = 0%Z) ->
  causal_log cfg (new ++ sfx).
Proof.
  intros Hc Hs l1 e l2 H. apply app_eq_app in H as (k & [[-> Hk]|[-> ->]]).
  - destruct k as [|y k].
    + simpl in Hk. rewrite app_nil_r in *. destruct (Hs e) as (n & H1 & H2 & H3); [rewrite <- Hk; by left|].
      exists n. split_and!; try done.
    + simpl in Hk. injection Hk as <- ->. by eapply Hc.
  - destruct (Hs e) as (n & H1 & H2 & H3); [apply in_or_app; right; by left|].
    exists n. split_and!; try done. intros m Hm. destruct (H3 m Hm) as (f & Hf & Hx).
    exists f. split; [|done]. apply in_or_app. by left.
Qed.

Lemma history_ready_exact ready : forall recs n,
  config_ok cfg -> Forall is_ready_rec recs -> omap ready_key recs = ready_infos cfg ready ->
  (forall n, n ∈ ready -> n < node_count g) -> (forall n, occ n ready <= 1) -> n < node_count g ->
  history (task_key cfg n) recs = if decide (n ∈ ready) then [KReady] else [].
Proof.
  induction ready as [|m ready IH]; intros recs n Hok Hf Ho Hlt Hnd Hn.
  - rewrite decide_False by (by intros ?%elem_of_nil).
    destruct recs as [|e recs]; [done|]. apply Forall_cons in Hf as [[r ->] _]. done.
  - destruct (lookup_lt_is_Some_2 (nodes g) m) as [c Hc]; [apply Hlt; by left|].
    assert (ready_infos cfg (m :: ready) =
      (c_key c, c_runcount c, c_storage_root c) :: ready_infos cfg ready) as E.
    { unfold ready_infos at 1. cbn [omap list_omap]. by rewrite Hc. }
    rewrite E in Ho. destruct recs as [|e recs]; [done|]. apply Forall_cons in Hf as [[r ->] Hf].
    cbn [omap list_omap ready_key] in Ho. injection Ho as Hk _ _ Ho.
    assert (Hnd' : forall n, occ n ready <= 1) by (intros k; specialize (Hnd k); rewrite occ_cons in Hnd; lia).
    change (Ready r :: recs) with ([Ready r] ++ recs). rewrite history_app.
    rewrite (IH recs n Hok Hf Ho) by (try done; intros; apply Hlt; by right).
    destruct (decide (n = m)) as [->|Hne].
    + rewrite (decide_True (P := m ∈ m :: ready)) by (by left).
      rewrite decide_False.
      2:{ specialize (Hnd m). rewrite occ_cons in Hnd. unfold one in Hnd. rewrite Nat.eqb_refl in Hnd.
          apply occ_zero. lia. }
      rewrite app_nil_r. change ([Ready r]) with ([] ++ [Ready r]).
      rewrite (history_snoc _ [] _ KReady); [done|]. apply record_of_ready.
      rewrite Hk. symmetry. by apply task_key_lookup.
    + change ([Ready r]) with ([] ++ [Ready r]). rewrite history_snoc_other.
      * simpl. destruct (decide (n ∈ ready)) as [Hi|Hi].
        -- by rewrite decide_True by (by right).
        -- rewrite decide_False; [done|]. rewrite not_elem_of_cons. done.
      * simpl. rewrite eqb_neq_record; [done|]. rewrite Hk, <- (task_key_lookup _ m c Hc).
        intros He. apply Hne. apply (task_key_inj cfg); try done. apply Hlt. by left.
Qed.

Lemma finished_facts s t id x v f rest :
  InvA cfg s t -> st_events s = EvFinished id x v f :: rest ->
  nse s id = 0 /\ nrun s id = 0 /\ nfe s id = 1 /\ id ∈ readied t /\ id ∉ finish_order t /\ id < node_count g.
Proof.
  intros HA Ev.
  assert (1 <= nfe s id) as H1.
  { unfold nfe. rewrite Ev, occ_omap_cons. unfold one. simpl. rewrite Nat.eqb_refl. lia. }
  pose proof (own_bound _ _ _ id HA) as H3.
  assert (tk s t id = 1) as H4.
  { rewrite <- (a_own _ _ _ HA). lia. }
  assert (id ∈ readied t) as Hr.
  { apply occ_pos. pose proof (tkb_occ (st_taken s) (readied t) id). unfold tk in H4. lia. }
  split.
  { unfold nse. rewrite Ev. apply occ_zero. apply (a_ord _ _ _ HA [] id x v f rest). done. }
  split; [lia|]. split; [lia|]. split; [done|]. split; [apply occ_zero; lia|].
  by apply (a_lt _ _ _ HA).
Qed.

(** A task that was not made ready is in no table. *)
Lemma unready_nowhere s t n : InvA cfg s t -> n ∉ readied t ->
  n ∉ finish_order t /\ sv_inflight (st_sv s) !! n = None.
Proof.
  intros HA Hn. apply occ_zero in Hn.
  pose proof (tkb_occ (st_taken s) (readied t) n) as H1. pose proof (a_own _ _ _ HA n) as H2.
  unfold tk in H2. pose proof (a_se _ _ _ HA n) as H3.
  split; [apply occ_zero; lia|]. apply ninf_none. lia.
Qed.

Lemma finish_nodup s t n : InvA cfg s t -> occ n (finish_order t) <= 1.
Proof. intros HA. pose proof (own_bound _ _ _ n HA). lia. Qed.

Lemma visited_ok s t id x :
  config_ok cfg -> InvA cfg s t -> InvC cfg s t -> st_phase s <> PInit ->
  id ∉ finish_order t -> id < node_count g ->
  let G := good t ++ (if is_success x then [id] else []) in
  let B := bad t ++ (if is_success x then [] else [id]) in
  exists ss ready,
    visited cfg (st_sv s) id x ss ready /\
    length ss = node_count g /\ (forall n, occ n ready <= 1) /\
    (forall n, n ∈ ready -> n < node_count g /\ n ∉ readied t) /\
    (forall n, n ∈ ready -> forall m, edge g m n -> m ∈ G) /\
    (sv_soft (st_sv s) = false ->
     (forall n y, ss !! n = Some y -> (poisoned y = true <-> exists m, edge g m n /\ m ∈ B) /\
       (poisoned y = false -> n_unmet_deps y = unm G (in_neighbors g n))) /\
     (forall n, n < node_count g -> (n ∈ readied t ++ ready <-> forall m, edge g m n -> m ∈ G))).
Proof.
  intros Hok HA HC Hph Hid Hlt G B. unfold visited.
  destruct (sv_soft (st_sv s)) eqn:Hsoft.
  - exists (sv_statuses (st_sv s)), []. split; [done|]. split; [by apply (c_len _ _ _ HC)|].
    split_and!; try done; [intros n; rewrite occ_nil; lia|by intros n ?%elem_of_nil..].
  - destruct (visit_ok s t id x Hok HC Hsoft Hph (fun n => finish_nodup s t n HA) Hid Hlt)
      as (ss & ready & H1 & H2 & H3 & H4 & H5 & H6 & H7).
    exists ss, ready. split_and!; try done.
Qed.

Lemma finished_tail t id x e ready tail :
  Forall neutral tail -> handed tail = [] ->
  let os := OFinished id x e :: map OReady ready ++ tail in
  readied os = ready /\ handed os = [] /\ finish_order os = [id] /\
  good os = (if is_success x then [id] else []) /\ bad os = (if is_success x then [] else [id]) /\
  omap (fin_obs cfg) os = [(task_key cfg id, as_i32 x)] /\
  ((forall t1 n t2, t = t1 ++ OReady n :: t2 -> forall m, edge g m n -> m ∈ good t1) ->
   (forall n, n ∈ ready -> forall m, edge g m n -> m ∈ good t ++ (if is_success x then [id] else [])) ->
   forall t1 n t2, t ++ os = t1 ++ OReady n :: t2 -> forall m, edge g m n -> m ∈ good t1).
Proof.
  intros Htl Hh os.
  assert (readied os = ready) as Hr.
  { change os with ([OFinished id x e] ++ map OReady ready ++ tail).
    rewrite !readied_app, readied_map_ready, (neutral_readied tail), app_nil_r by done. done. }
  assert (good os = (if is_success x then [id] else [])) as Hg.
  { change os with ([OFinished id x e] ++ map OReady ready ++ tail).
    rewrite !good_app, good_map_ready, (neutral_good tail), !app_nil_r by done.
    unfold good. simpl. by destruct (is_success x). }
  split; [done|].
  split. { change os with ([OFinished id x e] ++ map OReady ready ++ tail).
    by rewrite !handed_app, handed_map_ready, Hh. }
  split. { change os with ([OFinished id x e] ++ map OReady ready ++ tail).
    rewrite !finish_order_app, finish_order_map_ready, (neutral_finish tail) by done. done. }
  split; [done|].
  split. { change os with ([OFinished id x e] ++ map OReady ready ++ tail).
    rewrite !bad_app, bad_map_ready, (neutral_bad tail), !app_nil_r by done.
    unfold bad. simpl. by destruct (is_success x). }
  split. { change os with ([OFinished id x e] ++ map OReady ready ++ tail).
    rewrite !omap_app', (neutral_fin cfg tail), omap_map_none by done. done. }
  intros Hc Hrd t1 n t2 H m Hm. apply app_eq_app in H as (k & [[-> Hk]|[-> Hk]]).
  - destruct k as [|o k].
    + simpl in Hk. done.
    + simpl in Hk. injection Hk as <- Hk. eapply (Hc t1 n k); [|done]. by simplify_eq.
  - assert (n ∈ ready) as Hn.
    { rewrite <- Hr, Hk, readied_app, elem_of_app. right. by left. }
    specialize (Hrd n Hn m Hm). destruct k as [|o k]; [done|].
    unfold os in Hk. simpl in Hk. injection Hk as <- Hk.
    change (OFinished id x e :: k) with ([OFinished id x e] ++ k). rewrite !good_app.
    rewrite elem_of_app in Hrd. rewrite !elem_of_app. destruct Hrd as [?|Hrd]; [by left|].
    right. left. unfold good. simpl. by destruct (is_success x).
Qed.

Lemma inv_finished s t id x v f rest now :
  config_ok cfg -> Inv cfg s t -> st_phase s = PLoop -> st_todo s = [] ->
  st_events s = EvFinished id x v f :: rest ->
  forall s' os, server_result (set_events s rest) (handle_finished cfg (st_sv s) id x v f now) = (s', os) ->
  Inv cfg s' (t ++ os).
Proof.
  intros Hok [HA HB HC HD] Hph Et Ev s' os Heq.
  destruct (finished_facts _ _ _ _ _ _ _ HA Ev) as (Hse & Hrun & Hfe & Hr & Hf & Hlt).
  destruct (lookup_lt_is_Some_2 (nodes g) id Hlt) as [c Hc].
  pose proof (task_key_lookup cfg id c Hc) as Hkey.
  destruct HB as (Hg & new & Hnew & Hln).
  assert (Hph' : st_phase s <> PInit) by (by rewrite Hph).
  assert (Hnex : ~ exiting s).
  { intros [H|H]; [by rewrite Hph in H|]. rewrite Et in H. by apply elem_of_nil in H. }
  pose proof (c_open _ _ _ HC Hnex) as Hopen.
  destruct (visited_ok s t id x Hok HA HC Hph' Hf Hlt)
    as (ss & ready & Hvis & Hssl & Hrnd & Hrlt & Hrg & Hstat).
  assert (Hst : stage (sv_inflight (st_sv s)) t id =
     if bool_decide (is_Some (sv_inflight (st_sv s) !! id)) then [KReady; KStarted] else [KReady]).
  { unfold stage. rewrite decide_True, decide_False by done.
    destruct (decide (is_Some (sv_inflight (st_sv s) !! id))) as [H|H].
    - by rewrite bool_decide_true. 
    - by rewrite bool_decide_false. }
  assert (Hnd' : forall n, occ n (readied t ++ ready) <= 1).
  { intros n. rewrite occ_app. pose proof (a_nodup _ _ _ HA n). specialize (Hrnd n).
    destruct (decide (n ∈ ready)) as [Hn|Hn].
    - apply Hrlt in Hn as [_ Hn]. apply occ_zero in Hn. lia.
    - apply occ_zero in Hn. lia. }
  assert (Hlt' : forall n, n ∈ readied t ++ ready -> n < node_count g).
  { intros n. rewrite elem_of_app. intros [Hn|Hn]; [by apply (a_lt _ _ _ HA)|by apply Hrlt]. }
  pose proof (nodup_bound _ _ Hlt' Hnd') as Hbound. rewrite app_length in Hbound.
  pose proof (c_roi _ _ _ HC) as Hroi.
  assert (Hlf : length (finish_order t) < length (readied t)).
  { assert (finish_order t ++ [id] ⊆+ readied t) as Hs.
    { apply occ_submset; intros n; rewrite occ_app, occ_cons, occ_nil; unfold one;
        pose proof (inv_handed_sub cfg s t HA n); pose proof (a_nodup _ _ _ HA n);
        destruct (Nat.eqb_spec n id) as [->|Hne]; try lia.
      - apply occ_zero in Hf. apply occ_pos in Hr. lia.
      - apply occ_zero in Hf. apply occ_pos in Hr. lia. }
    apply submseteq_length in Hs. rewrite app_length in Hs. simpl in Hs. lia. }
  pose proof (ok_size _ Hok) as Hsz.
  edestruct (handle_finished_ok cfg (st_sv s) id x v f now c ss ready)
    as (l & items & recs & frecs & Hh & Hgl & Hle & Hrr & Hrk & Hid & Him & Hfr); try done.
  { intros n Hn. by apply Hrlt. }
  { unfold U32. lia. }
  { rewrite <- Hkey. erewrite history_last; try done; rewrite Hst; by case_bool_decide. }
  { intros n c' Hn Hc' Hk. assert (n = id) as ->; [|by apply Hrlt in Hn as [_ Hn]].
    apply (task_key_inj cfg); try done; [by apply Hrlt|]. by rewrite Hkey, (task_key_lookup cfg n c' Hc'). }
  rewrite Hh in Heq. cbn [server_result] in Heq.
  set (fizz := (if is_fizzle x (elapsed_of (st_sv s) id now) then sv_n_fizzled (st_sv s) + 1
                else sv_n_fizzled (st_sv s))%N) in *.
  set (roi := (N.pred (sv_n_roi (st_sv s)) + N.of_nat (length ready))%N) in *.
  set (over := N.leb (cf_allowed cfg) fizz) in *.
  set (soft := over || sv_soft (st_sv s)) in *.
  set (stop := N.eqb roi 0 || (soft && bool_decide (delete id (sv_inflight (st_sv s)) = ∅))) in *.
  set (post := (match f with Some f => [ISetFlag id f] | None => [] end)
              ++ (if over then ICancelToken now :: close_all else [])
              ++ (if stop then close_all ++ IBreak :: zero_all cfg else [])) in *.
  set (tail := (if over then [OSoft SoftFailures] else [])
              ++ (if stop then [OExit (if N.eqb roi 0 then ExitDone else ExitSoft)] else [])) in *.
  assert (Htl : Forall neutral tail).
  { unfold tail. destruct over, stop; by repeat constructor. }
  assert (Htl2 : handed tail = []) by (unfold tail; by destruct over, stop).
  assert (Hpost : Forall plain post).
  { unfold post. apply Forall_app. split; [destruct f; by repeat constructor|]. apply Forall_app. split.
    - destruct over; [|done]. constructor; [done|]. apply plain_close.
    - destruct stop; [|done]. apply Forall_app. split; [apply plain_close|]. constructor; [done|]. apply plain_zero. }
  destruct (finished_tail t id x (elapsed_of (st_sv s) id now) ready tail Htl Htl2)
    as (Ord & Ohd & Ofo & Ogd & Obd & Ofi & Oca).
  injection Heq as <- <-.
  set (os := OFinished id x (elapsed_of (st_sv s) id now) :: map OReady ready ++ tail) in *.
  assert (Hbreak : IBreak ∈ IDecInflight id (c_affinity c) :: rinstrs items ++ post <-> stop = true).
  { rewrite elem_of_cons, elem_of_app, rinstrs_split, elem_of_app. split.
    - intros [?|[[H|H]|H]]; [done| | |].
      + by apply elem_of_rpre in H as [?|(?&?&?)].
      + by apply elem_of_rpost in H as [?|(?&?&?&_)].
      + unfold post in H. rewrite !elem_of_app in H. destruct H as [H|[H|H]].
        * destruct f; [|by apply elem_of_nil in H]. by apply elem_of_list_singleton in H.
        * destruct over; [|by apply elem_of_nil in H]. apply elem_of_cons in H as [?|H]; [done|].
          by apply elem_of_close in H as [??].
        * by destruct stop; [|apply elem_of_nil in H].
    - intros Hs. right. right. unfold post. rewrite Hs, !elem_of_app. do 3 right. by left. }
  split.
  - pose proof HA as HA0. destruct HA. split; unfold tk; rewrite ?readied_app, ?finish_order_app, ?handed_app, ?Ord, ?Ohd, ?Ofo, ?app_nil_r; simpl; try done.
    + by rewrite a_fin.
    + by rewrite app_length, a_flag.
    + intros f0 Hf0. rewrite app_length. specialize (a_taken f0 Hf0). lia.
    + intros n. rewrite tkb_app by done. specialize (a_own n). unfold tk, nhold, nrun, nfe in *. simpl.
      rewrite Ev, occ_omap_cons in a_own. simpl in a_own. rewrite occ_app, occ_cons, occ_nil. lia.
    + intros n. rewrite tkb_app by done. apply a_hd.
    + intros n. specialize (a_se n).
      destruct (decide (n = id)) as [->|Hne].
      * unfold nrun, nse, nfe, ninf in *. simpl. rewrite lookup_delete, decide_False by (by intros []).
        rewrite Ev, occ_omap_cons in Hse, Hfe. simpl in Hse, Hfe. unfold one in Hse, Hfe.
        rewrite Nat.eqb_refl in Hfe. lia.
      * unfold nrun, nse, nfe, ninf in *. simpl. rewrite lookup_delete_ne by done.
        rewrite Ev, !occ_omap_cons in a_se. simpl in a_se. unfold one in a_se.
        destruct (Nat.eqb_spec n id); [done|]. lia.
    + intros e1 n x' v' f' e2 He. apply (a_ord (EvFinished id x v f :: e1) n x' v' f' e2).
      by rewrite Ev, He.
    + intros i q it Hq Hit. by eapply item_ok_mono, a_q.
    + eapply (invA_todo_server cfg t os items [IDecInflight id (c_affinity c)] post); try done.
      * by rewrite Ord.
      * by rewrite <- a_flag.
      * intros i it Hi. by apply elem_of_list_singleton in Hi.
    + intros c0 it Hc0. destruct (a_pop c0 it Hc0) as (i & Hi & Hit). exists i. split; [done|]. by apply item_ok_mono.
    + intros c0 it Hc0. destruct (a_claim c0 it Hc0) as (i & Hi & Hit). exists i. split; [done|]. by apply item_ok_mono.
  - split; [done|]. exists (new ++ recs ++ frecs). simpl. split; [by rewrite Hle, Hnew, <- List.app_assoc|].
    pose proof Hln as Hln0. destruct Hln.
    assert (Hfk : forall k, k <> c_key c -> history k frecs = []).
    { intros k Hk. destruct Hfr as (f0 & Hfk & Hfs & Hx).
      destruct (bool_decide (is_Some (sv_inflight (st_sv s) !! id))); [subst frecs|destruct Hx as (e0 & Hek & ->)];
        apply no_record_history; intros e; simpl; intros He.
      - destruct He as [<-|[]]. simpl. rewrite eqb_neq_record; [done|congruence].
      - destruct He as [<-|[<-|[]]]; simpl; (rewrite eqb_neq_record; [done|congruence]). }
    assert (Hfid : history (c_key c) frecs =
      if bool_decide (is_Some (sv_inflight (st_sv s) !! id)) then [KFinished] else [KStarted; KFinished]).
    { destruct Hfr as (f0 & Hfk0 & Hfs & Hx).
      destruct (bool_decide (is_Some (sv_inflight (st_sv s) !! id))); [subst frecs|destruct Hx as (e0 & Hek & ->)].
      - change ([Finished f0]) with ([] ++ [Finished f0]). rewrite (history_snoc _ _ _ KFinished); [done|].
        by apply record_of_finished.
      - change ([Started e0; Finished f0]) with (([] ++ [Started e0]) ++ [Finished f0]).
        rewrite (history_snoc _ _ _ KFinished) by (by apply record_of_finished).
        rewrite (history_snoc _ _ _ KStarted) by (by apply record_of_started). done. }
    split.
    + intros n Hn. rewrite !history_app, b_stage by done.
      rewrite (history_ready_exact ready recs n) by (try done; intros; by apply Hrlt).
      destruct (decide (n = id)) as [->|Hne].
      * rewrite (decide_False (P := id ∈ ready)) by (intros H; by apply Hrlt in H as [_ ?]).
        rewrite Hst, Hkey, Hfid. unfold stage.
        rewrite readied_app, finish_order_app, Ord, Ofo.
        rewrite decide_True by set_solver. rewrite decide_True by set_solver.
        by case_bool_decide.
      * rewrite Hfk.
        2:{ rewrite <- Hkey. intros He. apply Hne. by apply (task_key_inj cfg). }
        rewrite app_nil_r. unfold stage. rewrite readied_app, finish_order_app, Ord, Ofo.
        rewrite lookup_delete_ne by done.
        destruct (decide (n ∈ ready)) as [Hnr|Hnr].
        -- destruct (Hrlt n Hnr) as [_ Hnn]. destruct (unready_nowhere s t n HA Hnn) as [H1 H2].
           rewrite decide_False by done. rewrite H2. rewrite decide_True by set_solver.
           rewrite decide_False by set_solver. rewrite decide_False by (by intros []). done.
        -- rewrite app_nil_r. destruct (decide (n ∈ readied t)) as [H1|H1].
           ++ rewrite (decide_True (P := n ∈ readied t ++ ready)) by set_solver.
              destruct (decide (n ∈ finish_order t)).
              ** by rewrite (decide_True (P := n ∈ finish_order t ++ [id])) by set_solver.
              ** by rewrite (decide_False (P := n ∈ finish_order t ++ [id])) by set_solver.
           ++ by rewrite (decide_False (P := n ∈ readied t ++ ready)) by set_solver.
    + intros k Hk. rewrite !history_app, b_other by done.
      rewrite (history_ready_recs cfg recs ready); [|done|done|].
      * rewrite Hfk; [done|]. rewrite <- Hkey. intros ->. by eapply Hk.
      * intros n c' Hn Hc' He. apply (Hk n); [by apply Hrlt|]. by rewrite (task_key_lookup cfg n c' Hc').
    + rewrite !omap_app', b_fin, Ofi. f_equal.
      assert (omap fin_rec recs = []) as ->.
      { clear -Hrr. induction Hrr as [|e recs [r ->] _ IH]; [done|]. exact IH. }
      destruct Hfr as (f0 & Hfk0 & Hfs & Hx).
      destruct (bool_decide (is_Some (sv_inflight (st_sv s) !! id))); [subst frecs|destruct Hx as (e0 & Hek & ->)];
        simpl; by rewrite Hfk0, Hfs, Hkey.
    + rewrite !omap_app', b_ready, readied_app, Ord, Hrk. unfold ready_infos. rewrite omap_app'. f_equal.
      destruct Hfr as (f0 & Hfk0 & Hfs & Hx).
      destruct (bool_decide (is_Some (sv_inflight (st_sv s) !! id))); [subst frecs|destruct Hx as (e0 & Hek & ->)];
        simpl; by rewrite app_nil_r.
    + apply causal_app; [done|]. intros e He. apply in_app_or in He as [He|He].
      { exfalso. rewrite Forall_forall in Hrr. apply elem_of_list_In in He. by destruct (Hrr _ He). }
      exists id. split; [done|]. split.
      * destruct Hfr as (f0 & Hfk0 & Hfs & Hx). rewrite Hkey.
        destruct (bool_decide (is_Some (sv_inflight (st_sv s) !! id))); [subst frecs|destruct Hx as (e0 & Hek & ->)].
        -- by destruct He as [|[]].
        -- destruct He as [He|[|[]]]; [|done]. by injection He as <-.
      * intros m Hm. eapply good_in_log; [done|]. by eapply ready_deps_good.
    + apply Forall_app. split; [done|]. apply Forall_app. split.
      * clear -Hrr. induction Hrr as [|e recs [r ->] _ IH]; by constructor.
      * destruct Hfr as (f0 & Hfk0 & Hfs & Hx).
        destruct (bool_decide (is_Some (sv_inflight (st_sv s) !! id))); [subst frecs|destruct Hx as (e0 & Hek & ->)];
          by repeat constructor.
  - split; simpl; rewrite ?Hph; try done.
    + intros Hs n y Hy. unfold soft in Hs. apply orb_false_iff in Hs as [_ Hs].
      destruct (Hstat Hs) as [H1 _]. destruct (H1 n y Hy) as [H2 H3]. split.
      * by rewrite bad_app, Obd.
      * intros Hp. rewrite (H3 Hp). unfold unmet, unm. by rewrite good_app, Ogd.
    + intros _ Hs n Hn. unfold soft in Hs. apply orb_false_iff in Hs as [_ Hs].
      destruct (Hstat Hs) as [_ H1]. by rewrite readied_app, good_app, Ord, Ogd, H1.
    + apply Oca; [|done]. by apply (c_causal _ _ _ HC).
    + unfold exiting. simpl. rewrite Hbreak, Hph. intros Hn. destruct stop; [|done]. destruct Hn. by right.
    + unfold exiting. simpl. rewrite Hbreak, Hph. intros [?|Hs]; [done|]. by rewrite Hs.
    + rewrite readied_app, finish_order_app, Ord, Ofo, !app_length. simpl. unfold roi. lia.
    + unfold exiting. simpl. rewrite Hbreak, Hph. intros _ Hn _.
      assert (stop = false) as Hs by (destruct stop; [destruct Hn; by right|done]).
      unfold stop in Hs. apply orb_false_iff in Hs as [Hs _]. apply N.eqb_neq in Hs. lia.
  - eapply (invD_server cfg s _ t os items ready [IDecInflight id (c_affinity c)] post); try done.
    + by rewrite <- (a_flag _ _ _ HA).
    + intros n Hn. by apply Hrlt.
    + intros i it Hi. by apply elem_of_list_singleton in Hi.
    + intros n a Hi. apply elem_of_list_singleton in Hi. injection Hi as -> ->. unfold aff. by rewrite Hc.
    + intros a Hi. by apply elem_of_list_singleton in Hi.
    + intros i Hi. by apply elem_of_list_singleton in Hi.
    + right. split; [|done]. intros k Hi. by apply elem_of_list_singleton in Hi.
    + simpl. intros Ho. apply andb_true_iff in Ho as [Ho1 Ho2].
      assert (stop = false) as Hs by (by destruct stop). 
      assert (soft = false) as Hs2 by (by destruct soft). pose proof Hs2 as Hs3.
      unfold soft in Hs3. apply orb_false_iff in Hs3 as [Hs3 Hs4].
      split; [by rewrite Hopen, Hs4|]. unfold post. rewrite Hs, Hs3.
      split; intros z Hz; destruct f; simpl in Hz; try (by apply elem_of_nil in Hz);
        by apply elem_of_list_singleton in Hz.
Qed.
End finish.
