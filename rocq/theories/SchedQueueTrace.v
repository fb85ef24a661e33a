(** Trace invariant of the ready queues: a task that is ready and unclaimed can be received. *)
From Verif Require Export SchedClientTrace.

Section qtrace.
Variable cfg : config.
Notation g := (cf_g cfg).

(** Task [n], whose item has flag [f], can be received from queue [i]: its item is in the
    queue, or a client of type [i] has just taken it out. *)
Definition offered (s : st) (i f n : nat) : Prop :=
  exists it, i_flag it = f /\ i_id it = n /\
    ((exists q, st_queues s !! i = Some q /\ it ∈ q) \/
     exists c, st_clients s !! c = Some (CPopped it) /\ cf_types cfg !! c = Some i).

Record TP (s : st) (t : list obs) : Prop := {
  p_flag : forall n f, ISetFlag n f ∈ st_todo s ->
    exists c x e, OSentFinished c n x (Some f) ∈ t /\ OFinished n x e ∈ t;
  p_flagpos : forall l1 n f l2, st_todo s = l1 ++ ISetFlag n f :: l2 -> forall i it, IPush i it ∉ l2;
  p_push : forall n i, n ∈ readied t -> i < NUM_RUNNER_TYPES ->
    N.testbit (aff cfg n) (N.of_nat i) = true ->
    OPushed i n ∈ t \/ exists it, IPush i it ∈ st_todo s /\ i_id it = n;
  p_pushed : forall i n, OPushed i n ∈ t -> n ∈ readied t;
  p_offered : forall f n i, readied t !! f = Some n -> f ∉ st_taken s -> OPushed i n ∈ t -> offered s i f n
}.

Definition nopush (os : list obs) : Prop := readied os = [] /\ forall i n, OPushed i n ∉ os.

Ltac nin :=
  intros;
  match goal with
  | |- ?x ∉ ?l => let H := fresh in intros H; repeat (apply elem_of_cons in H as [H|H]; [discriminate H|]); by apply elem_of_nil in H
  | |- False => match goal with H : _ ∈ _ |- _ =>
        repeat (apply elem_of_cons in H as [H|H]; [discriminate H|]); by apply elem_of_nil in H end
  | H : ?x ∈ [] |- _ => by apply elem_of_nil in H
  end.

Lemma noflag_soft n f : ISetFlag n f ∉ close_all ++ zero_all cfg ++ [IUnsetSoft].
Proof.
  rewrite !elem_of_app. intros [Hx|[Hx|Hx]];
    [by apply elem_of_close in Hx as [? ?]|by apply elem_of_zero in Hx as [? ?]|by apply elem_of_list_singleton in Hx].
Qed.
Lemma noflag_leave n f : ISetFlag n f ∉ close_all ++ IBreak :: zero_all cfg.
Proof.
  rewrite elem_of_app, elem_of_cons. intros [Hx|[?|Hx]];
        [by apply elem_of_close in Hx as [? ?]|done|by apply elem_of_zero in Hx as [? ?]].
Qed.

Lemma tp_frame s s' t os :
  TP s t -> st_queues s' = st_queues s -> (forall f, f ∈ st_taken s -> f ∈ st_taken s') ->
  st_todo s' = st_todo s ->
  (forall c it, st_clients s !! c = Some (CPopped it) -> st_clients s' !! c = Some (CPopped it) \/ i_flag it ∈ st_taken s') ->
  nopush os -> TP s' (t ++ os).
Proof.
  intros [] E1 E2 E3 E4 [N1 N2]. split; rewrite ?E3, ?readied_app, ?N1, ?app_nil_r; try done.
  - intros n f H. destruct (p_flag0 n f H) as (c & x & e & H1 & H2). exists c, x, e. split; apply elem_of_app; by left.
  - intros n i Hn Hi Hb. destruct (p_push0 n i Hn Hi Hb) as [?|?]; [left; apply elem_of_app; by left|by right].
  - intros i n. rewrite elem_of_app. intros [H|H]; [eauto|by apply N2 in H].
  - intros f n i Hf Ht Hp. apply elem_of_app in Hp as [Hp|Hp]; [|by apply N2 in Hp].
    assert (f ∉ st_taken s) as Ht' by eauto.
    destruct (p_offered0 f n i Hf Ht' Hp) as (it & H1 & H2 & [(q & Hq & Hin)|(c & Hc & Hty)]); exists it; split_and!; try done.
    + left. exists q. by rewrite E1.
    + right. exists c. destruct (E4 _ _ Hc) as [?|Hx]; [done|]. by rewrite H1 in Hx.
Qed.

Lemma tp_server s s' t os items pre fl post :
  InvA cfg s t -> TP s t -> st_todo s = [] ->
  st_queues s' = st_queues s -> st_taken s' = st_taken s -> st_clients s' = st_clients s ->
  (forall i n, OPushed i n ∉ os) -> readied os = map i_id items ->
  (forall n, occ n (readied (t ++ os)) <= 1) ->
  item_matches cfg (sv_next_flag (st_sv s)) items ->
  st_todo s' = pre ++ rinstrs items ++ fl ++ post ->
  (forall i it, IPush i it ∉ pre) -> (forall n f, ISetFlag n f ∉ pre) ->
  (forall x, x ∈ fl -> exists n f c z e, x = ISetFlag n f /\ OSentFinished c n z (Some f) ∈ t /\ OFinished n z e ∈ os) ->
  Forall plain post -> (forall n f, ISetFlag n f ∉ post) ->
  TP s' (t ++ os).
Proof.
  intros HA [] Et E1 E2 E3 Hop Hrd Hnd Hm Htodo Hpre1 Hpre2 Hfl Hpost Hpost2.
  assert (Hr : forall n f, ISetFlag n f ∉ rinstrs items).
  { intros n f. rewrite rinstrs_split, elem_of_app. intros [H|H].
    - by apply elem_of_rpre in H as [?|(?&?&?)].
    - apply elem_of_rpost in H as [?|(?&?&?&_)]; done. }
  assert (Hpp : forall i it, IPush i it ∉ fl ++ post).
  { intros i it. rewrite elem_of_app. intros [H|H].
    - apply Hfl in H as (? & ? & ? & ? & ? & ? & _). done.
    - rewrite Forall_forall in Hpost. by apply Hpost in H. }
  split.
  - intros n f. rewrite Htodo, !elem_of_app. intros [H|[H|[H|H]]].
    + by apply Hpre2 in H.
    + by apply Hr in H.
    + apply Hfl in H as (n' & f' & c & z & e & [= -> ->] & H1 & H2). exists c, z, e.
      split; apply elem_of_app; [by left|by right].
    + by apply Hpost2 in H.
  - intros l1 n f l2 H i it Hin. rewrite Htodo, List.app_assoc in H.
    apply split_app_notin in H as (l1' & _ & H).
    + apply (Hpp i it). rewrite H. apply elem_of_app. right. by right.
    + rewrite elem_of_app. intros [Hx|Hx]; [by apply Hpre2 in Hx|by apply Hr in Hx].
  - intros n i Hn Hi Hb. rewrite readied_app, elem_of_app in Hn. destruct Hn as [Hn|Hn].
    + destruct (p_push0 n i Hn Hi Hb) as [H|(it & H & _)]; [left; apply elem_of_app; by left|].
      rewrite Et in H. by apply elem_of_nil in H.
    + right. rewrite Hrd in Hn. apply elem_of_list_fmap in Hn as (it & -> & Hit). exists it. split; [|done].
      rewrite Htodo, !elem_of_app. right. left.
      destruct (proj1 (elem_of_list_lookup _ _) Hit) as [j Hj]. destruct (Hm _ _ Hj) as (_ & c & Hc & Ha & _).
      unfold rinstrs. destruct items as [|it0 items0]; [by apply elem_of_nil in Hit|].
      rewrite elem_of_cons, !elem_of_app, elem_of_pushes. right. right. left.
      exists i, it. split_and!; try done. rewrite Ha. unfold aff in Hb. by rewrite Hc in Hb.
  - intros i n. rewrite elem_of_app. intros [H|H]; [|by apply Hop in H].
    rewrite readied_app, elem_of_app. left. eauto.
  - intros f n i Hf Ht Hp. apply elem_of_app in Hp as [Hp|Hp]; [|by apply Hop in Hp].
    assert (n ∈ readied t) as Hn by eauto.
    apply elem_of_list_lookup in Hn as [f' Hf'].
    assert (f = f') as ->.
    { eapply occ_lookup_inj; [exact Hnd|done|]. rewrite readied_app. by apply lookup_app_l_Some. }
    rewrite E2 in Ht. destruct (p_offered0 f' n i Hf' Ht Hp) as (it & H1 & H2 & H3). exists it. rewrite E1, E3. done.
Qed.

Lemma tp_initial : TP (initial cfg) [].
Proof.
  split.
  - intros n f H. by apply elem_of_nil in H.
  - intros l1 n f l2 H. by destruct (app_cons_not_nil l1 l2 (ISetFlag n f)).
  - intros n i H. by apply elem_of_nil in H.
  - intros i n H. by apply elem_of_nil in H.
  - intros f n i H. done.
Qed.

Lemma tp_instr s t i rest s' os :
  InvA cfg s t -> TP s t -> st_todo s = i :: rest -> exec_instr (set_todo s rest) i = (s', os) ->
  st_phase s' <> PPanicked -> TP s' (t ++ os).
Proof.
  intros HA HT Et H Hnp.
  assert (Hsub : forall x, x ∈ rest -> x ∈ st_todo s) by (intros x Hx; rewrite Et; by right).
  assert (Hpos : forall l1 n f l2, rest = l1 ++ ISetFlag n f :: l2 -> forall j it, IPush j it ∉ l2).
  { intros l1 n f l2 Hr. apply (p_flagpos _ _ HT (i :: l1) n f l2). by rewrite Et, Hr. }
  assert (Hfr : (forall j it, i <> IPush j it) -> TP (set_todo s rest) t).
  { intros Hi. destruct HT. split; cbn [set_todo st_todo st_taken]; try done.
    - intros n f Hx. apply p_flag0. auto.
    - intros n j Hn Hj Hb. destruct (p_push0 n j Hn Hj Hb) as [?|(it & Hx & Hid)]; [by left|].
      right. exists it. split; [|done]. rewrite Et, elem_of_cons in Hx. destruct Hx as [Hx|?]; [|done].
      by destruct (Hi j it). }
  destruct i; cbn [exec_instr] in H; repeat case_match; try unfold panic in H; injection H as <- <-; try done;
    try (apply (tp_frame (set_todo s rest)); [by apply Hfr|done|done|done|by intros; left|split; [done|nin]]).
  - (* push *)
    cbn [set_todo st_queues] in *.
    pose proof (a_todo _ _ _ HA i it) as Hit. rewrite Et in Hit. destruct (Hit ltac:(by left)) as [(Hf & Hb & _) Hi].
    assert (Hro : readied [OPushed i (i_id it)] = []) by done.
    destruct HT. split; cbn [set_queues set_todo st_todo st_taken]; rewrite ?readied_app, ?Hro, ?app_nil_r; try done.
    + intros n f Hx. destruct (p_flag0 n f (Hsub _ Hx)) as (c & x & e & H1 & H2). exists c, x, e.
      split; apply elem_of_app; by left.
    + intros n j Hn Hj Hbj. destruct (p_push0 n j Hn Hj Hbj) as [?|(it' & Hx & Hid)]; [left; apply elem_of_app; by left|].
      rewrite Et, elem_of_cons in Hx. destruct Hx as [[= -> ->]|?]; [|right; by exists it'].
      left. apply elem_of_app. right. rewrite <- Hid. by left.
    + intros j n. rewrite elem_of_app, elem_of_list_singleton. intros [Hx|[= -> ->]]; [eauto|].
      by eapply elem_of_list_lookup_2.
    + intros f n j Hfn Ht Hp. rewrite elem_of_app, elem_of_list_singleton in Hp.
      assert (Hlen : i < length (st_queues s)) by (by eapply lookup_lt_Some).
      destruct Hp as [Hp|[= -> ->]].
      * destruct (p_offered0 f n j Hfn Ht Hp) as (it' & H1 & H2 & [(q & Hq & Hin)|Hc]); exists it'; split_and!; try done.
        -- left. cbn [set_queues st_queues]. destruct (decide (i = j)) as [->|Hne].
           ++ exists (l ++ [it]). split; [by apply list_lookup_insert|]. apply elem_of_app. left. congruence.
           ++ exists q. split; [|done]. by rewrite list_lookup_insert_ne.
        -- by right.
      * exists it. split_and!; try done.
        -- eapply occ_lookup_inj; [apply (a_nodup _ _ _ HA)|done|done].
        -- left. cbn [set_queues st_queues]. exists (l ++ [it]). split; [by apply list_lookup_insert|].
           apply elem_of_app. right. by left.
Qed.

Lemma tp_step s t a s' os :
  Inv cfg s t -> TC cfg s t -> TP s t -> step cfg s a = Some (s', os) -> Inv cfg s' (t ++ os) -> TP s' (t ++ os).
Proof.
  intros HI HK HT H HI'. destruct (c_phase _ _ _ (inv_c _ _ _ HI')) as [Hnp Hnd].
  pose proof (inv_a _ _ _ HI) as HA. pose proof (a_nodup _ _ _ (inv_a _ _ _ HI')) as Hnod.
  assert (Hnil : nopush []) by (split; [done|nin]).
  assert (Hins : forall c y x, st_clients s !! c = Some y -> (forall it, y <> CPopped it) ->
     forall c' it, st_clients s !! c' = Some (CPopped it) -> <[c:=x]> (st_clients s) !! c' = Some (CPopped it)).
  { intros c y x Hc Hy c' it Hc'. destruct (decide (c = c')) as [->|Hne].
    - rewrite Hc in Hc'. injection Hc' as ->. by destruct (Hy it).
    - by rewrite list_lookup_insert_ne. }
  destruct a; cbn [step] in H.
  - destruct (st_phase s) eqn:Hph; try done. destruct (is_reordering _ _); [|done].
    change (st_sv (set_phase s PLoop)) with (st_sv s) in H.
    destruct (add_to_ready_queue _ _ _) as [[[sv is] os']|] eqn:E; injection H as <- <-; [|done].
    destruct (c_init _ _ _ (inv_c _ _ _ HI) Hph) as (_ & Et & _).
    apply atrq_inv in E as (l & items & -> & -> & -> & Hid & Hm).
    apply (tp_server s _ t _ items [ISetUnready (N.of_nat (node_count g))] [] []); try done.
    + intros i n Hx. by apply elem_of_list_fmap in Hx as (? & ? & _).
    + by rewrite readied_map_ready.
    + by rewrite app_nil_r.
    + nin.
    + nin.
    + nin.
    + nin.
  - destruct (st_phase s) eqn:Hph; try done; (destruct (st_todo s) as [|i rest] eqn:Et; [done|]); injection H as H;
      by eapply tp_instr.
  - destruct (server_idle s) eqn:Hi; [|done]. apply server_idle_true in Hi as [Hph Et].
    destruct (st_events s) as [|[id h p j|id x v f] rest] eqn:Ev; [done| |];
    change (st_sv (set_events s rest)) with (st_sv s) in H.
    + destruct (handle_started cfg (st_sv s) id h p j now) as [[[sv is] os']|] eqn:E; cbn [server_result] in H; injection H as <- <-; [|done].
      apply handle_started_obs in E as [-> ->]. eapply (tp_frame s); try done; auto.
      split; [done|nin].
    + destruct (handle_finished cfg (st_sv s) id x v f now) as [[[sv is] os']|] eqn:E; cbn [server_result] in H; injection H as <- <-; [|done].
      apply handle_finished_inv in E as (c & items & ready & over & stop & E). cbn zeta in E.
      destruct E as (Hc & _ & _ & Hid & Hm & _ & _ & _ & _ & _ & _ & _ & _ & _ & His & Hos).
      set (tail := (if over then [OSoft SoftFailures] else []) ++ _) in Hos.
      set (post := (if over then ICancelToken now :: close_all else []) ++ _) in His.
      assert (Htl : Forall neutral tail) by (unfold tail; destruct over, stop; by repeat constructor).
      assert (Htl2 : handed tail = []) by (unfold tail; by destruct over, stop).
      destruct (finished_tail cfg t id x (elapsed_of (st_sv s) id now) ready tail Htl Htl2)
        as (Ord & Ohd & Ofo & Ogd & Obd & _). rewrite <- Hos in *.
      assert (Hpost : Forall plain post /\ forall n f, ISetFlag n f ∉ post).
      { unfold post. split.
        - apply Forall_app. split.
          + destruct over; [|done]. constructor; [done|]. apply plain_close.
          + destruct stop; [|done]. apply Forall_app. split; [apply plain_close|]. constructor; [done|]. apply plain_zero.
        - intros n f'. rewrite elem_of_app. intros [Hx|Hx].
          + destruct over; [|by apply elem_of_nil in Hx]. apply elem_of_cons in Hx as [?|Hx]; [done|].
            by apply elem_of_close in Hx as [? ?].
          + destruct stop; [|by apply elem_of_nil in Hx]. rewrite elem_of_app, elem_of_cons in Hx.
            destruct Hx as [Hx|[?|Hx]]; [by apply elem_of_close in Hx as [? ?]|done|by apply elem_of_zero in Hx as [? ?]]. }
      destruct Hpost as [Hpost1 Hpost2].
      apply (tp_server s _ t os' items [IDecInflight id (c_affinity c)]
               (match f with Some f => [ISetFlag id f] | None => [] end) post); try done.
      * intros i n. rewrite Hos, elem_of_cons, elem_of_app. intros [?|[Hx|Hx]]; [done| |].
        -- by apply elem_of_list_fmap in Hx as (? & ? & _).
        -- unfold tail in Hx. revert Hx; destruct over, stop; nin.
      * by rewrite Ord.
      * nin.
      * nin.
      * intros y Hy. destruct f as [f|]; [|by apply elem_of_nil in Hy]. apply elem_of_list_singleton in Hy as ->.
        destruct (k_fin _ _ _ HK id x v (Some f)) as [c' Hc']; [rewrite Ev; by left|].
        exists id, f, c', x, (elapsed_of (st_sv s) id now). split_and!; try done. rewrite Hos. by left.
  - destruct (server_idle s) eqn:Hi; [|done]. apply server_idle_true in Hi as [Hph Et].
    destruct (st_soft_trigger s); [|done]. cbn [andb] in H.
    assert (H2 : s' = set_todo (set_sv s (with_closed (st_sv s) true)) (close_all ++ zero_all cfg ++ [IUnsetSoft]) /\ os = [OSoft SoftTrigger])
      by (split; congruence). destruct H2 as [-> ->].
    apply (tp_server s _ t _ [] [] [] (close_all ++ zero_all cfg ++ [IUnsetSoft])); try done; try nin.
    + apply plain_soft.
    + apply noflag_soft.
  - destruct (server_idle s) eqn:Hi; [|done]. apply server_idle_true in Hi as [Hph Et].
    destruct (st_hard s); cbn [andb] in H; [|done].
    assert (leave cfg s ExitHard = (s', os)) as Hlv by congruence. unfold leave in Hlv.
    injection Hlv as Hlv1 Hlv2. rewrite <- Hlv1, <- Hlv2 in *. clear Hlv1 Hlv2.
    apply (tp_server s _ t _ [] [] [] (close_all ++ IBreak :: zero_all cfg)); try done; try nin.
    + apply plain_leave.
    + apply noflag_leave.
  - destruct (server_idle s) eqn:Hi; [|done]. apply server_idle_true in Hi as [Hph Et].
    assert (leave cfg s ExitCtrlC = (s', os)) as Hlv by congruence. unfold leave in Hlv.
    injection Hlv as Hlv1 Hlv2. rewrite <- Hlv1, <- Hlv2 in *. clear Hlv1 Hlv2.
    apply (tp_server s _ t _ [] [] [] (close_all ++ IBreak :: zero_all cfg)); try done; try nin.
    + apply plain_leave.
    + apply noflag_leave.
  - destruct (st_phase s); try done. destruct (st_todo s); [|done]. repeat case_match; try done; injection H as <- <-; done.
  - destruct (st_clients s !! c) as [[]|] eqn:Hc; try done. destruct (cf_types cfg !! c) as [i|] eqn:Ht; [|done].
    repeat case_match; injection H as <- <-; eapply (tp_frame s); try done; auto;
      try (intros; left; by eapply Hins); (split; [done|nin]).
  - (* pop *)
    destruct (st_clients s !! c) as [[]|] eqn:Hc; try done. destruct (cf_types cfg !! c) as [i|] eqn:Ht; [|done].
    destruct (st_queues s !! i) as [q|] eqn:Hq; [|done]. destruct (q !! j) as [it|] eqn:Hj; [|done].
    destruct (is_max q it); [|done]. injection H as <- <-. rewrite app_nil_r.
    assert (Hlen : i < length (st_queues s)) by (by eapply lookup_lt_Some).
    assert (Hlc : c < length (st_clients s)) by (by eapply lookup_lt_Some).
    destruct HT. split; try done. intros f n k Hf Htk Hp.
    destruct (p_offered0 f n k Hf Htk Hp) as (it' & H1 & H2 & [(q' & Hq' & Hin)|(c' & Hc' & Hty)]); exists it'; split_and!; try done.
    + cbn [set_client set_queues st_queues st_clients]. destruct (decide (i = k)) as [->|Hne].
      * rewrite Hq in Hq'. injection Hq' as <-. rewrite (delete_Permutation q j it Hj), elem_of_cons in Hin.
        destruct Hin as [->|Hin].
        -- right. exists c. split; [by apply list_lookup_insert|done].
        -- left. exists (delete j q). split; [by apply list_lookup_insert|done].
      * left. exists q'. by rewrite list_lookup_insert_ne.
    + right. exists c'. split; [|done]. by eapply Hins.
  - destruct (st_clients s !! c) as [[]|] eqn:Hc; try done. destruct (cf_types cfg !! c) as [i|] eqn:Ht; [|done].
    repeat case_match; try done; injection H as <- <-; eapply (tp_frame s); try done; auto;
      try (intros; left; by eapply Hins); (split; [done|nin]).
  - destruct (st_clients s !! c) as [[]|] eqn:Hc; try done. case_match; injection H as <- <-.
    + eapply (tp_frame s); try done; auto. intros c' it' Hc'. destruct (decide (c = c')) as [<-|Hne].
      * right. rewrite Hc in Hc'. by injection Hc' as <-.
      * left. cbn [st_clients set_client]. by rewrite list_lookup_insert_ne.
    + eapply (tp_frame s); try done.
      * intros f Hf. cbn [set_client set_taken st_taken]. set_solver.
      * intros c' it' Hc'. destruct (decide (c = c')) as [<-|Hne].
        -- right. rewrite Hc in Hc'. injection Hc' as <-. cbn [set_client set_taken st_taken]. set_solver.
        -- left. cbn [st_clients set_client]. by rewrite list_lookup_insert_ne.
  - destruct (st_clients s !! c) as [[]|] eqn:Hc; try done. destruct (cf_types cfg !! c) as [i|] eqn:Ht; [|done].
    repeat case_match; injection H as <- <-; try done; eapply (tp_frame s); try done; auto;
      try (intros; left; by eapply Hins); (split; [done|nin]).
  - destruct (st_clients s !! c) as [[]|] eqn:Hc; try done;
    injection H as <- <-; eapply (tp_frame s); try done; auto;
      try (intros; left; by eapply Hins); (split; [done|nin]).
  - destruct (st_clients s !! c) as [[]|] eqn:Hc; try done;
    injection H as <- <-; eapply (tp_frame s); try done; auto;
      try (intros; left; by eapply Hins); (split; [done|nin]).
  - destruct (st_clients s !! c) as [[]|] eqn:Hc; try done;
    injection H as <- <-; eapply (tp_frame s); try done; auto;
      intros; left; by eapply Hins.
  - injection H as <- <-. by eapply (tp_frame s); auto.
  - injection H as <- <-. by eapply (tp_frame s); auto.
Qed.

(** ** Everything about reachable states *)
Record Full (s : st) (t : list obs) : Prop := {
  f_reach : reachable cfg s t;
  f_inv : Inv cfg s t; f_ts : TS cfg s t; f_tc : TC cfg s t; f_tp : TP s t
}.

(** After the drain. *)
Definition Done (s : st) (t : list obs) : Prop :=
  exists s0 t0 os now order, Full s0 t0 /\ st_phase s0 = PExited /\ st_todo s0 = [] /\
    forallb ended (st_clients s0) = true /\
    t = t0 ++ os /\ drain cfg (st_sv s0) (st_qstate s0) (st_events s0) order now = Some (st_sv s, st_qstate s, os) /\
    drained_ok cfg s0 t0 (st_sv s) (st_qstate s) os /\ st_phase s = PDrained /\
    st_clients s = st_clients s0 /\ st_unready s = st_unready s0.

Lemma reach_full s t : config_ok cfg -> reachable cfg s t -> Full s t \/ Done s t.
Proof.
  intros Hok. revert s t. apply reachable_ind'.
  - left. split; [by exists []|by apply inv_initial|apply ts_initial|apply tc_initial|apply tp_initial].
  - intros s t a s' os Hr [HF|HD] Hs.
    + assert (Hr' : reachable cfg s' (t ++ os)) by (by eapply reachable_step).
      assert ((exists order now, a = ADrain order now) \/ forall order now, a <> ADrain order now) as [(order & now & ->)|Hnd].
      { destruct a; eauto; right; intros; discriminate. }
      * cbn [step] in Hs. destruct HF as [_ HI HTS HTC HTP].
        destruct (st_phase s) eqn:Hph; try done. destruct (st_todo s) eqn:Et; [|done].
        destruct (forallb ended (st_clients s)) eqn:He; [|done].
        destruct (drain_ok cfg s t now Hok HI Et) as (sv1 & q1 & inf & os1 & Hd & Hall). rewrite Hd in Hs.
        destruct (is_reordering order (map fst (map_to_list inf))) eqn:Hord; [|done].
        destruct (Hall order Hord) as (sv & q & os2 & Hdr & Hok2). rewrite Hdr in Hs. injection Hs as <- <-.
        right. exists s, t, os2, now, order. split_and!; try done.
      * left. destruct HF as [_ HI HTS HTC HTP].
        assert (HI' : Inv cfg s' (t ++ os)) by (by eapply inv_step).
        split; [done|done|by eapply ts_step| |by eapply tp_step].
        eapply tc_step; try done; [apply (inv_a _ _ _ HI)|]. apply (c_phase _ _ _ (inv_c _ _ _ HI')).
    + right. destruct HD as (s0 & t0 & os0 & now0 & order0 & HI & Hp0 & Ht0 & He & -> & Hdr & Hz & Hp & Hc & Hu).
      assert (Hcl : forall c x, st_clients s !! c = Some x -> ended x = true).
      { intros c x Hx. rewrite Hc in Hx. by eapply ended_no_client. }
      destruct a; cbn [step] in Hs; rewrite ?Hp in Hs; try done;
        try (unfold server_idle in Hs; rewrite Hp in Hs; done);
        try (destruct (st_clients s !! c) as [[]|] eqn:Hx; try done; specialize (Hcl _ _ Hx); done).
      * injection Hs as <- <-. exists s0, t0, os0, now0, order0. rewrite app_nil_r. split_and!; try done.
      * injection Hs as <- <-. exists s0, t0, os0, now0, order0. rewrite app_nil_r. split_and!; try done.
Qed.
End qtrace.
