(** Preservation of the invariant by the event handling of the server. *)
From Verif Require Export SchedServer.

(** A non-empty acyclic graph has a node without dependencies. *)
Lemma root_exists {A} (g : digraph A) :
  graph_wf g -> acyclic g -> 0 < node_count g ->
  exists n, n < node_count g /\ in_neighbors g n = [].
Proof.
  intros Hwf Hac Hpos.
  destruct (decide (Exists (fun n => in_neighbors g n = []) (seq 0 (node_count g)))) as [He|Hne].
  { apply Exists_exists in He as (n & Hn & Hi). apply elem_of_seq in Hn. exists n. split; [lia|done]. }
  exfalso.
  assert (forall n, n < node_count g -> in_neighbors g n <> []) as Hpred.
  { intros n Hn Hi. apply Hne, Exists_exists. exists n. split; [|done]. apply elem_of_seq. lia. }
  set (p := fun v => hd 0 (in_neighbors g v)).
  assert (forall v, v < node_count g -> edge g (p v) v) as Hp.
  { intros v Hv. apply elem_of_in_neighbors. unfold p. specialize (Hpred v Hv).
    destruct (in_neighbors g v); [done|]. simpl. by left. }
  set (x := fun i => Nat.iter i p 0).
  assert (forall i, x i < node_count g) as Hx.
  { intros i. induction i as [|i IH]; [done|]. apply (Hwf (p (x i)) (x i)). by apply Hp. }
  assert (forall k i, path g (x (i + k)) (x i) k) as Hpath.
  { induction k as [|k IH]; intros i.
    - rewrite Nat.add_0_r. constructor.
    - replace (i + S k) with (S (i + k)) by lia. apply (path_cons g _ (x (i + k))); [|apply IH].
      by apply Hp. }
  assert (forall i j, i < j -> x i <> x j) as Hinj.
  { intros i j Hij Heq. apply (Hac (x i)). exists (j - i). split; [lia|].
    rewrite Heq at 1. replace j with (i + (j - i)) at 1 by lia. apply Hpath. }
  assert (NoDup (map x (seq 0 (S (node_count g))))) as Hnd.
  { apply NoDup_alt. intros i j v Hi Hj.
    rewrite list_lookup_fmap in Hi, Hj.
    destruct (seq 0 (S (node_count g)) !! i) as [i0|] eqn:Ei; [|done].
    destruct (seq 0 (S (node_count g)) !! j) as [j0|] eqn:Ej; [|done].
    apply lookup_seq in Ei as [-> _]. apply lookup_seq in Ej as [-> _]. simpl in Hi, Hj.
    assert (x i = x j) as Hv by congruence.
    destruct (Nat.lt_trichotomy i j) as [Hl|[->|Hl]]; [|done|]; [by destruct (Hinj _ _ Hl)|].
    by destruct (Hinj _ _ Hl). }
  assert (length (map x (seq 0 (S (node_count g)))) <= node_count g) as Hlen.
  { apply nodup_bound; [|by apply occ_nodup]. intros n Hn. apply elem_of_list_fmap in Hn as (i & -> & _). apply Hx. }
  rewrite map_length, seq_length in Hlen. lia.
Qed.

Section events.
Variable cfg : config.
Notation g := (cf_g cfg).

Lemma task_key_lookup n c : nodes g !! n = Some c -> task_key cfg n = c_key c.
Proof. intros H. unfold task_key. by rewrite H. Qed.

Lemma task_key_inj n m : config_ok cfg -> n < node_count g -> m < node_count g ->
  task_key cfg n = task_key cfg m -> n = m.
Proof.
  intros Hok Hn Hm He. pose proof (ok_keys _ Hok) as Hnd. rewrite NoDup_alt in Hnd.
  destruct (lookup_lt_is_Some_2 _ _ Hn) as [c Hc]. destruct (lookup_lt_is_Some_2 _ _ Hm) as [c' Hc'].
  rewrite (task_key_lookup _ _ Hc), (task_key_lookup _ _ Hc') in He.
  apply (Hnd n m (c_key c)).
  - rewrite list_lookup_fmap, Hc. done.
  - rewrite list_lookup_fmap, Hc'. simpl. by rewrite He.
Qed.

(** ** Instruction lists *)
Lemma pend_close : pend close_all = [].
Proof. by apply omap_map_none. Qed.
Lemma pdec_close : pdec close_all = [].
Proof. by apply omap_map_none. Qed.
Lemma psub_close : psub close_all = 0.
Proof. done. Qed.
Lemma pend_zero : pend (zero_all cfg) = [].
Proof. by apply omap_map_none. Qed.
Lemma pdec_zero : pdec (zero_all cfg) = [].
Proof. by apply omap_map_none. Qed.
Lemma psub_zero : psub (zero_all cfg) = 0.
Proof. unfold psub, zero_all. by induction (nodes g) as [|c l IH]. Qed.
Lemma elem_of_close x : x ∈ close_all -> exists i, x = IClose i.
Proof. intros H. apply elem_of_list_fmap in H as (i & -> & _). eauto. Qed.
Lemma elem_of_zero x : x ∈ zero_all cfg -> exists a, x = IZeroReady a.
Proof. intros H. apply elem_of_list_fmap in H as (i & -> & _). eauto. Qed.

(** Instructions that do not concern tasks. *)
Definition plain (i : instr) : Prop :=
  match i with
  | ISetUnready _ | ISubUnready _ | IDecInflight _ _ | IIncReady _ _ | IPush _ _ => False
  | _ => True
  end.

Lemma plain_pend l : Forall plain l -> pend l = [].
Proof. induction 1 as [|i l Hi _ IH]; [done|]. by destruct i. Qed.
Lemma plain_pdec l : Forall plain l -> pdec l = [].
Proof. induction 1 as [|i l Hi _ IH]; [done|]. by destruct i. Qed.
Lemma plain_psub l : Forall plain l -> psub l = 0.
Proof. induction 1 as [|i l Hi _ IH]; [done|]. unfold psub in *. simpl. by destruct i. Qed.

Lemma plain_close : Forall plain close_all.
Proof. apply Forall_forall. intros x Hx. by apply elem_of_close in Hx as [i ->]. Qed.
Lemma plain_zero : Forall plain (zero_all cfg).
Proof. apply Forall_forall. intros x Hx. by apply elem_of_zero in Hx as [i ->]. Qed.

Lemma pend_pushes items : pend (pushes items) = [].
Proof.
  unfold pend. apply elem_of_nil_inv. intros n Hn. apply elem_of_list_omap in Hn as (x & Hx & Hi).
  apply elem_of_pushes in Hx as (i & it & -> & _). done.
Qed.
Lemma pdec_pushes items : pdec (pushes items) = [].
Proof.
  apply elem_of_nil_inv. intros n Hn. apply elem_of_list_omap in Hn as (x & Hx & Hi).
  apply elem_of_pushes in Hx as (i & it & -> & _). done.
Qed.
Lemma psub_0 l : (forall n, ISubUnready n ∉ l) -> psub l = 0.
Proof.
  unfold psub. induction l as [|i l IH]; intros H; [done|]. simpl. rewrite IH.
  - destruct i; try done. exfalso. apply (H n). by left.
  - intros n Hn. apply (H n). by right.
Qed.
Lemma psub_pushes items : psub (pushes items) = 0.
Proof. apply psub_0. intros n Hn. by apply elem_of_pushes in Hn as (i & it & ? & _). Qed.

Definition incs (items : list item) : list instr :=
  map (fun it => IIncReady (i_id it) (i_affinity it)) items.
Definition rpre (items : list item) : list instr :=
  match items with [] => [] | _ => ISubUnready (length items) :: incs items end.
Definition rpost (items : list item) : list instr :=
  match items with [] => [] | _ => pushes items ++ [IIncrCounter] end.

Lemma rinstrs_split items : rinstrs items = rpre items ++ rpost items.
Proof. by destruct items. Qed.

Lemma pend_incs items : pend (incs items) = map i_id items.
Proof. induction items as [|it l IH]; [done|]. simpl. by f_equal. Qed.
Lemma pdec_incs items : pdec (incs items) = [].
Proof. by apply omap_map_none. Qed.
Lemma psub_incs items : psub (incs items) = 0.
Proof. apply psub_0. intros n Hn. by apply elem_of_list_fmap in Hn as (it & ? & _). Qed.

Lemma pend_rpre items : pend (rpre items) = map i_id items.
Proof. destruct items as [|it items]; [done|]. apply (pend_incs (it :: items)). Qed.
Lemma pdec_rpre items : pdec (rpre items) = [].
Proof. destruct items as [|it items]; [done|]. apply (pdec_incs (it :: items)). Qed.
Lemma psub_rpre items : psub (rpre items) = length items.
Proof.
  destruct items as [|it items]; [done|]. unfold rpre.
  match goal with |- psub (ISubUnready ?k :: ?l) = _ => change (k + psub l = k) end.
  rewrite psub_incs. lia.
Qed.
Lemma pend_rpost items : pend (rpost items) = [].
Proof. destruct items as [|it items]; [done|]. unfold rpost. by rewrite pend_app, pend_pushes. Qed.
Lemma pdec_rpost items : pdec (rpost items) = [].
Proof. destruct items as [|it items]; [done|]. unfold rpost. by rewrite pdec_app, pdec_pushes. Qed.
Lemma psub_rpost items : psub (rpost items) = 0.
Proof. destruct items as [|it items]; [done|]. unfold rpost. by rewrite psub_app, psub_pushes. Qed.
Lemma elem_of_rpre items x : x ∈ rpre items ->
  x = ISubUnready (length items) \/ exists it, it ∈ items /\ x = IIncReady (i_id it) (i_affinity it).
Proof.
  destruct items as [|it items]; [by intros ?%elem_of_nil|]. unfold rpre. rewrite elem_of_cons.
  intros [?|H]; [by left|]. right. apply elem_of_list_fmap in H as (it' & -> & Hit). eauto.
Qed.
Lemma elem_of_rpost items x : x ∈ rpost items -> x = IIncrCounter \/
  exists i it, x = IPush i it /\ i < NUM_RUNNER_TYPES /\ it ∈ items /\
    N.testbit (i_affinity it) (N.of_nat i) = true.
Proof.
  destruct items as [|it items]; [by intros ?%elem_of_nil|]. unfold rpost.
  rewrite elem_of_app, elem_of_list_singleton, elem_of_pushes. tauto.
Qed.

(** ** The counters after new tasks became ready *)
Lemma split_app_notin {A} (P Q l1 l2 : list A) x :
  P ++ Q = l1 ++ x :: l2 -> x ∉ P -> exists l1', l1 = P ++ l1' /\ Q = l1' ++ x :: l2.
Proof.
  intros H Hx. apply app_eq_app in H as (k & [[-> Hk]|[-> ->]]).
  - destruct k as [|y k].
    + exists []. rewrite !app_nil_r. done.
    + simpl in Hk. simplify_eq. exfalso. apply Hx. rewrite elem_of_app. right. by left.
  - eauto.
Qed.

Lemma invD_server s s' t os items ready pre post :
  InvA cfg s t -> InvD cfg s t -> st_todo s = [] ->
  st_todo s' = pre ++ rinstrs items ++ post ->
  st_queues s' = st_queues s -> st_qstate s' = st_qstate s -> st_clients s' = st_clients s ->
  st_closed s' = st_closed s -> st_unready s' = st_unready s -> st_phase s' <> PInit ->
  map i_id items = ready -> readied os = ready -> handed os = [] -> finish_order os = pdec pre ->
  item_matches cfg (length (readied t)) items ->
  (forall n, occ n ready <= 1) -> (forall n, n ∈ ready -> n ∉ readied t) ->
  pend pre = [] -> psub pre = 0 -> (forall i it, IPush i it ∉ pre) ->
  (forall n a, IDecInflight n a ∈ pre -> a = aff cfg n) ->
  (forall a, IZeroReady a ∉ pre) -> (forall i, IClose i ∉ pre) ->
  Forall plain post ->
  ((pre = [ISetUnready (N.of_nat (node_count g))] /\ readied t = []) \/
   ((forall k, ISetUnready k ∉ pre) /\ st_phase s <> PInit)) ->
  (sv_open (st_sv s') = true -> sv_open (st_sv s) = true /\
     (forall a, IZeroReady a ∉ post) /\ (forall i, IClose i ∉ post)) ->
  InvD cfg s' (t ++ os).
Proof.
  intros HA HD Et Et' E1 E2 E3 E4 E5 Hph Hid Hrd Hhd Hfo Him Hnd Hnew Hp1 Hp2 Hp3 Hp4 Hp5 Hp6 Hpost Hset Hopen.
  assert (handed (t ++ os) = handed t) as Eh by (by rewrite handed_app, Hhd, app_nil_r).
  assert (readied (t ++ os) = readied t ++ ready) as Er by (by rewrite readied_app, Hrd).
  assert (finish_order (t ++ os) = finish_order t ++ pdec pre) as Ef by (by rewrite finish_order_app, Hfo).
  assert (pend (st_todo s') = ready) as Epend.
  { rewrite Et', !pend_app, Hp1, rinstrs_split, pend_app, pend_rpre, pend_rpost, (plain_pend post) by done.
    by rewrite !app_nil_r. }
  assert (pdec (st_todo s') = pdec pre) as Epdec.
  { rewrite Et', !pdec_app, rinstrs_split, pdec_app, pdec_rpre, pdec_rpost, (plain_pdec post) by done.
    by rewrite !app_nil_r. }
  assert (psub (st_todo s') = length ready) as Epsub.
  { rewrite Et', !psub_app, Hp2, rinstrs_split, psub_app, psub_rpre, psub_rpost, (plain_psub post) by done.
    rewrite <- Hid, map_length. lia. }
  assert (Haff : forall it, it ∈ items -> i_affinity it = aff cfg (i_id it)).
  { intros it Hit. apply elem_of_list_lookup in Hit as [j Hj]. destruct (Him _ _ Hj) as (_ & c & Hc & Ha & _).
    unfold aff. by rewrite Hc. }
  assert (Hpo : forall it i, item_ok cfg t i it -> pend_ok (st_qstate s) (st_todo s) it ->
                        pend_ok (st_qstate s) (st_todo s') it).
  { intros it i (Hl & _) [H1 _]. split; [done|]. rewrite Epend. intros Hn.
    apply (Hnew _ Hn). by eapply elem_of_list_lookup_2. }
  assert (Hinc : forall n a, IIncReady n a ∈ st_todo s' -> a = aff cfg n).
  { intros n a Hn. rewrite Et', rinstrs_split, !elem_of_app in Hn. destruct Hn as [Hn|[[Hn|Hn]|Hn]].
    - exfalso. assert (n ∈ pend pre) as H; [|rewrite Hp1 in H; by apply elem_of_nil in H].
      apply elem_of_list_omap. by exists (IIncReady n a).
    - apply elem_of_rpre in Hn as [?|(it & Hit & ?)]; [done|]. simplify_eq. by apply Haff.
    - by apply elem_of_rpost in Hn as [?|(?&?&?&_)].
    - rewrite Forall_forall in Hpost. by apply Hpost in Hn. }
  assert (Hset2 : forall k, ISetUnready k ∉ rinstrs items ++ post).
  { intros k. rewrite rinstrs_split, !elem_of_app. intros [[Hn|Hn]|Hn].
    - by apply elem_of_rpre in Hn as [?|(it & Hit & ?)].
    - by apply elem_of_rpost in Hn as [?|(?&?&?&_)].
    - rewrite Forall_forall in Hpost. by apply Hpost in Hn. }
  pose proof HD as HD0. destruct HD. split; rewrite ?Eh, ?Er, ?Ef, ?Epend, ?Epdec, ?E1, ?E2, ?E3; try done.
  - intros i q it Hq Hit. eapply Hpo; [by eapply (a_q _ _ _ HA)|by eapply d_q].
  - intros c it Hc. destruct (a_pop _ _ _ HA _ _ Hc) as (i & _ & Hi). by eapply Hpo, d_pop.
  - intros c it Hc. destruct (a_claim _ _ _ HA _ _ Hc) as (i & _ & Hi). by eapply Hpo, d_claim.
  - intros l1 i it l2 Hl. rewrite Et', rinstrs_split in Hl.
    assert (it ∈ items) as Hit.
    { assert (IPush i it ∈ pre ++ (rpre items ++ rpost items) ++ post) as Hin.
      { rewrite Hl, elem_of_app. right. by left. }
      rewrite !elem_of_app in Hin. destruct Hin as [Hin|[[Hin|Hin]|Hin]].
      - by apply Hp3 in Hin.
      - by apply elem_of_rpre in Hin as [?|(? & ? & ?)].
      - apply elem_of_rpost in Hin as [?|(?&?&?&_&?&_)]; [done|]. by simplify_eq.
      - rewrite Forall_forall in Hpost. by apply Hpost in Hin. }
    assert (i_id it ∈ ready) as Hir by (rewrite <- Hid; apply elem_of_list_fmap; by eexists).
    rewrite List.app_assoc, List.app_assoc, <- (List.app_assoc (pre ++ rpre items)) in Hl.
    apply split_app_notin in Hl as (l1' & -> & Hl).
    + assert (pend (rpost items ++ post) = []) as Hz by (by rewrite pend_app, pend_rpost, plain_pend).
      rewrite Hl in Hz. rewrite pend_app in Hz. apply app_nil in Hz as [_ Hz].
      change (pend (IPush i it :: l2)) with (pend l2) in Hz. rewrite Hz. split; [apply not_elem_of_nil|].
      right. rewrite !pend_app, pend_rpre, Hid, !elem_of_app. auto.
    + rewrite not_elem_of_app. split; [by apply Hp3|]. intros Hin.
      by apply elem_of_rpre in Hin as [?|(? & ? & ?)].
  - by apply occ_nodup.
  - intros n Hn. rewrite elem_of_app. by right.
  - intros n a Hn. rewrite Et', rinstrs_split, !elem_of_app in Hn. destruct Hn as [Hn|[[Hn|Hn]|Hn]].
    + by apply Hp4.
    + by apply elem_of_rpre in Hn as [?|(? & ? & ?)].
    + by apply elem_of_rpost in Hn as [?|(?&?&?&_)].
    + rewrite Forall_forall in Hpost. by apply Hpost in Hn.
  - intros n. rewrite occ_app. lia.
  - intros n Hn Hn'. apply (Hnew n Hn'). apply occ_pos. apply occ_pos in Hn.
    pose proof (inv_handed_sub cfg s t HA n). lia.
  - intros Ho a. destruct (Hopen Ho) as [Ho' _]. specialize (d_ready Ho' a). rewrite Et in d_ready.
    unfold num_ready in *. rewrite E2, count_aff_app. change (count_aff cfg a (pend [])) with 0 in d_ready. lia.
  - intros a. specialize (d_infl a). rewrite Et in d_infl.
    unfold num_inflight in *. rewrite E2, count_aff_app. change (count_aff cfg a (pdec [])) with 0 in d_infl. lia.
  - intros l1 k l2 Hl. rewrite Et' in Hl. destruct Hset as [[-> _]|[Hns _]].
    + destruct l1 as [|x l1]; simpl in Hl; [injection Hl as <- <-; done|].
      injection Hl as <- Hl. exfalso. apply (Hset2 k). rewrite Hl, elem_of_app. right. by left.
    + exfalso. assert (ISetUnready k ∈ pre ++ rinstrs items ++ post) as Hin.
      { rewrite Hl, elem_of_app. right. by left. }
      rewrite elem_of_app in Hin. destruct Hin as [Hin|Hin]; [by apply Hns in Hin|by apply Hset2 in Hin].
  - intros _ Hns'. rewrite app_length, Epsub, E5. destruct Hset as [[-> _]|[Hns Hph0]].
    + exfalso. apply (Hns' (N.of_nat (node_count g))). rewrite Et'. by left.
    + specialize (d_unready Hph0). rewrite Et in d_unready. specialize (d_unready ltac:(intros k; apply not_elem_of_nil)).
      change (psub []) with 0 in d_unready. lia.
  - intros k Hk. rewrite app_length, Epsub. destruct Hset as [[-> ->]|[Hns _]]; [done|].
    rewrite Et', elem_of_app in Hk. exfalso. destruct Hk as [Hin|Hin]; [by apply Hns in Hin|by apply Hset2 in Hin].
  - intros Ho a. destruct (Hopen Ho) as (_ & Hz & _). rewrite Et', rinstrs_split, !elem_of_app.
    intros [Hn|[[Hn|Hn]|Hn]].
    + by apply Hp5 in Hn.
    + by apply elem_of_rpre in Hn as [?|(? & ? & ?)].
    + by apply elem_of_rpost in Hn as [?|(?&?&?&_)].
    + by apply Hz in Hn.
  - intros Ho. destruct (Hopen Ho) as (Ho' & _ & Hz). rewrite E4. split; [|by apply d_close].
    intros i. rewrite Et', rinstrs_split, !elem_of_app.
    intros [Hn|[[Hn|Hn]|Hn]].
    + by apply Hp6 in Hn.
    + by apply elem_of_rpre in Hn as [?|(? & ? & ?)].
    + by apply elem_of_rpost in Hn as [?|(?&?&?&_)].
    + by apply Hz in Hn.
Qed.

Lemma item_ok_new t os items ready it i :
  map i_id items = ready -> readied os = ready ->
  item_matches cfg (length (readied t)) items -> it ∈ items ->
  N.testbit (i_affinity it) (N.of_nat i) = true -> item_ok cfg (t ++ os) i it.
Proof.
  intros Hid Hrd Him Hit Hb. apply elem_of_list_lookup in Hit as [j Hj].
  destruct (Him _ _ Hj) as (Hf & Hc). split_and!; try done.
  rewrite readied_app, Hf, lookup_app_r by lia. replace (length (readied t) + j - length (readied t)) with j by lia.
  rewrite Hrd, <- Hid, list_lookup_fmap, Hj. done.
Qed.

Lemma invA_todo_server t os items pre post todo :
  map i_id items = readied os -> item_matches cfg (length (readied t)) items ->
  (forall i it, IPush i it ∉ pre) -> Forall plain post -> todo = pre ++ rinstrs items ++ post ->
  forall i it, IPush i it ∈ todo -> item_ok cfg (t ++ os) i it /\ i < NUM_RUNNER_TYPES.
Proof.
  intros Hid Him Hp Hpost -> i it Hin. rewrite rinstrs_split, !elem_of_app in Hin.
  destruct Hin as [Hin|[[Hin|Hin]|Hin]].
  - by apply Hp in Hin.
  - by apply elem_of_rpre in Hin as [?|(? & ? & ?)].
  - apply elem_of_rpost in Hin as [?|(?&?&?&?&?&?)]; [done|]. simplify_eq. split; [|done].
    by eapply item_ok_new.
  - rewrite Forall_forall in Hpost. by apply Hpost in Hin.
Qed.

(** ** Start reports *)
Lemma good_in_log new inf t m : log_new cfg new inf t -> m ∈ good t ->
  exists f, In (Finished f) new /\ f_key f = task_key cfg m /\ f_status f = 0%Z.
Proof.
  intros Hl Hm. apply elem_of_list_omap in Hm as (o & Ho & Hg).
  destruct o as [| | | | | | |n s e| | | | | | |]; try done. simpl in Hg.
  destruct (is_success s) eqn:Hs; [|done]. simplify_eq. apply is_success_iff in Hs as ->.
  assert ((task_key cfg m, 0%Z) ∈ omap (fin_obs cfg) t) as Hin.
  { apply elem_of_list_omap. by exists (OFinished m (Code 0) e). }
  rewrite <- (b_fin _ _ _ _ Hl) in Hin. apply elem_of_list_omap in Hin as (r & Hr & Hf).
  destruct r as [h|r|st0|f|b]; try done. simpl in Hf. simplify_eq.
  exists f. by rewrite <- elem_of_list_In.
Qed.

Lemma ready_deps_good s t n m : InvC cfg s t -> n ∈ readied t -> edge g m n -> m ∈ good t.
Proof.
  intros HC Hn He. apply elem_of_readied in Hn. apply in_split in Hn as (t1 & t2 & ->).
  pose proof (c_causal _ _ _ HC t1 n t2 eq_refl m He) as Hg. rewrite good_app, elem_of_app. by left.
Qed.

Lemma invC_frame' s s' t os :
  InvC cfg s t ->
  sv_statuses (st_sv s') = sv_statuses (st_sv s) -> sv_soft (st_sv s') = sv_soft (st_sv s) ->
  sv_open (st_sv s') = sv_open (st_sv s) -> sv_n_roi (st_sv s') = sv_n_roi (st_sv s) ->
  st_phase s' = st_phase s -> st_todo s' = st_todo s -> Forall neutral os ->
  InvC cfg s' (t ++ os).
Proof.
  intros [] E1 E1' E1'' E1''' E2 E3 Hos.
  assert (exiting s' <-> exiting s) as Hex by (unfold exiting; rewrite E2, E3; done).
  split; rewrite ?E1, ?E1', ?E1'', ?E1''', ?E2, ?E3, ?Hex, ?readied_neutral, ?finish_neutral by done; try done.
  - intros Hs n x Hx. destruct (c_stat Hs n x Hx) as [H1 H2]. split.
    + by rewrite bad_neutral.
    + intros Hp. rewrite (H2 Hp). unfold unmet. by rewrite good_neutral.
  - rewrite good_neutral by done. done.
  - by apply causal_neutral.
Qed.

Lemma history_last l s t new inf n : 
  lf_entries l = lf_entries (cf_log cfg) ++ new -> log_new cfg new inf t -> n < node_count g ->
  stage inf t n <> [] ->
  sv_log (st_sv s) = l ->
  last (history (task_key cfg n) (lf_entries (sv_log (st_sv s)))) = last (stage inf t n).
Proof.
  intros Hl Hn Hlt Hne ->. rewrite Hl, history_app, (b_stage _ _ _ _ Hn n Hlt).
  destruct (stage inf t n) as [|k l0 _] using rev_ind; [done|].
  by rewrite List.app_assoc, !last_snoc.
Qed.

Lemma ninf_none s n : ninf s n = 0 -> sv_inflight (st_sv s) !! n = None.
Proof.
  unfold ninf. destruct (decide _) as [|Hn]; [done|]. intros _. by apply eq_None_not_Some.
Qed.

Lemma started_facts s t id host pid slurm rest :
  InvA cfg s t -> st_events s = EvStarted id host pid slurm :: rest ->
  nse s id = 1 /\ sv_inflight (st_sv s) !! id = None /\ id ∈ readied t /\ id ∉ finish_order t /\
  id < node_count g.
Proof.
  intros HA Ev.
  assert (1 <= nse s id) as H1.
  { unfold nse. rewrite Ev, occ_omap_cons. unfold one. simpl. rewrite Nat.eqb_refl. lia. }
  pose proof (a_se _ _ _ HA id) as H2. pose proof (own_bound _ _ _ id HA) as H3.
  assert (tk s t id = 1) as H4.
  { rewrite <- (a_own _ _ _ HA). lia. }
  assert (id ∈ readied t) as Hr.
  { apply occ_pos. pose proof (tkb_occ (st_taken s) (readied t) id). unfold tk in H4. lia. }
  split; [lia|]. split; [apply ninf_none; lia|]. split; [done|]. split; [apply occ_zero; lia|].
  by apply (a_lt _ _ _ HA).
Qed.

Lemma inv_started s t id host pid slurm rest now :
  config_ok cfg -> Inv cfg s t -> st_todo s = [] -> st_events s = EvStarted id host pid slurm :: rest ->
  forall s' os, server_result (set_events s rest) (handle_started cfg (st_sv s) id host pid slurm now) = (s', os) ->
  Inv cfg s' (t ++ os).
Proof.
  intros Hok [HA HB HC HD] Et Ev s' os Heq.
  destruct (started_facts _ _ _ _ _ _ _ HA Ev) as (Hse & Hinf & Hr & Hf & Hlt).
  destruct (lookup_lt_is_Some_2 (nodes g) id Hlt) as [c Hc].
  destruct HB as (Hg & new & Hnew & Hln).
  assert (stage (sv_inflight (st_sv s)) t id = [KReady]) as Hst.
  { unfold stage. rewrite decide_True, decide_False, decide_False; try done. rewrite Hinf. by intros []. }
  destruct (handle_started_ok cfg (st_sv s) id host pid slurm now c Hc Hg) as (l & e & Hh & Hgl & Hek & Hle).
  { rewrite <- (task_key_lookup id c Hc). erewrite history_last; try done; rewrite Hst; done. }
  { done. }
  rewrite Hh in Heq. cbn [server_result] in Heq. injection Heq as <- <-.
  assert (Forall neutral [OStarted id]) as Hos by (by repeat constructor).
  split.
  - destruct HA. split; unfold tk, item_ok; rewrite ?readied_neutral, ?finish_neutral by done;
      try (rewrite handed_app; simpl; rewrite app_nil_r); simpl; try done.
    + intros n. specialize (a_own n). unfold tk, nhold, nrun, nfe in *. simpl.
      rewrite Ev in a_own. exact a_own.
    + intros n. specialize (a_se n). unfold nrun, nse, nfe, ninf in *. simpl.
      rewrite Ev, !occ_omap_cons in a_se. simpl in a_se. unfold one in a_se.
      destruct (Nat.eqb_spec n id) as [Heq|Hne].
      * rewrite Heq in *. rewrite lookup_insert. rewrite Hinf in a_se. rewrite decide_True by eauto.
        rewrite decide_False in a_se by (by intros []). lia.
      * rewrite lookup_insert_ne by done. lia.
    + intros e1 n x v f e2 He. apply (a_ord (EvStarted id host pid slurm :: e1) n x v f e2).
      by rewrite Ev, He.
    + intros i it Hi. by apply elem_of_nil in Hi.
  - split; [done|]. exists (new ++ [Started e]). simpl. split; [by rewrite Hle, Hnew, List.app_assoc|].
    pose proof Hln as Hln0. destruct Hln. split.
    + intros n Hn. unfold stage. rewrite readied_neutral, finish_neutral by done.
      destruct (decide (n = id)) as [->|Hne].
      * rewrite (history_snoc _ _ _ KStarted).
        -- rewrite b_stage, Hst by done. rewrite decide_True, decide_False, decide_True; try done.
           by rewrite lookup_insert.
        -- apply record_of_started. rewrite Hek. symmetry. by apply task_key_lookup.
      * rewrite history_snoc_other.
        2:{ simpl. rewrite eqb_neq_record; [done|]. rewrite Hek, <- (task_key_lookup id c Hc).
            intros Hk. apply Hne. by apply task_key_inj. }
        rewrite b_stage by done. unfold stage. by rewrite lookup_insert_ne by done.
    + intros k Hk. rewrite history_snoc_other; [by apply b_other|]. simpl. rewrite eqb_neq_record; [done|].
      rewrite Hek, <- (task_key_lookup id c Hc). by apply Hk.
    + by rewrite !omap_app', b_fin.
    + rewrite omap_app', readied_neutral by done. simpl. by rewrite app_nil_r.
    + intros l1 e' l2 Hsp. apply snoc_split in Hsp as [(-> & He & <-)|(l2' & -> & ->)].
      * injection He as ->. exists id. split; [done|]. split; [rewrite Hek; by apply task_key_lookup|].
        intros m Hm. eapply good_in_log; [done|]. by eapply ready_deps_good.
      * by eapply b_causal.
    + apply Forall_app. split; [done|]. by repeat constructor.
  - eapply invC_frame'; try done.
  - destruct HD. rewrite Et in *. split; rewrite ?readied_neutral, ?finish_neutral by done;
      try (rewrite handed_app; simpl; rewrite app_nil_r); simpl; try done.
Qed.
End events.
