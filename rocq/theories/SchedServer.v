(** Preservation of the invariant by the server thread. *)
From Verif Require Export SchedClient.

Section server.
Variable cfg : config.
Notation g := (cf_g cfg).

Lemma todo_sub (i : instr) rest s x : st_todo s = i :: rest -> x ∈ rest -> x ∈ st_todo s.
Proof. intros ->. by right. Qed.

Lemma invA_shared s s' t os :
  InvA cfg s t ->
  st_sv s' = st_sv s -> st_taken s' = st_taken s -> st_clients s' = st_clients s ->
  st_events s' = st_events s ->
  (forall x, x ∈ st_todo s' -> x ∈ st_todo s) ->
  (forall i q it, st_queues s' !! i = Some q -> it ∈ q ->
     (exists q0, st_queues s !! i = Some q0 /\ it ∈ q0) \/ IPush i it ∈ st_todo s) ->
  length (st_queues s') = length (st_queues s) -> length (st_closed s') = length (st_closed s) ->
  Forall neutral os -> handed os = [] ->
  InvA cfg s' (t ++ os).
Proof.
  intros [] E1 E2 E3 E4 E5 E6 E7 E8 Hos Hh.
  assert (readied (t ++ os) = readied t) as Er by (by apply readied_neutral).
  assert (finish_order (t ++ os) = finish_order t) as Ef by (by apply finish_neutral).
  assert (handed (t ++ os) = handed t) as Eh by (by rewrite handed_app, Hh, app_nil_r).
  split; unfold item_ok, tk, nhold, nrun, nclaim, nse, nfe, ninf; rewrite ?Er, ?Ef, ?Eh, ?E1, ?E2, ?E3, ?E4; try done.
  - intros i q it Hq Hit. destruct (E6 _ _ _ Hq Hit) as [(q0 & H1 & H2)|H]; [by eapply a_q|].
    by destruct (a_todo _ _ H).
  - intros i it Hi. apply a_todo. auto.
  - by rewrite E7.
  - by rewrite E8.
Qed.

(** Changes of the counters while an instruction is removed. *)
Lemma invD_instr s s' t os i rest :
  InvA cfg s t -> InvD cfg s t -> st_todo s = i :: rest ->
  st_phase s <> PInit ->
  st_sv s' = st_sv s -> st_clients s' = st_clients s -> st_todo s' = rest ->
  Forall neutral os -> handed os = [] ->
  (forall a, is_Some (st_qstate s !! a) -> is_Some (st_qstate s' !! a)) ->
  (forall n a, i = IIncReady n a -> is_Some (st_qstate s' !! a)) ->
  (forall k q it, st_queues s' !! k = Some q -> it ∈ q ->
     (exists q0, st_queues s !! k = Some q0 /\ it ∈ q0) \/ IPush k it = i) ->
  (sv_open (st_sv s) = true -> forall a,
     (num_ready s' a + N.of_nat (count_aff cfg a (pend rest)) =
      num_ready s a + N.of_nat (count_aff cfg a (pend (i :: rest))))%N) ->
  (forall a, (num_inflight s' a + N.of_nat (count_aff cfg a (pdec (i :: rest))) =
      num_inflight s a + N.of_nat (count_aff cfg a (pdec rest)))%N) ->
  (forall k, i = ISetUnready k -> st_unready s' = k) ->
  ((forall k, i <> ISetUnready k) -> (st_unready s' + N.of_nat (psub (i :: rest)) =
     st_unready s + N.of_nat (psub rest))%N) ->
  (sv_open (st_sv s) = true -> st_closed s' = st_closed s) ->
  InvD cfg s' (t ++ os).
Proof.
  intros HA [] Et Hph E1 E2 E3 Hos Hh Hq Hinc Hqs Hrd Hif Hset Hun Hcl.
  assert (readied (t ++ os) = readied t) as Er by (by apply readied_neutral).
  assert (finish_order (t ++ os) = finish_order t) as Ef by (by apply finish_neutral).
  assert (handed (t ++ os) = handed t) as Eh by (by rewrite handed_app, Hh, app_nil_r).
  assert (Hpr : forall n, n ∈ pend rest -> n ∈ pend (st_todo s)).
  { intros n Hn. rewrite Et. change (i :: rest) with ([i] ++ rest). rewrite pend_app, elem_of_app. by right. }
  assert (Hpk : forall it, pend_ok (st_qstate s) (st_todo s) it -> pend_ok (st_qstate s') rest it).
  { intros it [H1 H2]. split; [by apply Hq|]. intros Hn. by apply H2, Hpr. }
  assert (Hns : forall k, ISetUnready k ∉ rest).
  { intros k Hk. apply elem_of_list_split in Hk as (l1 & l2 & ->).
    rewrite Et in d_set. by destruct (d_set (i :: l1) k l2 eq_refl) as [? _]. }
  split; rewrite ?Er, ?Ef, ?Eh, ?E1, ?E2, ?E3; try done.
  - intros k q it Hk Hit. destruct (Hqs _ _ _ Hk Hit) as [(q0 & H1 & H2)|<-].
    + by eapply Hpk, d_q.
    + destruct (d_push [] k it rest) as [H1 [H2|H2]]; [by rewrite Et| |by apply elem_of_nil in H2].
      split; [by apply Hq|done].
  - intros c it Hc. by eapply Hpk, d_pop.
  - intros c it Hc. by eapply Hpk, d_claim.
  - intros l1 k it l2 Hl. destruct (d_push (i :: l1) k it l2) as [H1 H2]; [by rewrite Et, Hl|].
    split; [done|]. destruct H2 as [H2|H2]; [left; by apply Hq|].
    change (i :: l1) with ([i] ++ l1) in H2. rewrite pend_app, elem_of_app in H2.
    destruct H2 as [H2|H2]; [|by right]. left. destruct i as [| | |n a| | | | | | | |]; simpl in H2; try by apply elem_of_nil in H2.
    apply elem_of_list_singleton in H2. subst.
    assert (a = i_affinity it) as <-; [|by eapply Hinc].
    rewrite (d_inc (i_id it) a) by (rewrite Et; by left).
    destruct (a_todo _ _ _ HA k it) as [(_ & _ & c & Hc & Ha & _) _].
    { rewrite Et. right. rewrite Hl, elem_of_app. right. by left. }
    unfold aff. by rewrite Hc.
  - rewrite Et in d_pend_nodup. change (i :: rest) with ([i] ++ rest) in d_pend_nodup.
    rewrite pend_app in d_pend_nodup. by apply NoDup_app in d_pend_nodup as (_ & _ & ?).
  - intros n Hn. by apply d_pend, Hpr.
  - intros n a Hn. apply d_inc. rewrite Et. by right.
  - intros n a Hn. apply d_dec. rewrite Et. by right.
  - intros n. specialize (d_pdec n). rewrite Et in d_pdec. change (i :: rest) with ([i] ++ rest) in d_pdec.
    rewrite pdec_app, occ_app in d_pdec. lia.
  - intros n Hn Hn'. by apply (d_handed n Hn), Hpr.
  - intros Ho a. specialize (d_ready Ho a). rewrite Et in d_ready. specialize (Hrd Ho a). lia.
  - intros a. specialize (d_infl a). rewrite Et in d_infl. specialize (Hif a). lia.
  - intros l1 k l2 Hl. exfalso. apply (Hns k). rewrite Hl, elem_of_app. right. by left.
  - intros _ _. destruct i as [k| | | | | | | | | | |].
    1: { rewrite (Hset k eq_refl), (d_unset k) by (rewrite Et; by left).
         destruct (d_set [] k rest Et) as (_ & -> & _). by rewrite Et. }
    all: specialize (Hun ltac:(done)); rewrite Et in d_unready; specialize (d_unready Hph);
      match type of d_unready with ?P -> _ => assert P as HP by
        (intros k Hk; apply elem_of_cons in Hk as [Hk|Hk]; [done|by apply (Hns k)]) end;
      specialize (d_unready HP); lia.
  - intros k Hk. by destruct (Hns k).
  - intros Ho a Ha. apply (d_zero Ho a). rewrite Et. by right.
  - intros Ho. destruct (d_close Ho) as [H1 H2]. split.
    + intros k Hk. apply (H1 k). rewrite Et. by right.
    + rewrite (Hcl Ho). done.
Qed.

Lemma invC_instr s s' t os i rest :
  InvC cfg s t -> st_todo s = i :: rest -> st_sv s' = st_sv s ->
  st_phase s' = (match i with IBreak => PExited | _ => st_phase s end) ->
  st_phase s <> PInit ->
  st_todo s' = rest -> Forall neutral os -> InvC cfg s' (t ++ os).
Proof.
  intros HC Et E1 E2 Hph E3 Hos.
  assert (i = IBreak \/ i <> IBreak) as [->|Hne] by (destruct i; by (left + right)).
  - assert (exiting s) as Hex by (right; rewrite Et; by left).
    assert (exiting s') as Hex' by (by left). destruct HC.
    split; rewrite ?E1, ?readied_neutral, ?finish_neutral by done; try done.
    + by rewrite E2.
    + intros Hs n x Hx. destruct (c_stat Hs n x Hx) as [H1 H2]. split.
      * by rewrite bad_neutral.
      * intros Hp. rewrite (H2 Hp). unfold unmet. by rewrite good_neutral.
    + intros _. rewrite good_neutral by done. auto.
    + by apply causal_neutral.
    + by rewrite E2.
    + auto.
  - assert (st_phase s' = st_phase s) as E2' by (by destruct i).
    eapply (invC_frame cfg s); try done.
    + rewrite E3, Et, elem_of_cons. split; [auto|]. intros [H|H]; [|done]. by destruct Hne.
    + rewrite Et. done.
Qed.

Lemma num_ready_upd s q a b r i :
  q = <[a := (r, i)]> (st_qstate s) ->
  num_ready (set_qstate s q) b = if N.eqb a b then r else num_ready s b.
Proof.
  intros ->. unfold num_ready. simpl. destruct (N.eqb_spec a b) as [<-|Hne].
  - by rewrite lookup_insert.
  - by rewrite lookup_insert_ne.
Qed.
Lemma num_inflight_upd s q a b r i :
  q = <[a := (r, i)]> (st_qstate s) ->
  num_inflight (set_qstate s q) b = if N.eqb a b then i else num_inflight s b.
Proof.
  intros ->. unfold num_inflight. simpl. destruct (N.eqb_spec a b) as [<-|Hne].
  - by rewrite lookup_insert.
  - by rewrite lookup_insert_ne.
Qed.

Lemma is_Some_insert {A} (m : gmap N A) a b x : is_Some (m !! b) -> is_Some (<[a:=x]> m !! b).
Proof. intros H. destruct (decide (a = b)) as [<-|]; [rewrite lookup_insert|rewrite lookup_insert_ne by done]; eauto. Qed.

Ltac same := intros; rewrite ?app_nil_r; done.

Lemma inv_instr s t i rest :
  config_ok cfg -> Inv cfg s t -> st_todo s = i :: rest -> st_phase s <> PInit ->
  forall s' os, exec_instr (set_todo s rest) i = (s', os) -> Inv cfg s' (t ++ os).
Proof.
  intros Hok [HA HB HC HD] Et Hph s' os He.
  pose proof (invA_readied_bound cfg s t HA) as Hb.
  pose proof (ok_size _ Hok) as Hsz.
  assert (Hcount : forall a, (N.of_nat (count_aff cfg a (readied t)) < U32)%N).
  { intros a. pose proof (count_aff_le cfg a (readied t)). unfold U32. lia. }
  assert (Hsub : forall x, x ∈ rest -> x ∈ st_todo s) by (intros x; by eapply todo_sub).
  destruct i as [k|k|n a|n a|k it| |n f|now|k|a| |].
  - (* ISetUnready *) simpl in He. simplify_eq. split.
    + by eapply (invA_shared s); eauto.
    + by eapply (invB_frame cfg s).
    + by eapply (invC_instr s).
    + eapply (invD_instr s); eauto; try done.
      * intros k' Hk. by simplify_eq.
      * intros Hn. by destruct (Hn k).
  - (* ISubUnready *)
    assert (Hns : forall k', ISetUnready k' ∉ st_todo s).
    { intros k' Hk. apply elem_of_list_split in Hk as (l1 & l2 & Hk).
      destruct (d_set _ _ _ HD _ _ _ Hk) as (-> & _ & _). rewrite Et in Hk. done. }
    pose proof (d_unready _ _ _ HD Hph Hns) as Hun. rewrite Et in Hun.
    change (psub (ISubUnready k :: rest)) with (k + psub rest) in Hun.
    simpl in He. destruct (N.ltb_spec (st_unready s) (N.of_nat k)); [lia|]. simplify_eq. split.
    + by eapply (invA_shared s); eauto.
    + by eapply (invB_frame cfg s).
    + by eapply (invC_instr s).
    + eapply (invD_instr s); eauto; try done. intros _. simpl.
      change (psub (ISubUnready k :: rest)) with (k + psub rest). lia.
  - (* IDecInflight *)
    assert (a = aff cfg n) as Ha by (apply (d_dec _ _ _ HD); rewrite Et; by left).
    pose proof (d_infl _ _ _ HD a) as Hif. rewrite Et in Hif.
    change (pdec (IDecInflight n a :: rest)) with (n :: pdec rest) in Hif.
    rewrite count_aff_cons, <- Ha, N.eqb_refl in Hif.
    pose proof (finish_sub_handed cfg s t a HA) as Hfh.
    simpl in He. unfold dec_inflight in He. unfold num_inflight in Hif.
    destruct (st_qstate s !! a) as [[r f]|] eqn:Hq; [|lia].
    destruct (N.eqb_spec f 0); [lia|]. simplify_eq. split.
    + by eapply (invA_shared s); eauto.
    + by eapply (invB_frame cfg s).
    + by eapply (invC_instr s).
    + eapply (invD_instr s); eauto; try done.
      * intros b Hb'. by apply is_Some_insert.
      * intros _ b. erewrite num_ready_upd by reflexivity. destruct (N.eqb_spec (aff cfg n) b) as [<-|]; [|done].
        unfold num_ready at 1. by rewrite Hq.
      * intros b. erewrite num_inflight_upd by reflexivity.
        change (pdec (IDecInflight n (aff cfg n) :: rest)) with (n :: pdec rest). rewrite count_aff_cons.
        destruct (N.eqb_spec (aff cfg n) b) as [<-|]; [|simpl; unfold num_inflight; simpl; lia].
        unfold num_inflight at 1. rewrite Hq. lia.
  - (* IIncReady *)
    assert (a = aff cfg n) as Ha by (apply (d_inc _ _ _ HD); rewrite Et; by left).
    simpl in He. simplify_eq. split.
    + by eapply (invA_shared s); eauto.
    + by eapply (invB_frame cfg s).
    + by eapply (invC_instr s).
    + set (a := aff cfg n) in *.
      eapply (invD_instr s); eauto; try done.
      * intros b Hb'. simpl. unfold inc_ready. destruct (st_qstate s !! a) as [[r f]|]; by apply is_Some_insert.
      * intros n' b Hn. injection Hn as _ <-. simpl. fold a. unfold inc_ready.
        destruct (st_qstate s !! a) as [[r f]|]; rewrite lookup_insert; eauto.
      * intros Ho b. pose proof (d_ready _ _ _ HD Ho b) as Hr. rewrite Et in Hr.
        change (pend (IIncReady n a :: rest)) with (n :: pend rest) in *. rewrite count_aff_cons in *.
        specialize (Hcount b). unfold num_ready in *. simpl. unfold inc_ready. fold a in Hr.
        fold a. destruct (N.eqb_spec a b) as [<-|Hne].
        -- destruct (st_qstate s !! a) as [[r f]|]; rewrite lookup_insert; [|lia].
           rewrite N.mod_small by lia. lia.
        -- destruct (st_qstate s !! a) as [[r f]|]; rewrite lookup_insert_ne by done; lia.
      * intros b. unfold num_inflight. simpl. unfold inc_ready.
        destruct (decide (a = b)) as [<-|Hne].
        -- destruct (st_qstate s !! a) as [[r f]|]; rewrite lookup_insert; done.
        -- destruct (st_qstate s !! a) as [[r f]|]; rewrite lookup_insert_ne by done; done.
  - (* IPush *)
    destruct (a_todo _ _ _ HA k it) as [Hit Hk]; [rewrite Et; by left|].
    simpl in He. pose proof (a_nq _ _ _ HA) as Hnq.
    destruct (lookup_lt_is_Some_2 (st_queues s) k) as [q Hq]; [lia|]. rewrite Hq in He. simplify_eq.
    assert (forall k' q' it', <[k := q ++ [it]]> (st_queues s) !! k' = Some q' -> it' ∈ q' ->
      (exists q0, st_queues s !! k' = Some q0 /\ it' ∈ q0) \/ IPush k' it' = IPush k it) as Hqs.
    { intros k' q' it' Hq' Hit'. apply insert_lookup_cases in Hq' as [[-> ->]|[_ Hq']]; [|left; by eauto].
      apply elem_of_app in Hit' as [Hit'|Hit']; [left; by eauto|].
      apply elem_of_list_singleton in Hit' as ->. by right. }
    assert (Forall neutral [OPushed k (i_id it)]) as Hos by (by repeat constructor). split.
    + eapply (invA_shared s); eauto; try done; simpl.
      * intros k' q' it' Hq' Hit'. destruct (Hqs _ _ _ Hq' Hit') as [?|Hx]; [by left|].
        right. rewrite Hx, Et. by left.
      * by rewrite insert_length.
    + by eapply (invB_frame cfg s).
    + by eapply (invC_instr s).
    + eapply (invD_instr s); eauto; try done.
  - (* IIncrCounter *) simpl in He. simplify_eq. split.
    + by eapply (invA_shared s); eauto.
    + by eapply (invB_frame cfg s).
    + by eapply (invC_instr s).
    + eapply (invD_instr s); eauto; try done.
  - (* ISetFlag *) simpl in He. simplify_eq.
    assert (Forall neutral [OFlag n f]) as Hos by (by repeat constructor). split.
    + by eapply (invA_shared s); eauto.
    + by eapply (invB_frame cfg s).
    + by eapply (invC_instr s).
    + eapply (invD_instr s); eauto; try done.
  - (* ICancelToken *) simpl in He. simplify_eq.
    assert (Forall neutral [OCancelToken now]) as Hos by (by repeat constructor). split.
    + by eapply (invA_shared s); eauto.
    + by eapply (invB_frame cfg s).
    + by eapply (invC_instr s).
    + eapply (invD_instr s); eauto; try done.
  - (* IClose *) simpl in He. simplify_eq. split.
    + eapply (invA_shared s); eauto; try done. simpl. by rewrite insert_length.
    + by eapply (invB_frame cfg s).
    + by eapply (invC_instr s).
    + eapply (invD_instr s); eauto; try done. intros Ho. exfalso.
      destruct (d_close _ _ _ HD Ho) as [H _]. apply (H k). rewrite Et. by left.
  - (* IZeroReady *)
    assert (sv_open (st_sv s) = true -> False) as Hno.
    { intros Ho. apply (d_zero _ _ _ HD Ho a). rewrite Et. by left. }
    simpl in He. destruct (st_qstate s !! a) as [[r f]|] eqn:Hq; simplify_eq.
    + split.
      * by eapply (invA_shared s); eauto.
      * by eapply (invB_frame cfg s).
      * by eapply (invC_instr s).
      * eapply (invD_instr s); eauto; try done.
        -- intros b Hb'. by apply is_Some_insert.
        -- intros b. erewrite num_inflight_upd by reflexivity.
           destruct (N.eqb_spec a b) as [<-|]; [|done]. unfold num_inflight at 1. by rewrite Hq.
    + split.
      * by eapply (invA_shared s); eauto.
      * by eapply (invB_frame cfg s).
      * by eapply (invC_instr s).
      * eapply (invD_instr s); eauto; try done.
  - (* IUnsetSoft *) simpl in He. simplify_eq. split.
    + by eapply (invA_shared s); eauto.
    + by eapply (invB_frame cfg s).
    + by eapply (invC_instr s).
    + eapply (invD_instr s); eauto; try done.
  - (* IBreak *) simpl in He. simplify_eq. split.
    + by eapply (invA_shared s); eauto.
    + by eapply (invB_frame cfg s).
    + by eapply (invC_instr s).
    + eapply (invD_instr s); eauto; try done.
Qed.
End server.
