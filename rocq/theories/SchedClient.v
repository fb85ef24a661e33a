(** Preservation of the invariant by the client threads and the environment. *)
From Verif Require Export SchedInv.

Lemma tkb_true T l n : tkb T l n = true <-> exists f, f ∈ T /\ l !! f = Some n.
Proof.
  unfold tkb. rewrite existsb_exists. split.
  - intros (f & Hf & Hb). apply bool_decide_eq_true in Hb. exists f.
    rewrite <- elem_of_list_In in Hf. by rewrite elem_of_elements in Hf.
  - intros (f & Hf & Hb). exists f. rewrite <- elem_of_list_In, elem_of_elements. split; [done|].
    by apply bool_decide_eq_true.
Qed.

Lemma bool_eq_iff (a b : bool) : (a = true <-> b = true) -> a = b.
Proof. destruct a, b; naive_solver. Qed.

Lemma tkb_app T l L n : (forall f, f ∈ T -> f < length l) -> tkb T (l ++ L) n = tkb T l n.
Proof.
  intros H. apply bool_eq_iff. rewrite !tkb_true. split; intros (f & Hf & Hl); exists f; (split; [done|]).
  - rewrite lookup_app_l in Hl by auto. done.
  - rewrite lookup_app_l by auto. done.
Qed.

Lemma tkb_occ T l n : Nat.b2n (tkb T l n) <= occ n l.
Proof.
  destruct (tkb T l n) eqn:H; simpl; [|lia]. apply tkb_true in H as (f & _ & Hf).
  apply elem_of_list_lookup_2 in Hf. apply occ_pos in Hf. lia.
Qed.

Lemma occ_lookup_inj l n f f' : (forall n, occ n l <= 1) -> l !! f = Some n -> l !! f' = Some n -> f = f'.
Proof. intros H. rewrite <- occ_nodup in H. intros. by eapply NoDup_lookup. Qed.

Lemma tkb_claim_same T l m f : (forall n, occ n l <= 1) -> l !! f = Some m -> f ∉ T -> tkb T l m = false.
Proof.
  intros Hnd Hf HT. apply not_true_iff_false. rewrite tkb_true. intros (f' & Hf' & Hl).
  assert (f' = f) as -> by (by eapply occ_lookup_inj). done.
Qed.

Lemma tkb_claim T l n m f :
  l !! f = Some m -> tkb ({[f]} ∪ T) l n = Nat.eqb n m || tkb T l n.
Proof.
  intros Hf. apply bool_eq_iff. rewrite orb_true_iff, !tkb_true, Nat.eqb_eq. split.
  - intros (f' & Hf' & Hl). apply elem_of_union in Hf' as [Hf'|Hf'].
    + apply elem_of_singleton in Hf' as ->. left. congruence.
    + right. eauto.
  - intros [->|(f' & Hf' & Hl)]; [exists f|exists f']; set_solver.
Qed.

Lemma insert_lookup_cases {A} (l : list A) c x c' z :
  <[c:=x]> l !! c' = Some z -> (c' = c /\ z = x) \/ (c' <> c /\ l !! c' = Some z).
Proof.
  intros H. destruct (decide (c' = c)) as [->|Hne].
  - left. split; [done|]. apply list_lookup_insert_Some in H as [(_ & <- & _)|(Hne & _)]; done.
  - right. split; [done|]. by rewrite list_lookup_insert_ne in H by done.
Qed.

Section client.
Variable cfg : config.
Notation g := (cf_g cfg).

Lemma item_ok_mono t os i it : item_ok cfg t i it -> item_ok cfg (t ++ os) i it.
Proof.
  intros (H1 & H2 & H3). split_and!; try done. rewrite readied_app. by apply lookup_app_l_Some.
Qed.

Ltac cl Hc n x :=
  let H1 := fresh in let H2 := fresh in let H3 := fresh in
  pose proof (occ_omap_insert hold_of _ _ x _ n Hc) as H1;
  pose proof (occ_omap_insert run_of _ _ x _ n Hc) as H2;
  pose proof (occ_omap_insert claim_of _ _ x _ n Hc) as H3;
  cbn [hold_of run_of claim_of] in H1, H2, H3;
  change (one n None) with 0 in H1, H2, H3.

(** A client changes between states in which it has no task. *)
Definition free (x : cstate) : Prop :=
  match x with CIdle | CWait | CGone => True | _ => False end.

Ltac unf := unfold nhold, nrun, nclaim, nse, nfe, ninf, tk in *; simpl in *.

Lemma invA_free s t c y x os :
  InvA cfg s t -> st_clients s !! c = Some y -> free y -> free x ->
  Forall neutral os -> handed os = [] -> InvA cfg (set_client s c x) (t ++ os).
Proof.
  intros [] Hc Hy Hx Hos Hh.
  assert (readied (t ++ os) = readied t) as Er by (by apply readied_neutral).
  assert (finish_order (t ++ os) = finish_order t) as Ef by (by apply finish_neutral).
  assert (handed (t ++ os) = handed t) as Eh by (by rewrite handed_app, Hh, app_nil_r).
  split; unfold item_ok, tk; rewrite ?Er, ?Ef, ?Eh; simpl; try done.
  - intros n. specialize (a_own n). cl Hc n x. unf. destruct x, y; try done; simpl in *; lia.
  - intros n. specialize (a_hd n). cl Hc n x. unf. destruct x, y; try done; simpl in *; lia.
  - intros n. specialize (a_se n). cl Hc n x. unf. destruct x, y; try done; simpl in *; lia.
  - intros c' it Hc'. apply insert_lookup_cases in Hc' as [[-> <-]|[_ Hc']]; [done|]. by apply a_pop.
  - intros c' it Hc'. apply insert_lookup_cases in Hc' as [[-> <-]|[_ Hc']]; [done|]. by apply a_claim.
  - by rewrite insert_length.
Qed.

Lemma invD_free s t c x os :
  InvD cfg s t -> free x ->
  Forall neutral os -> handed os = [] -> InvD cfg (set_client s c x) (t ++ os).
Proof.
  intros [] Hx Hos Hh.
  assert (readied (t ++ os) = readied t) as Er by (by apply readied_neutral).
  assert (finish_order (t ++ os) = finish_order t) as Ef by (by apply finish_neutral).
  assert (handed (t ++ os) = handed t) as Eh by (by rewrite handed_app, Hh, app_nil_r).
  split; rewrite ?Er, ?Ef, ?Eh; simpl; try done.
  - intros c' it Hc'. apply insert_lookup_cases in Hc' as [[-> <-]|[_ Hc']]; [done|]. by eapply d_pop.
  - intros c' it Hc'. apply insert_lookup_cases in Hc' as [[-> <-]|[_ Hc']]; [done|]. by eapply d_claim.
Qed.

Lemma inv_free s t c y x os :
  Inv cfg s t -> st_clients s !! c = Some y -> free y -> free x ->
  Forall neutral os -> handed os = [] -> Inv cfg (set_client s c x) (t ++ os).
Proof.
  intros [] Hc Hy Hx Hos Hh. split.
  - by eapply invA_free.
  - by eapply invB_frame.
  - by eapply invC_frame.
  - by eapply invD_free.
Qed.

Lemma inv_env s t s' :
  Inv cfg s t -> (exists b, s' = set_soft_trigger s b) \/ (exists b, s' = set_hard s b) ->
  Inv cfg s' (t ++ []).
Proof.
  intros [HA HB HC HD] Hs. rewrite app_nil_r.
  destruct Hs as [[b ->]|[b ->]]; (split; [destruct HA; by split|exact HB|destruct HC; by split|destruct HD; by split]).
Qed.

Lemma inv_pop s t c i q j it :
  Inv cfg s t -> st_clients s !! c = Some CWait -> cf_types cfg !! c = Some i ->
  st_queues s !! i = Some q -> q !! j = Some it ->
  Inv cfg (set_client (set_queues s (<[i := delete j q]> (st_queues s))) c (CPopped it)) (t ++ []).
Proof.
  intros [HA HB HC HD] Hc Hi Hq Hj.
  assert (forall i' q' it', <[i := delete j q]> (st_queues s) !! i' = Some q' -> it' ∈ q' ->
    exists q0, st_queues s !! i' = Some q0 /\ it' ∈ q0) as Hsub.
  { intros i' q' it' Hq' Hit. apply insert_lookup_cases in Hq' as [[-> ->]|[_ Hq']]; [|eauto].
    exists q. split; [done|]. apply elem_of_list_lookup in Hit as [k Hk].
    destruct (decide (k < j)).
    - rewrite lookup_delete_lt in Hk by done. by eapply elem_of_list_lookup_2.
    - rewrite lookup_delete_ge in Hk by lia. by eapply elem_of_list_lookup_2. }
  assert (it ∈ q) as Hitq by (by eapply elem_of_list_lookup_2).
  split.
  - rewrite app_nil_r. destruct HA. split; simpl; try done.
    + intros n. specialize (a_own n). cl Hc n (CPopped it). unf. lia.
    + intros n. specialize (a_hd n). cl Hc n (CPopped it). unf. lia.
    + intros n. specialize (a_se n). cl Hc n (CPopped it). unf. lia.
    + intros i' q' it' Hq' Hit. destruct (Hsub _ _ _ Hq' Hit) as (q0 & H1 & H2). by eapply a_q.
    + intros c' it' Hc'. apply insert_lookup_cases in Hc' as [[-> ?]|[_ Hc']]; [|by eauto].
      simplify_eq. exists i. split; [done|]. by eapply a_q.
    + intros c' it' Hc'. apply insert_lookup_cases in Hc' as [[-> ?]|[_ Hc']]; [done|by eauto].
    + by rewrite insert_length.
    + by rewrite insert_length.
  - by eapply invB_frame.
  - by eapply invC_frame.
  - rewrite app_nil_r. destruct HD. split; simpl; try done.
    + intros i' q' it' Hq' Hit. destruct (Hsub _ _ _ Hq' Hit) as (q0 & H1 & H2). by eapply d_q.
    + intros c' it' Hc'. apply insert_lookup_cases in Hc' as [[-> ?]|[_ Hc']]; [|by eauto].
      simplify_eq. by eapply d_q.
    + intros c' it' Hc'. apply insert_lookup_cases in Hc' as [[-> ?]|[_ Hc']]; [done|by eauto].
Qed.

Lemma inv_claim_no s t c it :
  Inv cfg s t -> st_clients s !! c = Some (CPopped it) ->
  Inv cfg (set_client s c CWait) (t ++ []).
Proof.
  intros [HA HB HC HD] Hc. split.
  - rewrite app_nil_r. destruct HA. split; simpl; try done.
    + intros n. specialize (a_own n). cl Hc n CWait. unf. lia.
    + intros n. specialize (a_hd n). cl Hc n CWait. unf. lia.
    + intros n. specialize (a_se n). cl Hc n CWait. unf. lia.
    + intros c' it' Hc'. apply insert_lookup_cases in Hc' as [[-> ?]|[_ Hc']]; [done|by eauto].
    + intros c' it' Hc'. apply insert_lookup_cases in Hc' as [[-> ?]|[_ Hc']]; [done|by eauto].
    + by rewrite insert_length.
  - by eapply invB_frame.
  - by eapply invC_frame.
  - by apply invD_free.
Qed.

Lemma inv_claim_yes s t c it :
  Inv cfg s t -> st_clients s !! c = Some (CPopped it) -> i_flag it ∉ st_taken s ->
  Inv cfg (set_client (set_taken s ({[i_flag it]} ∪ st_taken s)) c (CClaimed it)) (t ++ []).
Proof.
  intros [HA HB HC HD] Hc Hf. split.
  - rewrite app_nil_r. destruct HA.
    destruct (a_pop c it Hc) as (i & Hi & (Hit1 & Hit2)).
    pose proof (tkb_claim_same _ _ _ _ a_nodup Hit1 Hf) as Htk0.
    assert (forall n, Nat.b2n (tkb ({[i_flag it]} ∪ st_taken s) (readied t) n) =
      one n (Some (i_id it)) + Nat.b2n (tkb (st_taken s) (readied t) n)) as Htk.
    { intros n. rewrite (tkb_claim _ _ n _ _ Hit1). unfold one.
      destruct (Nat.eqb_spec n (i_id it)) as [->|]; simpl; [|done]. by rewrite Htk0. }
    split; simpl; try done.
    + intros f Hff. apply elem_of_union in Hff as [Hff|Hff]; [|by auto].
      apply elem_of_singleton in Hff as ->. by eapply lookup_lt_Some.
    + intros n. specialize (a_own n). cl Hc n (CClaimed it). unf. rewrite Htk. lia.
    + intros n. specialize (a_hd n). cl Hc n (CClaimed it). unf. rewrite Htk. lia.
    + intros n. specialize (a_se n). cl Hc n (CClaimed it). unf. lia.
    + intros c' it' Hc'. apply insert_lookup_cases in Hc' as [[-> ?]|[_ Hc']]; [done|by eauto].
    + intros c' it' Hc'. apply insert_lookup_cases in Hc' as [[-> ?]|[_ Hc']]; [|by eauto].
      simplify_eq. by eauto.
    + by rewrite insert_length.
  - by eapply invB_frame.
  - by eapply invC_frame.
  - rewrite app_nil_r. destruct HD. split; simpl; try done.
    + intros c' it' Hc'. apply insert_lookup_cases in Hc' as [[-> ?]|[_ Hc']]; [done|by eauto].
    + intros c' it' Hc'. apply insert_lookup_cases in Hc' as [[-> ?]|[_ Hc']]; [|by eauto].
      simplify_eq. by eauto.
Qed.

Lemma count_aff_app a l1 l2 : count_aff cfg a (l1 ++ l2) = count_aff cfg a l1 + count_aff cfg a l2.
Proof. unfold count_aff. by rewrite List.filter_app, app_length. Qed.

Lemma count_aff_submset a l1 l2 : l1 ⊆+ l2 -> count_aff cfg a l1 <= count_aff cfg a l2.
Proof.
  induction 1 as [|x l1 l2 _ IH|x y l|x l1 l2 _ IH|l1 l2 l3 _ IH1 _ IH2]; unfold count_aff in *; simpl;
    repeat case_match; simpl; lia.
Qed.

Lemma count_aff_cons a n l : count_aff cfg a (n :: l) = (if N.eqb (aff cfg n) a then 1 else 0) + count_aff cfg a l.
Proof. unfold count_aff. simpl. by destruct (N.eqb (aff cfg n) a). Qed.

Lemma count_aff_le a l : count_aff cfg a l <= length l.
Proof. unfold count_aff. induction l as [|x l IH]; simpl; [lia|]. destruct (N.eqb (aff cfg x) a); simpl; lia. Qed.

Lemma occ_submset l1 l2 : (forall n, occ n l1 <= occ n l2) -> (forall n, occ n l1 <= 1) -> l1 ⊆+ l2.
Proof.
  intros H H1. apply NoDup_submseteq; [by apply occ_nodup|]. intros n Hn.
  apply occ_pos. apply occ_pos in Hn. specialize (H n). lia.
Qed.

Lemma nodup_bound l k : (forall n : nat, n ∈ l -> n < k) -> (forall n, occ n l <= 1) -> length l <= k.
Proof.
  intros H H1. rewrite <- occ_nodup in H1.
  assert (l ⊆+ seq 0 k) as Hs.
  { apply NoDup_submseteq; [done|]. intros n Hn. apply elem_of_seq. specialize (H n Hn). lia. }
  apply submseteq_length in Hs. by rewrite seq_length in Hs.
Qed.

Lemma invA_readied_bound s t : InvA cfg s t -> length (readied t) <= node_count g.
Proof. intros []. by apply nodup_bound. Qed.

Lemma inv_handed_sub s t : InvA cfg s t ->
  forall n, occ n (handed t) <= occ n (readied t) /\ occ n (finish_order t) <= occ n (handed t).
Proof.
  intros HA n. pose proof (a_own _ _ _ HA n) as H1. pose proof (a_hd _ _ _ HA n) as H2.
  pose proof (tkb_occ (st_taken s) (readied t) n) as H3. unfold tk in *.
  assert (nclaim s n <= nhold s n) as H4.
  { unfold nclaim, nhold. apply occ_omap_le. intros x m.
    destruct x as [| |it|it|n0|n0| |n0 [|]]; unfold one; simpl; lia. }
  lia.
Qed.

Lemma finish_sub_handed s t a : InvA cfg s t ->
  count_aff cfg a (finish_order t) <= count_aff cfg a (handed t).
Proof.
  intros HA. apply count_aff_submset, occ_submset; intros n; pose proof (inv_handed_sub s t HA n);
    pose proof (a_nodup _ _ _ HA n); lia.
Qed.

Lemma handed_bound s t : InvA cfg s t -> length (handed t) <= length (readied t).
Proof.
  intros HA. apply submseteq_length, occ_submset; intros n; pose proof (inv_handed_sub s t HA n);
    pose proof (a_nodup _ _ _ HA n); lia.
Qed.

Lemma handed_claim_count s t c it : InvA cfg s t -> InvD cfg s t ->
  st_clients s !! c = Some (CClaimed it) ->
  1 + count_aff cfg (i_affinity it) (pend (st_todo s)) + count_aff cfg (i_affinity it) (handed t) <=
  count_aff cfg (i_affinity it) (readied t).
Proof.
  intros HA HD Hc.
  destruct (a_claim _ _ _ HA c it Hc) as (i & Hi & (Hit1 & Hit2 & cm & Hcm & Ha & _)).
  assert (aff cfg (i_id it) = i_affinity it) as Haff by (unfold aff; by rewrite Hcm).
  assert (i_id it :: pend (st_todo s) ++ handed t ⊆+ readied t) as Hs.
  { assert (occ (i_id it) (handed t) = 0) as H0.
    { pose proof (a_hd _ _ _ HA (i_id it)) as H. pose proof (tkb_occ (st_taken s) (readied t) (i_id it)).
      pose proof (a_nodup _ _ _ HA (i_id it)). unfold tk in *.
      assert (0 < nclaim s (i_id it)); [|lia].
      unfold nclaim. apply occ_pos. apply elem_of_list_omap. exists (CClaimed it). split; [|done].
      by eapply elem_of_list_lookup_2. }
    assert (NoDup (i_id it :: pend (st_todo s) ++ handed t)) as Hnd.
    { apply NoDup_cons. split.
      - rewrite not_elem_of_app. split; [|by apply occ_zero]. by apply (d_claim _ _ _ HD c it).
      - apply NoDup_app. split_and!.
        + apply (d_pend_nodup _ _ _ HD).
        + intros n Hn Hn'. by apply (d_handed _ _ _ HD n Hn').
        + apply occ_nodup. intros n. pose proof (inv_handed_sub s t HA n).
          pose proof (a_nodup _ _ _ HA n). lia. }
    apply NoDup_submseteq; [done|]. intros n Hn. rewrite elem_of_cons, elem_of_app in Hn.
    destruct Hn as [->|[Hn|Hn]].
    - by eapply elem_of_list_lookup_2.
    - by apply (d_pend _ _ _ HD).
    - apply occ_pos. apply occ_pos in Hn. pose proof (inv_handed_sub s t HA n). lia. }
  apply (count_aff_submset (i_affinity it)) in Hs.
  rewrite count_aff_cons, count_aff_app, Haff, N.eqb_refl in Hs. lia.
Qed.

Lemma inv_count s t c i it :
  config_ok cfg -> Inv cfg s t -> st_clients s !! c = Some (CClaimed it) ->
  cf_types cfg !! c = Some i ->
  exists q, hand_out (st_qstate s) (i_affinity it) = Some q /\
  Inv cfg (set_client (set_qstate s q) c (CHolding (i_id it))) (t ++ [OHandedOut c i (i_id it)]).
Proof.
  intros Hok [HA HB HC HD] Hc Hi.
  destruct (d_claim _ _ _ HD c it Hc) as [[[r f] Hq] Hnp].
  pose proof (handed_claim_count s t c it HA HD Hc) as Hcc.
  unfold hand_out. rewrite Hq. eexists. split; [done|].
  set (a := i_affinity it) in *.
  assert (Forall neutral [OHandedOut c i (i_id it)]) as Hos by (by repeat constructor).
  assert (readied (t ++ [OHandedOut c i (i_id it)]) = readied t) as Er by (by apply readied_neutral).
  assert (finish_order (t ++ [OHandedOut c i (i_id it)]) = finish_order t) as Ef by (by apply finish_neutral).
  assert (handed (t ++ [OHandedOut c i (i_id it)]) = handed t ++ [i_id it]) as Eh by (by rewrite handed_app).
  pose proof (a_claim _ _ _ HA c it Hc) as (i' & Hi' & (Hit1 & Hit2 & cm & Hcm & Ha & _)).
  assert (aff cfg (i_id it) = a) as Haff by (unfold aff; by rewrite Hcm).
  pose proof (invA_readied_bound s t HA) as Hb1. pose proof (handed_bound s t HA) as Hb2.
  pose proof (ok_size _ Hok) as Hsz.
  pose proof (inv_handed_sub s t HA) as Hhs. pose proof (a_nodup _ _ _ HA) as Hnd.
  split.
  - destruct HA. split; unfold item_ok, tk; rewrite ?Er, ?Ef, ?Eh; simpl; try done.
    + intros n. specialize (a_own n). cl Hc n (CHolding (i_id it)). unf. lia.
    + intros n. specialize (a_hd n). cl Hc n (CHolding (i_id it)). unf.
      rewrite occ_app, occ_cons, occ_nil. lia.
    + intros n. specialize (a_se n). cl Hc n (CHolding (i_id it)). unf. lia.
    + intros c' it' Hc'. apply insert_lookup_cases in Hc' as [[-> ?]|[_ Hc']]; [done|by eauto].
    + intros c' it' Hc'. apply insert_lookup_cases in Hc' as [[-> ?]|[_ Hc']]; [done|by eauto].
    + by rewrite insert_length.
  - by eapply invB_frame.
  - by eapply invC_frame.
  - assert (Hpres : forall b, is_Some (st_qstate s !! b) ->
      is_Some (<[a := ((r + (U32 - 1)) mod U32, (f + 1) mod U32)%N]> (st_qstate s) !! b)).
    { intros b Hb. destruct (decide (a = b)) as [<-|]; [rewrite lookup_insert|rewrite lookup_insert_ne by done]; eauto. }
    assert (Hpo : forall it', pend_ok (st_qstate s) (st_todo s) it' ->
      pend_ok (<[a := ((r + (U32 - 1)) mod U32, (f + 1) mod U32)%N]> (st_qstate s)) (st_todo s) it').
    { intros it' [H1 H2]. split; [by apply Hpres|done]. }
    destruct HD. split; rewrite ?Er, ?Ef, ?Eh; simpl; try done.
    + intros i0 q0 it0 H1 H2. by eapply Hpo, d_q.
    + intros c' it' Hc'. apply insert_lookup_cases in Hc' as [[-> ?]|[_ Hc']]; [done|by eauto].
    + intros c' it' Hc'. apply insert_lookup_cases in Hc' as [[-> ?]|[_ Hc']]; [done|by eauto].
    + intros l1 i0 it0 l2 Ht. destruct (d_push _ _ _ _ Ht) as [H1 [H2|H2]]; (split; [done|]); [left; by apply Hpres|by right].
    + intros n. rewrite elem_of_app, elem_of_list_singleton. intros [H| ->]; [by auto|done].
    + intros Hopen b. specialize (d_ready Hopen b). unfold num_ready in *. simpl.
      rewrite count_aff_app, count_aff_cons. rewrite Haff.
      destruct (N.eqb_spec a b) as [<-|Hne].
      * rewrite lookup_insert, Hq in *.
        assert (N.of_nat (count_aff cfg a (readied t)) < U32)%N.
        { pose proof (count_aff_le a (readied t)). unfold U32. lia. }
        assert (1 <= r < U32)%N as Hr by (unfold U32 in *; lia).
        match goal with |- context [(?x `mod` ?y)%N] => replace (x `mod` y)%N with (r - 1)%N end.
        2: { apply (N.mod_unique _ _ 1); [lia|]. unfold U32 in *. lia. }
        change (count_aff cfg a []) with 0. lia.
      * rewrite lookup_insert_ne by done. change (count_aff cfg b []) with 0. lia.
    + intros b. specialize (d_infl b). unfold num_inflight in *. simpl.
      rewrite count_aff_app, count_aff_cons. rewrite Haff.
      destruct (N.eqb_spec a b) as [<-|Hne].
      * rewrite lookup_insert, Hq in *.
        assert (f + 1 < U32)%N as Hf.
        { pose proof (count_aff_le a (readied t)). unfold U32.
          assert (count_aff cfg a (pdec (st_todo s)) <= count_aff cfg a (finish_order t)) as Hpd.
          { apply count_aff_submset, occ_submset; intros n; specialize (d_pdec n); specialize (Hhs n);
              specialize (Hnd n); lia. }
          lia. }
        rewrite N.mod_small by done.
        change (count_aff cfg a []) with 0. lia.
      * rewrite lookup_insert_ne by done. change (count_aff cfg b []) with 0. lia.
Qed.

Lemma snoc_split {A} (l : list A) z e1 y e2 :
  l ++ [z] = e1 ++ y :: e2 -> (e2 = [] /\ y = z /\ l = e1) \/ (exists e2', e2 = e2' ++ [z] /\ l = e1 ++ y :: e2').
Proof.
  destruct e2 as [|w e2 _] using rev_ind; intros H.
  - left. apply app_inj_tail in H as [-> ->]. done.
  - right. exists e2. change (e1 ++ y :: e2 ++ [w]) with (e1 ++ (y :: e2) ++ [w]) in H.
    rewrite List.app_assoc in H. apply app_inj_tail in H as [-> ->]. done.
Qed.

Lemma invD_client_events s t c x ev os :
  InvD cfg s t -> (forall it, x <> CPopped it /\ x <> CClaimed it) ->
  Forall neutral os -> handed os = [] -> InvD cfg (set_client (set_events s ev) c x) (t ++ os).
Proof.
  intros [] Hx Hos Hh.
  assert (readied (t ++ os) = readied t) as Er by (by apply readied_neutral).
  assert (finish_order (t ++ os) = finish_order t) as Ef by (by apply finish_neutral).
  assert (handed (t ++ os) = handed t) as Eh by (by rewrite handed_app, Hh, app_nil_r).
  split; rewrite ?Er, ?Ef, ?Eh; simpl; try done.
  - intros c' it Hc'. apply insert_lookup_cases in Hc' as [[-> <-]|[_ Hc']]; [by destruct (Hx it)|]. by eapply d_pop.
  - intros c' it Hc'. apply insert_lookup_cases in Hc' as [[-> <-]|[_ Hc']]; [by destruct (Hx it)|]. by eapply d_claim.
Qed.

Lemma own_bound s t n : InvA cfg s t -> nhold s n + nrun s n + nfe s n + occ n (finish_order t) <= 1.
Proof.
  intros HA. rewrite (a_own _ _ _ HA). unfold tk. destruct (tkb _ _ _); simpl; lia.
Qed.

Lemma inv_send_started s t c n host pid slurm :
  Inv cfg s t -> st_clients s !! c = Some (CHolding n) ->
  Inv cfg (set_client (set_events s (st_events s ++ [EvStarted n host pid slurm])) c (CRunning n))
    (t ++ [OSentStarted c n]).
Proof.
  intros [HA HB HC HD] Hc.
  set (os := [OSentStarted c n]).
  assert (Forall neutral os) as Hos by (by repeat constructor).
  assert (readied (t ++ os) = readied t) as Er by (by apply readied_neutral).
  assert (finish_order (t ++ os) = finish_order t) as Ef by (by apply finish_neutral).
  assert (handed (t ++ os) = handed t) as Eh by (by rewrite handed_app, app_nil_r).
  assert (nfe s n = 0) as Hfe.
  { pose proof (own_bound s t n HA). assert (0 < nhold s n); [|lia].
    apply occ_pos, elem_of_list_omap. exists (CHolding n). split; [by eapply elem_of_list_lookup_2|done]. }
  split.
  - destruct HA. split; unfold item_ok, tk; rewrite ?Er, ?Ef, ?Eh; simpl; try done.
    + intros m. specialize (a_own m). cl Hc m (CRunning n). unf.
      rewrite omap_app', occ_app, occ_omap_cons. simpl. change (one m None) with 0. rewrite occ_nil. lia.
    + intros m. specialize (a_hd m). cl Hc m (CRunning n). unf. lia.
    + intros m. specialize (a_se m). cl Hc m (CRunning n). unf.
      rewrite !omap_app', !occ_app, !occ_omap_cons. simpl. change (one m None) with 0. rewrite !occ_nil. lia.
    + intros e1 m x v f e2 He. apply snoc_split in He as [(_ & He & _)|(e2' & -> & He)]; [done|].
      rewrite omap_app', not_elem_of_app. split; [by eapply a_ord|]. simpl.
      rewrite elem_of_list_singleton. intros ->.
      assert (0 < nfe s n); [|lia]. apply occ_pos. rewrite He, omap_app', elem_of_app. right. simpl. by left.
    + intros c' it' Hc'. apply insert_lookup_cases in Hc' as [[-> ?]|[_ Hc']]; [done|by eauto].
    + intros c' it' Hc'. apply insert_lookup_cases in Hc' as [[-> ?]|[_ Hc']]; [done|by eauto].
    + by rewrite insert_length.
  - by eapply invB_frame.
  - by eapply invC_frame.
  - by apply invD_client_events.
Qed.

Lemma inv_send_finished s t c y n x v f :
  Inv cfg s t -> st_clients s !! c = Some y -> y = CHolding n \/ y = CRunning n ->
  Inv cfg (set_client (set_events s (st_events s ++ [EvFinished n x v f])) c CIdle)
    (t ++ [OSentFinished c n x f]).
Proof.
  intros [HA HB HC HD] Hc Hy.
  set (os := [OSentFinished c n x f]).
  assert (Forall neutral os) as Hos by (by repeat constructor).
  assert (readied (t ++ os) = readied t) as Er by (by apply readied_neutral).
  assert (finish_order (t ++ os) = finish_order t) as Ef by (by apply finish_neutral).
  assert (handed (t ++ os) = handed t) as Eh by (by rewrite handed_app, app_nil_r).
  split.
  - destruct HA. split; unfold item_ok, tk; rewrite ?Er, ?Ef, ?Eh; simpl; try done.
    + intros m. specialize (a_own m). destruct Hy as [-> | ->]; cl Hc m CIdle; unf;
        rewrite omap_app', occ_app, occ_omap_cons; simpl; rewrite occ_nil; lia.
    + intros m. specialize (a_hd m). destruct Hy as [-> | ->]; cl Hc m CIdle; unf; lia.
    + intros m. specialize (a_se m). destruct Hy as [-> | ->]; cl Hc m CIdle; unf;
        rewrite !omap_app', !occ_app, !occ_omap_cons; simpl; change (one m None) with 0; rewrite !occ_nil; lia.
    + intros e1 m x' v' f' e2 He. apply snoc_split in He as [(-> & _ & _)|(e2' & -> & He)].
      { apply not_elem_of_nil. }
      rewrite omap_app', not_elem_of_app. split; [by eapply a_ord|]. simpl. apply not_elem_of_nil.
    + intros c' it' Hc'. apply insert_lookup_cases in Hc' as [[-> ?]|[_ Hc']]; [done|by eauto].
    + intros c' it' Hc'. apply insert_lookup_cases in Hc' as [[-> ?]|[_ Hc']]; [done|by eauto].
    + by rewrite insert_length.
  - by eapply invB_frame.
  - by eapply invC_frame.
  - by apply invD_client_events.
Qed.

Lemma inv_drop s t c y n (b : bool) :
  Inv cfg s t -> st_clients s !! c = Some y -> y = (if b then CRunning n else CHolding n) ->
  Inv cfg (set_client s c (CDropped n b)) (t ++ []).
Proof.
  intros [HA HB HC HD] Hc Hy. split.
  - rewrite app_nil_r. destruct HA. split; simpl; try done.
    + intros m. specialize (a_own m). destruct b; subst; [cl Hc m (CDropped n true)|cl Hc m (CDropped n false)]; unf; lia.
    + intros m. specialize (a_hd m). destruct b; subst; [cl Hc m (CDropped n true)|cl Hc m (CDropped n false)]; unf; lia.
    + intros m. specialize (a_se m). destruct b; subst; [cl Hc m (CDropped n true)|cl Hc m (CDropped n false)]; unf; lia.
    + intros c' it' Hc'. apply insert_lookup_cases in Hc' as [[-> ?]|[_ Hc']]; [done|by eauto].
    + intros c' it' Hc'. apply insert_lookup_cases in Hc' as [[-> ?]|[_ Hc']]; [done|by eauto].
    + by rewrite insert_length.
  - by eapply invB_frame.
  - by eapply invC_frame.
  - pose proof (invD_client_events s t c (CDropped n b) (st_events s) [] HD) as H.
    destruct s; simpl in *. apply H; [done|constructor|done].
Qed.
End client.
