(** The final drain never panics and closes every started task in the log. *)
From Verif Require Export SchedReach.

Definition drained_of (o : obs) : option nat :=
  match o with ODrainFinished n _ => Some n | _ => None end.
Definition drained (t : list obs) : list nat := omap drained_of t.

Lemma drained_app t1 t2 : drained (t1 ++ t2) = drained t1 ++ drained t2.
Proof. apply omap_app'. Qed.

Definition drain_obs (o : obs) : Prop :=
  match o with ODrainStarted _ | ODrainFinished _ _ => True | _ => False end.

Definition infl (q : gmap N (N * N)) (a : N) : N :=
  match q !! a with Some (_, i) => i | None => 0%N end.

Section drain.
Variable cfg : config.
Notation g := (cf_g cfg).

Definition stage' (inf : gmap nat N) (rd fin : list nat) (n : nat) : list kind :=
  if decide (n ∈ rd) then
    if decide (n ∈ fin) then [KReady; KStarted; KFinished]
    else if decide (is_Some (inf !! n)) then [KReady; KStarted] else [KReady]
  else [].

Record DL (new : list log_entry) (inf : gmap nat N) (rd fin gd : list nat)
    (fobs : list (string * Z)) : Prop := {
  l_stage : forall n, n < node_count g -> history (task_key cfg n) new = stage' inf rd fin n;
  l_other : forall k, (forall n, n < node_count g -> task_key cfg n <> k) -> history k new = [];
  l_fin : omap fin_rec new = fobs;
  l_ready : omap ready_key new = ready_infos cfg rd;
  l_causal : causal_log cfg new;
  l_good : forall m, m ∈ gd -> exists f, In (Finished f) new /\ f_key f = task_key cfg m /\ f_status f = 0%Z;
  l_deps : forall n m, n ∈ rd -> edge g m n -> m ∈ gd;
  l_rec : Forall task_rec new
}.

Definition log_inv (l : log_file) inf rd fin gd fobs : Prop :=
  log_good l /\ exists new, lf_entries l = lf_entries (cf_log cfg) ++ new /\ DL new inf rd fin gd fobs.

Lemma log_inv_started l inf rd fin gd fobs id c host pid slurm now :
  config_ok cfg -> log_inv l inf rd fin gd fobs -> nodes g !! id = Some c -> id ∈ rd -> id ∉ fin ->
  inf !! id = None ->
  exists l', write_started cfg l c host pid slurm = Some l' /\
    log_inv l' (<[id := now]> inf) rd fin gd fobs.
Proof.
  intros Hok (Hg & new & Hnew & HL) Hc Hrd Hfin Hinf.
  assert (Hlt : id < node_count g) by (by eapply lookup_lt_Some).
  pose proof (task_key_lookup cfg id c Hc) as Hkey.
  assert (stage' inf rd fin id = [KReady]) as Hst.
  { unfold stage'. rewrite decide_True, decide_False, decide_False; try done. rewrite Hinf. by intros []. }
  destruct (write_started_ok cfg l c host pid slurm Hg) as (l' & e & Hw & Hg' & Hek & Hle).
  { rewrite <- Hkey, Hnew, history_app, (l_stage _ _ _ _ _ _ HL), Hst by done. by rewrite last_snoc. }
  exists l'. split; [done|]. split; [done|]. exists (new ++ [Started e]).
  split; [by rewrite Hle, Hnew, List.app_assoc|].
  pose proof HL as HL0. destruct HL. split; try done.
  - intros n Hn. destruct (decide (n = id)) as [->|Hne].
    + rewrite (history_snoc _ _ _ KStarted) by (apply record_of_started; by rewrite Hek).
      rewrite l_stage0, Hst by done. unfold stage'. rewrite decide_True, decide_False, decide_True; try done.
      by rewrite lookup_insert.
    + rewrite history_snoc_other.
      2:{ simpl. rewrite eqb_neq_record; [done|]. rewrite Hek, <- Hkey. intros Hk. apply Hne.
          by apply (task_key_inj cfg). }
      rewrite l_stage0 by done. unfold stage'. by rewrite lookup_insert_ne by done.
  - intros k Hk. rewrite history_snoc_other; [by apply l_other0|]. simpl. rewrite eqb_neq_record; [done|].
    rewrite Hek, <- Hkey. by apply Hk.
  - rewrite omap_app', l_fin0. simpl. by rewrite app_nil_r.
  - rewrite omap_app', l_ready0. simpl. by rewrite app_nil_r.
  - apply causal_app; [done|]. intros e' [He|[]]. injection He as <-. exists id. split; [done|].
    split; [by rewrite Hek|]. intros m Hm. by eapply l_good0, l_deps0.
  - intros m Hm. destruct (l_good0 m Hm) as (f & Hf & Hx). exists f. split; [|done]. apply in_or_app. by left.
  - apply Forall_app. split; [done|]. by repeat constructor.
Qed.

Lemma log_inv_finished l inf rd fin gd fobs id c x v :
  config_ok cfg -> log_inv l inf rd fin gd fobs -> nodes g !! id = Some c -> id ∈ rd -> id ∉ fin ->
  is_Some (inf !! id) ->
  exists l', write_finished cfg l c x v = Some l' /\
    log_inv l' (delete id inf) rd (fin ++ [id]) gd (fobs ++ [(task_key cfg id, as_i32 x)]).
Proof.
  intros Hok (Hg & new & Hnew & HL) Hc Hrd Hfin Hinf.
  assert (Hlt : id < node_count g) by (by eapply lookup_lt_Some).
  pose proof (task_key_lookup cfg id c Hc) as Hkey.
  assert (stage' inf rd fin id = [KReady; KStarted]) as Hst.
  { unfold stage'. by rewrite decide_True, decide_False, decide_True. }
  destruct (write_finished_ok cfg l c x v Hg) as (l' & e & Hw & Hg' & Hek & Hes & _ & Hle).
  { rewrite <- Hkey, Hnew, history_app, (l_stage _ _ _ _ _ _ HL), Hst by done.
    change ([KReady; KStarted]) with ([KReady] ++ [KStarted]). by rewrite List.app_assoc, last_snoc. }
  exists l'. split; [done|]. split; [done|]. exists (new ++ [Finished e]).
  split; [by rewrite Hle, Hnew, List.app_assoc|].
  pose proof HL as HL0. destruct HL. split; try done.
  - intros n Hn. destruct (decide (n = id)) as [->|Hne].
    + rewrite (history_snoc _ _ _ KFinished) by (apply record_of_finished; by rewrite Hek).
      rewrite l_stage0, Hst by done. unfold stage'. rewrite decide_True, decide_True; try done.
      rewrite elem_of_app. right. by left.
    + rewrite history_snoc_other.
      2:{ simpl. rewrite eqb_neq_record; [done|]. rewrite Hek, <- Hkey. intros Hk. apply Hne.
          by apply (task_key_inj cfg). }
      rewrite l_stage0 by done. unfold stage'. rewrite lookup_delete_ne by done.
      destruct (decide (n ∈ rd)); [|done].
      destruct (decide (n ∈ fin)).
      * by rewrite decide_True by set_solver.
      * by rewrite (decide_False (P := n ∈ fin ++ [id])) by set_solver.
  - intros k Hk. rewrite history_snoc_other; [by apply l_other0|]. simpl. rewrite eqb_neq_record; [done|].
    rewrite Hek, <- Hkey. by apply Hk.
  - rewrite omap_app', l_fin0. simpl. by rewrite Hek, Hes, Hkey.
  - rewrite omap_app', l_ready0. simpl. by rewrite app_nil_r.
  - apply causal_app; [done|]. by intros e' [He|[]].
  - intros m Hm. destruct (l_good0 m Hm) as (f & Hf & Hx). exists f. split; [|done]. apply in_or_app. by left.
  - apply Forall_app. split; [done|]. by repeat constructor.
Qed.

Lemma delete_insert_irrel inf rd fin gd fobs l id now :
  log_inv l (delete id (<[id := now]> inf)) rd fin gd fobs -> inf !! id = None ->
  log_inv l (delete id inf) rd fin gd fobs.
Proof.
  intros H Hi. rewrite delete_insert_delete in H. done.
Qed.

Lemma log_inv_log_finish l inf rd fin gd fobs id c x v :
  config_ok cfg -> log_inv l inf rd fin gd fobs -> nodes g !! id = Some c -> id ∈ rd -> id ∉ fin ->
  exists l', log_finish cfg l inf id c x v = Some l' /\
    log_inv l' (delete id inf) rd (fin ++ [id]) gd (fobs ++ [(task_key cfg id, as_i32 x)]).
Proof.
  intros Hok HL Hc Hrd Hfin. unfold log_finish. destruct (inf !! id) as [y|] eqn:Hinf.
  - eapply log_inv_finished; try done.
  - destruct (log_inv_started l inf rd fin gd fobs id c "" 0 "" 0 Hok HL Hc Hrd Hfin Hinf) as (l1 & -> & HL1).
    destruct (log_inv_finished l1 _ rd fin gd fobs id c x v Hok HL1 Hc Hrd Hfin) as (l2 & -> & HL2).
    { rewrite lookup_insert. by eexists. }
    exists l2. split; [done|]. by eapply delete_insert_irrel.
Qed.

Definition counts (q : gmap N (N * N)) (fin hd : list nat) : Prop :=
  forall a, (infl q a + N.of_nat (count_aff cfg a fin) = N.of_nat (count_aff cfg a hd))%N.

Lemma dec_ok q fin hd id c :
  counts q fin hd -> (forall n, occ n fin <= occ n hd) -> (forall n, occ n hd <= 1) ->
  id ∈ hd -> id ∉ fin -> nodes g !! id = Some c ->
  exists q', dec_inflight q (c_affinity c) = Some q' /\ counts q' (fin ++ [id]) hd.
Proof.
  intros Hq Hsub Hnd Hid Hfin Hc.
  assert (aff cfg id = c_affinity c) as Ha by (unfold aff; by rewrite Hc).
  assert (count_aff cfg (c_affinity c) (fin ++ [id]) <= count_aff cfg (c_affinity c) hd) as Hle.
  { apply count_aff_submset, occ_submset; intros n; rewrite occ_app, occ_cons, occ_nil; unfold one;
      pose proof (Hsub n); pose proof (Hnd n); destruct (Nat.eqb_spec n id) as [->|]; try lia;
      apply occ_pos in Hid; apply occ_zero in Hfin; lia. }
  rewrite count_aff_app, count_aff_cons, Ha, N.eqb_refl in Hle.
  change (count_aff cfg (c_affinity c) []) with 0 in Hle.
  pose proof (Hq (c_affinity c)) as Hqa. unfold infl in Hqa. unfold dec_inflight.
  destruct (q !! c_affinity c) as [[r i]|] eqn:Eq; [|lia].
  destruct (N.eqb_spec i 0) as [->|Hi]; [lia|].
  eexists. split; [done|]. intros a. rewrite count_aff_app, count_aff_cons, Ha.
  change (count_aff cfg a []) with 0. unfold infl.
  destruct (N.eqb_spec (c_affinity c) a) as [<-|Hne].
  - rewrite lookup_insert. lia.
  - rewrite lookup_insert_ne by done. specialize (Hq a). unfold infl in Hq. lia.
Qed.

Section from.
Variable s0 : st.
Variable t0 : list obs.

Definition own (evs : list event) (fin : list nat) (n : nat) : Prop :=
  nhold s0 n + nrun s0 n + occ n (omap fin_of evs) + occ n fin = tk s0 t0 n.

Record DE (evs : list event) (inf : gmap nat N) (fin : list nat) (l : log_file)
    (q : gmap N (N * N)) (fobs : list (string * Z)) : Prop := {
  e_own : forall n, own evs fin n;
  e_se : forall n, nrun s0 n <= occ n (omap start_of evs) + (if decide (is_Some (inf !! n)) then 1 else 0)
                   <= nrun s0 n + occ n (omap fin_of evs);
  e_ord : forall e1 n x v f e2, evs = e1 ++ EvFinished n x v f :: e2 -> n ∉ omap start_of e2;
  e_log : log_inv l inf (readied t0) fin (good t0) fobs;
  e_q : counts q fin (handed t0)
}.

Lemma own_handed evs fin n : InvA cfg s0 t0 -> own evs fin n ->
  occ n (omap fin_of evs) + occ n fin + nrun s0 n <= occ n (handed t0) /\
  occ n (handed t0) <= occ n (readied t0).
Proof.
  intros HA Hown. pose proof (a_hd _ _ _ HA n) as H. unfold own in Hown.
  assert (nclaim s0 n <= nhold s0 n) as H4.
  { unfold nclaim, nhold. apply occ_omap_le. intros x m.
    destruct x as [| |it|it|n0|n0| |n0 [|]]; unfold one; simpl; lia. }
  pose proof (tkb_occ (st_taken s0) (readied t0) n). unfold tk in *. lia.
Qed.

Lemma drain_events_ok evs : forall sv q inf fin fobs now,
  config_ok cfg -> InvA cfg s0 t0 -> DE evs inf fin (sv_log sv) q fobs ->
  exists sv' q' inf' os, drain_events cfg evs sv q inf now = Some (sv', q', inf', os) /\
    DE [] inf' (fin ++ drained os) (sv_log sv') q' (fobs ++ omap (fin_obs cfg) os) /\
    sv_finished_order sv' = sv_finished_order sv /\ sv_soft sv' = sv_soft sv /\ Forall drain_obs os.
Proof.
  induction evs as [|e evs IH]; intros sv q inf fin fobs now Hok HA HE; cbn [drain_events].
  - exists sv, q, inf, []. simpl. rewrite !app_nil_r. done.
  - pose proof (a_nodup _ _ _ HA) as Hnd.
    destruct e as [id host pid slurm|id x v f].
    + assert (1 <= occ id (omap start_of (EvStarted id host pid slurm :: evs))) as H1.
      { rewrite occ_omap_cons. unfold one. simpl. rewrite Nat.eqb_refl. lia. }
      pose proof (e_se _ _ _ _ _ _ HE id) as H2.
      destruct (own_handed _ _ _ HA (e_own _ _ _ _ _ _ HE id)) as [H3 H4]. specialize (Hnd id).
      assert (inf !! id = None) as Hinf.
      { destruct (decide (is_Some (inf !! id))) as [|Hn]; [lia|]. by apply eq_None_not_Some. }
      assert (id ∈ readied t0) as Hr by (apply occ_pos; lia).
      assert (id ∉ fin) as Hf by (apply occ_zero; lia).
      destruct (lookup_lt_is_Some_2 (nodes g) id (a_lt _ _ _ HA id Hr)) as [c Hc]. rewrite Hc.
      destruct (log_inv_started (sv_log sv) inf _ fin _ fobs id c "host" 0 "" now Hok (e_log _ _ _ _ _ _ HE) Hc Hr Hf Hinf)
        as (l' & -> & HL). rewrite Hinf.
      destruct (IH (with_log_inflight sv l' (sv_inflight sv)) q (<[id:=now]> inf) fin fobs now Hok HA)
        as (sv' & q' & inf' & os & -> & HE' & Hfo & Hso & Hos).
      { destruct HE. split; try done.
        - intros n. specialize (e_se0 n). rewrite !occ_omap_cons in e_se0. simpl in e_se0. unfold one in e_se0.
          destruct (Nat.eqb_spec n id) as [Heq|Hne].
          + subst n. rewrite lookup_insert. rewrite Hinf in e_se0. rewrite decide_True by eauto.
            rewrite decide_False in e_se0 by (by intros []). lia.
          + rewrite lookup_insert_ne by done. lia.
        - intros e1 n x v f e2 He. apply (e_ord0 (EvStarted id host pid slurm :: e1) n x v f e2). by rewrite He. }
      eexists _, _, _, _. split; [done|]. split; [exact HE'|]. split_and!; try done. by constructor.
    + assert (1 <= occ id (omap fin_of (EvFinished id x v f :: evs))) as H1.
      { rewrite occ_omap_cons. unfold one. simpl. rewrite Nat.eqb_refl. lia. }
      destruct (own_handed _ _ _ HA (e_own _ _ _ _ _ _ HE id)) as [H3 H4].
      pose proof (Hnd id) as H5.
      assert (id ∈ readied t0) as Hr by (apply occ_pos; lia).
      assert (id ∈ handed t0) as Hh by (apply occ_pos; lia).
      assert (id ∉ fin) as Hf by (apply occ_zero; lia).
      destruct (lookup_lt_is_Some_2 (nodes g) id (a_lt _ _ _ HA id Hr)) as [c Hc]. rewrite Hc.
      destruct (dec_ok q fin (handed t0) id c (e_q _ _ _ _ _ _ HE)) as (q1 & -> & Hq1); try done.
      { intros n. destruct (own_handed _ _ _ HA (e_own _ _ _ _ _ _ HE n)). lia. }
      { intros n. destruct (own_handed _ _ _ HA (e_own _ _ _ _ _ _ HE n)). specialize (Hnd n). lia. }
      change (sv_log (finished_bookkeeping_1 sv id x now)) with (sv_log sv).
      destruct (log_inv_log_finish (sv_log sv) inf _ fin _ fobs id c x v Hok (e_log _ _ _ _ _ _ HE) Hc Hr Hf)
        as (l' & -> & HL).
      destruct (IH (with_log_inflight (finished_bookkeeping_1 sv id x now) l'
                      (sv_inflight (finished_bookkeeping_1 sv id x now))) q1 (delete id inf) (fin ++ [id])
                   (fobs ++ [(task_key cfg id, as_i32 x)]) now Hok HA)
        as (sv' & q' & inf' & os & -> & HE' & Hfo & Hso & Hos).
      { destruct HE. split; try done.
        - intros n. specialize (e_own0 n). unfold own in *. rewrite occ_app, occ_cons, occ_nil.
          rewrite occ_omap_cons in e_own0. simpl in e_own0. lia.
        - intros n. specialize (e_se0 n). pose proof (e_own0 n) as Ho. unfold own in Ho.
          pose proof (e_ord0 [] id x v f evs eq_refl) as Hord. apply occ_zero in Hord.
          rewrite !occ_omap_cons in e_se0. rewrite occ_omap_cons in Ho. simpl in e_se0, Ho.
          pose proof (tkb_occ (st_taken s0) (readied t0) n) as Ht. unfold tk in Ho. specialize (Hnd n).
          destruct (decide (n = id)) as [Heq|Hne].
          + subst n. rewrite lookup_delete, decide_False by (by intros []).
            unfold one in *. rewrite Nat.eqb_refl in *. lia.
          + rewrite lookup_delete_ne by done. unfold one in *. destruct (Nat.eqb_spec n id); [done|]. lia.
        - intros e1 n x' v' f' e2 He. apply (e_ord0 (EvFinished id x v f :: e1) n x' v' f' e2). by rewrite He. }
      eexists _, _, _, _. split; [done|].
      change (drained (ODrainFinished id x :: os)) with ([id] ++ drained os).
      change (omap (fin_obs cfg) (ODrainFinished id x :: os)) with
        ([(task_key cfg id, as_i32 x)] ++ omap (fin_obs cfg) os).
      rewrite !List.app_assoc. split; [exact HE'|]. split_and!; try done. by constructor.
Qed.
End from.

Lemma drain_inflight_ok order : forall sv q inf rd fin gd hd fobs now,
  config_ok cfg -> log_inv (sv_log sv) inf rd fin gd fobs -> counts q fin hd ->
  (forall n, occ n fin <= occ n hd) -> (forall n, occ n hd <= 1) ->
  (forall n, n ∈ hd -> n ∈ rd /\ n < node_count g) ->
  NoDup order -> (forall n, n ∈ order <-> is_Some (inf !! n)) ->
  (forall n, n ∈ order -> n ∈ hd /\ n ∉ fin) ->
  exists sv' q' os, drain_inflight cfg order sv q now = Some (sv', q', os) /\
    log_inv (sv_log sv') ∅ rd (fin ++ drained os) gd (fobs ++ omap (fin_obs cfg) os) /\
    counts q' (fin ++ drained os) hd /\ (forall n, occ n (fin ++ drained os) <= occ n hd) /\
    drained os = order /\ os = map (fun n => ODrainFinished n Disconnected) order /\
    sv_finished_order sv' = sv_finished_order sv /\ sv_inflight sv' = sv_inflight sv /\
    sv_soft sv' = sv_soft sv.
Proof.
  induction order as [|id order IH]; intros sv q inf rd fin gd hd fobs now Hok HL Hq Hsub Hnd Hhd Hord Hinf Hin;
    cbn [drain_inflight].
  - exists sv, q, []. simpl. rewrite !app_nil_r. split_and!; try done.
    assert (inf = ∅) as ->; [|done]. apply map_eq. intros n. rewrite lookup_empty.
    apply eq_None_not_Some. rewrite <- Hinf. apply not_elem_of_nil.
  - destruct (Hin id) as [Hid Hidf]; [by left|]. destruct (Hhd id Hid) as [Hr Hlt].
    apply NoDup_cons in Hord as [Hni Hord].
    destruct (lookup_lt_is_Some_2 (nodes g) id Hlt) as [c Hc]. rewrite Hc.
    destruct (dec_ok q fin hd id c Hq Hsub Hnd Hid Hidf Hc) as (q1 & -> & Hq1).
    change (sv_log (finished_bookkeeping_1 sv id Disconnected now)) with (sv_log sv).
    destruct (log_inv_finished (sv_log sv) inf rd fin gd fobs id c Disconnected [] Hok HL Hc Hr Hidf)
      as (l' & -> & HL').
    { apply Hinf. by left. }
    destruct (IH (with_log_inflight (finished_bookkeeping_1 sv id Disconnected now) l'
                   (sv_inflight (finished_bookkeeping_1 sv id Disconnected now))) q1 (delete id inf)
                 rd (fin ++ [id]) gd hd (fobs ++ [(task_key cfg id, as_i32 Disconnected)]) now)
      as (sv' & q' & os & -> & HLf & Hqf & Hsf & Hdr & Hos & Hfo & Hif & Hso); try done.
    { intros n. rewrite occ_app, occ_cons, occ_nil. unfold one. pose proof (Hsub n).
      destruct (Nat.eqb_spec n id) as [->|]; [|lia]. apply occ_zero in Hidf. apply occ_pos in Hid. lia. }
    { intros n. destruct (decide (n = id)) as [->|Hne].
      - rewrite lookup_delete. split; [done|by intros []].
      - rewrite lookup_delete_ne, <- Hinf, elem_of_cons by done. split; [by right|]. by intros [?|?]. }
    { intros n Hn. destruct (Hin n) as [H1 H2]; [by right|]. split; [done|]. rewrite not_elem_of_app, elem_of_list_singleton.
      split; [done|]. intros ->. done. }
    eexists _, _, _. split; [done|].
    change (drained (ODrainFinished id Disconnected :: os)) with ([id] ++ drained os).
    change (omap (fin_obs cfg) (ODrainFinished id Disconnected :: os)) with
      ([(task_key cfg id, as_i32 Disconnected)] ++ omap (fin_obs cfg) os).
    rewrite !List.app_assoc. split_and!; try done.
    + simpl. by rewrite Hdr.
    + simpl. by rewrite Hos.
Qed.

Lemma log_new_DL s t new : InvC cfg s t ->
  log_new cfg new (sv_inflight (st_sv s)) t ->
  DL new (sv_inflight (st_sv s)) (readied t) (finish_order t) (good t) (omap (fin_obs cfg) t).
Proof.
  intros HC HL. pose proof HL as HL0. destruct HL. split; try done.
  - intros m Hm. by eapply good_in_log.
  - intros n m Hn Hm. by eapply ready_deps_good.
Qed.

(** The state after the drain. *)
Record drained_ok (s0 : st) (t0 : list obs) (sv : server) (q : gmap N (N * N)) (os : list obs) : Prop := {
  z_log : log_inv (sv_log sv) ∅ (readied t0) (finish_order t0 ++ drained os) (good t0)
            (omap (fin_obs cfg) (t0 ++ os));
  z_q : counts q (finish_order t0 ++ drained os) (handed t0);
  z_nodup : forall n, occ n (finish_order t0 ++ drained os) <= occ n (handed t0);
  z_fo : sv_finished_order sv = finish_order t0;
  z_inf : sv_inflight sv = ∅;
  z_soft : sv_soft sv = sv_soft (st_sv s0);
  z_obs : Forall drain_obs os
}.

Lemma nodup_inf (inf : gmap nat N) : NoDup (map fst (map_to_list inf)).
Proof. apply NoDup_fst_map_to_list. Qed.

Lemma drain_ok s t now :
  config_ok cfg -> Inv cfg s t -> st_todo s = [] ->
  exists sv1 q1 inf os1,
    drain_events cfg (st_events s) (st_sv s) (st_qstate s) (sv_inflight (st_sv s)) now = Some (sv1, q1, inf, os1) /\
    forall order, is_reordering order (map fst (map_to_list inf)) = true ->
      exists sv q os, drain cfg (st_sv s) (st_qstate s) (st_events s) order now = Some (sv, q, os) /\
        drained_ok s t sv q os.
Proof.
  intros Hok [HA HB HC HD] Et. destruct HB as (Hg & new & Hnew & Hln).
  destruct (drain_events_ok s t (st_events s) (st_sv s) (st_qstate s) (sv_inflight (st_sv s)) (finish_order t)
              (omap (fin_obs cfg) t) now Hok HA) as (sv1 & q1 & inf & os1 & He & HE & Hfo & Hso & Hos).
  { split.
    - intros n. apply (a_own _ _ _ HA).
    - intros n. apply (a_se _ _ _ HA).
    - apply (a_ord _ _ _ HA).
    - split; [done|]. exists new. split; [done|]. by eapply log_new_DL.
    - intros a. pose proof (d_infl _ _ _ HD a) as H. rewrite Et in H.
      change (count_aff cfg a (pdec [])) with 0 in H. unfold num_inflight in H. unfold infl. lia. }
  exists sv1, q1, inf, os1. split; [done|]. intros order Hord.
  pose proof (is_reordering_perm _ _ (nodup_inf inf) Hord) as Hperm.
  assert (Hin : forall n, n ∈ order <-> is_Some (inf !! n)).
  { intros n. rewrite Hperm, elem_of_list_fmap. split.
    - intros ([k y] & -> & Hk). apply elem_of_map_to_list in Hk. simpl. rewrite Hk. by eexists.
    - intros [y Hy]. exists (n, y). split; [done|]. by apply elem_of_map_to_list. }
  destruct (drain_inflight_ok order (with_log_inflight sv1 (sv_log sv1) ∅) q1 inf (readied t)
              (finish_order t ++ drained os1) (good t) (handed t) (omap (fin_obs cfg) t ++ omap (fin_obs cfg) os1) now)
    as (sv & q & os2 & Hd & HL & Hq & Hsub & Hdr & Hos2 & Hfo2 & Hif & Hso2).
  - done.
  - apply (e_log _ _ _ _ _ _ _ _ HE).
  - apply (e_q _ _ _ _ _ _ _ _ HE).
  - intros n. destruct (own_handed s t _ _ n HA (e_own _ _ _ _ _ _ _ _ HE n)). lia.
  - intros n. destruct (own_handed s t _ _ n HA (e_own _ _ _ _ _ _ _ _ HE n)).
    pose proof (a_nodup _ _ _ HA n). lia.
  - intros n Hn. assert (n ∈ readied t) as Hr.
    { apply occ_pos. apply occ_pos in Hn.
      destruct (own_handed s t _ _ n HA (e_own _ _ _ _ _ _ _ _ HE n)). lia. }
    split; [done|]. by apply (a_lt _ _ _ HA).
  - rewrite Hperm. apply nodup_inf.
  - exact Hin.
  - intros n Hn. apply Hin in Hn.
    pose proof (e_se _ _ _ _ _ _ _ _ HE n) as Hse. rewrite decide_True in Hse by done. simpl in Hse.
    destruct (own_handed s t _ _ n HA (e_own _ _ _ _ _ _ _ _ HE n)) as [H1 H2].
    pose proof (a_nodup _ _ _ HA n). rewrite occ_nil in *. simpl in *.
    split; [apply occ_pos; lia|apply occ_zero; lia].
  - exists sv, q, (os1 ++ os2). unfold drain. rewrite He, Hord, Hd. split; [done|].
    rewrite <- !List.app_assoc in *. rewrite <- drained_app in *. rewrite <- !omap_app' in *.
    split; try done.
    + by rewrite Hfo2; simpl; rewrite Hfo, (a_fin _ _ _ HA).
    + by rewrite Hso2.
    + apply Forall_app. split; [done|]. rewrite Hos2. apply Forall_forall. intros o Ho.
      by apply elem_of_list_fmap in Ho as (n & -> & _).
Qed.

(** Every reachable state: the invariant, or the state after the drain. *)
Definition Fin (s : st) (t : list obs) : Prop :=
  exists s0 t0 os, Inv cfg s0 t0 /\ st_phase s0 = PExited /\ st_todo s0 = [] /\
    forallb ended (st_clients s0) = true /\
    t = t0 ++ os /\ drained_ok s0 t0 (st_sv s) (st_qstate s) os /\ st_phase s = PDrained /\
    st_clients s = st_clients s0 /\ st_unready s = st_unready s0.

Lemma run_app s a1 a2 s2 t : run cfg s (a1 ++ a2) = Some (s2, t) <->
  exists s1 t1 t2, run cfg s a1 = Some (s1, t1) /\ run cfg s1 a2 = Some (s2, t2) /\ t = t1 ++ t2.
Proof.
  revert s s2 t. induction a1 as [|a a1 IH]; intros s s2 t; cbn [run app].
  - split.
    + intros H. exists s, [], t. done.
    + intros (s1 & t1 & t2 & H1 & H2 & ->). by simplify_eq.
  - destruct (step cfg s a) as [[s' os]|]; [|split; [done|by intros (? & ? & ? & ? & _)]].
    destruct (run cfg s' (a1 ++ a2)) as [[s'' os']|] eqn:E.
    + apply IH in E as (s1 & t1 & t2 & H1 & H2 & ->). rewrite H1. split.
      * intros H. simplify_eq. exists s1, (os ++ t1), t2. by rewrite List.app_assoc.
      * intros (s3 & t3 & t4 & H3 & H4 & ->). simplify_eq. by rewrite List.app_assoc.
    + split; [done|]. intros (s1 & t1 & t2 & H1 & H2 & ->).
      destruct (run cfg s' a1) as [[s3 os3]|] eqn:E1; [|done]. simplify_eq.
      assert (run cfg s' (a1 ++ a2) = Some (s2, os3 ++ t2)) as Hx; [|congruence].
      apply IH. eauto 10.
Qed.

Lemma reachable_step s t a s' os : reachable cfg s t -> step cfg s a = Some (s', os) ->
  reachable cfg s' (t ++ os).
Proof.
  intros [acts H] Hs. exists (acts ++ [a]). apply run_app. exists s, t, os. split_and!; try done.
  simpl. rewrite Hs. by rewrite app_nil_r.
Qed.

(** Induction over reachable states. *)
Lemma reachable_ind' (P : st -> list obs -> Prop) :
  P (initial cfg) [] ->
  (forall s t a s' os, reachable cfg s t -> P s t -> step cfg s a = Some (s', os) -> P s' (t ++ os)) ->
  forall s t, reachable cfg s t -> P s t.
Proof.
  intros H0 Hs s t [acts H]. revert s t H. induction acts as [|a acts IH] using rev_ind; intros s t H.
  - simpl in H. by simplify_eq.
  - apply run_app in H as (s1 & t1 & t2 & H1 & H2 & ->). simpl in H2.
    destruct (step cfg s1 a) as [[s' os]|] eqn:Ea; [|done]. simplify_eq. rewrite app_nil_r.
    eapply Hs; [by exists acts|by apply IH|done].
Qed.

Lemma ended_no_client s0 c x : forallb ended (st_clients s0) = true -> st_clients s0 !! c = Some x -> ended x = true.
Proof.
  intros H Hc. rewrite forallb_forall in H. apply H. apply elem_of_list_In. by eapply elem_of_list_lookup_2.
Qed.

Lemma reach_inv s t : config_ok cfg -> reachable cfg s t ->
  (Inv cfg s t) \/ Fin s t.
Proof.
  intros Hok. revert s t. apply reachable_ind'.
  - left. by apply inv_initial.
  - intros s t a s' os Hr [HI|HF] Hs.
    + destruct a as [| | | | | |order now| | | | | | | | | |];
        try (left; eapply inv_step; [done|done|exact Hs|intros ?? ?; discriminate]).
      cbn [step] in Hs. destruct (st_phase s) eqn:Hph; try done. destruct (st_todo s) eqn:Et; [|done].
      destruct (forallb ended (st_clients s)) eqn:He; [|done].
      destruct (drain_ok s t now Hok HI Et) as (sv1 & q1 & inf & os1 & Hd & Hall). rewrite Hd in Hs.
      destruct (is_reordering order (map fst (map_to_list inf))) eqn:Hord; [|done].
      destruct (Hall order Hord) as (sv & q & os2 & Hdr & Hok2). rewrite Hdr in Hs. injection Hs as <- <-.
      right. exists s, t, os2. split_and!; try done.
    + destruct HF as (s0 & t0 & os0 & HI & Hp0 & Ht0 & He & -> & Hz & Hp & Hc & Hu).
      assert (Hcl : forall c x, st_clients s !! c = Some x -> ended x = true).
      { intros c x Hx. rewrite Hc in Hx. by eapply ended_no_client. }
      destruct a; cbn [step] in Hs; rewrite ?Hp in Hs; try done;
        try (unfold server_idle in Hs; rewrite Hp in Hs; done);
        try (destruct (st_clients s !! c) as [[]|] eqn:Hx; try done; specialize (Hcl _ _ Hx); done).
      * injection Hs as <- <-. right. exists s0, t0, os0. rewrite app_nil_r. split_and!; try done.
      * injection Hs as <- <-. right. exists s0, t0, os0. rewrite app_nil_r. split_and!; try done.
Qed.
End drain.
