(** Lemmas about the pieces of the scheduler model, used by the invariant proofs. *)
From Verif Require Export SchedSpec GraphProofs LogProofs.

(** ** Counting *)
Definition occ (n : nat) (l : list nat) : nat := count_occ Nat.eq_dec l n.

Definition one (n : nat) (o : option nat) : nat :=
  match o with Some m => if Nat.eqb n m then 1 else 0 | None => 0 end.

Global Arguments occ : simpl never.
Global Arguments one : simpl never.

Lemma occ_nil n : occ n [] = 0.
Proof. done. Qed.

Lemma occ_cons n m l : occ n (m :: l) = one n (Some m) + occ n l.
Proof.
  unfold occ, one. simpl. destruct (Nat.eq_dec m n), (Nat.eqb_spec n m); subst; try done; lia.
Qed.

Lemma occ_app n l1 l2 : occ n (l1 ++ l2) = occ n l1 + occ n l2.
Proof. apply count_occ_app. Qed.

Lemma occ_pos n l : 0 < occ n l <-> n ∈ l.
Proof. unfold occ. rewrite elem_of_list_In. symmetry. apply count_occ_In. Qed.

Lemma occ_zero n l : occ n l = 0 <-> n ∉ l.
Proof. rewrite <- occ_pos. lia. Qed.

Lemma occ_nodup l : NoDup l <-> forall n, occ n l <= 1.
Proof.
  rewrite NoDup_ListNoDup. unfold occ. apply (NoDup_count_occ Nat.eq_dec).
Qed.

Lemma occ_omap_insert {A} (f : A -> option nat) (l : list A) c x y n :
  l !! c = Some y ->
  occ n (omap f (<[c:=x]> l)) + one n (f y) = occ n (omap f l) + one n (f x).
Proof.
  revert c. induction l as [|z l IH]; intros [|c] H; simplify_eq/=.
  - destruct (f x), (f y); rewrite ?occ_cons; unfold one in *; simpl; lia.
  - specialize (IH c H). destruct (f z); rewrite ?occ_cons; lia.
Qed.

Lemma occ_omap_cons {A} (f : A -> option nat) x l n :
  occ n (omap f (x :: l)) = one n (f x) + occ n (omap f l).
Proof. cbn [omap list_omap]. destruct (f x); [apply occ_cons|done]. Qed.

Lemma occ_omap_le {A} (f h : A -> option nat) l n :
  (forall x n, one n (f x) <= one n (h x)) -> occ n (omap f l) <= occ n (omap h l).
Proof.
  intros H. induction l as [|x l IH]; [done|]. rewrite !occ_omap_cons. specialize (H x n). lia.
Qed.

Lemma omap_app' {A B} (f : A -> option B) l1 l2 : omap f (l1 ++ l2) = omap f l1 ++ omap f l2.
Proof. apply omap_app. Qed.

(** ** Projections of traces *)
Definition is_ready (o : obs) : option nat := match o with OReady n => Some n | _ => None end.

Definition good_of (o : obs) : option nat :=
  match o with OFinished n s _ => if is_success s then Some n else None | _ => None end.
Definition bad_of (o : obs) : option nat :=
  match o with OFinished n s _ => if is_success s then None else Some n | _ => None end.
Definition good (t : list obs) : list nat := omap good_of t.
Definition bad (t : list obs) : list nat := omap bad_of t.

Lemma is_success_iff s : is_success s = true <-> s = Code 0.
Proof.
  destruct s as [c| |]; simpl; split; try done.
  - intros H. apply Z.eqb_eq in H. by subst.
  - intros H. by inversion H.
Qed.

Lemma elem_of_good t n : n ∈ good t <-> succeeded t n.
Proof.
  unfold good, succeeded, finished_with. rewrite elem_of_list_omap. split.
  - intros (o & Ho & Hg). apply elem_of_list_In in Ho. destruct o; try done. simpl in Hg.
    destruct (is_success s) eqn:Hs; [|done]. apply is_success_iff in Hs. simplify_eq. by eexists.
  - intros (e & He). exists (OFinished n (Code 0) e). rewrite elem_of_list_In. done.
Qed.

Lemma elem_of_bad t n : n ∈ bad t <-> failed t n.
Proof.
  unfold bad, failed, finished_with. rewrite elem_of_list_omap. split.
  - intros (o & Ho & Hg). apply elem_of_list_In in Ho. destruct o; try done. simpl in Hg.
    destruct (is_success s) eqn:Hs; [done|]. simplify_eq. exists s. split; [by eexists|].
    intros Hc. apply is_success_iff in Hc. congruence.
  - intros (s & (e & He) & Hs). exists (OFinished n s e). rewrite elem_of_list_In. split; [done|].
    simpl. destruct (is_success s) eqn:Hx; [|done]. by apply is_success_iff in Hx.
Qed.

Lemma elem_of_finish_order t n : n ∈ finish_order t <-> finished t n.
Proof.
  unfold finish_order, finished, finished_with. rewrite elem_of_list_omap. split.
  - intros (o & Ho & Hg). apply elem_of_list_In in Ho. destruct o; try done. simplify_eq. eauto.
  - intros (s & e & He). exists (OFinished n s e). by rewrite elem_of_list_In.
Qed.

Lemma elem_of_readied t n : n ∈ readied t <-> made_ready t n.
Proof.
  unfold readied, made_ready. rewrite elem_of_list_omap. split.
  - intros (o & Ho & Hg). apply elem_of_list_In in Ho. destruct o; by simplify_eq.
  - intros He. exists (OReady n). by rewrite elem_of_list_In.
Qed.

Lemma elem_of_handed t n : n ∈ handed t <-> handed_out t n.
Proof.
  unfold handed, handed_out. rewrite elem_of_list_omap. split.
  - intros (o & Ho & Hg). apply elem_of_list_In in Ho. destruct o; simplify_eq. eauto.
  - intros (c & i & He). exists (OHandedOut c i n). by rewrite elem_of_list_In.
Qed.

Lemma occ_good_bad t n : occ n (good t) + occ n (bad t) = occ n (finish_order t).
Proof.
  induction t as [|o t IH]; [done|].
  destruct o; try exact IH.
  change (good (OFinished n0 s elapsed :: t)) with
    (match (if is_success s then Some n0 else None) with Some y => y :: good t | None => good t end).
  change (bad (OFinished n0 s elapsed :: t)) with
    (match (if is_success s then None else Some n0) with Some y => y :: bad t | None => bad t end).
  change (finish_order (OFinished n0 s elapsed :: t)) with (n0 :: finish_order t).
  destruct (is_success s); rewrite ?occ_cons; lia.
Qed.

Lemma good_app t1 t2 : good (t1 ++ t2) = good t1 ++ good t2.
Proof. apply omap_app'. Qed.
Lemma bad_app t1 t2 : bad (t1 ++ t2) = bad t1 ++ bad t2.
Proof. apply omap_app'. Qed.
Lemma readied_app t1 t2 : readied (t1 ++ t2) = readied t1 ++ readied t2.
Proof. apply omap_app'. Qed.
Lemma handed_app t1 t2 : handed (t1 ++ t2) = handed t1 ++ handed t2.
Proof. apply omap_app'. Qed.
Lemma finish_order_app t1 t2 : finish_order (t1 ++ t2) = finish_order t1 ++ finish_order t2.
Proof. apply omap_app'. Qed.

Lemma omap_map_none {A B C} (f : B -> option C) (h : A -> B) l :
  (forall x, f (h x) = None) -> omap f (map h l) = [].
Proof. intros H. induction l as [|x l IH]; simpl; [done|]. by rewrite H. Qed.

Lemma readied_map_ready l : readied (map OReady l) = l.
Proof. unfold readied. induction l as [|x l IH]; simpl; [done|]. by f_equal. Qed.
Lemma handed_map_ready l : handed (map OReady l) = [].
Proof. by apply omap_map_none. Qed.
Lemma good_map_ready l : good (map OReady l) = [].
Proof. by apply omap_map_none. Qed.
Lemma bad_map_ready l : bad (map OReady l) = [].
Proof. by apply omap_map_none. Qed.
Lemma finish_order_map_ready l : finish_order (map OReady l) = [].
Proof. by apply omap_map_none. Qed.

(** ** Graph lemmas *)
Lemma in_out_occ {A} (g : digraph A) u v :
  occ u (in_neighbors g v) = occ v (out_neighbors g u).
Proof.
  unfold in_neighbors, out_neighbors, occ.
  assert (forall l x, count_occ Nat.eq_dec (rev l) x = count_occ Nat.eq_dec l x) as Hrev.
  { intros l x. induction l as [|y l IH]; simpl; [done|]. rewrite count_occ_app. simpl.
    destruct (Nat.eq_dec y x); lia. }
  rewrite !Hrev. induction (edges g) as [|[a b] l IH]; simpl; [done|].
  destruct (Nat.eqb_spec b v) as [Hb|Hb], (Nat.eqb_spec a u) as [Ha|Ha]; simpl;
    repeat destruct (Nat.eq_dec _ _); subst; try done; lia.
Qed.

Lemma elem_of_in_neighbors {A} (g : digraph A) u v : u ∈ in_neighbors g v <-> edge g u v.
Proof.
  unfold in_neighbors, edge. rewrite elem_of_list_In, <- in_rev, in_map_iff. split.
  - intros ([a b] & <- & H). apply filter_In in H as [H1 H2]. simpl in *.
    apply Nat.eqb_eq in H2. by subst.
  - intros H. exists (u, v). split; [done|]. apply filter_In. split; [done|]. simpl.
    by rewrite Nat.eqb_refl.
Qed.

Lemma elem_of_out_neighbors {A} (g : digraph A) u v : v ∈ out_neighbors g u <-> edge g u v.
Proof. by rewrite <- occ_pos, <- in_out_occ, occ_pos, elem_of_in_neighbors. Qed.

(** ** visit_downstream *)
Lemma visit_downstream_bad targets ss :
  (forall d, d ∈ targets -> d < length ss) ->
  exists ss', visit_downstream false targets ss = Some (ss', []) /\ length ss' = length ss /\
    forall d x, ss !! d = Some x ->
      ss' !! d = Some (if decide (d ∈ targets) then TaskStatus (n_unmet_deps x) true else x).
Proof.
  revert ss. induction targets as [|d targets IH]; intros ss Hlen; simpl.
  - exists ss. split_and!; try done.
  - assert (d < length ss) as Hd by (apply Hlen; by left).
    destruct (lookup_lt_is_Some_2 ss d Hd) as [x Hx]. rewrite Hx.
    destruct (IH (<[d := TaskStatus (n_unmet_deps x) true]> ss)) as (ss' & -> & Hl & Hss').
    { intros d' Hd'. rewrite insert_length. apply Hlen. by right. }
    exists ss'. split; [done|]. rewrite insert_length in Hl. split; [done|].
    intros d' y Hy. destruct (decide (d' = d)) as [->|Hne].
    + rewrite Hx in Hy. simplify_eq.
      rewrite (Hss' d (TaskStatus (n_unmet_deps y) true)) by (by apply list_lookup_insert).
      rewrite (decide_True _ _ (P := d ∈ d :: targets)) by (by left).
      by destruct (decide _).
    + rewrite (Hss' d' y) by (by rewrite list_lookup_insert_ne).
      destruct (decide (d' ∈ targets)) as [Hi|Hi].
      * by rewrite decide_True by (by right).
      * rewrite decide_False; [done|]. by rewrite not_elem_of_cons.
Qed.

Lemma visit_downstream_good targets ss :
  (forall d, d ∈ targets -> exists x, ss !! d = Some x /\
     (poisoned x = false -> occ d targets <= n_unmet_deps x)) ->
  exists ss' ready, visit_downstream true targets ss = Some (ss', ready) /\
    length ss' = length ss /\
    (forall d x, ss !! d = Some x ->
      ss' !! d = Some (if poisoned x then x
                       else TaskStatus (n_unmet_deps x - occ d targets) false)) /\
    (forall d, occ d ready <= 1) /\
    (forall d, d ∈ ready <-> d ∈ targets /\ exists x, ss !! d = Some x /\
        poisoned x = false /\ n_unmet_deps x = occ d targets).
Proof.
  revert ss. induction targets as [|d targets IH]; intros ss H; cbn [visit_downstream].
  - exists ss, []. split_and!; try done.
    + intros d x Hx. rewrite Hx. destruct x as [u p]; simpl. destruct p; [done|].
      rewrite occ_nil, Nat.sub_0_r. done.
    + intros d. rewrite occ_nil. lia.
    + intros d. rewrite !elem_of_nil. tauto.
  - destruct (H d ltac:(by left)) as (x & Hx & Hle). rewrite Hx.
    destruct (poisoned x) eqn:Hp.
    + destruct (IH ss) as (ss' & ready & -> & Hl & Hss & Ho & Hr).
      { intros d' Hd'. destruct (H d' ltac:(by right)) as (x' & Hx' & Hle'). exists x'. split; [done|].
        intros Hp'. specialize (Hle' Hp'). rewrite occ_cons in Hle'. lia. }
      exists ss', ready. split_and!; try done.
      * intros d' x' Hx'. rewrite (Hss d' x' Hx'). destruct (poisoned x') eqn:Hp'; [done|].
        rewrite occ_cons. unfold one. destruct (Nat.eqb_spec d' d) as [->|Hne]; [congruence|done].
      * intros d'. rewrite Hr. split.
        -- intros (Hd' & x' & Hx' & Hp' & Hu). split; [by right|]. exists x'. split_and!; try done.
           rewrite occ_cons. unfold one. destruct (Nat.eqb_spec d' d) as [->|Hne]; [congruence|done].
        -- intros (Hd' & x' & Hx' & Hp' & Hu). rewrite occ_cons in Hu. unfold one in Hu.
           destruct (Nat.eqb_spec d' d) as [->|Hne]; [congruence|]. split; [|by exists x'].
           rewrite elem_of_cons in Hd'. by destruct Hd'.
    + specialize (Hle eq_refl). rewrite occ_cons in Hle. unfold one in Hle.
      rewrite Nat.eqb_refl in Hle.
      destruct (n_unmet_deps x) as [|k] eqn:Hk; [lia|].
      destruct (IH (<[d := TaskStatus k false]> ss)) as (ss' & ready & -> & Hl & Hss & Ho & Hr).
      { intros d' Hd'. destruct (decide (d' = d)) as [->|Hne].
        - exists (TaskStatus k false). rewrite list_lookup_insert by (by eapply lookup_lt_Some).
          split; [done|]. simpl. lia.
        - destruct (H d' ltac:(by right)) as (x' & Hx' & Hle'). exists x'.
          rewrite list_lookup_insert_ne by done. split; [done|].
          intros Hp'. specialize (Hle' Hp'). rewrite occ_cons in Hle'. lia. }
      rewrite insert_length in Hl.
      assert (Hrd : d ∈ ready <-> d ∈ targets /\ k = occ d targets).
      { rewrite Hr. rewrite list_lookup_insert by (by eapply lookup_lt_Some). split.
        - intros (? & y & Hy & _ & Hu). simplify_eq/=. done.
        - intros (? & Hu). split; [done|]. eexists. split_and!; done. }
      assert (Hrn : k = 0 -> d ∉ ready).
      { intros -> Hin. apply Hrd in Hin as [Hin Ho']. apply occ_pos in Hin. lia. }
      exists ss', (if Nat.eqb k 0 then d :: ready else ready). split_and!; try done.
      * intros d' x' Hx'. destruct (decide (d' = d)) as [->|Hne].
        -- assert (x' = x) as -> by congruence. rewrite Hp, Hk.
           rewrite (Hss d (TaskStatus k false)) by (apply list_lookup_insert; by eapply lookup_lt_Some).
           simpl. rewrite occ_cons. unfold one. rewrite Nat.eqb_refl. by f_equal.
        -- rewrite (Hss d' x') by (by rewrite list_lookup_insert_ne).
           rewrite occ_cons. unfold one. destruct (Nat.eqb_spec d' d); [done|].
           destruct (poisoned x'); [done|]. f_equal.
      * intros d'. destruct (Nat.eqb_spec k 0) as [Hk0|Hk0]; [|apply Ho].
        rewrite occ_cons. unfold one. destruct (Nat.eqb_spec d' d) as [->|Hne]; [|apply Ho].
        specialize (Hrn Hk0). apply occ_zero in Hrn. lia.
      * intros d'. destruct (decide (d' = d)) as [->|Hne].
        -- transitivity (k = occ d targets).
           ++ destruct (Nat.eqb_spec k 0) as [Hk0|Hk0].
              ** split; [|intros _; by left]. intros _.
                 lia.
              ** rewrite Hrd. split; [tauto|]. intros ->. split; [|done]. apply occ_pos. lia.
           ++ rewrite occ_cons. unfold one. rewrite Nat.eqb_refl. split.
              ** intros ->. split; [by left|]. exists x. split_and!; try done.
              ** intros (_ & y & Hy & _ & Hu). assert (y = x) as -> by congruence. lia.
        -- transitivity (d' ∈ ready).
           { destruct (Nat.eqb k 0); [|done]. rewrite elem_of_cons. tauto. }
           rewrite Hr, elem_of_cons. rewrite list_lookup_insert_ne by done.
           rewrite occ_cons. unfold one. destruct (Nat.eqb_spec d' d); [done|]. tauto.
Qed.

(** ** Ready records *)
Section base.
Variable cfg : config.
Notation g := (cf_g cfg).

Definition is_ready_rec (e : log_entry) : Prop := exists r, e = Ready r.

Lemma log_write_ready_ok l r : exists l', log_write l (Ready r) = Some l'.
Proof. unfold log_write. simpl. eexists. done. Qed.

Definition ready_key (e : log_entry) : option (string * N * N) :=
  match e with Ready r => Some (r_key r, r_runcount r, r_storage_root r) | _ => None end.

Lemma ready_records_ok ready : forall l flag,
  (forall n, n ∈ ready -> n < node_count g) -> log_good l ->
  exists l' items recs, ready_records cfg ready l flag = Some (l', items) /\
    log_good l' /\ lf_entries l' = lf_entries l ++ recs /\
    Forall is_ready_rec recs /\
    omap ready_key recs =
      omap (fun n => option_map (fun c => (c_key c, c_runcount c, c_storage_root c)) (nodes g !! n)) ready /\
    map i_id items = ready /\
    (forall j it, items !! j = Some it -> i_flag it = flag + j /\
       exists c, nodes g !! i_id it = Some c /\ i_affinity it = c_affinity c /\
         i_priority it = c_priority c).
Proof.
  induction ready as [|n ready IH]; intros l flag Hin Hg; cbn [ready_records].
  - exists l, [], []. rewrite app_nil_r. split_and!; try done.
  - destruct (lookup_lt_is_Some_2 (nodes g) n) as [c Hc]; [apply Hin; by left|].
    rewrite Hc. unfold write_ready.
    edestruct (log_write_ready_ok l) as [l1 Hl1]. rewrite Hl1.
    destruct (log_write_good _ _ _ Hg Hl1) as [Hg1 He1].
    destruct (IH l1 (S flag)) as (l' & items & recs & -> & Hg' & He' & Hr & Hk & Hid & Hit).
    { intros m Hm. apply Hin. by right. }
    { done. }
    eexists l', _, (Ready _ :: recs). split; [done|]. split; [done|].
    split. { rewrite He', He1, <- List.app_assoc. done. }
    split. { constructor; [by eexists|done]. }
    split. { simpl. rewrite Hc. simpl. f_equal. exact Hk. }
    split. { simpl. by rewrite Hid. }
    intros [|j] it Hj; simplify_eq/=.
    + split; [lia|]. by exists c.
    + destruct (Hit j it Hj) as [Hf Hx]. split; [lia|done].
Qed.

Lemma elem_of_pushes items x :
  x ∈ pushes items <-> exists i it, x = IPush i it /\ i < NUM_RUNNER_TYPES /\ it ∈ items /\
    N.testbit (i_affinity it) (N.of_nat i) = true.
Proof.
  unfold pushes. rewrite elem_of_list_In, in_concat. split.
  - intros (l & Hl & Hx). apply in_map_iff in Hl as (i & <- & Hi). apply in_seq in Hi.
    apply in_map_iff in Hx as (it & <- & Hit). apply filter_In in Hit as [Hit Hb].
    exists i, it. rewrite elem_of_list_In. split_and!; try done. lia.
  - intros (i & it & -> & Hi & Hit & Hb). eexists. split.
    + apply in_map_iff. exists i. split; [done|]. apply in_seq. lia.
    + apply in_map_iff. exists it. split; [done|]. apply filter_In. by rewrite <- elem_of_list_In.
Qed.

(** ** The server functions, under the conditions that the invariant provides *)
Definition rinstrs (items : list item) : list instr :=
  match items with
  | [] => []
  | _ => ISubUnready (length items) :: map (fun it => IIncReady (i_id it) (i_affinity it)) items
           ++ pushes items ++ [IIncrCounter]
  end.

Definition item_matches (flag : nat) (items : list item) : Prop :=
  forall j it, items !! j = Some it -> i_flag it = flag + j /\
    exists c, nodes g !! i_id it = Some c /\ i_affinity it = c_affinity c /\
      i_priority it = c_priority c.

Definition ready_infos (l : list nat) : list (string * N * N) :=
  omap (fun n => option_map (fun c => (c_key c, c_runcount c, c_storage_root c)) (nodes g !! n)) l.

Lemma add_to_ready_queue_ok sv ready :
  (forall n, n ∈ ready -> n < node_count g) -> log_good (sv_log sv) ->
  (ready <> [] -> sv_open sv = true) ->
  (sv_n_roi sv + N.of_nat (length ready) < U32)%N ->
  exists l items recs,
    add_to_ready_queue cfg sv ready =
      Some (Server (sv_finished_order sv) (sv_n_failed sv) (sv_n_fizzled sv)
              (sv_n_success sv) (sv_n_roi sv + N.of_nat (length ready)) (sv_inflight sv)
              (sv_statuses sv) (sv_soft sv) (sv_open sv) l (sv_next_flag sv + length ready)
              (sv_recent sv),
            rinstrs items, map OReady ready) /\
    log_good l /\ lf_entries l = lf_entries (sv_log sv) ++ recs /\ Forall is_ready_rec recs /\
    omap ready_key recs = ready_infos ready /\ map i_id items = ready /\
    item_matches (sv_next_flag sv) items.
Proof.
  intros Hin Hg Ho Hroi.
  destruct (ready_records_ok ready (sv_log sv) (sv_next_flag sv) Hin Hg)
    as (l & items & recs & Hrec & Hgl & Hl & Hrr & Hk & Hid & Him).
  exists l, items, recs. split; [|done].
  destruct ready as [|n ready].
  - simpl in Hrec. simplify_eq. simpl.
    rewrite N.add_0_r, Nat.add_0_r. destruct sv; done.
  - unfold add_to_ready_queue. destruct (N.leb_spec U32 (sv_n_roi sv + N.of_nat (length (n :: ready)))); [lia|].
    rewrite Hrec, Ho by done.
    unfold rinstrs. destruct items as [|it items]; [done|].
    do 3 f_equal. rewrite <- Hid at 1. by rewrite map_length.
Qed.

Lemma log_append_ok l e : log_good l -> log_wf (lf_entries l ++ [e]) ->
  exists l', log_write l e = Some l' /\ log_good l' /\ lf_entries l' = lf_entries l ++ [e].
Proof.
  intros Hg Hwf. destruct Hg as [Hm Hw].
  destruct (proj2 (write_state_ok_iff _ _ _ Hm Hw) Hwf) as [s Hs].
  assert (log_write l e = Some (LogFile s (lf_entries l ++ [e]))) as Hl.
  { unfold log_write. by rewrite Hs. }
  eexists. split; [done|]. by apply (log_write_good l e).
Qed.

Lemma log_wf_snoc es e k x :
  log_wf es -> record_of k e = Some x -> (forall k', k' <> k -> record_of k' e = None) ->
  attempts (history k es ++ [x]) -> log_wf (es ++ [e]).
Proof.
  intros Hwf Hk Ho Ha k'. destruct (decide (k' = k)) as [->|Hne].
  - by rewrite (history_snoc k es e x).
  - rewrite history_snoc_other by auto. apply Hwf.
Qed.

Lemma write_started_ok l c host pid slurm :
  log_good l -> last (history (c_key c) (lf_entries l)) = Some KReady ->
  exists l' e, write_started cfg l c host pid slurm = Some l' /\ log_good l' /\
    s_key e = c_key c /\ lf_entries l' = lf_entries l ++ [Started e].
Proof.
  intros Hg Hlast. unfold write_started.
  set (e := StartedEntry _ _ _ _ _).
  destruct (log_append_ok l (Started e) Hg) as (l' & Hl & Hg' & He).
  { apply (log_wf_snoc _ _ (c_key c) KStarted).
    - apply Hg.
    - by apply record_of_started.
    - intros k' Hk'. simpl. rewrite eqb_neq_record; [done|congruence].
    - apply attempts_snoc_started. split; [|done]. apply Hg. }
  exists l', e. split_and!; done.
Qed.

Lemma write_finished_ok l c s v :
  log_good l -> last (history (c_key c) (lf_entries l)) = Some KStarted ->
  exists l' e, write_finished cfg l c s v = Some l' /\ log_good l' /\
    f_key e = c_key c /\ f_status e = as_i32 s /\ f_values e = v /\
    lf_entries l' = lf_entries l ++ [Finished e].
Proof.
  intros Hg Hlast. unfold write_finished.
  set (e := FinishedEntry _ _ _ _).
  destruct (log_append_ok l (Finished e) Hg) as (l' & Hl & Hg' & He).
  { apply (log_wf_snoc _ _ (c_key c) KFinished).
    - apply Hg.
    - by apply record_of_finished.
    - intros k' Hk'. simpl. rewrite eqb_neq_record; [done|congruence].
    - apply attempts_snoc_finished. split; [|done]. apply Hg. }
  exists l', e. split_and!; done.
Qed.

(** The records written for a finish report. *)
Definition finish_recs (k : string) (s : exit_status) (infl : bool) (recs : list log_entry) : Prop :=
  exists f, f_key f = k /\ f_status f = as_i32 s /\
    if infl then recs = [Finished f]
    else exists e, s_key e = k /\ recs = [Started e; Finished f].

Lemma log_finish_ok l inf id c s v :
  log_good l ->
  last (history (c_key c) (lf_entries l)) =
    Some (if bool_decide (is_Some (inf !! id)) then KStarted else KReady) ->
  exists l' recs, log_finish cfg l inf id c s v = Some l' /\ log_good l' /\
    lf_entries l' = lf_entries l ++ recs /\
    finish_recs (c_key c) s (bool_decide (is_Some (inf !! id))) recs.
Proof.
  intros Hg Hlast. unfold log_finish. destruct (inf !! id) as [x|].
  - rewrite bool_decide_true in * by eauto.
    destruct (write_finished_ok l c s v Hg Hlast) as (l' & e & -> & Hg' & Hk & Hs & _ & He).
    exists l', [Finished e]. split_and!; try done. exists e. done.
  - rewrite (bool_decide_false (is_Some None)) in * by (by intros []).
    destruct (write_started_ok l c "" 0 "" Hg Hlast) as (l1 & e1 & -> & Hg1 & Hk1 & He1).
    destruct (write_finished_ok l1 c s v Hg1) as (l' & e & -> & Hg' & Hk & Hs & _ & He).
    { rewrite He1, (history_snoc _ _ _ KStarted) by (by apply record_of_started).
      apply last_snoc. }
    exists l', [Started e1; Finished e]. split_and!; try done.
    + by rewrite He, He1, <- List.app_assoc.
    + exists e. split_and!; try done. exists e1. done.
Qed.

(** Which tasks a finish report makes ready. *)
Definition visited (sv : server) (id : nat) (s : exit_status)
    (ss : list task_status) (ready : list nat) : Prop :=
  if sv_soft sv then ss = sv_statuses sv /\ ready = []
  else visit_downstream (is_success s) (out_neighbors g id) (sv_statuses sv) = Some (ss, ready).

Lemma history_ready_recs recs ready k :
  Forall is_ready_rec recs -> omap ready_key recs = ready_infos ready ->
  (forall n c, n ∈ ready -> nodes g !! n = Some c -> c_key c <> k) ->
  history k recs = [].
Proof.
  intros Hf Ho Hn. apply no_record_history. intros e He.
  rewrite Forall_forall in Hf. destruct (Hf e) as [r ->]; [by apply elem_of_list_In|].
  simpl. apply elem_of_list_In in He.
  assert ((r_key r, r_runcount r, r_storage_root r) ∈ ready_infos ready) as Hin.
  { rewrite <- Ho. apply elem_of_list_omap. by exists (Ready r). }
  apply elem_of_list_omap in Hin as (n & Hnr & Hc).
  destruct (nodes g !! n) as [c|] eqn:Hcn; [|done]. simpl in Hc. injection Hc as Hc1 _ _.
  rewrite eqb_neq_record; [done|]. rewrite <- Hc1. by eapply Hn.
Qed.

Lemma handle_finished_ok sv id s values flag now c ss ready :
  nodes g !! id = Some c ->
  log_good (sv_log sv) ->
  sv_open sv = negb (sv_soft sv) ->
  visited sv id s ss ready ->
  (forall n, n ∈ ready -> n < node_count g) ->
  (N.pred (sv_n_roi sv) + N.of_nat (length ready) < U32)%N ->
  last (history (c_key c) (lf_entries (sv_log sv))) =
    Some (if bool_decide (is_Some (sv_inflight sv !! id)) then KStarted else KReady) ->
  (forall n c', n ∈ ready -> nodes g !! n = Some c' -> c_key c' <> c_key c) ->
  let fizz := (if is_fizzle s (elapsed_of sv id now) then sv_n_fizzled sv + 1 else sv_n_fizzled sv)%N in
  let roi := (N.pred (sv_n_roi sv) + N.of_nat (length ready))%N in
  let over := N.leb (cf_allowed cfg) fizz in
  let soft := over || sv_soft sv in
  let stop := N.eqb roi 0 || (soft && bool_decide (delete id (sv_inflight sv) = ∅)) in
  exists l items recs frecs,
    handle_finished cfg sv id s values flag now =
      Some (Server (sv_finished_order sv ++ [id])
              (if is_success s then sv_n_failed sv else sv_n_failed sv + 1)%N
              fizz
              (if is_success s then sv_n_success sv + 1 else sv_n_success sv)%N
              roi (delete id (sv_inflight sv)) ss soft (negb stop && negb soft) l
              (sv_next_flag sv + length ready)
              (match elapsed_of sv id now with
               | Some e => if is_success s then sv_recent sv ++ [e] else sv_recent sv
               | None => sv_recent sv
               end),
            IDecInflight id (c_affinity c) :: rinstrs items
              ++ (match flag with Some f => [ISetFlag id f] | None => [] end)
              ++ (if over then ICancelToken now :: close_all else [])
              ++ (if stop then close_all ++ IBreak :: zero_all cfg else []),
            OFinished id s (elapsed_of sv id now) :: map OReady ready
              ++ (if over then [OSoft SoftFailures] else [])
              ++ (if stop then [OExit (if N.eqb roi 0 then ExitDone else ExitSoft)] else [])) /\
    log_good l /\ lf_entries l = lf_entries (sv_log sv) ++ recs ++ frecs /\
    Forall is_ready_rec recs /\
    omap ready_key recs = ready_infos ready /\ map i_id items = ready /\
    item_matches (sv_next_flag sv) items /\
    finish_recs (c_key c) s (bool_decide (is_Some (sv_inflight sv !! id))) frecs.
Proof.
  intros Hc Hg Hopen Hvis Hin Hroi Hlast Hkeys fizz roi over soft stop.
  set (sv1 := finished_bookkeeping_1 (with_finished sv id) id s now).
  assert (exists l items recs,
    finished_bookkeeping_2 cfg sv1 id s =
      Some (Server (sv_finished_order sv ++ [id])
              (if is_success s then sv_n_failed sv else sv_n_failed sv + 1)%N
              fizz
              (if is_success s then sv_n_success sv + 1 else sv_n_success sv)%N
              roi (sv_inflight sv) ss (sv_soft sv) (sv_open sv) l
              (sv_next_flag sv + length ready)
              (match elapsed_of sv id now with
               | Some e => if is_success s then sv_recent sv ++ [e] else sv_recent sv
               | None => sv_recent sv
               end), rinstrs items, map OReady ready) /\
    log_good l /\ lf_entries l = lf_entries (sv_log sv) ++ recs /\
    Forall is_ready_rec recs /\
    omap ready_key recs = ready_infos ready /\ map i_id items = ready /\
    item_matches (sv_next_flag sv) items) as (l1 & items & recs & Hb2 & Hg1 & Hl1 & Hr & Hk & Hid & Him).
  { unfold finished_bookkeeping_2. unfold visited in Hvis.
    change (sv_soft sv1) with (sv_soft sv). change (sv_open sv1) with (sv_open sv).
    destruct (sv_soft sv) eqn:Hsoft.
    - destruct Hvis as [-> ->]. simpl in Hopen. rewrite Hopen.
      exists (sv_log sv), [], []. split.
      + unfold sv1, finished_bookkeeping_1, roi, fizz. simpl.
        rewrite Hsoft, Hopen, N.add_0_r, Nat.add_0_r. done.
      + rewrite app_nil_r. split_and!; try done.
    - change (sv_statuses sv1) with (sv_statuses sv). rewrite Hvis.
      destruct (add_to_ready_queue_ok (with_statuses sv1 ss) ready) as (l & items & recs & Ha & Hx).
      + done.
      + done.
      + intros _. simpl. by rewrite Hopen.
      + done.
      + exists l, items, recs. rewrite Ha. simpl in *. rewrite Hsoft. split; [done|exact Hx]. }
  unfold handle_finished. rewrite Hc. fold sv1. rewrite Hb2. simpl sv_log. simpl sv_inflight.
  destruct (log_finish_ok l1 (sv_inflight sv) id c s values Hg1) as (l & frecs & -> & Hgl & Hl & Hfr).
  { rewrite Hl1, history_app, (history_ready_recs recs ready) by (eauto).
    rewrite app_nil_r. done. }
  exists l, items, recs, frecs.
  split; [|split_and!; try done; by rewrite Hl, Hl1, <- List.app_assoc].
  cbn [with_log_inflight sv_n_fizzled sv_finished_order sv_n_failed sv_n_success sv_n_roi sv_inflight
       sv_statuses sv_soft sv_open sv_log sv_next_flag sv_recent].
  fold over. f_equal.
  assert (forall b : bool, (if b then Server (sv_finished_order sv ++ [id])
     (if is_success s then sv_n_failed sv else (sv_n_failed sv + 1)%N) fizz
     (if is_success s then (sv_n_success sv + 1)%N else sv_n_success sv) roi
     (delete id (sv_inflight sv)) ss true false l (sv_next_flag sv + length ready)
     (match elapsed_of sv id now with
               | Some e => if is_success s then sv_recent sv ++ [e] else sv_recent sv
               | None => sv_recent sv
               end)
     else Server (sv_finished_order sv ++ [id])
     (if is_success s then sv_n_failed sv else (sv_n_failed sv + 1)%N) fizz
     (if is_success s then (sv_n_success sv + 1)%N else sv_n_success sv) roi
     (delete id (sv_inflight sv)) ss (sv_soft sv) (sv_open sv) l (sv_next_flag sv + length ready)
     (match elapsed_of sv id now with
               | Some e => if is_success s then sv_recent sv ++ [e] else sv_recent sv
               | None => sv_recent sv
               end)) =
     Server (sv_finished_order sv ++ [id])
     (if is_success s then sv_n_failed sv else (sv_n_failed sv + 1)%N) fizz
     (if is_success s then (sv_n_success sv + 1)%N else sv_n_success sv) roi
     (delete id (sv_inflight sv)) ss (b || sv_soft sv) (negb (b || sv_soft sv)) l (sv_next_flag sv + length ready)
     (match elapsed_of sv id now with
               | Some e => if is_success s then sv_recent sv ++ [e] else sv_recent sv
               | None => sv_recent sv
               end)) as Hif.
  { intros []; simpl; [done|]. by rewrite Hopen. }
  unfold with_closed at 1 2 3 4 5 6 7 8 9. cbn [with_log_inflight sv_n_fizzled sv_finished_order sv_n_failed sv_n_success sv_n_roi sv_inflight
       sv_statuses sv_soft sv_open sv_log sv_next_flag sv_recent].
  rewrite !Hif.
  cbn [with_log_inflight sv_n_fizzled sv_finished_order sv_n_failed sv_n_success sv_n_roi sv_inflight
       sv_statuses sv_soft sv_open sv_log sv_next_flag sv_recent].
  fold soft. fold stop.
  destruct stop; simpl; done.
Qed.

Lemma handle_started_ok sv id host pid slurm now c :
  nodes g !! id = Some c ->
  log_good (sv_log sv) ->
  last (history (c_key c) (lf_entries (sv_log sv))) = Some KReady ->
  sv_inflight sv !! id = None ->
  exists l e,
    handle_started cfg sv id host pid slurm now =
      Some (with_log_inflight sv l (<[id := now]> (sv_inflight sv)), [], [OStarted id]) /\
    log_good l /\ s_key e = c_key c /\ lf_entries l = lf_entries (sv_log sv) ++ [Started e].
Proof.
  intros Hc Hg Hlast Hin. unfold handle_started. rewrite Hc.
  destruct (write_started_ok (sv_log sv) c host pid slurm Hg Hlast) as (l & e & -> & Hg' & Hk & He).
  rewrite Hin. exists l, e. done.
Qed.
End base.
