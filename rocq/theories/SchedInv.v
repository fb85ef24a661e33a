(** The invariant of the scheduler model. *)
From Verif Require Export SchedBase.

Definition hold_of (x : cstate) : option nat :=
  match x with CClaimed it => Some (i_id it) | CHolding n | CDropped n false => Some n | _ => None end.
Definition run_of (x : cstate) : option nat :=
  match x with CRunning n | CDropped n true => Some n | _ => None end.
Definition claim_of (x : cstate) : option nat :=
  match x with CClaimed it => Some (i_id it) | _ => None end.
Definition start_of (e : event) : option nat :=
  match e with EvStarted n _ _ _ => Some n | _ => None end.
Definition fin_of (e : event) : option nat :=
  match e with EvFinished n _ _ _ => Some n | _ => None end.
Definition inc_of (i : instr) : option nat :=
  match i with IIncReady n _ => Some n | _ => None end.
Definition dec_of (i : instr) : option nat :=
  match i with IDecInflight n _ => Some n | _ => None end.

Definition pend (l : list instr) : list nat := omap inc_of l.
Definition pdec (l : list instr) : list nat := omap dec_of l.
Definition psub (l : list instr) : nat :=
  list_sum (map (fun i => match i with ISubUnready n => n | _ => 0 end) l).

Lemma pend_app l1 l2 : pend (l1 ++ l2) = pend l1 ++ pend l2.
Proof. apply omap_app'. Qed.
Lemma pdec_app l1 l2 : pdec (l1 ++ l2) = pdec l1 ++ pdec l2.
Proof. apply omap_app'. Qed.
Lemma psub_app l1 l2 : psub (l1 ++ l2) = psub l1 + psub l2.
Proof. unfold psub. by rewrite map_app, list_sum_app. Qed.

Section inv.
Variable cfg : config.
Notation g := (cf_g cfg).

Definition nhold (s : st) (n : nat) := occ n (omap hold_of (st_clients s)).
Definition nrun (s : st) (n : nat) := occ n (omap run_of (st_clients s)).
Definition nclaim (s : st) (n : nat) := occ n (omap claim_of (st_clients s)).
Definition nse (s : st) (n : nat) := occ n (omap start_of (st_events s)).
Definition nfe (s : st) (n : nat) := occ n (omap fin_of (st_events s)).
Definition ninf (s : st) (n : nat) :=
  if decide (is_Some (sv_inflight (st_sv s) !! n)) then 1 else 0.
Definition tkb (taken : gset nat) (rd : list nat) (n : nat) : bool :=
  existsb (fun f => bool_decide (rd !! f = Some n)) (elements taken).
Definition tk (s : st) (t : list obs) (n : nat) : nat := Nat.b2n (tkb (st_taken s) (readied t) n).

Definition item_ok (t : list obs) (i : nat) (it : item) : Prop :=
  readied t !! i_flag it = Some (i_id it) /\ N.testbit (i_affinity it) (N.of_nat i) = true /\
  exists c, nodes g !! i_id it = Some c /\ i_affinity it = c_affinity c /\ i_priority it = c_priority c.

Record InvA (s : st) (t : list obs) : Prop := {
  a_fin : sv_finished_order (st_sv s) = finish_order t;
  a_flag : sv_next_flag (st_sv s) = length (readied t);
  a_nodup : forall n, occ n (readied t) <= 1;
  a_lt : forall n, n ∈ readied t -> n < node_count g;
  a_taken : forall f, f ∈ st_taken s -> f < length (readied t);
  a_own : forall n, nhold s n + nrun s n + nfe s n + occ n (finish_order t) = tk s t n;
  a_hd : forall n, occ n (handed t) + nclaim s n = tk s t n;
  a_se : forall n, nrun s n <= nse s n + ninf s n <= nrun s n + nfe s n;
  a_ord : forall e1 n x v f e2, st_events s = e1 ++ EvFinished n x v f :: e2 ->
            n ∉ omap start_of e2;
  a_q : forall i q it, st_queues s !! i = Some q -> it ∈ q -> item_ok t i it;
  a_todo : forall i it, IPush i it ∈ st_todo s -> item_ok t i it /\ i < NUM_RUNNER_TYPES;
  a_pop : forall c it, st_clients s !! c = Some (CPopped it) ->
            exists i, cf_types cfg !! c = Some i /\ item_ok t i it;
  a_claim : forall c it, st_clients s !! c = Some (CClaimed it) ->
            exists i, cf_types cfg !! c = Some i /\ item_ok t i it;
  a_nq : length (st_queues s) = NUM_RUNNER_TYPES;
  a_nc : length (st_closed s) = NUM_RUNNER_TYPES;
  a_ncl : length (st_clients s) = length (cf_types cfg)
}.

(** *** Log *)
Definition fin_rec (e : log_entry) : option (string * Z) :=
  match e with Finished f => Some (f_key f, f_status f) | _ => None end.
Definition fin_obs (o : obs) : option (string * Z) :=
  match o with
  | OFinished n s _ | ODrainFinished n s => Some (task_key cfg n, as_i32 s)
  | _ => None
  end.
Definition task_rec (e : log_entry) : Prop :=
  match e with Header _ | Backref _ => False | _ => True end.

(** The records of a task so far in this call. *)
Definition stage (inf : gmap nat N) (t : list obs) (n : nat) : list kind :=
  if decide (n ∈ readied t) then
    if decide (n ∈ finish_order t) then [KReady; KStarted; KFinished]
    else if decide (is_Some (inf !! n)) then [KReady; KStarted] else [KReady]
  else [].

Definition causal_log (new : list log_entry) : Prop :=
  forall l1 e l2, new = l1 ++ Started e :: l2 ->
    exists n, n < node_count g /\ task_key cfg n = s_key e /\
      forall m, edge g m n -> exists f, In (Finished f) l1 /\ f_key f = task_key cfg m /\
        f_status f = 0%Z.

Record log_new (new : list log_entry) (inf : gmap nat N) (t : list obs) : Prop := {
  b_stage : forall n, n < node_count g -> history (task_key cfg n) new = stage inf t n;
  b_other : forall k, (forall n, n < node_count g -> task_key cfg n <> k) -> history k new = [];
  b_fin : omap fin_rec new = omap fin_obs t;
  b_ready : omap ready_key new = ready_infos cfg (readied t);
  b_causal : causal_log new;
  b_rec : Forall task_rec new
}.

Definition InvB (s : st) (t : list obs) : Prop :=
  log_good (sv_log (st_sv s)) /\
  exists new, lf_entries (sv_log (st_sv s)) = lf_entries (cf_log cfg) ++ new /\
    log_new new (sv_inflight (st_sv s)) t.

(** *** Readiness *)
Definition unmet (t : list obs) (n : nat) : nat :=
  length (List.filter (fun m => negb (bool_decide (m ∈ good t))) (in_neighbors g n)).

Definition exiting (s : st) : Prop := st_phase s = PExited \/ IBreak ∈ st_todo s.

Record InvC (s : st) (t : list obs) : Prop := {
  c_phase : st_phase s <> PPanicked /\ st_phase s <> PDrained;
  c_len : length (sv_statuses (st_sv s)) = node_count g;
  c_stat : sv_soft (st_sv s) = false -> forall n x, sv_statuses (st_sv s) !! n = Some x ->
    (poisoned x = true <-> exists m, edge g m n /\ m ∈ bad t) /\
    (poisoned x = false -> n_unmet_deps x = unmet t n);
  c_ready : st_phase s <> PInit -> sv_soft (st_sv s) = false -> forall n, n < node_count g ->
    (n ∈ readied t <-> forall m, edge g m n -> m ∈ good t);
  c_causal : forall t1 n t2, t = t1 ++ OReady n :: t2 -> forall m, edge g m n -> m ∈ good t1;
  c_init : st_phase s = PInit -> readied t = [] /\ st_todo s = [] /\
     sv_soft (st_sv s) = false /\ sv_open (st_sv s) = true;
  c_open : ~ exiting s -> sv_open (st_sv s) = negb (sv_soft (st_sv s));
  c_closed : exiting s -> sv_open (st_sv s) = false;
  c_roi : (sv_n_roi (st_sv s) + N.of_nat (length (finish_order t)) =
           N.of_nat (length (readied t)))%N;
  c_live : st_phase s = PLoop -> ~ exiting s -> (0 < node_count g) -> (0 < sv_n_roi (st_sv s))%N
}.

(** *** Counters *)
Definition num_ready (s : st) (a : N) : N :=
  match st_qstate s !! a with Some (r, _) => r | None => 0%N end.
Definition num_inflight (s : st) (a : N) : N :=
  match st_qstate s !! a with Some (_, i) => i | None => 0%N end.

Definition pend_ok (q : gmap N (N * N)) (todo : list instr) (it : item) : Prop :=
  is_Some (q !! i_affinity it) /\ i_id it ∉ pend todo.

Record InvD (s : st) (t : list obs) : Prop := {
  d_q : forall i q it, st_queues s !! i = Some q -> it ∈ q -> pend_ok (st_qstate s) (st_todo s) it;
  d_pop : forall c it, st_clients s !! c = Some (CPopped it) -> pend_ok (st_qstate s) (st_todo s) it;
  d_claim : forall c it, st_clients s !! c = Some (CClaimed it) -> pend_ok (st_qstate s) (st_todo s) it;
  d_push : forall l1 i it l2, st_todo s = l1 ++ IPush i it :: l2 ->
    i_id it ∉ pend l2 /\ (is_Some (st_qstate s !! i_affinity it) \/ i_id it ∈ pend l1);
  d_pend_nodup : NoDup (pend (st_todo s));
  d_pend : forall n, n ∈ pend (st_todo s) -> n ∈ readied t;
  d_inc : forall n a, IIncReady n a ∈ st_todo s -> a = aff cfg n;
  d_dec : forall n a, IDecInflight n a ∈ st_todo s -> a = aff cfg n;
  d_pdec : forall n, occ n (pdec (st_todo s)) <= occ n (finish_order t);
  d_handed : forall n, n ∈ handed t -> n ∉ pend (st_todo s);
  d_ready : sv_open (st_sv s) = true -> forall a,
    (num_ready s a + N.of_nat (count_aff cfg a (pend (st_todo s))) +
     N.of_nat (count_aff cfg a (handed t)) = N.of_nat (count_aff cfg a (readied t)))%N;
  d_infl : forall a,
    (num_inflight s a + N.of_nat (count_aff cfg a (finish_order t)) =
     N.of_nat (count_aff cfg a (handed t)) + N.of_nat (count_aff cfg a (pdec (st_todo s))))%N;
  d_set : forall l1 k l2, st_todo s = l1 ++ ISetUnready k :: l2 -> l1 = [] /\
     k = N.of_nat (node_count g) /\ forall k', ISetUnready k' ∉ l2;
  d_unready : st_phase s <> PInit -> (forall k, ISetUnready k ∉ st_todo s) ->
    (st_unready s + N.of_nat (length (readied t)) =
     N.of_nat (node_count g) + N.of_nat (psub (st_todo s)))%N;
  d_unset : forall k, ISetUnready k ∈ st_todo s ->
    length (readied t) = psub (st_todo s);
  d_zero : sv_open (st_sv s) = true -> forall a, IZeroReady a ∉ st_todo s;
  d_close : sv_open (st_sv s) = true -> (forall i, IClose i ∉ st_todo s) /\
     (forall i b, st_closed s !! i = Some b -> b = false)
}.

Record Inv (s : st) (t : list obs) : Prop := {
  inv_a : InvA s t; inv_b : InvB s t; inv_c : InvC s t; inv_d : InvD s t
}.

(** ** Frame lemmas *)
Definition neutral (o : obs) : Prop :=
  match o with OReady _ | OFinished _ _ _ | ODrainFinished _ _ => False | _ => True end.

Lemma neutral_readied os : Forall neutral os -> readied os = [].
Proof. induction 1 as [|o os Ho _ IH]; [done|]. destruct o; done. Qed.
Lemma neutral_finish os : Forall neutral os -> finish_order os = [].
Proof. induction 1 as [|o os Ho _ IH]; [done|]. destruct o; done. Qed.
Lemma neutral_good os : Forall neutral os -> good os = [].
Proof. induction 1 as [|o os Ho _ IH]; [done|]. destruct o; done. Qed.
Lemma neutral_bad os : Forall neutral os -> bad os = [].
Proof. induction 1 as [|o os Ho _ IH]; [done|]. destruct o; done. Qed.
Lemma neutral_fin os : Forall neutral os -> omap fin_obs os = [].
Proof. induction 1 as [|o os Ho _ IH]; [done|]. destruct o; done. Qed.

Lemma readied_neutral t os : Forall neutral os -> readied (t ++ os) = readied t.
Proof. intros H. by rewrite readied_app, (neutral_readied os), app_nil_r. Qed.
Lemma finish_neutral t os : Forall neutral os -> finish_order (t ++ os) = finish_order t.
Proof. intros H. by rewrite finish_order_app, (neutral_finish os), app_nil_r. Qed.
Lemma good_neutral t os : Forall neutral os -> good (t ++ os) = good t.
Proof. intros H. by rewrite good_app, (neutral_good os), app_nil_r. Qed.
Lemma bad_neutral t os : Forall neutral os -> bad (t ++ os) = bad t.
Proof. intros H. by rewrite bad_app, (neutral_bad os), app_nil_r. Qed.

Lemma causal_neutral t os :
  Forall neutral os ->
  (forall t1 n t2, t = t1 ++ OReady n :: t2 -> forall m, edge g m n -> m ∈ good t1) ->
  (forall t1 n t2, t ++ os = t1 ++ OReady n :: t2 -> forall m, edge g m n -> m ∈ good t1).
Proof.
  intros Hos H t1 n t2 Ht. apply app_eq_app in Ht as (k & [[-> Hk]|[-> Hk]]).
  - destruct k as [|o k].
    + simpl in Hk. subst. apply Forall_cons in Hos as [[] _].
    + simpl in Hk. simplify_eq. by apply (H t1 n k).
  - subst. apply Forall_app in Hos as [_ Hos]. apply Forall_cons in Hos as [[] _].
Qed.

Lemma invB_frame s s' t os :
  InvB s t -> sv_log (st_sv s') = sv_log (st_sv s) ->
  sv_inflight (st_sv s') = sv_inflight (st_sv s) -> Forall neutral os ->
  InvB s' (t ++ os).
Proof.
  intros (Hg & new & Hn & Hl) E1 E2 Hos. unfold InvB. rewrite E1, E2. split; [done|].
  exists new. split; [done|]. destruct Hl. split; try done.
  - intros n Hnn. rewrite b_stage0 by done. unfold stage.
    by rewrite readied_neutral, finish_neutral.
  - by rewrite omap_app', (neutral_fin os), app_nil_r.
  - by rewrite readied_neutral.
Qed.

Lemma invC_frame s s' t os :
  InvC s t -> st_sv s' = st_sv s -> st_phase s' = st_phase s ->
  (IBreak ∈ st_todo s' <-> IBreak ∈ st_todo s) ->
  (st_todo s = [] -> st_todo s' = []) -> Forall neutral os ->
  InvC s' (t ++ os).
Proof.
  intros [] E1 E2 E3 E4 Hos.
  assert (exiting s' <-> exiting s) as Hex by (unfold exiting; rewrite E2, E3; done).
  split; rewrite ?E1, ?E2, ?Hex, ?readied_neutral, ?finish_neutral by done; try done.
  - intros Hs n x Hx. destruct (c_stat0 Hs n x Hx) as [H1 H2]. split.
    + by rewrite bad_neutral.
    + intros Hp. rewrite (H2 Hp). unfold unmet. by rewrite good_neutral.
  - rewrite good_neutral by done. done.
  - by apply causal_neutral.
  - intros Hp. destruct (c_init0 Hp) as (? & ? & ? & ?). split_and!; auto.
Qed.
End inv.
