(** Histories in which each session calls execute() at most once. *)
From Verif Require Export SessionHistory.

(** Sessions consist of a header, Backrefs and then task records; each key is ready once. *)
Record simple_log (es : list log_entry) : Prop := SimpleLog {
  sl_backref : forall l1 b l2, es = l1 ++ Backref b :: l2 -> exists l0 hd bs, l1 = l0 ++ Header hd :: brefs bs;
  sl_ready : forall k, ready_once k es
}.

Lemma simple_prefix es new : simple_log (es ++ new) -> simple_log es.
Proof.
  intros [H1 H2]. split.
  - intros l1 b l2 ->. eapply (H1 l1 b (l2 ++ new)). by rewrite <- List.app_assoc.
  - intros k. by eapply ready_once_prefix.
Qed.

Lemma simple_nil : simple_log [].
Proof. split; [intros l1 b l2 H; by destruct l1|intros k l1 r l2 r' l3 H; by destruct l1]. Qed.

Lemma simple_header es h : simple_log es -> simple_log (es ++ [Header h]).
Proof.
  intros [H1 H2]. split.
  - intros l1 b l2 H. apply app_split in H as [(l2' & -> & ->)|(n1 & H & ->)]; [by eapply H1|]. by destruct n1 as [|? [|? ?]].
  - intros k. apply ready_once_pairs, pairs_app; [by apply ready_once_pairs|apply pairs_singleton|].
    intros e1 x e2 n1 y n2 _ E. destruct n1 as [|? [|? ?]]; [|discriminate..]. injection E as <- <-. by destruct x.
Qed.

Lemma simple_execute older hd bs new : simple_log (older ++ [Header hd]) -> Forall task_rec new ->
  (forall k, history k new ∈ attempt_prefixes) -> simple_log ((older ++ [Header hd]) ++ brefs bs ++ new).
Proof.
  intros [H1 H2] Ht Hh. split.
  - intros l1 b l2 H. apply app_split in H as [(l2' & H & ->)|(n1 & H & ->)]; [by eapply H1|].
    apply app_split in H as [(l2' & H & ->)|(n2 & H & ->)].
    + apply brefs_split in H as (b1 & b2 & -> & -> & ->). exists older, hd, b1. by rewrite <- List.app_assoc.
    + exfalso. apply in_split_r in H. rewrite Forall_forall in Ht. apply elem_of_list_In, Ht in H. done.
  - intros k. apply ready_once_pairs, pairs_app; [by apply ready_once_pairs| |].
    + apply pairs_app.
      * intros l1 x l2 y l3 H. apply in_split_r, brefs_in in H as (? & -> & _). done.
      * intros l1 x l2 y l3 H. destruct x as [|r| | |]; try done. destruct y as [|r'| | |]; try done. intros Hr Hr'. exfalso.
        specialize (Hh k). rewrite H, history_app, history_cons, record_of_ready, history_app, history_cons, record_of_ready in Hh by done.
        revert Hh. unfold attempt_prefixes. rewrite !elem_of_cons, elem_of_nil.
        generalize (history k l1), (history k l2), (history k l3). intros a b c HH.
        assert (forall x y z u : list kind, x ++ KReady :: y ++ KReady :: z <> [KReady; KStarted; KFinished] /\ x ++ KReady :: y ++ KReady :: z <> [KReady; KStarted] /\ x ++ KReady :: y ++ KReady :: z <> [KReady] /\ x ++ KReady :: y ++ KReady :: z <> []) as HX.
        { intros x y z _. destruct x as [|x1 [|x2 [|x3 [|x4 x]]]], y as [|y1 [|y2 y]]; repeat split; intros E; simpl in E; try discriminate E; injection E; intros; simplify_list_eq; try done; by destruct y. }
        destruct (HX a b c []) as (? & ? & ? & ?). destruct_or! HH; done.
      * intros e1 x e2 n1 y n2 E _. apply in_split_r, brefs_in in E as (? & -> & _). done.
    + intros e1 x e2 n1 y n2 E _. destruct x as [|r| | |]; try done. destruct y as [|r'| | |]; try done. intros _ _.
      apply has_header_app_l. destruct e2 as [|z e2 _] using rev_ind.
      * apply app_inj_tail in E as [_ E]. done.
      * rewrite app_comm_cons, List.app_assoc in E. apply app_inj_tail in E as [_ <-]. apply has_header_app_r, has_header_cons.
Qed.

Lemma one_execute_prefix h h' : one_execute_each (h ++ h') -> one_execute_each h.
Proof. intros H h1 h2 s -> Hs. eapply (H h1 (h2 ++ h')); [by rewrite List.app_assoc|done]. Qed.

Lemma executes_app a b : executes_in (a ++ b) = executes_in a + executes_in b.
Proof. induction a as [|x a IH]; [done|]. simpl. rewrite IH. lia. Qed.

Definition once_inv (h : list event_of_history) (w : world) : Prop :=
  one_execute_each h -> simple_log (w_file w) /\
  match w_proc w with
  | None => True
  | Some p => simple_log (plog p) /\ exists s, this_session h s /\
      (executes_in s = 0 -> exists older hd, plog p = older ++ [Header hd])
  end.

Lemma simple_take es n : simple_log es -> simple_log (take n es).
Proof. intros H. apply (simple_prefix _ (drop n es)). by rewrite take_drop. Qed.

Lemma once_execution h w ev p x e cfg ids bs s t :
  winv w -> once_inv h w -> w_proc w = Some p -> ~ is_open ev -> execution ev <> None ->
  one_execute_each (h ++ [ev]) -> begun p x e cfg ids bs -> reachable cfg s t ->
  simple_log (lf_entries (sv_log (st_sv s))) /\ simple_log (plog p ++ brefs bs).
Proof.
  intros Hw Hi Hp Hno Hev Ho Hb Hr. destruct (Hi (one_execute_prefix _ _ Ho)) as [_ Hi']. rewrite Hp in Hi'.
  destruct Hi' as (Hs & sess & Hsess & H0). destruct Hw as [_ Hw]. rewrite Hp in Hw.
  destruct (run_inv _ _ _ _ _ _ _ s t Hw Hb Hr) as (_ & _ & new & He & Ht & Hh & _).
  assert (executes_in (sess ++ [ev]) <= 1) as Hle.
  { eapply (Ho (h ++ [ev]) []); [by rewrite app_nil_r|]. by apply this_session_snoc. }
  rewrite executes_app in Hle. simpl in Hle. destruct (execution ev); [|done].
  destruct H0 as (older & hd & Hpl); [lia|]. rewrite Hpl in *. split.
  - rewrite He. by apply simple_execute.
  - rewrite <- (app_nil_r (brefs bs)). apply simple_execute; [done|constructor|]. intros k. by left.
Qed.

Lemma once_step h w ev w' : winv w -> once_inv h w -> wstep w ev w' -> once_inv (h ++ [ev]) w'.
Proof.
  intros Hw Hi Hs Ho. pose proof (one_execute_prefix _ _ Ho) as Ho'. pose proof (Hi Ho') as Hi'.
  destruct Hs; cbn [w_file w_proc] in *; pose proof Hw as [HF Hp]; cbn [w_file w_proc] in *.
  - split; [apply Hi'|]. destruct (open_works F a HF) as (l & p' & Hl & Hop & Hlog & _). simplify_eq.
    unfold plog. rewrite Hlog. cbn [lf_entries]. split; [apply simple_header, Hi'|].
    exists []. split; [apply this_session_open|]. eauto.
  - done.
  - destruct Hi' as (H1 & H2 & s & H3 & H4). split; [done|]. destruct (add_inv _ _ _ _ _ _ _ _ _ _ Hp H H0) as (_ & Hl & _).
    unfold plog in *. cbn [p_graph]. rewrite Hl. split; [done|]. exists (s ++ [HAdded key r]). split.
    + apply this_session_snoc; [by intros [? ?]|done].
    + rewrite executes_app. simpl. intros. apply H4. lia.
  - destruct (begin_execute _ _ _ Hp H) as (e' & cfg' & ids & bs & Hb).
    destruct (begun_unique _ _ _ _ _ _ _ _ Hb H0) as [-> ->].
    assert (~ is_open (HExecuted (x_target x) cfg' [] (0%N, []))) as Hno by (by intros [? ?]).
    destruct (once_execution h (World F (Some p)) (HExecuted (x_target x) cfg' [] (0%N, [])) p x e' cfg' ids bs (initial cfg') []) as [_ Hsl]; try done; [by exists []|].
    destruct Hi' as (H1' & H2 & s & H3 & H4).
    split; [done|]. unfold plog in *. cbn [p_graph]. rewrite (bg_log _ _ _ _ _ _ Hb). cbn [lf_entries]. split; [done|].
    eexists. split; [by apply this_session_snoc|]. rewrite executes_app. simpl. lia.
  - destruct (begin_execute _ _ _ Hp H) as (e' & cfg' & ids & bs & Hb).
    destruct (begun_unique _ _ _ _ _ _ _ _ Hb H0) as [-> ->].
    assert (~ is_open (HExecuted (x_target x) cfg' t (execute_result cfg' s))) as Hno by (by intros [? ?]).
    destruct (once_execution h (World F (Some p)) (HExecuted (x_target x) cfg' t (execute_result cfg' s)) p x e' cfg' ids bs s t) as [Hsl _]; try done; [by exists acts|].
    destruct Hi' as (H1' & H2' & s0 & H3' & H4').
    split; [done|]. unfold plog. cbn [p_graph end_execute logfile]. split; [done|].
    eexists. split; [by apply this_session_snoc|]. rewrite executes_app. simpl. lia.
  - split; [apply Hi'|done].
  - split; [apply simple_take, Hi'|done].
  - split; [|done]. destruct (begin_execute _ _ _ Hp H) as (e' & cfg' & ids & bs & Hb).
    destruct (begun_unique _ _ _ _ _ _ _ _ Hb H0) as [-> ->].
    assert (~ is_open (HKilledInExecute (x_target x) cfg' t)) as Hno by (by intros [? ?]).
    apply simple_take. eapply (once_execution h (World F (Some p)) (HKilledInExecute (x_target x) cfg' t) p x e' cfg' ids bs s t); try done.
    by exists acts.
Qed.

Lemma once_holds h w : possible h w -> once_inv h w.
Proof.
  revert h w. apply possible_ind'; [split; [apply simple_nil|done]|].
  intros h w ev w' Hh IH Hs. eapply once_step; [by eapply possible_inv|done|done].
Qed.

Lemma once_file h w : possible h w -> one_execute_each h -> simple_log (w_file w).
Proof. intros Hh Ho. by apply (once_holds h w Hh Ho). Qed.

(** ** The snapshot reader on logs of the program *)
Lemma backrefs_distinct es older hd seg : good_log es -> last_segment es older hd seg -> NoDup (backref_keys seg).
Proof.
  intros Hg [Hns Hh]. assert (pairs R_backref seg) as Hp.
  { intros l1 x l2 y l3 E. destruct hd as [h|]; destruct Hh as [Ha Hb].
    - eapply (g_backref _ Hg (older ++ h :: l1) x l2 y l3). rewrite Hb, E. by rewrite <- List.app_assoc.
    - eapply (g_backref _ Hg l1 x l2 y l3). by rewrite Hb. }
  assert (~ has_header seg) as Hn.
  { intros [h Hin]. apply (Hns _ Hin). by exists h. }
  clear - Hp Hn. induction seg as [|x seg IH]; [constructor|].
  assert (NoDup (backref_keys seg)) as Hnd.
  { apply IH.
    - intros l1 y l2 z l3 E. apply (Hp (x :: l1) y l2 z l3). by rewrite E.
    - intros [h Hin]. apply Hn. exists h. by right. }
  destruct x as [| | | |b]; try done. change (NoDup (b_key b :: backref_keys seg)). constructor; [|done].
  intros Hin. apply elem_of_list_In, In_backref_keys in Hin as (b' & Hin & Hk). apply in_split in Hin as (a & c & ->).
  apply Hn. assert (has_header a) as Ha by (eapply (Hp [] (Backref b) a (Backref b') c); done).
  destruct Ha as [h Ha]. exists h. right. apply in_app_iff. by left.
Qed.

Definition is_ready_of (k : string) (e : log_entry) : bool :=
  match e with Ready r => String.eqb (r_key r) k | _ => false end.
Definition is_record_of (k : string) (e : log_entry) : bool :=
  match record_of k e with Some _ => true | None => false end.

Lemma in_latest_one k x later :
  in_latest_attempt [k] x later = is_record_of k x && negb (existsb (is_ready_of k) later).
Proof.
  unfold in_latest_attempt, is_record_of. destruct x as [h|r|s|f|b]; try done; simpl; rewrite orb_false_r.
  - destruct (String.eqb_spec (r_key r) k) as [->|Hne]; done.
  - destruct (String.eqb_spec (s_key s) k) as [->|Hne]; done.
  - destruct (String.eqb_spec (f_key f) k) as [->|Hne]; done.
Qed.

Lemma latest_skip k pre l : existsb (is_ready_of k) l = true -> latest_attempts [k] (pre ++ l) = latest_attempts [k] l.
Proof.
  intros Hl. induction pre as [|x pre IH]; [done|]. cbn [app latest_attempts].
  rewrite in_latest_one, existsb_app, Hl, orb_true_r, andb_false_r. exact IH.
Qed.

Lemma latest_filter k l : existsb (is_ready_of k) l = false -> latest_attempts [k] l = List.filter (is_record_of k) l.
Proof.
  induction l as [|x l IH]; [done|]. cbn [existsb latest_attempts List.filter]. intros H. apply orb_false_iff in H as [_ H].
  rewrite in_latest_one, H, IH by done. rewrite andb_true_r. done.
Qed.

Lemma no_record_ready k l : no_record k l -> existsb (is_ready_of k) l = false.
Proof.
  intros H. apply not_true_iff_false. intros Hx. apply existsb_exists in Hx as (x & Hin & Hx).
  apply H in Hin. destruct x; try done. simpl in *. by rewrite Hx in Hin.
Qed.

Lemma no_record_filter k l : no_record k l -> List.filter (is_record_of k) l = [].
Proof.
  induction l as [|x l IH]; [done|]. intros H. cbn [List.filter]. unfold is_record_of at 1.
  rewrite (H x) by (by left). apply IH. intros e He. apply H. by right.
Qed.

Lemma finished_latest es k c sr ok : status_in es k (Some (RFinished c sr ok)) ->
  exists r s f, latest_attempts [k] es = [Ready r; Started s; Finished f] /\
    r_key r = k /\ s_key s = k /\ f_key f = k /\ (ok = true <-> f_status f = 0%Z).
Proof.
  intros (pre & r & mid & s & mid' & f & post & -> & Hr & _ & _ & Hm & Hs & Hm' & Hf & Hok & Hp).
  exists r, s, f. split; [|done].
  assert (existsb (is_ready_of k) (mid ++ Started s :: mid' ++ Finished f :: post) = false) as Hnr.
  { rewrite !existsb_app. cbn [existsb]. rewrite !existsb_app. cbn [existsb is_ready_of].
    by rewrite !no_record_ready by done. }
  rewrite latest_skip by (cbn [existsb is_ready_of]; by rewrite (proj2 (String.eqb_eq _ _) Hr)).
  cbn [latest_attempts]. rewrite in_latest_one, Hnr. cbn [negb]. rewrite andb_true_r.
  unfold is_record_of at 1. rewrite record_of_ready by done. f_equal. rewrite latest_filter by done.
  rewrite List.filter_app, (no_record_filter k mid) by done. cbn [app List.filter]. unfold is_record_of at 1. rewrite record_of_started by done. f_equal.
  rewrite List.filter_app, (no_record_filter k mid') by done. cbn [app List.filter]. unfold is_record_of at 1. rewrite record_of_finished by done. f_equal.
  by apply no_record_filter.
Qed.

Lemma reused_entries es older hd seg k :
  good_log es -> simple_log es -> last_segment es older hd seg -> In k (backref_keys seg) ->
  no_record k seg /\
  exists r s f, latest_attempts [k] older = [Ready r; Started s; Finished f] /\
    r_key r = k /\ s_key s = k /\ f_key f = k.
Proof.
  intros Hg Hsl [Hns Hh] Hk. apply In_backref_keys in Hk as (b & Hin & Hb). apply in_split in Hin as (a & c & ->).
  destruct hd as [h|]; destruct Hh as [Hh ->].
  2:{ exfalso. destruct older; [|done]. pose proof (g_first _ Hg) as Hf. destruct a as [|x a].
      - by destruct (Hf _ _ eq_refl).
      - eapply (Hns x); [by left|]. by eapply Hf. }
  destruct Hh as [h0 ->].
  assert (exists bs, a = brefs bs) as [bs ->].
  { destruct (sl_backref _ Hsl (older ++ Header h0 :: a) b c) as (l0 & hd & bs & E); [by rewrite <- List.app_assoc|].
    exists bs. apply app_split in E as [(l2' & E & E2)|(n1 & E & ->)].
    - exfalso. assert (In (Header h0) (brefs bs)) as Hin by (rewrite E2; apply in_app_iff; right; by left).
      by apply brefs_in in Hin as (? & ? & _).
    - destruct n1 as [|z n1]; simpl in E; injection E as E1 E; [done|].
      exfalso. apply (Hns (Header hd)); [|by exists hd]. rewrite E. apply in_app_iff. left. apply in_app_iff. right. by left. }
  assert (no_record k (brefs bs ++ Backref b :: c)) as Hnr.
  { intros e He. apply in_app_iff in He as [He|[<-|He]]; [by eapply no_record_brefs|done|].
    destruct (record_of k e) eqn:Hr; [|done]. exfalso. apply in_split in He as (c1 & c2 & ->).
    destruct (g_after _ Hg (older ++ Header h0 :: brefs bs) (Backref b) c1 e c2) as [h' Hh'].
    - by rewrite <- List.app_assoc.
    - by rewrite Hb, Hr.
    - apply (Hns (Header h')); [|by exists h']. apply in_app_iff. right. right. apply in_app_iff. by left. }
  split; [done|].
  pose proof (g_target _ Hg (older ++ Header h0 :: brefs bs) b c) as Ht. rewrite Hb in Ht.
  rewrite <- List.app_assoc in Ht. specialize (Ht eq_refl).
  rewrite history_app in Ht. rewrite (history_nil_of k (Header h0 :: brefs bs)), app_nil_r in Ht.
  2:{ intros e [<-|He]; [done|]. by eapply no_record_brefs. }
  assert (log_wf older) as Hwf.
  { eapply (log_wf_prefix older). apply (g_wf _ Hg). }
  destruct (log_writes_total new_log older new_log_good Hwf) as [l Hl].
  destruct (log_writes_good _ _ _ new_log_good Hl) as [[[Hm _] _] He]. simpl in He. specialize (Hm k). rewrite He in Hm.
  rewrite (status_in_last_kind _ _ _ Hm) in Ht. destruct (runcounts (lf_state l) !! k) as [[| |cc sr ok]|]; try done.
  destruct (finished_latest _ _ _ _ _ Hm) as (r & s & f & ? & ? & ? & ? & _). by exists r, s, f.
Qed.
