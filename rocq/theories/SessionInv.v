(** Invariants of the log over whole histories. *)
From Verif Require Export SessionLists.

Lemma log_good_ok l : log_good l <-> log_ok l.
Proof.
  split.
  - intros [Hm Hwf]. unfold log_ok. destruct (log_writes_total new_log (lf_entries l) new_log_good Hwf) as [l' Hl'].
    destruct (log_writes_good _ _ _ new_log_good Hl') as [[Hm' _] He]. simpl in He.
    fold new_log. rewrite Hl'. f_equal. rewrite He in Hm'. destruct l' as [s' es'], l as [s es]. simpl in *. subst es'.
    f_equal. by eapply state_matches_loop_unique.
  - intros H. unfold log_ok in H. by apply (log_writes_good _ _ _ new_log_good) in H as [? _].
Qed.

Lemma last_record_unique k p x m p1 y m1 :
  p ++ x :: m = p1 ++ y :: m1 -> no_record k m -> no_record k m1 ->
  record_of k x <> None -> record_of k y <> None -> p = p1 /\ x = y /\ m = m1.
Proof.
  intros H Hm Hm1 Hr Hr1. apply app_split in H as [(l2' & -> & ->)|(n1 & H & ->)].
  - exfalso. apply no_record_sub in Hm1 as (_ & Hx & _). done.
  - destruct n1 as [|z n1]; simpl in H; injection H as H1 H.
    + subst. rewrite app_nil_r. done.
    + subst m. exfalso. apply no_record_sub in Hm as (_ & Hx & _). done.
Qed.

Lemma success_status es e1 f e2 o :
  status_in es (f_key f) o -> es = e1 ++ Finished f :: e2 -> no_record (f_key f) e2 -> f_status f = 0%Z ->
  exists c sr, o = Some (RFinished c sr true).
Proof.
  intros Hst He Hn Hf.
  assert (record_of (f_key f) (Finished f) <> None) as Hrf by (by rewrite record_of_finished).
  destruct o as [[c sr|c sr|c sr ok]|]; simpl in Hst.
  - destruct Hst as (pre & r & post & He' & Hr & _ & _ & Hpost). rewrite He in He'.
    apply (last_record_unique (f_key f)) in He' as (_ & ? & _); try done. by rewrite record_of_ready.
  - destruct Hst as (pre & r & mid & s' & post & He' & Hr & _ & _ & Hmid & Hs' & Hpost). rewrite He in He'.
    rewrite app_comm_cons, List.app_assoc in He'.
    apply (last_record_unique (f_key f)) in He' as (_ & ? & _); try done. by rewrite record_of_started.
  - destruct Hst as (pre & r & mid & s' & mid' & f' & post & He' & Hr & _ & _ & Hmid & Hs' & Hmid' & Hf' & Hok & Hpost).
    rewrite He in He'. rewrite !app_comm_cons, !List.app_assoc in He'.
    apply (last_record_unique (f_key f)) in He' as (_ & [= <-] & _); try done.
    + exists c, sr. do 2 f_equal. by apply Hok.
    + by rewrite record_of_finished.
  - exfalso. rewrite He in Hst. apply no_record_sub in Hst as (_ & H & _). done.
Qed.

(** ** Properties of every log, closed under prefixes *)
Definition R_backref (x : log_entry) (l : list log_entry) (y : log_entry) : Prop :=
  match x, y with Backref b, Backref b' => b_key b = b_key b' -> has_header l | _, _ => True end.
Definition R_success (x : log_entry) (l : list log_entry) (y : log_entry) : Prop :=
  match x with Finished f => f_status f = 0%Z -> record_of (f_key f) y = None | _ => True end.
Definition R_after (x : log_entry) (l : list log_entry) (y : log_entry) : Prop :=
  match x with Backref b => record_of (b_key b) y <> None -> has_header l | _ => True end.

Record good_log (es : list log_entry) : Prop := GoodLog {
  g_wf : log_wf es;
  g_headers : headers_ok es;
  g_first : forall x l, es = x :: l -> is_header x;
  g_backref : pairs R_backref es;
  g_success : pairs R_success es;
  g_after : pairs R_after es;
  g_target : forall l1 b l2, es = l1 ++ Backref b :: l2 -> last (history (b_key b) l1) = Some KFinished;
  g_counts : forall k es1 es2, es = es1 ++ es2 -> ready_once k es1 -> counts_increase k es1
}.

Lemma good_log_prefix es new : good_log (es ++ new) -> good_log es.
Proof.
  intros [H1 H2 H3 H4 H5 H6 H7 H8]. split.
  - by eapply log_wf_prefix.
  - by eapply headers_ok_prefix.
  - intros x l ->. by eapply H3.
  - by eapply pairs_prefix.
  - by eapply pairs_prefix.
  - by eapply pairs_prefix.
  - intros l1 b l2 ->. eapply (H7 l1 b (l2 ++ new)). by rewrite <- List.app_assoc.
  - intros k es1 es2 ->. apply (H8 k es1 (es2 ++ new)). by rewrite List.app_assoc.
Qed.

Lemma good_log_nil : good_log [].
Proof.
  split; try done.
  - apply log_wf_nil.
  - intros l1 x l2 y l3 H. by destruct l1.
  - intros l1 x l2 y l3 H. by destruct l1.
  - intros l1 x l2 y l3 H. by destruct l1.
  - intros l1 b l2 H. by destruct l1.
  - intros k es1 es2 H _. symmetry in H. apply app_eq_nil in H as [-> _]. intros l1 r1 l2 s l3 r2 l4 H. by destruct l1.
Qed.

Lemma pairs_singleton R x : pairs R [x].
Proof. intros l1 y l2 z l3 H. destruct l1 as [|? [|? ?]]; simpl in H; [|discriminate..]. by destruct l2. Qed.

Lemma history_not_task k es : Forall (fun e => record_of k e = None) es -> history k es = [].
Proof.
  induction 1 as [|e es He _ IH]; [done|]. rewrite history_cons, He. done.
Qed.

Lemma no_record_counts k es new : no_record k new -> counts_increase k es -> counts_increase k (es ++ new).
Proof.
  intros Hn Hc l1 r1 l2 s l3 r2 l4 He Hr1 Hl2 Hs Hr2.
  replace (l1 ++ Ready r1 :: l2 ++ Started s :: l3 ++ Ready r2 :: l4) with
    ((l1 ++ Ready r1 :: l2 ++ Started s :: l3) ++ Ready r2 :: l4) in He
    by (rewrite <- ?List.app_assoc, <- ?app_comm_cons, <- ?List.app_assoc, <- ?app_comm_cons, <- ?List.app_assoc; done).
  apply app_split in He as [(l2' & He & _)|(n1 & He & HL)].
  - eapply (Hc l1 r1 l2 s l3 r2 l2'); try done. rewrite He.
    rewrite <- ?List.app_assoc, <- ?app_comm_cons, <- ?List.app_assoc, <- ?app_comm_cons, <- ?List.app_assoc; done.
  - exfalso. eapply no_rec_ready; [exact Hn|exact He|exact Hr2].
Qed.

(** Append records of which none is a record of a task. *)
Lemma log_wf_app_none es new : log_wf es -> (forall k, no_record k new) -> log_wf (es ++ new).
Proof. intros H Hn k. rewrite history_app, (history_nil_of k new) by done. rewrite app_nil_r. apply H. Qed.

Lemma good_header es h :
  good_log es -> h_version h = 4%N -> (forall h', In (Header h') es -> h_workflow_key h' = h_workflow_key h) ->
  good_log (es ++ [Header h]).
Proof.
  intros [H1 H2 H3 H4 H5 H6 H7 H8] Hv Hk.
  assert (forall k, no_record k [Header h]) as Hnr by (by intros k e [<-|[]]).
  split.
  - by apply log_wf_app_none.
  - destruct H2 as [Ha Hb]. split.
    + intros h' Hin. apply in_app_iff in Hin as [Hin|[[= <-]|[]]]; [by apply Ha|done].
    + intros a b Hin Hin'. apply in_app_iff in Hin as [Hin|[[= <-]|[]]]; apply in_app_iff in Hin' as [Hin'|[[= <-]|[]]].
      * by apply Hb.
      * by apply Hk.
      * symmetry. by apply Hk.
      * done.
  - intros x l E. destruct es as [|z es]; simpl in E; injection E as <- _; [by exists h|exact (H3 z es eq_refl)].
  - apply pairs_app; [done|apply pairs_singleton|]. intros e1 x e2 n1 y n2 _ E.
    destruct n1 as [|? [|? ?]]; [|discriminate..]. injection E as <- <-. by destruct x.
  - apply pairs_app; [done|apply pairs_singleton|]. intros e1 x e2 n1 y n2 _ E.
    destruct n1 as [|? [|? ?]]; [|discriminate..]. injection E as <- <-. by destruct x.
  - apply pairs_app; [done|apply pairs_singleton|]. intros e1 x e2 n1 y n2 _ E.
    destruct n1 as [|? [|? ?]]; [|discriminate..]. injection E as <- <-. destruct x; try done. by intros [].
  - intros l1 b l2 E. apply app_split in E as [(l2' & -> & ->)|(n1 & E & ->)]; [by eapply H7|].
    by destruct n1 as [|? [|? ?]].
  - intros k es1 es2 E Ho. destruct es2 as [|z es2] using rev_ind.
    + rewrite app_nil_r in E. subst es1. apply no_record_counts; [done|]. apply (H8 k es []); [by rewrite app_nil_r|].
      by eapply ready_once_prefix.
    + rewrite List.app_assoc in E. apply app_inj_tail in E as [E _]. by apply (H8 k es1 es2).
Qed.

Lemma has_header_dec l : has_header l \/ ~ has_header l.
Proof.
  induction l as [|x l [IH|IH]].
  - right. by intros [h []].
  - left. destruct IH as [h Hh]. exists h. by right.
  - destruct x as [h| | | |]; [left; apply has_header_cons|right..]; intros [h [Hh|Hh]]; try done; apply IH; by exists h.
Qed.

(** ** The running session *)
Definition last_session (es older : list log_entry) (hd : header_entry) (seg : list log_entry) : Prop :=
  es = older ++ Header hd :: seg /\ ~ has_header seg.

Lemma no_record_brefs k bs : no_record k (brefs bs).
Proof. intros e He. apply in_map_iff in He as (b & <- & _). done. Qed.

Lemma backref_keys_brefs bs : backref_keys (brefs bs) = bs.
Proof. induction bs as [|b bs IH]; [done|]. simpl. f_equal. exact IH. Qed.

Lemma In_backref_keys k es : In k (backref_keys es) <-> exists b, In (Backref b) es /\ b_key b = k.
Proof.
  rewrite <- elem_of_list_In. unfold backref_keys. rewrite elem_of_list_omap. split.
  - intros (e & He & Hk). destruct e; try done. injection Hk as <-. exists b. by rewrite <- elem_of_list_In.
  - intros (b & Hb & <-). exists (Backref b). by rewrite elem_of_list_In.
Qed.

Lemma brefs_split bs n1 b n2 : brefs bs = n1 ++ Backref b :: n2 ->
  exists b1 b2, bs = b1 ++ b_key b :: b2 /\ n1 = brefs b1 /\ n2 = brefs b2.
Proof.
  revert n1. induction bs as [|c bs IH]; intros n1 H; simpl in H; [by destruct n1|].
  destruct n1 as [|x n1]; simpl in H; injection H as Hx H.
  - exists [], bs. subst b n2. done.
  - apply IH in H as (b1 & b2 & -> & -> & ->). exists (c :: b1), b2. split; [done|]. subst x. done.
Qed.

Lemma brefs_in bs e : In e (brefs bs) -> exists k, e = Backref (BackrefEntry k) /\ In k bs.
Proof. intros H. apply in_map_iff in H as (k & <- & Hk). by exists k. Qed.

Lemma in_split_r {A} (l n1 n2 : list A) y : l = n1 ++ y :: n2 -> In y l.
Proof. intros ->. apply in_app_iff. right. by left. Qed.

Lemma good_brefs es older hd seg bs :
  good_log es -> last_session es older hd seg -> NoDup bs ->
  (forall k, In k bs -> ~ In k (backref_keys seg)) ->
  (forall k, In k bs -> last (history k es) = Some KFinished) ->
  good_log (es ++ brefs bs).
Proof.
  intros [H1 H2 H3 H4 H5 H6 H7 H8] [Hes Hseg] Hnd Hnew Hlast.
  split.
  - apply log_wf_app_none; [done|]. intros k. apply no_record_brefs.
  - destruct H2 as [Ha Hb]. split.
    + intros h' Hin. apply in_app_iff in Hin as [Hin|Hin]; [by apply Ha|]. by apply brefs_in in Hin as (? & ? & _).
    + intros a b Hin Hin'. apply in_app_iff in Hin as [Hin|Hin]; [|by apply brefs_in in Hin as (? & ? & _)].
      apply in_app_iff in Hin' as [Hin'|Hin']; [|by apply brefs_in in Hin' as (? & ? & _)]. by apply Hb.
  - intros x l E. destruct es as [|z es]; [by destruct older|]. injection E as <- _. exact (H3 z es eq_refl).
  - apply pairs_app; [done| |].
    + intros l1 x l2 y l3 E. destruct x as [| | | |b]; try done. destruct y as [| | | |b']; try done. intros Hk. exfalso.
      apply brefs_split in E as (b1 & b2 & -> & -> & E). symmetry in E. apply brefs_split in E as (b3 & b4 & -> & -> & ->).
      apply NoDup_app in Hnd as (_ & _ & Hnd). apply NoDup_cons in Hnd as [Hnd _]. apply Hnd. rewrite Hk.
      apply elem_of_app. right. by left.
    + intros e1 x e2 n1 y n2 E E'. destruct x as [| | | |b]; try done. destruct y as [| | | |b']; try done. intros Hk.
      apply brefs_split in E' as (b1 & b2 & -> & -> & ->).
      destruct (has_header_dec e2) as [Hx|Hx]; [by apply has_header_app_l|].
      exfalso. rewrite Hes in E. apply seg_split in E as (s1 & -> & _).
      * apply (Hnew (b_key b')); [apply in_app_iff; right; by left|]. rewrite <- Hk. apply In_backref_keys.
        exists b. split; [|done]. apply in_app_iff. right. by left.
      * done.
      * by intros [h Hh].
  - apply pairs_app; [done| |].
    + intros l1 x l2 y l3 E. destruct x; try done. apply in_split_r in E. by apply brefs_in in E as (? & ? & _).
    + intros e1 x e2 n1 y n2 E E'. apply in_split_r in E'. apply brefs_in in E' as (? & -> & _). by destruct x.
  - apply pairs_app; [done| |].
    + intros l1 x l2 y l3 E. destruct x; try done. rewrite app_comm_cons, List.app_assoc in E. apply in_split_r in E.
      apply brefs_in in E as (? & -> & _). by intros [].
    + intros e1 x e2 n1 y n2 E E'. apply in_split_r in E'. apply brefs_in in E' as (? & -> & _). destruct x; try done. by intros [].
  - intros l1 b l2 E. apply app_split in E as [(l2' & E & _)|(n1 & E & ->)]; [by eapply H7|].
    apply brefs_split in E as (b1 & b2 & -> & -> & ->).
    rewrite history_app, (history_nil_of _ (brefs b1)), app_nil_r by apply no_record_brefs.
    apply Hlast. apply in_app_iff. right. by left.
  - intros k es1 es2 E Ho. revert es1 es2 E Ho. induction bs as [|b bs IH] using rev_ind; intros es1 es2 E Ho.
    { simpl in E. rewrite app_nil_r in E. by apply (H8 k es1 es2). }
    apply NoDup_app in Hnd as (Hnd & _ & _).
    destruct es2 as [|z es2 _] using rev_ind.
    + rewrite app_nil_r in E. subst es1. apply no_record_counts; [apply no_record_brefs|].
      apply (H8 k es []); [by rewrite app_nil_r|]. by eapply ready_once_prefix.
    + unfold brefs in E. rewrite map_app in E. rewrite !List.app_assoc in E. apply app_inj_tail in E as [E _].
      eapply (IH Hnd); [| |exact E|exact Ho]; intros k' Hk'; [apply Hnew|apply Hlast]; apply in_app_iff; by left.
Qed.

(** ** Records of one execute() *)
Definition attempt_prefixes : list (list kind) := [[]; [KReady]; [KReady; KStarted]; [KReady; KStarted; KFinished]].

Lemma attempt_prefixes_app a b : a ++ b ∈ attempt_prefixes -> a ∈ attempt_prefixes.
Proof.
  unfold attempt_prefixes. rewrite !elem_of_cons, elem_of_nil.
  destruct a as [|x [|y [|z [|w l]]]]; simpl; [tauto|..]; intros H; destruct_or! H; try done;
    injection H; intros; subst; auto.
Qed.

Lemma history_nonempty k e es x : In e es -> record_of k e = Some x -> history k es <> [].
Proof. intros Hin Hr Hh. apply no_record_history in Hh. apply Hh in Hin. by rewrite Hr in Hin. Qed.

Lemma log_success_of_status es k o : status_in es k o -> (forall c sr, o <> Some (RFinished c sr true)) <-> ~ log_success es k.
Proof.
  intros H. split.
  - intros Ho (c & sr & Hs). apply (Ho c sr). by eapply status_in_unique.
  - intros Hn c sr ->. apply Hn. by exists c, sr.
Qed.

Lemma good_new es older hd seg new :
  good_log es -> last_session es older hd seg ->
  (forall k, exists o, status_in es k o) ->
  log_wf (es ++ new) -> Forall task_rec new ->
  (forall k, history k new ∈ attempt_prefixes) ->
  (forall k, history k new <> [] -> ~ In k (backref_keys seg) /\ ~ log_success es k) ->
  (forall r o, In (Ready r) new -> no_record (r_key r) seg -> status_in es (r_key r) o ->
     r_runcount r = next_runcount o) ->
  (forall k, (forall r, In (Ready r) seg -> r_key r <> k) -> no_record k seg) ->
  good_log (es ++ new).
Proof.
  intros [H1 H2 H3 H4 H5 H6 H7 H8] [Hes Hseg] Hstat Hwf Htask Hhist Hfresh Hready Hsegr.
  rewrite Forall_forall in Htask. setoid_rewrite elem_of_list_In in Htask.
  assert (forall h, ~ In (Header h) new) as Hnh by (intros h Hin; by apply Htask in Hin).
  assert (forall b, ~ In (Backref b) new) as Hnb by (intros b Hin; by apply Htask in Hin).
  split.
  - done.
  - destruct H2 as [Ha Hb]. split.
    + intros h' Hin. apply in_app_iff in Hin as [Hin|Hin]; [by apply Ha|by apply Hnh in Hin].
    + intros a b Hin Hin'. apply in_app_iff in Hin as [Hin|Hin]; [|by apply Hnh in Hin].
      apply in_app_iff in Hin' as [Hin'|Hin']; [|by apply Hnh in Hin']. by apply Hb.
  - intros x l E. destruct es as [|z es]; [by destruct older|]. injection E as <- _. exact (H3 z es eq_refl).
  - apply pairs_app; [done| |].
    + intros l1 x l2 y l3 E. destruct x as [| | | |b]; try done. apply in_split_r in E. by apply Hnb in E.
    + intros e1 x e2 n1 y n2 E E'. destruct x as [| | | |b]; try done. destruct y as [| | | |b']; try done.
      apply in_split_r in E'. by apply Hnb in E'.
  - apply pairs_app; [done| |].
    + intros l1 x l2 y l3 E. destruct x as [| | |f|]; try done. intros Hf.
      destruct (record_of (f_key f) y) eqn:Hy; [|done]. exfalso. specialize (Hhist (f_key f)).
      rewrite E, history_app, history_cons, record_of_finished, history_app, history_cons, Hy in Hhist by done.
      revert Hhist. unfold attempt_prefixes. rewrite !elem_of_cons, elem_of_nil.
      generalize (history (f_key f) l1), (history (f_key f) l2), (history (f_key f) l3). intros a b c HH.
      destruct a as [|a1 [|a2 [|a3 a]]], b as [|b1 b]; simpl in HH; destruct_or! HH; try done; injection HH; intros; by destruct a.
    + intros e1 x e2 n1 y n2 E E'. destruct x as [| | |f|]; try done. intros Hf.
      destruct (record_of (f_key f) y) eqn:Hy; [|done]. exfalso.
      destruct (Hstat (f_key f)) as [o Ho].
      assert (no_record (f_key f) e2) as Hn2.
      { intros e He. apply in_split in He as (a & b & ->). by apply (H5 e1 (Finished f) a e b). }
      destruct (success_status es e1 f e2 o Ho E Hn2 Hf) as (c & sr & ->).
      apply in_split_r in E'. destruct (Hfresh (f_key f)) as [_ Hns]; [by eapply history_nonempty|].
      apply Hns. by exists c, sr.
  - apply pairs_app; [done| |].
    + intros l1 x l2 y l3 E. destruct x as [| | | |b]; try done. apply in_split_r in E. by apply Hnb in E.
    + intros e1 x e2 n1 y n2 E E'. destruct x as [| | | |b]; try done. intros Hy.
      destruct (has_header_dec e2) as [Hx|Hx]; [by apply has_header_app_l|]. exfalso.
      rewrite Hes in E. apply seg_split in E as (s1 & -> & _); [|done|by intros [? ?]].
      destruct (record_of (b_key b) y) eqn:Hr; [|done]. apply in_split_r in E'.
      destruct (Hfresh (b_key b)) as [Hnb' _]; [by eapply history_nonempty|]. apply Hnb', In_backref_keys.
      exists b. split; [|done]. by eapply in_split_r.
  - intros l1 b l2 E. apply app_split in E as [(l2' & E & _)|(n1 & E & ->)]; [by eapply H7|].
    apply in_split_r in E. by apply Hnb in E.
  - intros k es1 es2 E Ho. symmetry in E. apply app_eq_app in E as (l & [[-> E]|[E _]]).
    2:{ apply (H8 k es1 l); done. }
    destruct (Hstat k) as [o Hok].
    apply (counts_increase_app k es l o).
    + apply (H8 k es []); [by rewrite app_nil_r|]. by eapply ready_once_prefix.
    + done.
    + apply (attempt_prefixes_app _ (history k es2)). rewrite <- history_app, <- E. apply Hhist.
    + intros r Hin Hk.
      assert (In (Ready r) new) as Hin' by (rewrite E; apply in_app_iff; by left).
      split.
      * subst k. apply Hready; [done| |done]. apply Hsegr. intros r' Hr' Hk'.
        apply in_split in Hr' as (s1 & s2 & ->). apply in_split in Hin as (m1 & m2 & ->).
        destruct (Ho (older ++ Header hd :: s1) r' (s2 ++ m1) r m2) as [h Hh]; try done.
        { rewrite Hes. rewrite <- ?List.app_assoc, <- ?app_comm_cons, <- ?List.app_assoc, <- ?app_comm_cons, <- ?List.app_assoc; done. }
        apply in_app_iff in Hh as [Hh|Hh].
        -- apply Hseg. exists h. apply in_app_iff. right. by right.
        -- apply (Hnh h). rewrite E. apply in_app_iff. left. apply in_app_iff. by left.
      * apply (log_success_of_status es k o Hok). apply Hfresh. eapply history_nonempty; [done|]. by apply record_of_ready.
Qed.

(** What one execute() writes. *)
Lemma execute_records cfg s t :
  config_ok cfg -> reachable cfg s t ->
  exists new, lf_entries (sv_log (st_sv s)) = lf_entries (cf_log cfg) ++ new /\
    log_ok (sv_log (st_sv s)) /\ Forall task_rec new /\
    (forall k, history k new ∈ attempt_prefixes) /\
    (forall k, history k new <> [] -> exists n c, nodes (cf_g cfg) !! n = Some c /\ c_key c = k) /\
    (forall r, In (Ready r) new -> exists n c, nodes (cf_g cfg) !! n = Some c /\ c_key c = r_key r /\
       c_runcount c = r_runcount r /\ c_storage_root c = r_storage_root r).
Proof.
  intros Hok Hr. destruct (log_records cfg Hok s t Hr) as (new & inf & fin & Hnew & Hg & HDL & _).
  exists new. split; [done|]. split; [by apply log_good_ok|]. split; [apply (l_rec _ _ _ _ _ _ _ HDL)|].
  assert (forall k, history k new <> [] -> exists n c, nodes (cf_g cfg) !! n = Some c /\ c_key c = k) as Hkey.
  { intros k Hk. destruct (decide (Exists (fun n => task_key cfg n = k) (seq 0 (node_count (cf_g cfg))))) as [Hx|Hx].
    - apply Exists_exists in Hx as (n & Hn & <-). apply elem_of_seq in Hn.
      destruct (lookup_lt_is_Some_2 (nodes (cf_g cfg)) n) as [c Hc]; [unfold node_count in Hn; lia|].
      exists n, c. split; [done|]. unfold task_key. by rewrite Hc.
    - exfalso. apply Hk, (l_other _ _ _ _ _ _ _ HDL). intros n Hn Hk'. apply Hx, Exists_exists. exists n. split; [|done].
      apply elem_of_seq. lia. }
  split; [|split; [done|]].
  - intros k. destruct (decide (history k new = [])) as [->|Hne]; [by left|].
    destruct (Hkey k Hne) as (n & c & Hc & <-). pose proof (lookup_lt_Some _ _ _ Hc) as Hlt.
    rewrite <- (task_key_lookup cfg n c Hc). rewrite (l_stage _ _ _ _ _ _ _ HDL) by done.
    unfold stage', attempt_prefixes. repeat case_decide; set_solver.
  - intros r Hin. pose proof (l_ready _ _ _ _ _ _ _ HDL) as Hl.
    assert ((r_key r, r_runcount r, r_storage_root r) ∈ omap ready_key new) as Hin'.
    { apply elem_of_list_omap. exists (Ready r). split; [by apply elem_of_list_In|done]. }
    rewrite Hl in Hin'. unfold ready_infos in Hin'. apply elem_of_list_omap in Hin' as (n & _ & Hn).
    destruct (nodes (cf_g cfg) !! n) as [c|] eqn:Hc; [|done]. injection Hn as Ha Hb Hd. exists n, c. done.
Qed.
