(** Proofs for load_logfile and write_logfile. *)
From Verif Require Export SessionMore JsonProofs ToolSpec.
From stdpp Require Import prelude.
Open Scope list_scope.

(** ** Writing *)
Lemma write_all_spec st es0 es : state_matches st es0 -> log_wf es0 ->
  log_wf (es0 ++ fst (write_all st es)) /\
  (if snd (write_all st es) then fst (write_all st es) = es
   else exists e rest, es = fst (write_all st es) ++ e :: rest /\ ~ log_wf (es0 ++ fst (write_all st es) ++ [e])).
Proof.
  revert st es0. induction es as [|e es IH]; intros st es0 Hm Hwf; cbn [write_all].
  - cbn [fst snd]. by rewrite app_nil_r.
  - pose proof (write_state_ok_iff st es0 e Hm Hwf) as Hi. destruct (write_state st e) as [st'| | | |] eqn:E.
    2-5: cbn [fst snd]; rewrite app_nil_r; split; [done|]; exists e, es; split; [done|]; cbn [app];
      intros Hc; apply Hi in Hc as (? & ?); discriminate.
    + assert (Hwf' : log_wf (es0 ++ [e])) by (apply Hi; eauto).
      destruct (IH st' (es0 ++ [e]) (write_state_matches _ _ _ _ Hm E) Hwf') as [H1 H2].
      cbn [fst snd]. rewrite <- List.app_assoc in H1. split; [exact H1|].
      destruct (snd (write_all st' es)); [by rewrite H2|]. destruct H2 as (e' & rest & H2 & H3). exists e', rest. rewrite H2 at 1. split; [done|].
      by rewrite <- List.app_assoc in H3.
Qed.

(** A file with records [F] that is written on. *)
Lemma file_of_app F f es t : file_of F f -> file_of es t -> file_of (F ++ es) (f ++ t).
Proof.
  intros HF H. induction H as [|es t e t' H IH (x & Hx & ->)]; [by rewrite !app_nil_r|].
  rewrite List.app_assoc. econstructor; [exact IH|]. exists x. split; [done|]. by rewrite List.app_assoc.
Qed.
Lemma file_of_opens es f s : Forall rust_record es -> file_of es f -> opens f s <-> load_runcounts es = LOk s.
Proof. intros H1 H2. unfold opens. destruct (cut_at_end es f H1 ltac:(by left)) as [-> _]. split; [by intros [= ->]|by intros ->]. Qed.
Lemma file_of_reads es f : Forall rust_record es -> file_of es f -> read_file f = Some es.
Proof. intros H1 H2. apply (cut_at_end es f H1). by left. Qed.
Lemma opens_spec es f s : Forall rust_record es -> file_of es f -> opens f s -> state_matches s es /\ log_wf es /\ headers_ok es.
Proof. intros H1 H2 H3. apply (file_of_opens _ _ _ H1 H2) in H3. pose proof (load_runcounts_spec es) as H. by rewrite H3 in H. Qed.

(** ** Attempts *)
Lemma attempts_suffix h : attempts h -> forall a b, h = a ++ KReady :: b -> attempts (KReady :: b).
Proof.
  induction 1 as [|h H IH|h H IH|h H IH]; intros a b E.
  - by destruct a.
  - destruct b as [|y b _] using rev_ind.
    + apply (attempts_ready []). constructor.
    + rewrite app_comm_cons, List.app_assoc in E. apply app_inj_tail in E as [-> <-]. rewrite app_comm_cons. apply attempts_ready. by eapply IH.
  - destruct b as [|y b _] using rev_ind; [by apply app_inj_tail in E as [_ ?] || (rewrite (List.app_assoc h [KReady] [KStarted] : h ++ [KReady; KStarted] = _) in E; apply app_inj_tail in E as [_ ?])|].
    change [KReady; KStarted] with ([KReady] ++ [KStarted]) in E. rewrite app_comm_cons, !List.app_assoc in E. apply app_inj_tail in E as [E <-].
    specialize (IH a b E). destruct b as [|z b _] using rev_ind.
    + apply (attempts_started []). exact IH.
    + rewrite app_comm_cons, List.app_assoc in E. apply app_inj_tail in E as [_ <-].
      assert (Eq : KReady :: (b ++ [KReady]) ++ [KStarted] = (KReady :: b) ++ [KReady; KStarted]) by (cbn; by rewrite <- List.app_assoc).
      rewrite Eq. apply attempts_started. exact IH.
  - destruct b as [|y b _] using rev_ind.
    + change [KStarted; KFinished] with ([KStarted] ++ [KFinished]) in E. rewrite List.app_assoc in E. by apply app_inj_tail in E as [_ ?].
    + change [KStarted; KFinished] with ([KStarted] ++ [KFinished]) in E. rewrite app_comm_cons, !List.app_assoc in E. apply app_inj_tail in E as [E <-].
      specialize (IH a b E). destruct b as [|z b _] using rev_ind.
      * by apply app_inj_tail in E as [_ ?].
      * rewrite app_comm_cons, List.app_assoc in E. apply app_inj_tail in E as [_ <-].
        assert (Eq : KReady :: (b ++ [KStarted]) ++ [KFinished] = (KReady :: b) ++ [KStarted; KFinished]) by (cbn; by rewrite <- List.app_assoc).
        rewrite Eq. apply attempts_finished. exact IH.
Qed.

(** ** A record of a key has the Ready of its attempt in its own session *)
Definition ready_first (es : list log_entry) : Prop := forall l1 x l2 k kd, es = l1 ++ x :: l2 -> record_of k x = Some kd -> kd <> KReady ->
  exists a r b, l1 = a ++ Ready r :: b /\ r_key r = k /\ ~ has_header b.

Lemma ready_first_app es new : ready_first es -> ready_first new -> ready_first (es ++ new).
Proof.
  intros H1 H2 l1 x l2 k kd E Hx Hk. apply app_split in E as [(l2' & E & ->)|(n1 & E & ->)].
  - by eapply H1.
  - destruct (H2 _ _ _ _ _ E Hx Hk) as (a & r & b & -> & Hr & Hb). exists (es ++ a), r, b. by rewrite List.app_assoc.
Qed.
Lemma ready_first_prefix es new : ready_first (es ++ new) -> ready_first es.
Proof. intros H l1 x l2 k kd -> Hx Hk. eapply (H l1 x (l2 ++ new)); [by rewrite <- List.app_assoc|done|done]. Qed.
Lemma ready_first_take es n : ready_first es -> ready_first (take n es).
Proof. intros H. apply (ready_first_prefix _ (drop n es)). by rewrite take_drop. Qed.
Lemma ready_first_brefs bs : ready_first (brefs bs).
Proof. intros l1 x l2 k kd E Hx. apply SessionInv.in_split_r, brefs_in in E as (? & -> & _). done. Qed.
Lemma ready_first_header h : ready_first [Header h].
Proof. intros [|? [|? ?]] x l2 k kd E; try discriminate. injection E as <- _. done. Qed.
Lemma ready_first_new new : Forall task_rec new -> (forall k, history k new ∈ attempt_prefixes) -> ready_first new.
Proof.
  intros Ht Hh l1 x l2 k kd -> Hx Hk. specialize (Hh k). rewrite history_app, history_cons, Hx in Hh.
  assert (Hr : In KReady (history k l1)).
  { revert Hh. unfold attempt_prefixes. rewrite !elem_of_cons, elem_of_nil. destruct (history k l1) as [|y [|z l]]; cbn; intros HH; destruct_or! HH; try done;
      simplify_eq; auto. }
  unfold history in Hr. apply elem_of_list_In, elem_of_list_omap in Hr as (e & He & Hr). apply elem_of_list_In, in_split in He as (a & b & ->).
  destruct e as [|r| | |]; cbn in Hr; try done; try (by destruct (String.eqb _ _)).
  exists a, r, b. split; [done|]. split; [destruct (String.eqb_spec (r_key r) k); done|]. intros [h0 Hin].
  rewrite Forall_forall in Ht. specialize (Ht (Header h0)). apply Ht. rewrite elem_of_list_In. rewrite !in_app_iff. left. right. by right.
Qed.

Definition first_inv (w : world) : Prop := ready_first (w_file w) /\ match w_proc w with None => True | Some p => ready_first (plog p) end.

Lemma first_execution F p x e cfg ids bs s t : pinv F p -> ready_first (plog p) -> begun p x e cfg ids bs -> reachable cfg s t ->
  ready_first (lf_entries (sv_log (st_sv s))) /\ ready_first (plog p ++ brefs bs).
Proof.
  intros Hp H Hb Hr. destruct (run_inv _ _ _ _ _ _ _ s t Hp Hb Hr) as (_ & _ & new & -> & Ht & Hh & _).
  split; [|apply ready_first_app; [done|apply ready_first_brefs]].
  apply ready_first_app; [done|]. apply ready_first_app; [apply ready_first_brefs|by apply ready_first_new].
Qed.

Lemma first_step w ev w' : winv w -> first_inv w -> wstep w ev w' -> first_inv w'.
Proof.
  intros Hw Hi' Hs. destruct Hs; unfold first_inv in *; cbn [w_file w_proc] in *; pose proof Hw as [HF Hp]; cbn [w_file w_proc] in *.
  - split; [apply Hi'|]. destruct (open_works F a HF) as (l & p' & Hl & Hop & Hlog & _). simplify_eq.
    unfold plog. rewrite Hlog. cbn [lf_entries]. apply ready_first_app; [apply Hi'|apply ready_first_header].
  - done.
  - split; [apply Hi'|]. destruct (add_inv _ _ _ _ _ _ _ _ _ _ Hp H H0) as (_ & Hl & _). unfold plog in *. cbn [p_graph]. rewrite Hl. apply Hi'.
  - destruct (begin_execute _ _ _ Hp H) as (e' & cfg' & ids & bs & Hb).
    destruct (begun_unique _ _ _ _ _ _ _ _ Hb H0) as [-> ->]. split; [apply Hi'|].
    unfold plog in *. cbn [p_graph]. rewrite (bg_log _ _ _ _ _ _ Hb). cbn [lf_entries].
    eapply (first_execution F p x e' cfg' ids bs (initial cfg') []); try done; try apply Hi'; by exists [].
  - destruct (begin_execute _ _ _ Hp H) as (e' & cfg' & ids & bs & Hb).
    destruct (begun_unique _ _ _ _ _ _ _ _ Hb H0) as [-> ->].
    destruct (first_execution F p x e' cfg' ids bs s t Hp (proj2 Hi') Hb ltac:(by exists acts)) as [Hsl _].
    split; [done|]. unfold plog. cbn [p_graph end_execute logfile]. done.
  - split; [apply Hi'|done].
  - split; [apply ready_first_take, Hi'|done].
  - split; [|done]. destruct (begin_execute _ _ _ Hp H) as (e' & cfg' & ids & bs & Hb).
    destruct (begun_unique _ _ _ _ _ _ _ _ Hb H0) as [-> ->].
    apply ready_first_take. apply (first_execution F p x e' cfg' ids bs s t Hp (proj2 Hi') Hb). by exists acts.
Qed.
Lemma first_holds h w : possible h w -> ready_first (w_file w).
Proof.
  intros Hh. assert (H : first_inv w); [|apply H]. revert h w Hh. apply (possible_ind' (fun _ w => first_inv w)).
  - split; [|done]. intros l1 x l2 k kd E. by destruct l1.
  - intros h w ev w' Hh IH Hs. eapply first_step; [by eapply possible_inv|done|done].
Qed.

(** ** Statuses by key *)
Lemma filter_split {A} (P : A -> bool) l a x b : List.filter P l = a ++ x :: b ->
  exists a' b', l = a' ++ x :: b' /\ List.filter P a' = a /\ List.filter P b' = b.
Proof.
  revert a. induction l as [|y l IH]; intros a E; [by destruct a|]. cbn [List.filter] in E. destruct (P y) eqn:Hy.
  - destruct a as [|z a]; injection E as -> E.
    + by exists [], l.
    + destruct (IH _ E) as (a' & b' & -> & <- & <-). exists (z :: a'), b'. cbn [List.filter]. by rewrite Hy.
  - destruct (IH _ E) as (a' & b' & -> & <- & <-). exists (y :: a'), b'. cbn [List.filter]. by rewrite Hy.
Qed.
Lemma filter_no_record k l : List.filter (is_record_of k) l = [] -> no_record k l.
Proof.
  intros E x Hx. destruct (record_of k x) eqn:Hr; [|done]. exfalso. assert (Hin : In x (List.filter (is_record_of k) l)); [|by rewrite E in Hin].
  apply filter_In. split; [done|]. unfold is_record_of. by rewrite Hr.
Qed.
Lemma no_record_filtered k l : no_record k (List.filter (is_record_of k) l) -> no_record k l.
Proof. intros H x Hx. destruct (record_of k x) eqn:Hr; [|done]. rewrite <- Hr. apply H, filter_In. split; [done|]. unfold is_record_of. by rewrite Hr. Qed.
Lemma history_filter k l : history k (List.filter (is_record_of k) l) = history k l.
Proof.
  induction l as [|x l IH]; [done|]. cbn [List.filter]. rewrite history_cons. unfold is_record_of at 1. destruct (record_of k x) eqn:Hr; [|done].
  rewrite history_cons, Hr. by f_equal.
Qed.

Lemma status_in_filter es k o : status_in (List.filter (is_record_of k) es) k o -> status_in es k o.
Proof.
  destruct o as [[c sr|c sr|c sr ok]|]; cbn [status_in].
  - intros (pre & r & post & E & Hr & Hc & Hs & Hp). apply filter_split in E as (a & b & -> & _ & <-). exists a, r, b.
    repeat (split; [done|]). by apply no_record_filtered.
  - intros (pre & r & mid & s & post & E & Hr & Hc & Hs & Hm & Hk & Hp). apply filter_split in E as (a & b & -> & _ & E).
    apply filter_split in E as (a' & b' & -> & <- & <-). exists a, r, a', s, b'.
    repeat (split; [done || by apply no_record_filtered|]). by apply no_record_filtered.
  - intros (pre & r & mid & s & mid' & f & post & E & Hr & Hc & Hs & Hm & Hk & Hm' & Hf & Hok & Hp). apply filter_split in E as (a & b & -> & _ & E).
    apply filter_split in E as (a' & b' & -> & <- & E). apply filter_split in E as (a'' & b'' & -> & <- & <-). exists a, r, a', s, a'', f, b''.
    repeat (split; [done || by apply no_record_filtered|]). by apply no_record_filtered.
  - apply no_record_filtered.
Qed.
Lemma status_in_filtered es k o : status_in es k o -> status_in (List.filter (is_record_of k) es) k o.
Proof.
  assert (HN : forall l, no_record k l -> no_record k (List.filter (is_record_of k) l)) by (intros l H; rewrite no_record_filter by done; by intros ? []).
  assert (HR : forall r, r_key r = k -> is_record_of k (Ready r) = true) by (intros r Hr; unfold is_record_of; by rewrite record_of_ready).
  assert (HS : forall r, s_key r = k -> is_record_of k (Started r) = true) by (intros r Hr; unfold is_record_of; by rewrite record_of_started).
  assert (HFi : forall r, f_key r = k -> is_record_of k (Finished r) = true) by (intros r Hr; unfold is_record_of; by rewrite record_of_finished).
  destruct o as [[c sr|c sr|c sr ok]|]; cbn [status_in]; [..|apply HN].
  - intros (pre & r & post & -> & Hr & Hc & Hs & Hp). exists (List.filter (is_record_of k) pre), r, (List.filter (is_record_of k) post).
    rewrite List.filter_app. cbn [List.filter]. rewrite HR by done. split; [done|]. repeat (split; [done|]). by apply HN.
  - intros (pre & r & mid & s & post & -> & Hr & Hc & Hs & Hm & Hk & Hp).
    exists (List.filter (is_record_of k) pre), r, (List.filter (is_record_of k) mid), s, (List.filter (is_record_of k) post).
    rewrite List.filter_app. cbn [List.filter]. rewrite HR by done. rewrite List.filter_app. cbn [List.filter]. rewrite HS by done. split; [done|].
    repeat (split; [done || by apply HN|]). by apply HN.
  - intros (pre & r & mid & s & mid' & f & post & -> & Hr & Hc & Hs & Hm & Hk & Hm' & Hf & Hok & Hp).
    exists (List.filter (is_record_of k) pre), r, (List.filter (is_record_of k) mid), s, (List.filter (is_record_of k) mid'), f, (List.filter (is_record_of k) post).
    rewrite List.filter_app. cbn [List.filter]. rewrite HR by done. rewrite List.filter_app. cbn [List.filter]. rewrite HS by done.
    rewrite List.filter_app. cbn [List.filter]. rewrite HFi by done. split; [done|].
    repeat (split; [done || by apply HN|]). by apply HN.
Qed.
Lemma status_in_same es es' k o : List.filter (is_record_of k) es = List.filter (is_record_of k) es' -> status_in es k o -> status_in es' k o.
Proof. intros E H. apply status_in_filter. rewrite <- E. by apply status_in_filtered. Qed.

Lemma status_in_app_l a b k o : no_record k b -> status_in a k o -> status_in (a ++ b) k o.
Proof. intros Hb H. apply (status_in_same a); [|done]. by rewrite List.filter_app, (no_record_filter k b), app_nil_r. Qed.
Lemma status_in_app_r a b k x : status_in b k (Some x) -> status_in (a ++ b) k (Some x).
Proof.
  destruct x as [c sr|c sr|c sr ok]; cbn [status_in].
  - intros (pre & r & post & -> & H). exists (a ++ pre), r, post. by rewrite List.app_assoc.
  - intros (pre & r & mid & s & post & -> & H). exists (a ++ pre), r, mid, s, post. by rewrite List.app_assoc.
  - intros (pre & r & mid & s & mid' & f & post & -> & H). exists (a ++ pre), r, mid, s, mid', f, post. by rewrite List.app_assoc.
Qed.
Lemma status_exists es k : log_wf es -> exists o, status_in es k o.
Proof.
  intros Hwf. destruct (log_writes_total new_log es new_log_good Hwf) as [l Hl]. destruct (log_writes_good _ _ _ new_log_good Hl) as [[[Hm _] _] He].
  cbn in He. rewrite He in Hm. eauto.
Qed.

(** The latest attempt of a key: attempts, with the status of the whole. *)
Lemma latest_status es k o : status_in es k o -> status_in (latest_attempts [k] es) k o /\ history k (latest_attempts [k] es) ∈ attempt_prefixes.
Proof.
  assert (HS : forall l, no_record k l -> List.filter (is_record_of k) l = []) by (intros; by apply no_record_filter).
  assert (HR : forall r, r_key r = k -> is_record_of k (Ready r) = true) by (intros r Hr; unfold is_record_of; by rewrite record_of_ready).
  assert (HT : forall r, s_key r = k -> is_record_of k (Started r) = true) by (intros r Hr; unfold is_record_of; by rewrite record_of_started).
  assert (HFi : forall r, f_key r = k -> is_record_of k (Finished r) = true) by (intros r Hr; unfold is_record_of; by rewrite record_of_finished).
  intros H. destruct o as [[c sr|c sr|c sr ok]|].
  - destruct H as (pre & r & post & -> & Hr & Hc & Hs & Hp).
    rewrite latest_skip by (cbn [existsb is_ready_of]; by rewrite (proj2 (String.eqb_eq _ _) Hr)).
    cbn [latest_attempts]. rewrite in_latest_one, (no_record_ready k post) by done. cbn [negb]. rewrite andb_true_r.
    rewrite HR by done. rewrite latest_filter, (HS post) by (try apply no_record_ready; done). split.
    + exists [], r, []. repeat (split; [done|]). intros ? [].
    + rewrite history_cons, record_of_ready by done. unfold attempt_prefixes. set_solver.
  - destruct H as (pre & r & mid & s & post & -> & Hr & Hc & Hs & Hm & Hk & Hp).
    assert (Hnr : existsb (is_ready_of k) (mid ++ Started s :: post) = false).
    { rewrite existsb_app. cbn [existsb is_ready_of]. by rewrite !no_record_ready by done. }
    rewrite latest_skip by (cbn [existsb is_ready_of]; by rewrite (proj2 (String.eqb_eq _ _) Hr)).
    cbn [latest_attempts]. rewrite in_latest_one, Hnr. cbn [negb]. rewrite andb_true_r.
    rewrite HR by done. rewrite latest_filter by done. rewrite List.filter_app. cbn [List.filter].
    rewrite HT, !HS by done. cbn [app]. split.
    + exists [], r, [], s, []. repeat (split; [done || by intros ? []|]). intros ? [].
    + rewrite !history_cons, record_of_ready, record_of_started by done. unfold attempt_prefixes. set_solver.
  - destruct H as (pre & r & mid & s & mid' & f & post & -> & Hr & Hc & Hs & Hm & Hk & Hm' & Hf & Hok & Hp).
    assert (Hnr : existsb (is_ready_of k) (mid ++ Started s :: mid' ++ Finished f :: post) = false).
    { rewrite !existsb_app. cbn [existsb]. rewrite !existsb_app. cbn [existsb is_ready_of]. by rewrite !no_record_ready by done. }
    rewrite latest_skip by (cbn [existsb is_ready_of]; by rewrite (proj2 (String.eqb_eq _ _) Hr)).
    cbn [latest_attempts]. rewrite in_latest_one, Hnr. cbn [negb]. rewrite andb_true_r.
    rewrite HR by done. rewrite latest_filter by done. rewrite List.filter_app. cbn [List.filter].
    rewrite HT by done. rewrite List.filter_app. cbn [List.filter].
    rewrite HFi, !HS by done. cbn [app]. split.
    + exists [], r, [], s, [], f, []. repeat (split; [done || by intros ? []|]). intros ? [].
    + rewrite !history_cons, record_of_ready, record_of_started, record_of_finished by done. unfold attempt_prefixes. set_solver.
  - pose proof (HS _ H) as E. assert (El : latest_attempts [k] es = []).
    { rewrite latest_filter; [done|by apply no_record_ready]. }
    rewrite El. split; [by intros ? []|]. cbn. unfold attempt_prefixes. set_solver.
Qed.

(** ** The current records of a log as a log of their own *)
Lemma attempts_app a b : attempts a -> attempts b -> (b = [] \/ exists b', b = KReady :: b') -> attempts (a ++ b).
Proof.
  intros Ha H. induction H as [|h H IH|h H IH|h H IH]; intros Hb.
  - by rewrite app_nil_r.
  - rewrite List.app_assoc. apply attempts_ready. apply IH. destruct h as [|x h]; [by left|]. right. destruct Hb as [?|[b' [= -> _]]]; [done|eauto].
  - rewrite List.app_assoc. apply attempts_started. rewrite <- List.app_assoc. apply IH. right. destruct Hb as [Hb|[b' Hb]]; [by destruct h|].
    destruct h as [|x h]; [by exists []|]. injection Hb as -> _. by eexists.
  - rewrite List.app_assoc. apply attempts_finished. rewrite <- List.app_assoc. apply IH. right. destruct Hb as [Hb|[b' Hb]]; [by destruct h|].
    destruct h as [|x h]; [done|]. injection Hb as -> _. by eexists.
Qed.
Lemma prefix_attempts h : h ∈ attempt_prefixes -> attempts h.
Proof.
  unfold attempt_prefixes. rewrite !elem_of_cons, elem_of_nil. intros H. destruct_or! H; subst; try done; [constructor|..].
  - apply (attempts_ready []). constructor.
  - apply (attempts_started []), (attempts_ready []). constructor.
  - apply (attempts_finished [KReady]), (attempts_started []), (attempts_ready []). constructor.
Qed.

Section snapshot.
Variables (es older seg : list log_entry) (hd : option log_entry).
Hypothesis Hs : last_segment es older hd seg.
Hypothesis Hwf : log_wf es.
Hypothesis Hrf : ready_first es.

Lemma seg_first k : history k seg = [] \/ exists b, history k seg = KReady :: b.
Proof.
  destruct (history k seg) as [|x b] eqn:E; [by left|]. right. destruct x; [by eexists|exfalso..].
  all: assert (Hx : exists l1 e l2, seg = l1 ++ e :: l2 /\ history k l1 = [] /\ exists kd, record_of k e = Some kd /\ kd <> KReady).
  1,3: clear - E; induction seg as [|e l IH]; [done|]; rewrite history_cons in E; destruct (record_of k e) eqn:Hr;
    [injection E as -> E; exists [], e, l; split; [done|]; split; [done|]; eexists; split; [done|done]|
     destruct (IH E) as (l1 & e' & l2 & -> & H1 & H2); exists (e :: l1), e', l2; split; [done|]; split; [rewrite history_cons, Hr; done|done]].
  all: destruct Hx as (l1 & e & l2 & El & Hl1 & kd & Hkd & Hne); destruct Hs as [Hns Hh]; destruct hd as [h|]; destruct Hh as [Hh1 Hh2].
  all: assert (Hin : exists r, In (Ready r) l1 /\ r_key r = k).
  1,5: destruct (Hrf (older ++ h :: l1) e l2 k kd) as (a & r & b' & Ea & Hr & Hb'); [rewrite Hh2, El; by rewrite <- List.app_assoc|done|done|];
    destruct Hh1 as [h0 ->]; exists r; split; [|done]; apply app_split in Ea as [(l2' & -> & ->)|(n1 & Ea & ->)];
    [exfalso; apply Hb'; exists h0; apply in_app_iff; right; by left|]; destruct n1 as [|z n1]; [discriminate Ea|]; injection Ea as _ Ea; subst l1; apply in_app_iff; right; by left.
  2,5: destruct (Hrf l1 e l2 k kd) as (a & r & b' & -> & Hr & Hb'); [by rewrite Hh2, El|done|done|]; exists r; split; [apply in_app_iff; right; by left|done].
  all: destruct Hin as (r & Hin & Hr); apply in_split in Hin as (p & q & ->); rewrite history_app, history_cons, record_of_ready in Hl1 by done; by destruct (history k p).
Qed.
Lemma history_split k : history k es = history k older ++ history k seg.
Proof.
  destruct Hs as [_ Hh]. destruct hd as [h|]; destruct Hh as [Hh1 Hh2]; rewrite Hh2; [|by subst older].
  destruct Hh1 as [h0 ->]. by rewrite history_app, history_cons.
Qed.
Lemma seg_wf : log_wf seg.
Proof.
  intros k. destruct (seg_first k) as [E|[b E]]; rewrite E; [constructor|]. pose proof (Hwf k) as H. rewrite history_split, E in H.
  by eapply attempts_suffix.
Qed.
Lemma older_wf : log_wf older.
Proof. destruct Hs as [_ Hh]. destruct hd as [h|]; destruct Hh as [Hh1 Hh2]; rewrite Hh2 in Hwf; [by eapply log_wf_prefix|subst older; apply log_wf_nil]. Qed.

Variables (cur out : list log_entry).
Hypothesis Hr : read_current_and_outdated es = Some (cur, out).

Lemma current_filter k : List.filter (is_record_of k) cur =
  (if existsb (String.eqb k) (backref_keys seg) then latest_attempts [k] older else []) ++ List.filter (is_record_of k) seg.
Proof.
  destruct (read_exact _ _ _ _ _ _ Hs Hr) as [-> _]. rewrite !List.filter_app, without_backrefs_filter.
  assert (Eh : List.filter (is_record_of k) (head_of hd) = []).
  { destruct hd as [h|]; [|done]. destruct Hs as [_ [[h0 ->] _]]. done. }
  rewrite Eh. cbn [app]. f_equal. destruct (existsb (String.eqb k) (backref_keys seg)) eqn:E.
  - apply existsb_exists in E as (k' & Hin & <-%String.eqb_eq). by apply latest_of_key.
  - clear - E. induction older as [|x l IH]; [done|]. cbn [latest_attempts].
    destruct (in_latest_attempt (backref_keys seg) x l) eqn:Hx; [|done]. cbn [List.filter]. rewrite IH.
    assert (is_record_of k x = false) as ->; [|done]. unfold in_latest_attempt, is_record_of in *.
    destruct x as [h|r|s|f|b]; try done; cbn [entry_key record_of] in *; apply andb_true_iff in Hx as [Hx _];
      match goal with |- context[String.eqb ?a k] => destruct (String.eqb_spec a k) as [Hek|Hne]; [by rewrite Hek, E in Hx|done] end.
Qed.
Lemma current_wf : log_wf cur.
Proof.
  intros k. rewrite <- (history_filter k cur), current_filter, history_app, history_filter. apply attempts_app; [|apply seg_wf|apply seg_first].
  destruct (existsb _ _); [|constructor]. destruct (status_exists older k older_wf) as [o Ho]. apply prefix_attempts. by eapply latest_status.
Qed.
Lemma current_status k o : status_in es k o -> key_in k cur -> status_in cur k o.
Proof.
  intros Ho (e & Hin & Hk). apply status_in_filter. rewrite current_filter. pose proof older_wf as HO. pose proof current_filter as HC.
  destruct (status_exists seg k seg_wf) as [[x|] Hx].
  - assert (Eo : o = Some x).
    { apply (status_in_unique es k); [done|]. destruct Hs as [_ Hh]. destruct hd as [h|]; destruct Hh as [Hh1 Hh2]; rewrite Hh2; [|done].
      rewrite (List.app_assoc older [h] seg : older ++ h :: seg = _). by apply status_in_app_r. }
    subst o. apply status_in_app_r. by apply status_in_filtered.
  - cbn in Hx. assert (Eo : status_in older k o).
    { destruct Hs as [_ Hh]. destruct hd as [h|]; destruct Hh as [Hh1 Hh2]; rewrite Hh2 in Ho.
      - destruct Hh1 as [h0 ->]. destruct (status_exists older k HO) as [o' Ho']. assert (o = o') as ->; [|done].
        eapply status_in_unique; [exact Ho|]. apply status_in_app_l; [|done]. intros y [<-|Hy]; [done|by apply Hx].
      - subst older. destruct o as [x|]; [exfalso|by intros ? []]. discriminate (status_in_unique seg k (Some x) None Ho Hx). }
    rewrite (no_record_filter k seg) by done. rewrite app_nil_r. destruct (existsb (String.eqb k) (backref_keys seg)) eqn:Eb; [by apply latest_status|].
    exfalso. apply Hk. pose proof (HC k) as HF. rewrite Eb, (no_record_filter k seg) in HF by done. by apply (filter_no_record k cur HF).
Qed.
Lemma current_subset e : In e cur -> In e es.
Proof.
  destruct (read_loses_nothing _ _ _ _ _ _ Hs Hr) as (dropped & HP & _). intros H. eapply Permutation_in; [symmetry; exact HP|]. apply in_app_iff. by left.
Qed.
Lemma current_head o : last_header es o -> last_header cur o /\ forall h, In (Header h) cur -> exists rest, cur = Header h :: rest /\ forall e, In e rest -> ~ is_header e.
Proof.
  assert (Hl : forall ks l e, In e (latest_attempts ks l) -> ~ is_header e).
  { intros ks l e Hin [h ->]. induction l as [|x l IH]; [done|]. cbn [latest_attempts] in Hin. destruct (in_latest_attempt ks x l) eqn:E; [|by apply IH].
    destruct Hin as [->|Hin]; [done|by apply IH]. }
  assert (Hw : forall e, In e (without_backrefs seg) -> ~ is_header e).
  { intros e Hin. apply filter_In in Hin as [Hin _]. by apply Hs. }
  destruct (read_exact _ _ _ _ _ _ Hs Hr) as [-> _]. destruct Hs as [Hns Hh]. destruct hd as [h|]; destruct Hh as [Hh1 Hh2]; cbn [head_of app].
  - destruct Hh1 as [h0 ->]. intros Ho.
    assert (Hno : forall e, In e (latest_attempts (backref_keys seg) older ++ without_backrefs seg) -> ~ is_header e).
    { intros e [Hin|Hin]%in_app_iff; [by eapply Hl|by apply Hw]. }
    split.
    + assert (o = Some h0) as ->. { eapply last_header_unique; [exact Ho|]. exists older, seg. split; [done|]. intros h' Hin. apply (Hns _ Hin). by exists h'. }
      eexists [], _. split; [reflexivity|]. intros h' Hin. apply (Hno _ Hin). by exists h'.
    + intros h [[= ->]|Hin]; [by eexists|]. exfalso. apply (Hno _ Hin). by exists h.
  - subst older. intros Ho. cbn [latest_attempts app].
    assert (Hno : forall h, ~ In (Header h) (without_backrefs seg)) by (intros h Hin; apply (Hw _ Hin); by exists h).
    split; [|intros h Hin; by destruct (Hno h)]. assert (o = None) as ->; [|done]. eapply last_header_unique; [exact Ho|]. intros h Hin. rewrite Hh2 in Hin. apply (Hns _ Hin). by exists h.
Qed.
Lemma current_no_backref e : In e cur -> ~ is_backref e.
Proof.
  destruct (read_exact _ _ _ _ _ _ Hs Hr) as [-> _]. intros Hin [b ->]. apply in_app_iff in Hin as [Hin|[Hin|Hin]%in_app_iff].
  - destruct Hs as [_ Hh]. destruct hd as [h|]; [|done]. destruct Hh as [[h0 ->] _]. destruct Hin as [?|[]]; done.
  - clear - Hin. induction older as [|x l IH]; [done|]. cbn [latest_attempts] in Hin. destruct (in_latest_attempt _ x l) eqn:E; [|by apply IH].
    destruct Hin as [->|Hin]; [done|by apply IH].
  - apply filter_In in Hin as [_ ?]. done.
Qed.
End snapshot.

Lemma without_none l : (forall e, In e l -> ~ is_backref e) -> without_backrefs l = l /\ backref_keys l = [].
Proof.
  unfold without_backrefs, backref_keys. induction l as [|x l IH]; [done|]. intros H. destruct IH as [IH1 IH2]; [intros e He; apply H; by right|].
  cbn. destruct x; rewrite ?IH1; try done. exfalso. eapply H; [by left|by eexists].
Qed.
