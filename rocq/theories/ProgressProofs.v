(** The numbers in the progress lines of a session. *)
From Verif Require Export ProgressSpec LinesProofs SessionHistory.
Open Scope list_scope.

Definition known (p : process) : Prop := forall k, k ∈ completed (p_graph p) -> exists n, task_has_key (deps (p_graph p)) n k.

Lemma pstep_wstep w ev c w' : pstep w ev c w' -> wstep w ev w'.
Proof.
  intros H. destruct H; [|eapply W_kill_in_execute|by eapply W_execute_empty|done]; [|done|done|by eapply lines_run_run|done].
  eapply W_execute; [done|done|done|by eapply lines_run_run|done].
Qed.
Lemma wstep_pstep w ev w' : wstep w ev w' -> exists c, pstep w ev c w'.
Proof.
  intros H. destruct H.
  4: eexists; by eapply P_empty.
  4: destruct (run_lines_run cfg (count_offset p) (fun _ => ("", ""))%string _ _ _ _ H2) as [c Hc]; eexists; by eapply P_execute.
  6: destruct (run_lines_run cfg (count_offset p) (fun _ => ("", ""))%string _ _ _ _ H1) as [c Hc]; eexists; by eapply P_killed.
  all: exists []; apply P_other; [by econstructor|done].
Qed.

(** The keys of the tasks that a call runs are new. *)
Lemma keys_in_graph p l : graph_ok (p_graph p) -> NoDup l -> (forall k, In k l -> exists n, task_has_key (deps (p_graph p)) n k) ->
  length l <= length (nodes (deps (p_graph p))).
Proof.
  intros Hg Hn Hl. rewrite <- (map_length c_key). apply submseteq_length, NoDup_submseteq; [done|].
  intros k Hk. apply elem_of_list_In in Hk. destruct (Hl k Hk) as (n & c & Hc & <-). apply elem_of_list_fmap. exists c. split; [done|]. by eapply elem_of_list_lookup_2.
Qed.

Lemma begun_room F p x e cfg ids bs : pinv F p -> known p -> begun p x e cfg ids bs ->
  size (completed (p_graph p)) + node_count (cf_g cfg) <= length (nodes (deps (p_graph p))).
Proof.
  intros Hp Hk Hb. unfold size, set_size, compose, node_count. rewrite <- (map_length c_key (nodes (cf_g cfg))), <- app_length.
  apply keys_in_graph; [apply (pi_graph _ _ Hp)| |].
  - apply NoDup_app. split; [apply NoDup_elements|]. split.
    + intros k Hk1 Hk2. apply elem_of_elements in Hk1. apply elem_of_list_fmap in Hk2 as (c & -> & [i Hi]%elem_of_list_lookup). destruct (begun_key _ _ _ _ _ _ _ _ Hb Hi) as [H _]. by apply H.
    + eapply part_keys; [apply (bg_part _ _ _ _ _ _ Hb)|]. rewrite (same_graph_keys _ _ (bg_same _ _ _ _ _ _ Hb)). apply (gk_keys _ (pi_graph _ _ Hp)).
  - intros k [Hk1|Hk2]%in_app_or.
    + apply Hk. by apply elem_of_elements, elem_of_list_In.
    + apply elem_of_list_In, elem_of_list_fmap in Hk2 as (c & -> & [i Hi]%elem_of_list_lookup). destruct (begun_node _ _ _ _ _ _ _ _ Hb Hi) as (n & c0 & _ & _ & _ & _ & H). by exists n.
Qed.

Lemma no_drain_reports t : (forall n x, ~ In (ODrainFinished n x) t) -> length (reports t) = length (finish_order t).
Proof.
  induction t as [|o t IH]; intros H; [done|]. assert (IH' := IH (fun n x Hi => H n x (or_intror Hi))).
  destruct o; try exact IH'; [unfold reports, finish_order in *; cbn; by rewrite IH'|]. destruct (H _ _ (or_introl eq_refl)).
Qed.

(** What one event prints. *)
Definition good_lines (p : process) (c : list message) : Prop :=
  StronglySorted N.lt (numbers c) /\ Forall (fun k => (count_offset p < k)%N) (numbers c) /\
  forall k n x, In (Progress k n x) c -> (1 <= k <= n)%N /\ (n <= N.of_nat (length (nodes (deps (p_graph p)))))%N.
Lemma good_lines_nil p : good_lines p [].
Proof. split; [constructor|]. split; [constructor|]. by intros. Qed.

Lemma in_numbers k n x c : In (Progress k n x) c -> k ∈ numbers c /\ n ∈ totals c.
Proof. intros H. apply elem_of_list_In in H. split; apply elem_of_list_omap; by eexists. Qed.

Lemma call_lines F p x e cfg outs acts s t c : pinv F p -> known p -> args_ok x -> start_execute p x = Some (e, cfg) ->
  lines_run cfg (count_offset p) outs (initial cfg) acts = Some (s, t, c) ->
  good_lines p c /\ Forall (fun k => (k <= count_offset p + N.of_nat (length (reports t)))%N) (numbers c).
Proof.
  intros Hp Hk Hx Hs Hl. destruct (begin_execute _ _ _ Hp Hx) as (e' & cfg' & ids & bs & Hb).
  destruct (begun_unique _ _ _ _ _ _ _ _ Hb Hs) as [-> ->].
  pose proof (begun_config _ _ _ _ _ _ _ Hp Hb) as Hok. pose proof (begun_room _ _ _ _ _ _ _ Hp Hk Hb) as Hroom.
  assert (Hoff : (count_offset p + N.of_nat (node_count (cf_g cfg')) < U32)%N).
  { pose proof (pi_fits _ _ Hp) as Hf. unfold fits, node_count in Hf. unfold count_offset. unfold node_count in *. lia. }
  pose proof (lines_shows cfg' Hok (count_offset p) outs Hoff _ _ _ _ Hl) as Hsh.
  destruct (shows_numbers _ _ _ _ _ Hsh) as (H1 & H2 & H3).
  assert (Hr : reachable cfg' s t) by (exists acts; by eapply lines_run_run). pose proof (reports_le cfg' Hok s t Hr) as Hle.
  split; [|eapply Forall_impl; [exact H2|]; cbn; intros; lia]. split; [done|]. split; [eapply Forall_impl; [exact H2|]; cbn; intros; lia|].
  intros k n y Hin. destruct (in_numbers _ _ _ _ Hin) as [Hi1 Hi2]. rewrite Forall_forall in H2, H3. specialize (H2 _ Hi1). specialize (H3 _ Hi2). cbn in H2, H3.
  unfold count_offset, node_count in *. lia.
Qed.

Lemma pstep_lines w ev c w' p : winv w -> w_proc w = Some p -> known p -> pstep w ev c w' ->
  good_lines p c /\
  (forall p', w_proc w' = Some p' -> known p' /\ (count_offset p <= count_offset p')%N /\
     (forall n k, task_has_key (deps (p_graph p')) n k -> task_has_key (deps (p_graph p)) n k \/ exists m, ev = HAdded k (AddOk m)) /\
     (~ cut_short ev -> Forall (fun k => (k <= count_offset p')%N) (numbers c))).
Proof.
  intros [HF Hi] Hp Hk Hs. destruct Hs; cbn [w_proc w_file] in *.
  - injection Hp as ->. destruct (call_lines _ _ _ _ _ _ _ _ _ _ Hi Hk H H0 H2) as [Hg Hn]. split; [done|]. intros p' [= <-].
    destruct (begin_execute _ _ _ Hi H) as (e' & cfg' & ids & bs & Hb). destruct (begun_unique _ _ _ _ _ _ _ _ Hb H0) as [-> ->].
    assert (Hr : reachable cfg' s t) by (exists acts; by eapply lines_run_run).
    destruct (c10 cfg' (begun_config _ _ _ _ _ _ _ Hi Hb) s t Hr H3) as (new & _ & He & Hnd).
    assert (Hkey : forall k, k ∈ map (task_key cfg') (finish_order t) -> exists i cm, nodes (cf_g cfg') !! i = Some cm /\ c_key cm = k).
    { intros k Hin. apply elem_of_list_fmap in Hin as (i & -> & Hin). assert (i < node_count (cf_g cfg')) as Hlt.
      { destruct (reports_nodup cfg' (begun_config _ _ _ _ _ _ _ Hi Hb) s t Hr) as [_ Hl]. apply Hl. clear - Hin. induction t as [|o t IH]; [by apply elem_of_nil in Hin|].
        destruct o; try by apply IH. all: unfold reports, finish_order in *; cbn in *; rewrite elem_of_cons in *; intuition. }
      apply lookup_lt_is_Some_2 in Hlt as [cm Hcm]. exists i, cm. split; [done|]. unfold task_key. by rewrite Hcm. }
    unfold known, count_offset, end_execute. rewrite He. cbn [p_graph completed deps snd]. rewrite (bg_completed _ _ _ _ _ _ Hb).
    assert (Hsz : size (completed (p_graph p)) + length (finish_order t) <= size (completed (p_graph p) ∪ list_to_set bs ∪ list_to_set (map (task_key cfg') (finish_order t)) : gset string)).
    { rewrite <- (map_length (task_key cfg') (finish_order t)), <- (size_list_to_set (C := gset string) _ Hnd), <- size_union; [apply subseteq_size; set_solver|].
      intros k Hk1 Hk2. apply elem_of_list_to_set in Hk2. destruct (Hkey _ Hk2) as (i & cm & Hcm & <-). destruct (begun_key _ _ _ _ _ _ _ _ Hb Hcm) as [Hd _]. by apply Hd. }
    split; [|split; [lia|split]].
    + intros k Hin. apply elem_of_union in Hin as [[Hin|Hin]%elem_of_union|Hin].
      * destruct (Hk k Hin) as [n Hn']. exists n. by apply (same_graph_has_key _ _ _ _ (bg_same _ _ _ _ _ _ Hb)).
      * apply elem_of_list_to_set, elem_of_list_In, (bg_bs _ _ _ _ _ _ Hb) in Hin as (n & _ & Hn' & _). exists n. by apply (same_graph_has_key _ _ _ _ (bg_same _ _ _ _ _ _ Hb)).
      * apply elem_of_list_to_set in Hin. destruct (Hkey _ Hin) as (i & cm & Hcm & <-). destruct (begun_node _ _ _ _ _ _ _ _ Hb Hcm) as (n & c0 & _ & _ & _ & _ & Hn').
        exists n. by apply (same_graph_has_key _ _ _ _ (bg_same _ _ _ _ _ _ Hb)).
    + intros n k Hn'. left. by apply (same_graph_has_key _ _ _ _ (bg_same _ _ _ _ _ _ Hb)).
    + intros Hni. rewrite no_drain_reports in Hn.
      * eapply Forall_impl; [exact Hn|]. cbn. unfold count_offset. intros; lia.
      * intros n y Hin. apply Hni. by eexists _, _, _, _, n, y.
  - injection Hp as ->. destruct (call_lines _ _ _ _ _ _ _ _ _ _ Hi Hk H H0 H1) as [Hg Hn]. done.
  - injection Hp as ->. split; [apply good_lines_nil|]. intros p' [= <-].
    destruct (begin_execute _ _ _ Hi H) as (e' & cfg' & ids & bs & Hb). destruct (begun_unique _ _ _ _ _ _ _ _ Hb H0) as [-> ->].
    unfold known, count_offset. cbn [p_graph]. rewrite (bg_completed _ _ _ _ _ _ Hb). split; [|split; [|split; [|by constructor]]].
    + intros k Hin. apply elem_of_union in Hin as [Hin|Hin].
      * destruct (Hk k Hin) as [n Hn']. exists n. by apply (same_graph_has_key _ _ _ _ (bg_same _ _ _ _ _ _ Hb)).
      * apply elem_of_list_to_set, elem_of_list_In, (bg_bs _ _ _ _ _ _ Hb) in Hin as (n & _ & Hn' & _). exists n. by apply (same_graph_has_key _ _ _ _ (bg_same _ _ _ _ _ _ Hb)).
    + apply N2Z.inj_le. rewrite !nat_N_Z. apply Nat2Z.inj_le, subseteq_size. set_solver.
    + intros n k Hn'. left. by apply (same_graph_has_key _ _ _ _ (bg_same _ _ _ _ _ _ Hb)).
  - split; [apply good_lines_nil|]. intros p' Hp'. destruct H; cbn [w_proc w_file] in *; try done.
    injection Hp as ->. injection Hp' as <-. unfold known, count_offset. cbn [p_graph].
    destruct (add_inv _ _ _ _ _ _ _ _ _ _ Hi H H1) as (_ & _ & Hc). rewrite Hc. 
    assert (Hn : deps e = deps (p_graph p) \/ exists c, nodes (deps e) = nodes (deps (p_graph p)) ++ [c] /\ c_key c = key /\ exists m, r = AddOk m).
    { pose proof (py_add_task_spec (p_graph p) cmdline key ds disp aff sr (pi_graph _ _ Hi)) as Hs.
      destruct (logfile_runcount (lf_state (logfile (p_graph p))) key) as [[rc ro]|] eqn:Hrc.
      - cbv zeta in Hs. destruct Hs as [(n & _ & Hs)|[_ Hs]]; [rewrite Hs in H; injection H as <- _; by left|].
        destruct Hs as [[_ Hs]|[(_ & _ & Hs)|(_ & _ & e' & Hs & Hn & _ & Hl & _)]]; rewrite Hs in H; injection H as <- <-; [by left|by left|].
        right. eexists. split; [exact Hn|]. split; [done|]. by eexists.
      - rewrite Hs in H. injection H as <- _. by left. }
    split; [|split; [lia|split; [|by constructor]]].
    + intros k Hin. destruct (Hk k Hin) as [n Hn']. exists n. destruct Hn as [-> |(c & Hn & _)]; [done|]. destruct Hn' as (c' & Hc' & <-). exists c'. split; [|done]. rewrite Hn. by apply lookup_app_l_Some.
    + intros n k (c' & Hc' & <-). destruct Hn as [Hn |(c & Hn & Hkey & m & ->)]; [left; exists c'; by rewrite <- Hn|].
      rewrite Hn in Hc'. apply lookup_app_Some in Hc' as [Hc'|[_ Hc']]; [left; by exists c'|]. right. exists m. f_equal. 
      apply list_lookup_singleton_Some in Hc' as [_ <-]. done.
Qed.

(** ** Whole sessions *)
Lemma phistory_possible h w : printed h w -> possible (map fst h) w.
Proof.
  unfold printed, possible. intros H. remember (World [] None) as w0 eqn:E. induction H; subst; [constructor|].
  rewrite map_app. econstructor; [by apply IHphistory|]. cbn. by eapply pstep_wstep.
Qed.
Lemma possible_printed h w : possible h w -> exists h', printed h' w /\ map fst h' = h.
Proof.
  revert h w. apply possible_ind'; [exists []; by split; [constructor|]|]. intros h w ev w' Hh (h' & Hp & <-) Hs.
  apply wstep_pstep in Hs as [c Hc]. exists (h' ++ [(ev, c)]). split; [by econstructor|]. by rewrite map_app.
Qed.
Lemma phistory_snoc_inv w1 h ev c w3 : phistory w1 (h ++ [(ev, c)]) w3 -> exists w2, phistory w1 h w2 /\ pstep w2 ev c w3.
Proof.
  intros H. inversion H as [w Hn|w w2 w3' h' ev' c' H1 H2]; subst; [by destruct h|].
  apply app_inj_tail in H3 as [-> [= -> ->]]. by exists w2.
Qed.

Lemma session_snoc h s ev c : ~ is_open ev -> last_session_of h s -> last_session_of (h ++ [(ev, c)]) (s ++ [(ev, c)]).
Proof.
  intros Ho (h0 & a & c0 & -> & Hs). exists h0, a, c0. split; [by rewrite <- List.app_assoc|].
  intros a' c' [Hin|[[= -> _]|[]]]%in_app_or; [by apply Hs in Hin|]. apply Ho. by exists a'.
Qed.
Lemma session_unique h s s' : last_session_of h s -> last_session_of h s' -> s = s'.
Proof.
  intros (h0 & a & c & -> & Hs) (h1 & a' & c' & H & Hs'). apply app_split in H as [(l2 & -> & ->)|(n1 & H & ->)].
  - exfalso. apply (Hs' a c). apply in_app_iff. right. by left.
  - destruct n1 as [|x n1]; simpl in H; injection H as Hx H; [done|]. exfalso. apply (Hs a' c'). rewrite H. apply in_app_iff. right. by left.
Qed.

Lemma numbers_app c c' : numbers (c ++ c') = numbers c ++ numbers c'.
Proof. apply omap_app'. Qed.
Lemma sorted_app (l l' : list N) b : StronglySorted N.lt l -> StronglySorted N.lt l' -> Forall (fun k => (k <= b)%N) l -> Forall (fun k => (b < k)%N) l' ->
  StronglySorted N.lt (l ++ l').
Proof.
  intros H1 H2 H3 H4. induction l as [|x l IH]; [done|]. inversion_clear H1. inversion_clear H3. cbn. constructor; [by apply IH|].
  apply Forall_app. split; [done|]. eapply Forall_impl; [exact H4|]. cbn. intros; lia.
Qed.
Lemma all_messages_snoc s ev c : all_messages (s ++ [(ev, c)]) = all_messages s ++ c.
Proof. unfold all_messages. rewrite map_app, concat_app. cbn. by rewrite app_nil_r. Qed.

Definition progress_inv (h : list (event_of_history * list message)) (w : world) : Prop :=
  match w_proc w with
  | None => True
  | Some p => known p /\ exists s, last_session_of h s /\
      (forall n k, task_has_key (deps (p_graph p)) n k -> added s k) /\
      ((forall ev c, In (ev, c) s -> ~ cut_short ev) ->
         StronglySorted N.lt (numbers (all_messages s)) /\ Forall (fun k => (k <= count_offset p)%N) (numbers (all_messages s)))
  end.

Lemma pstep_open w ev c w' : pstep w ev c w' -> w_proc w = None -> c = [] /\ (forall p', w_proc w' = Some p' -> exists a, ev = HOpened a /\ open_session (w_file w) a = Some p').
Proof. intros H Hn. destruct H; cbn in Hn; try done. split; [done|]. intros p' Hp. destruct H; cbn in *; try done. injection Hp as <-. by exists a. Qed.
Lemma pstep_not_open w ev c w' p : pstep w ev c w' -> w_proc w = Some p -> ~ is_open ev.
Proof. intros H Hp [a ->]. inversion H; subst. by inversion H0; subst. Qed.

Lemma progress_holds h w : printed h w -> progress_inv h w.
Proof.
  unfold printed. intros H. remember (World [] None) as w0 eqn:E. induction H as [w|w1 w2 w3 h ev c H IH Hs]; subst; [done|]. specialize (IH eq_refl).
  pose proof (possible_inv _ _ (phistory_possible _ _ H)) as Hw. unfold progress_inv in *. destruct (w_proc w2) as [p|] eqn:Hp.
  - destruct IH as (Hk & s & Hses & Hadd & Hnum). destruct (pstep_lines _ _ _ _ _ Hw Hp Hk Hs) as ((G1 & G2 & _) & Hnext).
    destruct (w_proc w3) as [p'|]; [|done]. destruct (Hnext _ eq_refl) as (Hk' & Hle & Hkeys & Hn'). split; [done|].
    exists (s ++ [(ev, c)]). split; [apply session_snoc; [by eapply pstep_not_open|done]|]. split.
    + intros n k Hn. destruct (Hkeys n k Hn) as [Ho|[m ->]].
      * destruct (Hadd n k Ho) as (m & c' & Hin). exists m, c'. apply in_app_iff. by left.
      * exists m, c. apply in_app_iff. right. by left.
    + intros Hni. destruct Hnum as [N1 N2]; [intros ev' c' Hin; apply (Hni ev' c'), in_app_iff; by left|].
      rewrite all_messages_snoc, numbers_app. split; [by eapply sorted_app|]. apply Forall_app. split.
      * eapply Forall_impl; [exact N2|]. cbn. intros; lia.
      * apply Hn'. apply (Hni ev c), in_app_iff. right. by left.
  - destruct (pstep_open _ _ _ _ Hs Hp) as [-> Ho]. destruct (w_proc w3) as [p'|]; [|done]. destruct (Ho _ eq_refl) as (a & -> & Hop).
    destruct Hw as [HF _]. destruct (open_works _ a HF) as (l & p1 & _ & Ho' & _ & Hg & _). rewrite Ho' in Hop. injection Hop as ->.
    split; [intros k Hin; rewrite Hg in Hin; by apply elem_of_empty in Hin|]. exists []. split; [exists h, a, []; split; [done|]; by intros ? ? []|].
    split; [intros n k (cm & Hcm & _); by rewrite Hg in Hcm|]. intros _. by repeat constructor.
Qed.

Lemma session_grows h ev c w s : printed (h ++ [(ev, c)]) w -> last_session_of h s -> (forall ev' c', In (ev', c') s -> ~ cut_short ev') ->
  StronglySorted N.lt (numbers (all_messages (s ++ [(ev, c)]))).
Proof.
  intros H Hses Hni. apply phistory_snoc_inv in H as (w2 & H & Hs). rewrite all_messages_snoc, numbers_app.
  assert (Hall : forall w h', phistory (World [] None) h' w -> forall s', last_session_of h' s' -> (forall ev' c', In (ev', c') s' -> ~ cut_short ev') -> StronglySorted N.lt (numbers (all_messages s'))).
  { clear. intros w h' H. remember (World [] None) as w0 eqn:E. induction H as [w|w1 w2 w3 h ev c H IH Hs]; subst; intros s' Hses Hni.
    - destruct Hses as (h0 & a & c & Hx & _). by destruct h0.
    - destruct s' as [|[ev1 c1] s' _] using rev_ind; [constructor|].
      assert (last_session_of h s' /\ (ev1, c1) = (ev, c)) as [Hses' [= -> ->]].
      { destruct Hses as (h0 & a & c0 & Hx & Hn). rewrite app_comm_cons, List.app_assoc in Hx. apply app_inj_tail in Hx as [-> ->]. split; [|done].
        exists h0, a, c0. split; [done|]. intros a' c' Hin. apply (Hn a' c'), in_app_iff. by left. }
      rewrite all_messages_snoc, numbers_app. pose proof (possible_inv _ _ (phistory_possible _ _ H)) as Hw.
      pose proof (progress_holds _ _ H) as HI. unfold progress_inv in HI. destruct (w_proc w2) as [p|] eqn:Hp.
      + destruct HI as (Hk & s0 & Hs0 & _ & Hnum). assert (s0 = s') as -> by (by eapply session_unique).
        destruct Hnum as [N1 N2]; [intros ev' c' Hin; apply (Hni ev' c'), in_app_iff; by left|].
        destruct (pstep_lines _ _ _ _ _ Hw Hp Hk Hs) as ((G1 & G2 & _) & _). by eapply sorted_app.
      + destruct (pstep_open _ _ _ _ Hs Hp) as [-> _]. cbn. rewrite app_nil_r. apply IH; [done|done|]. intros ev' c' Hin. apply (Hni ev' c'), in_app_iff. by left. }
  pose proof (Hall _ _ H _ Hses Hni) as Hsort. pose proof (possible_inv _ _ (phistory_possible _ _ H)) as Hw.
  pose proof (progress_holds _ _ H) as HI. unfold progress_inv in HI. destruct (w_proc w2) as [p|] eqn:Hp.
  - destruct HI as (Hk & s0 & Hs0 & _ & Hnum). assert (s0 = s) as -> by (by eapply session_unique). destruct (Hnum Hni) as [N1 N2].
    destruct (pstep_lines _ _ _ _ _ Hw Hp Hk Hs) as ((G1 & G2 & _) & _). by eapply sorted_app.
  - destruct (pstep_open _ _ _ _ Hs Hp) as [-> _]. cbn. by rewrite app_nil_r.
Qed.

Lemma session_totals h ev c w s ks k n x : printed (h ++ [(ev, c)]) w -> last_session_of h s -> (forall key, added s key -> In key ks) ->
  In (Progress k n x) c -> (1 <= k <= n)%N /\ (n <= N.of_nat (length ks))%N.
Proof.
  intros H Hses Hks Hin. apply phistory_snoc_inv in H as (w2 & H & Hs). pose proof (possible_inv _ _ (phistory_possible _ _ H)) as Hw.
  pose proof (progress_holds _ _ H) as HI. unfold progress_inv in HI. destruct (w_proc w2) as [p|] eqn:Hp.
  - destruct HI as (Hk & s0 & Hs0 & Hadd & _). assert (s0 = s) as -> by (by eapply session_unique).
    destruct (pstep_lines _ _ _ _ _ Hw Hp Hk Hs) as ((_ & _ & G) & _). destruct (G _ _ _ Hin) as [G1 G2]. split; [done|]. etransitivity; [exact G2|].
    assert (length (nodes (deps (p_graph p))) <= length ks); [|lia]. destruct Hw as [_ Hi]. rewrite Hp in Hi. rewrite <- (map_length c_key).
    apply submseteq_length, NoDup_submseteq; [apply (gk_keys _ (pi_graph _ _ Hi))|]. intros key Hkey. apply elem_of_list_In, Hks.
    apply elem_of_list_fmap in Hkey as (cm & -> & [i Hcm]%elem_of_list_lookup). apply (Hadd i). by exists cm.
  - by destruct (pstep_open _ _ _ _ Hs Hp) as [-> _].
Qed.

(** A call that ends by itself has nothing left to clean up. *)
Lemma done_nothing_drained cfg s t : config_ok cfg -> reachable cfg s t -> In (OExit ExitDone) t -> forall n x, ~ In (ODrainFinished n x) t.
Proof.
  intros Hok Hr Hin n x Hd. destruct (full_or_done cfg Hok s t Hr) as [HF|HD].
  - apply elem_of_list_In in Hd. by apply (s_nodrain _ _ _ (f_ts _ _ _ HF)) in Hd.
  - destruct HD as (s0 & t0 & os & now & order & HF & _ & _ & _ & -> & _ & Hz & _). pose proof (z_obs _ _ _ _ _ _ Hz) as Ho. rewrite Forall_forall in Ho.
    apply in_app_or in Hin as [Hin|Hin]; [|by apply elem_of_list_In, Ho in Hin]. apply in_app_or in Hd as [Hd|Hd]; [by apply elem_of_list_In, (s_nodrain _ _ _ (f_ts _ _ _ HF)) in Hd|].
    apply elem_of_list_In in Hin, Hd. pose proof (s_done _ _ _ (f_ts _ _ _ HF) Hin) as H0.
    assert (Hdr : n ∈ drained os) by (apply elem_of_list_omap; by eexists). pose proof (z_nodup _ _ _ _ _ _ Hz n) as Hle. rewrite occ_app in Hle.
    pose proof (proj1 (occ_nodup (handed t0)) (nodup_handed cfg Hok s0 t0 HF) n) as Hh. apply occ_pos in Hdr.
    assert (Hx : n ∈ handed t0) by (apply occ_pos; lia). apply (handed_readied cfg s0 t0 n HF), (all_finished cfg s0 t0 n HF H0), occ_pos in Hx. lia.
Qed.
