(** Proofs about add_task and the display string. *)
From Verif Require Import ExecSpec GraphProofs LogProofs ExecProofs.

(** ** add_task *)
Lemma add_dependencies_spec g new ds :
  node_count g = S new ->
  (Forall (fun d => d < new) ds ->
     add_dependencies g new ds = (DiGraph (nodes g) (edges g ++ map (fun d => (d, new)) ds), true)) /\
  (~ Forall (fun d => d < new) ds ->
     exists pre, add_dependencies g new ds = (DiGraph (nodes g) (edges g ++ map (fun d => (d, new)) pre), false)).
Proof.
  revert g. induction ds as [|d ds IH]; intros g Hg; simpl.
  - split; [|by intros []]. intros _. rewrite app_nil_r. by destruct g.
  - destruct (Nat.eqb_spec d new) as [->|Hne]; simpl.
    + split.
      * intros H. inversion H. lia.
      * intros _. exists []. simpl. rewrite app_nil_r. by destruct g.
    + destruct (Nat.leb_spec (node_count g) d) as [Hle|Hlt].
      * split.
        -- intros H. inversion H. lia.
        -- intros _. exists []. simpl. rewrite app_nil_r. by destruct g.
      * destruct (IH (add_edge g d new)) as [IH1 IH2]; [done|]. split.
        -- intros H. inversion H; subst. rewrite IH1 by done. simpl. by rewrite <- List.app_assoc.
        -- intros H. destruct IH2 as [pre Hpre]; [intros Hf; apply H; constructor; [lia|done]|].
           exists (d :: pre). rewrite Hpre. simpl. by rewrite <- List.app_assoc.
Qed.

Lemma remove_added (g : digraph cmd) c pre :
  graph_wf g ->
  remove_node (DiGraph (nodes g ++ [c]) (edges g ++ map (fun d => (d, length (nodes g))) pre)) (length (nodes g)) = g.
Proof.
  intros Hwf. unfold remove_node, node_count. cbn [nodes edges].
  rewrite app_length. simpl. replace (length (nodes g) + 1 - 1) with (length (nodes g)) by lia.
  rewrite list_lookup_middle by done. destruct g as [ns es]. simpl in *. f_equal.
  - rewrite insert_app_r_alt by lia. rewrite Nat.sub_diag. simpl. by rewrite take_app.
  - rewrite List.filter_app, map_app.
    assert (List.filter (fun e => negb (Nat.eqb (fst e) (length ns) || Nat.eqb (snd e) (length ns)))
              (map (fun d => (d, length ns)) pre) = []) as ->.
    { induction pre as [|d pre IH]; [done|]. simpl. rewrite Nat.eqb_refl, orb_true_r. done. }
    simpl. rewrite app_nil_r.
    assert (forall u v, In (u, v) es -> u < length ns /\ v < length ns) as Hb by (intros u v; apply (Hwf u v)).
    clear Hwf. induction es as [|[u v] es IH]; [done|]. simpl.
    destruct (Hb u v) as [Hu Hv]; [by left|].
    destruct (Nat.eqb_spec u (length ns)); [lia|]. destruct (Nat.eqb_spec v (length ns)); [lia|]. simpl.
    destruct (Nat.eqb_spec u (length ns)); [lia|]. destruct (Nat.eqb_spec v (length ns)); [lia|].
    f_equal. apply IH. intros ? ? ?. apply Hb. by right.
Qed.

Lemma add_task_spec e c ds :
  graph_ok e ->
  (exists n, task_has_key (deps e) n (c_key c) /\ add_task e c ds = (e, AddOk n)) \/
  ((forall n, ~ task_has_key (deps e) n (c_key c)) /\
   ((c_cmdline c = [] /\ add_task e c ds = (e, AddErrEmptyCmdline)) \/
    (c_cmdline c <> [] /\ (exists d, In d ds /\ length (nodes (deps e)) <= d) /\
       add_task e c ds = (e, AddErrInvalidDependency)) \/
    (c_cmdline c <> [] /\ (forall d, In d ds -> d < length (nodes (deps e))) /\
       add_task e c ds =
         (ExecGraph (DiGraph (nodes (deps e) ++ [c])
                             (edges (deps e) ++ map (fun d => (d, length (nodes (deps e)))) ds))
            (<[c_key c := length (nodes (deps e))]> (key_to_nodeid e)) (logfile e) (completed e),
          AddOk (length (nodes (deps e))))))).
Proof.
  intros Hok. unfold add_task.
  destruct (key_to_nodeid e !! c_key c) as [n|] eqn:Hk.
  { left. exists n. split; [by apply (gk_table e Hok)|done]. }
  right. split. { intros n Hn. apply (gk_table e Hok) in Hn. congruence. }
  destruct (c_cmdline c) as [|a rest] eqn:Hc; [by left|]. right. simpl.
  set (new := node_count (deps e)).
  destruct (add_dependencies_spec (add_node (deps e) c) new ds) as [Hyes Hno].
  { unfold node_count. simpl. rewrite app_length. simpl. unfold new, node_count. lia. }
  destruct (decide (Forall (fun d => d < new) ds)) as [Hf|Hf].
  - right. split; [done|]. split; [by rewrite List.Forall_forall in Hf|]. by rewrite (Hyes Hf).
  - left. split; [done|]. split.
    + apply not_Forall_Exists in Hf; [|intros; apply _]. apply Exists_exists in Hf as (d & Hd & Hn).
      exists d. split; [by apply elem_of_list_In|]. unfold compose in Hn. unfold new, node_count in Hn. lia.
    + destruct (Hno Hf) as [pre ->]. cbn [add_node nodes edges]. unfold new, node_count.
      rewrite remove_added by apply Hok. by destruct e.
Qed.

Lemma add_ok e c ds :
  graph_ok e -> (forall d, In d ds -> d < length (nodes (deps e))) ->
  (forall n, ~ task_has_key (deps e) n (c_key c)) ->
  graph_ok (ExecGraph (DiGraph (nodes (deps e) ++ [c])
                             (edges (deps e) ++ map (fun d => (d, length (nodes (deps e)))) ds))
            (<[c_key c := length (nodes (deps e))]> (key_to_nodeid e)) (logfile e) (completed e)).
Proof.
  intros [Hwf Hinc Hk Ht] Hd Hnew. split; cbn [deps key_to_nodeid nodes edges].
  - intros u v He. apply in_app_iff in He as [He|He].
    + apply Hwf in He. cbn [nodes]. rewrite app_length. simpl. lia.
    + apply in_map_iff in He as (d & [= <- <-] & Hi). apply Hd in Hi. cbn [nodes].
      rewrite app_length. simpl. lia.
  - intros u v He. apply in_app_iff in He as [He|He]; [by apply Hinc|].
    apply in_map_iff in He as (d & [= <- <-] & Hi). by apply Hd.
  - rewrite map_app. apply NoDup_app. split; [done|]. split; [|apply NoDup_singleton].
    intros k Hin Hs. apply elem_of_list_singleton in Hs as ->.
    apply elem_of_list_lookup in Hin as [n Hn]. rewrite list_lookup_fmap in Hn.
    destruct (nodes (deps e) !! n) as [c'|] eqn:Hc'; [|done]. simplify_eq/=. apply (Hnew n). by exists c'.
  - intros k n. unfold task_has_key in *. destruct (decide (k = c_key c)) as [->|Hne].
    + rewrite lookup_insert. split.
      * intros [= <-]. exists c. split; [|done]. cbn [nodes]. by rewrite list_lookup_middle.
      * intros (c' & Hc' & Hkk). cbn [nodes] in Hc'. apply lookup_app_Some in Hc' as [Hc'|[Hle Hc']].
        -- exfalso. apply (Hnew n). eauto.
        -- destruct (n - length (nodes (deps e))) eqn:E; [|done]. f_equal. lia.
    + rewrite lookup_insert_ne by done. rewrite Ht. cbn [nodes]. split; intros (c' & Hc' & Hkk); exists c'.
      * split; [|done]. by apply lookup_app_l_Some.
      * split; [|done]. apply lookup_app_Some in Hc' as [Hc'|[Hle Hc']]; [done|].
        destruct (n - length (nodes (deps e))); simpl in Hc'; [congruence|done].
Qed.

Lemma py_add_task_spec e cmdline key ds disp a sr :
  graph_ok e ->
  match logfile_runcount (lf_state (logfile e)) key with
  | None => py_add_task e cmdline key ds disp a sr = (e, AddPanicNoStorageRoot)
  | Some (rc, _) =>
      let c := Cmd cmdline key disp a rc 0 sr in
      (exists n, task_has_key (deps e) n key /\ py_add_task e cmdline key ds disp a sr = (e, AddOk n)) \/
      ((forall n, ~ task_has_key (deps e) n key) /\
       ((cmdline = [] /\ py_add_task e cmdline key ds disp a sr = (e, AddErrEmptyCmdline)) \/
        (cmdline <> [] /\ (exists d, In d ds /\ length (nodes (deps e)) <= d) /\
           py_add_task e cmdline key ds disp a sr = (e, AddErrInvalidDependency)) \/
        (cmdline <> [] /\ (forall d, In d ds -> d < length (nodes (deps e))) /\
           exists e', py_add_task e cmdline key ds disp a sr = (e', AddOk (length (nodes (deps e)))) /\
             nodes (deps e') = nodes (deps e) ++ [c] /\
             edges (deps e') = edges (deps e) ++ map (fun d => (d, length (nodes (deps e)))) ds /\
             logfile e' = logfile e /\ completed e' = completed e)))
  end.
Proof.
  intros Hok. unfold py_add_task. destruct (logfile_runcount (lf_state (logfile e)) key) as [[rc ro]|]; [|done].
  set (c := Cmd cmdline key disp a rc 0 sr). cbv zeta. destruct (add_task_spec e c ds Hok) as [(n & Hn & H)|[Hnew [[Hc H]|[(Hc & Hd & H)|(Hc & Hd & H)]]]].
  - left. exists n. done.
  - right. split; [done|]. left. done.
  - right. split; [done|]. right. left. done.
  - right. split; [done|]. right. right. split; [done|]. split; [done|]. eexists. split; [exact H|]. done.
Qed.

Lemma py_add_task_ok e cmdline key ds disp a sr e' r :
  graph_ok e -> py_add_task e cmdline key ds disp a sr = (e', r) -> graph_ok e'.
Proof.
  intros Hok. unfold py_add_task. destruct (logfile_runcount (lf_state (logfile e)) key) as [[rc ro]|]; [|by intros [= <- _]].
  set (c := Cmd cmdline key disp a rc 0 sr).
  destruct (add_task_spec e c ds Hok) as [(n & Hn & ->)|[Hnew [[Hc ->]|[(Hc & Hd & ->)|(Hc & Hd & ->)]]]];
    intros [= <- _]; try done. by apply add_ok.
Qed.

Lemma new_ok l : graph_ok (exec_new l).
Proof.
  split; simpl.
  - intros u v [].
  - intros u v [].
  - constructor.
  - intros k n. rewrite lookup_empty. split; [done|]. intros (c & Hc & _). done.
Qed.

Lemma same_graph_ok e e' :
  graph_ok e -> same_graph (deps e) (deps e') -> key_to_nodeid e' = key_to_nodeid e -> graph_ok e'.
Proof.
  intros [Hwf Hinc Hk Ht] Hs Hkey. split.
  - by eapply same_graph_wf.
  - by eapply same_graph_increasing.
  - by rewrite (same_graph_keys _ _ Hs).
  - intros k n. rewrite Hkey, Ht. symmetry. by apply same_graph_has_key.
Qed.

(** ** Display *)
Lemma joined_spec args : chars (join_args args) = joined args.
Proof.
  induction args as [|x rest IH]; [done|]. destruct rest as [|y rest]; [done|].
  change (join_args (x :: y :: rest)) with (x +:+ String space (join_args (y :: rest))).
  change (joined (x :: y :: rest)) with (chars x ++ [space] ++ joined (y :: rest)). rewrite <- IH.
  generalize (join_args (y :: rest)). intros s. clear IH. induction x as [|a x IH]; [done|].
  simpl. f_equal. apply IH.
Qed.

Lemma replace_escapes_spec s :
  exists ps, proper ps /\ text_of ps = chars s /\ shown_of ps = chars (replace_escapes s).
Proof.
  assert (forall n s, String.length s <= n ->
    exists ps, proper ps /\ text_of ps = chars s /\ shown_of ps = chars (replace_escapes s)) as H;
    [|by apply (H (String.length s))].
  clear s. induction n as [|n IH]; intros s Hs.
  { destruct s; [|simpl in Hs; lia]. exists []. done. }
  destruct s as [|c s1]; [by exists []|]. simpl in Hs.
  destruct s1 as [|d s2].
  { simpl. destruct (Ascii.eqb_spec c tab) as [->|Hne].
    - exists [PTab]. done.
    - exists [PChar c]. split; [|done]. simpl. split; [done|]. split; [|done]. intros (_ & r & ?). done. }
  change (replace_escapes (String c (String d s2))) with
    (if Ascii.eqb c backslash && Ascii.eqb d newline
     then String space (replace_escapes s2)
     else if Ascii.eqb c tab
     then String backslash (String "t" (replace_escapes (String d s2)))
     else String c (replace_escapes (String d s2))).
  destruct (Ascii.eqb_spec c backslash) as [->|Hb]; [destruct (Ascii.eqb_spec d newline) as [->|Hn]|]; cbn [andb].
  - destruct (IH s2) as (ps & Hp & Ht & Hsh); [simpl in Hs; lia|]. exists (PEscapedNewline :: ps).
    split; [done|]. unfold text_of, shown_of in *. simpl. rewrite Ht, Hsh. done.
  - destruct (IH (String d s2)) as (ps & Hp & Ht & Hsh); [simpl in *; lia|]. exists (PChar backslash :: ps).
    split.
    + simpl. split; [done|]. split; [|done]. intros (_ & r & ->). unfold text_of in Ht. simpl in Ht. congruence.
    + unfold text_of, shown_of in *. simpl map. simpl concat. rewrite Ht, Hsh. done.
  - destruct (IH (String d s2)) as (ps & Hp & Ht & Hsh); [simpl in *; lia|].
    destruct (Ascii.eqb_spec c tab) as [->|Hne].
    + exists (PTab :: ps). split; [done|]. unfold text_of, shown_of in *. simpl map. simpl concat. rewrite Ht, Hsh. done.
    + exists (PChar c :: ps). split; [split; [done|]; split; [|done]; by intros (? & _)|].
      unfold text_of, shown_of in *. simpl map. simpl concat. rewrite Ht, Hsh. done.
Qed.

Lemma shown_no_tab ps : proper ps -> ~ In tab (shown_of ps).
Proof.
  induction ps as [|p ps IH]; [simpl; tauto|]. intros Hp Hin. unfold shown_of in Hin. simpl in Hin.
  apply in_app_iff in Hin as [Hin|Hin].
  - destruct p; simpl in *; [intuition discriminate|intuition discriminate|]. destruct Hp. intuition.
  - apply IH; [|done]. destruct p; simpl in Hp; tauto.
Qed.

Lemma shown_head_newline ps r : shown_of ps = newline :: r -> exists q, ps = PChar newline :: q.
Proof.
  destruct ps as [|[| |c] ps]; unfold shown_of; simpl; try discriminate.
  intros [= -> _]. eauto.
Qed.

Lemma shown_no_escape ps : proper ps -> forall a b, shown_of ps <> a ++ "\"%char :: newline :: b.
Proof.
  induction ps as [|p ps IH]; intros Hp a b.
  { unfold shown_of. simpl. by destruct a. }
  assert (proper ps) as Hp' by (destruct p; simpl in Hp; tauto).
  change (shown_of (p :: ps)) with (piece_shown p ++ shown_of ps).
  destruct p as [| |c]; simpl piece_shown; intros H.
  - destruct a as [|x a]; [discriminate|]. simpl in H. injection H as _ H. by apply (IH Hp' a b).
  - destruct a as [|x [|y a]]; try discriminate. simpl in H. injection H as _ _ H. by apply (IH Hp' a b).
  - destruct a as [|x a]; simpl in H.
    + injection H as -> H. apply shown_head_newline in H as [q ->]. simpl in Hp. destruct Hp as (_ & Hn & _).
      apply Hn. eauto.
    + injection H as _ H. by apply (IH Hp' a b).
Qed.

Lemma shown_unchanged ps :
  ~ In tab (text_of ps) -> (forall a b, text_of ps <> a ++ "\"%char :: newline :: b) -> shown_of ps = text_of ps.
Proof.
  induction ps as [|p ps IH]; [done|].
  change (text_of (p :: ps)) with (piece_text p ++ text_of ps).
  change (shown_of (p :: ps)) with (piece_shown p ++ shown_of ps).
  intros Ht He. rewrite IH.
  - destruct p; [|exfalso; apply Ht; simpl; auto|done]. exfalso. by apply (He [] (text_of ps)).
  - intros H. apply Ht. apply in_app_iff. by right.
  - intros a b H. apply (He (piece_text p ++ a) b). rewrite H. by rewrite List.app_assoc.
Qed.

(** Cutting into pieces is unique. *)
Lemma proper_unique ps qs : proper ps -> proper qs -> text_of ps = text_of qs -> ps = qs.
Proof.
  revert qs. induction ps as [|p ps IH]; intros qs Hp Hq H.
  - destruct qs as [|[| |c] qs]; [done|discriminate|discriminate|discriminate].
  - assert (proper ps) as Hp' by (destruct p; simpl in Hp; tauto).
    destruct qs as [|q qs]; [destruct p; discriminate|].
    assert (proper qs) as Hq' by (destruct q; simpl in Hq; tauto).
    change (piece_text p ++ text_of ps = piece_text q ++ text_of qs) in H.
    destruct p as [| |c], q as [| |d]; simpl in H.
    + injection H as H. f_equal. by apply IH.
    + discriminate.
    + exfalso. injection H as <- H. destruct Hq as (_ & Hn & _). apply Hn. split; [done|].
      destruct qs as [|[| |e] qs]; try discriminate. unfold text_of in H. simpl in H. injection H as <- _. eauto.
    + discriminate.
    + injection H as H. f_equal. by apply IH.
    + exfalso. injection H as <- _. by destruct Hq.
    + exfalso. injection H as -> H. destruct Hp as (_ & Hn & _). apply Hn. split; [done|].
      destruct ps as [|[| |e] ps]; try discriminate. unfold text_of in H. simpl in H. injection H as -> _. eauto.
    + exfalso. injection H as -> _. by destruct Hp.
    + injection H as -> H. f_equal. by apply IH.
Qed.
