From Verif Require Export Utf8Proofs.
From Coq Require Import Lia.
Close Scope N_scope.

(** ** Lines *)
Definition chomp (cur : bytes) : bytes := rev (match cur with d :: cur' => if decide (d = CR) then cur' else cur | [] => [] end).
Lemma lines_from_nl l : forall cur s, no_nl l -> lines_from cur (l ++ NL :: s) = chomp (rev l ++ cur) :: lines_from [] s.
Proof.
  induction l as [|c l IH]; intros cur s Hl; cbn [app lines_from].
  - by rewrite decide_True.
  - unfold no_nl in *. rewrite not_elem_of_cons in Hl. destruct Hl as [Hc Hl]. rewrite decide_False by congruence. rewrite IH by done.
    cbn [rev]. by rewrite <- app_assoc.
Qed.
Lemma lines_from_last l : forall cur, no_nl l -> rev l ++ cur <> [] -> lines_from cur l = [rev (rev l ++ cur)].
Proof.
  induction l as [|c l IH]; intros cur Hl Hne; cbn [app lines_from].
  - cbn [rev app] in Hne. destruct cur; done.
  - unfold no_nl in *. rewrite not_elem_of_cons in Hl. destruct Hl as [Hc Hl]. rewrite decide_False by congruence.
    cbn [rev] in *. rewrite <- app_assoc in *. by rewrite IH.
Qed.
Lemma chomp_nocr l : (forall l', l <> l' ++ [CR]) -> chomp (rev l) = l.
Proof.
  intros H. unfold chomp. destruct (rev l) as [|d r] eqn:E.
  - apply (f_equal (@rev _)) in E. rewrite rev_involutive in E. done.
  - case_decide as Hd.
    + destruct (H (rev r)). apply (f_equal (@rev _)) in E. rewrite rev_involutive in E. rewrite E. by subst.
    + rewrite <- E. apply rev_involutive.
Qed.
Lemma chomp_cr l : chomp (CR :: rev l) = l.
Proof. unfold chomp. rewrite decide_True by done. apply rev_involutive. Qed.

Lemma in_lines_fun s ls : in_lines s ls -> str_lines s = ls.
Proof.
  unfold str_lines. induction 1 as [|l Hne Hl|l s ls Hl Hcr H IH|l s ls Hl H IH]; [done| | |].
  - rewrite lines_from_last; [|done|].
    + by rewrite app_nil_r, rev_involutive.
    + rewrite app_nil_r. intros E. apply Hne. apply (f_equal (@rev _)) in E. by rewrite rev_involutive in E.
  - rewrite lines_from_nl by done. rewrite app_nil_r, chomp_nocr by done. by rewrite IH.
  - replace (l ++ CR :: NL :: s) with ((l ++ [CR]) ++ NL :: s) by (by rewrite <- app_assoc).
    rewrite lines_from_nl.
    + rewrite app_nil_r, rev_app_distr. cbn [rev app]. rewrite chomp_cr. by rewrite IH.
    + unfold no_nl in *. rewrite elem_of_app. intros [?|Hin]; [done|]. apply elem_of_list_singleton in Hin. discriminate.
Qed.
Lemma in_lines_total n : forall s, length s <= n -> exists ls, in_lines s ls.
Proof.
  induction n as [|n IH]; intros s Hn. { destruct s; [|simpl in Hn; lia]. exists []. constructor. }
  destruct (decide (NL ∈ s)) as [Hin|Hno].
  - apply elem_of_list_split_l in Hin as (l & s' & -> & Hl). rewrite app_length in Hn. simpl in Hn.
    destruct (IH s') as [ls Hls]; [lia|].
    destruct (rev l) as [|d r] eqn:E.
    + apply (f_equal (@rev _)) in E. rewrite rev_involutive in E. subst l. exists ([] :: ls). apply il_nl; [done| |done]. intros l'. by destruct l'.
    + apply (f_equal (@rev _)) in E. rewrite rev_involutive in E. cbn [rev] in E. destruct (decide (d = CR)) as [->|Hd].
      * subst l. exists (rev r :: ls). rewrite <- app_assoc. cbn [app]. apply il_crnl; [|done]. unfold no_nl. intros H. apply Hl. apply elem_of_app. by left.
      * exists (l :: ls). apply il_nl; [done| |done]. intros l' ->. apply app_inj_tail in E as [_ E]. congruence.
  - destruct s as [|c s]; [exists []; constructor|]. exists [c :: s]. by constructor.
Qed.
Lemma in_lines_str s : in_lines s (str_lines s).
Proof. destruct (in_lines_total (length s) s) as [ls H]; [done|]. by rewrite (in_lines_fun _ _ H). Qed.
Lemma in_lines_no_nl s ls : in_lines s ls -> Forall no_nl ls.
Proof. induction 1; repeat constructor; done. Qed.

(** ** Shell words *)
Lemma is_blank_spec c : is_blank c = true <-> c = TAB \/ c = SP \/ c = NL.
Proof. unfold is_blank. rewrite !orb_true_iff, !bool_decide_eq_true. tauto. Qed.

Lemma split_single t : forall w r, QUOTE ∉ t -> sw_split SingleQuoted w (t ++ QUOTE :: r) = sw_split Unquoted (rev t ++ w) r.
Proof.
  induction t as [|c t IH]; intros w r Ht; cbn [app sw_split].
  - by rewrite decide_True.
  - rewrite not_elem_of_cons in Ht. destruct Ht as [Hc Ht]. rewrite decide_False by congruence. rewrite IH by done.
    cbn [rev]. by rewrite <- app_assoc.
Qed.
Lemma split_double s t : dq s t -> forall w r, sw_split DoubleQuoted w (s ++ DQUOTE :: r) = sw_split Unquoted (rev t ++ w) r.
Proof.
  induction 1 as [|c s t H1 H2 H IH|c s t H1 H IH|c s t H1 H IH]; intros w r; cbn [app sw_split].
  - by rewrite decide_True.
  - rewrite !decide_False by done. rewrite IH. cbn [rev]. by rewrite <- app_assoc.
  - rewrite decide_False by done. rewrite decide_True by done. cbn [sw_split].
    assert (c <> NL) as Hn. { intros ->. by repeat (apply elem_of_cons in H1 as [?|H1]; [done|]); apply elem_of_nil in H1. }
    rewrite decide_False by done.
    assert (bool_decide (c = "$"%char) || bool_decide (c = "`"%char) || bool_decide (c = DQUOTE) || bool_decide (c = BACKSLASH) = true) as ->.
    { rewrite !orb_true_iff, !bool_decide_eq_true. set_solver. }
    rewrite IH. cbn [rev]. by rewrite <- app_assoc.
  - rewrite decide_False by done. rewrite decide_True by done. cbn [sw_split].
    rewrite !not_elem_of_cons in H1. destruct H1 as (? & ? & ? & ? & ? & _). rewrite decide_False by done.
    rewrite !bool_decide_eq_false_2 by done. cbn [orb]. rewrite IH. cbn [rev]. by rewrite <- !app_assoc.
Qed.
Lemma split_piece s t w r : piece s t -> sw_split Unquoted w (s ++ r) = sw_split Unquoted (rev t ++ w) r.
Proof.
  destruct 1 as [c Hc|c Hc|t Ht|s t Hd].
  - rewrite !not_elem_of_cons in Hc. destruct Hc as (? & ? & ? & ? & ? & ? & _). cbn [app sw_split]. rewrite !decide_False by done.
    assert (is_blank c = false) as ->; [|done]. apply not_true_iff_false. rewrite is_blank_spec. tauto.
  - cbn [app sw_split]. rewrite decide_False by done. rewrite decide_False by done. rewrite decide_True by done. by rewrite decide_False.
  - cbn [app sw_split]. rewrite decide_True by done. rewrite <- app_assoc. by apply split_single.
  - cbn [app sw_split]. rewrite decide_False by done. rewrite decide_True by done. rewrite <- app_assoc. by apply split_double.
Qed.
Lemma split_pieces s t : pieces s t -> forall w r, sw_split Unquoted w (s ++ r) = sw_split Unquoted (rev t ++ w) r.
Proof.
  induction 1 as [|s t s' t' Hp H IH]; intros w r; [done|]. rewrite <- app_assoc. erewrite split_piece by done. rewrite IH.
  by rewrite rev_app_distr, <- app_assoc.
Qed.
Lemma split_first s t r : piece s t -> head s <> Some HASH -> sw_split Delimiter [] (s ++ r) = sw_split Unquoted (rev t) r.
Proof.
  destruct 1 as [c Hc|c Hc|t Ht|s t Hd]; intros Hh.
  - rewrite !not_elem_of_cons in Hc. destruct Hc as (? & ? & ? & ? & ? & ? & _). cbn [app sw_split]. rewrite !decide_False by (done || (intros ->; done)).
    assert (is_blank c = false) as ->; [|done]. apply not_true_iff_false. rewrite is_blank_spec. tauto.
  - cbn [app sw_split]. rewrite decide_False by done. rewrite decide_False by done. rewrite decide_True by done. by rewrite decide_False.
  - cbn [app sw_split]. rewrite decide_True by done. rewrite <- app_assoc. etransitivity; [by apply split_single|]. by rewrite app_nil_r.
  - cbn [app sw_split]. rewrite decide_False by done. rewrite decide_True by done. rewrite <- app_assoc. etransitivity; [by apply split_double|]. by rewrite app_nil_r.
Qed.
Lemma piece_nonempty s t : piece s t -> s <> [].
Proof. by destruct 1. Qed.
Lemma split_word s t r : pieces s t -> s <> [] -> head s <> Some HASH -> sw_split Delimiter [] (s ++ r) = sw_split Unquoted (rev t) r.
Proof.
  intros Hp Hne Hh. destruct Hp as [|s t s' t' Hp H]; [done|]. rewrite <- app_assoc. erewrite split_first; [|done|].
  - erewrite split_pieces by done. by rewrite rev_app_distr.
  - pose proof (piece_nonempty _ _ Hp). by destruct s.
Qed.
Lemma words_complete s ws : no_nl s -> words s ws -> shell_split s = Some ws.
Proof.
  unfold shell_split, no_nl. intros Hn H. induction H as [|c s ws Hb H IH|s|s t (Hp & Hne & Hh)|s t c s' ws (Hp & Hne & Hh) Hb H IH|s t Hp Hh].
  - done.
  - rewrite not_elem_of_cons in Hn. destruct Hn as [Hc Hn]. cbn [sw_split].
    rewrite !decide_False by (destruct Hb as [->| ->]; done). assert (is_blank c = true) as -> by (apply is_blank_spec; destruct Hb; tauto). auto.
  - rewrite not_elem_of_cons in Hn. destruct Hn as [_ Hn]. cbn [sw_split]. rewrite !decide_False by done. rewrite decide_True by done. simpl.
    clear -Hn. induction s as [|c s IH]; [done|]. rewrite not_elem_of_cons in Hn. destruct Hn as [Hc Hn]. cbn [sw_split].
    rewrite decide_False by congruence. auto.
  - rewrite <- (app_nil_r s). erewrite split_word by done. cbn [sw_split]. by rewrite rev_involutive.
  - erewrite split_word by done. cbn [sw_split]. rewrite !decide_False by (destruct Hb as [->| ->]; done).
    assert (is_blank c = true) as -> by (apply is_blank_spec; destruct Hb; tauto). rewrite IH.
    + by rewrite rev_involutive.
    + rewrite not_elem_of_app, not_elem_of_cons in Hn. tauto.
  - destruct s as [|c s].
    + inversion Hp as [E|s' t' s'' t'' Hp' H' E]; [done|]. exfalso. apply app_eq_nil in E as [-> _]. by apply piece_nonempty in Hp'.
    + erewrite split_word by done. cbn [sw_split]. rewrite decide_False by done. rewrite decide_False by done. rewrite decide_True by done.
      cbn [sw_split rev]. by rewrite rev_involutive.
Qed.

Lemma pieces_snoc s t s' t' : pieces s t -> piece s' t' -> pieces (s ++ s') (t ++ t').
Proof.
  induction 1 as [|a b a' b' Hp H IH]; intros Hp'.
  - cbn [app]. rewrite <- (app_nil_r s'), <- (app_nil_r t'). by apply ps_cons; [|constructor].
  - rewrite <- !app_assoc. apply ps_cons; auto.
Qed.
Lemma dq_snoc s t s' t' : dq s t -> dq s' t' -> dq (s ++ s') (t ++ t').
Proof. induction 1; intros; cbn [app]; [done|apply dq_char; auto|apply dq_escape; auto|apply dq_other; auto]. Qed.

(** What has been read of the present word in each state. *)
Inductive consumed : sw_state -> bytes -> bytes -> Prop :=
| co_delim : consumed Delimiter [] []
| co_back : consumed Backslash [] [BACKSLASH]
| co_unq w p : pieces p (rev w) -> p <> [] -> head p <> Some HASH -> consumed Unquoted w p
| co_unqb w p : pieces p (rev w) -> p <> [] -> head p <> Some HASH -> consumed UnquotedBackslash w (p ++ [BACKSLASH])
| co_single w p t q : pieces p t -> head p <> Some HASH -> rev w = t ++ q -> QUOTE ∉ q -> consumed SingleQuoted w (p ++ QUOTE :: q)
| co_double w p t q u : pieces p t -> head p <> Some HASH -> rev w = t ++ u -> dq q u -> consumed DoubleQuoted w (p ++ DQUOTE :: q)
| co_doubleb w p t q u : pieces p t -> head p <> Some HASH -> rev w = t ++ u -> dq q u -> consumed DoubleQuotedBackslash w (p ++ DQUOTE :: q ++ [BACKSLASH])
| co_comment q : consumed Comment [] (HASH :: q).

Lemma head_snoc (p : bytes) x y : head p <> Some HASH -> x <> HASH -> head (p ++ x :: y) <> Some HASH.
Proof. destruct p; simpl; congruence. Qed.
Lemma not_app_nil (p : bytes) x y : p ++ x :: y <> [].
Proof. by destruct p. Qed.

Lemma sound_from s : forall st w src ws, no_nl s -> consumed st w src -> sw_split st w s = Some ws -> words (src ++ s) ws.
Proof.
  unfold no_nl. induction s as [|c s IH]; intros st w src ws Hn Hc Hs.
  - destruct Hc as [| |w p Hp Hne Hh|w p Hp Hne Hh|w p t q Hp Hh Hr Hq|w p t q u Hp Hh Hr Hq|w p t q u Hp Hh Hr Hq|q]; cbn [sw_split] in Hs; try done.
    + injection Hs as <-. constructor.
    + injection Hs as <-. apply (ws_backslash [] []); [constructor|done].
    + injection Hs as <-. rewrite app_nil_r. by apply ws_last.
    + injection Hs as <-. rewrite app_nil_r. cbn [rev]. by apply ws_backslash.
    + injection Hs as <-. rewrite app_nil_r. apply ws_comment.
  - rewrite not_elem_of_cons in Hn. destruct Hn as [Hnl Hn].
    assert (c <> NL) as Hcn by congruence. clear Hnl.
    assert (forall src0 st' w', src0 ++ s = src ++ c :: s -> consumed st' w' src0 -> sw_split st' w' s = Some ws -> words (src ++ c :: s) ws) as Hgo.
    { intros src0 st' w' E Hc' Hs'. rewrite <- E. by eapply IH. }
    destruct Hc as [| |w p Hp Hne Hh|w p Hp Hne Hh|w p t q Hp Hh Hr Hq|w p t q u Hp Hh Hr Hq|w p t q u Hp Hh Hr Hq|q]; cbn [sw_split] in Hs.
    + cbn [app] in *. case_decide; [subst; eapply (Hgo [QUOTE]); [done| |exact Hs]; apply (co_single [] [] [] []); [constructor|done|done|set_solver]|].
      case_decide; [subst; eapply (Hgo [DQUOTE]); [done| |exact Hs]; apply (co_double [] [] [] [] []); [constructor|done|done|constructor]|].
      case_decide; [subst; eapply (Hgo [BACKSLASH]); [done| |exact Hs]; constructor|].
      destruct (is_blank c) eqn:Hb.
      { apply ws_blank; [|by apply (IH Delimiter [] [] ws Hn co_delim)]. apply is_blank_spec in Hb. destruct Hb as [?|[?|?]]; [by left|by right|done]. }
      case_decide; [subst; apply (IH Comment [] [HASH] ws Hn); [constructor|done]|].
      eapply (Hgo [c]); [done| |exact Hs]. apply co_unq; [|done|simpl; congruence]. cbn [rev app].
      apply (ps_cons [c] [c] [] []); [|constructor]. apply pc_plain. rewrite !not_elem_of_cons.
      assert (~ (c = TAB \/ c = SP \/ c = NL)) by (rewrite <- is_blank_spec; congruence). set_solver.
    + rewrite decide_False in Hs by done. eapply (Hgo [BACKSLASH; c]); [done| |exact Hs]. apply co_unq; [|done|done]. cbn [rev app].
      apply (ps_cons [BACKSLASH; c] [c] [] []); [|constructor]. by apply pc_escape.
    + case_decide; [subst; eapply (Hgo (p ++ QUOTE :: [])); [by rewrite <- app_assoc| |exact Hs]; apply (co_single w p (rev w) []); [done|done|by rewrite app_nil_r|set_solver]|].
      case_decide; [subst; eapply (Hgo (p ++ DQUOTE :: [])); [by rewrite <- app_assoc| |exact Hs]; apply (co_double w p (rev w) [] []); [done|done|by rewrite app_nil_r|constructor]|].
      case_decide; [subst; eapply (Hgo (p ++ [BACKSLASH])); [by rewrite <- app_assoc| |exact Hs]; by apply co_unqb|].
      destruct (is_blank c) eqn:Hb.
      { destruct (sw_split Delimiter [] s) as [ws'|] eqn:Hd; [|done]. injection Hs as <-. apply ws_word; [done| |by apply (IH Delimiter [] [] ws' Hn co_delim)].
        apply is_blank_spec in Hb. destruct Hb as [?|[?|?]]; [by left|by right|done]. }
      eapply (Hgo (p ++ [c])); [by rewrite <- app_assoc| |exact Hs]. apply co_unq; [|apply not_app_nil|by destruct p]. cbn [rev].
      apply pieces_snoc; [done|]. apply pc_plain. rewrite !not_elem_of_cons.
      assert (~ (c = TAB \/ c = SP \/ c = NL)) by (rewrite <- is_blank_spec; congruence). set_solver.
    + rewrite decide_False in Hs by done. eapply (Hgo (p ++ [BACKSLASH; c])); [by rewrite <- !app_assoc| |exact Hs].
      apply co_unq; [|apply not_app_nil|by destruct p]. cbn [rev]. apply pieces_snoc; [done|]. by apply pc_escape.
    + case_decide as Hq'.
      * subst c. eapply (Hgo (p ++ QUOTE :: q ++ [QUOTE])); [by rewrite <- !app_assoc; cbn [app]; rewrite <- app_assoc| |exact Hs].
        apply co_unq; [|apply not_app_nil|by apply head_snoc]. rewrite Hr. apply pieces_snoc; [done|]. by apply pc_single.
      * eapply (Hgo (p ++ QUOTE :: (q ++ [c]))); [by rewrite <- !app_assoc; cbn [app]; rewrite <- app_assoc| |exact Hs].
        apply (co_single _ p t (q ++ [c])); [done|done| |].
        -- cbn [rev]. rewrite Hr. by rewrite <- app_assoc.
        -- rewrite not_elem_of_app, elem_of_list_singleton. split; [done|congruence].
    + case_decide as Hd1; [|case_decide as Hd2].
      * subst c. eapply (Hgo (p ++ DQUOTE :: q ++ [DQUOTE])); [by rewrite <- !app_assoc; cbn [app]; rewrite <- app_assoc| |exact Hs].
        apply co_unq; [|apply not_app_nil|by apply head_snoc]. rewrite Hr. apply pieces_snoc; [done|]. by apply pc_double.
      * subst c. eapply (Hgo (p ++ DQUOTE :: q ++ [BACKSLASH])); [by rewrite <- !app_assoc; cbn [app]; rewrite <- app_assoc| |exact Hs].
        by eapply co_doubleb.
      * eapply (Hgo (p ++ DQUOTE :: (q ++ [c]))); [by rewrite <- !app_assoc; cbn [app]; rewrite <- app_assoc| |exact Hs].
        apply (co_double _ p t (q ++ [c]) (u ++ [c])); [done|done| |].
        -- cbn [rev]. rewrite Hr. by rewrite <- app_assoc.
        -- apply dq_snoc; [done|]. by repeat constructor.
    + rewrite decide_False in Hs by done.
      destruct (bool_decide (c = "$"%char) || bool_decide (c = "`"%char) || bool_decide (c = DQUOTE) || bool_decide (c = BACKSLASH)) eqn:Hesc.
      * eapply (Hgo (p ++ DQUOTE :: (q ++ [BACKSLASH; c]))); [by rewrite <- !app_assoc; cbn [app]; rewrite <- !app_assoc| |exact Hs].
        apply (co_double _ p t _ (u ++ [c])); [done|done| |].
        -- cbn [rev]. rewrite Hr. by rewrite <- app_assoc.
        -- apply dq_snoc; [done|]. apply dq_escape; [|constructor]. rewrite !orb_true_iff, !bool_decide_eq_true in Hesc. set_solver.
      * eapply (Hgo (p ++ DQUOTE :: (q ++ [BACKSLASH; c]))); [by rewrite <- !app_assoc; cbn [app]; rewrite <- !app_assoc| |exact Hs].
        apply (co_double _ p t _ (u ++ [BACKSLASH; c])); [done|done| |].
        -- cbn [rev]. rewrite Hr. by rewrite <- !app_assoc.
        -- apply dq_snoc; [done|]. apply dq_other; [|constructor]. rewrite !orb_false_iff, !bool_decide_eq_false in Hesc. set_solver.
    + rewrite decide_False in Hs by done. eapply (Hgo (HASH :: q ++ [c])); [cbn [app]; by rewrite <- app_assoc| |exact Hs]. apply (co_comment (q ++ [c])).
Qed.

Lemma words_exact s ws : no_nl s -> shell_split s = Some ws <-> words s ws.
Proof. intros Hn. split; [by apply (sound_from s Delimiter [] [] ws Hn co_delim)|by apply words_complete]. Qed.

(** ** The map of a line *)
Lemma text_inj a b : text a = text b -> a = b.
Proof. intros H. rewrite <- (list_ascii_of_string_of_list_ascii a), <- (list_ascii_of_string_of_list_ascii b). unfold text in H. by rewrite H. Qed.
Lemma text_surj s : exists b, text b = s.
Proof. exists (list_ascii_of_string s). apply string_of_list_ascii_of_string. Qed.

Lemma split_eq_spec w k v : split_eq w = Some (k, v) <-> assigns w k v.
Proof.
  unfold assigns. split.
  - revert k v. induction w as [|c w IH]; intros k v H; cbn [split_eq] in H; [done|]. case_decide as Hc.
    + injection H as <- <-. subst c. split; [done|]. set_solver.
    + destruct (split_eq w) as [[k' v']|]; [|done]. injection H as <- <-. destruct (IH _ _ eq_refl) as [-> Hk]. split; [done|].
      rewrite not_elem_of_cons. split; [congruence|done].
  - intros [-> Hk]. induction k as [|c k IH]; cbn [app split_eq]; [by rewrite decide_True|].
    rewrite not_elem_of_cons in Hk. destruct Hk as [Hc Hk]. rewrite decide_False by congruence. by rewrite IH.
Qed.

Definition add_field (m : gmap string string) (f : bytes) : gmap string string :=
  match split_eq f with Some (k, v) => <[text k := text v]> m | None => m end.
Lemma fold_map_of ws : map_of ws (fold_left add_field ws ∅).
Proof.
  induction ws as [|w ws IH] using rev_ind; intros k v.
  - cbn [fold_left]. rewrite lookup_empty. split; [done|]. intros (ws1 & w & ws2 & H & _). by destruct ws1.
  - rewrite fold_left_app. cbn [fold_left]. unfold add_field at 1.
    assert (forall P : Prop, (forall v', split_eq w <> Some (k, v')) ->
      (exists ws1 w0 ws2, ws ++ [w] = ws1 ++ w0 :: ws2 /\ assigns w0 k v /\ forall w' v', w' ∈ ws2 -> ~ assigns w' k v') <->
      (exists ws1 w0 ws2, ws = ws1 ++ w0 :: ws2 /\ assigns w0 k v /\ forall w' v', w' ∈ ws2 -> ~ assigns w' k v')) as Hother.
    { intros _ Hw. split.
      - intros (ws1 & w0 & ws2 & E & Ha & Hl). destruct ws2 as [|x ws2 _] using rev_ind.
        + apply app_inj_tail in E as [_ ->]. apply split_eq_spec in Ha. by destruct (Hw v).
        + rewrite app_comm_cons, app_assoc in E. apply app_inj_tail in E as [-> ->]. exists ws1, w0, ws2. split; [done|]. split; [done|].
          intros w' v' Hin. apply Hl. apply elem_of_app. by left.
      - intros (ws1 & w0 & ws2 & -> & Ha & Hl). exists ws1, w0, (ws2 ++ [w]). split; [by rewrite <- app_assoc|]. split; [done|].
        intros w' v' [Hin|Hin]%elem_of_app; [by apply Hl|]. apply elem_of_list_singleton in Hin as ->. intros H. apply split_eq_spec in H. by destruct (Hw v'). }
    destruct (split_eq w) as [[k0 v0]|] eqn:Hw.
    + destruct (decide (k0 = k)) as [->|Hne].
      * rewrite lookup_insert. split.
        -- intros [= Hv]. apply text_inj in Hv as <-. exists ws, w, []. split; [done|]. split; [by apply split_eq_spec|]. intros w' v' Hin. by apply elem_of_nil in Hin.
        -- intros (ws1 & w0 & ws2 & E & Ha & Hl). destruct ws2 as [|x ws2 _] using rev_ind.
           ++ apply app_inj_tail in E as [_ ->]. apply split_eq_spec in Ha. rewrite Hw in Ha. by injection Ha as <-.
           ++ rewrite app_comm_cons, app_assoc in E. apply app_inj_tail in E as [-> ->]. exfalso. eapply (Hl x v0); [apply elem_of_app; right; by left|].
              by apply split_eq_spec.
      * rewrite lookup_insert_ne by (intros E; apply text_inj in E; done). etransitivity; [apply IH|]. symmetry. apply Hother; [exact True|]. congruence.
    + etransitivity; [apply IH|]. symmetry. apply Hother; [exact True|]. done.
Qed.
Lemma map_of_fun ws m m' : map_of ws m -> map_of ws m' -> m = m'.
Proof.
  intros H H'. apply map_eq. intros k. destruct (text_surj k) as [kb <-]. 
  destruct (m !! text kb) as [v|] eqn:E.
  - destruct (text_surj v) as [vb <-]. symmetry. apply H'. by apply H.
  - destruct (m' !! text kb) as [v|] eqn:E'; [|done]. destruct (text_surj v) as [vb <-]. rewrite <- E. apply H. by apply H'.
Qed.

Lemma parse_line_some l m : no_nl l -> parse_line l = Some m <-> exists ws, words l ws /\ map_of ws m.
Proof.
  intros Hn. unfold parse_line. fold add_field. split.
  - destruct (shell_split l) as [ws|] eqn:E; [|done]. intros [= <-]. exists ws. split; [by apply words_exact|apply fold_map_of].
  - intros (ws & Hw & Hm). apply words_exact in Hw; [|done]. rewrite Hw. f_equal. eapply map_of_fun; [apply fold_map_of|done].
Qed.
Lemma parse_line_none l : no_nl l -> parse_line l = None <-> forall ws, ~ words l ws.
Proof.
  intros Hn. split.
  - intros H ws Hw. assert (parse_line l = Some (fold_left add_field ws ∅)); [|congruence]. apply parse_line_some; [done|]. exists ws. split; [done|apply fold_map_of].
  - intros H. destruct (parse_line l) as [m|] eqn:E; [|done]. apply parse_line_some in E as (ws & Hw & _); [|done]. by destruct (H ws).
Qed.
Lemma maps_of_exact ls ms : Forall no_nl ls -> maps_of ls ms <-> omap parse_line ls = ms.
Proof.
  intros Hf. split.
  - induction 1 as [|l ls ms Hb H IH|l ws m ls ms Hw Hm H IH]; [done| |]; apply Forall_cons in Hf as [Hl Hf]; cbn [omap list_omap].
    + apply parse_line_none in Hb; [|done]. rewrite Hb. auto.
    + assert (parse_line l = Some m) as -> by (apply parse_line_some; eauto). by rewrite IH.
  - intros <-. induction Hf as [|l ls Hl Hf IH]; [constructor|]. cbn [omap list_omap]. destruct (parse_line l) as [m|] eqn:E.
    + apply parse_line_some in E as (ws & Hw & Hm); [|done]. by eapply mo_line.
    + apply mo_bad; [by apply parse_line_none|done].
Qed.

Lemma fd3_exact b ms : is_utf8 b -> fd3_values b = ms <-> exists ls, in_lines b ls /\ maps_of ls ms.
Proof.
  intros Hu. unfold fd3_values. apply utf8_valid_spec in Hu. rewrite Hu. split.
  - intros H. exists (str_lines b). split; [apply in_lines_str|]. apply maps_of_exact; [|done]. eapply in_lines_no_nl, in_lines_str.
  - intros (ls & Hl & Hm). rewrite (in_lines_fun _ _ Hl). apply maps_of_exact; [|done]. by eapply in_lines_no_nl.
Qed.

(** ** Exit statuses *)
Lemma child_code_exited c : (c < 256)%N -> child_code (raw_status (Exited c)) = Some (Code (Z.of_N c)).
Proof.
  intros H. unfold child_code, wait_code, raw_status.
  assert (N.land (c * 256) 127 = 0%N) as ->.
  { change 127%N with (N.ones 7). rewrite N.land_ones. change (2^7)%N with 128%N. replace (c * 256)%N with ((c * 2) * 128)%N by lia. by apply N.mod_mul. }
  cbn [N.eqb]. rewrite N.shiftr_div_pow2. change (2^8)%N with 256%N. rewrite N.div_mul by done.
  change 255%N with (N.ones 8). rewrite N.land_ones. change (2^8)%N with 256%N. by rewrite N.mod_small.
Qed.
Lemma child_code_killed s core : (1 <= s <= 64)%N -> child_code (raw_status (Killed s core)) = Some (Code (- Z.of_N s)).
Proof.
  intros H. unfold child_code, wait_code, wait_signal, raw_status.
  assert (N.land (s + (if core then 128 else 0)) 127 = s) as ->.
  { change 127%N with (N.ones 7). rewrite N.land_ones. change (2^7)%N with 128%N. destruct core.
    - replace (s + 128)%N with (s + 1 * 128)%N by lia. rewrite N.mod_add by done. apply N.mod_small. lia.
    - rewrite N.add_0_r. apply N.mod_small. lia. }
  destruct (N.eqb_spec s 0); [lia|]. destruct (N.eqb_spec s 127); [lia|]. done.
Qed.

(** ** The loop *)
Lemma loop_run_snoc is i : forall st0 st cs, loop_run st0 (is ++ [i]) = Some (st, cs) ->
  exists st1 cs1 cs2, loop_run st0 is = Some (st1, cs1) /\ loop_step st1 i = Some (st, cs2) /\ cs = cs1 ++ cs2.
Proof.
  induction is as [|j is IH]; intros st0 st cs H; cbn [app loop_run] in H.
  - destruct (loop_step st0 i) as [[st1 cs1]|] eqn:E; [|done]. injection H as <- <-. exists st0, [], cs1. split; [done|]. split; [done|]. by rewrite app_nil_r.
  - destruct (loop_step st0 j) as [[st1 cs1]|] eqn:E; [|done]. destruct (loop_run st1 (is ++ [i])) as [[st2 cs2]|] eqn:E2; [|done]. injection H as <- <-.
    destruct (IH _ _ _ E2) as (st3 & cs3 & cs4 & H1 & H2 & ->). exists st3, (cs1 ++ cs3), cs4. cbn [loop_run]. rewrite E, H1. split; [done|]. split; [done|]. by rewrite app_assoc.
Qed.
Lemma tasks_taken_snoc is i : tasks_taken (is ++ [i]) = tasks_taken is ++ match i with InTask n => [n] | _ => [] end.
Proof. unfold tasks_taken. rewrite omap_app. by destruct i. Qed.
Lemma loop_attempts_snoc is i : loop_attempts (is ++ [i]) = loop_attempts is ++ match i with
   | InSpawnFails => [NotSpawned] | InOutput raw fd3 => match child_code raw with Some s => [WithOutput s fd3] | None => [] end | _ => [] end.
Proof. unfold loop_attempts. rewrite omap_app. destruct i; try done. simpl. by destruct (child_code raw). Qed.

Lemma loop_shape is : forall st cs, loop_run LRecv is = Some (st, cs) ->
  exists rounds cur lc, cs = concat (map round_calls rounds) ++ lc /\
    tasks_taken is = map rd_task rounds ++ option_list cur /\
    Forall2 round_reports rounds (loop_attempts is) /\ last_calls is st cur lc.
Proof.
  induction is as [|i is IH] using rev_ind; intros st cs H.
  { injection H as <- <-. exists [], None, []. repeat split; constructor. }
  apply loop_run_snoc in H as (st1 & cs1 & cs2 & Hr & Hs & ->). destruct (IH _ _ Hr) as (rounds & cur & lc & -> & Ht & Hf & Hl).
  rewrite tasks_taken_snoc, loop_attempts_snoc. rewrite <- app_assoc.
  destruct st1 as [|n|n pid|n| |], i as [m| | | |pid' [|]| | |t| |raw fd3| ]; try done; cbn [loop_step] in Hs.
  - injection Hs as <- <-. destruct Hl as [-> ->]. exists rounds, (Some m), [CallPreamble m]. rewrite Ht. cbn [option_list]. rewrite !app_nil_r.
    split; [done|]. split; [done|]. split; [done|]. done.
  - injection Hs as <- <-. destruct Hl as [-> ->]. exists rounds, None, []. rewrite Ht. cbn [option_list]. rewrite !app_nil_r.
    split; [done|]. split; [done|]. split; [done|]. left. split; [done|]. split; [done|]. apply last_snoc.
  - injection Hs as <- <-. destruct Hl as [-> ->]. exists rounds, (Some n), [CallPreamble n]. rewrite Ht, !app_nil_r.
    split; [done|]. split; [done|]. split; [done|]. exists n. split; [done|]. left. split; [left; apply last_snoc|done].
  - injection Hs as <- <-. destruct Hl as [-> ->]. exists (rounds ++ [Round n 0 (Code (-1)) []]), None, []. rewrite Ht. cbn [option_list].
    rewrite !app_nil_r, !map_app, concat_app. split; [done|]. split; [done|]. split; [|done]. apply Forall2_app; [done|]. by repeat constructor.
  - injection Hs as <- <-. destruct Hl as [-> ->]. exists rounds, (Some n), [CallPreamble n]. rewrite Ht, !app_nil_r. done.
  - injection Hs as <- <-. destruct Hl as [-> ->]. exists rounds, (Some n), [CallPreamble n; CallStarted n pid']. rewrite Ht, !app_nil_r.
    split; [done|]. split; [done|]. split; [done|]. split; [done|]. eauto.
  - injection Hs as <- <-. destruct Hl as [-> ->]. exists rounds, (Some n), [CallPreamble n; CallStarted n pid]. rewrite Ht, !app_nil_r.
    split; [done|]. split; [done|]. split; [done|]. split; [done|]. eauto.
  - injection Hs as <- <-. destruct Hl as [-> ->]. exists rounds, (Some n), [CallPreamble n]. rewrite Ht, !app_nil_r.
    split; [done|]. split; [done|]. split; [done|]. exists n. split; [done|]. left. split; [right; apply last_snoc|done].
  - injection Hs as <- <-. destruct Hl as [-> [pid ->]]. exists rounds, (Some n), [CallPreamble n; CallStarted n pid; CallFinished n Cancelled []]. rewrite Ht, !app_nil_r.
    split; [done|]. split; [done|]. split; [done|]. right. exists n, pid. split; [done|]. left. split; [|done]. exists t. apply last_snoc.
  - injection Hs as <- <-. destruct Hl as [-> [pid ->]]. exists rounds, (Some n), [CallPreamble n; CallStarted n pid]. rewrite Ht, !app_nil_r.
    split; [done|]. split; [done|]. split; [done|]. right. exists n, pid. split; [done|]. right. split; [|done]. apply last_snoc.
  - destruct Hl as [-> [pid ->]]. destruct (child_code raw) as [s|] eqn:Hc; injection Hs as <- <-.
    + exists (rounds ++ [Round n pid s (fd3_values fd3)]), None, []. rewrite Ht. cbn [option_list]. rewrite !app_nil_r, !map_app, concat_app.
      split; [done|]. split; [done|]. split; [|done]. apply Forall2_app; [done|]. by repeat constructor.
    + exists rounds, (Some n), [CallPreamble n; CallStarted n pid]. rewrite Ht, !app_nil_r.
      split; [done|]. split; [done|]. split; [done|]. exists n. split; [done|]. right. split; [|eauto]. right. exists raw, fd3. split; [apply last_snoc|done].
  - injection Hs as <- <-. destruct Hl as [-> [pid ->]]. exists rounds, (Some n), [CallPreamble n; CallStarted n pid]. rewrite Ht, !app_nil_r.
    split; [done|]. split; [done|]. split; [done|]. exists n. split; [done|]. right. split; [|eauto]. left. apply last_snoc.
Qed.
