From Verif Require Export SinkSpec.
Open Scope nat_scope.

Lemma put_same f b d : put f b d f = d f ++ b.
Proof. unfold put. by rewrite String.eqb_refl. Qed.
Lemma put_ne f g b d : f <> g -> put f b d g = d g.
Proof. intros H. unfold put. apply String.eqb_neq in H. by rewrite H. Qed.
Lemma upd_same {A} i (x : A) m : upd i x m i = x.
Proof. unfold upd. by rewrite Nat.eqb_refl. Qed.
Lemma upd_ne {A} i j (x : A) m : i <> j -> upd i x m j = m j.
Proof. intros H. unfold upd. apply Nat.eqb_neq in H. by rewrite H. Qed.
Lemma piece_spec n b p : piece n b = Some p -> p = take n b /\ 1 <= n <= length b.
Proof. unfold piece. destruct (_ && _) eqn:E; [|done]. intros [= <-]. apply andb_true_iff in E as [E1%Nat.leb_le E2%Nat.leb_le]. done. Qed.

Lemma flush_spec f rs : forall buf d ok buf' d' rs', flush_buf f rs buf d = Some (ok, buf', d', rs') ->
  d' f ++ buf' = d f ++ buf /\ (forall g, g <> f -> d' g = d g) /\ (ok = true -> buf' = []) /\ (~ In WFailed rs -> ok = true) /\ (~ In WFailed rs -> ~ In WFailed rs').
Proof.
  induction rs as [|r rs IH]; intros buf d ok buf' d' rs' H.
  - destruct buf; [|done]. injection H as <- <- <- <-. done.
  - destruct buf as [|x buf]; [injection H as <- <- <- <-; done|]. cbn [flush_buf] in H. destruct r as [n|].
    + destruct (piece n (x :: buf)) as [p|] eqn:Ep; [|done]. apply piece_spec in Ep as [-> Hn]. apply IH in H as (H1 & H2 & H3 & H4 & H5).
      split; [|split; [|split; [done|split]]].
      * rewrite H1, put_same, <- app_assoc, take_drop. done.
      * intros g Hg. rewrite H2 by done. by apply put_ne.
      * intros H. apply H4. intros Hin. apply H. by right.
      * intros H. apply H5. intros Hin. apply H. by right.
    + injection H as <- <- <- <-. split; [done|]. split; [done|]. split; [done|]. split; intros H; exfalso; apply H; by left.
Qed.

Section sinkp.
Variable C : nat.

Lemma sink_run_snoc s acts a s2 t : sink_run C s (acts ++ [a]) = Some (s2, t) ->
  exists s1 t1 os, sink_run C s acts = Some (s1, t1) /\ sink_step C s1 a = Some (s2, os) /\ t = t1 ++ os.
Proof.
  revert s t. induction acts as [|b acts IH]; intros s t H; cbn [app sink_run] in H.
  - destruct (sink_step C s a) as [[s' os]|] eqn:E; [|done]. injection H as <- <-. exists s, [], os. by rewrite app_nil_r.
  - destruct (sink_step C s b) as [[s' os]|] eqn:E; [|done]. destruct (sink_run C s' (acts ++ [a])) as [[s'' os']|] eqn:E2; [|done]. injection H as <- <-.
    destruct (IH _ _ E2) as (s1 & t1 & os1 & H1 & H2 & ->). exists s1, (os ++ t1), os1. cbn [sink_run]. rewrite E, H1, List.app_assoc. done.
Qed.

Lemma buf_write_spec f rs buf b d r buf' d' : buf_write C f rs buf b d = Some (r, buf', d') ->
  match r with
  | Some n => 1 <= C -> b <> [] -> d' f ++ buf' = d f ++ buf ++ take n b /\ 1 <= n <= length b /\ (length b < C -> n = length b)
  | None => d' f ++ buf' = d f ++ buf /\ In WFailed rs
  end /\ (forall g, g <> f -> d' g = d g).
Proof.
  unfold buf_write. intros H.
  destruct (if Nat.ltb _ _ then _ else _) as [[[[ok b1] d1] rs1]|] eqn:E; [|done].
  assert (Hs : d1 f ++ b1 = d f ++ buf /\ (forall g, g <> f -> d1 g = d g) /\ (~ In WFailed rs -> ok = true /\ ~ In WFailed rs1) /\ (ok = true -> 1 <= C -> length b < C \/ b1 = [])).
  { destruct (Nat.ltb (C - length buf) (length b)) eqn:El.
    - apply flush_spec in E as (H1 & H2 & H3 & H4 & H5). split; [done|]. split; [done|]. split; [by intros Hn; split; [apply H4|apply H5]|]. intros Hok _. right. by apply H3.
    - injection E as <- <- <- <-. split; [done|]. split; [done|]. split; [done|]. intros _ HC. apply Nat.ltb_ge in El. destruct buf; [by right|]. left. simpl in El. lia. }
  destruct Hs as (H1 & H2 & H3 & H4). destruct ok.
  - destruct (Nat.leb C (length b)) eqn:Eb.
    + destruct rs1 as [|[n|] rs1]; [done| |].
      * destruct (piece n b) as [p|] eqn:Ep; [|done]. apply piece_spec in Ep as [-> Hn]. injection H as <- <- <-. apply Nat.leb_le in Eb.
        split; [intros HC Hne|intros g Hg; rewrite put_ne by congruence; by apply H2].
        destruct (H4 eq_refl HC) as [?| ->]; [lia|]. split; [|split; [done|lia]]. rewrite put_same. rewrite app_nil_r in *. by rewrite H1, List.app_assoc.
      * injection H as <- <- <-. split; [|done]. split; [done|]. destruct (in_dec (fun a b : wres => ltac:(decide equality; apply Nat.eq_dec)) WFailed rs) as [|Hn]; [done|].
        destruct (H3 Hn) as [_ Hx]. exfalso. apply Hx. by left.
    + injection H as <- <- <-. split; [|done]. intros HC Hne. apply Nat.leb_gt in Eb. rewrite take_ge by lia.
      split; [by rewrite !List.app_assoc, H1|]. split; [|done]. destruct b; [done|]. simpl. lia.
  - injection H as <- <- <-. split; [|done]. split; [done|]. destruct (in_dec (fun a b : wres => ltac:(decide equality; apply Nat.eq_dec)) WFailed rs) as [|Hn]; [done|].
    by destruct (H3 Hn).
Qed.

Lemma filed_app f t t' : filed f (t ++ t') = filed f t ++ filed f t'.
Proof. unfold filed. by rewrite map_app, concat_app. Qed.
Lemma shown_app t t' : shown (t ++ t') = shown t ++ shown t'.
Proof. unfold shown. by rewrite map_app, concat_app. Qed.
Lemma all_filed_app t t' : all_filed (t ++ t') = all_filed t ++ all_filed t'.
Proof. unfold all_filed. by rewrite map_app, concat_app. Qed.
Lemma pieces_app i t t' : pieces_by i (t ++ t') = pieces_by i t ++ pieces_by i t'.
Proof. unfold pieces_by. by rewrite flat_map_app. Qed.

(** ** The files *)
Hypothesis HC : 1 <= C.
Lemma file_step s a s' os disk t : sink_step C s a = Some (s', os) -> replaced_safely [a] ->
  (forall f, sk_disk s f ++ held f s = disk f ++ filed f t) -> forall f, sk_disk s' f ++ held f s' = disk f ++ filed f (t ++ os).
Proof.
  intros H Hr Hi f. rewrite filed_app.
  assert (Hsame : sk_disk s' = sk_disk s -> sk_file s' = sk_file s -> filed f os = [] -> sk_disk s' f ++ held f s' = disk f ++ filed f t ++ filed f os).
  { intros E1 E2 ->. rewrite app_nil_r, <- Hi. unfold held. by rewrite E1, E2. }
  destruct a as [[p|] op rs|i frags|i c rs|c rs]; cbn [sink_step] in H.
  - destruct (sk_poisoned s); [injection H as <- <-; by apply Hsame|]. destruct op; [|injection H as <- <-; by apply Hsame].
    destruct (sk_file s) as [[g buf]|] eqn:Ef.
    + destruct (flush_buf g rs buf (sk_disk s)) as [[[[ok b1] d1] r1]|] eqn:Efl; [|done]. injection H as <- <-.
      apply flush_spec in Efl as (H1 & H2 & H3 & H4 & _). assert (b1 = []) as -> by (apply H3, H4; eapply Hr; by left). rewrite app_nil_r in H1.
      change (filed f []) with (@nil ascii). rewrite !app_nil_r, <- Hi. unfold held. rewrite Ef. cbn [sk_disk sk_file].
      assert (forall x : bytes, x ++ (if String.eqb f p then [] else []) = x) as -> by (intros x; destruct (String.eqb f p); by rewrite app_nil_r).
      destruct (String.eqb f g) eqn:Eg; [apply String.eqb_eq in Eg as ->; done|]. apply String.eqb_neq in Eg. rewrite app_nil_r. by apply H2.
    + injection H as <- <-. change (filed f []) with (@nil ascii). rewrite app_nil_r, <- Hi. unfold held. rewrite Ef. cbn [sk_disk sk_file]. by destruct (String.eqb f p).
  - injection H as <- <-. by apply Hsame.
  - destruct (sk_threads s i); [done|]. injection H as <- <-. by apply Hsame.
  - destruct (sk_threads s i) as [[|[|x b] r]|]; [injection H as <- <-; by apply Hsame|injection H as <- <-; by apply Hsame| |done].
    destruct (sk_poisoned s); [injection H as <- <-; by apply Hsame|]. unfold sink_write in H. destruct c as [k|]; [|injection H as <- <-; by apply Hsame].
    destruct (piece k (x :: b)) as [p|] eqn:Ep; [|done]. destruct (sk_file s) as [[g buf]|] eqn:Ef; [|injection H as <- <-; by apply Hsame].
    destruct (buf_write C g rs buf (x :: b) (sk_disk s)) as [[[[n|] buf'] d']|] eqn:Ew; [| |done]; injection H as <- <-; apply buf_write_spec in Ew as [Hw Ho].
    + destruct (Hw HC) as (Hw1 & Hn & _); [done|]. specialize (Hi f). unfold held in *. rewrite Ef in Hi. cbn [sk_file sk_disk].
      assert (filed f [ToConsole i p; ToFile i g (take n (x :: b))] = if String.eqb f g then take n (x :: b) else []) as ->.
      { unfold filed. simpl. rewrite app_nil_r. done. }
      destruct (String.eqb f g) eqn:Eg.
      * apply String.eqb_eq in Eg as ->. rewrite Hw1, !List.app_assoc, Hi. done.
      * apply String.eqb_neq in Eg. rewrite Ho, Hi, app_nil_r by done. done.
    + destruct Hw as [Hw _]. specialize (Hi f). unfold held in *. rewrite Ef in Hi. cbn [sk_file sk_disk].
      change (filed f ([ToConsole i p] ++ [Ended i false])) with (@nil ascii). rewrite app_nil_r, <- Hi.
      destruct (String.eqb f g) eqn:Eg; [apply String.eqb_eq in Eg as ->; done|]. apply String.eqb_neq in Eg. by rewrite Ho.
  - destruct (sk_poisoned s); [injection H as <- <-; by apply Hsame|]. destruct c; [|injection H as <- <-; by apply Hsame].
    destruct (sk_file s) as [[g buf]|] eqn:Ef; [|injection H as <- <-; by apply Hsame].
    destruct (flush_buf g rs buf (sk_disk s)) as [[[[ok b1] d1] r1]|] eqn:Efl; [|done]. injection H as <- <-.
    apply flush_spec in Efl as (H1 & H2 & H3 & H4 & _). change (filed f [Flushed ok]) with (@nil ascii). rewrite app_nil_r, <- Hi. unfold held. rewrite Ef. cbn [sk_disk sk_file].
    destruct (String.eqb f g) eqn:Eg; [apply String.eqb_eq in Eg as ->; done|]. apply String.eqb_neq in Eg. by rewrite H2.
Qed.
Lemma file_run disk acts s t : sink_run C (sink_start disk) acts = Some (s, t) -> replaced_safely acts -> forall f, sk_disk s f ++ held f s = disk f ++ filed f t.
Proof.
  revert s t. induction acts as [|a acts IH] using rev_ind; intros s t H Hr.
  - injection H as <- <-. done.
  - apply sink_run_snoc in H as (s1 & t1 & os & H1 & H2 & ->). eapply file_step; [done| |].
    + intros p o rs [->|[]]. eapply (Hr p o). apply in_or_app. right. by left.
    + apply (IH _ _ H1). intros p o rs Hin. eapply (Hr p o). apply in_or_app. by left.
Qed.

(** ** The messages *)
Fixpoint last_message (i : nat) (t : list sinkobs) (m : option (list bytes * list bytes)) : option (list bytes * list bytes) :=
  match t with
  | [] => m
  | Began j frags :: t' => last_message i t' (if Nat.eqb i j then Some (frags, []) else m)
  | ToFile j _ b :: t' => last_message i t' (if Nat.eqb i j then match m with Some (fr, ps) => Some (fr, ps ++ [b]) | None => None end else m)
  | _ :: t' => last_message i t' m
  end.
Lemma last_message_app i t t' m : last_message i (t ++ t') m = last_message i t' (last_message i t m).
Proof. revert m. induction t as [|o t IH]; intros m; [done|]. destruct o; apply IH. Qed.
Lemma last_message_same i t fr ps : same_message i t -> last_message i t (Some (fr, ps)) = Some (fr, ps ++ pieces_by i t).
Proof.
  revert ps. induction t as [|o t IH]; intros ps H; [by rewrite app_nil_r|].
  assert (Ht : same_message i t) by (intros o' Ho; apply H; by right). destruct (H o (or_introl eq_refl)) as [Hb _].
  destruct o as [j fr'|j b|j f b|j ok|ok|]; cbn [last_message]; try by rewrite IH.
  - destruct (Nat.eqb i j) eqn:E; [|by rewrite IH]. apply Nat.eqb_eq in E as ->. by destruct (Hb fr').
  - change (pieces_by i (ToFile j f b :: t)) with ((if Nat.eqb i j then [b] else []) ++ pieces_by i t).
    destruct (Nat.eqb i j); [|by rewrite IH]. rewrite IH by done. by rewrite <- List.app_assoc.
Qed.

Definition part (frags ps rest : list bytes) : Prop :=
  concat ps ++ concat rest = concat frags /\ (small C frags -> small C rest /\ ps ++ List.filter nonempty rest = List.filter nonempty frags).
Definition minv (s : sink) (t : list sinkobs) : Prop :=
  (forall i rest, sk_threads s i = Some rest -> exists frags ps, last_message i t None = Some (frags, ps) /\ part frags ps rest) /\
  (forall t1 i ok t2, t = t1 ++ Ended i ok :: t2 -> exists frags ps rest, last_message i t1 None = Some (frags, ps) /\ part frags ps rest /\ (ok = true -> rest = [])).
Lemma snoc_cases {A} (t : list A) os t1 x t2 : t ++ os = t1 ++ x :: t2 -> (exists t2', t = t1 ++ x :: t2') \/ (exists o1, t1 = t ++ o1 /\ os = o1 ++ x :: t2).
Proof.
  revert t1. induction t as [|y t IH]; intros t1 H; [right; by exists t1|]. destruct t1 as [|z t1]; injection H as -> H; [left; by exists t|].
  destruct (IH _ H) as [[t2' ->]|(o1 & -> & ->)]; [left; by exists t2'|right; by exists o1].
Qed.
Lemma last_message_quiet i os m : (forall o, In o os -> (forall j fr, o <> Began j fr) /\ (forall j f b, o <> ToFile j f b)) -> last_message i os m = m.
Proof.
  induction os as [|o os IH]; intros H; [done|]. assert (last_message i os m = m) as Hm by (apply IH; intros; apply H; by right).
  destruct (H o (or_introl eq_refl)) as [H1 H2]. destruct o; cbn [last_message]; try done; [by destruct (H1 i0 frags)|by destruct (H2 i0 f b)].
Qed.
(** A step that begins no message, writes no piece, and after which each thread has what it had or nothing. *)
Lemma minv_quiet s s' t os : minv s t -> (forall o, In o os -> (forall j fr, o <> Began j fr) /\ (forall j f b, o <> ToFile j f b)) ->
  (forall i rest, sk_threads s' i = Some rest -> sk_threads s i = Some rest \/ sk_threads s i = Some ([] :: rest)) ->
  (forall i ok, In (Ended i ok) os -> exists rest, sk_threads s i = Some rest /\ (ok = true -> rest = [])) -> minv s' (t ++ os).
Proof.
  intros [H1 H2] Hq Ht He. split.
  - intros i rest Hr. rewrite last_message_app, last_message_quiet by done. destruct (Ht _ _ Hr) as [H|H]; destruct (H1 _ _ H) as (fr & ps & Hl & Hp); exists fr, ps; [done|].
    split; [done|]. destruct Hp as [Hp1 Hp2]. split; [done|]. intros Hs. destruct (Hp2 Hs) as [Ha Hb]. split; [|done]. intros b Hb'. apply Ha. by right.
  - intros t1 i ok t2 E. apply snoc_cases in E as [[t2' E]|(o1 & -> & ->)]; [by eapply H2|].
    destruct (He i ok) as (rest & Hr & Hok); [apply in_or_app; right; by left|]. destruct (H1 _ _ Hr) as (fr & ps & Hl & Hp). exists fr, ps, rest.
    rewrite last_message_app, last_message_quiet; [done|]. intros o Ho. apply Hq. apply in_or_app. by left.
Qed.
Lemma minv_step s a s' os t : sink_step C s a = Some (s', os) -> minv s t -> minv s' (t ++ os).
Proof.
  intros H HI. destruct a as [[p|] op rs|i frags|i c rs|c rs]; cbn [sink_step] in H.
  - assert (sk_threads s' = sk_threads s /\ (os = [] \/ os = [Panic])) as [Et Eo].
    { destruct (sk_poisoned s); [injection H as <- <-; auto|]. destruct op; [|injection H as <- <-; auto]. destruct (sk_file s) as [[g buf]|]; [|injection H as <- <-; auto].
      destruct (flush_buf _ _ _ _) as [[[[ok b1] d1] r1]|]; [|done]. injection H as <- <-; auto. }
    eapply minv_quiet; [done| | |]; [intros o Ho|intros j r; rewrite Et; auto|intros j ok Ho]; destruct Eo as [-> | ->]; try done; destruct Ho as [Ho|[]]; by subst.
  - injection H as <- <-. by rewrite app_nil_r.
  - destruct (sk_threads s i) eqn:Ei; [done|]. injection H as <- <-. destruct HI as [H1 H2]. split.
    + intros j rest. cbn [sk_threads]. rewrite last_message_app. cbn [last_message]. destruct (Nat.eqb j i) eqn:E.
      * apply Nat.eqb_eq in E as ->. rewrite upd_same. intros [= <-]. exists frags, []. split; [done|]. split; [done|]. intros Hs. done.
      * apply Nat.eqb_neq in E. rewrite upd_ne by done. apply H1.
    + intros t1 j ok t2 E. apply snoc_cases in E as [[t2' E]|(o1 & -> & E)]; [by eapply H2|]. destruct o1 as [|? [|]]; done.
  - destruct (sk_threads s i) as [[|b r]|] eqn:Ei; [| |done].
    + injection H as <- <-. eapply minv_quiet; [done| | |].
      * intros o [<-|[]]. done.
      * intros j rest. cbn [sk_threads]. destruct (decide (i = j)) as [->|Hne]; [by rewrite upd_same|]. rewrite upd_ne by done. auto.
      * intros j ok [[= <- <-]|[]]. exists []. done.
    + assert (Hstop : forall s2 os2, sk_threads s2 = upd i None (sk_threads s) -> (exists l, os2 = l ++ [Ended i false] /\ (l = [] \/ exists p, l = [ToConsole i p])) \/ os2 = [Panic] -> minv s2 (t ++ os2)).
      { intros s2 os2 Et Eo. eapply minv_quiet; [done| | |].
        - intros o Ho. destruct Eo as [(l & -> & [-> |[p ->]])| ->]; repeat (destruct Ho as [<-|Ho]; [done|]); done.
        - intros j rest. rewrite Et. destruct (decide (i = j)) as [->|Hne]; [by rewrite upd_same|]. rewrite upd_ne by done. auto.
        - intros j ok Ho. exists (b :: r). destruct Eo as [(l & -> & [-> |[p ->]])| ->]; repeat (destruct Ho as [Ho|Ho]; [try done; injection Ho as <- <-; done|]); done. }
      destruct b as [|x b].
      * injection H as <- <-. eapply minv_quiet; [done|done| |done].
        intros j rest. cbn [sk_threads]. destruct (decide (i = j)) as [->|Hne]; [rewrite upd_same|rewrite upd_ne by done; auto]. intros [= <-]. auto.
      * destruct (sk_poisoned s); [injection H as <- <-; apply Hstop; auto|]. unfold sink_write in H.
        destruct c as [k|]; [|injection H as <- <-; apply Hstop; [done|left; exists []; auto]].
        destruct (piece k (x :: b)) as [p|] eqn:Ep; [|done].
        destruct (sk_file s) as [[g buf]|] eqn:Ef; [|injection H as <- <-; apply Hstop; [done|left; exists [ToConsole i p]; eauto]].
        destruct (buf_write C g rs buf (x :: b) (sk_disk s)) as [[[[n|] buf'] d']|] eqn:Ew; [| |done]; injection H as <- <-; [|apply Hstop; [done|left; exists [ToConsole i p]; eauto]].
        apply buf_write_spec in Ew as [Hw _]. destruct (Hw HC) as (_ & Hn & Hsm); [done|]. destruct HI as [H1 H2]. split.
        -- intros j rest. cbn [sk_threads]. rewrite last_message_app. cbn [last_message]. destruct (Nat.eqb j i) eqn:E.
           ++ apply Nat.eqb_eq in E as ->. rewrite upd_same. intros [= <-]. destruct (H1 _ _ Ei) as (fr & ps & -> & Hp1 & Hp2).
              exists fr, (ps ++ [take n (x :: b)]). split; [done|]. split.
              ** rewrite concat_app. cbn [concat]. rewrite app_nil_r, <- List.app_assoc, (List.app_assoc (take n _)), take_drop. exact Hp1.
              ** intros Hs. destruct (Hp2 Hs) as [Ha Hb]. rewrite (Hsm (Ha _ (or_introl eq_refl))), drop_all, firstn_all.
                 split; [intros b' [<-|Hb']; [simpl; lia|apply Ha; by right]|]. rewrite <- Hb, <- List.app_assoc. done.
           ++ apply Nat.eqb_neq in E. rewrite upd_ne by done. apply H1.
        -- intros t1 j ok t2 E. apply snoc_cases in E as [[t2' E]|(o1 & -> & E)]; [by eapply H2|]. destruct o1 as [|? [|? [|]]]; done.
  - assert (sk_threads s' = sk_threads s /\ (os = [Panic] \/ exists b, os = [Flushed b])) as [Et Eo].
    { destruct (sk_poisoned s); [injection H as <- <-; auto|]. destruct c; [|injection H as <- <-; eauto]. destruct (sk_file s) as [[g buf]|]; [|injection H as <- <-; eauto].
      destruct (flush_buf _ _ _ _) as [[[[ok b1] d1] r1]|]; [|done]. injection H as <- <-; eauto. }
    eapply minv_quiet; [done| | |]; [intros o Ho|intros j r; rewrite Et; auto|intros j ok Ho]; destruct Eo as [-> |[b ->]]; destruct Ho as [Ho|[]]; by subst.
Qed.
Lemma minv_run disk acts s t : sink_run C (sink_start disk) acts = Some (s, t) -> minv s t.
Proof.
  revert s t. induction acts as [|a acts IH] using rev_ind; intros s t H.
  - injection H as <- <-. split; [done|]. intros t1 i ok t2 E. by destruct t1.
  - apply sink_run_snoc in H as (s1 & t1 & os & H1 & H2 & ->). eapply minv_step; [done|]. by eapply IH.
Qed.
End sinkp.
