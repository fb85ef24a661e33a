(** Properties of whole histories. *)
From Verif Require Export SessionProofs.

(** ** Sessions in a history *)
Definition is_open (ev : event_of_history) : Prop := exists a, ev = HOpened a.

Lemma this_session_snoc h s ev : ~ is_open ev -> this_session h s -> this_session (h ++ [ev]) (s ++ [ev]).
Proof.
  intros Ho (h0 & a & -> & Hs). exists h0, a. split; [by rewrite <- List.app_assoc|].
  intros a' Hin. apply in_app_iff in Hin as [Hin|[->|[]]]; [by apply Hs in Hin|]. apply Ho. by exists a'.
Qed.

Lemma this_session_open h a : this_session (h ++ [HOpened a]) [].
Proof. exists h, a. split; [done|]. by intros a' []. Qed.

Lemma this_session_unique h s s' : this_session h s -> this_session h s' -> s = s'.
Proof.
  intros (h0 & a & -> & Hs) (h1 & a' & H & Hs'). apply app_split in H as [(l2 & -> & ->)|(n1 & H & ->)].
  - exfalso. apply (Hs' a). apply in_app_iff. right. by left.
  - destruct n1 as [|x n1]; simpl in H; injection H as Hx H; [done|]. exfalso. apply (Hs a'). rewrite H.
    apply in_app_iff. right. by left.
Qed.

Lemma this_session_snoc_inv h ev s : ~ is_open ev -> this_session (h ++ [ev]) s -> exists s0, s = s0 ++ [ev] /\ this_session h s0.
Proof.
  intros Ho (h0 & a & H & Hs). destruct s as [|x s _] using rev_ind.
  - exfalso. apply Ho. apply app_inj_tail in H as [_ ->]. by exists a.
  - rewrite app_comm_cons, List.app_assoc in H. apply app_inj_tail in H as [-> ->]. exists s. split; [done|].
    exists h0, a. split; [done|]. intros a' Hin. apply (Hs a'), in_app_iff. by left.
Qed.

Lemma returned_snoc h ev k : ~ is_open ev ->
  returned_here (h ++ [ev]) k <->
  returned_here h k \/ ((exists s, this_session h s) /\ exists tg cfg t n ks, ev = HExecuted tg cfg t (n, ks) /\ In k ks).
Proof.
  intros Ho. split.
  - intros (s & tg & cfg & t & n & ks & Hs & Hin & Hk). apply (this_session_snoc_inv _ _ _ Ho) in Hs as (s0 & -> & Hs).
    apply in_app_iff in Hin as [Hin|[->|[]]].
    + left. exists s0, tg, cfg, t, n, ks. done.
    + right. split; [by exists s0|]. eauto 10.
  - intros [(s & tg & cfg & t & n & ks & Hs & Hin & Hk)|[[s Hs] (tg & cfg & t & n & ks & -> & Hk)]].
    + exists (s ++ [ev]), tg, cfg, t, n, ks. split_and!; try done; [by apply this_session_snoc|]. apply in_app_iff. by left.
    + eexists (s ++ [_]), tg, cfg, t, n, ks. split_and!; try done; [by apply this_session_snoc|]. apply in_app_iff. right. by left.
Qed.

Lemma returned_open h a k : ~ returned_here (h ++ [HOpened a]) k.
Proof.
  intros (s & tg & cfg & t & n & ks & Hs & Hin & _).
  by rewrite (this_session_unique _ _ _ Hs (this_session_open h a)) in Hin.
Qed.

Lemma referred_iff es older hd seg k : last_session es older hd seg -> referred_here es k <-> In k (backref_keys seg).
Proof.
  intros [-> Hn]. rewrite In_backref_keys. split.
  - intros (l1 & b & l2 & H & Hk & Hh). apply seg_split in H as (s1 & -> & _); [|done|by intros [? ?]].
    exists b. split; [|done]. apply in_app_iff. right. by left.
  - intros (b & Hin & Hk). apply in_split in Hin as (s1 & s2 & ->). exists (older ++ Header hd :: s1), b, s2.
    split; [by rewrite <- List.app_assoc|]. split; [done|]. intros Hh. apply Hn, has_header_app_r. destruct Hh as [h Hh]. exists h. by right.
Qed.

(** ** What counts as done in a process *)
Definition done_inv (h : list event_of_history) (w : world) : Prop :=
  match w_proc w with
  | None => True
  | Some p => (exists s, this_session h s) /\ forall k, in_done p k <-> done_here h (plog p) k
  end.

Lemma referred_app es new k : (forall h, ~ In (Header h) new) ->
  referred_here (es ++ new) k <-> referred_here es k \/ In k (backref_keys new).
Proof.
  intros Hn. split.
  - intros (l1 & b & l2 & H & Hk & Hh). apply app_split in H as [(l2' & -> & ->)|(n1 & -> & ->)].
    + left. exists l1, b, l2'. split_and!; try done. intros Hx. by apply Hh, has_header_app_l.
    + right. apply In_backref_keys. exists b. split; [|done]. apply in_app_iff. right. by left.
  - intros [(l1 & b & l2 & -> & Hk & Hh)|Hin].
    + exists l1, b, (l2 ++ new). split; [by rewrite <- List.app_assoc|]. split; [done|].
      intros Hx. apply has_header_app in Hx as [Hx|[h Hx]]; [done|]. by apply Hn in Hx.
    + apply In_backref_keys in Hin as (b & Hin & Hk). apply in_split in Hin as (n1 & n2 & ->). exists (es ++ n1), b, n2.
      split; [by rewrite <- List.app_assoc|]. split; [done|]. intros [h Hh]. apply (Hn h), in_app_iff. right. by right.
Qed.

Lemma task_rec_no_header new h : Forall task_rec new -> ~ In (Header h) new.
Proof. rewrite Forall_forall. intros H Hin. apply elem_of_list_In, H in Hin. done. Qed.
Lemma task_rec_no_backref new : Forall task_rec new -> backref_keys new = [].
Proof. induction 1 as [|x l Hx _ IH]; [done|]. by destruct x. Qed.
Lemma brefs_no_header bs h : ~ In (Header h) (brefs bs).
Proof. intros Hin. by apply brefs_in in Hin as (? & ? & _). Qed.

Lemma done_step h w ev w' : winv w -> done_inv h w -> wstep w ev w' -> done_inv (h ++ [ev]) w'.
Proof.
  intros [HF Hp] Hd Hs. destruct Hs; cbn [w_file w_proc] in *; unfold done_inv in *; cbn [w_proc] in *; try done.
  - split; [exists []; apply this_session_open|]. intros k.
    destruct (open_works F a HF) as (l & p' & Hl & Ho' & Hlog & Hg & _). simplify_eq.
    unfold in_done. rewrite Hg. simpl. split; [by intros ?%elem_of_empty|].
    intros [Hr|(l1 & b & l2 & H1 & _ & Hn)]; [by apply returned_open in Hr|]. unfold plog in H1. rewrite Hlog in H1. simpl in H1.
    exfalso. apply (seg_split F (session_header l a) [] l1 (Backref b) l2) in H1 as (s1 & H1 & _); [by destruct s1|done|by intros [? ?]].
  - destruct Hd as [[s Hs] Hd]. assert (~ is_open (HAdded key r)) as Hno by (by intros [? ?]).
    destruct (add_inv _ _ _ _ _ _ _ _ _ _ Hp H H0) as (_ & Hl & Hc).
    split; [eexists; by apply this_session_snoc|]. intros k. unfold in_done, plog, done_here in *. cbn [p_graph].
    rewrite Hc, Hl, Hd, (returned_snoc _ _ _ Hno). split; intros [Hx|Hx]; auto. destruct Hx as [Hx|(_ & tg & cfg & t & n & ks & Hx & _)]; [auto|done].
  - destruct Hd as [[s Hs] Hd]. assert (~ is_open (HExecuted (x_target x) cfg [] (0%N, []))) as Hno by (by intros [? ?]).
    destruct (begin_execute _ _ _ Hp H) as (e' & cfg' & ids & bs & Hb).
    destruct (begun_unique _ _ _ _ _ _ _ _ Hb H0) as [-> ->].
    split; [eexists; by apply this_session_snoc|]. intros k. unfold in_done, plog, done_here in *. cbn [p_graph].
    rewrite (bg_completed _ _ _ _ _ _ Hb), (bg_log _ _ _ _ _ _ Hb), elem_of_union, Hd, (returned_snoc _ _ _ Hno). unfold plog. cbn [lf_entries].
    rewrite referred_app, backref_keys_brefs, elem_of_list_to_set, elem_of_list_In by apply brefs_no_header.
    split; [tauto|]. intros [[Hx|(_ & tg & cfg & t & n & ks & [= <- <- <- <- <-] & [])]|Hx]; tauto.
  - destruct Hd as [[s0 Hs] Hd]. assert (~ is_open (HExecuted (x_target x) cfg t (execute_result cfg s))) as Hno by (by intros [? ?]).
    destruct (begin_execute _ _ _ Hp H) as (e' & cfg' & ids & bs & Hb).
    destruct (begun_unique _ _ _ _ _ _ _ _ Hb H0) as [-> ->].
    assert (reachable cfg' s t) as Hr by (by exists acts).
    destruct (run_inv _ _ _ _ _ _ _ _ _ Hp Hb Hr) as (_ & _ & new & He & Ht & _).
    split; [eexists; by apply this_session_snoc|]. intros k. unfold in_done, plog, done_here in *. cbn [p_graph end_execute completed logfile].
    rewrite (bg_completed _ _ _ _ _ _ Hb), !elem_of_union, Hd, (returned_snoc _ _ _ Hno), He. unfold plog.
    rewrite referred_app.
    2:{ intros h0 Hin. apply in_app_iff in Hin as [Hin|Hin]; [by apply brefs_no_header in Hin|by apply task_rec_no_header in Hin]. }
    rewrite backref_keys_app, backref_keys_brefs, (task_rec_no_backref new), app_nil_r, !elem_of_list_to_set, !elem_of_list_In by done.
    destruct (execute_result cfg' s) as [nf ks]. cbn [snd]. split.
    + intros [[[?|?]|?]|?]; try tauto. left. right. split; [by exists s0|]. eauto 10.
    + intros [[?|(_ & tg & c & t' & n & ks' & [= <- <- <- <- <-] & ?)]|[?|?]]; tauto.
Qed.

Lemma possible_ind' (P : list event_of_history -> world -> Prop) :
  P [] (World [] None) ->
  (forall h w ev w', possible h w -> P h w -> wstep w ev w' -> P (h ++ [ev]) w') ->
  forall h w, possible h w -> P h w.
Proof.
  intros H0 Hs h w Hh. unfold possible in Hh. remember (World [] None) as w0 eqn:E. induction Hh; subst; [done|].
  eapply Hs; [exact Hh|by apply IHHh|done].
Qed.

Lemma done_exact h w p : possible h w -> w_proc w = Some p -> forall k, in_done p k <-> done_here h (plog p) k.
Proof.
  intros Hh Hp. assert (done_inv h w) as Hd; [|unfold done_inv in Hd; rewrite Hp in Hd; apply Hd].
  clear Hp. revert h w Hh. apply possible_ind'; [done|]. intros h w ev w' Hh IH Hs. eapply done_step; [|done|done]. by eapply possible_inv.
Qed.

(** ** Each call of execute *)
Lemma execution_begun w p ev w' tg cfg t : winv w -> w_proc w = Some p -> wstep w ev w' ->
  execution ev = Some (tg, cfg, t) -> exists x e ids bs, x_target x = tg /\ begun p x e cfg ids bs /\
    (node_count (cf_g cfg) <> 0 -> exists s, reachable cfg s t).
Proof.
  intros [HF Hp] Hpr Hs Hev. destruct Hs; cbn [w_file w_proc] in *; try done; simplify_eq/=.
  - destruct (begin_execute _ _ _ Hp H) as (e' & cfg' & ids & bs & Hb).
    destruct (begun_unique _ _ _ _ _ _ _ _ Hb H0) as [-> ->]. by exists x, e', ids, bs.
  - destruct (begin_execute _ _ _ Hp H) as (e' & cfg' & ids & bs & Hb).
    destruct (begun_unique _ _ _ _ _ _ _ _ Hb H0) as [-> ->]. exists x, e', ids, bs. split_and!; try done. intros _. exists s. by exists acts.
  - destruct (begin_execute _ _ _ Hp H) as (e' & cfg' & ids & bs & Hb).
    destruct (begun_unique _ _ _ _ _ _ _ _ Hb H0) as [-> ->]. exists x, e', ids, bs. split_and!; try done. intros _. exists s. by exists acts.
Qed.

Lemma candidate_ext g tg d d' es n : (forall k, d k <-> d' k) -> candidate g tg d es n <-> candidate g tg d' es n.
Proof. intros H. unfold candidate. by setoid_rewrite H. Qed.
Lemma selected_ext g tg d d' es r n : (forall k, d k <-> d' k) -> selected g tg d es r n <-> selected g tg d' es r n.
Proof.
  intros H. unfold selected. rewrite (candidate_ext g tg d d' es n H).
  split; intros [Hc Hk]; (split; [done|]); intros Hr m k Hv; apply (Hk Hr m k); (eapply path_via_iff; [|exact Hv]);
    intros; by rewrite (candidate_ext g tg d d' es _ H).
Qed.
Lemma reused_ext g tg d d' es r k : (forall k, d k <-> d' k) -> reused g tg d es r k <-> reused g tg d' es r k.
Proof. intros H. unfold reused. by setoid_rewrite (H k). Qed.

Lemma runs_part_of p x e cfg ids bs : begun p x e cfg ids bs -> runs_part (deps (p_graph p)) ids (cf_g cfg).
Proof.
  intros Hb. destruct (bg_part _ _ _ _ _ _ Hb) as (Hs & Hl & Hn & He). split; [done|]. split; [done|]. split.
  - intros i n Hi. destruct (Hn i n Hi) as [Hc Hlt].
    destruct (lookup_lt_is_Some_2 _ _ Hlt) as [c' Hc'].
    destruct (Forall2_lookup_r _ _ _ _ _ (proj2 (bg_same _ _ _ _ _ _ Hb)) Hc') as (c & Hc0 & Hst).
    exists c, c'. split_and!; try done. by rewrite Hc.
  - intros i j. rewrite He. split; intros (u & v & Hu & Hv & Hed); exists u, v; (split_and!; try done);
      by apply (same_graph_edge _ _ _ _ (bg_same _ _ _ _ _ _ Hb)).
Qed.

Lemma execute_selects h w p ev w' tg cfg t : possible h w -> w_proc w = Some p -> wstep w ev w' ->
  execution ev = Some (tg, cfg, t) ->
  exists ids bs, runs_part (deps (p_graph p)) ids (cf_g cfg) /\
    (forall n, In n ids <-> selected (deps (p_graph p)) tg (done_here h (current_log w)) (current_log w) (p_rerun p) n) /\
    lf_entries (cf_log cfg) = current_log w ++ map (fun k => Backref (BackrefEntry k)) bs /\ NoDup bs /\
    (forall k, In k bs <-> reused (deps (p_graph p)) tg (done_here h (current_log w)) (current_log w) (p_rerun p) k).
Proof.
  intros Hh Hp Hs Hev. pose proof (possible_inv _ _ Hh) as Hw.
  destruct (execution_begun _ _ _ _ _ _ _ Hw Hp Hs Hev) as (x & e & ids & bs & <- & Hb & _).
  exists ids, bs. unfold current_log. rewrite Hp. fold (plog p).
  pose proof (done_exact _ _ _ Hh Hp) as Hd. split_and!.
  - by eapply runs_part_of.
  - intros n. rewrite (bg_ids _ _ _ _ _ _ Hb). by apply selected_ext.
  - by rewrite (bg_cflog _ _ _ _ _ _ Hb), (bg_log _ _ _ _ _ _ Hb).
  - apply (bg_nodup _ _ _ _ _ _ Hb).
  - intros k. rewrite (bg_bs _ _ _ _ _ _ Hb). by apply reused_ext.
Qed.

Lemma execute_priorities h w p ev w' tg cfg t : possible h w -> w_proc w = Some p -> wstep w ev w' ->
  execution ev = Some (tg, cfg, t) ->
  exists ids, runs_part (deps (p_graph p)) ids (cf_g cfg) /\
    forall i n c, ids !! i = Some n -> nodes (cf_g cfg) !! i = Some c ->
      exists l, c_priority c = N.of_nat l /\ longest_path_to (deps (p_graph p)) n l.
Proof.
  intros Hh Hp Hs Hev. pose proof (possible_inv _ _ Hh) as Hw.
  destruct (execution_begun _ _ _ _ _ _ _ Hw Hp Hs Hev) as (x & e & ids & bs & <- & Hb & _).
  exists ids. split; [by eapply runs_part_of|]. intros i n c Hi Hc. apply (bg_prio _ _ _ _ _ _ Hb).
  destruct (bg_part _ _ _ _ _ _ Hb) as (_ & _ & Hn & _). destruct (Hn i n Hi) as [Hx _]. by rewrite <- Hx.
Qed.

(** Every execute() starts from a configuration for which the theorems about single calls hold. *)
Lemma execute_config_ok h w ev w' tg cfg t : possible h w -> wstep w ev w' ->
  execution ev = Some (tg, cfg, t) -> config_ok cfg /\ (node_count (cf_g cfg) <> 0 -> exists s, reachable cfg s t).
Proof.
  intros Hh Hs Hev. pose proof (possible_inv _ _ Hh) as Hw.
  destruct (w_proc w) as [p|] eqn:Hp; [|by destruct Hs].
  destruct (execution_begun _ _ _ _ _ _ _ Hw Hp Hs Hev) as (x & e & ids & bs & <- & Hb & Hr). split; [|done].
  destruct Hw as [_ Hi]. rewrite Hp in Hi. by eapply begun_config.
Qed.

Lemma executed_result h w ev w' tg cfg t nf ks : possible h w -> wstep w ev w' ->
  ev = HExecuted tg cfg t (nf, ks) -> ks = map (task_key cfg) (finish_order t).
Proof.
  intros Hh Hs Hev. pose proof (possible_inv _ _ Hh) as [HF Hw]. destruct Hs; try done; cbn [w_proc] in *.
  - by injection Hev as <- <- <- <- <-.
  - destruct (begin_execute _ _ _ Hw H) as (e' & cfg' & ids & bs & Hb).
    destruct (begun_unique _ _ _ _ _ _ _ _ Hb H0) as [-> ->].
    destruct (c10 cfg' (begun_config _ _ _ _ _ _ _ Hw Hb) s t0) as (new & _ & He & _); [by exists acts|done|]. rewrite He in Hev.
    by injection Hev as <- <- <- <- <-.
Qed.

(** ** Splitting histories *)
Lemma whistory_app w1 h1 w2 h2 w3 : whistory w1 h1 w2 -> whistory w2 h2 w3 -> whistory w1 (h1 ++ h2) w3.
Proof.
  intros H1 H2. induction H2; [by rewrite app_nil_r|]. rewrite List.app_assoc. econstructor; [by apply IHwhistory|done].
Qed.

Lemma whistory_snoc_inv w1 h ev w3 : whistory w1 (h ++ [ev]) w3 -> exists w2, whistory w1 h w2 /\ wstep w2 ev w3.
Proof.
  intros H. remember (h ++ [ev]) as hh eqn:E. destruct H as [w|w1 w2 w3 h' ev' Hh Hs]; [by destruct h|].
  apply app_inj_tail in E as [-> ->]. eauto.
Qed.

Lemma whistory_nil_inv w w' : whistory w [] w' -> w' = w.
Proof. intros H. remember [] as hh eqn:E. destruct H as [w|w1 w2 w3 h' ev' Hh Hs]; [done|by destruct h']. Qed.

Lemma whistory_single w ev w' : whistory w [ev] w' -> wstep w ev w'.
Proof. intros H. apply (whistory_snoc_inv _ []) in H as (w2 & H & Hs). by apply whistory_nil_inv in H as ->. Qed.

Lemma whistory_split w1 h1 h2 w3 : whistory w1 (h1 ++ h2) w3 -> exists w2, whistory w1 h1 w2 /\ whistory w2 h2 w3.
Proof.
  revert w3. induction h2 as [|ev h2 IH] using rev_ind; intros w3 H.
  - rewrite app_nil_r in H. exists w3. split; [done|constructor].
  - rewrite List.app_assoc in H. apply whistory_snoc_inv in H as (w2 & Hh & Hs).
    apply IH in Hh as (w4 & H1 & H2). exists w4. split; [done|]. by econstructor.
Qed.

Lemma whistory_cons_inv w ev h w' : whistory w (ev :: h) w' -> exists w2, wstep w ev w2 /\ whistory w2 h w'.
Proof.
  intros H. change (ev :: h) with ([ev] ++ h) in H. apply whistory_split in H as (w2 & H1 & H2). exists w2.
  split; [by apply whistory_single|done].
Qed.

(** ** Durability *)
Lemma prefix_take {A} (F rest : list A) n : length F <= n -> exists r, take n (F ++ rest) = F ++ r.
Proof. intros H. rewrite take_app_ge by done. eauto. Qed.

Lemma wstep_durable w ev w' : winv w -> wstep w ev w' -> exists rest, w_file w' = w_file w ++ rest.
Proof.
  intros [HF Hp] Hs. destruct Hs; cbn [w_file w_proc] in *.
  - exists []. by rewrite app_nil_r.
  - exists []. by rewrite app_nil_r.
  - exists []. by rewrite app_nil_r.
  - exists []. by rewrite app_nil_r.
  - destruct (begin_execute _ _ _ Hp H) as (e' & cfg' & ids & bs & Hb).
    destruct (begun_unique _ _ _ _ _ _ _ _ Hb H0) as [-> ->].
    destruct (run_inv _ _ _ _ _ _ _ s t Hp Hb) as (_ & _ & new & -> & _); [by exists acts|].
    destruct (pi_prefix _ _ Hp) as [rest ->]. rewrite <- List.app_assoc. eauto.
  - destruct (pi_prefix _ _ Hp) as [rest Hr]. unfold plog in Hr. eauto.
  - destruct (pi_prefix _ _ Hp) as [rest Hr]. unfold plog in Hr. rewrite Hr. by apply prefix_take.
  - destruct (begin_execute _ _ _ Hp H) as (e' & cfg' & ids & bs & Hb).
    destruct (begun_unique _ _ _ _ _ _ _ _ Hb H0) as [-> ->].
    destruct (run_inv _ _ _ _ _ _ _ s t Hp Hb) as (_ & _ & new & -> & _); [by exists acts|].
    destruct (pi_prefix _ _ Hp) as [rest ->]. rewrite <- List.app_assoc. by apply prefix_take.
Qed.

Lemma durable w h w' : winv w -> whistory w h w' -> exists rest, w_file w' = w_file w ++ rest.
Proof.
  intros Hw Hh. induction Hh; [exists []; by rewrite app_nil_r|].
  destruct (IHHh Hw) as [r1 E1]. destruct (wstep_durable _ _ _ (whistory_inv _ _ _ Hw Hh) H) as [r2 E2].
  exists (r1 ++ r2). by rewrite E2, E1, <- List.app_assoc.
Qed.

(** ** Successes are final *)
Lemma success_final h w h' w' l1 f l2 :
  possible h w -> w_file w = l1 ++ Finished f :: l2 -> f_status f = 0%Z -> whistory w h' w' ->
  (exists new, w_file w' = w_file w ++ new /\ no_record (f_key f) new) /\
  forall ev tg cfg t n, In ev h' -> execution ev = Some (tg, cfg, t) -> in_graph cfg n -> task_key cfg n <> f_key f.
Proof.
  intros Hh Hf Hst Hh'. pose proof (possible_inv _ _ Hh) as Hw. split.
  - destruct (durable _ _ _ Hw Hh') as [new Hnew]. exists new. split; [done|].
    destruct (whistory_inv _ _ _ Hw Hh') as [HF _].
    intros e He. apply in_split in He as (a & b & ->).
    refine (g_success _ HF l1 (Finished f) (l2 ++ a) e b _ Hst).
    rewrite Hnew, Hf. rewrite <- ?List.app_assoc, <- ?app_comm_cons, <- ?List.app_assoc. done.
  - intros ev tg cfg t n Hin Hev Hn. apply in_split in Hin as (h1 & h2 & ->).
    apply whistory_split in Hh' as (w2 & Ha & Hb). 
    apply whistory_cons_inv in Hb as (w3 & Hs & _).
    pose proof (whistory_inv _ _ _ Hw Ha) as Hw2. destruct (durable _ _ _ Hw Ha) as [rest Hrest].
    destruct (w_proc w2) as [p|] eqn:Hp; [|by destruct Hs].
    destruct (execution_begun _ _ _ _ _ _ _ Hw2 Hp Hs Hev) as (x & e & ids & bs & _ & Hbg & _).
    destruct Hw2 as [HF2 Hi]. rewrite Hp in Hi.
    unfold in_graph in Hn. destruct (lookup_lt_is_Some_2 _ _ Hn) as [c Hc]. unfold task_key. rewrite Hc. intros Hk.
    destruct (begun_key _ _ _ _ _ _ _ _ Hbg Hc) as (_ & Hns & _). rewrite Hk in Hns. apply Hns.
    destruct (pi_prefix _ _ Hi) as [r2 Hr2].
    assert (plog p = l1 ++ Finished f :: (l2 ++ rest ++ r2)) as Hpl.
    { rewrite Hr2, Hrest, Hf. rewrite <- ?List.app_assoc, <- ?app_comm_cons, <- ?List.app_assoc. done. }
    destruct (success_status (plog p) l1 f (l2 ++ rest ++ r2) (status p (f_key f))) as (c1 & sr & Hstat); try done.
    + apply (log_ok_status _ (f_key f) (pi_log _ _ Hi)).
    + intros e' He'. apply in_split in He' as (a & b & Hab). refine (g_success _ (pi_good _ _ Hi) l1 (Finished f) a e' b _ Hst).
      by rewrite Hpl, Hab.
    + exists c1, sr. rewrite <- Hstat. apply (log_ok_status _ (f_key f) (pi_log _ _ Hi)).
Qed.

(** ** Finished tasks are not repeated by the same process *)
Lemma not_repeated h1 tg cfg t r h2 ev w tg' cfg' t' n m :
  possible (h1 ++ HExecuted tg cfg t r :: h2 ++ [ev]) w -> (forall a, ~ In (HOpened a) h2) ->
  finished t n -> execution ev = Some (tg', cfg', t') -> in_graph cfg' m ->
  task_key cfg' m <> task_key cfg n.
Proof.
  intros Hh Hno [x [el Hfin]] Hev Hm. rewrite app_comm_cons, List.app_assoc in Hh. apply whistory_snoc_inv in Hh as (w2 & Hh & Hs).
  pose proof (possible_inv _ _ Hh) as Hw2.
  destruct (w_proc w2) as [p|] eqn:Hp; [|by destruct Hs].
  destruct (execution_begun _ _ _ _ _ _ _ Hw2 Hp Hs Hev) as (y & e & ids & bs & _ & Hbg & _).
  unfold in_graph in Hm. destruct (lookup_lt_is_Some_2 _ _ Hm) as [c Hc]. unfold task_key at 1. rewrite Hc. intros Hk.
  destruct (begun_key _ _ _ _ _ _ _ _ Hbg Hc) as (Hnd & _ & _). apply Hnd. rewrite Hk.
  apply (done_exact _ _ _ Hh Hp). left.
  assert (done_inv (h1 ++ HExecuted tg cfg t r :: h2) w2) as Hd.
  { revert Hh. generalize (h1 ++ HExecuted tg cfg t r :: h2), w2. apply possible_ind'; [done|].
    intros h0 w0 ev0 w0' Hh0 IH Hs0. eapply done_step; [|done|done]. by eapply possible_inv. }
  unfold done_inv in Hd. rewrite Hp in Hd. destruct Hd as [[s Hsess] _].
  destruct r as [nf ks].
  exists s, tg, cfg, t, nf, ks. split; [done|]. split.
  - destruct Hsess as (h0 & a & E & Hs0). apply app_split in E as [(l2' & -> & ->)|(n1 & E & ->)].
    + apply in_app_iff. right. by left.
    + destruct n1 as [|? n1]; simpl in E; [done|]. injection E as _ E. exfalso. apply (Hno a). rewrite E. apply in_app_iff. right. by left.
  - apply whistory_split in Hh as (w3 & Ha & Hb). apply whistory_cons_inv in Hb as (w4 & Hs5 & _).
    rewrite (executed_result _ _ _ _ _ _ _ _ _ Ha Hs5 eq_refl). apply in_map_iff. exists n. split; [done|].
    apply elem_of_list_In, elem_of_list_omap. exists (OFinished n x el). split; [by apply elem_of_list_In|done].
Qed.
