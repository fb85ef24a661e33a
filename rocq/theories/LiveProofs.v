(** Proofs for LiveProps.v: what a reader of the log finds while a session runs. *)
From Verif Require Import FlushModel FlushProofs FlushProps JsonProofs JsonProps ToolModel ToolProofs SessionSpec SessionProofs SessionHistory SessionProps SchedProofs SchedProps LogProofs LogProps.
From stdpp Require Import prelude gmap.
Open Scope nat_scope.

(** ** What is done in a session is in its part of the log *)
Definition in_segment (k : string) (seg : list log_entry) : Prop := In k (backref_keys seg) \/ ~ no_record k seg.
Definition seg_inv (p : process) : Prop :=
  exists older hd seg, last_session (plog p) older hd seg /\ forall k, in_done p k -> in_segment k seg.

Lemma in_segment_app_l k l1 l2 : in_segment k l1 -> in_segment k (l1 ++ l2).
Proof.
  intros [H|H]; [left; rewrite backref_keys_app; apply in_app_iff; by left|right]. intros Hn. apply no_record_app in Hn as [Hn _]. done.
Qed.
Lemma in_segment_app_r k l1 l2 : in_segment k l2 -> in_segment k (l1 ++ l2).
Proof.
  intros [H|H]; [left; rewrite backref_keys_app; apply in_app_iff; by right|right]. intros Hn. apply no_record_app in Hn as [_ Hn]. done.
Qed.
Lemma finished_recorded cfg s t n new : config_ok cfg -> reachable cfg s t -> lf_entries (sv_log (st_sv s)) = lf_entries (cf_log cfg) ++ new ->
  n ∈ finish_order t -> ~ no_record (task_key cfg n) new.
Proof.
  intros Hok Hr He Hn Hno. destruct (log_records cfg Hok s t Hr) as (new' & inf & fin & Hnew & _ & HDL & _).
  unfold new_records in Hnew. rewrite He in Hnew. apply app_inv_head in Hnew as <-.
  apply elem_of_list_omap in Hn as (o & Ho & E). destruct o; try done. injection E as ->.
  assert (n ∈ readied t) as Hrd by (eapply mentions_readied; [done|done|exact Ho|done]).
  assert (n < node_count (cf_g cfg)) as Hlt.
  { apply (full_or_done cfg Hok) in Hr as [HF|HD].
    - apply (a_lt _ _ _ (inv_a _ _ _ (f_inv _ _ _ HF)) n Hrd).
    - destruct HD as (s1 & t1 & os0 & now0 & order0 & HF & _ & _ & _ & -> & _ & Hz & _). destruct Hz as [_ _ _ _ _ _ Hob].
      rewrite readied_app, (drain_readied os0 Hob), app_nil_r in Hrd. apply (a_lt _ _ _ (inv_a _ _ _ (f_inv _ _ _ HF)) n Hrd). }
  pose proof (l_stage _ _ _ _ _ _ _ HDL n Hlt) as Hst. apply no_record_history in Hno. rewrite Hno in Hst. unfold stage' in Hst.
  rewrite decide_True in Hst by done. repeat case_decide; done.
Qed.

Lemma seg_step w ev w' : winv w -> (forall p, w_proc w = Some p -> seg_inv p) -> wstep w ev w' -> forall p, w_proc w' = Some p -> seg_inv p.
Proof.
  intros [HF Hp] Hi Hs. destruct Hs; cbn [w_file w_proc] in *; intros q Hq; try done; injection Hq as <-.
  - destruct (open_works F a HF) as (l & p' & Hl & Ho' & Hlog & Hg & _). simplify_eq.
    exists F, (session_header l a), []. unfold plog, in_done. rewrite Hlog, Hg. cbn [lf_entries]. split; [split; [done|by intros [? []]]|].
    intros k Hk. simpl in Hk. by apply elem_of_empty in Hk.
  - destruct (add_inv _ _ _ _ _ _ _ _ _ _ Hp H H0) as (_ & Hl & Hc). destruct (Hi p eq_refl) as (older & hd & seg & Hls & Hk).
    exists older, hd, seg. unfold plog, in_done in *. cbn [p_graph]. by rewrite Hl, Hc.
  - destruct (begin_execute _ _ _ Hp H) as (e' & cfg' & ids & bs & Hb). destruct (begun_unique _ _ _ _ _ _ _ _ Hb H0) as [-> ->].
    destruct (Hi p eq_refl) as (older & hd & seg & [Hes Hseg] & Hk). exists older, hd, (seg ++ brefs bs). unfold plog, in_done in *. cbn [p_graph].
    rewrite (bg_log _ _ _ _ _ _ Hb), (bg_completed _ _ _ _ _ _ Hb). unfold plog in *. cbn [lf_entries]. split.
    + split; [by rewrite Hes, <- List.app_assoc|]. intros Hh. apply has_header_app in Hh as [Hh|[h Hh]]; [done|]. by apply brefs_no_header in Hh.
    + intros k Hin. apply elem_of_union in Hin as [Hin|Hin]; [by apply in_segment_app_l, Hk|]. apply in_segment_app_r. left.
      rewrite backref_keys_brefs. by apply elem_of_list_to_set, elem_of_list_In in Hin.
  - destruct (begin_execute _ _ _ Hp H) as (e' & cfg' & ids & bs & Hb). destruct (begun_unique _ _ _ _ _ _ _ _ Hb H0) as [-> ->].
    assert (reachable cfg' s t) as Hr by (by exists acts).
    pose proof (begun_config _ _ _ _ _ _ _ Hp Hb) as Hok. destruct (run_inv _ _ _ _ _ _ _ _ _ Hp Hb Hr) as (_ & _ & new & He & Ht & _).
    destruct (Hi p eq_refl) as (older & hd & seg & [Hes Hseg] & Hk). exists older, hd, (seg ++ brefs bs ++ new).
    unfold plog at 1, in_done. cbn [p_graph end_execute logfile completed]. rewrite (bg_completed _ _ _ _ _ _ Hb), He. split.
    + split; [by rewrite Hes, <- List.app_assoc|]. intros Hh. apply has_header_app in Hh as [Hh|Hh]; [done|].
      apply has_header_app in Hh as [[h Hh]|[h Hh]]; [by apply brefs_no_header in Hh|by apply task_rec_no_header in Hh].
    + intros k Hin. apply elem_of_union in Hin as [Hin|Hin]; [apply elem_of_union in Hin as [Hin|Hin]|].
      * by apply in_segment_app_l, Hk.
      * apply in_segment_app_r, in_segment_app_l. left. rewrite backref_keys_brefs. by apply elem_of_list_to_set, elem_of_list_In in Hin.
      * apply in_segment_app_r, in_segment_app_r. right. apply elem_of_list_to_set in Hin.
        destruct (execute_result_truthful cfg' s t Hok Hr H3) as (new1 & _ & Her & _). rewrite Her in Hin. cbn [snd] in Hin.
        apply elem_of_list_fmap in Hin as (n & -> & Hn). eapply finished_recorded; [exact Hok|exact Hr| |exact Hn].
        rewrite He, (bg_cflog _ _ _ _ _ _ Hb), (bg_log _ _ _ _ _ _ Hb). cbn [lf_entries]. by rewrite <- List.app_assoc.
Qed.
Lemma possible_seg h w p : possible h w -> w_proc w = Some p -> seg_inv p.
Proof.
  intros Hh. revert p. revert h w Hh. apply (possible_ind' (fun _ w => forall p, w_proc w = Some p -> seg_inv p)); [done|].
  intros h w ev w' Hh IH Hs. eapply seg_step; [by eapply possible_inv|exact IH|exact Hs].
Qed.

(** ** The snapshot *)
(** A record of a key that is referred to has a record of the latest attempt beside it. *)
Lemma latest_has k keys es : In k keys -> ~ no_record k es -> ~ no_record k (latest_attempts keys es).
Proof.
  intros Hk. induction es as [|x es IH]; intros Hn; [by exfalso; apply Hn; intros ? []|]. cbn [latest_attempts].
  destruct (decide (history k es = [])) as [He|He].
  - apply no_record_history in He. destruct (record_of k x) as [kd|] eqn:Ex.
    2: { exfalso. apply Hn. intros e [<-|Hin]; [done|by apply He]. }
    assert (in_latest_attempt keys x es = true) as ->; [|intros Hno; specialize (Hno x (or_introl eq_refl)); congruence].
    assert (entry_key x = Some k) as Ek by (destruct x; cbn [record_of] in Ex; try discriminate Ex; case_match; try discriminate; cbn [entry_key]; f_equal; by apply String.eqb_eq).
    unfold in_latest_attempt. rewrite Ek. assert (existsb (String.eqb k) keys = true) as -> by (apply existsb_exists; exists k; split; [done|apply String.eqb_refl]).
    assert (existsb (fun e => match e with Ready r => String.eqb (r_key r) k | _ => false end) es = false) as ->.
    { apply not_true_iff_false. intros (e & Hin & E)%existsb_exists. specialize (He e Hin). destruct e; try discriminate E. cbn [record_of] in He. by rewrite E in He. }
    by destruct x.
  - assert (~ no_record k es) as Hx by (by intros Hno%no_record_history).
    intros Hno. apply (IH Hx). intros e Hin. apply Hno. case_match; [by right|done].
Qed.
(** The records after which no Ready of their key comes are in the latest attempt. *)
Lemma latest_in k keys l1 x l2 : In k keys -> record_of k x <> None -> (forall r, In (Ready r) l2 -> r_key r <> k) ->
  In x (latest_attempts keys (l1 ++ x :: l2)).
Proof.
  intros Hk Hx Hl. induction l1 as [|y l1 IH]; cbn [app latest_attempts].
  - assert (in_latest_attempt keys x l2 = true) as ->; [|by left].
    destruct (record_of k x) as [kd|] eqn:Ex; [|done].
    assert (entry_key x = Some k) as Ek by (destruct x; cbn [record_of] in Ex; try discriminate Ex; case_match; try discriminate; cbn [entry_key]; f_equal; by apply String.eqb_eq).
    unfold in_latest_attempt. rewrite Ek. assert (existsb (String.eqb k) keys = true) as -> by (apply existsb_exists; exists k; split; [done|apply String.eqb_refl]).
    assert (existsb (fun e => match e with Ready r => String.eqb (r_key r) k | _ => false end) l2 = false) as ->.
    { apply not_true_iff_false. intros (e & Hin & E)%existsb_exists. destruct e; try discriminate E. apply String.eqb_eq in E. by apply (Hl r). }
    by destruct x.
  - case_match; [by right|done].
Qed.
Lemma superseded_in keys es x : In x (superseded keys es) -> In x es.
Proof. induction es as [|y es IH]; cbn [superseded]; [done|]. destruct (in_latest_attempt keys y es); [intros Hx; right; by apply IH|]. intros [->|Hx]; [by left|right; by apply IH]. Qed.
Lemma record_key k x : record_of k x <> None -> entry_key x = Some k.
Proof.
  intros Ex. destruct x; cbn [record_of] in Ex; try done; case_match; try done; cbn [entry_key]; f_equal; by apply String.eqb_eq.
Qed.
Lemma last_session_segment es older hd seg : last_session es older hd seg -> last_segment es older (Some (Header hd)) seg.
Proof. intros [-> H]. split; [intros e He [h ->]; apply H; by exists h|]. split; [by exists hd|done]. Qed.

(** No record of a key of the last session, run in it or referred to, is outdated. *)
Lemma in_segment_kept es older hd seg cur out k : last_session es older hd seg -> read_current_and_outdated es = Some (cur, out) ->
  in_segment k seg -> no_record k out.
Proof.
  intros Hls Hr Hk. destruct (snapshot_exact _ _ _ _ _ _ (last_session_segment _ _ _ _ Hls) Hr) as [Hc Ho].
  intros x Hx. destruct (record_of k x) as [kd|] eqn:Ex; [exfalso|done]. rewrite Ho in Hx. apply filter_In in Hx as [Hx Hb].
  apply superseded_in in Hx. assert (record_of k x <> None) as Exn by (by rewrite Ex). apply record_key in Exn.
  assert (exists y, In y cur /\ entry_key y = Some k) as (y & Hy & Ey).
  { assert (~ no_record k cur) as Hn.
    { rewrite Hc. destruct Hk as [Hk|Hk].
      - intros Hno. apply no_record_app in Hno as [_ Hno]. apply no_record_app in Hno as [Hno _]. revert Hno. apply latest_has; [done|].
        intros Hno. specialize (Hno x Hx). congruence.
      - intros Hno. apply no_record_app in Hno as [_ Hno]. apply no_record_app in Hno as [_ Hno]. apply Hk. intros e He.
        destruct (record_of k e) eqn:Er; [|done]. rewrite <- Er. apply Hno, filter_In. split; [done|]. by destruct e. }
    destruct (existsb (fun y => match record_of k y with Some _ => true | None => false end) cur) eqn:E.
    - apply existsb_exists in E as (y & Hy & E). exists y. split; [done|]. apply record_key. by destruct (record_of k y).
    - exfalso. apply Hn. intros e He. apply not_true_iff_false in E. destruct (record_of k e) eqn:E2; [|done]. exfalso. apply E, existsb_exists. exists e. by rewrite E2. }
  apply negb_true_iff in Hb. unfold has_key_of in Hb. rewrite Exn in Hb. apply not_true_iff_false in Hb. apply Hb, existsb_exists. exists y. rewrite Ey. split; [done|apply String.eqb_refl].
Qed.

(** The task has a record only if it has a Ready in the same session; then the latest success of a key that is in the
    segment or referred to is in [cur]. *)
Lemma success_current es older hd seg cur out k c sr : last_session es older hd seg -> read_current_and_outdated es = Some (cur, out) ->
  in_segment k seg -> ((forall r, In (Ready r) seg -> r_key r <> k) -> no_record k seg) ->
  status_in es k (Some (RFinished c sr true)) ->
  exists r s f, In (Ready r) cur /\ In (Started s) cur /\ In (Finished f) cur /\ r_key r = k /\ s_key s = k /\ f_key f = k /\
    r_runcount r = c /\ r_storage_root r = sr /\ f_status f = 0%Z.
Proof.
  intros Hls Hr Hk Hrd (pre & r & mid & s & mid' & f & post & Hes & Hr1 & Hr2 & Hr3 & Hmid & Hs1 & Hmid' & Hf1 & Hf2 & Hpost).
  destruct (snapshot_exact _ _ _ _ _ _ (last_session_segment _ _ _ _ Hls) Hr) as [Hc _]. destruct Hls as [He Hh].
  assert (Hin : forall x, record_of k x <> None -> In x seg -> In x cur).
  { intros x Hx Hxs. rewrite Hc. apply in_app_iff. right. apply in_app_iff. right. apply filter_In. split; [done|by destruct x]. }
  assert (Hold : forall x l1 l2, record_of k x <> None -> es = l1 ++ x :: l2 -> (forall r', In (Ready r') l2 -> r_key r' <> k) -> In x cur).
  { intros x l1 l2 Hx E Hnr. rewrite He in E. apply app_split in E as [(l2' & E1 & E2)|(n1 & E1 & E2)].
    - destruct Hk as [Hk|Hk].
      + rewrite Hc. apply in_app_iff. right. apply in_app_iff. left. rewrite E1. apply (latest_in k); [done|done|]. intros r' Hi. apply Hnr. rewrite E2. apply in_app_iff. by left.
      + exfalso. apply Hk, Hrd. intros r' Hi. apply Hnr. rewrite E2. apply in_app_iff. right. by right.
    - destruct n1 as [|y n1]; injection E1 as E1 E3; [by rewrite <- E1 in Hx|]. apply Hin; [done|]. rewrite E3. apply in_app_iff. right. by left. }
  assert (Hno : forall l r', no_record k l -> In (Ready r') l -> r_key r' <> k).
  { intros l r' Hn Hi E. specialize (Hn _ Hi). cbn [record_of] in Hn. by rewrite (proj2 (String.eqb_eq _ _) E) in Hn. }
  assert (Hk1 : record_of k (Ready r) <> None) by (cbn [record_of]; by rewrite (proj2 (String.eqb_eq _ _) Hr1)).
  assert (Hk2 : record_of k (Started s) <> None) by (cbn [record_of]; by rewrite (proj2 (String.eqb_eq _ _) Hs1)).
  assert (Hk3 : record_of k (Finished f) <> None) by (cbn [record_of]; by rewrite (proj2 (String.eqb_eq _ _) Hf1)).
  exists r, s, f. split_and!; try done; [..|by apply Hf2].
  - eapply Hold; [done|exact Hes|]. intros r' Hi. rewrite in_app_iff in Hi. destruct Hi as [Hi|[Hi|Hi]]; [exact (Hno _ _ Hmid Hi)|done|].
    rewrite in_app_iff in Hi. destruct Hi as [Hi|[Hi|Hi]]; [exact (Hno _ _ Hmid' Hi)|done|exact (Hno _ _ Hpost Hi)].
  - eapply (Hold (Started s) (pre ++ Ready r :: mid)); [done|rewrite Hes, <- List.app_assoc; done|].
    intros r' Hi. rewrite in_app_iff in Hi. destruct Hi as [Hi|[Hi|Hi]]; [exact (Hno _ _ Hmid' Hi)|done|exact (Hno _ _ Hpost Hi)].
  - eapply (Hold (Finished f) (pre ++ Ready r :: mid ++ Started s :: mid') post); [done| |intros r' Hi; exact (Hno _ _ Hpost Hi)].
    rewrite Hes, <- List.app_assoc. cbn [app]. by rewrite <- List.app_assoc.
Qed.

(** ** While execute() runs *)
Lemma last_session_app es older hd seg new : last_session es older hd seg -> ~ has_header new -> last_session (es ++ new) older hd (seg ++ new).
Proof. intros [-> H] Hn. split; [by rewrite <- List.app_assoc|]. by intros [?|?]%has_header_app. Qed.
Lemma last_session_unique es o1 h1 s1 o2 h2 s2 : last_session es o1 h1 s1 -> last_session es o2 h2 s2 -> s1 = s2.
Proof.
  intros [E1 H1] [E2 H2]. rewrite E1 in E2. apply app_split in E2 as [(l & -> & E)|(n1 & E & ->)].
  - exfalso. apply H2. exists h1. rewrite E. apply in_app_iff. right. by left.
  - destruct n1 as [|y n1]; injection E as E E'; [done|]. exfalso. apply H1. exists h2. rewrite E'. apply in_app_iff. right. by left.
Qed.

Lemma live_parts F p x e cfg s t n h : possible h (World F (Some p)) -> args_ok x -> start_execute p x = Some (e, cfg) -> reachable cfg s t ->
  length (lf_entries (cf_log cfg)) <= n ->
  exists older hd seg more, last_session (take n (written s)) older hd (seg ++ more) /\ take n (written s) = plog p ++ more /\
    (forall k, (forall r, In (Ready r) seg -> r_key r <> k) -> no_record k seg) /\
    (forall k, in_done p k -> in_segment k seg) /\
    (forall k, reused (deps (p_graph p)) (x_target x) (in_done p) (plog p) (p_rerun p) k -> In k (backref_keys more)) /\
    (forall k, in_done p k \/ reused (deps (p_graph p)) (x_target x) (in_done p) (plog p) (p_rerun p) k -> no_record k more).
Proof.
  intros Hh Ha He Hr Hn. pose proof (possible_inv _ _ Hh) as [_ Hp]. cbn [w_proc w_file] in Hp.
  destruct (begin_execute _ _ _ Hp Ha) as (e' & cfg' & ids & bs & Hb). destruct (begun_unique _ _ _ _ _ _ _ _ Hb He) as [<- <-].
  destruct (run_inv _ _ _ _ _ _ _ _ _ Hp Hb Hr) as (_ & _ & new & Hw & Ht & _ & Hk).
  destruct (possible_seg _ _ _ Hh eq_refl) as (older & hd & seg & Hls & Hd). destruct (pi_seg _ _ Hp) as (o2 & h2 & s2 & Hls2 & _ & Hrd & _).
  rewrite <- (last_session_unique _ _ _ _ _ _ _ Hls Hls2) in Hrd.
  rewrite (bg_cflog _ _ _ _ _ _ Hb), (bg_log _ _ _ _ _ _ Hb) in Hn. cbn [lf_entries] in Hn.
  set (m := n - length (plog p ++ brefs bs)).
  assert (take n (written s) = plog p ++ (brefs bs ++ take m new)) as E.
  { unfold written. rewrite Hw, !List.app_assoc, take_app_ge by done. done. }
  exists older, hd, seg, (brefs bs ++ take m new). split_and!; try done.
  - rewrite E. apply last_session_app; [done|]. intros [hh Hx]. apply in_app_iff in Hx as [Hx|Hx]; [by apply brefs_no_header in Hx|].
    apply (task_rec_no_header new hh Ht). apply elem_of_list_In. apply elem_of_list_In in Hx. by eapply elem_of_take in Hx as (? & ?%elem_of_list_lookup_2 & _).
  - intros k Hx. rewrite backref_keys_app, backref_keys_brefs. apply in_app_iff. left. by apply (bg_bs _ _ _ _ _ _ Hb).
  - intros k Hx. apply no_record_app. split; [apply no_record_brefs|].
    assert (no_record k new) as Hno.
    { apply no_record_history. destruct (history k new) eqn:Eh; [done|]. exfalso. destruct (Hk k) as (i & c & Hc & Hck); [by rewrite Eh|].
      destruct (begun_key _ _ _ _ _ _ _ _ Hb Hc) as (H1 & _ & H3). rewrite Hck in H1, H3. destruct Hx as [Hx|Hx]; [done|]. by apply H3, (bg_bs _ _ _ _ _ _ Hb). }
    intros y Hy. apply Hno. apply elem_of_list_In. apply elem_of_list_In in Hy. by eapply elem_of_take in Hy as (? & ?%elem_of_list_lookup_2 & _).
Qed.

Lemma live_kept F p x e cfg s t n h cur out k : possible h (World F (Some p)) -> args_ok x -> start_execute p x = Some (e, cfg) -> reachable cfg s t ->
  length (lf_entries (cf_log cfg)) <= n -> read_current_and_outdated (take n (written s)) = Some (cur, out) ->
  in_done p k \/ reused (deps (p_graph p)) (x_target x) (in_done p) (plog p) (p_rerun p) k ->
  no_record k out /\ forall c sr, status_in (plog p) k (Some (RFinished c sr true)) ->
    exists r s f, In (Ready r) cur /\ In (Started s) cur /\ In (Finished f) cur /\ r_key r = k /\ s_key s = k /\ f_key f = k /\
      r_runcount r = c /\ r_storage_root r = sr /\ f_status f = 0%Z.
Proof.
  intros Hh Ha He Hr Hn Hread Hk. destruct (live_parts _ _ _ _ _ _ _ _ _ Hh Ha He Hr Hn) as (older & hd & seg & more & Hls & E & Hrd & Hd & Hre & Hno).
  assert (in_segment k (seg ++ more)) as Hin.
  { destruct Hk as [Hk|Hk]; [by apply in_segment_app_l, Hd|]. apply in_segment_app_r. left. by apply Hre. }
  split; [by eapply in_segment_kept|]. intros c sr Hst. eapply success_current; [exact Hls|exact Hread|exact Hin| |].
  - intros Hx. apply no_record_app. split; [|by apply Hno]. apply Hrd. intros r Hr1. apply Hx, in_app_iff. by left.
  - rewrite E. by apply status_in_no_record; [|apply Hno].
Qed.

(** ** In bytes *)
Lemma read_front es ts g : Forall2 record_text es ts -> Forall rust_record es ->
  read_lines (raw_lines (file_text ts ++ g)) = match read_lines (raw_lines g) with Some es' => Some (es ++ es') | None => None end.
Proof.
  intros Hts. revert g. induction Hts as [|e t es ts Ht Hts IH]; intros g Hr; [cbn; by destruct (read_lines (raw_lines g))|]. apply Forall_cons in Hr as [He Hr].
  unfold file_text. cbn [map concat]. rewrite <- !List.app_assoc. cbn [app]. fold (file_text ts).
  rewrite (read_line e t He Ht), IH by done. by destruct (read_lines (raw_lines g)).
Qed.
Lemma cut_read_exact es f g : Forall rust_record es -> file_of es f -> begins g f ->
  exists n, (read_file g = Some (take n es) /\ (forall es1 f1, file_of es1 f1 -> begins f1 g -> length es1 <= n)) \/
    (read_file g = None /\ exists e t y z f1, es !! n = Some e /\ record_text e t /\ t = y ++ z /\ utf8_valid y = false /\ file_of (take n es) f1 /\ g = f1 ++ y).
Proof.
  intros Hr (ts & Hts & ->)%file_of_texts [x E]. destruct (load_cut _ _ Hts Hr g x E) as (es1 & ts1 & es2 & ts2 & -> & -> & H12 & Hc). exists (length es1).
  rewrite take_app. unfold read_file. destruct Hc as [(Hg & _ & Hread)|((e & es3 & t & ts3 & y & z & -> & -> & -> & Hy & Hz & ->) & _ & _)].
  - left. split; [done|]. intros es1' f1 Hf Hb. eapply passed_first; [exact Hf|exact Hb|]. destruct Hg as [->|Hg]; [left|right]; apply file_of_texts; eauto.
  - apply Forall_app in Hr as [Hr1 Hr2]. apply Forall2_app_inv_l in Hts as (ta & tb & Ha & Hb & Et).
    assert (length ta = length ts1) as Hl by (rewrite <- (Forall2_length _ _ _ Ha), <- (Forall2_length _ _ _ H12); done).
    apply app_inj_1 in Et as [_ Et]; [|done]. rewrite <- Et in Hb. apply Forall2_cons in Hb as [Ht _].
    rewrite (read_front _ _ _ H12 Hr1). apply Forall_cons in Hr2 as [He _].
    pose proof (text_printable e _ Ht) as Hp. apply Forall_app in Hp as [Hp _].
    rewrite raw_lines_last by (by apply printable_LF || done). cbn [read_lines]. rewrite trim_none by (intros; by eapply printable_eol).
    rewrite (torn_text _ _ _ _ Ht eq_refl Hz). destruct (utf8_valid y) eqn:Eu.
    + left. split; [by rewrite app_nil_r|]. intros es1' f1 Hf [x1 E1]. apply file_line_ends in Hf. rewrite <- Hf.
      assert (file_of es1 (file_text ts1)) as Hf1 by (apply file_of_texts; eauto). apply file_line_ends in Hf1. rewrite <- Hf1.
      assert (line_ends (file_text ts1 ++ y) = line_ends (f1 ++ x1)) as E2 by (by rewrite E1). rewrite !line_ends_app in E2.
      assert (line_ends y = 0) as E3; [|lia]. apply printable_LF in Hp. clear -Hp.
      unfold line_ends. induction y as [|a y IH]; [done|]. cbn [List.filter]. destruct (Ascii.eqb_spec LF a) as [<-|_]; [|apply IH]; set_solver.
    + right. split; [done|]. exists e, (y ++ z), y, z, (file_text ts1). split_and!; try done.
      * rewrite lookup_app_r by done. by rewrite Nat.sub_diag.
      * apply file_of_texts; eauto.
Qed.
