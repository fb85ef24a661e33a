(** Proofs about the records of a session. *)
From Verif Require Export RecordSpec.
From Verif Require Import SchedProofs SchedProps.
From Coq Require Import Lia.
From stdpp Require Import prelude gmap.

Definition nonready (l : line) : bool := negb (says_ready l).

Lemma open_app o a b : open_after o (a ++ b) = open_after (open_after o a) b.
Proof. apply fold_left_app. Qed.
Lemma transcript_app cfg a b : forall o, transcript cfg o (a ++ b) = transcript cfg o a ++ transcript cfg (open_after o a) b.
Proof. induction a as [|r a IH]; intros o; [done|]. cbn [app transcript]. rewrite IH, List.app_assoc. done. Qed.
Lemma transcript_nonready cfg rs : forall o, List.filter nonready (transcript cfg o rs) = transcript cfg o rs.
Proof.
  induction rs as [|r rs IH]; intros o; [done|]. cbn [transcript]. rewrite List.filter_app, IH. f_equal.
  destruct r as [|n st v]; [done|]. by destruct (decide (n ∈ o)).
Qed.
Lemma transcript_notready cfg rs : forall o, List.filter says_ready (transcript cfg o rs) = [].
Proof.
  induction rs as [|r rs IH]; intros o; [done|]. cbn [transcript]. rewrite List.filter_app, IH.
  destruct r as [|n st v]; [done|]. by destruct (decide (n ∈ o)).
Qed.
Lemma ready_notnon cfg l : List.filter nonready (map (ready_line cfg) l) = [].
Proof. induction l as [|n l IH]; [done|]. cbn [map List.filter]. rewrite IH. unfold ready_line. by destruct (nodes (cf_g cfg) !! n). Qed.
Lemma ready_ready cfg l : List.filter says_ready (map (ready_line cfg) l) = map (ready_line cfg) l.
Proof. induction l as [|n l IH]; [done|]. cbn [map List.filter]. rewrite IH. unfold ready_line. by destruct (nodes (cf_g cfg) !! n). Qed.
Lemma readied_app t t' : readied (t ++ t') = readied t ++ readied t'.
Proof. apply omap_app. Qed.
Lemma readied_map l : readied (map OReady l) = l.
Proof. induction l as [|n l IH]; [done|]. cbn. f_equal. exact IH. Qed.

(** [l'] is [l] with some more records, whose lines are [ls]. *)
Definition more (l l' : log_file) (ls : list line) : Prop :=
  exists recs, lf_entries l' = lf_entries l ++ recs /\ omap line_of recs = ls.
Lemma more_refl l : more l l [].
Proof. exists []. by rewrite app_nil_r. Qed.
Lemma more_trans l1 l2 l3 a b : more l1 l2 a -> more l2 l3 b -> more l1 l3 (a ++ b).
Proof. intros (x & Hx & <-) (y & Hy & <-). exists (x ++ y). split; [by rewrite Hy, Hx, List.app_assoc|apply omap_app]. Qed.
Lemma more_write l e l' x : log_write l e = Some l' -> line_of e = Some x -> more l l' [x].
Proof. unfold log_write. destruct (write_state _ _); try done. intros H E. injection H as <-. exists [e]. split; [done|]. cbn. by rewrite E. Qed.

Section records.
Context (cfg : config).
Notation g := (cf_g cfg).

Lemma key_of n c : nodes g !! n = Some c -> task_key cfg n = c_key c.
Proof. intros H. unfold task_key. by rewrite H. Qed.
Lemma ready_records_more ready : forall l fl l' items, ready_records cfg ready l fl = Some (l', items) -> more l l' (map (ready_line cfg) ready).
Proof.
  induction ready as [|n ready IH]; intros l fl l' items H; cbn [ready_records] in H.
  - injection H as <- <-. apply more_refl.
  - destruct (nodes g !! n) as [c|] eqn:En; [|done]. destruct (write_ready cfg l c) as [l1|] eqn:E1; [|done].
    destruct (ready_records cfg ready l1 (S fl)) as [[l2 it2]|] eqn:E2; [|done]. injection H as <- <-.
    cbn [map]. change (ready_line cfg n :: map (ready_line cfg) ready) with ([ready_line cfg n] ++ map (ready_line cfg) ready).
    eapply more_trans; [|by eapply IH]. eapply more_write; [exact E1|]. unfold ready_line. by rewrite En.
Qed.
Lemma atrq_more sv ready sv' is os : add_to_ready_queue cfg sv ready = Some (sv', is, os) ->
  more (sv_log sv) (sv_log sv') (map (ready_line cfg) (readied os)) /\ sv_inflight sv' = sv_inflight sv.
Proof.
  unfold add_to_ready_queue. destruct ready as [|n ready].
  - intros H. injection H as <- <- <-. split; [apply more_refl|done].
  - destruct (N.leb _ _); [done|]. destruct (ready_records _ _ _ _) as [[l items]|] eqn:E; [|done]. destruct (sv_open sv); [|done].
    intros H. injection H as <- <- <-. split; [|done]. change (OReady n :: map OReady ready) with (map OReady (n :: ready)). rewrite readied_map. by eapply ready_records_more.
Qed.
Lemma fb2_more sv id st sv' is os : finished_bookkeeping_2 cfg sv id st = Some (sv', is, os) ->
  more (sv_log sv) (sv_log sv') (map (ready_line cfg) (readied os)) /\ sv_inflight sv' = sv_inflight sv.
Proof.
  unfold finished_bookkeeping_2. destruct (sv_soft sv).
  - destruct (sv_open sv); [done|]. intros H. injection H as <- <- <-. split; [apply more_refl|done].
  - destruct (visit_downstream _ _ _) as [[ss ready]|]; [|done]. intros H. apply atrq_more in H. exact H.
Qed.
Definition same (inf : gmap nat N) (o : gset nat) : Prop := forall n, is_Some (inf !! n) <-> n ∈ o.
Lemma log_finish_more l inf o id c st v l' : nodes g !! id = Some c -> same inf o -> log_finish cfg l inf id c st v = Some l' ->
  more l l' (transcript cfg o [Ended id st v]).
Proof.
  intros Hc Ho. unfold log_finish. cbn [transcript]. rewrite app_nil_r, (key_of _ _ Hc). destruct (inf !! id) as [x|] eqn:E.
  - intros H. rewrite decide_True by (apply Ho; by eexists). by eapply more_write.
  - rewrite decide_False by (intros X; apply Ho in X; rewrite E in X; by destruct X). destruct (write_started _ _ _ _ _ _) as [l1|] eqn:E1; [|done]. intros H.
    eapply more_trans; by eapply more_write.
Qed.
Lemma same_insert inf o n x : same inf o -> same (<[n := x]> inf) ({[n]} ∪ o).
Proof. intros H m. rewrite elem_of_union, elem_of_singleton, <- (H m). rewrite lookup_insert_is_Some. destruct (decide (n = m)); naive_solver. Qed.
Lemma same_delete inf o n : same inf o -> same (delete n inf) (o ∖ {[n]}).
Proof. intros H m. rewrite elem_of_difference, elem_of_singleton, <- (H m). rewrite lookup_delete_is_Some. naive_solver. Qed.

Lemma handle_started_more sv id h p j now sv' is os o : same (sv_inflight sv) o -> handle_started cfg sv id h p j now = Some (sv', is, os) ->
  more (sv_log sv) (sv_log sv') (transcript cfg o [Begun id h p j]) /\ same (sv_inflight sv') (open_step o (Begun id h p j)) /\ readied os = [].
Proof.
  intros Ho. unfold handle_started. destruct (nodes g !! id) as [c|] eqn:Ec; [|done]. destruct (write_started _ _ _ _ _ _) as [l|] eqn:El; [|done].
  destruct (sv_inflight sv !! id) eqn:Ei; [done|]. intros H. injection H as <- <- <-. split.
  - cbn [transcript]. rewrite app_nil_r, (key_of _ _ Ec). by eapply more_write.
  - split; [by apply same_insert|done].
Qed.
Lemma handle_finished_more sv id st v fl now sv' is os o : same (sv_inflight sv) o -> handle_finished cfg sv id st v fl now = Some (sv', is, os) ->
  more (sv_log sv) (sv_log sv') (map (ready_line cfg) (readied os) ++ transcript cfg o [Ended id st v]) /\ same (sv_inflight sv') (open_step o (Ended id st v)).
Proof.
  intros Ho. unfold handle_finished. destruct (nodes g !! id) as [c|] eqn:Ec; [|done].
  destruct (finished_bookkeeping_2 _ _ _ _) as [[[sv2 is2] os2]|] eqn:E2; [|done]. apply fb2_more in E2 as [M2 I2].
  assert (same (sv_inflight sv2) o) as Ho2 by (by rewrite I2).
  destruct (log_finish _ _ _ _ _ _ _) as [l|] eqn:El; [|done]. pose proof (log_finish_more _ _ _ _ _ _ _ _ Ec Ho2 El) as M3.
  intros H. injection H as <- _ <-.
  match goal with |- more _ _ (map _ (readied ?os) ++ _) /\ _ => assert (readied os = readied os2) as -> end.
  { change (OFinished id st (elapsed_of sv id now) :: ?x) with ([OFinished id st (elapsed_of sv id now)] ++ x). rewrite !readied_app.
    repeat match goal with |- context [if ?b then _ else _] => destruct b end; cbn; by rewrite ?app_nil_r. }
  pose proof (same_delete _ _ id Ho2) as Hd.
  assert (forall a b : server, sv_log a = l -> sv_inflight a = delete id (sv_inflight sv2) -> sv_log b = l -> sv_inflight b = delete id (sv_inflight sv2) ->
    forall x : bool, sv_log (if x then a else b) = l /\ sv_inflight (if x then a else b) = delete id (sv_inflight sv2)) as Hif by (intros a b ? ? ? ? []; done).
  match goal with |- more _ (sv_log ?z) _ /\ _ => assert (sv_log z = l /\ sv_inflight z = delete id (sv_inflight sv2)) as [-> ->] end.
  { apply Hif; cbn [with_closed sv_log sv_inflight]; repeat match goal with |- context [if ?b then _ else _] => destruct b end; done. }
  split; [|exact Hd]. eapply more_trans; [exact M2|exact M3].
Qed.
Lemma drain_events_more evs : forall sv q inf now sv' q' inf' os o, same inf o -> drain_events cfg evs sv q inf now = Some (sv', q', inf', os) ->
  more (sv_log sv) (sv_log sv') (transcript cfg o (map (fun e => masked (told_of e)) evs)) /\ same inf' (open_after o (map told_of evs)) /\ readied os = [].
Proof.
  induction evs as [|[id h p j|id st v fl] evs IH]; intros sv q inf now sv' q' inf' os o Ho H; cbn [drain_events] in H.
  - injection H as <- <- <- <-. split; [apply more_refl|done].
  - destruct (nodes g !! id) as [c|] eqn:Ec; [|done]. destruct (write_started _ _ _ _ _ _) as [l|] eqn:El; [|done]. destruct (inf !! id) eqn:Ei; [done|].
    destruct (drain_events _ _ _ _ _ _) as [[[[sv1 q1] inf1] os1]|] eqn:E; [|done]. injection H as <- <- <- <-.
    destruct (IH _ _ _ _ _ _ _ _ _ (same_insert _ _ id now Ho) E) as (M & S & R). split; [|done].
    cbn [map told_of masked transcript open_step]. eapply more_trans; [|exact M]. rewrite (key_of _ _ Ec). by eapply more_write.
  - destruct (nodes g !! id) as [c|] eqn:Ec; [|done]. destruct (dec_inflight q _) as [q0|]; [|done]. destruct (log_finish _ _ _ _ _ _ _) as [l|] eqn:El; [|done].
    destruct (drain_events _ _ _ _ _ _) as [[[[sv1 q1] inf1] os1]|] eqn:E; [|done]. injection H as <- <- <- <-.
    destruct (IH _ _ _ _ _ _ _ _ _ (same_delete _ _ id Ho) E) as (M & S & R). split; [|done].
    pose proof (log_finish_more _ _ _ _ _ _ _ _ Ec Ho El) as M1. cbn [transcript] in M1. rewrite app_nil_r in M1.
    cbn [map told_of masked transcript open_step]. eapply more_trans; [exact M1|exact M].
Qed.
Lemma drain_inflight_more order : forall sv q now sv' q' os, drain_inflight cfg order sv q now = Some (sv', q', os) ->
  more (sv_log sv) (sv_log sv') (map (fun n => LFinished (task_key cfg n) (-1) []) order) /\ readied os = [].
Proof.
  induction order as [|id order IH]; intros sv q now sv' q' os H; cbn [drain_inflight] in H.
  - injection H as <- <- <-. split; [apply more_refl|done].
  - destruct (nodes g !! id) as [c|] eqn:Ec; [|done]. destruct (dec_inflight q _) as [q0|]; [|done]. destruct (write_finished _ _ _ _ _) as [l|] eqn:El; [|done].
    destruct (drain_inflight _ _ _ _ _) as [[[sv1 q1] os1]|] eqn:E; [|done]. injection H as <- <- <-. destruct (IH _ _ _ _ _ _ E) as [M R]. split; [|done].
    cbn [map]. change (?x :: map ?f order) with ([x] ++ map f order). eapply more_trans; [|exact M]. rewrite (key_of _ _ Ec). by eapply more_write.
Qed.
Lemma reordering_set order inf o : is_reordering order (map fst (map_to_list inf)) = true -> same inf o -> NoDup order /\ forall n, n ∈ order <-> n ∈ o.
Proof.
  unfold is_reordering. rewrite !andb_true_iff, bool_decide_eq_true, Nat.eqb_eq, forallb_forall. intros ((Hnd & Hlen) & Hall) Ho. split; [done|].
  assert (order ⊆ map fst (map_to_list inf)) as Hsub.
  { intros n Hn. apply elem_of_list_In in Hn. apply Hall in Hn. apply existsb_exists in Hn as (m & Hm & E). apply Nat.eqb_eq in E as <-. by apply elem_of_list_In. }
  assert (NoDup (map fst (map_to_list inf))) as Hnd2 by apply NoDup_fst_map_to_list.
  assert (forall n, n ∈ map fst (map_to_list inf) <-> n ∈ o) as He.
  { intros n. rewrite <- (Ho n), elem_of_list_fmap. split.
    - intros ([k x] & -> & Hin). apply elem_of_map_to_list in Hin. cbn. by eexists.
    - intros [x Hx]. exists (n, x). split; [done|]. by apply elem_of_map_to_list. }
  intros n. rewrite <- He. split; [apply Hsub|]. intros Hn.

  assert (order ≡ₚ map fst (map_to_list inf)) as ->; [|done].
  apply submseteq_Permutation_length_le; [lia|]. apply NoDup_submseteq; [done|]. exact Hsub.
Qed.

(** ** The invariant *)
Definition Live (rs : list told) (s : st) (t : list obs) : Prop :=
  exists done ls, rs = done ++ map told_of (st_events s) /\ more (cf_log cfg) (sv_log (st_sv s)) ls /\
    List.filter nonready ls = transcript cfg ∅ done /\ List.filter says_ready ls = map (ready_line cfg) (readied t) /\
    same (sv_inflight (st_sv s)) (open_after ∅ done).
Definition Final (rs : list told) (s : st) (t : list obs) : Prop :=
  exists done rest order ls, rs = done ++ rest /\ more (cf_log cfg) (sv_log (st_sv s)) ls /\
    List.filter nonready ls = transcript cfg ∅ done ++ transcript cfg (open_after ∅ done) (map masked rest) ++ map (fun n => LFinished (task_key cfg n) (-1) []) order /\
    List.filter says_ready ls = map (ready_line cfg) (readied t) /\
    NoDup order /\ (forall n, n ∈ order <-> n ∈ open_after ∅ rs) /\ forallb ended (st_clients s) = true.
Definition RI (rs : list told) (s : st) (t : list obs) : Prop :=
  match st_phase s with PPanicked => True | PDrained => Final rs s t | _ => Live rs s t end.

Lemma live_frame rs s t s' t' : Live rs s t -> st_events s' = st_events s -> sv_log (st_sv s') = sv_log (st_sv s) ->
  sv_inflight (st_sv s') = sv_inflight (st_sv s) -> readied t' = [] -> Live rs s' (t ++ t').
Proof.
  intros (done & ls & H1 & H2 & H3 & H4 & H5) He Hl Hi Ht. exists done, ls. rewrite He, Hl, Hi, readied_app, Ht, app_nil_r. done.
Qed.
Lemma ended_insert cs c x : forallb ended cs = true -> cs !! c = Some x -> ended x = false -> False.
Proof. rewrite forallb_forall. intros H Hc Hx. rewrite (H x) in Hx; [done|]. apply elem_of_list_In. by eapply elem_of_list_lookup_2. Qed.
Lemma final_frame rs s t s' t' : Final rs s t -> st_sv s' = st_sv s -> st_clients s' = st_clients s -> readied t' = [] -> Final rs s' (t ++ t').
Proof.
  intros (done & rest & order & ls & H1 & H2 & H3 & H4 & H5 & H6 & H7) Hs Hc Ht. exists done, rest, order, ls. rewrite Hs, Hc, readied_app, Ht, app_nil_r. done.
Qed.
Lemma exec_instr_frame s i s' os : exec_instr s i = (s', os) -> st_events s' = st_events s /\ st_sv s' = st_sv s /\ readied os = [] /\
  (st_phase s' = st_phase s \/ st_phase s' = PPanicked \/ st_phase s' = PExited).
Proof.
  intros H. destruct i; cbn [exec_instr] in H; repeat match type of H with context [match ?c with _ => _ end] => destruct c end; unfold panic in H; injection H as <- <-; cbn; auto 10.
Qed.

Lemma ri_step rs s t a s' os : RI rs s t -> step cfg s a = Some (s', os) -> RI (rs ++ map snd (tells s a)) s' (t ++ os).
Proof.
  intros HI H. assert (forall p : phase, {st_phase s = p} + {st_phase s <> p}) as Hdec by (decide equality). destruct (Hdec PPanicked) as [Hp|Hp].
  { assert (st_phase s' = PPanicked) as E'; [|unfold RI; by rewrite E'].
    destruct a; cbn [step] in H; rewrite ?Hp in H; unfold server_idle in H; rewrite ?Hp in H; cbn [andb] in H;
      repeat match type of H with context [match ?c with _ => _ end] => destruct c end; try done; unfold panic in H; by injection H as <- <-. }
  destruct (Hdec PDrained) as [Hd|Hd]; clear Hdec.
  { unfold RI in HI. rewrite Hd in HI. pose proof HI as (done & rest & order & ls & H1 & H2 & H3 & H4 & H5 & H6 & H7).
    assert (forall c x, st_clients s !! c = Some x -> ended x = false -> False) as Hno by (intros; by eapply ended_insert).
    assert (st_phase s' = PDrained /\ st_sv s' = st_sv s /\ st_clients s' = st_clients s /\ readied os = [] /\ tells s a = []) as (P & S & C & R & T).
    { destruct a as [| | | | | | |c|c j|c|c|c|c h p jb|c x v fl|c| |]; cbn [step tells] in H |- *; rewrite ?Hd in H; unfold server_idle in H; rewrite ?Hd in H; cbn [andb] in H; try done.
      all: try (destruct (st_clients s !! c) as [x0|] eqn:Ec; [|done]; pose proof (Hno _ _ Ec) as Hx; destruct x0; try done; exfalso; by apply Hx).
      all: injection H as <- <-; done. }
    rewrite T. cbn [map]. rewrite app_nil_r. unfold RI. rewrite P. by eapply final_frame. }
  assert (Live rs s t) as HL by (unfold RI in HI; destruct (st_phase s); done).
  assert (forall x, Live (rs ++ x) s' (t ++ os) -> st_phase s' <> PDrained -> RI (rs ++ x) s' (t ++ os)) as Hgo.
  { intros x HX HN. unfold RI. destruct (st_phase s'); done. }
  destruct a as [order| |now| | | |order now|c|c j|c|c|c|c h p jb|c x v fl|c| |]; cbn [step tells] in H |- *; cbn [map]; rewrite ?app_nil_r.
  - destruct (st_phase s) eqn:Ep; try done. destruct (is_reordering _ _); [|done]. destruct (add_to_ready_queue _ _ _) as [[[sv is] os']|] eqn:E.
    + injection H as <- <-. apply atrq_more in E as [M I]. cbn [set_phase st_sv] in M, I. unfold RI. cbn [set_todo set_sv set_phase st_phase].
      destruct HL as (done & ls & H1 & H2 & H3 & H4 & H5). exists done, (ls ++ map (ready_line cfg) (readied os')). cbn [set_todo set_sv set_phase st_events st_sv].
      split; [done|]. split; [by eapply more_trans|]. rewrite !List.filter_app, ready_notnon, ready_ready, H3, H4, app_nil_r, I, readied_app, map_app. done.
    + injection H as <- <-. done.
  - destruct (st_phase s) eqn:Ep; try done; (destruct (st_todo s) as [|i rest]; [done|]); injection H as H; destruct (exec_instr_frame _ _ _ _ H) as (E1 & E2 & E3 & E4);
      cbn [set_todo st_events st_sv st_phase] in *; rewrite Ep in E4; unfold RI; (destruct E4 as [-> |[-> | ->]]; [|done|]); eapply live_frame; try done; by rewrite E2.
  - destruct (server_idle s) eqn:Es; [|done]. assert (st_phase s = PLoop) as Ep by (unfold server_idle in Es; by destruct (st_phase s)).
    destruct HL as (done & ls & H1 & H2 & H3 & H4 & H5). destruct (st_events s) as [|[id h p j|id st v fl] rest] eqn:Ee; [done|..].
    all: cbn [set_events st_sv] in H; injection H as H.
    + unfold server_result in H. destruct (handle_started _ _ _ _ _ _ _) as [[[sv is] os']|] eqn:E; [|by injection H as <- <-]. injection H as <- <-.
      destruct (handle_started_more _ _ _ _ _ _ _ _ _ _ H5 E) as (M & I & R). unfold RI. cbn [set_todo set_sv set_events st_phase]. rewrite Ep.
      exists (done ++ [Begun id h p j]), (ls ++ transcript cfg (open_after ∅ done) [Begun id h p j]). cbn [set_todo set_sv set_events st_events st_sv].
      split; [rewrite H1, <- List.app_assoc; done|]. split; [by eapply more_trans|]. rewrite !List.filter_app, transcript_nonready, transcript_notready, H3, H4, app_nil_r.
      rewrite transcript_app, readied_app, R, app_nil_r, open_app. done.
    + unfold server_result in H. destruct (handle_finished _ _ _ _ _ _ _) as [[[sv is] os']|] eqn:E; [|by injection H as <- <-]. injection H as <- <-.
      destruct (handle_finished_more _ _ _ _ _ _ _ _ _ _ H5 E) as (M & I). unfold RI. cbn [set_todo set_sv set_events st_phase]. rewrite Ep.
      exists (done ++ [Ended id st v]), (ls ++ map (ready_line cfg) (readied os') ++ transcript cfg (open_after ∅ done) [Ended id st v]). cbn [set_todo set_sv set_events st_events st_sv].
      split; [rewrite H1, <- List.app_assoc; done|]. split; [by eapply more_trans|].
      rewrite !List.filter_app, transcript_nonready, transcript_notready, ready_notnon, ready_ready, H3, H4, app_nil_r.
      rewrite transcript_app, readied_app, map_app, open_app. done.
  - destruct (server_idle s && st_soft_trigger s) eqn:Es; [|done]. injection H as <- <-. unfold RI. cbn. destruct (st_phase s); try done; by eapply live_frame.
  - destruct (server_idle s && st_hard s) eqn:Es; [|done]. injection H as <- <-. unfold RI. cbn. destruct (st_phase s); try done; by eapply live_frame.
  - destruct (server_idle s) eqn:Es; [|done]. injection H as <- <-. unfold RI. cbn. destruct (st_phase s); try done; by eapply live_frame.
  - destruct (st_phase s) eqn:Ep; try done. destruct (st_todo s); [|done]. destruct (forallb ended (st_clients s)) eqn:Ec; [|done].
    destruct (drain_events _ _ _ _ _ _) as [[[[sv0 q0] inf0] os0]|] eqn:E0; [|by injection H as <- <-].
    destruct (is_reordering _ _) eqn:Er; [|done]. unfold drain in H. rewrite E0, Er in H.
    destruct (drain_inflight _ _ _ _ _) as [[[sv1 q1] os1]|] eqn:E1; [|by injection H as <- <-]. injection H as <- <-.
    destruct HL as (done & ls & H1 & H2 & H3 & H4 & H5). destruct (drain_events_more _ _ _ _ _ _ _ _ _ _ H5 E0) as (M0 & S0 & R0).
    destruct (drain_inflight_more _ _ _ _ _ _ _ E1) as (M1 & R1). destruct (reordering_set _ _ _ Er S0) as [Hnd Hel].
    unfold RI. cbn [set_phase st_phase]. exists done, (map told_of (st_events s)), order,
      (ls ++ transcript cfg (open_after ∅ done) (map (fun e => masked (told_of e)) (st_events s)) ++ map (fun n => LFinished (task_key cfg n) (-1) []) order).
    cbn [set_phase set_events set_sv set_qstate st_sv st_clients]. split; [done|]. split.
    { eapply more_trans; [exact H2|]. eapply more_trans; [exact M0|exact M1]. }
    rewrite !List.filter_app, transcript_nonready, transcript_notready, H3, H4.
    assert (List.filter nonready (map (fun n => LFinished (task_key cfg n) (-1) []) order) = map (fun n => LFinished (task_key cfg n) (-1) []) order) as -> by (clear; induction order; cbn; congruence).
    assert (List.filter says_ready (map (fun n => LFinished (task_key cfg n) (-1) []) order) = []) as -> by (clear; by induction order).
    rewrite map_map, !readied_app, R0, R1, !app_nil_r. split; [done|]. split; [done|]. split; [done|]. split; [|done].
    intros n. rewrite Hel, H1, open_app. done.
  - destruct (st_clients s !! c) as [[]|], (cf_types cfg !! c); try done. destruct (st_closed s !! _) as [[]|]; try done; injection H as <- <-;
      (rewrite <- (app_nil_r rs); apply Hgo; [rewrite app_nil_r; by eapply live_frame|done]).
  - destruct (st_clients s !! c) as [[]|], (cf_types cfg !! c); try done. destruct (st_queues s !! _) as [q|]; [|done]. destruct (q !! j); [|done]. destruct (is_max _ _); [|done].
    injection H as <- <-; (rewrite <- (app_nil_r rs); apply Hgo; [rewrite app_nil_r; by eapply live_frame|done]).
  - destruct (st_clients s !! c) as [[]|], (cf_types cfg !! c); try done. match type of H with context [st_queues s !! ?i] => destruct (st_queues s !! i) as [[|]|], (st_closed s !! i) as [[]|]; try done end.
    injection H as <- <-; (rewrite <- (app_nil_r rs); apply Hgo; [rewrite app_nil_r; by eapply live_frame|done]).
  - destruct (st_clients s !! c) as [[]|]; try done. destruct (decide _); injection H as <- <-;
      (rewrite <- (app_nil_r rs); apply Hgo; [rewrite app_nil_r; by eapply live_frame|done]).
  - destruct (st_clients s !! c) as [[]|], (cf_types cfg !! c); try done. destruct (hand_out _ _); injection H as <- <-; [|done].
    (rewrite <- (app_nil_r rs); apply Hgo; [rewrite app_nil_r; by eapply live_frame|done]).
  - destruct (st_clients s !! c) as [[]|]; try done. injection H as <- <-. apply Hgo; [|done]. destruct HL as (done & ls & H1 & H2 & H3 & H4 & H5). exists done, ls.
    cbn [set_client set_events st_events st_sv map snd]. rewrite map_app, H1, readied_app, app_nil_r, <- List.app_assoc. done.
  - destruct (st_clients s !! c) as [[]|]; try done; injection H as <- <-; (apply Hgo; [|done]); destruct HL as (dn & ls & H1 & H2 & H3 & H4 & H5); exists dn, ls;
    cbn [set_client set_events st_events st_sv map snd]; rewrite map_app, H1, readied_app, app_nil_r, <- List.app_assoc; done.
  - destruct (st_clients s !! c) as [[]|]; try done; injection H as <- <-;
      (rewrite <- (app_nil_r rs); apply Hgo; [rewrite app_nil_r; by eapply live_frame|done]).
  - injection H as <- <-; (rewrite <- (app_nil_r rs); apply Hgo; [rewrite app_nil_r; by eapply live_frame|done]).
  - injection H as <- <-; (rewrite <- (app_nil_r rs); apply Hgo; [rewrite app_nil_r; by eapply live_frame|done]).
Qed.
Lemma ri_from acts : forall s rs t s' t', RI rs s t -> run cfg s acts = Some (s', t') -> RI (rs ++ map snd (reports cfg s acts)) s' (t ++ t').
Proof.
  induction acts as [|a acts IH]; intros s rs t s' t' HI H; cbn [run reports] in *.
  - injection H as <- <-. by rewrite !app_nil_r.
  - destruct (step cfg s a) as [[s1 os1]|] eqn:E; [|done]. destruct (run cfg s1 acts) as [[s2 os2]|] eqn:R; [|done]. injection H as <- <-.
    rewrite map_app, !List.app_assoc. eapply IH; [|done]. by apply ri_step.
Qed.
Lemma ri_run acts s t : run cfg (initial cfg) acts = Some (s, t) -> RI (map snd (reports cfg (initial cfg) acts)) s t.
Proof.
  intros H. apply (ri_from acts (initial cfg) [] [] s t); [|done]. cbn. exists [], []. split; [done|]. split; [apply more_refl|]. split; [done|]. split; [done|].
  intros n. cbn. rewrite lookup_empty. split; [by intros []|]. intros X. by apply elem_of_empty in X.
Qed.
Lemma new_lines_more s ls : more (cf_log cfg) (sv_log (st_sv s)) ls -> new_lines cfg s = ls.
Proof. intros (recs & H & <-). unfold new_lines. by rewrite H, drop_app. Qed.
End records.
