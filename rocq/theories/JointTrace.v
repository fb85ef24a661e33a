(** Hand-outs and flags in runs of the server and the tracker together. *)
From Verif Require Import JointSpec JointProofs JointInv SchedTrace SchedProps.
From Verif Require ServerProofs ServerTrace ServerSpec.
From Coq Require Import Lia.
From stdpp Require Import prelude.
Local Open Scope nat_scope.

(** ** A task that was delivered once is given to a runner at most once *)
Definition is_given (n : nat) (e : ServerModel.event) : bool :=
  match e with
  | ServerModel.EReply _ (ServerModel.RStart _ m) => Nat.eqb n m
  | ServerModel.EReply _ (ServerModel.REnd (Some (_, m))) => Nat.eqb n m
  | _ => false
  end.
Definition givings (n : nat) (evs : list ServerModel.event) : nat := length (List.filter (is_given n) evs).
Definition got_by (n : nat) (x : ServerModel.handler) : bool :=
  match x with ServerModel.HGot m _ _ _ | ServerModel.HTimed m _ _ _ _ _ => Nat.eqb n m | _ => false end.
Definition pending (n : nat) (s : ServerModel.server) : nat := ServerProofs.cnt (got_by n) (ServerModel.sv_handlers s).

Lemma gives_is_given tx n e : ServerSpec.gives tx n e -> is_given n e = true.
Proof. intros (h & [-> | ->]); cbn; apply Nat.eqb_refl. Qed.

Section http.
Context (secret : string).
Import ServerModel ServerProofs ServerSpec.
Lemma given_account n s l s' evs : step secret s l = Some (s', evs) -> pending n s' + givings n evs <= pending n s + tasks n evs.
Proof.
  intros H. unfold pending. destruct l; cbn [ServerModel.step] in H.
  - destruct (sv_handlers s !! h) eqn:Hh; [discriminate|]. unfold request_step in H.
    destruct (String.eqb token secret); [|unfold reply_now in H; simplify_eq; cbn; lia].
    destruct q; unfold start, begun, end_, ping, mark, reply_now in H; repeat case_match; simplify_eq; cbn; try lia.
    all: rewrite cnt_insert, delete_notin by done; cbn; repeat case_match; try discriminate; lia.
  - destruct (sv_handlers s !! h) as [x|] eqn:Hh; [|discriminate]. destruct x; try discriminate.
    destruct d; simplify_eq; cbn; rewrite ?cnt_insert, (cnt_delete _ (sv_handlers s) h _ Hh); cbn; repeat case_match; cbn; lia.
  - repeat case_match; simplify_eq; cbn;
    match goal with Hh : sv_handlers s !! h = Some _ |- _ => rewrite ?cnt_insert, (cnt_delete _ (sv_handlers s) h _ Hh); cbn; lia end.
  - repeat case_match; simplify_eq; cbn;
    match goal with Hh : sv_handlers s !! h = Some _ |- _ => rewrite ?cnt_insert, (cnt_delete _ (sv_handlers s) h _ Hh); cbn; lia end.
  - unfold run_step in H. destruct (sv_handlers s !! h) as [x|] eqn:Hh; [|discriminate]. destruct x; try discriminate.
    all: repeat case_match; simplify_eq; cbn; rewrite ?cnt_insert, (cnt_delete _ (sv_handlers s) h _ Hh); unfold givings, tasks, started_reply; cbn [got_by]; repeat (case_match; simplify_eq; cbn [List.filter is_given is_task got_by length app]); lia.
  - repeat case_match; simplify_eq; cbn;
    match goal with Hh : sv_handlers s !! h = Some _ |- _ => rewrite ?cnt_insert, (cnt_delete _ (sv_handlers s) h _ Hh); cbn; lia end.
  - repeat case_match; simplify_eq; cbn;
    match goal with Hh : sv_handlers s !! h = Some _ |- _ => rewrite ?cnt_insert, (cnt_delete _ (sv_handlers s) h _ Hh); cbn; lia end.
  - repeat case_match; simplify_eq; cbn; lia.
  - unfold reap_step in H. repeat case_match; simplify_eq; cbn; lia.
  - repeat case_match; simplify_eq. cbn. lia.
  - simplify_eq. cbn. lia.
  - simplify_eq. cbn. lia.
  - simplify_eq. cbn. lia.
Qed.
Lemma started_by_begun s l s' evs n host pid job : step secret s l = Some (s', evs) -> EStarted n host pid job ∈ evs ->
  exists h tx c, l = LRequest h secret (Some job) (QBegun tx host pid) /\ sv_conns s !! tx = Some c /\ c_node c = n.
Proof.
  intros H Hin. destruct l; cbn [ServerModel.step] in H.
  1: { destruct (sv_handlers s !! h); [discriminate|]. unfold request_step in H. destruct (String.eqb_spec token secret) as [->|]; [|unfold reply_now in H; simplify_eq; set_solver].
    destruct q; unfold start, begun, end_, ping, mark, reply_now in H; repeat case_match; simplify_eq; set_solver. }
  4: { exfalso. unfold run_step in H. destruct (sv_handlers s !! h) as [x|]; [|discriminate].
    destruct x; repeat case_match; simplify_eq; clear -Hin; unfold started_reply in *; repeat case_match; set_solver. }
  all: exfalso; unfold reap_step in H; repeat case_match; simplify_eq; clear -Hin; set_solver.
Qed.
Lemma givings_app n a b : givings n (a ++ b) = givings n a + givings n b.
Proof. unfold givings. by rewrite List.filter_app, app_length. Qed.
Lemma given_run n ls : forall s s' evs, run secret s ls = Some (s', evs) -> pending n s' + givings n evs <= pending n s + tasks n evs.
Proof.
  induction ls as [|l ls IH]; intros s s' evs H; cbn in H.
  { injection H as <- <-. cbn. lia. }
  destruct (step secret s l) as [[s1 e1]|] eqn:E; [|discriminate].
  destruct (run secret s1 ls) as [[s2 e2]|] eqn:E2; [|discriminate]. injection H as <- <-.
  pose proof (given_account n _ _ _ _ E). pose proof (IH _ _ _ E2). rewrite givings_app, tasks_app. lia.
Qed.
Lemma given_le_tasks n ls s evs : run secret server_new ls = Some (s, evs) -> givings n evs <= tasks n evs.
Proof. intros H. apply (given_run n) in H. unfold pending in H. cbn in H. unfold cnt in H. rewrite map_to_list_empty in H. cbn in H. lia. Qed.

(** Reports of starts come from /begun. *)
Lemma started_origin ls : forall s evs n host pid job, run secret server_new ls = Some (s, evs) -> EStarted n host pid job ∈ evs ->
  exists h tx e, LRequest h secret (Some job) (QBegun tx host pid) ∈ ls /\ e ∈ evs /\ gives tx n e.
Proof.
  induction ls as [|l ls IH] using rev_ind; intros s' evs0 n host pid job H Hin.
  { cbn in H. injection H as <- <-. by apply elem_of_nil in Hin. }
  apply ServerTrace.run_snoc in H as (s & evs & evs' & Hrun & H & ->). apply elem_of_app in Hin as [Hin|Hin].
  { destruct (IH _ _ _ _ _ _ Hrun Hin) as (h & tx & e & ? & ? & ?). exists h, tx, e. split; [apply elem_of_app; by left|]. split; [apply elem_of_app; by left|done]. }
  destruct (started_by_begun _ _ _ _ _ _ _ _ H Hin) as (h & tx & c & -> & Hc & <-).
  destruct (ServerTrace.so_conn _ _ _ _ (ServerTrace.sources_run secret ls s evs Hrun) _ _ Hc) as ((a & e & b & -> & Hg & _) & _).
  exists h, tx, e. split; [apply elem_of_app; right; by left|]. split; [|done]. apply elem_of_app. left. apply elem_of_app. right. by left.
Qed.
End http.

Lemma one_given n (evs : list ServerModel.event) e e' : givings n evs <= 1 -> e ∈ evs -> e' ∈ evs -> is_given n e = true -> is_given n e' = true -> e = e'.
Proof.
  unfold givings. intros H He He' Hg Hg'. apply elem_of_list_In in He, He'.
  assert (In e (List.filter (is_given n) evs)) as H1 by (by apply filter_In). assert (In e' (List.filter (is_given n) evs)) as H2 by (by apply filter_In).
  destruct (List.filter (is_given n) evs) as [|x [|y l]]; cbn in *; [done| |lia]. destruct H1 as [<-|[]], H2 as [<-|[]]. done.
Qed.

(** ** Both sides *)
Definition is_out (n : nat) (o : obs) : bool := match o with OHandedOut _ _ m => Nat.eqb n m | _ => false end.
Definition outs (n : nat) (os : list obs) : nat := length (List.filter (is_out n) os).
Lemma outs_app n a b : outs n (a ++ b) = outs n a + outs n b.
Proof. unfold outs. by rewrite List.filter_app, app_length. Qed.
Lemma outs_handed n os : outs n os = length (List.filter (Nat.eqb n) (handed os)).
Proof.
  induction os as [|o os IH]; [done|]. unfold outs, handed in *. cbn. destruct o; cbn; try done.
  destruct (Nat.eqb n n0); cbn; by rewrite IH.
Qed.
Lemma nodup_count n (l : list nat) : NoDup l -> length (List.filter (Nat.eqb n) l) <= 1.
Proof.
  induction 1 as [|x l Hx _ IH]; cbn; [lia|]. destruct (Nat.eqb_spec n x) as [->|]; [|done]. cbn.
  assert (List.filter (Nat.eqb x) l = []) as ->; [|cbn; lia].
  destruct (List.filter (Nat.eqb x) l) as [|y r] eqn:E; [done|]. exfalso. assert (In y (y :: r)) as Hy by (by left). rewrite <- E in Hy.
  apply filter_In in Hy as [Hy ->%Nat.eqb_eq]. by apply Hx, elem_of_list_In.
Qed.

Section joint.
Context (secret : string) (cfg : config) (nlocal : nat).
Local Notation jstep := (jstep secret cfg nlocal).
Local Notation jrun := (jrun secret cfg nlocal).

Lemma jrun_app a : forall b s s' t, jrun s (a ++ b) = Some (s', t) <->
  exists s1 t1 t2, jrun s a = Some (s1, t1) /\ jrun s1 b = Some (s', t2) /\ t = t1 ++ t2.
Proof.
  induction a as [|x a IH]; intros b s s' t; cbn [app JointModel.jrun].
  { split; [intros H; by exists s, [], t|]. intros (t1 & o1 & o2 & [= <- <-] & H & ->). done. }
  destruct (jstep s x) as [[s1 t1]|]; [|split; [done|]; by intros (? & ? & ? & ? & _)].
  split.
  - destruct (jrun s1 (a ++ b)) as [[s2 t2]|] eqn:E; [|done]. intros [= <- <-].
    apply IH in E as (s3 & t3 & t4 & E1 & E2 & ->). rewrite E1. eexists _, _, _. split; [reflexivity|]. split; [done|]. by rewrite List.app_assoc.
  - intros (s2 & t2 & t3 & H1 & H2 & ->). destruct (jrun s1 a) as [[s3 t4]|] eqn:E; [|done]. injection H1 as <- <-.
    assert (jrun s1 (a ++ b) = Some (s', t4 ++ t3)) as -> by (apply IH; eauto 10). by rewrite List.app_assoc.
Qed.
Lemma jrun_one s a s' t : jstep s a = Some (s', t) -> jrun s [a] = Some (s', t).
Proof. intros H. cbn [JointModel.jrun]. by rewrite H, app_nil_r. Qed.

(** What a step adds on each side. *)
Lemma jstep_sides s a s' t : jstep s a = Some (s', t) -> exists os evs, t = map inl os ++ map inr evs /\
  (exists ta, run cfg (j_tracker s) ta = Some (j_tracker s', os)) /\
  (forall n, ServerSpec.tasks n evs <= outs n os).
Proof.
  intros H. destruct a as [a|h a|l c| |c]; cbn [JointModel.jstep] in H.
  - destruct (match client_of a with Some _ => _ | None => _ end); [|done].
    destruct (step cfg (j_tracker s) a) as [[u os]|] eqn:E; [|done]. injection H as <- <-. exists os, []. rewrite app_nil_r. split; [done|].
    split; [exists [a]; by apply trun_one|]. cbn. lia.
  - destruct (j_recv s !! h) as [c|]; [|done]. destruct (recv_action c a) eqn:Ha; [|done].
    destruct (step cfg (j_tracker s) a) as [[u os]|] eqn:E; [|done]. destruct (returned os) as [d|] eqn:Hd.
    2: { injection H as <- <-. exists os, []. rewrite app_nil_r. split; [done|]. split; [exists [a]; by apply trun_one|]. cbn. lia. }
    destruct (ServerModel.step secret (j_http s) (ServerModel.LDeliver h d)) as [[sv evs]|] eqn:Eh; [|done]. injection H as <- <-.
    exists os, evs. split; [done|]. split; [exists [a]; by apply trun_one|]. intros n. cbn [ServerModel.step] in Eh. repeat case_match; simplify_eq; cbn; try lia.
    destruct (recv_step _ _ _ _ _ _ E Ha) as (_ & [(Hr & _)|[(i' & m & -> & _)|(e & -> & _)]]).
    + rewrite Hr in Hd. done.
    + cbn in Hd. injection Hd as ->. unfold ServerSpec.tasks, outs. cbn. destruct (Nat.eqb n node); cbn; lia.
    + destruct e; done.
  - destruct (j_closed s || is_deliver l || negb (flag_ok s l)) eqn:Hg; [done|]. apply orb_false_iff in Hg as [[_ Hd]%orb_false_iff _].
    destruct (ServerModel.step secret (j_http s) l) as [[sv evs]|] eqn:Eh; [|done].
    destruct (send_all cfg nlocal (j_tracker s) c (j_next s) evs) as [[t1 os1]|] eqn:Es; [|done].
    destruct (new_flags s l evs) as [flags next]. destruct (send_all_spec _ _ _ _ _ _ _ _ Es) as ((ta & Hr) & _).
    assert (forall n os, ServerSpec.tasks n evs <= outs n os) as Ht. { intros n os. destruct (no_task secret n _ _ _ _ Eh Hd) as [-> _]. lia. }
    destruct (label_handler l) as [h|]; [|injection H as <- <-; exists os1, evs; split; [done|]; split; [by exists ta|auto]].
    destruct (waiting (j_http s) h), (waiting sv h); [injection H as <- <-; exists os1, evs; split; [done|]; split; [by exists ta|auto]| | |injection H as <- <-; exists os1, evs; split; [done|]; split; [by exists ta|auto]].
    + destruct (j_recv s !! h) as [c'|]; [|done]. destruct (step cfg t1 (ADrop c')) as [[t2 os2]|] eqn:Ed; [|done]. injection H as <- <-.
      exists (os1 ++ os2), evs. split; [done|]. split; [|auto]. exists (ta ++ [ADrop c']). apply trun_app. eexists _, _, _. split; [done|]. split; [by apply trun_one|done].
    + destruct (can_attach _ _ _ _ _ _); [|done]. injection H as <- <-; exists os1, evs; split; [done|]; split; [by exists ta|auto].
  - exists [], []. repeat case_match; simplify_eq; (split; [done|]); (split; [by exists []|done]).
  - destruct (j_closed s && Nat.leb nlocal c); [|done]. destruct (step cfg (j_tracker s) (ADrop c)) as [[u os]|] eqn:E; [|done]. injection H as <- <-.
    exists os, []. rewrite app_nil_r. split; [done|]. split; [exists [ADrop c]; by apply trun_one|]. cbn. lia.
Qed.

Lemma jrun_tasks acts : forall s s' t n, jrun s acts = Some (s', t) -> ServerSpec.tasks n (http_side t) <= outs n (tracker_side t).
Proof.
  induction acts as [|a acts IH]; intros s s' t n H; cbn [JointModel.jrun] in H.
  { injection H as <- <-. done. }
  destruct (jstep s a) as [[s1 t1]|] eqn:E; [|done]. destruct (jrun s1 acts) as [[s2 t2]|] eqn:E2; [|done]. injection H as <- <-.
  destruct (jstep_sides _ _ _ _ E) as (os & evs & -> & _ & Ht). specialize (Ht n). specialize (IH _ _ _ n E2).
  rewrite !tracker_side_app, !http_side_app, tracker_side_l, tracker_side_r, http_side_l, http_side_r, app_nil_r, app_nil_l, outs_app, ServerProofs.tasks_app. lia.
Qed.

(** ** Flags *)
Lemma exec_flags s i f : f ∈ st_flags (exec_instr s i).1 -> f ∈ st_flags s \/ exists n, OFlag n f ∈ (exec_instr s i).2.
Proof.
  destruct i; cbn; repeat case_match; cbn; try (by left). intros [->%elem_of_singleton|]%elem_of_union; [|by left]. right. eexists. by left.
Qed.
Lemma result_flags s r : st_flags (server_result s r).1 = st_flags s.
Proof. unfold server_result. by destruct r as [[[]]|]. Qed.
Lemma trun_flags acts : forall s s' os f, run cfg s acts = Some (s', os) -> f ∈ st_flags s' -> f ∈ st_flags s \/ exists n, OFlag n f ∈ os.
Proof.
  induction acts as [|a acts IH]; intros s s' os f H Hf; cbn [run] in H.
  { injection H as <- <-. by left. }
  destruct (step cfg s a) as [[s1 o1]|] eqn:E; [|done]. destruct (run cfg s1 acts) as [[s2 o2]|] eqn:E2; [|done]. injection H as <- <-.
  destruct (IH _ _ _ _ E2 Hf) as [Hf1|(n & ?)]; [|right; exists n; apply elem_of_app; by right]. clear IH E2.
  assert (f ∈ st_flags s \/ exists n, OFlag n f ∈ o1) as [|(n & ?)]; [|by left|right; exists n; apply elem_of_app; by left].
  destruct a; cbn [SchedModel.step] in E; unfold leave, panic in E; repeat case_match; simplify_eq; try (by left).
  all: try (cbn in Hf1; by left).
  all: first [
    match goal with H : exec_instr ?x ?i = _ |- _ => pose proof (exec_flags x i f) as Hx; rewrite H in Hx end; auto
    |left; match goal with H : server_result ?x ?r = _ |- _ => pose proof (result_flags x r) as Hx; rewrite H in Hx end; cbn in Hx; by rewrite <- Hx].
Qed.

Lemma send_quiet evs : forall t c f, (forall e, e ∈ evs -> ~ is_message e) -> send_all cfg nlocal t c f evs = Some (t, []).
Proof.
  induction evs as [|e evs IH]; intros t c f H; [done|]. cbn [send_all].
  assert (send cfg nlocal t c f e = Some (t, [])) as ->. { assert (~ is_message e) as He by (apply H; by left). destruct e; cbn in He |- *; tauto. }
  rewrite IH; [done|]. intros e' He'. apply H. by right.
Qed.
Lemma finished_by_run s l s' evs n rep : ServerModel.step secret s l = Some (s', evs) -> ServerModel.EFinished n (inl rep) ∈ evs ->
  exists h tx rest, l = ServerModel.LRun h tx /\ evs = ServerModel.EFinished n (inl rep) :: rest /\ forall e, e ∈ rest -> ~ is_message e.
Proof.
  intros H Hin. destruct l; cbn [ServerModel.step] in H.
  1: { destruct (ServerModel.sv_handlers s !! h) eqn:E; [discriminate|]. unfold ServerModel.request_step in H. destruct (String.eqb token secret); [|unfold ServerModel.reply_now in H; simplify_eq; set_solver].
    destruct q; unfold ServerModel.start, ServerModel.begun, ServerModel.end_, ServerModel.ping, ServerModel.mark, ServerModel.reply_now in H; repeat case_match; simplify_eq; set_solver. }
  4: { unfold ServerModel.run_step in H. destruct (ServerModel.sv_handlers s !! h) as [y|] eqn:E; [|discriminate].
    destruct y; repeat case_match; simplify_eq.
    all: try (exfalso; clear -Hin; unfold ServerModel.started_reply in Hin; repeat case_match; set_solver).
    all: eexists _, _, _; split; [reflexivity|].
    - assert (n = ServerModel.c_node c /\ rep = rep0) as [-> ->].
      { clear -Hin. by apply elem_of_list_singleton in Hin as [= -> ->]. }
      split; [done|]. intros e He. by apply elem_of_nil in He.
    - apply elem_of_cons in Hin as [[= -> ->]|Hin]; [|by apply elem_of_list_singleton in Hin].
      split; [done|]. intros e ->%elem_of_list_singleton. cbn. tauto. }
  all: exfalso; unfold ServerModel.reap_step in H; repeat case_match; simplify_eq; clear -Hin; set_solver.
Qed.

Lemma jhttp_parts s l c s' t : jstep s (JHttp l c) = Some (s', t) -> exists evs t1 os1,
  is_deliver l = false /\ flag_ok s l = true /\ j_closed s = false /\
  ServerModel.step secret (j_http s) l = Some (j_http s', evs) /\ send_all cfg nlocal (j_tracker s) c (j_next s) evs = Some (t1, os1) /\
  (j_flags s', j_next s') = new_flags s l evs /\ exists os2, t = map inl (os1 ++ os2) ++ map inr evs /\ os2 = [].
Proof.
  intros H. cbn [JointModel.jstep] in H. destruct (j_closed s) eqn:Hcl; [done|]. destruct (is_deliver l) eqn:Hd; [done|]. destruct (flag_ok s l) eqn:Hf; [|done]. cbn [orb negb] in H.
  destruct (ServerModel.step secret (j_http s) l) as [[sv evs]|] eqn:Eh; [|done].
  destruct (send_all cfg nlocal (j_tracker s) c (j_next s) evs) as [[t1 os1]|] eqn:Es; [|done].
  destruct (new_flags s l evs) as [flags next] eqn:En. exists evs, t1, os1. split; [done|]. split; [done|]. split; [done|].
  destruct (label_handler l) as [h|].
  2: { injection H as <- <-. split; [done|]. split; [done|]. split; [done|]. exists []. by rewrite app_nil_r. }
  destruct (waiting (j_http s) h) as [i|], (waiting sv h) as [i'|].
  - injection H as <- <-. split; [done|]. split; [done|]. split; [done|]. exists []. by rewrite app_nil_r.
  - destruct (j_recv s !! h) as [c'|]; [|done]. destruct (step cfg t1 (ADrop c')) as [[t2 os2]|] eqn:Ed; [|done]. injection H as <- <-.
    split; [done|]. split; [done|]. split; [done|]. exists os2. split; [done|]. by apply drop_step in Ed as [-> _].
  - destruct (can_attach _ _ _ _ _ _); [|done]. injection H as <- <-. split; [done|]. split; [done|]. split; [done|]. exists []. by rewrite app_nil_r.
  - injection H as <- <-. split; [done|]. split; [done|]. split; [done|]. exists []. by rewrite app_nil_r.
Qed.

(** The finish reports that carry a flag. *)
Lemma flag_sent s a s' t c n x f : jstep s a = Some (s', t) -> OSentFinished c n x (Some f) ∈ tracker_side t ->
  f = j_next s /\ j_next s' = S (j_next s) /\ (exists rep, inr (ServerModel.EFinished n (inl rep)) ∈ t) /\
  forall c' n' x' f', OSentFinished c' n' x' (Some f') ∈ tracker_side t -> n' = n /\ x' = x.
Proof.
  intros H Hin. destruct a as [a|h a|l c0| |c0].
  - cbn [JointModel.jstep] in H. destruct (match client_of a with Some c => _ | None => true end) eqn:Ha; [|done].
    destruct (step cfg (j_tracker s) a) as [[u os]|] eqn:E; [|done]. injection H as <- <-. rewrite tracker_side_l in Hin.
    pose proof (step_origin cfg _ _ _ _ E) as F. rewrite Forall_forall in F. apply F in Hin as (_ & _ & v & ->). cbn in Ha. by rewrite andb_false_r in Ha.
  - cbn [JointModel.jstep] in H. destruct (j_recv s !! h) as [c1|]; [|done]. destruct (recv_action c1 a) eqn:Ha; [|done].
    destruct (step cfg (j_tracker s) a) as [[u os]|] eqn:E; [|done].
    assert (tracker_side t = os) as Ht. { repeat case_match; simplify_eq; rewrite ?tracker_side_app, tracker_side_l, ?tracker_side_r, ?app_nil_r; done. }
    rewrite Ht in Hin. by eapply recv_obs in Hin.
  - apply jhttp_parts in H as (evs & t1 & os1 & Hd & _ & _ & Eh & Es & En & os2 & -> & ->). rewrite app_nil_r in *.
    rewrite tracker_side_app, tracker_side_l, tracker_side_r, app_nil_r in *.
    destruct (send_all_spec _ _ _ _ _ _ _ _ Es) as (_ & _ & _ & _ & _ & _ & Hos). pose proof (Hos _ Hin) as (_ & how & Hhow & Hx).
    assert (exists rep, how = inl rep /\ f = j_next s /\ forall c' n' x' f', OSentFinished c' n' x' (Some f') ∈ os1 -> n' = n /\ x' = x) as (rep & -> & -> & Hu).
    { destruct (messages secret _ _ _ _ Eh Hd) as [Hm|(_ & e & rest & -> & Hrest & _)].
      { exfalso. by apply (Hm _ Hhow). }
      apply elem_of_cons in Hhow as [<-|Hr]; [|exfalso; by apply (Hrest _ Hr)].
      cbn [send_all] in Es. destruct (send cfg nlocal (j_tracker s) c0 (j_next s) (ServerModel.EFinished n how)) as [[t2 o2]|] eqn:E2; [|done].
      rewrite send_quiet in Es by done. injection Es as <- <-. rewrite app_nil_r in *. apply send_spec in E2 as (_ & _ & Hs & (fl & ->) & _).
      apply elem_of_list_singleton in Hin. destruct how as [rep|]; cbn [report_action] in Hs; cbn [SchedModel.step] in Hs; repeat case_match; simplify_eq;
      (exists rep; split; [done|]; split; [done|]; intros c' n' x' f' Hi%elem_of_list_singleton; by simplify_eq). }
    destruct (finished_by_run _ _ _ _ _ _ Eh Hhow) as (h & tx & rest & -> & -> & _). cbn in En. injection En as Ef En.
    split; [done|]. split; [done|]. split; [|done]. exists rep. apply elem_of_app. right. apply elem_of_list_fmap. eexists. split; [reflexivity|]. by left.
  - exfalso. cbn [JointModel.jstep] in H. assert (t = []) as -> by (repeat case_match; simplify_eq; done). by apply elem_of_nil in Hin.
  - exfalso. cbn [JointModel.jstep] in H. destruct (_ && _); [|done]. destruct (step cfg (j_tracker s) (ADrop c0)) as [[u os]|] eqn:Ed; [|done]. injection H as <- <-.
    apply drop_step in Ed as [-> _]. by apply elem_of_nil in Hin.
Qed.
Lemma next_mono s a s' t : jstep s a = Some (s', t) -> j_next s <= j_next s'.
Proof.
  intros H. destruct a as [a|h a|l c| |c].
  - cbn in H. repeat case_match; simplify_eq; done.
  - cbn in H. repeat case_match; simplify_eq; done.
  - apply jhttp_parts in H as (evs & t1 & os1 & _ & _ & _ & _ & _ & En & _). unfold new_flags in En. repeat case_match; injection En as ? ?; lia.
  - cbn in H. repeat case_match; simplify_eq; done.
  - cbn in H. repeat case_match; simplify_eq; done.
Qed.
Lemma flags_run acts : forall s t, jreachable secret cfg nlocal acts s t ->
  (forall c n x f, OSentFinished c n x (Some f) ∈ tracker_side t -> f < j_next s) /\
  (forall c n x f c' n' x', OSentFinished c n x (Some f) ∈ tracker_side t -> OSentFinished c' n' x' (Some f) ∈ tracker_side t -> n = n' /\ x = x').
Proof.
  induction acts as [|a acts IH] using rev_ind; intros s t H; unfold jreachable in H.
  { cbn in H. injection H as <- <-. split; intros *; cbn; intros Hi; by apply elem_of_nil in Hi. }
  apply jrun_snoc in H as (s1 & t1 & t2 & H1 & H2 & ->). destruct (IH _ _ H1) as [I1 I2]. clear IH. rewrite !tracker_side_app. split.
  - intros c n x f [Hi|Hi]%elem_of_app.
    + apply I1 in Hi. pose proof (next_mono _ _ _ _ H2). lia.
    + destruct (flag_sent _ _ _ _ _ _ _ _ H2 Hi) as (-> & -> & _). lia.
  - intros c n x f c' n' x' [Hi|Hi]%elem_of_app [Hi'|Hi']%elem_of_app.
    + by eapply I2.
    + apply I1 in Hi. destruct (flag_sent _ _ _ _ _ _ _ _ H2 Hi') as (-> & _). lia.
    + apply I1 in Hi'. destruct (flag_sent _ _ _ _ _ _ _ _ H2 Hi) as (-> & _). lia.
    + destruct (flag_sent _ _ _ _ _ _ _ _ H2 Hi) as (_ & _ & _ & Hu). destruct (Hu _ _ _ _ Hi') as [-> ->]. done.
Qed.

(** The flag of a handler changes only with a step of the handler. *)
Lemma flag_kept acts : forall s s' t h, jrun s acts = Some (s', t) -> (forall l c, JHttp l c ∈ acts -> label_handler l <> Some h) ->
  j_flags s' !! h = j_flags s !! h.
Proof.
  induction acts as [|a acts IH]; intros s s' t h H Hn; cbn [JointModel.jrun] in H.
  { by injection H as <- <-. }
  destruct (jstep s a) as [[s1 t1]|] eqn:E; [|done]. destruct (jrun s1 acts) as [[s2 t2]|] eqn:E2; [|done]. injection H as <- <-.
  rewrite (IH _ _ _ _ E2) by (intros l c Hl; eapply Hn; by right). clear IH E2.
  destruct a as [a|h0 a|l c| |c].
  - cbn in E. repeat case_match; simplify_eq; done.
  - cbn in E. repeat case_match; simplify_eq; done.
  - apply jhttp_parts in E as (evs & t3 & os1 & _ & _ & _ & _ & _ & En & _). assert (label_handler l <> Some h) as Hl by (eapply Hn; by left).
    unfold new_flags in En. destruct l; repeat case_match; injection En as -> _; try done. apply lookup_insert_ne. cbn in Hl. congruence.
  - cbn in E. repeat case_match; simplify_eq; done.
  - cbn in E. repeat case_match; simplify_eq; done.
Qed.
End joint.
