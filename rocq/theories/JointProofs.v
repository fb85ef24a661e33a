(** Proofs about the server and the tracker together. *)
From Verif Require Import JointSpec SchedProps.
From Verif Require ServerProofs ServerTrace.
From Coq Require Import Lia.
From stdpp Require Import prelude.
Local Open Scope nat_scope.

(** ** What a step of the tracker does to the clients *)
Section tracker.
Context (cfg : config).
Local Notation step := (step cfg).

Lemma exec_clients s i : st_clients (exec_instr s i).1 = st_clients s.
Proof. destruct i; simpl; repeat case_match; done. Qed.
Lemma result_clients s r : st_clients (server_result s r).1 = st_clients s.
Proof. unfold server_result. by destruct r as [[[]]|]. Qed.
Lemma others_clients s a s' os : step s a = Some (s', os) -> client_of a = None -> st_clients s' = st_clients s.
Proof.
  intros H Ha. destruct a; try discriminate; cbn [SchedModel.step] in H; unfold leave, panic in H.
  - repeat case_match; simplify_eq; done.
  - repeat case_match; simplify_eq; match goal with H : exec_instr ?x ?i = _ |- _ => pose proof (exec_clients x i) as E; rewrite H in E; done end.
  - repeat case_match; simplify_eq; match goal with H : server_result ?x ?i = _ |- _ => pose proof (result_clients x i) as E; rewrite H in E; done end.
  - repeat case_match; simplify_eq; done.
  - repeat case_match; simplify_eq; done.
  - repeat case_match; simplify_eq; done.
  - repeat case_match; simplify_eq; done.
  - simplify_eq. done.
  - simplify_eq. done.
Qed.
Lemma client_step s a s' os c : step s a = Some (s', os) -> client_of a = Some c ->
  c < length (st_clients s) /\ (st_clients s' = st_clients s /\ os = [OPanic] \/ exists x, st_clients s' = <[c := x]> (st_clients s)).
Proof.
  intros H Ha.
  destruct a; try discriminate; cbn in Ha; injection Ha as ->; cbn [SchedModel.step] in H; unfold panic in H.
  all: repeat case_match; simplify_eq; (split; [by eapply lookup_lt_Some|]).
  all: first [by left|right; eexists; reflexivity].
Qed.
End tracker.

Definition is_recv (x : cstate) : bool := match x with CIdle | CWait | CPopped _ | CClaimed _ => true | _ => false end.
Lemma recv_step cfg t a t' os c : step cfg t a = Some (t', os) -> recv_action c a = true ->
  (exists x, st_clients t !! c = Some x /\ is_recv x = true) /\
  ((returned os = None /\ (st_clients t' = st_clients t \/ exists y, is_recv y = true /\ st_clients t' = <[c := y]> (st_clients t))) \/
   (exists i n, os = [OHandedOut c i n] /\ st_clients t' = <[c := CHolding n]> (st_clients t)) \/
   (exists e, os = [ORecvErr c e] /\ st_clients t' = <[c := CGone]> (st_clients t))).
Proof.
  intros H Ha. destruct a; try discriminate; cbn in Ha; apply Nat.eqb_eq in Ha; subst; cbn [SchedModel.step] in H; unfold panic in H.
  all: repeat case_match; simplify_eq; (split; [eexists; split; [done|done]|]).
  all: first [left; split; [done|]; first [by left|right; eexists; split; [|reflexivity]; done]
             |right; left; eexists _, _; split; reflexivity|right; right; eexists; split; reflexivity].
Qed.

(** ** Counting the clients that have a task *)
Definition b2n (b : bool) : nat := if b then 1 else 0.
Lemma filter_seq_change f f' m c : c < m -> (forall i, i <> c -> f i = f' i) ->
  length (List.filter f (seq 0 m)) + b2n (f' c) = length (List.filter f' (seq 0 m)) + b2n (f c).
Proof.
  induction m as [|m IH]; intros Hc Hf; [lia|].
  rewrite seq_S, !List.filter_app, !app_length. cbn [List.filter Nat.add].
  destruct (decide (c = m)) as [->|Hne].
  - assert (List.filter f (seq 0 m) = List.filter f' (seq 0 m)) as ->.
    { apply filter_ext_in. intros i Hi%in_seq. apply Hf. lia. }
    destruct (f m), (f' m); cbn; lia.
  - specialize (IH ltac:(lia) Hf). rewrite (Hf m) by done. destruct (f' m); cbn; lia.
Qed.

Section counting.
Context (nlocal : nat).
Definition holders (n : nat) (t : st) : nat :=
  length (List.filter (fun c => Nat.leb nlocal c && holds t c n) (seq 0 (length (st_clients t)))).
Definition has (n : nat) (x : cstate) : bool := match x with CHolding m | CRunning m => Nat.eqb n m | _ => false end.
Lemma holders_same n t t' : st_clients t' = st_clients t -> holders n t' = holders n t.
Proof. intros E. unfold holders, holds. by rewrite E. Qed.
Lemma holders_change n t t' c x y : st_clients t !! c = Some x -> st_clients t' = <[c := y]> (st_clients t) ->
  holders n t' + b2n (Nat.leb nlocal c && has n x) = holders n t + b2n (Nat.leb nlocal c && has n y).
Proof.
  intros Hx E. unfold holders. rewrite E, insert_length.
  assert (holds t c n = has n x) as <-. { unfold holds. by rewrite Hx. }
  assert (holds t' c n = has n y) as <-. { unfold holds. rewrite E, list_lookup_insert by (by eapply lookup_lt_Some). done. }
  assert (forall i, i <> c -> (Nat.leb nlocal i && holds t' i n) = (Nat.leb nlocal i && holds t i n)) as Hi.
  { intros i Hi. unfold holds. rewrite E, list_lookup_insert_ne by done. done. }
  exact (filter_seq_change (fun i => Nat.leb nlocal i && holds t' i n) _ _ c (lookup_lt_Some _ _ _ Hx) Hi).
Qed.
Lemma holders_pos n t : 0 < holders n t -> exists c x, nlocal <= c /\ st_clients t !! c = Some x /\ has n x = true.
Proof.
  unfold holders. destruct (List.filter _ _) as [|c l] eqn:E; cbn; [lia|]. intros _.
  assert (In c (c :: l)) as H by (by left). rewrite <- E in H. apply filter_In in H as [_ H].
  apply andb_true_iff in H as [H1%Nat.leb_le H2]. unfold holds in H2. exists c.
  destruct (st_clients t !! c) as [x|]; [|discriminate]. exists x. split; [done|]. split; [done|]. destruct x; done.
Qed.
End counting.

(** ** What a step of the server does to its handlers *)
Section http.
Context (secret : string).
Import ServerModel.
Local Notation step := (ServerModel.step secret).

Lemma other_handlers s l s' evs h : step s l = Some (s', evs) -> label_handler l <> Some h ->
  sv_handlers s' !! h = sv_handlers s !! h.
Proof.
  intros H Hh. destruct l; cbn [ServerModel.step] in H; cbn in Hh.
  1: { destruct (sv_handlers s !! h0); [discriminate|]. unfold request_step in H. destruct (String.eqb token secret); [|by unfold reply_now in H; simplify_eq].
    destruct q; unfold start, begun, end_, ping, mark, reply_now in H; repeat case_match; simplify_eq; cbn; try done;
    by rewrite lookup_insert_ne by congruence. }
  all: unfold run_step, reap_step in H; repeat case_match; simplify_eq; cbn; try done;
    rewrite ?lookup_insert_ne, ?lookup_delete_ne by congruence; done.
Qed.
Lemma other_waiting s l s' evs h : step s l = Some (s', evs) -> label_handler l <> Some h -> waiting s' h = waiting s h.
Proof. intros H Hh. unfold waiting. by rewrite (other_handlers _ _ _ _ _ H Hh). Qed.
Lemma waiting_ends s l s' evs h i : step s l = Some (s', evs) -> label_handler l = Some h -> waiting s h = Some i -> waiting s' h = None.
Proof.
  intros H Hh Hw. unfold waiting in Hw. destruct (sv_handlers s !! h) as [x|] eqn:E; [|discriminate]. destruct x; try discriminate.
  unfold waiting. destruct l; cbn in Hh; try discriminate; injection Hh as ->; cbn [ServerModel.step] in H; unfold run_step in H; rewrite E in H; try discriminate.
  all: repeat case_match; simplify_eq; cbn; try done;
  match goal with H : sv_handlers (_ _ _) !! _ = Some _ |- _ => cbn in H; rewrite ?lookup_insert, ?lookup_delete in H; done end.
Qed.

Definition got (x : handler) : option nat := match x with HGot n _ _ _ | HTimed n _ _ _ _ _ => Some n | _ => None end.
Lemma got_origin s l s' evs h x n : step s l = Some (s', evs) -> is_deliver l = false ->
  sv_handlers s' !! h = Some x -> got x = Some n -> exists y, sv_handlers s !! h = Some y /\ got y = Some n.
Proof.
  intros H Hd Hx Hg. destruct (decide (label_handler l = Some h)) as [Hl|Hl].
  2: { rewrite (other_handlers _ _ _ _ _ H Hl) in Hx. eauto. }
  destruct l; cbn in Hl; try discriminate; injection Hl as ->; cbn [ServerModel.step] in H.
  1: { destruct (sv_handlers s !! h) eqn:E; [discriminate|]. unfold request_step in H. destruct (String.eqb token secret); [|unfold reply_now in H; simplify_eq].
    destruct q; unfold start, begun, end_, ping, mark, reply_now in H; repeat case_match; simplify_eq; cbn in Hx; rewrite ?lookup_insert in Hx; simplify_eq; done. }
  all: unfold run_step in H; destruct (sv_handlers s !! h) as [y|] eqn:E; [|repeat case_match; discriminate]; 
    repeat case_match; simplify_eq; cbn in Hx; rewrite ?lookup_insert, ?lookup_delete in Hx; simplify_eq; try done; eexists; done.
Qed.
Lemma gives_origin s l s' evs e tx n : step s l = Some (s', evs) -> e ∈ evs -> ServerSpec.gives tx n e ->
  is_deliver l = false /\ exists h y, sv_handlers s !! h = Some y /\ got y = Some n.
Proof.
  intros H He (h0 & Hg). destruct l; cbn [ServerModel.step] in H.
  1: { destruct (sv_handlers s !! h); [discriminate|]. unfold request_step in H. destruct (String.eqb token secret); [|unfold reply_now in H; simplify_eq; set_solver].
    destruct q; unfold start, begun, end_, ping, mark, reply_now in H; repeat case_match; simplify_eq; set_solver. }
  4: { split; [done|]. unfold run_step in H. destruct (sv_handlers s !! h) as [y|] eqn:E; [|discriminate]. exists h, y. split; [done|].
    destruct y; try (repeat case_match; simplify_eq; set_solver). simplify_eq. apply elem_of_list_singleton in He as ->.
    destruct in_end; cbn in Hg; destruct Hg as [Hg|Hg]; by simplify_eq. }
  all: unfold reap_step in H; repeat case_match; simplify_eq; set_solver.
Qed.
Lemma messages s l s' evs : step s l = Some (s', evs) -> is_deliver l = false ->
  (forall e, e ∈ evs -> ~ is_message e) \/
  (label_handler l <> None -> forall h, label_handler l = Some h -> waiting s h = None /\ waiting s' h = None) /\
  exists e rest, evs = e :: rest /\ (forall e', e' ∈ rest -> ~ is_message e') /\
    ((exists n how, e = EFinished n how) \/ exists n, is_begun n e /\ 0 < ServerProofs.held n s).
Proof.
  intros H Hd. destruct l; cbn [ServerModel.step] in H; try discriminate.
  1: { destruct (sv_handlers s !! h) eqn:E; [discriminate|]. unfold request_step in H. destruct (String.eqb token secret).
    2: { unfold reply_now in H. simplify_eq. left. intros e ->%elem_of_list_singleton. cbn; tauto. }
    destruct q; unfold start, begun, end_, ping, mark, reply_now in H; repeat case_match; simplify_eq.
    all: try (left; intros e He; set_solver).
    all: try (left; intros e ->%elem_of_list_singleton; cbn; tauto).
    right. split.
    { intros _ h0 [= <-]. unfold waiting. rewrite E. done. }
    eexists _, _. split; [reflexivity|]. split; [intros e' ->%elem_of_list_singleton; cbn; tauto|]. right. eexists. split; [by eexists _, _, _|].
    unfold ServerProofs.held. match goal with H : sv_conns _ !! _ = Some ?c |- _ => rewrite (ServerProofs.cnt_delete _ _ _ _ H), ServerProofs.conn_of_eq, Nat.eqb_refl end. lia. }
  3: { unfold run_step in H. destruct (sv_handlers s !! h) as [y|] eqn:E; [|discriminate].
    destruct y; repeat case_match; simplify_eq.
    all: try (left; intros e He; set_solver).
    all: try (left; intros e ->%elem_of_list_singleton; unfold started_reply; case_match; cbn; tauto).
    all: right; split; [intros _ h0 [= <-]; unfold waiting; rewrite E; cbn; rewrite ?lookup_insert, ?lookup_delete; done|].
    all: eexists _, _; split; [reflexivity|]; split; [intros e' He'; first [by apply elem_of_nil in He'|apply elem_of_list_singleton in He' as ->; cbn; tauto]|left; eauto]. }
  all: unfold reap_step in H; repeat case_match; simplify_eq.
  all: try (left; intros e He; set_solver).
  all: try (left; intros e ->%elem_of_list_singleton; cbn; tauto).
  right. split; [done|]. eexists _, _. split; [reflexivity|]. split; [intros e' He'; by apply elem_of_nil in He'|left; eauto].
Qed.
End http.
