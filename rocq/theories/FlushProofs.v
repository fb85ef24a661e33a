(** Proofs about FlushModel.v. *)
From Verif Require Import FlushModel JsonProofs JsonProps ToolProofs RecordProofs SchedProofs.
From stdpp Require Import prelude gmap.
Open Scope nat_scope.

Section grows.
Context (cfg : config).
(** A step only adds records. *)
Lemma step_grows s a s' os : step cfg s a = Some (s', os) -> exists new, written s' = written s ++ new.
Proof.
  assert (forall inf : gmap nat N, RecordProofs.same inf (dom inf)) as Hsame by (intros inf n; by rewrite elem_of_dom).
  assert (forall l l' ls, more l l' ls -> exists new, lf_entries l' = lf_entries l ++ new) as Hm by (intros l l' ls (x & E & _); by exists x).
  intros H. unfold written. assert (sv_log (st_sv s') = sv_log (st_sv s) \/ exists ls, more (sv_log (st_sv s)) (sv_log (st_sv s')) ls) as [-> | [ls M]];
    [|exists []; by rewrite app_nil_r|by eapply Hm].
  destruct a; cbn [step] in H.
  - destruct (st_phase s) eqn:Ep; try done. destruct (is_reordering _ _); [|done]. destruct (add_to_ready_queue _ _ _) as [[[sv is] os']|] eqn:E.
    + injection H as <- <-. apply atrq_more in E as [M _]. right. by eexists.
    + injection H as <- <-. by left.
  - left. destruct (st_phase s) eqn:Ep; try done; (destruct (st_todo s) as [|i rest]; [done|]); injection H as H; destruct (exec_instr_frame _ _ _ _ H) as (_ & -> & _); done.
  - destruct (server_idle s) eqn:Es; [|done]. destruct (st_events s) as [|[id h p j|id x v fl] rest] eqn:Ee; [done|..];
      cbn [set_events st_sv] in H; injection H as H; unfold server_result in H.
    + destruct (handle_started _ _ _ _ _ _ _) as [[[sv is] os']|] eqn:E; [|injection H as <- <-; by left]. injection H as <- <-.
      destruct (handle_started_more _ _ _ _ _ _ _ _ _ _ _ (Hsame _) E) as (M & _). right. by eexists.
    + destruct (handle_finished _ _ _ _ _ _ _) as [[[sv is] os']|] eqn:E; [|injection H as <- <-; by left]. injection H as <- <-.
      destruct (handle_finished_more _ _ _ _ _ _ _ _ _ _ _ (Hsame _) E) as (M & _). right. by eexists.
  - destruct (server_idle s && st_soft_trigger s); [|done]. injection H as <- <-. by left.
  - destruct (server_idle s && st_hard s); [|done]. injection H as <- <-. by left.
  - destruct (server_idle s); [|done]. injection H as <- <-. by left.
  - destruct (st_phase s) eqn:Ep; try done. destruct (st_todo s); [|done]. destruct (forallb ended (st_clients s)) eqn:Ec; [|done].
    destruct (drain_events _ _ _ _ _ _) as [[[[sv0 q0] inf0] os0]|] eqn:E0; [|injection H as <- <-; by left].
    destruct (is_reordering _ _) eqn:Er; [|done]. unfold drain in H. rewrite E0, Er in H.
    destruct (drain_inflight _ _ _ _ _) as [[[sv1 q1] os1]|] eqn:E1; [|injection H as <- <-; by left]. injection H as <- <-.
    destruct (drain_events_more _ _ _ _ _ _ _ _ _ _ _ (Hsame _) E0) as (M0 & _). destruct (drain_inflight_more _ _ _ _ _ _ _ _ E1) as (M1 & _).
    right. eexists. eapply more_trans; [exact M0|exact M1].
  - destruct (st_clients s !! c) as [[]|], (cf_types cfg !! c); try done. destruct (st_closed s !! _) as [[]|]; try done; injection H as <- <-; by left.
  - destruct (st_clients s !! c) as [[]|], (cf_types cfg !! c); try done. destruct (st_queues s !! _) as [q|]; [|done]. destruct (q !! _); [|done]. destruct (is_max _ _); [|done].
    injection H as <- <-; by left.
  - destruct (st_clients s !! c) as [[]|], (cf_types cfg !! c); try done. match type of H with context [st_queues s !! ?i] => destruct (st_queues s !! i) as [[|]|], (st_closed s !! i) as [[]|]; try done end.
    injection H as <- <-; by left.
  - destruct (st_clients s !! c) as [[]|]; try done. destruct (decide _); injection H as <- <-; by left.
  - destruct (st_clients s !! c) as [[]|], (cf_types cfg !! c); try done. destruct (hand_out _ _); injection H as <- <-; by left.
  - destruct (st_clients s !! c) as [[]|]; try done. injection H as <- <-. by left.
  - destruct (st_clients s !! c) as [[]|]; try done; injection H as <- <-; by left.
  - destruct (st_clients s !! c) as [[]|]; try done; injection H as <- <-; by left.
  - injection H as <- <-. by left.
  - injection H as <- <-. by left.
Qed.
(** Every run of the tracker is one in bytes; nothing has to be passed on. *)
Lemma run_in_bytes acts : forall s s' t file buf, run cfg s acts = Some (s', t) ->
  exists es buf', flush_history cfg (Flushing s file buf) es (Flushing s' file buf').
Proof.
  induction acts as [|a acts IH]; intros s s' t file buf H; cbn [run] in H.
  - injection H as <- <-. eexists _, _. constructor.
  - destruct (step cfg s a) as [[s1 os]|] eqn:E; [|done]. destruct (run cfg s1 acts) as [[s2 t2]|] eqn:E2; [|done]. injection H as <- <-.
    destruct (step_grows _ _ _ _ E) as [new Hn]. destruct (file_exists new) as [text Ht]. destruct (IH _ _ _ file (buf ++ text) E2) as (es & buf' & Hh).
    eexists _, _. econstructor; [by econstructor|exact Hh].
Qed.

(** The bytes written so far, passed on or not, are the text of the records. *)
Definition sound (v : flushing) : Prop := file_of (written (fl_sched v)) (fl_file v ++ fl_buffer v).
Lemma sound_step v e v' : sound v -> flush_step cfg v e v' -> sound v' /\ begins (fl_file v) (fl_file v') /\
  (exists new, written (fl_sched v') = written (fl_sched v) ++ new) /\
  match e with EStep a os => step cfg (fl_sched v) a = Some (fl_sched v', os) | _ => fl_sched v' = fl_sched v end.
Proof.
  unfold sound. intros Hs H. destruct H as [s file buf a s' os new text H Hw Ht|s file buf n|s file buf Hi]; cbn [fl_sched fl_file fl_buffer] in *.
  - split; [rewrite Hw, List.app_assoc; by apply file_of_app|]. split; [exists []; by rewrite app_nil_r|]. split; [by eexists|done].
  - rewrite <- List.app_assoc, take_drop. split; [done|]. split; [by eexists|]. split; [exists []; by rewrite app_nil_r|done].
  - rewrite app_nil_r. split; [done|]. split; [by eexists|]. split; [exists []; by rewrite app_nil_r|done].
Qed.
Lemma begins_trans (a b c : bytes) : begins a b -> begins b c -> begins a c.
Proof. intros [x ->] [y ->]. exists (x ++ y). by rewrite List.app_assoc. Qed.
Lemma sound_history v es v' : flush_history cfg v es v' -> sound v -> sound v' /\ begins (fl_file v) (fl_file v') /\
  (exists new, written (fl_sched v') = written (fl_sched v) ++ new) /\
  exists acts t, run cfg (fl_sched v) acts = Some (fl_sched v', t).
Proof.
  induction 1 as [v|v1 e v2 es v3 H _ IH]; intros Hs.
  - split; [done|]. split; [exists []; by rewrite app_nil_r|]. split; [exists []; by rewrite app_nil_r|]. by exists [], [].
  - destruct (sound_step _ _ _ Hs H) as (Hs2 & Hb & [n1 Hn1] & He). destruct (IH Hs2) as (Hs3 & Hb3 & [n2 Hn2] & acts & t & Hr).
    split; [done|]. split; [by eapply begins_trans|]. split; [exists (n1 ++ n2); by rewrite Hn2, Hn1, List.app_assoc|].
    destruct e as [a os| |]; [|rewrite <- He; by eexists _, _..]. exists (a :: acts), (os ++ t). cbn [run]. by rewrite He, Hr.
Qed.
End grows.

(** A file has as many line ends as records. *)
Definition line_ends (f : bytes) : nat := length (List.filter (Ascii.eqb LF) f).
Lemma line_ends_app f g : line_ends (f ++ g) = line_ends f + line_ends g.
Proof. unfold line_ends. by rewrite List.filter_app, app_length. Qed.
Lemma file_line_ends es f : file_of es f -> line_ends f = length es.
Proof.
  induction 1 as [|es f e f' H IH (t & Ht & ->)]; [done|]. rewrite !line_ends_app, app_length, IH.
  assert (line_ends t = 0) as ->; [|done]. pose proof (record_is_one_line _ _ Ht) as Hl. clear Ht. unfold line_ends.
  induction t as [|c t IHt]; [done|]. cbn [List.filter]. destruct (Ascii.eqb_spec LF c) as [<-|_].
  - destruct (Hl LF) as (_ & X & _); [by left|done].
  - apply IHt. intros d Hd. apply Hl. by right.
Qed.
(** So records that are completely in a file are among those read from a longer one. *)
Lemma passed_first es1 f1 es2 g : file_of es1 f1 -> begins f1 g -> ends_after es2 g -> length es1 <= length es2.
Proof.
  intros H1 [x ->] [H2|H2]; apply file_line_ends in H1; apply file_line_ends in H2; rewrite <- H1, <- H2, !line_ends_app; lia.
Qed.
