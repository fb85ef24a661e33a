(** C73: what the log held when the ticker last flushed it survives the death of the process. *)
From Verif Require Import FlushModel FlushProofs JsonProofs JsonProps ToolProofs SessionSpec SessionProofs SessionProps SessionDemo.
From stdpp Require Import prelude gmap.
Open Scope nat_scope.

(** The situation in which execute() begins: a possible history has led to a process [p] with an open log, of which
    the records [F] are in the file for certain; [v] has the tracker at its beginning, and the bytes of the log in the
    file and in the buffer. *)
Record begins_execute (F : list log_entry) (p : process) (x : execute_args) (cfg : config) (v : flushing) : Prop := {
  be_possible : exists h, possible h (World F (Some p));
  be_args : args_ok x;
  be_start : exists e, start_execute p x = Some (e, cfg);
  be_sched : fl_sched v = initial cfg;
  be_bytes : file_of (lf_entries (cf_log cfg)) (fl_file v ++ fl_buffer v);
  be_file : exists f, file_of F f /\ begins f (fl_file v)
}.

(** However the process is killed and wherever this cuts the log: if it can be opened again, its state is the one
    after a number of the records written, in which all those are that were written before the last tick of the ticker. *)
Theorem flushed_survives_kill F p x cfg v0 es1 v1 v2 es2 v3 g s :
  begins_execute F p x cfg v0 -> flush_history cfg v0 es1 v1 -> flush_step cfg v1 EFlush v2 -> flush_history cfg v2 es2 v3 -> killed v3 g ->
  Forall rust_record (written (fl_sched v3)) -> load_file g = FLoaded (LOk s) ->
  exists n, length (written (fl_sched v1)) <= n /\ load_runcounts (take n (written (fl_sched v3))) = LOk s /\ ends_after (take n (written (fl_sched v3))) g.
Proof.
  intros HB H1 HF H2 [m ->] HR HL. destruct HB as [_ _ _ Hs Hb _].
  assert (sound v0) as S0 by (unfold sound; rewrite Hs; exact Hb).
  destruct (sound_history _ _ _ _ H1 S0) as (S1 & _). destruct (sound_step _ _ _ _ S1 HF) as (S2 & _ & _ & _). destruct (sound_history _ _ _ _ H2 S2) as (S3 & B3 & [new Hn] & _).
  inversion HF as [| |s1 file buf Hi]; subst. cbn [fl_sched fl_file fl_buffer] in *. unfold sound in S2. cbn [fl_sched fl_file fl_buffer] in S2. rewrite app_nil_r in S2.
  assert (begins (fl_file v3 ++ take m (fl_buffer v3)) (fl_file v3 ++ fl_buffer v3)) as Hcut.
  { exists (drop m (fl_buffer v3)). by rewrite <- List.app_assoc, take_drop. }
  destruct (torn_log_never_lies _ _ _ _ HR S3 Hcut HL) as (l1 & l2 & E & He & Hl). exists (length l1). rewrite E, take_app.
  split; [|done]. eapply passed_first; [exact S2| |exact He]. eapply begins_trans; [exact B3|by eexists].
Qed.
Print Assumptions flushed_survives_kill.

(** Such an end is one of those that SessionModel.v has, so that all that was proved about histories holds after it. *)
Theorem killed_in_bytes F p x cfg v0 es v g s :
  begins_execute F p x cfg v0 -> flush_history cfg v0 es v -> killed v g -> Forall rust_record (written (fl_sched v)) -> load_file g = FLoaded (LOk s) ->
  exists n t, load_runcounts (take n (written (fl_sched v))) = LOk s /\ ends_after (take n (written (fl_sched v))) g /\
    wstep (World F (Some p)) (HKilledInExecute (x_target x) cfg t) (World (take n (written (fl_sched v))) None).
Proof.
  intros HB H1 [m ->] HR HL. destruct HB as [_ Ha [e He] Hs Hb (f & Hf & Hbf)].
  assert (sound v0) as S0 by (unfold sound; rewrite Hs; exact Hb).
  destruct (sound_history _ _ _ _ H1 S0) as (S1 & B1 & _ & acts & t & Hr). rewrite Hs in Hr.
  assert (begins (fl_file v ++ take m (fl_buffer v)) (fl_file v ++ fl_buffer v)) as Hcut.
  { exists (drop m (fl_buffer v)). by rewrite <- List.app_assoc, take_drop. }
  destruct (torn_log_never_lies _ _ _ _ HR S1 Hcut HL) as (l1 & l2 & E & Hen & Hl). exists (length l1), t.
  assert (take (length l1) (written (fl_sched v)) = l1) as Et by (by rewrite E, take_app). rewrite Et. split; [done|]. split; [done|]. rewrite <- Et.
  eapply W_kill_in_execute; [done|exact He|exact Hr|]. eapply passed_first; [exact Hf| |exact Hen]. eapply begins_trans; [exact Hbf|]. eapply begins_trans; [exact B1|by eexists].
Qed.
Print Assumptions killed_in_bytes.

(** So a task whose success was in the log before the last tick is never run again: the process is killed, and in
    whatever happens to the log from then on no execute() has a task with this key among those that it runs. *)
Theorem flushed_success_is_final F p x cfg v0 es1 v1 f v2 es2 v3 g s :
  begins_execute F p x cfg v0 -> flush_history cfg v0 es1 v1 -> In (Finished f) (written (fl_sched v1)) -> f_status f = 0%Z ->
  flush_step cfg v1 EFlush v2 -> flush_history cfg v2 es2 v3 -> killed v3 g -> Forall rust_record (written (fl_sched v3)) -> load_file g = FLoaded (LOk s) ->
  exists n t, load_runcounts (take n (written (fl_sched v3))) = LOk s /\
    wstep (World F (Some p)) (HKilledInExecute (x_target x) cfg t) (World (take n (written (fl_sched v3))) None) /\
    forall h' w' ev tg cfg' t' m, whistory (World (take n (written (fl_sched v3))) None) h' w' -> In ev h' -> execution ev = Some (tg, cfg', t') -> in_graph cfg' m ->
      task_key cfg' m <> f_key f.
Proof.
  intros HB H1 Hin Hst HF H2 HK HR HL. pose proof HB as [[h Hposs] _ _ Hs Hb _].
  destruct (flushed_survives_kill _ _ _ _ _ _ _ _ _ _ _ _ HB H1 HF H2 HK HR HL) as (n & Hn & Hl & He).
  assert (flush_history cfg v0 (es1 ++ EFlush :: es2) v3) as H3.
  { clear -H1 HF H2. induction H1 as [|u1 e u2 es u3 Hu _ IH]; cbn [app]; econstructor; try done. by apply IH. }
  destruct (killed_in_bytes _ _ _ _ _ _ _ _ _ HB H3 HK HR HL) as (n' & t & Hl' & He' & Hw).
  assert (take n (written (fl_sched v3)) = take n' (written (fl_sched v3))) as E.
  { assert (forall k, Forall rust_record (take k (written (fl_sched v3)))) as HT by (intros k; by apply Forall_take).
    destruct (cut_at_record_end _ _ (HT n) He) as [_ R1]. destruct (cut_at_record_end _ _ (HT n') He') as [_ R2]. rewrite R1 in R2. by injection R2. }
  exists n, t. split; [done|]. rewrite E. split; [done|]. rewrite <- E in Hw |- *.
  assert (sound v0) as S0 by (unfold sound; rewrite Hs; exact Hb).
  destruct (sound_history _ _ _ _ H1 S0) as (S1 & _). destruct (sound_step _ _ _ _ S1 HF) as (S2 & _ & _ & Hsame). destruct (sound_history _ _ _ _ H2 S2) as (_ & _ & [new Hnew] & _).
  rewrite Hsame in Hnew.
  assert (In (Finished f) (take n (written (fl_sched v3)))) as Hf.
  { rewrite Hnew, take_app_ge by done. apply in_or_app. by left. }
  apply in_split in Hf as (l1 & l2 & Hf). intros h' w' ev tg cfg' t' m Hh Hev Hex Hm.
  assert (possible (h ++ [HKilledInExecute (x_target x) cfg t]) (World (take n (written (fl_sched v3))) None)) as Hp by (by econstructor).
  destruct (success_is_final _ _ _ _ _ _ _ Hp Hf Hst Hh) as [_ Hfin]. by eapply Hfin.
Qed.
Print Assumptions flushed_success_is_final.

(** ** Cases *)
Definition fl_open : list call := [open_with "wk" ["/r"] false; add "a" []; add "b" [0]].
Definition fl_world : world := (ran fl_open).2.
Definition fl_args : execute_args := demo_args None [0].
Definition fl_cfg : config := match start_execute (proc_of fl_world) fl_args with Some (_, cfg) => cfg | None => (config_of HClosed).1 end.
(** Task a is run with success, the server waits for what comes next. *)
Definition fl_script : list script := [Do (AInit [0]); Flush] ++ take_task 0 ++ finish_task 0 (Code 0).
Definition fl_run : option (st * list obs) := run fl_cfg (initial fl_cfg) (expand fl_cfg (initial fl_cfg) fl_script).
Definition fl_state : st := match fl_run with Some (s, _) => s | None => initial fl_cfg end.
Definition fl_key (e : log_entry) : string := match e with Ready r => r_key r | Started s => s_key s | Finished f => f_key f | _ => "" end.
Example fl_ends : (if fl_run then true else false, server_idle fl_state, map fl_key (written fl_state), existsb (fun e => match e with Finished f => Z.eqb (f_status f) 0 | _ => false end) (written fl_state)) =
  (true, true, [""; "a"; "a"; "b"; "a"], true).
Proof. vm_compute. reflexivity. Qed.
Lemma fl_begins : exists buf, begins_execute [] (proc_of fl_world) fl_args fl_cfg (Flushing (initial fl_cfg) [] buf).
Proof.
  destruct (file_exists (lf_entries (cf_log fl_cfg))) as [buf Hb]. exists buf. split.
  - exists (ran fl_open).1. assert (World [] (Some (proc_of fl_world)) = fl_world) as -> by (vm_compute; reflexivity). apply ran_possible. vm_compute. reflexivity.
  - apply demo_args_ok.
  - unfold fl_cfg. destruct (start_execute (proc_of fl_world) fl_args) as [[e cfg]|] eqn:E; [by exists e|]. exfalso.
    assert ((if start_execute (proc_of fl_world) fl_args then true else false) = true) as X by (vm_compute; reflexivity). by rewrite E in X.
  - reflexivity.
  - exact Hb.
  - exists []. split; [constructor|]. by exists [].
Qed.
Lemma fl_runs : exists t, run fl_cfg (initial fl_cfg) (expand fl_cfg (initial fl_cfg) fl_script) = Some (fl_state, t).
Proof.
  assert ((if fl_run then true else false) = true) as X by (vm_compute; reflexivity).
  unfold fl_state. unfold fl_run in *. destruct (run fl_cfg _ _) as [[s t]|]; [by exists t|discriminate X].
Qed.
Definition in_range_b (e : log_entry) : bool :=
  match e with
  | Header h => N.ltb (h_version h) (2 ^ 32) && N.ltb (secs (h_time h)) (2 ^ 63) && N.ltb (nanos (h_time h)) (10 ^ 9) && N.ltb (h_pid h) (2 ^ 32)
  | Ready r => N.ltb (secs (r_time r)) (2 ^ 63) && N.ltb (nanos (r_time r)) (10 ^ 9) && N.ltb (r_runcount r) (2 ^ 32) && N.ltb (r_storage_root r) (2 ^ 32)
  | Started s => N.ltb (secs (s_time s)) (2 ^ 63) && N.ltb (nanos (s_time s)) (10 ^ 9) && N.ltb (s_pid s) (2 ^ 32)
  | Finished f => N.ltb (secs (f_time f)) (2 ^ 63) && N.ltb (nanos (f_time f)) (10 ^ 9) && Z.leb (- 2 ^ 31) (f_status f) && Z.ltb (f_status f) (2 ^ 31)
  | Backref _ => true
  end.
Lemma records_checked es : forallb (fun e => in_range_b e && forallb (fun s => utf8_valid (B s)) (strings_of e)) es = true -> Forall rust_record es.
Proof.
  intros H. apply Forall_forall. intros e He. rewrite forallb_forall in H. apply elem_of_list_In in He. specialize (H _ He). apply andb_true_iff in H as [H1 H2].
  split; [|by apply strings_checked]. unfold in_range, in_range_b, u32, i32, a_time in *. destruct e; rewrite ?andb_true_iff, ?N.ltb_lt, ?Z.leb_le, ?Z.ltb_lt in H1; tauto.
Qed.
Lemma fl_success : exists f, In (Finished f) (written fl_state) /\ f_status f = 0%Z /\ f_key f = "a".
Proof.
  assert (existsb (fun e => match e with Finished f => Z.eqb (f_status f) 0 && String.eqb (f_key f) "a" | _ => false end) (written fl_state) = true) as X by (vm_compute; reflexivity).
  apply existsb_exists in X as (e & He & X). destruct e as [| | |f|]; try discriminate X. apply andb_true_iff in X as [X1 X2]. exists f. split; [done|].
  split; [by apply Z.eqb_eq|by apply String.eqb_eq].
Qed.
(** The hypotheses of the theorems above: a has succeeded, the ticker ticks, the process dies; the log opens again. *)
Example fl_survives : exists v0 es1 v1 f v2 g s, begins_execute [] (proc_of fl_world) fl_args fl_cfg v0 /\ flush_history fl_cfg v0 es1 v1 /\
  In (Finished f) (written (fl_sched v1)) /\ f_status f = 0%Z /\ f_key f = "a" /\ flush_step fl_cfg v1 EFlush v2 /\ flush_history fl_cfg v2 [] v2 /\ killed v2 g /\
  Forall rust_record (written (fl_sched v2)) /\ load_file g = FLoaded (LOk s).
Proof.
  destruct fl_begins as [buf HB]. destruct fl_runs as [t Hr]. destruct fl_success as (f & H1 & H2 & H3).
  destruct (run_in_bytes _ _ _ _ _ [] buf Hr) as (es & buf' & Hh).
  assert (sound (Flushing (initial fl_cfg) [] buf)) as S0 by exact (be_bytes _ _ _ _ _ HB).
  destruct (sound_history _ _ _ _ Hh S0) as (S1 & _). unfold sound in S1. cbn [fl_sched fl_file fl_buffer app] in S1.
  assert (Forall rust_record (written fl_state)) as HR by (apply records_checked; vm_compute; reflexivity).
  assert (exists s, load_runcounts (written fl_state) = LOk s) as [s Hl].
  { assert ((match load_runcounts (written fl_state) with LOk _ => true | _ => false end) = true) as X by (vm_compute; reflexivity).
    destruct (load_runcounts (written fl_state)) as [s| | |] eqn:E in X |- *; try discriminate X. by exists s. }
  eexists _, es, (Flushing fl_state [] buf'), f, (Flushing fl_state buf' []), buf', s. split; [exact HB|]. split; [exact Hh|]. split; [exact H1|]. split; [exact H2|]. split; [exact H3|].
  split; [apply FS_flush; vm_compute; reflexivity|]. split; [constructor|]. split; [exists 0; by rewrite app_nil_r|]. split; [exact HR|].
  destruct (file_reads_back _ _ HR S1) as [-> _]. by rewrite Hl.
Qed.

(** What was written since the last tick may be lost: it is not true that a task whose success was processed, so that
    others were made ready because of it, is not run again after the death of the process. *)
Definition fl_later : list call := [open_with "wk2" ["/r"] false; add "a" []; CExecute None [0] (run_tasks [0] [Code 0] stop)].
Theorem processed_success_is_final_refuted : exists F p x cfg v0 es v f g s h' w' ev tg cfg' t' m,
  begins_execute F p x cfg v0 /\ flush_history cfg v0 es v /\ In (Finished f) (written (fl_sched v)) /\ f_status f = 0%Z /\
  killed v g /\ file_of [] g /\ load_file g = FLoaded (LOk s) /\
  whistory (World [] None) h' w' /\ In ev h' /\ execution ev = Some (tg, cfg', t') /\ In (OHandedOut 0 0 m) t' /\ task_key cfg' m = f_key f.
Proof.
  destruct fl_begins as [buf HB]. destruct fl_runs as [t Hr]. destruct fl_success as (f & H1 & H2 & H3).
  destruct (run_in_bytes _ _ _ _ _ [] buf Hr) as (es & buf' & Hh).
  destruct (do_calls (World [] None) fl_later) as [[h' w']|] eqn:E.
  2: { exfalso. assert ((if do_calls (World [] None) fl_later then true else false) = true) as X by (vm_compute; reflexivity). rewrite E in X. discriminate X. }
  pose proof (do_calls_possible _ _ _ E) as Hp.
  assert (existsb (fun ev => match execution ev with Some (tg, cfg', t') => String.eqb (task_key cfg' 0) "a" && existsb (fun o => match o with OHandedOut 0 0 0 => true | _ => false end) t' | None => false end)
    (match do_calls (World [] None) fl_later with Some (h, _) => h | None => [] end) = true) as X by (vm_compute; reflexivity).
  rewrite E in X. clear E. apply existsb_exists in X as (ev & Hev & X). destruct (execution ev) as [[[tg cfg'] t']|] eqn:Ex; [|discriminate X].
  apply andb_true_iff in X as [X1 X2]. apply String.eqb_eq in X1. apply existsb_exists in X2 as (o & Ho & X2).
  assert (o = OHandedOut 0 0 0) as ->.
  { destruct o as [| |c i n| | | | | | | | | | | |]; try discriminate X2. destruct c; [|discriminate X2]. destruct i; [|discriminate X2]. destruct n; [reflexivity|discriminate X2]. }
  eexists [], _, fl_args, fl_cfg, _, es, _, f, [], _, h', w', ev, tg, cfg', t', 0. split; [exact HB|]. split; [exact Hh|]. split; [exact H1|]. split; [exact H2|].
  split; [by exists 0|]. split; [constructor|]. split; [vm_compute; reflexivity|]. split; [exact Hp|]. split; [exact Hev|]. split; [exact Ex|]. split; [exact Ho|]. by rewrite X1, H3.
Qed.
Print Assumptions processed_success_is_final_refuted.
