(** C76: reading the log of a session that is running, and cleaning up by what is read. *)
From Verif Require Import FlushModel FlushProofs FlushProps JsonProofs JsonProps ToolModel ToolProofs ToolProps SessionSpec SessionProofs SessionHistory SessionProps SessionDemo LiveProofs.
From stdpp Require Import prelude gmap.
Open Scope nat_scope.

(** The bytes that someone gets who reads the log file from [v] on until [v']: the file only grows, so they have what
    it held at first and are the beginning of what it holds in the end. *)
Definition read_during (v v' : flushing) (g : bytes) : Prop := begins (fl_file v) g /\ begins g (fl_file v').

(** Reading while execute() runs never fails and never gives anything but the first so many of the records written,
    split as if the log ended there, in which all are that were written before the last tick of the ticker;
    unless the file ended, for the reader, inside a character that is not ASCII: then load_logfile fails. *)
Theorem live_log_reads F p x cfg v0 es1 v1 v2 es2 v3 es3 v4 g :
  begins_execute F p x cfg v0 -> flush_history cfg v0 es1 v1 -> flush_step cfg v1 EFlush v2 -> flush_history cfg v2 es2 v3 ->
  flush_history cfg v3 es3 v4 -> read_during v3 v4 g -> Forall rust_record (written (fl_sched v4)) ->
  exists n, let es := take n (written (fl_sched v4)) in
    (length (written (fl_sched v1)) <= n /\ load_logfile (Some g) "all" = LoadedList es /\
     exists cur out, read_current_and_outdated es = Some (cur, out) /\ load_logfile (Some g) "current,outdated" = LoadedPair cur out /\
       load_logfile (Some g) "current" = LoadedList cur /\ load_logfile (Some g) "outdated" = LoadedList out) \/
    ((forall mode, In mode ["all"; "current,outdated"; "current"; "outdated"]%string -> load_logfile (Some g) mode = LoadFailed) /\
     exists e t y z f, written (fl_sched v4) !! n = Some e /\ record_text e t /\ t = y ++ z /\ utf8_valid y = false /\ file_of es f /\ g = f ++ y).
Proof.
  intros HB H1 HF H2 H3 [Hg1 Hg2] HR. pose proof HB as [[h Hposs] Ha [e He] Hs Hb _].
  assert (sound v0) as S0 by (unfold sound; rewrite Hs; exact Hb).
  destruct (sound_history _ _ _ _ H1 S0) as (S1 & _ & _ & acts1 & t1 & Hr1). destruct (sound_step _ _ _ _ S1 HF) as (S2 & _ & _ & E2).
  destruct (sound_history _ _ _ _ H2 S2) as (S3 & B3 & _ & acts2 & t2 & Hr2). destruct (sound_history _ _ _ _ H3 S3) as (S4 & _ & _ & acts3 & t3 & Hr3).
  assert (begins g (fl_file v4 ++ fl_buffer v4)) as Hcut by (eapply begins_trans; [exact Hg2|by eexists]).
  destruct (cut_read_exact _ _ _ HR S4 Hcut) as (n & [[Hread Hlow]|[Hread Htorn]]); exists n; cbv zeta; unfold load_logfile, on_snapshot; cbn [String.eqb Ascii.eqb Bool.eqb]; rewrite Hread.
  - left. assert (length (written (fl_sched v1)) <= n) as Hle.
    { inversion HF as [| |s1 file buf Hi]; subst. cbn [fl_sched fl_file fl_buffer] in *. unfold sound in S2. cbn [fl_sched fl_file fl_buffer] in S2. rewrite app_nil_r in S2.
      eapply Hlow; [exact S2|]. by eapply begins_trans. }
    split; [done|]. split; [done|].
    assert (exists s t, run cfg (initial cfg) (acts1 ++ acts2 ++ acts3) = Some (s, t) /\ s = fl_sched v4) as (s & t & Hr & Es).
    { rewrite Hs in Hr1. rewrite E2 in Hr2. exists (fl_sched v4), (t1 ++ t2 ++ t3). split; [|done].
      apply run_app. exists (fl_sched v1), t1, (t2 ++ t3). split; [done|]. split; [|done]. apply run_app. by exists (fl_sched v3), t2, t3. }
    assert (possible (h ++ [HKilledInExecute (x_target x) cfg t]) (World (take (Nat.max n (length F)) (written s)) None)) as Hk.
    { econstructor; [exact Hposs|]. eapply W_kill_in_execute; [done|exact He|exact Hr|lia]. }
    assert (length F <= length (written (fl_sched v1))) as HlF.
    { pose proof (possible_inv _ _ Hposs) as [_ Hp]. cbn [w_proc w_file] in Hp. destruct (begin_execute _ _ _ Hp Ha) as (e' & cfg' & ids & bs & Hbg).
      destruct (begun_unique _ _ _ _ _ _ _ _ Hbg He) as [<- <-]. rewrite Hs in Hr1. destruct (run_inv _ _ _ _ _ _ _ (fl_sched v1) t1 Hp Hbg) as (_ & _ & new & Hw & _); [by exists acts1|].
      destruct (pi_prefix _ _ Hp) as [rest Hpl]. unfold written. rewrite Hw, Hpl, !app_length. lia. }
    rewrite Nat.max_l, Es in Hk by lia. destruct (snapshot_never_fails _ _ Hk) as [[cur out] Er]. cbn [w_file] in Er. rewrite Er. by exists cur, out.
  - right. split; [|done]. intros mode Hm. repeat (destruct Hm as [<-|Hm]; [done|]). done.
Qed.
Print Assumptions live_log_reads.

(** Who deletes what belongs to the outdated records deletes nothing that the call relies on: while execute() runs, once
    the ticker has ticked, no record of a task that this session has finished, or that execute() passes over because it
    succeeded or failed before, is listed as outdated. Those of the last success of such a task are listed as current. *)
Theorem live_outdated_not_in_use F p x cfg v0 es1 v1 v2 es2 v3 es3 v4 g cur out k :
  begins_execute F p x cfg v0 -> flush_history cfg v0 es1 v1 -> flush_step cfg v1 EFlush v2 -> flush_history cfg v2 es2 v3 ->
  flush_history cfg v3 es3 v4 -> read_during v3 v4 g -> Forall rust_record (written (fl_sched v4)) ->
  load_logfile (Some g) "current,outdated" = LoadedPair cur out ->
  in_done p k \/ (exists n, considered (deps (p_graph p)) (x_target x) n /\ task_has_key (deps (p_graph p)) n k /\
    (log_success (plog p) k \/ p_rerun p = false /\ log_failure (plog p) k)) ->
  no_record k out /\ forall c sr, status_in (plog p) k (Some (RFinished c sr true)) ->
    exists r s f, In (Ready r) cur /\ In (Started s) cur /\ In (Finished f) cur /\ r_key r = k /\ s_key s = k /\ f_key f = k /\
      r_runcount r = c /\ r_storage_root r = sr /\ f_status f = 0%Z.
Proof.
  intros HB H1 HF H2 H3 Hg HR HL Hk. destruct (live_log_reads _ _ _ _ _ _ _ _ _ _ _ _ _ HB H1 HF H2 H3 Hg HR) as (n & [(Hn & _ & cur' & out' & Hr & Hl & _)|[Hf _]]).
  2: { rewrite Hf in HL by (right; by left). done. }
  cbv zeta in *. rewrite HL in Hl. injection Hl as <- <-. destruct HB as [[h Hposs] Ha [e He] Hs Hb _].
  assert (sound v0) as S0 by (unfold sound; rewrite Hs; exact Hb).
  destruct (sound_history _ _ _ _ H1 S0) as (S1 & _ & [new Hn1] & acts1 & t1 & Hr1). destruct (sound_step _ _ _ _ S1 HF) as (S2 & _ & _ & E2).
  destruct (sound_history _ _ _ _ H2 S2) as (S3 & _ & _ & acts2 & t2 & Hr2). destruct (sound_history _ _ _ _ H3 S3) as (S4 & _ & _ & acts3 & t3 & Hr3).
  rewrite Hs in Hr1. rewrite E2 in Hr2.
  eapply (live_kept F p x e cfg (fl_sched v4) (t1 ++ t2 ++ t3) n h); try done.
  - exists (acts1 ++ acts2 ++ acts3). apply run_app. exists (fl_sched v1), t1, (t2 ++ t3). split; [done|]. split; [|done]. apply run_app. by exists (fl_sched v3), t2, t3.
  - rewrite Hs in Hn1. rewrite Hn1, app_length in Hn. unfold written in Hn. cbn in Hn. lia.
  - destruct Hk as [Hk|(m & Hc & Ht & Hk)]; [by left|]. destruct (decide (k ∈ completed (p_graph p))) as [Hd|Hd]; [by left|]. right. by exists m.
Qed.
Print Assumptions live_outdated_not_in_use.

(** When execute() has returned, the tasks it lists as finished are not outdated; nor are those finished by earlier calls
    of the same session. *)
Theorem finished_not_outdated h tg cfg t nf ks h' w p cur out k :
  possible (h ++ HExecuted tg cfg t (nf, ks) :: h') w -> (forall a, ~ In (HOpened a) h') -> w_proc w = Some p ->
  read_current_and_outdated (plog p) = Some (cur, out) -> In k ks -> no_record k out.
Proof.
  intros Hh Hno Hp Hr Hk. destruct (possible_seg _ _ _ Hh Hp) as (older & hd & seg & Hls & Hd). eapply in_segment_kept; [exact Hls|exact Hr|]. apply Hd.
  apply (done_exact _ _ _ Hh Hp). left.
  assert (done_inv (h ++ HExecuted tg cfg t (nf, ks) :: h') w) as Hdi.
  { revert Hh. generalize (h ++ HExecuted tg cfg t (nf, ks) :: h'), w. apply possible_ind'; [done|].
    intros h0 w0 ev0 w0' Hh0 IH Hs0. eapply done_step; [|done|done]. by eapply possible_inv. }
  unfold done_inv in Hdi. rewrite Hp in Hdi. destruct Hdi as [[s Hsess] _]. exists s, tg, cfg, t, nf, ks. split; [done|]. split; [|done].
  destruct Hsess as (h0 & a & E & Hs0). apply app_split in E as [(l2' & -> & ->)|(n1 & E & ->)]; [apply in_app_iff; right; by left|].
  destruct n1 as [|? n1]; simpl in E; [done|]. injection E as _ E. exfalso. apply (Hno a). rewrite E. apply in_app_iff. right. by left.
Qed.
Print Assumptions finished_not_outdated.

(** ** Cases *)
(** A first session runs a and b with success; the second has a, b and c, which depends on a, and runs c. *)
Definition lv_first : list call := [open_with "wk" ["/r"] false; add "a" []; add "b" []; CExecute None [0] (run_tasks [0; 1] [Code 0; Code 0] stop); CClose].
Definition lv_second : list call := lv_first ++ [open_with "wk" ["/r"] false; add "a" []; add "b" []; add "c" [0]].
Definition lv_world : world := (ran lv_second).2.
Definition lv_proc : process := proc_of lv_world.
Definition lv_args : execute_args := demo_args None [0].
Definition lv_cfg : config := match start_execute lv_proc lv_args with Some (_, cfg) => cfg | None => (config_of HClosed).1 end.
Definition lv_run : option (st * list obs) := run lv_cfg (initial lv_cfg) (expand lv_cfg (initial lv_cfg) [Do (AInit [0]); Flush]).
Definition lv_state : st := match lv_run with Some (s, _) => s | None => initial lv_cfg end.
Definition lv_kinds (es : list log_entry) : list (string * string) :=
  map (fun e => match e with Header _ => ("header", "") | Ready r => ("ready", r_key r) | Started s => ("started", s_key s) | Finished f => ("finished", f_key f) | Backref b => ("backref", b_key b) end) es.
Example lv_ends : (if do_calls (World [] None) lv_second then true else false, if lv_run then true else false, server_idle lv_state, lv_kinds (written lv_state)) =
  (true, true, true, [("header", ""); ("ready", "a"); ("ready", "b"); ("started", "a"); ("finished", "a"); ("started", "b"); ("finished", "b");
     ("header", ""); ("backref", "b"); ("backref", "a"); ("ready", "c")]).
Proof. vm_compute. reflexivity. Qed.
Lemma lv_possible : possible (ran lv_second).1 (World (w_file lv_world) (Some lv_proc)).
Proof. assert (World (w_file lv_world) (Some lv_proc) = lv_world) as -> by (vm_compute; reflexivity). apply ran_possible. vm_compute. reflexivity. Qed.
Lemma lv_start : exists e, start_execute lv_proc lv_args = Some (e, lv_cfg).
Proof.
  unfold lv_cfg. destruct (start_execute lv_proc lv_args) as [[e cfg]|] eqn:E; [by exists e|]. exfalso.
  assert ((if start_execute lv_proc lv_args then true else false) = true) as X by (vm_compute; reflexivity). rewrite E in X. discriminate X.
Qed.
(** What is in the file when execute() begins: all that was written before, so the header of this session, too. *)
Lemma lv_begins : exists file buf, file_of (plog lv_proc) file /\ begins_execute (w_file lv_world) lv_proc lv_args lv_cfg (Flushing (initial lv_cfg) file buf).
Proof.
  destruct (file_exists (plog lv_proc)) as [file Hf]. destruct (file_exists (drop (length (plog lv_proc)) (lf_entries (cf_log lv_cfg)))) as [buf Hb].
  destruct (file_exists (w_file lv_world)) as [f0 Hf0]. destruct (file_exists (drop (length (w_file lv_world)) (plog lv_proc))) as [f1 Hf1].
  assert (plog lv_proc = w_file lv_world ++ drop (length (w_file lv_world)) (plog lv_proc)) as E1 by (vm_compute; reflexivity).
  assert (lf_entries (cf_log lv_cfg) = plog lv_proc ++ drop (length (plog lv_proc)) (lf_entries (cf_log lv_cfg))) as E2 by (vm_compute; reflexivity).
  exists (f0 ++ f1), buf. assert (file_of (plog lv_proc) (f0 ++ f1)) as Hx by (rewrite E1; by apply file_of_app).
  split; [done|]. split; cbn [fl_sched fl_file fl_buffer].
  - exists (ran lv_second).1. apply lv_possible.
  - apply demo_args_ok.
  - apply lv_start.
  - done.
  - rewrite E2. by apply file_of_app.
  - exists f0. split; [done|by eexists].
Qed.
Lemma lv_runs : exists t, run lv_cfg (initial lv_cfg) (expand lv_cfg (initial lv_cfg) [Do (AInit [0]); Flush]) = Some (lv_state, t).
Proof.
  assert ((if lv_run then true else false) = true) as X by (vm_compute; reflexivity).
  unfold lv_state. unfold lv_run in *. destruct (run lv_cfg _ _) as [[s t]|]; [by exists t|discriminate X].
Qed.
Lemma lv_success : status_in (plog lv_proc) "a" (Some (RFinished 0 0 true)).
Proof.
  assert (runcount (lf_state (logfile (p_graph lv_proc))) "a" = Some (RFinished 0 0 true)) as E by (vm_compute; reflexivity).
  rewrite <- E. pose proof (possible_inv _ _ lv_possible) as [_ Hp]. apply (log_ok_status _ "a" (pi_log _ _ Hp)).
Qed.
Lemma lv_task : considered (deps (p_graph lv_proc)) (x_target lv_args) 0 /\ task_has_key (deps (p_graph lv_proc)) 0 "a".
Proof.
  assert (map c_key (nodes (deps (p_graph lv_proc))) = ["a"; "b"; "c"]) as E by (vm_compute; reflexivity).
  destruct (nodes (deps (p_graph lv_proc))) as [|c l] eqn:En; [discriminate E|]. split; [split; [|done]; rewrite En; cbn; lia|]. exists c. rewrite En. split; [done|]. by injection E as E _.
Qed.
(** The hypotheses of the theorems: the second session waits for c, the ticker ticks, the log is read. *)
Example lv_reads : exists v0 es v1 v2 g cur out, begins_execute (w_file lv_world) lv_proc lv_args lv_cfg v0 /\ flush_history lv_cfg v0 es v1 /\ flush_step lv_cfg v1 EFlush v2 /\
  flush_history lv_cfg v2 [] v2 /\ read_during v2 v2 g /\ Forall rust_record (written (fl_sched v2)) /\ load_logfile (Some g) "current,outdated" = LoadedPair cur out /\
  (exists n, considered (deps (p_graph lv_proc)) (x_target lv_args) n /\ task_has_key (deps (p_graph lv_proc)) n "a" /\ log_success (plog lv_proc) "a") /\
  lv_kinds cur = [("header", ""); ("ready", "a"); ("ready", "b"); ("started", "a"); ("finished", "a"); ("started", "b"); ("finished", "b"); ("ready", "c")] /\ lv_kinds out = [("header", "")].
Proof.
  destruct lv_begins as (file & buf & Hfile & HB). destruct lv_runs as [t Hr]. destruct (run_in_bytes _ _ _ _ _ file buf Hr) as (es & buf' & Hh).
  assert (sound (Flushing (initial lv_cfg) file buf)) as S0 by exact (be_bytes _ _ _ _ _ HB).
  destruct (sound_history _ _ _ _ Hh S0) as (S1 & _). unfold sound in S1. cbn [fl_sched fl_file fl_buffer] in S1.
  assert (Forall rust_record (written lv_state)) as HR by (apply records_checked; vm_compute; reflexivity).
  assert (match read_current_and_outdated (written lv_state) with Some (cur, out) => (lv_kinds cur, lv_kinds out) | None => ([], []) end =
    ([("header", ""); ("ready", "a"); ("ready", "b"); ("started", "a"); ("finished", "a"); ("started", "b"); ("finished", "b"); ("ready", "c")], [("header", "")])) as X by (vm_compute; reflexivity).
  destruct (read_current_and_outdated (written lv_state)) as [[cur out]|] eqn:E in X; [|discriminate X]. injection X as X1 X2.
  eexists _, es, (Flushing lv_state file buf'), (Flushing lv_state (file ++ buf') []), (file ++ buf'), cur, out. split; [exact HB|]. split; [exact Hh|].
  split; [apply FS_flush; vm_compute; reflexivity|]. split; [constructor|]. split; [split; exists []; by rewrite app_nil_r|]. split; [exact HR|].
  split; [unfold load_logfile, on_snapshot; cbn [String.eqb Ascii.eqb Bool.eqb]; by rewrite (file_of_reads _ _ HR S1), E|].
  split; [|split; [exact X1|exact X2]]. exists 0. split; [apply lv_task|]. split; [apply lv_task|]. exists 0%N, 0%N. apply lv_success.
Qed.

(** Before the tick it is not so: execute() has begun, a is passed over because it has succeeded, and its records are
    read as outdated. The file holds the header of the session and not yet the Backref of a. *)
Theorem live_outdated_before_tick_refuted : exists F p x cfg v0 g cur out k n,
  begins_execute F p x cfg v0 /\ read_during v0 v0 g /\ Forall rust_record (written (fl_sched v0)) /\ load_logfile (Some g) "current,outdated" = LoadedPair cur out /\
  considered (deps (p_graph p)) (x_target x) n /\ task_has_key (deps (p_graph p)) n k /\ log_success (plog p) k /\
  ~ no_record k out /\ no_record k cur.
Proof.
  destruct lv_begins as (file & buf & Hfile & HB).
  assert (Forall rust_record (written (initial lv_cfg))) as HR by (apply records_checked; vm_compute; reflexivity).
  assert (Forall rust_record (plog lv_proc)) as HR2 by (apply records_checked; vm_compute; reflexivity).
  assert (match read_current_and_outdated (plog lv_proc) with
          | Some (cur, out) => (existsb (fun e => if record_of "a" e then true else false) cur, existsb (fun e => if record_of "a" e then true else false) out)
          | None => (true, false) end = (false, true)) as X by (vm_compute; reflexivity).
  destruct (read_current_and_outdated (plog lv_proc)) as [[cur out]|] eqn:E in X; [|discriminate X]. injection X as X1 X2.
  exists (w_file lv_world), lv_proc, lv_args, lv_cfg, (Flushing (initial lv_cfg) file buf), file, cur, out, "a", 0.
  split; [exact HB|]. split; [split; exists []; by rewrite app_nil_r|]. split; [exact HR|].
  split; [unfold load_logfile, on_snapshot; cbn [String.eqb Ascii.eqb Bool.eqb]; by rewrite (file_of_reads _ _ HR2 Hfile), E|].
  split; [apply lv_task|]. split; [apply lv_task|]. split; [exists 0%N, 0%N; apply lv_success|]. split.
  - intros Hno. apply existsb_exists in X2 as (e & He & X2). rewrite (Hno e He) in X2. discriminate X2.
  - intros e He. destruct (record_of "a" e) eqn:Er; [|reflexivity]. apply not_true_iff_false in X1. exfalso. apply X1, existsb_exists. exists e. rewrite Er. split; [exact He|reflexivity].
Qed.
Print Assumptions live_outdated_before_tick_refuted.

(** Nor with a target: b has succeeded and is among the tasks of the session. execute() with c as its target says
    nothing about b, so b's records are read as outdated, after the call too; and the next call without a target
    relies on them. *)
Definition lv_target : list call := lv_second ++ [CExecute (Some 2) [0] (run_tasks [0] [Code 0] stop)].
Definition lv_world2 : world := (ran lv_target).2.
Lemma lv_task2 : task_has_key (deps (p_graph (proc_of lv_world2))) 1 "b".
Proof.
  assert (map c_key (nodes (deps (p_graph (proc_of lv_world2)))) = ["a"; "b"; "c"]) as K by (vm_compute; reflexivity).
  unfold task_has_key. destruct (nodes (deps (p_graph (proc_of lv_world2)))) as [|c0 [|c1 l]]; try discriminate K. exists c1. split; [reflexivity|]. by injection K as _ K _.
Qed.
Lemma some_eq {A} (a b : A) : Some a = Some b -> a = b.
Proof. by intros [= ->]. Qed.
Theorem outdated_outside_target_refuted : exists h w p cur out k n x e cfg,
  possible h w /\ w_proc w = Some p /\ read_current_and_outdated (w_file w) = Some (cur, out) /\
  task_has_key (deps (p_graph p)) n k /\ log_success (plog p) k /\ ~ no_record k out /\
  args_ok x /\ start_execute p x = Some (e, cfg) /\ lf_entries (cf_log cfg) = plog p ++ [Backref (BackrefEntry k)].
Proof.
  set (p := proc_of lv_world2).
  assert (possible (ran lv_target).1 lv_world2) as Hposs by (apply ran_possible; vm_compute; reflexivity).
  assert (w_proc lv_world2 = Some p) as Hp by (apply proc_of_some; vm_compute; reflexivity).
  assert (match read_current_and_outdated (w_file lv_world2) with
          | Some (cur, out) => existsb (fun e => if record_of "b" e then true else false) out
          | None => false end = true) as X by (vm_compute; reflexivity).
  destruct (read_current_and_outdated (w_file lv_world2)) as [[cur out]|] eqn:E in X; [|discriminate X].
  assert (option_map (fun r => lf_entries (cf_log (snd r))) (start_execute (proc_of lv_world2) (demo_args None [0])) = Some (plog (proc_of lv_world2) ++ [Backref (BackrefEntry "b")])) as Y by (vm_compute; reflexivity).
  destruct (start_execute (proc_of lv_world2) (demo_args None [0])) as [[e cfg]|] eqn:E2 in Y; [|discriminate Y]. cbn [option_map snd] in Y.
  exists (ran lv_target).1, lv_world2, p, cur, out, "b", 1, (demo_args None [0]), e, cfg.
  split; [exact Hposs|]. split; [exact Hp|]. split; [exact E|]. split.
  { exact lv_task2. }
  split.
  { exists 0%N, 0%N. assert (runcount (lf_state (logfile (p_graph p))) "b" = Some (RFinished 0 0 true)) as R by (vm_compute; reflexivity).
    rewrite <- R. pose proof (possible_inv _ _ Hposs) as [_ Hi]. rewrite Hp in Hi. apply (log_ok_status _ "b" (pi_log _ _ Hi)). }
  split.
  { intros Hno. apply existsb_exists in X as (y & Hy & X). rewrite (Hno y Hy) in X. discriminate X. }
  split; [apply demo_args_ok|]. split; [exact E2|]. exact (some_eq _ _ Y).
Qed.
Print Assumptions outdated_outside_target_refuted.
(** The hypotheses of finished_not_outdated: the last call of this history ran c. *)
Example lv_finished : exists h tg cfg t nf ks, (ran lv_target).1 = h ++ [HExecuted tg cfg t (nf, ks)] /\ possible (ran lv_target).1 lv_world2 /\ In "c" ks.
Proof.
  assert (match last (ran lv_target).1 with Some (HExecuted _ _ _ (_, ks)) => existsb (String.eqb "c") ks | _ => false end = true) as X by (vm_compute; reflexivity).
  assert (possible (ran lv_target).1 lv_world2) as Hp by (apply ran_possible; vm_compute; reflexivity).
  destruct (last (ran lv_target).1) as [ev|] eqn:E; [|discriminate X]. destruct ev as [| | |tg cfg t [nf ks]| | |]; try discriminate X.
  apply last_Some in E as [h Hh]. exists h, tg, cfg, t, nf, ks. split; [exact Hh|]. split; [exact Hp|].
  apply existsb_exists in X as (k & Hk & Ek). apply String.eqb_eq in Ek as <-. exact Hk.
Qed.
