(** C48 and C52: the remote runner. *)
From Verif Require Export RemoteProofs.
From Coq Require Import Lia.
From stdpp Require Import prelude.
Open Scope N_scope.

(** ** C52: the messages of the remote runner *)
(** In every run each event is in its place ([in_place] of RemoteSpec.v): a report is for the task given last, after
    /begun for it, with nothing in between but signals to its process, and it says whether the deadline was the reason. *)
Theorem runner_protocol cf is m es : remote_run cf MStart is = Some (m, es) ->
  forall a e b, VStart :: es = a ++ e :: b -> in_place a e.
Proof. intros H. exact (proj2 (run_shape cf is MStart m es [VStart] H eq_refl good_start)). Qed.

(** No more reports than tasks begun, no more tasks begun than given. *)
Theorem runner_counts cf is m es : remote_run cf MStart is = Some (m, es) ->
  (count is_end es <= count is_begun es <= count is_given es)%nat.
Proof. intros H. pose proof (run_counts _ _ _ _ _ H). cbn in *. lia. Qed.

(** A report without a slurm message gives the status with which the command ended and what it wrote, or 13 for a command that could not
    be started; one with a slurm message gives -15 and asks for nothing more. *)
Theorem runner_reports_status cf is : forall m m' es tx st late slurm next out, remote_run cf m is = Some (m', es) ->
  VEnd tx st late slurm next out ∈ es ->
  match slurm with
  | None => (st = Code 13 /\ out = None) \/ exists raw usr1 now o s, IOutput raw usr1 now o ∈ is /\ child_code raw = Some s /\ st = Code (as_i32 s) /\ out = Some o
  | Some msg => st = Code (-15) /\ next = false /\ out = None /\ ISlurm msg ∈ is
  end.
Proof.
  induction is as [|i is IH]; intros m m' es tx st late slurm next out H X; simpl in H.
  - injection H as <- <-. by apply elem_of_nil in X.
  - destruct (remote_step cf m i) as [[m1 e1]|] eqn:E; [|done]. destruct (remote_run cf m1 is) as [[m2 e2]|] eqn:R; [|done].
    injection H as <- <-. apply elem_of_app in X as [X|X].
    + clear IH R. destruct m as [|tx0|tx0|tx0 pid|tx0 pid|tx0 pid late0| |tx0| |], i as [tx'| |u n| | |pid' [|]| | |raw u n o| |msg|now]; try discriminate; simpl in E;
        try (injection E as <- <-; try (by apply elem_of_nil in X); apply elem_of_list_singleton in X; try discriminate X).
      * injection X as -> -> -> -> -> ->. by left.
      * destruct (child_code raw) as [s|] eqn:C; injection E as <- <-; [|by apply elem_of_nil in X].
        apply elem_of_list_singleton in X. injection X as -> -> -> -> -> ->. right. exists raw, u, n, o, s. split; [left|done].
      * injection E as <- <-. apply elem_of_cons in X as [X|X]; [discriminate X|]. apply elem_of_list_singleton in X.
        injection X as -> -> -> -> -> ->. split; [done|]. split; [done|]. split; [done|left].
      * destruct (N.leb _ now); [|done]. injection E as <- <-. apply elem_of_list_singleton in X. discriminate X.
    + pose proof (IH _ _ _ _ _ _ _ _ _ R X) as Y. destruct slurm as [msg|].
      * destruct Y as (? & ? & ? & ?). split; [done|]. split; [done|]. split; [done|]. by right.
      * destruct Y as [?|(raw & u & n & o & s & Hin & Hc & -> & ->)]; [by left|]. right. exists raw, u, n, o, s. split; [by right|done].
Qed.

Lemma run_next cf is : (forall i, i ∈ is -> match i with IOk u now | IOutput _ u now _ => still_accepting cf u now = false | _ => True end) ->
  forall m m' es tx st late slurm next out, remote_run cf m is = Some (m', es) -> VEnd tx st late slurm next out ∈ es -> next = false.
Proof.
  induction is as [|i is IH]; intros Hi m m' es tx st late slurm next out H X; simpl in H.
  - injection H as <- <-. by apply elem_of_nil in X.
  - destruct (remote_step cf m i) as [[m1 e1]|] eqn:E; [|done]. destruct (remote_run cf m1 is) as [[m2 e2]|] eqn:R; [|done].
    injection H as <- <-. apply elem_of_app in X as [X|X]; [|eapply IH; [|done|done]; intros j Hj; apply Hi; by right].
    pose proof (Hi i (elem_of_list_here _ _)) as Ha. clear IH R Hi.
    destruct m as [|tx0|tx0|tx0 pid|tx0 pid|tx0 pid late0| |tx0| |], i as [tx'| |u n| | |pid' [|]| | |raw u n o| |msg|now]; try discriminate; simpl in E;
      try (injection E as <- <-; try (by apply elem_of_nil in X); apply elem_of_list_singleton in X; try discriminate X).
    + injection X as -> -> -> -> -> ->. done.
    + destruct (child_code raw) as [s|] eqn:C; injection E as <- <-; [|by apply elem_of_nil in X].
      apply elem_of_list_singleton in X. injection X as -> -> -> -> -> ->. done.
    + injection E as <- <-. apply elem_of_cons in X as [X|X]; [discriminate X|]. apply elem_of_list_singleton in X. by injection X.
    + destruct (N.leb _ now); [|done]. injection E as <- <-. apply elem_of_list_singleton in X. discriminate X.
Qed.

(** After SIGUSR1 the runner asks for no further task. *)
Theorem no_task_asked_after_usr1 cf is m m' es : Forall reads_usr1 is -> remote_run cf m is = Some (m', es) ->
  forall tx st late slurm next out, VEnd tx st late slurm next out ∈ es -> next = false.
Proof.
  intros F H tx st late slurm next out X. eapply run_next; [|exact H|exact X]. intros i Hi. rewrite Forall_forall in F. specialize (F i Hi).
  destruct i; try done; simpl in F; by rewrite F.
Qed.
(** Nor once the time given by --max-time-accepting-tasks has passed. *)
Theorem no_task_asked_after_time cf t is m m' es : cf_max_accepting cf = Some t -> Forall (reads_after (cf_start cf + t)) is ->
  remote_run cf m is = Some (m', es) ->
  forall tx st late slurm next out, VEnd tx st late slurm next out ∈ es -> next = false.
Proof.
  intros Ht F H tx st late slurm next out X. eapply run_next; [|exact H|exact X]. intros i Hi. rewrite Forall_forall in F. specialize (F i Hi).
  destruct i; try done; simpl in F; unfold still_accepting; rewrite Ht; (destruct usr1; [done|]); apply N.ltb_ge; lia.
Qed.
(** Before that, and without SIGUSR1, it does ask. *)
Theorem task_asked_before cf raw s tx pid late now out : child_code raw = Some s ->
  (forall t, cf_max_accepting cf = Some t -> now < cf_start cf + t) -> cf_start cf <= now ->
  remote_step cf (MWait tx pid late) (IOutput raw false now out) = Some (MEnd tx, [VEnd tx (Code (as_i32 s)) late None true (Some out)]).
Proof.
  intros Hc Ht Hs. simpl. rewrite Hc. unfold still_accepting. destruct (cf_max_accepting cf) as [t|]; [|done].
  specialize (Ht t eq_refl). replace (N.ltb (now - cf_start cf) t) with true; [done|]. symmetry. apply N.ltb_lt. lia.
Qed.

(** ** C48: signals *)
(** The deadline: a SIGTERM that is not for a slurm error comes no earlier than a minute before the end of a duration of
    more than two minutes, no earlier than the end of a shorter one, and at no time within a year if there is none. *)
Theorem deadline_not_early cf is : forall m m' es pid now, remote_run cf m is = Some (m', es) -> VSigterm pid (Some now) ∈ es ->
  match cf_duration cf with
  | Some d => d <= 31536000000 -> (120000 < d -> cf_start cf + d <= now + 60000) /\ (d <= 120000 -> cf_start cf + d <= now)
  | None => cf_start cf + 31536000000 <= now + 60000
  end.
Proof.
  intros m m' es pid now H X.
  assert (D : sigterm_deadline (cf_start cf) (cf_duration cf) <= now).
  { revert m m' es H X. induction is as [|i is IH]; intros m m' es H X; simpl in H.
    - injection H as <- <-. by apply elem_of_nil in X.
    - destruct (remote_step cf m i) as [[m1 e1]|] eqn:E; [|done]. destruct (remote_run cf m1 is) as [[m2 e2]|] eqn:R; [|done].
      injection H as <- <-. apply elem_of_app in X as [X|X]; [|by eapply IH]. clear IH R.
      destruct m as [|tx0|tx0|tx0 pid0|tx0 pid0|tx0 pid0 late0| |tx0| |], i as [tx'| |u n| | |pid' [|]| | |raw u n o| |msg|now0]; try discriminate; simpl in E;
        try (injection E as <- <-; try (by apply elem_of_nil in X); apply elem_of_list_singleton in X; try discriminate X).
      + destruct (child_code raw) as [s|] eqn:C; injection E as <- <-; [|by apply elem_of_nil in X]. apply elem_of_list_singleton in X. discriminate X.
      + injection E as <- <-. apply elem_of_cons in X as [X|X]; [discriminate X|]. apply elem_of_list_singleton in X. discriminate X.
      + destruct (N.leb_spec (sigterm_deadline (cf_start cf) (cf_duration cf)) now0) as [Hle|]; [|done]. injection E as <- <-.
        apply elem_of_list_singleton in X. injection X as -> ->. done. }
  revert D. unfold sigterm_deadline, ONE_YEAR, SEND_SIGTERM_BEFORE_DEADLINE. destruct (cf_duration cf) as [d|].
  - intros D Hd. rewrite N.min_l in D by done. destruct (N.ltb_spec (60000 * 2) d); lia.
  - rewrite N.min_id. intros D. destruct (N.ltb_spec (60000 * 2) 31536000000); lia.
Qed.

(** And it comes then: a command still running at that time is sent SIGTERM when the runner polls. *)
Theorem deadline_signals cf tx pid late now d : cf_duration cf = Some d ->
  (if N.ltb 120000 d then cf_start cf + d <= now + 60000 else cf_start cf + d <= now) ->
  remote_step cf (MWait tx pid late) (ITime now) = Some (MWait tx pid true, [VSigterm pid (Some now)]).
Proof.
  intros Hd H. simpl. rewrite Hd. replace (N.leb _ now) with true; [done|]. symmetry. apply N.leb_le.
  unfold sigterm_deadline, ONE_YEAR, SEND_SIGTERM_BEFORE_DEADLINE.
  destruct (N.ltb_spec 120000 d); destruct (N.ltb_spec (60000 * 2) (N.min d 31536000000)); lia.
Qed.

(** It is not sent once: the select loop polls the same instant again and again, so a command that does not end at once
    is sent SIGTERM any number of times. *)
Theorem deadline_signals_once_refuted : exists cf is0, forall n, exists m es,
  remote_run cf MStart (is0 ++ replicate n (ITime 200000)) = Some (m, es)
  /\ count is_given es = 1%nat /\ List.filter (fun e => match e with VSigterm 7 _ => true | _ => false end) es = replicate n (VSigterm 7 (Some 200000)).
Proof.
  set (cf := Config 0 (Some 200000) None). exists cf, [IGiven 1; ISpawned 7 false; IOk false 0].
  assert (A : forall n late, exists m, remote_run cf (MWait 1 7 late) (replicate n (ITime 200000)) = Some (m, replicate n (VSigterm 7 (Some 200000)))).
  { induction n as [|n IH]; intros late; [by eexists|]. cbn [replicate remote_run].
    rewrite (deadline_signals cf 1 7 late 200000 200000) by (done || (cbn; lia)). destruct (IH true) as [m ->]. exists m. done. }
  intros n. destruct (A n false) as [m Hm]. exists m. eexists. split.
  - cbn [app remote_run]. replace (remote_step cf MStart (IGiven 1)) with (Some (MSpawn 1, [VGiven 1])) by reflexivity.
    replace (remote_step cf (MSpawn 1) (ISpawned 7 false)) with (Some (MBegun 1 7, [VBegun 1 7])) by reflexivity.
    replace (remote_step cf (MBegun 1 7) (IOk false 0)) with (Some (MWait 1 7 false, @nil remote_event)) by reflexivity.
    rewrite Hm. reflexivity.
  - cbn. clear. induction n as [|n IH]; [done|]. cbn. destruct IH as [IH1 IH2]. split; [done|]. by f_equal.
Qed.

(** ** C48: the processes left behind *)
(** No process is sent SIGTERM twice. *)
Theorem sigterm_once passes es r : cleanup passes = (es, r) -> NoDup (sigterms es).
Proof. intros H. destruct (cleanup_spec _ _ _ H) as (m & [_ T] & _). by eapply NoDup_fmap_1. Qed.

Lemma through_listed a : forall m m' es c s t, through m a = (m', es) -> (c, s, t) ∈ es -> listed a c.
Proof.
  assert (S : forall now cs m m' es c s t, signal_children m now cs = (m', es) -> (c, s, t) ∈ es -> exists u, (c, u) ∈ cs).
  { intros now cs. induction cs as [|[d v] cs IH]; intros m m' es c s t H X; simpl in H.
    - injection H as <- <-. by apply elem_of_nil in X.
    - destruct (which_signal m (now - GRACE) (pr_pid d)) as [[]|].
      + destruct (signal_children (<[pr_pid d := v]> m) now cs) as [m1 es1] eqn:E. injection H as <- <-.
        apply elem_of_cons in X as [X|X]; [injection X as -> -> ->; eexists; left|]. destruct (IH _ _ _ _ _ _ E X) as [u Hu]. exists u. by right.
      + destruct (signal_children m now cs) as [m1 es1] eqn:E. injection H as <- <-.
        apply elem_of_cons in X as [X|X]; [injection X as -> -> ->; eexists; left|]. destruct (IH _ _ _ _ _ _ E X) as [u Hu]. exists u. by right.
      + destruct (IH _ _ _ _ _ _ H X) as [u Hu]. exists u. by right. }
  induction a as [|p a IH]; intros m m' es c s t H X; cbn in H.
  - injection H as <- <-. by apply elem_of_nil in X.
  - destruct (signal_children m (ps_now p) (ps_children p)) as [m1 es1] eqn:E. destruct (through m1 a) as [m2 es2] eqn:R. injection H as <- <-.
    apply elem_of_app in X as [X|X].
    + destruct (S _ _ _ _ _ _ _ _ E X) as [u Hu]. exists p, u. split; [left|done].
    + destruct (IH _ _ _ _ _ _ R X) as (q & u & Hq & Hu). exists q, u. split; [by right|done].
Qed.
Lemma cleanup_listed passes es r c s t : cleanup passes = (es, r) -> (c, s, t) ∈ es -> listed passes c.
Proof.
  assert (G : forall passes m, exists a b m', passes = a ++ b /\ through m a = (m', fst (cleanup_from m passes))).
  { clear. induction passes as [|p passes IH]; intros m; [by exists [], [], m|]. cbn.
    destruct (ps_children p) as [|x cs] eqn:Hc; [by exists [], (p :: passes), m|].
    destruct (signal_children m (ps_now p) (x :: cs)) as [m1 es1] eqn:E. destruct (ps_error p).
    - exists [p], passes, m1. split; [done|]. cbn. rewrite Hc, E. by rewrite app_nil_r.
    - destruct (IH m1) as (a & b & m2 & -> & H). exists (p :: a), b, m2. split; [done|]. cbn. rewrite Hc, E, H. by destruct (cleanup_from m1 (a ++ b)). }
  intros H X. unfold cleanup in H. destruct (G passes ∅) as (a & b & m' & -> & T). rewrite H in T. cbn in T.
  destruct (through_listed _ _ _ _ _ _ _ T X) as (p & u & Hp & Hu). exists p, u. split; [|done]. apply elem_of_app. by left.
Qed.

(** SIGKILL goes to a process only more than five seconds after SIGTERM went to the same process. *)
Theorem sigkill_after_sigterm passes es r : cleanup passes = (es, r) -> no_reuse passes ->
  forall a c t b, es = a ++ (c, SIGKILL, t) :: b -> exists t0, (c, SIGTERM, t0) ∈ a /\ t0 + 5000 < t.
Proof.
  intros H R a c t b E. destruct (cleanup_spec _ _ _ H) as (m & _ & K). destruct (K a c t b E) as (d & t0 & Hd & Hin & Ht). cbn [app] in Hin.
  exists t0. split; [|done]. replace c with d; [done|]. apply R; [..|done].
  - eapply cleanup_listed; [exact H|]. rewrite E. apply elem_of_app. left. exact Hin.
  - eapply cleanup_listed; [exact H|]. rewrite E. apply elem_of_app. right. left.
Qed.
(** When numbers are used again this fails: a new process is killed at once. *)
Theorem sigkill_after_sigterm_refuted : exists passes es r a c t b,
  cleanup passes = (es, r) /\ es = a ++ (c, SIGKILL, t) :: b /\ c ∉ sigterms es.
Proof.
  exists [Pass 0 [(Proc 5 1, 1)] false; Pass 6000 [(Proc 5 2, 6001)] false], [(Proc 5 1, SIGTERM, 1); (Proc 5 2, SIGKILL, 6000)], false.
  exists [(Proc 5 1, SIGTERM, 1)], (Proc 5 2), 6000, []. split; [vm_compute; reflexivity|]. split; [done|].
  intros X. cbn in X. apply elem_of_list_singleton in X. discriminate X.
Qed.

Lemma cleanup_snoc a p : Forall goes_on a -> ps_children p <> [] ->
  exists m es m' es', through ∅ a = (m, es) /\ signal_children m (ps_now p) (ps_children p) = (m', es') /\ tracks m es
    /\ fst (cleanup a) = es /\ fst (cleanup (a ++ [p])) = es ++ es'.
Proof.
  intros F Hc. destruct (through ∅ a) as [m es] eqn:E. destruct (signal_children m (ps_now p) (ps_children p)) as [m' es'] eqn:E2.
  exists m, es, m', es'. split; [done|]. split; [done|]. split; [exact (proj1 (through_spec _ _ _ _ _ E tracks_empty))|].
  unfold cleanup. rewrite <- (app_nil_r a) at 1. rewrite !cleanup_through by done. rewrite E. cbn.
  destruct (ps_children p) eqn:Hp; [done|]. rewrite E2. destruct (ps_error p); cbn; by rewrite ?app_nil_r.
Qed.

(** Every child found is sent SIGTERM, in that pass if not before. *)
Theorem every_child_signalled a p c t : Forall goes_on a -> no_reuse (a ++ [p]) -> (c, t) ∈ ps_children p ->
  exists t', (c, SIGTERM, t') ∈ fst (cleanup (a ++ [p])).
Proof.
  intros F R Hc. assert (Hne : ps_children p <> []) by (intros X; rewrite X in Hc; by apply elem_of_nil in Hc).
  destruct (cleanup_snoc a p F Hne) as (m & es & m' & es' & H1 & H2 & H3 & H4 & H5).
  destruct (signal_children_spec _ _ _ _ _ _ H2 H3) as (_ & _ & A & _). destruct (A c t Hc) as (d & t' & Hd & Hin).
  exists t'. rewrite H5. replace c with d; [done|]. apply R; [| |done].
  - destruct (cleanup (a ++ [p])) as [es0 r] eqn:E. cbn in H5. subst es0. eapply cleanup_listed; [exact E|exact Hin].
  - exists p, t. split; [|done]. apply elem_of_app. right. left.
Qed.

(** One that is still there in a pass more than five seconds after its SIGTERM is sent SIGKILL in that pass. *)
Theorem stubborn_child_killed a p c t t0 : Forall goes_on a -> (c, t) ∈ ps_children p ->
  (c, SIGTERM, t0) ∈ fst (cleanup a) -> t0 + 5000 < ps_now p -> (c, SIGKILL, ps_now p) ∈ fst (cleanup (a ++ [p])).
Proof.
  intros F Hc Hin Ht. assert (Hne : ps_children p <> []) by (intros X; rewrite X in Hc; by apply elem_of_nil in Hc).
  destruct (cleanup_snoc a p F Hne) as (m & es & m' & es' & H1 & H2 & H3 & H4 & H5).
  destruct (signal_children_spec _ _ _ _ _ _ H2 H3) as (_ & _ & _ & K). rewrite H5. apply elem_of_app. right.
  eapply (K c t t0); [done| |done]. apply H3. exists c. rewrite <- H4. done.
Qed.

(** It returns exactly when no child is left, or when waiting fails. *)
Theorem cleanup_returns passes : snd (cleanup passes) = true <->
  exists a p b, passes = a ++ p :: b /\ Forall goes_on a /\ (ps_children p = [] \/ ps_error p = true).
Proof.
  split.
  - destruct (cleanup_parts passes) as (a & rest & -> & F & [->|(p & b & -> & Hp)]); intros H; [|eauto 10].
    unfold cleanup in H. rewrite cleanup_through in H by done. destruct (through ∅ a). cbn in H. discriminate H.
  - intros (a & p & b & -> & F & Hp). unfold cleanup. rewrite cleanup_through by done. destruct (through ∅ a) as [m es]. cbn [snd fst cleanup_from].
    destruct Hp as [Hp|Hp]; rewrite Hp; [done|]. destruct (ps_children p) eqn:E; [done|]. by destruct (signal_children m (ps_now p) _).
Qed.

(** It ends: if all children found in a pass were sent SIGTERM more than five seconds before, no further one appears and
    SIGKILL removes those it is sent to, it returns in the next pass. *)
Theorem cleanup_ends a p q : Forall goes_on (a ++ [p]) ->
  (forall c t, (c, t) ∈ ps_children p -> exists t0, (c, SIGTERM, t0) ∈ fst (cleanup a) /\ t0 + 5000 < ps_now p) ->
  (forall c t, (c, t) ∈ ps_children q -> (exists t', (c, t') ∈ ps_children p) /\ (c, SIGKILL, ps_now p) ∉ fst (cleanup (a ++ [p]))) ->
  snd (cleanup (a ++ [p; q])) = true.
Proof.
  intros F Hp Hq. assert (Hn : ps_children q = []).
  { destruct (ps_children q) as [|[c t] cs] eqn:Hc; [done|exfalso]. destruct (Hq c t (elem_of_list_here _ _)) as [[t' Ht'] Hk].
    destruct (Hp c t' Ht') as (t0 & Hin & Hlt). apply Hk. apply Forall_app in F as [F _]. eapply stubborn_child_killed; done. }
  change [p; q] with ([p] ++ [q]). rewrite List.app_assoc. unfold cleanup. rewrite cleanup_through by done. destruct (through ∅ (a ++ [p])) as [m es].
  cbn. rewrite Hn. done.
Qed.

(** ** Cases that meet the hypotheses *)
(** Two tasks, the second still running at the deadline. *)
Definition demo_config := Config 1000 (Some 300000) (Some 100000).
Definition demo_out (s : string) : child_output := ChildOutput (list_ascii_of_string s) [] [].
Definition demo_inputs : list remote_input :=
  [IGiven 4; ISpawned 31 true; IFed; IOk false 1500; IOutput 256 false 50000 (demo_out "x"); IGiven 9; ISpawned 32 false; IOk false 50100;
   ITime 241000; IOutput 15 false 241100 (demo_out ""); INoTask].
Example demo52 : remote_run demo_config MStart demo_inputs =
  Some (MCleanup, [VGiven 4; VBegun 4 31; VEnd 4 (Code 1) false None true (Some (demo_out "x")); VGiven 9; VBegun 9 32;
                   VSigterm 32 (Some 241000); VEnd 9 (Code (-15)) true None false (Some (demo_out ""))]).
Proof. vm_compute. reflexivity. Qed.
Example demo48_early : remote_step demo_config (MWait 9 32 false) (ITime 240999) = None.
Proof. vm_compute. reflexivity. Qed.
Example demo52_usr1 : Forall reads_usr1 [IOk true 5; IOutput 0 true 7 (demo_out ""); INoTask].
Proof. repeat constructor. Qed.
Example demo52_time : Forall (reads_after (cf_start demo_config + 100000)) [IOk false 101000; IOutput 0 false 200000 (demo_out "")].
Proof. repeat constructor; simpl; lia. Qed.

(** Two processes left behind; one ignores SIGTERM. *)
Definition demo_passes : list pass :=
  [Pass 0 [(Proc 31 1, 1); (Proc 32 2, 2)] false; Pass 3000 [(Proc 32 2, 3001)] false; Pass 5002 [(Proc 32 2, 5003)] false;
   Pass 5003 [(Proc 32 2, 5004)] false; Pass 5100 [] false].
Example demo48 : cleanup demo_passes =
  ([(Proc 31 1, SIGTERM, 1); (Proc 32 2, SIGTERM, 2); (Proc 32 2, SIGKILL, 5003)], true).
Proof. vm_compute. reflexivity. Qed.
Example demo48_no_reuse : no_reuse demo_passes.
Proof.
  assert (L : forall c, listed demo_passes c -> c = Proc 31 1 \/ c = Proc 32 2).
  { intros c (p & t & Hp & Ht). unfold demo_passes in Hp.
    repeat (apply elem_of_cons in Hp as [-> |Hp]; [cbn in Ht; repeat (apply elem_of_cons in Ht as [[= -> _]|Ht]; [auto|]); by apply elem_of_nil in Ht|]).
    by apply elem_of_nil in Hp. }
  intros c d Hc Hd E. destruct (L c Hc) as [-> | ->], (L d Hd) as [-> | ->]; done.
Qed.
Example demo48_go : Forall goes_on (firstn 4 demo_passes).
Proof. repeat constructor; done. Qed.

Print Assumptions runner_protocol.
Print Assumptions runner_counts.
Print Assumptions runner_reports_status.
Print Assumptions no_task_asked_after_usr1.
Print Assumptions no_task_asked_after_time.
Print Assumptions task_asked_before.
Print Assumptions deadline_not_early.
Print Assumptions deadline_signals.
Print Assumptions deadline_signals_once_refuted.
Print Assumptions sigterm_once.
Print Assumptions sigkill_after_sigterm.
Print Assumptions sigkill_after_sigterm_refuted.
Print Assumptions every_child_signalled.
Print Assumptions stubborn_child_killed.
Print Assumptions cleanup_returns.
Print Assumptions cleanup_ends.
