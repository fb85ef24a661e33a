(** C72, with remote runners. Vocabulary: RecordJointSpec.v. *)
From Verif Require Import RecordJointProofs RecordProofs RecordProps JointProofs JointInv JointProps SchedProofs SchedProps.
From Verif Require ServerModel.
From Coq Require Import Lia.
From stdpp Require Import prelude gmap.

(** The reports that reach the scheduler from remote runners are the messages of the http server: all of them, in this order and with these contents. The
    others are made by the local loops. *)
Theorem remote_reports_are_messages secret cfg nlocal acts s t : jreachable secret cfg nlocal acts s t ->
  exists tacts, run cfg (initial cfg) tacts = Some (j_tracker s, tracker_side t) /\
    remote_part nlocal (reports cfg (initial cfg) tacts) = omap message_tells (http_side t) /\
    forall c r, (c, r) ∈ reports cfg (initial cfg) tacts -> c < nlocal -> exists a u, a ∈ local_actions acts /\ tells u a = [(c, r)].
Proof. intros H. by apply jrun_goes in H. Qed.
Print Assumptions remote_reports_are_messages.

Lemma in_remote nlocal rs r : r ∈ remote_part nlocal rs <-> exists c, (c, r) ∈ rs /\ nlocal <= c.
Proof.
  unfold remote_part. rewrite elem_of_list_omap. split.
  - intros ([c r'] & X & E). cbn [fst snd] in E. destruct (Nat.leb nlocal c) eqn:L; [|done]. injection E as ->. exists c. by apply Nat.leb_le in L.
  - intros (c & X & L). exists (c, r). split; [done|]. cbn [fst snd]. by rewrite (proj2 (Nat.leb_le nlocal c)) by done.
Qed.

(** A report about the end of a task that the server has accepted is in the log when the call is over, with its status and its values. *)
Theorem remote_end_recorded secret cfg nlocal acts s t n rep : jreachable secret cfg nlocal acts s t -> st_phase (j_tracker s) = PDrained ->
  ServerModel.EFinished n (inl rep) ∈ http_side t -> LFinished (task_key cfg n) (ServerModel.rp_status rep) (ServerModel.rp_values rep) ∈ new_lines cfg (j_tracker s).
Proof.
  intros H Hp X. destruct (remote_reports_are_messages _ _ _ _ _ _ H) as (ta & Hr & E & _).
  assert (Ended n (Code (ServerModel.rp_status rep)) (ServerModel.rp_values rep) ∈ remote_part nlocal (reports cfg (initial cfg) ta)) as Y.
  { rewrite E. apply elem_of_list_omap. by exists (ServerModel.EFinished n (inl rep)). }
  apply in_remote in Y as (c & Y & _). exact (end_recorded _ _ _ _ _ _ _ _ Hr Hp Y).
Qed.
Print Assumptions remote_end_recorded.

(** A line about an end comes from a report of a remote runner that the server has accepted, with its status and its values; or from the server's giving up a
    runner; or from a report of a local loop; or it was written in the clean-up for a task that was reported begun. *)
Theorem remote_finished_line_true secret cfg nlocal acts s t k z v : config_ok cfg -> jreachable secret cfg nlocal acts s t ->
  LFinished k z v ∈ new_lines cfg (j_tracker s) -> exists n, k = task_key cfg n /\
   ((exists rep, ServerModel.EFinished n (inl rep) ∈ http_side t /\ z = ServerModel.rp_status rep /\ v = ServerModel.rp_values rep) \/
    (exists msg, ServerModel.EFinished n (inr msg) ∈ http_side t /\ z = as_i32 Disconnected /\ v = []) \/
    (exists c x fl, c < nlocal /\ JTracker (ASendFinished c x v fl) ∈ acts /\ z = as_i32 x) \/
    (st_phase (j_tracker s) = PDrained /\ z = (-1)%Z /\ v = [] /\
      ((exists h p j, ServerModel.EStarted n h p j ∈ http_side t) \/ exists c h p j, c < nlocal /\ JTracker (ASendStarted c h p j) ∈ acts))).
Proof.
  intros Hok H X. destruct (remote_reports_are_messages _ _ _ _ _ _ H) as (ta & Hr & E & Hl).
  assert (forall a, a ∈ local_actions acts -> JTracker a ∈ acts) as Hla.
  { intros a Y. apply elem_of_list_omap in Y as (b & Y & Eb). destruct b; try done. by injection Eb as ->. }
  destruct (finished_line_true _ _ _ _ _ _ _ Hok Hr X) as (n & -> & [(c & x & Y & ->)|(Hp & -> & -> & a & h & p & j & b & Ey & _)]); exists n; (split; [done|]).
  - destruct (le_lt_dec nlocal c) as [L|L].
    + assert (Ended n x v ∈ omap message_tells (http_side t)) as Z by (rewrite <- E; apply in_remote; by exists c).
      apply elem_of_list_omap in Z as (e & Z & Ee). destruct e as [| | |n' [rep|msg]]; try discriminate Ee; injection Ee as -> <- <-; [left|right; left]; [by exists rep|by exists msg].
    + right. right. left. destruct (Hl _ _ Y L) as (a & u & Ha & Ea). apply Hla in Ha. destruct a; try discriminate Ea; cbn [tells] in Ea;
        (destruct (st_clients u !! _) as [[]|]; try discriminate Ea; injection Ea; intros; subst). all: eexists _, _, _; (split; [exact L|]); split; [exact Ha|done].
  - right. right. right. split; [done|]. split; [done|]. split; [done|].
    assert (Begun n h p j ∈ map snd (reports cfg (initial cfg) ta)) as Y by (rewrite Ey; apply elem_of_app; right; by left). apply in_snd in Y as (c & Y).
    destruct (le_lt_dec nlocal c) as [L|L].
    + left. assert (Begun n h p j ∈ omap message_tells (http_side t)) as Z by (rewrite <- E; apply in_remote; by exists c).
      apply elem_of_list_omap in Z as (e & Z & Ee). destruct e as [| | |n' [rep|msg]]; try discriminate Ee. injection Ee as -> -> -> ->. eauto.
    + right. destruct (Hl _ _ Y L) as (a' & u & Ha & Ea). apply Hla in Ha. destruct a'; try discriminate Ea; cbn [tells] in Ea;
        (destruct (st_clients u !! _) as [[]|]; try discriminate Ea; injection Ea; intros; subst). eexists _, _, _, _; (split; [exact L|]); exact Ha.
Qed.
Print Assumptions remote_finished_line_true.

(** ** A concrete run: the run [duo] of JointProps.v, with values; then the call is cancelled and ends. *)
Definition rep1 : ServerModel.report := ServerModel.Report 0 "out" "" vals.
Definition rj_acts : list jaction :=
  removelast duo_1 ++ [JHttp (ServerModel.LRequest 3 "s" (Some "j") (ServerModel.QEnd 10 rep1 (Some ServerProps.sr0))) 1;
    JHttp (ServerModel.LRun 3 0) 1; JHttp (ServerModel.LRun 3 0) 1] ++ duo_2 ++ duo_3 ++
  [JTracker AHardCancel; JTracker AHardExit] ++ instrs 67 ++ [JHttp ServerModel.LStop 0; JClose; JTracker (ADrop 0); JLeave 1; JLeave 2; JTracker (ADrain [] 50)].
Definition rj_end : option (list line * bool * list ServerModel.event) :=
  match jrun "s" duo 1 (joint_new duo) rj_acts with
  | Some (s, t) => Some (new_lines duo (j_tracker s), match st_phase (j_tracker s) with PDrained => true | _ => false end, http_side t)
  | None => None
  end.
Lemma rj_parts r : rj_end = Some r -> exists s t, jreachable "s" duo 1 rj_acts s t /\ new_lines duo (j_tracker s) = fst (fst r) /\
  match st_phase (j_tracker s) with PDrained => true | _ => false end = snd (fst r) /\ http_side t = snd r.
Proof. unfold rj_end, jreachable. destruct (jrun "s" duo 1 (joint_new duo) rj_acts) as [[s t]|]; [|discriminate]. intros E. injection E as <-. eauto 10. Qed.
Example rj_run : exists s t, jreachable "s" duo 1 rj_acts s t /\ st_phase (j_tracker s) = PDrained /\ ServerModel.EFinished 0 (inl rep1) ∈ http_side t /\
  new_lines duo (j_tracker s) = [LReady "a" 0 "true" 0; LStarted "a" "host" 7 "j"; LReady "b" 0 "true" 0; LFinished "a" 0 vals].
Proof.
  edestruct rj_parts as (s & t & H & Hl & Hp & Ht); [vm_compute; reflexivity|]. cbn [fst snd] in *. exists s, t. split; [exact H|].
  split; [clear - Hp; by destruct (st_phase (j_tracker s))|]. split; [|exact Hl]. rewrite Ht. apply elem_of_list_In. vm_compute. auto 10.
Qed.
