(** C63: the parts of a call of execute() that run side by side. Vocabulary: ServiceSpec.v. *)
From Verif Require Import ServiceProofs.
Open Scope list_scope.

Section theorems.
Variable pl : plan.

(** The provisioner is the given command. Its argument is the address of the http server, which listens already; it has the
    token the server asks for. *)
Theorem provisioner_started_right s t t1 t2 cmd url token pid : sreachable pl s t -> t = t1 ++ OSpawned cmd url token pid :: t2 ->
  pl_prov pl = Some cmd /\ token = token_of (pl_random pl) /\ exists port, url = url_of port /\ In (OListening port) t1.
Proof.
  intros Hr E. destruct (made_by pl _ _ Hr _ _ _ E) as (s0 & t0 & a & s1 & os & l1 & l2 & R & H & Eo & ->). pose proof (addr_reach pl _ _ R) as HA.
  unfold sstep in H. destruct a; repeat match type of H with context [match ?x with _ => _ end] => destruct x eqn:?; try discriminate H end;
    injection H as <- <-; destruct l1 as [|? [|? [|? ?]]]; try discriminate Eo. injection Eo as -> <- <- <-.
  unfold addr_inv in HA. rewrite Heqa in HA. rewrite app_nil_r. done.
Qed.

(** All that happens to the provisioner, in this order: it is started at most once; it is waited for or killed, or first
    interrupted and then killed; no signal goes to it after it was waited for. *)
Theorem history_of_the_provisioner s t : sreachable pl s t ->
  provisioner_history t = [] \/ provisioner_history t = [OSpawnFailed] \/
  exists cmd url token pid rest, provisioner_history t = OSpawned cmd url token pid :: rest /\
    In rest [[]; [OWaited pid]; [OKilled pid SIGKILL]; [OKilled pid SIGINT]; [OKilled pid SIGINT; OKilled pid SIGKILL]].
Proof.
  intros Hr. pose proof (prov_reach pl _ _ Hr) as IP. unfold prov_inv in IP. destruct (ca_prov s).
  - left. apply IP.
  - destruct IP as (o & (cmd & port & _ & _ & ->) & E & _). right. right. do 4 eexists. exists []. rewrite E. split; [done|]. cbn. tauto.
  - destruct IP as (_ & o & (cmd & port & _ & _ & ->) & E & _). right. right. do 5 eexists. rewrite E. split; [done|]. cbn. tauto.
  - destruct IP as [(_ & ?)|(_ & [?|(o & pid & (cmd & port & _ & _ & ->) & [E|[E|E]])])]; [by left|right; by left|..];
      right; right; do 5 eexists; rewrite E; (split; [done|]); cbn; tauto.
  - left. apply IP.
Qed.

(** When execute() returns, the provisioner's process has been waited for or killed. *)
Theorem no_provisioner_left s t cmd url token pid : sreachable pl s t -> In OReturned t -> In (OSpawned cmd url token pid) t ->
  In (OWaited pid) t \/ In (OKilled pid SIGKILL) t.
Proof.
  intros Hr Hret Hs. pose proof (prov_reach pl _ _ Hr) as IP. destruct (users_reach pl _ _ Hr) as (_ & _ & I). rewrite (returned_main pl _ _ Hr Hret) in I.
  destruct I as [HJ _]. unfold joined in HJ. apply andb_true_iff in HJ as [_ HP].
  assert (Hs' : In (OSpawned cmd url token pid) (provisioner_history t)) by (apply List.filter_In; done).
  assert (Hh : forall o, In o (provisioner_history t) -> In o t) by (intros o Ho; apply List.filter_In in Ho; tauto).
  unfold prov_inv in IP. destruct (ca_prov s); try discriminate HP.
  - destruct IP as [(_ & E)|(_ & [E|(o & pid' & (cmd' & port & _ & _ & ->) & IP)])].
    + by rewrite E in Hs'.
    + rewrite E in Hs'. destruct Hs' as [?|[]]. discriminate.
    + assert (pid' = pid) as ->. { destruct IP as [E|[E|E]]; rewrite E in Hs'; cbn in Hs'; intuition congruence. }
      destruct IP as [E|[E|E]]; rewrite E in Hh; [left|right|right]; apply Hh; cbn; tauto.
  - destruct IP as (E & _). by rewrite E in Hs'.
Qed.

(** Nobody uses the tracker or the graph after execute() has dropped them, unless background_serve() fails or accept() of the
    admin server does. *)
Theorem no_use_after_free s t : sreachable pl s t -> ~ In OServeFailed t -> ~ In OAdminBroken t -> ~ use_after_free t.
Proof. apply no_uaf. Qed.

(** A cancelled call, in particular one whose provisioner is over, comes to its end: without a failure it can, and as long as
    it has not, something is to be done. *)
Theorem cancelled_call_ends s t : sreachable pl s t -> ca_hard s = true \/ provisioner_over t -> ~ In OFree t ->
  (exists acts s' t', srun pl s acts = Some (s', t') /\ In OReturned t' /\ Forall (fun a => unwanted a = false) acts) /\ ~ quiet pl s.
Proof.
  intros Hr Hc Hf. assert (Hh : ca_hard s = true) by (destruct Hc; [done|by eapply over_hard]). pose proof (main_free pl _ _ Hr Hf) as Hm. split.
  - by eapply comes_to_end.
  - intros Hq. destruct (go_on pl _ _ Hr Hh Hm) as (a & s' & os & H1 & H2 & H3). destruct (Hq a); congruence.
Qed.

(** And it cannot be put off for ever: the number of actions, apart from the repeatable ones, is bounded. *)
Theorem call_bounded acts s t : srun pl (start pl) acts = Some (s, t) ->
  length (List.filter (fun a => negb (repeatable a)) acts) <= 16 + pl_loops pl + length (List.filter connects acts).
Proof. intros H. apply measure_run in H. pose proof (measure_start pl). lia. Qed.

(** It returns, and interrupts its provisioner, for a reason only. *)
Theorem returns_for_a_reason acts s t : srun pl (start pl) acts = Some (s, t) -> In OReturned t -> asked_to_end acts \/ provisioner_over t.
Proof. apply return_reason. Qed.
Theorem interrupted_for_a_reason acts s t pid : srun pl (start pl) acts = Some (s, t) -> In (OKilled pid SIGINT) t -> asked_to_end acts.
Proof. apply interrupt_reason. Qed.
End theorems.
Print Assumptions returns_for_a_reason.
Print Assumptions interrupted_for_a_reason.
Print Assumptions provisioner_started_right.
Print Assumptions history_of_the_provisioner.
Print Assumptions no_provisioner_left.
Print Assumptions no_use_after_free.
Print Assumptions cancelled_call_ends.
Print Assumptions call_bounded.

(** Different random numbers give different tokens, which a header can carry. *)
Theorem token_determines_number n m : (n < 2 ^ 128)%N -> (m < 2 ^ 128)%N -> token_of n = token_of m -> n = m.
Proof. apply token_inj. Qed.
Theorem token_fits_header n : length (list_ascii_of_string (token_of n)) = 24 /\ is_b64token (token_of n).
Proof. apply token_shape. Qed.
Theorem address_determines_port p q : url_of p = url_of q -> p = q.
Proof. apply url_inj. Qed.
Print Assumptions token_determines_number.
Print Assumptions token_fits_header.
Theorem address_text p : exists digits, digits_value 0 digits = Some p /\ url_of p = "http://0.0.0.0:" +:+ digits.
Proof. exists (decimal p). split; [apply decimal_value|done]. Qed.
Print Assumptions address_determines_port.
Print Assumptions address_text.

(** One local runner and its console loop, and a provisioner. *)
Definition demo_plan : plan := Plan 2 (Some "prov"%string) 5.
Example demo_token : token_of 5 = "BQAAAAAAAAAAAAAAAAAAAA=="%string.
Proof. reflexivity. Qed.

(** The provisioner exits while a connection is open; all parts end. *)
Definition demo_begin : list saction := [AListen 8080; AAdminListens; AStart 77; AConnect; AConnUse; ALoopUse 0; AReap; AProcessExits; AWait].
Definition demo_end : list saction :=
  [AServeEnds; AAdminShutdown; ALoopEnd 1; AShutdown; AConnUse; AConnEnd; ADrained; AReap; AReaperStops; AServerJoins; AAdminDrained; ALoopUse 0; ALoopEnd 0; AReturn].
Example demo_call : exists s t, srun demo_plan (start demo_plan) (demo_begin ++ demo_end) = Some (s, t) /\
  provisioner_history t = [OSpawned "prov" "http://0.0.0.0:8080" "BQAAAAAAAAAAAAAAAAAAAA==" 77; OWaited 77] /\ In OReturned t /\ ~ In OServeFailed t /\ ~ In OAdminBroken t.
Proof.
  eexists _, _. split; [vm_compute; reflexivity|]. split; [reflexivity|]. cbn. split; [tauto|]. split; intros H; repeat (destruct H as [H|H]; [discriminate|]); done.
Qed.
Example demo_over : exists s t, srun demo_plan (start demo_plan) demo_begin = Some (s, t) /\ provisioner_over t /\ ~ In OFree t.
Proof.
  eexists _, _. split; [vm_compute; reflexivity|]. split; [right; left; exists 77%N; cbn; tauto|]. intros H. cbn in H. repeat (destruct H as [H|H]; [discriminate|]). done.
Qed.

(** Ctrl-C: the provisioner gets SIGINT, and SIGKILL at once. *)
Definition ctrl_c_acts : list saction := [AListen 8080; AStart 77; ACtrlC; AInterrupt; ADropChild].

(** Not true: the provisioner has time to react to SIGINT; here its process still runs. *)
Theorem provisioner_cleans_up_refuted : exists pl acts s t pid, srun pl (start pl) acts = Some (s, t) /\
  provisioner_history t = [OSpawned "prov" "http://0.0.0.0:8080" (token_of 5) pid; OKilled pid SIGINT; OKilled pid SIGKILL] /\ ca_proc s = Alive.
Proof. exists demo_plan, ctrl_c_acts. eexists _, _, 77%N. split; [vm_compute; reflexivity|]. split; reflexivity. Qed.
Print Assumptions provisioner_cleans_up_refuted.

(** Not true without the conditions: no use after drop. An error of background_serve(), as when the log cannot be written,
    makes execute() panic while its parts still run. *)
Theorem no_use_after_free_serve_refuted : exists pl s t, sreachable pl s t /\ ~ In OAdminBroken t /\ use_after_free t.
Proof.
  exists demo_plan. eexists _, _. split; [exists [AServeFails; ALoopUse 0]; vm_compute; reflexivity|]. split.
  - intros H. cbn in H. repeat (destruct H as [H|H]; [discriminate|]). done.
  - exists [OServeFailed], [OUse (ULoop 0)], (ULoop 0). split; [reflexivity|]. by left.
Qed.
Print Assumptions no_use_after_free_serve_refuted.
(** And an error of accept() of the admin server, as when there are too many open files, leaves its connections behind:
    a request for /status with a long timeout uses the tracker after the call. *)
Theorem no_use_after_free_admin_refuted : exists pl s t, sreachable pl s t /\ ~ In OServeFailed t /\ In OReturned t /\ use_after_free t.
Proof.
  exists (Plan 0 (Some "prov"%string) 5). eexists _, _. split.
  - exists [AListen 8080; AAdminListens; AStart 77; AAdminConnect; AAdminBroken; AProcessExits; AWait; AServeEnds; AShutdown; ADrained; AReaperStops; AServerJoins; AReturn; AAdminUse].
    vm_compute. reflexivity.
  - split; [intros H; cbn in H; repeat (destruct H as [H|H]; [discriminate|]); done|]. split; [cbn; tauto|].
    exists [OListening 8080; OSpawned "prov" "http://0.0.0.0:8080" "BQAAAAAAAAAAAAAAAAAAAA==" 77; OAdminBroken; OWaited 77], [OReturned; OUse UAdminConnection], UAdminConnection.
    split; [reflexivity|]. cbn. tauto.
Qed.
Print Assumptions no_use_after_free_admin_refuted.

(** Not true: a call whose services cannot start ends by itself. If the http server cannot be bound, its task panics, the
    provisioner's task panics because it gets no address, and nobody cancels: nothing happens until the user presses Ctrl-C. *)
Theorem call_without_server_ends_refuted : exists pl s t, sreachable pl s t /\ ~ In OFree t /\
  forall a, sstep pl s a <> None -> a = ACtrlC \/ a = AServeFails.
Proof.
  exists (Plan 0 (Some "prov"%string) 5). eexists _, _. split; [exists [ABindFails; ANoAddress; AAdminSkips]; vm_compute; reflexivity|]. split; [by intros []|].
  intros [] H; cbn in H; tauto || (exfalso; by apply H).
Qed.
Print Assumptions call_without_server_ends_refuted.
