(** The invariant of the server and the tracker together. *)
From Verif Require Import JointSpec JointProofs SchedTrace.
From Verif Require ServerProofs ServerTrace.
From Coq Require Import Lia.
From stdpp Require Import prelude.
Local Open Scope nat_scope.

Definition status_of (how : ServerModel.report + string) : exit_status :=
  match how with inl rep => Code (ServerModel.rp_status rep) | inr _ => Disconnected end.

Lemma tracker_side_app a b : tracker_side (a ++ b) = tracker_side a ++ tracker_side b.
Proof. apply omap_app. Qed.
Lemma http_side_app a b : http_side (a ++ b) = http_side a ++ http_side b.
Proof. apply omap_app. Qed.
Lemma tracker_side_l os : tracker_side (map inl os) = os.
Proof. induction os; cbn; [done|]. by f_equal. Qed.
Lemma tracker_side_r evs : tracker_side (map inr evs) = [].
Proof. by induction evs. Qed.
Lemma http_side_l os : http_side (map inl os) = [].
Proof. by induction os. Qed.
Lemma http_side_r evs : http_side (map inr evs) = evs.
Proof. induction evs; cbn; [done|]. by f_equal. Qed.
Lemma in_tracker_side o t : o ∈ tracker_side t <-> inl o ∈ t.
Proof.
  unfold tracker_side. rewrite elem_of_list_omap. split.
  - intros ([o'|e] & H & [= ->]); done.
  - intros H. by exists (inl o).
Qed.
Lemma in_http_side e t : e ∈ http_side t <-> inr e ∈ t.
Proof.
  unfold http_side. rewrite elem_of_list_omap. split.
  - intros ([o'|e'] & H & [= ->]); done.
  - intros H. by exists (inr e).
Qed.

Lemma mixed_in (os : list obs) (evs : list ServerModel.event) w e t2 : map inl os ++ map inr evs = w ++ inr e :: t2 -> e ∈ evs.
Proof.
  intros H. assert (e ∈ http_side (map inl os ++ map inr evs)) as He.
  { apply in_http_side. rewrite H. apply elem_of_app. right. by left. }
  by rewrite http_side_app, http_side_l, http_side_r in He.
Qed.

Section inv.
Context (secret : string) (cfg : config) (nlocal : nat).
Local Notation jstep := (jstep secret cfg nlocal).
Local Notation jrun := (jrun secret cfg nlocal).
Local Notation send := (send cfg nlocal).
Local Notation send_all := (send_all cfg nlocal).
Local Notation hstep := (ServerModel.step secret).
Local Notation held := ServerProofs.held.
Local Notation holders := (holders nlocal).

Lemma trun_app a : forall b t t' o, run cfg t (a ++ b) = Some (t', o) <->
  exists t1 o1 o2, run cfg t a = Some (t1, o1) /\ run cfg t1 b = Some (t', o2) /\ o = o1 ++ o2.
Proof.
  induction a as [|x a IH]; intros b t t' o; cbn [app run].
  { split; [intros H; by exists t, [], o|]. intros (t1 & o1 & o2 & [= <- <-] & H & ->). done. }
  destruct (step cfg t x) as [[t1 o1]|]; [|split; [done|]; by intros (? & ? & ? & ? & _)].
  split.
  - destruct (run cfg t1 (a ++ b)) as [[t2 o2]|] eqn:E; [|done]. intros [= <- <-].
    apply IH in E as (t3 & o3 & o4 & E1 & E2 & ->). rewrite E1. eexists _, _, _. split; [reflexivity|]. split; [done|]. by rewrite List.app_assoc.
  - intros (t2 & o2 & o3 & H1 & H2 & ->). destruct (run cfg t1 a) as [[t3 o4]|] eqn:E; [|done]. injection H1 as <- <-.
    assert (run cfg t1 (a ++ b) = Some (t', o4 ++ o3)) as -> by (apply IH; eauto 10). by rewrite List.app_assoc.
Qed.
Lemma trun_one t a t' o : step cfg t a = Some (t', o) -> run cfg t [a] = Some (t', o).
Proof. intros H. cbn [run]. by rewrite H, app_nil_r. Qed.

Lemma hrun_snoc s ls l s1 e1 s2 e2 : ServerModel.run secret s ls = Some (s1, e1) -> hstep s1 l = Some (s2, e2) ->
  ServerModel.run secret s (ls ++ [l]) = Some (s2, e1 ++ e2).
Proof.
  intros H1 H2. eapply ServerProofs.run_app_2; [done|]. cbn. by rewrite H2, app_nil_r.
Qed.

Lemma jrun_snoc acts : forall s a s' t, jrun s (acts ++ [a]) = Some (s', t) ->
  exists s1 t1 t2, jrun s acts = Some (s1, t1) /\ jstep s1 a = Some (s', t2) /\ t = t1 ++ t2.
Proof.
  induction acts as [|x acts IH]; intros s a s' t H; cbn [app JointModel.jrun] in H.
  { destruct (jstep s a) as [[s1 t1]|] eqn:E; [|done]. injection H as <- <-. exists s, [], t1. by rewrite app_nil_r. }
  destruct (jstep s x) as [[s1 t1]|] eqn:E; [|done].
  destruct (jrun s1 (acts ++ [a])) as [[s2 t2]|] eqn:E2; [|done]. injection H as <- <-.
  apply IH in E2 as (s3 & t3 & t4 & H1 & H2 & ->). exists s3, (t1 ++ t3), t4. cbn [JointModel.jrun]. rewrite E, H1.
  split; [done|]. split; [done|]. by rewrite List.app_assoc.
Qed.

(** Sending one message. *)
Lemma send_spec t c f e t' os : send t c f e = Some (t', os) ->
  match e with
  | ServerModel.EStarted n host pid job =>
      nlocal <= c /\ st_clients t !! c = Some (CHolding n) /\ step cfg t (ASendStarted c host pid job) = Some (t', os) /\
      os = [OSentStarted c n] /\ st_clients t' = <[c := CRunning n]> (st_clients t)
  | ServerModel.EFinished n how =>
      nlocal <= c /\ (exists x, st_clients t !! c = Some x /\ has n x = true) /\
      step cfg t (report_action c f how) = Some (t', os) /\
      (exists fl, os = [OSentFinished c n (status_of how) fl]) /\ st_clients t' = <[c := CIdle]> (st_clients t)
  | _ => t' = t /\ os = []
  end.
Proof.
  unfold JointModel.send. destruct e; try (by intros [= <- <-]).
  - destruct (Nat.leb_spec nlocal c) as [Hc|]; [|done]. cbn [andb]. destruct (holds t c node) eqn:Hh; [|done]. intros H.
    pose proof H as H'. cbn [step] in H. unfold holds in Hh. repeat case_match; simplify_eq. apply Nat.eqb_eq in Hh as ->. done.
  - destruct (Nat.leb_spec nlocal c) as [Hc|]; [|done]. cbn [andb]. destruct (holds t c node) eqn:Hh; [|done]. intros H. pose proof H as H'.
    destruct how as [rep|msg]; cbn [step report_action status_of] in H |- *; unfold holds in Hh; repeat case_match; simplify_eq; apply Nat.eqb_eq in Hh as ->.
    all: (split; [done|]; split; [eexists; split; [reflexivity|]; cbn; apply Nat.eqb_refl|]; split; [done|]; split; [eauto|done]).
Qed.

Lemma send_all_spec c f evs : forall t t' os, send_all t c f evs = Some (t', os) ->
  (exists ta, run cfg t ta = Some (t', os)) /\
  (forall n, holders n t' + ServerSpec.finishes n evs = holders n t) /\
  (forall c', nlocal <= c' \/ st_clients t' !! c' = st_clients t !! c') /\
  (forall c', c' <> c -> st_clients t' !! c' = st_clients t !! c') /\
  (forall x, st_clients t !! c = Some x -> is_recv x = true -> st_clients t' !! c = Some x) /\
  (forall n, st_clients t' !! c = Some (CRunning n) -> st_clients t !! c = Some (CRunning n) \/ exists e, e ∈ evs /\ is_begun n e) /\
  (forall o, o ∈ os -> match o with
     | OSentStarted c' n => c' = c
     | OSentFinished c' n x fl => c' = c /\ exists how, ServerModel.EFinished n how ∈ evs /\ x = status_of how
     | _ => False end).
Proof.
  induction evs as [|e evs IH]; intros t t' os H; cbn [JointModel.send_all] in H.
  { injection H as <- <-. split; [by exists []|]. split; [unfold ServerSpec.finishes; cbn; lia|]. split; [auto|]. split; [auto|]. split; [auto|].
    split; [auto|]. intros o Ho. by apply elem_of_nil in Ho. }
  destruct (send t c f e) as [[t1 o1]|] eqn:E1; [|done].
  destruct (send_all t1 c f evs) as [[t2 o2]|] eqn:E2; [|done]. injection H as <- <-.
  destruct (IH _ _ _ E2) as ((ta & Hr) & Hh & Hl & Hne & Hrec & Hrun & Hos). clear IH.
  assert (forall n, ServerSpec.finishes n (e :: evs) = b2n (ServerSpec.is_finish n e) + ServerSpec.finishes n evs) as Hf.
  { intros n. unfold ServerSpec.finishes. cbn. by destruct (ServerSpec.is_finish n e). }
  apply send_spec in E1. 
  assert (match e with ServerModel.EReply _ _ | ServerModel.ETask _ _ => True | _ => False end \/
          ((exists n host pid job, e = ServerModel.EStarted n host pid job) \/ exists n how, e = ServerModel.EFinished n how)) as [He|[He|He]] by (destruct e; eauto 10).
  - assert (t1 = t /\ o1 = []) as [-> ->] by (destruct e; done).
    split; [eauto|]. split; [intros n; rewrite Hf; replace (ServerSpec.is_finish n e) with false by (by destruct e); apply Hh|].
    split; [done|]. split; [done|]. split; [done|]. split.
    { intros n Hn. destruct (Hrun n Hn) as [|(e' & ? & ?)]; [auto|]. right. exists e'. split; [by right|done]. }
    intros o Ho. specialize (Hos o Ho). destruct o; try done. destruct Hos as (-> & how & ? & ?). split; [done|]. exists how. split; [by right|done].
  - destruct He as (n0 & host & pid & job & ->). destruct E1 as (Hc & Hx & Hs & -> & Hcl).
    assert (c < length (st_clients t)) as Hlt by (by eapply lookup_lt_Some).
    split; [exists (ASendStarted c host pid job :: ta); cbn [run]; by rewrite Hs, Hr|].
    split. { intros n. rewrite Hf. pose proof (holders_change nlocal n t t1 c _ _ Hx Hcl) as Hch. specialize (Hh n). cbn in *. lia. }
    split. { intros c'. destruct (Hl c') as [|Hl']; [auto|]. destruct (decide (c' = c)) as [->|]; [auto|]. right. rewrite Hl', Hcl. by rewrite list_lookup_insert_ne. }
    split. { intros c' Hc'. rewrite (Hne c' Hc'), Hcl. by rewrite list_lookup_insert_ne. }
    split. { intros x Hx' Hr'. by simplify_eq. }
    split. { intros n Hn. destruct (Hrun n Hn) as [Hn'|(e' & ? & ?)].
      - rewrite Hcl, list_lookup_insert in Hn' by done. right. eexists. split; [by left|]. simplify_eq. by eexists _, _, _.
      - right. exists e'. split; [by right|done]. }
    intros o [Ho|Ho]%elem_of_app; [apply elem_of_list_singleton in Ho as ->; done|].
    specialize (Hos o Ho). destruct o; try done. destruct Hos as (-> & how & ? & ?). split; [done|]. exists how. split; [by right|done].
  - destruct He as (n0 & how & ->). destruct E1 as (Hc & (x & Hx & Hhx) & Hs & (fl & ->) & Hcl).
    assert (c < length (st_clients t)) as Hlt by (by eapply lookup_lt_Some).
    split; [exists (report_action c f how :: ta); cbn [run]; by rewrite Hs, Hr|].
    split. { intros n. rewrite Hf. pose proof (holders_change nlocal n t t1 c _ _ Hx Hcl) as Hch. specialize (Hh n).
      assert (has n x = Nat.eqb n n0) as Hn. { destruct x; try done; cbn in Hhx |- *; apply Nat.eqb_eq in Hhx; by subst. }
      rewrite Hn in Hch. apply Nat.leb_le in Hc. rewrite Hc in Hch. cbn in *. destruct (Nat.eqb n n0); cbn in *; lia. }
    split. { intros c'. destruct (Hl c') as [|Hl']; [auto|]. destruct (decide (c' = c)) as [->|]; [auto|]. right. rewrite Hl', Hcl. by rewrite list_lookup_insert_ne. }
    split. { intros c' Hc'. rewrite (Hne c' Hc'), Hcl. by rewrite list_lookup_insert_ne. }
    split. { intros y Hy Hr'. rewrite Hx in Hy. injection Hy as ->. by destruct y. }
    split. { intros n Hn. destruct (Hrun n Hn) as [Hn'|(e' & ? & ?)].
      - by rewrite Hcl, list_lookup_insert in Hn' by done.
      - right. exists e'. split; [by right|done]. }
    intros o [Ho|Ho]%elem_of_app; [apply elem_of_list_singleton in Ho as ->; split; [done|]; exists how; split; [by left|done]|].
    specialize (Hos o Ho). destruct o; try done. destruct Hos as (-> & how' & ? & ?). split; [done|]. exists how'. split; [by right|done].
Qed.

(** ** The invariant *)
Record JInv (acts : list jaction) (s : joint) (t : list (obs + ServerModel.event)) : Prop := {
  ji_tracker : exists ta, run cfg (initial cfg) ta = Some (j_tracker s, tracker_side t);
  ji_http : exists ls, ServerModel.run secret ServerModel.server_new ls = Some (j_http s, http_side t) /\
    forall l, l ∈ ls -> is_deliver l = true \/ exists c, JHttp l c ∈ acts;
  ji_recv : forall h c, j_recv s !! h = Some c -> nlocal <= c /\
    (exists i, waiting (j_http s) h = Some i /\ cf_types cfg !! c = Some i) /\
    exists x, st_clients (j_tracker s) !! c = Some x /\ is_recv x = true;
  ji_wait : forall h i, waiting (j_http s) h = Some i -> is_Some (j_recv s !! h);
  ji_inj : forall h h' c, j_recv s !! h = Some c -> j_recv s !! h' = Some c -> h = h';
  ji_held : j_closed s = false -> forall n, held n (j_http s) <= holders n (j_tracker s);
  ji_run : forall c n, nlocal <= c -> st_clients (j_tracker s) !! c = Some (CRunning n) -> exists e, e ∈ http_side t /\ is_begun n e;
  ji_got : forall h x n, ServerModel.sv_handlers (j_http s) !! h = Some x -> got x = Some n -> handed_out (tracker_side t) n;
  ji_task : forall h n, ServerModel.ETask h n ∈ http_side t -> exists c i, nlocal <= c /\ OHandedOut c i n ∈ tracker_side t;
  ji_given : forall t1 e t2 tx n, t = t1 ++ inr e :: t2 -> ServerSpec.gives tx n e -> handed_out (tracker_side t1) n;
  ji_sent : forall c n x f, OSentFinished c n x f ∈ tracker_side t -> nlocal <= c ->
    exists how, ServerModel.EFinished n how ∈ http_side t /\ x = status_of how;
  ji_closed : j_closed s = true -> ServerModel.sv_handlers (j_http s) = ∅
}.

Lemma handed_mono t t' n : handed_out t n -> handed_out (t ++ t') n.
Proof. intros (c & i & H). exists c, i. apply in_or_app. by left. Qed.

Lemma jinv_new : JInv [] (joint_new cfg) [].
Proof.
  split; cbn.
  - by exists [].
  - exists []. split; [done|]. intros l H. by apply elem_of_nil in H.
  - intros h c H. by rewrite lookup_empty in H.
  - unfold waiting. cbn. intros h i. rewrite lookup_empty. done.
  - intros h h' c H. by rewrite lookup_empty in H.
  - intros _ n. rewrite ServerProofs.held_new. lia.
  - intros c n _ H. rewrite list_lookup_fmap in H. destruct (cf_types cfg !! c); done.
  - intros h x n H. by rewrite lookup_empty in H.
  - intros h n H. by apply elem_of_nil in H.
  - intros t1 e t2 tx n H. by destruct t1.
  - intros c n x f H. by apply elem_of_nil in H.
  - done.
Qed.

(** A split of a longer trace. *)
Lemma given_app t t' (P : list (obs + ServerModel.event) -> Prop) t1 (y : obs + ServerModel.event) t2 : t ++ t' = t1 ++ y :: t2 ->
  (exists t2', t = t1 ++ y :: t2') \/ exists u, t1 = t ++ u /\ t' = u ++ y :: t2.
Proof.
  revert t1. induction t as [|z t IH]; intros t1 H; cbn in H.
  - right. by exists t1.
  - destruct t1 as [|z1 t1]; cbn in H; injection H as -> H.
    + left. by exists t.
    + apply IH in H as [(t2' & ->)|(u & -> & ->)]; [left; by exists t2'|right; by exists u].
Qed.

(** Steps that only the tracker makes. *)
Lemma jinv_tracker acts s t a ta t' os r : JInv acts s t ->
  run cfg (j_tracker s) ta = Some (t', os) ->
  (forall c, nlocal <= c -> st_clients t' !! c = st_clients (j_tracker s) !! c \/
     (exists x y, st_clients (j_tracker s) !! c = Some x /\ st_clients t' !! c = Some y /\ is_recv x = true /\ is_recv y = true) \/
     (j_closed s = true /\ (forall h, r !! h <> Some c) /\ exists y, st_clients t' !! c = Some y /\ forall n, y <> CRunning n)) ->
  (j_closed s = false -> forall n, holders n t' = holders n (j_tracker s)) ->
  (forall c n x f, OSentFinished c n x f ∈ os -> c < nlocal) ->
  (r = j_recv s) ->
  JInv (acts ++ [a]) (Joint (j_http s) t' r (j_flags s) (j_next s) (j_closed s)) (t ++ map inl os).
Proof.
  intros HI Hr Hc Hh Ho ->. destruct HI as [I1 I2 I3 I4 I5 I6 I7 I8 I9 I10 I11 I12].
  split; cbn [j_http j_tracker j_recv j_flags j_next j_closed]; rewrite ?tracker_side_app, ?http_side_app, ?tracker_side_l, ?http_side_l, ?app_nil_r.
  - destruct I1 as (ta0 & I1). exists (ta0 ++ ta). apply trun_app. eauto 10.
  - destruct I2 as (ls & I2 & I2'). exists ls. split; [done|]. intros l Hl. destruct (I2' l Hl) as [|(c & H)]; [auto|]. right. exists c. set_solver.
  - intros h c H. destruct (I3 h c H) as (A & B & x & C & D). split; [done|]. split; [done|].
    destruct (Hc c A) as [E|[(x' & y & E1 & E2 & E3 & E4)|(E1 & E2 & _)]]; [rewrite E; eauto|eauto|by destruct (E2 h)].
  - done.
  - done.
  - intros Hcl n. rewrite Hh by done. auto.
  - intros c n Hn H. destruct (Hc c Hn) as [E|[(x' & y & E1 & E2 & E3 & E4)|(E1 & E2 & y & E3 & E4)]].
    + rewrite E in H. eauto.
    + rewrite E2 in H. injection H as ->. done.
    + rewrite E3 in H. injection H as ->. by destruct (E4 n).
  - intros h x n H H'. by eapply handed_mono, I8.
  - intros h n H. destruct (I9 h n H) as (c & i & A & B). exists c, i. split; [done|]. set_solver.
  - intros t1 e t2 tx n H Hg. apply (given_app _ _ (fun _ => True)) in H as [(t2' & ->)|(u & -> & H)]; [by eapply I10|].
    exfalso. assert (e ∈ http_side (map inl os)) as He by (apply in_http_side; rewrite H; set_solver). rewrite http_side_l in He. by apply elem_of_nil in He.
  - intros c n x f [H|H]%elem_of_app Hn; [by eapply I11|]. apply Ho in H. lia.
  - done.
Qed.

Lemma insert_ne_remote (t t' : st) c x : st_clients t' = <[c := x]> (st_clients t) -> c < nlocal ->
  forall c', nlocal <= c' -> st_clients t' !! c' = st_clients t !! c'.
Proof. intros E Hc c' Hc'. rewrite E, list_lookup_insert_ne by lia. done. Qed.
Lemma holders_local n (t t' : st) c x : c < length (st_clients t) -> st_clients t' = <[c := x]> (st_clients t) -> c < nlocal ->
  holders n t' = holders n t.
Proof.
  intros Hlt E Hc. destruct (lookup_lt_is_Some_2 _ _ Hlt) as [y Hy]. pose proof (holders_change nlocal n t t' c y x Hy E) as H.
  apply Nat.leb_gt in Hc. rewrite Hc in H. cbn in H. lia.
Qed.

Lemma jinv_jtracker acts s t a s' t' : JInv acts s t -> jstep s (JTracker a) = Some (s', t') -> JInv (acts ++ [JTracker a]) s' (t ++ t').
Proof.
  intros HI H. cbn [JointModel.jstep] in H.
  destruct (match client_of a with Some c => Nat.ltb c nlocal && no_flag a | None => true end) eqn:Ha; [|done].
  destruct (step cfg (j_tracker s) a) as [[u os]|] eqn:E; [|done]. injection H as <- <-.
  eapply jinv_tracker; [done|by apply trun_one| | | |done].
  - intros c Hc. left. destruct (client_of a) as [c0|] eqn:Hca.
    + apply andb_true_iff in Ha as [Ha%Nat.ltb_lt _].
      destruct (client_step _ _ _ _ _ _ E Hca) as (Hlt & [[Hs _]|(x & Hs)]); [by rewrite Hs|]. by eapply insert_ne_remote.
    + by rewrite (others_clients _ _ _ _ _ E Hca).
  - intros _ n. destruct (client_of a) as [c0|] eqn:Hca.
    + apply andb_true_iff in Ha as [Ha%Nat.ltb_lt _].
      destruct (client_step _ _ _ _ _ _ E Hca) as (Hlt & [[Hs _]|(x & Hs)]); [by apply holders_same|by eapply holders_local].
    + apply holders_same. by rewrite (others_clients _ _ _ _ _ E Hca).
  - intros c n x f Ho. pose proof (step_origin cfg _ _ _ _ E) as F. rewrite Forall_forall in F. apply F in Ho as (_ & _ & v & ->).
    cbn in Ha. apply andb_true_iff in Ha as [Ha%Nat.ltb_lt _]. done.
Qed.

Lemma recv_obs t a u os c : step cfg t a = Some (u, os) -> recv_action c a = true -> forall c' n x f, OSentFinished c' n x f ∉ os.
Proof.
  intros E Ha c' n x f Ho. pose proof (step_origin cfg _ _ _ _ E) as F. rewrite Forall_forall in F. apply F in Ho as (_ & _ & v & ->). done.
Qed.

Lemma jinv_jrecv acts s t h a s' t' : JInv acts s t -> jstep s (JRecv h a) = Some (s', t') -> JInv (acts ++ [JRecv h a]) s' (t ++ t').
Proof.
  intros HI H. cbn [JointModel.jstep] in H. destruct (j_recv s !! h) as [c|] eqn:Hc; [|done].
  destruct (recv_action c a) eqn:Ha; [|done]. destruct (step cfg (j_tracker s) a) as [[u os]|] eqn:E; [|done].
  destruct (ji_recv _ _ _ HI h c Hc) as (Hcl & (i & Hw & Hty) & _).
  destruct (recv_step _ _ _ _ _ _ E Ha) as ((x & Hx & Hrx) & [(Hr & Hs)|[(i' & n & -> & Hs)|(e & -> & Hs)]]).
  - rewrite Hr in H. injection H as <- <-. eapply jinv_tracker; [done|by apply trun_one| | | |done].
    + intros c' Hc'. destruct Hs as [Hs|(y & Hy & Hs)]; [left; by rewrite Hs|]. rewrite Hs.
      destruct (decide (c' = c)) as [->|]; [|left; by rewrite list_lookup_insert_ne].
      right. left. exists x, y. split; [done|]. by rewrite list_lookup_insert by (by eapply lookup_lt_Some).
    + intros _ n. destruct Hs as [Hs|(y & Hy & Hs)]; [by apply holders_same|].
      pose proof (holders_change nlocal n _ _ c x y Hx Hs) as Hch.
      assert (has n x = false) as E1 by (by destruct x). assert (has n y = false) as E2 by (by destruct y). rewrite E1, E2 in Hch. lia.
    + intros c' n y f Ho. by eapply recv_obs in Ho.
  - (* a task *)
    cbn [returned] in H. destruct (hstep (j_http s) (ServerModel.LDeliver h (ServerModel.DTask n))) as [[sv evs]|] eqn:Eh; [|done]. injection H as <- <-.
    assert (Hsv := Eh). cbn [ServerModel.step] in Hsv. unfold waiting in Hw.
    destruct (ServerModel.sv_handlers (j_http s) !! h) as [xh|] eqn:Ehh; [|done]. destruct xh as [sr job in_end| | | | |]; try done. injection Hsv as Hsv <-.
    destruct (ServerProofs.account secret n _ _ _ _ Eh) as [_ _].
    assert (forall m, held m sv <= held m (j_http s) + b2n (Nat.eqb m n)) as Hheld.
    { intros m. destruct (ServerProofs.account secret m _ _ _ _ Eh) as [A _]. unfold ServerSpec.finishes, ServerSpec.tasks in A. cbn in A.
      destruct (Nat.eqb m n); cbn in *; lia. }
    assert (forall h', h' <> h -> ServerModel.sv_handlers sv !! h' = ServerModel.sv_handlers (j_http s) !! h') as Hoth.
    { intros h' Hne. eapply other_handlers; [exact Eh|]. cbn. congruence. }
    assert (waiting sv h = None) as Hwn. { eapply waiting_ends; [exact Eh|done|]. unfold waiting. by rewrite Ehh. }
    assert (Hhh : ServerModel.sv_handlers sv !! h = Some (ServerModel.HGot n sr job in_end)) by (subst sv; cbn; apply lookup_insert).
    clear Hsv. destruct HI as [I1 I2 I3 I4 I5 I6 I7 I8 I9 I10 I11 I12].
    split; cbn [j_http j_tracker j_recv j_flags j_next j_closed]; rewrite ?tracker_side_app, ?http_side_app, ?tracker_side_l, ?tracker_side_r, ?http_side_l, ?http_side_r, ?app_nil_r, ?app_nil_l.
    + destruct I1 as (ta0 & I1). exists (ta0 ++ [a]). apply trun_app. eexists _, _, _. split; [done|]. split; [by apply trun_one|done].
    + destruct I2 as (ls & I2 & I2'). exists (ls ++ [ServerModel.LDeliver h (ServerModel.DTask n)]). split; [by eapply hrun_snoc|].
      intros l [Hl|Hl]%elem_of_app; [|apply elem_of_list_singleton in Hl as ->; by left].
      destruct (I2' l Hl) as [|(c' & H)]; [auto|]. right. exists c'. set_solver.
    + intros h' c' [Hne H]%lookup_delete_Some. destruct (I3 h' c' H) as (A & (i0 & B1 & B2) & y & C & D). split; [done|]. split.
      { exists i0. split; [|done]. unfold waiting. by rewrite Hoth. }
      rewrite Hs. destruct (decide (c' = c)) as [->|]; [|rewrite list_lookup_insert_ne by done; eauto].
      exfalso. by eapply Hne, I5.
    + intros h' i0 H. destruct (decide (h' = h)) as [->|Hne]; [by rewrite Hwn in H|]. rewrite lookup_delete_ne by done.
      eapply I4. unfold waiting in *. by rewrite Hoth in H.
    + intros h1 h2 c' [_ H1]%lookup_delete_Some [_ H2]%lookup_delete_Some. by eapply I5.
    + intros Hcd m. specialize (I6 Hcd m). specialize (Hheld m). pose proof (holders_change nlocal m _ _ c x _ Hx Hs) as Hch.
      assert (has m x = false) as E1 by (by destruct x). apply Nat.leb_le in Hcl. rewrite E1, Hcl in Hch. cbn [has andb] in Hch. rewrite ?andb_false_r in Hch. cbn [b2n] in Hch. lia.
    + intros c' m Hc' H. rewrite Hs in H. destruct (decide (c' = c)) as [->|].
      { by rewrite list_lookup_insert in H by (by eapply lookup_lt_Some). }
      rewrite list_lookup_insert_ne in H by done. destruct (I7 c' m Hc' H) as (e & ? & ?). exists e. set_solver.
    + intros h' y m H H'. destruct (decide (h' = h)) as [->|Hne].
      * rewrite Hhh in H. injection H as <-. injection H' as <-. exists c, i'. apply in_or_app. right. by left.
      * rewrite Hoth in H by done. by eapply handed_mono, I8.
    + intros h' m [H|H]%elem_of_app.
      * destruct (I9 _ _ H) as (c' & i0 & ? & ?). exists c', i0. set_solver.
      * apply elem_of_list_singleton in H as [= -> ->]. exists c, i'. set_solver.
    + intros t1 e t2 tx m H Hg. apply (given_app _ _ (fun _ => True)) in H as [(t2' & ->)|(w & -> & H)]; [by eapply I10|].
      exfalso. pose proof (mixed_in [OHandedOut c i' n] [ServerModel.ETask h n] _ _ _ H) as He. apply elem_of_list_singleton in He as ->. destruct Hg as (? & [Hg|Hg]); done.
    + intros c' m y f [H|H]%elem_of_app Hc'; [|by apply elem_of_list_singleton in H]. destruct (I11 _ _ _ _ H Hc') as (how & ? & ?). exists how. set_solver.
    + intros Hcd. rewrite (I12 Hcd) in Ehh. by rewrite lookup_empty in Ehh.
  - (* an error *)
    assert (exists d, returned [ORecvErr c e] = Some d /\ (d = ServerModel.DShutdown \/ d = ServerModel.DNoSuchRunnerType)) as (d & Hd & Hdd) by (destruct e; cbn; eauto).
    rewrite Hd in H. destruct (hstep (j_http s) (ServerModel.LDeliver h d)) as [[sv evs]|] eqn:Eh; [|done]. injection H as <- <-.
    assert (Hsv := Eh). cbn [ServerModel.step] in Hsv. unfold waiting in Hw.
    destruct (ServerModel.sv_handlers (j_http s) !! h) as [xh|] eqn:Ehh; [|done]. destruct xh as [sr job in_end| | | | |]; try done.
    assert (exists err, evs = [ServerModel.EReply h (ServerModel.RError err)]) as (err & Hevs) by (destruct Hdd as [-> | ->]; injection Hsv as _ <-; eauto).
    assert (Hhh : ServerModel.sv_handlers sv !! h = None). { destruct Hdd as [-> | ->]; injection Hsv as <- _; cbn; apply lookup_delete. } clear Hsv. subst evs.
    assert (forall m, held m sv <= held m (j_http s)) as Hheld.
    { intros m. destruct (ServerProofs.account secret m _ _ _ _ Eh) as [A _]. unfold ServerSpec.finishes, ServerSpec.tasks in A. cbn in A. lia. }
    assert (forall h', h' <> h -> ServerModel.sv_handlers sv !! h' = ServerModel.sv_handlers (j_http s) !! h') as Hoth.
    { intros h' Hne. eapply other_handlers; [exact Eh|]. cbn. congruence. }
    destruct HI as [I1 I2 I3 I4 I5 I6 I7 I8 I9 I10 I11 I12].
    split; cbn [j_http j_tracker j_recv j_flags j_next j_closed]; rewrite ?tracker_side_app, ?http_side_app, ?tracker_side_l, ?tracker_side_r, ?http_side_l, ?http_side_r, ?app_nil_r, ?app_nil_l.
    + destruct I1 as (ta0 & I1). exists (ta0 ++ [a]). apply trun_app. eexists _, _, _. split; [done|]. split; [by apply trun_one|done].
    + destruct I2 as (ls & I2 & I2'). exists (ls ++ [ServerModel.LDeliver h d]). split; [by eapply hrun_snoc|].
      intros l [Hl|Hl]%elem_of_app; [|apply elem_of_list_singleton in Hl as ->; by left].
      destruct (I2' l Hl) as [|(c' & H)]; [auto|]. right. exists c'. set_solver.
    + intros h' c' [Hne H]%lookup_delete_Some. destruct (I3 h' c' H) as (A & (i0 & B1 & B2) & y & C & D). split; [done|]. split.
      { exists i0. split; [|done]. unfold waiting. by rewrite Hoth. }
      rewrite Hs. destruct (decide (c' = c)) as [->|]; [|rewrite list_lookup_insert_ne by done; eauto].
      exfalso. by eapply Hne, I5.
    + intros h' i0 H. destruct (decide (h' = h)) as [->|Hne]; [unfold waiting in H; by rewrite Hhh in H|]. rewrite lookup_delete_ne by done.
      eapply I4. unfold waiting in *. by rewrite Hoth in H.
    + intros h1 h2 c' [_ H1]%lookup_delete_Some [_ H2]%lookup_delete_Some. by eapply I5.
    + intros Hcd m. specialize (I6 Hcd m). specialize (Hheld m). pose proof (holders_change nlocal m _ _ c x _ Hx Hs) as Hch.
      assert (has m x = false) as E1 by (by destruct x). rewrite E1 in Hch. cbn [has] in Hch. lia.
    + intros c' m Hc' H. rewrite Hs in H. destruct (decide (c' = c)) as [->|].
      { by rewrite list_lookup_insert in H by (by eapply lookup_lt_Some). }
      rewrite list_lookup_insert_ne in H by done. destruct (I7 c' m Hc' H) as (e0 & ? & ?). exists e0. set_solver.
    + intros h' y m H H'. destruct (decide (h' = h)) as [->|Hne]; [by rewrite Hhh in H|]. rewrite Hoth in H by done. by eapply handed_mono, I8.
    + intros h' m [H|H]%elem_of_app; [|by apply elem_of_list_singleton in H].
      destruct (I9 _ _ H) as (c' & i0 & ? & ?). exists c', i0. set_solver.
    + intros t1 e0 t2 tx m H Hg. apply (given_app _ _ (fun _ => True)) in H as [(t2' & ->)|(w & -> & H)]; [by eapply I10|].
      exfalso. pose proof (mixed_in [ORecvErr c e] [ServerModel.EReply h (ServerModel.RError err)] _ _ _ H) as He. apply elem_of_list_singleton in He as ->. destruct Hg as (? & [Hg|Hg]); done.
    + intros c' m y f [H|H]%elem_of_app Hc'; [|by apply elem_of_list_singleton in H]. destruct (I11 _ _ _ _ H Hc') as (how & ? & ?). exists how. set_solver.
    + intros Hcd. rewrite (I12 Hcd) in Ehh. by rewrite lookup_empty in Ehh.
Qed.

Lemma drop_step t c t' os : step cfg t (ADrop c) = Some (t', os) -> os = [] /\ exists x y, st_clients t !! c = Some x /\
  st_clients t' = <[c := y]> (st_clients t) /\ (forall n, y <> CRunning n) /\ (is_recv x = true -> y = CGone).
Proof. intros H. cbn [step] in H. repeat case_match; simplify_eq; (split; [done|]); eexists _, _; (split; [reflexivity|]); (split; [reflexivity|]); done. Qed.
Lemma no_task n s l s' evs : hstep s l = Some (s', evs) -> is_deliver l = false -> ServerSpec.tasks n evs = 0 /\ forall h m, ServerModel.ETask h m ∉ evs.
Proof.
  intros H Hd. assert (forall h m, ServerModel.ETask h m ∉ evs) as Hn.
  { intros h0 m Hi. destruct l; try discriminate; cbn [ServerModel.step] in H.
    1: { destruct (ServerModel.sv_handlers s !! h) eqn:E; [discriminate|]. unfold ServerModel.request_step in H. destruct (String.eqb token secret); [|unfold ServerModel.reply_now in H; simplify_eq; set_solver].
      destruct q; unfold ServerModel.start, ServerModel.begun, ServerModel.end_, ServerModel.ping, ServerModel.mark, ServerModel.reply_now in H; repeat case_match; simplify_eq; set_solver. }
    all: unfold ServerModel.run_step, ServerModel.reap_step in H; repeat case_match; simplify_eq; set_solver. }
  split; [|done]. unfold ServerSpec.tasks. destruct (List.filter _ evs) as [|e r] eqn:E; [done|]. exfalso.
  assert (In e (e :: r)) as Hi by (by left). rewrite <- E in Hi. apply filter_In in Hi as [Hi He]. destruct e; try done. eapply Hn. by apply elem_of_list_In.
Qed.

Lemma jinv_http acts s t l c sv evs ta t2 os2 r flags next : JInv acts s t -> j_closed s = false -> is_deliver l = false ->
  hstep (j_http s) l = Some (sv, evs) ->
  run cfg (j_tracker s) ta = Some (t2, os2) ->
  (forall n, holders n t2 + ServerSpec.finishes n evs = holders n (j_tracker s)) ->
  (forall h c, r !! h = Some c -> nlocal <= c /\ (exists i, waiting sv h = Some i /\ cf_types cfg !! c = Some i) /\
    exists x, st_clients t2 !! c = Some x /\ is_recv x = true) ->
  (forall h i, waiting sv h = Some i -> is_Some (r !! h)) ->
  (forall h h' c, r !! h = Some c -> r !! h' = Some c -> h = h') ->
  (forall c n, nlocal <= c -> st_clients t2 !! c = Some (CRunning n) ->
     st_clients (j_tracker s) !! c = Some (CRunning n) \/ exists e, e ∈ evs /\ is_begun n e) ->
  (forall c n x f, OSentFinished c n x f ∈ os2 -> exists how, ServerModel.EFinished n how ∈ evs /\ x = status_of how) ->
  JInv (acts ++ [JHttp l c]) (Joint sv t2 r flags next false) (t ++ map inl os2 ++ map inr evs).
Proof.
  intros HI Hcl Hd Eh Hr Hh H3 H4 H5 H7 H11. destruct HI as [I1 I2 I3 I4 I5 I6 I7 I8 I9 I10 I11 I12].
  split; cbn [j_http j_tracker j_recv j_flags j_next j_closed]; rewrite ?tracker_side_app, ?http_side_app, ?tracker_side_l, ?tracker_side_r, ?http_side_l, ?http_side_r, ?app_nil_r, ?app_nil_l.
  - destruct I1 as (ta0 & I1). exists (ta0 ++ ta). apply trun_app. eauto 10.
  - destruct I2 as (ls & I2 & I2'). exists (ls ++ [l]). split; [by eapply hrun_snoc|].
    intros l' [Hl|Hl]%elem_of_app.
    + destruct (I2' l' Hl) as [|(c' & H)]; [auto|]. right. exists c'. apply elem_of_app. by left.
    + apply elem_of_list_singleton in Hl as ->. right. exists c. apply elem_of_app. right. by left.
  - done.
  - done.
  - done.
  - intros _ n. specialize (I6 Hcl n). specialize (Hh n). destruct (ServerProofs.account secret n _ _ _ _ Eh) as [A _].
    destruct (no_task n _ _ _ _ Eh Hd) as [B _]. lia.
  - intros c' n Hc' H. destruct (H7 _ _ Hc' H) as [H'|(e & ? & ?)].
    + destruct (I7 _ _ Hc' H') as (e & ? & ?). exists e. split; [|done]. apply elem_of_app. by left.
    + exists e. split; [|done]. apply elem_of_app. by right.
  - intros h x n Hx Hg. destruct (got_origin _ _ _ _ _ _ _ _ Eh Hd Hx Hg) as (y & Hy & Hgy). by eapply handed_mono, I8.
  - intros h n [H|H]%elem_of_app; [|by eapply no_task in H]. destruct (I9 _ _ H) as (c' & i & ? & ?). exists c', i. split; [done|]. apply elem_of_app. by left.
  - intros t1 e t3 tx n H Hg. apply (given_app _ _ (fun _ => True)) in H as [(t2' & ->)|(w & -> & H)]; [by eapply I10|].
    apply mixed_in in H. destruct (gives_origin _ _ _ _ _ _ _ _ Eh H Hg) as (_ & h & y & Hy & Hgy). rewrite tracker_side_app. by eapply handed_mono, I8.
  - intros c' n x f [H|H]%elem_of_app Hc'.
    + destruct (I11 _ _ _ _ H Hc') as (how & ? & ?). exists how. split; [|done]. apply elem_of_app. by left.
    + destruct (H11 _ _ _ _ H) as (how & ? & ?). exists how. split; [|done]. apply elem_of_app. by right.
  - done.
Qed.

Lemma jinv_jhttp acts s t l c s' t' : JInv acts s t -> jstep s (JHttp l c) = Some (s', t') -> JInv (acts ++ [JHttp l c]) s' (t ++ t').
Proof.
  intros HI H. cbn [JointModel.jstep] in H.
  destruct (j_closed s || is_deliver l || negb (flag_ok s l)) eqn:Hg; [done|].
  apply orb_false_iff in Hg as [[Hcl Hd]%orb_false_iff _].
  destruct (hstep (j_http s) l) as [[sv evs]|] eqn:Eh; [|done].
  destruct (send_all (j_tracker s) c (j_next s) evs) as [[t1 os1]|] eqn:Es; [|done].
  destruct (new_flags s l evs) as [flags next].
  destruct (send_all_spec _ _ _ _ _ _ Es) as ((ta & Hr) & Hh & _ & Hne & Hrec & Hrun & Hos).
  assert (forall c' x, st_clients (j_tracker s) !! c' = Some x -> is_recv x = true -> st_clients t1 !! c' = Some x) as Hkeep.
  { intros c' x Hx Hrx. destruct (decide (c' = c)) as [->|Hn]; [by apply Hrec|by rewrite Hne]. }
  assert (forall c' n, st_clients t1 !! c' = Some (CRunning n) ->
     st_clients (j_tracker s) !! c' = Some (CRunning n) \/ exists e, e ∈ evs /\ is_begun n e) as Hrun'.
  { intros c' n Hn. destruct (decide (c' = c)) as [->|Hn']; [by apply Hrun|left; by rewrite <- Hne]. }
  assert (forall c' n x f, OSentFinished c' n x f ∈ os1 -> exists how, ServerModel.EFinished n how ∈ evs /\ x = status_of how) as Hos'.
  { intros c' n x f Ho. apply Hos in Ho as [_ Ho]. done. }
  assert ((forall h, label_handler l = Some h -> waiting sv h = waiting (j_http s) h) ->
    Some (Joint sv t1 (j_recv s) flags next false, map inl os1 ++ map inr evs) = Some (s', t') -> JInv (acts ++ [JHttp l c]) s' (t ++ t')) as Hkept.
  { intros Hw [= <- <-]. eapply jinv_http; try done; [| |apply HI|eauto].
    - intros h c' H'. destruct (ji_recv _ _ _ HI h c' H') as (A & (i & B1 & B2) & x & C & D). split; [done|]. split; [|eauto].
      exists i. split; [|done]. destruct (decide (label_handler l = Some h)) as [Hl|Hl]; [by rewrite Hw|]. by rewrite (other_waiting _ _ _ _ _ _ Eh Hl).
    - intros h i H'. eapply (ji_wait _ _ _ HI). destruct (decide (label_handler l = Some h)) as [Hl|Hl]; [by rewrite <- Hw|]. by rewrite <- (other_waiting _ _ _ _ _ _ Eh Hl). }
  destruct (label_handler l) as [h|] eqn:Hl; [|by apply Hkept].
  destruct (waiting (j_http s) h) as [i|] eqn:W; destruct (waiting sv h) as [i'|] eqn:W'.
  - assert (waiting sv h = None) as W2 by (by eapply waiting_ends). rewrite W' in W2. done.
  - (* the call is dropped *)
    destruct (j_recv s !! h) as [c'|] eqn:Hc'; [|done]. destruct (step cfg t1 (ADrop c')) as [[t2 os2]|] eqn:Ed; [|done]. injection H as <- <-.
    destruct (ji_recv _ _ _ HI h c' Hc') as (Hlc & _ & x & Hx & Hrx). pose proof (Hkeep _ _ Hx Hrx) as Hx1.
    destruct (drop_step _ _ _ _ Ed) as (-> & x' & y & Hx' & Hcl2 & _ & Hy). rewrite Hx1 in Hx'. injection Hx' as <-. rewrite (Hy Hrx) in Hcl2.
    assert (c' < length (st_clients t1)) as Hlt by (by eapply lookup_lt_Some).
    eapply (jinv_http _ _ _ _ _ _ _ (ta ++ [ADrop c'])); try done.
    + apply trun_app. eexists _, _, _. split; [done|]. split; [by apply trun_one|done].
    + intros n. rewrite <- Hh. f_equal. pose proof (holders_change nlocal n _ _ c' x _ Hx1 Hcl2) as Hch.
      assert (has n x = false) as E1 by (by destruct x). rewrite E1 in Hch. cbn [has] in Hch. lia.
    + intros h0 c0 [Hn H']%lookup_delete_Some. destruct (ji_recv _ _ _ HI h0 c0 H') as (A & (i0 & B1 & B2) & x0 & C & D). split; [done|]. split.
      { exists i0. split; [|done]. rewrite (other_waiting _ _ _ _ _ h0 Eh); [done|]. rewrite Hl. congruence. }
      exists x0. split; [|done]. rewrite Hcl2, list_lookup_insert_ne; [by apply Hkeep|]. intros ->. by eapply Hn, (ji_inj _ _ _ HI).
    + intros h0 i0 H'. destruct (decide (h0 = h)) as [->|Hn]; [by rewrite W' in H'|]. rewrite lookup_delete_ne by done.
      eapply (ji_wait _ _ _ HI). rewrite <- (other_waiting _ _ _ _ _ h0 Eh); [done|]. rewrite Hl. congruence.
    + intros h1 h2 c0 [_ H1]%lookup_delete_Some [_ H2]%lookup_delete_Some. by eapply (ji_inj _ _ _ HI).
    + intros c0 n Hc0 H'. rewrite Hcl2 in H'. destruct (decide (c0 = c')) as [->|Hn]; [by rewrite list_lookup_insert in H'|].
      rewrite list_lookup_insert_ne in H' by done. eauto.
    + rewrite app_nil_r. eauto.
  - (* a new call *)
    destruct (can_attach cfg nlocal s t1 c i') eqn:Ha; [|done]. injection H as <- <-. unfold can_attach in Ha.
    apply andb_true_iff in Ha as [[[Ha1%Nat.leb_le Ha2]%andb_true_iff Ha3%bool_decide_eq_true_1]%andb_true_iff Ha4].
    rewrite forallb_forall in Ha4.
    assert (forall h0, j_recv s !! h0 <> Some c) as Hfresh.
    { intros h0 H0. specialize (Ha4 (h0, c)). cbn in Ha4. rewrite Nat.eqb_refl in Ha4. cbn in Ha4. discriminate Ha4.
      apply elem_of_list_In. by apply elem_of_map_to_list. }
    destruct (st_clients t1 !! c) as [xc|] eqn:Exc; [|done]. destruct xc; try done.
    eapply jinv_http; try done; [| | |eauto].
    + intros h0 c0 [[E1 E2]|[Hn H']]%lookup_insert_Some; [subst h0 c0; split; [done|]; split; [eauto|]; eauto|].
      destruct (ji_recv _ _ _ HI h0 c0 H') as (A & (i0 & B1 & B2) & x0 & C & D). split; [done|]. split; [|eauto].
      exists i0. split; [|done]. rewrite (other_waiting _ _ _ _ _ h0 Eh); [done|]. rewrite Hl. congruence.
    + intros h0 i0 H'. destruct (decide (h0 = h)) as [->|Hn]; [rewrite lookup_insert; eauto|]. rewrite lookup_insert_ne by done.
      eapply (ji_wait _ _ _ HI). rewrite <- (other_waiting _ _ _ _ _ h0 Eh); [done|]. rewrite Hl. congruence.
    + intros h1 h2 c0 [[E1 E2]|[Hn1 H1]]%lookup_insert_Some [[E3 E4]|[Hn2 H2]]%lookup_insert_Some; subst; try done; [by exfalso; eapply Hfresh..|by eapply (ji_inj _ _ _ HI)].
  - apply Hkept; [|done]. intros h0 [= <-]. by rewrite W, W'.
Qed.

Lemma jinv_step acts s t a s' t' : JInv acts s t -> jstep s a = Some (s', t') -> JInv (acts ++ [a]) s' (t ++ t').
Proof.
  intros HI H. destruct a as [a|h a|l c| |c].
  - by eapply jinv_jtracker.
  - by eapply jinv_jrecv.
  - by eapply jinv_jhttp.
  - cbn [JointModel.jstep] in H.
    assert (exists b, (if bool_decide (ServerModel.sv_handlers (j_http s) = ∅)
            then Some (Joint (j_http s) (j_tracker s) (j_recv s) (j_flags s) (j_next s) b, @nil (obs + ServerModel.event))
            else None) = Some (s', t') /\ b = true) as (b & H' & ->).
    { destruct (ServerModel.sv_reaper (j_http s)); try done; by exists true. } clear H.
    destruct (bool_decide_reflect (ServerModel.sv_handlers (j_http s) = ∅)) as [He|]; [|done]. injection H' as <- <-. rewrite app_nil_r.
    destruct HI as [I1 I2 I3 I4 I5 I6 I7 I8 I9 I10 I11 I12]. split; try done.
    destruct I2 as (ls & I2 & I2'). exists ls. split; [done|]. intros l Hl. destruct (I2' l Hl) as [|(c & H)]; [auto|]. right. exists c. apply elem_of_app. by left.
  - cbn [JointModel.jstep] in H. destruct (j_closed s) eqn:Hcl; [|done]. destruct (Nat.leb_spec nlocal c) as [Hc|]; [|done]. cbn [andb] in H.
    destruct (step cfg (j_tracker s) (ADrop c)) as [[t2 os2]|] eqn:Ed; [|done]. injection H as <- <-. rewrite <- Hcl.
    destruct (drop_step _ _ _ _ Ed) as (-> & x & y & Hx & Hcl2 & Hny & _).
    eapply jinv_tracker; [done|by apply trun_one| | | |done].
    + intros c' Hc'. destruct (decide (c' = c)) as [->|Hn]; [|left; by rewrite Hcl2, list_lookup_insert_ne]. right. right.
      split; [done|]. split.
      * intros h Hh. destruct (ji_recv _ _ _ HI h c Hh) as (_ & (i & W & _) & _). unfold waiting in W. by rewrite (ji_closed _ _ _ HI Hcl), lookup_empty in W.
      * exists y. split; [|done]. by rewrite Hcl2, list_lookup_insert by (by eapply lookup_lt_Some).
    + congruence.
    + intros ? ? ? ? Ho. by apply elem_of_nil in Ho.
Qed.

Lemma jinv_run acts s t : jreachable secret cfg nlocal acts s t -> JInv acts s t.
Proof.
  revert s t. induction acts as [|a acts IH] using rev_ind; intros s t H; unfold jreachable in H.
  { cbn in H. injection H as <- <-. apply jinv_new. }
  apply jrun_snoc in H as (s1 & t1 & t2 & H1 & H2 & ->). eapply jinv_step; [by apply IH|done].
Qed.
End inv.
