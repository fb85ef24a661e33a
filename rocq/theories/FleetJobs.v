(** Proofs for FleetLiveProps.v: a runner asks and reports under the same job, so that the server loses none of its tasks. *)
From Verif Require Import FleetSpec FleetProofs FleetProps JointProofs JointInv JointTrace JointProps JointLive.
From Verif Require ServerProofs ServerTrace ServerSpec RemoteModel.
From Coq Require Import Lia.
From stdpp Require Import prelude gmap.
Local Open Scope nat_scope.

(** ** The jobs of handlers and of transactions *)
Definition hjob (x : ServerModel.handler) : string :=
  match x with
  | ServerModel.HWait _ j _ | ServerModel.HGot _ _ j _ | ServerModel.HTimed _ _ j _ _ _ | ServerModel.HEndFlag _ j => j
  | ServerModel.HEnd c _ _ | ServerModel.HEndCancelled c _ _ => ServerModel.c_job c
  end.
Ltac ff := first [solve [eauto]|match goal with Hins : forall h' x, _ -> forall x', _ |- _ => eapply Hins; [eassumption| |eassumption]; reflexivity end].
Lemma job_handler secret s l s' evs h y : ServerModel.step secret s l = Some (s', evs) -> ServerModel.sv_handlers s' !! h = Some y ->
  (exists x, ServerModel.sv_handlers s !! h = Some x /\ hjob x = hjob y) \/ exists q, l = ServerModel.LRequest h secret (Some (hjob y)) q.
Proof.
  intros H Hy.
  assert (forall h' x, ServerModel.sv_handlers s !! h' = Some x -> forall x', hjob x' = hjob x -> <[h' := x']> (ServerModel.sv_handlers s) !! h = Some y ->
    exists x, ServerModel.sv_handlers s !! h = Some x /\ hjob x = hjob y) as Hins.
  { intros h' x Hx x' Hj Hl. apply lookup_insert_Some in Hl as [[-> ->]|[? ?]]; eauto. }
  assert (forall h', delete h' (ServerModel.sv_handlers s) !! h = Some y -> exists x, ServerModel.sv_handlers s !! h = Some x /\ hjob x = hjob y) as Hdel.
  { intros h' Hl. apply lookup_delete_Some in Hl as [_ Hl]. eauto. }
  destruct l as [h0 token job q|h0 d|h0|h0|h0 tx|h0|h0| | | |d|t|]; cbn [ServerModel.step] in H.
  - destruct (ServerModel.sv_handlers s !! h0) eqn:Eh; [done|]. unfold ServerModel.request_step in H. destruct (String.eqb_spec token secret) as [->|]; [|unfold ServerModel.reply_now in H; simplify_eq; eauto].
    destruct q as [sr|tx host pid|tx rep next|tx|js]; unfold ServerModel.start, ServerModel.begun, ServerModel.end_, ServerModel.ping, ServerModel.mark, ServerModel.reply_now in H.
    + destruct job as [j|]; [|simplify_eq; eauto]. case_bool_decide; simplify_eq; [eauto|]. cbn in Hy. apply lookup_insert_Some in Hy as [[-> <-]|[? ?]]; eauto.
    + repeat case_match; simplify_eq; eauto.
    + destruct job as [j|]; [|simplify_eq; eauto]. destruct (ServerModel.sv_conns s !! tx) as [c|]; [|simplify_eq; eauto].
      destruct (String.eqb_spec (ServerModel.c_job c) j) as [<-|]; simplify_eq; [|cbn in Hy; ff]. cbn in Hy. apply lookup_insert_Some in Hy as [[-> <-]|[? ?]]; eauto.
    + destruct (ServerModel.sv_conns s !! tx) as [c|]; [|simplify_eq; eauto]. destruct (WheelModel.insert _ _ _) as [[w id]|]; [|done]. simplify_eq. cbn in Hy. eauto.
    + simplify_eq. cbn in Hy. eauto.
  - left. destruct (ServerModel.sv_handlers s !! h0) as [x|] eqn:Eh; [|done]. destruct x; try done. destruct d; simplify_eq; cbn in Hy; ff.
  - left. destruct (ServerModel.sv_handlers s !! h0) as [x|] eqn:Eh; [|done]. destruct x; try done. simplify_eq; cbn in Hy; ff.
  - left. destruct (ServerModel.sv_hard s); [|done]. destruct (ServerModel.sv_handlers s !! h0) as [x|] eqn:Eh; [|done]. destruct x; try done; simplify_eq; cbn in Hy; ff.
  - left. unfold ServerModel.run_step in H. destruct (ServerModel.sv_handlers s !! h0) as [x|] eqn:Eh; [|done]. destruct x as [| | |c rep next|c rep next|]; try done.
    + destruct (WheelModel.insert _ _ _) as [[w id]|]; [|done]. simplify_eq; cbn in Hy; ff.
    + simplify_eq; cbn in Hy; ff.
    + simplify_eq; cbn in Hy; ff.
    + destruct next; simplify_eq; cbn in Hy; ff.
  - left. destruct (ServerModel.sv_handlers s !! h0) as [x|] eqn:Eh; [|done]. destruct x; try done; simplify_eq; cbn in Hy; ff.
  - left. destruct (ServerModel.sv_handlers s !! h0) as [x|] eqn:Eh; [|done]. destruct x; try done; simplify_eq; cbn in Hy; ff.
  - left. destruct (ServerModel.sv_reaper s); try done. destruct (WheelModel.tick _). simplify_eq; cbn in Hy; ff.
  - left. unfold ServerModel.reap_step in H. destruct (ServerModel.sv_reaper s) as [|[|tx txs] ex|[|tx txs] ex|[|c ex]| |]; try done.
    + destruct (ServerModel.sv_soft s); simplify_eq; cbn in Hy; ff.
    + destruct (ServerModel.sv_conns s !! tx); simplify_eq; cbn in Hy; ff.
    + simplify_eq; cbn in Hy; ff.
    + destruct (ServerModel.sv_conns s !! tx); simplify_eq; cbn in Hy; ff.
    + simplify_eq; cbn in Hy; ff.
    + simplify_eq; cbn in Hy; ff.
  - left. destruct (ServerModel.sv_reaper s); try done. simplify_eq; cbn in Hy; ff.
  - left. simplify_eq; cbn in Hy; ff.
  - left. simplify_eq; cbn in Hy; ff.
  - left. simplify_eq; cbn in Hy; ff.
Qed.
Lemma job_conn secret s l s' evs tx c : ServerModel.step secret s l = Some (s', evs) -> ServerModel.sv_conns s' !! tx = Some c ->
  (exists c0, ServerModel.sv_conns s !! tx = Some c0 /\ ServerModel.c_job c0 = ServerModel.c_job c /\ ServerModel.c_node c0 = ServerModel.c_node c) \/
  exists h x rep, ServerModel.sv_handlers s !! h = Some x /\ hjob x = ServerModel.c_job c /\ ServerModel.EReply h rep ∈ evs /\ rtx tx rep = 1 /\ rgives (ServerModel.c_node c) rep = 1.
Proof.
  intros H Hc.
  assert (forall tx', delete tx' (ServerModel.sv_conns s) !! tx = Some c -> exists c0, ServerModel.sv_conns s !! tx = Some c0 /\ ServerModel.c_job c0 = ServerModel.c_job c /\ ServerModel.c_node c0 = ServerModel.c_node c) as Hdel.
  { intros h' Hl. apply lookup_delete_Some in Hl as [_ Hl]. eauto. }
  destruct l as [h0 token job q|h0 d|h0|h0|h0 tx0|h0|h0| | | |d|t|]; cbn [ServerModel.step] in H.
  - left. destruct (ServerModel.sv_handlers s !! h0) eqn:Eh; [done|]. unfold ServerModel.request_step in H. destruct (String.eqb_spec token secret) as [->|]; [|unfold ServerModel.reply_now in H; simplify_eq; eauto].
    destruct q as [sr|tx' host pid|tx' rep next|tx'|js]; unfold ServerModel.start, ServerModel.begun, ServerModel.end_, ServerModel.ping, ServerModel.mark, ServerModel.reply_now in H.
    + repeat case_match; simplify_eq; cbn in Hc; eauto.
    + repeat case_match; simplify_eq; eauto.
    + destruct job as [j|]; [|simplify_eq; eauto]. destruct (ServerModel.sv_conns s !! tx') as [c'|]; [|simplify_eq; eauto].
      destruct (String.eqb_spec (ServerModel.c_job c') j) as [<-|]; simplify_eq; cbn in Hc; eauto.
    + destruct (ServerModel.sv_conns s !! tx') as [c'|] eqn:E; [|simplify_eq; eauto]. destruct (WheelModel.insert _ _ _) as [[w id]|]; [|done]. simplify_eq. cbn in Hc.
      apply lookup_insert_Some in Hc as [[-> <-]|[? ?]]; eauto.
    + simplify_eq. cbn in Hc. eauto.
  - left. destruct (ServerModel.sv_handlers s !! h0) as [x|] eqn:Eh; [|done]. destruct x; try done. destruct d; simplify_eq; cbn in Hc; eauto.
  - left. destruct (ServerModel.sv_handlers s !! h0) as [x|] eqn:Eh; [|done]. destruct x; try done. simplify_eq; cbn in Hc; eauto.
  - left. destruct (ServerModel.sv_hard s); [|done]. destruct (ServerModel.sv_handlers s !! h0) as [x|] eqn:Eh; [|done]. destruct x; try done; simplify_eq; cbn in Hc; eauto.
  - unfold ServerModel.run_step in H. destruct (ServerModel.sv_handlers s !! h0) as [x|] eqn:Eh; [|done]. destruct x as [| |node sr job b tx' id|c' rep next|c' rep next|]; try done.
    + left. destruct (WheelModel.insert _ _ _) as [[w id]|]; [|done]. simplify_eq; cbn in Hc; eauto.
    + simplify_eq; cbn in Hc. apply lookup_insert_Some in Hc as [[-> <-]|[? ?]]; [right|left; eauto]. eexists h0, _, _. split; [done|]. split; [done|]. split; [by left|].
      destruct b; cbn; by rewrite N.eqb_refl, Nat.eqb_refl.
    + left. simplify_eq; cbn in Hc; eauto.
    + left. destruct next; simplify_eq; cbn in Hc; eauto.
  - left. destruct (ServerModel.sv_handlers s !! h0) as [x|] eqn:Eh; [|done]. destruct x; try done; simplify_eq; cbn in Hc; eauto.
  - left. destruct (ServerModel.sv_handlers s !! h0) as [x|] eqn:Eh; [|done]. destruct x; try done; simplify_eq; cbn in Hc; eauto.
  - left. destruct (ServerModel.sv_reaper s); try done. destruct (WheelModel.tick _). simplify_eq; cbn in Hc; eauto.
  - left. unfold ServerModel.reap_step in H. destruct (ServerModel.sv_reaper s) as [|[|tx' txs] ex|[|tx' txs] ex|[|c' ex]| |]; try done.
    + destruct (ServerModel.sv_soft s); simplify_eq; cbn in Hc; eauto.
    + destruct (ServerModel.sv_conns s !! tx'); simplify_eq; cbn in Hc; eauto.
    + simplify_eq; cbn in Hc; eauto.
    + destruct (ServerModel.sv_conns s !! tx'); simplify_eq; cbn in Hc; eauto.
    + simplify_eq; cbn in Hc; eauto.
    + simplify_eq; cbn in Hc; eauto.
  - left. destruct (ServerModel.sv_reaper s); try done. simplify_eq; cbn in Hc; eauto.
  - left. simplify_eq; cbn in Hc; eauto.
  - left. simplify_eq; cbn in Hc; eauto.
  - left. simplify_eq; cbn in Hc; eauto.
Qed.

Section fleet.
Context (secret : string) (cfg : config) (nlocal : nat) (rcs : N -> rconfig).
Local Notation jstep := (jstep secret cfg nlocal).
Local Notation fstep := (fstep secret cfg nlocal rcs).
Local Notation frun := (frun secret cfg nlocal rcs).
Local Notation kind := (kind secret cfg nlocal rcs).
Local Notation FInv := (FInv secret cfg nlocal rcs).

Definition asked (jacts : list jaction) (h : N) (j : string) : Prop := exists q c, JHttp (ServerModel.LRequest h secret (Some j) q) c ∈ jacts.
Definition got (jacts : list jaction) (t : list fobs) (tx : N) (j : string) : Prop :=
  exists h rep, ServerModel.EReply h rep ∈ http_side (joint_side t) /\ rtx tx rep = 1 /\ asked jacts h j.
Definition state_tx (m : RemoteModel.remote) : option N :=
  match m with
  | RemoteModel.MSpawn tx | RemoteModel.MBegunNone tx | RemoteModel.MFeed tx _ | RemoteModel.MBegun tx _ | RemoteModel.MWait tx _ _ => Some tx
  | _ => None
  end.
Definition event_tx (e : RemoteModel.remote_event) : option N :=
  match e with RemoteModel.VEnd tx _ _ _ _ _ => Some tx | _ => None end.
Lemma asked_mono jacts o h j : asked jacts h j -> asked (jacts ++ o) h j.
Proof. intros (q & c & H). exists q, c. apply elem_of_app. by left. Qed.
Lemma got_mono jacts o t t' tx j : got jacts t tx j -> got (jacts ++ o) (t ++ t') tx j.
Proof.
  intros (h & rep & H & ? & ?). exists h, rep. rewrite joint_side_app, http_side_app. split; [apply elem_of_app; by left|]. split; [done|by apply asked_mono].
Qed.

Record JB (jacts : list jaction) (f : fleet) (t : list fobs) : Prop := {
  jb_used : forall h j, asked jacts h j -> h ∈ f_used f;
  jb_uniq : forall h j j', asked jacts h j -> asked jacts h j' -> j = j';
  jb_handler : forall h y, ServerModel.sv_handlers (j_http (f_joint f)) !! h = Some y -> asked jacts h (hjob y);
  jb_conn : forall tx c, ServerModel.sv_conns (j_http (f_joint f)) !! tx = Some c -> got jacts t tx (ServerModel.c_job c);
  jb_wait : forall r x h, f_runners f !! r = Some x -> r_wait x = Some h -> asked jacts h (rc_job (rcs r));
  jb_state : forall r x tx, f_runners f !! r = Some x -> state_tx (r_state x) = Some tx -> got jacts t tx (rc_job (rcs r));
  jb_out : forall r x e tx, f_runners f !! r = Some x -> r_out x = Some e \/ e ∈ r_late x -> event_tx e = Some tx -> got jacts t tx (rc_job (rcs r))
}.
Lemma jb_new : JB [] (fleet_new cfg) [].
Proof.
  split.
  - intros h j (q & c & H). by apply elem_of_nil in H.
  - intros h j j' (q & c & H). by apply elem_of_nil in H.
  - intros h y H. cbn in H. by rewrite lookup_empty in H.
  - intros tx c H. cbn in H. by rewrite lookup_empty in H.
  - intros r x h H. cbn in H. by rewrite lookup_empty in H.
  - intros r x h H. cbn in H. by rewrite lookup_empty in H.
  - intros r x e h H. cbn in H. by rewrite lookup_empty in H.
Qed.

Lemma jb_joint jacts f t ja j tj R rep used : JB jacts f t -> jstep (f_joint f) ja = Some (j, tj) -> fresh_handler f (Fleet j R rep used) ja ->
  (forall r x h, R !! r = Some x -> r_wait x = Some h -> asked (jacts ++ [ja]) h (rc_job (rcs r))) ->
  (forall r x tx, R !! r = Some x -> state_tx (r_state x) = Some tx -> got jacts t tx (rc_job (rcs r))) ->
  (forall r x e tx, R !! r = Some x -> r_out x = Some e \/ e ∈ r_late x -> event_tx e = Some tx -> got jacts t tx (rc_job (rcs r))) ->
  JB (jacts ++ [ja]) (Fleet j R rep used) (t ++ map FJ tj).
Proof.
  intros [Hu Hq Hh Hc Hw Hs Ho] Hj Hfr H1 H2 H3. unfold fresh_handler in Hfr. cbn [f_used] in Hfr.
  assert (forall h j, asked (jacts ++ [ja]) h j -> asked jacts h j \/ new_handler ja = Some h /\ exists q c, ja = JHttp (ServerModel.LRequest h secret (Some j) q) c) as Has.
  { intros h j' (q & c & [H|H]%elem_of_app); [left; by exists q, c|]. apply elem_of_list_singleton in H as <-. right. eauto. }
  assert (forall h, new_handler ja = Some h -> forall j, ~ asked jacts h j) as Hnew.
  { intros h E j' Hj'. rewrite E in Hfr. destruct Hfr as [Hfr _]. by apply Hfr, (Hu h j'). }
  assert ((j_http j = j_http (f_joint f) /\ http_side tj = []) \/ exists l, ServerModel.step secret (j_http (f_joint f)) l = Some (j_http j, http_side tj) /\
     forall h q jb, l = ServerModel.LRequest h secret jb q -> exists c, ja = JHttp l c) as Hst.
  { destruct (jstep_http _ _ _ _ _ _ _ Hj) as [(? & ? & _)|(l & Hl & Ha & _)]; [by left|right]. exists l. split; [done|]. intros h q jb ->. by destruct Ha as [[? _]|?]. }
  split; cbn [f_joint f_runners f_used].
  - intros h j' [H|[E _]]%Has.
    + apply Hu in H. destruct (new_handler ja); [destruct Hfr as [_ ->]; set_solver|by rewrite Hfr].
    + rewrite E in Hfr. destruct Hfr as [_ ->]. set_solver.
  - intros h a b [Ha|[Ea (q & c & Ha)]]%Has [Hb|[Eb (q' & c' & Hb)]]%Has.
    + by eapply Hq.
    + by destruct (Hnew _ Eb a).
    + by destruct (Hnew _ Ea b).
    + rewrite Ha in Hb. by injection Hb.
  - intros h y Hy. destruct Hst as [[E _]|(l & Hl & Hla)].
    + rewrite E in Hy. by apply asked_mono, Hh.
    + destruct (job_handler _ _ _ _ _ _ _ Hl Hy) as [(x & Hx & <-)|(q & ->)]; [by apply asked_mono, Hh|].
      destruct (Hla _ _ _ eq_refl) as [c ->]. exists q, c. apply elem_of_app. right. by left.
  - intros tx c Hy. destruct Hst as [[E _]|(l & Hl & Hla)].
    + rewrite E in Hy. by apply got_mono, Hc.
    + destruct (job_conn _ _ _ _ _ _ _ Hl Hy) as [(c0 & Hc0 & <- & _)|(h & x & rep' & Hx & <- & Hin & Hr & _)]; [by apply got_mono, Hc|].
      exists h, rep'. rewrite joint_side_app, joint_side_map, http_side_app. split; [apply elem_of_app; by right|]. split; [done|]. by apply asked_mono, Hh.
  - done.
  - intros r x tx Hx Hs'. eapply got_mono, H2; eauto.
  - intros r x e tx Hx He Ht. eapply got_mono, H3; eauto.
Qed.

Lemma late_in x (e : RemoteModel.remote_event) : e ∈ (match r_out x with Some e => e :: r_late x | None => r_late x end) -> r_out x = Some e \/ e ∈ r_late x.
Proof. destruct (r_out x); [intros [->|]%elem_of_cons|]; auto. Qed.
(** What a runner knows of transactions after a step it knew before, or was told in it. *)
Lemma remote_tx c m i m' es : RemoteModel.remote_step c m i = Some (m', es) ->
  (forall tx, state_tx m' = Some tx -> state_tx m = Some tx \/ i = RemoteModel.IGiven tx) /\
  (forall e tx, request_among es = Some e -> event_tx e = Some tx -> state_tx m = Some tx).
Proof.
  intros H. destruct m as [|tx0|tx0|tx0 pid|tx0 pid|tx0 pid late| |tx0| |], i; cbn in H; try done;
    repeat (match type of H with context [match ?c with _ => _ end] => destruct c end; try done); simplify_eq; cbn; split; intros; simplify_eq; auto; cbn in *; simplify_eq; auto.
Qed.
Lemma jb_step jacts f t f' t' o : FInv jacts f t -> JB jacts f t -> kind f f' t' o -> JB (jacts ++ o) f' (t ++ t').
Proof.
  intros HI HB H. pose proof HB as [Hu Hq Hh Hc Hw Hs Ho]. destruct f' as [j' R' rep' used']. destruct H as
    [r Hx Ej Er Eu -> -> ER|ja tj Hj -> Hfr Hf -> Er ER|r x e x' h c q note tj ja Hx Hrq Hja -> Hfr Hj -> Er ER E1 E2 E3|r x m es i x' task Hx Hst Ej Eu -> ER Es Et Eo El Ew Hk]; cbn [f_joint f_runners f_replies f_used] in *; subst.
  - rewrite !app_nil_r. split; cbn [f_joint f_runners f_used]; try done.
    + intros r' y h [[<- <-]|[_ H]]%lookup_insert_Some; [done|]. by apply Hw.
    + intros r' y h [[<- <-]|[_ H]]%lookup_insert_Some; [done|]. by apply Hs.
    + intros r' y e h [[<- <-]|[_ H]]%lookup_insert_Some; [|by eapply Ho]. cbn. intros [[= <-]|He]; [done|by apply elem_of_nil in He].
  - apply (jb_joint _ f); try done. intros r x h Hx Hwt. eapply asked_mono, Hw; eauto.
  - apply (jb_joint _ f); try done.
    + intros r' y h' [[<- <-]|[_ H]]%lookup_insert_Some; [|intros Hy; eapply asked_mono, Hw; eauto].
      destruct E3 as [(_ & _ & _ & ->)|(_ & _ & ->)]; [|intros Hy; eapply asked_mono, Hw; eauto]. intros [= <-]. exists q, c. apply elem_of_app. right. by left.
    + intros r' y tx [[<- <-]|[_ H]]%lookup_insert_Some; [rewrite E1; by apply Hs|by apply Hs].
    + intros r' y e' tx [[<- <-]|[_ H]]%lookup_insert_Some; [|by eapply Ho]. intros He'. apply Ho with (x := x); [done|].
      destruct E3 as [(E3 & E4 & E5 & _)|(E4 & (k & E3 & E5) & _)]; rewrite E4, E5 in He'; [destruct He' as [|]; [done|by right]|].
      destruct He' as [|He']; [by left|right]. rewrite (delete_Permutation _ _ _ E3). by right.
  - rewrite app_nil_r. destruct (remote_tx _ _ _ _ _ Hst) as [T1 T2].
    assert (forall tx j, got jacts t tx j -> got jacts (t ++ t') tx j) as Hm. { intros tx j H. apply (got_mono _ [] _ t') in H. by rewrite app_nil_r in H. }
    split; cbn [f_joint f_runners f_used]; try done.
    + intros tx c H. by apply Hm, Hc.
    + intros r' y h [[<- <-]|[_ H]]%lookup_insert_Some; [by rewrite Ew|by apply Hw].
    + intros r' y tx [[<- <-]|[_ H]]%lookup_insert_Some; [|intros Hy; eapply Hm, Hs; eauto]. intros [Hy| ->]%T1; [eapply Hm, Hs; eauto|].
      destruct Hk as [(Hk & _)|[(Hk & _)|(h & rep & usr1 & now & Hwt & Hrep & Hin & -> & _)]]; [done|done|].
      destruct (input_given _ _ _ _ _ Hin) as [(tx' & n & [= <-] & -> & Hrp)|[_ [?|[?|(? & ? & ?)]]]]; try done.
      exists h, rep. rewrite app_nil_r. split; [by apply (fi_reply _ _ _ _ _ _ _ HI)|]. split; [|by apply Hw with (x := x)]. destruct Hrp as [-> | ->]; cbn; by rewrite N.eqb_refl.
    + intros r' y e tx [[<- <-]|[_ H]]%lookup_insert_Some; [|intros He Ht; eapply Hm, Ho; eauto]. intros [He|He] Ht.
      * rewrite Eo in He. eapply Hm, Hs; [done|]. by eapply T2.
      * rewrite El in He. apply late_in in He. eapply Hm, Ho; eauto.
Qed.
Lemma jb_run acts f t : freachable secret cfg nlocal rcs acts f t -> exists jacts, FInv jacts f t /\ JB jacts f t.
Proof.
  unfold freachable. revert f t. induction acts as [|a acts IH] using rev_ind; intros f t H.
  { injection H as <- <-. exists []. split; [apply finv_new|apply jb_new]. }
  apply frun_app in H as (f1 & t1 & t2 & H1 & H2 & ->). destruct (IH _ _ H1) as (jacts & HI & HB). cbn [FleetModel.frun] in H2.
  destruct (fstep f1 a) as [[f2 t3]|] eqn:E; [|done]. injection H2 as <- <-. rewrite app_nil_r. apply fstep_kind in E as [o Hk]. exists (jacts ++ o).
  split; [by apply (finv_step _ _ _ _ _ f1)|by apply (jb_step _ f1)].
Qed.

(** ** One transaction, one job *)
Lemma txgivings_two tx evs : txgivings tx evs <= 1 -> forall h rep h' rep', ServerModel.EReply h rep ∈ evs -> ServerModel.EReply h' rep' ∈ evs ->
  rtx tx rep = 1 -> rtx tx rep' = 1 -> h = h'.
Proof.
  intros Hle h rep h' rep' H H' E E'.
  assert (forall h rep evs, ServerModel.EReply h rep ∈ evs -> rtx tx rep = 1 -> 1 <= txgivings tx evs) as Hone.
  { clear. intros h rep evs H E. apply elem_of_list_split in H as (a & b & ->). rewrite txgivings_app. unfold txgivings at 2. cbn [map sum_list]. rewrite E. cbn. lia. }
  apply elem_of_list_split in H as (a & b & ->). change (ServerModel.EReply h rep :: b) with ([ServerModel.EReply h rep] ++ b) in *. rewrite !txgivings_app in Hle.
  assert (txgivings tx [ServerModel.EReply h rep] = 1) as E1 by (unfold txgivings; cbn [map sum_list]; rewrite E; done).
  rewrite !elem_of_app, elem_of_list_singleton in H'. destruct H' as [H'|[[= -> ->]|H']]; [|done|].
  - pose proof (Hone _ _ _ H' E'). lia.
  - pose proof (Hone _ _ _ H' E'). lia.
Qed.
Lemma got_one jacts f t tx j j' : JB jacts f t -> txgivings tx (http_side (joint_side t)) <= 1 -> got jacts t tx j -> got jacts t tx j' -> j = j'.
Proof.
  intros HB Hle (h & rep & H1 & H2 & H3) (h' & rep' & H1' & H2' & H3'). rewrite (txgivings_two _ _ Hle _ _ _ _ H1 H1' H2 H2') in H3. by eapply (jb_uniq _ _ _ HB).
Qed.
Lemma got_some jacts t tx j : got jacts t tx j -> 1 <= txgivings tx (http_side (joint_side t)).
Proof.
  intros (h & rep & H & E & _). apply elem_of_list_split in H as (a & b & ->). rewrite txgivings_app. unfold txgivings at 2. cbn [map sum_list]. rewrite E. cbn. lia.
Qed.
Lemma distinct_prefix t t' : distinct_ids (t ++ t') -> distinct_ids t.
Proof. intros H tx n n' H1 H2. eapply H; by apply FleetProofs.given_app. Qed.

(** The steps of the fleet are honest steps of the server. *)
Lemma fleet_honest acts f t a f' t' : config_ok cfg -> freachable secret cfg nlocal rcs acts f t -> fstep f a = Some (f', t') -> distinct_ids (t ++ t') ->
  (j_http (f_joint f') = j_http (f_joint f) /\ http_side (joint_side t') = []) \/
  exists l, ServerModel.step secret (j_http (f_joint f)) l = Some (j_http (f_joint f'), http_side (joint_side t')) /\ ServerSpec.honest secret (j_http (f_joint f)) l.
Proof.
  intros Hok H Hs Hd. destruct (jb_run _ _ _ H) as (jacts & HI & HB).
  assert (freachable secret cfg nlocal rcs (acts ++ [a]) f' (t ++ t')) as H'. { apply frun_app. eexists _, _, _. split; [exact H|]. split; [|done]. cbn [FleetModel.frun]. by rewrite Hs, app_nil_r. }
  pose proof (fun tx => txgivings_given _ _ _ _ _ _ _ tx Hok H' Hd) as Hone'. pose proof (fun tx => txgivings_given _ _ _ _ _ _ _ tx Hok H (distinct_prefix _ _ Hd)) as Hone.
  assert (forall ja tj, jstep (f_joint f) ja = Some (f_joint f', tj) -> t' = map FJ tj ->
    (forall h token j tx rep next c, ja = JHttp (ServerModel.LRequest h token (Some j) (ServerModel.QEnd tx rep next)) c -> token = secret -> got jacts t tx j) ->
    (j_http (f_joint f') = j_http (f_joint f) /\ http_side (joint_side t') = []) \/
    exists l, ServerModel.step secret (j_http (f_joint f)) l = Some (j_http (f_joint f'), http_side (joint_side t')) /\ ServerSpec.honest secret (j_http (f_joint f)) l) as Hj.
  { intros ja tj Hj -> He. rewrite joint_side_map. destruct (jstep_http _ _ _ _ _ _ _ Hj) as [(? & ? & _)|(l & Hl & Ha & _)]; [by left|right]. exists l. split; [done|].
    destruct l as [h token [j|] q| | | |h tx0| | | | | | | |]; try done; cbn [ServerSpec.honest].
    - destruct q as [| |tx rep next| |]; try done. intros Htok c Hc. destruct Ha as [[? _]|(c' & Ha)]; [done|]. apply (jb_conn _ _ _ HB) in Hc.
      specialize (He _ _ _ _ _ _ _ Ha Htok). by apply (got_one _ _ _ _ _ _ HB (Hone tx) Hc He).
    - intros node sr job b tx id Hh. destruct (ServerModel.sv_conns (j_http (f_joint f)) !! tx) as [c|] eqn:Ec; [|done]. exfalso.
      apply (jb_conn _ _ _ HB), got_some in Ec. specialize (Hone' tx). rewrite joint_side_app, joint_side_map, http_side_app, txgivings_app in Hone'.
      cbn [ServerModel.step] in Hl. unfold ServerModel.run_step in Hl. rewrite Hh in Hl. injection Hl as _ Hl. rewrite <- Hl in Hone'.
      assert (txgivings tx [ServerModel.EReply h (ServerModel.started_reply b tx node)] = 1); [|lia]. unfold txgivings. destruct b; cbn [map sum_list ServerModel.started_reply rtx]; by rewrite N.eqb_refl. }
  apply fstep_kind in Hs as [o Hk]. destruct Hk as
    [r Hx Ej Er Eu -> -> ER|ja tj Hjs -> Hfr Hf -> Er ER|r x e x' h c q note tj ja Hx Hrq Hja -> Hfr Hjs -> Er ER E1 E2 E3|r x m es i x' task Hx Hst Ej Eu -> ER Es Et Eo El Ew Hk].
  - left. by rewrite Ej.
  - apply (Hj _ _ Hjs eq_refl). intros h token j tx rep next c -> ->. cbn in Hf. by rewrite String.eqb_refl in Hf.
  - apply (Hj _ _ Hjs eq_refl). intros h' token j tx rep next c' -> ->. injection Hja as -> -> E ->. subst q. destruct e as [| | | |tx' st late sl nxt out]; try done. destruct st as [k| |]; try done.
    cbn in Hrq. injection Hrq as <- _ _. apply (jb_out _ _ _ HB r x (RemoteModel.VEnd tx' (Code k) late sl nxt out)); [done| |done].
    destruct E3 as [(E3 & _)|(_ & (k' & E3 & _) & _)]; [by left|right]. by eapply elem_of_list_lookup_2.
  - left. rewrite Ej. split; [done|]. assert (joint_side t' = []) as ->; [|done]. destruct Hk as [(_ & _ & -> & _)|[(_ & _ & -> & _)|(? & ? & ? & ? & _ & _ & _ & -> & _)]]; try done. by destruct i.
Qed.

(** Every task that the server got from the tracker is with it or has been reported. *)
Lemma fleet_account acts f t n : config_ok cfg -> freachable secret cfg nlocal rcs acts f t -> distinct_ids t -> ServerModel.sv_reaper (j_http (f_joint f)) <> ServerModel.PPanicked ->
  ServerProofs.held n (j_http (f_joint f)) + ServerSpec.finishes n (http_side (joint_side t)) = ServerSpec.tasks n (http_side (joint_side t)).
Proof.
  intros Hok. revert f t. induction acts as [|a acts IH] using rev_ind; intros f t H Hd Hp.
  { injection H as <- <-. done. }
  apply frun_app in H as (f1 & t1 & t2 & H1 & H2 & ->). cbn [FleetModel.frun] in H2.
  destruct (fstep f1 a) as [[f2 t3]|] eqn:E; [|done]. injection H2 as <- <-. rewrite app_nil_r in *. specialize (IH _ _ H1 (distinct_prefix _ _ Hd)).
  rewrite joint_side_app, http_side_app, ServerProofs.finishes_app, ServerProofs.tasks_app.
  destruct (fleet_honest _ _ _ _ _ _ Hok H1 E Hd) as [[E1 ->]|(l & Hl & Hh)].
  - rewrite E1 in *. specialize (IH Hp). cbn. lia.
  - destruct (ServerProofs.account secret n _ _ _ _ Hl) as [_ Ha]. specialize (Ha Hh Hp).
    assert (ServerModel.sv_reaper (j_http (f_joint f1)) <> ServerModel.PPanicked) as Hp1.
    { intros Hq. apply Hp. eapply (ServerProofs.panicked_stays secret [l]); [|exact Hq]. cbn [ServerModel.run]. by rewrite Hl. }
    specialize (IH Hp1). lia.
Qed.
End fleet.
