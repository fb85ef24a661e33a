(** Which request a task of the server answers. *)
From Verif Require Import JointSpec JointProofs JointInv SchedTrace SchedProofs SchedProps.
From Coq Require Import Lia.
From stdpp Require Import prelude.
Local Open Scope nat_scope.

Definition wants (x : ServerModel.handler) : option ServerModel.start_req :=
  match x with
  | ServerModel.HWait sr _ _ | ServerModel.HGot _ sr _ _ | ServerModel.HTimed _ sr _ _ _ _ | ServerModel.HEndFlag sr _ => Some sr
  | ServerModel.HEnd _ _ next | ServerModel.HEndCancelled _ _ next => next
  end.

Section http.
Import ServerModel.
Context (secret : string).
Local Notation step := (step secret).
Lemma wants_origin s l s' evs h x : step s l = Some (s', evs) -> sv_handlers s' !! h = Some x ->
  (exists token job q, l = LRequest h token job q /\ wants x = asks q /\ got x = None) \/
  ((forall token job q, l <> LRequest h token job q) /\ exists y, sv_handlers s !! h = Some y /\ wants x = wants y /\
     (got x = got y \/ got x = None \/ exists n, l = LDeliver h (DTask n) /\ got x = Some n)).
Proof.
  intros H Hx. destruct (decide (label_handler l = Some h)) as [Hl|Hl].
  2: { rewrite (other_handlers _ _ _ _ _ _ H Hl) in Hx. right. split; [|eauto 10]. intros token job q ->. by apply Hl. }
  destruct l; cbn in Hl; try discriminate; injection Hl as ->; cbn [ServerModel.step] in H.
  1: { left. destruct (sv_handlers s !! h) eqn:E; [discriminate|]. unfold request_step in H. destruct (String.eqb token secret); [|unfold reply_now in H; simplify_eq].
    destruct q; unfold start, begun, end_, ping, mark, reply_now in H; repeat case_match; simplify_eq; cbn in Hx; rewrite ?lookup_insert in Hx; simplify_eq; eexists _, _, _; done. }
  all: right; split; [done|]; unfold run_step in H; destruct (sv_handlers s !! h) as [y|] eqn:E; [|repeat case_match; discriminate].
  all: repeat case_match; simplify_eq; cbn in Hx; rewrite ?lookup_insert, ?lookup_delete in Hx; simplify_eq; try done; eexists; (split; [done|]); (split; [done|]); cbn; eauto.
Qed.
(** The handler that gives a task. *)
Lemma gives_handler s l s' evs h tx n : step s l = Some (s', evs) ->
  EReply h (RStart tx n) ∈ evs \/ EReply h (REnd (Some (tx, n))) ∈ evs ->
  exists y sr, sv_handlers s !! h = Some y /\ got y = Some n /\ wants y = Some sr.
Proof.
  intros H He. destruct l; cbn [ServerModel.step] in H.
  1: { destruct (sv_handlers s !! h0); [discriminate|]. unfold request_step in H. destruct (String.eqb token secret); [|unfold reply_now in H; simplify_eq; set_solver].
    destruct q; unfold start, begun, end_, ping, mark, reply_now in H; repeat case_match; simplify_eq; set_solver. }
  4: { unfold run_step in H. destruct (sv_handlers s !! h0) as [y|] eqn:E; [|discriminate].
    destruct y; try (repeat case_match; simplify_eq; set_solver). simplify_eq.
    assert (h = h0 /\ node = n) as [-> ->] by (destruct in_end; cbn in He; rewrite !elem_of_list_singleton in He; destruct He as [He|He]; by simplify_eq).
    eexists _, _. split; [done|]. done. }
  all: unfold reap_step in H; repeat case_match; simplify_eq; set_solver.
Qed.
Lemma unknown_handler s l s' evs h : step s l = Some (s', evs) -> EReply h (RError NoSuchRunnerType) ∈ evs ->
  l = LDeliver h DNoSuchRunnerType /\ exists sr, option_map wants (sv_handlers s !! h) = Some (Some sr).
Proof.
  intros H He. destruct l; cbn [ServerModel.step] in H.
  1: { destruct (sv_handlers s !! h0); [discriminate|]. unfold request_step in H. destruct (String.eqb token secret); [|unfold reply_now in H; simplify_eq; set_solver].
    destruct q; unfold start, begun, end_, ping, mark, reply_now in H; repeat case_match; simplify_eq; set_solver. }
  1: { destruct (sv_handlers s !! h0) as [y|] eqn:E; [|discriminate]. destruct y; try discriminate. destruct d; simplify_eq; try set_solver.
    apply elem_of_list_singleton in He as [= ->]. split; [done|]. rewrite E. cbn. eauto. }
  all: unfold run_step, reap_step, started_reply in H; repeat case_match; simplify_eq; set_solver.
Qed.
End http.

Section fit.
Context (secret : string) (cfg : config) (nlocal : nat).
Hypothesis cfg_ok : config_ok cfg.
Local Notation jstep := (jstep secret cfg nlocal).

Lemma last_request_snoc h acts a : last_request h (acts ++ [a]) =
  match a with JHttp (ServerModel.LRequest h' _ _ q) _ => if N.eqb h h' then Some q else last_request h acts | _ => last_request h acts end.
Proof. unfold last_request. by rewrite fold_left_app. Qed.

Definition runs_on (n : nat) (sr : ServerModel.start_req) : Prop :=
  (ServerModel.sr_runnertype sr < 64)%N /\ N.testbit (aff cfg n) (ServerModel.sr_runnertype sr) = true.
Definition Fit (acts : list jaction) (s : joint) : Prop :=
  forall h x, ServerModel.sv_handlers (j_http s) !! h = Some x ->
    option_map asks (last_request h acts) = Some (wants x) /\
    forall n sr, got x = Some n -> wants x = Some sr -> runs_on n sr.

(** What a step of the whole does on the side of the server. *)
Lemma http_part s a s' t : jstep s a = Some (s', t) ->
  (j_http s' = j_http s /\ http_side t = [] /\ forall h acts, last_request h (acts ++ [a]) = last_request h acts) \/
  (exists l c evs, a = JHttp l c /\ is_deliver l = false /\ ServerModel.step secret (j_http s) l = Some (j_http s', evs) /\ http_side t = evs) \/
  (exists h c b u os d evs, a = JRecv h b /\ j_recv s !! h = Some c /\ recv_action c b = true /\ step cfg (j_tracker s) b = Some (u, os) /\
     returned os = Some d /\ ServerModel.step secret (j_http s) (ServerModel.LDeliver h d) = Some (j_http s', evs) /\ http_side t = evs).
Proof.
  intros H. destruct a; cbn [JointModel.jstep] in H.
  - left. repeat case_match; simplify_eq; (split; [done|]); (split; [by rewrite http_side_l|]); intros; by rewrite last_request_snoc.
  - destruct (j_recv s !! h) as [c|] eqn:Hc; [|done]. destruct (recv_action c a) eqn:Ha; [|done].
    destruct (step cfg (j_tracker s) a) as [[u os]|] eqn:E; [|done]. destruct (returned os) as [d|] eqn:Hd.
    + destruct (ServerModel.step secret (j_http s) _) as [[sv evs]|] eqn:Eh; [|done]. injection H as <- <-. right. right.
      exists h, c, a, u, os, d, evs. repeat (split; [done|]). by rewrite http_side_app, http_side_l, http_side_r.
    + injection H as <- <-. left. split; [done|]. split; [by rewrite http_side_l|]. intros; by rewrite last_request_snoc.
  - right. left. destruct (j_closed s || is_deliver l || negb (flag_ok s l)) eqn:E0; [done|]. apply orb_false_iff in E0 as [[_ Hd]%orb_false_iff _].
    destruct (ServerModel.step secret (j_http s) l) as [[sv evs]|] eqn:Eh; [|done].
    destruct (send_all cfg nlocal (j_tracker s) c (j_next s) evs) as [[t2 os2]|]; [|done]. destruct (new_flags s l evs).
    exists l, c, evs. split; [done|]. split; [done|].
    repeat case_match; simplify_eq; (split; [done|]); by rewrite http_side_app, http_side_l, http_side_r.
  - left. repeat case_match; simplify_eq; (split; [done|]); (split; [done|]); intros; by rewrite last_request_snoc.
  - left. repeat case_match; simplify_eq; (split; [done|]); (split; [by rewrite http_side_l|]); intros; by rewrite last_request_snoc.
Qed.

Lemma fit_run acts s t : jreachable secret cfg nlocal acts s t -> Fit acts s.
Proof.
  revert s t. induction acts as [|a acts IH] using rev_ind; intros s t H; unfold jreachable in H.
  { cbn in H. injection H as <- <-. intros h x Hx. cbn in Hx. by rewrite lookup_empty in Hx. }
  apply jrun_snoc in H as (s1 & t1 & t2 & H1 & H2 & ->). specialize (IH _ _ H1). pose proof (jinv_run _ _ _ _ _ _ H1) as HI.
  destruct (http_part _ _ _ _ H2) as [(E & _ & El)|[(l & c & evs & -> & Hd & E & _)|(h & c & b & u & os & d & evs & -> & Hc & Ha & Es & Hr & E & _)]].
  - intros h x. rewrite E, El. apply IH.
  - intros h x Hx. rewrite last_request_snoc. destruct (wants_origin _ _ _ _ _ _ _ E Hx) as [(token & job & q & -> & Hw & Hg)|(Hl & y & Hy & Hw & Hg)].
    + rewrite N.eqb_refl. split; [by rewrite Hw|]. by rewrite Hg.
    + destruct (IH h y Hy) as [A B]. split.
      * rewrite Hw, <- A. destruct l; try done. destruct (N.eqb_spec h h0) as [->|]; [|done]. exfalso. by eapply Hl.
      * intros n sr Hn Hsr. rewrite Hw in Hsr. destruct Hg as [Hg|[Hg|(n' & -> & _)]]; [|congruence|done]. apply (B n sr); [congruence|done].
  - intros h' x Hx. rewrite last_request_snoc. destruct (wants_origin _ _ _ _ _ _ _ E Hx) as [(token & job & q & [=] & _)|(_ & y & Hy & Hw & Hg)].
    destruct (IH h' y Hy) as [A B]. split; [by rewrite Hw|]. intros n sr Hn Hsr. rewrite Hw in Hsr. destruct Hg as [Hg|[Hg|(n' & [= <- ->] & Hg)]]; [|congruence|].
    { apply (B n sr); [congruence|done]. }
    assert (n' = n) as -> by congruence. destruct (ji_recv _ _ _ _ _ _ HI h c Hc) as (_ & (i & Hw' & Hty) & _).
    destruct (recv_step _ _ _ _ _ _ Es Ha) as (_ & [(Hn0 & _)|[(i' & m & -> & _)|(e & -> & _)]]); [congruence| |by destruct e].
    cbn in Hr. injection Hr as ->.
    assert (reachable cfg u (tracker_side t1 ++ [OHandedOut c i' n])) as Hreach.
    { destruct (ji_tracker _ _ _ _ _ _ HI) as (ta & Hta). exists (ta ++ [b]). apply trun_app. eexists _, _, _. split; [done|]. split; [by apply trun_one|done]. }
    destruct (handed_out_with_matching_affinity cfg _ _ c i' n cfg_ok Hreach) as (Hty' & Hlt & Hbit); [apply in_or_app; right; by left|].
    unfold waiting in Hw'. rewrite Hy in Hw'. destruct y; try done. cbn in Hsr. injection Hsr as ->. injection Hw' as <-.
    rewrite Hty in Hty'. injection Hty' as <-. rewrite N2Nat.id in Hbit. split; [lia|done].
Qed.
End fit.
