(** Proofs for JointLiveProps.v: reports are not lost on their way from the http server through the tracker. *)
From Verif Require Import JointSpec JointProofs JointInv JointTrace SchedTrace SchedProofs SchedResult JointProps.
From Verif Require ServerSpec ServerProofs.
From Coq Require Import Lia.
From stdpp Require Import prelude.
Local Open Scope nat_scope.

(** The labels of the http server's own steps among the actions; a condition on each of them along a run. *)
Definition http_labels (acts : list jaction) : list ServerModel.label :=
  omap (fun a => match a with JHttp l _ => Some l | _ => None end) acts.
Fixpoint jalong (secret : string) (cfg : config) (nlocal : nat) (P : ServerModel.server -> ServerModel.label -> Prop) (s : joint)
    (acts : list jaction) : Prop :=
  match acts with
  | [] => True
  | a :: acts =>
      match a with JHttp l _ => P (j_http s) l | _ => True end /\
      match jstep secret cfg nlocal s a with Some (s', _) => jalong secret cfg nlocal P s' acts | None => True end
  end.

Section tracker.
Context (cfg : config).
Notation step := (step cfg).

Lemma drain_events_all evs : forall sv q inf now sv' q' inf' os, drain_events cfg evs sv q inf now = Some (sv', q', inf', os) ->
  forall n x v f, EvFinished n x v f ∈ evs -> ODrainFinished n x ∈ os.
Proof.
  induction evs as [|e evs IH]; intros sv q inf now sv' q' inf' os E n x v f Hi; [by apply elem_of_nil in Hi|].
  cbn [drain_events] in E. destruct e as [id h p j|id x' v' f'].
  - repeat case_match; try done. injection E as _ _ _ <-. apply elem_of_cons in Hi as [Hi|Hi]; [done|]. right. by eapply IH.
  - repeat case_match; try done. injection E as _ _ _ <-. apply elem_of_cons in Hi as [[= <- <- <- <-]|Hi]; [by left|]. right. by eapply IH.
Qed.

Lemma exec_events s i s' os : exec_instr s i = (s', os) -> st_events s' = st_events s.
Proof. destruct i; cbn [exec_instr]; intros H; repeat case_match; unfold panic in H; by simplify_eq. Qed.

(** What a step does to the queue of reports. *)
Lemma step_events s a s' os : step s a = Some (s', os) ->
  (forall n x v f, EvFinished n x v f ∈ st_events s -> EvFinished n x v f ∈ st_events s' \/ (exists el, OFinished n x el ∈ os) \/
     ODrainFinished n x ∈ os \/ st_phase s' = PPanicked) /\
  (forall c n x f, OSentFinished c n x f ∈ os -> exists v, EvFinished n x v f ∈ st_events s').
Proof.
  intros H. split.
  - intros n x v f Hi. destruct a; cbn [SchedModel.step] in H.
    + destruct (st_phase s); try done. destruct (is_reordering _ _); [|done]. destruct (add_to_ready_queue _ _ _) as [[[sv is] os']|]; injection H as <- <-; by left.
    + destruct (st_phase s); try done; (destruct (st_todo s) as [|i rest]; [done|]); injection H as H; apply exec_events in H; left; by rewrite H.
    + destruct (server_idle s); [|done]. destruct (st_events s) as [|[id h p j|id x' v' f'] rest]; [done| |]; change (st_sv (set_events s rest)) with (st_sv s) in H; injection H as H.
      * apply elem_of_cons in Hi as [Hi|Hi]; [done|]. left. unfold server_result in H. repeat case_match; unfold panic in H; by simplify_eq.
      * destruct (handle_finished cfg (st_sv s) id x' v' f' now) as [[[sv is] os']|] eqn:E; cbn [server_result] in H.
        -- injection H as <- <-. apply elem_of_cons in Hi as [[= <- <- <- <-]|Hi]; [|by left].
           apply handle_finished_obs in E as (ready & tail & -> & _). right. left. eexists. by left.
        -- injection H as <- <-. by right; right; right.
    + destruct (server_idle s && st_soft_trigger s); [|done]. injection H as <- <-. by left.
    + destruct (server_idle s && st_hard s); [|done]. injection H as <- <-. by left.
    + destruct (server_idle s); [|done]. injection H as <- <-. by left.
    + destruct (st_phase s); try done. destruct (st_todo s); [|done]. destruct (forallb _ _); [|done].
      destruct (drain_events _ _ _ _ _ _) as [[[[sv1 q1] inf] os1]|] eqn:E; [|injection H as <- <-; by right; right; right].
      destruct (is_reordering _ _); [|done]. destruct (drain _ _ _ _ _ _) as [[[sv2 q2] os2]|] eqn:E2; injection H as <- <-; [|by right; right; right].
      apply drain_split in E2 as (sv3 & q3 & inf3 & os3 & E3 & _ & _ & ->). right. right. left. apply elem_of_app. left. by eapply drain_events_all.
    + left. repeat case_match; by simplify_eq.
    + left. repeat case_match; by simplify_eq.
    + left. repeat case_match; by simplify_eq.
    + left. repeat case_match; by simplify_eq.
    + left. repeat case_match; unfold panic in H; by simplify_eq.
    + left. repeat case_match; simplify_eq; cbn; apply elem_of_app; by left.
    + left. repeat case_match; simplify_eq; cbn; apply elem_of_app; by left.
    + left. repeat case_match; by simplify_eq.
    + left. by simplify_eq.
    + left. by simplify_eq.
  - intros c n x f Hi. pose proof (step_origin cfg _ _ _ _ H) as F. rewrite Forall_forall in F. pose proof Hi as Hi'. apply F in Hi' as (_ & _ & v & ->). clear F.
    cbn [SchedModel.step] in H. exists v. destruct (st_clients s !! c) as [[]|]; try done; injection H as <- <-; apply elem_of_list_singleton in Hi; injection Hi as <-; cbn; apply elem_of_app; right; by left.
Qed.

Lemma step_drained s a s' os : step s a = Some (s', os) -> (st_phase s = PDrained -> st_events s = [] /\ forallb ended (st_clients s) = true) ->
  st_phase s' = PDrained -> st_events s' = [] /\ forallb ended (st_clients s') = true.
Proof.
  intros H IH Hp. destruct (st_phase s) eqn:E0.
  5: { exfalso. destruct a; cbn [SchedModel.step] in H; unfold server_idle in H; rewrite ?E0 in H; try done; repeat case_match; unfold panic in H; simplify_eq; cbn in Hp; congruence. }
  4: { destruct (IH eq_refl) as [He Hc]. rewrite forallb_forall in Hc.
       assert (forall c x, st_clients s !! c = Some x -> ended x = true) as Hx. { intros c x Hl. apply Hc. apply elem_of_list_In. by eapply elem_of_list_lookup_2. }
       destruct a; cbn [SchedModel.step] in H; unfold server_idle in H; rewrite ?E0 in H; try done.
       all: try (destruct (st_clients s !! c) as [y|] eqn:Ey; [|done]; apply Hx in Ey; by destruct y).
       all: injection H as <- <-; cbn; split; [done|by apply forallb_forall]. }
  all: destruct a; cbn [SchedModel.step] in H; unfold server_idle in H; rewrite ?E0 in H; try done.
  all: try (repeat case_match; unfold panic, leave in H; simplify_eq; cbn in Hp; congruence).
  all: try (destruct (st_todo s) as [|i rest]; [done|]; injection H as H; destruct i; cbn [exec_instr] in H; repeat case_match; unfold panic in H; simplify_eq; cbn in Hp; congruence).
  all: try (repeat case_match; unfold server_result, panic, leave in H; repeat case_match; simplify_eq; cbn in Hp; congruence).
  destruct (st_todo s); [|done]. destruct (forallb _ _) eqn:Ef; [|done].
  destruct (drain_events _ _ _ _ _ _) as [[[[sv1 q1] inf] os1]|] eqn:E; [|by injection H as <- <-].
  destruct (is_reordering _ _); [|done]. destruct (drain _ _ _ _ _ _) as [[[sv2 q2] os2]|] eqn:E2; injection H as <- <-; done.
Qed.

Lemma sent_not_lost s t : config_ok cfg -> reachable cfg s t ->
  (forall c n x f, OSentFinished c n x f ∈ t -> (exists v, EvFinished n x v f ∈ st_events s) \/ (exists el, OFinished n x el ∈ t) \/ ODrainFinished n x ∈ t) /\
  (st_phase s = PDrained -> st_events s = []).
Proof.
  intros Hok (acts & Hr). assert (forall s t acts, run cfg (initial cfg) acts = Some (s, t) ->
   (forall c n x f, OSentFinished c n x f ∈ t -> (exists v, EvFinished n x v f ∈ st_events s) \/ (exists el, OFinished n x el ∈ t) \/ ODrainFinished n x ∈ t) /\
   (st_phase s = PDrained -> st_events s = [] /\ forallb ended (st_clients s) = true)) as Hall.
  2: { destruct (Hall _ _ _ Hr) as [H1 H2]. split; [done|]. intros Hp. by apply H2. }
  clear -Hok. intros s t acts. revert s t. induction acts as [|a acts IH] using rev_ind; intros s t Hr.
  { injection Hr as <- <-. split; [|done]. intros c n x f Hi. by apply elem_of_nil in Hi. }
  pose proof Hr as Hr'. apply run_snoc in Hr as (s1 & t1 & os & H1 & H2 & ->). destruct (IH _ _ H1) as [Ha Hb]. destruct (step_events _ _ _ _ H2) as [Hc Hd].
  split; [|by eapply step_drained]. intros c n x f [Hi|Hi]%elem_of_app; [|left; by eapply Hd].
  destruct (Ha _ _ _ _ Hi) as [(v & Hv)|[(el & He)|He]].
  - destruct (Hc _ _ _ _ Hv) as [|[(el & He)|[He|He]]]; [left; by exists v|right; left; exists el; apply elem_of_app; by right|right; right; apply elem_of_app; by right|].
    exfalso. destruct (SchedProofs.c08 cfg Hok s (t1 ++ os)) as [_ Hn]; [by exists (acts ++ [a])|done].
  - right. left. exists el. apply elem_of_app. by left.
  - right. right. apply elem_of_app. by left.
Qed.
End tracker.

Section joint.
Context (secret : string) (cfg : config) (nlocal : nat).
Notation jstep := (jstep secret cfg nlocal).
Notation jrun := (jrun secret cfg nlocal).

Lemma send_all_sends c f evs : forall t t' os n how, send_all cfg nlocal t c f evs = Some (t', os) -> ServerModel.EFinished n how ∈ evs ->
  exists fl, OSentFinished c n (status_of how) fl ∈ os /\ (forall m, how = inr m -> fl = None).
Proof.
  induction evs as [|e evs IH]; intros t t' os n how H Hi; [by apply elem_of_nil in Hi|]. cbn [send_all] in H.
  destruct (send cfg nlocal t c f e) as [[t1 o1]|] eqn:E1; [|done]. destruct (send_all cfg nlocal t1 c f evs) as [[t2 o2]|] eqn:E2; [|done]. injection H as <- <-.
  apply elem_of_cons in Hi as [<-|Hi].
  - pose proof (send_spec _ _ _ _ _ _ _ _ E1) as (_ & _ & _ & (fl & ->) & _). exists fl. split; [by left|]. intros m ->.
    cbn [send] in E1. destruct (_ && _) in E1; [|done]. cbn [report_action SchedModel.step] in E1. repeat case_match; by simplify_eq.
  - destruct (IH _ _ _ _ _ E2 Hi) as (fl & Hfl & Hm). exists fl. split; [apply elem_of_app; by right|done].
Qed.

(** One step of the whole is at most one step of the server. *)
Lemma jstep_http s a s' t : jstep s a = Some (s', t) ->
  (j_http s' = j_http s /\ http_side t = [] /\ (forall l c, a <> JHttp l c)) \/
  exists l, ServerModel.step secret (j_http s) l = Some (j_http s', http_side t) /\
    ((is_deliver l = true /\ forall l c, a <> JHttp l c) \/ exists c, a = JHttp l c) /\
    forall n how, ServerModel.EFinished n how ∈ http_side t -> exists c fl, OSentFinished c n (status_of how) fl ∈ tracker_side t /\ (forall m, how = inr m -> fl = None).
Proof.
  intros H. destruct a as [a|h a|l c| |c].
  - left. cbn [JointModel.jstep] in H. repeat case_match; simplify_eq; rewrite http_side_l; done.
  - cbn [JointModel.jstep] in H. destruct (j_recv s !! h) as [c|]; [|done]. destruct (recv_action c a); [|done].
    destruct (step cfg (j_tracker s) a) as [[u os]|]; [|done]. destruct (returned os) as [d|].
    + destruct (ServerModel.step secret (j_http s) (ServerModel.LDeliver h d)) as [[sv evs]|] eqn:E; [|done]. injection H as <- <-. right.
      exists (ServerModel.LDeliver h d). rewrite http_side_app, http_side_l, http_side_r. split; [done|]. split; [by left|]. intros n how Hi. exfalso.
      cbn [ServerModel.step] in E. repeat case_match; simplify_eq; set_solver.
    + injection H as <- <-. left. by rewrite http_side_l.
  - right. apply jhttp_parts in H as (evs & t1 & os1 & Hd & _ & _ & Eh & Es & _ & os2 & -> & ->). exists l.
    rewrite http_side_app, http_side_l, http_side_r. split; [done|]. split; [right; by exists c|]. intros n how Hi.
    destruct (send_all_sends _ _ _ _ _ _ _ _ Es Hi) as (fl & Hfl & Hm). exists c, fl. rewrite app_nil_r, tracker_side_app, tracker_side_l. split; [apply elem_of_app; by left|done].
  - left. cbn [JointModel.jstep] in H. repeat case_match; by simplify_eq.
  - left. cbn [JointModel.jstep] in H. repeat case_match; simplify_eq; rewrite http_side_l; done.
Qed.

Lemma jrun_http acts : forall s s' t, jrun s acts = Some (s', t) -> exists ls,
  ServerModel.run secret (j_http s) ls = Some (j_http s', http_side t) /\ ServerSpec.nticks ls = ServerSpec.nticks (http_labels acts) /\
  (forall l, l ∈ ls -> is_deliver l = true \/ l ∈ http_labels acts) /\
  (jalong secret cfg nlocal ServerSpec.calm s acts -> ServerSpec.along secret ServerSpec.calm (j_http s) ls) /\
  (forall n how, ServerModel.EFinished n how ∈ http_side t -> exists c fl, OSentFinished c n (status_of how) fl ∈ tracker_side t /\ (forall m, how = inr m -> fl = None)).
Proof.
  induction acts as [|a acts IH]; intros s s' t H; cbn [JointModel.jrun] in H.
  { injection H as <- <-. exists []. split; [done|]. split; [done|]. split; [intros l Hl; by apply elem_of_nil in Hl|]. split; [done|]. intros n how Hi. by apply elem_of_nil in Hi. }
  destruct (jstep s a) as [[s1 t1]|] eqn:E1; [|done]. destruct (jrun s1 acts) as [[s2 t2]|] eqn:E2; [|done]. injection H as <- <-.
  destruct (IH _ _ _ E2) as (ls & Hr & Ht & Hl & Hc & Hf). destruct (jstep_http _ _ _ _ E1) as [(Hh & Ho & Hn)|(l & Hs & Ha & Hf1)].
  - exists ls. rewrite http_side_app, Ho. rewrite Hh in *. split; [done|]. assert (http_labels (a :: acts) = http_labels acts) as Ela by (destruct a; try done; by destruct (Hn l c)).
    rewrite Ela. split; [done|]. split; [done|]. split; [intros [_ Hj]; rewrite E1 in Hj; by apply Hc|].
    intros n how Hi. destruct (Hf n how Hi) as (c & fl & Hfl & Hm). exists c, fl. rewrite tracker_side_app. split; [apply elem_of_app; by right|done].
  - exists (l :: ls). rewrite http_side_app. split; [cbn [ServerModel.run]; by rewrite Hs, Hr|]. split.
    { destruct Ha as [[Hd Hn]|(c & ->)].
      - assert (http_labels (a :: acts) = http_labels acts) as -> by (destruct a; try done; by destruct (Hn l0 c)). rewrite <- Ht. by destruct l.
      - unfold ServerSpec.nticks in *. cbn [http_labels omap list_omap List.filter]. change (omap _ acts) with (http_labels acts).
        destruct (ServerSpec.is_tick_label l); cbn [length]; by rewrite Ht. }
    split.
    { intros l' Hl'. apply elem_of_cons in Hl' as [->|Hl'].
      - destruct Ha as [[Hd _]|(c & ->)]; [by left|]. right. by left.
      - destruct (Hl l' Hl') as [|Hi]; [by left|]. right. destruct a; try done. by right. }
    split.
    { intros [Hp Hj]. rewrite E1 in Hj. cbn [ServerSpec.along]. rewrite Hs. split; [|by apply Hc]. destruct Ha as [[Hd _]|(c & ->)]; [|done].
      destruct l; done. }
    intros n how [Hi|Hi]%elem_of_app.
    + destruct (Hf1 n how Hi) as (c & fl & Hfl & Hm). exists c, fl. rewrite tracker_side_app. split; [apply elem_of_app; by left|done].
    + destruct (Hf n how Hi) as (c & fl & Hfl & Hm). exists c, fl. rewrite tracker_side_app. split; [apply elem_of_app; by right|done].
Qed.

Lemma jalong_app P a : forall s b s1 t1, jrun s a = Some (s1, t1) ->
  jalong secret cfg nlocal P s (a ++ b) <-> jalong secret cfg nlocal P s a /\ jalong secret cfg nlocal P s1 b.
Proof.
  induction a as [|x a IH]; intros s b s1 t1 H; cbn [JointModel.jrun app jalong] in *; [injection H as <- _; tauto|].
  destruct (jstep s x) as [[s2 t2]|] eqn:E; [|done]. destruct (jrun s2 a) as [[s3 t3]|] eqn:E2; [|done]. injection H as <- _.
  rewrite (IH _ b _ _ E2). tauto.
Qed.
End joint.

(** ** The reaper on its own *)
Section reaper.
Context (secret : string).
Notation hrun := (ServerModel.run secret).
Import ServerModel.

Lemma hrun_cons s l s1 e1 ls s2 e2 : ServerModel.step secret s l = Some (s1, e1) -> hrun s1 ls = Some (s2, e2) -> hrun s (l :: ls) = Some (s2, e1 ++ e2).
Proof. intros H1 H2. cbn [ServerModel.run]. by rewrite H1, H2. Qed.

Definition rests (s : server) : Prop := exists k s' evs, hrun s (repeat LReap k) = Some (s', evs) /\ sv_reaper s' = PIdle /\ sv_handlers s' = sv_handlers s.

Lemma rests_step s s1 e1 : reap_step s = Some (s1, e1) -> sv_handlers s1 = sv_handlers s -> rests s1 -> rests s.
Proof.
  intros H Hh (k & s' & evs & Hr & Hi & Hh'). exists (S k), s', (e1 ++ evs). split; [|split; [done|congruence]]. cbn [repeat]. by eapply hrun_cons.
Qed.
Lemma rests_send ex : forall s, sv_reaper s = PSend ex -> rests s.
Proof.
  induction ex as [|c ex IH]; intros s Hs.
  - eapply rests_step; [unfold reap_step; by rewrite Hs|done|]. by exists 0, (set_reaper PIdle s), [].
  - eapply rests_step; [unfold reap_step; by rewrite Hs|done|]. by apply IH.
Qed.
Lemma rests_soft txs : forall s ex, sv_reaper s = PSoft txs ex -> NoDup txs -> (forall tx, tx ∈ txs -> is_Some (sv_conns s !! tx)) -> rests s.
Proof.
  induction txs as [|tx txs IH]; intros s ex Hs Hn Hd.
  - eapply rests_step; [unfold reap_step; by rewrite Hs|done|]. by eapply rests_send.
  - destruct (Hd tx) as [c Hc]; [by left|]. apply NoDup_cons in Hn as [Hn1 Hn2]. eapply rests_step; [unfold reap_step; by rewrite Hs, Hc|done|].
    eapply IH; [done|done|]. intros tx' Hx. cbn. rewrite lookup_delete_ne by set_solver. apply Hd. by right.
Qed.
Lemma rests_ticked txs : forall s ex, sv_reaper s = PTicked txs ex -> rests s.
Proof.
  induction txs as [|tx txs IH]; intros s ex Hs.
  - destruct (sv_soft s) as [t|] eqn:E.
    + eapply rests_step; [unfold reap_step; by rewrite Hs, E|done|]. eapply rests_soft; [done| |].
      * apply NoDup_fmap_2_strong; [|apply NoDup_filter, NoDup_map_to_list]. intros [a b] [a' b'] [_ Ha]%elem_of_list_filter [_ Hb]%elem_of_list_filter [= <-].
        apply elem_of_map_to_list in Ha, Hb. congruence.
      * intros tx (p & -> & Hp)%elem_of_list_fmap. apply elem_of_list_filter in Hp as [_ Hp]. destruct p as [tx c]. apply elem_of_map_to_list in Hp. cbn. by exists c.
    + eapply rests_step; [unfold reap_step; by rewrite Hs, E|done|]. by eapply rests_send.
  - destruct (sv_conns s !! tx) as [c|] eqn:E.
    + eapply rests_step; [unfold reap_step; by rewrite Hs, E|done|]. by eapply IH.
    + eapply rests_step; [unfold reap_step; by rewrite Hs, E|done|]. by eapply IH.
Qed.

(** Any number of turns. *)
Lemma turns n : forall s, sv_reaper s = PIdle -> exists ls s' evs, hrun s ls = Some (s', evs) /\ sv_reaper s' = PIdle /\ sv_handlers s' = sv_handlers s /\
  ServerSpec.nticks ls = n /\ Forall (fun l => l = LTick \/ l = LReap) ls.
Proof.
  induction n as [|n IH]; intros s Hs; [by exists [], s, []|].
  assert (exists s1 txs, ServerModel.step secret s LTick = Some (s1, []) /\ sv_reaper s1 = PTicked txs [] /\ sv_handlers s1 = sv_handlers s) as (s1 & txs & H1 & Hr1 & Hh1).
  { cbn [ServerModel.step]. rewrite Hs. destruct (tick (sv_wheel s)) as [w l]. by eexists _, _. }
  destruct (rests_ticked txs s1 [] Hr1) as (k & s2 & e2 & H2 & Hr2 & Hh2). destruct (IH s2 Hr2) as (ls & s3 & e3 & H3 & Hr3 & Hh3 & Hn & Hf).
  exists (LTick :: repeat LReap k ++ ls), s3, ([] ++ e2 ++ e3). split; [eapply hrun_cons; [exact H1|]; by eapply ServerProofs.run_app_2|].
  split; [done|]. split; [congruence|]. split.
  - unfold ServerSpec.nticks in *. cbn [List.filter ServerSpec.is_tick_label length]. rewrite List.filter_app, app_length, Hn. f_equal.
    assert (List.filter ServerSpec.is_tick_label (repeat LReap k) = []) as ->; [clear; induction k as [|k IHk]; [done|exact IHk]|done].
  - constructor; [by left|]. apply Forall_app. split; [|done]. apply Forall_forall. intros l Hl%elem_of_list_In%repeat_spec. by right.
Qed.
End reaper.

Section follow.
Context (secret : string) (cfg : config) (nlocal : nat).
Notation jstep := (jstep secret cfg nlocal).
Notation jrun := (jrun secret cfg nlocal).

Lemma jquiet_calm acts : forall s, ServerModel.sv_handlers (j_http s) = ∅ ->
  Forall (fun a => match a with JHttp l _ => l = ServerModel.LTick \/ l = ServerModel.LReap | JTracker _ => True | _ => False end) acts ->
  jalong secret cfg nlocal ServerSpec.calm s acts.
Proof.
  induction acts as [|a acts IH]; intros s Hs Hl; [exact I|]. apply Forall_cons in Hl as [Hl Hls]. cbn [jalong]. split.
  - destruct a; try done. split; [intros _ h x; by rewrite Hs, lookup_empty|]. intros h tx node sr job b _. by rewrite Hs, lookup_empty.
  - destruct (jstep s a) as [[s1 e1]|] eqn:E; [|done]. apply IH; [|done].
    destruct (jstep_http secret cfg nlocal _ _ _ _ E) as [(-> & _)|(l & Hst & [[Hd Hn]|(c & ->)] & _)]; [done| |].
    + destruct a; try done; [cbn [JointModel.jstep] in E; repeat case_match; by simplify_eq|by destruct (Hn l0 c)].
    + destruct Hl as [-> | ->]; cbn [ServerModel.step] in Hst; [|unfold ServerModel.reap_step in Hst]; repeat case_match; try done; injection Hst as Hst _; rewrite <- Hst; exact Hs.
Qed.
Lemma jplain_calm acts : forall s, Forall (fun a => match a with JHttp ServerModel.LTick _ | JHttp (ServerModel.LRun _ _) _ => False | _ => True end) acts ->
  jalong secret cfg nlocal ServerSpec.calm s acts.
Proof.
  induction acts as [|a acts IH]; intros s Hl; [exact I|]. apply Forall_cons in Hl as [Hl Hls]. cbn [jalong]. split.
  - destruct a as [| |[]| |]; done.
  - destruct (jstep s a) as [[s1 e1]|] eqn:E; [by apply IH|done].
Qed.

Lemma message_dec (evs : list ServerModel.event) : {exists e, e ∈ evs /\ is_message e} + {~ exists e, e ∈ evs /\ is_message e}.
Proof.
  induction evs as [|e evs IH]; [right; intros (e & He & _); by apply elem_of_nil in He|].
  destruct IH as [IH|IH]; [left; destruct IH as (e' & ? & ?); exists e'; split; [by right|done]|].
  assert (Hd : {is_message e} + {~ is_message e}) by (destruct e; cbn; auto). destruct Hd as [Hd|Hd]; [left; exists e; split; [by left|done]|].
  right. intros (e' & [->|He]%elem_of_cons & Hm); [done|]. apply IH. eauto.
Qed.
Lemma jhttp_open s l c s' t : jstep s (JHttp l c) = Some (s', t) -> j_closed s' = false.
Proof.
  intros H. cbn [JointModel.jstep] in H. destruct (_ || _); [done|]. destruct (ServerModel.step secret (j_http s) l) as [[sv evs]|]; [|done].
  destruct (send_all _ _ _ _ _ _) as [[u os]|]; [|done]. destruct (new_flags _ _ _). repeat case_match; by simplify_eq.
Qed.

(** The steps of the server's own tasks are always accepted by the tracker. *)
Lemma jfollow ls : forall a1 s t sv evs, jreachable secret cfg nlocal a1 s t -> j_closed s = false ->
  ServerModel.run secret (j_http s) ls = Some (sv, evs) -> Forall (fun l => l = ServerModel.LTick \/ l = ServerModel.LReap) ls ->
  exists a2 s' t', jrun s a2 = Some (s', t') /\ http_labels a2 = ls /\ j_http s' = sv /\
    Forall (fun a => exists c, a = JHttp ServerModel.LTick c \/ a = JHttp ServerModel.LReap c) a2.
Proof.
  induction ls as [|l ls IH]; intros a1 s t sv evs H Hcl Hr Hf; cbn [ServerModel.run] in Hr; [injection Hr as <- <-; by exists [], s, []|].
  destruct (ServerModel.step secret (j_http s) l) as [[sv1 e1]|] eqn:E; [|done]. destruct (ServerModel.run secret sv1 ls) as [[sv2 e2]|] eqn:E2; [|done]. injection Hr as <- <-.
  apply Forall_cons in Hf as [Hl Hf].
  assert (exists c s1 t1, jstep s (JHttp l c) = Some (s1, t1) /\ j_http s1 = sv1 /\ j_closed s1 = false) as (c & s1 & t1 & Hs & Hsv & Hcl1).
  { assert (Hd : is_deliver l = false /\ flag_ok s l = true /\ label_handler l = None) by (by destruct Hl as [-> | ->]). destruct Hd as (Hd & Hfl & Hlh).
    destruct (message_dec e1) as [Hm|Hm].
    - destruct (server_messages_accepted secret cfg nlocal a1 s t l sv1 e1 H Hcl Hd Hfl E Hm) as (c & s' & t' & Hs & _ & Hsv & _).
      { intros n e e' He (host & pid & job & ->) _. exfalso. destruct (started_by_begun secret _ _ _ _ _ _ _ _ E He) as (h & tx & c & -> & _). destruct Hl; done. }
      exists c, s', t'. split; [done|]. split; [done|]. by eapply jhttp_open.
    - exists 0. cbn [JointModel.jstep]. rewrite Hcl, Hd, Hfl. cbn [orb negb]. rewrite E, send_quiet by (intros e He Hme; apply Hm; eauto).
      rewrite Hlh. destruct (new_flags s l e1) as [flags next]. by eexists _, _. }
  destruct (IH (a1 ++ [JHttp l c]) s1 (t ++ t1) sv2 e2) as (a2 & s' & t' & H2 & Hl2 & Hsv2 & Ha); [|done|by rewrite Hsv|done|].
  { unfold jreachable. apply jrun_app. exists s, t, t1. split; [done|]. split; [|done]. cbn [JointModel.jrun]. by rewrite Hs, app_nil_r. }
  exists (JHttp l c :: a2), s', (t1 ++ t'). split; [cbn [JointModel.jrun]; by rewrite Hs, H2|]. split; [cbn; by f_equal|]. split; [done|].
  constructor; [|done]. exists c. destruct Hl as [-> | ->]; auto.
Qed.
End follow.
