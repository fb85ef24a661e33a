(** Trace invariant of the server's private data. *)
From Verif Require Export SchedTrace.

Definition is_soft (o : obs) : bool := match o with OSoft _ => true | _ => false end.
Definition is_exit (o : obs) : bool := match o with OExit _ => true | _ => false end.
Definition quiet (o : obs) : Prop :=
  match o with
  | OSoft _ | OExit _ | OFinished _ _ _ | OReady _ | ODrainStarted _ | ODrainFinished _ _ => False
  | _ => True
  end.
(** Run times of the successful tasks, in the order of their finish reports. *)
Definition run_time (o : obs) : option N :=
  match o with OFinished _ s e => if is_success s then e else None | _ => None end.
Definition run_times (t : list obs) : list N := omap run_time t.

Lemma fizzles_app t1 t2 : fizzles (t1 ++ t2) = (fizzles t1 + fizzles t2)%N.
Proof. unfold fizzles. rewrite List.filter_app, app_length. lia. Qed.
Lemma run_times_app t1 t2 : run_times (t1 ++ t2) = run_times t1 ++ run_times t2.
Proof. apply omap_app'. Qed.

Lemma existsb_quiet os : Forall quiet os -> existsb is_soft os = false /\ existsb is_exit os = false.
Proof. induction 1 as [|o os Ho _ [IH1 IH2]]; [done|]. destruct o; done. Qed.
Lemma quiet_neutral os : Forall quiet os -> Forall neutral os.
Proof. intros H. eapply Forall_impl; [exact H|]. intros []; done. Qed.
Lemma fizzles_quiet os : Forall quiet os -> fizzles os = 0%N.
Proof.
  intros H. unfold fizzles. replace (List.filter fizzle os) with (@nil obs); [done|].
  induction H as [|o os Ho _ IH]; [done|]. destruct o; done.
Qed.
Lemma run_times_quiet os : Forall quiet os -> run_times os = [].
Proof. induction 1 as [|o os Ho _ IH]; [done|]. destruct o; done. Qed.

Lemma fizzle_is_fizzle n x e : fizzle (OFinished n x e) = is_fizzle x e.
Proof.
  unfold fizzle, is_fizzle, is_success, FIZZLED_TIME_CUTOFF. destruct e as [e|]; [|by rewrite andb_false_r].
  by destruct x as [[]| |].
Qed.

Section strace.
Variable cfg : config.
Notation g := (cf_g cfg).

Record TS (s : st) (t : list obs) : Prop := {
  s_soft : sv_soft (st_sv s) = existsb is_soft t;
  s_open : sv_open (st_sv s) = negb (existsb is_soft t || existsb is_exit t);
  s_failed : sv_n_failed (st_sv s) = N.of_nat (length (bad t));
  s_succ : sv_n_success (st_sv s) = N.of_nat (length (good t));
  s_fizz : sv_n_fizzled (st_sv s) = fizzles t;
  s_recent : sv_recent (st_sv s) = run_times t;
  s_exit : existsb is_exit t = true <-> exiting s;
  s_limit : forall t1 t2, t = t1 ++ OSoft SoftFailures :: t2 ->
     finish_order t1 <> [] /\ (cf_allowed cfg <= fizzles t1)%N;
  s_now : forall t1 n x e t2, t = t1 ++ OFinished n x e :: t2 ->
     (cf_allowed cfg <= fizzles (t1 ++ [OFinished n x e]))%N ->
     exists r t3, t2 = map OReady r ++ OSoft SoftFailures :: t3;
  s_done : OExit ExitDone ∈ t -> sv_n_roi (st_sv s) = 0%N;
  s_exitsoft : OExit ExitSoft ∈ t -> existsb is_soft t = true;
  s_after : forall t1 c t2, t = t1 ++ OSoft c :: t2 -> readied t2 = [];
  s_afterexit : forall t1 c t2, t = t1 ++ OExit c :: t2 -> readied t2 = [] /\ finish_order t2 = [] /\
      existsb is_exit t2 = false;
  s_nodrain : forall o, o ∈ t -> ~ drain_obs o
}.

Lemma after_app (P : obs -> Prop) (Q : list obs -> Prop) t os :
  (forall t1 o t2, t = t1 ++ o :: t2 -> P o -> Q (t2 ++ os)) ->
  (forall t1 o t2, os = t1 ++ o :: t2 -> P o -> Q t2) ->
  forall t1 o t2, t ++ os = t1 ++ o :: t2 -> P o -> Q t2.
Proof.
  intros H1 H2 t1 o t2 Heq HP. apply app_eq_app in Heq as (k & [[-> Hk]|[-> Hk]]).
  - destruct k as [|o' k]; simpl in Hk.
    + by apply (H2 [] o).
    + injection Hk as <- ->. by eapply H1.
  - by eapply H2.
Qed.

Lemma limit_app t os : 
  OSoft SoftFailures ∉ os ->
  (forall t1 t2, t = t1 ++ OSoft SoftFailures :: t2 -> finish_order t1 <> [] /\ (cf_allowed cfg <= fizzles t1)%N) ->
  forall t1 t2, t ++ os = t1 ++ OSoft SoftFailures :: t2 -> finish_order t1 <> [] /\ (cf_allowed cfg <= fizzles t1)%N.
Proof.
  intros Hos H t1 t2 Heq. apply app_eq_app in Heq as (k & [[-> Hk]|[-> Hk]]).
  - destruct k as [|o' k]; simpl in Hk.
    + exfalso. apply Hos. subst os. by left.
    + injection Hk as <- ->. by eapply H.
  - exfalso. apply Hos. subst os. apply elem_of_app. right. by left.
Qed.

Lemma now_app t os :
  (forall n x e, OFinished n x e ∉ os) ->
  (forall t1 n x e t2, t = t1 ++ OFinished n x e :: t2 ->
     (cf_allowed cfg <= fizzles (t1 ++ [OFinished n x e]))%N ->
     exists r t3, t2 = map OReady r ++ OSoft SoftFailures :: t3) ->
  forall t1 n x e t2, t ++ os = t1 ++ OFinished n x e :: t2 ->
     (cf_allowed cfg <= fizzles (t1 ++ [OFinished n x e]))%N ->
     exists r t3, t2 = map OReady r ++ OSoft SoftFailures :: t3.
Proof.
  intros Hos H t1 n x e t2 Heq Hle. apply app_eq_app in Heq as (k & [[-> Hk]|[-> Hk]]).
  - destruct k as [|o' k]; simpl in Hk.
    + exfalso. apply (Hos n x e). subst os. by left.
    + injection Hk as <- ->. destruct (H t1 n x e k eq_refl Hle) as (r & t3 & ->).
      exists r, (t3 ++ os). by rewrite <- List.app_assoc.
  - exfalso. apply (Hos n x e). subst os. apply elem_of_app. right. by left.
Qed.

Lemma ts_frame s s' t os :
  TS s t -> st_sv s' = st_sv s -> (exiting s' <-> exiting s) -> Forall quiet os -> TS s' (t ++ os).
Proof.
  intros [] E1 E2 Hq. pose proof (quiet_neutral os Hq) as Hn. destruct (existsb_quiet os Hq) as [Q1 Q2].
  assert (forall o, o ∈ os -> quiet o) as Hqo by (by apply Forall_forall).
  split; rewrite ?E1, ?E2, ?existsb_app, ?Q1, ?Q2, ?orb_false_r, ?bad_neutral, ?good_neutral, ?fizzles_app,
    ?run_times_app, ?(fizzles_quiet os), ?(run_times_quiet os), ?app_nil_r, ?N.add_0_r by done; try done.
  - apply limit_app; try done. intros H. by apply Hqo in H.
  - apply now_app; try done. intros n x e H. by apply Hqo in H.
  - rewrite elem_of_app. intros [H|H]; [auto|by apply Hqo in H].
  - rewrite elem_of_app. intros [H|H]; [auto|by apply Hqo in H].
  - intros t1 c t2 H. eapply (after_app (fun o => o = OSoft c) (fun t2 => readied t2 = []) t os); try done.
    + intros u1 o u2 -> ->. rewrite readied_neutral by done. by eapply s_after0.
    + intros u1 o u2 -> ->. assert (quiet (OSoft c)) as []. apply Hqo. apply elem_of_app. right. by left.
  - intros t1 c t2 H. eapply (after_app (fun o => o = OExit c)
      (fun t2 => readied t2 = [] /\ finish_order t2 = [] /\ existsb is_exit t2 = false) t os); try done.
    + intros u1 o u2 -> ->. rewrite readied_neutral, finish_neutral, existsb_app, Q2, orb_false_r by done. by eapply s_afterexit0.
    + intros u1 o u2 -> ->. assert (quiet (OExit c)) as []. apply Hqo. apply elem_of_app. right. by left.
  - intros o. rewrite elem_of_app. intros [H|H]; [by apply s_nodrain0|]. apply Hqo in H. destruct o; simpl in *; tauto.
Qed.

Lemma exiting_todo s s' : st_todo s' = st_todo s -> st_phase s' = st_phase s -> (exiting s' <-> exiting s).
Proof. intros E1 E2. unfold exiting. by rewrite E1, E2. Qed.

Lemma idle_not_exiting s : st_phase s = PLoop -> st_todo s = [] -> ~ exiting s.
Proof. intros H1 H2 [H|H]; [by rewrite H1 in H|]. rewrite H2 in H. by apply elem_of_nil in H. Qed.

Lemma not_true_false b : b <> true -> b = false.
Proof. by destruct b. Qed.

Lemma ts_close s t todo soft o :
  TS s t -> st_phase s = PLoop -> st_todo s = [] ->
  (o = OSoft SoftTrigger /\ soft = true /\ IBreak ∉ todo \/
   (o = OExit ExitHard \/ o = OExit ExitCtrlC) /\ soft = sv_soft (st_sv s) /\ IBreak ∈ todo) ->
  TS (set_todo (set_sv s (with_closed (st_sv s) soft)) todo) (t ++ [o]).
Proof.
  intros HT Hph Et Ho. pose proof (idle_not_exiting s Hph Et) as Hne.
  assert (Hex : existsb is_exit t = false).
  { apply not_true_false. intros H. apply Hne. by apply (s_exit _ _ HT). }
  assert (Hne' : forall c, OExit c ∉ t).
  { intros c H. assert (existsb is_exit t = true); [|congruence]. apply existsb_exists.
    exists (OExit c). split; [by apply elem_of_list_In|done]. }
  destruct HT.
  assert (Forall neutral [o]) as Hn.
  { destruct Ho as [(-> & _)|([->| ->] & _)]; by repeat constructor. }
  assert (fizzles [o] = 0%N) as Hf by (by destruct Ho as [(-> & _)|([->| ->] & _)]).
  assert (run_times [o] = []) as Hrt by (by destruct Ho as [(-> & _)|([->| ->] & _)]).
  split; rewrite ?existsb_app, ?bad_neutral, ?good_neutral, ?fizzles_app, ?run_times_app, ?Hf, ?Hrt,
    ?N.add_0_r, ?app_nil_r by done; cbn [set_todo set_sv st_sv with_closed sv_soft sv_open sv_n_failed sv_n_success
      sv_n_fizzled sv_recent sv_n_roi]; try done.
  - destruct Ho as [(-> & -> & _)|([->| ->] & -> & _)]; simpl; rewrite ?orb_true_r, ?orb_false_r; done.
  - destruct Ho as [(-> & -> & _)|([->| ->] & -> & _)]; simpl; rewrite ?orb_true_r; done.
  - rewrite Hex. destruct Ho as [(-> & -> & Hb)|([->| ->] & -> & Hb)]; simpl.
    + split; [done|]. intros [H|H]; [simpl in H; congruence|done].
    + split; [|done]. intros _. by right.
    + split; [|done]. intros _. by right.
  - apply limit_app; try done. intros H. apply elem_of_list_singleton in H. by destruct Ho as [(-> & _)|([->| ->] & _)].
  - apply now_app; try done. intros n x e H. apply elem_of_list_singleton in H. by destruct Ho as [(-> & _)|([->| ->] & _)].
  - rewrite elem_of_app, elem_of_list_singleton. intros [H|H]; [by apply Hne' in H|].
    by destruct Ho as [(-> & _)|([->| ->] & _)].
  - rewrite elem_of_app, elem_of_list_singleton. intros [H|H]; [by apply Hne' in H|].
    by destruct Ho as [(-> & _)|([->| ->] & _)].
  - intros t1 c t2 H. eapply (after_app (fun o => o = OSoft c) (fun t2 => readied t2 = []) t [o]); try done.
    + intros u1 o' u2 -> ->. rewrite readied_neutral by done. by eapply s_after0.
    + intros u1 o' u2 Hu ->. destruct u1 as [|? [|]]; [|discriminate..]. injection Hu as _ <-. done.
  - intros t1 c t2 H. eapply (after_app (fun o => o = OExit c)
      (fun t2 => readied t2 = [] /\ finish_order t2 = [] /\ existsb is_exit t2 = false) t [o]); try done.
    + intros u1 o' u2 Hu ->. exfalso. apply (Hne' c). rewrite Hu. apply elem_of_app. right. by left.
    + intros u1 o' u2 Hu ->. destruct u1 as [|? [|]]; [|discriminate..]. injection Hu as _ <-. done.
  - intros o'. rewrite elem_of_app, elem_of_list_singleton. intros [H| ->]; [by apply s_nodrain0|].
    destruct Ho as [(-> & _)|([->| ->] & _)]; simpl; tauto.
Qed.

Lemma existsb_map_ready l : existsb is_soft (map OReady l) = false /\ existsb is_exit (map OReady l) = false.
Proof. induction l as [|n l [IH1 IH2]]; done. Qed.
Lemma fizzles_map_ready l : fizzles (map OReady l) = 0%N.
Proof. unfold fizzles. replace (List.filter fizzle (map OReady l)) with (@nil obs); [done|]. by induction l. Qed.
Lemma run_times_map_ready l : run_times (map OReady l) = [].
Proof. by apply omap_map_none. Qed.

Lemma ts_initial : TS (initial cfg) [].
Proof.
  split; try done.
  1: { split; [done|]. intros [H|H]; [done|by apply elem_of_nil in H]. }
  all: intros; try (by exfalso; eapply not_elem_of_nil);
    match goal with H : [] = ?a ++ ?b :: ?c |- _ => by destruct (app_cons_not_nil a c b) end.
Qed.

Lemma split_map_tail ready tail : forall k o t2,
  map OReady ready ++ tail = k ++ o :: t2 -> (forall n, o <> OReady n) ->
  exists k', k = map OReady ready ++ k' /\ tail = k' ++ o :: t2.
Proof.
  induction ready as [|r ready IH]; intros k o t2 H Ho; simpl in H.
  - by exists k.
  - destruct k as [|o' k]; simpl in H.
    + injection H as H1 H2. by destruct (Ho r).
    + injection H as <- H. destruct (IH k o t2 H Ho) as (k' & -> & ->). by exists k'.
Qed.

(** A finish report. *)
Lemma ts_finished s t id x v f rest now sv' is os :
  TS s t -> st_phase s = PLoop -> st_todo s = [] ->
  handle_finished cfg (st_sv s) id x v f now = Some (sv', is, os) ->
  TS (set_todo (set_sv (set_events s rest) sv') is) (t ++ os).
Proof.
  intros HT Hph Et H. pose proof (idle_not_exiting s Hph Et) as Hne.
  assert (Hex : existsb is_exit t = false).
  { apply not_true_false. intros Hx. apply Hne. by apply (s_exit _ _ HT). }
  assert (Hne' : forall c, OExit c ∉ t).
  { intros c Hx. assert (existsb is_exit t = true); [|congruence]. apply existsb_exists.
    exists (OExit c). split; [by apply elem_of_list_In|done]. }
  apply handle_finished_inv in H as (c & items & ready & over & stop & H).
  cbn zeta in H. destruct H as (Hc & Hover & Hstop & Hid & Hm & Hsr & Hfz & Hfa & Hsu & Hro & Hso & Hop & Hin & Hre & His & Hos).
  set (roi := (N.pred (sv_n_roi (st_sv s)) + N.of_nat (length ready))%N) in *.
  set (tail := (if over then [OSoft SoftFailures] else [])
                ++ (if stop then [OExit (if N.eqb roi 0 then ExitDone else ExitSoft)] else [])) in *.
  assert (Htl : Forall neutral tail) by (unfold tail; destruct over, stop; by repeat constructor).
  assert (Htl2 : handed tail = []) by (unfold tail; by destruct over, stop).
  destruct (finished_tail cfg t id x (elapsed_of (st_sv s) id now) ready tail Htl Htl2)
    as (Ord & Ohd & Ofo & Ogd & Obd & _). rewrite <- Hos in *.
  assert (Osoft : existsb is_soft os = over).
  { rewrite Hos. cbn [existsb is_soft]. rewrite existsb_app, (proj1 (existsb_map_ready ready)).
    unfold tail. by destruct over, stop. }
  assert (Oexit : existsb is_exit os = stop).
  { rewrite Hos. cbn [existsb is_exit]. rewrite existsb_app, (proj2 (existsb_map_ready ready)).
    unfold tail. by destruct over, stop. }
  assert (Ftl : fizzles tail = 0%N) by (unfold tail; by destruct over, stop).
  assert (Ofz : fizzles os = if is_fizzle x (elapsed_of (st_sv s) id now) then 1%N else 0%N).
  { rewrite Hos. change (OFinished id x ?e :: ?l) with ([OFinished id x e] ++ l).
    rewrite !fizzles_app, fizzles_map_ready, Ftl. unfold fizzles. cbn [List.filter].
    rewrite fizzle_is_fizzle. by destruct (is_fizzle _ _). }
  assert (Ort : run_times os = match elapsed_of (st_sv s) id now with
     Some e => if is_success x then [e] else [] | None => [] end).
  { rewrite Hos. change (OFinished id x ?e :: ?l) with ([OFinished id x e] ++ l).
    rewrite !run_times_app, run_times_map_ready. replace (run_times tail) with (@nil N) by (unfold tail; by destruct over, stop).
    rewrite app_nil_r. unfold run_times. simpl. destruct (is_success x), (elapsed_of _ _ _); done. }
  pose proof (s_fizz _ _ HT) as HF. pose proof (s_soft _ _ HT) as HS.
  destruct HT.
  split; rewrite ?existsb_app, ?good_app, ?bad_app, ?app_length, ?fizzles_app, ?run_times_app, ?Osoft, ?Oexit, ?Ofz, ?Ort, ?Ogd, ?Obd;
    cbn [set_todo set_sv st_sv st_todo].
  - rewrite Hso, HS. apply orb_comm.
  - rewrite Hop, s_open0, Hex. by destruct (existsb is_soft t), over, stop.
  - rewrite Hfa, s_failed0. destruct (is_success x); simpl; lia.
  - rewrite Hsu, s_succ0. destruct (is_success x); simpl; lia.
  - rewrite Hfz, HF. destruct (is_fizzle _ _); lia.
  - rewrite Hre, s_recent0. destruct (elapsed_of _ _ _), (is_success x); by rewrite ?app_nil_r.
  - rewrite Hex. cbn [orb]. rewrite His. unfold exiting. cbn [st_phase st_todo set_todo set_sv set_events]. rewrite Hph. split.
    + intros ->. right. assert (IBreak ∈ IBreak :: zero_all cfg) as Hb by (by left).
      rewrite elem_of_cons, !elem_of_app. tauto.
    + intros [?|Hb]; [done|]. apply not_false_is_true. intros Hf. rewrite Hf in Hb.
      apply elem_of_cons in Hb as [?|Hb]; [done|]. rewrite !elem_of_app in Hb.
      destruct Hb as [Hb|[Hb|[Hb|Hb]]].
      * rewrite rinstrs_split, elem_of_app in Hb. destruct Hb as [Hb|Hb].
        -- by apply elem_of_rpre in Hb as [?|(?&?&?)].
        -- apply elem_of_rpost in Hb as [?|(?&?&?&_)]; done.
      * destruct f; [|by apply elem_of_nil in Hb]. by apply elem_of_list_singleton in Hb.
      * destruct over; [|by apply elem_of_nil in Hb]. apply elem_of_cons in Hb as [?|Hb]; [done|].
        by apply elem_of_close in Hb as (? & ?).
      * by apply elem_of_nil in Hb.
  - intros t1 t2 Heq. apply app_eq_app in Heq as (k & [[-> Hk]|[-> Hk]]).
    + destruct k as [|o' k]; simpl in Hk.
      * exfalso. rewrite Hos in Hk. done.
      * injection Hk as <- ->. by eapply s_limit0.
    + rewrite Hos in Hk. destruct k as [|o k]; [done|]. injection Hk as <- Hk.
      assert (over = true) as Ho.
      { rewrite <- Osoft, Hos, Hk. rewrite existsb_exists. exists (OSoft SoftFailures). split; [|done].
        apply elem_of_list_In. right. apply elem_of_app. right. by left. }
      apply split_map_tail in Hk as (k' & -> & Hk); [|done].
      assert (k' = []) as ->.
      { unfold tail in Hk. rewrite Ho in Hk. destruct k' as [|o' k']; [done|]. exfalso.
        simpl in Hk. injection Hk as _ Hk. destruct stop; destruct k' as [|? [|]]; done. }
      rewrite app_nil_r.
      rewrite finish_order_app, fizzles_app. change (?o :: map OReady ready) with ([o] ++ map OReady ready).
      rewrite finish_order_app, fizzles_app, fizzles_map_ready. split; [by destruct (finish_order t)|].
      rewrite Ho in Hover. symmetry in Hover. apply N.leb_le in Hover.
      unfold fizzles at 2. cbn [List.filter]. rewrite fizzle_is_fizzle, <- HF.
      destruct (is_fizzle _ _); simpl; lia.
  - intros t1 n y e t2 Heq Hle. apply app_eq_app in Heq as (k & [[-> Hk]|[-> Hk]]).
    + destruct k as [|o' k]; simpl in Hk.
      * rewrite Hos in Hk. injection Hk as -> -> -> ->. rewrite app_nil_r in *.
        assert (over = true) as Ho.
        { rewrite Hover. apply N.leb_le. rewrite fizzles_app in Hle. unfold fizzles at 2 in Hle.
          cbn [List.filter] in Hle. rewrite fizzle_is_fizzle, <- HF in Hle.
          destruct (is_fizzle _ _); simpl in Hle; lia. }
        unfold tail. rewrite Ho. exists ready. eexists. reflexivity.
      * injection Hk as <- ->. destruct (s_now0 t1 n y e k eq_refl Hle) as (r & t3 & ->).
        exists r, (t3 ++ os). by rewrite <- List.app_assoc.
    + rewrite Hos in Hk. destruct k as [|o k].
      * injection Hk as <- <- <- <-. rewrite app_nil_r in Hle.
        assert (over = true) as Ho.
        { rewrite Hover. apply N.leb_le. rewrite fizzles_app in Hle. unfold fizzles at 2 in Hle.
          cbn [List.filter] in Hle. rewrite fizzle_is_fizzle, <- HF in Hle.
          destruct (is_fizzle _ _); simpl in Hle; lia. }
        unfold tail. rewrite Ho. exists ready. eexists. reflexivity.
      * exfalso. injection Hk as <- Hk. apply split_map_tail in Hk as (k' & -> & Hk); [|done].
        unfold tail in Hk. destruct over, stop; destruct k' as [|? [|? []]]; done.
  - rewrite elem_of_app. intros [Hx|Hx]; [by apply Hne' in Hx|]. rewrite Hro.
    rewrite Hos in Hx. apply elem_of_cons in Hx as [?|Hx]; [done|]. rewrite elem_of_app in Hx.
    destruct Hx as [Hx|Hx]; [by apply elem_of_list_fmap in Hx as (? & ? & _)|].
    unfold tail in Hx. rewrite elem_of_app in Hx. destruct Hx as [Hx|Hx].
    + destruct over; [|by apply elem_of_nil in Hx]. by apply elem_of_list_singleton in Hx.
    + destruct stop; [|by apply elem_of_nil in Hx]. apply elem_of_list_singleton in Hx.
      destruct (N.eqb_spec roi 0); done.
  - rewrite elem_of_app. intros [Hx|Hx]; [by apply Hne' in Hx|].
    rewrite Hos in Hx. apply elem_of_cons in Hx as [?|Hx]; [done|]. rewrite elem_of_app in Hx.
    destruct Hx as [Hx|Hx]; [by apply elem_of_list_fmap in Hx as (? & ? & _)|].
    unfold tail in Hx. rewrite elem_of_app in Hx. destruct Hx as [Hx|Hx].
    + destruct over; [|by apply elem_of_nil in Hx]. by apply elem_of_list_singleton in Hx.
    + destruct stop; [|by apply elem_of_nil in Hx]. apply elem_of_list_singleton in Hx.
      destruct (N.eqb_spec roi 0); [done|]. simpl in Hstop. rewrite <- HS.
      destruct over, (sv_soft (st_sv s)); done.
  - intros t1 c' t2 Heq. eapply (after_app (fun o => o = OSoft c') (fun t2 => readied t2 = []) t os); try done.
    + intros u1 o u2 Ht ->. rewrite readied_app, Ord. rewrite (s_after0 u1 c' u2 Ht). simpl. apply Hsr.
      rewrite HS, Ht, existsb_app. simpl. by rewrite orb_true_r.
    + intros u1 o u2 Hu ->. rewrite Hos in Hu. destruct u1 as [|o u1]; [done|]. injection Hu as _ Hu.
      apply split_map_tail in Hu as (k' & -> & Hk); [|done]. unfold tail in Hk.
      destruct over, stop; destruct k' as [|? [|? []]]; simpl in Hk; try done; by injection Hk as _ <-.
  - intros t1 c' t2 Heq. eapply (after_app (fun o => o = OExit c')
      (fun t2 => readied t2 = [] /\ finish_order t2 = [] /\ existsb is_exit t2 = false) t os); try done.
    + intros u1 o u2 Hu ->. exfalso. apply (Hne' c'). rewrite Hu. apply elem_of_app. right. by left.
    + intros u1 o u2 Hu ->. rewrite Hos in Hu. destruct u1 as [|o u1]; [done|]. injection Hu as _ Hu.
      apply split_map_tail in Hu as (k' & -> & Hk); [|done]. unfold tail in Hk.
      destruct over, stop; destruct k' as [|? [|? []]]; simpl in Hk; try done;
      injection Hk; intros; subst; done.
  - intros o. rewrite elem_of_app. intros [Hx|Hx]; [by apply s_nodrain0|].
    rewrite Hos in Hx. apply elem_of_cons in Hx as [->|Hx]; [simpl; tauto|]. rewrite elem_of_app in Hx.
    destruct Hx as [Hx|Hx]; [apply elem_of_list_fmap in Hx as (? & -> & _); simpl; tauto|].
    unfold tail in Hx. destruct over, stop; simpl in Hx; set_solver.
Qed.

Lemma ts_ready s t order sv' is os todo :
  TS s t -> InvC cfg s t -> st_phase s = PInit ->
  add_to_ready_queue cfg (st_sv s) order = Some (sv', is, os) ->
  todo = ISetUnready (N.of_nat (node_count g)) :: is ->
  TS (set_todo (set_sv (set_phase s PLoop) sv') todo) (t ++ os).
Proof.
  intros HT HC Hph H ->. destruct (c_init _ _ _ HC Hph) as (Hr0 & Et & Hsoft & Hopen).
  pose proof (s_soft _ _ HT) as HS. rewrite Hsoft in HS.
  assert (Hne : ~ exiting s).
  { intros [Hx|Hx]; [congruence|]. rewrite Et in Hx. by apply elem_of_nil in Hx. }
  assert (Hex : existsb is_exit t = false).
  { apply not_true_false. intros Hx. apply Hne. by apply (s_exit _ _ HT). }
  assert (Hne' : forall c, OExit c ∉ t).
  { intros c Hx. assert (existsb is_exit t = true); [|congruence]. apply existsb_exists.
    exists (OExit c). split; [by apply elem_of_list_In|done]. }
  assert (Hns : forall c, OSoft c ∉ t).
  { intros c Hx. assert (existsb is_soft t = true); [|congruence]. apply existsb_exists.
    exists (OSoft c). split; [by apply elem_of_list_In|done]. }
  apply atrq_inv in H as (l & items & -> & -> & -> & Hid & Hm).
  assert (Hin : forall o, o ∈ map OReady order -> exists n, o = OReady n).
  { intros o Ho. apply elem_of_list_fmap in Ho as (n & -> & _). eauto. }
  destruct (existsb_map_ready order) as [Q1 Q2].
  destruct HT. split; rewrite ?existsb_app, ?Q1, ?Q2, ?orb_false_r, ?good_app, ?bad_app, ?good_map_ready, ?bad_map_ready,
     ?fizzles_app, ?run_times_app, ?fizzles_map_ready, ?run_times_map_ready, ?app_nil_r, ?N.add_0_r;
    cbn [set_todo set_sv st_sv st_todo sv_soft sv_open sv_n_failed sv_n_success sv_n_fizzled sv_recent sv_n_roi]; try done.
  - rewrite Hex. split; [done|]. intros [Hx|Hx]; [done|]. exfalso. cbn [st_todo set_todo] in Hx.
    rewrite elem_of_cons, rinstrs_split, elem_of_app in Hx. destruct Hx as [?|[Hx|Hx]]; [done| |].
    + by apply elem_of_rpre in Hx as [?|(?&?&?)].
    + apply elem_of_rpost in Hx as [?|(?&?&?&_)]; done.
  - apply limit_app; try done. intros Hx. by apply Hin in Hx as [? ?].
  - apply now_app; try done. intros n x e Hx. by apply Hin in Hx as [? ?].
  - rewrite elem_of_app. intros [Hx|Hx]; [by apply Hne' in Hx|by apply Hin in Hx as [? ?]].
  - rewrite elem_of_app. intros [Hx|Hx]; [by apply Hne' in Hx|by apply Hin in Hx as [? ?]].
  - intros t1 c t2 Heq. exfalso. assert (OSoft c ∈ t ++ map OReady order) as Hx.
    { rewrite Heq. apply elem_of_app. right. by left. }
    apply elem_of_app in Hx as [Hx|Hx]; [by apply Hns in Hx|by apply Hin in Hx as [? ?]].
  - intros t1 c t2 Heq. exfalso. assert (OExit c ∈ t ++ map OReady order) as Hx.
    { rewrite Heq. apply elem_of_app. right. by left. }
    apply elem_of_app in Hx as [Hx|Hx]; [by apply Hne' in Hx|by apply Hin in Hx as [? ?]].
  - intros o. rewrite elem_of_app. intros [Hx|Hx]; [by apply s_nodrain0|].
    apply Hin in Hx as [n ->]. simpl. tauto.
Qed.

Lemma soft_no_break : IBreak ∉ close_all ++ zero_all cfg ++ [IUnsetSoft].
Proof.
  intros Hb. rewrite !elem_of_app in Hb. destruct Hb as [Hb|[Hb|Hb]].
  - by apply elem_of_close in Hb as [? ?].
  - by apply elem_of_zero in Hb as [? ?].
  - by apply elem_of_list_singleton in Hb.
Qed.
Lemma leave_break : IBreak ∈ close_all ++ IBreak :: zero_all cfg.
Proof. apply elem_of_app. right. by left. Qed.

Lemma ts_step s t a s' os :
  Inv cfg s t -> TS s t -> step cfg s a = Some (s', os) -> Inv cfg s' (t ++ os) -> TS s' (t ++ os).
Proof.
  intros HI HT H HI'. destruct (c_phase _ _ _ (inv_c _ _ _ HI')) as [Hnp Hnd].
  destruct a; cbn [step] in H.
  - destruct (st_phase s) eqn:Hph; try done. destruct (is_reordering _ _); [|done].
    change (st_sv (set_phase s PLoop)) with (st_sv s) in H.
    destruct (add_to_ready_queue _ _ _) as [[[sv is] os']|] eqn:E; injection H as <- <-; [|done].
    eapply ts_ready; try done. apply (inv_c _ _ _ HI).
  - destruct (st_phase s) eqn:Hph; try done; (destruct (st_todo s) as [|i rest] eqn:Et; [done|]); injection H as H.
    all: destruct i; cbn [exec_instr] in H; repeat case_match; try unfold panic in H;
      injection H as <- <-; try done; eapply ts_frame; try done; try (by repeat constructor).
    all: unfold exiting; cbn [st_todo st_phase set_todo set_phase set_unready set_qstate set_queues set_counter set_flags
        set_closed set_soft_trigger]; rewrite ?Hph, ?Et; rewrite ?elem_of_cons; try (split; intros; naive_solver).
  - destruct (server_idle s) eqn:Hi; [|done]. apply server_idle_true in Hi as [Hph Et].
    destruct (st_events s) as [|[id h p j|id x v f] rest] eqn:Ev; [done| |];
    change (st_sv (set_events s rest)) with (st_sv s) in H.
    + destruct (handle_started cfg (st_sv s) id h p j now) as [[[sv is] os']|] eqn:E; cbn [server_result] in H; injection H as <- <-; [|done].
      pose proof (handle_started_obs _ _ _ _ _ _ _ _ _ _ E) as [-> ->].
      unfold handle_started in E. repeat case_match; try done. injection E as <-.
      assert (TS (set_events s rest) (t ++ [OStarted id])) as HT'.
      { eapply ts_frame; try done. by repeat constructor. }
      destruct HT'. split; try done.
      rewrite s_exit0. unfold exiting. simpl. by rewrite Et.
    + destruct (handle_finished cfg (st_sv s) id x v f now) as [[[sv is] os']|] eqn:E; cbn [server_result] in H; injection H as <- <-; [|done].
      by eapply ts_finished.
  - destruct (server_idle s) eqn:Hi; [|done]. apply server_idle_true in Hi as [Hph Et].
    destruct (st_soft_trigger s); [|done]. cbn [andb] in H. injection H as <- <-. apply ts_close; try done.
    left. split_and!; try done. exact soft_no_break.
  - destruct (server_idle s) eqn:Hi; [|done]. apply server_idle_true in Hi as [Hph Et].
    destruct (st_hard s); cbn [andb] in H; [|done]. unfold leave in H. injection H as <- <-. apply ts_close; try done.
    right. split_and!; [by left|done|]. exact leave_break.
  - destruct (server_idle s) eqn:Hi; [|done]. apply server_idle_true in Hi as [Hph Et].
    unfold leave in H. injection H as <- <-. apply ts_close; try done.
    right. split_and!; [by right|done|]. exact leave_break.
  - destruct (st_phase s); try done. destruct (st_todo s); [|done]. repeat case_match; try done; injection H as <- <-; done.
  - repeat case_match; try done; simplify_eq; eapply ts_frame; try done; by repeat constructor.
  - repeat case_match; try done; simplify_eq; eapply ts_frame; try done; by repeat constructor.
  - repeat case_match; try done; simplify_eq; eapply ts_frame; try done; by repeat constructor.
  - repeat case_match; try done; simplify_eq; eapply ts_frame; try done; by repeat constructor.
  - destruct (st_clients s !! c) as [[]|] eqn:Hc; try done. destruct (cf_types cfg !! c) as [i|] eqn:Ht; [|done].
    destruct (hand_out _ _); injection H as <- <-; [|done]. eapply ts_frame; try done; by repeat constructor.
  - repeat case_match; try done; simplify_eq; eapply ts_frame; try done; by repeat constructor.
  - repeat case_match; try done; simplify_eq; eapply ts_frame; try done; by repeat constructor.
  - repeat case_match; try done; simplify_eq; eapply ts_frame; try done; by repeat constructor.
  - simplify_eq. eapply ts_frame; try done; by repeat constructor.
  - simplify_eq. eapply ts_frame; try done; by repeat constructor.
Qed.
End strace.
