(** Timers of open transactions: C30. *)
From Verif Require Import ServerSpec ServerProofs WheelSpec WheelProofs.
From Coq Require Import Lia.
From stdpp Require Import prelude.

Definition fired (r : reaper) : list N := match r with PTicked txs _ => txs | _ => [] end.
Definition timer_of (x : handler) : option timer_id :=
  match x with HTimed _ _ _ _ _ id => Some id | HEnd c _ _ => Some (c_timer c) | _ => None end.
Lemma fired_sweep r tx : tx ∈ fired r -> tx ∈ sweep r.
Proof. destruct r; cbn; try done; by intros ?%elem_of_nil. Qed.
(** The timer of [tx] is set and known under [id]. *)
Definition live (w : wheel N) (tx : N) (id : timer_id) (n : nat) : Prop :=
  n <= 255 /\ pending w tx id n /\ w_get w (id_slot id) (id_key id) = Some tx.

Lemma in_wheel_get w tx : ~ in_wheel w tx -> absent w tx.
Proof.
  intros H i k Hg. apply H. unfold w_get in Hg. destruct (w_slots w !! i) as [m|] eqn:E; [|done].
  exists i, m, k. split; [done|]. by apply elem_entries.
Qed.
Lemma timer_id_eq (a b : timer_id) : id_slot a = id_slot b -> id_key a = id_key b -> a = b.
Proof. destruct a, b; cbn. by intros -> ->. Qed.
Lemma live_ids w tx tx' id id' n n' : live w tx id n -> live w tx' id' n' -> id = id' <-> tx = tx'.
Proof.
  intros (H1 & H2 & H3) (H1' & H2' & H3'). split.
  - intros ->. congruence.
  - intros ->. destruct (pe_only _ _ _ _ H2 _ _ H3') as [E1 E2]. symmetry. by apply timer_id_eq.
Qed.
Lemma live_not_current w tx id n : wwf w -> live w tx id n -> id_slot id <> w_current w.
Proof.
  intros [Hc _] (H1 & H2 & _) E. rewrite (pe_slot _ _ _ _ H2) in E. pose proof (pe_n _ _ _ _ H2) as H3. unfold NUM_SLOTS in E.
  destruct (decide (w_current w + N.of_nat n < 256)%N).
  - rewrite N.mod_small in E by done. lia.
  - replace (w_current w + N.of_nat n)%N with (w_current w + N.of_nat n - 256 + 1 * 256)%N in E by lia.
    rewrite N.mod_add, N.mod_small in E by lia. lia.
Qed.
Lemma live_absent w tx id n : live w tx id n -> absent w tx -> False.
Proof. intros (_ & _ & H) Ha. by apply Ha in H. Qed.
Lemma live_cancel w tx id n id' : wwf w -> live w tx id n -> id' <> id -> live (WheelModel.cancel w id') tx id n.
Proof.
  intros Hw (H1 & H2 & H3) Hne. destruct (pending_step w (OCancel id') (WheelModel.cancel w id') RCancel _ _ _ Hw H2) as (_ & _ & _ & H4 & H5); [by intros ? [[=]|[]]|done|].
  split; [done|]. split; [done|]. rewrite H5. by destruct (decide (id' = id)).
Qed.
Lemma live_insert w tx id n dur x w' id' : wwf w -> live w tx id n -> x <> tx -> WheelModel.insert w dur x = Some (w', id') -> live w' tx id n.
Proof.
  intros Hw (H1 & H2 & H3) Hne Hi.
  assert (wstep w (OInsert dur x) = Some (w', RInsert id')) as Hs by (cbn [wstep]; by rewrite Hi).
  destruct (pending_step w (OInsert dur x) _ _ _ _ _ Hw H2 ltac:(intros ? [[=]|[]]; congruence) Hs) as (_ & _ & id2 & _ & _ & H4 & H5).
  split; [done|]. split; [done|]. by rewrite H5.
Qed.
Lemma live_tick w tx id n w' l : wwf w -> live w tx id n -> tick w = (w', l) ->
  if decide (n = 1) then absent w' tx /\ tx ∈ map snd l else live w' tx id (n - 1) /\ tx ∉ map snd l.
Proof.
  intros Hw (H1 & H2 & H3) Ht.
  assert (wstep w OTick = Some (w', RTick l)) as Hs by (cbn [wstep]; by rewrite Ht).
  destruct (pending_step w OTick _ _ _ _ _ Hw H2 ltac:(intros ? [[=]|[]]; congruence) Hs) as (_ & _ & l' & [= <-] & _ & H4).
  destruct (decide (n = 1)).
  - destruct H4 as [Ha Hl]. split; [done|]. apply elem_of_list_In, in_map_iff. exists (id_key id, tx). split; [done|]. by apply Hl.
  - destruct H4 as (Hp & Hl & Hg). split; [split; [lia|]; split; [done|]; by rewrite Hg|].
    intros Hin. apply elem_of_list_In, in_map_iff in Hin as ([k e] & <- & Hin). by apply Hl in Hin.
Qed.
Lemma absent_cancel (w : wheel N) (tx : N) id' : wwf w -> absent w tx -> absent (WheelModel.cancel w id') tx.
Proof. intros Hw Ha. destruct (absent_step w (OCancel id') (WheelModel.cancel w id') RCancel tx Hw Ha) as (_ & H & _); [by intros ? [[=]|[]]|done|done]. Qed.
Lemma absent_insert (w : wheel N) (tx : N) dur x w' id' : wwf w -> absent w tx -> x <> tx -> WheelModel.insert w dur x = Some (w', id') -> absent w' tx.
Proof.
  intros Hw Ha Hne Hi.
  assert (wstep w (OInsert dur x) = Some (w', RInsert id')) as Hs by (cbn [wstep]; by rewrite Hi).
  destruct (absent_step w (OInsert dur x) _ _ tx Hw Ha ltac:(intros ? [[=]|[]]; congruence) Hs) as (_ & H & _). done.
Qed.
Lemma absent_tick (w : wheel N) (tx : N) w' l : wwf w -> absent w tx -> tick w = (w', l) -> absent w' tx.
Proof.
  intros Hw Ha Ht.
  assert (wstep w OTick = Some (w', RTick l)) as Hs by (cbn [wstep]; by rewrite Ht).
  destruct (absent_step w OTick _ _ tx Hw Ha ltac:(intros ? [[=]|[]]; congruence) Hs) as (_ & H & _). done.
Qed.
Lemma live_new w tx w' id : wwf w -> w_duration w = TIMEWHEEL_DURATION_NS -> absent w tx ->
  WheelModel.insert w PING_TIMEOUT_NS tx = Some (w', id) -> live w' tx id 255.
Proof.
  intros Hw Hd Ha Hi. destruct (insert_pending _ _ _ _ _ Hw Ha Hi) as (_ & H1 & H2). rewrite Hd in H1.
  change (due TIMEWHEEL_DURATION_NS PING_TIMEOUT_NS) with 255 in H1. by split.
Qed.
Lemma cancel_absent w tx id n : wwf w -> live w tx id n -> absent (WheelModel.cancel w id) tx.
Proof.
  intros Hw (_ & H2 & H3) i k Hg. destruct (cancel_spec w id Hw) as (_ & _ & _ & E1 & E2 & _).
  destruct (decide ((i, k) = (id_slot id, id_key id))) as [[= -> ->]|Hne]; [congruence|].
  rewrite E2 in Hg by done. destruct (pe_only _ _ _ _ H2 _ _ Hg) as [-> ->]. done.
Qed.

Lemma soft_keys_nodup (P : N * conn -> Prop) `{forall p, Decision (P p)} (l : list (N * conn)) : NoDup (l.*1) -> NoDup (map fst (filter P l)).
Proof.
  induction l as [|p l IH]; intros Hnd; [constructor|]. apply NoDup_cons in Hnd as [Hn Hnd].
  rewrite filter_cons. destruct (decide (P p)); [|auto]. cbn. constructor; [|auto]. intros Hin. apply Hn.
  apply elem_of_list_In, in_map_iff in Hin as (q & Eq & Hin). apply elem_of_list_In, elem_of_list_filter in Hin as [_ Hin].
  apply elem_of_list_fmap. exists q. by split.
Qed.

Record timers (s : server) : Prop := Timers {
  t_wwf : wwf (sv_wheel s);
  t_dur : w_duration (sv_wheel s) = TIMEWHEEL_DURATION_NS;
  t_conn : forall tx c, sv_conns s !! tx = Some c ->
    (exists n, live (sv_wheel s) tx (c_timer c) n) \/
    (tx ∈ fired (sv_reaper s) /\ absent (sv_wheel s) tx /\ id_slot (c_timer c) = w_current (sv_wheel s));
  t_hand : forall h x id, sv_handlers s !! h = Some x -> timer_of x = Some id ->
    (exists tx n, live (sv_wheel s) tx id n /\ sv_conns s !! tx = None /\
      forall node sr job b tx' id', x = HTimed node sr job b tx' id' -> tx' = tx /\ n = 255 /\ tx ∉ sweep (sv_reaper s)) \/
    ((forall node sr job b tx' id', x <> HTimed node sr job b tx' id') /\ id_slot id = w_current (sv_wheel s));
  t_uniq : forall h x h' x' id, sv_handlers s !! h = Some x -> sv_handlers s !! h' = Some x' -> timer_of x = Some id -> timer_of x' = Some id ->
    id_slot id <> w_current (sv_wheel s) -> h = h'
}.

Lemma timers_new : timers server_new.
Proof. split; try done. Qed.

(** Steps that touch neither wheel nor transactions nor the reaper and add no timer. *)
Lemma timers_same s s' : timers s -> sv_wheel s' = sv_wheel s -> sv_conns s' = sv_conns s -> sv_reaper s' = sv_reaper s ->
  (forall h x id, sv_handlers s' !! h = Some x -> timer_of x = Some id -> sv_handlers s !! h = Some x) -> timers s'.
Proof.
  intros [T1 T2 T3 T4 T5] E1 E2 E3 E4. split; rewrite ?E1, ?E2, ?E3; eauto.
Qed.
Lemma has_timer_put s h x h' y id : timer_of x = None -> sv_handlers (put h x s) !! h' = Some y -> timer_of y = Some id -> sv_handlers s !! h' = Some y.
Proof.
  intros Hx H Hy. cbn in H. destruct (decide (h = h')) as [<-|]; [rewrite lookup_insert in H; congruence|by rewrite lookup_insert_ne in H].
Qed.
Lemma has_timer_done s h h' y : sv_handlers (done_with h s) !! h' = Some y -> sv_handlers s !! h' = Some y.
Proof. cbn. by intros [_ ?]%lookup_delete_Some. Qed.

Section server.
Context (secret : string).
Notation step := (step secret).
Notation run := (run secret).

Lemma conn_other s tx c tx' id n : timers s -> sv_conns s !! tx = Some c -> live (sv_wheel s) tx' id n -> tx' <> tx -> c_timer c <> id.
Proof.
  intros T Hc Hl Hne E. destruct (t_conn _ T _ _ Hc) as [[n' Hl']|(_ & _ & Hs)].
  - apply (live_ids _ _ _ _ _ _ _ Hl' Hl) in E. congruence.
  - rewrite E in Hs. by apply live_not_current in Hl; [|apply T].
Qed.
Lemma ping_wheel s tx c w id : timers s -> sv_conns s !! tx = Some c ->
  WheelModel.insert (WheelModel.cancel (sv_wheel s) (c_timer c)) PING_TIMEOUT_NS tx = Some (w, id) ->
  wwf w /\ w_duration w = w_duration (sv_wheel s) /\ w_current w = w_current (sv_wheel s) /\ live w tx id 255 /\
  (forall tx' id' n', tx' <> tx -> live (sv_wheel s) tx' id' n' -> live w tx' id' n') /\
  (forall tx', tx' <> tx -> absent (sv_wheel s) tx' -> absent w tx').
Proof.
  intros T Hc Hi. pose proof (t_wwf _ T) as T1. destruct (cancel_spec (sv_wheel s) (c_timer c) T1) as (W1 & W2 & W3 & _).
  destruct (insert_spec _ _ _ _ _ W1 Hi) as (W4 & W5 & W6 & _). split; [done|]. split; [congruence|]. split; [congruence|]. split; [|split].
  - eapply live_new; [exact W1|rewrite W2; apply T| |exact Hi]. destruct (t_conn _ T _ _ Hc) as [[n Hl]|(_ & Ha & _)]; [by eapply cancel_absent|by apply absent_cancel].
  - intros tx' id' n' Hne Hl. eapply live_insert; [exact W1| |by apply not_eq_sym|exact Hi]. apply live_cancel; [done..|]. by eapply conn_other.
  - intros tx' Hne Ha. eapply absent_insert; [exact W1| |by apply not_eq_sym|exact Hi]. by apply absent_cancel.
Qed.

Lemma timers_step s l s' ev : timers s -> calm s l -> step s l = Some (s', ev) -> timers s'.
Proof.
  intros T (Cc & Cf) H. pose proof T as [T1 T2 T3 T4 T5].
  destruct l; cbn [ServerModel.step] in H.
  - destruct (sv_handlers s !! h) eqn:Eh; [discriminate|]. unfold request_step in H.
    destruct (String.eqb_spec token secret) as [->|Hne]; [|unfold reply_now in H; by simplify_eq].
    destruct q; unfold start, begun, end_, ping, mark, reply_now in H.
    + repeat case_match; simplify_eq; try done. eapply timers_same; [done..|]. intros h' x id Hx Hi. by eapply has_timer_put in Hx.
    + repeat case_match; simplify_eq; done.
    + destruct job as [j|]; [|by simplify_eq].
      destruct (sv_conns s !! tx) as [c|] eqn:Ec; [|by simplify_eq].
      destruct (String.eqb (c_job c) j); simplify_eq; split; cbn; try done.
      * intros tx' c' [_ Hc]%lookup_delete_Some. eauto.
      * intros h' x id Hx Hi. destruct (decide (h = h')) as [<-|Hne].
        -- rewrite lookup_insert in Hx. injection Hx as <-. injection Hi as <-.
           destruct (T3 _ _ Ec) as [[n Hl]|(_ & _ & Hs)]; [left|by right].
           exists tx, n. split; [done|]. split; [apply lookup_delete|done].
        -- rewrite lookup_insert_ne in Hx by done. destruct (T4 _ _ _ Hx Hi) as [(tx' & n & H1 & H2 & H3)|?]; [left|by right].
           exists tx', n. split; [done|]. split; [by rewrite lookup_delete_None; auto|]. done.
      * intros h1 x1 h2 x2 id Hx1 Hx2 Hi1 Hi2 Hcur.
        assert (forall h' x', h <> h' -> sv_handlers s !! h' = Some x' -> timer_of x' = Some (c_timer c) -> id_slot (c_timer c) <> w_current (sv_wheel s) -> False) as Hno.
        { intros h' x' Hne Hx' Hi' Hcur'. destruct (T3 _ _ Ec) as [[n Hl]|(_ & _ & Hs)]; [|done]. destruct (T4 _ _ _ Hx' Hi') as [(tx' & n' & H1 & H2 & _)|[_ Hs]]; [|done].
          apply (live_ids _ _ _ _ _ _ _ Hl) in H1 as [H1 _]. rewrite <- (H1 eq_refl) in H2. congruence. }
        destruct (decide (h = h1)) as [<-|N1], (decide (h = h2)) as [<-|N2]; try done;
          rewrite ?lookup_insert in Hx1; rewrite ?lookup_insert in Hx2;
          rewrite ?lookup_insert_ne in Hx1 by done; rewrite ?lookup_insert_ne in Hx2 by done; simplify_eq; cbn in *; simplify_eq.
        -- exfalso. by eapply (Hno h2).
        -- exfalso. by eapply (Hno h1).
        -- by eapply T5.
      * intros tx' c' [_ Hc]%lookup_delete_Some. eauto.
      * intros h' x id Hx Hi. destruct (T4 _ _ _ Hx Hi) as [(tx' & n & H1 & H2 & H3)|?]; [left|by right].
        exists tx', n. split; [done|]. split; [by rewrite lookup_delete_None; auto|]. done.
    + destruct (sv_conns s !! tx) as [c|] eqn:Ec; [|by simplify_eq].
      destruct (WheelModel.insert (WheelModel.cancel (sv_wheel s) (c_timer c)) PING_TIMEOUT_NS tx) as [[w id]|] eqn:Ei; [|discriminate].
      destruct (ping_wheel _ _ _ _ _ T Ec Ei) as (W1 & W2 & W3 & W4 & W5 & W6).
      injection H as <- <-. split; cbn; rewrite ?W3; try done.
      * congruence.
      * intros tx' c' Hc. destruct (decide (tx = tx')) as [<-|Hne].
        -- rewrite lookup_insert in Hc. injection Hc as <-. left. by exists 255.
        -- rewrite lookup_insert_ne in Hc by done. destruct (T3 _ _ Hc) as [[n Hl]|(Hf & Ha & Hs)]; [left|right].
           ++ exists n. auto.
           ++ split; [done|]. split; [auto|done].
      * intros h' x id' Hx Hi. destruct (T4 _ _ _ Hx Hi) as [(tx' & n & H1 & H2 & H3)|?]; [left|by right].
        assert (tx' <> tx) by congruence. exists tx', n. split; [by apply W5|]. split; [by rewrite lookup_insert_ne|]. done.
    + simplify_eq. by eapply timers_same.
  - repeat case_match; simplify_eq; (eapply timers_same; [done..|]); intros h' x id Hx Hi.
    + by eapply has_timer_put in Hx.
    + by eapply has_timer_done in Hx.
    + by eapply has_timer_done in Hx.
  - repeat case_match; simplify_eq; (eapply timers_same; [done..|]); intros h' x id Hx Hi. by eapply has_timer_done in Hx.
  - repeat case_match; simplify_eq; (eapply timers_same; [done..|]); intros h' x id Hx Hi.
    + by eapply has_timer_done in Hx.
    + by eapply has_timer_put in Hx.
  - unfold run_step in H. destruct (sv_handlers s !! h) as [x|] eqn:Eh; [|discriminate]. destruct x; try discriminate.
    + destruct (Cf _ _ _ _ _ _ eq_refl Eh) as (F1 & F2%in_wheel_get & F3).
      destruct (WheelModel.insert (sv_wheel s) PING_TIMEOUT_NS tx) as [[w id]|] eqn:Ei; [|discriminate]. injection H as <- <-.
      destruct (insert_spec _ _ _ _ _ T1 Ei) as (W3 & W4 & W5 & _).
      assert (live w tx id 255) as Hnew by exact (live_new _ _ _ _ T1 T2 F2 Ei).
      assert (forall tx' id' n', live (sv_wheel s) tx' id' n' -> tx <> tx') as Hne.
      { intros tx' id' n' Hl <-. by eapply live_absent. }
      split; cbn; rewrite ?W5; try done.
      * congruence.
      * intros tx' c Hc. assert (tx <> tx') by congruence. destruct (T3 _ _ Hc) as [[n Hl]|(Hf & Ha & Hs)]; [left|right].
        -- exists n. by apply (live_insert _ _ _ _ _ _ _ _ T1 Hl H Ei).
        -- split; [done|]. split; [|done]. by apply (absent_insert _ _ _ _ _ _ T1 Ha H Ei).
      * intros h' x' id' Hx Hi. destruct (decide (h = h')) as [<-|Hneh].
        -- rewrite lookup_insert in Hx. injection Hx as <-. injection Hi as <-. left. exists tx, 255. split; [done|]. split; [done|]. intros *. by intros [=].
        -- rewrite lookup_insert_ne in Hx by done. destruct (T4 _ _ _ Hx Hi) as [(tx' & n' & H1 & H2 & H3)|?]; [left|by right].
           exists tx', n'. split; [|done]. by apply (live_insert _ _ _ _ _ _ _ _ T1 H1 (Hne _ _ _ H1) Ei).
      * intros h1 x1 h2 x2 id' Hx1 Hx2 Hi1 Hi2 Hcur.
        assert (forall h' x', h <> h' -> sv_handlers s !! h' = Some x' -> timer_of x' = Some id -> False) as Hno.
        { intros h' x' Hneh Hx' Hi'. destruct (T4 _ _ _ Hx' Hi') as [(tx' & n' & H1 & H2 & _)|[_ Hs]].
          - assert (live w tx' id n') as H1' by exact (live_insert _ _ _ _ _ _ _ _ T1 H1 (Hne _ _ _ H1) Ei).
            apply (live_ids _ _ _ _ _ _ _ Hnew) in H1' as [H1' _]. apply (Hne _ _ _ H1). by apply H1'.
          - apply (live_not_current _ _ _ _ W3 Hnew). congruence. }
        destruct (decide (h = h1)) as [<-|N1], (decide (h = h2)) as [<-|N2]; try done;
          rewrite ?lookup_insert in Hx1; rewrite ?lookup_insert in Hx2;
          rewrite ?lookup_insert_ne in Hx1 by done; rewrite ?lookup_insert_ne in Hx2 by done; simplify_eq; cbn in *; simplify_eq.
        -- exfalso. by eapply (Hno h2).
        -- exfalso. by eapply (Hno h1).
        -- by eapply T5.
    + injection H as <- <-. destruct (T4 _ _ _ Eh eq_refl) as [(tx' & n & H1 & H2 & H3)|[Hno _]]; [|by destruct (Hno _ _ _ _ _ _ eq_refl)].
      destruct (H3 _ _ _ _ _ _ eq_refl) as (<- & -> & H4).
      split; cbn; try done.
      * intros tx' c Hc. destruct (decide (tx0 = tx')) as [<-|Hne].
        -- rewrite lookup_insert in Hc. injection Hc as <-. left. by exists 255.
        -- rewrite lookup_insert_ne in Hc by done. eauto.
      * intros h' x' id' [Hneh Hx]%lookup_delete_Some Hi. destruct (T4 _ _ _ Hx Hi) as [(tx' & n' & H1' & H2' & H3')|?]; [left|by right].
        exists tx', n'. split; [done|]. split; [|done]. rewrite lookup_insert_ne; [done|]. intros <-.
        pose proof (live_not_current _ _ _ _ T1 H1') as Hcur.
        apply (live_ids _ _ _ _ _ _ _ H1) in H1' as [_ H1']. specialize (H1' eq_refl). subst id'. apply Hneh.
        exact (T5 _ _ _ _ timer Eh Hx eq_refl Hi Hcur).
      * intros h1 x1 h2 x2 id' [_ Hx1]%lookup_delete_Some [_ Hx2]%lookup_delete_Some. by eapply T5.
    + injection H as <- <-.
      destruct (cancel_spec (sv_wheel s) (c_timer c) T1) as (W1 & W2 & W3 & _).
      assert (forall tx' id' n', is_Some (sv_conns s !! tx') -> live (sv_wheel s) tx' id' n' -> c_timer c <> id') as Hoth.
      { intros tx' id' n' [c' Hc'] Hl E. destruct (T4 _ _ _ Eh eq_refl) as [(tx0 & n & H1 & H2 & _)|[_ Hs]].
        - apply (live_ids _ _ _ _ _ _ _ H1 Hl) in E. congruence.
        - apply (live_not_current _ _ _ _ T1 Hl). congruence. }
      split; cbn; rewrite ?W3; try done.
      * congruence.
      * intros tx' c' Hc. destruct (T3 _ _ Hc) as [[n Hl]|(Hf & Ha & Hs)]; [left|right].
        -- exists n. apply live_cancel; [done..|]. eapply Hoth; eauto.
        -- split; [done|]. split; [by apply absent_cancel|done].
      * intros h' x' id' Hx Hi. destruct (decide (h = h')) as [<-|Hneh]; [rewrite lookup_insert in Hx; by injection Hx as <-|].
        rewrite lookup_insert_ne in Hx by done. destruct (T4 _ _ _ Hx Hi) as [(tx' & n' & H1' & H')|?]; [left|by right].
        exists tx', n'. split; [|done]. apply live_cancel; [done..|]. intros E. apply Hneh. rewrite <- E in Hi.
        apply (T5 _ _ _ _ (c_timer c) Eh Hx eq_refl Hi). rewrite E. by eapply live_not_current.
      * intros h1 x1 h2 x2 id' Hx1 Hx2 Hi1 Hi2.
        destruct (decide (h = h1)) as [<-|N1], (decide (h = h2)) as [<-|N2]; try done;
          rewrite ?lookup_insert in Hx1; rewrite ?lookup_insert in Hx2;
          rewrite ?lookup_insert_ne in Hx1 by done; rewrite ?lookup_insert_ne in Hx2 by done; simplify_eq; cbn in *; simplify_eq.
        by eapply T5.
    + destruct next as [sr|]; simplify_eq; (eapply timers_same; [done..|]); intros h' x id Hx Hi.
      * by eapply has_timer_put in Hx.
      * by eapply has_timer_done in Hx.
  - repeat case_match; simplify_eq; (eapply timers_same; [done..|]); intros h' x id Hx Hi. by eapply has_timer_put in Hx.
  - repeat case_match; simplify_eq; (eapply timers_same; [done..|]); intros h' x id Hx Hi; by eapply has_timer_done in Hx.
  - destruct (sv_reaper s) eqn:Er; try discriminate. destruct (tick (sv_wheel s)) as [w l] eqn:Et. injection H as <- <-.
    destruct (tick_spec _ _ _ T1 Et) as (W1 & W2 & W3 & _). split; cbn; try done.
    + congruence.
    + intros tx c Hc. destruct (T3 _ _ Hc) as [[n Hl]|(Hf & _)]; [|by apply elem_of_nil in Hf].
      pose proof (live_tick _ _ _ _ _ _ T1 Hl Et) as Hn. destruct (decide (n = 1)) as [->|]; [right|left; destruct Hn; eauto].
      destruct Hn. split; [done|]. split; [done|]. destruct Hl as (_ & Hp & _). rewrite (pe_slot _ _ _ _ Hp), W3. done.
    + intros h x id Hx Hi. destruct (Cc eq_refl h x Hx). by destruct x.
    + intros h x h' x' id Hx _ Hi. destruct (Cc eq_refl h x Hx). by destruct x.
  - unfold reap_step in H. destruct (sv_reaper s) as [|txs ex|txs ex|ex| |] eqn:Er; try discriminate.
    + destruct txs as [|tx txs].
      * destruct (sv_soft s) as [t|]; injection H as <- <-; split; cbn; try done.
        intros h x id Hx Hi. destruct (T4 _ _ _ Hx Hi) as [(tx' & n' & H1 & H2 & H3)|?]; [left|by right]. exists tx', n'. split; [done|]. split; [done|].
        intros *. intros Ex. destruct (H3 _ _ _ _ _ _ Ex) as (-> & -> & _). split; [done|]. split; [done|].
        intros Hin. apply elem_of_list_In, in_map_iff in Hin as ([k c] & Ek & Hin). apply elem_of_list_In, elem_of_list_filter in Hin as [_ Hin].
        apply elem_of_map_to_list in Hin. cbn in Ek. congruence.
      * destruct (sv_conns s !! tx) as [c|] eqn:Ec; injection H as <- <-; split; cbn; try done.
        -- intros tx' c' [Hne Hc]%lookup_delete_Some. destruct (T3 _ _ Hc) as [?|(Hf & Ha)]; [by left|right]. cbn in Hf. split; [set_solver|done].
        -- intros h x id Hx Hi. destruct (T4 _ _ _ Hx Hi) as [(tx' & n' & H1 & H2 & H3)|?]; [left|by right]. exists tx', n'. split; [done|].
           split; [rewrite lookup_delete_None; auto|]. intros *. intros Ex. destruct (H3 _ _ _ _ _ _ Ex) as (-> & -> & H4). cbn in H4. split; [done|]. split; [done|]. set_solver.
        -- intros tx' c' Hc. assert (tx' <> tx) by congruence. destruct (T3 _ _ Hc) as [?|(Hf & Ha)]; [by left|right]. cbn in Hf. split; [set_solver|done].
        -- intros h x id Hx Hi. destruct (T4 _ _ _ Hx Hi) as [(tx' & n' & H1 & H2 & H3)|?]; [left|by right]. exists tx', n'. split; [done|]. split; [done|].
           intros *. intros Ex. destruct (H3 _ _ _ _ _ _ Ex) as (-> & -> & H4). cbn in H4. split; [done|]. split; [done|]. set_solver.
    + destruct txs as [|tx txs]; [injection H as <- <-; split; cbn; try done|].
      assert (forall tx c, sv_conns s !! tx = Some c -> exists n, live (sv_wheel s) tx (c_timer c) n) as T3'.
      { intros tx' c' Hc. destruct (T3 _ _ Hc) as [?|(Hf & _)]; [done|by apply elem_of_nil in Hf]. }
      destruct (sv_conns s !! tx) as [c|] eqn:Ec; injection H as <- <-; split; cbn; try done.
      * intros tx' c' [Hne Hc]%lookup_delete_Some. left. by apply T3'.
      * intros h x id Hx Hi. destruct (T4 _ _ _ Hx Hi) as [(tx' & n' & H1 & H2 & H3)|?]; [left|by right]. exists tx', n'. split; [done|].
        split; [rewrite lookup_delete_None; auto|]. intros *. intros Ex. destruct (H3 _ _ _ _ _ _ Ex) as (-> & -> & H4). cbn in H4. split; [done|]. split; [done|]. set_solver.
      * intros h x id Hx Hi. destruct (T4 _ _ _ Hx Hi) as [(tx' & n' & H1 & H2 & H3)|?]; [left|by right]. exists tx', n'. split; [done|]. split; [done|].
        intros *. intros Ex. destruct (H3 _ _ _ _ _ _ Ex) as (-> & -> & _). split; [done|]. split; [done|]. apply not_elem_of_nil.
    + destruct ex as [|c ex]; injection H as <- <-; split; cbn; try done.
  - repeat case_match; simplify_eq. split; cbn; try done.
  - simplify_eq. by eapply timers_same.
  - simplify_eq. by eapply timers_same.
  - simplify_eq. by eapply timers_same.
Qed.
Lemma timers_run ls : forall s s' ev, timers s -> along secret calm s ls -> run s ls = Some (s', ev) -> timers s'.
Proof.
  induction ls as [|l ls IH]; intros s s' ev T C H; cbn in H; [by injection H as <- <-|].
  destruct C as [C1 C2]. destruct (step s l) as [[s1 e1]|] eqn:E; [|discriminate].
  destruct (run s1 ls) as [[s2 e2]|] eqn:E2; [|discriminate]. injection H as <- <-. eapply IH; [|done|done]. by eapply timers_step.
Qed.

(** ** The course of one transaction *)
Definition renewed (c c' : conn) : Prop := c_node c' = c_node c /\ c_start c' = c_start c /\ c_msg c' = c_msg c /\ c_job c' = c_job c.
Definition waits (s : server) (tx : N) (c : conn) (n : nat) : Prop :=
  sv_conns s !! tx = Some c /\ tx ∉ fired (sv_reaper s) /\ live (sv_wheel s) tx (c_timer c) n.

Lemma waits_step s l s' ev tx c n : timers s -> calm s l -> step s l = Some (s', ev) -> waits s tx c n -> ~ ends secret tx l ->
  (pings secret tx l /\ exists c', renewed c c' /\ waits s' tx c' 255) \/
  (l = LTick /\ if decide (n = 1) then sv_conns s' !! tx = Some c /\ tx ∈ fired (sv_reaper s') else waits s' tx c (n - 1)) \/
  (~ pings secret tx l /\ l <> LTick /\ waits s' tx c n) \/
  (l = LReap /\ exists keys ex, sv_reaper s = PSoft (tx :: keys) ex /\ sv_conns s' = delete tx (sv_conns s) /\ c ∈ expired_of (sv_reaper s')).
Proof.
  intros T (Cc & Cf) H (Hc & Hf & Hl) He. pose proof T as [T1 T2 T3 T4 T5].
  assert (forall s'', sv_conns s'' = sv_conns s -> sv_wheel s'' = sv_wheel s -> sv_reaper s'' = sv_reaper s -> waits s'' tx c n) as Hsame.
  { intros s'' E1 E2 E3. split; [by rewrite E1|]. split; [by rewrite E3|by rewrite E2]. }
  destruct l; cbn [ServerModel.step] in H.
  - destruct (sv_handlers s !! h) eqn:Eh; [discriminate|]. unfold request_step in H.
    destruct (String.eqb_spec token secret) as [->|Hne].
    2: { unfold reply_now in H; simplify_eq. right; right; left. split; [intros (? & ? & [=]); congruence|]. split; [done|]. by apply Hsame. }
    destruct q; unfold start, begun, end_, ping, mark, reply_now in H.
    + right; right; left. split; [intros (? & ? & [=])|]. split; [done|]. repeat case_match; simplify_eq; by apply Hsame.
    + right; right; left. split; [intros (? & ? & [=])|]. split; [done|]. repeat case_match; simplify_eq; by apply Hsame.
    + right; right; left. split; [intros (? & ? & [=])|]. split; [done|].
      destruct job as [j|]; [|simplify_eq; by apply Hsame].
      assert (tx0 <> tx). { intros ->. apply He. by exists h, j, rep, next. }
      destruct (sv_conns s !! tx0) as [c0|] eqn:Ec; [|simplify_eq; by apply Hsame].
      destruct (String.eqb (c_job c0) j); simplify_eq; (split; [cbn; by rewrite lookup_delete_ne|by split]).
    + destruct (sv_conns s !! tx0) as [c0|] eqn:Ec.
      2: { simplify_eq. right; right; left. split; [intros (? & ? & [=]); congruence|]. split; [done|]. by apply Hsame. }
      destruct (WheelModel.insert (WheelModel.cancel (sv_wheel s) (c_timer c0)) PING_TIMEOUT_NS tx0) as [[w id]|] eqn:Ei; [|discriminate].
      destruct (ping_wheel _ _ _ _ _ T Ec Ei) as (W1 & W2 & W3 & W4 & W5 & W6).
      injection H as <- <-. destruct (decide (tx0 = tx)) as [->|Hne].
      * left. split; [by exists h, job|]. rewrite Hc in Ec. injection Ec as <-. eexists. split; [|split; [cbn; apply lookup_insert|]]; [done|]. by split.
      * right; right; left. split; [intros (? & ? & [=]); congruence|]. split; [done|]. split; [cbn; by rewrite lookup_insert_ne|]. split; [done|].
        cbn. apply W5; congruence.
    + simplify_eq. right; right; left. split; [intros (? & ? & [=])|]. split; [done|]. by apply Hsame.
  - right; right; left. split; [intros (? & ? & [=])|]. split; [done|]. repeat case_match; simplify_eq; by apply Hsame.
  - right; right; left. split; [intros (? & ? & [=])|]. split; [done|]. repeat case_match; simplify_eq; by apply Hsame.
  - right; right; left. split; [intros (? & ? & [=])|]. split; [done|]. repeat case_match; simplify_eq; by apply Hsame.
  - right; right; left. split; [intros (? & ? & [=])|]. split; [done|].
    unfold run_step in H. destruct (sv_handlers s !! h) as [x|] eqn:Eh; [|discriminate]. destruct x; try discriminate.
    + destruct (Cf _ _ _ _ _ _ eq_refl Eh) as (F1 & F2%in_wheel_get & F3).
      destruct (WheelModel.insert (sv_wheel s) PING_TIMEOUT_NS tx0) as [[w id]|] eqn:Ei; [|discriminate]. injection H as <- <-.
      split; [done|]. split; [done|]. cbn. eapply live_insert; [exact T1|done| |done]. intros ->. by eapply live_absent.
    + injection H as <- <-. destruct (T4 _ _ _ Eh eq_refl) as [(tx' & n' & H1 & H2 & H3)|[Hno _]]; [|by destruct (Hno _ _ _ _ _ _ eq_refl)].
      destruct (H3 _ _ _ _ _ _ eq_refl) as (<- & -> & H4).
      split; [cbn; by rewrite lookup_insert_ne by congruence|by split].
    + injection H as <- <-. split; [done|]. split; [done|]. cbn. apply live_cancel; [done..|]. intros E.
      destruct (T4 _ _ _ Eh eq_refl) as [(tx' & n' & H1 & H2 & H3)|[_ Hs]].
      * apply (live_ids _ _ _ _ _ _ _ H1 Hl) in E. congruence.
      * apply (live_not_current _ _ _ _ T1 Hl). congruence.
    + destruct next as [sr|]; simplify_eq; by apply Hsame.
  - right; right; left. split; [intros (? & ? & [=])|]. split; [done|]. repeat case_match; simplify_eq; by apply Hsame.
  - right; right; left. split; [intros (? & ? & [=])|]. split; [done|]. repeat case_match; simplify_eq; by apply Hsame.
  - right; left. split; [done|]. destruct (sv_reaper s) eqn:Er; try discriminate. destruct (tick (sv_wheel s)) as [w l] eqn:Et. injection H as <- <-.
    pose proof (live_tick _ _ _ _ _ _ T1 Hl Et) as Hn. destruct (decide (n = 1)); destruct Hn; [done|]. by split.
  - unfold reap_step in H. destruct (sv_reaper s) as [|txs ex|txs ex|ex| |] eqn:Er; try discriminate.
    + right; right; left. split; [intros (? & ? & [=])|]. split; [done|]. destruct txs as [|tx0 txs].
      * destruct (sv_soft s); injection H as <- <-; (split; [done|]; split; [apply not_elem_of_nil|done]).
      * apply not_elem_of_cons in Hf as [Hne Hf]. destruct (sv_conns s !! tx0) as [c0|] eqn:Ec; injection H as <- <-; (split; [cbn|by split]); [by rewrite lookup_delete_ne|done].
    + destruct txs as [|tx0 txs]; [injection H as <- <-; right; right; left; split; [intros (? & ? & [=])|]; by split|].
      destruct (sv_conns s !! tx0) as [c0|] eqn:Ec; injection H as <- <-.
      2: { right; right; left. split; [intros (? & ? & [=])|]. split; [done|]. split; [done|]. split; [apply not_elem_of_nil|done]. }
      destruct (decide (tx0 = tx)) as [->|Hne].
      * right; right; right. split; [done|]. exists txs, ex. split; [done|]. split; [done|]. cbn. assert (c0 = c) as -> by congruence. set_solver.
      * right; right; left. split; [intros (? & ? & [=])|]. split; [done|]. split; [cbn; by rewrite lookup_delete_ne|]. by split.
    + right; right; left. split; [intros (? & ? & [=])|]. split; [done|].
      destruct ex as [|c0 ex]; injection H as <- <-; by split.
  - right; right; left. split; [intros (? & ? & [=])|]. split; [done|]. repeat case_match; simplify_eq; by split.
  - right; right; left. split; [intros (? & ? & [=])|]. split; [done|]. simplify_eq. by apply Hsame.
  - right; right; left. split; [intros (? & ? & [=])|]. split; [done|]. simplify_eq. by apply Hsame.
  - right; right; left. split; [intros (? & ? & [=])|]. split; [done|]. simplify_eq. by apply Hsame.
Qed.

(** Fired and not yet removed. *)
Lemma fired_step s l s' ev tx c : timers s -> calm s l -> step s l = Some (s', ev) ->
  sv_conns s !! tx = Some c -> tx ∈ fired (sv_reaper s) -> ~ pings secret tx l -> ~ ends secret tx l ->
  (sv_conns s' !! tx = Some c /\ tx ∈ fired (sv_reaper s')) \/ c ∈ expired_of (sv_reaper s').
Proof.
  intros T (Cc & Cf) H Hc Hf Np Ne. pose proof T as [T1 T2 T3 T4 T5].
  destruct l; cbn [ServerModel.step] in H.
  - left. destruct (sv_handlers s !! h) eqn:Eh; [discriminate|]. unfold request_step in H.
    destruct (String.eqb_spec token secret) as [->|Hne]; [|unfold reply_now in H; by simplify_eq].
    destruct q; unfold start, begun, end_, ping, mark, reply_now in H; repeat case_match; simplify_eq; cbn; try done.
    + split; [|done]. rewrite lookup_delete_ne; [done|]. intros ->. apply Ne. by eexists h, _, rep, next.
    + split; [|done]. rewrite lookup_delete_ne; [done|]. intros ->. apply Ne. by eexists h, _, rep, next.
    + split; [|done]. rewrite lookup_insert_ne; [done|]. intros ->. apply Np. by exists h, job.
  - left. repeat case_match; simplify_eq; done.
  - left. repeat case_match; simplify_eq; done.
  - left. repeat case_match; simplify_eq; done.
  - left. unfold run_step in H. destruct (sv_handlers s !! h) as [x|] eqn:Eh; [|discriminate]. destruct x; repeat case_match; simplify_eq; cbn; try done.
    destruct (T4 _ _ _ Eh eq_refl) as [(tx' & n' & H1 & H2 & H3)|[Hno _]]; [|by destruct (Hno _ _ _ _ _ _ eq_refl)].
    destruct (H3 _ _ _ _ _ _ eq_refl) as (<- & _ & _). split; [|done].
    rewrite lookup_insert_ne; [done|congruence].
  - left. repeat case_match; simplify_eq; done.
  - left. repeat case_match; simplify_eq; done.
  - destruct (sv_reaper s); try discriminate. by apply elem_of_nil in Hf.
  - unfold reap_step in H. destruct (sv_reaper s) as [|txs ex|txs ex|ex| |] eqn:Er; try discriminate; cbn in Hf; try by apply elem_of_nil in Hf.
    destruct txs as [|tx0 txs]; [by apply elem_of_nil in Hf|].
    destruct (decide (tx0 = tx)) as [->|Hne].
    + rewrite Hc in H. injection H as <- <-. right. cbn. set_solver.
    + left. apply elem_of_cons in Hf as [->|Hf]; [done|]. destruct (sv_conns s !! tx0) eqn:E0; injection H as <- <-; cbn; [|done].
      by rewrite lookup_delete_ne.
  - destruct (sv_reaper s); try discriminate. by apply elem_of_nil in Hf.
  - left. by simplify_eq.
  - left. by simplify_eq.
  - left. by simplify_eq.
Qed.
(** Removed and not yet reported. *)
Lemma expired_step s l s' ev c : step s l = Some (s', ev) -> c ∈ expired_of (sv_reaper s) ->
  sv_reaper s' = PPanicked \/ c ∈ expired_of (sv_reaper s') \/ EFinished (c_node c) (inr (c_msg c)) ∈ ev.
Proof.
  intros H Hc. destruct l; cbn [ServerModel.step] in H.
  - right; left. destruct (sv_handlers s !! h) eqn:Eh; [discriminate|]. unfold request_step in H.
    destruct (String.eqb token secret); [|unfold reply_now in H; by simplify_eq].
    destruct q; unfold start, begun, end_, ping, mark, reply_now in H; repeat case_match; by simplify_eq.
  - right; left. repeat case_match; simplify_eq; done.
  - right; left. repeat case_match; simplify_eq; done.
  - right; left. repeat case_match; simplify_eq; done.
  - right; left. unfold run_step in H. repeat case_match; simplify_eq; done.
  - right; left. repeat case_match; simplify_eq; done.
  - right; left. repeat case_match; simplify_eq; done.
  - destruct (sv_reaper s); try discriminate. by apply elem_of_nil in Hc.
  - unfold reap_step in H. destruct (sv_reaper s) as [|txs ex|txs ex|ex| |] eqn:Er; try discriminate; cbn in Hc.
    + right; left. destruct txs as [|tx txs]; repeat case_match; simplify_eq; cbn; set_solver.
    + destruct txs as [|tx txs]; [right; left; by simplify_eq|].
      destruct (sv_conns s !! tx) eqn:Ec; simplify_eq; [right; left; cbn; set_solver|by left].
    + destruct ex as [|c0 ex]; [by apply elem_of_nil in Hc|]. apply elem_of_cons in Hc as [->|Hc]; injection H as <- <-; [right; right; by left|right; by left].
  - destruct (sv_reaper s); try discriminate. by apply elem_of_nil in Hc.
  - right; left. by simplify_eq.
  - right; left. by simplify_eq.
  - right; left. by simplify_eq.
Qed.

Lemma nticks_cons l ls : nticks (l :: ls) = (if is_tick_label l then 1 else 0) + nticks ls.
Proof. unfold nticks. cbn. by destruct (is_tick_label l). Qed.

(** A silent runner is found out. *)
Definition told (s' : server) (c : conn) (ev : list event) : Prop :=
  sv_reaper s' = PPanicked \/ c ∈ expired_of (sv_reaper s') \/ EFinished (c_node c) (inr (c_msg c)) ∈ ev.
Lemma told_app s' c ev ev' : told s' c ev' -> told s' c (ev ++ ev').
Proof. intros [|[|]]; [by left|by right; left|right; right; set_solver]. Qed.
Lemma expired_run ls : forall s s' ev c, run s ls = Some (s', ev) -> c ∈ expired_of (sv_reaper s) -> told s' c ev.
Proof.
  induction ls as [|l ls IH]; intros s s' ev c H Hx; cbn in H; [injection H as <- <-; by right; left|].
  destruct (step s l) as [[s1 e1]|] eqn:E; [|discriminate].
  destruct (run s1 ls) as [[s2 e2]|] eqn:E2; [|discriminate]. injection H as <- <-.
  destruct (expired_step _ _ _ _ _ E Hx) as [H1|[H1|H1]].
  - left. by eapply panicked_stays.
  - by eapply told_app, IH.
  - right; right. set_solver.
Qed.
Lemma fired_run ls : forall s s' ev tx c, timers s -> along secret calm s ls -> run s ls = Some (s', ev) ->
  sv_conns s !! tx = Some c -> tx ∈ fired (sv_reaper s) -> (forall l, l ∈ ls -> ~ pings secret tx l /\ ~ ends secret tx l) ->
  tx ∈ fired (sv_reaper s') \/ told s' c ev.
Proof.
  induction ls as [|l ls IH]; intros s s' ev tx c T C H Hc Hx Hno; cbn in H; [injection H as <- <-; by left|].
  destruct C as [C1 C2]. destruct (step s l) as [[s1 e1]|] eqn:E; [|discriminate]. 
  destruct (run s1 ls) as [[s2 e2]|] eqn:E2; [|discriminate]. injection H as <- <-.
  destruct (Hno l) as [Np Ne]; [by left|].
  pose proof (timers_step _ _ _ _ T C1 E) as T'.
  destruct (fired_step _ _ _ _ _ _ T C1 E Hc Hx Np Ne) as [[H1 H2]|H1].
  - destruct (IH _ _ _ _ _ T' C2 E2 H1 H2) as [|]; [intros l0 Hl0; apply Hno; by right|by left|right; by apply told_app].
  - right. by eapply told_app, expired_run.
Qed.
Lemma silent_run ls : forall s s' ev tx c n, timers s -> along secret calm s ls -> run s ls = Some (s', ev) -> waits s tx c n ->
  (forall l, l ∈ ls -> ~ pings secret tx l /\ ~ ends secret tx l) ->
  (n > nticks ls /\ sv_conns s' !! tx = Some c) \/ tx ∈ fired (sv_reaper s') \/ told s' c ev.
Proof.
  induction ls as [|l ls IH]; intros s s' ev tx c n T C H Hw Hno; cbn in H.
  { injection H as <- <-. left. destruct Hw as (? & _ & _ & Hp & _). destruct (pe_n _ _ _ _ Hp). split; [cbn; lia|done]. }
  destruct C as [C1 C2]. destruct (step s l) as [[s1 e1]|] eqn:E; [|discriminate].
  destruct (run s1 ls) as [[s2 e2]|] eqn:E2; [|discriminate]. injection H as <- <-.
  pose proof (timers_step _ _ _ _ T C1 E) as T'. destruct (Hno l) as [Np Ne]; [by left|].
  assert (forall l0, l0 ∈ ls -> ~ pings secret tx l0 /\ ~ ends secret tx l0) as Hno' by (intros l0 Hl0; apply Hno; by right).
  destruct (waits_step _ _ _ _ _ _ _ T C1 E Hw Ne) as [[? _]|[[-> Hn]|[(_ & Hnt & Hw')|(-> & keys & ex & _ & _ & Hx)]]]; [done|..].
  - destruct (decide (n = 1)) as [->|].
    + destruct Hn as [H1 H2]. destruct (fired_run _ _ _ _ _ _ T' C2 E2 H1 H2 Hno') as [|]; [by right; left|right; right; by apply told_app].
    + destruct (IH _ _ _ _ _ _ T' C2 E2 Hn Hno') as [[]|[|]]; [left|by right; left|right; right; by apply told_app].
      rewrite nticks_cons. cbn [is_tick_label]. split; [lia|done].
  - destruct (IH _ _ _ _ _ _ T' C2 E2 Hw' Hno') as [[]|[|]]; [left|by right; left|right; right; by apply told_app].
    rewrite nticks_cons. destruct l; try done; cbn [is_tick_label]; by split.
  - right; right. by eapply told_app, expired_run.
Qed.
Lemma silent_detected s ls s' ev tx c : timers s -> along secret calm s ls -> run s ls = Some (s', ev) -> sv_conns s !! tx = Some c ->
  (forall l, l ∈ ls -> ~ pings secret tx l /\ ~ ends secret tx l) -> 255 <= nticks ls -> sv_reaper s' = PIdle ->
  EFinished (c_node c) (inr (c_msg c)) ∈ ev.
Proof.
  intros T C H Hc Hno Hn Hr.
  assert (told s' c ev -> EFinished (c_node c) (inr (c_msg c)) ∈ ev) as Ht.
  { unfold told. rewrite Hr. intros [|[Hx|]]; [done|by apply elem_of_nil in Hx|done]. }
  assert (forall P : Prop, tx ∈ fired (sv_reaper s') -> P) as Hf'. { rewrite Hr. by intros P ?%elem_of_nil. }
  destruct (decide (tx ∈ fired (sv_reaper s))) as [Hf|Hf].
  - destruct (fired_run _ _ _ _ _ _ T C H Hc Hf Hno) as [Hx|Hx]; [by apply Hf'|auto].
  - destruct (t_conn _ T _ _ Hc) as [[n Hl]|[? _]]; [|done].
    destruct (silent_run _ _ _ _ tx c n T C H (conj Hc (conj Hf Hl)) Hno) as [[Hx _]|[Hx|Hx]]; [|by apply Hf'|auto].
    destruct Hl as [Hl _]. lia.
Qed.

(** A runner that pings in time is kept. *)
Definition kept (s : server) (tx : N) (c : conn) : Prop :=
  (forall keys ex, sv_reaper s = PSoft keys ex -> tx ∉ keys) /\ (forall t, sv_soft s = Some t -> (c_start c <= t)%N).
Lemma kept_step s l s' ev tx c : kept s tx c -> step s l = Some (s', ev) -> sv_conns s !! tx = Some c -> (forall t, l = LSoft t -> (c_start c <= t)%N) ->
  kept s' tx c.
Proof.
  intros [K1 K2] H Hc Hs. destruct l; cbn [ServerModel.step] in H.
  - destruct (sv_handlers s !! h) eqn:Eh; [discriminate|]. unfold request_step in H.
    destruct (String.eqb token secret); [|unfold reply_now in H; by simplify_eq].
    destruct q; unfold start, begun, end_, ping, mark, reply_now in H; repeat case_match; by simplify_eq.
  - repeat case_match; simplify_eq; done.
  - repeat case_match; simplify_eq; done.
  - repeat case_match; simplify_eq; done.
  - unfold run_step in H. repeat case_match; simplify_eq; done.
  - repeat case_match; simplify_eq; done.
  - repeat case_match; simplify_eq; done.
  - repeat case_match; simplify_eq; done.
  - unfold reap_step in H. destruct (sv_reaper s) as [|txs ex|txs ex|ex| |] eqn:Er; try discriminate.
    + destruct txs as [|tx0 txs].
      * destruct (sv_soft s) as [t|] eqn:Es; injection H as <- <-; [|by split; cbn; [|rewrite Es]]. split; [|cbn; by rewrite Es].
        cbn. intros keys ex' [= <- <-] Hin. apply elem_of_list_In, in_map_iff in Hin as ([k c0] & <- & Hin).
        apply elem_of_list_In, elem_of_list_filter in Hin as [Hlt Hin%elem_of_map_to_list]. cbn in *. specialize (K2 t eq_refl).
        assert (c0 = c) as -> by congruence. lia.
      * destruct (sv_conns s !! tx0); simplify_eq; by split.
    + destruct txs as [|tx0 txs]; [simplify_eq; by split|]. specialize (K1 _ _ eq_refl).
      destruct (sv_conns s !! tx0); simplify_eq; (split; [|done]); [|done]. cbn. intros keys ex' [= <- <-]. set_solver.
    + repeat case_match; simplify_eq; by split.
  - repeat case_match; simplify_eq; by split.
  - simplify_eq; done.
  - simplify_eq. split; [done|]. cbn. intros t0 [= <-]. by apply Hs.
  - simplify_eq; done.
Qed.

Definition no_pings (tx : N) (ls : list label) : Prop := forall l, l ∈ ls -> ~ pings secret tx l.
Lemma pinging_kept ls : forall s s' ev tx c n, timers s -> along secret calm s ls -> run s ls = Some (s', ev) -> waits s tx c n -> kept s tx c ->
  (forall l, l ∈ ls -> ~ ends secret tx l) -> (forall t, LSoft t ∈ ls -> (c_start c <= t)%N) ->
  (forall b d, ls = b ++ d -> no_pings tx b -> nticks b < n) ->
  (forall a b d, ls = a ++ b ++ d -> no_pings tx b -> nticks b <= 254) ->
  exists c', renewed c c' /\ sv_conns s' !! tx = Some c'.
Proof.
  induction ls as [|l ls IH]; intros s s' ev tx c n T C H Hw K Hno Hs H1 H2; cbn in H.
  { injection H as <- <-. exists c. destruct Hw as (? & _). by split. }
  destruct C as [C1 C2]. destruct (step s l) as [[s1 e1]|] eqn:E; [|discriminate].
  destruct (run s1 ls) as [[s2 e2]|] eqn:E2; [|discriminate]. injection H as <- <-.
  pose proof (timers_step _ _ _ _ T C1 E) as T'.
  assert (~ ends secret tx l) as Ne by (apply Hno; by left).
  assert (forall l0, l0 ∈ ls -> ~ ends secret tx l0) as Hno' by (intros l0 Hl0; apply Hno; by right).
  assert (forall t, LSoft t ∈ ls -> (c_start c <= t)%N) as Hs' by (intros t Ht; apply Hs; by right).
  assert (forall a b d, ls = a ++ b ++ d -> no_pings tx b -> nticks b <= 254) as H2'.
  { intros a b d -> Hb. by apply (H2 (l :: a) b d). }
  assert (kept s1 tx c) as K'.
  { eapply kept_step; [done|done|by destruct Hw|]. intros t ->. apply Hs. by left. }
  destruct (waits_step _ _ _ _ _ _ _ T C1 E Hw Ne) as [(Hp & c1 & Hr & Hw')|[[-> Hn]|[(Hp & Hnt & Hw')|(-> & keys & ex & Hr & _)]]].
  - destruct (IH _ _ _ tx c1 255 T' C2 E2 Hw') as (c' & R & Hc').
    + destruct K' as [K1 K2]. split; [done|]. destruct Hr as (_ & -> & _). done.
    + done.
    + destruct Hr as (_ & -> & _). done.
    + intros b d -> Hb. enough (nticks b <= 254) by lia. by apply (H2' [] b d).
    + done.
    + exists c'. split; [|done]. unfold renewed in *. intuition congruence.
  - assert (no_pings tx [LTick]) as Ht. { intros l0 ->%elem_of_list_singleton (? & ? & [=]). }
    destruct (decide (n = 1)) as [->|].
    { specialize (H1 [LTick] ls eq_refl Ht). cbn in H1. lia. }
    apply (IH _ _ _ tx c (n - 1) T' C2 E2 Hn K' Hno' Hs'); [|done].
    intros b d -> Hb. specialize (H1 (LTick :: b) d eq_refl). rewrite nticks_cons in H1. cbn [is_tick_label] in H1.
    enough (1 + nticks b < n) by lia. apply H1. intros l0 [->|Hl0]%elem_of_cons; [by apply Ht; left|by apply Hb].
  - apply (IH _ _ _ tx c n T' C2 E2 Hw' K' Hno' Hs'); [|done].
    intros b d -> Hb. specialize (H1 (l :: b) d eq_refl). rewrite nticks_cons in H1.
    enough ((if is_tick_label l then 1 else 0) + nticks b < n) by lia. apply H1. intros l0 [->|Hl0]%elem_of_cons; [done|by apply Hb].
  - exfalso. destruct K as [K1 _]. apply (K1 _ _ Hr). by left.
Qed.

(** After the reply that opens the transaction. *)
Lemma waits_after_open s h tx0 s' ev n tx : timers s -> step s (LRun h tx0) = Some (s', ev) -> (exists e, e ∈ ev /\ gives tx n e) ->
  exists c, c_node c = n /\ c_start c = sv_now s /\ waits s' tx c 255 /\ sv_reaper s' = sv_reaper s /\ sv_soft s' = sv_soft s /\ tx ∉ sweep (sv_reaper s).
Proof.
  intros T H (e & He & Hg). cbn [ServerModel.step] in H. unfold run_step in H.
  destruct (sv_handlers s !! h) as [x|] eqn:Eh; [|discriminate]. destruct x; repeat case_match; simplify_eq; try by apply elem_of_nil in He.
  - apply elem_of_list_singleton in He as ->.
    destruct (t_hand _ T _ _ _ Eh eq_refl) as [(tx' & m & H1 & H2 & H3)|[Hno _]]; [|by destruct (Hno _ _ _ _ _ _ eq_refl)].
    destruct (H3 _ _ _ _ _ _ eq_refl) as (<- & -> & H4).
    destruct Hg as (h' & [E|E]); destruct in_end; cbn in E; simplify_eq;
    (eexists; split; [|split; [|split; [split; [cbn; apply lookup_insert|split; [cbn; by intros Hf%fired_sweep|]]|]]]; done).
  - apply elem_of_list_singleton in He as ->. destruct Hg as (h' & [E|E]); discriminate.
  - apply elem_of_cons in He as [->|He%elem_of_list_singleton]; [|subst e]; destruct Hg as (h' & [E|E]); discriminate.
Qed.
End server.
