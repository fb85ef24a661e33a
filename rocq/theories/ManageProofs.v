(** Proofs about the administrators' requests. *)
From Verif Require Export ManageModel ManageSpec.
From Coq Require Import Lia.
From stdpp Require Import prelude gmap.
Local Open Scope nat_scope.

(** Which place a value is in, and what is in the two that are read. *)
Definition place (v : value) : nat := match v with VTau _ => 0 | VInfo _ => 1 | VShut _ => 2 end.
Definition content (d : shared) (x : nat) : value := match x with 0 => VTau (l_tau (a_lim d)) | _ => VInfo (a_info d) end.
Definition in_effect (d : shared) (soft : bool) : bool := if soft then a_soft d else a_hard d.
(** What a request stores. *)
Definition stores (q : request) : option value :=
  match q with RLimit r => Some (VTau (tau_of r)) | RInfo v => Some (VInfo v) | RShutdown soft => Some (VShut soft) | RStatus => None end.
Definition limit_of (tau : N) : N := ((if N.eqb tau 0 then 0 else PERIOD / tau) mod 4294967296)%N.

(** The value [v] is what was stored last before time [p], or what was there at first. *)
Definition newest (v0 : value) (t : list aobs) (p : nat) (v : value) : Prop :=
  (v = v0 /\ forall p' j w, p' < p -> t !! p' = Some (OSet j w) -> place w <> place v0) \/
  (exists p' j, p' < p /\ t !! p' = Some (OSet j v) /\ place v = place v0 /\
    forall p'' k w, p' < p'' -> p'' < p -> t !! p'' = Some (OSet k w) -> place w <> place v0).

(** About the observations. *)
Record told (d0 : shared) (t : list aobs) : Prop := {
  to_inv : forall b b' i q q', t !! b = Some (OInvoked i q) -> t !! b' = Some (OInvoked i q') -> b = b' /\ q = q';
  to_set : forall p i v, t !! p = Some (OSet i v) -> exists b q, b < p /\ t !! b = Some (OInvoked i q) /\ stores q = Some v;
  to_once : forall p p' i v v', t !! p = Some (OSet i v) -> t !! p' = Some (OSet i v') -> p = p';
  to_read : forall p i v, t !! p = Some (ORead i v) -> exists b q, b < p /\ t !! b = Some (OInvoked i q) /\
    forall w, stores q = Some w -> exists p', p' < p /\ t !! p' = Some (OSet i w);
  to_reply : forall e i l v, t !! e = Some (OReplied i l v) -> exists p1 p2 tau, p1 < e /\ p2 < e /\ t !! p1 = Some (ORead i (VTau tau)) /\
    t !! p2 = Some (ORead i (VInfo v)) /\ l = limit_of tau;
  to_newest : forall p i v, t !! p = Some (ORead i v) -> place v < 2 /\ newest (content d0 (place v)) t p v
}.
(** How far a request is. *)
Definition changed (t : list aobs) (i : nat) : Prop :=
  exists b q, t !! b = Some (OInvoked i q) /\ forall w, stores q = Some w -> exists p, t !! p = Some (OSet i w).
Definition read_limit (t : list aobs) (i : nat) (l : N) : Prop := exists p tau, t !! p = Some (ORead i (VTau tau)) /\ l = limit_of tau.
Definition stage_ok (t : list aobs) (i : nat) (h : option handler) : Prop :=
  match h with
  | None => forall p q, t !! p <> Some (OInvoked i q)
  | Some (HWrite q) => (exists b, t !! b = Some (OInvoked i q)) /\ forall p v, t !! p <> Some (OSet i v)
  | Some (HTat _ | HPoll | HStatus) => changed t i
  | Some (HInfo l) => changed t i /\ read_limit t i l
  | Some (HReply l v) => changed t i /\ read_limit t i l /\ exists p, t !! p = Some (ORead i (VInfo v))
  | Some HOver => True
  end.
Record kept (d0 : shared) (s : admin) (t : list aobs) : Prop := {
  ke_told : told d0 t;
  ke_stage : forall i, stage_ok t i (ad_handlers s !! i);
  ke_newest : forall x, x < 2 -> newest (content d0 x) t (length t) (content (ad_shared s) x);
  ke_shut : forall soft, in_effect (ad_shared s) soft = true <-> exists p i, t !! p = Some (OSet i (VShut soft))
}.

(** ** One more observation *)
Lemma lookup_snoc_Some (t : list aobs) o p x : (t ++ [o]) !! p = Some x <-> (p < length t /\ t !! p = Some x) \/ (p = length t /\ o = x).
Proof.
  split.
  - intros H. destruct (decide (p < length t)) as [L|L]; [left; split; [done|]; by rewrite lookup_app_l in H|]. right.
    pose proof (lookup_lt_Some _ _ _ H) as X. rewrite app_length in X. cbn [length] in X. assert (p = length t) as -> by lia. split; [done|].
    rewrite list_lookup_middle in H by done. by injection H.
  - intros [[_ H]|[-> ->]]; [by apply lookup_app_l_Some|by apply list_lookup_middle].
Qed.
Lemma old_in (t : list aobs) o p x : t !! p = Some x -> (t ++ [o]) !! p = Some x.
Proof. intros H. by apply lookup_app_l_Some. Qed.
Lemma new_in (t : list aobs) o : (t ++ [o]) !! length t = Some o.
Proof. by apply list_lookup_middle. Qed.
Lemma newest_old v0 t o p v : p <= length t -> newest v0 t p v -> newest v0 (t ++ [o]) p v.
Proof.
  intros Hp [[-> H]|(p' & j & H1 & H2 & H3 & H4)].
  - left. split; [done|]. intros p' j w Hl Hs. apply lookup_snoc_Some in Hs as [[_ Hs]|[-> _]]; [by eapply H|lia].
  - right. exists p', j. split; [done|]. split; [by apply old_in|]. split; [done|]. intros p'' k w L1 L2 Hs.
    apply lookup_snoc_Some in Hs as [[_ Hs]|[-> _]]; [by eapply H4|lia].
Qed.
Lemma newest_same v0 t o v : (forall i w, o = OSet i w -> place w <> place v0) -> newest v0 t (length t) v -> newest v0 (t ++ [o]) (length (t ++ [o])) v.
Proof.
  intros Ho [[-> H]|(p' & j & H1 & H2 & H3 & H4)].
  - left. split; [done|]. intros p' j w Hl Hs. apply lookup_snoc_Some in Hs as [[L Hs]|[-> E]]; [by eapply H|by eapply Ho].
  - right. exists p', j. rewrite app_length. cbn [length]. split; [lia|]. split; [by apply old_in|]. split; [done|]. intros p'' k w L1 L2 Hs.
    apply lookup_snoc_Some in Hs as [[L Hs]|[-> E]]; [by eapply H4|by eapply Ho].
Qed.
Lemma newest_new v0 t i v : place v = place v0 -> newest v0 (t ++ [OSet i v]) (length (t ++ [OSet i v])) v.
Proof.
  intros E. right. exists (length t), i. rewrite app_length. cbn [length]. split; [lia|]. split; [apply new_in|]. split; [done|]. intros p'' k w L1 L2 _. lia.
Qed.
Lemma changed_old t o i : changed t i -> changed (t ++ [o]) i.
Proof. intros (b & q & H1 & H2). exists b, q. split; [by apply old_in|]. intros w [p Hp]%H2. exists p. by apply old_in. Qed.
Lemma read_limit_old t o i l : read_limit t i l -> read_limit (t ++ [o]) i l.
Proof. intros (p & tau & H1 & H2). exists p, tau. split; [by apply old_in|done]. Qed.
Definition about (o : aobs) : nat := match o with OInvoked i _ | OReplied i _ _ | OSet i _ | ORead i _ => i end.
Lemma stage_old t o i h : about o <> i -> stage_ok t i h -> stage_ok (t ++ [o]) i h.
Proof.
  intros Ho. destruct h as [[q| | | |l|l v|]|]; cbn [stage_ok]; try apply changed_old; try done.
  - intros [[b H1] H2]. split; [exists b; by apply old_in|]. intros p v [[_ H]|[-> ->]]%lookup_snoc_Some; [by eapply H2|done].
  - intros [H1 H2]. split; [by apply changed_old|by apply read_limit_old].
  - intros (H1 & H2 & p & H3). split; [by apply changed_old|]. split; [by apply read_limit_old|]. exists p. by apply old_in.
  - intros H p q [[_ X]|[-> ->]]%lookup_snoc_Some; [by eapply H|done].
Qed.
Definition may_follow (d0 : shared) (t : list aobs) (o : aobs) : Prop :=
  match o with
  | OInvoked i _ => forall p q, t !! p <> Some (OInvoked i q)
  | OSet i v => (exists b q, t !! b = Some (OInvoked i q) /\ stores q = Some v) /\ forall p w, t !! p <> Some (OSet i w)
  | ORead i v => changed t i /\ place v < 2 /\ newest (content d0 (place v)) t (length t) v
  | OReplied i l v => read_limit t i l /\ exists p, t !! p = Some (ORead i (VInfo v))
  end.
Lemma told_more d0 t o : told d0 t -> may_follow d0 t o -> told d0 (t ++ [o]).
Proof.
  intros [H1 H2 H3 H4 H5 H6] Ho. split.
  - intros b b' i q q' [[L X]|[-> ->]]%lookup_snoc_Some [[L' X']|[-> X']]%lookup_snoc_Some.
    + by eapply H1. + subst o. exfalso. by eapply Ho. + exfalso. by eapply Ho. + by simplify_eq.
  - intros p i v [[L X]|[-> ->]]%lookup_snoc_Some.
    + destruct (H2 _ _ _ X) as (b & q & Y1 & Y2 & Y3). exists b, q. split; [done|]. split; [by apply old_in|done].
    + destruct Ho as [(b & q & Y1 & Y2) _]. exists b, q. split; [by eapply lookup_lt_Some|]. split; [by apply old_in|done].
  - intros p p' i v v' [[L X]|[-> ->]]%lookup_snoc_Some [[L' X']|[-> X']]%lookup_snoc_Some.
    + by eapply H3. + subst o. exfalso. by eapply Ho. + exfalso. by eapply Ho. + done.
  - intros p i v [[L X]|[-> ->]]%lookup_snoc_Some.
    + destruct (H4 _ _ _ X) as (b & q & Y1 & Y2 & Y3). exists b, q. split; [done|]. split; [by apply old_in|]. intros w (p' & L' & Z)%Y3. exists p'. split; [done|by apply old_in].
    + destruct Ho as [(b & q & Y1 & Y2) _]. exists b, q. split; [by eapply lookup_lt_Some|]. split; [by apply old_in|].
      intros w [p' Z]%Y2. exists p'. split; [by eapply lookup_lt_Some|by apply old_in].
  - intros e i l v [[L X]|[-> ->]]%lookup_snoc_Some.
    + destruct (H5 _ _ _ _ X) as (p1 & p2 & tau & Y1 & Y2 & Y3 & Y4 & Y5). exists p1, p2, tau. repeat split; try done; by apply old_in.
    + destruct Ho as [(p1 & tau & Y1 & Y2) (p2 & Y3)]. exists p1, p2, tau. split; [by eapply lookup_lt_Some|]. split; [by eapply lookup_lt_Some|].
      split; [by apply old_in|]. split; [by apply old_in|done].
  - intros p i v [[L X]|[-> ->]]%lookup_snoc_Some.
    + destruct (H6 _ _ _ X) as [Y1 Y2]. split; [done|]. apply newest_old; [lia|done].
    + destruct Ho as (_ & Y1 & Y2). split; [done|]. by apply newest_old.
Qed.
(** One request goes on, the others stay. *)
Lemma stages_more t o i h (hs : gmap nat handler) : about o = i -> (forall j, stage_ok t j (hs !! j)) -> stage_ok (t ++ [o]) i (Some h) ->
  forall j, stage_ok (t ++ [o]) j (<[i := h]> hs !! j).
Proof.
  intros Ho H Hi j. destruct (decide (i = j)) as [<-|Hj]; [by rewrite lookup_insert|]. rewrite lookup_insert_ne by done. apply stage_old; [congruence|apply H].
Qed.
Lemma stages_same t i h (hs : gmap nat handler) : (forall j, stage_ok t j (hs !! j)) -> stage_ok t i (Some h) -> forall j, stage_ok t j (<[i := h]> hs !! j).
Proof.
  intros H Hi j. destruct (decide (i = j)) as [<-|Hj]; [by rewrite lookup_insert|]. by rewrite lookup_insert_ne.
Qed.
Lemma same_contents d0 t o s : (forall i w, o <> OSet i w) -> (forall x, x < 2 -> newest (content d0 x) t (length t) (content s x)) ->
  forall x, x < 2 -> newest (content d0 x) (t ++ [o]) (length (t ++ [o])) (content s x).
Proof. intros Ho H x Hx. apply newest_same; [|by apply H]. intros i w E. by apply Ho in E. Qed.

Lemma same_shut t o d : (forall i soft, o <> OSet i (VShut soft)) -> (forall soft, in_effect d soft = true <-> exists p i, t !! p = Some (OSet i (VShut soft))) ->
  forall soft, in_effect d soft = true <-> exists p i, (t ++ [o]) !! p = Some (OSet i (VShut soft)).
Proof.
  intros Ho H soft. rewrite H. split; intros (p & i & X); exists p, i; [by apply old_in|]. apply lookup_snoc_Some in X as [[_ X]|[_ X]]; [done|by apply Ho in X].
Qed.

Lemma kept_step d0 s t a s' os : kept d0 s t -> astep s a = Some (s', os) -> kept d0 s' (t ++ os).
Proof.
  intros [HT HS HN HU] Hs. destruct a as [i q|i now|i|i|i|i|i|i|i]; cbn [astep] in Hs; pose proof (HS i) as Hi.
  - destruct (ad_handlers s !! i) as [h|] eqn:Eh; [done|]. injection Hs as <- <-. cbn [stage_ok] in Hi. split; cbn [ad_shared ad_handlers set_handler].
    + apply told_more; [done|exact Hi].
    + apply stages_more; [done|done|]. assert (forall p v, t !! p <> Some (OSet i v)) as Hno.
      { intros p v X. destruct (to_set _ _ HT _ _ _ X) as (b & q' & _ & Y & _). by eapply Hi. }
      destruct q; cbn [stage_ok].
      1-3: split; [by exists (length t); apply new_in|]; intros p v [[_ X]|[-> X]]%lookup_snoc_Some; [by eapply Hno|done].
      exists (length t), RStatus. split; [apply new_in|done].
    + by apply same_contents.
    + by apply same_shut.
  - destruct (ad_handlers s !! i) as [[[r|v|soft|]| | | | | |]|] eqn:Eh; try done; injection Hs as <- <-; cbn [stage_ok] in Hi; destruct Hi as [[b Hb] Hno].
    + split; cbn [ad_shared ad_handlers].
      * apply told_more; [done|]. split; [by exists b, (RLimit r)|done].
      * apply stages_more; [done|done|]. cbn [stage_ok]. exists b, (RLimit r). split; [by apply old_in|]. intros w [= <-]. exists (length t). apply new_in.
      * intros x Hx. destruct x as [|[|x]]; [| |lia]; cbn [content a_lim l_tau a_info].
        -- by apply newest_new.
        -- apply newest_same; [|exact (HN 1 Hx)]. intros j w [= -> <-]. done.
      * by apply same_shut.
    + split; cbn [ad_shared ad_handlers].
      * apply told_more; [done|]. split; [by exists b, (RInfo v)|done].
      * apply stages_more; [done|done|]. cbn [stage_ok]. exists b, (RInfo v). split; [by apply old_in|]. intros w [= <-]. exists (length t). apply new_in.
      * intros x Hx. destruct x as [|[|x]]; [| |lia]; cbn [content a_lim l_tau a_info].
        -- apply newest_same; [|exact (HN 0 Hx)]. intros j w [= -> <-]. done.
        -- by apply newest_new.
      * by apply same_shut.
    + split; cbn [ad_shared ad_handlers].
      * apply told_more; [done|]. split; [by exists b, (RShutdown soft)|done].
      * apply stages_more; [done|done|]. cbn [stage_ok]. exists b, (RShutdown soft). split; [by apply old_in|]. intros w [= <-]. exists (length t). apply new_in.
      * intros x Hx. destruct x as [|[|x]]; [| |lia]; cbn [content a_lim l_tau a_info].
        -- apply newest_same; [|exact (HN 0 Hx)]. intros j w [= -> <-]. done.
        -- apply newest_same; [|exact (HN 1 Hx)]. intros j w [= -> <-]. done.
      * intros soft'. assert (in_effect (Shared (a_info (ad_shared s)) (a_lim (ad_shared s)) (a_soft (ad_shared s) || soft) (a_hard (ad_shared s) || negb soft)) soft' = true <->
          in_effect (ad_shared s) soft' = true \/ soft' = soft) as ->.
        { destruct soft, soft'; cbn [in_effect a_soft a_hard negb]; rewrite ?orb_true_r, ?orb_false_r; intuition congruence. }
        rewrite HU. split.
        -- intros [(p & j & X)| ->]; [exists p, j; by apply old_in|]. exists (length t), i. apply new_in.
        -- intros (p & j & [[_ X]|[_ X]]%lookup_snoc_Some); [left; by exists p, j|]. right. by injection X.
  - destruct (ad_handlers s !! i) as [[| | | | | |]|] eqn:Eh; try done. injection Hs as <- <-. rewrite app_nil_r. split; cbn [ad_shared ad_handlers]; [done| |exact HN|exact HU]. by apply stages_same.
  - destruct (ad_handlers s !! i) as [[| | | | | |]|] eqn:Eh; try done. injection Hs as <- <-. rewrite app_nil_r. split; cbn [ad_shared ad_handlers set_handler]; [done| |exact HN|exact HU]. by apply stages_same.
  - destruct (ad_handlers s !! i) as [[| | | | | |]|] eqn:Eh; try done. injection Hs as <- <-. cbn [stage_ok] in Hi. split; cbn [ad_shared ad_handlers set_handler].
    + apply told_more; [done|]. split; [done|]. split; [cbn; lia|]. exact (HN 0 ltac:(lia)).
    + apply stages_more; [done|done|]. cbn [stage_ok]. split; [by apply changed_old|]. exists (length t), (l_tau (a_lim (ad_shared s))). split; [apply new_in|done].
    + by apply same_contents.
    + by apply same_shut.
  - destruct (ad_handlers s !! i) as [[| | | |l| |]|] eqn:Eh; try done. injection Hs as <- <-. cbn [stage_ok] in Hi. destruct Hi as [Hc Hl]. split; cbn [ad_shared ad_handlers set_handler].
    + apply told_more; [done|]. split; [done|]. split; [cbn; lia|]. exact (HN 1 ltac:(lia)).
    + apply stages_more; [done|done|]. cbn [stage_ok]. split; [by apply changed_old|]. split; [by apply read_limit_old|]. exists (length t). apply new_in.
    + by apply same_contents.
    + by apply same_shut.
  - destruct (ad_handlers s !! i) as [[| | | | |l v|]|] eqn:Eh; try done. injection Hs as <- <-. cbn [stage_ok] in Hi. destruct Hi as (Hc & Hl & Hv). split; cbn [ad_shared ad_handlers set_handler].
    + by apply told_more.
    + by apply stages_more.
    + by apply same_contents.
    + by apply same_shut.
  - destruct (ad_handlers s !! i) as [[[]| | | | | |]|] eqn:Eh; try done. injection Hs as <- <-. rewrite app_nil_r. split; cbn [ad_shared ad_handlers set_handler]; [done| |exact HN|exact HU]. by apply stages_same.
  - destruct (ad_handlers s !! i) as [[| | | | | |]|] eqn:Eh; try done. injection Hs as <- <-. rewrite app_nil_r. split; cbn [ad_shared ad_handlers set_handler]; [done| |exact HN|exact HU]. by apply stages_same.
Qed.
Lemma kept_run d0 acts : forall s t s' t', kept d0 s t -> arun s acts = Some (s', t') -> kept d0 s' (t ++ t').
Proof.
  induction acts as [|a acts IH]; intros s t s' t' HK H; cbn [arun] in H; [injection H as <- <-; by rewrite app_nil_r|].
  destruct (astep s a) as [[s1 o1]|] eqn:E; [|done]. destruct (arun s1 acts) as [[s2 o2]|] eqn:E2; [|done]. injection H as <- <-.
  rewrite List.app_assoc. eapply IH; [by eapply kept_step|exact E2].
Qed.
Lemma kept_start now rate info : kept (ad_shared (admin_start now rate info)) (admin_start now rate info) [].
Proof.
  split; [split; intros; by rewrite ?lookup_nil in *|intros i; cbn; by rewrite lookup_empty| |].
  2: { intros soft. split; [by destruct soft|]. by intros (p & i & X). }
  intros x _. left. split; [done|]. intros p' j w L. cbn in L. lia.
Qed.

(** ** What is read *)
Lemma set_before_reply d0 t k q b e l v w : told d0 t -> t !! b = Some (OInvoked k q) -> t !! e = Some (OReplied k l v) -> stores q = Some w ->
  exists p, p < e /\ t !! p = Some (OSet k w).
Proof.
  intros HT Hb He Hw. destruct (to_reply _ _ HT _ _ _ _ He) as (p1 & _ & tau & L & _ & H1 & _). destruct (to_read _ _ HT _ _ _ H1) as (b' & q' & L' & Hb' & Hs).
  destruct (to_inv _ _ HT _ _ _ _ _ Hb Hb') as [_ ->]. destruct (Hs _ Hw) as (p & L2 & Hp). exists p. split; [lia|done].
Qed.
Lemma set_before_read d0 t i p v k q b w : told d0 t -> t !! p = Some (ORead i v) -> t !! b = Some (OInvoked k q) -> stores q = Some w -> before_or_same t k i ->
  exists p', p' < p /\ t !! p' = Some (OSet k w).
Proof.
  intros HT Hp Hb Hw Hk. destruct (to_read _ _ HT _ _ _ Hp) as (bi & qi & L & Hbi & Hs). destruct Hk as [->|(b' & q' & Hb' & e & l & x & Le & He)].
  - destruct (to_inv _ _ HT _ _ _ _ _ Hb Hbi) as [_ ->]. by apply Hs.
  - destruct (to_inv _ _ HT _ _ _ _ _ Hb' Hbi) as [-> _]. destruct (set_before_reply _ _ _ _ _ _ _ _ _ HT Hb He Hw) as (p' & L' & Hp'). exists p'. split; [lia|done].
Qed.
Lemma read_is_current d0 t i p v : told d0 t -> t !! p = Some (ORead i v) ->
  (v = content d0 (place v) /\ forall k q b w, t !! b = Some (OInvoked k q) -> stores q = Some w -> place w = place v -> ~ before_or_same t k i) \/
  (exists j q b, t !! b = Some (OInvoked j q) /\ b < p /\ stores q = Some v /\
    forall k q' b' w, t !! b' = Some (OInvoked k q') -> stores q' = Some w -> place w = place v -> follows t j k -> ~ before_or_same t k i).
Proof.
  intros HT Hp. destruct (to_newest _ _ HT _ _ _ Hp) as [Hv HN].
  assert (place (content d0 (place v)) = place v) as Hpl by (destruct v; cbn in *; try done; lia).
  destruct HN as [[E H]|(p' & j & L & Hs & _ & H)].
  - left. split; [done|]. intros k q b w Hb Hw Hl Hk. destruct (set_before_read _ _ _ _ _ _ _ _ _ HT Hp Hb Hw Hk) as (p' & L & Hs). apply (H _ _ _ L Hs). by rewrite Hpl.
  - right. destruct (to_set _ _ HT _ _ _ Hs) as (b & q & Lb & Hb & Hq). exists j, q, b. split; [done|]. split; [lia|]. split; [done|].
    intros k q' b' w Hb' Hw Hl (b2 & q2 & Hb2 & e & l & x & Le & He) Hk.
    destruct (set_before_read _ _ _ _ _ _ _ _ _ HT Hp Hb' Hw Hk) as (p2 & L2 & Hs2). destruct (to_inv _ _ HT _ _ _ _ _ Hb' Hb2) as [-> ->].
    destruct (set_before_reply _ _ _ _ _ _ _ _ _ HT Hb He Hq) as (p3 & L3 & Hs3). assert (p3 = p') as -> by (by eapply (to_once _ _ HT)).
    destruct (to_set _ _ HT _ _ _ Hs2) as (b3 & q3 & L4 & Hb3 & _). destruct (to_inv _ _ HT _ _ _ _ _ Hb2 Hb3) as [-> ->].
    apply (H p2 k w); [lia|done|done|]. by rewrite Hpl.
Qed.

