From Verif Require Export WheelSpec.
From Coq Require Import Lia.
Open Scope nat_scope.

#[export] Instance timer_id_eq : EqDecision timer_id.
Proof. solve_decision. Defined.

Section proofs.
  Context {E : Type}.
  Implicit Types (m : smap E) (w : wheel E) (e : E).

  (** ** The slot map *)
  Fixpoint chain (sl : list (slot E)) (f : nat) (l : list nat) : Prop :=
    match l with
    | [] => f = length sl
    | i :: l => f = i /\ exists v n, sl !! i = Some (Slot v (inr n)) /\ chain sl n l
    end.
  Record wf m : Prop := Wf {
    wf_chain : exists l, NoDup l /\ chain (sm_slots m) (sm_free m) l;
    wf_odd : forall i v x, sm_slots m !! i = Some (Slot v (inl x)) -> N.odd v = true;
    wf_even : forall i v n, sm_slots m !! i = Some (Slot v (inr n)) -> N.odd v = false
  }.
  Definition sm_get m (k : key) : option E :=
    match sm_slots m !! fst k with
    | Some (Slot v (inl e)) => if N.eqb v (snd k) then Some e else None
    | _ => None
    end.
  (** A key this slot map has given out at some time. *)
  Definition issued m (k : key) : Prop := exists s, sm_slots m !! fst k = Some s /\ (snd k <= sl_ver s)%N.

  Lemma wf_new : wf (sm_new (E := E)).
  Proof.
    split.
    - exists []. split; [constructor|done].
    - intros [|[|i]] v x H; done.
    - intros [|[|i]] v n H; try done. by injection H as <- _.
  Qed.

  Lemma chain_lt sl l : forall f i, chain sl f l -> i ∈ l -> exists v n, sl !! i = Some (Slot v (inr n)).
  Proof.
    induction l as [|j l IH]; intros f i Hc Hi; [by apply elem_of_nil in Hi|].
    destruct Hc as [-> (v & n & Hs & Hc)]. apply elem_of_cons in Hi as [->|Hi]; eauto.
  Qed.
  Lemma chain_insert sl l j s : forall f, j ∉ l -> chain sl f l -> chain (<[j := s]> sl) f l.
  Proof.
    induction l as [|i l IH]; intros f Hj Hc; simpl in *; [by rewrite insert_length|].
    apply not_elem_of_cons in Hj as [Hji Hj]. destruct Hc as [-> (v & n & Hs & Hc)]. split; [done|].
    exists v, n. split; [by rewrite list_lookup_insert_ne|by apply IH].
  Qed.

  Lemma lor_odd v : N.odd v = false -> N.lor v 1 = (v + 1)%N.
  Proof. destruct v as [|[p|p|]]; try done. Qed.
  Lemma odd_S v : N.odd (v + 1) = negb (N.odd v).
  Proof. rewrite N.add_1_r, N.odd_succ. symmetry. apply N.negb_odd. Qed.

  Lemma sm_insert_spec m e m' k : wf m -> sm_insert m e = (m', k) ->
    wf m' /\ sm_get m' k = Some e /\ (forall k', k' <> k -> sm_get m' k' = sm_get m k') /\
    sm_get m k = None /\ ~ issued m k /\ issued m' k /\ (forall k', issued m k' -> issued m' k').
  Proof.
    intros [(l & Hnd & Hch) Hodd Heven] H. unfold sm_insert in H.
    destruct (sm_slots m !! sm_free m) as [[v body]|] eqn:Hs.
    - destruct l as [|i l]; simpl in Hch; [rewrite Hch in Hs; by rewrite lookup_ge_None_2 in Hs|].
      destruct Hch as [Hi (v0 & n & Hs' & Hch)]. rewrite <- Hi in Hs'. rewrite Hs in Hs'. injection Hs' as <- ->.
      injection H as <- <-. pose proof (Heven _ _ _ Hs) as Hev. rewrite (lor_odd _ Hev).
      assert (sm_free m < length (sm_slots m)) as Hlt by (by eapply lookup_lt_Some).
      apply NoDup_cons in Hnd as [Hil Hnd].
      split; [split; simpl|].
      + exists l. split; [done|]. apply chain_insert; [by rewrite Hi|done].
      + intros j v' x Hj. destruct (decide (sm_free m = j)) as [<-|Hne].
        * rewrite list_lookup_insert in Hj by done. injection Hj as <- _. by rewrite odd_S, Hev.
        * rewrite list_lookup_insert_ne in Hj by done. eauto.
      + intros j v' x Hj. destruct (decide (sm_free m = j)) as [<-|Hne].
        * rewrite list_lookup_insert in Hj by done. done.
        * rewrite list_lookup_insert_ne in Hj by done. eauto.
      + unfold sm_get, issued. simpl. rewrite list_lookup_insert, N.eqb_refl by done. rewrite Hs. split; [done|]. split; [|split; [done|split; [|split]]].
        * intros [j u] Hk. simpl. destruct (decide (sm_free m = j)) as [<-|Hne]; [|by rewrite list_lookup_insert_ne].
          rewrite list_lookup_insert, Hs by done. destruct (N.eqb_spec (v + 1) u) as [<-|]; [done|done].
        * intros (s & Hx & Hle). injection Hx as <-. simpl in Hle. lia.
        * eexists. split; [reflexivity|]. simpl. lia.
        * intros [j u] (s & Hx & Hle). simpl in *. destruct (decide (sm_free m = j)) as [<-|Hne].
          -- rewrite list_lookup_insert by done. eexists. split; [reflexivity|]. rewrite Hs in Hx. injection Hx as <-. simpl in *. lia.
          -- rewrite list_lookup_insert_ne by done. eauto.
    - destruct l as [|i l]; simpl in Hch; [|destruct Hch as [<- (v0 & n & Hs' & Hch)]; congruence].
      injection H as <- <-.
      assert (forall (j : nat) s, (sm_slots m ++ [Slot 1 (inl e)]) !! j = Some s -> j = length (sm_slots m) /\ s = Slot 1 (inl e) \/ sm_slots m !! j = Some s) as Hl.
      { intros j s Hj. apply lookup_app_Some in Hj as [Hj|[Hge Hj]]; [by right|]. left.
        apply list_lookup_singleton_Some in Hj as [Hj1 <-]. split; [lia|done]. }
      split; [split; simpl|].
      + exists []. split; [constructor|]. simpl. rewrite app_length. simpl. lia.
      + intros j v' x Hj. apply Hl in Hj as [[-> [= -> _]]|Hj]; [done|eauto].
      + intros j v' x Hj. apply Hl in Hj as [[-> [=]]|Hj]; eauto.
      + unfold sm_get, issued. simpl. rewrite lookup_app_r, Nat.sub_diag by lia. simpl.
        assert (sm_slots m !! length (sm_slots m) = None) as Hnone by (apply lookup_ge_None_2; lia).
        split; [done|]. split; [|rewrite Hnone; split; [done|split; [|split]]].
        * intros [j u] Hk. simpl. destruct (decide (j = length (sm_slots m))) as [->|Hne].
          -- rewrite lookup_app_r, Nat.sub_diag, Hnone by lia. cbn [list_lookup lookup fst snd]. destruct (N.eqb_spec 1 u) as [<-|]; [done|done].
          -- destruct (sm_slots m !! j) eqn:Hj.
             ++ rewrite lookup_app_l by (by eapply lookup_lt_Some). by rewrite Hj.
             ++ rewrite lookup_ge_None_2; [done|]. rewrite app_length. simpl. apply lookup_ge_None in Hj. lia.
        * by intros (s & ? & ?).
        * eexists. split; [reflexivity|]. simpl. lia.
        * intros [j u] (s & Hx & Hle). simpl in *. exists s. split; [|done]. by apply lookup_app_l_Some.
  Qed.

  Lemma sm_remove_spec m k : wf m ->
    wf (sm_remove m k) /\ sm_get (sm_remove m k) k = None /\ (forall k', k' <> k -> sm_get (sm_remove m k) k' = sm_get m k') /\
    (forall k', issued m k' -> issued (sm_remove m k) k').
  Proof.
    intros Hwf. unfold sm_remove. destruct (sm_slots m !! fst k) as [[v [x|n]]|] eqn:Hs.
    - destruct (N.eqb_spec v (snd k)) as [->|Hne].
      + assert (fst k < length (sm_slots m)) as Hlt by (by eapply lookup_lt_Some).
        destruct Hwf as [(l & Hnd & Hch) Hodd Heven]. pose proof (Hodd _ _ _ Hs) as Ho.
        assert (fst k ∉ l) as Hkl.
        { intros Hin. destruct (chain_lt _ _ _ _ Hch Hin) as (v' & n' & H'). congruence. }
        split; [split; simpl|].
        * exists (fst k :: l). split; [by constructor|]. simpl. split; [done|]. exists (snd k + 1)%N, (sm_free m).
          split; [by rewrite list_lookup_insert|by apply chain_insert].
        * intros j v' y Hj. destruct (decide (fst k = j)) as [<-|Hne'].
          -- rewrite list_lookup_insert in Hj by done. done.
          -- rewrite list_lookup_insert_ne in Hj by done. eauto.
        * intros j v' y Hj. destruct (decide (fst k = j)) as [<-|Hne'].
          -- rewrite list_lookup_insert in Hj by done. injection Hj as <- _. by rewrite odd_S, Ho.
          -- rewrite list_lookup_insert_ne in Hj by done. eauto.
        * unfold sm_get, issued. simpl. rewrite list_lookup_insert by done. split; [done|]. split.
          -- intros [j u] Hk. simpl. destruct (decide (fst k = j)) as [<-|Hne']; [|by rewrite list_lookup_insert_ne].
             rewrite list_lookup_insert, Hs by done. destruct (N.eqb_spec (snd k) u) as [<-|]; [|done].
             destruct k; done.
          -- intros [j u] (s & Hx & Hle). simpl in *. destruct (decide (fst k = j)) as [<-|Hne'].
             ++ rewrite list_lookup_insert by done. eexists. split; [reflexivity|]. rewrite Hs in Hx. injection Hx as <-. simpl in *. lia.
             ++ rewrite list_lookup_insert_ne by done. eauto.
      + split; [done|]. split; [|done]. unfold sm_get. rewrite Hs. by destruct (N.eqb_spec v (snd k)).
    - split; [done|]. split; [|done]. unfold sm_get. by rewrite Hs.
    - split; [done|]. split; [|done]. unfold sm_get. by rewrite Hs.
  Qed.

  Lemma elem_entries m k e : In (k, e) (sm_entries m) <-> sm_get m k = Some e.
  Proof.
    unfold sm_entries, sm_get. rewrite in_concat. split.
    - intros (l & Hl & Hin). apply elem_of_list_In, elem_of_lookup_imap in Hl as (i & s & -> & Hs).
      destruct s as [v [x|n]]; simpl in Hin; [|done]. destruct Hin as [Hin|[]]. injection Hin as <- <-. simpl. by rewrite Hs, N.eqb_refl.
    - destruct k as [i u]. simpl. destruct (sm_slots m !! i) as [[v [x|n]]|] eqn:Hs; try done.
      destruct (N.eqb_spec v u) as [->|]; [|done]. intros [= ->]. exists [((i, u), e)]. split; [|by left].
      apply elem_of_list_In, elem_of_lookup_imap. eexists i, _. split; [|exact Hs]. done.
  Qed.
  Lemma entries_nodup m : NoDup (map fst (sm_entries m)).
  Proof.
    unfold sm_entries.
    assert (forall (sl : list (slot E)) n, NoDup (map fst (List.concat (imap (fun i s => match sl_body s with inl e => [((n + i, sl_ver s), e)] | inr _ => [] end) sl))) /\
      forall k, k ∈ map fst (List.concat (imap (fun i s => match sl_body s with inl e => [((n + i, sl_ver s), e)] | inr _ => [] end) sl)) -> n <= fst k) as H.
    { induction sl as [|s sl IH]; intros n; [split; [constructor|intros k Hk; by apply elem_of_nil in Hk]|].
      rewrite imap_cons. cbn [List.concat]. rewrite map_app.
      destruct (IH (S n)) as [IH1 IH2].
      assert (imap ((fun i s => match sl_body s with inl e => [((n + i, sl_ver s), e)] | inr _ => [] end) ∘ S) sl =
              imap (fun i (s : slot E) => match sl_body s with inl e => [((S n + i, sl_ver s), e)] | inr _ => [] end) sl) as Heq.
      { apply imap_ext. intros i x _. simpl. by rewrite Nat.add_succ_r. }
      rewrite Heq. clear Heq. destruct (sl_body s); simpl.
      - split.
        + constructor; [|done]. intros Hin. apply IH2 in Hin. simpl in Hin. lia.
        + intros k Hk. apply elem_of_cons in Hk as [->|Hk]; [simpl; lia|]. apply IH2 in Hk. lia.
      - split; [done|]. intros k Hk. apply IH2 in Hk. lia. }
    apply (H (sm_slots m) 0).
  Qed.

  (** ** The wheel *)
  Definition wwf w : Prop := (w_current w < 256)%N /\ forall i m, w_slots w !! i = Some m -> wf m.
  Definition w_get w (i : N) (k : key) : option E := match w_slots w !! i with Some m => sm_get m k | None => None end.
  Definition w_issued w (i : N) (k : key) : Prop := exists m, w_slots w !! i = Some m /\ issued m k.

  Lemma mod_lt a : (a mod NUM_SLOTS < 256)%N.
  Proof. by apply N.mod_lt. Qed.

  Lemma tick_spec w w' l : wwf w -> tick w = (w', l) ->
    wwf w' /\ w_duration w' = w_duration w /\ w_current w' = ((w_current w + 1) mod NUM_SLOTS)%N /\ NoDup (map fst l) /\
    (forall k e, In (k, e) l <-> w_get w (w_current w') k = Some e) /\
    (forall k, w_get w' (w_current w') k = None) /\
    (forall i k, i <> w_current w' -> w_get w' i k = w_get w i k /\ (w_issued w' i k <-> w_issued w i k)).
  Proof.
    intros [Hc Hw] H. unfold tick in H. injection H as <- <-. simpl. split; [split; [apply mod_lt|]|].
    - intros i m. simpl. destruct (decide ((w_current w + 1) mod NUM_SLOTS = i)%N) as [<-|Hne]; [by rewrite lookup_delete|rewrite lookup_delete_ne by done; eauto].
    - split; [done|]. split; [done|]. split; [|split; [|split]].
      + destruct (w_slots w !! _); [apply entries_nodup|constructor].
      + intros k e. unfold w_get. destruct (w_slots w !! _); [apply elem_entries|done].
      + intros k. unfold w_get. simpl. by rewrite lookup_delete.
      + intros i k Hne. unfold w_get, w_issued. simpl. by rewrite lookup_delete_ne.
  Qed.

  Lemma insert_spec w dur e w' id : wwf w -> insert w dur e = Some (w', id) ->
    wwf w' /\ w_duration w' = w_duration w /\ w_current w' = w_current w /\
    id_slot id = ((w_current w + steps_ahead (w_duration w) dur) mod NUM_SLOTS)%N /\
    w_get w' (id_slot id) (id_key id) = Some e /\ w_get w (id_slot id) (id_key id) = None /\
    ~ w_issued w (id_slot id) (id_key id) /\ w_issued w' (id_slot id) (id_key id) /\
    (forall i k, (i, k) <> (id_slot id, id_key id) -> w_get w' i k = w_get w i k) /\
    (forall i k, w_issued w i k -> w_issued w' i k).
  Proof.
    intros [Hc Hw] H. unfold insert in H. destruct (N.ltb_spec (w_duration w) dur); [done|]. cbv zeta in H.
    set (pos := ((w_current w + steps_ahead (w_duration w) dur) mod NUM_SLOTS)%N) in *.
    set (bucket := match w_slots w !! pos with Some m => m | None => sm_new end) in *.
    destruct (sm_insert bucket e) as [b k] eqn:Hins. injection H as <- <-. simpl.
    assert (wf bucket) as Hwf.
    { unfold bucket. destruct (w_slots w !! pos) eqn:Hp; [by eapply Hw|apply wf_new]. }
    destruct (sm_insert_spec _ _ _ _ Hwf Hins) as (H1 & H2 & H3 & H4 & H5 & H6 & H7).
    split; [split; [done|]|].
    { intros i m. simpl. destruct (decide (pos = i)) as [<-|Hne]; [rewrite lookup_insert; by intros [= <-]|rewrite lookup_insert_ne by done; eauto]. }
    split; [done|]. split; [done|]. split; [done|]. unfold w_get, w_issued. simpl. rewrite lookup_insert.
    split; [done|]. split; [|split; [|split; [by eauto|split]]].
    - unfold bucket in H4. by destruct (w_slots w !! pos).
    - intros (m & Hm & Hi). unfold bucket in H5. rewrite Hm in H5. done.
    - intros i k' Hne. destruct (decide (pos = i)) as [<-|Hp]; [|by rewrite lookup_insert_ne].
      rewrite lookup_insert, H3 by congruence. unfold bucket. destruct (w_slots w !! pos); [done|].
      unfold sm_get. simpl. destruct (fst k') as [|[|]]; done.
    - intros i k' (m & Hm & Hi). destruct (decide (pos = i)) as [<-|Hp]; [|rewrite lookup_insert_ne by done; eauto].
      rewrite lookup_insert. eexists. split; [reflexivity|]. apply H7. unfold bucket. by rewrite Hm.
  Qed.

  Lemma cancel_spec w id : wwf w ->
    wwf (cancel w id) /\ w_duration (cancel w id) = w_duration w /\ w_current (cancel w id) = w_current w /\
    w_get (cancel w id) (id_slot id) (id_key id) = None /\
    (forall i k, (i, k) <> (id_slot id, id_key id) -> w_get (cancel w id) i k = w_get w i k) /\
    (forall i k, w_issued w i k -> w_issued (cancel w id) i k).
  Proof.
    intros [Hc Hw]. unfold cancel. destruct (w_slots w !! id_slot id) as [m|] eqn:Hm.
    - destruct (sm_remove_spec m (id_key id) (Hw _ _ Hm)) as (H1 & H2 & H3 & H4). simpl. split; [split; [done|]|].
      { intros i m'. simpl. destruct (decide (id_slot id = i)) as [<-|Hne]; [rewrite lookup_insert; by intros [= <-]|rewrite lookup_insert_ne by done; eauto]. }
      unfold w_get, w_issued. simpl. rewrite lookup_insert. split; [done|]. split; [done|]. split; [done|]. split.
      + intros i k Hne. destruct (decide (id_slot id = i)) as [<-|Hp]; [|by rewrite lookup_insert_ne].
        rewrite lookup_insert, Hm. apply H3. congruence.
      + intros i k (m' & Hm' & Hi). destruct (decide (id_slot id = i)) as [<-|Hp]; [|rewrite lookup_insert_ne by done; eauto].
        rewrite lookup_insert. eexists. split; [reflexivity|]. apply H4. congruence.
    - split; [done|]. split; [done|]. split; [done|]. unfold w_get. rewrite Hm. done.
  Qed.

  (** ** Following one entry *)
  Definition absent w e : Prop := forall i k, w_get w i k <> Some e.
  (** [e] waits under [id] and nowhere else, and is due after [n] more ticks. *)
  Record pending w e (id : timer_id) (n : nat) : Prop := Pending {
    pe_n : 1 <= n <= 256;
    pe_slot : id_slot id = ((w_current w + N.of_nat n) mod NUM_SLOTS)%N;
    pe_issued : w_issued w (id_slot id) (id_key id);
    pe_only : forall i k, w_get w i k = Some e -> i = id_slot id /\ k = id_key id
  }.

  Lemma slot_ahead c n : (c < 256)%N -> 1 <= n <= 256 ->
    ((c + 1) mod NUM_SLOTS = (c + N.of_nat n) mod NUM_SLOTS)%N <-> n = 1.
  Proof.
    intros Hc Hn. split; [|by intros ->]. intros H. unfold NUM_SLOTS in *.
    destruct (decide (n = 1)); [done|exfalso].
    destruct (decide (c + 1 < 256)%N).
    - rewrite (N.mod_small (c + 1)) in H by done. destruct (decide (c + N.of_nat n < 256)%N).
      + rewrite N.mod_small in H by done. lia.
      + replace (c + N.of_nat n)%N with (c + N.of_nat n - 256 + 1 * 256)%N in H by lia.
        rewrite N.mod_add, N.mod_small in H by lia. lia.
    - assert (c = 255)%N as -> by lia. replace (255 + N.of_nat n)%N with (N.of_nat n - 1 + 1 * 256)%N in H by lia.
      change ((255 + 1) mod 256)%N with 0%N in H.
      rewrite N.mod_add in H by done.
      rewrite N.mod_small in H by lia. lia.
  Qed.

  Lemma slot_next c n : (((c + 1) mod NUM_SLOTS + N.of_nat n) mod NUM_SLOTS = (c + N.of_nat (S n)) mod NUM_SLOTS)%N.
  Proof. rewrite N.add_mod_idemp_l by done. by replace (c + 1 + N.of_nat n)%N with (c + N.of_nat (S n))%N by lia. Qed.

  (** One step. The entry is not inserted again. *)
  Lemma absent_step w o w' r e : wwf w -> absent w e -> not_inserted e [o] -> wstep w o = Some (w', r) ->
    wwf w' /\ absent w' e /\ w_duration w' = w_duration w /\ (forall l k, r = RTick l -> ~ In (k, e) l).
  Proof.
    intros Hw Ha Hno Hs. destruct o as [|dur x|id]; cbn [wstep] in Hs.
    - destruct (tick w) as [w1 l] eqn:Ht. injection Hs as <- <-.
      destruct (tick_spec w w1 l Hw Ht) as (H1 & H2 & H3 & H4 & H5 & H6 & H7). split; [done|]. split; [|split; [done|]].
      + intros i k. destruct (decide (i = w_current w1)) as [->|Hne]; [rewrite H6; discriminate|]. destruct (H7 i k Hne) as [-> _]. apply Ha.
      + intros l' k [= <-] Hin. apply H5 in Hin. by apply Ha in Hin.
    - destruct (insert w dur x) as [[w1 id]|] eqn:Hi; [|done]. injection Hs as <- <-.
      destruct (insert_spec w dur x w1 id Hw Hi) as (H1 & H2 & H3 & H4 & H5 & H6 & H7 & H8 & H9 & H10). split; [done|]. split; [|done].
      intros i k Hg. destruct (decide ((i, k) = (id_slot id, id_key id))) as [Heq|Hne].
      + injection Heq as -> ->. rewrite H5 in Hg. injection Hg as ->. apply (Hno dur). by left.
      + rewrite H9 in Hg by done. by apply Ha in Hg.
    - injection Hs as <- <-. destruct (cancel_spec w id Hw) as (H1 & H2 & H3 & H4 & H5 & H6). split; [done|]. split; [|done].
      intros i k Hg. destruct (decide ((i, k) = (id_slot id, id_key id))) as [Heq|Hne].
      + injection Heq as -> ->. congruence.
      + rewrite H5 in Hg by done. by apply Ha in Hg.
  Qed.
  Lemma absent_run ops : forall w w' rs e, wwf w -> absent w e -> not_inserted e ops -> wrun w ops = Some (w', rs) ->
    wwf w' /\ absent w' e /\ w_duration w' = w_duration w /\ (forall l k, In (RTick l) rs -> ~ In (k, e) l).
  Proof.
    induction ops as [|o ops IH]; intros w w' rs e Hw Ha Hno Hrun; simpl in Hrun.
    { injection Hrun as <- <-. split; [done|]. split; [done|]. split; [done|]. by intros ?? []. }
    destruct (wstep w o) as [[w1 r]|] eqn:Hs; [|done]. destruct (wrun w1 ops) as [[w2 rs2]|] eqn:Hr; [|done]. injection Hrun as <- <-.
    destruct (absent_step w o w1 r e Hw Ha) as (H1 & H2 & H3 & H4); [intros dur [->|[]]; apply (Hno dur); by left|done|].
    destruct (IH w1 w2 rs2 e H1 H2) as (H5 & H6 & H7 & H8); [intros dur Hd; apply (Hno dur); by right|done|].
    split; [done|]. split; [done|]. split; [congruence|]. intros l k [->|Hin]; [by apply H4|by apply H8].
  Qed.

  Lemma pending_step w o w' r e id n : wwf w -> pending w e id n -> not_inserted e [o] -> wstep w o = Some (w', r) ->
    wwf w' /\ w_duration w' = w_duration w /\
    match o with
    | OTick => exists l, r = RTick l /\ NoDup (map fst l) /\
        if decide (n = 1) then absent w' e /\ forall k, In (k, e) l <-> (k = id_key id /\ w_get w (id_slot id) (id_key id) = Some e)
        else pending w' e id (n - 1) /\ (forall k, ~ In (k, e) l) /\ w_get w' (id_slot id) (id_key id) = w_get w (id_slot id) (id_key id)
    | OInsert dur x => exists id', r = RInsert id' /\ id' <> id /\ pending w' e id n /\ w_get w' (id_slot id) (id_key id) = w_get w (id_slot id) (id_key id)
    | OCancel id' => r = RCancel /\ pending w' e id n /\
        w_get w' (id_slot id) (id_key id) = if decide (id' = id) then None else w_get w (id_slot id) (id_key id)
    end.
  Proof.
    intros Hw [Hn Hsl Hiss Honly] Hno Hs. destruct o as [|dur x|id']; cbn [wstep] in Hs.
    - destruct (tick w) as [w1 l] eqn:Ht. injection Hs as <- <-.
      destruct (tick_spec w w1 l Hw Ht) as (H1 & H2 & H3 & H4 & H5 & H6 & H7). split; [done|]. split; [done|]. exists l. split; [done|]. split; [done|].
      pose proof (slot_ahead (w_current w) n (proj1 Hw) Hn) as Hahead. rewrite <- Hsl, <- H3 in Hahead.
      destruct (decide (n = 1)) as [->|Hne].
      + assert (w_current w1 = id_slot id) as Hcur by (by apply Hahead). split.
        * intros i k Hg. destruct (decide (i = w_current w1)) as [->|Hne]; [by rewrite H6 in Hg|].
          destruct (H7 i k Hne) as [Heq _]. rewrite Heq in Hg. apply Honly in Hg as [-> ->]. congruence.
        * intros k. rewrite H5, Hcur. split; [|by intros [-> ?]]. intros Hg. destruct (Honly _ _ Hg) as [_ ->]. done.
      + assert (id_slot id <> w_current w1) as Hcur by (intros Heq; apply Hne, Hahead; done).
        destruct (H7 _ (id_key id) Hcur) as [Hg Hi]. split; [|split; [|done]].
        * split; [lia| |by apply Hi|].
          -- rewrite H3, slot_next, Hsl. do 3 f_equal. lia.
          -- intros i k Hgk. destruct (decide (i = w_current w1)) as [->|Hne']; [by rewrite H6 in Hgk|].
             destruct (H7 i k Hne') as [Heq _]. rewrite Heq in Hgk. by apply Honly.
        * intros k Hin. apply H5 in Hin. apply Honly in Hin as [? _]. congruence.
    - destruct (insert w dur x) as [[w1 id']|] eqn:Hi; [|done]. injection Hs as <- <-.
      destruct (insert_spec w dur x w1 id' Hw Hi) as (H1 & H2 & H3 & H4 & H5 & H6 & H7 & H8 & H9 & H10). split; [done|]. split; [done|].
      exists id'. split; [done|]. 
      assert (id' <> id) as Hne by (intros ->; done). split; [done|].
      assert ((id_slot id, id_key id) <> (id_slot id', id_key id')) as Hne' by (intros [= Ha Hb]; destruct id, id'; simpl in *; congruence).
      split; [|by apply H9]. split; [done|by rewrite H3|by apply H10|].
      intros i k Hg. destruct (decide ((i, k) = (id_slot id', id_key id'))) as [Heq|Hnek].
      + injection Heq as -> ->. rewrite H5 in Hg. injection Hg as ->. exfalso. apply (Hno dur). by left.
      + rewrite H9 in Hg by done. by apply Honly.
    - injection Hs as <- <-. destruct (cancel_spec w id' Hw) as (H1 & H2 & H3 & H4 & H5 & H6). split; [done|]. split; [done|]. split; [done|].
      split.
      + split; [done|by rewrite H3|by apply H6|]. intros i k Hg.
        destruct (decide ((i, k) = (id_slot id', id_key id'))) as [Heq|Hnek]; [injection Heq as -> ->; congruence|].
        rewrite H5 in Hg by done. by apply Honly.
      + destruct (decide (id' = id)) as [->|Hne]; [done|]. apply H5. intros [= Ha Hb]. destruct id, id'; simpl in *; congruence.
  Qed.

  Lemma ticks_cons (o : op E) ops : ticks (o :: ops) = (if is_tick o then 1 else 0) + ticks ops.
  Proof. unfold ticks. simpl. by destruct (is_tick o). Qed.

  Lemma pending_run ops : forall w w' rs e id n, wwf w -> pending w e id n -> not_inserted e ops -> wrun w ops = Some (w', rs) ->
    (forall a b ra rb l, ops = a ++ OTick :: b -> rs = ra ++ RTick l :: rb -> length ra = length a ->
       forall k, In (k, e) l <-> k = id_key id /\ ticks a + 1 = n /\ w_get w (id_slot id) (id_key id) = Some e /\ ~ In (OCancel id) a) /\
    (forall a b ra rb dur x id', ops = a ++ OInsert dur x :: b -> rs = ra ++ RInsert id' :: rb -> length ra = length a -> ticks a < n -> id' <> id).
  Proof.
    induction ops as [|o ops IH]; intros w w' rs e id n Hw Hp Hno Hrun; simpl in Hrun.
    { injection Hrun as <- <-. split; [by intros [|] *|by intros [|] *]. }
    destruct (wstep w o) as [[w1 r]|] eqn:Hs; [|done]. destruct (wrun w1 ops) as [[w2 rs2]|] eqn:Hr; [|done]. injection Hrun as <- <-.
    assert (not_inserted e [o]) as Hno1 by (intros dur [->|[]]; apply (Hno dur); by left).
    assert (not_inserted e ops) as Hno2 by (intros dur Hd; apply (Hno dur); by right).
    destruct (pending_step w o w1 r e id n Hw Hp Hno1 Hs) as (Hw1 & _ & Ho).
    destruct o as [|dur x|id'].
    - destruct Ho as (l & -> & Hnd & Ho). destruct (decide (n = 1)) as [->|Hne].
      + destruct Ho as [Habs Hl]. split.
        * intros [|o a] b [|r' ra] rb l' Heq1 Heq2 Hlen k; try done; simpl in Heq1, Heq2.
          -- injection Heq1 as _. injection Heq2 as -> _. rewrite Hl. unfold ticks. simpl. split; [intros [? ?]; auto|intros (? & ? & ? & ?); auto].
          -- injection Heq1 as <- ->. injection Heq2 as <- ->. rewrite ticks_cons. simpl. split; [|lia].
             intros Hin. exfalso. destruct (absent_run _ _ _ _ e Hw1 Habs Hno2 Hr) as (_ & _ & _ & H8). eapply H8; [|done]. apply in_app_iff. right. by left.
        * intros [|o a] b [|r' ra] rb d x id' Heq1 Heq2 Hlen Ht; try done; simpl in Heq1, Heq2. injection Heq1 as <- ->. rewrite ticks_cons in Ht. simpl in Ht. lia.
      + destruct Ho as (Hp1 & Hl & Hg). destruct (IH w1 w2 rs2 e id (n - 1) Hw1 Hp1 Hno2 Hr) as [IH1 IH2]. pose proof (pe_n _ _ _ _ Hp). split.
        * intros [|o a] b [|r' ra] rb l' Heq1 Heq2 Hlen k; try done; simpl in Heq1, Heq2.
          -- injection Heq2 as -> _. unfold ticks. simpl. split; [by intros ?%Hl|lia].
          -- injection Heq1 as <- ->. injection Heq2 as <- ->. rewrite ticks_cons. simpl in *. 
             rewrite (IH1 a b ra rb l') by (done || lia). rewrite Hg. split; intros (? & ? & ? & Hc); repeat split; try done; try lia.
             ++ intros [?|?]; done.
             ++ intros ?. apply Hc. by right.
        * intros [|o a] b [|r' ra] rb d x id' Heq1 Heq2 Hlen Ht; try done; simpl in Heq1, Heq2. injection Heq1 as <- ->. injection Heq2 as <- ->.
          rewrite ticks_cons in Ht. simpl in *. eapply (IH2 a b ra rb); try done; lia.
    - destruct Ho as (id' & -> & Hid & Hp1 & Hg). destruct (IH w1 w2 rs2 e id n Hw1 Hp1 Hno2 Hr) as [IH1 IH2]. split.
      + intros [|o a] b [|r' ra] rb l' Heq1 Heq2 Hlen k; try done; simpl in Heq1, Heq2.
        injection Heq1 as <- ->. injection Heq2 as <- ->. rewrite ticks_cons. simpl in *. 
        rewrite (IH1 a b ra rb l') by (done || lia). rewrite Hg. split; intros (? & ? & ? & Hc); repeat split; try done.
        * intros [?|?]; done.
        * intros ?. apply Hc. by right.
      + intros [|o a] b [|r' ra] rb d y id2 Heq1 Heq2 Hlen Ht; try done; simpl in Heq1, Heq2.
        * by injection Heq2 as -> _.
        * injection Heq1 as <- ->. injection Heq2 as <- ->. rewrite ticks_cons in Ht. simpl in *. eapply (IH2 a b ra rb); try done; lia.
    - destruct Ho as (-> & Hp1 & Hg). destruct (IH w1 w2 rs2 e id n Hw1 Hp1 Hno2 Hr) as [IH1 IH2]. split.
      + intros [|o a] b [|r' ra] rb l' Heq1 Heq2 Hlen k; try done; simpl in Heq1, Heq2.
        injection Heq1 as <- ->. injection Heq2 as <- ->. rewrite ticks_cons. simpl in *. 
        rewrite (IH1 a b ra rb l') by (done || lia). rewrite Hg. destruct (decide (id' = id)) as [->|Hne].
        * split; [by intros (_ & _ & ? & _)|]. intros (_ & _ & _ & Hc). exfalso. apply Hc. by left.
        * split; intros (? & ? & ? & Hc); repeat split; try done.
          -- intros [[= ?]|?]; done.
          -- intros ?. apply Hc. by right.
      + intros [|o a] b [|r' ra] rb d y id2 Heq1 Heq2 Hlen Ht; try done; simpl in Heq1, Heq2.
        injection Heq1 as <- ->. injection Heq2 as <- ->. rewrite ticks_cons in Ht. simpl in *. eapply (IH2 a b ra rb); try done; lia.
  Qed.

  Lemma wheel_new_wf d e : wwf (wheel_new d) /\ absent (wheel_new d) e.
  Proof.
    split; [split; [done|]|].
    - intros i m H. simpl in H. by rewrite lookup_empty in H.
    - intros i k H. unfold w_get in H. simpl in H. by rewrite lookup_empty in H.
  Qed.

  Lemma insert_pending w dur e w' id : wwf w -> absent w e -> insert w dur e = Some (w', id) ->
    wwf w' /\ pending w' e id (due (w_duration w) dur) /\ w_get w' (id_slot id) (id_key id) = Some e.
  Proof.
    intros Hw Ha Hi. destruct (insert_spec w dur e w' id Hw Hi) as (H1 & H2 & H3 & H4 & H5 & H6 & H7 & H8 & H9 & H10).
    split; [done|]. split; [|done]. pose proof (mod_lt (((NUM_SLOTS * dur) mod U64) / w_duration w)%N) as Hlt.
    change (steps_ahead (w_duration w) dur < 256)%N in Hlt. unfold due.
    split.
    - destruct (N.eqb_spec (steps_ahead (w_duration w) dur) 0); lia.
    - rewrite H4, H3. destruct (N.eqb_spec (steps_ahead (w_duration w) dur) 0) as [->|].
      + change (N.of_nat 256) with (1 * NUM_SLOTS)%N. by rewrite N.mod_add, N.add_0_r.
      + by rewrite N2Nat.id.
    - done.
    - intros i k Hg. destruct (decide ((i, k) = (id_slot id, id_key id))) as [Heq|Hne]; [by injection Heq|].
      rewrite H9 in Hg by done. by apply Ha in Hg.
  Qed.

  Lemma wrun_app ops1 : forall w ops2 w' rs, wrun w (ops1 ++ ops2) = Some (w', rs) ->
    exists w1 rs1 rs2, wrun w ops1 = Some (w1, rs1) /\ wrun w1 ops2 = Some (w', rs2) /\ rs = rs1 ++ rs2 /\ length rs1 = length ops1.
  Proof.
    induction ops1 as [|o ops1 IH]; intros w ops2 w' rs H; simpl in H; [by exists w, [], rs|].
    destruct (wstep w o) as [[w1 r]|] eqn:Hs; [|done]. destruct (wrun w1 (ops1 ++ ops2)) as [[w2 rs2]|] eqn:Hr; [|done]. injection H as <- <-.
    destruct (IH _ _ _ _ Hr) as (w3 & rs3 & rs4 & H1 & H2 & -> & H3). exists w3, (r :: rs3), rs4.
    simpl. rewrite Hs, H1. repeat split; try done. by rewrite H3.
  Qed.

  Lemma split_same {A} (l1 l2 l1' l2' : list A) : l1 ++ l2 = l1' ++ l2' -> length l1 = length l1' -> l1 = l1' /\ l2 = l2'.
  Proof. intros H Hl. by apply app_inj_1. Qed.

  (** The whole history of one entry. *)
  Lemma timer_history d ops1 dur e ops2 w rs1 id rs2 :
    wrun (wheel_new d) (ops1 ++ OInsert dur e :: ops2) = Some (w, rs1 ++ RInsert id :: rs2) -> length rs1 = length ops1 ->
    not_inserted e (ops1 ++ ops2) ->
    (forall l k, In (RTick l) rs1 -> ~ In (k, e) l) /\
    (forall a b ra rb l, ops2 = a ++ OTick :: b -> rs2 = ra ++ RTick l :: rb -> length ra = length a ->
       forall k, In (k, e) l <-> k = id_key id /\ ticks a + 1 = due d dur /\ ~ In (OCancel id) a) /\
    (forall a b ra rb dur' x id', ops2 = a ++ OInsert dur' x :: b -> rs2 = ra ++ RInsert id' :: rb -> length ra = length a -> 
       ticks a < due d dur -> id' <> id).
  Proof.
    intros Hrun Hlen Hno. apply wrun_app in Hrun as (w1 & r1 & r2 & H1 & H2 & Heq & Hl).
    apply split_same in Heq as [<- <-]; [|lia]. cbn [wrun] in H2.
    destruct (wstep w1 (OInsert dur e)) as [[w2 r]|] eqn:Hs; [|done]. destruct (wrun w2 ops2) as [[w3 rs3]|] eqn:Hr; [|done].
    injection H2 as -> -> ->. cbn [wstep] in Hs. destruct (insert w1 dur e) as [[w2' id']|] eqn:Hi; [|done]. injection Hs as -> ->.
    destruct (wheel_new_wf d e) as [Hw Ha].
    assert (not_inserted e ops1) as Hno1 by (intros y Hy; apply (Hno y); apply in_app_iff; by left).
    assert (not_inserted e ops2) as Hno2 by (intros y Hy; apply (Hno y); apply in_app_iff; by right).
    destruct (absent_run ops1 _ _ _ e Hw Ha Hno1 H1) as (Hw1 & Ha1 & Hd & Hl1).
    destruct (insert_pending _ _ _ _ _ Hw1 Ha1 Hi) as (Hw2 & Hp & Hg). rewrite Hd in Hp. simpl in Hp.
    destruct (pending_run ops2 _ _ _ e id _ Hw2 Hp Hno2 Hr) as [P1 P2].
    split; [done|]. split; [|done]. intros a b ra rb l E1 E2 E3 k. rewrite (P1 a b ra rb l E1 E2 E3 k). tauto.
  Qed.

  (** Keys in one tick are distinct. *)
  Lemma tick_distinct ops : forall w w' rs l, wwf w -> wrun w ops = Some (w', rs) -> In (RTick l) rs -> NoDup (map fst l).
  Proof.
    induction ops as [|o ops IH]; intros w w' rs l Hw Hrun Hin; simpl in Hrun; [by injection Hrun as <- <-|].
    destruct (wstep w o) as [[w1 r]|] eqn:Hs; [|done]. destruct (wrun w1 ops) as [[w2 rs2]|] eqn:Hr; [|done]. injection Hrun as <- <-.
    destruct o as [|dur x|id]; cbn [wstep] in Hs.
    - destruct (tick w) as [w1' l'] eqn:Ht. injection Hs as <- <-.
      destruct (tick_spec w w1' l' Hw Ht) as (H1 & H2 & H3 & H4 & _). destruct Hin as [[= ->]|Hin]; [done|by eapply IH].
    - destruct (insert w dur x) as [[w1' id]|] eqn:Hi; [|done]. injection Hs as <- <-.
      destruct (insert_spec w dur x w1' id Hw Hi) as (H1 & _). destruct Hin as [|Hin]; [done|by eapply IH].
    - injection Hs as <- <-. destruct (cancel_spec w id Hw) as (H1 & _). destruct Hin as [|Hin]; [done|by eapply IH].
  Qed.
End proofs.
