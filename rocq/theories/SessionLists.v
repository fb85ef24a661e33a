(** Lists of log records: properties of all ordered pairs, splitting, statuses. *)
From Verif Require Export SessionSpec LogProofs SnapshotProofs ExecProofs AddProofs SchedResult.

Lemma app_split {A} (es new l1 l2 : list A) x :
  es ++ new = l1 ++ x :: l2 ->
  (exists l2', es = l1 ++ x :: l2' /\ l2 = l2' ++ new) \/
  (exists n1, new = n1 ++ x :: l2 /\ l1 = es ++ n1).
Proof.
  revert l1. induction es as [|e es IH]; intros l1 H; simpl in *.
  - right. exists l1. done.
  - destruct l1 as [|y l1]; simpl in H; injection H as -> H.
    + left. exists es. done.
    + apply IH in H as [(l2' & -> & ->)|(n1 & -> & ->)]; [left|right]; eauto.
Qed.

(** All ordered pairs of records, with what is between them. *)
Definition pairs (R : log_entry -> list log_entry -> log_entry -> Prop) (es : list log_entry) : Prop :=
  forall l1 x l2 y l3, es = l1 ++ x :: l2 ++ y :: l3 -> R x l2 y.

Lemma pairs_prefix R es new : pairs R (es ++ new) -> pairs R es.
Proof.
  intros H l1 x l2 y l3 ->. apply (H l1 x l2 y (l3 ++ new)). by rewrite <- List.app_assoc, <- app_comm_cons, <- List.app_assoc.
Qed.

Lemma pairs_app R es new :
  pairs R es -> pairs R new ->
  (forall e1 x e2 n1 y n2, es = e1 ++ x :: e2 -> new = n1 ++ y :: n2 -> R x (e2 ++ n1) y) ->
  pairs R (es ++ new).
Proof.
  intros He Hn Hx l1 x l2 y l3 H. apply app_split in H as [(l2' & -> & H)|(n1 & -> & ->)].
  - symmetry in H. apply app_split in H as [(m & -> & ->)|(n1 & -> & ->)].
    + by apply (He l1 x l2 y m).
    + by apply (Hx l1 x l2' n1 y l3).
  - by apply (Hn n1 x l2 y l3).
Qed.

Lemma has_header_app_l l1 l2 : has_header l1 -> has_header (l1 ++ l2).
Proof. intros [h Hh]. exists h. apply in_app_iff. by left. Qed.
Lemma has_header_app_r l1 l2 : has_header l2 -> has_header (l1 ++ l2).
Proof. intros [h Hh]. exists h. apply in_app_iff. by right. Qed.
Lemma has_header_cons h l : has_header (Header h :: l).
Proof. exists h. by left. Qed.
Lemma has_header_app l1 l2 : has_header (l1 ++ l2) -> has_header l1 \/ has_header l2.
Proof. intros [h Hh]. apply in_app_iff in Hh as [|]; [left|right]; by exists h. Qed.

(** What a prefix of a log that ends with [Header hd :: seg] looks like. *)
Lemma seg_split older hd seg l1 x l2 :
  older ++ Header hd :: seg = l1 ++ x :: l2 -> ~ has_header l2 -> ~ (exists h, x = Header h) ->
  exists s1, seg = s1 ++ x :: l2 /\ l1 = older ++ Header hd :: s1.
Proof.
  intros H Hn Hx. apply app_split in H as [(l2' & -> & ->)|(n1 & H & ->)].
  - exfalso. apply Hn, has_header_app_r, has_header_cons.
  - destruct n1 as [|y n1]; simpl in H; injection H as H1 H.
    + exfalso. apply Hx. by exists hd.
    + subst. exists n1. done.
Qed.

Lemma no_record_sub k e1 x e2 : no_record k (e1 ++ x :: e2) -> no_record k e1 /\ record_of k x = None /\ no_record k e2.
Proof.
  intros H. split_and!; [intros e He|apply H|intros e He]; try apply H; apply in_app_iff; simpl; auto.
Qed.

(** ** Started attempts and statuses *)
Lemma record_of_entry_key k e x : record_of k e = Some x -> entry_key e = Some k.
Proof. destruct e; simpl; try done; case_match; try done; intros _; f_equal; by apply String.eqb_eq. Qed.

Lemma no_rec_started k l a s b : no_record k l -> l = a ++ Started s :: b -> s_key s = k -> False.
Proof.
  intros H -> Hs. apply no_record_sub in H as (_ & H & _). rewrite record_of_started in H; done.
Qed.
Lemma no_rec_ready k l a r b : no_record k l -> l = a ++ Ready r :: b -> r_key r = k -> False.
Proof.
  intros H -> Hs. apply no_record_sub in H as (_ & H & _). rewrite record_of_ready in H; done.
Qed.

Lemma last_ready_unique k p r m p1 r1 m1 :
  p ++ Ready r :: m = p1 ++ Ready r1 :: m1 -> no_record k m -> no_record k m1 ->
  r_key r = k -> r_key r1 = k -> p = p1 /\ r = r1 /\ m = m1.
Proof.
  intros H Hm Hm1 Hr Hr1. apply app_split in H as [(l2' & -> & ->)|(n1 & H & ->)].
  - exfalso. eapply no_rec_ready; [exact Hm1|done|exact Hr].
  - destruct n1 as [|x n1]; simpl in H; injection H as H1 H.
    + subst. rewrite app_nil_r. done.
    + exfalso. eapply no_rec_ready; [exact Hm|exact H|exact Hr1].
Qed.

Lemma started_below_helper k es pre r mid s' post l1 r1 l2 s l3 :
  counts_increase k es -> es = pre ++ Ready r :: mid ++ Started s' :: post ->
  r_key r = k -> no_record k mid -> s_key s' = k -> (forall s, In (Started s) post -> s_key s <> k) ->
  es = l1 ++ Ready r1 :: l2 ++ Started s :: l3 -> r_key r1 = k -> no_record k l2 -> s_key s = k ->
  (r_runcount r1 <= r_runcount r)%N.
Proof.
  intros Hc He Hr Hmid Hs' Hpost He1 Hr1 Hl2 Hs. pose proof He1 as He2.
  replace (l1 ++ Ready r1 :: l2 ++ Started s :: l3) with ((l1 ++ Ready r1 :: l2) ++ Started s :: l3) in He1
    by (by rewrite <- List.app_assoc).
  rewrite He in He1. apply app_split in He1 as [(l' & Hp & Hl3)|(n1 & Hn & HL)].
  - apply N.lt_le_incl. subst l3. eapply Hc; [exact He2|done..].
  - destruct n1 as [|x n1]; simpl in Hn; [done|]. injection Hn as <- Hn.
    apply app_split in Hn as [(l2' & Hm & _)|(n2 & Hn & Hn1)].
    + exfalso. eapply (no_rec_started k); [exact Hmid|exact Hm|exact Hs].
    + destruct n2 as [|x n2]; simpl in Hn; injection Hn as Hx Hn.
      * rewrite app_nil_r in Hn1. subst n1. symmetry in HL.
        apply (last_ready_unique k) in HL as (_ & -> & _); done.
      * exfalso. apply (Hpost s); [|done]. rewrite Hn. apply in_app_iff. right. by left.
Qed.

Lemma started_below k es o l1 r1 l2 s l3 :
  counts_increase k es -> status_in es k o ->
  (forall c sr, o <> Some (RFinished c sr true)) ->
  es = l1 ++ Ready r1 :: l2 ++ Started s :: l3 -> r_key r1 = k -> no_record k l2 -> s_key s = k ->
  (r_runcount r1 < next_runcount o)%N.
Proof.
  intros Hc Hst Hns He Hr1 Hl2 Hs. destruct o as [[c sr|c sr|c sr ok]|]; simpl in Hst |- *.
  - destruct Hst as (pre & r & post & He' & Hr & <- & _ & Hpost). pose proof He as He1.
    replace (l1 ++ Ready r1 :: l2 ++ Started s :: l3) with ((l1 ++ Ready r1 :: l2) ++ Started s :: l3) in He1
      by (by rewrite <- List.app_assoc).
    rewrite He' in He1. apply app_split in He1 as [(l' & Hp & Hl3)|(n1 & Hn & HL)].
    + subst l3. eapply Hc; [exact He|done..].
    + exfalso. destruct n1 as [|x n1]; simpl in Hn; [done|]. injection Hn as <- Hn. eapply (no_rec_started k); [exact Hpost|exact Hn|exact Hs].
  - destruct Hst as (pre & r & mid & s' & post & He' & Hr & <- & _ & Hmid & Hs' & Hpost).
    cut (r_runcount r1 <= r_runcount r)%N; [lia|].
    eapply (started_below_helper k es pre r mid s' post l1 r1 l2 s l3); try done.
    intros s0 Hin Hk. apply Hpost in Hin. rewrite record_of_started in Hin; done.
  - destruct Hst as (pre & r & mid & s' & mid' & f & post & He' & Hr & <- & _ & Hmid & Hs' & Hmid' & Hf & Hok & Hpost).
    destruct ok; [by destruct (Hns (r_runcount r) sr)|].
    cut (r_runcount r1 <= r_runcount r)%N; [lia|].
    eapply (started_below_helper k es pre r mid s' (mid' ++ Finished f :: post) l1 r1 l2 s l3); try done.
    intros s0 Hin Hk. apply in_app_iff in Hin as [Hin|[Hin|Hin]]; [apply Hmid' in Hin|done|apply Hpost in Hin];
      (rewrite record_of_started in Hin; done).
  - exfalso. rewrite He in Hst. apply no_record_sub in Hst as (_ & H & _). rewrite record_of_ready in H; done.
Qed.

Lemma counts_increase_prefix k es new : counts_increase k (es ++ new) -> counts_increase k es.
Proof.
  intros H l1 r1 l2 s l3 r2 l4 -> . apply (H l1 r1 l2 s l3 r2 (l4 ++ new)).
  rewrite <- ?List.app_assoc, <- ?app_comm_cons, <- ?List.app_assoc, <- ?app_comm_cons, <- ?List.app_assoc, <- ?app_comm_cons, <- ?List.app_assoc. done.
Qed.

Lemma ready_once_pairs k es :
  ready_once k es <-> pairs (fun x l y => match x, y with
     Ready r, Ready r' => r_key r = k -> r_key r' = k -> has_header l | _, _ => True end) es.
Proof.
  split.
  - intros H l1 x l2 y l3 He. destruct x, y; try done. by apply (H l1 r l2 r0 l3).
  - intros H l1 r l2 r' l3 He. apply (H _ _ _ _ _ He).
Qed.

Lemma ready_once_prefix k es new : ready_once k (es ++ new) -> ready_once k es.
Proof. rewrite !ready_once_pairs. apply pairs_prefix. Qed.

(** [no_record] of a prefix of new records up to their first Ready. *)
Lemma history_first_ready k new n1 r n2 :
  history k new ∈ [[]; [KReady]; [KReady; KStarted]; [KReady; KStarted; KFinished]] ->
  new = n1 ++ Ready r :: n2 -> r_key r = k -> no_record k n1.
Proof.
  intros H -> Hr. rewrite history_app, history_cons, record_of_ready in H by done. apply no_record_history.
  rewrite !elem_of_cons, elem_of_nil in H.
  destruct (history k n1) as [|x [|y [|z l]]] eqn:E; [done|exfalso..];
    simpl in H; destruct_or! H; try done; injection H; try done; by destruct l.
Qed.

(** Appending the records of one execute() or of get_subgraph. *)
Lemma counts_increase_app k es new o :
  counts_increase k es -> status_in es k o ->
  history k new ∈ [[]; [KReady]; [KReady; KStarted]; [KReady; KStarted; KFinished]] ->
  (forall r, In (Ready r) new -> r_key r = k ->
     r_runcount r = next_runcount o /\ forall c sr, o <> Some (RFinished c sr true)) ->
  counts_increase k (es ++ new).
Proof.
  intros Hc Hst Hh Hn l1 r1 l2 s l3 r2 l4 He Hr1 Hl2 Hs Hr2.
  replace (l1 ++ Ready r1 :: l2 ++ Started s :: l3 ++ Ready r2 :: l4) with
    ((l1 ++ Ready r1 :: l2 ++ Started s :: l3) ++ Ready r2 :: l4) in He
    by (rewrite <- ?List.app_assoc, <- ?app_comm_cons, <- ?List.app_assoc, <- ?app_comm_cons, <- ?List.app_assoc, <- ?app_comm_cons, <- ?List.app_assoc; done).
  apply app_split in He as [(l2' & He & _)|(n1 & He & HL)].
  - eapply (Hc l1 r1 l2 s l3 r2 l2'); try done. rewrite He. rewrite <- ?List.app_assoc, <- ?app_comm_cons, <- ?List.app_assoc, <- ?app_comm_cons, <- ?List.app_assoc, <- ?app_comm_cons, <- ?List.app_assoc. done.
  - assert (In (Ready r2) new) as Hin. { rewrite He. apply in_app_iff. right. by left. }
    destruct (Hn _ Hin Hr2) as [-> Hns].
    pose proof (history_first_ready _ _ _ _ _ Hh He Hr2) as Hn1.
    replace (l1 ++ Ready r1 :: l2 ++ Started s :: l3) with ((l1 ++ Ready r1 :: l2) ++ Started s :: l3) in HL
      by (by rewrite <- List.app_assoc).
    symmetry in HL. apply app_split in HL as [(l2' & HL & _)|(n0 & HL & _)].
    + eapply (started_below k es o l1 r1 l2 s l2'); [exact Hc|exact Hst|exact Hns| |exact Hr1|exact Hl2|exact Hs].
      rewrite HL. rewrite <- ?List.app_assoc, <- ?app_comm_cons, <- ?List.app_assoc, <- ?app_comm_cons, <- ?List.app_assoc, <- ?app_comm_cons, <- ?List.app_assoc. done.
    + exfalso. eapply (no_rec_started k); [exact Hn1|exact HL|exact Hs].
Qed.
