(** Proofs about the snapshot reader read_current_and_outdated. *)
From Verif Require Import LogModel LogSpec LogProofs.

Lemma existsb_eqb_In k ks : existsb (String.eqb k) ks = true <-> In k ks.
Proof.
  rewrite existsb_exists. split.
  - intros (x & Hx & He). by apply String.eqb_eq in He as ->.
  - intros H. exists k. split; [done|]. apply String.eqb_refl.
Qed.

Lemma without_backrefs_app es1 es2 :
  without_backrefs (es1 ++ es2) = without_backrefs es1 ++ without_backrefs es2.
Proof. apply List.filter_app. Qed.

Lemma backref_keys_app es1 es2 : backref_keys (es1 ++ es2) = backref_keys es1 ++ backref_keys es2.
Proof. apply omap_app. Qed.

Lemma segment_length es : length (without_backrefs es) + length (backref_keys es) = length es.
Proof. induction es as [|[h|r|s|f|b] es IH]; simpl in *; lia. Qed.

Lemma read_last_segment_spec seg tail cur pend :
  (forall e, In e seg -> ~ is_header e) ->
  read_last_segment (rev seg ++ tail) cur pend =
  read_last_segment tail (cur ++ rev (without_backrefs seg)) (list_to_set (backref_keys seg) ∪ pend).
Proof.
  revert cur pend. induction seg as [|x seg IH] using rev_ind; intros cur pend Hh.
  - simpl. by rewrite app_nil_r, (left_id_L ∅ (∪)).
  - rewrite rev_unit. simpl.
    assert (forall e, In e seg -> ~ is_header e) as Hh'.
    { intros e He. apply Hh. apply in_app_iff. by left. }
    assert (~ is_header x) as Hx. { apply Hh. apply in_app_iff. right. by left. }
    rewrite without_backrefs_app, backref_keys_app, rev_app_distr.
    destruct x as [h|r|s|f|b]; simpl.
    + exfalso. apply Hx. by exists h.
    + rewrite IH by done. f_equal; [by rewrite <- List.app_assoc|]. rewrite app_nil_r. done.
    + rewrite IH by done. f_equal; [by rewrite <- List.app_assoc|]. rewrite app_nil_r. done.
    + rewrite IH by done. f_equal; [by rewrite <- List.app_assoc|]. rewrite app_nil_r. done.
    + rewrite IH by done. f_equal. rewrite list_to_set_app_L. simpl. set_solver.
Qed.

(** in_latest_attempt depends on the keys only as a set. *)
Lemma existsb_ext_In k ks ks' : (In k ks <-> In k ks') ->
  existsb (String.eqb k) ks = existsb (String.eqb k) ks'.
Proof. intros H. apply eq_iff_eq_true. by rewrite !existsb_eqb_In. Qed.

Definition key_removed (x : log_entry) (ks : list string) : list string :=
  match x with
  | Ready r => List.filter (fun k => negb (String.eqb (r_key r) k)) ks
  | _ => ks
  end.

Lemma in_latest_attempt_snoc ks y later x :
  in_latest_attempt ks y (later ++ [x]) = in_latest_attempt (key_removed x ks) y later.
Proof.
  unfold in_latest_attempt. destruct y as [h|r|s|f|b]; try done; simpl;
    rewrite existsb_app; simpl; rewrite orb_false_r.
  all: destruct x as [h'|r'|s'|f'|b']; simpl; rewrite ?orb_false_r; try done.
  all: rewrite negb_orb, (andb_comm (negb (existsb _ later))), andb_assoc; f_equal.
  all: apply eq_iff_eq_true; rewrite andb_true_iff, negb_true_iff, !existsb_eqb_In, filter_In, negb_true_iff; tauto.
Qed.

Lemma latest_attempts_snoc ks es x :
  latest_attempts ks (es ++ [x]) =
  latest_attempts (key_removed x ks) es ++ (if in_latest_attempt ks x [] then [x] else []).
Proof.
  induction es as [|y es IH]; simpl.
  - done.
  - rewrite in_latest_attempt_snoc, IH. by destruct (in_latest_attempt _ y es).
Qed.

Lemma superseded_snoc ks es x :
  superseded ks (es ++ [x]) =
  superseded (key_removed x ks) es ++ (if in_latest_attempt ks x [] then [] else [x]).
Proof.
  induction es as [|y es IH]; simpl.
  - done.
  - rewrite in_latest_attempt_snoc, IH. by destruct (in_latest_attempt _ y es).
Qed.

Lemma in_latest_attempt_nil ks x later : ks = [] -> in_latest_attempt ks x later = false.
Proof. intros ->. by destruct x. Qed.

Lemma latest_attempts_nil es : latest_attempts [] es = [].
Proof. induction es as [|x es IH]; simpl; [done|]. by rewrite in_latest_attempt_nil. Qed.

Lemma superseded_nil es : superseded [] es = es.
Proof. induction es as [|x es IH]; simpl; [done|]. rewrite in_latest_attempt_nil by done. by rewrite IH. Qed.

Lemma read_backrefs_spec es cur out (P : gset string) ks :
  (forall k, k ∈ P <-> In k ks) ->
  exists o' rest, read_backrefs (rev es) cur out P = (cur ++ rev (latest_attempts ks es), o', rest) /\
    o' ++ rest = out ++ rev (superseded ks es).
Proof.
  revert cur out P ks. induction es as [|x es IH] using rev_ind; intros cur out P ks HP.
  - simpl. rewrite !app_nil_r. eexists _, _. split; [done|]. by rewrite app_nil_r.
  - rewrite rev_unit. cbn [read_backrefs].
    rewrite latest_attempts_snoc, superseded_snoc, !rev_app_distr.
    set (P' := match x with Ready v => if decide (r_key v ∈ P) then P ∖ {[r_key v]} else P | _ => P end).
    assert (forall k, k ∈ P' <-> In k (key_removed x ks)) as HP'.
    { intros k. unfold P', key_removed. destruct x as [h|r|s|f|b]; auto.
      rewrite filter_In, negb_true_iff, String.eqb_neq, <- HP.
      destruct (decide (r_key r ∈ P)); [set_solver|]. split; [|tauto].
      intros Hk. split; [done|]. intros <-. done. }
    assert (match x with
        | Ready v => if decide (r_key v ∈ P)
            then (cur ++ [x], out, P ∖ {[ r_key v ]}) else (cur, out ++ [x], P)
        | Started v => if decide (s_key v ∈ P) then (cur ++ [x], out, P) else (cur, out ++ [x], P)
        | Finished v => if decide (f_key v ∈ P) then (cur ++ [x], out, P) else (cur, out ++ [x], P)
        | _ => (cur, out ++ [x], P)
        end = if in_latest_attempt ks x [] then (cur ++ [x], out, P') else (cur, out ++ [x], P')) as Hx.
    { assert (forall k, existsb (String.eqb k) ks = bool_decide (k ∈ P)) as Hb.
      { intros k. apply eq_iff_eq_true. by rewrite existsb_eqb_In, bool_decide_eq_true, HP. }
      unfold P'. destruct x as [h|r|s|f|b]; simpl; try done;
        rewrite Hb, andb_true_r; case_decide; case_bool_decide; done. }
    rewrite Hx. clear Hx.
    destruct (in_latest_attempt ks x []) eqn:Hin; destruct (decide (P' = ∅)) as [He|He].
    + assert (key_removed x ks = []) as Hk.
      { destruct (key_removed x ks) as [|k l]; [done|]. exfalso.
        assert (k ∈ P') by (apply HP'; by left). set_solver. }
      rewrite Hk, latest_attempts_nil, superseded_nil. simpl. eexists _, _. split; [done|]. done.
    + destruct (IH (cur ++ [x]) out P' _ HP') as (o' & rest & -> & Ho).
      eexists _, _. split; [by rewrite <- List.app_assoc|]. done.
    + assert (key_removed x ks = []) as Hk.
      { destruct (key_removed x ks) as [|k l]; [done|]. exfalso.
        assert (k ∈ P') by (apply HP'; by left). set_solver. }
      rewrite Hk, latest_attempts_nil, superseded_nil. simpl. rewrite app_nil_r.
      eexists _, _. split; [done|]. by rewrite <- List.app_assoc.
    + destruct (IH cur (out ++ [x]) P' _ HP') as (o' & rest & -> & Ho).
      eexists _, _. split; [done|]. rewrite Ho, <- List.app_assoc. done.
Qed.

Lemma latest_superseded_length ks es :
  length (latest_attempts ks es) + length (superseded ks es) = length es.
Proof.
  induction es as [|x es IH]; simpl; [done|].
  destruct (in_latest_attempt ks x es); simpl; lia.
Qed.

Lemma last_segment_exists es : exists older hd seg, last_segment es older hd seg.
Proof.
  induction es as [|x es IH] using rev_ind.
  - exists [], None, []. split; [intros e []|done].
  - assert ({is_header x} + {~ is_header x}) as [Hx|Hx].
    { destruct x as [h|r|s|f|b]; [left; by exists h|right; by intros [? ?]..]. }
    + exists es, (Some x), []. split; [intros e []|done].
    + destruct IH as (older & hd & seg & Hh & Hd). exists older, hd, (seg ++ [x]). split.
      * intros e He. apply in_app_iff in He as [He|[<-|[]]]; auto.
      * destruct hd as [h|]; destruct Hd as [Hd ->]; split; try done.
        by rewrite <- List.app_assoc.
Qed.

Lemma size_list_to_set_NoDup (l : list string) :
  size (list_to_set l : gset string) = length l <-> NoDup l.
Proof.
  split.
  - induction l as [|x l IH]; simpl; [constructor|]. intros Hs.
    assert (size (list_to_set l : gset string) <= length l) as Hle.
    { clear. induction l as [|x l IH]; simpl; [done|].
      destruct (decide (x ∈ (list_to_set l : gset string))) as [Hx|Hx].
      - assert ({[x]} ∪ list_to_set l = (list_to_set l : gset string)) as -> by set_solver. lia.
      - rewrite size_union by set_solver. rewrite size_singleton. lia. }
    destruct (decide (x ∈ (list_to_set l : gset string))) as [Hx|Hx].
    + assert ({[x]} ∪ list_to_set l = (list_to_set l : gset string)) as E by set_solver.
      rewrite E in Hs. lia.
    + rewrite size_union, size_singleton in Hs by set_solver. constructor.
      * set_solver.
      * apply IH. lia.
  - induction 1 as [|x l Hx Hl IH]; simpl; [done|].
    rewrite size_union, size_singleton, IH; [done|].
    set_solver.
Qed.

Lemma filter_outdated_spec cur out :
  filter_outdated (list_to_set (omap entry_key cur)) out =
  List.filter (fun x => negb (has_key_of cur x)) out.
Proof.
  unfold filter_outdated. apply filter_ext. intros x. unfold has_key_of.
  destruct (entry_key x) as [k|]; [|done]. f_equal. apply eq_iff_eq_true.
  rewrite bool_decide_eq_true, existsb_exists, elem_of_list_to_set, elem_of_list_omap. split.
  - intros (y & Hy & Hk). exists y. rewrite <- elem_of_list_In. split; [done|].
    rewrite Hk. apply String.eqb_refl.
  - intros (y & Hy & Hk). exists y. rewrite elem_of_list_In. split; [done|].
    destruct (entry_key y) as [k'|]; [|done]. by apply String.eqb_eq in Hk as ->.
Qed.

Lemma read_spec es older hd seg :
  last_segment es older hd seg ->
  let ks := backref_keys seg in
  let cur := head_of hd ++ latest_attempts ks older ++ without_backrefs seg in
  read_current_and_outdated es =
  if decide (NoDup ks) then
    Some (cur, List.filter (fun x => negb (has_key_of cur x)) (superseded ks older))
  else None.
Proof.
  intros [Hh Hd] ks cur0. unfold read_current_and_outdated.
  assert (rev es = rev seg ++ head_of hd ++ rev older) as Hrev.
  { destruct hd as [h|]; destruct Hd as [Hd ->].
    - rewrite rev_app_distr. simpl. by rewrite <- List.app_assoc.
    - subst older. simpl. by rewrite app_nil_r. }
  rewrite Hrev, read_last_segment_spec by done.
  rewrite (right_id_L ∅ (∪)). simpl.
  assert (read_last_segment (head_of hd ++ rev older) (rev (without_backrefs seg))
     (list_to_set (backref_keys seg)) =
     (hd, rev (without_backrefs seg), list_to_set (backref_keys seg), rev older)) as ->.
  { destruct hd as [h|]; simpl.
    - destruct Hd as [[h0 ->] _]. done.
    - destruct Hd as [-> _]. done. }
  destruct (read_backrefs_spec older (rev (without_backrefs seg)) [] (list_to_set ks) ks) as
    (o' & rest & E & Ho).
  { intros k. by rewrite elem_of_list_to_set, elem_of_list_In. }
  fold ks. rewrite E. clear E. simpl in Ho.
  assert ((match hd with
     | Some h => (rev (without_backrefs seg) ++ rev (latest_attempts ks older)) ++ [h]
     | None => rev (without_backrefs seg) ++ rev (latest_attempts ks older)
     end) = rev cur0) as Hc.
  { unfold cur0, head_of. destruct hd as [h|]; rewrite !rev_app_distr; simpl; [done|].
    by rewrite app_nil_r. }
  rewrite Hc, Ho, !rev_involutive, filter_outdated_spec. clear Hc Ho.
  assert (length es = length older + length (head_of hd) + length seg) as Hlen.
  { rewrite <- (rev_length es), Hrev, !app_length, !rev_length. lia. }
  pose proof (latest_superseded_length ks older). pose proof (segment_length seg).
  pose proof (size_list_to_set_NoDup ks) as Hsz.
  assert (length cur0 = length (head_of hd) + length (latest_attempts ks older) + length (without_backrefs seg)) as Hcl.
  { unfold cur0. rewrite !app_length. lia. }
  assert ((length cur0 + length (superseded ks older) + size (list_to_set ks : gset string) = length es)
    <-> NoDup ks) as Hiff. { rewrite <- Hsz. unfold ks in *. lia. }
  destruct (Nat.eqb_spec (length cur0 + length (superseded ks older) + size (list_to_set ks : gset string)) (length es));
    destruct (decide (NoDup ks)); try done; exfalso; tauto.
Qed.

Lemma has_key_of_spec cur x : has_key_of cur x = true <-> shares_key x cur.
Proof.
  unfold has_key_of, shares_key. destruct (entry_key x) as [k|].
  - rewrite existsb_exists. split.
    + intros (y & Hy & Hk). destruct (entry_key y) as [k'|] eqn:Hk'; [|done].
      apply String.eqb_eq in Hk as ->. by exists k', y.
    + intros (k0 & y & Hk & Hy & Hk'). inversion Hk; subst. exists y. split; [done|].
      rewrite Hk'. apply String.eqb_refl.
  - split; [done|]. by intros (? & ? & ? & _).
Qed.

Lemma outdated_disjoint es cur out :
  read_current_and_outdated es = Some (cur, out) -> forall x, In x out -> ~ shares_key x cur.
Proof.
  destruct (last_segment_exists es) as (older & hd & seg & Hs).
  rewrite (read_spec _ _ _ _ Hs). case_decide; [|done]. intros E. inversion E; subst; clear E.
  intros x Hx Hsh. apply filter_In in Hx as [_ Hx]. apply has_key_of_spec in Hsh.
  by rewrite Hsh in Hx.
Qed.

Lemma latest_superseded_permutation ks es :
  Permutation (latest_attempts ks es ++ superseded ks es) es.
Proof.
  induction es as [|x es IH]; simpl; [done|].
  destruct (in_latest_attempt ks x es); simpl.
  - by constructor.
  - rewrite <- Permutation_middle. by constructor.
Qed.

(** Nothing is lost: a record of the log is in [cur], in [out], a Backref of the last
    session, or superseded by a current record of the same key. *)
Lemma read_loses_nothing es older hd seg cur out :
  last_segment es older hd seg ->
  read_current_and_outdated es = Some (cur, out) ->
  exists dropped, Permutation es (cur ++ out ++ dropped) /\
    forall x, In x dropped -> shares_key x cur \/ (is_backref x /\ In x seg).
Proof.
  intros Hs. rewrite (read_spec _ _ _ _ Hs). case_decide; [|done].
  set (ks := backref_keys seg) in *.
  set (c := head_of hd ++ latest_attempts ks older ++ without_backrefs seg).
  intros E. inversion E; subst; clear E.
  exists (List.filter (has_key_of c) (superseded ks older) ++
     List.filter (fun e => match e with Backref _ => true | _ => false end) seg). split.
  - assert (forall (f : log_entry -> bool) l,
      Permutation l (List.filter (fun x => negb (f x)) l ++ List.filter f l)) as Hp.
    { intros f l. induction l as [|x l IH]; simpl; [done|]. destruct (f x); simpl.
      - rewrite <- Permutation_middle. by constructor.
      - by constructor. }
    assert (Permutation es (head_of hd ++ older ++ seg)) as Hes.
    { destruct Hs as [_ Hs]. destruct hd as [h|]; destruct Hs as [Hs ->]; simpl.
      - by rewrite <- Permutation_middle.
      - by subst older. }
    pose proof (Hp (fun e => match e with Backref _ => true | _ => false end) seg) as P1.
    pose proof (latest_superseded_permutation ks older) as P2.
    pose proof (Hp (has_key_of c) (superseded ks older)) as P3.
    assert (List.filter (fun x => negb match x with Backref _ => true | _ => false end) seg
      = without_backrefs seg) as E1.
    { unfold without_backrefs. apply filter_ext. by intros []. }
    cbv beta in P1. rewrite E1 in P1. clear E1 Hp.
    revert P1 P3. change (c ++ ?x) with ((head_of hd ++ latest_attempts ks older ++ without_backrefs seg) ++ x).
    generalize (List.filter (fun x => negb (has_key_of c x)) (superseded ks older)) as A.
    generalize (List.filter (has_key_of c) (superseded ks older)) as B.
    generalize (List.filter (fun e => match e with Backref _ => true | _ => false end) seg) as C.
    intros C B A P1 P3. transitivity (head_of hd ++ (latest_attempts ks older ++ A ++ B) ++ without_backrefs seg ++ C).
    { rewrite Hes. apply Permutation_app_head. apply Permutation_app; [|exact P1].
      etransitivity; [symmetry; exact P2|]. by apply Permutation_app_head. }
    rewrite <- !List.app_assoc. do 2 apply Permutation_app_head.
    rewrite !List.app_assoc. apply Permutation_app_tail.
    rewrite <- !List.app_assoc. rewrite (Permutation_app_comm (without_backrefs seg)).
    by rewrite <- !List.app_assoc.
  - intros x Hx. apply in_app_iff in Hx as [Hx|Hx]; apply filter_In in Hx as [Hx Hx'].
    + left. by apply has_key_of_spec.
    + right. destruct x as [| | | |b]; try done. split; [by exists b|done].
Qed.

Lemma read_succeeds_iff es older hd seg :
  last_segment es older hd seg ->
  ((exists r, read_current_and_outdated es = Some r) <-> NoDup (backref_keys seg)).
Proof.
  intros Hs. rewrite (read_spec _ _ _ _ Hs). case_decide.
  - split; [done|]. intros _. eexists. done.
  - split; [by intros [? ?]|done].
Qed.

Lemma read_exact es older hd seg cur out :
  last_segment es older hd seg ->
  read_current_and_outdated es = Some (cur, out) ->
  cur = head_of hd ++ latest_attempts (backref_keys seg) older ++ without_backrefs seg /\
  out = List.filter (fun x => negb (has_key_of cur x)) (superseded (backref_keys seg) older).
Proof.
  intros Hs. rewrite (read_spec _ _ _ _ Hs). case_decide; [|done].
  intros E. inversion E; subst. done.
Qed.
