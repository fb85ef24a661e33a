From Verif Require Export PipeSpec.
Open Scope N_scope.

Lemma within_iff lo hi a : within lo hi a = true <-> lo <= code a <= hi.
Proof. unfold within. rewrite andb_true_iff, !N.leb_le. done. Qed.
Lemma within_false lo hi a : within lo hi a = false <-> code a < lo \/ hi < code a.
Proof. unfold within. rewrite andb_false_iff, !N.leb_gt. done. Qed.

Ltac wcase := repeat match goal with
  | H : context [if ?b then _ else _] |- _ => destruct b eqn:?
  | H : _ && _ = true |- _ => apply andb_true_iff in H as [? ?]
  end.
Ltac wfacts := repeat match goal with
  | H : within _ _ _ = true |- _ => apply within_iff in H
  | H : within _ _ _ = false |- _ => apply within_false in H
  | H : N.eqb _ _ = true |- _ => apply N.eqb_eq in H
  | H : N.eqb _ _ = false |- _ => apply N.eqb_neq in H
  | H : N.ltb _ _ = true |- _ => apply N.ltb_lt in H
  | H : N.ltb _ _ = false |- _ => apply N.ltb_ge in H
  end.
Ltac yes lo hi b := assert (within lo hi b = true) as -> by (apply within_iff; wfacts; lia).
Ltac no lo hi b := assert (within lo hi b = false) as -> by (apply within_false; wfacts; lia).

Lemma second3_spec b1 b2 : within 224 239 b1 = true -> second3 b1 b2 = true <->
  128 <= code b2 <= 191 /\ (code b1 = 224 -> 160 <= code b2) /\ (code b1 = 237 -> code b2 <= 159).
Proof.
  rewrite within_iff. intros H. unfold second3. destruct (N.eqb (code b1) 224) eqn:E1; [|destruct (N.eqb (code b1) 237) eqn:E2]; wfacts.
  - rewrite within_iff. lia.
  - rewrite within_iff. lia.
  - rewrite andb_true_iff, !within_iff. lia.
Qed.
Lemma second4_spec b1 b2 : within 240 244 b1 = true -> second4 b1 b2 = true <->
  128 <= code b2 <= 191 /\ (code b1 = 240 -> 144 <= code b2) /\ (code b1 = 244 -> code b2 <= 143).
Proof.
  rewrite within_iff. intros H. unfold second4. destruct (N.eqb (code b1) 240) eqn:E1; [|destruct (N.eqb (code b1) 244) eqn:E2]; wfacts.
  - rewrite within_iff. lia.
  - rewrite within_iff. lia.
  - rewrite andb_true_iff, !within_iff. lia.
Qed.

(** One valid character in front. *)
Inductive char : bytes -> Prop :=
| char1 b1 : code b1 < 128 -> char [b1]
| char2 b1 b2 : within 194 223 b1 = true -> within 128 191 b2 = true -> char [b1; b2]
| char3 b1 b2 b3 : within 224 239 b1 = true -> second3 b1 b2 = true -> within 128 191 b3 = true -> char [b1; b2; b3]
| char4 b1 b2 b3 b4 : within 240 244 b1 = true -> second4 b1 b2 = true -> within 128 191 b3 = true -> within 128 191 b4 = true -> char [b1; b2; b3; b4].

Lemma valid_char c r : char c -> utf8_valid (c ++ r) = utf8_valid r.
Proof.
  intros [b1 H|b1 b2 H1 H2|b1 b2 b3 H1 H2 H3|b1 b2 b3 b4 H1 H2 H3 H4]; cbn [app utf8_valid].
  - apply N.ltb_lt in H. by rewrite H.
  - assert (N.ltb (code b1) 128 = false) as -> by (apply N.ltb_ge; wfacts; lia). by rewrite H1, H2.
  - apply second3_spec in H2; [|done]. assert (N.ltb (code b1) 128 = false) as -> by (apply N.ltb_ge; wfacts; lia). no 194 223 b1. rewrite H3.
    destruct (N.eqb (code b1) 224) eqn:E1; [wfacts; by yes 160 191 b2|]. destruct (within 225 236 b1) eqn:E2; [by yes 128 191 b2|].
    destruct (N.eqb (code b1) 237) eqn:E3; [wfacts; by yes 128 159 b2|]. yes 238 239 b1. by yes 128 191 b2.
  - apply second4_spec in H2; [|done]. assert (N.ltb (code b1) 128 = false) as -> by (apply N.ltb_ge; wfacts; lia). no 194 223 b1.
    assert (N.eqb (code b1) 224 = false) as -> by (apply N.eqb_neq; wfacts; lia). no 225 236 b1.
    assert (N.eqb (code b1) 237 = false) as -> by (apply N.eqb_neq; wfacts; lia). no 238 239 b1. rewrite H3, H4.
    destruct (N.eqb (code b1) 240) eqn:E1; [wfacts; by yes 144 191 b2|]. destruct (within 241 243 b1) eqn:E2; [by yes 128 191 b2|].
    assert (N.eqb (code b1) 244 = true) as -> by (apply N.eqb_eq; wfacts; lia). wfacts. by yes 128 143 b2.
Qed.
Lemma lossy_char c r : char c -> lossy (c ++ r) = c ++ lossy r.
Proof.
  intros [b1 H|b1 b2 H1 H2|b1 b2 b3 H1 H2 H3|b1 b2 b3 b4 H1 H2 H3 H4]; cbn [app lossy].
  - apply N.ltb_lt in H. by rewrite H.
  - assert (N.ltb (code b1) 128 = false) as -> by (apply N.ltb_ge; wfacts; lia). by rewrite H1, H2.
  - assert (N.ltb (code b1) 128 = false) as -> by (apply N.ltb_ge; wfacts; lia). no 194 223 b1. by rewrite H1, H2, H3.
  - assert (N.ltb (code b1) 128 = false) as -> by (apply N.ltb_ge; wfacts; lia). no 194 223 b1. no 224 239 b1. by rewrite H1, H2, H3, H4.
Qed.
Lemma valid_first b : utf8_valid b = true -> b = [] \/ exists c r, b = c ++ r /\ char c /\ utf8_valid r = true.
Proof.
  destruct b as [|b1 r1]; [by left|]. intros H. right. cbn [utf8_valid] in H. destruct (N.ltb (code b1) 128) eqn:E1.
  { exists [b1], r1. wfacts. split; [done|]. split; [by constructor|done]. }
  destruct (within 194 223 b1) eqn:E2.
  { destruct r1 as [|b2 r2]; [done|]. apply andb_true_iff in H as [H1 H2]. exists [b1; b2], r2. split; [done|]. split; [by constructor|done]. }
  destruct r1 as [|b2 [|b3 r3]]; try done. destruct (within 224 239 b1) eqn:E3.
  { exists [b1; b2; b3], r3. split; [done|]. destruct (N.eqb (code b1) 224) eqn:F1; [|destruct (within 225 236 b1) eqn:F2; [|destruct (N.eqb (code b1) 237) eqn:F3; [|destruct (within 238 239 b1) eqn:F4; [|exfalso; wfacts; lia]]]];
      apply andb_true_iff in H as [H H3]; apply andb_true_iff in H as [H1 H2]; (split; [|done]); (constructor; [done| |done]); apply second3_spec; try done; wfacts; lia. }
  assert (N.eqb (code b1) 224 = false) as F1 by (apply N.eqb_neq; wfacts; lia). assert (N.eqb (code b1) 237 = false) as F2 by (apply N.eqb_neq; wfacts; lia).
  rewrite F1, F2 in H. destruct (within 225 236 b1) eqn:F3; [exfalso; wfacts; lia|]. destruct (within 238 239 b1) eqn:F4; [exfalso; wfacts; lia|].
  destruct r3 as [|b4 r4]; [done|]. exists [b1; b2; b3; b4], r4. split; [done|].
  destruct (N.eqb (code b1) 240) eqn:G1; [|destruct (within 241 243 b1) eqn:G2; [|destruct (N.eqb (code b1) 244) eqn:G3; [|done]]];
    apply andb_true_iff in H as [H H4]; apply andb_true_iff in H as [H H3]; apply andb_true_iff in H as [H1 H2]; (split; [|done]);
    (assert (within 240 244 b1 = true) by (apply within_iff; wfacts; lia)); (constructor; [done| |done|done]); apply second4_spec; try done; wfacts; lia.
Qed.

Lemma char_length c : char c -> (1 <= length c)%nat.
Proof. destruct 1; simpl; lia. Qed.
Lemma char_valid c : char c -> utf8_valid c = true.
Proof. intros H. rewrite <- (app_nil_r c). by rewrite valid_char. Qed.
Lemma char_head b1 r1 d r' : b1 :: r1 = d ++ r' -> char d ->
  code b1 < 128 \/ (within 194 223 b1 = true /\ exists b2 r, r1 = b2 :: r /\ within 128 191 b2 = true) \/
  (within 224 239 b1 = true /\ exists b2 b3 r, r1 = b2 :: b3 :: r /\ second3 b1 b2 = true /\ within 128 191 b3 = true) \/
  (within 240 244 b1 = true /\ exists b2 b3 b4 r, r1 = b2 :: b3 :: b4 :: r /\ second4 b1 b2 = true /\ within 128 191 b3 = true /\ within 128 191 b4 = true).
Proof.
  intros E Hd. destruct Hd as [x H|x b2 H1 H2|x b2 b3 H1 H2 H3|x b2 b3 b4 H1 H2 H3 H4]; cbn [app] in E;
    (assert (x = b1) as -> by congruence); [by left|right; left|right; right; left|right; right; right]; (split; [done|]).
  - exists b2, r'. split; [congruence|done].
  - exists b2, b3, r'. split; [congruence|done].
  - exists b2, b3, b4, r'. split; [congruence|done].
Qed.
Ltac nochar E Hd :=
  destruct (char_head _ _ _ _ E Hd) as [?|[(? & ? & ? & Hz & ?)|[(? & ? & ? & ? & Hz & ? & ?)|(? & ? & ? & ? & ? & Hz & ? & ? & ?)]]]; clear E Hd;
  [wfacts; lia|..]; first [congruence | discriminate Hz | injection Hz as <- ?; congruence | injection Hz as <- <- ?; congruence | injection Hz as <- <- <- ?; congruence | wfacts; lia].
Ltac bad Hbad Hgood := clear Hbad Hgood; let E := fresh in let Hd := fresh in intros ? ? E Hd; nochar E Hd.
Lemma completable_2 b1 : within 194 223 b1 = true -> completable [b1].
Proof. intros H. exists ["128"%char]. apply char_valid. by constructor. Qed.
Lemma completable_3 b1 b2 : within 224 239 b1 = true -> second3 b1 b2 = true -> completable [b1; b2].
Proof. intros H H2. exists ["128"%char]. apply char_valid. by constructor. Qed.
Lemma completable_31 b1 : within 224 239 b1 = true -> completable [b1].
Proof.
  intros H. destruct (N.eqb (code b1) 224) eqn:E.
  - exists ["160"%char; "128"%char]. apply char_valid. constructor; [done| |done]. apply second3_spec; [done|]. change (code "160") with 160. wfacts. lia.
  - exists ["128"%char; "128"%char]. apply char_valid. constructor; [done| |done]. apply second3_spec; [done|]. change (code "128") with 128. wfacts. lia.
Qed.
Lemma completable_4 b1 b2 b3 : within 240 244 b1 = true -> second4 b1 b2 = true -> within 128 191 b3 = true -> completable [b1; b2; b3].
Proof. intros H H2 H3. exists ["128"%char]. apply char_valid. by constructor. Qed.
Lemma completable_42 b1 b2 : within 240 244 b1 = true -> second4 b1 b2 = true -> completable [b1; b2].
Proof. intros H H2. exists ["128"%char; "128"%char]. apply char_valid. by constructor. Qed.
Lemma completable_41 b1 : within 240 244 b1 = true -> completable [b1].
Proof.
  intros H. destruct (N.eqb (code b1) 240) eqn:E.
  - exists ["144"%char; "128"%char; "128"%char]. apply char_valid. constructor; [done| |done|done]. apply second4_spec; [done|]. change (code "144") with 144. wfacts. lia.
  - exists ["128"%char; "128"%char; "128"%char]. apply char_valid. constructor; [done| |done|done]. apply second4_spec; [done|]. change (code "128") with 128. wfacts. lia.
Qed.
Ltac nocomp Hbad Hgood := clear Hbad Hgood; let q := fresh in let Hq := fresh in intros [q Hq]; cbn [app] in Hq;
  destruct (valid_first _ Hq) as [?|(? & ? & ?E & ?Hd & _)]; [discriminate|]; nochar E Hd.
Ltac maximal Hbad Hgood := first
  [ left; split; [first [by apply completable_2|by apply completable_31|by apply completable_3|by apply completable_41|by apply completable_42|by apply completable_4]|];
    let x := fresh in let r := fresh in let Hr := fresh in intros x r Hr; first [discriminate Hr|injection Hr as <- <-; nocomp Hbad Hgood]
  | right; split; [done|]; nocomp Hbad Hgood ].

(** What lossy does with the head of its argument. *)
Lemma lossy_first b : b = [] \/ exists c r, b = c ++ r /\
  ((char c /\ lossy b = c ++ lossy r) \/ ((1 <= length c <= 3)%nat /\ (forall d r', b = d ++ r' -> ~ char d) /\ maximal_subpart c r /\ lossy b = FFFD ++ lossy r)).
Proof.
  destruct b as [|b1 r1]; [by left|right]. destruct (N.ltb (code b1) 128) eqn:E1.
  { exists [b1], r1. split; [done|]. left. assert (char [b1]) by (constructor; by apply N.ltb_lt). split; [done|]. by apply (lossy_char [b1]). }
  assert (Hbad : forall c r, b1 :: r1 = c ++ r -> (1 <= length c <= 3)%nat -> (forall d r', b1 :: r1 = d ++ r' -> ~ char d) -> maximal_subpart c r -> lossy (b1 :: r1) = FFFD ++ lossy r ->
    exists c r, b1 :: r1 = c ++ r /\ ((char c /\ lossy (b1 :: r1) = c ++ lossy r) \/ ((1 <= length c <= 3)%nat /\ (forall d r', b1 :: r1 = d ++ r' -> ~ char d) /\ maximal_subpart c r /\ lossy (b1 :: r1) = FFFD ++ lossy r))).
  { intros c r H1 H2 H3 H4 H5. exists c, r. split; [done|]. by right. }
  assert (Hgood : forall c r, b1 :: r1 = c ++ r -> char c ->
    exists c r, b1 :: r1 = c ++ r /\ ((char c /\ lossy (b1 :: r1) = c ++ lossy r) \/ ((1 <= length c <= 3)%nat /\ (forall d r', b1 :: r1 = d ++ r' -> ~ char d) /\ maximal_subpart c r /\ lossy (b1 :: r1) = FFFD ++ lossy r))).
  { intros c r -> Hc. exists c, r. split; [done|]. left. split; [done|]. by apply lossy_char. }
  destruct (within 194 223 b1) eqn:E2.
  { destruct r1 as [|b2 r2].
    - apply (Hbad [b1] []); try done; [simpl; lia| |maximal Hbad Hgood|cbn [lossy]; by rewrite E1, E2].
      bad Hbad Hgood.
    - destruct (within 128 191 b2) eqn:E3; [apply (Hgood [b1; b2] r2); [done|by constructor]|].
      apply (Hbad [b1] (b2 :: r2)); try done; [simpl; lia| |maximal Hbad Hgood|cbn [lossy]; by rewrite E1, E2, E3].
      bad Hbad Hgood. }
  destruct (within 224 239 b1) eqn:E3.
  { destruct r1 as [|b2 r2].
    - apply (Hbad [b1] []); try done; [simpl; lia| |maximal Hbad Hgood|cbn [lossy]; by rewrite E1, E2, E3]. bad Hbad Hgood.
    - destruct (second3 b1 b2) eqn:E4.
      + destruct r2 as [|b3 r3].
        * apply (Hbad [b1; b2] []); try done; [simpl; lia| |maximal Hbad Hgood|cbn [lossy]; by rewrite E1, E2, E3, E4]. bad Hbad Hgood.
        * destruct (within 128 191 b3) eqn:E5; [apply (Hgood [b1; b2; b3] r3); [done|by constructor]|].
          apply (Hbad [b1; b2] (b3 :: r3)); try done; [simpl; lia| |maximal Hbad Hgood|cbn [lossy]; by rewrite E1, E2, E3, E4, E5]. bad Hbad Hgood.
      + apply (Hbad [b1] (b2 :: r2)); try done; [simpl; lia| |maximal Hbad Hgood|cbn [lossy]; by rewrite E1, E2, E3, E4]. bad Hbad Hgood. }
  destruct (within 240 244 b1) eqn:E4.
  { destruct r1 as [|b2 r2].
    - apply (Hbad [b1] []); try done; [simpl; lia| |maximal Hbad Hgood|cbn [lossy]; by rewrite E1, E2, E3, E4]. bad Hbad Hgood.
    - destruct (second4 b1 b2) eqn:E5.
      + destruct r2 as [|b3 r3].
        * apply (Hbad [b1; b2] []); try done; [simpl; lia| |maximal Hbad Hgood|cbn [lossy]; by rewrite E1, E2, E3, E4, E5]. bad Hbad Hgood.
        * destruct (within 128 191 b3) eqn:E6.
          -- destruct r3 as [|b4 r4].
             ++ apply (Hbad [b1; b2; b3] []); try done; [simpl; lia| |maximal Hbad Hgood|cbn [lossy]; by rewrite E1, E2, E3, E4, E5, E6]. bad Hbad Hgood.
             ++ destruct (within 128 191 b4) eqn:E7; [apply (Hgood [b1; b2; b3; b4] r4); [done|by constructor]|].
                apply (Hbad [b1; b2; b3] (b4 :: r4)); try done; [simpl; lia| |maximal Hbad Hgood|cbn [lossy]; by rewrite E1, E2, E3, E4, E5, E6, E7]. bad Hbad Hgood.
          -- apply (Hbad [b1; b2] (b3 :: r3)); try done; [simpl; lia| |maximal Hbad Hgood|cbn [lossy]; by rewrite E1, E2, E3, E4, E5, E6]. bad Hbad Hgood.
      + apply (Hbad [b1] (b2 :: r2)); try done; [simpl; lia| |maximal Hbad Hgood|cbn [lossy]; by rewrite E1, E2, E3, E4, E5]. bad Hbad Hgood. }
  apply (Hbad [b1] r1); try done; [simpl; lia| |maximal Hbad Hgood|cbn [lossy]; by rewrite E1, E2, E3, E4]. bad Hbad Hgood.
Qed.
Lemma lossy_is_valid n : forall b, (length b <= n)%nat -> utf8_valid (lossy b) = true.
Proof.
  induction n as [|n IH]; intros b Hn; [destruct b; [done|simpl in Hn; lia]|]. destruct (lossy_first b) as [->|(c & r & -> & [(Hc & ->)|(Hc & _ & _ & ->)])]; [done|..]; rewrite app_length in Hn.
  - apply char_length in Hc as Hl. rewrite valid_char by done. apply IH. lia.
  - change (utf8_valid (lossy r) = true). apply IH. lia.
Qed.
Lemma lossy_app n : forall a, (length a <= n)%nat -> utf8_valid a = true -> forall b, lossy (a ++ b) = a ++ lossy b.
Proof.
  induction n as [|n IH]; intros a Hn Ha b; [destruct a; [done|simpl in Hn; lia]|]. destruct (valid_first a Ha) as [->|(c & r & -> & Hc & Hr)]; [done|]. rewrite app_length in Hn.
  apply char_length in Hc as Hl. rewrite <- !app_assoc, lossy_char by done. f_equal. apply IH; [lia|done].
Qed.
Lemma lossy_pieces n : forall b, (length b <= n)%nat -> exists ps, pieces b ps /\
  lossy b = concat (map (fun q : bool * bytes => if q.1 then q.2 else FFFD) ps).
Proof.
  induction n as [|n IH]; intros b Hn; [destruct b; [exists []; by split; [constructor|]|simpl in Hn; lia]|].
  destruct (lossy_first b) as [->|(c & r & Hb & Hcase)]; [exists []; by split; [constructor|]|]. assert (Hn' := Hn). rewrite Hb, app_length in Hn.
  assert (1 <= length c)%nat as Hl by (destruct Hcase as [[Hc _]|[Hc _]]; [by apply char_length|lia]).
  destruct (IH r) as (ps & E1 & E2); [lia|]. destruct Hcase as [(Hc & E)|(Hc & Hno & Hm & E)].
  - exists ((true, c) :: ps). rewrite E, E2, Hb. split; [|done]. constructor; [by apply char_valid|done].
  - exists ((false, c) :: ps). rewrite E. simpl. rewrite E2. split; [|done]. rewrite Hb. apply p_invalid; [intros ->; simpl in Hl; lia| |done|done].
    intros d r' E' Hd. destruct (valid_first d Hd) as [->|(c' & r2 & -> & Hc' & _)]; [done|]. rewrite <- Hb in E'. rewrite <- app_assoc in E'. by destruct (Hno _ _ E').
Qed.

Lemma completable_prefix p q : completable (p ++ q) -> completable p.
Proof. intros [r H]. exists (q ++ r). by rewrite app_assoc. Qed.
Lemma maximal_same p rest c r : p ++ rest = c ++ r -> p <> [] -> c <> [] -> maximal_subpart p rest -> maximal_subpart c r -> p = c /\ rest = r.
Proof.
  assert (Hw : forall p rest c r, p ++ rest = c ++ r -> p <> [] -> maximal_subpart p rest -> maximal_subpart c r -> (length p < length c)%nat -> False).
  { clear. intros p rest c r E Hp Hm Hc Hl.
    assert (exists x l, c = p ++ x :: l /\ rest = (x :: l) ++ r) as (x & l & -> & ->).
    { exists (default "0"%char (head (drop (length p) c))), (tail (drop (length p) c)).
      assert (drop (length p) c <> []) as Hd by (intros Hd; apply (f_equal length) in Hd; rewrite drop_length in Hd; simpl in Hd; lia).
      assert (p = take (length p) c) as Hpt. { apply (f_equal (take (length p))) in E. rewrite take_app, take_app_le in E by lia. done. }
      assert (rest = drop (length p) c ++ r) as Hrt. { apply (f_equal (drop (length p))) in E. rewrite drop_app, drop_app_le in E by lia. done. }
      destruct (drop (length p) c) as [|x l] eqn:Edr; [done|]. simpl. split; [|done]. rewrite Hpt at 1. by rewrite <- Edr, take_drop. }
    destruct Hc as [[Hcc _]|[Hc1 _]].
    - destruct Hm as [[_ Hm]|[_ Hm]].
      + eapply Hm; [done|]. replace (p ++ x :: l) with ((p ++ [x]) ++ l) in Hcc by (by rewrite <- app_assoc). by eapply completable_prefix.
      + apply Hm. by eapply completable_prefix.
    - rewrite app_length in Hc1. simpl in Hc1. destruct p; [done|simpl in Hc1; lia]. }
  intros E Hp Hc H1 H2. assert (length p = length c) as Hl.
  { destruct (Nat.lt_trichotomy (length p) (length c)) as [H|[H|H]]; [exfalso; by eapply Hw|done|exfalso; by eapply (Hw c r p rest)]. }
  by apply app_inj_1.
Qed.
Lemma pieces_lossy b ps : pieces b ps -> lossy b = concat (map (fun q : bool * bytes => if q.1 then q.2 else FFFD) ps).
Proof.
  induction 1 as [|p rest ps Hp _ IH|p rest ps Hp Hno Hm _ IH]; [done|..]; cbn [map concat].
  - rewrite (lossy_app (length p)) by done. by rewrite IH.
  - destruct (lossy_first (p ++ rest)) as [E|(c & r & E & [[Hc _]|(Hl & _ & Hmc & ->)])].
    + apply app_eq_nil in E as [-> _]. done.
    + pose proof (Hno _ _ E (char_valid _ Hc)) as ->. apply char_length in Hc. simpl in Hc. lia.
    + destruct (maximal_same _ _ _ _ E Hp) as [_ ->]; [intros ->; simpl in Hl; lia|done|done|]. by rewrite IH.
Qed.
