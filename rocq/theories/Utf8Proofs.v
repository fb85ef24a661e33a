From Verif Require Export LocalSpec.
From Coq Require Import Lia ZArith.
Ltac Zify.zify_post_hook ::= Z.to_euclidean_division_equations.
Open Scope N_scope.

Lemma code_byte n : n < 256 -> code (byte n) = n.
Proof. apply N_ascii_embedding. Qed.
Lemma byte_code a : byte (code a) = a.
Proof. apply ascii_N_embedding. Qed.
Lemma code_lt a : code a < 256.
Proof. apply N_ascii_bounded. Qed.
Lemma code_inj a b : code a = code b -> a = b.
Proof. intros H. rewrite <- (byte_code a), <- (byte_code b). by rewrite H. Qed.
Lemma within_spec lo hi a : within lo hi a = true <-> lo <= code a <= hi.
Proof. unfold within. rewrite andb_true_iff, !N.leb_le. done. Qed.

Lemma utf8_valid_char c r : scalar c -> utf8_valid (utf8_char c ++ r) = utf8_valid r.
Proof.
  intros Hc. unfold scalar in Hc. unfold utf8_char.
  destruct (N.ltb_spec c 128).
  { cbn [app utf8_valid]. rewrite code_byte by lia. destruct (N.ltb_spec c 128); [done|lia]. }
  destruct (N.ltb_spec c 2048).
  { cbn [app utf8_valid]. unfold within. rewrite !code_byte by lia.
    destruct (N.ltb_spec (192 + c / 64) 128); [lia|].
    destruct (N.leb_spec 194 (192 + c / 64)); [|lia]. destruct (N.leb_spec (192 + c / 64) 223); [|lia]. cbn [andb].
    destruct (N.leb_spec 128 (128 + c mod 64)); [|lia]. destruct (N.leb_spec (128 + c mod 64) 191); [|lia]. done. }
  destruct (N.ltb_spec c 65536).
  { cbn [app utf8_valid]. unfold within. rewrite !code_byte by lia.
    destruct (N.ltb_spec (224 + c / 4096) 128); [lia|].
    destruct (N.leb_spec 194 (224 + c / 4096)); [|lia]. destruct (N.leb_spec (224 + c / 4096) 223); [lia|]. cbn [andb].
    assert (forall x, 128 <= 128 + x mod 64 <= 191) as Hm by (intros x; lia).
    assert (N.leb 128 (128 + c / 64 mod 64) = true) as E1 by (apply N.leb_le; apply Hm).
    assert (N.leb (128 + c / 64 mod 64) 191 = true) as E2 by (apply N.leb_le; apply Hm).
    assert (N.leb 128 (128 + c mod 64) = true) as E3 by (apply N.leb_le; apply Hm).
    assert (N.leb (128 + c mod 64) 191 = true) as E4 by (apply N.leb_le; apply Hm).
    rewrite E1, E2, E3, E4. cbn [andb].
    destruct (N.eqb_spec (224 + c / 4096) 224).
    { assert (N.leb 160 (128 + c / 64 mod 64) = true) as -> by (apply N.leb_le; lia). done. }
    destruct (N.leb_spec 225 (224 + c / 4096)); [|lia]. cbn [andb].
    destruct (N.leb_spec (224 + c / 4096) 236); [done|].
    destruct (N.eqb_spec (224 + c / 4096) 237).
    { assert (N.leb (128 + c / 64 mod 64) 159 = true) as -> by (apply N.leb_le; lia). done. }
    destruct (N.leb_spec 238 (224 + c / 4096)); [|lia]. destruct (N.leb_spec (224 + c / 4096) 239); [|lia]. done. }
  { cbn [app utf8_valid]. unfold within. rewrite !code_byte by lia.
    destruct (N.ltb_spec (240 + c / 262144) 128); [lia|].
    destruct (N.leb_spec 194 (240 + c / 262144)); [|lia]. destruct (N.leb_spec (240 + c / 262144) 223); [lia|]. cbn [andb].
    assert (forall x, 128 <= 128 + x mod 64 <= 191) as Hm by (intros x; lia).
    assert (N.leb 128 (128 + c / 4096 mod 64) = true) as E1 by (apply N.leb_le; apply Hm).
    assert (N.leb (128 + c / 4096 mod 64) 191 = true) as E2 by (apply N.leb_le; apply Hm).
    assert (N.leb 128 (128 + c / 64 mod 64) = true) as E3 by (apply N.leb_le; apply Hm).
    assert (N.leb (128 + c / 64 mod 64) 191 = true) as E4 by (apply N.leb_le; apply Hm).
    assert (N.leb 128 (128 + c mod 64) = true) as E5 by (apply N.leb_le; apply Hm).
    assert (N.leb (128 + c mod 64) 191 = true) as E6 by (apply N.leb_le; apply Hm).
    rewrite E1, E2, E3, E4, E5, E6. cbn [andb].
    destruct (N.eqb_spec (240 + c / 262144) 224); [lia|].
    destruct (N.leb_spec 225 (240 + c / 262144)); [|lia]. destruct (N.leb_spec (240 + c / 262144) 236); [lia|]. cbn [andb].
    destruct (N.eqb_spec (240 + c / 262144) 237); [lia|].
    destruct (N.leb_spec 238 (240 + c / 262144)); [|lia]. destruct (N.leb_spec (240 + c / 262144) 239); [lia|]. cbn [andb].
    destruct (N.eqb_spec (240 + c / 262144) 240).
    { assert (N.leb 144 (128 + c / 4096 mod 64) = true) as -> by (apply N.leb_le; lia). done. }
    destruct (N.leb_spec 241 (240 + c / 262144)); [|lia]. cbn [andb].
    destruct (N.leb_spec (240 + c / 262144) 243); [done|].
    destruct (N.eqb_spec (240 + c / 262144) 244); [|lia].
    assert (N.leb (128 + c / 4096 mod 64) 143 = true) as -> by (apply N.leb_le; lia). done. }
Qed.

Lemma char2 b1 b2 : 194 <= b1 <= 223 -> 128 <= b2 <= 191 ->
  exists c, scalar c /\ utf8_char c = [byte b1; byte b2].
Proof.
  intros H1 H2. exists ((b1 - 192) * 64 + (b2 - 128)). split; [unfold scalar; lia|]. unfold utf8_char.
  destruct (N.ltb_spec ((b1 - 192) * 64 + (b2 - 128)) 128); [lia|]. destruct (N.ltb_spec ((b1 - 192) * 64 + (b2 - 128)) 2048); [|lia].
  repeat f_equal; lia.
Qed.
Lemma char3 b1 b2 b3 : 224 <= b1 <= 239 -> 128 <= b2 <= 191 -> 128 <= b3 <= 191 -> (b1 = 224 -> 160 <= b2) -> (b1 = 237 -> b2 <= 159) ->
  exists c, scalar c /\ utf8_char c = [byte b1; byte b2; byte b3].
Proof.
  intros H1 H2 H3 Ha Hb. set (c := (b1 - 224) * 4096 + (b2 - 128) * 64 + (b3 - 128)). exists c.
  split; [unfold scalar, c; lia|]. unfold utf8_char.
  destruct (N.ltb_spec c 128); [unfold c in *; lia|]. destruct (N.ltb_spec c 2048); [unfold c in *; lia|].
  destruct (N.ltb_spec c 65536); [|unfold c in *; lia]. unfold c. repeat f_equal; lia.
Qed.
Lemma char4 b1 b2 b3 b4 : 240 <= b1 <= 244 -> 128 <= b2 <= 191 -> 128 <= b3 <= 191 -> 128 <= b4 <= 191 ->
  (b1 = 240 -> 144 <= b2) -> (b1 = 244 -> b2 <= 143) ->
  exists c, scalar c /\ utf8_char c = [byte b1; byte b2; byte b3; byte b4].
Proof.
  intros H1 H2 H3 H4 Ha Hb. set (c := (b1 - 240) * 262144 + (b2 - 128) * 4096 + (b3 - 128) * 64 + (b4 - 128)). exists c.
  split; [unfold scalar, c; lia|]. unfold utf8_char.
  destruct (N.ltb_spec c 128); [unfold c in *; lia|]. destruct (N.ltb_spec c 2048); [unfold c in *; lia|].
  destruct (N.ltb_spec c 65536); [unfold c in *; lia|]. unfold c. repeat f_equal; lia.
Qed.

Lemma is_utf8_cons c r : scalar c -> is_utf8 r -> is_utf8 (utf8_char c ++ r).
Proof. intros Hc (cs & Hcs & ->). exists (c :: cs). split; [by constructor|done]. Qed.

Lemma utf8_valid_sound n : forall b, (length b <= n)%nat -> utf8_valid b = true -> is_utf8 b.
Proof.
  induction n as [|n IH]; intros b Hn Hv.
  { destruct b; [|simpl in Hn; lia]. exists []. by split. }
  destruct b as [|b1 r1]; [exists []; by split|]. cbn [utf8_valid] in Hv. simpl in Hn.
  destruct (N.ltb_spec (code b1) 128).
  { change (b1 :: r1) with ([b1] ++ r1). replace [b1] with (utf8_char (code b1)).
    - apply is_utf8_cons; [unfold scalar; lia|]. apply IH; [lia|done].
    - unfold utf8_char. destruct (N.ltb_spec (code b1) 128); [by rewrite byte_code|lia]. }
  destruct (within 194 223 b1) eqn:W1.
  { apply within_spec in W1. destruct r1 as [|b2 r2]; [done|]. apply andb_prop in Hv as [W2 Hv]. apply within_spec in W2. simpl in Hn.
    destruct (char2 _ _ W1 W2) as (c & Hc & E). rewrite !byte_code in E. change (b1 :: b2 :: r2) with ([b1; b2] ++ r2). rewrite <- E.
    apply is_utf8_cons; [done|]. apply IH; [lia|done]. }
  destruct r1 as [|b2 [|b3 r3]]; [done|done|]. simpl in Hn. pose proof (code_lt b1).
  assert (forall lo hi, 128 <= lo -> hi <= 191 -> within lo hi b2 && within 128 191 b3 && utf8_valid r3 = true ->
    224 <= code b1 <= 239 -> (code b1 = 224 -> 160 <= lo) -> (code b1 = 237 -> hi <= 159) -> is_utf8 (b1 :: b2 :: b3 :: r3)) as H3.
  { intros lo hi Hlo Hhi Hall Hb1 Hx Hy. apply andb_prop in Hall as [Hall Hr]. apply andb_prop in Hall as [W2 W3]. apply within_spec in W2, W3.
    destruct (char3 (code b1) (code b2) (code b3)) as (c & Hc & E); [lia..|]. rewrite !byte_code in E.
    change (b1 :: b2 :: b3 :: r3) with ([b1; b2; b3] ++ r3). rewrite <- E. apply is_utf8_cons; [done|]. apply IH; [lia|done]. }
  destruct (N.eqb_spec (code b1) 224); [by eapply (H3 160 191); try lia|].
  destruct (within 225 236 b1) eqn:W; [apply within_spec in W; by eapply (H3 128 191); try lia|].
  destruct (N.eqb_spec (code b1) 237); [by eapply (H3 128 159); try lia|].
  destruct (within 238 239 b1) eqn:W'; [apply within_spec in W'; by eapply (H3 128 191); try lia|].
  destruct r3 as [|b4 r4]; [done|]. simpl in Hn. clear H3.
  assert (forall lo hi, 128 <= lo -> hi <= 191 -> within lo hi b2 && within 128 191 b3 && within 128 191 b4 && utf8_valid r4 = true ->
    240 <= code b1 <= 244 -> (code b1 = 240 -> 144 <= lo) -> (code b1 = 244 -> hi <= 143) -> is_utf8 (b1 :: b2 :: b3 :: b4 :: r4)) as H4.
  { intros lo hi Hlo Hhi Hall Hb1 Hx Hy. apply andb_prop in Hall as [Hall Hr]. apply andb_prop in Hall as [Hall W4]. apply andb_prop in Hall as [W2 W3].
    apply within_spec in W2, W3, W4.
    destruct (char4 (code b1) (code b2) (code b3) (code b4)) as (c & Hc & E); [lia..|]. rewrite !byte_code in E.
    change (b1 :: b2 :: b3 :: b4 :: r4) with ([b1; b2; b3; b4] ++ r4). rewrite <- E. apply is_utf8_cons; [done|]. apply IH; [lia|done]. }
  destruct (N.eqb_spec (code b1) 240); [by eapply (H4 144 191); try lia|].
  destruct (within 241 243 b1) eqn:W''; [apply within_spec in W''; by eapply (H4 128 191); try lia|].
  destruct (N.eqb_spec (code b1) 244); [by eapply (H4 128 143); try lia|]. done.
Qed.

Lemma utf8_valid_spec b : utf8_valid b = true <-> is_utf8 b.
Proof.
  split; [by apply (utf8_valid_sound (length b))|]. intros (cs & Hcs & ->). induction Hcs as [|c cs Hc Hcs IH]; [done|].
  change (utf8 (c :: cs)) with (utf8_char c ++ utf8 cs). by rewrite utf8_valid_char.
Qed.
