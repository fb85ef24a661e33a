(** Proofs about the JSON text of log records. *)
From Verif Require Import Utf8Proofs LogProofs.
From Verif Require Import JsonSpec.
From Coq Require Import DecimalFacts DecimalN.
From stdpp Require Import prelude.

Ltac ascii_cases :=
  repeat match goal with
  | H : context [Ascii.eqb ?a ?b] |- _ => destruct (Ascii.eqb_spec a b); subst
  | |- context [Ascii.eqb ?a ?b] => destruct (Ascii.eqb_spec a b); subst
  end.

(** ** Reading more of the same *)

Lemma skip_space_app s x c r : skip_space s = c :: r -> skip_space (s ++ x) = c :: r ++ x.
Proof.
  induction s as [|d s IH]; cbn; [discriminate|]. destruct (json_space d); [exact IH|]. by intros [= -> ->].
Qed.

Lemma prepend_Some p o s r : prepend p o = Some (s, r) -> exists s', o = Some (s', r) /\ s = p ++ s'.
Proof. destruct o as [[s' r']|]; cbn; [|discriminate]. intros [= <- <-]. eauto. Qed.

Lemma read_string_app_n n : forall s x t r, length s <= n -> read_string s = Some (t, r) -> read_string (s ++ x) = Some (t, r ++ x).
Proof.
  induction n as [|n IH]; intros s x t r Hn.
  { destruct s; [discriminate|cbn in Hn; lia]. }
  destruct s as [|c s]; [discriminate|]. cbn in Hn. change ((c :: s) ++ x) with (c :: (s ++ x)).
  cbn [read_string].
  destruct (Ascii.eqb c DQ). { by intros [= <- <-]. }
  destruct (Ascii.eqb c BSL).
  - destruct s as [|e s]; [discriminate|]. cbn in Hn. cbn [app].
    destruct (Ascii.eqb e "u").
    + destruct s as [|a1 [|a2 [|a3 [|a4 s]]]]; try discriminate. cbn in Hn. cbn [app].
      destruct (hex4 a1 a2 a3 a4) as [m|]; [|discriminate].
      destruct (N.leb 56320 m && N.leb m 57343); [discriminate|].
      destruct (N.leb 55296 m && N.leb m 56319).
      * destruct s as [|b [|u [|a5 [|a6 [|a7 [|a8 s]]]]]]; try discriminate. cbn in Hn. cbn [app].
        destruct (Ascii.eqb b BSL && Ascii.eqb u "u"); [|discriminate].
        destruct (hex4 a5 a6 a7 a8) as [m2|]; [|discriminate].
        destruct (N.leb 56320 m2 && N.leb m2 57343); [|discriminate].
        intros (s' & Hs & ->)%prepend_Some. rewrite (IH s x s' r) by (lia || done). done.
      * intros (s' & Hs & ->)%prepend_Some. rewrite (IH s x s' r) by (lia || done). done.
    + destruct (simple_escape e); [|discriminate].
      intros (s' & Hs & ->)%prepend_Some. rewrite (IH s x s' r) by (lia || done). done.
  - destruct (N.ltb (code c) 32); [discriminate|].
    intros (s' & Hs & ->)%prepend_Some. rewrite (IH s x s' r) by (lia || done). done.
Qed.
Lemma read_string_app s x t r : read_string s = Some (t, r) -> read_string (s ++ x) = Some (t, r ++ x).
Proof. by apply (read_string_app_n (length s)). Qed.

Lemma scan_digits_app s x u c r : scan_digits s = (u, c :: r) -> scan_digits (s ++ x) = (u, c :: r ++ x).
Proof.
  revert u. induction s as [|d s IH]; intros u; cbn; [discriminate|].
  destruct (digit d) as [D|].
  - destruct (scan_digits s) as [u' r'] eqn:E. intros [= <- ->]. by rewrite (IH u').
  - by intros [= <- -> ->].
Qed.
Lemma scan_exponent_app s x c r : scan_exponent s = Some (c :: r) -> scan_exponent (s ++ x) = Some (c :: r ++ x).
Proof.
  destruct s as [|d s]; cbn [scan_exponent app]; [discriminate|].
  destruct (Ascii.eqb d "+" || Ascii.eqb d "-").
  - destruct (scan_digits s) as [u r'] eqn:E. intros H.
    assert (u <> Nil /\ r' = c :: r) as [Hu ->] by (destruct u; by simplify_eq).
    rewrite (scan_digits_app _ _ _ _ _ E). by destruct u.
  - change (d :: s ++ x) with ((d :: s) ++ x).
    destruct (scan_digits (d :: s)) as [u r'] eqn:E. intros H.
    assert (u <> Nil /\ r' = c :: r) as [Hu ->] by (destruct u; by simplify_eq).
    rewrite (scan_digits_app _ _ _ _ _ E). by destruct u.
Qed.
Lemma scan_fraction_app s x b c r : scan_fraction s = Some (b, c :: r) -> scan_fraction (s ++ x) = Some (b, c :: r ++ x).
Proof.
  destruct s as [|d s]; cbn [scan_fraction app]; [discriminate|].
  destruct (Ascii.eqb d ".").
  - destruct (scan_digits s) as [u r'] eqn:E. intros H.
    destruct r' as [|c' r']; [by destruct u|].
    rewrite (scan_digits_app _ _ _ _ _ E).
    assert ((if is_e c' then option_map (λ y, (true, y)) (scan_exponent r') else Some (true, c' :: r')) = Some (b, c :: r)) as H'.
    { by destruct u. }
    assert ((if is_e c' then option_map (λ y, (true, y)) (scan_exponent (r' ++ x)) else Some (true, c' :: r' ++ x)) = Some (b, c :: r ++ x)) as H''.
    { destruct (is_e c').
      - destruct (scan_exponent r') as [y|] eqn:Ey; [|discriminate]. cbn in H'. simplify_eq.
        by rewrite (scan_exponent_app _ _ _ _ Ey).
      - by simplify_eq. }
    by destruct u.
  - destruct (is_e d).
    + destruct (scan_exponent s) as [y|] eqn:Ey; [|discriminate]. cbn. intros ?. simplify_eq.
      by rewrite (scan_exponent_app _ _ _ _ Ey).
    + by intros [= <- <- <-].
Qed.
Lemma scan_fraction_rest s b r : scan_fraction s = Some (b, r) -> s = [] -> r = [].
Proof. intros H ->. cbn in H. by simplify_eq. Qed.
Lemma read_number_app neg s x j c r : read_number neg s = Some (j, c :: r) -> read_number neg (s ++ x) = Some (j, c :: r ++ x).
Proof.
  unfold read_number. destruct (scan_digits s) as [u r'] eqn:E. intros H.
  assert (u = Nil \/ u <> Nil) as [->|Hu] by (destruct u; by auto); [discriminate|].
  destruct (decide (r' = [])) as [->|Hr'].
  { cbn [scan_fraction] in H. destruct u; try done;
    repeat case_match; simplify_eq. }
  destruct r' as [|c' r']; [done|]. rewrite (scan_digits_app _ _ _ _ _ E).
  destruct (leading_zero u) eqn:Hz; [by destruct u|].
  destruct (scan_fraction (c' :: r')) as [[b r1]|] eqn:Ef; [|by destruct u].
  assert (r1 = c :: r) as ->.
  { destruct u; try done; destruct b; repeat case_match; by simplify_eq. }
  pose proof (scan_fraction_app _ x _ _ _ Ef) as Ha. change ((c' :: r') ++ x) with (c' :: r' ++ x) in Ha. rewrite Ha.
  destruct u; try done; destruct b; repeat case_match; by simplify_eq.
Qed.
Lemma strip_app p s x r : strip p s = Some r -> strip p (s ++ x) = Some (r ++ x).
Proof.
  revert s. induction p as [|a p IH]; intros s; [by intros [= ->]|].
  destruct s as [|b s]; [discriminate|]. cbn. destruct (Ascii.eqb a b); [apply IH|discriminate].
Qed.
Lemma literal_app p j s x j' r : literal p j s = Some (j', r) -> literal p j (s ++ x) = Some (j', r ++ x).
Proof.
  unfold literal. destruct (strip p s) as [y|] eqn:E; [|discriminate]. intros [= <- <-].
  by rewrite (strip_app _ _ _ _ E).
Qed.

Definition is_number (j : json) : Prop := match j with JInt _ | JFloat => True | _ => False end.

Lemma read_app fuel :
  (forall s x j r fuel', fuel <= fuel' -> read_value fuel s = Some (j, r) -> (r <> [] \/ ~ is_number j) ->
     read_value fuel' (s ++ x) = Some (j, r ++ x)) /\
  (forall s x l r fuel', fuel <= fuel' -> read_members fuel s = Some (l, r) ->
     read_members fuel' (s ++ x) = Some (l, r ++ x)) /\
  (forall s x l r fuel', fuel <= fuel' -> read_elements fuel s = Some (l, r) ->
     read_elements fuel' (s ++ x) = Some (l, r ++ x)).
Proof.
  induction fuel as [|fuel (IHv & IHm & IHe)].
  { split_and!; intros; discriminate. }
  split_and!.
  - intros s x j r fuel' Hf. destruct fuel' as [|fuel']; [lia|].
    cbn [read_value]. destruct (skip_space s) as [|c s'] eqn:Es; [discriminate|].
    rewrite (skip_space_app _ x _ _ Es).
    destruct (Ascii.eqb c LBRACE).
    { destruct (skip_space s') as [|c' r'] eqn:Es'; [discriminate|]. rewrite (skip_space_app _ x _ _ Es').
      destruct (Ascii.eqb c' RBRACE). { by intros [= <- <-]. }
      destruct (read_members fuel s') as [[l r1]|] eqn:Em; [|discriminate]. intros [= <- <-] _.
      rewrite (IHm _ x _ _ fuel' ltac:(lia) Em). done. }
    destruct (Ascii.eqb c LBRACK).
    { destruct (skip_space s') as [|c' r'] eqn:Es'; [discriminate|]. rewrite (skip_space_app _ x _ _ Es').
      destruct (Ascii.eqb c' RBRACK). { by intros [= <- <-]. }
      destruct (read_elements fuel s') as [[l r1]|] eqn:Em; [|discriminate]. intros [= <- <-] _.
      rewrite (IHe _ x _ _ fuel' ltac:(lia) Em). done. }
    destruct (Ascii.eqb c DQ).
    { destruct (read_string s') as [[t r1]|] eqn:Et; [|discriminate]. intros [= <- <-] _.
      by rewrite (read_string_app _ _ _ _ Et). }
    destruct (Ascii.eqb c "n"). { intros H _. by apply literal_app. }
    destruct (Ascii.eqb c "t"). { intros H _. by apply literal_app. }
    destruct (Ascii.eqb c "f"). { intros H _. by apply literal_app. }
    assert (forall b y, read_number b y = Some (j, r) -> is_number j) as Hnum.
    { intros b y. unfold read_number. destruct (scan_digits y) as [u r']. destruct u; try discriminate;
      repeat (case_match; try discriminate); intros; by simplify_eq. }
    destruct (Ascii.eqb c MINUS).
    + intros H Hc. destruct r as [|d r].
      * destruct Hc as [Hc|Hc]; [done|]. by destruct Hc; eapply Hnum.
      * by apply read_number_app.
    + intros H Hc. destruct r as [|d r].
      * destruct Hc as [Hc|Hc]; [done|]. by destruct Hc; eapply Hnum.
      * by apply (read_number_app false (c :: s') x).
  - intros s x l r fuel' Hf. destruct fuel' as [|fuel']; [lia|]. cbn [read_members].
    destruct (skip_space s) as [|q s1] eqn:E1; [discriminate|]. rewrite (skip_space_app _ x _ _ E1).
    destruct (Ascii.eqb q DQ); [|discriminate].
    destruct (read_string s1) as [[k r1]|] eqn:E2; [|discriminate]. rewrite (read_string_app _ x _ _ E2).
    destruct (skip_space r1) as [|d r2] eqn:E3; [discriminate|]. rewrite (skip_space_app _ x _ _ E3).
    destruct (Ascii.eqb d COLON); [|discriminate].
    destruct (read_value fuel r2) as [[v r3]|] eqn:E4; [|discriminate].
    destruct (skip_space r3) as [|d' r4] eqn:E5; [discriminate|].
    rewrite (IHv _ x _ _ fuel' ltac:(lia) E4); [|left; intros ->; discriminate].
    rewrite (skip_space_app _ x _ _ E5).
    destruct (Ascii.eqb d' RBRACE). { by intros [= <- <-]. }
    destruct (Ascii.eqb d' COMMA); [|discriminate].
    destruct (read_members fuel r4) as [[l' r5]|] eqn:E6; [|discriminate]. intros [= <- <-].
    by rewrite (IHm _ x _ _ fuel' ltac:(lia) E6).
  - intros s x l r fuel' Hf. destruct fuel' as [|fuel']; [lia|]. cbn [read_elements].
    destruct (read_value fuel s) as [[v r3]|] eqn:E4; [|discriminate].
    destruct (skip_space r3) as [|d' r4] eqn:E5; [discriminate|].
    rewrite (IHv _ x _ _ fuel' ltac:(lia) E4); [|left; intros ->; discriminate].
    rewrite (skip_space_app _ x _ _ E5).
    destruct (Ascii.eqb d' RBRACK). { by intros [= <- <-]. }
    destruct (Ascii.eqb d' COMMA); [|discriminate].
    destruct (read_elements fuel r4) as [[l' r5]|] eqn:E6; [|discriminate]. intros [= <- <-].
    by rewrite (IHe _ x _ _ fuel' ltac:(lia) E6).
Qed.

(** ** Reading what was written *)

Section json_ind.
  Context (P : json -> Prop).
  Context (Hnull : P JNull) (Hbool : forall b, P (JBool b)) (Hint : forall z, P (JInt z)) (Hfloat : P JFloat)
    (Hstr : forall s, P (JStr s)) (Harr : forall l, Forall P l -> P (JArr l))
    (Hobj : forall l, Forall (fun p => P (snd p)) l -> P (JObj l)).
  Fixpoint json_ind' (j : json) : P j :=
    match j with
    | JNull => Hnull
    | JBool b => Hbool b
    | JInt z => Hint z
    | JFloat => Hfloat
    | JStr s => Hstr s
    | JArr l => Harr l ((fix go (l : list json) : Forall P l :=
                           match l with [] => List.Forall_nil P | x :: r => List.Forall_cons P x r (json_ind' x) (go r) end) l)
    | JObj l => Hobj l ((fix go (l : list (bytes * json)) : Forall (fun p => P (snd p)) l :=
                           match l with
                           | [] => List.Forall_nil _
                           | x :: r => List.Forall_cons (fun p => P (snd p)) x r (json_ind' (snd x)) (go r) end) l)
    end.
End json_ind.

Lemma read_escape c s :
  read_string (escape c ++ s) = prepend [c] (read_string s).
Proof.
  destruct c as [[] [] [] [] [] [] [] []]; reflexivity.
Qed.
Lemma read_print_string t s : read_string (concat (map escape t) ++ DQ :: s) = Some (t, s).
Proof.
  induction t as [|c t IH]; [reflexivity|].
  cbn [map concat]. rewrite <- List.app_assoc, read_escape, IH. done.
Qed.

Lemma digit_stop s : match s with c :: _ => digit c = None | [] => True end -> scan_digits s = (Nil, s).
Proof. destruct s as [|c s]; [done|]. cbn. by intros ->. Qed.
Lemma scan_print_uint u s : match s with c :: _ => digit c = None | [] => True end -> scan_digits (print_uint u ++ s) = (u, s).
Proof.
  intros Hs. induction u; cbn [print_uint app]; [by apply digit_stop|..];
  cbn; by rewrite IHu.
Qed.

(** What may follow a value in a document that was written. *)
Definition follows (s : bytes) : Prop := match s with [] => True | c :: _ => c ∈ [COMMA; RBRACE; RBRACK] end.
Lemma follows_digit s : follows s -> match s with c :: _ => digit c = None | [] => True end.
Proof. destruct s as [|c s]; [done|]. cbn. rewrite !elem_of_cons, elem_of_nil. by intros [->|[->|[->|[]]]]. Qed.
Lemma follows_fraction s : follows s -> scan_fraction s = Some (false, s).
Proof. destruct s as [|c s]; [done|]. cbn. rewrite !elem_of_cons, elem_of_nil. by intros [->|[->|[->|[]]]]. Qed.

Lemma to_uint_head n : N.to_uint n <> Nil /\ leading_zero (N.to_uint n) = false.
Proof.
  pose proof (DecimalN.Unsigned.to_of (N.to_uint n)) as H. rewrite DecimalN.Unsigned.of_to in H.
  rewrite H. unfold unorm. destruct (nzhead (N.to_uint n)) eqn:E; cbn; try done.
  exfalso. by eapply nzhead_nonzero.
Qed.
Lemma read_print_number neg n s : follows s ->
  read_number neg (print_uint (N.to_uint n) ++ s) =
    Some (if neg then if N.eqb n 0 then JFloat else JInt (- Z.of_N n) else JInt (Z.of_N n), s).
Proof.
  intros Hs. unfold read_number. rewrite (scan_print_uint _ _ (follows_digit _ Hs)).
  destruct (to_uint_head n) as [H1 H2]. rewrite H2, (follows_fraction _ Hs), DecimalN.Unsigned.of_to.
  destruct (N.to_uint n); try done; destruct neg; repeat case_match; done.
Qed.

Lemma print_uint_head n s : exists c r, print_uint (N.to_uint n) ++ s = c :: r /\ within 48 57 c = true.
Proof.
  destruct (to_uint_head n) as [H1 _]. destruct (N.to_uint n); [done|..]; cbn; eauto.
Qed.
Lemma skip_none c s : json_space c = false -> skip_space (c :: s) = c :: s.
Proof. intros H. cbn. by rewrite H. Qed.

(** The first character of a value. *)
Lemma print_head j s : exists c r, print_json j ++ s = c :: r /\ json_space c = false /\ c ∉ [RBRACE; RBRACK].
Proof.
  destruct j; cbn [print_json]; try (eexists _, _; split; [reflexivity|]; split; [done|]; by apply (bool_decide_eq_true_1 _); vm_compute).
  - destruct b; eexists _, _; (split; [reflexivity|]; split; [done|]; by apply (bool_decide_eq_true_1 _); vm_compute).
  - unfold print_int. destruct (Z.ltb z 0).
    + eexists _, _; split; [reflexivity|]; split; [done|]; by apply (bool_decide_eq_true_1 _); vm_compute.
    + destruct (print_uint_head (Z.to_N z) s) as (c & r & E & Hc). exists c, r. split; [done|].
      unfold within in Hc. apply andb_true_iff in Hc as [H1%N.leb_le H2%N.leb_le]. split.
      * unfold json_space. destruct (N.eqb_spec (code c) 32), (N.eqb_spec (code c) 10), (N.eqb_spec (code c) 9), (N.eqb_spec (code c) 13); lia || done.
      * rewrite !elem_of_cons, elem_of_nil. intros [->|[->|[]]]; vm_compute in H1, H2; lia.
Qed.

Definition reads (j : json) : Prop :=
  forall s fuel, follows s -> 2 * length (print_json j) + 1 <= fuel -> read_value fuel (print_json j ++ s) = Some (j, s).

Lemma read_print_elements l s fuel : Forall reads l -> l <> [] ->
  2 * length (commas (map print_json l)) + 2 <= fuel ->
  read_elements fuel (commas (map print_json l) ++ RBRACK :: s) = Some (l, s).
Proof.
  intros Hl. revert fuel. induction Hl as [|j l Hj Hl IH]; intros fuel Hne Hf; [done|].
  destruct fuel as [|fuel]; [lia|]. cbn [read_elements]. destruct l as [|j' l].
  - cbn [map commas] in Hf |- *. rewrite Hj; [|cbn; set_solver|lia].
    rewrite skip_none by done. done.
  - assert (commas (map print_json (j :: j' :: l)) = print_json j ++ COMMA :: commas (map print_json (j' :: l))) as E by done.
    rewrite E in Hf |- *. rewrite app_length in Hf. cbn [length] in Hf.
    rewrite <- List.app_assoc. change ((COMMA :: ?a) ++ ?b) with (COMMA :: (a ++ b)).
    rewrite Hj; [|cbn; set_solver|lia].
    rewrite skip_none by done. cbn [Ascii.eqb]. 
    change (Ascii.eqb COMMA RBRACK) with false. change (Ascii.eqb COMMA COMMA) with true. cbn [bool_decide]. cbv iota.
    rewrite IH; [done|done|lia].
Qed.
Lemma read_print_members l s fuel : Forall (fun p => reads (snd p)) l -> l <> [] ->
  let pr := map (fun p : bytes * json => print_string (fst p) ++ COLON :: print_json (snd p)) in
  2 * length (commas (pr l)) + 2 <= fuel ->
  read_members fuel (commas (pr l) ++ RBRACE :: s) = Some (l, s).
Proof.
  intros Hl Hne pr. revert fuel. induction Hl as [|[k j] l Hj Hl IH]; intros fuel Hf; [done|].
  cbn [snd] in Hj. destruct fuel as [|fuel]; [lia|]. cbn [read_members]. destruct l as [|p' l].
  - cbn [pr map commas fst snd] in Hf |- *. rewrite app_length in Hf. cbn [length] in Hf.
    unfold print_string. rewrite <- !List.app_assoc. cbn [app]. rewrite <- !List.app_assoc. cbn [app].
    rewrite skip_none by done. change (Ascii.eqb DQ DQ) with true. cbv iota.
    rewrite read_print_string. rewrite skip_none by done. change (Ascii.eqb COLON COLON) with true. cbv iota.
    rewrite Hj; [|cbn; set_solver|lia].
    rewrite skip_none by done. done.
  - assert (commas (pr ((k, j) :: p' :: l)) = (print_string k ++ COLON :: print_json j) ++ COMMA :: commas (pr (p' :: l))) as E by done.
    rewrite E in Hf |- *. rewrite !app_length in Hf. cbn [length] in Hf.
    unfold print_string. rewrite <- !List.app_assoc. cbn [app]. rewrite <- !List.app_assoc. cbn [app].
    rewrite skip_none by done. change (Ascii.eqb DQ DQ) with true. cbv iota.
    rewrite read_print_string. rewrite skip_none by done. change (Ascii.eqb COLON COLON) with true. cbv iota.
    rewrite Hj; [|cbn; set_solver|lia].
    rewrite skip_none by done.
    change (Ascii.eqb COMMA RBRACE) with false. change (Ascii.eqb COMMA COMMA) with true. cbv iota.
    rewrite IH; [done|done|lia].
Qed.

Lemma ascii_eqb_neq a b : a <> b -> Ascii.eqb a b = false.
Proof. intros H. by destruct (Ascii.eqb_spec a b). Qed.

Lemma read_print j : reads j.
Proof.
  induction j as [|b|z| |t|l IH|l IH] using json_ind'; intros s fuel Hs Hf.
  - destruct fuel as [|fuel]; [cbn in Hf; lia|]. reflexivity.
  - destruct fuel as [|fuel]; [cbn in Hf; lia|]. by destruct b.
  - destruct fuel as [|fuel]; [lia|]. cbn [read_value print_json]. unfold print_int.
    destruct (Z.ltb_spec z 0).
    + cbn [app]. rewrite skip_none by done.
      change (read_number true (print_uint (N.to_uint (Z.to_N (- z))) ++ s) = Some (JInt z, s)).
      rewrite read_print_number by done.
      destruct (N.eqb_spec (Z.to_N (- z)) 0); [lia|]. do 2 f_equal. f_equal. lia.
    + destruct (print_uint_head (Z.to_N z) s) as (c & r & E & Hc). rewrite E.
      assert (forall d, within 48 57 d = false -> c <> d) as Hd by (intros d H1 ->; congruence).
      assert (json_space c = false) as Hsp.
      { unfold within in Hc. apply andb_true_iff in Hc as [H1%N.leb_le H2%N.leb_le].
        unfold json_space. destruct (N.eqb_spec (code c) 32), (N.eqb_spec (code c) 10), (N.eqb_spec (code c) 9), (N.eqb_spec (code c) 13); lia || done. }
      rewrite skip_none by done.
      rewrite !(ascii_eqb_neq c) by (by apply Hd).
      rewrite <- E, read_print_number by done. do 2 f_equal. f_equal. lia.
  - destruct fuel as [|fuel]; [cbn in Hf; lia|]. cbn [print_json read_value].
    change (B "0.5" ++ s) with ("0"%char :: "."%char :: "5"%char :: s). rewrite skip_none by done.
    change (read_number false ("0"%char :: "."%char :: "5"%char :: s) = Some (JFloat, s)).
    unfold read_number. cbn. rewrite (digit_stop s) by (by apply follows_digit).
    destruct s as [|c s]; [done|]. cbn in Hs. revert Hs. rewrite !elem_of_cons, elem_of_nil. by intros [->|[->|[->|[]]]].
  - destruct fuel as [|fuel]; [lia|]. cbn [print_json read_value]. unfold print_string. cbn [app].
    rewrite <- List.app_assoc. rewrite skip_none by done.
    change (match read_string (concat (map escape t) ++ DQ :: s) with Some (t, r) => Some (JStr t, r) | None => None end = Some (JStr t, s)).
    by rewrite read_print_string.
  - destruct fuel as [|fuel]; [lia|]. cbn [print_json] in Hf |- *. cbn [app]. rewrite <- List.app_assoc. cbn [app].
    cbn [read_value]. rewrite skip_none by done.
    change (Ascii.eqb LBRACK LBRACE) with false. change (Ascii.eqb LBRACK LBRACK) with true. cbv iota.
    destruct l as [|j l]; [reflexivity|].
    destruct (print_head j (match l with [] => RBRACK :: s | _ => COMMA :: commas (map print_json l) ++ RBRACK :: s end)) as (c & r & E & Hsp & Hc).
    assert (commas (map print_json (j :: l)) ++ RBRACK :: s = c :: r) as E'.
    { rewrite <- E. destruct l; [done|]. cbn [map commas]. by rewrite <- List.app_assoc. }
    pose proof (read_print_elements (j :: l) s fuel IH ltac:(done)) as Hr. rewrite E' in Hr |- *.
    rewrite skip_none by done. rewrite (ascii_eqb_neq c RBRACK) by set_solver.
    rewrite Hr; [done|]. cbn [length] in Hf. rewrite app_length in Hf. cbn [length] in Hf. lia.
  - destruct fuel as [|fuel]; [lia|]. cbn [print_json] in Hf |- *. cbn [app]. rewrite <- List.app_assoc. cbn [app].
    cbn [read_value]. rewrite skip_none by done.
    change (Ascii.eqb LBRACE LBRACE) with true. cbv iota.
    destruct l as [|[k j] l]; [reflexivity|].
    pose proof (read_print_members ((k, j) :: l) s fuel IH ltac:(done)) as Hr. cbv zeta in Hr.
    set (pr := map (fun p : bytes * json => print_string (fst p) ++ COLON :: print_json (snd p))) in *.
    assert (exists r, commas (pr ((k, j) :: l)) ++ RBRACE :: s = DQ :: r) as [r E'].
    { destruct l; eexists; reflexivity. }
    rewrite E' in Hr |- *. rewrite skip_none by done. change (Ascii.eqb DQ RBRACE) with false. cbv iota.
    rewrite Hr; [done|]. cbn [length] in Hf. rewrite app_length in Hf. cbn [length] in Hf. lia.
Qed.

Lemma read_json_print j : read_json (print_json j) = Some j.
Proof.
  unfold read_json. pose proof (read_print j [] (2 * length (print_json j) + 2) I ltac:(lia)) as H.
  rewrite app_nil_r in H. by rewrite H.
Qed.

(** No beginning of the text of an object is a document. *)
Lemma read_json_prefix l g x : print_json (JObj l) = g ++ x -> x <> [] -> read_json g = None.
Proof.
  intros E Hx. unfold read_json.
  destruct (read_value (2 * length g + 2) g) as [[j r]|] eqn:Er; [|done].
  assert (is_number j \/ ~ is_number j) as [Hr|Hr] by (destruct j; cbn; tauto); cycle 1.
  - destruct (read_app (2 * length g + 2)) as [Hv _].
    pose proof (Hv g x j r (2 * length (g ++ x) + 2) ltac:(rewrite app_length; lia) Er (or_intror Hr)) as H.
    rewrite <- E in H. pose proof (read_print (JObj l) [] (2 * length (print_json (JObj l)) + 2) I ltac:(lia)) as H'.
    rewrite app_nil_r in H'. rewrite H' in H. injection H as _ H. symmetry in H. apply app_eq_nil in H as [_ ->]. done.
  - (* a number cannot begin with a brace *)
    exfalso. destruct g as [|c g].
    { cbn in Er. discriminate. }
    cbn [print_json app] in E. injection E as <- _.
    replace (2 * length (LBRACE :: g) + 2) with (S (2 * length (LBRACE :: g) + 1)) in Er by lia.
    cbn [read_value] in Er. rewrite skip_none in Er by done. change (Ascii.eqb LBRACE LBRACE) with true in Er. cbv iota in Er.
    repeat case_match; by simplify_eq.
Qed.

(** ** Decoding *)

Lemma S_of_B s : S_of (B s) = s.
Proof. apply string_of_list_ascii_of_string. Qed.
Lemma B_inj s s' : B s = B s' -> s = s'.
Proof. intros H. by rewrite <- (S_of_B s), H, S_of_B. Qed.

Lemma d_str_ok s : d_str (j_str s) = Some s.
Proof. unfold j_str, d_str. by rewrite S_of_B. Qed.
Lemma d_unsigned_ok m n : (n <= m)%N -> d_unsigned m (j_num n) = Some n.
Proof.
  intros H. unfold d_unsigned, j_num. destruct (Z.leb_spec 0 (Z.of_N n)), (Z.leb_spec (Z.of_N n) (Z.of_N m)); try lia.
  cbn. f_equal. lia.
Qed.
Lemma d_u32_ok n : u32 n -> d_u32 (j_num n) = Some n.
Proof. unfold u32. intros H. apply d_unsigned_ok. unfold U32_MAX. change (2 ^ 32)%N with 4294967296%N in H. lia. Qed.
Lemma d_i32_ok z : i32 z -> d_i32 (JInt z) = Some z.
Proof.
  unfold i32, d_i32. change (2 ^ 31)%Z with 2147483648%Z. intros H.
  destruct (Z.leb_spec (-2147483648) z), (Z.leb_spec z 2147483647); done || lia.
Qed.
Lemma all_some_map {A B C} (f : B -> option C) (g : A -> B) (h : A -> C) l :
  (forall x, x ∈ l -> f (g x) = Some (h x)) -> all_some f (map g l) = Some (map h l).
Proof.
  induction l as [|x l IH]; intros H; [done|]. cbn.
  rewrite H by set_solver. rewrite IH by set_solver. done.
Qed.
Lemma d_strs_ok l : d_list d_str (j_strs l) = Some l.
Proof.
  unfold d_list, j_strs. rewrite (all_some_map _ _ id); [by rewrite list_fmap_id|]. intros; apply d_str_ok.
Qed.
Lemma d_time_ok t : a_time t -> d_time (j_time t) = Some t.
Proof.
  unfold a_time. change (2 ^ 63)%N with 9223372036854775808%N. change (10 ^ 9)%N with 1000000000%N. intros [Hs Hn].
  change (d_time (j_time t)) with
    (match d_unsigned U64_MAX (j_num (secs t)), d_u32 (j_num (nanos t)) with
     | Some s, Some n => let s' := (s + n / 1000000000)%N in
         if N.leb s' I64_MAX then Some (SysTime s' (n mod 1000000000)) else None
     | _, _ => None end).
  rewrite d_unsigned_ok by (unfold U64_MAX; lia).
  rewrite d_u32_ok by (unfold u32; change (2 ^ 32)%N with 4294967296%N; lia).
  cbv zeta. rewrite N.div_small, N.add_0_r, N.mod_small by lia.
  unfold I64_MAX. destruct (N.leb_spec (secs t) 9223372036854775807); [|lia]. by destruct t.
Qed.
Lemma fold_insert (l : list (string * string)) :
  fold_left (fun (m : gmap string string) p => <[fst p := snd p]> m) l ∅ = list_to_map (rev l).
Proof.
  rewrite <- fold_left_rev_right. induction (rev l) as [|[k v] r IH]; [done|]. cbn. by rewrite IH.
Qed.
Lemma d_map_ok m l : l ≡ₚ map_to_list m -> d_map (j_map l) = Some m.
Proof.
  intros Hp. unfold d_map, j_map. rewrite (all_some_map _ _ id).
  - rewrite list_fmap_id, fold_insert. f_equal.
    assert (rev l ≡ₚ map_to_list m) as Hp' by (by rewrite <- Permutation_rev).
    rewrite (list_to_map_proper (rev l) (map_to_list m)); [apply list_to_map_to_list| |done].
    rewrite Hp'. apply NoDup_fst_map_to_list.
  - intros [k v] _. cbn. by rewrite !S_of_B.
Qed.
Lemma d_maps_ok ms vs : Forall2 (fun m l => l ≡ₚ map_to_list m) ms vs ->
  d_list d_map (JArr (map j_map vs)) = Some ms.
Proof.
  intros H. cbn [d_list]. induction H as [|m l ms vs Hp H IH]; [done|]. cbn [map all_some].
  by rewrite (d_map_ok m l Hp), IH.
Qed.

Lemma d_header_eq v t u hn wk cl wd p sr :
  d_header (JObj [(B "version", v); (B "time", t); (B "user", u); (B "hostname", hn); (B "workflow_key", wk);
    (B "cmdline", cl); (B "workdir", wd); (B "pid", p); (B "storage_roots", sr)]) =
  (v ← d_u32 v; t ← d_time t; u ← d_str u; hn ← d_str hn; wk ← d_str wk; cl ← d_list d_str cl; wd ← d_str wd;
   p ← d_u32 p; sr ← d_list d_str sr; Some (HeaderEntry v t u hn wk cl wd p sr)).
Proof. reflexivity. Qed.
Lemma d_ready_eq t k c cmd r :
  d_ready (JObj [(B "time", t); (B "key", k); (B "runcount", c); (B "command", cmd); (B "r", r)]) =
  (t ← d_time t; k ← d_str k; c ← d_u32 c; cmd ← d_str cmd; r ← d_u32 r; Some (ReadyEntry t k c cmd r)).
Proof. reflexivity. Qed.
Lemma d_started_eq t k h p s :
  d_started (JObj [(B "time", t); (B "key", k); (B "host", h); (B "pid", p); (B "slurm_jobid", s)]) =
  (t ← d_time t; k ← d_str k; h ← d_str h; p ← d_u32 p; s ← d_str s; Some (StartedEntry t k h p s)).
Proof. reflexivity. Qed.
Lemma d_finished_eq t k s vs :
  d_finished (JObj [(B "time", t); (B "key", k); (B "status", s); (B "values", vs)]) =
  (t ← d_time t; k ← d_str k; s ← d_i32 s; vs ← d_list d_map vs; Some (FinishedEntry t k s vs)).
Proof. reflexivity. Qed.
Lemma d_backref_eq k : d_backref (JObj [(B "key", k)]) = (k ← d_str k; Some (BackrefEntry k)).
Proof. reflexivity. Qed.

Lemma d_entry_ok e vs : in_range e -> in_some_order e vs -> d_entry (j_entry e vs) = Some e.
Proof.
  destruct e as [h|r|s|f|b]; cbn [in_range in_some_order j_entry]; intros Hr Ho.
  - destruct Hr as (H1 & H2 & H3). destruct h as [v t u hn wk cl wd p sr].
    match goal with |- d_entry (JObj [(_, ?x)]) = _ => change (option_map Header (d_header x) = Some (Header (HeaderEntry v t u hn wk cl wd p sr))) end.
    rewrite d_header_eq, !d_u32_ok, d_time_ok, !d_str_ok, !d_strs_ok by done. done.
  - destruct Hr as (H1 & H2 & H3). destruct r as [t k c cmd r].
    match goal with |- d_entry (JObj [(_, ?x)]) = _ => change (option_map Ready (d_ready x) = Some (Ready (ReadyEntry t k c cmd r))) end.
    rewrite d_ready_eq, !d_u32_ok, d_time_ok, !d_str_ok by done. done.
  - destruct Hr as (H1 & H2). destruct s as [t k h p s].
    match goal with |- d_entry (JObj [(_, ?x)]) = _ => change (option_map Started (d_started x) = Some (Started (StartedEntry t k h p s))) end.
    rewrite d_started_eq, !d_u32_ok, d_time_ok, !d_str_ok by done. done.
  - destruct Hr as (H1 & H2). destruct f as [t k s ms].
    match goal with |- d_entry (JObj [(_, ?x)]) = _ => change (option_map Finished (d_finished x) = Some (Finished (FinishedEntry t k s ms))) end.
    rewrite d_finished_eq, d_time_ok, d_str_ok, d_i32_ok, (d_maps_ok ms) by done. done.
  - destruct b as [k].
    match goal with |- d_entry (JObj [(_, ?x)]) = _ => change (option_map Backref (d_backref x) = Some (Backref (BackrefEntry k))) end.
    rewrite d_backref_eq, d_str_ok. done.
Qed.

Lemma round_trip e t : in_range e -> record_text e t -> parse_record t = Some e.
Proof.
  intros Hr (vs & Ho & ->). unfold parse_record. rewrite read_json_print. by apply d_entry_ok.
Qed.
Lemma j_entry_obj e vs : exists l, j_entry e vs = JObj l.
Proof. destruct e; eexists; reflexivity. Qed.
Lemma torn_text e t g x : record_text e t -> t = g ++ x -> x <> [] -> parse_record g = None.
Proof.
  intros (vs & Ho & ->) E Hx. destruct (j_entry_obj e vs) as [l El]. rewrite El in E.
  unfold parse_record. by rewrite (read_json_prefix _ _ _ E Hx).
Qed.

(** ** One line *)
Definition printable (c : ascii) : Prop := (32 <= code c)%N.
Lemma escape_printable c : Forall printable (escape c).
Proof. destruct c as [[] [] [] [] [] [] [] []]; repeat constructor; vm_compute; congruence. Qed.
Lemma string_printable s : Forall printable (print_string s).
Proof.
  unfold print_string. constructor; [vm_compute; congruence|]. apply Forall_app. split.
  - induction s; cbn; [constructor|]. apply Forall_app. split; [apply escape_printable|done].
  - repeat constructor; vm_compute; congruence.
Qed.
Lemma uint_printable u : Forall printable (print_uint u).
Proof. induction u; cbn; constructor; try done; vm_compute; congruence. Qed.
Lemma commas_printable l : Forall (Forall printable) l -> Forall printable (commas l).
Proof.
  induction 1 as [|x l Hx Hl IH]; [constructor|]. destruct l; [done|].
  change (commas (x :: l :: l0)) with (x ++ COMMA :: commas (l :: l0)).
  apply Forall_app. split; [done|]. constructor; [vm_compute; congruence|done].
Qed.
Lemma json_printable j : Forall printable (print_json j).
Proof.
  induction j as [|b|z| |t|l IH|l IH] using json_ind'; cbn [print_json].
  - repeat constructor; vm_compute; congruence.
  - destruct b; repeat constructor; vm_compute; congruence.
  - unfold print_int. destruct (Z.ltb z 0); [constructor; [vm_compute; congruence|]|]; apply uint_printable.
  - repeat constructor; vm_compute; congruence.
  - apply string_printable.
  - constructor; [vm_compute; congruence|]. apply Forall_app. split; [|repeat constructor; vm_compute; congruence].
    apply commas_printable. apply Forall_map. done.
  - constructor; [vm_compute; congruence|]. apply Forall_app. split; [|repeat constructor; vm_compute; congruence].
    apply commas_printable. apply Forall_map. eapply Forall_impl; [exact IH|]. intros [k v] Hv. cbn [fst snd] in *.
    apply Forall_app. split; [apply string_printable|]. constructor; [vm_compute; congruence|done].
Qed.
Lemma text_printable e t : record_text e t -> Forall printable t.
Proof. intros (vs & _ & ->). apply json_printable. Qed.
Lemma text_not_nil e t : record_text e t -> t <> [].
Proof. intros (vs & _ & ->). destruct (j_entry_obj e vs) as [l ->]. done. Qed.
Lemma printable_LF t : Forall printable t -> LF ∉ t.
Proof. intros H Hin. rewrite Forall_forall in H. specialize (H _ Hin). by vm_compute in H. Qed.
Lemma printable_eol t c : Forall printable t -> c ∈ t -> is_eol c = false.
Proof.
  intros H Hin. rewrite Forall_forall in H. specialize (H _ Hin). unfold is_eol.
  rewrite !ascii_eqb_neq; [done|..]; intros ->; by vm_compute in H.
Qed.

(** ** UTF-8 *)
Lemma utf8_app b b' : utf8_valid b = true -> utf8_valid b' = true -> utf8_valid (b ++ b') = true.
Proof.
  rewrite !utf8_valid_spec. intros (cs & H1 & ->) (cs' & H2 & ->). exists (cs ++ cs'). split; [by apply Forall_app|].
  unfold utf8. by rewrite map_app, concat_app.
Qed.
Lemma utf8_concat l : Forall (fun b => utf8_valid b = true) l -> utf8_valid (concat l) = true.
Proof. induction 1; [done|]. cbn. by apply utf8_app. Qed.
Lemma utf8_low b : Forall (fun c => code c < 128)%N b -> utf8_valid b = true.
Proof. induction 1 as [|c b Hc H IH]; [done|]. cbn. destruct (N.ltb_spec (code c) 128); [done|lia]. Qed.
Lemma escape_high c : (128 <= code c)%N -> escape c = [c].
Proof. destruct c as [[] [] [] [] [] [] [] []]; intros H; try reflexivity; exfalso; by vm_compute in H. Qed.
Lemma escape_low c : (code c < 128)%N -> Forall (fun c => code c < 128)%N (escape c).
Proof. destruct c as [[] [] [] [] [] [] [] []]; intros H; first [by vm_compute in H|repeat constructor; vm_compute; congruence]. Qed.
Lemma utf8_escape b : utf8_valid b = true -> utf8_valid (concat (map escape b)) = true.
Proof.
  rewrite utf8_valid_spec. intros (cs & Hcs & ->). unfold utf8.
  induction Hcs as [|c cs Hc Hcs IH]; [done|]. cbn [map concat]. rewrite map_app, concat_app. apply utf8_app; [|done].
  destruct (N.ltb_spec c 128).
  - unfold utf8_char. destruct (N.ltb_spec c 128); [|lia]. cbn. rewrite app_nil_r. apply utf8_low, escape_low.
    unfold byte. rewrite code_byte; lia.
  - assert (Forall (fun a => 128 <= code a)%N (utf8_char c)) as Hh.
    { unfold utf8_char, byte, scalar in *. destruct (N.ltb_spec c 128); [lia|].
      destruct (N.ltb_spec c 2048), (N.ltb_spec c 65536); try lia; repeat constructor; rewrite code_byte; lia. }
    assert (concat (map escape (utf8_char c)) = utf8_char c) as ->.
    { clear -Hh. induction Hh as [|a b Ha Hb IH]; [done|]. cbn. by rewrite escape_high, IH. }
    rewrite utf8_valid_spec. exists [c]. split; [by constructor|]. cbn. by rewrite app_nil_r.
Qed.
Inductive good_strings : json -> Prop :=
| gs_null : good_strings JNull
| gs_bool b : good_strings (JBool b)
| gs_int z : good_strings (JInt z)
| gs_float : good_strings JFloat
| gs_str s : utf8_valid s = true -> good_strings (JStr s)
| gs_arr l : Forall good_strings l -> good_strings (JArr l)
| gs_obj l : Forall (fun p => utf8_valid (fst p) = true /\ good_strings (snd p)) l -> good_strings (JObj l).
Lemma utf8_cons c b : (code c < 128)%N -> utf8_valid b = true -> utf8_valid (c :: b) = true.
Proof. intros Hc H. cbn. destruct (N.ltb_spec (code c) 128); [done|lia]. Qed.
Lemma utf8_print_string s : utf8_valid s = true -> utf8_valid (print_string s) = true.
Proof. intros H. apply utf8_cons; [done|]. apply utf8_app; [by apply utf8_escape|done]. Qed.
Lemma utf8_commas l : Forall (fun b => utf8_valid b = true) l -> utf8_valid (commas l) = true.
Proof.
  induction 1 as [|x l Hx Hl IH]; [done|]. destruct l as [|y l]; [done|].
  change (commas (x :: y :: l)) with (x ++ COMMA :: commas (y :: l)).
  apply utf8_app; [done|]. by apply utf8_cons.
Qed.
Lemma uint_low u : Forall (fun c => code c < 128)%N (print_uint u).
Proof. induction u; cbn; constructor; try done; vm_compute; congruence. Qed.
Lemma utf8_print j : good_strings j -> utf8_valid (print_json j) = true.
Proof.
  induction j as [|b|z| |t|l IH|l IH] using json_ind'; intros Hg; cbn [print_json].
  - done.
  - by destruct b.
  - unfold print_int. destruct (Z.ltb z 0); [apply utf8_cons; [done|]|]; apply utf8_low, uint_low.
  - done.
  - inversion Hg; subst. by apply utf8_print_string.
  - inversion Hg; subst. apply utf8_cons; [done|]. apply utf8_app; [|done]. apply utf8_commas, Forall_map.
    eapply Forall_impl; [apply Forall_and; split; [exact IH|eassumption]|]. cbn. intros x [H1 H2]. by apply H1.
  - inversion Hg; subst. apply utf8_cons; [done|]. apply utf8_app; [|done]. apply utf8_commas, Forall_map.
    eapply Forall_impl; [apply Forall_and; split; [exact IH|eassumption]|]. intros [k v] [H1 [H2 H3]]. cbn [fst snd] in *.
    apply utf8_app; [by apply utf8_print_string|]. apply utf8_cons; [done|]. by apply H1.
Qed.
Lemma gs_j_str s : is_utf8 (B s) -> good_strings (j_str s).
Proof. intros H. constructor. by apply utf8_valid_spec. Qed.
Lemma gs_j_strs l : (forall s, s ∈ l -> is_utf8 (B s)) -> good_strings (j_strs l).
Proof.
  intros H. constructor. apply Forall_map, Forall_forall. intros s Hs. by apply gs_j_str, H.
Qed.
Lemma gs_j_time t : good_strings (j_time t).
Proof. repeat constructor. Qed.
Lemma gs_entry e vs : rust_strings e -> in_some_order e vs -> good_strings (j_entry e vs).
Proof.
  unfold rust_strings. destruct e as [h|r|s|f|b]; cbn [strings_of in_some_order j_entry]; intros Hs Ho;
    (apply gs_obj; constructor; [split; [reflexivity|]|constructor]; cbn [snd]; apply gs_obj).
  all: repeat (apply List.Forall_cons; [split; [reflexivity|]; cbn [snd]|]); try (apply List.Forall_nil).
  all: try (apply gs_j_time); try (apply gs_int); try (apply gs_j_str, Hs; set_solver).
  - apply gs_j_strs. intros x Hx. apply Hs. set_solver.
  - apply gs_j_strs. intros x Hx. apply Hs. set_solver.
  - constructor. apply Forall_map, Forall_forall. intros l Hl.
    apply elem_of_list_lookup in Hl as [i Hi].
    destruct (Forall2_lookup_r _ _ _ _ _ Ho Hi) as (m & Hm & Hp).
    constructor. apply Forall_map, Forall_forall. intros [k v] Hkv. cbn.
    assert ((k, v) ∈ map_to_list m) as Hkv' by (by rewrite <- Hp).
    assert (forall x, x ∈ [k; v] -> is_utf8 (B x)) as Hx.
    { intros x Hx. apply Hs. apply elem_of_cons. right. apply elem_of_list_In, in_concat.
      exists (map_strings m). split.
      - apply in_map. apply elem_of_list_In. by eapply elem_of_list_lookup_2.
      - unfold map_strings. apply in_concat. exists [k; v]. split; [|by apply elem_of_list_In].
        apply in_map_iff. exists (k, v). split; [done|]. by apply elem_of_list_In. }
    split; [apply utf8_valid_spec, Hx; set_solver|]. apply gs_j_str, Hx. set_solver.
Qed.
Lemma text_utf8 e t : rust_strings e -> record_text e t -> utf8_valid t = true.
Proof. intros Hs (vs & Ho & ->). by apply utf8_print, gs_entry. Qed.

(** ** Lines of a file *)
Definition file_text (ts : list bytes) : bytes := concat (map (fun t => t ++ [LF]) ts).
Lemma file_of_texts es f : file_of es f <-> exists ts, Forall2 record_text es ts /\ f = file_text ts.
Proof.
  split.
  - induction 1 as [|es f e f' Hf (ts & Hts & ->) (t & Ht & ->)].
    + by exists [].
    + exists (ts ++ [t]). split; [by apply Forall2_app; [|constructor]|].
      unfold file_text. rewrite map_app, concat_app. cbn. by rewrite app_nil_r.
  - intros (ts & Hts & ->). revert ts Hts. induction es as [|e es IH] using rev_ind; intros ts Hts.
    + apply Forall2_nil_inv_l in Hts as ->. constructor.
    + apply Forall2_app_inv_l in Hts as (ts1 & ts2 & H1 & H2 & ->).
      apply Forall2_cons_inv_l in H2 as (t & ts3 & Ht & H2 & ->). apply Forall2_nil_inv_l in H2 as ->.
      econstructor; [by apply IH|]. exists t. split; [done|].
      unfold file_text. rewrite map_app, concat_app. cbn. by rewrite app_nil_r.
Qed.

Lemma raw_lines_LF t f : LF ∉ t -> raw_lines (t ++ LF :: f) = (t ++ [LF]) :: raw_lines f.
Proof.
  induction t as [|c t IH]; intros H; [reflexivity|]. cbn [app raw_lines].
  rewrite ascii_eqb_neq by set_solver. rewrite IH by set_solver. done.
Qed.
Lemma raw_lines_last t : LF ∉ t -> t <> [] -> raw_lines t = [t].
Proof.
  induction t as [|c t IH]; intros H Hne; [done|]. cbn [raw_lines].
  rewrite ascii_eqb_neq by set_solver. destruct t as [|d t]; [done|].
  rewrite IH by set_solver. done.
Qed.
Lemma trim_none t : (forall c, c ∈ t -> is_eol c = false) -> trim_eol t = t.
Proof.
  induction t as [|c t IH]; intros H; [done|]. cbn [trim_eol]. rewrite IH by set_solver.
  rewrite (H c) by set_solver. by destruct t.
Qed.
Lemma trim_LF t : (forall c, c ∈ t -> is_eol c = false) -> trim_eol (t ++ [LF]) = t.
Proof.
  induction t as [|c t IH]; intros H; [done|]. cbn [trim_eol app]. rewrite IH by set_solver.
  rewrite (H c) by set_solver. by destruct t.
Qed.
Lemma utf8_LF t : utf8_valid t = true -> utf8_valid (t ++ [LF]) = true.
Proof. intros. by apply utf8_app. Qed.

Section line.
  Context (e : log_entry) (t : bytes) (He : rust_record e) (Ht : record_text e t).
  Lemma load_line v f :
    load_lines v (raw_lines (t ++ LF :: f)) =
      match load_step v e with inl v' => load_lines v' (raw_lines f) | inr err => FLoaded err end.
  Proof.
    pose proof (text_printable e t Ht) as Hp. rewrite raw_lines_LF by (by apply printable_LF). cbn [load_lines].
    rewrite utf8_LF by (apply (text_utf8 e); [apply He|done]).
    rewrite trim_LF by (intros; by eapply printable_eol).
    by rewrite (round_trip e) by (apply He || done).
  Qed.
  Lemma load_last_line v :
    load_lines v (raw_lines t) = FLoaded (load_loop v [e]).
  Proof.
    pose proof (text_printable e t Ht) as Hp.
    rewrite raw_lines_last by (by apply printable_LF || by eapply text_not_nil). cbn [load_lines].
    rewrite (text_utf8 e) by (apply He || done).
    rewrite trim_none by (intros; by eapply printable_eol).
    rewrite (round_trip e) by (apply He || done). cbn. by destruct (load_step v e).
  Qed.
  Lemma read_line f :
    read_lines (raw_lines (t ++ LF :: f)) = match read_lines (raw_lines f) with Some es => Some (e :: es) | None => None end.
  Proof.
    pose proof (text_printable e t Ht) as Hp. rewrite raw_lines_LF by (by apply printable_LF). cbn [read_lines].
    rewrite utf8_LF by (apply (text_utf8 e); [apply He|done]).
    rewrite trim_LF by (intros; by eapply printable_eol).
    by rewrite (round_trip e) by (apply He || done).
  Qed.
  Lemma read_last_line : read_lines (raw_lines t) = Some [e].
  Proof.
    pose proof (text_printable e t Ht) as Hp.
    rewrite raw_lines_last by (by apply printable_LF || by eapply text_not_nil). cbn [read_lines].
    rewrite (text_utf8 e) by (apply He || done).
    rewrite trim_none by (intros; by eapply printable_eol).
    by rewrite (round_trip e) by (apply He || done).
  Qed.
  Lemma torn_line g x : t = g ++ x -> g <> [] -> x <> [] ->
    (forall v, load_lines v (raw_lines g) = FNotUtf8 \/ load_lines v (raw_lines g) = FNotJson) /\
    (read_lines (raw_lines g) = None \/ read_lines (raw_lines g) = Some []).
  Proof.
    intros E Hg Hx. pose proof (text_printable e t Ht) as Hp. rewrite E in Hp. apply Forall_app in Hp as [Hp _].
    rewrite raw_lines_last by (by apply printable_LF || done). cbn [load_lines read_lines].
    rewrite trim_none by (intros; by eapply printable_eol).
    rewrite (torn_text _ _ _ _ Ht E Hx). destruct (utf8_valid g); auto.
  Qed.
End line.

Lemma prefix_cases (t : bytes) f g x : t ++ LF :: f = g ++ x ->
  g = [] \/ (exists y, t = g ++ y /\ g <> [] /\ y <> []) \/ g = t \/ exists g', g = t ++ LF :: g' /\ f = g' ++ x.
Proof.
  revert g. induction t as [|c t IH]; intros [|d g] E; [by auto| |by auto|].
  - cbn in E. injection E as <- E. right. right. right. by exists g.
  - cbn in E. injection E as <- E. destruct (IH g E) as [->|[(y & -> & Hg & Hy)|[->|(g' & -> & ->)]]].
    + destruct t as [|c' t]; [by auto|]. right. left. by exists (c' :: t).
    + right. left. by exists y.
    + auto.
    + right. right. right. by exists g'.
Qed.

Lemma load_whole es ts : Forall2 record_text es ts -> Forall rust_record es -> forall v,
  load_lines v (raw_lines (file_text ts)) = FLoaded (load_loop v es) /\ read_lines (raw_lines (file_text ts)) = Some es.
Proof.
  induction 1 as [|e t es ts Ht Hts IH]; intros Hr v; [done|]. apply Forall_cons in Hr as [He Hr].
  unfold file_text. cbn [map concat]. rewrite <- List.app_assoc. cbn [app]. fold (file_text ts).
  rewrite (load_line e t He Ht), (read_line e t He Ht). cbn [load_loop].
  destruct (load_step v e) as [v'|err]; [destruct (IH Hr v') as [-> ->]|destruct (IH Hr v) as [_ ->]]; done.
Qed.

(** What is found in a file cut anywhere. *)
Lemma load_cut es ts : Forall2 record_text es ts -> Forall rust_record es -> forall g x, file_text ts = g ++ x ->
  exists es1 ts1 es2 ts2, es = es1 ++ es2 /\ ts = ts1 ++ ts2 /\ Forall2 record_text es1 ts1 /\
    ((g = file_text ts1 \/ g ++ [LF] = file_text ts1) /\
       (forall v, load_lines v (raw_lines g) = FLoaded (load_loop v es1)) /\ read_lines (raw_lines g) = Some es1 \/
     (exists e es3 t ts3 y z, es2 = e :: es3 /\ ts2 = t :: ts3 /\ t = y ++ z /\ y <> [] /\ z <> [] /\ g = file_text ts1 ++ y) /\
       (forall v, match load_loop v es1 with
                  | LOk _ => load_lines v (raw_lines g) = FNotUtf8 \/ load_lines v (raw_lines g) = FNotJson
                  | err => load_lines v (raw_lines g) = FLoaded err
                  end) /\
       (read_lines (raw_lines g) = None \/ read_lines (raw_lines g) = Some es1)).
Proof.
  induction 1 as [|e t es ts Ht Hts IH]; intros Hr g x E.
  { symmetry in E. apply app_eq_nil in E as [-> ->]. exists [], [], [], []. split_and!; try done. left. auto. }
  apply Forall_cons in Hr as [He Hr].
  unfold file_text in E. cbn [map concat] in E. rewrite <- List.app_assoc in E. cbn [app] in E. fold (file_text ts) in E.
  destruct (prefix_cases _ _ _ _ E) as [->|[(y & Ey & Hg & Hy)|[->|(g' & -> & E')]]].
  - exists [], [], (e :: es), (t :: ts). split_and!; try done. left. auto.
  - exists [], [], (e :: es), (t :: ts). split_and!; try done. right.
    destruct (torn_line e t Ht g y Ey Hg Hy) as [H1 H2]. split_and!; [|exact H1|exact H2].
    exists e, es, t, ts, g, y. split_and!; done.
  - exists [e], [t], es, ts. split_and!; try done; [by constructor|]. left. split_and!.
    + right. unfold file_text. cbn. by rewrite app_nil_r.
    + intros v. by apply load_last_line.
    + by apply read_last_line.
  - destruct (IH Hr g' x E') as (es1 & ts1 & es2 & ts2 & -> & -> & H12 & Hc).
    exists (e :: es1), (t :: ts1), es2, ts2. split_and!; try done; [by constructor|].
    rewrite (read_line e t He Ht).
    assert (forall v, load_lines v (raw_lines (t ++ LF :: g')) =
      match load_step v e with inl v' => load_lines v' (raw_lines g') | inr err => FLoaded err end) as Hl
      by (intros v; by apply load_line).
    assert (file_text (t :: ts1) = t ++ LF :: file_text ts1) as Ef.
    { unfold file_text. cbn [map concat]. by rewrite <- List.app_assoc. }
    destruct Hc as [(Hg & Hload & Hread)|((e' & es3 & t' & ts3 & y & z & H1 & H2 & H3 & H4 & H5 & H6) & Hload & Hread)].
    + left. split_and!.
      * rewrite Ef. destruct Hg as [->|Hg]; [by left|right]. rewrite <- List.app_assoc. cbn [app]. by rewrite Hg.
      * intros v. rewrite Hl. cbn [load_loop]. by destruct (load_step v e).
      * by rewrite Hread.
    + right. split_and!.
      * exists e', es3, t', ts3, y, z. split_and!; try done. rewrite Ef, H6. by rewrite <- List.app_assoc.
      * intros v. rewrite Hl. cbn [load_loop]. destruct (load_step v e) as [v'|err] eqn:Es; [apply Hload|].
        destruct err as [s| |n|] eqn:Ee; try done. exfalso. clear -Es.
        unfold load_step in Es. repeat case_match; congruence.
      * destruct Hread as [-> | ->]; auto.
Qed.

Lemma ends_after_texts es ts g : Forall2 record_text es ts -> g = file_text ts \/ g ++ [LF] = file_text ts -> ends_after es g.
Proof. intros H [->|E]; [left|right]; apply file_of_texts; eauto. Qed.

Lemma cut_loaded es f g r : Forall rust_record es -> file_of es f -> begins g f -> load_file g = FLoaded r ->
  exists es1 es2, es = es1 ++ es2 /\ load_runcounts es1 = r /\ (forall s, r = LOk s -> ends_after es1 g).
Proof.
  intros Hr (ts & Hts & ->)%file_of_texts [x E] Hl.
  destruct (load_cut _ _ Hts Hr g x E) as (es1 & ts1 & es2 & ts2 & -> & -> & H12 & Hc). exists es1, es2. split; [done|].
  unfold load_file in Hl. unfold load_runcounts. set (v := LoadVars ∅ None None) in *.
  destruct Hc as [(Hg & Hload & _)|(_ & Hload & _)].
  - rewrite Hload in Hl. simplify_eq. split; [done|]. intros s _. by eapply ends_after_texts.
  - specialize (Hload v). destruct (load_loop v es1) eqn:El.
    + destruct Hload as [H|H]; rewrite H in Hl; discriminate.
    + rewrite Hload in Hl. by simplify_eq.
    + rewrite Hload in Hl. by simplify_eq.
    + rewrite Hload in Hl. by simplify_eq.
Qed.
Lemma cut_read es f g es' : Forall rust_record es -> file_of es f -> begins g f -> read_file g = Some es' ->
  exists es2, es = es' ++ es2.
Proof.
  intros Hr (ts & Hts & ->)%file_of_texts [x E] Hl.
  destruct (load_cut _ _ Hts Hr g x E) as (es1 & ts1 & es2 & ts2 & -> & -> & H12 & Hc).
  unfold read_file in Hl. destruct Hc as [(_ & _ & Hread)|(_ & _ & [Hread|Hread])]; rewrite Hread in Hl; simplify_eq; eauto.
Qed.
Lemma cut_inside es f e t y z : Forall rust_record es -> file_of es f -> rust_record e -> record_text e t ->
  t = y ++ z -> y <> [] -> z <> [] ->
  match load_runcounts es with
  | LOk _ => load_file (f ++ y) = FNotUtf8 \/ load_file (f ++ y) = FNotJson
  | err => load_file (f ++ y) = FLoaded err
  end /\ (read_file (f ++ y) = None \/ read_file (f ++ y) = Some es).
Proof.
  intros Hr (ts & Hts & ->)%file_of_texts He Ht E Hy Hz.
  destruct (torn_line e t Ht y z E Hy Hz) as [H1 H2].
  unfold load_runcounts, load_file, read_file. generalize (LoadVars ∅ None None) as v.
  induction Hts as [|e' t' es ts Ht' Hts IH]; intros v.
  { cbn [file_text map concat app load_loop]. split; [apply H1|apply H2]. }
  apply Forall_cons in Hr as [He' Hr].
  assert (file_text (t' :: ts) ++ y = t' ++ LF :: (file_text ts ++ y)) as ->.
  { unfold file_text. cbn [map concat]. by rewrite <- !List.app_assoc. }
  rewrite (load_line e' t' He' Ht'), (read_line e' t' He' Ht'). cbn [load_loop].
  split.
  - destruct (load_step v e') as [v'|err] eqn:Es; [apply IH; done|].
    destruct err as [s| |n|] eqn:Ee; try done. exfalso. clear -Es. unfold load_step in Es. repeat case_match; congruence.
  - destruct (IH Hr v) as [_ [-> | ->]]; auto.
Qed.
Lemma cut_at_end es g : Forall rust_record es -> ends_after es g ->
  load_file g = FLoaded (load_runcounts es) /\ read_file g = Some es.
Proof.
  intros Hr [Hf|Hf].
  - apply file_of_texts in Hf as (ts & Hts & ->). destruct (load_whole es ts Hts Hr (LoadVars ∅ None None)). done.
  - apply file_of_texts in Hf as (ts & Hts & E).
    unfold load_file, read_file, load_runcounts. generalize (LoadVars ∅ None None) as v. revert g E.
    induction Hts as [|e t es ts Ht Hts IH]; intros g E v; [by destruct g|]. apply Forall_cons in Hr as [He Hr].
    unfold file_text in E. cbn [map concat] in E. rewrite <- List.app_assoc in E. cbn [app] in E. fold (file_text ts) in E.
    destruct Hts as [|e' t' es ts Ht' Hts].
    + apply app_inj_tail in E as [-> _]. rewrite (load_last_line e t He Ht), (read_last_line e t He Ht). done.
    + symmetry in E. destruct (prefix_cases _ _ _ _ E) as [->|[(y & Ey & Hg & Hy)|[->|(g' & -> & E')]]].
      * exfalso. assert (length (t ++ LF :: file_text (t' :: ts)) = 1) as Hlen by (by rewrite E).
        rewrite app_length in Hlen. cbn in Hlen. pose proof (text_not_nil _ _ Ht). destruct t; [done|]. cbn in Hlen. lia.
      * exfalso. rewrite Ey in E. rewrite <- List.app_assoc in E. apply app_inv_head in E.
        destruct y as [|c y]; [done|]. injection E as -> E. by destruct y.
      * exfalso. apply app_inv_head in E. injection E as E. unfold file_text in E. cbn in E.
        destruct t'; cbn in E; discriminate.
      * destruct (IH Hr g' (eq_sym E') v) as [_ Hread].
        rewrite (load_line e t He Ht), (read_line e t He Ht), Hread. split; [|done].
        cbn [load_loop]. destruct (load_step v e) as [v'|err]; [|done]. by destruct (IH Hr g' (eq_sym E') v') as [-> _].
Qed.
