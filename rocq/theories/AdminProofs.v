From Verif Require Export AdminSpec LocProofs.
Open Scope list_scope.

Lemma strip_app p s : strip p (p ++ s) = Some s.
Proof. induction p as [|x p IH]; [by destruct s|]. simpl. by rewrite N.eqb_refl. Qed.
Lemma strip_spec p s r : strip p s = Some r -> s = p ++ r.
Proof.
  revert s. induction p as [|x p IH]; intros s H; [destruct s; by injection H as <-|]. destruct s as [|y s]; [done|]. simpl in H.
  destruct (N.eqb x y) eqn:E; [|done]. apply N.eqb_eq in E as ->. simpl. f_equal. by apply IH.
Qed.
Lemma value_text d : forall acc, value acc (text d) = digits_value acc d.
Proof. unfold text. induction d as [|c d IH]; intros acc; [done|]. cbn [list_ascii_of_string map value digits_value]. unfold ascii_digit. destruct (_ && _); [apply IH|done]. Qed.
Lemma value_digits d acc v : value acc d = Some v -> Forall (fun c => ascii_digit c = true) d.
Proof. revert acc. induction d as [|c d IH]; intros acc H; [done|]. simpl in H. destruct (ascii_digit c) eqn:E; [|done]. constructor; [done|]. by eapply IH. Qed.
Lemma ascii_text (d : list N) : Forall (fun c => (c < 256)%N) d -> exists s, d = text s.
Proof.
  induction 1 as [|c d Hc _ [s ->]]; [by exists EmptyString|]. exists (String (ascii_of_N c) s). unfold text. simpl. by rewrite N_ascii_embedding.
Qed.
Lemma decimal_digits n : Forall (fun c => ascii_digit c = true) (text (decimal n)).
Proof. apply (value_digits _ 0 n). rewrite value_text. apply decimal_value. Qed.
Lemma decimal_nonempty n : text (decimal n) <> [].
Proof. intros H. pose proof (decimal_value n) as Hv. destruct (decimal n) eqn:E; [|done]. injection Hv as <-. done. Qed.

Lemma list_snoc_cases {A} (l : list A) : l = [] \/ exists l' x, l = l' ++ [x].
Proof. induction l as [|x l _] using rev_ind; [by left|]. right. by exists l, x. Qed.

Section re.
Variable od : N -> bool.
Notation captures := (captures od).

Lemma span_spec s : s = (span od s).1 ++ (span od s).2 /\ match (span od s).2 with c :: _ => re_digit od c = false | [] => True end.
Proof.
  induction s as [|c s IH]; [done|]. simpl. destruct (re_digit od c) eqn:E; [|done]. destruct (span od s) as [d r]. simpl in *. destruct IH as [-> IH]. done.
Qed.
Lemma span_digits d c r : Forall (fun c => ascii_digit c = true) d -> re_digit od c = false -> span od (d ++ c :: r) = (d, c :: r).
Proof. induction 1 as [|x d Hx _ IH]; intros Hc; simpl; [by rewrite Hc|]. unfold re_digit at 1. rewrite Hx. simpl. by rewrite IH. Qed.

Lemma group_spec s d : group od s = Some d -> exists c r, s = d ++ [c] ++ sock ++ r /\ d <> [].
Proof.
  unfold group. destruct (span_spec s) as [Hs Hc]. destruct (span od s) as [e r]. cbn [fst snd] in *. destruct e as [|x e]; [done|].
  destruct r as [|c r].
  - destruct (removelast (x :: e)); done.
  - destruct (negb (N.eqb c 10) && _) eqn:E.
    + intros [= <-]. apply andb_true_iff in E as [_ E]. destruct (strip sock r) as [r'|] eqn:Er; [|done]. apply strip_spec in Er as ->. exists c, r'. done.
    + destruct (removelast (x :: e)) as [|y d'] eqn:El; [done|]. destruct (strip sock (c :: r)) as [r'|] eqn:Er; [|done]. intros [= <-].
      apply strip_spec in Er. exists (List.last (x :: e) 0%N), r'. split; [|done]. rewrite Hs, Er, <- El, (List.app_assoc (removelast _)), <- app_removelast_last by done. done.
Qed.
Lemma captures_spec s d : captures s = Some d -> exists before c after, s = before ++ prefix_ ++ d ++ [c] ++ sock ++ after /\ d <> [].
Proof.
  induction s as [|x s IH]; intros H; [done|]. cbn [AdminModel.captures] in H.
  destruct (strip prefix_ (x :: s)) as [r|] eqn:E.
  - destruct (group od r) as [d'|] eqn:Eg.
    + injection H as ->. apply strip_spec in E as ->. apply group_spec in Eg as (c & r' & -> & Hd). exists [], c, r'. done.
    + destruct (IH H) as (b & c & a & -> & Hd). by exists (x :: b), c, a.
  - destruct (IH H) as (b & c & a & -> & Hd). by exists (x :: b), c, a.
Qed.
Lemma parse_spec d p : parse_usize d = Some p -> value 0 d = Some p.
Proof. unfold parse_usize. destruct d; [done|]. destruct (value 0 (n :: d)) as [v|]; [|done]. destruct (N.ltb v _); [|done]. done. Qed.
Lemma captures_mentions name d p : captures name = Some d -> parse_usize d = Some p -> names_process name p.
Proof.
  intros H1 H2. apply captures_spec in H1 as (b & c & a & -> & _). apply parse_spec in H2.
  destruct (ascii_text d) as [s ->]. { eapply Forall_impl; [by eapply value_digits|]. intros x Hx. unfold ascii_digit in Hx. apply andb_true_iff in Hx as [_ Hx%N.leb_le]. lia. }
  exists b, s, c, a. split; [done|]. by rewrite <- value_text.
Qed.
Lemma captures_sock_name p : captures (sock_name p) = Some (text (decimal p)).
Proof.
  unfold sock_name. assert (forall r, captures (prefix_ ++ r) = match group od r with Some d => Some d | None => captures (tail (prefix_ ++ r)) end) as ->.
  { intros r. change (prefix_ ++ r) with (119%N :: 114%N :: 107%N :: 45%N :: r). cbn [AdminModel.captures]. change (strip prefix_ (119%N :: 114%N :: 107%N :: 45%N :: r)) with (strip prefix_ (prefix_ ++ r)).
    rewrite strip_app. done. }
  unfold group. change (text ".sock") with (46%N :: sock). rewrite (span_digits (text (decimal p)) 46 sock); [|apply decimal_digits|reflexivity].
  pose proof (decimal_nonempty p). destruct (text (decimal p)); [done|]. reflexivity.
Qed.
Lemma parse_sock_name p q : parse_usize (text (decimal p)) = Some q -> q = p.
Proof. intros H%parse_spec. rewrite value_text, decimal_value in H. congruence. Qed.
Lemma sock_name_inj p q : sock_name p = sock_name q -> p = q.
Proof.
  intros H. pose proof (captures_sock_name p) as Hp. rewrite H, captures_sock_name in Hp. injection Hp as Hp.
  pose proof (decimal_value p) as H1. rewrite <- value_text, <- Hp, value_text, decimal_value in H1. congruence.
Qed.

(** ** Runs *)
Notation run := (admin_run od).
Lemma admin_run_snoc w acts a w2 t : run w (acts ++ [a]) = Some (w2, t) ->
  exists w1 t1 os, run w acts = Some (w1, t1) /\ admin_step od w1 a = Some (w2, os) /\ t = t1 ++ os.
Proof.
  revert w t. induction acts as [|b acts IH]; intros w t H; cbn [app admin_run] in H.
  - destruct (admin_step od w a) as [[w' os]|] eqn:E; [|done]. injection H as <- <-. exists w, [], os. by rewrite app_nil_r.
  - destruct (admin_step od w b) as [[w' os]|] eqn:E; [|done]. destruct (run w' (acts ++ [a])) as [[w'' os']|] eqn:E2; [|done]. injection H as <- <-.
    destruct (IH _ _ E2) as (w1 & t1 & os1 & H1 & H2 & ->). exists w1, (os ++ t1), os1. cbn [admin_run]. rewrite E, H1, List.app_assoc. done.
Qed.
End re.
