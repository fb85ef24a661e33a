From Verif Require Export RateSpec.
From Coq Require Import Lra Psatz.

Lemma since_le now t : t <= now -> since now t = now - t.
Proof. intros H. unfold since. apply Rmax_right. lra. Qed.

Lemma ordered_le l : forall t t', ordered_between t l t' -> t <= t'.
Proof. induction l as [|x l IH]; simpl; intros t t' H; [lra|]. destruct H as [H1 H2]. apply IH in H2. lra. Qed.

Lemma sum_mult f c l : c * sum_over f l = sum_over (fun x => c * f x) l.
Proof. induction l as [|x l IH]; simpl; [ring|]. rewrite <- IH. ring. Qed.
Lemma sum_ext f g l : (forall x, f x = g x) -> sum_over f l = sum_over g l.
Proof. intros H. induction l as [|x l IH]; simpl; [reflexivity|]. rewrite H, IH. reflexivity. Qed.

(** The weight at time [t], from a counter. *)
Lemma fold_weight ts : forall c t, ordered_between (rc_t_last c) ts t ->
  let c' := fold_left rc_update ts c in
  rc_k c' = rc_k c /\ rc_t0 c' = rc_t0 c /\ rc_t_last c <= rc_t_last c' <= t /\
  exp (- rc_k c * (t - rc_t_last c')) * rc_lambda c' =
  exp (- rc_k c * (t - rc_t_last c)) * rc_lambda c + sum_over (fun x => rc_k c * exp (- rc_k c * (t - x))) ts.
Proof.
  induction ts as [|x ts IH]; intros c t H; cbn [fold_left].
  - simpl in *. repeat split; lra.
  - destruct H as [H1 H2]. specialize (IH (rc_update c x) t). cbn zeta in *. destruct IH as (A & B & C & D); [exact H2|].
    cbn [rc_k rc_t0 rc_t_last rc_lambda rc_update] in *.
    split; [exact A|]. split; [exact B|]. split; [lra|]. rewrite D. cbn [sum_over]. rewrite since_le by exact H1.
    rewrite Rmult_plus_distr_l, <- Rmult_assoc, <- exp_plus.
    replace (- rc_k c * (t - x) + - rc_k c * (x - rc_t_last c)) with (- rc_k c * (t - rc_t_last c)) by ring. ring.
Qed.

Lemma exp_lt_1 k d : 0 < k -> 0 < d -> exp (- k * d) < 1.
Proof.
  intros Hk Hd. rewrite <- exp_0. apply exp_increasing. assert (0 < k * d) by (apply Rmult_lt_0_compat; assumption). lra.
Qed.

Lemma rate_formula tau t0 ts t : 0 < tau -> ordered_between t0 ts t -> t0 < t ->
  rc_rate (rc_after tau t0 ts) t =
  sum_over (fun x => 1 / tau * exp (- (1 / tau) * (t - x))) ts / (1 - exp (- (1 / tau) * (t - t0))).
Proof.
  intros Htau Hts Ht. destruct (fold_weight ts (rc_new tau t0) t Hts) as (A & B & C & D). unfold rc_after, rc_rate.
  cbn zeta. rewrite A, B. cbn [rc_new rc_k rc_t0 rc_t_last rc_lambda] in *.
  rewrite (since_le t t0) by lra. rewrite (since_le t (rc_t_last (fold_left rc_update ts (rc_new tau t0)))) by (unfold rc_new in *; simpl in *; lra). rewrite D.
  assert (0 < 1 / tau) by (apply Rdiv_lt_0_compat; lra).
  assert (exp (- (1 / tau) * (t - t0)) < 1) by (apply exp_lt_1; lra).
  destruct (Rlt_dec 0 _); [|lra]. rewrite Rmult_0_r, Rplus_0_l. reflexivity.
Qed.

Lemma sum_nonneg f l : (forall x, 0 <= f x) -> 0 <= sum_over f l.
Proof. intros H. induction l as [|x l IH]; simpl; [lra|]. specialize (H x). lra. Qed.
Lemma sum_le f g l : (forall x, f x <= g x) -> sum_over f l <= sum_over g l.
Proof. intros H. induction l as [|x l IH]; simpl; [lra|]. specialize (H x). lra. Qed.

Lemma rate_decreases tau t0 ts t t' : 0 < tau -> ordered_between t0 ts t -> t0 < t -> t <= t' ->
  rc_rate (rc_after tau t0 ts) t' <= rc_rate (rc_after tau t0 ts) t.
Proof.
  intros Htau Hts Ht Ht'.
  assert (ordered_between t0 ts t') as Hts'.
  { clear Ht. revert t0 Hts. induction ts as [|x ts IH]; simpl; intros t0 H; [lra|]. destruct H. split; auto. }
  rewrite !rate_formula by (assumption || lra).
  assert (0 < 1 / tau) by (apply Rdiv_lt_0_compat; lra). set (k := 1 / tau) in *.
  assert (forall a b, a <= b -> exp (- k * b) <= exp (- k * a)) as Hexp.
  { intros a b Hab. destruct (Req_dec a b) as [->|Hne]; [lra|]. left. apply exp_increasing. nra. }
  assert (exp (- k * (t - t0)) < 1) by (apply exp_lt_1; lra).
  assert (exp (- k * (t' - t0)) <= exp (- k * (t - t0))) by (apply Hexp; lra).
  assert (0 <= sum_over (fun x => k * exp (- k * (t' - x))) ts).
  { apply sum_nonneg. intros x. pose proof (exp_pos (- k * (t' - x))). nra. }
  assert (sum_over (fun x => k * exp (- k * (t' - x))) ts <= sum_over (fun x => k * exp (- k * (t - x))) ts).
  { apply sum_le. intros x. pose proof (Hexp (t - x) (t' - x) ltac:(lra)). nra. }
  unfold Rdiv. apply Rmult_le_compat; try assumption.
  - left. apply Rinv_0_lt_compat. lra.
  - apply Rinv_le_contravar; lra.
Qed.
