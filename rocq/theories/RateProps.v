(** The launch rate estimate: C49, over the real numbers. FloatProps.v has it with the roundings of f64. *)
From Verif Require Import RateProofs.
From Coq Require Import Lra Psatz.

(** C49, without the rounding of f64: the reported rate is the exponentially weighted count of the events. *)
Theorem launch_rate_formula : forall tau t0 ts t, 0 < tau -> ordered_between t0 ts t -> t0 < t ->
  rc_rate (rc_after tau t0 ts) t =
  sum_over (fun ti => 1 / tau * exp (- (1 / tau) * (t - ti))) ts / (1 - exp (- (1 / tau) * (t - t0))).
Proof. exact rate_formula. Qed.
Print Assumptions launch_rate_formula.

Theorem launch_rate_nonnegative : forall tau t0 ts t, 0 < tau -> ordered_between t0 ts t -> 0 <= rc_rate (rc_after tau t0 ts) t.
Proof.
  intros tau t0 ts t Htau Hts. destruct (Rtotal_order t0 t) as [Ht|[<-|Ht]].
  - rewrite rate_formula by assumption. assert (0 < 1 / tau) by (apply Rdiv_lt_0_compat; lra).
    apply Rmult_le_pos.
    + apply sum_nonneg. intros x. pose proof (exp_pos (- (1 / tau) * (t - x))). nra.
    + left. apply Rinv_0_lt_compat. assert (exp (- (1 / tau) * (t - t0)) < 1); [apply exp_lt_1; lra|lra].
  - unfold rc_rate. destruct (fold_weight ts (rc_new tau t0) t0 Hts) as (A & B & C & D). unfold rc_after. cbn zeta. rewrite A, B.
    cbn [rc_new rc_k rc_t0]. rewrite (since_le t0 t0) by lra. replace (- (1 / tau) * (t0 - t0)) with 0 by ring.
    rewrite exp_0. destruct (Rlt_dec 0 (1 - 1)); lra.
  - apply ordered_le in Hts. lra.
Qed.
Print Assumptions launch_rate_nonnegative.

(** Before any time has passed the rate is 0. *)
Theorem launch_rate_at_start : forall tau t0 ts, 0 < tau -> ordered_between t0 ts t0 -> rc_rate (rc_after tau t0 ts) t0 = 0.
Proof.
  intros tau t0 ts Htau Hts. unfold rc_rate. destruct (fold_weight ts (rc_new tau t0) t0 Hts) as (A & B & C & D). unfold rc_after. cbn zeta. rewrite A, B.
  cbn [rc_new rc_k rc_t0]. rewrite (since_le t0 t0) by lra. replace (- (1 / tau) * (t0 - t0)) with 0 by ring.
  rewrite exp_0. destruct (Rlt_dec 0 (1 - 1)); lra.
Qed.
Print Assumptions launch_rate_at_start.

Theorem launch_rate_decreases : forall tau t0 ts t t', 0 < tau -> ordered_between t0 ts t -> t0 < t -> t <= t' ->
  rc_rate (rc_after tau t0 ts) t' <= rc_rate (rc_after tau t0 ts) t.
Proof. exact rate_decreases. Qed.
Print Assumptions launch_rate_decreases.

(** Two events, at 1 and 2 seconds; the rate is positive at 3 seconds. *)
Example rate_demo : ordered_between 0 [1; 2] 3 /\ 0 < rc_rate (rc_after 10 0 [1; 2]) 3.
Proof.
  assert (ordered_between 0 [1; 2] 3) as H by (simpl; lra). split; [exact H|].
  rewrite rate_formula by (lra || exact H). simpl.
  pose proof (exp_pos (- (1 / 10) * (3 - 1))). pose proof (exp_pos (- (1 / 10) * (3 - 2))).
  assert (exp (- (1 / 10) * (3 - 0)) < 1) by (apply exp_lt_1; lra).
  apply Rdiv_lt_0_compat; lra.
Qed.

(** One event, at the very start. *)
Example rate_at_start_demo : ordered_between 0 [0] 0.
Proof. simpl. lra. Qed.
