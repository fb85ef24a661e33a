(** The launch rate estimate with the roundings of f64: C49. *)
From Verif Require Import FloatProofs.
From Coq Require Import Lra Lia Psatz.
From Flocq Require Import Core.
Open Scope R_scope.

(** C49: the reported rate is the weighted count of the events, but for a relative error
    (first exponent) that grows with the number of events and the age of the counter, in units
    of 2^-53, and an absolute one of 2^-800. *)
Theorem launch_rate_accurate : forall fexp tau t0 t_last ts t,
  good_exp fexp -> bpow radix2 (-60) <= 1 / tau <= bpow radix2 60 ->
  (t0 <= t_last)%N -> in_order t_last ts t ->
  INR (length ts) <= 1099511627776 -> 1 / tau * seconds (t - t0) <= 1099511627776 ->
  bpow radix2 (-40) <= warm_up tau t0 t ->
  let h := (8 * INR (length ts) + 11 * (1 / tau * seconds (t - t0)) + 62 / warm_up tau t0 t + 10) * bpow radix2 (-53) in
  exp (- h) * (exact_rate tau t0 ts t - bpow radix2 (-800)) <= fr_rate fexp (fr_after fexp tau t0 t_last ts) t <=
  exp h * (exact_rate tau t0 ts t + bpow radix2 (-800)).
Proof.
  intros fexp tau t0 b ts t He HK Hb Ho Hn Hs Hd. exact (rate_near fexp He (1 / tau) HK tau eq_refl t0 b ts t Hb Ho Hn Hs Hd).
Qed.
Print Assumptions launch_rate_accurate.

(** C49, in numbers: with the code's timescale of 30 s, up to a million events, and an age from
    one second to a year, the reported rate is right to one part in 10^8. *)
Theorem launch_rate_within_1e_8 : forall fexp t0 t_last ts t,
  good_exp fexp -> (t0 <= t_last)%N -> in_order t_last ts t ->
  INR (length ts) <= 1000000 -> 1 <= seconds (t - t0) <= 31536000 ->
  Rabs (fr_rate fexp (fr_after fexp 30 t0 t_last ts) t - exact_rate 30 t0 ts t) <=
  exact_rate 30 t0 ts t / 100000000 + bpow radix2 (-799).
Proof.
  intros fexp t0 b ts t He Hb Ho Hn [Hs1 Hs2].
  assert (exp (- / 30) <= 30 / 31) as E30. { eapply Rle_trans; [apply exp_neg_ge; lra|]. apply Req_le. field. }
  assert (/ 31 <= warm_up 30 t0 t) as Hd.
  { unfold warm_up. pose proof (exp_mono (- (1 / 30) * seconds (t - t0)) (- / 30) ltac:(lra)). lra. }
  assert (bpow radix2 (-60) <= 1 / 30 <= bpow radix2 60) as HK. { change (bpow radix2 (-60)) with (/ 1152921504606846976). change (bpow radix2 60) with 1152921504606846976. lra. }
  pose proof (launch_rate_accurate fexp 30 t0 b ts t He HK Hb Ho ltac:(lra) ltac:(lra) ltac:(change (bpow radix2 (-40)) with (/ 1099511627776); lra)) as A.
  cbv zeta in A. fold u in A. pose proof u_bounds as Hu. set (h := (8 * INR (length ts) + _ + _ + 10) * u) in A.
  assert (0 <= 62 / warm_up 30 t0 t <= 62 * 31) as G.
  { assert (0 < / warm_up 30 t0 t <= / / 31) as G by (split; [apply Rinv_0_lt_compat|apply Rinv_le_contravar]; lra). rewrite Rinv_inv in G. unfold Rdiv. lra. }
  pose proof (pos_INR (length ts)) as I0.
  assert (0 <= h <= / 400000000) as Hh by (unfold h; nra).
  assert (0 <= exact_rate 30 t0 ts t) as R0.
  { unfold exact_rate. apply Rmult_le_pos; [|left; apply Rinv_0_lt_compat; lra]. apply (weighted_bounds (1 / 30) HK 30 eq_refl). }
  assert (0 < bpow radix2 (-800)) as B0 by apply bpow_gt_0. rewrite (bp2 (-799)). change (-799 - 1)%Z with (-800)%Z.
  pose proof (exp_half h ltac:(lra) ltac:(lra)) as X. pose proof (exp_ge (- h)) as X'. pose proof (exp_le_1 (- h) ltac:(lra)) as X''.
  set (r := exact_rate 30 t0 ts t) in *. set (e := bpow radix2 (-800)) in *. set (v := fr_rate _ _ _) in *. clearbody r e v h.
  apply Rabs_le. destruct A as [A1 A2]. split.
  - assert (exp (- h) * (r - e) >= r - h * r - e) by nra. nra.
  - assert (exp h * (r + e) <= (1 + 2 * h) * (r + e)) by nra. nra.
Qed.
Print Assumptions launch_rate_within_1e_8.

(** C49: the reported rate is never negative, whatever the order of the times. *)
Theorem launch_rate_nonnegative_f64 : forall fexp tau t0 t_last ts t,
  good_exp fexp -> bpow radix2 (-60) <= 1 / tau <= bpow radix2 60 ->
  0 <= fr_rate fexp (fr_after fexp tau t0 t_last ts) t.
Proof. intros fexp tau t0 b ts t He HK. exact (rate_nonneg fexp He (1 / tau) HK tau eq_refl t0 b ts t). Qed.
Print Assumptions launch_rate_nonnegative_f64.

(** C49: at the time the counter was made (and should the clock go back, before it) the reported rate is 0. *)
Theorem launch_rate_at_start_f64 : forall fexp tau t0 t_last ts t,
  good_exp fexp -> bpow radix2 (-60) <= 1 / tau <= bpow radix2 60 -> fexp 0 = 1 -> (t <= t0)%N -> fr_rate fexp (fr_after fexp tau t0 t_last ts) t = 0.
Proof.
  intros fexp tau t0 b ts t He HK E Ht.
  destruct (after_fields fexp (1 / tau) tau eq_refl t0 b ts) as (_ & H0 & _).
  assert (Hd : denominator fexp (fr_after fexp tau t0 b ts) t = 0).
  { unfold denominator, decay. rewrite H0. replace (t - t0)%N with 0%N by lia. unfold secs_f64. cbn [N.div N.modulo N.div_eucl fst snd].
    assert (Hz : b64 0 = 0) by (unfold b64; apply round_0; typeclasses eauto).
    change (IZR (Z.of_N 0)) with 0. rewrite Hz. unfold Rdiv. rewrite Rmult_0_l, Hz, Rplus_0_l, Hz, Rmult_0_r, Hz, E. rewrite Rminus_diag_eq by reflexivity. exact Hz. }
  unfold fr_rate. rewrite Hd. destruct (Rlt_dec 0 0) as [H|H]; [destruct (Rlt_irrefl _ H)|reflexivity].
Qed.
Print Assumptions launch_rate_at_start_f64.

(** C49: it does not grow while no event happens. *)
Theorem launch_rate_decreases_f64 : forall fexp tau t0 t_last ts t t',
  good_exp fexp -> bpow radix2 (-60) <= 1 / tau <= bpow radix2 60 -> tau <= 100000 ->
  (t0 <= t_last)%N -> in_order t_last ts t -> (t0 < t)%N -> (t <= t')%N -> seconds (t' - t0) < 9007199254740992 ->
  fr_rate fexp (fr_after fexp tau t0 t_last ts) t' <= fr_rate fexp (fr_after fexp tau t0 t_last ts) t.
Proof. intros fexp tau t0 b ts t t' He HK. exact (rate_decreases fexp He (1 / tau) HK tau eq_refl t0 b ts t t'). Qed.
Print Assumptions launch_rate_decreases_f64.

(** Leaving overflow out of the model is right: no result of an operation comes near 2^1024,
    where f64 ends. *)
Theorem no_overflow : forall fexp tau t0 t_last ts t,
  good_exp fexp -> bpow radix2 (-60) <= 1 / tau <= bpow radix2 60 ->
  (t0 <= t_last)%N -> in_order t_last ts t ->
  INR (length ts) <= 1099511627776 -> 1 / tau * seconds (t - t0) <= 1099511627776 ->
  Forall (fun x => Rabs x <= bpow radix2 200) (exact_results fexp (fr_after fexp tau t0 t_last ts) t).
Proof. intros fexp tau t0 b ts t He HK. exact (results_bounded fexp He (1 / tau) HK tau eq_refl t0 b ts t). Qed.
Print Assumptions no_overflow.

(** The contract on f64::exp can be met: rounding the exact value to the nearest f64 does. *)
Theorem good_exp_exists : exists fexp, good_exp fexp.
Proof. exists (fun x => b64 (exp x)). exact rounded_exp_good. Qed.
Print Assumptions good_exp_exists.

(** The hypotheses hold of a counter made at 5 s (its second reading of the clock 100 ns later),
    with events at 6 s and 7.5 s, asked at 8 s; the exact rate is then above one event in a
    minute, so the bound of [launch_rate_within_1e_8] keeps the reported rate positive. *)
Example launch_rate_demo :
  let ts := [6000000000; 7500000000]%N in
  in_order 5000000100 ts 8000000000 /\ INR (length ts) <= 1000000 /\ 1 <= seconds (8000000000 - 5000000000) <= 31536000 /\
  / 60 <= exact_rate 30 5000000000 ts 8000000000 /\
  0 < fr_rate (fun x => b64 (exp x)) (fr_after (fun x => b64 (exp x)) 30 5000000000 5000000100 ts) 8000000000.
Proof.
  assert (seconds (8000000000 - 5000000000) = 3) as S by (unfold seconds; simpl; field).
  assert (in_order 5000000100 [6000000000; 7500000000] 8000000000)%N as Ho by (simpl; lia).
  assert (/ 60 <= exact_rate 30 5000000000 [6000000000; 7500000000]%N 8000000000) as R60.
  { unfold exact_rate, weighted_count, warm_up. cbn [sum_over_events]. rewrite S.
    assert (seconds (8000000000 - 6000000000) = 2) as -> by (unfold seconds; simpl; field).
    assert (seconds (8000000000 - 7500000000) = / 2) as -> by (unfold seconds; simpl; field).
    pose proof (exp_ge (- (1 / 30) * 2)) as A. pose proof (exp_ge (- (1 / 30) * / 2)) as B. pose proof (exp_pos (- (1 / 30) * 3)) as C.
    pose proof (exp_neg_ge (- (1 / 30) * 3) ltac:(lra)) as D. assert (/ (1 - - (1 / 30) * 3) = 10 / 11) as E by field. rewrite E in D.
    set (d := 1 - exp (- (1 / 30) * 3)) in *. assert (1 <= / d) as I by (rewrite <- Rinv_1; apply Rinv_le_contravar; unfold d; lra).
    set (n := 1 / 30 * exp (- (1 / 30) * 2) + _). assert (/ 60 <= n) as N by (unfold n; lra). unfold Rdiv. nra. }
  assert (0 < fr_rate (fun x => b64 (exp x)) (fr_after (fun x => b64 (exp x)) 30 5000000000 5000000100 [6000000000; 7500000000]%N) 8000000000) as P.
  { pose proof (launch_rate_within_1e_8 _ 5000000000 5000000100 _ 8000000000 rounded_exp_good ltac:(lia) Ho ltac:(simpl; lra) ltac:(rewrite S; lra)) as A.
    apply Rabs_le_inv in A. assert (bpow radix2 (-799) <= bpow radix2 (-10)) as B by (apply bpow_le; lia). change (bpow radix2 (-10)) with (/ 1024) in B. lra. }
  cbv zeta. rewrite S. repeat split; try lra; try exact Ho; try exact R60; try exact P; simpl; lra || lia.
Qed.
