(** Proofs about the rate counter with roundings. *)
From Verif Require Export FloatSpec.
From Coq Require Import Lra Lia Psatz.
From Flocq Require Import Core Relative.
Open Scope R_scope.

(** ** Constants *)
Definition u : R := bpow radix2 (-53).
Definition nu : R := bpow radix2 (-1022).
Lemma u_val : u = / 9007199254740992.
Proof. reflexivity. Qed.
Lemma u_bounds : 0 < u <= / 9000000000000000.
Proof. rewrite u_val. lra. Qed.
Lemma nu_pos : 0 < nu.
Proof. apply bpow_gt_0. Qed.
Lemma bp2 e : bpow radix2 e = 2 * bpow radix2 (e - 1).
Proof. change 2 with (bpow radix2 1). rewrite <- bpow_plus. f_equal. lia. Qed.
Lemma u_half : / 2 * bpow radix2 (- (53) + 1) = u.
Proof. change (- (53) + 1)%Z with (-52)%Z. rewrite bp2. change (-52 - 1)%Z with (-53)%Z. unfold u. field. Qed.
Lemma nu_small : nu <= u.
Proof. apply bpow_le. lia. Qed.

(** ** The exponential *)
Lemma exp_ge x : 1 + x <= exp x.
Proof. destruct (Req_dec x 0) as [->|H]; [rewrite exp_0; lra|left; apply exp_ineq1; exact H]. Qed.
Lemma exp_neg_ge x : x < 1 -> exp x <= / (1 - x).
Proof.
  intros H. pose proof (exp_ge (- x)) as H1. rewrite exp_Ropp in H1. pose proof (exp_pos x) as H2.
  apply (Rmult_le_reg_r (1 - x)); [lra|]. rewrite Rinv_l by lra.
  apply (Rmult_le_reg_l (/ exp x)); [apply Rinv_0_lt_compat; lra|]. rewrite <- Rmult_assoc, Rinv_l by lra. lra.
Qed.
Lemma exp_half x : 0 <= x -> x <= / 2 -> exp x <= 1 + 2 * x.
Proof.
  intros H0 H. eapply Rle_trans; [apply exp_neg_ge; lra|]. apply (Rmult_le_reg_r (1 - x)); [lra|]. rewrite Rinv_l by lra. nra.
Qed.
Lemma exp_le_2 x : x <= / 2 -> exp x <= 2.
Proof. intros H. destruct (Rle_dec 0 x); [pose proof (exp_half x); lra|]. pose proof (exp_increasing x 0). rewrite exp_0 in *. lra. Qed.
Lemma exp_opp_ub z : 0 <= z -> z <= / 2 -> exp (- (2 * z)) <= 1 - z.
Proof.
  intros H0 H. eapply Rle_trans; [apply exp_neg_ge; lra|]. apply (Rmult_le_reg_r (1 - - (2 * z))); [lra|]. rewrite Rinv_l by lra. nra.
Qed.
Lemma exp_mono x y : x <= y -> exp x <= exp y.
Proof. intros [H| ->]; [left; apply exp_increasing; exact H|right; reflexivity]. Qed.
Lemma exp_ge_1 x : 0 <= x -> 1 <= exp x.
Proof. intros H. rewrite <- exp_0. apply exp_mono; exact H. Qed.
Lemma exp_le_1 x : x <= 0 -> exp x <= 1.
Proof. intros H. rewrite <- exp_0. apply exp_mono; exact H. Qed.

(** ** Rounding *)
Lemma valid_flt : Valid_exp (FLT_exp (-1074) 53).
Proof. apply FLT_exp_valid. reflexivity. Qed.
#[global] Existing Instance valid_flt.

Lemma b64_le x y : x <= y -> b64 x <= b64 y.
Proof. apply round_le; typeclasses eauto. Qed.
Lemma b64_0 : b64 0 = 0.
Proof. apply round_0. typeclasses eauto. Qed.
Lemma b64_nonneg x : 0 <= x -> 0 <= b64 x.
Proof. intros H. rewrite <- b64_0. apply b64_le. exact H. Qed.
Lemma b64_bpow e : (-1074 <= e)%Z -> b64 (bpow radix2 e) = bpow radix2 e.
Proof. intros H. apply round_generic; [typeclasses eauto|]. apply generic_format_bpow. unfold FLT_exp. lia. Qed.
Lemma b64_1 : b64 1 = 1.
Proof. exact (b64_bpow 0 ltac:(lia)). Qed.
Lemma b64_idem x : b64 (b64 x) = b64 x.
Proof. apply round_generic; [typeclasses eauto|]. apply generic_format_round; typeclasses eauto. Qed.
Lemma b64_opp x : b64 (- x) = - b64 x.
Proof. apply round_NE_opp. Qed.

Lemma b64_err x : exists e d, Rabs e <= u /\ Rabs d <= nu / 2 /\ b64 x = x * (1 + e) + d.
Proof.
  destruct (error_N_FLT radix2 (-1074) 53 ltac:(reflexivity) (fun n => negb (Z.even n)) x) as (e & d & He & Hd & _ & E).
  exists e, d. split; [|split; [|exact E]].
  - rewrite <- u_half. exact He.
  - eapply Rle_trans; [exact Hd|]. assert (bpow radix2 (-1074) <= nu) by (apply bpow_le; lia). lra.
Qed.

Lemma b64_above x : 0 <= x -> b64 x <= exp (2 * u) * (x + nu).
Proof.
  intros Hx. destruct (b64_err x) as (e & d & He & Hd & ->). apply Rabs_le_inv in He, Hd. pose proof u_bounds. pose proof nu_pos.
  pose proof (exp_ge (2 * u)). nra.
Qed.
Lemma b64_below x : 0 <= x -> exp (- (2 * u)) * (x - nu) <= b64 x.
Proof.
  intros Hx. destruct (b64_err x) as (e & d & He & Hd & ->). apply Rabs_le_inv in He, Hd. pose proof u_bounds. pose proof nu_pos.
  pose proof (exp_opp_ub u ltac:(lra) ltac:(lra)). pose proof (exp_ge (- (2 * u))). nra.
Qed.
Lemma b64_rel x : x = 0 \/ nu <= x -> exp (- (2 * u)) * x <= b64 x <= exp (2 * u) * x.
Proof.
  intros [->|Hx]; [rewrite b64_0; lra|]. pose proof nu_pos as Hn. pose proof u_bounds as Hu.
  assert (Rabs (b64 x - x) <= u * x) as H.
  { pose proof (relative_error_N_FLT radix2 (-1074) 53 ltac:(reflexivity) (fun n => negb (Z.even n)) x) as H1.
    rewrite (Rabs_pos_eq x) in H1 by lra. specialize (H1 Hx). eapply Rle_trans; [exact H1|].
    apply Req_le. f_equal. apply u_half. }
  apply Rabs_le_inv in H. pose proof (exp_opp_ub u ltac:(lra) ltac:(lra)). pose proof (exp_ge (2 * u)). split; nra.
Qed.

(** ** Nearness *)
Definition near (h t x y : R) : Prop := exp (- h) * (x - t) <= y <= exp h * (x + t).

Lemma near_weaken h t h' t' x y : near h t x y -> h <= h' -> t <= t' -> 0 <= y -> 0 <= x -> 0 <= t -> near h' t' x y.
Proof.
  intros [A B] Hh Ht Hy Hx H0. split.
  - destruct (Rle_dec (x - t') 0) as [Hn|Hn].
    + pose proof (exp_pos (- h')). nra.
    + eapply Rle_trans; [|exact A]. pose proof (exp_mono (- h') (- h) ltac:(lra)). pose proof (exp_pos (- h')). nra.
  - eapply Rle_trans; [exact B|]. pose proof (exp_mono h h' Hh). pose proof (exp_pos h). nra.
Qed.

Lemma near_refl x : near 0 0 x x.
Proof. unfold near. rewrite Ropp_0, exp_0. lra. Qed.

Lemma near_b64 h t x y : near h t x y -> 0 <= h -> h <= / 2 -> 0 <= y -> near (h + 2 * u) (t + 2 * nu) x (b64 y).
Proof.
  intros [A B] H0 Hh Hy. pose proof nu_pos. pose proof u_bounds. split.
  - eapply Rle_trans; [|apply b64_below; exact Hy]. replace (- (h + 2 * u)) with (- (2 * u) + - h) by ring. rewrite exp_plus, Rmult_assoc.
    apply Rmult_le_compat_l; [left; apply exp_pos|]. pose proof (exp_le_2 h Hh) as H2. pose proof (exp_pos (- h)) as H3.
    assert (exp (- h) * exp h = 1) as H4 by (rewrite <- exp_plus; replace (- h + h) with 0 by ring; apply exp_0).
    assert (/ 2 <= exp (- h)) by nra. nra.
  - eapply Rle_trans; [apply b64_above; exact Hy|]. replace (h + 2 * u) with (2 * u + h) by ring. rewrite exp_plus, Rmult_assoc.
    apply Rmult_le_compat_l; [left; apply exp_pos|]. pose proof (exp_ge_1 h H0). nra.
Qed.

Lemma near_b64_rel h x y : near h 0 x y -> y = 0 \/ nu <= y -> near (h + 2 * u) 0 x (b64 y).
Proof.
  intros [A B] Hy. destruct (b64_rel y Hy) as [C D]. split.
  - replace (- (h + 2 * u)) with (- (2 * u) + - h) by ring. rewrite exp_plus, Rmult_assoc. eapply Rle_trans; [|exact C].
    apply Rmult_le_compat_l; [left; apply exp_pos|exact A].
  - replace (h + 2 * u) with (2 * u + h) by ring. rewrite exp_plus, Rmult_assoc. eapply Rle_trans; [exact D|].
    apply Rmult_le_compat_l; [left; apply exp_pos|exact B].
Qed.

Lemma near_add h t t' x y x' y' : near h t x y -> near h t' x' y' -> near h (t + t') (x + x') (y + y').
Proof. intros [A B] [C D]. split; nra. Qed.

Lemma neg_prod a b : 0 <= a -> b <= 0 -> a * b <= 0.
Proof. intros. nra. Qed.

Lemma near_mul h s a a' g t l l' :
  near h s a a' -> near g t l l' -> 0 <= a <= 1 -> 0 <= a' -> 0 <= l -> 0 <= l' -> 0 <= s -> 0 <= t ->
  near (h + g) (t + s * (l + t)) (a * l) (a' * l').
Proof.
  intros [A B] [C D] Ha Ha' Hl Hl' Hs Ht. split.
  - rewrite Ropp_plus_distr, exp_plus. pose proof (exp_pos (- h)) as E1. pose proof (exp_pos (- g)) as E2.
    pose proof (Rmult_le_pos _ _ Ha' Hl') as E3. pose proof (Rmult_le_pos _ _ Hs Hl) as E4. pose proof (Rmult_le_pos _ _ Hs Ht) as E5.
    assert (0 <= exp (- h) * exp (- g)) as E6 by nra.
    destruct (Rle_dec 0 (a - s)) as [H1|H1]; [destruct (Rle_dec 0 (l - t)) as [H2|H2]|].
    + apply Rle_trans with ((exp (- h) * (a - s)) * (exp (- g) * (l - t))).
      * replace (exp (- h) * (a - s) * (exp (- g) * (l - t))) with (exp (- h) * exp (- g) * ((a - s) * (l - t))) by ring.
        apply Rmult_le_compat_l; [exact E6|]. nra.
      * apply Rmult_le_compat; nra.
    + apply Rle_trans with 0; [|exact E3]. apply neg_prod; [exact E6|]. nra.
    + apply Rle_trans with 0; [|exact E3]. apply neg_prod; [exact E6|]. nra.
  - rewrite exp_plus. apply Rle_trans with ((exp h * (a + s)) * (exp g * (l + t))).
    + apply Rmult_le_compat; assumption.
    + replace (exp h * (a + s) * (exp g * (l + t))) with (exp h * exp g * ((a + s) * (l + t))) by ring.
      pose proof (exp_pos h). pose proof (exp_pos g). apply Rmult_le_compat_l; nra.
Qed.

(** ** Durations *)
Definition zero_or (e : Z) (x : R) : Prop := x = 0 \/ bpow radix2 e <= x.

Lemma zero_or_b64 e x : (-1074 <= e)%Z -> zero_or e x -> zero_or e (b64 x).
Proof.
  intros He [->|H]; [left; apply b64_0|right]. rewrite <- (b64_bpow e He). apply b64_le. exact H.
Qed.
Lemma zero_or_nonneg e x : zero_or e x -> 0 <= x.
Proof. intros [->|H]; [lra|]. pose proof (bpow_gt_0 radix2 e). lra. Qed.
Lemma zero_or_weaken e e' x : (e' <= e)%Z -> zero_or e x -> zero_or e' x.
Proof. intros He [->|H]; [left; reflexivity|right]. eapply Rle_trans; [|exact H]. apply bpow_le. exact He. Qed.
Lemma zero_or_add e x y : zero_or e x -> zero_or e y -> zero_or e (x + y).
Proof.
  intros Hx Hy. pose proof (zero_or_nonneg _ _ Hx). pose proof (zero_or_nonneg _ _ Hy). destruct Hx as [->|Hx]; [rewrite Rplus_0_l; exact Hy|right; lra].
Qed.
Lemma zero_or_normal e x : (-1022 <= e)%Z -> zero_or e x -> x = 0 \/ nu <= x.
Proof. intros He H. apply (zero_or_weaken e (-1022) x He H). Qed.
Lemma zero_or_mul e e' x y : bpow radix2 e <= x -> zero_or e' y -> zero_or (e + e') (x * y).
Proof.
  intros Hx [->|Hy]; [left; ring|right]. rewrite bpow_plus. apply Rmult_le_compat; try assumption; apply bpow_ge_0.
Qed.

Lemma zero_or_int n : zero_or 0 (IZR (Z.of_N n)).
Proof.
  destruct n as [|p]; [left; reflexivity|right]. apply (IZR_le 1). lia.
Qed.

Lemma billionth : bpow radix2 (-30) <= / 1000000000.
Proof. change (bpow radix2 (-30)) with (/ 1073741824). lra. Qed.

Lemma near_div_c h x y c : 0 < c -> near h 0 x y -> near h 0 (x / c) (y / c).
Proof.
  intros Hc [A B]. unfold Rdiv. assert (0 < / c) by (apply Rinv_0_lt_compat; exact Hc). split; nra.
Qed.

Lemma secs_near ns : near (6 * u) 0 (seconds ns) (secs_f64 ns) /\ zero_or (-30) (secs_f64 ns).
Proof.
  unfold seconds, secs_f64. set (s := IZR (Z.of_N (ns / 1000000000))). set (n := IZR (Z.of_N (ns mod 1000000000))).
  assert (IZR (Z.of_N ns) / 1000000000 = s + n / 1000000000) as ->.
  { unfold s, n. rewrite (N.div_mod ns 1000000000) at 1 by discriminate. rewrite N2Z.inj_add, N2Z.inj_mul, plus_IZR, mult_IZR. simpl (IZR (Z.of_N 1000000000)). field. }
  assert (zero_or 0 s) as Zs by apply zero_or_int. assert (zero_or 0 n) as Zn by apply zero_or_int. clearbody s n.
  pose proof u_bounds as Hu.
  assert (near (2 * u) 0 s (b64 s)) as N1.
  { replace (2 * u) with (0 + 2 * u) by ring. apply near_b64_rel; [apply near_refl|]. apply (zero_or_normal 0); [lia|exact Zs]. }
  assert (near (2 * u) 0 n (b64 n)) as N2.
  { replace (2 * u) with (0 + 2 * u) by ring. apply near_b64_rel; [apply near_refl|]. apply (zero_or_normal 0); [lia|exact Zn]. }
  assert (zero_or 0 (b64 s)) as Z1 by (apply zero_or_b64; [lia|exact Zs]). assert (zero_or 0 (b64 n)) as Z2 by (apply zero_or_b64; [lia|exact Zn]).
  assert (zero_or (-30) (b64 n / 1000000000)) as Z3.
  { destruct Z2 as [->|Z2]; [left; unfold Rdiv; ring|right]. simpl in Z2. pose proof billionth. unfold Rdiv. nra. }
  apply near_div_c with (c := 1000000000) in N2; [|lra].
  apply near_b64_rel in N2; [|apply (zero_or_normal (-30)); [lia|exact Z3]].
  assert (zero_or (-30) (b64 (b64 n / 1000000000))) as Z4 by (apply zero_or_b64; [lia|exact Z3]).
  assert (zero_or (-30) (b64 s)) as Z5 by (apply (zero_or_weaken 0); [lia|exact Z1]).
  assert (zero_or (-30) (b64 s + b64 (b64 n / 1000000000))) as Z6 by (apply zero_or_add; assumption).
  apply (near_weaken _ _ (2 * u + 2 * u) 0) in N1; try lra; [|apply (zero_or_nonneg _ _ Z1)|apply (zero_or_nonneg _ _ Zs)].
  pose proof (near_add _ _ _ _ _ _ _ N1 N2) as N3. rewrite Rplus_0_l in N3.
  apply near_b64_rel in N3; [|apply (zero_or_normal (-30)); [lia|exact Z6]].
  split; [|apply zero_or_b64; [lia|exact Z6]]. replace (6 * u) with (2 * u + 2 * u + 2 * u) by ring. exact N3.
Qed.

Lemma seconds_nonneg ns : 0 <= seconds ns.
Proof. unfold seconds. pose proof (zero_or_nonneg _ _ (zero_or_int ns)). unfold Rdiv. nra. Qed.
Lemma seconds_add a b : seconds (a + b) = seconds a + seconds b.
Proof. unfold seconds. rewrite N2Z.inj_add, plus_IZR. field. Qed.
Lemma seconds_split a b c : (a <= b)%N -> (b <= c)%N -> seconds (c - a) = seconds (c - b) + seconds (b - a).
Proof. intros H1 H2. rewrite <- seconds_add. f_equal. lia. Qed.

(** ** The decay *)
Section decay.
Variable fexp : R -> R.
Hypothesis Hexp : good_exp fexp.
Variable K : R.
Hypothesis HK : bpow radix2 (-60) <= K <= bpow radix2 60.

Lemma k_near : near (2 * u) 0 K (b64 K) /\ bpow radix2 (-60) <= b64 K.
Proof.
  destruct HK as [H1 H2]. assert (zero_or (-60) K) as Z by (right; exact H1). split.
  - replace (2 * u) with (0 + 2 * u) by ring. apply near_b64_rel; [apply near_refl|]. apply (zero_or_normal (-60)); [lia|exact Z].
  - rewrite <- (b64_bpow (-60)) by lia. apply b64_le. exact H1.
Qed.

Lemma near_mul_rel h x y g x' y' : near h 0 x y -> near g 0 x' y' -> 0 <= x -> 0 <= y -> 0 <= x' -> 0 <= y' -> near (h + g) 0 (x * x') (y * y').
Proof.
  intros [A B] [C D] H1 H2 H3 H4. rewrite Rminus_0_r, Rplus_0_r in *. pose proof (exp_pos (- h)). pose proof (exp_pos (- g)). split.
  - rewrite Ropp_plus_distr, exp_plus, Rminus_0_r. replace (exp (- h) * exp (- g) * (x * x')) with ((exp (- h) * x) * (exp (- g) * x')) by ring.
    apply Rmult_le_compat; nra.
  - rewrite exp_plus, Rplus_0_r. replace (exp h * exp g * (x * x')) with ((exp h * x) * (exp g * x')) by ring. apply Rmult_le_compat; nra.
Qed.

Lemma arg_near ns : near (10 * u) 0 (K * seconds ns) (b64 (b64 K * secs_f64 ns)) /\ 0 <= b64 (b64 K * secs_f64 ns).
Proof.
  destruct k_near as [N1 B1]. destruct (secs_near ns) as [N2 Z2]. pose proof (bpow_gt_0 radix2 (-60)) as Hp. destruct HK as [HK1 HK2].
  pose proof (zero_or_nonneg _ _ Z2) as P2. pose proof (seconds_nonneg ns) as P3.
  assert (zero_or (-60 + -30) (b64 K * secs_f64 ns)) as Z3 by (apply zero_or_mul; assumption).
  split; [|apply b64_nonneg, (zero_or_nonneg _ _ Z3)].
  replace (10 * u) with (2 * u + 6 * u + 2 * u) by ring. apply near_b64_rel; [|apply (zero_or_normal (-60 + -30)); [lia|exact Z3]].
  apply near_mul_rel; try assumption; lra.
Qed.

(** The factor by which an interval of [ns] is weighted. *)
Lemma decay_near ns : 11 * u * (K * seconds ns) <= / 2 ->
  near (4 * u + 11 * u * (K * seconds ns)) (2 * nu) (exp (- (K * seconds ns))) (fexp (b64 (- b64 K * secs_f64 ns))) /\
  0 <= fexp (b64 (- b64 K * secs_f64 ns)) <= 1.
Proof.
  intros Hy. replace (- b64 K * secs_f64 ns) with (- (b64 K * secs_f64 ns)) by ring. rewrite b64_opp.
  destruct (arg_near ns) as [[A B] P]. set (x := b64 (b64 K * secs_f64 ns)) in *.
  assert (0 <= K * seconds ns) as Y0. { pose proof (seconds_nonneg ns). destruct HK as [H1 _]. pose proof (bpow_gt_0 radix2 (-60)). nra. }
  set (y := K * seconds ns) in *. clearbody x y. rewrite Rminus_0_r in A. rewrite Rplus_0_r in B.
  pose proof u_bounds as Hu. pose proof nu_pos as Hn.
  assert (y - x <= 11 * u * y) as D1. { pose proof (exp_ge (- (10 * u))). nra. }
  assert (x - y <= 11 * u * y) as D2.
  { assert (exp (10 * u) <= 1 + 11 * u) as H1; [|nra]. eapply Rle_trans; [apply exp_neg_ge; lra|]. apply (Rmult_le_reg_r (1 - 10 * u)); [lra|]. rewrite Rinv_l by lra. nra. }
  assert (exp (- x) = exp (- y) * exp (y - x)) as E by (rewrite <- exp_plus; f_equal; ring).
  split; [|apply (ge_range _ Hexp); lra]. set (z := 11 * u * y) in *.
  pose proof (exp_mono _ _ D1) as M1. pose proof (exp_mono (- z) (y - x) ltac:(lra)) as M2. pose proof (exp_pos (- y)) as Py. pose proof (exp_pos (- z)) as Pz.
  assert (0 <= z) as Z0 by (unfold z; nra). pose proof (exp_ge_1 z Z0) as G1. pose proof (exp_le_2 z Hy) as G2.
  assert (exp (- z) * exp z = 1) as I by (rewrite <- exp_plus; replace (- z + z) with 0 by ring; apply exp_0).
  assert (bpow radix2 (-52) = 2 * u) as E52 by (rewrite bp2; reflexivity). fold nu.
  split.
  - pose proof (ge_below _ Hexp (- x) ltac:(lra)) as L. rewrite E52 in L. fold nu in L.
    pose proof (ge_range _ Hexp (- x) ltac:(lra)) as [L0 _].
    replace (- (4 * u + z)) with (- (2 * (2 * u)) + - z) by ring. rewrite exp_plus.
    pose proof (exp_opp_ub (2 * u) ltac:(lra) ltac:(lra)) as U. pose proof (exp_pos (- (2 * (2 * u)))) as Pu.
    assert (exp (- z) * (exp (- y) - 2 * nu) <= exp (- x) - nu) as H1.
    { rewrite E. assert (/ 2 <= exp (- z)) by nra. nra. }
    destruct (Rle_dec 0 (exp (- x) - nu)) as [H2|H2].
    + eapply Rle_trans; [|exact L]. rewrite Rmult_assoc.
      apply Rle_trans with (exp (- (2 * (2 * u))) * (exp (- x) - nu)); [apply Rmult_le_compat_l; lra|]. apply Rmult_le_compat_r; lra.
    + eapply Rle_trans; [|exact L0]. rewrite Rmult_assoc. apply neg_prod; lra.
  - pose proof (ge_above _ Hexp (- x) ltac:(lra)) as L. rewrite E52 in L. fold nu in L. eapply Rle_trans; [exact L|].
    rewrite exp_plus, Rmult_assoc. pose proof (exp_ge (4 * u)) as U. apply Rmult_le_compat; try lra; [pose proof (exp_pos (- x)); lra|].
    rewrite E. nra.
Qed.

(** ** The weighted count *)
Lemma in_order_snoc b ts x t : in_order b (ts ++ [x]) t <-> in_order b ts x /\ (x <= t)%N.
Proof.
  revert b. induction ts as [|y ts IH]; intros b; simpl; [tauto|]. rewrite IH. tauto.
Qed.
Lemma in_order_last b ts t : in_order b ts t -> (b <= last ts b)%N /\ (last ts b <= t)%N /\ forall x, In x ts -> (x <= last ts b)%N.
Proof.
  revert b t. induction ts as [|x ts IH] using rev_ind; intros b t H; [simpl in *; split; [lia|split; [lia|tauto]]|].
  apply in_order_snoc in H as [H Hx]. destruct (IH _ _ H) as (A & B & C). rewrite last_last. split; [lia|]. split; [exact Hx|].
  intros y Hy. apply in_app_iff in Hy as [Hy|[<-|[]]]; [specialize (C _ Hy); lia|lia].
Qed.

Variable tau : R.
Hypothesis Htau : 1 / tau = K.

Lemma sum_app f l l' : sum_over_events f (l ++ l') = sum_over_events f l + sum_over_events f l'.
Proof. induction l as [|x l IH]; simpl; [ring|]. rewrite IH. ring. Qed.

Lemma weighted_later ts L x : (forall t, In t ts -> (t <= L)%N) -> (L <= x)%N ->
  weighted_count tau ts x = exp (- (K * seconds (x - L))) * weighted_count tau ts L.
Proof.
  intros Hts Hx. unfold weighted_count. rewrite Htau. induction ts as [|t ts IH]; simpl; [ring|].
  rewrite IH by (intros t' Ht'; apply Hts; right; exact Ht'). rewrite Rmult_plus_distr_l. f_equal.
  rewrite (seconds_split t L x) by (try apply Hts; simpl; auto). replace (- K * (seconds (x - L) + seconds (L - t))) with (- (K * seconds (x - L)) + - K * seconds (L - t)) by ring.
  rewrite exp_plus. ring.
Qed.

Lemma weighted_now x : weighted_count tau [x] x = K.
Proof. unfold weighted_count. simpl. rewrite Htau, N.sub_diag. replace (seconds 0) with 0 by (unfold seconds; simpl; field). rewrite Rmult_0_r, exp_0. ring. Qed.

Lemma K_pos : 0 < K.
Proof. destruct HK as [H _]. pose proof (bpow_gt_0 radix2 (-60)). lra. Qed.

Lemma weighted_bounds ts t : 0 <= weighted_count tau ts t <= INR (length ts) * K.
Proof.
  unfold weighted_count. rewrite Htau. pose proof K_pos as Hk. induction ts as [|x ts IH]; [simpl; lra|].
  change (length (x :: ts)) with (S (length ts)). rewrite S_INR. cbn [sum_over_events].
  pose proof (exp_pos (- K * seconds (t - x))). pose proof (exp_le_1 (- K * seconds (t - x))) as H1. pose proof (seconds_nonneg (t - x)).
  assert (exp (- K * seconds (t - x)) <= 1) by (apply H1; nra). nra.
Qed.

Definition rel_err (n : nat) (s : R) : R := 8 * u * INR n + 11 * u * (K * s).
Definition unit_err : R := nu * bpow radix2 104.

Lemma after_snoc t0 b ts x : fr_after fexp tau t0 b (ts ++ [x]) = fr_update fexp (fr_after fexp tau t0 b ts) x.
Proof. unfold fr_after. rewrite fold_left_app. reflexivity. Qed.

Lemma after_fields t0 b ts : fr_k (fr_after fexp tau t0 b ts) = b64 K /\ fr_t0 (fr_after fexp tau t0 b ts) = t0 /\ fr_last (fr_after fexp tau t0 b ts) = last ts b.
Proof.
  induction ts as [|x ts IH] using rev_ind; [simpl; rewrite Htau; auto|]. rewrite after_snoc. destruct IH as (A & B & C).
  unfold fr_update. simpl. rewrite last_last. auto.
Qed.

Lemma lambda_nonneg t0 b ts : 0 <= fr_lambda (fr_after fexp tau t0 b ts).
Proof.
  induction ts as [|x ts IH] using rev_ind; [simpl; lra|]. rewrite after_snoc. unfold fr_update. cbn [fr_lambda]. destruct (after_fields t0 b ts) as (A & _).
  destruct k_near as [_ B1]. pose proof (bpow_gt_0 radix2 (-60)) as Hp. rewrite A. apply b64_nonneg.
  assert (0 <= b64 (decay fexp (fr_after fexp tau t0 b ts) x (fr_last (fr_after fexp tau t0 b ts)) * fr_lambda (fr_after fexp tau t0 b ts))); [|lra].
  apply b64_nonneg, Rmult_le_pos; [|exact IH]. unfold decay. rewrite A. apply (ge_range _ Hexp).
  replace (- b64 K * secs_f64 (x - fr_last (fr_after fexp tau t0 b ts))) with (- (b64 K * secs_f64 (x - fr_last (fr_after fexp tau t0 b ts)))) by ring.
  rewrite b64_opp. destruct (arg_near (x - fr_last (fr_after fexp tau t0 b ts))) as [_ P]. lra.
Qed.

Definition big : R := 1099511627776.

Lemma unit_err_pos : 0 < unit_err.
Proof. apply Rmult_lt_0_compat; [apply nu_pos|apply bpow_gt_0]. Qed.
Lemma unit_err_small : big * unit_err <= nu * bpow radix2 144.
Proof.
  unfold unit_err, big. change 1099511627776 with (bpow radix2 40). rewrite Rmult_comm, Rmult_assoc, <- bpow_plus. apply Req_le. reflexivity.
Qed.
Lemma nu_144 : nu * bpow radix2 144 = bpow radix2 (-878).
Proof. unfold nu. rewrite <- bpow_plus. reflexivity. Qed.

(** One step: the decayed count. *)
Lemma step_near n g t W l ns :
  near g t W l -> 0 <= g -> 0 <= t -> t <= n * unit_err -> 0 <= W -> W <= n * K -> 0 <= n -> n <= big -> 0 <= l ->
  g + 4 * u + 11 * u * (K * seconds ns) <= / 2 ->
  near (g + 4 * u + 11 * u * (K * seconds ns) + 2 * u) (t + unit_err / 2)
    (exp (- (K * seconds ns)) * W) (b64 (fexp (b64 (- b64 K * secs_f64 ns)) * l)).
Proof.
  intros N Hg Ht Htn HW HWn Hn0 Hn Hl Hs. pose proof u_bounds as Hu. pose proof nu_pos as Hnu. pose proof K_pos as Hk.
  assert (0 <= u * (K * seconds ns)) as P by (apply Rmult_le_pos; [lra|apply Rmult_le_pos; [lra|apply seconds_nonneg]]).
  destruct (decay_near ns) as [D [D0 D1]]; [lra|].
  assert (0 <= exp (- (K * seconds ns)) <= 1) as E. { split; [left; apply exp_pos|]. apply exp_le_1. pose proof (seconds_nonneg ns). nra. }
  pose proof (near_mul _ _ _ _ _ _ _ _ D N E D0 HW Hl ltac:(lra) Ht) as M.
  apply near_b64 in M; [|lra|lra|nra].
  assert (near (g + 4 * u + 11 * u * (K * seconds ns) + 2 * u) (t + 2 * nu * (W + t) + 2 * nu) (exp (- (K * seconds ns)) * W) (b64 (fexp (b64 (- b64 K * secs_f64 ns)) * l))) as M2.
  { replace (g + 4 * u + 11 * u * (K * seconds ns) + 2 * u) with (4 * u + 11 * u * (K * seconds ns) + g + 2 * u) by ring. exact M. }
  eapply near_weaken; [exact M2|lra| |apply b64_nonneg; nra|nra|nra].
  assert (W + t + 1 <= bpow radix2 102).
  { destruct HK as [_ HK2]. assert (n * K <= bpow radix2 100) as H1.
    { replace (bpow radix2 100) with (big * bpow radix2 60) by (unfold big; change 1099511627776 with (bpow radix2 40); rewrite <- bpow_plus; reflexivity). apply Rmult_le_compat; lra. }
    assert (t <= 1) as H2. { eapply Rle_trans; [exact Htn|]. pose proof unit_err_small as H3. rewrite nu_144 in H3. assert (bpow radix2 (-878) <= bpow radix2 0) as H4 by (apply bpow_le; lia). simpl (bpow radix2 0) in H4. pose proof unit_err_pos. nra. }
    assert (1 <= bpow radix2 100) as H3 by (change 1 with (bpow radix2 0); apply bpow_le; lia).
    rewrite (bp2 102), (bp2 (102 - 1)). change (102 - 1 - 1)%Z with 100%Z. lra. }
  assert (unit_err / 2 = 2 * nu * bpow radix2 102) as U. { unfold unit_err. rewrite (bp2 104), (bp2 (104 - 1)). change (104 - 1 - 1)%Z with 102%Z. field. }
  rewrite U. nra.
Qed.

Lemma lambda_near t0 b ts t : in_order b ts t -> INR (length ts) <= big -> K * seconds (last ts b - b) <= big ->
  near (rel_err (length ts) (seconds (last ts b - b))) (INR (length ts) * unit_err)
    (weighted_count tau ts (last ts b)) (fr_lambda (fr_after fexp tau t0 b ts)).
Proof.
  revert t. induction ts as [|x ts IH] using rev_ind; intros t Ho Hn Hs.
  - simpl. unfold near, weighted_count. simpl. lra.
  - apply in_order_snoc in Ho as [Ho Hxt]. destruct (in_order_last _ _ _ Ho) as (A & B & C).
    rewrite last_last in *. rewrite app_length in *. simpl (length [x]) in *. rewrite Nat.add_1_r in *. rewrite S_INR in Hn.
    assert (seconds (x - b) = seconds (x - last ts b) + seconds (last ts b - b)) as Sp by (apply seconds_split; lia).
    pose proof (seconds_nonneg (x - last ts b)) as S0. pose proof (seconds_nonneg (last ts b - b)) as S1. pose proof K_pos as Hk. pose proof u_bounds as Hu.
    assert (0 <= K * seconds (x - last ts b)) as S2 by nra. assert (0 <= K * seconds (last ts b - b)) as S3 by nra.
    assert (K * seconds (x - b) = K * seconds (x - last ts b) + K * seconds (last ts b - b)) as S4 by (rewrite Sp; ring).
    pose proof (IH x Ho ltac:(lra) ltac:(lra)) as N. pose proof (pos_INR (length ts)) as I0.
    set (n := INR (length ts)) in *. set (g := rel_err (length ts) (seconds (last ts b - b))) in *.
    assert (g = 8 * u * n + 11 * u * (K * seconds (last ts b - b))) as Eg by reflexivity.
    pose proof unit_err_pos as Up. pose proof (weighted_bounds ts (last ts b)) as [W0 W1].
    unfold big in *.
    pose proof (step_near n g (n * unit_err) _ _ (x - last ts b) N ltac:(nra) ltac:(nra) ltac:(lra) W0 W1 I0 ltac:(unfold big; lra) (lambda_nonneg t0 b ts) ltac:(nra)) as M.
    rewrite after_snoc. unfold fr_update. cbn [fr_lambda]. unfold decay. destruct (after_fields t0 b ts) as (F1 & _ & F3). rewrite F1, F3.
    set (P := b64 (fexp (b64 (- b64 K * secs_f64 (x - last ts b))) * fr_lambda (fr_after fexp tau t0 b ts))) in *.
    assert (0 <= P) as P0. { apply b64_nonneg, Rmult_le_pos; [|apply lambda_nonneg]. apply decay_near. nra. }
    destruct k_near as [KN KB]. pose proof (bpow_gt_0 radix2 (-60)) as Hp.
    set (h := g + 4 * u + 11 * u * (K * seconds (x - last ts b)) + 2 * u) in *.
    assert (h <= / 2) as Hh by (unfold h; nra). assert (2 * u <= h) as Hh2 by (unfold h; nra).
    apply (near_weaken _ _ h 0) in KN; try lra.
    pose proof (near_add _ _ _ _ _ _ _ KN M) as Q. apply near_b64 in Q; [|lra|lra|lra].
    assert (weighted_count tau (ts ++ [x]) x = K + exp (- (K * seconds (x - last ts b))) * weighted_count tau ts (last ts b)) as ->.
    { unfold weighted_count at 1. rewrite sum_app. fold (weighted_count tau ts x). fold (weighted_count tau [x] x). rewrite weighted_now, (weighted_later ts (last ts b) x) by (try assumption; lia). ring. }
    pose proof nu_pos as Hnu. assert (2 * nu <= unit_err / 2) as Hue.
    { unfold unit_err. assert (4 <= bpow radix2 104) by (change 4 with (bpow radix2 2); apply bpow_le; lia). nra. }
    assert (0 <= exp (- (K * seconds (x - last ts b))) * weighted_count tau ts (last ts b)) as Ew by (apply Rmult_le_pos; [left; apply exp_pos|exact W0]).
    eapply near_weaken; [exact Q| | |apply b64_nonneg; lra|lra|].
    + unfold rel_err. rewrite S_INR. fold n. rewrite S4. unfold h. rewrite Eg. lra.
    + rewrite S_INR. fold n. lra.
    + nra.
Qed.

(** ** The rate *)
Lemma numerator_near t0 b ts t : in_order b ts t -> INR (length ts) <= big -> K * seconds (t - b) <= big ->
  near (rel_err (length ts) (seconds (t - b)) + 6 * u) ((INR (length ts) + 1) * unit_err)
    (weighted_count tau ts t) (numerator fexp (fr_after fexp tau t0 b ts) t) /\
  0 <= numerator fexp (fr_after fexp tau t0 b ts) t.
Proof.
  intros Ho Hn Hs. destruct (in_order_last _ _ _ Ho) as (A & B & C).
  assert (seconds (t - b) = seconds (t - last ts b) + seconds (last ts b - b)) as Sp by (apply seconds_split; lia).
  pose proof (seconds_nonneg (t - last ts b)) as S0. pose proof (seconds_nonneg (last ts b - b)) as S1. pose proof K_pos as Hk. pose proof u_bounds as Hu.
  assert (0 <= K * seconds (t - last ts b)) as S2 by nra. assert (0 <= K * seconds (last ts b - b)) as S3 by nra.
  assert (K * seconds (t - b) = K * seconds (t - last ts b) + K * seconds (last ts b - b)) as S4 by (rewrite Sp; ring).
  pose proof (lambda_near t0 b ts t Ho Hn ltac:(lra)) as N. pose proof (pos_INR (length ts)) as I0.
  set (n := INR (length ts)) in *. set (g := rel_err (length ts) (seconds (last ts b - b))) in *.
  assert (g = 8 * u * n + 11 * u * (K * seconds (last ts b - b))) as Eg by reflexivity.
  pose proof unit_err_pos as Up. pose proof (weighted_bounds ts (last ts b)) as [W0 W1]. unfold big in *.
  pose proof (step_near n g (n * unit_err) _ _ (t - last ts b) N ltac:(nra) ltac:(nra) ltac:(lra) W0 W1 I0 ltac:(unfold big; lra) (lambda_nonneg t0 b ts) ltac:(nra)) as M.
  unfold numerator, decay. destruct (after_fields t0 b ts) as (F1 & _ & F3). rewrite F1, F3.
  set (P := b64 (fexp (b64 (- b64 K * secs_f64 (t - last ts b))) * fr_lambda (fr_after fexp tau t0 b ts))) in *.
  assert (0 <= P) as P0. { apply b64_nonneg, Rmult_le_pos; [|apply lambda_nonneg]. apply decay_near. nra. }
  split; [|exact P0]. rewrite (weighted_later ts (last ts b) t) by (try assumption; lia).
  eapply near_weaken; [exact M| |nra|exact P0| |nra].
  - unfold rel_err. fold n. rewrite S4, Eg. lra.
  - apply Rmult_le_pos; [left; apply exp_pos|exact W0].
Qed.

Lemma y_exp y : 0 <= y -> y * exp (- y) <= 1.
Proof.
  intros Hy. pose proof (exp_ge y) as H1. pose proof (exp_pos (- y)) as H2.
  assert (exp (- y) * exp y = 1) as H4 by (rewrite <- exp_plus; replace (- y + y) with 0 by ring; apply exp_0). nra.
Qed.

Lemma decay_abs ns : K * seconds ns <= big ->
  Rabs (fexp (b64 (- b64 K * secs_f64 ns)) - exp (- (K * seconds ns))) <= 31 * u.
Proof.
  intros Hy. assert (0 <= K * seconds ns) as Y0 by (apply Rmult_le_pos; [left; apply K_pos|apply seconds_nonneg]).
  pose proof u_bounds as Hu. pose proof nu_pos as Hn. unfold big in Hy.
  destruct (decay_near ns) as [[A B] [D0 D1]]; [nra|]. set (f := fexp _) in *. set (y := K * seconds ns) in *.
  pose proof (y_exp y Y0) as Y. pose proof (exp_pos (- y)) as E0. pose proof (exp_le_1 (- y) ltac:(lra)) as E1.
  set (e := exp (- y)) in *. clearbody e f y.
  assert (4 * u + 11 * u * y <= / 2) as Hh by nra. set (h := 4 * u + 11 * u * y) in *. assert (0 <= h) as H0 by (unfold h; nra).
  pose proof (exp_half h H0 Hh) as X. pose proof (exp_ge (- h)) as X'.
  assert (nu <= u / 1000) as Hnu. { unfold nu, u. rewrite (bp2 (-53)). assert (bpow radix2 (-1022) <= bpow radix2 (-64)) as H1 by (apply bpow_le; lia). assert (bpow radix2 (-64) = u / 2048) as H2 by (rewrite u_val; simpl; lra). rewrite <- (bp2 (-53)). fold u. lra. }
  assert (h * e <= 15 * u) as He. { replace (h * e) with (4 * u * e + 11 * u * (y * e)) by (unfold h; ring). nra. }
  apply Rabs_le. split.
  - destruct (Rle_dec 0 (e - 2 * nu)) as [H1|H1]; [|lra]. assert ((1 - h) * (e - 2 * nu) <= f) by nra. nra.
  - assert (f <= (1 + 2 * h) * (e + 2 * nu)) by nra. nra.
Qed.

Lemma denominator_near t0 b ts t : K * seconds (t - t0) <= big -> 62 * u <= warm_up tau t0 t ->
  near (62 * u / warm_up tau t0 t + 2 * u) 0 (warm_up tau t0 t) (denominator fexp (fr_after fexp tau t0 b ts) t) /\
  0 < denominator fexp (fr_after fexp tau t0 b ts) t.
Proof.
  intros Hy Hd. pose proof (decay_abs (t - t0) Hy) as A. apply Rabs_le_inv in A.
  unfold denominator, decay. destruct (after_fields t0 b ts) as (F1 & F2 & _). rewrite F1, F2.
  assert (warm_up tau t0 t = 1 - exp (- (K * seconds (t - t0)))) as Ed by (unfold warm_up; rewrite Htau; do 2 f_equal; ring).
  set (d := warm_up tau t0 t) in *. set (f := fexp _) in *. pose proof u_bounds as Hu.
  assert (d - 31 * u <= 1 - f <= d + 31 * u) as B by lra.
  assert (nu <= u) as Hn by apply nu_small.
  assert (near (62 * u / d) 0 d (1 - f)) as N.
  { set (z := 31 * u / d). assert (0 <= z) as Z0 by (unfold z; apply Rmult_le_pos; [lra|left; apply Rinv_0_lt_compat; lra]).
    assert (z * d = 31 * u) as Zd by (unfold z; field; lra). assert (z <= / 2) as Z1 by nra.
    replace (62 * u / d) with (2 * z) by (unfold z; field; lra). unfold near. rewrite Rminus_0_r, Rplus_0_r.
    pose proof (exp_opp_ub z Z0 Z1). pose proof (exp_ge (2 * z)). split; nra. }
  split; [apply near_b64_rel; [exact N|right; lra]|].
  apply Rlt_le_trans with (bpow radix2 (-1022)); [apply bpow_gt_0|]. rewrite <- (b64_bpow (-1022)) by lia. apply b64_le. fold nu. lra.
Qed.

Lemma near_quot h t x y g d e : near h t x y -> near g 0 d e -> 0 <= t -> 0 <= x -> 0 <= y -> 0 < d -> 0 < e -> near (h + g) (t / d) (x / d) (y / e).
Proof.
  intros [A B] [C D] Ht Hx Hy Hd He. rewrite Rminus_0_r in C. rewrite Rplus_0_r in D.
  assert (0 < / d) as Id by (apply Rinv_0_lt_compat; exact Hd). assert (0 < / e) as Ie by (apply Rinv_0_lt_compat; exact He).
  assert (exp (- g) * exp g = 1) as I by (rewrite <- exp_plus; replace (- g + g) with 0 by ring; apply exp_0). pose proof (exp_pos g) as G. pose proof (exp_pos (- g)) as G'.
  assert (e * / e = 1) as J by (apply Rinv_r; lra). assert (d * / d = 1) as J' by (apply Rinv_r; lra).
  assert (exp (- g) * / d <= / e) as L.
  { apply (Rmult_le_reg_r e); [exact He|]. rewrite Rinv_l by lra. apply Rle_trans with (exp (- g) * / d * (exp g * d)); [apply Rmult_le_compat_l; nra|].
    replace (exp (- g) * / d * (exp g * d)) with ((exp (- g) * exp g) * (d * / d)) by ring. rewrite I, J'. lra. }
  assert (/ e <= exp g * / d) as U.
  { apply (Rmult_le_reg_r e); [exact He|]. rewrite Rinv_l by lra. apply Rle_trans with (exp g * / d * (exp (- g) * d)); [|apply Rmult_le_compat_l; nra].
    replace (exp g * / d * (exp (- g) * d)) with ((exp (- g) * exp g) * (d * / d)) by ring. rewrite I, J'. lra. }
  split.
  - replace (x / d - t / d) with ((x - t) * / d) by (field; lra). rewrite Ropp_plus_distr, exp_plus. unfold Rdiv.
    replace (exp (- h) * exp (- g) * ((x - t) * / d)) with ((exp (- h) * (x - t)) * (exp (- g) * / d)) by ring.
    destruct (Rle_dec 0 (x - t)) as [H1|H1].
    + apply Rmult_le_compat; try assumption; [pose proof (exp_pos (- h)); nra|nra].
    + apply Rle_trans with 0; [|nra]. pose proof (exp_pos (- h)). assert (exp (- h) * (x - t) <= 0) by nra. rewrite Rmult_comm. apply neg_prod; [|assumption]. apply Rmult_le_pos; lra.
  - replace (x / d + t / d) with ((x + t) * / d) by (field; lra). rewrite exp_plus. unfold Rdiv.
    replace (exp h * exp g * ((x + t) * / d)) with ((exp h * (x + t)) * (exp g * / d)) by ring. apply Rmult_le_compat; lra.
Qed.

Lemma rate_near t0 b ts t : (t0 <= b)%N -> in_order b ts t -> INR (length ts) <= big -> K * seconds (t - t0) <= big -> bpow radix2 (-40) <= warm_up tau t0 t ->
  near ((8 * INR (length ts) + 11 * (K * seconds (t - t0)) + 62 / warm_up tau t0 t + 10) * u) (bpow radix2 (-800))
    (exact_rate tau t0 ts t) (fr_rate fexp (fr_after fexp tau t0 b ts) t).
Proof.
  intros Hb Ho Hn Hs Hd. destruct (in_order_last _ _ _ Ho) as (A & B & _). pose proof K_pos as Hk. pose proof u_bounds as Hu.
  assert (seconds (t - t0) = seconds (t - b) + seconds (b - t0)) as Sp by (apply seconds_split; lia).
  pose proof (seconds_nonneg (b - t0)) as S1. pose proof (seconds_nonneg (t - b)) as S2. assert (K * seconds (t - b) <= K * seconds (t - t0)) as S3 by (rewrite Sp; nra).
  assert (0 <= K * seconds (t - b)) as S4 by nra.
  assert (bpow radix2 (-40) = 8192 * u) as E40 by (rewrite u_val; simpl; lra).
  destruct (numerator_near t0 b ts t Ho Hn ltac:(lra)) as [N N0].
  destruct (denominator_near t0 b ts t Hs ltac:(lra)) as [M M0].
  pose proof (weighted_bounds ts t) as [W0 _]. pose proof unit_err_pos as Up. pose proof (pos_INR (length ts)) as I0.
  unfold fr_rate. destruct (Rlt_dec 0 _) as [_|H]; [|lra].
  assert (0 < warm_up tau t0 t) as D0 by lra. set (d := warm_up tau t0 t) in *. set (n := INR (length ts)) in *.
  pose proof (near_quot _ _ _ _ _ _ _ N M ltac:(nra) W0 N0 D0 M0) as Q.
  assert (0 <= / d <= / (8192 * u)) as Id. { split; [left; apply Rinv_0_lt_compat; exact D0|apply Rinv_le_contravar; lra]. }
  assert (u * / (8192 * u) = / 8192) as Iu by (field; lra).
  assert (0 <= 62 * u / d <= 62 / 8192) as G. { unfold Rdiv. split; [nra|]. assert (u * / d <= / 8192) by (rewrite <- Iu; apply Rmult_le_compat_l; lra). lra. }
  assert (rel_err (length ts) (seconds (t - b)) = 8 * u * n + 11 * u * (K * seconds (t - b))) as Er by reflexivity.
  unfold big in *. assert (0 <= u * n <= / 8000) as Un by nra. assert (0 <= u * (K * seconds (t - b)) <= / 8000) as Us by nra.
  apply near_b64 in Q; [|lra|lra|apply Rmult_le_pos; [exact N0|left; apply Rinv_0_lt_compat; exact M0]].
  assert (0 <= (n + 1) * unit_err / d) as T0 by (unfold Rdiv; apply Rmult_le_pos; [nra|lra]). pose proof nu_pos as Hnu.
  eapply near_weaken; [exact Q| | |apply b64_nonneg, Rmult_le_pos; [exact N0|left; apply Rinv_0_lt_compat; exact M0]|unfold exact_rate; fold d; apply Rmult_le_pos; lra|lra].
  - rewrite Er. replace (62 / d * u) with (62 * u / d) by (field; lra). rewrite !Rmult_plus_distr_r. replace (62 / d * u) with (62 * u / d) by (field; lra).
    assert (u * (K * seconds (t - b)) <= u * (K * seconds (t - t0))) by nra. lra.
  - assert ((n + 1) * unit_err <= 2 * (nu * bpow radix2 144)) as H1. { pose proof unit_err_small as H2. unfold big in H2. nra. }
    rewrite nu_144 in H1. assert (/ d <= bpow radix2 40) as H2. { change (bpow radix2 40) with 1099511627776. eapply Rle_trans; [apply Id|]. rewrite u_val. lra. }
    assert ((n + 1) * unit_err / d <= 2 * bpow radix2 (-878) * bpow radix2 40) as H3 by (apply Rmult_le_compat; nra).
    change 2 with (bpow radix2 1) in H3. rewrite <- !bpow_plus in H3. simpl Z.add in H3.
    assert (bpow radix2 (-837) <= bpow radix2 (-802)) as H4 by (apply bpow_le; lia). assert (nu <= bpow radix2 (-802)) as H5 by (apply bpow_le; lia).
    rewrite (bp2 (-800)), (bp2 (-800 - 1)). change (-800 - 1 - 1)%Z with (-802)%Z. pose proof (bpow_gt_0 radix2 (-802)). lra.
Qed.

(** ** Order *)
Lemma b64_int n : (n < 9007199254740992)%N -> b64 (IZR (Z.of_N n)) = IZR (Z.of_N n).
Proof.
  intros Hn. apply round_generic; [typeclasses eauto|]. apply generic_format_FLT. exists (Float radix2 (Z.of_N n) 0); [unfold F2R; simpl; ring| |simpl; lia].
  simpl Fnum. rewrite Z.abs_eq by lia. change (Zpower radix2 53) with 9007199254740992%Z. lia.
Qed.

Lemma secs_mono ns ns' : (ns <= ns')%N -> seconds ns' < 9007199254740992 -> secs_f64 ns <= secs_f64 ns'.
Proof.
  intros Hle Hb. assert (ns' < 9007199254740992 * 1000000000)%N as Hn.
  { unfold seconds in Hb. assert (IZR (Z.of_N ns') < IZR (9007199254740992 * 1000000000)) as H by (rewrite mult_IZR; lra). apply lt_IZR in H. lia. }
  clear Hb. unfold secs_f64. assert (ns' / 1000000000 < 9007199254740992)%N as H1 by (apply N.div_lt_upper_bound; lia).
  assert (ns / 1000000000 <= ns' / 1000000000)%N as H2 by (apply N.div_le_mono; lia).
  pose proof (N.mod_lt ns 1000000000 ltac:(lia)) as M. pose proof (N.mod_lt ns' 1000000000 ltac:(lia)) as M'.
  rewrite (b64_int (ns / 1000000000)), (b64_int (ns' / 1000000000)), (b64_int (ns mod 1000000000)), (b64_int (ns' mod 1000000000)) by lia.
  apply b64_le. set (s := (ns / 1000000000)%N) in *. set (s' := (ns' / 1000000000)%N) in *.
  destruct (N.eq_dec s s') as [E|E].
  - rewrite E. apply Rplus_le_compat_l, b64_le, Rmult_le_compat_r; [lra|]. apply IZR_le.
    pose proof (N.div_mod ns 1000000000 ltac:(lia)). pose proof (N.div_mod ns' 1000000000 ltac:(lia)). fold s in H. fold s' in H0. lia.
  - assert (IZR (Z.of_N s) + 1 <= IZR (Z.of_N s')) as H3 by (rewrite <- plus_IZR; apply IZR_le; lia).
    assert (b64 (IZR (Z.of_N (ns mod 1000000000)) / 1000000000) <= 1) as H4.
    { rewrite <- b64_1. apply b64_le. assert (IZR (Z.of_N (ns mod 1000000000)) <= IZR 1000000000) by (apply IZR_le; lia). lra. }
    assert (0 <= b64 (IZR (Z.of_N (ns' mod 1000000000)) / 1000000000)) as H5.
    { apply b64_nonneg. pose proof (zero_or_nonneg _ _ (zero_or_int (ns' mod 1000000000))). lra. }
    lra.
Qed.

Lemma decay_range ns : 0 <= fexp (b64 (- b64 K * secs_f64 ns)) <= 1.
Proof.
  apply (ge_range _ Hexp). replace (- b64 K * secs_f64 ns) with (- (b64 K * secs_f64 ns)) by ring. rewrite b64_opp. destruct (arg_near ns) as [_ P]. lra.
Qed.

Lemma decay_mono ns ns' : (ns <= ns')%N -> seconds ns' < 9007199254740992 ->
  fexp (b64 (- b64 K * secs_f64 ns')) <= fexp (b64 (- b64 K * secs_f64 ns)).
Proof.
  intros Hle Hb. pose proof (secs_mono _ _ Hle Hb) as S. destruct k_near as [_ B]. pose proof (bpow_gt_0 radix2 (-60)) as Hp.
  apply (ge_mono _ Hexp).
  - apply b64_le. nra.
  - replace (- b64 K * secs_f64 ns) with (- (b64 K * secs_f64 ns)) by ring. rewrite b64_opp. destruct (arg_near ns) as [_ P]. lra.
Qed.

Lemma rate_nonneg t0 b ts t : 0 <= fr_rate fexp (fr_after fexp tau t0 b ts) t.
Proof.
  unfold fr_rate. destruct (Rlt_dec 0 _) as [H|_]; [|lra]. apply b64_nonneg, Rmult_le_pos; [|left; apply Rinv_0_lt_compat; exact H].
  unfold numerator, decay. destruct (after_fields t0 b ts) as (F1 & _ & F3). rewrite F1. apply b64_nonneg, Rmult_le_pos; [apply decay_range|apply lambda_nonneg].
Qed.

Lemma seconds_mono a b : (a <= b)%N -> seconds a <= seconds b.
Proof. intros H. unfold seconds, Rdiv. apply Rmult_le_compat_r; [lra|]. apply IZR_le. lia. Qed.

Lemma denominator_mono t0 b ts t t' : (t <= t')%N -> seconds (t' - t0) < 9007199254740992 ->
  denominator fexp (fr_after fexp tau t0 b ts) t <= denominator fexp (fr_after fexp tau t0 b ts) t'.
Proof.
  intros Hle Hb. unfold denominator, decay. destruct (after_fields t0 b ts) as (F1 & F2 & _). rewrite F1, F2. apply b64_le.
  pose proof (decay_mono (t - t0) (t' - t0) ltac:(lia) Hb). lra.
Qed.

Lemma denominator_pos t0 b ts t : tau <= 100000 -> (t0 < t)%N -> seconds (t - t0) < 9007199254740992 -> 0 < denominator fexp (fr_after fexp tau t0 b ts) t.
Proof.
  intros Ht Hlt Hb. eapply Rlt_le_trans; [|apply (denominator_mono t0 b ts (t0 + 1) t); [lia|exact Hb]].
  assert (0 < tau) as T0. { pose proof K_pos as Hk. rewrite <- Htau in Hk. unfold Rdiv in Hk. rewrite Rmult_1_l in Hk. rewrite <- (Rinv_inv tau). apply Rinv_0_lt_compat. exact Hk. }
  assert (/ 100000 <= K) as HK1. { rewrite <- Htau. unfold Rdiv. rewrite Rmult_1_l. apply Rinv_le_contravar; lra. }
  assert (seconds (t0 + 1 - t0) = / 1000000000) as E. { replace (t0 + 1 - t0)%N with 1%N by lia. unfold seconds. simpl. field. }
  apply denominator_near.
  - rewrite E. destruct HK as [_ HK2]. change (bpow radix2 60) with 1152921504606846976 in HK2. unfold big. lra.
  - unfold warm_up. rewrite Htau, E. pose proof u_bounds as Hu. set (x := K * / 1000000000). replace (- K * / 1000000000) with (- x) by (unfold x; ring).
    assert (/ 100000000000000 <= x) as Hx by (unfold x; lra). pose proof (exp_mono (- x) (- / 100000000000000) ltac:(lra)) as M.
    pose proof (exp_neg_ge (- / 100000000000000) ltac:(lra)) as P.
    assert (/ (1 - - / 100000000000000) = 100000000000000 / 100000000000001) as Q by field. rewrite Q in P. lra.
Qed.

Lemma rate_decreases t0 b ts t t' : tau <= 100000 -> (t0 <= b)%N -> in_order b ts t -> (t0 < t)%N -> (t <= t')%N -> seconds (t' - t0) < 9007199254740992 ->
  fr_rate fexp (fr_after fexp tau t0 b ts) t' <= fr_rate fexp (fr_after fexp tau t0 b ts) t.
Proof.
  intros Ht Hb Ho H0 Hle Hs. destruct (in_order_last _ _ _ Ho) as (A & B & _).
  assert (seconds (t - t0) < 9007199254740992) as Hs1 by (eapply Rle_lt_trans; [apply (seconds_mono _ (t' - t0)); lia|exact Hs]).
  pose proof (denominator_pos t0 b ts t Ht H0 Hs1) as D. pose proof (denominator_mono t0 b ts t t' Hle Hs) as D'.
  unfold fr_rate. destruct (Rlt_dec 0 (denominator fexp (fr_after fexp tau t0 b ts) t)) as [_|H]; [|lra]. destruct (Rlt_dec 0 _) as [H'|H']; [|lra].
  apply b64_le. apply Rmult_le_compat.
  - unfold numerator, decay. destruct (after_fields t0 b ts) as (F1 & _ & F3). rewrite F1. apply b64_nonneg, Rmult_le_pos; [apply decay_range|apply lambda_nonneg].
  - left. apply Rinv_0_lt_compat. exact H'.
  - unfold numerator, decay. destruct (after_fields t0 b ts) as (F1 & _ & F3). rewrite F1, F3. apply b64_le. apply Rmult_le_compat_r; [apply lambda_nonneg|].
    apply decay_mono; [lia|]. eapply Rle_lt_trans; [apply (seconds_mono _ (t' - t0)); lia|exact Hs].
  - apply Rinv_le_contravar; assumption.
Qed.

(** ** Overflow *)
Lemma below_one f : b64 f = f -> f < 1 -> f <= 1 - u.
Proof.
  intros Hf H. assert (generic_format radix2 (FLT_exp (-1074) 53) f) as F by (rewrite <- Hf; apply generic_format_round; typeclasses eauto).
  assert (generic_format radix2 (FLT_exp (-1074) 53) 1) as F1 by (rewrite <- b64_1; apply generic_format_round; typeclasses eauto).
  pose proof (pred_ge_gt radix2 (FLT_exp (-1074) 53) f 1 F F1 H) as P. change 1 with (bpow radix2 0) in P at 1. rewrite pred_bpow in P. exact P.
Qed.

Lemma denominator_least t0 b ts t : 0 < denominator fexp (fr_after fexp tau t0 b ts) t -> u <= denominator fexp (fr_after fexp tau t0 b ts) t.
Proof.
  unfold denominator. set (f := decay fexp (fr_after fexp tau t0 b ts) t _). intros H.
  assert (f < 1) as H1. { apply Rnot_le_lt. intros H1. assert (b64 (1 - f) <= b64 0) as H2 by (apply b64_le; lra). rewrite b64_0 in H2. lra. }
  assert (f <= 1 - u) as H2 by (apply below_one; [apply (ge_format _ Hexp)|exact H1]).
  change u with (bpow radix2 (-53)) at 1. rewrite <- (b64_bpow (-53)) by lia. apply b64_le. fold u. lra.
Qed.

Lemma lambda_bound t0 b ts t : in_order b ts t -> INR (length ts) <= big -> K * seconds (t - b) <= big ->
  0 <= fr_lambda (fr_after fexp tau t0 b ts) <= bpow radix2 102.
Proof.
  intros Ho Hn Hs. destruct (in_order_last _ _ _ Ho) as (A & B & _). split; [apply lambda_nonneg|].
  assert (K * seconds (last ts b - b) <= big) as Hs1. { eapply Rle_trans; [|exact Hs]. apply Rmult_le_compat_l; [left; apply K_pos|]. apply seconds_mono. lia. }
  assert (0 <= K * seconds (last ts b - b)) as Hs0 by (apply Rmult_le_pos; [left; apply K_pos|apply seconds_nonneg]).
  destruct (lambda_near t0 b ts t Ho Hn Hs1) as [_ L]. eapply Rle_trans; [exact L|].
  pose proof (weighted_bounds ts (last ts b)) as [W0 W1]. pose proof u_bounds as Hu. pose proof (pos_INR (length ts)) as I0. pose proof unit_err_pos as Up.
  assert (INR (length ts) * unit_err <= 1) as E1.
  { pose proof unit_err_small as H3. rewrite nu_144 in H3. assert (bpow radix2 (-878) <= bpow radix2 0) as H4 by (apply bpow_le; lia). simpl (bpow radix2 0) in H4. nra. }
  assert (INR (length ts) * K <= bpow radix2 100) as E2.
  { replace (bpow radix2 100) with (big * bpow radix2 60) by (unfold big; change 1099511627776 with (bpow radix2 40); rewrite <- bpow_plus; reflexivity).
    destruct HK as [_ HK2]. pose proof K_pos. apply Rmult_le_compat; lra. }
  assert (1 <= bpow radix2 100) as E3 by (change 1 with (bpow radix2 0); apply bpow_le; lia).
  assert (exp (rel_err (length ts) (seconds (last ts b - b))) <= 2) as E4 by (apply exp_le_2; unfold rel_err, big in *; nra).
  rewrite (bp2 102), (bp2 (102 - 1)). change (102 - 1 - 1)%Z with 100%Z.
  apply Rmult_le_compat; [left; apply exp_pos|nra|exact E4|lra].
Qed.

Lemma b64_upto e x : (-1074 <= e)%Z -> x <= bpow radix2 e -> b64 x <= bpow radix2 e.
Proof. intros He H. rewrite <- (b64_bpow e He). apply b64_le. exact H. Qed.

Lemma secs_bound ns : K * seconds ns <= big -> 0 <= secs_f64 ns <= bpow radix2 101.
Proof.
  intros H. destruct (secs_near ns) as [[_ U] Z]. split; [apply (zero_or_nonneg _ _ Z)|]. rewrite Rplus_0_r in U. eapply Rle_trans; [exact U|].
  pose proof u_bounds as Hu. pose proof (exp_le_2 (6 * u) ltac:(lra)) as E. pose proof (seconds_nonneg ns) as S0.
  assert (seconds ns <= bpow radix2 100) as S.
  { destruct HK as [HK1 _]. replace (seconds ns) with (bpow radix2 60 * (bpow radix2 (-60) * seconds ns)) by (rewrite <- Rmult_assoc, <- bpow_plus; simpl; ring).
    replace (bpow radix2 100) with (bpow radix2 60 * big) by (unfold big; change 1099511627776 with (bpow radix2 40); rewrite <- bpow_plus; reflexivity).
    apply Rmult_le_compat_l; [apply bpow_ge_0|]. eapply Rle_trans; [|exact H]. apply Rmult_le_compat_r; assumption. }
  rewrite (bp2 101). change (101 - 1)%Z with 100%Z. apply Rmult_le_compat; try lra. left. apply exp_pos.
Qed.

Lemma k_bound : 0 <= b64 K <= bpow radix2 60.
Proof. destruct HK as [H1 H2]. split; [apply b64_nonneg; left; apply K_pos|apply b64_upto; [lia|exact H2]]. Qed.

Lemma arg_bound ns : K * seconds ns <= big -> 0 <= b64 K * secs_f64 ns <= bpow radix2 161.
Proof.
  intros H. pose proof (secs_bound ns H) as S. pose proof k_bound as Kb. split; [apply Rmult_le_pos; lra|]. change 161%Z with (60 + 101)%Z. rewrite bpow_plus. apply Rmult_le_compat; lra.
Qed.

Lemma bpow_200 e : (e <= 200)%Z -> bpow radix2 e <= bpow radix2 200.
Proof. apply bpow_le. Qed.

Lemma results_bounded t0 b ts t : (t0 <= b)%N -> in_order b ts t -> INR (length ts) <= big -> K * seconds (t - t0) <= big ->
  Forall (fun x => Rabs x <= bpow radix2 200) (exact_results fexp (fr_after fexp tau t0 b ts) t).
Proof.
  intros Hb Ho Hn Hs. destruct (in_order_last _ _ _ Ho) as (A & B & _). pose proof K_pos as Hk.
  assert (K * seconds (t - b) <= big) as Hs1 by (eapply Rle_trans; [apply Rmult_le_compat_l; [lra|apply (seconds_mono _ (t - t0)); lia]|exact Hs]).
  assert (K * seconds (t - last ts b) <= big) as Hs2 by (eapply Rle_trans; [apply Rmult_le_compat_l; [lra|apply (seconds_mono _ (t - t0)); lia]|exact Hs]).
  pose proof (lambda_bound t0 b ts t Ho Hn Hs1) as L. destruct (after_fields t0 b ts) as (F1 & F2 & F3).
  assert (forall x, 0 <= x -> x <= bpow radix2 161 -> Rabs x <= bpow radix2 200) as P.
  { intros x H0 H1. rewrite Rabs_pos_eq by exact H0. eapply Rle_trans; [exact H1|]. apply bpow_200. lia. }
  assert (forall ns x, x = fr_lambda (fr_after fexp tau t0 b ts) -> 0 <= fexp (b64 (- b64 K * secs_f64 ns)) * x <= bpow radix2 102) as Q.
  { intros ns x ->. pose proof (decay_range ns). split; [apply Rmult_le_pos; lra|]. rewrite <- (Rmult_1_l (bpow radix2 102)). apply Rmult_le_compat; lra. }
  assert (forall e x, (e <= 161)%Z -> 0 <= x <= bpow radix2 e -> Rabs x <= bpow radix2 200) as P'.
  { intros e x He [H0 H1]. apply P; [exact H0|]. eapply Rle_trans; [exact H1|]. apply bpow_le. exact He. }
  pose proof k_bound as Kb.
  unfold exact_results. repeat apply Forall_cons; try apply Forall_nil; unfold decay; try rewrite F1; try rewrite F2; try rewrite F3.
  - apply (P' 101%Z); [lia|]. apply secs_bound. exact Hs2.
  - apply (P' 101%Z); [lia|]. apply secs_bound. exact Hs.
  - replace (- b64 K * secs_f64 (t - last ts b)) with (- (b64 K * secs_f64 (t - last ts b))) by ring. rewrite Rabs_Ropp. apply (P' 161%Z); [lia|]. apply arg_bound. exact Hs2.
  - replace (- b64 K * secs_f64 (t - t0)) with (- (b64 K * secs_f64 (t - t0))) by ring. rewrite Rabs_Ropp. apply (P' 161%Z); [lia|]. apply arg_bound. exact Hs.
  - apply (P' 102%Z); [lia|]. apply Q. reflexivity.
  - apply (P' 103%Z); [lia|]. destruct (Q (t - last ts b)%N _ eq_refl) as [Q0 Q1]. split; [pose proof (b64_nonneg _ Q0); lra|].
    pose proof (b64_upto 102 _ ltac:(lia) Q1). rewrite (bp2 103). change (103 - 1)%Z with 102%Z. assert (bpow radix2 60 <= bpow radix2 102) by (apply bpow_le; lia). lra.
  - apply (P' 0%Z); [lia|]. simpl. pose proof (decay_range (t - t0)). lra.
  - destruct (Rlt_dec 0 _) as [H|_]; [|rewrite Rabs_R0; apply bpow_ge_0]. apply (P' 155%Z); [lia|]. pose proof (denominator_least t0 b ts t H) as D.
    unfold numerator, decay. rewrite F1, F3. destruct (Q (t - last ts b)%N _ eq_refl) as [Q0 Q1].
    pose proof (b64_nonneg _ Q0) as N0. pose proof (b64_upto 102 _ ltac:(lia) Q1) as N1.
    assert (0 < / denominator fexp (fr_after fexp tau t0 b ts) t) as I0 by (apply Rinv_0_lt_compat; exact H).
    split; [apply Rmult_le_pos; lra|]. change 155%Z with (102 + 53)%Z. rewrite bpow_plus. apply Rmult_le_compat; try lra.
    assert (/ u = bpow radix2 53) as <- by (unfold u; rewrite <- bpow_opp; reflexivity). apply Rinv_le_contravar; [apply u_bounds|exact D].
Qed.
End decay.

Lemma rounded_exp_good : good_exp (fun x => b64 (exp x)).
Proof.
  pose proof u_bounds as Hu. pose proof nu_pos as Hn. assert (bpow radix2 (-52) = 2 * u) as E52 by (rewrite bp2; reflexivity).
  split.
  - intros x. apply b64_idem.
  - intros x Hx. split; [apply b64_nonneg; left; apply exp_pos|]. rewrite <- b64_1. apply b64_le, exp_le_1. exact Hx.
  - intros x y Hxy _. apply b64_le, exp_mono. exact Hxy.
  - intros x Hx. rewrite E52. fold nu. destruct (b64_err (exp x)) as (e & d & He & Hd & ->). apply Rabs_le_inv in He, Hd. pose proof (exp_pos x). nra.
  - intros x Hx. rewrite E52. fold nu. destruct (b64_err (exp x)) as (e & d & He & Hd & ->). apply Rabs_le_inv in He, Hd. pose proof (exp_pos x). nra.
Qed.
