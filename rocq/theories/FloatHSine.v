(** The sine that the H calculators compute if none is given, for property C75. *)
Require Import ZArith Reals List Lia Lra Psatz.
From Flocq Require Import Core Sterbenz.
From Verif Require Import Base FloatPowersSpec FloatPowersProofs FloatIndexModel FloatConvProps FloatPartsProofs FloatHPole FloatHPoleProps FloatHOne.
Open Scope R_scope.
Set Bullet Behavior "Strict Subproofs".

Local Notation fmt := (generic_format radix2 (FLT_exp (-1074) 53)).
Local Instance p53 : Prec_gt_0 53 := eq_refl.
Lemma dbl_fmt x : is_double x -> fmt x.
Proof. unfold is_double, RN64. intros <-. apply generic_format_round; [apply FLT_exp_valid; reflexivity|apply valid_rnd_N]. Qed.
Lemma fmt_dbl x : fmt x -> RN64 x = x.
Proof. intros H. unfold RN64. apply round_generic; auto. apply valid_rnd_N. Qed.
Lemma fmt_2 x : fmt x -> fmt (2 * x).
Proof.
  intros H. apply FLT_format_generic in H; [|reflexivity]. destruct H as [f H1 H2 H3]. apply generic_format_FLT.
  exists (Float radix2 (Fnum f) (Fexp f + 1)); simpl; auto; [|lia].
  rewrite H1. unfold F2R. simpl Fnum. simpl Fexp. rewrite bpow_plus. change (bpow radix2 1) with 2. ring.
Qed.
Lemma fmt_1 : fmt 1.
Proof. apply dbl_fmt. exact RN64_1. Qed.
Lemma RN_best x g : fmt g -> Rabs (RN64 x - x) <= Rabs (g - x).
Proof.
  intros G. unfold RN64. pose proof (round_N_pt radix2 (FLT_exp (-1074) 53) (fun t => negb (Z.even t)) x) as [_ B]. now apply B.
Qed.
Definition sine (c : R) : R := RN64 (sqrt (RN64 (1 - RN64 (c ^ 2)))).
Lemma sqrt_diff v t : 0 <= v -> 0 < t -> Rabs (sqrt v - t) <= Rabs (v - t * t) / t.
Proof.
  intros Hv Ht. pose proof (sqrt_pos v). apply (Rmult_le_reg_r t); [auto|]. unfold Rdiv. rewrite Rmult_assoc, Rinv_l, Rmult_1_r by lra.
  replace (v - t * t) with ((sqrt v - t) * (sqrt v + t)) by (ring_simplify; rewrite pow2_sqrt by auto; ring).
  rewrite Rabs_mult. apply Rmult_le_compat_l; [apply Rabs_pos|]. rewrite Rabs_pos_eq; lra.
Qed.
Lemma sine_err c : is_double c -> -1 <= c <= 1 -> Rabs (sine c - sqrt (1 - c ^ 2)) <= 12300 * u64.
Proof.
  intros Dc Hc. unfold sine.
  assert (U : 0 < u64 <= / 2 ^ 50) by (unfold u64; lra). pose proof eta_small as Et.
  assert (q1 : 0 <= c ^ 2 <= 1) by nra.
  set (q := c ^ 2) in *. set (A := RN64 q). assert (A1 : A <= 1) by (unfold A; rewrite <- RN64_1; apply RN64_mono; lra).
  assert (A0 : 0 <= A) by (unfold A; rewrite <- RN64_0; apply RN64_mono; lra).
  set (V := RN64 (1 - A)). assert (V0 : 0 <= V) by (unfold V; rewrite <- RN64_0; apply RN64_mono; lra).
  assert (V1 : V <= 1) by (apply Rle_trans with (RN64 1); [apply RN64_mono; lra|rewrite RN64_1; lra]).
  assert (EA : Rabs (A - q) <= (1001 / 1000) * u64).
  { unfold A. pose proof (RN64_err q) as R. rewrite (Rabs_pos_eq q) in R by lra. nra. }
  assert (s1 : sqrt V <= 1) by (rewrite <- sqrt_1; now apply sqrt_le_1_alt). pose proof (sqrt_pos V) as s0.
  assert (ES : Rabs (RN64 (sqrt V) - sqrt V) <= 2 * u64).
  { pose proof (RN64_err (sqrt V)) as R. rewrite (Rabs_pos_eq (sqrt V)) in R by lra. nra. }
  assert (K : Rabs (sqrt V - sqrt (1 - q)) <= 12290 * u64).
  { destruct (Req_dec q 1) as [E1|E1].
    { assert (A = 1) as EA1 by (unfold A; rewrite E1; apply RN64_1). unfold V. rewrite EA1, E1. replace (1 - 1) with 0 by ring.
      rewrite RN64_0, sqrt_0, Rminus_0_r, Rabs_R0. lra. }
    assert (t0 : 0 < sqrt (1 - q)) by (apply sqrt_lt_R0; lra). assert (tt : sqrt (1 - q) * sqrt (1 - q) = 1 - q) by (apply sqrt_sqrt; lra).
    pose proof (sqrt_diff V (sqrt (1 - q)) V0 t0) as D. rewrite tt in D. eapply Rle_trans; [exact D|]. clear D.
    set (t := sqrt (1 - q)) in *. set (d := 1 - Rabs c).
    assert (ac : Rabs c * Rabs c = q) by (rewrite <- Rabs_mult, Rabs_pos_eq by nra; unfold q; ring).
    assert (ac1 : 0 <= Rabs c <= 1) by (split; [apply Rabs_pos|apply Rabs_le; lra]).
    apply (Rmult_le_reg_r t); [auto|]. unfold Rdiv. rewrite Rmult_assoc, Rinv_l, Rmult_1_r by lra.
    destruct (Rle_lt_dec (Rabs c) (3 / 4)) as [L|L].
    - (* far from the poles *)
      assert (t1 : 6 / 10 <= t) by nra.
      assert (EV : Rabs (V - (1 - A)) <= 2 * u64).
      { unfold V. pose proof (RN64_err (1 - A)) as R. rewrite (Rabs_pos_eq (1 - A)) in R by lra. nra. }
      replace (V - (1 - q)) with ((V - (1 - A)) - (A - q)) by ring.
      pose proof (Rabs_triang (V - (1 - A)) (- (A - q))) as T. rewrite Rabs_Ropp in T. unfold Rminus at 1. nra.
    - assert (Fa : fmt (Rabs c)) by (apply generic_format_abs, dbl_fmt; auto).
      assert (A2 : / 2 <= A).
      { unfold A. replace (/ 2) with (RN64 (/ 2)); [apply RN64_mono; nra|]. apply fmt_dbl. replace (/ 2) with (bpow radix2 (-1)) by reflexivity.
        apply generic_format_bpow. unfold FLT_exp. lia. }
      assert (EV : V = 1 - A).
      { unfold V. apply fmt_dbl. apply sterbenz; [apply FLT_exp_valid; reflexivity|apply FLT_exp_monotone|exact fmt_1| |lra].
        apply generic_format_round; [apply FLT_exp_valid; reflexivity|apply valid_rnd_N]. }
      assert (E2 : Rabs (A - q) <= d * d).
      { replace (d * d) with (Rabs ((2 * Rabs c - 1) - q)).
        - apply RN_best. apply sterbenz; [apply FLT_exp_valid; reflexivity|apply FLT_exp_monotone|now apply fmt_2|exact fmt_1|lra].
        - rewrite <- ac. unfold d. rewrite Rabs_left1; [ring|]. nra. }
      rewrite EV. replace (1 - A - (1 - q)) with (- (A - q)) by ring. rewrite Rabs_Ropp.
      assert (td : d <= t * t). { rewrite tt, <- ac. unfold d. nra. }
      assert (d1 : 0 < d <= / 4).
      { unfold d. split; [|lra]. assert (Rabs c <> 1) by (intros Q; apply E1; rewrite <- ac, Q; ring). lra. }
      set (E := Rabs (A - q)) in *. assert (E0 : 0 <= E) by apply Rabs_pos.
      (* compare squares *)
      assert (Sq : E * E <= (12290 * u64 * t) * (12290 * u64 * t)).
      { apply Rle_trans with (12290 * u64 * (12290 * u64) * d); [|].
        - destruct (Rle_lt_dec d (/ 2 ^ 27)) as [Ld|Ld].
          + apply Rle_trans with (d * d * (d * d)); [apply Rmult_le_compat; lra|].
            replace (d * d * (d * d)) with (d * d * d * d) by ring. apply Rmult_le_compat_r; [lra|].
            apply Rle_trans with (/ 2 ^ 27 * / 2 ^ 27 * / 2 ^ 27).
            * apply Rmult_le_compat; [apply Rmult_le_pos; lra|lra| |lra]. apply Rmult_le_compat; lra.
            * unfold u64. lra.
          + apply Rle_trans with ((1001 / 1000) * u64 * ((1001 / 1000) * u64)); [apply Rmult_le_compat; lra|].
            apply Rle_trans with (12290 * u64 * (12290 * u64) * / 2 ^ 27); [unfold u64; lra|].
            apply Rmult_le_compat_l; [apply Rmult_le_pos; lra|lra].
        - replace (12290 * u64 * t * (12290 * u64 * t)) with (12290 * u64 * (12290 * u64) * (t * t)) by ring.
          apply Rmult_le_compat_l; [apply Rmult_le_pos; lra|lra]. }
      assert (P : 0 <= 12290 * u64 * t) by (apply Rmult_le_pos; lra).
      destruct (Rle_lt_dec E (12290 * u64 * t)) as [|G]; [auto|]. nra. }
  pose proof (Rabs_triang (RN64 (sqrt V) - sqrt V) (sqrt V - sqrt (1 - q))) as T.
  replace (RN64 (sqrt V) - sqrt V + (sqrt V - sqrt (1 - q))) with (RN64 (sqrt V) - sqrt (1 - q)) in T by ring. lra.
Qed.

Lemma sine_acos c : is_double c -> -1 <= c <= 1 -> Rabs (sine c - sin (acos c)) <= 12300 * u64.
Proof. intros D H. rewrite sin_acos by lra. unfold Rsqr. replace (c * c) with (c ^ 2) by ring. now apply sine_err. Qed.
