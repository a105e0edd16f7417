Require Import ZArith Reals Lia Lra Bool.
From Flocq Require Import Core.
From Verif Require Import Base BaseProofs IndexModel IndexProofs FloatIndexModel.
Open Scope Z_scope.

Lemma RN64_int n : Z.abs n < 2 ^ 53 -> RN64 (IZR n) = IZR n.
Proof.
  intros H. unfold RN64. apply round_generic.
  - apply valid_rnd_N.
  - apply generic_format_FLT. exists (Float radix2 n 0).
    + unfold F2R; simpl. ring.
    + simpl. exact H.
    + simpl. lia.
Qed.

Lemma RN64_ge_0 x : (0 <= x)%R -> (0 <= RN64 x)%R.
Proof.
  intros H. unfold RN64.
  rewrite <- (round_0 radix2 (FLT_exp (-1074) 53) ZnearestE).
  apply round_le; auto.
  - apply FLT_exp_valid; reflexivity.
  - apply valid_rnd_N.
Qed.

Lemma RN64_ge_m1 x : (-1 <= x)%R -> (-1 <= RN64 x)%R.
Proof.
  intros H.
  replace (-1)%R with (RN64 (IZR (-1))) by (rewrite RN64_int; simpl; auto; lia).
  unfold RN64. apply round_le; auto.
  - apply FLT_exp_valid; reflexivity.
  - apply valid_rnd_N.
Qed.

Lemma float_isqrt_ge n : 0 <= n -> -1 <= float_isqrt_minus_1 n.
Proof.
  intros H. unfold float_isqrt_minus_1.
  assert (-1 <= RN64 (RN64 (R_sqrt.sqrt (RN64 (IZR n))) - 1))%R as B.
  { apply RN64_ge_m1. pose proof (RN64_ge_0 _ (sqrt_pos (RN64 (IZR n)))). lra. }
  rewrite <- (Ztrunc_IZR (-1)). apply Ztrunc_le. exact B.
Qed.

Lemma float_isqrt_square k : 0 <= k -> k * k < 2 ^ 53 -> float_isqrt_minus_1 (k * k) = k - 1.
Proof.
  intros H Hk. unfold float_isqrt_minus_1.
  rewrite RN64_int by lia. rewrite mult_IZR, sqrt_square by (apply (IZR_le 0); lia).
  assert (k < 2 ^ 53) by nia.
  rewrite RN64_int by lia. rewrite <- minus_IZR. rewrite RN64_int by lia.
  apply Ztrunc_IZR.
Qed.

Lemma LM_deduce_float_exact size ell_min :
  size + ell_min ^ 2 < 2 ^ 53 ->
  LM_deduce_ell_max_float size ell_min = LM_deduce_ell_max size ell_min.
Proof.
  intros H. unfold LM_deduce_ell_max_float, LM_deduce_ell_max, LM_deduce_with.
  destruct (Z.ltb_spec (size + ell_min ^ 2) 0) as [|H0]; auto.
  set (n := size + ell_min ^ 2) in *. unfold exact_isqrt_minus_1.
  pose proof (float_isqrt_ge n H0) as G.
  destruct (Z.eq_dec (Z.sqrt n * Z.sqrt n) n) as [E|E].
  - pose proof (Z.sqrt_nonneg n).
    assert (Ef : float_isqrt_minus_1 n = Z.sqrt n - 1)
      by (rewrite <- E at 1; apply float_isqrt_square; rewrite ?E; lia).
    rewrite Ef. reflexivity.
  - set (e := float_isqrt_minus_1 n) in *. set (r := Z.sqrt n) in *.
    destruct (Z.eqb_spec (e * (e + 2) - ell_min ^ 2 + 1) size) as [E1|E1].
    + exfalso. apply E.
      assert (n = (e + 1) * (e + 1)) as En by (unfold n; lia).
      unfold r. rewrite En. rewrite Z.sqrt_square by lia. reflexivity.
    + destruct (Z.eqb_spec ((r - 1) * (r - 1 + 2) - ell_min ^ 2 + 1) size) as [E2|E2]; auto.
      exfalso. apply E. unfold n. lia.
Qed.
