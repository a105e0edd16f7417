(** Property C59: the rounding errors of [complex_powers].  [complex_powers64] (FloatPowersModel.v) is the function with
    every operation rounded to double precision; [u64] is 2^-53. *)
Require Import ZArith Lia Reals Lra Bool.
From Flocq Require Import Core.
From Coquelicot Require Import Complex.
From Verif Require Import Base CBase FloatIndexModel PowersModel FloatPowersModel FloatPowersSpec.
From Verif Require FloatPowersProofs FloatPowersProps.
Open Scope Z_scope.

(** ** C59 *)

(** Every entry m is within 150 m roundings of the m-th power, however close z is to an axis: the error grows linearly. *)
Theorem C59_complex_powers :
  forall sqrt_im fuel garbage (z : arr C) M, (3 <= fuel)%nat -> 1 <= M <= 2 ^ 36 -> 0 <= alen z -> good_sqrt sqrt_im ->
    (forall i, 0 <= i < alen z -> near_unit (aget z i)) ->
    exists zp, complex_powers64 sqrt_im fuel garbage z M = Ok zp /\ nrow zp = alen z /\ ncol zp = M + 1
      /\ forall i m, 0 <= i < alen z -> 0 <= m <= M ->
           (Cmod (get2 zp i m - Cpow (aget z i) (Z.to_nat m))%C <= 150 * IZR m * u64)%R.
Proof. exact FloatPowersProps.C59_complex_powers. Qed.
Print Assumptions C59_complex_powers.

Theorem C59_rounded_sqrt :
  good_sqrt (fun z => RN64 (Im (Csqrt z))).
Proof. exact FloatPowersProps.C59_rounded_sqrt. Qed.
Print Assumptions C59_rounded_sqrt.

(** The doubles nearest to 3/5 and -4/5, in the fourth quadrant; 1; and a number 2^-200 away from the imaginary axis. *)
Example C59_nonvacuous :
  near_unit (RN64 (3 / 5), RN64 (- (4 / 5))) /\ near_unit (RtoC 1) /\ near_unit (- / 2 ^ 200, 1)%R.
Proof.
  assert (D : forall x, is_double (RN64 x)).
  { intros x. unfold is_double, RN64. apply round_generic; [apply valid_rnd_N|].
    apply generic_format_round; [apply FLT_exp_valid; reflexivity|apply valid_rnd_N]. }
  assert (D0 : is_double 0) by apply FloatPowersProps.RN64_0.
  assert (D1 : is_double 1).
  { unfold is_double, RN64. apply round_generic; [apply valid_rnd_N|]. apply (generic_format_bpow radix2 _ 0). vm_compute. discriminate. }
  assert (B : (/ 2 ^ 300 <= / 2 ^ 200)%R) by (apply Rinv_le; [apply pow_lt; lra|apply Rle_pow; [lra|lia]]).
  assert (B1 : (/ 2 ^ 200 <= / 2 ^ 100)%R) by (apply Rinv_le; [apply pow_lt; lra|apply Rle_pow; [lra|lia]]).
  assert (B2 : (/ 2 ^ 100 <= / 1000000000000000000000000000)%R) by lra.
  assert (P2 : (0 < / 2 ^ 200)%R) by (apply Rinv_0_lt_compat, pow_lt; lra).
  assert (R1 : forall x, (/ 2 <= Rabs x)%R -> resolved x) by (intros x H; right; lra).
  pose proof FloatPowersProofs.eta_pos as E0.
  assert (E1 : (FloatPowersProofs.eta <= u64 / 1000)%R).
  { unfold FloatPowersProofs.eta, u64. apply Rle_trans with (bpow radix2 (-100)); [apply bpow_le; lia|]. change (bpow radix2 (-100)) with (/ 1267650600228229401496703205376)%R. lra. }
  split; [|split].
  - pose proof (FloatPowersProofs.RN64_err (3 / 5)) as A. pose proof (FloatPowersProofs.RN64_err (- (4 / 5))) as A'.
    rewrite (Rabs_pos_eq (3 / 5)) in A by lra. rewrite (Rabs_left (- (4 / 5))) in A' by lra.
    set (x := RN64 (3 / 5)) in *. set (y := RN64 (- (4 / 5))) in *.
    assert (U : (0 < u64 <= / 1000000000000)%R) by apply FloatPowersProofs.u64_pos.
    unfold near_unit. cbn [Re Im fst snd]. split; [apply D|]. split; [apply D|]. split; [|split; apply R1].
    + assert (M1 : Cmod (3 / 5, - (4 / 5))%R = 1%R).
      { unfold Cmod. cbn [fst snd]. replace ((3 / 5) ^ 2 + (- (4 / 5)) ^ 2)%R with 1%R by field. apply sqrt_1. }
      pose proof (Cmod_triangle (x, y) ((3 / 5, - (4 / 5))%R - (x, y))%C) as T1.
      pose proof (Cmod_triangle (3 / 5, - (4 / 5))%R (- ((3 / 5, - (4 / 5))%R - (x, y)))%C) as T2.
      replace ((x, y) + ((3 / 5, - (4 / 5))%R - (x, y)))%C with ((3 / 5, - (4 / 5))%R : C) in T1 by (apply C_eq; cbn; ring).
      replace ((3 / 5, - (4 / 5))%R + - ((3 / 5, - (4 / 5))%R - (x, y)))%C with ((x, y) : C) in T2 by (apply C_eq; cbn; ring).
      rewrite Cmod_opp in T2. rewrite M1 in T1, T2.
      pose proof (FloatPowersProofs.Cmod_le_sum (3 / 5 + - x) (- (4 / 5) + - y)) as S.
      change ((3 / 5, - (4 / 5))%R - (x, y))%C with ((3 / 5 + - x, - (4 / 5) + - y)%R : C) in T1, T2.
      rewrite <- (Rabs_Ropp (3 / 5 + - x)), <- (Rabs_Ropp (- (4 / 5) + - y)) in S.
      replace (- (3 / 5 + - x))%R with (x - 3 / 5)%R in S by ring. replace (- (- (4 / 5) + - y))%R with (y - - (4 / 5))%R in S by ring.
      apply Rabs_le. lra.
    + apply Rabs_le_inv in A. rewrite Rabs_pos_eq; lra.
    + apply Rabs_le_inv in A'. rewrite Rabs_left; lra.
  - unfold near_unit. cbn [Re Im fst snd RtoC]. repeat split; auto.
    + rewrite Cmod_1, Rminus_diag_eq, Rabs_R0 by reflexivity. pose proof FloatPowersProofs.u64_pos. lra.
    + apply R1. rewrite Rabs_R1. lra.
    + left. reflexivity.
  - unfold near_unit. cbn [Re Im fst snd]. split; [|split; [auto|split; [|split]]].
    + apply FloatPowersProps.is_double_opp. unfold is_double, RN64. apply round_generic; [apply valid_rnd_N|].
      replace (/ 2 ^ 200)%R with (bpow radix2 (-200)) by (rewrite bpow_powerRZ; unfold powerRZ; f_equal).
      apply generic_format_bpow. vm_compute. discriminate.
    + pose proof FloatPowersProofs.u64_pos as U.
      pose proof (FloatPowersProofs.Cmod_le_sum (- / 2 ^ 200) 1) as S. rewrite Rabs_Ropp, (Rabs_pos_eq (/ 2 ^ 200)), Rabs_R1 in S by lra.
      pose proof (Rmax_Cmod ((- / 2 ^ 200)%R, 1%R)) as S2. cbn [fst snd] in S2. rewrite Rabs_R1 in S2.
      pose proof (Rmax_r (Rabs (- / 2 ^ 200)) 1). apply Rabs_le. unfold u64 in *. lra.
    + right. rewrite Rabs_Ropp, Rabs_pos_eq by lra. exact B.
    + apply R1. rewrite Rabs_R1. lra.
Qed.
