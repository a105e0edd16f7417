(** Rounding errors of the D and SWSH evaluators: relative errors counted in roundings, and the summation loop. *)
Require Import ZArith Lia Reals Lra Bool.
From Flocq Require Import Core Relative.
From Coquelicot Require Import Complex.
From Verif Require Import Base BaseProofs CBase Fact RSum DRep IndexModel FloatIndexModel FloatIndexProofs FloatPowersModel FloatPowersSpec
  FloatPowersProofs FloatConvModel FloatConvSpec FloatConvProofs WignerModel WignerProofs FloatWignerModel FloatWignerSpec.
Set Bullet Behavior "Strict Subproofs".
Open Scope R_scope.

(** ** [k] roundings *)
Definition g (k : nat) : R := (1 + u64) ^ k - 1.
Lemma g_pos k : 0 <= g k.
Proof. unfold g. pose proof u64_pos. assert (1 <= (1 + u64) ^ k) by (apply pow_R1_Rle; lra). lra. Qed.
Lemma g_plus a b : 1 + g (a + b) = (1 + g a) * (1 + g b).
Proof. unfold g. rewrite pow_add. ring. Qed.
Lemma g_le a b : (a <= b)%nat -> g a <= g b.
Proof. intros H. unfold g. pose proof u64_pos. apply Rplus_le_compat_r, Rle_pow; [lra|auto]. Qed.
Lemma g_super a b : g a + g b <= g (a + b).
Proof. pose proof (g_plus a b). pose proof (g_pos a). pose proof (g_pos b). nra. Qed.
Lemma g_ge k : INR k * u64 <= g k.
Proof.
  pose proof u64_pos. induction k as [|k IH]; [unfold g; simpl; lra|].
  replace (S k) with (k + 1)%nat by lia. pose proof (g_super k 1). assert (g 1 = u64) by (unfold g; simpl; ring).
  rewrite plus_INR. simpl (INR 1). lra.
Qed.
Lemma g_S k : g (S k) = g k + u64 * (1 + g k).
Proof. unfold g. cbn [pow]. ring. Qed.
Lemma g_small k : (k <= 4000)%nat -> g k <= 1001 / 1000 * INR k * u64.
Proof.
  pose proof u64_pos. induction k as [|k IH]; intros Hk; [unfold g; simpl; lra|].
  rewrite g_S, S_INR. specialize (IH ltac:(lia)).
  assert (Hk' : INR k <= 4000) by (replace 4000 with (INR 4000) by (rewrite INR_IZR_INZ; reflexivity); apply le_INR; lia).
  pose proof (pos_INR k).
  assert (u64 * g k <= u64 * (1 / 1000)).
  { apply Rmult_le_compat_l; [lra|]. assert (INR k * u64 <= 4000 * u64) by (apply Rmult_le_compat_r; lra). lra. }
  lra.
Qed.
Lemma g_half k : (k <= 4000)%nat -> g k <= 1 / 1000.
Proof.
  intros H. pose proof (g_small k H). pose proof u64_pos.
  assert (Hk' : INR k <= 4000) by (replace 4000 with (INR 4000) by (rewrite INR_IZR_INZ; reflexivity); apply le_INR; lia).
  assert (INR k * u64 <= 4000 * u64) by (apply Rmult_le_compat_r; lra). lra.
Qed.

(** [x] is [y] up to [k] roundings and an absolute error [a] *)
Definition near (k : nat) (a x y : R) : Prop := Rabs (x - y) <= g k * Rabs y + a.
Definition rel (k : nat) (x y : R) : Prop := near k 0 x y.

Lemma near_refl x : near 0 0 x x.
Proof. unfold near. replace (x - x) with 0 by ring. rewrite Rabs_R0. pose proof (g_pos 0). pose proof (Rabs_pos x). nra. Qed.
Lemma near_weaken k k' a a' x y : near k a x y -> (k <= k')%nat -> a <= a' -> near k' a' x y.
Proof.
  unfold near. intros H Hk Ha. pose proof (g_le k k' Hk). pose proof (Rabs_pos y).
  assert (g k * Rabs y <= g k' * Rabs y) by (apply Rmult_le_compat_r; lra). lra.
Qed.
Lemma near_abs k a x y : near k a x y -> Rabs x <= (1 + g k) * Rabs y + a.
Proof.
  unfold near. intros H. replace x with ((x - y) + y) at 1 by ring.
  eapply Rle_trans; [apply Rabs_triang|]. lra.
Qed.
Lemma near_mul k a x y j b x' y' Y Y' : near k a x y -> near j b x' y' -> 0 <= a -> 0 <= b -> Rabs y <= Y -> Rabs y' <= Y' ->
  near (k + j) (a * ((1 + g j) * Y') + b * ((1 + g k) * Y) + a * b) (x * x') (y * y').
Proof.
  intros H H' Ha Hb HY HY'. pose proof (near_abs _ _ _ _ H') as A. unfold near in *.
  pose proof (g_pos k) as Gk. pose proof (g_pos j) as Gj. pose proof (g_plus k j) as Gp.
  pose proof (Rabs_pos y). pose proof (Rabs_pos y').
  rewrite Rabs_mult. replace (x * x' - y * y') with ((x - y) * x' + y * (x' - y')) by ring.
  eapply Rle_trans; [apply Rabs_triang|]. rewrite !Rabs_mult.
  assert (E1 : Rabs (x - y) * Rabs x' <= (g k * Rabs y + a) * ((1 + g j) * Rabs y' + b)).
  { apply Rmult_le_compat; auto using Rabs_pos. }
  assert (E2 : Rabs y * Rabs (x' - y') <= Rabs y * (g j * Rabs y' + b)) by (apply Rmult_le_compat_l; auto).
  assert (E3 : a * ((1 + g j) * Rabs y') <= a * ((1 + g j) * Y')).
  { apply Rmult_le_compat_l; auto. apply Rmult_le_compat_l; lra. }
  assert (E4 : b * ((1 + g k) * Rabs y) <= b * ((1 + g k) * Y)).
  { apply Rmult_le_compat_l; auto. apply Rmult_le_compat_l; lra. }
  replace (g (k + j)) with ((1 + g k) * (1 + g j) - 1) by lra. lra.
Qed.
Lemma rel_mul k x y j x' y' : rel k x y -> rel j x' y' -> rel (k + j) (x * x') (y * y').
Proof.
  intros H H'. unfold rel in *.
  pose proof (near_mul k 0 x y j 0 x' y' (Rabs y) (Rabs y') H H' (Rle_refl _) (Rle_refl _) (Rle_refl _) (Rle_refl _)) as E.
  eapply near_weaken; [exact E|lia|lra].
Qed.
Lemma near_RN k a x y : near k a x y -> 0 <= a -> near (k + 1) (2 * a + eta) (RN64 x) y.
Proof.
  intros H Ha. pose proof (near_abs _ _ _ _ H) as A. unfold near in *. pose proof (RN64_err x). pose proof u64_pos.
  replace (k + 1)%nat with (S k) by lia. rewrite g_S.
  replace (RN64 x - y) with ((RN64 x - x) + (x - y)) by ring. eapply Rle_trans; [apply Rabs_triang|].
  assert (u64 * Rabs x <= u64 * ((1 + g k) * Rabs y + a)) by (apply Rmult_le_compat_l; lra).
  assert (u64 * a <= 1 * a) by (apply Rmult_le_compat_r; lra). lra.
Qed.

Lemma RN64_rel x : bpow radix2 (-1000) <= Rabs x -> Rabs (RN64 x - x) <= u64 * Rabs x.
Proof.
  intros H. pose proof (relative_error_N_FLT radix2 (-1074) 53 ltac:(lia) (fun x => negb (Z.even x)) x) as E.
  unfold RN64. eapply Rle_trans; [apply E|].
  - eapply Rle_trans; [|exact H]. apply bpow_le. lia.
  - apply Rmult_le_compat_r; [apply Rabs_pos|]. unfold u64. change (bpow radix2 (- (53) + 1)) with (/ 4503599627370496). lra.
Qed.
Definition low : R := bpow radix2 (-900).
Lemma low_half : 2 * bpow radix2 (-1000) <= low.
Proof.
  unfold low. replace (-900)%Z with (99 + (1 + -1000))%Z by lia. rewrite !bpow_plus. change (bpow radix2 1) with 2.
  pose proof (bpow_gt_0 radix2 (-1000)). assert (1 <= bpow radix2 99) by (change 1 with (bpow radix2 0); apply bpow_le; lia).
  rewrite <- (Rmult_1_l (2 * _)) at 1. apply Rmult_le_compat_r; lra.
Qed.
Lemma rel_low k x y : rel k x y -> (k <= 4000)%nat -> low <= Rabs y -> bpow radix2 (-1000) <= Rabs x.
Proof.
  unfold rel, near. intros H Hk Hy. pose proof (g_half k Hk). pose proof low_half. pose proof (bpow_gt_0 radix2 (-1000)).
  pose proof (Rabs_triang_inv y (y - x)) as T. replace (y - (y - x)) with x in T by ring. rewrite Rabs_minus_sym in H.
  assert (g k * Rabs y <= 1 / 1000 * Rabs y) by (apply Rmult_le_compat_r; [apply Rabs_pos|lra]). lra.
Qed.
Lemma rel_RN k x y : rel k x y -> (k <= 4000)%nat -> low <= Rabs y -> rel (k + 1) (RN64 x) y.
Proof.
  intros H Hk Hy. pose proof (RN64_rel x (rel_low k x y H Hk Hy)) as E. pose proof (near_abs _ _ _ _ H) as A.
  unfold rel, near in *. pose proof u64_pos. replace (k + 1)%nat with (S k) by lia. rewrite g_S.
  replace (RN64 x - y) with ((RN64 x - x) + (x - y)) by ring. eapply Rle_trans; [apply Rabs_triang|].
  assert (u64 * Rabs x <= u64 * ((1 + g k) * Rabs y + 0)) by (apply Rmult_le_compat_l; lra). lra.
Qed.
Lemma rel_inv k x y : rel k x y -> (k <= 1000)%nat -> y <> 0 -> rel (k + 1) (/ x) (/ y).
Proof.
  unfold rel, near. rewrite !Rplus_0_r. intros H Hk Hy.
  pose proof (g_half k ltac:(lia)) as G. pose proof (g_pos k) as G0. pose proof (g_small k ltac:(lia)) as G1. pose proof u64_pos.
  assert (Py : 0 < Rabs y) by (apply Rabs_pos_lt; auto).
  pose proof (Rabs_triang_inv y (y - x)) as T. replace (y - (y - x)) with x in T by ring. rewrite Rabs_minus_sym in H.
  assert (L : (1 - g k) * Rabs y <= Rabs x) by lra.
  assert (Px : 0 < Rabs x) by (assert (0 < (1 - g k) * Rabs y) by (apply Rmult_lt_0_compat; lra); lra).
  assert (x <> 0) by (intros ->; rewrite Rabs_R0 in Px; lra).
  replace (/ x - / y) with ((y - x) / (x * y)) by (field; auto).
  unfold Rdiv. rewrite Rabs_mult, !Rabs_inv, Rabs_mult.
  apply Rmult_le_reg_r with (Rabs x * Rabs y); [apply Rmult_lt_0_compat; auto|].
  replace (Rabs (y - x) * / (Rabs x * Rabs y) * (Rabs x * Rabs y)) with (Rabs (y - x)) by (field; lra).
  replace (g (k + 1) * / Rabs y * (Rabs x * Rabs y)) with (g (k + 1) * Rabs x) by (field; lra).
  eapply Rle_trans; [exact H|]. replace (k + 1)%nat with (S k) by lia. rewrite g_S.
  apply Rle_trans with ((g k + u64 * (1 + g k)) * ((1 - g k) * Rabs y)).
  - rewrite <- Rmult_assoc. apply Rmult_le_compat_r; [lra|].
    assert (Hk' : INR k <= 1000) by (replace 1000 with (INR 1000) by (rewrite INR_IZR_INZ; reflexivity); apply le_INR; lia).
    pose proof (pos_INR k).
    assert (INR k * u64 <= 1000 * u64) by (apply Rmult_le_compat_r; lra).
    assert (Q : g k * g k <= 1002 * u64 * (1002 * u64)) by (apply Rmult_le_compat; lra).
    assert (u64 * u64 <= u64 * / 1000000000000) by (apply Rmult_le_compat_l; lra).
    assert (u64 * (g k * g k) <= u64 * 1) by (apply Rmult_le_compat_l; [lra|nra]).
    assert (u64 * (g k * g k) <= u64 * (1 / 1000)).
    { apply Rmult_le_compat_l; [lra|]. nra. }
    lra.
  - apply Rmult_le_compat_l; auto. assert (0 <= u64 * (1 + g k)) by (apply Rmult_le_pos; lra). lra.
Qed.
Lemma rel_div k x y j x' y' : rel k x y -> rel j x' y' -> (j <= 1000)%nat -> y' <> 0 -> rel (k + (j + 1)) (x / x') (y / y').
Proof. intros. unfold Rdiv. apply rel_mul; auto. apply rel_inv; auto. Qed.
Lemma rel_opp k x y : rel k x y -> rel k (- x) (- y).
Proof. unfold rel, near. rewrite Rabs_Ropp. replace (- x - - y) with (- (x - y)) by ring. rewrite Rabs_Ropp. auto. Qed.
Lemma rel_weaken k k' x y : rel k x y -> (k <= k')%nat -> rel k' x y.
Proof. intros. eapply near_weaken; eauto. lra. Qed.
Lemma rel_refl x : rel 0 x x.
Proof. apply near_refl. Qed.

(** ** The loop *)
Lemma low_le x : / 2 ^ 500 <= x -> low <= x.
Proof.
  intros H. eapply Rle_trans; [|exact H]. unfold low.
  change (-900)%Z with (-400 + -500)%Z. rewrite bpow_plus.
  assert (E : bpow radix2 (-500) = / 2 ^ 500).
  { rewrite bpow_opp with (e := 500%Z), bpow_powerRZ. f_equal. }
  rewrite E. assert (bpow radix2 (-400) <= 1) by (change 1 with (bpow radix2 0); apply bpow_le; lia).
  assert (0 < / 2 ^ 500) by (apply Rinv_0_lt_compat, pow_lt; lra).
  rewrite <- (Rmult_1_l (/ 2 ^ 500)) at 2. apply Rmult_le_compat_r; lra.
Qed.

Lemma sum_step_err x x64 N1 N2 M rho S A S64 k :
  rel 16 x64 x -> x < 0 -> / 2 ^ 200 <= - x -> (1 <= rho * (M + rho) < 2 ^ 40)%Z -> (1 <= (N1 - rho) * (N2 - rho) < 2 ^ 40)%Z ->
  Rabs S <= A -> 1 <= A -> Rabs (S64 - S) <= g k * A -> (k <= 3900)%nat ->
  exists S' A' S64', sum_step x N1 N2 M rho S = Ok S' /\ sum_step (- x) N1 N2 M rho A = Ok A'
    /\ sum_step64 x64 N1 N2 M rho S64 = Ok S64' /\ Rabs S' <= A' /\ 1 <= A' /\ Rabs (S64' - S') <= g (k + 21) * A'.
Proof.
  intros Hx Neg Lo H1 H2 HS HA HE Hk. unfold sum_step, sum_step64.
  destruct (Z.eqb_spec (rho * (M + rho)) 0) as [|_]; [lia|].
  eexists _, _, _. split; [reflexivity|]. split; [reflexivity|]. split; [reflexivity|].
  unfold int64. rewrite !RN64_int by lia.
  set (I1 := IZR ((N1 - rho) * (N2 - rho))). set (I2 := IZR (rho * (M + rho))).
  assert (B1 : 1 <= I1) by (apply (IZR_le 1); lia). assert (B2 : 1 <= I2) by (apply (IZR_le 1); lia).
  assert (B3 : I2 <= 2 ^ 40). { eapply Rle_trans; [apply IZR_le, Z.lt_le_incl, H1|]. simpl; lra. }
  set (w := x * I1 / I2).
  assert (Nw : w < 0).
  { unfold w, Rdiv. assert (0 < / I2) by (apply Rinv_0_lt_compat; lra). assert (0 < I1 * / I2) by (apply Rmult_lt_0_compat; lra). nra. }
  assert (L1 : / 2 ^ 200 <= Rabs (x * I1)).
  { rewrite Rabs_left by nra. nra. }
  assert (L2 : / 2 ^ 240 <= Rabs w).
  { unfold w, Rdiv. rewrite Rabs_mult, (Rabs_pos_eq (/ I2)) by (left; apply Rinv_0_lt_compat; lra).
    replace (/ 2 ^ 240) with (/ 2 ^ 200 * / 2 ^ 40). 2:{ rewrite <- Rinv_mult, <- pow_add. reflexivity. }
    apply Rmult_le_compat; auto.
    - left. apply Rinv_0_lt_compat, pow_lt. lra.
    - left. apply Rinv_0_lt_compat, pow_lt. lra.
    - apply Rinv_le_contravar; lra. }
  assert (Mono : forall a b : nat, (a <= b)%nat -> / 2 ^ b <= / 2 ^ a).
  { intros. apply Rinv_le_contravar; [apply pow_lt; lra|]. apply Rle_pow; [lra|auto]. }
  assert (W : rel 18 (RN64 (RN64 (x64 * I1) / I2)) w).
  { assert (P : rel 17 (RN64 (x64 * I1)) (x * I1)).
    { apply (rel_RN 16); [|lia|].
      - replace 16%nat with (16 + 0)%nat by lia. apply rel_mul; auto using rel_refl.
      - apply low_le. eapply Rle_trans; [|exact L1]. apply Mono. lia. }
    apply (rel_RN 17); [|lia|].
    - unfold w, Rdiv. replace 17%nat with (17 + 0)%nat by lia. apply rel_mul; auto using rel_refl.
    - apply low_le. eapply Rle_trans; [|exact L2]. apply Mono. lia. }
  set (w64 := RN64 (RN64 (x64 * I1) / I2)) in *.
  assert (EA : A * (- x * I1 / I2) = A * Rabs w).
  { f_equal. rewrite Rabs_left by auto. unfold w, Rdiv. ring. }
  rewrite EA. fold w.
  set (B := A * Rabs w). assert (PB : 0 <= B) by (apply Rmult_le_pos; [lra|apply Rabs_pos]).
  (* product *)
  assert (T1 : Rabs (S64 * w64 - S * w) <= g (k + 18) * B).
  { unfold rel, near in W. rewrite Rplus_0_r in W.
    replace (S64 * w64 - S * w) with ((S64 - S) * w + S64 * (w64 - w)) by ring.
    eapply Rle_trans; [apply Rabs_triang|]. rewrite !Rabs_mult.
    assert (Rabs (S64 - S) * Rabs w <= g k * A * Rabs w) by (apply Rmult_le_compat_r; auto using Rabs_pos).
    assert (N64 : Rabs S64 <= (1 + g k) * A).
    { replace S64 with ((S64 - S) + S) by ring. eapply Rle_trans; [apply Rabs_triang|]. lra. }
    assert (Rabs S64 * Rabs (w64 - w) <= (1 + g k) * A * (g 18 * Rabs w)) by (apply Rmult_le_compat; auto using Rabs_pos).
    pose proof (g_plus k 18). replace (g (k + 18)) with ((1 + g k) * (1 + g 18) - 1) by lra. unfold B. lra. }
  assert (SB : Rabs (S * w) <= B) by (rewrite Rabs_mult; apply Rmult_le_compat_r; auto using Rabs_pos).
  pose proof u64_pos as U. pose proof eta_pos as He. pose proof eta_small as Hes.
  assert (T2 : Rabs (RN64 (S64 * w64) - S * w) <= g (k + 19) * B + eta).
  { pose proof (RN64_err (S64 * w64)) as R1.
    assert (Rabs (S64 * w64) <= (1 + g (k + 18)) * B).
    { replace (S64 * w64) with ((S64 * w64 - S * w) + S * w) by ring. eapply Rle_trans; [apply Rabs_triang|]. lra. }
    assert (u64 * Rabs (S64 * w64) <= u64 * ((1 + g (k + 18)) * B)) by (apply Rmult_le_compat_l; lra).
    replace (k + 19)%nat with (Datatypes.S (k + 18))%nat by lia. rewrite g_S.
    replace (RN64 (S64 * w64) - S * w) with ((RN64 (S64 * w64) - S64 * w64) + (S64 * w64 - S * w)) by ring.
    eapply Rle_trans; [apply Rabs_triang|]. lra. }
  set (v := RN64 (S64 * w64)) in *.
  split; [|split].
  - eapply Rle_trans; [apply Rabs_triang|]. rewrite Rabs_R1. lra.
  - lra.
  - pose proof (RN64_err (v + 1)) as R2. pose proof (g_pos (k + 19)) as Gp.
    assert (Rabs (v + 1) <= (1 + g (k + 19)) * (B + 1) + eta).
    { replace (v + 1) with ((v - S * w) + (S * w + 1)) by ring. eapply Rle_trans; [apply Rabs_triang|].
      pose proof (Rabs_triang (S * w) 1) as Q. rewrite Rabs_R1 in Q. lra. }
    assert (u64 * Rabs (v + 1) <= u64 * ((1 + g (k + 19)) * (B + 1) + eta)) by (apply Rmult_le_compat_l; lra).
    replace (RN64 (v + 1) - (S * w + 1)) with ((RN64 (v + 1) - (v + 1)) + (v - S * w)) by ring.
    eapply Rle_trans; [apply Rabs_triang|].
    replace (k + 21)%nat with (Datatypes.S (Datatypes.S (k + 19)))%nat by lia. rewrite !g_S.
    assert (u64 * eta <= 1 * eta) by (apply Rmult_le_compat_r; lra).
    set (G := g (k + 19)) in *.
    assert (Q0 : 0 <= u64 * (1 + G)) by (apply Rmult_le_pos; lra).
    set (K := G + u64 * (1 + G)) in *.
    assert (Q1 : 1 * 1 <= (1 + K) * (B + 1)) by (apply Rmult_le_compat; unfold K; lra).
    assert (Q2 : u64 * (1 * 1) <= u64 * ((1 + K) * (B + 1))) by (apply Rmult_le_compat_l; lra).
    assert (Q3 : K * (B + 1) = G * B + G + u64 * ((1 + G) * (B + 1))) by (unfold K; ring).
    replace ((K + u64 * (1 + K)) * (B + 1)) with (K * (B + 1) + u64 * ((1 + K) * (B + 1))) by ring.
    rewrite Q3. lra.
Qed.

Lemma sum_loop_err n i st x x64 N1 N2 M : forall S A S64 k,
  rel 16 x64 x -> x < 0 -> / 2 ^ 200 <= - x ->
  (forall j, (0 <= j < Z.of_nat n)%Z -> let rho := (i + j * st)%Z in
     (1 <= rho * (M + rho) < 2 ^ 40)%Z /\ (1 <= (N1 - rho) * (N2 - rho) < 2 ^ 40)%Z) ->
  Rabs S <= A -> 1 <= A -> Rabs (S64 - S) <= g k * A -> (k + 21 * n <= 3900)%nat ->
  exists S' A' S64', for_loop n i st (sum_step x N1 N2 M) S = Ok S' /\ for_loop n i st (sum_step (- x) N1 N2 M) A = Ok A'
    /\ for_loop n i st (sum_step64 x64 N1 N2 M) S64 = Ok S64' /\ Rabs S' <= A' /\ 1 <= A' /\ Rabs (S64' - S') <= g (k + 21 * n) * A'.
Proof.
  revert i. induction n as [|n IH]; intros i S A S64 k Hx Neg Lo HR HS HA HE Hk.
  - exists S, A, S64. cbn [for_loop]. replace (k + 21 * 0)%nat with k by lia. auto 10.
  - destruct (HR 0%Z ltac:(lia)) as [R1 R2]. rewrite Z.mul_0_l, Z.add_0_r in R1, R2.
    destruct (sum_step_err x x64 N1 N2 M i S A S64 k Hx Neg Lo R1 R2 HS HA HE ltac:(lia)) as (S1 & A1 & S641 & E1 & E2 & E3 & B1 & B2 & B3).
    cbn [for_loop]. rewrite E1, E2, E3. cbn [bind].
    destruct (IH (i + st)%Z S1 A1 S641 (k + 21)%nat) as (S' & A' & S64' & F); auto; try lia.
    + intros j Hj. specialize (HR (j + 1)%Z ltac:(lia)). cbv zeta in *.
      replace (i + st + j * st)%Z with (i + (j + 1) * st)%Z by ring. auto.
    + exists S', A', S64'. replace (k + 21 * Datatypes.S n)%nat with (k + 21 + 21 * n)%nat by lia. auto.
Qed.
