(** Rounding errors of mode_conversions.py: scalars. *)
Require Import ZArith Lia Reals Lra Bool.
From Flocq Require Import Core.
From Coquelicot Require Import Complex.
From Verif Require Import Base BaseProofs CBase IndexModel IndexProofs FloatIndexModel FloatIndexProofs FloatPowersModel FloatPowersSpec
  FloatPowersProofs FloatConvModel FloatConvSpec ConvModel ConvProofs.
Set Bullet Behavior "Strict Subproofs".
Open Scope R_scope.

Lemma tiny_eta : tiny64 = 2 * eta.
Proof. unfold tiny64, eta. change (-1074)%Z with (1 + -1075)%Z. rewrite bpow_plus. reflexivity. Qed.
Lemma eta_small : eta <= u64 / 10 ^ 20.
Proof.
  apply Rle_trans with (bpow radix2 (-130)); [apply bpow_le; lia|].
  unfold u64. change (bpow radix2 (-130)) with (/ IZR (2 ^ 130)).
  apply Rmult_le_reg_l with (IZR (2 ^ 130)); [apply IZR_lt; reflexivity|].
  rewrite Rinv_r by (apply not_0_IZR; discriminate). lra.
Qed.
Lemma eta_small60 : 2 ^ 60 * eta <= u64 / 10 ^ 6.
Proof.
  apply Rle_trans with (2 ^ 60 * bpow radix2 (-140)).
  - apply Rmult_le_compat_l; [lra|apply bpow_le; lia].
  - change (bpow radix2 (-140)) with (/ IZR (2 ^ 140)). unfold u64. lra.
Qed.

Lemma RN_rel x : / 2 <= Rabs x -> Rabs (RN64 x - x) <= 1001 / 1000 * u64 * Rabs x.
Proof.
  intros H. pose proof (RN64_err x). pose proof eta_small. pose proof u64_pos.
  assert (u64 * / 2 <= u64 * Rabs x) by (apply Rmult_le_compat_l; lra). lra.
Qed.

Lemma rel_pos x y e : 0 < y -> 0 <= e <= 20 -> Rabs (x - y) <= e * u64 * y -> 99 / 100 * y <= x <= 101 / 100 * y.
Proof.
  intros Hy He H. pose proof u64_pos.
  assert (e * u64 * y <= 1 / 100 * y).
  { apply Rmult_le_compat_r; [lra|]. assert (e * u64 <= 20 * u64) by (apply Rmult_le_compat_r; lra). lra. }
  apply Rabs_le_inv in H. lra.
Qed.

(** Chain: [x] within [e] of [y], rounded *)
Lemma RN_chain x y e : / 2 + / 2 <= y -> 0 <= e <= 20 -> Rabs (x - y) <= e * u64 * y ->
  Rabs (RN64 x - y) <= (e + 1002 / 1000) * u64 * y.
Proof.
  intros Hy He H. destruct (rel_pos x y e) as [A B]; try lra.
  assert (P : / 2 <= Rabs x) by (rewrite Rabs_pos_eq; lra).
  pose proof (RN_rel x P). pose proof u64_pos.
  assert (Hx : Rabs x <= (1 + e * u64) * y).
  { replace x with ((x - y) + y) by ring. eapply Rle_trans; [apply Rabs_triang|]. rewrite (Rabs_pos_eq y) by lra. lra. }
  assert (Q : 1001 / 1000 * u64 * Rabs x <= 1002 / 1000 * u64 * y).
  { apply Rle_trans with (1001 / 1000 * u64 * ((1 + e * u64) * y)).
    - apply Rmult_le_compat_l; lra.
    - replace (1001 / 1000 * u64 * ((1 + e * u64) * y)) with ((1001 / 1000 * (1 + e * u64)) * (u64 * y)) by ring.
      replace (1002 / 1000 * u64 * y) with ((1002 / 1000) * (u64 * y)) by ring.
      apply Rmult_le_compat_r; [apply Rmult_le_pos; lra|].
      assert (e * u64 <= 20 * u64) by (apply Rmult_le_compat_r; lra). lra. }
  replace (RN64 x - y) with ((RN64 x - x) + (x - y)) by ring. eapply Rle_trans; [apply Rabs_triang|]. lra.
Qed.

Lemma sqrt_pert a b e : 0 < a -> 0 <= b -> Rabs (b - a) <= e * a -> Rabs (sqrt b - sqrt a) <= e * sqrt a.
Proof.
  intros Ha Hb H. assert (Sa := sqrt_lt_R0 a Ha). assert (Sb := sqrt_pos b).
  assert (E : (sqrt b - sqrt a) * (sqrt b + sqrt a) = b - a).
  { replace ((sqrt b - sqrt a) * (sqrt b + sqrt a)) with (sqrt b * sqrt b - sqrt a * sqrt a) by ring.
    rewrite !sqrt_sqrt; lra. }
  apply Rmult_le_reg_r with (sqrt a); auto.
  replace (e * sqrt a * sqrt a) with (e * a) by (rewrite Rmult_assoc, sqrt_sqrt; lra).
  eapply Rle_trans; [|exact H]. rewrite <- E, Rabs_mult. apply Rmult_le_compat_l; [apply Rabs_pos|].
  rewrite Rabs_pos_eq; lra.
Qed.
Lemma sqrt_chain x y e : 1 <= y -> 0 <= e <= 20 -> Rabs (x - y) <= e * u64 * y ->
  Rabs (RN64 (sqrt x) - sqrt y) <= (e + 1002 / 1000) * u64 * sqrt y.
Proof.
  intros Hy He H. destruct (rel_pos x y e) as [A B]; try lra.
  assert (1 <= sqrt y) by (rewrite <- sqrt_1; apply sqrt_le_1_alt; lra).
  apply RN_chain; auto; [lra|]. apply sqrt_pert; lra.
Qed.
Lemma scale_err c x y e : 0 < c -> Rabs (x - y) <= e * u64 * y -> Rabs (c * x - c * y) <= e * u64 * (c * y).
Proof.
  intros Hc H. rewrite <- Rmult_minus_distr_l, Rabs_mult, (Rabs_pos_eq c) by lra.
  replace (e * u64 * (c * y)) with (c * (e * u64 * y)) by ring. apply Rmult_le_compat_l; lra.
Qed.

(** ** The constants *)
Lemma PI_bounds : 3 < PI <= 4.
Proof. pose proof PI2_3_2. pose proof PI_4. lra. Qed.
Lemma pi64_err : Rabs (pi64 - PI) <= 1002 / 1000 * u64 * PI.
Proof.
  pose proof PI_bounds. replace (1002 / 1000) with (0 + 1002 / 1000) by ring. apply RN_chain; try lra.
  replace (PI - PI) with 0 by ring. rewrite Rabs_R0. lra.
Qed.
Lemma k00_err : Rabs (k00 - sqrt (4 * PI)) <= 301 / 100 * u64 * sqrt (4 * PI).
Proof.
  pose proof PI_bounds. pose proof u64_pos. pose proof pi64_err as E.
  apply (scale_err 4) in E; [|lra]. apply RN_chain in E; [|lra|lra]. apply sqrt_chain in E; [|lra|lra].
  fold k00 in E. eapply Rle_trans; [exact E|]. repeat apply Rmult_le_compat_r; try lra. apply sqrt_pos.
Qed.
Lemma k3_err c : 1 <= c ->
  Rabs (RN64 (sqrt (RN64 (RN64 (c * pi64) / 3))) - sqrt (c * PI / 3)) <= 402 / 100 * u64 * sqrt (c * PI / 3).
Proof.
  intros Hc. pose proof PI_bounds. pose proof u64_pos. pose proof pi64_err as E.
  assert (3 <= c * PI) by nra.
  apply (scale_err c) in E; [|lra]. apply RN_chain in E; [|lra|lra].
  apply (scale_err (/ 3)) in E; [|lra].
  replace (/ 3 * RN64 (c * pi64)) with (RN64 (c * pi64) / 3) in E by (unfold Rdiv; ring).
  replace (/ 3 * (c * PI)) with (c * PI / 3) in E by (unfold Rdiv; ring).
  apply RN_chain in E; [|lra|lra]. apply sqrt_chain in E; [|lra|lra].
  eapply Rle_trans; [exact E|]. repeat apply Rmult_le_compat_r; try lra. apply sqrt_pos.
Qed.
Lemma k11_err : Rabs (k11 - sqrt (2 * PI / 3)) <= 402 / 100 * u64 * sqrt (2 * PI / 3).
Proof. apply k3_err. lra. Qed.
Lemma k10_err : Rabs (k10 - sqrt (4 * PI / 3)) <= 402 / 100 * u64 * sqrt (4 * PI / 3).
Proof. apply k3_err. lra. Qed.
Lemma sqrt_between a : 1 <= a <= 16 -> 1 <= sqrt a <= 4.
Proof.
  intros H. split.
  - rewrite <- sqrt_1. apply sqrt_le_1_alt; lra.
  - rewrite <- (sqrt_square 4) by lra. apply sqrt_le_1_alt. lra.
Qed.
Lemma k_range k a : 1 <= a <= 16 -> Rabs (k - sqrt a) <= 402 / 100 * u64 * sqrt a -> 9 / 10 <= k <= 5.
Proof. intros Ha H. pose proof (sqrt_between a Ha). apply rel_pos in H; lra. Qed.
Lemma k00_range : 9 / 10 <= k00 <= 5.
Proof.
  pose proof PI_bounds. pose proof u64_pos. apply (k_range _ (4 * PI)); [lra|]. eapply Rle_trans; [apply k00_err|].
  repeat apply Rmult_le_compat_r; try lra. apply sqrt_pos.
Qed.
Lemma k11_range : 9 / 10 <= k11 <= 5.
Proof. pose proof PI_bounds. apply (k_range _ (2 * PI / 3)); [lra|]. apply k11_err. Qed.
Lemma k10_range : 9 / 10 <= k10 <= 5.
Proof. pose proof PI_bounds. apply (k_range _ (4 * PI / 3)); [lra|]. apply k10_err. Qed.

(** ** Products and quotients *)
Lemma mul_close k k' x e : 0 < k -> 0 <= e <= 10 -> Rabs (k' - k) <= e * u64 * k -> close (e + 101 / 100) (RN64 (k' * x)) (k * x).
Proof.
  intros Hk He H. unfold close. pose proof (RN64_err (k' * x)) as R1. pose proof u64_pos. pose proof eta_pos. rewrite tiny_eta.
  destruct (rel_pos k' k e) as [A B]; try lra.
  rewrite Rabs_mult, (Rabs_pos_eq k') in R1 by lra. rewrite Rabs_mult, (Rabs_pos_eq k) by lra.
  pose proof (Rabs_pos x) as Px. set (ax := Rabs x) in *.
  assert (E1 : Rabs (k' * x - k * x) <= e * u64 * k * ax).
  { rewrite <- Rmult_minus_distr_r, Rabs_mult. apply Rmult_le_compat_r; auto. }
  assert (E2 : u64 * (k' * ax) <= 101 / 100 * (u64 * (k * ax))).
  { replace (101 / 100 * (u64 * (k * ax))) with (u64 * (101 / 100 * k * ax)) by ring.
    apply Rmult_le_compat_l; [lra|]. apply Rmult_le_compat_r; lra. }
  replace (RN64 (k' * x) - k * x) with ((RN64 (k' * x) - k' * x) + (k' * x - k * x)) by ring.
  eapply Rle_trans; [apply Rabs_triang|].
  replace ((e + 101 / 100) * u64 * (k * ax)) with (e * u64 * k * ax + 101 / 100 * (u64 * (k * ax))) by ring. lra.
Qed.
Lemma close_weaken a b x y : a <= b -> close a x y -> close b x y.
Proof.
  unfold close. intros H C. eapply Rle_trans; [exact C|]. apply Rplus_le_compat_r. apply Rmult_le_compat_r; [apply Rabs_pos|].
  apply Rmult_le_compat_r; auto. pose proof u64_pos; lra.
Qed.
Lemma close_opp a x y : close a x y -> close a (- x) (- y).
Proof.
  unfold close. intros H. replace (- x - - y) with (- (x - y)) by ring. rewrite !Rabs_Ropp. auto.
Qed.

Lemma Rabs_div a k : k <> 0 -> Rabs (a / k) = Rabs a / Rabs k.
Proof. intros. unfold Rdiv. rewrite Rabs_mult, Rabs_inv; auto. Qed.

(** [X] is [k x] up to [e] roundings; dividing by [k] gives [x] back *)
Lemma div_back div k x X e : good_div div -> / 2 <= Rabs k <= 2 ^ 60 -> 0 <= e <= 10 ->
  Rabs (X - k * x) <= e * u64 * Rabs (k * x) + 4 * eta -> close (e + 301 / 100) (div X k) x.
Proof.
  intros Hd Hk He H. destruct (Hd X k Hk) as [_ D]. unfold close. pose proof u64_pos. pose proof eta_pos. rewrite tiny_eta in *.
  assert (Hk0 : k <> 0) by (intros ->; rewrite Rabs_R0 in Hk; lra).
  assert (E : Rabs (X / k - x) <= e * u64 * Rabs x + 8 * eta).
  { replace (X / k - x) with ((X - k * x) / k) by (field; auto). rewrite Rabs_div by auto.
    apply Rmult_le_reg_r with (Rabs k); [lra|]. unfold Rdiv. rewrite Rmult_assoc, Rinv_l, Rmult_1_r by lra.
    eapply Rle_trans; [exact H|]. rewrite Rabs_mult.
    assert (8 * eta * / 2 <= 8 * eta * Rabs k) by (apply Rmult_le_compat_l; lra). lra. }
  assert (E2 : Rabs (X / k) <= Rabs x + (e * u64 * Rabs x + 8 * eta)).
  { replace (X / k) with (x + (X / k - x)) by ring. eapply Rle_trans; [apply Rabs_triang|]. lra. }
  pose proof (Rabs_pos x). set (ax := Rabs x) in *.
  assert (E3 : e * u64 * ax <= / 1000 * ax).
  { apply Rmult_le_compat_r; auto. assert (e * u64 <= 10 * u64) by (apply Rmult_le_compat_r; lra). lra. }
  assert (E4 : 3 * u64 * Rabs (X / k) <= 3 * u64 * (1001 / 1000 * ax + 8 * eta)) by (apply Rmult_le_compat_l; lra).
  replace (div X k - x) with ((div X k - X / k) + (X / k - x)) by ring. eapply Rle_trans; [apply Rabs_triang|].
  assert (E5 : u64 * eta <= / 1000 * eta) by (apply Rmult_le_compat_r; lra).
  assert (0 <= u64 * ax) by (apply Rmult_le_pos; lra). lra.
Qed.

(** dividing by a rounded factor *)
Lemma div_close div k k' x e : good_div div -> 1 <= k <= 2 ^ 59 -> 0 <= e <= 10 -> Rabs (k' - k) <= e * u64 * k ->
  close (102 / 100 * e + 304 / 100) (div x k') (x / k).
Proof.
  intros Hd Hk He H. destruct (rel_pos k' k e) as [A B]; try lra.
  assert (Hk' : / 2 <= Rabs k' <= 2 ^ 60) by (rewrite Rabs_pos_eq; lra).
  destruct (Hd x k' Hk') as [_ D]. unfold close. pose proof u64_pos. pose proof eta_pos. rewrite tiny_eta in *.
  rewrite !Rabs_div in * by lra. rewrite (Rabs_pos_eq k') in D by lra. rewrite (Rabs_pos_eq k) by lra.
  pose proof (Rabs_pos x) as Px.
  assert (F : Rabs x / k' <= 101 / 99 * (Rabs x / k)).
  { unfold Rdiv at 1. replace (101 / 99 * (Rabs x / k)) with (Rabs x * (101 / 99 * / k)) by (unfold Rdiv; ring).
    apply Rmult_le_compat_l; auto. apply Rmult_le_reg_l with k'; [lra|]. rewrite Rinv_r by lra.
    apply Rmult_le_reg_l with k; [lra|]. replace (k * (k' * (101 / 99 * / k))) with (101 / 99 * k') by (field; lra). lra. }
  assert (F' : Rabs x / k' <= (1 + 1013 / 1000 * (e * u64)) * (Rabs x / k)).
  { unfold Rdiv at 1. replace ((1 + 1013 / 1000 * (e * u64)) * (Rabs x / k)) with (Rabs x * ((1 + 1013 / 1000 * (e * u64)) * / k)) by (unfold Rdiv; ring).
    apply Rmult_le_compat_l; auto. apply Rmult_le_reg_l with k'; [lra|]. rewrite Rinv_r by lra.
    apply Rmult_le_reg_l with k; [lra|].
    replace (k * (k' * ((1 + 1013 / 1000 * (e * u64)) * / k))) with ((1 + 1013 / 1000 * (e * u64)) * k') by (field; lra).
    apply Rabs_le_inv in H. assert (0 <= e * u64 <= / 10000000000) by (split; nra). nra. }
  assert (G : Rabs (x / k' - x / k) <= 1013 / 1000 * (e * u64) * (Rabs x / k)).
  { replace (x / k' - x / k) with (x / k' * ((k - k') / k)) by (field; lra).
    rewrite Rabs_mult, !Rabs_div by lra. rewrite (Rabs_pos_eq k') by lra. rewrite (Rabs_pos_eq k) by lra.
    rewrite Rabs_minus_sym in H.
    assert (Q : Rabs (k - k') / k <= e * u64).
    { apply Rmult_le_reg_r with k; [lra|]. unfold Rdiv. rewrite Rmult_assoc, Rinv_l by lra. lra. }
    assert (Q0 : 0 <= Rabs (k - k') / k) by (apply Rmult_le_pos; [apply Rabs_pos|left; apply Rinv_0_lt_compat; lra]).
    assert (P0 : 0 <= Rabs x / k) by (apply Rmult_le_pos; [auto|left; apply Rinv_0_lt_compat; lra]).
    apply Rle_trans with (1013 / 1000 * (Rabs x / k) * (e * u64)); [|lra].
    apply Rmult_le_compat; auto.
    - apply Rmult_le_pos; [auto|left; apply Rinv_0_lt_compat; lra].
    - eapply Rle_trans; [exact F'|]. apply Rmult_le_compat_r; auto.
      assert (0 <= e * u64 <= / 10000000000) by (split; nra). lra. }
  assert (P0 : 0 <= Rabs x / k) by (apply Rmult_le_pos; [auto|left; apply Rinv_0_lt_compat; lra]).
  set (q := Rabs x / k) in *.
  assert (J : 3 * u64 * (Rabs x / k') <= 3 * u64 * ((1 + 1013 / 1000 * (e * u64)) * q)) by (apply Rmult_le_compat_l; lra).
  assert (J2 : 3 * u64 * ((1 + 1013 / 1000 * (e * u64)) * q) <= 301 / 100 * (u64 * q)).
  { assert (0 <= e * u64 <= / 10000000000) by (split; nra). assert (0 <= u64 * q) by (apply Rmult_le_pos; lra).
    replace (3 * u64 * ((1 + 1013 / 1000 * (e * u64)) * q)) with (3 * (1 + 1013 / 1000 * (e * u64)) * (u64 * q)) by ring.
    apply Rmult_le_compat_r; lra. }
  replace (div x k' - x / k) with ((div x k' - x / k') + (x / k' - x / k)) by ring. eapply Rle_trans; [apply Rabs_triang|].
  assert (0 <= u64 * q) by (apply Rmult_le_pos; lra).
  assert (0 <= e * (u64 * q)) by (apply Rmult_le_pos; lra).
  replace (1013 / 1000 * (e * u64) * q) with (1013 / 1000 * (e * (u64 * q))) in G by ring.
  replace ((102 / 100 * e + 304 / 100) * u64 * q) with (102 / 100 * (e * (u64 * q)) + 304 / 100 * (u64 * q)) by ring.
  lra.
Qed.

(** multiplying what was divided *)
Lemma mul_back div k x : good_div div -> / 2 <= k <= 5 -> close (402 / 100) (RN64 (k * div x k)) x.
Proof.
  intros Hd Hk. assert (Hk' : / 2 <= Rabs k <= 2 ^ 60) by (rewrite Rabs_pos_eq; lra).
  destruct (Hd x k Hk') as [_ D]. unfold close. pose proof u64_pos. pose proof eta_pos. rewrite tiny_eta in *.
  pose proof (RN64_err (k * div x k)) as R1.
  assert (E : Rabs (k * div x k - x) <= 3 * u64 * Rabs x + 10 * eta).
  { replace (k * div x k - x) with (k * (div x k - x / k)) by (field; lra). rewrite Rabs_mult, (Rabs_pos_eq k) by lra.
    apply Rle_trans with (k * (3 * u64 * Rabs (x / k) + 2 * eta)); [apply Rmult_le_compat_l; lra|].
    rewrite Rabs_div, (Rabs_pos_eq k) by lra.
    replace (k * (3 * u64 * (Rabs x / k) + 2 * eta)) with (3 * u64 * Rabs x + 2 * k * eta) by (field; lra).
    assert (2 * k * eta <= 10 * eta) by (apply Rmult_le_compat_r; lra). lra. }
  assert (E2 : Rabs (k * div x k) <= Rabs x + (3 * u64 * Rabs x + 10 * eta)).
  { replace (k * div x k) with (x + (k * div x k - x)) by ring. eapply Rle_trans; [apply Rabs_triang|]. lra. }
  pose proof (Rabs_pos x). set (ax := Rabs x) in *.
  assert (E3 : u64 * ax <= / 1000 * ax) by (apply Rmult_le_compat_r; lra).
  assert (E5 : u64 * eta <= / 1000 * eta) by (apply Rmult_le_compat_r; lra).
  assert (E4 : u64 * Rabs (k * div x k) <= u64 * (1003 / 1000 * ax + 10 * eta)) by (apply Rmult_le_compat_l; lra).
  replace (RN64 (k * div x k) - x) with ((RN64 (k * div x k) - k * div x k) + (k * div x k - x)) by ring.
  eapply Rle_trans; [apply Rabs_triang|]. assert (0 <= u64 * ax) by (apply Rmult_le_pos; lra). lra.
Qed.

(** ** Both ways of dividing are good *)
Lemma RN64_zero : RN64 0 = 0.
Proof. unfold RN64. apply round_0. apply valid_rnd_N. Qed.
Lemma good_div_direct : good_div (fun a k => RN64 (a / k)).
Proof.
  intros a k Hk. split.
  - unfold Rdiv. rewrite Rmult_0_l. apply RN64_zero.
  - rewrite tiny_eta. pose proof (RN64_err (a / k)). pose proof eta_pos. pose proof u64_pos.
    assert (0 <= u64 * Rabs (a / k)) by (apply Rmult_le_pos; [lra|apply Rabs_pos]). lra.
Qed.
Lemma good_div_reciprocal : good_div (fun a k => RN64 (a * RN64 (1 / k))).
Proof.
  intros a k Hk. split.
  - rewrite Rmult_0_l. apply RN64_zero.
  - rewrite tiny_eta. pose proof eta_pos. pose proof u64_pos. pose proof eta_small60.
    assert (Hk0 : k <> 0) by (intros ->; rewrite Rabs_R0 in Hk; lra).
    set (r := RN64 (1 / k)). pose proof (RN64_err (1 / k)) as Hr. fold r in Hr.
    pose proof (RN64_err (a * r)) as Ha.
    assert (P1 : Rabs (1 / k) = / Rabs k) by (unfold Rdiv; rewrite Rmult_1_l, Rabs_inv; auto).
    rewrite P1 in Hr.
    assert (E0 : eta <= / 10 ^ 6 * (u64 * / Rabs k)).
    { apply Rmult_le_reg_r with (Rabs k); [lra|]. rewrite !Rmult_assoc, Rinv_l, Rmult_1_r by lra.
      apply Rle_trans with (2 ^ 60 * eta); [|lra]. rewrite Rmult_comm. apply Rmult_le_compat_r; lra. }
    assert (E1 : Rabs (r - 1 / k) <= 1001 / 1000 * (u64 * / Rabs k)).
    { assert (0 <= u64 * / Rabs k) by (apply Rmult_le_pos; [lra|left; apply Rinv_0_lt_compat; lra]). lra. }
    assert (E2 : Rabs (a * r - a / k) <= 1001 / 1000 * (u64 * Rabs (a / k))).
    { replace (a * r - a / k) with (a * (r - 1 / k)) by (field; auto). rewrite Rabs_mult, Rabs_div by auto.
      replace (1001 / 1000 * (u64 * (Rabs a / Rabs k))) with (Rabs a * (1001 / 1000 * (u64 * / Rabs k))) by (unfold Rdiv; ring).
      apply Rmult_le_compat_l; auto. apply Rabs_pos. }
    pose proof (Rabs_pos (a / k)). set (q := Rabs (a / k)) in *.
    assert (E3 : Rabs (a * r) <= 1001 / 1000 * q).
    { replace (a * r) with (a / k + (a * r - a / k)) by ring. eapply Rle_trans; [apply Rabs_triang|]. fold q.
      assert (u64 * q <= / 1000000 * q) by (apply Rmult_le_compat_r; lra). lra. }
    assert (E4 : u64 * Rabs (a * r) <= u64 * (1001 / 1000 * q)) by (apply Rmult_le_compat_l; lra).
    replace (RN64 (a * r) - a / k) with ((RN64 (a * r) - a * r) + (a * r - a / k)) by ring.
    eapply Rle_trans; [apply Rabs_triang|]. assert (0 <= u64 * q) by (apply Rmult_le_pos; lra). lra.
Qed.
