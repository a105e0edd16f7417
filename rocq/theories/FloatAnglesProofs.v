(** Rounding errors of quaternion_angles and theta_phi. *)
Require Import ZArith Lia List Reals Lra Bool.
From Flocq Require Import Core.
From Coquelicot Require Import Complex.
From Verif Require Import Base CBase DRep FloatIndexModel FloatIndexProofs FloatPowersSpec FloatPowersProofs FloatConvSpec FloatConvModel FloatConvProofs FloatModesProofs4 QAnglesModel QAnglesProps FloatAnglesModel.
Open Scope R_scope.
Set Bullet Behavior "Strict Subproofs".

Notation ulow := (/ 2 ^ 900).
Lemma eta_low : eta <= / 1000 * u64 * ulow.
Proof.
  destruct eta_900 as (E & _). eapply Rle_trans; [exact E|]. apply Rmult_le_compat_l; [pose proof u64_pos; lra|].
  apply Rinv_le; [apply pow_lt; lra|apply Rle_pow; [lra|lia]].
Qed.
(** One rounding of a number that is not tiny *)
Lemma RN_low x : ulow <= Rabs x -> Rabs (RN64 x - x) <= 1001 / 1000 * u64 * Rabs x.
Proof.
  intros H. pose proof (RN64_err x) as E. pose proof eta_low as L. pose proof u64_pos as U.
  assert (/ 1000 * u64 * ulow <= / 1000 * u64 * Rabs x) by (apply Rmult_le_compat_l; lra). lra.
Qed.
Lemma RN_rel_low x y e : 0 < y -> 2 * ulow <= y -> 0 <= e <= 20 -> Rabs (x - y) <= e * u64 * y ->
  Rabs (RN64 x - y) <= (e + 1002 / 1000) * u64 * y.
Proof.
  intros P L E H. pose proof u64_pos as U. pose proof (rel_pos x y e P E H) as (A & B).
  assert (X : Rabs x = x) by (apply Rabs_pos_eq; lra).
  pose proof (RN_low x ltac:(rewrite X; lra)) as K. rewrite X in K.
  assert (S : e * u64 * y <= / 1001 * y) by (apply Rmult_le_compat_r; [lra|]; pose proof (Rmult_le_compat_r u64 e 20 ltac:(lra) ltac:(lra)); lra).
  apply Rabs_le_inv in H. assert (G : x <= (1 + e * u64) * y) by lra.
  assert (e * u64 <= / 2000) by (pose proof (Rmult_le_compat_r u64 e 20 ltac:(lra) ltac:(lra)); lra).
  assert (W : 1001 / 1000 * u64 * x <= 1001 / 1000 * u64 * ((1 + e * u64) * y)) by (apply Rmult_le_compat_l; lra).
  assert (V : 1001 / 1000 * (1 + e * u64) <= 1002 / 1000) by lra.
  assert (V2 : 1001 / 1000 * (1 + e * u64) * (u64 * y) <= 1002 / 1000 * (u64 * y)) by (apply Rmult_le_compat_r; [apply Rmult_le_pos; lra|lra]).
  apply Rabs_le_inv in K. apply Rabs_le. lra.
Qed.

Lemma sum_squares64_err x y : ulow <= x * x + y * y ->
  Rabs (sum_squares64 x y - (x * x + y * y)) <= 201 / 100 * u64 * (x * x + y * y).
Proof.
  intros L. unfold sum_squares64. pose proof u64_pos as U. pose proof eta_low as EL. pose proof eta_pos as EP.
  set (s := x * x + y * y) in *. assert (0 < ulow) by (apply Rinv_0_lt_compat, pow_lt; lra).
  assert (X : 0 <= x * x) by apply Rle_0_sqr. assert (Y : 0 <= y * y) by apply Rle_0_sqr.
  pose proof (RN64_err (x * x)) as Ex. pose proof (RN64_err (y * y)) as Ey. rewrite (Rabs_pos_eq (x * x)) in Ex by auto. rewrite (Rabs_pos_eq (y * y)) in Ey by auto.
  assert (E3 : eta <= / 1000 * u64 * s) by (eapply Rle_trans; [exact EL|]; apply Rmult_le_compat_l; lra).
  set (p := RN64 (x * x)) in *. set (r := RN64 (y * y)) in *.
  assert (K : Rabs (p + r - s) <= 1002 / 1000 * u64 * s).
  { replace (p + r - s) with ((p - x * x) + (r - y * y)) by (unfold s; ring). eapply Rle_trans; [apply Rabs_triang|]. unfold s in *. lra. }
  pose proof (RN64_err (p + r)) as E. assert (Rabs (p + r) <= 1001 / 1000 * s).
  { replace (p + r) with ((p + r - s) + s) by ring. eapply Rle_trans; [apply Rabs_triang|]. rewrite (Rabs_pos_eq s) by lra.
    assert (1002 / 1000 * u64 * s <= / 1000 * s) by (apply Rmult_le_compat_r; lra). lra. }
  assert (u64 * Rabs (p + r) <= u64 * (1001 / 1000 * s)) by (apply Rmult_le_compat_l; lra).
  replace (RN64 (p + r) - s) with ((RN64 (p + r) - (p + r)) + (p + r - s)) by ring. eapply Rle_trans; [apply Rabs_triang|]. lra.
Qed.

(** The square root halves the relative error *)
Lemma sqrt_half a b e : 0 < a -> 0 <= e <= / 1000 -> Rabs (b - a) <= e * a -> Rabs (sqrt b - sqrt a) <= 501 / 1000 * e * sqrt a.
Proof.
  intros A E H. apply Rabs_le_inv in H. assert (B : 999 / 1000 * a <= b).
  { assert (e * a <= / 1000 * a) by (apply Rmult_le_compat_r; lra). lra. }
  pose proof (sqrt_lt_R0 a A) as SA. assert (B0 : 0 < b) by lra.
  assert (SB : 999 / 1000 * sqrt a <= sqrt b).
  { rewrite <- (sqrt_square (999 / 1000)) at 1 by lra. rewrite <- sqrt_mult by lra. apply sqrt_le_1_alt. lra. }
  assert (I : sqrt b - sqrt a = (b - a) / (sqrt b + sqrt a)).
  { rewrite <- (sqrt_sqrt a) at 2 by lra. rewrite <- (sqrt_sqrt b) at 2 by lra. field. lra. }
  rewrite I. unfold Rdiv. rewrite Rabs_mult, Rabs_inv, (Rabs_pos_eq (sqrt b + sqrt a)) by lra.
  assert (K : Rabs (b - a) <= e * a) by (apply Rabs_le; lra).
  apply (Rmult_le_reg_r (sqrt b + sqrt a)); [lra|]. rewrite Rmult_assoc, Rinv_l, Rmult_1_r by lra.
  eapply Rle_trans; [exact K|].
  assert (Q : e * a = e * sqrt a * sqrt a) by (rewrite Rmult_assoc, sqrt_sqrt by lra; ring).
  assert (P : 0 <= e * sqrt a) by (apply Rmult_le_pos; lra).
  pose proof (Rmult_le_compat_l (501 / 1000 * (e * sqrt a)) (1999 / 1000 * sqrt a) (sqrt b + sqrt a) ltac:(lra) ltac:(lra)) as Z.
  assert (0 <= e * sqrt a * sqrt a) by (apply Rmult_le_pos; lra). lra.
Qed.

(** The modulus, computed *)
Lemma modulus64_err x y r : / 2 ^ 400 <= r -> r * r = x * x + y * y ->
  Rabs (RN64 (sqrt (sum_squares64 x y)) - r) <= 202 / 100 * u64 * r.
Proof.
  intros L R. pose proof u64_pos as U. assert (L4 : 0 < / 2 ^ 400) by (apply Rinv_0_lt_compat, pow_lt; lra).
  assert (L8 : ulow <= / 2 ^ 400 * / 2 ^ 400).
  { rewrite <- Rinv_mult, <- pow_add. apply Rinv_le; [apply pow_lt; lra|apply Rle_pow; [lra|lia]]. }
  assert (RR : / 2 ^ 400 * / 2 ^ 400 <= r * r) by (apply Rmult_le_compat; lra).
  pose proof (sum_squares64_err x y ltac:(rewrite <- R; lra)) as E. rewrite <- R in E. set (a := sum_squares64 x y) in *.
  pose proof (sqrt_half (r * r) a (201 / 100 * u64) ltac:(lra) ltac:(lra) E) as S. rewrite sqrt_square in S by lra.
  eapply Rle_trans; [apply (RN_rel_low _ r (1008 / 1000)); [lra| |lra|]|].
  - assert (2 * ulow <= / 2 ^ 400); [|lra]. replace (2 ^ 900) with (2 * 2 ^ 899) by (cbn [pow]; ring).
    rewrite Rinv_mult, <- Rmult_assoc, Rinv_r, Rmult_1_l by lra. apply Rinv_le; [apply pow_lt; lra|apply Rle_pow; [lra|lia]].
  - eapply Rle_trans; [exact S|]. apply Rmult_le_compat_r; lra.
  - apply Rmult_le_compat_r; [lra|]. apply Rmult_le_compat_r; lra.
Qed.

(** Division of a number by the computed modulus *)
Lemma div_err v s r e : 0 < r -> 0 <= e <= 20 -> Rabs (s - r) <= e * u64 * r ->
  Rabs (v / s - v / r) <= (e + / 1000) * u64 * Rabs (v / r).
Proof.
  intros R E H. pose proof u64_pos as U.
  assert (E1 : 0 <= e * u64 <= / 1000000) by (split; [apply Rmult_le_pos; lra|]; pose proof (Rmult_le_compat_r u64 e 20 ltac:(lra) ltac:(lra)); lra).
  apply Rabs_le_inv in H.
  assert (S : (1 - e * u64) * r <= s) by lra. assert (S0 : 0 < s).
  { eapply Rlt_le_trans; [|exact S]. apply Rmult_lt_0_compat; lra. }
  replace (v / s - v / r) with (v / r * ((r - s) / s)) by (field; lra). rewrite Rabs_mult, Rmult_comm.
  apply Rmult_le_compat_r; [apply Rabs_pos|]. unfold Rdiv. rewrite Rabs_mult, Rabs_inv, (Rabs_pos_eq s) by lra.
  apply (Rmult_le_reg_r s); [lra|]. rewrite Rmult_assoc, Rinv_l, Rmult_1_r by lra.
  assert (K : Rabs (r - s) <= e * u64 * r) by (apply Rabs_le; lra). eapply Rle_trans; [exact K|].
  eapply Rle_trans; [|apply Rmult_le_compat_l; [|exact S]]; [|apply Rmult_le_pos; lra].
  rewrite <- Rmult_assoc. apply Rmult_le_compat_r; [lra|].
  replace ((e + / 1000) * u64 * (1 - e * u64)) with (e * u64 + u64 * (/ 1000 * (1 - e * u64) - e * (e * u64))) by ring.
  assert (e * (e * u64) <= 20 * / 1000000) by (apply Rmult_le_compat; lra).
  assert (0 <= u64 * (/ 1000 * (1 - e * u64) - e * (e * u64))) by (apply Rmult_le_pos; lra). lra.
Qed.
Lemma RN_div_err v s r e : 0 < r -> 0 <= e <= 20 -> Rabs (s - r) <= e * u64 * r ->
  Rabs (RN64 (v / s) - v / r) <= (e + 1002 / 1000) * u64 * Rabs (v / r) + eta.
Proof.
  intros R E H. pose proof (div_err v s r e R E H) as D. pose proof u64_pos as U. pose proof (RN64_err (v / s)) as K.
  assert (E1 : (e + / 1000) * u64 <= / 10000) by (pose proof (Rmult_le_compat_r u64 (e + / 1000) 21 ltac:(lra) ltac:(lra)); lra).
  assert (A : Rabs (v / s) <= 10001 / 10000 * Rabs (v / r)).
  { replace (v / s) with ((v / s - v / r) + v / r) by ring. eapply Rle_trans; [apply Rabs_triang|].
    pose proof (Rmult_le_compat_r (Rabs (v / r)) _ _ (Rabs_pos _) E1). lra. }
  assert (B : u64 * Rabs (v / s) <= u64 * (10001 / 10000 * Rabs (v / r))) by (apply Rmult_le_compat_l; lra).
  replace (RN64 (v / s) - v / r) with ((RN64 (v / s) - v / s) + (v / s - v / r)) by ring. eapply Rle_trans; [apply Rabs_triang|].
  assert (0 <= u64 * Rabs (v / r)) by (apply Rmult_le_pos; [lra|apply Rabs_pos]). lra.
Qed.

(** A pair of components divided by their modulus *)
Lemma phase64_err x y r s : / 2 ^ 400 <= r -> r * r = x * x + y * y -> s = RN64 (sqrt (sum_squares64 x y)) ->
  Cmod ((RN64 (x / s), RN64 (y / s)) - (x, y) / RtoC r)%C <= 304 / 100 * u64.
Proof.
  intros L R ->. pose proof (modulus64_err x y r L R) as M. set (s := RN64 _) in *. pose proof u64_pos as U.
  assert (L4 : 0 < / 2 ^ 400) by (apply Rinv_0_lt_compat, pow_lt; lra).
  pose proof (RN_div_err x s r (202 / 100) ltac:(lra) ltac:(lra) M) as X. pose proof (RN_div_err y s r (202 / 100) ltac:(lra) ltac:(lra) M) as Y.
  assert (Q : ((x, y) / RtoC r)%C = ((x / r)%R, (y / r)%R)).
  { unfold Cdiv, Cinv, Cmult, RtoC. cbn [fst snd]. f_equal; field; lra. }
  rewrite Q. replace ((RN64 (x / s), RN64 (y / s)) - ((x / r)%R, (y / r)%R))%C with ((RN64 (x / s) - x / r)%R, (RN64 (y / s) - y / r)%R)
    by (unfold Cminus, Cplus, Copp; cbn [fst snd]; f_equal; ring).
  eapply Rle_trans; [apply (Cmod_mono _ _ _ _ X Y)|].
  set (k := (202 / 100 + 1002 / 1000) * u64).
  replace (k * Rabs (x / r) + eta, k * Rabs (y / r) + eta)%R with (RtoC k * (Rabs (x / r), Rabs (y / r)) + (eta, eta))%C
    by (unfold Cmult, Cplus, RtoC; cbn [fst snd]; f_equal; ring).
  eapply Rle_trans; [apply Cmod_triangle|]. rewrite Cmod_mult, Cmod_R, (Rabs_pos_eq k) by (unfold k; lra).
  assert (N : Cmod (Rabs (x / r), Rabs (y / r)) = 1).
  { unfold Cmod. cbn [fst snd]. rewrite !RPow_abs, !Rabs_pos_eq by apply pow2_ge_0. rewrite <- sqrt_1. f_equal.
    replace ((x / r) ^ 2 + (y / r) ^ 2) with ((x * x + y * y) / (r * r)) by (field; lra). rewrite <- R. field. lra. }
  rewrite N. pose proof (Cmod_le_sum eta eta) as T. rewrite (Rabs_pos_eq eta) in T by (pose proof eta_pos; lra). pose proof eta_low as EL.
  assert (/ 1000 * u64 * ulow <= / 1000 * u64 * 1).
  { apply Rmult_le_compat_l; [lra|]. rewrite <- Rinv_1. apply Rinv_le; [lra|]. apply pow_R1_Rle. lra. }
  unfold k. lra.
Qed.

Lemma RN_opp x : RN64 (- x) = - RN64 x.
Proof. apply round_NE_opp. Qed.
Lemma RN_idem x : RN64 (RN64 x) = RN64 x.
Proof. unfold RN64. apply round_generic; [apply valid_rnd_N|]. apply generic_format_round; [apply FLT_exp_valid; reflexivity|apply valid_rnd_N]. Qed.

Lemma mul_rel x y x' y' e e' : 0 < y -> 0 < y' -> 0 <= e <= 20 -> 0 <= e' <= 20 -> Rabs (x - y) <= e * u64 * y -> Rabs (x' - y') <= e' * u64 * y' ->
  Rabs (x * x' - y * y') <= (e + e' + / 1000) * u64 * (y * y').
Proof.
  intros Y Y' E E' H H'. pose proof u64_pos as U. replace (x * x' - y * y') with ((x - y) * (x' - y') + (x - y) * y' + y * (x' - y')) by ring.
  eapply Rle_trans; [apply Rabs_triang|]. eapply Rle_trans; [apply Rplus_le_compat_r, Rabs_triang|]. rewrite !Rabs_mult, (Rabs_pos_eq y), (Rabs_pos_eq y') by lra.
  assert (A : Rabs (x - y) * Rabs (x' - y') <= (e * u64 * y) * (e' * u64 * y')) by (apply Rmult_le_compat; auto using Rabs_pos).
  assert (B : Rabs (x - y) * y' <= e * u64 * y * y') by (apply Rmult_le_compat_r; lra).
  assert (D : y * Rabs (x' - y') <= y * (e' * u64 * y')) by (apply Rmult_le_compat_l; lra).
  assert (P : 0 < u64 * (y * y')) by (repeat apply Rmult_lt_0_compat; lra).
  assert (F : e * e' * u64 <= / 1000).
  { assert (e * e' <= 20 * 20) by (apply Rmult_le_compat; lra). pose proof (Rmult_le_compat_r u64 (e * e') 400 ltac:(lra) ltac:(lra)). lra. }
  pose proof (Rmult_le_compat_r (u64 * (y * y')) _ _ ltac:(lra) F) as G.
  replace ((e * u64 * y) * (e' * u64 * y')) with (e * e' * u64 * (u64 * (y * y'))) in A by ring. lra.
Qed.

Lemma low_400 : 0 < / 2 ^ 400 /\ 2 * ulow <= / 2 ^ 400 * / 2 ^ 400 /\ 2 * ulow <= / 2 ^ 400 /\ ulow <= 1.
Proof.
  assert (H : forall n, (n <= 899)%nat -> 2 * ulow <= / 2 ^ n).
  { intros n Hn. replace (2 ^ 900) with (2 * 2 ^ 899) by (cbn [pow]; ring). rewrite Rinv_mult, <- Rmult_assoc, Rinv_r, Rmult_1_l by lra.
    apply Rinv_le; [apply pow_lt; lra|apply Rle_pow; [lra|lia]]. }
  split; [apply Rinv_0_lt_compat, pow_lt; lra|]. split; [rewrite <- Rinv_mult, <- pow_add; apply H; lia|]. split; [apply H; lia|].
  pose proof (H 0%nat ltac:(lia)) as K. rewrite pow_O, Rinv_1 in K. assert (0 < ulow) by (apply Rinv_0_lt_compat, pow_lt; lra). lra.
Qed.

Lemma beta64_err x y z w ra rb : / 2 ^ 400 <= ra -> / 2 ^ 400 <= rb -> ra * ra = x * x + y * y -> rb * rb = z * z + w * w ->
  let a := sum_squares64 x y in let b := sum_squares64 z w in
  let s := RN64 (a + b) in
  0 < s /\
  Cmod ((RN64 (RN64 (a - b) / s), RN64 (RN64 (RN64 (2 * RN64 (sqrt a)) * RN64 (sqrt b)) / s)) -
        ((ra * ra - rb * rb)%R, (2 * ra * rb)%R) / RtoC (ra * ra + rb * rb))%C <= 13 * u64.
Proof.
  intros La Lb Ra Rb a b s. pose proof u64_pos as U. destruct low_400 as (L4 & L8 & L9 & L1). pose proof eta_low as EL. pose proof eta_pos as EP.
  assert (L0 : 0 < ulow) by (apply Rinv_0_lt_compat, pow_lt; lra).
  assert (RA : / 2 ^ 400 * / 2 ^ 400 <= ra * ra) by (apply Rmult_le_compat; lra).
  assert (RB : / 2 ^ 400 * / 2 ^ 400 <= rb * rb) by (apply Rmult_le_compat; lra).
  assert (RAB : / 2 ^ 400 * / 2 ^ 400 <= ra * rb) by (apply Rmult_le_compat; lra).
  pose proof (sum_squares64_err x y ltac:(rewrite <- Ra; lra)) as Ea. pose proof (sum_squares64_err z w ltac:(rewrite <- Rb; lra)) as Eb.
  rewrite <- Ra in Ea. rewrite <- Rb in Eb. fold a in Ea. fold b in Eb.
  pose proof (modulus64_err x y ra La Ra) as Ma. pose proof (modulus64_err z w rb Lb Rb) as Mb. fold a in Ma. fold b in Mb.
  set (sa := RN64 (sqrt a)) in *. set (sb := RN64 (sqrt b)) in *. set (S := ra * ra + rb * rb) in *.
  assert (AM : 2 * (ra * rb) <= S) by (unfold S; pose proof (Rle_0_sqr (ra - rb)) as Q; unfold Rsqr in Q; lra).
  assert (Sl : 2 * ulow <= S) by (unfold S; lra). assert (S0 : 0 < S) by lra.
  assert (ES : Rabs (s - S) <= 302 / 100 * u64 * S).
  { eapply Rle_trans; [apply (RN_rel_low (a + b) S (201 / 100)); [lra|lra|lra|]|].
    - replace (a + b - S) with ((a - ra * ra) + (b - rb * rb)) by (unfold S; ring). eapply Rle_trans; [apply Rabs_triang|]. unfold S. lra.
    - apply Rmult_le_compat_r; lra. }
  pose proof (rel_pos s S (302 / 100) S0 ltac:(lra) ES) as (P1 & P2). split; [lra|].
  assert (EN0 : Rabs (a - b - (ra * ra - rb * rb)) <= 201 / 100 * u64 * S).
  { replace (a - b - (ra * ra - rb * rb)) with ((a - ra * ra) - (b - rb * rb)) by ring.
    unfold Rminus at 1. eapply Rle_trans; [apply Rabs_triang|]. rewrite Rabs_Ropp. unfold S. lra. }
  assert (NS : Rabs (ra * ra - rb * rb) <= S) by (unfold S; apply Rabs_le; lra).
  assert (US : u64 * S <= / 10000 * S) by (apply Rmult_le_compat_r; lra).
  assert (EN : Rabs (RN64 (a - b) - (ra * ra - rb * rb)) <= 302 / 100 * u64 * S).
  { pose proof (RN64_err (a - b)) as K. assert (A : Rabs (a - b) <= 1001 / 1000 * S).
    { replace (a - b) with ((a - b - (ra * ra - rb * rb)) + (ra * ra - rb * rb)) by ring. eapply Rle_trans; [apply Rabs_triang|]. lra. }
    assert (u64 * Rabs (a - b) <= u64 * (1001 / 1000 * S)) by (apply Rmult_le_compat_l; lra).
    assert (/ 1000 * u64 * ulow <= / 1000 * u64 * S) by (apply Rmult_le_compat_l; lra).
    replace (RN64 (a - b) - (ra * ra - rb * rb)) with ((RN64 (a - b) - (a - b)) + (a - b - (ra * ra - rb * rb))) by ring.
    eapply Rle_trans; [apply Rabs_triang|]. lra. }
  set (N64 := RN64 (a - b)) in *. set (N := ra * ra - rb * rb) in *.
  assert (Q1 : Rabs (N64 / S - N / S) <= 302 / 100 * u64).
  { replace (N64 / S - N / S) with ((N64 - N) / S) by (field; lra). unfold Rdiv. rewrite Rabs_mult, Rabs_inv, (Rabs_pos_eq S) by lra.
    apply (Rmult_le_reg_r S); [lra|]. rewrite Rmult_assoc, Rinv_l, Rmult_1_r by lra. exact EN. }
  assert (Q2 : Rabs (N / S) <= 1).
  { unfold Rdiv. rewrite Rabs_mult, Rabs_inv, (Rabs_pos_eq S) by lra. apply (Rmult_le_reg_r S); [lra|]. rewrite Rmult_assoc, Rinv_l, Rmult_1_r by lra. lra. }
  assert (Q3 : Rabs (N64 / S) <= 1001 / 1000).
  { replace (N64 / S) with ((N64 / S - N / S) + N / S) by ring. eapply Rle_trans; [apply Rabs_triang|]. lra. }
  pose proof (RN_div_err N64 s S (302 / 100) S0 ltac:(lra) ES) as Dr.
  assert (eta1 : eta <= / 1000 * u64) by (eapply Rle_trans; [exact EL|]; rewrite <- (Rmult_1_r (/ 1000 * u64)) at 2; apply Rmult_le_compat_l; lra).
  assert (RE : Rabs (RN64 (N64 / s) - N / S) <= 71 / 10 * u64).
  { pose proof (Rmult_le_compat_l ((302 / 100 + 1002 / 1000) * u64) _ _ ltac:(lra) Q3).
    replace (RN64 (N64 / s) - N / S) with ((RN64 (N64 / s) - N64 / S) + (N64 / S - N / S)) by ring. eapply Rle_trans; [apply Rabs_triang|]. lra. }
  assert (E2 : Rabs (RN64 (2 * sa) - 2 * ra) <= 303 / 100 * u64 * (2 * ra)).
  { eapply Rle_trans; [apply (RN_rel_low (2 * sa) (2 * ra) (202 / 100)); [lra|lra|lra|]|].
    - replace (2 * sa - 2 * ra) with (2 * (sa - ra)) by ring. rewrite Rabs_mult, (Rabs_pos_eq 2) by lra. lra.
    - apply Rmult_le_compat_r; [lra|]. apply Rmult_le_compat_r; lra. }
  pose proof (mul_rel (RN64 (2 * sa)) (2 * ra) sb rb (303 / 100) (202 / 100) ltac:(lra) ltac:(lra) ltac:(lra) ltac:(lra) E2 Mb) as EP2.
  assert (EP3 : Rabs (RN64 (RN64 (2 * sa) * sb) - 2 * ra * rb) <= 607 / 100 * u64 * (2 * ra * rb)).
  { eapply Rle_trans; [apply (RN_rel_low _ (2 * ra * rb) (303 / 100 + 202 / 100 + / 1000)); [lra|lra|lra|exact EP2]|].
    apply Rmult_le_compat_r; [lra|]. apply Rmult_le_compat_r; lra. }
  set (P64 := RN64 (RN64 (2 * sa) * sb)) in *. set (P := 2 * ra * rb) in *. assert (PS : 0 < P <= S) by (unfold P; lra).
  assert (W2 : 0 <= P / S <= 1).
  { split; [apply Rlt_le, Rdiv_lt_0_compat; lra|]. apply (Rmult_le_reg_r S); [lra|]. unfold Rdiv. rewrite Rmult_assoc, Rinv_l, Rmult_1_r by lra. lra. }
  assert (W1 : Rabs (P64 / S - P / S) <= 607 / 100 * u64).
  { replace (P64 / S - P / S) with ((P64 - P) / S) by (field; lra). unfold Rdiv. rewrite Rabs_mult, Rabs_inv, (Rabs_pos_eq S) by lra.
    apply (Rmult_le_reg_r S); [lra|]. rewrite Rmult_assoc, Rinv_l, Rmult_1_r by lra. eapply Rle_trans; [exact EP3|]. apply Rmult_le_compat_l; lra. }
  assert (W3 : Rabs (P64 / S) <= 1001 / 1000).
  { replace (P64 / S) with ((P64 / S - P / S) + P / S) by ring. eapply Rle_trans; [apply Rabs_triang|]. rewrite (Rabs_pos_eq (P / S)) by lra. lra. }
  pose proof (RN_div_err P64 s S (302 / 100) S0 ltac:(lra) ES) as Di.
  assert (IM : Rabs (RN64 (P64 / s) - P / S) <= 102 / 10 * u64).
  { pose proof (Rmult_le_compat_l ((302 / 100 + 1002 / 1000) * u64) _ _ ltac:(lra) W3).
    replace (RN64 (P64 / s) - P / S) with ((RN64 (P64 / s) - P64 / S) + (P64 / S - P / S)) by ring. eapply Rle_trans; [apply Rabs_triang|]. lra. }
  assert (Q : ((N, P) / RtoC S)%C = ((N / S)%R, (P / S)%R)).
  { unfold Cdiv, Cinv, Cmult, RtoC. cbn [fst snd]. f_equal; field; lra. }
  rewrite Q. replace ((RN64 (N64 / s), RN64 (P64 / s)) - ((N / S)%R, (P / S)%R))%C with ((RN64 (N64 / s) - N / S)%R, (RN64 (P64 / s) - P / S)%R)
    by (unfold Cminus, Cplus, Copp; cbn [fst snd]; f_equal; ring).
  eapply Rle_trans; [apply (Cmod_mono _ _ _ _ RE IM)|].
  unfold Cmod. cbn [fst snd]. rewrite <- (sqrt_square (13 * u64)) by lra. apply sqrt_le_1_alt.
  assert (0 <= u64 * u64) by (apply Rmult_le_pos; lra). lra.
Qed.

(** A point of an evenly spaced grid *)
Lemma grid64_err i n stop stop64 : (0 <= i < 2 ^ 53)%Z -> (1 <= n < 2 ^ 53)%Z -> 3 <= stop <= 8 -> Rabs (stop64 - stop) <= 1002 / 1000 * u64 * stop ->
  RN64 stop64 = stop64 ->
  let y := RN64 (RN64 (RN64 (IZR i) * RN64 (RN64 (stop64 - 0) / RN64 (IZR n))) + 0) in
  Rabs (y - IZR i * stop / IZR n) <= 302 / 100 * u64 * (IZR i * stop / IZR n).
Proof.
  intros Hi Hn Hs Es Ds y. unfold y. rewrite Rminus_0_r, Rplus_0_r, RN_idem, Ds, !RN64_int by lia. pose proof u64_pos as U.
  assert (N1 : 1 <= IZR n) by (apply (IZR_le 1); lia). assert (N2 : IZR n <= 2 ^ 53).
  { apply Rle_trans with (IZR (2 ^ 53)); [apply IZR_le; lia|]. rewrite (pow_IZR 2 53). apply Rle_refl. }
  assert (NI : / 2 ^ 53 <= / IZR n) by (apply Rinv_le; lra).
  assert (L53 : 2 * ulow <= / 2 ^ 53).
  { replace (2 ^ 900) with (2 * 2 ^ 899) by (cbn [pow]; ring). rewrite Rinv_mult, <- Rmult_assoc, Rinv_r, Rmult_1_l by lra.
    apply Rinv_le; [apply pow_lt; lra|apply Rle_pow; [lra|lia]]. }
  assert (L0 : 0 < ulow) by (apply Rinv_0_lt_compat, pow_lt; lra).
  destruct (Z.eq_dec i 0) as [->|I0].
  { rewrite Rmult_0_l, RN64_zero. unfold Rdiv. rewrite !Rmult_0_l, Rminus_0_r, Rabs_R0. lra. }
  assert (I1 : 1 <= IZR i) by (apply (IZR_le 1); lia).
  assert (D : Rabs (stop64 / IZR n - stop / IZR n) <= 1002 / 1000 * u64 * (stop / IZR n)).
  { replace (stop64 / IZR n - stop / IZR n) with ((stop64 - stop) * / IZR n) by (field; lra). rewrite Rabs_mult, (Rabs_pos_eq (/ IZR n)) by lra.
    unfold Rdiv. rewrite <- Rmult_assoc. apply Rmult_le_compat_r; lra. }
  assert (SN : / 2 ^ 53 <= stop / IZR n) by (unfold Rdiv; pose proof (Rmult_le_compat_r (/ IZR n) 1 stop ltac:(lra) ltac:(lra)); lra).
  pose proof (RN_rel_low (stop64 / IZR n) (stop / IZR n) (1002 / 1000) ltac:(lra) ltac:(lra) ltac:(lra) D) as D1. set (st := RN64 (stop64 / IZR n)) in *.
  assert (D2 : Rabs (IZR i * st - IZR i * stop / IZR n) <= (1002 / 1000 + 1002 / 1000) * u64 * (IZR i * stop / IZR n)).
  { replace (IZR i * st - IZR i * stop / IZR n) with (IZR i * (st - stop / IZR n)) by (field; lra). rewrite Rabs_mult, (Rabs_pos_eq (IZR i)) by lra.
    replace (IZR i * stop / IZR n) with (IZR i * (stop / IZR n)) by (field; lra). pose proof (Rmult_le_compat_l (IZR i) _ _ ltac:(lra) D1). lra. }
  assert (SI : / 2 ^ 53 <= IZR i * stop / IZR n).
  { replace (IZR i * stop / IZR n) with (IZR i * (stop / IZR n)) by (field; lra). pose proof (Rmult_le_compat_r (stop / IZR n) 1 (IZR i) ltac:(lra) ltac:(lra)). lra. }
  eapply Rle_trans; [apply (RN_rel_low _ _ (1002 / 1000 + 1002 / 1000)); [lra|lra|lra|exact D2]|].
  apply Rmult_le_compat_r; lra.
Qed.
