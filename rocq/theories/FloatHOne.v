(** Property C75: the H calculators in double precision for n = 1, at every angle. *)
Require Import ZArith Reals List Lia Lra.
From Flocq Require Import Core.
From Verif Require Import Base CBase Fact IndexModel HSpec HMath HModel HProps FloatPowersSpec FloatPowersProofs FloatIndexModel FloatPowersProps FloatLog FloatHModel FloatHSpec FloatHProps
  FloatHPole FloatHPoleProps HCallProps FloatPartsProofs.
Import ListNotations.
Open Scope R_scope.
Set Bullet Behavior "Strict Subproofs".

(** ** Absolute errors in units of u64, with a bound on the exact value *)
Definition ap (M e x y : R) : Prop := Rabs y <= M /\ Rabs (x - y) <= e * u64.
Lemma eta_small : eta <= / 1000 * u64.
Proof.
  assert (E : eta <= / 2 ^ 200).
  { unfold eta. apply Rle_trans with (bpow radix2 (-200)); [apply bpow_le; lia|]. right.
    change (-200)%Z with (- (200))%Z. rewrite bpow_opp. f_equal. rewrite bpow_powerRZ. reflexivity. }
  assert (/ 2 ^ 200 <= / 2 ^ 70) by (apply Rinv_le_contravar; [apply pow_lt; lra|apply Rle_pow; [lra|lia]]).
  unfold u64. lra.
Qed.
Lemma ap_RN M e e' x y : ap M e x y -> 0 <= e <= 100000000 -> M + e + / 100 <= e' -> ap M e' (RN64 x) y.
Proof.
  intros [A B] He L. split; [exact A|]. pose proof (RN64_err x) as R. pose proof eta_small as Et.
  pose proof (Rabs_triang (x - y) y) as T1. replace (x - y + y) with x in T1 by ring.
  pose proof (Rabs_triang (RN64 x - x) (x - y)) as T2. replace (RN64 x - x + (x - y)) with (RN64 x - y) in T2 by ring.
  assert (U : 0 < u64 <= / 2 ^ 50) by (unfold u64; lra).
  assert (E1 : e * u64 <= / 1000) by nra.
  assert (X : u64 * Rabs x <= u64 * (M + / 1000)) by (apply Rmult_le_compat_l; lra).
  assert (Y : (M + e + / 100) * u64 <= e' * u64) by (apply Rmult_le_compat_r; lra). lra.
Qed.
Lemma ap_weak M e M' e' x y : ap M e x y -> Rabs y <= M' -> e <= e' -> ap M' e' x y.
Proof. intros [A B] H L. split; [exact H|]. eapply Rle_trans; [exact B|]. apply Rmult_le_compat_r; [unfold u64|]; lra. Qed.
Lemma ap_mul M1 e1 M2 e2 x1 y1 x2 y2 : ap M1 e1 x1 y1 -> ap M2 e2 x2 y2 -> 0 <= e1 <= 1000000 -> 0 <= e2 <= 1000000 ->
  ap (M1 * M2) (M1 * e2 + M2 * e1 + / 100) (x1 * x2) (y1 * y2).
Proof.
  intros [A1 B1] [A2 B2] H1 H2. pose proof (Rabs_pos y1). pose proof (Rabs_pos y2). split.
  - rewrite Rabs_mult. apply Rmult_le_compat; lra.
  - replace (x1 * x2 - y1 * y2) with ((x1 - y1) * (x2 - y2) + (y1 * (x2 - y2) + y2 * (x1 - y1))) by ring.
    eapply Rle_trans; [apply Rabs_triang|]. eapply Rle_trans; [apply Rplus_le_compat_l, Rabs_triang|]. rewrite !Rabs_mult.
    assert (U : 0 < u64 <= / 2 ^ 50) by (unfold u64; lra).
    assert (P1 : Rabs (x1 - y1) * Rabs (x2 - y2) <= e1 * u64 * (e2 * u64)) by (apply Rmult_le_compat; auto using Rabs_pos).
    assert (P2 : Rabs y1 * Rabs (x2 - y2) <= M1 * (e2 * u64)) by (apply Rmult_le_compat; auto using Rabs_pos).
    assert (P3 : Rabs y2 * Rabs (x1 - y1) <= M2 * (e1 * u64)) by (apply Rmult_le_compat; auto using Rabs_pos).
    assert (P4 : e1 * u64 * (e2 * u64) <= / 100 * u64).
    { replace (e1 * u64 * (e2 * u64)) with (e1 * e2 * u64 * u64) by ring. apply Rmult_le_compat_r; [lra|].
      assert (0 <= e1 * e2 <= 1000000 * 1000000) by (split; [apply Rmult_le_pos; lra|apply Rmult_le_compat; lra]). nra. }
    lra.
Qed.
Lemma ap_add M1 e1 M2 e2 x1 y1 x2 y2 : ap M1 e1 x1 y1 -> ap M2 e2 x2 y2 -> ap (M1 + M2) (e1 + e2) (x1 + x2) (y1 + y2).
Proof.
  intros [A1 B1] [A2 B2]. split; [eapply Rle_trans; [apply Rabs_triang|]; lra|].
  replace (x1 + x2 - (y1 + y2)) with ((x1 - y1) + (x2 - y2)) by ring. eapply Rle_trans; [apply Rabs_triang|]. lra.
Qed.
Lemma ap_opp M e x y : ap M e x y -> ap M e (- x) (- y).
Proof. intros [A B]. split; [now rewrite Rabs_Ropp|]. replace (- x - - y) with (- (x - y)) by ring. now rewrite Rabs_Ropp. Qed.
Lemma ap_sub M1 e1 M2 e2 x1 y1 x2 y2 : ap M1 e1 x1 y1 -> ap M2 e2 x2 y2 -> ap (M1 + M2) (e1 + e2) (x1 - x2) (y1 - y2).
Proof. intros A B. unfold Rminus. apply ap_add; auto using ap_opp. Qed.
Lemma ap_lg k M x y : lg k x y -> 0 <= k <= 100 -> Rabs y <= M -> ap M (k * M * (101 / 100)) x y.
Proof.
  intros L K H. split; [exact H|]. apply lg_err in L; [|lra]. eapply Rle_trans; [exact L|]. pose proof (Rabs_pos y).
  assert (U : 0 < u64) by (unfold u64; lra).
  replace (k * (1 + / 2 ^ 17) * u64 * Rabs y) with (k * u64 * ((1 + / 2 ^ 17) * Rabs y)) by ring.
  replace (k * M * (101 / 100) * u64) with (k * u64 * (M * (101 / 100))) by ring.
  apply Rmult_le_compat_l; [apply Rmult_le_pos; lra|]. nra.
Qed.
(** one rounded operation *)
Lemma Rmul M1 e1 M2 e2 M e x1 y1 x2 y2 : ap M1 e1 x1 y1 -> ap M2 e2 x2 y2 -> 0 <= e1 <= 1000000 -> 0 <= e2 <= 1000000 -> 0 <= M1 <= 10 -> 0 <= M2 <= 10 ->
  M1 * M2 <= M -> M1 * e2 + M2 * e1 + M + / 50 <= e -> ap M e (RN64 (x1 * x2)) (y1 * y2).
Proof.
  intros A B H1 H2 H3 H4 H5 H6. pose proof (ap_mul _ _ _ _ _ _ _ _ A B H1 H2) as P.
  apply (ap_RN _ (M1 * e2 + M2 * e1 + / 100)); [|nra|lra]. eapply ap_weak; [exact P| |lra]. destruct P. lra.
Qed.
Lemma Rsub M1 e1 M2 e2 M e x1 y1 x2 y2 : ap M1 e1 x1 y1 -> ap M2 e2 x2 y2 -> 0 <= e1 <= 1000000 -> 0 <= e2 <= 1000000 ->
  Rabs (y1 - y2) <= M -> e1 + e2 + M + / 50 <= e -> ap M e (RN64 (x1 - x2)) (y1 - y2).
Proof.
  intros A B H1 H2 H5 H6. pose proof (ap_sub _ _ _ _ _ _ _ _ A B) as P.
  apply (ap_RN _ (e1 + e2)); [|lra|lra]. eapply ap_weak; [exact P|auto|lra].
Qed.
Lemma Radd M1 e1 M2 e2 M e x1 y1 x2 y2 : ap M1 e1 x1 y1 -> ap M2 e2 x2 y2 -> 0 <= e1 <= 1000000 -> 0 <= e2 <= 1000000 ->
  Rabs (y1 + y2) <= M -> e1 + e2 + M + / 50 <= e -> ap M e (RN64 (x1 + x2)) (y1 + y2).
Proof.
  intros A B H1 H2 H5 H6. pose proof (ap_add _ _ _ _ _ _ _ _ A B) as P.
  apply (ap_RN _ (e1 + e2)); [|lra|lra]. eapply ap_weak; [exact P|auto|lra].
Qed.
Lemma exact1 : ap 1 0 1 1.
Proof. split; [rewrite Rabs_R1; lra|]. replace (1 - 1) with 0 by ring. rewrite Rabs_R0. lra. Qed.
Lemma exact_half : ap (/ 2) 0 (1 / 2) (1 / 2).
Proof. split; [rewrite Rabs_pos_eq; lra|]. replace (1 / 2 - 1 / 2) with 0 by ring. rewrite Rabs_R0. lra. Qed.

(** ** The coefficients for n = 1 and n = 2 *)
Lemma sq_lg a b : (1 <= a <= 1000)%Z -> (1 <= b <= 1000)%Z ->
  lg 2 (RN64 (sqrt (RN64 (RN64 (IZR a) / RN64 (IZR b))))) (sqrt (IZR a / IZR b)).
Proof.
  intros Ha Hb. rewrite !RN64_I by lia. pose proof p60.
  assert (1 <= IZR a <= 1000) by (split; apply IZR_le; lia). assert (1 <= IZR b <= 1000) by (split; apply IZR_le; lia).
  assert (Q : / 1000 <= IZR a / IZR b).
  { unfold Rdiv. replace (/ 1000) with (1 * / 1000) by ring. apply Rmult_le_compat; try lra. apply Rinv_le_contravar; lra. }
  apply (lgRNp (1 / 2)); try lra.
  - apply lg_sqrt; [lra|]. apply (lgRNp 0); try lra. apply lg_refl.
  - apply Rle_trans with (sqrt (/ 1000 * / 1000)); [rewrite sqrt_square by lra; lra|]. apply sqrt_le_1_alt. lra.
Qed.
Lemma sqrt_le q M : 0 <= M -> q <= M * M -> Rabs (sqrt q) <= M.
Proof. intros. rewrite Rabs_pos_eq by apply sqrt_pos. rewrite <- (sqrt_square M) by auto. now apply sqrt_le_1_alt. Qed.
Lemma sq_ap a b M : (1 <= a <= 1000)%Z -> (1 <= b <= 1000)%Z -> 0 <= M -> IZR a / IZR b <= M * M ->
  ap M (2 * M * (101 / 100)) (RN64 (sqrt (RN64 (RN64 (IZR a) / RN64 (IZR b))))) (sqrt (IZR a / IZR b)).
Proof. intros. apply ap_lg; [now apply sq_lg|lra|now apply sqrt_le]. Qed.

Section One.
Variables beta c s es : R.
Let C := cos beta.
Let S := sin beta.
Hypothesis Hc : ap 1 1 c C.
Hypothesis Hes : 1 <= es <= 20000.
Hypothesis Hs : ap 1 es s S.
Let B5 := sqrt (2 / 15).
Let B6 := sqrt (12 / 15).
Let A8 := sqrt (3 / 15).
Let H20 := sqrt (4 / 6).
Let G10 := 2 * 1 / sqrt 2.
Let G21 := 2 * 2 / sqrt 4.
Let G20 := 2 * 1 / sqrt 6.
Let T := sqrt (5 / 4) * sqrt 3.
Let N := sqrt 10.
Let D := 1 / 2 * sqrt 2.


Lemma inv_le x m M : 0 < m -> m <= x -> / m <= M -> Rabs (/ x) <= M.
Proof. intros. rewrite Rabs_pos_eq by (left; apply Rinv_0_lt_compat; lra). eapply Rle_trans; [|eassumption]. apply Rinv_le_contravar; lra. Qed.
Lemma sqrt_ge q m : 0 <= m -> m * m <= q -> m <= sqrt q.
Proof. intros. rewrite <- (sqrt_square m) by auto. now apply sqrt_le_1_alt. Qed.
Lemma k_b5 : ap (37 / 100) (75 / 100) (bflt RN64 2 0) B5.
Proof. eapply ap_weak; [apply (sq_ap 2 15 (37 / 100)); try lia; lra| |lra]. apply sqrt_le; lra. Qed.
Lemma k_a8 : ap (45 / 100) (91 / 100) (aflt RN64 1 1) A8.
Proof. eapply ap_weak; [apply (sq_ap 3 15 (45 / 100)); try lia; lra| |lra]. apply sqrt_le; lra. Qed.
Lemma k_h : ap (82 / 100) (166 / 100) (hflt RN64 2 0) H20.
Proof. eapply ap_weak; [apply (sq_ap 4 6 (82 / 100)); try lia; lra| |lra]. apply sqrt_le; lra. Qed.
Lemma k_b6 : ap (90 / 100) (182 / 100) (bflt RN64 2 (-2)) (- B6).
Proof.
  unfold bflt. change (-2 <? 0)%Z with true. cbv zeta iota.
  match goal with |- context [RN64 (RN64 ?x * -1)] => replace (RN64 x * -1) with (- RN64 x) by ring end. rewrite RN64_opp, RN64_idem. apply ap_opp.
  eapply ap_weak; [apply (sq_ap 12 15 (90 / 100)); try lia; lra| |lra]. apply sqrt_le; lra.
Qed.
Lemma k_binv : ap (274 / 100) (831 / 100) (RN64 (1 / bflt RN64 2 0)) (1 * / B5).
Proof.
  assert (I : Rabs (1 * / B5) <= 274 / 100).
  { rewrite Rmult_1_l. apply (inv_le _ (365 / 1000)); [lra| |lra]. apply sqrt_ge; lra. }
  assert (P : / 2 ^ 60 <= Rabs (1 * / B5)).
  { pose proof p60. rewrite Rmult_1_l. assert (0 < B5) by (apply sqrt_lt_R0; lra). rewrite Rabs_pos_eq by (left; now apply Rinv_0_lt_compat).
    apply Rle_trans with (/ 1); [lra|]. apply Rinv_le_contravar; auto. pose proof (sqrt_le (2 / 15) 1 ltac:(lra) ltac:(lra)) as Q.
    fold B5 in Q. rewrite Rabs_pos_eq in Q; lra. }
  eapply ap_weak; [apply (ap_lg 3 (274 / 100))|exact I|lra]; [|lra|exact I].
  apply (lgRN 2); try lra. apply (lg_weak (0 + 2)); [|lra]. apply lg_div; [apply lg_refl|]. apply (sq_lg 2 15); lia.
Qed.
Lemma k_ninv : ap (32 / 100) (33 / 100) (/ normf RN64 2) (/ N).
Proof.
  assert (I : Rabs (/ N) <= 32 / 100) by (apply (inv_le _ (316 / 100)); [lra| |lra]; apply sqrt_ge; lra).
  eapply ap_weak; [apply (ap_lg 1 (32 / 100))|exact I|lra]; [|lra|exact I].
  pose proof (lg_div 0 1 1 (normf RN64 2) 1 N (lg_refl 1) (normf_lg 2 ltac:(lia))) as L. unfold Rdiv in L. rewrite !Rmult_1_l in L.
  eapply lg_weak; [exact L|lra].
Qed.
Lemma k_pref : ap (32 / 100) (7 / 10) (RN64 (1 / normf RN64 2)) (/ N).
Proof. unfold Rdiv. rewrite Rmult_1_l. eapply ap_RN; [exact k_ninv|lra|lra]. Qed.
Lemma k_top : ap 2 (101 / 10) (topf RN64 1) T.
Proof.
  assert (ET : Praw 1 0 2 2 = T).
  { change 2%Z with (2)%Z. rewrite Praw_top by lia. change (2 - 1)%Z with 1%Z. rewrite Praw_11. unfold T. f_equal. f_equal. lra. }
  pose proof (topf_lg 1 0 1 ltac:(lia)) as L. change (Z.of_nat 1 + 1)%Z with 2%Z in L. rewrite ET in L. simpl INR in L.
  assert (I : Rabs T <= 2).
  { unfold T. rewrite <- sqrt_mult by lra. apply sqrt_le; lra. }
  eapply ap_weak; [apply (ap_lg (4 * 1 + 1) 2); [exact L|lra|exact I]|exact I|lra].
Qed.
Lemma k_g n m U0 M : (1 <= n <= 2)%Z -> (0 <= m < n)%Z -> U n m = U0 -> Rabs (2 * IZR (m + 1) / U0) <= M ->
  ap M (2 * M * (101 / 100)) (gflt RN64 n m) (2 * IZR (m + 1) / U0).
Proof.
  intros H1 H2 HU HM. apply ap_lg; [|lra|exact HM]. pose proof (gflt_lg n m ltac:(lia) ltac:(lia)) as L. unfold gco in L. now rewrite HU in L.
Qed.
Lemma k_g21 : ap 2 (405 / 100) (gflt RN64 2 1) G21.
Proof.
  assert (E : sqrt 4 = 2) by (replace 4 with (2 * 2) by ring; apply sqrt_square; lra).
  assert (I : Rabs (2 * 2 / sqrt 4) <= 2) by (rewrite E, Rabs_pos_eq; lra).
  eapply ap_weak; [apply (k_g 2 1 (sqrt 4) 2); [lia|lia| |exact I]|exact I|lra]. reflexivity.
Qed.
Lemma k_g20 : ap (82 / 100) (166 / 100) (gflt RN64 2 0) G20.
Proof.
  assert (E : 244 / 100 <= sqrt 6) by (apply sqrt_ge; lra).
  assert (I : Rabs (2 * 1 / sqrt 6) <= 82 / 100).
  { unfold Rdiv. rewrite Rabs_mult, (Rabs_pos_eq (2 * 1)) by lra. pose proof (inv_le (sqrt 6) (244 / 100) (41 / 100) ltac:(lra) E ltac:(lra)). lra. }
  eapply ap_weak; [apply (k_g 2 0 (sqrt 6) (82 / 100)); [lia|lia| |exact I]|exact I|lra]. reflexivity.
Qed.
Lemma k_g10 : ap (1415 / 1000) (286 / 100) (gflt RN64 1 0) G10.
Proof.
  assert (E : 1414 / 1000 <= sqrt 2) by (apply sqrt_ge; lra).
  assert (I : Rabs (2 * 1 / sqrt 2) <= 1415 / 1000).
  { unfold Rdiv. rewrite Rabs_mult, (Rabs_pos_eq (2 * 1)) by lra. pose proof (inv_le (sqrt 2) (1414 / 1000) (1415 / 2000) ltac:(lra) E ltac:(lra)). lra. }
  eapply ap_weak; [apply (k_g 1 0 (sqrt 2) (1415 / 1000)); [lia|lia| |exact I]|exact I|lra]. reflexivity.
Qed.

(** ** The row m' = 0 of n = 2 *)
Lemma a_22 : ap (64 / 100) (7 + 13 / 10 * es) (H0f RN64 c s 2 2) (T * (1 * S * S * / N)).
Proof.
  change (H0f RN64 c s 2 2) with (RN64 (topf RN64 1 * RN64 (RN64 (RN64 (1 * s) * s) * / normf RN64 2))).
  apply (Rmul 2 (101 / 10) (32 / 100) (135 / 100 + 65 / 100 * es)); try lra; [exact k_top|].
  apply (Rmul 1 (205 / 100 + 2 * es) (32 / 100) (33 / 100)); try lra; [|exact k_ninv].
  apply (Rmul 1 (102 / 100 + es) 1 es); try lra; [|exact Hs].
  apply (Rmul 1 0 1 es); try lra; [exact exact1|exact Hs].
Qed.
Lemma a_raw1 : ap 4 (405 / 10) (rawf RN64 c s 2 1) (G21 * C * T).
Proof.
  change (rawf RN64 c s 2 1) with (RN64 (RN64 (gflt RN64 2 1 * c) * topf RN64 1)).
  apply (Rmul 2 (81 / 10) 2 (101 / 10)); try lra; [|exact k_top].
  apply (Rmul 2 (405 / 100) 1 1); try lra; [exact k_g21|exact Hc].
Qed.
Lemma a_21 : ap (128 / 100) (185 / 10 + 13 / 10 * es) (H0f RN64 c s 2 1) (G21 * C * T * (/ N * S)).
Proof.
  change (H0f RN64 c s 2 1) with (RN64 (rawf RN64 c s 2 1 * RN64 (RN64 (1 / normf RN64 2) * s))).
  apply (Rmul 4 (405 / 10) (32 / 100) (105 / 100 + 32 / 100 * es)); try lra; [exact a_raw1|].
  apply (Rmul (32 / 100) (7 / 10) 1 es); try lra; [exact k_pref|exact Hs].
Qed.
Lemma a_20 : ap (16 / 10) (28 + 11 / 10 * es) (H0f RN64 c s 2 0) ((G20 * C * (G21 * C * T) - H20 * (S * S) * T) * / N).
Proof.
  change (H0f RN64 c s 2 0) with (RN64 (RN64 (RN64 (RN64 (gflt RN64 2 0 * c) * rawf RN64 c s 2 1)
    - RN64 (RN64 (hflt RN64 2 0 * RN64 (s ^ 2)) * topf RN64 1)) * / normf RN64 2)).
  replace (s ^ 2) with (s * s) by ring.
  assert (A : ap (328 / 100) 51 (RN64 (RN64 (gflt RN64 2 0 * c) * rawf RN64 c s 2 1)) (G20 * C * (G21 * C * T))).
  { apply (Rmul (82 / 100) (34 / 10) 4 (405 / 10)); try lra; [|exact a_raw1].
    apply (Rmul (82 / 100) (166 / 100) 1 1); try lra; [exact k_g20|exact Hc]. }
  assert (B : ap (164 / 100) (18 + 33 / 10 * es) (RN64 (RN64 (hflt RN64 2 0 * RN64 (s * s)) * topf RN64 1)) (H20 * (S * S) * T)).
  { apply (Rmul (82 / 100) (335 / 100 + 164 / 100 * es) 2 (101 / 10)); try lra; [|exact k_top].
    apply (Rmul (82 / 100) (166 / 100) 1 (102 / 100 + 2 * es)); try lra; [exact k_h|].
    apply (Rmul 1 es 1 es); try lra; exact Hs. }
  apply (Rmul 5 (745 / 10 + 33 / 10 * es) (32 / 100) (33 / 100)); try lra; [|exact k_ninv].
  apply (Rsub (328 / 100) 51 (164 / 100) (18 + 33 / 10 * es)); try lra; auto.
  destruct (ap_sub _ _ _ _ _ _ _ _ A B). lra.
Qed.

(** ** The values *)
Lemma r_eq q v : 0 <= v -> v * v = q -> sqrt q = v.
Proof. intros H <-. now apply sqrt_square. Qed.
Lemma value_11 :
  1 * / B5 * (1 / 2 * (- B6 * (1 - C) * (T * (1 * S * S * / N)) - B5 * (1 + C) * ((G20 * C * (G21 * C * T) - H20 * (S * S) * T) * / N))
     - A8 * S * (G21 * C * T * (/ N * S))) = - (1 + C) / 2.
Proof.
  assert (U : S * S = 1 - C * C) by (pose proof (sin2_cos2 beta) as E; unfold Rsqr in E; fold S C in E; lra).
  set (r2 := sqrt 2). set (r3 := sqrt 3). set (r5 := sqrt 5).
  assert (p2 : 0 < r2) by (apply sqrt_lt_R0; lra). assert (p3 : 0 < r3) by (apply sqrt_lt_R0; lra). assert (p5 : 0 < r5) by (apply sqrt_lt_R0; lra).
  assert (q2 : r2 * r2 = 2) by (apply sqrt_sqrt; lra). assert (q3 : r3 * r3 = 3) by (apply sqrt_sqrt; lra). assert (q5 : r5 * r5 = 5) by (apply sqrt_sqrt; lra).
  assert (i3 : 0 < / r3) by now apply Rinv_0_lt_compat. assert (i5 : 0 < / r5) by now apply Rinv_0_lt_compat.
  assert (e3 : / r3 = r3 / 3) by (rewrite <- q3; field; lra). assert (e5 : / r5 = r5 / 5) by (rewrite <- q5; field; lra).
  assert (E1 : B5 = r2 * r3 * r5 / 15). { apply r_eq; [|]. - assert (0 < r2 * r3 * r5) by (repeat apply Rmult_lt_0_compat; auto). lra.
    - replace (r2 * r3 * r5 / 15 * (r2 * r3 * r5 / 15)) with ((r2 * r2) * (r3 * r3) * (r5 * r5) / 225) by field. rewrite q2, q3, q5. lra. }
  assert (E2 : B6 = 2 * r5 / 5). { apply r_eq; [lra|]. replace (2 * r5 / 5 * (2 * r5 / 5)) with (4 * (r5 * r5) / 25) by field. rewrite q5. lra. }
  assert (E3 : A8 = r5 / 5). { apply r_eq; [lra|]. replace (r5 / 5 * (r5 / 5)) with (r5 * r5 / 25) by field. rewrite q5. lra. }
  assert (E4 : H20 = r2 * r3 / 3). { apply r_eq; [assert (0 < r2 * r3) by (now apply Rmult_lt_0_compat); lra|].
    replace (r2 * r3 / 3 * (r2 * r3 / 3)) with ((r2 * r2) * (r3 * r3) / 9) by field. rewrite q2, q3. lra. }
  assert (E5 : G21 = 2). { unfold G21. rewrite (r_eq 4 2) by lra. lra. }
  assert (E6 : G20 = r2 * r3 / 3). { unfold G20. rewrite (r_eq 6 (r2 * r3)); [|apply Rlt_le, Rmult_lt_0_compat; auto|].
    - apply (Rmult_eq_reg_r (r2 * r3)); [|apply Rmult_integral_contrapositive_currified; lra].
      replace (2 * 1 / (r2 * r3) * (r2 * r3)) with 2 by (field; lra). replace (r2 * r3 / 3 * (r2 * r3)) with ((r2 * r2) * (r3 * r3) / 3) by field. rewrite q2, q3. lra.
    - replace (r2 * r3 * (r2 * r3)) with ((r2 * r2) * (r3 * r3)) by ring. rewrite q2, q3. lra. }
  assert (E7 : T = r5 * r3 / 2). { unfold T. fold r3. rewrite (r_eq (5 / 4) (r5 / 2)); [field|lra|]. replace (r5 / 2 * (r5 / 2)) with (r5 * r5 / 4) by field. rewrite q5. lra. }
  assert (E8 : N = r2 * r5). { apply r_eq; [apply Rlt_le, Rmult_lt_0_compat; auto|]. replace (r2 * r5 * (r2 * r5)) with ((r2 * r2) * (r5 * r5)) by ring. rewrite q2, q5. lra. }
  rewrite E1, E2, E3, E4, E5, E6, E7, E8.
  apply (Rmult_eq_reg_r (r2 * r2)); [|rewrite q2; lra].
  transitivity (15 * (1 / 2 * (- (2 / 5) * (1 - C) * (/ 2 * (S * S)) - (r2 * r2) / 15 * (1 + C) * (((r3 * r3) / 3 * C * (C * r5) - (r3 * r3) / 3 * (S * S) * (r5 / 2)) / r5))
     - / 5 * (S * S) * C)).
  { field. repeat split; lra. }
  rewrite q3, U. replace ((3 / 3 * C * (C * r5) - 3 / 3 * (1 - C * C) * (r5 / 2)) / r5) with (C * C - (1 - C * C) / 2) by (field; lra). rewrite q2. field.
Qed.
Lemma C_rng : -1 <= C <= 1.
Proof. apply COS_bound. Qed.
Lemma a_11 : ap 1 (135 + 8 * es) (H1f RN64 c s 1 1) (- (1 + C) / 2).
Proof.
  pose proof C_rng. rewrite <- value_11.
  change (H1f RN64 c s 1 1) with (RN64 (RN64 (1 / bflt RN64 2 0) * RN64 (RN64 (1 / 2 * RN64 (RN64 (RN64 (bflt RN64 2 (-2) * RN64 (1 - c)) * H0f RN64 c s 2 2)
    - RN64 (RN64 (bflt RN64 2 0 * RN64 (1 + c)) * H0f RN64 c s 2 0))) - RN64 (RN64 (aflt RN64 1 1 * s) * H0f RN64 c s 2 1)))).
  assert (K : forall M e x, M <= 6 -> ap M e x (1 * / B5 * (1 / 2 * (- B6 * (1 - C) * (T * (1 * S * S * / N)) - B5 * (1 + C) * ((G20 * C * (G21 * C * T) - H20 * (S * S) * T) * / N))
     - A8 * S * (G21 * C * T * (/ N * S)))) -> e <= 135 + 8 * es ->
     ap 1 (135 + 8 * es) x (1 * / B5 * (1 / 2 * (- B6 * (1 - C) * (T * (1 * S * S * / N)) - B5 * (1 + C) * ((G20 * C * (G21 * C * T) - H20 * (S * S) * T) * / N))
     - A8 * S * (G21 * C * T * (/ N * S))))).
  { intros M e x _ A L. eapply ap_weak; [exact A| |exact L]. rewrite value_11. apply Rabs_le. lra. }
  apply (K (483 / 100) (135 + 8 * es)); [lra| |lra].
  assert (X2 : ap (116 / 100) (191 / 10 + 235 / 100 * es) (RN64 (RN64 (bflt RN64 2 (-2) * RN64 (1 - c)) * H0f RN64 c s 2 2)) (- B6 * (1 - C) * (T * (1 * S * S * / N)))).
  { apply (Rmul (18 / 10) (83 / 10) (64 / 100) (7 + 13 / 10 * es)); try lra; [|exact a_22].
    apply (Rmul (90 / 100) (182 / 100) 2 (31 / 10)); try lra; [exact k_b6|].
    apply (Rsub 1 0 1 1); try lra; [exact exact1|exact Hc|apply Rabs_le; lra]. }
  assert (X4 : ap (119 / 100) (276 / 10 + 82 / 100 * es) (RN64 (RN64 (bflt RN64 2 0 * RN64 (1 + c)) * H0f RN64 c s 2 0)) (B5 * (1 + C) * ((G20 * C * (G21 * C * T) - H20 * (S * S) * T) * / N))).
  { apply (Rmul (74 / 100) (35 / 10) (16 / 10) (28 + 11 / 10 * es)); try lra; [|exact a_20].
    apply (Rmul (37 / 100) (75 / 100) 2 (31 / 10)); try lra; [exact k_b5|].
    apply (Radd 1 0 1 1); try lra; [exact exact1|exact Hc|apply Rabs_le; lra]. }
  assert (X8 : ap (58 / 100) (1075 / 100 + 117 / 100 * es) (RN64 (RN64 (aflt RN64 1 1 * s) * H0f RN64 c s 2 1)) (A8 * S * (G21 * C * T * (/ N * S)))).
  { apply (Rmul (45 / 100) (138 / 100 + 45 / 100 * es) (128 / 100) (185 / 10 + 13 / 10 * es)); try lra; [|exact a_21].
    apply (Rmul (45 / 100) (91 / 100) 1 es); try lra; [exact k_a8|exact Hs]. }
  set (y2 := - B6 * (1 - C) * _) in *. set (y4 := B5 * (1 + C) * _) in *. set (y8 := A8 * S * _) in *.
  assert (X6 : ap (118 / 100) (258 / 10 + 16 / 10 * es) (RN64 (1 / 2 * RN64 (RN64 (RN64 (bflt RN64 2 (-2) * RN64 (1 - c)) * H0f RN64 c s 2 2)
    - RN64 (RN64 (bflt RN64 2 0 * RN64 (1 + c)) * H0f RN64 c s 2 0)))) (1 / 2 * (y2 - y4))).
  { apply (Rmul (/ 2) 0 (235 / 100) (491 / 10 + 317 / 100 * es)); try lra; [exact exact_half|].
    apply (Rsub _ _ _ _ _ _ _ _ _ _ X2 X4); try lra. destruct (ap_sub _ _ _ _ _ _ _ _ X2 X4). lra. }
  apply (Rmul (274 / 100) (831 / 100) (176 / 100) (384 / 10 + 28 / 10 * es)); try lra; [exact k_binv|].
  apply (Rsub _ _ _ _ _ _ _ _ _ _ X6 X8); try lra. destruct (ap_sub _ _ _ _ _ _ _ _ X6 X8). lra.
Qed.
Lemma a_00 : ap 1 (63 / 10) (H0f RN64 c s 1 0) C.
Proof.
  pose proof C_rng. change (H0f RN64 c s 1 0) with (RN64 (RN64 (gflt RN64 1 0 * c) * / RN64 (sqrt 2))).
  assert (E : G10 * C * / sqrt 2 = C).
  { unfold G10. pose proof (sqrt_lt_R0 2 ltac:(lra)). replace (2 * 1 / sqrt 2 * C * / sqrt 2) with (2 * C / (sqrt 2 * sqrt 2)) by (field; lra). rewrite sqrt_sqrt by lra. field. }
  assert (A : ap (101 / 100) (63 / 10) (RN64 (RN64 (gflt RN64 1 0 * c) * / RN64 (sqrt 2))) (G10 * C * / sqrt 2)).
  { apply (Rmul (1415 / 1000) (58 / 10) (708 / 1000) (72 / 100)); try lra.
    - apply (Rmul (1415 / 1000) (286 / 100) 1 1); try lra; [exact k_g10|exact Hc].
    - assert (Q : 1414 / 1000 <= sqrt 2) by (apply sqrt_ge; lra).
      assert (I : Rabs (/ sqrt 2) <= 708 / 1000) by (apply (inv_le _ (1414 / 1000)); lra).
      eapply ap_weak; [apply (ap_lg 1 (708 / 1000))|exact I|lra]; [|lra|exact I]. pose proof p60.
      assert (L1 : lg 1 (RN64 (sqrt 2)) (sqrt 2)) by (apply (lgRNp 0); try lra; apply lg_refl).
      pose proof (lg_div 0 1 1 _ 1 _ (lg_refl 1) L1) as L. unfold Rdiv in L. rewrite !Rmult_1_l in L. eapply lg_weak; [exact L|lra]. }
  rewrite E in A. eapply ap_weak; [exact A|apply Rabs_le; lra|lra].
Qed.
Lemma a_01 : ap 1 (10 + es) (H0f RN64 c s 1 1) (H_function 1 0 1 beta).
Proof.
  rewrite top_exact by lia. rewrite Praw_11. change (IZR (4 * 1 + 2)) with 6. change (Z.to_nat 1) with 1%nat. rewrite pow_1. fold S.
  change (H0f RN64 c s 1 1) with (RN64 (RN64 (sqrt 3) * RN64 (RN64 (1 * s) * / normf RN64 1))).
  assert (Q6 : 244 / 100 <= sqrt 6) by (apply sqrt_ge; lra).
  assert (I : Rabs (/ sqrt 6) <= 41 / 100) by (apply (inv_le _ (244 / 100)); lra).
  assert (K : ap (41 / 100) (42 / 100) (/ normf RN64 1) (/ sqrt 6)).
  { eapply ap_weak; [apply (ap_lg 1 (41 / 100))|exact I|lra]; [|lra|exact I].
    pose proof (lg_div 0 1 1 (normf RN64 1) 1 (sqrt 6) (lg_refl 1) (normf_lg 1 ltac:(lia))) as L. unfold Rdiv in L. rewrite !Rmult_1_l in L.
    eapply lg_weak; [exact L|lra]. }
  assert (Q3 : Rabs (sqrt 3) <= 174 / 100) by (apply sqrt_le; lra). pose proof p60. assert (1 <= sqrt 3) by (apply sqrt_ge; lra).
  assert (K3 : ap (174 / 100) (176 / 100) (RN64 (sqrt 3)) (sqrt 3)).
  { eapply ap_weak; [apply (ap_lg 1 (174 / 100))|exact Q3|lra]; [|lra|exact Q3]. apply (lgRNp 0); try lra. apply lg_refl. }
  unfold Rdiv. apply (Rmul (174 / 100) (176 / 100) (41 / 100) (13 / 10 + 41 / 100 * es)); try lra; [exact K3|].
  rewrite <- (Rmult_1_l S). apply (Rmul 1 (102 / 100 + es) (41 / 100) (42 / 100)); try lra; [|exact K].
  apply (Rmul 1 0 1 es); try lra; [exact exact1|exact Hs].
Qed.
Lemma a_m11 : ap 2 (160 + 10 * es) (dnf RN64 c s 1 1 1) ((1 - C) / 2).
Proof.
  pose proof C_rng.
  change (dnf RN64 c s 1 1 1) with (RN64 (RN64 (1 / dflt RN64 1 (-1)) * RN64 (RN64 (dflt RN64 1 0 * H1f RN64 c s 1 1) + RN64 (dflt RN64 1 0 * H0f RN64 c s 1 0)))).
  change (-1)%Z with (- 0 - 1)%Z. rewrite dflt_neg by lia. pose proof p60.
  assert (Q : 1414 / 1000 <= sqrt 2 <= 1415 / 1000).
  { split; [apply sqrt_ge; lra|]. pose proof (sqrt_le 2 (1415 / 1000) ltac:(lra) ltac:(lra)) as L. rewrite Rabs_pos_eq in L by apply sqrt_pos. exact L. }
  assert (ED : dpos 1 0 = D) by reflexivity. assert (QD : 707 / 1000 <= D <= 708 / 1000) by (unfold D; lra).
  pose proof (dflt_lg 1 0 ltac:(lia) ltac:(lia)) as LD. rewrite ED in LD.
  assert (KD : ap (708 / 1000) (144 / 100) (dflt RN64 1 0) D).
  { eapply ap_weak; [apply (ap_lg 2 (708 / 1000)); [exact LD|lra|rewrite Rabs_pos_eq; lra]|rewrite Rabs_pos_eq; lra|lra]. }
  assert (KI : ap (1415 / 1000) (430 / 100) (RN64 (1 / - dflt RN64 1 0)) (- / D)).
  { assert (I : Rabs (- / D) <= 1415 / 1000) by (rewrite Rabs_Ropp; apply (inv_le _ (707 / 1000)); lra).
    assert (I2 : / (708 / 1000) <= Rabs (- / D)).
    { rewrite Rabs_Ropp, Rabs_pos_eq by (left; apply Rinv_0_lt_compat; lra). apply Rinv_le_contravar; lra. }
    eapply ap_weak; [apply (ap_lg 3 (1415 / 1000))|exact I|lra]; [|lra|exact I].
    apply (lgRN 2); try lra. pose proof (lg_div 0 2 1 _ 1 _ (lg_refl 1) (lg_opp _ _ _ LD)) as L.
    replace (- / D) with (1 / - D) by (field; lra). eapply lg_weak; [exact L|lra]. }
  replace ((1 - C) / 2) with (- / D * (D * (- (1 + C) / 2) + D * C)) by (field; lra).
  assert (V : - / D * (D * (- (1 + C) / 2) + D * C) = (1 - C) / 2) by (field; lra).
  assert (A : ap (205 / 100) (160 + 10 * es) (RN64 (RN64 (1 / - dflt RN64 1 0) * RN64 (RN64 (dflt RN64 1 0 * H1f RN64 c s 1 1) + RN64 (dflt RN64 1 0 * H0f RN64 c s 1 0))))
     (- / D * (D * (- (1 + C) / 2) + D * C))).
  { assert (A1 : ap (71 / 100) (978 / 10 + 57 / 10 * es) (RN64 (dflt RN64 1 0 * H1f RN64 c s 1 1)) (D * (- (1 + C) / 2)))
      by (apply (Rmul (708 / 1000) (144 / 100) 1 (135 + 8 * es)); try lra; [exact KD|exact a_11]).
    assert (A2 : ap (71 / 100) 7 (RN64 (dflt RN64 1 0 * H0f RN64 c s 1 0)) (D * C))
      by (apply (Rmul (708 / 1000) (144 / 100) 1 (63 / 10)); try lra; [exact KD|exact a_00]).
    apply (Rmul (1415 / 1000) (430 / 100) (142 / 100) (1063 / 10 + 57 / 10 * es)); try lra; [exact KI|].
    apply (Radd _ _ _ _ _ _ _ _ _ _ A1 A2); try lra. destruct (ap_add _ _ _ _ _ _ _ _ A1 A2). lra. }
  eapply ap_weak; [exact A| |lra]. rewrite V. apply Rabs_le. lra.
Qed.
End One.

(** ** Every entry *)
Lemma H_111 beta : H_function 1 1 1 beta = - (1 + cos beta) / 2.
Proof.
  rewrite H_function_Hd by lia. destruct (half_angle beta) as (U & C & _). cbv zeta in *.
  set (a := cos (beta / 2)) in *. set (b := sin (beta / 2)) in *.
  unfold Hd, dd, S2, eps. simpl. unfold sgn. simpl.
  pose proof (W_neq0 1 0). pose proof (W_neq0 1 1). rewrite <- C. field_simplify; auto; nra.
Qed.
Lemma H_1m11 beta : H_function 1 (-1) 1 beta = (1 - cos beta) / 2.
Proof.
  rewrite H_function_Hd by lia. destruct (half_angle beta) as (U & C & _). cbv zeta in *.
  set (a := cos (beta / 2)) in *. set (b := sin (beta / 2)) in *.
  assert (EW : W 1 (-1) = W 1 1) by (unfold W; f_equal; unfold fct; simpl; ring).
  unfold Hd, dd, S2, eps. rewrite EW. simpl. unfold sgn. simpl.
  pose proof (W_neq0 1 0). pose proof (W_neq0 1 1). rewrite <- C. field_simplify; auto; nra.
Qed.
Lemma Hall_one es beta c s mp m : 1 <= es <= 20000 -> (- 1 <= mp <= 1)%Z -> (- 1 <= m <= 1)%Z ->
  Rabs (s - sin beta) <= es * u64 -> Rabs (c - cos beta) <= u64 ->
  Rabs (Hall RN64 c s 1 mp m - H_function 1 mp m beta) <= (160 + 10 * es) * u64.
Proof.
  intros He Hp Hm Es Ec. revert mp m Hp Hm.
  assert (Ac : ap 1 1 c (cos beta)) by (split; [apply Rabs_le; apply COS_bound|lra]).
  assert (As : ap 1 es s (sin beta)) by (split; [apply Rabs_le; apply SIN_bound|lra]).
  assert (U : 0 < u64) by (unfold u64; lra).
  assert (up : forall x e e', x <= e * u64 -> e <= e' -> x <= e' * u64) by (intros x e e' X L; eapply Rle_trans; [exact X|]; apply Rmult_le_compat_r; lra).
  apply (to_wedge (fun mp m => Rabs (Hall RN64 c s 1 mp m - H_function 1 mp m beta) <= (160 + 10 * es) * u64) 1).
  - intros mp m Hm. rewrite Hall_wedge by lia.
    assert (Q : (mp = 0 /\ m = 0 \/ mp = 0 /\ m = 1 \/ mp = 1 /\ m = 1 \/ mp = -1 /\ m = 1)%Z) by lia.
    destruct Q as [[-> ->]|[[-> ->]|[[-> ->]|[-> ->]]]].
    + rewrite H_100. change (Hflt RN64 c s 1 0 0) with (H0f RN64 c s 1 0). destruct (a_00 beta c s Ac). apply (up _ (63 / 10)); lra.
    + change (Hflt RN64 c s 1 0 1) with (H0f RN64 c s 1 1). destruct (a_01 beta c s es He As). apply (up _ (10 + es)); lra.
    + rewrite H_111. change (Hflt RN64 c s 1 1 1) with (H1f RN64 c s 1 1). destruct (a_11 beta c s es Ac He As). apply (up _ (135 + 8 * es)); lra.
    + rewrite H_1m11. change (Hflt RN64 c s 1 (-1) 1) with (dnf RN64 c s 1 1 1). destruct (a_m11 beta c s es Ac He As). lra.
  - intros mp m Hp Hm A. now rewrite Hall_transpose, H_transpose by lia.
  - intros mp m Hp Hm A. now rewrite Hall_negate, H_negate by lia.
Qed.

Lemma C75_dipole :
  forall n_max hc cosb sinb ws, (1 <= n_max)%Z -> HCalculator_init64 n_max = Ok hc ->
    cosb <> [] -> (forall c, In c cosb -> -1 <= c <= 1) -> length sinb = length cosb ->
    (* the cosine and sine at [j] are those of beta, each within half a unit in the last place of 1 *)
    let good mp m j x := forall beta, Rabs (nth j cosb 0 - cos beta) <= u64 -> Rabs (nth j sinb 0 - sin beta) <= u64 ->
      Rabs (x - H_function 1 mp m beta) <= 170 * u64 in
    (match ws with Some w => (workspace_size n_max <= alen w)%Z | None => True end ->
     exists H, HCalculator_call64 hc cosb (Some sinb) ws = Ok H /\
       forall mp m, (Z.abs mp <= m <= 1)%Z ->
         exists r, aget H (wedge_index 1 mp m) = Some r /\ forall j, (j < length cosb)%nat -> good mp m j (r (Z.of_nat j))) /\
    (match ws with Some w => (LMpM_total_size 0 n_max <= alen w)%Z | None => True end ->
     exists H, HCalculator_full_call64 hc cosb (Some sinb) ws = Ok H /\
       forall mp m, (- 1 <= mp <= 1)%Z -> (- 1 <= m <= 1)%Z ->
         exists r, aget H (nmpm_index 1 mp m) = Some r /\ forall j, (j < length cosb)%nat -> good mp m j (r (Z.of_nat j))).
Proof.
  intros n_max hc cosb sinb ws Hn E N B S good.
  pose proof (both_run (fun n mp m c s x => forall beta, Rabs (c - cos beta) <= u64 -> Rabs (s - sin beta) <= u64 ->
    Rabs (x - H_function 1 mp m beta) <= 170 * u64) (fun n => n = 1)%Z) as R.
  specialize (R ltac:(cbv beta; intros n mp m c s -> H0 H1 H2 beta H3 H4; replace 170 with (160 + 10 * 1) by ring; apply Hall_one; auto; first [lia|lra]) n_max hc cosb (Some sinb) ws Hn E N B S).
  cbv zeta in R. destruct R as [R1 R2]. split; intros W; [destruct (R1 W) as (H & EH & V)|destruct (R2 W) as (H & EH & V)]; exists H; (split; [exact EH|]).
  - intros mp m H1. exact (V 1%Z mp m ltac:(lia) eq_refl H1).
  - intros mp m H1 H2. exact (V 1%Z mp m ltac:(lia) eq_refl H1 H2).
Qed.

(** The angle with cosine 3/5, at n_max = 4 *)
Lemma C75_example :
  exists hc H r, HCalculator_init64 4 = Ok hc /\ HCalculator_full_call64 hc [RN64 (3/5)] (Some [RN64 (4/5)]) None = Ok H /\
    aget H (nmpm_index 1 (-1) 1) = Some r /\ Rabs (r 0%Z - 1 / 5) <= 170 * u64.
Proof.
  destruct (proj1 (C71_init 4) ltac:(lia)) as (hc & E & _).
  assert (F : forall q, 0 <= q <= 4 / 5 -> Rabs (RN64 q - q) <= u64).
  { intros q Hq. pose proof (RN64_err q) as R. pose proof eta_small. rewrite (Rabs_pos_eq q) in R by lra. assert (0 < u64) by (unfold u64; lra). nra. }
  pose proof (F (3 / 5) ltac:(lra)) as F1. pose proof (F (4 / 5) ltac:(lra)) as F2.
  assert (I0 : forall c, In c [RN64 (3 / 5)] -> -1 <= c <= 1).
  { intros c [<-|[]]. apply Rabs_le_inv in F1. unfold u64 in F1. lra. }
  destruct (C75_dipole 4 hc [RN64 (3/5)] [RN64 (4/5)] None ltac:(lia) E ltac:(discriminate) I0 eq_refl) as [_ W].
  destruct (W I) as (H & EH & V). destruct (V (-1)%Z 1%Z ltac:(lia) ltac:(lia)) as (r & Er & G).
  exists hc, H, r. repeat (split; [assumption|]).
  specialize (G 0%nat ltac:(cbn; lia) (acos (3 / 5))). change (Z.of_nat 0) with 0%Z in G. cbn [nth] in G.
  rewrite H_1m11, cos_acos in G by lra. rewrite sin_acos in G by lra.
  replace (1 - Rsqr (3 / 5)) with (4 / 5 * (4 / 5)) in G by (unfold Rsqr; lra). rewrite sqrt_square in G by lra.
  replace ((1 - 3 / 5) / 2) with (1 / 5) in G by lra. apply G; auto.
Qed.
