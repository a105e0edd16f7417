(** Relative errors on the logarithmic scale: [lg k x y] says that [x = y * exp t] with [|t|] at most [k] units [vv], where one
    rounding is at most one unit.  Products, quotients and square roots only add. *)
From Coq Require Import ZArith Reals Lia Lra.
From Flocq Require Import Core.
From Verif Require Import RSum FloatIndexModel FloatIndexProofs FloatModesModel FloatModesProofs FloatPowersSpec FloatPowersProofs FloatConvProofs FloatWignerProofs.
Local Open Scope R_scope.
Set Bullet Behavior "Strict Subproofs".

Definition vv : R := u64 / (1 - u64).
Definition lg (k x y : R) : Prop := exists t, Rabs t <= k * vv /\ x = y * exp t.

Lemma u64_small : 0 < u64 <= / 2 ^ 40.
Proof. unfold u64. split; [apply Rinv_0_lt_compat; lra|]. apply Rinv_le_contravar; lra. Qed.
Lemma vv_pos : 0 < vv.
Proof. pose proof u64_small. assert (/ 2 ^ 40 <= / 2) by (apply Rinv_le_contravar; lra). apply Rdiv_lt_0_compat; lra. Qed.
Lemma vv_le : vv <= u64 * (1 + 2 * u64).
Proof.
  pose proof u64_small. assert (/ 2 ^ 40 <= / 2) by (apply Rinv_le_contravar; lra).
  unfold vv. apply (Rmult_le_reg_r (1 - u64)); [lra|]. replace (u64 / (1 - u64) * (1 - u64)) with u64 by (field; lra).
  assert (0 <= u64 * u64) by (apply Rmult_le_pos; lra). assert (0 <= u64 * u64 * (1 - 2 * u64)) by (apply Rmult_le_pos; lra). lra.
Qed.

Lemma lg_refl y : lg 0 y y.
Proof. exists 0. rewrite Rabs_R0, exp_0. split; lra. Qed.
Lemma lg_weak k k' x y : lg k x y -> k <= k' -> lg k' x y.
Proof. intros (t & Ht & E) H. exists t. split; auto. pose proof vv_pos. eapply Rle_trans; [exact Ht|]. apply Rmult_le_compat_r; lra. Qed.
Lemma lg_trans k1 k2 x y z : lg k1 x y -> lg k2 y z -> lg (k1 + k2) x z.
Proof.
  intros (t & Ht & ->) (s & Hs & ->). exists (s + t). rewrite exp_plus. split; [|ring].
  eapply Rle_trans; [apply Rabs_triang|]. lra.
Qed.
Lemma lg_mul k1 k2 x1 x2 y1 y2 : lg k1 x1 y1 -> lg k2 x2 y2 -> lg (k1 + k2) (x1 * x2) (y1 * y2).
Proof.
  intros (t & Ht & ->) (s & Hs & ->). exists (t + s). rewrite exp_plus. split; [|ring].
  eapply Rle_trans; [apply Rabs_triang|]. lra.
Qed.
Lemma lg_div k1 k2 x1 x2 y1 y2 : lg k1 x1 y1 -> lg k2 x2 y2 -> lg (k1 + k2) (x1 / x2) (y1 / y2).
Proof.
  intros (t & Ht & ->) (s & Hs & ->). exists (t - s). split.
  - unfold Rminus. eapply Rle_trans; [apply Rabs_triang|]. rewrite Rabs_Ropp. lra.
  - unfold Rminus. rewrite exp_plus, exp_Ropp. unfold Rdiv. rewrite Rinv_mult. ring.
Qed.
Lemma lg_opp k x y : lg k x y -> lg k (- x) (- y).
Proof. intros (t & Ht & ->). exists t. split; auto. ring. Qed.
Lemma lg_scale k c x y : lg k x y -> lg k (c * x) (c * y).
Proof. intros (t & Ht & ->). exists t. split; auto. ring. Qed.
Lemma lg_0 k x : lg k x 0 -> x = 0.
Proof. intros (t & Ht & ->). ring. Qed.
Lemma lg_sqrt k x y : 0 <= y -> lg k x y -> lg (k / 2) (sqrt x) (sqrt y).
Proof.
  intros Hy (t & Ht & ->). exists (t / 2). split.
  - unfold Rdiv. rewrite Rabs_mult, (Rabs_pos_eq (/ 2)) by lra. lra.
  - rewrite sqrt_mult by (auto; apply Rlt_le, exp_pos). f_equal.
    replace t with (t / 2 + t / 2) at 1 by lra. rewrite exp_plus. apply sqrt_square, Rlt_le, exp_pos.
Qed.
Lemma lg_pos k x y : lg k x y -> 0 < y -> 0 < x.
Proof. intros (t & _ & ->) H. apply Rmult_lt_0_compat; auto. apply exp_pos. Qed.
Lemma lg_nonneg k x y : lg k x y -> 0 <= y -> 0 <= x.
Proof. intros (t & _ & ->) H. apply Rmult_le_pos; auto. apply Rlt_le, exp_pos. Qed.
Lemma lg_neq k x y : lg k x y -> y <> 0 -> x <> 0.
Proof. intros (t & _ & ->) H. apply Rmult_integral_contrapositive_currified; auto. pose proof (exp_pos t). lra. Qed.
Lemma lg_abs k x y : lg k x y -> lg k (Rabs x) (Rabs y).
Proof. intros (t & Ht & ->). exists t. split; auto. rewrite Rabs_mult, (Rabs_pos_eq (exp t)); auto. apply Rlt_le, exp_pos. Qed.

(** one rounding *)
Lemma ln_bound d : Rabs d <= u64 -> Rabs (ln (1 + d)) <= vv.
Proof.
  intros Hd. pose proof u64_small as [U0 U1]. assert (/ 2 ^ 40 <= / 2) by (apply Rinv_le_contravar; lra).
  apply Rabs_le_inv in Hd. assert (P : 0 < 1 + d) by lra.
  assert (Up : forall x, 0 < 1 + x -> ln (1 + x) <= x).
  { intros x Hx. destruct (Req_dec x 0) as [->|Nx]; [rewrite Rplus_0_r, ln_1; lra|].
    apply Rlt_le. rewrite <- (ln_exp x) at 2. apply ln_increasing; auto. apply exp_ineq1; auto. }
  assert (Vu : u64 <= vv).
  { unfold vv. apply (Rmult_le_reg_r (1 - u64)); [lra|]. replace (u64 / (1 - u64) * (1 - u64)) with u64 by (field; lra).
    assert (0 <= u64 * u64) by (apply Rmult_le_pos; lra). lra. }
  apply Rabs_le. split.
  - replace (ln (1 + d)) with (- ln (1 + (/ (1 + d) - 1))).
    + apply Ropp_le_contravar. eapply Rle_trans; [apply Up|].
      * replace (1 + (/ (1 + d) - 1)) with (/ (1 + d)) by ring. apply Rinv_0_lt_compat; auto.
      * assert (I : / (1 + d) <= / (1 - u64)) by (apply Rinv_le_contravar; lra).
        unfold vv. replace (u64 / (1 - u64)) with (/ (1 - u64) - 1) by (field; lra). lra.
    + replace (1 + (/ (1 + d) - 1)) with (/ (1 + d)) by ring. rewrite ln_Rinv by auto. ring.
  - pose proof (Up d P). lra.
Qed.
Lemma lg_of_err x y : y <> 0 -> Rabs (x - y) <= u64 * Rabs y -> lg 1 x y.
Proof.
  intros Hy H. assert (Ya : 0 < Rabs y) by (apply Rabs_pos_lt; auto).
  set (d := (x - y) / y). assert (Hd : Rabs d <= u64).
  { unfold d, Rdiv. rewrite Rabs_mult, Rabs_inv. apply (Rmult_le_reg_r (Rabs y)); auto.
    replace (Rabs (x - y) * / Rabs y * Rabs y) with (Rabs (x - y)) by (field; lra). auto. }
  exists (ln (1 + d)). split. { rewrite Rmult_1_l. apply ln_bound; auto. }
  pose proof u64_small as [U0 U1]. assert (/ 2 ^ 40 <= / 2) by (apply Rinv_le_contravar; lra). apply Rabs_le_inv in Hd.
  rewrite exp_ln by lra. unfold d. field. auto.
Qed.
Lemma low_bpow : bpow radix2 (-1000) = / 2 ^ 1000.
Proof. rewrite <- (IZR_Zpower radix2 1000) || idtac. change (-1000)%Z with (- (1000))%Z. rewrite bpow_opp. f_equal. rewrite bpow_powerRZ. reflexivity. Qed.
Lemma lg_RN x : / 2 ^ 1000 <= Rabs x -> lg 1 (RN64 x) x.
Proof.
  intros H. apply lg_of_err.
  - intros ->. rewrite Rabs_R0 in H. assert (0 < / 2 ^ 1000) by (apply Rinv_0_lt_compat, pow_lt; lra). lra.
  - apply RN64_rel. rewrite low_bpow. auto.
Qed.
Lemma lg_RN' k x y : lg k x y -> / 2 ^ 1000 <= Rabs x -> lg (k + 1) (RN64 x) y.
Proof. intros H L. rewrite Rplus_comm. eapply lg_trans; [|exact H]. apply lg_RN; auto. Qed.

(** magnitudes *)
Lemma exp_small t : Rabs t <= / 1000 -> 999 / 1000 <= exp t <= 1002 / 1000.
Proof.
  intros H. apply Rabs_le_inv in H. split.
  - apply Rle_trans with (1 + t); [lra|]. destruct (Req_dec t 0) as [->|N]; [rewrite exp_0; lra|]. apply Rlt_le, exp_ineq1; auto.
  - assert (P : 999 / 1000 <= exp (- t)).
    { apply Rle_trans with (1 + - t); [lra|]. destruct (Req_dec (- t) 0) as [->|N]; [rewrite exp_0; lra|]. apply Rlt_le, exp_ineq1; auto. }
    replace t with (- - t) by ring. rewrite exp_Ropp. apply Rle_trans with (/ (999 / 1000)); [apply Rinv_le_contravar; lra|lra].
Qed.
Lemma kvv_small k : 0 <= k <= 2 ^ 20 -> 0 <= k * vv <= / 1000.
Proof.
  intros H. pose proof vv_pos. pose proof vv_le. pose proof u64_small as [U0 U1]. split; [apply Rmult_le_pos; lra|].
  assert (V : vv <= 2 * / 2 ^ 40).
  { assert (/ 2 ^ 40 <= / 2) by (apply Rinv_le_contravar; lra). assert (u64 * (1 + 2 * u64) <= u64 * 2) by (apply Rmult_le_compat_l; lra). lra. }
  apply Rle_trans with (2 ^ 20 * (2 * / 2 ^ 40)); [apply Rmult_le_compat; lra|lra].
Qed.
Lemma lg_size k x y : lg k x y -> 0 <= k <= 2 ^ 20 -> 999 / 1000 * Rabs y <= Rabs x <= 1002 / 1000 * Rabs y.
Proof.
  intros (t & Ht & ->) Hk. pose proof (kvv_small k Hk). destruct (exp_small t ltac:(lra)).
  rewrite Rabs_mult, (Rabs_pos_eq (exp t)) by lra. pose proof (Rabs_pos y). split; nra.
Qed.

(** sums of terms of one sign *)
Lemma lg_range k x y : 0 <= k -> 0 <= y -> (exp (- (k * vv)) * y <= x <= exp (k * vv) * y <-> lg k x y).
Proof.
  intros Hk Hy. pose proof vv_pos as V. assert (K : 0 <= k * vv) by (apply Rmult_le_pos; lra). split.
  - intros [L U]. destruct (Req_dec y 0) as [->|Ny].
    { exists 0. rewrite Rabs_R0. split; auto. lra. }
    assert (Yp : 0 < y) by lra. assert (Xp : 0 < x). { eapply Rlt_le_trans; [|exact L]. apply Rmult_lt_0_compat; auto. apply exp_pos. }
    exists (ln (x / y)). assert (Q : 0 < x / y) by (apply Rdiv_lt_0_compat; auto). rewrite exp_ln by auto. split; [|field; auto].
    apply Rabs_le. split.
    + rewrite <- (ln_exp (- (k * vv))). apply Rcomplements.ln_le; [apply exp_pos|]. apply (Rmult_le_reg_r y); auto.
      replace (x / y * y) with x by (field; auto). auto.
    + rewrite <- (ln_exp (k * vv)). apply Rcomplements.ln_le; auto. apply (Rmult_le_reg_r y); auto.
      replace (x / y * y) with x by (field; auto). auto.
  - intros (t & Ht & ->). apply Rabs_le_inv in Ht.
    assert (M : forall p q, p <= q -> exp p <= exp q). { intros p q [H| ->]; [apply Rlt_le, exp_increasing; auto|lra]. }
    split; rewrite (Rmult_comm y); apply Rmult_le_compat_r; auto; apply M; lra.
Qed.
Lemma lg_plus k x1 x2 y1 y2 : 0 <= k -> 0 <= y1 -> 0 <= y2 -> lg k x1 y1 -> lg k x2 y2 -> lg k (x1 + x2) (y1 + y2).
Proof.
  intros Hk H1 H2 L1 L2. apply (lg_range k _ _ Hk H1) in L1. apply (lg_range k _ _ Hk H2) in L2.
  apply (lg_range k _ _ Hk); [lra|]. rewrite !Rmult_plus_distr_l. lra.
Qed.

(** back to an ordinary relative error *)
Lemma lg_err k x y : lg k x y -> 0 <= k <= 2 ^ 20 -> Rabs (x - y) <= k * (1 + / 2 ^ 17) * u64 * Rabs y.
Proof.
  intros (t & Ht & ->) Hk. replace (y * exp t - y) with (y * (exp t - 1)) by ring. rewrite Rabs_mult, (Rmult_comm (Rabs y)).
  apply Rmult_le_compat_r; [apply Rabs_pos|].
  pose proof (kvv_small k Hk) as Ks. pose proof vv_le as V. pose proof u64_small as [U0 U1]. pose proof vv_pos as V0.
  assert (KV : k * vv <= 2 ^ 20 * (2 * / 2 ^ 40)).
  { apply Rmult_le_compat; try lra. assert (/ 2 ^ 40 <= / 2) by (apply Rinv_le_contravar; lra).
    assert (u64 * (1 + 2 * u64) <= u64 * 2) by (apply Rmult_le_compat_l; lra). lra. }
  assert (E1 : forall z, 1 + z <= exp z).
  { intros z. destruct (Req_dec z 0) as [->|N]; [rewrite exp_0; lra|]. apply Rlt_le, exp_ineq1; auto. }
  set (s := k * vv) in *. apply Rabs_le_inv in Ht.
  assert (S2 : s <= k * u64 * (1 + 2 * u64)).
  { unfold s. replace (k * u64 * (1 + 2 * u64)) with (k * (u64 * (1 + 2 * u64))) by ring. apply Rmult_le_compat_l; lra. }
  assert (Up : exp t - 1 <= s * (1 + 2 * s)).
  { pose proof (E1 (- t)) as Q. assert (P : 0 < 1 - t) by lra.
    assert (exp t <= / (1 - t)).
    { replace t with (- - t) at 1 by ring. rewrite exp_Ropp. apply Rinv_le_contravar; lra. }
    assert (/ (1 - t) <= / (1 - s)) by (apply Rinv_le_contravar; lra).
    assert (/ (1 - s) <= 1 + s * (1 + 2 * s)).
    { apply (Rmult_le_reg_r (1 - s)); [lra|]. rewrite Rinv_l by lra.
      assert (0 <= s * s) by (apply Rmult_le_pos; lra). assert (0 <= s * s * (1 - 2 * s)) by (apply Rmult_le_pos; lra). lra. }
    lra. }
  assert (Lo : - s <= exp t - 1) by (pose proof (E1 t); lra).
  assert (S3 : s * (1 + 2 * s) <= k * (1 + / 2 ^ 17) * u64).
  { apply Rle_trans with (k * u64 * (1 + 2 * u64) * (1 + 2 * s)); [apply Rmult_le_compat_r; lra|].
    replace (k * (1 + / 2 ^ 17) * u64) with (k * u64 * (1 + / 2 ^ 17)) by ring.
    replace (k * u64 * (1 + 2 * u64) * (1 + 2 * s)) with (k * u64 * ((1 + 2 * u64) * (1 + 2 * s))) by ring.
    apply Rmult_le_compat_l; [apply Rmult_le_pos; lra|].
    apply Rle_trans with ((1 + 2 * / 2 ^ 40) * (1 + 2 * (2 ^ 20 * (2 * / 2 ^ 40)))); [apply Rmult_le_compat; lra|lra]. }
  assert (0 <= s * s) by (apply Rmult_le_pos; lra).
  apply Rabs_le. split; lra.
Qed.
