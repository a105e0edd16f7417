(** The family of 3-j symbols (j a b; 0 0 0): every second symbol vanishes, consecutive others have a simple ratio, and none of
    them is tiny. *)
From Coq Require Import ZArith Reals Lia Lra Psatz Bool.
From Verif Require Import Fact RSum ThreeJSpec ThreeJ ThreeJ2 ThreeJ3 ThreeJ4.
Local Open Scope R_scope.
Set Bullet Behavior "Strict Subproofs".

Section Zero.
Variables a b : Z.
Hypotheses (Ha : (0 <= a)%Z) (Hb : (0 <= b)%Z).
Let d := Z.abs (a - b).
Let s := (a + b + 1)%Z.
Let g := gg a b 0 0.
Definition P0 (j : Z) : Z := ((j * j - (a - b) * (a - b)) * ((a + b + 1) * (a + b + 1) - j * j))%Z.

Lemma jlo0 : jlo a b 0 0 = d.
Proof. unfold jlo, d. lia. Qed.
Lemma A2_P0 j : A2 j a b 0 = (P0 j * (j * j))%Z.
Proof. unfold A2, P0. ring. Qed.
Lemma P0_eq j : P0 j = ((j - d) * (j + d) * ((s - j) * (s + j)))%Z.
Proof. unfold P0, s, d. destruct (Z.abs_spec (a - b)) as [[_ ->]|[_ ->]]; ring. Qed.
Lemma P0_pos j : (d < j < s)%Z -> (0 < P0 j)%Z.
Proof. intros. rewrite P0_eq. assert (0 <= d)%Z by (unfold d; lia). apply Z.mul_pos_pos; apply Z.mul_pos_pos; lia. Qed.

Lemma g_rec j : (d < j < a + b)%Z -> xx a b 0 0 j * g (j + 1) + zz a b 0 0 j * g (j - 1)%Z = 0.
Proof.
  intros Hj. assert (B0 : yy a b 0 0 j = 0). { unfold yy, Bq. replace ((2 * j + 1) * ((0 + 0) * (a * (a + 1) - b * (b + 1)) - (0 - 0) * j * (j + 1)))%Z with 0%Z by ring. reflexivity. }
  pose proof (gg_rec a b 0 0 ltac:(lia) ltac:(lia) j ltac:(rewrite jlo0; lia)) as R. rewrite B0 in R. unfold g. lra.
Qed.
Lemma xx_sq j : (d <= j <= a + b)%Z -> xx a b 0 0 j * xx a b 0 0 j = IZR ((j * (j + 1)) * (j * (j + 1)) * P0 (j + 1)).
Proof.
  intros Hj. assert (0 <= d)%Z by (unfold d; lia). unfold xx, Aq. rewrite A2_P0.
  replace (IZR j * sqrt (IZR (P0 (j + 1) * ((j + 1) * (j + 1)))) * (IZR j * sqrt (IZR (P0 (j + 1) * ((j + 1) * (j + 1))))))
    with (IZR j * IZR j * (sqrt (IZR (P0 (j + 1) * ((j + 1) * (j + 1)))) * sqrt (IZR (P0 (j + 1) * ((j + 1) * (j + 1)))))) by ring.
  rewrite sqrt_sqrt.
  - rewrite <- !mult_IZR. f_equal. ring.
  - apply IZR_le. rewrite P0_eq. apply Z.mul_nonneg_nonneg; [|nia]. apply Z.mul_nonneg_nonneg; apply Z.mul_nonneg_nonneg; unfold s; lia.
Qed.
Lemma zz_sq j : (d <= j <= a + b)%Z -> zz a b 0 0 j * zz a b 0 0 j = IZR ((j * (j + 1)) * (j * (j + 1)) * P0 j).
Proof.
  intros Hj. assert (0 <= d)%Z by (unfold d; lia). unfold zz, Aq. rewrite A2_P0.
  replace (IZR (j + 1) * sqrt (IZR (P0 j * (j * j))) * (IZR (j + 1) * sqrt (IZR (P0 j * (j * j)))))
    with (IZR (j + 1) * IZR (j + 1) * (sqrt (IZR (P0 j * (j * j))) * sqrt (IZR (P0 j * (j * j))))) by ring.
  rewrite sqrt_sqrt.
  - rewrite <- !mult_IZR. f_equal. ring.
  - apply IZR_le. rewrite P0_eq. apply Z.mul_nonneg_nonneg; [|nia]. apply Z.mul_nonneg_nonneg; apply Z.mul_nonneg_nonneg; unfold s; lia.
Qed.

(** squares of neighbours two apart *)
Lemma g_sq j : (d < j < a + b)%Z -> g (j - 1)%Z * g (j - 1)%Z * IZR (P0 j) = g (j + 1) * g (j + 1) * IZR (P0 (j + 1)).
Proof.
  intros Hj. assert (0 <= d)%Z by (unfold d; lia).
  pose proof (g_rec j Hj) as R. pose proof (xx_sq j ltac:(lia)) as X. pose proof (zz_sq j ltac:(lia)) as Z.
  assert (K : 0 < IZR (j * (j + 1) * (j * (j + 1)))) by (apply IZR_lt; nia).
  rewrite mult_IZR in X, Z. set (kk := IZR (j * (j + 1) * (j * (j + 1)))) in *.
  apply (Rmult_eq_reg_l kk); [|lra].
  replace (kk * (g (j - 1)%Z * g (j - 1)%Z * IZR (P0 j))) with (kk * IZR (P0 j) * (g (j - 1)%Z * g (j - 1)%Z)) by ring.
  replace (kk * (g (j + 1) * g (j + 1) * IZR (P0 (j + 1)))) with (kk * IZR (P0 (j + 1)) * (g (j + 1) * g (j + 1))) by ring.
  rewrite <- X, <- Z.
  assert (E : xx a b 0 0 j * g (j + 1) = - (zz a b 0 0 j * g (j - 1)%Z)) by lra.
  replace (zz a b 0 0 j * zz a b 0 0 j * (g (j - 1)%Z * g (j - 1)%Z)) with ((- (zz a b 0 0 j * g (j - 1)%Z)) * (- (zz a b 0 0 j * g (j - 1)%Z))) by ring.
  rewrite <- E. ring.
Qed.

Lemma g_odd i : (0 <= i)%Z -> (d + 2 * i + 1 <= a + b)%Z -> g (d + 2 * i + 1) = 0.
Proof.
  intros Hi. pattern i. apply natlike_ind; auto.
  - intros H. replace (d + 2 * 0 + 1)%Z with (jlo a b 0 0 + 1)%Z by (rewrite jlo0; lia). apply gg_zero_min; try lia. rewrite jlo0. lia.
  - intros x Hx IH H. specialize (IH ltac:(lia)).
    pose proof (g_rec (d + 2 * x + 2) ltac:(lia)) as R.
    replace (d + 2 * x + 2 - 1)%Z with (d + 2 * x + 1)%Z in R by lia. rewrite IH, Rmult_0_r, Rplus_0_r in R.
    replace (d + 2 * Z.succ x + 1)%Z with (d + 2 * x + 2 + 1)%Z by lia.
    pose proof (xx_pos a b 0 0 (d + 2 * x + 2) ltac:(rewrite jlo0; lia) ltac:(unfold d; lia)) as X.
    apply Rmult_integral in R. destruct R; [lra|auto].
Qed.

(** two monotone quantities *)
Definition U (k : Z) : R := g k * g k * IZR (s - k).
Definition V (k : Z) : R := g k * g k * IZR ((k + 1 - d) * (k + 1 + d) * (s + k + 1)).
Lemma U_step j : (d < j < a + b)%Z -> U (j + 1) <= U (j - 1).
Proof.
  intros Hj. assert (0 <= d)%Z by (unfold d; lia). pose proof (g_sq j Hj) as E.
  pose proof (P0_pos j ltac:(unfold s; lia)) as Pj. apply IZR_lt in Pj.
  unfold U. apply (Rmult_le_reg_r (IZR (P0 j))); auto.
  replace (g (j - 1)%Z * g (j - 1)%Z * IZR (s - (j - 1)) * IZR (P0 j)) with (g (j - 1)%Z * g (j - 1)%Z * IZR (P0 j) * IZR (s - (j - 1))) by ring.
  rewrite E. replace (g (j + 1) * g (j + 1) * IZR (s - (j + 1)) * IZR (P0 j)) with (g (j + 1) * g (j + 1) * (IZR (s - (j + 1)) * IZR (P0 j))) by ring.
  replace (g (j + 1) * g (j + 1) * IZR (P0 (j + 1)) * IZR (s - (j - 1))) with (g (j + 1) * g (j + 1) * (IZR (P0 (j + 1)) * IZR (s - (j - 1)))) by ring.
  apply Rmult_le_compat_l; [apply Rle_0_sqr|]. rewrite <- !mult_IZR. apply IZR_le. rewrite !P0_eq.
  replace ((s - (j + 1)) * ((j - d) * (j + d) * ((s - j) * (s + j))))%Z with ((s - (j + 1)) * ((j - d) * (j + d) * (s + j) * (s - j)))%Z by ring.
  replace ((j + 1 - d) * (j + 1 + d) * ((s - (j + 1)) * (s + (j + 1))) * (s - (j - 1)))%Z
    with ((s - (j + 1)) * ((j + 1 - d) * (j + 1 + d) * (s + (j + 1)) * (s - (j - 1))))%Z by ring.
  assert (S : (a + b + 1 = s)%Z) by reflexivity.
  apply Z.mul_le_mono_nonneg_l; [lia|]. repeat apply Z.mul_le_mono_nonneg; try lia; repeat apply Z.mul_nonneg_nonneg; lia.
Qed.
Lemma V_step j : (d < j < a + b)%Z -> V (j - 1) <= V (j + 1).
Proof.
  intros Hj. assert (0 <= d)%Z by (unfold d; lia). pose proof (g_sq j Hj) as E.
  pose proof (P0_pos (j + 1) ltac:(unfold s; lia)) as Pj. apply IZR_lt in Pj.
  unfold V. apply (Rmult_le_reg_r (IZR (P0 (j + 1)))); auto.
  set (c1 := ((j - 1 + 1 - d) * (j - 1 + 1 + d) * (s + (j - 1) + 1))%Z). set (c2 := ((j + 1 + 1 - d) * (j + 1 + 1 + d) * (s + (j + 1) + 1))%Z).
  replace (g (j + 1) * g (j + 1) * IZR c2 * IZR (P0 (j + 1))) with (g (j + 1) * g (j + 1) * IZR (P0 (j + 1)) * IZR c2) by ring.
  rewrite <- E. replace (g (j - 1)%Z * g (j - 1)%Z * IZR c1 * IZR (P0 (j + 1))) with (g (j - 1)%Z * g (j - 1)%Z * (IZR c1 * IZR (P0 (j + 1)))) by ring.
  replace (g (j - 1)%Z * g (j - 1)%Z * IZR (P0 j) * IZR c2) with (g (j - 1)%Z * g (j - 1)%Z * (IZR (P0 j) * IZR c2)) by ring.
  apply Rmult_le_compat_l; [apply Rle_0_sqr|]. rewrite <- !mult_IZR. apply IZR_le. rewrite !P0_eq. unfold c1, c2.
  assert (S : (a + b + 1 = s)%Z) by reflexivity.
  replace ((j - 1 + 1 - d) * (j - 1 + 1 + d) * (s + (j - 1) + 1) * ((j + 1 - d) * (j + 1 + d) * ((s - (j + 1)) * (s + (j + 1)))))%Z
    with ((j - d) * (j + d) * (s + j) * ((j + 1 - d) * (j + 1 + d) * (s + (j + 1)) * (s - (j + 1))))%Z by ring.
  replace ((j - d) * (j + d) * ((s - j) * (s + j)) * ((j + 1 + 1 - d) * (j + 1 + 1 + d) * (s + (j + 1) + 1)))%Z
    with ((j - d) * (j + d) * (s + j) * ((j + 2 - d) * (j + 2 + d) * (s + (j + 2)) * (s - j)))%Z by ring.
  apply Z.mul_le_mono_nonneg_l; [repeat apply Z.mul_nonneg_nonneg; lia|].
  repeat apply Z.mul_le_mono_nonneg; try lia; repeat apply Z.mul_nonneg_nonneg; lia.
Qed.
Lemma U_mono k i : (d <= k)%Z -> (0 <= i)%Z -> (k + 2 * i <= a + b)%Z -> U (k + 2 * i) <= U k.
Proof.
  intros Hk Hi. pattern i. apply natlike_ind; auto.
  - intros _. rewrite Z.mul_0_r, Z.add_0_r. lra.
  - intros x Hx IH H. specialize (IH ltac:(lia)). pose proof (U_step (k + 2 * x + 1) ltac:(lia)) as S.
    replace (k + 2 * Z.succ x)%Z with (k + 2 * x + 1 + 1)%Z by lia. replace (k + 2 * x + 1 - 1)%Z with (k + 2 * x)%Z in S by lia. lra.
Qed.
Lemma V_mono k i : (d <= k)%Z -> (0 <= i)%Z -> (k + 2 * i <= a + b)%Z -> V k <= V (k + 2 * i).
Proof.
  intros Hk Hi. pattern i. apply natlike_ind; auto.
  - intros _. rewrite Z.mul_0_r, Z.add_0_r. lra.
  - intros x Hx IH H. specialize (IH ltac:(lia)). pose proof (V_step (k + 2 * x + 1) ltac:(lia)) as S.
    replace (k + 2 * Z.succ x)%Z with (k + 2 * x + 1 + 1)%Z by lia. replace (k + 2 * x + 1 - 1)%Z with (k + 2 * x)%Z in S by lia. lra.
Qed.

Lemma g_compare i k : (0 <= i)%Z -> (d + 2 * i <= a + b)%Z -> (0 <= k)%Z -> (d + 2 * k <= a + b)%Z ->
  g (d + 2 * k) * g (d + 2 * k) <= IZR (4 * s * s * s) * (g (d + 2 * i) * g (d + 2 * i)).
Proof.
  intros Hi Hi' Hk Hk'. assert (0 <= d)%Z by (unfold d; lia). assert (S : (a + b + 1 = s)%Z) by reflexivity.
  assert (D : (d <= a + b)%Z) by (unfold d; lia).
  set (gi := g (d + 2 * i) * g (d + 2 * i)). assert (G0 : 0 <= gi) by apply Rle_0_sqr.
  assert (Gk : 0 <= g (d + 2 * k) * g (d + 2 * k)) by apply Rle_0_sqr.
  destruct (Z_le_gt_dec i k) as [L|L].
  - pose proof (U_mono (d + 2 * i) (k - i) ltac:(lia) ltac:(lia) ltac:(lia)) as M. replace (d + 2 * i + 2 * (k - i))%Z with (d + 2 * k)%Z in M by lia.
    unfold U in M. fold gi in M. apply Rle_trans with (g (d + 2 * k) * g (d + 2 * k) * IZR (s - (d + 2 * k))).
    + rewrite <- (Rmult_1_r (g (d + 2 * k) * g (d + 2 * k))) at 1. apply Rmult_le_compat_l; auto. apply (IZR_le 1). lia.
    + eapply Rle_trans; [exact M|]. rewrite (Rmult_comm gi). apply Rmult_le_compat_r; auto. apply IZR_le. nia.
  - pose proof (V_mono (d + 2 * k) (i - k) ltac:(lia) ltac:(lia) ltac:(lia)) as M. replace (d + 2 * k + 2 * (i - k))%Z with (d + 2 * i)%Z in M by lia.
    unfold V in M. fold gi in M. eapply Rle_trans; [|eapply Rle_trans; [exact M|]].
    + rewrite <- (Rmult_1_r (g (d + 2 * k) * g (d + 2 * k))) at 1. apply Rmult_le_compat_l; auto. apply (IZR_le 1).
      assert (1 * 1 * 1 <= (d + 2 * k + 1 - d) * (d + 2 * k + 1 + d) * (s + (d + 2 * k) + 1))%Z; [|lia].
      repeat apply Z.mul_le_mono_nonneg; lia.
    + rewrite (Rmult_comm gi). apply Rmult_le_compat_r; auto. apply IZR_le.
      replace (4 * s * s * s)%Z with (s * (2 * s) * (2 * s))%Z by ring. repeat apply Z.mul_le_mono_nonneg; try lia.
Qed.

Lemma g_norm : rsum d (a + b) (fun j => IZR (2 * j + 1) * (g j * g j)) = 1.
Proof.
  rewrite <- (cols_norm a b 0 0 ltac:(lia) ltac:(lia)). rewrite jlo0. apply rsum_ext. intros j _. unfold g, gg. ring.
Qed.
Lemma rsum_const x y c : (x <= y + 1)%Z -> rsum x y (fun _ => c) = IZR (y - x + 1) * c.
Proof.
  intros H. replace y with (x + (y - x + 1) - 1)%Z at 1 by lia.
  cut (forall n, (0 <= n)%Z -> rsum x (x + n - 1) (fun _ => c) = IZR n * c). { intros Q. apply Q. lia. }
  intros n Hn. pattern n. apply natlike_ind; auto.
  - rewrite rsum_empty by lia. ring.
  - intros z Hz IH. rewrite rsum_last by lia. replace (x + Z.succ z - 1 - 1)%Z with (x + z - 1)%Z by lia. rewrite IH.
    replace (Z.succ z) with (z + 1)%Z by lia. rewrite plus_IZR. ring.
Qed.

(** none of the others is tiny *)
Lemma g_low i : (0 <= i)%Z -> (d + 2 * i <= a + b)%Z -> 1 <= IZR (8 * s * s * s * s * s) * (g (d + 2 * i) * g (d + 2 * i)).
Proof.
  intros Hi Hi'. assert (0 <= d)%Z by (unfold d; lia). assert (S : (a + b + 1 = s)%Z) by reflexivity.
  assert (D : (d <= a + b)%Z) by (unfold d; lia).
  set (gi := g (d + 2 * i) * g (d + 2 * i)). assert (G0 : 0 <= gi) by apply Rle_0_sqr.
  rewrite <- g_norm.
  assert (T : forall j, (d <= j <= a + b)%Z -> IZR (2 * j + 1) * (g j * g j) <= IZR (8 * s * s * s * s) * gi).
  { intros j Hj. assert (J : 0 <= IZR (2 * j + 1)) by (apply (IZR_le 0); lia).
    destruct (Z.even (j - d)) eqn:E.
    - apply Z.even_spec in E. destruct E as [k E]. pose proof (g_compare i k ltac:(lia) ltac:(lia) ltac:(lia) ltac:(lia)) as C.
      replace (d + 2 * k)%Z with j in C by lia. fold gi in C.
      apply Rle_trans with (IZR (2 * j + 1) * (IZR (4 * s * s * s) * gi)); [apply Rmult_le_compat_l; auto|].
      replace (IZR (2 * j + 1) * (IZR (4 * s * s * s) * gi)) with (IZR ((2 * j + 1) * (4 * s * s * s)) * gi) by (rewrite !mult_IZR; ring).
      apply Rmult_le_compat_r; auto. apply IZR_le. replace (8 * s * s * s * s)%Z with ((2 * s) * (4 * s * s * s))%Z by ring.
      apply Z.mul_le_mono_nonneg_r; [|lia]. repeat apply Z.mul_nonneg_nonneg; lia.
    - rewrite <- Z.negb_odd in E. apply negb_false_iff in E. apply Z.odd_spec in E. destruct E as [k E].
      pose proof (g_odd k ltac:(lia) ltac:(lia)) as O. replace (d + 2 * k + 1)%Z with j in O by lia. rewrite O, Rmult_0_r, Rmult_0_r.
      apply Rmult_le_pos; auto. apply (IZR_le 0). repeat apply Z.mul_nonneg_nonneg; lia. }
  eapply Rle_trans; [apply rsum_le; exact T|]. rewrite rsum_const by lia.
  replace (IZR (a + b - d + 1) * (IZR (8 * s * s * s * s) * gi)) with (IZR ((a + b - d + 1) * (8 * s * s * s * s)) * gi) by (rewrite !mult_IZR; ring).
  apply Rmult_le_compat_r; auto. apply IZR_le. replace (8 * s * s * s * s * s)%Z with (s * (8 * s * s * s * s))%Z by ring.
  apply Z.mul_le_mono_nonneg_r; [|lia]. repeat apply Z.mul_nonneg_nonneg; lia.
Qed.
Lemma g_low' i : (s <= 2048)%Z -> (0 <= i)%Z -> (d + 2 * i <= a + b)%Z -> / 2 ^ 29 <= Rabs (g (d + 2 * i)).
Proof.
  intros Hs Hi Hi'. pose proof (g_low i Hi Hi') as G. assert (S : (a + b + 1 = s)%Z) by reflexivity.
  destruct (Rle_lt_dec (/ 2 ^ 29) (Rabs (g (d + 2 * i)))) as [|L]; auto. exfalso.
  assert (Q : g (d + 2 * i) * g (d + 2 * i) < / 2 ^ 58).
  { replace (g (d + 2 * i) * g (d + 2 * i)) with (Rabs (g (d + 2 * i)) * Rabs (g (d + 2 * i))) by (rewrite <- Rabs_mult; apply Rabs_pos_eq, Rle_0_sqr).
    pose proof (Rabs_pos (g (d + 2 * i))). apply Rlt_le_trans with (/ 2 ^ 29 * / 2 ^ 29); [apply Rmult_le_0_lt_compat; auto|lra]. }
  assert (C : IZR (8 * s * s * s * s * s) <= 2 ^ 58).
  { replace (2 ^ 58) with (IZR (8 * 2048 * 2048 * 2048 * 2048 * 2048)) by (cbv -[IZR pow Rmult]; lra). apply IZR_le.
    repeat apply Z.mul_le_mono_nonneg; try lia; repeat apply Z.mul_nonneg_nonneg; lia. }
  assert (0 < IZR (8 * s * s * s * s * s)) by (apply (IZR_lt 0); repeat apply Z.mul_pos_pos; lia).
  assert (IZR (8 * s * s * s * s * s) * (g (d + 2 * i) * g (d + 2 * i)) < IZR (8 * s * s * s * s * s) * / 2 ^ 58) by (apply Rmult_lt_compat_l; auto).
  assert (IZR (8 * s * s * s * s * s) * / 2 ^ 58 <= 2 ^ 58 * / 2 ^ 58) by (apply Rmult_le_compat_r; lra).
  lra.
Qed.
Lemma g_high j : (d <= j <= a + b)%Z -> Rabs (g j) <= 1.
Proof.
  intros Hj. assert (0 <= d)%Z by (unfold d; lia).
  assert (T : IZR (2 * j + 1) * (g j * g j) <= 1).
  { rewrite <- g_norm. rewrite (rsum_split d (a + b) j) by lia. rewrite (rsum_last d j) by lia.
    assert (N : forall x y, (0 <= x)%Z -> 0 <= rsum x y (fun j => IZR (2 * j + 1) * (g j * g j))).
    { intros x y Hx. apply rsum_nonneg. intros i Hi. apply Rmult_le_pos; [apply (IZR_le 0); lia|apply Rle_0_sqr]. }
    pose proof (N d (j - 1)%Z ltac:(lia)). pose proof (N (j + 1)%Z (a + b)%Z ltac:(lia)). cbv beta. lra. }
  assert (1 <= IZR (2 * j + 1)) by (apply (IZR_le 1); lia). pose proof (Rle_0_sqr (g j)) as Q. unfold Rsqr in Q.
  assert (g j * g j <= 1). { eapply Rle_trans; [|exact T]. rewrite <- (Rmult_1_l (g j * g j)) at 1. apply Rmult_le_compat_r; auto. }
  apply Rabs_le. split; nra.
Qed.

(** the first step of the upward recurrence shrinks *)
Lemma g_second : (d + 4 <= a + b)%Z -> 3 * (g (d + 2) * g (d + 2)) <= 2 * (g d * g d).
Proof.
  intros H. assert (0 <= d)%Z by (unfold d; lia). assert (S : (a + b + 1 = s)%Z) by reflexivity.
  pose proof (g_sq (d + 1) ltac:(lia)) as E. replace (d + 1 - 1)%Z with d in E by lia. replace (d + 1 + 1)%Z with (d + 2)%Z in E by lia.
  pose proof (P0_pos (d + 2) ltac:(lia)) as P. assert (C : (3 * P0 (d + 1) <= 2 * P0 (d + 2))%Z).
  { rewrite !P0_eq. replace (3 * ((d + 1 - d) * (d + 1 + d) * ((s - (d + 1)) * (s + (d + 1)))))%Z with ((2 * d + 1) * (s + d + 1) * (3 * (s - d - 1)))%Z by ring.
    replace (2 * ((d + 2 - d) * (d + 2 + d) * ((s - (d + 2)) * (s + (d + 2)))))%Z with ((2 * d + 2) * (s + d + 2) * (4 * (s - d - 2)))%Z by ring.
    apply Z.mul_le_mono_nonneg; [nia|nia|lia|lia]. }
  apply IZR_lt in P. apply IZR_le in C. rewrite !mult_IZR in C.
  apply (Rmult_le_reg_r (IZR (P0 (d + 2)))); auto.
  replace (3 * (g (d + 2) * g (d + 2)) * IZR (P0 (d + 2))) with (3 * (g (d + 2) * g (d + 2) * IZR (P0 (d + 2)))) by ring. rewrite <- E.
  replace (3 * (g d * g d * IZR (P0 (d + 1)))) with (g d * g d * (3 * IZR (P0 (d + 1)))) by ring.
  replace (2 * (g d * g d) * IZR (P0 (d + 2))) with (g d * g d * (2 * IZR (P0 (d + 2)))) by ring.
  apply Rmult_le_compat_l; [apply Rle_0_sqr|auto].
Qed.
End Zero.
