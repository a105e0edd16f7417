(** Inequalities for the recurrence coefficients: the ratio loops of the calculator cannot both run past each other, and
    the coefficients grow over the first half of the range. *)
From Coq Require Import ZArith Reals Lia Lra Psatz Bool.
From Verif Require Import Fact RSum ThreeJSpec ThreeJ ThreeJ2 ThreeJ3.
Local Open Scope R_scope.

Lemma le_of_sqr x y : 0 <= y -> x * x <= y * y -> x <= y.
Proof. intros Hy H. apply Rsqr_incr_0_var; auto. Qed.

Section Chord.
Variables p q b x0 x1 x2 x3 : R.
Hypotheses (Hp : p <= x0) (Hq : q <= x0) (H01 : x0 < x1) (H12 : x1 < x2) (H23 : x2 < x3) (H3 : x3 <= b).
Let f x := sqrt ((x - p) * (x - q)).
Let g x := sqrt (b - x).

Lemma f_sqr x : x0 <= x -> f x * f x = (x - p) * (x - q).
Proof. intros. unfold f. apply sqrt_sqrt. apply Rmult_le_pos; lra. Qed.
Lemma f_nonneg x : 0 <= f x.
Proof. apply sqrt_pos. Qed.
Lemma f_pos x : x0 < x -> 0 < f x.
Proof. intros. unfold f. apply sqrt_lt_R0. apply Rmult_lt_0_compat; lra. Qed.
Lemma f_mono x y : x0 <= x -> x <= y -> f x <= f y.
Proof. intros. unfold f. apply sqrt_le_1_alt. apply Rmult_le_compat; lra. Qed.
Lemma g_sqr x : x <= b -> g x * g x = b - x.
Proof. intros. unfold g. apply sqrt_sqrt. lra. Qed.
Lemma g_mono x y : x <= y -> g y <= g x.
Proof. intros. unfold g. apply sqrt_le_1_alt. lra. Qed.
Lemma g_pos x : x < b -> 0 < g x.
Proof. intros. unfold g. apply sqrt_lt_R0. lra. Qed.
Lemma g_nonneg x : 0 <= g x.
Proof. apply sqrt_pos. Qed.

Lemma uf x y : x0 <= x -> x <= y -> (2 * y - p - q) * f x <= (2 * x - p - q) * f y.
Proof.
  intros Hx Hy. apply le_of_sqr.
  - apply Rmult_le_pos; [lra|apply f_nonneg].
  - replace ((2 * y - p - q) * f x * ((2 * y - p - q) * f x)) with ((2 * y - p - q) * (2 * y - p - q) * (f x * f x)) by ring.
    replace ((2 * x - p - q) * f y * ((2 * x - p - q) * f y)) with ((2 * x - p - q) * (2 * x - p - q) * (f y * f y)) by ring.
    rewrite !f_sqr by lra.
    assert (0 <= (p - q) * (p - q) * ((y - x) * (y + x - p - q))).
    { apply Rmult_le_pos; [apply Rle_0_sqr|apply Rmult_le_pos; lra]. }
    nra.
Qed.

Lemma chord : (f x3 * g x3 - f x2 * g x2) * (x1 - x0) < (f x1 * g x1 - f x0 * g x0) * (x3 - x2).
Proof.
  pose proof (f_sqr x0 ltac:(lra)) as F0. pose proof (f_sqr x1 ltac:(lra)) as F1.
  pose proof (f_sqr x2 ltac:(lra)) as F2. pose proof (f_sqr x3 ltac:(lra)) as F3.
  pose proof (g_sqr x0 ltac:(lra)) as G0. pose proof (g_sqr x1 ltac:(lra)) as G1.
  pose proof (g_sqr x2 ltac:(lra)) as G2. pose proof (g_sqr x3 ltac:(lra)) as G3.
  pose proof (uf x0 x2 ltac:(lra) ltac:(lra)) as U02. pose proof (uf x0 x3 ltac:(lra) ltac:(lra)) as U03.
  pose proof (uf x1 x2 ltac:(lra) ltac:(lra)) as U12. pose proof (uf x1 x3 ltac:(lra) ltac:(lra)) as U13.
  pose proof (f_nonneg x0) as P0. pose proof (f_pos x1 ltac:(lra)) as P1.
  pose proof (f_pos x2 ltac:(lra)) as P2. pose proof (f_pos x3 ltac:(lra)) as P3.
  pose proof (g_pos x0 ltac:(lra)) as Q0. pose proof (g_pos x1 ltac:(lra)) as Q1.
  pose proof (g_pos x2 ltac:(lra)) as Q2. pose proof (g_nonneg x3) as Q3.
  pose proof (f_mono x0 x3 ltac:(lra) ltac:(lra)) as M03.
  pose proof (g_mono x0 x2 ltac:(lra)) as N02. pose proof (g_mono x1 x2 ltac:(lra)) as N12. pose proof (g_mono x1 x3 ltac:(lra)) as N13.
  assert (M : f x0 < f x3).
  { destruct M03 as [M|M]; auto. exfalso. rewrite <- M in F3. assert ((x3 - p) * (x3 - q) = (x0 - p) * (x0 - q)) by lra.
    assert (0 < (x3 - x0) * (x3 + x0 - p - q)) by (apply Rmult_lt_0_compat; lra). nra. }
  set (f0 := f x0) in *. set (f1 := f x1) in *. set (f2 := f x2) in *. set (f3 := f x3) in *.
  set (g0 := g x0) in *. set (g1 := g x1) in *. set (g2 := g x2) in *. set (g3 := g x3) in *.
  set (dx := x1 - x0). set (dy := x3 - x2). assert (Hdx : 0 < dx) by (unfold dx; lra). assert (Hdy : 0 < dy) by (unfold dy; lra).
  set (s01 := x0 + x1 - p - q). set (s23 := x2 + x3 - p - q).
  assert (Hs01 : 0 < s01) by (unfold s01; lra). assert (Hs23 : 0 < s23) by (unfold s23; lra).
  set (a := / (f0 + f1)). set (c := / (f2 + f3)). set (d := / (g0 + g1)). set (e := / (g2 + g3)).
  assert (Ea : f1 - f0 = s01 * a * dx).
  { unfold a. apply (Rmult_eq_reg_r (f0 + f1)); [|lra]. unfold s01, dx.
    replace ((x0 + x1 - p - q) * / (f0 + f1) * (x1 - x0) * (f0 + f1)) with ((x0 + x1 - p - q) * (x1 - x0)) by (field; lra). lra. }
  assert (Ec : f3 - f2 = s23 * c * dy).
  { unfold c. apply (Rmult_eq_reg_r (f2 + f3)); [|lra]. unfold s23, dy.
    replace ((x2 + x3 - p - q) * / (f2 + f3) * (x3 - x2) * (f2 + f3)) with ((x2 + x3 - p - q) * (x3 - x2)) by (field; lra). lra. }
  assert (Ed : g1 - g0 = - d * dx).
  { unfold d. apply (Rmult_eq_reg_r (g0 + g1)); [|lra]. unfold dx.
    replace (- / (g0 + g1) * (x1 - x0) * (g0 + g1)) with (- (x1 - x0)) by (field; lra). lra. }
  assert (Ee : g3 - g2 = - e * dy).
  { unfold e. apply (Rmult_eq_reg_r (g2 + g3)); [|lra]. unfold dy.
    replace (- / (g2 + g3) * (x3 - x2) * (g2 + g3)) with (- (x3 - x2)) by (field; lra). lra. }
  assert (Ha : 0 < a) by (apply Rinv_0_lt_compat; lra). assert (Hc : 0 < c) by (apply Rinv_0_lt_compat; lra).
  assert (Hd : 0 < d) by (apply Rinv_0_lt_compat; lra). assert (He : 0 < e) by (apply Rinv_0_lt_compat; lra).
  assert (Hac : s23 * c <= s01 * a).
  { assert (K : s23 * (f0 + f1) <= s01 * (f2 + f3)) by (unfold s23, s01; lra).
    unfold a, c. apply (Rmult_le_reg_r ((f0 + f1) * (f2 + f3))); [apply Rmult_lt_0_compat; lra|].
    replace (s23 * / (f2 + f3) * ((f0 + f1) * (f2 + f3))) with (s23 * (f0 + f1)) by (field; lra).
    replace (s01 * / (f0 + f1) * ((f0 + f1) * (f2 + f3))) with (s01 * (f2 + f3)) by (field; lra). auto. }
  assert (Hde : d <= e) by (apply Rinv_le_contravar; lra).
  assert (D1 : f1 * g1 - f0 * g0 = dx * (s01 * a * g1 - f0 * d)).
  { replace (f1 * g1 - f0 * g0) with ((f1 - f0) * g1 + f0 * (g1 - g0)) by ring. rewrite Ea, Ed. ring. }
  assert (D2 : f3 * g3 - f2 * g2 = dy * (s23 * c * g2 - f3 * e)).
  { replace (f3 * g3 - f2 * g2) with ((f3 - f2) * g2 + f3 * (g3 - g2)) by ring. rewrite Ec, Ee. ring. }
  fold dx dy. rewrite D1, D2.
  assert (I1 : s23 * c * g2 <= s01 * a * g1).
  { apply Rmult_le_compat; try lra. apply Rlt_le, Rmult_lt_0_compat; lra. }
  assert (I2 : f0 * d < f3 * e).
  { apply Rle_lt_trans with (f0 * e). apply Rmult_le_compat_l; lra. apply Rmult_lt_compat_r; lra. }
  assert (0 < dx * dy) by (apply Rmult_lt_0_compat; lra).
  replace (dy * (s23 * c * g2 - f3 * e) * dx) with (dx * dy * (s23 * c * g2 - f3 * e)) by ring.
  replace (dx * (s01 * a * g1 - f0 * d) * dy) with (dx * dy * (s01 * a * g1 - f0 * d)) by ring.
  apply Rmult_lt_compat_l; lra.
Qed.
End Chord.

Section Coefs.
Variables a b m n : Z.
Hypotheses (Hm : (Z.abs m <= a)%Z) (Hn : (Z.abs n <= b)%Z).
Let jmin := jlo a b m n.
Let jmax := (a + b)%Z.

Definition xx (j : Z) : R := IZR j * Aq (j + 1) a b (m + n).
Definition yy (j : Z) : R := IZR (Bq j a b m n).
Definition zz (j : Z) : R := IZR (j + 1) * Aq j a b (m + n).
Definition gg (j : Z) : R := GG a b m n j.

Lemma jmin_nonneg : (0 <= jmin)%Z.
Proof. unfold jmin, jlo. lia. Qed.
Lemma jmin_le : (jmin <= jmax)%Z.
Proof. unfold jmin, jlo, jmax. lia. Qed.

Lemma gg_rec j : (jmin <= j <= jmax)%Z -> xx j * gg (j + 1) + yy j * gg j + zz j * gg (j - 1) = 0.
Proof. intros. unfold xx, yy, zz, gg. apply GG_recurrence; auto. Qed.

Lemma xx_pos j : (jmin <= j < jmax)%Z -> (0 < j)%Z -> 0 < xx j.
Proof. intros. unfold xx. apply Rmult_lt_0_compat; [apply IZR_lt; lia|apply Aq_pos; unfold jmin, jmax in *; lia]. Qed.
Lemma zz_pos j : (jmin < j <= jmax)%Z -> 0 < zz j.
Proof.
  intros. pose proof jmin_nonneg. unfold zz. apply Rmult_lt_0_compat; [apply IZR_lt; lia|apply Aq_pos; unfold jmin, jmax in *; lia].
Qed.
Lemma zz_jmin : zz jmin = 0.
Proof. unfold zz, jmin. rewrite Aq_jlo. ring. Qed.
Lemma xx_jmax : xx jmax = 0.
Proof. unfold xx, jmax. rewrite Aq_top. ring. Qed.
Lemma xx_0 : xx 0 = 0.
Proof. unfold xx. ring. Qed.
Lemma yy_0 : jmin = 0%Z -> yy 0 = 0.
Proof. unfold jmin, jlo, yy, Bq. intros. replace (m + n)%Z with 0%Z by lia. replace (_ * _)%Z with 0%Z by ring. auto. Qed.

Lemma gg_top : gg jmax <> 0.
Proof. apply GG_top_neq0; auto. Qed.

(** no two neighbouring symbols vanish *)
Lemma gg_consec j : (jmin <= j < jmax)%Z -> gg j = 0 -> gg (j + 1) = 0 -> False.
Proof.
  intros Hj H0 H1. apply gg_top. pose proof jmin_nonneg as Hp.
  assert (S : forall d, (0 <= d)%Z -> (j + 1 + d <= jmax)%Z -> gg (j + d) = 0 /\ gg (j + 1 + d) = 0).
  { intros d Hd. pattern d. apply natlike_ind; auto; clear d Hd.
    - intros _. rewrite !Z.add_0_r. auto.
    - intros d Hd IH Hle. unfold Z.succ in *. destruct IH as [I0 I1]; [lia|].
      replace (j + (d + 1))%Z with (j + 1 + d)%Z by lia. split; auto.
      pose proof (gg_rec (j + 1 + d) ltac:(lia)) as E.
      replace (j + 1 + d - 1)%Z with (j + d)%Z in E by lia. rewrite I0, I1 in E.
      pose proof (xx_pos (j + 1 + d) ltac:(lia) ltac:(lia)).
      replace (j + 1 + (d + 1))%Z with (j + 1 + d + 1)%Z by lia.
      apply (Rmult_eq_reg_l (xx (j + 1 + d))); [|lra]. lra. }
  destruct (S (jmax - j - 1)%Z) as [_ E]; try lia. replace (j + 1 + (jmax - j - 1))%Z with jmax in E by lia. auto.
Qed.

Lemma gg_bottom : gg jmin <> 0.
Proof.
  pose proof jmin_nonneg as Hp. pose proof jmin_le. intros E.
  destruct (Z.eq_dec jmin jmax) as [Q|Q]. { rewrite Q in E. now apply gg_top. }
  apply (gg_consec jmin); try lia; auto.
  destruct (Z.eq_dec jmin 0) as [J0|J0].
  - pose proof (GG_01 a b m n Hm Hn J0 ltac:(unfold jmax in *; lia)) as F. fold (gg 0) (gg 1) in F.
    rewrite J0 in E |- *. rewrite E in F. change (0 + 1)%Z with 1%Z.
    pose proof (Aq_pos 1 a b m n ltac:(fold jmin; unfold jmax in *; lia)).
    apply (Rmult_eq_reg_l (Aq 1 a b (m + n))); lra.
  - pose proof (gg_rec jmin ltac:(lia)) as F. rewrite E, zz_jmin in F. pose proof (xx_pos jmin ltac:(lia) ltac:(lia)).
    apply (Rmult_eq_reg_l (xx jmin)); lra.
Qed.

(** with all projections zero, every other symbol vanishes *)
Lemma gg_zero_min : m = 0%Z -> n = 0%Z -> (jmin < jmax)%Z -> gg (jmin + 1) = 0.
Proof.
  intros M0 N0 Hlt. pose proof jmin_nonneg as Hp.
  destruct (Z.eq_dec jmin 0) as [J0|J0].
  - pose proof (GG_01 a b m n Hm Hn J0 ltac:(unfold jmax in *; lia)) as F. fold (gg 0) (gg 1) in F.
    rewrite J0. change (0 + 1)%Z with 1%Z. replace (IZR (m - n)) with 0 in F by (rewrite M0, N0; auto).
    pose proof (Aq_pos 1 a b m n ltac:(fold jmin; unfold jmax in *; lia)).
    apply (Rmult_eq_reg_l (Aq 1 a b (m + n))); lra.
  - pose proof (gg_rec jmin ltac:(lia)) as F. rewrite zz_jmin in F. pose proof (xx_pos jmin ltac:(lia) ltac:(lia)).
    replace (yy jmin) with 0 in F. apply (Rmult_eq_reg_l (xx jmin)); lra.
    unfold yy, Bq. rewrite M0, N0. f_equal. ring.
Qed.

(** concavity of the coefficient sum *)
Definition TT (j : Z) : R := xx j + yy j + zz j.

Lemma Aq_x j : (jmin <= j <= jmax + 1)%Z ->
  Aq j a b (m + n) = sqrt ((IZR (j * j) - IZR ((a - b) * (a - b))) * (IZR (j * j) - IZR ((m + n) * (m + n))))
                     * sqrt (IZR ((a + b + 1) * (a + b + 1)) - IZR (j * j)).
Proof.
  intros H. unfold Aq, A2. rewrite <- !minus_IZR, <- mult_IZR.
  rewrite <- sqrt_mult_alt.
  - f_equal. rewrite <- mult_IZR. f_equal. ring.
  - apply IZR_le. unfold jmin, jlo in *. apply Z.mul_nonneg_nonneg; apply diff_sq_nonneg; lia.
Qed.

Lemma A_slope j : (jmin <= j - 1)%Z -> (j + 1 <= jmax)%Z ->
  (Aq (j + 2) a b (m + n) - Aq (j + 1) a b (m + n)) * IZR (2 * j - 1)
  < (Aq j a b (m + n) - Aq (j - 1) a b (m + n)) * IZR (2 * j + 3).
Proof.
  intros H1 H2. pose proof jmin_nonneg as Hp.
  pose proof (chord (IZR ((a - b) * (a - b))) (IZR ((m + n) * (m + n))) (IZR ((a + b + 1) * (a + b + 1)))
    (IZR ((j - 1) * (j - 1))) (IZR (j * j)) (IZR ((j + 1) * (j + 1))) (IZR ((j + 2) * (j + 2)))) as C.
  cbv zeta in C.
  rewrite (Aq_x (j + 2)), (Aq_x (j + 1)), (Aq_x j), (Aq_x (j - 1)) by lia.
  replace (IZR (2 * j - 1)) with (IZR (j * j) - IZR ((j - 1) * (j - 1))) by (rewrite <- minus_IZR; f_equal; ring).
  replace (IZR (2 * j + 3)) with (IZR ((j + 2) * (j + 2)) - IZR ((j + 1) * (j + 1))) by (rewrite <- minus_IZR; f_equal; ring).
  unfold jmin, jlo, jmax in *.
  apply C; try (apply IZR_lt; lia); apply IZR_le.
  - pose proof (diff_sq_nonneg (j - 1) (a - b) ltac:(lia)). lia.
  - pose proof (diff_sq_nonneg (j - 1) (m + n) ltac:(lia)). lia.
  - pose proof (diff_sq_nonneg (a + b + 1) (j + 2) ltac:(lia)). lia.
Qed.

Lemma TT_concave j : (jmin <= j - 1)%Z -> (1 <= j - 1)%Z -> (j + 1 <= jmax)%Z ->
  TT (j + 1) / (IZR (j + 1) * IZR (2 * j + 3)) + TT (j - 1) / (IZR j * IZR (2 * j - 1)) < TT j / (IZR j * IZR (j + 1)).
Proof.
  intros H1 H2 H3. pose proof (A_slope j H1 H3) as S.
  unfold TT, xx, yy, zz.
  replace (j + 1 + 1)%Z with (j + 2)%Z by lia. replace (j - 1 + 1)%Z with j by lia.
  set (A0 := Aq (j - 1) a b (m + n)) in *. set (A1 := Aq j a b (m + n)) in *.
  set (A2_ := Aq (j + 1) a b (m + n)) in *. set (A3 := Aq (j + 2) a b (m + n)) in *.
  set (K := ((m + n) * (a * (a + 1) - b * (b + 1)))%Z).
  assert (Y : forall i, IZR (Bq i a b m n) = IZR (2 * i + 1) * (IZR K - IZR (m - n) * IZR i * IZR (i + 1))).
  { intros i. unfold Bq. fold K. rewrite !mult_IZR, !minus_IZR, !mult_IZR, !minus_IZR. ring. }
  rewrite !Y. replace (j + 1 + 1)%Z with (j + 2)%Z by lia. replace (j - 1 + 1)%Z with j by lia.
  replace (2 * (j + 1) + 1)%Z with (2 * j + 3)%Z by lia. replace (2 * (j - 1) + 1)%Z with (2 * j - 1)%Z by lia.
  rewrite !(plus_IZR j), !(minus_IZR j), !plus_IZR, !minus_IZR, !mult_IZR in *.
  assert (Hx : 2 <= IZR j) by (apply IZR_le; lia).
  set (x := IZR j) in *. set (k := IZR K). set (e := IZR m - IZR n).
  match goal with |- ?L < ?R => cut (0 < R - L); [lra|] end.
  match goal with |- 0 < ?G => replace G with (((A1 - A0) * (2 * x + 3) - (A3 - A2_) * (2 * x - 1)) / ((2 * x + 3) * (2 * x - 1))) end.
  - apply Rdiv_lt_0_compat; [lra|]. apply Rmult_lt_0_compat; lra.
  - field. repeat split; lra.
Qed.

(** the two ratio loops cannot overlap *)
Lemma no_overlap k (sf rf : Z -> R) :
  (1 <= jmin)%Z -> (jmin + 2 <= k)%Z -> (k + 1 < jmax)%Z ->
  (forall i, (jmin <= i <= k)%Z -> 0 < sf i /\ sf i * gg (i + 1) = gg i) ->
  (forall i, (jmin < i <= k)%Z -> sf i <= 1) ->
  (forall i, (k <= i <= jmax)%Z -> 0 < rf i /\ rf i * gg (i - 1) = gg i) ->
  (forall i, (k <= i < jmax)%Z -> rf i <= 1) -> False.
Proof.
  intros J1 K1 K2 S1 S2 R1 R2.
  assert (NZ : gg k <> 0).
  { intros E. destruct (S1 (k - 1)%Z ltac:(lia)) as [_ E1]. replace (k - 1 + 1)%Z with k in E1 by lia.
    rewrite E, Rmult_0_r in E1. apply (gg_consec (k - 1)); try lia; auto. now replace (k - 1 + 1)%Z with k by lia. }
  assert (pair : forall s r u v, 0 < s <= 1 -> 0 < r <= 1 -> s * v = u -> r * u = v -> u <> 0 -> s = 1 /\ u = v).
  { intros s r u v Hs Hr E1 E2 Hu.
    assert (E : (s * r) * u = 1 * u) by (rewrite <- E1 at 2; rewrite <- E2; ring).
    apply Rmult_eq_reg_r in E; auto.
    assert (s = 1). { destruct Hs as [Hs1 [Hs2|Hs2]]; auto. exfalso. assert (s * r < 1 * 1) by (apply Rmult_le_0_lt_compat_weak || nra). lra. }
    split; auto. rewrite <- E1, H. ring. }
  destruct (S1 k ltac:(lia)) as [Sk1 Sk2]. pose proof (S2 k ltac:(lia)) as Sk3.
  destruct (R1 (k + 1)%Z ltac:(lia)) as [Rk1 Rk2]. pose proof (R2 (k + 1)%Z ltac:(lia)) as Rk3.
  replace (k + 1 - 1)%Z with k in Rk2 by lia.
  destruct (pair (sf k) (rf (k + 1)%Z) (gg k) (gg (k + 1)%Z)) as [_ Ekp]; auto.
  destruct (S1 (k - 1)%Z ltac:(lia)) as [Sl1 Sl2]. pose proof (S2 (k - 1)%Z ltac:(lia)) as Sl3.
  replace (k - 1 + 1)%Z with k in Sl2 by lia.
  destruct (R1 k ltac:(lia)) as [Rl1 Rl2]. pose proof (R2 k ltac:(lia)) as Rl3.
  assert (NZ1 : gg (k - 1) <> 0) by (rewrite <- Sl2; apply Rmult_integral_contrapositive_currified; lra).
  destruct (pair (sf (k - 1)%Z) (rf k) (gg (k - 1)%Z) (gg k)) as [_ Ekm]; auto.
  assert (T0 : TT k = 0).
  { pose proof (gg_rec k ltac:(lia)) as E. rewrite <- Ekp, Ekm in E. unfold TT.
    apply (Rmult_eq_reg_r (gg k)); auto. lra. }
  assert (Hcon : forall j, (jmin <= j - 1)%Z -> (1 <= j - 1)%Z -> (j + 1 <= jmax)%Z -> 0 <= TT (j - 1) -> 0 <= TT (j + 1) -> TT j <= 0 -> False).
  { intros j A1 A2_ A3 P1 P2 P3. pose proof (TT_concave j A1 A2_ A3) as C.
    assert (Q1 : 0 < IZR j) by (apply IZR_lt; lia). assert (Q2 : 0 < IZR (j + 1)) by (apply IZR_lt; lia).
    assert (Q3 : 0 < IZR (2 * j + 3)) by (apply IZR_lt; lia). assert (Q4 : 0 < IZR (2 * j - 1)) by (apply IZR_lt; lia).
    assert (B1 : 0 <= TT (j + 1) / (IZR (j + 1) * IZR (2 * j + 3))).
    { apply Rmult_le_pos; auto. apply Rlt_le, Rinv_0_lt_compat, Rmult_lt_0_compat; auto. }
    assert (B2 : 0 <= TT (j - 1) / (IZR j * IZR (2 * j - 1))).
    { apply Rmult_le_pos; auto. apply Rlt_le, Rinv_0_lt_compat, Rmult_lt_0_compat; auto. }
    assert (B3 : 0 <= - TT j / (IZR j * IZR (j + 1))).
    { apply Rmult_le_pos; [lra|]. apply Rlt_le, Rinv_0_lt_compat, Rmult_lt_0_compat; auto. }
    unfold Rdiv in *. lra. }
  (* left neighbour *)
  assert (TL : 0 <= TT (k - 1)).
  { destruct (Rle_lt_dec 0 (TT (k - 1))) as [|Neg]; auto. exfalso.
    destruct (S1 (k - 2)%Z ltac:(lia)) as [P E]. replace (k - 2 + 1)%Z with (k - 1)%Z in E by lia.
    pose proof (gg_rec (k - 1) ltac:(lia)) as F. replace (k - 1 + 1)%Z with k in F by lia.
    replace (k - 1 - 1)%Z with (k - 2)%Z in F by lia. rewrite <- E, <- Ekm in F.
    pose proof (zz_pos (k - 1) ltac:(lia)) as Zp.
    assert (F' : TT (k - 1) = zz (k - 1) * (1 - sf (k - 2)%Z)).
    { unfold TT. apply (Rmult_eq_reg_r (gg (k - 1))); auto. lra. }
    assert (sf (k - 2)%Z > 1).
    { destruct (Rle_lt_dec (sf (k - 2)%Z) 1); auto. exfalso.
      assert (0 <= zz (k - 1) * (1 - sf (k - 2)%Z)) by (apply Rmult_le_pos; lra). lra. }
    destruct (Z.eq_dec (k - 2) jmin) as [Q|Q].
    2:{ pose proof (S2 (k - 2)%Z ltac:(lia)). lra. }
    apply (Hcon (k - 1)%Z); try lia; try lra.
    - replace (k - 1 - 1)%Z with (k - 2)%Z by lia.
      pose proof (gg_rec (k - 2) ltac:(lia)) as G. rewrite Q, zz_jmin, <- Q in G.
      replace (k - 2 + 1)%Z with (k - 1)%Z in G by lia. rewrite <- E in G.
      pose proof (xx_pos (k - 2) ltac:(lia) ltac:(lia)) as Xp.
      assert (G' : xx (k - 2) + yy (k - 2) * sf (k - 2)%Z = 0) by (apply (Rmult_eq_reg_r (gg (k - 1))); auto; lra).
      unfold TT. rewrite Q at 3. rewrite zz_jmin.
      assert (0 < xx (k - 2) + yy (k - 2)); [|lra].
      apply (Rmult_lt_reg_r (sf (k - 2)%Z)); [lra|].
      replace ((xx (k - 2) + yy (k - 2)) * sf (k - 2)%Z) with (xx (k - 2) * sf (k - 2)%Z - xx (k - 2)) by lra.
      assert (xx (k - 2) * 1 < xx (k - 2) * sf (k - 2)%Z) by (apply Rmult_lt_compat_l; lra). lra.
    - replace (k - 1 + 1)%Z with k by lia. lra. }
  assert (TR : 0 <= TT (k + 1)).
  { destruct (Rle_lt_dec 0 (TT (k + 1))) as [|Neg]; auto. exfalso.
    destruct (R1 (k + 2)%Z ltac:(lia)) as [P E]. replace (k + 2 - 1)%Z with (k + 1)%Z in E by lia.
    pose proof (gg_rec (k + 1) ltac:(lia)) as F. replace (k + 1 - 1)%Z with k in F by lia.
    replace (k + 1 + 1)%Z with (k + 2)%Z in F by lia. rewrite <- E, Ekp in F.
    assert (NZ2 : gg (k + 1) <> 0) by (rewrite <- Ekp; auto).
    pose proof (xx_pos (k + 1) ltac:(lia) ltac:(lia)) as Xp.
    assert (F' : TT (k + 1) = xx (k + 1) * (1 - rf (k + 2)%Z)).
    { unfold TT. apply (Rmult_eq_reg_r (gg (k + 1))); auto. lra. }
    assert (rf (k + 2)%Z > 1).
    { destruct (Rle_lt_dec (rf (k + 2)%Z) 1); auto. exfalso.
      assert (0 <= xx (k + 1) * (1 - rf (k + 2)%Z)) by (apply Rmult_le_pos; lra). lra. }
    destruct (Z.eq_dec (k + 2) jmax) as [Q|Q].
    2:{ pose proof (R2 (k + 2)%Z ltac:(lia)). lra. }
    apply (Hcon (k + 1)%Z); try lia; try lra.
    - replace (k + 1 - 1)%Z with k by lia. lra.
    - replace (k + 1 + 1)%Z with (k + 2)%Z by lia.
      pose proof (gg_rec (k + 2) ltac:(lia)) as G. rewrite Q, xx_jmax, <- Q in G.
      replace (k + 2 - 1)%Z with (k + 1)%Z in G by lia. rewrite <- E in G.
      pose proof (zz_pos (k + 2) ltac:(lia)) as Zp.
      assert (G' : zz (k + 2) + yy (k + 2) * rf (k + 2)%Z = 0) by (apply (Rmult_eq_reg_r (gg (k + 1))); auto; lra).
      unfold TT. rewrite Q at 1. rewrite xx_jmax.
      assert (0 < zz (k + 2) + yy (k + 2)); [|lra].
      apply (Rmult_lt_reg_r (rf (k + 2)%Z)); [lra|].
      replace ((zz (k + 2) + yy (k + 2)) * rf (k + 2)%Z) with (zz (k + 2) * rf (k + 2)%Z - zz (k + 2)) by lra.
      assert (zz (k + 2) * 1 < zz (k + 2) * rf (k + 2)%Z) by (apply Rmult_lt_compat_l; lra). lra. }
  apply (Hcon k); try lia; lra.
Qed.

(** the coefficients grow over the first half of the range *)
Lemma A2_growth k : (jmin < k)%Z -> (2 * k + 2 <= jmin + jmax)%Z ->
  ((k + 1) * (k + 1) * A2 k a b (m + n) < k * k * A2 (k + 1) a b (m + n))%Z.
Proof.
  intros H1 H2. pose proof jmin_nonneg as Hp.
  set (lo := Z.min (Z.abs (a - b)) (Z.abs (m + n))).
  assert (Hlo : (0 <= lo <= jmin)%Z) by (unfold lo, jmin, jlo; lia).
  assert (F : forall x, ((x * x - (a - b) * (a - b)) * (x * x - (m + n) * (m + n)) = (x * x - jmin * jmin) * (x * x - lo * lo))%Z).
  { intros x. unfold jmin, jlo, lo. destruct (Z_le_gt_dec (Z.abs (a - b)) (Z.abs (m + n))).
    - rewrite Z.max_r, Z.min_l by lia. rewrite !Z.abs_square. ring.
    - rewrite Z.max_l, Z.min_r by lia. rewrite !Z.abs_square. ring. }
  assert (G : forall x, A2 x a b (m + n) = ((x * x - jmin * jmin) * (x * x - lo * lo) * ((jmax + 1) * (jmax + 1) - x * x))%Z).
  { intros x. rewrite <- F. unfold A2, jmax. ring. }
  rewrite !G.
  set (x := (k * k)%Z). set (x' := ((k + 1) * (k + 1))%Z). set (p := (jmin * jmin)%Z). set (q := (lo * lo)%Z). set (B := ((jmax + 1) * (jmax + 1))%Z).
  assert (X1 : (p < x)%Z) by (unfold p, x; pose proof (diff_sq_pos k jmin ltac:(lia)); lia).
  assert (X2 : (x < x')%Z) by (unfold x, x'; lia).
  assert (X3 : (0 <= q <= p)%Z) by (unfold p, q; pose proof (diff_sq_nonneg jmin lo ltac:(lia)); split; [apply Z.square_nonneg|lia]).
  assert (X4 : (x' < B)%Z) by (unfold x', B; pose proof (diff_sq_pos (jmax + 1) (k + 1) ltac:(lia)); lia).
  assert (X5 : (x + x' < p + B)%Z).
  { unfold x, x', p, B. pose proof (diff_sq_pos (jmin + jmax + 1) (2 * k + 1) ltac:(lia)) as E1.
    pose proof (diff_sq_nonneg (jmax + 1 - jmin) 1 ltac:(lia)) as E2. lia. }
  assert (L1 : ((x - p) * (B - x) < (x' - p) * (B - x'))%Z).
  { assert (0 < (x' - x) * (p + B - x - x'))%Z by (apply Z.mul_pos_pos; lia). lia. }
  assert (L0 : (0 < (x - p) * (B - x))%Z) by (apply Z.mul_pos_pos; lia).
  assert (L2 : (x' * (x - q) <= x * (x' - q))%Z).
  { assert (K : (0 <= q * (x' - x))%Z) by (apply Z.mul_nonneg_nonneg; lia). clearbody x x' q. clear - K. lia. }
  assert (L3 : (0 < x * (x' - q))%Z) by (apply Z.mul_pos_pos; lia).
  replace (x' * ((x - p) * (x - q) * (B - x)))%Z with ((x' * (x - q)) * ((x - p) * (B - x)))%Z by ring.
  replace (x * ((x' - p) * (x' - q) * (B - x')))%Z with ((x * (x' - q)) * ((x' - p) * (B - x')))%Z by ring.
  apply Z.le_lt_trans with ((x * (x' - q)) * ((x - p) * (B - x)))%Z.
  - apply Z.mul_le_mono_nonneg_r; lia.
  - apply Z.mul_lt_mono_pos_l; lia.
Qed.

(** the same comparison for the real coefficients *)
Lemma zz_lt_xx k : (jmin < k < jmax)%Z -> ((k + 1) * (k + 1) * A2 k a b (m + n) < k * k * A2 (k + 1) a b (m + n))%Z -> zz k < xx k.
Proof.
  intros Hk H. pose proof jmin_nonneg as Hp. unfold zz, xx, Aq.
  assert (E : forall c z, (0 <= c)%Z -> (0 <= z)%Z -> IZR c * sqrt (IZR z) = sqrt (IZR (c * c * z))).
  { intros c z Hc Hz. rewrite (mult_IZR (c * c)), sqrt_mult_alt by (apply IZR_le; apply Z.square_nonneg).
    rewrite mult_IZR, sqrt_square by (apply IZR_le; lia). auto. }
  rewrite !E; try lia.
  - apply sqrt_lt_1_alt. split; [|apply IZR_lt; auto]. apply IZR_le. apply Z.mul_nonneg_nonneg; [apply Z.square_nonneg|apply A2_nonneg; unfold jmin, jmax in *; lia].
  - apply A2_nonneg; unfold jmin, jmax in *; lia.
  - apply A2_nonneg; unfold jmin, jmax in *; lia.
Qed.
End Coefs.
