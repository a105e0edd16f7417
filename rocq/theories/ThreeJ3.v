(** The three-term recurrence in j, and orthonormality. *)
From Coq Require Import ZArith Reals Lia Lra Psatz Bool.
From Verif Require Import Fact RSum ThreeJSpec ThreeJ ThreeJ2.
Local Open Scope R_scope.

Definition Aq (j a b M : Z) : R := sqrt (IZR (A2 j a b M)).
Definition GG (a b m n j : Z) : R := threej a b j m n (- m - n).

Lemma diff_sq_nonneg x y : (Z.abs y <= x)%Z -> (0 <= x * x - y * y)%Z.
Proof.
  intros. replace (x * x - y * y)%Z with ((x - y) * (x + y))%Z by ring. apply Z.mul_nonneg_nonneg; lia.
Qed.
Lemma diff_sq_pos x y : (Z.abs y < x)%Z -> (0 < x * x - y * y)%Z.
Proof.
  intros. replace (x * x - y * y)%Z with ((x - y) * (x + y))%Z by ring. apply Z.mul_pos_pos; lia.
Qed.

Lemma A2_nonneg j a b m n : (jlo a b m n <= j <= a + b + 1)%Z -> (0 <= A2 j a b (m + n))%Z.
Proof.
  unfold jlo, A2. intros. apply Z.mul_nonneg_nonneg; [apply Z.mul_nonneg_nonneg|]; apply diff_sq_nonneg; lia.
Qed.
Lemma A2_pos j a b m n : (jlo a b m n < j <= a + b)%Z -> (0 < A2 j a b (m + n))%Z.
Proof.
  unfold jlo, A2. intros. apply Z.mul_pos_pos; [apply Z.mul_pos_pos|]; apply diff_sq_pos; lia.
Qed.
Lemma A2_jlo a b m n : A2 (jlo a b m n) a b (m + n) = 0%Z.
Proof.
  unfold A2, jlo. destruct (Z.max_spec (Z.abs (a - b)) (Z.abs (m + n))) as [[_ ->]|[_ ->]];
    rewrite Z.abs_square; ring.
Qed.
Lemma A2_top a b M : A2 (a + b + 1) a b M = 0%Z.
Proof. unfold A2. ring. Qed.
Lemma Aq_jlo a b m n : Aq (jlo a b m n) a b (m + n) = 0.
Proof. unfold Aq. rewrite A2_jlo. apply sqrt_0. Qed.
Lemma Aq_top a b M : Aq (a + b + 1) a b M = 0.
Proof. unfold Aq. rewrite A2_top. apply sqrt_0. Qed.
Lemma Aq_pos j a b m n : (jlo a b m n < j <= a + b)%Z -> 0 < Aq j a b (m + n).
Proof. intros. unfold Aq. apply sqrt_lt_R0, IZR_lt, A2_pos; auto. Qed.

(** The normalisation factor of the symbol as a function of j. *)
Definition cc2 (a b m n j : Z) : R := tri2 a b j * PP a b j m n (- m - n).
Lemma cc2_pos a b m n j : 0 < cc2 a b m n j.
Proof. unfold cc2. apply Rmult_lt_0_compat; [apply tri2_pos|apply PP_pos]. Qed.

Lemma cc2_step a b m n j : (jlo a b m n <= j < a + b)%Z ->
  cc2 a b m n (j + 1) * IZR ((a + b + 1) * (a + b + 1) - (j + 1) * (j + 1))
  = cc2 a b m n j * IZR (((j + 1) * (j + 1) - (a - b) * (a - b)) * ((j + 1) * (j + 1) - (m + n) * (m + n))).
Proof.
  unfold jlo. intros H. unfold cc2, tri2, PP.
  replace (a - b + (j + 1))%Z with (a - b + j + 1)%Z by lia.
  replace (- a + b + (j + 1))%Z with (- a + b + j + 1)%Z by lia.
  replace (a + b + (j + 1) + 1)%Z with (a + b + j + 1 + 1)%Z by lia.
  replace (j + 1 + (- m - n))%Z with (j + (- m - n) + 1)%Z by lia.
  replace (j + 1 - (- m - n))%Z with (j - (- m - n) + 1)%Z by lia.
  rewrite (fct_succ (a - b + j)), (fct_succ (- a + b + j)), (fct_succ (a + b + j + 1)),
    (fct_succ (j + (- m - n))), (fct_succ (j - (- m - n))) by lia.
  rewrite (fct_pred (a + b - j)) by lia. replace (a + b - j - 1)%Z with (a + b - (j + 1))%Z by lia.
  replace (((a + b + 1) * (a + b + 1) - (j + 1) * (j + 1)))%Z with ((a + b - j) * (a + b + j + 1 + 1))%Z by ring.
  replace (((j + 1) * (j + 1) - (a - b) * (a - b)) * ((j + 1) * (j + 1) - (m + n) * (m + n)))%Z
    with ((a - b + j + 1) * (- a + b + j + 1) * (j + (- m - n) + 1) * (j - (- m - n) + 1))%Z by ring.
  rewrite !mult_IZR.
  assert (IZR (a + b + j + 1 + 1) <> 0) by (apply IZR_neq; lia).
  field. split; [apply fct_neq0|auto].
Qed.

Lemma cc_up a b m n j : (jlo a b m n <= j < a + b)%Z ->
  Aq (j + 1) a b (m + n) * sqrt (cc2 a b m n (j + 1))
  = IZR (((j + 1) * (j + 1) - (a - b) * (a - b)) * ((j + 1) * (j + 1) - (m + n) * (m + n))) * sqrt (cc2 a b m n j).
Proof.
  intros H. unfold Aq. set (K := (((j + 1) * (j + 1) - (a - b) * (a - b)) * ((j + 1) * (j + 1) - (m + n) * (m + n)))%Z).
  assert (HK : (0 <= K)%Z).
  { unfold K, jlo in *. apply Z.mul_nonneg_nonneg; apply diff_sq_nonneg; lia. }
  rewrite <- sqrt_mult_alt by (apply IZR_le, A2_nonneg; lia).
  transitivity (sqrt (Rsqr (IZR K) * cc2 a b m n j)).
  - f_equal. unfold Rsqr. rewrite Rmult_assoc, (Rmult_comm (IZR K) (cc2 _ _ _ _ _)). unfold K at 2.
    rewrite <- cc2_step by auto.
    replace (A2 (j + 1) a b (m + n)) with (K * ((a + b + 1) * (a + b + 1) - (j + 1) * (j + 1)))%Z by (unfold A2, K; ring).
    rewrite mult_IZR. ring.
  - rewrite sqrt_mult_alt by apply Rle_0_sqr. rewrite sqrt_Rsqr by (apply IZR_le; lia). auto.
Qed.

Lemma cc_down a b m n j : (jlo a b m n < j <= a + b)%Z ->
  Aq j a b (m + n) * sqrt (cc2 a b m n (j - 1))
  = IZR ((a + b + 1) * (a + b + 1) - j * j) * sqrt (cc2 a b m n j).
Proof.
  intros H. unfold Aq. set (K := ((a + b + 1) * (a + b + 1) - j * j)%Z).
  assert (HK : (0 <= K)%Z) by (unfold K, jlo in *; apply diff_sq_nonneg; lia).
  rewrite <- sqrt_mult_alt by (apply IZR_le, A2_nonneg; lia).
  transitivity (sqrt (Rsqr (IZR K) * cc2 a b m n j)).
  - f_equal. unfold Rsqr. rewrite Rmult_assoc, (Rmult_comm (IZR K) (cc2 _ _ _ _ _)).
    pose proof (cc2_step a b m n (j - 1) ltac:(lia)) as E. replace (j - 1 + 1)%Z with j in E by lia.
    unfold K at 2. rewrite E.
    replace (A2 j a b (m + n)) with (K * ((j * j - (a - b) * (a - b)) * (j * j - (m + n) * (m + n))))%Z by (unfold A2, K; ring).
    rewrite mult_IZR. ring.
  - rewrite sqrt_mult_alt by apply Rle_0_sqr. rewrite sqrt_Rsqr by (apply IZR_le; lia). auto.
Qed.

Lemma GG_in a b m n j : (Z.abs m <= a)%Z -> (Z.abs n <= b)%Z -> (jlo a b m n <= j <= a + b)%Z ->
  GG a b m n j = sgn (a - b + m + n) * sqrt (cc2 a b m n j) * Sm (a + b - j) (a - m) (b + n) (j - b + m) (j - a - n).
Proof.
  unfold jlo. intros. unfold GG. rewrite threej_in by (unfold tj_allowed; lia). unfold tjU, cc2.
  rewrite sqrt_mult_alt by (apply Rlt_le, tri2_pos).
  replace (a - b - (- m - n))%Z with (a - b + m + n)%Z by lia. ring.
Qed.
Lemma GG_out a b m n j : (j < jlo a b m n \/ a + b < j)%Z -> GG a b m n j = 0.
Proof. unfold jlo. intros. unfold GG. apply threej_out. unfold tj_allowed. lia. Qed.

Lemma GG_recurrence a b m n j : (Z.abs m <= a)%Z -> (Z.abs n <= b)%Z -> (jlo a b m n <= j <= a + b)%Z ->
  IZR j * Aq (j + 1) a b (m + n) * GG a b m n (j + 1) + IZR (Bq j a b m n) * GG a b m n j
  + IZR (j + 1) * Aq j a b (m + n) * GG a b m n (j - 1) = 0.
Proof.
  intros Ha Hb Hj.
  set (sg := sgn (a - b + m + n)). set (c := sqrt (cc2 a b m n j)).
  assert (E1 : IZR j * Aq (j + 1) a b (m + n) * GG a b m n (j + 1)
    = sg * c * (IZR (j * ((j + 1) * (j + 1) - (a - b) * (a - b)) * ((j + 1) * (j + 1) - (m + n) * (m + n)))
    * Sm (a + b - (j + 1)) (a - m) (b + n) (j + 1 - b + m) (j + 1 - a - n))).
  { destruct (Z.eq_dec j (a + b)) as [->|N].
    - rewrite Aq_top, Sm_p_neg by lia. ring.
    - rewrite GG_in by lia. pose proof (cc_up a b m n j ltac:(lia)) as E. fold sg c in E |- *.
      rewrite <- Z.mul_assoc, mult_IZR.
      match goal with |- _ * _ * (sg * ?x * ?y) = _ => transitivity (sg * IZR j * (Aq (j + 1) a b (m + n) * x) * y); [ring|] end.
      rewrite E. ring. }
  assert (E3 : IZR (j + 1) * Aq j a b (m + n) * GG a b m n (j - 1)
    = sg * c * (IZR ((j + 1) * ((a + b + 1) * (a + b + 1) - j * j))
    * Sm (a + b - (j - 1)) (a - m) (b + n) (j - 1 - b + m) (j - 1 - a - n))).
  { destruct (Z.eq_dec j (jlo a b m n)) as [E|N].
    - rewrite E at 2. rewrite Aq_jlo. unfold jlo in *.
      assert (D : (j = Z.abs (a - b) \/ j = Z.abs (m + n))%Z) by lia.
      assert (Z0 : Sm (a + b - (j - 1)) (a - m) (b + n) (j - 1 - b + m) (j - 1 - a - n) = 0).
      { destruct D as [D|D].
        - destruct (Z_le_gt_dec a b); [apply Sm_qs_neg; lia|apply Sm_ru_neg; lia].
        - destruct (Z_le_gt_dec 0 (m + n)); [apply Sm_qu_neg; lia|apply Sm_rs_neg; lia]. }
      rewrite Z0. ring.
    - rewrite GG_in by lia. pose proof (cc_down a b m n j ltac:(lia)) as E. fold sg c in E |- *.
      rewrite mult_IZR.
      match goal with |- _ * _ * (sg * ?x * ?y) = _ => transitivity (sg * IZR (j + 1) * (Aq j a b (m + n) * x) * y); [ring|] end.
      rewrite E. ring. }
  rewrite E1, E3, (GG_in a b m n j) by lia. fold sg c.
  transitivity (sg * c * 0); [|ring]. rewrite <- (Sm_recurrence a b m n j). unfold Bq. ring.
Qed.

(** At [j = 0] the recurrence is void; the first two symbols are related directly. *)
Lemma Sm_01 a m : (Z.abs m <= a)%Z -> (0 < a)%Z ->
  Sm (a + a - 1) (a - m) (a - m) (1 - a + m) (1 - a + m) = IZR (2 * m) * Sm (a + a - 0) (a - m) (a - m) (0 - a + m) (0 - a + m).
Proof.
  intros Hm Ha. set (k := (a - m)%Z).
  replace (1 - a + m)%Z with (1 - k)%Z by lia. replace (0 - a + m)%Z with (- k)%Z by lia.
  assert (E0 : Sm (a + a - 0) k k (- k) (- k) = sgn k * ifct k * ifct (2 * a - k)).
  { rewrite <- (Sm_wide _ _ _ _ _ 0 (2 * a)) by lia. rewrite (rsum_delta 0 (2 * a) k) by
      solve [lia | intros i _ Hi; unfold Tk; destruct (Z_lt_ge_dec i k);
       [rewrite (ifct_neg (- k + i)) by lia|rewrite (ifct_neg (k - i)) by lia]; ring].
    unfold Tk. replace (k - k)%Z with 0%Z by lia. replace (- k + k)%Z with 0%Z by lia. rewrite ifct_0.
    replace (a + a - 0 - k)%Z with (2 * a - k)%Z by lia. ring. }
  assert (E1 : Sm (a + a - 1) k k (1 - k) (1 - k)
    = sgn (k - 1) * ifct (k - 1) * ifct (2 * a - k) + sgn k * ifct k * ifct (2 * a - k - 1)).
  { rewrite <- (Sm_wide _ _ _ _ _ (-1) (2 * a)) by lia.
    rewrite <- (rsum_widen (k - 1) k) by solve [lia | intros i _ Hi; unfold Tk; destruct Hi as [Hi|Hi];
       [rewrite (ifct_neg (1 - k + i)) by lia|rewrite (ifct_neg (k - i)) by lia]; ring].
    rewrite rsum_last, rsum_one by lia. unfold Tk.
    replace (a + a - 1 - (k - 1))%Z with (2 * a - k)%Z by lia. replace (k - (k - 1))%Z with 1%Z by lia.
    replace (1 - k + (k - 1))%Z with 0%Z by lia. replace (a + a - 1 - k)%Z with (2 * a - k - 1)%Z by lia.
    replace (k - k)%Z with 0%Z by lia. replace (1 - k + k)%Z with 1%Z by lia. rewrite ifct_0.
    assert (I1 : ifct 1 = 1) by (rewrite ifct_inv, fct_1 by lia; field). rewrite I1. ring. }
  rewrite E0, E1, sgn_pred, <- (ifct_step k), <- (ifct_step (2 * a - k)).
  replace (2 * m)%Z with (2 * a - k - k)%Z by lia. rewrite (minus_IZR (2 * a - k) k). ring.
Qed.

Lemma GG_01 a b m n : (Z.abs m <= a)%Z -> (Z.abs n <= b)%Z -> (jlo a b m n = 0)%Z -> (0 < a + b)%Z ->
  Aq 1 a b (m + n) * GG a b m n 1 = IZR (m - n) * GG a b m n 0.
Proof.
  intros Hm Hn H0 Hp. unfold jlo in H0. assert (b = a) by lia. assert (n = - m)%Z by lia. subst b n.
  rewrite !GG_in by (unfold jlo; lia).
  pose proof (cc_up a a m (- m) 0 ltac:(unfold jlo; lia)) as E. change (0 + 1)%Z with 1%Z in E.
  replace ((1 * 1 - (a - a) * (a - a)) * (1 * 1 - (m + - m) * (m + - m)))%Z with 1%Z in E by ring.
  replace (a + - m)%Z with (a - m)%Z by lia.
  replace (1 - a - - m)%Z with (1 - a + m)%Z by lia. replace (0 - a - - m)%Z with (0 - a + m)%Z by lia.
  rewrite Sm_01 by lia. replace (m - - m)%Z with (2 * m)%Z by lia.
  match goal with |- Aq 1 a a _ * (?s * ?c * ?r) = _ => transitivity (s * (Aq 1 a a (m + - m) * c) * r); [ring|] end.
  rewrite E. ring.
Qed.

(** ** Columns: different m, summed over j, are orthogonal *)
Lemma cols_orth a b m n m' n' : (m + n = m' + n')%Z -> m <> m' ->
  rsum (jlo a b m n) (a + b) (fun j => IZR (2 * j + 1) * (GG a b m n j * GG a b m' n' j)) = 0.
Proof.
  intros HM Hne.
  destruct (Z_le_gt_dec (Z.abs m) a) as [Hm|]; [|apply rsum_zero; intros; unfold GG; rewrite (threej_out a b i m) by (unfold tj_allowed; lia); ring].
  destruct (Z_le_gt_dec (Z.abs m') a) as [Hm'|]; [|apply rsum_zero; intros; unfold GG; rewrite (threej_out a b i m') by (unfold tj_allowed; lia); ring].
  destruct (Z_le_gt_dec (Z.abs n) b) as [Hn|]; [|apply rsum_zero; intros; unfold GG; rewrite (threej_out a b i m) by (unfold tj_allowed; lia); ring].
  destruct (Z_le_gt_dec (Z.abs n') b) as [Hn'|]; [|apply rsum_zero; intros; unfold GG; rewrite (threej_out a b i m') by (unfold tj_allowed; lia); ring].
  set (g := GG a b m n). set (h := GG a b m' n').
  assert (Hjl : jlo a b m' n' = jlo a b m n) by (unfold jlo; now rewrite HM).
  set (jm := jlo a b m n) in *.
  assert (Hjm : (0 <= jm <= a + b)%Z) by (unfold jm, jlo; lia).
  set (d := ((m - n) - (m' - n'))%Z).
  assert (Hd : IZR d <> 0) by (apply IZR_neq; unfold d; lia).
  set (w := fun j => Aq j a b (m + n) / IZR j * (g j * h (j - 1)%Z - g (j - 1)%Z * h j)).
  assert (step : forall j, (Z.max 1 jm <= j <= a + b)%Z -> IZR d * (IZR (2 * j + 1) * (g j * h j)) = w (j + 1)%Z - w j).
  { intros j Hj. unfold w. replace (j + 1 - 1)%Z with j by lia.
    assert (P : IZR j <> 0) by (apply IZR_neq; lia). assert (P1 : IZR (j + 1) <> 0) by (apply IZR_neq; lia).
    pose proof (GG_recurrence a b m n j Hm Hn ltac:(unfold jm in *; lia)) as E.
    pose proof (GG_recurrence a b m' n' j Hm' Hn' ltac:(rewrite Hjl; lia)) as E'.
    rewrite <- HM in E'. fold g in E. fold h in E'.
    set (K := ((m + n) * (a * (a + 1) - b * (b + 1)))%Z).
    replace (IZR (Bq j a b m n)) with (IZR (2 * j + 1) * (IZR K - IZR (m - n) * IZR j * IZR (j + 1))) in E
      by (unfold Bq; fold K; rewrite !mult_IZR, !minus_IZR, !mult_IZR, !minus_IZR; ring).
    replace (IZR (Bq j a b m' n')) with (IZR (2 * j + 1) * (IZR K - IZR (m' - n') * IZR j * IZR (j + 1))) in E'
      by (unfold Bq; rewrite <- HM; fold K; rewrite !mult_IZR, !minus_IZR, !mult_IZR, !minus_IZR; ring).
    unfold d. rewrite (minus_IZR (m - n) (m' - n')).
    set (x := IZR j) in *. set (x1 := IZR (j + 1)) in *. set (A0 := Aq j a b (m + n)) in *. set (A1 := Aq (j + 1) a b (m + n)) in *.
    set (t := IZR (2 * j + 1)) in *. set (g1 := g (j + 1)%Z) in *. set (h1 := h (j + 1)%Z) in *.
    set (g0 := g j) in *. set (h0 := h j) in *. set (g_ := g (j - 1)%Z) in *. set (h_ := h (j - 1)%Z) in *.
    set (e := IZR (m - n)) in *. set (e' := IZR (m' - n')) in *. set (k := IZR K) in *.
    apply (Rmult_eq_reg_l (x * x1)); [|now apply Rmult_integral_contrapositive_currified].
    transitivity (x * A1 * (g1 * h0 - g0 * h1) - x1 * A0 * (g0 * h_ - g_ * h0)).
    2:{ field. auto. }
    assert (F : x * A1 * g1 = - (t * (k - e * x * x1) * g0) - x1 * A0 * g_) by lra.
    assert (F' : x * A1 * h1 = - (t * (k - e' * x * x1) * h0) - x1 * A0 * h_) by lra.
    transitivity ((x * A1 * g1) * h0 - g0 * (x * A1 * h1) - x1 * A0 * (g0 * h_ - g_ * h0)); [|ring].
    rewrite F, F'. ring. }
  apply (Rmult_eq_reg_l (IZR d)); auto. rewrite Rmult_0_r, <- rsum_scal.
  assert (Wtop : w (a + b + 1)%Z = 0) by (unfold w; rewrite Aq_top; unfold Rdiv; ring).
  destruct (Z.eq_dec jm 0) as [J0|J0].
  - rewrite J0. destruct (Z.eq_dec (a + b) 0) as [Z0|Z0].
    { exfalso. lia. }
    rewrite rsum_first by lia. rewrite (rsum_ext _ _ _ (fun j => w (j + 1)%Z - w j)) by (intros; apply step; lia).
    rewrite rsum_telescope by lia. rewrite Wtop. change (0 + 1)%Z with 1%Z. change (2 * 0 + 1)%Z with 1%Z.
    unfold w. change (1 - 1)%Z with 0%Z.
    pose proof (GG_01 a b m n Hm Hn J0 ltac:(lia)) as E.
    pose proof (GG_01 a b m' n' Hm' Hn' ltac:(lia) ltac:(lia)) as E'. rewrite <- HM in E'. fold g in E. fold h in E'.
    unfold d. rewrite (minus_IZR (m - n) (m' - n')).
    set (A1 := Aq 1 a b (m + n)) in *.
    transitivity ((IZR (m - n) * g 0%Z) * h 0%Z - g 0%Z * (IZR (m' - n') * h 0%Z) - A1 * (g 1%Z * h 0%Z - g 0%Z * h 1%Z)); [field|].
    rewrite <- E, <- E'. ring.
  - rewrite (rsum_ext _ _ _ (fun j => w (j + 1)%Z - w j)) by (intros; apply step; lia).
    rewrite rsum_telescope by lia. rewrite Wtop.
    assert (W0 : w jm = 0) by (unfold w, jm; rewrite Aq_jlo; unfold Rdiv; ring). rewrite W0. ring.
Qed.

(** ** The largest j *)
Lemma GG_top a b m n : (Z.abs m <= a)%Z -> (Z.abs n <= b)%Z ->
  GG a b m n (a + b) = sgn (a - b + m + n) * sqrt (cc2 a b m n (a + b)) * (ifct (a - m) * ifct (a + m) * ifct (b - n) * ifct (b + n)).
Proof.
  intros. rewrite GG_in by (unfold jlo; lia). f_equal.
  replace (a + b - (a + b))%Z with 0%Z by lia. unfold Sm. rewrite rsum_one. unfold Tk. rewrite sgn_0.
  change (0 - 0)%Z with 0%Z. rewrite ifct_0, !Z.sub_0_r, !Z.add_0_r.
  replace (a + b - b + m)%Z with (a + m)%Z by lia. replace (a + b - a - n)%Z with (b - n)%Z by lia. ring.
Qed.
Lemma GG_top_neq0 a b m n : (Z.abs m <= a)%Z -> (Z.abs n <= b)%Z -> GG a b m n (a + b) <> 0.
Proof.
  intros. rewrite GG_top by auto. repeat apply Rmult_integral_contrapositive_currified;
   try (apply Rgt_not_eq, ifct_pos; lia). apply sgn_neq0. apply Rgt_not_eq, sqrt_lt_R0, cc2_pos.
Qed.
Lemma GG_top_sign a b m n : (Z.abs m <= a)%Z -> (Z.abs n <= b)%Z -> 0 < sgn (a - b + m + n) * GG a b m n (a + b).
Proof.
  intros. rewrite GG_top by auto.
  match goal with |- 0 < ?s * (?s * ?x * ?y) => replace (s * (s * x * y)) with ((s * s) * (x * y)) by ring end.
  rewrite sgn_sqr, Rmult_1_l. apply Rmult_lt_0_compat; [apply sqrt_lt_R0, cc2_pos|].
  repeat apply Rmult_lt_0_compat; apply ifct_pos; lia.
Qed.

(** Vandermonde's convolution. *)
Lemma vandermonde p q r : (0 <= p)%Z -> (0 <= q)%Z ->
  rsum 0 p (fun i => bin p i * bin q (r - i)) = bin (p + q) r.
Proof.
  intros Hp Hq. revert r. pattern p. apply natlike_ind; auto; clear p Hp.
  - intros r. rewrite rsum_one. rewrite bin_0 by lia. rewrite Z.add_0_l, Z.sub_0_r. ring.
  - intros p Hp IH r. unfold Z.succ.
    rewrite (rsum_ext _ _ _ (fun i => bin p (i - 1) * bin q (r - i) + bin p i * bin q (r - i)))
      by (intros; rewrite bin_pascal by lia; ring).
    rewrite rsum_plus. replace (p + 1 + q)%Z with (p + q + 1)%Z by lia. rewrite bin_pascal by lia.
    rewrite <- (IH r), <- (IH (r - 1)%Z). f_equal.
    + rewrite rsum_first by lia. rewrite (bin_out p (0 - 1)) by lia.
      rewrite (rsum_shift 0 p 1). change (0 + 1)%Z with 1%Z. rewrite Rmult_0_l, Rplus_0_l. apply rsum_ext. intros i _.
      do 2 f_equal. lia.
    + rewrite rsum_last by lia. rewrite (bin_out p (p + 1)) by lia.
      replace (p + 1 - 1)%Z with p by lia. ring.
Qed.

Lemma row_top_norm a b mu : (0 <= a)%Z -> (0 <= b)%Z -> (Z.abs mu <= a + b)%Z ->
  IZR (2 * (a + b) + 1) * rsum (- a) a (fun m => GG a b m (- mu - m) (a + b) * GG a b m (- mu - m) (a + b)) = 1.
Proof.
  intros Ha Hb Hmu. set (J := (a + b)%Z).
  assert (T : forall m, (- a <= m <= a)%Z ->
     GG a b m (- mu - m) J * GG a b m (- mu - m) J
     = (fct (J + mu) * fct (J - mu) / fct (2 * J + 1)) * (bin (2 * a) (a + m) * bin (2 * b) (b - mu - m))).
  { intros m Hm. destruct (Z_le_gt_dec (Z.abs (- mu - m)) b) as [Hn|Hn].
    - unfold J. rewrite GG_top by lia. rewrite !bin_fct by lia.
      replace (2 * a - (a + m))%Z with (a - m)%Z by lia. replace (2 * b - (b - mu - m))%Z with (b - (- mu - m))%Z by lia.
      replace (b - mu - m)%Z with (b + (- mu - m))%Z by lia.
      set (s := sgn (a - b + m + (- mu - m))). set (n := (- mu - m)%Z).
      match goal with |- s * ?x * ?y * (s * ?x * ?y) = _ => transitivity ((s * s) * (x * x) * (y * y)); [ring|] end.
      unfold s. rewrite sgn_sqr, sqrt_sqrt by (apply Rlt_le, cc2_pos). unfold cc2, tri2, PP.
      replace (a + b - (a + b))%Z with 0%Z by lia. replace (a - b + (a + b))%Z with (2 * a)%Z by lia.
      replace (- a + b + (a + b))%Z with (2 * b)%Z by lia. replace (a + b + (a + b) + 1)%Z with (2 * (a + b) + 1)%Z by lia.
      replace (- m - n)%Z with mu by lia. rewrite fct_0.
      rewrite !ifct_inv by lia. field. repeat split; apply fct_neq0.
    - unfold GG. rewrite threej_out by (unfold tj_allowed; lia). rewrite (bin_out (2 * b)) by lia. ring. }
  rewrite (rsum_ext _ _ _ _ T). rewrite rsum_scal.
  rewrite (rsum_shift (- a) a a). replace (- a + a)%Z with 0%Z by lia. replace (a + a)%Z with (2 * a)%Z by lia.
  rewrite (rsum_ext _ _ _ (fun i => bin (2 * a) i * bin (2 * b) (J - mu - i))).
  2:{ intros i _. f_equal; f_equal; unfold J; lia. }
  rewrite vandermonde by lia. replace (2 * a + 2 * b)%Z with (2 * J)%Z by (unfold J; lia).
  rewrite bin_fct by (unfold J; lia). replace (2 * J - (J - mu))%Z with (J + mu)%Z by lia.
  rewrite fct_succ by (unfold J; lia). rewrite !ifct_inv by (unfold J; lia).
  assert (IZR (2 * J + 1) <> 0) by (apply IZR_neq; unfold J; lia).
  field. repeat split; auto; apply fct_neq0.
Qed.

(** ** Normalisation of columns and rows *)
Lemma norm_link a b mu j m : (0 <= a)%Z -> (0 <= b)%Z ->
  rsum (jlo a b m (- mu - m)) (a + b) (fun i => IZR (2 * i + 1) * (GG a b m (- mu - m) i * GG a b m (- mu - m) i)) * GG a b m (- mu - m) j
  = IZR (2 * j + 1) * rsum (- a) a (fun m' => GG a b m' (- mu - m') j * GG a b m' (- mu - m') j) * GG a b m (- mu - m) j.
Proof.
  intros Ha Hb. set (V := fun j m => GG a b m (- mu - m) j).
  change (GG a b m (- mu - m) j) with (V j m).
  destruct (Z_le_gt_dec (Z.abs m) a) as [Hm|].
  2:{ assert (Z0 : V j m = 0) by (unfold V, GG; apply threej_out; unfold tj_allowed; lia). rewrite Z0. ring. }
  set (jm := jlo a b m (- mu - m)).
  assert (Hjm : forall m', jlo a b m' (- mu - m') = jm) by (intros; unfold jm, jlo; f_equal; f_equal; lia).
  assert (VG : forall m', (- mu - m' = - mu - m')%Z) by auto.
  destruct (Z_le_gt_dec jm j) as [J1|J1].
  2:{ assert (Z0 : V j m = 0) by (unfold V; apply GG_out; fold jm; lia). rewrite Z0. ring. }
  destruct (Z_le_gt_dec j (a + b)) as [J2|J2].
  2:{ assert (Z0 : V j m = 0) by (unfold V; apply GG_out; fold jm; lia). rewrite Z0. ring. }
  transitivity (rsum (- a) a (fun m' => V j m' * rsum jm (a + b) (fun i => IZR (2 * i + 1) * (V i m * V i m')))).
  - symmetry. rewrite (rsum_delta (- a) a m) by solve [lia | intros m' Hm' Hne; unfold V; unfold jm; rewrite (cols_orth a b m (- mu - m) m' (- mu - m')) by lia; ring].
    rewrite Rmult_comm. reflexivity.
  - rewrite (rsum_ext _ _ _ (fun m' => rsum jm (a + b) (fun i => IZR (2 * i + 1) * V i m * (V j m' * V i m'))))
      by (intros; rewrite <- rsum_scal; apply rsum_ext; intros; ring).
    rewrite rsum_swap.
    rewrite (rsum_delta jm (a + b) j); try lia.
    + rewrite rsum_scal. unfold V. ring.
    + intros i Hi Hne. rewrite rsum_scal.
      rewrite (rsum_ext _ _ _ (fun m' => threej a b j m' (- mu - m') mu * threej a b i m' (- mu - m') mu)).
      * rewrite rows_orth by lia. ring.
      * intros m' _. unfold V, GG. replace (- m' - (- mu - m'))%Z with mu by lia. reflexivity.
Qed.

Lemma cols_norm a b m n : (Z.abs m <= a)%Z -> (Z.abs n <= b)%Z ->
  rsum (jlo a b m n) (a + b) (fun i => IZR (2 * i + 1) * (GG a b m n i * GG a b m n i)) = 1.
Proof.
  intros Hm Hn. pose proof (norm_link a b (- m - n) (a + b) m ltac:(lia) ltac:(lia)) as E.
  replace (- (- m - n) - m)%Z with n in E by lia.
  rewrite row_top_norm in E by lia. apply Rmult_eq_reg_r in E; auto. apply GG_top_neq0; auto.
Qed.

Lemma GG_bottom_neq0 a b m n j : (Z.abs m <= a)%Z -> (Z.abs n <= b)%Z -> (jlo a b m n <= j <= a + b)%Z ->
  (m = - a \/ n = b)%Z -> GG a b m n j <> 0.
Proof.
  intros Hm Hn Hj D. rewrite GG_in by auto. unfold jlo in Hj.
  repeat apply Rmult_integral_contrapositive_currified; [apply sgn_neq0|apply Rgt_not_eq, sqrt_lt_R0, cc2_pos|].
  set (p := (a + b - j)%Z).
  unfold Sm. rewrite (rsum_delta 0 p p); try lia.
  - unfold Tk. repeat apply Rmult_integral_contrapositive_currified;
     try (apply Rgt_not_eq, ifct_pos; lia). apply sgn_neq0.
  - intros i Hi Hne. unfold Tk. destruct D as [D|D].
    + rewrite (ifct_neg (j - b + m + i)) by lia. ring.
    + rewrite (ifct_neg (j - a - n + i)) by lia. ring.
Qed.

Lemma rows_norm a b j mu : (Z.abs (a - b) <= j <= a + b)%Z -> (0 <= a)%Z -> (0 <= b)%Z -> (Z.abs mu <= j)%Z ->
  IZR (2 * j + 1) * rsum (- a) a (fun m => GG a b m (- mu - m) j * GG a b m (- mu - m) j) = 1.
Proof.
  intros Hj Ha Hb Hmu. set (m := Z.max (- a) (- mu - b)).
  assert (Hm : (Z.abs m <= a)%Z) by lia. assert (Hn : (Z.abs (- mu - m) <= b)%Z) by lia.
  pose proof (norm_link a b mu j m Ha Hb) as E. rewrite cols_norm in E by auto.
  apply Rmult_eq_reg_r in E; auto. apply GG_bottom_neq0; auto; unfold jlo; lia.
Qed.
