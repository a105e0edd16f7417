(** Mathematics of the 3-j symbol: symmetries, ladder relations, the three-term recurrence in j,
    orthogonality and normalisation, all from Racah's formula. *)
From Coq Require Import ZArith Reals Lia Lra Bool Ring.
From Verif Require Import Fact RSum ThreeJSpec.
Local Open Scope R_scope.

(** * The bare sum with independent integer parameters *)
Definition Tk (p q r s u k : Z) : R :=
  sgn k * ifct k * ifct (p - k) * ifct (q - k) * ifct (r - k) * ifct (s + k) * ifct (u + k).
Definition Sm (p q r s u : Z) : R := rsum 0 p (Tk p q r s u).

Lemma Tk_low p q r s u k : (k < 0)%Z -> Tk p q r s u k = 0.
Proof. intros. unfold Tk. rewrite (ifct_neg k) by lia. ring. Qed.
Lemma Tk_high p q r s u k : (p < k)%Z -> Tk p q r s u k = 0.
Proof. intros. unfold Tk. rewrite (ifct_neg (p - k)) by lia. ring. Qed.

Lemma Sm_wide p q r s u lo hi : (lo <= 0)%Z -> (p <= hi)%Z -> rsum lo hi (Tk p q r s u) = Sm p q r s u.
Proof.
  intros. unfold Sm. destruct (Z_lt_ge_dec p 0).
  - rewrite (rsum_empty 0 p) by lia. apply rsum_zero. intros i _.
    destruct (Z_lt_ge_dec i 0); [now apply Tk_low|apply Tk_high; lia].
  - symmetry. apply rsum_widen; try lia. intros i _ [?|?]; [now apply Tk_low|now apply Tk_high].
Qed.

Lemma racah_Sm j1 j2 j3 m1 m2 :
  racah_sum j1 j2 j3 m1 m2 = Sm (j1 + j2 - j3) (j1 - m1) (j2 + m2) (j3 - j2 + m1) (j3 - j1 - m2).
Proof. reflexivity. Qed.

(** Permutations of the parameters. *)
Lemma Sm_pq p q r s u : Sm p q r s u = Sm q p r s u.
Proof.
  rewrite <- (Sm_wide p q r s u 0 (Z.max p q)), <- (Sm_wide q p r s u 0 (Z.max p q)) by lia.
  apply rsum_ext. intros. unfold Tk. ring.
Qed.
Lemma Sm_qr p q r s u : Sm p q r s u = Sm p r q s u.
Proof. unfold Sm. apply rsum_ext. intros. unfold Tk. ring. Qed.
Lemma Sm_su p q r s u : Sm p q r s u = Sm p q r u s.
Proof. unfold Sm. apply rsum_ext. intros. unfold Tk. ring. Qed.

Lemma Sm_reverse p q r s u : Sm p q r s u = sgn p * Sm p (s + p) (u + p) (q - p) (r - p).
Proof.
  unfold Sm. rewrite (rsum_flip 0 p p) by lia. rewrite <- rsum_scal.
  apply rsum_ext. intros k _. unfold Tk.
  replace (p - (p - k))%Z with k by lia. replace (q - (p - k))%Z with (q - p + k)%Z by lia.
  replace (r - (p - k))%Z with (r - p + k)%Z by lia.
  replace (s + (p - k))%Z with (s + p - k)%Z by lia. replace (u + (p - k))%Z with (u + p - k)%Z by lia.
  rewrite sgn_sub. ring.
Qed.

Lemma Sm_shift p q r s u : Sm p q r s u = sgn s * Sm (p + s) (q + s) (r + s) (- s) (u - s).
Proof.
  set (L := (Z.abs p + Z.abs s)%Z).
  rewrite <- (Sm_wide p q r s u (- L) L), <- (Sm_wide (p + s) (q + s) (r + s) (- s) (u - s) (- L + s) (L + s)) by lia.
  rewrite (rsum_shift (- L) L s). rewrite <- rsum_scal.
  apply rsum_ext. intros k _. unfold Tk.
  replace (p - (k - s))%Z with (p + s - k)%Z by lia. replace (q - (k - s))%Z with (q + s - k)%Z by lia.
  replace (r - (k - s))%Z with (r + s - k)%Z by lia. replace (s + (k - s))%Z with k by lia.
  replace (u + (k - s))%Z with (u - s + k)%Z by lia. replace (k - s)%Z with (- s + k)%Z at 2 by lia.
  rewrite sgn_sub. ring.
Qed.

(** * Ladder relation for the sum *)
Lemma Sm_ladder p q r s u :
  IZR (p + s + 1) * Sm p (q - 1) r (s + 1) u + IZR (r + 1) * Sm p q (r + 1) s (u - 1)
  - IZR (u + q) * Sm p q r s u = 0.
Proof.
  set (h := fun k => - sgn k * ifct (k - 1) * ifct (p - k) * ifct (q - k) * ifct (r + 1 - k) * ifct (s + k) * ifct (u - 1 + k)).
  set (L := (Z.abs p + 1)%Z).
  rewrite <- (Sm_wide p (q - 1) r (s + 1) u (- L) L), <- (Sm_wide p q (r + 1) s (u - 1) (- L) L),
    <- (Sm_wide p q r s u (- L) L) by lia.
  rewrite <- !rsum_scal, <- rsum_plus, <- rsum_minus.
  rewrite (rsum_ext _ _ _ (fun k => h (k + 1)%Z - h k)).
  - rewrite rsum_telescope by lia. unfold h.
    rewrite (ifct_neg (- L - 1)) by lia. rewrite (ifct_neg (p - (L + 1))) by lia. ring.
  - intros k _. unfold h, Tk. rewrite sgn_succ.
    replace (k + 1 - 1)%Z with k by lia. replace (p - (k + 1))%Z with (p - k - 1)%Z by lia.
    replace (q - (k + 1))%Z with (q - k - 1)%Z by lia. replace (r + 1 - (k + 1))%Z with (r - k)%Z by lia.
    replace (q - 1 - k)%Z with (q - k - 1)%Z by lia. replace (s + (k + 1))%Z with (s + k + 1)%Z by lia.
    replace (s + 1 + k)%Z with (s + k + 1)%Z by lia. replace (u - 1 + (k + 1))%Z with (u + k)%Z by lia.
    replace (u - 1 + k)%Z with (u + k - 1)%Z by lia. replace (r + 1 - k)%Z with (r - k + 1)%Z by lia.
    replace (IZR (p + s + 1)) with (IZR (p - k) + IZR (s + k + 1)) by (rewrite <- plus_IZR; f_equal; lia).
    replace (IZR (u + q)) with (IZR (u + k) + IZR (q - k)) by (rewrite <- plus_IZR; f_equal; lia).
    replace (IZR (r + 1)) with (IZR (r - k + 1) + IZR k) by (rewrite <- plus_IZR; f_equal; lia).
    rewrite <- (ifct_step (p - k)), <- (ifct_step (q - k)), <- (ifct_step (u + k)), <- (ifct_step k).
    rewrite (ifct_step' (r - k)), (ifct_step' (s + k)). ring.
Qed.

(** * The recurrence in j for the sum *)
Section Recurrence.
Variables a b m n j : Z.
Let R2 (k : R) : R :=
  let j := IZR j in let a := IZR a in let b := IZR b in let m := IZR m in let n := IZR n in
  (- 1 - b - a - j * b - j * a + j * j) * (k * k)
  + (n - m + b + b * n - b * m + b * b + a + a * n - a * m + 2 * a * b + a * a - 3 * j + j * n - j * m - 3 * j * b - 2 * j * b * m + j * b * b - 3 * j * a + 2 * j * a * n + 2 * j * a * b + j * a * a - 4 * j * j * b - 4 * j * j * a + 3 * j * j * j) * k
  + (m * n - b * n + b * m * n - b * b * n + a * m + a * m * n - a * b - a * b * n + a * b * m - a * b * b + a * a * m - a * a * b - j + 2 * j * n - 2 * j * m + 2 * j * m * n + j * b + j * b * n - j * b * m + j * b * m * n + 2 * j * b * b + j * b * b * m + j * a + j * a * n - j * a * m + j * a * m * n + 2 * j * a * b - j * a * b * n + j * a * b * m - j * a * b * b + 2 * j * a * a - j * a * a * n - j * a * a * b - 4 * j * j + 2 * j * j * n - 2 * j * j * m + j * j * m * n - 3 * j * j * b - 3 * j * j * b * m + 2 * j * j * b * b - 3 * j * j * a + 3 * j * j * a * n + 3 * j * j * a * b + 2 * j * j * a * a - j * j * j - 4 * j * j * j * b - 4 * j * j * j * a + 2 * j * j * j * j).

Lemma Sm_recurrence :
  IZR (j * ((j + 1) * (j + 1) - (a - b) * (a - b)) * ((j + 1) * (j + 1) - (m + n) * (m + n)))
    * Sm (a + b - (j + 1)) (a - m) (b + n) (j + 1 - b + m) (j + 1 - a - n)
  + IZR ((2 * j + 1) * ((m + n) * (a * (a + 1) - b * (b + 1)) - (m - n) * j * (j + 1)))
    * Sm (a + b - j) (a - m) (b + n) (j - b + m) (j - a - n)
  + IZR ((j + 1) * ((a + b + 1) * (a + b + 1) - j * j))
    * Sm (a + b - (j - 1)) (a - m) (b + n) (j - 1 - b + m) (j - 1 - a - n) = 0.
Proof.
  set (p := (a + b - j)%Z). set (q := (a - m)%Z). set (r := (b + n)%Z).
  set (s := (j - b + m)%Z). set (u := (j - a - n)%Z).
  replace (a + b - (j + 1))%Z with (p - 1)%Z by (unfold p; lia).
  replace (a + b - (j - 1))%Z with (p + 1)%Z by (unfold p; lia).
  replace (j + 1 - b + m)%Z with (s + 1)%Z by (unfold s; lia).
  replace (j - 1 - b + m)%Z with (s - 1)%Z by (unfold s; lia).
  replace (j + 1 - a - n)%Z with (u + 1)%Z by (unfold u; lia).
  replace (j - 1 - a - n)%Z with (u - 1)%Z by (unfold u; lia).
  set (w := fun k => sgn k * ifct k * ifct (p + 1 - k) * ifct (q - k) * ifct (r - k) * ifct (s + 1 + k) * ifct (u + 1 + k)).
  set (G := fun k => IZR k * IZR (s + 1 + k) * IZR (u + 1 + k) * R2 (IZR k) * w k).
  set (L := (Z.abs p + 2)%Z).
  rewrite <- (Sm_wide (p - 1) q r (s + 1) (u + 1) (- L) L), <- (Sm_wide p q r s u (- L) L),
    <- (Sm_wide (p + 1) q r (s - 1) (u - 1) (- L) L) by lia.
  rewrite <- !rsum_scal, <- !rsum_plus.
  rewrite (rsum_ext _ _ _ (fun k => G (k + 1)%Z - G k)).
  - rewrite rsum_telescope by lia. unfold G, w.
    rewrite (ifct_neg (- L)) by lia. rewrite (ifct_neg (p + 1 - (L + 1))) by lia. ring.
  - intros k _.
    assert (E1 : Tk (p - 1) q r (s + 1) (u + 1) k = IZR (p + 1 - k) * IZR (p - k) * w k).
    { unfold Tk, w. replace (p - 1 - k)%Z with (p - k - 1)%Z by lia.
      rewrite <- (ifct_step (p - k)). replace (p - k)%Z with (p + 1 - k - 1)%Z at 2 by lia.
      rewrite <- (ifct_step (p + 1 - k)). ring. }
    assert (E2 : Tk p q r s u k = IZR (p + 1 - k) * IZR (s + 1 + k) * IZR (u + 1 + k) * w k).
    { unfold Tk, w. replace (p - k)%Z with (p + 1 - k - 1)%Z at 1 by lia.
      rewrite <- (ifct_step (p + 1 - k)). rewrite (ifct_step' (s + k)), (ifct_step' (u + k)).
      replace (s + k + 1)%Z with (s + 1 + k)%Z by lia. replace (u + k + 1)%Z with (u + 1 + k)%Z by lia. ring. }
    assert (E3 : Tk (p + 1) q r (s - 1) (u - 1) k
                 = IZR (s + 1 + k) * IZR (s + k) * IZR (u + 1 + k) * IZR (u + k) * w k).
    { unfold Tk, w. rewrite (ifct_step' (s - 1 + k)), (ifct_step' (u - 1 + k)).
      replace (s - 1 + k + 1)%Z with (s + k)%Z by lia. replace (u - 1 + k + 1)%Z with (u + k)%Z by lia.
      rewrite (ifct_step' (s + k)), (ifct_step' (u + k)).
      replace (s + k + 1)%Z with (s + 1 + k)%Z by lia. replace (u + k + 1)%Z with (u + 1 + k)%Z by lia. ring. }
    assert (E4 : G (k + 1)%Z = - (IZR (p + 1 - k) * IZR (q - k) * IZR (r - k)) * R2 (IZR (k + 1)) * w k).
    { unfold G, w. rewrite sgn_succ.
      replace (s + 1 + (k + 1))%Z with (s + 1 + k + 1)%Z by lia. replace (u + 1 + (k + 1))%Z with (u + 1 + k + 1)%Z by lia.
      rewrite (ifct_step' k), (ifct_step' (s + 1 + k)), (ifct_step' (u + 1 + k)).
      replace (p + 1 - (k + 1))%Z with (p + 1 - k - 1)%Z by lia. rewrite <- (ifct_step (p + 1 - k)).
      replace (q - (k + 1))%Z with (q - k - 1)%Z by lia. rewrite <- (ifct_step (q - k)).
      replace (r - (k + 1))%Z with (r - k - 1)%Z by lia. rewrite <- (ifct_step (r - k)). ring. }
    rewrite E1, E2, E3, E4. unfold G. generalize (w k). intros wk.
    unfold R2, p, q, r, s, u. repeat (rewrite ?plus_IZR, ?minus_IZR, ?mult_IZR). ring.
Qed.
End Recurrence.
