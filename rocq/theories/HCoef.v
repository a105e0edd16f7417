(** The coefficient arrays of the H calculator hold the coefficients at the index the steps read them from. *)
Require Import ZArith Lia Reals Lra Bool List.
From Verif Require Import Base BaseProofs IndexModel IndexProofs2 IndexProps Fact HSpec HMath HModel.
Import ListNotations.
Open Scope Z_scope.

Lemma zrange_empty a b : b <= a -> zrange a b = [].
Proof. intros. unfold zrange. replace (Z.to_nat (b - a)) with 0%nat by lia. reflexivity. Qed.
Lemma zrange_last a b : a <= b -> zrange a (b + 1) = zrange a b ++ [b].
Proof.
  intros. unfold zrange. replace (Z.to_nat (b + 1 - a)) with (S (Z.to_nat (b - a))) by lia.
  rewrite seq_S, map_app. cbn [map]. do 3 f_equal. lia.
Qed.
Lemma zrange_length a b : length (zrange a b) = Z.to_nat (b - a).
Proof. unfold zrange. now rewrite map_length, seq_length. Qed.
Lemma zrange_nth a b k d : 0 <= k < b - a -> nth (Z.to_nat k) (zrange a b) d = a + k.
Proof.
  intros. unfold zrange. rewrite (nth_indep _ d (a + Z.of_nat 0)) by (rewrite map_length, seq_length; lia).
  rewrite (map_nth (fun k => a + Z.of_nat k)), seq_nth by lia. lia.
Qed.
Lemma in_zrange a b k : In k (zrange a b) <-> a <= k < b.
Proof.
  unfold zrange. rewrite in_map_iff. split.
  - intros (x & <- & H). apply in_seq in H. lia.
  - intros H. exists (Z.to_nat (k - a)). split; [lia|]. apply in_seq. lia.
Qed.

Lemma blocks {X} (f : Z -> list X) (off : Z -> Z) (d : X) N : 0 <= N -> off 0 = 0 ->
  (forall n, 0 <= n < N -> off (n + 1) = off n + Z.of_nat (length (f n))) ->
  Z.of_nat (length (flat_map f (zrange 0 N))) = off N /\
  forall n k, 0 <= n < N -> 0 <= k < Z.of_nat (length (f n)) ->
    0 <= off n + k < off N /\ nth (Z.to_nat (off n + k)) (flat_map f (zrange 0 N)) d = nth (Z.to_nat k) (f n) d.
Proof.
  intros HN H0. revert N HN. refine (natlike_ind _ _ _).
  - intros _. rewrite zrange_empty by lia. cbn [flat_map length]. split; [lia|]. intros; lia.
  - intros N HN IH Hs. destruct IH as (L & A); [intros; apply Hs; lia|].
    pose proof (Hs N ltac:(lia)) as E. unfold Z.succ. rewrite zrange_last by lia.
    rewrite flat_map_app. cbn [flat_map]. rewrite app_nil_r, app_length. split; [lia|].
    intros n k Hn Hk. destruct (Z.eq_dec n N) as [->|D'].
    + assert (0 <= off N) by lia. split; [lia|]. rewrite app_nth2 by lia. f_equal. lia.
    + destruct (A n k) as (B & C); [lia|auto|]. split; [lia|]. rewrite app_nth1 by lia. exact C.
Qed.

Lemma coef_arr_rd f l d i : 0 <= i < Z.of_nat (length l) -> rd (coef_arr f l) i = Ok (f (nth (Z.to_nat i) l d)).
Proof.
  intros H. assert (alen (coef_arr f l) = Z.of_nat (length l)) as L by (unfold coef_arr, arr_of; cbn [alen]; now rewrite map_length).
  rewrite rd_ok by lia. unfold coef_arr, arr_of. cbn [aget]. f_equal.
  rewrite (nth_indep _ None (f d)) by (rewrite map_length; lia). apply map_nth.
Qed.

Lemma pairs_nm_ok n_max : 0 <= n_max ->
  Z.of_nat (length (pairs_nm n_max)) = (n_max + 2) ^ 2 /\
  forall n m d, 0 <= n <= n_max + 1 -> - n <= m <= n ->
    0 <= nm_index n m < (n_max + 2) ^ 2 /\ nth (Z.to_nat (nm_index n m)) (pairs_nm n_max) d = (n, m).
Proof.
  intros H. unfold pairs_nm.
  set (f := fun n => map (fun m => (n, m)) (zrange (- n) (n + 1))).
  assert (Lf : forall n, 0 <= n -> Z.of_nat (length (f n)) = 2 * n + 1)
    by (intros; unfold f; rewrite map_length, zrange_length; lia).
  assert (B : forall d, Z.of_nat (length (flat_map f (zrange 0 (n_max + 2)))) = (n_max + 2) ^ 2 /\
    forall n k, 0 <= n < n_max + 2 -> 0 <= k < Z.of_nat (length (f n)) ->
    0 <= n ^ 2 + k < (n_max + 2) ^ 2 /\ nth (Z.to_nat (n ^ 2 + k)) (flat_map f (zrange 0 (n_max + 2))) d = nth (Z.to_nat k) (f n) d).
  { intros d. apply (blocks f (fun n => n ^ 2) d (n_max + 2)); [lia|reflexivity|]. intros n Hn. rewrite Lf by lia. ring. }
  split; [apply (B (0, 0))|]. intros n m d Hn Hm. destruct (proj2 (B d) n (m + n)) as (B1 & B2); [lia|rewrite Lf; lia|].
  replace (nm_index n m) with (n ^ 2 + (m + n)) by (unfold nm_index; ring). split; [exact B1|]. rewrite B2. unfold f.
  rewrite (nth_indep _ d (n, 0)) by (rewrite map_length, zrange_length; lia).
  rewrite (map_nth (fun m => (n, m))), zrange_nth by lia. f_equal. lia.
Qed.
Lemma pairs_nabsm_ok n_max : 0 <= n_max ->
  Z.of_nat (length (pairs_nabsm n_max)) = IndexProofs2.tri (n_max + 2) /\
  forall n m d, 0 <= n <= n_max + 1 -> 0 <= m <= n ->
    0 <= nabsm_index n m < IndexProofs2.tri (n_max + 2) /\ nth (Z.to_nat (nabsm_index n m)) (pairs_nabsm n_max) d = (n, m).
Proof.
  intros H. unfold pairs_nabsm.
  set (f := fun n => map (fun m => (n, m)) (zrange 0 (n + 1))).
  assert (Lf : forall n, 0 <= n -> Z.of_nat (length (f n)) = n + 1)
    by (intros; unfold f; rewrite map_length, zrange_length; lia).
  assert (B : forall d, Z.of_nat (length (flat_map f (zrange 0 (n_max + 2)))) = IndexProofs2.tri (n_max + 2) /\
    forall n k, 0 <= n < n_max + 2 -> 0 <= k < Z.of_nat (length (f n)) ->
    0 <= IndexProofs2.tri n + k < IndexProofs2.tri (n_max + 2) /\ nth (Z.to_nat (IndexProofs2.tri n + k)) (flat_map f (zrange 0 (n_max + 2))) d = nth (Z.to_nat k) (f n) d).
  { intros d. apply (blocks f IndexProofs2.tri d (n_max + 2)); [lia|reflexivity|]. intros n Hn. rewrite Lf, IndexProofs2.tri_succ by lia. ring. }
  split; [apply (B (0, 0))|]. intros n m d Hn Hm. destruct (proj2 (B d) n m) as (B1 & B2); [lia|rewrite Lf; lia|].
  replace (nabsm_index n m) with (IndexProofs2.tri n + m) by (unfold nabsm_index, IndexProofs2.tri; ring). split; [exact B1|]. rewrite B2. unfold f.
  rewrite (nth_indep _ d (n, 0)) by (rewrite map_length, zrange_length; lia).
  rewrite (map_nth (fun m => (n, m))), zrange_nth by lia. reflexivity.
Qed.

Lemma crd_nm f n_max n m v : 0 <= n_max -> 0 <= n <= n_max + 1 -> - n <= m <= n -> f (n, m) = Some v ->
  crd (coef_arr f (pairs_nm n_max)) (nm_index n m) = Ok v.
Proof.
  intros H Hn Hm E. destruct (pairs_nm_ok n_max H) as (L & A). destruct (A n m (0, 0) Hn Hm) as (B & C).
  unfold crd. rewrite (coef_arr_rd _ _ (0, 0)) by lia. cbn [bind]. now rewrite C, E.
Qed.
Lemma crd_nabsm f n_max n m v : 0 <= n_max -> 0 <= n <= n_max + 1 -> 0 <= m <= n -> f (n, m) = Some v ->
  crd (coef_arr f (pairs_nabsm n_max)) (nabsm_index n m) = Ok v.
Proof.
  intros H Hn Hm E. destruct (pairs_nabsm_ok n_max H) as (L & A). destruct (A n m (0, 0) Hn Hm) as (B & C).
  unfold crd. rewrite (coef_arr_rd _ _ (0, 0)) by lia. cbn [bind]. now rewrite C, E.
Qed.

Lemma coef_a_ok n m : 0 <= m <= n -> coef_a (n, m) = Some (aco n m).
Proof.
  intros H. unfold coef_a, sqrt_quot, aco. destruct (Z.eqb_spec ((2 * n + 1) * (2 * n + 3)) 0); [nia|].
  assert (0 <= (n + 1 + m) * (n + 1 - m)) by nia. assert (0 <= (2 * n + 1) * (2 * n + 3)) by nia.
  destruct (Z.ltb_spec ((n + 1 + m) * (n + 1 - m) * ((2 * n + 1) * (2 * n + 3))) 0); [nia|reflexivity].
Qed.
Lemma coef_b_ok n m : 0 <= n -> - n <= m <= n -> coef_b (n, m) = Some (bco n m).
Proof.
  intros H0 H. unfold coef_b, sqrt_quot, bco. destruct (Z.eqb_spec ((2 * n - 1) * (2 * n + 1)) 0) as [E|E]; [nia|].
  assert (0 <= (n - m - 1) * (n - m) * ((2 * n - 1) * (2 * n + 1))) as E'.
  { destruct (Z.eq_dec n 0) as [->|]; [assert (m = 0) as -> by lia; lia|].
    apply Z.mul_nonneg_nonneg; [|nia]. destruct (Z.eq_dec m n) as [->|]; [lia|nia]. }
  destruct (Z.ltb_spec ((n - m - 1) * (n - m) * ((2 * n - 1) * (2 * n + 1))) 0); [lia|].
  unfold neg_where, sg. destruct (m <? 0); cbn [option_map]; f_equal; ring.
Qed.
Lemma coef_d_ok n m : 0 <= n -> - n <= m <= n -> coef_d (n, m) = Some (dco n m).
Proof.
  intros H0 H. unfold coef_d, sqrt_int, dco, U. destruct (Z.ltb_spec ((n - m) * (n + m + 1)) 0); [nia|].
  cbn [option_map]. unfold neg_where, sg. destruct (m <? 0); cbn [option_map]; f_equal; ring.
Qed.
Lemma coef_g_ok n m : 0 <= m < n -> coef_g (n, m) = Some (gco n m).
Proof.
  intros H. unfold coef_g, sqrt_int, gco, U. destruct (Z.eqb_spec ((n - m) * (n + m + 1)) 0); [nia|].
  destruct (Z.ltb_spec ((n - m) * (n + m + 1)) 0); [nia|]. cbn [option_map]. now rewrite mult_IZR.
Qed.
Lemma coef_h_ok n m : 0 <= m < n -> coef_h (n, m) = Some (hco n m).
Proof.
  intros H. unfold coef_h, sqrt_quot, hco. destruct (Z.eqb_spec ((n - m) * (n + m + 1)) 0); [nia|].
  assert (0 <= (n + m + 2) * (n - m - 1)) by nia. assert (0 <= (n - m) * (n + m + 1)) by nia.
  destruct (Z.ltb_spec ((n + m + 2) * (n - m - 1) * ((n - m) * (n + m + 1))) 0); [nia|reflexivity].
Qed.

Lemma all_finite_nm f n_max : 0 <= n_max -> (forall n m, 0 <= n <= n_max + 1 -> - n <= m <= n -> exists v, f (n, m) = Some v) ->
  all_finite (coef_arr f (pairs_nm n_max)) = true.
Proof.
  intros H F. unfold all_finite. apply forallb_forall. intros i Hi. apply in_zrange in Hi.
  destruct (pairs_nm_ok n_max H) as (L & A).
  assert (alen (coef_arr f (pairs_nm n_max)) = (n_max + 2) ^ 2) as E
    by (rewrite <- L; unfold coef_arr, arr_of; cbn [alen]; now rewrite map_length).
  rewrite E in Hi. destruct (proj1 (proj2 (C07_nm (n_max + 2) ltac:(lia))) i Hi) as (n & m & Hn & Hm & <-).
  destruct (F n m ltac:(lia) Hm) as (v & Fv). destruct (A n m (0, 0) ltac:(lia) Hm) as (B & C).
  pose proof (coef_arr_rd f (pairs_nm n_max) (0, 0) (nm_index n m) ltac:(lia)) as R.
  rewrite rd_ok in R by lia. apply Ok_inj in R. now rewrite R, C, Fv.
Qed.
Lemma all_finite_nabsm f n_max : 0 <= n_max -> (forall n m, 0 <= n <= n_max + 1 -> 0 <= m <= n -> exists v, f (n, m) = Some v) ->
  all_finite (coef_arr f (pairs_nabsm n_max)) = true.
Proof.
  intros H F. unfold all_finite. apply forallb_forall. intros i Hi. apply in_zrange in Hi.
  destruct (pairs_nabsm_ok n_max H) as (L & A).
  assert (alen (coef_arr f (pairs_nabsm n_max)) = IndexProofs2.tri (n_max + 2)) as E
    by (rewrite <- L; unfold coef_arr, arr_of; cbn [alen]; now rewrite map_length).
  rewrite E in Hi. pose proof (IndexProofs2.tri2 (n_max + 2)) as T2.
  destruct (proj1 (proj2 (C07_nabsm (n_max + 2) ltac:(lia))) i ltac:(lia) ltac:(lia)) as (n & m & Hn & Hm & <-).
  destruct (F n m ltac:(lia) Hm) as (v & Fv). destruct (A n m (0, 0) ltac:(lia) Hm) as (B & C).
  pose proof (coef_arr_rd f (pairs_nabsm n_max) (0, 0) (nabsm_index n m) ltac:(lia)) as R.
  rewrite rd_ok in R by lia. apply Ok_inj in R. now rewrite R, C, Fv.
Qed.

(** The constructor never reports a non-finite coefficient. *)
Lemma HCalculator_init_ok n_max : 0 <= n_max ->
  HCalculator_init n_max = Ok (mkHCalc n_max (coef_arr coef_a (pairs_nabsm n_max)) (coef_arr coef_b (pairs_nm n_max))
    (coef_arr coef_d (pairs_nm n_max)) (coef_arr coef_g (pairs_nm n_max)) (coef_arr coef_h (pairs_nm n_max))).
Proof.
  intros H. unfold HCalculator_init. destruct (Z.ltb_spec n_max 0); [lia|]. cbv zeta.
  rewrite (all_finite_nabsm coef_a), (all_finite_nm coef_b), (all_finite_nm coef_d); auto.
  - intros n m Hn Hm. exists (dco n m). apply coef_d_ok; lia.
  - intros n m Hn Hm. exists (bco n m). apply coef_b_ok; lia.
  - intros n m Hn Hm. exists (aco n m). apply coef_a_ok; lia.
Qed.
