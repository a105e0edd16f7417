(** The shipped coefficient tables (C61). *)
Require Import ZArith Lia Reals Lra Bool List.
From Flocq Require Import Core.
From Verif Require Import Base BaseProofs Fact IndexModel IndexProofs IndexProps FloatIndexModel FloatIndexProofs FloatPowersSpec WignerModel
  TableData TableModel TableSpec TableCheck TableProofs.
Import ListNotations.
Set Bullet Behavior "Strict Subproofs".
Open Scope Z_scope.

Lemma round_twice_half n : Z.abs n < 2 ^ 53 -> round_twice (IZR n / 2) = n.
Proof.
  intros H. unfold round_twice. replace (2 * (IZR n / 2))%R with (IZR n) by field. rewrite RN64_int by auto.
  apply Zrnd_IZR, valid_rnd_N.
Qed.
Lemma rd_file l i : 0 <= i < Z.of_nat (length l) -> rd (file_arr l) i = Ok (nth (Z.to_nat i) l (0, 0)).
Proof. intros H. rewrite rd_ok; [reflexivity|exact H]. Qed.

Lemma C61_binomial :
  forall n k, 0 <= n <= 64 -> 0 <= k <= n ->
    exists x, binomial_coefficient64 n k = Ok x /\
      let exact := Binomial.C (Z.to_nat n) (Z.to_nat k) in
      (Rabs (x - exact) <= u64 * exact)%R /\ ((exact < 2 ^ 53)%R -> x = exact).
Proof.
  intros n k Hn Hk. unfold binomial_coefficient64, binomial_lookup.
  assert (B : 0 <= binomial_index n k < 2145).
  { unfold binomial_index. split.
    - assert (0 <= n * (n + 1) / 2) by (apply Z.div_pos; nia). lia.
    - assert (n * (n + 1) / 2 <= 64 * 65 / 2) by (apply Z.div_le_mono; nia). change (64 * 65 / 2) with 2080 in *. lia. }
  rewrite rd_file by (rewrite (proj1 lengths_ok); lia). cbn [bind]. eexists. split; [reflexivity|].
  pose proof (binomial_each (Z.to_nat n) (Z.to_nat k) ltac:(lia) ltac:(lia)) as K. unfold binomial_at in K. rewrite !Z2Nat.id in K by lia.
  apply int_ok_close in K; [|apply choose_nonneg; lia]. rewrite choose_ok in K by lia. cbv zeta. destruct K as [K1 K2].
  split; auto. intros H. apply K2. apply lt_IZR. rewrite choose_ok by lia.
  change (IZR (2 ^ 53)) with 9007199254740992%R. lra.
Qed.

Lemma C61_ladder :
  forall ell m : R, forall twoell twom : Z, ell = (IZR twoell / 2)%R -> m = (IZR twom / 2)%R ->
    0 <= twoell <= 64 -> - twoell <= twom <= twoell -> Z.even (twoell + twom) = true ->
    exists x, ladder_operator_coefficient64 ell m = Ok x /\
      one_ulp_below x (sqrt (ell * (ell + 1) - m * (m + 1))).
Proof.
  intros ell m t tm -> -> Ht Hm He. unfold ladder_operator_coefficient64, ladder_lookup.
  rewrite !round_twice_half by lia.
  apply Z.even_spec in He. destruct He as [j Hj].
  assert (I : ladder_index t tm = t * (t + 1) / 2 + j).
  { unfold ladder_index. replace ((t + 2) * t + tm) with (t * (t + 1) + j * 2) by lia. rewrite Z.div_add; lia. }
  assert (Bd : 0 <= ladder_index t tm < 2145).
  { rewrite I. split.
    - assert (0 <= t * (t + 1) / 2) by (apply Z.div_pos; nia). lia.
    - assert (t * (t + 1) / 2 <= 64 * 65 / 2) by (apply Z.div_le_mono; nia). change (64 * 65 / 2) with 2080 in *. lia. }
  rewrite rd_file by (rewrite (proj2 lengths_ok); lia). cbn [bind]. eexists. split; [reflexivity|].
  pose proof (ladder_each (Z.to_nat t) (Z.to_nat j) ltac:(lia) ltac:(lia)) as K. unfold ladder_at in K. rewrite !Z2Nat.id in K by lia.
  replace (2 * j - t) with tm in K by lia. apply sqrt_ok_close in K; [|nia].
  replace (IZR t / 2 * (IZR t / 2 + 1) - IZR tm / 2 * (IZR tm / 2 + 1))%R with (IZR (t * (t + 2) - tm * (tm + 2)) / 4)%R; auto.
  rewrite minus_IZR, !mult_IZR, !plus_IZR. field.
Qed.

Lemma C61_Wigner :
  forall ell mp m : R, forall twoell lpmp lpm : Z,
    ell = (IZR twoell / 2)%R -> (ell + mp)%R = IZR lpmp -> (ell + m)%R = IZR lpm ->
    0 <= twoell <= 64 -> 0 <= lpmp <= twoell -> 0 <= lpm <= twoell ->
    let lmmp := twoell - lpmp in let lmm := twoell - lpm in
    let rho := Z.max 0 (lpmp - lpm) in
    let F n := INR (fact (Z.to_nat n)) in let Ch n k := Binomial.C (Z.to_nat n) (Z.to_nat k) in
    exists x, Wigner_coefficient64 ell mp m = Ok x /\
      one_ulp_below x (sqrt (F lpm * F lmm / (F lpmp * F lmmp)) * Ch lpmp rho * Ch lmmp (lmm - rho)%Z)%R.
Proof.
  intros ell mp m t b a Hl Hmp Hm Ht Hb Ha lmmp lmm rho F Ch.
  assert (Emp : mp = (IZR (2 * b - t) / 2)%R) by (rewrite minus_IZR, mult_IZR; lra).
  assert (Em : m = (IZR (2 * a - t) / 2)%R) by (rewrite minus_IZR, mult_IZR; lra).
  unfold Wigner_coefficient64. rewrite Hl, Emp, Em, !round_twice_half by lia.
  destruct (@IndexProps.C05_Wigner _ Wigner_stored (fun _ => (0, 0)) 32 ltac:(lia)) as (tab & E & G).
  unfold Wigner_file. rewrite E. cbn [bind].
  rewrite G; try lia.
  2: apply Z.even_spec; exists b; lia.
  2: apply Z.even_spec; exists a; lia.
  cbn [bind]. eexists. split; [reflexivity|].
  pose proof (stored_ok (Z.to_nat t) (Z.to_nat a) (Z.to_nat b) ltac:(lia) ltac:(lia) ltac:(lia)) as K.
  rewrite !Z2Nat.id in K by lia.
  replace (sqrt (F a * F lmm / (F b * F lmmp)) * Ch b rho * Ch lmmp (lmm - rho)%Z)%R with (Wigner_entry t (2 * b - t) (2 * a - t)); auto.
  unfold Wigner_entry. cbv zeta.
  replace (t + (2 * a - t)) with (2 * a) by lia. replace (t + (2 * b - t)) with (2 * b) by lia.
  replace (t - (2 * a - t)) with (2 * lmm) by (unfold lmm; lia). replace (t - (2 * b - t)) with (2 * lmmp) by (unfold lmmp; lia).
  replace (Z.max 0 (2 * b - t - (2 * a - t))) with (2 * rho) by (unfold rho; lia).
  replace (2 * lmm - 2 * rho) with (2 * (lmm - rho)) by lia. rewrite !half.
  unfold bin. rewrite (proj2 (Z.leb_le 0 rho)), (proj2 (Z.leb_le rho b)), (proj2 (Z.leb_le 0 (lmm - rho))),
    (proj2 (Z.leb_le (lmm - rho) lmmp)) by (unfold rho, lmm, lmmp; lia). reflexivity.
Qed.

Lemma seven_aux f : (0 < f)%R ->
  (sqrt (f * 1 / (49 * f * 1)) * (49 * f / (1 * f)) * 1 = 7)%R.
Proof.
  intros Hf. replace (f * 1 / (49 * f * 1))%R with ((/ 7) * (/ 7))%R by (field; lra). rewrite sqrt_square by lra. field. lra.
Qed.
Lemma fact_next n : INR (fact (S n)) = (IZR (Z.of_nat (S n)) * INR (fact n))%R.
Proof. rewrite fact_simpl, mult_INR, (INR_IZR_INZ (S n)). reflexivity. Qed.
Lemma seven_gen n : Z.of_nat (S n) = 49 ->
  (sqrt (INR (fact n) * INR (fact 1) / (INR (fact (S n)) * INR (fact 0))) * Binomial.C (S n) 1 * 1 = 7)%R.
Proof.
  intros Hn. unfold Binomial.C. replace (S n - 1)%nat with n by lia. change (INR (fact 1)) with 1%R.
  rewrite fact_next, Hn. change (INR (fact 0)) with 1%R. apply seven_aux, INR_fact_lt_0.
Qed.
Lemma seven : (sqrt (INR (fact 48) * INR (fact 1) / (INR (fact 49) * INR (fact 0))) * Binomial.C 49 1 * 1 = 7)%R.
Proof. exact (seven_gen 48 eq_refl). Qed.

(** Not the nearest doubles: the next double above the entry for ell = 1, m = 0 is closer to the square root of 2, and the
    entry for ell = 49/2, mp = 49/2, m = 47/2, whose exact value is 7, is not 7. *)
Lemma C61_nearest_refuted :
  (exists x x', ladder_operator_coefficient64 1 0 = Ok x /\ is_double x' /\
     (Rabs (x' - sqrt (1 * (1 + 1) - 0 * (0 + 1))) < Rabs (x - sqrt (1 * (1 + 1) - 0 * (0 + 1))))%R) /\
  (exists x, Wigner_coefficient64 (49 / 2) (49 / 2) (47 / 2) = Ok x /\ x <> 7%R /\
     (sqrt (INR (fact 48) * INR (fact 1) / (INR (fact 49) * INR (fact 0))) * Binomial.C 49 1 * Binomial.C 0 0 = 7)%R).
Proof.
  split.
  - exists (6369051672525772 * / 4503599627370496)%R, (6369051672525773 * / 4503599627370496)%R. split; [|split].
    + unfold ladder_operator_coefficient64.
      assert (E1 := round_twice_half 2 ltac:(lia)). replace (IZR 2 / 2)%R with 1%R in E1 by field. rewrite E1.
      assert (E0 := round_twice_half 0 ltac:(lia)). replace (IZR 0 / 2)%R with 0%R in E0 by field. rewrite E0.
      unfold ladder_lookup. rewrite rd_file by (rewrite (proj2 lengths_ok); vm_compute; split; [discriminate|reflexivity]).
      cbn [bind]. f_equal.
    + unfold is_double, RN64. apply round_generic; [apply valid_rnd_N|].
      apply generic_format_FLT. exists (Float radix2 6369051672525773 (-52)); [|cbn; lia|cbn; lia].
      unfold F2R. cbn [Fnum Fexp]. change (bpow radix2 (-52)) with (/ 4503599627370496)%R. reflexivity.
    + replace (1 * (1 + 1) - 0 * (0 + 1))%R with 2%R by ring.
      assert (S0 : (0 <= sqrt 2)%R) by apply sqrt_pos. assert (S2 : (sqrt 2 * sqrt 2 = 2)%R) by (apply sqrt_sqrt; lra).
      assert (L : (6369051672525772.55 * / 4503599627370496 < sqrt 2)%R) by nra.
      assert (U : (sqrt 2 < 6369051672525773 * / 4503599627370496)%R) by nra.
      rewrite (Rabs_pos_eq (6369051672525773 * / 4503599627370496 - sqrt 2)) by lra.
      rewrite (Rabs_left (6369051672525772 * / 4503599627370496 - sqrt 2)) by lra. lra.
  - exists (7881299347898367 * / 1125899906842624)%R. split; [|split].
    + unfold Wigner_coefficient64.
      replace (round_twice (49 / 2)) with 49 by (symmetry; apply round_twice_half; lia).
      replace (round_twice (47 / 2)) with 47 by (symmetry; apply round_twice_half; lia).
      destruct (@IndexProps.C05_Wigner _ Wigner_stored (fun _ => (0, 0)) 32 ltac:(lia)) as (tab & E & G).
      unfold Wigner_file. rewrite E. cbn [bind]. rewrite G; try lia; reflexivity.
    + lra.
    + rewrite C_n_0. apply seven.
Qed.
