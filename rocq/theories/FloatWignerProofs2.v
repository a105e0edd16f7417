(** Rounding errors of the D and SWSH evaluators: the size of the terms, the coefficient, the loop of one row. *)
Require Import ZArith Lia Reals Lra Bool.
From Flocq Require Import Core.
From Coquelicot Require Import Complex.
From Verif Require Import Base BaseProofs CBase Fact RSum CSum SymPow WignerSpec DRep IndexModel IndexProps FloatIndexModel FloatIndexProofs FloatPowersModel
  FloatPowersSpec FloatPowersProofs FloatConvModel FloatConvSpec FloatConvProofs WignerModel WignerProofs WignerProofs2 TableModel TableSpec TableProofs
  FloatWignerModel FloatWignerSpec FloatWignerProofs.
Set Bullet Behavior "Strict Subproofs".
Open Scope R_scope.

(** ** Binomials *)
Lemma bin_nonneg n k : (0 <= n)%Z -> 0 <= bin n k.
Proof.
  intros. destruct (Z_lt_ge_dec k 0); [rewrite bin_out by lia; lra|].
  destruct (Z_lt_ge_dec n k); [rewrite bin_out by lia; lra|]. left. apply bin_pos. lia.
Qed.
Lemma bin_le n k : (0 <= n)%Z -> bin n k <= 2 ^ Z.to_nat n.
Proof.
  intros Hn. revert k. pattern n. apply natlike_ind; auto.
  - intros k. simpl. destruct (Z.eq_dec k 0) as [->|]; [rewrite bin_0 by lia; lra|rewrite bin_out by lia; lra].
  - intros m Hm IH k. unfold Z.succ. rewrite bin_pascal by auto. replace (Z.to_nat (m + 1)) with (S (Z.to_nat m)) by lia.
    cbn [pow]. pose proof (IH (k - 1)%Z). pose proof (IH k). lra.
Qed.
Lemma bin_ge1 n k : (0 <= k <= n)%Z -> 1 <= bin n k.
Proof.
  intros Hk. assert (Hn : (0 <= n)%Z) by lia. revert k Hk. pattern n. apply natlike_ind; auto.
  - intros k Hk. replace k with 0%Z by lia. rewrite bin_0 by lia. lra.
  - intros m Hm IH k Hk. unfold Z.succ in *. rewrite bin_pascal by auto.
    pose proof (bin_nonneg m k Hm). pose proof (bin_nonneg m (k - 1) Hm).
    destruct (Z_le_gt_dec k m); [pose proof (IH k ltac:(lia)); lra|pose proof (IH (k - 1)%Z ltac:(lia)); lra].
Qed.
Lemma bin2_le N P i j : (0 <= P <= N)%Z -> (N <= 64)%Z -> 0 <= bin P i * bin (N - P) j <= 2 ^ 64.
Proof.
  intros HP HN. split; [apply Rmult_le_pos; apply bin_nonneg; lia|].
  apply Rle_trans with (2 ^ Z.to_nat P * 2 ^ Z.to_nat (N - P)).
  - apply Rmult_le_compat; try apply bin_nonneg; try apply bin_le; lia.
  - rewrite <- pow_add. apply Rle_pow; [lra|lia].
Qed.
Lemma wt_ratio N P q : (0 <= P <= N)%Z -> (0 <= q <= N)%Z -> (N <= 64)%Z -> 0 < wt N q / wt N P <= 2 ^ 64.
Proof.
  intros HP Hq HN. unfold wt.
  assert (F : forall k, (0 <= k)%Z -> 0 < fct k) by (intros; apply fct_pos; auto).
  pose proof (F P ltac:(lia)). pose proof (F (N - P)%Z ltac:(lia)). pose proof (F q ltac:(lia)). pose proof (F (N - q)%Z ltac:(lia)).
  pose proof (F N ltac:(lia)).
  split; [apply Rdiv_lt_0_compat; apply Rmult_lt_0_compat; auto|].
  assert (Eb : forall k, (0 <= k <= N)%Z -> bin N k = fct N / (fct k * fct (N - k))).
  { intros k Hk. rewrite bin_fct by lia. pose proof (F k ltac:(lia)). pose proof (F (N - k)%Z ltac:(lia)).
    rewrite !ifct_inv by lia. field. lra. }
  pose proof (bin_ge1 N q Hq) as B1. pose proof (bin_le N P ltac:(lia)) as B2.
  assert (B3 : bin N P <= 2 ^ 64) by (eapply Rle_trans; [exact B2|apply Rle_pow; [lra|lia]]).
  replace (fct q * fct (N - q) / (fct P * fct (N - P))) with (bin N P / bin N q).
  2:{ rewrite !Eb by auto. field. lra. }
  apply Rmult_le_reg_r with (bin N q); [lra|]. unfold Rdiv. rewrite Rmult_assoc, Rinv_l, Rmult_1_r by lra.
  assert (0 < 2 ^ 64) by (apply pow_lt; lra). nra.
Qed.

(** ** The size of the terms, with real radii *)
Definition Wterm (N P q : Z) (r1 r2 : R) (rho : Z) : R :=
  bin P rho * bin (N - P) (N - q - rho) * (powerRZ r1 (P + (N - q) - 2 * rho) * powerRZ r2 (q - P + 2 * rho)).
Definition Wsize (N P q : Z) (r1 r2 : R) : R :=
  sqrt (wt N q / wt N P) * rsum (Tlo P q) (Thi N P q) (Wterm N P q r1 r2).
Lemma Wterm_pow N P q x y rho : 0 < x -> 0 < y -> (0 <= rho)%Z ->
  powerRZ x (P + (N - q) - 2 * rho) * powerRZ y (q - P + 2 * rho)
  = powerRZ x (P + (N - q)) * powerRZ y (q - P) * (y * y / (x * x)) ^ Z.to_nat rho.
Proof.
  intros Hx Hy Hr. pose proof (powerRZ_ratio x y (P + (N - q)) (q - P) rho Hx Hy Hr) as E.
  replace (- y * y / (x * x)) with (-1 * (y * y / (x * x))) in E by (field; lra).
  rewrite Rpow_mult_distr, <- sgn_pow in E by auto.
  assert (S2 : sgn rho * sgn rho = 1) by (unfold sgn; destruct (Z.even rho); ring).
  apply (f_equal (fun z => z * sgn rho)) in E.
  transitivity (powerRZ x (P + (N - q) - 2 * rho) * powerRZ y (q - P + 2 * rho) * (sgn rho * sgn rho)); [rewrite S2; ring|].
  rewrite <- Rmult_assoc, E.
  transitivity (powerRZ x (P + (N - q)) * powerRZ y (q - P) * (y * y / (x * x)) ^ Z.to_nat rho * (sgn rho * sgn rho)); [ring|rewrite S2; ring].
Qed.
Lemma Wsize_main N P q r1 r2 A : (0 <= P <= N)%Z -> (0 <= q <= N)%Z -> 0 < r1 -> 0 < r2 ->
  Tt N P q (r2 * r2 / (r1 * r1)) (Tlo P q) * A = rsum (Tlo P q) (Thi N P q) (Tt N P q (r2 * r2 / (r1 * r1))) ->
  Wsize N P q r1 r2 = sqrt (wt N q / wt N P) * bin P (Tlo P q) * bin (N - P) (N - q - Tlo P q)
     * powerRZ r1 (P + (N - q) - 2 * Tlo P q) * powerRZ r2 (q - P + 2 * Tlo P q) * A.
Proof.
  intros HP Hq H1 H2 HA. unfold Wsize. pose proof (T_lo_le N P q HP Hq).
  rewrite (rsum_ext _ _ _ (fun i => powerRZ r1 (P + (N - q)) * powerRZ r2 (q - P) * Tt N P q (r2 * r2 / (r1 * r1)) i)).
  - rewrite rsum_scal, <- HA. unfold Tt.
    transitivity (sqrt (wt N q / wt N P) * bin P (Tlo P q) * bin (N - P) (N - q - Tlo P q) *
      (powerRZ r1 (P + (N - q) - 2 * Tlo P q) * powerRZ r2 (q - P + 2 * Tlo P q)) * A); [|ring].
    rewrite Wterm_pow by (auto; lia). ring.
  - intros i Hi. unfold Wterm, Tt. rewrite Wterm_pow by (auto; lia). ring.
Qed.
Lemma Wsize_flip N p q ra rb : (0 <= p <= N)%Z -> (0 <= q <= N)%Z -> Wsize N (N - p) q rb ra = Wsize N p q ra rb.
Proof.
  intros Hp Hq. unfold Wsize. rewrite wt_flip. f_equal.
  symmetry. rewrite (rsum_rev (Tlo p q)), (rsum_shift (- Thi N p q) _ (N - q)).
  replace (- Thi N p q + (N - q))%Z with (Tlo (N - p) q) by (unfold Tlo, Thi; lia).
  replace (- Tlo p q + (N - q))%Z with (Thi N (N - p) q) by (unfold Tlo, Thi; lia).
  apply rsum_ext. intros i Hi. unfold Wterm.
  replace (- (i - (N - q)))%Z with (N - q - i)%Z by lia.
  replace (N - q - (N - q - i))%Z with i by lia. replace (N - (N - p))%Z with p by lia.
  replace (p + (N - q) - 2 * (N - q - i))%Z with (q - (N - p) + 2 * i)%Z by lia.
  replace (q - p + 2 * (N - q - i))%Z with (N - p + (N - q) - 2 * i)%Z by lia. ring.
Qed.
Lemma Wigner_size_W N p q a b : (0 <= p <= N)%Z -> (0 <= q <= N)%Z -> 0 < Cmod a -> 0 < Cmod b ->
  Wigner_size N (2 * p - N) (2 * q - N) a b = Wsize N p q (Cmod a) (Cmod b).
Proof.
  intros Hp Hq Ha Hb. unfold Wigner_size, Wsize. cbv zeta.
  replace (N + (2 * p - N))%Z with (p * 2)%Z by lia.
  replace (N + (2 * q - N))%Z with (q * 2)%Z by lia.
  replace (N - (2 * p - N))%Z with ((N - p) * 2)%Z by lia.
  replace (N - (2 * q - N))%Z with ((N - q) * 2)%Z by lia.
  rewrite !Z.div_mul by lia. fold (wt N q). fold (wt N p). f_equal.
  symmetry. rewrite (rsum_ext (Tlo p q) (Thi N p q) _ (fun rho =>
      bin p rho * bin (N - p) (N - q - rho)
      * Cmod a ^ Z.to_nat (p - rho) * Cmod a ^ Z.to_nat (N - q - rho)
      * Cmod b ^ Z.to_nat (rho - p + q) * Cmod b ^ Z.to_nat rho)).
  - apply rsum_widen; [unfold Tlo; lia|unfold Thi; lia|].
    intros i Hi Ho. unfold Tlo, Thi in *.
    destruct (Z_lt_ge_dec p i); [rewrite (bin_out p) by lia; ring|].
    rewrite (bin_out (N - p)) by lia. ring.
  - intros i Hi. unfold Wterm, Tlo, Thi in *. rewrite !pow_powerRZ by lia.
    replace (p + (N - q) - 2 * i)%Z with ((p - i) + (N - q - i))%Z by lia.
    replace (q - p + 2 * i)%Z with ((i - p + q) + i)%Z by lia.
    rewrite !powerRZ_add by lra. ring.
Qed.

(** ** The coefficient *)
Definition coeff (N P q : Z) : R := sqrt (wt N q / wt N P) * bin P (Tlo P q) * bin (N - P) (N - q - Tlo P q).
Lemma coeff_bound N P q : (0 <= P <= N)%Z -> (0 <= q <= N)%Z -> (N <= 64)%Z -> 0 <= coeff N P q <= 2 ^ 128.
Proof.
  intros HP Hq HN. unfold coeff. pose proof (wt_ratio N P q HP Hq HN) as W. pose proof (bin2_le N P (Tlo P q) (N - q - Tlo P q) HP HN) as B.
  pose proof (sqrt_pos (wt N q / wt N P)) as S0.
  assert (S1 : sqrt (wt N q / wt N P) <= 2 ^ 64).
  { apply Rle_trans with (sqrt (2 ^ 64 * 2 ^ 64)).
    - apply sqrt_le_1_alt. assert (1 <= 2 ^ 64) by (apply pow_R1_Rle; lra). nra.
    - rewrite sqrt_square; [lra|]. apply pow_le. lra. }
  rewrite Rmult_assoc. split; [apply Rmult_le_pos; lra|].
  replace (2 ^ 128) with (2 ^ 64 * 2 ^ 64) by (rewrite <- pow_add; reflexivity). apply Rmult_le_compat; lra.
Qed.
Lemma entry_coeff N P q : (0 <= P <= N)%Z -> (0 <= q <= N)%Z -> Wigner_entry N (2 * P - N) (2 * q - N) = coeff N P q.
Proof.
  intros HP Hq. unfold Wigner_entry, coeff, wt. cbv zeta.
  replace (N + (2 * q - N))%Z with (q * 2)%Z by lia. replace (N - (2 * q - N))%Z with ((N - q) * 2)%Z by lia.
  replace (N + (2 * P - N))%Z with (P * 2)%Z by lia. replace (N - (2 * P - N))%Z with ((N - P) * 2)%Z by lia.
  replace (Z.max 0 (2 * P - N - (2 * q - N)))%Z with (Tlo P q * 2)%Z by (unfold Tlo; lia).
  replace ((N - q) * 2 - Tlo P q * 2)%Z with ((N - q - Tlo P q) * 2)%Z by lia.
  rewrite !Z.div_mul by lia. reflexivity.
Qed.
Lemma coeff64_ok N P q : (0 <= N <= 64)%Z -> (0 <= P <= N)%Z -> (0 <= q <= N)%Z ->
  exists c, coeff64 N (2 * P - N) (2 * q - N) = Ok c /\ rel 2 c (coeff N P q).
Proof.
  intros HN HP Hq. unfold coeff64.
  destruct (@IndexProps.C05_Wigner _ Wigner_stored (fun _ => (0, 0)%Z) 32 ltac:(lia)) as (tab & E & G).
  unfold Wigner_file. rewrite E. cbn [bind].
  destruct (D_indices_pq N P q HP Hq) as (_ & _ & E1 & E2).
  rewrite G by (auto; lia). cbn [bind]. eexists. split; [reflexivity|].
  pose proof (stored_ok (Z.to_nat N) (Z.to_nat q) (Z.to_nat P) ltac:(lia) ltac:(lia) ltac:(lia)) as K.
  rewrite !Z2Nat.id in K by lia. rewrite entry_coeff in K by auto. unfold one_ulp_below in K.
  pose proof (coeff_bound N P q HP Hq ltac:(lia)) as B.
  unfold rel, near. rewrite Rplus_0_r, Rabs_minus_sym, !Rabs_pos_eq by lra.
  eapply Rle_trans; [apply K|]. apply Rmult_le_compat_r; [lra|]. pose proof (g_ge 2) as G2. simpl INR in G2. lra.
Qed.

(** ** The loop of one row *)
Lemma prod_range d a b : (1 <= d <= 2)%Z -> (1 <= a <= 64)%Z -> (1 <= b <= 64)%Z -> (1 <= d * d * (a * b) < 2 ^ 40)%Z.
Proof.
  intros Hd Ha Hb. assert (E1 : (1 <= a * b <= 64 * 64)%Z) by nia. generalize dependent (a * b)%Z. intros c Hc.
  assert (D : (d = 1 \/ d = 2)%Z) by lia. destruct D as [-> | ->]; lia.
Qed.
Section Loop.
  Variables (N P q : Z) (r1 r2 h1 h2 : R).
  Hypothesis HN : (0 <= N <= 64)%Z.
  Hypothesis HP : (0 <= P <= N)%Z.
  Hypothesis Hq : (0 <= q <= N)%Z.
  Hypothesis B1 : / 10 ^ 16 <= r1 <= 3 / 2.
  Hypothesis B2 : / 10 ^ 16 <= r2 <= 3 / 2.
  Hypothesis R1 : rel 3 h1 r1.
  Hypothesis R2 : rel 3 h2 r2.
  Hypothesis Hle : h2 <= h1.
  Let lo := Tlo P q.
  Let hi := Thi N P q.
  Let y := r2 * r2 / (r1 * r1).
  Let n := Z.to_nat (hi - lo).

  Lemma p16 : 0 < / 10 ^ 16.
  Proof. apply Rinv_0_lt_compat, pow_lt. lra. Qed.
  Lemma y_pos' : 0 < y.
  Proof. pose proof p16. unfold y. apply Rdiv_lt_0_compat; apply Rmult_lt_0_compat; lra. Qed.
  Lemma y_low : / 2 ^ 200 <= y.
  Proof.
    pose proof p16. unfold y. apply Rmult_le_reg_r with (r1 * r1); [apply Rmult_lt_0_compat; lra|].
    unfold Rdiv. rewrite Rmult_assoc, Rinv_l, Rmult_1_r by (apply Rgt_not_eq, Rmult_lt_0_compat; lra).
    assert (E1 : r1 * r1 <= 3 / 2 * (3 / 2)) by (apply Rmult_le_compat; lra).
    assert (E2 : / 10 ^ 16 * / 10 ^ 16 <= r2 * r2) by (apply Rmult_le_compat; lra).
    assert (E3 : / 2 ^ 200 <= / 10 ^ 40). { apply Rinv_le_contravar; [apply pow_lt; lra|]. simpl; lra. }
    assert (0 < / 2 ^ 200) by (apply Rinv_0_lt_compat, pow_lt; lra).
    assert (/ 2 ^ 200 * (r1 * r1) <= / 10 ^ 40 * (9 / 4)) by (apply Rmult_le_compat; nra).
    assert (/ 10 ^ 40 * (9 / 4) <= / 10 ^ 16 * / 10 ^ 16) by (simpl; lra). lra.
  Qed.
  Lemma y_up : y <= 1005 / 1000.
  Proof.
    pose proof p16. assert (G : g 3 <= 1 / 1000) by (apply g_half; lia).
    assert (E1 : Rabs (h1 - r1) <= / 1000 * r1).
    { eapply Rle_trans; [exact R1|]. rewrite (Rabs_pos_eq r1), Rplus_0_r by lra. apply Rmult_le_compat_r; lra. }
    assert (E2 : Rabs (h2 - r2) <= / 1000 * r2).
    { eapply Rle_trans; [exact R2|]. rewrite (Rabs_pos_eq r2), Rplus_0_r by lra. apply Rmult_le_compat_r; lra. }
    apply Rabs_le_inv in E1, E2. assert (r2 <= 10021 / 10000 * r1) by lra.
    unfold y. apply Rmult_le_reg_r with (r1 * r1); [apply Rmult_lt_0_compat; lra|].
    unfold Rdiv. rewrite Rmult_assoc, Rinv_l, Rmult_1_r by (apply Rgt_not_eq, Rmult_lt_0_compat; lra). nra.
  Qed.
  Lemma ratio_rel : rel 16 (ratio64 h2 h1) (- y).
  Proof.
    pose proof p16. unfold ratio64.
    assert (Q1 : / 2 ^ 500 <= r1 * r1 /\ / 2 ^ 500 <= r2 * r2).
    { assert (E3 : / 2 ^ 500 <= / 10 ^ 40). { apply Rinv_le_contravar; [apply pow_lt; lra|]. simpl; lra. }
      assert (/ 10 ^ 16 * / 10 ^ 16 <= r2 * r2) by (apply Rmult_le_compat; lra).
      assert (/ 10 ^ 16 * / 10 ^ 16 <= r1 * r1) by (apply Rmult_le_compat; lra).
      assert (/ 10 ^ 40 <= / 10 ^ 16 * / 10 ^ 16) by (simpl; lra). lra. }
    assert (T1 : rel 7 (RN64 (- h2 * h2)) (- r2 * r2)).
    { apply (rel_RN 6); [|lia|]; [apply (rel_mul 3 _ _ 3); auto using rel_opp|].
      rewrite Rabs_left by nra. apply low_le. lra. }
    assert (T2 : rel 7 (RN64 (h1 * h1)) (r1 * r1)).
    { apply (rel_RN 6); [|lia|]; [apply (rel_mul 3 _ _ 3); auto|].
      rewrite Rabs_pos_eq by nra. apply low_le. lra. }
    replace (- y) with (- r2 * r2 / (r1 * r1)) by (unfold y; field; lra).
    apply (rel_RN 15); [|lia|].
    - apply (rel_div 7 _ _ 7); auto; [lia|nra].
    - replace (- r2 * r2 / (r1 * r1)) with (- y) by (unfold y; field; lra). rewrite Rabs_Ropp, Rabs_pos_eq by (left; apply y_pos').
      apply low_le. eapply Rle_trans; [|apply y_low]. apply Rinv_le_contravar; [apply pow_lt; lra|]. apply Rle_pow; [lra|lia].
  Qed.
  Lemma n_half : (2 * n <= Z.to_nat N)%nat.
  Proof. unfold n, lo, hi, Tlo, Thi. lia. Qed.
  Lemma A_bound A : Tt N P q y lo * A = rsum lo hi (Tt N P q y) -> A <= 2 ^ 72.
  Proof.
    intros HA. pose proof (T_lo_le N P q HP Hq) as HL. fold lo hi in HL. pose proof y_pos' as Y0. pose proof y_up as Y1.
    assert (Pw : 0 < y ^ Z.to_nat lo) by (apply pow_lt; auto).
    assert (TL : y ^ Z.to_nat lo <= Tt N P q y lo).
    { unfold Tt. rewrite <- (Rmult_1_l (y ^ _)) at 1. apply Rmult_le_compat_r; [lra|].
      pose proof (bin_ge1 P lo ltac:(unfold lo, Tlo in *; lia)) as G1. pose proof (bin_ge1 (N - P) (N - q - lo) ltac:(unfold lo, Tlo in *; lia)) as G2. nra. }
    assert (TB : forall i, (lo <= i <= hi)%Z -> Tt N P q y i <= 2 ^ 65 * y ^ Z.to_nat lo).
    { intros i Hi. unfold Tt. replace (Z.to_nat i) with (Z.to_nat lo + Z.to_nat (i - lo))%nat by lia. rewrite pow_add.
      assert (Z1 : y ^ Z.to_nat (i - lo) <= 2).
      { apply Rle_trans with ((1005 / 1000) ^ Z.to_nat (i - lo)); [apply pow_incr; lra|].
        apply Rle_trans with ((1005 / 1000) ^ 64); [apply Rle_pow; [lra|unfold lo, hi, Tlo, Thi in *; lia]|]. simpl; lra. }
      assert (Z0 : 0 <= y ^ Z.to_nat (i - lo)) by (apply pow_le; lra).
      pose proof (bin2_le N P i (N - q - i) HP ltac:(lia)) as B.
      replace (bin P i * bin (N - P) (N - q - i) * (y ^ Z.to_nat lo * y ^ Z.to_nat (i - lo)))
        with ((bin P i * bin (N - P) (N - q - i)) * y ^ Z.to_nat (i - lo) * y ^ Z.to_nat lo) by ring.
      apply Rmult_le_compat_r; [lra|]. replace (2 ^ 65) with (2 ^ 64 * 2) by (simpl; ring). apply Rmult_le_compat; lra. }
    assert (SB : rsum lo hi (Tt N P q y) <= 65 * (2 ^ 65 * y ^ Z.to_nat lo)).
    { apply Rle_trans with (rsum lo hi (fun i => 1 * (2 ^ 65 * y ^ Z.to_nat lo))).
      - apply rsum_le. intros i Hi. rewrite Rmult_1_l. auto.
      - rewrite rsum_scal_r. apply Rmult_le_compat_r; [apply Rmult_le_pos; [apply pow_le; lra|lra]|].
        assert (Ones : forall b, (lo <= b + 1)%Z -> rsum lo b (fun _ => 1) = IZR (b - lo + 1)).
        { intros b Hb. assert (E : forall k, (0 <= k)%Z -> rsum lo (lo - 1 + k) (fun _ => 1) = IZR k).
          - apply natlike_ind; [rewrite rsum_empty by lia; reflexivity|].
            intros k Hk IH. unfold Z.succ. rewrite rsum_last by lia. replace (lo - 1 + (k + 1) - 1)%Z with (lo - 1 + k)%Z by lia.
            rewrite IH, plus_IZR. ring.
          - specialize (E (b - lo + 1)%Z ltac:(lia)). replace (lo - 1 + (b - lo + 1))%Z with b in E by lia. auto. }
        rewrite Ones by lia. apply (IZR_le _ 65). unfold lo, hi, Tlo, Thi in *. lia. }
    destruct (Rle_dec A 0); [assert (0 < 2 ^ 72) by (apply pow_lt; lra); lra|].
    assert (Hm : y ^ Z.to_nat lo * A <= y ^ Z.to_nat lo * (65 * 2 ^ 65)).
    { apply Rle_trans with (Tt N P q y lo * A); [apply Rmult_le_compat_r; lra|]. lra. }
    apply Rmult_le_reg_l in Hm; auto. eapply Rle_trans; [exact Hm|]. simpl; lra.
  Qed.

  (** the loop with step [-d] and indices multiplied by [d] = 1 or 2 *)
  Lemma loop_err d : (1 <= d <= 2)%Z ->
    exists S A S64,
      for_loop n (d * hi) (- d) (sum_step64 (ratio64 h2 h1) (d * (P + 1)) (d * (N - q + 1)) (d * (q - P))) 1 = Ok S64
      /\ Tt N P q (- r2 * r2 / (r1 * r1)) lo * S = rsum lo hi (Tt N P q (- r2 * r2 / (r1 * r1)))
      /\ Tt N P q y lo * A = rsum lo hi (Tt N P q y)
      /\ Rabs S <= A /\ 1 <= A <= 2 ^ 72 /\ Rabs (S64 - S) <= g (21 * n) * A.
  Proof.
    intros Hd. pose proof (T_lo_le N P q HP Hq) as HL. fold lo hi in HL. pose proof p16. pose proof y_pos' as Y0. pose proof n_half as Hn.
    assert (Hx : - r2 * r2 / (r1 * r1) = - y) by (unfold y; field; lra).
    rewrite Hx.
    destruct (sum_loop_err n (d * hi) (- d) (- y) (ratio64 h2 h1) (d * (P + 1)) (d * (N - q + 1)) (d * (q - P)) 1 1 1 0)
      as (S & A & S64 & E1 & E2 & E3 & F1 & F2 & F3).
    - apply ratio_rel.
    - lra.
    - rewrite Ropp_involutive. apply y_low.
    - intros j Hj. cbv zeta. replace (d * hi + j * - d)%Z with (d * (hi - j))%Z by ring.
      assert (J : (lo < hi - j <= hi)%Z) by (unfold n in Hj; lia). set (r := (hi - j)%Z) in *. clearbody r.
      assert (T : (1 <= r /\ 1 <= q - P + r /\ 1 <= P + 1 - r /\ 1 <= N - q + 1 - r /\ r <= 64 /\ q - P + r <= 64 /\ P + 1 - r <= 64 /\ N - q + 1 - r <= 64)%Z).
      { unfold lo, hi, Tlo, Thi in *. lia. }
      split.
      + replace (d * r * (d * (q - P) + d * r))%Z with (d * d * (r * (q - P + r)))%Z by ring.
        apply prod_range; [lia|lia|lia].
      + replace ((d * (P + 1) - d * r) * (d * (N - q + 1) - d * r))%Z with (d * d * ((P + 1 - r) * (N - q + 1 - r)))%Z by ring.
        apply prod_range; [lia|lia|lia].
    - rewrite Rabs_R1. lra.
    - lra.
    - replace (1 - 1) with 0 by ring. rewrite Rabs_R0. pose proof (g_pos 0). lra.
    - lia.
    - assert (Conv : forall x s, for_loop n (d * hi) (- d) (sum_step x (d * (P + 1)) (d * (N - q + 1)) (d * (q - P))) s
          = for_down hi lo (sum_step x (P + 1) (N - q + 1) (q - P)) s).
      { intros x s. unfold for_down. fold n. apply for_loop_ext. intros k s' Hk. unfold sum_step.
        replace (d * hi + k * - d)%Z with (d * (hi + k * -1))%Z by ring. generalize (hi + k * -1)%Z. intros r.
        replace (d * r * (d * (q - P) + d * r))%Z with (d * d * (r * (q - P + r)))%Z by ring.
        replace ((d * (P + 1) - d * r) * (d * (N - q + 1) - d * r))%Z with (d * d * ((P + 1 - r) * (N - q + 1 - r)))%Z by ring.
        assert (DD : (1 <= d * d)%Z) by nia. generalize dependent (d * d)%Z. intros D DD.
        destruct (Z.eqb_spec (D * (r * (q - P + r))) 0), (Z.eqb_spec (r * (q - P + r)) 0); auto; try nia.
        f_equal. rewrite !(mult_IZR D). assert (IZR (r * (q - P + r)) <> 0) by (apply not_0_IZR; auto).
        assert (IZR D <> 0) by (apply not_0_IZR; lia). field. auto. }
      rewrite Conv in E1, E2. rewrite Ropp_involutive in E2.
      destruct (Tt_loop N P q (- y) HP Hq) as (S' & G1 & G2). destruct (Tt_loop N P q y HP Hq) as (A' & G3 & G4).
      fold lo hi in G1, G2, G3, G4. rewrite E1 in G1. injection G1 as <-. rewrite E2 in G3. injection G3 as <-.
      exists S, A, S64. repeat split; auto. apply (A_bound A G4).
  Qed.
End Loop.
