(** The branches of the D evaluators compute Wigner's formula. *)
Require Import ZArith Lia Reals Lra Bool.
From Coquelicot Require Import Complex.
From Verif Require Import Base BaseProofs CBase CSum RSum Fact SymPow WignerSpec DRep IndexModel IndexProofs WignerModel.
Open Scope R_scope.

(** ** The summation loop *)
Lemma sum_loop_ok (T : Z -> R) x N1 N2 M lo hi : (lo <= hi)%Z ->
  (forall rho, (lo < rho <= hi)%Z -> (rho * (M + rho))%Z <> 0%Z
     /\ T rho * IZR (rho * (M + rho)) = T (rho - 1)%Z * (x * IZR ((N1 - rho) * (N2 - rho)))) ->
  exists S, for_down hi lo (sum_step x N1 N2 M) 1 = Ok S /\ T lo * S = rsum lo hi T.
Proof.
  intros Hle HT.
  destruct (for_down_inv (fun i S => T i * S = rsum i hi T) hi lo (sum_step x N1 N2 M) 1 Hle)
    as (S & E & I).
  - rewrite rsum_one. ring.
  - intros i S Hi I. destruct (HT i Hi) as (Hz & Hr). unfold sum_step.
    destruct (Z.eqb_spec (i * (M + i)) 0); [lia|]. eexists; split; [reflexivity|].
    rewrite (rsum_first (i - 1) hi) by lia. replace (i - 1 + 1)%Z with i by lia. rewrite <- I.
    assert (IZR (i * (M + i)) <> 0) by (apply not_0_IZR; auto).
    assert (T (i - 1)%Z * (x * IZR ((N1 - i) * (N2 - i)) / IZR (i * (M + i))) = T i).
    { unfold Rdiv. rewrite <- Rmult_assoc, <- Hr. field. auto. }
    rewrite Rmult_plus_distr_l, Rmult_1_r.
    rewrite (Rmult_comm S), <- Rmult_assoc, H0. ring.
  - exists S. auto.
Qed.

Lemma for_loop_ext {S} n (b1 b2 : Z -> S -> res S) i1 i2 st1 st2 s :
  (forall k s, (0 <= k < Z.of_nat n)%Z -> b1 (i1 + k * st1)%Z s = b2 (i2 + k * st2)%Z s) ->
  for_loop n i1 st1 b1 s = for_loop n i2 st2 b2 s.
Proof.
  revert i1 i2 s. induction n as [|n IH]; intros i1 i2 s H; [reflexivity|].
  cbn [for_loop]. pose proof (H 0%Z s ltac:(lia)) as H0. rewrite !Z.mul_0_l, !Z.add_0_r in H0.
  rewrite H0. destruct (b2 i2 s) as [s'|e]; cbn [bind]; auto.
  apply IH. intros k s'' Hk. specialize (H (k + 1)%Z s'' ltac:(lia)).
  replace (i1 + (k + 1) * st1)%Z with (i1 + st1 + k * st1)%Z in H by lia.
  replace (i2 + (k + 1) * st2)%Z with (i2 + st2 + k * st2)%Z in H by lia. auto.
Qed.

Lemma sum_loop2 x a b c hi lo s :
  for_down2 (2 * hi) (2 * lo) (sum_step x (2 * a) (2 * b) (2 * c)) s
  = for_down hi lo (sum_step x a b c) s.
Proof.
  unfold for_down2, for_down. replace (Z.to_nat ((2 * hi - 2 * lo + 1) / 2)) with (Z.to_nat (hi - lo)).
  2:{ f_equal. replace (2 * hi - 2 * lo + 1)%Z with (1 + (hi - lo) * 2)%Z by lia.
      rewrite Z.div_add by lia. reflexivity. }
  apply for_loop_ext. intros k s' Hk. unfold sum_step.
  replace (2 * hi + k * -2)%Z with (2 * (hi + k * -1))%Z by lia. generalize (hi + k * -1)%Z. intros r.
  replace (2 * r * (2 * c + 2 * r))%Z with (4 * (r * (c + r)))%Z by ring.
  replace ((2 * a - 2 * r) * (2 * b - 2 * r))%Z with (4 * ((a - r) * (b - r)))%Z by ring.
  destruct (Z.eqb_spec (4 * (r * (c + r))) 0), (Z.eqb_spec (r * (c + r)) 0); auto; try lia.
  f_equal. rewrite !(mult_IZR 4). assert (IZR (r * (c + r)) <> 0) by (apply not_0_IZR; auto).
  field. auto.
Qed.

Lemma bin_up n k : (0 <= n)%Z -> bin n k * IZR k = bin n (k - 1) * IZR (n - k + 1).
Proof.
  intros. rewrite !bin_fct by auto. replace (n - (k - 1))%Z with (n - k + 1)%Z by lia.
  rewrite <- (ifct_step k), (ifct_step' (n - k)). ring.
Qed.

(** The terms of the sum, as a real sequence. *)
Definition Tt (N P q : Z) (x : R) (rho : Z) : R :=
  bin P rho * bin (N - P) (N - q - rho) * x ^ Z.to_nat rho.
Definition Tlo (P q : Z) : Z := Z.max 0 (P - q).
Definition Thi (N P q : Z) : Z := Z.min P (N - q).

Lemma T_lo_le N P q : (0 <= P <= N)%Z -> (0 <= q <= N)%Z -> (0 <= Tlo P q <= Thi N P q)%Z.
Proof. unfold Tlo, Thi. lia. Qed.

Lemma Tt_loop N P q x : (0 <= P <= N)%Z -> (0 <= q <= N)%Z ->
  exists S, for_down (Thi N P q) (Tlo P q) (sum_step x (P + 1) (N - q + 1) (q - P)) 1 = Ok S
    /\ Tt N P q x (Tlo P q) * S = rsum (Tlo P q) (Thi N P q) (Tt N P q x).
Proof.
  intros HP Hq. pose proof (T_lo_le N P q HP Hq). apply sum_loop_ok; [lia|].
  intros rho Hr. unfold Tlo, Thi in *. split; [nia|].
  unfold Tt. replace (Z.to_nat rho) with (S (Z.to_nat (rho - 1))) by lia. cbn [pow].
  rewrite !mult_IZR. pose proof (bin_up P rho ltac:(lia)) as E1.
  pose proof (bin_up (N - P) (N - q - rho + 1) ltac:(lia)) as E2.
  replace (N - q - rho + 1 - 1)%Z with (N - q - rho)%Z in E2 by lia.
  replace (N - P - (N - q - rho + 1) + 1)%Z with (q - P + rho)%Z in E2 by lia.
  replace (N - q - (rho - 1))%Z with (N - q - rho + 1)%Z by lia.
  replace (P + 1 - rho)%Z with (P - rho + 1)%Z by lia.
  replace (N - q + 1 - rho)%Z with (N - q - rho + 1)%Z by lia.
  set (w := x ^ Z.to_nat (rho - 1)) in *.
  transitivity ((bin P rho * IZR rho) * (bin (N - P) (N - q - rho) * IZR (q - P + rho)) * (x * w)); [ring|].
  rewrite E1, <- E2. ring.
Qed.

(** ** Polar forms *)
Lemma Cpow_polar r t n : Cpow (RtoC r * cis t)%C n = (RtoC (r ^ n) * cis (INR n * t))%C.
Proof. rewrite Cpow_mul, Cpow_RtoC, cis_pow. auto. Qed.
Lemma Cpow_conj_polar r t n : Cpow (Cconj (RtoC r * cis t)%C) n = (RtoC (r ^ n) * cis (- (INR n * t)))%C.
Proof.
  rewrite <- Cpow_conj, Cpow_polar, Cconj_mult, Cconj_RtoC, <- cis_neg. auto.
Qed.
Lemma INR_to_nat k : (0 <= k)%Z -> INR (Z.to_nat k) = IZR k.
Proof. intros. rewrite INR_IZR_INZ, Z2Nat.id by auto. auto. Qed.
Lemma pow_powerRZ x k : (0 <= k)%Z -> x ^ Z.to_nat k = powerRZ x k.
Proof.
  intros. rewrite <- (Z2Nat.id k) at 2 by auto.
  generalize (Z.to_nat k). intros n. symmetry. rewrite <- pow_powerRZ. auto.
Qed.

Lemma Dterm_polar N p q ra rb al be rho : (0 <= rho)%Z -> (rho <= p)%Z -> (rho <= N - q)%Z -> (p - q <= rho)%Z ->
  Dterm N p q (RtoC ra * cis al)%C (RtoC rb * cis be)%C rho =
  (RtoC (bin p rho * bin (N - p) (N - q - rho) * sgn rho
         * powerRZ ra (p + (N - q) - 2 * rho) * powerRZ rb (q - p + 2 * rho))
   * cis (al * IZR (p + q - N) + be * IZR (q - p)))%C.
Proof.
  intros H0 H1 H2 H3. unfold Dterm. rewrite !Cpow_conj_polar, !Cpow_polar.
  rewrite !INR_to_nat by lia.
  rewrite <- !pow_powerRZ by lia.
  replace (Z.to_nat (p + (N - q) - 2 * rho)) with (Z.to_nat (p - rho) + Z.to_nat (N - q - rho))%nat by lia.
  replace (Z.to_nat (q - p + 2 * rho)) with (Z.to_nat (rho - p + q) + Z.to_nat rho)%nat by lia.
  rewrite !pow_add.
  replace (al * IZR (p + q - N) + be * IZR (q - p)) with
    ((IZR (p - rho) * al + - (IZR (N - q - rho) * al)) + (IZR (rho - p + q) * be + - (IZR rho * be))).
  2:{ rewrite !minus_IZR, !plus_IZR, !minus_IZR. ring. }
  rewrite !cis_add, !RtoC_mult. ring.
Qed.

Lemma rsum_RtoC lo hi f : RtoC (rsum lo hi f) = csum lo hi (fun i => RtoC (f i)).
Proof.
  revert hi. apply (csum_ind (fun hi => RtoC (rsum lo hi f) = csum lo hi (fun i => RtoC (f i))) lo).
  - intros b Hb. rewrite rsum_empty, csum_empty by auto. auto.
  - intros b Hb IH. rewrite rsum_last, csum_last by auto. rewrite RtoC_plus, IH. auto.
Qed.

Lemma Dm_window N p q a b : (0 <= p <= N)%Z -> (0 <= q <= N)%Z ->
  Dm N p q a b = (RtoC (sqrt (wt N q / wt N p)) * csum (Tlo p q) (Thi N p q) (Dterm N p q a b))%C.
Proof.
  intros Hp Hq. rewrite (Dm_sum N p q a b 0 N) by lia. fold (wt N q). fold (wt N p). f_equal.
  symmetry. apply csum_widen; [unfold Tlo; lia|unfold Thi; lia|].
  intros i Hi Ho. unfold Dterm, Tlo, Thi in *.
  destruct (Z_lt_ge_dec p i); [rewrite (bin_out p) by lia; ring|].
  rewrite (bin_out (N - p)) by lia. ring.
Qed.

Lemma powerRZ_ratio x y e f r : 0 < x -> 0 < y -> (0 <= r)%Z ->
  powerRZ x (e - 2 * r) * powerRZ y (f + 2 * r) * sgn r
  = powerRZ x e * powerRZ y f * (- y * y / (x * x)) ^ Z.to_nat r.
Proof.
  intros Hx Hy. revert r. apply natlike_ind.
  - simpl Z.to_nat. rewrite Z.mul_0_r, Z.sub_0_r, Z.add_0_r, sgn_0. simpl. ring.
  - intros r Hr IH. unfold Z.succ. replace (Z.to_nat (r + 1)) with (S (Z.to_nat r)) by lia.
    cbn [pow]. rewrite sgn_succ.
    transitivity (powerRZ x e * powerRZ y f * (- y * y / (x * x)) ^ Z.to_nat r * (- y * y / (x * x))); [|ring].
    rewrite <- IH.
    replace (e - 2 * (r + 1))%Z with (e - 2 * r + -2)%Z by lia. replace (f + 2 * (r + 1))%Z with (f + 2 * r + 2)%Z by lia.
    rewrite !powerRZ_add by lra. simpl (powerRZ x (-2)). simpl (powerRZ y 2). field. lra.
Qed.

(** Value computed by the branch [ra >= rb]. *)
Lemma Dm_ge_polar N p q ra rb al be S : (0 <= p <= N)%Z -> (0 <= q <= N)%Z -> 0 < ra -> 0 < rb ->
  Tt N p q (- rb * rb / (ra * ra)) (Tlo p q) * S
    = rsum (Tlo p q) (Thi N p q) (Tt N p q (- rb * rb / (ra * ra))) ->
  Dm N p q (RtoC ra * cis al)%C (RtoC rb * cis be)%C =
  (RtoC (sqrt (wt N q / wt N p) * bin p (Tlo p q) * bin (N - p) (N - q - Tlo p q)
         * powerRZ ra (p + (N - q) - 2 * Tlo p q) * powerRZ rb (q - p + 2 * Tlo p q)
         * sgn (Tlo p q) * S)
   * cis (al * IZR (p + q - N) + be * IZR (q - p)))%C.
Proof.
  intros Hp Hq Ha Hb HS. rewrite Dm_window by auto.
  set (x := - rb * rb / (ra * ra)) in *.
  set (K := powerRZ ra (p + (N - q)) * powerRZ rb (q - p)).
  pose proof (T_lo_le N p q Hp Hq) as HL.
  rewrite (csum_ext _ _ _ (fun i => (RtoC K * cis (al * IZR (p + q - N) + be * IZR (q - p))) *
     RtoC (Tt N p q x i))%C).
  - rewrite csum_scal, <- rsum_RtoC, <- HS.
    unfold Tt. pose proof (powerRZ_ratio ra rb (p + (N - q)) (q - p) (Tlo p q) Ha Hb ltac:(lia)) as E.
    fold x in E. fold K in E.
    transitivity (RtoC (sqrt (wt N q / wt N p) * bin p (Tlo p q) * bin (N - p) (N - q - Tlo p q) *
      (K * x ^ Z.to_nat (Tlo p q)) * S) * cis (al * IZR (p + q - N) + be * IZR (q - p)))%C.
    + rewrite !RtoC_mult. ring.
    + rewrite <- E. rewrite !RtoC_mult. ring.
  - intros i Hi. unfold Tlo, Thi in *. rewrite Dterm_polar by lia.
    pose proof (powerRZ_ratio ra rb (p + (N - q)) (q - p) i Ha Hb ltac:(lia)) as E.
    fold x in E. fold K in E. unfold Tt.
    transitivity (RtoC (bin p i * bin (N - p) (N - q - i) * (K * x ^ Z.to_nat i)) *
       cis (al * IZR (p + q - N) + be * IZR (q - p)))%C.
    + rewrite <- E. rewrite !RtoC_mult. ring.
    + rewrite !RtoC_mult. ring.
Qed.

(** Value computed by the branch [ra < rb]. *)
Lemma Dm_lt_polar N p q ra rb al be S : (0 <= p <= N)%Z -> (0 <= q <= N)%Z -> 0 < ra -> 0 < rb ->
  Tt N (N - p) q (- ra * ra / (rb * rb)) (Tlo (N - p) q) * S
    = rsum (Tlo (N - p) q) (Thi N (N - p) q) (Tt N (N - p) q (- ra * ra / (rb * rb))) ->
  Dm N p q (RtoC ra * cis al)%C (RtoC rb * cis be)%C =
  (RtoC (sqrt (wt N q / wt N p) * bin (N - p) (Tlo (N - p) q) * bin p (N - q - Tlo (N - p) q)
         * powerRZ rb ((N - p) + (N - q) - 2 * Tlo (N - p) q)
         * powerRZ ra (q - (N - p) + 2 * Tlo (N - p) q)
         * sgn (N - q - Tlo (N - p) q) * S)
   * cis (al * IZR (p + q - N) + be * IZR (q - p)))%C.
Proof.
  intros Hp Hq Ha Hb HS. rewrite Dm_window by auto.
  set (x := - ra * ra / (rb * rb)) in *.
  set (K := powerRZ rb ((N - p) + (N - q)) * powerRZ ra (q - (N - p))).
  pose proof (T_lo_le N (N - p) q ltac:(lia) Hq) as HL.
  assert (Hflip : csum (Tlo p q) (Thi N p q) (Dterm N p q (RtoC ra * cis al)%C (RtoC rb * cis be)%C) =
    csum (Tlo (N - p) q) (Thi N (N - p) q) (fun i => Dterm N p q (RtoC ra * cis al)%C (RtoC rb * cis be)%C (N - q - i))).
  { rewrite csum_rev. rewrite (csum_shift _ _ (N - q)).
    replace (- Thi N p q + (N - q))%Z with (Tlo (N - p) q) by (unfold Tlo, Thi; lia).
    replace (- Tlo p q + (N - q))%Z with (Thi N (N - p) q) by (unfold Tlo, Thi; lia).
    apply csum_ext. intros i Hi. f_equal. lia. }
  rewrite Hflip.
  rewrite (csum_ext _ _ _ (fun i => (RtoC (K * sgn (N - q)) * cis (al * IZR (p + q - N) + be * IZR (q - p))) *
     RtoC (Tt N (N - p) q x i))%C).
  - rewrite csum_scal, <- rsum_RtoC, <- HS.
    unfold Tt. pose proof (powerRZ_ratio rb ra ((N - p) + (N - q)) (q - (N - p)) (Tlo (N - p) q) Hb Ha ltac:(lia)) as E.
    fold x in E. fold K in E. rewrite (sgn_sub (N - q)).
    replace (N - (N - p))%Z with p by lia.
    transitivity (RtoC (sqrt (wt N q / wt N p) * bin (N - p) (Tlo (N - p) q) * bin p (N - q - Tlo (N - p) q) *
      (K * x ^ Z.to_nat (Tlo (N - p) q)) * sgn (N - q) * S) * cis (al * IZR (p + q - N) + be * IZR (q - p)))%C.
    + rewrite !RtoC_mult. ring.
    + rewrite <- E. rewrite !RtoC_mult. ring.
  - intros i Hi. unfold Tlo, Thi in *. rewrite Dterm_polar by lia.
    pose proof (powerRZ_ratio rb ra ((N - p) + (N - q)) (q - (N - p)) i Hb Ha ltac:(lia)) as E.
    fold x in E. fold K in E. unfold Tt. rewrite (sgn_sub (N - q)).
    replace (N - q - (N - q - i))%Z with i by lia. replace (N - (N - p))%Z with p by lia.
    replace (p + (N - q) - 2 * (N - q - i))%Z with (q - (N - p) + 2 * i)%Z by lia.
    replace (q - p + 2 * (N - q - i))%Z with (N - p + (N - q) - 2 * i)%Z by lia.
    transitivity (RtoC (bin p (N - q - i) * bin (N - p) i * (K * x ^ Z.to_nat i) * sgn (N - q)) *
       cis (al * IZR (p + q - N) + be * IZR (q - p)))%C.
    + rewrite <- E. rewrite !RtoC_mult. ring.
    + rewrite !RtoC_mult. ring.
Qed.

Lemma Dm_ge N p q a b S : (0 <= p <= N)%Z -> (0 <= q <= N)%Z -> 0 < Cmod a -> 0 < Cmod b ->
  Tt N p q (- Cmod b * Cmod b / (Cmod a * Cmod a)) (Tlo p q) * S
    = rsum (Tlo p q) (Thi N p q) (Tt N p q (- Cmod b * Cmod b / (Cmod a * Cmod a))) ->
  Dm N p q a b =
  (RtoC (sqrt (wt N q / wt N p) * bin p (Tlo p q) * bin (N - p) (N - q - Tlo p q)
         * powerRZ (Cmod a) (p + (N - q) - 2 * Tlo p q) * powerRZ (Cmod b) (q - p + 2 * Tlo p q)
         * sgn (Tlo p q) * S)
   * cis (phase a * IZR (p + q - N) + phase b * IZR (q - p)))%C.
Proof.
  intros Hp Hq Ha Hb HS.
  pose proof (Dm_ge_polar N p q (Cmod a) (Cmod b) (phase a) (phase b) S Hp Hq Ha Hb HS) as H.
  rewrite !polar_spec in H. exact H.
Qed.
Lemma Dm_lt N p q a b S : (0 <= p <= N)%Z -> (0 <= q <= N)%Z -> 0 < Cmod a -> 0 < Cmod b ->
  Tt N (N - p) q (- Cmod a * Cmod a / (Cmod b * Cmod b)) (Tlo (N - p) q) * S
    = rsum (Tlo (N - p) q) (Thi N (N - p) q) (Tt N (N - p) q (- Cmod a * Cmod a / (Cmod b * Cmod b))) ->
  Dm N p q a b =
  (RtoC (sqrt (wt N q / wt N p) * bin (N - p) (Tlo (N - p) q) * bin p (N - q - Tlo (N - p) q)
         * powerRZ (Cmod b) ((N - p) + (N - q) - 2 * Tlo (N - p) q)
         * powerRZ (Cmod a) (q - (N - p) + 2 * Tlo (N - p) q)
         * sgn (N - q - Tlo (N - p) q) * S)
   * cis (phase a * IZR (p + q - N) + phase b * IZR (q - p)))%C.
Proof.
  intros Hp Hq Ha Hb HS.
  pose proof (Dm_lt_polar N p q (Cmod a) (Cmod b) (phase a) (phase b) S Hp Hq Ha Hb HS) as H.
  rewrite !polar_spec in H. exact H.
Qed.
