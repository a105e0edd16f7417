(** How far the values of the two cut-off branches are from Wigner's formula. *)
Require Import ZArith Lia Reals Lra Bool.
From Coquelicot Require Import Rcomplements Complex.
From Verif Require Import Base BaseProofs CBase CSum RSum Fact SymPow WignerSpec DRep WignerModel WignerProofs WignerProofs2.
Open Scope R_scope.

Lemma bin_le_pow n k : (0 <= n)%Z -> (0 <= k)%Z -> bin n k <= IZR n ^ Z.to_nat k.
Proof.
  intros Hn. revert k. apply natlike_ind.
  - rewrite bin_0 by auto. simpl. lra.
  - intros k Hk IH. replace (Z.to_nat (Z.succ k)) with (S (Z.to_nat k)) by lia. cbn [pow]. unfold Z.succ.
    assert (Pn : 0 <= IZR n) by (apply IZR_le; auto).
    assert (Pp : 0 <= IZR n ^ Z.to_nat k) by (apply pow_le; auto).
    destruct (Z_lt_ge_dec n (k + 1)); [rewrite bin_out by lia; apply Rmult_le_pos; auto|].
    pose proof (bin_up n (k + 1) ltac:(lia)) as E. replace (k + 1 - 1)%Z with k in E by lia.
    replace (n - (k + 1) + 1)%Z with (n - k)%Z in E by lia.
    pose proof (bin_pos n (k + 1) ltac:(lia)) as P1. pose proof (bin_pos n k ltac:(lia)) as P2.
    assert (1 <= IZR (k + 1)) by (apply IZR_le; lia). assert (IZR (n - k) <= IZR n) by (apply IZR_le; lia).
    assert (0 <= IZR (n - k)) by (apply IZR_le; lia).
    apply Rle_trans with (bin n (k + 1) * IZR (k + 1)); [nra|]. rewrite E. rewrite (Rmult_comm (IZR n)).
    apply Rmult_le_compat; lra.
Qed.

Lemma geometric y M : (0 <= M)%Z -> rsum 1 M (fun k => y ^ Z.to_nat k) * (1 - y) = y - y ^ Z.to_nat (M + 1).
Proof.
  revert M. apply natlike_ind.
  - rewrite rsum_empty by lia. simpl. ring.
  - intros M HM IH. rewrite rsum_last by lia. unfold Z.succ in *. replace (M + 1 - 1)%Z with M by lia.
    rewrite Rmult_plus_distr_r, IH. replace (Z.to_nat (M + 1 + 1)) with (S (Z.to_nat (M + 1))) by lia. cbn [pow]. ring.
Qed.
Lemma geometric_le y M : (0 <= M)%Z -> 0 <= y <= / 2 -> rsum 1 M (fun k => y ^ Z.to_nat k) <= 2 * y.
Proof.
  intros HM Hy. pose proof (geometric y M HM) as E. pose proof (pow_le y (Z.to_nat (M + 1)) ltac:(lra)) as P.
  assert (0 <= rsum 1 M (fun k => y ^ Z.to_nat k)) by (apply rsum_nonneg; intros; apply pow_le; lra). nra.
Qed.

Lemma rsum_abs lo hi f : Rabs (rsum lo hi f) <= rsum lo hi (fun k => Rabs (f k)).
Proof.
  revert hi. apply (rsum_ind (fun hi => Rabs (rsum lo hi f) <= rsum lo hi (fun k => Rabs (f k))) lo).
  - intros b Hb. rewrite !rsum_empty by auto. rewrite Rabs_R0. lra.
  - intros b Hb IH. rewrite (rsum_last lo b f), (rsum_last lo b (fun k => Rabs (f k))) by auto.
    eapply Rle_trans; [apply Rabs_triang|]. lra.
Qed.

Lemma Rabs_sgn k : Rabs (sgn k) = 1.
Proof. unfold sgn. destruct (Z.even k); [apply Rabs_R1|]. rewrite Rabs_left; lra. Qed.

Lemma pow_bernoulli r x n : 0 <= r -> r * r = 1 - x -> 0 <= x <= 1 -> 1 - INR n * x <= r ^ n <= 1.
Proof.
  intros Hr E Hx. assert (R1 : r <= 1) by nra. assert (R2 : 1 - x <= r) by nra.
  split.
  - induction n as [|n IH]; [simpl; lra|]. rewrite S_INR. cbn [pow].
    assert (0 <= INR n) by apply pos_INR. pose proof (pow_le r n Hr) as P.
    destruct (Rle_lt_dec (1 - INR n * x) 0) as [L|G].
    + assert (0 <= r * r ^ n) by (apply Rmult_le_pos; auto). nra.
    + apply Rle_trans with ((1 - x) * (1 - INR n * x)); [nra|]. apply Rmult_le_compat; lra.
  - rewrite <- (pow1 n). apply pow_incr. lra.
Qed.

(** The real part of the main entry. *)
Definition main_sum (N p : Z) (r s : R) : R :=
  rsum 0 (Z.min p (N - p)) (fun k => bin p k * bin (N - p) (N - p - k) * sgn k * powerRZ r (N - 2 * k) * powerRZ s (2 * k)).

Lemma Dm_main N p a b : (0 <= p <= N)%Z ->
  Dm N p p a b = (RtoC (main_sum N p (Cmod a) (Cmod b)) * cis (phase a * IZR (2 * p - N)))%C.
Proof.
  intros Hp. rewrite <- (polar_spec a) at 1. rewrite <- (polar_spec b) at 1. rewrite Dm_window by auto.
  assert (W : wt N p / wt N p = 1) by (apply Rinv_r; intros E; apply (sqrt_wt_neq0 N p); rewrite E; apply sqrt_0).
  rewrite W, sqrt_1. unfold main_sum. rewrite rsum_RtoC, Cmult_1_l, (Cmult_comm (csum _ _ (fun i => RtoC _))), <- csum_scal.
  replace (Tlo p p) with 0%Z by (unfold Tlo; lia). unfold Thi. apply csum_ext. intros k Hk.
  rewrite Dterm_polar by lia. replace (p + p - N)%Z with (2 * p - N)%Z by lia. replace (p - p)%Z with 0%Z by lia.
  replace (p + (N - p) - 2 * k)%Z with (N - 2 * k)%Z by lia. rewrite Z.add_0_l. rewrite Rmult_0_r, Rplus_0_r. ring.
Qed.

Section Small.
Variables (N p : Z) (r s x : R).
Hypothesis (Hp : (0 <= p <= N)%Z) (Hr : 0 < r) (Hs : 0 <= s) (Er : r * r = 1 - x) (Es : s * s = x).
Hypothesis (Hx : IZR N * IZR N * x <= / 10).

Let N0 : 0 <= IZR N.
Proof. apply IZR_le. lia. Qed.
Let x1 : 0 <= x <= 1.
Proof. split; [rewrite <- Es; nra|nra]. Qed.
Let Nx : IZR N * x <= / 10.
Proof.
  destruct (Z.eq_dec N 0) as [->|]; [simpl; lra|]. assert (1 <= IZR N) by (apply IZR_le; lia). destruct x1.
  apply Rle_trans with (IZR N * IZR N * x); [|auto]. apply Rmult_le_compat_r; auto. nra.
Qed.
Let power k : (0 <= k <= N)%Z -> 1 - IZR N * x <= r ^ Z.to_nat k <= 1.
Proof.
  intros Hk. pose proof (pow_bernoulli r x (Z.to_nat k) ltac:(lra) Er x1) as (A & B). split; auto.
  rewrite INR_to_nat in A by lia. assert (IZR k <= IZR N) by (apply IZR_le; lia). nra.
Qed.

Lemma small_main : 1 - (IZR N + IZR N * IZR N / 2) * x <= main_sum N p r s <= 1 + IZR N * IZR N / 2 * x.
Proof.
  unfold main_sum. set (M := Z.min p (N - p)). assert (HM : (0 <= M)%Z) by (unfold M; lia).
  rewrite rsum_first by lia. rewrite bin_0, Z.sub_0_r, sgn_0 by lia. rewrite (bin_sym (N - p) (N - p)), Z.sub_diag, bin_0 by lia.
  replace (N - 2 * 0)%Z with N by lia. replace (2 * 0)%Z with 0%Z by lia. rewrite <- pow_powerRZ by lia.
  change (powerRZ s 0) with 1. rewrite !Rmult_1_r, Rmult_1_l. change (0 + 1)%Z with 1%Z.
  pose proof (power N ltac:(lia)) as P.
  set (y := IZR p * IZR (N - p) * x).
  assert (Hp0 : 0 <= IZR p) by (apply IZR_le; lia). assert (Hq0 : 0 <= IZR (N - p)) by (apply IZR_le; lia).
  assert (Y0 : 0 <= y) by (unfold y; destruct x1; apply Rmult_le_pos; auto; apply Rmult_le_pos; auto).
  assert (Y1 : y <= IZR N * IZR N / 4 * x).
  { unfold y. apply Rmult_le_compat_r; [apply x1|]. rewrite minus_IZR. pose proof (Rle_0_sqr (IZR N / 2 - IZR p)) as Q. unfold Rsqr in Q. lra. }
  assert (Y2 : y <= / 2) by lra.
  assert (T : Rabs (rsum 1 M (fun k => bin p k * bin (N - p) (N - p - k) * sgn k * powerRZ r (N - 2 * k) * powerRZ s (2 * k))) <= 2 * y).
  { eapply Rle_trans; [apply rsum_abs|]. eapply Rle_trans; [|apply (geometric_le y M HM); lra]. apply rsum_le.
    intros k Hk. assert (HkM : (k <= M)%Z) by lia. unfold M in HkM.
    rewrite !Rabs_mult, Rabs_sgn, Rmult_1_r. rewrite <- bin_sym by lia.
    rewrite <- !pow_powerRZ by lia. pose proof (power (N - 2 * k) ltac:(lia)) as (_ & Q).
    replace (Z.to_nat (2 * k)) with (2 * Z.to_nat k)%nat by lia. rewrite pow_mult. simpl (s ^ 2). rewrite Rmult_1_r, Es.
    rewrite (Rabs_pos_eq (bin p k)), (Rabs_pos_eq (bin (N - p) k)), (Rabs_pos_eq (r ^ _)), (Rabs_pos_eq (x ^ _));
      [|apply pow_le; apply x1|apply pow_le; lra|left; apply bin_pos; lia|left; apply bin_pos; lia].
    pose proof (bin_le_pow p k ltac:(lia) ltac:(lia)) as B1. pose proof (bin_le_pow (N - p) k ltac:(lia) ltac:(lia)) as B2.
    pose proof (bin_pos p k ltac:(lia)) as B3. pose proof (bin_pos (N - p) k ltac:(lia)) as B4.
    unfold y. rewrite !Rpow_mult_distr. apply Rmult_le_compat_r; [apply pow_le, x1|].
    rewrite <- (Rmult_1_r (IZR p ^ _ * _)). apply Rmult_le_compat; try lra.
    - apply Rmult_le_pos; lra.
    - apply pow_le; lra.
    - apply Rmult_le_compat; lra. }
  apply Rabs_le_between in T. lra.
Qed.

Lemma small_power k : (- N <= k <= N)%Z -> 1 - IZR N * x <= powerRZ r k <= 1 + 2 * (IZR N * x).
Proof.
  intros Hk. destruct x1. destruct (Z_le_gt_dec 0 k).
  - rewrite <- pow_powerRZ by lia. pose proof (power k ltac:(lia)). nra.
  - pose proof (power (- k) ltac:(lia)) as P. rewrite pow_powerRZ in P by lia.
    replace k with (- - k)%Z at 1 2 by lia. rewrite powerRZ_neg'.
    set (z := powerRZ r (- k)) in *. assert (0 <= IZR N * x) by nra.
    split.
    + apply Rle_trans with 1; [lra|]. rewrite <- Rinv_1 at 1. apply Rinv_le_contravar; lra.
    + apply Rmult_le_reg_l with z; [lra|]. rewrite Rinv_r by lra. nra.
Qed.
End Small.

Lemma Cmod_real x : Cmod (RtoC x) = Rabs x.
Proof. apply Cmod_R. Qed.

Lemma Cpowz_polar a k : a <> RtoC 0 -> Cpowz a k = (RtoC (powerRZ (Cmod a) k) * cis (phase a * IZR k))%C.
Proof.
  intros Ha. pose proof (neq0_Cmod a Ha) as P. rewrite <- (polar_spec a) at 1.
  assert (Pc : cis (phase a) <> RtoC 0). { apply Cmod_neq0. rewrite Cmod_cis. lra. }
  rewrite Cpowz_mul by (auto; apply RtoC_neq0; lra). rewrite Cpowz_RtoC by lra. rewrite <- cis_powz, (Rmult_comm (IZR k)). auto.
Qed.

(** The value of the branch for small [b], and how far it is from the formula. *)
Lemma near_b N p q a b : (0 <= p <= N)%Z -> (0 <= q <= N)%Z -> (a * Cconj a + b * Cconj b)%C = RtoC 1 ->
  IZR N * Cmod b <= / 10 -> Cmod b <= / 10 ->
  Cmod (Dm N p q a b - (if (p =? q)%Z then Cpowz a (2 * q - N) else RtoC 0))%C <= IZR (N + 1) * Cmod b.
Proof.
  intros Hp Hq U HN Hb.
  assert (Em : Cmod a * Cmod a = 1 - Cmod b * Cmod b).
  { rewrite !Cconj_mod, <- RtoC_plus in U. apply RtoC_inj in U. lra. }
  pose proof (Cmod_ge_0 a) as A0. pose proof (Cmod_ge_0 b) as B0.
  assert (Pa : 0 < Cmod a) by (destruct A0 as [|A0]; auto; rewrite <- A0 in Em; nra).
  set (x := Cmod b * Cmod b) in *.
  assert (N0 : 0 <= IZR N) by (apply IZR_le; lia).
  assert (Hx : IZR N * IZR N * x <= / 10).
  { replace (IZR N * IZR N * x) with ((IZR N * Cmod b) * (IZR N * Cmod b)) by (unfold x; ring).
    assert (0 <= IZR N * Cmod b) by (apply Rmult_le_pos; auto). nra. }
  pose proof (small_main N p (Cmod a) (Cmod b) x Hp Pa Em eq_refl Hx) as S1.
  set (S := main_sum N p (Cmod a) (Cmod b)) in *.
  rewrite plus_IZR.
  destruct (Z.eqb_spec p q) as [<-|Hpq].
  - rewrite Dm_main, Cpowz_polar by (auto; apply Cmod_neq0; lra). fold S.
    pose proof (small_power N p (Cmod a) (Cmod b) x Hp Pa Em eq_refl Hx (2 * p - N) ltac:(lia)) as S2.
    set (w := powerRZ (Cmod a) (2 * p - N)) in *.
    replace (RtoC S * cis (phase a * IZR (2 * p - N)) - RtoC w * cis (phase a * IZR (2 * p - N)))%C
      with (RtoC (S - w) * cis (phase a * IZR (2 * p - N)))%C by (rewrite RtoC_minus; ring).
    rewrite Cmod_mult, Cmod_cis, Cmod_R, Rmult_1_r. apply Rabs_le.
    assert (X0 : 0 <= x) by (unfold x; nra).
    assert (IZR N * x <= / 10 * Cmod b) by (unfold x; rewrite <- Rmult_assoc; apply Rmult_le_compat_r; auto).
    assert (IZR N * IZR N * x <= IZR N * (/ 10 * Cmod b)) by (rewrite Rmult_assoc; apply Rmult_le_compat_l; auto).
    assert (0 <= IZR N * Cmod b) by (apply Rmult_le_pos; auto). split; lra.
  - replace (Dm N p q a b - RtoC 0)%C with (Dm N p q a b) by ring.
    pose proof (Dm_unitary N p p a b Hp Hp U) as V. rewrite Z.eqb_refl in V.
    rewrite (csum_ext 0 N _ (fun q => RtoC (Cmod (Dm N p q a b) * Cmod (Dm N p q a b)))) in V by (intros; apply Cconj_mod).
    rewrite <- rsum_RtoC in V. apply RtoC_inj in V.
    assert (D2 : Cmod (Dm N p q a b) * Cmod (Dm N p q a b) + S * S <= 1).
    { rewrite <- V. replace (S * S) with (Cmod (Dm N p p a b) * Cmod (Dm N p p a b)).
      2:{ rewrite Dm_main by auto. fold S. rewrite Cmod_mult, Cmod_cis, Cmod_R, Rmult_1_r.
          rewrite <- Rabs_mult. apply Rabs_pos_eq. nra. }
      set (f := fun k => Cmod (Dm N p k a b) * Cmod (Dm N p k a b)).
      change (f q + f p <= rsum 0 N f).
      assert (FD : forall j, (0 <= j <= N)%Z -> f j = rsum 0 N (fun k => if (k =? j)%Z then f k else 0)).
      { intros j Hj. rewrite (rsum_delta 0 N j) by (auto; intros i _ Hi; destruct (Z.eqb_spec i j); congruence).
        now rewrite Z.eqb_refl. }
      rewrite (FD q Hq), (FD p Hp), <- rsum_plus. apply rsum_le.
      assert (F0 : forall k, 0 <= f k) by (intros; unfold f; pose proof (Cmod_ge_0 (Dm N p k a b)); nra).
      intros k Hk. pose proof (F0 k).
      destruct (Z.eqb_spec k q), (Z.eqb_spec k p); try lia; lra. }
    set (d := Cmod (Dm N p q a b)) in *. assert (d0 : 0 <= d) by apply Cmod_ge_0.
    assert (X0 : 0 <= x) by (unfold x; nra).
    apply Rsqr_incr_0_var; [|apply Rmult_le_pos; lra]. unfold Rsqr.
    assert (Q : 1 - S * S <= 2 * (IZR N + IZR N * IZR N / 2) * x).
    { pose proof (Rle_0_sqr (1 - S)) as Q. unfold Rsqr in Q. lra. }
    replace ((IZR N + 1) * Cmod b * ((IZR N + 1) * Cmod b)) with ((IZR N + 1) * (IZR N + 1) * x) by (unfold x; ring).
    lra.
Qed.

(** Exchanging the two parts. *)
Lemma Dm_exchange N p q a b : (0 <= p <= N)%Z -> (0 <= q <= N)%Z ->
  Dm N p q a b = (RtoC (sgn p) * Dm N (N - p) q b (- a)%C)%C.
Proof.
  intros Hp Hq. pose proof (Dm_product N p q (RtoC 0) (RtoC 1) b (- a)%C Hp Hq) as E.
  rewrite !Cconj_RtoC in E. replace (RtoC 0 * b - RtoC 1 * - a)%C with a in E by ring.
  replace (RtoC 1 * b + RtoC 0 * - a)%C with b in E by ring. rewrite E.
  assert (O : (RtoC 1 * Cconj (RtoC 1))%C = RtoC 1) by (rewrite Cconj_RtoC; ring).
  rewrite (csum_delta 0 N (N - p)); [|lia|].
  2:{ intros k Hk Ho. rewrite Dm_a0 by auto. destruct (Z.eqb_spec k (N - p)); [lia|ring]. }
  rewrite Dm_a0, Z.eqb_refl by (auto; lia). rewrite Cpowz_RtoC, powerRZ_R1 by lra. ring.
Qed.

Lemma near_a N p q a b : (0 <= p <= N)%Z -> (0 <= q <= N)%Z -> (a * Cconj a + b * Cconj b)%C = RtoC 1 ->
  IZR N * Cmod a <= / 10 -> Cmod a <= / 10 ->
  Cmod (Dm N p q a b - (if (q =? N - p)%Z then RtoC (sgn p) * Cpowz b (2 * q - N) else RtoC 0))%C <= IZR (N + 1) * Cmod a.
Proof.
  intros Hp Hq U HN Ha. rewrite Dm_exchange by auto.
  pose proof (near_b N (N - p) q b (- a)%C ltac:(lia) Hq) as H. rewrite Cmod_opp in H.
  assert (U' : (b * Cconj b + - a * Cconj (- a))%C = RtoC 1) by (rewrite <- U, Cconj_opp; ring).
  specialize (H U' HN Ha). rewrite (Z.eqb_sym q).
  match goal with |- Cmod ?z <= _ => replace z with (RtoC (sgn p) * (Dm N (N - p) q b (- a) - (if (N - p =? q)%Z then Cpowz b (2 * q - N) else RtoC 0)))%C end.
  - rewrite Cmod_mult, Cmod_R, Rabs_sgn, Rmult_1_l. exact H.
  - destruct (N - p =? q)%Z; ring.
Qed.
