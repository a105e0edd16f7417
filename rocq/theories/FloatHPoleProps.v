(** Property C74: the H calculators in double precision at the poles, and their extreme entries at any angle. *)
Require Import ZArith Reals List Lia Lra.
From Verif Require Import Base CBase Fact IndexModel HSpec HMath HModel HProps FloatPowersSpec FloatIndexModel FloatPowersProps FloatLog FloatHModel FloatHSpec FloatHProps FloatHPole.
Import ListNotations.
Open Scope R_scope.
Set Bullet Behavior "Strict Subproofs".

(** ** The exact values at the poles *)
Lemma rp_south p n q : rp 0 1 p n q = if (q =? Z.of_nat n)%Z then (-1) ^ p else 0.
Proof.
  revert q. induction p; intros q.
  - induction n in q |- *.
    + unfold rp. simpl. destruct q; reflexivity.
    + rewrite rp_S2, !IHn.
      replace (q - 1 =? Z.of_nat n)%Z with (q =? Z.of_nat (S n))%Z by (destruct (Z.eqb_spec q (Z.of_nat (S n))), (Z.eqb_spec (q - 1) (Z.of_nat n)); auto; lia).
      ring.
  - rewrite rp_S, !IHp. destruct (q =? Z.of_nat n)%Z; simpl; ring.
Qed.
Lemma dd_south n mp m : (- n <= mp <= n)%Z -> dd 0 1 n mp m = if (mp =? - m)%Z then (-1) ^ Z.to_nat (n + mp) else 0.
Proof.
  intros. unfold dd, S2. rewrite rp_south, Z2Nat.id by lia.
  destruct (Z.eqb_spec (n + m) (n - mp)), (Z.eqb_spec mp (- m)); try lia; [|ring]. subst mp.
  replace (W n m) with (W n (- m)); [field; apply W_neq0|]. unfold W. rewrite Rmult_comm. do 2 f_equal; f_equal; lia.
Qed.
Lemma H_north n mp m : (- n <= mp <= n)%Z -> (- n <= m <= n)%Z -> H_function n mp m 0 = if (mp =? m)%Z then eps mp * eps (- m) else 0.
Proof.
  intros. rewrite H_function_Hd by lia. replace (0 / 2) with 0 by field. rewrite cos_0, sin_0. unfold Hd. rewrite dd_north by lia.
  destruct (mp =? m)%Z; ring.
Qed.
Lemma H_south n mp m : (- n <= mp <= n)%Z -> (- n <= m <= n)%Z ->
  H_function n mp m PI = if (mp =? - m)%Z then eps mp * eps (- m) * (-1) ^ Z.to_nat (n + mp) else 0.
Proof.
  intros. rewrite H_function_Hd by lia. rewrite cos_PI2, sin_PI2. unfold Hd. rewrite dd_south by lia.
  destruct (mp =? - m)%Z; ring.
Qed.
Lemma sgn_pow m : (0 <= m)%Z -> sgn m = (-1) ^ Z.to_nat m.
Proof.
  intros. replace m with (Z.of_nat (Z.to_nat m)) at 1 by lia. generalize (Z.to_nat m). clear. intros k.
  induction k; [reflexivity|]. rewrite Nat2Z.inj_succ, <- Z.add_1_r. rewrite sgn_add, IHk. change (sgn 1) with (-1). simpl. ring.
Qed.

(** ** The wedge *)
Definition tol (n : Z) : R := 20 * (IZR n + 2) * u64.
Lemma tol_lg n k x y : (1 <= n <= 1000)%Z -> 0 <= k <= 18 * IZR n + 14 -> Rabs y = 1 -> lg k x y -> Rabs (x - y) <= tol n.
Proof.
  intros Hn Hk Hy L. assert (N : 1 <= IZR n <= 1000) by (split; apply IZR_le; lia).
  apply lg_err in L; [|lra]. rewrite Hy, Rmult_1_r in L. eapply Rle_trans; [exact L|]. unfold tol.
  pose proof u64_small as [u0 _]. apply Rmult_le_compat_r; [lra|].
  assert (p17 : / 2 ^ 17 <= / 100000) by (apply Rinv_le_contravar; lra).
  assert (p17' : 0 < / 2 ^ 17) by (apply Rinv_0_lt_compat, pow_lt; lra). set (z := / 2 ^ 17) in *.
  apply Rle_trans with ((18 * IZR n + 14) * (1 + / 100000)); [apply Rmult_le_compat; lra|lra].
Qed.
Lemma tol_0 n : (0 <= n)%Z -> 0 <= tol n.
Proof.
  intros. unfold tol. pose proof u64_small. assert (0 <= IZR n) by (apply IZR_le; lia). apply Rmult_le_pos; lra.
Qed.
Lemma INR_le n k : (Z.of_nat k <= n)%Z -> 0 <= INR k <= IZR n.
Proof. intros. split; [apply pos_INR|]. rewrite INR_IZR_INZ. apply IZR_le. auto. Qed.
Lemma wedge_north n mp m : (0 <= n <= 1000)%Z -> (Z.abs mp <= m <= n)%Z ->
  Rabs (Hflt RN64 1 0 n mp m - H_function n mp m 0) <= tol n /\ (Z.abs mp <> m -> Hflt RN64 1 0 n mp m = 0).
Proof.
  intros Hn Hm. rewrite H_north by lia. unfold Hflt.
  destruct (Z.eqb_spec n 0) as [E|E].
  { assert (mp = 0%Z /\ m = 0%Z) as [-> ->] by lia. change (0 =? 0)%Z with true. cbv iota. change (eps 0 * eps (- 0)) with (1 * 1).
    split; [|lia]. replace (1 - 1 * 1) with 0 by ring. rewrite Rabs_R0. apply tol_0. lia. }
  assert (N : 1 <= IZR n <= 1000) by (split; apply IZR_le; lia).
  pose proof (tol_0 n ltac:(lia)) as T0.
  destruct (Z.leb_spec 0 mp) as [P|P].
  - destruct (Z.eqb_spec mp m) as [<-|D].
    + split; [|lia]. pose proof (INR_le n (Z.to_nat mp) ltac:(lia)) as I.
      replace (eps mp * eps (- mp)) with ((-1) ^ Z.to_nat mp) by (rewrite eps_flip, sgn_pow by lia; reflexivity).
      destruct (Z.eq_dec mp 0) as [->|M].
      * change (Z.to_nat 0) with O. cbn [upf pow]. change (0 <? 0)%Z with false. cbv iota.
        apply (tol_lg n (9 * IZR n + 3)); try lia; [lra|apply Rabs_R1|apply H00_lg; lia].
      * pose proof (upf_diag n (Z.to_nat mp) ltac:(lia) ltac:(lia) ltac:(lia)) as L. rewrite Z2Nat.id in L by lia.
        eapply tol_lg; [lia| |apply pm_abs|exact L]. lra.
    + assert (U0 : upf RN64 1 0 n (Z.to_nat mp) m = 0) by (apply upf_zero; auto; lia). rewrite U0.
      split; [|auto]. rewrite Rminus_0_r, Rabs_R0. exact T0.
  - destruct (Z.eqb_spec mp m); [lia|]. rewrite Rminus_0_r.
    destruct (Z.eq_dec (- mp) m) as [D|D].
    + split; [|lia]. subst m. pose proof (dnf_north n (Z.to_nat (- mp)) ltac:(lia) ltac:(lia) ltac:(lia)) as L.
      pose proof (INR_le n (Z.to_nat (- mp)) ltac:(lia)) as I. rewrite Z2Nat.id in L by lia.
      eapply Rle_trans; [exact L|]. unfold tol. set (i := INR _) in *.
      pose proof u64_small as [u0 u1]. assert (u2 : u64 <= / 1000000000) by (eapply Rle_trans; [exact u1|]; apply Rinv_le_contravar; lra).
      assert (J : 0 <= 17 * i * u64 <= / 10000) by (split; nra). set (w := 17 * i * u64) in *.
      replace ((18 * IZR n + 32) * (101 / 100) * u64 * (1 + w)) with ((18 * IZR n + 32) * (101 / 100) * (1 + w) * u64) by ring.
      apply Rmult_le_compat_r; [lra|].
      apply Rle_trans with ((18 * IZR n + 32) * (101 / 100) * (1 + / 10000)); [apply Rmult_le_compat_l; lra|lra].
    + assert (U0 : dnf RN64 1 0 n (Z.to_nat (- mp)) m = 0) by (apply dnf_zero; auto; lia). rewrite U0.
      split; [|auto]. rewrite Rabs_R0. exact T0.
Qed.
Lemma wedge_south n mp m : (0 <= n <= 1000)%Z -> (Z.abs mp <= m <= n)%Z ->
  Rabs (Hflt RN64 (-1) 0 n mp m - H_function n mp m PI) <= tol n /\ ((mp <> - m)%Z -> Hflt RN64 (-1) 0 n mp m = 0).
Proof.
  intros Hn Hm. rewrite H_south by lia. unfold Hflt.
  destruct (Z.eqb_spec n 0) as [E|E].
  { assert (mp = 0%Z /\ m = 0%Z) as [-> ->] by lia. subst n. change (0 =? - 0)%Z with true. cbv iota. change (eps 0 * eps (- 0)) with (1 * 1).
    change (Z.to_nat (0 + 0)) with O. split; [|lia]. replace (1 - 1 * 1 * (-1) ^ 0) with 0 by ring. rewrite Rabs_R0. apply tol_0. lia. }
  assert (N : 1 <= IZR n <= 1000) by (split; apply IZR_le; lia).
  pose proof (tol_0 n ltac:(lia)) as T0.
  destruct (Z.leb_spec 0 mp) as [P|P].
  - destruct (Z.eqb_spec mp (- m)) as [M|M].
    + assert (mp = 0%Z /\ m = 0%Z) as [-> ->] by lia. split; [|lia]. change (eps 0 * eps (- 0)) with (1 * 1). rewrite Z.add_0_r, !Rmult_1_l.
      change (Z.to_nat 0) with O. cbn [upf]. change (0 <? 0)%Z with false. cbv iota.
      apply (tol_lg n (9 * IZR n + 3)); try lia; [lra|apply pm_abs|apply H00_south; lia].
    + assert (U0 : upf RN64 (-1) 0 n (Z.to_nat mp) m = 0).
      { destruct (Z.eq_dec mp 0) as [->|]; [apply upf_zero; auto; lia|apply upf_south; lia]. }
      rewrite U0. split; [|auto]. rewrite Rminus_0_r, Rabs_R0. exact T0.
  - destruct (Z.eqb_spec mp (- m)) as [M|M].
    + split; [|lia]. subst mp. pose proof (INR_le n (Z.to_nat m) ltac:(lia)) as I.
      pose proof (dnf_south n (Z.to_nat m) ltac:(lia) ltac:(lia) ltac:(lia)) as L. rewrite Z2Nat.id in L by lia. rewrite Z.opp_involutive.
      replace (eps (- m) * eps (- m)) with 1 by (rewrite eps_sqr; reflexivity). rewrite Rmult_1_l.
      replace ((-1) ^ Z.to_nat (n + - m)) with ((-1) ^ (Z.to_nat n + Z.to_nat m)).
      * eapply tol_lg; [lia| |apply pm_abs|exact L]. lra.
      * replace (Z.to_nat n + Z.to_nat m)%nat with (Z.to_nat (n + - m) + 2 * Z.to_nat m)%nat by lia. rewrite pow_add, pow_1_even. ring.
    + assert (U0 : dnf RN64 (-1) 0 n (Z.to_nat (- mp)) m = 0) by (apply dnf_zero; auto; lia). rewrite U0.
      split; [|auto]. rewrite Rminus_0_r, Rabs_R0. exact T0.
Qed.

(** ** All entries *)
Lemma H_transpose n mp m beta : (- n <= mp <= n)%Z -> (- n <= m <= n)%Z -> H_function n m mp beta = H_function n mp m beta.
Proof. intros. rewrite !H_function_Hd by lia. now apply Hd_transpose. Qed.
Lemma H_negate n mp m beta : (- n <= mp <= n)%Z -> (- n <= m <= n)%Z -> H_function n (- mp) (- m) beta = H_function n mp m beta.
Proof. intros. rewrite !H_function_Hd by lia. now apply Hd_negate. Qed.
(** every entry is one in the wedge *)
Lemma to_wedge (P : Z -> Z -> Prop) n : (forall mp m, (Z.abs mp <= m <= n)%Z -> P mp m) ->
  (forall mp m, (- n <= mp <= n)%Z -> (- n <= m <= n)%Z -> P mp m -> P m mp) ->
  (forall mp m, (- n <= mp <= n)%Z -> (- n <= m <= n)%Z -> P mp m -> P (- mp) (- m))%Z ->
  forall mp m, (- n <= mp <= n)%Z -> (- n <= m <= n)%Z -> P mp m.
Proof.
  intros W T N mp m Hp Hm.
  destruct (Z_le_gt_dec (Z.abs mp) m); [apply W; lia|].
  destruct (Z_le_gt_dec (Z.abs m) mp); [apply T; try lia; apply W; lia|].
  rewrite <- (Z.opp_involutive mp), <- (Z.opp_involutive m). apply N; try lia.
  destruct (Z_le_gt_dec (Z.abs mp) (- m)); [apply W; lia|]. apply T; try lia. apply W. lia.
Qed.
Lemma Hall_north n mp m : (0 <= n <= 1000)%Z -> (- n <= mp <= n)%Z -> (- n <= m <= n)%Z ->
  Rabs (Hall RN64 1 0 n mp m - H_function n mp m 0) <= tol n /\ (Z.abs mp <> Z.abs m -> Hall RN64 1 0 n mp m = 0).
Proof.
  intros Hn. revert mp m. apply to_wedge.
  - intros mp m Hm. rewrite Hall_wedge by lia. destruct (wedge_north n mp m Hn Hm) as [A B]. split; [exact A|]. intros. apply B. lia.
  - intros mp m Hp Hm [A B]. rewrite Hall_transpose, H_transpose by lia. split; [exact A|]. intros. apply B. lia.
  - intros mp m Hp Hm [A B]. rewrite Hall_negate, H_negate by lia. split; [exact A|]. intros. apply B. lia.
Qed.
Lemma Hall_south n mp m : (0 <= n <= 1000)%Z -> (- n <= mp <= n)%Z -> (- n <= m <= n)%Z ->
  Rabs (Hall RN64 (-1) 0 n mp m - H_function n mp m PI) <= tol n /\ ((mp <> - m)%Z -> Hall RN64 (-1) 0 n mp m = 0).
Proof.
  intros Hn. revert mp m. apply to_wedge.
  - intros mp m Hm. rewrite Hall_wedge by lia. destruct (wedge_south n mp m Hn Hm) as [A B]. split; [exact A|]. intros. apply B. lia.
  - intros mp m Hp Hm [A B]. rewrite Hall_transpose, H_transpose by lia. split; [exact A|]. intros. apply B. lia.
  - intros mp m Hp Hm [A B]. rewrite Hall_negate, H_negate by lia. split; [exact A|]. intros. apply B. lia.
Qed.

(** ** The last two entries of the row m' = 0, at any angle *)
Section Extreme.
Variables (n : Z) (beta c s : R).
Hypothesis Hn : (1 <= n <= 1000)%Z.
Hypothesis Hs : lg 1 s (sin beta).
Hypothesis Hc : lg 1 c (cos beta).
Hypothesis S0 : / 2 ^ 800 <= Rabs (sin beta) ^ Z.to_nat n.
Hypothesis C0 : cos beta = 0 \/ / 2 ^ 50 <= Rabs (cos beta).

Definition low : R := / 2 ^ 50 * / 2 ^ 800 * / 100.
Lemma low850 : 0 < / 2 ^ 900 <= low.
Proof.
  split; [apply Rinv_0_lt_compat, pow_lt; lra|]. unfold low. apply Rle_trans with (/ 2 ^ 50 * / 2 ^ 800 * / 2 ^ 7).
  - rewrite <- !Rinv_mult, <- !pow_add. apply Rinv_le_contravar; [apply pow_lt; lra|]. apply Rle_pow; [lra|lia].
  - apply Rmult_le_compat_l; [|apply Rinv_le_contravar; lra]. apply Rmult_le_pos; left; apply Rinv_0_lt_compat, pow_lt; lra.
Qed.
Lemma low_800 : low <= / 2 ^ 800 * / 100 /\ low <= / 2 ^ 800 /\ low <= / 2 ^ 50 * / 100 /\ low <= / 2 ^ 50 /\ 0 < low.
Proof.
  assert (A : 0 < / 2 ^ 50 <= 1) by (split; [apply Rinv_0_lt_compat, pow_lt; lra|rewrite <- Rinv_1; apply Rinv_le_contravar; [lra|]; apply pow_R1_Rle; lra]).
  assert (B : 0 < / 2 ^ 800 <= 1) by (split; [apply Rinv_0_lt_compat, pow_lt; lra|rewrite <- Rinv_1; apply Rinv_le_contravar; [lra|]; apply pow_R1_Rle; lra]).
  unfold low. set (a := / 2 ^ 50) in *. set (b := / 2 ^ 800) in *. clearbody a b. repeat split; nra.
Qed.
Lemma p50 : 0 < / 2 ^ 50 <= / 10000000000000.
Proof. split; [apply Rinv_0_lt_compat, pow_lt; lra|]. apply Rinv_le_contravar; lra. Qed.
Lemma low800 : 0 < / 2 ^ 800.
Proof. apply Rinv_0_lt_compat, pow_lt; lra. Qed.
Lemma sin_pow i : (i <= Z.to_nat n)%nat -> / 2 ^ 800 <= Rabs (sin beta ^ i).
Proof.
  intros Hi. eapply Rle_trans; [exact S0|]. rewrite <- RPow_abs. pose proof (Rabs_pos (sin beta)) as P.
  assert (L : Rabs (sin beta) <= 1) by (apply Rabs_le; pose proof (SIN_bound beta); lra). set (a := Rabs (sin beta)) in *.
  replace (Z.to_nat n) with (i + (Z.to_nat n - i))%nat by lia. rewrite pow_add.
  rewrite <- (Rmult_1_r (a ^ i)) at 2. apply Rmult_le_compat_l; [apply pow_le; auto|].
  rewrite <- (pow1 (Z.to_nat n - i)). apply pow_incr. lra.
Qed.
Lemma lgR k k' x y : lg k x y -> 0 <= k -> k + 1 <= k' -> k <= 2 ^ 20 -> (y = 0 \/ low <= Rabs y) -> lg k' (RN64 x) y.
Proof.
  intros H H0 H1 H2 H3. apply (lg_weak (k + 1)); auto. apply FloatThreeJProofs.lg_RN0; auto. pose proof low850. destruct H3; [auto|right; lra].
Qed.
Lemma Nr : 1 <= IZR n <= 1000.
Proof. split; apply IZR_le; lia. Qed.
Lemma INRn i : (i <= Z.to_nat n)%nat -> 0 <= INR i <= 1000.
Proof. intros Hi. split; [apply pos_INR|]. rewrite INR_IZR_INZ. apply IZR_le. lia. Qed.
Lemma powf_lg i : (i <= Z.to_nat n)%nat -> lg (2 * INR i) (powf RN64 s i) (sin beta ^ i).
Proof.
  intros Hi. pose proof low_800. induction i as [|i IH].
  - cbn [powf pow INR]. apply (lg_weak 0); [apply lg_refl|lra].
  - specialize (IH ltac:(lia)). pose proof (sin_pow (S i) Hi) as L. pose proof (INRn i ltac:(lia)). pose proof Nr.
    rewrite S_INR. cbn [powf]. change (sin beta ^ S i) with (sin beta * sin beta ^ i) in *. rewrite Rmult_comm in L. rewrite (Rmult_comm (sin beta)).
    apply (lgR (2 * INR i + 1)); [apply lg_mul; auto|lra|lra|lra|right; lra].
Qed.
Lemma norm_rng : 1 <= sqrt (IZR (4 * n + 2)) <= 100.
Proof.
  split.
  - rewrite <- sqrt_1. apply sqrt_le_1_alt, IZR_le. lia.
  - replace 100 with (sqrt (100 * 100)) by (apply sqrt_square; lra). apply sqrt_le_1_alt. replace (100 * 100) with (IZR 10000) by lra. apply IZR_le. lia.
Qed.
Lemma preff_lg i : (i <= Z.to_nat n)%nat -> lg (2 * INR i + 2) (preff RN64 s n i) (sin beta ^ i / sqrt (IZR (4 * n + 2))).
Proof.
  intros Hi. pose proof low_800. pose proof norm_rng as Q. set (q := sqrt (IZR (4 * n + 2))) in *.
  assert (Qi : / 100 <= / q) by (apply Rinv_le_contravar; lra). assert (Qa : Rabs (/ q) = / q) by (apply Rabs_pos_eq; lra).
  induction i as [|i IH].
  - cbn [preff pow INR]. apply (lgR 1); [|lra|lra|lra|].
    + apply (lg_weak (0 + 1)); [|lra]. apply lg_div; [apply lg_refl|apply normf_lg; lia].
    + right. unfold Rdiv. rewrite Rmult_1_l, Qa. pose proof (sin_pow 0 ltac:(lia)) as L. rewrite pow_O, Rabs_R1 in L. lra.
  - specialize (IH ltac:(lia)). pose proof (sin_pow (S i) Hi) as L. pose proof (INRn i ltac:(lia)). pose proof Nr.
    rewrite S_INR. cbn [preff].
    assert (E : sin beta ^ S i / q = sin beta ^ i / q * sin beta) by (simpl; unfold Rdiv; ring).
    assert (L' : low <= Rabs (sin beta ^ S i / q)).
    { unfold Rdiv. rewrite Rabs_mult, Qa. apply Rle_trans with (/ 2 ^ 800 * / 100); [lra|]. apply Rmult_le_compat; pose proof low800; lra. }
    rewrite E in *. apply (lgR (2 * INR i + 3)); [|lra|lra|lra|right; exact L']. apply (lg_weak (2 * INR i + 2 + 1)); [apply lg_mul; auto|lra].
Qed.
Lemma top_exact : H_function n 0 n beta = Praw (cos (beta / 2)) (sin (beta / 2)) n n * (sin beta ^ Z.to_nat n / sqrt (IZR (4 * n + 2))).
Proof.
  rewrite H_function_Hd, Hd_row, dd_Praw by lia. destruct (half_angle beta) as (_ & _ & ->). ring.
Qed.
Lemma Ptop : 1 <= Praw (cos (beta / 2)) (sin (beta / 2)) n n.
Proof. pose proof (Praw_top_ge (cos (beta / 2)) (sin (beta / 2)) (Z.to_nat (n - 1))) as G. now replace (Z.of_nat (Z.to_nat (n - 1)) + 1)%Z with n in G by lia. Qed.
Lemma topf_n : lg (4 * IZR n - 3) (topf RN64 (Z.to_nat (n - 1))) (Praw (cos (beta / 2)) (sin (beta / 2)) n n).
Proof.
  pose proof (topf_lg (cos (beta / 2)) (sin (beta / 2)) (Z.to_nat (n - 1)) ltac:(lia)) as T. replace (Z.of_nat (Z.to_nat (n - 1)) + 1)%Z with n in T by lia.
  rewrite INR_IZR_INZ, Z2Nat.id, minus_IZR in T by lia. eapply lg_weak; [exact T|]. lra.
Qed.
Lemma low_prod a b : 1 <= a -> low <= Rabs b -> low <= Rabs (a * b).
Proof. intros. rewrite Rabs_mult, (Rabs_pos_eq a) by lra. pose proof (Rabs_pos b). nra. Qed.
Lemma extreme_top : lg (6 * IZR n) (H0f RN64 c s n n) (H_function n 0 n beta).
Proof.
  rewrite top_exact. unfold H0f. rewrite Z.eqb_refl. cbn [rawf]. pose proof Nr. pose proof low_800.
  pose proof norm_rng as Q. set (q := sqrt (IZR (4 * n + 2))) in *.
  assert (Qi : / 100 <= / q) by (apply Rinv_le_contravar; lra). assert (Qa : Rabs (/ q) = / q) by (apply Rabs_pos_eq; lra).
  pose proof (sin_pow (Z.to_nat n) ltac:(lia)) as L.
  assert (L' : low <= Rabs (sin beta ^ Z.to_nat n / q)).
  { unfold Rdiv. rewrite Rabs_mult, Qa. apply Rle_trans with (/ 2 ^ 800 * / 100); [lra|]. apply Rmult_le_compat; pose proof low800; lra. }
  apply (lgR (6 * IZR n - 1)); [|lra|lra|lra|right; apply low_prod; auto using Ptop].
  apply (lg_weak (4 * IZR n - 3 + (2 * IZR n + 2))); [|lra]. apply lg_mul; [apply topf_n|].
  apply (lgR (2 * IZR n + 1)); [|lra|lra|lra|right; exact L'].
  pose proof (powf_lg (Z.to_nat n) ltac:(lia)) as P. rewrite INR_IZR_INZ, Z2Nat.id in P by lia.
  apply lg_div; [exact P|apply normf_lg; lia].
Qed.
Lemma next_exact : H_function n 0 (n - 1) beta =
  gco n (n - 1) * cos beta * Praw (cos (beta / 2)) (sin (beta / 2)) n n * (sin beta ^ Z.to_nat (n - 1) / sqrt (IZR (4 * n + 2))).
Proof.
  rewrite H_function_Hd, Hd_row, dd_Praw by lia. rewrite Praw_rec by lia. destruct (half_angle beta) as (_ & -> & ->).
  replace (n - 1 + 1)%Z with n by lia. replace (Praw _ _ n (n - 1 + 2)) with 0; [ring|].
  unfold Praw. rewrite Y_out by lia. ring.
Qed.
Lemma g_top : 1 <= gco n (n - 1).
Proof. apply gco_ge; [lia|]. nia. Qed.
Lemma extreme_next : lg (6 * IZR n + 4) (H0f RN64 c s n (n - 1)) (H_function n 0 (n - 1) beta).
Proof.
  rewrite next_exact. pose proof Nr. pose proof low_800. pose proof g_top as G.
  pose proof (gflt_lg n (n - 1) ltac:(lia) ltac:(lia)) as Lg. pose proof (low850) as LL.
  assert (P8 : / 2 ^ 800 <= 1) by (rewrite <- Rinv_1; apply Rinv_le_contravar; [lra|]; apply pow_R1_Rle; lra).
  set (g := gco n (n - 1)) in *.
  assert (gc : g * cos beta = 0 \/ / 2 ^ 50 <= Rabs (g * cos beta)).
  { destruct C0 as [->|C1]; [left; ring|right]. rewrite Rabs_mult, (Rabs_pos_eq g) by lra. nra. }
  assert (Lgc : lg 4 (RN64 (gflt RN64 n (n - 1) * c)) (g * cos beta)).
  { apply (lgR 3); [apply (lg_weak (2 + 1)); [apply lg_mul; auto|lra]|lra|lra|lra|]. destruct gc; [auto|right; lra]. }
  unfold H0f. destruct (Z.eqb_spec (n - 1) n); [lia|]. destruct (Z.eqb_spec n 1) as [E|E].
  - assert (S2' : 1 <= sqrt 2 <= 2).
    { split; [rewrite <- sqrt_1 at 1; apply sqrt_le_1_alt; lra|]. rewrite <- (sqrt_square 2) at 2 by lra. apply sqrt_le_1_alt. lra. }
    assert (V : g * cos beta * Praw (cos (beta / 2)) (sin (beta / 2)) n n * (sin beta ^ Z.to_nat (n - 1) / sqrt (IZR (4 * n + 2)))
                = g * cos beta / sqrt 2).
    { rewrite E. rewrite Praw_11. change (Z.to_nat (1 - 1)) with O. rewrite pow_O. replace (IZR (4 * 1 + 2)) with (3 * 2) by (simpl; lra).
      rewrite sqrt_mult by lra. assert (0 < sqrt 3) by (apply sqrt_lt_R0; lra). field. lra. }
    rewrite V. change (1 - 1)%Z with 0%Z. rewrite E in Lgc. change (1 - 1)%Z with 0%Z in Lgc. 
    apply (lgR 5); [|lra|lra|lra|].
    + apply (lg_weak (4 + 1)); [|lra]. apply lg_div; [exact Lgc|]. pose proof p60. apply (lgRNp 0); try lra. apply lg_refl.
    + destruct gc as [-> | Gc]; [left; unfold Rdiv; ring|right]. unfold Rdiv. rewrite Rabs_mult.
      assert (Rabs (/ sqrt 2) = / sqrt 2) as -> by (apply Rabs_pos_eq; left; apply Rinv_0_lt_compat; lra).
      assert (/ 2 <= / sqrt 2) by (apply Rinv_le_contravar; lra).
      apply Rle_trans with (/ 2 ^ 50 * / 100); [lra|]. pose proof p50. apply Rmult_le_compat; lra.
  - destruct (Z.eqb_spec (n - 1) 0); [lia|]. replace (Z.to_nat (n - (n - 1))) with 1%nat by lia. cbn [rawf].
    pose proof (preff_lg (Z.to_nat (n - 1)) ltac:(lia)) as P. rewrite INR_IZR_INZ, Z2Nat.id, minus_IZR in P by lia.
    pose proof norm_rng as Q. set (q := sqrt (IZR (4 * n + 2))) in *.
    assert (Qi : / 100 <= / q) by (apply Rinv_le_contravar; lra). assert (Qa : Rabs (/ q) = / q) by (apply Rabs_pos_eq; lra).
    pose proof (sin_pow (Z.to_nat (n - 1)) ltac:(lia)) as L. pose proof Ptop as PT. pose proof topf_n as TT.
    set (T := Praw _ _ n n) in *.
    assert (gT : g * cos beta * T = 0 \/ / 2 ^ 50 <= Rabs (g * cos beta * T)).
    { destruct gc as [-> | Gc]; [left; ring|right]. rewrite Rabs_mult, (Rabs_pos_eq T) by lra. pose proof (Rabs_pos (g * cos beta)). nra. }
    assert (LT : lg (4 * IZR n + 2) (RN64 (RN64 (gflt RN64 n (n - 1) * c) * topf RN64 (Z.to_nat (n - 1)))) (g * cos beta * T)).
    { apply (lgR (4 * IZR n + 1)); [|lra|lra|lra|].
      - apply (lg_weak (4 + (4 * IZR n - 3))); [|lra]. now apply lg_mul.
      - destruct gT as [Z0|Gt]; [auto|right; lra]. }
    apply (lgR (6 * IZR n + 2)); [|lra|lra|lra|].
    + apply (lg_weak (4 * IZR n + 2 + (2 * (IZR n - 1) + 2))); [|lra]. apply lg_mul; auto.
    + destruct gT as [-> | Gt]; [left; ring|right].
      unfold Rdiv. rewrite (Rabs_mult (g * cos beta * T)), (Rabs_mult (sin beta ^ _)), Qa. unfold low. rewrite Rmult_assoc. pose proof p50. pose proof low800.
      apply Rmult_le_compat; [lra| |lra|apply Rmult_le_compat; lra]. apply Rmult_le_pos; lra.
Qed.
End Extreme.

Lemma Hall_end n mp m beta c s : (1 <= n <= 1000)%Z -> (- n <= mp <= n)%Z -> (- n <= m <= n)%Z ->
  Rabs (s - sin beta) <= u64 * Rabs (sin beta) -> Rabs (c - cos beta) <= u64 * Rabs (cos beta) ->
  / 2 ^ 800 <= Rabs (sin beta) ^ Z.to_nat n -> (cos beta = 0 \/ / 2 ^ 50 <= Rabs (cos beta)) ->
  (mp = 0 \/ m = 0)%Z -> (n - 1 <= Z.abs mp + Z.abs m)%Z ->
  Rabs (Hall RN64 c s n mp m - H_function n mp m beta) <= (6 * IZR n + 5) * u64 * Rabs (H_function n mp m beta).
Proof.
  intros Hn Hp Hm Es Ec S0 C0. revert mp m Hp Hm.
  apply (to_wedge (fun mp m => (mp = 0 \/ m = 0)%Z -> (n - 1 <= Z.abs mp + Z.abs m)%Z ->
    Rabs (Hall RN64 c s n mp m - H_function n mp m beta) <= (6 * IZR n + 5) * u64 * Rabs (H_function n mp m beta))).
  - intros mp m Hm Z0 E. assert (mp = 0%Z) as -> by lia. rewrite Hall_wedge by lia. unfold Hflt.
    destruct (Z.eqb_spec n 0); [lia|]. change (0 <=? 0)%Z with true. cbv iota. change (Z.to_nat 0) with O. cbn [upf]. destruct (Z.ltb_spec m 0); [lia|].
    assert (L1 : lg 1 s (sin beta)).
    { apply lg_of_err; auto. intros Q. rewrite Q, Rabs_R0, pow_i in S0 by lia. pose proof low800. lra. }
    assert (L2 : lg 1 c (cos beta)).
    { destruct (Req_dec (cos beta) 0) as [Q|Q]; [|now apply lg_of_err]. rewrite Q, Rabs_R0 in *.
      assert (c = 0) as ->.
      { rewrite Rminus_0_r, Rmult_0_r in Ec. destruct (Req_dec c 0) as [|D]; auto. apply Rabs_pos_lt in D. lra. }
      apply (lg_weak 0); [apply lg_refl|lra]. }
    assert (L : lg (6 * IZR n + 4) (H0f RN64 c s n m) (H_function n 0 m beta)).
    { destruct (Z.eq_dec m n) as [->|]; [apply (lg_weak (6 * IZR n)); [|lra]; now apply extreme_top|].
      assert (m = n - 1)%Z as -> by lia. now apply extreme_next. }
    assert (1 <= IZR n <= 1000) by (split; apply IZR_le; lia).
    apply lg_err in L; [|lra]. eapply Rle_trans; [exact L|]. apply Rmult_le_compat_r; [apply Rabs_pos|].
    apply Rmult_le_compat_r; [unfold u64; lra|]. lra.
  - intros mp m Hp Hm A Z0 E. rewrite Hall_transpose, H_transpose by lia. apply A; lia.
  - intros mp m Hp Hm A Z0 E. rewrite Hall_negate, H_negate by lia. apply A; lia.
Qed.

(** ** The theorems *)
Lemma RN64_1 : RN64 1 = 1.
Proof. apply (RN64_I 1). lia. Qed.
Lemma RN64_0 : RN64 0 = 0.
Proof. apply (RN64_I 0). lia. Qed.
Lemma sine_pole c : c = 1 \/ c = -1 -> RN64 (sqrt (RN64 (1 - RN64 (c ^ 2)))) = 0.
Proof.
  intros H. replace (c ^ 2) with 1 by (destruct H; subst; ring). rewrite RN64_1. replace (1 - 1) with 0 by ring. now rewrite RN64_0, sqrt_0, RN64_0.
Qed.
Lemma both_run (P : Z -> Z -> Z -> R -> R -> R -> Prop) (B : Z -> Prop) :
  (forall n mp m c s, B n -> (0 <= n)%Z -> (- n <= mp <= n)%Z -> (- n <= m <= n)%Z -> P n mp m c s (Hall RN64 c s n mp m)) ->
  forall n_max hc cosb sinb ws, (1 <= n_max)%Z -> HCalculator_init64 n_max = Ok hc ->
    cosb <> [] -> (forall c, In c cosb -> -1 <= c <= 1) -> match sinb with Some s => length s = length cosb | None => True end ->
    let sinr := match sinb with Some s => s | None => map (fun c => RN64 (sqrt (RN64 (1 - RN64 (c ^ 2))))) cosb end in
    (match ws with Some w => (workspace_size n_max <= alen w)%Z | None => True end ->
     exists H, HCalculator_call64 hc cosb sinb ws = Ok H /\
       forall n mp m, (0 <= n <= n_max)%Z -> B n -> (Z.abs mp <= m <= n)%Z ->
         exists r, aget H (wedge_index n mp m) = Some r /\ forall j, (j < length cosb)%nat -> P n mp m (nth j cosb 0) (nth j sinr 0) (r (Z.of_nat j))) /\
    (match ws with Some w => (LMpM_total_size 0 n_max <= alen w)%Z | None => True end ->
     exists H, HCalculator_full_call64 hc cosb sinb ws = Ok H /\
       forall n mp m, (0 <= n <= n_max)%Z -> B n -> (- n <= mp <= n)%Z -> (- n <= m <= n)%Z ->
         exists r, aget H (nmpm_index n mp m) = Some r /\ forall j, (j < length cosb)%nat -> P n mp m (nth j cosb 0) (nth j sinr 0) (r (Z.of_nat j))).
Proof.
  intros HP n_max hc cosb sinb ws Hn E N B0 S sinr.
  assert (A : angles_ok cosb sinb) by (split; [auto|]; split; [now apply Forall_forall|auto]).
  assert (Q : forall (r : row) n mp m, (forall j, r j = Hall RN64 (row_of cosb j) (row_of (sines_r RN64 cosb sinb) j) n mp m) ->
    forall j, r (Z.of_nat j) = Hall RN64 (nth j cosb 0) (nth j sinr 0) n mp m).
  { intros r n mp m V j. rewrite V. unfold row_of. rewrite Nat2Z.id. reflexivity. }
  split; intros W.
  - destruct (call_r_run RN64 n_max hc cosb sinb ws Hn E A W) as (H & EH & LH & V). exists H. split; [exact EH|].
    intros n mp m H1 HB H2. destruct (V n mp m H1 H2) as (r & Er & Vr). exists r. split; [exact Er|]. intros j _. rewrite (Q r n mp m Vr). apply HP; auto; lia.
  - destruct (full_call_r_run RN64 n_max hc cosb sinb ws Hn E A W) as (H & EH & LH & V). exists H. split; [exact EH|].
    intros n mp m H1 HB H2 H3. destruct (V n mp m H1 H2 H3) as (r & Er & Vr). exists r. split; [exact Er|]. intros j _. rewrite (Q r n mp m Vr). apply HP; auto; lia.
Qed.

Lemma C74_poles :
  forall n_max hc cosb sinb ws, (1 <= n_max)%Z -> HCalculator_init64 n_max = Ok hc ->
    cosb <> [] -> (forall c, In c cosb -> -1 <= c <= 1) -> match sinb with Some s => length s = length cosb | None => True end ->
    (* at the pole [j], no sine was given or it was given as 0 *)
    let at_pole j := match sinb with Some s => nth j s 0 = 0 | None => True end in
    let good n mp m j x :=
      (nth j cosb 0 = 1 -> at_pole j ->
         Rabs (x - H_function n mp m 0) <= 20 * (IZR n + 2) * u64 /\ (Z.abs mp <> Z.abs m -> x = 0)) /\
      (nth j cosb 0 = -1 -> at_pole j ->
         Rabs (x - H_function n mp m PI) <= 20 * (IZR n + 2) * u64 /\ ((mp <> - m)%Z -> x = 0)) in
    (match ws with Some w => (workspace_size n_max <= alen w)%Z | None => True end ->
     exists H, HCalculator_call64 hc cosb sinb ws = Ok H /\
       forall n mp m, (0 <= n <= n_max)%Z -> (n <= 1000)%Z -> (Z.abs mp <= m <= n)%Z ->
         exists r, aget H (wedge_index n mp m) = Some r /\ forall j, (j < length cosb)%nat -> good n mp m j (r (Z.of_nat j))) /\
    (match ws with Some w => (LMpM_total_size 0 n_max <= alen w)%Z | None => True end ->
     exists H, HCalculator_full_call64 hc cosb sinb ws = Ok H /\
       forall n mp m, (0 <= n <= n_max)%Z -> (n <= 1000)%Z -> (- n <= mp <= n)%Z -> (- n <= m <= n)%Z ->
         exists r, aget H (nmpm_index n mp m) = Some r /\ forall j, (j < length cosb)%nat -> good n mp m j (r (Z.of_nat j))).
Proof.
  intros n_max hc cosb sinb ws Hn E N B S at_pole good.
  pose proof (both_run (fun n mp m c s x => s = 0 ->
     (c = 1 -> Rabs (x - H_function n mp m 0) <= 20 * (IZR n + 2) * u64 /\ (Z.abs mp <> Z.abs m -> x = 0)) /\
     (c = -1 -> Rabs (x - H_function n mp m PI) <= 20 * (IZR n + 2) * u64 /\ ((mp <> - m)%Z -> x = 0))) (fun n => n <= 1000)%Z) as R.
  specialize (R ltac:(cbv beta; intros n mp m c s Hb H0 H1 H2 ->; split; intros ->; [apply Hall_north|apply Hall_south]; lia) n_max hc cosb sinb ws Hn E N B S).
  cbv zeta in R.
  assert (Z0 : forall j, (j < length cosb)%nat -> nth j cosb 0 = 1 \/ nth j cosb 0 = -1 -> at_pole j ->
    nth j (match sinb with Some s => s | None => map (fun c => RN64 (sqrt (RN64 (1 - RN64 (c ^ 2))))) cosb end) 0 = 0).
  { intros j Hj Hc Hs. unfold at_pole in Hs. destruct sinb as [s0|]; [exact Hs|].
    set (f := fun c => RN64 (sqrt (RN64 (1 - RN64 (c ^ 2))))). rewrite (nth_indep _ 0 (f 0)) by (rewrite map_length; auto). rewrite map_nth. now apply sine_pole. }
  destruct R as [R1 R2]. split; intros W; [destruct (R1 W) as (H & EH & V)|destruct (R2 W) as (H & EH & V)]; exists H; (split; [exact EH|]).
  - intros n mp m H1 H2 H3. destruct (V n mp m H1 H2 H3) as (r & Er & Vr). exists r. split; [exact Er|]. intros j Hj. specialize (Vr j Hj).
    split; intros Ec Es; apply Vr; auto.
  - intros n mp m H1 H2 H3 H4. destruct (V n mp m H1 H2 H3 H4) as (r & Er & Vr). exists r. split; [exact Er|]. intros j Hj. specialize (Vr j Hj).
    split; intros Ec Es; apply Vr; auto.
Qed.

Lemma C74_ends :
  forall n_max hc cosb sinb ws, (1 <= n_max)%Z -> HCalculator_init64 n_max = Ok hc ->
    cosb <> [] -> (forall c, In c cosb -> -1 <= c <= 1) -> match sinb with Some s => length s = length cosb | None => True end ->
    let sinr := match sinb with Some s => s | None => map (fun c => RN64 (sqrt (RN64 (1 - RN64 (c ^ 2))))) cosb end in
    (* the cosine and sine at [j] are those of beta, each within one rounding, and are not tiny *)
    let angle n j beta :=
      Rabs (nth j cosb 0 - cos beta) <= u64 * Rabs (cos beta) /\ Rabs (nth j sinr 0 - sin beta) <= u64 * Rabs (sin beta) /\
      (cos beta = 0 \/ / 2 ^ 50 <= Rabs (cos beta)) /\ / 2 ^ 800 <= Rabs (sin beta) ^ Z.to_nat n in
    let good n mp m j x := forall beta, angle n j beta ->
      Rabs (x - H_function n mp m beta) <= (6 * IZR n + 5) * u64 * Rabs (H_function n mp m beta) in
    (match ws with Some w => (workspace_size n_max <= alen w)%Z | None => True end ->
     exists H, HCalculator_call64 hc cosb sinb ws = Ok H /\
       forall n m, (1 <= n <= n_max)%Z -> (n <= 1000)%Z -> (n - 1 <= m <= n)%Z ->
         exists r, aget H (wedge_index n 0 m) = Some r /\ forall j, (j < length cosb)%nat -> good n 0%Z m j (r (Z.of_nat j))) /\
    (match ws with Some w => (LMpM_total_size 0 n_max <= alen w)%Z | None => True end ->
     exists H, HCalculator_full_call64 hc cosb sinb ws = Ok H /\
       forall n mp m, (1 <= n <= n_max)%Z -> (n <= 1000)%Z -> (mp = 0 \/ m = 0)%Z -> (n - 1 <= Z.abs mp + Z.abs m <= n)%Z ->
         exists r, aget H (nmpm_index n mp m) = Some r /\ forall j, (j < length cosb)%nat -> good n mp m j (r (Z.of_nat j))).
Proof.
  intros n_max hc cosb sinb ws Hn E N B S sinr angle good.
  pose proof (both_run (fun n mp m c s x => (mp = 0 \/ m = 0)%Z -> (n - 1 <= Z.abs mp + Z.abs m)%Z -> forall beta,
     Rabs (c - cos beta) <= u64 * Rabs (cos beta) /\ Rabs (s - sin beta) <= u64 * Rabs (sin beta) /\
     (cos beta = 0 \/ / 2 ^ 50 <= Rabs (cos beta)) /\ / 2 ^ 800 <= Rabs (sin beta) ^ Z.to_nat n ->
     Rabs (x - H_function n mp m beta) <= (6 * IZR n + 5) * u64 * Rabs (H_function n mp m beta)) (fun n => 1 <= n <= 1000)%Z) as R.
  specialize (R ltac:(cbv beta; intros n mp m c s Hb H0 H1 H2 H3 H4 beta (A1 & A2 & A3 & A4); apply Hall_end; auto; lia) n_max hc cosb sinb ws Hn E N B S).
  cbv zeta in R. destruct R as [R1 R2]. split; intros W; [destruct (R1 W) as (H & EH & V)|destruct (R2 W) as (H & EH & V)]; exists H; (split; [exact EH|]).
  - intros n m H1 H2 H3. destruct (V n 0%Z m ltac:(lia) ltac:(lia) ltac:(lia)) as (r & Er & Vr). exists r. split; [exact Er|]. intros j Hj beta A.
    apply (Vr j Hj); [auto|lia|exact A].
  - intros n mp m H1 H2 H3 H4. destruct (V n mp m ltac:(lia) ltac:(lia) ltac:(lia) ltac:(lia)) as (r & Er & Vr). exists r. split; [exact Er|]. intros j Hj beta A.
    apply (Vr j Hj); [auto|lia|exact A].
Qed.

(** A wedge with n_max = 3 at cos = -1 with the default sine and, as second angle, at the equator *)
Lemma C74_example :
  exists hc H, HCalculator_init64 3 = Ok hc /\ HCalculator_call64 hc [-1; 0] None None = Ok H /\
    (exists r, aget H (wedge_index 3 (-2) 2) = Some r /\ Rabs (r 0%Z - H_function 3 (-2) 2 PI) <= 100 * u64) /\
    (exists r, aget H (wedge_index 3 1 2) = Some r /\ r 0%Z = 0) /\
    (exists r, aget H (wedge_index 3 0 3) = Some r /\
       Rabs (r 1%Z - H_function 3 0 3 (PI / 2)) <= 23 * u64 * Rabs (H_function 3 0 3 (PI / 2))).
Proof.
  destruct (proj1 (C71_init 3) ltac:(lia)) as (hc & E & _).
  assert (I0 : forall c, In c [-1; 0] -> -1 <= c <= 1) by (intros c [<-|[<-|[]]]; lra).
  destruct (C74_poles 3 hc [-1; 0] None None ltac:(lia) E ltac:(discriminate) I0 I) as [W _]. destruct (W I) as (H & EH & V).
  destruct (C74_ends 3 hc [-1; 0] None None ltac:(lia) E ltac:(discriminate) I0 I) as [W' _]. destruct (W' I) as (H' & EH' & V').
  rewrite EH in EH'. injection EH' as <-. exists hc, H. split; [exact E|]. split; [exact EH|]. split; [|split].
  - destruct (V 3 (-2) 2)%Z as (r & Er & G); [lia|lia|lia|]. exists r. split; [exact Er|].
    destruct (proj2 (G 0%nat ltac:(cbn; lia)) eq_refl I) as [G' _]. change (Z.of_nat 0) with 0%Z in G'. eapply Rle_trans; [exact G'|]. unfold u64. lra.
  - destruct (V 3 1 2)%Z as (r & Er & G); [lia|lia|lia|]. exists r. split; [exact Er|].
    destruct (proj2 (G 0%nat ltac:(cbn; lia)) eq_refl I) as [_ G']. apply G'. lia.
  - destruct (V' 3 3)%Z as (r & Er & G); [lia|lia|lia|]. exists r. split; [exact Er|].
    specialize (G 1%nat ltac:(cbn; lia) (PI / 2)). change (Z.of_nat 1) with 1%Z in G. replace (6 * 3 + 5) with 23 in G by lra. apply G.
    rewrite cos_PI2, sin_PI2. cbn [nth map]. replace (0 ^ 2) with 0 by ring. rewrite RN64_0, !Rminus_0_r, RN64_1, sqrt_1, RN64_1.
    replace (1 - 1) with 0 by ring. rewrite Rabs_R0, Rabs_R1, pow1. unfold u64.
    split; [lra|]. split; [lra|]. split; [now left|]. rewrite <- Rinv_1. apply Rinv_le_contravar; [lra|]. apply pow_R1_Rle. lra.
Qed.
