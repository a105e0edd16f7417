(** The H recursion in double precision at the poles: cos = 1 or -1 and sin = 0.  Used in FloatHPoleProps.v. *)
Require Import ZArith Reals Lia Lra.
From Flocq Require Import Core.
From Verif Require Import FloatPowersSpec FloatIndexModel FloatIndexProofs FloatPowersModel FloatPowersProofs FloatPowersProps FloatPartsProofs FloatLog FloatThreeJProofs HMath FloatHSpec FloatHParity.
Open Scope R_scope.
Set Bullet Behavior "Strict Subproofs".

Lemma low900 : / 2 ^ 900 <= / 2 ^ 60.
Proof. apply Rinv_le_contravar; [apply pow_lt; lra|]. apply Rle_pow; [lra|lia]. Qed.
Lemma lgRN k k' x y : lg k x y -> 0 <= k -> k + 1 <= k' -> k <= 2 ^ 20 -> / 2 ^ 60 <= Rabs y -> lg k' (RN64 x) y.
Proof.
  intros H H0 H1 H2 H3. apply (lg_weak (k + 1)); auto. apply lg_RN0; auto. right. pose proof low900. lra.
Qed.
Lemma lgRNp k k' x y : lg k x y -> 0 <= k -> k + 1 <= k' -> k <= 2 ^ 20 -> / 2 ^ 60 <= y -> lg k' (RN64 x) y.
Proof. intros. apply (lgRN k); auto. rewrite Rabs_pos_eq; auto. assert (0 < / 2 ^ 60) by (apply Rinv_0_lt_compat; lra). lra. Qed.
Lemma p60 : / 2 ^ 60 <= / 1000000000.
Proof. apply Rinv_le_contravar; lra. Qed.
Lemma ge1 x y : 1 <= x -> 1 <= y -> 1 <= x * y.
Proof. intros. nra. Qed.
Lemma lg_div1 k1 k2 x y q : q <> 0 -> lg k1 x q -> lg k2 y q -> lg (k1 + k2) (x / y) 1.
Proof. intros Q L1 L2. replace 1 with (q / q) by (field; auto). apply lg_div; auto. Qed.
Lemma abs_m1 : Rabs (-1) = 1.
Proof. rewrite Rabs_left; lra. Qed.
Ltac zz := repeat progress (rewrite ?Rmult_0_r, ?Rmult_0_l, ?RN64_0, ?Rminus_0_r, ?Rplus_0_r, ?Rplus_0_l).
Lemma RN64_I z : (Z.abs z < 2 ^ 53)%Z -> RN64 (IZR z) = IZR z.
Proof. apply RN64_int. Qed.

(** ** The coefficients *)
Lemma U_le n m : (1 <= n <= 2000)%Z -> (- n <= m <= n)%Z -> U n m <= 10000.
Proof.
  intros. unfold U. replace 10000 with (sqrt (10000 * 10000)) by (apply sqrt_square; lra). apply sqrt_le_1_alt.
  replace (10000 * 10000) with (IZR 100000000) by lra. apply IZR_le. nia.
Qed.
Lemma U_ge n m : (- n <= m < n)%Z -> 1 <= U n m.
Proof. intros. unfold U. rewrite <- sqrt_1. apply sqrt_le_1_alt, IZR_le. nia. Qed.
Lemma Uflt n m : (1 <= n <= 2000)%Z -> (- n <= m < n)%Z -> lg 1 (RN64 (sqrt (RN64 (IZR ((n - m) * (n + m + 1)))))) (U n m).
Proof.
  intros. rewrite RN64_I by nia. apply (lgRNp 0); try lra; [apply lg_refl|].
  pose proof (U_ge n m ltac:(lia)). pose proof p60. lra.
Qed.
Lemma gflt_lg n m : (1 <= n <= 2000)%Z -> (0 <= m < n)%Z -> lg 2 (gflt RN64 n m) (gco n m).
Proof.
  intros. unfold gflt, gco. rewrite (RN64_I (2 * (m + 1))) by lia. rewrite mult_IZR.
  pose proof (U_ge n m ltac:(lia)). pose proof (U_le n m ltac:(lia) ltac:(lia)).
  assert (M : 1 <= IZR (m + 1)) by (apply IZR_le; lia).
  apply (lgRNp 1); try lra.
  - apply (lg_weak (0 + 1)); [|lra]. apply lg_div; [apply lg_refl|]. apply Uflt; lia.
  - pose proof p60. apply Rle_trans with (2 / 10000); [lra|]. unfold Rdiv. apply Rmult_le_compat; try lra.
    apply Rinv_le_contravar; lra.
Qed.
Definition dpos (n m : Z) : R := 1 / 2 * U n m.
Lemma dflt_lg n m : (1 <= n <= 2000)%Z -> (0 <= m < n)%Z -> lg 2 (dflt RN64 n m) (dpos n m).
Proof.
  intros. unfold dflt, dpos. destruct (Z.ltb_spec m 0); [lia|]. cbv zeta.
  apply (lgRNp 1); try lra.
  - apply lg_scale. apply Uflt; lia.
  - pose proof (U_ge n m ltac:(lia)). pose proof p60. lra.
Qed.
Lemma dflt_neg n k : (0 <= k)%Z -> dflt RN64 n (- k - 1) = - dflt RN64 n k.
Proof.
  intros. unfold dflt. destruct (Z.ltb_spec (- k - 1) 0); [|lia]. destruct (Z.ltb_spec k 0); [lia|]. cbv zeta.
  replace ((n - (- k - 1)) * (n + (- k - 1) + 1))%Z with ((n - k) * (n + k + 1))%Z by ring.
  match goal with |- RN64 (RN64 ?x * -1) = _ => replace (RN64 x * -1) with (- RN64 x) by ring end.
  rewrite RN64_opp, RN64_idem. reflexivity.
Qed.
Definition bpos (n : Z) : R := sqrt (IZR ((n - 1) * n) / IZR ((2 * n - 1) * (2 * n + 1))).
Lemma bpos_rng n : (2 <= n)%Z -> / 10 <= bpos n <= 1.
Proof.
  intros. assert (0 < IZR ((2 * n - 1) * (2 * n + 1))) by (apply IZR_lt; nia). unfold bpos. split.
  - replace (/ 10) with (sqrt (/ 10 * / 10)) by (apply sqrt_square; lra). apply sqrt_le_1_alt.
    apply (Rmult_le_reg_r (IZR ((2 * n - 1) * (2 * n + 1)))); [auto|].
    replace (IZR ((n - 1) * n) / IZR ((2 * n - 1) * (2 * n + 1)) * IZR ((2 * n - 1) * (2 * n + 1))) with (IZR ((n - 1) * n)) by (field; lra).
    assert (IZR ((2 * n - 1) * (2 * n + 1)) <= IZR (100 * ((n - 1) * n))) by (apply IZR_le; nia). rewrite (mult_IZR 100) in H1. lra.
  - rewrite <- sqrt_1. apply sqrt_le_1_alt. apply (Rmult_le_reg_r (IZR ((2 * n - 1) * (2 * n + 1)))); [auto|].
    replace (IZR ((n - 1) * n) / IZR ((2 * n - 1) * (2 * n + 1)) * IZR ((2 * n - 1) * (2 * n + 1))) with (IZR ((n - 1) * n)) by (field; lra).
    rewrite Rmult_1_l. apply IZR_le. nia.
Qed.
Lemma bflt_lg n : (2 <= n <= 2000)%Z -> lg 2 (bflt RN64 n 0) (bpos n).
Proof.
  intros. unfold bflt. change (0 <? 0)%Z with false. cbv zeta iota.
  rewrite !RN64_I by nia. replace (n - 0 - 1)%Z with (n - 1)%Z by ring. rewrite Z.sub_0_r.
  pose proof (bpos_rng n ltac:(lia)) as B. pose proof p60.
  assert (P : 0 < IZR ((2 * n - 1) * (2 * n + 1))) by (apply IZR_lt; nia).
  assert (Q : 0 < IZR ((n - 1) * n)) by (apply IZR_lt; nia).
  set (q := IZR ((n - 1) * n) / IZR ((2 * n - 1) * (2 * n + 1))) in *.
  assert (q0 : 0 < q) by (apply Rdiv_lt_0_compat; auto).
  assert (q1 : / 100 <= q). { change (bpos n) with (sqrt q) in B. rewrite <- (sqrt_sqrt q) by lra. nra. }
  apply (lgRNp 1); try lra.
  - apply (lg_weak (1 / 2)); [|lra]. change (bpos n) with (sqrt q). apply lg_sqrt; [lra|]. apply (lgRNp 0); try lra. apply lg_refl.
Qed.
Lemma normf_lg n : (0 <= n <= 2000)%Z -> lg 1 (normf RN64 n) (sqrt (IZR (4 * n + 2))).
Proof.
  intros. unfold normf. rewrite RN64_I by lia. apply (lgRNp 0); try lra; [apply lg_refl|]. pose proof p60.
  apply Rle_trans with 1; [lra|]. rewrite <- sqrt_1. apply sqrt_le_1_alt, IZR_le. lia.
Qed.

(** ** The elements m = n of the row m' = 0 *)
Lemma Praw_top_ge a b k : 1 <= Praw a b (Z.of_nat k + 1) (Z.of_nat k + 1).
Proof.
  induction k.
  - change (Z.of_nat 0 + 1)%Z with 1%Z. rewrite Praw_11. rewrite <- sqrt_1 at 1. apply sqrt_le_1_alt. lra.
  - rewrite Praw_top by lia. replace (Z.of_nat (S k) + 1 - 1)%Z with (Z.of_nat k + 1)%Z by lia.
    assert (1 <= sqrt (1 + 1 / 2 / IZR (Z.of_nat (S k) + 1))).
    { rewrite <- sqrt_1 at 1. apply sqrt_le_1_alt. assert (0 < IZR (Z.of_nat (S k) + 1)) by (apply IZR_lt; lia).
      assert (0 < 1 / 2 / IZR (Z.of_nat (S k) + 1)) by (apply Rdiv_lt_0_compat; lra). lra. }
    apply ge1; lra.
Qed.
Lemma topf_lg a b k : (Z.of_nat k <= 2000)%Z -> lg (4 * INR k + 1) (topf RN64 k) (Praw a b (Z.of_nat k + 1) (Z.of_nat k + 1)).
Proof.
  intros Hk. pose proof p60 as P6.
  induction k as [|k IH].
  - change (Z.of_nat 0 + 1)%Z with 1%Z. rewrite Praw_11. cbn [topf INR]. pose proof (Praw_top_ge a b 0) as G.
    change (Z.of_nat 0 + 1)%Z with 1%Z in G. rewrite Praw_11 in G.
    apply (lgRNp 0); try lra. apply lg_refl.
  - specialize (IH ltac:(lia)). pose proof (Praw_top_ge a b (S k)) as G.
    assert (K : 0 <= INR k <= 2000). { split; [apply pos_INR|]. rewrite INR_IZR_INZ. apply IZR_le. lia. }
    rewrite S_INR. cbn [topf]. rewrite Praw_top in G |- * by lia.
    replace (Z.of_nat (S k) + 1 - 1)%Z with (Z.of_nat k + 1)%Z in G |- * by lia.
    rewrite (RN64_I (Z.of_nat (S k) + 1)) by lia.
    set (N := IZR (Z.of_nat (S k) + 1)) in *.
    assert (HN : 2 <= N <= 10000) by (split; apply IZR_le; lia).
    assert (Q : / 20000 <= 1 / 2 / N).
    { unfold Rdiv. rewrite Rmult_1_l, <- Rinv_mult. apply Rinv_le_contravar; lra. }
    assert (S1 : 1 <= sqrt (1 + 1 / 2 / N)) by (rewrite <- sqrt_1 at 1; apply sqrt_le_1_alt; lra).
    apply (lgRNp (4 * INR k + 3)); try lra.
    apply (lg_weak (2 + (4 * INR k + 1))); [|lra]. apply lg_mul; [|exact IH].
    apply (lgRNp 1); try lra.
    apply (lg_weak (2 / 2)); [|lra]. apply lg_sqrt; [lra|].
    apply (lgRNp 1); try lra.
    apply lg_plus; try lra.
    + apply (lg_weak 0); [apply lg_refl|lra].
    + apply (lgRNp 0); try lra. apply lg_refl.
Qed.

(** ** Row m' = 0 at the north pole *)
Lemma rp_north p n q : rp 1 0 p n q = if (q =? Z.of_nat p)%Z then 1 else 0.
Proof.
  revert q. induction p; intros q.
  - induction n in q |- *.
    + unfold rp. simpl. destruct q; reflexivity.
    + rewrite rp_S2, !IHn. ring.
  - rewrite rp_S, !IHp.
    replace (q - 1 =? Z.of_nat p)%Z with (q =? Z.of_nat (S p))%Z by (destruct (Z.eqb_spec q (Z.of_nat (S p))), (Z.eqb_spec (q - 1) (Z.of_nat p)); auto; lia). ring.
Qed.
Lemma dd_north n mp m : (- n <= mp <= n)%Z -> dd 1 0 n mp m = if (mp =? m)%Z then 1 else 0.
Proof.
  intros. unfold dd, S2. rewrite rp_north, Z2Nat.id by lia.
  destruct (Z.eqb_spec (n + m) (n + mp)), (Z.eqb_spec mp m); try lia; [|ring]. subst. field. apply W_neq0.
Qed.
Lemma A_rec n m : (0 <= m < n)%Z -> Praw 1 0 n m = gco n m * Praw 1 0 n (m + 1).
Proof. intros. rewrite Praw_rec by auto. ring. Qed.
Lemma A_0 n : (0 <= n)%Z -> Praw 1 0 n 0 = sqrt (IZR (4 * n + 2)).
Proof.
  intros. pose proof (dd_Praw 1 0 n 0 ltac:(lia)) as E. rewrite dd_north in E by lia. rewrite Z.eqb_refl in E.
  change (Z.to_nat 0) with O in E. simpl pow in E.
  assert (0 < sqrt (IZR (4 * n + 2))) by (apply sqrt_lt_R0, IZR_lt; lia).
  apply (Rmult_eq_reg_l (1 / sqrt (IZR (4 * n + 2)))).
  - rewrite <- E. field. lra.
  - apply Rgt_not_eq, Rdiv_lt_0_compat; lra.
Qed.
Lemma gco_pos n m : (0 <= m < n)%Z -> 0 < gco n m.
Proof.
  intros. pose proof (U_ge n m ltac:(lia)). unfold gco. apply Rdiv_lt_0_compat; [|lra].
  assert (0 < IZR (m + 1)) by (apply IZR_lt; lia). lra.
Qed.
Lemma gco_ge n m : (0 <= m < n)%Z -> ((n - m) * (n + m + 1) <= 4 * (m + 1) ^ 2)%Z -> 1 <= gco n m.
Proof.
  intros H L. pose proof (U_ge n m ltac:(lia)). unfold gco.
  assert (M : 0 < IZR (m + 1)) by (apply IZR_lt; lia).
  assert (U n m <= 2 * IZR (m + 1)).
  { unfold U. rewrite <- (sqrt_square (2 * IZR (m + 1))) by lra. apply sqrt_le_1_alt.
    replace (2 * IZR (m + 1) * (2 * IZR (m + 1))) with (IZR (4 * (m + 1) ^ 2)); [apply IZR_le; auto|].
    rewrite mult_IZR. replace ((m + 1) ^ 2)%Z with ((m + 1) * (m + 1))%Z by ring. rewrite mult_IZR. ring. }
  apply (Rmult_le_reg_r (U n m)); [lra|]. unfold Rdiv. rewrite Rmult_assoc, Rinv_l by lra. lra.
Qed.
Lemma gco_le n m : (0 <= m < n)%Z -> (4 * (m + 1) ^ 2 <= (n - m) * (n + m + 1))%Z -> gco n m <= 1.
Proof.
  intros H L. pose proof (U_ge n m ltac:(lia)). unfold gco.
  assert (M : 0 < IZR (m + 1)) by (apply IZR_lt; lia).
  assert (2 * IZR (m + 1) <= U n m).
  { unfold U. rewrite <- (sqrt_square (2 * IZR (m + 1))) by lra. apply sqrt_le_1_alt.
    replace (2 * IZR (m + 1) * (2 * IZR (m + 1))) with (IZR (4 * (m + 1) ^ 2)); [apply IZR_le; auto|].
    rewrite mult_IZR. replace ((m + 1) ^ 2)%Z with ((m + 1) * (m + 1))%Z by ring. rewrite mult_IZR. ring. }
  apply (Rmult_le_reg_r (U n m)); [lra|]. unfold Rdiv. rewrite Rmult_assoc, Rinv_l by lra. lra.
Qed.
Lemma A_down n (k : nat) : (Z.of_nat k <= n)%Z -> (1 <= n)%Z ->
  ((n - (n - Z.of_nat k)) * (n + (n - Z.of_nat k) + 1) <= 4 * (n - Z.of_nat k + 1) ^ 2)%Z -> 1 <= Praw 1 0 n (n - Z.of_nat k).
Proof.
  intros Hk Hn. induction k as [|k IH]; intros L.
  - pose proof (Praw_top_ge 1 0 (Z.to_nat (n - 1))) as G. replace (Z.of_nat (Z.to_nat (n - 1)) + 1)%Z with n in G by lia.
    replace (n - Z.of_nat 0)%Z with n by lia. exact G.
  - rewrite A_rec by lia. replace (n - Z.of_nat (S k) + 1)%Z with (n - Z.of_nat k)%Z in * by lia.
    specialize (IH ltac:(lia) ltac:(nia)).
    pose proof (gco_ge n (n - Z.of_nat (S k)) ltac:(lia)) as G. replace (n - Z.of_nat (S k) + 1)%Z with (n - Z.of_nat k)%Z in G by lia.
    specialize (G L). apply ge1; lra.
Qed.
Lemma A_up n (m : nat) : (Z.of_nat m <= n)%Z -> (1 <= n)%Z ->
  (forall j, (0 <= j < Z.of_nat m)%Z -> 4 * (j + 1) ^ 2 <= (n - j) * (n + j + 1))%Z -> 1 <= Praw 1 0 n (Z.of_nat m).
Proof.
  intros Hm Hn. induction m as [|m IH]; intros L.
  - change (Z.of_nat 0) with 0%Z. rewrite A_0 by lia. rewrite <- sqrt_1 at 1. apply sqrt_le_1_alt, IZR_le. lia.
  - specialize (IH ltac:(lia) ltac:(intros; apply L; lia)). rewrite A_rec in IH by lia.
    pose proof (gco_pos n (Z.of_nat m) ltac:(lia)). pose proof (gco_le n (Z.of_nat m) ltac:(lia) ltac:(apply L; lia)).
    replace (Z.of_nat (S m)) with (Z.of_nat m + 1)%Z by lia. nra.
Qed.
Lemma A_ge n m : (1 <= n)%Z -> (0 <= m <= n)%Z -> 1 <= Praw 1 0 n m.
Proof.
  intros Hn Hm. destruct (Z_le_gt_dec ((n - m) * (n + m + 1)) (4 * (m + 1) ^ 2)) as [L|L].
  - replace m with (n - Z.of_nat (Z.to_nat (n - m)))%Z by lia. apply A_down; lia.
  - replace m with (Z.of_nat (Z.to_nat m)) by lia. apply A_up; try lia. intros j Hj. nia.
Qed.

Lemma sq0 : RN64 (0 ^ 2) = 0.
Proof. replace (0 ^ 2) with 0 by ring. apply RN64_0. Qed.
Lemma recf_pole n m x y : recf RN64 1 0 n m x y = RN64 (RN64 (RN64 (gflt RN64 n m * 1) * x)).
Proof. unfold recf. rewrite sq0, Rmult_0_r, RN64_0, Rmult_0_l, RN64_0, Rminus_0_r. reflexivity. Qed.
Lemma step_lg n m x K : (1 <= n <= 1001)%Z -> (0 <= m < n)%Z -> 0 <= K <= 100000 -> lg K x (Praw 1 0 n (m + 1)) ->
  lg (K + 4) (RN64 (RN64 (gflt RN64 n m * 1) * x)) (Praw 1 0 n m).
Proof.
  intros Hn Hm HK L. pose proof p60. pose proof (A_ge n m ltac:(lia) ltac:(lia)) as G.
  pose proof (gflt_lg n m ltac:(lia) ltac:(lia)) as E.
  assert (g0 : / 10000 <= gco n m).
  { pose proof (U_ge n m ltac:(lia)). pose proof (U_le n m ltac:(lia) ltac:(lia)). assert (1 <= IZR (m + 1)) by (apply IZR_le; lia).
    unfold gco. unfold Rdiv. rewrite <- (Rmult_1_l (/ 10000)). apply Rmult_le_compat; try lra. apply Rinv_le_contravar; lra. }
  rewrite A_rec in * by lia.
  apply (lgRNp (K + 3)); try lra. apply (lg_weak (3 + K)); [|lra]. apply lg_mul; [|exact L].
  apply (lgRNp 2); try lra. rewrite Rmult_1_r. exact E.
Qed.
Lemma rawf_lg n k : (1 <= n <= 1001)%Z -> (Z.of_nat k <= n)%Z -> lg (4 * IZR n + 5 * INR k) (rawf RN64 1 0 n k) (Praw 1 0 n (n - Z.of_nat k)).
Proof.
  intros Hn Hk. assert (N : 1 <= IZR n <= 1001) by (split; apply IZR_le; lia).
  induction k as [|k IH].
  - pose proof (topf_lg 1 0 (Z.to_nat (n - 1)) ltac:(lia)) as T. replace (Z.of_nat (Z.to_nat (n - 1)) + 1)%Z with n in T by lia.
    replace (n - Z.of_nat 0)%Z with n by lia. cbn [rawf INR]. eapply lg_weak; [exact T|].
    rewrite INR_IZR_INZ, Z2Nat.id, minus_IZR by lia. lra.
  - specialize (IH ltac:(lia)). assert (K : 0 <= INR k <= 1001). { split; [apply pos_INR|]. rewrite INR_IZR_INZ. apply IZR_le. lia. }
    assert (S : lg (4 * IZR n + 5 * INR k + 4) (RN64 (RN64 (gflt RN64 n (n - Z.of_nat (S k)) * 1) * rawf RN64 1 0 n k)) (Praw 1 0 n (n - Z.of_nat (S k)))).
    { apply step_lg; try lia; try lra. replace (n - Z.of_nat (S k) + 1)%Z with (n - Z.of_nat k)%Z by lia. exact IH. }
    rewrite S_INR. pose proof p60. pose proof (A_ge n (n - Z.of_nat (Datatypes.S k)) ltac:(lia) ltac:(lia)). destruct k as [|k].
    + cbn [rawf]. eapply lg_weak; [exact S|]. lra.
    + change (rawf RN64 1 0 n (Datatypes.S (Datatypes.S k))) with
        (recf RN64 1 0 n (n - Z.of_nat (Datatypes.S (Datatypes.S k))) (rawf RN64 1 0 n (Datatypes.S k)) (rawf RN64 1 0 n k)).
      rewrite recf_pole. eapply lgRNp; [exact S|lra..].
Qed.
Lemma H00_lg n : (1 <= n <= 1001)%Z -> lg (9 * IZR n + 3) (H0f RN64 1 0 n 0) 1.
Proof.
  intros Hn. assert (N : 1 <= IZR n <= 1001) by (split; apply IZR_le; lia). pose proof p60. unfold H0f.
  destruct (Z.eqb_spec 0 n); [lia|]. destruct (Z.eqb_spec n 1).
  - assert (S2' : 1 <= sqrt 2) by (rewrite <- sqrt_1 at 1; apply sqrt_le_1_alt; lra).
    assert (gE : gco 1 0 = sqrt 2).
    { unfold gco, U. simpl. transitivity (2 / sqrt 2); [f_equal; ring|]. rewrite <- (sqrt_sqrt 2) at 1 by lra. field. lra. }
    pose proof (gflt_lg 1 0 ltac:(lia) ltac:(lia)) as G. rewrite gE in G.
    apply (lgRNp 4); try lra. 
    apply (lg_weak (3 + 1)); [|lra]. apply (lg_div1 _ _ _ _ (sqrt 2)); [lra| |].
    + apply (lgRNp 2); try lra. rewrite Rmult_1_r. exact G.
    + apply (lgRNp 0); try lra. apply lg_refl.
  - change (0 =? 0)%Z with true. cbv iota. rewrite recf_pole.
    pose proof (rawf_lg n (Z.to_nat (n - 1)) ltac:(lia) ltac:(lia)) as R. rewrite INR_IZR_INZ, Z2Nat.id, minus_IZR in R by lia.
    replace (n - (n - 1))%Z with (0 + 1)%Z in R by lia.
    apply step_lg in R; try lia; try lra.
    pose proof (A_ge n 0 ltac:(lia) ltac:(lia)) as A0. rewrite A_0 in A0 by lia.
    set (q := sqrt (IZR (4 * n + 2))) in *.
    assert (E : Praw 1 0 n 0 = q) by (apply A_0; lia). rewrite E in R.
    apply (lgRNp (9 * IZR n + 2)); try lra. 
    apply (lg_weak (9 * IZR n + 1 + 1)); [|lra]. apply (lg_div1 _ _ _ _ q); [lra| |apply normf_lg; lia].
    apply (lgRNp (4 * IZR n + 5 * (IZR n - 1) + 4)); lra || exact R.
Qed.
Lemma preff_0 n i : preff RN64 0 n (S i) = 0.
Proof. cbn [preff]. rewrite Rmult_0_r. apply RN64_0. Qed.
Lemma powf_0 i : powf RN64 0 (S i) = 0.
Proof. cbn [powf]. rewrite Rmult_0_r. apply RN64_0. Qed.
Lemma H0f_0 c n m : (1 <= m <= n)%Z -> H0f RN64 c 0 n m = 0.
Proof.
  intros. unfold H0f. destruct (Z.eqb_spec m n).
  - replace (Z.to_nat n) with (S (Z.to_nat (n - 1))) by lia. rewrite powf_0. unfold Rdiv. rewrite Rmult_0_l, RN64_0, Rmult_0_r. apply RN64_0.
  - destruct (Z.eqb_spec n 1); [lia|]. destruct (Z.eqb_spec m 0); [lia|].
    replace (Z.to_nat m) with (S (Z.to_nat (m - 1))) by lia. rewrite preff_0, Rmult_0_r. apply RN64_0.
Qed.

(** ** Row m' = 1 *)
Lemma RN64_2 : RN64 (1 + 1) = 2.
Proof. replace (1 + 1) with (IZR 2) by lra. apply RN64_I. reflexivity. Qed.
Lemma H1f_north n : (1 <= n <= 1000)%Z -> lg (9 * IZR n + 23) (H1f RN64 1 0 n 1) (-1).
Proof.
  intros Hn. assert (N : 1 <= IZR n <= 1000) by (split; apply IZR_le; lia). pose proof p60. unfold H1f.
  rewrite (H0f_0 1 (n + 1) (1 + 1)), (H0f_0 1 (n + 1) 1) by lia. replace (1 - 1)%Z with 0%Z by reflexivity.
  rewrite !Rmult_0_r, RN64_0, Rminus_0_r, RN64_2. unfold Rminus. rewrite Rplus_0_l.
  pose proof (bpos_rng (n + 1) ltac:(lia)) as B. pose proof (bflt_lg (n + 1) ltac:(lia)) as L. set (b := bpos (n + 1)) in *.
  pose proof (H00_lg (n + 1) ltac:(lia)) as H0. rewrite plus_IZR in H0.
  assert (Bi : 1 <= 1 / b) by (unfold Rdiv; rewrite Rmult_1_l, <- Rinv_1; apply Rinv_le_contravar; lra).
  replace (-1) with (1 / b * (1 / 2 * (- (b * 2 * 1)))) by (field; lra).
  assert (E : 1 / 2 * (- (b * 2 * 1)) = - b) by field.
  assert (E' : 1 / b * - b = -1) by (field; lra).
  apply (lgRN (9 * IZR n + 22)); try lra; [|rewrite E, E', abs_m1; lra].
  apply (lg_weak (3 + (9 * IZR n + 19))); [|lra]. apply lg_mul.
  - apply (lgRNp 2); try lra. apply (lg_weak (0 + 2)); [|lra]. apply lg_div; [apply lg_refl|exact L].
  - assert (Ab : Rabs (- b) = b) by (rewrite Rabs_Ropp; apply Rabs_pos_eq; lra).
    apply (lgRN (9 * IZR n + 18)); try lra; [|rewrite E, Ab; lra].
    apply (lgRN (9 * IZR n + 17)); try lra; [|rewrite E, Ab; lra].
    apply lg_scale.
    apply (lgRN (9 * IZR n + 16)); try lra; [|rewrite Rabs_Ropp, Rabs_pos_eq; lra].
    apply lg_opp. apply (lgRNp (9 * IZR n + 15)); try lra.
    apply (lg_weak (3 + (9 * (IZR n + 1) + 3))); [|lra]. apply lg_mul; [|exact H0].
    apply (lgRNp 2); try lra. apply (lg_weak (2 + 0)); [|lra]. apply lg_mul; [exact L|apply lg_refl].
Qed.
Lemma H1f_zero n m : (2 <= m <= n)%Z -> H1f RN64 1 0 n m = 0.
Proof.
  intros. unfold H1f. rewrite (H0f_0 1 (n + 1) (m + 1)), (H0f_0 1 (n + 1) m), (H0f_0 1 (n + 1) (m - 1)) by lia.
  zz. reflexivity.
Qed.
Lemma H1f_south n m : (1 <= m <= n)%Z -> H1f RN64 (-1) 0 n m = 0.
Proof.
  intros. unfold H1f. rewrite (H0f_0 (-1) (n + 1) (m + 1)), (H0f_0 (-1) (n + 1) m) by lia.
  replace (1 + -1) with 0 by lra.
  zz. reflexivity.
Qed.

(** ** Rows m' >= 0 *)
Lemma upf_zero c n k m : c = 1 \/ c = -1 -> (Z.of_nat k < m <= n)%Z -> upf RN64 c 0 n k m = 0.
Proof.
  intros Hc. revert m. induction k as [k IH] using (well_founded_induction Wf_nat.lt_wf). intros m Hm.
  destruct k as [|[|k]].
  - cbn [upf]. destruct (Z.ltb_spec m 0); [lia|]. apply H0f_0. lia.
  - cbn [upf]. destruct (Z.eqb_spec m 0); [lia|]. destruct Hc as [-> | ->]; [apply H1f_zero; lia|apply H1f_south; lia].
  - change (upf RN64 c 0 n (S (S k)) m) with
      (let p := Z.of_nat (S k) in
       let d := RN64 (RN64 (dflt RN64 n (p - 1) * upf RN64 c 0 n k m) - RN64 (dflt RN64 n (m - 1) * upf RN64 c 0 n (S k) (m - 1))) in
       RN64 (RN64 (1 / dflt RN64 n p) * (if (m =? n)%Z then d else RN64 (d + RN64 (dflt RN64 n m * upf RN64 c 0 n (S k) (m + 1)))))).
    cbv zeta. rewrite (IH k) by lia. rewrite (IH (S k) ltac:(lia) (m - 1)%Z) by lia.
    zz.
    destruct (Z.eqb_spec m n); [zz; reflexivity|].
    rewrite (IH (S k) ltac:(lia) (m + 1)%Z) by lia. zz. reflexivity.
Qed.
Lemma upf_south n k m : (1 <= k)%nat -> (Z.of_nat k <= m <= n)%Z -> upf RN64 (-1) 0 n k m = 0.
Proof.
  intros Hk Hm. destruct (Z.eq_dec m (Z.of_nat k)) as [E|E]; [|apply upf_zero; [auto|lia]]. subst m.
  induction k as [|[|k] IH]; [lia| |].
  - cbn [upf]. change (Z.of_nat 1) with 1%Z. change (1 =? 0)%Z with false. apply H1f_south. lia.
  - set (m := Z.of_nat (S (S k))). change (upf RN64 (-1) 0 n (S (S k)) m) with
      (let p := Z.of_nat (S k) in
       let d := RN64 (RN64 (dflt RN64 n (p - 1) * upf RN64 (-1) 0 n k m) - RN64 (dflt RN64 n (m - 1) * upf RN64 (-1) 0 n (S k) (m - 1))) in
       RN64 (RN64 (1 / dflt RN64 n p) * (if (m =? n)%Z then d else RN64 (d + RN64 (dflt RN64 n m * upf RN64 (-1) 0 n (S k) (m + 1)))))).
    cbv zeta. rewrite (upf_zero (-1) n k m) by (auto; lia). replace (m - 1)%Z with (Z.of_nat (S k)) by lia.
    rewrite IH by lia. zz.
    destruct (Z.eqb_spec m n); [zz; reflexivity|].
    rewrite (upf_zero (-1) n (S k) (m + 1)) by (auto; lia). zz. reflexivity.
Qed.
Lemma pm_abs k : Rabs ((-1) ^ k) = 1.
Proof. rewrite <- RPow_abs, abs_m1. apply pow1. Qed.
Lemma dpos_rng n m : (1 <= n <= 2000)%Z -> (0 <= m < n)%Z -> / 2 <= dpos n m <= 5000.
Proof. intros. unfold dpos. pose proof (U_ge n m ltac:(lia)). pose proof (U_le n m ltac:(lia) ltac:(lia)). lra. Qed.
(** one step along the diagonal: a product with d, up to three roundings, a division by d *)
Lemma turn_lg n p K x y (q : bool) : (1 <= n <= 1000)%Z -> (0 <= p < n)%Z -> 0 <= K <= 100000 -> Rabs y = 1 -> lg K x y ->
  lg (K + 9) (RN64 (RN64 (1 / dflt RN64 n p) * (if q then RN64 (RN64 (dflt RN64 n p * x)) else RN64 (RN64 (RN64 (dflt RN64 n p * x)))))) y.
Proof.
  intros Hn Hp HK Hy L. pose proof p60. pose proof (dpos_rng n p ltac:(lia) ltac:(lia)) as D.
  pose proof (dflt_lg n p ltac:(lia) ltac:(lia)) as Ld. set (d := dpos n p) in *.
  assert (Di : / 5000 <= 1 / d) by (unfold Rdiv; rewrite Rmult_1_l; apply Rinv_le_contravar; lra).
  assert (Ay : Rabs (d * y) = d) by (rewrite Rabs_mult, Hy, Rabs_pos_eq; lra).
  replace y with (1 / d * (d * y)) by (field; lra).
  apply (lgRN (K + 8)); try lra; [|replace (1 / d * (d * y)) with y by (field; lra); lra].
  apply (lg_weak (3 + (K + 5))); [|lra]. apply lg_mul.
  - apply (lgRNp 2); try lra. apply (lg_weak (0 + 2)); [|lra]. apply lg_div; [apply lg_refl|exact Ld].
  - assert (L1 : lg (K + 3) (RN64 (dflt RN64 n p * x)) (d * y)).
    { apply (lgRN (K + 2)); try lra. apply (lg_weak (2 + K)); [|lra]. now apply lg_mul. }
    assert (L2 : lg (K + 4) (RN64 (RN64 (dflt RN64 n p * x))) (d * y)) by (apply (lgRN (K + 3)); lra || exact L1).
    destruct q; [apply (lg_weak (K + 4)); [exact L2|lra]|]. apply (lgRN (K + 4)); lra || exact L2.
Qed.
Lemma upf_diag n k : (1 <= n <= 1000)%Z -> (1 <= k)%nat -> (Z.of_nat k <= n)%Z ->
  lg (9 * IZR n + 14 + 9 * INR k) (upf RN64 1 0 n k (Z.of_nat k)) ((-1) ^ k).
Proof.
  intros Hn Hk Hm. assert (N : 1 <= IZR n <= 1000) by (split; apply IZR_le; lia).
  induction k as [|[|k] IH]; [lia| |].
  - cbn [upf]. change (Z.of_nat 1) with 1%Z. change (1 =? 0)%Z with false. cbv iota. rewrite pow_1. cbn [INR].
    apply (lg_weak (9 * IZR n + 23)); [apply H1f_north; lia|lra].
  - specialize (IH ltac:(lia) ltac:(lia)). set (m := Z.of_nat (S (S k))) in *. change (upf RN64 1 0 n (S (S k)) m) with
      (let p := Z.of_nat (S k) in
       let d := RN64 (RN64 (dflt RN64 n (p - 1) * upf RN64 1 0 n k m) - RN64 (dflt RN64 n (m - 1) * upf RN64 1 0 n (S k) (m - 1))) in
       RN64 (RN64 (1 / dflt RN64 n p) * (if (m =? n)%Z then d else RN64 (d + RN64 (dflt RN64 n m * upf RN64 1 0 n (S k) (m + 1)))))).
    cbv zeta. rewrite (upf_zero 1 n k m) by (auto; lia). replace (m - 1)%Z with (Z.of_nat (S k)) by lia.
    assert (K : 0 <= INR (S k) <= 1000). { split; [apply pos_INR|]. rewrite INR_IZR_INZ. apply IZR_le. lia. }
    set (x := upf RN64 1 0 n (S k) (Z.of_nat (S k))) in *. set (p := Z.of_nat (S k)) in *.
    rewrite Rmult_0_r, RN64_0. unfold Rminus. rewrite Rplus_0_l, <- RN64_opp, Ropp_mult_distr_r.
    apply lg_opp in IH. replace (- (-1) ^ S k) with ((-1) ^ S (S k)) in IH by (simpl; ring).
    rewrite S_INR.
    pose proof (turn_lg n p (9 * IZR n + 14 + 9 * INR (S k)) (- x) ((-1) ^ S (S k)) (m =? n)%Z ltac:(lia) ltac:(lia) ltac:(lra) (pm_abs _) IH) as T.
    destruct (Z.eqb_spec m n); [eapply lg_weak; [exact T|lra]|].
    rewrite (upf_zero 1 n (S k) (m + 1)) by (auto; lia). rewrite Rmult_0_r, RN64_0, Rplus_0_r. eapply lg_weak; [exact T|lra].
Qed.

(** ** Rows m' < 0 *)
Lemma dnf_S c n k m : dnf RN64 c 0 n (S k) m =
  let x := match k with O => upf RN64 c 0 n 1 m | S k' => dnf RN64 c 0 n k' m end in
  let d := RN64 (RN64 (dflt RN64 n (- Z.of_nat k) * x) + RN64 (dflt RN64 n (m - 1) * dnf RN64 c 0 n k (m - 1))) in
  RN64 (RN64 (1 / - dflt RN64 n (Z.of_nat k)) * (if (m =? n)%Z then d else RN64 (d - RN64 (dflt RN64 n m * dnf RN64 c 0 n k (m + 1))))).
Proof. cbn [dnf]. rewrite dflt_neg by lia. reflexivity. Qed.
Lemma dnf_zero c n k m : c = 1 \/ c = -1 -> (Z.of_nat k < m <= n)%Z -> dnf RN64 c 0 n k m = 0.
Proof.
  intros Hc. revert m. induction k as [k IH] using (well_founded_induction Wf_nat.lt_wf). intros m Hm.
  destruct k as [|k]; [now apply (upf_zero c n 0)|].
  rewrite dnf_S. cbv zeta. rewrite (IH k ltac:(lia) (m - 1)%Z) by lia.
  replace (match k with O => upf RN64 c 0 n 1 m | S k' => dnf RN64 c 0 n k' m end) with 0
    by (destruct k; symmetry; [apply upf_zero; auto; lia|apply IH; lia]).
  zz.
  destruct (Z.eqb_spec m n); [zz; reflexivity|].
  rewrite (IH k ltac:(lia) (m + 1)%Z) by lia. zz. reflexivity.
Qed.
(** the entry m = -m' of a row, from that of the row above *)
Lemma dnf_anti c n k : c = 1 \/ c = -1 -> (1 <= k)%nat -> (Z.of_nat k + 1 <= n)%Z ->
  let x := dnf RN64 c 0 n k (Z.of_nat k) in let d := dflt RN64 n (Z.of_nat k) in
  dnf RN64 c 0 n (S k) (Z.of_nat k + 1) =
  RN64 (RN64 (1 / d) * (if (Z.of_nat k + 1 =? n)%Z then RN64 (RN64 (d * - x)) else RN64 (RN64 (RN64 (d * - x))))).
Proof.
  intros Hc Hk Hn x d. rewrite dnf_S. cbv zeta. replace (Z.of_nat k + 1 - 1)%Z with (Z.of_nat k) by lia. fold x d.
  replace (match k with O => upf RN64 c 0 n 1 (Z.of_nat k + 1) | S k' => dnf RN64 c 0 n k' (Z.of_nat k + 1) end) with 0
    by (destruct k; [lia|]; symmetry; apply dnf_zero; auto; lia).
  rewrite Rmult_0_r, RN64_0, Rplus_0_l.
  replace (1 / - d) with (- (1 / d)) by (unfold Rdiv; rewrite Rinv_opp; ring).
  rewrite RN64_opp. rewrite <- (Ropp_mult_distr_r d x), !RN64_opp.
  destruct (Z.eqb_spec (Z.of_nat k + 1) n).
  - f_equal. ring.
  - rewrite (dnf_zero c n k (Z.of_nat k + 1 + 1)) by (auto; lia). rewrite Rmult_0_r, RN64_0, Rminus_0_r. f_equal. ring.
Qed.
Lemma dnf_first c n : c = 1 \/ c = -1 -> (1 <= n)%Z ->
  let x := upf RN64 c 0 n 1 1 in let y := H0f RN64 c 0 n 0 in let d := dflt RN64 n 0 in
  dnf RN64 c 0 n 1 1 = RN64 (RN64 (1 / d) * (if (1 =? n)%Z then RN64 (- (RN64 (d * x) + RN64 (d * y)))
    else RN64 (RN64 (- (RN64 (d * x) + RN64 (d * y)))))).
Proof.
  intros Hc Hn x y d. rewrite dnf_S. cbv zeta. change (- Z.of_nat 0)%Z with 0%Z. change (Z.of_nat 0) with 0%Z. change (1 - 1)%Z with 0%Z.
  change (dnf RN64 c 0 n 0 0) with (upf RN64 c 0 n 0 0). change (upf RN64 c 0 n 0 0) with y. fold x d.
  replace (1 / - d) with (- (1 / d)) by (unfold Rdiv; rewrite Rinv_opp; ring). rewrite !RN64_opp.
  destruct (Z.eqb_spec 1 n).
  - f_equal. ring.
  - rewrite (dnf_zero c n 0 (1 + 1)) by (auto; lia). rewrite Rmult_0_r, RN64_0, Rminus_0_r. f_equal. ring.
Qed.

(** ** The antidiagonal at the south pole *)
Lemma H00_south n : (1 <= n <= 1000)%Z -> lg (9 * IZR n + 3) (H0f RN64 (-1) 0 n 0) ((-1) ^ Z.to_nat n).
Proof.
  intros. rewrite (H0f_cos RN64 RN64_opp 1 0) by lia. pose proof (H00_lg n ltac:(lia)) as L.
  unfold FloatHParity.par. rewrite Z.add_0_r. destruct (Z.even n) eqn:E.
  - replace ((-1) ^ Z.to_nat n) with 1; [exact L|]. apply Z.even_spec in E. destruct E as (q & ->).
    replace (Z.to_nat (2 * q)) with (2 * Z.to_nat q)%nat by lia. rewrite pow_1_even. reflexivity.
  - replace ((-1) ^ Z.to_nat n) with (- (1)); [now apply lg_opp|]. rewrite <- Z.negb_odd in E. apply Bool.negb_false_iff in E.
    apply Z.odd_spec in E. destruct E as (q & ->). replace (Z.to_nat (2 * q + 1)) with (S (2 * Z.to_nat q)) by lia. rewrite pow_1_odd. lra.
Qed.
Lemma dnf_south n k : (1 <= n <= 1000)%Z -> (1 <= k)%nat -> (Z.of_nat k <= n)%Z ->
  lg (9 * IZR n + 3 + 9 * INR k) (dnf RN64 (-1) 0 n k (Z.of_nat k)) ((-1) ^ (Z.to_nat n + k)).
Proof.
  intros Hn Hk Hm. assert (N : 1 <= IZR n <= 1000) by (split; apply IZR_le; lia).
  induction k as [|[|k] IH]; [lia| |].
  - change (Z.of_nat 1) with 1%Z. rewrite dnf_first by (auto; lia). cbv zeta.
    rewrite (upf_south n 1 1) by lia. pose proof (H00_south n ltac:(lia)) as L. set (y := H0f RN64 (-1) 0 n 0) in *.
    rewrite Rmult_0_r, RN64_0, Rplus_0_l, <- RN64_opp, Ropp_mult_distr_r. apply lg_opp in L.
    replace (Z.to_nat n + 1)%nat with (S (Z.to_nat n)) by lia.
    replace (- (-1) ^ Z.to_nat n) with ((-1) ^ S (Z.to_nat n)) in L by (simpl; ring).
    pose proof (turn_lg n 0 (9 * IZR n + 3) (- y) ((-1) ^ S (Z.to_nat n)) (1 =? n)%Z ltac:(lia) ltac:(lia) ltac:(lra) (pm_abs _) L) as T.
    eapply lg_weak; [exact T|]. cbn [INR]. lra.
  - specialize (IH ltac:(lia) ltac:(lia)). replace (Z.of_nat (S (S k))) with (Z.of_nat (S k) + 1)%Z in * by lia.
    rewrite dnf_anti by (auto; lia). cbv zeta. set (x := dnf RN64 (-1) 0 n (S k) (Z.of_nat (S k))) in *. apply lg_opp in IH.
    replace (Z.to_nat n + S (S k))%nat with (S (Z.to_nat n + S k)) by lia.
    replace (- (-1) ^ (Z.to_nat n + S k)) with ((-1) ^ S (Z.to_nat n + S k)) in IH by (simpl; ring).
    assert (K : 0 <= INR (S k) <= 1000). { split; [apply pos_INR|]. rewrite INR_IZR_INZ. apply IZR_le. lia. }
    rewrite (S_INR (S k)).
    pose proof (turn_lg n (Z.of_nat (S k)) (9 * IZR n + 3 + 9 * INR (S k)) (- x) ((-1) ^ S (Z.to_nat n + S k)) (Z.of_nat (S k) + 1 =? n)%Z
      ltac:(lia) ltac:(lia) ltac:(lra) (pm_abs _) IH) as T.
    eapply lg_weak; [exact T|lra].
Qed.

(** ** The antidiagonal at the north pole: zero, computed as a difference *)
Lemma RN_bound x B : Rabs x <= B -> / 2 ^ 70 <= B -> Rabs (RN64 x) <= B * (1 + 2 * u64).
Proof.
  intros H HB. pose proof (RN64_err x) as E. assert (eta <= / 2 ^ 200).
  { unfold eta. apply Rle_trans with (bpow radix2 (-200)); [apply bpow_le; lia|]. right.
    change (-200)%Z with (- (200))%Z. rewrite bpow_opp. f_equal. rewrite bpow_powerRZ. reflexivity. }
  assert (/ 2 ^ 200 <= u64 * / 2 ^ 70).
  { unfold u64. replace 9007199254740992 with (2 ^ 53) by ring. rewrite <- Rinv_mult, <- pow_add.
    apply Rinv_le_contravar; [apply pow_lt; lra|]. apply Rle_pow; [lra|lia]. }
  pose proof u64_small. replace (RN64 x) with (x + (RN64 x - x)) by ring. eapply Rle_trans; [apply Rabs_triang|]. nra.
Qed.

Lemma turn_bound n p x B (q : bool) : (1 <= n <= 1000)%Z -> (0 <= p < n)%Z -> Rabs x <= B -> / 2 ^ 60 <= B -> B <= 1 ->
  Rabs (RN64 (RN64 (1 / dflt RN64 n p) * (if q then RN64 (RN64 (dflt RN64 n p * x)) else RN64 (RN64 (RN64 (dflt RN64 n p * x))))))
    <= B * (1 + 16 * u64).
Proof.
  intros Hn Hp Hx HB HB1. pose proof p60. pose proof (dpos_rng n p ltac:(lia) ltac:(lia)) as D.
  pose proof (dflt_lg n p ltac:(lia) ltac:(lia)) as Ld. pose proof (lg_pos _ _ _ Ld ltac:(lra)) as Dp.
  pose proof (lg_size _ _ _ Ld ltac:(lra)) as Ds. set (d := dflt RN64 n p) in *. rewrite !Rabs_pos_eq in Ds by lra.
  pose proof u64_small as [u0 u1]. assert (u2 : u64 <= / 1000000000) by (eapply Rle_trans; [exact u1|]; apply Rinv_le_contravar; lra).
  assert (p70 : / 2 ^ 70 <= / 1000 * / 2 ^ 60).
  { replace (2 ^ 70) with (1024 * 2 ^ 60) by ring. rewrite Rinv_mult. apply Rmult_le_compat_r; [apply Rlt_le, Rinv_0_lt_compat, pow_lt; lra|lra]. }
  assert (q6 : 0 < / 2 ^ 60) by (apply Rinv_0_lt_compat, pow_lt; lra).
  set (e := / 2 ^ 60) in *. set (e7 := / 2 ^ 70) in *.
  assert (dB : / 1000 * e <= d * B) by (apply Rmult_le_compat; lra).
  set (t := 1 + 2 * u64). assert (T : 1 <= t <= 1 + / 100000000) by (unfold t; lra).
  assert (R1 : Rabs (RN64 (d * x)) <= d * B * t).
  { apply RN_bound; [|unfold e7 in *; lra]. rewrite Rabs_mult, (Rabs_pos_eq d) by lra. apply Rmult_le_compat_l; lra. }
  assert (P0 : 0 < d * B) by lra.
  assert (R2 : Rabs (RN64 (RN64 (d * x))) <= d * B * t * t).
  { apply RN_bound; [exact R1|]. fold e7. assert (d * B * 1 <= d * B * t) by (apply Rmult_le_compat_l; lra). lra. }
  assert (R3 : Rabs (RN64 (RN64 (RN64 (d * x)))) <= d * B * t * t * t).
  { apply RN_bound; [exact R2|]. fold e7. assert (1 <= t * t) by nra. assert (d * B * 1 <= d * B * (t * t)) by (apply Rmult_le_compat_l; lra). lra. }
  assert (Q : Rabs (if q then RN64 (RN64 (d * x)) else RN64 (RN64 (RN64 (d * x)))) <= d * B * t * t * t).
  { destruct q; [|exact R3]. eapply Rle_trans; [exact R2|]. rewrite <- (Rmult_1_r (d * B * t * t)) at 1.
    apply Rmult_le_compat_l; [|lra]. repeat apply Rmult_le_pos; lra. }
  assert (I0 : / 10000 <= 1 / d) by (unfold Rdiv; rewrite Rmult_1_l; apply Rinv_le_contravar; lra).
  assert (I : Rabs (RN64 (1 / d)) <= 1 / d * t).
  { apply RN_bound; [rewrite Rabs_pos_eq; lra|]. fold e7. lra. }
  assert (M : Rabs (RN64 (1 / d) * (if q then RN64 (RN64 (d * x)) else RN64 (RN64 (RN64 (d * x))))) <= B * (t * t * t * t)).
  { rewrite Rabs_mult. replace (B * (t * t * t * t)) with (1 / d * t * (d * B * t * t * t)) by (field; lra).
    apply Rmult_le_compat; auto; apply Rabs_pos. }
  eapply Rle_trans; [apply RN_bound; [exact M|]|].
  - fold e7. assert (1 <= t * t * t * t) by (assert (1 <= t * t) by nra; nra). assert (B * 1 <= B * (t * t * t * t)) by (apply Rmult_le_compat_l; lra). lra.
  - fold t. rewrite Rmult_assoc. apply Rmult_le_compat_l; [lra|]. unfold t.
    assert (A2 : (1 + 2 * u64) * (1 + 2 * u64) <= 1 + 5 * u64) by nra.
    assert (A4 : (1 + 2 * u64) * (1 + 2 * u64) * ((1 + 2 * u64) * (1 + 2 * u64)) <= (1 + 5 * u64) * (1 + 5 * u64)) by (apply Rmult_le_compat; nra).
    nra.
Qed.
Lemma anti_1 n : (1 <= n <= 1000)%Z -> Rabs (dnf RN64 1 0 n 1 1) <= (18 * IZR n + 32) * (101 / 100) * u64.
Proof.
  intros Hn. assert (N : 1 <= IZR n <= 1000) by (split; apply IZR_le; lia). pose proof p60.
  rewrite dnf_first by (auto; lia). cbv zeta.
  pose proof (upf_diag n 1 ltac:(lia) ltac:(lia) ltac:(lia)) as Lx. change (Z.of_nat 1) with 1%Z in Lx. cbn [INR] in Lx. rewrite pow_1 in Lx.
  pose proof (H00_lg n ltac:(lia)) as Ly. set (x := upf RN64 1 0 n 1 1) in *. set (y := H0f RN64 1 0 n 0) in *.
  pose proof (dpos_rng n 0 ltac:(lia) ltac:(lia)) as D.
  pose proof (dflt_lg n 0 ltac:(lia) ltac:(lia)) as Ld. pose proof (lg_pos _ _ _ Ld ltac:(lra)) as Dp.
  pose proof (lg_size _ _ _ Ld ltac:(lra)) as Ds. set (d := dflt RN64 n 0) in *. rewrite !Rabs_pos_eq in Ds by lra.
  pose proof u64_small as [u0 u1]. assert (u2 : u64 <= / 1000000000) by (eapply Rle_trans; [exact u1|]; apply Rinv_le_contravar; lra).
  assert (Ax : lg (9 * IZR n + 24) (RN64 (d * x)) (d * -1)).
  { apply (lgRN (9 * IZR n + 23)); try lra; [|rewrite Rabs_mult, abs_m1, Rabs_pos_eq; lra].
    apply lg_scale. eapply lg_weak; [exact Lx|lra]. }
  assert (Ay : lg (9 * IZR n + 4) (RN64 (d * y)) (d * 1)).
  { apply (lgRN (9 * IZR n + 3)); try lra; [|rewrite Rmult_1_r, Rabs_pos_eq; lra]. apply lg_scale. exact Ly. }
  apply lg_err in Ax; [|lra]. apply lg_err in Ay; [|lra]. rewrite Rabs_mult, abs_m1, (Rabs_pos_eq d) in Ax by lra.
  rewrite Rmult_1_r, (Rabs_pos_eq d) in Ay by lra. rewrite Rmult_1_r in Ax.
  set (X := RN64 (d * x)) in *. set (Y := RN64 (d * y)) in *.
  set (k := 18 * IZR n + 28). assert (Hk : 46 <= k <= 18028) by (unfold k; lra).
  assert (p17 : / 2 ^ 17 <= / 100000) by (apply Rinv_le_contravar; lra).
  assert (p17' : 0 < / 2 ^ 17) by (apply Rinv_0_lt_compat, pow_lt; lra). set (z := / 2 ^ 17) in *.
  assert (S : Rabs (- (X + Y)) <= d * (k * (1 + z) * u64)).
  { rewrite Rabs_Ropp. replace (X + Y) with ((X - d * -1) + (Y - d)) by ring. eapply Rle_trans; [apply Rabs_triang|]. unfold k. lra. }
  set (B := k * (1 + z) * u64) in *.
  assert (ku : 46 * u64 <= B).
  { unfold B. apply Rmult_le_compat_r; [lra|]. rewrite <- (Rmult_1_r 46). apply Rmult_le_compat; lra. }
  assert (pu : / 2 ^ 60 = / 128 * u64). { unfold u64. replace 9007199254740992 with (2 ^ 53) by ring. rewrite <- Rinv_mult. f_equal. ring. }
  assert (p70 : / 2 ^ 70 <= / 1000 * / 2 ^ 60).
  { replace (2 ^ 70) with (1024 * 2 ^ 60) by ring. rewrite Rinv_mult. apply Rmult_le_compat_r; [apply Rlt_le, Rinv_0_lt_compat, pow_lt; lra|lra]. }
  set (e7 := / 2 ^ 70) in *.
  set (t := 1 + 2 * u64). assert (T : 1 <= t <= 1 + / 100000000) by (unfold t; lra).
  assert (dB : 20 * u64 <= d * B) by (replace (20 * u64) with (20 / 46 * (46 * u64)) by field; apply Rmult_le_compat; lra).
  assert (R2 : Rabs (RN64 (- (X + Y))) <= d * B * t) by (apply RN_bound; [exact S|fold e7; lra]).
  assert (R3 : Rabs (RN64 (RN64 (- (X + Y)))) <= d * B * t * t).
  { apply RN_bound; [exact R2|]. fold e7. assert (d * B * 1 <= d * B * t) by (apply Rmult_le_compat_l; lra). lra. }
  assert (Q : Rabs (if (1 =? n)%Z then RN64 (- (X + Y)) else RN64 (RN64 (- (X + Y)))) <= d * B * t * t).
  { destruct (1 =? n)%Z; [|exact R3]. eapply Rle_trans; [exact R2|]. rewrite <- (Rmult_1_r (d * B * t)) at 1.
    apply Rmult_le_compat_l; [|lra]. apply Rmult_le_pos; lra. }
  assert (I0 : / 10000 <= 1 / d) by (unfold Rdiv; rewrite Rmult_1_l; apply Rinv_le_contravar; lra).
  assert (I : Rabs (RN64 (1 / d)) <= 1 / d * t).
  { apply RN_bound; [rewrite Rabs_pos_eq; lra|]. fold e7. lra. }
  assert (M : Rabs (RN64 (1 / d) * (if (1 =? n)%Z then RN64 (- (X + Y)) else RN64 (RN64 (- (X + Y))))) <= B * (t * t * t)).
  { rewrite Rabs_mult. replace (B * (t * t * t)) with (1 / d * t * (d * B * t * t)) by (field; lra).
    apply Rmult_le_compat; auto; apply Rabs_pos. }
  assert (T3 : 1 <= t * t * t * t <= 1 + / 1000000) by (assert (1 <= t * t <= 1 + / 10000000) by nra; nra).
  eapply Rle_trans; [apply RN_bound; [exact M|]|].
  - fold e7. assert (1 <= t * t * t) by (assert (1 <= t * t) by nra; nra). assert (B * 1 <= B * (t * t * t)) by (apply Rmult_le_compat_l; lra). lra.
  - fold t. replace (B * (t * t * t) * t) with (B * (t * t * t * t)) by ring.
    apply Rle_trans with (B * (1 + / 1000000)); [apply Rmult_le_compat_l; lra|]. unfold B.
    replace (k * (1 + z) * u64 * (1 + / 1000000)) with (k * ((1 + z) * (1 + / 1000000)) * u64) by ring.
    apply Rmult_le_compat_r; [lra|]. apply Rmult_le_compat; [lra|nra|unfold k; lra|nra].
Qed.
Lemma dnf_north n k : (1 <= n <= 1000)%Z -> (1 <= k)%nat -> (Z.of_nat k <= n)%Z ->
  Rabs (dnf RN64 1 0 n k (Z.of_nat k)) <= (18 * IZR n + 32) * (101 / 100) * u64 * (1 + 17 * INR k * u64).
Proof.
  intros Hn Hk Hm. assert (N : 1 <= IZR n <= 1000) by (split; apply IZR_le; lia).
  pose proof u64_small as [u0 u1]. assert (u2 : u64 <= / 1000000000) by (eapply Rle_trans; [exact u1|]; apply Rinv_le_contravar; lra).
  set (B := (18 * IZR n + 32) * (101 / 100) * u64).
  assert (B0 : 50 * u64 <= B <= / 1000) by (unfold B; split; nra).
  assert (pu : / 2 ^ 60 = / 128 * u64). { unfold u64. replace 9007199254740992 with (2 ^ 53) by ring. rewrite <- Rinv_mult. f_equal. ring. }
  induction k as [|[|k] IH]; [lia| |].
  - pose proof (anti_1 n ltac:(lia)) as A. fold B in A. change (Z.of_nat 1) with 1%Z. eapply Rle_trans; [exact A|]. cbn [INR]. nra.
  - specialize (IH ltac:(lia) ltac:(lia)). replace (Z.of_nat (S (S k))) with (Z.of_nat (S k) + 1)%Z by lia.
    rewrite dnf_anti by (auto; lia). cbv zeta. set (x := dnf RN64 1 0 n (S k) (Z.of_nat (S k))) in *.
    assert (K : 0 <= INR (S k) <= 1000). { split; [apply pos_INR|]. rewrite INR_IZR_INZ. apply IZR_le. lia. }
    rewrite (S_INR (S k)). set (i := INR (S k)) in *.
    assert (J : 0 <= i * u64 <= / 1000000) by (split; nra). set (w := i * u64) in *. replace (17 * i * u64) with (17 * w) in IH by (unfold w; ring).
    eapply Rle_trans.
    + apply (turn_bound n (Z.of_nat (S k)) (- x) (B * (1 + 17 * w))); try lia; [rewrite Rabs_Ropp; exact IH|nra|nra].
    + rewrite Rmult_assoc. apply Rmult_le_compat_l; [lra|]. replace (17 * (i + 1) * u64) with (17 * w + 17 * u64) by (unfold w; ring). nra.
Qed.
