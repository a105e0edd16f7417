(** Factorials and binomials over [Z] with values in [R]. *)
Require Import ZArith Lia Reals Lra Bool.
Open Scope R_scope.

(** [n!] for [n >= 0]. *)
Definition fct (n : Z) : R := INR (fact (Z.to_nat n)).
(** [1/n!], zero for negative [n]: the convention that makes sums over all integers finite. *)
Definition ifct (n : Z) : R := if (n <? 0)%Z then 0 else / fct n.
(** The binomial coefficient, zero outside [0 <= k <= n]. *)
Definition bin (n k : Z) : R :=
  if ((0 <=? k) && (k <=? n))%Z then Binomial.C (Z.to_nat n) (Z.to_nat k) else 0.

Lemma fct_pos n : 0 < fct n.
Proof. unfold fct. apply INR_fact_lt_0. Qed.
Lemma fct_neq0 n : fct n <> 0.
Proof. pose proof (fct_pos n); lra. Qed.
Lemma fct_0 : fct 0 = 1.
Proof. reflexivity. Qed.
Lemma fct_1 : fct 1 = 1.
Proof. unfold fct; simpl; ring. Qed.
Lemma fct_succ n : (0 <= n)%Z -> fct (n + 1) = IZR (n + 1) * fct n.
Proof.
  intros. unfold fct. replace (Z.to_nat (n + 1)) with (S (Z.to_nat n)) by lia.
  rewrite fact_simpl, mult_INR. f_equal. rewrite INR_IZR_INZ. f_equal. lia.
Qed.
Lemma fct_pred n : (0 < n)%Z -> fct n = IZR n * fct (n - 1).
Proof. intros. pose proof (fct_succ (n - 1) ltac:(lia)) as E. now replace (n - 1 + 1)%Z with n in E by lia. Qed.

Lemma ifct_neg n : (n < 0)%Z -> ifct n = 0.
Proof. intros. unfold ifct. destruct (Z.ltb_spec n 0); auto; lia. Qed.
Lemma ifct_inv n : (0 <= n)%Z -> ifct n = / fct n.
Proof. intros. unfold ifct. destruct (Z.ltb_spec n 0); auto; lia. Qed.
Lemma ifct_0 : ifct 0 = 1.
Proof. rewrite ifct_inv, fct_0 by lia. field. Qed.
Lemma ifct_nonneg n : 0 <= ifct n.
Proof.
  destruct (Z_lt_ge_dec n 0); [rewrite ifct_neg by lia; lra|rewrite ifct_inv by lia].
  pose proof (fct_pos n). left. now apply Rinv_0_lt_compat.
Qed.
Lemma ifct_pos n : (0 <= n)%Z -> 0 < ifct n.
Proof. intros. rewrite ifct_inv by auto. apply Rinv_0_lt_compat, fct_pos. Qed.
Lemma fct_ifct n : (0 <= n)%Z -> fct n * ifct n = 1.
Proof. intros. rewrite ifct_inv by auto. field. apply fct_neq0. Qed.
(** Holds for every integer. *)
Lemma ifct_step n : IZR n * ifct n = ifct (n - 1).
Proof.
  destruct (Z_lt_ge_dec n 0); [rewrite !ifct_neg by lia; ring|].
  destruct (Z.eq_dec n 0) as [->|].
  - rewrite (ifct_neg (0 - 1)) by lia. ring.
  - rewrite !ifct_inv, (fct_pred n) by lia. field. split; [apply fct_neq0|]. apply not_0_IZR; lia.
Qed.
Lemma ifct_step' n : ifct n = IZR (n + 1) * ifct (n + 1).
Proof. rewrite ifct_step. f_equal; lia. Qed.

Lemma bin_fct n k : (0 <= n)%Z -> bin n k = fct n * ifct k * ifct (n - k).
Proof.
  intros Hn. unfold bin.
  destruct (Z.leb_spec 0 k); simpl; [|rewrite (ifct_neg k) by lia; ring].
  destruct (Z.leb_spec k n); simpl; [|rewrite (ifct_neg (n - k)) by lia; ring].
  rewrite !ifct_inv by lia. unfold Binomial.C, fct.
  replace (Z.to_nat (n - k)) with (Z.to_nat n - Z.to_nat k)%nat by lia.
  field. split; apply INR_fact_neq_0.
Qed.
Lemma bin_out n k : ((k < 0) \/ (n < k))%Z -> bin n k = 0.
Proof.
  intros H. unfold bin. destruct (Z.leb_spec 0 k), (Z.leb_spec k n); simpl; auto; lia.
Qed.
Lemma bin_pascal n k : (0 <= n)%Z -> bin (n + 1) k = bin n (k - 1) + bin n k.
Proof.
  intros. rewrite !bin_fct by lia. rewrite fct_succ by lia.
  replace (n + 1 - k)%Z with (n - k + 1)%Z by lia. replace (n - (k - 1))%Z with (n - k + 1)%Z by lia.
  rewrite <- (ifct_step k). rewrite (ifct_step' (n - k)).
  replace (n + 1)%Z with (k + (n - k + 1))%Z at 1 by lia. rewrite plus_IZR. ring.
Qed.
Lemma bin_0 n : (0 <= n)%Z -> bin n 0 = 1.
Proof. intros. rewrite bin_fct by auto. rewrite ifct_0, Z.sub_0_r, Rmult_1_r. apply fct_ifct; auto. Qed.
Lemma bin_sym n k : (0 <= n)%Z -> bin n k = bin n (n - k).
Proof. intros. rewrite !bin_fct by auto. replace (n - (n - k))%Z with k by lia. ring. Qed.
Lemma bin_pos n k : (0 <= k <= n)%Z -> 0 < bin n k.
Proof.
  intros. rewrite bin_fct by lia.
  apply Rmult_lt_0_compat; [apply Rmult_lt_0_compat|]; [apply fct_pos|apply ifct_pos; lia|apply ifct_pos; lia].
Qed.

(** Powers with an integer exponent known to be nonnegative. *)
Definition sgn (k : Z) : R := if Z.even k then 1 else -1.
Lemma sgn_add j k : sgn (j + k) = sgn j * sgn k.
Proof. unfold sgn. rewrite Z.even_add. destruct (Z.even j), (Z.even k); simpl; ring. Qed.
Lemma sgn_opp k : sgn (- k) = sgn k.
Proof. unfold sgn. now rewrite Z.even_opp. Qed.
Lemma sgn_sub j k : sgn (j - k) = sgn j * sgn k.
Proof. rewrite <- Z.add_opp_r, sgn_add, sgn_opp. auto. Qed.
Lemma sgn_sqr k : sgn k * sgn k = 1.
Proof. unfold sgn; destruct (Z.even k); ring. Qed.
Lemma sgn_0 : sgn 0 = 1. Proof. reflexivity. Qed.
Lemma sgn_1 : sgn 1 = -1. Proof. reflexivity. Qed.
Lemma sgn_succ k : sgn (k + 1) = - sgn k.
Proof. rewrite sgn_add, sgn_1. ring. Qed.
Lemma sgn_pred k : sgn (k - 1) = - sgn k.
Proof. rewrite sgn_sub, sgn_1. ring. Qed.
Lemma sgn_double k : sgn (2 * k) = 1.
Proof. unfold sgn. now rewrite Z.even_mul. Qed.
Lemma sgn_neq0 k : sgn k <> 0.
Proof. unfold sgn; destruct (Z.even k); lra. Qed.
Lemma sgn_pow k : (0 <= k)%Z -> sgn k = (-1) ^ (Z.to_nat k).
Proof.
  revert k. apply natlike_ind; auto. intros k Hk IH.
  unfold Z.succ. rewrite sgn_succ, IH. replace (Z.to_nat (k + 1)) with (S (Z.to_nat k)) by lia. simpl. ring.
Qed.
