(** Wigner's formula is a unitary representation, and its symmetries. *)
Require Import ZArith Lia Reals Lra Bool.
From Coquelicot Require Import Complex.
From Verif Require Import CBase CSum Fact SymPow WignerSpec.
Open Scope C_scope.

(** Quaternions [w + x i + y j + z k], Hamilton's product, and the two complex parts used by the code
    (the quaternion package: [R.a = w + i z], [R.b = y + i x]). *)
Record quat : Type := mkquat { qw : R; qx : R; qy : R; qz : R }.
Definition qmul (p q : quat) : quat :=
  mkquat (qw p * qw q - qx p * qx q - qy p * qy q - qz p * qz q)
         (qw p * qx q + qx p * qw q + qy p * qz q - qz p * qy q)
         (qw p * qy q - qx p * qz q + qy p * qw q + qz p * qx q)
         (qw p * qz q + qx p * qy q - qy p * qx q + qz p * qw q).
Definition qconj (p : quat) : quat := mkquat (qw p) (- qx p) (- qy p) (- qz p).
Definition qone : quat := mkquat 1 0 0 0.
Definition qneg (p : quat) : quat := mkquat (- qw p) (- qx p) (- qy p) (- qz p).
Definition qnorm2 (p : quat) : R := (qw p * qw p + qx p * qx p + qy p * qy p + qz p * qz p)%R.
Definition unit_quat (p : quat) : Prop := qnorm2 p = 1%R.
Definition qa (p : quat) : C := (qw p, qz p).
Definition qb (p : quat) : C := (qy p, qx p).

Ltac cplx := apply C_eq; unfold qa, qb; simpl; ring.

Lemma qmul_a p q : qa (qmul p q) = qa p * qa q - Cconj (qb p) * qb q.
Proof. cplx. Qed.
Lemma qmul_b p q : qb (qmul p q) = qb p * qa q + Cconj (qa p) * qb q.
Proof. cplx. Qed.
Lemma qconj_a p : qa (qconj p) = Cconj (qa p).
Proof. cplx. Qed.
Lemma qconj_b p : qb (qconj p) = - qb p.
Proof. cplx. Qed.
Lemma qneg_a p : qa (qneg p) = - qa p.
Proof. cplx. Qed.
Lemma qneg_b p : qb (qneg p) = - qb p.
Proof. cplx. Qed.
Lemma unit_norm p : unit_quat p -> qa p * Cconj (qa p) + qb p * Cconj (qb p) = RtoC 1.
Proof.
  unfold unit_quat, qnorm2. intros H. apply C_eq; unfold qa, qb; simpl; [|ring].
  rewrite <- H. ring.
Qed.
Lemma unit_norm_mod p : unit_quat p -> (Cmod (qa p) * Cmod (qa p) + Cmod (qb p) * Cmod (qb p) = 1)%R.
Proof. unfold unit_quat, qnorm2. intros H. rewrite !Cmod_sqr. unfold qa, qb; simpl. rewrite <- H. ring. Qed.
Lemma qmul_conj p : unit_quat p -> qmul p (qconj p) = qone.
Proof.
  unfold unit_quat, qnorm2, qmul, qconj, qone. intros H. simpl. f_equal; try ring. rewrite <- H. ring.
Qed.
Lemma qconj_mul p : unit_quat p -> qmul (qconj p) p = qone.
Proof.
  unfold unit_quat, qnorm2, qmul, qconj, qone. intros H. simpl. f_equal; try ring. rewrite <- H. ring.
Qed.

(** Weights of the monomial basis. *)
Definition wt (N p : Z) : R := (fct p * fct (N - p))%R.
Lemma wt_pos N p : (0 < wt N p)%R.
Proof. unfold wt. apply Rmult_lt_0_compat; apply fct_pos. Qed.
Lemma wt_sqrt N p q : sqrt (wt N q / wt N p) = (sqrt (wt N q) / sqrt (wt N p))%R.
Proof. apply sqrt_div_alt, wt_pos. Qed.
Lemma sqrt_wt_neq0 N p : sqrt (wt N p) <> 0%R.
Proof. pose proof (sqrt_lt_R0 _ (wt_pos N p)). lra. Qed.

Lemma Dm_wt N p q a b : Dm N p q a b =
  RtoC (sqrt (wt N q) / sqrt (wt N p)) * sp a (- Cconj b) b (Cconj a) (Z.to_nat p) (Z.to_nat (N - p)) q.
Proof. unfold Dm. rewrite <- wt_sqrt. reflexivity. Qed.

Lemma Dm_product N p r a b a' b' : (0 <= p <= N)%Z -> (0 <= r <= N)%Z ->
  Dm N p r (a * a' - Cconj b * b') (b * a' + Cconj a * b') =
  csum 0 N (fun q => Dm N p q a b * Dm N q r a' b').
Proof.
  intros Hp Hr. rewrite Dm_wt.
  replace (- Cconj (b * a' + Cconj a * b')) with (a * (- Cconj b') + (- Cconj b) * Cconj a')
    by (rewrite Cconj_plus, !Cconj_mult, Cconj_conj; ring).
  replace (Cconj (a * a' - Cconj b * b')) with (b * (- Cconj b') + Cconj a * Cconj a')
    by (rewrite Cconj_minus, !Cconj_mult, Cconj_conj; ring).
  replace (a * a' - Cconj b * b') with (a * a' + (- Cconj b) * b') by ring.
  rewrite sp_product.
  replace (Z.of_nat (Z.to_nat p + Z.to_nat (N - p))) with N by lia.
  rewrite <- csum_scal. apply csum_ext. intros q Hq. rewrite !Dm_wt.
  rewrite !RtoC_div by apply sqrt_wt_neq0.
  field. split; apply RtoC_neq0, sqrt_wt_neq0.
Qed.

Lemma Dm_one N p q : (0 <= p <= N)%Z ->
  Dm N p q (RtoC 1) (RtoC 0) = if (p =? q)%Z then RtoC 1 else RtoC 0.
Proof.
  intros. rewrite Dm_wt, !Cconj_RtoC. replace (- RtoC 0) with (RtoC 0) by ring.
  rewrite sp_one, Z2Nat.id by lia. rewrite Z.eqb_sym.
  destruct (Z.eqb_spec p q) as [->|]; [|ring].
  rewrite RtoC_div by apply sqrt_wt_neq0. field. apply RtoC_neq0, sqrt_wt_neq0.
Qed.

Lemma Dm_conj N p q a b : Cconj (Dm N p q a b) = Dm N p q (Cconj a) (Cconj b).
Proof. rewrite !Dm_wt, Cconj_mult, Cconj_RtoC, sp_conj, Cconj_opp, !Cconj_conj. auto. Qed.

Lemma Dm_sign_b N p q a b : (0 <= p)%Z -> Dm N p q a (- b) = RtoC (sgn (p - q)) * Dm N p q a b.
Proof.
  intros. rewrite !Dm_wt, Cconj_opp.
  replace (- - Cconj b) with (- (- Cconj b)) by ring. rewrite sp_offdiag_sign, Z2Nat.id by lia. ring.
Qed.

Lemma Dm_adjoint N p q a b : (0 <= p <= N)%Z -> (0 <= q <= N)%Z ->
  Dm N q p (Cconj a) (- b) = Cconj (Dm N p q a b).
Proof.
  intros Hp Hq. rewrite Dm_conj, !Dm_wt, !Cconj_conj, Cconj_opp.
  pose proof (sp_transpose (Cconj a) (- b) (Cconj b) a N p q Hp Hq) as T.
  fold (wt N p) in T. fold (wt N q) in T.
  replace (- - Cconj b) with (Cconj b) by ring.
  set (X := sp (Cconj a) (- b) (Cconj b) a (Z.to_nat p) (Z.to_nat (N - p)) q) in *.
  set (Y := sp (Cconj a) (Cconj b) (- b) a (Z.to_nat q) (Z.to_nat (N - q)) p) in *.
  assert (HP := sqrt_wt_neq0 N p). assert (HQ := sqrt_wt_neq0 N q).
  rewrite <- (sqrt_sqrt (wt N p)), <- (sqrt_sqrt (wt N q)) in T by (left; apply wt_pos).
  rewrite !RtoC_mult in T. rewrite !RtoC_div by auto.
  apply RtoC_neq0 in HP. apply RtoC_neq0 in HQ.
  set (u := RtoC (sqrt (wt N p))) in *. set (v := RtoC (sqrt (wt N q))) in *.
  transitivity (u * u * Y / (u * v)); [field; auto|]. rewrite <- T. field. auto.
Qed.

Lemma Dm_reflect N p q a b : (0 <= p <= N)%Z -> (0 <= q <= N)%Z ->
  Dm N (N - p) (N - q) a b = RtoC (sgn (p - q)) * Cconj (Dm N p q a b).
Proof.
  intros Hp Hq. rewrite Dm_conj, !Dm_wt, Cconj_conj.
  pose proof (sp_reverse a (- Cconj b) b (Cconj a) (Z.to_nat (N - p)) (Z.to_nat p) (N - q)) as H.
  replace (Z.of_nat (Z.to_nat (N - p) + Z.to_nat p) - (N - q))%Z with q in H by lia.
  replace (N - (N - p))%Z with p by lia.
  rewrite <- H. unfold wt. replace (N - (N - p))%Z with p by lia. replace (N - (N - q))%Z with q by lia.
  rewrite (Rmult_comm (fct (N - q))), (Rmult_comm (fct (N - p))).
  pose proof (sp_offdiag_sign (Cconj a) b (- Cconj b) a (Z.to_nat p) (Z.to_nat (N - p)) q) as S.
  rewrite Z2Nat.id in S by lia. replace (- - Cconj b) with (Cconj b) in S by ring.
  rewrite Cconj_conj, S.
  transitivity (RtoC (sqrt (fct q * fct (N - q)) / sqrt (fct p * fct (N - p))) *
     ((RtoC (sgn (p - q) * sgn (p - q))) * sp (Cconj a) b (- Cconj b) a (Z.to_nat p) (Z.to_nat (N - p)) q)).
  - rewrite sgn_sqr. ring.
  - rewrite RtoC_mult. ring.
Qed.

Lemma Dm_neg N p q a b : (0 <= p <= N)%Z -> (0 <= q <= N)%Z ->
  Dm N p q (- a) (- b) = RtoC (sgn N) * Dm N p q a b.
Proof.
  intros Hp Hq. rewrite !(Dm_sum N p q _ _ 0 N) by lia.
  rewrite (csum_ext 0 N (Dterm N p q (- a) (- b)) (fun r => RtoC (sgn N) * Dterm N p q a b r)).
  - rewrite csum_scal. ring.
  - intros r Hr. unfold Dterm. rewrite !Cconj_opp.
    destruct (Z_lt_ge_dec p r); [rewrite (bin_out p) by lia; ring|].
    destruct (Z_lt_ge_dec (N - q) r); [rewrite (bin_out (N - p)) by lia; ring|].
    destruct (Z_lt_ge_dec r (p - q)); [rewrite (bin_out (N - p)) by lia; ring|].
    rewrite !Cpow_opp, <- !sgn_pow by lia.
    replace N with ((p - r) + (N - q - r) + (r - p + q) + r)%Z at 5 by lia.
    rewrite !sgn_add, !RtoC_mult. ring.
Qed.

Lemma Dm_unitary N p r a b : (0 <= p <= N)%Z -> (0 <= r <= N)%Z ->
  a * Cconj a + b * Cconj b = RtoC 1 ->
  csum 0 N (fun q => Dm N p q a b * Cconj (Dm N r q a b)) = if (p =? r)%Z then RtoC 1 else RtoC 0.
Proof.
  intros Hp Hr U. rewrite <- (Dm_one N p r) by auto.
  replace (RtoC 1) with (a * Cconj a - Cconj b * (- b)) by (rewrite <- U; ring).
  replace (RtoC 0) with (b * Cconj a + Cconj a * (- b)) by ring.
  rewrite Dm_product by auto. apply csum_ext. intros q Hq. now rewrite Dm_adjoint by auto.
Qed.

Lemma Dm_unitary' N p r a b : (0 <= p <= N)%Z -> (0 <= r <= N)%Z ->
  a * Cconj a + b * Cconj b = RtoC 1 ->
  csum 0 N (fun q => Cconj (Dm N q p a b) * Dm N q r a b) = if (p =? r)%Z then RtoC 1 else RtoC 0.
Proof.
  intros Hp Hr U. rewrite <- (Dm_one N p r) by auto.
  replace (RtoC 1) with (Cconj a * a - Cconj (- b) * b) by (rewrite <- U, Cconj_opp; ring).
  replace (RtoC 0) with ((- b) * a + Cconj (Cconj a) * b) by (rewrite Cconj_conj; ring).
  rewrite Dm_product by auto. apply csum_ext. intros q Hq. now rewrite Dm_adjoint by auto.
Qed.

(** Degenerate rotors. *)
Lemma Dm_b0 N p q a : (0 <= p <= N)%Z -> (0 <= q <= N)%Z -> a * Cconj a = RtoC 1 ->
  Dm N p q a (RtoC 0) = if (p =? q)%Z then Cpowz a (2 * p - N) else RtoC 0.
Proof.
  intros Hp Hq U. rewrite Dm_wt, Cconj_RtoC. replace (- RtoC 0) with (RtoC 0) by ring.
  rewrite sp_diag, Z2Nat.id, Z.eqb_sym by lia. destruct (Z.eqb_spec p q) as [->|]; [|ring].
  rewrite RtoC_div by apply sqrt_wt_neq0.
  assert (A : a <> RtoC 0). { intros ->. apply C1_neq_C0. rewrite <- U. ring. }
  assert (E : Cconj a = / a). { transitivity (/ a * (a * Cconj a)); [field; auto|]. rewrite U. ring. }
  rewrite E. replace (2 * q - N)%Z with (q + - (N - q))%Z by lia.
  rewrite Cpowz_add, Cpowz_opp, !Cpowz_nat by (auto; lia).
  assert (I : forall n, Cpow (/ a) n = / Cpow a n).
  { induction n as [|n IH]; cbn [Cpow]; [field; auto|]. rewrite IH. field. split; auto. now apply Cpow_neq0. }
  rewrite I. field. split; [now apply Cpow_neq0|apply RtoC_neq0, sqrt_wt_neq0].
Qed.
Lemma Dm_a0 N p q b : (0 <= p <= N)%Z -> (0 <= q <= N)%Z -> b * Cconj b = RtoC 1 ->
  Dm N p q (RtoC 0) b = if (q =? N - p)%Z then RtoC (sgn p) * Cpowz b (2 * q - N) else RtoC 0.
Proof.
  intros Hp Hq U. rewrite Dm_wt, Cconj_RtoC.
  rewrite sp_anti, Z2Nat.id by lia. destruct (Z.eqb_spec q (N - p)) as [->|]; [|ring].
  assert (A : b <> RtoC 0). { intros ->. apply C1_neq_C0. rewrite <- U. ring. }
  assert (E : Cconj b = / b). { transitivity (/ b * (b * Cconj b)); [field; auto|]. rewrite U. ring. }
  unfold wt. replace (N - (N - p))%Z with p by lia. rewrite (Rmult_comm (fct (N - p))). fold (wt N p).
  rewrite RtoC_div by apply sqrt_wt_neq0.
  rewrite E, Cpow_opp, <- sgn_pow by lia. replace (2 * (N - p) - N)%Z with (N - p + - p)%Z by lia.
  rewrite Cpowz_add, Cpowz_opp, !Cpowz_nat by (auto; lia).
  assert (I : forall n, Cpow (/ b) n = / Cpow b n).
  { induction n as [|n IH]; cbn [Cpow]; [field; auto|]. rewrite IH. field. split; auto. now apply Cpow_neq0. }
  rewrite I. field. split; [now apply Cpow_neq0|apply RtoC_neq0, sqrt_wt_neq0].
Qed.
