(** Specification of Wigner's D matrices, independent of the code.

    The rotor is given by its two complex parts (docs: [R.a = w + i z], [R.b = y + i x]).  All indices are doubled so that
    half-integers are integers here. *)
Require Import ZArith Lia Reals Lra Bool.
From Coquelicot Require Import Complex.
From Verif Require Import CBase CSum Fact SymPow.
Open Scope C_scope.

(** Wigner's formula for D^l_{m',m}(R), with [lpm' = l + m'] and so on:
    sqrt((l+m)! (l-m)! / ((l+m')! (l-m')!)) times the sum over rho of
    C(l+m', rho) C(l-m', l-m-rho) (-1)^rho Ra^(l+m'-rho) conj(Ra)^(l-m-rho) Rb^(rho-m'+m) conj(Rb)^rho,
    over every rho for which both binomials are nonzero. *)
Definition Wigner_formula (twoell twomp twom : Z) (Ra Rb : C) : C :=
  let lpp := ((twoell + twomp) / 2)%Z in   (* l + m' *)
  let lmp := ((twoell - twomp) / 2)%Z in   (* l - m' *)
  let lpm := ((twoell + twom) / 2)%Z in    (* l + m *)
  let lmm := ((twoell - twom) / 2)%Z in    (* l - m *)
  RtoC (sqrt (fct lpm * fct lmm / (fct lpp * fct lmp)))
  * csum 0 twoell (fun rho =>
      RtoC (bin lpp rho) * RtoC (bin lmp (lmm - rho)) * RtoC ((-1) ^ Z.to_nat rho)
      * Cpow Ra (Z.to_nat (lpp - rho)) * Cpow (Cconj Ra) (Z.to_nat (lmm - rho))
      * Cpow Rb (Z.to_nat (rho - lpp + lpm)) * Cpow (Cconj Rb) (Z.to_nat rho)).

(** The index triples of D matrices: three doubled indices of one parity. *)
Definition D_indices (twoell twomp twom : Z) : Prop :=
  (Z.abs twomp <= twoell)%Z /\ (Z.abs twom <= twoell)%Z
  /\ Z.even (twoell + twomp) = true /\ Z.even (twoell + twom) = true.

(** The same element in terms of row [p = l+m'] and column [q = l+m] of the symmetric power. *)
Definition Dm (N p q : Z) (a b : C) : C :=
  RtoC (sqrt (fct q * fct (N - q) / (fct p * fct (N - p))))
  * sp a (- Cconj b) b (Cconj a) (Z.to_nat p) (Z.to_nat (N - p)) q.

Definition Dterm (N p q : Z) (a b : C) (rho : Z) : C :=
  RtoC (bin p rho) * RtoC (bin (N - p) (N - q - rho)) * RtoC (sgn rho)
  * Cpow a (Z.to_nat (p - rho)) * Cpow (Cconj a) (Z.to_nat (N - q - rho))
  * Cpow b (Z.to_nat (rho - p + q)) * Cpow (Cconj b) (Z.to_nat rho).

Lemma Cpow_opp x n : Cpow (- x) n = RtoC ((-1) ^ n) * Cpow x n.
Proof.
  induction n as [|n IH]; [simpl; ring|]. cbn [Cpow]. rewrite IH.
  change ((-1) ^ S n)%R with ((-1) * (-1) ^ n)%R. rewrite RtoC_mult. ring.
Qed.

Lemma Dm_sum N p q a b lo hi : (0 <= p <= N)%Z -> (0 <= q <= N)%Z ->
  (lo <= 0)%Z -> (p <= hi)%Z ->
  Dm N p q a b = RtoC (sqrt (fct q * fct (N - q) / (fct p * fct (N - p)))) * csum lo hi (Dterm N p q a b).
Proof.
  intros Hp Hq Hlo Hhi. unfold Dm. f_equal.
  rewrite (sp_closed _ _ _ _ _ _ q (p - hi) (p - lo)) by lia.
  rewrite csum_rev. rewrite (csum_shift _ _ p).
  replace (- (p - lo) + p)%Z with lo by lia. replace (- (p - hi) + p)%Z with hi by lia.
  apply csum_ext. intros rho Hr. replace (- (rho - p))%Z with (p - rho)%Z by lia.
  unfold term, Dterm. rewrite !Z2Nat.id by lia.
  rewrite (bin_sym p (p - rho)) by lia. replace (p - (p - rho))%Z with rho by lia.
  rewrite (bin_sym (N - p) (q - (p - rho))) by lia.
  replace (N - p - (q - (p - rho)))%Z with (N - q - rho)%Z by lia.
  replace (q - (p - rho))%Z with (rho - p + q)%Z by lia.
  destruct (Z_lt_ge_dec rho 0); [rewrite (bin_out p) by lia; ring|].
  rewrite Cpow_opp, <- sgn_pow by lia. ring.
Qed.

Lemma half_even x : Z.even x = true -> x = (2 * (x / 2))%Z.
Proof. intros H. pose proof (Zeven_bool_iff x) as [E _]. specialize (E H). apply Zeven_div2 in E. rewrite Z.div2_div in E. auto. Qed.

Lemma D_indices_half twoell twomp twom : D_indices twoell twomp twom ->
  exists p q, (0 <= p <= twoell)%Z /\ (0 <= q <= twoell)%Z /\ twomp = (2 * p - twoell)%Z /\ twom = (2 * q - twoell)%Z.
Proof.
  intros (A & B & E1 & E2). apply half_even in E1. apply half_even in E2.
  exists ((twoell + twomp) / 2)%Z, ((twoell + twom) / 2)%Z. lia.
Qed.
Lemma D_indices_pq N p q : (0 <= p <= N)%Z -> (0 <= q <= N)%Z -> D_indices N (2 * p - N) (2 * q - N).
Proof.
  intros. split; [lia|]. split; [lia|].
  replace (N + (2 * p - N))%Z with (2 * p)%Z by lia. replace (N + (2 * q - N))%Z with (2 * q)%Z by lia.
  rewrite !Z.even_mul. auto.
Qed.

Lemma Wigner_formula_Dm N p q a b : (0 <= p <= N)%Z -> (0 <= q <= N)%Z ->
  Wigner_formula N (2 * p - N) (2 * q - N) a b = Dm N p q a b.
Proof.
  intros Hp Hq. rewrite (Dm_sum N p q a b 0 N) by lia. unfold Wigner_formula. cbv zeta.
  replace (N + (2 * p - N))%Z with (p * 2)%Z by lia.
  replace (N + (2 * q - N))%Z with (q * 2)%Z by lia.
  replace (N - (2 * p - N))%Z with ((N - p) * 2)%Z by lia.
  replace (N - (2 * q - N))%Z with ((N - q) * 2)%Z by lia.
  rewrite !Z.div_mul by lia. f_equal. apply csum_ext. intros rho Hr. unfold Dterm.
  rewrite sgn_pow by lia. reflexivity.
Qed.
