(** The recurrences behind the H algorithm, proved from Wigner's formula.  Purely mathematical; nothing here models code. *)
Require Import ZArith Lia Reals Lra Bool.
From Coquelicot Require Import Complex.
From Verif Require Import CBase CSum Fact SymPow WignerSpec DRep HSpec.
Open Scope R_scope.

(** Coefficient of x^q y^(p+n-q) in (a x - b y)^p (b x + a y)^n, with real a and b. *)
Fixpoint rp0 (a b : R) (n : nat) (q : Z) : R :=
  match n with
  | O => if (q =? 0)%Z then 1 else 0
  | S n' => b * rp0 a b n' (q - 1)%Z + a * rp0 a b n' q
  end.
Fixpoint rp (a b : R) (p n : nat) (q : Z) : R :=
  match p with
  | O => rp0 a b n q
  | S p' => a * rp a b p' n (q - 1)%Z - b * rp a b p' n q
  end.

Lemma rp_S a b p n q : rp a b (S p) n q = a * rp a b p n (q - 1)%Z - b * rp a b p n q.
Proof. reflexivity. Qed.
Lemma rp_S2 a b p n q : rp a b p (S n) q = b * rp a b p n (q - 1)%Z + a * rp a b p n q.
Proof. revert q. induction p as [|p IH]; intros q; [reflexivity|]. rewrite !rp_S, !IH. ring. Qed.
Lemma rp_sp a b p n q : (RtoC (rp a b p n q) = sp (RtoC a) (- RtoC b) (RtoC b) (RtoC a) p n q)%C.
Proof.
  revert q. induction p as [|p IH]; intros q.
  - simpl. revert q. induction n as [|n IH]; intros q; simpl.
    + destruct (q =? 0)%Z; auto.
    + rewrite RtoC_plus, !RtoC_mult, !IH. ring.
  - rewrite rp_S, sp_S, RtoC_minus, !RtoC_mult, !IH. ring.
Qed.
Lemma rp_out a b p n q : ((q < 0) \/ (Z.of_nat (p + n) < q))%Z -> rp a b p n q = 0.
Proof. intros H. apply RtoC_inj. rewrite rp_sp. now apply sp_out. Qed.

(** The rotation generator and the derivative along the second form, on products of powers. *)
Definition dfst (a b : R) (p n : nat) (q : Z) : R :=
  match p with O => 0 | S p' => INR p * rp a b p' (S n) q end.
Definition dsnd (a b : R) (p n : nat) (q : Z) : R :=
  match n with O => 0 | S n' => INR n * rp a b (S p) n' q end.
Definition dv (a b : R) (p n : nat) (q : Z) : R :=
  match n with O => 0 | S n' => INR n * rp a b p n' q end.

Lemma dfst_S a b p n q : dfst a b (S p) n q = rp a b p (S n) q + a * dfst a b p n (q - 1)%Z - b * dfst a b p n q.
Proof. unfold dfst. destruct p as [|p]; [simpl INR; ring|]. rewrite (rp_S a b p (S n) q), (S_INR (S p)). ring. Qed.
Lemma dsnd_S a b p n q : dsnd a b (S p) n q = a * dsnd a b p n (q - 1)%Z - b * dsnd a b p n q.
Proof. unfold dsnd. destruct n as [|n]; [ring|]. rewrite (rp_S a b (S p) n q). ring. Qed.
Lemma dsnd_S2 a b p n q : dsnd a b p (S n) q = rp a b (S p) n q + b * dsnd a b p n (q - 1)%Z + a * dsnd a b p n q.
Proof. unfold dsnd. destruct n as [|n]; [simpl INR; ring|]. rewrite (rp_S2 a b (S p) n q), (S_INR (S n)). ring. Qed.
Lemma dv_S a b p n q : dv a b (S p) n q = a * dv a b p n (q - 1)%Z - b * dv a b p n q.
Proof. unfold dv. destruct n as [|n]; [ring|]. rewrite (rp_S a b p n q). ring. Qed.
Lemma dv_S2 a b p n q : dv a b p (S n) q = rp a b p n q + b * dv a b p n (q - 1)%Z + a * dv a b p n q.
Proof. unfold dv. destruct n as [|n]; [simpl INR; ring|]. rewrite (rp_S2 a b p n q), (S_INR (S n)). ring. Qed.

Lemma rp_rot a b p n q :
  (INR p + INR n - IZR q + 1) * rp a b p n (q - 1)%Z - (IZR q + 1) * rp a b p n (q + 1)%Z =
  - dfst a b p n q + dsnd a b p n q.
Proof.
  revert q. induction p as [|p IH]; intros q.
  - revert q. induction n as [|n IH]; intros q.
    + simpl. destruct (Z.eqb_spec (q - 1) 0) as [E|E].
      * assert (q = 1%Z) as -> by lia. simpl. ring.
      * destruct (Z.eqb_spec (q + 1) 0) as [E'|E']; [|ring]. assert (q = (-1)%Z) as -> by lia. simpl. ring.
    + pose proof (IH q) as H0. pose proof (IH (q - 1)%Z) as H1. rewrite !rp_S2, dsnd_S2, rp_S.
      replace (q - 1 + 1)%Z with q in H1 by lia. replace (q + 1 - 1)%Z with q by lia.
      rewrite !S_INR in *. rewrite minus_IZR in H1. unfold dfst in *. simpl (INR 0) in *.
      match goal with |- ?l = ?r => assert (l - r = 0); [|lra] end.
      match type of H0 with ?l = ?r => match type of H1 with ?l1 = ?r1 =>
        transitivity (a * (l - r) + b * (l1 - r1)); [ring|rewrite H0, H1; ring] end end.
  - pose proof (IH q) as H0. pose proof (IH (q - 1)%Z) as H1. rewrite !rp_S, dfst_S, dsnd_S, rp_S2.
    replace (q - 1 + 1)%Z with q in H1 by lia. replace (q + 1 - 1)%Z with q by lia.
    rewrite !S_INR in *. rewrite minus_IZR in H1.
    match goal with |- ?l = ?r => assert (l - r = 0); [|lra] end.
    match type of H0 with ?l = ?r => match type of H1 with ?l1 = ?r1 =>
      transitivity (- b * (l - r) + a * (l1 - r1)); [ring|rewrite H0, H1; ring] end end.
Qed.

Lemma rp_dv a b p n q : a * a + b * b = 1 ->
  dv a b p n q = b * (IZR q + 1) * rp a b p n (q + 1)%Z + a * (INR p + INR n - IZR q) * rp a b p n q.
Proof.
  intros U. revert q. induction p as [|p IH]; intros q.
  - revert q. induction n as [|n IH]; intros q.
    + simpl. destruct (Z.eqb_spec (q + 1) 0) as [E|E].
      * assert (q = (-1)%Z) as -> by lia. simpl. ring.
      * destruct (Z.eqb_spec q 0) as [->|E']; simpl; ring.
    + pose proof (IH q) as H0. pose proof (IH (q - 1)%Z) as H1. rewrite !rp_S2, dv_S2.
      replace (q - 1 + 1)%Z with q in H1 by lia. replace (q + 1 - 1)%Z with q by lia.
      rewrite !S_INR in *. rewrite minus_IZR in H1. simpl (INR 0) in *. rewrite H0, H1.
      replace (rp a b 0 n q) with ((a * a + b * b) * rp a b 0 n q) at 1 by (rewrite U; ring). ring.
  - pose proof (IH q) as H0. pose proof (IH (q - 1)%Z) as H1. rewrite !rp_S, dv_S.
    replace (q - 1 + 1)%Z with q in H1 by lia. replace (q + 1 - 1)%Z with q by lia.
    rewrite !S_INR in *. rewrite minus_IZR in H1. rewrite H0, H1. ring.
Qed.

Lemma rp_dv2 a b n q : a * a + b * b = 1 ->
  INR (S n) * INR (S (S n)) * rp a b (S (S n)) n q =
  b * b * ((IZR q + 1) * (IZR q + 2)) * rp a b (S (S n)) (S (S n)) (q + 2)%Z
  + 2 * (a * b) * ((IZR q + 1) * (2 * INR n + 3 - IZR q)) * rp a b (S (S n)) (S (S n)) (q + 1)%Z
  + a * a * ((2 * INR n + 3 - IZR q) * (2 * INR n + 4 - IZR q)) * rp a b (S (S n)) (S (S n)) q.
Proof.
  intros U. pose proof (rp_dv a b (S (S n)) (S n) q U) as H. unfold dv in H at 1.
  pose proof (rp_dv a b (S (S n)) (S (S n)) q U) as H0. unfold dv in H0 at 1.
  pose proof (rp_dv a b (S (S n)) (S (S n)) (q + 1)%Z U) as H1. unfold dv in H1 at 1.
  replace (q + 1 + 1)%Z with (q + 2)%Z in H1 by lia. rewrite plus_IZR in H1.
  rewrite (Rmult_comm (INR (S n))), Rmult_assoc, H.
  transitivity (b * (IZR q + 1) * (INR (S (S n)) * rp a b (S (S n)) (S n) (q + 1))
    + a * (INR (S (S n)) + INR (S n) - IZR q) * (INR (S (S n)) * rp a b (S (S n)) (S n) q)); [ring|].
  rewrite H0, H1. rewrite !S_INR. ring.
Qed.

(** Powers of a trinomial: coefficient of z^m in (al z + be + ga / z)^n. *)
Fixpoint tri (al be ga : R) (n : nat) (m : Z) : R :=
  match n with
  | O => if (m =? 0)%Z then 1 else 0
  | S n' => al * tri al be ga n' (m - 1)%Z + be * tri al be ga n' m + ga * tri al be ga n' (m + 1)%Z
  end.
Lemma tri_S al be ga n m :
  tri al be ga (S n) m = al * tri al be ga n (m - 1)%Z + be * tri al be ga n m + ga * tri al be ga n (m + 1)%Z.
Proof. reflexivity. Qed.
Lemma tri_out al be ga n m : (Z.of_nat n < m)%Z -> tri al be ga n m = 0.
Proof.
  revert m. induction n as [|n IH]; intros m H; simpl.
  - destruct (Z.eqb_spec m 0); auto. lia.
  - rewrite !IH by lia. ring.
Qed.
Lemma tri_top al be ga n : tri al be ga n (Z.of_nat n) = al ^ n.
Proof.
  induction n as [|n IH]; [reflexivity|]. rewrite tri_S, (tri_out _ _ _ n (Z.of_nat (S n))), (tri_out _ _ _ n (Z.of_nat (S n) + 1)) by lia.
  replace (Z.of_nat (S n) - 1)%Z with (Z.of_nat n) by lia. rewrite IH. simpl. ring.
Qed.
Lemma tri_ode al be ga n m :
  al * (IZR m - 1 - INR n) * tri al be ga n (m - 1)%Z + be * IZR m * tri al be ga n m
  + ga * (INR n + IZR m + 1) * tri al be ga n (m + 1)%Z = 0.
Proof.
  revert m. induction n as [|n IH]; intros m.
  - simpl. destruct (Z.eqb_spec (m - 1) 0) as [E|E].
    { assert (m = 1%Z) as -> by lia. simpl. ring. }
    destruct (Z.eqb_spec m 0) as [->|E']; [simpl; ring|].
    destruct (Z.eqb_spec (m + 1) 0) as [E''|]; [|ring]. assert (m = (-1)%Z) as -> by lia. simpl. ring.
  - pose proof (IH m) as H0. pose proof (IH (m - 1)%Z) as H1. pose proof (IH (m + 1)%Z) as H2.
    rewrite !tri_S. rewrite S_INR. rewrite minus_IZR in H1. rewrite plus_IZR in H2.
    replace (m - 1 + 1)%Z with m in * by lia. replace (m + 1 - 1)%Z with m in * by lia.
    match type of H0 with ?l = _ => match type of H1 with ?l1 = _ => match type of H2 with ?l2 = _ =>
      transitivity (be * l + al * l1 + ga * l2); [ring|rewrite H0, H1, H2; ring] end end end.
Qed.
Lemma tri_scale c s n (k : nat) :
  tri (s / 2) c (- (s / 2)) n (Z.of_nat k) = s ^ k * tri (/ 2) c (- (s * s / 2)) n (Z.of_nat k)
  /\ tri (/ 2) c (- (s * s / 2)) n (- Z.of_nat k) = s ^ k * tri (s / 2) c (- (s / 2)) n (- Z.of_nat k).
Proof.
  revert k. induction n as [|n IH]; intros k.
  - simpl. destruct k as [|k]; [simpl; lra|].
    destruct (Z.eqb_spec (Z.of_nat (S k)) 0); [lia|]. destruct (Z.eqb_spec (- Z.of_nat (S k)) 0); [lia|]. lra.
  - rewrite !tri_S. destruct k as [|k].
    + destruct (IH 0%nat) as [A _]. destruct (IH 1%nat) as [B B']. simpl pow in *. simpl Z.of_nat in *.
      simpl Z.opp in *. simpl Z.sub in *. simpl Z.add in *. rewrite B, B', A. split; field.
    + destruct (IH k) as [A A']. destruct (IH (S k)) as [B B']. destruct (IH (S (S k))) as [D D'].
      replace (Z.of_nat (S k) - 1)%Z with (Z.of_nat k) by lia.
      replace (Z.of_nat (S k) + 1)%Z with (Z.of_nat (S (S k))) by lia.
      replace (- Z.of_nat (S k) - 1)%Z with (- Z.of_nat (S (S k)))%Z by lia.
      replace (- Z.of_nat (S k) + 1)%Z with (- Z.of_nat k)%Z by lia.
      rewrite A, B, D, A', B', D'. simpl pow. split; field.
Qed.
Lemma rp_tri a b n m : rp a b n n (Z.of_nat n + m) = tri (a * b) (a * a - b * b) (- (a * b)) n m.
Proof.
  revert m. induction n as [|n IH]; intros m.
  - simpl. reflexivity.
  - rewrite rp_S, !rp_S2, tri_S, <- !IH.
    replace (Z.of_nat (S n) + m - 1 - 1)%Z with (Z.of_nat n + (m - 1))%Z by lia.
    replace (Z.of_nat (S n) + m - 1)%Z with (Z.of_nat n + m)%Z by lia.
    replace (Z.of_nat (S n) + m)%Z with (Z.of_nat n + (m + 1))%Z by lia. ring.
Qed.

(** Weights and Wigner's d matrix as real numbers. *)
Definition W (n m : Z) : R := sqrt (fct (n + m) * fct (n - m)).
Definition U (n m : Z) : R := sqrt (IZR ((n - m) * (n + m + 1))).
Definition S2 (a b : R) (n mp m : Z) : R := rp a b (Z.to_nat (n + mp)) (Z.to_nat (n - mp)) (n + m).
Definition dd (a b : R) (n mp m : Z) : R := W n m / W n mp * S2 a b n mp m.

Lemma W_pos n m : 0 < W n m.
Proof. apply sqrt_lt_R0, Rmult_lt_0_compat; apply fct_pos. Qed.
Lemma W_neq0 n m : W n m <> 0.
Proof. pose proof (W_pos n m). lra. Qed.
Lemma U_top n : U n n = 0.
Proof. unfold U. replace ((n - n) * (n + n + 1))%Z with 0%Z by ring. apply sqrt_0. Qed.
Lemma U_bot n : U n (- n - 1) = 0.
Proof. unfold U. replace ((n - (- n - 1)) * (n + (- n - 1) + 1))%Z with 0%Z by ring. apply sqrt_0. Qed.
Lemma U_pos n m : (- n <= m < n)%Z -> 0 < U n m.
Proof. intros. apply sqrt_lt_R0, IZR_lt. apply Z.mul_pos_pos; lia. Qed.

Lemma sqrt_scaled x y z w : 0 <= x -> 0 <= y -> 0 <= z -> x * y = w * w * z -> 0 <= w -> sqrt x * sqrt y = w * sqrt z.
Proof.
  intros Hx Hy Hz E Hw. rewrite <- sqrt_mult, E, sqrt_mult, sqrt_square; auto; apply Rle_0_sqr || nra.
Qed.
Lemma ff_pos x y : 0 <= fct x * fct y.
Proof. left. apply Rmult_lt_0_compat; apply fct_pos. Qed.

Lemma W_up n m : (- n <= m < n)%Z ->
  U n m * W n m = IZR (n - m) * W n (m + 1) /\ U n m * W n (m + 1) = IZR (n + m + 1) * W n m.
Proof.
  intros H. unfold U, W.
  replace (n + (m + 1))%Z with (n + m + 1)%Z by lia.
  assert (A : 0 <= IZR ((n - m) * (n + m + 1))) by (apply IZR_le, Z.mul_nonneg_nonneg; lia).
  assert (B : fct (n + m + 1) = IZR (n + m + 1) * fct (n + m)) by (apply fct_succ; lia).
  assert (D : fct (n - m) = IZR (n - m) * fct (n - (m + 1))).
  { replace (n - (m + 1))%Z with (n - m - 1)%Z by lia. apply fct_pred. lia. }
  split; apply sqrt_scaled; auto using ff_pos; try (apply IZR_le; lia); rewrite mult_IZR, B, D; ring.
Qed.

Lemma W_shift n m : (- n <= m <= n)%Z ->
  W (n + 1) (m + 1) = sqrt (IZR ((n + m + 1) * (n + m + 2))) * W n m
  /\ W (n + 1) m = sqrt (IZR ((n + m + 1) * (n - m + 1))) * W n m
  /\ W (n + 1) (m - 1) = sqrt (IZR ((n - m + 1) * (n - m + 2))) * W n m.
Proof.
  intros H. unfold W.
  assert (A1 : fct (n + m + 1) = IZR (n + m + 1) * fct (n + m)) by (apply fct_succ; lia).
  assert (A2 : fct (n + m + 2) = IZR (n + m + 2) * fct (n + m + 1)).
  { replace (n + m + 2)%Z with (n + m + 1 + 1)%Z by lia. apply fct_succ. lia. }
  assert (B1 : fct (n - m + 1) = IZR (n - m + 1) * fct (n - m)) by (apply fct_succ; lia).
  assert (B2 : fct (n - m + 2) = IZR (n - m + 2) * fct (n - m + 1)).
  { replace (n - m + 2)%Z with (n - m + 1 + 1)%Z by lia. apply fct_succ. lia. }
  replace (n + 1 + (m + 1))%Z with (n + m + 2)%Z by lia. replace (n + 1 - (m + 1))%Z with (n - m)%Z by lia.
  replace (n + 1 + m)%Z with (n + m + 1)%Z by lia. replace (n + 1 - m)%Z with (n - m + 1)%Z by lia.
  replace (n + 1 + (m - 1))%Z with (n + m)%Z by lia. replace (n + 1 - (m - 1))%Z with (n - m + 2)%Z by lia.
  assert (P : forall x y, (0 <= x)%Z -> (0 <= y)%Z -> 0 <= IZR (x * y)) by (intros; apply IZR_le, Z.mul_nonneg_nonneg; lia).
  split; [|split]; rewrite <- sqrt_mult by (try apply ff_pos; apply P; lia); f_equal; rewrite mult_IZR.
  - rewrite A2, A1. ring.
  - rewrite A1, B1. ring.
  - rewrite B2, B1. ring.
Qed.

Lemma S2_out a b n mp m : (- n <= mp <= n)%Z -> (m < - n \/ n < m)%Z -> S2 a b n mp m = 0.
Proof. intros. apply rp_out. lia. Qed.

Lemma INR_to_nat z : (0 <= z)%Z -> INR (Z.to_nat z) = IZR z.
Proof. intros. now rewrite INR_IZR_INZ, Z2Nat.id. Qed.

(** Relation (50). *)
Lemma dd_50 a b n mp m : (- n <= mp <= n)%Z -> (- n <= m <= n)%Z ->
  U n (m - 1) * dd a b n mp (m - 1) - U n m * dd a b n mp (m + 1) =
  U n mp * dd a b n (mp + 1) m - U n (mp - 1) * dd a b n (mp - 1) m.
Proof.
  intros Hp Hm.
  pose proof (rp_rot a b (Z.to_nat (n + mp)) (Z.to_nat (n - mp)) (n + m)) as E.
  rewrite !INR_to_nat in E by lia. rewrite <- !plus_IZR in E.
  replace (n + m - 1)%Z with (n + (m - 1))%Z in E by lia. replace (n + m + 1)%Z with (n + (m + 1))%Z in E by lia.
  fold (S2 a b n mp (m - 1)) in E. fold (S2 a b n mp (m + 1)) in E.
  replace (IZR (n + mp + (n - mp)) - IZR (n + m) + 1) with (IZR (n - m + 1)) in E
    by (rewrite <- minus_IZR, <- plus_IZR; f_equal; lia).
  assert (A : U n (m - 1) * dd a b n mp (m - 1) = W n m / W n mp * (IZR (n - m + 1) * S2 a b n mp (m - 1))).
  { unfold dd. destruct (Z.eq_dec m (- n)) as [->|D].
    - rewrite U_bot, (S2_out a b n mp (- n - 1)) by lia. ring.
    - destruct (W_up n (m - 1)) as [V _]; [lia|]. replace (m - 1 + 1)%Z with m in V by lia.
      replace (n - (m - 1))%Z with (n - m + 1)%Z in V by lia.
      pose proof (W_neq0 n mp). transitivity (U n (m - 1) * W n (m - 1) / W n mp * S2 a b n mp (m - 1)); [field; auto|].
      rewrite V. field. auto. }
  assert (B : U n m * dd a b n mp (m + 1) = W n m / W n mp * (IZR (n + (m + 1)) * S2 a b n mp (m + 1))).
  { unfold dd. destruct (Z.eq_dec m n) as [->|D].
    - rewrite U_top, (S2_out a b n mp (n + 1)) by lia. ring.
    - destruct (W_up n m) as [_ V]; [lia|]. replace (n + (m + 1))%Z with (n + m + 1)%Z by lia.
      pose proof (W_neq0 n mp). transitivity (U n m * W n (m + 1) / W n mp * S2 a b n mp (m + 1)); [field; auto|].
      rewrite V. field. auto. }
  assert (C1 : U n mp * dd a b n (mp + 1) m = W n m / W n mp * dsnd a b (Z.to_nat (n + mp)) (Z.to_nat (n - mp)) (n + m)).
  { unfold dd. destruct (Z.eq_dec mp n) as [->|D].
    - rewrite U_top, Z.sub_diag. simpl dsnd. ring.
    - destruct (W_up n mp) as [V _]; [lia|]. unfold dsnd, S2.
      replace (Z.to_nat (n - mp)) with (S (Z.to_nat (n - (mp + 1)))) by lia.
      replace (S (Z.to_nat (n + mp))) with (Z.to_nat (n + (mp + 1))) by lia.
      replace (S (Z.to_nat (n - (mp + 1)))) with (Z.to_nat (n - mp)) by lia. rewrite INR_to_nat by lia.
      pose proof (W_neq0 n mp). pose proof (W_neq0 n (mp + 1)).
      assert (E2 : U n mp / W n (mp + 1) = IZR (n - mp) / W n mp).
      { apply (Rmult_eq_reg_r (W n (mp + 1) * W n mp)); [|apply Rmult_integral_contrapositive_currified; auto].
        transitivity (U n mp * W n mp); [field; auto|]. rewrite V. field. auto. }
      transitivity (U n mp / W n (mp + 1) * (W n m * rp a b (Z.to_nat (n + (mp + 1))) (Z.to_nat (n - (mp + 1))) (n + m))); [field; auto|].
      rewrite E2. field. auto. }
  assert (C2 : U n (mp - 1) * dd a b n (mp - 1) m = W n m / W n mp * dfst a b (Z.to_nat (n + mp)) (Z.to_nat (n - mp)) (n + m)).
  { unfold dd. destruct (Z.eq_dec mp (- n)) as [->|D].
    - rewrite U_bot. replace (n + - n)%Z with 0%Z by lia. simpl dfst. ring.
    - destruct (W_up n (mp - 1)) as [_ V]; [lia|]. replace (mp - 1 + 1)%Z with mp in V by lia.
      replace (n + (mp - 1) + 1)%Z with (n + mp)%Z in V by lia. unfold dfst, S2.
      replace (Z.to_nat (n + mp)) with (S (Z.to_nat (n + (mp - 1)))) by lia.
      replace (S (Z.to_nat (n - mp))) with (Z.to_nat (n - (mp - 1))) by lia.
      replace (S (Z.to_nat (n + (mp - 1)))) with (Z.to_nat (n + mp)) by lia. rewrite INR_to_nat by lia.
      pose proof (W_neq0 n mp). pose proof (W_neq0 n (mp - 1)).
      assert (E2 : U n (mp - 1) / W n (mp - 1) = IZR (n + mp) / W n mp).
      { apply (Rmult_eq_reg_r (W n (mp - 1) * W n mp)); [|apply Rmult_integral_contrapositive_currified; auto].
        transitivity (U n (mp - 1) * W n mp); [field; auto|]. rewrite V. field. auto. }
      transitivity (U n (mp - 1) / W n (mp - 1) * (W n m * rp a b (Z.to_nat (n + (mp - 1))) (Z.to_nat (n - (mp - 1))) (n + m))); [field; auto|].
      rewrite E2. field. auto. }
  rewrite A, B, C1, C2. rewrite <- !Rmult_minus_distr_l. f_equal.
  replace (IZR (n + m) + 1) with (IZR (n + (m + 1))) in E by (rewrite <- plus_IZR; f_equal; lia). rewrite E. ring.
Qed.

(** Relation (41), with b^2 = (1 - cos beta)/2 and so on. *)
Lemma dd_41 a b n m : a * a + b * b = 1 -> (1 <= n)%Z -> (- n <= m <= n)%Z ->
  sqrt (IZR (n * (n + 1))) * dd a b n 1 m =
  b * b * sqrt (IZR ((n + m + 1) * (n + m + 2))) * dd a b (n + 1) 0 (m + 1)
  + 2 * (a * b) * sqrt (IZR ((n + m + 1) * (n - m + 1))) * dd a b (n + 1) 0 m
  + a * a * sqrt (IZR ((n - m + 1) * (n - m + 2))) * dd a b (n + 1) 0 (m - 1).
Proof.
  intros HU Hn Hm.
  pose proof (rp_dv2 a b (Z.to_nat (n - 1)) (n + m) HU) as E.
  rewrite !S_INR, !INR_to_nat in E by lia.
  replace (S (S (Z.to_nat (n - 1)))) with (Z.to_nat (n + 1)) in E by lia.
  assert (P1 : forall k, S2 a b (n + 1) 0 k = rp a b (Z.to_nat (n + 1)) (Z.to_nat (n + 1)) (n + 1 + k)).
  { intros k. unfold S2. now rewrite Z.add_0_r, Z.sub_0_r. }
  replace (n + m + 2)%Z with (n + 1 + (m + 1))%Z in E by lia. replace (n + m + 1)%Z with (n + 1 + m)%Z in E by lia.
  assert (P2 : rp a b (Z.to_nat (n + 1)) (Z.to_nat (n + 1)) (n + m) = S2 a b (n + 1) 0 (m - 1))
    by (rewrite P1; f_equal; lia). rewrite P2 in E.
  rewrite <- !P1 in E. fold (S2 a b n 1 m) in E.
  destruct (W_shift n m Hm) as (W1 & W2 & W3). destruct (W_shift n 1) as (_ & _ & W4); [lia|].
  replace (1 - 1)%Z with 0%Z in W4 by lia. replace ((n - 1 + 1) * (n - 1 + 2))%Z with (n * (n + 1))%Z in W4 by ring.
  unfold dd. rewrite W1, W2, W3, W4.
  assert (Q : 0 < sqrt (IZR (n * (n + 1)))) by (apply sqrt_lt_R0, IZR_lt, Z.mul_pos_pos; lia).
  pose proof (W_neq0 n 1) as Wn.
  apply (Rmult_eq_reg_r (sqrt (IZR (n * (n + 1))) * W n 1 / W n m)).
  2:{ apply Rmult_integral_contrapositive_currified; [apply Rmult_integral_contrapositive_currified; lra|apply Rinv_neq_0_compat, W_neq0]. }
  pose proof (W_neq0 n m) as Wm.
  assert (SQ : forall x y, (0 <= x)%Z -> (0 <= y)%Z -> sqrt (IZR (x * y)) * sqrt (IZR (x * y)) = IZR x * IZR y).
  { intros. rewrite <- mult_IZR. apply sqrt_sqrt, IZR_le, Z.mul_nonneg_nonneg; lia. }
  transitivity (sqrt (IZR (n * (n + 1))) * sqrt (IZR (n * (n + 1))) * S2 a b n 1 m); [field; auto|].
  transitivity (b * b * (sqrt (IZR ((n + m + 1) * (n + m + 2))) * sqrt (IZR ((n + m + 1) * (n + m + 2)))) * S2 a b (n + 1) 0 (m + 1)
    + 2 * (a * b) * (sqrt (IZR ((n + m + 1) * (n - m + 1))) * sqrt (IZR ((n + m + 1) * (n - m + 1)))) * S2 a b (n + 1) 0 m
    + a * a * (sqrt (IZR ((n - m + 1) * (n - m + 2))) * sqrt (IZR ((n - m + 1) * (n - m + 2)))) * S2 a b (n + 1) 0 (m - 1)); [|field; split; auto; lra].
  rewrite !SQ by lia. rewrite ?plus_IZR, ?minus_IZR in *.
  etransitivity; [|etransitivity; [exact E|]]; ring.
Qed.

(** Row m' = 0: Legendre functions, as powers of a trinomial. *)
Definition Y (a b : R) (n m : Z) : R :=
  let s := 2 * (a * b) in tri (/ 2) (a * a - b * b) (- (s * s / 2)) (Z.to_nat n) m.

Lemma dd_row a b n m : (0 <= m <= n)%Z ->
  dd a b n 0 m = W n m / W n 0 * ((2 * (a * b)) ^ Z.to_nat m * Y a b n m).
Proof.
  intros H. unfold dd, S2, Y. rewrite Z.add_0_r, Z.sub_0_r.
  rewrite <- (Z2Nat.id n) at 5 by lia. rewrite rp_tri. f_equal.
  destruct (tri_scale (a * a - b * b) (2 * (a * b)) (Z.to_nat n) (Z.to_nat m)) as [A _].
  rewrite Z2Nat.id in A by lia. rewrite <- A. f_equal; field.
Qed.
Lemma Y_out a b n m : (0 <= n < m)%Z -> Y a b n m = 0.
Proof. intros. unfold Y. apply tri_out. lia. Qed.
Lemma Y_top a b n : (0 <= n)%Z -> Y a b n n = (/ 2) ^ Z.to_nat n.
Proof. intros. unfold Y. rewrite <- (Z2Nat.id n) at 2 by lia. apply tri_top. Qed.
Lemma Y_rec a b n m : (0 <= m < n)%Z ->
  IZR (n - m) * Y a b n m = 2 * IZR (m + 1) * (a * a - b * b) * Y a b n (m + 1)
    - IZR (n + m + 2) * (2 * (a * b)) ^ 2 * Y a b n (m + 2).
Proof.
  intros H. unfold Y.
  pose proof (tri_ode (/ 2) (a * a - b * b) (- (2 * (a * b) * (2 * (a * b)) / 2)) (Z.to_nat n) (m + 1)) as E.
  rewrite INR_to_nat in E by lia. replace (m + 1 - 1)%Z with m in E by lia. replace (m + 1 + 1)%Z with (m + 2)%Z in E by lia.
  rewrite ?plus_IZR, ?minus_IZR in *.
  match type of E with ?l = 0 => match goal with |- ?x = ?y => assert (x - y = - 2 * l); [field|rewrite E in *; lra] end end.
Qed.

(** The Legendre values as the code scales them, before normalisation. *)
Definition Praw (a b : R) (n m : Z) : R := sqrt (IZR (4 * n + 2)) * (W n m / W n 0 * Y a b n m).
Definition gco (n m : Z) : R := 2 * IZR (m + 1) / U n m.
Definition hco (n m : Z) : R := sqrt (IZR ((n + m + 2) * (n - m - 1)) / IZR ((n - m) * (n + m + 1))).

Lemma Praw_rec a b n m : (0 <= m < n)%Z ->
  Praw a b n m = gco n m * (a * a - b * b) * Praw a b n (m + 1) - hco n m * (2 * (a * b)) ^ 2 * Praw a b n (m + 2).
Proof.
  intros H. unfold Praw.
  assert (E := Y_rec a b n m H).
  assert (Un : U n m <> 0) by (pose proof (U_pos n m); assert (0 < U n m) by (apply U_pos; lia); lra).
  assert (Nm : IZR (n - m) <> 0) by (apply IZR_neq; lia).
  destruct (W_up n m) as [V V']; [lia|].
  assert (G : gco n m * W n (m + 1) = 2 * IZR (m + 1) / IZR (n - m) * W n m).
  { unfold gco. apply (Rmult_eq_reg_r (U n m * IZR (n - m))); [|apply Rmult_integral_contrapositive_currified; auto].
    transitivity (2 * IZR (m + 1) * (IZR (n - m) * W n (m + 1))); [field; auto|]. rewrite <- V. field. auto. }
  assert (K : hco n m * W n (m + 2) * Y a b n (m + 2) = IZR (n + m + 2) / IZR (n - m) * W n m * Y a b n (m + 2)).
  { destruct (Z.eq_dec m (n - 1)) as [->|D].
    - rewrite (Y_out a b n (n - 1 + 2)) by lia. ring.
    - f_equal. destruct (W_up n (m + 1)) as [_ V2]; [lia|]. replace (m + 1 + 1)%Z with (m + 2)%Z in V2 by lia.
      replace (n + (m + 1) + 1)%Z with (n + m + 2)%Z in V2 by lia.
      assert (Hh : hco n m = U n (m + 1) / U n m).
      { unfold hco, U. rewrite <- sqrt_div_alt by (apply IZR_lt, Z.mul_pos_pos; lia). do 3 f_equal. ring. }
      rewrite Hh. apply (Rmult_eq_reg_r (U n m * IZR (n - m))); [|apply Rmult_integral_contrapositive_currified; auto].
      transitivity (U n (m + 1) * W n (m + 2) * IZR (n - m)); [field; auto|]. rewrite V2.
      transitivity (IZR (n + m + 2) * (IZR (n - m) * W n (m + 1))); [ring|]. rewrite <- V. field. auto. }
  pose proof (W_neq0 n 0) as W0.
  transitivity (sqrt (IZR (4 * n + 2)) / W n 0 * (W n m / IZR (n - m) * (IZR (n - m) * Y a b n m))); [field; auto|].
  rewrite E.
  transitivity (sqrt (IZR (4 * n + 2)) / W n 0 * ((gco n m * W n (m + 1)) * (a * a - b * b) * Y a b n (m + 1)
    - (2 * (a * b)) ^ 2 * (hco n m * W n (m + 2) * Y a b n (m + 2)))); [|field; auto].
  rewrite G, K. field. auto.
Qed.

Lemma Praw_top a b n : (2 <= n)%Z -> Praw a b n n = sqrt (1 + 1 / 2 / IZR n) * Praw a b (n - 1) (n - 1).
Proof.
  intros H. unfold Praw. rewrite !Y_top by lia. unfold W.
  rewrite !Z.add_0_r, !Z.sub_0_r, !Z.sub_diag, fct_0, !Rmult_1_r.
  rewrite !(sqrt_square (fct _)) by (left; apply fct_pos).
  replace (Z.to_nat n) with (S (Z.to_nat (n - 1))) by lia. simpl pow.
  assert (Hn : 2 <= IZR n) by (apply IZR_le; lia).
  rewrite (fct_pred n) by lia. pose proof (fct_pos (n - 1)) as F.
  assert (E : sqrt (IZR (4 * n + 2)) * sqrt (fct (n + n)) =
              2 * IZR n * (sqrt (1 + 1 / 2 / IZR n) * (sqrt (IZR (4 * (n - 1) + 2)) * sqrt (fct (n - 1 + (n - 1)))))).
  { assert (F2 : fct (n + n) = IZR (2 * n) * (IZR (2 * n - 1) * fct (n - 1 + (n - 1)))).
    { rewrite (fct_pred (n + n)), (fct_pred (n + n - 1)) by lia.
      replace (n + n - 1 - 1)%Z with (n - 1 + (n - 1))%Z by lia. replace (n + n)%Z with (2 * n)%Z by lia. ring. }
    pose proof (fct_pos (n - 1 + (n - 1))) as F3.
    assert (0 < 1 / 2 / IZR n) by (apply Rdiv_lt_0_compat; lra).
    assert (0 < IZR (4 * n + 2)) by (apply IZR_lt; lia). assert (0 < IZR (4 * (n - 1) + 2)) by (apply IZR_lt; lia).
    assert (0 < IZR (2 * n)) by (apply IZR_lt; lia). assert (0 < IZR (2 * n - 1)) by (apply IZR_lt; lia).
    rewrite <- (sqrt_square (2 * IZR n)) by lra.
    rewrite F2. rewrite <- !sqrt_mult by (repeat (apply Rmult_le_pos || apply Rplus_le_le_0_compat); lra).
    f_equal. rewrite ?plus_IZR, ?minus_IZR, ?mult_IZR, ?minus_IZR, ?mult_IZR. field. lra. }
  transitivity (sqrt (IZR (4 * n + 2)) * sqrt (fct (n + n)) / (IZR n * fct (n - 1)) * (/ 2 * (/ 2) ^ Z.to_nat (n - 1))).
  { field. split; lra. }
  rewrite E. field. split; lra.
Qed.
Lemma Praw_11 a b : Praw a b 1 1 = sqrt 3.
Proof.
  unfold Praw. rewrite Y_top by lia. unfold W. simpl Z.add. simpl Z.sub. simpl Z.mul. unfold fct. simpl.
  rewrite !Rmult_1_r, sqrt_1. replace (1 + 1) with 2 by ring.
  replace 6 with (3 * 2) by ring. rewrite sqrt_mult by lra.
  transitivity (sqrt 3 * (sqrt 2 * sqrt 2) / 2); [field|]. rewrite sqrt_sqrt by lra. field.
Qed.
Lemma dd_Praw a b n m : (0 <= m <= n)%Z ->
  dd a b n 0 m = (2 * (a * b)) ^ Z.to_nat m / sqrt (IZR (4 * n + 2)) * Praw a b n m.
Proof.
  intros H. rewrite dd_row by auto. unfold Praw.
  assert (0 < sqrt (IZR (4 * n + 2))) by (apply sqrt_lt_R0, IZR_lt; lia).
  pose proof (W_neq0 n 0). field. split; auto. lra.
Qed.

(** The link with the specification, and the symmetries. *)
Lemma dd_Dm a b n mp m : (- n <= mp <= n)%Z ->
  RtoC (dd a b n mp m) = Dm (2 * n) (n + mp) (n + m) (RtoC a) (RtoC b).
Proof.
  intros H. rewrite Dm_wt, !Cconj_RtoC. unfold dd, S2. rewrite RtoC_mult, rp_sp.
  replace (2 * n - (n + mp))%Z with (n - mp)%Z by lia. unfold W, wt.
  replace (2 * n - (n + mp))%Z with (n - mp)%Z by lia. replace (2 * n - (n + m))%Z with (n - m)%Z by lia. reflexivity.
Qed.
Lemma small_d_dd n mp m beta : (- n <= mp <= n)%Z -> (- n <= m <= n)%Z ->
  small_d n mp m beta = dd (cos (beta / 2)) (sin (beta / 2)) n mp m.
Proof.
  intros Hp Hm. unfold small_d.
  replace (2 * mp)%Z with (2 * (n + mp) - 2 * n)%Z by lia. replace (2 * m)%Z with (2 * (n + m) - 2 * n)%Z by lia.
  rewrite Wigner_formula_Dm by lia. rewrite <- dd_Dm by lia. reflexivity.
Qed.
Lemma dd_transpose a b n mp m : (- n <= mp <= n)%Z -> (- n <= m <= n)%Z ->
  dd a b n m mp = sgn (m - mp) * dd a b n mp m.
Proof.
  intros Hp Hm. apply RtoC_inj. rewrite RtoC_mult, !dd_Dm by lia.
  pose proof (Dm_adjoint (2 * n) (n + mp) (n + m) (RtoC a) (RtoC b) ltac:(lia) ltac:(lia)) as E.
  rewrite Dm_conj, !Cconj_RtoC, Dm_sign_b in E by lia. rewrite <- E.
  replace (n + m - (n + mp))%Z with (m - mp)%Z by lia.
  rewrite Cmult_assoc, <- RtoC_mult, sgn_sqr. ring.
Qed.
Lemma dd_negate a b n mp m : (- n <= mp <= n)%Z -> (- n <= m <= n)%Z ->
  dd a b n (- mp) (- m) = sgn (m - mp) * dd a b n mp m.
Proof.
  intros Hp Hm. apply RtoC_inj. rewrite RtoC_mult, !dd_Dm by lia.
  pose proof (Dm_reflect (2 * n) (n + mp) (n + m) (RtoC a) (RtoC b) ltac:(lia) ltac:(lia)) as E.
  rewrite Dm_conj, !Cconj_RtoC in E.
  replace (2 * n - (n + mp))%Z with (n + - mp)%Z in E by lia. replace (2 * n - (n + m))%Z with (n + - m)%Z in E by lia.
  rewrite E. replace (n + mp - (n + m))%Z with (- (m - mp))%Z by lia. now rewrite sgn_opp.
Qed.

Lemma eps_flip k : eps k * eps (- k) = sgn k.
Proof.
  unfold eps. destruct (Z.leb_spec k 0), (Z.leb_spec (- k) 0); try lia.
  - assert (k = 0%Z) as -> by lia. rewrite sgn_0. ring.
  - rewrite sgn_opp. ring.
  - ring.
Qed.
Lemma eps_sqr k : eps k * eps k = 1.
Proof. unfold eps. destruct (k <=? 0)%Z; [ring|apply sgn_sqr]. Qed.
Lemma eps_neg_eq k : eps (- k) = sgn k * eps k.
Proof. rewrite <- eps_flip. transitivity (eps k * eps k * eps (- k)); [rewrite eps_sqr|]; ring. Qed.

Definition Hd (a b : R) (n mp m : Z) : R := eps mp * eps (- m) * dd a b n mp m.
Lemma H_function_Hd n mp m beta : (- n <= mp <= n)%Z -> (- n <= m <= n)%Z ->
  H_function n mp m beta = Hd (cos (beta / 2)) (sin (beta / 2)) n mp m.
Proof. intros. unfold H_function, Hd. now rewrite small_d_dd. Qed.
Lemma Hd_transpose a b n mp m : (- n <= mp <= n)%Z -> (- n <= m <= n)%Z -> Hd a b n m mp = Hd a b n mp m.
Proof.
  intros. unfold Hd. rewrite dd_transpose, !eps_neg_eq, sgn_sub by auto.
  transitivity (eps m * eps mp * (sgn mp * sgn mp) * sgn m * dd a b n mp m); [ring|]. rewrite sgn_sqr. ring.
Qed.
Lemma Hd_negate a b n mp m : (- n <= mp <= n)%Z -> (- n <= m <= n)%Z -> Hd a b n (- mp) (- m) = Hd a b n mp m.
Proof.
  intros. unfold Hd. rewrite dd_negate, Z.opp_involutive, !eps_neg_eq, sgn_sub by auto.
  transitivity (eps m * eps mp * (sgn mp * sgn mp) * sgn m * dd a b n mp m); [ring|]. rewrite sgn_sqr. ring.
Qed.
Lemma Hd_zero_neg a b n : (1 <= n)%Z -> Hd a b n 0 (-1) = Hd a b n 0 1.
Proof. intros. rewrite <- (Hd_negate a b n 0 1) by lia. reflexivity. Qed.

Definition sg (m : Z) : R := if (m <? 0)%Z then -1 else 1.
Definition dco (n m : Z) : R := sg m * (1 / 2 * U n m).
Lemma eps_step k : eps (k + 1) = - sg k * eps k.
Proof.
  unfold eps, sg. destruct (Z.ltb_spec k 0), (Z.leb_spec k 0), (Z.leb_spec (k + 1) 0); try lia; try ring.
  - assert (k = 0%Z) as -> by lia. unfold sgn. simpl. ring.
  - rewrite sgn_succ. ring.
Qed.
Lemma sg_sqr k : sg k * sg k = 1.
Proof. unfold sg. destruct (k <? 0)%Z; ring. Qed.
Lemma sg_flip m : sg (- m - 1) = - sg m.
Proof. unfold sg. destruct (Z.ltb_spec m 0), (Z.ltb_spec (- m - 1) 0); lia || ring. Qed.
(** Relation (50) with the signs of the code. *)
Lemma Hd_50 a b n mp m : (- n <= mp <= n)%Z -> (- n <= m <= n)%Z ->
  dco n (m - 1) * Hd a b n mp (m - 1) - dco n m * Hd a b n mp (m + 1) =
  - dco n mp * Hd a b n (mp + 1) m + dco n (mp - 1) * Hd a b n (mp - 1) m.
Proof.
  intros Hp Hm. pose proof (dd_50 a b n mp m Hp Hm) as E. unfold dco, Hd.
  assert (A1 : eps (mp + 1) = - sg mp * eps mp) by apply eps_step.
  assert (A2 : eps (mp - 1) = - sg (mp - 1) * eps mp).
  { pose proof (eps_step (mp - 1)) as V. replace (mp - 1 + 1)%Z with mp in V by lia. rewrite V.
    transitivity ((sg (mp - 1) * sg (mp - 1)) * eps (mp - 1)); [rewrite sg_sqr|]; ring. }
  assert (A3 : eps (- (m - 1)) = sg (m - 1) * eps (- m)).
  { replace (- (m - 1))%Z with (- m + 1)%Z by lia. rewrite eps_step.
    replace (- m)%Z with (- (m - 1) - 1)%Z at 1 by lia. rewrite sg_flip. ring. }
  assert (A4 : eps (- (m + 1)) = sg m * eps (- m)).
  { pose proof (eps_step (- (m + 1))) as V. replace (- (m + 1) + 1)%Z with (- m)%Z in V by lia.
    rewrite V. replace (- (m + 1))%Z with (- m - 1)%Z by lia. rewrite sg_flip.
    transitivity ((sg m * sg m) * eps (- m - 1)); [rewrite sg_sqr|]; ring. }
  rewrite A1, A2, A3, A4.
  transitivity (eps mp * eps (- m) / 2 * ((sg (m - 1) * sg (m - 1)) * U n (m - 1) * dd a b n mp (m - 1)
     - (sg m * sg m) * U n m * dd a b n mp (m + 1))); [field|].
  transitivity (eps mp * eps (- m) / 2 * ((sg mp * sg mp) * U n mp * dd a b n (mp + 1) m
     - (sg (mp - 1) * sg (mp - 1)) * U n (mp - 1) * dd a b n (mp - 1) m)); [|field].
  rewrite !sg_sqr, !Rmult_1_l, E. reflexivity.
Qed.
Lemma dco_neq0 n m : (- n <= m < n)%Z -> dco n m <> 0.
Proof. intros H. unfold dco. pose proof (U_pos n m H). unfold sg. destruct (m <? 0)%Z; lra. Qed.
Lemma dco_top n : dco n n = 0.
Proof. unfold dco. rewrite U_top. ring. Qed.

(** Relation (41) with the coefficients of the code. *)
Definition aco (n m : Z) : R := sqrt (IZR ((n + 1 + m) * (n + 1 - m)) / IZR ((2 * n + 1) * (2 * n + 3))).
Definition bco (n m : Z) : R := sg m * sqrt (IZR ((n - m - 1) * (n - m)) / IZR ((2 * n - 1) * (2 * n + 1))).
Lemma bco_neq0 n : (1 <= n)%Z -> bco (n + 1) 0 <> 0.
Proof.
  intros H. unfold bco. change (sg 0) with 1.
  assert (0 < sqrt (IZR ((n + 1 - 0 - 1) * (n + 1 - 0)) / IZR ((2 * (n + 1) - 1) * (2 * (n + 1) + 1)))); [|lra].
  apply sqrt_lt_R0, Rdiv_lt_0_compat; apply IZR_lt, Z.mul_pos_pos; lia.
Qed.
Lemma Hd_41 a b n m : a * a + b * b = 1 -> (1 <= n)%Z -> (1 <= m <= n)%Z ->
  bco (n + 1) 0 * Hd a b n 1 m =
  1 / 2 * (bco (n + 1) (- m - 1) * (1 - (a * a - b * b)) * Hd a b (n + 1) 0 (m + 1)
           - bco (n + 1) (m - 1) * (1 + (a * a - b * b)) * Hd a b (n + 1) 0 (m - 1))
  - aco n m * (2 * (a * b)) * Hd a b (n + 1) 0 m.
Proof.
  intros HU Hn Hm. pose proof (dd_41 a b n m HU Hn ltac:(lia)) as E. unfold Hd, bco, aco.
  replace (eps 1) with (-1) by reflexivity. replace (eps 0) with 1 by reflexivity.
  assert (Ee : forall k, (0 <= k)%Z -> eps (- k) = 1) by (intros k Hk; unfold eps; destruct (Z.leb_spec (- k) 0); [auto|lia]).
  rewrite !Ee by lia.
  assert (S1 : sg (- m - 1) = -1) by (unfold sg; destruct (Z.ltb_spec (- m - 1) 0); [auto|lia]).
  assert (S3 : sg (m - 1) = 1) by (unfold sg; destruct (Z.ltb_spec (m - 1) 0); [lia|auto]).
  change (sg 0) with 1. rewrite S1, S3.
  replace ((2 * (n + 1) - 1) * (2 * (n + 1) + 1))%Z with ((2 * n + 1) * (2 * n + 3))%Z by ring.
  set (X := IZR ((2 * n + 1) * (2 * n + 3))) in *.
  assert (PX : 0 < X) by (apply IZR_lt, Z.mul_pos_pos; lia).
  rewrite !(sqrt_div_alt _ X) by auto.
  replace ((n + 1 - 0 - 1) * (n + 1 - 0))%Z with (n * (n + 1))%Z by ring.
  replace ((n + 1 - (- m - 1) - 1) * (n + 1 - (- m - 1)))%Z with ((n + m + 1) * (n + m + 2))%Z by ring.
  replace ((n + 1 - (m - 1) - 1) * (n + 1 - (m - 1)))%Z with ((n - m + 1) * (n - m + 2))%Z by ring.
  replace ((n + 1 + m) * (n + 1 - m))%Z with ((n + m + 1) * (n - m + 1))%Z by ring.
  assert (0 < sqrt X) by (apply sqrt_lt_R0; auto).
  replace (1 - (a * a - b * b)) with (2 * (b * b)) by (rewrite <- HU; ring).
  replace (1 + (a * a - b * b)) with (2 * (a * a)) by (rewrite <- HU; ring).
  transitivity (- (sqrt (IZR (n * (n + 1))) * dd a b n 1 m) / sqrt X); [field; lra|]. rewrite E. field. lra.
Qed.
Lemma Hd_row a b n m : (0 <= m <= n)%Z -> Hd a b n 0 m = dd a b n 0 m.
Proof.
  intros. unfold Hd. change (eps 0) with 1. unfold eps. destruct (Z.leb_spec (- m) 0); [ring|lia].
Qed.
Lemma Hd_000 a b : Hd a b 0 0 0 = 1.
Proof.
  unfold Hd, dd, S2. simpl. unfold eps. simpl. field. apply W_neq0.
Qed.
Lemma half_angle beta : let a := cos (beta / 2) in let b := sin (beta / 2) in
  a * a + b * b = 1 /\ a * a - b * b = cos beta /\ 2 * (a * b) = sin beta.
Proof.
  cbv zeta. split; [|split].
  - rewrite Rplus_comm. apply sin2_cos2.
  - rewrite <- cos_2a. f_equal. field.
  - transitivity (2 * sin (beta / 2) * cos (beta / 2)); [ring|]. rewrite <- sin_2a. f_equal. field.
Qed.
