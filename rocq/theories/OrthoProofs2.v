(** Orthogonality of the Wigner D functions over the unit quaternions, and the consequences for Modes objects. *)
Require Import ZArith Lia Reals Lra Bool List.
From Coquelicot Require Import Hierarchy Continuity Derive RInt RInt_analysis AutoDerive Complex.
From Verif Require Import Base BaseProofs CBase CSum RSum Fact SymPow DRep WignerSpec WignerProofs WignerProofs3 IndexModel WignerModel WignerCallModel RotorSpec
  SWSHModel SWSHProofs ThreeJSpec ThreeJ ThreeJ2 ThreeJ3 OrthoSpec OrthoProofs.
Open Scope R_scope.

(** ** Finite differences: [pdeg d c f] says that [f] is a polynomial of degree at most [d] whose [d]-th coefficient is [c]. *)
Fixpoint pdeg (d : nat) (c : R) (f : Z -> R) : Prop :=
  match d with
  | O => forall x, f x = c
  | S d' => pdeg d' (INR (S d') * c) (fun x => f (x + 1)%Z - f x)
  end.
Lemma pdeg_ext d : forall c f g, (forall x, f x = g x) -> pdeg d c f -> pdeg d c g.
Proof.
  induction d as [|d IH]; intros c f g H P; simpl in *; [intros; rewrite <- H; auto|].
  eapply IH; [|exact P]. intros. cbv beta. rewrite !H. reflexivity.
Qed.
Lemma pdeg_plus d : forall c e f g, pdeg d c f -> pdeg d e g -> pdeg d (c + e) (fun x => f x + g x).
Proof.
  induction d as [|d IH]; intros c e f g P Q; cbn [pdeg] in *; [intros; rewrite P, Q; reflexivity|].
  rewrite Rmult_plus_distr_l. eapply pdeg_ext; [|apply (IH _ _ _ _ P Q)]. intros. cbv beta. ring.
Qed.
Lemma pdeg_scal d k : forall c f, pdeg d c f -> pdeg d (k * c) (fun x => k * f x).
Proof.
  induction d as [|d IH]; intros c f P; cbn [pdeg] in *; [intros; rewrite P; reflexivity|].
  replace (INR (S d) * (k * c)) with (k * (INR (S d) * c)) by ring. eapply pdeg_ext; [|apply (IH _ _ P)]. intros. cbv beta. ring.
Qed.
Lemma pdeg_linear d : forall a c f, pdeg d c f -> pdeg (S d) c (fun x => (IZR x + a) * f x).
Proof.
  induction d as [|d IH]; intros a c f P.
  - simpl. intros x. simpl in P. rewrite !P, plus_IZR. simpl. ring.
  - cbn [pdeg] in P. change (pdeg (S d) (INR (S (S d)) * c) (fun x => (IZR (x + 1) + a) * f (x + 1)%Z - (IZR x + a) * f x)).
    pose proof (IH (a + 1) _ _ P) as Q. assert (P' : pdeg (S d) c f) by exact P.
    pose proof (pdeg_plus _ _ _ _ _ Q P') as T. rewrite (S_INR (S d)). replace ((INR (S d) + 1) * c) with (INR (S d) * c + c) by ring.
    eapply pdeg_ext; [|exact T]. intros. cbv beta. rewrite plus_IZR. ring.
Qed.

(** The alternating binomial sum of a polynomial. *)
Lemma alternating_poly p : forall d c f, pdeg d c f -> (d <= p)%nat ->
  rsum 0 (Z.of_nat p) (fun k => sgn k * bin (Z.of_nat p) k * f k) = if Nat.eqb d p then sgn (Z.of_nat p) * INR (fact p) * c else 0.
Proof.
  induction p as [|p IH]; intros d c f P Hd.
  - assert (d = O) by lia. subst. simpl in P |- *. change (Z.of_nat 0) with 0%Z. rewrite rsum_one, bin_0, sgn_0, P by lia. ring.
  - assert (E : rsum 0 (Z.of_nat (S p)) (fun k => sgn k * bin (Z.of_nat (S p)) k * f k)
      = - rsum 0 (Z.of_nat p) (fun k => sgn k * bin (Z.of_nat p) k * (f (k + 1)%Z - f k))).
    { replace (Z.of_nat (S p)) with (Z.of_nat p + 1)%Z by lia. set (n := Z.of_nat p). assert (Hn : (0 <= n)%Z) by (unfold n; lia).
      rewrite (rsum_ext 0 (n + 1) _ (fun k => sgn k * bin n (k - 1) * f k + sgn k * bin n k * f k)) by (intros; rewrite bin_pascal by auto; ring).
      rewrite rsum_plus. rewrite (rsum_last 0 (n + 1) (fun k => sgn k * bin n k * f k)) by lia. rewrite (bin_out n (n + 1)) by lia.
      rewrite (rsum_first 0 (n + 1) (fun k => sgn k * bin n (k - 1) * f k)) by lia. rewrite (bin_out n (0 - 1)) by lia.
      rewrite (rsum_shift 0 n 1). rewrite (rsum_shift 0 (n + 1 - 1) 1). change (0 + 1)%Z with 1%Z. replace (n + 1 - 1 + 1)%Z with (n + 1)%Z by lia.
      rewrite <- rsum_opp. rewrite !Rmult_0_r, !Rmult_0_l, Rplus_0_l, Rplus_0_r, <- rsum_plus. apply rsum_ext. intros k Hk. cbv beta.
      rewrite sgn_pred. replace (k - 1 + 1)%Z with k by lia. ring. }
    rewrite E. destruct d as [|d].
    + simpl in P. rewrite rsum_zero by (intros; rewrite !P; ring). simpl. ring.
    + cbn [pdeg] in P. rewrite (IH d _ _ P) by lia. change (Nat.eqb (S d) (S p)) with (Nat.eqb d p). destruct (Nat.eqb_spec d p) as [->|N]; [|ring].
      rewrite INR_fact_succ. replace (Z.of_nat (S p)) with (Z.of_nat p + 1)%Z by lia. rewrite sgn_succ. ring.
Qed.

(** Products of consecutive integers. *)
Fixpoint rf (x : Z) (n : nat) : R := match n with O => 1 | S n' => rf x n' * IZR (x + Z.of_nat n' + 1) end.
Lemma rf_fct x n : (0 <= x + Z.of_nat n)%Z -> rf x n = fct (x + Z.of_nat n) * ifct x.
Proof.
  induction n as [|n IH]; intros H.
  - simpl rf. change (Z.of_nat 0) with 0%Z in *. rewrite Z.add_0_r in *. rewrite fct_ifct by auto. reflexivity.
  - cbn [rf]. replace (x + Z.of_nat (S n))%Z with (x + Z.of_nat n + 1)%Z in * by lia.
    destruct (Z.eq_dec (x + Z.of_nat n + 1) 0) as [E|E].
    + rewrite E, (ifct_neg x) by lia. ring.
    + rewrite IH, fct_succ by lia. ring.
Qed.
Lemma pdeg_rf_up n u : forall d c f, pdeg d c f -> pdeg (n + d) c (fun k => rf (u + k) n * f k).
Proof.
  induction n as [|n IH]; intros d c f P; [eapply pdeg_ext; [|exact P]; intros; simpl; ring|].
  change (S n + d)%nat with (S (n + d)). eapply pdeg_ext; [|apply (pdeg_linear _ (IZR (u + Z.of_nat n + 1))), (IH _ _ _ P)].
  intros k. cbv beta. cbn [rf]. replace (u + k + Z.of_nat n + 1)%Z with (k + (u + Z.of_nat n + 1))%Z by lia. rewrite (plus_IZR k). ring.
Qed.
Lemma pdeg_rf_down n u : forall d c f, pdeg d c f -> pdeg (n + d) (sgn (Z.of_nat n) * c) (fun k => rf (u - k) n * f k).
Proof.
  induction n as [|n IH]; intros d c f P.
  { change (Z.of_nat 0) with 0%Z. rewrite sgn_0, Rmult_1_l. eapply pdeg_ext; [|exact P]. intros; simpl; ring. }
  change (S n + d)%nat with (S (n + d)). replace (Z.of_nat (S n)) with (Z.of_nat n + 1)%Z by lia. rewrite sgn_succ.
  replace (- sgn (Z.of_nat n) * c) with (-1 * (sgn (Z.of_nat n) * c)) by ring.
  eapply pdeg_ext; [|apply pdeg_scal, (pdeg_linear _ (- IZR (u + Z.of_nat n + 1))), (IH _ _ _ P)].
  intros k. cbv beta. cbn [rf]. replace (u - k + Z.of_nat n + 1)%Z with ((u + Z.of_nat n + 1) - k)%Z by lia. rewrite (minus_IZR _ k). ring.
Qed.

(** ** The theta integral of a product of two d functions *)
Definition dco (N p q r : Z) : R := sgn r * bin p r * bin (N - p) (N - q - r).
Lemma dco_out N p q r : (0 <= p <= N)%Z -> (r < Tlo p q \/ Thi N p q < r)%Z -> dco N p q r = 0.
Proof.
  intros Hp H. unfold dco, Tlo, Thi in *. destruct (Z_lt_ge_dec r 0); [rewrite (bin_out p) by lia; ring|].
  destruct (Z_lt_ge_dec p r); [rewrite (bin_out p) by lia; ring|]. rewrite (bin_out (N - p)) by lia. ring.
Qed.

Lemma inner_sum N p q n t s : (0 <= p - t)%Z -> (p <= N)%Z -> (0 <= t)%Z -> n = (N - 2 * t)%Z -> (0 <= q - t)%Z -> (q <= N)%Z -> (q - t <= n)%Z ->
  (Tlo (p - t) (q - t) <= s <= Thi n (p - t) (q - t))%Z ->
  rsum 0 p (fun r => dco N p q r * (fct (N - q - r + (p - t - s)) * fct (q - p + r + s)))
  = if (t =? 0)%Z then sgn s * fct p * fct (N - p) else 0.
Proof.
  intros H1 H2 Ht En H4 H5 H5' H6. unfold Tlo, Thi in H6.
  set (A := Z.to_nat (p - t - s)). set (B := Z.to_nat s).
  assert (P : pdeg (A + (B + 0)) (sgn (Z.of_nat A) * 1) (fun k => rf (N - q - k) A * (rf (q - p + k) B * 1)))
    by (apply pdeg_rf_down, pdeg_rf_up; simpl; auto).
  pose proof (alternating_poly (Z.to_nat p) _ _ _ P ltac:(lia)) as S. rewrite Z2Nat.id in S by lia.
  rewrite (rsum_ext _ _ _ (fun r => fct (N - p) * (sgn r * bin p r * (rf (N - q - r) A * (rf (q - p + r) B * 1))))).
  - rewrite rsum_scal, S. destruct (Z.eqb_spec t 0) as [->|Nt].
    + replace (Nat.eqb (A + (B + 0)) (Z.to_nat p)) with true by (symmetry; apply Nat.eqb_eq; lia).
      replace (Z.of_nat A) with (p - s)%Z by lia. rewrite sgn_sub. fold (fct p). pose proof (sgn_sqr p) as Q.
      transitivity (fct (N - p) * (sgn p * sgn p) * sgn s * fct p); [ring|]. rewrite Q. ring.
    + replace (Nat.eqb (A + (B + 0)) (Z.to_nat p)) with false by (symmetry; apply Nat.eqb_neq; lia). ring.
  - intros r Hr. rewrite !rf_fct by lia. replace (N - q - r + Z.of_nat A)%Z with (N - q - r + (p - t - s))%Z by lia.
    replace (q - p + r + Z.of_nat B)%Z with (q - p + r + s)%Z by lia. unfold dco. rewrite (bin_fct (N - p)) by lia.
    replace (N - p - (N - q - r))%Z with (q - p + r)%Z by lia. ring.
Qed.

Definition dre (N p q : Z) (b : R) : R :=
  sqrt (wt N q / wt N p) * rsum (Tlo p q) (Thi N p q) (fun r => dco N p q r
    * (cos (b / 2) ^ Z.to_nat (p + (N - q) - 2 * r) * sin (b / 2) ^ Z.to_nat (q - p + 2 * r))).
Lemma Dm_dre N p q b : (0 <= p <= N)%Z -> (0 <= q <= N)%Z -> Dm N p q (RtoC (cos (b / 2))) (RtoC (sin (b / 2))) = RtoC (dre N p q b).
Proof.
  intros Hp Hq. rewrite Dm_window by auto. unfold dre. rewrite RtoC_mult. f_equal. rewrite rsum_RtoC.
  apply csum_ext. intros r Hr. unfold Tlo, Thi in Hr. unfold Dterm, dco. rewrite !Cconj_RtoC, !Cpow_RtoC, <- !RtoC_mult. f_equal.
  replace (Z.to_nat (p + (N - q) - 2 * r)) with (Z.to_nat (p - r) + Z.to_nat (N - q - r))%nat by lia.
  replace (Z.to_nat (q - p + 2 * r)) with (Z.to_nat (r - p + q) + Z.to_nat r)%nat by lia. rewrite !pow_add. ring.
Qed.

Lemma theta_product N p q t b : (0 <= t)%Z -> (0 <= p - t)%Z -> (p - t <= N - 2 * t)%Z -> (0 <= q - t)%Z -> (q - t <= N - 2 * t)%Z ->
  dre N p q b * dre (N - 2 * t) (p - t) (q - t) b * sin b
  = sqrt (wt N q / wt N p) * sqrt (wt (N - 2 * t) (q - t) / wt (N - 2 * t) (p - t))
    * rsum (Tlo (p - t) (q - t)) (Thi (N - 2 * t) (p - t) (q - t)) (fun s => dco (N - 2 * t) (p - t) (q - t) s
      * rsum (Tlo p q) (Thi N p q) (fun r => dco N p q r * (bi (Z.to_nat (N - q - r + (p - t - s))) (Z.to_nat (q - p + r + s)) b * sin b))).
Proof.
  intros H0 H1 H2 H3 H4. unfold dre.
  set (w := sqrt _). set (w' := sqrt _).
  match goal with |- w * ?X * (w' * ?Y) * sin b = _ => transitivity (w * w' * (Y * (X * sin b))); [ring|] end. f_equal.
  rewrite <- rsum_scal_r. apply rsum_ext. intros s Hs. rewrite Rmult_assoc. f_equal. rewrite <- Rmult_assoc, <- rsum_scal, <- rsum_scal_r.
  apply rsum_ext. intros r Hr. unfold Tlo, Thi in Hs, Hr. unfold bi. rewrite <- !pow_mult.
  replace (2 * Z.to_nat (N - q - r + (p - t - s)))%nat with (Z.to_nat (p - t + (N - 2 * t - (q - t)) - 2 * s) + Z.to_nat (p + (N - q) - 2 * r))%nat by lia.
  replace (2 * Z.to_nat (q - p + r + s))%nat with (Z.to_nat (q - t - (p - t) + 2 * s) + Z.to_nat (q - p + 2 * r))%nat by lia.
  rewrite !pow_add. ring.
Qed.

Lemma RInt_scal' (c : R) f a b I : is_RInt f a b I -> is_RInt (fun x => c * f x) a b (c * I).
Proof. exact (is_RInt_scal f a b c I). Qed.

Lemma theta_ortho N p q t : (0 <= t)%Z -> (0 <= p - t)%Z -> (p - t <= N - 2 * t)%Z -> (0 <= q - t)%Z -> (q - t <= N - 2 * t)%Z ->
  is_RInt (fun b => dre N p q b * dre (N - 2 * t) (p - t) (q - t) b * sin b) 0 PI (if (t =? 0)%Z then 2 / IZR (N + 1) else 0).
Proof.
  intros H0 H1 H2 H3 H4.
  eapply is_RInt_ext; [intros b _; symmetry; apply theta_product; auto|].
  eapply RInt_eq.
  - apply RInt_scal'. apply (RInt_rsum _ _ (fun s b => dco (N - 2 * t) (p - t) (q - t) s
      * rsum (Tlo p q) (Thi N p q) (fun r => dco N p q r * (bi (Z.to_nat (N - q - r + (p - t - s))) (Z.to_nat (q - p + r + s)) b * sin b)))
      (fun s => dco (N - 2 * t) (p - t) (q - t) s * (2 / fct (N - t + 1)
      * rsum (Tlo p q) (Thi N p q) (fun r => dco N p q r * (fct (N - q - r + (p - t - s)) * fct (q - p + r + s)))))).
    intros s Hs. apply RInt_scal'. rewrite <- rsum_scal.
    apply (RInt_rsum _ _ (fun r b => dco N p q r * (bi (Z.to_nat (N - q - r + (p - t - s))) (Z.to_nat (q - p + r + s)) b * sin b))).
    intros r Hr. unfold Tlo, Thi in Hs, Hr. eapply RInt_eq; [apply RInt_scal', RInt_bi|].
    replace (S (Z.to_nat (N - q - r + (p - t - s)) + Z.to_nat (q - p + r + s))) with (Z.to_nat (N - t + 1)) by lia. fold (fct (N - t + 1)).
    fold (fct (N - q - r + (p - t - s))) (fct (q - p + r + s)). field. apply fct_neq0.
  - rewrite (rsum_ext _ _ _ (fun s => (if (t =? 0)%Z then 2 / fct (N - t + 1) * fct p * fct (N - p) else 0) * (dco (N - 2 * t) (p - t) (q - t) s * sgn s))).
    + rewrite rsum_scal. destruct (Z.eqb_spec t 0) as [->|Nt]; [|ring]. replace (N - 2 * 0)%Z with N by lia. rewrite !Z.sub_0_r.
      rewrite sqrt_sqrt.
      2:{ apply Rlt_le, Rmult_lt_0_compat; [apply wt_pos|apply Rinv_0_lt_compat, wt_pos]. }
      rewrite (rsum_widen (Tlo p q) (Thi N p q) 0 p) by (unfold Tlo, Thi; try lia; intros i Hi Ho; rewrite dco_out by (unfold Tlo, Thi; lia); ring).
      rewrite (rsum_ext 0 p _ (fun i => bin p i * bin (N - p) (N - q - i))).
      2:{ intros i Hi. unfold dco. transitivity (sgn i * sgn i * (bin p i * bin (N - p) (N - q - i))); [ring|]. rewrite sgn_sqr. ring. }
      rewrite vandermonde by lia. replace (p + (N - p))%Z with N by lia. rewrite bin_fct, !ifct_inv by lia. replace (N - (N - q))%Z with q by lia.
      unfold wt. rewrite fct_succ by lia.
      pose proof (fct_neq0 p). pose proof (fct_neq0 (N - p)). pose proof (fct_neq0 q). pose proof (fct_neq0 (N - q)). pose proof (fct_neq0 N).
      assert (IZR (N + 1) <> 0) by (apply (IZR_neq _ 0); lia). field. tauto.
    + intros s Hs. rewrite (rsum_widen (Tlo p q) (Thi N p q) 0 p) by (unfold Tlo, Thi; try lia; intros i Hi Ho; rewrite dco_out by (unfold Tlo, Thi; lia); ring).
      rewrite (inner_sum N p q (N - 2 * t) t s) by (auto; lia). destruct (t =? 0)%Z; ring.
Qed.

(** ** The integral over the group *)
Lemma CInt_cis_half m : is_CInt (fun g => cis (IZR m * (g / 2))) 0 (4 * PI) (if (m =? 0)%Z then RtoC (4 * PI) else RtoC 0).
Proof.
  destruct (Z.eqb_spec m 0) as [->|Hm].
  - eapply CInt_ext; [|apply (CInt_RtoC (fun _ => 1))].
    + intros. cbv beta. rewrite Rmult_0_l, cis_0. reflexivity.
    + eapply RInt_eq; [apply RInt_const'|ring].
  - assert (Hm' : IZR m <> 0) by (intro E; apply eq_IZR in E; auto).
    pose proof (cis_2PI m) as P. unfold cis in P. injection P as Pc Ps.
    split; cbn [Re Im fst snd cis RtoC].
    + apply (RInt_deriv (fun phi => 2 * sin (IZR m * (phi / 2)) / IZR m)).
      * intros x. auto_derive; auto. change (x * / 2) with (x / 2). field; auto.
      * intros x. apply (ex_derive_continuous (fun x => cos (IZR m * (x / 2)))). auto_derive. auto.
      * replace (4 * PI / 2) with (2 * PI) by field. replace (0 / 2) with 0 by field. rewrite Ps, (Rmult_0_r (IZR m)), sin_0. field; auto.
    + apply (RInt_deriv (fun phi => - 2 * cos (IZR m * (phi / 2)) / IZR m)).
      * intros x. auto_derive; auto. change (x * / 2) with (x / 2). field; auto.
      * intros x. apply (ex_derive_continuous (fun x => sin (IZR m * (x / 2)))). auto_derive. auto.
      * replace (4 * PI / 2) with (2 * PI) by field. replace (0 / 2) with 0 by field. rewrite Pc, (Rmult_0_r (IZR m)), cos_0. field; auto.
Qed.

Lemma euler_a alpha beta gamma : qa (from_euler_angles alpha beta gamma) = (RtoC (cos (beta / 2)) * cis ((alpha + gamma) / 2))%C.
Proof. unfold qa, from_euler_angles, cis. apply C_eq; simpl; ring. Qed.
Lemma euler_b alpha beta gamma : qb (from_euler_angles alpha beta gamma) = (RtoC (sin (beta / 2)) * cis ((gamma - alpha) / 2))%C.
Proof.
  unfold qb, from_euler_angles, cis. replace ((gamma - alpha) / 2) with (- ((alpha - gamma) / 2)) by field. rewrite cos_neg, sin_neg. apply C_eq; simpl; ring.
Qed.
Lemma D_function_factor N p q alpha beta gamma : (0 <= p <= N)%Z -> (0 <= q <= N)%Z ->
  D_function N (2 * p - N) (2 * q - N) alpha beta gamma
  = (RtoC (dre N p q beta) * cis (IZR (2 * p - N) * (alpha / 2)) * cis (IZR (2 * q - N) * (gamma / 2)))%C.
Proof.
  intros Hp Hq. unfold D_function. rewrite Wigner_formula_Dm by auto. rewrite euler_a, euler_b, Dm_phase, Dm_dre by auto.
  rewrite <- Cmult_assoc, <- cis_add. do 2 f_equal. rewrite !minus_IZR, !plus_IZR, !mult_IZR. field.
Qed.

Lemma D_ortho_pq N p q N' p' q' : (0 <= p <= N)%Z -> (0 <= q <= N)%Z -> (0 <= p' <= N')%Z -> (0 <= q' <= N')%Z ->
  group_integral (fun alpha beta gamma => D_function N (2 * p - N) (2 * q - N) alpha beta gamma * Cconj (D_function N' (2 * p' - N') (2 * q' - N') alpha beta gamma))%C
    (if ((N =? N') && (p =? p') && (q =? q'))%Z then RtoC (16 * PI ^ 2 / IZR (N + 1)) else RtoC 0).
Proof.
  intros Hp Hq Hp' Hq'. set (A := ((2 * p - N) - (2 * p' - N'))%Z). set (B := ((2 * q - N) - (2 * q' - N'))%Z).
  exists (fun alpha beta => RtoC (dre N p q beta * dre N' p' q' beta) * cis (IZR A * (alpha / 2)) * (if (B =? 0)%Z then RtoC (4 * PI) else RtoC 0))%C. split.
  { intros alpha beta. eapply CInt_ext; [|apply CInt_scal, CInt_cis_half]. intros gamma _. cbv beta.
    rewrite !D_function_factor by auto. rewrite !Cconj_mult, Cconj_RtoC, <- !cis_neg, RtoC_mult.
    replace (IZR A * (alpha / 2)) with (IZR (2 * p - N) * (alpha / 2) + - (IZR (2 * p' - N') * (alpha / 2))) by (unfold A; rewrite (minus_IZR (2 * p - N)); ring).
    replace (IZR B * (gamma / 2)) with (IZR (2 * q - N) * (gamma / 2) + - (IZR (2 * q' - N') * (gamma / 2))) by (unfold B; rewrite (minus_IZR (2 * q - N)); ring).
    rewrite !cis_add. ring. }
  destruct (Z.eqb_spec B 0) as [EB|NB].
  2:{ replace ((N =? N') && (p =? p') && (q =? q'))%Z with false.
      - eapply SInt_ext; [|apply SInt_0]. intros. cbv beta. ring.
      - symmetry. destruct (Z.eqb_spec N N'), (Z.eqb_spec p p'), (Z.eqb_spec q q'); auto. exfalso. apply NB. unfold B. subst. lia. }
  assert (EA : exists A', A = (2 * A')%Z).
  { exists (p - p' - (q - q'))%Z. unfold A, B in *. lia. }
  destruct EA as (A' & EA). rewrite EA.
  exists (fun beta => RtoC (dre N p q beta * dre N' p' q' beta) * RtoC (4 * PI) * (if (A' =? 0)%Z then RtoC (2 * PI) else RtoC 0))%C. split.
  { intros beta. eapply CInt_ext; [|apply CInt_scal, (CInt_cis A')]. intros alpha _. cbv beta. 
    replace (IZR (2 * A') * (alpha / 2)) with (IZR A' * alpha) by (rewrite mult_IZR; field). ring. }
  destruct (Z.eqb_spec A' 0) as [EA'|NA].
  2:{ replace ((N =? N') && (p =? p') && (q =? q'))%Z with false.
      - eapply CInt_ext; [|apply CInt_0]. intros. cbv beta. ring.
      - symmetry. destruct (Z.eqb_spec N N'), (Z.eqb_spec p p'), (Z.eqb_spec q q'); auto. exfalso. apply NA. unfold A in *. subst. lia. }
  assert (T : is_RInt (fun b => dre N p q b * dre N' p' q' b * sin b) 0 PI (if (p - p' =? 0)%Z then 2 / IZR (N + 1) else 0)).
  { destruct (Z_le_gt_dec 0 (p - p')) as [L|G].
    - pose proof (theta_ortho N p q (p - p')) as T. replace (N - 2 * (p - p'))%Z with N' in T by (unfold A, B in *; lia).
      replace (p - (p - p'))%Z with p' in T by lia. replace (q - (p - p'))%Z with q' in T by (unfold A, B in *; lia). apply T; lia.
    - pose proof (theta_ortho N' p' q' (p' - p)) as T. replace (N' - 2 * (p' - p))%Z with N in T by (unfold A, B in *; lia).
      replace (p' - (p' - p))%Z with p in T by lia. replace (q' - (p' - p))%Z with q in T by (unfold A, B in *; lia).
      replace (p - p' =? 0)%Z with false by (symmetry; apply Z.eqb_neq; lia). replace (p' - p =? 0)%Z with false in T by (symmetry; apply Z.eqb_neq; lia).
      eapply is_RInt_ext; [|apply T; lia]. intros. cbv beta. match goal with |- ?x = ?y => change (@eq R x y) end. ring. }
  apply CInt_RtoC in T. apply (CInt_scal (RtoC (4 * PI * (2 * PI)))) in T. eapply CInt_eq; [|eapply CInt_ext; [|exact T]].
  - destruct (Z.eqb_spec (p - p') 0) as [E|E].
    + replace ((N =? N') && (p =? p') && (q =? q'))%Z with true.
      * rewrite <- RtoC_mult. f_equal. field. apply (IZR_neq _ 0). lia.
      * symmetry. rewrite !andb_true_iff, !Z.eqb_eq. unfold A, B in *. lia.
    + replace (p =? p')%Z with false by (symmetry; apply Z.eqb_neq; lia). rewrite andb_false_r. cbn [andb]. ring.
  - intros b _. cbv beta. rewrite !RtoC_mult. ring.
Qed.
