(** Complex numbers: facts about Coquelicot's [C] that the models use, and the models of the
    numeric primitives of Python's [cmath] / numpy that the code calls. *)
Require Import ZArith Lia Reals Lra Bool.
From Coquelicot Require Import Complex.
Open Scope R_scope.

(** ** A ring/field structure that knows integer constants *)

Definition CofZ (z : Z) : C := RtoC (IZR z).

Lemma CofZ_morph :
  ring_morph (RtoC 0) (RtoC 1) Cplus Cmult Cminus Copp (@eq C)
    0%Z 1%Z Z.add Z.mul Z.sub Z.opp Z.eqb CofZ.
Proof.
  constructor; unfold CofZ; intros; auto.
  - now rewrite plus_IZR, RtoC_plus.
  - now rewrite minus_IZR, RtoC_minus.
  - now rewrite mult_IZR, RtoC_mult.
  - now rewrite opp_IZR, RtoC_opp.
  - apply Z.eqb_eq in H; now subst.
Qed.

Ltac CofZ_cst t :=
  match t with
  | RtoC (IZR ?z) => match isZcst z with true => z | _ => constr:(InitialRing.NotConstant) end
  | CofZ ?z => match isZcst z with true => z | _ => constr:(InitialRing.NotConstant) end
  | _ => constr:(InitialRing.NotConstant)
  end.

Add Field C_field_Z : C_field_theory (morphism CofZ_morph, constants [CofZ_cst]).

Lemma C_eq (x y : C) : Re x = Re y -> Im x = Im y -> x = y.
Proof. destruct x, y; simpl; congruence. Qed.

Lemma C1_neq_C0 : RtoC 1 <> RtoC 0.
Proof. intro H; apply RtoC_inj in H; lra. Qed.

#[global] Hint Resolve C1_neq_C0 : core.
Ltac cfield := field; repeat split; auto.

Lemma RtoC_neq0 (x : R) : x <> 0 -> RtoC x <> RtoC 0.
Proof. intros H E; apply H; now apply RtoC_inj. Qed.

Lemma Cmult_integral (x y : C) : (x * y)%C = RtoC 0 -> x = RtoC 0 \/ y = RtoC 0.
Proof.
  intros H. destruct (Ceq_dec x (RtoC 0)); auto. right.
  replace y with (/ x * (x * y))%C by (field; auto). rewrite H; ring.
Qed.

Lemma Cmult_neq0 (x y : C) : x <> RtoC 0 -> y <> RtoC 0 -> (x * y)%C <> RtoC 0.
Proof. intros A B E; apply Cmult_integral in E; tauto. Qed.

Lemma Ci2 : (Ci * Ci)%C = (- RtoC 1)%C.
Proof. apply C_eq; simpl; ring. Qed.

Lemma RtoC_re_im (z : C) : z = (RtoC (Re z) + Ci * RtoC (Im z))%C.
Proof. destruct z; apply C_eq; simpl; ring. Qed.


(** ** Conjugation *)
Lemma Cconj_plus a b : Cconj (a + b)%C = (Cconj a + Cconj b)%C.
Proof. destruct a, b; apply C_eq; simpl; ring. Qed.
Lemma Cconj_minus a b : Cconj (a - b)%C = (Cconj a - Cconj b)%C.
Proof. destruct a, b; apply C_eq; simpl; ring. Qed.
Lemma Cconj_mult a b : Cconj (a * b)%C = (Cconj a * Cconj b)%C.
Proof. destruct a, b; apply C_eq; simpl; ring. Qed.
Lemma Cconj_opp a : Cconj (- a)%C = (- Cconj a)%C.
Proof. destruct a; apply C_eq; simpl; ring. Qed.
Lemma Cconj_RtoC x : Cconj (RtoC x) = RtoC x.
Proof. apply C_eq; simpl; ring. Qed.
Lemma Cconj_conj a : Cconj (Cconj a) = a.
Proof. destruct a; apply C_eq; simpl; ring. Qed.
Lemma Cconj_inv a : Cconj (/ a)%C = (/ Cconj a)%C.
Proof.
  destruct a as [x y]; apply C_eq; unfold Cinv, Cconj; simpl;
    (replace (x * (x * 1) + - y * (- y * 1)) with (x * (x * 1) + y * (y * 1)) by ring); auto.
  unfold Rdiv. ring.
Qed.
Lemma Cconj_Ci : Cconj Ci = (- Ci)%C.
Proof. apply C_eq; simpl; ring. Qed.
Lemma Cmod_sqr z : Cmod z * Cmod z = Re z * Re z + Im z * Im z.
Proof. unfold Cmod. rewrite sqrt_sqrt; destruct z; simpl; [ring|nra]. Qed.
Lemma Cconj_mod z : (z * Cconj z)%C = RtoC (Cmod z * Cmod z).
Proof. rewrite Cmod_sqr. destruct z; apply C_eq; simpl; ring. Qed.
Lemma Cconj_neq0 z : z <> RtoC 0 -> Cconj z <> RtoC 0.
Proof.
  intros H E. apply H. rewrite <- (Cconj_conj z), E, Cconj_RtoC. auto.
Qed.
Lemma Cmod_conj z : Cmod (Cconj z) = Cmod z.
Proof. unfold Cmod; destruct z; simpl; f_equal; ring. Qed.
Lemma Cmod_neq0 z : Cmod z <> 0 -> z <> RtoC 0.
Proof. intros H ->. apply H. rewrite Cmod_R, Rabs_R0; auto. Qed.
Lemma neq0_Cmod z : z <> RtoC 0 -> 0 < Cmod z.
Proof. apply Cmod_gt_0. Qed.
Lemma Cmod_0_iff z : Cmod z = 0 <-> z = RtoC 0.
Proof. split; [apply Cmod_eq_0|intros ->; apply Cmod_0]. Qed.

(** ** Powers *)
Fixpoint Cpow (z : C) (n : nat) : C :=
  match n with O => RtoC 1 | S n => (z * Cpow z n)%C end.

Lemma Cpow_add z m n : Cpow z (m + n) = (Cpow z m * Cpow z n)%C.
Proof. induction m; simpl; [|rewrite IHm]; ring. Qed.
Lemma Cpow_mul a b n : Cpow (a * b)%C n = (Cpow a n * Cpow b n)%C.
Proof. induction n; simpl; [|rewrite IHn]; ring. Qed.
Lemma Cpow_conj a n : Cconj (Cpow a n) = Cpow (Cconj a) n.
Proof. induction n; simpl; [|rewrite Cconj_mult, IHn]; auto. apply Cconj_RtoC. Qed.
Lemma Cpow_RtoC x n : Cpow (RtoC x) n = RtoC (x ^ n).
Proof. induction n; simpl; [|rewrite IHn, RtoC_mult]; auto. Qed.
Lemma Cpow_neq0 z n : z <> RtoC 0 -> Cpow z n <> RtoC 0.
Proof. intros H; induction n; simpl; [apply C1_neq_C0|apply Cmult_neq0; auto]. Qed.
Lemma Cpow_1 n : Cpow (RtoC 1) n = RtoC 1.
Proof. induction n; simpl; [|rewrite IHn]; auto; ring. Qed.

(** Integer powers, Python's [z ** k]; [0 ** k] for negative [k] raises in Python and is unspecified here. *)
Definition Cpowz (z : C) (k : Z) : C :=
  match k with
  | Z0 => RtoC 1
  | Zpos p => Cpow z (Pos.to_nat p)
  | Zneg p => (/ Cpow z (Pos.to_nat p))%C
  end.

Lemma Cpowz_nat z k : (0 <= k)%Z -> Cpowz z k = Cpow z (Z.to_nat k).
Proof. destruct k; simpl; auto; try lia. Qed.
Lemma Cpowz_0 z : Cpowz z 0 = RtoC 1.
Proof. reflexivity. Qed.
Lemma Cpowz_1 z : Cpowz z 1 = z.
Proof. simpl. ring. Qed.
Lemma Cinv_inv z : z <> RtoC 0 -> (/ / z)%C = z.
Proof. intros; cfield. Qed.
Lemma Cinv_neq0 z : z <> RtoC 0 -> (/ z)%C <> RtoC 0.
Proof.
  intros H E. apply C1_neq_C0. rewrite <- (Cinv_r z H), E. ring.
Qed.
Lemma Cpowz_neq0 z k : z <> RtoC 0 -> Cpowz z k <> RtoC 0.
Proof.
  intros; destruct k; simpl; [apply C1_neq_C0|apply Cpow_neq0; auto|].
  apply Cinv_neq0, Cpow_neq0; auto.
Qed.
Lemma Cpowz_opp z k : z <> RtoC 0 -> Cpowz z (- k) = (/ Cpowz z k)%C.
Proof.
  intros; destruct k; simpl; auto.
  - field. apply C1_neq_C0.
  - rewrite Cinv_inv; auto. apply Cpow_neq0; auto.
Qed.
Lemma Cpowz_succ z k : z <> RtoC 0 -> Cpowz z (k + 1) = (Cpowz z k * z)%C.
Proof.
  intros H. destruct (Z_le_gt_dec 0 k) as [Hk|Hk].
  - rewrite !Cpowz_nat by lia. rewrite Z2Nat.inj_add by lia.
    rewrite Cpow_add. simpl (Cpow z (Z.to_nat 1)). ring.
  - replace k with (- (- k))%Z by lia. set (j := (- k)%Z). assert (0 < j)%Z by lia.
    replace (- j + 1)%Z with (- (j - 1))%Z by lia.
    rewrite !Cpowz_opp by auto. rewrite !Cpowz_nat by lia.
    replace (Z.to_nat j) with (S (Z.to_nat (j - 1))) by lia. simpl.
    field. split; auto using Cpow_neq0.
Qed.
Lemma Cpowz_add z j k : z <> RtoC 0 -> Cpowz z (j + k) = (Cpowz z j * Cpowz z k)%C.
Proof.
  intros H. revert k. apply Z.bi_induction.
  - intros ? ? ->; tauto.
  - rewrite Z.add_0_r, Cpowz_0; ring.
  - intros k. unfold Z.succ. rewrite Z.add_assoc, !Cpowz_succ by auto. split; intros E.
    + rewrite E; ring.
    + apply (f_equal (fun x => x * / z)%C) in E.
      replace (Cpowz z (j + k)) with (Cpowz z (j + k) * z * / z)%C by (field; auto).
      rewrite E. field; auto.
Qed.
Lemma Cpowz_mul a b k : a <> RtoC 0 -> b <> RtoC 0 -> Cpowz (a * b)%C k = (Cpowz a k * Cpowz b k)%C.
Proof.
  intros; destruct k; simpl; [ring|apply Cpow_mul|rewrite Cpow_mul].
  field; split; apply Cpow_neq0; auto.
Qed.
Lemma Cpowz_conj a k : Cconj (Cpowz a k) = Cpowz (Cconj a) k.
Proof.
  destruct k; simpl; [apply Cconj_RtoC|apply Cpow_conj|rewrite Cconj_inv, Cpow_conj; auto].
Qed.
Lemma Cpowz_RtoC x k : x <> 0 -> Cpowz (RtoC x) k = RtoC (powerRZ x k).
Proof.
  intros; destruct k; simpl; auto; rewrite Cpow_RtoC; auto.
  rewrite RtoC_inv; auto. apply pow_nonzero; auto.
Qed.

(** ** Phases *)
Definition cis (t : R) : C := (cos t, sin t).

Lemma cis_add a b : cis (a + b) = (cis a * cis b)%C.
Proof. unfold cis. rewrite cos_plus, sin_plus. apply C_eq; simpl; ring. Qed.
Lemma cis_0 : cis 0 = RtoC 1.
Proof. unfold cis. rewrite cos_0, sin_0. reflexivity. Qed.
Lemma cis_neg a : cis (- a) = Cconj (cis a).
Proof. unfold cis. rewrite cos_neg, sin_neg. reflexivity. Qed.
Lemma cis_mod a : (cis a * Cconj (cis a))%C = RtoC 1.
Proof. rewrite <- cis_neg, <- cis_add. replace (a + - a) with 0 by ring. apply cis_0. Qed.
Lemma cis_neq0 a : cis a <> RtoC 0.
Proof. intro E. pose proof (cis_mod a) as H. rewrite E in H. apply C1_neq_C0. rewrite <- H. ring. Qed.
Lemma cis_PI : cis PI = (- RtoC 1)%C.
Proof. unfold cis. rewrite cos_PI, sin_PI. apply C_eq; simpl; ring. Qed.
Lemma cis_pow a n : cis (INR n * a) = Cpow (cis a) n.
Proof.
  induction n.
  - simpl. rewrite Rmult_0_l. apply cis_0.
  - rewrite S_INR. replace ((INR n + 1) * a) with (a + INR n * a) by ring.
    rewrite cis_add, IHn. reflexivity.
Qed.
Lemma cis_powz a k : cis (IZR k * a) = Cpowz (cis a) k.
Proof.
  destruct k; simpl.
  - rewrite Rmult_0_l; apply cis_0.
  - rewrite <- cis_pow, INR_IZR_INZ, positive_nat_Z. auto.
  - rewrite <- cis_pow, INR_IZR_INZ, positive_nat_Z.
    change (Z.neg p) with (- Z.pos p)%Z. rewrite opp_IZR.
    replace (- IZR (Z.pos p) * a) with (- (IZR (Z.pos p) * a)) by ring.
    rewrite cis_neg. set (t := IZR (Z.pos p) * a).
    pose proof (cis_mod t) as H. pose proof (cis_neq0 t).
    replace (Cconj (cis t)) with (/ cis t * (cis t * Cconj (cis t)))%C by (field; auto).
    rewrite H. ring.
Qed.
Lemma Cmod_cis a : Cmod (cis a) = 1.
Proof. unfold Cmod, cis; simpl. replace (_ + _) with 1; [apply sqrt_1|].
  pose proof (sin2_cos2 a). unfold Rsqr in H. lra. Qed.

(** [math.atan2]. *)
Definition atan2 (y x : R) : R :=
  if Rlt_dec 0 x then atan (y / x)
  else if Rlt_dec x 0 then (if Rle_dec 0 y then atan (y / x) + PI else atan (y / x) - PI)
  else if Rlt_dec 0 y then PI / 2
  else if Rlt_dec y 0 then - (PI / 2) else 0.

(** [cmath.polar] returns [(abs z, phase z)]. *)
Definition phase (z : C) : R := atan2 (Im z) (Re z).
(** [cmath.rect]. *)
Definition crect (r phi : R) : C := (r * cos phi, r * sin phi).

Lemma crect_cis r t : crect r t = (RtoC r * cis t)%C.
Proof. apply C_eq; simpl; ring. Qed.

Lemma cos_sin_atan_pos x y : 0 < x ->
  let r := sqrt (x ^ 2 + y ^ 2) in
  r * cos (atan (y / x)) = x /\ r * sin (atan (y / x)) = y.
Proof.
  intros Hx r.
  assert (Hr : r = x * sqrt (1 + (y / x) ^ 2)).
  { unfold r. rewrite <- (sqrt_pow2 x) at 2 by lra. rewrite <- sqrt_mult; try nra.
    f_equal. field. lra. }
  assert (Hs : 0 < sqrt (1 + (y / x) ^ 2)).
  { apply sqrt_lt_R0. pose proof (pow2_ge_0 (y / x)); lra. }
  rewrite cos_atan, sin_atan. unfold Rsqr.
  replace (1 + y / x * (y / x)) with (1 + (y / x) ^ 2) by ring.
  rewrite Hr. split; field; lra.
Qed.

Lemma atan2_spec x y :
  let r := sqrt (x ^ 2 + y ^ 2) in
  r * cos (atan2 y x) = x /\ r * sin (atan2 y x) = y.
Proof.
  intros r. unfold atan2.
  destruct (Rlt_dec 0 x) as [Hx|Hx]; [apply cos_sin_atan_pos; auto|].
  destruct (Rlt_dec x 0) as [Hx'|Hx'].
  - pose proof (cos_sin_atan_pos (- x) (- y) ltac:(lra)) as H. cbv zeta in H.
    replace ((- x) ^ 2 + (- y) ^ 2) with (x ^ 2 + y ^ 2) in H by ring. fold r in H.
    replace (- y / - x) with (y / x) in H by (field; lra). destruct H as [H1 H2].
    destruct (Rle_dec 0 y).
    + rewrite neg_cos, neg_sin. lra.
    + replace (atan (y / x) - PI) with (- (PI - atan (y / x))) by ring.
      rewrite cos_neg, sin_neg, Rtrigo_facts.cos_pi_minus, Rtrigo_facts.sin_pi_minus. lra.
  - assert (x = 0) by lra. subst x. unfold r.
    destruct (Rlt_dec 0 y).
    + rewrite cos_PI2, sin_PI2. replace (0 ^ 2 + y ^ 2) with (y ^ 2) by ring.
      rewrite sqrt_pow2; lra.
    + destruct (Rlt_dec y 0).
      * rewrite cos_neg, sin_neg, cos_PI2, sin_PI2. replace (0 ^ 2 + y ^ 2) with ((- y) ^ 2) by ring.
        rewrite sqrt_pow2; lra.
      * assert (y = 0) by lra. subst y. replace (0 ^ 2 + 0 ^ 2) with 0 by ring. rewrite sqrt_0. lra.
Qed.

Lemma polar_spec z : (RtoC (Cmod z) * cis (phase z))%C = z.
Proof.
  destruct z as [x y]. unfold phase. simpl.
  pose proof (atan2_spec x y) as [H1 H2].
  rewrite <- crect_cis. apply C_eq; simpl; unfold Cmod; simpl fst; simpl snd; auto.
Qed.

(** The principal square root, [numpy.sqrt] on complex input. *)
Definition Csqrt (z : C) : C :=
  (sqrt ((Cmod z + Re z) / 2),
   if Rle_dec 0 (Im z) then sqrt ((Cmod z - Re z) / 2) else - sqrt ((Cmod z - Re z) / 2)).

Lemma Re_le_Cmod z : Rabs (Re z) <= Cmod z.
Proof. pose proof (Rmax_Cmod z). pose proof (Rmax_l (Rabs (fst z)) (Rabs (snd z))). unfold Re. lra. Qed.

Lemma Csqrt_sqr z : (Csqrt z * Csqrt z)%C = z.
Proof.
  pose proof (Re_le_Cmod z) as HR. pose proof (Cmod_sqr z) as HC.
  assert (H1 : 0 <= (Cmod z + Re z) / 2) by (unfold Rabs in HR; destruct Rcase_abs; lra).
  assert (H2 : 0 <= (Cmod z - Re z) / 2) by (unfold Rabs in HR; destruct Rcase_abs; lra).
  unfold Csqrt.
  set (p := (Cmod z + Re z) / 2) in *. set (q := (Cmod z - Re z) / 2) in *.
  assert (PQ : sqrt p * sqrt q = Rabs (Im z) / 2).
  { rewrite <- sqrt_mult by auto.
    replace (p * q) with ((Rabs (Im z) / 2) ^ 2).
    - apply sqrt_pow2. pose proof (Rabs_pos (Im z)); lra.
    - pose proof (Rsqr_abs (Im z)) as S. unfold Rsqr in S. unfold p, q. nra. }
  pose proof (sqrt_sqrt p H1) as Sp. pose proof (sqrt_sqrt q H2) as Sq.
  destruct z as [x y]. simpl in *.
  destruct (Rle_dec 0 y) as [Hy|Hy]; apply C_eq; simpl.
  - rewrite Sp, Sq. unfold p, q; field.
  - rewrite Rabs_right in PQ by lra. lra.
  - replace (- sqrt q * - sqrt q) with (sqrt q * sqrt q) by ring. rewrite Sp, Sq. unfold p, q; field.
  - rewrite Rabs_left in PQ by lra. lra.
Qed.
