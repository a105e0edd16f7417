(** Orthonormality of the spin-weighted harmonics over the sphere, and of the D functions over the group. *)
Require Import ZArith Lia Reals Lra Bool List.
From Coquelicot Require Import Hierarchy Continuity Derive RInt RInt_analysis AutoDerive Complex.
From Verif Require Import Base BaseProofs CBase CSum RSum Fact SymPow DRep WignerSpec WignerProofs WignerProofs3 IndexModel WignerModel WignerCallModel RotorSpec
  SWSHModel SWSHProofs ThreeJSpec ThreeJ ThreeJ2 ThreeJ3 CGSeries ModesModel ModesSpec ModesProofs3 MultSpec OrthoSpec.
Open Scope R_scope.

(** ** Complex integrals *)
Lemma RInt_eq (f : R -> R) a b (I J : R) : is_RInt f a b I -> I = J -> is_RInt f a b J.
Proof. intros H <-. exact H. Qed.
Lemma RInt_const' a b (c : R) : is_RInt (fun _ => c) a b ((b - a) * c).
Proof. exact (is_RInt_const a b c). Qed.
Lemma RInt_deriv (f df : R -> R) a b J : (forall x, is_derive f x (df x)) -> (forall x, continuous df x) -> f b - f a = J -> is_RInt df a b J.
Proof. intros D K <-. apply (is_RInt_derive f df); auto. Qed.
Lemma CInt_ext F G a b I : (forall t, Rmin a b <= t <= Rmax a b -> F t = G t) -> is_CInt F a b I -> is_CInt G a b I.
Proof.
  intros H (A & B). split; [eapply is_RInt_ext; [|exact A]|eapply is_RInt_ext; [|exact B]]; intros t Ht; cbv beta; rewrite H by lra; reflexivity.
Qed.
Lemma CInt_plus F G a b I J : is_CInt F a b I -> is_CInt G a b J -> is_CInt (fun t => F t + G t)%C a b (I + J)%C.
Proof. intros (A & B) (A' & B'). split; [exact (is_RInt_plus _ _ _ _ _ _ A A')|exact (is_RInt_plus _ _ _ _ _ _ B B')]. Qed.
Lemma CInt_scal c F a b I : is_CInt F a b I -> is_CInt (fun t => c * F t)%C a b (c * I)%C.
Proof.
  intros (A & B). split.
  - exact (is_RInt_minus _ _ _ _ _ _ (is_RInt_scal _ _ _ (Re c) _ A) (is_RInt_scal _ _ _ (Im c) _ B)).
  - exact (is_RInt_plus _ _ _ _ _ _ (is_RInt_scal _ _ _ (Re c) _ B) (is_RInt_scal _ _ _ (Im c) _ A)).
Qed.
Lemma CInt_0 a b : is_CInt (fun _ => RtoC 0) a b (RtoC 0).
Proof.
  assert (H : is_RInt (fun _ : R => 0) a b 0) by (eapply RInt_eq; [apply RInt_const'|ring]).
  split; exact H.
Qed.
Lemma CInt_eq F a b I J : I = J -> is_CInt F a b I -> is_CInt F a b J.
Proof. intros ->. auto. Qed.
Lemma CInt_unique F a b I J : is_CInt F a b I -> is_CInt F a b J -> I = J.
Proof.
  intros (A & B) (A' & B'). apply C_eq.
  - rewrite <- (is_RInt_unique _ _ _ _ A). apply is_RInt_unique. exact A'.
  - rewrite <- (is_RInt_unique _ _ _ _ B). apply is_RInt_unique. exact B'.
Qed.
Lemma CInt_RtoC f a b I : is_RInt f a b I -> is_CInt (fun t => RtoC (f t)) a b (RtoC I).
Proof. intros H. split; [exact H|exact (proj1 (CInt_0 a b))]. Qed.

(** ** Integrals over the sphere *)
Lemma SInt_ext F G I : (forall theta phi, F theta phi = G theta phi) -> sphere_integral F I -> sphere_integral G I.
Proof. intros H (g & A & B). exists g. split; auto. intros theta. eapply CInt_ext; [|apply A]. auto. Qed.
Lemma SInt_plus F G I J : sphere_integral F I -> sphere_integral G J -> sphere_integral (fun theta phi => F theta phi + G theta phi)%C (I + J)%C.
Proof.
  intros (f & A & B) (g & A' & B'). exists (fun t => f t + g t)%C. split; [intros; apply CInt_plus; auto|].
  eapply CInt_ext; [|apply CInt_plus; [exact B|exact B']]. intros. cbv beta. ring.
Qed.
Lemma SInt_scal c F I : sphere_integral F I -> sphere_integral (fun theta phi => c * F theta phi)%C (c * I)%C.
Proof.
  intros (f & A & B). exists (fun t => c * f t)%C. split; [intros; apply CInt_scal; auto|].
  eapply CInt_ext; [|apply (CInt_scal c); exact B]. intros. cbv beta. ring.
Qed.
Lemma SInt_0 : sphere_integral (fun _ _ => RtoC 0) (RtoC 0).
Proof.
  exists (fun _ => RtoC 0). split; [intros; apply CInt_0|]. eapply CInt_ext; [|apply CInt_0]. intros. cbv beta. ring.
Qed.
Lemma SInt_eq F I J : I = J -> sphere_integral F I -> sphere_integral F J.
Proof. intros ->. auto. Qed.
Lemma SInt_unique F I J : sphere_integral F I -> sphere_integral F J -> I = J.
Proof.
  intros (f & A & B) (g & A' & B'). apply (CInt_unique _ _ _ _ _ B). eapply CInt_ext; [|exact B'].
  intros t _. cbv beta. rewrite (CInt_unique _ _ _ _ _ (A t) (A' t)). reflexivity.
Qed.
Lemma SInt_csum a b F I : (forall i, (a <= i <= b)%Z -> sphere_integral (F i) (I i)) ->
  sphere_integral (fun theta phi => csum a b (fun i => F i theta phi)) (csum a b I).
Proof.
  revert b. refine (csum_ind (fun b => (forall i, (a <= i <= b)%Z -> sphere_integral (F i) (I i)) ->
    sphere_integral (fun theta phi => csum a b (fun i => F i theta phi)) (csum a b I)) a _ _).
  - intros b Hb H. eapply SInt_ext; [|rewrite csum_empty by auto; apply SInt_0]. intros. cbv beta. rewrite csum_empty by auto. reflexivity.
  - intros b Hb IH H. rewrite csum_last by auto.
    eapply SInt_ext; [|apply SInt_plus; [apply IH; intros; apply H; lia|apply (H b); lia]].
    intros. cbv beta. rewrite (csum_last a b) by auto. reflexivity.
Qed.

(** ** The integral over phi *)
Lemma cis_2PI m : cis (IZR m * (2 * PI)) = RtoC 1.
Proof.
  rewrite cis_powz. replace (cis (2 * PI)) with (RtoC 1).
  - unfold Cpowz. destruct m; rewrite ?Cpow_1; try reflexivity. apply C_eq; simpl; field.
  - unfold cis. rewrite cos_2PI, sin_2PI. reflexivity.
Qed.
Lemma CInt_cis m : is_CInt (fun phi => cis (IZR m * phi)) 0 (2 * PI) (if (m =? 0)%Z then RtoC (2 * PI) else RtoC 0).
Proof.
  destruct (Z.eqb_spec m 0) as [->|Hm].
  - eapply CInt_ext; [|apply (CInt_RtoC (fun _ => 1))].
    + intros. cbv beta. rewrite Rmult_0_l, cis_0. reflexivity.
    + eapply RInt_eq; [apply RInt_const'|ring].
  - assert (Hm' : IZR m <> 0) by (intro E; apply eq_IZR in E; auto).
    pose proof (cis_2PI m) as P. unfold cis in P. injection P as Pc Ps.
    split; cbn [Re Im fst snd cis RtoC].
    + apply (RInt_deriv (fun phi => sin (IZR m * phi) / IZR m)).
      * intros x. auto_derive; auto. field; auto.
      * intros x. apply (ex_derive_continuous (fun x => cos (IZR m * x))). auto_derive. auto.
      * rewrite Ps, Rmult_0_r, sin_0. field; auto.
    + apply (RInt_deriv (fun phi => - cos (IZR m * phi) / IZR m)).
      * intros x. auto_derive; auto. field; auto.
      * intros x. apply (ex_derive_continuous (fun x => sin (IZR m * x))). auto_derive. auto.
      * rewrite Pc, Rmult_0_r, cos_0. field; auto.
Qed.

(** ** The integral over theta *)
Lemma half_sin t : sin t = 2 * (sin (t / 2) * cos (t / 2)).
Proof. replace t with (2 * (t / 2)) at 1 by field. rewrite sin_2a. ring. Qed.
Definition bi (p k : nat) (t : R) : R := (cos (t / 2) ^ 2) ^ p * (sin (t / 2) ^ 2) ^ k.
Lemma bi_derive p k t : is_derive (bi (S p) (S k)) t (/ 2 * sin t * (INR (S k) * bi (S p) k t - INR (S p) * bi p (S k) t)).
Proof.
  unfold bi. rewrite half_sin. auto_derive; auto. cbn [Init.Nat.pred]. change (t * / 2) with (t / 2). set (c := cos (t / 2)). set (s := sin (t / 2)).
  change (match p with 0%nat => 1 | S _ => INR p + 1 end) with (INR (S p)). change (match k with 0%nat => 1 | S _ => INR k + 1 end) with (INR (S k)).
  generalize (INR (S p)) (INR (S k)). intros. cbn [pow]. field.
Qed.
Lemma bi_cont p k t : continuous (fun t => bi p k t * sin t) t.
Proof. apply (ex_derive_continuous (fun t => bi p k t * sin t)). unfold bi. auto_derive. auto. Qed.
Lemma bi_0 p k : bi p (S k) 0 = 0.
Proof. unfold bi. replace (0 / 2) with 0 by field. rewrite sin_0. cbn [pow]. ring. Qed.
Lemma bi_PI p k : bi (S p) k PI = 0.
Proof. unfold bi. rewrite cos_PI2. cbn [pow]. ring. Qed.
Lemma INR_fact_succ n : INR (fact (S n)) = INR (S n) * INR (fact n).
Proof. rewrite fact_simpl, mult_INR. reflexivity. Qed.
Lemma RInt_bi k : forall p, is_RInt (fun t => bi p k t * sin t) 0 PI (2 * INR (fact p) * INR (fact k) / INR (fact (S (p + k)))).
Proof.
  induction k as [|k IH]; intros p.
  - apply (RInt_deriv (fun t => - 2 / INR (S p) * bi (S p) 0 t)); [|apply bi_cont|].
    + intros t. unfold bi. auto_derive; auto. rewrite (half_sin t). cbn [Init.Nat.pred]. change (t * / 2) with (t / 2).
      change (match p with 0%nat => 1 | S _ => INR p + 1 end) with (INR (S p)). assert (Hp : INR (S p) <> 0) by (apply not_0_INR; lia). generalize dependent (INR (S p)). intros. cbn [pow]. field. auto.
    + rewrite bi_PI. unfold bi. replace (0 / 2) with 0 by field. rewrite cos_0. rewrite !pow1. rewrite Nat.add_0_r.
      rewrite INR_fact_succ. simpl (fact 0). simpl (INR 1). simpl ((_ ^ 0)%R). field. split; [apply INR_fact_neq_0|apply not_0_INR; lia].
  - assert (Hp : INR (S p) <> 0) by (apply not_0_INR; lia).
    assert (B : is_RInt (fun t => / 2 * sin t * (INR (S k) * bi (S p) k t - INR (S p) * bi p (S k) t)) 0 PI 0).
    { apply (RInt_deriv (bi (S p) (S k))); [apply bi_derive| |rewrite bi_PI, bi_0; ring].
      intros t. apply (ex_derive_continuous (fun t => / 2 * sin t * (INR (S k) * bi (S p) k t - INR (S p) * bi p (S k) t))). unfold bi. auto_derive. auto. }
    pose proof (is_RInt_scal _ _ _ (INR (S k) / INR (S p)) _ (IH (S p))) as A.
    pose proof (is_RInt_scal _ _ _ (- 2 / INR (S p)) _ B) as B'.
    pose proof (is_RInt_plus _ _ _ _ _ _ A B') as P.
    eapply is_RInt_ext; [|eapply RInt_eq; [exact P|]].
    + intros t _. unfold scal, plus; simpl; unfold mult; simpl. fold (INR (S p)) (INR (S k)). field. auto.
    + change (INR (S k) / INR (S p) * (2 * INR (fact (S p)) * INR (fact k) / INR (fact (S (S p + k)))) + - 2 / INR (S p) * 0
        = 2 * INR (fact p) * INR (fact (S k)) / INR (fact (S (p + S k)))).
      replace (S (S p + k)) with (S (p + S k)) by lia. rewrite (INR_fact_succ p), (INR_fact_succ k).
      pose proof (INR_fact_neq_0 (S (p + S k))) as N. generalize dependent (INR (fact (S (p + S k)))). intros. field. auto.
Qed.

Lemma RInt_rsum a b (F : Z -> R -> R) (I : Z -> R) x y : (forall i, (a <= i <= b)%Z -> is_RInt (F i) x y (I i)) ->
  is_RInt (fun t => rsum a b (fun i => F i t)) x y (rsum a b I).
Proof.
  revert b. refine (rsum_ind (fun b => (forall i, (a <= i <= b)%Z -> is_RInt (F i) x y (I i)) ->
    is_RInt (fun t => rsum a b (fun i => F i t)) x y (rsum a b I)) a _ _).
  - intros b Hb _. rewrite rsum_empty by auto. eapply is_RInt_ext; [|exact (proj1 (CInt_0 x y))]. intros. cbv beta. rewrite rsum_empty by auto. reflexivity.
  - intros b Hb IH H. rewrite rsum_last by auto.
    eapply is_RInt_ext; [|exact (is_RInt_plus _ _ _ _ _ _ (IH ltac:(intros; apply H; lia)) (H b ltac:(lia)))].
    intros. cbv beta. rewrite (rsum_last a b) by auto. reflexivity.
Qed.

Lemma alternating l : (0 <= l)%Z -> rsum 0 l (fun k => sgn k * bin l k) = if (l =? 0)%Z then 1 else 0.
Proof.
  intros H. destruct (Z.eqb_spec l 0) as [->|N]; [rewrite rsum_one, sgn_0, bin_0 by lia; ring|].
  set (f := fun k => sgn (k - 1) * bin (l - 1) (k - 1)).
  rewrite (rsum_ext _ _ _ (fun k => f (k + 1)%Z - f k)).
  - rewrite rsum_telescope by lia. unfold f. rewrite (bin_out (l - 1) (l + 1 - 1)), (bin_out (l - 1) (0 - 1)) by lia. ring.
  - intros k Hk. unfold f. replace (k + 1 - 1)%Z with k by lia. replace (bin l k) with (bin (l - 1 + 1) k) by (f_equal; lia). rewrite bin_pascal, sgn_pred by lia. ring.
Qed.

Lemma zonal l : (0 <= l)%Z ->
  is_RInt (fun t => rsum 0 l (fun k => sgn k * bin l k * bin l k * bi (Z.to_nat (l - k)) (Z.to_nat k) t) * sin t) 0 PI
    (if (l =? 0)%Z then 2 else 0).
Proof.
  intros Hl. eapply is_RInt_ext with (f := fun t => rsum 0 l (fun k => sgn k * bin l k * bin l k * (bi (Z.to_nat (l - k)) (Z.to_nat k) t * sin t))).
  { intros t _. rewrite <- rsum_scal_r. apply rsum_ext. intros. ring. }
  eapply RInt_eq; [apply (RInt_rsum 0 l (fun k t => sgn k * bin l k * bin l k * (bi (Z.to_nat (l - k)) (Z.to_nat k) t * sin t))
     (fun k => 2 * fct l / fct (l + 1) * (sgn k * bin l k)))|].
  - intros k Hk. eapply RInt_eq; [exact (is_RInt_scal _ _ _ (sgn k * bin l k * bin l k) _ (RInt_bi (Z.to_nat k) (Z.to_nat (l - k))))|].
    change (sgn k * bin l k * bin l k * (2 * fct (l - k) * fct k / INR (fact (S (Z.to_nat (l - k) + Z.to_nat k)))) = 2 * fct l / fct (l + 1) * (sgn k * bin l k)).
    replace (INR (fact (S (Z.to_nat (l - k) + Z.to_nat k)))) with (fct (l + 1)) by (unfold fct; do 2 f_equal; lia).
    rewrite (bin_fct l k) at 2 by auto. rewrite !ifct_inv by lia. field. split; [apply fct_neq0|split; [apply fct_neq0|apply fct_neq0]].
  - rewrite rsum_scal, alternating by auto. destruct (Z.eqb_spec l 0) as [->|N]; [|ring]. rewrite fct_0. change (0 + 1)%Z with 1%Z. rewrite fct_1. field.
Qed.

(** ** Phases *)
Lemma Dm_phase N p q ra rb al be : (0 <= p <= N)%Z -> (0 <= q <= N)%Z ->
  Dm N p q (RtoC ra * cis al)%C (RtoC rb * cis be)%C =
  (Dm N p q (RtoC ra) (RtoC rb) * cis (al * IZR (p + q - N) + be * IZR (q - p)))%C.
Proof.
  intros Hp Hq. rewrite !Dm_window by auto. rewrite <- Cmult_assoc. f_equal. rewrite <- csum_scal_r.
  apply csum_ext. intros i Hi. unfold Tlo, Thi in Hi. rewrite Dterm_polar by lia.
  assert (X : Dterm N p q (RtoC ra) (RtoC rb) i = Dterm N p q (RtoC ra * cis 0)%C (RtoC rb * cis 0)%C i)
    by (rewrite cis_0, !Cmult_1_r; reflexivity).
  rewrite X, Dterm_polar by lia. rewrite !Rmult_0_l, Rplus_0_l, cis_0. ring.
Qed.

Lemma Dm_zonal l t : (0 <= l)%Z ->
  Dm (2 * l) l l (RtoC (cos (t / 2))) (RtoC (sin (t / 2)))
  = RtoC (rsum 0 l (fun k => sgn k * bin l k * bin l k * bi (Z.to_nat (l - k)) (Z.to_nat k) t)).
Proof.
  intros Hl. rewrite (Dm_sum _ _ _ _ _ 0 l) by lia. replace (2 * l - l)%Z with l by lia.
  replace (fct l * fct l / (fct l * fct l)) with 1 by (field; apply fct_neq0). rewrite sqrt_1, Cmult_1_l.
  rewrite rsum_RtoC. apply csum_ext. intros k Hk. unfold Dterm. replace (2 * l - l)%Z with l by lia.
  rewrite !Cconj_RtoC, !Cpow_RtoC. replace (k - l + l)%Z with k by lia. rewrite <- (bin_sym l k) by auto.
  unfold bi. rewrite <- !pow_mult, !(Nat.mul_comm 2), !pow_mult, <- !RtoC_mult. f_equal.
  cbn [pow]. ring.
Qed.

Lemma direction_a theta phi : qa (direction_rotor theta phi) = (RtoC (cos (theta / 2)) * cis (phi / 2))%C.
Proof. unfold qa, direction_rotor, cis. apply C_eq; simpl; ring. Qed.
Lemma direction_b theta phi : qb (direction_rotor theta phi) = (RtoC (sin (theta / 2)) * cis (- (phi / 2)))%C.
Proof. unfold qb, direction_rotor, cis. rewrite cos_neg, sin_neg. apply C_eq; simpl; ring. Qed.
Lemma direction_unit theta phi : (qa (direction_rotor theta phi) * Cconj (qa (direction_rotor theta phi))
  + qb (direction_rotor theta phi) * Cconj (qb (direction_rotor theta phi)))%C = RtoC 1.
Proof.
  rewrite direction_a, direction_b, !Cconj_mult, !Cconj_RtoC.
  pose proof (cis_mod (phi / 2)) as A. pose proof (cis_mod (- (phi / 2))) as B.
  transitivity (RtoC (cos (theta / 2)) * RtoC (cos (theta / 2)) * (cis (phi / 2) * Cconj (cis (phi / 2)))
    + RtoC (sin (theta / 2)) * RtoC (sin (theta / 2)) * (cis (- (phi / 2)) * Cconj (cis (- (phi / 2)))))%C; [ring|].
  rewrite A, B. rewrite !Cmult_1_r, <- !RtoC_mult, <- RtoC_plus. f_equal. pose proof (sin2_cos2 (theta / 2)) as X. unfold Rsqr in X. lra.
Qed.

Lemma harmonic_phase s l m theta phi : harmonic s l m theta phi = (harmonic s l m theta 0 * cis (IZR m * phi))%C.
Proof.
  unfold harmonic. destruct (Z_le_gt_dec (Z.abs m) l), (Z_le_gt_dec (Z.abs s) l).
  2,3,4: unfold SWSH_value; replace ((Z.abs m <=? l)%Z && (Z.abs s <=? l)%Z) with false
    by (symmetry; apply andb_false_iff; (left; apply Z.leb_gt; lia) || (right; apply Z.leb_gt; lia)); ring.
  rewrite !SWSH_value_in by lia. unfold Dv. rewrite !direction_a, !direction_b, !Dm_phase by lia.
  rewrite <- !Cmult_assoc. do 3 f_equal. rewrite <- cis_add. f_equal.
  rewrite !minus_IZR, !plus_IZR, !mult_IZR. field.
Qed.

(** The mean of a harmonic of spin weight 0. *)
Lemma mean_harmonic L M : (0 <= L)%Z -> sphere_integral (harmonic 0 L M) (if ((L =? 0) && (M =? 0))%Z then RtoC (sqrt (4 * PI)) else RtoC 0).
Proof.
  intros HL. exists (fun theta => harmonic 0 L M theta 0 * (if (M =? 0)%Z then RtoC (2 * PI) else RtoC 0))%C. split.
  - intros theta. eapply CInt_ext; [|apply CInt_scal, CInt_cis]. intros phi _. cbv beta. symmetry. apply harmonic_phase.
  - destruct (Z.eqb_spec M 0) as [->|N].
    + rewrite andb_true_r. pose proof (zonal L HL) as Z. apply CInt_RtoC in Z.
      apply (CInt_scal (RtoC (swsh_norm L * (2 * PI)))) in Z. eapply CInt_eq; [|eapply CInt_ext; [|exact Z]].
      * destruct (Z.eqb_spec L 0) as [->|N]; [|ring]. rewrite <- RtoC_mult. f_equal. unfold swsh_norm.
        change (IZR (2 * 0 + 1)) with 1. pose proof PI4_pos. rewrite sqrt_div, sqrt_1 by lra.
        pose proof (sqrt_sqrt (4 * PI) ltac:(lra)) as S. pose proof (sqrt_lt_R0 (4 * PI) ltac:(lra)).
        apply (Rmult_eq_reg_r (sqrt (4 * PI))); [|lra]. rewrite S. field. lra.
      * intros t _. cbv beta. unfold harmonic. rewrite SWSH_value_in by lia. unfold Dv. rewrite direction_a, direction_b, Dm_phase by lia.
        replace (0 / 2)%R with 0 by field. rewrite Ropp_0, !Rmult_0_l, Rplus_0_l, cis_0. change (- 0)%Z with 0%Z. rewrite Z.add_0_r, Dm_zonal by auto.
        rewrite sgn_0, !RtoC_mult. ring.
    + rewrite andb_false_r. eapply CInt_ext; [|apply CInt_0]. intros. cbv beta. ring.
Qed.

(** ** Orthonormality *)
Lemma threej_0 l m : (Z.abs m <= l)%Z -> threej l l 0 m (- m) 0 = sgn (l - m) / sqrt (IZR (2 * l + 1)).
Proof.
  intros H. rewrite threej_cyc. pose proof (GG_top l 0 (- m) 0 ltac:(lia) ltac:(lia)) as T. unfold GG in T.
  replace (l + 0)%Z with l in T by lia. replace (- - m - 0)%Z with m in T by lia. rewrite T.
  replace (l - 0 + - m + 0)%Z with (l - m)%Z by lia. unfold Rdiv. rewrite Rmult_assoc. f_equal.
  unfold cc2, tri2, PP. replace (l + 0 - l)%Z with 0%Z by lia. replace (l - 0 + l)%Z with (2 * l)%Z by lia. replace (- l + 0 + l)%Z with 0%Z by lia.
  replace (l + 0 + l + 1)%Z with (2 * l + 1)%Z by lia. replace (- - m - 0)%Z with m by lia.
  replace (l + - m)%Z with (l - m)%Z by lia. replace (l - - m)%Z with (l + m)%Z by lia. change (0 + 0)%Z with 0%Z. change (0 - 0)%Z with 0%Z.
  rewrite !ifct_inv, fct_0, (fct_succ (2 * l)) by lia.
  assert (P : 0 < IZR (2 * l + 1)) by (apply (IZR_lt 0); lia).
  pose proof (fct_pos (l - m)) as F1. pose proof (fct_pos (l + m)) as F2. pose proof (fct_pos (2 * l)) as F3.
  replace (1 * fct (2 * l) * 1 / (IZR (2 * l + 1) * fct (2 * l)) * (fct (l - m) * fct (l + m) * 1 * 1 * fct (l + m) * fct (l - m)))
    with ((fct (l - m) * fct (l + m)) * (fct (l - m) * fct (l + m)) / IZR (2 * l + 1)) by (field; lra).
  rewrite sqrt_div, sqrt_square by nra. pose proof (sqrt_lt_R0 _ P). field. lra.
Qed.

Lemma coeff_mean s l m : (Z.abs s <= l)%Z -> (Z.abs m <= l)%Z ->
  product_coeff s (- s) l m l (- m) 0 * sqrt (4 * PI) = sgn (s + m).
Proof.
  intros Hs Hm. unfold product_coeff. replace (s + - s)%Z with 0%Z by lia. replace (m + - m)%Z with 0%Z by lia. change (- 0)%Z with 0%Z.
  rewrite !threej_0 by auto. replace (l + l + 0 + 0 + 0)%Z with (2 * l)%Z by lia. rewrite sgn_double.
  assert (P : 0 < IZR (2 * l + 1)) by (apply (IZR_lt 0); lia). pose proof PI4_pos.
  change (IZR (2 * 0 + 1)) with 1. rewrite Rmult_1_r, sqrt_div, sqrt_square by nra.
  pose proof (sqrt_lt_R0 _ P). pose proof (sqrt_lt_R0 (4 * PI) ltac:(lra)). pose proof (sqrt_sqrt (IZR (2 * l + 1)) ltac:(lra)) as S.
  rewrite <- S at 1. transitivity (sgn (l - s) * sgn (l - m)); [field; lra|].
  rewrite <- sgn_add. replace (l - s + (l - m))%Z with (2 * l - (s + m))%Z by lia. rewrite sgn_sub, sgn_double. ring.
Qed.

Theorem orthonormal s l m l' m' : (Z.abs s <= l)%Z -> (Z.abs m <= l)%Z -> (Z.abs s <= l')%Z -> (Z.abs m' <= l')%Z ->
  sphere_integral (fun theta phi => harmonic s l m theta phi * Cconj (harmonic s l' m' theta phi))%C
    (if ((l =? l') && (m =? m'))%Z then RtoC 1 else RtoC 0).
Proof.
  intros Hs Hm Hs' Hm'.
  apply (SInt_ext (fun theta phi => csum 0 (l + l') (fun L => RtoC (sgn (s + m') * product_coeff s (- s) l m l' (- m') L) * harmonic 0 L (m - m') theta phi))%C).
  { intros theta phi. unfold harmonic. rewrite SWSH_value_conj.
    set (a := qa _). set (b := qb _).
    transitivity (RtoC (sgn (s + m')) * (SWSH_value s l m a b * SWSH_value (- s) l' (- m') a b))%C; [|ring].
    rewrite (SWSH_product _ _ _ _ _ _ _ _ (direction_unit theta phi)) by lia. rewrite <- csum_scal. apply csum_ext. intros L HL.
    replace (s + - s)%Z with 0%Z by lia. replace (m + - m')%Z with (m - m')%Z by lia. rewrite RtoC_mult. fold a b. ring. }
  eapply SInt_eq; [|apply SInt_csum; intros L HL; apply SInt_scal, mean_harmonic; lia].
  rewrite (csum_delta 0 (l + l') 0) by (try lia; intros L HL N; replace (L =? 0)%Z with false by (symmetry; apply Z.eqb_neq; lia); cbn [andb]; ring).
  change (0 =? 0)%Z with true. cbn [andb]. replace (m - m' =? 0)%Z with (m =? m')%Z by (destruct (Z.eqb_spec m m'), (Z.eqb_spec (m - m') 0); lia).
  destruct (Z.eqb_spec l l') as [<-|Nl].
  - cbn [andb]. destruct (Z.eqb_spec m m') as [<-|Nm]; [|ring]. rewrite <- RtoC_mult, Rmult_assoc, coeff_mean, sgn_sqr by auto. reflexivity.
  - rewrite coeff_out by lia. cbn [andb]. rewrite Rmult_0_r. ring.
Qed.
