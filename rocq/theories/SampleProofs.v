(** Values on a grid of at least (L + 2) x (2 L + 1) points determine the modes up to L. *)
Require Import ZArith Lia Reals Lra Bool List.
From Coquelicot Require Import Hierarchy RInt Complex.
From Verif Require Import Base BaseProofs CBase CSum RSum Fact SymPow DRep WignerSpec WignerModel WignerProofs WignerProofs2 WignerProofs3 WignerCallModel IndexModel RotorSpec WignerProps
  SWSHModel SWSHProofs ModesModel ModesSpec ModesProofs3 OrthoSpec OrthoProofs OrthoProofs2 OrthoProps.
Open Scope C_scope.

(** ** Homogeneous polynomials of degree n in two real variables *)
Fixpoint hom (n : nat) (P : R -> R -> C) : Prop :=
  match n with
  | O => exists c, forall x y, P x y = c
  | S n' => exists Q T, hom n' Q /\ hom n' T /\ forall x y, P x y = RtoC x * Q x y + RtoC y * T x y
  end.
Lemma hom_ext n P Q : (forall x y, P x y = Q x y) -> hom n P -> hom n Q.
Proof.
  intros H. destruct n; simpl.
  - intros (c & E). exists c. intros. rewrite <- H. auto.
  - intros (A & B & HA & HB & E). exists A, B. split; [auto|split; [auto|]]. intros. rewrite <- H. auto.
Qed.
Lemma hom_0 n : hom n (fun _ _ => RtoC 0).
Proof.
  induction n; simpl; [exists (RtoC 0); auto|]. exists (fun _ _ => RtoC 0), (fun _ _ => RtoC 0). split; [auto|split; [auto|]]. intros. ring.
Qed.
Lemma hom_plus n : forall P Q, hom n P -> hom n Q -> hom n (fun x y => P x y + Q x y).
Proof.
  induction n as [|n IH]; simpl; intros P Q.
  - intros (c & E) (d & F). exists (c + d). intros. rewrite E, F. reflexivity.
  - intros (A & B & HA & HB & E) (A' & B' & HA' & HB' & E'). exists (fun x y => A x y + A' x y), (fun x y => B x y + B' x y).
    split; [apply IH; auto|split; [apply IH; auto|]]. intros. rewrite E, E'. ring.
Qed.
Lemma hom_scal n c : forall P, hom n P -> hom n (fun x y => c * P x y).
Proof.
  induction n as [|n IH]; simpl; intros P.
  - intros (d & E). exists (c * d). intros. rewrite E. reflexivity.
  - intros (A & B & HA & HB & E). exists (fun x y => c * A x y), (fun x y => c * B x y). split; [apply IH; auto|split; [apply IH; auto|]].
    intros. rewrite E. ring.
Qed.
Lemma hom_linear n a b P : hom n P -> hom (S n) (fun x y => (RtoC x * a + RtoC y * b) * P x y).
Proof.
  intros H. simpl. exists (fun x y => a * P x y), (fun x y => b * P x y). split; [apply hom_scal; auto|split; [apply hom_scal; auto|]]. intros. ring.
Qed.
Lemma hom_csum n lo hi (F : Z -> R -> R -> C) : (forall i, (lo <= i <= hi)%Z -> hom n (F i)) -> hom n (fun x y => csum lo hi (fun i => F i x y)).
Proof.
  revert hi. refine (csum_ind (fun hi => (forall i, (lo <= i <= hi)%Z -> hom n (F i)) -> hom n (fun x y => csum lo hi (fun i => F i x y))) lo _ _).
  - intros hi Hh _. eapply hom_ext; [|apply hom_0]. intros. cbv beta. rewrite csum_empty by auto. reflexivity.
  - intros hi Hh IH H. eapply hom_ext; [|apply hom_plus; [apply IH; intros; apply H; lia|apply (H hi); lia]].
    intros. cbv beta. rewrite (csum_last lo hi) by auto. reflexivity.
Qed.
Lemma hom_mono a b : hom (a + b) (fun x y => RtoC (x ^ a * y ^ b)).
Proof.
  induction a as [|a IH].
  - induction b as [|b IH]; [simpl; exists (RtoC 1); intros; f_equal; ring|].
    eapply hom_ext; [|apply (hom_linear b (RtoC 0) (RtoC 1)), IH]. intros. cbv beta. rewrite !RtoC_mult. change (y ^ S b)%R with (y * y ^ b)%R. rewrite RtoC_mult. ring.
  - eapply hom_ext; [|apply (hom_linear (a + b) (RtoC 1) (RtoC 0)), IH]. intros. cbv beta. change (x ^ S a)%R with (x * x ^ a)%R. rewrite !RtoC_mult. ring.
Qed.
(** Multiplication by x^2 + y^2. *)
Lemma hom_lift n k : forall P, hom n P -> hom (k + (k + n)) (fun x y => RtoC ((x * x + y * y) ^ k) * P x y).
Proof.
  induction k as [|k IH]; intros P H; [eapply hom_ext; [|exact H]; intros; cbv beta; simpl; ring|].
  replace (S k + (S k + n))%nat with (S (S (k + (k + n)))) by lia.
  pose proof (IH P H) as Q. set (T := fun x y => RtoC ((x * x + y * y) ^ k) * P x y) in Q.
  pose proof (hom_linear _ (RtoC 1) (RtoC 0) _ (hom_linear _ (RtoC 1) (RtoC 0) _ Q)) as A.
  pose proof (hom_linear _ (RtoC 0) (RtoC 1) _ (hom_linear _ (RtoC 0) (RtoC 1) _ Q)) as B.
  eapply hom_ext; [|apply (hom_plus _ _ _ A B)]. intros. cbv beta. unfold T.
  change ((x * x + y * y) ^ S k)%R with ((x * x + y * y) * (x * x + y * y) ^ k)%R. rewrite RtoC_mult, RtoC_plus, !RtoC_mult. ring.
Qed.

(** Division by the linear form that vanishes at a point of the unit circle. *)
Lemma hom_v n x0 y0 : hom n (fun x y => RtoC ((x * x0 + y * y0) ^ n)).
Proof.
  induction n as [|n IH]; [simpl; exists (RtoC 1); auto|].
  eapply hom_ext; [|apply (hom_linear n (RtoC x0) (RtoC y0)), IH]. intros. cbv beta.
  change ((x * x0 + y * y0) ^ S n)%R with ((x * x0 + y * y0) * (x * x0 + y * y0) ^ n)%R. rewrite RtoC_mult, RtoC_plus, !RtoC_mult. ring.
Qed.
Lemma hom_div n x0 y0 : (x0 * x0 + y0 * y0 = 1)%R -> forall P, hom (S n) P ->
  exists Q, hom n Q /\ forall x y, P x y = P x0 y0 * RtoC ((x * x0 + y * y0) ^ S n) + RtoC (x * y0 - y * x0) * Q x y.
Proof.
  intros U. induction n as [|n IH]; intros P (A & B & HA & HB & E).
  - destruct HA as (a & Ea), HB as (b & Eb). exists (fun _ _ => RtoC y0 * a - RtoC x0 * b). split; [simpl; eauto|].
    intros x y. rewrite !E, !Ea, !Eb. rewrite pow_1.
    replace (RtoC x) with (RtoC x0 * RtoC (x * x0 + y * y0) + RtoC y0 * RtoC (x * y0 - y * x0))
      by (rewrite <- !RtoC_mult, <- RtoC_plus; f_equal; transitivity (x * (x0 * x0 + y0 * y0))%R; [ring|rewrite U; ring]).
    replace (RtoC y) with (RtoC y0 * RtoC (x * x0 + y * y0) - RtoC x0 * RtoC (x * y0 - y * x0))
      by (rewrite <- !RtoC_mult, <- RtoC_minus; f_equal; transitivity (y * (x0 * x0 + y0 * y0))%R; [ring|rewrite U; ring]).
    ring.
  - destruct (IH A HA) as (A' & HA' & EA). destruct (IH B HB) as (B' & HB' & EB).
    exists (fun x y => (RtoC y0 * A x0 y0 - RtoC x0 * B x0 y0) * RtoC ((x * x0 + y * y0) ^ S n) + (RtoC x * A' x y + RtoC y * B' x y)).
    split; [apply hom_plus; [apply hom_scal, hom_v|simpl; eauto]|].
    intros x y. rewrite (E x y), (E x0 y0), EA, EB.
    change ((x * x0 + y * y0) ^ S (S n))%R with ((x * x0 + y * y0) * (x * x0 + y * y0) ^ S n)%R. rewrite (RtoC_mult (x * x0 + y * y0)).
    set (V := RtoC ((x * x0 + y * y0) ^ S n)).
    assert (X : RtoC x = RtoC x0 * RtoC (x * x0 + y * y0) + RtoC y0 * RtoC (x * y0 - y * x0))
      by (rewrite <- !RtoC_mult, <- RtoC_plus; f_equal; transitivity (x * (x0 * x0 + y0 * y0))%R; [rewrite U; ring|ring]).
    assert (Y : RtoC y = RtoC y0 * RtoC (x * x0 + y * y0) - RtoC x0 * RtoC (x * y0 - y * x0))
      by (rewrite <- !RtoC_mult, <- RtoC_minus; f_equal; transitivity (y * (x0 * x0 + y0 * y0))%R; [rewrite U; ring|ring]).
    set (u := RtoC (x * y0 - y * x0)) in *. set (v := RtoC (x * x0 + y * y0)) in *.
    transitivity (RtoC x * (A x0 y0 * V) + RtoC y * (B x0 y0 * V) + u * (RtoC x * A' x y + RtoC y * B' x y)); [ring|].
    rewrite X at 1. rewrite Y at 1. ring.
Qed.

(** A homogeneous polynomial of degree n with n + 1 different roots on the unit circle is zero. *)
Lemma hom_roots n : forall P (px py : nat -> R), hom n P ->
  (forall i, (i <= n)%nat -> (px i * px i + py i * py i = 1)%R /\ P (px i) (py i) = RtoC 0) ->
  (forall i j, (i < j <= n)%nat -> (px i * py j - py i * px j <> 0)%R) ->
  forall x y, P x y = RtoC 0.
Proof.
  induction n as [|n IH]; intros P px py HP HZ HD x y.
  - destruct HP as (c & E). rewrite E. rewrite <- (E (px O) (py O)). apply HZ. lia.
  - destruct (HZ (S n) (le_n _)) as (U & Z). destruct (hom_div n _ _ U P HP) as (Q & HQ & E). rewrite Z in E.
    rewrite E, (IH Q px py); auto; [ring| |intros; apply HD; lia].
    intros i Hi. split; [apply HZ; lia|]. pose proof (proj2 (HZ i ltac:(lia))) as Zi. rewrite E in Zi.
    assert (T : RtoC (px i * py (S n) - py i * px (S n)) * Q (px i) (py i) = RtoC 0) by (rewrite <- Zi; ring).
    apply Cmult_integral in T. destruct T as [T|T]; auto. exfalso. apply (HD i (S n) ltac:(lia)). apply (f_equal Re) in T. exact T.
Qed.

(** ** Sampling in phi *)
Lemma cis_neq1 n d : (0 < n)%Z -> (Z.abs d < n)%Z -> d <> 0%Z -> cis (IZR d * (2 * PI / IZR n)) <> RtoC 1.
Proof.
  intros Hn Hd Nd E. apply (f_equal Re) in E. cbn [Re cis fst RtoC] in E.
  assert (Pn : (0 < IZR n)%R) by (apply (IZR_lt 0); auto). pose proof PI_RGT_0.
  set (x := (IZR (Z.abs d) * PI / IZR n)%R).
  assert (Hx : (0 < x < PI)%R).
  { assert ((0 < IZR (Z.abs d) < IZR n)%R) by (split; [apply (IZR_lt 0)|apply IZR_lt]; lia). unfold x. split.
    - apply Rmult_lt_0_compat; [nra|apply Rinv_0_lt_compat; auto].
    - apply (Rmult_lt_reg_r (IZR n)); auto. unfold Rdiv. rewrite Rmult_assoc, Rinv_l by lra. nra. }
  assert (S : (0 < sin x)%R) by (apply sin_gt_0; tauto).
  assert (Ex : cos (IZR d * (2 * PI / IZR n)) = cos (2 * x)).
  { unfold x. destruct (Z.abs_spec d) as [(_ & ->)|(_ & ->)].
    - f_equal. field. lra.
    - rewrite <- cos_neg. f_equal. rewrite opp_IZR. field. lra. }
  rewrite Ex, cos_2a_sin in E. nra.
Qed.
Lemma geometric n d : (0 < n)%Z -> (Z.abs d < n)%Z ->
  csum 0 (n - 1) (fun k => cis (IZR d * (2 * PI * IZR k / IZR n))) = if (d =? 0)%Z then RtoC (IZR n) else RtoC 0.
Proof.
  intros Hn Hd. assert (Pn : (IZR n <> 0)%R) by (apply (IZR_neq _ 0); lia). destruct (Z.eqb_spec d 0) as [->|Nd].
  - rewrite (csum_ext _ _ _ (fun _ => RtoC 1)) by (intros; rewrite Rmult_0_l, cis_0; reflexivity).
    clear Hd Pn. replace n with (n - 1 + 1)%Z at 2 by lia. assert (H : (0 <= n - 1 + 1)%Z) by lia. revert H. generalize (n - 1)%Z. clear.
    refine (csum_ind (fun b => (0 <= b + 1)%Z -> csum 0 b (fun _ => RtoC 1) = RtoC (IZR (b + 1))) 0 _ _).
    + intros b Hb H. replace b with (-1)%Z by lia. rewrite csum_empty by lia. reflexivity.
    + intros b Hb IH _. rewrite csum_last, IH by lia. rewrite <- RtoC_plus. f_equal. rewrite <- plus_IZR. f_equal. lia.
  - set (z := cis (IZR d * (2 * PI / IZR n))). assert (Nz : z - RtoC 1 <> RtoC 0).
    { intro E. apply (cis_neq1 n d Hn Hd Nd). fold z. transitivity (z - RtoC 1 + RtoC 1); [ring|rewrite E; ring]. }
    set (S := csum _ _ _). assert (E : (z - RtoC 1) * S = RtoC 0).
    { unfold S. rewrite <- csum_scal. set (f := fun k => cis (IZR d * (2 * PI * IZR k / IZR n))).
      rewrite (csum_ext _ _ _ (fun k => f (k + 1)%Z - f k)).
      - rewrite csum_telescope by lia. unfold f. replace (n - 1 + 1)%Z with n by lia.
        replace (IZR d * (2 * PI * IZR n / IZR n))%R with (IZR d * (2 * PI))%R by (field; auto). rewrite cis_2PI.
        replace (IZR d * (2 * PI * 0 / IZR n))%R with 0%R by (field; auto). rewrite cis_0. ring.
      - intros k Hk. unfold f, z. replace (IZR d * (2 * PI * IZR (k + 1) / IZR n))%R with (IZR d * (2 * PI / IZR n) + IZR d * (2 * PI * IZR k / IZR n))%R
          by (rewrite plus_IZR; field; auto). rewrite cis_add. ring. }
    apply Cmult_integral in E. destruct E; [contradiction|auto].
Qed.
Lemma dft n M (A : Z -> C) : (2 * M + 1 <= n)%Z ->
  (forall k, (0 <= k < n)%Z -> csum (- M) M (fun m => A m * cis (IZR m * (2 * PI * IZR k / IZR n))) = RtoC 0) ->
  forall m, (- M <= m <= M)%Z -> A m = RtoC 0.
Proof.
  intros Hn H m Hm. assert (Pn : RtoC (IZR n) <> RtoC 0) by (apply RtoC_neq0, (IZR_neq _ 0); lia).
  assert (E : csum 0 (n - 1) (fun k => csum (- M) M (fun m' => A m' * cis (IZR m' * (2 * PI * IZR k / IZR n))) * cis (- (IZR m * (2 * PI * IZR k / IZR n)))) = RtoC 0).
  { apply csum_zero. intros k Hk. rewrite H by lia. ring. }
  rewrite (csum_ext _ _ _ (fun k => csum (- M) M (fun m' => A m' * cis (IZR (m' - m) * (2 * PI * IZR k / IZR n))))) in E.
  2:{ intros k Hk. rewrite <- csum_scal_r. apply csum_ext. intros m' Hm'. rewrite <- Cmult_assoc, <- cis_add. do 2 f_equal. rewrite minus_IZR. ring. }
  rewrite csum_swap in E. rewrite (csum_ext _ _ _ (fun m' => A m' * (if (m' - m =? 0)%Z then RtoC (IZR n) else RtoC 0))) in E.
  2:{ intros m' Hm'. rewrite csum_scal, geometric by lia. reflexivity. }
  rewrite (csum_delta (- M) M m) in E; auto.
  2:{ intros m' Hm' N. replace (m' - m =? 0)%Z with false by (symmetry; apply Z.eqb_neq; lia). ring. }
  rewrite Z.sub_diag in E. cbn [Z.eqb] in E. apply Cmult_integral in E. destruct E; [auto|contradiction].
Qed.

(** ** Sampling in theta *)
Definition hpoly (s l m : Z) (x y : R) : C :=
  if ((Z.abs m <=? l) && (Z.abs s <=? l))%Z
  then RtoC (sgn s) * RtoC (swsh_norm l) * RtoC (sqrt (wt (2 * l) (l + - s) / wt (2 * l) (l + m)))
    * csum (Tlo (l + m) (l + - s)) (Thi (2 * l) (l + m) (l + - s)) (fun r => RtoC (dco (2 * l) (l + m) (l + - s) r)
      * RtoC (x ^ Z.to_nat (l + m + (2 * l - (l + - s)) - 2 * r) * y ^ Z.to_nat (l + - s - (l + m) + 2 * r)))
  else RtoC 0.
Lemma hpoly_harmonic s l m theta : harmonic s l m theta 0 = hpoly s l m (cos (theta / 2)) (sin (theta / 2)).
Proof.
  unfold harmonic, hpoly. destruct (Z.leb_spec (Z.abs m) l), (Z.leb_spec (Z.abs s) l); cbn [andb].
  2,3,4: unfold SWSH_value; replace ((Z.abs m <=? l)%Z && (Z.abs s <=? l)%Z) with false
    by (symmetry; apply andb_false_iff; (left; apply Z.leb_gt; lia) || (right; apply Z.leb_gt; lia)); reflexivity.
  rewrite SWSH_value_in by lia. unfold Dv. rewrite direction_a, direction_b, Dm_phase, Dm_dre by lia.
  replace (0 / 2)%R with 0%R by field. rewrite Ropp_0, !Rmult_0_l, Rplus_0_l, cis_0, Cmult_1_r. unfold dre. rewrite RtoC_mult, rsum_RtoC, !Cmult_assoc.
  f_equal. apply csum_ext. intros. rewrite RtoC_mult. reflexivity.
Qed.
Lemma hom_hpoly s l m : (0 <= l)%Z -> hom (Z.to_nat (2 * l)) (hpoly s l m).
Proof.
  intros Hl. unfold hpoly. destruct (Z.leb_spec (Z.abs m) l), (Z.leb_spec (Z.abs s) l); cbn [andb]; try apply hom_0.
  apply hom_scal. apply hom_csum. intros r Hr. unfold Tlo, Thi in Hr. apply hom_scal.
  replace (Z.to_nat (2 * l)) with (Z.to_nat (l + m + (2 * l - (l + - s)) - 2 * r) + Z.to_nat (l + - s - (l + m) + 2 * r))%nat by lia. apply hom_mono.
Qed.

(** Rotating by 2 pi - theta instead of theta changes a harmonic by a sign. *)
Lemma hpoly_flip s l m x y : hpoly s l m (- x) y = RtoC (sgn (m + s)) * hpoly s l m x y.
Proof.
  unfold hpoly. destruct (Z.leb_spec (Z.abs m) l), (Z.leb_spec (Z.abs s) l); cbn [andb]; try ring.
  rewrite (csum_ext _ _ _ (fun r => RtoC (sgn (m + s)) * (RtoC (dco (2 * l) (l + m) (l + - s) r)
      * RtoC (x ^ Z.to_nat (l + m + (2 * l - (l + - s)) - 2 * r) * y ^ Z.to_nat (l + - s - (l + m) + 2 * r))))).
  - rewrite csum_scal. ring.
  - intros r Hr. unfold Tlo, Thi in Hr.
    replace (- x)%R with (-1 * x)%R by ring. rewrite Rpow_mult_distr.
    replace ((-1) ^ Z.to_nat (l + m + (2 * l - (l + - s)) - 2 * r))%R with (sgn (m + s)).
    + rewrite !RtoC_mult. ring.
    + replace (m + s)%Z with ((l + m + (2 * l - (l + - s)) - 2 * r) + 2 * (r - l))%Z by lia. rewrite sgn_add, sgn_double, Rmult_1_r.
      apply sgn_pow. lia.
Qed.
Lemma theta_roots s L m (A : Z -> C) nt : (0 <= L)%Z -> (L + 2 <= nt)%Z ->
  (forall j, (0 <= j < nt)%Z -> csum 0 L (fun l => A l * harmonic s l m (IZR j * PI / (IZR nt - 1)) 0) = RtoC 0) ->
  forall theta, csum 0 L (fun l => A l * harmonic s l m theta 0) = RtoC 0.
Proof.
  intros HL Hn HZ. set (P := fun x y => csum 0 L (fun l => A l * (RtoC ((x * x + y * y) ^ Z.to_nat (L - l)) * hpoly s l m x y))).
  assert (E : forall theta, csum 0 L (fun l => A l * harmonic s l m theta 0) = P (cos (theta / 2)) (sin (theta / 2))).
  { intros theta. unfold P. apply csum_ext. intros l Hl. rewrite hpoly_harmonic. pose proof (sin2_cos2 (theta / 2)) as X. unfold Rsqr in X.
    replace (cos (theta / 2) * cos (theta / 2) + sin (theta / 2) * sin (theta / 2))%R with 1%R by lra. rewrite pow1. ring. }
  assert (F : forall x y, P (- x)%R y = RtoC (sgn (m + s)) * P x y).
  { intros x y. unfold P. rewrite <- csum_scal. apply csum_ext. intros l Hl. rewrite hpoly_flip. replace (- x * - x)%R with (x * x)%R by ring. ring. }
  intros theta. rewrite E. set (th := fun i : nat => (INR i * PI / (IZR nt - 1))%R).
  assert (Pn : (1 <= IZR nt - 1)%R) by (rewrite <- minus_IZR; apply (IZR_le 1); lia). pose proof PI_RGT_0 as Pi.
  apply (hom_roots (Z.to_nat (2 * L)) P (fun i => cos (th i / 2)) (fun i => sin (th i / 2))).
  - unfold P. apply hom_csum. intros l Hl. apply hom_scal.
    replace (Z.to_nat (2 * L)) with (Z.to_nat (L - l) + (Z.to_nat (L - l) + Z.to_nat (2 * l)))%nat by lia. apply hom_lift, hom_hpoly. lia.
  - intros i Hi. split.
    + pose proof (sin2_cos2 (th i / 2)) as X. unfold Rsqr in X. lra.
    + destruct (Z_lt_ge_dec (Z.of_nat i) nt) as [Hb|Hb].
      * rewrite <- E. rewrite <- (HZ (Z.of_nat i)) by lia. unfold th. rewrite INR_IZR_INZ. reflexivity.
      * set (j := (2 * (nt - 1) - Z.of_nat i)%Z). set (t := (IZR j * PI / (IZR nt - 1))%R).
        assert (T : (th i / 2 = PI - t / 2)%R).
        { unfold th, t, j. rewrite INR_IZR_INZ, minus_IZR, mult_IZR, minus_IZR. field. lra. }
        rewrite T. rewrite (Rtrigo_facts.cos_pi_minus (t / 2)), (Rtrigo_facts.sin_pi_minus (t / 2)), F, <- E. unfold t. rewrite HZ by (unfold j; lia). ring.
  - intros i j Hij. replace (cos (th i / 2) * sin (th j / 2) - sin (th i / 2) * cos (th j / 2))%R with (sin ((th j - th i) / 2))
      by (replace ((th j - th i) / 2)%R with (th j / 2 - th i / 2)%R by field; rewrite sin_minus; ring).
    assert (I : (0 < IZR nt - 1)%R) by lra.
    assert (D : ((th j - th i) / 2 = (INR j - INR i) / (2 * (IZR nt - 1)) * PI)%R) by (unfold th; field; lra).
    assert (J : (0 < INR j - INR i < 2 * (IZR nt - 1))%R).
    { pose proof (lt_INR i j ltac:(lia)). pose proof (pos_INR i). split; [lra|].
      assert ((INR j <= 2 * (IZR nt - 1) - 1)%R).
      { rewrite INR_IZR_INZ, <- minus_IZR, <- mult_IZR, <- minus_IZR. apply IZR_le. lia. } lra. }
    assert (Q : (0 < (INR j - INR i) / (2 * (IZR nt - 1)) < 1)%R).
    { split; [apply Rdiv_lt_0_compat; lra|]. apply (Rmult_lt_reg_r (2 * (IZR nt - 1))); [lra|]. unfold Rdiv. rewrite Rmult_assoc, Rinv_l by lra. lra. }
    rewrite D. apply Rgt_not_eq, sin_gt_0; nra.
Qed.

(** ** Both together *)
Lemma csum_lm L (F : Z -> Z -> C) : (0 <= L)%Z -> csum 0 L (fun l => csum (- l) l (F l)) = csum (- L) L (fun m => csum 0 L (fun l => if (Z.abs m <=? l)%Z then F l m else RtoC 0)).
Proof.
  intros HL. rewrite csum_swap. apply csum_ext. intros l Hl.
  rewrite <- (csum_widen (- l) l (- L) L) by (try lia; intros m Hm Ho; replace (Z.abs m <=? l)%Z with false by (symmetry; apply Z.leb_gt; lia); reflexivity).
  apply csum_ext. intros m Hm. replace (Z.abs m <=? l)%Z with true by (symmetry; apply Z.leb_le; lia). reflexivity.
Qed.

Definition th_ (nt j : Z) : R := (IZR j * PI / (IZR nt - 1))%R.
Definition ph_ (np k : Z) : R := (2 * PI * IZR k / IZR np)%R.

Lemma samples_zero s L (w : Z -> Z -> C) nt np : (0 <= L)%Z -> (L + 2 <= nt)%Z -> (2 * L + 1 <= np)%Z ->
  (forall j k, (0 <= j < nt)%Z -> (0 <= k < np)%Z ->
     csum 0 L (fun ell => csum (- ell) ell (fun m => w ell m * harmonic s ell m (th_ nt j) (ph_ np k))) = RtoC 0) ->
  forall theta phi, csum 0 L (fun ell => csum (- ell) ell (fun m => w ell m * harmonic s ell m theta phi)) = RtoC 0.
Proof.
  intros HL Hn Hp HZ.
  set (A := fun l m => if (Z.abs m <=? l)%Z then w l m else RtoC 0).
  assert (E : forall theta phi, csum 0 L (fun ell => csum (- ell) ell (fun m => w ell m * harmonic s ell m theta phi))
    = csum (- L) L (fun m => csum 0 L (fun l => A l m * harmonic s l m theta 0) * cis (IZR m * phi))).
  { intros theta phi. rewrite csum_lm by auto. apply csum_ext. intros m Hm. rewrite <- csum_scal_r. apply csum_ext. intros l Hl. unfold A.
    rewrite (harmonic_phase s l m theta phi). destruct (Z.abs m <=? l)%Z; ring. }
  assert (Z1 : forall j m, (0 <= j < nt)%Z -> (- L <= m <= L)%Z -> csum 0 L (fun l => A l m * harmonic s l m (th_ nt j) 0) = RtoC 0).
  { intros j m Hj Hm. apply (dft np L (fun m => csum 0 L (fun l => A l m * harmonic s l m (th_ nt j) 0))); auto. intros k Hk.
    rewrite <- (HZ j k) by auto. rewrite E. reflexivity. }
  intros theta phi. rewrite E. apply csum_zero. intros m Hm.
  rewrite (theta_roots s L m (fun l => A l m) nt) by (auto; intros j Hj; apply (Z1 j m); auto). ring.
Qed.

Lemma samples_modes s L (w : Z -> Z -> C) nt np : (0 <= L)%Z -> (L + 2 <= nt)%Z -> (2 * L + 1 <= np)%Z ->
  (forall j k, (0 <= j < nt)%Z -> (0 <= k < np)%Z ->
     csum 0 L (fun ell => csum (- ell) ell (fun m => w ell m * harmonic s ell m (th_ nt j) (ph_ np k))) = RtoC 0) ->
  forall l m, (Z.abs s <= l <= L)%Z -> (Z.abs m <= l)%Z -> w l m = RtoC 0.
Proof.
  intros HL Hn Hp HZ l m Hl Hm. pose proof (samples_zero s L w nt np HL Hn Hp HZ) as Z.
  pose proof (recover s L w l m ltac:(lia) Hm) as X. replace (l <=? L)%Z with true in X by (symmetry; apply Z.leb_le; lia).
  apply (SInt_unique _ _ _ X). eapply SInt_ext; [|apply SInt_0]. intros. cbv beta. rewrite Z. ring.
Qed.

(** ** The sample points are rotors *)
Local Open Scope R_scope.
Lemma sin_half x : 0 < x <= 1 -> x / 2 <= sin x.
Proof.
  intros (H0 & H1). destruct (MVT_cor2 sin cos 0 x H0) as (c & E & Hc); [intros; apply derivable_pt_lim_sin|].
  rewrite sin_0, !Rminus_0_r in E. rewrite E. pose proof PI_RGT_0. pose proof PI2_3_2.
  assert (1 / 2 <= cos c). { rewrite <- cos_PI3. apply cos_decr_1; lra. }
  nra.
Qed.
Lemma Cmod_real_cis x t : Cmod (RtoC x * cis t)%C = Rabs x.
Proof. rewrite Cmod_mult, Cmod_R, Cmod_cis. ring. Qed.
Lemma grid_rotor nt j phi : (2 <= nt <= 10 ^ 12)%Z -> (0 <= j < nt)%Z -> rotor (direction_rotor (th_ nt j) phi).
Proof.
  intros Hn Hj. pose proof PI_RGT_0 as Pi. pose proof PI2_3_2 as Pi3.
  assert (P4 : PI <= 4) by apply PI_4.
  assert (N1 : 1 <= IZR nt - 1 <= 10 ^ 12).
  { rewrite <- minus_IZR. split; [apply (IZR_le 1); lia|]. replace (10 ^ 12)%R with (IZR (10 ^ 12)) by (simpl; lra). apply IZR_le. lia. }
  split; [|].
  { unfold unit_quat, qnorm2, direction_rotor. cbn [qw qx qy qz].
    pose proof (sin2_cos2 (th_ nt j / 2)) as A. pose proof (sin2_cos2 (phi / 2)) as B. unfold Rsqr in A, B.
    set (c := cos (th_ nt j / 2)) in *. set (s := sin (th_ nt j / 2)) in *. set (c' := cos (phi / 2)) in *. set (s' := sin (phi / 2)) in *.
    transitivity ((s * s + c * c) * (s' * s' + c' * c')); [ring|]. rewrite A, B. ring. }
  rewrite direction_a, direction_b, !Cmod_real_cis.
  set (d := PI / 2 / (IZR nt - 1)).
  assert (Dj : th_ nt j / 2 = IZR j * d) by (unfold th_, d; field; lra).
  assert (Dn : (IZR nt - 1) * d = PI / 2) by (unfold d; field; lra).
  assert (D0 : 0 < d) by (unfold d; apply Rmult_lt_0_compat; [lra|apply Rinv_0_lt_compat; lra]).
  assert (De : 2 * epsilon < d).
  { unfold epsilon, d. assert (I : / 10 ^ 12 <= / (IZR nt - 1)) by (apply Rinv_le_contravar; lra).
    assert (2 * / 10 ^ 15 < / 10 ^ 12). { replace (10 ^ 15) with (1000 * 10 ^ 12) by (simpl; ring). rewrite Rinv_mult. assert (0 < / 10 ^ 12) by (apply Rinv_0_lt_compat; apply pow_lt; lra). lra. }
    assert (/ (IZR nt - 1) <= PI / 2 * / (IZR nt - 1)). { assert (0 < / (IZR nt - 1)) by (apply Rinv_0_lt_compat; lra). nra. }
    unfold Rdiv at 1. lra. }
  assert (Key : forall x, d <= x <= PI / 2 -> epsilon < sin x).
  { intros x Hx. destruct (Rle_lt_dec d 1) as [L|G].
    - apply (Rlt_le_trans _ (d / 2)); [lra|]. apply (Rle_trans _ (sin d)); [apply sin_half; lra|]. apply sin_incr_1; lra.
    - apply (Rlt_le_trans _ (1 / 2)).
      + unfold epsilon. assert (/ 10 ^ 15 < / 2) by (apply Rinv_lt_contravar; simpl; lra). lra.
      + apply (Rle_trans _ (sin 1)); [apply sin_half; lra|]. apply sin_incr_1; lra. }
  rewrite Dj. assert (J : 0 <= IZR j <= IZR nt - 1) by (rewrite <- minus_IZR; split; apply IZR_le; lia).
  assert (B : 0 <= IZR j * d <= PI / 2) by nra.
  split.
  - destruct (Z.eq_dec j (nt - 1)) as [->|Nj].
    + left. rewrite minus_IZR, Dn, cos_PI2. ring.
    + right. rewrite <- sin_shift. assert (IZR j + 1 <= IZR nt - 1) by (rewrite <- plus_IZR, <- minus_IZR; apply IZR_le; lia).
      assert (epsilon < sin (PI / 2 - IZR j * d)) by (apply Key; nra).
      rewrite Rabs_pos_eq; [auto|]. pose proof epsilon_pos. lra.
  - destruct (Z.eq_dec j 0) as [->|Nj].
    + left. rewrite Rmult_0_l, sin_0. ring.
    + right. assert (1 <= IZR j) by (apply (IZR_le 1); lia). assert (epsilon < sin (IZR j * d)) by (apply Key; nra).
      rewrite Rabs_pos_eq; [auto|]. pose proof epsilon_pos. lra.
Qed.
