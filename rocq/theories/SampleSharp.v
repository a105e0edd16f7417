(** How many grid points it takes to determine the modes: fewer points in theta than in SampleProofs suffice for spin weights other
    than zero, and no fewer. *)
Require Import ZArith Lia Reals Lra Bool List.
From Coquelicot Require Import Hierarchy RInt Complex.
From Verif Require Import Base BaseProofs CBase CSum RSum Fact SymPow DRep WignerSpec WignerModel WignerProofs WignerProofs2 WignerProofs3 WignerCallModel IndexModel RotorSpec WignerProps
  SWSHModel SWSHProofs ModesModel ModesSpec ModesProofs3 OrthoSpec OrthoProofs OrthoProofs2 OrthoProps SampleProofs.
Open Scope C_scope.

(** ** The harmonics without their zeros at the poles *)
Definition hred (s l m : Z) (x y : R) : C :=
  if ((Z.abs m <=? l) && (Z.abs s <=? l))%Z
  then RtoC (sgn s) * RtoC (swsh_norm l) * RtoC (sqrt (wt (2 * l) (l + - s) / wt (2 * l) (l + m)))
    * csum (Tlo (l + m) (l + - s)) (Thi (2 * l) (l + m) (l + - s)) (fun r => RtoC (dco (2 * l) (l + m) (l + - s) r)
      * RtoC (x ^ Z.to_nat (l + m + (2 * l - (l + - s)) - 2 * r - Z.abs (m - s)) * y ^ Z.to_nat (l + - s - (l + m) + 2 * r - Z.abs (m + s))))
  else RtoC 0.
Lemma pow_split (x : R) a b : (0 <= b <= a)%Z -> (x ^ Z.to_nat a = x ^ Z.to_nat b * x ^ Z.to_nat (a - b))%R.
Proof. intros H. rewrite <- pow_add. f_equal. lia. Qed.
Lemma hred_hpoly s l m x y :
  hpoly s l m x y = RtoC (x ^ Z.to_nat (Z.abs (m - s)) * y ^ Z.to_nat (Z.abs (m + s))) * hred s l m x y.
Proof.
  unfold hpoly, hred. destruct (Z.leb_spec (Z.abs m) l), (Z.leb_spec (Z.abs s) l); cbn [andb]; try ring.
  rewrite (csum_ext _ _ _ (fun r => RtoC (x ^ Z.to_nat (Z.abs (m - s)) * y ^ Z.to_nat (Z.abs (m + s))) * (RtoC (dco (2 * l) (l + m) (l + - s) r)
      * RtoC (x ^ Z.to_nat (l + m + (2 * l - (l + - s)) - 2 * r - Z.abs (m - s)) * y ^ Z.to_nat (l + - s - (l + m) + 2 * r - Z.abs (m + s)))))).
  - rewrite csum_scal. ring.
  - intros r Hr. unfold Tlo, Thi in Hr.
    rewrite (pow_split x (l + m + (2 * l - (l + - s)) - 2 * r) (Z.abs (m - s))), (pow_split y (l + - s - (l + m) + 2 * r) (Z.abs (m + s))) by lia.
    rewrite !RtoC_mult. ring.
Qed.
Lemma hom_hred s l m : (Z.max (Z.abs m) (Z.abs s) <= l)%Z -> hom (Z.to_nat (2 * (l - Z.max (Z.abs m) (Z.abs s)))) (hred s l m).
Proof.
  intros Hl. unfold hred. destruct (Z.leb_spec (Z.abs m) l), (Z.leb_spec (Z.abs s) l); cbn [andb]; try apply hom_0.
  apply hom_scal. apply hom_csum. intros r Hr. unfold Tlo, Thi in Hr. apply hom_scal.
  replace (Z.to_nat (2 * (l - Z.max (Z.abs m) (Z.abs s)))) with (Z.to_nat (l + m + (2 * l - (l + - s)) - 2 * r - Z.abs (m - s)) + Z.to_nat (l + - s - (l + m) + 2 * r - Z.abs (m + s)))%nat by lia. apply hom_mono.
Qed.
Lemma hred_out s l m x y : (l < Z.max (Z.abs m) (Z.abs s))%Z -> hred s l m x y = RtoC 0.
Proof. intros H. unfold hred. destruct (Z.leb_spec (Z.abs m) l), (Z.leb_spec (Z.abs s) l); cbn [andb]; auto. lia. Qed.
Lemma hred_flip s l m x y : hred s l m (- x) y = hred s l m x y.
Proof.
  unfold hred. destruct (Z.leb_spec (Z.abs m) l), (Z.leb_spec (Z.abs s) l); cbn [andb]; try reflexivity.
  f_equal. apply csum_ext. intros r Hr. unfold Tlo, Thi in Hr. do 2 f_equal. f_equal.
  replace (- x)%R with (-1 * x)%R by ring. rewrite Rpow_mult_distr, <- sgn_pow by lia.
  assert (E : exists k, (l + m + (2 * l - (l + - s)) - 2 * r - Z.abs (m - s) = 2 * k)%Z).
  { destruct (Z.abs_spec (m - s)) as [(_ & ->)|(_ & ->)]; [exists (l + s - r)%Z|exists (l + m - r)%Z]; lia. }
  destruct E as (k & E). rewrite E at 1. rewrite sgn_double. ring.
Qed.

(** Roots at the interior points are enough. *)
Lemma theta_roots_inner s L m (A : Z -> C) nt : (2 <= nt)%Z -> (L - Z.max (Z.abs m) (Z.abs s) + 3 <= nt)%Z ->
  (forall j, (0 < j < nt - 1)%Z -> csum 0 L (fun l => A l * harmonic s l m (IZR j * PI / (IZR nt - 1)) 0) = RtoC 0) ->
  forall theta, csum 0 L (fun l => A l * harmonic s l m theta 0) = RtoC 0.
Proof.
  intros Hn2 Hn HZ. set (mx := Z.max (Z.abs m) (Z.abs s)) in *.
  set (P := fun x y => csum 0 L (fun l => A l * (RtoC ((x * x + y * y) ^ Z.to_nat (L - l)) * hred s l m x y))).
  assert (E : forall theta, csum 0 L (fun l => A l * harmonic s l m theta 0)
     = RtoC (cos (theta / 2) ^ Z.to_nat (Z.abs (m - s)) * sin (theta / 2) ^ Z.to_nat (Z.abs (m + s))) * P (cos (theta / 2)) (sin (theta / 2))).
  { intros theta. unfold P. rewrite <- csum_scal. apply csum_ext. intros l Hl. rewrite hpoly_harmonic, hred_hpoly. pose proof (sin2_cos2 (theta / 2)) as X. unfold Rsqr in X.
    replace (cos (theta / 2) * cos (theta / 2) + sin (theta / 2) * sin (theta / 2))%R with 1%R by lra. rewrite pow1. ring. }
  destruct (Z_lt_ge_dec L mx) as [Hs|Hs].
  { intros theta. apply csum_zero. intros l Hl. rewrite hpoly_harmonic, hred_hpoly, hred_out by (unfold mx in *; lia). ring. }
  assert (F : forall x y, P (- x)%R y = P x y).
  { intros x y. unfold P. apply csum_ext. intros l Hl. rewrite hred_flip. replace (- x * - x)%R with (x * x)%R by ring. ring. }
  intros theta. rewrite E. set (th := fun i : Z => (IZR i * PI / (IZR nt - 1))%R).
  assert (Pn : (1 <= IZR nt - 1)%R) by (rewrite <- minus_IZR; apply (IZR_le 1); lia). pose proof PI_RGT_0 as Pi.
  assert (SI : forall i, (0 < i < 2 * (nt - 1))%Z -> (0 < th i / 2 < PI)%R).
  { intros i Hi. assert ((1 <= IZR i <= 2 * (IZR nt - 1) - 1)%R) by (rewrite <- minus_IZR, <- mult_IZR, <- minus_IZR; split; apply IZR_le; lia).
    replace (th i / 2)%R with (IZR i / (2 * (IZR nt - 1)) * PI)%R by (unfold th; field; lra).
    assert (Q : (0 < IZR i / (2 * (IZR nt - 1)) < 1)%R).
    { split; [apply Rdiv_lt_0_compat; lra|]. apply (Rmult_lt_reg_r (2 * (IZR nt - 1))); [lra|]. unfold Rdiv. rewrite Rmult_assoc, Rinv_l by lra. lra. }
    split; nra. }
  assert (RI : forall j, (0 < j < nt - 1)%Z -> P (cos (th j / 2)) (sin (th j / 2)) = RtoC 0).
  { intros j Hj. specialize (HZ j Hj). fold (th j) in HZ. rewrite E in HZ. apply Cmult_integral in HZ. destruct HZ as [X|X]; auto. exfalso. revert X. apply RtoC_neq0.
    pose proof (SI j ltac:(lia)) as B.
    assert (C1 : (th j / 2 < PI / 2)%R).
    { unfold th. assert ((IZR j < IZR nt - 1)%R) by (rewrite <- minus_IZR; apply IZR_lt; lia). apply (Rmult_lt_reg_r (2 * (IZR nt - 1))); [lra|].
      replace (IZR j * PI / (IZR nt - 1) / 2 * (2 * (IZR nt - 1)))%R with (IZR j * PI)%R by (field; lra). nra. }
    apply Rmult_integral_contrapositive. split; apply pow_nonzero, Rgt_not_eq; [apply cos_gt_0; lra|apply sin_gt_0; lra]. }
  set (pt := fun i : nat => if (Z.of_nat i <? nt - 2)%Z then (Z.of_nat i + 1)%Z else (Z.of_nat i + 2)%Z).
  rewrite (hom_roots (Z.to_nat (2 * (L - mx))) P (fun i => cos (th (pt i) / 2)) (fun i => sin (th (pt i) / 2))); [ring| | |].
  - unfold P. apply hom_csum. intros l Hl. apply hom_scal. destruct (Z_lt_ge_dec l mx) as [Hb|Hb].
    + eapply hom_ext; [|apply hom_0]. intros x y. cbv beta. rewrite hred_out by (unfold mx in *; lia). ring.
    + replace (Z.to_nat (2 * (L - mx))) with (Z.to_nat (L - l) + (Z.to_nat (L - l) + Z.to_nat (2 * (l - mx))))%nat by lia. apply hom_lift, hom_hred. unfold mx in *; lia.
  - intros i Hi. split.
    + pose proof (sin2_cos2 (th (pt i) / 2)) as X. unfold Rsqr in X. lra.
    + unfold pt. destruct (Z.ltb_spec (Z.of_nat i) (nt - 2)) as [Hb|Hb]; [apply RI; lia|].
      set (j := (2 * (nt - 1) - (Z.of_nat i + 2))%Z).
      assert (T : (th (Z.of_nat i + 2)%Z / 2 = PI - th j / 2)%R).
      { unfold th, j. rewrite minus_IZR, mult_IZR, minus_IZR. field. lra. }
      rewrite T, (Rtrigo_facts.cos_pi_minus (th j / 2)), (Rtrigo_facts.sin_pi_minus (th j / 2)), F. apply RI. unfold j. lia.
  - intros i j Hij. replace (cos (th (pt i) / 2) * sin (th (pt j) / 2) - sin (th (pt i) / 2) * cos (th (pt j) / 2))%R with (sin (th (pt j) / 2 - th (pt i) / 2))
      by (rewrite sin_minus; ring).
    assert (X : (0 < pt i < pt j)%Z /\ (pt j < 2 * (nt - 1))%Z).
    { unfold pt. destruct (Z.ltb_spec (Z.of_nat i) (nt - 2)), (Z.ltb_spec (Z.of_nat j) (nt - 2)); lia. }
    replace (th (pt j) / 2 - th (pt i) / 2)%R with (th (pt j - pt i)%Z / 2)%R by (unfold th; rewrite minus_IZR; field; lra).
    pose proof (SI (pt j - pt i)%Z ltac:(lia)). apply Rgt_not_eq, sin_gt_0; lra.
Qed.

(** The number of theta samples needed for spin weight s and ell up to L. *)
Definition theta_needed (s L : Z) : Z := if (s =? 0)%Z then (L + 2)%Z else (L - Z.abs s + 3)%Z.

Lemma samples_modes_sharp s L (w : Z -> Z -> C) nt np : (0 <= L)%Z -> (2 <= nt)%Z -> (theta_needed s L <= nt)%Z -> (2 * L + 1 <= np)%Z ->
  (forall j k, (0 <= j < nt)%Z -> (0 <= k < np)%Z ->
     csum 0 L (fun ell => csum (- ell) ell (fun m => w ell m * harmonic s ell m (th_ nt j) (ph_ np k))) = RtoC 0) ->
  forall l m, (Z.abs s <= l <= L)%Z -> (Z.abs m <= l)%Z -> w l m = RtoC 0.
Proof.
  intros HL H2 Hn Hp HZ l m Hl Hm.
  assert (Z0 : forall theta phi, csum 0 L (fun ell => csum (- ell) ell (fun m => w ell m * harmonic s ell m theta phi)) = RtoC 0).
  { set (A := fun l m => if (Z.abs m <=? l)%Z then w l m else RtoC 0).
    assert (E : forall theta phi, csum 0 L (fun ell => csum (- ell) ell (fun m => w ell m * harmonic s ell m theta phi))
      = csum (- L) L (fun m => csum 0 L (fun l => A l m * harmonic s l m theta 0) * cis (IZR m * phi))).
    { intros theta phi. rewrite csum_lm by auto. apply csum_ext. intros mm Hmm. rewrite <- csum_scal_r. apply csum_ext. intros ll Hll. unfold A.
      rewrite (harmonic_phase s ll mm theta phi). destruct (Z.abs mm <=? ll)%Z; ring. }
    assert (Z1 : forall j m, (0 <= j < nt)%Z -> (- L <= m <= L)%Z -> csum 0 L (fun l => A l m * harmonic s l m (th_ nt j) 0) = RtoC 0).
    { intros j mm Hj Hmm. apply (dft np L (fun m => csum 0 L (fun l => A l m * harmonic s l m (th_ nt j) 0))); auto. intros k Hk.
      rewrite <- (HZ j k) by auto. rewrite E. reflexivity. }
    intros theta phi. rewrite E. apply csum_zero. intros mm Hmm. unfold theta_needed in Hn. destruct (Z.eqb_spec s 0) as [->|Ns].
    - rewrite (theta_roots 0 L mm (fun l => A l mm) nt) by (auto; intros j Hj; apply (Z1 j mm); auto). ring.
    - rewrite (theta_roots_inner s L mm (fun l => A l mm) nt) by (try lia; intros j Hj; apply (Z1 j mm); lia). ring. }
  pose proof (recover s L w l m ltac:(lia) Hm) as X. replace (l <=? L)%Z with true in X by (symmetry; apply Z.leb_le; lia).
  apply (SInt_unique _ _ _ X). eapply SInt_ext; [|apply SInt_0]. intros. cbv beta. rewrite Z0. ring.
Qed.

(** ** Too few points *)
(** A linear system with fewer equations than unknowns has a nontrivial solution. *)
Lemma csum_skip n k f : (0 <= k <= n + 1)%Z -> (0 <= n + 1)%Z ->
  csum 0 (n + 1) f = csum 0 n (fun i => f (if (i <? k)%Z then i else (i + 1)%Z)) + f k.
Proof.
  intros Hk Hn. rewrite (csum_split 0 (n + 1) (k - 1)) by lia. rewrite (csum_first (k - 1 + 1)) by lia.
  rewrite (csum_split 0 n (k - 1)) by lia.
  rewrite (csum_ext 0 (k - 1) (fun i => f (if (i <? k)%Z then i else (i + 1)%Z)) f) by (intros i Hi; replace (i <? k)%Z with true by (symmetry; apply Z.ltb_lt; lia); reflexivity).
  rewrite (csum_shift (k - 1 + 1) n 1). replace (k - 1 + 1)%Z with k by lia.
  rewrite (csum_ext (k + 1) (n + 1) (fun i => f (if (i - 1 <? k)%Z then (i - 1)%Z else (i - 1 + 1)%Z)) f)
    by (intros i Hi; replace (i - 1 <? k)%Z with false by (symmetry; apply Z.ltb_ge; lia); f_equal; lia).
  ring.
Qed.
Lemma kernel (n : nat) : forall F : Z -> Z -> C, exists x : Z -> C,
  (exists k, (0 <= k <= Z.of_nat n)%Z /\ x k <> RtoC 0)
  /\ forall i, (0 <= i < Z.of_nat n)%Z -> csum 0 (Z.of_nat n) (fun k => F i k * x k) = RtoC 0.
Proof.
  induction n as [|n IH]; intros F.
  - exists (fun _ => RtoC 1). split; [exists 0%Z; split; [lia|apply RtoC_neq0; lra]|]. intros; lia.
  - rewrite Nat2Z.inj_succ, <- Z.add_1_r. set (N := Z.of_nat n) in *.
    destruct (Classical_Prop.classic (exists k, (0 <= k <= N + 1)%Z /\ F N k <> RtoC 0)) as [(k0 & Hk0 & Np)|No].
    + set (sg := fun i => if (i <? k0)%Z then i else (i + 1)%Z).
      destruct (IH (fun i k => F i (sg k) - F i k0 / F N k0 * F N (sg k))) as (x & (k & Hk & Nx) & S).
      set (y := fun k => if (k <? k0)%Z then x k else x (k - 1)%Z).
      set (c := csum 0 N (fun k => F N (sg k) * x k)).
      set (z := fun k => if (k =? k0)%Z then - (c / F N k0) else y k).
      assert (Zs : forall k, z (sg k) = x k).
      { intros i. unfold z, y, sg. destruct (Z.ltb_spec i k0).
        - replace (i =? k0)%Z with false by (symmetry; apply Z.eqb_neq; lia). replace (i <? k0)%Z with true by (symmetry; apply Z.ltb_lt; lia). reflexivity.
        - replace (i + 1 =? k0)%Z with false by (symmetry; apply Z.eqb_neq; lia). replace (i + 1 <? k0)%Z with false by (symmetry; apply Z.ltb_ge; lia). f_equal. lia. }
      assert (Zk : z k0 = - (c / F N k0)) by (unfold z; rewrite Z.eqb_refl; reflexivity).
      exists z. split.
      * exists (sg k). split; [unfold sg; destruct (Z.ltb_spec k k0); lia|]. rewrite Zs. exact Nx.
      * intros i Hi. rewrite (csum_skip N k0) by lia. fold sg.
        rewrite (csum_ext 0 N _ (fun k => F i (sg k) * x k)) by (intros; unfold sg; fold (sg i0); rewrite Zs; reflexivity). rewrite Zk.
        destruct (Z.eq_dec i N) as [->|Ni].
        { unfold c. field. exact Np. }
        { specialize (S i ltac:(lia)). rewrite (csum_ext 0 N _ (fun k => F i (sg k) * x k - F i k0 / F N k0 * (F N (sg k) * x k))) in S by (intros; ring).
          rewrite csum_minus, csum_scal in S. fold c in S. rewrite <- S. field. exact Np. }
    + destruct (IH F) as (x & (k & Hk & Nx) & S).
      exists (fun k => if (k <=? N)%Z then x k else RtoC 0). split.
      * exists k. split; [lia|]. replace (k <=? N)%Z with true by (symmetry; apply Z.leb_le; lia). exact Nx.
      * intros i Hi. destruct (Z.eq_dec i N) as [->|Ni].
        { apply csum_zero. intros j Hj. replace (F N j) with (RtoC 0); [ring|]. destruct (Ceq_dec (F N j) (RtoC 0)) as [e|e]; [auto|]. exfalso. apply No. exists j. auto. }
        { rewrite csum_last by lia. replace (N + 1 - 1)%Z with N by lia. replace (N + 1 <=? N)%Z with false by (symmetry; apply Z.leb_gt; lia).
          rewrite (csum_ext 0 N _ (fun k => F i k * x k)) by (intros j Hj; replace (j <=? N)%Z with true by (symmetry; apply Z.leb_le; lia); reflexivity).
          rewrite S by lia. ring. }
Qed.

(** A harmonic with m + s odd vanishes at both poles. *)
Lemma pole_zero s l m phi : Z.odd (m + s) = true -> harmonic s l m 0 phi = RtoC 0 /\ harmonic s l m PI phi = RtoC 0.
Proof.
  intros Ho. assert (N1 : (m - s <> 0)%Z) by (intro; replace (m + s)%Z with (2 * s)%Z in Ho by lia; rewrite Z.odd_mul in Ho; discriminate).
  assert (N2 : (m + s <> 0)%Z) by (intros E; rewrite E in Ho; discriminate).
  assert (P0 : forall a, a <> 0%Z -> (0 ^ Z.to_nat (Z.abs a) = 0)%R) by (intros a Ha; apply pow_i; lia).
  split; rewrite harmonic_phase, hpoly_harmonic, hred_hpoly.
  - replace (0 / 2)%R with 0%R by field. rewrite sin_0, P0, Rmult_0_r by auto. ring.
  - rewrite cos_PI2, P0, Rmult_0_l by auto. ring.
Qed.
Lemma theta_alias s L nt : (Z.abs s <= L)%Z -> (1 <= L)%Z -> (2 <= nt < theta_needed s L)%Z ->
  exists m w, (exists l, (Z.max (Z.abs m) (Z.abs s) <= l <= L)%Z /\ w l <> RtoC 0)
    /\ forall j phi, (0 <= j < nt)%Z -> csum (Z.max (Z.abs m) (Z.abs s)) L (fun l => w l * harmonic s l m (th_ nt j) phi) = RtoC 0.
Proof.
  intros Hs HL Hn. set (m := (if s =? 0 then 1 else if 0 <? s then s - 1 else s + 1)%Z). set (mx := Z.max (Z.abs m) (Z.abs s)).
  assert (Hm : Z.odd (m + s) = true).
  { unfold m. destruct (Z.eqb_spec s 0) as [->|N]; [reflexivity|].
    destruct (0 <? s)%Z; [replace (s - 1 + s)%Z with (1 + 2 * (s - 1))%Z by lia|replace (s + 1 + s)%Z with (1 + 2 * s)%Z by lia]; rewrite Z.odd_add, Z.odd_mul; reflexivity. }
  assert (Hx : (nt - 2 <= L - mx)%Z /\ (0 <= mx <= L)%Z).
  { unfold theta_needed in Hn. unfold mx, m. destruct (Z.eqb_spec s 0) as [->|N]; [lia|]. destruct (Z.ltb_spec 0 s); lia. }
  destruct (kernel (Z.to_nat (L - mx)) (fun i k => if (i <? nt - 2)%Z then harmonic s (k + mx) m (th_ nt (i + 1)) 0 else RtoC 0)) as (x & (k & Hk & Nx) & S).
  rewrite Z2Nat.id in * by lia. exists m, (fun l => x (l - mx)%Z). fold mx. split.
  - exists (k + mx)%Z. split; [lia|]. replace (k + mx - mx)%Z with k by lia. exact Nx.
  - intros j phi Hj. destruct (Z.eq_dec j 0) as [->|N0].
    { apply csum_zero. intros l Hl. unfold th_. replace (0 * PI / (IZR nt - 1))%R with 0%R by (unfold Rdiv; ring). rewrite (proj1 (pole_zero s l m phi Hm)). ring. }
    destruct (Z.eq_dec j (nt - 1)) as [->|N1].
    { apply csum_zero. intros l Hl. unfold th_. rewrite minus_IZR. assert ((IZR nt - 1 <> 0)%R) by (rewrite <- minus_IZR; apply (IZR_neq _ 0); lia).
      replace ((IZR nt - 1) * PI / (IZR nt - 1))%R with PI by (field; auto). rewrite (proj2 (pole_zero s l m phi Hm)). ring. }
    specialize (S (j - 1)%Z ltac:(lia)). replace (j - 1 <? nt - 2)%Z with true in S by (symmetry; apply Z.ltb_lt; lia).
    rewrite (csum_shift 0 (L - mx) mx) in S. replace (0 + mx)%Z with mx in S by lia. replace (L - mx + mx)%Z with L in S by lia.
    transitivity (csum mx L (fun l => harmonic s (l - mx + mx) m (th_ nt (j - 1 + 1)) 0 * x (l - mx)%Z) * cis (IZR m * phi)); [|rewrite S; ring].
    rewrite <- csum_scal_r. apply csum_ext. intros l Hl. rewrite (harmonic_phase s l m (th_ nt j) phi).
    replace (l - mx + mx)%Z with l by lia. replace (j - 1 + 1)%Z with j by lia. ring.
Qed.

(** At spin weight zero the modes M and - M look alike on 2 M points around the circle. *)
Lemma hpoly_real s l m x y : Cconj (hpoly s l m x y) = hpoly s l m x y.
Proof.
  unfold hpoly. destruct (_ && _); [|apply Cconj_RtoC]. rewrite !Cconj_mult, !Cconj_RtoC, csum_conj. f_equal. apply csum_ext.
  intros r _. rewrite Cconj_mult, !Cconj_RtoC. reflexivity.
Qed.
Lemma phi_alias M k theta : (1 <= M)%Z ->
  harmonic 0 M M theta (ph_ (2 * M) k) - RtoC (sgn M) * harmonic 0 M (- M) theta (ph_ (2 * M) k) = RtoC 0.
Proof.
  intros HM. set (phi := ph_ (2 * M) k).
  assert (E : RtoC (sgn M) * harmonic 0 M (- M) theta phi = Cconj (harmonic 0 M M theta phi)).
  { unfold harmonic. rewrite SWSH_value_conj. reflexivity. }
  rewrite E, harmonic_phase, hpoly_harmonic, Cconj_mult, hpoly_real.
  assert (P : cis (IZR M * phi) = Cconj (cis (IZR M * phi))).
  { assert (A : (IZR M * phi = IZR k * PI)%R). { unfold phi, ph_. rewrite mult_IZR. field. apply (IZR_neq _ 0). lia. }
    rewrite A. unfold cis, Cconj. cbn [fst snd]. f_equal. rewrite sin_eq_0_1; [ring|]. exists k. reflexivity. }
  rewrite <- P. ring.
Qed.
