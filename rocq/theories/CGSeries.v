(** The 3-j symbol is invariant under rotations, and the Clebsch-Gordan series of products of D matrices.
    Purely mathematical; nothing here models code. *)
Require Import ZArith Lia Reals Lra Bool.
From Coquelicot Require Import Complex.
From Verif Require Import CBase CSum RSum Fact SymPow DRep WignerSpec ThreeJSpec ThreeJ ThreeJ2 ThreeJ3.
Open Scope C_scope.

(** ** Three-index arrays *)
Definition ap1 (N : Z) (A : Z -> Z -> C) (u : Z -> Z -> Z -> C) : Z -> Z -> Z -> C :=
  fun p1 p2 p3 => csum 0 N (fun q => A p1 q * u q p2 p3).
Definition ap2 (N : Z) (A : Z -> Z -> C) (u : Z -> Z -> Z -> C) : Z -> Z -> Z -> C :=
  fun p1 p2 p3 => csum 0 N (fun q => A p2 q * u p1 q p3).
Definition ap3 (N : Z) (A : Z -> Z -> C) (u : Z -> Z -> Z -> C) : Z -> Z -> Z -> C :=
  fun p1 p2 p3 => csum 0 N (fun q => A p3 q * u p1 p2 q).

Section Three.
Context (N1 N2 N3 : Z).
Definition rng (p1 p2 p3 : Z) : Prop := (0 <= p1 <= N1 /\ 0 <= p2 <= N2 /\ 0 <= p3 <= N3)%Z.
Definition eq3 (u v : Z -> Z -> Z -> C) : Prop := forall p1 p2 p3, rng p1 p2 p3 -> u p1 p2 p3 = v p1 p2 p3.

Lemma eq3_trans u v w : eq3 u v -> eq3 v w -> eq3 u w.
Proof. intros H1 H2 p1 p2 p3 H. now rewrite H1, H2. Qed.
Lemma eq3_sym u v : eq3 u v -> eq3 v u.
Proof. intros H p1 p2 p3 R. symmetry. auto. Qed.
Lemma ap1_ext A u v : eq3 u v -> eq3 (ap1 N1 A u) (ap1 N1 A v).
Proof. intros H p1 p2 p3 R. unfold ap1. apply csum_ext. intros q Hq. f_equal. apply H. unfold rng in *; lia. Qed.
Lemma ap2_ext A u v : eq3 u v -> eq3 (ap2 N2 A u) (ap2 N2 A v).
Proof. intros H p1 p2 p3 R. unfold ap2. apply csum_ext. intros q Hq. f_equal. apply H. unfold rng in *; lia. Qed.
Lemma ap3_ext A u v : eq3 u v -> eq3 (ap3 N3 A u) (ap3 N3 A v).
Proof. intros H p1 p2 p3 R. unfold ap3. apply csum_ext. intros q Hq. f_equal. apply H. unfold rng in *; lia. Qed.

Lemma ap12 A B u : eq3 (ap1 N1 A (ap2 N2 B u)) (ap2 N2 B (ap1 N1 A u)).
Proof.
  intros p1 p2 p3 _. unfold ap1, ap2.
  rewrite (csum_ext _ _ _ (fun q => csum 0 N2 (fun r => A p1 q * (B p2 r * u q r p3)))) by (intros; now rewrite csum_scal).
  rewrite csum_swap. apply csum_ext. intros r _. rewrite <- csum_scal. apply csum_ext. intros. ring.
Qed.
Lemma ap13 A B u : eq3 (ap1 N1 A (ap3 N3 B u)) (ap3 N3 B (ap1 N1 A u)).
Proof.
  intros p1 p2 p3 _. unfold ap1, ap3.
  rewrite (csum_ext _ _ _ (fun q => csum 0 N3 (fun r => A p1 q * (B p3 r * u q p2 r)))) by (intros; now rewrite csum_scal).
  rewrite csum_swap. apply csum_ext. intros r _. rewrite <- csum_scal. apply csum_ext. intros. ring.
Qed.
Lemma ap23 A B u : eq3 (ap2 N2 A (ap3 N3 B u)) (ap3 N3 B (ap2 N2 A u)).
Proof.
  intros p1 p2 p3 _. unfold ap2, ap3.
  rewrite (csum_ext _ _ _ (fun q => csum 0 N3 (fun r => A p2 q * (B p3 r * u p1 q r)))) by (intros; now rewrite csum_scal).
  rewrite csum_swap. apply csum_ext. intros r _. rewrite <- csum_scal. apply csum_ext. intros. ring.
Qed.

Definition isprod (N : Z) (P A B : Z -> Z -> C) : Prop :=
  forall p r, (0 <= p <= N)%Z -> (0 <= r <= N)%Z -> P p r = csum 0 N (fun q => A p q * B q r).
Lemma prod_sum N P A B (f : Z -> C) p : isprod N P A B -> (0 <= p <= N)%Z ->
  csum 0 N (fun r => P p r * f r) = csum 0 N (fun q => A p q * csum 0 N (fun r => B q r * f r)).
Proof.
  intros HP Hp.
  rewrite (csum_ext _ _ _ (fun r => csum 0 N (fun q => A p q * (B q r * f r)))).
  2:{ intros r Hr. rewrite HP by lia. rewrite <- csum_scal_r. apply csum_ext. intros; ring. }
  rewrite csum_swap. apply csum_ext. intros q _. now rewrite csum_scal.
Qed.
Lemma ap1_prod P A B u : isprod N1 P A B -> eq3 (ap1 N1 P u) (ap1 N1 A (ap1 N1 B u)).
Proof. intros H p1 p2 p3 R. unfold ap1. apply (prod_sum N1 P A B (fun r => u r p2 p3) p1 H). unfold rng in R; lia. Qed.
Lemma ap2_prod P A B u : isprod N2 P A B -> eq3 (ap2 N2 P u) (ap2 N2 A (ap2 N2 B u)).
Proof. intros H p1 p2 p3 R. unfold ap2. apply (prod_sum N2 P A B (fun r => u p1 r p3) p2 H). unfold rng in R; lia. Qed.
Lemma ap3_prod P A B u : isprod N3 P A B -> eq3 (ap3 N3 P u) (ap3 N3 A (ap3 N3 B u)).
Proof. intros H p1 p2 p3 R. unfold ap3. apply (prod_sum N3 P A B (fun r => u p1 p2 r) p3 H). unfold rng in R; lia. Qed.

Definition ap (A1 A2 A3 : Z -> Z -> C) (u : Z -> Z -> Z -> C) := ap1 N1 A1 (ap2 N2 A2 (ap3 N3 A3 u)).
Lemma ap_ext A1 A2 A3 u v : eq3 u v -> eq3 (ap A1 A2 A3 u) (ap A1 A2 A3 v).
Proof. intros H. apply ap1_ext, ap2_ext, ap3_ext, H. Qed.
Lemma ap_prod P1 P2 P3 A1 A2 A3 B1 B2 B3 u : isprod N1 P1 A1 B1 -> isprod N2 P2 A2 B2 -> isprod N3 P3 A3 B3 ->
  eq3 (ap P1 P2 P3 u) (ap A1 A2 A3 (ap B1 B2 B3 u)).
Proof.
  intros H1 H2 H3. unfold ap.
  eapply eq3_trans; [apply ap1_ext, ap2_ext, (ap3_prod _ _ _ _ H3)|].
  eapply eq3_trans; [apply ap1_ext, (ap2_prod _ _ _ _ H2)|].
  eapply eq3_trans; [apply (ap1_prod _ _ _ _ H1)|]. apply ap1_ext.
  eapply eq3_trans; [apply ap12|]. apply ap2_ext.
  eapply eq3_trans; [apply ap1_ext, ap23|]. eapply eq3_trans; [apply ap13|]. apply ap3_ext.
  apply eq3_sym. intros p1 p2 p3 _. reflexivity.
Qed.
End Three.

(** ** The unnormalised symbol *)
Definition UU (j1 j2 j3 p1 p2 p3 : Z) : R :=
  (sqrt (wt (2 * j1) p1) * sqrt (wt (2 * j2) p2) * sqrt (wt (2 * j3) p3)
   * threej j1 j2 j3 (p1 - j1) (p2 - j2) (p3 - j3))%R.

Lemma wt_lower j p : (0 < p <= 2 * j)%Z ->
  (IZR p * sqrt (wt (2 * j) (p - 1)) = cp j (- (p - j)) * sqrt (wt (2 * j) p))%R.
Proof.
  intros H. unfold cp. rewrite <- sqrt_mult_alt by (apply IZR_le; apply Z.mul_nonneg_nonneg; lia).
  rewrite <- (sqrt_Rsqr (IZR p)) at 1 by (apply IZR_le; lia).
  rewrite <- sqrt_mult_alt by apply Rle_0_sqr. f_equal. unfold Rsqr, wt.
  rewrite (fct_pred p) by lia. replace (2 * j - (p - 1))%Z with ((2 * j - p) + 1)%Z by lia. rewrite fct_succ by lia.
  replace (j - - (p - j))%Z with p by lia. replace (j + - (p - j) + 1)%Z with (2 * j - p + 1)%Z by lia.
  rewrite mult_IZR. ring.
Qed.

Lemma UU_lower j1 j2 j3 p1 p2 p3 : rng (2 * j1) (2 * j2) (2 * j3) p1 p2 p3 ->
  (IZR p1 * UU j1 j2 j3 (p1 - 1) p2 p3 + IZR p2 * UU j1 j2 j3 p1 (p2 - 1) p3 + IZR p3 * UU j1 j2 j3 p1 p2 (p3 - 1) = 0)%R.
Proof.
  intros R. unfold UU.
  destruct (Z.eq_dec ((p1 - j1) + (p2 - j2) + (p3 - j3)) 1) as [S|S].
  2:{ rewrite !threej_out by (unfold tj_allowed; lia). ring. }
  pose proof (threej_lower j1 j2 j3 (p1 - j1) (p2 - j2) (p3 - j3) S) as L.
  assert (W : forall j p x, (0 <= p <= 2 * j)%Z ->
    (IZR p * (sqrt (wt (2 * j) (p - 1)) * x) = cp j (- (p - j)) * sqrt (wt (2 * j) p) * x)%R).
  { intros j p x Hp. destruct (Z.eq_dec p 0) as [->|]; [|rewrite <- wt_lower by lia; ring].
    unfold cp. replace ((j - - (0 - j)) * (j + - (0 - j) + 1))%Z with 0%Z by ring. rewrite sqrt_0. ring. }
  unfold rng in R. replace (p1 - 1 - j1)%Z with (p1 - j1 - 1)%Z by lia.
  replace (p2 - 1 - j2)%Z with (p2 - j2 - 1)%Z by lia. replace (p3 - 1 - j3)%Z with (p3 - j3 - 1)%Z by lia.
  set (t1 := threej _ _ _ (p1 - j1 - 1) _ _) in *. set (t2 := threej _ _ _ _ (p2 - j2 - 1) _) in *.
  set (t3 := threej _ _ _ _ _ (p3 - j3 - 1)) in *.
  pose proof (W j1 p1 (sqrt (wt (2 * j2) p2) * sqrt (wt (2 * j3) p3) * t1)%R ltac:(lia)) as W1.
  pose proof (W j2 p2 (sqrt (wt (2 * j1) p1) * sqrt (wt (2 * j3) p3) * t2)%R ltac:(lia)) as W2.
  pose proof (W j3 p3 (sqrt (wt (2 * j1) p1) * sqrt (wt (2 * j2) p2) * t3)%R ltac:(lia)) as W3.
  transitivity (sqrt (wt (2 * j1) p1) * sqrt (wt (2 * j2) p2) * sqrt (wt (2 * j3) p3)
    * (cp j1 (- (p1 - j1)) * t1 + cp j2 (- (p2 - j2)) * t2 + cp j3 (- (p3 - j3)) * t3))%R; [|rewrite L; ring].
  rewrite <- !Rmult_assoc in *. lra.
Qed.

Lemma wt_refl N p : wt N (N - p) = wt N p.
Proof. unfold wt. replace (N - (N - p))%Z with p by lia. ring. Qed.
Lemma UU_reflect j1 j2 j3 p1 p2 p3 :
  UU j1 j2 j3 (2 * j1 - p1) (2 * j2 - p2) (2 * j3 - p3) = (sgn (j1 + j2 + j3) * UU j1 j2 j3 p1 p2 p3)%R.
Proof.
  unfold UU. rewrite !wt_refl. replace (2 * j1 - p1 - j1)%Z with (- (p1 - j1))%Z by lia.
  replace (2 * j2 - p2 - j2)%Z with (- (p2 - j2))%Z by lia. replace (2 * j3 - p3 - j3)%Z with (- (p3 - j3))%Z by lia.
  rewrite threej_neg. ring.
Qed.

(** ** Invariance *)
Lemma bin_down p k : (0 <= p)%Z -> (IZR (k + 1) * bin p (k + 1) = IZR (p - k) * bin p k)%R.
Proof.
  intros. rewrite !bin_fct by auto. replace (p - (k + 1))%Z with (p - k - 1)%Z by lia.
  rewrite <- (ifct_step (p - k)). pose proof (ifct_step (k + 1)) as E. replace (k + 1 - 1)%Z with k in E by lia.
  rewrite <- E. ring.
Qed.

Section Inv.
Context (j1 j2 j3 : Z).
Let N1 := (2 * j1)%Z. Let N2 := (2 * j2)%Z. Let N3 := (2 * j3)%Z.
Let u p1 p2 p3 := RtoC (UU j1 j2 j3 p1 p2 p3).
Definition SM (a b c d : C) (N p q : Z) : C := sp a b c d (Z.to_nat p) (Z.to_nat (N - p)) q.
Definition inv (a b c d : C) : Prop :=
  eq3 N1 N2 N3 (ap N1 N2 N3 (SM a b c d N1) (SM a b c d N2) (SM a b c d N3) u) u.

Definition wk p1 p2 p3 k1 k2 k3 : C := RtoC (bin p1 k1 * bin p2 k2 * bin p3 k3) * u (p1 - k1)%Z (p2 - k2)%Z (p3 - k3)%Z.
Definition cn p1 p2 p3 n : C := csum 0 p1 (fun k1 => csum 0 p2 (fun k2 => wk p1 p2 p3 k1 k2 (n - k1 - k2))).

Lemma cn_zero p1 p2 p3 n : rng N1 N2 N3 p1 p2 p3 -> n <> 0%Z -> cn p1 p2 p3 n = RtoC 0.
Proof.
  intros R Hn. assert (E : RtoC (IZR n) * cn p1 p2 p3 n = RtoC 0).
  2:{ apply Cmult_integral in E. destruct E as [E|E]; auto. apply RtoC_inj in E. apply eq_IZR in E. contradiction. }
  unfold cn. rewrite <- csum_scal.
  set (B k1 k2 := RtoC (bin p1 k1 * bin p2 k2 * bin p3 (n - 1 - k1 - k2))).
  set (P k1 k2 := (p3 - (n - 1 - k1 - k2))%Z).
  (* the three parts *)
  assert (H1 : csum 0 p1 (fun k1 => csum 0 p2 (fun k2 => RtoC (IZR k1) * wk p1 p2 p3 k1 k2 (n - k1 - k2)))
    = csum 0 p1 (fun k1 => csum 0 p2 (fun k2 => B k1 k2 * RtoC (IZR (p1 - k1)) * u (p1 - k1 - 1)%Z (p2 - k2)%Z (P k1 k2)))).
  { rewrite (csum_shift _ _ (-1)).
    rewrite (csum_ext _ _ _ (fun k1 => csum 0 p2 (fun k2 => B k1 k2 * RtoC (IZR (p1 - k1)) * u (p1 - k1 - 1)%Z (p2 - k2)%Z (P k1 k2)))).
    2:{ intros k1 _. apply csum_ext. intros k2 _. replace (k1 - -1)%Z with (k1 + 1)%Z by lia. unfold wk.
        replace (n - (k1 + 1) - k2)%Z with (n - 1 - k1 - k2)%Z by lia. replace (p1 - (k1 + 1))%Z with (p1 - k1 - 1)%Z by lia.
        fold (P k1 k2). unfold B. rewrite Cmult_assoc, <- !RtoC_mult. f_equal. f_equal.
        pose proof (bin_down p1 k1 ltac:(unfold rng in R; lia)) as E.
        rewrite <- !Rmult_assoc. rewrite E. ring. }
    apply csum_window; intros k1 H H'.
    - apply csum_zero. intros k2 _. assert (k1 = p1 \/ k1 > p1)%Z as [->|] by (unfold rng in R; lia).
      + replace (p1 - p1)%Z with 0%Z by lia. ring.
      + unfold B. rewrite (bin_out p1 k1) by lia. rewrite !Rmult_0_l. ring.
    - apply csum_zero. intros k2 _. unfold B. rewrite (bin_out p1 k1) by lia. rewrite !Rmult_0_l. ring. }
  assert (H2 : csum 0 p1 (fun k1 => csum 0 p2 (fun k2 => RtoC (IZR k2) * wk p1 p2 p3 k1 k2 (n - k1 - k2)))
    = csum 0 p1 (fun k1 => csum 0 p2 (fun k2 => B k1 k2 * RtoC (IZR (p2 - k2)) * u (p1 - k1)%Z (p2 - k2 - 1)%Z (P k1 k2)))).
  { apply csum_ext. intros k1 _. rewrite (csum_shift _ _ (-1)).
    rewrite (csum_ext _ _ _ (fun k2 => B k1 k2 * RtoC (IZR (p2 - k2)) * u (p1 - k1)%Z (p2 - k2 - 1)%Z (P k1 k2))).
    2:{ intros k2 _. replace (k2 - -1)%Z with (k2 + 1)%Z by lia. unfold wk.
        replace (n - k1 - (k2 + 1))%Z with (n - 1 - k1 - k2)%Z by lia. replace (p2 - (k2 + 1))%Z with (p2 - k2 - 1)%Z by lia.
        fold (P k1 k2). unfold B. rewrite Cmult_assoc, <- !RtoC_mult. f_equal. f_equal.
        pose proof (bin_down p2 k2 ltac:(unfold rng in R; lia)) as E.
        transitivity (bin p1 k1 * (IZR (k2 + 1) * bin p2 (k2 + 1)) * bin p3 (n - 1 - k1 - k2))%R; [ring|]. rewrite E. ring. }
    apply csum_window; intros k2 H H'.
    - assert (k2 = p2 \/ k2 > p2)%Z as [->|] by (unfold rng in R; lia).
      + replace (p2 - p2)%Z with 0%Z by lia. ring.
      + unfold B. rewrite (bin_out p2 k2) by lia. rewrite Rmult_0_r, Rmult_0_l. ring.
    - unfold B. rewrite (bin_out p2 k2) by lia. rewrite Rmult_0_r, Rmult_0_l. ring. }
  assert (H3 : csum 0 p1 (fun k1 => csum 0 p2 (fun k2 => RtoC (IZR (n - k1 - k2)) * wk p1 p2 p3 k1 k2 (n - k1 - k2)))
    = csum 0 p1 (fun k1 => csum 0 p2 (fun k2 => B k1 k2 * RtoC (IZR (P k1 k2)) * u (p1 - k1)%Z (p2 - k2)%Z (P k1 k2 - 1)%Z))).
  { apply csum_ext. intros k1 _. apply csum_ext. intros k2 _. unfold wk.
    pose proof (bin_down p3 (n - 1 - k1 - k2) ltac:(unfold rng in R; lia)) as E.
    replace (n - 1 - k1 - k2 + 1)%Z with (n - k1 - k2)%Z in E by lia. fold (P k1 k2) in E.
    replace (p3 - (n - k1 - k2))%Z with (P k1 k2 - 1)%Z by (unfold P; lia).
    unfold B. rewrite Cmult_assoc, <- !RtoC_mult. f_equal. f_equal.
    transitivity (bin p1 k1 * bin p2 k2 * (IZR (n - k1 - k2) * bin p3 (n - k1 - k2)))%R; [ring|]. rewrite E. ring. }
  transitivity (csum 0 p1 (fun k1 => csum 0 p2 (fun k2 => RtoC (IZR k1) * wk p1 p2 p3 k1 k2 (n - k1 - k2)))
    + csum 0 p1 (fun k1 => csum 0 p2 (fun k2 => RtoC (IZR k2) * wk p1 p2 p3 k1 k2 (n - k1 - k2)))
    + csum 0 p1 (fun k1 => csum 0 p2 (fun k2 => RtoC (IZR (n - k1 - k2)) * wk p1 p2 p3 k1 k2 (n - k1 - k2)))).
  { rewrite <- !csum_plus. apply csum_ext. intros k1 _. rewrite <- csum_scal, <- !csum_plus. apply csum_ext. intros k2 _.
    rewrite <- !Cmult_plus_distr_r. f_equal. rewrite <- !RtoC_plus, <- !plus_IZR. do 2 f_equal. lia. }
  rewrite H1, H2, H3, <- !csum_plus. apply csum_zero. intros k1 Hk1. rewrite <- !csum_plus. apply csum_zero. intros k2 Hk2.
  destruct (Z_le_dec 0 (P k1 k2)) as [L|L]; [destruct (Z_le_dec (P k1 k2) N3) as [L'|L']|].
  - transitivity (B k1 k2 * RtoC (IZR (p1 - k1) * UU j1 j2 j3 (p1 - k1 - 1) (p2 - k2) (P k1 k2)
      + IZR (p2 - k2) * UU j1 j2 j3 (p1 - k1) (p2 - k2 - 1) (P k1 k2)
      + IZR (P k1 k2) * UU j1 j2 j3 (p1 - k1) (p2 - k2) (P k1 k2 - 1))).
    { unfold u. rewrite !RtoC_plus, !RtoC_mult. ring. }
    rewrite UU_lower; [ring|]. unfold rng in *. unfold N1, N2, N3 in *. lia.
  - unfold B. rewrite (bin_out p3) by (unfold P, rng in *; lia). rewrite Rmult_0_r. ring.
  - unfold B. rewrite (bin_out p3) by (unfold P, rng in *; lia). rewrite Rmult_0_r. ring.
Qed.

Lemma sp_lower t N p q : (0 <= p <= N)%Z ->
  SM (RtoC 1) t (RtoC 0) (RtoC 1) N p q = RtoC (bin p (p - q)) * Cpow t (Z.to_nat (p - q)).
Proof.
  intros Hp. unfold SM. rewrite (sp_closed _ _ _ _ _ _ q (Z.min 0 q) (Z.max p q)) by lia. rewrite !Z2Nat.id by lia.
  rewrite (csum_delta _ _ q); [|lia|].
  2:{ intros i _ Hi. unfold term at 2. destruct (Z_lt_ge_dec (q - i) 0); [rewrite bin_out by lia; ring|].
      replace (Z.to_nat (q - i)) with (S (Z.to_nat (q - i - 1))) by lia. cbn [Cpow]. ring. }
  unfold term. replace (q - q)%Z with 0%Z by lia. rewrite bin_0 by lia. cbn [Z.to_nat Cpow].
  rewrite Cpow_1, Z.sub_0_r, Cpow_1. rewrite (bin_sym p q) by lia. ring.
Qed.

Lemma inv_lower t : inv (RtoC 1) t (RtoC 0) (RtoC 1).
Proof.
  intros p1 p2 p3 R. unfold ap, ap1, ap2, ap3. assert (R' := R). unfold rng in R'.
  set (f := fun k1 k2 k3 : Z => Cpow t (Z.to_nat (k1 + k2 + k3)) * wk p1 p2 p3 k1 k2 k3).
  (* restrict the sums and count down from p *)
  assert (SUM : forall N p (g : Z -> C), (0 <= p <= N)%Z ->
    csum 0 N (fun q => SM (RtoC 1) t (RtoC 0) (RtoC 1) N p q * g q)
    = csum 0 p (fun k => RtoC (bin p k) * Cpow t (Z.to_nat k) * g (p - k)%Z)).
  { intros N p g Hp. rewrite (csum_flip 0 p p) by lia.
    rewrite (csum_widen 0 p 0 N) by solve [lia | intros i _ Hi; rewrite bin_out by lia; ring].
    apply csum_ext. intros q _. rewrite sp_lower by auto. replace (p - (p - q))%Z with q by lia. auto. }
  rewrite SUM by lia.
  rewrite (csum_ext _ _ _ (fun k1 => csum 0 p2 (fun k2 => csum 0 p3 (fun k3 => f k1 k2 k3)))).
  2:{ intros k1 H1. rewrite SUM by lia. rewrite <- csum_scal. apply csum_ext. intros k2 H2. rewrite SUM by lia.
      rewrite <- !csum_scal. apply csum_ext. intros k3 H3. unfold f, wk.
      replace (Z.to_nat (k1 + k2 + k3)) with (Z.to_nat k1 + Z.to_nat k2 + Z.to_nat k3)%nat by lia.
      rewrite !Cpow_add, !RtoC_mult. ring. }
  set (M := (p1 + p2 + p3)%Z).
  rewrite (csum_ext _ _ _ (fun k1 => csum 0 M (fun n => csum 0 p2 (fun k2 => f k1 k2 (n - k1 - k2)%Z)))).
  2:{ intros k1 H1. symmetry. rewrite csum_swap. symmetry. apply csum_ext. intros k2 H2. rewrite (csum_shift _ _ (k1 + k2)).
      rewrite (csum_ext _ _ _ (fun n => f k1 k2 (n - k1 - k2)%Z)) by (intros; f_equal; lia).
      apply csum_widen; unfold M; try lia. intros i _ Hi. unfold f, wk. rewrite (bin_out p3) by lia. rewrite Rmult_0_r. ring. }
  rewrite csum_swap.
  rewrite (csum_delta 0 M 0).
  - transitivity (cn p1 p2 p3 0).
    + unfold cn. apply csum_ext. intros k1 _. apply csum_ext. intros k2 _. unfold f.
      replace (k1 + k2 + (0 - k1 - k2))%Z with 0%Z by lia. cbn [Z.to_nat Cpow]. ring.
    + unfold cn. rewrite (csum_delta _ _ 0) by solve [lia | intros k1 H1 Hne; apply csum_zero; intros k2 H2; unfold wk;
        rewrite (bin_out p3) by lia; rewrite Rmult_0_r; ring].
      rewrite (csum_delta _ _ 0) by solve [lia | intros k2 H2 Hne; unfold wk; rewrite (bin_out p3) by lia; rewrite Rmult_0_r; ring].
      unfold wk. rewrite !Z.sub_0_r. rewrite !bin_0 by lia. rewrite !Rmult_1_r. ring.
  - unfold M; lia.
  - intros n Hn Hne. transitivity (Cpow t (Z.to_nat n) * cn p1 p2 p3 n); [|rewrite cn_zero by auto; ring].
    unfold cn. rewrite <- csum_scal. apply csum_ext. intros k1 _. rewrite <- csum_scal. apply csum_ext. intros k2 _. unfold f.
    do 2 f_equal. lia.
Qed.

Lemma SM_reverse a b c d N p q : (0 <= p <= N)%Z -> SM d c b a N (N - p) (N - q) = SM a b c d N p q.
Proof.
  intros. unfold SM. rewrite <- (sp_reverse a b c d). replace (N - (N - p))%Z with p by lia.
  replace (Z.of_nat (Z.to_nat p + Z.to_nat (N - p)) - q)%Z with (N - q)%Z by lia. auto.
Qed.

Lemma inv_reverse a b c d : inv a b c d -> inv d c b a.
Proof.
  intros H p1 p2 p3 R. specialize (H (N1 - p1) (N2 - p2) (N3 - p3))%Z. unfold rng in *.
  specialize (H ltac:(lia)). unfold ap, ap1, ap2, ap3 in *.
  assert (UR : forall q1 q2 q3, u (N1 - q1)%Z (N2 - q2)%Z (N3 - q3)%Z = RtoC (sgn (j1 + j2 + j3)) * u q1 q2 q3).
  { intros. unfold u, N1, N2, N3. now rewrite UU_reflect, RtoC_mult. }
  rewrite UR in H.
  transitivity (RtoC (sgn (j1 + j2 + j3)) * (RtoC (sgn (j1 + j2 + j3)) * u p1 p2 p3)).
  2:{ rewrite Cmult_assoc, <- RtoC_mult, sgn_sqr. ring. }
  rewrite <- H, <- csum_scal. rewrite (csum_flip 0 N1 N1) by lia. apply csum_ext. intros q1 H1.
  rewrite (csum_flip 0 N2 N2) by lia. rewrite <- !csum_scal. apply csum_ext. intros q2 H2.
  rewrite (csum_flip 0 N3 N3) by lia. rewrite <- !csum_scal. apply csum_ext. intros q3 H3.
  rewrite <- (SM_reverse d c b a N1 p1), <- (SM_reverse d c b a N2 p2), <- (SM_reverse d c b a N3 p3) by lia.
  replace (N1 - (N1 - q1))%Z with q1 by lia. replace (N2 - (N2 - q2))%Z with q2 by lia. replace (N3 - (N3 - q3))%Z with q3 by lia.
  rewrite UR. ring.
Qed.

Lemma inv_diag a d : a * d = RtoC 1 -> inv a (RtoC 0) (RtoC 0) d.
Proof.
  intros Had p1 p2 p3 R. unfold rng in R. unfold ap, ap1, ap2, ap3.
  assert (SUM : forall N p (g : Z -> C), (0 <= p <= N)%Z ->
    csum 0 N (fun q => SM a (RtoC 0) (RtoC 0) d N p q * g q) = Cpow a (Z.to_nat p) * Cpow d (Z.to_nat (N - p)) * g p).
  { intros N p g Hp. rewrite (csum_delta 0 N p) by solve [lia | intros i _ Hi; unfold SM; rewrite sp_diag;
      destruct (Z.eqb_spec i (Z.of_nat (Z.to_nat p))); [lia|ring]].
    unfold SM. rewrite sp_diag. destruct (Z.eqb_spec p (Z.of_nat (Z.to_nat p))); [auto|lia]. }
  rewrite !SUM by lia.
  destruct (Z.eq_dec (p1 - j1 + (p2 - j2) + (p3 - j3)) 0) as [E|E].
  - transitivity (Cpow (a * d) (Z.to_nat (p1 + p2 + p3)) * u p1 p2 p3); [|rewrite Had, Cpow_1; ring].
    rewrite Cpow_mul. replace (Z.to_nat (p1 + p2 + p3)) with (Z.to_nat p1 + Z.to_nat p2 + Z.to_nat p3)%nat at 1 by lia.
    replace (Z.to_nat (p1 + p2 + p3)) with (Z.to_nat (N1 - p1) + Z.to_nat (N2 - p2) + Z.to_nat (N3 - p3))%nat by (unfold N1, N2, N3 in *; lia).
    rewrite !Cpow_add. ring.
  - unfold u, UU. rewrite threej_out by (unfold tj_allowed; lia). rewrite Rmult_0_r. ring.
Qed.

Lemma SM_prod a b c d a' b' c' d' N :
  isprod N (SM (a * a' + b * c') (a * b' + b * d') (c * a' + d * c') (c * b' + d * d') N) (SM a b c d N) (SM a' b' c' d' N).
Proof.
  intros p r Hp Hr. unfold SM. rewrite sp_product. replace (Z.of_nat (Z.to_nat p + Z.to_nat (N - p))) with N by lia. auto.
Qed.
Lemma inv_mul a b c d a' b' c' d' : inv a b c d -> inv a' b' c' d' ->
  inv (a * a' + b * c') (a * b' + b * d') (c * a' + d * c') (c * b' + d * d').
Proof.
  intros H H'. unfold inv.
  eapply eq3_trans; [apply ap_prod; apply SM_prod|].
  eapply eq3_trans; [apply ap_ext, H'|]. exact H.
Qed.

Lemma inv_eq a b c d a' b' c' d' : inv a' b' c' d' -> a = a' -> b = b' -> c = c' -> d = d' -> inv a b c d.
Proof. intros H -> -> -> ->. auto. Qed.
Lemma inv_a a b c d : a <> RtoC 0 -> a * d - b * c = RtoC 1 -> inv a b c d.
Proof.
  intros Ha Hdet.
  assert (U : inv (RtoC 1) (RtoC 0) (c / a) (RtoC 1)) by apply inv_reverse, inv_lower.
  apply (inv_eq _ _ _ _ _ _ _ _ (inv_mul _ _ _ _ _ _ _ _ (inv_mul _ _ _ _ _ _ _ _ U (inv_diag a (/ a) ltac:(field; auto))) (inv_lower (b / a))));
    try (field; auto).
  replace d with ((RtoC 1 + b * c) / a) by (rewrite <- Hdet; field; auto). field. auto.
Qed.
Lemma inv_det a b c d : a * d - b * c = RtoC 1 -> inv a b c d.
Proof.
  intros Hdet. destruct (Ceq_dec a (RtoC 0)) as [->|Ha]; [|now apply inv_a].
  assert (Hc : c <> RtoC 0).
  { intros ->. assert (E : RtoC 0 = RtoC 1) by (rewrite <- Hdet; ring). apply RtoC_inj in E. lra. }
  apply (inv_eq _ _ _ _ _ _ _ _ (inv_mul _ _ _ _ _ _ _ _ (inv_lower (- RtoC 1)) (inv_a c (b + d) c d Hc ltac:(rewrite <- Hdet; ring)))); ring.
Qed.
End Inv.

(** ** The symbol is a fixed vector of D x D x D *)
Definition V3 (j1 j2 j3 p1 p2 p3 : Z) : C := RtoC (threej j1 j2 j3 (p1 - j1) (p2 - j2) (p3 - j3)).

Lemma D_invariance j1 j2 j3 a b : a * Cconj a + b * Cconj b = RtoC 1 ->
  let D N := fun p q => Dm N p q a b in
  eq3 (2 * j1) (2 * j2) (2 * j3) (ap (2 * j1) (2 * j2) (2 * j3) (D (2 * j1)%Z) (D (2 * j2)%Z) (D (2 * j3)%Z) (V3 j1 j2 j3)) (V3 j1 j2 j3).
Proof.
  intros U D p1 p2 p3 R.
  pose proof (inv_det j1 j2 j3 a (- Cconj b) b (Cconj a) ltac:(rewrite <- U; ring) p1 p2 p3 R) as H.
  unfold ap, ap1, ap2, ap3 in *. unfold V3 at 2.
  set (w1 := sqrt (wt (2 * j1) p1)). set (w2 := sqrt (wt (2 * j2) p2)). set (w3 := sqrt (wt (2 * j3) p3)).
  assert (N1 : RtoC w1 <> RtoC 0) by (apply RtoC_neq0, sqrt_wt_neq0).
  assert (N2 : RtoC w2 <> RtoC 0) by (apply RtoC_neq0, sqrt_wt_neq0).
  assert (N3 : RtoC w3 <> RtoC 0) by (apply RtoC_neq0, sqrt_wt_neq0).
  transitivity (/ (RtoC w1 * RtoC w2 * RtoC w3) * RtoC (UU j1 j2 j3 p1 p2 p3)).
  2:{ unfold UU. fold w1 w2 w3. rewrite !RtoC_mult. field. auto. }
  rewrite <- H. rewrite <- csum_scal. apply csum_ext. intros q1 H1. rewrite <- !csum_scal.
  apply csum_ext. intros q2 H2. rewrite <- !csum_scal. apply csum_ext. intros q3 H3.
  unfold D. rewrite !Dm_wt. fold w1 w2 w3. rewrite !RtoC_div by apply sqrt_wt_neq0. fold (SM a (- Cconj b) b (Cconj a) (2 * j1) p1 q1).
  fold (SM a (- Cconj b) b (Cconj a) (2 * j2) p2 q2). fold (SM a (- Cconj b) b (Cconj a) (2 * j3) p3 q3).
  unfold UU, V3. rewrite !RtoC_mult. field. auto.
Qed.

Lemma ap1_id N1 N2 N3 A u : (forall p q, (0 <= p <= N1)%Z -> (0 <= q <= N1)%Z -> A p q = if (p =? q)%Z then RtoC 1 else RtoC 0) ->
  eq3 N1 N2 N3 (ap1 N1 A u) u.
Proof.
  intros H p1 p2 p3 R. unfold ap1, rng in *. rewrite (csum_delta 0 N1 p1).
  - rewrite H, Z.eqb_refl by lia. ring.
  - lia.
  - intros i Hi Hne. rewrite H by lia. destruct (Z.eqb_spec p1 i); [lia|ring].
Qed.
Lemma ap3_id N1 N2 N3 A u : (forall p q, (0 <= p <= N3)%Z -> (0 <= q <= N3)%Z -> A p q = if (p =? q)%Z then RtoC 1 else RtoC 0) ->
  eq3 N1 N2 N3 (ap3 N3 A u) u.
Proof.
  intros H p1 p2 p3 R. unfold ap3, rng in *. rewrite (csum_delta 0 N3 p3).
  - rewrite H, Z.eqb_refl by lia. ring.
  - lia.
  - intros i Hi Hne. rewrite H by lia. destruct (Z.eqb_spec p3 i); [lia|ring].
Qed.

Lemma D_two j1 j2 j3 a b : a * Cconj a + b * Cconj b = RtoC 1 ->
  let D N := fun p q => Dm N p q a b in
  eq3 (2 * j1) (2 * j2) (2 * j3)
    (ap1 (2 * j1) (D (2 * j1)%Z) (ap2 (2 * j2) (D (2 * j2)%Z) (V3 j1 j2 j3)))
    (ap3 (2 * j3) (fun p q => Cconj (Dm (2 * j3) q p a b)) (V3 j1 j2 j3)).
Proof.
  intros U D. set (N1 := (2 * j1)%Z). set (N2 := (2 * j2)%Z). set (N3 := (2 * j3)%Z).
  set (K := fun p q => Cconj (Dm N3 q p a b)).
  assert (I : eq3 N1 N2 N3 (ap3 N3 K (ap3 N3 (D N3) (V3 j1 j2 j3))) (V3 j1 j2 j3)).
  { eapply eq3_trans; [apply eq3_sym, (ap3_prod N1 N2 N3 (fun p r => csum 0 N3 (fun q => K p q * D N3 q r))); intros p r _ _; reflexivity|].
    apply ap3_id. intros p q Hp Hq. unfold K, D. apply Dm_unitary'; auto. }
  eapply eq3_trans; [apply ap1_ext, ap2_ext, eq3_sym, I|].
  eapply eq3_trans; [apply ap1_ext, ap23|].
  eapply eq3_trans; [apply ap13|].
  apply ap3_ext. apply (D_invariance j1 j2 j3 a b U).
Qed.

Lemma csum_RtoC a b f : csum a b (fun i => RtoC (f i)) = RtoC (rsum a b f).
Proof.
  revert b. apply csum_ind with (a := a).
  - intros. now rewrite csum_empty, rsum_empty by auto.
  - intros b H IH. rewrite csum_last, rsum_last, IH, RtoC_plus by auto. auto.
Qed.

(** Column completeness in the form needed here *)
Lemma complete a b m n m' n' : (Z.abs m <= a)%Z -> (Z.abs n <= b)%Z -> (Z.abs m' <= a)%Z -> (Z.abs n' <= b)%Z ->
  rsum (jlo a b m' n') (a + b) (fun j => IZR (2 * j + 1) * (threej a b j m n (- m' - n') * GG a b m' n' j))%R
  = if (m =? m')%Z && (n =? n')%Z then 1%R else 0%R.
Proof.
  intros. destruct (Z.eq_dec (m + n) (m' + n')) as [E|E].
  - rewrite (rsum_ext _ _ _ (fun j => IZR (2 * j + 1) * (GG a b m n j * GG a b m' n' j))%R)
      by (intros; unfold GG; do 3 f_equal; lia).
    replace (jlo a b m' n') with (jlo a b m n) by (unfold jlo; rewrite E; auto).
    destruct (Z.eqb_spec m m') as [->|Hm]; cbn [andb].
    + assert (n = n') by lia. subst n'. rewrite Z.eqb_refl. now apply cols_norm.
    + now apply cols_orth.
  - rewrite rsum_zero.
    + destruct (Z.eqb_spec m m'), (Z.eqb_spec n n'); cbn [andb]; auto; lia.
    + intros j _. rewrite threej_out by (unfold tj_allowed; lia). ring.
Qed.

Theorem D_product a b m1 m1' m2 m2' x y : x * Cconj x + y * Cconj y = RtoC 1 ->
  (Z.abs m1 <= a)%Z -> (Z.abs m1' <= a)%Z -> (Z.abs m2 <= b)%Z -> (Z.abs m2' <= b)%Z ->
  Dm (2 * a) (a + m1) (a + m1') x y * Dm (2 * b) (b + m2) (b + m2') x y
  = csum (jlo a b m1' m2') (a + b) (fun j =>
      RtoC (IZR (2 * j + 1) * sgn (m1 + m2 - m1' - m2') * (GG a b m1 m2 j * GG a b m1' m2' j))
      * Dm (2 * j) (j + (m1 + m2)) (j + (m1' + m2')) x y).
Proof.
  intros U H1 H1' H2 H2'. set (M := (m1 + m2)%Z). set (M' := (m1' + m2')%Z).
  (* sum over j of the two-factor identity *)
  transitivity (csum (jlo a b m1' m2') (a + b) (fun j => RtoC (IZR (2 * j + 1) * GG a b m1' m2' j)
    * ap1 (2 * a) (fun p q => Dm (2 * a) p q x y) (ap2 (2 * b) (fun p q => Dm (2 * b) p q x y) (V3 a b j)) (a + m1)%Z (b + m2)%Z (j - M')%Z)).
  - unfold ap1, ap2.
    rewrite (csum_ext (jlo a b m1' m2') _ _ (fun j => csum 0 (2 * a) (fun q1 => csum 0 (2 * b) (fun q2 =>
      Dm (2 * a) (a + m1) q1 x y * Dm (2 * b) (b + m2) q2 x y
      * RtoC (IZR (2 * j + 1) * (threej a b j (q1 - a) (q2 - b) (- m1' - m2') * GG a b m1' m2' j)))))).
    2:{ intros j Hj. rewrite <- csum_scal. apply csum_ext. intros q1 _. rewrite <- !csum_scal. apply csum_ext. intros q2 _.
        unfold V3. replace (j - M' - j)%Z with (- m1' - m2')%Z by (unfold M'; lia). rewrite !RtoC_mult. ring. }
    rewrite csum_swap.
    assert (IN : forall q1, csum (jlo a b m1' m2') (a + b) (fun i => csum 0 (2 * b) (fun q2 =>
        Dm (2 * a) (a + m1) q1 x y * Dm (2 * b) (b + m2) q2 x y
        * RtoC (IZR (2 * i + 1) * (threej a b i (q1 - a) (q2 - b) (- m1' - m2') * GG a b m1' m2' i))))
      = csum 0 (2 * b) (fun q2 => Dm (2 * a) (a + m1) q1 x y * Dm (2 * b) (b + m2) q2 x y * RtoC (
         rsum (jlo a b m1' m2') (a + b) (fun i => IZR (2 * i + 1) * (threej a b i (q1 - a) (q2 - b) (- m1' - m2') * GG a b m1' m2' i))%R))).
    { intros q1. rewrite csum_swap. apply csum_ext. intros q2 _. now rewrite csum_scal, csum_RtoC. }
    rewrite (csum_ext _ _ _ _ (fun q1 _ => IN q1)).
    rewrite (csum_delta _ _ (a + m1')); [|lia|].
    + rewrite (csum_delta _ _ (b + m2')); [|lia|].
      * rewrite complete by lia. replace (a + m1' - a)%Z with m1' by lia. replace (b + m2' - b)%Z with m2' by lia.
        rewrite !Z.eqb_refl. cbn [andb]. ring.
      * intros q2 Hq Hne. rewrite complete by lia. destruct (Z.eqb_spec (q2 - b) m2'); [lia|]. rewrite andb_false_r. ring.
    + intros q1 Hq Hne. apply csum_zero. intros q2 Hq2. rewrite complete by lia.
      destruct (Z.eqb_spec (q1 - a) m1'); [lia|]. cbn [andb]. ring.
  - apply csum_ext. intros j Hj. unfold jlo in Hj.
    rewrite (D_two a b j x y U (a + m1)%Z (b + m2)%Z (j - M')%Z) by (unfold rng, M'; lia).
    unfold ap3, V3. replace (a + m1 - a)%Z with m1 by lia. replace (b + m2 - b)%Z with m2 by lia.
    destruct (Z_le_dec (Z.abs M) j) as [L|L].
    + rewrite (csum_delta _ _ (j - M)); [|lia|].
      * replace (j - M - j)%Z with (- m1 - m2)%Z by (unfold M; lia). fold (GG a b m1 m2 j).
        replace (j - M)%Z with (2 * j - (j + M))%Z by lia. replace (j - M')%Z with (2 * j - (j + M'))%Z by lia.
        rewrite Dm_reflect by (unfold M'; lia). rewrite Cconj_mult, Cconj_RtoC, Cconj_conj.
        replace (j + M - (j + M'))%Z with (M - m1' - m2')%Z by (unfold M, M'; lia). rewrite !RtoC_mult. ring.
      * intros i Hi Hne. rewrite threej_out; [ring|]. unfold tj_allowed, M in *. lia.
    + rewrite csum_zero; [|intros i Hi; rewrite threej_out; [ring|unfold tj_allowed, M in *; lia]].
      unfold GG at 2. rewrite threej_out by (unfold tj_allowed, M in *; lia). rewrite !Rmult_0_l, Rmult_0_r. ring.
Qed.
