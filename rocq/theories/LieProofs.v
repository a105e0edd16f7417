(** Derivatives of Wigner functions along one-parameter subgroups. *)
Require Import ZArith Lia Reals Lra List Bool.
From Coquelicot Require Import Complex Derive Hierarchy Rcomplements Continuity.
From Verif Require Import Base BaseProofs CBase CSum Fact SymPow WignerSpec DRep IndexModel WignerModel WignerProofs WignerProofs2 WignerProofs3 RotorSpec
  SWSHModel SWSHProofs WignerProps ModesModel ModesSpec ModesProofs ModesProofs2 ModesProofs3 LieSpec.
Open Scope C_scope.

Lemma Cderiv_ext F G d : (forall t, F t = G t) -> Cderiv F d -> Cderiv G d.
Proof.
  intros E (H1 & H2). split; [apply (is_derive_ext (fun t => Re (F t)))|apply (is_derive_ext (fun t => Im (F t)))]; auto; intros; now rewrite E.
Qed.
Lemma Cderiv_const c : Cderiv (fun _ => c) (RtoC 0).
Proof. split; cbn; apply @is_derive_const. Qed.
Lemma Cderiv_plus F G f g : Cderiv F f -> Cderiv G g -> Cderiv (fun t => F t + G t) (f + g).
Proof.
  intros (F1 & F2) (G1 & G2). split; cbn.
  - apply (is_derive_plus (fun t => Re (F t)) (fun t => Re (G t))); auto.
  - apply (is_derive_plus (fun t => Im (F t)) (fun t => Im (G t))); auto.
Qed.
Lemma Cderiv_mult F G f g : Cderiv F f -> Cderiv G g -> Cderiv (fun t => F t * G t) (f * G 0%R + F 0%R * g).
Proof.
  intros (F1 & F2) (G1 & G2). split.
  - change (is_derive (fun t : R => Re (F t) * Re (G t) - Im (F t) * Im (G t))%R 0%R
      (Re f * Re (G 0%R) - Im f * Im (G 0%R) + (Re (F 0%R) * Re g - Im (F 0%R) * Im g))%R).
    replace (Re f * Re (G 0%R) - Im f * Im (G 0%R) + (Re (F 0%R) * Re g - Im (F 0%R) * Im g))%R
      with ((Re f * Re (G 0%R) + Re (F 0%R) * Re g) - (Im f * Im (G 0%R) + Im (F 0%R) * Im g))%R by ring.
    apply (is_derive_minus (fun t : R => Re (F t) * Re (G t))%R (fun t : R => Im (F t) * Im (G t))%R).
    + apply (is_derive_mult (fun t : R => Re (F t)) (fun t : R => Re (G t))); assumption.
    + apply (is_derive_mult (fun t : R => Im (F t)) (fun t : R => Im (G t))); assumption.
  - change (is_derive (fun t : R => Re (F t) * Im (G t) + Im (F t) * Re (G t))%R 0%R
      (Re f * Im (G 0%R) + Im f * Re (G 0%R) + (Re (F 0%R) * Im g + Im (F 0%R) * Re g))%R).
    replace (Re f * Im (G 0%R) + Im f * Re (G 0%R) + (Re (F 0%R) * Im g + Im (F 0%R) * Re g))%R
      with ((Re f * Im (G 0%R) + Re (F 0%R) * Im g) + (Im f * Re (G 0%R) + Im (F 0%R) * Re g))%R by ring.
    apply (is_derive_plus (fun t : R => Re (F t) * Im (G t))%R (fun t : R => Im (F t) * Re (G t))%R).
    + apply (is_derive_mult (fun t : R => Re (F t)) (fun t : R => Im (G t))); assumption.
    + apply (is_derive_mult (fun t : R => Im (F t)) (fun t : R => Re (G t))); assumption.
Qed.
Lemma Cderiv_scal c F f : Cderiv F f -> Cderiv (fun t => c * F t) (c * f).
Proof.
  intros H. pose proof (Cderiv_mult _ _ _ _ (Cderiv_const c) H) as D. replace (c * f) with (RtoC 0 * F 0%R + c * f) by ring. exact D.
Qed.
Lemma Cderiv_scal_r c F f : Cderiv F f -> Cderiv (fun t => F t * c) (f * c).
Proof. intros H. rewrite (Cmult_comm f). eapply Cderiv_ext; [|apply (Cderiv_scal c _ _ H)]. intros. apply Cmult_comm. Qed.
Lemma Cderiv_csum a b F f : (forall i, (a <= i <= b)%Z -> Cderiv (fun t => F t i) (f i)) -> Cderiv (fun t => csum a b (F t)) (csum a b f).
Proof.
  assert (G : forall n a, (forall i, (a <= i < a + Z.of_nat n)%Z -> Cderiv (fun t => F t i) (f i)) -> Cderiv (fun t => csum_n (F t) a n) (csum_n f a n)).
  { induction n as [|n IH]; intros c H; cbn [csum_n]; [apply Cderiv_const|].
    apply (Cderiv_plus (fun t => csum_n (F t) c n) (fun t => F t (c + Z.of_nat n)%Z)); [apply IH; intros; apply H; lia|]. apply H. lia. }
  intros H. unfold csum. apply G. intros. apply H. lia.
Qed.
Lemma Cderiv_dsum L F f : (forall ell m, (0 <= ell <= L)%Z -> (- ell <= m <= ell)%Z -> Cderiv (fun t => F t ell m) (f ell m)) ->
  Cderiv (fun t => dsum L (F t)) (dsum L f).
Proof.
  intros H. unfold dsum. apply (Cderiv_csum 0 L (fun t ell => csum (- ell) ell (F t ell))). intros ell He.
  apply (Cderiv_csum (- ell) ell (fun t => F t ell)). intros. apply H; auto.
Qed.

Definition dl (i j : Z) : C := if (i =? j)%Z then RtoC 1 else RtoC 0.
Lemma sp0_deriv (fc fd : R -> C) c' d' : fc 0%R = RtoC 0 -> fd 0%R = RtoC 1 -> Cderiv fc c' -> Cderiv fd d' ->
  forall n q, Cderiv (fun t => sp0 (fc t) (fd t) n q) (RtoC (INR n) * d' * dl q 0 + RtoC (INR n) * c' * dl q 1).
Proof.
  intros C0 D0 Hc Hd. induction n as [|n IH]; intros q.
  - cbn [sp0]. replace (RtoC (INR 0) * d' * dl q 0 + RtoC (INR 0) * c' * dl q 1) with (RtoC 0) by (cbn [INR]; ring). apply Cderiv_const.
  - cbn [sp0].
    assert (V : forall r, sp0 (fc 0%R) (fd 0%R) n r = dl r 0) by (intros r; rewrite C0, D0; exact (sp_one 0 n r)).
    eapply eq_ind; [apply (Cderiv_plus _ _ _ _ (Cderiv_mult _ _ _ _ Hc (IH (q - 1)%Z)) (Cderiv_mult _ _ _ _ Hd (IH q)))|].
    cbv beta. rewrite !V, C0, D0. rewrite S_INR, RtoC_plus. unfold dl.
    destruct (Z.eqb_spec (q - 1) 0), (Z.eqb_spec q 0), (Z.eqb_spec q 1), (Z.eqb_spec (q - 1) 1); try lia; ring.
Qed.
Lemma sp_deriv (fa fb fc fd : R -> C) a' b' c' d' : fa 0%R = RtoC 1 -> fb 0%R = RtoC 0 -> fc 0%R = RtoC 0 -> fd 0%R = RtoC 1 ->
  Cderiv fa a' -> Cderiv fb b' -> Cderiv fc c' -> Cderiv fd d' ->
  forall p n q, Cderiv (fun t => sp (fa t) (fb t) (fc t) (fd t) p n q)
    ((RtoC (INR p) * a' + RtoC (INR n) * d') * dl q (Z.of_nat p) + RtoC (INR p) * b' * dl q (Z.of_nat p - 1) + RtoC (INR n) * c' * dl q (Z.of_nat p + 1)).
Proof.
  intros A0 B0 C0 D0 Ha Hb Hc Hd. induction p as [|p IH]; intros n q.
  - cbn [sp]. replace (_ + _ + _) with (RtoC (INR n) * d' * dl q 0 + RtoC (INR n) * c' * dl q 1); [apply sp0_deriv; auto|].
    cbn [INR]. change (Z.of_nat 0) with 0%Z. change (0 + 1)%Z with 1%Z. ring.
  - cbn [sp].
    assert (V : forall r, sp (fa 0%R) (fb 0%R) (fc 0%R) (fd 0%R) p n r = dl r (Z.of_nat p)) by (intros r; rewrite A0, B0, C0, D0; exact (sp_one p n r)).
    eapply eq_ind; [apply (Cderiv_plus _ _ _ _ (Cderiv_mult _ _ _ _ Ha (IH n (q - 1)%Z)) (Cderiv_mult _ _ _ _ Hb (IH n q)))|].
    cbv beta. rewrite !V, A0, B0. rewrite S_INR, RtoC_plus. unfold dl. rewrite Nat2Z.inj_succ. unfold Z.succ.
    set (z := Z.of_nat p).
    destruct (Z.eqb_spec (q - 1) z), (Z.eqb_spec q z), (Z.eqb_spec (q - 1) (z - 1)), (Z.eqb_spec (q - 1) (z + 1)), (Z.eqb_spec q (z + 1)),
      (Z.eqb_spec q (z - 1)), (Z.eqb_spec q (z + 1 - 1)), (Z.eqb_spec q (z + 1 + 1)); try lia; ring.
Qed.

(** The derivative of the Wigner matrix at the identity. *)
Definition gen (N p q : Z) (a' b' : C) : C :=
  RtoC (sqrt (fct q * fct (N - q) / (fct p * fct (N - p))))
  * ((RtoC (IZR p) * a' + RtoC (IZR (N - p)) * Cconj a') * dl q p - RtoC (IZR p) * Cconj b' * dl q (p - 1) + RtoC (IZR (N - p)) * b' * dl q (p + 1)).
Lemma Cderiv_conj F f : Cderiv F f -> Cderiv (fun t => Cconj (F t)) (Cconj f).
Proof. intros (H1 & H2). split; cbn; auto. apply (is_derive_opp (fun t => Im (F t))); auto. Qed.
Lemma Cderiv_opp F f : Cderiv F f -> Cderiv (fun t => - F t) (- f).
Proof. intros (H1 & H2). split; cbn; [apply (is_derive_opp (fun t => Re (F t)))|apply (is_derive_opp (fun t => Im (F t)))]; auto. Qed.
Lemma Dm_deriv N p q (fa fb : R -> C) a' b' : (0 <= p <= N)%Z -> fa 0%R = RtoC 1 -> fb 0%R = RtoC 0 -> Cderiv fa a' -> Cderiv fb b' ->
  Cderiv (fun t => Dm N p q (fa t) (fb t)) (gen N p q a' b').
Proof.
  intros Hp A0 B0 Ha Hb. unfold Dm, gen. apply (Cderiv_scal _ (fun t => sp (fa t) (- Cconj (fb t)) (fb t) (Cconj (fa t)) (Z.to_nat p) (Z.to_nat (N - p)) q)).
  eapply eq_ind; [apply (sp_deriv fa (fun t => - Cconj (fb t)) fb (fun t => Cconj (fa t)) a' (- Cconj b') b' (Cconj a')); auto|].
  - rewrite B0, Cconj_RtoC. ring.
  - rewrite A0, Cconj_RtoC. reflexivity.
  - apply Cderiv_opp, Cderiv_conj. auto.
  - apply Cderiv_conj. auto.
  - rewrite !Z2Nat.id by lia. rewrite !INR_IZR_INZ, !Z2Nat.id by lia. ring.
Qed.

(** In terms of ell and m. *)
Lemma ratio_up ell m : (- ell <= m <= ell)%Z -> (- ell <= m - 1)%Z ->
  (sqrt (fct (ell + (m - 1)) * fct (2 * ell - (ell + (m - 1))) / (fct (ell + m) * fct (2 * ell - (ell + m)))) * IZR (ell + m) = up ell m)%R.
Proof.
  intros H1 H2. replace (2 * ell - (ell + (m - 1)))%Z with (ell - m + 1)%Z by lia. replace (2 * ell - (ell + m))%Z with (ell - m)%Z by lia.
  replace (fct (ell + m)) with (IZR (ell + m) * fct (ell + (m - 1)))%R.
  2:{ replace (ell + m)%Z with ((ell + (m - 1)) + 1)%Z by lia. rewrite fct_succ by lia. reflexivity. }
  rewrite (fct_succ (ell - m)) by lia.
  assert (P : (0 < IZR (ell + m))%R) by (apply IZR_lt; lia).
  pose proof (fct_pos (ell + (m - 1))). pose proof (fct_pos (ell - m)).
  replace (fct (ell + (m - 1)) * (IZR (ell - m + 1) * fct (ell - m)) / (IZR (ell + m) * fct (ell + (m - 1)) * fct (ell - m)))%R with (IZR (ell - m + 1) / IZR (ell + m))%R by (field; lra).
  rewrite <- (sqrt_Rsqr (IZR (ell + m))) at 2 by lra. rewrite <- sqrt_mult_alt.
  - unfold up. f_equal. unfold Rsqr. rewrite mult_IZR. field. lra.
  - apply Rmult_le_pos; [apply IZR_le; lia|]. apply Rlt_le, Rinv_0_lt_compat. lra.
Qed.
Lemma ratio_down ell m : (- ell <= m <= ell)%Z -> (m + 1 <= ell)%Z ->
  (sqrt (fct (ell + (m + 1)) * fct (2 * ell - (ell + (m + 1))) / (fct (ell + m) * fct (2 * ell - (ell + m)))) * IZR (ell - m) = down ell m)%R.
Proof.
  intros H1 H2. replace (2 * ell - (ell + (m + 1)))%Z with (ell - m - 1)%Z by lia. replace (2 * ell - (ell + m))%Z with (ell - m)%Z by lia.
  replace (fct (ell - m)) with (IZR (ell - m) * fct (ell - m - 1))%R.
  2:{ symmetry. apply fct_pred. lia. }
  replace (ell + (m + 1))%Z with (ell + m + 1)%Z by lia. rewrite (fct_succ (ell + m)) by lia.
  assert (P : (0 < IZR (ell - m))%R) by (apply IZR_lt; lia).
  pose proof (fct_pos (ell + m)). pose proof (fct_pos (ell - m - 1)).
  replace (IZR (ell + m + 1) * fct (ell + m) * fct (ell - m - 1) / (fct (ell + m) * (IZR (ell - m) * fct (ell - m - 1))))%R with (IZR (ell + m + 1) / IZR (ell - m))%R by (field; lra).
  rewrite <- (sqrt_Rsqr (IZR (ell - m))) at 2 by lra. rewrite <- sqrt_mult_alt.
  - unfold down. f_equal. unfold Rsqr. rewrite mult_IZR. field. lra.
  - apply Rmult_le_pos; [apply IZR_le; lia|]. apply Rlt_le, Rinv_0_lt_compat. lra.
Qed.
Lemma gen_lm ell m m' a' b' : (- ell <= m <= ell)%Z -> (- ell <= m' <= ell)%Z -> Cconj a' = - a' ->
  gen (2 * ell) (ell + m) (ell + m') a' b'
  = RtoC (IZR (2 * m)) * a' * dl m' m - RtoC (up ell m) * Cconj b' * dl m' (m - 1) + RtoC (down ell m) * b' * dl m' (m + 1).
Proof.
  intros Hm Hm' Ha. unfold gen, dl. rewrite Ha.
  destruct (Z.eqb_spec (ell + m') (ell + m)), (Z.eqb_spec m' m); try lia.
  - subst m'. repeat match goal with |- context [(?a =? ?b)%Z] => destruct (Z.eqb_spec a b); try lia end.
    replace (fct (ell + m) * fct (2 * ell - (ell + m)) / (fct (ell + m) * fct (2 * ell - (ell + m))))%R with 1%R.
    2:{ pose proof (fct_pos (ell + m)). pose proof (fct_pos (2 * ell - (ell + m))). field. lra. }
    rewrite sqrt_1. replace (RtoC (IZR (2 * m))) with (RtoC (IZR (ell + m)) - RtoC (IZR (2 * ell - (ell + m)))); [ring|].
    rewrite <- RtoC_minus, <- minus_IZR. do 2 f_equal. lia.
  - destruct (Z.eqb_spec (ell + m') (ell + m - 1)), (Z.eqb_spec m' (m - 1)); try lia.
    + subst m'. repeat match goal with |- context [(?a =? ?b)%Z] => destruct (Z.eqb_spec a b); try lia end.
      rewrite <- (ratio_up ell m) by lia. rewrite RtoC_mult. ring.
    + destruct (Z.eqb_spec (ell + m') (ell + m + 1)), (Z.eqb_spec m' (m + 1)); try lia.
      * subst m'. rewrite <- (ratio_down ell m) by lia. rewrite RtoC_mult. replace (2 * ell - (ell + m))%Z with (ell - m)%Z by lia. ring.
      * ring.
Qed.

(** Left and right translation of a harmonic. *)
Lemma SWSH_left s ell m q r : (- ell <= m <= ell)%Z ->
  SWSH_value s ell m (qa (qmul q r)) (qb (qmul q r))
  = csum (- ell) ell (fun m' => Dm (2 * ell) (ell + m) (ell + m') (qa q) (qb q) * SWSH_value s ell m' (qa r) (qb r)).
Proof.
  intros Hm. destruct (Z_le_gt_dec (Z.abs s) ell).
  - rewrite SWSH_value_in by lia. unfold Dv at 1. rewrite qmul_a, qmul_b, Dm_product by lia.
    rewrite <- csum_scal. rewrite (csum_shift 0 (2 * ell) (- ell)).
    replace (0 + - ell)%Z with (- ell)%Z by lia. replace (2 * ell + - ell)%Z with ell by lia.
    apply csum_ext. intros m' Hm'. rewrite SWSH_value_in by lia. unfold Dv.
    replace (m' - - ell)%Z with (ell + m')%Z by lia. ring.
  - rewrite csum_zero.
    + unfold SWSH_value. replace (Z.abs s <=? ell)%Z with false by (symmetry; apply Z.leb_gt; lia). rewrite andb_false_r. auto.
    + intros m' Hm'. unfold SWSH_value. replace (Z.abs s <=? ell)%Z with false by (symmetry; apply Z.leb_gt; lia).
      rewrite andb_false_r. ring.
Qed.
Lemma SWSH_right s ell m q r : (- ell <= m <= ell)%Z -> (- ell <= s <= ell)%Z ->
  SWSH_value s ell m (qa (qmul q r)) (qb (qmul q r))
  = csum (- ell) ell (fun m' => RtoC (sgn (m' + s)) * SWSH_value (- m') ell m (qa q) (qb q) * Dm (2 * ell) (ell + m') (ell + - s) (qa r) (qb r)).
Proof.
  intros Hm Hs. rewrite SWSH_value_in by lia. unfold Dv at 1. rewrite qmul_a, qmul_b, Dm_product by lia.
  rewrite <- csum_scal. rewrite (csum_shift 0 (2 * ell) (- ell)).
  replace (0 + - ell)%Z with (- ell)%Z by lia. replace (2 * ell + - ell)%Z with ell by lia.
  apply csum_ext. intros m' Hm'. rewrite SWSH_value_in by lia. unfold Dv.
  replace (- - m')%Z with m' by lia. replace (m' - - ell)%Z with (ell + m')%Z by lia.
  replace (RtoC (sgn s)) with (RtoC (sgn (m' + s)) * RtoC (sgn (- m'))); [ring|].
  rewrite <- RtoC_mult, <- sgn_add. f_equal. f_equal. lia.
Qed.

(** One-parameter subgroups: exp of a quaternion with z part [za] and (y, x) part [b']. *)
Definition one_param (g : R -> quat) (za : R) (b' : C) : Prop :=
  qa (g 0%R) = RtoC 1 /\ qb (g 0%R) = RtoC 0 /\ Cderiv (fun t => qa (g t)) (Ci * RtoC za) /\ Cderiv (fun t => qb (g t)) b'.
Lemma d_cos : is_derive cos 0 0%R.
Proof. replace 0%R with (- sin 0)%R at 2 by (rewrite sin_0; ring). apply is_derive_Reals, derivable_pt_lim_cos. Qed.
Lemma d_sin : is_derive sin 0 1%R.
Proof. replace 1%R with (cos 0) by apply cos_0. apply is_derive_Reals, derivable_pt_lim_sin. Qed.
Lemma turn_x_ok : one_param turn_x 0 Ci.
Proof.
  unfold one_param, turn_x, qa, qb. cbn [qw qx qy qz]. rewrite cos_0, sin_0.
  split; [reflexivity|]. split; [reflexivity|]. split; split; cbn.
  - replace (0 * 0 - 1 * 0)%R with 0%R by ring. apply d_cos.
  - replace (0 * 0 + 1 * 0)%R with 0%R by ring. apply @is_derive_const.
  - apply @is_derive_const.
  - apply d_sin.
Qed.
Lemma turn_y_ok : one_param turn_y 0 (RtoC 1).
Proof.
  unfold one_param, turn_y, qa, qb. cbn [qw qx qy qz]. rewrite cos_0, sin_0.
  split; [reflexivity|]. split; [reflexivity|]. split; split; cbn.
  - replace (0 * 0 - 1 * 0)%R with 0%R by ring. apply d_cos.
  - replace (0 * 0 + 1 * 0)%R with 0%R by ring. apply @is_derive_const.
  - apply d_sin.
  - apply @is_derive_const.
Qed.
Lemma turn_z_ok : one_param turn_z 1 (RtoC 0).
Proof.
  unfold one_param, turn_z, qa, qb. cbn [qw qx qy qz]. rewrite cos_0, sin_0.
  split; [reflexivity|]. split; [reflexivity|]. split; split; cbn.
  - replace (0 * 1 - 1 * 0)%R with 0%R by ring. apply d_cos.
  - replace (0 * 0 + 1 * 1)%R with 1%R by ring. apply d_sin.
  - apply @is_derive_const.
  - apply @is_derive_const.
Qed.
Lemma Ci_za_conj za : Cconj (Ci * RtoC za) = - (Ci * RtoC za).
Proof. apply injective_projections; cbn; ring. Qed.

Lemma csum_dl a b k f : (a <= k <= b)%Z -> csum a b (fun i => dl i k * f i) = f k.
Proof.
  intros H. rewrite (csum_delta a b k); auto.
  - unfold dl. rewrite Z.eqb_refl. ring.
  - intros i _ Hi. unfold dl. destruct (Z.eqb_spec i k); [contradiction|ring].
Qed.
Lemma csum_dl_out a b k f : (~ (a <= k <= b))%Z -> csum a b (fun i => dl i k * f i) = RtoC 0.
Proof.
  intros H. apply csum_zero. intros i Hi. unfold dl. destruct (Z.eqb_spec i k); [lia|ring].
Qed.
Lemma up_low ell : up ell (- ell) = 0%R.
Proof. unfold up. replace ((ell + - ell) * (ell - - ell + 1))%Z with 0%Z by lia. apply sqrt_0. Qed.
Lemma down_high ell : down ell ell = 0%R.
Proof. unfold down. replace ((ell - ell) * (ell + ell + 1))%Z with 0%Z by lia. apply sqrt_0. Qed.

(** The derivative of a harmonic under left translation. *)
Lemma SWSH_left_deriv s ell m g za b' q : (- ell <= m <= ell)%Z -> one_param g za b' ->
  Cderiv (fun t => SWSH_value s ell m (qa (qmul (g t) q)) (qb (qmul (g t) q)))
    (RtoC (IZR (2 * m)) * (Ci * RtoC za) * SWSH_value s ell m (qa q) (qb q)
     - RtoC (up ell m) * Cconj b' * SWSH_value s ell (m - 1) (qa q) (qb q)
     + RtoC (down ell m) * b' * SWSH_value s ell (m + 1) (qa q) (qb q)).
Proof.
  intros Hm (A0 & B0 & Ha & Hb).
  eapply Cderiv_ext; [intros t; symmetry; apply SWSH_left; auto|].
  eapply eq_ind; [apply (Cderiv_csum (- ell) ell
    (fun t m' => Dm (2 * ell) (ell + m) (ell + m') (qa (g t)) (qb (g t)) * SWSH_value s ell m' (qa q) (qb q))
    (fun m' => gen (2 * ell) (ell + m) (ell + m') (Ci * RtoC za) b' * SWSH_value s ell m' (qa q) (qb q)))|].
  - intros m' Hm'. apply (Cderiv_scal_r _ (fun t => Dm (2 * ell) (ell + m) (ell + m') (qa (g t)) (qb (g t)))).
    apply (Dm_deriv _ _ _ (fun t => qa (g t)) (fun t => qb (g t))); auto. lia.
  - set (Y := fun k => SWSH_value s ell k (qa q) (qb q)).
    rewrite (csum_ext _ _ _ (fun m' => dl m' m * (RtoC (IZR (2 * m)) * (Ci * RtoC za) * Y m')
      + dl m' (m - 1) * (- (RtoC (up ell m) * Cconj b' * Y m')) + dl m' (m + 1) * (RtoC (down ell m) * b' * Y m'))).
    2:{ intros m' Hm'. rewrite gen_lm by (auto using Ci_za_conj). unfold Y. ring. }
    rewrite !csum_plus. rewrite csum_dl by auto. fold (Y m) (Y (m - 1)%Z) (Y (m + 1)%Z).
    assert (E1 : csum (- ell) ell (fun i => dl i (m - 1) * - (RtoC (up ell m) * Cconj b' * Y i)) = - (RtoC (up ell m) * Cconj b' * Y (m - 1)%Z)).
    { destruct (Z.eq_dec m (- ell)) as [->|].
      - rewrite csum_dl_out by lia. rewrite up_low. ring.
      - rewrite csum_dl by lia. reflexivity. }
    assert (E2 : csum (- ell) ell (fun i => dl i (m + 1) * (RtoC (down ell m) * b' * Y i)) = RtoC (down ell m) * b' * Y (m + 1)%Z).
    { destruct (Z.eq_dec m ell) as [->|].
      - rewrite csum_dl_out by lia. rewrite down_high. ring.
      - rewrite csum_dl by lia. reflexivity. }
    rewrite E1, E2. unfold Y. ring.
Qed.

Lemma SWSH_value_out s ell m a b : (ell < Z.abs s)%Z -> SWSH_value s ell m a b = RtoC 0.
Proof. intros. unfold SWSH_value. replace (Z.abs s <=? ell)%Z with false by (symmetry; apply Z.leb_gt; lia). rewrite andb_false_r. auto. Qed.

(** The derivative under right translation. *)
Lemma SWSH_right_deriv s ell m g za b' q : (0 <= ell)%Z -> (- ell <= m <= ell)%Z -> one_param g za b' ->
  Cderiv (fun t => SWSH_value s ell m (qa (qmul q (g t))) (qb (qmul q (g t))))
    (RtoC (IZR (- 2 * s)) * (Ci * RtoC za) * SWSH_value s ell m (qa q) (qb q)
     + RtoC (rup s ell) * Cconj b' * SWSH_value (s - 1) ell m (qa q) (qb q)
     - RtoC (rdown s ell) * b' * SWSH_value (s + 1) ell m (qa q) (qb q)).
Proof.
  intros He Hm (A0 & B0 & Ha & Hb).
  destruct (Z_le_gt_dec (Z.abs s) ell) as [Hs|Hs].
  - eapply Cderiv_ext; [intros t; symmetry; apply SWSH_right; lia|].
    eapply eq_ind; [apply (Cderiv_csum (- ell) ell
      (fun t m' => RtoC (sgn (m' + s)) * SWSH_value (- m') ell m (qa q) (qb q) * Dm (2 * ell) (ell + m') (ell + - s) (qa (g t)) (qb (g t)))
      (fun m' => RtoC (sgn (m' + s)) * SWSH_value (- m') ell m (qa q) (qb q) * gen (2 * ell) (ell + m') (ell + - s) (Ci * RtoC za) b'))|].
    + intros m' Hm'. apply (Cderiv_scal _ (fun t => Dm (2 * ell) (ell + m') (ell + - s) (qa (g t)) (qb (g t)))).
      apply (Dm_deriv _ _ _ (fun t => qa (g t)) (fun t => qb (g t))); auto. lia.
    + set (Y := fun k => SWSH_value (- k) ell m (qa q) (qb q)).
      rewrite (csum_ext _ _ _ (fun m' => dl m' (- s) * (RtoC (sgn (m' + s)) * Y m' * (RtoC (IZR (2 * m')) * (Ci * RtoC za)))
        + dl m' (- s + 1) * (- (RtoC (sgn (m' + s)) * Y m' * (RtoC (up ell m') * Cconj b'))) + dl m' (- s - 1) * (RtoC (sgn (m' + s)) * Y m' * (RtoC (down ell m') * b')))).
      2:{ intros m' Hm'. rewrite gen_lm by (auto using Ci_za_conj; lia). unfold Y.
          replace (dl (- s) m') with (dl m' (- s)) by (unfold dl; rewrite Z.eqb_sym; auto).
          replace (dl (- s) (m' - 1)) with (dl m' (- s + 1)) by (unfold dl; destruct (Z.eqb_spec m' (- s + 1)), (Z.eqb_spec (- s) (m' - 1)); auto; lia).
          replace (dl (- s) (m' + 1)) with (dl m' (- s - 1)) by (unfold dl; destruct (Z.eqb_spec m' (- s - 1)), (Z.eqb_spec (- s) (m' + 1)); auto; lia).
          ring. }
      rewrite !csum_plus. rewrite csum_dl by lia.
      assert (E1 : csum (- ell) ell (fun i => dl i (- s + 1) * - (RtoC (sgn (i + s)) * Y i * (RtoC (up ell i) * Cconj b'))) = RtoC (rup s ell) * Cconj b' * SWSH_value (s - 1) ell m (qa q) (qb q)).
      { destruct (Z.eq_dec s (- ell)) as [->|].
        - rewrite csum_dl_out by lia. rewrite SWSH_value_out by lia. ring.
        - rewrite csum_dl by lia. unfold Y. replace (- (- s + 1))%Z with (s - 1)%Z by lia. replace (- s + 1 + s)%Z with 1%Z by lia.
          replace (up ell (- s + 1)) with (rup s ell) by (unfold up, rup; do 2 f_equal; lia). rewrite (eq_refl : sgn 1 = -(1))%R, RtoC_opp. ring. }
      assert (E2 : csum (- ell) ell (fun i => dl i (- s - 1) * (RtoC (sgn (i + s)) * Y i * (RtoC (down ell i) * b'))) = - (RtoC (rdown s ell) * b' * SWSH_value (s + 1) ell m (qa q) (qb q))).
      { destruct (Z.eq_dec s ell) as [->|].
        - rewrite csum_dl_out by lia. rewrite (SWSH_value_out (ell + 1)) by lia. ring.
        - rewrite csum_dl by lia. unfold Y. replace (- (- s - 1))%Z with (s + 1)%Z by lia. replace (- s - 1 + s)%Z with (-1)%Z by lia.
          replace (down ell (- s - 1)) with (rdown s ell) by (unfold down, rdown; do 2 f_equal; lia). replace (sgn (-1)) with (- (1))%R by (unfold sgn; cbn; auto). rewrite RtoC_opp. ring. }
      rewrite E1, E2. unfold Y. replace (- - s)%Z with s by lia. replace (- s + s)%Z with 0%Z by lia.
      replace (2 * - s)%Z with (- 2 * s)%Z by lia. unfold sgn. cbn [Z.even]. ring.
  - eapply Cderiv_ext; [intros t; symmetry; apply SWSH_value_out; lia|].
    rewrite (SWSH_value_out s) by lia.
    replace (RtoC (rup s ell) * Cconj b' * SWSH_value (s - 1) ell m (qa q) (qb q)) with (RtoC 0).
    2:{ destruct (Z.eq_dec s (ell + 1)) as [->|].
        - unfold rup. replace ((ell + (ell + 1)) * (ell - (ell + 1) + 1))%Z with 0%Z by lia. rewrite sqrt_0. ring.
        - rewrite SWSH_value_out by lia. ring. }
    replace (RtoC (rdown s ell) * b' * SWSH_value (s + 1) ell m (qa q) (qb q)) with (RtoC 0).
    2:{ destruct (Z.eq_dec s (- ell - 1)) as [->|].
        - unfold rdown. replace ((ell - (- ell - 1)) * (ell + (- ell - 1) + 1))%Z with 0%Z by lia. rewrite sqrt_0. ring.
        - rewrite SWSH_value_out by lia. ring. }
    replace (_ + _ - _) with (RtoC 0) by ring. apply Cderiv_const.
Qed.
