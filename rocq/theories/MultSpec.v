(** The product of two spin-weighted spherical harmonics, and what multiplication of mode weights must give. *)
Require Import ZArith Lia Reals Lra Bool.
From Coquelicot Require Import Complex.
From Verif Require Import CBase CSum RSum Fact SymPow DRep WignerSpec WignerProofs3 IndexModel SWSHModel SWSHProofs Wigner3jModel ThreeJSpec ThreeJ ThreeJ2 ThreeJ3 ThreeJ4 CGSeries ModesProofs3.
Open Scope R_scope.

(** The coefficient of Y_l in the product of harmonics (l1, m1, s1) and (l2, m2, s2). *)
Definition product_coeff (s1 s2 l1 m1 l2 m2 l : Z) : R :=
  sgn (l1 + l2 + l + (s1 + s2) + (m1 + m2)) * sqrt (IZR (2 * l1 + 1) * IZR (2 * l2 + 1) * IZR (2 * l + 1) / (4 * PI))
  * threej l1 l2 l s1 s2 (- (s1 + s2)) * threej l1 l2 l m1 m2 (- (m1 + m2)).

(** The (l, m) weight of the product of functions with weights [u] (spin s1, up to L1) and [v] (spin s2, up to L2). *)
Definition product_weight (s1 L1 s2 L2 : Z) (u v : Z -> Z -> C) (l m : Z) : C :=
  dsum L1 (fun l1 m1 => csum 0 L2 (fun l2 =>
    if (Z.abs (m - m1) <=? l2)%Z then (RtoC (product_coeff s1 s2 l1 m1 l2 (m - m1) l) * u l1 m1 * v l2 (m - m1)%Z)%C else RtoC 0)).

(** The (l, m) entry of an array whose first column is ell = ellmin. *)
Definition arr_mode (F : list Z -> Z -> C) (ellmin : Z) (idx : list Z) (l m : Z) : C :=
  if (l <? ellmin)%Z then RtoC 0 else F idx (LM_index l m ellmin).
(** Enough bits for all the calls of the calculators. *)
Definition wide_enough (w : widths) (L1 L2 : Z) : Prop := w = exact \/ (w = fixed /\ (L1 + L2 <= 151)%Z).

Lemma PI4_pos : 0 < 4 * PI.
Proof. pose proof PI_RGT_0. lra. Qed.
Lemma sqrt4 a b c : 0 <= a -> 0 <= b -> 0 <= c -> sqrt (a * b * c / (4 * PI)) = sqrt (a / (4 * PI)) * sqrt b * sqrt c.
Proof.
  intros. pose proof PI4_pos. replace (a * b * c / (4 * PI)) with (a / (4 * PI) * b * c) by (field; lra).
  assert (0 <= a / (4 * PI)) by (apply Rmult_le_pos; auto; apply Rlt_le, Rinv_0_lt_compat; lra).
  rewrite sqrt_mult, sqrt_mult; auto. apply Rmult_le_pos; auto.
Qed.
Lemma odd_nonneg l : (0 <= l)%Z -> 0 <= IZR (2 * l + 1).
Proof. intros. apply (IZR_le 0). lia. Qed.

Lemma coeff_out s1 s2 l1 m1 l2 m2 l : (l < Z.abs (l1 - l2) \/ l1 + l2 < l \/ l < Z.abs (s1 + s2) \/ l < Z.abs (m1 + m2)
    \/ l1 < Z.abs s1 \/ l2 < Z.abs s2)%Z ->
  product_coeff s1 s2 l1 m1 l2 m2 l = 0.
Proof.
  intros H. unfold product_coeff.
  destruct (Z_lt_ge_dec l (Z.abs (m1 + m2))) as [H1|H1].
  - rewrite (threej_out l1 l2 l m1 m2 (- (m1 + m2))) by (unfold tj_allowed; lia). ring.
  - rewrite (threej_out l1 l2 l s1 s2 (- (s1 + s2))) by (unfold tj_allowed; lia). ring.
Qed.

Local Open Scope C_scope.

Theorem SWSH_product s1 s2 l1 m1 l2 m2 a b : a * Cconj a + b * Cconj b = RtoC 1 ->
  (Z.abs m1 <= l1)%Z -> (Z.abs m2 <= l2)%Z ->
  SWSH_value s1 l1 m1 a b * SWSH_value s2 l2 m2 a b
  = csum 0 (l1 + l2) (fun l => RtoC (product_coeff s1 s2 l1 m1 l2 m2 l) * SWSH_value (s1 + s2) l (m1 + m2) a b).
Proof.
  intros U H1 H2.
  destruct (Z_lt_ge_dec l1 (Z.abs s1)) as [G1|G1].
  { unfold SWSH_value at 1. replace ((Z.abs m1 <=? l1)%Z && (Z.abs s1 <=? l1)%Z) with false by (symmetry; apply andb_false_iff; right; apply Z.leb_gt; lia).
    symmetry. rewrite csum_zero. ring. intros. rewrite coeff_out by lia. ring. }
  destruct (Z_lt_ge_dec l2 (Z.abs s2)) as [G2|G2].
  { unfold SWSH_value at 2. replace ((Z.abs m2 <=? l2)%Z && (Z.abs s2 <=? l2)%Z) with false by (symmetry; apply andb_false_iff; right; apply Z.leb_gt; lia).
    symmetry. rewrite csum_zero. ring. intros. rewrite coeff_out by lia. ring. }
  rewrite !SWSH_value_in by lia. unfold Dv.
  replace (RtoC (sgn s1) * RtoC (swsh_norm l1) * Dm (2 * l1) (l1 + m1) (l1 + - s1) a b
           * (RtoC (sgn s2) * RtoC (swsh_norm l2) * Dm (2 * l2) (l2 + m2) (l2 + - s2) a b))
    with ((RtoC (sgn s1) * RtoC (swsh_norm l1) * RtoC (sgn s2) * RtoC (swsh_norm l2))
          * (Dm (2 * l1) (l1 + m1) (l1 + - s1) a b * Dm (2 * l2) (l2 + m2) (l2 + - s2) a b)) by ring.
  rewrite D_product by (auto; lia). rewrite <- csum_scal.
  rewrite <- (csum_widen (jlo l1 l2 (- s1) (- s2)) (l1 + l2) 0 (l1 + l2)).
  2:{ unfold jlo. lia. } 2:{ lia. }
  2:{ intros i Hi HH. rewrite coeff_out. ring. unfold jlo in HH. lia. }
  apply csum_ext. intros j Hj. unfold jlo in Hj.
  destruct (Z_lt_ge_dec j (Z.abs (m1 + m2))) as [G|G].
  { rewrite coeff_out by lia. unfold GG at 1. rewrite threej_out by (unfold tj_allowed; lia). rewrite Rmult_0_l, Rmult_0_r. ring. }
  rewrite SWSH_value_in by lia. unfold Dv. replace (- (s1 + s2))%Z with (- s1 + - s2)%Z by lia.
  rewrite !Cmult_assoc, <- !RtoC_mult. f_equal. f_equal.
  unfold product_coeff. rewrite sqrt4 by (apply odd_nonneg; lia). unfold GG.
  replace (- - s1 - - s2)%Z with (- - (s1 + s2))%Z by lia. rewrite threej_neg.
  replace (- m1 - m2)%Z with (- (m1 + m2))%Z by lia.
  unfold swsh_norm.
  assert (E : forall l, (0 <= l)%Z -> sqrt (IZR (2 * l + 1) / (4 * PI)) = (sqrt (IZR (2 * l + 1)) / sqrt (4 * PI))%R).
  { intros. apply sqrt_div; [apply odd_nonneg; auto|apply PI4_pos]. }
  rewrite (E l2), (E j) by lia.
  pose proof (sqrt_sqrt (IZR (2 * j + 1)) (odd_nonneg j ltac:(lia))) as SQ.
  rewrite <- SQ at 1.
  replace (sgn (l1 + l2 + j + (s1 + s2) + (m1 + m2))) with (sgn (l1 + l2 + j) * (sgn s1 * sgn s2) * sgn (m1 + m2))%R by (rewrite <- !sgn_add; reflexivity).
  replace (sgn (m1 + m2 - - s1 - - s2)) with (sgn (m1 + m2) * sgn (s1 + s2))%R by (rewrite <- sgn_add; f_equal; lia).
  set (X := threej _ _ _ _ _ _). set (Y := threej _ _ _ _ _ _). unfold Rdiv. ring.
Qed.
