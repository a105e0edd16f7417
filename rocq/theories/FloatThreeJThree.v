(** Families of three symbols in double precision: the two ratios that the calculator forms, and the subtraction in its loops. *)
From Coq Require Import ZArith Reals Lia Lra Bool.
From Flocq Require Import Core.
From Verif Require Import Base BaseProofs Fact RSum ThreeJSpec ThreeJ ThreeJ2 ThreeJ3 ThreeJ4 Wigner3jModel Wigner3jSpec Wigner3jWs Wigner3jFwd Wigner3jProofs Wigner3jProps.
From Verif Require Import FloatIndexModel FloatIndexProofs FloatModesModel FloatPowersSpec FloatPowersProofs FloatPowersProps FloatConvProofs FloatPartsProofs FloatThreeJModel FloatLog FloatThreeJProofs FloatThreeJProps FloatThreeJSame FloatThreeJSameProps.
Local Open Scope R_scope.
Set Bullet Behavior "Strict Subproofs".

(** ** Several units *)
Lemma ln_bound_k k d : 0 <= k <= 100 -> Rabs d <= k * u64 -> Rabs (ln (1 + d)) <= (k + 1) * vv /\ 0 < 1 + d.
Proof.
  intros Hk Hd. pose proof u64_small as [U0 U1]. assert (V : / 2 ^ 40 <= / 1000000) by (apply Rinv_le_contravar; lra).
  assert (Ku : 0 <= k * u64 <= / 10000). { split; [apply Rmult_le_pos; lra|]. apply Rle_trans with (100 * / 1000000); [apply Rmult_le_compat; lra|lra]. }
  apply Rabs_le_inv in Hd. assert (P : 0 < 1 + d) by lra. split; auto.
  assert (Up : forall x, 0 < 1 + x -> ln (1 + x) <= x).
  { intros x Hx. destruct (Req_dec x 0) as [->|Nx]; [rewrite Rplus_0_r, ln_1; lra|].
    apply Rlt_le. rewrite <- (ln_exp x) at 2. apply ln_increasing; auto. apply exp_ineq1; auto. }
  assert (Vu : u64 <= vv).
  { unfold vv. apply (Rmult_le_reg_r (1 - u64)); [lra|]. replace (u64 / (1 - u64) * (1 - u64)) with u64 by (field; lra).
    assert (0 <= u64 * u64) by (apply Rmult_le_pos; lra). lra. }
  assert (W : k * u64 <= (k + 1) * vv). { apply Rmult_le_compat; lra. }
  apply Rabs_le. split.
  - replace (ln (1 + d)) with (- ln (1 + (/ (1 + d) - 1))).
    + apply Ropp_le_contravar. eapply Rle_trans; [apply Up|].
      * replace (1 + (/ (1 + d) - 1)) with (/ (1 + d)) by ring. apply Rinv_0_lt_compat; auto.
      * assert (I : / (1 + d) <= / (1 - k * u64)) by (apply Rinv_le_contravar; lra).
        assert (J : / (1 - k * u64) - 1 <= (k + 1) * u64).
        { apply (Rmult_le_reg_r (1 - k * u64)); [lra|]. replace ((/ (1 - k * u64) - 1) * (1 - k * u64)) with (k * u64) by (field; lra).
          assert ((k + 1) * (k * u64) <= 1).
          { apply Rle_trans with (101 * / 10000); [apply Rmult_le_compat; lra|lra]. }
          assert (u64 * ((k + 1) * (k * u64)) <= u64 * 1) by (apply Rmult_le_compat_l; lra). lra. }
        assert ((k + 1) * u64 <= (k + 1) * vv) by (apply Rmult_le_compat_l; lra). lra.
    + replace (1 + (/ (1 + d) - 1)) with (/ (1 + d)) by ring. rewrite ln_Rinv by auto. ring.
  - pose proof (Up d P). lra.
Qed.
Lemma lg_of_err_k k x y : 0 <= k <= 100 -> y <> 0 -> Rabs (x - y) <= k * u64 * Rabs y -> lg (k + 1) x y.
Proof.
  intros Hk Hy H. assert (Ya : 0 < Rabs y) by (apply Rabs_pos_lt; auto).
  set (d := (x - y) / y). assert (Hd : Rabs d <= k * u64).
  { unfold d, Rdiv. rewrite Rabs_mult, Rabs_inv. apply (Rmult_le_reg_r (Rabs y)); auto.
    replace (Rabs (x - y) * / Rabs y * Rabs y) with (Rabs (x - y)) by (field; lra). auto. }
  destruct (ln_bound_k k d Hk Hd) as [B P]. exists (ln (1 + d)). split; auto. rewrite exp_ln by auto. unfold d. field. auto.
Qed.

(** ** The subtraction *)
(** [den] as computed, when the loop goes on: it is at least as large as [x], and negative.  [T] is the product that is added to [y],
    and [S T] bounds the cancellation *)
Lemma cancel x x' y T T' :
  1 <= x -> lg (5 / 2) x' x -> 0 < T <= 2 ^ 47 -> lg 7 T' T ->
  (x / 2 <= - (y + T) -> T <= 3 * x) ->
  x' <= Rabs (RN64 (y + T')) -> RN64 (y + T') < 0 ->
  x / 2 <= - (y + T) /\ lg 45 (RN64 (y + T')) (y + T).
Proof.
  intros Hx Lx HT LT HK Hd Hn. pose proof u64_small as [U0 U1].
  destruct (lg_size _ _ _ Lx ltac:(lra)) as [Sx _].
  assert (Xp : 0 < x') by (apply (lg_pos _ _ _ Lx); lra). rewrite !Rabs_pos_eq in Sx by lra.
  pose proof (lg_err _ _ _ LT ltac:(lra)) as ET. rewrite (Rabs_pos_eq T) in ET by lra.
  set (v := y + T') in *.
  assert (Lv : lg 1 (RN64 v) v).
  { apply lg_RN. destruct (Rle_lt_dec (/ 2 ^ 1000) (Rabs v)) as [|Q]; auto. exfalso.
    pose proof (RN64_err v) as Er. pose proof eta_small. pose proof (pow_inv_le 10 1000 ltac:(lia)) as I10.
    assert (Uv : u64 * Rabs v <= 1 * Rabs v) by (apply Rmult_le_compat_r; [apply Rabs_pos|]; lra).
    pose proof (Rabs_triang (RN64 v - v) v) as Tr. replace (RN64 v - v + v) with (RN64 v) in Tr by ring. lra. }
  destruct (lg_size _ _ _ Lv ltac:(lra)) as [_ Sv].
  assert (Vn : v < 0).
  { destruct (Rlt_le_dec v 0); auto. exfalso. pose proof (lg_nonneg _ _ _ Lv r). lra. }
  rewrite (Rabs_left v) in Sv by auto.
  set (e := T' - T) in *.
  assert (Ev : - v = - (y + T) - e) by (unfold v, e; ring).
  apply Rabs_le_inv in ET.
  assert (U7 : 7 * (1 + / 2 ^ 17) * u64 * T <= / 8 + / 16).
  { assert (u64 * T <= / 2 ^ 53 * 2 ^ 47) by (apply Rmult_le_compat; try lra; unfold u64; lra).
    lra. }
  assert (D2 : x / 2 <= - (y + T)) by lra.
  split; auto. specialize (HK D2).
  assert (Lv2 : lg 44 v (y + T)).
  { replace 44 with (43 + 1) by ring. apply lg_of_err_k; [lra|lra|]. rewrite (Rabs_left (y + T)) by lra.
    replace (v - (y + T)) with e by (unfold v, e; ring).
    assert (Q : 7 * (1 + / 2 ^ 17) * u64 * T <= 43 * u64 * - (y + T)).
    { replace (7 * (1 + / 2 ^ 17) * u64 * T) with (u64 * (7 * (1 + / 2 ^ 17) * T)) by ring. replace (43 * u64 * - (y + T)) with (u64 * (43 * - (y + T))) by ring.
      apply Rmult_le_compat_l; lra. }
    apply Rabs_le. lra. }
  apply (lg_weak (1 + 44)); [|lra]. eapply lg_trans; eauto.
Qed.

(** ** How much cancels *)
Section Amplification.
(** [P] is the smallest degree; [e] are the diagonal coefficients divided by [2 j + 1] *)
Variables P A1 A2 e0 e1 e2 : R.
Hypotheses (HP : 1 <= P) (HA1 : 0 < A1) (HA2 : 0 < A2) (H12 : A1 * A1 <= 2 * (A2 * A2)) (H21 : A2 * A2 <= 5 * (A1 * A1)).
Hypothesis Hmid : (e0 <= e1 <= e2) \/ (e2 <= e1 <= e0).

Lemma ampF T : 0 < T -> (2 * P + 1) * - e0 * T = (P + 2) * A1 * (P * A1) ->
  let D := - ((2 * P + 3) * e1 + T) in
  D * ((2 * P + 5) * - e2) = (P + 1) * A2 * ((P + 3) * A2) -> (P + 1) * A2 / 2 <= D -> T <= 3 * ((P + 1) * A2).
Proof.
  intros HT H0 D H2 HD. destruct (Rle_lt_dec T (3 * ((P + 1) * A2))) as [|Q]; auto. exfalso.
  set (B0 := - e0) in *. set (B2 := - e2) in *.
  assert (PA : 0 < (P + 1) * A2) by (apply Rmult_lt_0_compat; lra).
  assert (B1 : 3 * ((P + 1) * A2) < (2 * P + 3) * - e1) by (unfold D in HD; lra).
  assert (I1 : 6 / 5 * A2 < - e1).
  { apply (Rmult_lt_reg_l (2 * P + 3)); [lra|]. eapply Rle_lt_trans; [|exact B1].
    replace ((2 * P + 3) * (6 / 5 * A2)) with (A2 * ((2 * P + 3) * (6 / 5))) by ring. replace (3 * ((P + 1) * A2)) with (A2 * (3 * (P + 1))) by ring.
    apply Rmult_le_compat_l; lra. }
  assert (I2 : B2 <= 8 / 7 * A2).
  { destruct (Rle_lt_dec B2 (8 / 7 * A2)) as [|N]; auto. exfalso.
    assert (B2p : 0 < B2) by lra.
    assert (Q1 : (P + 1) * A2 / 2 * ((2 * P + 5) * B2) <= D * ((2 * P + 5) * B2)).
    { apply Rmult_le_compat_r; auto. apply Rmult_le_pos; lra. }
    rewrite H2 in Q1. apply (Rmult_le_reg_l ((P + 1) * A2)) with (r1 := / 2 * ((2 * P + 5) * B2)) (r2 := (P + 3) * A2) in PA; [|lra].
    assert (Q2 : (2 * P + 5) * (8 / 7 * A2) < (2 * P + 5) * B2) by (apply Rmult_lt_compat_l; lra).
    assert (Q3 : A2 * (2 * (P + 3)) <= A2 * ((2 * P + 5) * (8 / 7))) by (apply Rmult_le_compat_l; lra). lra. }
  assert (I0 : B0 <= A2).
  { destruct (Rle_lt_dec B0 A2) as [|N]; auto. exfalso.
    assert (Q1 : (2 * P + 1) * A2 * (3 * ((P + 1) * A2)) <= (2 * P + 1) * B0 * T).
    { apply Rmult_le_compat; try lra; try (apply Rmult_le_pos; lra); apply Rmult_le_compat_l; lra. }
    rewrite H0 in Q1.
    assert (Q2 : (P + 2) * A1 * (P * A1) <= (P + 2) * P * (2 * (A2 * A2))).
    { replace ((P + 2) * A1 * (P * A1)) with ((P + 2) * P * (A1 * A1)) by ring. apply Rmult_le_compat_l; auto. apply Rmult_le_pos; lra. }
    assert (Q3 : 0 < A2 * A2) by (apply Rmult_lt_0_compat; auto).
    assert (Q4 : (A2 * A2) * ((P + 2) * P * 2) < (A2 * A2) * ((2 * P + 1) * (3 * (P + 1)))).
    { apply Rmult_lt_compat_l; auto. nra. }
    lra. }
  unfold B0, B2 in *. destruct Hmid; lra.
Qed.

Lemma ampR T : 0 < T -> (2 * P + 5) * - e2 * T = (P + 1) * A2 * ((P + 3) * A2) ->
  let D := - ((2 * P + 3) * e1 + T) in
  D * ((2 * P + 1) * - e0) = (P + 2) * A1 * (P * A1) -> (P + 2) * A1 / 2 <= D -> T <= 3 * ((P + 2) * A1).
Proof.
  intros HT H2 D H0 HD. destruct (Rle_lt_dec T (3 * ((P + 2) * A1))) as [|Q]; auto. exfalso.
  set (B0 := - e0) in *. set (B2 := - e2) in *.
  assert (PA : 0 < (P + 2) * A1) by (apply Rmult_lt_0_compat; lra).
  assert (B1 : 3 * ((P + 2) * A1) < (2 * P + 3) * - e1) by (unfold D in HD; lra).
  assert (I1 : 3 / 2 * A1 < - e1).
  { apply (Rmult_lt_reg_l (2 * P + 3)); [lra|]. eapply Rle_lt_trans; [|exact B1].
    replace ((2 * P + 3) * (3 / 2 * A1)) with (A1 * ((2 * P + 3) * (3 / 2))) by ring. replace (3 * ((P + 2) * A1)) with (A1 * (3 * (P + 2))) by ring.
    apply Rmult_le_compat_l; lra. }
  assert (I0 : B0 <= A1).
  { destruct (Rle_lt_dec B0 A1) as [|N]; auto. exfalso.
    assert (Q1 : (P + 2) * A1 / 2 * ((2 * P + 1) * B0) <= D * ((2 * P + 1) * B0)).
    { apply Rmult_le_compat_r; auto. apply Rmult_le_pos; lra. }
    rewrite H0 in Q1. apply (Rmult_le_reg_l ((P + 2) * A1)) with (r1 := / 2 * ((2 * P + 1) * B0)) (r2 := P * A1) in PA; [|lra].
    assert (Q2 : (2 * P + 1) * A1 < (2 * P + 1) * B0) by (apply Rmult_lt_compat_l; lra). lra. }
  assert (I2 : B2 <= 3 / 2 * A1).
  { destruct (Rle_lt_dec B2 (3 / 2 * A1)) as [|N]; auto. exfalso.
    assert (Q1 : (2 * P + 5) * (3 / 2 * A1) * (3 * ((P + 2) * A1)) <= (2 * P + 5) * B2 * T).
    { apply Rmult_le_compat; try lra; try (apply Rmult_le_pos; lra); apply Rmult_le_compat_l; lra. }
    rewrite H2 in Q1.
    assert (Q2 : (P + 1) * A2 * ((P + 3) * A2) <= (P + 1) * (P + 3) * (5 * (A1 * A1))).
    { replace ((P + 1) * A2 * ((P + 3) * A2)) with ((P + 1) * (P + 3) * (A2 * A2)) by ring. apply Rmult_le_compat_l; auto. apply Rmult_le_pos; lra. }
    assert (Q3 : 0 < A1 * A1) by (apply Rmult_lt_0_compat; auto).
    assert (Q4 : (A1 * A1) * ((P + 1) * (P + 3) * 5) < (A1 * A1) * ((2 * P + 5) * (3 / 2) * (3 * (P + 2)))).
    { apply Rmult_lt_compat_l; auto. nra. }
    lra. }
  unfold B0, B2 in *. destruct Hmid; lra.
Qed.
End Amplification.

Local Open Scope Z_scope.
(** ** The run *)
Section Three.
Variables size a b m n p : Z.
Hypotheses (Hm : Z.abs m <= a) (Hn : Z.abs n <= b) (Hsz : a + b < size) (Hab : a + b <= 151).
Hypotheses (ES : a + b = p + 2) (EJ : jlo a b m n = p) (P1 : 1 <= p).
Notation G ws blk i := (get size ws blk i).
Notation gg := (gg a b m n).
Notation xx := (xx a b m n).
Notation yy := (yy a b m n).
Notation zz := (zz a b m n).
Notation x64 := (x64 a b m n).
Notation z64 := (z64 a b m n).

Lemma squares : 0 < A2 (p + 1) a b (m + n) <= 2 ^ 32 /\ 0 < A2 (p + 2) a b (m + n) <= 2 ^ 32 /\
  A2 (p + 1) a b (m + n) <= 2 * A2 (p + 2) a b (m + n) /\ A2 (p + 2) a b (m + n) <= 5 * A2 (p + 1) a b (m + n).
Proof.
  pose proof (A2_pos (p + 1) a b m n ltac:(lia)) as Q1. pose proof (A2_pos (p + 2) a b m n ltac:(lia)) as Q2.
  unfold A2 in *. unfold jlo in EJ. rewrite ES in *.
  set (d := a - b) in *. set (M := m + n) in *.
  assert (Dd : d * d <= p * p) by (rewrite <- (Z.abs_square d); apply Z.mul_le_mono_nonneg; lia).
  assert (DM : M * M <= p * p) by (rewrite <- (Z.abs_square M); apply Z.mul_le_mono_nonneg; lia).
  assert (Dm : d * d = p * p \/ M * M = p * p).
  { rewrite <- (Z.abs_square d), <- (Z.abs_square M). destruct (Z.max_spec (Z.abs d) (Z.abs M)) as [[_ E]|[_ E]]; rewrite E in EJ; rewrite EJ; auto. }
  assert (d0 : 0 <= d * d) by apply Z.square_nonneg. assert (m0 : 0 <= M * M) by apply Z.square_nonneg.
  set (D := d * d) in *. set (N := M * M) in *. clearbody D N. clear Q1 Q2 EJ.
  set (D1 := (p + 1) * (p + 1) - D). set (D2 := (p + 2) * (p + 2) - D). set (M1 := (p + 1) * (p + 1) - N). set (M2 := (p + 2) * (p + 2) - N).
  replace ((p + 2 + 1) * (p + 2 + 1) - (p + 1) * (p + 1)) with (4 * (p + 2)) by ring.
  replace ((p + 2 + 1) * (p + 2 + 1) - (p + 2) * (p + 2)) with (2 * p + 5) by ring.
  assert (B1 : 2 * p + 1 <= D1 <= (p + 1) * (p + 1)) by (unfold D1; clear - Dd d0 P1; lia). assert (B2 : 2 * p + 1 <= M1 <= (p + 1) * (p + 1)) by (unfold M1; clear - DM m0 P1; lia).
  assert (C1 : D2 = D1 + 2 * p + 3) by (unfold D1, D2; ring). assert (C2 : M2 = M1 + 2 * p + 3) by (unfold M1, M2; ring).
  assert (B3 : D1 * M1 <= (2 * p + 1) * ((p + 1) * (p + 1))).
  { destruct Dm as [E|E]; [replace D1 with (2 * p + 1) by (unfold D1; lia)|replace M1 with (2 * p + 1) by (unfold M1; lia); rewrite Z.mul_comm]; apply Z.mul_le_mono_nonneg_l; lia. }
  assert (B4 : D2 * M2 <= (4 * p + 4) * ((p + 2) * (p + 2))).
  { assert (D2 <= (p + 2) * (p + 2) /\ M2 <= (p + 2) * (p + 2)) as [X1 X2] by (unfold D2, M2; clear - d0 m0; lia).
    destruct Dm as [E|E]; [replace D2 with (4 * p + 4) by (unfold D2; lia)|replace M2 with (4 * p + 4) by (unfold M2; lia); rewrite Z.mul_comm]; apply Z.mul_le_mono_nonneg_l; lia. }
  assert (B5 : D1 * M1 <= D2 * M2) by (apply Z.mul_le_mono_nonneg; lia).
  assert (B6 : 9 * (D2 * M2) <= 64 * (D1 * M1)).
  { replace (9 * (D2 * M2)) with ((3 * D2) * (3 * M2)) by ring. replace (64 * (D1 * M1)) with ((8 * D1) * (8 * M1)) by ring. apply Z.mul_le_mono_nonneg; lia. }
  assert (B7 : 0 < D1 * M1) by (apply Z.mul_pos_pos; lia).
  assert (K : 8 * ((p + 2) * (p + 2) * ((p + 2) * (p + 2))) <= 2 ^ 32).
  { assert (S0 : (p + 2) * (p + 2) <= 151 * 151) by (apply Z.mul_le_mono_nonneg; lia). pose proof (Z.square_nonneg (p + 2)).
    assert ((p + 2) * (p + 2) * ((p + 2) * (p + 2)) <= 151 * 151 * (151 * 151)) by (apply Z.mul_le_mono_nonneg; auto). lia. }
  replace (D1 * (4 * (p + 2)) * M1) with (4 * (p + 2) * (D1 * M1)) by ring. replace (D2 * (2 * p + 5) * M2) with ((2 * p + 5) * (D2 * M2)) by ring.
  split; [split|split; [split|split]].
  - apply Z.mul_pos_pos; lia.
  - eapply Z.le_trans; [|exact K]. apply Z.le_trans with (4 * (p + 2) * ((2 * p + 1) * ((p + 1) * (p + 1)))); [apply Z.mul_le_mono_nonneg_l; lia|].
    replace (4 * (p + 2) * ((2 * p + 1) * ((p + 1) * (p + 1)))) with ((4 * (p + 2) * (2 * p + 1)) * ((p + 1) * (p + 1))) by ring.
    replace (8 * ((p + 2) * (p + 2) * ((p + 2) * (p + 2)))) with ((8 * (p + 2) * (p + 2)) * ((p + 2) * (p + 2))) by ring. clear - P1; apply Z.mul_le_mono_nonneg; nia.
  - apply Z.mul_pos_pos; lia.
  - eapply Z.le_trans; [|exact K]. apply Z.le_trans with ((2 * p + 5) * ((4 * p + 4) * ((p + 2) * (p + 2)))); [apply Z.mul_le_mono_nonneg_l; lia|].
    replace ((2 * p + 5) * ((4 * p + 4) * ((p + 2) * (p + 2)))) with (((2 * p + 5) * (4 * p + 4)) * ((p + 2) * (p + 2))) by ring.
    replace (8 * ((p + 2) * (p + 2) * ((p + 2) * (p + 2)))) with ((8 * (p + 2) * (p + 2)) * ((p + 2) * (p + 2))) by ring. clear - P1; apply Z.mul_le_mono_nonneg; nia.
  - replace (2 * ((2 * p + 5) * (D2 * M2))) with ((4 * p + 10) * (D2 * M2)) by ring. apply Z.mul_le_mono_nonneg; lia.
  - assert ((2 * p + 5) * (9 * (D2 * M2)) <= (2 * p + 5) * (64 * (D1 * M1))) by (apply Z.mul_le_mono_nonneg_l; lia).
    assert ((2 * p + 5) * 64 * (D1 * M1) <= 45 * (4 * (p + 2)) * (D1 * M1)) by (apply Z.mul_le_mono_nonneg_r; lia). lia.
Qed.

Local Notation al j := (Aq j a b (m + n)).
Lemma alphas : (1 <= al (p + 1) <= 65536 /\ 1 <= al (p + 2) <= 65536 /\ al (p + 1) * al (p + 1) <= 2 * (al (p + 2) * al (p + 2)) /\
  al (p + 2) * al (p + 2) <= 5 * (al (p + 1) * al (p + 1)))%R.
Proof.
  destruct squares as (S1 & S2 & S3 & S4). unfold Aq.
  assert (Bd : forall z, 0 < z <= 2 ^ 32 -> (1 <= sqrt (IZR z) <= 65536)%R).
  { intros z Hz. split.
    - rewrite <- sqrt_1. apply sqrt_le_1_alt. apply (IZR_le 1). lia.
    - replace 65536%R with (sqrt (65536 * 65536)) by (apply sqrt_square; lra). apply sqrt_le_1_alt. rewrite <- mult_IZR. apply IZR_le. lia. }
  rewrite !sqrt_sqrt by (apply (IZR_le 0); lia). rewrite <- !mult_IZR.
  split; [auto|]. split; [auto|]. split; apply IZR_le; lia.
Qed.

Lemma Pb : (1 <= IZR p <= 149)%R.
Proof. split; apply IZR_le; lia. Qed.
Lemma x0_eq : xx p = (IZR p * al (p + 1))%R. Proof. reflexivity. Qed.
Lemma x1_eq : xx (p + 1) = ((IZR p + 1) * al (p + 2))%R. Proof. unfold ThreeJ4.xx. rewrite plus_IZR. now replace (p + 1 + 1) with (p + 2) by lia. Qed.
Lemma z1_eq : zz (p + 1) = ((IZR p + 2) * al (p + 1))%R. Proof. unfold ThreeJ4.zz. replace (p + 1 + 1) with (p + 2) by lia. rewrite plus_IZR. reflexivity. Qed.
Lemma z2_eq : zz (p + 2) = ((IZR p + 3) * al (p + 2))%R. Proof. unfold ThreeJ4.zz. replace (p + 2 + 1) with (p + 3) by lia. rewrite plus_IZR. reflexivity. Qed.
Definition ee (j : Z) : R := IZR ((m + n) * (a * (a + 1) - b * (b + 1)) - (m - n) * j * (j + 1)).
Lemma y_eq j : yy j = (IZR (2 * j + 1) * ee j)%R. Proof. unfold ThreeJ4.yy, Bq, ee. now rewrite mult_IZR. Qed.
Lemma ee_mid : (ee p <= ee (p + 1) <= ee (p + 2) \/ ee (p + 2) <= ee (p + 1) <= ee p)%R.
Proof.
  unfold ee. set (A0 := (m + n) * (a * (a + 1) - b * (b + 1))). set (B0 := m - n).
  destruct (Z_le_gt_dec 0 B0) as [L|L]; [right|left]; split; apply IZR_le; clear - L P1; nia.
Qed.
Lemma xz_bounds : (1 <= xx p <= 2 ^ 40 /\ 1 <= xx (p + 1) <= 2 ^ 40 /\ 1 <= zz (p + 1) <= 2 ^ 40 /\ 1 <= zz (p + 2) <= 2 ^ 40)%R.
Proof.
  rewrite x0_eq, x1_eq, z1_eq, z2_eq. destruct alphas as (A & B & _ & _). pose proof Pb as Pq.
  assert (K : forall x y : R, (1 <= x <= 152)%R -> (1 <= y <= 65536)%R -> (1 <= x * y <= 2 ^ 40)%R).
  { intros x y Hx Hy. split.
    - rewrite <- (Rmult_1_l 1). apply Rmult_le_compat; lra.
    - apply Rle_trans with (152 * 65536)%R; [apply Rmult_le_compat; lra|lra]. }
  repeat split; apply K; lra.
Qed.
Lemma y_bounds j : p <= j <= p + 2 -> (Rabs (yy j) <= 2 ^ 31)%R /\ (yy j = 0 \/ IZR (2 * j + 1) <= Rabs (yy j))%R /\ Yf64 fixed j a b m n = yy j.
Proof.
  intros Hj. pose proof (fixed_ok a b m n Hm Hn Hab) as Hw.
  assert (Yb : Z.abs (Bq j a b m n) <= 2 ^ 31).
  { assert (E : B fixed j a b m n = Bq j a b m n) by (rewrite C35_B by lia; reflexivity). rewrite <- E. unfold B. cbn [wB fixed]. unfold wrap.
    match goal with |- context [?z mod ?k] => pose proof (Z.mod_pos_bound z k ltac:(lia)) end. lia. }
  split; [|split].
  - unfold ThreeJ4.yy. rewrite <- abs_IZR, pow_IZR. apply IZR_le. exact Yb.
  - unfold ThreeJ4.yy. rewrite <- abs_IZR. unfold Bq. set (e := (m + n) * (a * (a + 1) - b * (b + 1)) - (m - n) * j * (j + 1)).
    destruct (Z.eq_dec e 0) as [E|E]; [left; rewrite E, Z.mul_0_r; reflexivity|right]. apply IZR_le. rewrite Z.abs_mul, (Z.abs_eq (2 * j + 1)) by lia.
    rewrite <- (Z.mul_1_r (2 * j + 1)) at 1. apply Z.mul_le_mono_nonneg_l; lia.
  - rewrite (Y64_ok fixed a b m n Hw) by lia. unfold ThreeJ4.yy. apply RN64_int. lia.
Qed.

Lemma recs : (xx p * gg (p + 1) = - yy p * gg p /\ xx (p + 1) * gg (p + 2) + yy (p + 1) * gg (p + 1) + zz (p + 1) * gg p = 0 /\
  zz (p + 2) * gg (p + 1) = - yy (p + 2) * gg (p + 2))%R.
Proof.
  pose proof (gg_rec a b m n Hm Hn p ltac:(lia)) as R0. pose proof (gg_rec a b m n Hm Hn (p + 1) ltac:(lia)) as R1. pose proof (gg_rec a b m n Hm Hn (p + 2) ltac:(lia)) as R2.
  pose proof (zz_jmin a b m n) as Q0. rewrite EJ in Q0. rewrite Q0 in R0.
  pose proof (xx_jmax a b m n) as Q2. rewrite ES in Q2. rewrite Q2 in R2.
  replace (p + 1 - 1) with p in R1 by lia. replace (p + 1 + 1) with (p + 2) in R1 by lia. replace (p + 2 - 1) with (p + 1) in R2 by lia.
  repeat split; lra.
Qed.
Lemma g0_neq : gg p <> 0%R. Proof. rewrite <- EJ. apply gg_bottom; auto. Qed.
Lemma g2_neq : gg (p + 2) <> 0%R. Proof. rewrite <- ES. apply gg_top; auto. Qed.
Lemma y0_zero : yy p = 0%R -> gg (p + 1) = 0%R.
Proof. intros E. destruct recs as (R0 & _ & _). rewrite E in R0. destruct xz_bounds as (X0 & _). apply (Rmult_eq_reg_l (xx p)); lra. Qed.
Lemma g1_zero : gg (p + 1) = 0%R -> yy p = 0%R /\ yy (p + 2) = 0%R.
Proof.
  intros E. destruct recs as (R0 & _ & R2). rewrite E, Rmult_0_r in R0, R2. symmetry in R0, R2.
  apply Rmult_integral in R0, R2. pose proof g0_neq. pose proof g2_neq. destruct R0; [|tauto]. destruct R2; [|tauto]. split; lra.
Qed.

Lemma ratio_low K x y u v : (1 <= Rabs x)%R -> (Rabs y <= K)%R -> (x * u = y * v)%R -> (Rabs u <= K * Rabs v)%R.
Proof.
  intros Hx Hy E. apply (f_equal Rabs) in E. rewrite !Rabs_mult in E. pose proof (Rabs_pos u). pose proof (Rabs_pos v).
  assert (1 * Rabs u <= Rabs x * Rabs u)%R by (apply Rmult_le_compat_r; lra). assert (Rabs y * Rabs v <= K * Rabs v)%R by (apply Rmult_le_compat_r; lra). lra.
Qed.
Lemma low k : p <= k <= p + 2 -> gg k = 0%R \/ (/ 2 ^ 100 <= Rabs (gg k))%R.
Proof.
  intros Hk. pose proof (cols_norm a b m n Hm Hn) as CN. rewrite EJ, ES in CN.
  rewrite rsum_last in CN by lia. replace (p + 2 - 1) with (p + 1) in CN by lia. rewrite rsum_last in CN by lia. replace (p + 1 - 1) with p in CN by lia. rewrite rsum_one in CN.
  change (GG a b m n) with gg in CN.
  destruct recs as (R0 & R1 & R2). destruct xz_bounds as (X0 & X1 & Z1 & Z2).
  destruct (y_bounds p ltac:(lia)) as (Y0 & Y0' & _). destruct (y_bounds (p + 2) ltac:(lia)) as (Y2 & Y2' & _).
  set (g0 := gg p) in *. set (g1 := gg (p + 1)) in *. set (g2 := gg (p + 2)) in *.
  assert (Mx : (/ 64 <= Rabs g0 \/ / 64 <= Rabs g1 \/ / 64 <= Rabs g2)%R).
  { destruct (Rle_dec (/ 64) (Rabs g0)) as [|L0]; [auto|]. destruct (Rle_dec (/ 64) (Rabs g1)) as [|L1]; [auto|]. destruct (Rle_dec (/ 64) (Rabs g2)) as [|L2]; [auto|]. exfalso.
    assert (Sq : forall g q, ~ (/ 64 <= Rabs g)%R -> 0 <= q <= 303 -> (IZR q * (g * g) <= 303 * (/ 64 * / 64))%R).
    { intros g q L Hq. assert (S0 : (g * g <= / 64 * / 64)%R).
      { replace (g * g)%R with (Rabs g * Rabs g)%R by (rewrite <- Rabs_mult; apply Rabs_pos_eq, Rle_0_sqr). pose proof (Rabs_pos g). apply Rmult_le_compat; lra. }
      apply Rmult_le_compat; try lra; [apply (IZR_le 0); lia|apply Rle_0_sqr|apply IZR_le; lia]. }
    pose proof (Sq g0 (2 * p + 1) L0 ltac:(lia)). pose proof (Sq g1 (2 * (p + 1) + 1) L1 ltac:(lia)). pose proof (Sq g2 (2 * (p + 2) + 1) L2 ltac:(lia)). lra. }
  pose proof (Rabs_pos g0). pose proof (Rabs_pos g1). pose proof (Rabs_pos g2).
  assert (I1 : (/ 2 ^ 100 * 2 ^ 80 * 64 < 1)%R).
  { replace (2 ^ 100)%R with (2 ^ 80 * 2 ^ 20)%R by (rewrite <- pow_add; reflexivity).
    assert (E8 : (2 ^ 80 <> 0)%R) by (apply pow_nonzero; lra). assert (E2 : (2 ^ 20 <> 0)%R) by (apply pow_nonzero; lra).
    replace (/ (2 ^ 80 * 2 ^ 20) * 2 ^ 80 * 64)%R with (64 / 2 ^ 20)%R by (field; auto). lra. }
  pose proof (pow_inv_pos 100) as I0. set (t := (/ 2 ^ 100)%R) in *. replace (2 ^ 80)%R with (2 ^ 40 * 2 ^ 40)%R in I1 by (rewrite <- pow_add; reflexivity).
  set (K := (2 ^ 40)%R) in *. assert (K1 : (64 <= K)%R) by (unfold K; lra).
  assert (F : forall u v, (/ 64 <= u)%R -> (u <= K * (K * v))%R -> (t <= v)%R).
  { intros u v Hu Hv. destruct (Rle_lt_dec t v); auto. exfalso.
    assert (K * (K * v) <= K * (K * t))%R by (repeat apply Rmult_le_compat_l; lra). lra. }
  assert (F1 : forall u v, (0 <= v)%R -> (u <= K * v)%R -> (u <= K * (K * v))%R).
  { intros u v Hv Hu. eapply Rle_trans; [exact Hu|]. apply Rmult_le_compat_l; [lra|]. rewrite <- (Rmult_1_l v) at 1. apply Rmult_le_compat_r; lra. }
  assert (F0 : forall u, (0 <= u)%R -> (u <= K * (K * u))%R).
  { intros u Hu. apply F1; auto. rewrite <- (Rmult_1_l u) at 1. apply Rmult_le_compat_r; lra. }
  assert (F2 : forall u v w, (u <= K * v)%R -> (v <= K * w)%R -> (u <= K * (K * w))%R).
  { intros u v w0 Hu Hv. eapply Rle_trans; [exact Hu|]. apply Rmult_le_compat_l; lra. }
  destruct (Req_dec g1 0) as [E1|N1].
  - rewrite E1, Rmult_0_r, Rplus_0_r in R1. rewrite E1, Rabs_R0 in Mx.
    assert (Q02 : (Rabs g0 <= K * Rabs g2)%R). { apply (ratio_low K (zz (p + 1)) (- xx (p + 1))); [rewrite Rabs_pos_eq; lra|rewrite Rabs_Ropp, Rabs_pos_eq; lra|lra]. }
    assert (Q20 : (Rabs g2 <= K * Rabs g0)%R). { apply (ratio_low K (xx (p + 1)) (- zz (p + 1))); [rewrite Rabs_pos_eq; lra|rewrite Rabs_Ropp, Rabs_pos_eq; lra|lra]. }
    assert (C : k = p \/ k = p + 1 \/ k = p + 2) by lia. destruct C as [-> |[-> | ->]]; [right|left; auto|right].
    + destruct Mx as [Q|[Q|Q]]; [|lra|]; eapply F; try exact Q; auto.
    + destruct Mx as [Q|[Q|Q]]; [|lra|]; eapply F; try exact Q; auto.
  - assert (Y0n : yy p <> 0%R) by (intros E; apply N1, y0_zero, E).
    assert (Y2n : yy (p + 2) <> 0%R). { intros E. rewrite E, Ropp_0, Rmult_0_l in R2. apply N1. apply (Rmult_eq_reg_l (zz (p + 2))); lra. }
    destruct Y0' as [|Y0']; [tauto|]. destruct Y2' as [|Y2']; [tauto|].
    assert (1 <= IZR (2 * p + 1) /\ 1 <= IZR (2 * (p + 2) + 1))%R as [O1 O2] by (split; apply (IZR_le 1); lia).
    assert (Q01 : (Rabs g0 <= K * Rabs g1)%R). { apply (ratio_low K (- yy p) (xx p)); [rewrite Rabs_Ropp; lra|rewrite Rabs_pos_eq; lra|lra]. }
    assert (Q10 : (Rabs g1 <= K * Rabs g0)%R). { apply (ratio_low K (xx p) (- yy p)); [rewrite Rabs_pos_eq; lra|rewrite Rabs_Ropp; unfold K; lra|lra]. }
    assert (Q21 : (Rabs g2 <= K * Rabs g1)%R). { apply (ratio_low K (- yy (p + 2)) (zz (p + 2))); [rewrite Rabs_Ropp; lra|rewrite Rabs_pos_eq; lra|lra]. }
    assert (Q12 : (Rabs g1 <= K * Rabs g2)%R). { apply (ratio_low K (zz (p + 2)) (- yy (p + 2))); [rewrite Rabs_pos_eq; lra|rewrite Rabs_Ropp; unfold K; lra|lra]. }
    right. assert (C : k = p \/ k = p + 1 \/ k = p + 2) by lia.
    destruct C as [-> |[-> | ->]]; destruct Mx as [Q|[Q|Q]]; eapply F; try exact Q; eauto.
Qed.
Lemma high k : p <= k <= p + 2 -> (Rabs (gg k) <= 1)%R.
Proof.
  intros Hk. pose proof (cols_norm a b m n Hm Hn) as CN. rewrite EJ, ES in CN.
  rewrite rsum_last in CN by lia. replace (p + 2 - 1) with (p + 1) in CN by lia. rewrite rsum_last in CN by lia. replace (p + 1 - 1) with p in CN by lia. rewrite rsum_one in CN.
  change (GG a b m n) with gg in CN.
  assert (I : forall q g, 1 <= q -> (0 <= g * g <= IZR q * (g * g))%R).
  { intros q g Hq. split; [apply Rle_0_sqr|]. rewrite <- (Rmult_1_l (g * g)) at 1. apply Rmult_le_compat_r; [apply Rle_0_sqr|apply (IZR_le 1); lia]. }
  pose proof (I (2 * p + 1) (gg p) ltac:(lia)). pose proof (I (2 * (p + 1) + 1) (gg (p + 1)) ltac:(lia)). pose proof (I (2 * (p + 2) + 1) (gg (p + 2)) ltac:(lia)).
  apply Rsqr_incr_0_var; [|lra]. rewrite <- Rsqr_abs. unfold Rsqr. assert (C : k = p \/ k = p + 1 \/ k = p + 2) by lia. destruct C as [-> |[-> | ->]]; lra.
Qed.

Lemma y0_split : yy p = ((2 * IZR p + 1) * ee p)%R. Proof. rewrite y_eq. f_equal. rewrite plus_IZR, mult_IZR. reflexivity. Qed.
Lemma y1_split : yy (p + 1) = ((2 * IZR p + 3) * ee (p + 1))%R.
Proof. rewrite y_eq. f_equal. replace (2 * (p + 1) + 1) with (2 * p + 3) by lia. rewrite plus_IZR, mult_IZR. reflexivity. Qed.
Lemma y2_split : yy (p + 2) = ((2 * IZR p + 5) * ee (p + 2))%R.
Proof. rewrite y_eq. f_equal. replace (2 * (p + 2) + 1) with (2 * p + 5) by lia. rewrite plus_IZR, mult_IZR. reflexivity. Qed.
Lemma big_T x y : (0 <= x <= 152 * 65536)%R -> (0 <= y <= 152 * 65536)%R -> (x * y <= 2 ^ 47)%R.
Proof. intros Hx Hy. apply Rle_trans with (152 * 65536 * (152 * 65536))%R; [apply Rmult_le_compat; lra|]. lra. Qed.
Lemma quot_T x y z : (0 < x)%R -> (0 < y)%R -> (z <= -1)%R -> (x * y <= 2 ^ 47)%R -> (0 < x * (- y / z) <= 2 ^ 47)%R.
Proof.
  intros Hx Hy Hz H. replace (x * (- y / z))%R with (x * y * / (- z))%R by (field; lra). assert (P : (0 < x * y)%R) by (apply Rmult_lt_0_compat; auto).
  assert (I : (0 < / (- z) <= 1)%R). { split; [apply Rinv_0_lt_compat; lra|]. rewrite <- Rinv_1. apply Rinv_le_contravar; lra. }
  split; [apply Rmult_lt_0_compat; lra|]. assert (x * y * / (- z) <= x * y * 1)%R by (apply Rmult_le_compat_l; lra). lra.
Qed.

Lemma amp_up : (yy p < 0)%R -> let T := (zz (p + 1) * (- xx p / yy p))%R in
  (0 < T <= 2 ^ 47 /\ gg (p + 1) <> 0 /\ - (yy (p + 1) + T) * gg (p + 1) = xx (p + 1) * gg (p + 2) /\
   (xx (p + 1) / 2 <= - (yy (p + 1) + T) -> T <= 3 * xx (p + 1)))%R.
Proof.
  intros Y T. destruct recs as (R0 & R1 & R2). destruct xz_bounds as (X0 & X1 & Z1 & Z2). destruct alphas as (A & B & AB & BA). pose proof Pb as Pq.
  destruct (y_bounds p ltac:(lia)) as (_ & [E|Y0] & _); [lra|]. rewrite Rabs_left in Y0 by auto.
  assert (O1 : (1 <= IZR (2 * p + 1))%R) by (apply (IZR_le 1); lia).
  assert (N1 : gg (p + 1) <> 0%R) by (intros E; destruct (g1_zero E); lra). pose proof g2_neq as N2. pose proof g0_neq as N0.
  assert (HT : (0 < T <= 2 ^ 47)%R).
  { apply quot_T; try lra. rewrite z1_eq, x0_eq. apply big_T; (split; [apply Rmult_le_pos; lra|apply Rmult_le_compat; lra]). }
  assert (TG : (T * gg (p + 1) = zz (p + 1) * gg p)%R).
  { unfold T. replace (zz (p + 1) * (- xx p / yy p) * gg (p + 1))%R with (zz (p + 1) * (- (xx p * gg (p + 1)) / yy p))%R by (field; lra). rewrite R0. field. lra. }
  assert (DG : (- (yy (p + 1) + T) * gg (p + 1) = xx (p + 1) * gg (p + 2))%R) by lra.
  split; auto. split; auto. split; auto. intros HD.
  assert (DY : (- (yy (p + 1) + T) * (- yy (p + 2)) = xx (p + 1) * zz (p + 2))%R).
  { apply (Rmult_eq_reg_r (gg (p + 1) * gg (p + 2))); [|apply Rmult_integral_contrapositive_currified; auto].
    replace (- (yy (p + 1) + T) * - yy (p + 2) * (gg (p + 1) * gg (p + 2)))%R with ((- (yy (p + 1) + T) * gg (p + 1)) * (- yy (p + 2) * gg (p + 2)))%R by ring.
    rewrite DG, <- R2. ring. }
  assert (TY : (- yy p * T = zz (p + 1) * xx p)%R) by (unfold T; field; lra).
  rewrite y1_split, y2_split, x1_eq, z2_eq in DY. rewrite y0_split, z1_eq, x0_eq in TY. rewrite y1_split, x1_eq in HD. rewrite x1_eq.
  apply (ampF (IZR p) (al (p + 1)) (al (p + 2)) (ee p) (ee (p + 1)) (ee (p + 2))); try lra; try apply ee_mid.
Qed.
Lemma amp_down : (yy (p + 2) < 0)%R -> let T := (xx (p + 1) * (- zz (p + 2) / yy (p + 2)))%R in
  (0 < T <= 2 ^ 47 /\ gg (p + 1) <> 0 /\ - (yy (p + 1) + T) * gg (p + 1) = zz (p + 1) * gg p /\
   (zz (p + 1) / 2 <= - (yy (p + 1) + T) -> T <= 3 * zz (p + 1)))%R.
Proof.
  intros Y T. destruct recs as (R0 & R1 & R2). destruct xz_bounds as (X0 & X1 & Z1 & Z2). destruct alphas as (A & B & AB & BA). pose proof Pb as Pq.
  destruct (y_bounds (p + 2) ltac:(lia)) as (_ & [E|Y0] & _); [lra|]. rewrite Rabs_left in Y0 by auto.
  assert (O1 : (1 <= IZR (2 * (p + 2) + 1))%R) by (apply (IZR_le 1); lia).
  assert (N1 : gg (p + 1) <> 0%R) by (intros E; destruct (g1_zero E); lra). pose proof g2_neq as N2. pose proof g0_neq as N0.
  assert (HT : (0 < T <= 2 ^ 47)%R).
  { apply quot_T; try lra. rewrite z2_eq, x1_eq. apply big_T; (split; [apply Rmult_le_pos; lra|apply Rmult_le_compat; lra]). }
  assert (TG : (T * gg (p + 1) = xx (p + 1) * gg (p + 2))%R).
  { unfold T. replace (xx (p + 1) * (- zz (p + 2) / yy (p + 2)) * gg (p + 1))%R with (xx (p + 1) * (- (zz (p + 2) * gg (p + 1)) / yy (p + 2)))%R by (field; lra). rewrite R2. field. lra. }
  assert (DG : (- (yy (p + 1) + T) * gg (p + 1) = zz (p + 1) * gg p)%R) by lra.
  split; auto. split; auto. split; auto. intros HD.
  assert (DY : (- (yy (p + 1) + T) * (- yy p) = zz (p + 1) * xx p)%R).
  { apply (Rmult_eq_reg_r (gg (p + 1) * gg p)); [|apply Rmult_integral_contrapositive_currified; auto].
    replace (- (yy (p + 1) + T) * - yy p * (gg (p + 1) * gg p))%R with ((- (yy (p + 1) + T) * gg (p + 1)) * (- yy p * gg p))%R by ring.
    rewrite DG, <- R0. ring. }
  assert (TY : (- yy (p + 2) * T = xx (p + 1) * zz (p + 2))%R) by (unfold T; field; lra).
  rewrite y1_split, y0_split, x0_eq, z1_eq in DY. rewrite y2_split, x1_eq, z2_eq in TY. rewrite y1_split, z1_eq in HD. rewrite z1_eq.
  apply (ampR (IZR p) (al (p + 1)) (al (p + 2)) (ee p) (ee (p + 1)) (ee (p + 2))); try lra; try apply ee_mid.
Qed.

(** ** The boundary iterations *)
Lemma Hw : ok_widths a b m n fixed. Proof. apply fixed_ok; auto. Qed.
Lemma Xk j : p - 1 <= j <= p + 2 -> Xf64 fixed j a b (- (m + n)) = Ok (x64 j).
Proof. intros. apply X64_ok; [apply Hw|lia]. Qed.
Lemma Zk j : p <= j <= p + 2 -> Zf64 fixed j a b (- (m + n)) = Ok (z64 j).
Proof. intros. apply Z64_ok; [apply Hw|lia]. Qed.
Lemma Yk j : p <= j <= p + 2 -> Yf64 fixed j a b m n = yy j.
Proof. intros. apply y_bounds. auto. Qed.
Lemma xl j : p <= j < p + 2 -> lg (5 / 2) (x64 j) (xx j) /\ (1 <= xx j)%R.
Proof. intros. apply x64_lg; lia. Qed.
Lemma zl j : p < j <= p + 2 -> lg (5 / 2) (z64 j) (zz j) /\ (1 <= zz j)%R.
Proof. intros. apply z64_lg; lia. Qed.

Lemma quot_low x y : (1 <= Rabs x)%R -> (0 < Rabs y <= 2 ^ 40)%R -> (/ 2 ^ 40 <= Rabs (- x / y))%R.
Proof.
  intros Hx Hy. unfold Rdiv. rewrite Rabs_mult, Rabs_Ropp, Rabs_inv. apply Rle_trans with (1 * / 2 ^ 40)%R; [lra|].
  pose proof (pow_inv_pos 40). apply Rmult_le_compat; try lra. apply Rinv_le_contravar; lra.
Qed.
Lemma low40 x : (/ 2 ^ 40 <= Rabs x)%R -> (/ 2 ^ 900 <= Rabs x)%R.
Proof. intros. pose proof (pow_inv_le 40 900 ltac:(lia)). lra. Qed.
Lemma low80 x : (/ 2 ^ 80 <= Rabs x)%R -> (/ 2 ^ 900 <= Rabs x)%R.
Proof. intros. pose proof (pow_inv_le 80 900 ltac:(lia)). lra. Qed.
Lemma inv_big g : g <> 0%R -> (Rabs g <= 1)%R -> (1 <= Rabs (/ g))%R.
Proof. intros. rewrite Rabs_inv. rewrite <- Rinv_1 at 1. apply Rinv_le_contravar; [apply Rabs_pos_lt; auto|auto]. Qed.

Definition all_zeros (ws : arr R) : Prop := forall blk k, 0 <= blk <= 3 -> 0 <= k < size -> G ws blk k = 0%R.
Definition whole (ws : arr R) (blk : Z) : Prop := exists c, (1 <= Rabs c)%R /\ forall k, p <= k <= p + 2 -> lg 54 (G ws blk k) (c * gg k).

(** the ratio of the first two symbols *)
Lemma ratio01 : yy p <> 0%R -> lg (7 / 2) (RN64 (- yy p / x64 p)) (/ gg p * gg (p + 1)) /\ (/ 2 ^ 40 <= Rabs (/ gg p * gg (p + 1)))%R /\
  lg (7 / 2) (RN64 (- x64 p / yy p)) (- xx p / yy p).
Proof.
  intros N. destruct recs as (R0 & _ & _). destruct (xl p ltac:(lia)) as [L X1]. destruct xz_bounds as (X0 & _). pose proof g0_neq as G0.
  destruct (y_bounds p ltac:(lia)) as (Yu & [E|Yl] & _); [tauto|]. assert (O1 : (1 <= IZR (2 * p + 1))%R) by (apply (IZR_le 1); lia).
  assert (E : (/ gg p * gg (p + 1) = - yy p / xx p)%R).
  { replace (/ gg p * gg (p + 1))%R with (xx p * gg (p + 1) / xx p / gg p)%R by (field; lra). rewrite R0. field. lra. }
  assert (L1 : (/ 2 ^ 40 <= Rabs (- yy p / xx p))%R) by (apply quot_low; [lra|rewrite Rabs_pos_eq; lra]).
  rewrite E. split; [|split; auto].
  - replace (7 / 2)%R with (0 + 5 / 2 + 1)%R by lra. apply lg_RN0; [apply lg_div; [apply lg_refl|auto]|lra|right; apply low40; auto].
  - replace (7 / 2)%R with (5 / 2 + 0 + 1)%R by lra. apply lg_RN0; [apply lg_div; [apply lg_opp; auto|apply lg_refl]|lra|right; apply low40, quot_low].
    + rewrite Rabs_pos_eq; lra.
    + lra.
Qed.

Lemma fwd3 ws : alen ws = 4 * size -> all_zeros ws ->
  exists ws' jm, forward64 fixed size a b m n ws = Ok (ws', jm, false) /\ alen ws' = 4 * size /\
    (forall blk k, blk = 0 \/ blk = 3 -> 0 <= k < size -> G ws' blk k = 0%R) /\
    ((jm = p + 1 /\ G ws' 2 p = 1%R /\ lg (7 / 2) (G ws' 2 (p + 1)) (/ gg p * gg (p + 1)) /\ G ws' 2 (p - 1) = 0%R) \/
     (jm = p + 2 /\ whole ws' 2)).
Proof.
  intros Hl Hz. unfold forward64. cbv zeta. change (Z.max (Z.abs (a - b)) (Z.abs (m + n))) with (jlo a b m n). rewrite EJ, ES.
  rewrite Xk by lia. cbn [bind]. rewrite Yk by lia.
  assert (Zero : yy p = 0%R -> exists ws' jm,
    (do ws <- wrv ws (slot size (4 * size) 2) p 1%R; do ws <- wrv ws (slot size (4 * size) 2) (p + 1) 0%R; Ok (ws, p + 1, false)) = Ok (ws', jm, false) /\ alen ws' = 4 * size /\
    (forall blk k, blk = 0 \/ blk = 3 -> 0 <= k < size -> G ws' blk k = 0%R) /\
    ((jm = p + 1 /\ G ws' 2 p = 1%R /\ lg (7 / 2) (G ws' 2 (p + 1)) (/ gg p * gg (p + 1)) /\ G ws' 2 (p - 1) = 0%R) \/ (jm = p + 2 /\ whole ws' 2))).
  { intros Y. rewrite wrv_ok by (try lia; auto). cbn [bind]. rewrite wrv_ok by (try lia; auto). cbn [bind].
    eexists. exists (p + 1). split; [reflexivity|]. split; [exact Hl|]. split.
    - intros blk k Hb Hk. rewrite !get_put_b by lia. apply Hz; lia.
    - left. split; auto. rewrite get_put_i by lia. rewrite get_put_same. split; auto. rewrite get_put_same. split.
      + rewrite (y0_zero Y), Rmult_0_r. apply (lg_weak 0); [apply lg_refl|lra].
      + rewrite !get_put_i by lia. apply Hz; lia. }
  destruct ((- (m + n) =? 0) && (m =? 0) && (n =? 0)) eqn:EZ.
  { apply Zero. apply andb_prop in EZ. destruct EZ as [EZ En]. apply andb_prop in EZ. destruct EZ as [_ Em].
    assert (Em' : m = 0) by lia. assert (En' : n = 0) by lia. unfold ThreeJ4.yy, Bq. rewrite Em', En'. f_equal. ring. }
  destruct (xl p ltac:(lia)) as [L0 X0]. assert (Nx : x64 p <> 0%R) by (apply (lg_neq _ _ _ L0); lra).
  destruct (Reqb_spec (yy p) 0) as [Y|Y].
  { destruct (Reqb_spec (x64 p) 0) as [|_]; [tauto|]. apply Zero; auto. }
  clear Zero. destruct (ratio01 Y) as (Lq & Lq' & Ls). set (q := RN64 (- yy p / x64 p)) in *. set (s := RN64 (- x64 p / yy p)) in *.
  assert (Xp : (0 < x64 p)%R) by (apply (lg_pos _ _ _ L0); lra).
  destruct (Rleb_spec 0 (RN64 (x64 p * yy p))) as [Sg|Sg].
  { rewrite wrv_ok by (try lia; auto). cbn [bind]. rewrite fdiv64_ok by auto. cbn [bind]. fold q. rewrite wrv_ok by (try lia; auto). cbn [bind].
    eexists. exists (p + 1). split; [reflexivity|]. split; [exact Hl|]. split.
    - intros blk k Hb Hk. rewrite !get_put_b by lia. apply Hz; lia.
    - left. split; auto. rewrite get_put_i by lia. rewrite get_put_same. split; auto. rewrite get_put_same. split; auto.
      rewrite !get_put_i by lia. apply Hz; lia. }
  assert (Yn : (yy p < 0)%R).
  { destruct (Rlt_le_dec (yy p) 0) as [|Q]; auto. exfalso. apply Sg. apply RN64_ge_0. apply Rmult_le_pos; lra. }
  rewrite fdiv64_ok by auto. cbn [bind]. fold s. rewrite wrv_ok by (try lia; auto). cbn [bind].
  set (ws1 := put size ws 1 p s). assert (L1 : alen ws1 = 4 * size) by exact Hl.
  assert (S1 : G ws1 1 p = s) by apply get_put_same.
  assert (Z1 : forall blk k, blk <> 1 -> 0 <= blk <= 3 -> 0 <= k < size -> G ws1 blk k = 0%R).
  { intros. unfold ws1. rewrite get_put_b by lia. apply Hz; lia. }
  clearbody ws1. unfold for_range_brk. replace (Z.to_nat (p + 2 - (p + 1))) with 1%nat by lia. cbn [loop_brk].
  unfold forward_body64. rewrite Zk by lia. cbn [bind]. replace (p + 1 - 1) with p by lia. rewrite rdv_ok by (try lia; auto). cbn [bind]. rewrite S1, Yk by lia.
  rewrite Xk by lia. cbn [bind].
  destruct (xl (p + 1) ltac:(lia)) as [Lx1 X1]. destruct (zl (p + 1) ltac:(lia)) as [Lz1 Zb].
  set (T' := RN64 (z64 (p + 1) * s)). set (den := RN64 (yy (p + 1) + T')).
  destruct (Rltb (Rabs den) (Rabs (x64 (p + 1))) || Rleb 0 (RN64 (x64 (p + 1) * den)) || Reqb den 0) eqn:Br.
  - (* the loop stops at once *)
    cbn [bind]. rewrite wrv_ok by (try lia; auto). cbn [bind]. replace (p - p + 1) with 1 by lia. rewrite for_range_empty by lia. cbn [bind].
    destruct (Z.eqb_spec p p) as [_|]; [|lia]. rewrite fdiv64_ok by auto. cbn [bind]. fold q. rewrite wrv_ok by (try lia; auto). cbn [bind].
    eexists. exists (p + 1). split; [reflexivity|]. split; [exact L1|]. split.
    + intros blk k Hb Hk. rewrite !get_put_b by lia. apply Z1; lia.
    + left. split; auto. rewrite get_put_i by lia. rewrite get_put_same. split; auto. rewrite get_put_same. split; auto.
      rewrite !get_put_i by lia. apply Z1; lia.
  - (* all three ratios *)
    apply orb_false_elim in Br. destruct Br as [Br Dz]. apply orb_false_elim in Br. destruct Br as [Br1 Br2].
    destruct (Rltb_spec (Rabs den) (Rabs (x64 (p + 1)))) as [|Br1']; [discriminate|]. destruct (Rleb_spec 0 (RN64 (x64 (p + 1) * den))) as [|Br2']; [discriminate|].
    destruct (Reqb_spec den 0) as [|Dn]; [discriminate|]. clear Br1 Br2 Dz.
    assert (Xp1 : (0 < x64 (p + 1))%R) by (apply (lg_pos _ _ _ Lx1); lra).
    assert (Dneg : (den < 0)%R).
    { destruct (Rlt_le_dec den 0) as [|Q]; auto. exfalso. apply Br2'. apply RN64_ge_0. apply Rmult_le_pos; lra. }
    destruct (amp_up Yn) as (HT & N1 & DG & HK). set (T := (zz (p + 1) * (- xx p / yy p))%R) in *.
    destruct (y_bounds p ltac:(lia)) as (Yu & [E|Yl] & _); [tauto|]. assert (O1 : (1 <= IZR (2 * p + 1))%R) by (apply (IZR_le 1); lia).
    assert (Sl : (/ 2 ^ 40 <= Rabs (- xx p / yy p))%R) by (apply quot_low; [rewrite Rabs_pos_eq; lra|lra]).
    assert (LT : lg 7 T' T).
    { unfold T', T. replace 7%R with (5 / 2 + 7 / 2 + 1)%R by lra. apply lg_RN0; [apply lg_mul; auto|lra|right].
      apply low40. rewrite Rabs_mult, (Rabs_pos_eq (zz (p + 1))) by lra. pose proof (Rabs_pos (- xx p / yy p)).
      assert (1 * Rabs (- xx p / yy p) <= zz (p + 1) * Rabs (- xx p / yy p))%R by (apply Rmult_le_compat_r; lra). lra. }
    destruct (cancel (xx (p + 1)) (x64 (p + 1)) (yy (p + 1)) T T' X1 Lx1 HT LT HK) as [Dl Ld].
    { fold den. rewrite (Rabs_pos_eq (x64 (p + 1))) in Br1' by lra. lra. }
    { exact Dneg. }
    fold den in Ld. set (D := (yy (p + 1) + T)%R) in *.
    destruct (xz_bounds) as (_ & X1u & _).
    assert (Du : (Rabs D <= 2 ^ 48)%R).
    { unfold D. destruct (y_bounds (p + 1) ltac:(lia)) as (Y1u & _). pose proof (Rabs_triang (yy (p + 1)) T) as Tr. rewrite (Rabs_pos_eq T) in Tr by lra. lra. }
    pose proof g2_neq as N2.
    assert (Gr : (/ gg (p + 2) * gg (p + 1) = - xx (p + 1) / D)%R).
    { apply (Rmult_eq_reg_r (D * gg (p + 2))); [|apply Rmult_integral_contrapositive_currified; lra].
      replace (/ gg (p + 2) * gg (p + 1) * (D * gg (p + 2)))%R with (D * gg (p + 1))%R by (field; auto).
      replace (- xx (p + 1) / D * (D * gg (p + 2)))%R with (- (xx (p + 1) * gg (p + 2)))%R by (field; lra). lra. }
    assert (Lw : (/ 2 ^ 48 <= Rabs (/ gg (p + 2) * gg (p + 1)))%R).
    { rewrite Gr. unfold Rdiv. rewrite Rabs_mult, Rabs_Ropp, Rabs_inv, (Rabs_pos_eq (xx (p + 1))) by lra.
      apply Rle_trans with (1 * / 2 ^ 48)%R; [lra|]. pose proof (pow_inv_pos 48). apply Rmult_le_compat; try lra. apply Rinv_le_contravar; [apply Rabs_pos_lt; lra|lra]. }
    set (t := RN64 (- x64 (p + 1) / den)).
    assert (Lt : lg 49 t (/ gg (p + 2) * gg (p + 1))).
    { rewrite Gr. unfold t. apply (lg_weak (5 / 2 + 45 + 1)); [|lra]. apply lg_RN0; [apply lg_div; [apply lg_opp; auto|auto]|lra|right; rewrite <- Gr; apply low80].
      pose proof (pow_inv_le 48 80 ltac:(lia)). lra. }
    rewrite fdiv64_ok by auto. cbn [bind]. fold t. rewrite wrv_ok by (try lia; auto). cbn [bind]. rewrite wrv_ok by (try lia; auto). cbn [bind].
    replace (p + 2 - p + 1) with 3 by lia. unfold for_range. change (Z.to_nat (3 - 1)) with 2%nat. cbn [for_loop]. change (1 + 1) with 2.
    replace (p + 2 - 1 + 1) with (p + 2) by lia. replace (p + 2 - 2 + 1) with (p + 1) by lia. replace (p + 2 - 1) with (p + 1) by lia. replace (p + 2 - 2) with p by lia.
    rewrite rdv_ok by (try lia; auto). cbn [bind]. rewrite get_put_same.
    rewrite rdv_ok by (try lia; auto). cbn [bind]. rewrite get_put_b by lia. rewrite get_put_same.
    rewrite wrv_ok by (try lia; auto). cbn [bind]. rewrite Rmult_1_l.
    rewrite rdv_ok by (try lia; auto). cbn [bind]. rewrite get_put_same.
    rewrite rdv_ok by (try lia; auto). cbn [bind]. rewrite !get_put_b by lia. rewrite get_put_i by lia. rewrite S1.
    rewrite wrv_ok by (try lia; auto). cbn [bind]. destruct (Z.eqb_spec (p + 2) p) as [|_]; [lia|].
    replace (RN64 t) with t by (unfold t; symmetry; apply RN64_idem).
    eexists. exists (p + 2). split; [reflexivity|]. split; [exact L1|]. split.
    + intros blk k Hb Hk. rewrite !get_put_b by lia. apply Z1; lia.
    + right. split; auto. exists (/ gg (p + 2))%R. split; [apply inv_big; auto; apply high; lia|].
      intros k Hk. assert (C : k = p \/ k = p + 1 \/ k = p + 2) by lia. destruct C as [-> |[-> | ->]].
      * rewrite get_put_same.
        assert (Gs : (/ gg (p + 2) * gg p = / gg (p + 2) * gg (p + 1) * (- xx p / yy p))%R).
        { destruct recs as (R0 & _ & _). replace (/ gg (p + 2) * gg (p + 1) * (- xx p / yy p))%R with (/ gg (p + 2) * (- (xx p * gg (p + 1)) / yy p))%R by (field; lra).
          rewrite R0. field. lra. }
        rewrite Gs. apply (lg_weak (49 + 7 / 2 + 1)%R); [|lra]. apply lg_RN0; [apply lg_mul; auto|lra|right].
        pose proof (pow_inv_le 88 900 ltac:(lia)). pose proof (prod_low 48 40 88 _ _ ltac:(lia) Lw Sl). lra.
      * rewrite get_put_i, get_put_same by lia. apply (lg_weak 49); [auto|lra].
      * rewrite !get_put_i by lia. rewrite get_put_same. rewrite Rinv_l by auto. apply (lg_weak 0); [apply lg_refl|lra].
Qed.

(** the ratio of the last two symbols *)
Lemma ratio21 : lg (7 / 2) (RN64 (- yy (p + 2) / z64 (p + 2))) (/ gg (p + 2) * gg (p + 1)) /\
  (yy (p + 2) <> 0%R -> lg (7 / 2) (RN64 (- z64 (p + 2) / yy (p + 2))) (- zz (p + 2) / yy (p + 2))).
Proof.
  destruct recs as (_ & _ & R2). destruct (zl (p + 2) ltac:(lia)) as [L X1]. destruct xz_bounds as (_ & _ & _ & Z2). pose proof g2_neq as G2.
  destruct (y_bounds (p + 2) ltac:(lia)) as (Yu & Yl & _). assert (O1 : (1 <= IZR (2 * (p + 2) + 1))%R) by (apply (IZR_le 1); lia).
  assert (E : (/ gg (p + 2) * gg (p + 1) = - yy (p + 2) / zz (p + 2))%R).
  { replace (/ gg (p + 2) * gg (p + 1))%R with (zz (p + 2) * gg (p + 1) / zz (p + 2) / gg (p + 2))%R by (field; lra). rewrite R2. field. lra. }
  rewrite E. split.
  - replace (7 / 2)%R with (0 + 5 / 2 + 1)%R by lra. apply lg_RN0; [apply lg_div; [apply lg_refl|auto]|lra|].
    destruct Yl as [Y|Yl]; [left; rewrite Y, Ropp_0; unfold Rdiv; ring|right; apply low40, quot_low; [lra|rewrite Rabs_pos_eq; lra]].
  - intros N. destruct Yl as [Y|Yl]; [tauto|].
    replace (7 / 2)%R with (5 / 2 + 0 + 1)%R by lra. apply lg_RN0; [apply lg_div; [apply lg_opp; auto|apply lg_refl]|lra|right; apply low40, quot_low].
    + rewrite Rabs_pos_eq; lra.
    + lra.
Qed.

Lemma rev3 ws : alen ws = 4 * size ->
  exists ws' jp, reverse64 fixed size a b m n ws (p + 1) = Ok (ws', jp, false) /\ alen ws' = 4 * size /\
    (forall blk k, blk = 0 \/ blk = 2 -> 0 <= k < size -> G ws' blk k = G ws blk k) /\
    ((jp = p + 1 /\ G ws' 3 (p + 2) = 1%R /\ lg (7 / 2) (G ws' 3 (p + 1)) (/ gg (p + 2) * gg (p + 1))) \/
     (jp = p /\ whole ws' 3)).
Proof.
  intros Hl. unfold reverse64. cbv zeta. change (Z.max (Z.abs (a - b)) (Z.abs (m + n))) with (jlo a b m n). rewrite EJ, ES.
  rewrite Zk by lia. cbn [bind]. rewrite Yk by lia.
  destruct (zl (p + 2) ltac:(lia)) as [L0 X0]. assert (Nz : z64 (p + 2) <> 0%R) by (apply (lg_neq _ _ _ L0); lra).
  destruct ratio21 as (Lq & Ls). set (q := RN64 (- yy (p + 2) / z64 (p + 2))) in *.
  assert (Two : forall ws1 v, alen ws1 = 4 * size -> (forall blk k, blk = 0 \/ blk = 2 -> 0 <= k < size -> G ws1 blk k = G ws blk k) -> lg (7 / 2) v (/ gg (p + 2) * gg (p + 1)) -> exists ws' jp,
    (do ws <- wrv (put size ws1 3 (p + 2) 1%R) (slot size (4 * size) 3) (p + 2 - 1) v; Ok (ws, p + 2 - 1, false)) = Ok (ws', jp, false) /\ alen ws' = 4 * size /\
    (forall blk k, blk = 0 \/ blk = 2 -> 0 <= k < size -> G ws' blk k = G ws blk k) /\
    ((jp = p + 1 /\ G ws' 3 (p + 2) = 1%R /\ lg (7 / 2) (G ws' 3 (p + 1)) (/ gg (p + 2) * gg (p + 1))) \/ (jp = p /\ whole ws' 3))).
  { intros ws1 v L1 F1 Lv. replace (p + 2 - 1) with (p + 1) by lia. rewrite wrv_ok by (try lia; auto). cbn [bind].
    eexists. exists (p + 1). split; [reflexivity|]. split; [exact L1|]. split.
    - intros blk k Hb Hk. rewrite !get_put_b by lia. apply F1; auto.
    - left. split; auto. rewrite get_put_i by lia. rewrite get_put_same. split; auto. rewrite get_put_same. auto. }
  assert (Q0 : yy (p + 2) = 0%R -> lg (7 / 2) 0 (/ gg (p + 2) * gg (p + 1))).
  { intros Y. replace 0%R with q; auto. unfold q. rewrite Y, Ropp_0. unfold Rdiv. rewrite Rmult_0_l. apply RN64_0. }
  destruct ((- (m + n) =? 0) && (m =? 0) && (n =? 0)) eqn:EZ.
  { rewrite wrv_ok by (try lia; auto). cbn [bind]. apply Two; auto. apply Q0.
    apply andb_prop in EZ. destruct EZ as [EZ En]. apply andb_prop in EZ. destruct EZ as [_ Em].
    assert (Em' : m = 0) by lia. assert (En' : n = 0) by lia. unfold ThreeJ4.yy, Bq. rewrite Em', En'. f_equal. ring. }
  destruct (Reqb_spec (yy (p + 2)) 0) as [Y|Y].
  { destruct (Reqb_spec (z64 (p + 2)) 0) as [|_]; [tauto|]. rewrite wrv_ok by (try lia; auto). cbn [bind]. rewrite fdiv64_ok by auto. cbn [bind]. fold q. apply Two; auto. }
  assert (Zp : (0 < z64 (p + 2))%R) by (apply (lg_pos _ _ _ L0); lra).
  destruct (Rleb_spec 0 (RN64 (yy (p + 2) * z64 (p + 2)))) as [Sg|Sg].
  { rewrite wrv_ok by (try lia; auto). cbn [bind]. rewrite fdiv64_ok by auto. cbn [bind]. fold q. apply Two; auto. }
  assert (Yn : (yy (p + 2) < 0)%R).
  { destruct (Rlt_le_dec (yy (p + 2)) 0) as [|Q]; auto. exfalso. apply Sg. apply RN64_ge_0. apply Rmult_le_pos; lra. }
  specialize (Ls Y). rewrite fdiv64_ok by auto. cbn [bind]. set (s := RN64 (- z64 (p + 2) / yy (p + 2))) in *. rewrite wrv_ok by (try lia; auto). cbn [bind].
  set (ws1 := put size ws 1 (p + 2) s). assert (L1 : alen ws1 = 4 * size) by exact Hl.
  assert (S1 : G ws1 1 (p + 2) = s) by apply get_put_same.
  assert (Z1 : forall blk k, blk <> 1 -> 0 <= blk <= 3 -> 0 <= k < size -> G ws1 blk k = G ws blk k).
  { intros. unfold ws1. rewrite get_put_b by lia. auto. }
  clearbody ws1. unfold for_down_brk. replace (Z.to_nat (p + 2 - 1 - (p + 1 - 1))) with 1%nat by lia. replace (p + 2 - 1) with (p + 1) by lia. cbn [loop_brk].
  unfold reverse_body64. rewrite Xk by lia. cbn [bind]. replace (p + 1 + 1) with (p + 2) by lia. rewrite rdv_ok by (try lia; auto). cbn [bind]. rewrite S1, Yk by lia.
  rewrite Zk by lia. cbn [bind].
  destruct (xl (p + 1) ltac:(lia)) as [Lx1 X1]. destruct (zl (p + 1) ltac:(lia)) as [Lz1 Zb].
  set (T' := RN64 (x64 (p + 1) * s)). set (den := RN64 (yy (p + 1) + T')).
  destruct (Reqb den 0 || Rltb (Rabs den) (Rabs (z64 (p + 1))) || Rleb 0 (RN64 (z64 (p + 1) * den))) eqn:Br.
  - (* the loop stops at once *)
    cbn [bind]. rewrite wrv_ok by (try lia; auto). cbn [bind]. replace (p + 2 - (p + 2) + 1) with 1 by lia. rewrite for_range_empty by lia. cbn [bind].
    destruct (Z.eqb_spec (p + 2) (p + 2)) as [_|]; [|lia]. rewrite fdiv64_ok by auto. cbn [bind]. fold q.
    replace (p + 2 - 1) with (p + 1) in Two by lia. apply Two; auto. intros blk k Hb Hk. apply Z1; lia.
  - (* all three ratios *)
    apply orb_false_elim in Br. destruct Br as [Br Br2]. apply orb_false_elim in Br. destruct Br as [Dz Br1].
    destruct (Rltb_spec (Rabs den) (Rabs (z64 (p + 1)))) as [|Br1']; [discriminate|]. destruct (Rleb_spec 0 (RN64 (z64 (p + 1) * den))) as [|Br2']; [discriminate|].
    destruct (Reqb_spec den 0) as [|Dn]; [discriminate|]. clear Br1 Br2 Dz.
    assert (Xp1 : (0 < z64 (p + 1))%R) by (apply (lg_pos _ _ _ Lz1); lra).
    assert (Dneg : (den < 0)%R).
    { destruct (Rlt_le_dec den 0) as [|Q]; auto. exfalso. apply Br2'. apply RN64_ge_0. apply Rmult_le_pos; lra. }
    destruct (amp_down Yn) as (HT & N1 & DG & HK). set (T := (xx (p + 1) * (- zz (p + 2) / yy (p + 2)))%R) in *.
    destruct (y_bounds (p + 2) ltac:(lia)) as (Yu & [E|Yl] & _); [tauto|]. assert (O1 : (1 <= IZR (2 * (p + 2) + 1))%R) by (apply (IZR_le 1); lia).
    assert (Sl : (/ 2 ^ 40 <= Rabs (- zz (p + 2) / yy (p + 2)))%R) by (apply quot_low; [rewrite Rabs_pos_eq; lra|lra]).
    assert (LT : lg 7 T' T).
    { unfold T', T. replace 7%R with (5 / 2 + 7 / 2 + 1)%R by lra. apply lg_RN0; [apply lg_mul; auto|lra|right].
      apply low40. rewrite Rabs_mult, (Rabs_pos_eq (xx (p + 1))) by lra. pose proof (Rabs_pos (- zz (p + 2) / yy (p + 2))).
      assert (1 * Rabs (- zz (p + 2) / yy (p + 2)) <= xx (p + 1) * Rabs (- zz (p + 2) / yy (p + 2)))%R by (apply Rmult_le_compat_r; lra). lra. }
    destruct (cancel (zz (p + 1)) (z64 (p + 1)) (yy (p + 1)) T T' Zb Lz1 HT LT HK) as [Dl Ld].
    { fold den. rewrite (Rabs_pos_eq (z64 (p + 1))) in Br1' by lra. lra. }
    { exact Dneg. }
    fold den in Ld. set (D := (yy (p + 1) + T)%R) in *.
    destruct (xz_bounds) as (_ & _ & Z1u & _).
    assert (Du : (Rabs D <= 2 ^ 48)%R).
    { unfold D. destruct (y_bounds (p + 1) ltac:(lia)) as (Y1u & _). pose proof (Rabs_triang (yy (p + 1)) T) as Tr. rewrite (Rabs_pos_eq T) in Tr by lra. lra. }
    pose proof g0_neq as N0.
    assert (Gr : (/ gg p * gg (p + 1) = - zz (p + 1) / D)%R).
    { apply (Rmult_eq_reg_r (D * gg p)); [|apply Rmult_integral_contrapositive_currified; lra].
      replace (/ gg p * gg (p + 1) * (D * gg p))%R with (D * gg (p + 1))%R by (field; auto).
      replace (- zz (p + 1) / D * (D * gg p))%R with (- (zz (p + 1) * gg p))%R by (field; lra). lra. }
    assert (Lw : (/ 2 ^ 48 <= Rabs (/ gg p * gg (p + 1)))%R).
    { rewrite Gr. unfold Rdiv. rewrite Rabs_mult, Rabs_Ropp, Rabs_inv, (Rabs_pos_eq (zz (p + 1))) by lra.
      apply Rle_trans with (1 * / 2 ^ 48)%R; [lra|]. pose proof (pow_inv_pos 48). apply Rmult_le_compat; try lra. apply Rinv_le_contravar; [apply Rabs_pos_lt; lra|lra]. }
    set (t := RN64 (- z64 (p + 1) / den)).
    assert (Lt : lg 49 t (/ gg p * gg (p + 1))).
    { rewrite Gr. unfold t. apply (lg_weak (5 / 2 + 45 + 1)); [|lra]. apply lg_RN0; [apply lg_div; [apply lg_opp; auto|auto]|lra|right; rewrite <- Gr; apply low80].
      pose proof (pow_inv_le 48 80 ltac:(lia)). lra. }
    rewrite fdiv64_ok by auto. cbn [bind]. fold t. rewrite wrv_ok by (try lia; auto). cbn [bind]. rewrite wrv_ok by (try lia; auto). cbn [bind].
    replace (p + 2 - p + 1) with 3 by lia. unfold for_range. change (Z.to_nat (3 - 1)) with 2%nat. cbn [for_loop]. change (1 + 1) with 2.
    replace (p + 1 - 1) with p by lia. replace (p + 2 - 1) with (p + 1) by lia.
    rewrite rdv_ok by (try lia; auto). cbn [bind]. rewrite get_put_same.
    rewrite rdv_ok by (try lia; auto). cbn [bind]. rewrite get_put_b by lia. rewrite get_put_same.
    rewrite wrv_ok by (try lia; auto). cbn [bind]. rewrite Rmult_1_l.
    rewrite rdv_ok by (try lia; auto). cbn [bind]. rewrite get_put_same.
    rewrite rdv_ok by (try lia; auto). cbn [bind]. rewrite !get_put_b by lia. rewrite get_put_i by lia. rewrite S1.
    rewrite wrv_ok by (try lia; auto). cbn [bind]. destruct (Z.eqb_spec p (p + 2)) as [|_]; [lia|].
    replace (RN64 t) with t by (unfold t; symmetry; apply RN64_idem).
    eexists. exists p. split; [reflexivity|]. split; [exact L1|]. split.
    + intros blk k Hb Hk. rewrite !get_put_b by lia. apply Z1; lia.
    + right. split; auto. exists (/ gg p)%R. split; [apply inv_big; auto; apply high; lia|].
      intros k Hk. assert (C : k = p \/ k = p + 1 \/ k = p + 2) by lia. destruct C as [-> |[-> | ->]].
      * rewrite !get_put_i by lia. rewrite get_put_same. rewrite Rinv_l by auto. apply (lg_weak 0); [apply lg_refl|lra].
      * rewrite get_put_i, get_put_same by lia. apply (lg_weak 49); [auto|lra].
      * rewrite get_put_same.
        assert (Gs : (/ gg p * gg (p + 2) = / gg p * gg (p + 1) * (- zz (p + 2) / yy (p + 2)))%R).
        { destruct recs as (_ & _ & R2). replace (/ gg p * gg (p + 1) * (- zz (p + 2) / yy (p + 2)))%R with (/ gg p * (- (zz (p + 2) * gg (p + 1)) / yy (p + 2)))%R by (field; lra).
          rewrite R2. field. lra. }
        rewrite Gs. apply (lg_weak (49 + 7 / 2 + 1)%R); [|lra]. apply lg_RN0; [apply lg_mul; auto|lra|right].
        pose proof (pow_inv_le 88 900 ltac:(lia)). pose proof (prod_low 48 40 88 _ _ ltac:(lia) Lw Sl). lra.
Qed.

(** ** The middle *)
Lemma copy3 ws blk (v : Z -> R) : alen ws = 4 * size -> (forall k, 0 <= k < size -> G ws 0 k = 0%R) -> 
  (forall k, p <= k <= p + 2 -> v k = G ws blk k) -> (exists c, (/ 2000 <= Rabs c)%R /\ forall k, p <= k <= p + 2 -> lg 54 (G ws blk k) (c * gg k)) ->
  exists ws', wrv_slice ws (slot size (4 * size) 0) p (p + 2 + 1) v = Ok ws' /\ fclose size a b m n 54 ws'.
Proof.
  intros Hl Hz Hv (c & Hc & Hp).
  destruct (wrv_slice_ok size ltac:(lia) ws 0 p (p + 2 + 1) v) as (ws2 & E2 & L2 & S2 & _); auto; try lia.
  exists ws2. split; auto. split; auto. split.
  - exists c. split. { pose proof (pow_inv_le 11 300 ltac:(lia)). lra. }
    intros k Hk. rewrite EJ, ES in Hk. rewrite S2 by lia. destruct (Z.leb_spec p k); [|lia]. destruct (Z.ltb_spec k (p + 2 + 1)); [|lia]. cbn [andb].
    rewrite Hv by lia. apply Hp; lia.
  - intros k Hk Ho. rewrite EJ, ES in Ho. rewrite S2 by lia. destruct (Z.leb_spec p k); destruct (Z.ltb_spec k (p + 2 + 1)); cbn [andb]; auto; lia.
Qed.

Lemma meet3 ws jp : alen ws = 4 * size -> (forall k, 0 <= k < size -> G ws 0 k = 0%R) ->
  G ws 2 p = 1%R -> lg (7 / 2) (G ws 2 (p + 1)) (/ gg p * gg (p + 1)) -> G ws 2 (p - 1) = 0%R ->
  (jp = p + 1 /\ G ws 3 (p + 2) = 1%R /\ lg (7 / 2) (G ws 3 (p + 1)) (/ gg (p + 2) * gg (p + 1))) \/ (jp = p /\ whole ws 3) ->
  exists ws', meet64 fixed size a b m n ws (p + 1) jp = Ok ws' /\ fclose size a b m n 54 ws'.
Proof.
  intros Hl Hz F0 F1 Fm Hj. unfold meet64. cbv zeta. change (Z.max (Z.abs (a - b)) (Z.abs (m + n))) with (jlo a b m n). rewrite EJ, ES.
  pose proof g0_neq as N0. pose proof g2_neq as N2.
  destruct Hj as [(-> & F2 & F3)|(-> & Wh)].
  2:{ replace ((p + 1 + p) / 2) with p by (Z.div_mod_to_equations; lia). rewrite for_range_brk_empty by lia. cbn [bind].
      rewrite rdv_ok by (try lia; auto). cbn [bind]. rewrite rdv_ok by (try lia; auto). cbn [bind]. rewrite Fm. destruct (Reqb_spec 0 0) as [_|]; [|tauto]. cbn [bind].
      rewrite for_down_empty by lia. cbn [bind]. rewrite rdv_ok by (try lia; auto). cbn [bind]. destruct (Z.eqb_spec p (p + 2)) as [|_]; [lia|]. destruct (Z.eqb_spec p p) as [_|]; [|lia].
      apply (copy3 ws 3); auto. { intros. rewrite vget_slot by lia. auto. }
      destruct Wh as (c & Hc & Wh). exists c. split; [lra|auto]. }
  replace ((p + 1 + (p + 1)) / 2) with (p + 1) by (Z.div_mod_to_equations; lia). rewrite for_range_brk_empty by lia. cbn [bind].
  replace (p + 1 - 1) with p by lia.
  rewrite rdv_ok by (try lia; auto). cbn [bind]. rewrite rdv_ok by (try lia; auto). cbn [bind]. rewrite F0. destruct (Reqb_spec 1 0) as [|_]; [lra|]. rewrite fdiv64_ok by lra. cbn [bind].
  unfold Rdiv at 1. rewrite Rinv_1, Rmult_1_r. set (v := G ws 2 (p + 1)) in *.
  assert (Ml : lg 1 (RN64 (/ 1000000)) (/ 1000000)).
  { apply lg_RN. rewrite Rabs_pos_eq by lra. apply Rle_trans with (/ 2 ^ 20)%R; [apply pow_inv_le; lia|]. apply Rinv_le_contravar; lra. }
  destruct (xl (p + 1) ltac:(lia)) as [Lx1 X1]. destruct (zl (p + 1) ltac:(lia)) as [Lz1 Zb]. destruct xz_bounds as (X0 & X1u & Z1u & _).
  destruct (Req_dec (gg (p + 1)) 0) as [E1|N1].
  - (* the middle symbol is zero *)
    rewrite E1, Rmult_0_r in F1, F3. apply lg_0 in F1, F3. fold v in F1. rewrite F1, RN64_0, Rabs_R0.
    destruct (Rltb_spec 0 (RN64 (/ 1000000))) as [_|C]; [|exfalso; apply C, (lg_pos _ _ _ Ml); lra].
    cbn [bind]. 
    unfold for_down. replace (Z.to_nat (p + 1 - p)) with 1%nat by lia. cbn [for_loop]. unfold step_down64. cbv zeta.
    rewrite Xk by lia. cbn [bind]. replace (p + 1 + 1) with (p + 2) by lia. rewrite rdv_ok by (try lia; auto). cbn [bind]. rewrite F2.
    rewrite rdv_ok by (try lia; auto). cbn [bind]. rewrite F3. rewrite Zk by lia. cbn [bind]. rewrite Yk by lia.
    rewrite fdiv64_ok by (apply (lg_neq _ _ _ Lz1); lra). cbn [bind]. replace (p + 1 - 1) with p by lia. rewrite wrv_ok by (try lia; auto). cbn [bind].
    rewrite Rmult_0_r, RN64_0, Rplus_0_r, Rmult_1_r. replace (RN64 (RN64 (x64 (p + 1)))) with (x64 (p + 1)) by (unfold FloatThreeJProofs.x64; rewrite !RN64_idem; reflexivity).
    set (t := RN64 (- x64 (p + 1) / z64 (p + 1))).
    destruct recs as (_ & R1 & _). rewrite E1, Rmult_0_r, Rplus_0_r in R1.
    assert (Gr : (/ gg (p + 2) * gg p = - xx (p + 1) / zz (p + 1))%R).
    { replace (/ gg (p + 2) * gg p)%R with (zz (p + 1) * gg p / zz (p + 1) / gg (p + 2))%R by (field; lra). replace (zz (p + 1) * gg p)%R with (- (xx (p + 1) * gg (p + 2)))%R by lra. field. lra. }
    assert (Lw : (/ 2 ^ 40 <= Rabs (/ gg (p + 2) * gg p))%R) by (rewrite Gr; apply quot_low; rewrite Rabs_pos_eq; lra).
    assert (Lt : lg 6 t (/ gg (p + 2) * gg p)).
    { rewrite Gr. unfold t. replace 6%R with (5 / 2 + 5 / 2 + 1)%R by lra. apply lg_RN0; [apply lg_div; [apply lg_opp; auto|auto]|lra|right; rewrite <- Gr; apply low40; auto]. }
    assert (C1 : (1 <= Rabs (/ gg (p + 2)))%R) by (apply inv_big; auto; apply high; lia).
    set (ws1 := put size ws 3 p t). assert (L1 : alen ws1 = 4 * size) by exact Hl.
    assert (V : forall k, p <= k <= p + 2 -> lg 6 (G ws1 3 k) (/ gg (p + 2) * gg k)).
    { intros k Hk. unfold ws1. assert (C : k = p \/ k = p + 1 \/ k = p + 2) by lia. destruct C as [-> |[-> | ->]].
      - rewrite get_put_same. auto.
      - rewrite get_put_i by lia. rewrite F3, E1, Rmult_0_r. apply (lg_weak 0); [apply lg_refl|lra].
      - rewrite get_put_i by lia. rewrite F2, Rinv_l by auto. apply (lg_weak 0); [apply lg_refl|lra]. }
    assert (Zz : forall k, 0 <= k < size -> G ws1 0 k = 0%R) by (intros; unfold ws1; rewrite get_put_b by lia; auto).
    clearbody ws1. unfold rescale_down64. cbv zeta. replace (p + 1 - 1) with p by lia. rewrite rdv_ok by (try lia; auto). cbn [bind]. rewrite ES.
    destruct (Rltb 1 (Rabs (G ws1 3 p))).
    + destruct (wrv_slice_ok size ltac:(lia) ws1 3 p (p + 2 + 1) (fun k => RN64 (vget ws1 (slot size (4 * size) 3) k / 1000))) as (ws2 & E2 & L2 & S2 & T2); try lia; auto.
      rewrite E2. cbn [bind]. rewrite rdv_ok by (try lia; auto). cbn [bind]. destruct (Z.eqb_spec p (p + 2)) as [|_]; [lia|]. destruct (Z.eqb_spec p p) as [_|]; [|lia].
      apply (copy3 ws2 3); auto. { intros. rewrite T2 by lia. auto. } { intros. rewrite vget_slot by lia. auto. }
      exists (/ gg (p + 2) / 1000)%R. split.
      { unfold Rdiv. rewrite Rabs_mult, (Rabs_pos_eq (/ 1000)) by lra. lra. }
      intros k Hk. rewrite S2 by lia. destruct (Z.leb_spec p k); [|lia]. destruct (Z.ltb_spec k (p + 2 + 1)); [|lia]. cbn [andb]. rewrite vget_slot by lia.
      replace (/ gg (p + 2) / 1000 * gg k)%R with (/ gg (p + 2) * gg k / 1000)%R by (field; auto).
      apply (lg_weak (6 + 0 + 1)); [|lra]. apply lg_RN0; [apply lg_div; [apply V; auto|apply lg_refl]|lra|].
      assert (C : k = p \/ k = p + 1 \/ k = p + 2) by lia. destruct C as [-> |[-> | ->]].
      * right. apply low80. unfold Rdiv. apply (prod_low 40 10); [lia|auto|]. rewrite Rabs_pos_eq by lra. apply Rinv_le_contravar; lra.
      * left. rewrite E1. unfold Rdiv. ring.
      * right. rewrite Rinv_l by auto. unfold Rdiv. rewrite Rmult_1_l. apply low80. rewrite Rabs_pos_eq by lra. apply Rle_trans with (/ 2 ^ 10)%R; [apply pow_inv_le; lia|]. apply Rinv_le_contravar; lra.
    + cbn [bind]. rewrite rdv_ok by (try lia; auto). cbn [bind]. destruct (Z.eqb_spec p (p + 2)) as [|_]; [lia|]. destruct (Z.eqb_spec p p) as [_|]; [|lia].
      apply (copy3 ws1 3); auto. { intros. rewrite vget_slot by lia. auto. }
      exists (/ gg (p + 2))%R. split; [lra|]. intros k Hk. apply (lg_weak 6); [auto|lra].
  - (* all three symbols differ from zero *)
    assert (Y0n : yy p <> 0%R) by (intros E; apply N1, y0_zero, E).
    destruct (y_bounds p ltac:(lia)) as (Yu & [E|Yl] & _); [tauto|]. pose proof Pb as Pq. destruct alphas as (Al & _ & _ & _).
    destruct recs as (R0 & _ & R2).
    assert (Vb : (/ 65536 <= Rabs (/ gg p * gg (p + 1)))%R).
    { assert (E : (/ gg p * gg (p + 1) = - yy p / xx p)%R).
      { replace (/ gg p * gg (p + 1))%R with (xx p * gg (p + 1) / xx p / gg p)%R by (field; lra). rewrite R0. field. lra. }
      rewrite E. unfold Rdiv. rewrite Rabs_mult, Rabs_Ropp, Rabs_inv, (Rabs_pos_eq (xx p)) by lra.
      assert (Xb : (xx p <= IZR p * 65536)%R) by (rewrite x0_eq; apply Rmult_le_compat_l; lra).
      rewrite plus_IZR, mult_IZR in Yl.
      apply (Rmult_le_reg_r (xx p)); [lra|]. replace (Rabs (yy p) * / xx p * xx p)%R with (Rabs (yy p)) by (field; lra). lra. }
    assert (V40 : (/ 2 ^ 40 <= Rabs (/ gg p * gg (p + 1)))%R).
    { eapply Rle_trans; [|exact Vb]. replace (/ 65536)%R with (/ 2 ^ 16)%R by (f_equal; lra). apply pow_inv_le. lia. }
    assert (Lv : lg (7 / 2 + 1) (RN64 v) (/ gg p * gg (p + 1))) by (apply lg_RN0; [auto|lra|right; apply low40; auto]).
    destruct (lg_size _ _ _ Lv ltac:(lra)) as [Sv _]. destruct (lg_size _ _ _ Ml ltac:(lra)) as [_ Sm]. rewrite !(Rabs_pos_eq (/ 1000000)) in Sm by lra.
    pose proof (Rle_abs (RN64 (/ 1000000))) as Sm'.
    destruct (Rltb_spec (Rabs (RN64 v)) (RN64 (/ 1000000))) as [C|_]; [lra|]. cbn [bind].
    rewrite for_down_empty by lia. cbn [bind]. rewrite rdv_ok by (try lia; auto). cbn [bind]. set (w := G ws 3 (p + 1)) in *.
    destruct (Z.eqb_spec (p + 1) (p + 2)) as [|_]; [lia|]. destruct (Z.eqb_spec (p + 1) p) as [|_]; [lia|].
    assert (Gn : (/ gg p * gg (p + 1) <> 0)%R) by (intros E; rewrite E, Rabs_R0 in Vb; lra).
    assert (Vn : v <> 0%R) by (apply (lg_neq _ _ _ F1); auto).
    destruct (Reqb_spec v 0) as [|_]; [tauto|].
    destruct (wrv_slice_ok size ltac:(lia) ws 0 p (p + 1 + 1) (fun k => RN64 (RN64 (vget ws (slot size (4 * size) 2) k * w) / v))) as (ws1 & E1 & L1 & S1 & T1); auto; try lia.
    rewrite E1. cbn [bind].
    destruct (wrv_slice_ok size ltac:(lia) ws1 0 (p + 1 + 1) (p + 2 + 1) (fun k => vget ws1 (slot size (4 * size) 3) k)) as (ws2 & E2 & L2 & S2 & T2); auto; try lia.
    exists ws2. split; auto. split; auto. split.
    + exists (/ gg (p + 2))%R. assert (C1 : (1 <= Rabs (/ gg (p + 2)))%R) by (apply inv_big; auto; apply high; lia).
      split. { pose proof (pow_inv_le 0 300 ltac:(lia)) as I. rewrite pow_O, Rinv_1 in I. lra. }
      assert (Wl : (/ 2 ^ 100 <= Rabs (/ gg (p + 2) * gg (p + 1)))%R).
      { destruct (low (p + 1) ltac:(lia)) as [E|Lo]; [tauto|]. apply (prod_low 0 100); [lia|rewrite pow_O, Rinv_1; auto|auto]. }
      assert (Wg : (/ 2 ^ 100 <= Rabs (/ gg (p + 2) * gg p))%R).
      { destruct (low p ltac:(lia)) as [E|Lo]; [tauto|]. apply (prod_low 0 100); [lia|rewrite pow_O, Rinv_1; auto|auto]. }
      pose proof (pow_inv_le 100 900 ltac:(lia)) as I1. pose proof (pow_inv_le 200 900 ltac:(lia)) as I2. pose proof (pow_inv_le 140 900 ltac:(lia)) as I3.
      intros k Hk. rewrite EJ, ES in Hk. rewrite S2 by lia.
      assert (C : k = p \/ k = p + 1 \/ k = p + 2) by lia. destruct C as [-> |[-> | ->]].
      * destruct (Z.leb_spec (p + 1 + 1) p); [lia|]. cbn [andb]. rewrite S1 by lia. destruct (Z.leb_spec p p); [|lia]. destruct (Z.ltb_spec p (p + 1 + 1)); [|lia]. cbn [andb].
        rewrite vget_slot by lia. rewrite F0, Rmult_1_l.
        replace (/ gg (p + 2) * gg p)%R with (/ gg (p + 2) * gg (p + 1) / (/ gg p * gg (p + 1)))%R by (field; auto).
        apply (lg_weak (7 / 2 + 1 + 7 / 2 + 1)); [|lra]. apply lg_RN0; [apply lg_div; [apply lg_RN0; [auto|lra|right; lra]|auto]|lra|right].
        replace (/ gg (p + 2) * gg (p + 1) / (/ gg p * gg (p + 1)))%R with (/ gg (p + 2) * gg p)%R by (field; auto). lra.
      * destruct (Z.leb_spec (p + 1 + 1) (p + 1)); [lia|]. cbn [andb]. rewrite S1 by lia. destruct (Z.leb_spec p (p + 1)); [|lia]. destruct (Z.ltb_spec (p + 1) (p + 1 + 1)); [|lia]. cbn [andb].
        rewrite vget_slot by lia. fold v.
        replace (/ gg (p + 2) * gg (p + 1))%R with ((/ gg p * gg (p + 1)) * (/ gg (p + 2) * gg (p + 1)) / (/ gg p * gg (p + 1)))%R by (field; auto).
        apply (lg_weak (7 / 2 + 7 / 2 + 1 + 7 / 2 + 1)); [|lra]. apply lg_RN0; [apply lg_div; [apply lg_RN0; [apply lg_mul; auto|lra|right]|auto]|lra|right].
        -- pose proof (prod_low 40 100 140 _ _ ltac:(lia) V40 Wl). lra.
        -- replace ((/ gg p * gg (p + 1)) * (/ gg (p + 2) * gg (p + 1)) / (/ gg p * gg (p + 1)))%R with (/ gg (p + 2) * gg (p + 1))%R by (field; auto). lra.
      * destruct (Z.leb_spec (p + 1 + 1) (p + 2)); [|lia]. destruct (Z.ltb_spec (p + 2) (p + 2 + 1)); [|lia]. cbn [andb]. rewrite vget_slot by lia. rewrite T1 by lia.
        rewrite F2, Rinv_l by auto. apply (lg_weak 0); [apply lg_refl|lra].
    + intros k Hk Ho. rewrite EJ, ES in Ho. rewrite S2 by lia. destruct (Z.leb_spec (p + 1 + 1) k); destruct (Z.ltb_spec k (p + 2 + 1)); cbn [andb]; try lia;
        rewrite S1 by lia; destruct (Z.leb_spec p k); destruct (Z.ltb_spec k (p + 1 + 1)); cbn [andb]; auto; lia.
Qed.

Lemma three64_pos ws : alen ws = 4 * size ->
  exists ws', calculate_ws64 fixed size a b m n ws = Ok ws' /\ alen ws' = 4 * size /\ closed size a b m n 113 ws'.
Proof.
  intros Hl. unfold calculate_ws64. cbv zeta. change (Z.max (Z.abs (a - b)) (Z.abs (m + n))) with (jlo a b m n). rewrite EJ, ES.
  set (ws0 := mkarr (alen ws) (fun _ => 0%R)).
  assert (L0 : alen ws0 = 4 * size) by exact Hl.
  assert (Z0 : all_zeros ws0) by (intros blk k _ _; reflexivity).
  clearbody ws0.
  destruct (Z.gtb_spec (Z.abs m) a); [lia|]. destruct (Z.gtb_spec (Z.abs n) b); [lia|]. cbn [orb].
  destruct (Z.ltb_spec (p + 2) p); [lia|]. destruct (Z.eqb_spec (p + 2) p) as [|_]; [lia|].
  assert (Fin : forall ws1, fclose size a b m n 54 ws1 -> exists ws', finish64 size a b m n ws1 = Ok ws' /\ alen ws' = 4 * size /\ closed size a b m n 113 ws').
  { intros ws1 F. destruct (finish64_ok size a b m n Hm Hn ltac:(lia) ltac:(lia)) with (N := 54%R) (ws := ws1) as (ws3 & E3 & L3 & C3).
    - intros k Hk. rewrite EJ, ES in Hk. apply low; auto.
    - lra.
    - auto.
    - exists ws3. split; auto. split; auto. intros k Hk. eapply lg_weak; [apply C3; auto|]. rewrite EJ. replace (a + b - p) with 2 by lia. lra. }
  destruct (fwd3 ws0 L0 Z0) as (ws1 & jm & E1 & L1 & F1 & [(-> & G0 & G1 & G2)|(-> & Wh)]); rewrite E1; cbn [bind].
  - destruct (Z.eqb_spec (p + 1) (p + 2)) as [|_]; [lia|].
    destruct (rev3 ws1 L1) as (ws2 & jp & E2 & L2 & F2 & C2). rewrite E2. cbn [bind negb andb].
    destruct (meet3 ws2 jp) as (ws3 & E3 & C3); auto.
    + intros. rewrite F2 by auto. apply F1; auto.
    + rewrite F2 by (auto; lia). auto.
    + rewrite F2 by (auto; lia). auto.
    + rewrite F2 by (auto; lia). auto.
    + rewrite E3. cbn [bind]. apply Fin; auto.
  - destruct (Z.eqb_spec (p + 2) (p + 2)) as [_|]; [|lia].
    destruct (copy3 ws1 2 (fun k => vget ws1 (slot size (4 * size) 2) k)) as (ws2 & E2 & C2); auto.
    + intros. rewrite vget_slot by lia. auto.
    + destruct Wh as (c & Hc & Wh). exists c. split; [lra|auto].
    + rewrite E2. cbn [bind]. apply Fin; auto.
Qed.
End Three.
