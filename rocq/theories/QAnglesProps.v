(** quaternion_angles: the factorization of the D matrices. *)
Require Import ZArith Lia List Reals Lra Bool.
From Coquelicot Require Import Complex.
From Verif Require Import Base BaseProofs CBase CSum Fact WignerSpec DRep WignerProofs WignerCallModel IndexModel HSpec HMath HModel HProps QAnglesModel.
Import ListNotations.
Open Scope R_scope.

Lemma cdiv_float_ok z x : x <> 0 -> cdiv_float z x = Ok (z / RtoC x)%C.
Proof. intros H. unfold cdiv_float. destruct (Req_EM_T x 0); [lra|auto]. Qed.
Lemma cdiv_float_0 z : cdiv_float z 0 = Err ZeroDivisionError.
Proof. unfold cdiv_float. destruct (Req_EM_T 0 0); [auto|lra]. Qed.

Lemma sqrt_qa q : sqrt (qw q ^ 2 + qz q ^ 2) = Cmod (qa q).
Proof. reflexivity. Qed.
Lemma sqrt_qb q : sqrt (qx q ^ 2 + qy q ^ 2) = Cmod (qb q).
Proof. unfold Cmod, qb. cbn [fst snd]. f_equal. ring. Qed.
Lemma sum_qa q : qw q ^ 2 + qz q ^ 2 = Cmod (qa q) * Cmod (qa q).
Proof. rewrite Cmod_sqr. unfold qa. simpl. ring. Qed.
Lemma sum_qb q : qx q ^ 2 + qy q ^ 2 = Cmod (qb q) * Cmod (qb q).
Proof. rewrite Cmod_sqr. unfold qb. simpl. ring. Qed.

Lemma quaternion_angles_ok q : qa q <> RtoC 0 -> qb q <> RtoC 0 ->
  let ra := Cmod (qa q) in let rb := Cmod (qb q) in
  quaternion_angles q = Ok ((((ra * ra - rb * rb)%R, (2 * ra * rb)%R) / RtoC (ra * ra + rb * rb))%C,
    (qa q / RtoC ra)%C, (Cconj (qb q) / RtoC rb)%C).
Proof.
  intros Ha Hb. cbv zeta. apply Cmod_gt_0 in Ha. apply Cmod_gt_0 in Hb.
  unfold quaternion_angles. cbv zeta. rewrite sqrt_qa, sqrt_qb, sum_qa, sum_qb.
  rewrite cdiv_float_ok by nra. cbn [bind]. rewrite cdiv_float_ok by lra. cbn [bind]. rewrite cdiv_float_ok by lra. reflexivity.
Qed.

Lemma polar_half ra rb : 0 < ra -> 0 < rb -> ra * ra + rb * rb = 1 ->
  exists beta, 0 < beta < PI /\ ra = cos (beta / 2) /\ rb = sin (beta / 2).
Proof.
  intros Ha Hb E. exists (2 * acos ra).
  assert (R1 : -1 < ra < 1) by nra.
  pose proof (acos_bound ra) as (B1 & B2).
  assert (C : cos (acos ra) = ra) by (apply cos_acos; lra).
  assert (S : sin (acos ra) = rb).
  { rewrite sin_acos by lra. unfold Rsqr. replace (1 - ra * ra) with (rb * rb) by lra. apply sqrt_square. lra. }
  replace (2 * acos ra / 2) with (acos ra) by field. rewrite C, S. split; [|auto].
  split.
  - destruct (Rle_lt_or_eq_dec 0 (acos ra) B1) as [L|L]; [lra|]. rewrite <- L, sin_0 in S. lra.
  - destruct (Rlt_le_dec (acos ra) (PI / 2)) as [L|L]; [lra|]. pose proof (cos_le_0 (acos ra) L ltac:(lra)). lra.
Qed.

Lemma Dm_polar N p q ra rb al be : (0 <= p <= N)%Z -> (0 <= q <= N)%Z -> 0 < ra -> 0 < rb ->
  Dm N p q (RtoC ra * cis al)%C (RtoC rb * cis be)%C =
  (Dm N p q (RtoC ra) (RtoC rb) * cis (al * IZR (p + q - N) + be * IZR (q - p)))%C.
Proof.
  intros Hp Hq Ha Hb. rewrite !Dm_window by auto. rewrite <- Cmult_assoc. f_equal. rewrite <- csum_scal_r.
  apply csum_ext. intros i Hi. unfold Tlo, Thi in Hi. rewrite Dterm_polar by lia.
  assert (X : Dterm N p q (RtoC ra) (RtoC rb) i = Dterm N p q (RtoC ra * cis 0)%C (RtoC rb * cis 0)%C i)
    by (rewrite cis_0, !Cmult_1_r; reflexivity).
  rewrite X, Dterm_polar by lia. rewrite !Rmult_0_l, Rplus_0_l, cis_0. ring.
Qed.

Lemma C47_angles :
  forall q, unit_quat q -> qa q <> RtoC 0 -> qb q <> RtoC 0 ->
  exists beta zp zm, quaternion_angles q = Ok (cis beta, zp, zm) /\ 0 < beta < PI /\ Cmod zp = 1 /\ Cmod zm = 1 /\
  forall n mp m, (- n <= mp <= n)%Z -> (- n <= m <= n)%Z ->
    Wigner_formula (2 * n) (2 * mp) (2 * m) (qa q) (qb q) =
    (RtoC (small_d n mp m beta) * Cpowz zp (mp + m) * Cpowz zm (mp - m))%C.
Proof.
  intros q U Ha Hb. rewrite quaternion_angles_ok by auto.
  apply Cmod_gt_0 in Ha. apply Cmod_gt_0 in Hb. pose proof (unit_norm_mod q U) as E.
  pose proof (polar_spec (qa q)) as Pa. pose proof (polar_spec (qb q)) as Pb.
  set (ra := Cmod (qa q)) in *. set (rb := Cmod (qb q)) in *.
  set (al := phase (qa q)) in *. set (be := phase (qb q)) in *.
  destruct (polar_half ra rb Ha Hb E) as (beta & B & Ea & Eb).
  destruct (half_angle beta) as (_ & Hc & Hs). rewrite <- Ea, <- Eb in Hc, Hs.
  exists beta, (cis al), (cis (- be)). split; [|split; [auto|split; [|split]]].
  - f_equal. rewrite E. f_equal; [f_equal|].
    + unfold cis. rewrite <- Hc, <- Hs. rewrite <- (Rmult_assoc 2). apply C_eq; simpl; field.
    + rewrite <- Pa. field. apply RtoC_neq0. lra.
    + rewrite <- Pb, Cconj_mult, Cconj_RtoC, cis_neg. field. apply RtoC_neq0. lra.
  - unfold Cmod, cis. cbn [fst snd]. pose proof (sin2_cos2 al) as X. unfold Rsqr in X. rewrite <- sqrt_1. f_equal. lra.
  - unfold Cmod, cis. cbn [fst snd]. pose proof (sin2_cos2 (- be)) as X. unfold Rsqr in X. rewrite <- sqrt_1. f_equal. lra.
  - intros n mp m Hp Hm. rewrite small_d_dd by auto. rewrite <- Ea, <- Eb. rewrite dd_Dm by auto.
    replace (2 * mp)%Z with (2 * (n + mp) - 2 * n)%Z by lia. replace (2 * m)%Z with (2 * (n + m) - 2 * n)%Z by lia.
    rewrite Wigner_formula_Dm by lia. rewrite <- Pa, <- Pb. rewrite Dm_polar by (auto; lia).
    rewrite <- !cis_powz, <- Cmult_assoc, <- cis_add. f_equal. f_equal.
    replace (n + mp + (n + m) - 2 * n)%Z with (mp + m)%Z by lia. replace (n + m - (n + mp))%Z with (- (mp - m))%Z by lia.
    rewrite opp_IZR. ring.
Qed.

Lemma C47_euler :
  forall alpha beta gamma, 0 < beta < PI ->
  quaternion_angles (from_euler_angles alpha beta gamma) = Ok (cis beta, cis ((alpha + gamma) / 2), cis ((alpha - gamma) / 2)).
Proof.
  intros alpha beta gamma B.
  assert (Cp : 0 < cos (beta / 2)) by (apply cos_gt_0; lra).
  assert (Sp : 0 < sin (beta / 2)) by (apply sin_gt_0; lra).
  assert (A : qw (from_euler_angles alpha beta gamma) ^ 2 + qz (from_euler_angles alpha beta gamma) ^ 2 = cos (beta / 2) * cos (beta / 2)).
  { unfold from_euler_angles. simpl. pose proof (sin2_cos2 ((alpha + gamma) / 2)) as X. unfold Rsqr in X.
    transitivity (cos (beta / 2) * cos (beta / 2) * (sin ((alpha + gamma) / 2) * sin ((alpha + gamma) / 2) + cos ((alpha + gamma) / 2) * cos ((alpha + gamma) / 2))); [ring|].
    rewrite X. ring. }
  assert (D : qx (from_euler_angles alpha beta gamma) ^ 2 + qy (from_euler_angles alpha beta gamma) ^ 2 = sin (beta / 2) * sin (beta / 2)).
  { unfold from_euler_angles. simpl. pose proof (sin2_cos2 ((alpha - gamma) / 2)) as X. unfold Rsqr in X.
    transitivity (sin (beta / 2) * sin (beta / 2) * (sin ((alpha - gamma) / 2) * sin ((alpha - gamma) / 2) + cos ((alpha - gamma) / 2) * cos ((alpha - gamma) / 2))); [ring|].
    rewrite X. ring. }
  unfold quaternion_angles. cbv zeta. rewrite A, D, !sqrt_square by lra.
  destruct (half_angle beta) as (H1 & Hc & Hs). rewrite H1, Hc.
  rewrite cdiv_float_ok by lra. cbn [bind]. rewrite cdiv_float_ok by lra. cbn [bind]. rewrite cdiv_float_ok by lra. cbn [bind].
  rewrite Rmult_assoc, Hs. unfold from_euler_angles. cbn [qw qx qy qz]. f_equal. unfold cis.
  f_equal; [f_equal|]; apply C_eq; simpl; field; lra.
Qed.

Lemma C47_degenerate_refuted :
  exists q, unit_quat q /\ quaternion_angles q = Err ZeroDivisionError.
Proof.
  exists qone. split; [unfold unit_quat, qnorm2, qone; simpl; ring|].
  unfold quaternion_angles, qone. cbn [qw qx qy qz]. cbv zeta.
  rewrite cdiv_float_ok by lra. cbn [bind]. replace (1 ^ 2 + 0 ^ 2) with 1 by ring. rewrite sqrt_1.
  rewrite cdiv_float_ok by lra. cbn [bind]. replace (0 ^ 2 + 0 ^ 2) with 0 by ring. rewrite sqrt_0, cdiv_float_0. reflexivity.
Qed.
Lemma C47_degenerate :
  forall q, qa q = RtoC 0 \/ qb q = RtoC 0 -> quaternion_angles q = Err ZeroDivisionError.
Proof.
  intros q H. unfold quaternion_angles. cbv zeta. rewrite sqrt_qa, sqrt_qb.
  destruct (Req_EM_T (qw q ^ 2 + qz q ^ 2 + (qx q ^ 2 + qy q ^ 2)) 0) as [E|E].
  - rewrite E, cdiv_float_0. reflexivity.
  - rewrite cdiv_float_ok by auto. cbn [bind]. destruct (Req_EM_T (Cmod (qa q)) 0) as [Ea|Ea].
    + rewrite Ea, cdiv_float_0. reflexivity.
    + rewrite cdiv_float_ok by auto. cbn [bind]. destruct H as [H|H].
      * rewrite H, Cmod_0 in Ea. lra.
      * rewrite H, Cmod_0, cdiv_float_0. reflexivity.
Qed.

(** D matrices from the H calculator and the angles. *)
Lemma C47_D_from_H :
  forall n_max hc q zb zp zm, (1 <= n_max)%Z -> HCalculator_init n_max = Ok hc -> unit_quat q ->
  quaternion_angles q = Ok (zb, zp, zm) ->
  exists H, HCalculator_call hc [Re zb] (Some [Im zb]) None = Ok H /\
    forall n mp m, (0 <= n <= n_max)%Z -> (- n <= mp <= n)%Z -> (- n <= m <= n)%Z ->
      exists r, (let '(n', mp', m') := wedgeify_index n mp m in aget H (wedge_index n' mp' m')) = Some r /\
        Wigner_formula (2 * n) (2 * mp) (2 * m) (qa q) (qb q) =
        (RtoC (eps mp * eps (- m) * r 0%Z) * Cpowz zp (mp + m) * Cpowz zm (mp - m))%C.
Proof.
  intros n_max hc q zb zp zm Hn E U EQ.
  assert (Ha : qa q <> RtoC 0) by (intros X; rewrite C47_degenerate in EQ by auto; discriminate).
  assert (Hb : qb q <> RtoC 0) by (intros X; rewrite C47_degenerate in EQ by auto; discriminate).
  destruct (C47_angles q U Ha Hb) as (beta & zp' & zm' & EQ' & B & _ & _ & V). rewrite EQ in EQ'. apply Ok_inj in EQ'.
  injection EQ' as -> -> ->.
  destruct (C40_wedge_any n_max hc [beta] None Hn E ltac:(discriminate) I) as (H & EH & VH).
  exists H. split; [exact EH|]. intros n mp m Hn' Hp Hm. destruct (VH n mp m Hn' Hp Hm) as (r & Er & Vr).
  exists r. split; [exact Er|]. rewrite V by auto. do 3 f_equal. rewrite (Vr 0%Z) by (cbn [length]; lia).
  change (nth (Z.to_nat 0) [beta] 0) with beta. unfold H_function.
  assert (Q : forall k, eps k * eps k = 1) by (intros k; unfold eps; destruct (k <=? 0)%Z; [ring|apply sgn_sqr]).
  transitivity (eps mp * eps mp * (eps (- m) * eps (- m)) * small_d n mp m beta); [|ring]. rewrite !Q. ring.
Qed.
