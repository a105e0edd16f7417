(** Property C66: quaternion_angles and theta_phi in double precision. *)
Require Import ZArith Lia List Reals Lra Bool.
From Flocq Require Import Core Mult_error.
From Coquelicot Require Import Complex.
From Verif Require Import Base BaseProofs CBase PowersModel DRep FloatIndexModel FloatPowersSpec FloatPowersModel FloatPowersProofs FloatPowersProps FloatConvSpec FloatConvModel FloatConvProofs FloatModesProofs4 QAnglesModel QAnglesProps GridModel GridProps FloatAnglesModel FloatAnglesProofs.
Import ListNotations.
Open Scope R_scope.
Set Bullet Behavior "Strict Subproofs".

Lemma cdiv_float64_ok z x : x <> 0 -> cdiv_float64 z x = Ok (RN64 (Re z / x), RN64 (Im z / x)).
Proof. intros H. unfold cdiv_float64. destruct (Req_EM_T x 0); [lra|auto]. Qed.
Lemma modulus64_pos x y r : / 2 ^ 400 <= r -> r * r = x * x + y * y -> RN64 (sqrt (sum_squares64 x y)) <> 0.
Proof.
  intros L R. pose proof (modulus64_err x y r L R) as M. destruct low_400 as (L4 & _).
  pose proof (rel_pos _ r (202 / 100) ltac:(lra) ltac:(lra) M). lra.
Qed.
Lemma qa_sqr q : Cmod (qa q) * Cmod (qa q) = qw q * qw q + qz q * qz q.
Proof. rewrite Cmod_sqr. reflexivity. Qed.
Lemma qb_sqr q : Cmod (qb q) * Cmod (qb q) = qx q * qx q + qy q * qy q.
Proof. rewrite Cmod_sqr. unfold qb. cbn [Re Im fst snd]. ring. Qed.

Lemma C66_angles :
  forall q, / 2 ^ 400 <= Cmod (qa q) <= 2 ^ 400 -> / 2 ^ 400 <= Cmod (qb q) <= 2 ^ 400 ->
  exists zb zp zm zb64 zp64 zm64, quaternion_angles q = Ok (zb, zp, zm) /\ quaternion_angles64 q = Ok (zb64, zp64, zm64)
    /\ Cmod (zb64 - zb)%C <= 13 * u64 /\ Cmod (zp64 - zp)%C <= 304 / 100 * u64 /\ Cmod (zm64 - zm)%C <= 304 / 100 * u64.
Proof.
  intros q [La _] [Lb _]. destruct low_400 as (L4 & _).
  assert (Na : qa q <> RtoC 0) by (intros X; rewrite X, Cmod_0 in La; lra).
  assert (Nb : qb q <> RtoC 0) by (intros X; rewrite X, Cmod_0 in Lb; lra).
  pose proof (quaternion_angles_ok q Na Nb) as E. cbv zeta in E.
  set (ra := Cmod (qa q)) in *. set (rb := Cmod (qb q)) in *.
  pose proof (qa_sqr q) as Sa. pose proof (qb_sqr q) as Sb. fold ra in Sa. fold rb in Sb.
  pose proof (beta64_err (qw q) (qz q) (qx q) (qy q) ra rb La Lb Sa Sb) as B. cbv zeta in B. destruct B as (B0 & B).
  pose proof (modulus64_pos _ _ _ La Sa) as Pa. pose proof (modulus64_pos _ _ _ Lb Sb) as Pb.
  do 6 eexists. split; [exact E|]. split.
  { unfold quaternion_angles64. cbv zeta. rewrite cdiv_float64_ok by lra. cbn [bind].
    rewrite cdiv_float64_ok by exact Pa. cbn [bind]. rewrite cdiv_float64_ok by exact Pb. cbn [bind]. reflexivity. }
  cbn [Re Im fst snd]. split; [exact B|]. split.
  - exact (phase64_err (qw q) (qz q) ra _ La Sa eq_refl).
  - assert (Sb' : rb * rb = qy q * qy q + - qx q * - qx q) by (rewrite Sb; ring).
    assert (Y : sum_squares64 (qx q) (qy q) = sum_squares64 (qy q) (- qx q)) by (unfold sum_squares64; f_equal; rewrite Rplus_comm; f_equal; f_equal; ring).
    rewrite Y. exact (phase64_err (qy q) (- qx q) rb _ Lb Sb' eq_refl).
Qed.

(** ** Rotors so close to the axis that squares underflow *)
Lemma RN_underflow x : Rabs x < bpow radix2 (-1075) -> RN64 x = 0.
Proof.
  intros H. destruct (Req_dec x 0) as [->|N]; [apply RN64_zero|]. unfold RN64.
  destruct (mag radix2 x) as (ex & E). specialize (E N). apply (round_N_small radix2 _ _ x ex E).
  assert (L : (ex - 1 < -1075)%Z) by (apply (lt_bpow radix2); lra). unfold FLT_exp. lia.
Qed.
Lemma square_underflow x : Rabs x <= / 2 ^ 538 -> RN64 (x * x) = 0.
Proof.
  intros H. apply RN_underflow. rewrite Rabs_mult. pose proof (Rabs_pos x) as P.
  apply Rle_lt_trans with (/ 2 ^ 538 * / 2 ^ 538); [apply Rmult_le_compat; auto|].
  rewrite <- Rinv_mult, <- pow_add, pow2_bpow, <- bpow_opp. apply bpow_lt. lia.
Qed.
Lemma sum_squares64_underflow x y : Rabs x <= / 2 ^ 538 -> Rabs y <= / 2 ^ 538 -> RN64 (sqrt (sum_squares64 x y)) = 0.
Proof. intros X Y. unfold sum_squares64. rewrite !square_underflow, Rplus_0_r, RN64_zero, sqrt_0, RN64_zero by auto. reflexivity. Qed.
Lemma cdiv_float64_0 z : cdiv_float64 z 0 = Err ZeroDivisionError.
Proof. unfold cdiv_float64. destruct (Req_EM_T 0 0); [auto|lra]. Qed.
Lemma cdiv_float64_cases z x : cdiv_float64 z x = Err ZeroDivisionError \/ exists r, cdiv_float64 z x = Ok r.
Proof. unfold cdiv_float64. destruct (Req_EM_T x 0); [auto|right; eauto]. Qed.

Lemma C66_underflow :
  forall q, (Rabs (qw q) <= / 2 ^ 538 /\ Rabs (qz q) <= / 2 ^ 538) \/ (Rabs (qx q) <= / 2 ^ 538 /\ Rabs (qy q) <= / 2 ^ 538) ->
  quaternion_angles64 q = Err ZeroDivisionError.
Proof.
  intros q H. unfold quaternion_angles64. cbv zeta. destruct (cdiv_float64_cases (RN64 (sum_squares64 (qw q) (qz q) - sum_squares64 (qx q) (qy q)),
    RN64 (RN64 (2 * RN64 (sqrt (sum_squares64 (qw q) (qz q)))) * RN64 (sqrt (sum_squares64 (qx q) (qy q)))))
    (RN64 (sum_squares64 (qw q) (qz q) + sum_squares64 (qx q) (qy q)))) as [E|(r & E)]; rewrite E; cbn [bind]; [reflexivity|].
  destruct (cdiv_float64_cases (qw q, qz q) (RN64 (sqrt (sum_squares64 (qw q) (qz q))))) as [F|(p & F)]; rewrite F; cbn [bind]; [reflexivity|].
  destruct H as [(A & B)|(A & B)].
  - rewrite sum_squares64_underflow, cdiv_float64_0 in F by auto. discriminate.
  - rewrite (sum_squares64_underflow (qx q) (qy q)), cdiv_float64_0 by auto. reflexivity.
Qed.
Lemma C66_underflow_refuted :
  exists q, is_double (qw q) /\ is_double (qx q) /\ is_double (qy q) /\ is_double (qz q) /\ (exists r, quaternion_angles q = Ok r)
    /\ quaternion_angles64 q = Err ZeroDivisionError.
Proof.
  exists (mkquat 1 (/ 2 ^ 600) 0 0). cbn [qw qx qy qz].
  assert (B : forall e, (-1074 <= e)%Z -> is_double (bpow radix2 e)).
  { intros e He. unfold is_double, RN64. apply round_generic; [apply valid_rnd_N|]. apply generic_format_bpow. unfold FLT_exp. lia. }
  assert (P : / 2 ^ 600 = bpow radix2 (- 600)) by (rewrite pow2_bpow; symmetry; apply (bpow_opp radix2 600)).
  split; [apply (B 0%Z); lia|]. split; [rewrite P; apply B; lia|]. split; [apply RN64_0|]. split; [apply RN64_0|].
  assert (L : 0 < / 2 ^ 600) by (apply Rinv_0_lt_compat, pow_lt; lra). split.
  - eexists. apply quaternion_angles_ok; intros X.
    + apply (f_equal fst) in X. cbn in X. lra.
    + apply (f_equal snd) in X. cbn [qb qx qy snd RtoC] in X. lra.
  - apply C66_underflow. right. cbn [qx qy]. split.
    + rewrite Rabs_pos_eq by lra. apply Rinv_le; [apply pow_lt; lra|apply Rle_pow; [lra|lia]].
    + rewrite Rabs_R0. apply Rlt_le, Rinv_0_lt_compat, pow_lt. lra.
Qed.

(** ** Powers of the computed phases *)
Lemma Cpow_pert z w d n : Cmod w = 1 -> 0 <= d -> Cmod (z - w)%C <= d -> Cmod (Cpow z n - Cpow w n)%C <= INR n * d * (1 + d) ^ n.
Proof.
  intros W D H. assert (P : Cmod (Cpow w n) = 1).
  { induction n as [|n IH]; cbn [Cpow]; [apply Cmod_1|]. rewrite Cmod_mult, W, IH. ring. }
  assert (Z : Cmod z <= 1 + d).
  { replace z with (w + (z - w))%C by ring. eapply Rle_trans; [apply Cmod_triangle|]. lra. }
  induction n as [|n IH].
  { cbn [Cpow INR]. replace (1 - 1)%C with (RtoC 0) by ring. rewrite Cmod_0. lra. }
  cbn [Cpow] in *. rewrite Cmod_mult, W, Rmult_1_l in P. specialize (IH P).
  replace (z * Cpow z n - w * Cpow w n)%C with (z * (Cpow z n - Cpow w n) + (z - w) * Cpow w n)%C by ring.
  eapply Rle_trans; [apply Cmod_triangle|]. rewrite !Cmod_mult, P, Rmult_1_r.
  assert (A : Cmod z * Cmod (Cpow z n - Cpow w n)%C <= (1 + d) * (INR n * d * (1 + d) ^ n)) by (apply Rmult_le_compat; auto using Cmod_ge_0).
  assert (B : 1 <= (1 + d) ^ S n) by (apply pow_R1_Rle; lra). rewrite S_INR. cbn [pow] in *.
  pose proof (Rmult_le_compat_l d _ _ D B). lra.
Qed.
Lemma pow_one_d d n : 0 <= d -> INR n * d <= / 1000 -> (1 + d) ^ n <= 1002 / 1000.
Proof.
  intros D H. assert (K : (1 - INR n * d) * (1 + d) ^ n <= 1).
  { clear H. induction n as [|n IH]; [cbn; lra|]. rewrite S_INR. cbn [pow]. assert (P : 0 < (1 + d) ^ n) by (apply pow_lt; lra).
    destruct (Rle_dec (1 - (INR n + 1) * d) 0) as [N|N].
    - assert ((1 - (INR n + 1) * d) * ((1 + d) * (1 + d) ^ n) <= 0); [|lra]. 
      assert (0 <= (1 + d) * (1 + d) ^ n) by (apply Rmult_le_pos; lra). pose proof (Rmult_le_compat_r ((1 + d) * (1 + d) ^ n) _ _ ltac:(lra) N). lra.
    - assert (Q : (1 - (INR n + 1) * d) * (1 + d) <= 1 - INR n * d).
      { replace ((1 - (INR n + 1) * d) * (1 + d)) with (1 - INR n * d - (INR n + 1) * (d * d)) by ring. pose proof (pos_INR n).
        assert (0 <= (INR n + 1) * (d * d)) by (apply Rmult_le_pos; [lra|apply Rmult_le_pos; lra]). lra. }
      pose proof (Rmult_le_compat_r ((1 + d) ^ n) _ _ ltac:(lra) Q). lra. }
  assert (P : 0 < (1 + d) ^ n) by (apply pow_lt; lra).
  pose proof (Rmult_le_compat_r ((1 + d) ^ n) (999 / 1000) (1 - INR n * d) ltac:(lra) ltac:(lra)). lra.
Qed.
Lemma Cmod_sub_abs a b : Rabs (Cmod a - Cmod b) <= Cmod (a - b)%C.
Proof.
  pose proof (Cmod_triangle (a - b)%C b) as X. replace (a - b + b)%C with a in X by ring.
  pose proof (Cmod_triangle (b - a)%C a) as Y. replace (b - a + a)%C with b in Y by ring.
  replace (b - a)%C with (- (a - b))%C in Y by ring. rewrite Cmod_opp in Y. apply Rabs_le. lra.
Qed.
Lemma phase_mod z : z <> RtoC 0 -> Cmod (z / RtoC (Cmod z))%C = 1.
Proof.
  intros N. apply Cmod_gt_0 in N. rewrite Cmod_div by (intros X; apply RtoC_inj in X; lra). rewrite Cmod_R, Rabs_pos_eq by lra. field. lra.
Qed.
Lemma resolved_div v s r : / 2 ^ 400 <= r -> Rabs (s - r) <= 202 / 100 * u64 * r -> (v = 0 \/ / 2 ^ 299 * r <= Rabs v) ->
  resolved (RN64 (v / s)).
Proof.
  intros L M H. destruct low_400 as (L4 & _ & _ & _). assert (R0 : 0 < r) by lra. pose proof u64_pos as U.
  destruct H as [->|H]; [left; unfold Rdiv; rewrite Rmult_0_l; apply RN64_zero|right].
  pose proof (RN_div_err v s r (202 / 100) R0 ltac:(lra) M) as E.
  assert (Q : / 2 ^ 299 <= Rabs (v / r)).
  { unfold Rdiv. rewrite Rabs_mult, Rabs_inv, (Rabs_pos_eq r) by lra. apply (Rmult_le_reg_r r); [lra|]. rewrite Rmult_assoc, Rinv_l, Rmult_1_r by lra. exact H. }
  assert (P : / 2 ^ 300 = / 2 * / 2 ^ 299) by (rewrite <- Rinv_mult; reflexivity).
  assert (P0 : 0 < / 2 ^ 299) by (apply Rinv_0_lt_compat, pow_lt; lra).
  assert (EL : eta <= / 1000 * / 2 ^ 299).
  { pose proof eta_low as EL. eapply Rle_trans; [exact EL|]. rewrite Rmult_assoc. apply Rmult_le_compat_l; [lra|].
    apply Rle_trans with (1 * / 2 ^ 900); [apply Rmult_le_compat_r; [apply Rlt_le, Rinv_0_lt_compat, pow_lt; lra|lra]|].
    rewrite Rmult_1_l. apply Rinv_le; [apply pow_lt; lra|apply Rle_pow; [lra|lia]]. }
  assert (T : Rabs (v / r) <= Rabs (RN64 (v / s)) + Rabs (RN64 (v / s) - v / r)).
  { replace (v / r) with (RN64 (v / s) - (RN64 (v / s) - v / r)) at 1 by ring. unfold Rminus at 1. eapply Rle_trans; [apply Rabs_triang|]. rewrite Rabs_Ropp. lra. }
  assert ((202 / 100 + 1002 / 1000) * u64 * Rabs (v / r) <= / 1000 * Rabs (v / r)) by (apply Rmult_le_compat_r; [apply Rabs_pos|lra]).
  lra.
Qed.

(** Zero, or not extremely small compared with the part of the rotor that it belongs to *)
Lemma C66_powers :
  forall sqrt_im fuel garbage q M, (3 <= fuel)%nat -> (1 <= M <= 2 ^ 36)%Z -> good_sqrt sqrt_im ->
  / 2 ^ 400 <= Cmod (qa q) <= 2 ^ 400 -> / 2 ^ 400 <= Cmod (qb q) <= 2 ^ 400 ->
  (qw q = 0 \/ / 2 ^ 299 * Cmod (qa q) <= Rabs (qw q)) -> (qz q = 0 \/ / 2 ^ 299 * Cmod (qa q) <= Rabs (qz q)) ->
  (qx q = 0 \/ / 2 ^ 299 * Cmod (qb q) <= Rabs (qx q)) -> (qy q = 0 \/ / 2 ^ 299 * Cmod (qb q) <= Rabs (qy q)) ->
  exists zb zp zm zb64 zp64 zm64 powers, quaternion_angles q = Ok (zb, zp, zm) /\ quaternion_angles64 q = Ok (zb64, zp64, zm64)
    /\ complex_powers64 sqrt_im fuel garbage (mkarr 2 (fun i => if (i =? 0)%Z then zp64 else zm64)) M = Ok powers
    /\ forall m, (0 <= m <= M)%Z ->
         Cmod (get2 powers 0 m - Cpow zp (Z.to_nat m))%C <= 154 * IZR m * u64
         /\ Cmod (get2 powers 1 m - Cpow zm (Z.to_nat m))%C <= 154 * IZR m * u64.
Proof.
  intros sqrt_im fuel garbage q M Hf HM GS Ha Hb Hw Hz Hx Hy.
  destruct (C66_angles q Ha Hb) as (zb & zp & zm & zb64 & zp64 & zm64 & E & E64 & _ & Ep & Em).
  destruct Ha as (La & _). destruct Hb as (Lb & _). destruct low_400 as (L4 & _). pose proof u64_pos as U.
  assert (Na : qa q <> RtoC 0) by (intros X; rewrite X, Cmod_0 in La; lra).
  assert (Nb : qb q <> RtoC 0) by (intros X; rewrite X, Cmod_0 in Lb; lra).
  assert (Nb' : Cconj (qb q) <> RtoC 0) by (intros X; apply (f_equal Cmod) in X; rewrite Cmod_conj, Cmod_0 in X; lra).
  pose proof (quaternion_angles_ok q Na Nb) as F. cbv zeta in F. rewrite E in F. apply Ok_inj in F. injection F as Fb Fp Fm.
  assert (Mp : Cmod zp = 1) by (rewrite Fp; apply phase_mod; auto).
  assert (Mm : Cmod zm = 1) by (rewrite Fm, <- (Cmod_conj (qb q)); apply phase_mod; auto).
  pose proof (qa_sqr q) as Sa. pose proof (qb_sqr q) as Sb.
  assert (E64' := E64). unfold quaternion_angles64 in E64'. cbv zeta in E64'.
  destruct (cdiv_float64_cases (RN64 (sum_squares64 (qw q) (qz q) - sum_squares64 (qx q) (qy q)),
    RN64 (RN64 (2 * RN64 (sqrt (sum_squares64 (qw q) (qz q)))) * RN64 (sqrt (sum_squares64 (qx q) (qy q)))))
    (RN64 (sum_squares64 (qw q) (qz q) + sum_squares64 (qx q) (qy q)))) as [G|(r & G)]; rewrite G in E64'; cbn [bind] in E64'; [discriminate|].
  rewrite !cdiv_float64_ok in E64' by eauto using modulus64_pos. cbn [bind Re Im fst snd] in E64'. apply Ok_inj in E64'.
  injection E64' as _ Gp Gm.
  pose proof (modulus64_err _ _ _ La Sa) as MA. pose proof (modulus64_err _ _ _ Lb Sb) as MB.
  assert (NP : near_unit zp64).
  { rewrite <- Gp. split; [apply RN_idem|]. split; [apply RN_idem|]. split; [rewrite Gp|split; cbn [Re Im fst snd]; apply (resolved_div _ _ _ La MA); assumption].
    rewrite <- Mp. apply Rle_trans with (Cmod (zp64 - zp)%C); [apply Cmod_sub_abs|lra]. }
  assert (NM : near_unit zm64).
  { rewrite <- Gm. split; [apply RN_idem|]. split; [apply RN_idem|]. split; [rewrite Gm|split; cbn [Re Im fst snd]; apply (resolved_div _ _ _ Lb MB); try assumption].
    - rewrite <- Mm. apply Rle_trans with (Cmod (zm64 - zm)%C); [apply Cmod_sub_abs|lra].
    - rewrite Rabs_Ropp. destruct Hx as [->|Hx]; [left; ring|right; exact Hx]. }
  destruct (C59_complex_powers sqrt_im fuel garbage (mkarr 2 (fun i => if (i =? 0)%Z then zp64 else zm64)) M Hf HM ltac:(cbn; lia) GS) as (pw & EP & _ & _ & BP).
  { intros i Hi. cbn [aget alen] in *. destruct (i =? 0)%Z; auto. }
  exists zb, zp, zm, zb64, zp64, zm64, pw. split; [auto|]. split; [auto|]. split; [exact EP|].
  intros m Hm. assert (I : INR (Z.to_nat m) = IZR m) by (rewrite INR_IZR_INZ, Z2Nat.id by lia; reflexivity).
  assert (M0 : 0 <= IZR m) by (apply (IZR_le 0); lia).
  assert (MU : IZR m * (304 / 100 * u64) <= / 1000).
  { assert (IZR m <= IZR (2 ^ 36)) by (apply IZR_le; lia). change (2 ^ 36)%Z with 68719476736%Z in H.
    pose proof (Rmult_le_compat_r (304 / 100 * u64) _ _ ltac:(lra) H) as K. unfold u64 in *. lra. }
  assert (PW : (1 + 304 / 100 * u64) ^ Z.to_nat m <= 1002 / 1000) by (apply pow_one_d; [lra|rewrite I; exact MU]).
  assert (K : forall z w p, Cmod w = 1 -> Cmod (z - w)%C <= 304 / 100 * u64 -> Cmod (p - Cpow z (Z.to_nat m))%C <= 150 * IZR m * u64 ->
    Cmod (p - Cpow w (Z.to_nat m))%C <= 154 * IZR m * u64).
  { intros z w p W D B. replace (p - Cpow w (Z.to_nat m))%C with ((p - Cpow z (Z.to_nat m)) + (Cpow z (Z.to_nat m) - Cpow w (Z.to_nat m)))%C by ring.
    eapply Rle_trans; [apply Cmod_triangle|]. pose proof (Cpow_pert z w (304 / 100 * u64) (Z.to_nat m) W ltac:(lra) D) as Q. rewrite I in Q.
    assert (S : IZR m * (304 / 100 * u64) * (1 + 304 / 100 * u64) ^ Z.to_nat m <= IZR m * (304 / 100 * u64) * (1002 / 1000))
      by (apply Rmult_le_compat_l; [apply Rmult_le_pos; lra|auto]).
    assert (0 <= IZR m * u64) by (apply Rmult_le_pos; lra). lra. }
  split.
  - apply (K zp64); auto. apply (BP 0%Z m); cbn; lia.
  - apply (K zm64); auto. apply (BP 1%Z m); cbn; lia.
Qed.

(** ** The grid of theta_phi *)
Lemma twopi64_err : RN64 (2 * pi64) = RN64 (2 * pi64) /\ Rabs (RN64 (2 * pi64) - 2 * PI) <= 1002 / 1000 * u64 * (2 * PI).
Proof.
  split; [reflexivity|]. assert (E : RN64 (2 * pi64) = 2 * pi64).
  { unfold pi64, RN64. apply round_generic; [apply valid_rnd_N|]. rewrite Rmult_comm. change 2 with (bpow radix2 1). apply mult_bpow_pos_exact_FLT.
    - apply generic_format_round; [apply FLT_exp_valid; reflexivity|apply valid_rnd_N].
    - lia. }
  rewrite E. pose proof pi64_err. replace (2 * pi64 - 2 * PI) with (2 * (pi64 - PI)) by ring. rewrite Rabs_mult, (Rabs_pos_eq 2) by lra. lra.
Qed.

Lemma C66_grid :
  forall nt np, (2 <= nt <= 2 ^ 50)%Z -> (1 <= np <= 2 ^ 50)%Z ->
  exists e64, theta_phi64 nt np = Ok ([nt; np; 2%Z], e64)
    /\ (forall i j, (0 <= i < nt)%Z -> (0 <= j < np)%Z ->
          let theta := IZR i * PI / IZR (nt - 1) in let phi := 2 * PI * IZR j / IZR np in
          Rabs (e64 i j 0%Z - theta) <= 302 / 100 * u64 * theta /\ Rabs (e64 i j 1%Z - phi) <= 302 / 100 * u64 * phi)
    /\ (forall j, (0 <= j < np)%Z -> e64 0%Z j 0%Z = 0 /\ e64 (nt - 1)%Z j 0%Z = RN64 PI)
    /\ (forall i, (0 <= i < nt)%Z -> e64 i 0%Z 1%Z = 0)
    /\ (forall i j i' j', (0 <= i < i')%Z -> (i' < nt)%Z -> (0 <= j < np)%Z -> (0 <= j' < np)%Z -> e64 i j 0%Z < e64 i' j' 0%Z)
    /\ (forall i j i' j', (0 <= j < j')%Z -> (j' < np)%Z -> (0 <= i < nt)%Z -> (0 <= i' < nt)%Z -> e64 i j 1%Z < e64 i' j' 1%Z)
    /\ (forall i j, (0 <= i < nt)%Z -> (0 <= j < np)%Z -> 0 <= e64 i j 0%Z <= RN64 PI /\ 0 <= e64 i j 1%Z < RN64 (2 * RN64 PI)).
Proof.
  intros nt np Ht Hp. pose proof u64_pos as U. pose proof PI_bounds as PB.
  assert (T : exists e64, theta_phi64 nt np = Ok ([nt; np; 2%Z], e64)
    /\ (forall i j, e64 i j 0%Z = if (i =? nt - 1)%Z then pi64 else RN64 (RN64 (RN64 (IZR i) * RN64 (RN64 (pi64 - 0) / RN64 (IZR (nt - 1)))) + 0))
    /\ (forall i j, e64 i j 1%Z = RN64 (RN64 (RN64 (IZR j) * RN64 (RN64 (RN64 (2 * pi64) - 0) / RN64 (IZR np))) + 0))).
  { eexists. split.
    - unfold theta_phi64, linspace64. replace (nt <? 0)%Z with false by (symmetry; apply Z.ltb_ge; lia). replace (np <? 0)%Z with false by (symmetry; apply Z.ltb_ge; lia).
      replace (nt =? 0)%Z with false by (symmetry; apply Z.eqb_neq; lia). cbn [bind alen].
      replace (nt =? 0)%Z with false by (symmetry; apply Z.eqb_neq; lia). replace (np =? 0)%Z with false by (symmetry; apply Z.eqb_neq; lia). reflexivity.
    - split; intros i j; cbn [Z.eqb aget].
      + replace (1 <? nt)%Z with true by (symmetry; apply Z.ltb_lt; lia). replace (0 <? nt - 1)%Z with true by (symmetry; apply Z.ltb_lt; lia). reflexivity.
      + cbn [andb]. replace (0 <? np)%Z with true by (symmetry; apply Z.ltb_lt; lia). reflexivity. }
  destruct T as (e & T & TT & TP). exists e. split; [exact T|].
  assert (D1 : RN64 pi64 = pi64) by apply RN_idem. assert (D2 : RN64 (RN64 (2 * pi64)) = RN64 (2 * pi64)) by apply RN_idem.
  assert (N1 : 1 <= IZR (nt - 1)) by (apply (IZR_le 1); lia). assert (N2 : 1 <= IZR np) by (apply (IZR_le 1); lia).
  assert (ET : forall i j, (0 <= i < nt)%Z -> Rabs (e i j 0%Z - IZR i * PI / IZR (nt - 1)) <= 302 / 100 * u64 * (IZR i * PI / IZR (nt - 1))).
  { intros i j Hi. rewrite TT. destruct (Z.eqb_spec i (nt - 1)) as [->|N].
    - replace (IZR (nt - 1) * PI / IZR (nt - 1)) with PI by (field; lra). pose proof pi64_err.
      assert (0 <= u64 * PI) by (apply Rmult_le_pos; lra). lra.
    - apply grid64_err; try lia; auto; [lra|apply pi64_err]. }
  assert (EP : forall i j, (0 <= j < np)%Z -> Rabs (e i j 1%Z - 2 * PI * IZR j / IZR np) <= 302 / 100 * u64 * (2 * PI * IZR j / IZR np)).
  { intros i j Hj. rewrite TP. replace (2 * PI * IZR j) with (IZR j * (2 * PI)) by ring. apply grid64_err; try lia; auto; [lra|apply twopi64_err]. }
  (* neighbouring points differ by more than their errors *)
  assert (SEP : forall i i' n S x x', (0 <= i < i')%Z -> (i' <= 2 ^ 50)%Z -> 1 <= n -> 3 <= S ->
     Rabs (x - IZR i * S / n) <= 302 / 100 * u64 * (IZR i * S / n) -> Rabs (x' - IZR i' * S / n) <= 302 / 100 * u64 * (IZR i' * S / n) -> x < x').
  { intros i i' n S x x' Hi Hi' Hn HS X X'. apply Rabs_le_inv in X. apply Rabs_le_inv in X'.
    assert (P : 0 < S / n) by (apply Rdiv_lt_0_compat; lra).
    replace (IZR i * S / n) with (IZR i * (S / n)) in X by (field; lra). replace (IZR i' * S / n) with (IZR i' * (S / n)) in X' by (field; lra).
    assert (I1 : IZR i + 1 <= IZR i') by (rewrite <- plus_IZR; apply IZR_le; lia).
    assert (I2 : IZR i' <= 2 ^ 50) by (rewrite (pow_IZR 2 50); apply IZR_le; exact Hi').
    assert (I0 : 0 <= IZR i) by (apply (IZR_le 0); lia).
    assert (G : (1 + 302 / 100 * u64) * IZR i < (1 - 302 / 100 * u64) * IZR i').
    { assert (K : 302 / 100 * u64 * (IZR i + IZR i') <= 302 / 100 * u64 * (2 * 2 ^ 50)) by (apply Rmult_le_compat_l; lra). unfold u64 in *. lra. }
    pose proof (Rmult_lt_compat_r (S / n) _ _ P G). lra. }
  assert (B0 : forall j, e 0%Z j 0%Z = 0).
  { intros j. pose proof (ET 0%Z j ltac:(lia)) as X. unfold Rdiv in X. rewrite !Rmult_0_l, Rminus_0_r, Rmult_0_r in X. pose proof (Rabs_pos (e 0%Z j 0%Z)).
    destruct (Req_dec (e 0%Z j 0%Z) 0) as [Y|Y]; [exact Y|]. apply Rabs_pos_lt in Y. lra. }
  assert (B1 : forall i, e i 0%Z 1%Z = 0).
  { intros i. pose proof (EP i 0%Z ltac:(lia)) as X. unfold Rdiv in X. rewrite !Rmult_0_r, !Rmult_0_l, Rminus_0_r, Rmult_0_r in X. pose proof (Rabs_pos (e i 0%Z 1%Z)).
    destruct (Req_dec (e i 0%Z 1%Z) 0) as [Y|Y]; [exact Y|]. apply Rabs_pos_lt in Y. lra. }
  assert (BL : forall j, e (nt - 1)%Z j 0%Z = pi64) by (intros j; rewrite TT, Z.eqb_refl; reflexivity).
  assert (MT : forall i j i' j', (0 <= i < i')%Z -> (i' < nt)%Z -> e i j 0%Z < e i' j' 0%Z).
  { intros i j i' j' Hi Hi'. apply (SEP i i' (IZR (nt - 1)) PI); try lia; try lra; apply ET; lia. }
  assert (MP : forall i j i' j', (0 <= j < j')%Z -> (j' < np)%Z -> e i j 1%Z < e i' j' 1%Z).
  { intros i j i' j' Hj Hj'. apply (SEP j j' (IZR np) (2 * PI)); try lia; try lra; rewrite (Rmult_comm (IZR _)); apply EP; lia. }
  split; [intros i j Hi Hj; cbv zeta; split; [apply ET; auto|apply EP; auto]|].
  split; [intros j Hj; split; [apply B0|apply BL]|]. split; [intros i Hi; apply B1|].
  split; [intros; apply MT; lia|]. split; [intros; apply MP; lia|].
  intros i j Hi Hj. split.
  - split.
    + rewrite <- (B0 j). destruct (Z.eq_dec i 0) as [->|N]; [lra|]. left. apply MT; lia.
    + change (RN64 PI) with pi64. rewrite <- (BL j). destruct (Z.eq_dec i (nt - 1)) as [->|N]; [lra|]. left. apply MT; lia.
  - split.
    + rewrite <- (B1 i). destruct (Z.eq_dec j 0) as [->|N]; [lra|]. left. apply MP; lia.
    + change (RN64 PI) with pi64. apply (SEP j np (IZR np) (2 * PI)); try lia; try lra; [rewrite (Rmult_comm (IZR j)); apply EP; lia|]. rewrite (Rmult_comm (IZR np)).
      replace (2 * PI * IZR np / IZR np) with (2 * PI) by (field; lra). destruct twopi64_err as (_ & E).
      assert (0 <= u64 * PI) by (apply Rmult_le_pos; lra). lra.
Qed.

Lemma C66_example : let q := mkquat 1 2 (-1) (/ 2 ^ 100) in
  (/ 2 ^ 400 <= Cmod (qa q) <= 2 ^ 400) /\ (/ 2 ^ 400 <= Cmod (qb q) <= 2 ^ 400) /\
  (/ 2 ^ 299 * Cmod (qa q) <= Rabs (qw q)) /\ (/ 2 ^ 299 * Cmod (qa q) <= Rabs (qz q)) /\
  (/ 2 ^ 299 * Cmod (qb q) <= Rabs (qx q)) /\ (/ 2 ^ 299 * Cmod (qb q) <= Rabs (qy q)).
Proof.
  cbv zeta. unfold qa, qb. cbn [qw qx qy qz]. assert (P : forall n, 0 < / 2 ^ n) by (intros n; apply Rinv_0_lt_compat, pow_lt; lra).
  assert (L1 : / 2 ^ 100 <= 1) by (rewrite <- Rinv_1; apply Rinv_le; [lra|apply pow_R1_Rle; lra]).
  assert (L4 : / 2 ^ 400 <= 1) by (rewrite <- Rinv_1; apply Rinv_le; [lra|apply pow_R1_Rle; lra]).
  assert (T : 3 <= 2 ^ 400) by (apply Rle_trans with (2 ^ 2); [lra|apply Rle_pow; [lra|lia]]).
  assert (S : / 2 ^ 299 * 3 <= / 2 ^ 100).
  { replace (2 ^ 299) with (2 ^ 100 * 2 ^ 199) by (rewrite <- pow_add; f_equal). rewrite Rinv_mult, Rmult_assoc.
    rewrite <- (Rmult_1_r (/ 2 ^ 100)) at 2. apply Rmult_le_compat_l; [apply Rlt_le, P|]. apply (Rmult_le_reg_l (2 ^ 199)); [apply pow_lt; lra|].
    rewrite <- Rmult_assoc, Rinv_r, Rmult_1_l, Rmult_1_r by (apply pow_nonzero; lra). apply Rle_trans with (2 ^ 2); [lra|apply Rle_pow; [lra|lia]]. }
  pose proof (P 100%nat) as P1. pose proof (P 299%nat) as P3.
  assert (A : 1 <= Cmod (1, / 2 ^ 100) <= 3).
  { split; [|eapply Rle_trans; [apply Cmod_le_sum|rewrite !Rabs_pos_eq by lra; lra]]. 
    replace 1 with (Rabs (fst (1, / 2 ^ 100))) at 1 by (cbn [fst]; apply Rabs_pos_eq; lra). eapply Rle_trans; [apply Rmax_l|apply Rmax_Cmod]. }
  assert (B : 1 <= Cmod (-1, 2) <= 3).
  { split; [|eapply Rle_trans; [apply Cmod_le_sum|rewrite Rabs_left, Rabs_pos_eq by lra; lra]].
    apply Rle_trans with (Rabs (snd (-1, 2))); [cbn [snd]; rewrite Rabs_pos_eq; lra|]. eapply Rle_trans; [apply Rmax_r|apply Rmax_Cmod]. }
  assert (SA : / 2 ^ 299 * Cmod (1, / 2 ^ 100) <= / 2 ^ 299 * 3) by (apply Rmult_le_compat_l; lra).
  assert (SB : / 2 ^ 299 * Cmod (-1, 2) <= / 2 ^ 299 * 3) by (apply Rmult_le_compat_l; lra).
  split; [lra|]. split; [lra|]. rewrite !(Rabs_pos_eq 1), !(Rabs_pos_eq 2), (Rabs_pos_eq (/ 2 ^ 100)), (Rabs_left (-1)) by lra. lra.
Qed.
