(** Rounding errors of the matrix and array evaluators: integer indices. *)
Require Import ZArith Lia Reals Lra Bool.
From Flocq Require Import Core.
From Coquelicot Require Import Complex.
From Verif Require Import Base BaseProofs CBase Fact RSum CSum SymPow WignerSpec DRep IndexModel FloatIndexModel FloatIndexProofs FloatPowersModel
  FloatPowersSpec FloatPowersProofs FloatPowersProps FloatConvModel FloatConvSpec FloatConvProofs WignerModel WignerProofs WignerProofs2 WignerProofs3
  SWSHModel SWSHProofs FloatWignerModel FloatWignerSpec FloatWignerProofs FloatWignerProofs2 FloatWignerProofs3 FloatWignerProofs4 FloatWignerProofs5
  FloatMatrixModel FloatMatrixProofs.
Set Bullet Behavior "Strict Subproofs".
Open Scope R_scope.

Section IntRows.
  Variables (lib : libm) (ell mp m : Z) (ra rb al be ha hb pa pb : R).
  Let a := (RtoC ra * cis al)%C.
  Let b := (RtoC rb * cis be)%C.
  Hypothesis GL : good_libm lib.
  Hypothesis Hl : (ell <= 32)%Z.
  Hypothesis Hmp : (- ell <= mp <= ell)%Z.
  Hypothesis Hm : (- ell <= m <= ell)%Z.
  Hypothesis Ba : / 10 ^ 16 <= ra <= 3 / 2.
  Hypothesis Bb : / 10 ^ 16 <= rb <= 3 / 2.
  Hypothesis Ra : rel 3 ha ra.
  Hypothesis Rb : rel 3 hb rb.
  Hypothesis Al : Rabs al <= PI /\ Rabs (pa - al) <= 8 * u64.
  Hypothesis Be : Rabs be <= PI /\ Rabs (pb - be) <= 8 * u64.
  Let N := (2 * ell)%Z.
  Let p := (ell + mp)%Z.
  Let q := (ell + m)%Z.
  Definition isize (ra rb : R) : R := Wsize (2 * ell) (ell + mp) (ell + m) ra rb.
  (** What is proved about a sum [S64], a radius [d] and the angles [t1], [t2] of the two prefactors *)
  Definition row_good (S64 d sg t1 t2 : R) : Prop :=
    (forall e P1, Rabs e = 1 -> prefactor lib d (sg * e) t1 P1 ->
       Cmod (cscale64 S64 P1 - RtoC e * Dv a b ell mp m)%C <= (74 * IZR ell + 15) * u64 * isize ra rb + / 2 ^ 600
       /\ forall n64 nn, rel 6 n64 nn -> 0 <= nn <= 4 ->
          Cmod (cscale64 S64 (cscale64 n64 P1) - RtoC nn * (RtoC e * Dv a b ell mp m))%C <= (74 * IZR ell + 22) * u64 * (nn * isize ra rb) + / 2 ^ 600)
    /\ (forall P2, prefactor lib d sg t2 P2 ->
       Cmod (cscale64 S64 P2 - Dv (Cconj a) (- b)%C ell mp m)%C <= (106 * IZR ell + 15) * u64 * isize ra rb + / 2 ^ 600).

  Lemma HN'' : (0 <= N <= 64)%Z. Proof. unfold N. lia. Qed.
  Lemma Hp'' : (0 <= p <= N)%Z. Proof. unfold N, p. lia. Qed.
  Lemma Hq'' : (0 <= q <= N)%Z. Proof. unfold N, q. lia. Qed.
  Lemma conj_polar : Cconj a = (RtoC ra * cis (- al))%C.
  Proof. unfold a. rewrite Cconj_mult, Cconj_RtoC, cis_neg. reflexivity. Qed.
  Lemma opp_polar : (- b)%C = (RtoC rb * cis (be + PI))%C.
  Proof. unfold b. rewrite cis_add, cis_PI. ring. Qed.
  Lemma W_nonneg : 0 <= isize ra rb.
  Proof. pose proof p16. apply Wsize_nonneg; try lra; lia. Qed.

  Lemma int_ge64 : hb <= ha ->
    exists c S64, coeff64 (2 * ell) (2 * mp) (2 * m) = Ok c
      /\ for_down (Z.min (ell + mp) (ell - m)) (Z.max 0 (mp - m)) (sum_step64 (ratio64 hb ha) (ell + mp + 1) (ell - m + 1) (m - mp)) 1 = Ok S64
      /\ row_good S64 (radius64 lib c ha hb (2 * ell - m + mp - 2 * Z.max 0 (mp - m)) (m - mp + 2 * Z.max 0 (mp - m))) (sgn (Z.max 0 (mp - m)))
           (RN64 (RN64 (pa * int64 (m + mp)) + RN64 (pb * int64 (m - mp))))
           (RN64 (RN64 (- pa * int64 (m + mp)) + RN64 (RN64 (pb + pi64) * int64 (m - mp)))).
  Proof.
    intros Hle. pose proof p16 as P16. pose proof HN'' as HN. pose proof Hp'' as Hp. pose proof Hq'' as Hq. pose proof u64_pos as Up.
    destruct (coeff64_ok N p q HN Hp Hq) as (c & EC & RC).
    replace (2 * p - N)%Z with (2 * mp)%Z in EC by (unfold p, N; lia). replace (2 * q - N)%Z with (2 * m)%Z in EC by (unfold q, N; lia).
    unfold N in EC. exists c.
    destruct (core_any lib N p q ra rb ha hb GL HN Hp Hq Ba Bb Ra Rb Hle) as (S64 & ES & EB). exists S64. split; [exact EC|].
    assert (TL : Tlo p q = Z.max 0 (mp - m)) by (unfold Tlo, p, q; lia).
    assert (TH : Thi N p q = Z.min (ell + mp) (ell - m)) by (unfold Thi, N, p, q; lia).
    rewrite <- for_down_loop in ES. rewrite TL, TH in ES.
    replace (p + 1)%Z with (ell + mp + 1)%Z in ES by (unfold p; lia). replace (N - q + 1)%Z with (ell - m + 1)%Z in ES by (unfold N, q; lia).
    replace (q - p)%Z with (m - mp)%Z in ES by (unfold p, q; lia). split; [exact ES|].
    pose proof (KL N p q Hp Hq) as HK. replace (p + q - N)%Z with (m + mp)%Z in HK by (unfold p, q, N; lia). replace (q - p)%Z with (m - mp)%Z in HK by (unfold p, q; lia).
    replace (p + (N - q) - 2 * Tlo p q)%Z with (2 * ell - m + mp - 2 * Z.max 0 (mp - m))%Z in EB by (rewrite TL; unfold p, q, N; lia).
    replace (q - p + 2 * Tlo p q)%Z with (m - mp + 2 * Z.max 0 (mp - m))%Z in EB by (rewrite TL; unfold p, q; lia).
    set (e1 := (2 * ell - m + mp - 2 * Z.max 0 (mp - m))%Z) in *. set (e2 := (m - mp + 2 * Z.max 0 (mp - m))%Z) in *.
    assert (TV : forall al' be' e S, Rabs e = 1 ->
       Tt N p q (- rb * rb / (ra * ra)) (Tlo p q) * S = rsum (Tlo p q) (Thi N p q) (Tt N p q (- rb * rb / (ra * ra))) ->
       (RtoC e * Dm N p q (RtoC ra * cis al') (RtoC rb * cis be'))%C
       = (RtoC (coeff N p q * powerRZ ra e1 * powerRZ rb e2 * (sgn (Z.max 0 (mp - m)) * e) * S) * cis (al' * IZR (m + mp) + be' * IZR (m - mp)))%C).
    { intros al' be' e S He HS. rewrite (Dm_ge_polar N p q ra rb al' be' S Hp Hq) by (auto; lra).
      rewrite TL. replace (p + (N - q) - 2 * Z.max 0 (mp - m))%Z with e1 by (unfold e1, p, q, N; lia).
      replace (q - p + 2 * Z.max 0 (mp - m))%Z with e2 by (unfold e2, p, q; lia).
      replace (p + q - N)%Z with (m + mp)%Z by (unfold p, q, N; lia). replace (q - p)%Z with (m - mp)%Z by (unfold p, q; lia).
      unfold coeff. rewrite TL, !RtoC_mult. ring. }
    pose proof W_nonneg as W0. unfold isize in W0. fold N p q in W0.
    assert (IN : IZR N = 2 * IZR ell) by (unfold N; rewrite mult_IZR; ring).
    unfold row_good, isize, Dv. fold N p q. split.
    - intros e P1 He HP1.
      destruct (ang_sum _ _ al be (m + mp) (m - mp) N (ang_whole pa al (m + mp) (proj1 Al) (proj2 Al) ltac:(lia))
        (ang_whole pb be (m - mp) (proj1 Be) (proj2 Be) ltac:(lia)) (proj1 Al) (proj1 Be) HK ltac:(lia)) as [T1 T2].
      assert (SG : Rabs (sgn (Z.max 0 (mp - m)) * e) = 1) by (rewrite Rabs_mult, Rabs_sgn, He; ring).
      destruct (EB c (sgn (Z.max 0 (mp - m)) * e) _ _ (21 * Z.to_nat N + 1)%nat P1 (RtoC e * Dm N p q a b)%C RC SG ltac:(lia) T1 T2 HP1) as [X Y].
      + intros S HS. unfold a, b. apply TV; auto.
      + split.
        * eapply Rle_trans; [exact X|]. apply Rplus_le_compat_r, Rmult_le_compat_r; auto.
          pose proof (g_bound N p q (365 / 10) 21 13 HN ltac:(lia) ltac:(lra) ltac:(replace (INR 21) with 21 by (rewrite INR_IZR_INZ; reflexivity); lra) ltac:(lra)) as G.
          replace (INR 13) with 13 in G by (rewrite INR_IZR_INZ; reflexivity).
          replace (21 * Z.to_nat (Thi N p q - Tlo p q) + (5 * Z.to_nat N + (21 * Z.to_nat N + 1) + 13))%nat
            with (21 * Z.to_nat (Thi N p q - Tlo p q) + (5 * Z.to_nat N + (21 * Z.to_nat N + 1) + 12) + 1)%nat in G by lia.
          eapply Rle_trans; [exact G|]. apply Rmult_le_compat_r; lra.
        * intros n64 nn Hnn Bnn. eapply Rle_trans; [apply (Y n64 nn Hnn Bnn)|]. apply Rplus_le_compat_r, Rmult_le_compat_r; [apply Rmult_le_pos; lra|].
          pose proof (g_bound N p q (365 / 10) 21 20 HN ltac:(lia) ltac:(lra) ltac:(replace (INR 21) with 21 by (rewrite INR_IZR_INZ; reflexivity); lra) ltac:(lra)) as G.
          replace (INR 20) with 20 in G by (rewrite INR_IZR_INZ; reflexivity).
          replace (21 * Z.to_nat (Thi N p q - Tlo p q) + (5 * Z.to_nat N + (21 * Z.to_nat N + 1) + 20))%nat
            with (21 * Z.to_nat (Thi N p q - Tlo p q) + (6 + (5 * Z.to_nat N + (21 * Z.to_nat N + 1) + 12) + 1) + 1)%nat in G by lia.
          eapply Rle_trans; [exact G|]. apply Rmult_le_compat_r; lra.
    - intros P2 HP2.
      assert (NA : Rabs (- al) <= PI) by (rewrite Rabs_Ropp; apply (proj1 Al)).
      assert (NP : Rabs (- pa - - al) <= 8 * u64) by (replace (- pa - - al) with (- (pa - al)) by ring; rewrite Rabs_Ropp; apply (proj2 Al)).
      destruct (ang_sum2 _ _ (- al) be (m + mp) (m - mp) N NA (proj1 Be) (ang_full (- pa) (- al) (m + mp) NA NP ltac:(lia))
        (ang_shift pb be (m - mp) (proj1 Be) (proj2 Be) ltac:(lia)) HK ltac:(lia)) as [T1 T2].
      destruct (EB c (sgn (Z.max 0 (mp - m))) _ _ (37 * Z.to_nat N + 1)%nat P2 (Dm N p q (Cconj a) (- b)%C) RC (Rabs_sgn _) ltac:(lia) T1 T2 HP2) as [X _].
      + intros S HS. rewrite conj_polar, opp_polar.
        rewrite <- (Cmult_1_l (Dm _ _ _ _ _)). rewrite (TV (- al) (be + PI) 1 S Rabs_R1 HS). rewrite Rmult_1_r. reflexivity.
      + eapply Rle_trans; [exact X|]. apply Rplus_le_compat_r, Rmult_le_compat_r; auto.
        pose proof (g_bound N p q (525 / 10) 37 13 HN ltac:(lia) ltac:(lra) ltac:(replace (INR 37) with 37 by (rewrite INR_IZR_INZ; reflexivity); lra) ltac:(lra)) as G.
        replace (INR 13) with 13 in G by (rewrite INR_IZR_INZ; reflexivity).
        replace (21 * Z.to_nat (Thi N p q - Tlo p q) + (5 * Z.to_nat N + (37 * Z.to_nat N + 1) + 13))%nat
          with (21 * Z.to_nat (Thi N p q - Tlo p q) + (5 * Z.to_nat N + (37 * Z.to_nat N + 1) + 12) + 1)%nat in G by lia.
        eapply Rle_trans; [exact G|]. apply Rmult_le_compat_r; lra.
  Qed.
  Lemma int_lt64 : ha <= hb ->
    exists c S64, coeff64 (2 * ell) (2 * - mp) (2 * m) = Ok c
      /\ for_down (Z.min (ell - mp) (ell - m)) (Z.max 0 (- mp - m)) (sum_step64 (ratio64 ha hb) (ell - mp + 1) (ell - m + 1) (m + mp)) 1 = Ok S64
      /\ row_good S64 (radius64 lib c hb ha (2 * ell - m - mp - 2 * Z.max 0 (- mp - m)) (m + mp + 2 * Z.max 0 (- mp - m))) (sgn (ell + m + Z.max 0 (- mp - m)))
           (RN64 (RN64 (pb * int64 (m - mp)) + RN64 (pa * int64 (m + mp))))
           (RN64 (RN64 (RN64 (pb + pi64) * int64 (m - mp)) - RN64 (pa * int64 (m + mp)))).
  Proof.
    intros Hle. pose proof p16 as P16. pose proof HN'' as HN. pose proof Hp'' as Hp. pose proof Hq'' as Hq. pose proof u64_pos as Up.
    assert (HP : (0 <= N - p <= N)%Z) by lia. set (P := (N - p)%Z) in *.
    destruct (coeff64_ok N P q HN HP Hq) as (c & EC & RC).
    replace (2 * P - N)%Z with (2 * - mp)%Z in EC by (unfold P, p, N; lia). replace (2 * q - N)%Z with (2 * m)%Z in EC by (unfold q, N; lia).
    unfold N in EC. exists c.
    destruct (core_any lib N P q rb ra hb ha GL HN HP Hq Bb Ba Rb Ra Hle) as (S64 & ES & EB). exists S64. split; [exact EC|].
    assert (TL : Tlo P q = Z.max 0 (- mp - m)) by (unfold Tlo, P, N, p, q; lia).
    assert (TH : Thi N P q = Z.min (ell - mp) (ell - m)) by (unfold Thi, P, N, p, q; lia).
    rewrite <- for_down_loop in ES. rewrite TL, TH in ES.
    replace (P + 1)%Z with (ell - mp + 1)%Z in ES by (unfold P, N, p; lia). replace (N - q + 1)%Z with (ell - m + 1)%Z in ES by (unfold N, q; lia).
    replace (q - P)%Z with (m + mp)%Z in ES by (unfold P, N, p, q; lia). split; [exact ES|].
    pose proof (KL N p q Hp Hq) as HK. replace (p + q - N)%Z with (m + mp)%Z in HK by (unfold p, q, N; lia). replace (q - p)%Z with (m - mp)%Z in HK by (unfold p, q; lia).
    replace (P + (N - q) - 2 * Tlo P q)%Z with (2 * ell - m - mp - 2 * Z.max 0 (- mp - m))%Z in EB by (rewrite TL; unfold P, p, q, N; lia).
    replace (q - P + 2 * Tlo P q)%Z with (m + mp + 2 * Z.max 0 (- mp - m))%Z in EB by (rewrite TL; unfold P, N, p, q; lia).
    set (e1 := (2 * ell - m - mp - 2 * Z.max 0 (- mp - m))%Z) in *. set (e2 := (m + mp + 2 * Z.max 0 (- mp - m))%Z) in *.
    assert (TV : forall al' be' e S, Rabs e = 1 ->
       Tt N P q (- ra * ra / (rb * rb)) (Tlo P q) * S = rsum (Tlo P q) (Thi N P q) (Tt N P q (- ra * ra / (rb * rb))) ->
       (RtoC e * Dm N p q (RtoC ra * cis al') (RtoC rb * cis be'))%C
       = (RtoC (coeff N P q * powerRZ rb e1 * powerRZ ra e2 * (sgn (ell + m + Z.max 0 (- mp - m)) * e) * S) * cis (al' * IZR (m + mp) + be' * IZR (m - mp)))%C).
    { intros al' be' e S He HS. rewrite (Dm_lt_polar N p q ra rb al' be' S Hp Hq) by (auto; lra). unfold P. rewrite coeff_flip by auto. fold P.
      rewrite TL. replace (P + (N - q) - 2 * Z.max 0 (- mp - m))%Z with e1 by (unfold e1, P, p, q, N; lia).
      replace (q - P + 2 * Z.max 0 (- mp - m))%Z with e2 by (unfold e2, P, N, p, q; lia).
      replace (p + q - N)%Z with (m + mp)%Z by (unfold p, q, N; lia). replace (q - p)%Z with (m - mp)%Z by (unfold p, q; lia).
      replace (ell + m + Z.max 0 (- mp - m))%Z with (N - q - Z.max 0 (- mp - m) + 2 * (m + Z.max 0 (- mp - m)))%Z by (unfold N, q; lia).
      rewrite sgn_add, sgn_double, Rmult_1_r, !RtoC_mult. ring. }
    pose proof W_nonneg as W0. unfold isize in W0. fold N p q in W0.
    assert (WF : Wsize N P q rb ra = Wsize N p q ra rb) by (apply Wsize_flip; auto). rewrite WF in EB.
    assert (IN : IZR N = 2 * IZR ell) by (unfold N; rewrite mult_IZR; ring).
    unfold row_good, isize, Dv. fold N p q. split.
    - intros e P1 He HP1.
      destruct (ang_sum _ _ be al (m - mp) (m + mp) N (ang_whole pb be (m - mp) (proj1 Be) (proj2 Be) ltac:(lia))
        (ang_whole pa al (m + mp) (proj1 Al) (proj2 Al) ltac:(lia)) (proj1 Be) (proj1 Al) ltac:(lia) ltac:(lia)) as [T1 T2].
      rewrite (Rplus_comm (be * _)) in T1.
      assert (SG : Rabs (sgn (ell + m + Z.max 0 (- mp - m)) * e) = 1) by (rewrite Rabs_mult, Rabs_sgn, He; ring).
      destruct (EB c (sgn (ell + m + Z.max 0 (- mp - m)) * e) _ _ (21 * Z.to_nat N + 1)%nat P1 (RtoC e * Dm N p q a b)%C RC SG ltac:(lia) T1 T2 HP1) as [X Y].
      + intros S HS. unfold a, b. apply TV; auto.
      + split.
        * eapply Rle_trans; [exact X|]. apply Rplus_le_compat_r, Rmult_le_compat_r; auto.
          pose proof (g_bound N P q (365 / 10) 21 13 HN ltac:(lia) ltac:(lra) ltac:(replace (INR 21) with 21 by (rewrite INR_IZR_INZ; reflexivity); lra) ltac:(lra)) as G.
          replace (INR 13) with 13 in G by (rewrite INR_IZR_INZ; reflexivity).
          replace (21 * Z.to_nat (Thi N P q - Tlo P q) + (5 * Z.to_nat N + (21 * Z.to_nat N + 1) + 13))%nat
            with (21 * Z.to_nat (Thi N P q - Tlo P q) + (5 * Z.to_nat N + (21 * Z.to_nat N + 1) + 12) + 1)%nat in G by lia.
          eapply Rle_trans; [exact G|]. apply Rmult_le_compat_r; lra.
        * intros n64 nn Hnn Bnn. eapply Rle_trans; [apply (Y n64 nn Hnn Bnn)|]. apply Rplus_le_compat_r, Rmult_le_compat_r; [apply Rmult_le_pos; lra|].
          pose proof (g_bound N P q (365 / 10) 21 20 HN ltac:(lia) ltac:(lra) ltac:(replace (INR 21) with 21 by (rewrite INR_IZR_INZ; reflexivity); lra) ltac:(lra)) as G.
          replace (INR 20) with 20 in G by (rewrite INR_IZR_INZ; reflexivity).
          replace (21 * Z.to_nat (Thi N P q - Tlo P q) + (5 * Z.to_nat N + (21 * Z.to_nat N + 1) + 20))%nat
            with (21 * Z.to_nat (Thi N P q - Tlo P q) + (6 + (5 * Z.to_nat N + (21 * Z.to_nat N + 1) + 12) + 1) + 1)%nat in G by lia.
          eapply Rle_trans; [exact G|]. apply Rmult_le_compat_r; lra.
    - intros P2 HP2.
      assert (NA : Rabs (- al) <= PI) by (rewrite Rabs_Ropp; apply (proj1 Al)).
      assert (NP : Rabs (- pa - - al) <= 8 * u64) by (replace (- pa - - al) with (- (pa - al)) by ring; rewrite Rabs_Ropp; apply (proj2 Al)).
      destruct (ang_sum2 _ _ (- al) be (m + mp) (m - mp) N NA (proj1 Be) (ang_full (- pa) (- al) (m + mp) NA NP ltac:(lia))
        (ang_shift pb be (m - mp) (proj1 Be) (proj2 Be) ltac:(lia)) HK ltac:(lia)) as [T1 T2].
      rewrite (Rplus_comm (RN64 (- pa * _))), Ropp_mult_distr_l_reverse, RN64_opp in T1, T2.
      destruct (EB c (sgn (ell + m + Z.max 0 (- mp - m))) _ _ (37 * Z.to_nat N + 1)%nat P2 (Dm N p q (Cconj a) (- b)%C) RC (Rabs_sgn _) ltac:(lia) T1 T2 HP2) as [X _].
      + intros S HS. rewrite conj_polar, opp_polar.
        rewrite <- (Cmult_1_l (Dm _ _ _ _ _)). rewrite (TV (- al) (be + PI) 1 S Rabs_R1 HS). rewrite Rmult_1_r. reflexivity.
      + eapply Rle_trans; [exact X|]. apply Rplus_le_compat_r, Rmult_le_compat_r; auto.
        pose proof (g_bound N P q (525 / 10) 37 13 HN ltac:(lia) ltac:(lra) ltac:(replace (INR 37) with 37 by (rewrite INR_IZR_INZ; reflexivity); lra) ltac:(lra)) as G.
        replace (INR 13) with 13 in G by (rewrite INR_IZR_INZ; reflexivity).
        replace (21 * Z.to_nat (Thi N P q - Tlo P q) + (5 * Z.to_nat N + (37 * Z.to_nat N + 1) + 13))%nat
          with (21 * Z.to_nat (Thi N P q - Tlo P q) + (5 * Z.to_nat N + (37 * Z.to_nat N + 1) + 12) + 1)%nat in G by lia.
        eapply Rle_trans; [exact G|]. apply Rmult_le_compat_r; lra.
  Qed.
End IntRows.
