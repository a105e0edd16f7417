(** Rounding errors of the D and SWSH evaluators: the rows. *)
Require Import ZArith Lia Reals Lra Bool.
From Flocq Require Import Core.
From Coquelicot Require Import Complex.
From Verif Require Import Base BaseProofs CBase Fact RSum CSum SymPow WignerSpec DRep IndexModel FloatIndexModel FloatIndexProofs FloatPowersModel
  FloatPowersSpec FloatPowersProofs FloatConvModel FloatConvSpec FloatConvProofs WignerModel WignerProofs WignerProofs2 SWSHModel SWSHProofs
  FloatWignerModel FloatWignerSpec FloatWignerProofs FloatWignerProofs2 FloatWignerProofs3.
Set Bullet Behavior "Strict Subproofs".
Open Scope R_scope.

Lemma RN64_halfint k : (Z.abs k < 2 ^ 40)%Z -> RN64 (IZR k / 2) = IZR k / 2.
Proof.
  intros Hk. unfold RN64. apply round_generic; [apply valid_rnd_N|].
  apply generic_format_FLT. apply (FLT_spec radix2 (-1074) 53 (IZR k / 2) (Float radix2 k (-1))).
  - unfold F2R. cbn [Fnum Fexp]. change (bpow radix2 (-1)) with (/ 2). reflexivity.
  - simpl. lia.
  - simpl. lia.
Qed.
Lemma int64_exact k : (Z.abs k < 2 ^ 40)%Z -> int64 k = IZR k.
Proof. intros. unfold int64. apply RN64_int. lia. Qed.
Lemma cscale64_0 r : cscale64 r (RtoC 0) = RtoC 0.
Proof. unfold cscale64. simpl. rewrite Rmult_0_r, RN64_zero. reflexivity. Qed.
Lemma Rabs_sgn k : Rabs (sgn k) = 1.
Proof. unfold sgn. destruct (Z.even k); [apply Rabs_R1|rewrite Rabs_left; lra]. Qed.

Section Core.
  Variables (lib : libm) (N P q : Z) (r1 r2 h1 h2 : R).
  Hypothesis GL : good_libm lib.
  Hypothesis HN : (0 <= N <= 64)%Z.
  Hypothesis HP : (0 <= P <= N)%Z.
  Hypothesis Hq : (0 <= q <= N)%Z.
  Hypothesis B1 : / 10 ^ 16 <= r1 <= 3 / 2.
  Hypothesis B2 : / 10 ^ 16 <= r2 <= 3 / 2.
  Hypothesis R1 : rel 3 h1 r1.
  Hypothesis R2 : rel 3 h2 r2.
  Hypothesis Hle : h2 <= h1.
  Let lo := Tlo P q.
  Let hi := Thi N P q.
  Let e1 := (P + (N - q) - 2 * lo)%Z.
  Let e2 := (q - P + 2 * lo)%Z.
  Let d := coeff N P q * powerRZ r1 e1 * powerRZ r2 e2.
  Let n := Z.to_nat (hi - lo).

  Lemma d_bounds : 0 <= d <= 2 ^ 256.
  Proof.
    pose proof (T_lo_le N P q HP Hq) as HL. pose proof p16. pose proof (coeff_bound N P q HP Hq ltac:(lia)) as BC.
    assert (He1 : (0 <= e1 <= 64)%Z) by (unfold e1, lo, Tlo; lia). assert (He2 : (0 <= e2 <= 64)%Z) by (unfold e2, lo, Tlo; lia).
    destruct GL as (_ & Gp & _).
    destruct (pow_near _ h1 r1 e1 Gp R1 B1 He1) as [_ P1]. destruct (pow_near _ h2 r2 e2 Gp R2 B2 He2) as [_ P2].
    assert (Q1 : 0 < powerRZ r1 e1) by (apply powerRZ_lt; lra). assert (Q2 : 0 < powerRZ r2 e2) by (apply powerRZ_lt; lra).
    rewrite Rabs_pos_eq in P1, P2 by lra. unfold d. split.
    - apply Rmult_le_pos; [apply Rmult_le_pos|]; lra.
    - replace (2 ^ 256) with (2 ^ 128 * 2 ^ 64 * 2 ^ 64) by (rewrite <- !pow_add; reflexivity).
      apply Rmult_le_compat; try lra; [apply Rmult_le_pos; lra|]. apply Rmult_le_compat; lra.
  Qed.
  Lemma pref_near c64 th64 th : rel 2 c64 (coeff N P q) ->
    Rabs (th64 - th) <= INR (21 * Z.to_nat N + 1) * u64 -> Rabs th64 <= 1000 ->
    Cmod (lib_rect lib (RN64 (RN64 (c64 * lib_pow lib h1 (IZR e1)) * lib_pow lib h2 (IZR e2))) th64 - RtoC d * cis th)%C
      <= g (26 * Z.to_nat N + 13) * d + / 2 ^ 850.
  Proof.
    intros Hc Ht Bt. pose proof (T_lo_le N P q HP Hq) as HL. pose proof (coeff_bound N P q HP Hq ltac:(lia)) as BC.
    assert (He1 : (0 <= e1 <= 64)%Z) by (unfold e1, lo, Tlo; lia). assert (He2 : (0 <= e2 <= 64)%Z) by (unfold e2, lo, Tlo; lia).
    pose proof d_bounds as DB. destruct GL as (_ & Gp & Gr).
    destruct (pow_near _ h1 r1 e1 Gp R1 B1 He1) as [K1 P1]. destruct (pow_near _ h2 r2 e2 Gp R2 B2 He2) as [K2 P2].
    pose proof (radius_near c64 _ _ _ _ _ _ _ Hc BC K1 K2 P1 P2 ltac:(lia) ltac:(lia)) as D1. fold d in D1.
    pose proof (rect_near _ _ _ th64 th _ (21 * Z.to_nat N + 1) Gr D1 DB ltac:(lia) ltac:(lia) Ht Bt) as E.
    replace (26 * Z.to_nat N + 13)%nat with (5 * Z.to_nat e1 + 2 + (5 * Z.to_nat e2 + 2) + 4 + (21 * Z.to_nat N + 1) + 4)%nat; auto.
    unfold e1, e2 in *. lia.
  Qed.

  (** One row of the D evaluators: [P64] the prefactor with its sign, [sg] the sign *)
  Lemma row_D (sg th64 th c64 : R) (V : C) : rel 2 c64 (coeff N P q) -> Rabs sg = 1 ->
    Rabs (th64 - th) <= INR (21 * Z.to_nat N + 1) * u64 -> Rabs th64 <= 1000 ->
    (forall S, Tt N P q (- r2 * r2 / (r1 * r1)) lo * S = rsum lo hi (Tt N P q (- r2 * r2 / (r1 * r1))) ->
       V = (RtoC (d * sg * S) * cis th)%C) ->
    forall z, (1 <= z <= 2)%Z ->
    let P64 := lib_rect lib (RN64 (RN64 (c64 * lib_pow lib h1 (IZR e1)) * lib_pow lib h2 (IZR e2))) th64 in
    exists S64, for_loop n (z * hi) (- z) (sum_step64 (ratio64 h2 h1) (z * (P + 1)) (z * (N - q + 1)) (z * (q - P))) 1 = Ok S64
      /\ Cmod (cscale64 S64 (RtoC sg * P64) - V)%C <= (37 * IZR N + 15) * u64 * Wsize N P q r1 r2 + / 2 ^ 600
      /\ forall n64 nn, rel 6 n64 nn -> 0 <= nn <= 4 ->
         Cmod (cscale64 S64 (cscale64 n64 (RtoC sg * P64)) - RtoC nn * V)%C <= (37 * IZR N + 22) * u64 * (nn * Wsize N P q r1 r2) + / 2 ^ 600.
  Proof.
    intros Hc Hsg Ht Bt HV z Hz P64. pose proof d_bounds as DB. pose proof u64_pos as U.
    destruct (loop_err N P q r1 r2 h1 h2 HN HP Hq B1 B2 R1 R2 Hle z Hz) as (S & A & S64 & E1 & E2 & E3 & F1 & F2 & F3).
    exists S64. split; [exact E1|].
    pose proof p16. rewrite (HV S E2).
    rewrite (Wsize_main N P q r1 r2 A HP Hq ltac:(lra) ltac:(lra) E3). fold (coeff N P q). fold lo. fold e1 e2. fold d.
    pose proof (pref_near c64 th64 th Hc Ht Bt) as PN. fold P64 in PN.
    assert (PN' : Cmod (RtoC sg * P64 - RtoC (d * sg) * cis th)%C <= g (26 * Z.to_nat N + 13) * d + / 2 ^ 850).
    { replace (RtoC sg * P64 - RtoC (d * sg) * cis th)%C with (RtoC sg * (P64 - RtoC d * cis th))%C by (rewrite RtoC_mult; ring).
      rewrite Cmod_mult, Cmod_R, Hsg, Rmult_1_l. auto. }
    assert (MP : Cmod (RtoC (d * sg) * cis th)%C <= d).
    { rewrite Cmod_mult, Cmod_R, Cmod_cis, Rabs_mult, Hsg, Rabs_pos_eq; lra. }
    assert (S850 : 0 < / 2 ^ 850 <= / 2 ^ 840).
    { split; [apply Rinv_0_lt_compat, pow_lt; lra|]. apply Rinv_le_contravar; [apply pow_lt; lra|]. apply Rle_pow; [lra|lia]. }
    pose proof (n_half N P q) as Hn. fold lo hi in Hn. fold n in Hn. change (Z.to_nat (Thi N P q - Tlo P q)) with n in F3.
    assert (DA : 0 <= d * A) by (apply Rmult_le_pos; lra).
    assert (GB' : forall k m : nat, (2 * k <= 73 * Z.to_nat N + 2 * m)%nat -> (m <= 21)%nat -> g k <= (37 * IZR N + (INR m + 1)) * u64).
    { intros k m Hk Hm. pose proof (g_small k ltac:(lia)) as G. assert (INR (2 * k) <= INR (73 * Z.to_nat N + 2 * m)) as I by (apply le_INR; auto).
      rewrite plus_INR, !mult_INR, INR_to_nat in I by lia.
      replace (INR 73) with 73 in I by (rewrite INR_IZR_INZ; reflexivity). simpl (INR 2) in I.
      assert (INR m <= 21). { replace 21 with (INR 21) by (rewrite INR_IZR_INZ; reflexivity). apply le_INR; auto. }
      assert (0 <= IZR N <= 64) by (split; [apply (IZR_le 0)|apply (IZR_le _ 64)]; lia).
      eapply Rle_trans; [exact G|]. apply Rmult_le_compat_r; lra. }
    split.
    - pose proof (sum_near S64 S A (21 * n) _ _ d _ (/ 2 ^ 850) F3 F1 F2 MP ltac:(lra) PN' ltac:(lra) ltac:(lia) ltac:(lia)) as X.
      replace (RtoC (d * sg * S) * cis th)%C with (RtoC S * (RtoC (d * sg) * cis th))%C by (rewrite !RtoC_mult; ring).
      eapply Rle_trans; [exact X|]. apply Rplus_le_compat_r. apply Rmult_le_compat_r; auto.
      pose proof (GB' (21 * n + (26 * Z.to_nat N + 13) + 1)%nat 14%nat ltac:(lia) ltac:(lia)) as G.
      replace (INR 14) with 14 in G by (rewrite INR_IZR_INZ; reflexivity). lra.
    - intros n64 nn Hnn Bnn.
      pose proof (scale_near n64 nn 6 _ _ d _ (/ 2 ^ 850) Hnn ltac:(rewrite Rabs_pos_eq; lra) MP PN' ltac:(lra) ltac:(lia) ltac:(lia)) as X.
      rewrite (Rabs_pos_eq nn) in X by lra.
      destruct E8_bounds as (Z0 & Z1 & Z2 & Z3).
      assert (SL : 0 <= 10 * / 2 ^ 850 + 2 * eta <= / 2 ^ 840).
      { pose proof eta_pos. split; [lra|].
        assert (/ 2 ^ 1000 <= / 2 ^ 850) by (apply Rinv_le_contravar; [apply pow_lt; lra|]; apply Rle_pow; [lra|lia]).
        assert (/ 2 ^ 840 = 1024 * / 2 ^ 850).
        { replace (2 ^ 850) with (1024 * 2 ^ 840) by (simpl; ring). rewrite Rinv_mult. lra. }
        lra. }
      assert (MP' : Cmod (RtoC nn * (RtoC (d * sg) * cis th))%C <= nn * d).
      { rewrite Cmod_mult, Cmod_R, Rabs_pos_eq by lra. apply Rmult_le_compat_l; lra. }
      assert (ND : 0 <= nn * d) by (apply Rmult_le_pos; lra).
      rewrite Rplus_assoc in X.
      pose proof (sum_near S64 S A (21 * n) _ _ (nn * d) _ _ F3 F1 F2 MP' ND X SL ltac:(lia) ltac:(lia)) as Y.
      replace (RtoC nn * (RtoC (d * sg * S) * cis th))%C with (RtoC S * (RtoC nn * (RtoC (d * sg) * cis th)))%C by (rewrite !RtoC_mult; ring).
      eapply Rle_trans; [exact Y|]. apply Rplus_le_compat_r. rewrite Rmult_assoc. apply Rmult_le_compat_r; [apply Rmult_le_pos; lra|].
      pose proof (GB' (21 * n + (6 + (26 * Z.to_nat N + 13) + 1) + 1)%nat 21%nat ltac:(lia) ltac:(lia)) as G.
      replace (INR 21) with 21 in G by (rewrite INR_IZR_INZ; reflexivity). lra.
  Qed.
End Core.

Lemma for_down2_loop {T} hi lo (b : Z -> T -> res T) s : for_down2 (2 * hi) (2 * lo) b s = for_loop (Z.to_nat (hi - lo)) (2 * hi) (- (2)) b s.
Proof.
  unfold for_down2. replace (Z.to_nat ((2 * hi - 2 * lo + 1) / 2)) with (Z.to_nat (hi - lo)); auto.
  f_equal. replace (2 * hi - 2 * lo + 1)%Z with (1 + (hi - lo) * 2)%Z by lia. rewrite Z.div_add by lia. reflexivity.
Qed.
Lemma for_down_loop hi lo x a b c s : for_down hi lo (sum_step64 x a b c) s
  = for_loop (Z.to_nat (hi - lo)) (1 * hi) (- (1)) (sum_step64 x (1 * a) (1 * b) (1 * c)) s.
Proof. unfold for_down. rewrite !Z.mul_1_l. reflexivity. Qed.

(** [cmath.polar] of a part that the code does not treat as zero *)
Lemma polar_rel polar z h ph : good_polar polar -> polar z = (h, ph) -> Cmod z <= 3 / 2 -> RN64 epsilon < h ->
  rel 3 h (Cmod z) /\ / 10 ^ 16 <= Cmod z <= 3 / 2
  /\ exists phi, z = (RtoC (Cmod z) * cis phi)%C /\ Rabs phi <= PI /\ Rabs (ph - phi) <= 8 * u64.
Proof.
  intros G E B Hh. destruct (G z ltac:(lra)) as (G1 & G2). rewrite E in G1, G2. cbn [fst snd] in G1, G2.
  pose proof u64_pos as U. pose proof eta_pos. pose proof eta_small as Es. rewrite tiny_eta in G1.
  assert (Ep : 9 / 10 * / 10 ^ 15 <= RN64 epsilon).
  { unfold epsilon. pose proof (RN64_err (/ 10 ^ 15)) as R0. assert (P15 : 0 < / 10 ^ 15) by (apply Rinv_0_lt_compat, pow_lt; lra).
    rewrite (Rabs_pos_eq (/ 10 ^ 15)) in R0 by lra. apply Rabs_le_inv in R0.
    assert (u64 * / 10 ^ 15 <= / 100 * / 10 ^ 15) by (apply Rmult_le_compat_r; lra).
    assert (eta <= / 100 * / 10 ^ 15).
    { eapply Rle_trans; [exact Es|]. apply Rle_trans with (/ 1000000000000 / 10 ^ 20); [apply Rmult_le_compat_r; [|lra]; simpl; lra|]. simpl; lra. }
    lra. }
  apply Rabs_le_inv in G1. pose proof (Cmod_ge_0 z) as C0.
  assert (P16 : / 10 ^ 15 = 10 * / 10 ^ 16) by (simpl; field).
  pose proof p16.
  assert (Es' : eta <= u64 * / 10 ^ 20) by (unfold Rdiv in Es; lra).
  assert (Lz : / 10 ^ 16 <= Cmod z).
  { assert (u64 * Cmod z <= / 1000 * Cmod z) by (apply Rmult_le_compat_r; lra).
    assert (u64 * / 10 ^ 20 <= 1 * / 10 ^ 20) by (apply Rmult_le_compat_r; [|lra]; simpl; lra).
    assert (/ 10 ^ 20 <= / 100 * / 10 ^ 16) by (simpl; lra). lra. }
  split; [|split; [lra|exact G2]].
  unfold rel, near. rewrite Rplus_0_r, (Rabs_pos_eq (Cmod z)) by lra.
  assert (eta <= u64 * (/ 10 * Cmod z)).
  { eapply Rle_trans; [exact Es'|]. apply Rmult_le_compat_l; [lra|]. assert (/ 10 ^ 20 <= / 10 * / 10 ^ 16) by (simpl; lra). lra. }
  apply Rle_trans with (INR 3 * u64 * Cmod z); [|apply Rmult_le_compat_r; [lra|apply g_ge]].
  replace (INR 3) with 3 by (rewrite INR_IZR_INZ; reflexivity). apply Rabs_le.
  assert (0 <= u64 * Cmod z) by (apply Rmult_le_pos; lra). lra.
Qed.

Section Rows.
  Variables (lib : libm) (N p q : Z) (ra rb al be ha hb pa pb : R).
  Let a := (RtoC ra * cis al)%C.
  Let b := (RtoC rb * cis be)%C.
  Hypothesis GL : good_libm lib.
  Hypothesis HN : (0 <= N <= 64)%Z.
  Hypothesis Hp : (0 <= p <= N)%Z.
  Hypothesis Hq : (0 <= q <= N)%Z.
  Hypothesis Ba : / 10 ^ 16 <= ra <= 3 / 2.
  Hypothesis Bb : / 10 ^ 16 <= rb <= 3 / 2.
  Hypothesis Ra : rel 3 ha ra.
  Hypothesis Rb : rel 3 hb rb.
  Hypothesis Al : Rabs al <= PI /\ Rabs (pa - al) <= 8 * u64.
  Hypothesis Be : Rabs be <= PI /\ Rabs (pb - be) <= 8 * u64.
  Let th := al * IZR (p + q - N) + be * IZR (q - p).

  Lemma KL : (Z.abs (p + q - N) + Z.abs (q - p) <= N)%Z.
  Proof. lia. Qed.

  Lemma halves (x y : Z) (v w : R) : v = IZR x / 2 -> w = IZR y / 2 -> (Z.abs x < 2 ^ 30)%Z -> (Z.abs y < 2 ^ 30)%Z ->
    RN64 (v + w) = IZR (x + y) / 2 /\ RN64 (v - w) = IZR (x - y) / 2.
  Proof.
    intros -> -> Hx Hy. rewrite <- (RN64_halfint (x + y)), <- (RN64_halfint (x - y)) by lia. rewrite plus_IZR, minus_IZR. split; f_equal; field.
  Qed.

  Lemma D_ge64_ok : hb <= ha ->
    exists v, D_elem_ge64 lib ha hb pa pb (N, 2 * p - N, 2 * q - N)%Z = Ok v
      /\ Cmod (v - Dm N p q a b)%C <= (37 * IZR N + 15) * u64 * Wsize N p q ra rb + / 2 ^ 600.
  Proof.
    intros Hle. pose proof p16. pose proof (T_lo_le N p q Hp Hq) as HL. unfold D_elem_ge64. rewrite abs_tests by auto.
    destruct (coeff64_ok N p q HN Hp Hq) as (c & EC & RC). rewrite EC. cbn [bind].
    replace (Z.max 0 (2 * p - N - (2 * q - N)))%Z with (2 * Tlo p q)%Z by (unfold Tlo; lia).
    replace (Z.min (N + (2 * p - N)) (N - (2 * q - N)))%Z with (2 * Thi N p q)%Z by (unfold Thi; lia).
    replace (N + (2 * p - N) + 2)%Z with (2 * (p + 1))%Z by lia.
    replace (N - (2 * q - N) + 2)%Z with (2 * (N - q + 1))%Z by lia.
    replace (2 * q - N - (2 * p - N))%Z with (2 * (q - p))%Z by lia.
    replace (2 * q - N + (2 * p - N))%Z with (2 * (p + q - N))%Z by lia.
    rewrite for_down2_loop, mod4_even.
    assert (LB : (0 <= Tlo p q <= 64)%Z) by (unfold Tlo, Thi in *; lia).
    assert (Hh : RN64 (int64 (2 * q - N) / 2) = IZR (2 * q - N) / 2) by (rewrite int64_exact by lia; apply RN64_halfint; lia).
    assert (Hh' : RN64 (int64 (2 * p - N) / 2) = IZR (2 * p - N) / 2) by (rewrite int64_exact by lia; apply RN64_halfint; lia).
    assert (X1 : RN64 (RN64 (RN64 (int64 N - RN64 (int64 (2 * q - N) / 2)) + RN64 (int64 (2 * p - N) / 2)) - int64 (2 * Tlo p q))
        = IZR (p + (N - q) - 2 * Tlo p q)).
    { rewrite Hh, Hh', !int64_exact by lia.
      destruct (halves (2 * N) (2 * q - N) (IZR N) (IZR (2 * q - N) / 2)) as [_ A1]; try lia; auto; [rewrite mult_IZR; field|]. rewrite A1.
      destruct (halves (2 * N - (2 * q - N)) (2 * p - N) _ _ eq_refl eq_refl) as [A2 _]; try lia. rewrite A2.
      destruct (halves (2 * N - (2 * q - N) + (2 * p - N)) (2 * (2 * Tlo p q)) _ (IZR (2 * Tlo p q)) eq_refl) as [_ A3]; try lia; [rewrite (mult_IZR 2 (2 * _)); field|].
      rewrite A3. replace (2 * N - (2 * q - N) + (2 * p - N) - 2 * (2 * Tlo p q))%Z with (2 * (p + (N - q) - 2 * Tlo p q))%Z by lia. rewrite mult_IZR. field. }
    assert (X2 : RN64 (RN64 (RN64 (int64 (2 * q - N) / 2) - RN64 (int64 (2 * p - N) / 2)) + int64 (2 * Tlo p q)) = IZR (q - p + 2 * Tlo p q)).
    { rewrite Hh, Hh', !int64_exact by lia.
      destruct (halves (2 * q - N) (2 * p - N) _ _ eq_refl eq_refl) as [_ A2]; try lia. rewrite A2.
      destruct (halves (2 * q - N - (2 * p - N)) (2 * (2 * Tlo p q)) _ (IZR (2 * Tlo p q)) eq_refl) as [A3 _]; try lia; [rewrite (mult_IZR 2 (2 * _)); field|].
      rewrite A3. replace (2 * q - N - (2 * p - N) + 2 * (2 * Tlo p q))%Z with (2 * (q - p + 2 * Tlo p q))%Z by lia. rewrite mult_IZR. field. }
    rewrite X1, X2.
    destruct (ang_sum _ _ al be (p + q - N) (q - p) N (ang_half pa al (p + q - N) (proj1 Al) (proj2 Al) ltac:(lia))
      (ang_half pb be (q - p) (proj1 Be) (proj2 Be) ltac:(lia)) (proj1 Al) (proj1 Be) KL ltac:(lia)) as [T1 T2]. fold th in T1.
    destruct (row_D lib N p q ra rb ha hb GL HN Hp Hq Ba Bb Ra Rb Hle (sgn (Tlo p q)) _ th c (Dm N p q a b) RC (Rabs_sgn _) T1 T2)
      with (z := 2%Z) as (S64 & ES & EB & _); [|lia|].
    { intros S HS. unfold a, b. rewrite (Dm_ge_polar N p q ra rb al be S Hp Hq) by (auto; lra). reflexivity. }
    rewrite ES. cbn [bind]. rewrite sgn_if.
    match goal with |- context [C_is_zero ?z] => destruct (C_is_zero z) eqn:EZ end.
    - apply C_is_zero_true in EZ. eexists. split; [reflexivity|]. rewrite EZ, Cmult_0_r, cscale64_0 in EB. exact EB.
    - eexists. split; [reflexivity|]. exact EB.
  Qed.

  Lemma coeff_flip : coeff N (N - p) q = sqrt (wt N q / wt N p) * bin (N - p) (Tlo (N - p) q) * bin p (N - q - Tlo (N - p) q).
  Proof. unfold coeff. rewrite wt_flip. replace (N - (N - p))%Z with p by lia. reflexivity. Qed.

  Lemma D_lt64_ok : ha <= hb ->
    exists v, D_elem_lt64 lib ha hb pa pb (N, 2 * p - N, 2 * q - N)%Z = Ok v
      /\ Cmod (v - Dm N p q a b)%C <= (37 * IZR N + 15) * u64 * Wsize N p q ra rb + / 2 ^ 600.
  Proof.
    intros Hle. pose proof p16. assert (Hp' : (0 <= N - p <= N)%Z) by lia.
    pose proof (T_lo_le N (N - p) q Hp' Hq) as HL. unfold D_elem_lt64. rewrite abs_tests by auto.
    replace (- (2 * p - N))%Z with (2 * (N - p) - N)%Z by lia.
    destruct (coeff64_ok N (N - p) q HN Hp' Hq) as (c & EC & RC). rewrite EC. cbn [bind].
    replace (Z.max 0 (2 * (N - p) - N - (2 * q - N)))%Z with (2 * Tlo (N - p) q)%Z by (unfold Tlo; lia).
    replace (Z.min (N - (2 * p - N)) (N - (2 * q - N)))%Z with (2 * Thi N (N - p) q)%Z by (unfold Thi; lia).
    replace (N - (2 * p - N) + 2)%Z with (2 * (N - p + 1))%Z by lia.
    replace (N - (2 * q - N) - 2 * Tlo (N - p) q)%Z with (2 * (N - q - Tlo (N - p) q))%Z by lia.
    replace (N - (2 * q - N) + 2)%Z with (2 * (N - q + 1))%Z by lia.
    replace (2 * q - N + (2 * p - N))%Z with (2 * (q - (N - p)))%Z by lia.
    replace (2 * q - N - (2 * p - N))%Z with (2 * (q - p))%Z by lia.
    rewrite for_down2_loop, mod4_even.
    assert (LB : (0 <= Tlo (N - p) q <= 64)%Z) by (unfold Tlo, Thi in *; lia).
    assert (Hh : RN64 (int64 (2 * (q - (N - p))) / 2) = IZR (2 * (q - (N - p))) / 2) by (rewrite int64_exact by lia; apply RN64_halfint; lia).
    assert (X1 : RN64 (RN64 (int64 N - RN64 (int64 (2 * (q - (N - p))) / 2)) - int64 (2 * Tlo (N - p) q)) = IZR (N - p + (N - q) - 2 * Tlo (N - p) q)).
    { rewrite Hh, !int64_exact by lia.
      destruct (halves (2 * N) (2 * (q - (N - p))) (IZR N) _ ltac:(rewrite mult_IZR; field) eq_refl) as [_ A1]; try lia. rewrite A1.
      destruct (halves (2 * N - 2 * (q - (N - p))) (2 * (2 * Tlo (N - p) q)) _ (IZR (2 * Tlo (N - p) q)) eq_refl) as [_ A3]; try lia; [rewrite (mult_IZR 2 (2 * _)); field|].
      rewrite A3. replace (2 * N - 2 * (q - (N - p)) - 2 * (2 * Tlo (N - p) q))%Z with (2 * (N - p + (N - q) - 2 * Tlo (N - p) q))%Z by lia. rewrite mult_IZR. field. }
    assert (X2 : RN64 (RN64 (int64 (2 * (q - (N - p))) / 2) + int64 (2 * Tlo (N - p) q)) = IZR (q - (N - p) + 2 * Tlo (N - p) q)).
    { rewrite Hh, !int64_exact by lia.
      destruct (halves (2 * (q - (N - p))) (2 * (2 * Tlo (N - p) q)) _ (IZR (2 * Tlo (N - p) q)) eq_refl) as [A3 _]; try lia; [rewrite (mult_IZR 2 (2 * _)); field|].
      rewrite A3. replace (2 * (q - (N - p)) + 2 * (2 * Tlo (N - p) q))%Z with (2 * (q - (N - p) + 2 * Tlo (N - p) q))%Z by lia. rewrite mult_IZR. field. }
    rewrite X1, X2.
    pose proof (ang_half pa al (p + q - N) (proj1 Al) (proj2 Al) ltac:(lia)) as AA.
    replace (2 * (p + q - N))%Z with (2 * (q - (N - p)))%Z in AA by lia.
    pose proof KL as HK. rewrite Z.add_comm in HK.
    destruct (ang_sum _ _ be al (q - p) (p + q - N) N (ang_half pb be (q - p) (proj1 Be) (proj2 Be) ltac:(lia)) AA (proj1 Be) (proj1 Al) HK ltac:(lia)) as [T1 T2].
    rewrite (Rplus_comm (be * _)) in T1. fold th in T1.
    destruct (row_D lib N (N - p) q rb ra hb ha GL HN Hp' Hq Bb Ba Rb Ra Hle (sgn (N - q - Tlo (N - p) q)) _ th c (Dm N p q a b) RC (Rabs_sgn _) T1 T2)
      with (z := 2%Z) as (S64 & ES & EB & _); [|lia|].
    { intros S HS. unfold a, b. rewrite (Dm_lt_polar N p q ra rb al be S Hp Hq) by (auto; lra). rewrite coeff_flip. reflexivity. }
    rewrite Wsize_flip in EB by auto. rewrite ES. cbn [bind]. rewrite sgn_if.
    match goal with |- context [C_is_zero ?z] => destruct (C_is_zero z) eqn:EZ end.
    - apply C_is_zero_true in EZ. eexists. split; [reflexivity|]. rewrite EZ, Cmult_0_r, cscale64_0 in EB. exact EB.
    - eexists. split; [reflexivity|]. exact EB.
  Qed.
End Rows.

(** ** The normalisation of SWSH *)
Lemma rel_sqrt k x y : rel k x y -> 0 < y -> (k <= 1000)%nat -> rel k (sqrt x) (sqrt y).
Proof.
  unfold rel, near. rewrite !Rplus_0_r. intros H Hy Hk. rewrite (Rabs_pos_eq y) in H by lra.
  assert (G : g k <= 1 / 1000) by (apply g_half; lia). pose proof (g_pos k).
  rewrite (Rabs_pos_eq (sqrt y)) by apply sqrt_pos. apply sqrt_pert; auto.
  apply Rabs_le_inv in H. assert (g k * y <= 1 / 1000 * y) by (apply Rmult_le_compat_r; lra). lra.
Qed.
Lemma norm64_ok ell : (0 <= ell <= 32)%Z -> rel 6 (swsh_norm64 ell) (swsh_norm ell) /\ 0 <= swsh_norm ell <= 4.
Proof.
  intros Hl. unfold swsh_norm64, swsh_norm. rewrite int64_exact by lia. pose proof PI_bounds as PB. pose proof u64_pos.
  assert (B : 1 <= IZR (2 * ell + 1) <= 65) by (split; [apply (IZR_le 1)|apply (IZR_le _ 65)]; lia).
  set (I := IZR (2 * ell + 1)) in *.
  assert (Low : forall x, / 100 <= x -> low <= Rabs x).
  { intros x Hx. rewrite Rabs_pos_eq by lra. apply low_le. assert (/ 2 ^ 500 <= / 2 ^ 7) by (apply Rinv_le_contravar; [apply pow_lt; lra|]; apply Rle_pow; [lra|lia]).
    simpl (2 ^ 7) in H0. lra. }
  assert (P1 : rel 2 pi64 PI).
  { unfold rel, near. rewrite Rplus_0_r, (Rabs_pos_eq PI) by lra. eapply Rle_trans; [apply pi64_err|].
    apply Rmult_le_compat_r; [lra|]. pose proof (g_ge 2) as G. simpl (INR 2) in G. lra. }
  assert (P2 : rel 3 (RN64 (4 * pi64)) (4 * PI)).
  { apply (rel_RN 2); [|lia|apply Low; lra]. apply (rel_mul 0 _ _ 2); auto using rel_refl. }
  assert (P3 : / 100 <= I / (4 * PI) <= 16).
  { split.
    - apply Rmult_le_reg_r with (4 * PI); [lra|]. unfold Rdiv. rewrite (Rmult_assoc I), Rinv_l, Rmult_1_r by lra. lra.
    - apply Rmult_le_reg_r with (4 * PI); [lra|]. unfold Rdiv. rewrite (Rmult_assoc I), Rinv_l, Rmult_1_r by lra. lra. }
  assert (P4 : rel 5 (RN64 (I / RN64 (4 * pi64))) (I / (4 * PI))).
  { apply (rel_RN 4); [|lia|apply Low; lra]. apply (rel_div 0 _ _ 3); auto using rel_refl; [lia|lra]. }
  assert (S0 : / 10 <= sqrt (I / (4 * PI)) <= 4).
  { split.
    - rewrite <- (sqrt_square (/ 10)) by lra. apply sqrt_le_1_alt. lra.
    - apply Rle_trans with (sqrt (4 * 4)); [apply sqrt_le_1_alt; lra|rewrite sqrt_square; lra]. }
  split; [|lra]. apply (rel_RN 5); [|lia|apply Low; lra]. apply rel_sqrt; auto; [lra|lia].
Qed.

Section SRows.
  Variables (lib : libm) (s ell m : Z) (ra rb al be ha hb pa pb : R).
  Let a := (RtoC ra * cis al)%C.
  Let b := (RtoC rb * cis be)%C.
  Hypothesis GL : good_libm lib.
  Hypothesis Hl : (ell <= 32)%Z.
  Hypothesis Hm : (- ell <= m <= ell)%Z.
  Hypothesis Hs : (- ell <= s <= ell)%Z.
  Hypothesis Ba : / 10 ^ 16 <= ra <= 3 / 2.
  Hypothesis Bb : / 10 ^ 16 <= rb <= 3 / 2.
  Hypothesis Ra : rel 3 ha ra.
  Hypothesis Rb : rel 3 hb rb.
  Hypothesis Al : Rabs al <= PI /\ Rabs (pa - al) <= 8 * u64.
  Hypothesis Be : Rabs be <= PI /\ Rabs (pb - be) <= 8 * u64.
  Let N := (2 * ell)%Z.
  Let p := (ell + m)%Z.
  Let q := (ell - s)%Z.
  Let th := al * IZR (p + q - N) + be * IZR (q - p).

  Lemma HN' : (0 <= N <= 64)%Z. Proof. unfold N. lia. Qed.
  Lemma Hp' : (0 <= p <= N)%Z. Proof. unfold N, p. lia. Qed.
  Lemma Hq' : (0 <= q <= N)%Z. Proof. unfold N, q. lia. Qed.

  Lemma S_ge64_ok : hb <= ha ->
    exists v, S_elem_ge64 lib ha hb pa pb s (ell, m) = Ok v
      /\ Cmod (v - RtoC (swsh_norm ell) * (RtoC (sgn s) * Dm N p q a b))%C
         <= (37 * IZR N + 22) * u64 * (swsh_norm ell * Wsize N p q ra rb) + / 2 ^ 600.
  Proof.
    intros Hle. pose proof p16. pose proof HN' as HN. pose proof Hp' as Hp. pose proof Hq' as Hq. pose proof (T_lo_le N p q Hp Hq) as HL.
    unfold S_elem_ge64. rewrite S_out_tests.
    replace ((Z.abs m <=? ell) && (Z.abs s <=? ell))%Z with true by (symmetry; apply andb_true_iff; split; apply Z.leb_le; lia). cbn [negb].
    destruct (coeff64_ok N p q HN Hp Hq) as (c & EC & RC).
    replace (2 * p - N)%Z with (2 * m)%Z in EC by (unfold p, N; lia). replace (2 * q - N)%Z with (2 * - s)%Z in EC by (unfold q, N; lia).
    unfold N in EC. rewrite EC. cbn [bind].
    replace (Z.max 0 (m + s))%Z with (Tlo p q) by (unfold Tlo, p, q; lia).
    replace (Z.min (ell + m) (ell + s))%Z with (Thi N p q) by (unfold Thi, N, p, q; lia).
    replace (ell + m + 1)%Z with (p + 1)%Z by (unfold p; lia).
    replace (ell + s + 1)%Z with (N - q + 1)%Z by (unfold N, q; lia).
    replace (2 * ell + s + m - 2 * Tlo p q)%Z with (p + (N - q) - 2 * Tlo p q)%Z by (unfold p, q, N; lia).
    replace (- s - m + 2 * Tlo p q)%Z with (q - p + 2 * Tlo p q)%Z by (unfold p, q; lia).
    replace (- s - m)%Z with (q - p)%Z by (unfold p, q; lia).
    replace (- s + m)%Z with (p + q - N)%Z by (unfold p, q, N; lia).
    rewrite for_down_loop, mod2_even.
    assert (LB : (0 <= Tlo p q <= 64)%Z) by (unfold Tlo, Thi in *; lia).
    rewrite !(int64_exact (_ - 2 * Tlo p q)), !(int64_exact (_ + 2 * Tlo p q)) by lia.
    pose proof (KL N p q Hp Hq) as HK.
    destruct (ang_sum _ _ al be (p + q - N) (q - p) N (ang_whole pa al (p + q - N) (proj1 Al) (proj2 Al) ltac:(lia))
      (ang_whole pb be (q - p) (proj1 Be) (proj2 Be) ltac:(lia)) (proj1 Al) (proj1 Be) HK ltac:(lia)) as [T1 T2]. fold th in T1.
    destruct (row_D lib N p q ra rb ha hb GL HN Hp Hq Ba Bb Ra Rb Hle (sgn (Tlo p q + s)) _ th c (RtoC (sgn s) * Dm N p q a b)%C RC (Rabs_sgn _) T1 T2)
      with (z := 1%Z) as (S64 & ES & _ & EB); [|lia|].
    { intros S HS. unfold a, b. rewrite (Dm_ge_polar N p q ra rb al be S Hp Hq) by (auto; lra). rewrite sgn_add.
      fold (coeff N p q). fold th. rewrite !RtoC_mult. ring. }
    destruct (norm64_ok ell ltac:(lia)) as [RN BN]. specialize (EB _ _ RN BN).
    rewrite ES. cbn [bind]. rewrite sgn_if.
    match goal with |- context [C_is_zero ?z] => destruct (C_is_zero z) eqn:EZ end.
    - apply C_is_zero_true in EZ. eexists. split; [reflexivity|]. rewrite EZ, Cmult_0_r, !cscale64_0 in EB. exact EB.
    - eexists. split; [reflexivity|]. exact EB.
  Qed.

  Lemma S_lt64_ok : ha <= hb ->
    exists v, S_elem_lt64 lib ha hb pa pb s (ell, m) = Ok v
      /\ Cmod (v - RtoC (swsh_norm ell) * (RtoC (sgn s) * Dm N p q a b))%C
         <= (37 * IZR N + 22) * u64 * (swsh_norm ell * Wsize N p q ra rb) + / 2 ^ 600.
  Proof.
    intros Hle. pose proof p16. pose proof HN' as HN. pose proof Hp' as Hp. pose proof Hq' as Hq. assert (HP : (0 <= N - p <= N)%Z) by lia.
    pose proof (T_lo_le N (N - p) q HP Hq) as HL.
    unfold S_elem_lt64. rewrite S_out_tests.
    replace ((Z.abs m <=? ell) && (Z.abs s <=? ell))%Z with true by (symmetry; apply andb_true_iff; split; apply Z.leb_le; lia). cbn [negb].
    destruct (coeff64_ok N (N - p) q HN HP Hq) as (c & EC & RC).
    replace (2 * (N - p) - N)%Z with (2 * - m)%Z in EC by (unfold p, N; lia). replace (2 * q - N)%Z with (2 * - s)%Z in EC by (unfold q, N; lia).
    unfold N at 1 in EC. rewrite EC. cbn [bind].
    set (P := (N - p)%Z) in *.
    replace (Z.max 0 (- m + s))%Z with (Tlo P q) by (unfold Tlo, P, N, p, q; lia).
    replace (Z.min (ell - m) (ell + s))%Z with (Thi N P q) by (unfold Thi, P, N, p, q; lia).
    replace (ell - m + 1)%Z with (P + 1)%Z by (unfold P, N, p; lia).
    replace (ell + s + 1)%Z with (N - q + 1)%Z by (unfold N, q; lia).
    replace (2 * ell + s - m - 2 * Tlo P q)%Z with (P + (N - q) - 2 * Tlo P q)%Z by (unfold P, p, q, N; lia).
    replace (- s + m + 2 * Tlo P q)%Z with (q - P + 2 * Tlo P q)%Z by (unfold P, N, p, q; lia).
    replace (- s - m)%Z with (q - p)%Z by (unfold p, q; lia).
    replace (- s + m)%Z with (q - P)%Z by (unfold P, p, q, N; lia).
    rewrite for_down_loop, mod2_even.
    assert (LB : (0 <= Tlo P q <= 64)%Z) by (unfold Tlo, Thi in *; lia).
    rewrite !(int64_exact (_ - 2 * Tlo P q)), !(int64_exact (_ + 2 * Tlo P q)) by lia.
    pose proof (KL N p q Hp Hq) as HK. rewrite Z.add_comm in HK. replace (p + q - N)%Z with (q - P)%Z in HK by (unfold P; lia).
    destruct (ang_sum _ _ be al (q - p) (q - P) N (ang_whole pb be (q - p) (proj1 Be) (proj2 Be) ltac:(lia))
      (ang_whole pa al (q - P) (proj1 Al) (proj2 Al) ltac:(lia)) (proj1 Be) (proj1 Al) HK ltac:(lia)) as [T1 T2].
    rewrite (Rplus_comm (be * _)) in T1. replace (q - P)%Z with (p + q - N)%Z in T1 at 2 by (unfold P; lia). fold th in T1.
    destruct (row_D lib N P q rb ra hb ha GL HN HP Hq Bb Ba Rb Ra Hle (sgn (ell + Tlo P q)) _ th c (RtoC (sgn s) * Dm N p q a b)%C RC (Rabs_sgn _) T1 T2)
      with (z := 1%Z) as (S64 & ES & _ & EB); [|lia|].
    { intros S HS. unfold a, b. rewrite (Dm_lt_polar N p q ra rb al be S Hp Hq) by (auto; lra). unfold P. rewrite coeff_flip by auto. fold P.
      fold th. replace (ell + Tlo P q)%Z with (N - q - Tlo P q + s + 2 * (Tlo P q - s))%Z by (unfold N, q; lia).
      rewrite (sgn_add (_ + s)), sgn_double, Rmult_1_r, sgn_add. rewrite !RtoC_mult. ring. }
    destruct (norm64_ok ell ltac:(lia)) as [RN BN]. specialize (EB _ _ RN BN). replace (Wsize N P q rb ra) with (Wsize N p q ra rb) in EB by (symmetry; apply Wsize_flip; auto).
    rewrite ES. cbn [bind]. rewrite sgn_if.
    match goal with |- context [C_is_zero ?z] => destruct (C_is_zero z) eqn:EZ end.
    - apply C_is_zero_true in EZ. eexists. split; [reflexivity|]. rewrite EZ, Cmult_0_r, !cscale64_0 in EB. exact EB.
    - eexists. split; [reflexivity|]. exact EB.
  Qed.
End SRows.
