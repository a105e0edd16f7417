(** Rounding errors of the matrix and array evaluators: one element. *)
Require Import ZArith Lia Reals Lra Bool.
From Flocq Require Import Core.
From Coquelicot Require Import Complex.
From Verif Require Import Base BaseProofs CBase Fact RSum CSum SymPow WignerSpec DRep IndexModel FloatIndexModel FloatIndexProofs FloatPowersModel
  FloatPowersSpec FloatPowersProofs FloatPowersProps FloatConvModel FloatConvSpec FloatConvProofs WignerModel WignerProofs WignerProofs2 SWSHModel SWSHProofs
  FloatWignerModel FloatWignerSpec FloatWignerProofs FloatWignerProofs2 FloatWignerProofs3 FloatWignerProofs4 FloatWignerProofs5 FloatMatrixModel.
Set Bullet Behavior "Strict Subproofs".
Open Scope R_scope.

(** ** Signs *)
Lemma unit_cases sg : Rabs sg = 1 -> sg = 1 \/ sg = -1.
Proof. unfold Rabs. destruct (Rcase_abs sg); intros; [right|left]; lra. Qed.
Lemma RN64_sg sg x : Rabs sg = 1 -> RN64 (sg * x) = sg * RN64 x.
Proof.
  intros H. destruct (unit_cases sg H) as [-> | ->].
  - rewrite !Rmult_1_l. reflexivity.
  - replace (-1 * x) with (- x) by ring. rewrite RN64_opp. ring.
Qed.
Lemma radius64_sg lib sg c r1 r2 e1 e2 : Rabs sg = 1 -> radius64 lib (sg * c) r1 r2 e1 e2 = sg * radius64 lib c r1 r2 e1 e2.
Proof.
  intros H. unfold radius64. rewrite (Rmult_assoc sg), (RN64_sg sg) by auto. rewrite (Rmult_assoc sg), (RN64_sg sg) by auto. reflexivity.
Qed.
Lemma good_rect_sg rect sg : good_rect rect -> Rabs sg = 1 -> good_rect (fun r phi => RtoC sg * rect (sg * r)%R phi)%C.
Proof.
  intros G H r phi Hr Hp. assert (S2 : sg * sg = 1) by (destruct (unit_cases sg H) as [-> | ->]; ring).
  replace (RtoC sg * rect (sg * r)%R phi - RtoC r * cis phi)%C with (RtoC sg * (rect (sg * r)%R phi - RtoC (sg * r) * cis phi))%C.
  - rewrite Cmod_mult, Cmod_R, H, Rmult_1_l. specialize (G (sg * r) phi). rewrite Rabs_mult, H, Rmult_1_l in G. apply G; auto.
  - rewrite RtoC_mult. replace (RtoC r * cis phi)%C with (RtoC (sg * sg) * RtoC r * cis phi)%C by (rewrite S2; ring). rewrite RtoC_mult. ring.
Qed.

(** ** One sum, any prefactor of the right radius *)
Section Core.
  Variables (lib : libm) (N P q : Z) (r1 r2 h1 h2 : R).
  Hypothesis GL : good_libm lib.
  Hypothesis HN : (0 <= N <= 64)%Z.
  Hypothesis HP : (0 <= P <= N)%Z.
  Hypothesis Hq : (0 <= q <= N)%Z.
  Hypothesis B1 : / 10 ^ 16 <= r1 <= 3 / 2.
  Hypothesis B2 : / 10 ^ 16 <= r2 <= 3 / 2.
  Hypothesis R1 : rel 3 h1 r1.
  Hypothesis R2 : rel 3 h2 r2.
  Hypothesis Hle : h2 <= h1.
  Let lo := Tlo P q.
  Let hi := Thi N P q.
  Let e1 := (P + (N - q) - 2 * lo)%Z.
  Let e2 := (q - P + 2 * lo)%Z.
  Let d := coeff N P q * powerRZ r1 e1 * powerRZ r2 e2.
  Let n := Z.to_nat (hi - lo).

  (** What may stand for the prefactor: [cmath.rect] of the signed radius, or 0 when the radius was 0 *)
  Definition prefactor (d64 sg th64 : R) (P64 : C) : Prop := P64 = lib_rect lib (sg * d64)%R th64 \/ (d64 = 0 /\ P64 = RtoC 0).

  Lemma prefactor_near c64 sg th64 th j P64 : rel 2 c64 (coeff N P q) -> Rabs sg = 1 -> (j <= 3000)%nat ->
    Rabs (th64 - th) <= INR j * u64 -> Rabs th64 <= 1000 -> prefactor (radius64 lib c64 h1 h2 e1 e2) sg th64 P64 ->
    Cmod (P64 - RtoC (d * sg) * cis th)%C <= g (5 * Z.to_nat N + j + 12) * d + / 2 ^ 850.
  Proof.
    intros Hc Hs Hj Ht Bt HPre. pose proof (T_lo_le N P q HP Hq) as HL. pose proof (coeff_bound N P q HP Hq ltac:(lia)) as BC.
    assert (He1 : (0 <= e1 <= 64)%Z) by (unfold e1, lo, Tlo; lia). assert (He2 : (0 <= e2 <= 64)%Z) by (unfold e2, lo, Tlo; lia).
    pose proof (d_bounds lib N P q r1 r2 h1 h2 GL HN HP Hq B1 B2 R1 R2) as DB. fold lo e1 e2 in DB. fold d in DB. pose proof GL as (_ & Gp & Gr).
    destruct (pow_near _ h1 r1 e1 Gp R1 B1 He1) as [K1 P1]. destruct (pow_near _ h2 r2 e2 Gp R2 B2 He2) as [K2 P2].
    pose proof (radius_near c64 _ _ _ _ _ _ _ Hc BC K1 K2 P1 P2 ltac:(lia) ltac:(lia)) as D1. fold d in D1.
    unfold radius64 in HPre. rewrite !int64_exact in HPre by lia.
    set (d64 := RN64 (RN64 (c64 * _) * _)) in *.
    assert (S2 : sg * sg = 1) by (destruct (unit_cases sg Hs) as [-> | ->]; ring).
    assert (EK : (5 * Z.to_nat e1 + 2 + (5 * Z.to_nat e2 + 2) + 4 + j + 4 = 5 * Z.to_nat N + j + 12)%nat) by (unfold e1, e2 in *; lia).
    destruct HPre as [-> | [E0 ->]].
    - pose proof (rect_near _ d64 d th64 th _ j (good_rect_sg _ sg Gr Hs) D1 DB ltac:(lia) ltac:(lia) Ht Bt) as E. cbv beta in E.
      replace (lib_rect lib (sg * d64)%R th64 - RtoC (d * sg) * cis th)%C
        with (RtoC sg * (RtoC sg * lib_rect lib (sg * d64)%R th64 - RtoC d * cis th))%C.
      + rewrite Cmod_mult, Cmod_R, Hs, Rmult_1_l, <- EK. exact E.
      + replace (lib_rect lib (sg * d64)%R th64) with (RtoC (sg * sg) * lib_rect lib (sg * d64)%R th64)%C at 2 by (rewrite S2; ring). rewrite !RtoC_mult. ring.
    - replace (RtoC 0 - RtoC (d * sg) * cis th)%C with (- (RtoC (d * sg) * cis th))%C by ring.
      rewrite Cmod_opp, Cmod_mult, Cmod_R, Cmod_cis, Rabs_mult, Hs, Rabs_pos_eq, !Rmult_1_r by lra.
      rewrite E0 in D1. unfold near in D1. replace (0 - d) with (- d) in D1 by ring. rewrite Rabs_Ropp, Rabs_pos_eq in D1 by lra.
      eapply Rle_trans; [exact D1|]. apply Rplus_le_compat.
      + apply Rmult_le_compat_r; [lra|]. apply g_le. lia.
      + apply Rinv_le_contravar; [apply pow_lt; lra|]. apply Rle_pow; [lra|lia].
  Qed.

  Lemma core_any : exists S64,
    for_loop n (1 * hi) (- (1)) (sum_step64 (ratio64 h2 h1) (1 * (P + 1)) (1 * (N - q + 1)) (1 * (q - P))) 1 = Ok S64
    /\ forall c64 sg th64 th j P64 V, rel 2 c64 (coeff N P q) -> Rabs sg = 1 -> (j <= 3000)%nat ->
         Rabs (th64 - th) <= INR j * u64 -> Rabs th64 <= 1000 -> prefactor (radius64 lib c64 h1 h2 e1 e2) sg th64 P64 ->
         (forall S, Tt N P q (- r2 * r2 / (r1 * r1)) lo * S = rsum lo hi (Tt N P q (- r2 * r2 / (r1 * r1))) ->
            V = (RtoC (d * sg * S) * cis th)%C) ->
         Cmod (cscale64 S64 P64 - V)%C <= g (21 * n + (5 * Z.to_nat N + j + 12) + 1) * Wsize N P q r1 r2 + / 2 ^ 600
         /\ forall n64 nn, rel 6 n64 nn -> 0 <= nn <= 4 ->
            Cmod (cscale64 S64 (cscale64 n64 P64) - RtoC nn * V)%C <= g (21 * n + (6 + (5 * Z.to_nat N + j + 12) + 1) + 1) * (nn * Wsize N P q r1 r2) + / 2 ^ 600.
  Proof.
    pose proof (d_bounds lib N P q r1 r2 h1 h2 GL HN HP Hq B1 B2 R1 R2) as DB. fold lo e1 e2 in DB. fold d in DB. pose proof u64_pos as U.
    destruct (loop_err N P q r1 r2 h1 h2 HN HP Hq B1 B2 R1 R2 Hle 1 ltac:(lia)) as (S & A & S64 & E1 & E2 & E3 & F1 & F2 & F3).
    exists S64. split; [exact E1|]. pose proof p16.
    pose proof (n_half N P q) as Hn. fold lo hi in Hn. fold n in Hn. change (Z.to_nat (Thi N P q - Tlo P q)) with n in F3.
    intros c64 sg th64 th j P64 V Hc Hs Hj Ht Bt HPre HV. rewrite (HV S E2).
    rewrite (Wsize_main N P q r1 r2 A HP Hq ltac:(lra) ltac:(lra) E3). fold (coeff N P q). fold lo. fold e1 e2. fold d.
    pose proof (prefactor_near c64 sg th64 th j P64 Hc Hs Hj Ht Bt HPre) as PN.
    assert (MP : Cmod (RtoC (d * sg) * cis th)%C <= d).
    { rewrite Cmod_mult, Cmod_R, Cmod_cis, Rabs_mult, Hs, Rabs_pos_eq; lra. }
    assert (S850 : 0 < / 2 ^ 850 <= / 2 ^ 840).
    { split; [apply Rinv_0_lt_compat, pow_lt; lra|]. apply Rinv_le_contravar; [apply pow_lt; lra|]. apply Rle_pow; [lra|lia]. }
    split.
    - pose proof (sum_near S64 S A (21 * n) _ _ d _ (/ 2 ^ 850) F3 F1 F2 MP ltac:(lra) PN ltac:(lra) ltac:(lia) ltac:(lia)) as X.
      replace (RtoC (d * sg * S) * cis th)%C with (RtoC S * (RtoC (d * sg) * cis th))%C by (rewrite !RtoC_mult; ring).
      exact X.
    - intros n64 nn Hnn Bnn.
      pose proof (scale_near n64 nn 6 _ _ d _ (/ 2 ^ 850) Hnn ltac:(rewrite Rabs_pos_eq; lra) MP PN ltac:(lra) ltac:(lia) ltac:(lia)) as X.
      rewrite (Rabs_pos_eq nn) in X by lra.
      destruct E8_bounds as (Z0 & Z1 & Z2 & Z3).
      assert (SL : 0 <= 10 * / 2 ^ 850 + 2 * eta <= / 2 ^ 840).
      { pose proof eta_pos. split; [lra|].
        assert (/ 2 ^ 1000 <= / 2 ^ 850) by (apply Rinv_le_contravar; [apply pow_lt; lra|]; apply Rle_pow; [lra|lia]).
        assert (/ 2 ^ 840 = 1024 * / 2 ^ 850).
        { replace (2 ^ 850) with (1024 * 2 ^ 840) by (simpl; ring). rewrite Rinv_mult. lra. }
        lra. }
      assert (MP' : Cmod (RtoC nn * (RtoC (d * sg) * cis th))%C <= nn * d).
      { rewrite Cmod_mult, Cmod_R, Rabs_pos_eq by lra. apply Rmult_le_compat_l; lra. }
      assert (ND : 0 <= nn * d) by (apply Rmult_le_pos; lra).
      rewrite Rplus_assoc in X.
      pose proof (sum_near S64 S A (21 * n) _ _ (nn * d) _ _ F3 F1 F2 MP' ND X SL ltac:(lia) ltac:(lia)) as Y.
      replace (RtoC nn * (RtoC (d * sg * S) * cis th))%C with (RtoC S * (RtoC nn * (RtoC (d * sg) * cis th)))%C by (rewrite !RtoC_mult; ring).
      rewrite <- (Rmult_assoc nn d A). exact Y.
  Qed.
End Core.

(** ** The bound in units of 2^-53 *)
Lemma g_bound N P q w (j m : nat) : (0 <= N <= 64)%Z -> (m <= 30)%nat -> 0 <= w ->
  (2 * w = 21 + 2 * (5 + INR j)) -> w <= 55 ->
  g (21 * Z.to_nat (Thi N P q - Tlo P q) + (5 * Z.to_nat N + (j * Z.to_nat N + 1) + m)) <= ((w + 1 / 2) * IZR N + (INR m + 2)) * u64.
Proof.
  intros HN Hm W0 Hw W55. pose proof (n_half N P q) as Hn. set (n := Z.to_nat (Thi N P q - Tlo P q)) in *.
  set (k := (21 * n + (5 * Z.to_nat N + (j * Z.to_nat N + 1) + m))%nat).
  assert (I : 2 * INR k <= 2 * w * IZR N + 2 * (INR m + 1)).
  { assert (X : (2 * k <= (21 + 2 * (5 + j)) * Z.to_nat N + 2 * (m + 1))%nat) by (unfold k; nia).
    apply le_INR in X. rewrite plus_INR, !mult_INR, !plus_INR, mult_INR, plus_INR, INR_to_nat in X by lia.
    replace (INR 21) with 21 in X by (rewrite INR_IZR_INZ; reflexivity). replace (INR 5) with 5 in X by (rewrite INR_IZR_INZ; reflexivity).
    simpl (INR 2) in X. simpl (INR 1) in X. replace (1 + 1) with 2 in X by ring. rewrite <- Hw in X. lra. }
  assert (M : INR m <= 30) by (replace 30 with (INR 30) by (rewrite INR_IZR_INZ; reflexivity); apply le_INR; auto).
  assert (N0 : 0 <= IZR N <= 64) by (split; [apply (IZR_le 0)|apply (IZR_le _ 64)]; lia).
  assert (WN : w * IZR N <= 55 * 64) by (apply Rmult_le_compat; lra).
  assert (K : (k <= 4000)%nat). { apply INR_le. replace (INR 4000) with 4000 by (rewrite INR_IZR_INZ; reflexivity). lra. }
  pose proof (g_small k K) as G. pose proof u64_pos. pose proof (pos_INR m). eapply Rle_trans; [exact G|]. apply Rmult_le_compat_r; [lra|].
  assert (0 <= w * IZR N) by (apply Rmult_le_pos; lra).
  assert (w * IZR N * (1 / 1000) <= 55 * IZR N * (1 / 1000)) by (apply Rmult_le_compat_r; [lra|]; apply Rmult_le_compat_r; lra). lra.
Qed.

(** ** The angle of the second prefactor *)
Lemma ang_shift ph phi k : Rabs phi <= PI -> Rabs (ph - phi) <= 8 * u64 -> (Z.abs k <= 1000)%Z ->
  Rabs (RN64 (RN64 (ph + pi64) * int64 k) - (phi + PI) * IZR k) <= 284 / 10 * u64 * Rabs (IZR k) + eta.
Proof.
  intros Hp He Hk. rewrite int64_exact by lia. pose proof PI_bounds as PB. pose proof u64_pos as U. pose proof (Rabs_pos (IZR k)) as K0.
  pose proof eta_pos as E0. pose proof eta_small as Es. pose proof pi64_err as PE.
  assert (He' : eta <= u64 / 1000) by (simpl in Es; lra).
  assert (X1 : Rabs (ph + pi64 - (phi + PI)) <= 1201 / 100 * u64).
  { replace (ph + pi64 - (phi + PI)) with ((ph - phi) + (pi64 - PI)) by ring. eapply Rle_trans; [apply Rabs_triang|].
    assert (1002 / 1000 * u64 * PI <= 1002 / 1000 * u64 * 4) by (apply Rmult_le_compat_l; lra). lra. }
  assert (X2 : Rabs (ph + pi64) <= 801 / 100).
  { replace (ph + pi64) with ((ph + pi64 - (phi + PI)) + (phi + PI)) by ring. eapply Rle_trans; [apply Rabs_triang|].
    assert (Rabs (phi + PI) <= 8) by (apply Rabs_le; apply Rabs_le_inv in Hp; lra). lra. }
  set (x := RN64 (ph + pi64)). pose proof (RN64_err (ph + pi64)) as RE. fold x in RE.
  assert (U1 : u64 * Rabs (ph + pi64) <= u64 * (801 / 100)) by (apply Rmult_le_compat_l; lra).
  assert (X3 : Rabs (x - (phi + PI)) <= 203 / 10 * u64).
  { replace (x - (phi + PI)) with ((x - (ph + pi64)) + (ph + pi64 - (phi + PI))) by ring. eapply Rle_trans; [apply Rabs_triang|]. lra. }
  assert (X4 : Rabs x <= 802 / 100).
  { replace x with ((x - (ph + pi64)) + (ph + pi64)) by ring. eapply Rle_trans; [apply Rabs_triang|]. lra. }
  pose proof (RN64_err (x * IZR k)) as R1. rewrite Rabs_mult in R1.
  replace (RN64 (x * IZR k) - (phi + PI) * IZR k) with ((RN64 (x * IZR k) - x * IZR k) + (x - (phi + PI)) * IZR k) by ring.
  eapply Rle_trans; [apply Rabs_triang|]. rewrite (Rabs_mult (x - (phi + PI))).
  assert (Rabs (x - (phi + PI)) * Rabs (IZR k) <= 203 / 10 * u64 * Rabs (IZR k)) by (apply Rmult_le_compat_r; auto).
  assert (u64 * (Rabs x * Rabs (IZR k)) <= u64 * (802 / 100 * Rabs (IZR k))).
  { apply Rmult_le_compat_l; [lra|]. apply Rmult_le_compat_r; auto. }
  assert (0 <= u64 * Rabs (IZR k)) by (apply Rmult_le_pos; lra). lra.
Qed.
Lemma ang_sum2 x y phi psi k l N : Rabs phi <= PI -> Rabs psi <= PI ->
  Rabs (x - phi * IZR k) <= 121 / 10 * u64 * Rabs (IZR k) + eta ->
  Rabs (y - (psi + PI) * IZR l) <= 284 / 10 * u64 * Rabs (IZR l) + eta ->
  (Z.abs k + Z.abs l <= N)%Z -> (N <= 64)%Z ->
  Rabs (RN64 (x + y) - (phi * IZR k + (psi + PI) * IZR l)) <= INR (37 * Z.to_nat N + 1) * u64 /\ Rabs (RN64 (x + y)) <= 1000.
Proof.
  intros Hp Hs Hx Hy HN HN'. pose proof eta_pos. pose proof eta_small as He. pose proof u64_pos as U. pose proof PI_bounds as PB.
  rewrite plus_INR, mult_INR, INR_to_nat by lia. replace (INR 37) with 37 by (rewrite INR_IZR_INZ; reflexivity). simpl (INR 1).
  assert (KL : Rabs (IZR k) + Rabs (IZR l) <= IZR N) by (rewrite <- !abs_IZR, <- plus_IZR; apply IZR_le; auto).
  assert (N64 : IZR N <= 64) by (apply (IZR_le _ 64); auto).
  set (K := Rabs (IZR k)) in *. set (L := Rabs (IZR l)) in *. pose proof (Rabs_pos (IZR k)) as K0. fold K in K0. pose proof (Rabs_pos (IZR l)) as L0. fold L in L0.
  assert (UN : u64 * (K + L) <= u64 * IZR N) by (apply Rmult_le_compat_l; lra).
  assert (UK : 0 <= u64 * K) by (apply Rmult_le_pos; lra).
  assert (UN2 : u64 * IZR N <= / 10 ^ 9 * IZR N) by (apply Rmult_le_compat_r; [lra|simpl; lra]).
  assert (Hh1 : Rabs (x + y - (phi * IZR k + (psi + PI) * IZR l)) <= 284 / 10 * u64 * IZR N + 2 * eta).
  { replace (x + y - (phi * IZR k + (psi + PI) * IZR l)) with ((x - phi * IZR k) + (y - (psi + PI) * IZR l)) by ring.
    eapply Rle_trans; [apply Rabs_triang|]. lra. }
  assert (He' : eta <= u64 / 1000) by (simpl in He; lra).
  assert (Hh2 : Rabs (x + y) <= 801 / 100 * IZR N + 2 * eta).
  { replace (x + y) with ((x + y - (phi * IZR k + (psi + PI) * IZR l)) + (phi * IZR k + (psi + PI) * IZR l)) by ring.
    eapply Rle_trans; [apply Rabs_triang|].
    assert (Rabs (phi * IZR k + (psi + PI) * IZR l) <= 8 * K + 8 * L).
    { eapply Rle_trans; [apply Rabs_triang|]. rewrite !Rabs_mult. fold K L. apply Rplus_le_compat; apply Rmult_le_compat_r; try lra.
      apply Rabs_le. apply Rabs_le_inv in Hs. lra. }
    simpl in UN2. lra. }
  pose proof (RN64_err (x + y)) as R1.
  assert (Hh3 : u64 * Rabs (x + y) <= u64 * (801 / 100 * IZR N + 2 * eta)) by (apply Rmult_le_compat_l; lra).
  assert (Hh4 : u64 * eta <= / 100 * eta) by (apply Rmult_le_compat_r; lra).
  assert (UN0 : 0 <= u64 * IZR N) by (apply Rmult_le_pos; lra).
  split.
  - replace (RN64 (x + y) - (phi * IZR k + (psi + PI) * IZR l)) with ((RN64 (x + y) - (x + y)) + (x + y - (phi * IZR k + (psi + PI) * IZR l))) by ring.
    eapply Rle_trans; [apply Rabs_triang|]. lra.
  - replace (RN64 (x + y)) with ((RN64 (x + y) - (x + y)) + (x + y)) by ring.
    eapply Rle_trans; [apply Rabs_triang|]. simpl in UN2. lra.
Qed.
