(** Rounding errors of the D and SWSH evaluators: prefactor, angle, one row. *)
Require Import ZArith Lia Reals Lra Bool.
From Flocq Require Import Core.
From Coquelicot Require Import Complex.
From Verif Require Import Base BaseProofs CBase Fact RSum CSum SymPow WignerSpec DRep IndexModel FloatIndexModel FloatIndexProofs FloatPowersModel
  FloatPowersSpec FloatPowersProofs FloatConvModel FloatConvSpec FloatConvProofs WignerModel WignerProofs WignerProofs2 SWSHModel SWSHProofs
  FloatWignerModel FloatWignerSpec FloatWignerProofs FloatWignerProofs2.
Set Bullet Behavior "Strict Subproofs".
Open Scope R_scope.

(** ** Powers *)
Lemma near_trans k a x y j z : near k a x y -> rel j y z -> near (k + j) a x z.
Proof.
  intros H H'. pose proof (near_abs _ _ _ _ H') as A. unfold rel, near in *. pose proof (g_pos k). pose proof (g_plus k j).
  replace (x - z) with ((x - y) + (y - z)) by ring. eapply Rle_trans; [apply Rabs_triang|].
  assert (g k * Rabs y <= g k * ((1 + g j) * Rabs z + 0)) by (apply Rmult_le_compat_l; auto).
  replace (g (k + j)) with ((1 + g k) * (1 + g j) - 1) by lra. lra.
Qed.
Lemma rel_pow k x y n : rel k x y -> rel (n * k) (x ^ n) (y ^ n).
Proof. intros H. induction n as [|n IH]; [apply rel_refl|]. cbn [pow Nat.mul]. apply rel_mul; auto. Qed.

Definition E8 : R := 8 * tiny64.
Lemma E8_bounds : 0 < E8 /\ eta <= E8 /\ E8 * 2 ^ 210 <= / 2 ^ 860 /\ E8 <= / 2 ^ 1000.
Proof.
  pose proof eta_pos. unfold E8. rewrite tiny_eta. split; [lra|]. split; [lra|].
  assert (K : forall n, / 2 ^ n = bpow radix2 (- Z.of_nat n)).
  { intros n. rewrite bpow_opp, bpow_powerRZ. simpl (IZR radix2). rewrite <- pow_powerRZ by lia. rewrite Nat2Z.id. reflexivity. }
  assert (K2 : forall n, 2 ^ n = bpow radix2 (Z.of_nat n)).
  { intros n. rewrite bpow_powerRZ. simpl (IZR radix2). rewrite <- pow_powerRZ by lia. rewrite Nat2Z.id. reflexivity. }
  rewrite !K, K2. unfold eta. replace (8 * (2 * bpow radix2 (-1075))) with (bpow radix2 (4 + -1075)).
  2:{ rewrite bpow_plus. change (bpow radix2 4) with 16. ring. }
  rewrite <- bpow_plus. split; apply bpow_le; lia.
Qed.

Lemma pow_near pw h r e : good_pow pw -> rel 3 h r -> / 10 ^ 16 <= r <= 3 / 2 -> (0 <= e <= 64)%Z ->
  near (5 * Z.to_nat e + 2) E8 (pw h (IZR e)) (powerRZ r e) /\ Rabs (powerRZ r e) <= 2 ^ 64.
Proof.
  intros Hp Hr B He. pose proof p16 as P16. assert (G : g 3 <= 1 / 1000) by (apply g_half; lia).
  assert (E1 : Rabs (h - r) <= / 1000 * r).
  { eapply Rle_trans; [exact Hr|]. rewrite (Rabs_pos_eq r), Rplus_0_r by lra. apply Rmult_le_compat_r; lra. }
  apply Rabs_le_inv in E1.
  rewrite <- !pow_powerRZ by lia. split.
  - replace (5 * Z.to_nat e + 2)%nat with ((2 * Z.to_nat e + 2) + Z.to_nat e * 3)%nat by lia.
    apply near_trans with (h ^ Z.to_nat e); [|apply rel_pow; auto].
    pose proof (Hp h e ltac:(lra) He) as K. rewrite <- pow_powerRZ in K by lia.
    unfold near. eapply Rle_trans; [exact K|]. unfold E8. apply Rplus_le_compat_r.
    assert (0 <= h ^ Z.to_nat e) by (apply pow_le; lra). rewrite (Rabs_pos_eq (h ^ _)) by auto.
    apply Rmult_le_compat_r; auto. eapply Rle_trans; [|apply g_ge].
    rewrite plus_INR, mult_INR, INR_to_nat by lia. simpl (INR 2). lra.
  - assert (0 <= r ^ Z.to_nat e) by (apply pow_le; lra). rewrite Rabs_pos_eq by auto.
    apply Rle_trans with (2 ^ Z.to_nat e); [apply pow_incr; lra|]. apply Rle_pow; [lra|lia].
Qed.

Lemma radius_near c64 c P1 P2 y1 y2 k1 k2 : rel 2 c64 c -> 0 <= c <= 2 ^ 128 ->
  near k1 E8 P1 y1 -> near k2 E8 P2 y2 -> Rabs y1 <= 2 ^ 64 -> Rabs y2 <= 2 ^ 64 -> (k1 <= 1000)%nat -> (k2 <= 1000)%nat ->
  near (k1 + k2 + 4) (/ 2 ^ 860) (RN64 (RN64 (c64 * P1) * P2)) (c * y1 * y2).
Proof.
  intros Hc Bc H1 H2 B1 B2 K1 K2. destruct E8_bounds as (E0 & E1 & E2 & E3).
  assert (G2 : g 2 <= 1 / 1000) by (apply g_half; lia).
  assert (Gk1 : g k1 <= 1 / 1000) by (apply g_half; lia).
  assert (Gk2 : g k2 <= 1 / 1000) by (apply g_half; lia).
  assert (Gm : g (2 + k1 + 1) <= 1 / 1000) by (apply g_half; lia).
  pose proof (g_pos 2). pose proof (g_pos k1). pose proof (g_pos k2). pose proof (g_pos (2 + k1 + 1)).
  assert (Bc' : Rabs c <= 2 ^ 128) by (rewrite Rabs_pos_eq; lra).
  pose proof (near_mul 2 0 c64 c k1 E8 P1 y1 (2 ^ 128) (2 ^ 64) Hc H1 (Rle_refl _) (Rlt_le _ _ E0) Bc' B1) as M1.
  assert (Q128 : 0 < 2 ^ 128) by (apply pow_lt; lra). assert (Q64 : 0 < 2 ^ 64) by (apply pow_lt; lra).
  assert (M1' : near (2 + k1) (E8 * 2 ^ 129) (c64 * P1) (c * y1)).
  { eapply near_weaken; [exact M1|lia|]. rewrite !Rmult_0_l, Rplus_0_l, Rplus_0_r. apply Rmult_le_compat_l; [lra|].
    replace (2 ^ 129) with (2 * 2 ^ 128) by (simpl; ring). apply Rmult_le_compat_r; lra. }
  clear M1. apply near_RN in M1'; [|apply Rmult_le_pos; [lra|apply pow_le; lra]].
  assert (M2 : near (2 + k1 + 1) (E8 * 2 ^ 131) (RN64 (c64 * P1)) (c * y1)).
  { eapply near_weaken; [exact M1'|lia|].
    assert (E8 <= E8 * 2 ^ 129). { rewrite <- (Rmult_1_r E8) at 1. apply Rmult_le_compat_l; [lra|]. simpl; lra. }
    replace (2 ^ 131) with (4 * 2 ^ 129) by (simpl; ring). lra. }
  clear M1'.
  assert (By : Rabs (c * y1) <= 2 ^ 192).
  { rewrite Rabs_mult. replace (2 ^ 192) with (2 ^ 128 * 2 ^ 64) by (rewrite <- pow_add; reflexivity). apply Rmult_le_compat; auto using Rabs_pos. }
  assert (N0 : 0 <= E8 * 2 ^ 131) by (apply Rmult_le_pos; [lra|apply pow_le; lra]).
  pose proof (near_mul _ _ _ _ k2 E8 P2 y2 (2 ^ 192) (2 ^ 64) M2 H2 N0 (Rlt_le _ _ E0) By B2) as M3.
  assert (M3' : near (2 + k1 + 1 + k2) (E8 * 2 ^ 198) (RN64 (c64 * P1) * P2) (c * y1 * y2)).
  { eapply near_weaken; [exact M3|lia|].
    assert (T1 : E8 * 2 ^ 131 * ((1 + g k2) * 2 ^ 64) <= E8 * 2 ^ 196).
    { replace (2 ^ 196) with (2 ^ 131 * (2 * 2 ^ 64)) by (simpl; ring). rewrite Rmult_assoc.
      apply Rmult_le_compat_l; [lra|]. apply Rmult_le_compat_l; [apply pow_le; lra|]. apply Rmult_le_compat_r; lra. }
    assert (T2 : E8 * ((1 + g (2 + k1 + 1)) * 2 ^ 192) <= E8 * 2 ^ 196).
    { replace (2 ^ 196) with (16 * 2 ^ 192) by (simpl; ring). apply Rmult_le_compat_l; [lra|]. apply Rmult_le_compat_r; [apply pow_le; lra|lra]. }
    assert (T3 : E8 * 2 ^ 131 * E8 <= E8 * 2 ^ 196).
    { rewrite Rmult_assoc. apply Rmult_le_compat_l; [lra|].
      assert (/ 2 ^ 1000 <= 1). { rewrite <- Rinv_1 at 1. apply Rinv_le_contravar; [lra|]. apply pow_R1_Rle. lra. }
      assert (2 ^ 131 * E8 <= 2 ^ 131 * 1) by (apply Rmult_le_compat_l; [apply pow_le; lra|lra]).
      assert (2 ^ 131 <= 2 ^ 196) by (apply Rle_pow; [lra|lia]). lra. }
    replace (2 ^ 198) with (4 * 2 ^ 196) by (simpl; ring). lra. }
  apply near_RN in M3'; [|apply Rmult_le_pos; [lra|apply pow_le; lra]].
  eapply near_weaken; [exact M3'|lia|]. eapply Rle_trans; [|exact E2].
  assert (E8 * 1 <= E8 * 2 ^ 198) by (apply Rmult_le_compat_l; [lra|]; apply pow_R1_Rle; lra).
  assert (E8 * (4 * 2 ^ 198) <= E8 * 2 ^ 210). { apply Rmult_le_compat_l; [lra|]. simpl; lra. }
  lra.
Qed.

(** ** Angles *)
Lemma cis_lip a b : Cmod (cis a - cis b)%C <= Rabs (a - b).
Proof.
  replace (cis a - cis b)%C with (cis b * (cis (a - b) - 1))%C.
  2:{ replace a with (b + (a - b)) at 2 by ring. rewrite cis_add. ring. }
  rewrite Cmod_mult, Cmod_cis, Rmult_1_l. set (t := a - b). clearbody t.
  assert (S : forall x, Rabs (sin x) <= Rabs x).
  { assert (P : forall x, 0 <= x -> Rabs (sin x) <= x).
    { intros x Hx. pose proof (SIN_bound x). destruct (Req_dec x 0) as [->|]; [rewrite sin_0, Rabs_R0; lra|].
      pose proof (sin_lt_x x ltac:(lra)). apply Rabs_le. split; [|lra].
      destruct (Rle_dec x 1); [|lra]. pose proof PI_bounds. pose proof (sin_ge_0 x ltac:(lra) ltac:(lra)). lra. }
    intros x. destruct (Rle_dec 0 x); [rewrite (Rabs_pos_eq x) by lra; auto|].
    rewrite <- (Rabs_Ropp (sin x)), <- sin_neg, <- (Rabs_Ropp x), (Rabs_pos_eq (- x)) by lra. apply P. lra. }
  apply Rsqr_incr_0_var; [|apply Rabs_pos]. rewrite <- (Rsqr_abs t). unfold Rsqr. rewrite Cmod_sqr.
  unfold cis. simpl. replace t with (2 * (t / 2)) by field. rewrite cos_2a_sin, sin_2a.
  pose proof (S (t / 2)) as K. pose proof (sin2_cos2 (t / 2)) as Q. unfold Rsqr in Q.
  assert (K2 : sin (t / 2) * sin (t / 2) <= t / 2 * (t / 2)).
  { change (Rsqr (sin (t / 2)) <= Rsqr (t / 2)). apply Rsqr_le_abs_1. auto. }
  set (s := sin (t / 2)) in *. set (c := cos (t / 2)) in *. set (h := t / 2) in *.
  replace ((1 - 2 * s * s + - (1)) * (1 - 2 * s * s + - (1)) + (2 * s * c + - 0) * (2 * s * c + - 0)) with (4 * (s * s) * (s * s + c * c)) by ring.
  rewrite Q. lra.
Qed.

Definition ang (x phi : R) (k : Z) : Prop := Rabs (x - phi * IZR k) <= 162 / 10 * u64 * Rabs (IZR k) + 2 * eta.
Lemma ang_full ph phi k : Rabs phi <= PI -> Rabs (ph - phi) <= 8 * u64 -> (Z.abs k <= 1000)%Z ->
  Rabs (RN64 (ph * int64 k) - phi * IZR k) <= 121 / 10 * u64 * Rabs (IZR k) + eta.
Proof.
  intros Hp He Hk. unfold int64. rewrite RN64_int by lia. pose proof PI_bounds. pose proof u64_pos. pose proof (Rabs_pos (IZR k)) as K0.
  assert (Hh : Rabs ph <= 401 / 100).
  { replace ph with ((ph - phi) + phi) by ring. eapply Rle_trans; [apply Rabs_triang|]. lra. }
  pose proof (RN64_err (ph * IZR k)) as R1. rewrite Rabs_mult in R1.
  replace (RN64 (ph * IZR k) - phi * IZR k) with ((RN64 (ph * IZR k) - ph * IZR k) + (ph - phi) * IZR k) by ring.
  eapply Rle_trans; [apply Rabs_triang|]. rewrite (Rabs_mult (ph - phi)).
  assert (Rabs (ph - phi) * Rabs (IZR k) <= 8 * u64 * Rabs (IZR k)) by (apply Rmult_le_compat_r; auto).
  assert (u64 * (Rabs ph * Rabs (IZR k)) <= u64 * (401 / 100 * Rabs (IZR k))).
  { apply Rmult_le_compat_l; [lra|]. apply Rmult_le_compat_r; auto. }
  assert (0 <= u64 * Rabs (IZR k)) by (apply Rmult_le_pos; lra). lra.
Qed.
Lemma ang_whole ph phi k : Rabs phi <= PI -> Rabs (ph - phi) <= 8 * u64 -> (Z.abs k <= 1000)%Z -> ang (RN64 (ph * int64 k)) phi k.
Proof.
  intros. unfold ang. pose proof (ang_full ph phi k) as A. pose proof eta_pos. pose proof u64_pos. pose proof (Rabs_pos (IZR k)).
  assert (0 <= u64 * Rabs (IZR k)) by (apply Rmult_le_pos; lra). specialize (A ltac:(auto) ltac:(auto) ltac:(auto)). lra.
Qed.
Lemma ang_half ph phi k : Rabs phi <= PI -> Rabs (ph - phi) <= 8 * u64 -> (Z.abs k <= 400)%Z ->
  ang (RN64 (RN64 (ph * int64 (2 * k)) / 2)) phi k.
Proof.
  intros Hp He Hk. unfold ang. pose proof (ang_full ph phi (2 * k) Hp He ltac:(lia)) as A.
  rewrite mult_IZR, Rabs_mult, (Rabs_pos_eq 2) in A by lra. pose proof eta_pos. pose proof u64_pos. pose proof (Rabs_pos (IZR k)) as K0.
  pose proof PI_bounds.
  set (t := RN64 (ph * int64 (2 * k))) in *. set (K := Rabs (IZR k)) in *.
  assert (Hh1 : Rabs (t / 2 - phi * IZR k) <= 121 / 10 * u64 * K + eta / 2).
  { replace (t / 2 - phi * IZR k) with ((t - phi * (2 * IZR k)) / 2) by field. unfold Rdiv at 1. rewrite Rabs_mult, (Rabs_pos_eq (/ 2)) by lra. lra. }
  assert (UK : u64 * K <= / 10 ^ 9 * K) by (apply Rmult_le_compat_r; [auto|simpl; lra]).
  assert (UK0 : 0 <= u64 * K) by (apply Rmult_le_pos; lra).
  assert (Hh2 : Rabs (t / 2) <= 401 / 100 * K + eta).
  { replace (t / 2) with ((t / 2 - phi * IZR k) + phi * IZR k) by ring. eapply Rle_trans; [apply Rabs_triang|]. rewrite (Rabs_mult phi). fold K.
    assert (Rabs phi * K <= 4 * K) by (apply Rmult_le_compat_r; [auto|lra]). simpl in UK. lra. }
  pose proof (RN64_err (t / 2)) as R1.
  assert (u64 * Rabs (t / 2) <= u64 * (401 / 100 * K + eta)) by (apply Rmult_le_compat_l; lra).
  assert (u64 * eta <= / 100 * eta) by (apply Rmult_le_compat_r; lra).
  replace (RN64 (t / 2) - phi * IZR k) with ((RN64 (t / 2) - t / 2) + (t / 2 - phi * IZR k)) by ring.
  eapply Rle_trans; [apply Rabs_triang|]. lra.
Qed.
Lemma ang_sum x y phi psi k l N : ang x phi k -> ang y psi l -> Rabs phi <= PI -> Rabs psi <= PI ->
  (Z.abs k + Z.abs l <= N)%Z -> (N <= 64)%Z ->
  Rabs (RN64 (x + y) - (phi * IZR k + psi * IZR l)) <= INR (21 * Z.to_nat N + 1) * u64 /\ Rabs (RN64 (x + y)) <= 1000.
Proof.
  unfold ang. intros Hx Hy Hp Hs HN HN'. pose proof eta_pos. pose proof eta_small as He. pose proof u64_pos as U. pose proof PI_bounds.
  rewrite plus_INR, mult_INR, INR_to_nat by lia. replace (INR 21) with 21 by (rewrite INR_IZR_INZ; reflexivity). simpl (INR 1).
  assert (KL : Rabs (IZR k) + Rabs (IZR l) <= IZR N) by (rewrite <- !abs_IZR, <- plus_IZR; apply IZR_le; auto).
  assert (N64 : IZR N <= 64) by (apply (IZR_le _ 64); auto).
  set (K := Rabs (IZR k)) in *. set (L := Rabs (IZR l)) in *. pose proof (Rabs_pos (IZR k)) as K0. fold K in K0. pose proof (Rabs_pos (IZR l)) as L0. fold L in L0.
  assert (UN : u64 * (K + L) <= u64 * IZR N) by (apply Rmult_le_compat_l; lra).
  assert (UN2 : u64 * IZR N <= / 10 ^ 9 * IZR N) by (apply Rmult_le_compat_r; [lra|simpl; lra]).
  assert (Hh1 : Rabs (x + y - (phi * IZR k + psi * IZR l)) <= 162 / 10 * u64 * IZR N + 4 * eta).
  { replace (x + y - (phi * IZR k + psi * IZR l)) with ((x - phi * IZR k) + (y - psi * IZR l)) by ring.
    eapply Rle_trans; [apply Rabs_triang|]. lra. }
  assert (He' : eta <= u64 / 1000) by (simpl in He; lra).
  assert (Hh2 : Rabs (x + y) <= 401 / 100 * IZR N + 4 * eta).
  { replace (x + y) with ((x + y - (phi * IZR k + psi * IZR l)) + (phi * IZR k + psi * IZR l)) by ring.
    eapply Rle_trans; [apply Rabs_triang|].
    assert (Rabs (phi * IZR k + psi * IZR l) <= 4 * K + 4 * L).
    { eapply Rle_trans; [apply Rabs_triang|]. rewrite !Rabs_mult. fold K L. apply Rplus_le_compat; apply Rmult_le_compat_r; lra. }
    simpl in UN2. lra. }
  pose proof (RN64_err (x + y)) as R1.
  assert (Hh3 : u64 * Rabs (x + y) <= u64 * (401 / 100 * IZR N + 4 * eta)) by (apply Rmult_le_compat_l; lra).
  assert (Hh4 : u64 * eta <= / 100 * eta) by (apply Rmult_le_compat_r; lra).
  assert (UN0 : 0 <= u64 * IZR N) by (apply Rmult_le_pos; lra).
  split.
  - replace (RN64 (x + y) - (phi * IZR k + psi * IZR l)) with ((RN64 (x + y) - (x + y)) + (x + y - (phi * IZR k + psi * IZR l))) by ring.
    eapply Rle_trans; [apply Rabs_triang|]. lra.
  - replace (RN64 (x + y)) with ((RN64 (x + y) - (x + y)) + (x + y)) by ring.
    eapply Rle_trans; [apply Rabs_triang|]. simpl in UN2. lra.
Qed.

(** ** The prefactor *)
Lemma rect_near rect d64 d th64 th k j : good_rect rect -> near k (/ 2 ^ 860) d64 d -> 0 <= d <= 2 ^ 256 -> (k <= 2000)%nat -> (j <= 4000)%nat ->
  Rabs (th64 - th) <= INR j * u64 -> Rabs th64 <= 1000 ->
  Cmod (rect d64 th64 - RtoC d * cis th)%C <= g (k + j + 4) * d + / 2 ^ 850.
Proof.
  intros Hr Hd Bd Hk Hj Ht Bt. destruct E8_bounds as (E0 & E1 & E2 & E3). pose proof u64_pos as U.
  pose proof (near_abs _ _ _ _ Hd) as A. unfold near in Hd. rewrite (Rabs_pos_eq d) in A, Hd by lra.
  assert (G : g k <= 1 / 1000) by (apply g_half; lia). pose proof (g_pos k) as G0.
  assert (S0 : 0 < / 2 ^ 860) by (apply Rinv_0_lt_compat, pow_lt; lra).
  assert (S1 : / 2 ^ 850 = 1024 * / 2 ^ 860).
  { replace (2 ^ 860) with (1024 * 2 ^ 850) by (simpl; ring). rewrite Rinv_mult. lra. }
  assert (S2 : / 2 ^ 860 <= 1). { rewrite <- Rinv_1 at 1. apply Rinv_le_contravar; [lra|]. apply pow_R1_Rle. lra. }
  assert (S3 : E8 <= / 2 ^ 860). { eapply Rle_trans; [exact E3|]. apply Rinv_le_contravar; [apply pow_lt; lra|]. apply Rle_pow; [lra|lia]. }
  assert (Bd' : Rabs d64 <= 2 ^ 300).
  { eapply Rle_trans; [exact A|]. assert ((1 + g k) * d <= 2 * 2 ^ 256) by (apply Rmult_le_compat; lra).
    assert (2 * 2 ^ 256 + 1 <= 2 ^ 300) by (simpl; lra). lra. }
  pose proof (Hr d64 th64 Bd' Bt) as R1. fold E8 in R1.
  replace (rect d64 th64 - RtoC d * cis th)%C with ((rect d64 th64 - RtoC d64 * cis th64) + (RtoC (d64 - d) * cis th64) + (RtoC d * (cis th64 - cis th)))%C.
  2:{ unfold Rminus. rewrite RtoC_plus, RtoC_opp. ring. }
  eapply Rle_trans; [apply Cmod_tri3|]. rewrite !Cmod_mult, !Cmod_R, Cmod_cis, Rmult_1_r, (Rabs_pos_eq d) by lra.
  pose proof (cis_lip th64 th) as L.
  assert (T1 : d * Cmod (cis th64 - cis th)%C <= d * (INR j * u64)) by (apply Rmult_le_compat_l; lra).
  assert (T2 : INR j * u64 <= g j) by apply g_ge.
  assert (T3 : d * (INR j * u64) <= d * g j) by (apply Rmult_le_compat_l; lra).
  assert (T4 : 4 * u64 * Rabs d64 <= 4 * u64 * ((1 + g k) * d + / 2 ^ 860)) by (apply Rmult_le_compat_l; lra).
  assert (T5 : 4 * u64 * / 2 ^ 860 <= 1 * / 2 ^ 860) by (apply Rmult_le_compat_r; lra).
  assert (T6 : g k + 4 * u64 * (1 + g k) <= g (k + 4)).
  { pose proof (g_plus k 4) as P. pose proof (g_ge 4) as P4. replace (INR 4) with 4 in P4 by (rewrite INR_IZR_INZ; reflexivity).
    assert ((1 + g k) * (4 * u64) <= (1 + g k) * g 4) by (apply Rmult_le_compat_l; lra). lra. }
  assert (T7 : (g k + 4 * u64 * (1 + g k)) * d <= g (k + 4) * d) by (apply Rmult_le_compat_r; lra).
  assert (T8 : (g (k + 4) + g j) * d <= g (k + j + 4) * d).
  { apply Rmult_le_compat_r; [lra|]. pose proof (g_super (k + 4) j). replace (k + j + 4)%nat with (k + 4 + j)%nat by lia. auto. }
  lra.
Qed.

(** ** Products *)
Lemma scale_near n64 n kn P64 P d kp a : rel kn n64 n -> Rabs n <= 4 -> Cmod P <= d -> Cmod (P64 - P)%C <= g kp * d + a -> 0 <= a ->
  (kn <= 1000)%nat -> (kp <= 4000)%nat ->
  Cmod (cscale64 n64 P64 - RtoC n * P)%C <= g (kn + kp + 1) * (Rabs n * d) + 10 * a + 2 * eta.
Proof.
  intros Hn Bn BP HP Ha Hkn Hkp. pose proof (near_abs _ _ _ _ Hn) as A. unfold rel, near in *. rewrite Rplus_0_r in *.
  pose proof u64_pos as U. pose proof eta_pos. pose proof (Rabs_pos n) as N0. pose proof (Cmod_ge_0 P) as P0. pose proof (Cmod_ge_0 P64) as P0'.
  assert (G1 : g kn <= 1 / 1000) by (apply g_half; lia). pose proof (g_pos kn). pose proof (g_pos kp).
  assert (M : Cmod P64 <= (1 + g kp) * d + a).
  { replace P64 with ((P64 - P) + P)%C by ring. eapply Rle_trans; [apply Cmod_triangle|]. lra. }
  assert (X : Cmod (RtoC n64 * P64 - RtoC n * P)%C <= g (kn + kp) * (Rabs n * d) + (1 + g kn) * Rabs n * a).
  { replace (RtoC n64 * P64 - RtoC n * P)%C with (RtoC (n64 - n) * P64 + RtoC n * (P64 - P))%C.
    2:{ unfold Rminus. rewrite RtoC_plus, RtoC_opp. ring. }
    eapply Rle_trans; [apply Cmod_triangle|]. rewrite !Cmod_mult, !Cmod_R.
    assert (Rabs (n64 - n) * Cmod P64 <= g kn * Rabs n * ((1 + g kp) * d + a)) by (apply Rmult_le_compat; auto using Rabs_pos).
    assert (Rabs n * Cmod (P64 - P)%C <= Rabs n * (g kp * d + a)) by (apply Rmult_le_compat_l; auto).
    pose proof (g_plus kn kp). replace (g (kn + kp)) with ((1 + g kn) * (1 + g kp) - 1) by lra. lra. }
  pose proof (cscale64_err n64 P64) as Y.
  assert (Z : Rabs n64 * Cmod P64 <= (1 + g (kn + kp)) * (Rabs n * d) + (1 + g kn) * Rabs n * a).
  { assert (Rabs n64 * Cmod P64 <= (1 + g kn) * Rabs n * ((1 + g kp) * d + a)) by (apply Rmult_le_compat; auto using Rabs_pos).
    rewrite g_plus. lra. }
  assert (Z' : u64 * (Rabs n64 * Cmod P64) <= u64 * ((1 + g (kn + kp)) * (Rabs n * d) + (1 + g kn) * Rabs n * a)) by (apply Rmult_le_compat_l; lra).
  assert (B : (1 + g kn) * Rabs n * a <= 5 * a).
  { apply Rmult_le_compat_r; auto. assert ((1 + g kn) * Rabs n <= (1 + 1 / 1000) * 4) by (apply Rmult_le_compat; lra). lra. }
  assert (B0 : 0 <= (1 + g kn) * Rabs n * a) by (apply Rmult_le_pos; [apply Rmult_le_pos|]; lra).
  assert (B' : u64 * ((1 + g kn) * Rabs n * a) <= 1 * ((1 + g kn) * Rabs n * a)) by (apply Rmult_le_compat_r; lra).
  replace (kn + kp + 1)%nat with (S (kn + kp)) by lia. rewrite g_S.
  replace (cscale64 n64 P64 - RtoC n * P)%C with ((cscale64 n64 P64 - RtoC n64 * P64) + (RtoC n64 * P64 - RtoC n * P))%C by ring.
  eapply Rle_trans; [apply Cmod_triangle|]. lra.
Qed.
Lemma sum_near S64 S A ks P64 P d kp a : Rabs (S64 - S) <= g ks * A -> Rabs S <= A -> 1 <= A <= 2 ^ 72 ->
  Cmod P <= d -> 0 <= d -> Cmod (P64 - P)%C <= g kp * d + a -> 0 <= a <= / 2 ^ 840 -> (ks <= 2000)%nat -> (kp <= 4000)%nat ->
  Cmod (cscale64 S64 P64 - RtoC S * P)%C <= g (ks + kp + 1) * (d * A) + / 2 ^ 600.
Proof.
  intros HS BS BA BP Bd HP Ha Hks Hkp. destruct E8_bounds as (E0 & E1 & E2 & E3).
  pose proof u64_pos as U. pose proof eta_pos. pose proof (Rabs_pos S) as N0. pose proof (Cmod_ge_0 P) as P0. pose proof (Cmod_ge_0 P64) as P0'.
  assert (G1 : g ks <= 1 / 1000) by (apply g_half; lia). pose proof (g_pos ks). pose proof (g_pos kp).
  assert (M : Cmod P64 <= (1 + g kp) * d + a).
  { replace P64 with ((P64 - P) + P)%C by ring. eapply Rle_trans; [apply Cmod_triangle|]. lra. }
  assert (MS : Rabs S64 <= (1 + g ks) * A).
  { replace S64 with ((S64 - S) + S) by ring. eapply Rle_trans; [apply Rabs_triang|]. lra. }
  assert (X : Cmod (RtoC S64 * P64 - RtoC S * P)%C <= g (ks + kp) * (A * d) + (1 + g ks) * A * a).
  { replace (RtoC S64 * P64 - RtoC S * P)%C with (RtoC (S64 - S) * P64 + RtoC S * (P64 - P))%C.
    2:{ unfold Rminus. rewrite RtoC_plus, RtoC_opp. ring. }
    eapply Rle_trans; [apply Cmod_triangle|]. rewrite !Cmod_mult, !Cmod_R.
    assert (Rabs (S64 - S) * Cmod P64 <= g ks * A * ((1 + g kp) * d + a)) by (apply Rmult_le_compat; auto using Rabs_pos).
    assert (Rabs S * Cmod (P64 - P)%C <= A * (g kp * d + a)) by (apply Rmult_le_compat; auto using Cmod_ge_0).
    pose proof (g_plus ks kp). replace (g (ks + kp)) with ((1 + g ks) * (1 + g kp) - 1) by lra. lra. }
  pose proof (cscale64_err S64 P64) as Y.
  assert (Z : Rabs S64 * Cmod P64 <= (1 + g (ks + kp)) * (A * d) + (1 + g ks) * A * a).
  { assert (Rabs S64 * Cmod P64 <= (1 + g ks) * A * ((1 + g kp) * d + a)) by (apply Rmult_le_compat; auto using Rabs_pos).
    rewrite g_plus. lra. }
  assert (Z' : u64 * (Rabs S64 * Cmod P64) <= u64 * ((1 + g (ks + kp)) * (A * d) + (1 + g ks) * A * a)) by (apply Rmult_le_compat_l; lra).
  assert (B : (1 + g ks) * A * a <= 2 * 2 ^ 72 * / 2 ^ 840).
  { apply Rmult_le_compat; try lra; [apply Rmult_le_pos; lra|]. apply Rmult_le_compat; lra. }
  assert (B0 : 0 <= (1 + g ks) * A * a) by (apply Rmult_le_pos; [apply Rmult_le_pos|]; lra).
  assert (B' : u64 * ((1 + g ks) * A * a) <= 1 * ((1 + g ks) * A * a)) by (apply Rmult_le_compat_r; lra).
  assert (W : 2 * (2 * 2 ^ 72 * / 2 ^ 840) + 2 * / 2 ^ 1000 <= / 2 ^ 600).
  { replace (2 * 2 ^ 72 * / 2 ^ 840) with (/ 2 ^ 767).
    2:{ replace (2 ^ 840) with (2 ^ 767 * (2 * 2 ^ 72)) by (simpl; ring). field. }
    assert (J : forall n, (610 <= n)%nat -> 4 * / 2 ^ n <= / 2 ^ 600).
    { intros k Hk. apply Rle_trans with (4 * / 2 ^ 610).
      - apply Rmult_le_compat_l; [lra|]. apply Rinv_le_contravar; [apply pow_lt; lra|]. apply Rle_pow; [lra|auto].
      - replace (2 ^ 610) with (1024 * 2 ^ 600) by (simpl; ring). rewrite Rinv_mult.
        assert (0 < / 2 ^ 600) by (apply Rinv_0_lt_compat, pow_lt; lra). lra. }
    pose proof (J 767%nat ltac:(lia)). pose proof (J 1000%nat ltac:(lia)). lra. }
  replace (ks + kp + 1)%nat with (Datatypes.S (ks + kp)) by lia. rewrite g_S.
  replace (cscale64 S64 P64 - RtoC S * P)%C with ((cscale64 S64 P64 - RtoC S64 * P64) + (RtoC S64 * P64 - RtoC S * P))%C by ring.
  eapply Rle_trans; [apply Cmod_triangle|]. lra.
Qed.
