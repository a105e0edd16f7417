(** Rounding errors of [complex_powers]. *)
Require Import ZArith Lia Reals Lra Bool.
From Flocq Require Import Core Relative.
From Coquelicot Require Import Complex.
From Verif Require Import Base BaseProofs CBase FloatIndexModel PowersModel PowersProofs FloatPowersModel FloatPowersSpec.
Set Bullet Behavior "Strict Subproofs".
Open Scope R_scope.

(** ** One rounding *)
Definition eta : R := bpow radix2 (-1075).
Lemma eta_pos : 0 < eta.
Proof. apply bpow_gt_0. Qed.
Lemma u64_pos : 0 < u64 <= / 1000000000000.
Proof. unfold u64. lra. Qed.
Lemma RN64_err x : Rabs (RN64 x - x) <= u64 * Rabs x + eta.
Proof.
  destruct (relative_error_N_FLT'_ex radix2 (-1074) 53 ltac:(lia) (fun x => negb (Z.even x)) x) as (e & h & He & Hh & _ & E).
  unfold RN64. rewrite E. replace (x * (1 + e) + h - x) with (e * x + h) by ring.
  eapply Rle_trans; [apply Rabs_triang|]. rewrite Rabs_mult. apply Rplus_le_compat.
  - apply Rmult_le_compat_r; [apply Rabs_pos|]. eapply Rle_trans; [apply He|].
    unfold u_ro, u64. change (bpow radix2 (- (53) + 1)) with (/ 4503599627370496). lra.
  - eapply Rle_trans; [apply Hh|]. unfold eta. change (-1075)%Z with (-1 + -1074)%Z. rewrite bpow_plus.
    right. f_equal.
Qed.

Lemma Cmod_mono a b a' b' : Rabs a <= a' -> Rabs b <= b' -> Cmod (a, b) <= Cmod (a', b').
Proof.
  intros Ha Hb. unfold Cmod. apply sqrt_le_1_alt. cbn [fst snd].
  apply Rplus_le_compat; rewrite <- (pow2_abs _); apply pow_incr; split; auto using Rabs_pos;
    (eapply Rle_trans; [eassumption|apply Rle_abs]).
Qed.
Lemma Cmod_round (x y x' y' e : R) : Rabs (x' - x) <= e * Rabs x + eta -> Rabs (y' - y) <= e * Rabs y + eta -> 0 <= e ->
  Cmod ((x', y') - (x, y))%C <= e * Cmod (x, y) + 2 * eta.
Proof.
  intros Hx Hy He. eapply Rle_trans; [apply (Cmod_mono _ _ _ _ Hx Hy)|].
  replace (e * Rabs x + eta, e * Rabs y + eta) with (RtoC e * (Rabs x, Rabs y) + RtoC eta * (1, 1))%C
    by (apply C_eq; cbn; ring).
  eapply Rle_trans; [apply Cmod_triangle|]. rewrite !Cmod_mult, !Cmod_R, !(Rabs_pos_eq e), !(Rabs_pos_eq eta) by (auto; left; apply eta_pos).
  apply Rplus_le_compat.
  - apply Rmult_le_compat_l; auto. right. unfold Cmod. cbn [fst snd]. rewrite !pow2_abs. reflexivity.
  - rewrite (Rmult_comm 2). apply Rmult_le_compat_l; [left; apply eta_pos|].
    unfold Cmod. cbn [fst snd]. rewrite <- (sqrt_pow2 2) by lra. apply sqrt_le_1_alt. lra.
Qed.
Lemma cadd64_err a b : Cmod (cadd64 a b - (a + b))%C <= u64 * Cmod (a + b)%C + 2 * eta.
Proof.
  destruct a as [a1 a2], b as [b1 b2]. unfold cadd64. cbn [Re Im fst snd].
  change ((a1, a2) + (b1, b2))%C with ((a1 + b1, a2 + b2) : C). apply Cmod_round; try apply RN64_err.
  left; apply u64_pos.
Qed.
Lemma cscale64_err r a : Cmod (cscale64 r a - RtoC r * a)%C <= u64 * (Rabs r * Cmod a) + 2 * eta.
Proof.
  destruct a as [a1 a2]. unfold cscale64. cbn [Re Im fst snd].
  rewrite <- Cmod_R, <- Cmod_mult.
  replace (RtoC r * (a1, a2))%C with ((r * a1, r * a2) : C) by (apply C_eq; cbn; ring).
  apply Cmod_round; try apply RN64_err. left; apply u64_pos.
Qed.

Lemma Cmod_tri3 a b c : Cmod (a + b + c)%C <= Cmod a + Cmod b + Cmod c.
Proof. pose proof (Cmod_triangle (a + b)%C c). pose proof (Cmod_triangle a b). lra. Qed.

(** ** The recurrence *)
Section Recur.
  Variables (c s : R).
  Hypothesis (Hc : 0 <= c) (Hs : 0 < s) (H1 : c * c + s * s = 1).
  Let zeta : C := (c, s).
  Let tau : R := 2 - 2 * c.
  Definition sigma : R := Cmod (zeta - 1)%C.
  Hypothesis Heta : 4000 * eta <= u64 * tau.

  Lemma sigma_sq : sigma * sigma = tau.
  Proof. unfold sigma. rewrite Cmod_sqr. unfold tau, zeta. cbn. lra. Qed.
  Lemma tau_pos : 0 < tau.
  Proof. unfold tau. nra. Qed.
  Lemma sigma_pos : 0 < sigma.
  Proof. pose proof sigma_sq. pose proof tau_pos. assert (0 <= sigma) by apply Cmod_ge_0. nra. Qed.
  Lemma sigma_le : sigma <= 14143 / 10000.
  Proof. pose proof sigma_sq. pose proof sigma_pos. unfold tau in *. nra. Qed.
  Lemma s_ge : 7 / 10 * sigma <= s.
  Proof. pose proof sigma_sq. pose proof sigma_pos. unfold tau in *. nra. Qed.
  Lemma s_le : s <= sigma.
  Proof. pose proof sigma_sq. pose proof sigma_pos. unfold tau in *. nra. Qed.
  Lemma tau_le : tau <= 14143 / 10000 * sigma.
  Proof. pose proof sigma_sq. pose proof sigma_pos. pose proof sigma_le. nra. Qed.
  Lemma zeta_mod : Cmod zeta = 1.
  Proof. unfold Cmod, zeta. cbn [fst snd]. replace (c ^ 2 + s ^ 2) with 1 by (rewrite <- H1; ring). apply sqrt_1. Qed.
  Lemma Cmod_Cpow (z : C) n : Cmod (Cpow z n) = Cmod z ^ n.
  Proof. induction n as [|n IH]; cbn [Cpow pow]; [apply Cmod_1|]. rewrite Cmod_mult, IH. reflexivity. Qed.
  Lemma zeta_pow_mod n : Cmod (Cpow zeta n) = 1.
  Proof. rewrite Cmod_Cpow, zeta_mod, pow1. reflexivity. Qed.

  (** The two linear forms of an error in power and increment that each step multiplies by a number of modulus one *)
  Definition Lp (e d : C) : C := ((1 - Cconj zeta) * e + d)%C.
  Definition Lm (e d : C) : C := ((1 - zeta) * e + d)%C.
  Definition small (K : R) (e d : C) : Prop := Cmod (Lp e d) <= K * sigma /\ Cmod (Lm e d) <= K * sigma.
  Lemma conj_sigma : Cmod (Cconj zeta - 1)%C = sigma.
  Proof. unfold sigma. rewrite <- Cmod_conj. f_equal. apply C_eq; cbn; ring. Qed.
  Lemma small_e K e d : small K e d -> Cmod e <= K / (7 / 10).
  Proof.
    intros [A B]. assert (E : (RtoC (2 * s) * Ci * e = Lp e d - Lm e d)%C).
    { unfold Lp, Lm, zeta. apply C_eq; cbn; ring. }
    assert (D : 2 * s * Cmod e <= K * sigma + K * sigma).
    { replace (2 * s * Cmod e) with (Cmod (RtoC (2 * s) * Ci * e)%C).
      - rewrite E. eapply Rle_trans; [apply Cmod_triangle|]. rewrite Cmod_opp. lra.
      - rewrite !Cmod_mult, Cmod_R, Rabs_pos_eq by lra. replace (Cmod Ci) with 1; [ring|].
        unfold Cmod, Ci. cbn [fst snd]. replace (0 ^ 2 + 1 ^ 2) with 1 by ring. symmetry. apply sqrt_1. }
    pose proof s_ge. pose proof sigma_pos. pose proof (Cmod_ge_0 e).
    assert (7 / 10 * sigma * Cmod e <= K * sigma).
    { eapply Rle_trans; [apply Rmult_le_compat_r; [auto|apply s_ge]|]. lra. }
    assert (7 / 10 * Cmod e <= K) by (apply (Rmult_le_reg_r sigma); lra). lra.
  Qed.
  Lemma small_d K e d : small K e d -> Cmod d <= K * sigma * (25 / 10).
  Proof.
    intros H. pose proof (small_e _ _ _ H) as E. destruct H as [A B].
    assert (D : d = (Lp e d + (Cconj zeta - 1) * e)%C) by (unfold Lp; ring). rewrite D.
    eapply Rle_trans; [apply Cmod_triangle|]. rewrite Cmod_mult, conj_sigma.
    pose proof sigma_pos. pose proof (Rmult_le_compat_l sigma _ _ (Rlt_le _ _ H) E). pose proof (Cmod_ge_0 (Lp e d)). lra.
  Qed.

  (** One step in exact arithmetic, with disturbances [al] and [ga] *)
  Lemma step_L e d al ga :
    let e' := (e + d + al)%C in let d' := (d - RtoC tau * e' + ga)%C in
    Lp e' d' = (zeta * Lp e d + (zeta - 1) * al + ga)%C /\ Lm e' d' = (Cconj zeta * Lm e d + (Cconj zeta - 1) * al + ga)%C.
  Proof.
    cbv zeta. assert (T : RtoC tau = (1 + 1 - zeta - Cconj zeta)%C) by (unfold tau, zeta; apply C_eq; cbn; ring).
    assert (U : (zeta * Cconj zeta)%C = 1) by (unfold zeta; apply C_eq; cbn; lra).
    unfold Lp, Lm. rewrite T. split.
    - replace (zeta * ((1 - Cconj zeta) * e + d))%C with ((zeta - zeta * Cconj zeta) * e + zeta * d)%C by ring. rewrite U. ring.
    - replace (Cconj zeta * ((1 - zeta) * e + d))%C with ((Cconj zeta - zeta * Cconj zeta) * e + Cconj zeta * d)%C by ring.
      rewrite U. ring.
  Qed.
  Lemma step_small K k e d al ga : small K e d -> sigma * Cmod al + Cmod ga <= k * sigma ->
    let e' := (e + d + al)%C in small (K + k) e' (d - RtoC tau * e' + ga)%C.
  Proof.
    intros [A B] H. cbv zeta. destruct (step_L e d al ga) as [E1 E2]. cbv zeta in E1, E2. unfold small. rewrite E1, E2.
    assert (F : forall x L : C, Cmod x = 1 -> Cmod (x - 1)%C = sigma -> Cmod L <= K * sigma ->
      Cmod (x * L + (x - 1) * al + ga)%C <= (K + k) * sigma).
    { intros x L X1 X2 HL. eapply Rle_trans; [apply Cmod_tri3|]. rewrite !Cmod_mult, X1, X2. lra. }
    split; apply F; auto using conj_sigma, zeta_mod. rewrite Cmod_conj. apply zeta_mod.
  Qed.

  (** One step of the loop, with the computed [t] *)
  Lemma step64 K n p d t :
    small K (p - Cpow zeta n)%C (d - Cpow zeta n * (zeta - 1))%C -> 0 <= K <= / 1000 -> Rabs (t + tau) <= 17 * u64 * tau ->
    let p' := cadd64 p d in let d' := cadd64 d (cscale64 t p') in
    small (K + 30 * u64) (p' - Cpow zeta (S n))%C (d' - Cpow zeta (S n) * (zeta - 1))%C.
  Proof.
    intros Sm HK Ht p' d'. set (e := (p - Cpow zeta n)%C) in *. set (de := (d - Cpow zeta n * (zeta - 1))%C) in *.
    pose proof (small_e _ _ _ Sm) as He. pose proof (small_d _ _ _ Sm) as Hd.
    pose proof sigma_pos as S0. pose proof sigma_le as S1. pose proof tau_pos as T0. pose proof tau_le as T1. pose proof u64_pos as U.
    pose proof eta_pos as E0.
    assert (KS : K * sigma <= / 1000 * sigma) by (apply Rmult_le_compat_r; lra).
    assert (UT : u64 * tau <= u64 * (14143 / 10000 * sigma)) by (apply Rmult_le_compat_l; lra).
    assert (UT' : u64 * tau <= / 1000000 * tau) by (apply Rmult_le_compat_r; lra).
    assert (US : u64 * sigma <= / 1000000 * sigma) by (apply Rmult_le_compat_r; lra).
    assert (UT2 : u64 * tau <= u64 * 2) by (apply Rmult_le_compat_l; unfold tau in *; lra).
    (* the new power *)
    assert (Q : Cmod (p + d)%C <= 1007 / 1000).
    { replace (p + d)%C with (Cpow zeta (S n) + e + de)%C by (unfold e, de; cbn [Cpow]; ring).
      eapply Rle_trans; [apply Cmod_tri3|]. rewrite zeta_pow_mod. lra. }
    set (al := (p' - (p + d))%C).
    assert (Hal : Cmod al <= 101 / 100 * u64).
    { unfold al, p'. eapply Rle_trans; [apply cadd64_err|].
      assert (u64 * Cmod (p + d)%C <= u64 * (1007 / 1000)) by (apply Rmult_le_compat_l; lra). lra. }
    assert (Ep : (p' - Cpow zeta (S n))%C = (e + de + al)%C) by (unfold al, e, de; cbn [Cpow]; ring).
    assert (Hp : Cmod p' <= 101 / 100).
    { replace p' with ((p + d) + al)%C by (unfold al; ring). eapply Rle_trans; [apply Cmod_triangle|]. lra. }
    assert (Hep : Cmod (e + de + al)%C <= 7 / 1000).
    { eapply Rle_trans; [apply Cmod_tri3|]. lra. }
    (* the product *)
    assert (Habs : Rabs t <= 101 / 100 * tau).
    { replace t with ((t + tau) + - tau) by ring. eapply Rle_trans; [apply Rabs_triang|].
      rewrite Rabs_Ropp, (Rabs_pos_eq tau) by lra. lra. }
    set (b1 := (cscale64 t p' - RtoC t * p')%C).
    assert (Hb1 : Cmod b1 <= 103 / 100 * u64 * tau).
    { unfold b1. eapply Rle_trans; [apply cscale64_err|].
      assert (Rabs t * Cmod p' <= 101 / 100 * tau * (101 / 100)) by (apply Rmult_le_compat; auto using Rabs_pos, Cmod_ge_0).
      assert (u64 * (Rabs t * Cmod p') <= u64 * (101 / 100 * tau * (101 / 100))) by (apply Rmult_le_compat_l; lra). lra. }
    assert (Hg : Cmod (RtoC (t + tau) * p')%C <= 172 / 10 * u64 * tau).
    { rewrite Cmod_mult, Cmod_R. eapply Rle_trans; [apply Rmult_le_compat; [apply Rabs_pos|apply Cmod_ge_0|exact Ht|exact Hp]|].
      assert (0 < u64 * tau) by (apply Rmult_lt_0_compat; lra). lra. }
    (* the new increment *)
    assert (Es : (d + cscale64 t p' = Cpow zeta (S n) * (zeta - 1) + (de + - (RtoC tau * (e + de + al)) + (RtoC (t + tau) * p' + b1)))%C).
    { rewrite <- Ep. unfold b1, de. rewrite RtoC_plus.
      assert (Z : (Cpow zeta (S n) * (zeta - 1) = Cpow zeta n * (zeta - 1) - RtoC tau * Cpow zeta (S n))%C).
      { assert (T : RtoC tau = (1 + 1 - zeta - Cconj zeta)%C) by (unfold tau, zeta; apply C_eq; cbn; ring).
        assert (U1 : (zeta * Cconj zeta)%C = 1) by (unfold zeta; apply C_eq; cbn; lra).
        rewrite T. cbn [Cpow].
        replace ((1 + 1 - zeta - Cconj zeta) * (zeta * Cpow zeta n))%C
          with ((1 + 1 - zeta) * (zeta * Cpow zeta n) - (zeta * Cconj zeta) * Cpow zeta n)%C by ring. rewrite U1. ring. }
      rewrite Z. ring. }
    assert (Ht2 : Cmod (- (RtoC tau * (e + de + al)))%C <= 7 / 1000 * tau).
    { rewrite Cmod_opp, Cmod_mult, Cmod_R, (Rabs_pos_eq tau) by lra. rewrite (Rmult_comm (7 / 1000)). apply Rmult_le_compat_l; lra. }
    assert (Hgb : Cmod (RtoC (t + tau) * p' + b1)%C <= 183 / 10 * u64 * tau).
    { eapply Rle_trans; [apply Cmod_triangle|]. lra. }
    assert (Hs2 : Cmod (d + cscale64 t p')%C <= 102 / 100 * sigma).
    { rewrite Es. eapply Rle_trans; [apply Cmod_triangle|]. rewrite Cmod_mult, zeta_pow_mod. fold sigma.
      eapply Rle_trans; [apply Rplus_le_compat_l; apply Cmod_tri3|]. lra. }
    set (b2 := (d' - (d + cscale64 t p'))%C).
    assert (Hb2 : Cmod b2 <= 103 / 100 * u64 * sigma).
    { unfold b2, d'. eapply Rle_trans; [apply cadd64_err|].
      assert (u64 * Cmod (d + cscale64 t p')%C <= u64 * (102 / 100 * sigma)) by (apply Rmult_le_compat_l; lra). lra. }
    set (ga := (RtoC (t + tau) * p' + b1 + b2)%C).
    assert (Ed : (d' - Cpow zeta (S n) * (zeta - 1))%C = (de - RtoC tau * (e + de + al) + ga)%C).
    { unfold ga, b2. replace d' with (d + cscale64 t p' + (d' - (d + cscale64 t p')))%C at 1 by ring. rewrite Es at 1. ring. }
    rewrite Ep, Ed. apply step_small; auto.
    assert (Hga : Cmod ga <= 183 / 10 * u64 * tau + 103 / 100 * u64 * sigma).
    { unfold ga. eapply Rle_trans; [apply Cmod_triangle|]. lra. }
    assert (Hsa : sigma * Cmod al <= sigma * (101 / 100 * u64)) by (apply Rmult_le_compat_l; lra).
    lra.
  Qed.
End Recur.

(** ** The initial values *)
Lemma Cmod_le_sum a b : Cmod (a, b) <= Rabs a + Rabs b.
Proof.
  replace ((a, b) : C) with (RtoC a + RtoC b * Ci)%C by (apply C_eq; cbn; ring).
  eapply Rle_trans; [apply Cmod_triangle|]. rewrite Cmod_mult, !Cmod_R. replace (Cmod Ci) with 1; [lra|].
  unfold Cmod, Ci. cbn [fst snd]. replace (0 ^ 2 + 1 ^ 2) with 1 by ring. symmetry. apply sqrt_1.
Qed.
Lemma Rabs_add_le a b x y : Rabs (a - b) <= x -> Rabs (b) <= y -> Rabs a <= x + y.
Proof. intros. replace a with ((a - b) + b) by ring. eapply Rle_trans; [apply Rabs_triang|]. lra. Qed.

Section Init.
  Variables (x y g : R).
  Hypothesis (Hx : 0 <= x) (Hy : / 2 ^ 300 <= y).
  Let r := Cmod (x, y).
  Hypothesis (Hr : Rabs (r - 1) <= 4 * u64).
  Hypothesis (Hg : Rabs (g - Im (Csqrt (x, y))) <= 4 * u64 * Im (Csqrt (x, y))).
  Let c := x / r.
  Let s := y / r.
  Let zeta : C := (c, s).
  Let tau := 2 - 2 * c.
  Let dc := RN64 (- 2 * RN64 (g * g)).
  Let t := RN64 (2 * dc).
  Let w := (RN64 (1 + RN64 (2 * x)), RN64 (2 * y)) : C.
  Let dz := cadd64 (cscale64 dc w) (0, RN64 (sqrt (RN64 (- dc * RN64 (2 + dc))))).

  Lemma p300 : / 2 ^ 300 = bpow radix2 (-300).
  Proof. rewrite bpow_powerRZ. unfold powerRZ. f_equal. Qed.
  Lemma y_pos : 0 < y.
  Proof. rewrite p300 in Hy. pose proof (bpow_gt_0 radix2 (-300)). lra. Qed.
  Lemma r_bounds : 1 - 4 * u64 <= r <= 1 + 4 * u64.
  Proof. apply Rabs_le_inv in Hr. lra. Qed.
  Lemma r_pos : / 2 < r <= 2.
  Proof. pose proof r_bounds. pose proof u64_pos. lra. Qed.
  Lemma c_nonneg : 0 <= c.
  Proof. pose proof r_pos. unfold c. apply Rmult_le_pos; auto. left. apply Rinv_0_lt_compat. lra. Qed.
  Lemma s_pos : 0 < s.
  Proof. pose proof r_pos. pose proof y_pos. unfold s. apply Rmult_lt_0_compat; auto. apply Rinv_0_lt_compat. lra. Qed.
  Lemma cs_unit : c * c + s * s = 1.
  Proof.
    pose proof r_pos. pose proof (Cmod_sqr (x, y)) as E. fold r in E. cbn in E.
    unfold c, s. field_simplify; [|lra..]. replace (x ^ 2 + y ^ 2) with (r ^ 2) by (cbn; lra). field. lra.
  Qed.
  Lemma rc : r * c = x.
  Proof. pose proof r_pos. unfold c. field. lra. Qed.
  Lemma rs : r * s = y.
  Proof. pose proof r_pos. unfold s. field. lra. Qed.
  Lemma s_min : bpow radix2 (-301) <= s.
  Proof.
    pose proof r_pos. pose proof y_pos. unfold s. change (-301)%Z with (-300 + -1)%Z. rewrite bpow_plus, <- p300.
    apply Rmult_le_compat; auto; try (left; apply bpow_gt_0).
    - left. apply Rinv_0_lt_compat. apply pow_lt. lra.
    - change (bpow radix2 (-1)) with (/ 2). apply Rinv_le; lra.
  Qed.
  Lemma eta_tau : 4000 * eta <= u64 * tau.
  Proof.
    pose proof c_nonneg. pose proof s_pos. pose proof cs_unit. pose proof s_min as B. pose proof u64_pos.
    assert (T : s * s <= tau) by (unfold tau; nra).
    assert (B2 : bpow radix2 (-301) * bpow radix2 (-301) <= s * s) by (apply Rmult_le_compat; auto; left; apply bpow_gt_0).
    rewrite <- bpow_plus in B2. change (-301 + -301)%Z with (-602)%Z in B2.
    assert (E : bpow radix2 (-655) <= u64 * tau).
    { change (-655)%Z with (-53 + -602)%Z. rewrite bpow_plus. apply Rmult_le_compat; try (left; apply bpow_gt_0); try lra.
      unfold u64. right. reflexivity. }
    eapply Rle_trans; [|exact E]. eapply Rle_trans with (bpow radix2 12 * eta).
    - apply Rmult_le_compat_r; [left; apply eta_pos|]. change (bpow radix2 12) with 4096. lra.
    - unfold eta. rewrite <- bpow_plus. apply bpow_le. lia.
  Qed.
  Lemma z_zeta : Cmod ((x, y) - zeta)%C <= 4 * u64.
  Proof.
    replace ((x, y) - zeta)%C with (RtoC (r - 1) * zeta)%C.
    - rewrite Cmod_mult, Cmod_R. unfold zeta. rewrite (zeta_mod c s cs_unit). lra.
    - unfold zeta. apply C_eq; cbn; rewrite <- ?rc, <- ?rs at 2; rewrite <- ?rc, <- ?rs; ring.
  Qed.
  Lemma tau_bounds : 0 < tau <= 2.
  Proof. pose proof c_nonneg. pose proof s_pos. pose proof cs_unit. unfold tau. split; nra. Qed.

  Lemma g_sq : Im (Csqrt (x, y)) * Im (Csqrt (x, y)) = r * tau / 4 /\ 0 <= Im (Csqrt (x, y)).
  Proof.
    pose proof y_pos. pose proof rc. pose proof r_pos. pose proof tau_bounds as T. unfold Csqrt. cbn [Re Im fst snd]. fold r.
    destruct (Rle_dec 0 y); [|lra]. split; [|apply sqrt_pos].
    rewrite sqrt_sqrt; unfold tau in *; rewrite <- rc; nra.
  Qed.
  Lemma dc_err : Rabs (dc + tau / 2) <= 71 / 10 * u64 * tau.
  Proof.
    destruct g_sq as [G2 G0]. set (g0 := Im (Csqrt (x, y))) in *. pose proof u64_pos as U. pose proof tau_bounds as T.
    pose proof r_bounds as R0. pose proof eta_tau as E. pose proof eta_pos as E0.
    assert (GG : 0 <= g0 * g0) by nra.
    assert (UG : u64 * (g0 * g0) <= / 1000000 * (g0 * g0)) by (apply Rmult_le_compat_r; lra).
    assert (UG0 : 0 <= u64 * (g0 * g0)) by (apply Rmult_le_pos; lra).
    assert (A1 : Rabs (g * g - g0 * g0) <= 801 / 100 * u64 * (g0 * g0)).
    { replace (g * g - g0 * g0) with ((g - g0) * (g - g0 + 2 * g0)) by ring. rewrite Rabs_mult.
      assert (Rabs (g - g0 + 2 * g0) <= 2001 / 1000 * g0).
      { eapply Rle_trans; [apply Rabs_triang|]. rewrite (Rabs_pos_eq (2 * g0)) by lra.
        assert (u64 * g0 <= / 1000000 * g0) by (apply Rmult_le_compat_r; lra). lra. }
      eapply Rle_trans; [apply Rmult_le_compat; [apply Rabs_pos..|exact Hg|eassumption]|]. nra. }
    assert (A2 : Rabs (g * g) <= 101 / 100 * (g0 * g0)).
    { eapply Rle_trans; [eapply Rabs_add_le; [exact A1|right; reflexivity]|]. rewrite Rabs_pos_eq by auto. lra. }
    pose proof (RN64_err (g * g)) as A3.
    assert (A4 : u64 * Rabs (g * g) <= u64 * (101 / 100 * (g0 * g0))) by (apply Rmult_le_compat_l; lra).
    set (a := RN64 (g * g)) in *.
    assert (A5 : Rabs (a - g0 * g0) <= 903 / 100 * (u64 * (g0 * g0)) + eta).
    { replace (a - g0 * g0) with ((a - g * g) + (g * g - g0 * g0)) by ring. eapply Rle_trans; [apply Rabs_triang|]. lra. }
    assert (A6 : Rabs a <= 101 / 100 * (g0 * g0) + eta).
    { eapply Rle_trans; [eapply Rabs_add_le; [exact A5|right; reflexivity]|]. rewrite Rabs_pos_eq by auto. lra. }
    pose proof (RN64_err (- 2 * a)) as A7. fold dc in A7.
    assert (A8 : Rabs (- 2 * a) = 2 * Rabs a) by (rewrite Rabs_mult, Rabs_left by lra; ring). rewrite A8 in A7.
    assert (A9 : u64 * (2 * Rabs a) <= u64 * (2 * (101 / 100 * (g0 * g0) + eta))) by (apply Rmult_le_compat_l; lra).
    assert (UE : u64 * eta <= / 1000000 * eta) by (apply Rmult_le_compat_r; lra).
    assert (A10 : Rabs (dc + 2 * (g0 * g0)) <= 201 / 10 * (u64 * (g0 * g0)) + 4 * eta).
    { replace (dc + 2 * (g0 * g0)) with ((dc - - 2 * a) + - (2 * (a - g0 * g0))) by ring.
      eapply Rle_trans; [apply Rabs_triang|]. rewrite Rabs_Ropp, (Rabs_mult 2), (Rabs_pos_eq 2) by lra. lra. }
    assert (A11 : Rabs (2 * (g0 * g0) - tau / 2) <= 2 * u64 * tau).
    { rewrite G2. replace (2 * (r * tau / 4) - tau / 2) with ((r - 1) * (tau / 2)) by field.
      rewrite Rabs_mult, (Rabs_pos_eq (tau / 2)) by lra.
      assert (Rabs (r - 1) * (tau / 2) <= 4 * u64 * (tau / 2)) by (apply Rmult_le_compat_r; lra). lra. }
    replace (dc + tau / 2) with ((dc + 2 * (g0 * g0)) - (2 * (g0 * g0) - tau / 2)) by ring.
    eapply Rle_trans; [apply Rabs_triang|]. rewrite Rabs_Ropp.
    assert (A12 : g0 * g0 <= 10001 / 40000 * tau) by (rewrite G2; nra).
    assert (u64 * (g0 * g0) <= u64 * (10001 / 40000 * tau)) by (apply Rmult_le_compat_l; lra). lra.
  Qed.
  Lemma dc_abs : Rabs dc <= 501 / 1000 * tau.
  Proof.
    pose proof dc_err. pose proof u64_pos. pose proof tau_bounds.
    replace dc with ((dc + tau / 2) + - (tau / 2)) by ring. eapply Rle_trans; [apply Rabs_triang|].
    rewrite Rabs_Ropp, (Rabs_pos_eq (tau / 2)) by lra.
    assert (u64 * tau <= / 1000000 * tau) by (apply Rmult_le_compat_r; lra). lra.
  Qed.
  Lemma t_err : Rabs (t + tau) <= 17 * u64 * tau.
  Proof.
    pose proof dc_err. pose proof dc_abs. pose proof u64_pos. pose proof tau_bounds. pose proof eta_tau.
    pose proof (RN64_err (2 * dc)) as A. fold t in A. rewrite (Rabs_mult 2), (Rabs_pos_eq 2) in A by lra.
    assert (u64 * (2 * Rabs dc) <= u64 * (2 * (501 / 1000 * tau))) by (apply Rmult_le_compat_l; lra).
    assert (0 < u64 * tau) by (apply Rmult_lt_0_compat; lra).
    replace (t + tau) with ((t - 2 * dc) + 2 * (dc + tau / 2)) by field. eapply Rle_trans; [apply Rabs_triang|].
    rewrite (Rabs_mult 2), (Rabs_pos_eq 2) by lra. lra.
  Qed.
  Lemma w_err : Cmod (w - (1 + 2 * zeta))%C <= 152 / 10 * u64.
  Proof.
    pose proof u64_pos as U. pose proof tau_bounds. pose proof eta_tau. pose proof r_bounds. pose proof y_pos.
    assert (UT : u64 * tau <= u64 * 2) by (apply Rmult_le_compat_l; lra).
    assert (X : Rabs x <= 1001 / 1000).
    { pose proof (Re_le_Cmod (x, y)) as Q. cbn [Re fst] in Q. fold r in Q. lra. }
    assert (Y : Rabs y <= 1001 / 1000).
    { pose proof (Rmax_Cmod (x, y)) as Q. cbn [fst snd] in Q. fold r in Q.
      pose proof (Rmax_r (Rabs x) (Rabs y)). lra. }
    pose proof (RN64_err (2 * x)) as A. rewrite (Rabs_mult 2), (Rabs_pos_eq 2) in A by lra.
    pose proof (RN64_err (2 * y)) as B. rewrite (Rabs_mult 2), (Rabs_pos_eq 2) in B by lra.
    assert (u64 * (2 * Rabs x) <= u64 * (2 * (1001 / 1000))) by (apply Rmult_le_compat_l; lra).
    assert (u64 * (2 * Rabs y) <= u64 * (2 * (1001 / 1000))) by (apply Rmult_le_compat_l; lra).
    assert (A1 : Rabs (1 + RN64 (2 * x)) <= 301 / 100).
    { replace (1 + RN64 (2 * x)) with ((RN64 (2 * x) - 2 * x) + (1 + 2 * x)) by ring. eapply Rle_trans; [apply Rabs_triang|].
      rewrite (Rabs_pos_eq (1 + 2 * x)) by lra. rewrite Rabs_pos_eq in X by lra. lra. }
    pose proof (RN64_err (1 + RN64 (2 * x))) as A2.
    assert (u64 * Rabs (1 + RN64 (2 * x)) <= u64 * (301 / 100)) by (apply Rmult_le_compat_l; lra).
    replace (w - (1 + 2 * zeta))%C
      with ((RN64 (1 + RN64 (2 * x)) - (1 + RN64 (2 * x)) + (RN64 (2 * x) - 2 * x), RN64 (2 * y) - 2 * y)%R + 2 * ((x, y) - zeta))%C
      by (unfold w; apply C_eq; cbn; ring).
    eapply Rle_trans; [apply Cmod_triangle|]. rewrite Cmod_mult, Cmod_R, (Rabs_pos_eq 2) by lra.
    pose proof z_zeta as Z. pose proof (Cmod_le_sum (RN64 (1 + RN64 (2 * x)) - (1 + RN64 (2 * x)) + (RN64 (2 * x) - 2 * x)) (RN64 (2 * y) - 2 * y)) as S.
    pose proof (Rabs_triang (RN64 (1 + RN64 (2 * x)) - (1 + RN64 (2 * x))) (RN64 (2 * x) - 2 * x)). lra.
  Qed.
  Lemma w_abs : Cmod w <= 301 / 100.
  Proof.
    pose proof w_err. pose proof u64_pos. replace w with ((w - (1 + 2 * zeta)) + 1 + 2 * zeta)%C by ring.
    eapply Rle_trans; [apply Cmod_tri3|]. rewrite Cmod_1, Cmod_mult, Cmod_R, (Rabs_pos_eq 2) by lra.
    unfold zeta at 2. rewrite (zeta_mod c s cs_unit). lra.
  Qed.
  Lemma v_err : Cmod (cscale64 dc w + RtoC (tau / 2) * (1 + 2 * zeta))%C <= 307 / 10 * u64 * tau.
  Proof.
    pose proof w_err. pose proof w_abs. pose proof dc_err. pose proof dc_abs. pose proof u64_pos. pose proof tau_bounds. pose proof eta_tau.
    pose proof (Cmod_ge_0 w).
    pose proof (cscale64_err dc w) as A.
    assert (Rabs dc * Cmod w <= 501 / 1000 * tau * (301 / 100)) by (apply Rmult_le_compat; auto using Rabs_pos).
    assert (u64 * (Rabs dc * Cmod w) <= u64 * (501 / 1000 * tau * (301 / 100))) by (apply Rmult_le_compat_l; lra).
    assert (0 < u64 * tau) by (apply Rmult_lt_0_compat; lra).
    replace (cscale64 dc w + RtoC (tau / 2) * (1 + 2 * zeta))%C
      with ((cscale64 dc w - RtoC dc * w) + RtoC (dc + tau / 2) * w + RtoC (- (tau / 2)) * (w - (1 + 2 * zeta)))%C
      by (rewrite RtoC_plus, RtoC_opp; ring).
    eapply Rle_trans; [apply Cmod_tri3|]. rewrite !Cmod_mult, !Cmod_R, Rabs_Ropp, (Rabs_pos_eq (tau / 2)) by lra.
    assert (Rabs (dc + tau / 2) * Cmod w <= 71 / 10 * u64 * tau * (301 / 100)) by (apply Rmult_le_compat; auto using Rabs_pos).
    assert (tau / 2 * Cmod (w - (1 + 2 * zeta))%C <= tau / 2 * (152 / 10 * u64)) by (apply Rmult_le_compat_l; lra).
    lra.
  Qed.
  Lemma q_err : Rabs (RN64 (sqrt (RN64 (- dc * RN64 (2 + dc)))) - s) <= 36 * u64 * sigma c s.
  Proof.
    pose proof dc_err. pose proof dc_abs. pose proof u64_pos. pose proof tau_bounds. pose proof eta_tau. pose proof eta_pos.
    pose proof c_nonneg. pose proof s_pos. pose proof cs_unit as CS.
    pose proof (sigma_sq c s CS) as SS. pose proof (sigma_pos c s c_nonneg s_pos CS) as SP. change (2 - 2 * c) with tau in SS.
    pose proof (s_ge c s c_nonneg s_pos CS) as SG. pose proof (s_le c s c_nonneg s_pos CS) as SL.
    assert (UT : u64 * tau <= u64 * 2) by (apply Rmult_le_compat_l; lra).
    assert (UT0 : 0 < u64 * tau) by (apply Rmult_lt_0_compat; lra).
    set (sg := sigma c s) in *.
    pose proof (RN64_err (2 + dc)) as A. set (h := RN64 (2 + dc)) in *.
    assert (A1 : Rabs (2 + dc) <= 201 / 100).
    { replace (2 + dc) with ((dc + tau / 2) + (1 + c)) by (unfold tau; field). eapply Rle_trans; [apply Rabs_triang|].
      rewrite (Rabs_pos_eq (1 + c)) by lra. unfold tau in *. lra. }
    assert (u64 * Rabs (2 + dc) <= u64 * (201 / 100)) by (apply Rmult_le_compat_l; lra).
    assert (A2 : Rabs (h - (1 + c)) <= 163 / 10 * u64).
    { replace (h - (1 + c)) with ((h - (2 + dc)) + (dc + tau / 2)) by (unfold tau; field). eapply Rle_trans; [apply Rabs_triang|]. lra. }
    assert (A3 : Rabs h <= 201 / 100).
    { eapply Rle_trans; [eapply Rabs_add_le; [exact A2|right; reflexivity]|]. rewrite Rabs_pos_eq by lra. unfold tau in *. lra. }
    assert (S2 : s * s = tau / 2 * (1 + c)) by (unfold tau; lra).
    assert (A4 : Rabs (- dc * h - s * s) <= 225 / 10 * u64 * tau).
    { rewrite S2. replace (- dc * h - tau / 2 * (1 + c)) with (- ((dc + tau / 2) * h) + tau / 2 * (h - (1 + c))) by ring.
      eapply Rle_trans; [apply Rabs_triang|]. rewrite Rabs_Ropp, !Rabs_mult, (Rabs_pos_eq (tau / 2)) by lra.
      assert (Rabs (dc + tau / 2) * Rabs h <= 71 / 10 * u64 * tau * (201 / 100)) by (apply Rmult_le_compat; auto using Rabs_pos).
      assert (tau / 2 * Rabs (h - (1 + c)) <= tau / 2 * (163 / 10 * u64)) by (apply Rmult_le_compat_l; lra). lra. }
    assert (A5 : Rabs (- dc * h) <= 102 / 100 * tau).
    { rewrite Rabs_mult, Rabs_Ropp. assert (Rabs dc * Rabs h <= 501 / 1000 * tau * (201 / 100)) by (apply Rmult_le_compat; auto using Rabs_pos). lra. }
    pose proof (RN64_err (- dc * h)) as A6. set (k := RN64 (- dc * h)) in *.
    assert (u64 * Rabs (- dc * h) <= u64 * (102 / 100 * tau)) by (apply Rmult_le_compat_l; lra).
    assert (A7 : Rabs (k - s * s) <= 236 / 10 * u64 * tau).
    { replace (k - s * s) with ((k - - dc * h) + (- dc * h - s * s)) by ring. eapply Rle_trans; [apply Rabs_triang|]. lra. }
    assert (UT' : u64 * tau <= / 1000000 * tau) by (apply Rmult_le_compat_r; lra).
    assert (K0 : 0 <= k).
    { assert (tau / 2 <= s * s) by (rewrite S2; nra). apply Rabs_le_inv in A7. lra. }
    pose proof (sqrt_pos k) as Q0. pose proof (sqrt_sqrt k K0) as QQ. set (q := sqrt k) in *.
    assert (A8 : Rabs (q - s) <= 338 / 10 * u64 * sg).
    { assert (E : Rabs (q - s) * (q + s) <= 236 / 10 * u64 * (sg * sg)).
      { rewrite SS. replace (Rabs (q - s) * (q + s)) with (Rabs (k - s * s)); auto.
        rewrite <- QQ. replace (q * q - s * s) with ((q - s) * (q + s)) by ring. rewrite Rabs_mult, (Rabs_pos_eq (q + s)) by lra. reflexivity. }
      assert (E2 : Rabs (q - s) * (7 / 10 * sg) <= Rabs (q - s) * (q + s)) by (apply Rmult_le_compat_l; [apply Rabs_pos|lra]).
      apply (Rmult_le_reg_r (7 / 10 * sg)); [lra|].
      assert (0 <= u64 * (sg * sg)) by (rewrite SS; lra). lra. }
    assert (US : u64 * sg <= / 1000000 * sg) by (apply Rmult_le_compat_r; lra).
    assert (A9 : q <= 101 / 100 * sg) by (apply Rabs_le_inv in A8; lra).
    pose proof (RN64_err q) as A10. rewrite (Rabs_pos_eq q) in A10 by auto.
    assert (u64 * q <= u64 * (101 / 100 * sg)) by (apply Rmult_le_compat_l; lra).
    assert (TL : tau <= 14143 / 10000 * sg) by (apply (tau_le c s); auto).
    assert (u64 * tau <= u64 * (14143 / 10000 * sg)) by (apply Rmult_le_compat_l; lra).
    assert (0 < u64 * sg) by (apply Rmult_lt_0_compat; lra).
    replace (RN64 q - s) with ((RN64 q - q) + (q - s)) by ring. eapply Rle_trans; [apply Rabs_triang|]. lra.
  Qed.
  Lemma init64 : small c s (90 * u64) ((x, y) - Cpow zeta 1)%C (dz - Cpow zeta 1 * (zeta - 1))%C.
  Proof.
    pose proof v_err as V. pose proof q_err as Q. pose proof u64_pos. pose proof tau_bounds. pose proof eta_tau.
    pose proof c_nonneg. pose proof s_pos. pose proof cs_unit as CS. pose proof z_zeta as Z.
    pose proof (sigma_pos c s c_nonneg s_pos CS) as SP. pose proof (tau_le c s c_nonneg s_pos CS) as TL. change (2 - 2 * c) with tau in TL.
    set (sg := sigma c s) in *. set (q := RN64 (sqrt (RN64 (- dc * RN64 (2 + dc))))) in *.
    assert (UTS : u64 * tau <= u64 * (14143 / 10000 * sg)) by (apply Rmult_le_compat_l; lra).
    assert (US0 : 0 < u64 * sg) by (apply Rmult_lt_0_compat; lra).
    assert (US : u64 * sg <= / 1000000 * sg) by (apply Rmult_le_compat_r; lra).
    assert (ED : (Cpow zeta 1 * (zeta - 1) = - (RtoC (tau / 2) * (1 + 2 * zeta)) + (0, s))%C).
    { cbn [Cpow]. unfold zeta, tau. apply C_eq; cbn; [|field]. replace (s * s) with (1 - c * c) by lra. nra. }
    set (D := (Cpow zeta 1 * (zeta - 1))%C) in *.
    assert (MD : Cmod D = sg).
    { unfold D. rewrite Cmod_mult. unfold zeta. rewrite (zeta_pow_mod c s CS). unfold sg, sigma. ring. }
    assert (F : Cmod ((cscale64 dc w + (0, q)) - D)%C <= 795 / 10 * u64 * sg).
    { rewrite ED. replace (cscale64 dc w + (0, q) - (- (RtoC (tau / 2) * (1 + 2 * zeta)) + (0, s)))%C
        with ((cscale64 dc w + RtoC (tau / 2) * (1 + 2 * zeta)) + RtoC (q - s) * Ci)%C
        by (rewrite RtoC_minus; replace ((0, q) : C) with (RtoC q * Ci)%C by (apply C_eq; cbn; ring);
            replace ((0, s) : C) with (RtoC s * Ci)%C by (apply C_eq; cbn; ring); ring).
      eapply Rle_trans; [apply Cmod_triangle|]. rewrite Cmod_mult, Cmod_R. replace (Cmod Ci) with 1.
      - lra.
      - unfold Cmod, Ci. cbn [fst snd]. replace (0 ^ 2 + 1 ^ 2) with 1 by ring. symmetry. apply sqrt_1. }
    assert (G : Cmod (cscale64 dc w + (0, q))%C <= 101 / 100 * sg).
    { replace (cscale64 dc w + (0, q))%C with ((cscale64 dc w + (0, q) - D) + D)%C by ring.
      eapply Rle_trans; [apply Cmod_triangle|]. lra. }
    pose proof (cadd64_err (cscale64 dc w) (0, q)) as A. fold dz in A.
    assert (u64 * Cmod (cscale64 dc w + (0, q))%C <= u64 * (101 / 100 * sg)) by (apply Rmult_le_compat_l; lra).
    assert (FD : Cmod (dz - D)%C <= 81 * u64 * sg).
    { replace (dz - D)%C with ((dz - (cscale64 dc w + (0, q))) + ((cscale64 dc w + (0, q)) - D))%C by ring.
      eapply Rle_trans; [apply Cmod_triangle|]. lra. }
    assert (E1 : ((x, y) - Cpow zeta 1 = (x, y) - zeta)%C) by (cbn [Cpow]; ring). rewrite E1.
    assert (P : forall a : C, Cmod (a - 1)%C = sg -> Cmod ((1 - a) * ((x, y) - zeta) + (dz - D))%C <= 90 * u64 * sg).
    { intros a Ha. eapply Rle_trans; [apply Cmod_triangle|]. rewrite Cmod_mult. replace (1 - a)%C with (- (a - 1))%C by ring.
      rewrite Cmod_opp, Ha. assert (sg * Cmod ((x, y) - zeta)%C <= sg * (4 * u64)) by (apply Rmult_le_compat_l; lra). lra. }
    split; apply P; [apply conj_sigma|reflexivity].
  Qed.
End Init.
