(** Rounding errors of the D and SWSH evaluators: the rows of a rotor with a part below the cut-off. *)
Require Import ZArith Lia Reals Lra Bool.
From Flocq Require Import Core.
From Coquelicot Require Import Complex.
From Verif Require Import Base BaseProofs CBase Fact RSum CSum SymPow WignerSpec DRep IndexModel FloatIndexModel FloatIndexProofs FloatPowersModel
  FloatPowersSpec FloatPowersProofs FloatConvModel FloatConvSpec FloatConvProofs WignerModel WignerProofs WignerProofs2 WignerProofs3 SWSHModel SWSHProofs
  NearProofs FloatWignerModel FloatWignerSpec FloatWignerProofs FloatWignerProofs2 FloatWignerProofs3 FloatWignerProofs4 FloatWignerProofs5.
Set Bullet Behavior "Strict Subproofs".
Open Scope R_scope.

Lemma nearly_unit_sym a b : nearly_unit a b -> nearly_unit b a.
Proof. unfold nearly_unit. rewrite (Rplus_comm (Cmod a ^ 2)). auto. Qed.
Lemma nearly_unit_le a b : nearly_unit a b -> Cmod a <= 3 / 2.
Proof.
  unfold nearly_unit. intros H. apply Rabs_le_inv in H. pose proof (Cmod_ge_0 a). pose proof (pow2_ge_0 (Cmod b)).
  assert (u64 <= / 1000000) by (unfold u64; lra). apply Rnot_lt_le. intros L. assert (3 / 2 * (3 / 2) <= Cmod a * Cmod a) by (apply Rmult_le_compat; lra). lra.
Qed.
(** The other part of such a rotor *)
Lemma big_part a b : nearly_unit a b -> Cmod b <= 101 / 100 * epsilon -> 1 - 9 * u64 <= Cmod a <= 1 + 8 * u64.
Proof.
  unfold nearly_unit. intros H Hb. apply Rabs_le_inv in H. pose proof (Cmod_ge_0 a) as A. pose proof (Cmod_ge_0 b) as B.
  pose proof u64_pos. assert (Ur : u64 <= / 1000000) by (unfold u64; lra). pose proof eps_u as E.
  assert (B2 : 0 <= Cmod b ^ 2 <= / 1000 * u64).
  { split; [apply pow2_ge_0|]. replace (Cmod b ^ 2) with (Cmod b * Cmod b) by ring.
    apply Rle_trans with (10 * u64 * (10 * u64)); [apply Rmult_le_compat; lra|].
    assert (u64 * u64 <= / 1000000 * u64) by (apply Rmult_le_compat_r; lra). lra. }
  replace (Cmod a ^ 2) with (Cmod a * Cmod a) in H by ring. set (x := Cmod a) in *.
  assert (U2 : 0 <= u64 * u64 <= / 1000000 * u64) by (split; [apply Rmult_le_pos; lra|apply Rmult_le_compat_r; lra]).
  split; apply Rnot_lt_le; intros L.
  - assert (x * x <= (1 - 9 * u64) * (1 - 9 * u64)) by (apply Rmult_le_compat; lra). lra.
  - assert ((1 + 8 * u64) * (1 + 8 * u64) <= x * x) by (apply Rmult_le_compat; lra). lra.
Qed.
Lemma polar_small polar z h ph : good_polar polar -> polar z = (h, ph) -> Cmod z <= 3 / 2 -> h <= RN64 epsilon -> Cmod z <= 101 / 100 * epsilon.
Proof.
  intros G E B Hh. destruct (G z ltac:(lra)) as (G1 & _). rewrite E in G1. cbn [fst] in G1. apply Rabs_le_inv in G1. rewrite tiny_eta in G1.
  pose proof eta_pos. pose proof eta_small as Es. pose proof u64_pos. assert (Ur : u64 <= / 1000000) by (unfold u64; lra). pose proof eps_u as Ee.
  pose proof (RN64_err epsilon) as R0. rewrite (Rabs_pos_eq epsilon) in R0 by lra. apply Rabs_le_inv in R0.
  assert (u64 * epsilon <= / 1000000 * epsilon) by (apply Rmult_le_compat_r; lra).
  assert (u64 * Cmod z <= / 1000000 * Cmod z) by (apply Rmult_le_compat_r; [apply Cmod_ge_0|lra]).
  assert (eta <= / 1000000 * epsilon).
  { eapply Rle_trans; [exact Es|]. apply Rle_trans with (u64 * / 10 ^ 10).
    - unfold Rdiv. apply Rmult_le_compat_l; [lra|]. simpl; lra.
    - simpl. lra. }
  lra.
Qed.
Lemma cpow_near cpow z n : good_cpow cpow -> 1 - 9 * u64 <= Cmod z <= 1 + 8 * u64 -> (Z.abs n <= 64)%Z ->
  Cmod (cpow z n - Cpowz z n)%C <= 162 / 10 * (IZR (Z.abs n) + 1) * u64 /\ 0 <= powerRZ (Cmod z) n <= 101 / 100 /\ Cmod (Cpowz z n) <= 101 / 100 /\ z <> RtoC 0.
Proof.
  intros G Hz Hn. pose proof u64_pos. assert (Ur : u64 <= / 1000000) by (unfold u64; lra).
  assert (Z0 : z <> RtoC 0) by (intros ->; rewrite Cmod_0 in Hz; lra).
  pose proof (power_unit _ n Hz Hn) as P. pose proof (G z n ltac:(lra) Hn) as E.
  assert (M : Cmod (Cpowz z n) = powerRZ (Cmod z) n).
  { rewrite Cpowz_polar by auto. rewrite Cmod_mult, Cmod_cis, Cmod_R, Rabs_pos_eq by lra. ring. }
  rewrite M in *. split; [|split; [lra|split; [lra|auto]]].
  assert (K : 0 <= IZR (Z.abs n)) by (apply (IZR_le 0); lia). assert (0 <= (IZR (Z.abs n) + 1) * u64) by (apply Rmult_le_pos; lra).
  eapply Rle_trans; [exact E|]. apply Rle_trans with (16 * (IZR (Z.abs n) + 1) * u64 * (101 / 100)); [apply Rmult_le_compat_l; lra|lra].
Qed.

Section Rows0.
  Variables (lib : libm) (N p q : Z) (a b : C).
  Hypothesis GL : good_libm lib.
  Hypothesis HN : (0 <= N <= 64)%Z.
  Hypothesis Hp : (0 <= p <= N)%Z.
  Hypothesis Hq : (0 <= q <= N)%Z.
  Hypothesis U : nearly_unit a b.
  Let nu := sqrt (Cmod a ^ 2 + Cmod b ^ 2).

  Lemma small_scaled s : 0 <= s <= 101 / 100 * epsilon -> IZR N * (/ nu * s) <= / 10 /\ / nu * s <= / 10.
  Proof.
    intros Hs. destruct (nu_sq a b U) as (_ & _ & B). fold nu in B. pose proof u64_pos. assert (Ur : u64 <= / 1000000) by (unfold u64; lra). pose proof eps_u.
    assert (Hin : 0 <= / nu <= 101 / 100).
    { split; [left; apply Rinv_0_lt_compat; lra|]. apply Rmult_le_reg_r with nu; [lra|]. rewrite Rinv_l by lra. lra. }
    assert (V : 0 <= / nu * s <= 101 / 100 * / 10000).
    { split; [apply Rmult_le_pos; lra|]. apply Rmult_le_compat; lra. }
    assert (N0 : 0 <= IZR N <= 64) by (split; [apply (IZR_le 0)|apply (IZR_le _ 64)]; lia). split; [|lra].
    apply Rle_trans with (64 * (101 / 100 * / 10000)); [apply Rmult_le_compat; lra|lra].
  Qed.

  (** What the two branches compute, without rounding *)
  Lemma branch_b : Cmod b <= 101 / 100 * epsilon ->
    Cmod (Dm N p q a b - (if (p =? q)%Z then RtoC 1 * Cpowz a (2 * q - N) else RtoC 0))%C <= 174 / 10 * (IZR N + 1) * u64.
  Proof.
    intros Hb. pose proof (big_part a b U Hb) as BA. pose proof (Cmod_ge_0 b) as B0. pose proof (nu_pos a b U) as NP. fold nu in NP.
    assert (Ur : u64 <= / 1000000) by (unfold u64; lra). pose proof u64_pos.
    apply (deg_core N p q a b HN Hp Hq U 1 a (N - q) (2 * q - N) (Cmod b) (p =? q)%Z); try lia; auto.
    - apply Rabs_R1.
    - intros ->. rewrite Cmod_0 in BA. lra.
    - apply power_unit; [auto|lia].
    - fold nu. rewrite Cmult_1_l. destruct (small_scaled (Cmod b) ltac:(lra)) as [S1 S2].
      assert (E : Cmod (RtoC (/ nu) * b)%C = / nu * Cmod b) by (rewrite Cmod_mult, Cmod_R, Rabs_pos_eq by (left; apply Rinv_0_lt_compat; auto); reflexivity).
      rewrite <- E. apply near_b; auto; try (rewrite E; auto). apply nu_unit; auto.
  Qed.
  Lemma branch_a : Cmod a <= 101 / 100 * epsilon ->
    Cmod (Dm N p q a b - (if (q =? N - p)%Z then RtoC (sgn p) * Cpowz b (2 * q - N) else RtoC 0))%C <= 174 / 10 * (IZR N + 1) * u64.
  Proof.
    intros Ha. pose proof (big_part b a (nearly_unit_sym _ _ U) Ha) as BA. pose proof (Cmod_ge_0 a) as B0. pose proof (nu_pos a b U) as NP. fold nu in NP.
    assert (Ur : u64 <= / 1000000) by (unfold u64; lra). pose proof u64_pos.
    apply (deg_core N p q a b HN Hp Hq U (sgn p) b (N - q) (2 * q - N) (Cmod a) (q =? N - p)%Z); try lia; auto.
    - apply FloatWignerProofs4.Rabs_sgn.
    - intros ->. rewrite Cmod_0 in BA. lra.
    - apply power_unit; [auto|lia].
    - fold nu. destruct (small_scaled (Cmod a) ltac:(lra)) as [S1 S2].
      assert (E : Cmod (RtoC (/ nu) * a)%C = / nu * Cmod a) by (rewrite Cmod_mult, Cmod_R, Rabs_pos_eq by (left; apply Rinv_0_lt_compat; auto); reflexivity).
      rewrite <- E. apply near_a; auto; try (rewrite E; auto). apply nu_unit; auto.
  Qed.

  Lemma D_b064_ok : Cmod b <= 101 / 100 * epsilon ->
    Cmod (D_elem_b064 lib a (N, 2 * p - N, 2 * q - N)%Z - Dm N p q a b)%C <= 34 * (IZR N + 1) * u64.
  Proof.
    intros Hb. pose proof (branch_b Hb) as E. pose proof (big_part a b U Hb) as BA. destruct GL as ((_ & Gc) & _).
    destruct (cpow_near _ a (2 * q - N) Gc BA ltac:(lia)) as (E2 & _). pose proof u64_pos.
    assert (N0 : 0 <= IZR N <= 64) by (split; [apply (IZR_le 0)|apply (IZR_le _ 64)]; lia).
    assert (K : IZR (Z.abs (2 * q - N)) <= IZR N) by (apply IZR_le; lia).
    assert (K' : (IZR (Z.abs (2 * q - N)) + 1) * u64 <= (IZR N + 1) * u64) by (apply Rmult_le_compat_r; lra).
    assert (0 <= (IZR N + 1) * u64) by (apply Rmult_le_pos; lra).
    unfold D_elem_b064. rewrite <- orb_assoc, abs_tests, orb_false_r by auto.
    destruct (Z.eqb_spec (2 * p - N) (2 * q - N)), (Z.eqb_spec p q); try lia; cbn [negb].
    - set (c := lib_cpow lib a (2 * q - N)) in *. set (w := Cpowz a (2 * q - N)) in *. set (d := Dm N p q a b) in *.
      replace (c - d)%C with ((c - w) + - (d - RtoC 1 * w))%C by ring. eapply Rle_trans; [apply Cmod_triangle|]. rewrite Cmod_opp. lra.
    - set (d := Dm N p q a b) in *. replace (RtoC 0 - d)%C with (- (d - RtoC 0))%C by ring. rewrite Cmod_opp. lra.
  Qed.
  Lemma D_a064_ok : Cmod a <= 101 / 100 * epsilon ->
    Cmod (D_elem_a064 lib b (N, 2 * p - N, 2 * q - N)%Z - Dm N p q a b)%C <= 34 * (IZR N + 1) * u64.
  Proof.
    intros Ha. pose proof (branch_a Ha) as E. pose proof (big_part b a (nearly_unit_sym _ _ U) Ha) as BA. destruct GL as ((_ & Gc) & _).
    destruct (cpow_near _ b (2 * q - N) Gc BA ltac:(lia)) as (E2 & _). pose proof u64_pos.
    assert (N0 : 0 <= IZR N <= 64) by (split; [apply (IZR_le 0)|apply (IZR_le _ 64)]; lia).
    assert (K : IZR (Z.abs (2 * q - N)) <= IZR N) by (apply IZR_le; lia).
    assert (K' : (IZR (Z.abs (2 * q - N)) + 1) * u64 <= (IZR N + 1) * u64) by (apply Rmult_le_compat_r; lra).
    assert (0 <= (IZR N + 1) * u64) by (apply Rmult_le_pos; lra).
    unfold D_elem_a064. rewrite <- orb_assoc, abs_tests, orb_false_r by auto.
    replace (N - (2 * q - N))%Z with (2 * (N - q))%Z by lia. rewrite mod4_even.
    destruct (Z.eqb_spec (2 * p - N) (- (2 * q - N))), (Z.eqb_spec q (N - p)); try lia; cbn [negb].
    - assert (Ep : p = (N - q)%Z) by lia. rewrite <- Ep.
      set (c := lib_cpow lib b (2 * q - N)) in *. set (w := Cpowz b (2 * q - N)) in *. set (d := Dm N p q a b) in *. unfold sgn in E.
      destruct (Z.even p).
      + replace (c - d)%C with ((c - w) + - (d - RtoC 1 * w))%C by ring. eapply Rle_trans; [apply Cmod_triangle|]. rewrite Cmod_opp. lra.
      + replace (RtoC (-1)) with (- RtoC 1)%C in E by (rewrite <- RtoC_opp; reflexivity).
        replace (- c - d)%C with (- (c - w) + - (d - - RtoC 1 * w))%C by ring. eapply Rle_trans; [apply Cmod_triangle|]. rewrite !Cmod_opp. lra.
    - set (d := Dm N p q a b) in *. replace (RtoC 0 - d)%C with (- (d - RtoC 0))%C by ring. rewrite Cmod_opp. lra.
  Qed.
End Rows0.

Lemma rel_opp k x y : rel k x y -> rel k (- x) (- y).
Proof. unfold rel, near. rewrite Rabs_Ropp. replace (- x - - y) with (- (x - y)) by ring. rewrite Rabs_Ropp. auto. Qed.
Lemma swsh_norm_low ell : (0 <= ell)%Z -> / 10 <= swsh_norm ell.
Proof.
  intros Hl. unfold swsh_norm. rewrite <- (sqrt_square (/ 10)) by lra. apply sqrt_le_1_alt.
  pose proof PI_bounds as PB. assert (1 <= IZR (2 * ell + 1)) by (apply (IZR_le 1); lia).
  apply Rmult_le_reg_r with (4 * PI); [lra|]. unfold Rdiv. rewrite (Rmult_assoc (IZR _)), Rinv_l, Rmult_1_r by lra. lra.
Qed.

Section SRows0.
  Variables (lib : libm) (s ell m : Z) (a b : C).
  Hypothesis GL : good_libm lib.
  Hypothesis Hl : (ell <= 32)%Z.
  Hypothesis Hm : (- ell <= m <= ell)%Z.
  Hypothesis Hs : (- ell <= s <= ell)%Z.
  Hypothesis U : nearly_unit a b.
  Let N := (2 * ell)%Z.
  Let p := (ell + m)%Z.
  Let q := (ell - s)%Z.

  Lemma scaled_power (z : C) (sg : R) : Rabs sg = 1 -> 1 - 9 * u64 <= Cmod z <= 1 + 8 * u64 ->
    Cmod (cscale64 (sg * swsh_norm64 ell) (lib_cpow lib z (-2 * s)) - RtoC (sg * swsh_norm ell) * Cpowz z (-2 * s))%C
      <= 246 / 10 * (IZR N + 1) * u64 * swsh_norm ell.
  Proof.
    intros Hsg Hz. destruct GL as ((_ & Gc) & _). destruct (cpow_near _ z (-2 * s) Gc Hz ltac:(lia)) as (E & _ & M & _).
    destruct (norm64_ok ell ltac:(lia)) as [R6 B4]. pose proof (swsh_norm_low ell ltac:(lia)) as Lo. pose proof u64_pos as Up.
    assert (N0 : 0 <= IZR N <= 64) by (unfold N; split; [apply (IZR_le 0)|apply (IZR_le _ 64)]; lia).
    assert (K : IZR (Z.abs (-2 * s)) <= IZR N) by (unfold N; apply IZR_le; lia).
    set (kp := (17 * Z.to_nat (N + 1))%nat).
    assert (Hkp : INR kp = 17 * (IZR N + 1)).
    { unfold kp. rewrite mult_INR, INR_to_nat, plus_IZR by (unfold N; lia). replace (INR 17) with 17 by (rewrite INR_IZR_INZ; reflexivity). ring. }
    assert (Kb : (kp <= 1200)%nat) by (unfold kp, N; lia).
    assert (R6' : rel 6 (sg * swsh_norm64 ell) (sg * swsh_norm ell)).
    { unfold rel, near in *. rewrite <- Rmult_minus_distr_l, !Rabs_mult, Hsg, !Rmult_1_l. auto. }
    assert (A4 : Rabs (sg * swsh_norm ell) = swsh_norm ell) by (rewrite Rabs_mult, Hsg, Rabs_pos_eq; lra).
    assert (E' : Cmod (lib_cpow lib z (-2 * s) - Cpowz z (-2 * s))%C <= g kp * (101 / 100) + 0).
    { eapply Rle_trans; [exact E|]. pose proof (g_ge kp) as G. rewrite Hkp in G.
      assert ((IZR (Z.abs (-2 * s)) + 1) * u64 <= (IZR N + 1) * u64) by (apply Rmult_le_compat_r; lra).
      assert (0 <= (IZR N + 1) * u64) by (apply Rmult_le_pos; lra). lra. }
    pose proof (scale_near _ _ 6 _ _ (101 / 100) kp 0 R6' ltac:(lra) M E' ltac:(lra) ltac:(lia) ltac:(lia)) as X. rewrite A4 in X.
    eapply Rle_trans; [exact X|]. pose proof (g_small (6 + kp + 1) ltac:(lia)) as G. rewrite !plus_INR, Hkp in G.
    replace (INR 6) with 6 in G by (rewrite INR_IZR_INZ; reflexivity). simpl (INR 1) in G.
    pose proof eta_pos. pose proof eta_small as Es.
    assert (E0 : eta <= / 10 * (u64 * swsh_norm ell)).
    { eapply Rle_trans; [exact Es|]. apply Rle_trans with (u64 * / 1000).
      - unfold Rdiv. apply Rmult_le_compat_l; [lra|]. simpl; lra.
      - assert (u64 * / 10 <= u64 * swsh_norm ell) by (apply Rmult_le_compat_l; lra). lra. }
    assert (g (6 + kp + 1) * (swsh_norm ell * (101 / 100)) <= 1001 / 1000 * (6 + 17 * (IZR N + 1) + 1) * u64 * (swsh_norm ell * (101 / 100))) by (apply Rmult_le_compat_r; lra).
    assert (0 <= u64 * swsh_norm ell) by (apply Rmult_le_pos; lra). assert (0 <= IZR N * (u64 * swsh_norm ell)) by (apply Rmult_le_pos; lra). lra.
  Qed.

  Lemma finish (v w d : C) : Cmod (v - RtoC (swsh_norm ell) * w)%C <= 246 / 10 * (IZR N + 1) * u64 * swsh_norm ell ->
    Cmod (d - w)%C <= 174 / 10 * (IZR N + 1) * u64 -> Cmod (v - RtoC (swsh_norm ell) * d)%C <= 42 * (IZR N + 1) * u64 * swsh_norm ell.
  Proof.
    intros A B. replace (v - RtoC (swsh_norm ell) * d)%C with ((v - RtoC (swsh_norm ell) * w) + - (RtoC (swsh_norm ell) * (d - w)))%C by ring.
    eapply Rle_trans; [apply Cmod_triangle|]. destruct (norm64_ok ell ltac:(lia)) as [_ B4].
    rewrite Cmod_opp, Cmod_mult, Cmod_R, Rabs_pos_eq by lra.
    assert (swsh_norm ell * Cmod (d - w)%C <= swsh_norm ell * (174 / 10 * (IZR N + 1) * u64)) by (apply Rmult_le_compat_l; lra). lra.
  Qed.

  Lemma S_b064_ok : Cmod b <= 101 / 100 * epsilon ->
    Cmod (S_elem_b064 lib a s (ell, m) - RtoC (swsh_norm ell) * (RtoC (sgn s) * Dm N p q a b))%C <= 42 * (IZR N + 1) * u64 * swsh_norm ell.
  Proof.
    intros Hb. pose proof (branch_b N p q a b ltac:(unfold N; lia) ltac:(unfold N, p; lia) ltac:(unfold N, q; lia) U Hb) as E.
    pose proof (big_part a b U Hb) as BA. destruct (norm64_ok ell ltac:(lia)) as [_ B4]. pose proof u64_pos as Up.
    assert (N0 : 0 <= IZR N <= 64) by (unfold N; split; [apply (IZR_le 0)|apply (IZR_le _ 64)]; lia).
    unfold S_elem_b064. rewrite <- orb_assoc, S_out_tests.
    replace ((Z.abs m <=? ell) && (Z.abs s <=? ell))%Z with true by (symmetry; apply andb_true_iff; split; apply Z.leb_le; lia).
    cbn [negb]. rewrite orb_false_r, mod2_even. replace (2 * q - N)%Z with (-2 * s)%Z in E by (unfold q, N; lia).
    set (d := Dm N p q a b) in *.
    assert (E' : forall w, Cmod (d - w)%C <= 174 / 10 * (IZR N + 1) * u64 -> Cmod (RtoC (sgn s) * d - RtoC (sgn s) * w)%C <= 174 / 10 * (IZR N + 1) * u64).
    { intros w Hw. replace (RtoC (sgn s) * d - RtoC (sgn s) * w)%C with (RtoC (sgn s) * (d - w))%C by ring.
      rewrite Cmod_mult, Cmod_R, FloatWignerProofs4.Rabs_sgn. lra. }
    destruct (Z.eqb_spec m (- s)), (Z.eqb_spec p q); try (unfold p, q in *; lia); cbn [negb].
    - apply E' in E. refine (finish _ _ _ _ E).
      assert (G : Cmod (cscale64 (sgn s * swsh_norm64 ell) (lib_cpow lib a (-2 * s)) - RtoC (swsh_norm ell) * (RtoC (sgn s) * (RtoC 1 * Cpowz a (-2 * s))))%C
                  <= 246 / 10 * (IZR N + 1) * u64 * swsh_norm ell).
      { pose proof (scaled_power a (sgn s) (FloatWignerProofs4.Rabs_sgn s) BA) as X. rewrite RtoC_mult in X.
        replace (RtoC (swsh_norm ell) * (RtoC (sgn s) * (RtoC 1 * Cpowz a (-2 * s))))%C with (RtoC (sgn s) * RtoC (swsh_norm ell) * Cpowz a (-2 * s))%C by ring. exact X. }
      unfold sgn in G. destruct (Z.even s) eqn:Es; unfold sgn; rewrite Es.
      + rewrite Rmult_1_l in G. exact G.
      + replace (-1 * swsh_norm64 ell) with (- swsh_norm64 ell) in G by ring. exact G.
    - apply E' in E. refine (finish _ _ _ _ E). replace (RtoC 0 - RtoC (swsh_norm ell) * (RtoC (sgn s) * RtoC 0))%C with (RtoC 0) by ring. rewrite Cmod_0.
      apply Rmult_le_pos; [|lra]. apply Rmult_le_pos; lra.
  Qed.
  Lemma S_a064_ok : Cmod a <= 101 / 100 * epsilon ->
    Cmod (S_elem_a064 lib b s (ell, m) - RtoC (swsh_norm ell) * (RtoC (sgn s) * Dm N p q a b))%C <= 42 * (IZR N + 1) * u64 * swsh_norm ell.
  Proof.
    intros Ha. pose proof (branch_a N p q a b ltac:(unfold N; lia) ltac:(unfold N, p; lia) ltac:(unfold N, q; lia) U Ha) as E.
    pose proof (big_part b a (nearly_unit_sym _ _ U) Ha) as BA. destruct (norm64_ok ell ltac:(lia)) as [_ B4]. pose proof u64_pos as Up.
    assert (N0 : 0 <= IZR N <= 64) by (unfold N; split; [apply (IZR_le 0)|apply (IZR_le _ 64)]; lia).
    unfold S_elem_a064. rewrite <- orb_assoc, S_out_tests.
    replace ((Z.abs m <=? ell) && (Z.abs s <=? ell))%Z with true by (symmetry; apply andb_true_iff; split; apply Z.leb_le; lia).
    cbn [negb]. rewrite orb_false_r, mod2_even. replace (2 * q - N)%Z with (-2 * s)%Z in E by (unfold q, N; lia).
    set (d := Dm N p q a b) in *.
    assert (E' : forall w, Cmod (d - w)%C <= 174 / 10 * (IZR N + 1) * u64 -> Cmod (RtoC (sgn s) * d - RtoC (sgn s) * w)%C <= 174 / 10 * (IZR N + 1) * u64).
    { intros w Hw. replace (RtoC (sgn s) * d - RtoC (sgn s) * w)%C with (RtoC (sgn s) * (d - w))%C by ring.
      rewrite Cmod_mult, Cmod_R, FloatWignerProofs4.Rabs_sgn. lra. }
    destruct (Z.eqb_spec m s), (Z.eqb_spec q (N - p)); try (unfold p, q, N in *; lia); cbn [negb].
    - apply E' in E. refine (finish _ _ _ _ E).
      assert (Sg : sgn ell = sgn s * sgn p).
      { unfold p. rewrite <- sgn_add. replace (s + (ell + m))%Z with (ell + 2 * s)%Z by lia. rewrite sgn_add, sgn_double. ring. }
      assert (G : Cmod (cscale64 (sgn ell * swsh_norm64 ell) (lib_cpow lib b (-2 * s)) - RtoC (swsh_norm ell) * (RtoC (sgn s) * (RtoC (sgn p) * Cpowz b (-2 * s))))%C
                  <= 246 / 10 * (IZR N + 1) * u64 * swsh_norm ell).
      { pose proof (scaled_power b (sgn ell) (FloatWignerProofs4.Rabs_sgn ell) BA) as X. rewrite RtoC_mult in X. replace (RtoC (sgn ell)) with (RtoC (sgn s) * RtoC (sgn p))%C in X by (rewrite Sg, RtoC_mult; ring).
        replace (RtoC (swsh_norm ell) * (RtoC (sgn s) * (RtoC (sgn p) * Cpowz b (-2 * s))))%C
          with (RtoC (sgn s) * RtoC (sgn p) * RtoC (swsh_norm ell) * Cpowz b (-2 * s))%C by ring. exact X. }
      unfold sgn at 1 in G. destruct (Z.even ell) eqn:Es.
      + rewrite Rmult_1_l in G. exact G.
      + replace (-1 * swsh_norm64 ell) with (- swsh_norm64 ell) in G by ring. exact G.
    - apply E' in E. refine (finish _ _ _ _ E). replace (RtoC 0 - RtoC (swsh_norm ell) * (RtoC (sgn s) * RtoC 0))%C with (RtoC 0) by ring. rewrite Cmod_0.
      apply Rmult_le_pos; [|lra]. apply Rmult_le_pos; lra.
  Qed.
End SRows0.
