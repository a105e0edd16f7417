(** Rounding errors of one term of the product of two Modes objects. *)
Require Import ZArith Lia List Reals Lra Bool.
From Flocq Require Import Core.
From Coquelicot Require Import Complex.
From Verif Require Import Base BaseProofs CBase CSum RSum Fact SWSHModel Wigner3jModel FloatIndexModel FloatIndexProofs FloatPowersModel FloatPowersSpec FloatPowersProofs FloatPowersProps
  FloatConvModel FloatConvSpec FloatConvProofs FloatWignerModel FloatModesModel FloatModesSpec FloatModesProofs FloatModesProofs2 FloatModesProofs4 FloatPartsProofs
  FloatLog FloatMultModel.
Set Bullet Behavior "Strict Subproofs".
Open Scope R_scope.

(** [x] is [y] up to [a] roundings and an absolute error of [e] *)
Definition clo (a e : R) (x y : C) : Prop := Cmod (x - y)%C <= a * u64 * Cmod y + e.

Lemma u64_bd : 0 < u64 <= / 10 ^ 12.
Proof. pose proof u64_small as [U0 U1]. split; auto. simpl in *. lra. Qed.

Lemma rounded_err z : Cmod (rounded z - z)%C <= u64 * Cmod z + 2 * eta.
Proof.
  pose proof (RN64_err (Re z)) as HR. pose proof (RN64_err (Im z)) as HI. pose proof u64_bd as [U0 U1]. pose proof eta_pos as E0.
  set (a := u64 * Rabs (Re z)) in *. set (b := u64 * Rabs (Im z)) in *.
  assert (A0 : 0 <= a) by (apply Rmult_le_pos; [lra|apply Rabs_pos]). assert (B0 : 0 <= b) by (apply Rmult_le_pos; [lra|apply Rabs_pos]).
  apply Rle_trans with (Cmod ((a, b) + (eta, eta))%C).
  - rewrite !Cmod_abs. apply sqrt_le_1_alt. unfold Cplus, Cminus, Copp, rounded. cbn [Re Im fst snd].
    replace (RN64 (Re z) + - fst z)%R with (RN64 (Re z) - Re z)%R by (unfold Re; ring). replace (RN64 (Im z) + - snd z)%R with (RN64 (Im z) - Im z)%R by (unfold Im; ring).
    rewrite (Rabs_pos_eq (a + eta)), (Rabs_pos_eq (b + eta)) by lra.
    apply Rplus_le_compat; apply Rmult_le_compat; auto using Rabs_pos.
  - eapply Rle_trans; [apply Cmod_triangle|]. apply Rplus_le_compat.
    + apply Req_le. rewrite (Cmod_abs z). rewrite Cmod_abs. cbn [Re Im fst snd]. rewrite (Rabs_pos_eq a), (Rabs_pos_eq b) by auto. unfold a, b.
      replace (u64 * Rabs (Re z) * (u64 * Rabs (Re z)) + u64 * Rabs (Im z) * (u64 * Rabs (Im z)))
        with (u64 * u64 * (Rabs (Re z) * Rabs (Re z) + Rabs (Im z) * Rabs (Im z))) by ring.
      rewrite sqrt_mult_alt by (apply Rmult_le_pos; lra). rewrite sqrt_square by lra. reflexivity.
    + eapply Rle_trans; [apply Cmod_le_sum|]. rewrite Rabs_pos_eq by lra. lra.
Qed.

Lemma clo_refl y : clo 0 0 y y.
Proof. unfold clo. replace (y - y)%C with (RtoC 0) by ring. rewrite Cmod_0. lra. Qed.
Lemma clo_size a e x y : clo a e x y -> Cmod x <= (1 + a * u64) * Cmod y + e.
Proof. unfold clo. intros H. replace x with ((x - y) + y)%C by ring. eapply Rle_trans; [apply Cmod_triangle|]. lra. Qed.
Lemma clo_weak a b e d x y : clo a e x y -> a <= b -> e <= d -> clo b d x y.
Proof.
  unfold clo. intros H Ha He. eapply Rle_trans; [exact H|]. apply Rplus_le_compat; auto. apply Rmult_le_compat_r; [apply Cmod_ge_0|].
  apply Rmult_le_compat_r; auto. apply Rlt_le, u64_bd.
Qed.
Lemma clo_mul a b e d x y x' y' : 0 <= a <= 20 -> 0 <= b <= 20 -> 0 <= e -> 0 <= d -> clo a e x y -> clo b d x' y' ->
  clo (a + b + / 1000) (101 / 100 * (e * Cmod y' + d * Cmod y) + e * d) (x * x')%C (y * y')%C.
Proof.
  intros Ha Hb He Hd H1 H2. pose proof (clo_size _ _ _ _ H2) as S2. unfold clo in *. pose proof u64_bd as [U0 U1].
  replace (x * x' - y * y')%C with ((x - y) * x' + y * (x' - y'))%C by ring. eapply Rle_trans; [apply Cmod_triangle|]. rewrite !Cmod_mult.
  pose proof (Cmod_ge_0 y) as Y0. pose proof (Cmod_ge_0 y') as Y1. pose proof (Cmod_ge_0 x') as X1.
  set (Y := Cmod y) in *. set (Y' := Cmod y') in *. set (X := Cmod x') in *. clearbody Y Y' X.
  assert (AU : 0 <= a * u64 <= / 1000) by (split; [apply Rmult_le_pos; lra|]; assert (a * u64 <= 20 * / 10 ^ 12) by (apply Rmult_le_compat; lra); lra).
  assert (BU : 0 <= b * u64 <= / 1000) by (split; [apply Rmult_le_pos; lra|]; assert (b * u64 <= 20 * / 10 ^ 12) by (apply Rmult_le_compat; lra); lra).
  assert (ABU : a * (b * u64) <= / 1000) by (assert (a * (b * u64) <= 20 * (20 * / 10 ^ 12)) by (apply Rmult_le_compat; try lra; apply Rmult_le_compat; lra); lra).
  assert (K1 : Cmod (x - y)%C * X <= (a * u64 * Y + e) * ((1 + b * u64) * Y' + d)) by (apply Rmult_le_compat; auto using Cmod_ge_0).
  assert (K2 : Y * Cmod (x' - y')%C <= Y * (b * u64 * Y' + d)) by (apply Rmult_le_compat_l; auto).
  assert (P : 0 <= Y * Y') by (apply Rmult_le_pos; auto).
  assert (Q1 : a * (b * u64) * (u64 * (Y * Y')) <= / 1000 * (u64 * (Y * Y'))) by (apply Rmult_le_compat_r; [apply Rmult_le_pos; lra|auto]).
  assert (Q2 : a * u64 * (d * Y) <= / 1000 * (d * Y)) by (apply Rmult_le_compat_r; [apply Rmult_le_pos; lra|lra]).
  assert (Q3 : b * u64 * (e * Y') <= / 1000 * (e * Y')) by (apply Rmult_le_compat_r; [apply Rmult_le_pos; lra|lra]).
  assert (P1 : 0 <= d * Y) by (apply Rmult_le_pos; auto). assert (P2 : 0 <= e * Y') by (apply Rmult_le_pos; auto).
  replace ((a * u64 * Y + e) * ((1 + b * u64) * Y' + d)) with (a * u64 * (Y * Y') + a * (b * u64) * (u64 * (Y * Y')) + a * u64 * (d * Y) + e * Y' + b * u64 * (e * Y') + e * d) in K1 by ring.
  replace (Y * (b * u64 * Y' + d)) with (b * u64 * (Y * Y') + d * Y) in K2 by ring.
  replace ((a + b + / 1000) * u64 * (Y * Y')) with (a * u64 * (Y * Y') + b * u64 * (Y * Y') + / 1000 * (u64 * (Y * Y'))) by ring.
  lra.
Qed.
Lemma clo_op k m z a e w y : 0 <= k <= 20 -> 0 <= a <= 20 -> 0 <= e -> Cmod (z - w)%C <= k * u64 * Cmod w + m -> clo a e w y ->
  clo (a + k + / 1000) (101 / 100 * e + m) z y.
Proof.
  intros Hk Ha He H1 H2. pose proof (clo_size _ _ _ _ H2) as S2. unfold clo in *. pose proof u64_bd as [U0 U1].
  replace (z - y)%C with ((z - w) + (w - y))%C by ring. eapply Rle_trans; [apply Cmod_triangle|].
  pose proof (Cmod_ge_0 y) as Y0. pose proof (Cmod_ge_0 w) as W0. set (Y := Cmod y) in *. set (W := Cmod w) in *. clearbody Y W.
  assert (KU : 0 <= k * u64 <= / 1000) by (split; [apply Rmult_le_pos; lra|]; assert (k * u64 <= 20 * / 10 ^ 12) by (apply Rmult_le_compat; lra); lra).
  assert (AKU : a * (k * u64) <= / 1000) by (assert (a * (k * u64) <= 20 * (20 * / 10 ^ 12)) by (apply Rmult_le_compat; try lra; apply Rmult_le_compat; lra); lra).
  assert (K1 : k * u64 * W <= k * u64 * ((1 + a * u64) * Y + e)) by (apply Rmult_le_compat_l; lra).
  assert (Q1 : a * (k * u64) * (u64 * Y) <= / 1000 * (u64 * Y)) by (apply Rmult_le_compat_r; [apply Rmult_le_pos; lra|auto]).
  assert (Q2 : k * u64 * e <= / 1000 * e) by (apply Rmult_le_compat_r; lra).
  replace (k * u64 * ((1 + a * u64) * Y + e)) with (k * u64 * Y + a * (k * u64) * (u64 * Y) + k * u64 * e) in K1 by ring.
  replace ((a + k + / 1000) * u64 * Y) with (a * u64 * Y + k * u64 * Y + / 1000 * (u64 * Y)) by ring. lra.
Qed.
Lemma clo_rmul a b e d x y x' y' : 0 <= a <= 9 -> 0 <= b <= 9 -> 0 <= e -> 0 <= d -> clo a e x y -> clo b d x' y' ->
  clo (a + b + 101 / 100) (2 * (e * Cmod y' + d * Cmod y + e * d) + 2 * eta) (rounded (x * x')%C) (y * y')%C.
Proof.
  intros Ha Hb He Hd H1 H2. pose proof (clo_mul a b e d _ _ _ _ ltac:(lra) ltac:(lra) He Hd H1 H2) as M.
  pose proof (Cmod_ge_0 y). pose proof (Cmod_ge_0 y'). pose proof eta_pos.
  assert (P1 : 0 <= e * Cmod y') by (apply Rmult_le_pos; auto). assert (P2 : 0 <= d * Cmod y) by (apply Rmult_le_pos; auto). assert (P3 : 0 <= e * d) by (apply Rmult_le_pos; auto).
  pose proof (rounded_err (x * x')%C) as R. rewrite <- (Rmult_1_l u64) in R at 1.
  assert (E0 : 0 <= 101 / 100 * (e * Cmod y' + d * Cmod y) + e * d) by lra. assert (A0 : 0 <= a + b + / 1000 <= 20) by lra.
  pose proof (clo_op 1 (2 * eta) _ _ _ _ _ ltac:(lra) A0 E0 R M) as Q. eapply clo_weak; [exact Q|lra|lra].
Qed.

(** real numbers *)
Lemma rounded_real x : RtoC (RN64 x) = rounded (RtoC x).
Proof. unfold rounded, RtoC. cbn [Re Im fst snd]. now rewrite RN64_zero. Qed.
Lemma rounded_mult x y : RtoC (RN64 (x * y)) = rounded (RtoC x * RtoC y)%C.
Proof. rewrite rounded_real, RtoC_mult. reflexivity. Qed.
Lemma cscale_rounded c z : cscale64 c z = rounded (RtoC c * z)%C.
Proof.
  unfold cscale64, rounded, RtoC, Cmult. cbn [Re Im fst snd]. f_equal; f_equal; unfold Re, Im; ring.
Qed.
Lemma cadd_rounded a b : cadd64 a b = rounded (a + b)%C.
Proof. unfold cadd64, rounded, Cplus, Re, Im. reflexivity. Qed.
Lemma clo_lg k x y : 0 <= k <= 100 -> lg k x y -> clo (k + / 1000 * k) 0 (RtoC x) (RtoC y).
Proof.
  intros Hk H. unfold clo. rewrite <- RtoC_minus, !Cmod_R, Rplus_0_r. eapply Rle_trans; [apply (lg_err _ _ _ H); simpl; lra|].
  apply Rmult_le_compat_r; [apply Rabs_pos|]. apply Rmult_le_compat_r; [apply Rlt_le, u64_bd|]. simpl. lra.
Qed.

Lemma sqrt_le_64 a : a <= 4096 -> sqrt a <= 64.
Proof. intros H. replace 64 with (sqrt (64 * 64)) by (apply sqrt_square; lra). apply sqrt_le_1_alt. lra. Qed.
Lemma low_of x : / 100 <= x -> / 2 ^ 1000 <= Rabs x.
Proof.
  intros H. rewrite Rabs_pos_eq by lra. assert (/ 2 ^ 1000 <= / 2 ^ 7) by (apply Rinv_le_contravar; [apply pow_lt; lra|]; apply Rle_pow; [lra|lia]).
  simpl (2 ^ 7) in H0. lra.
Qed.

Lemma sqrt_odd_ok l : (0 <= l <= 1447)%Z -> clo (11 / 10) 0 (RtoC (sqrt_odd64 l)) (RtoC (sqrt (IZR (2 * l + 1)))) /\ 1 <= sqrt (IZR (2 * l + 1)) <= 64.
Proof.
  intros Hl. assert (B : 1 <= IZR (2 * l + 1) <= 4096) by (split; [apply (IZR_le 1)|apply (IZR_le _ 4096)]; lia).
  assert (S1 : 1 <= sqrt (IZR (2 * l + 1))) by (rewrite <- sqrt_1 at 1; apply sqrt_le_1_alt; lra).
  split; [|split; [auto|apply sqrt_le_64; lra]].
  unfold sqrt_odd64. rewrite RN64_int by lia. eapply clo_weak; [apply (clo_lg 1)|lra|lra]; [lra|].
  apply lg_RN. apply low_of. lra.
Qed.
Lemma norm_ok l : (0 <= l <= 1447)%Z -> clo (26 / 10) 0 (RtoC (swsh_norm64 l)) (RtoC (swsh_norm l)) /\ / 10 <= swsh_norm l <= 64.
Proof.
  intros Hl. assert (B : 1 <= IZR (2 * l + 1) <= 4096) by (split; [apply (IZR_le 1)|apply (IZR_le _ 4096)]; lia).
  unfold swsh_norm64, swsh_norm, int64. rewrite RN64_int by lia. pose proof PI_bounds as PB. set (I := IZR (2 * l + 1)) in *.
  assert (P3 : / 50 <= I / (4 * PI) <= 4096).
  { split.
    - apply Rmult_le_reg_r with (4 * PI); [lra|]. unfold Rdiv. rewrite (Rmult_assoc I), Rinv_l, Rmult_1_r by lra. lra.
    - apply Rmult_le_reg_r with (4 * PI); [lra|]. unfold Rdiv. rewrite (Rmult_assoc I), Rinv_l, Rmult_1_r by lra. lra. }
  assert (S0 : / 10 <= sqrt (I / (4 * PI)) <= 64).
  { split; [|apply sqrt_le_64; lra]. rewrite <- (sqrt_square (/ 10)) by lra. apply sqrt_le_1_alt. lra. }
  split; [|lra].
  assert (L1 : lg 1 pi64 PI) by (apply lg_RN, low_of; lra).
  assert (L2 : lg 2 (RN64 (4 * pi64)) (4 * PI)).
  { replace 2 with (1 + 1) by ring. apply lg_RN'; [apply lg_scale; auto|]. apply low_of.
    pose proof (lg_size _ _ _ L1 ltac:(simpl; lra)) as Sz. rewrite (Rabs_pos_eq PI) in Sz by lra. pose proof (lg_pos _ _ _ L1 ltac:(lra)). rewrite Rabs_pos_eq in Sz by lra. lra. }
  assert (L3 : lg 3 (RN64 (I / RN64 (4 * pi64))) (I / (4 * PI))).
  { assert (L3 : lg (0 + 2) (I / RN64 (4 * pi64)) (I / (4 * PI))) by (apply lg_div; auto using lg_refl).
    replace 3 with (0 + 2 + 1) by ring. apply lg_RN'; auto. apply low_of.
    pose proof (lg_size _ _ _ L3 ltac:(simpl; lra)) as Sz. rewrite (Rabs_pos_eq (I / (4 * PI))) in Sz by lra. pose proof (lg_pos _ _ _ L3 ltac:(lra)). rewrite Rabs_pos_eq in Sz by lra. lra. }
  assert (L4 : lg (3 / 2) (sqrt (RN64 (I / RN64 (4 * pi64)))) (sqrt (I / (4 * PI)))) by (apply lg_sqrt; auto; lra).
  eapply clo_weak; [apply (clo_lg (3 / 2 + 1)); [lra|]|lra|lra].
  apply lg_RN'; auto. apply low_of.
  pose proof (lg_size _ _ _ L4 ltac:(simpl; lra)) as Sz. rewrite (Rabs_pos_eq (sqrt (I / (4 * PI)))) in Sz by lra. pose proof (lg_pos _ _ _ L4 ltac:(lra)). rewrite Rabs_pos_eq in Sz by lra. lra.
Qed.

Lemma pm1_sgn_RtoC n : IZR (pm1 n) = sgn n.
Proof. unfold sgn, pm1. destruct (Z.even _); reflexivity. Qed.
Lemma sgn_cases n : sgn n = 1 \/ sgn n = -1.
Proof. unfold sgn. destruct (Z.even n); auto. Qed.

Lemma factor_ok l1 l2 l3 s m ws wm : (0 <= l3 <= 1447)%Z -> Rabs ws <= 5 / 4 -> Rabs wm <= 5 / 4 ->
  clo (36 / 10) (7 * eta) (RtoC (factor64 l1 l2 l3 s m ws wm)) (RtoC (sgn (l1 + l2 + l3 + s + m) * sqrt (IZR (2 * l3 + 1)) * ws * wm))
  /\ Rabs (sgn (l1 + l2 + l3 + s + m) * sqrt (IZR (2 * l3 + 1)) * ws * wm) <= 100.
Proof.
  intros Hl Hs Hm. unfold factor64. rewrite pm1_sgn_RtoC. destruct (sqrt_odd_ok l3 Hl) as [R1 B1]. pose proof eta_pos as E0.
  set (sg := sgn (l1 + l2 + l3 + s + m)). set (q := sqrt (IZR (2 * l3 + 1))) in *.
  assert (SG : sg = 1 \/ sg = -1) by apply sgn_cases.
  assert (E1 : RN64 (sg * sqrt_odd64 l3) = sg * sqrt_odd64 l3).
  { destruct SG as [-> | ->]; [rewrite Rmult_1_l; apply RN64_idem|]. replace (-1 * sqrt_odd64 l3) with (- sqrt_odd64 l3) by ring. rewrite RN64_opp. f_equal. apply RN64_idem. }
  rewrite E1.
  assert (C1 : clo (11 / 10) 0 (RtoC (sg * sqrt_odd64 l3)) (RtoC (sg * q))).
  { unfold clo in *. rewrite <- RtoC_minus in *. rewrite !Cmod_R in *. destruct SG as [-> | ->].
    - rewrite !Rmult_1_l. auto.
    - replace (-1 * sqrt_odd64 l3 - -1 * q) with (- (sqrt_odd64 l3 - q)) by ring. replace (-1 * q) with (- q) by ring. rewrite !Rabs_Ropp. auto. }
  assert (Q0 : Rabs (sg * q) = q). { rewrite Rabs_mult, (Rabs_pos_eq q) by lra. destruct SG as [-> | ->]; [rewrite Rabs_R1|rewrite Rabs_left by lra]; ring. }
  pose proof (Rabs_pos ws) as W0. pose proof (Rabs_pos wm) as W1.
  assert (C2 : clo (23 / 10) (2 * eta) (RtoC (RN64 (sg * sqrt_odd64 l3 * ws))) (RtoC (sg * q * ws))).
  { rewrite rounded_mult, (RtoC_mult _ ws). eapply clo_weak; [apply (clo_rmul (11 / 10) 0 0 0); try lra; [exact C1|apply clo_refl]|lra|lra]. }
  assert (Q1 : Rabs (sg * q * ws) <= 80) by (rewrite Rabs_mult, Q0; apply Rle_trans with (64 * (5 / 4)); [apply Rmult_le_compat; lra|lra]).
  split.
  - rewrite rounded_mult, (RtoC_mult (sg * q * ws)). eapply clo_weak; [apply (clo_rmul (23 / 10) 0 (2 * eta) 0); try lra; [exact C2|apply clo_refl]|lra|].
    rewrite Cmod_R. assert (2 * eta * Rabs wm <= 2 * eta * (5 / 4)) by (apply Rmult_le_compat_l; lra). lra.
  - rewrite Rabs_mult. pose proof (Rabs_pos (sg * q * ws)). apply Rle_trans with (80 * (5 / 4)); [apply Rmult_le_compat; lra|lra].
Qed.

(** one term *)
Definition pterm64 (t : order * order) (c s1 s2 : R) (f g : C) : C := cmul64 t (cscale64 c (cscale64 s1 f)) (cscale64 s2 g).

Lemma cscale64_zero c : cscale64 c (RtoC 0) = RtoC 0.
Proof. unfold cscale64, RtoC. cbn [Re Im fst snd]. rewrite Rmult_0_r, RN64_zero. reflexivity. Qed.
Lemma dot64_zero_r x y t : (forall k, y k = 0) -> dot64 x y t = 0.
Proof. intros H. induction t; cbn [dot64]; rewrite ?IHt1, ?IHt2, ?IHt, ?H, ?Rmult_0_r, ?Rplus_0_r; apply RN64_zero. Qed.
Lemma cmul64_zero_r t c : cmul64 t c (RtoC 0) = RtoC 0.
Proof.
  unfold cmul64, cdot64. rewrite !dot64_zero_r; [reflexivity| |]; intros k; unfold two; cbn [Re Im fst snd RtoC]; destruct (k <? 1)%Z; reflexivity.
Qed.
Lemma pterm64_0l t c s1 s2 g : pterm64 t c s1 s2 (RtoC 0) g = RtoC 0.
Proof. unfold pterm64. rewrite !cscale64_zero. apply cmul64_zero. Qed.
Lemma pterm64_0r t c s1 s2 f : pterm64 t c s1 s2 f (RtoC 0) = RtoC 0.
Proof. unfold pterm64. rewrite !cscale64_zero. apply cmul64_zero_r. Qed.

Lemma eta_1000 : 2 ^ 70 * eta <= / 2 ^ 1000.
Proof.
  unfold eta. rewrite pow2_bpow, <- low_bpow, <- bpow_plus. apply bpow_le. lia.
Qed.

Lemma pterm64_err t l1 l2 l3 s m ws wm f g : adds_all 2 2 (fst t) -> adds_all 2 2 (snd t) ->
  (0 <= l1 <= 1447)%Z -> (0 <= l2 <= 1447)%Z -> (0 <= l3 <= 1447)%Z -> Rabs ws <= 5 / 4 -> Rabs wm <= 5 / 4 ->
  let c := sgn (l1 + l2 + l3 + s + m) * sqrt (IZR (2 * l3 + 1)) * ws * wm in
  clo (27 / 2) (2 ^ 18 * eta * ((1 + Cmod f) * (1 + Cmod g))) (pterm64 t (factor64 l1 l2 l3 s m ws wm) (swsh_norm64 l1) (sqrt_odd64 l2) f g)
    (RtoC (c * swsh_norm l1 * sqrt (IZR (2 * l2 + 1))) * f * g)%C.
Proof.
  intros T1 T2 H1 H2 H3 Hs Hm c. destruct (factor_ok l1 l2 l3 s m ws wm H3 Hs Hm) as [Fc Bc]. fold c in Fc, Bc.
  destruct (norm_ok l1 H1) as [F1 B1]. destruct (sqrt_odd_ok l2 H2) as [F2 B2].
  set (C64 := factor64 l1 l2 l3 s m ws wm) in *. set (n64 := swsh_norm64 l1) in *. set (o64 := sqrt_odd64 l2) in *.
  set (n1 := swsh_norm l1) in *. set (o2 := sqrt (IZR (2 * l2 + 1))) in *. clearbody C64 n64 o64 n1 o2 c.
  pose proof eta_pos as E0. assert (E1 : eta <= / 1000). { pose proof eta_1000 as E. pose proof (pow_R1_Rle 2 1000 ltac:(lra)) as P. assert (/ 2 ^ 1000 <= / 1) by (apply Rinv_le_contravar; lra). simpl (2 ^ 70) in E. lra. }
  pose proof (Cmod_ge_0 f) as f0. pose proof (Cmod_ge_0 g) as g0. set (F := 1 + Cmod f). set (G := 1 + Cmod g).
  assert (F1' : 1 <= F) by (unfold F; lra). assert (G1 : 1 <= G) by (unfold G; lra).
  assert (A1 : clo (362 / 100) (2 * eta) (cscale64 n64 f) (RtoC n1 * f)%C).
  { rewrite cscale_rounded. eapply clo_weak; [apply (clo_rmul (26 / 10) 0 0 0); try lra; [exact F1|apply clo_refl]|lra|lra]. }
  assert (A2 : clo (212 / 100) (2 * eta) (cscale64 o64 g) (RtoC o2 * g)%C).
  { rewrite cscale_rounded. eapply clo_weak; [apply (clo_rmul (11 / 10) 0 0 0); try lra; [exact F2|apply clo_refl]|lra|lra]. }
  assert (M1 : Cmod (RtoC n1 * f)%C <= 64 * F). { rewrite Cmod_mult, Cmod_R, Rabs_pos_eq by lra. apply Rmult_le_compat; unfold F; lra. }
  assert (M2 : Cmod (RtoC o2 * g)%C <= 64 * G). { rewrite Cmod_mult, Cmod_R, Rabs_pos_eq by lra. apply Rmult_le_compat; unfold G; lra. }
  pose proof (Cmod_ge_0 (RtoC n1 * f)%C) as M10. pose proof (Cmod_ge_0 (RtoC o2 * g)%C) as M20.
  assert (A3 : clo (824 / 100) (1400 * eta * F) (cscale64 C64 (cscale64 n64 f)) (RtoC c * (RtoC n1 * f))%C).
  { rewrite (cscale_rounded C64). eapply clo_weak; [apply (clo_rmul (36 / 10) (362 / 100) (7 * eta) (2 * eta)); try lra; [exact Fc|exact A1]|lra|].
    rewrite Cmod_R.
    assert (7 * eta * Cmod (RtoC n1 * f)%C <= 7 * eta * (64 * F)) by (apply Rmult_le_compat_l; lra).
    assert (2 * eta * Rabs c <= 2 * eta * 100) by (apply Rmult_le_compat_l; lra).
    assert (7 * eta * (2 * eta) <= 7 * eta * 1) by (apply Rmult_le_compat_l; lra).
    assert (eta * 1 <= eta * F) by (apply Rmult_le_compat_l; lra). lra. }
  assert (M3 : Cmod (RtoC c * (RtoC n1 * f))%C <= 6400 * F).
  { rewrite Cmod_mult, Cmod_R. replace (6400 * F) with (100 * (64 * F)) by ring. apply Rmult_le_compat; auto using Rabs_pos. }
  replace (RtoC (c * n1 * o2) * f * g)%C with ((RtoC c * (RtoC n1 * f)) * (RtoC o2 * g))%C by (rewrite !RtoC_mult; ring).
  unfold pterm64. set (X := cscale64 C64 (cscale64 n64 f)) in *. set (Y := cscale64 o64 g) in *.
  pose proof (cmul64_err t X Y T1 T2) as HM. rewrite <- Cmod_mult in HM. rewrite tiny_eta in HM.
  pose proof (clo_mul (824 / 100) (212 / 100) (1400 * eta * F) (2 * eta) _ _ _ _ ltac:(lra) ltac:(lra)
    ltac:(apply Rmult_le_pos; lra) ltac:(lra) A3 A2) as HX.
  set (y := (RtoC c * (RtoC n1 * f))%C) in *. set (y' := (RtoC o2 * g)%C) in *. clearbody y y' X Y.
  assert (EF : 0 <= eta * F) by (apply Rmult_le_pos; lra).
  assert (EFG : eta * F <= eta * (F * G)). { rewrite <- Rmult_assoc. rewrite <- (Rmult_1_r (eta * F)) at 1. apply Rmult_le_compat_l; lra. }
  assert (EE : eta * 1 <= eta * F) by (apply Rmult_le_compat_l; lra).
  set (Eb := 101 / 100 * (1400 * eta * F * Cmod y' + 2 * eta * Cmod y) + 1400 * eta * F * (2 * eta)) in *.
  assert (Hb : Eb <= 110000 * (eta * (F * G))).
  { unfold Eb.
    assert (1400 * eta * F * Cmod y' <= 1400 * eta * F * (64 * G)) by (apply Rmult_le_compat_l; lra).
    assert (2 * eta * Cmod y <= 2 * eta * (6400 * F)) by (apply Rmult_le_compat_l; lra).
    assert (1400 * eta * F * (2 * eta) <= 1400 * eta * F * 1) by (apply Rmult_le_compat_l; lra). lra. }
  assert (Eb0 : 0 <= Eb).
  { unfold Eb. pose proof (Cmod_ge_0 y). assert (0 <= 1400 * eta * F * Cmod y') by (apply Rmult_le_pos; lra). assert (0 <= 2 * eta * Cmod y) by (apply Rmult_le_pos; lra).
    assert (0 <= 1400 * eta * F * (2 * eta)) by (apply Rmult_le_pos; lra). lra. }
  assert (HM' : Cmod (cmul64 t X Y - X * Y)%C <= 3 * u64 * Cmod (X * Y)%C + 8 * eta) by lra.
  eapply clo_weak; [apply (clo_op 3 (8 * eta) _ (824 / 100 + 212 / 100 + / 1000) Eb _ _ ltac:(lra) ltac:(lra) Eb0 HM' HX)|lra|].
  replace (2 ^ 18) with 262144 by (simpl; ring). lra.
Qed.
