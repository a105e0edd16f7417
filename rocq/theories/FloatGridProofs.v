(** Rounding errors of the reciprocal and of integer powers. *)
Require Import ZArith Lia List Reals Lra Bool Permutation.
From Flocq Require Import Core.
From Coquelicot Require Import Complex.
From Verif Require Import Base CBase ModesModel FloatIndexModel FloatPowersModel FloatPowersSpec FloatPowersProofs FloatConvModel FloatConvSpec FloatConvProofs
  FloatConvProps FloatPowersProps FloatWignerProofs FloatModesModel FloatModesSpec FloatModesProofs FloatModesProofs2 FloatModesProofs3 FloatModesProofs4 GridModel GridUfuncProps FloatGridModel FloatGridSpec.
Open Scope R_scope.
Set Bullet Behavior "Strict Subproofs".

(** ** The reciprocal *)
Lemma recip_pos f c d : 0 < c -> Rabs d <= c -> / 2 ^ 901 <= c <= 2 ^ 901 ->
  let rat := RN64 (d / c) in let D0 := c + d * (d / c) in let D := muladd64 f d rat c in
  Rabs (RN64 (1 / D) - 1 / D0) <= 5 * u64 * / D0 /\ Rabs (RN64 (rat / D) - d / c / D0) <= 6 * u64 * / D0.
Proof.
  intros Pc Hd Hc rat D0 D. pose proof u64_pos as U. pose proof eta_pos as E. pose proof eta_small as Es. destruct eta_900 as (E9 & E10).
  assert (Us : u64 <= / 10 ^ 15) by (unfold u64; lra). assert (Es' : eta <= / 1000 * u64) by lra.
  assert (R1 : Rabs (d / c) <= 1).
  { unfold Rdiv. rewrite Rabs_mult, (Rabs_pos_eq (/ c)) by (left; apply Rinv_0_lt_compat; auto).
    apply Rmult_le_reg_r with c; auto. rewrite Rmult_assoc, Rinv_l by lra. lra. }
  assert (Hr : Rabs (rat - d / c) <= u64 + eta).
  { unfold rat. eapply Rle_trans; [apply RN64_err|]. apply Rplus_le_compat_r. rewrite <- (Rmult_1_r u64) at 2. apply Rmult_le_compat_l; lra. }
  assert (ED : D0 = c * (1 + (d / c) * (d / c))) by (unfold D0; field; lra).
  set (t := d / c) in *. assert (T2 : 0 <= t * t <= 1). { split; [apply Rle_0_sqr|]. replace (t * t) with (Rabs t * Rabs t) by (rewrite <- Rabs_mult; apply Rabs_pos_eq, Rle_0_sqr).
    pose proof (Rabs_pos t). replace 1 with (1 * 1) by ring. apply Rmult_le_compat; lra. }
  assert (D1 : c <= D0 <= 2 * c). { rewrite ED. assert (0 <= c * (t * t) <= c * 1) by (split; [apply Rmult_le_pos; lra|apply Rmult_le_compat_l; lra]). lra. }
  assert (P0 : 0 < D0) by lra. pose proof (Rinv_0_lt_compat _ P0) as I0. set (i := / D0) in *.
  assert (HD : Rabs (D - D0) <= 367 / 100 * u64 * D0).
  { eapply Rle_trans; [apply (muladd64_err f c d rat t R1 Hr)|]. rewrite (Rabs_pos_eq c) by lra.
    assert (S : c + Rabs d <= 121 / 100 * D0).
    { rewrite ED. replace (Rabs d) with (c * Rabs t).
      - rewrite <- (Rabs_pos_eq (t * t)), Rabs_mult by lra. pose proof (Rabs_pos t). set (w := Rabs t) in *. clearbody w.
        assert (0 <= (w - 50 / 121) * (w - 50 / 121)) by apply Rle_0_sqr.
        replace (c + c * w) with (c * (1 + w)) by ring. rewrite <- Rmult_assoc, (Rmult_comm (121 / 100)), Rmult_assoc. apply Rmult_le_compat_l; lra.
      - rewrite <- (Rabs_pos_eq c) at 1 by lra. rewrite <- Rabs_mult. f_equal. unfold t. field. lra. }
    assert (u64 * (c + Rabs d) <= u64 * (121 / 100 * D0)) by (apply Rmult_le_compat_l; lra).
    assert (/ 1000 * u64 * / 2 ^ 901 <= / 1000 * u64 * D0) by (apply Rmult_le_compat_l; lra). lra. }
  destruct (inv_close _ D0 (367 / 100 * u64) P0 ltac:(lra) HD) as (HI & HI2). fold i in HI, HI2.
  assert (Hi : eta <= / 1000 * u64 * i).
  { apply Rmult_le_reg_r with D0; auto. unfold i. rewrite Rmult_assoc, Rinv_l by lra. apply Rle_trans with (eta * 2 ^ 902); [apply Rmult_le_compat_l; [lra|]|lra].
    replace (2 ^ 902) with (2 * 2 ^ 901) by reflexivity. lra. }
  replace (1 / D0) with i by (unfold i; field; lra). replace (t / D0) with (t * i) by reflexivity.
  replace (rat / D) with (rat * (1 / D)) by (unfold Rdiv; ring).
  set (v := 1 / D) in *. assert (ui : 0 <= u64 * i) by (apply Rmult_le_pos; lra).
  assert (uv : u64 * Rabs v <= u64 * ((1 + / 500) * i)) by (apply Rmult_le_compat_l; lra). split.
  - replace (RN64 v - i) with ((RN64 v - v) + (v - i)) by ring.
    eapply Rle_trans; [apply Rabs_triang|]. pose proof (RN64_err v) as H1. lra.
  - assert (HP : Rabs (rat * v - t * i) <= 469 / 100 * (u64 * i)).
    { replace (rat * v - t * i) with ((rat - t) * v + t * (v - i)) by ring. eapply Rle_trans; [apply Rabs_triang|]. rewrite !Rabs_mult.
      assert (K1 : Rabs (rat - t) * Rabs v <= (u64 + eta) * ((1 + / 500) * i)) by (apply Rmult_le_compat; auto; apply Rabs_pos).
      assert (K2 : Rabs t * Rabs (v - i) <= 1 * ((1 + / 500) * (367 / 100 * u64) * i)) by (apply Rmult_le_compat; auto; apply Rabs_pos).
      assert (K3 : eta * i <= / 1000 * u64 * i) by (apply Rmult_le_compat_r; lra). lra. }
    assert (HP2 : Rabs (rat * v) <= (1 + / 100) * i).
    { replace (rat * v) with ((rat * v - t * i) + t * i) by ring. eapply Rle_trans; [apply Rabs_triang|]. rewrite (Rabs_mult t), (Rabs_pos_eq i) by lra.
      assert (Rabs t * i <= 1 * i) by (apply Rmult_le_compat_r; lra). assert (u64 * i <= / 10 ^ 15 * i) by (apply Rmult_le_compat_r; lra). lra. }
    replace (RN64 (rat * v) - t * i) with ((RN64 (rat * v) - rat * v) + (rat * v - t * i)) by ring.
    eapply Rle_trans; [apply Rabs_triang|]. pose proof (RN64_err (rat * v)) as HR.
    assert (u64 * Rabs (rat * v) <= u64 * ((1 + / 100) * i)) by (apply Rmult_le_compat_l; lra). lra.
Qed.

Lemma recip_part f c d : c <> 0 -> Rabs d <= Rabs c -> / 2 ^ 901 <= Rabs c <= 2 ^ 901 ->
  let rat := RN64 (d / c) in let D0 := c + d * (d / c) in let D := muladd64 f d rat c in
  Rabs (RN64 (1 / D) - 1 / D0) <= 5 * u64 * / Rabs D0 /\ Rabs (RN64 (rat / D) - d / c / D0) <= 6 * u64 * / Rabs D0.
Proof.
  intros Hc Hd Hb rat D0 D. destruct (Rtotal_order c 0) as [N|[Z|P]]; [|contradiction|].
  - rewrite (Rabs_left c) in Hd, Hb by auto. pose proof (recip_pos f (- c) (- d) ltac:(lra) ltac:(rewrite Rabs_Ropp; auto) Hb) as H. cbv zeta in H.
    replace (- d / - c) with (d / c) in H by (field; auto). fold rat in H.
    rewrite muladd64_opp in H. fold D in H. replace (- c + - d * (d / c)) with (- D0) in H by (unfold D0; ring).
    assert (D0 <= c). { unfold D0. assert (0 <= - c * ((d / c) * (d / c))) by (apply Rmult_le_pos; [lra|apply Rle_0_sqr]). replace (d * (d / c)) with (c * ((d / c) * (d / c))) by (field; auto). lra. }
    rewrite (Rabs_left D0) by lra.
    assert (E : forall x, x / - D = - (x / D)). { intros x. unfold Rdiv. rewrite Rinv_opp. ring. }
    rewrite !E, !RN64_opp in H.
    replace (1 / - D0) with (- (1 / D0)) in H by (field; lra). replace (d / c / - D0) with (- (d / c / D0)) in H by (field; split; lra).
    destruct H as (H1 & H2). split.
    + rewrite <- Rabs_Ropp. replace (- (RN64 (1 / D) - 1 / D0)) with (- RN64 (1 / D) - - (1 / D0)) by ring. exact H1.
    + rewrite <- Rabs_Ropp. replace (- (RN64 (rat / D) - d / c / D0)) with (- RN64 (rat / D) - - (d / c / D0)) by ring. exact H2.
  - rewrite (Rabs_pos_eq c) in Hd, Hb by lra. assert (c <= D0). { unfold D0. assert (0 <= c * ((d / c) * (d / c))) by (apply Rmult_le_pos; [lra|apply Rle_0_sqr]). replace (d * (d / c)) with (c * ((d / c) * (d / c))) by (field; auto). lra. }
    rewrite (Rabs_pos_eq D0) by lra. apply recip_pos; auto.
Qed.

Lemma creciprocal64_err f z : near_reciprocal z (creciprocal64 f z).
Proof.
  intros Hz. pose proof (Cmod_sqr z) as S. pose proof (Cmod_ge_0 z) as Z0. pose proof u64_pos as U.
  assert (Sum : forall w : C, Cmod w <= Rabs (Re w) + Rabs (Im w)).
  { intros w. pose proof (Cmod_sqr w) as Sw. pose proof (Cmod_ge_0 w). pose proof (Rabs_pos (Re w)). pose proof (Rabs_pos (Im w)).
    apply Rsqr_incr_0; [|lra|lra]. unfold Rsqr. rewrite Sw. rewrite <- (Rabs_pos_eq (Re w * Re w)), <- (Rabs_pos_eq (Im w * Im w)) by apply Rle_0_sqr. rewrite !Rabs_mult.
    assert (0 <= Rabs (Re w) * Rabs (Im w)) by (apply Rmult_le_pos; auto). lra. }
  assert (RI : Re (/ z)%C = Re z / (Re z * Re z + Im z * Im z)).
  { unfold Re, Im, Cinv. cbn [fst snd]. replace (fst z ^ 2) with (fst z * fst z) by ring. replace (snd z ^ 2) with (snd z * snd z) by ring. reflexivity. }
  assert (II : Im (/ z)%C = - Im z / (Re z * Re z + Im z * Im z)).
  { unfold Re, Im, Cinv. cbn [fst snd]. replace (fst z ^ 2) with (fst z * fst z) by ring. replace (snd z ^ 2) with (snd z * snd z) by ring. reflexivity. }
  unfold creciprocal64. eapply Rle_trans; [apply Sum|]. rewrite Re_sub, Im_sub, RI, II.
  destruct (Rle_dec (Rabs (Im z)) (Rabs (Re z))) as [L|L]; cbn [Re Im fst snd].
  - change (fst z) with (Re z) in *. change (snd z) with (Im z) in *.
    destruct (larger_part (Re z) (Im z) (Cmod z) Z0 S L Hz) as (Nc & Hc & Hi & Pm).
    destruct (recip_part f (Re z) (Im z) Nc L Hc) as (H1 & H2).
    set (rat := RN64 (Im z / Re z)) in *. set (D := muladd64 f (Im z) rat (Re z)) in *. set (D0 := Re z + Im z * (Im z / Re z)) in *.
    assert (Nz : Re z * Re z + Im z * Im z <> 0) by (rewrite <- S; assert (0 < Cmod z * Cmod z) by (apply Rmult_lt_0_compat; auto); lra).
    replace (Re z / (Re z * Re z + Im z * Im z)) with (1 / D0) by (unfold D0; field; split; auto).
    replace (- Im z / (Re z * Re z + Im z * Im z)) with (- (Im z / Re z / D0)) by (unfold D0; field; split; auto).
    replace (- rat / D) with (- (rat / D)) by (unfold Rdiv; ring). rewrite RN64_opp.
    replace (- RN64 (rat / D) - - (Im z / Re z / D0)) with (- (RN64 (rat / D) - Im z / Re z / D0)) by ring. rewrite Rabs_Ropp.
    assert (u64 * / Rabs D0 <= u64 * / Cmod z) by (apply Rmult_le_compat_l; lra). lra.
  - change (fst z) with (Re z) in *. change (snd z) with (Im z) in *.
    destruct (larger_part (Im z) (Re z) (Cmod z) Z0 ltac:(rewrite S; ring) ltac:(lra) Hz) as (Nc & Hc & Hi & Pm).
    destruct (recip_part f (Im z) (Re z) Nc ltac:(lra) Hc) as (H1 & H2).
    set (rat := RN64 (Re z / Im z)) in *. set (D := muladd64 f (Re z) rat (Im z)) in *. set (D0 := Im z + Re z * (Re z / Im z)) in *.
    assert (Nz : Re z * Re z + Im z * Im z <> 0) by (rewrite <- S; assert (0 < Cmod z * Cmod z) by (apply Rmult_lt_0_compat; auto); lra).
    assert (Nz' : Im z * Im z + Re z * Re z <> 0) by lra.
    replace (Re z / (Re z * Re z + Im z * Im z)) with (Re z / Im z / D0) by (unfold D0; field; repeat split; auto).
    replace (- Im z / (Re z * Re z + Im z * Im z)) with (- (1 / D0)) by (unfold D0; field; repeat split; auto).
    replace (-1 / D) with (- (1 / D)) by (unfold Rdiv; ring). rewrite RN64_opp.
    replace (- RN64 (1 / D) - - (1 / D0)) with (- (RN64 (1 / D) - 1 / D0)) by ring. rewrite Rabs_Ropp.
    assert (u64 * / Rabs D0 <= u64 * / Cmod z) by (apply Rmult_le_compat_l; lra). lra.
Qed.

(** ** Integer powers *)
Lemma eta_800 : eta <= / 1000 * u64 * / 2 ^ 801.
Proof.
  destruct eta_900 as (E & _). eapply Rle_trans; [exact E|]. pose proof u64_pos. apply Rmult_le_compat_l; [lra|].
  apply Rinv_le_contravar; [apply pow_lt; lra|]. apply Rle_pow; [lra|lia].
Qed.
Definition dl : R := 301 / 100 * u64.
Definition pclose (j : nat) (x X : C) : Prop := Cmod (x - X)%C <= ((1 + dl) ^ j - 1) * Cmod X.
Lemma dl_pos : 0 < dl.
Proof. unfold dl. pose proof u64_pos. lra. Qed.
Lemma dl_pow_ge1 j : 1 <= (1 + dl) ^ j.
Proof. apply pow_R1_Rle. pose proof dl_pos. lra. Qed.
Lemma dl_pow n : (n <= 100)%nat -> (1 + dl) ^ n <= 1 + 102 / 100 * INR n * dl.
Proof.
  induction n as [|n IH]; intros H; [simpl; lra|]. rewrite S_INR. simpl. specialize (IH ltac:(lia)). pose proof dl_pos as P.
  assert (N : INR n <= 100) by (replace 100 with (INR 100) by (simpl; lra); apply le_INR; lia). pose proof (pos_INR n) as N0.
  assert (Ds : dl <= / 10 ^ 14) by (unfold dl, u64; lra).
  apply Rle_trans with ((1 + dl) * (1 + 102 / 100 * INR n * dl)); [apply Rmult_le_compat_l; lra|].
  assert (K : INR n * dl <= 100 * / 10 ^ 14) by (apply Rmult_le_compat; lra).
  assert (K2 : INR n * dl * dl <= / 100 * dl) by (apply Rmult_le_compat_r; lra). lra.
Qed.
Lemma pclose_refl X : pclose 0 X X.
Proof. unfold pclose. replace (X - X)%C with (RtoC 0) by ring. rewrite Cmod_0. simpl. lra. Qed.
Lemma pclose_size j x X : pclose j x X -> Cmod x <= (1 + dl) ^ j * Cmod X.
Proof.
  intros H. replace x with ((x - X) + X)%C by ring. eapply Rle_trans; [apply Cmod_triangle|]. unfold pclose in H. lra.
Qed.
Lemma pclose_mul t i j x y X Y : adds_all 2 2 (fst t) -> adds_all 2 2 (snd t) -> pclose i x X -> pclose j y Y -> / 2 ^ 800 <= Cmod X * Cmod Y ->
  pclose (S (i + j)) (cmul64 t x y) (X * Y)%C.
Proof.
  intros T1 T2 Hx Hy HB. pose proof (pclose_size _ _ _ Hx) as Sx. pose proof (pclose_size _ _ _ Hy) as Sy.
  pose proof (cmul64_err t x y T1 T2) as HM. rewrite tiny_eta in HM. pose proof u64_pos as U. pose proof eta_pos as E. pose proof dl_pos as D.
  unfold pclose in *. pose proof (dl_pow_ge1 i) as Gi. pose proof (dl_pow_ge1 j) as Gj. rewrite Cmod_mult. simpl. rewrite pow_add.
  set (a := (1 + dl) ^ i) in *. set (b := (1 + dl) ^ j) in *. clearbody a b.
  pose proof (Cmod_ge_0 X) as X0. pose proof (Cmod_ge_0 Y) as Y0. pose proof (Cmod_ge_0 x) as x0. pose proof (Cmod_ge_0 y) as y0.
  assert (P : 0 <= Cmod X * Cmod Y) by (apply Rmult_le_pos; auto).
  assert (Pab : 1 <= a * b) by (replace 1 with (1 * 1) by ring; apply Rmult_le_compat; lra).
  assert (Q : Cmod x * Cmod y <= a * b * (Cmod X * Cmod Y)).
  { replace (a * b * (Cmod X * Cmod Y)) with ((a * Cmod X) * (b * Cmod Y)) by ring. apply Rmult_le_compat; auto. }
  assert (H1 : Cmod (x * y - X * Y)%C <= (a * b - 1) * (Cmod X * Cmod Y)).
  { replace (x * y - X * Y)%C with ((x - X) * y + X * (y - Y))%C by ring. eapply Rle_trans; [apply Cmod_triangle|]. rewrite !Cmod_mult.
    assert (K1 : Cmod (x - X)%C * Cmod y <= (a - 1) * Cmod X * (b * Cmod Y)) by (apply Rmult_le_compat; auto using Cmod_ge_0).
    assert (K2 : Cmod X * Cmod (y - Y)%C <= Cmod X * ((b - 1) * Cmod Y)) by (apply Rmult_le_compat_l; auto).
    replace ((a * b - 1) * (Cmod X * Cmod Y)) with ((a - 1) * Cmod X * (b * Cmod Y) + Cmod X * ((b - 1) * Cmod Y)) by ring. lra. }
  replace (cmul64 t x y - X * Y)%C with ((cmul64 t x y - x * y) + (x * y - X * Y))%C by ring. eapply Rle_trans; [apply Cmod_triangle|].
  set (p := Cmod X * Cmod Y) in *. clearbody p.
  assert (Ep : eta <= / 1000 * (u64 * p)).
  { pose proof eta_800 as E8. assert (/ 2 ^ 801 <= p). { eapply Rle_trans; [|exact HB]. apply Rinv_le_contravar; [apply pow_lt; lra|]. apply Rle_pow; [lra|lia]. }
    assert (/ 1000 * u64 * / 2 ^ 801 <= / 1000 * u64 * p) by (apply Rmult_le_compat_l; lra). lra. }
  assert (Eq : eta <= / 1000 * (u64 * (a * b * p))).
  { eapply Rle_trans; [exact Ep|]. assert (p <= a * b * p) by (rewrite <- (Rmult_1_l p) at 1; apply Rmult_le_compat_r; lra).
    apply Rmult_le_compat_l; [lra|]. apply Rmult_le_compat_l; lra. }
  assert (uQ : u64 * (Cmod x * Cmod y) <= u64 * (a * b * p)) by (apply Rmult_le_compat_l; lra).
  replace (((1 + dl) * (a * b) - 1) * p) with (dl * (a * b * p) + (a * b - 1) * p) by ring. unfold dl. lra.
Qed.

Lemma pow_mid x n m : 0 <= x -> (m <= n)%nat -> / 2 ^ 800 <= x ^ n -> / 2 ^ 800 <= x ^ m.
Proof.
  intros X H Hn. assert (P : 0 < / 2 ^ 800) by (apply Rinv_0_lt_compat, pow_lt; lra).
  assert (L : / 2 ^ 800 <= 1). { rewrite <- Rinv_1. apply Rinv_le_contravar; [lra|]. apply pow_R1_Rle. lra. }
  destruct (Rle_dec 1 x) as [G|G].
  - apply Rle_trans with 1; auto. apply pow_R1_Rle. auto.
  - eapply Rle_trans; [exact Hn|]. replace n with (m + (n - m))%nat by lia. rewrite pow_add. apply Rle_trans with (x ^ m * 1); [|lra].
    apply Rmult_le_compat_l; [apply pow_le; auto|]. rewrite <- (pow1 (n - m)). apply pow_incr. lra.
Qed.

Lemma cpow_loop64_err t z N : (forall k, adds_all 2 2 (fst (t k)) /\ adds_all 2 2 (snd (t k))) -> / 2 ^ 800 <= Cmod z ^ N ->
  forall n k aa p i j a b, pclose i aa (Cpow z a) -> pclose j p (Cpow z b) -> (a + b * Pos.to_nat n <= N)%nat ->
  pclose (i + (j + 1) * Pos.to_nat n) (cpow_loop64 t k aa p n) (Cpow z (a + b * Pos.to_nat n)).
Proof.
  intros T HN. assert (HM : forall a b, (a + b <= N)%nat -> / 2 ^ 800 <= Cmod (Cpow z a) * Cmod (Cpow z b)).
  { intros a b H. rewrite !Cmod_Cpow, <- pow_add. apply (pow_mid _ N); auto. apply Cmod_ge_0. }
  induction n as [n IH|n IH|]; intros k aa p i j a b Ha Hb HL; cbn [cpow_loop64].
  - pose proof (Pos2Nat.is_pos n) as Pn. rewrite Pos2Nat.inj_xI in HL |- *.
    replace (i + (j + 1) * S (2 * Pos.to_nat n))%nat with (S (i + j) + (S (j + j) + 1) * Pos.to_nat n)%nat by lia.
    replace (a + b * S (2 * Pos.to_nat n))%nat with ((a + b) + (b + b) * Pos.to_nat n)%nat by lia.
    assert (B1 : (b <= b * Pos.to_nat n)%nat) by nia.
    apply IH; [| |nia].
    + rewrite Cpow_add. apply pclose_mul; auto; try apply T. apply HM. nia.
    + rewrite Cpow_add. apply pclose_mul; auto; try apply T. apply HM. nia.
  - pose proof (Pos2Nat.is_pos n) as Pn. rewrite Pos2Nat.inj_xO in HL |- *.
    replace (i + (j + 1) * (2 * Pos.to_nat n))%nat with (i + (S (j + j) + 1) * Pos.to_nat n)%nat by lia.
    replace (a + b * (2 * Pos.to_nat n))%nat with (a + (b + b) * Pos.to_nat n)%nat by lia.
    assert (B1 : (b <= b * Pos.to_nat n)%nat) by nia.
    apply IH; [auto| |nia].
    rewrite Cpow_add. apply pclose_mul; auto; try apply T. apply HM. nia.
  - rewrite Pos2Nat.inj_1 in HL |- *. rewrite !Nat.mul_1_r in *. replace (i + (j + 1))%nat with (S (i + j)) by lia.
    rewrite Cpow_add. apply pclose_mul; auto; apply T.
Qed.

Lemma pclose_bound n x X : (n <= 99)%nat -> pclose n x X -> Cmod (x - X)%C <= 31 / 10 * INR n * u64 * Cmod X.
Proof.
  intros H Hc. eapply Rle_trans; [exact Hc|]. apply Rmult_le_compat_r; [apply Cmod_ge_0|]. pose proof (dl_pow n ltac:(lia)) as D. unfold dl in *.
  pose proof (pos_INR n). pose proof u64_pos. assert (0 <= INR n * u64) by (apply Rmult_le_pos; lra). lra.
Qed.
Lemma pclose_mono i j x X : (i <= j)%nat -> pclose i x X -> pclose j x X.
Proof.
  intros H Hc. unfold pclose in *. eapply Rle_trans; [exact Hc|]. apply Rmult_le_compat_r; [apply Cmod_ge_0|]. apply Rplus_le_compat_r.
  apply Rle_pow; auto. pose proof dl_pos. lra.
Qed.

Lemma inv_pert d n x X : (n <= 99)%nat -> / 2 ^ 800 <= Cmod X <= 2 ^ 800 -> Cmod (x - X)%C <= 31 / 10 * INR n * u64 * Cmod X ->
  Cmod (cdiv64 d (RtoC 1) x - / X)%C <= (4 * INR n + 20) * u64 * / Cmod X.
Proof.
  intros Hn HX Hx. pose proof u64_pos as U. pose proof eta_pos as E. pose proof (pos_INR n) as N0.
  assert (N : INR n <= 99) by (replace 99 with (INR 99) by (simpl; lra); apply le_INR; auto).
  assert (Us : u64 <= / 10 ^ 15) by (unfold u64; lra).
  assert (P8 : 0 < / 2 ^ 800) by (apply Rinv_0_lt_compat, pow_lt; lra). assert (P0 : 0 < Cmod X) by lra.
  assert (nu : 0 <= INR n * u64 <= / 10 ^ 12). { split; [apply Rmult_le_pos; lra|]. apply Rle_trans with (99 * / 10 ^ 15); [apply Rmult_le_compat; lra|lra]. }
  assert (Sm : Cmod (x - X)%C <= / 1000 * Cmod X). { eapply Rle_trans; [exact Hx|]. apply Rmult_le_compat_r; lra. }
  assert (Lo : 999 / 1000 * Cmod X <= Cmod x).
  { assert (Cmod X <= Cmod (x - X)%C + Cmod x); [|lra]. replace X with (- (x - X) + x)%C at 1 by ring. eapply Rle_trans; [apply Cmod_triangle|]. rewrite Cmod_opp. lra. }
  assert (Hi : Cmod x <= 1001 / 1000 * Cmod X).
  { replace x with ((x - X) + X)%C by ring. eapply Rle_trans; [apply Cmod_triangle|]. lra. }
  assert (R9 : / 2 ^ 900 <= Cmod x <= 2 ^ 900).
  { assert (2 ^ 801 <= 2 ^ 900) by (apply Rle_pow; [lra|lia]). assert (E1 : 2 ^ 801 = 2 * 2 ^ 800) by reflexivity.
    assert (P : 0 < 2 ^ 800) by (apply pow_lt; lra). split; [|lra].
    apply Rle_trans with (/ 2 ^ 801); [apply Rinv_le_contravar; [apply pow_lt; lra|auto]|]. rewrite E1, Rinv_mult. lra. }
  assert (Px : 0 < Cmod x) by lra. pose proof (cdiv64_err d (RtoC 1) x R9) as HD. rewrite Cmod_1, tiny_eta in HD.
  pose proof (Rinv_0_lt_compat _ P0) as I0. pose proof (Rinv_0_lt_compat _ Px) as J0.
  assert (HJ : / Cmod x <= 1002 / 1000 * / Cmod X).
  { apply Rmult_le_reg_r with (Cmod x); auto. rewrite Rinv_l by lra. apply Rle_trans with (1002 / 1000 * / Cmod X * (999 / 1000 * Cmod X)).
    - replace (1002 / 1000 * / Cmod X * (999 / 1000 * Cmod X)) with (1002 / 1000 * (999 / 1000)) by (field; lra). lra.
    - apply Rmult_le_compat_l; lra. }
  assert (NX : X <> RtoC 0) by (intros ->; rewrite Cmod_0 in P0; lra). assert (Nx : x <> RtoC 0) by (intros ->; rewrite Cmod_0 in Px; lra).
  assert (HI : Cmod (RtoC 1 / x - / X)%C <= 31 / 10 * (INR n * u64) * / Cmod x).
  { replace (RtoC 1 / x - / X)%C with (- (x - X) * / x * / X)%C by (field; auto). rewrite !Cmod_mult, Cmod_opp, !Cmod_inv by auto.
    apply Rle_trans with (31 / 10 * INR n * u64 * Cmod X * / Cmod x * / Cmod X).
    - apply Rmult_le_compat_r; [lra|]. apply Rmult_le_compat_r; [lra|]. exact Hx.
    - right. field. split; lra. }
  replace (cdiv64 d (RtoC 1) x - / X)%C with ((cdiv64 d (RtoC 1) x - RtoC 1 / x) + (RtoC 1 / x - / X))%C by ring.
  eapply Rle_trans; [apply Cmod_triangle|]. eapply Rle_trans; [apply Rplus_le_compat; [exact HD|exact HI]|].
  set (I := / Cmod X) in *. set (J := / Cmod x) in *.
  assert (IL : / 2 ^ 800 <= I) by (apply Rinv_le_contravar; lra).
  assert (Ee : eta <= / 1000 * (u64 * I)).
  { pose proof eta_800 as E8. assert (/ 2 ^ 801 <= I). { eapply Rle_trans; [|exact IL]. apply Rinv_le_contravar; [apply pow_lt; lra|]. apply Rle_pow; [lra|lia]. }
    assert (/ 1000 * u64 * / 2 ^ 801 <= / 1000 * u64 * I) by (apply Rmult_le_compat_l; lra). lra. }
  assert (Es : eta <= / 1000 * u64) by (pose proof eta_small; lra).
  assert (eJ : eta * J <= / 1000 * u64 * J) by (apply Rmult_le_compat_r; lra).
  assert (uJ : u64 * J <= u64 * (1002 / 1000 * I)) by (apply Rmult_le_compat_l; lra).
  assert (nJ : INR n * u64 * J <= INR n * u64 * (1002 / 1000 * I)) by (apply Rmult_le_compat_l; lra).
  assert (0 <= u64 * I) by (apply Rmult_le_pos; lra). assert (0 <= INR n * u64 * I) by (apply Rmult_le_pos; lra).
  replace (1 / Cmod x) with J by (unfold J; field; lra). lra.
Qed.

Lemma cpow64_err lib t d z e : (forall k, adds_all 2 2 (fst (t k)) /\ adds_all 2 2 (snd (t k))) -> near_power z e (cpow64 lib t d z e).
Proof.
  intros T. unfold near_power. split; [intros ->; reflexivity|]. split; [|split].
  - intros He ->. unfold cpow64. destruct (Z.eqb_spec e 0); [lia|]. destruct (Z.ltb_spec 0 e); [|lia].
    rewrite (proj2 (Ceqb_iff (RtoC 0) (RtoC 0)) eq_refl). reflexivity.
  - intros ->. unfold cpow64. cbn [Z.eqb Z.ltb Z.compare]. destruct (Ceqb z (RtoC 0)) eqn:EZ; cbn [andb]; [|reflexivity]. symmetry. apply Ceqb_iff. exact EZ.
  - intros Hl. set (b := Cpow z (Z.to_nat (Z.abs e))). intros Hb. assert (Nz : forall n, (0 < n)%nat -> b = Cpow z n -> z <> RtoC 0).
    { intros n Hn Eb ->. assert (P8 : 0 < / 2 ^ 800) by (apply Rinv_0_lt_compat, pow_lt; lra).
      rewrite Eb, Cmod_Cpow, Cmod_0, pow_i in Hb by auto. lra. }
    destruct (Z.eq_dec e 0) as [->|E0]; [split; intros; lia|].
    assert (NZ : z <> RtoC 0) by (apply (Nz (Z.to_nat (Z.abs e))); [lia|reflexivity]).
    assert (CE : Ceqb z (RtoC 0) = false).
    { destruct (Ceqb z (RtoC 0)) eqn:EZ; [|reflexivity]. exfalso. apply NZ. apply Ceqb_iff. exact EZ. }
    set (n := Z.to_nat (Z.abs e)) in *. assert (Hn : (n <= 99)%nat) by (unfold n; lia).
    assert (EN : IZR (Z.abs e) = INR n) by (rewrite INR_IZR_INZ; f_equal; unfold n; lia).
    assert (HM : forall a b, (a + b <= n)%nat -> / 2 ^ 800 <= Cmod (Cpow z a) * Cmod (Cpow z b)).
    { intros a c H. rewrite !Cmod_Cpow, <- pow_add. apply (pow_mid _ n); auto; [apply Cmod_ge_0|]. rewrite <- Cmod_Cpow. apply Hb. }
    assert (P1 : pclose 0 z (Cpow z 1)). { replace (Cpow z 1) with z by (simpl; ring). apply pclose_refl. }
    assert (LP : pclose n (match Z.abs e with Zpos p => cpow_loop64 t 0 (RtoC 1) z p | _ => RtoC 1 end) b).
    { destruct (Z.abs e) as [|p|p] eqn:EA; try lia. assert (En : n = Pos.to_nat p) by reflexivity.
      pose proof (cpow_loop64_err t z n T ltac:(rewrite <- Cmod_Cpow; apply Hb) p 0 (RtoC 1) z 0 0 0 1 (pclose_refl (Cpow z 0)) P1 ltac:(lia)) as H.
      replace (0 + (0 + 1) * Pos.to_nat p)%nat with n in H by lia. replace (0 + 1 * Pos.to_nat p)%nat with n in H by lia. exact H. }
    assert (B0 : 0 <= Cmod b) by apply Cmod_ge_0. pose proof u64_pos as U. pose proof (pos_INR n) as N0.
    assert (nub : 0 <= INR n * u64 * Cmod b) by (apply Rmult_le_pos; auto; apply Rmult_le_pos; lra).
    split; intros He.
    + rewrite <- (Z.abs_eq e) at 2 by lia. rewrite EN.
      assert (HC : pclose n (cpow64 lib t d z e) b).
      { unfold cpow64. destruct (Z.eqb_spec e 0); [lia|]. rewrite CE. cbn [andb].
        destruct (Z.eqb_spec e 1) as [->|]; [apply (pclose_mono 0); [lia|exact P1]|].
        destruct (Z.eqb_spec e 2) as [->|].
        { apply (pclose_mono 1); [unfold n; simpl; lia|]. change b with (Cpow z (1 + 1)). rewrite Cpow_add. apply (pclose_mul _ 0 0); auto; try apply T; try (apply HM; unfold n; simpl; lia). }
        destruct (Z.eqb_spec e 3) as [->|].
        { apply (pclose_mono 2); [unfold n; simpl; lia|]. change b with (Cpow z (1 + (1 + 1))). rewrite Cpow_add. apply (pclose_mul _ 0 1); auto; try apply T; try (apply HM; unfold n; simpl; lia).
          rewrite Cpow_add. apply (pclose_mul _ 0 0); auto; try apply T; try (apply HM; unfold n; simpl; lia). }
        destruct (Z.ltb_spec (-100) e); [|lia]. destruct (Z.ltb_spec e 100); [|lia]. cbn [andb]. destruct (Z.ltb_spec e 0); [lia|]. exact LP. }
      pose proof (pclose_bound n _ _ Hn HC) as HB. lra.
    + rewrite <- (Z.abs_neq e) by lia. rewrite EN.
      unfold cpow64. destruct (Z.eqb_spec e 0); [lia|]. rewrite CE. cbn [andb].
      destruct (Z.eqb_spec e 1); [lia|]. destruct (Z.eqb_spec e 2); [lia|]. destruct (Z.eqb_spec e 3); [lia|].
      destruct (Z.ltb_spec (-100) e); [|lia]. destruct (Z.ltb_spec e 100); [|lia]. cbn [andb]. destruct (Z.ltb_spec e 0); [|lia]. cbv zeta.
      apply inv_pert; auto. apply pclose_bound; auto.
Qed.
