(** The calculator in double precision with all projections zero. *)
From Coq Require Import ZArith Reals Lia Lra Bool.
From Flocq Require Import Core.
From Verif Require Import Base BaseProofs Fact RSum ThreeJSpec ThreeJ ThreeJ2 ThreeJ3 ThreeJ4 ThreeJZero Wigner3jModel Wigner3jWs Wigner3jFwd Wigner3jProofs.
From Verif Require Import FloatIndexModel FloatIndexProofs FloatModesModel FloatPowersProps FloatConvProofs FloatPartsProofs FloatThreeJModel FloatLog FloatThreeJProofs.
From Verif Require Import ThreeJZero.
Local Open Scope Z_scope.
Set Bullet Behavior "Strict Subproofs".

Section Zero.
Variable w : widths.
Variables size a b : Z.
Hypothesis Hw : ok_widths a b 0 0 w.
Hypotheses (Ha : 0 <= a) (Hb : 0 <= b) (Hsz : a + b < size) (Hab : a + b <= 2047).
Notation d := (Z.abs (a - b)).
Notation jmax := (a + b).
Notation q := (Z.min a b).
Notation G ws blk i := (get size ws blk i).
Notation xx := (xx a b 0 0).
Notation zz := (zz a b 0 0).
Notation gg := (gg a b 0 0).
Notation x64 := (x64 a b 0 0).
Notation z64 := (z64 a b 0 0).

Let Ha0 : Z.abs 0 <= a.
Proof. lia. Qed.
Let Hb0 : Z.abs 0 <= b.
Proof. lia. Qed.
Let Hab' : a + b <= 2 ^ 20.
Proof. lia. Qed.
Let Jd : jlo a b 0 0 = d.
Proof. apply jlo0. Qed.

Lemma xk j : d - 1 <= j <= jmax -> Xf64 w j a b (- (0 + 0)) = Ok (x64 j).
Proof. intros. apply X64_ok; auto. rewrite Jd. lia. Qed.
Lemma zk j : d <= j <= jmax + 1 -> Zf64 w j a b (- (0 + 0)) = Ok (z64 j).
Proof. intros. apply Z64_ok; auto. rewrite Jd. lia. Qed.
Lemma yk j : d <= j <= jmax -> Yf64 w j a b 0 0 = 0%R.
Proof.
  intros. rewrite (Y64_ok w a b 0 0 Hw) by (rewrite Jd; lia).
  replace (yy a b 0 0 j) with 0%R by (unfold yy, Bq; f_equal; ring). apply RN64_0.
Qed.
Lemma xl j : d <= j < jmax -> 0 < j -> lg (5 / 2) (x64 j) (xx j) /\ (1 <= xx j)%R.
Proof. intros. apply x64_lg; auto. rewrite Jd. lia. Qed.
Lemma zl j : d < j <= jmax -> lg (5 / 2) (z64 j) (zz j) /\ (1 <= zz j)%R.
Proof. intros. apply z64_lg; auto. rewrite Jd. lia. Qed.

(** every symbol is zero or not tiny *)
Lemma parity k : d <= k <= jmax -> (exists i, 0 <= i /\ k = d + 2 * i) \/ (exists i, 0 <= i /\ k = d + 2 * i + 1).
Proof.
  intros H. destruct (Z.Even_or_Odd (k - d)) as [[i E]|[i E]]; [left|right]; exists i; lia.
Qed.
Lemma low_or k : d <= k <= jmax -> gg k = 0%R \/ (/ 2 ^ 29 <= Rabs (gg k))%R.
Proof.
  intros H. destruct (parity k H) as [(i & Hi & ->)|(i & Hi & ->)].
  - right. apply g_low'; auto; lia.
  - left. apply g_odd; auto; lia.
Qed.
Lemma high k : d <= k <= jmax -> (Rabs (gg k) <= 1)%R.
Proof. intros. apply g_high; auto. Qed.
Lemma top_low : (/ 2 ^ 29 <= Rabs (gg jmax))%R.
Proof. replace jmax with (d + 2 * q) by lia. apply g_low'; auto; lia. Qed.
Lemma bot_low : (/ 2 ^ 29 <= Rabs (gg d))%R.
Proof. replace d with (d + 2 * 0) at 1 by lia. apply g_low'; auto; lia. Qed.

Ltac side := first [assumption|lia|auto; lia].
Ltac rw := repeat first
  [ rewrite xk by side | rewrite zk by side | rewrite yk by side
  | rewrite rdv_ok by side | rewrite wrv_ok by side | rewrite fdiv64_ok by assumption | progress cbn [bind] ].

(** a multiple of the symbols within [N] units *)
Definition mult (N c : R) (ws : arr R) (blk lo hi : Z) : Prop := forall k, lo <= k <= hi -> lg N (G ws blk k) (c * gg k).

Lemma RN_0plus x : RN64 (RN64 x + RN64 0) = RN64 x.
Proof. rewrite RN64_0, Rplus_0_r. apply RN64_idem. Qed.

Lemma cg_ok c k : (/ 1100 <= Rabs c)%R -> d <= k <= jmax -> (c * gg k = 0 \/ / 2 ^ 40 <= Rabs (c * gg k))%R.
Proof.
  intros Hc Hk. destruct (low_or k Hk) as [-> | L]; [left; ring|right]. apply (prod_low 11 29); [lia| |auto].
  eapply Rle_trans; [|exact Hc]. apply Rinv_le_contravar; lra.
Qed.
Lemma p900 x : (/ 2 ^ 80 <= Rabs x)%R -> (/ 2 ^ 900 <= Rabs x)%R.
Proof. intros H. eapply Rle_trans; [|exact H]. apply pow_inv_le. lia. Qed.
Lemma p60 x : (/ 2 ^ 40 <= Rabs x)%R -> (/ 2 ^ 80 <= Rabs x)%R.
Proof. intros H. eapply Rle_trans; [|exact H]. apply pow_inv_le. lia. Qed.

Definition K (j : Z) : R := (8 * IZR ((jmax - j) / 2))%R.
Lemma K_bound j : d <= j <= jmax -> (0 <= K j <= 8 * IZR q)%R /\ (K j <= 2 ^ 14)%R.
Proof.
  intros H. assert (B : 0 <= (jmax - j) / 2 <= q).
  { split; [apply Z.div_pos; lia|]. apply Z.div_le_upper_bound; lia. }
  assert (I1 : (0 <= IZR ((jmax - j) / 2) <= IZR q)%R) by (split; apply IZR_le; lia).
  assert (I2 : (IZR q <= 1024)%R) by (apply IZR_le; lia). unfold K. split; lra.
Qed.
Lemma K_step j i : j = jmax - (2 * i + 1) -> K (j - 1) = (K j + 8)%R.
Proof.
  intros ->. unfold K. replace (jmax - (jmax - (2 * i + 1) - 1)) with ((i + 1) * 2) by lia. rewrite Z.div_mul by lia.
  replace (jmax - (jmax - (2 * i + 1))) with (1 + i * 2) by lia. rewrite Z.div_add by lia. change (1 / 2) with 0. rewrite Z.add_0_l, plus_IZR. ring.
Qed.
Lemma K_mono j : d < j <= jmax -> (K j <= K (j - 1))%R.
Proof. intros H. unfold K. apply Rmult_le_compat_l; [lra|]. apply IZR_le. apply Z.div_le_mono; lia. Qed.

Lemma downstep64 ws j c : alen ws = 4 * size -> d < j < jmax -> (/ 1100 <= Rabs c)%R -> mult (K j) c ws 3 j jmax ->
  exists ws1 ws2 c', step_down64 w size a b 0 0 ws j = Ok ws1 /\ rescale_down64 size a b ws1 j = Ok ws2 /\
    alen ws2 = 4 * size /\ (/ 1100 <= Rabs c')%R /\ mult (K (j - 1)) c' ws2 3 (j - 1) jmax /\
    (forall blk k, blk <> 3 -> 0 <= k < size -> G ws2 blk k = G ws blk k).
Proof.
  intros Hl Hj Hc Hp. destruct (xl j ltac:(lia) ltac:(lia)) as [Xl X1]. destruct (zl j ltac:(lia)) as [Zl Z1].
  destruct (K_bound j ltac:(lia)) as [[K0 _] K1]. destruct (K_bound (j - 1) ltac:(lia)) as [_ K2]. pose proof (K_mono j ltac:(lia)) as KM.
  assert (Z0 : z64 j <> 0%R) by (apply (lg_neq _ _ _ Zl); lra).
  set (v := RN64 (- RN64 (RN64 (x64 j * G ws 3 (j + 1)) + RN64 (0 * G ws 3 j)) / z64 j)).
  set (ws1 := put size ws 3 (j - 1) v).
  assert (E1 : step_down64 w size a b 0 0 ws j = Ok ws1) by (unfold step_down64; cbv zeta; rw; reflexivity).
  (* the new entry, and the room for the rescaling *)
  assert (V : (gg (j - 1)%Z = 0%R /\ v = 0%R) \/ (gg (j - 1)%Z <> 0%R /\ lg (K j + 7) v (c * gg (j - 1)%Z) /\ K (j - 1) = (K j + 8)%R)).
  { pose proof (g_rec a b j ltac:(lia)) as Rec. unfold v. rewrite Rmult_0_l, RN_0plus. pose proof (Hp (j + 1) ltac:(lia)) as Q.
    destruct (parity (j - 1) ltac:(lia)) as [(i & Hi & E)|(i & Hi & E)].
    - right. assert (Gn : (/ 2 ^ 29 <= Rabs (gg (j - 1)%Z))%R) by (rewrite E; apply g_low'; auto; lia).
      assert (Gn0 : gg (j - 1)%Z <> 0%R) by (intros Z; rewrite Z, Rabs_R0 in Gn; pose proof (pow_inv_pos 29); lra).
      assert (Gj : gg (j + 1) <> 0%R).
      { intros Z. rewrite Z, Rmult_0_r, Rplus_0_l in Rec. apply Rmult_integral in Rec. destruct Rec; [lra|auto]. }
      destruct (cg_ok c (j + 1) Hc ltac:(lia)) as [Z|L1].
      { exfalso. apply Rmult_integral in Z. destruct Z as [Z|Z]; [rewrite Z, Rabs_R0 in Hc; lra|auto]. }
      destruct (cg_ok c (j - 1) Hc ltac:(lia)) as [Z|L2].
      { exfalso. apply Rmult_integral in Z. destruct Z as [Z|Z]; [rewrite Z, Rabs_R0 in Hc; lra|auto]. }
      split; auto. split.
      + replace (K j + 7)%R with (5 / 2 + K j + 1 + 5 / 2 + 1)%R by lra. apply lg_RN0; [|lra|right; apply p900, p60; auto].
        replace (c * gg (j - 1)%Z)%R with (- (xx j * (c * gg (j + 1))) / zz j)%R.
        2:{ apply (Rmult_eq_reg_r (zz j)); [|lra]. replace (- (xx j * (c * gg (j + 1))) / zz j * zz j)%R with (- (xx j * (c * gg (j + 1))))%R by (field; lra).
            replace (xx j * (c * gg (j + 1)))%R with (c * (xx j * gg (j + 1)))%R by ring.
            replace (xx j * gg (j + 1))%R with (- (zz j * gg (j - 1)%Z))%R by lra. ring. }
        apply lg_div; auto. apply lg_opp. apply lg_RN0; [apply lg_mul; auto|lra|right].
        apply p900, p60. rewrite Rabs_mult, (Rabs_pos_eq (xx j)) by lra. pose proof (Rabs_pos (c * gg (j + 1))).
        assert (1 * Rabs (c * gg (j + 1)) <= xx j * Rabs (c * gg (j + 1)))%R by (apply Rmult_le_compat_r; lra). lra.
      + apply (K_step j (q - i - 1)). lia.
    - left. assert (Gz : gg (j - 1)%Z = 0%R) by (rewrite E; apply g_odd; auto; lia).
      rewrite Gz, Rmult_0_r, Rplus_0_r in Rec. split; auto.
      assert (Gj : gg (j + 1) = 0%R) by (apply Rmult_integral in Rec; destruct Rec; [lra|auto]).
      rewrite Gj, Rmult_0_r in Q. apply lg_0 in Q. rewrite Q, Rmult_0_r, RN64_0, Ropp_0. unfold Rdiv. rewrite Rmult_0_l. apply RN64_0. }
  assert (P1 : forall k, j - 1 <= k <= jmax -> lg (K j + 7) (G ws1 3 k) (c * gg k) /\ (k <> j - 1 -> lg (K j) (G ws1 3 k) (c * gg k))).
  { intros k Hk. unfold ws1. destruct (Z.eq_dec k (j - 1)) as [->|Ne].
    - rewrite get_put_same. split; [|tauto]. destruct V as [[Gz ->]|(Gn & V & _)]; auto.
      rewrite Gz, Rmult_0_r. apply (lg_weak 0); [apply lg_refl|lra].
    - rewrite get_put_i by auto. pose proof (Hp k ltac:(lia)) as Q. split; [apply (lg_weak (K j)); [auto|lra]|auto]. }
  assert (G1 : G ws1 3 (j - 1) = v) by (apply get_put_same).
  assert (F1 : forall blk k, blk <> 3 -> 0 <= k < size -> G ws1 blk k = G ws blk k).
  { intros. unfold ws1. rewrite get_put_b by lia. auto. }
  assert (L1 : alen ws1 = 4 * size) by exact Hl. clearbody ws1.
  exists ws1. unfold rescale_down64. cbv zeta. rw. rewrite G1.
  destruct (Rltb_spec 1 (Rabs v)) as [B|B].
  - destruct V as [[_ Vz]|(Gn & V & KS)]; [rewrite Vz, Rabs_R0 in B; lra|].
    destruct (wrv_slice_ok size ltac:(lia) ws1 3 (j - 1) (jmax + 1) (fun k => RN64 (vget ws1 (slot size (4 * size) 3) k / 1000)))
      as (ws2 & E2 & L2 & S2 & T2); try lia; auto.
    assert (Hc' : (/ 1100 <= Rabs (c / 1000))%R).
    { destruct (lg_size _ _ _ V ltac:(lra)) as [_ U]. pose proof (high (j - 1) ltac:(lia)) as H1. rewrite Rabs_mult in U.
      assert (Rabs c * Rabs (gg (j - 1)%Z) <= Rabs c * 1)%R by (apply Rmult_le_compat_l; [apply Rabs_pos|auto]).
      unfold Rdiv. rewrite Rabs_mult, (Rabs_pos_eq (/ 1000)) by lra. lra. }
    exists ws2, (c / 1000)%R. split; auto. split; auto. split; auto. split; auto. split.
    + intros k Hk. rewrite S2 by lia. destruct (Z.leb_spec (j - 1) k); [|lia]. destruct (Z.ltb_spec k (jmax + 1)); [|lia].
      cbn [andb]. rewrite vget_slot by lia. rewrite KS. replace (K j + 8)%R with (K j + 7 + 1)%R by ring.
      apply lg_RN0; [|lra|].
      * replace (c / 1000 * gg k)%R with (c * gg k / 1000)%R by field. replace (K j + 7)%R with (K j + 7 + 0)%R by ring.
        apply lg_div; [apply P1; lia|apply lg_refl].
      * destruct (cg_ok (c / 1000) k Hc' ltac:(lia)) as [Z|L]; [auto|right; apply p900, p60; auto].
    + intros. rewrite T2 by auto. auto.
  - exists ws1, c. split; auto. split; auto. split; auto. split; auto. split; auto.
    intros k Hk. destruct (Z.eq_dec k (j - 1)) as [->|Ne].
    + rewrite G1. destruct V as [[Gz ->]|(Gn & V & KS)].
      * rewrite Gz, Rmult_0_r. apply (lg_weak 0); [apply lg_refl|lra].
      * apply (lg_weak (K j + 7)); [auto|lra].
    + apply (lg_weak (K j)); [apply P1; auto|auto].
Qed.

Lemma downloop64 ws jp e c : alen ws = 4 * size -> d <= e -> e <= jp < jmax -> (/ 1100 <= Rabs c)%R -> mult (K jp) c ws 3 jp jmax ->
  exists ws' c', for_down jp e (fun j ws => do ws <- step_down64 w size a b 0 0 ws j; rescale_down64 size a b ws j) ws = Ok ws' /\
    alen ws' = 4 * size /\ (/ 1100 <= Rabs c')%R /\ mult (K e) c' ws' 3 e jmax /\ (forall blk k, blk <> 3 -> 0 <= k < size -> G ws' blk k = G ws blk k).
Proof.
  intros Hl Hd Hjp Hc Hp.
  destruct (for_down_inv (fun j ws' => alen ws' = 4 * size /\ (exists c, (/ 1100 <= Rabs c)%R /\ mult (K j) c ws' 3 j jmax) /\
    (forall blk k, blk <> 3 -> 0 <= k < size -> G ws' blk k = G ws blk k)) jp e
    (fun j ws => do ws <- step_down64 w size a b 0 0 ws j; rescale_down64 size a b ws j) ws) as (ws' & E & L & (c' & C & P) & F).
  - lia.
  - split; auto. split; auto. exists c. auto.
  - intros j t Hj (L & (c' & C & P) & F). destruct (downstep64 t j c' L ltac:(lia) C P) as (t1 & t2 & c2 & E1 & E2 & L2 & C2 & P2 & F2).
    exists t2. rewrite E1. cbn [bind]. split; auto. split; auto. split; [exists c2; auto|]. intros. rewrite F2 by auto. auto.
  - exists ws', c'. auto.
Qed.

Notation fclose := (fclose size a b 0 0).
Notation zero0 := (zero0 size).

(** the first upward step *)
Lemma first_ratio : d + 4 <= jmax ->
  let v := RN64 (- RN64 (RN64 (0 * 0) + RN64 (z64 (d + 1) * 1)) / x64 (d + 1)) in
  lg 7 v (/ gg d * gg (d + 2)) /\ (/ 2 ^ 29 <= Rabs (gg (d + 2)))%R /\ (Rabs v < 9 / 10)%R.
Proof.
  intros H v. destruct (xl (d + 1) ltac:(lia) ltac:(lia)) as [Xl X1]. destruct (zl (d + 1) ltac:(lia)) as [Zl Z1].
  pose proof (g_rec a b (d + 1) ltac:(lia)) as Rec. replace (d + 1 + 1) with (d + 2) in Rec by lia. replace (d + 1 - 1) with d in Rec by lia.
  pose proof bot_low as Bl. assert (Gd : gg d <> 0%R) by (intros Z; rewrite Z, Rabs_R0 in Bl; pose proof (pow_inv_pos 29); lra).
  assert (G2 : (/ 2 ^ 29 <= Rabs (gg (d + 2)))%R) by (replace (d + 2) with (d + 2 * 1) by lia; apply g_low'; auto; lia).
  assert (Val : (/ gg d * gg (d + 2) = - zz (d + 1) / xx (d + 1))%R).
  { apply (Rmult_eq_reg_r (gg d * xx (d + 1))); [|apply Rmult_integral_contrapositive_currified; lra].
    replace (/ gg d * gg (d + 2) * (gg d * xx (d + 1)))%R with (xx (d + 1) * gg (d + 2))%R by (field; auto).
    replace (- zz (d + 1) / xx (d + 1) * (gg d * xx (d + 1)))%R with (- (zz (d + 1) * gg d))%R by (field; lra). lra. }
  assert (Hi : (1 <= Rabs (/ gg d))%R).
  { rewrite Rabs_inv. rewrite <- Rinv_1 at 1. apply Rinv_le_contravar; [apply Rabs_pos_lt; auto|]. apply high. lia. }
  assert (Lw : (/ 2 ^ 40 <= Rabs (/ gg d * gg (d + 2)))%R).
  { apply (prod_low 0 29); [lia|rewrite pow_O, Rinv_1; auto|auto]. }
  assert (L : lg 7 v (/ gg d * gg (d + 2))).
  { unfold v. rewrite Rmult_0_l, RN64_0, Rplus_0_l, Rmult_1_r, RN64_idem. apply (lg_weak (5 / 2 + 1 + 5 / 2 + 1)); [|lra].
    apply lg_RN0; [|lra|right; apply p900, p60; auto]. rewrite Val. apply lg_div; auto. apply lg_opp.
    apply lg_RN0; [auto|lra|right; apply p900, p60]. rewrite Rabs_pos_eq by lra. pose proof (pow_inv_le 0 40 ltac:(lia)) as I. rewrite pow_O in I. lra. }
  split; auto. split; auto.
  destruct (lg_size _ _ _ L ltac:(lra)) as [_ Up].
  pose proof (g_second a b Ha Hb H) as S2.
  assert (Sq : (Rabs (/ gg d * gg (d + 2)) * Rabs (/ gg d * gg (d + 2)) <= 2 / 3)%R).
  { rewrite <- Rabs_mult. rewrite Rabs_pos_eq by apply Rle_0_sqr.
    assert (Pd : (0 < gg d * gg d)%R) by (apply Rsqr_pos_lt in Gd; exact Gd).
    apply (Rmult_le_reg_r (gg d * gg d)); auto.
    replace (/ gg d * gg (d + 2) * (/ gg d * gg (d + 2)) * (gg d * gg d))%R with (gg (d + 2) * gg (d + 2))%R by (field; auto). lra. }
  assert (Bd : (Rabs (/ gg d * gg (d + 2)) <= 82 / 100)%R).
  { destruct (Rle_lt_dec (Rabs (/ gg d * gg (d + 2))) (82 / 100)) as [|Q]; auto. exfalso.
    assert (82 / 100 * (82 / 100) < Rabs (/ gg d * gg (d + 2)) * Rabs (/ gg d * gg (d + 2)))%R by (apply Rmult_le_0_lt_compat; lra). lra. }
  lra.
Qed.

Lemma meet64_ok ws : alen ws = 4 * size -> zero0 ws -> 1 <= q ->
  G ws 2 d = 1%R -> G ws 2 (d + 1) = 0%R -> G ws 3 jmax = 1%R -> G ws 3 (jmax - 1) = 0%R ->
  exists ws', meet64 w size a b 0 0 ws (d + 1) (jmax - 1) = Ok ws' /\ fclose (8 * IZR q + 16) ws'.
Proof.
  intros Hl H0 Hq H2 H2' H3 H3'.
  pose proof bot_low as Bl. assert (Gd : gg d <> 0%R) by (intros Z; rewrite Z, Rabs_R0 in Bl; pose proof (pow_inv_pos 29); lra).
  pose proof top_low as Tl. assert (Gt : gg jmax <> 0%R) by (intros Z; rewrite Z, Rabs_R0 in Tl; pose proof (pow_inv_pos 29); lra).
  assert (Qb : (1 <= IZR q <= 1024)%R) by (split; apply IZR_le; lia).
  unfold meet64. cbv zeta. replace (Z.max d (Z.abs (0 + 0))) with d by (change (Z.abs (0 + 0)) with 0; lia).
  replace ((d + 1 + (jmax - 1)) / 2) with (d + q) by (replace (d + 1 + (jmax - 1)) with ((d + q) * 2) by lia; rewrite Z.div_mul; lia).
  (* after the upward part *)
  assert (Up : exists ws1 e c2, 
     (do '(ws, j_mid) <- for_range_brk (d + 1) (d + q) (middle_body64 w size a b 0 0) (ws, d + q);
      do Fj <- rdv ws (slot size (4 * size) 2) j_mid;
      do Fp <- rdv ws (slot size (4 * size) 2) (j_mid - 1);
      do '(j_mid, F_minus_j_mid) <-
        (if Reqb Fp 0 then Ok (j_mid, Fj)
         else do q <- fdiv64 Fj Fp;
              if Rltb (Rabs q) (RN64 (/ 1000000)) then do x <- rdv ws (slot size (4 * size) 2) (j_mid - 1); Ok (j_mid - 1, x) else Ok (j_mid, Fj));
      Ok (ws, j_mid, F_minus_j_mid)) = Ok (ws1, e, G ws1 2 e) /\
     alen ws1 = 4 * size /\ (forall blk k, blk <> 2 -> 0 <= k < size -> G ws1 blk k = G ws blk k) /\ (1 <= Rabs c2)%R /\
     ((e = d /\ q = 1) \/ (e = d + 2 /\ 2 <= q /\ (/ 2 ^ 29 <= Rabs (gg e))%R /\ mult 7 c2 ws1 2 d e))).
  { assert (Hi : (1 <= Rabs (/ gg d))%R).
    { rewrite Rabs_inv. rewrite <- Rinv_1 at 1. apply Rinv_le_contravar; [apply Rabs_pos_lt; auto|]. apply high. lia. }
    destruct (Z.eq_dec q 1) as [E1|N1].
    - rewrite for_range_brk_empty by lia. cbn [bind]. exists ws, d, (/ gg d)%R. rewrite E1. replace (d + 1 - 1) with d by lia.
      rw. rewrite H2, H2'. destruct (Reqb_spec 1 0) as [|_]; [lra|]. rewrite fdiv64_ok by lra. cbn [bind].
      unfold Rdiv at 1. rewrite Rmult_0_l, RN64_0, Rabs_R0.
      destruct (Rltb_spec 0 (RN64 (/ 1000000))) as [_|C].
      + cbn [bind]. rewrite ?H2. split; [reflexivity|]. split; auto.
      + exfalso. apply C. apply (lg_pos 1 _ (/ 1000000)); [|lra]. apply lg_RN. rewrite Rabs_pos_eq by lra.
        apply Rle_trans with (/ 2 ^ 20)%R; [apply pow_inv_le; lia|]. apply Rinv_le_contravar; lra.
    - assert (Q2 : 2 <= q) by lia.
      destruct (first_ratio ltac:(lia)) as (V & G2 & Vb). 
      set (v := RN64 (- RN64 (RN64 (0 * 0) + RN64 (z64 (d + 1) * 1)) / x64 (d + 1))) in *.
      destruct (xl (d + 1) ltac:(lia) ltac:(lia)) as [Xl X1].
      assert (Xn : x64 (d + 1) <> 0%R) by (apply (lg_neq _ _ _ Xl); lra).
      assert (G2n : gg (d + 2) <> 0%R) by (intros Z; rewrite Z, Rabs_R0 in G2; pose proof (pow_inv_pos 29); lra).
      assert (Vn : v <> 0%R).
      { apply (lg_neq _ _ _ V). apply Rmult_integral_contrapositive_currified; auto. apply Rinv_neq_0_compat; auto. }
      set (ws1 := put size ws 2 (d + 2) v).
      assert (L1 : alen ws1 = 4 * size) by exact Hl.
      assert (W0 : G ws1 2 d = 1%R) by (unfold ws1; rewrite get_put_i by lia; auto).
      assert (W1 : G ws1 2 (d + 1) = 0%R) by (unfold ws1; rewrite get_put_i by lia; auto).
      assert (W2 : G ws1 2 (d + 2) = v) by (unfold ws1; apply get_put_same).
      assert (Bd : middle_body64 w size a b 0 0 (d + 1) (ws, d + q) = Ok (true, (ws1, d + 2))).
      { unfold middle_body64, step_up64. cbv zeta. replace (d + 1 + 1) with (d + 2) by lia. replace (d + 1 - 1) with d by lia.
        rw. rewrite H2, H2'. fold v. fold ws1. unfold rescale_up64. cbv zeta. replace (d + 1 + 1) with (d + 2) by lia. rw. rewrite W2.
        destruct (Rltb_spec 1 (Rabs v)) as [|_]; [lra|]. cbn [bind]. rw. rewrite W0, W2. rewrite fdiv64_ok by lra. cbn [bind].
        replace (v / 1)%R with v by field.
        assert (Rv : RN64 v = v) by (apply RN64_idem). rewrite Rv.
        destruct (Rltb_spec (Rabs v) 1) as [_|]; [|lra]. destruct (Reqb_spec v 0) as [|_]; [tauto|]. reflexivity. }
      unfold for_range_brk. destruct (Z.to_nat (d + q - (d + 1))) as [|n0] eqn:En; [lia|]. cbn [loop_brk]. rewrite Bd. cbn [bind].
      exists ws1, (d + 2), (/ gg d)%R. replace (d + 2 - 1) with (d + 1) by lia. rw. rewrite W1.
      destruct (Reqb_spec 0 0) as [_|]; [|tauto]. cbn [bind]. split; auto. split; auto. split.
      { intros. unfold ws1. rewrite get_put_b by lia. auto. }
      split; auto. right. split; auto. split; auto. split; auto.
      intros k Hk. assert (C : k = d \/ k = d + 1 \/ k = d + 2) by lia. destruct C as [-> |[-> | ->]].
      + rewrite W0. replace (/ gg d * gg d)%R with 1%R by (field; auto). apply (lg_weak 0); [apply lg_refl|lra].
      + rewrite W1. replace (d + 1) with (d + 2 * 0 + 1) by lia. rewrite (g_odd a b 0) by lia. rewrite Rmult_0_r. apply (lg_weak 0); [apply lg_refl|lra].
      + rewrite W2. auto. }
  destruct Up as (ws1 & e & c2 & Eu & L1 & F1 & C2 & He).
  assert (Re : d <= e <= jmax - 1) by (destruct He as [[-> E1]|(-> & Q2 & _)]; lia).
  (* the downward part *)
  destruct (downloop64 ws1 (jmax - 1) e (/ gg jmax)%R) as (ws2 & c3 & Ed & L2 & C3 & P3 & F2); auto; try lia.
  { apply Rle_trans with 1%R; [lra|]. rewrite Rabs_inv. rewrite <- Rinv_1 at 1. apply Rinv_le_contravar; [apply Rabs_pos_lt; auto|]. apply high. lia. }
  { intros k Hk. destruct (K_bound (jmax - 1) ltac:(lia)) as [[K0 _] _]. assert (C : k = jmax - 1 \/ k = jmax) by lia. destruct C as [-> | ->].
    - rewrite F1, H3' by lia. replace (jmax - 1) with (d + 2 * (q - 1) + 1) by lia. rewrite (g_odd a b (q - 1)) by lia.
      rewrite Rmult_0_r. apply (lg_weak 0); [apply lg_refl|]. replace (d + 2 * (q - 1) + 1) with (jmax - 1) by lia. lra.
    - rewrite F1, H3 by lia. replace (/ gg jmax * gg jmax)%R with 1%R by (field; auto). apply (lg_weak 0); [apply lg_refl|lra]. }
  destruct (K_bound e ltac:(lia)) as [[Ke0 Ke] _].
  assert (C3' : (/ 2 ^ 300 <= Rabs c3)%R).
  { eapply Rle_trans; [|exact C3]. apply Rle_trans with (/ 2 ^ 11)%R; [apply pow_inv_le; lia|apply Rinv_le_contravar; lra]. }
  assert (H02 : zero0 ws2) by (intros k Hk; rewrite F2, F1 by lia; auto).
  destruct (for_range_brk (d + 1) (d + q) (middle_body64 w size a b 0 0) (ws, d + q)) as [[wsu eu]|]; [|discriminate].
  cbn [bind] in Eu |- *. destruct (rdv wsu (slot size (4 * size) 2) eu) as [Fj|]; [|discriminate]. cbn [bind] in Eu |- *.
  destruct (rdv wsu (slot size (4 * size) 2) (eu - 1)) as [Fp|]; [|discriminate]. cbn [bind] in Eu |- *.
  match type of Eu with (do '(_, _) <- ?e; _) = _ => destruct e as [[eu' Fm]|]; [|discriminate] end. cbn [bind] in Eu |- *.
  apply Ok_inj in Eu. injection Eu as -> -> ->.
  rewrite Ed. cbn [bind]. clear Ed. rw.
  destruct (Z.eqb_spec e jmax) as [|_]; [lia|].
  destruct He as [[-> E1]|(Ee & Q2 & Ge & P2)].
  { destruct (Z.eqb_spec d d) as [_|]; [|lia].
    destruct (wrv_slice_ok size ltac:(lia) ws2 0 d (jmax + 1) (fun k => vget ws2 (slot size (4 * size) 3) k)) as (ws3 & E3 & L3 & S3 & _); try lia; auto.
    exists ws3. split; auto. split; auto. rewrite Jd. split.
    - exists c3. split; auto. intros k Hk. rewrite S3 by lia. destruct (Z.leb_spec d k); [|lia]. destruct (Z.ltb_spec k (jmax + 1)); [|lia].
      cbn [andb]. rewrite vget_slot by lia. apply (lg_weak (K d)); [apply P3; lia|lra].
    - intros k Hk Hr. rewrite S3 by lia. destruct (Z.leb_spec d k); destruct (Z.ltb_spec k (jmax + 1)); cbn [andb]; try lia; apply H02; lia. }
  destruct (Z.eqb_spec e d) as [|_]; [lia|].
  assert (Gn : gg e <> 0%R) by (intros Z; rewrite Z, Rabs_R0 in Ge; pose proof (pow_inv_pos 29); lra).
  assert (C2n : c2 <> 0%R) by (intros Z; rewrite Z, Rabs_R0 in C2; lra).
  pose proof (P2 e ltac:(lia)) as Pe.
  assert (Fn : G ws1 2 e <> 0%R) by (apply (lg_neq _ _ _ Pe), Rmult_integral_contrapositive_currified; auto).
  destruct (Reqb_spec (G ws1 2 e) 0) as [|_]; [tauto|].
  destruct (wrv_slice_ok size ltac:(lia) ws2 0 d (e + 1)
    (fun k => RN64 (RN64 (vget ws2 (slot size (4 * size) 2) k * G ws2 3 e) / G ws1 2 e))) as (ws3 & E3 & L3 & S3 & F3); try lia; auto.
  rewrite E3. cbn [bind]. clear E3.
  destruct (wrv_slice_ok size ltac:(lia) ws3 0 (e + 1) (jmax + 1)
    (fun k => vget ws3 (slot size (4 * size) 3) k)%R) as (ws4 & E4 & L4 & S4 & F4); try lia; auto.
  exists ws4. split; auto. split; auto. rewrite Jd. split.
  - exists c3. split; auto. intros k Hk. rewrite S4 by lia.
    destruct (Z.leb_spec (e + 1) k); destruct (Z.ltb_spec k (jmax + 1)); cbn [andb]; try lia.
    + rewrite vget_slot by lia. rewrite F3 by lia. apply (lg_weak (K e)); [apply P3; lia|lra].
    + rewrite S3 by lia. destruct (Z.leb_spec d k); destruct (Z.ltb_spec k (e + 1)); cbn [andb]; try lia.
      rewrite vget_slot by lia. rewrite F2 by lia. apply (lg_weak (7 + K e + 1 + 7 + 1)); [|lra].
      destruct (cg_ok c3 e C3 ltac:(lia)) as [Z|Le].
      { exfalso. apply Rmult_integral in Z. destruct Z as [Z|Z]; [rewrite Z, Rabs_R0 in C3; lra|auto]. }
      apply lg_RN0; [|lra|].
      * replace (c3 * gg k)%R with (c2 * gg k * (c3 * gg e) / (c2 * gg e))%R by (field; auto).
        apply lg_div; auto. apply lg_RN0; [|lra|].
        -- apply lg_mul; [apply P2; lia|apply P3; lia].
        -- destruct (low_or k ltac:(lia)) as [-> |Lk]; [left; ring|right]. apply p900. apply (prod_low (0 + 29) 40); [lia| |auto].
           apply (prod_low 0 29); [lia|rewrite pow_O, Rinv_1; auto|auto].
      * destruct (cg_ok c3 k C3 ltac:(lia)) as [Z|Lk]; [auto|right; apply p900, p60; auto].
  - intros k Hk Hr. rewrite S4 by lia.
    destruct (Z.leb_spec (e + 1) k); destruct (Z.ltb_spec k (jmax + 1)); cbn [andb]; try lia.
    + rewrite S3 by lia. destruct (Z.leb_spec d k); destruct (Z.ltb_spec k (e + 1)); cbn [andb]; try lia. apply H02; lia.
    + rewrite S3 by lia. destruct (Z.leb_spec d k); destruct (Z.ltb_spec k (e + 1)); cbn [andb]; try lia. apply H02; lia.
Qed.
End Zero.
