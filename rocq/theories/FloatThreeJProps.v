(** Property C69 of the 3-j calculator in double precision, proved. *)
From Coq Require Import ZArith Reals Lia Lra Bool.
From Flocq Require Import Core.
From Verif Require Import Base BaseProofs Fact RSum ThreeJSpec ThreeJ ThreeJ2 ThreeJ3 ThreeJ4 Wigner3jModel Wigner3jSpec Wigner3jWs Wigner3jFwd Wigner3jProofs Wigner3jProps.
From Verif Require Import FloatIndexModel FloatIndexProofs FloatModesModel FloatPowersSpec FloatPowersProps FloatConvProofs FloatPartsProofs FloatThreeJModel FloatLog FloatThreeJProofs FloatThreeJZero.
From Verif Require Import ThreeJZero.
Local Open Scope Z_scope.
Set Bullet Behavior "Strict Subproofs".

Lemma half_big y : (/ 2 <= y)%R -> (/ 2 ^ 900 <= Rabs y)%R.
Proof. intros H. rewrite Rabs_pos_eq by lra. pose proof (pow_inv_le 1 900 ltac:(lia)). lra. Qed.

Lemma fixed_zero_ok a b : 0 <= a -> 0 <= b -> a + b <= 1447 -> ok_widths a b 0 0 fixed.
Proof.
  intros Ha Hb HJ. split.
  - intros j Hj. rewrite C35_A by (unfold jlo in Hj; lia). apply (exact_ok a b 0 0); lia.
  - intros j Hj. unfold Yf, yy, B, Bq. f_equal.
    replace ((2 * j + 1) * ((0 + 0) * (a * (a + 1) - b * (b + 1)) - (0 - 0) * j * (j + 1))) with 0 by ring. reflexivity.
Qed.

(** the family with one member *)
Lemma single64 w size a b m n ws : Z.abs m <= a -> Z.abs n <= b -> a + b < size -> a + b <= 2 ^ 20 -> alen ws = 4 * size -> jlo a b m n = a + b ->
  exists ws', calculate_ws64 w size a b m n ws = Ok ws' /\ alen ws' = 4 * size /\ closed size a b m n 2 ws'.
Proof.
  intros Hm Hn Hsz Hab Hl EJ. unfold calculate_ws64. cbv zeta.
  change (Z.max (Z.abs (a - b)) (Z.abs (m + n))) with (jlo a b m n).
  set (ws0 := mkarr (alen ws) (fun _ => 0%R)).
  assert (L0 : alen ws0 = 4 * size) by exact Hl.
  assert (Z0 : forall blk k, 0 <= blk <= 3 -> 0 <= k < size -> get size ws0 blk k = 0%R) by reflexivity.
  clearbody ws0.
  destruct (Z.gtb_spec (Z.abs m) a); [lia|]. destruct (Z.gtb_spec (Z.abs n) b); [lia|]. cbn [orb].
  rewrite EJ. destruct (Z.ltb_spec (a + b) (a + b)); [lia|]. destruct (Z.eqb_spec (a + b) (a + b)) as [_|]; [|lia].
  pose proof (cols_norm a b m n Hm Hn) as CN. rewrite EJ, rsum_one in CN.
  pose proof (GG_top_sign a b m n Hm Hn) as Sg. rewrite <- pm1_sgn in Sg.
  change (GG a b m n (a + b)) with (gg a b m n (a + b)) in *. set (g := gg a b m n (a + b)) in *.
  set (z := RN64 (sqrt (RN64 (RN64 (2 * RN64 (IZR (a + b))) + 1)))).
  assert (Z2 : RN64 (RN64 (2 * RN64 (IZR (a + b))) + 1) = IZR (2 * (a + b) + 1)).
  { rewrite (RN64_int (a + b)) by lia. replace (2 * IZR (a + b))%R with (IZR (2 * (a + b))) by (rewrite mult_IZR; reflexivity).
    rewrite (RN64_int (2 * (a + b))) by lia. rewrite <- plus_IZR. apply RN64_int. lia. }
  unfold z in *. clear z. rewrite Z2. clear Z2. set (y := IZR (2 * (a + b) + 1)) in *.
  assert (Y1 : (1 <= y)%R) by (apply (IZR_le 1); lia).
  assert (Sy : (1 <= sqrt y)%R) by (rewrite <- sqrt_1; apply sqrt_le_1_alt; auto).
  assert (Yu : (y <= 2 ^ 22)%R) by (unfold y; rewrite pow_IZR; apply IZR_le; change (2 ^ Z.of_nat 22) with (2 ^ 22); lia).
  assert (Su : (sqrt y <= y)%R). { rewrite <- (sqrt_sqrt y) at 2 by lra. assert (sqrt y * 1 <= sqrt y * sqrt y)%R by (apply Rmult_le_compat_l; lra). lra. }
  assert (L1 : lg 1 (RN64 (sqrt y)) (sqrt y)).
  { apply (lg_weak (0 + 1)); [|lra]. apply lg_RN0; [apply lg_refl|lra|right; apply half_big; clear - Sy; lra]. }
  assert (N0 : RN64 (sqrt y) <> 0%R) by (apply (lg_neq _ _ _ L1); lra).
  rewrite fdiv64_ok by auto. cbn [bind].
  set (v := RN64 (1 / RN64 (sqrt y))).
  assert (Gs : (g * g * y = 1)%R) by lra.
  assert (Ag : (Rabs g = 1 / sqrt y)%R).
  { apply (Rmult_eq_reg_r (sqrt y)); [|lra]. replace (1 / sqrt y * sqrt y)%R with 1%R by (field; lra).
    assert (Q : (Rabs g * sqrt y * (Rabs g * sqrt y) = 1)%R).
    { replace (Rabs g * sqrt y * (Rabs g * sqrt y))%R with (Rabs (g * g) * (sqrt y * sqrt y))%R by (rewrite Rabs_mult; ring).
      rewrite sqrt_sqrt, (Rabs_pos_eq (g * g)) by (try lra; apply Rle_0_sqr). auto. }
    assert (P : (0 <= Rabs g * sqrt y)%R) by (apply Rmult_le_pos; [apply Rabs_pos|lra]).
    apply Rsqr_inj; try lra. unfold Rsqr. lra. }
  assert (Lv : lg 2 v (Rabs g)).
  { rewrite Ag. unfold v. replace 2%R with (0 + 1 + 1)%R by ring. apply lg_RN0; [|lra|].
    - apply lg_div; [apply lg_refl|auto].
    - right. rewrite Rabs_pos_eq by (apply Rlt_le, Rdiv_lt_0_compat; lra). unfold Rdiv. rewrite Rmult_1_l.
      apply Rle_trans with (/ 2 ^ 22)%R; [apply pow_inv_le; lia|]. apply Rinv_le_contravar; lra. }
  assert (Gn : (0 < Rabs g)%R). { rewrite Ag. apply Rdiv_lt_0_compat; lra. }
  assert (Vp : (0 < v)%R) by (apply (lg_pos _ _ _ Lv); auto).
  rewrite wrv_ok by (try lia; auto). cbn [bind]. rewrite rdv_ok by (try lia; auto). cbn [bind]. rewrite get_put_same.
  assert (Hpm : pm1 (a - b + m + n) = 1 \/ pm1 (a - b + m + n) = -1) by (unfold pm1; destruct (Z.even _); auto).
  assert (Oz : forall k, k <> a + b -> gg a b m n k = 0%R) by (intros; apply GG_out; lia).
  destruct (Rltb_spec v 0) as [|_]; [lra|]. destruct (Rltb_spec 0 v) as [_|]; [|lra]. cbn [andb orb].
  assert (Ol : lg 2 0 0) by (apply (lg_weak 0); [apply lg_refl|lra]).
  destruct Hpm as [Hpm|Hpm]; rewrite Hpm in Sg |- *; cbn [Z.gtb Z.ltb Z.compare].
  - eexists. split; [reflexivity|]. split; [exact L0|]. intros k Hk.
    destruct (Z.eq_dec k (a + b)) as [->|Ne].
    + rewrite get_put_same. fold g. rewrite Rabs_pos_eq in Lv by lra. auto.
    + rewrite get_put_i by auto. rewrite Oz, Z0 by (auto; lia). auto.
  - rewrite wrv_ok by (try lia; auto). eexists. split; [reflexivity|]. split; [exact L0|]. intros k Hk.
    destruct (Z.eq_dec k (a + b)) as [->|Ne].
    + rewrite get_put_same. fold g. rewrite Rabs_left in Lv by lra. replace g with (-1 * (- g))%R by ring.
      rewrite (Rmult_comm v). apply lg_scale. auto.
    + rewrite !get_put_i by auto. rewrite Oz, Z0 by (auto; lia). auto.
Qed.

Lemma zero_main w size a b ws : ok_widths a b 0 0 w -> 0 <= a -> 0 <= b -> a + b < size -> a + b <= 2047 -> alen ws = 4 * size ->
  exists ws', calculate_ws64 w size a b 0 0 ws = Ok ws' /\ alen ws' = 4 * size /\ closed size a b 0 0 (17 * IZR (Z.min a b) + 36) ws'.
Proof.
  intros Hw Ha Hb Hsz Hab Hl. pose proof (jlo0 a b) as Jd.
  assert (Q0 : (0 <= IZR (Z.min a b) <= 1024)%R) by (split; apply IZR_le; lia).
  destruct (Z.eq_dec (Z.min a b) 0) as [Eq|Nq].
  { destruct (single64 w size a b 0 0 ws) as (ws' & E & L & C); try lia; auto.
    exists ws'. split; auto. split; auto. intros k Hk. apply (lg_weak 2); [auto|lra]. }
  unfold calculate_ws64. cbv zeta.
  replace (Z.max (Z.abs (a - b)) (Z.abs (0 + 0))) with (Z.abs (a - b)) by (change (Z.abs (0 + 0)) with 0; lia).
  set (ws0 := mkarr (alen ws) (fun _ => 0%R)).
  assert (L0 : alen ws0 = 4 * size) by exact Hl.
  assert (Z0 : forall blk k, 0 <= blk <= 3 -> 0 <= k < size -> get size ws0 blk k = 0%R) by reflexivity.
  clearbody ws0.
  destruct (Z.gtb_spec (Z.abs 0) a); [lia|]. destruct (Z.gtb_spec (Z.abs 0) b); [lia|]. cbn [orb].
  set (d := Z.abs (a - b)) in *. assert (D : d + 2 * Z.min a b = a + b) by (unfold d; lia). assert (D0 : 0 <= d) by (unfold d; lia).
  destruct (Z.ltb_spec (a + b) d); [lia|]. destruct (Z.eqb_spec (a + b) d) as [|_]; [lia|].
  unfold forward64. cbv zeta. replace (Z.max (Z.abs (a - b)) (Z.abs (0 + 0))) with d by (change (Z.abs (0 + 0)) with 0; fold d; lia).
  rewrite (xk w a b Hw) by (fold d; lia). cbn [bind].
  change ((- (0 + 0) =? 0) && (0 =? 0) && (0 =? 0)) with true. cbv iota.
  rewrite wrv_ok by (try lia; auto). cbn [bind]. rewrite wrv_ok by (try lia; auto). cbn [bind].
  destruct (Z.eqb_spec (d + 1) (a + b)) as [|_]; [lia|].
  unfold reverse64. cbv zeta. rewrite (zk w a b Hw) by (fold d; lia). cbn [bind].
  change ((- (0 + 0) =? 0) && (0 =? 0) && (0 =? 0)) with true. cbv iota.
  rewrite wrv_ok by (try lia; auto). cbn [bind]. rewrite wrv_ok by (try lia; auto). cbn [bind]. cbn [negb andb].
  match goal with |- context [meet64 _ _ _ _ _ _ ?x _ _] => set (ws1 := x) end.
  destruct (meet64_ok w size a b Hw Ha Hb Hsz Hab ws1) as (ws2 & E2 & C2).
  - exact L0.
  - intros k Hk. unfold ws1. rewrite !get_put_b by lia. apply Z0; lia.
  - lia.
  - fold d. unfold ws1. rewrite !get_put_b by lia. rewrite get_put_i by lia. apply get_put_same.
  - fold d. unfold ws1. rewrite get_put_b by lia. rewrite get_put_b by lia. apply get_put_same.
  - unfold ws1. rewrite get_put_i by lia. apply get_put_same.
  - unfold ws1. apply get_put_same.
  - fold d in E2. rewrite E2. cbn [bind].
    destruct (finish64_ok size a b 0 0 ltac:(lia) ltac:(lia) Hsz ltac:(lia)) with (N := (8 * IZR (Z.min a b) + 16)%R) (ws := ws2) as (ws3 & E3 & L3 & C3).
    + intros k Hk. rewrite Jd in Hk. destruct (low_or a b Ha Hb Hab k Hk) as [Z|L]; [auto|right].
      eapply Rle_trans; [|exact L]. apply pow_inv_le. lia.
    + lra.
    + exact C2.
    + exists ws3. split; auto. split; auto. intros k Hk. eapply lg_weak; [apply C3; auto|]. rewrite Jd.
      replace (a + b - d) with (2 * Z.min a b) by lia. rewrite mult_IZR. lra.
Qed.

Lemma zero_calculate w c a b : calc_wf c -> ok_widths a b 0 0 w -> 0 <= a -> 0 <= b -> a + b < csize c -> a + b <= 2047 ->
  exists c', calculate64 w c a b 0 0 = Ok c' /\ calc_wf c' /\ csize c' = csize c /\
    forall j, 0 <= j < csize c -> exists x, returned c' j = Ok x /\ lg (17 * IZR (Z.min a b) + 36) x (threej j a b 0 0 0).
Proof.
  intros [Hs Hl] Hw Ha Hb Hsz Hab.
  destruct (zero_main w (csize c) a b (workspace c)) as (ws' & E & L & C); auto.
  unfold calculate64. rewrite E. cbn [bind]. assert (W : calc_wf (mkcalc (csize c) ws')) by (split; auto).
  eexists. split; [reflexivity|]. split; auto. split; auto. intros j Hj. rewrite returned_get by auto. cbn [csize workspace].
  eexists. split; [reflexivity|]. pose proof (C j Hj) as Q. rewrite gg_threej in Q. auto.
Qed.

Lemma err_of q x y : 0 <= q <= 2047 -> lg (17 * IZR q + 36) x y -> (Rabs (x - y) <= (18 * IZR q + 40) * u64 * Rabs y)%R.
Proof.
  intros Hq L. assert (Q0 : (0 <= IZR q <= 2047)%R) by (split; apply IZR_le; lia).
  eapply Rle_trans; [apply (lg_err _ _ _ L); lra|]. apply Rmult_le_compat_r; [apply Rabs_pos|].
  apply Rmult_le_compat_r; [apply Rlt_le, u64_small|]. lra.
Qed.

(** ** C69 *)
Lemma C69_calculator :
  forall c j2 j3, calc_wf c -> 0 <= j2 -> 0 <= j3 -> j2 + j3 < csize c -> j2 + j3 <= 1447 ->
    exists c', calculate64 fixed c j2 j3 0 0 = Ok c' /\ calc_wf c' /\ csize c' = csize c /\
      forall j, 0 <= j < csize c -> exists x, returned c' j = Ok x /\
        (Rabs (x - threej j j2 j3 0 0 0) <= (18 * IZR (Z.min j2 j3) + 40) * u64 * Rabs (threej j j2 j3 0 0 0))%R.
Proof.
  intros c j2 j3 Hc H2 H3 Hs HJ.
  destruct (zero_calculate fixed c j2 j3 Hc) as (c' & E & W & S & V); auto; try lia.
  - apply fixed_zero_ok; auto.
  - exists c'. split; auto. split; auto. split; auto. intros j Hj. destruct (V j Hj) as (x & Ex & Lx). exists x. split; auto.
    apply err_of; auto. lia.
Qed.

Lemma W64_zero g j1 j2 j3 : j1 + j2 + j3 - Z.max j1 (Z.max j2 j3) <= 1447 ->
  exists x, Wigner3j64 fixed g j1 j2 j3 0 0 0 = Ok x /\
    (threej j1 j2 j3 0 0 0 = 0%R /\ x = 0%R \/
     0 <= Z.min j1 (Z.min j2 j3) /\ lg (17 * IZR (Z.min j1 (Z.min j2 j3)) + 36) x (threej j1 j2 j3 0 0 0)).
Proof.
  intros HJ. unfold Wigner3j64. change (negb (0 + 0 + 0 =? 0)) with false. cbv iota.
  assert (Out : ~ tj_allowed j1 j2 j3 0 0 0 -> threej j1 j2 j3 0 0 0 = 0%R) by apply threej_out.
  change (Z.abs 0) with 0.
  destruct (Z.gtb_spec 0 j1); cbn [orb]; [exists 0%R; split; auto; left; split; auto; apply Out; unfold tj_allowed; lia|].
  destruct (Z.gtb_spec 0 j2); cbn [orb]; [exists 0%R; split; auto; left; split; auto; apply Out; unfold tj_allowed; lia|].
  destruct (Z.gtb_spec 0 j3); cbn [orb]; [exists 0%R; split; auto; left; split; auto; apply Out; unfold tj_allowed; lia|].
  assert (Core : forall a b c, a <= b + c -> 0 <= b <= a -> 0 <= c <= a -> b + c <= 1447 ->
    exists x, (do k <- calc_new b c g; do k <- calculate64 fixed k b c 0 0; returned k a) = Ok x /\ lg (17 * IZR (Z.min b c) + 36) x (threej a b c 0 0 0)).
  { intros a b c Htri Hba Hca Hbc. unfold calc_new. cbv zeta. rewrite np_empty_ok by lia. cbn [bind].
    set (k := mkcalc (b + c + 1) (mkarr (4 * (b + c + 1)) g)).
    assert (Wk : calc_wf k) by (split; cbn; [lia|reflexivity]).
    destruct (zero_calculate fixed k b c Wk) as (k' & E & W' & S' & V'); try (cbn; lia).
    - apply fixed_zero_ok; lia.
    - rewrite E. cbn [bind]. destruct (V' a ltac:(cbn; lia)) as (x & Ex & Lx). exists x. auto. }
  cbv zeta. destruct (Z.eqb_spec j1 (Z.max (Z.max j1 j2) j3)) as [M|M].
  - destruct (Z.gtb_spec j1 (j2 + j3)); [exists 0%R; split; auto; left; split; auto; apply Out; unfold tj_allowed; lia|].
    destruct (Core j1 j2 j3) as (x & Ex & Lx); try lia. exists x. split; auto. right. split; [lia|].
    replace (Z.min j1 (Z.min j2 j3)) with (Z.min j2 j3) by lia. auto.
  - destruct (Z.eqb_spec j2 (Z.max (Z.max j1 j2) j3)) as [M'|M'].
    + destruct (Z.gtb_spec j2 (j3 + j1)); [exists 0%R; split; auto; left; split; auto; apply Out; unfold tj_allowed; lia|].
      destruct (Core j2 j3 j1) as (x & Ex & Lx); try lia. exists x. split; auto. right. split; [lia|].
      replace (Z.min j1 (Z.min j2 j3)) with (Z.min j3 j1) by lia. rewrite threej_cyc. auto.
    + destruct (Z.gtb_spec j3 (j1 + j2)); [exists 0%R; split; auto; left; split; auto; apply Out; unfold tj_allowed; lia|].
      destruct (Core j3 j1 j2) as (x & Ex & Lx); try lia. exists x. split; auto. right. split; [lia|].
      replace (Z.min j1 (Z.min j2 j3)) with (Z.min j1 j2) by lia. rewrite <- threej_cyc. auto.
Qed.

Lemma C69_Wigner3j :
  forall garbage j1 j2 j3, j1 + j2 + j3 - Z.max j1 (Z.max j2 j3) <= 1447 ->
    exists x, Wigner3j64 fixed garbage j1 j2 j3 0 0 0 = Ok x /\
      (Rabs (x - threej j1 j2 j3 0 0 0) <= (18 * IZR (Z.min j1 (Z.min j2 j3)) + 40) * u64 * Rabs (threej j1 j2 j3 0 0 0))%R.
Proof.
  intros g j1 j2 j3 HJ. destruct (W64_zero g j1 j2 j3 HJ) as (x & E & [[Z ->]|[P L]]); eexists; (split; [exact E|]).
  - rewrite Z, Rminus_0_r, Rabs_R0. lra.
  - apply err_of; auto. lia.
Qed.

(** the result vanishes exactly where the symbol does, and otherwise has its sign *)
Lemma C69_sign :
  forall garbage j1 j2 j3, j1 + j2 + j3 - Z.max j1 (Z.max j2 j3) <= 1447 ->
    exists x, Wigner3j64 fixed garbage j1 j2 j3 0 0 0 = Ok x /\
      (threej j1 j2 j3 0 0 0 = 0 -> x = 0)%R /\ (0 < threej j1 j2 j3 0 0 0 -> 0 < x)%R /\ (threej j1 j2 j3 0 0 0 < 0 -> x < 0)%R.
Proof.
  intros g j1 j2 j3 HJ. destruct (W64_zero g j1 j2 j3 HJ) as (x & E & [[Z ->]|[P L]]); eexists; (split; [exact E|]).
  - rewrite Z. repeat split; intros; lra.
  - split; [|split]; intros H.
    + rewrite H in L. apply (lg_0 _ _ L).
    + apply (lg_pos _ _ _ L H).
    + apply lg_opp in L. assert (0 < - x)%R by (apply (lg_pos _ _ _ L); lra). lra.
Qed.

(** the parity rule holds exactly *)
Lemma C69_parity :
  forall garbage j1 j2 j3, j1 + j2 + j3 - Z.max j1 (Z.max j2 j3) <= 1447 -> Z.odd (j1 + j2 + j3) = true ->
    Wigner3j64 fixed garbage j1 j2 j3 0 0 0 = Ok 0%R.
Proof.
  intros g j1 j2 j3 HJ Ho. destruct (C69_sign g j1 j2 j3 HJ) as (x & E & Z & _). rewrite E. f_equal. apply Z.
  assert (Hn := threej_neg j1 j2 j3 0 0 0). change (- 0) with 0 in Hn.
  unfold sgn in Hn. rewrite <- Z.negb_odd, Ho in Hn. cbn [negb] in Hn. lra.
Qed.

Lemma C69_clebsch_gordan :
  forall garbage j1 j2 j3, j1 + j2 + j3 - Z.max j1 (Z.max j2 j3) <= 1447 -> 0 <= j3 ->
    exists x, clebsch_gordan64 fixed garbage j1 0 j2 0 j3 0 = Ok x /\
      (Rabs (x - cg j1 0 j2 0 j3 0) <= (18 * IZR (Z.min j1 (Z.min j2 j3)) + 44) * u64 * Rabs (cg j1 0 j2 0 j3 0))%R.
Proof.
  intros g j1 j2 j3 HJ H3. unfold clebsch_gordan64, cg. change (- 0) with 0.
  destruct (W64_zero g j1 j2 j3 HJ) as (x & E & D); rewrite E; cbn [bind].
  destruct (Z.ltb_spec (2 * j3 + 1) 0); [lia|]. eexists. split; [reflexivity|].
  destruct D as [[Z ->]|[P L]].
  - rewrite Z, !Rmult_0_r, RN64_0, Rminus_0_r, Rabs_R0. lra.
  - destruct (Req_dec (threej j1 j2 j3 0 0 0) 0) as [Z|Nz].
    { rewrite Z in L |- *. apply lg_0 in L. rewrite L, !Rmult_0_r, RN64_0, Rminus_0_r, Rabs_R0. lra. }
    assert (T : tj_allowed j1 j2 j3 0 0 0).
    { destruct (tj_allowed_dec j1 j2 j3 0 0 0) as [T|T]; auto. exfalso. apply Nz, threej_out; auto. }
    unfold tj_allowed in T. rewrite RN64_int by lia.
    set (y := IZR (2 * j3 + 1)). assert (Y1 : (1 <= y)%R) by (apply (IZR_le 1); lia).
    assert (Sy : (1 <= sqrt y)%R) by (rewrite <- sqrt_1; apply sqrt_le_1_alt; auto).
    set (q := Z.min j1 (Z.min j2 j3)) in *. assert (Q0 : (0 <= IZR q <= 2047)%R) by (split; apply IZR_le; lia).
    assert (Sg : Rabs (sgn (j1 - j2 + 0)) = 1%R).
    { rewrite <- pm1_sgn. unfold pm1. destruct (Z.even _); [apply Rabs_R1|rewrite Rabs_left; lra]. }
    rewrite pm1_sgn.
    assert (Lt : (/ 2 ^ 29 <= Rabs (threej j1 j2 j3 0 0 0))%R).
    { assert (Core : forall a b c, c <= a + b -> a <= c + b -> b <= c + a -> 0 <= a -> 0 <= b -> a + b <= 1447 -> threej c a b 0 0 0 <> 0%R -> (/ 2 ^ 29 <= Rabs (threej c a b 0 0 0))%R).
      { intros a b c T1 T2 T3 A0 B0 AB N. pose proof (low_or a b A0 B0 ltac:(lia) c ltac:(lia)) as Q.
        rewrite gg_threej in Q. change (- 0 - 0) with 0 in Q. tauto. }
      destruct (Z_le_gt_dec (j2 + j3) 1447) as [S1|S1]; [apply Core; auto; lia|].
      destruct (Z_le_gt_dec (j3 + j1) 1447) as [S2|S2].
      - rewrite threej_cyc in Nz |- *. apply Core; auto; lia.
      - assert (S3 : j1 + j2 <= 1447) by lia. rewrite threej_cyc in Nz |- *. rewrite threej_cyc in Nz |- *. apply Core; auto; lia. }
    assert (M : lg (17 * IZR q + 39) (RN64 (RN64 (sgn (j1 - j2 + 0) * RN64 (sqrt y)) * x)) (sgn (j1 - j2 + 0) * sqrt y * threej j1 j2 j3 0 0 0)).
    { replace (17 * IZR q + 39)%R with (0 + 1 + 1 + (17 * IZR q + 36) + 1)%R by ring.
      apply lg_RN0; [apply lg_mul; auto; apply lg_RN0; [apply lg_scale; apply lg_RN0; [apply lg_refl|lra|]|lra|]|lra|].
      - right. apply half_big. lra.
      - right. rewrite Rabs_mult, Sg, Rmult_1_l. apply half_big. lra.
      - right. rewrite !Rabs_mult, Sg, Rmult_1_l. rewrite (Rabs_pos_eq (sqrt y)) by lra.
        pose proof (pow_inv_le 29 900 ltac:(lia)). pose proof (pow_inv_pos 29).
        assert (1 * / 2 ^ 29 <= sqrt y * Rabs (threej j1 j2 j3 0 0 0))%R by (apply Rmult_le_compat; lra). lra. }
    eapply Rle_trans; [apply (lg_err _ _ _ M); lra|]. apply Rmult_le_compat_r; [apply Rabs_pos|].
    apply Rmult_le_compat_r; [apply Rlt_le, u64_small|]. lra.
Qed.

Lemma C69_example :
  forall garbage, exists x, Wigner3j64 fixed garbage 4 2 2 0 0 0 = Ok x /\ (0 < x)%R /\ Wigner3j64 fixed garbage 3 2 2 0 0 0 = Ok 0%R.
Proof.
  intros g. destruct (C69_sign g 4 2 2 ltac:(lia)) as (x & E & _ & P & _). exists x. split; auto. split.
  - apply P. pose proof (GG_top_sign 2 2 0 0 ltac:(lia) ltac:(lia)) as S. change (GG 2 2 0 0 (2 + 2)) with (gg 2 2 0 0 4) in S.
    rewrite gg_threej in S. change (sgn (2 - 2 + 0 + 0)) with 1%R in S. change (- 0 - 0) with 0 in S. lra.
  - apply C69_parity; [lia|reflexivity].
Qed.
