(** The remaining family of three symbols in double precision: j2 = j3 = 1 and m3 = -m2, whose smallest degree is zero. *)
From Coq Require Import ZArith Reals Lia Lra Bool.
From Flocq Require Import Core.
From Verif Require Import Base BaseProofs Fact RSum ThreeJSpec ThreeJ ThreeJ2 ThreeJ3 ThreeJ4 Wigner3jModel Wigner3jSpec Wigner3jWs Wigner3jFwd Wigner3jProofs Wigner3jProps.
From Verif Require Import FloatIndexModel FloatIndexProofs FloatModesModel FloatPowersSpec FloatPowersProofs FloatPowersProps FloatConvProofs FloatPartsProofs FloatThreeJModel FloatLog FloatThreeJProofs FloatThreeJProps FloatThreeJSame FloatThreeJSameProps FloatThreeJThree.
Local Open Scope Z_scope.
Set Bullet Behavior "Strict Subproofs".

Lemma third P Q p q : lg 7 P p -> lg (9 / 2) Q q -> (p = - q / 3)%R -> (/ 2 ^ 200 <= Rabs q)%R -> lg 13 (RN64 (P + Q)) (p + q).
Proof.
  intros HP HQ E Hq. pose proof (lg_err _ _ _ HP ltac:(lra)) as EP. pose proof (lg_err _ _ _ HQ ltac:(lra)) as EQ.
  assert (Ap : (Rabs p = Rabs q / 3)%R). { rewrite E. unfold Rdiv. rewrite Rabs_mult, Rabs_Ropp, (Rabs_pos_eq (/ 3)) by lra. reflexivity. }
  assert (As : (Rabs (p + q) = 2 / 3 * Rabs q)%R). { replace (p + q)%R with (2 / 3 * q)%R by (rewrite E; field). rewrite Rabs_mult, (Rabs_pos_eq (2 / 3)) by lra. reflexivity. }
  rewrite Ap in EP. pose proof u64_small as [U0 _]. pose proof (Rabs_pos q) as Q0. pose proof (pow_inv_pos 200) as I0.
  assert (Uq : (0 <= u64 * Rabs q)%R) by (apply Rmult_le_pos; lra).
  assert (L : lg (11 + 1) (P + Q) (p + q)).
  { apply lg_of_err_k; [lra| |].
    - intros Z. rewrite Z, Rabs_R0 in As. lra.
    - rewrite As. replace (P + Q - (p + q))%R with ((P - p) + (Q - q))%R by ring. eapply Rle_trans; [apply Rabs_triang|].
      replace (7 * (1 + / 2 ^ 17) * u64 * (Rabs q / 3))%R with (7 / 3 * (1 + / 2 ^ 17) * (u64 * Rabs q))%R in EP by field.
      replace (9 / 2 * (1 + / 2 ^ 17) * u64 * Rabs q)%R with (9 / 2 * (1 + / 2 ^ 17) * (u64 * Rabs q))%R in EQ by ring.
      replace (11 * u64 * (2 / 3 * Rabs q))%R with (22 / 3 * (u64 * Rabs q))%R by field. lra. }
  replace 13%R with (11 + 1 + 1)%R by ring. apply lg_RN0; auto; [lra|right]. rewrite As. pose proof (pow_inv_mul 1 200 900 ltac:(lia)) as I. lra.
Qed.

Section Dipole.
Variables size m n : Z.
Hypotheses (Em : m = 1 \/ m = -1) (En : n = - m) (Hsz : 2 < size).
Notation G ws blk i := (get size ws blk i).
Notation gg := (gg 1 1 m n).
Notation xx := (xx 1 1 m n).
Notation yy := (yy 1 1 m n).
Notation zz := (zz 1 1 m n).
Notation x64 := (x64 1 1 m n).
Notation z64 := (z64 1 1 m n).

Lemma dHm : Z.abs m <= 1. Proof. lia. Qed.
Lemma dHn : Z.abs n <= 1. Proof. lia. Qed.
Lemma dEJ : jlo 1 1 m n = 0. Proof. unfold jlo. lia. Qed.
Lemma dHw : ok_widths 1 1 m n fixed. Proof. apply fixed_ok; lia. Qed.
Let r8 := sqrt 8.
Let r80 := sqrt 80.
Lemma r8_sq : (r8 * r8 = 8)%R. Proof. apply sqrt_sqrt. lra. Qed.
Lemma r80_sq : (r80 * r80 = 80)%R. Proof. apply sqrt_sqrt. lra. Qed.
Lemma r8_b : (2 <= r8 <= 3)%R.
Proof. split; [replace 2%R with (sqrt (2 * 2)) by (apply sqrt_square; lra)|replace 3%R with (sqrt (3 * 3)) by (apply sqrt_square; lra)]; apply sqrt_le_1_alt; lra. Qed.
Lemma r80_b : (8 <= r80 <= 9)%R.
Proof. split; [replace 8%R with (sqrt (8 * 8)) by (apply sqrt_square; lra)|replace 9%R with (sqrt (9 * 9)) by (apply sqrt_square; lra)]; apply sqrt_le_1_alt; lra. Qed.
Lemma dx1 : xx 1 = r80. Proof. unfold ThreeJ4.xx, Aq. replace (A2 (1 + 1) 1 1 (m + n)) with 80 by (unfold A2; replace (m + n) with 0 by lia; reflexivity). apply Rmult_1_l. Qed.
Lemma dz1 : zz 1 = (2 * r8)%R. Proof. unfold ThreeJ4.zz, Aq. replace (A2 1 1 1 (m + n)) with 8 by (unfold A2; replace (m + n) with 0 by lia; reflexivity). reflexivity. Qed.
Lemma dz2 : zz 2 = (3 * r80)%R. Proof. unfold ThreeJ4.zz, Aq. replace (A2 2 1 1 (m + n)) with 80 by (unfold A2; replace (m + n) with 0 by lia; reflexivity). reflexivity. Qed.
Let t := IZR m.
Lemma t_sq : (t * t = 1)%R. Proof. unfold t. rewrite <- mult_IZR. f_equal. destruct Em as [-> | ->]; reflexivity. Qed.
Lemma t_abs : Rabs t = 1%R. Proof. unfold t. rewrite <- abs_IZR. f_equal. lia. Qed.
Lemma dy1 : yy 1 = (- 12 * t)%R. Proof. unfold ThreeJ4.yy, t. rewrite <- mult_IZR. f_equal. unfold Bq. subst n. destruct Em as [-> | ->]; reflexivity. Qed.
Lemma dy2 : yy 2 = (- 60 * t)%R. Proof. unfold ThreeJ4.yy, t. rewrite <- mult_IZR. f_equal. unfold Bq. subst n. destruct Em as [-> | ->]; reflexivity. Qed.
Lemma dX j : 0 <= j <= 2 -> Xf64 fixed j 1 1 (- (m + n)) = Ok (x64 j).
Proof. intros H. apply (X64_ok fixed 1 1 m n dHw); rewrite dEJ; lia. Qed.
Lemma dZ j : 0 <= j <= 2 -> Zf64 fixed j 1 1 (- (m + n)) = Ok (z64 j).
Proof. intros H. apply (Z64_ok fixed 1 1 m n dHw); rewrite dEJ; lia. Qed.
Lemma dY1 : Yf64 fixed 1 1 1 m n = yy 1.
Proof. rewrite (Y64_ok fixed 1 1 m n dHw) by (rewrite dEJ; lia). unfold ThreeJ4.yy. apply RN64_int. unfold Bq. subst n. destruct Em as [-> | ->]; cbn; lia. Qed.
Lemma dY2 : Yf64 fixed 2 1 1 m n = yy 2.
Proof. rewrite (Y64_ok fixed 1 1 m n dHw) by (rewrite dEJ; lia). unfold ThreeJ4.yy. apply RN64_int. unfold Bq. subst n. destruct Em as [-> | ->]; cbn; lia. Qed.
Lemma dlx : lg (5 / 2) (x64 1) r80. Proof. rewrite <- dx1. destruct (x64_lg 1 1 m n ltac:(lia) 1) as [L _]; rewrite ?dEJ; auto; lia. Qed.
Lemma dlz1 : lg (5 / 2) (z64 1) (2 * r8). Proof. rewrite <- dz1. destruct (z64_lg 1 1 m n ltac:(lia) 1) as [L _]; rewrite ?dEJ; auto; lia. Qed.
Lemma dlz2 : lg (5 / 2) (z64 2) (3 * r80). Proof. rewrite <- dz2. destruct (z64_lg 1 1 m n ltac:(lia) 2) as [L _]; rewrite ?dEJ; auto; lia. Qed.

(** the three symbols *)
Lemma drec : (3 * r80 * gg 1 = 60 * t * gg 2 /\ r80 * gg 2 - 12 * t * gg 1 + 2 * r8 * gg 0 = 0)%R.
Proof.
  pose proof (gg_rec 1 1 m n dHm dHn 1 ltac:(rewrite dEJ; lia)) as R1. pose proof (gg_rec 1 1 m n dHm dHn 2 ltac:(rewrite dEJ; lia)) as R2.
  pose proof (xx_jmax 1 1 m n) as Q2. change (1 + 1) with 2 in *. change (1 - 1) with 0 in *. change (2 - 1) with 1 in *.
  rewrite Q2, dy2, dz2 in R2. rewrite dx1, dy1, dz1 in R1. split; lra.
Qed.
Lemma dg2 : (gg 2 = r80 / 20 * t * gg 1)%R.
Proof. destruct drec as [R _]. pose proof t_sq as T. replace (gg 2) with (t * t * gg 2)%R by (rewrite T; ring). replace (t * t * gg 2)%R with (t * (60 * t * gg 2) / 60)%R by field. rewrite <- R. field. Qed.
Lemma dg0 : (2 * r8 * gg 0 = 8 * t * gg 1)%R.
Proof. destruct drec as [_ R]. rewrite dg2 in R. pose proof r80_sq as Q. replace (r80 * (r80 / 20 * t * gg 1))%R with (r80 * r80 * (t * gg 1 / 20))%R in R by field. rewrite Q in R. lra. Qed.
Lemma dg1 : (gg 1 * gg 1 = / 6)%R.
Proof.
  pose proof (cols_norm 1 1 m n dHm dHn) as CN. rewrite dEJ in CN. change (1 + 1) with 2 in CN.
  rewrite rsum_last in CN by lia. change (2 - 1) with 1 in CN. rewrite rsum_last in CN by lia. change (1 - 1) with 0 in CN. rewrite rsum_one in CN.
  change (GG 1 1 m n) with gg in CN. change (2 * 0 + 1) with 1 in CN. change (2 * 1 + 1) with 3 in CN. change (2 * 2 + 1) with 5 in CN.
  pose proof dg0 as E0. apply (f_equal (fun x => x * x)%R) in E0. pose proof dg2 as E2. pose proof t_sq as T. pose proof r8_sq as Q8. pose proof r80_sq as Q80.
  replace (2 * r8 * gg 0 * (2 * r8 * gg 0))%R with (4 * (r8 * r8) * (gg 0 * gg 0))%R in E0 by ring. replace (8 * t * gg 1 * (8 * t * gg 1))%R with (64 * (t * t) * (gg 1 * gg 1))%R in E0 by ring.
  rewrite Q8, T in E0.
  assert (E2' : (gg 2 * gg 2 = gg 1 * gg 1 / 5)%R).
  { rewrite E2. replace (r80 / 20 * t * gg 1 * (r80 / 20 * t * gg 1))%R with (r80 * r80 * (t * t) * (gg 1 * gg 1) / 400)%R by field. rewrite Q80, T. field. }
  rewrite E2' in CN. lra.
Qed.
Lemma dg1_b : (/ 4 <= Rabs (gg 1) <= 1)%R.
Proof.
  pose proof dg1 as Q. replace (gg 1 * gg 1)%R with (Rabs (gg 1) * Rabs (gg 1))%R in Q by (rewrite <- Rabs_mult; apply Rabs_pos_eq, Rle_0_sqr). pose proof (Rabs_pos (gg 1)) as P.
  split; [destruct (Rle_lt_dec (/ 4) (Rabs (gg 1))) as [|C]; auto; assert (Rabs (gg 1) * Rabs (gg 1) <= / 4 * / 4)%R by (apply Rmult_le_compat; lra); lra|].
  destruct (Rle_lt_dec (Rabs (gg 1)) 1) as [|C]; auto. assert (1 * 1 <= Rabs (gg 1) * Rabs (gg 1))%R by (apply Rmult_le_compat; lra). lra.
Qed.
Lemma dg2_b : (/ 10 <= Rabs (gg 2) <= 1)%R.
Proof. rewrite dg2. rewrite !Rabs_mult, t_abs, (Rabs_pos_eq (r80 / 20)) by (pose proof r80_b; lra). pose proof dg1_b. pose proof r80_b. split; [apply Rle_trans with (8 / 20 * 1 * / 4)%R; [lra|]|apply Rle_trans with (9 / 20 * 1 * 1)%R; [|lra]]; repeat apply Rmult_le_compat; lra. Qed.
Lemma dg0_b : (/ 10 <= Rabs (gg 0))%R.
Proof.
  pose proof dg0 as E. apply (f_equal Rabs) in E. pose proof r8_b. pose proof dg1_b. rewrite !Rabs_mult, t_abs, (Rabs_pos_eq r8), (Rabs_pos_eq 2), (Rabs_pos_eq 8) in E by lra.
  destruct (Rle_lt_dec (/ 10) (Rabs (gg 0))) as [|C]; auto. pose proof (Rabs_pos (gg 0)). assert (2 * r8 * Rabs (gg 0) <= 2 * 3 * / 10)%R by (repeat apply Rmult_le_compat; lra). lra.
Qed.
Lemma low_of c x : (1 <= Rabs c)%R -> (/ 10 <= Rabs x)%R -> (/ 16 <= Rabs (c * x))%R.
Proof. intros Hc Hx. rewrite Rabs_mult. apply Rle_trans with (1 * / 10)%R; [lra|]. apply Rmult_le_compat; lra. Qed.
Lemma low16 x : (/ 2 ^ 20 <= Rabs x)%R -> (/ 2 ^ 900 <= Rabs x)%R.
Proof. intros H. pose proof (pow_inv_le 20 900 ltac:(lia)). lra. Qed.

Lemma dratio : lg (7 / 2) (RN64 (- yy 2 / z64 2)) (/ gg 2 * gg 1) /\ lg (7 / 2) (RN64 (- z64 2 / yy 2)) (/ gg 1 * gg 2).
Proof.
  pose proof dlz2 as L. pose proof dg2_b as B2. pose proof dg1_b as B1. pose proof r80_b as Rb. pose proof t_abs as Ta.
  assert (N1 : gg 1 <> 0%R) by (intros E; rewrite E, Rabs_R0 in B1; lra). assert (N2 : gg 2 <> 0%R) by (intros E; rewrite E, Rabs_R0 in B2; lra).
  assert (Nt : t <> 0%R) by (intros E; rewrite E, Rabs_R0 in Ta; lra). destruct drec as [R _]. rewrite dy2.
  assert (E1 : (/ gg 2 * gg 1 = - (- 60 * t) / (3 * r80))%R). { replace (/ gg 2 * gg 1)%R with (3 * r80 * gg 1 / (3 * r80) / gg 2)%R by (field; lra). rewrite R. field. lra. }
  assert (E2 : (/ gg 1 * gg 2 = - (3 * r80) / (- 60 * t))%R). { replace (/ gg 1 * gg 2)%R with (60 * t * gg 2 / (60 * t) / gg 1)%R by (field; lra). rewrite <- R. field. lra. }
  assert (K1 : (1 <= Rabs (/ gg 1))%R) by (apply inv_big; auto; lra). assert (K2 : (1 <= Rabs (/ gg 2))%R) by (apply inv_big; auto; lra).
  assert (I : (/ 2 ^ 20 <= / 16)%R) by (apply Rinv_le_contravar; lra).
  split.
  - rewrite E1. replace (7 / 2)%R with (0 + 5 / 2 + 1)%R by lra. apply lg_RN0; [apply lg_div; [apply lg_refl|auto]|lra|right; rewrite <- E1; apply low16].
    pose proof (low_of (/ gg 2) (gg 1) K2 ltac:(lra)). lra.
  - rewrite E2. replace (7 / 2)%R with (5 / 2 + 0 + 1)%R by lra. apply lg_RN0; [apply lg_div; [apply lg_opp; auto|apply lg_refl]|lra|right; rewrite <- E2; apply low16].
    pose proof (low_of (/ gg 1) (gg 2) K1 ltac:(lra)). lra.
Qed.

Lemma drev ws : alen ws = 4 * size ->
  exists ws' c, reverse64 fixed size 1 1 m n ws 0 = Ok (ws', 1, false) /\ alen ws' = 4 * size /\ (forall k, 0 <= k < size -> G ws' 0 k = G ws 0 k) /\
    (1 <= Rabs c)%R /\ lg (7 / 2) (G ws' 3 1) (c * gg 1) /\ lg (7 / 2) (G ws' 3 2) (c * gg 2).
Proof.
  intros Hl. unfold reverse64. cbv zeta. change (Z.max (Z.abs (1 - 1)) (Z.abs (m + n))) with (jlo 1 1 m n). rewrite dEJ. change (1 + 1) with 2. change (2 - 1) with 1. change (0 - 1) with (-1).
  rewrite dZ by lia. cbn [bind]. rewrite dY2.
  destruct dratio as [Lq Ls]. set (q := RN64 (- yy 2 / z64 2)) in *. pose proof dg2_b as B2. pose proof dg1_b as B1.
  assert (N1 : gg 1 <> 0%R) by (intros E; rewrite E, Rabs_R0 in B1; lra). assert (N2 : gg 2 <> 0%R) by (intros E; rewrite E, Rabs_R0 in B2; lra).
  assert (K1 : (1 <= Rabs (/ gg 1))%R) by (apply inv_big; auto; lra). assert (K2 : (1 <= Rabs (/ gg 2))%R) by (apply inv_big; auto; lra).
  assert (Nz : z64 2 <> 0%R) by (apply (lg_neq _ _ _ dlz2); pose proof r80_b; lra).
  assert (Ny : yy 2 <> 0%R). { rewrite dy2. pose proof t_abs as Ta. intros E. assert (t = 0%R) as E' by lra. rewrite E', Rabs_R0 in Ta. lra. }
  assert (Two : forall ws1, alen ws1 = 4 * size -> (forall k, 0 <= k < size -> G ws1 0 k = G ws 0 k) -> exists ws' c,
    (do ws <- wrv (put size ws1 3 2 1%R) (slot size (4 * size) 3) 1 q; Ok (ws, 1, false)) = Ok (ws', 1, false) /\ alen ws' = 4 * size /\ (forall k, 0 <= k < size -> G ws' 0 k = G ws 0 k) /\
    (1 <= Rabs c)%R /\ lg (7 / 2) (G ws' 3 1) (c * gg 1) /\ lg (7 / 2) (G ws' 3 2) (c * gg 2)).
  { intros ws1 L1 F1. rewrite wrv_ok by (try lia; auto). cbn [bind]. eexists. exists (/ gg 2)%R. split; [reflexivity|]. split; [exact L1|]. split.
    { intros k Hk. rewrite !get_put_b by lia. auto. }
    split; auto. split; [rewrite get_put_same; auto|]. rewrite get_put_i by lia. rewrite get_put_same, Rinv_l by auto. apply (lg_weak 0); [apply lg_refl|lra]. }
  destruct ((- (m + n) =? 0) && (m =? 0) && (n =? 0)) eqn:EZ.
  { exfalso. apply andb_prop in EZ. destruct EZ as [EZ _]. apply andb_prop in EZ. destruct EZ as [_ E]. lia. }
  destruct (Reqb_spec (yy 2) 0) as [|_]; [tauto|].
  destruct (Rleb 0 (RN64 (yy 2 * z64 2))).
  { rewrite wrv_ok by (try lia; auto). cbn [bind]. rewrite fdiv64_ok by auto. cbn [bind]. fold q. apply Two; auto. }
  rewrite fdiv64_ok by auto. cbn [bind]. set (s := RN64 (- z64 2 / yy 2)) in *. rewrite wrv_ok by (try lia; auto). cbn [bind].
  set (ws1 := put size ws 1 2 s). assert (L1 : alen ws1 = 4 * size) by exact Hl.
  assert (S1 : G ws1 1 2 = s) by apply get_put_same.
  assert (Z1 : forall k, 0 <= k < size -> G ws1 0 k = G ws 0 k) by (intros; unfold ws1; rewrite get_put_b by lia; auto).
  clearbody ws1. unfold for_down_brk. change (Z.to_nat (1 - -1)) with 2%nat. cbn [loop_brk].
  unfold reverse_body64 at 1. rewrite dX by lia. cbn [bind]. change (1 + 1) with 2. rewrite rdv_ok by (try lia; auto). cbn [bind]. rewrite S1, dY1. rewrite dZ by lia. cbn [bind].
  set (den := RN64 (yy 1 + RN64 (x64 1 * s))).
  destruct (Reqb_spec den 0) as [D|D]; cbn [orb]; [|destruct (Rltb (Rabs den) (Rabs (z64 1)) || Rleb 0 (RN64 (z64 1 * den)))].
  1, 2 : cbn [bind]; rewrite wrv_ok by (try lia; auto); cbn [bind]; change (2 - 2 + 1) with 1; rewrite for_range_empty by lia; cbn [bind];
    destruct (Z.eqb_spec 2 2) as [_|]; [|lia]; rewrite fdiv64_ok by auto; cbn [bind]; fold q; apply Two; auto.
  rewrite fdiv64_ok by auto. cbn [bind]. rewrite wrv_ok by (try lia; auto). cbn [bind]. change (1 + -1) with 0.
  unfold reverse_body64. rewrite dX by lia. cbn [bind]. change (0 + 1) with 1. rewrite rdv_ok by (try lia; auto). cbn [bind].
  destruct (zero_case 1 1 m n dEJ) as [Y0 X0]. rewrite Y0, X0, Rmult_0_l, RN64_0, Rplus_0_r, RN64_0. rewrite dZ by lia. cbn [bind].
  destruct (Reqb_spec 0 0) as [_|]; [|tauto]. cbn [orb bind].
  rewrite wrv_ok by (try lia; auto). cbn [bind]. change (2 - 1 + 1) with 2. unfold for_range. change (Z.to_nat (2 - 1)) with 1%nat. cbn [for_loop]. change (1 + 1 - 1) with 1. change (1 + 1) with 2.
  rewrite rdv_ok by (try lia; auto). cbn [bind]. rewrite get_put_same. rewrite rdv_ok by (try lia; auto). cbn [bind]. rewrite get_put_b by lia. rewrite get_put_i by lia. rewrite S1.
  rewrite wrv_ok by (try lia; auto). cbn [bind]. destruct (Z.eqb_spec 1 2) as [|_]; [lia|].
  eexists. exists (/ gg 1)%R. split; [reflexivity|]. split; [exact L1|]. split.
  { intros k Hk. rewrite !get_put_b by lia. auto. }
  split; auto. split.
  - rewrite get_put_i by lia. rewrite get_put_same, Rinv_l by auto. apply (lg_weak 0); [apply lg_refl|lra].
  - rewrite get_put_same, Rmult_1_l. unfold s. rewrite RN64_idem. auto.
Qed.

Lemma ddown ws c : alen ws = 4 * size -> (forall k, 0 <= k < size -> G ws 0 k = 0%R) -> (1 <= Rabs c)%R -> lg (7 / 2) (G ws 3 1) (c * gg 1) -> lg (7 / 2) (G ws 3 2) (c * gg 2) ->
  exists ws', down_only64 fixed size 1 1 m n ws 1 = Ok ws' /\ fclose size 1 1 m n 18 ws'.
Proof.
  intros Hl Hz Hc F1 F2. unfold down_only64. cbv zeta. change (Z.max (Z.abs (1 - 1)) (Z.abs (m + n))) with (jlo 1 1 m n). rewrite dEJ. change (1 + 1) with 2.
  unfold for_down. change (Z.to_nat (1 - 0)) with 1%nat. cbn [for_loop]. unfold step_down64. cbv zeta. rewrite dX by lia. cbn [bind]. change (1 + 1) with 2.
  rewrite rdv_ok by (try lia; auto). cbn [bind]. rewrite rdv_ok by (try lia; auto). cbn [bind]. rewrite dZ by lia. cbn [bind]. rewrite dY1.
  pose proof dg2_b as B2. pose proof dg1_b as B1. pose proof dg0_b as B0. pose proof r80_b as Rb. pose proof r8_b as Rb8. pose proof t_abs as Ta.
  assert (I : (/ 2 ^ 20 <= / 16)%R) by (apply Rinv_le_contravar; lra).
  pose proof (low_of c (gg 0) Hc B0) as C0. pose proof (low_of c (gg 1) Hc ltac:(lra)) as C1. pose proof (low_of c (gg 2) Hc ltac:(lra)) as C2.
  assert (Nz : z64 1 <> 0%R) by (apply (lg_neq _ _ _ dlz1); lra). rewrite fdiv64_ok by auto. cbn [bind]. change (1 - 1) with 0. rewrite wrv_ok by (try lia; auto). cbn [bind].
  set (P := RN64 (x64 1 * G ws 3 2)). set (Q := RN64 (yy 1 * G ws 3 1)).
  assert (LP : lg 7 P (r80 * (c * gg 2))).
  { unfold P. replace 7%R with (5 / 2 + 7 / 2 + 1)%R by lra. apply lg_RN0; [apply lg_mul; auto; apply dlx|lra|right; apply low16].
    rewrite Rabs_mult, (Rabs_pos_eq r80) by lra. apply Rle_trans with (8 * / 16)%R; [lra|]. apply Rmult_le_compat; lra. }
  assert (Cq : (/ 16 <= Rabs (yy 1 * (c * gg 1)))%R).
  { rewrite dy1. rewrite Rabs_mult, (Rabs_mult (-12)), Ta. replace (Rabs (-12)) with 12%R by (rewrite Rabs_left; lra). apply Rle_trans with (12 * 1 * / 16)%R; [lra|]. apply Rmult_le_compat; lra. }
  assert (LQ : lg (9 / 2) Q (yy 1 * (c * gg 1))).
  { unfold Q. replace (9 / 2)%R with (7 / 2 + 1)%R by lra. apply lg_RN0; [apply lg_scale; auto|lra|right; apply low16; lra]. }
  assert (E3 : (r80 * (c * gg 2) = - (yy 1 * (c * gg 1)) / 3)%R).
  { rewrite dy1, dg2. replace (r80 * (c * (r80 / 20 * t * gg 1)))%R with (r80 * r80 * (c * t * gg 1 / 20))%R by field. rewrite r80_sq. field. }
  assert (LS : lg 13 (RN64 (P + Q)) (r80 * (c * gg 2) + yy 1 * (c * gg 1))).
  { apply third; auto. pose proof (pow_inv_le 20 200 ltac:(lia)). lra. }
  set (v := RN64 (- RN64 (P + Q) / z64 1)).
  assert (Lv : lg (33 / 2) v (c * gg 0)).
  { assert (E : (c * gg 0 = - (r80 * (c * gg 2) + yy 1 * (c * gg 1)) / (2 * r8))%R).
    { replace (c * gg 0)%R with (c * (2 * r8 * gg 0) / (2 * r8))%R by (field; lra). rewrite E3, dg0, dy1. field. lra. }
    rewrite E. unfold v. replace (33 / 2)%R with (13 + 5 / 2 + 1)%R by lra. apply lg_RN0; [apply lg_div; [apply lg_opp; auto|apply dlz1]|lra|right; rewrite <- E; apply low16; lra]. }
  set (ws1 := put size ws 3 0 v). assert (L1 : alen ws1 = 4 * size) by exact Hl.
  assert (Zz : forall k, 0 <= k < size -> G ws1 0 k = 0%R) by (intros; unfold ws1; rewrite get_put_b by lia; auto).
  assert (V : forall k, 0 <= k <= 2 -> lg (33 / 2) (G ws1 3 k) (c * gg k) /\ (/ 16 <= Rabs (c * gg k))%R).
  { intros k Hk. unfold ws1. assert (C : k = 0 \/ k = 1 \/ k = 2) by lia. destruct C as [-> |[-> | ->]].
    - rewrite get_put_same. auto.
    - rewrite get_put_i by lia. split; auto. apply (lg_weak (7 / 2)); [auto|lra].
    - rewrite get_put_i by lia. split; auto. apply (lg_weak (7 / 2)); [auto|lra]. }
  clearbody ws1.
  assert (Cp : forall ws2 d, alen ws2 = 4 * size -> (forall k, 0 <= k < size -> G ws2 0 k = 0%R) -> (/ 2000 <= Rabs d)%R -> (forall k, 0 <= k <= 2 -> lg 18 (G ws2 3 k) (d * gg k)) ->
    exists ws', wrv_slice ws2 (slot size (4 * size) 0) 0 (2 + 1) (fun k => vget ws2 (slot size (4 * size) 3) k) = Ok ws' /\ fclose size 1 1 m n 18 ws').
  { intros ws2 d L2 Z2 Hd Hv. destruct (wrv_slice_ok size ltac:(lia) ws2 0 0 (2 + 1) (fun k => vget ws2 (slot size (4 * size) 3) k)) as (ws3 & E3' & L3 & S3 & _); auto; try lia.
    exists ws3. split; auto. split; auto. rewrite dEJ. change (1 + 1) with 2. split.
    - exists d. split. { pose proof (pow_inv_le 11 300 ltac:(lia)). lra. }
      intros k Hk. rewrite S3 by lia. destruct (Z.leb_spec 0 k); [|lia]. destruct (Z.ltb_spec k (2 + 1)); [|lia]. cbn [andb]. rewrite vget_slot by lia. auto.
    - intros k Hk Ho. rewrite S3 by lia. destruct (Z.leb_spec 0 k); destruct (Z.ltb_spec k (2 + 1)); cbn [andb]; auto; lia. }
  unfold rescale_down64. cbv zeta. change (1 - 1) with 0. rewrite rdv_ok by (try lia; auto). cbn [bind]. change (1 + 1) with 2.
  destruct (Rltb 1 (Rabs (G ws1 3 0))).
  - destruct (wrv_slice_ok size ltac:(lia) ws1 3 0 (2 + 1) (fun k => RN64 (vget ws1 (slot size (4 * size) 3) k / 1000))) as (ws2 & E2 & L2 & S2 & T2); try lia; auto.
    rewrite E2. cbn [bind]. apply (Cp ws2 (c / 1000)%R); auto.
    + intros. rewrite T2 by lia. auto.
    + unfold Rdiv. rewrite Rabs_mult, (Rabs_pos_eq (/ 1000)) by lra. lra.
    + intros k Hk. destruct (V k Hk) as [Lk Bk]. rewrite S2 by lia. destruct (Z.leb_spec 0 k); [|lia]. destruct (Z.ltb_spec k (2 + 1)); [|lia]. cbn [andb]. rewrite vget_slot by lia.
      replace (c / 1000 * gg k)%R with (c * gg k / 1000)%R by field. apply (lg_weak (33 / 2 + 0 + 1)); [|lra]. apply lg_RN0; [apply lg_div; [auto|apply lg_refl]|lra|right; apply low16].
      unfold Rdiv. rewrite Rabs_mult, (Rabs_pos_eq (/ 1000)) by lra. lra.
  - cbn [bind]. apply (Cp ws1 c); auto; [lra|]. intros k Hk. apply (lg_weak (33 / 2)); [apply V; auto|lra].
Qed.

Lemma dipole64 ws : alen ws = 4 * size ->
  exists ws', calculate_ws64 fixed size 1 1 m n ws = Ok ws' /\ alen ws' = 4 * size /\ closed size 1 1 m n 41 ws'.
Proof.
  intros Hl. unfold calculate_ws64. cbv zeta. change (Z.max (Z.abs (1 - 1)) (Z.abs (m + n))) with (jlo 1 1 m n). rewrite dEJ. change (1 + 1) with 2.
  set (ws0 := mkarr (alen ws) (fun _ => 0%R)). assert (L0 : alen ws0 = 4 * size) by exact Hl.
  assert (Z0 : forall k, 0 <= k < size -> G ws0 0 k = 0%R) by reflexivity. clearbody ws0.
  destruct (Z.gtb_spec (Z.abs m) 1); [lia|]. destruct (Z.gtb_spec (Z.abs n) 1); [lia|]. cbn [orb].
  destruct (Z.ltb_spec 2 0); [lia|]. destruct (Z.eqb_spec 2 0) as [|_]; [lia|].
  unfold forward64. cbv zeta. change (Z.max (Z.abs (1 - 1)) (Z.abs (m + n))) with (jlo 1 1 m n). rewrite dEJ. rewrite dX by lia. cbn [bind].
  destruct (zero_case 1 1 m n dEJ) as [Y0 X0]. rewrite Y0, X0. destruct (Reqb_spec 0 0) as [_|]; [|tauto].
  destruct ((- (m + n) =? 0) && (m =? 0) && (n =? 0)) eqn:EZ.
  { exfalso. apply andb_prop in EZ. destruct EZ as [EZ _]. apply andb_prop in EZ. destruct EZ as [_ E]. lia. }
  cbn [bind]. destruct (Z.eqb_spec 0 2) as [|_]; [lia|].
  destruct (drev ws0 L0) as (ws1 & c & E1 & L1 & F1 & Hc & V1 & V2). rewrite E1. cbn [bind andb negb].
  destruct (ddown ws1 c L1) as (ws2 & E2 & F2); auto. { intros. rewrite F1; auto. }
  rewrite E2. cbn [bind].
  destruct (finish64_ok size 1 1 m n dHm dHn ltac:(lia) ltac:(lia)) with (N := 18%R) (ws := ws2) as (ws3 & E3 & L3 & C3); auto.
  - intros k Hk. rewrite dEJ in Hk. right. assert (C : k = 0 \/ k = 1 \/ k = 2) by lia. pose proof dg2_b. pose proof dg1_b. pose proof dg0_b.
    pose proof (pow_inv_le 4 100 ltac:(lia)). destruct C as [-> |[-> | ->]]; lra.
  - lra.
  - exists ws3. split; auto. split; auto. intros k Hk. eapply lg_weak; [apply C3; auto|]. rewrite dEJ. change (1 + 1 - 0) with 2. lra.
Qed.
End Dipole.
