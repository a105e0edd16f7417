(** Accuracy of the 3-j symbols with a degree 0 or 1, of those near the end of their family, and of products with functions of ell_max <= 1, in double precision. *)
Require Import ZArith Lia List Permutation Reals Lra Bool.
From Flocq Require Import Core.
From Coquelicot Require Import Complex.
From Verif Require Import Base BaseProofs CBase CSum Fact RSum ThreeJSpec ThreeJ ThreeJ2 ThreeJ3 ThreeJ4 Wigner3jModel Wigner3jSpec Wigner3jWs Wigner3jFwd Wigner3jProofs Wigner3jProps
  IndexModel ModesModel ModesSpec ModesProofs ModesProofs3 MultModel MultSpec MultProofs MultProps.
From Verif Require Import FloatIndexModel FloatIndexProofs FloatModesModel FloatModesSpec FloatPowersSpec FloatPowersProofs FloatPowersProps FloatConvProofs FloatPartsProofs
  FloatThreeJModel FloatLog FloatThreeJProofs FloatThreeJProps FloatThreeJSame FloatThreeJSameProps FloatThreeJThree FloatThreeJDipole
  FloatMultModel FloatMultSpec FloatMultProofs FloatMultProofs2 FloatMultProps FloatMultProps2.
Import ListNotations.
Local Open Scope Z_scope.
Set Bullet Behavior "Strict Subproofs".

(** ** Families of at most three symbols *)
Lemma three64 size a b m n ws : Z.abs m <= a -> Z.abs n <= b -> a + b < size -> a + b <= 151 -> a + b - 2 <= jlo a b m n -> alen ws = 4 * size ->
  exists ws', calculate_ws64 fixed size a b m n ws = Ok ws' /\ alen ws' = 4 * size /\ closed size a b m n 113 ws'.
Proof.
  intros Hm Hn Hsz Hab Hj Hl. assert (J : jlo a b m n <= a + b) by (unfold jlo; lia). assert (J0 : 0 <= jlo a b m n) by (unfold jlo; lia).
  assert (D : jlo a b m n = a + b \/ jlo a b m n = a + b - 1 \/ jlo a b m n = a + b - 2) by lia. destruct D as [D|[D|D]].
  - destruct (single64 fixed size a b m n ws) as (ws' & E & L & C); auto; try lia. exists ws'. split; auto. split; auto. intros k Hk. apply (lg_weak 2); [auto|lra].
  - destruct (two64 size a b m n ws) as (ws' & E & L & C); auto. exists ws'. split; auto. split; auto. intros k Hk. apply (lg_weak 11); [auto|lra].
  - destruct (Z_le_gt_dec 1 (jlo a b m n)) as [P|P].
    + apply (three64_pos size a b m n (jlo a b m n)); auto. lia.
    + assert (E : a = 1 /\ b = 1 /\ n = - m) by (unfold jlo in *; lia). destruct E as (-> & -> & En).
      destruct (Z.eq_dec m 0) as [E|N].
      * subst m n. change (- 0) with 0 in *. destruct (zero_main fixed size 1 1 ws) as (ws' & E & L & C); auto; try lia; [apply fixed_zero_ok; lia|].
        exists ws'. split; auto. split; auto. intros k Hk. eapply lg_weak; [apply C; auto|]. change (Z.min 1 1) with 1. lra.
      * destruct (dipole64 size m n) with (ws := ws) as (ws' & E & L & C); auto; try lia. exists ws'. split; auto. split; auto. intros k Hk. apply (lg_weak 41); [auto|lra].
Qed.

(** ** None of these symbols is small, unless it is zero *)
Lemma low2 a b m n k : Z.abs m <= a -> Z.abs n <= b -> a + b <= 151 -> jlo a b m n = a + b - 1 -> jlo a b m n <= k <= a + b -> (/ 2 ^ 100 <= Rabs (gg a b m n k))%R.
Proof.
  intros Hm Hn Hab EJ Hk.
  set (p := a + b - 1) in *. replace (a + b) with (p + 1) in * by (unfold p; lia).
  assert (P1 : 1 <= p).
  { unfold jlo in EJ. destruct (Z_le_gt_dec 1 p); auto. exfalso. unfold p in *. lia. }
  pose proof (GG_recurrence a b m n p Hm Hn ltac:(lia)) as Rec. rewrite (GG_out a b m n (p - 1)) in Rec by lia.
  pose proof (GG_top_sign a b m n Hm Hn) as Sg. replace (a + b) with (p + 1) in Sg by (unfold p; lia).
  pose proof (cols_norm a b m n Hm Hn) as CN. rewrite EJ in CN. replace (a + b) with (p + 1) in CN by (unfold p; lia).
  rewrite rsum_last in CN by lia. replace (p + 1 - 1) with p in CN by lia. rewrite rsum_one in CN.
  change (GG a b m n (p + 1)) with (gg a b m n (p + 1)) in *. change (GG a b m n p) with (gg a b m n p) in *.
  change (IZR p * Aq (p + 1) a b (m + n))%R with (xx a b m n p) in Rec. change (IZR (Bq p a b m n)) with (yy a b m n p) in Rec.
  destruct (x64_lg a b m n ltac:(lia) p ltac:(lia) ltac:(lia)) as [Lx X1].
  assert (Yb : Z.abs (Bq p a b m n) <= 2 ^ 31).
  { assert (E : B fixed p a b m n = Bq p a b m n) by (rewrite C35_B by lia; reflexivity). rewrite <- E. unfold B. cbn [wB fixed]. unfold wrap.
    match goal with |- context [?z mod ?k] => pose proof (Z.mod_pos_bound z k ltac:(lia)) end. lia. }
  assert (Xb : (xx a b m n p <= 2 ^ 40)%R).
  { unfold xx, Aq. assert (A0 : 0 <= A2 (p + 1) a b (m + n)) by (apply A2_nonneg; lia).
    assert (A1 : A2 (p + 1) a b (m + n) <= 2 ^ 64).
    { pose proof (A2_bound (p + 1) a b (m + n) ltac:(lia) ltac:(lia) ltac:(lia) ltac:(lia) ltac:(lia)) as Bd.
      assert (Q : A2 (p + 1) a b (m + n) = ((p + 1) ^ 2 - (a - b) ^ 2) * ((a + b + 1) ^ 2 - (p + 1) ^ 2) * ((p + 1) ^ 2 - (m + n) ^ 2)) by (unfold A2; ring).
      rewrite Q. assert (1448 ^ 6 <= 2 ^ 64) by (vm_compute; discriminate). clear - Bd H. lia. }
    assert (Sq : (sqrt (IZR (A2 (p + 1) a b (m + n))) <= 4294967296)%R).
    { replace 4294967296%R with (sqrt (4294967296 * 4294967296)) by (apply sqrt_square; lra). apply sqrt_le_1_alt.
      rewrite <- mult_IZR. apply IZR_le. lia. }
    assert (Pb : (0 <= IZR p <= 150)%R) by (split; apply IZR_le; lia).
    assert (IZR p * sqrt (IZR (A2 (p + 1) a b (m + n))) <= 150 * 4294967296)%R by (apply Rmult_le_compat; try lra; apply sqrt_pos). lra. }
  set (x := xx a b m n p) in *. set (y := yy a b m n p) in *. set (g0 := gg a b m n p) in *. set (g1 := gg a b m n (p + 1)) in *.
  assert (N1 : g1 <> 0%R) by (intros E; rewrite E in Sg; lra).
  assert (Nxx : x <> 0%R) by lra.
  assert (Ny : y <> 0%R). { intros E. rewrite E in Rec. apply N1. apply (Rmult_eq_reg_l x); lra. }
  assert (N0 : g0 <> 0%R). { intros E. rewrite E in Rec. apply N1. apply (Rmult_eq_reg_l x); lra. }
  assert (R0 : (x * g1 = - y * g0)%R) by lra. clear Rec.
  assert (Y1 : (1 <= Rabs y <= 2 ^ 31)%R).
  { unfold y, yy. rewrite <- abs_IZR. split.
    - apply (IZR_le 1). assert (Bq p a b m n <> 0); [|lia]. intros E. apply Ny. unfold y, yy. now rewrite E.
    - rewrite pow_IZR. apply IZR_le. exact Yb. }
  assert (Gb : (Rabs g0 <= 1 /\ Rabs g1 <= 1)%R).
  { assert (C0 : (0 <= g0 * g0)%R) by apply Rle_0_sqr. assert (C1 : (0 <= g1 * g1)%R) by apply Rle_0_sqr.
    assert (I0 : (1 * (g0 * g0) <= IZR (2 * p + 1) * (g0 * g0))%R) by (apply Rmult_le_compat_r; [lra|apply (IZR_le 1); lia]).
    assert (I1 : (1 * (g1 * g1) <= IZR (2 * (p + 1) + 1) * (g1 * g1))%R) by (apply Rmult_le_compat_r; [lra|apply (IZR_le 1); lia]).
    split; apply Rsqr_incr_0_var; try lra; rewrite <- Rsqr_abs; unfold Rsqr; lra. }
  assert (Gr : (x * Rabs g1 = Rabs y * Rabs g0)%R).
  { rewrite <- (Rabs_pos_eq x) at 1 by lra. rewrite <- !Rabs_mult. rewrite R0. rewrite Ropp_mult_distr_l_reverse, Rabs_Ropp. reflexivity. }
  assert (Gl : (/ 2 ^ 100 <= Rabs g0 /\ / 2 ^ 100 <= Rabs g1)%R).
  { assert (Mx : (/ 32 <= Rabs g0 \/ / 32 <= Rabs g1)%R).
    { destruct (Rle_dec (/ 32) (Rabs g0)) as [|L0]; [auto|]. destruct (Rle_dec (/ 32) (Rabs g1)) as [|L1]; [auto|]. exfalso.
      assert (S0 : (g0 * g0 <= / 32 * / 32)%R).
      { replace (g0 * g0)%R with (Rabs g0 * Rabs g0)%R by (rewrite <- Rabs_mult; apply Rabs_pos_eq, Rle_0_sqr). pose proof (Rabs_pos g0). apply Rmult_le_compat; lra. }
      assert (S1 : (g1 * g1 <= / 32 * / 32)%R).
      { replace (g1 * g1)%R with (Rabs g1 * Rabs g1)%R by (rewrite <- Rabs_mult; apply Rabs_pos_eq, Rle_0_sqr). pose proof (Rabs_pos g1). apply Rmult_le_compat; lra. }
      assert (C0 : (0 <= g0 * g0)%R) by apply Rle_0_sqr. assert (C1 : (0 <= g1 * g1)%R) by apply Rle_0_sqr.
      assert (I0 : (IZR (2 * p + 1) * (g0 * g0) <= 303 * (/ 32 * / 32))%R) by (apply Rmult_le_compat; try lra; [apply (IZR_le 0); lia|apply IZR_le; lia]).
      assert (I1 : (IZR (2 * (p + 1) + 1) * (g1 * g1) <= 303 * (/ 32 * / 32))%R) by (apply Rmult_le_compat; try lra; [apply (IZR_le 0); lia|apply IZR_le; lia]).
      lra. }
    pose proof (pow_inv_le 46 100 ltac:(lia)) as I46. pose proof (Rabs_pos g0). pose proof (Rabs_pos g1).
    assert (T1 : (Rabs g1 <= x * Rabs g1)%R) by (rewrite <- (Rmult_1_l (Rabs g1)) at 1; apply Rmult_le_compat_r; lra).
    assert (T2 : (x * Rabs g1 <= 2 ^ 40 * Rabs g1)%R) by (apply Rmult_le_compat_r; lra).
    assert (T3 : (Rabs g0 <= Rabs y * Rabs g0)%R) by (rewrite <- (Rmult_1_l (Rabs g0)) at 1; apply Rmult_le_compat_r; lra).
    assert (T4 : (Rabs y * Rabs g0 <= 2 ^ 31 * Rabs g0)%R) by (apply Rmult_le_compat_r; lra).
    destruct Mx as [Mx|Mx]; split; lra. }
  assert (D : k = p \/ k = p + 1) by lia. destruct D as [-> | ->]; apply Gl.
Qed.
Lemma low1 a b m n : Z.abs m <= a -> Z.abs n <= b -> a + b <= 151 -> jlo a b m n = a + b -> (/ 2 ^ 100 <= Rabs (gg a b m n (a + b)))%R.
Proof.
  intros Hm Hn Hab EJ. pose proof (cols_norm a b m n Hm Hn) as CN. rewrite EJ, rsum_one in CN. change (GG a b m n (a + b)) with (gg a b m n (a + b)) in CN.
  set (g := gg a b m n (a + b)) in *. pose proof (pow_inv_le 6 100 ltac:(lia)) as I.
  destruct (Rle_lt_dec (/ 32) (Rabs g)) as [Q|Q]; [lra|]. exfalso.
  assert (S0 : (g * g <= / 32 * / 32)%R).
  { replace (g * g)%R with (Rabs g * Rabs g)%R by (rewrite <- Rabs_mult; apply Rabs_pos_eq, Rle_0_sqr). pose proof (Rabs_pos g). apply Rmult_le_compat; lra. }
  assert (IZR (2 * (a + b) + 1) * (g * g) <= 303 * (/ 32 * / 32))%R; [|lra].
  apply Rmult_le_compat; auto; [apply (IZR_le 0); lia|apply Rle_0_sqr|apply IZR_le; lia].
Qed.
Lemma low3 a b m n k : Z.abs m <= a -> Z.abs n <= b -> a + b <= 151 -> a + b - 2 <= jlo a b m n -> gg a b m n k = 0%R \/ (/ 2 ^ 100 <= Rabs (gg a b m n k))%R.
Proof.
  intros Hm Hn Hab Hj. destruct (Z_lt_le_dec k (jlo a b m n)) as [K1|K1]; [left; apply GG_out; lia|]. destruct (Z_lt_le_dec (a + b) k) as [K2|K2]; [left; apply GG_out; lia|].
  assert (J0 : 0 <= jlo a b m n) by (unfold jlo; lia).
  assert (D : jlo a b m n = a + b \/ jlo a b m n = a + b - 1 \/ jlo a b m n = a + b - 2) by lia. destruct D as [D|[D|D]].
  - right. assert (k = a + b) as -> by lia. apply low1; auto.
  - right. apply low2; auto.
  - destruct (Z_le_gt_dec 1 (jlo a b m n)) as [P|P].
    + apply (FloatThreeJThree.low (a + b + 1) a b m n (jlo a b m n)); auto; lia.
    + assert (E : a = 1 /\ b = 1 /\ n = - m) by (unfold jlo in *; lia). destruct E as (-> & -> & En). rewrite D in K1.
      destruct (Z.eq_dec m 0) as [E|N].
      * subst m n. change (- 0) with 0 in *. destruct (FloatThreeJZero.low_or 1 1 ltac:(lia) ltac:(lia) ltac:(lia) k) as [Q|Q]; [change (Z.abs (1 - 1)) with 0; lia|auto|right].
        pose proof (pow_inv_le 29 100 ltac:(lia)). lra.
      * right. assert (Em : m = 1 \/ m = -1) by lia. pose proof (dg0_b m n Em En). pose proof (dg1_b m n Em En). pose proof (dg2_b m n Em En). pose proof (pow_inv_le 4 100 ltac:(lia)).
        assert (C : k = 0 \/ k = 1 \/ k = 2) by lia. destruct C as [-> |[-> | ->]]; lra.
Qed.

Lemma three_calculate c a b m n : calc_wf c -> a + b < csize c -> a + b <= 151 -> Z.abs m <= a -> Z.abs n <= b -> a + b - 2 <= jlo a b m n ->
  exists c', calculate64 fixed c a b m n = Ok c' /\ calc_wf c' /\ csize c' = csize c /\
    forall j, 0 <= j < csize c -> exists x, returned c' j = Ok x /\ lg 113 x (threej j a b (- m - n) m n) /\ (threej j a b (- m - n) m n = 0 \/ / 2 ^ 100 <= Rabs (threej j a b (- m - n) m n))%R.
Proof.
  intros [P L] S Hab Hm Hn Hj. destruct (three64 (csize c) a b m n (workspace c)) as (ws' & E & L' & C); auto.
  unfold calculate64. rewrite E. cbn [bind]. assert (W : calc_wf (mkcalc (csize c) ws')) by (split; auto).
  eexists. split; [reflexivity|]. split; auto. split; auto. intros j Hj'. rewrite returned_get by auto. cbn [csize workspace].
  eexists. split; [reflexivity|]. pose proof (C j Hj') as Q. rewrite gg_threej in Q. split; auto. rewrite <- gg_threej. apply low3; auto.
Qed.
Lemma err113 x y : lg 113 x y -> (Rabs (x - y) <= 114 * u64 * Rabs y)%R.
Proof.
  intros Q. eapply Rle_trans; [apply (lg_err _ _ _ Q); lra|]. apply Rmult_le_compat_r; [apply Rabs_pos|]. apply Rmult_le_compat_r; [apply Rlt_le, u64_small|]. lra.
Qed.

(** ** C73 *)
Lemma C73_calculator :
  forall c j2 j3 m2 m3, calc_wf c -> j2 + j3 < csize c -> j2 + j3 <= 151 -> Z.abs m2 <= j2 -> Z.abs m3 <= j3 ->
    j2 + j3 - 2 <= Z.max (Z.abs (j2 - j3)) (Z.abs (m2 + m3)) ->
    exists c', calculate64 fixed c j2 j3 m2 m3 = Ok c' /\ calc_wf c' /\ csize c' = csize c /\
      forall j, 0 <= j < csize c -> exists x, returned c' j = Ok x /\
        (Rabs (x - threej j j2 j3 (- m2 - m3) m2 m3) <= 114 * u64 * Rabs (threej j j2 j3 (- m2 - m3) m2 m3))%R.
Proof.
  intros c a b m n W S Hab Hm Hn Hj. destruct (three_calculate c a b m n W S Hab Hm Hn Hj) as (c' & E & W' & S' & V).
  exists c'. split; auto. split; auto. split; auto. intros j Hj'. destruct (V j Hj') as (x & Ex & Lx & _). exists x. split; auto. apply err113; auto.
Qed.

(** the symbol that [Wigner3j] computes, whichever argument is the largest *)
Definition near_end (j1 j2 j3 m1 m2 m3 : Z) : Prop :=
  j2 <= j1 -> j3 <= j1 -> j2 + j3 <= 151 /\ j2 + j3 - 2 <= Z.max (Z.abs (j2 - j3)) (Z.abs m1).

Lemma W64_three g j1 j2 j3 m1 m2 m3 : near_end j1 j2 j3 m1 m2 m3 -> near_end j2 j3 j1 m2 m3 m1 -> near_end j3 j1 j2 m3 m1 m2 ->
  exists x, Wigner3j64 fixed g j1 j2 j3 m1 m2 m3 = Ok x /\ lg 113 x (threej j1 j2 j3 m1 m2 m3) /\ (threej j1 j2 j3 m1 m2 m3 = 0 \/ / 2 ^ 100 <= Rabs (threej j1 j2 j3 m1 m2 m3))%R.
Proof.
  intros N1 N2 N3. unfold Wigner3j64.
  assert (Out : ~ tj_allowed j1 j2 j3 m1 m2 m3 -> exists x, @Ok R 0%R = Ok x /\ lg 113 x (threej j1 j2 j3 m1 m2 m3) /\ (threej j1 j2 j3 m1 m2 m3 = 0 \/ / 2 ^ 100 <= Rabs (threej j1 j2 j3 m1 m2 m3))%R).
  { intros H. exists 0%R. split; auto. rewrite (threej_out j1 j2 j3 m1 m2 m3 H). split; [apply (lg_weak 0); [apply lg_refl|lra]|auto]. }
  destruct (Z.eqb_spec (m1 + m2 + m3) 0) as [Hs|Hs]; cbn [negb]; [|apply Out; unfold tj_allowed; lia].
  destruct (Z.gtb_spec (Z.abs m1) j1); cbn [orb]; [apply Out; unfold tj_allowed; lia|].
  destruct (Z.gtb_spec (Z.abs m2) j2); cbn [orb]; [apply Out; unfold tj_allowed; lia|].
  destruct (Z.gtb_spec (Z.abs m3) j3); cbn [orb]; [apply Out; unfold tj_allowed; lia|].
  assert (Core : forall a b c k m n, k + m + n = 0 -> b <= a -> c <= a -> a <= b + c -> Z.abs m <= b -> Z.abs n <= c -> near_end a b c k m n ->
    exists x, (do k <- calc_new b c g; do k <- calculate64 fixed k b c m n; returned k a) = Ok x /\ lg 113 x (threej a b c k m n) /\ (threej a b c k m n = 0 \/ / 2 ^ 100 <= Rabs (threej a b c k m n))%R).
  { intros a b c k m n Hk Hb Hc Ha Hm Hn N. destruct (N Hb Hc) as [S D]. unfold calc_new. cbv zeta. rewrite np_empty_ok by lia. cbn [bind].
    set (k0 := mkcalc (b + c + 1) (mkarr (4 * (b + c + 1)) g)).
    assert (Wk : calc_wf k0) by (split; cbn; [lia|reflexivity]).
    destruct (three_calculate k0 b c m n Wk) as (k' & E & W' & S' & V); auto; [cbn; lia|unfold jlo; lia|].
    rewrite E. cbn [bind]. destruct (V a ltac:(cbn; lia)) as (x & Ex & Lx & Ll). exists x. split; auto. replace k with (- m - n) by lia. auto. }
  cbv zeta. destruct (Z.eqb_spec j1 (Z.max (Z.max j1 j2) j3)) as [M|M].
  - destruct (Z.gtb_spec j1 (j2 + j3)); [apply Out; unfold tj_allowed; lia|]. apply Core; auto; lia.
  - destruct (Z.eqb_spec j2 (Z.max (Z.max j1 j2) j3)) as [M'|M'].
    + destruct (Z.gtb_spec j2 (j3 + j1)); [apply Out; unfold tj_allowed; lia|]. rewrite threej_cyc. apply Core; auto; lia.
    + destruct (Z.gtb_spec j3 (j1 + j2)); [apply Out; unfold tj_allowed; lia|]. rewrite <- threej_cyc. apply Core; auto; lia.
Qed.

Lemma W64_small g j1 j2 j3 m1 m2 m3 : Z.min j1 (Z.min j2 j3) <= 1 -> j1 + j2 + j3 - Z.max j1 (Z.max j2 j3) <= 151 ->
  exists x, Wigner3j64 fixed g j1 j2 j3 m1 m2 m3 = Ok x /\ lg 113 x (threej j1 j2 j3 m1 m2 m3) /\ (threej j1 j2 j3 m1 m2 m3 = 0 \/ / 2 ^ 100 <= Rabs (threej j1 j2 j3 m1 m2 m3))%R.
Proof. intros H S. apply W64_three; unfold near_end; lia. Qed.

Lemma C73_Wigner3j :
  forall garbage j1 j2 j3 m1 m2 m3, Z.min j1 (Z.min j2 j3) <= 1 -> j1 + j2 + j3 - Z.max j1 (Z.max j2 j3) <= 151 ->
    exists x, Wigner3j64 fixed garbage j1 j2 j3 m1 m2 m3 = Ok x /\
      (Rabs (x - threej j1 j2 j3 m1 m2 m3) <= 114 * u64 * Rabs (threej j1 j2 j3 m1 m2 m3))%R.
Proof.
  intros g j1 j2 j3 m1 m2 m3 H S. destruct (W64_small g j1 j2 j3 m1 m2 m3 H S) as (x & E & L & _). exists x. split; auto. apply err113; auto.
Qed.

(** m of the largest degree at most two below the sum of the other degrees *)
Lemma C73_aligned :
  forall garbage j1 j2 j3 m1 m2 m3, j2 < j1 -> j3 < j1 -> j2 + j3 <= 151 -> j2 + j3 - 2 <= Z.abs m1 ->
    (exists x, Wigner3j64 fixed garbage j1 j2 j3 m1 m2 m3 = Ok x /\
      (Rabs (x - threej j1 j2 j3 m1 m2 m3) <= 114 * u64 * Rabs (threej j1 j2 j3 m1 m2 m3))%R) /\
    (exists x, Wigner3j64 fixed garbage j2 j3 j1 m2 m3 m1 = Ok x /\
      (Rabs (x - threej j2 j3 j1 m2 m3 m1) <= 114 * u64 * Rabs (threej j2 j3 j1 m2 m3 m1))%R) /\
    (exists x, Wigner3j64 fixed garbage j3 j1 j2 m3 m1 m2 = Ok x /\
      (Rabs (x - threej j3 j1 j2 m3 m1 m2) <= 114 * u64 * Rabs (threej j3 j1 j2 m3 m1 m2))%R).
Proof.
  intros g j1 j2 j3 m1 m2 m3 H2 H3 S A.
  assert (N1 : near_end j1 j2 j3 m1 m2 m3) by (unfold near_end; lia). assert (N2 : near_end j2 j3 j1 m2 m3 m1) by (unfold near_end; lia). assert (N3 : near_end j3 j1 j2 m3 m1 m2) by (unfold near_end; lia).
  split; [|split].
  - destruct (W64_three g j1 j2 j3 m1 m2 m3 N1 N2 N3) as (x & E & L & _). exists x. split; auto. apply err113; auto.
  - destruct (W64_three g j2 j3 j1 m2 m3 m1 N2 N3 N1) as (x & E & L & _). exists x. split; auto. apply err113; auto.
  - destruct (W64_three g j3 j1 j2 m3 m1 m2 N3 N1 N2) as (x & E & L & _). exists x. split; auto. apply err113; auto.
Qed.

(** the result vanishes exactly where the symbol does, and otherwise has its sign *)
Lemma C73_sign :
  forall garbage j1 j2 j3 m1 m2 m3, Z.min j1 (Z.min j2 j3) <= 1 -> j1 + j2 + j3 - Z.max j1 (Z.max j2 j3) <= 151 ->
    exists x, Wigner3j64 fixed garbage j1 j2 j3 m1 m2 m3 = Ok x /\
      (threej j1 j2 j3 m1 m2 m3 = 0 <-> x = 0)%R /\ (0 < threej j1 j2 j3 m1 m2 m3 <-> 0 < x)%R /\ (threej j1 j2 j3 m1 m2 m3 < 0 <-> x < 0)%R.
Proof.
  intros g j1 j2 j3 m1 m2 m3 H S. destruct (W64_small g j1 j2 j3 m1 m2 m3 H S) as (x & E & L & _). exists x. split; auto.
  set (y := threej j1 j2 j3 m1 m2 m3) in *.
  assert (Z : y = 0%R -> x = 0%R) by (intros Q; rewrite Q in L; apply (lg_0 _ _ L)).
  assert (P : (0 < y -> 0 < x)%R) by (apply (lg_pos _ _ _ L)).
  assert (N : (y < 0 -> x < 0)%R) by (intros Q; apply lg_opp in L; assert (0 < - x)%R by (apply (lg_pos _ _ _ L); lra); lra).
  destruct (Rtotal_order y 0) as [Q|[Q|Q]]; [specialize (N Q)|specialize (Z Q)|specialize (P Q)]; repeat split; intros; lra.
Qed.

Lemma C73_clebsch_gordan :
  forall garbage j1 m1 j2 m2 j3 m3, Z.min j1 (Z.min j2 j3) <= 1 -> j1 + j2 + j3 - Z.max j1 (Z.max j2 j3) <= 151 -> 0 <= j3 ->
    exists x, clebsch_gordan64 fixed garbage j1 m1 j2 m2 j3 m3 = Ok x /\
      (Rabs (x - cg j1 m1 j2 m2 j3 m3) <= 117 * u64 * Rabs (cg j1 m1 j2 m2 j3 m3))%R.
Proof.
  intros g j1 m1 j2 m2 j3 m3 H S H3. unfold clebsch_gordan64, cg.
  destruct (W64_small g j1 j2 j3 m1 m2 (- m3) H S) as (x & E & L & D); rewrite E; cbn [bind].
  destruct (Z.ltb_spec (2 * j3 + 1) 0); [lia|]. eexists. split; [reflexivity|].
  set (w := threej j1 j2 j3 m1 m2 (- m3)) in *.
  destruct D as [Z|Lt].
  - rewrite Z in L |- *. apply lg_0 in L. rewrite L, !Rmult_0_r, RN64_0, Rminus_0_r, Rabs_R0. lra.
  - assert (Nz : w <> 0%R) by (intros Q; rewrite Q, Rabs_R0 in Lt; pose proof (pow_inv_pos 100); lra).
    assert (T : tj_allowed j1 j2 j3 m1 m2 (- m3)).
    { destruct (tj_allowed_dec j1 j2 j3 m1 m2 (- m3)) as [T|T]; auto. exfalso. apply Nz, threej_out; auto. }
    unfold tj_allowed in T. rewrite RN64_int by lia.
    set (y := IZR (2 * j3 + 1)). assert (Y1 : (1 <= y)%R) by (apply (IZR_le 1); lia).
    assert (Sy : (1 <= sqrt y)%R) by (rewrite <- sqrt_1; apply sqrt_le_1_alt; auto).
    assert (Sg : Rabs (sgn (j1 - j2 + m3)) = 1%R).
    { rewrite <- pm1_sgn. unfold pm1. destruct (Z.even _); [apply Rabs_R1|rewrite Rabs_left; lra]. }
    rewrite pm1_sgn.
    assert (M : lg 116 (RN64 (RN64 (sgn (j1 - j2 + m3) * RN64 (sqrt y)) * x)) (sgn (j1 - j2 + m3) * sqrt y * w)).
    { replace 116%R with (0 + 1 + 1 + 113 + 1)%R by ring.
      apply lg_RN0; [apply lg_mul; auto; apply lg_RN0; [apply lg_scale; apply lg_RN0; [apply lg_refl|lra|]|lra|]|lra|].
      - right. apply half_big. lra.
      - right. rewrite Rabs_mult, Sg, Rmult_1_l. apply half_big. lra.
      - right. rewrite !Rabs_mult, Sg, Rmult_1_l. rewrite (Rabs_pos_eq (sqrt y)) by lra.
        pose proof (pow_inv_le 100 900 ltac:(lia)). pose proof (pow_inv_pos 100).
        assert (1 * / 2 ^ 100 <= sqrt y * Rabs w)%R by (apply Rmult_le_compat; lra). lra. }
    eapply Rle_trans; [apply (lg_err _ _ _ M); lra|]. apply Rmult_le_compat_r; [apply Rabs_pos|].
    apply Rmult_le_compat_r; [apply Rlt_le, u64_small|]. lra.
Qed.

(** ** Products with functions of ell_max <= 1 *)
Lemma dipole_not_stuck l1 l2 m n : 0 <= l1 -> 0 <= l2 -> Z.min l1 l2 <= 1 -> l1 + l2 <= 151 -> Z.abs m <= l1 -> Z.abs n <= l2 -> ~ stuck64 l1 l2 m n.
Proof.
  intros H1 H2 Hl Hs Hm Hn. unfold stuck64. destruct (fresh_ok l1 l2 ltac:(lia)) as (c & Ec & Wc & Sc). rewrite Ec. cbn [bind].
  destruct (C73_calculator c l1 l2 m n Wc ltac:(lia) ltac:(lia) Hm Hn ltac:(lia)) as (c' & E & _). rewrite E. discriminate.
Qed.
Lemma close_dipole l l1 l2 m n : 0 <= l1 -> 0 <= l2 -> Z.min l1 l2 <= 1 -> l1 + l2 <= 151 -> Z.abs m <= l1 -> Z.abs n <= l2 -> 0 <= l <= l1 + l2 -> close_symbol (114 * u64) l l1 l2 m n.
Proof.
  intros H1 H2 Hl Hs Hm Hn Hj. destruct (fresh_ok l1 l2 ltac:(lia)) as (c & Ec & Wc & Sc).
  destruct (C73_calculator c l1 l2 m n Wc ltac:(lia) ltac:(lia) Hm Hn ltac:(lia)) as (c' & E & _ & _ & V). destruct (V l ltac:(lia)) as (x & Ex & Bx).
  unfold close_symbol, symbol64. rewrite Ec. cbn [bind]. rewrite E. cbn [bind]. rewrite Ex. exact Bx.
Qed.

Open Scope R_scope.
Lemma C73_product :
  forall way gs gm h f g tr sh, good_ways way -> wf h f -> wf h g -> (0 <= ellmax (md f))%Z -> (0 <= ellmax (md g))%Z -> (Z.min (ellmax (md f)) (ellmax (md g)) <= 1)%Z ->
  (ellmax (md f) + ellmax (md g) <= 151)%Z -> (0 <= product_ell_max f g tr)%Z -> broadcast (lead (nd f)) (lead (nd g)) = Some sh ->
  exists h' r, multiply64 fixed way gs gm h f g tr = Ok (h', r)
    /\ new_modes h h' r (spin (md f) + spin (md g)) (product_ell_max f g tr) sh (mode h' r)
    /\ forall idx l m, (0 <= l <= product_ell_max f g tr)%Z -> (- l <= m <= l)%Z ->
       let u := mode h f (bidx (lead (nd f)) idx) in let v := mode h g (bidx (lead (nd g)) idx) in
       let s1 := spin (md f) in let s2 := spin (md g) in let L1 := ellmax (md f) in let L2 := ellmax (md g) in
       Cmod (mode h' r idx l m - product_weight s1 L1 s2 L2 u v l m)%C
       <= (101 / 100 * pairs L1 L2 u v l m + 245) * u64 * abs_weight (product_coeff s1 s2) L1 L2 u v l m + underflow L1 L2 u v l m.
Proof.
  intros way gs gm h f g tr sh Way Wf Wg HF HG HM HS HL HB.
  assert (HW : (ellmax (md f) + ellmax (md g) <= 1447)%Z) by lia.
  destruct (multiply64_new way gs gm h f g tr sh Way Wf Wg HF HG HL HB HW) as [(h' & r & E & New & _)|[_ (l1 & l2 & m & n & H1 & H2 & H3 & H4 & H5)]].
  2:{ exfalso. revert H5. apply dipole_not_stuck; lia. }
  exists h', r. split; auto. split; auto. intros idx l m Hl Hm. cbv zeta.
  set (u := mode h f (bidx (lead (nd f)) idx)). set (v := mode h g (bidx (lead (nd g)) idx)).
  pose proof u64_bd as [U0 U1].
  assert (Cl : forall l1 m1 l2 m2, (0 <= l1 <= ellmax (md f))%Z -> (0 <= l2 <= ellmax (md g))%Z -> (Z.abs m1 <= l1)%Z -> (Z.abs m2 <= l2)%Z -> (m1 + m2 = m)%Z -> (Z.abs (l1 - l2) <= l <= l1 + l2)%Z ->
       u l1 m1 <> RtoC 0 -> v l2 m2 <> RtoC 0 -> close_symbol (114 * u64) l l1 l2 (spin (md f)) (spin (md g)) /\ close_symbol (114 * u64) l l1 l2 m1 m2).
  { intros l1 m1 l2 m2 H1 H2 H3 H4 H5 H6 Nu Nv. split; apply close_dipole; try lia.
    - destruct (Z_le_gt_dec (Z.abs (spin (md f))) l1) as [|X]; auto. exfalso. apply Nu. destruct Wf as (_ & _ & Zz). apply Zz; lia.
    - destruct (Z_le_gt_dec (Z.abs (spin (md g))) l2) as [|X]; auto. exfalso. apply Nv. destruct Wg as (_ & _ & Zz). apply Zz; lia. }
  pose proof (C72_accuracy way gs gm h f g tr h' r Way Wf Wg HF HG HL HW E idx l m (114 * u64) Hl Hm ltac:(lra) Cl) as Q. cbv zeta in Q. fold u v in Q.
  eapply Rle_trans; [exact Q|]. apply Rplus_le_compat_r. apply Rmult_le_compat_r; [apply abs_weight_nonneg|].
  pose proof (pairs_bd (ellmax (md f)) (ellmax (md g)) u v l m HF HG HW) as PB. set (k := pairs (ellmax (md f)) (ellmax (md g)) u v l m) in *.
  assert (X0 : 0 <= (101 / 100 * k + 14) * u64 <= 8 / 1000).
  { split; [apply Rmult_le_pos; lra|]. apply Rle_trans with ((101 / 100 * (7 * 10 ^ 9) + 14) * / 10 ^ 12); [apply Rmult_le_compat; lra|simpl; lra]. }
  assert (E0 : 0 <= 114 * u64 <= / 1000) by (split; [lra|]; simpl in U1; lra).
  eapply Rle_trans; [apply eps_bound; auto|]. lra.
Qed.

(** A function with modes up to ell = 1, and the functions of C72 *)
Definition dipole_heap : heap :=
  mkheap 2 (fun b idx k => if (b =? 0)%nat then RtoC (IZR (k + 1)) else if (k <? 4)%Z then RtoC 0 else (RtoC (IZR (k + 1)) + Ci * RtoC (IZR (nth 0 idx 0%Z)))%C).
Definition dipole_f : modes := mkmodes (mknd 0 [] 4) (mkmeta 0 1 None).

Lemma C73_example :
  (forall garbage, exists x, Wigner3j64 fixed garbage 2 1 1 0 1 (-1) = Ok x /\ Rabs (x - / sqrt 30) <= 114 * u64) /\
  wf dipole_heap dipole_f /\ wf dipole_heap constant_g /\ good_ways plain_way /\
  broadcast (lead (nd dipole_f)) (lead (nd constant_g)) = Some [2%Z] /\ product_ell_max dipole_f constant_g None = 4%Z /\
  exists h' r, multiply64 fixed plain_way (fun _ => 7) (fun _ => 8) dipole_heap dipole_f constant_g None = Ok (h', r).
Proof.
  split.
  - intros g. destruct (C73_Wigner3j g 2 1 1 0 1 (-1) ltac:(lia) ltac:(lia)) as (x & E & B). exists x. split; auto.
    assert (V : threej 2 1 1 0 1 (-1) = / sqrt 30).
    { pose proof (dg1 1 (-1) ltac:(auto) eq_refl) as Q1. pose proof (dg2 1 (-1) ltac:(auto) eq_refl) as Q2. rewrite Rmult_1_r in Q2.
      pose proof (GG_top_sign 1 1 1 (-1) ltac:(lia) ltac:(lia)) as T. change (GG 1 1 1 (-1) (1 + 1)) with (gg 1 1 1 (-1) 2) in T. change (sgn (1 - 1 + 1 + -1)) with 1 in T. rewrite Rmult_1_l in T.
      rewrite gg_threej in Q2, T. change (- (1) - -1)%Z with 0%Z in *.
      set (w := threej 2 1 1 0 1 (-1)) in *.
      assert (W : w * w = / 30). { rewrite Q2. replace (sqrt 80 / 20 * gg 1 1 1 (-1) 1 * (sqrt 80 / 20 * gg 1 1 1 (-1) 1)) with (sqrt 80 * sqrt 80 * (gg 1 1 1 (-1) 1 * gg 1 1 1 (-1) 1) / 400) by field. rewrite Q1, sqrt_sqrt by lra. field. }
      rewrite <- sqrt_inv, <- W. symmetry. apply sqrt_square. lra. }
    rewrite V in B. eapply Rle_trans; [exact B|]. pose proof u64_small as [U0 _].
    assert (S1 : 1 <= sqrt 30) by (rewrite <- sqrt_1 at 1; apply sqrt_le_1_alt; lra).
    rewrite (Rabs_pos_eq (/ sqrt 30)) by (apply Rlt_le, Rinv_0_lt_compat; lra). rewrite <- (Rmult_1_r (114 * u64)) at 2. apply Rmult_le_compat_l; [lra|].
    rewrite <- Rinv_1. apply Rinv_le_contravar; lra.
  - assert (W1 : wf dipole_heap dipole_f) by (split; [cbn; lia|]; split; [reflexivity|]; cbn; intros; lia).
    assert (W2 : wf dipole_heap constant_g).
    { split; [cbn; lia|]. split; [reflexivity|]. cbn [constant_g nd md spin ellmax]. intros idx ell mm H1 H2 H3. unfold mode. cbn [constant_g nd buf dipole_heap mem Nat.eqb].
      replace (ell * ell + (ell + mm) <? 4)%Z with true; [reflexivity|]. symmetry. apply Z.ltb_lt. change (Z.abs (-2)) with 2%Z in H2. nia. }
    assert (GW : good_ways plain_way) by (intros l1 m1 l2 m2 l3 idx; cbn [plain_way fst snd]; unfold adds_all; repeat split; try (vm_compute; lia); apply Permutation_refl).
    split; auto. split; auto. split; auto. split; [reflexivity|]. split; [reflexivity|].
    destruct (C73_product plain_way (fun _ => 7) (fun _ => 8) dipole_heap dipole_f constant_g None [2%Z] GW W1 W2) as (h' & r & E & _); try (cbn; lia); auto. exists h', r. auto.
Qed.
