(** Property C70 of the 3-j calculator in double precision, proved. *)
From Coq Require Import ZArith Reals Lia Lra Bool.
From Flocq Require Import Core.
From Verif Require Import Base BaseProofs Fact RSum ThreeJSpec ThreeJ ThreeJ2 ThreeJ3 ThreeJ4 Wigner3jModel Wigner3jSpec Wigner3jWs Wigner3jFwd Wigner3jProofs Wigner3jProps.
From Verif Require Import FloatIndexModel FloatIndexProofs FloatModesModel FloatPowersSpec FloatPowersProps FloatConvProofs FloatPartsProofs FloatThreeJModel FloatLog FloatThreeJProofs FloatThreeJProps FloatThreeJSame.
Local Open Scope Z_scope.
Set Bullet Behavior "Strict Subproofs".

(** ** Families of two symbols *)
Lemma two64 size a b m n ws : Z.abs m <= a -> Z.abs n <= b -> a + b < size -> a + b <= 151 -> alen ws = 4 * size -> jlo a b m n = a + b - 1 ->
  exists ws', calculate_ws64 fixed size a b m n ws = Ok ws' /\ alen ws' = 4 * size /\ closed size a b m n 11 ws'.
Proof.
  intros Hm Hn Hsz Hab Hl EJ. pose proof (fixed_ok a b m n Hm Hn Hab) as Hw.
  set (p := a + b - 1) in *. replace (a + b) with (p + 1) in * by (unfold p; lia).
  assert (P1 : 1 <= p).
  { unfold jlo in EJ. destruct (Z_le_gt_dec 1 p); auto. exfalso. unfold p in *. lia. }
  pose proof (GG_recurrence a b m n p Hm Hn ltac:(lia)) as Rec. rewrite (GG_out a b m n (p - 1)) in Rec by lia.
  pose proof (GG_top_sign a b m n Hm Hn) as Sg. replace (a + b) with (p + 1) in Sg by (unfold p; lia).
  pose proof (cols_norm a b m n Hm Hn) as CN. rewrite EJ in CN. replace (a + b) with (p + 1) in CN by (unfold p; lia).
  rewrite rsum_last in CN by lia. replace (p + 1 - 1) with p in CN by lia. rewrite rsum_one in CN.
  change (GG a b m n (p + 1)) with (gg a b m n (p + 1)) in *. change (GG a b m n p) with (gg a b m n p) in *.
  change (IZR p * Aq (p + 1) a b (m + n))%R with (xx a b m n p) in Rec. change (IZR (Bq p a b m n)) with (yy a b m n p) in Rec.
  destruct (x64_lg a b m n ltac:(lia) p ltac:(lia) ltac:(lia)) as [Lx X1].
  assert (Yb : Z.abs (Bq p a b m n) <= 2 ^ 31).
  { assert (E : B fixed p a b m n = Bq p a b m n) by (rewrite C35_B by lia; reflexivity). rewrite <- E. unfold B. cbn [wB fixed]. unfold wrap.
    match goal with |- context [?z mod ?k] => pose proof (Z.mod_pos_bound z k ltac:(lia)) end. lia. }
  assert (Xb : (xx a b m n p <= 2 ^ 40)%R).
  { unfold xx, Aq. assert (A0 : 0 <= A2 (p + 1) a b (m + n)) by (apply A2_nonneg; lia).
    assert (A1 : A2 (p + 1) a b (m + n) <= 2 ^ 64).
    { pose proof (A2_bound (p + 1) a b (m + n) ltac:(lia) ltac:(lia) ltac:(lia) ltac:(lia) ltac:(lia)) as Bd.
      assert (Q : A2 (p + 1) a b (m + n) = ((p + 1) ^ 2 - (a - b) ^ 2) * ((a + b + 1) ^ 2 - (p + 1) ^ 2) * ((p + 1) ^ 2 - (m + n) ^ 2)) by (unfold A2; ring).
      rewrite Q. assert (1448 ^ 6 <= 2 ^ 64) by (vm_compute; discriminate). clear - Bd H. lia. }
    assert (Sq : (sqrt (IZR (A2 (p + 1) a b (m + n))) <= 4294967296)%R).
    { replace 4294967296%R with (sqrt (4294967296 * 4294967296)) by (apply sqrt_square; lra). apply sqrt_le_1_alt.
      rewrite <- mult_IZR. apply IZR_le. lia. }
    assert (Pb : (0 <= IZR p <= 150)%R) by (split; apply IZR_le; lia).
    assert (IZR p * sqrt (IZR (A2 (p + 1) a b (m + n))) <= 150 * 4294967296)%R by (apply Rmult_le_compat; try lra; apply sqrt_pos). lra. }
  set (x := xx a b m n p) in *. set (y := yy a b m n p) in *. set (g0 := gg a b m n p) in *. set (g1 := gg a b m n (p + 1)) in *.
  assert (N1 : g1 <> 0%R) by (intros E; rewrite E in Sg; lra).
  assert (Nxx : x <> 0%R) by lra.
  assert (Ny : y <> 0%R). { intros E. rewrite E in Rec. apply N1. apply (Rmult_eq_reg_l x); lra. }
  assert (N0 : g0 <> 0%R). { intros E. rewrite E in Rec. apply N1. apply (Rmult_eq_reg_l x); lra. }
  assert (R0 : (x * g1 = - y * g0)%R) by lra. clear Rec.
  assert (Y1 : (1 <= Rabs y <= 2 ^ 31)%R).
  { unfold y, yy. rewrite <- abs_IZR. split.
    - apply (IZR_le 1). assert (Bq p a b m n <> 0); [|lia]. intros E. apply Ny. unfold y, yy. now rewrite E.
    - rewrite pow_IZR. apply IZR_le. exact Yb. }
  assert (Ey : Yf64 fixed p a b m n = y). { rewrite (Y64_ok fixed a b m n Hw) by lia. unfold y, yy. apply RN64_int. lia. }
  assert (Gb : (Rabs g0 <= 1 /\ Rabs g1 <= 1)%R).
  { assert (C0 : (0 <= g0 * g0)%R) by apply Rle_0_sqr. assert (C1 : (0 <= g1 * g1)%R) by apply Rle_0_sqr.
    assert (I0 : (1 * (g0 * g0) <= IZR (2 * p + 1) * (g0 * g0))%R) by (apply Rmult_le_compat_r; [lra|apply (IZR_le 1); lia]).
    assert (I1 : (1 * (g1 * g1) <= IZR (2 * (p + 1) + 1) * (g1 * g1))%R) by (apply Rmult_le_compat_r; [lra|apply (IZR_le 1); lia]).
    split; apply Rsqr_incr_0_var; try lra; rewrite <- Rsqr_abs; unfold Rsqr; lra. }
  assert (Gr : (x * Rabs g1 = Rabs y * Rabs g0)%R).
  { rewrite <- (Rabs_pos_eq x) at 1 by lra. rewrite <- !Rabs_mult. rewrite R0. rewrite Ropp_mult_distr_l_reverse, Rabs_Ropp. reflexivity. }
  assert (Gl : (/ 2 ^ 100 <= Rabs g0 /\ / 2 ^ 100 <= Rabs g1)%R).
  { assert (Mx : (/ 32 <= Rabs g0 \/ / 32 <= Rabs g1)%R).
    { destruct (Rle_dec (/ 32) (Rabs g0)) as [|L0]; [auto|]. destruct (Rle_dec (/ 32) (Rabs g1)) as [|L1]; [auto|]. exfalso.
      assert (S0 : (g0 * g0 <= / 32 * / 32)%R).
      { replace (g0 * g0)%R with (Rabs g0 * Rabs g0)%R by (rewrite <- Rabs_mult; apply Rabs_pos_eq, Rle_0_sqr). pose proof (Rabs_pos g0). apply Rmult_le_compat; lra. }
      assert (S1 : (g1 * g1 <= / 32 * / 32)%R).
      { replace (g1 * g1)%R with (Rabs g1 * Rabs g1)%R by (rewrite <- Rabs_mult; apply Rabs_pos_eq, Rle_0_sqr). pose proof (Rabs_pos g1). apply Rmult_le_compat; lra. }
      assert (C0 : (0 <= g0 * g0)%R) by apply Rle_0_sqr. assert (C1 : (0 <= g1 * g1)%R) by apply Rle_0_sqr.
      assert (I0 : (IZR (2 * p + 1) * (g0 * g0) <= 303 * (/ 32 * / 32))%R) by (apply Rmult_le_compat; try lra; [apply (IZR_le 0); lia|apply IZR_le; lia]).
      assert (I1 : (IZR (2 * (p + 1) + 1) * (g1 * g1) <= 303 * (/ 32 * / 32))%R) by (apply Rmult_le_compat; try lra; [apply (IZR_le 0); lia|apply IZR_le; lia]).
      lra. }
    pose proof (pow_inv_le 46 100 ltac:(lia)) as I46. pose proof (Rabs_pos g0). pose proof (Rabs_pos g1).
    assert (T1 : (Rabs g1 <= x * Rabs g1)%R) by (rewrite <- (Rmult_1_l (Rabs g1)) at 1; apply Rmult_le_compat_r; lra).
    assert (T2 : (x * Rabs g1 <= 2 ^ 40 * Rabs g1)%R) by (apply Rmult_le_compat_r; lra).
    assert (T3 : (Rabs g0 <= Rabs y * Rabs g0)%R) by (rewrite <- (Rmult_1_l (Rabs g0)) at 1; apply Rmult_le_compat_r; lra).
    assert (T4 : (Rabs y * Rabs g0 <= 2 ^ 31 * Rabs g0)%R) by (apply Rmult_le_compat_r; lra).
    destruct Mx as [Mx|Mx]; split; lra. }
  (* the run *)
  unfold calculate_ws64. cbv zeta.
  replace (a + b) with (p + 1) by (unfold p; lia).
  change (Z.max (Z.abs (a - b)) (Z.abs (m + n))) with (jlo a b m n). rewrite EJ.
  set (ws0 := mkarr (alen ws) (fun _ => 0%R)).
  assert (L0 : alen ws0 = 4 * size) by exact Hl.
  assert (Z0 : forall blk k, 0 <= blk <= 3 -> 0 <= k < size -> get size ws0 blk k = 0%R) by reflexivity.
  clearbody ws0.
  destruct (Z.gtb_spec (Z.abs m) a); [lia|]. destruct (Z.gtb_spec (Z.abs n) b); [lia|]. cbn [orb].
  destruct (Z.ltb_spec (p + 1) p); [lia|]. destruct (Z.eqb_spec (p + 1) p) as [|_]; [lia|].
  assert (Fin : forall ws1 c v0 v1, alen ws1 = 4 * size -> (forall k, 0 <= k < size -> get size ws1 0 k = 0%R) ->
    get size ws1 2 p = v0 -> get size ws1 2 (p + 1) = v1 -> (1 <= Rabs c)%R -> lg (7 / 2) v0 (c * g0) -> lg (7 / 2) v1 (c * g1) ->
    exists ws', (do ws <- wrv_slice ws1 (slot size (4 * size) 0) p (p + 1 + 1) (fun k => vget ws1 (slot size (4 * size) 2) k); finish64 size a b m n ws) = Ok ws'
      /\ alen ws' = 4 * size /\ closed size a b m n 11 ws').
  { intros ws1 c v0 v1 L1 Z1 V0 V1 Hc Q0 Q1.
    destruct (wrv_slice_ok size ltac:(lia) ws1 0 p (p + 1 + 1) (fun k => vget ws1 (slot size (4 * size) 2) k)) as (ws2 & E2 & L2 & S2 & _); auto; try lia.
    rewrite E2. cbn [bind].
    destruct (finish64_ok size a b m n Hm Hn ltac:(lia) ltac:(lia)) with (N := (7 / 2)%R) (ws := ws2) as (ws3 & E3 & L3 & C3).
    - intros k Hk. rewrite EJ in Hk. right. assert (C : k = p \/ k = p + 1) by lia. destruct C as [-> | ->]; [apply Gl|apply Gl].
    - lra.
    - split; auto. split.
      + exists c. split; [eapply Rle_trans; [apply (pow_inv_le 0); lia|]; cbn; lra|].
        intros k Hk. rewrite EJ in Hk. rewrite S2 by lia. destruct (Z.leb_spec p k); [|lia]. destruct (Z.ltb_spec k (p + 1 + 1)); [|lia]. cbn [andb].
        rewrite vget_slot by lia. assert (C : k = p \/ k = p + 1) by lia. destruct C as [-> | ->]; [rewrite V0; auto|rewrite V1; auto].
      + intros k Hk Ho. rewrite EJ in Ho. rewrite S2 by lia. destruct (Z.leb_spec p k); destruct (Z.ltb_spec k (p + 1 + 1)); cbn [andb]; auto; lia.
    - exists ws3. split; auto. split; auto. intros k Hk. eapply lg_weak; [apply C3; auto|].
      rewrite EJ. replace (a + b - p) with 1 by (unfold p; lia). lra. }
  unfold forward64. cbv zeta. change (Z.max (Z.abs (a - b)) (Z.abs (m + n))) with (jlo a b m n). rewrite EJ. replace (a + b) with (p + 1) by (unfold p; lia).
  rewrite (X64_ok fixed a b m n Hw) by lia. cbn [bind]. rewrite Ey.
  destruct ((- (m + n) =? 0) && (m =? 0) && (n =? 0)) eqn:EZ.
  { exfalso. apply andb_prop in EZ. destruct EZ as [EZ En]. apply andb_prop in EZ. destruct EZ as [_ Em]. unfold jlo in EJ. unfold p in *. lia. }
  destruct (Reqb_spec y 0) as [|_]; [tauto|].
  assert (Nx : x64 a b m n p <> 0%R) by (apply (lg_neq _ _ _ Lx); lra).
  assert (Ry : (/ 2 ^ 900 <= Rabs (- y / x))%R).
  { unfold Rdiv. rewrite Rabs_mult, Rabs_Ropp, (Rabs_pos_eq (/ x)) by (apply Rlt_le, Rinv_0_lt_compat; lra).
    apply Rle_trans with (1 * / 2 ^ 40)%R; [rewrite Rmult_1_l; apply pow_inv_le; lia|]. pose proof (pow_inv_pos 40).
    apply Rmult_le_compat; try lra. apply Rinv_le_contravar; lra. }
  assert (Rx : (/ 2 ^ 900 <= Rabs (- x / y))%R).
  { unfold Rdiv. rewrite Rabs_mult, Rabs_Ropp, (Rabs_pos_eq x), Rabs_inv by lra.
    apply Rle_trans with (1 * / 2 ^ 31)%R; [rewrite Rmult_1_l; apply pow_inv_le; lia|]. pose proof (pow_inv_pos 31).
    apply Rmult_le_compat; try lra. apply Rinv_le_contravar; lra. }
  assert (C0 : (1 <= Rabs (/ g0))%R). { rewrite Rabs_inv. rewrite <- Rinv_1. apply Rinv_le_contravar; [apply Rabs_pos_lt; auto|lra]. }
  assert (C1 : (1 <= Rabs (/ g1))%R). { rewrite Rabs_inv. rewrite <- Rinv_1. apply Rinv_le_contravar; [apply Rabs_pos_lt; auto|lra]. }
  assert (K0 : forall k v, (0 <= k)%R -> v = 1%R -> lg k 1 v) by (intros k v Hk ->; apply (lg_weak 0); [apply lg_refl|auto]).
  destruct (Rleb 0 (RN64 (x64 a b m n p * y))).
  - rewrite wrv_ok by (try lia; auto). cbn [bind]. rewrite fdiv64_ok by auto. cbn [bind]. rewrite wrv_ok by (try lia; auto). cbn [bind].
    destruct (Z.eqb_spec (p + 1) (p + 1)) as [_|]; [|lia].
    apply (Fin _ (/ g0)%R 1%R (RN64 (- y / x64 a b m n p))%R); auto.
    + intros k Hk. rewrite !get_put_b by lia. apply Z0; lia.
    + rewrite get_put_i by lia. apply get_put_same.
    + apply get_put_same.
    + apply K0; [lra|field; auto].
    + replace (/ g0 * g1)%R with (- y / x)%R by (replace (/ g0 * g1)%R with (x * g1 / x / g0)%R by (field; auto); rewrite R0; field; auto).
      replace (7 / 2)%R with (0 + 5 / 2 + 1)%R by lra. apply lg_RN0; [apply lg_div; [apply lg_refl|auto]|lra|auto].
  - rewrite fdiv64_ok by auto. cbn [bind]. rewrite wrv_ok by (try lia; auto). cbn [bind]. rewrite for_range_brk_empty by lia. cbn [bind].
    rewrite wrv_ok by (try lia; auto). cbn [bind]. replace (p + 1 - p + 1) with 2 by lia.
    unfold for_range. change (Z.to_nat (2 - 1)) with 1%nat. cbn [for_loop].
    replace (p + 1 - 1 + 1) with (p + 1) by lia. replace (p + 1 - 1) with p by lia.
    rewrite rdv_ok by (try lia; auto). cbn [bind]. rewrite get_put_same.
    rewrite rdv_ok by (try lia; auto). cbn [bind]. rewrite get_put_b by lia. rewrite get_put_same.
    rewrite wrv_ok by (try lia; auto). cbn [bind]. destruct (Z.eqb_spec (p + 1) p) as [|_]; [lia|]. cbn [bind].
    destruct (Z.eqb_spec (p + 1) (p + 1)) as [_|]; [|lia]. rewrite Rmult_1_l, RN64_idem.
    apply (Fin _ (/ g1)%R (RN64 (- x64 a b m n p / y))%R 1%R); auto.
    + intros k Hk. rewrite !get_put_b by lia. apply Z0; lia.
    + apply get_put_same.
    + rewrite get_put_i by lia. apply get_put_same.
    + replace (/ g1 * g0)%R with (- x / y)%R by (replace (/ g1 * g0)%R with (- (- y * g0) / y / g1)%R by (field; auto); rewrite <- R0; field; auto).
      replace (7 / 2)%R with (5 / 2 + 0 + 1)%R by lra. apply lg_RN0; [apply lg_div; [apply lg_opp; auto|apply lg_refl]|lra|auto].
    + apply K0; [lra|field; auto].
Qed.

(** ** C70 *)
Lemma same_core c1 c2 a b m n : calc_wf c1 -> calc_wf c2 -> a + b <= 1447 -> (Z.abs m <= a -> Z.abs n <= b -> a + b < csize c1 /\ a + b < csize c2) ->
  (calculate64 fixed c1 a b m n = Err ZeroDivisionError /\ calculate64 fixed c2 a b m n = Err ZeroDivisionError)
  \/ exists d1 d2, calculate64 fixed c1 a b m n = Ok d1 /\ calculate64 fixed c2 a b m n = Ok d2 /\ calc_wf d1 /\ calc_wf d2
    /\ csize d1 = csize c1 /\ csize d2 = csize c2
    /\ forall j, 0 <= j < csize c1 -> exists x, returned d1 j = Ok x /\ (j < csize c2 -> returned d2 j = Ok x)
      /\ (~ tj_allowed j a b (- m - n) m n -> x = 0%R) /\ (Rabs x <= 5 / 4)%R /\ (j = a + b -> (0 <= sgn (a - b + m + n) * x)%R).
Proof.
  intros [P1 L1] [P2 L2] Hab Hs. unfold calculate64.
  assert (D : (Z.abs m <= a /\ Z.abs n <= b /\ rel (simq (csize c1) (csize c2) a b m n) (calculate_ws64 fixed (csize c1) a b m n (workspace c1)) (calculate_ws64 fixed (csize c2) a b m n (workspace c2)))
    \/ (calculate_ws64 fixed (csize c1) a b m n (workspace c1) = Ok (mkarr (4 * csize c1) (fun _ => 0%R)) /\ calculate_ws64 fixed (csize c2) a b m n (workspace c2) = Ok (mkarr (4 * csize c2) (fun _ => 0%R)))).
  { destruct (Z_le_gt_dec (Z.abs m) a) as [Ma|Ma]; [destruct (Z_le_gt_dec (Z.abs n) b) as [Nb|Nb]|].
    - destruct (calculate_same (csize c1) (csize c2) a b m n (workspace c1) (workspace c2) Hab Hs L1 L2) as [R|(Hn & E1 & E2)]; auto.
    - right. unfold calculate_ws64. cbv zeta. destruct (Z.gtb_spec (Z.abs n) b); [|lia]. rewrite orb_true_r, L1, L2. auto.
    - right. unfold calculate_ws64. cbv zeta. destruct (Z.gtb_spec (Z.abs m) a); [|lia]. rewrite orb_true_l, L1, L2. auto. }
  destruct D as [(Ma & Nb & R)|(E1 & E2)].
  - destruct (calculate_ws64 fixed (csize c1) a b m n (workspace c1)) as [w1|e1]; destruct (calculate_ws64 fixed (csize c2) a b m n (workspace c2)) as [w2|e2]; cbn [rel] in R; try tauto.
    2:{ left. destruct R as [-> ->]. auto. }
    right. destruct R as ((A1 & A2 & Ag & Z1 & Z2) & Sg & Bd). cbn [bind].
    exists (mkcalc (csize c1) w1), (mkcalc (csize c2) w2). split; auto. split; auto.
    assert (W1 : calc_wf (mkcalc (csize c1) w1)) by (split; auto). assert (W2 : calc_wf (mkcalc (csize c2) w2)) by (split; auto).
    split; auto. split; auto. split; auto. split; auto. intros j Hj.
    rewrite returned_get by auto. eexists. split; [reflexivity|]. cbn [csize workspace].
    assert (Oob : j < jlo a b m n \/ a + b < j -> get (csize c1) w1 0 j = 0%R) by (intros; apply Z1; auto).
    split; [|split; [|split]].
    + intros Hj2. rewrite returned_get by (auto; cbn [csize]; lia). cbn [csize workspace]. f_equal. destruct (Z_le_gt_dec j (a + b)).
      * symmetry. apply Ag; lia.
      * rewrite Z1 by lia. apply Z2; lia.
    + intros Na. apply Oob. destruct (Z_lt_le_dec j (jlo a b m n)) as [|J1]; auto. destruct (Z_lt_le_dec (a + b) j) as [|J2]; auto. exfalso.
      apply Na. unfold tj_allowed, jlo in *. lia.
    + destruct (Z_lt_le_dec j (jlo a b m n)) as [J|J]; [rewrite Oob by auto; rewrite Rabs_R0; lra|].
      destruct (Z_lt_le_dec (a + b) j) as [J2|J2]; [rewrite Oob by auto; rewrite Rabs_R0; lra|]. apply Bd. lia.
    + intros ->. rewrite <- pm1_sgn. auto.
  - right. rewrite E1, E2. cbn [bind].
    set (d1 := mkcalc (csize c1) (mkarr (4 * csize c1) (fun _ => 0%R))). set (d2 := mkcalc (csize c2) (mkarr (4 * csize c2) (fun _ => 0%R))).
    assert (W1 : calc_wf d1) by (split; auto). assert (W2 : calc_wf d2) by (split; auto).
    exists d1, d2. split; auto. split; auto. split; auto. split; auto. split; auto. split; auto. intros j Hj.
    exists 0%R. rewrite returned_get by auto. split; [reflexivity|]. split; [|split; [|split]]; auto.
    + intros. rewrite returned_get by (auto; cbn; lia). reflexivity.
    + rewrite Rabs_R0. lra.
    + intros. lra.
Qed.

Lemma C70_same :
  forall c1 c2 j2 j3 m2 m3, calc_wf c1 -> calc_wf c2 -> j2 + j3 < csize c1 -> j2 + j3 < csize c2 -> j2 + j3 <= 1447 ->
    (calculate64 fixed c1 j2 j3 m2 m3 = Err ZeroDivisionError /\ calculate64 fixed c2 j2 j3 m2 m3 = Err ZeroDivisionError)
    \/ exists d1 d2, calculate64 fixed c1 j2 j3 m2 m3 = Ok d1 /\ calculate64 fixed c2 j2 j3 m2 m3 = Ok d2 /\ csize d1 = csize c1 /\ csize d2 = csize c2
      /\ forall j, 0 <= j < csize c1 -> j < csize c2 -> exists x, returned d1 j = Ok x /\ returned d2 j = Ok x.
Proof.
  intros c1 c2 a b m n W1 W2 S1 S2 Hab. destruct (same_core c1 c2 a b m n W1 W2 Hab ltac:(auto)) as [E|(d1 & d2 & E1 & E2 & _ & _ & C1 & C2 & V)]; auto.
  right. exists d1, d2. split; auto. split; auto. split; auto. split; auto. intros j Hj Hj2. destruct (V j Hj) as (x & X1 & X2 & _). exists x. auto.
Qed.

Lemma C70_entries :
  forall c j2 j3 m2 m3, calc_wf c -> j2 + j3 < csize c -> j2 + j3 <= 1447 ->
    calculate64 fixed c j2 j3 m2 m3 = Err ZeroDivisionError
    \/ exists c', calculate64 fixed c j2 j3 m2 m3 = Ok c' /\ calc_wf c' /\ csize c' = csize c
      /\ forall j, 0 <= j < csize c -> exists x, returned c' j = Ok x
        /\ (~ tj_allowed j j2 j3 (- m2 - m3) m2 m3 -> x = 0%R)
        /\ (Rabs x <= 5 / 4)%R
        /\ (j = j2 + j3 -> (0 <= sgn (j2 - j3 + m2 + m3) * x)%R).
Proof.
  intros c a b m n W S Hab. destruct (same_core c c a b m n W W Hab ltac:(auto)) as [[E _]|(d1 & d2 & E1 & _ & D & _ & C1 & _ & V)]; auto.
  right. exists d1. split; auto. split; auto. split; auto. intros j Hj. destruct (V j Hj) as (x & X1 & _ & X2). exists x. auto.
Qed.

Lemma max_first j1 j2 j3 : j2 <= j1 -> j3 <= j1 -> Z.max (Z.max j1 j2) j3 = j1.
Proof. lia. Qed.

Lemma C70_Wigner3j :
  forall garbage c j1 j2 j3 m2 m3, calc_wf c -> j2 + j3 < csize c -> j2 + j3 <= 1447 -> j2 <= j1 -> j3 <= j1 ->
    tj_allowed j1 j2 j3 (- m2 - m3) m2 m3 ->
    Wigner3j64 fixed garbage j1 j2 j3 (- m2 - m3) m2 m3 = (do c' <- calculate64 fixed c j2 j3 m2 m3; returned c' j1).
Proof.
  intros g c j1 a b m n W S Hab Ha Hb T. pose proof T as T0. unfold tj_allowed in T0. unfold Wigner3j64.
  replace (- m - n + m + n) with 0 by lia. cbn [Z.eqb negb].
  destruct (Z.gtb_spec (Z.abs (- m - n)) j1); [lia|]. destruct (Z.gtb_spec (Z.abs m) a); [lia|]. destruct (Z.gtb_spec (Z.abs n) b); [lia|]. cbn [orb].
  cbv zeta. rewrite max_first by lia. rewrite Z.eqb_refl. destruct (Z.gtb_spec j1 (a + b)); [lia|].
  unfold calc_new. cbv zeta. rewrite np_empty_ok by lia. cbn [bind].
  set (k := mkcalc (a + b + 1) (mkarr (4 * (a + b + 1)) g)).
  assert (Wk : calc_wf k) by (split; cbn; [lia|reflexivity]).
  destruct (same_core k c a b m n Wk W Hab) as [[E1 E2]|(d1 & d2 & E1 & E2 & _ & _ & _ & _ & V)].
  - intros _ _. split; auto. cbn. lia.
  - rewrite E1, E2. reflexivity.
  - rewrite E1, E2. cbn [bind]. destruct (V j1 ltac:(cbn; lia)) as (x & X1 & X2 & _). rewrite X1, X2 by lia. reflexivity.
Qed.

Lemma W64_garbage g1 g2 j1 j2 j3 m1 m2 m3 : j1 + j2 + j3 - Z.max j1 (Z.max j2 j3) <= 1447 ->
  Wigner3j64 fixed g1 j1 j2 j3 m1 m2 m3 = Wigner3j64 fixed g2 j1 j2 j3 m1 m2 m3.
Proof.
  intros HJ. unfold Wigner3j64. destruct (Z.eqb_spec (m1 + m2 + m3) 0) as [Hm|]; [|reflexivity]. cbn [negb].
  destruct (Z.gtb_spec (Z.abs m1) j1); [reflexivity|]. destruct (Z.gtb_spec (Z.abs m2) j2); [reflexivity|]. destruct (Z.gtb_spec (Z.abs m3) j3); [reflexivity|]. cbn [orb]. cbv zeta.
  assert (Core : forall a b c m n, 0 <= b -> 0 <= c -> b + c <= 1447 -> 0 <= a <= b + c ->
    (do k <- calc_new b c g1; do k <- calculate64 fixed k b c m n; returned k a) = (do k <- calc_new b c g2; do k <- calculate64 fixed k b c m n; returned k a)).
  { intros a b c m n Hb Hc Hbc Ha. unfold calc_new. cbv zeta. rewrite !np_empty_ok by lia. cbn [bind].
    set (k1 := mkcalc (b + c + 1) (mkarr (4 * (b + c + 1)) g1)). set (k2 := mkcalc (b + c + 1) (mkarr (4 * (b + c + 1)) g2)).
    assert (W1 : calc_wf k1) by (split; cbn; [lia|reflexivity]). assert (W2 : calc_wf k2) by (split; cbn; [lia|reflexivity]).
    destruct (same_core k1 k2 b c m n W1 W2 Hbc) as [[E1 E2]|(d1 & d2 & E1 & E2 & _ & _ & _ & _ & V)].
    - intros _ _. cbn. lia.
    - rewrite E1, E2. reflexivity.
    - rewrite E1, E2. cbn [bind]. destruct (V a ltac:(cbn; lia)) as (x & X1 & X2 & _). rewrite X1, X2 by (cbn; lia). reflexivity. }
  destruct (Z.eqb_spec j1 (Z.max (Z.max j1 j2) j3)); [|destruct (Z.eqb_spec j2 (Z.max (Z.max j1 j2) j3))];
    (match goal with |- context [?x >? ?y] => destruct (Z.gtb_spec x y) end; [reflexivity|apply Core; lia]).
Qed.

Lemma C70_cyclic :
  forall g1 g2 j1 j2 j3 m1 m2 m3, j2 < j1 -> j3 < j1 -> j2 + j3 <= 1447 ->
    Wigner3j64 fixed g1 j1 j2 j3 m1 m2 m3 = Wigner3j64 fixed g2 j2 j3 j1 m2 m3 m1
    /\ Wigner3j64 fixed g1 j1 j2 j3 m1 m2 m3 = Wigner3j64 fixed g2 j3 j1 j2 m3 m1 m2.
Proof.
  intros g1 g2 j1 j2 j3 m1 m2 m3 H2 H3 HJ. rewrite (W64_garbage g1 g2) by lia. unfold Wigner3j64.
  replace (m2 + m3 + m1) with (m1 + m2 + m3) by lia. replace (m3 + m1 + m2) with (m1 + m2 + m3) by lia.
  destruct (Z.eqb_spec (m1 + m2 + m3) 0); [|auto]. cbn [negb].
  destruct (Z.gtb_spec (Z.abs m1) j1); destruct (Z.gtb_spec (Z.abs m2) j2); destruct (Z.gtb_spec (Z.abs m3) j3); cbn [orb]; auto. cbv zeta.
  replace (Z.max (Z.max j1 j2) j3) with j1 by lia. replace (Z.max (Z.max j2 j3) j1) with j1 by lia. replace (Z.max (Z.max j3 j1) j2) with j1 by lia.
  rewrite Z.eqb_refl. destruct (Z.eqb_spec j2 j1); [lia|]. destruct (Z.eqb_spec j3 j1); [lia|]. auto.
Qed.

Lemma C70_any :
  forall garbage j1 j2 j3 m1 m2 m3, j1 + j2 + j3 - Z.max j1 (Z.max j2 j3) <= 1447 ->
    Wigner3j64 fixed garbage j1 j2 j3 m1 m2 m3 = Err ZeroDivisionError
    \/ exists x, Wigner3j64 fixed garbage j1 j2 j3 m1 m2 m3 = Ok x /\ (Rabs x <= 5 / 4)%R /\ (~ tj_allowed j1 j2 j3 m1 m2 m3 -> x = 0%R).
Proof.
  intros g j1 j2 j3 m1 m2 m3 HJ. unfold Wigner3j64.
  assert (Z0 : exists x : R, @Ok R 0%R = Ok x /\ (Rabs x <= 5 / 4)%R /\ (~ tj_allowed j1 j2 j3 m1 m2 m3 -> x = 0%R)).
  { exists 0%R. split; auto. split; auto. rewrite Rabs_R0. lra. }
  destruct (Z.eqb_spec (m1 + m2 + m3) 0) as [Hm|]; cbn [negb]; [|auto].
  destruct (Z.gtb_spec (Z.abs m1) j1); cbn [orb]; auto. destruct (Z.gtb_spec (Z.abs m2) j2); cbn [orb]; auto. destruct (Z.gtb_spec (Z.abs m3) j3); cbn [orb]; auto. cbv zeta.
  assert (Core : forall a b c k m n, k + m + n = 0 -> 0 <= b -> 0 <= c -> b + c <= 1447 -> 0 <= a <= b + c -> (~ tj_allowed j1 j2 j3 m1 m2 m3 -> ~ tj_allowed a b c k m n) ->
    (do k <- calc_new b c g; do k <- calculate64 fixed k b c m n; returned k a) = Err ZeroDivisionError
    \/ exists x, (do k <- calc_new b c g; do k <- calculate64 fixed k b c m n; returned k a) = Ok x /\ (Rabs x <= 5 / 4)%R /\ (~ tj_allowed j1 j2 j3 m1 m2 m3 -> x = 0%R)).
  { intros a b c k m n Hk Hb Hc Hbc Ha T. unfold calc_new. cbv zeta. rewrite np_empty_ok by lia. cbn [bind].
    set (k1 := mkcalc (b + c + 1) (mkarr (4 * (b + c + 1)) g)).
    assert (W1 : calc_wf k1) by (split; cbn; [lia|reflexivity]).
    destruct (C70_entries k1 b c m n W1 ltac:(cbn; lia) Hbc) as [E1|(d1 & E1 & _ & _ & V)].
    - left. rewrite E1. reflexivity.
    - right. rewrite E1. cbn [bind]. destruct (V a ltac:(cbn; lia)) as (x & X1 & X2 & X3 & _). exists x. split; auto. split; auto.
      intros Na. apply X2. replace (- m - n) with k by lia. auto. }
  destruct (Z.eqb_spec j1 (Z.max (Z.max j1 j2) j3)); [|destruct (Z.eqb_spec j2 (Z.max (Z.max j1 j2) j3))];
    (match goal with |- context [?x >? ?y] => destruct (Z.gtb_spec x y) end; [auto|]).
  - apply (Core j1 j2 j3 m1 m2 m3); try lia; unfold tj_allowed; lia.
  - apply (Core j2 j3 j1 m2 m3 m1); try lia; unfold tj_allowed; lia.
  - apply (Core j3 j1 j2 m3 m1 m2); try lia; unfold tj_allowed; lia.
Qed.

Lemma C70_short :
  forall c j2 j3 m2 m3, calc_wf c -> j2 + j3 < csize c -> j2 + j3 <= 151 -> Z.abs m2 <= j2 -> Z.abs m3 <= j3 ->
    j2 + j3 - 1 <= Z.max (Z.abs (j2 - j3)) (Z.abs (m2 + m3)) ->
    exists c', calculate64 fixed c j2 j3 m2 m3 = Ok c' /\ calc_wf c' /\ csize c' = csize c /\
      forall j, 0 <= j < csize c -> exists x, returned c' j = Ok x /\
        (Rabs (x - threej j j2 j3 (- m2 - m3) m2 m3) <= 12 * u64 * Rabs (threej j j2 j3 (- m2 - m3) m2 m3))%R.
Proof.
  intros c a b m n [P L] S Hab Hm Hn Hj.
  assert (Q : exists ws', calculate_ws64 fixed (csize c) a b m n (workspace c) = Ok ws' /\ alen ws' = 4 * csize c /\ closed (csize c) a b m n 11 ws').
  { change (Z.max (Z.abs (a - b)) (Z.abs (m + n))) with (jlo a b m n) in Hj.
    assert (D : jlo a b m n = a + b \/ jlo a b m n = a + b - 1) by (unfold jlo in *; lia). destruct D as [D|D].
    - destruct (single64 fixed (csize c) a b m n (workspace c)) as (ws' & E & L' & C); auto; try lia. exists ws'. split; auto. split; auto.
      intros k Hk. eapply lg_weak; [apply C; auto|lra].
    - apply two64; auto. }
  destruct Q as (ws' & E & L' & C). unfold calculate64. rewrite E. cbn [bind].
  assert (W : calc_wf (mkcalc (csize c) ws')) by (split; auto).
  eexists. split; [reflexivity|]. split; auto. split; auto. intros j Hj'. rewrite returned_get by auto. cbn [csize workspace].
  eexists. split; [reflexivity|]. pose proof (C j Hj') as Q. rewrite gg_threej in Q.
  eapply Rle_trans; [apply (lg_err _ _ _ Q); lra|]. apply Rmult_le_compat_r; [apply Rabs_pos|]. apply Rmult_le_compat_r; [apply Rlt_le, u64_small|]. lra.
Qed.

Lemma C70_example :
  forall garbage, exists x, Wigner3j64 fixed garbage 2 1 1 (-1) 1 0 = Ok x /\ (0 < - x)%R
    /\ Wigner3j64 fixed garbage 1 1 2 1 0 (-1) = Ok x /\ Wigner3j64 fixed garbage 1 2 1 0 (-1) 1 = Ok x.
Proof.
  intros g.
  assert (Wk : calc_wf (mkcalc 3 (mkarr 12 g))) by (split; cbn; [lia|reflexivity]).
  destruct (C70_short (mkcalc 3 (mkarr 12 g)) 1 1 1 0 Wk) as (c' & E & W & Sz & V); try (cbn; lia).
  destruct (V 2 ltac:(cbn; lia)) as (x & Ex & Bx). exists x.
  assert (E2 : Wigner3j64 fixed g 2 1 1 (-1) 1 0 = Ok x).
  { change (-1) with (- (1) - 0). rewrite (C70_Wigner3j g (mkcalc 3 (mkarr 12 g))); try (cbn; lia); auto. rewrite E. exact Ex. unfold tj_allowed. lia. }
  split; auto. split; [|rewrite <- E2; destruct (C70_cyclic g g 2 1 1 (-1) 1 0) as [C1 C2]; try lia; auto].
  pose proof (GG_top_sign 1 1 1 0 ltac:(lia) ltac:(lia)) as T. change (GG 1 1 1 0 (1 + 1)) with (gg 1 1 1 0 2) in T.
  rewrite gg_threej in T. change (sgn (1 - 1 + 1 + 0)) with (-1)%R in T. change (- (1) - 0) with (-1) in *.
  set (t := threej 2 1 1 (-1) 1 0) in *. rewrite (Rabs_left t) in Bx by lra. apply Rabs_le_inv in Bx.
  assert (12 * u64 * - t <= / 2 * - t)%R; [|lra]. apply Rmult_le_compat_r; [lra|]. pose proof u64_small. lra.
Qed.
