(** The calculator in double precision: coefficients, normalisation and sign. *)
From Coq Require Import ZArith Reals Lia Lra Bool.
From Flocq Require Import Core.
From Verif Require Import Base BaseProofs Fact RSum ThreeJSpec ThreeJ ThreeJ2 ThreeJ3 ThreeJ4 ThreeJZero Wigner3jModel Wigner3jWs Wigner3jFwd Wigner3jProofs.
From Verif Require Import FloatIndexModel FloatIndexProofs FloatModesModel FloatPowersProps FloatConvProofs FloatPartsProofs FloatThreeJModel FloatLog.
Local Open Scope Z_scope.
Set Bullet Behavior "Strict Subproofs".

Lemma fdiv64_ok x y : y <> 0%R -> fdiv64 x y = Ok (RN64 (x / y)).
Proof. intros. unfold fdiv64. destruct (Reqb_spec y 0); tauto. Qed.

Lemma pow_inv_pos n : (0 < / 2 ^ n)%R.
Proof. apply Rinv_0_lt_compat, pow_lt. lra. Qed.
Lemma pow_inv_le n k : (n <= k)%nat -> (/ 2 ^ k <= / 2 ^ n)%R.
Proof. intros. apply Rinv_le_contravar; [apply pow_lt; lra|]. apply Rle_pow; [lra|auto]. Qed.

(** rounding a value close to one that is zero or not tiny *)
Lemma lg_RN0 k x y : lg k x y -> (0 <= k <= 2 ^ 20)%R -> y = 0%R \/ (/ 2 ^ 900 <= Rabs y)%R -> lg (k + 1) (RN64 x) y.
Proof.
  intros H Hk [-> | L].
  - pose proof (lg_0 _ _ H) as ->. rewrite RN64_0. apply (lg_weak 0); [apply lg_refl|lra].
  - apply lg_RN'; auto. destruct (lg_size _ _ _ H Hk) as [S _].
    pose proof (pow_inv_le 901 1000 ltac:(lia)) as I1. assert (I2 : (/ 2 ^ 901 = / 2 * / 2 ^ 900)%R).
    { change 901%nat with (Datatypes.S 900%nat). rewrite <- tech_pow_Rmult, Rinv_mult. reflexivity. }
    pose proof (pow_inv_pos 900). lra.
Qed.

(** ** Coefficients *)
Section Coef.
Variables (w : widths) (a b m n : Z).
Hypothesis Hw : ok_widths a b m n w.
Hypotheses (Hm : Z.abs m <= a) (Hn : Z.abs n <= b) (Hab : a + b <= 2 ^ 20).
Definition a64 (j : Z) : R := RN64 (sqrt (RN64 (IZR (A2 j a b (m + n))))).
Definition x64 (j : Z) : R := RN64 (RN64 (IZR j) * a64 (j + 1)).
Definition z64 (j : Z) : R := RN64 (RN64 (IZR (j + 1)) * a64 j).

Lemma A64_ok j : jlo a b m n <= j <= a + b + 1 -> A64 w j a b (- (m + n)) = Ok (a64 j).
Proof.
  intros Hj. destruct Hw as [Ha _]. specialize (Ha j Hj). unfold A in Ha. unfold A64. cbv zeta in *.
  set (z := wA w ((j ^ 2 - (a - b) ^ 2) * ((a + b + 1) ^ 2 - j ^ 2) * (j ^ 2 - (- (m + n)) ^ 2))) in *.
  destruct (Z.ltb_spec z 0); [discriminate|]. apply Ok_inj in Ha. unfold Aq in Ha.
  assert (E : IZR z = IZR (A2 j a b (m + n))).
  { apply sqrt_inj; [apply (IZR_le 0); lia|apply (IZR_le 0), A2_nonneg; lia|auto]. }
  rewrite E. reflexivity.
Qed.
Lemma X64_ok j : jlo a b m n - 1 <= j <= a + b -> Xf64 w j a b (- (m + n)) = Ok (x64 j).
Proof. intros H. unfold Xf64. rewrite A64_ok by lia. reflexivity. Qed.
Lemma Z64_ok j : jlo a b m n <= j <= a + b + 1 -> Zf64 w j a b (- (m + n)) = Ok (z64 j).
Proof. intros H. unfold Zf64. rewrite A64_ok by lia. reflexivity. Qed.
Lemma Y64_ok j : jlo a b m n <= j <= a + b -> Yf64 w j a b m n = RN64 (yy a b m n j).
Proof. intros H. destruct Hw as [_ Hb]. unfold Yf64. fold (Yf w j a b m n). rewrite Hb by auto. reflexivity. Qed.

Lemma big_ok y : (/ 2 <= y)%R -> (/ 2 ^ 900 <= Rabs y)%R.
Proof. intros H. rewrite Rabs_pos_eq by lra. pose proof (pow_inv_le 1 900 ltac:(lia)). lra. Qed.
Lemma a64_lg j : jlo a b m n < j <= a + b -> lg (3 / 2) (a64 j) (Aq j a b (m + n)) /\ (1 <= Aq j a b (m + n))%R.
Proof.
  intros Hj. pose proof (A2_pos j a b m n Hj) as P. assert (P1 : (1 <= IZR (A2 j a b (m + n)))%R) by (apply (IZR_le 1); lia).
  assert (Q : (1 <= Aq j a b (m + n))%R). { unfold Aq. rewrite <- sqrt_1. apply sqrt_le_1_alt. auto. }
  split; auto. unfold a64.
  replace (3 / 2)%R with ((0 + 1) / 2 + 1)%R by lra. apply lg_RN0; [|lra|right; apply big_ok; lra].
  apply lg_sqrt; [lra|]. apply lg_RN0; [apply lg_refl|lra|right; apply big_ok; lra].
Qed.
Lemma x64_lg j : jlo a b m n <= j < a + b -> 0 < j -> lg (5 / 2) (x64 j) (xx a b m n j) /\ (1 <= xx a b m n j)%R.
Proof.
  intros Hj J0. destruct (a64_lg (j + 1) ltac:(lia)) as [L Q]. assert (J1 : (1 <= IZR j)%R) by (apply (IZR_le 1); lia).
  assert (X1 : (1 <= xx a b m n j)%R). { unfold xx. rewrite <- (Rmult_1_l 1). apply Rmult_le_compat; lra. }
  split; auto. unfold x64. rewrite RN64_int by lia. replace (5 / 2)%R with (3 / 2 + 1)%R by lra.
  apply lg_RN0; [|lra|right; apply big_ok; lra]. unfold xx. apply lg_scale. auto.
Qed.
Lemma z64_lg j : jlo a b m n < j <= a + b -> lg (5 / 2) (z64 j) (zz a b m n j) /\ (1 <= zz a b m n j)%R.
Proof.
  intros Hj. destruct (a64_lg j ltac:(lia)) as [L Q]. assert (J0 : 0 <= jlo a b m n) by (unfold jlo; lia).
  assert (J1 : (1 <= IZR (j + 1))%R) by (apply (IZR_le 1); lia).
  assert (X1 : (1 <= zz a b m n j)%R). { unfold zz. rewrite <- (Rmult_1_l 1). apply Rmult_le_compat; lra. }
  split; auto. unfold z64. rewrite RN64_int by lia. replace (5 / 2)%R with (3 / 2 + 1)%R by lra.
  apply lg_RN0; [|lra|right; apply big_ok; lra]. unfold zz. apply lg_scale. auto.
Qed.
End Coef.

(** ** Normalisation and sign *)
Section Finish.
Variables size a b m n : Z.
Hypotheses (Hm : Z.abs m <= a) (Hn : Z.abs n <= b) (Hsz : a + b < size) (Hab : a + b <= 2 ^ 15).
Notation jmin := (jlo a b m n).
Notation jmax := (a + b).
Notation G ws blk i := (get size ws blk i).
Notation gg := (gg a b m n).

(** the slot [f] holds a multiple of the symbols, up to [N] units, and zeros elsewhere *)
Definition fclose (N : R) (ws : arr R) : Prop :=
  alen ws = 4 * size /\
  (exists c, (/ 2 ^ 300 <= Rabs c)%R /\ forall k, jmin <= k <= jmax -> lg N (G ws 0 k) (c * gg k)) /\
  (forall k, 0 <= k < size -> k < jmin \/ jmax < k -> G ws 0 k = 0%R).
Definition closed (N : R) (ws : arr R) : Prop := forall k, 0 <= k < size -> lg N (G ws 0 k) (gg k).

Hypothesis Hlow : forall k, jmin <= k <= jmax -> gg k = 0%R \/ (/ 2 ^ 100 <= Rabs (gg k))%R.

Lemma pow_inv_mul p q r : (p + q <= r)%nat -> (/ 2 ^ r <= / 2 ^ p * / 2 ^ q)%R.
Proof. intros H. rewrite <- Rinv_mult, <- pow_add. apply pow_inv_le. auto. Qed.
Lemma prod_low p q r x y : (p + q <= r)%nat -> (/ 2 ^ p <= Rabs x)%R -> (/ 2 ^ q <= Rabs y)%R -> (/ 2 ^ r <= Rabs (x * y))%R.
Proof.
  intros H Hx Hy. rewrite Rabs_mult. eapply Rle_trans; [apply (pow_inv_mul p q r H)|].
  pose proof (pow_inv_pos p). pose proof (pow_inv_pos q). apply Rmult_le_compat; lra.
Qed.
Lemma cg_low c k : (/ 2 ^ 300 <= Rabs c)%R -> jmin <= k <= jmax -> (c * gg k = 0 \/ / 2 ^ 400 <= Rabs (c * gg k))%R.
Proof.
  intros Hc Hk. destruct (Hlow k Hk) as [-> | L]; [left; ring|right]. apply (prod_low 300 100); auto.
Qed.

Lemma gg_bottom_low : (/ 2 ^ 100 <= Rabs (gg jmin))%R.
Proof.
  assert (J : jmin <= jmax) by (unfold jlo; lia). destruct (Hlow jmin ltac:(lia)) as [E|L]; auto.
  exfalso. exact (gg_bottom a b m n Hm Hn E).
Qed.

Lemma finish64_ok N ws : (0 <= N <= 2 ^ 17)%R -> fclose N ws ->
  exists ws', finish64 size a b m n ws = Ok ws' /\ alen ws' = 4 * size /\ closed (2 * N + IZR (jmax - jmin) / 2 + 7 / 2) ws'.
Proof.
  intros HN (Hl & (c & Hc & Hp) & Ho). unfold finish64. cbv zeta.
  change (Z.max (Z.abs (a - b)) (Z.abs (m + n))) with jmin.
  assert (J0 : 0 <= jmin) by (unfold jlo; lia). assert (J1 : jmin <= jmax) by (unfold jlo; lia).
  assert (C2 : (/ 2 ^ 600 <= c * c)%R). { replace (c * c)%R with (Rabs (c * c)) by (apply Rabs_pos_eq, Rle_0_sqr). apply (prod_low 300 300); auto. }
  pose proof (pow_inv_pos 600) as P600.
  set (T := fun j => rsum jmin j (fun i => IZR (2 * i + 1) * (gg i * gg i))%R).
  assert (T0 : forall j, jmin <= j -> (/ 2 ^ 800 <= c * c * T j)%R).
  { intros j Hj. assert (Tg : (gg jmin * gg jmin <= T j)%R).
    { unfold T. rewrite rsum_first by lia. assert (0 <= rsum (jmin + 1) j (fun i => IZR (2 * i + 1) * (gg i * gg i)))%R.
      { apply rsum_nonneg. intros i Hi. apply Rmult_le_pos; [apply (IZR_le 0); lia|apply Rle_0_sqr]. }
      assert (1 * (gg jmin * gg jmin) <= IZR (2 * jmin + 1) * (gg jmin * gg jmin))%R.
      { apply Rmult_le_compat_r; [apply Rle_0_sqr|]. apply (IZR_le 1). lia. }
      lra. }
    assert (G2 : (/ 2 ^ 200 <= gg jmin * gg jmin)%R).
    { replace (gg jmin * gg jmin)%R with (Rabs (gg jmin * gg jmin)) by (apply Rabs_pos_eq, Rle_0_sqr).
      apply (prod_low 100 100); auto; apply gg_bottom_low. }
    eapply Rle_trans; [apply (pow_inv_mul 600 200); lia|]. pose proof (pow_inv_pos 200). apply Rmult_le_compat; lra. }
  assert (Tn : forall j, (0 <= c * c * T j)%R).
  { intros j. destruct (Z_le_gt_dec jmin j) as [L|L].
    - pose proof (T0 j L). pose proof (pow_inv_pos 800). lra.
    - unfold T. rewrite rsum_empty by lia. lra. }
  assert (Pj : (IZR (jmax - jmin) <= 2 ^ 15)%R) by (rewrite pow_IZR; apply IZR_le; change (2 ^ Z.of_nat 15) with (2 ^ 15); lia).
  unfold normalize64.
  destruct (for_range_inv (fun j x => lg (2 * N + 2 + IZR (j - jmin)) x (c * c * T (j - 1)%Z)%R) jmin (jmax + 1)
    (fun j norm => do x <- rdv ws (slot size (4 * size) 0) j; Ok (RN64 (norm + RN64 (RN64 (IZR (2 * j + 1)) * RN64 (x * x)))%R)) 0%R) as (nrm & E & Q); try lia.
  { unfold T. rewrite rsum_empty by lia. rewrite Rmult_0_r. apply (lg_weak 0); [apply lg_refl|].
    rewrite Z.sub_diag. lra. }
  { intros j x Hj Hx. rewrite rdv_ok by (try lia; auto). cbn [bind]. eexists. split; [reflexivity|].
    replace (j + 1 - 1) with j by lia.
    assert (Jr : (0 <= IZR (j - jmin) <= 2 ^ 15)%R).
    { split; [apply (IZR_le 0); lia|]. eapply Rle_trans; [apply IZR_le|exact Pj]. lia. }
    replace (2 * N + 2 + IZR (j + 1 - jmin))%R with (2 * N + 2 + IZR (j - jmin) + 1)%R
      by (replace (j + 1 - jmin) with (j - jmin + 1) by lia; rewrite plus_IZR; ring).
    assert (St : (c * c * T j = c * c * T (j - 1)%Z + IZR (2 * j + 1) * ((c * gg j) * (c * gg j)))%R).
    { unfold T. rewrite (rsum_last jmin j) by lia. ring. }
    apply lg_RN0; [|lra|right; rewrite Rabs_pos_eq by apply Tn; eapply Rle_trans; [|apply T0; lia]; apply pow_inv_le; lia].
    rewrite St. apply lg_plus; [lra|apply Tn| |exact Hx|].
    { apply Rmult_le_pos; [apply (IZR_le 0); lia|apply Rle_0_sqr]. }
    apply (lg_weak (2 * N + 2)); [|lra]. rewrite RN64_int by lia.
    assert (Tl : (c * gg j * (c * gg j) = 0 \/ / 2 ^ 800 <= Rabs (c * gg j * (c * gg j)))%R).
    { destruct (cg_low c j Hc ltac:(lia)) as [Z|L]; [left; rewrite Z; ring|right]. apply (prod_low 400 400); auto. }
    replace (2 * N + 2)%R with (2 * N + 1 + 1)%R by ring. apply lg_RN0; [|lra|].
    - apply lg_scale. apply lg_RN0; [|lra|].
      + replace (2 * N)%R with (N + N)%R by ring. apply lg_mul; apply Hp; lia.
      + destruct Tl as [Z|L]; [auto|right]. eapply Rle_trans; [|exact L]. apply pow_inv_le; lia.
    - destruct Tl as [Z|L]; [left; rewrite Z; ring|right]. rewrite Rabs_mult.
      assert (I1 : (1 <= Rabs (IZR (2 * j + 1)))%R) by (rewrite <- abs_IZR; apply (IZR_le 1); lia).
      pose proof (pow_inv_le 800 900 ltac:(lia)). pose proof (pow_inv_pos 800).
      apply Rle_trans with (1 * / 2 ^ 800)%R; [lra|]. apply Rmult_le_compat; lra. }
  rewrite E. cbn [bind]. clear E. replace (jmax + 1 - 1) with jmax in Q by lia.
  assert (T1 : T jmax = 1%R). { unfold T. pose proof (cols_norm a b m n Hm Hn) as CN. rewrite <- CN. reflexivity. }
  rewrite T1, Rmult_1_r in Q. clear Tn T0.
  set (L := IZR (jmax - jmin)) in *. replace (IZR (jmax + 1 - jmin)) with (L + 1)%R in Q
    by (unfold L; replace (jmax + 1 - jmin) with (jmax - jmin + 1) by lia; rewrite plus_IZR; ring).
  assert (L0 : (0 <= L)%R) by (apply (IZR_le 0); lia).
  apply lg_sqrt in Q; [|apply Rle_0_sqr].
  assert (Ed : sqrt (c * c) = Rabs c) by (apply sqrt_Rsqr_abs). rewrite Ed in Q. clear Ed.
  assert (Rc : (/ 2 ^ 300 <= Rabs (Rabs c))%R) by (rewrite Rabs_Rabsolu; auto).
  apply lg_RN0 in Q; [|lra|right; eapply Rle_trans; [|exact Rc]; apply pow_inv_le; lia].
  set (dd := RN64 (sqrt nrm)) in *.
  assert (Hd : Rabs c <> 0%R) by (pose proof (pow_inv_pos 300); lra).
  assert (Hdd : dd <> 0%R) by (eapply lg_neq; [exact Q|auto]).
  destruct (Reqb_spec dd 0) as [|_]; [tauto|].
  destruct (wrv_slice_ok size ltac:(lia) ws 0 jmin (jmax + 1) (fun k => RN64 (vget ws (slot size (4 * size) 0) k / dd)))
    as (ws1 & E & L1 & S1 & F1); try lia; auto.
  rewrite E. cbn [bind]. clear E.
  set (s := (c / Rabs c)%R).
  assert (Hs : s = 1%R \/ s = (-1)%R).
  { unfold s. destruct (Rle_lt_dec 0 c) as [Pc|Pc].
    - left. rewrite Rabs_right in * by lra. field; auto.
    - right. rewrite Rabs_left in * by auto. field. lra. }
  set (M := (2 * N + L / 2 + 7 / 2)%R).
  assert (P1 : forall k, jmin <= k <= jmax -> lg M (G ws1 0 k) (s * gg k)).
  { intros k Hk. rewrite S1 by lia. destruct (Z.leb_spec jmin k); [|lia]. destruct (Z.ltb_spec k (jmax + 1)); [|lia].
    cbn [andb]. rewrite vget_slot by lia.
    replace M with (N + ((2 * N + 2 + (L + 1)) / 2 + 1) + 1)%R by (unfold M; field). apply lg_RN0.
    - replace (s * gg k)%R with (c * gg k / Rabs c)%R by (unfold s; field; auto). apply lg_div; [apply Hp; lia|exact Q].
    - lra.
    - destruct (Hlow k Hk) as [Z|Lw]; [left; rewrite Z; ring|right]. rewrite Rabs_mult.
      replace (Rabs s) with 1%R by (destruct Hs as [-> | ->]; [rewrite Rabs_R1|rewrite Rabs_left]; lra).
      rewrite Rmult_1_l. eapply Rle_trans; [|exact Lw]. apply pow_inv_le; lia. }
  assert (O1 : forall k, 0 <= k < size -> k < jmin \/ jmax < k -> G ws1 0 k = 0%R).
  { intros k Hk Hr. rewrite S1 by lia. destruct (Z.leb_spec jmin k); destruct (Z.ltb_spec k (jmax + 1)); cbn [andb]; try lia; auto. }
  assert (Oz : forall k, k < jmin \/ jmax < k -> gg k = 0%R) by (intros; apply GG_out; auto).
  assert (M0 : (0 <= M)%R) by (unfold M; lra).
  assert (Ol : lg M 0 0) by (apply (lg_weak 0); [apply lg_refl|auto]).
  unfold determine_signs. rewrite rdv_ok by (try lia; auto). cbn [bind].
  destruct (P1 jmax ltac:(lia)) as (t & _ & Et). pose proof (exp_pos t) as Pt.
  pose proof (GG_top_sign a b m n Hm Hn) as Sg. fold (gg jmax) in Sg. rewrite <- pm1_sgn in Sg.
  assert (Hpm : pm1 (a - b + m + n) = 1 \/ pm1 (a - b + m + n) = -1) by (unfold pm1; destruct (Z.even _); auto).
  assert (Same : s = 1%R -> exists ws', Ok ws1 = Ok ws' /\ alen ws' = 4 * size /\ closed M ws').
  { intros Es. exists ws1. split; auto. split; auto. intros k Hk.
    destruct (Z_lt_le_dec k jmin); [rewrite O1, Oz by lia; auto|]. destruct (Z_lt_le_dec jmax k); [rewrite O1, Oz by lia; auto|].
    pose proof (P1 k ltac:(lia)) as Q1. rewrite Es, Rmult_1_l in Q1. auto. }
  assert (Flip : s = (-1)%R -> exists ws', wrv_slice ws1 (slot size (4 * size) 0) jmin (jmax + 1) (fun k => vget ws1 (slot size (4 * size) 0) k * -1)%R = Ok ws'
     /\ alen ws' = 4 * size /\ closed M ws').
  { intros Es. destruct (wrv_slice_ok size ltac:(lia) ws1 0 jmin (jmax + 1) (fun k => vget ws1 (slot size (4 * size) 0) k * -1)%R)
      as (ws2 & E2 & L2 & S2 & F2); try lia; auto.
    exists ws2. split; auto. split; auto. intros k Hk. rewrite S2 by lia.
    destruct (Z.leb_spec jmin k); destruct (Z.ltb_spec k (jmax + 1)); cbn [andb].
    - rewrite vget_slot by lia. pose proof (P1 k ltac:(lia)) as Q1. rewrite Es in Q1.
      replace (gg k) with (-1 * (-1 * gg k))%R by ring. rewrite (Rmult_comm (G ws1 0 k)). apply lg_scale. auto.
    - rewrite O1, Oz by lia; auto.
    - rewrite O1, Oz by lia; auto.
    - lia. }
  assert (Gp : forall r, r = 1%R \/ r = (-1)%R -> (0 < r * gg jmax)%R -> (G ws1 0 jmax < 0 -> s * r = -1)%R /\ (0 < G ws1 0 jmax -> s * r = 1)%R /\ G ws1 0 jmax <> 0%R).
  { intros r Hr Pr. rewrite Et. destruct Hs as [-> | ->]; destruct Hr as [-> | ->].
    all: assert (K : (0 < gg jmax * exp t \/ gg jmax * exp t < 0)%R) by
      (destruct (Rlt_le_dec 0 (gg jmax)); [left; apply Rmult_lt_0_compat; lra|right; assert (0 < - gg jmax * exp t)%R by (apply Rmult_lt_0_compat; lra); lra]).
    all: assert (K' : (0 < 1 * gg jmax -> 0 < gg jmax * exp t)%R) by (intros; apply Rmult_lt_0_compat; lra).
    all: assert (K'' : (0 < -1 * gg jmax -> gg jmax * exp t < 0)%R) by (intros; assert (0 < - gg jmax * exp t)%R by (apply Rmult_lt_0_compat; lra); lra).
    all: split; [|split]; intros; try lra. }
  destruct Hpm as [Hpm|Hpm]; rewrite Hpm in Sg |- *; destruct (Gp (IZR (pm1 (a - b + m + n))) ltac:(rewrite Hpm; auto) ltac:(rewrite Hpm; exact Sg)) as (G1 & G2 & G3); rewrite Hpm in G1, G2;
    destruct (Rltb_spec (G ws1 0 jmax) 0) as [L1'|L1']; destruct (Rltb_spec 0 (G ws1 0 jmax)) as [L2'|L2']; try lra;
    cbn [Z.gtb Z.ltb Z.compare andb orb]; first [apply Same; lra | apply Flip; lra].
Qed.
End Finish.
