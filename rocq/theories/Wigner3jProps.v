(** Properties C31-C35 and C43 of the 3-j calculator, proved. *)
From Coq Require Import ZArith Reals Lia Lra Bool.
From Verif Require Import Base BaseProofs Fact RSum ThreeJSpec ThreeJ ThreeJ2 ThreeJ3 ThreeJ4.
From Verif Require Import Wigner3jModel Wigner3jSpec Wigner3jWs Wigner3jFwd Wigner3jProofs.
Local Open Scope Z_scope.

Lemma returned_get c j : calc_wf c -> 0 <= j < csize c -> returned c j = Ok (get (csize c) (workspace c) 0 j).
Proof. intros [H1 H2] Hj. unfold returned. rewrite H2. apply rdv_ok; auto; lia. Qed.

Lemma calculate_total w c j2 j3 m2 m3 : calc_wf c -> (Z.abs m2 <= j2 -> Z.abs m3 <= j3 -> j2 + j3 < csize c) ->
  (Z.abs m2 <= j2 -> Z.abs m3 <= j3 -> ok_widths j2 j3 m2 m3 w) ->
  (exists c', calculate w c j2 j3 m2 m3 = Ok c' /\ calc_wf c' /\ csize c' = csize c /\
     forall j, 0 <= j < csize c -> returned c' j = Ok (threej j j2 j3 (- m2 - m3) m2 m3)) \/
  (calculate w c j2 j3 m2 m3 = Err ZeroDivisionError /\ late_zero j2 j3 m2 m3).
Proof.
  intros [Hs Hl] Hsz Hw. unfold calculate.
  assert (Ht : Z.abs m2 > j2 \/ Z.abs m3 > j3 \/ (Z.abs m2 <= j2 /\ Z.abs m3 <= j3)) by lia.
  assert (Out : Z.abs m2 > j2 \/ Z.abs m3 > j3 -> exists c',
     (do ws <- calculate_ws w (csize c) j2 j3 m2 m3 (workspace c); Ok (mkcalc (csize c) ws)) = Ok c' /\ calc_wf c' /\ csize c' = csize c /\
     forall j, 0 <= j < csize c -> returned c' j = Ok (threej j j2 j3 (- m2 - m3) m2 m3)).
  { intros Ho. unfold calculate_ws. cbv zeta.
    replace ((Z.abs m2 >? j2) || (Z.abs m3 >? j3)) with true by (symmetry; apply orb_true_iff; lia).
    cbn [bind]. eexists. split; [reflexivity|]. split; [split; auto|]. split; auto.
    intros j Hj. rewrite returned_get by (auto; split; auto). cbn [csize workspace]. unfold get. cbn [aget].
    rewrite threej_out; auto. unfold tj_allowed. lia. }
  destruct Ht as [Ht|[Ht|[Hm Hn]]]; [left; auto|left; auto|].
  destruct (calculate_main w (csize c) j2 j3 m2 m3 (Hw Hm Hn) Hm Hn (Hsz Hm Hn) (workspace c) Hl) as [(ws' & E & L & Hg)|[E HL]];
    rewrite E; cbn [bind].
  - left. eexists. split; [reflexivity|]. assert (W : calc_wf (mkcalc (csize c) ws')) by (split; auto). split; auto. split; auto.
    intros j Hj. rewrite returned_get by auto. cbn [csize workspace]. rewrite Hg by auto. f_equal. apply gg_threej.
  - right. auto.
Qed.

(** Off-diagonal coefficients only decrease in the upper part of the range. *)
Lemma A2_decreasing k a b M : 0 < k -> M * M < k * k -> (a - b) * (a - b) < k * k -> k + 1 <= a + b ->
  k * k * A2 (k + 1) a b M <= (k + 1) * (k + 1) * A2 k a b M ->
  (a + b + 1) * (a + b + 1) + (a - b) * (a - b) <= k * k + (k + 1) * (k + 1).
Proof.
  intros Hk HM HD Hs H. unfold A2 in H.
  assert (Y : k * k < (k + 1) * (k + 1)) by lia.
  assert (S : (k + 1) * (k + 1) < (a + b + 1) * (a + b + 1)) by (apply Z.mul_lt_mono_nonneg; lia).
  assert (D0 : 0 <= (a - b) * (a - b)) by apply Z.square_nonneg. assert (M0 : 0 <= M * M) by apply Z.square_nonneg.
  assert (Y0 : 0 < k * k) by (apply Z.mul_pos_pos; lia).
  set (y := k * k) in *. set (z := (k + 1) * (k + 1)) in *. set (S2 := (a + b + 1) * (a + b + 1)) in *.
  set (D := (a - b) * (a - b)) in *. set (q := M * M) in *. clearbody y z S2 D q.
  destruct (Z_le_gt_dec (S2 + D) (y + z)) as [G|G]; auto. exfalso.
  assert (E1 : (y - D) * (S2 - y) < (z - D) * (S2 - z)).
  { assert (0 < (z - y) * (S2 + D - z - y)) by (apply Z.mul_pos_pos; lia). lia. }
  assert (P1 : 0 < (y - D) * (S2 - y)) by (apply Z.mul_pos_pos; lia).
  assert (E2 : z * (y - q) <= y * (z - q)). { assert (0 <= (z - y) * q) by (apply Z.mul_nonneg_nonneg; lia). lia. }
  assert (P2 : 0 < z * (y - q)) by (apply Z.mul_pos_pos; lia).
  set (u := (y - D) * (S2 - y)) in *. set (v := (z - D) * (S2 - z)) in *.
  assert (z * (y - q) * u < y * (z - q) * v) by (apply Z.lt_le_trans with (z * (y - q) * v); [apply Z.mul_lt_mono_pos_l; auto|apply Z.mul_le_mono_nonneg_r; lia]).
  replace (y * (v * (z - q))) with (y * (z - q) * v) in H by ring. replace (z * (u * (y - q))) with (z * (y - q) * u) in H by ring. lia.
Qed.

Lemma late_zero_min a b m n : late_zero a b m n -> Z.abs m <= a -> Z.abs n <= b -> 8 <= a /\ 8 <= b /\ 28 <= (a - 7) * (b - 7).
Proof.
  intros (_ & k & Hk & HA & _) Hm Hn. unfold jlo in Hk.
  assert (Q : forall x, Z.abs x < k -> x * x < k * k). { intros x Hx. rewrite <- Z.abs_square. apply Z.mul_lt_mono_nonneg; lia. }
  apply A2_decreasing in HA; try lia; [|apply Q; lia|apply Q; lia].
  assert (K1 : k * k <= (a + b - 7) * (a + b - 7)) by (apply Z.mul_le_mono_nonneg; lia).
  assert (K2 : (k + 1) * (k + 1) <= (a + b - 6) * (a + b - 6)) by (apply Z.mul_le_mono_nonneg; lia).
  assert (G : 28 <= (a - 7) * (b - 7)) by lia.
  assert (A6 : 6 <= a) by lia. assert (B6 : 6 <= b) by lia.
  assert (8 <= a). { destruct (Z_le_gt_dec 8 a); auto. assert (a = 6 \/ a = 7) as [-> | ->] by lia; lia. }
  assert (8 <= b). { destruct (Z_le_gt_dec 8 b); auto. assert (b = 6 \/ b = 7) as [-> | ->] by lia; lia. }
  auto.
Qed.

(** ** C32 *)
Lemma C32_symbols :
  forall c j2 j3 m2 m3 c', calc_wf c -> 0 <= j2 -> 0 <= j3 -> j2 + j3 < csize c ->
    calculate exact c j2 j3 m2 m3 = Ok c' ->
    calc_wf c' /\ csize c' = csize c /\
    forall j, 0 <= j < csize c -> returned c' j = Ok (threej j j2 j3 (- m2 - m3) m2 m3).
Proof.
  intros c j2 j3 m2 m3 c' Hc H2 H3 Hs E.
  destruct (calculate_total exact c j2 j3 m2 m3 Hc) as [(c1 & E1 & W1 & S1 & V1)|[E1 _]]; auto.
  - intros. apply exact_ok; auto.
  - rewrite E in E1. apply Ok_inj in E1. subst c1. auto.
  - congruence.
Qed.

Lemma C32_returns :
  forall c j2 j3 m2 m3, calc_wf c -> 0 <= j2 -> 0 <= j3 -> j2 + j3 < csize c ->
    ~ late_zero j2 j3 m2 m3 -> exists c', calculate exact c j2 j3 m2 m3 = Ok c'.
Proof.
  intros c j2 j3 m2 m3 Hc H2 H3 Hs NL.
  destruct (calculate_total exact c j2 j3 m2 m3 Hc) as [(c1 & E1 & W1 & S1 & V1)|[E1 L]]; auto.
  - intros. apply exact_ok; auto.
  - exists c1; auto.
  - contradiction.
Qed.

Lemma C32_small :
  forall c j2 j3 m2 m3, calc_wf c -> 0 <= j2 -> 0 <= j3 -> j2 + j3 < csize c ->
    (j2 <= 7 \/ j3 <= 7 \/ (j2 - 7) * (j3 - 7) < 28 \/ m2 = 0 /\ m3 = 0 \/ 0 <= Bq (jlo j2 j3 m2 m3) j2 j3 m2 m3) ->
    exists c', calculate exact c j2 j3 m2 m3 = Ok c'.
Proof.
  intros c j2 j3 m2 m3 Hc H2 H3 Hs Sm.
  destruct (Z_le_gt_dec (Z.abs m2) j2) as [Hm|Hm].
  2:{ destruct (calculate_total exact c j2 j3 m2 m3 Hc) as [(c1 & E1 & _)|[E1 L]]; try lia; [exists c1; auto|].
      exfalso. destruct L as (Lb & k & Hk & _). unfold calculate, calculate_ws in E1. cbv zeta in E1.
      replace ((Z.abs m2 >? j2) || (Z.abs m3 >? j3)) with true in E1 by (symmetry; apply orb_true_iff; lia). discriminate. }
  destruct (Z_le_gt_dec (Z.abs m3) j3) as [Hn|Hn].
  2:{ destruct (calculate_total exact c j2 j3 m2 m3 Hc) as [(c1 & E1 & _)|[E1 L]]; try lia; [exists c1; auto|].
      exfalso. destruct L as (Lb & k & Hk & _). unfold calculate, calculate_ws in E1. cbv zeta in E1.
      replace ((Z.abs m2 >? j2) || (Z.abs m3 >? j3)) with true in E1 by (symmetry; apply orb_true_iff; lia). discriminate. }
  apply C32_returns; auto. intros L. pose proof (late_zero_min _ _ _ _ L Hm Hn).
  destruct L as [Lb _]. destruct Sm as [S|[S|[S|[[-> ->]|S]]]]; try lia.
  unfold Bq in Lb. replace ((0 + 0) * (j2 * (j2 + 1) - j3 * (j3 + 1)) - (0 - 0) * jlo j2 j3 0 0 * (jlo j2 j3 0 0 + 1)) with 0 in Lb by ring. lia.
Qed.

Lemma C32_only_error :
  forall c j2 j3 m2 m3 e, calc_wf c -> 0 <= j2 -> 0 <= j3 -> j2 + j3 < csize c ->
    calculate exact c j2 j3 m2 m3 = Err e -> e = ZeroDivisionError /\ late_zero j2 j3 m2 m3.
Proof.
  intros c j2 j3 m2 m3 e Hc H2 H3 Hs E.
  destruct (calculate_total exact c j2 j3 m2 m3 Hc) as [(c1 & E1 & _)|[E1 L]]; auto.
  - intros. apply exact_ok; auto.
  - congruence.
  - split; auto. congruence.
Qed.

Lemma val_of c' j x y : returned c' j = Ok x -> returned c' j = Ok y -> x = y.
Proof. intros E1 E2. rewrite E1 in E2. now apply Ok_inj in E2. Qed.

(** the defining facts of the family, on the returned array [v] *)
Lemma C32_recurrence :
  forall c j2 j3 m2 m3 c' v, calc_wf c -> Z.abs m2 <= j2 -> Z.abs m3 <= j3 -> j2 + j3 < csize c ->
    calculate exact c j2 j3 m2 m3 = Ok c' -> (forall j, 0 <= j < csize c -> returned c' j = Ok (v j)) ->
    let lo := Z.max (Z.abs (j2 - j3)) (Z.abs (m2 + m3)) in
    let al j := sqrt (IZR ((j ^ 2 - (j2 - j3) ^ 2) * ((j2 + j3 + 1) ^ 2 - j ^ 2) * (j ^ 2 - (m2 + m3) ^ 2))) in
    let be j := IZR ((2 * j + 1) * ((m2 + m3) * (j2 * (j2 + 1) - j3 * (j3 + 1)) - (m2 - m3) * j * (j + 1))) in
    (forall j, lo < j < j2 + j3 -> (IZR j * al (j + 1)%Z * v (j + 1)%Z + be j * v j + IZR (j + 1) * al j * v (j - 1)%Z = 0)%R) /\
    rsum lo (j2 + j3) (fun j => IZR (2 * j + 1) * v j ^ 2)%R = 1%R /\
    (0 < sgn (j2 - j3 + m2 + m3) * v (j2 + j3)%Z)%R /\
    (forall j, 0 <= j < csize c -> j < lo \/ j2 + j3 < j -> v j = 0%R).
Proof.
  intros c j2 j3 m2 m3 c' v Hc Hm Hn Hs E Hv lo al be.
  destruct (C32_symbols c j2 j3 m2 m3 c' Hc ltac:(lia) ltac:(lia) Hs E) as (_ & _ & V).
  assert (Vg : forall j, 0 <= j < csize c -> v j = gg j2 j3 m2 m3 j).
  { intros j Hj. rewrite gg_threej. apply (val_of c' j); auto. }
  assert (Hlo : 0 <= lo) by (unfold lo; lia).
  assert (Al : forall j, al j = Aq j j2 j3 (m2 + m3)).
  { intros j. unfold al, Aq. f_equal. f_equal. unfold A2. ring. }
  split; [|split; [|split]].
  - intros j Hj. rewrite !Vg by lia. rewrite !Al. apply (gg_rec j2 j3 m2 m3 Hm Hn j). unfold jlo. fold lo. lia.
  - rewrite <- (cols_norm j2 j3 m2 m3 Hm Hn). unfold jlo. fold lo. apply rsum_ext. intros j Hj. rewrite Vg by lia. unfold gg. ring.
  - rewrite Vg by lia. apply GG_top_sign; auto.
  - intros j Hj Hr. rewrite Vg by auto. apply GG_out. unfold jlo. fold lo. lia.
Qed.

(** ** C31 *)
Lemma Wigner3j_total w g j1 j2 j3 m1 m2 m3 : (forall a b m n, Z.abs m <= a -> Z.abs n <= b -> a + b <= j1 + j2 + j3 -> ok_widths a b m n w) ->
  Wigner3j w g j1 j2 j3 m1 m2 m3 = Ok (threej j1 j2 j3 m1 m2 m3) \/
  (Wigner3j w g j1 j2 j3 m1 m2 m3 = Err ZeroDivisionError /\ tj_allowed j1 j2 j3 m1 m2 m3 /\
   (j2 <= j1 /\ j3 <= j1 /\ late_zero j2 j3 m2 m3 \/ j3 <= j2 /\ j1 <= j2 /\ late_zero j3 j1 m3 m1 \/ j1 <= j3 /\ j2 <= j3 /\ late_zero j1 j2 m1 m2)).
Proof.
  intros Hw. unfold Wigner3j.
  destruct (Z.eqb_spec (m1 + m2 + m3) 0) as [Hsum|Hsum]; cbn [negb].
  2:{ left. rewrite threej_out; auto. unfold tj_allowed. lia. }
  destruct (Z.gtb_spec (Z.abs m1) j1); cbn [orb]; [left; rewrite threej_out; auto; unfold tj_allowed; lia|].
  destruct (Z.gtb_spec (Z.abs m2) j2); cbn [orb]; [left; rewrite threej_out; auto; unfold tj_allowed; lia|].
  destruct (Z.gtb_spec (Z.abs m3) j3); cbn [orb]; [left; rewrite threej_out; auto; unfold tj_allowed; lia|].
  assert (Core : forall a b c p q r, p + q + r = 0 -> Z.abs p <= a -> Z.abs q <= b -> Z.abs r <= c -> a <= b + c -> b <= a -> c <= a ->
    a + b + c = j1 + j2 + j3 ->
    (do k <- calc_new b c g; do k <- calculate w k b c q r; returned k a) = Ok (threej a b c p q r) \/
    ((do k <- calc_new b c g; do k <- calculate w k b c q r; returned k a) = Err ZeroDivisionError /\ late_zero b c q r)).
  { intros a b c p q r Hs Hp Hq Hr Htri Hba Hca Hall. unfold calc_new. cbv zeta. rewrite np_empty_ok by lia. cbn [bind].
    set (k := mkcalc (b + c + 1) (mkarr (4 * (b + c + 1)) g)).
    assert (Wk : calc_wf k) by (split; cbn; [lia|reflexivity]).
    destruct (calculate_total w k b c q r Wk) as [(k' & E & W' & S' & V')|[E L]].
    - intros. cbn. lia.
    - intros. apply Hw; lia.
    - left. rewrite E. cbn [bind]. rewrite V' by (cbn; lia). do 2 f_equal. lia.
    - right. rewrite E. cbn [bind]. auto. }
  destruct (Z_le_gt_dec j1 (j2 + j3)) as [T1|T1]; [destruct (Z_le_gt_dec j2 (j3 + j1)) as [T2|T2]; [destruct (Z_le_gt_dec j3 (j1 + j2)) as [T3|T3]|]|].
  - assert (Al : tj_allowed j1 j2 j3 m1 m2 m3) by (unfold tj_allowed; lia).
    cbv zeta. destruct (Z.eqb_spec j1 (Z.max (Z.max j1 j2) j3)) as [M|M].
    + destruct (Z.gtb_spec j1 (j2 + j3)); [lia|].
      destruct (Core j1 j2 j3 m1 m2 m3) as [E|[E L]]; try lia; rewrite E; [left; auto|right; split; auto; split; auto; left; split; [lia|split; [lia|exact L]]].
    + destruct (Z.eqb_spec j2 (Z.max (Z.max j1 j2) j3)) as [M'|M'].
      * destruct (Z.gtb_spec j2 (j3 + j1)); [lia|].
        destruct (Core j2 j3 j1 m2 m3 m1) as [E|[E L]]; try lia; rewrite E; [left; f_equal; symmetry; apply threej_cyc|right; split; auto; split; auto; right; left; split; [lia|split; [lia|exact L]]].
      * destruct (Z.gtb_spec j3 (j1 + j2)); [lia|].
        destruct (Core j3 j1 j2 m3 m1 m2) as [E|[E L]]; try lia; rewrite E; [left; f_equal; apply threej_cyc|right; split; auto; split; auto; right; right; split; [lia|split; [lia|exact L]]].
  - left. rewrite threej_out by (unfold tj_allowed; lia). cbv zeta.
    destruct (Z.eqb_spec j1 (Z.max (Z.max j1 j2) j3)); [lia|]. destruct (Z.eqb_spec j2 (Z.max (Z.max j1 j2) j3)); [lia|].
    destruct (Z.gtb_spec j3 (j1 + j2)); [auto|lia].
  - left. rewrite threej_out by (unfold tj_allowed; lia). cbv zeta.
    destruct (Z.eqb_spec j1 (Z.max (Z.max j1 j2) j3)); [lia|]. destruct (Z.eqb_spec j2 (Z.max (Z.max j1 j2) j3)); [|lia].
    destruct (Z.gtb_spec j2 (j3 + j1)); [auto|lia].
  - left. rewrite threej_out by (unfold tj_allowed; lia). cbv zeta.
    destruct (Z.eqb_spec j1 (Z.max (Z.max j1 j2) j3)); [|lia].
    destruct (Z.gtb_spec j1 (j2 + j3)); [auto|lia].
Qed.

Lemma C31_zero :
  forall w g j1 j2 j3 m1 m2 m3,
    m1 + m2 + m3 <> 0 \/ Z.abs m1 > j1 \/ Z.abs m2 > j2 \/ Z.abs m3 > j3 \/ j1 > j2 + j3 \/ j2 > j3 + j1 \/ j3 > j1 + j2 ->
    Wigner3j w g j1 j2 j3 m1 m2 m3 = Ok 0%R.
Proof.
  intros w g j1 j2 j3 m1 m2 m3 H. unfold Wigner3j.
  destruct (Z.eqb_spec (m1 + m2 + m3) 0); cbn [negb]; auto.
  destruct (Z.gtb_spec (Z.abs m1) j1); cbn [orb]; auto.
  destruct (Z.gtb_spec (Z.abs m2) j2); cbn [orb]; auto.
  destruct (Z.gtb_spec (Z.abs m3) j3); cbn [orb]; auto.
  cbv zeta. destruct (Z.eqb_spec j1 (Z.max (Z.max j1 j2) j3)).
  - destruct (Z.gtb_spec j1 (j2 + j3)); [auto|lia].
  - destruct (Z.eqb_spec j2 (Z.max (Z.max j1 j2) j3)).
    + destruct (Z.gtb_spec j2 (j3 + j1)); [auto|lia].
    + destruct (Z.gtb_spec j3 (j1 + j2)); [auto|lia].
Qed.

Lemma C31_value :
  forall g j1 j2 j3 m1 m2 m3,
    Wigner3j exact g j1 j2 j3 m1 m2 m3 = Ok (threej j1 j2 j3 m1 m2 m3) \/
    (Wigner3j exact g j1 j2 j3 m1 m2 m3 = Err ZeroDivisionError /\ tj_allowed j1 j2 j3 m1 m2 m3 /\
     (j2 <= j1 /\ j3 <= j1 /\ late_zero j2 j3 m2 m3 \/ j3 <= j2 /\ j1 <= j2 /\ late_zero j3 j1 m3 m1 \/ j1 <= j3 /\ j2 <= j3 /\ late_zero j1 j2 m1 m2)).
Proof. intros. apply Wigner3j_total. intros. apply exact_ok; auto. Qed.

Lemma C31_slot :
  forall w g j1 j2 j3 m1 m2 m3, tj_allowed j1 j2 j3 m1 m2 m3 -> j2 <= j1 -> j3 <= j1 ->
    Wigner3j w g j1 j2 j3 m1 m2 m3 =
      (do c <- calc_new j2 j3 g; do c <- calculate w c j2 j3 m2 m3; returned c j1) /\
    (j2 < j1 -> j3 < j1 ->
     Wigner3j w g j2 j3 j1 m2 m3 m1 = (do c <- calc_new j2 j3 g; do c <- calculate w c j2 j3 m2 m3; returned c j1) /\
     Wigner3j w g j3 j1 j2 m3 m1 m2 = (do c <- calc_new j2 j3 g; do c <- calculate w c j2 j3 m2 m3; returned c j1)).
Proof.
  intros w g j1 j2 j3 m1 m2 m3 (S & A1 & A2 & A3 & T3 & T2 & T1) H2 H3. unfold Wigner3j. cbv zeta.
  assert (N1 : (Z.abs m1 >? j1) = false) by (destruct (Z.gtb_spec (Z.abs m1) j1); auto; lia).
  assert (N2 : (Z.abs m2 >? j2) = false) by (destruct (Z.gtb_spec (Z.abs m2) j2); auto; lia).
  assert (N3 : (Z.abs m3 >? j3) = false) by (destruct (Z.gtb_spec (Z.abs m3) j3); auto; lia).
  assert (E1 : (m1 + m2 + m3 =? 0) = true) by (apply Z.eqb_eq; lia).
  assert (E2 : (m2 + m3 + m1 =? 0) = true) by (apply Z.eqb_eq; lia).
  assert (E3 : (m3 + m1 + m2 =? 0) = true) by (apply Z.eqb_eq; lia).
  rewrite E1, E2, E3, N1, N2, N3. cbn [negb orb].
  replace (Z.max (Z.max j1 j2) j3) with j1 by lia. rewrite Z.eqb_refl.
  destruct (Z.gtb_spec j1 (j2 + j3)); [lia|]. split; auto. intros L2 L3.
  replace (Z.max (Z.max j2 j3) j1) with j1 by lia. replace (Z.max (Z.max j3 j1) j2) with j1 by lia.
  rewrite Z.eqb_refl. destruct (Z.eqb_spec j2 j1); [lia|]. destruct (Z.eqb_spec j3 j1); [lia|].
  destruct (Z.gtb_spec j1 (j2 + j3)); [lia|]. auto.
Qed.

Lemma C31_small :
  forall g j1 j2 j3 m1 m2 m3, j1 <= 7 \/ j2 <= 7 \/ j3 <= 7 \/ (j1 <= 12 /\ j2 <= 12) \/ (j1 <= 12 /\ j3 <= 12) \/ (j2 <= 12 /\ j3 <= 12) \/ (m1 = 0 /\ m2 = 0 /\ m3 = 0) ->
    Wigner3j exact g j1 j2 j3 m1 m2 m3 = Ok (threej j1 j2 j3 m1 m2 m3).
Proof.
  intros g j1 j2 j3 m1 m2 m3 Sm. destruct (C31_value g j1 j2 j3 m1 m2 m3) as [E|(E & Al & L)]; auto. exfalso.
  assert (Z : m1 = 0 /\ m2 = 0 /\ m3 = 0 -> False).
  { intros (-> & -> & ->). assert (NB : forall a b, ~ late_zero a b 0 0).
    { intros a b [Lb _]. unfold Bq in Lb.
      replace ((0 + 0) * (a * (a + 1) - b * (b + 1)) - (0 - 0) * jlo a b 0 0 * (jlo a b 0 0 + 1)) with 0 in Lb by ring. lia. }
    destruct L as [L|[L|L]]; destruct L as (_ & _ & L); revert L; apply NB. }
  unfold tj_allowed in Al.
  assert (P : forall a b, 8 <= a /\ 8 <= b /\ 28 <= (a - 7) * (b - 7) -> a <= 12 -> b <= 12 -> False).
  { intros a b (A8 & B8 & AB) A12 B12. assert ((a - 7) * (b - 7) <= 5 * 5) by (apply Z.mul_le_mono_nonneg; lia). lia. }
  destruct L as [L|[L|L]]; destruct L as (O1 & O2 & L); apply late_zero_min in L; try lia; pose proof (P _ _ L); lia.
Qed.

Lemma C31_in_bounds :
  forall g j1 j2 j3 m1 m2 m3 e, Wigner3j exact g j1 j2 j3 m1 m2 m3 = Err e -> e = ZeroDivisionError.
Proof.
  intros g j1 j2 j3 m1 m2 m3 e H. destruct (C31_value g j1 j2 j3 m1 m2 m3) as [E|(E & _)]; congruence.
Qed.

(** ** C33 *)
Lemma calculate_det w c c' j2 j3 m2 m3 : csize c = csize c' -> alen (workspace c) = alen (workspace c') ->
  calculate w c j2 j3 m2 m3 = calculate w c' j2 j3 m2 m3.
Proof. intros E1 E2. unfold calculate, calculate_ws. cbv zeta. now rewrite E1, E2. Qed.

Lemma calc_new_size a b g c : calc_new a b g = Ok c -> csize c = a + b + 1 /\ alen (workspace c) = 4 * (a + b + 1).
Proof.
  unfold calc_new. cbv zeta. unfold np_empty. destruct (_ <? 0); cbn [bind]; [discriminate|].
  intros H. apply Ok_inj in H. subst c. auto.
Qed.

Lemma wrv_alen ws v i x ws' : wrv ws v i x = Ok ws' -> alen ws' = alen ws.
Proof.
  unfold wrv, wr. destruct (in_bounds _ _); [|discriminate]. cbv zeta. destruct (in_bounds _ _); [|discriminate].
  intros H. apply Ok_inj in H. now subst ws'.
Qed.
Lemma wrv_slice_alen ws v lo hi e ws' : wrv_slice ws v lo hi e = Ok ws' -> alen ws' = alen ws.
Proof. unfold wrv_slice. cbv zeta. destruct (_ && _); [|discriminate]. intros H. apply Ok_inj in H. now subst ws'. Qed.

Lemma loop_brk_pres {S} (P : S -> Prop) step body : (forall i s r, P s -> body i s = Ok r -> P (snd r)) ->
  forall n i s s', P s -> loop_brk n i step body s = Ok s' -> P s'.
Proof.
  intros Hb. induction n as [|n IH]; intros i s s' Hs; cbn [loop_brk].
  - intros H. apply Ok_inj in H. now subst.
  - intros H. apply bind_ok in H. destruct H as ([stop t] & E & H). apply Hb in E; auto. cbn [snd] in E.
    destruct stop; [apply Ok_inj in H; now subst|]. apply (IH _ _ _ E H).
Qed.
Lemma for_loop_pres {S} (P : S -> Prop) step body : (forall i s r, P s -> body i s = Ok r -> P r) ->
  forall n i s s', P s -> for_loop n i step body s = Ok s' -> P s'.
Proof.
  intros Hb. induction n as [|n IH]; intros i s s' Hs; cbn [for_loop].
  - intros H. apply Ok_inj in H. now subst.
  - intros H. apply bind_ok in H. destruct H as (t & E & H). apply Hb in E; auto. apply (IH _ _ _ E H).
Qed.

Section Alen.
Variables (w : widths) (size j2 j3 m2 m3 L : Z).
Ltac inv1 := match goal with
  | H : bind _ _ = Ok _ |- _ => apply bind_ok in H; destruct H as (? & ? & H)
  | H : (if ?c then _ else _) = Ok _ |- _ => destruct c
  | H : Ok _ = Ok _ |- _ => apply Ok_inj in H
  | H : Err _ = Ok _ |- _ => discriminate H
  | H : (_, _) = (_, _) |- _ => injection H; clear H; intros; subst
  | H : (let '(_, _) := ?p in _) = _ |- _ => destruct p
  | H : wrv _ _ _ _ = Ok _ |- _ => apply wrv_alen in H
  | H : wrv_slice _ _ _ _ _ = Ok _ |- _ => apply wrv_slice_alen in H
  end.
Ltac fin := subst; cbn [fst snd] in *; auto; congruence.

Lemma step_up_alen j ws ws' : step_up w size j2 j3 m2 m3 ws j = Ok ws' -> alen ws' = alen ws.
Proof. unfold step_up. cbv zeta. intros H. repeat inv1. fin. Qed.
Lemma step_down_alen j ws ws' : step_down w size j2 j3 m2 m3 ws j = Ok ws' -> alen ws' = alen ws.
Proof. unfold step_down. cbv zeta. intros H. repeat inv1. fin. Qed.
Lemma rescale_up_alen j ws ws' : rescale_up size j2 j3 m2 m3 ws j = Ok ws' -> alen ws' = alen ws.
Proof. unfold rescale_up. cbv zeta. intros H. repeat inv1; fin. Qed.
Lemma rescale_down_alen j ws ws' : rescale_down size j2 j3 ws j = Ok ws' -> alen ws' = alen ws.
Proof. unfold rescale_down. cbv zeta. intros H. repeat inv1; fin. Qed.
Ltac inv2 := match goal with
  | H : step_up _ _ _ _ _ _ _ _ = Ok _ |- _ => apply step_up_alen in H
  | H : step_down _ _ _ _ _ _ _ _ = Ok _ |- _ => apply step_down_alen in H
  | H : rescale_up _ _ _ _ _ _ _ = Ok _ |- _ => apply rescale_up_alen in H
  | H : rescale_down _ _ _ _ _ = Ok _ |- _ => apply rescale_down_alen in H
  | _ => inv1 end.

Lemma forward_body_alen j s r : alen (fst s) = L -> forward_body w size j2 j3 m2 m3 j s = Ok r -> alen (fst (snd r)) = L.
Proof. destruct s as [ws jm]. unfold forward_body. cbv zeta. intros H0 H. repeat inv2; fin. Qed.
Lemma reverse_body_alen j s r : alen (fst s) = L -> reverse_body w size j2 j3 m2 m3 j s = Ok r -> alen (fst (snd r)) = L.
Proof. destruct s as [ws jm]. unfold reverse_body. cbv zeta. intros H0 H. repeat inv2; fin. Qed.
Lemma middle_body_alen j s r : alen (fst s) = L -> middle_body w size j2 j3 m2 m3 j s = Ok r -> alen (fst (snd r)) = L.
Proof. destruct s as [ws jm]. unfold middle_body. cbv zeta. intros H0 H. repeat inv2; fin. Qed.
Ltac loops := match goal with
  | H : for_range_brk _ _ (forward_body _ _ _ _ _ _) _ = Ok _ |- _ =>
      unfold for_range_brk in H; apply (loop_brk_pres (fun s => alen (fst s) = L)) in H; [|apply forward_body_alen|cbn [fst]; congruence]; cbn [fst] in H
  | H : for_down_brk _ _ (reverse_body _ _ _ _ _ _) _ = Ok _ |- _ =>
      unfold for_down_brk in H; apply (loop_brk_pres (fun s => alen (fst s) = L)) in H; [|apply reverse_body_alen|cbn [fst]; congruence]; cbn [fst] in H
  | H : for_range_brk _ _ (middle_body _ _ _ _ _ _) _ = Ok _ |- _ =>
      unfold for_range_brk in H; apply (loop_brk_pres (fun s => alen (fst s) = L)) in H; [|apply middle_body_alen|cbn [fst]; congruence]; cbn [fst] in H
  | H : for_range _ _ _ _ = Ok _ |- _ =>
      unfold for_range in H; apply (for_loop_pres (fun s => alen s = L)) in H; [|intros; repeat inv2; fin|cbn [fst] in *; congruence]
  | H : for_down _ _ _ _ = Ok _ |- _ =>
      unfold for_down in H; apply (for_loop_pres (fun s => alen s = L)) in H; [|intros; repeat inv2; fin|cbn [fst] in *; congruence]
  end.
Lemma forward_alen ws r : alen ws = L -> forward w size j2 j3 m2 m3 ws = Ok r -> alen (fst (fst r)) = L.
Proof. unfold forward. cbv zeta. intros H0 H. repeat first [loops|inv2]; fin. Qed.
Lemma reverse_alen ws j r : alen ws = L -> reverse w size j2 j3 m2 m3 ws j = Ok r -> alen (fst (fst r)) = L.
Proof. unfold reverse. cbv zeta. intros H0 H. repeat first [loops|inv2]; fin. Qed.
Lemma meet_alen ws j j' r : alen ws = L -> meet w size j2 j3 m2 m3 ws j j' = Ok r -> alen r = L.
Proof. unfold meet. cbv zeta. intros H0 H. repeat first [loops|inv2]; fin. Qed.
Lemma up_only_alen ws j j' r : alen ws = L -> up_only w size j2 j3 m2 m3 ws j j' = Ok r -> alen r = L.
Proof. unfold up_only. cbv zeta. intros H0 H. repeat first [loops|inv2]; fin. Qed.
Lemma down_only_alen ws j r : alen ws = L -> down_only w size j2 j3 m2 m3 ws j = Ok r -> alen r = L.
Proof. unfold down_only. cbv zeta. intros H0 H. repeat first [loops|inv2]; fin. Qed.
Lemma finish_alen ws r : alen ws = L -> finish size j2 j3 m2 m3 ws = Ok r -> alen r = L.
Proof. unfold finish, normalize, determine_signs. cbv zeta. intros H0 H. repeat inv2; fin. Qed.
Lemma calculate_ws_alen ws r : alen ws = L -> calculate_ws w size j2 j3 m2 m3 ws = Ok r -> alen r = L.
Proof.
  unfold calculate_ws. cbv zeta. intros H0 H.
  assert (alen (mkarr (alen ws) (fun _ => 0%R)) = L) by auto. remember (mkarr (alen ws) (fun _ => 0%R)) as ws0.
  repeat match goal with
  | H : forward _ _ _ _ _ _ _ = Ok _ |- _ => apply forward_alen in H; [|cbn [fst] in *; congruence]; cbn [fst] in H
  | H : reverse _ _ _ _ _ _ _ _ = Ok _ |- _ => apply reverse_alen in H; [|cbn [fst] in *; congruence]; cbn [fst] in H
  | H : meet _ _ _ _ _ _ _ _ _ = Ok _ |- _ => apply meet_alen in H; [|cbn [fst] in *; congruence]
  | H : up_only _ _ _ _ _ _ _ _ _ = Ok _ |- _ => apply up_only_alen in H; [|cbn [fst] in *; congruence]
  | H : down_only _ _ _ _ _ _ _ _ = Ok _ |- _ => apply down_only_alen in H; [|cbn [fst] in *; congruence]
  | H : finish _ _ _ _ _ _ = Ok _ |- _ => apply finish_alen in H; [|cbn [fst] in *; congruence]
  | _ => inv1 end; fin.
Qed.
End Alen.

Lemma history_sizes w a1 b1 a2 b2 c1 c2 : history w a1 b1 a2 b2 c1 c2 ->
  (csize c1 = a1 + b1 + 1 /\ alen (workspace c1) = 4 * (a1 + b1 + 1)) /\ (csize c2 = a2 + b2 + 1 /\ alen (workspace c2) = 4 * (a2 + b2 + 1)).
Proof.
  induction 1 as [? ? ? ? H1 H2|c1 c2 c j2 j3 m2 m3 H IH E|c1 c2 c j2 j3 m2 m3 H IH E|c1 c2 e j2 j3 m2 m3 left H IH E|c1 c2 e j2 j3 m2 m3 left H IH E].
  - split; eapply calc_new_size; eauto.
  - unfold calculate in E. apply bind_ok in E. destruct E as (ws & E & K). apply Ok_inj in K. subst c. cbn [csize workspace].
    apply (calculate_ws_alen _ _ _ _ _ _ (4 * (a1 + b1 + 1))) in E; tauto.
  - unfold calculate in E. apply bind_ok in E. destruct E as (ws & E & K). apply Ok_inj in K. subst c. cbn [csize workspace].
    apply (calculate_ws_alen _ _ _ _ _ _ (4 * (a2 + b2 + 1))) in E; tauto.
  - auto.
  - auto.
Qed.

Lemma C33_history :
  forall w a1 b1 a2 b2 c1 c2 garbage f1 f2 j2 j3 m2 m3, history w a1 b1 a2 b2 c1 c2 ->
    calc_new a1 b1 garbage = Ok f1 -> calc_new a2 b2 garbage = Ok f2 ->
    calculate w c1 j2 j3 m2 m3 = calculate w f1 j2 j3 m2 m3 /\ calculate w c2 j2 j3 m2 m3 = calculate w f2 j2 j3 m2 m3.
Proof.
  intros w a1 b1 a2 b2 c1 c2 g f1 f2 j2 j3 m2 m3 H E1 E2. apply history_sizes in H. destruct H as [[S1 L1] [S2 L2]].
  apply calc_new_size in E1, E2. destruct E1 as [T1 K1], E2 as [T2 K2].
  split; apply calculate_det; congruence.
Qed.

Lemma C33_workspace_size :
  forall c d j2 j3 m2 m3 c' d', calc_wf c -> calc_wf d -> 0 <= j2 -> 0 <= j3 -> j2 + j3 < csize c -> j2 + j3 < csize d ->
    calculate exact c j2 j3 m2 m3 = Ok c' -> calculate exact d j2 j3 m2 m3 = Ok d' ->
    forall j, 0 <= j <= j2 + j3 -> returned c' j = returned d' j.
Proof.
  intros c d j2 j3 m2 m3 c' d' Wc Wd H2 H3 Sc Sd Ec Ed j Hj.
  apply C32_symbols in Ec, Ed; auto. destruct Ec as (_ & _ & Vc). destruct Ed as (_ & _ & Vd).
  rewrite Vc, Vd by lia. auto.
Qed.

(** ** C34 *)
Lemma Wigner3j_val g j1 j2 j3 m1 m2 m3 x : Wigner3j exact g j1 j2 j3 m1 m2 m3 = Ok x -> x = threej j1 j2 j3 m1 m2 m3.
Proof. intros H. destruct (C31_value g j1 j2 j3 m1 m2 m3) as [E|(E & _)]; rewrite H in E; [now apply Ok_inj in E|discriminate]. Qed.

Lemma C34_symmetries :
  forall g g' j1 j2 j3 m1 m2 m3 x, Wigner3j exact g j1 j2 j3 m1 m2 m3 = Ok x ->
    (forall y, Wigner3j exact g' j2 j3 j1 m2 m3 m1 = Ok y -> y = x) /\
    (forall y, Wigner3j exact g' j3 j1 j2 m3 m1 m2 = Ok y -> y = x) /\
    (forall y, Wigner3j exact g' j2 j1 j3 m2 m1 m3 = Ok y -> y = (sgn (j1 + j2 + j3) * x)%R) /\
    (forall y, Wigner3j exact g' j1 j3 j2 m1 m3 m2 = Ok y -> y = (sgn (j1 + j2 + j3) * x)%R) /\
    (forall y, Wigner3j exact g' j3 j2 j1 m3 m2 m1 = Ok y -> y = (sgn (j1 + j2 + j3) * x)%R) /\
    (forall y, Wigner3j exact g' j1 j2 j3 (- m1) (- m2) (- m3) = Ok y -> y = (sgn (j1 + j2 + j3) * x)%R).
Proof.
  intros g g' j1 j2 j3 m1 m2 m3 x H. apply Wigner3j_val in H. subst x.
  repeat split; intros y Hy; apply Wigner3j_val in Hy; subst y.
  - symmetry. apply threej_cyc.
  - apply threej_cyc.
  - apply threej_swap12.
  - rewrite (threej_cyc j1 j3 j2). rewrite threej_swap12. rewrite <- threej_cyc. f_equal. f_equal. lia.
  - rewrite (threej_cyc j3 j2 j1). apply threej_swap12.
  - apply threej_neg.
Qed.

Lemma C34_returns_together :
  forall g g' w j1 j2 j3 m1 m2 m3, j1 > j2 -> j1 > j3 ->
    Wigner3j w g j1 j2 j3 m1 m2 m3 = Wigner3j w g' j2 j3 j1 m2 m3 m1 /\
    Wigner3j w g j1 j2 j3 m1 m2 m3 = Wigner3j w g' j3 j1 j2 m3 m1 m2.
Proof.
  assert (Gar : forall g g' w a b q r k, (do c <- calc_new a b g; do c <- calculate w c a b q r; returned c k)
    = (do c <- calc_new a b g'; do c <- calculate w c a b q r; returned c k)).
  { intros. unfold calc_new. cbv zeta. unfold np_empty. destruct (_ <? 0); cbn [bind]; auto. }
  intros g g' w j1 j2 j3 m1 m2 m3 H2 H3.
  assert (E1 : (m2 + m3 + m1 =? 0) = (m1 + m2 + m3 =? 0)) by (f_equal; lia).
  assert (E2 : (m3 + m1 + m2 =? 0) = (m1 + m2 + m3 =? 0)) by (f_equal; lia).
  split; unfold Wigner3j; cbv zeta; rewrite ?E1, ?E2;
    (destruct (m1 + m2 + m3 =? 0); cbn [negb]; auto);
    destruct (Z.abs m1 >? j1), (Z.abs m2 >? j2), (Z.abs m3 >? j3); cbn [orb]; auto.
  - replace (Z.max (Z.max j1 j2) j3) with j1 by lia. replace (Z.max (Z.max j2 j3) j1) with j1 by lia.
    rewrite Z.eqb_refl. destruct (Z.eqb_spec j2 j1); [lia|]. destruct (Z.eqb_spec j3 j1); [lia|].
    destruct (j1 >? j2 + j3); auto.
  - replace (Z.max (Z.max j1 j2) j3) with j1 by lia. replace (Z.max (Z.max j3 j1) j2) with j1 by lia.
    rewrite Z.eqb_refl. destruct (Z.eqb_spec j2 j1); [lia|]. destruct (Z.eqb_spec j3 j1); [lia|].
    destruct (j1 >? j2 + j3); auto.
Qed.

Lemma C34_clebsch_gordan :
  forall g j1 m1 j2 m2 j3 m3 x, 0 <= j3 -> Wigner3j exact g j1 j2 j3 m1 m2 (- m3) = Ok x ->
    clebsch_gordan exact g j1 m1 j2 m2 j3 m3 = Ok (sgn (j1 - j2 + m3) * sqrt (IZR (2 * j3 + 1)) * x)%R /\
    (sgn (j1 - j2 + m3) * sqrt (IZR (2 * j3 + 1)) * x)%R = cg j1 m1 j2 m2 j3 m3.
Proof.
  intros g j1 m1 j2 m2 j3 m3 x H3 E. split.
  - unfold clebsch_gordan. rewrite E. cbn [bind]. destruct (Z.ltb_spec (2 * j3 + 1) 0); [lia|]. now rewrite pm1_sgn.
  - apply Wigner3j_val in E. subst x. reflexivity.
Qed.

Lemma C34_clebsch_gordan_negative_j3 :
  forall w g j1 m1 j2 m2 j3 m3, j3 < 0 ->
    Wigner3j w g j1 j2 j3 m1 m2 (- m3) = Ok 0%R /\ clebsch_gordan w g j1 m1 j2 m2 j3 m3 = Err ValueError.
Proof.
  intros w g j1 m1 j2 m2 j3 m3 H. assert (E : Wigner3j w g j1 j2 j3 m1 m2 (- m3) = Ok 0%R) by (apply C31_zero; lia).
  split; auto. unfold clebsch_gordan. rewrite E. cbn [bind]. destruct (Z.ltb_spec (2 * j3 + 1) 0); [auto|lia].
Qed.

(** ** C35 *)
Lemma wrap_id bits z : 0 < bits -> - 2 ^ (bits - 1) <= z < 2 ^ (bits - 1) -> wrap bits z = z.
Proof.
  intros Hb Hz. unfold wrap. assert (2 ^ bits = 2 * 2 ^ (bits - 1)).
  { replace bits with (Z.succ (bits - 1)) at 1 by lia. apply Z.pow_succ_r. lia. }
  rewrite Z.mod_small; lia.
Qed.

Lemma B_bound j j2 j3 m2 m3 J : 0 <= j <= J -> 0 <= j2 -> 0 <= j3 -> j2 + j3 <= J -> Z.abs m2 <= j2 -> Z.abs m3 <= j3 ->
  Z.abs ((2 * j + 1) * ((m2 + m3) * (j2 * (j2 + 1) - j3 * (j3 + 1)) - (m2 - m3) * j * (j + 1))) <= (2 * J + 1) * (2 * (J * (J * (J + 1)))).
Proof.
  intros Hj H2 H3 HJ Hm Hn.
  assert (mulb : forall x y p q, Z.abs x <= p -> Z.abs y <= q -> Z.abs (x * y) <= p * q).
  { intros. rewrite Z.abs_mul. apply Z.mul_le_mono_nonneg; lia. }
  assert (B1 : Z.abs (j2 * (j2 + 1) - j3 * (j3 + 1)) <= J * (J + 1)).
  { replace (j2 * (j2 + 1) - j3 * (j3 + 1)) with ((j2 - j3) * (j2 + j3 + 1)) by ring. apply mulb; lia. }
  assert (B2 : Z.abs ((m2 + m3) * (j2 * (j2 + 1) - j3 * (j3 + 1))) <= J * (J * (J + 1))) by (apply mulb; lia).
  assert (B3 : Z.abs ((m2 - m3) * (j * (j + 1))) <= J * (J * (J + 1))) by (apply mulb; [lia|apply mulb; lia]).
  apply mulb; [lia|]. replace ((m2 - m3) * j * (j + 1)) with ((m2 - m3) * (j * (j + 1))) by ring. lia.
Qed.

Lemma C35_B :
  forall j j2 j3 m2 m3, 0 <= j <= j2 + j3 -> Z.abs m2 <= j2 -> Z.abs m3 <= j3 -> j2 + j3 <= 151 ->
    B fixed j j2 j3 m2 m3 = (2 * j + 1) * ((m2 + m3) * (j2 * (j2 + 1) - j3 * (j3 + 1)) - (m2 - m3) * j * (j + 1)).
Proof.
  intros j j2 j3 m2 m3 Hj Hm Hn HJ. unfold B. cbn [wB fixed]. apply wrap_id; [lia|].
  pose proof (B_bound j j2 j3 m2 m3 151 ltac:(lia) ltac:(lia) ltac:(lia) HJ Hm Hn) as Bd.
  change (2 ^ (32 - 1)) with 2147483648. lia.
Qed.

Lemma A2_bound j j2 j3 M : 0 <= j <= j2 + j3 + 1 -> 0 <= j2 -> 0 <= j3 -> Z.abs M <= j2 + j3 -> j2 + j3 <= 1447 ->
  Z.abs ((j ^ 2 - (j2 - j3) ^ 2) * ((j2 + j3 + 1) ^ 2 - j ^ 2) * (j ^ 2 - M ^ 2)) <= 1448 ^ 2 * 1448 ^ 2 * 1448 ^ 2.
Proof.
  intros Hj H2 H3 HM HJ.
  assert (mulb : forall x y p q, Z.abs x <= p -> Z.abs y <= q -> Z.abs (x * y) <= p * q).
  { intros. rewrite Z.abs_mul. apply Z.mul_le_mono_nonneg; lia. }
  assert (Sq : forall x, Z.abs x <= 1448 -> 0 <= x ^ 2 <= 1448 ^ 2).
  { intros x Hx. split; [apply Z.pow_even_nonneg; exists 1; lia|]. 
    replace (x ^ 2) with (Z.abs x ^ 2) by (rewrite <- Z.abs_pow; apply Z.abs_eq; apply Z.pow_even_nonneg; exists 1; lia).
    apply Z.pow_le_mono_l. lia. }
  pose proof (Sq j ltac:(lia)). pose proof (Sq (j2 - j3) ltac:(lia)). pose proof (Sq (j2 + j3 + 1) ltac:(lia)). pose proof (Sq M ltac:(lia)).
  apply mulb; [apply mulb|]; lia.
Qed.

Lemma C35_A :
  forall j j2 j3 m1, 0 <= j <= j2 + j3 + 1 -> 0 <= j2 -> 0 <= j3 -> Z.abs m1 <= j2 + j3 -> j2 + j3 <= 1447 ->
    A fixed j j2 j3 m1 = A exact j j2 j3 m1.
Proof.
  intros j j2 j3 m1 Hj H2 H3 HM HJ. unfold A. cbn [wA fixed exact]. rewrite wrap_id; auto; [lia|].
  pose proof (A2_bound j j2 j3 m1 Hj H2 H3 HM HJ) as Bd. apply Z.abs_le in Bd.
  assert (1448 ^ 2 * 1448 ^ 2 * 1448 ^ 2 < 2 ^ (64 - 1)) by reflexivity. lia.
Qed.

Lemma fixed_ok a b m n : Z.abs m <= a -> Z.abs n <= b -> a + b <= 151 -> ok_widths a b m n fixed.
Proof.
  intros Hm Hn HJ. split.
  - intros j Hj. rewrite C35_A by (unfold jlo in Hj; lia). apply (exact_ok a b m n); auto.
  - intros j Hj. unfold Yf, yy. rewrite C35_B by (unfold jlo in Hj; lia). reflexivity.
Qed.

Lemma C35_calculator :
  forall c j2 j3 m2 m3, calc_wf c -> 0 <= j2 -> 0 <= j3 -> j2 + j3 < csize c -> j2 + j3 <= 151 ->
    (exists c', calculate fixed c j2 j3 m2 m3 = Ok c' /\ calc_wf c' /\ csize c' = csize c /\
       forall j, 0 <= j < csize c -> returned c' j = Ok (threej j j2 j3 (- m2 - m3) m2 m3)) \/
    (calculate fixed c j2 j3 m2 m3 = Err ZeroDivisionError /\ late_zero j2 j3 m2 m3).
Proof. intros c j2 j3 m2 m3 Hc H2 H3 Hs HJ. apply calculate_total; auto. intros. apply fixed_ok; auto. Qed.

Lemma C35_B_refuted :
  exists j j2 j3 m2 m3, Z.abs m2 <= j2 /\ Z.abs m3 <= j3 /\ Z.max (Z.abs (j2 - j3)) (Z.abs (m2 + m3)) <= j <= j2 + j3 /\
    B fixed j j2 j3 m2 m3 <> B exact j j2 j3 m2 m3.
Proof. exists 200, 100, 100, 100, (-100). repeat split; try lia. vm_compute. discriminate. Qed.

Lemma C35_A_refuted :
  exists j j2 j3 m1, Z.abs (j2 - j3) <= j <= j2 + j3 /\ Z.abs m1 <= j /\
    A exact j j2 j3 m1 <> Err ValueError /\ A fixed j j2 j3 m1 = Err ValueError.
Proof.
  exists 1547, 1000, 1000, 0. split; [lia|]. split; [lia|]. unfold A. cbn [wA fixed exact].
  split.
  - destruct (Z.ltb_spec ((1547 ^ 2 - (1000 - 1000) ^ 2) * ((1000 + 1000 + 1) ^ 2 - 1547 ^ 2) * (1547 ^ 2 - 0 ^ 2)) 0); [lia|discriminate].
  - destruct (Z.ltb_spec (wrap 64 ((1547 ^ 2 - (1000 - 1000) ^ 2) * ((1000 + 1000 + 1) ^ 2 - 1547 ^ 2) * (1547 ^ 2 - 0 ^ 2))) 0) as [|H]; auto.
    exfalso. revert H. vm_compute. intros H. apply H. reflexivity.
Qed.

(** ** C43 *)
Lemma C43_columns :
  forall c c' j2 j3 m2 m3 n2 n3 d d' v u, calc_wf c -> calc_wf c' -> j2 + j3 < csize c -> j2 + j3 < csize c' ->
    Z.abs m2 <= j2 -> Z.abs m3 <= j3 -> Z.abs n2 <= j2 -> Z.abs n3 <= j3 -> m2 + m3 = n2 + n3 ->
    calculate exact c j2 j3 m2 m3 = Ok d -> calculate exact c' j2 j3 n2 n3 = Ok d' ->
    (forall j, 0 <= j <= j2 + j3 -> returned d j = Ok (v j)) -> (forall j, 0 <= j <= j2 + j3 -> returned d' j = Ok (u j)) ->
    rsum 0 (j2 + j3) (fun j => IZR (2 * j + 1) * (v j * u j))%R = (if m2 =? n2 then 1 else 0)%R.
Proof.
  intros c c' j2 j3 m2 m3 n2 n3 d d' v u Wc Wc' Sc Sc' Hm2 Hm3 Hn2 Hn3 HM E E' Hv Hu.
  destruct (C32_symbols c j2 j3 m2 m3 d Wc ltac:(lia) ltac:(lia) Sc E) as (_ & _ & V).
  destruct (C32_symbols c' j2 j3 n2 n3 d' Wc' ltac:(lia) ltac:(lia) Sc' E') as (_ & _ & U).
  assert (Vg : forall j, 0 <= j <= j2 + j3 -> v j = GG j2 j3 m2 m3 j).
  { intros j Hj. change (GG j2 j3 m2 m3 j) with (gg j2 j3 m2 m3 j). rewrite gg_threej. apply (val_of d j); auto. apply V; lia. }
  assert (Ug : forall j, 0 <= j <= j2 + j3 -> u j = GG j2 j3 n2 n3 j).
  { intros j Hj. change (GG j2 j3 n2 n3 j) with (gg j2 j3 n2 n3 j). rewrite gg_threej. apply (val_of d' j); auto. apply U; lia. }
  assert (Hlo : 0 <= jlo j2 j3 m2 m3 <= j2 + j3) by (unfold jlo; lia).
  assert (Sp : rsum 0 (j2 + j3) (fun j => IZR (2 * j + 1) * (v j * u j))%R
             = rsum (jlo j2 j3 m2 m3) (j2 + j3) (fun j => IZR (2 * j + 1) * (GG j2 j3 m2 m3 j * GG j2 j3 n2 n3 j))%R).
  { destruct (Z.eq_dec (jlo j2 j3 m2 m3) 0) as [J0|J0].
    - rewrite J0. apply rsum_ext. intros j Hj. rewrite Vg, Ug by lia. auto.
    - rewrite (rsum_split 0 (j2 + j3) (jlo j2 j3 m2 m3 - 1)) by lia. rewrite (rsum_zero 0).
      + replace (jlo j2 j3 m2 m3 - 1 + 1) with (jlo j2 j3 m2 m3) by lia. rewrite Rplus_0_l.
        apply rsum_ext. intros j Hj. rewrite Vg, Ug by lia. auto.
      + intros j Hj. rewrite Vg by lia. rewrite GG_out by lia. ring. }
  rewrite Sp. destruct (Z.eqb_spec m2 n2) as [->|Ne].
  - replace n3 with m3 by lia. apply cols_norm; auto.
  - apply cols_orth; auto.
Qed.

Lemma C43_rows :
  forall g j1 j2 j3 j3' m3 x y, 0 <= j1 -> 0 <= j2 -> Z.abs (j1 - j2) <= j3 <= j1 + j2 -> Z.abs m3 <= j3 ->
    (forall m1, - j1 <= m1 <= j1 -> Wigner3j exact g j1 j2 j3 m1 (- m3 - m1) m3 = Ok (x m1)) ->
    (forall m1, - j1 <= m1 <= j1 -> Wigner3j exact g j1 j2 j3' m1 (- m3 - m1) m3 = Ok (y m1)) ->
    (IZR (2 * j3 + 1) * rsum (- j1) j1 (fun m1 => x m1 * y m1) = if (j3 =? j3')%Z then 1 else 0)%R.
Proof.
  intros g j1 j2 j3 j3' m3 x y H1 H2 H3 Hm Hx Hy.
  rewrite (rsum_ext _ _ _ (fun m => threej j1 j2 j3 m (- m3 - m) m3 * threej j1 j2 j3' m (- m3 - m) m3)%R).
  2:{ intros i Hi. rewrite (Wigner3j_val _ _ _ _ _ _ _ _ (Hx i Hi)), (Wigner3j_val _ _ _ _ _ _ _ _ (Hy i Hi)). auto. }
  destruct (Z.eqb_spec j3 j3') as [<-|Ne].
  - rewrite <- (rows_norm j1 j2 j3 m3) by auto. f_equal. apply rsum_ext. intros i Hi. unfold GG.
    replace (- i - (- m3 - i)) with m3 by lia. auto.
  - rewrite rows_orth by auto. ring.
Qed.
