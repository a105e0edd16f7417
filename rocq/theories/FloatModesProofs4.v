(** Rounding errors of the factors of the derivatives and of complex multiplication and division. *)
Require Import ZArith Lia List Reals Lra Bool Permutation.
From Flocq Require Import Core.
From Coquelicot Require Import Complex.
From Verif Require Import Base BaseProofs CBase CSum RSum Fact IndexModel IndexProofs PowersModel DRep WignerModel ModesModel ModesSpec ModesProofs ModesProofs2
  FloatIndexModel FloatPowersModel FloatPowersSpec FloatPowersProofs FloatPowersProps FloatConvModel FloatConvSpec FloatConvProofs FloatConvProps
  FloatWignerProofs FloatModesModel FloatModesSpec FloatModesProofs FloatModesProofs2 FloatModesProofs3.
Import ListNotations.
Set Bullet Behavior "Strict Subproofs".
Open Scope R_scope.

(** ** Factors *)
Lemma RN_int_rel n : (0 < n)%Z -> Rabs (RN64 (IZR n) - IZR n) <= 1002 / 1000 * u64 * IZR n.
Proof.
  intros Hn. pose proof u64_pos. assert (1 <= IZR n) by (apply (IZR_le 1); lia).
  replace (1002 / 1000) with (0 + 1002 / 1000) by ring. apply RN_chain; try lra.
  replace (IZR n - IZR n) with 0 by ring. rewrite Rabs_R0. lra.
Qed.
Lemma int_factor n : factor_ok (1002 / 1000) (RN64 (IZR n)) (IZR n).
Proof.
  destruct (Z.lt_total n 0) as [H|[->|H]].
  - rewrite <- (Z.opp_involutive n), opp_IZR, RN64_opp. apply factor_opp. right.
    exists (RN64 (IZR (- n))), (IZR (- n)). assert (1 <= IZR (- n)) by (apply (IZR_le 1); lia). split; [lra|]. split; [apply RN_int_rel; lia|auto].
  - left. rewrite RN64_zero. auto.
  - right. exists (RN64 (IZR n)), (IZR n). assert (1 <= IZR n) by (apply (IZR_le 1); lia). split; [lra|]. split; [apply RN_int_rel; lia|auto].
Qed.
Lemma sqrt_factor a b : (0 <= a * b)%Z -> factor_ok (201 / 100) (sqrt_product64 a b) (sqrt (IZR (a * b))).
Proof.
  intros Hp. unfold sqrt_product64. pose proof u64_pos. destruct (Z.eq_dec (a * b) 0) as [E|E].
  - left. rewrite E, RN64_zero, sqrt_0, RN64_zero. auto.
  - right. eexists _, _. split; [|split; [|left; split; reflexivity]].
    + assert (1 <= IZR (a * b)) by (apply (IZR_le 1); lia).
      assert (1 <= sqrt (IZR (a * b))) by (rewrite <- sqrt_1; apply sqrt_le_1_alt; lra). lra.
    + assert (1 <= IZR (a * b)) by (apply (IZR_le 1); lia).
      eapply Rle_trans; [apply sqrt_chain; [|shelve|apply RN_int_rel; lia]|]; auto.
      * assert (0 <= sqrt (IZR (a * b))) by apply sqrt_pos. repeat apply Rmult_le_compat_r; lra.
      Unshelve. lra.
Qed.
Lemma factor_cclose e f64 f x : 0 <= e <= 10 -> factor_ok e f64 f -> cclose (e + 101 / 100) (cscale64 f64 x) (RtoC f * x)%C.
Proof.
  intros He H. split; unfold cscale64; cbn [Re Im fst snd].
  - replace (Re (RtoC f * x)%C) with (f * Re x) by (unfold Re; cbn; ring). apply factor_close; auto.
  - replace (Im (RtoC f * x)%C) with (f * Im x) by (unfold Im; cbn; ring). apply factor_close; auto.
Qed.
Lemma cclose_weaken n n' x y : n <= n' -> cclose n x y -> cclose n' x y.
Proof. intros Hn (H1 & H2). split; apply close_weaken with n; auto. Qed.
Lemma cclose_opp n x y : cclose n x y -> cclose n (- x)%C (- y)%C.
Proof. intros (H1 & H2). split; cbn [Re Im fst snd Copp]; apply close_opp; auto. Qed.

(** ** Multiplication *)
Lemma dot64_zero x y t : (forall k, x k = 0) -> dot64 x y t = 0.
Proof.
  intros H. induction t; cbn [dot64]; rewrite ?IHt1, ?IHt2, ?IHt, ?H, ?Rmult_0_l, ?Rplus_0_r; apply RN64_zero.
Qed.
Lemma cmul64_zero t c : cmul64 t (RtoC 0) c = RtoC 0.
Proof.
  unfold cmul64, cdot64. rewrite !dot64_zero; [reflexivity| |]; intros k; unfold two; cbn [Re Im fst snd RtoC]; destruct (k <? 1)%Z; try reflexivity. apply Ropp_0.
Qed.
Lemma cmul64_err t a b : adds_all 2 2 (fst t) -> adds_all 2 2 (snd t) ->
  Cmod (cmul64 t a b - a * b)%C <= 3 * u64 * (Cmod a * Cmod b) + 4 * tiny64.
Proof.
  intros H1 H2. pose proof (cdot64_err 1 2 (fun _ => a) (fun _ => b) t ltac:(lia) H1 H2) as H. cbv beta in H.
  change (1 - 1)%Z with 0%Z in H. rewrite csum_one, rsum_one in H. unfold cmul64.
  eapply Rle_trans; [exact H|]. rewrite tiny_eta. pose proof u64_pos as U. pose proof eta_pos. pose proof (Cmod_ge_0 a). pose proof (Cmod_ge_0 b).
  assert (P : 0 <= Cmod a * Cmod b) by (apply Rmult_le_pos; auto). set (p := Cmod a * Cmod b) in *. clearbody p.
  assert (G : g 2 <= 201 / 100 * u64). { unfold g. simpl. unfold u64. lra. }
  assert (G0 : 0 <= g 2) by apply g_pos. assert (Gs : g 2 <= 1 / 100) by (unfold u64 in G; lra).
  assert (g 2 * p <= 201 / 100 * u64 * p) by (apply Rmult_le_compat_r; auto).
  assert (g 2 * eta <= 1 / 100 * eta) by (apply Rmult_le_compat_r; lra). assert (0 <= u64 * p) by (apply Rmult_le_pos; lra). lra.
Qed.

(** ** Division *)
Lemma pow2_bpow n : 2 ^ n = bpow radix2 (Z.of_nat n).
Proof. rewrite bpow_powerRZ. simpl (IZR radix2). rewrite <- pow_powerRZ. reflexivity. Qed.
Lemma eta_900 : eta <= / 1000 * u64 * / 2 ^ 901 /\ eta * 2 ^ 902 <= / 1000 * u64.
Proof.
  assert (K : forall n, / 2 ^ n = bpow radix2 (- Z.of_nat n)) by (intros n; rewrite pow2_bpow, bpow_opp; reflexivity).
  assert (U : u64 = bpow radix2 (-53)) by (unfold u64; simpl; lra).
  assert (T : bpow radix2 (-10) <= / 1000) by (simpl; lra).
  rewrite K, pow2_bpow, U. unfold eta. rewrite <- bpow_plus. split.
  - eapply Rle_trans; [|apply Rmult_le_compat_r; [apply bpow_ge_0|apply Rmult_le_compat_r; [apply bpow_ge_0|exact T]]].
    rewrite <- !bpow_plus. apply bpow_le. lia.
  - eapply Rle_trans; [|apply Rmult_le_compat_r; [apply bpow_ge_0|exact T]]. rewrite <- !bpow_plus. apply bpow_le. lia.
Qed.

Lemma muladd64_err f x y r r0 : Rabs r0 <= 1 -> Rabs (r - r0) <= u64 + eta ->
  Rabs (muladd64 f y r x - (x + y * r0)) <= 302 / 100 * u64 * (Rabs x + Rabs y) + 3 * eta.
Proof.
  intros H0 Hr. pose proof u64_pos as U. pose proof eta_pos as E. pose proof eta_small as Es.
  assert (Us : u64 <= / 10 ^ 15) by (unfold u64; lra).
  assert (Es' : eta <= / 1000 * u64) by lra.
  pose proof (Rabs_pos x) as X. pose proof (Rabs_pos y) as Y. set (X' := Rabs x) in *. set (Y' := Rabs y) in *.
  assert (Hy : Rabs (y * r - y * r0) <= (1 + / 1000) * u64 * Y').
  { rewrite <- Rmult_minus_distr_l, Rabs_mult. fold Y'. rewrite Rmult_comm. apply Rmult_le_compat_r; lra. }
  assert (Hr1 : Rabs r <= 1 + / 1000).
  { replace r with ((r - r0) + r0) by ring. eapply Rle_trans; [apply Rabs_triang|]. lra. }
  assert (Hyr : Rabs (y * r) <= (1 + / 1000) * Y') by (rewrite Rabs_mult; fold Y'; rewrite Rmult_comm; apply Rmult_le_compat_r; auto).
  assert (UY : 0 <= u64 * Y') by (apply Rmult_le_pos; lra). assert (UX : 0 <= u64 * X') by (apply Rmult_le_pos; lra).
  assert (Q : exists q, muladd64 f y r x = RN64 (q + x) /\ Rabs (q - y * r) <= (1 + / 1000) * (u64 * Y') + eta).
  { unfold muladd64. destruct f.
    - exists (y * r). split; auto. replace (y * r - y * r) with 0 by ring. rewrite Rabs_R0. lra.
    - exists (RN64 (y * r)). split; auto. eapply Rle_trans; [apply RN64_err|]. apply Rplus_le_compat_r.
      rewrite <- Rmult_assoc, (Rmult_comm (1 + / 1000)), Rmult_assoc. apply Rmult_le_compat_l; lra. }
  destruct Q as (q & -> & Hq).
  assert (Hqx : Rabs (q + x) <= X' + (1 + / 100) * Y' + eta).
  { replace (q + x) with ((q - y * r) + y * r + x) by ring. eapply Rle_trans; [apply Rabs_triang|]. fold X'.
    apply Rle_trans with (Rabs (q - y * r) + Rabs (y * r) + X'); [apply Rplus_le_compat_r, Rabs_triang|].
    assert (u64 * Y' <= / 1000 * Y') by (apply Rmult_le_compat_r; lra). lra. }
  replace (RN64 (q + x) - (x + y * r0)) with ((RN64 (q + x) - (q + x)) + (q - y * r) + (y * r - y * r0)) by ring.
  eapply Rle_trans; [apply Rabs_triang|]. apply Rle_trans with (Rabs (RN64 (q + x) - (q + x)) + Rabs (q - y * r) + Rabs (y * r - y * r0)); [apply Rplus_le_compat_r, Rabs_triang|].
  pose proof (RN64_err (q + x)) as H1.
  assert (H2 : u64 * Rabs (q + x) <= u64 * (X' + (1 + / 100) * Y' + eta)) by (apply Rmult_le_compat_l; lra).
  assert (u64 * eta <= / 1000 * eta) by (apply Rmult_le_compat_r; lra). lra.
Qed.

Lemma inv_close D D0 e : 0 < D0 -> 0 <= e <= / 1000 -> Rabs (D - D0) <= e * D0 -> Rabs (1 / D - / D0) <= (1 + / 500) * e * / D0 /\ Rabs (1 / D) <= (1 + / 500) * / D0.
Proof.
  intros P He H. assert (B : (1 - e) * D0 <= D) by (apply Rabs_le_inv in H; lra).
  assert (eD : e * D0 <= / 1000 * D0) by (apply Rmult_le_compat_r; lra).
  assert (DP : 0 < D) by lra. assert (ID : 1 / D <= (1 + / 500) * / D0).
  { apply Rmult_le_reg_r with D; auto. replace (1 / D * D) with 1 by (field; lra).
    apply Rle_trans with ((1 + / 500) * / D0 * (999 / 1000 * D0)); [|apply Rmult_le_compat_l; [apply Rmult_le_pos; [lra|left; apply Rinv_0_lt_compat; auto]|lra]].
    replace ((1 + / 500) * / D0 * (999 / 1000 * D0)) with ((1 + / 500) * (999 / 1000)) by (field; lra). lra. }
  assert (0 < 1 / D) by (unfold Rdiv; rewrite Rmult_1_l; apply Rinv_0_lt_compat; auto).
  split; [|rewrite Rabs_pos_eq; lra].
  replace (1 / D - / D0) with ((D0 - D) * (1 / D) * / D0) by (field; lra).
  rewrite !Rabs_mult, (Rabs_pos_eq (1 / D)), (Rabs_pos_eq (/ D0)) by (try lra; left; apply Rinv_0_lt_compat; auto).
  apply Rmult_le_compat_r; [left; apply Rinv_0_lt_compat; auto|]. rewrite Rabs_minus_sym.
  apply Rle_trans with (e * D0 * ((1 + / 500) * / D0)); [apply Rmult_le_compat; try lra; apply Rabs_pos|].
  right. field. lra.
Qed.

(** One part of Smith's quotient, with a positive larger part of the divisor *)
Lemma smith_pos f1 f2 c d x y : 0 < c -> Rabs d <= c -> / 2 ^ 901 <= c <= 2 ^ 901 ->
  let rat := RN64 (d / c) in let D0 := c + d * (d / c) in
  Rabs (RN64 (muladd64 f2 y rat x * RN64 (1 / muladd64 f1 d rat c)) - (x + y * (d / c)) / D0)
  <= 875 / 100 * u64 * (Rabs x + Rabs y) * / D0 + 31 / 10 * eta * / D0 + eta.
Proof.
  intros Pc Hd Hc rat D0. pose proof u64_pos as U. pose proof eta_pos as E. pose proof eta_small as Es. destruct eta_900 as (E9 & E10).
  assert (Us : u64 <= / 10 ^ 15) by (unfold u64; lra). assert (Es' : eta <= / 1000 * u64) by lra.
  assert (R1 : Rabs (d / c) <= 1).
  { unfold Rdiv. rewrite Rabs_mult, (Rabs_pos_eq (/ c)) by (left; apply Rinv_0_lt_compat; auto).
    apply Rmult_le_reg_r with c; auto. rewrite Rmult_assoc, Rinv_l by lra. lra. }
  assert (Hr : Rabs (rat - d / c) <= u64 + eta).
  { unfold rat. eapply Rle_trans; [apply RN64_err|]. apply Rplus_le_compat_r. rewrite <- (Rmult_1_r u64) at 2. apply Rmult_le_compat_l; lra. }
  assert (ED : D0 = c * (1 + (d / c) * (d / c))) by (unfold D0; field; lra).
  set (t := d / c) in *. assert (T2 : 0 <= t * t <= 1). { split; [apply Rle_0_sqr|]. replace (t * t) with (Rabs t * Rabs t) by (rewrite <- Rabs_mult; apply Rabs_pos_eq, Rle_0_sqr).
    pose proof (Rabs_pos t). replace 1 with (1 * 1) by ring. apply Rmult_le_compat; lra. }
  assert (D1 : c <= D0 <= 2 * c). { rewrite ED. assert (0 <= c * (t * t) <= c * 1) by (split; [apply Rmult_le_pos; lra|apply Rmult_le_compat_l; lra]). lra. }
  assert (P0 : 0 < D0) by lra. pose proof (Rinv_0_lt_compat _ P0) as I0. set (i := / D0) in *.
  (* the denominator *)
  assert (HD : Rabs (muladd64 f1 d rat c - D0) <= 367 / 100 * u64 * D0).
  { eapply Rle_trans; [apply (muladd64_err f1 c d rat t R1 Hr)|]. rewrite (Rabs_pos_eq c) by lra.
    assert (S : c + Rabs d <= 121 / 100 * D0).
    { rewrite ED. replace (Rabs d) with (c * Rabs t).
      - rewrite <- (Rabs_pos_eq (t * t)), Rabs_mult by lra. pose proof (Rabs_pos t). set (w := Rabs t) in *. clearbody w.
        assert (0 <= (w - 50 / 121) * (w - 50 / 121)) by apply Rle_0_sqr.
        replace (c + c * w) with (c * (1 + w)) by ring. rewrite <- Rmult_assoc, (Rmult_comm (121 / 100)), Rmult_assoc. apply Rmult_le_compat_l; lra.
      - rewrite <- (Rabs_pos_eq c) at 1 by lra. rewrite <- Rabs_mult. f_equal. unfold t. field. lra. }
    assert (u64 * (c + Rabs d) <= u64 * (121 / 100 * D0)) by (apply Rmult_le_compat_l; lra).
    assert (/ 1000 * u64 * / 2 ^ 901 <= / 1000 * u64 * D0) by (apply Rmult_le_compat_l; lra). lra. }
  destruct (inv_close _ D0 (367 / 100 * u64) P0 ltac:(lra) HD) as (HI & HI2). fold i in HI, HI2.
  assert (Hi : eta <= / 1000 * u64 * i).
  { apply Rmult_le_reg_r with D0; auto. unfold i. rewrite Rmult_assoc, Rinv_l by lra. apply Rle_trans with (eta * 2 ^ 902); [apply Rmult_le_compat_l; [lra|]|lra].
    replace (2 ^ 902) with (2 * 2 ^ 901) by reflexivity. lra. }
  set (scl := RN64 (1 / muladd64 f1 d rat c)).
  assert (HS : Rabs (scl - i) <= 47 / 10 * u64 * i).
  { unfold scl. set (v := 1 / muladd64 f1 d rat c) in *. replace (RN64 v - i) with ((RN64 v - v) + (v - i)) by ring.
    eapply Rle_trans; [apply Rabs_triang|]. pose proof (RN64_err v) as H1.
    assert (u64 * Rabs v <= u64 * ((1 + / 500) * i)) by (apply Rmult_le_compat_l; lra). assert (0 <= u64 * i) by (apply Rmult_le_pos; lra). lra. }
  assert (HS2 : Rabs scl <= (1 + / 1000) * i).
  { replace scl with ((scl - i) + i) by ring. eapply Rle_trans; [apply Rabs_triang|]. rewrite (Rabs_pos_eq i) by lra.
    assert (u64 * i <= / 10 ^ 15 * i) by (apply Rmult_le_compat_r; lra). lra. }
  (* the numerator *)
  pose proof (muladd64_err f2 x y rat t R1 Hr) as HN. set (N := muladd64 f2 y rat x) in *. set (N0 := x + y * t) in *.
  pose proof (Rabs_pos x) as X0. pose proof (Rabs_pos y) as Y0. set (A := Rabs x + Rabs y) in *.
  assert (HN0 : Rabs N0 <= A).
  { unfold N0, A. eapply Rle_trans; [apply Rabs_triang|]. apply Rplus_le_compat_l. rewrite Rabs_mult. rewrite <- (Rmult_1_r (Rabs y)) at 2. apply Rmult_le_compat_l; lra. }
  assert (A0 : 0 <= A) by (unfold A; lra). clearbody A N N0 scl.
  assert (Ai : 0 <= A * i) by (apply Rmult_le_pos; lra). assert (uAi : 0 <= u64 * (A * i)) by (apply Rmult_le_pos; lra). assert (ei : 0 <= eta * i) by (apply Rmult_le_pos; lra).
  assert (HP : Rabs (N * scl - N0 * i) <= 774 / 100 * (u64 * (A * i)) + 301 / 100 * (eta * i)).
  { replace (N * scl - N0 * i) with ((N - N0) * scl + N0 * (scl - i)) by ring. eapply Rle_trans; [apply Rabs_triang|]. rewrite !Rabs_mult.
    assert (K1 : Rabs (N - N0) * Rabs scl <= (302 / 100 * u64 * A + 3 * eta) * ((1 + / 1000) * i)) by (apply Rmult_le_compat; auto; apply Rabs_pos).
    assert (K2 : Rabs N0 * Rabs (scl - i) <= A * (47 / 10 * u64 * i)) by (apply Rmult_le_compat; auto; apply Rabs_pos).
    replace ((302 / 100 * u64 * A + 3 * eta) * ((1 + / 1000) * i)) with ((1 + / 1000) * (302 / 100 * (u64 * (A * i)) + 3 * (eta * i))) in K1 by ring.
    replace (A * (47 / 10 * u64 * i)) with (47 / 10 * (u64 * (A * i))) in K2 by ring. lra. }
  assert (HP2 : Rabs (N * scl) <= (1 + / 1000) * (A * i) + 302 / 100 * (eta * i)).
  { replace (N * scl) with ((N * scl - N0 * i) + N0 * i) by ring. eapply Rle_trans; [apply Rabs_triang|]. rewrite (Rabs_mult N0), (Rabs_pos_eq i) by lra.
    assert (Rabs N0 * i <= A * i) by (apply Rmult_le_compat_r; lra). assert (u64 * (A * i) <= / 10 ^ 15 * (A * i)) by (apply Rmult_le_compat_r; lra). lra. }
  replace (N0 / D0) with (N0 * i) by reflexivity.
  replace (RN64 (N * scl) - N0 * i) with ((RN64 (N * scl) - N * scl) + (N * scl - N0 * i)) by ring.
  eapply Rle_trans; [apply Rabs_triang|]. pose proof (RN64_err (N * scl)) as HR.
  assert (u64 * Rabs (N * scl) <= u64 * ((1 + / 1000) * (A * i) + 302 / 100 * (eta * i))) by (apply Rmult_le_compat_l; lra).
  assert (u64 * (eta * i) <= / 10 ^ 15 * (eta * i)) by (apply Rmult_le_compat_r; lra).
  replace (875 / 100 * u64 * A * i) with (875 / 100 * (u64 * (A * i))) by ring. lra.
Qed.

Lemma muladd64_opp f x y z : muladd64 f (- x) y (- z) = - muladd64 f x y z.
Proof.
  unfold muladd64. destruct f.
  - replace (- x * y + - z) with (- (x * y + z)) by ring. apply RN64_opp.
  - replace (- x * y) with (- (x * y)) by ring. rewrite RN64_opp. replace (- RN64 (x * y) + - z) with (- (RN64 (x * y) + z)) by ring. apply RN64_opp.
Qed.
Lemma smith_part f1 f2 c d x y : c <> 0 -> Rabs d <= Rabs c -> / 2 ^ 901 <= Rabs c <= 2 ^ 901 ->
  let rat := RN64 (d / c) in let D0 := c + d * (d / c) in
  Rabs (RN64 (muladd64 f2 y rat x * RN64 (1 / muladd64 f1 d rat c)) - (x + y * (d / c)) / D0)
  <= 875 / 100 * u64 * (Rabs x + Rabs y) * / Rabs D0 + 31 / 10 * eta * / Rabs D0 + eta.
Proof.
  intros Hc Hd Hb rat D0. destruct (Rtotal_order c 0) as [N|[Z|P]]; [|contradiction|].
  - rewrite (Rabs_left c) in Hd, Hb by auto. pose proof (smith_pos f1 f2 (- c) (- d) x y ltac:(lra) ltac:(rewrite Rabs_Ropp; auto) Hb) as H. cbv zeta in H.
    replace (- d / - c) with (d / c) in H by (field; auto). fold rat in H.
    rewrite muladd64_opp in H. replace (- c + - d * (d / c)) with (- D0) in H by (unfold D0; ring).
    assert (D0 <= c). { unfold D0. assert (0 <= - c * ((d / c) * (d / c))) by (apply Rmult_le_pos; [lra|apply Rle_0_sqr]). replace (d * (d / c)) with (c * ((d / c) * (d / c))) by (field; auto). lra. }
    rewrite (Rabs_left D0) by lra. set (D := muladd64 f1 d rat c) in *.
    assert (E1 : RN64 (1 / - D) = - RN64 (1 / D)). { rewrite <- RN64_opp. f_equal. unfold Rdiv. rewrite !Rmult_1_l. apply Rinv_opp. }
    rewrite E1 in H. replace (muladd64 f2 y rat x * - RN64 (1 / D)) with (- (muladd64 f2 y rat x * RN64 (1 / D))) in H by ring. rewrite RN64_opp in H.
    replace ((x + y * (d / c)) / - D0) with (- ((x + y * (d / c)) / D0)) in H by (field; split; lra).
    rewrite <- Rabs_Ropp. replace (- (RN64 (muladd64 f2 y rat x * RN64 (1 / D)) - (x + y * (d / c)) / D0))
      with (- RN64 (muladd64 f2 y rat x * RN64 (1 / D)) - - ((x + y * (d / c)) / D0)) by ring. exact H.
  - rewrite (Rabs_pos_eq c) in Hd, Hb by lra. assert (c <= D0). { unfold D0. assert (0 <= c * ((d / c) * (d / c))) by (apply Rmult_le_pos; [lra|apply Rle_0_sqr]). replace (d * (d / c)) with (c * ((d / c) * (d / c))) by (field; auto). lra. }
    rewrite (Rabs_pos_eq D0) by lra. apply smith_pos; auto.
Qed.

Lemma Cmod_sqr z : Cmod z * Cmod z = Re z * Re z + Im z * Im z.
Proof. unfold Cmod. rewrite sqrt_sqrt; [unfold Re, Im; ring|]. pose proof (pow2_ge_0 (fst z)). pose proof (pow2_ge_0 (snd z)). lra. Qed.
Lemma parts_sum z : Rabs (Re z) + Rabs (Im z) <= 1415 / 1000 * Cmod z.
Proof.
  pose proof (Cmod_ge_0 z). pose proof (Rabs_pos (Re z)). pose proof (Rabs_pos (Im z)). pose proof (Cmod_sqr z) as S.
  apply Rsqr_incr_0; [|lra|lra]. unfold Rsqr. replace (1415 / 1000 * Cmod z * (1415 / 1000 * Cmod z)) with (1415 / 1000 * (1415 / 1000) * (Cmod z * Cmod z)) by ring. rewrite S.
  rewrite <- (Rabs_pos_eq (Re z * Re z)), <- (Rabs_pos_eq (Im z * Im z)) by apply Rle_0_sqr. rewrite !Rabs_mult.
  assert (0 <= (Rabs (Re z) - Rabs (Im z)) * (Rabs (Re z) - Rabs (Im z))) by apply Rle_0_sqr.
  assert (0 <= Rabs (Re z) * Rabs (Re z)) by apply Rle_0_sqr. assert (0 <= Rabs (Im z) * Rabs (Im z)) by apply Rle_0_sqr. lra.
Qed.
(** The larger part of the divisor, and Smith's denominator *)
Lemma larger_part c d m : 0 <= m -> m * m = c * c + d * d -> Rabs d <= Rabs c -> / 2 ^ 900 <= m <= 2 ^ 900 ->
  c <> 0 /\ / 2 ^ 901 <= Rabs c <= 2 ^ 901 /\ / Rabs (c + d * (d / c)) <= / m /\ 0 < m.
Proof.
  intros H0 Hm Hd Hb. assert (Pm : 0 < m) by (assert (0 < / 2 ^ 900) by (apply Rinv_0_lt_compat, pow_lt; lra); lra).
  pose proof (Rabs_pos c) as C0. pose proof (Rabs_pos d) as D0.
  assert (Ec : c * c = Rabs c * Rabs c) by (rewrite <- Rabs_mult; symmetry; apply Rabs_pos_eq, Rle_0_sqr).
  assert (Ed : d * d = Rabs d * Rabs d) by (rewrite <- Rabs_mult; symmetry; apply Rabs_pos_eq, Rle_0_sqr).
  assert (Hdd : d * d <= c * c) by (rewrite Ec, Ed; apply Rmult_le_compat; auto).
  assert (Lo : m <= 2 * Rabs c). { apply Rsqr_incr_0; [|lra|lra]. unfold Rsqr. assert (0 <= c * c) by apply Rle_0_sqr. lra. }
  assert (Hi : Rabs c <= m). { apply Rsqr_incr_0; [|lra|lra]. unfold Rsqr. assert (0 <= d * d) by apply Rle_0_sqr. lra. }
  assert (Nc : c <> 0) by (intros ->; rewrite Rabs_R0 in Lo; lra).
  split; auto. split; [|split; auto].
  - replace (2 ^ 901) with (2 * 2 ^ 900) by reflexivity. assert (0 < 2 ^ 900) by (apply pow_lt; lra). rewrite Rinv_mult. lra.
  - apply Rinv_le_contravar; auto. replace (c + d * (d / c)) with (m * m / c) by (rewrite Hm; field; auto).
    unfold Rdiv. rewrite Rabs_mult, Rabs_inv, (Rabs_pos_eq (m * m)) by (apply Rle_0_sqr).
    apply Rmult_le_reg_r with (Rabs c); [apply Rabs_pos_lt; auto|]. rewrite Rmult_assoc, Rinv_l by (apply Rabs_no_R0; auto). rewrite Rmult_1_r. apply Rmult_le_compat_l; lra.
Qed.

Lemma Re_div a b : Re (a / b)%C = (Re a * Re b + Im a * Im b) / (Re b * Re b + Im b * Im b).
Proof. unfold Re, Im, Cdiv, Cinv, Cmult. cbn [fst snd]. replace (fst b ^ 2) with (fst b * fst b) by ring. replace (snd b ^ 2) with (snd b * snd b) by ring. unfold Rdiv. ring. Qed.
Lemma Im_div a b : Im (a / b)%C = (Im a * Re b - Re a * Im b) / (Re b * Re b + Im b * Im b).
Proof. unfold Re, Im, Cdiv, Cinv, Cmult. cbn [fst snd]. replace (fst b ^ 2) with (fst b * fst b) by ring. replace (snd b ^ 2) with (snd b * snd b) by ring. unfold Rdiv. ring. Qed.
Lemma Re_sub (a b : C) : Re (a - b)%C = Re a - Re b.
Proof. reflexivity. Qed.
Lemma Im_sub (a b : C) : Im (a - b)%C = Im a - Im b.
Proof. reflexivity. Qed.
Lemma cdiv64_err t a b : / 2 ^ 900 <= Cmod b <= 2 ^ 900 ->
  Cmod (cdiv64 t a b - a / b)%C <= 18 * u64 * (Cmod a / Cmod b) + 3 * tiny64 * (1 + / Cmod b).
Proof.
  intros Hb. pose proof (Cmod_sqr b) as Sb. pose proof (Cmod_ge_0 b) as B0. pose proof u64_pos as U. pose proof eta_pos as E. rewrite tiny_eta.
  assert (Part : forall e A i, A <= 1415 / 1000 * Cmod a -> 0 <= A -> 0 <= i <= / Cmod b -> e <= 875 / 100 * u64 * A * i + 31 / 10 * eta * i + eta ->
            e <= 1239 / 100 * (u64 * (Cmod a * / Cmod b)) + 31 / 10 * (eta * / Cmod b) + eta).
  { intros e A i HA A0 Hi He. eapply Rle_trans; [exact He|].
    assert (A * i <= 1415 / 1000 * Cmod a * / Cmod b) by (apply Rmult_le_compat; lra).
    assert (u64 * (A * i) <= u64 * (1415 / 1000 * Cmod a * / Cmod b)) by (apply Rmult_le_compat_l; lra).
    assert (eta * i <= eta * / Cmod b) by (apply Rmult_le_compat_l; lra).
    pose proof (Cmod_ge_0 a). assert (0 <= Cmod a * / Cmod b) by (apply Rmult_le_pos; lra). assert (0 <= u64 * (Cmod a * / Cmod b)) by (apply Rmult_le_pos; lra). lra. }
  assert (PS := parts_sum a). pose proof (Rabs_pos (Re a)) as P1. pose proof (Rabs_pos (Im a)) as P2.
  destruct t as [[f1 f2] f3].
  assert (Res : forall z, Rabs (Re (z - a / b)%C) <= 1239 / 100 * (u64 * (Cmod a * / Cmod b)) + 31 / 10 * (eta * / Cmod b) + eta ->
            Rabs (Im (z - a / b)%C) <= 1239 / 100 * (u64 * (Cmod a * / Cmod b)) + 31 / 10 * (eta * / Cmod b) + eta -> 0 < Cmod b ->
            Cmod (z - a / b)%C <= 18 * u64 * (Cmod a / Cmod b) + 3 * (2 * eta) * (1 + / Cmod b)).
  { intros z H1 H2 Bp. eapply Rle_trans; [apply (Cmod_parts _ _ ltac:(eapply Rle_trans; [apply Rabs_pos|exact H1]) H1 H2)|].
    pose proof (Cmod_ge_0 a). pose proof (Rinv_0_lt_compat _ Bp). assert (0 <= Cmod a * / Cmod b) by (apply Rmult_le_pos; lra).
    assert (0 <= u64 * (Cmod a * / Cmod b)) by (apply Rmult_le_pos; lra). assert (0 <= eta * / Cmod b) by (apply Rmult_le_pos; lra). unfold Rdiv. lra. }
  unfold cdiv64. destruct (Rle_dec (Rabs (Im b)) (Rabs (Re b))) as [H|H].
  - destruct (larger_part (Re b) (Im b) (Cmod b) B0 Sb H Hb) as (N & Bc & I & Bp).
    assert (I0 : 0 <= / Rabs (Re b + Im b * (Im b / Re b))). { destruct (Req_dec (Re b + Im b * (Im b / Re b)) 0) as [->|K]; [rewrite Rabs_R0, Rinv_0; lra|left; apply Rinv_0_lt_compat, Rabs_pos_lt; auto]. }
    assert (Nm : Re b * Re b + Im b * Im b <> 0) by (rewrite <- Sb; apply Rgt_not_eq, Rmult_lt_0_compat; auto).
    apply Res; auto; cbn [Re Im fst snd].
    + replace (Re (_ - a / b)%C) with (RN64 (muladd64 f2 (Im a) (RN64 (Im b / Re b)) (Re a) * RN64 (1 / muladd64 f1 (Im b) (RN64 (Im b / Re b)) (Re b)))
         - (Re a + Im a * (Im b / Re b)) / (Re b + Im b * (Im b / Re b))).
      2:{ rewrite Re_sub, Re_div. cbn [Re fst snd]. f_equal. field. repeat split; auto; lra. }
      apply (Part _ (Rabs (Re a) + Rabs (Im a)) (/ Rabs (Re b + Im b * (Im b / Re b)))); try lra. apply smith_part; auto.
    + replace (Im (_ - a / b)%C) with (RN64 (muladd64 f3 (- Re a) (RN64 (Im b / Re b)) (Im a) * RN64 (1 / muladd64 f1 (Im b) (RN64 (Im b / Re b)) (Re b)))
         - (Im a + - Re a * (Im b / Re b)) / (Re b + Im b * (Im b / Re b))).
      2:{ rewrite Im_sub, Im_div. cbn [Im fst snd]. f_equal. field. repeat split; auto; lra. }
      apply (Part _ (Rabs (Im a) + Rabs (- Re a)) (/ Rabs (Re b + Im b * (Im b / Re b)))); rewrite ?Rabs_Ropp; try lra. rewrite <- (Rabs_Ropp (Re a)). apply smith_part; auto.
  - rewrite Rplus_comm in Sb. destruct (larger_part (Im b) (Re b) (Cmod b) B0 Sb ltac:(lra) Hb) as (N & Bc & I & Bp).
    assert (I0 : 0 <= / Rabs (Im b + Re b * (Re b / Im b))). { destruct (Req_dec (Im b + Re b * (Re b / Im b)) 0) as [->|K]; [rewrite Rabs_R0, Rinv_0; lra|left; apply Rinv_0_lt_compat, Rabs_pos_lt; auto]. }
    assert (Nm : Re b * Re b + Im b * Im b <> 0) by (rewrite Rplus_comm, <- Sb; apply Rgt_not_eq, Rmult_lt_0_compat; auto).
    apply Res; auto; cbn [Re Im fst snd].
    + replace (Re (_ - a / b)%C) with (RN64 (muladd64 f2 (Re a) (RN64 (Re b / Im b)) (Im a) * RN64 (1 / muladd64 f1 (Re b) (RN64 (Re b / Im b)) (Im b)))
         - (Im a + Re a * (Re b / Im b)) / (Im b + Re b * (Re b / Im b))).
      2:{ rewrite Re_sub, Re_div. cbn [Re fst snd]. f_equal. field. repeat split; auto; lra. }
      apply (Part _ (Rabs (Im a) + Rabs (Re a)) (/ Rabs (Im b + Re b * (Re b / Im b)))); try lra. apply smith_part; auto. lra.
    + replace (Im (_ - a / b)%C) with (RN64 (muladd64 f3 (Im a) (RN64 (Re b / Im b)) (- Re a) * RN64 (1 / muladd64 f1 (Re b) (RN64 (Re b / Im b)) (Im b)))
         - (- Re a + Im a * (Re b / Im b)) / (Im b + Re b * (Re b / Im b))).
      2:{ rewrite Im_sub, Im_div. cbn [Im fst snd]. f_equal. field. repeat split; auto; lra. }
      apply (Part _ (Rabs (- Re a) + Rabs (Im a)) (/ Rabs (Im b + Re b * (Re b / Im b)))); rewrite ?Rabs_Ropp; try lra. rewrite <- (Rabs_Ropp (Re a)). apply smith_part; auto. lra.
Qed.
