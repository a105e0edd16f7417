(** Property C75: the H calculators for n = 1 without a given sine. *)
Require Import ZArith Reals List Lia Lra Psatz.
From Flocq Require Import Core Sterbenz.
From Verif Require Import Base IndexModel HModel HSpec HMath HProps FloatPowersSpec FloatPowersProofs FloatIndexModel FloatConvProps FloatPartsProofs FloatLog FloatHModel FloatHSpec
  FloatHProps FloatHPole FloatHPoleProps FloatHOne FloatHSine.
Import ListNotations.
Open Scope R_scope.
Set Bullet Behavior "Strict Subproofs".

Lemma C75_default_sine :
  forall n_max hc cosb ws, (1 <= n_max)%Z -> HCalculator_init64 n_max = Ok hc ->
    cosb <> [] -> (forall c, In c cosb -> is_double c /\ -1 <= c <= 1) ->
    let good mp m j x := Rabs (x - H_function 1 mp m (acos (nth j cosb 0))) <= / 2 ^ 36 in
    (match ws with Some w => (workspace_size n_max <= alen w)%Z | None => True end ->
     exists H, HCalculator_call64 hc cosb None ws = Ok H /\
       forall mp m, (Z.abs mp <= m <= 1)%Z ->
         exists r, aget H (wedge_index 1 mp m) = Some r /\ forall j, (j < length cosb)%nat -> good mp m j (r (Z.of_nat j))) /\
    (match ws with Some w => (LMpM_total_size 0 n_max <= alen w)%Z | None => True end ->
     exists H, HCalculator_full_call64 hc cosb None ws = Ok H /\
       forall mp m, (- 1 <= mp <= 1)%Z -> (- 1 <= m <= 1)%Z ->
         exists r, aget H (nmpm_index 1 mp m) = Some r /\ forall j, (j < length cosb)%nat -> good mp m j (r (Z.of_nat j))).
Proof.
  intros n_max hc cosb ws Hn E N B good.
  assert (B' : forall c, In c cosb -> -1 <= c <= 1) by (intros c Hc; now apply B).
  pose proof (both_run (fun n mp m c s x => s = sine c -> is_double c /\ -1 <= c <= 1 ->
    Rabs (x - H_function 1 mp m (acos c)) <= / 2 ^ 36) (fun n => n = 1)%Z) as R.
  assert (P : forall n mp m c s, n = 1%Z -> (0 <= n)%Z -> (- n <= mp <= n)%Z -> (- n <= m <= n)%Z -> s = sine c -> is_double c /\ -1 <= c <= 1 ->
    Rabs (Hall RN64 c s n mp m - H_function 1 mp m (acos c)) <= / 2 ^ 36).
  { intros n mp m c s -> _ H1 H2 -> [D Hc]. eapply Rle_trans.
    - apply (Hall_one 12300); [lra|lia|lia|now apply sine_acos|]. rewrite cos_acos by lra. replace (c - c) with 0 by ring. rewrite Rabs_R0. unfold u64. lra.
    - unfold u64. lra. }
  specialize (R P n_max hc cosb None ws Hn E N B' I). cbv zeta in R.
  assert (Q : forall j, (j < length cosb)%nat -> nth j (map (fun c => RN64 (sqrt (RN64 (1 - RN64 (c ^ 2))))) cosb) 0 = sine (nth j cosb 0)).
  { intros j Hj. rewrite (nth_indep _ 0 (sine 0)) by (rewrite map_length; auto). exact (map_nth sine cosb 0 j). }
  destruct R as [R1 R2]. split; intros W; [destruct (R1 W) as (H & EH & V)|destruct (R2 W) as (H & EH & V)]; exists H; (split; [exact EH|]).
  - intros mp m H1. destruct (V 1%Z mp m ltac:(lia) eq_refl H1) as (r & Er & G). exists r. split; [exact Er|]. intros j Hj.
    apply (G j Hj); auto. now apply B, nth_In.
  - intros mp m H1 H2. destruct (V 1%Z mp m ltac:(lia) eq_refl H1 H2) as (r & Er & G). exists r. split; [exact Er|]. intros j Hj.
    apply (G j Hj); auto. now apply B, nth_In.
Qed.

(** ** The default is not as accurate as a given sine *)
Lemma RN_grid x n : / 2 <= x < 1 -> Rabs (x * 2 ^ 53 - IZR n) < / 2 -> RN64 x = IZR n * / 2 ^ 53.
Proof.
  intros Hx Hn. assert (Mg : mag radix2 x = 0%Z :> Z).
  { apply mag_unique_pos. change (bpow radix2 (0 - 1)) with (/ 2). change (bpow radix2 0) with 1. lra. }
  unfold RN64, round, F2R, scaled_mantissa, cexp. rewrite Mg. change (FLT_exp (-1074) 53 0) with (-53)%Z. cbn [Fnum Fexp].
  assert (E : bpow radix2 (- (-53)) = 2 ^ 53) by (rewrite bpow_powerRZ; reflexivity).
  assert (E' : bpow radix2 (-53) = / 2 ^ 53) by (rewrite bpow_powerRZ; reflexivity).
  first [rewrite E|change (- (-53))%Z with 53%Z in E; rewrite E]. rewrite E'. rewrite (Znearest_imp _ _ n) by auto. reflexivity.
Qed.
Definition cw : R := 1 - 3 / 2 ^ 29.
Lemma cw_double : is_double cw.
Proof.
  unfold is_double, cw. rewrite (RN_grid _ (2 ^ 53 - 3 * 2 ^ 24)); [|lra|].
  - change (2 ^ 53 - 3 * 2 ^ 24)%Z with 9007199204409344%Z. lra.
  - change (2 ^ 53 - 3 * 2 ^ 24)%Z with 9007199204409344%Z. rewrite Rabs_pos_eq; lra.
Qed.
Lemma cw_sine : 1300 * u64 <= sine cw - sin (acos cw).
Proof.
  assert (R : -1 <= cw <= 1) by (unfold cw; lra). rewrite sin_acos by auto.
  assert (EA : RN64 (cw ^ 2) = 1 - 6 / 2 ^ 29).
  { unfold cw. rewrite (RN_grid _ (2 ^ 53 - 6 * 2 ^ 24)); [|lra|]; change (2 ^ 53 - 6 * 2 ^ 24)%Z with 9007199154077696%Z; [lra|].
    apply Rabs_lt. lra. }
  assert (EV : RN64 (1 - (1 - 6 / 2 ^ 29)) = 3 / 2 ^ 28).
  { replace (1 - (1 - 6 / 2 ^ 29)) with (3 / 2 ^ 28) by lra. apply fmt_dbl. replace (3 / 2 ^ 28) with (1 - (1 - 6 / 2 ^ 29)) by lra.
    apply sterbenz; [apply FLT_exp_valid; reflexivity|apply FLT_exp_monotone|exact fmt_1| |lra]. rewrite <- EA.
    apply generic_format_round; [apply FLT_exp_valid; reflexivity|apply valid_rnd_N]. }
  unfold sine. rewrite EA, EV. unfold Rsqr, cw.
  replace (1 - (1 - 3 / 2 ^ 29) * (1 - 3 / 2 ^ 29)) with (3 / 2 ^ 28 - 9 / 2 ^ 58) by lra.
  set (v := 3 / 2 ^ 28). set (w := v - 9 / 2 ^ 58).
  assert (v0 : 0 < v) by (unfold v; lra). assert (w0 : 0 < w) by (unfold w, v; lra).
  pose proof (sqrt_sqrt v ltac:(lra)) as Sv. pose proof (sqrt_sqrt w ltac:(lra)) as Sw.
  assert (Lv : sqrt v <= 17321 / 10000 / 2 ^ 14).
  { rewrite <- (sqrt_square (17321 / 10000 / 2 ^ 14)) by lra. apply sqrt_le_1_alt. unfold v. lra. }
  assert (Lw : sqrt w <= sqrt v) by (apply sqrt_le_1_alt; unfold w; lra).
  pose proof (sqrt_lt_R0 v v0) as Pv. pose proof (sqrt_lt_R0 w w0) as Pw.
  assert (D : 9 / 2 ^ 58 = (sqrt v - sqrt w) * (sqrt v + sqrt w)) by (ring_simplify; rewrite !pow2_sqrt by lra; unfold w; lra).
  assert (L : 1301 * u64 <= sqrt v - sqrt w).
  { apply (Rmult_le_reg_r (2 * (17321 / 10000 / 2 ^ 14))); [lra|].
    apply Rle_trans with (9 / 2 ^ 58); [unfold u64; lra|]. rewrite D. apply Rmult_le_compat_l; lra. }
  pose proof (RN64_err (sqrt v)) as Er. rewrite (Rabs_pos_eq (sqrt v)) in Er by lra. pose proof eta_small as Et.
  assert (U : 0 < u64) by (unfold u64; lra). assert (u64 * sqrt v <= u64 * (1 / 2)) by (apply Rmult_le_compat_l; lra).
  apply Rabs_le_inv in Er. lra.
Qed.
Lemma C75_default_as_accurate_refuted :
  exists c hc H r, is_double c /\ -1 <= c <= 1 /\ HCalculator_init64 1 = Ok hc /\ HCalculator_call64 hc [c] None None = Ok H /\
    aget H (wedge_index 1 0 1) = Some r /\ 800 * u64 <= Rabs (r 0%Z - H_function 1 0 1 (acos c)).
Proof.
  assert (Rc : -1 <= cw <= 1) by (unfold cw; lra).
  destruct (proj1 (C71_init 1) ltac:(lia)) as (hc & E & _).
  destruct (both_run (fun n mp m c s x => n = 1%Z -> mp = 0%Z -> m = 1%Z -> x = H0f RN64 c s 1 1) (fun _ => True)) with
    (n_max := 1%Z) (hc := hc) (cosb := [cw]) (sinb := @None (list R)) (ws := @None hbuf) as [W _]; auto; try lia; try discriminate.
  { intros n mp m c s _ _ _ _ -> -> ->. rewrite Hall_wedge by lia. reflexivity. }
  { intros c [<-|[]]. exact Rc. }
  destruct (W I) as (H & EH & V). destruct (V 1 0 1)%Z as (r & Er & G); [lia|auto|lia|].
  exists cw, hc, H, r. split; [exact cw_double|]. repeat (split; [first [exact Rc|assumption|lra]|]).
  specialize (G 0%nat ltac:(cbn; lia) eq_refl eq_refl eq_refl). change (Z.of_nat 0) with 0%Z in G. cbn [nth map] in G. fold (sine cw) in G. rewrite G.
  pose proof cw_sine as L. assert (U : 0 < u64 <= / 2 ^ 50) by (unfold u64; lra).
  pose proof (sine_acos cw cw_double Rc) as L2. apply Rabs_le_inv in L2.
  assert (S1 : 0 <= sin (acos cw) <= 1 / 2).
  { rewrite sin_acos by auto. split; [apply sqrt_pos|]. replace (1 / 2) with (sqrt (1 / 2 * (1 / 2))) by (apply sqrt_square; lra).
    apply sqrt_le_1_alt. unfold Rsqr, cw. lra. }
  assert (Sb : -1 <= sine cw <= 1) by lra.
  assert (As : ap 1 1 (sine cw) (sin (asin (sine cw)))).
  { rewrite sin_asin by auto. split; [apply Rabs_le; lra|]. replace (sine cw - sine cw) with 0 by ring. rewrite Rabs_R0. lra. }
  destruct (a_01 (asin (sine cw)) cw (sine cw) 1 ltac:(lra) As) as [_ A].
  rewrite top_exact in A by lia. rewrite top_exact by lia. rewrite Praw_11 in *. rewrite sin_asin in A by auto.
  change (IZR (4 * 1 + 2)) with 6 in *. change (Z.to_nat 1) with 1%nat in *. rewrite pow_1 in *.
  assert (K : 7 / 10 <= sqrt 3 / sqrt 6).
  { assert (173 / 100 <= sqrt 3) by (apply sqrt_ge; lra).
    assert (Q : sqrt 6 <= 245 / 100) by (rewrite <- (sqrt_square (245 / 100)) by lra; apply sqrt_le_1_alt; lra). assert (0 < sqrt 6) by (apply sqrt_lt_R0; lra).
    apply (Rmult_le_reg_r (sqrt 6)); [auto|]. replace (sqrt 3 / sqrt 6 * sqrt 6) with (sqrt 3) by (field; lra). lra. }
  set (x := H0f RN64 cw (sine cw) 1 1) in *. set (k := sqrt 3 / sqrt 6) in *.
  replace (sqrt 3 * (sine cw / sqrt 6)) with (k * sine cw) in A by (unfold k, Rdiv; ring).
  replace (sqrt 3 * (sin (acos cw) / sqrt 6)) with (k * sin (acos cw)) by (unfold k, Rdiv; ring).
  assert (M : 910 * u64 <= k * (sine cw - sin (acos cw))).
  { apply Rle_trans with (7 / 10 * (1300 * u64)); [lra|]. apply Rmult_le_compat; lra. }
  apply Rabs_le_inv in A. rewrite Rabs_pos_eq; lra.
Qed.
