(** Rounding errors of mode_conversions.py: the functions (C60). *)
Require Import ZArith Lia Reals Lra Bool.
From Flocq Require Import Core.
From Coquelicot Require Import Complex.
From Verif Require Import Base BaseProofs CBase IndexModel IndexProofs FloatIndexModel FloatIndexProofs FloatPowersModel FloatPowersSpec
  FloatPowersProofs FloatPowersProps FloatConvModel FloatConvSpec FloatConvProofs ConvModel ConvProofs.
Set Bullet Behavior "Strict Subproofs".
Open Scope Z_scope.

(** ** Constants *)
Lemma Re_scale (k : R) (c : C) : Re (c * RtoC k)%C = (k * Re c)%R.
Proof. destruct c. cbn. ring. Qed.
Lemma Im_scale (k : R) (c : C) : Im (c * RtoC k)%C = (k * Im c)%R.
Proof. destruct c. cbn. ring. Qed.
Lemma Re_unscale (k : R) (c : C) : k <> 0%R -> Re (c / RtoC k)%C = (Re c / k)%R.
Proof. intros. destruct c. cbn. field. auto. Qed.
Lemma Im_unscale (k : R) (c : C) : k <> 0%R -> Im (c / RtoC k)%C = (Im c / k)%R.
Proof. intros. destruct c. cbn. field. auto. Qed.

Lemma k00_exact_pos : (1 <= sqrt (4 * PI) <= 4)%R.
Proof. apply sqrt_between. pose proof PI_bounds. lra. Qed.

Lemma C60_constants :
  forall div, good_div div ->
  forall c : C,
    cclose 5 (constant_as64 c) (constant_as_ell_0_mode c) /\
    cclose 7 (constant_from64 div c) (constant_from_ell_0_mode c) /\
    cclose 5 (constant_from64 div (constant_as64 c)) c /\
    cclose 5 (constant_as64 (constant_from64 div c)) c.
Proof.
  intros div Hd c. pose proof k00_exact_pos as Hk. pose proof k00_err as He. pose proof k00_range as Hr. pose proof u64_pos.
  assert (M : forall x, close 5 (RN64 (k00 * x)) (sqrt (4 * PI) * x)).
  { intros x. apply close_weaken with (301 / 100 + 101 / 100)%R; [lra|]. apply mul_close; lra. }
  assert (D : forall x, close 7 (div x k00) (x / sqrt (4 * PI))).
  { intros x. apply close_weaken with (102 / 100 * (301 / 100) + 304 / 100)%R; [lra|]. apply div_close; auto; lra. }
  assert (B : forall x, close 5 (div (RN64 (k00 * x)) k00) x).
  { intros x. apply close_weaken with (1 + 301 / 100)%R; [lra|]. apply div_back; auto; [rewrite Rabs_pos_eq; lra|lra|].
    pose proof (RN64_err (k00 * x)). pose proof eta_pos. lra. }
  assert (A : forall x, close 5 (RN64 (k00 * div x k00)) x).
  { intros x. apply close_weaken with (402 / 100)%R; [lra|]. apply mul_back; auto; lra. }
  unfold cclose, constant_as64, constant_from64, constant_as_ell_0_mode, constant_from_ell_0_mode, cscale64, cdivr.
  rewrite Re_scale, Im_scale, Re_unscale, Im_unscale by lra. cbn [Re Im fst snd]. auto 10.
Qed.

(** ** Vectors *)
Lemma RN_double x : is_double x -> RN64 x = x.
Proof. auto. Qed.
Lemma neg_prod k x : RN64 (k * - x) = (- RN64 (k * x))%R.
Proof. rewrite Ropp_mult_distr_r_reverse. apply RN64_opp. Qed.

Lemma vector_as64_real x y z : is_double x -> is_double y ->
  vector_as64 (RtoC x, RtoC y, RtoC z)
  = (((RN64 (k11 * x), RN64 (k11 * y)) : C), ((RN64 (k10 * z), 0%R) : C), (((- RN64 (k11 * x))%R, RN64 (k11 * y)) : C)).
Proof.
  intros Hx Hy. unfold vector_as64, cadd64, cscale64. cbn [Re Im fst snd RtoC Cmult Cplus Copp Ci].
  replace (x + (0 * y - 1 * 0))%R with x by ring. replace (0 + (0 * 0 + 1 * y))%R with y by ring.
  replace (- x + (0 * y - 1 * 0))%R with (- x)%R by ring. replace (-0 + (0 * 0 + 1 * y))%R with y by ring.
  rewrite Rmult_0_r, RN64_zero, (RN_double x), (RN_double y), (RN_double (- x)), neg_prod by auto using is_double_opp. reflexivity.
Qed.

Lemma C60_vectors :
  forall div, good_div div ->
  forall x y z, is_double x -> is_double y ->
  exists m0 m1 m2 x' y' z',
    vector_as64 (RtoC x, RtoC y, RtoC z) = (m0, m1, m2) /\
    vector_from64 div (m0, m1, m2) = (RtoC x', RtoC y', RtoC z') /\
    close 7 x' x /\ close 7 y' y /\ close 7 z' z /\
    let '(e0, e1, e2) := vector_as_ell_1_modes (RtoC x, RtoC y, RtoC z) in
    cclose 6 m0 e0 /\ cclose 6 m1 e1 /\ cclose 6 m2 e2.
Proof.
  intros div Hd x y z Hx Hy. rewrite vector_as64_real by auto.
  pose proof u64_pos as Hu. pose proof eta_pos as Hh. pose proof k11_range as H11. pose proof k10_range as H10.
  set (K := RN64 (2 * k11)).
  assert (HK : (Rabs (K - 2 * k11) <= 1002 / 1000 * u64 * (2 * k11))%R).
  { replace (1002 / 1000)%R with (0 + 1002 / 1000)%R by ring. apply RN_chain; try lra.
    replace (2 * k11 - 2 * k11)%R with 0%R by ring. rewrite Rabs_R0. lra. }
  assert (HKr : (99 / 100 * (2 * k11) <= K <= 101 / 100 * (2 * k11))%R) by (apply rel_pos with (1002 / 1000)%R; lra).
  assert (HKa : (/ 2 <= Rabs K <= 2 ^ 60)%R) by (rewrite Rabs_pos_eq; lra).
  assert (B : forall t X, X = (2 * RN64 (k11 * t))%R -> close 7 (div (RN64 X) K) t).
  { intros t X ->. apply close_weaken with (32 / 10 + 301 / 100)%R; [lra|]. apply div_back; auto; [lra|].
    pose proof (RN64_err (k11 * t)) as E1. pose proof (RN64_err (2 * RN64 (k11 * t))) as E2.
    rewrite !Rabs_mult, (Rabs_pos_eq k11) in * by lra. rewrite (Rabs_pos_eq K) by lra. rewrite (Rabs_pos_eq 2) in E2 by lra.
    pose proof (Rabs_pos t) as Pt.
    assert (Ep : (Rabs (RN64 (k11 * t)) <= k11 * Rabs t + (u64 * (k11 * Rabs t) + eta))%R).
    { replace (RN64 (k11 * t)) with (k11 * t + (RN64 (k11 * t) - k11 * t))%R by ring. eapply Rle_trans; [apply Rabs_triang|].
      rewrite Rabs_mult, (Rabs_pos_eq k11) by lra. lra. }
    set (at_ := Rabs t) in *. set (p := (k11 * at_)%R) in *. assert (Pp : (0 <= p)%R) by (apply Rmult_le_pos; lra).
    assert (D3 : (Rabs (2 * k11 * t - K * t) <= 1002 / 1000 * u64 * (2 * p))%R).
    { rewrite <- Rmult_minus_distr_r, Rabs_mult, Rabs_minus_sym. fold at_.
      replace (1002 / 1000 * u64 * (2 * p))%R with (1002 / 1000 * u64 * (2 * k11) * at_)%R by (unfold p; ring).
      apply Rmult_le_compat_r; auto. }
    assert (D4 : (99 / 100 * (2 * p) <= K * at_)%R).
    { replace (99 / 100 * (2 * p))%R with (99 / 100 * (2 * k11) * at_)%R by (unfold p; ring). apply Rmult_le_compat_r; lra. }
    assert (D5 : (u64 * (99 / 100 * (2 * p)) <= u64 * (K * at_))%R) by (apply Rmult_le_compat_l; lra).
    assert (D6 : (u64 * p <= / 1000000 * p)%R) by (apply Rmult_le_compat_r; lra).
    assert (D7 : (u64 * (2 * Rabs (RN64 (k11 * t))) <= u64 * (2 * (1001 / 1000 * p + eta)))%R) by (apply Rmult_le_compat_l; lra).
    assert (D8 : (u64 * eta <= / 1000000 * eta)%R) by (apply Rmult_le_compat_r; lra).
    assert (D9 : (0 <= u64 * p)%R) by (apply Rmult_le_pos; lra).
    set (q := RN64 (k11 * t)) in *. set (Q := RN64 (2 * q)) in *.
    replace (Q - K * t)%R with ((Q - 2 * q) + (2 * (q - k11 * t) + (2 * k11 * t - K * t)))%R by ring.
    eapply Rle_trans; [apply Rabs_triang|]. eapply Rle_trans; [apply Rplus_le_compat_l, Rabs_triang|].
    rewrite (Rabs_mult 2), (Rabs_pos_eq 2) by lra. lra. }
  assert (Z0 : div 0%R K = 0%R) by (apply (Hd 0%R); auto).
  assert (H10a : (/ 2 <= Rabs k10 <= 2 ^ 60)%R) by (rewrite Rabs_pos_eq; lra).
  assert (Z1 : div 0%R k10 = 0%R) by (apply (Hd 0%R); auto).
  exists (RN64 (k11 * x), RN64 (k11 * y)), (RN64 (k10 * z), 0%R), ((- RN64 (k11 * x))%R, RN64 (k11 * y)),
    (div (RN64 (RN64 (k11 * x) - - RN64 (k11 * x))) K), (div (RN64 (RN64 (k11 * y) + RN64 (k11 * y))) K), (div (RN64 (k10 * z)) k10).
  split; [reflexivity|]. split.
  { unfold vector_from64, cdivr, csub64, cadd64. fold K. cbn [Re Im fst snd].
    replace (RN64 (k11 * x) + - RN64 (k11 * x))%R with 0%R by ring.
    replace (RN64 (k11 * y) - RN64 (k11 * y))%R with 0%R by ring. rewrite !RN64_zero, !Z0, !Z1.
    f_equal. f_equal. apply C_eq; cbn; field. }
  split; [apply B; ring|]. split; [apply B; ring|]. split.
  { apply close_weaken with (1 + 301 / 100)%R; [lra|]. apply div_back; auto; [lra|].
    pose proof (RN64_err (k10 * z)). lra. }
  pose proof PI_bounds.
  assert (S11 : (1 <= sqrt (2 * PI / 3) <= 4)%R) by (apply sqrt_between; lra).
  assert (S10 : (1 <= sqrt (4 * PI / 3) <= 4)%R) by (apply sqrt_between; lra).
  assert (M11 : forall t, close 6 (RN64 (k11 * t)) (sqrt (2 * PI / 3) * t)).
  { intros t. apply close_weaken with (402 / 100 + 101 / 100)%R; [lra|]. apply mul_close; try lra. apply k11_err. }
  assert (M10 : forall t, close 6 (RN64 (k10 * t)) (sqrt (4 * PI / 3) * t)).
  { intros t. apply close_weaken with (402 / 100 + 101 / 100)%R; [lra|]. apply mul_close; try lra. apply k10_err. }
  assert (C0 : close 6 0 0).
  { unfold close. replace (0 - 0)%R with 0%R by ring. rewrite Rabs_R0. rewrite tiny_eta. lra. }
  unfold vector_as_ell_1_modes, cclose. rewrite !Re_scale, !Im_scale. cbn [Re Im fst snd RtoC Cmult Cplus Copp Ci].
  replace (x + (0 * y - 1 * 0))%R with x by ring. replace (0 + (0 * 0 + 1 * y))%R with y by ring.
  replace (- x + (0 * y - 1 * 0))%R with (- x)%R by ring. replace (-0 + (0 * 0 + 1 * y))%R with y by ring.
  rewrite Ropp_mult_distr_r_reverse, Rmult_0_r. repeat split; auto using close_opp.
Qed.

(** ** Loops *)
Lemma conv_ell_max64_ok ell_min ell_max : 0 <= ell_min <= ell_max + 1 -> (ell_max + 1) ^ 2 < 2 ^ 53 ->
  conv_ell_max64 (LM_total_size ell_min ell_max) ell_min = ell_max.
Proof.
  intros H Hb. unfold conv_ell_max64, LM_total_size.
  replace (ell_max * (ell_max + 2) - ell_min ^ 2 + 1
    + ((ell_min - 1) * (ell_min - 1 + 2) - 0 ^ 2 + 1)) with ((ell_max + 1) * (ell_max + 1)) by ring.
  rewrite Z.pow_2_r in Hb.
  rewrite RN64_int by (rewrite Z.abs_eq; nia). rewrite mult_IZR, sqrt_square by (apply (IZR_le 0); lia).
  rewrite RN64_int by (rewrite Z.abs_eq; nia). rewrite Ztrunc_IZR. lia.
Qed.
Lemma ell_loop64_ok (g : Z -> C -> C) step ell_min ell_max modes :
  0 <= ell_min <= ell_max + 1 -> (ell_max + 1) ^ 2 < 2 ^ 53 -> alen modes = LM_total_size ell_min ell_max ->
  (forall ell a i, ell_min <= ell <= ell_max -> 0 <= i -> i + 2 * ell + 1 <= alen a ->
     exists b, step ell (a, i) = Ok (b, i + 2 * ell + 1) /\ map_block (g ell) i (2 * ell + 1) a b) ->
  exists out, ell_loop64 step ell_min modes = Ok out /\ alen out = alen modes
    /\ forall ell m, ell_min <= ell <= ell_max -> - ell <= m <= ell ->
         aget out (LM_index ell m ell_min) = g ell (aget modes (LM_index ell m ell_min)).
Proof.
  intros H Hb Hl Hs. destruct (ell_loop_ok g step ell_min ell_max modes H Hl Hs) as (out & E & R).
  exists out. split; auto. revert E. unfold ell_loop, ell_loop64.
  rewrite Hl, conv_ell_max64_ok, conv_ell_max_ok by auto. auto.
Qed.
Lemma scale_loop64_ok (f : Z -> R) ell_min ell_max modes :
  0 <= ell_min <= ell_max + 1 -> (ell_max + 1) ^ 2 < 2 ^ 53 -> alen modes = LM_total_size ell_min ell_max ->
  exists out, ell_loop64 (fun ell => scale_block64 (f ell) ell) ell_min modes = Ok out
    /\ alen out = alen modes
    /\ forall ell m, ell_min <= ell <= ell_max -> - ell <= m <= ell ->
         aget out (LM_index ell m ell_min) = cscale64 (f ell) (aget modes (LM_index ell m ell_min)).
Proof.
  intros. apply (ell_loop64_ok (fun ell x => cscale64 (f ell) x) _ ell_min ell_max); auto.
  intros ell a i He Hi Hl. apply (block_loop (fun x => cscale64 (f ell) x)); lia.
Qed.

(** ** Factors *)
Lemma ell_bound ell_max : (ell_max + 1) ^ 2 < 2 ^ 53 -> ell_max < 100000000.
Proof. intros H. nia. Qed.
Lemma int_product64_eq a b : Z.abs a < 2 ^ 40 -> Z.abs b < 2 ^ 40 ->
  int_product64 a b = RN64 (IZR (a * (b + 1))).
Proof.
  intros Ha Hb. unfold int_product64. rewrite !RN64_int by lia. rewrite <- plus_IZR, RN64_int by lia. rewrite <- mult_IZR. auto.
Qed.
Lemma int_product64_err a b : Z.abs a < 2 ^ 40 -> Z.abs b < 2 ^ 40 -> 0 < a * (b + 1) ->
  (Rabs (int_product64 a b - IZR (a * (b + 1))) <= 1002 / 1000 * u64 * IZR (a * (b + 1)))%R.
Proof.
  intros Ha Hb Hp. rewrite int_product64_eq by auto. pose proof u64_pos.
  assert (1 <= IZR (a * (b + 1)))%R by (apply IZR_le; lia).
  replace (1002 / 1000)%R with (0 + 1002 / 1000)%R by ring. apply RN_chain; try lra.
  replace (IZR (a * (b + 1)) - IZR (a * (b + 1)))%R with 0%R by ring. rewrite Rabs_R0. lra.
Qed.
Lemma int_product64_0 a b : Z.abs a < 2 ^ 40 -> Z.abs b < 2 ^ 40 -> a * (b + 1) = 0 -> int_product64 a b = 0%R.
Proof. intros Ha Hb E. rewrite int_product64_eq, E by auto. apply RN64_zero. Qed.

(** Relative accuracy of a factor that may vanish or be negative *)
Definition factor_ok (e : R) (f64 f : R) : Prop :=
  (f64 = 0%R /\ f = 0%R) \/
  (exists k64 k, (1 / 2 <= k)%R /\ (Rabs (k64 - k) <= e * u64 * k)%R /\ ((f64 = k64 /\ f = k) \/ (f64 = - k64 /\ f = - k)%R)).
Lemma factor_opp e a b : factor_ok e a b -> factor_ok e (- a) (- b).
Proof.
  intros [[-> ->]|(k & k' & H1 & H2 & [[-> ->]|[-> ->]])].
  - left. split; ring.
  - right. exists k, k'. auto.
  - right. exists k, k'. rewrite !Ropp_involutive. auto.
Qed.
Lemma factor_close e f64 f x : (0 <= e <= 10)%R -> factor_ok e f64 f -> close (e + 101 / 100) (RN64 (f64 * x)) (f * x).
Proof.
  intros He [[-> ->]|(k & k' & H1 & H2 & [[-> ->]|[-> ->]])].
  - rewrite Rmult_0_l, RN64_zero. unfold close. replace (0 - 0)%R with 0%R by ring. rewrite Rabs_R0. rewrite tiny_eta.
    pose proof eta_pos. lra.
  - apply mul_close; lra.
  - rewrite !Ropp_mult_distr_l_reverse. rewrite RN64_opp. apply close_opp. apply mul_close; lra.
Qed.
Lemma NP_factor_ok a b : Z.abs a < 2 ^ 40 -> Z.abs b < 2 ^ 40 -> 0 <= a * (b + 1) ->
  factor_ok (201 / 100) (RN64 (sqrt (int_product64 a b))) (sqrt (IZR a * IZR (b + 1))).
Proof.
  intros Ha Hb Hp. rewrite <- mult_IZR. pose proof u64_pos. destruct (Z.eq_dec (a * (b + 1)) 0) as [E|E].
  - left. rewrite int_product64_0, E, sqrt_0, RN64_zero by auto. auto.
  - right. exists (RN64 (sqrt (int_product64 a b))), (sqrt (IZR (a * (b + 1)))).
    assert (1 <= IZR (a * (b + 1)))%R by (apply IZR_le; lia).
    assert (1 <= sqrt (IZR (a * (b + 1))))%R by (rewrite <- sqrt_1; apply sqrt_le_1_alt; lra).
    split; [lra|]. split; auto.
    eapply Rle_trans; [apply sqrt_chain; [|shelve|apply int_product64_err; auto; lia]|]; auto.
    + repeat apply Rmult_le_compat_r; lra.
    Unshelve. lra.
Qed.
Lemma GHP_factor_ok a b : Z.abs a < 2 ^ 40 -> Z.abs b < 2 ^ 40 -> 0 <= a * (b + 1) -> a * (b + 1) <> 1 ->
  factor_ok (302 / 100) (RN64 (sqrt (RN64 (int_product64 a b / 2)))) (sqrt (IZR a * IZR (b + 1) / 2)).
Proof.
  intros Ha Hb Hp H1. rewrite <- mult_IZR. pose proof u64_pos. destruct (Z.eq_dec (a * (b + 1)) 0) as [E|E].
  - left. rewrite int_product64_0, E by auto. unfold Rdiv. rewrite Rmult_0_l, RN64_zero, sqrt_0, RN64_zero. auto.
  - right. exists (RN64 (sqrt (RN64 (int_product64 a b / 2)))), (sqrt (IZR (a * (b + 1)) / 2)).
    assert (2 <= IZR (a * (b + 1)))%R by (apply IZR_le; lia).
    assert (1 <= sqrt (IZR (a * (b + 1)) / 2))%R by (rewrite <- sqrt_1; apply sqrt_le_1_alt; lra).
    split; [lra|]. split; auto.
    assert (Ep : (Rabs (int_product64 a b - IZR (a * (b + 1))) <= 1002 / 1000 * u64 * IZR (a * (b + 1)))%R)
      by (apply int_product64_err; auto; lia).
    apply (scale_err (/ 2)) in Ep; [|lra]. rewrite !(Rmult_comm (/ 2)) in Ep. fold (int_product64 a b / 2)%R in Ep.
    fold (IZR (a * (b + 1)) / 2)%R in Ep.
    apply RN_chain in Ep; [|lra|lra]. apply sqrt_chain in Ep; [|lra|lra].
    eapply Rle_trans; [exact Ep|]. repeat apply Rmult_le_compat_r; lra.
Qed.

(** ** Arrays *)
Lemma LM_cover ell_min ell_max k : 0 <= ell_min <= ell_max + 1 -> 0 <= k < LM_total_size ell_min ell_max ->
  exists ell m, ell_min <= ell <= ell_max /\ - ell <= m <= ell /\ LM_index ell m ell_min = k.
Proof.
  intros H0 Hk. unfold LM_total_size in Hk. set (n := k + ell_min ^ 2).
  pose proof (Z.sqrt_spec n ltac:(unfold n; nia)) as S. set (l := Z.sqrt n) in *.
  assert (0 <= l) by apply Z.sqrt_nonneg. unfold Z.succ in S.
  clearbody l. assert (E : n = k + ell_min ^ 2) by reflexivity. clearbody n. rewrite !Z.pow_2_r in *.
  exists l, (n - l * (l + 1)). unfold LM_index. rewrite !Z.pow_2_r. repeat split; nia.
Qed.

Lemma scale_close (f64 f : Z -> R) n ell_min ell_max modes :
  (103 / 100 <= n <= 10)%R ->
  0 <= ell_min <= ell_max + 1 -> (ell_max + 1) ^ 2 < 2 ^ 53 -> alen modes = LM_total_size ell_min ell_max ->
  (forall ell, ell_min <= ell <= ell_max -> factor_ok (n - 102 / 100) (f64 ell) (f ell)) ->
  array_close n (ell_loop64 (fun ell => scale_block64 (f64 ell) ell) ell_min modes)
    (ell_loop (fun ell => scale_block (f ell) ell) ell_min modes).
Proof.
  intros Hn H Hb Hl Hf.
  destruct (scale_loop64_ok f64 ell_min ell_max modes) as (a & Ea & La & Ga); auto.
  destruct (scale_loop_ok f ell_min ell_max modes) as (b & Eb & Lb & Gb); auto.
  exists a, b. split; auto. split; auto. split; [congruence|]. intros k Hk.
  destruct (LM_cover ell_min ell_max k) as (ell & m & He & Hm & <-); [lia|lia|].
  rewrite Ga, Gb by lia. set (x := aget modes _). unfold cclose. rewrite Re_scale, Im_scale.
  unfold cscale64. cbn [Re Im fst snd].
  split; (apply close_weaken with (n - 102 / 100 + 101 / 100)%R; [lra|]; apply factor_close; [lra|apply Hf; lia]).
Qed.
Lemma factor_weaken e e' a b : (e <= e')%R -> factor_ok e a b -> factor_ok e' a b.
Proof.
  intros He [H|(k & k' & H1 & H2 & H3)]; [left; auto|]. right. exists k, k'. split; auto. split; auto.
  eapply Rle_trans; [exact H2|]. pose proof u64_pos. repeat apply Rmult_le_compat_r; lra.
Qed.

Lemma factor_0 e : factor_ok e 0 0.
Proof. left; auto. Qed.

Lemma odd_prod a b : (a + b) mod 2 = 0 -> a * (b + 1) <> 1.
Proof.
  intros H E. assert (a = 1 \/ a = -1) by (apply Z.mul_eq_1 in E; auto).
  assert (b = 0 \/ b = -2) by nia. destruct H0, H1; subst; cbn in H; lia.
Qed.

Lemma C60_eth :
  forall modes s ell_min ell_max,
    0 <= ell_min <= ell_max + 1 -> (ell_max + 1) ^ 2 < 2 ^ 53 -> alen modes = LM_total_size ell_min ell_max ->
    array_close 4 (eth_NP64 modes s ell_min) (eth_NP modes s ell_min) /\
    array_close 4 (ethbar_NP64 modes s ell_min) (ethbar_NP modes s ell_min) /\
    array_close 5 (eth_GHP64 modes s ell_min) (eth_GHP modes s ell_min) /\
    array_close 5 (ethbar_GHP64 modes s ell_min) (ethbar_GHP modes s ell_min).
Proof.
  intros modes s ell_min ell_max H Hb Hl. pose proof (ell_bound _ Hb) as Hm.
  repeat split; (apply scale_close with ell_max; auto; try lra; intros ell He).
  - unfold eth_NP_factor64, eth_NP_factor. destruct (Z.ltb_spec ell (Z.abs (s + 1))); [apply factor_0|].
    apply factor_weaken with (201 / 100)%R; [lra|]. apply NP_factor_ok; try lia. apply Z.mul_nonneg_nonneg; lia.
  - unfold ethbar_NP_factor64, ethbar_NP_factor. destruct (Z.ltb_spec ell (Z.abs (s - 1))); [apply factor_0|].
    apply factor_opp. apply factor_weaken with (201 / 100)%R; [lra|].
    apply NP_factor_ok; try lia. apply Z.mul_nonneg_nonneg; lia.
  - unfold eth_GHP_factor64, eth_GHP_factor. destruct (Z.ltb_spec ell (Z.abs (s + 1))); [apply factor_0|].
    apply factor_weaken with (302 / 100)%R; [lra|]. apply GHP_factor_ok; try lia; [apply Z.mul_nonneg_nonneg; lia|].
    apply odd_prod. replace (ell - s + (ell + s)) with (ell * 2) by ring. apply Z.mod_mul. lia.
  - unfold ethbar_GHP_factor64, ethbar_GHP_factor. destruct (Z.ltb_spec ell (Z.abs (s - 1))); [apply factor_0|].
    apply factor_opp. apply factor_weaken with (302 / 100)%R; [lra|].
    apply GHP_factor_ok; try lia; [apply Z.mul_nonneg_nonneg; lia|].
    apply odd_prod. replace (ell + s + (ell - s)) with (ell * 2) by ring. apply Z.mod_mul. lia.
Qed.

(** ** The inverse *)
Lemma RN64_mono x y : (x <= y)%R -> (RN64 x <= RN64 y)%R.
Proof. intros H. unfold RN64. apply round_le; auto. apply FLT_exp_valid; reflexivity. apply valid_rnd_N. Qed.
Lemma RN64_le_0 x : (x <= 0)%R -> (RN64 x <= 0)%R.
Proof. intros H. rewrite <- RN64_zero. apply RN64_mono. auto. Qed.
Lemma RN64_ge_0' x : (0 <= x)%R -> (0 <= RN64 x)%R.
Proof. intros H. rewrite <- RN64_zero. apply RN64_mono. auto. Qed.
Lemma RN64_le_m1 n : n <= -1 -> (RN64 (RN64 (IZR n) + 1) <= 0)%R.
Proof.
  intros H. apply RN64_le_0. assert (RN64 (IZR n) <= RN64 (IZR (-1)))%R by (apply RN64_mono, IZR_le; auto).
  rewrite (RN64_int (-1)) in H0 by lia. lra.
Qed.
(** The computed term has the sign of the exact one *)
Lemma term_pos s ell : 0 <= ell < 100000000 ->
  (0 < int_product64 (ell - s) (ell + s))%R <-> (- ell <= s < ell).
Proof.
  intros He. split.
  - intros Hp. destruct (Z.lt_ge_cases s ell) as [A|A]; [destruct (Z.le_gt_cases (- ell) s); auto|].
    + exfalso. revert Hp. apply Rle_not_lt. unfold int_product64. apply RN64_le_0.
      assert (0 <= RN64 (IZR (ell - s)))%R by (apply RN64_ge_0', IZR_le; lia).
      pose proof (RN64_le_m1 (ell + s) ltac:(lia)). nra.
    + exfalso. revert Hp. apply Rle_not_lt. unfold int_product64. apply RN64_le_0.
      assert (RN64 (IZR (ell - s)) <= 0)%R by (apply RN64_le_0, IZR_le; lia).
      assert (0 <= RN64 (RN64 (IZR (ell + s)) + 1))%R.
      { apply RN64_ge_0'. assert (0 <= RN64 (IZR (ell + s)))%R by (apply RN64_ge_0', IZR_le; lia). lra. }
      nra.
  - intros Hs. pose proof (int_product64_err (ell - s) (ell + s) ltac:(lia) ltac:(lia) ltac:(nia)) as E.
    assert (1 <= IZR ((ell - s) * (ell + s + 1)))%R by (apply IZR_le; nia).
    apply rel_pos in E; lra.
Qed.
Lemma term_pos_exact s ell : 0 <= ell -> (0 < IZR (ell + s + 1) * IZR (ell - s))%R <-> (- ell <= s < ell).
Proof.
  intros He. rewrite <- mult_IZR. split.
  - intros Hp. apply (lt_IZR 0) in Hp. nia.
  - intros Hs. apply (IZR_lt 0). nia.
Qed.

Lemma inverse_loop64_ok div s ell_min ell_max modes :
  0 <= ell_min <= ell_max + 1 -> (ell_max + 1) ^ 2 < 2 ^ 53 -> alen modes = LM_total_size ell_min ell_max ->
  exists out, ethbar_inverse_NP64 div modes s ell_min = Ok out
    /\ alen out = alen modes
    /\ forall ell m, ell_min <= ell <= ell_max -> - ell <= m <= ell ->
         aget out (LM_index ell m ell_min)
         = if Rlt_dec 0 (int_product64 (ell - s) (ell + s))
           then cdivr div (aget modes (LM_index ell m ell_min)) (- RN64 (sqrt (int_product64 (ell - s) (ell + s))))
           else aget modes (LM_index ell m ell_min).
Proof.
  intros. unfold ethbar_inverse_NP64.
  apply (ell_loop64_ok (fun ell x => if Rlt_dec 0 (int_product64 (ell - s) (ell + s))
     then cdivr div x (- RN64 (sqrt (int_product64 (ell - s) (ell + s)))) else x) _ ell_min ell_max); auto.
  intros ell a i He Hi Hl. cbv zeta.
  destruct (Rlt_dec _ _).
  - apply (block_loop (fun x => cdivr div x _)); lia.
  - exists a. cbn [fst snd]. split; auto. split; auto. intros k. destruct (_ && _); auto.
Qed.

Lemma close_refl n x : (0 <= n)%R -> close n x x.
Proof.
  intros Hn. unfold close. replace (x - x)%R with 0%R by ring. rewrite Rabs_R0, tiny_eta. pose proof eta_pos. pose proof u64_pos.
  assert (0 <= n * u64 * Rabs x)%R by (apply Rmult_le_pos; [apply Rmult_le_pos; lra|apply Rabs_pos]). lra.
Qed.
Lemma sqrt_term_range s ell : 0 <= ell < 100000000 -> - ell <= s < ell ->
  (1 <= sqrt (IZR ((ell - s) * (ell + s + 1))) <= 2 ^ 58)%R.
Proof.
  intros He Hs. split.
  - rewrite <- sqrt_1. apply sqrt_le_1_alt, IZR_le. nia.
  - rewrite <- (sqrt_square (2 ^ 58)) by lra. apply sqrt_le_1_alt.
    apply Rle_trans with (IZR (2 ^ 116)); [apply IZR_le; nia|lra].
Qed.
Lemma good_div_neg div : good_div div -> good_div (fun a k => - div a (- k))%R.
Proof.
  intros Hd a k Hk. destruct (Hd a (- k)%R) as [A B]; [rewrite Rabs_Ropp; auto|].
  assert (k <> 0%R) by (intros ->; rewrite Rabs_R0 in Hk; lra). split.
  - destruct (Hd 0%R (- k)%R) as [A' _]; [rewrite Rabs_Ropp; auto|]. rewrite A'. ring.
  - replace (- div a (- k) - a / k)%R with (- (div a (- k) - a / - k))%R by (field; auto). rewrite Rabs_Ropp.
    replace (a / k)%R with (- (a / - k))%R by (field; auto). rewrite Rabs_Ropp. auto.
Qed.

Lemma C60_ethbar_inverse :
  forall div, good_div div ->
  forall modes s ell_min ell_max,
    0 <= ell_min <= ell_max + 1 -> (ell_max + 1) ^ 2 < 2 ^ 53 -> alen modes = LM_total_size ell_min ell_max ->
    array_close 6 (ethbar_inverse_NP64 div modes s ell_min) (ethbar_inverse_NP modes s ell_min).
Proof.
  intros div Hd modes s ell_min ell_max H Hb Hl. pose proof (ell_bound _ Hb) as Hm. pose proof u64_pos.
  destruct (inverse_loop64_ok div s ell_min ell_max modes) as (a & Ea & La & Ga); auto.
  destruct (inverse_loop_ok s ell_min ell_max modes) as (b & Eb & Lb & Gb); auto.
  exists a, b. split; auto. split; auto. split; [congruence|]. intros k Hk.
  destruct (LM_cover ell_min ell_max k) as (ell & m & He & Hmm & <-); [lia|lia|].
  rewrite Ga, Gb by lia. set (x := aget modes _).
  pose proof (term_pos s ell ltac:(lia)) as T1. pose proof (term_pos_exact s ell ltac:(lia)) as T2.
  destruct (Rlt_dec 0 (int_product64 _ _)) as [P|P], (Rlt_dec 0 (IZR _ * IZR _)) as [Q|Q]; try tauto.
  - assert (Hs : - ell <= s < ell) by tauto. pose proof (sqrt_term_range s ell ltac:(lia) Hs) as S.
    rewrite <- mult_IZR in *. rewrite (Z.mul_comm (ell + s + 1)) in *.
    set (t := sqrt (IZR ((ell - s) * (ell + s + 1)))) in *.
    unfold cclose. rewrite Re_unscale, Im_unscale by lra. unfold cdivr. cbn [Re Im fst snd].
    assert (E : (Rabs (RN64 (sqrt (int_product64 (ell - s) (ell + s))) - t) <= 2005 / 1000 * u64 * t)%R).
    { eapply Rle_trans; [apply sqrt_chain with (e := (1002 / 1000)%R); [apply IZR_le; nia|lra|apply int_product64_err; nia]|].
      fold t. repeat apply Rmult_le_compat_r; lra. }
    set (t64 := RN64 _) in *.
    assert (D : forall y, close 6 (div y (- t64)%R) (y / - t)).
    { intros y. replace (div y (- t64)%R) with (- - div y (- t64)%R)%R by ring.
      replace (y / - t)%R with (- (y / t))%R by (field; lra). apply close_opp.
      apply close_weaken with (102 / 100 * (2005 / 1000) + 304 / 100)%R; [lra|].
      apply (div_close (fun a k => - div a (- k))%R); auto using good_div_neg; lra. }
    auto.
  - split; apply close_refl; lra.
Qed.

Lemma C60_ethbar_round_trip :
  forall div, good_div div ->
  forall modes s ell_min ell_max,
    0 <= ell_min <= ell_max + 1 -> (ell_max + 1) ^ 2 < 2 ^ 53 -> alen modes = LM_total_size ell_min ell_max ->
    exists b c, ethbar_NP64 modes (s + 1) ell_min = Ok b /\ ethbar_inverse_NP64 div b s ell_min = Ok c /\ alen c = alen modes /\
      forall ell m, ell_min <= ell <= ell_max -> Z.abs s <= ell -> Z.abs (s + 1) <= ell -> - ell <= m <= ell ->
        cclose 5 (aget c (LM_index ell m ell_min)) (aget modes (LM_index ell m ell_min)).
Proof.
  intros div Hd modes s ell_min ell_max H Hb Hl. pose proof (ell_bound _ Hb) as Hm. pose proof u64_pos. pose proof eta_pos.
  destruct (scale_loop64_ok (ethbar_NP_factor64 (s + 1)) ell_min ell_max modes) as (a & Ea & La & Ga); auto.
  destruct (inverse_loop64_ok div s ell_min ell_max a) as (b & Eb & Lb & Gb); auto; [congruence|].
  exists a, b. split; auto. split; auto. split; [congruence|]. intros ell m He Hs Hs1 Hmm.
  rewrite Gb, Ga by lia. set (x := aget modes _).
  pose proof (term_pos s ell ltac:(lia)) as T1. assert (Hs' : - ell <= s < ell) by lia.
  destruct (Rlt_dec 0 (int_product64 _ _)) as [P|P]; [|tauto].
  pose proof (sqrt_term_range s ell ltac:(lia) Hs') as S.
  assert (F : ethbar_NP_factor64 (s + 1) ell = (- RN64 (sqrt (int_product64 (ell - s) (ell + s))))%R).
  { unfold ethbar_NP_factor64. destruct (Z.ltb_spec ell (Z.abs (s + 1 - 1))); [lia|]. rewrite !int_product64_eq by lia.
    replace ((ell + (s + 1)) * (ell - (s + 1) + 1)) with ((ell - s) * (ell + s + 1)) by ring. auto. }
  rewrite F.
  set (t := sqrt (IZR ((ell - s) * (ell + s + 1)))) in *.
  assert (E : (Rabs (RN64 (sqrt (int_product64 (ell - s) (ell + s))) - t) <= 2005 / 1000 * u64 * t)%R).
  { eapply Rle_trans; [apply sqrt_chain with (e := (1002 / 1000)%R); [apply IZR_le; nia|lra|apply int_product64_err; nia]|].
    fold t. repeat apply Rmult_le_compat_r; lra. }
  set (t64 := RN64 _) in *. apply rel_pos in E; [|lra|lra].
  assert (D : forall y, close 5 (div (RN64 (- t64 * y)) (- t64)%R) y).
  { intros y. apply close_weaken with (1 + 301 / 100)%R; [lra|]. apply div_back; auto; [rewrite Rabs_Ropp, Rabs_pos_eq; lra|lra|].
    pose proof (RN64_err (- t64 * y)). lra. }
  unfold cclose, cdivr, cscale64. cbn [Re Im fst snd]. auto.
Qed.
