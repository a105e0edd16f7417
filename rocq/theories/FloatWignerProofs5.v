(** Rounding errors of the D and SWSH evaluators: the loop over the rows, the size of the terms of a rotor, and the rows
    of a rotor with a part below the cut-off. *)
Require Import ZArith Lia Reals Lra Bool.
From Flocq Require Import Core.
From Coquelicot Require Import Complex.
From Verif Require Import Base BaseProofs CBase Fact RSum CSum SymPow WignerSpec DRep IndexModel FloatIndexModel FloatIndexProofs FloatPowersModel
  FloatPowersSpec FloatPowersProofs FloatConvModel FloatConvSpec FloatConvProofs WignerModel WignerProofs WignerProofs2 WignerProofs3 SWSHModel SWSHProofs
  NearProofs FloatWignerModel FloatWignerSpec FloatWignerProofs FloatWignerProofs2 FloatWignerProofs3 FloatWignerProofs4.
Set Bullet Behavior "Strict Subproofs".
Open Scope R_scope.

(** ** The loop over the rows *)
Lemma fill_exists (f : Z -> res C) (Q : Z -> C -> Prop) N (e : arr C) : (0 <= N <= alen e)%Z ->
  (forall i, (0 <= i < N)%Z -> exists v, f i = Ok v /\ Q i v) ->
  exists out, for_range 0 N (fun i e => bind (f i) (fun x => wr e i x)) e = Ok out
    /\ alen out = alen e /\ (forall i, (0 <= i < N)%Z -> Q i (aget out i))
    /\ (forall i, (N <= i)%Z -> aget out i = aget e i).
Proof.
  intros HN Hf. set (v := fun i => match f i with Ok x => x | Err _ => RtoC 0 end).
  destruct (fill_loop f v N e HN) as (out & E & A & B & D).
  - intros i Hi. destruct (Hf i Hi) as (x & Ex & _). unfold v. rewrite Ex. reflexivity.
  - exists out. split; auto. split; auto. split; auto. intros i Hi. rewrite B by auto.
    destruct (Hf i Hi) as (x & Ex & Qx). unfold v. rewrite Ex. exact Qx.
Qed.
Lemma fill_rows {T} (row : T -> res C) (Q : T -> C -> Prop) (indices : arr T) (e : arr C) : (0 <= alen indices <= alen e)%Z ->
  (forall i, (0 <= i < alen indices)%Z -> exists v, row (aget indices i) = Ok v /\ Q (aget indices i) v) ->
  exists out, for_range 0 (alen indices) (fun i e => do t <- rd indices i; do v <- row t; wr e i v) e = Ok out
    /\ alen out = alen e /\ (forall i, (0 <= i < alen indices)%Z -> Q (aget indices i) (aget out i))
    /\ (forall i, (alen indices <= i)%Z -> aget out i = aget e i).
Proof.
  intros HN Hf. destruct (fill_exists (fun i => do t <- rd indices i; row t) (fun i => Q (aget indices i)) (alen indices) e HN) as (out & E & P).
  - intros i Hi. rewrite rd_ok by auto. cbn [bind]. auto.
  - exists out. split; [|exact P]. rewrite <- E. apply for_loop_ext. intros k s Hk. destruct (rd indices (0 + k * 1)); auto.
Qed.

(** ** The size of the terms *)
Lemma binomial_rsum x y n : (0 <= n)%Z -> rsum 0 n (fun k => bin n k * (x ^ Z.to_nat (n - k) * y ^ Z.to_nat k)) = (x + y) ^ Z.to_nat n.
Proof.
  revert n. apply natlike_ind.
  - rewrite rsum_one, bin_0 by lia. simpl. ring.
  - intros n Hn IH. unfold Z.succ. replace (Z.to_nat (n + 1)) with (S (Z.to_nat n)) by lia. cbn [pow]. rewrite <- IH.
    set (F := fun k => bin n k * (x ^ Z.to_nat (n - k) * y ^ Z.to_nat k)).
    rewrite (rsum_ext 0 (n + 1) _ (fun k => y * F (k - 1)%Z + x * F k)).
    + rewrite rsum_plus, !rsum_scal. rewrite (rsum_first 0 (n + 1) (fun k => F (k - 1)%Z)), (rsum_last 0 (n + 1) F) by lia.
      replace (n + 1 - 1)%Z with n by lia.
      assert (E0 : F (0 - 1)%Z = 0) by (unfold F; rewrite bin_out by lia; ring).
      assert (E1 : F (n + 1)%Z = 0) by (unfold F; rewrite bin_out by lia; ring).
      rewrite E0, E1, <- (rsum_shift 0 n 1 F). ring.
    + intros k Hk. rewrite bin_pascal by auto. unfold F.
      assert (A : bin n (k - 1) * (x ^ Z.to_nat (n + 1 - k) * y ^ Z.to_nat k) = y * (bin n (k - 1) * (x ^ Z.to_nat (n - (k - 1)) * y ^ Z.to_nat (k - 1)))).
      { destruct (Z.eq_dec k 0) as [->|]; [rewrite bin_out by lia; ring|].
        replace (n - (k - 1))%Z with (n + 1 - k)%Z by lia. replace (Z.to_nat k) with (S (Z.to_nat (k - 1))) by lia. cbn [pow]. ring. }
      assert (B : bin n k * (x ^ Z.to_nat (n + 1 - k) * y ^ Z.to_nat k) = x * (bin n k * (x ^ Z.to_nat (n - k) * y ^ Z.to_nat k))).
      { destruct (Z.eq_dec k (n + 1)) as [->|]; [rewrite bin_out by lia; ring|].
        replace (Z.to_nat (n + 1 - k)) with (S (Z.to_nat (n - k))) by lia. cbn [pow]. ring. }
      rewrite Rmult_plus_distr_r, A, B. reflexivity.
Qed.
Lemma term_le_sum j M f : (0 <= j <= M)%Z -> (forall i, (0 <= i <= M)%Z -> 0 <= f i) -> f j <= rsum 0 M f.
Proof.
  intros Hj Hf. rewrite (rsum_split 0 M (j - 1) f) by lia. replace (j - 1 + 1)%Z with j by lia. rewrite (rsum_first j) by lia.
  pose proof (rsum_nonneg 0 (j - 1) f ltac:(intros; apply Hf; lia)). pose proof (rsum_nonneg (j + 1) M f ltac:(intros; apply Hf; lia)). lra.
Qed.
Lemma rsum_sub a b a' b' f : (a' <= a)%Z -> (b <= b')%Z -> (a <= b + 1)%Z -> (forall i, (a' <= i <= b')%Z -> 0 <= f i) -> rsum a b f <= rsum a' b' f.
Proof.
  intros Ha Hb Hab Hf. rewrite (rsum_split a' b' b f) by lia. rewrite (rsum_split a' b (a - 1) f) by lia. replace (a - 1 + 1)%Z with a by lia.
  pose proof (rsum_nonneg a' (a - 1) f ltac:(intros; apply Hf; lia)). pose proof (rsum_nonneg (b + 1) b' f ltac:(intros; apply Hf; lia)). lra.
Qed.
Lemma sum_bound N P q x y : (0 <= P <= N)%Z -> (0 <= q <= N)%Z -> 0 < x -> 0 < y ->
  rsum (Tlo P q) (Thi N P q) (Wterm N P q x y) <= (x + y) ^ Z.to_nat N.
Proof.
  intros HP Hq Hx Hy. pose proof (T_lo_le N P q HP Hq) as HL.
  set (F := fun n k => bin n k * (x ^ Z.to_nat (n - k) * y ^ Z.to_nat k)).
  assert (F0 : forall n k, (0 <= n)%Z -> 0 <= F n k).
  { intros n k Hn. unfold F. apply Rmult_le_pos; [apply bin_nonneg; auto|]. apply Rmult_le_pos; apply pow_le; lra. }
  apply Rle_trans with (rsum (Tlo P q) (Thi N P q) (fun k => F P k * (x + y) ^ Z.to_nat (N - P))).
  - apply rsum_le. intros k Hk. unfold Wterm. unfold Tlo, Thi in *.
    replace (bin P k * bin (N - P) (N - q - k) * (powerRZ x (P + (N - q) - 2 * k) * powerRZ y (q - P + 2 * k)))
      with (F P k * F (N - P)%Z (q - P + k)%Z).
    + apply Rmult_le_compat_l; [apply F0; lia|]. rewrite <- (binomial_rsum x y (N - P)) by lia.
      apply (term_le_sum (q - P + k) (N - P) (F (N - P)%Z)); [lia|]. intros i Hi. apply F0. lia.
    + unfold F. rewrite (bin_sym (N - P) (N - q - k)) by lia. replace (N - P - (N - q - k))%Z with (q - P + k)%Z by lia.
      rewrite !pow_powerRZ by lia.
      replace (P + (N - q) - 2 * k)%Z with ((P - k) + (N - P - (q - P + k)))%Z by lia.
      replace (q - P + 2 * k)%Z with (k + (q - P + k))%Z by lia. rewrite !powerRZ_add by lra. ring.
  - rewrite rsum_scal_r. replace (Z.to_nat N) with (Z.to_nat P + Z.to_nat (N - P))%nat by lia. rewrite pow_add.
    apply Rmult_le_compat_r; [apply pow_le; lra|]. rewrite <- (binomial_rsum x y P) by lia.
    apply (rsum_sub _ _ 0 P (F P)); unfold Tlo, Thi in *; try lia. intros; apply F0; lia.
Qed.
Lemma Wsize_sym N p q x y : (0 <= p <= N)%Z -> (0 <= q <= N)%Z -> Wsize N p q x y = Wsize N (N - q) (N - p) x y.
Proof.
  intros Hp Hq. pose proof (T_lo_le N p q Hp Hq) as HL. unfold Wsize. rewrite !wt_flip.
  replace (Tlo (N - q) (N - p)) with (Tlo p q) by (unfold Tlo; lia). replace (Thi N (N - q) (N - p)) with (Thi N p q) by (unfold Thi; lia).
  rewrite <- !rsum_scal. apply rsum_ext. intros k Hk. unfold Wterm, Tlo, Thi in *.
  replace (N - q + (N - (N - p)) - 2 * k)%Z with (p + (N - q) - 2 * k)%Z by lia.
  replace (N - p - (N - q) + 2 * k)%Z with (q - p + 2 * k)%Z by lia. rewrite <- !Rmult_assoc. f_equal. f_equal.
  replace (N - (N - q))%Z with q by lia. replace (N - (N - p) - k)%Z with (p - k)%Z by lia.
  rewrite !bin_fct by lia.
  replace (q - (p - k))%Z with (q - p + k)%Z by lia. replace (N - p - (N - q - k))%Z with (q - p + k)%Z by lia.
  assert (Fp : 0 < fct p * fct (N - p)) by (apply Rmult_lt_0_compat; apply fct_pos).
  assert (Fq : 0 < fct q * fct (N - q)) by (apply Rmult_lt_0_compat; apply fct_pos).
  unfold wt. rewrite !sqrt_div_alt by auto.
  pose proof (sqrt_sqrt _ (Rlt_le _ _ Fp)) as Sp. pose proof (sqrt_sqrt _ (Rlt_le _ _ Fq)) as Sq.
  pose proof (sqrt_lt_R0 _ Fp) as Pp. pose proof (sqrt_lt_R0 _ Fq) as Pq.
  set (sp := sqrt (fct p * fct (N - p))) in *. set (sq := sqrt (fct q * fct (N - q))) in *.
  apply Rmult_eq_reg_r with (sp * sq); [|apply Rgt_not_eq, Rmult_lt_0_compat; auto].
  transitivity (sq * sq * (fct p * fct (N - p)) * (ifct k * ifct (p - k) * ifct (N - q - k) * ifct (q - p + k))); [field; lra|].
  transitivity (sp * sp * (fct q * fct (N - q)) * (ifct k * ifct (p - k) * ifct (N - q - k) * ifct (q - p + k))); [|field; lra].
  rewrite Sp, Sq. ring.
Qed.
Lemma Wsize_le N p q x y : (0 <= p <= N)%Z -> (0 <= q <= N)%Z -> 0 < x -> 0 < y -> Wsize N p q x y <= (x + y) ^ Z.to_nat N.
Proof.
  intros Hp Hq Hx Hy.
  assert (K : forall P Q, (0 <= P <= N)%Z -> (0 <= Q <= N)%Z -> wt N Q <= wt N P -> Wsize N P Q x y <= (x + y) ^ Z.to_nat N).
  { intros P Q HP HQ Hw. unfold Wsize. assert (W : 0 < wt N P) by (unfold wt; apply Rmult_lt_0_compat; apply fct_pos).
    assert (0 <= wt N Q) by (unfold wt; apply Rmult_le_pos; left; apply fct_pos).
    assert (sqrt (wt N Q / wt N P) <= 1).
    { rewrite <- sqrt_1. apply sqrt_le_1_alt. apply Rmult_le_reg_r with (wt N P); auto. unfold Rdiv. rewrite Rmult_assoc, Rinv_l by lra. lra. }
    pose proof (sum_bound N P Q x y HP HQ Hx Hy) as B. pose proof (sqrt_pos (wt N Q / wt N P)).
    assert (0 <= (x + y) ^ Z.to_nat N) by (apply pow_le; lra).
    apply Rle_trans with (sqrt (wt N Q / wt N P) * (x + y) ^ Z.to_nat N); [apply Rmult_le_compat_l; auto|]. nra. }
  destruct (Rle_dec (wt N q) (wt N p)) as [L|G]; [apply K; auto|].
  rewrite Wsize_sym by auto. apply K; try lia. rewrite !wt_flip. lra.
Qed.
Lemma Wsize_nonneg N p q x y : (0 <= p <= N)%Z -> (0 <= q <= N)%Z -> 0 < x -> 0 < y -> 0 <= Wsize N p q x y.
Proof.
  intros Hp Hq Hx Hy. unfold Wsize. apply Rmult_le_pos; [apply sqrt_pos|]. apply rsum_nonneg. intros i Hi. unfold Wterm.
  apply Rmult_le_pos; apply Rmult_le_pos; try (apply bin_nonneg; lia); left; apply powerRZ_lt; auto.
Qed.

(** ** A rotor with a part below the cut-off *)
Lemma Dm_scale N p q l a b : (0 <= p <= N)%Z -> (0 <= q <= N)%Z ->
  Dm N p q (RtoC l * a)%C (RtoC l * b)%C = (RtoC (l ^ Z.to_nat N) * Dm N p q a b)%C.
Proof.
  intros Hp Hq. rewrite !(Dm_sum N p q _ _ 0 p) by lia.
  transitivity (RtoC (sqrt (fct q * fct (N - q) / (fct p * fct (N - p)))) * (RtoC (l ^ Z.to_nat N) * csum 0 p (Dterm N p q a b)))%C; [|ring].
  f_equal. rewrite <- csum_scal. apply csum_ext. intros k Hk. unfold Dterm.
  destruct (Z_lt_ge_dec (N - q - k) 0); [rewrite (bin_out (N - p)) by lia; ring|].
  destruct (Z_lt_ge_dec (N - p) (N - q - k)); [rewrite (bin_out (N - p)) by lia; ring|].
  rewrite !Cconj_mult, !Cconj_RtoC, !Cpow_mul, !Cpow_RtoC.
  replace (Z.to_nat N) with (Z.to_nat (p - k) + Z.to_nat (N - q - k) + Z.to_nat (k - p + q) + Z.to_nat k)%nat by lia.
  rewrite !pow_add, !RtoC_mult. ring.
Qed.

Lemma eps_u : / 1000 * u64 <= epsilon <= 901 / 100 * u64.
Proof. unfold epsilon, u64. simpl. lra. Qed.
Lemma pow_8u x k : 0 <= x -> Rabs (x - 1) <= 8 * u64 -> (k <= 64)%nat -> Rabs (x ^ k - 1) <= g (8 * k).
Proof.
  intros Hx H Hk. pose proof u64_pos as U. apply Rabs_le_inv in H. apply Rabs_le.
  assert (G8 : 1 + 8 * u64 <= (1 + u64) ^ 8). { pose proof (g_ge 8) as G. unfold g in G. replace (INR 8) with 8 in G by (rewrite INR_IZR_INZ; reflexivity). lra. }
  split.
  - assert (B : 1 - INR k * (8 * u64) <= x ^ k).
    { clear Hk. induction k as [|k IH]; [simpl; lra|]. rewrite S_INR. cbn [pow]. pose proof (pos_INR k).
      destruct (Rle_dec 0 (1 - INR k * (8 * u64))) as [P|P].
      - apply Rle_trans with ((1 - 8 * u64) * (1 - INR k * (8 * u64))).
        + assert (0 <= 8 * u64 * (INR k * (8 * u64))) by (apply Rmult_le_pos; [lra|apply Rmult_le_pos; lra]). lra.
        + apply Rle_trans with (x * (1 - INR k * (8 * u64))); [apply Rmult_le_compat_r; lra|apply Rmult_le_compat_l; lra].
      - pose proof (pow_le x k Hx). assert (0 <= x * x ^ k) by (apply Rmult_le_pos; lra). lra. }
    pose proof (g_ge (8 * k)) as G. rewrite mult_INR in G. replace (INR 8) with 8 in G by (rewrite INR_IZR_INZ; reflexivity). lra.
  - unfold g. rewrite pow_mult. apply Rplus_le_compat_r. apply pow_incr. lra.
Qed.
Lemma power_unit r n : 1 - 9 * u64 <= r <= 1 + 8 * u64 -> (Z.abs n <= 64)%Z -> 0 <= powerRZ r n <= 101 / 100.
Proof.
  intros Hr Hn. pose proof u64_pos as U. assert (Ur : u64 <= / 1000000) by (unfold u64; lra). split; [left; apply powerRZ_lt; lra|].
  assert (K : forall x k, 0 <= x <= 1 + 10 * u64 -> (k <= 64)%nat -> x ^ k <= 101 / 100).
  { intros x k Hx Hk. apply Rle_trans with (((1 + u64) ^ 10) ^ k).
    - apply pow_incr. pose proof (g_ge 10) as G. unfold g in G. replace (INR 10) with 10 in G by (rewrite INR_IZR_INZ; reflexivity). lra.
    - rewrite <- pow_mult. pose proof (g_half (10 * k) ltac:(lia)) as G. unfold g in G. lra. }
  destruct (Z_le_gt_dec 0 n).
  - rewrite <- pow_powerRZ by lia. apply K; [lra|lia].
  - replace n with (- - n)%Z by lia. rewrite powerRZ_neg' , <- pow_powerRZ by lia. rewrite <- pow_inv. apply K; [|lia]. split; [left; apply Rinv_0_lt_compat; lra|].
    apply Rmult_le_reg_r with r; [lra|]. rewrite Rinv_l by lra.
    apply Rle_trans with ((1 + 10 * u64) * (1 - 9 * u64)); [|apply Rmult_le_compat_l; lra].
    assert (u64 * u64 <= u64 * / 1000000) by (apply Rmult_le_compat_l; lra). lra.
Qed.

Section Degenerate.
  Variables (N p q : Z) (a b : C).
  Hypothesis HN : (0 <= N <= 64)%Z.
  Hypothesis Hp : (0 <= p <= N)%Z.
  Hypothesis Hq : (0 <= q <= N)%Z.
  Hypothesis U : nearly_unit a b.
  Let nu := sqrt (Cmod a ^ 2 + Cmod b ^ 2).

  Lemma nu_sq : nu * nu = Cmod a ^ 2 + Cmod b ^ 2 /\ 1 - 8 * u64 <= nu * nu <= 1 + 8 * u64 /\ 1 - 8 * u64 <= nu <= 1 + 8 * u64.
  Proof.
    pose proof u64_pos as Up. assert (Ur : u64 <= / 1000000) by (unfold u64; lra).
    pose proof U as U'. unfold nearly_unit in U'. apply Rabs_le_inv in U'. unfold nu.
    assert (S : sqrt (Cmod a ^ 2 + Cmod b ^ 2) * sqrt (Cmod a ^ 2 + Cmod b ^ 2) = Cmod a ^ 2 + Cmod b ^ 2) by (apply sqrt_sqrt; lra).
    pose proof (sqrt_pos (Cmod a ^ 2 + Cmod b ^ 2)) as P. set (s := sqrt (Cmod a ^ 2 + Cmod b ^ 2)) in *. set (w := Cmod a ^ 2 + Cmod b ^ 2) in *.
    split; [auto|]. split; [lra|]. split.
    - apply Rnot_lt_le. intros L. assert (s * s <= (1 - 8 * u64) * (1 - 8 * u64)) by (apply Rmult_le_compat; lra).
      assert (0 <= u64 * u64 <= u64 * / 1000000) by (split; [apply Rmult_le_pos; lra|apply Rmult_le_compat_l; lra]). lra.
    - apply Rnot_lt_le. intros L. assert ((1 + 8 * u64) * (1 + 8 * u64) <= s * s) by (apply Rmult_le_compat; lra).
      assert (0 <= u64 * u64) by (apply Rmult_le_pos; lra). lra.
  Qed.
  Lemma nu_pos : 0 < nu.
  Proof. destruct nu_sq as (_ & _ & B & _). assert (u64 <= / 1000000) by (unfold u64; lra). lra. Qed.
  Lemma nu_unit : (RtoC (/ nu) * a * Cconj (RtoC (/ nu) * a) + RtoC (/ nu) * b * Cconj (RtoC (/ nu) * b))%C = RtoC 1.
  Proof.
    pose proof nu_pos. destruct nu_sq as (E & _). rewrite !Cconj_mod, <- RtoC_plus. f_equal.
    rewrite !Cmod_mult, Cmod_R, Rabs_pos_eq by (left; apply Rinv_0_lt_compat; auto).
    transitivity (/ nu * / nu * (Cmod a ^ 2 + Cmod b ^ 2)); [ring|]. rewrite <- E. field. lra.
  Qed.
  (** [big] is the part that remains, [k] half the power of the norm that is lost *)
  Lemma deg_core (sg : R) (big : C) (k e : Z) (small : R) (d : bool) : Rabs sg = 1 -> big <> RtoC 0 -> (0 <= k <= N)%Z -> (2 * k = N - e)%Z -> 0 <= small <= 101 / 100 * epsilon ->
    0 <= powerRZ (Cmod big) e <= 101 / 100 ->
    Cmod (Dm N p q (RtoC (/ nu) * a) (RtoC (/ nu) * b) - (if d then RtoC sg * Cpowz (RtoC (/ nu) * big) e else RtoC 0))%C <= IZR (N + 1) * (/ nu * small) ->
    Cmod (Dm N p q a b - (if d then RtoC sg * Cpowz big e else RtoC 0))%C <= 174 / 10 * (IZR N + 1) * u64.
  Proof.
    intros Hsg Hb Hk He Hs Hpw H. pose proof nu_pos as P. destruct nu_sq as (E & B & B'). pose proof u64_pos as Up. pose proof eps_u as Ee.
    assert (Ur : u64 <= / 1000000) by (unfold u64; lra).
    assert (Hin : 0 < / nu <= 101 / 100).
    { split; [apply Rinv_0_lt_compat; auto|]. apply Rmult_le_reg_r with nu; auto. rewrite Rinv_l by lra. lra. }
    assert (PN : 0 <= nu ^ Z.to_nat N <= 101 / 100).
    { split; [apply pow_le; lra|]. rewrite pow_powerRZ by lia. apply power_unit; [lra|lia]. }
    assert (EN : forall x, x = (RtoC nu * (RtoC (/ nu) * x))%C).
    { intros x. rewrite Cmult_assoc, <- RtoC_mult, Rinv_r by lra. ring. }
    set (D' := Dm N p q (RtoC (/ nu) * a)%C (RtoC (/ nu) * b)%C) in *.
    assert (ED : Dm N p q a b = (RtoC (nu ^ Z.to_nat N) * D')%C).
    { unfold D'. rewrite <- Dm_scale by auto. rewrite <- !EN. reflexivity. }
    assert (N0 : 0 <= IZR N <= 64) by (split; [apply (IZR_le 0)|apply (IZR_le _ 64)]; lia).
    assert (X : Cmod (Dm N p q a b - RtoC (nu ^ Z.to_nat N) * (if d then RtoC sg * Cpowz (RtoC (/ nu) * big) e else RtoC 0))%C <= 93 / 10 * (IZR N + 1) * u64).
    { rewrite ED. replace (RtoC (nu ^ Z.to_nat N) * D' - RtoC (nu ^ Z.to_nat N) * (if d then RtoC sg * Cpowz (RtoC (/ nu) * big) e else RtoC 0))%C
        with (RtoC (nu ^ Z.to_nat N) * (D' - (if d then RtoC sg * Cpowz (RtoC (/ nu) * big) e else RtoC 0)))%C by ring.
      rewrite Cmod_mult, Cmod_R, Rabs_pos_eq by lra. rewrite plus_IZR in H.
      apply Rle_trans with (101 / 100 * ((IZR N + 1) * (101 / 100 * (101 / 100 * (901 / 100 * u64))))).
      - apply Rmult_le_compat; try lra; [apply Cmod_ge_0|]. eapply Rle_trans; [exact H|]. apply Rmult_le_compat_l; [lra|].
        apply Rmult_le_compat; lra.
      - assert (0 <= (IZR N + 1) * u64) by (apply Rmult_le_pos; lra). lra. }
    assert (Y : Cmod (RtoC (nu ^ Z.to_nat N) * (if d then RtoC sg * Cpowz (RtoC (/ nu) * big) e else RtoC 0) - (if d then RtoC sg * Cpowz big e else RtoC 0))%C
       <= 81 / 10 * (IZR N + 1) * u64).
    { assert (0 <= (IZR N + 1) * u64) by (apply Rmult_le_pos; lra). destruct d.
      2:{ replace (RtoC (nu ^ Z.to_nat N) * RtoC 0 - RtoC 0)%C with (RtoC 0) by ring. rewrite Cmod_0. lra. }
      assert (Nn : RtoC (/ nu) <> RtoC 0) by (apply RtoC_neq0; lra).
      rewrite Cpowz_mul, Cpowz_RtoC by (auto; lra).
      replace (RtoC (nu ^ Z.to_nat N) * (RtoC sg * (RtoC (powerRZ (/ nu) e) * Cpowz big e)) - RtoC sg * Cpowz big e)%C
        with (RtoC sg * RtoC (nu ^ Z.to_nat N * powerRZ (/ nu) e - 1) * Cpowz big e)%C by (rewrite RtoC_minus, RtoC_mult; ring).
      replace (nu ^ Z.to_nat N * powerRZ (/ nu) e) with ((nu * nu) ^ Z.to_nat k).
      2:{ rewrite powerRZ_inv', <- powerRZ_neg'. rewrite (pow_powerRZ nu N) by lia. rewrite <- powerRZ_add by lra.
          replace (N + - e)%Z with (k + k)%Z by lia. rewrite powerRZ_add by lra. rewrite Rpow_mult_distr, !pow_powerRZ by lia. reflexivity. }
      rewrite !Cmod_mult, !Cmod_R, Hsg, Rmult_1_l. rewrite Cpowz_polar by auto. rewrite Cmod_mult, Cmod_cis, Cmod_R, (Rabs_pos_eq (powerRZ _ _)), Rmult_1_r by lra.
      pose proof (pow_8u (nu * nu) (Z.to_nat k) ltac:(apply Rmult_le_pos; lra) ltac:(apply Rabs_le; lra) ltac:(lia)) as Q.
      pose proof (g_small (8 * Z.to_nat k) ltac:(lia)) as G. rewrite mult_INR, INR_to_nat in G by lia. replace (INR 8) with 8 in G by (rewrite INR_IZR_INZ; reflexivity).
      assert (K0 : 0 <= IZR k <= IZR N) by (split; [apply (IZR_le 0)|apply IZR_le]; lia).
      apply Rle_trans with (1001 / 1000 * (8 * IZR N) * u64 * (101 / 100)).
      - apply Rmult_le_compat; try lra; [apply Rabs_pos|]. eapply Rle_trans; [exact Q|]. eapply Rle_trans; [exact G|].
        apply Rmult_le_compat_r; lra.
      - assert (0 <= IZR N * u64) by (apply Rmult_le_pos; lra). lra. }
    match goal with |- Cmod (?x - ?z)%C <= _ => match type of X with Cmod (_ - ?y)%C <= _ => replace (x - z)%C with ((x - y) + (y - z))%C by ring end end.
    eapply Rle_trans; [apply Cmod_triangle|]. assert (0 <= (IZR N + 1) * u64) by (apply Rmult_le_pos; lra). lra.
  Qed.
End Degenerate.
