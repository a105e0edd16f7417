(** What the computations of TableCheck.v mean. *)
Require Import ZArith Lia Reals Lra Bool List.
From Flocq Require Import Core.
From Verif Require Import Base BaseProofs Fact IndexModel IndexProofs IndexProps FloatIndexModel FloatIndexProofs FloatPowersSpec WignerModel
  TableData TableModel TableSpec TableCheck.
Import ListNotations.
Set Bullet Behavior "Strict Subproofs".

(** ** The computations *)
Lemma binomial_check_ok : forallb (fun n => forallb (binomial_at pascal n) (nats 0 n)) (nats 0 64) = true.
Proof. vm_compute. reflexivity. Qed.
Lemma ladder_check_ok : forallb (fun t => forallb (ladder_at t) (nats 0 t)) (nats 0 64) = true.
Proof. vm_compute. reflexivity. Qed.
Lemma exceptions_check_ok : forallb (exception_at pascal) Wigner_file_exceptions = true.
Proof. vm_compute. reflexivity. Qed.
Lemma Wigner_check_ok :
  forallb (fun t => forallb (fun a => forallb (Wigner_at pascal t a) (nats (t - a) a)) (nats (Nat.div2 (S t)) t)) (nats 0 64) = true.
Proof. vm_compute. reflexivity. Qed.
Lemma lengths_ok : length binomial_file = 2145%nat /\ length ladder_file = 2145%nat.
Proof. vm_compute. auto. Qed.

(** ** Pascal's triangle *)
Lemma zip_add_length l : forall l', length (zip_add l l') = Nat.min (length l) (length l').
Proof. induction l as [|x l IH]; intros [|y l']; cbn; auto. Qed.
Lemma zip_add_nth l : forall l' k, (k < length l)%nat -> (k < length l')%nat -> nth k (zip_add l l') 0%Z = (nth k l 0 + nth k l' 0)%Z.
Proof.
  induction l as [|x l IH]; intros [|y l'] k H H'; cbn in *; try lia. destruct k; auto. apply IH; lia.
Qed.
Lemma row_length n : length (row n) = S n.
Proof.
  induction n; auto. change (row (S n)) with (zip_add (0%Z :: row n) (row n ++ [0%Z])).
  rewrite zip_add_length, app_length. cbn [length]. lia.
Qed.
Lemma C_n_0 n : Binomial.C n 0 = 1%R.
Proof. unfold Binomial.C. rewrite Nat.sub_0_r. change (INR (fact 0)) with 1%R. field. apply INR_fact_neq_0. Qed.
Lemma C_n_n n : Binomial.C n n = 1%R.
Proof. unfold Binomial.C. rewrite Nat.sub_diag. change (INR (fact 0)) with 1%R. field. apply INR_fact_neq_0. Qed.
Lemma row_nth n : forall k, (k <= n)%nat -> IZR (nth k (row n) 0%Z) = Binomial.C n k.
Proof.
  induction n as [|n IH]; intros k Hk.
  - replace k with 0%nat by lia. cbn. unfold Binomial.C. cbn. field.
  - change (row (S n)) with (zip_add (0%Z :: row n) (row n ++ [0%Z])).
    rewrite zip_add_nth by (rewrite ?app_length; cbn [length]; rewrite row_length; lia). rewrite plus_IZR.
    destruct k as [|k].
    + rewrite app_nth1 by (rewrite row_length; lia). rewrite IH by lia. cbn [nth]. rewrite !C_n_0. lra.
    + cbn [nth]. rewrite IH by lia. destruct (Nat.eq_dec k n) as [->|].
      * rewrite app_nth2 by (rewrite row_length; lia). rewrite row_length, Nat.sub_diag. cbn [nth]. rewrite !C_n_n. lra.
      * rewrite app_nth1 by (rewrite row_length; lia). rewrite IH by lia. apply Binomial.pascal. lia.
Qed.
Lemma choose_ok n k : (n <= 64)%nat -> (k <= n)%nat -> IZR (choose pascal n k) = Binomial.C n k.
Proof.
  intros Hn Hk. unfold choose, pascal. rewrite (nth_indep _ [] (row 0)) by (rewrite map_length, seq_length; lia).
  rewrite map_nth, seq_nth by lia. apply row_nth. auto.
Qed.
Lemma choose_nonneg n k : (n <= 64)%nat -> (k <= n)%nat -> (0 <= choose pascal n k)%Z.
Proof.
  intros. apply le_IZR. rewrite choose_ok by auto. unfold Binomial.C, Rdiv. apply Rmult_le_pos; [apply pos_INR|].
  left. apply Rinv_0_lt_compat. apply Rmult_lt_0_compat; apply INR_fact_lt_0.
Qed.

(** ** Checks *)
Lemma forallb_nats f a b : forallb f (nats a b) = true -> forall n, (a <= n <= b)%nat -> f n = true.
Proof. intros H n Hn. rewrite forallb_forall in H. apply H. unfold nats. apply in_seq. lia. Qed.

Lemma triangle_nats f b : forallb (fun n => forallb (f n) (nats 0 n)) (nats 0 b) = true ->
  forall n k, (n <= b)%nat -> (k <= n)%nat -> f n k = true.
Proof. intros H n k Hn Hk. apply (forallb_nats (f n) 0 n); [|lia]. apply (forallb_nats _ 0 b H). lia. Qed.
Lemma quarter_nats f b : forallb (fun t => forallb (fun a => forallb (f t a) (nats (t - a) a)) (nats (Nat.div2 (S t)) t)) (nats 0 b) = true ->
  forall t a k, (t <= b)%nat -> (Nat.div2 (S t) <= a <= t)%nat -> (t - a <= k <= a)%nat -> f t a k = true.
Proof.
  intros H t a k Ht Ha Hk. apply (forallb_nats (f t a) (t - a) a); [|exact Hk].
  apply (forallb_nats (fun a => forallb (f t a) (nats (t - a) a)) (Nat.div2 (S t)) t); [|exact Ha].
  apply (forallb_nats _ 0 b H). lia.
Qed.
Definition binomial_each := triangle_nats (binomial_at pascal) 64 binomial_check_ok.
Definition ladder_each := triangle_nats ladder_at 64 ladder_check_ok.
Definition Wigner_each := quarter_nats (Wigner_at pascal) 64 Wigner_check_ok.

Lemma bpow_IZR e : (0 <= e)%Z -> bpow radix2 e = IZR (2 ^ e).
Proof. intros. rewrite <- IZR_Zpower by auto. reflexivity. Qed.
Lemma bpow_neg e : (e <= 0)%Z -> bpow radix2 e = (/ IZR (2 ^ (- e)))%R.
Proof. intros. rewrite <- bpow_IZR by lia. rewrite <- bpow_opp. f_equal. lia. Qed.
Lemma pow2_pos e : (0 <= e)%Z -> (0 < IZR (2 ^ e))%R.
Proof. intros. apply (IZR_lt 0). apply Z.pow_pos_nonneg; lia. Qed.

Lemma int_ok_close n p : int_ok n p = true -> (0 <= n)%Z ->
  (Rabs (double_of p - IZR n) <= u64 * IZR n)%R /\ ((n < 2 ^ 53)%Z -> double_of p = IZR n).
Proof.
  destruct p as [M e]. unfold int_ok, double_of. cbn [fst snd]. intros H Hn.
  assert (Hn' : (0 <= IZR n)%R) by (apply IZR_le; auto).
  assert (U : (0 < u64)%R) by (unfold u64; lra).
  destruct (Z.leb_spec e 0).
  - apply Z.eqb_eq in H. rewrite Z.shiftl_mul_pow2 in H by lia. subst M.
    assert (E : (IZR (n * 2 ^ (- e)) * bpow radix2 e = IZR n)%R).
    { rewrite mult_IZR, bpow_neg by auto. field. pose proof (pow2_pos (- e) ltac:(lia)). lra. }
    rewrite E. split; auto. unfold Rminus. rewrite Rplus_opp_r, Rabs_R0. apply Rmult_le_pos; lra.
  - apply Z.leb_le in H. rewrite !Z.shiftl_mul_pow2 in H by lia.
    rewrite bpow_IZR, <- mult_IZR by lia. split.
    + rewrite <- minus_IZR, <- abs_IZR. apply IZR_le in H. rewrite mult_IZR in H. unfold u64.
      change (IZR (2 ^ 53)) with 9007199254740992%R in H. lra.
    + intros Hb. f_equal. lia.
Qed.

Lemma sq_le a b : (0 <= b)%R -> (a * a <= b * b)%R -> (a <= b)%R.
Proof. intros. apply Rsqr_incr_0_var; auto. Qed.

Lemma sqrt_ok_close q p : sqrt_ok q p = true -> (0 <= q)%Z -> one_ulp_below (double_of p) (sqrt (IZR q / 4)).
Proof.
  destruct p as [M e]. unfold sqrt_ok, double_of, one_ulp_below. cbn [fst snd]. intros H Hq.
  assert (Hq' : (0 <= IZR q)%R) by (apply IZR_le; auto).
  destruct (Z.eqb_spec q 0) as [->|Hq0].
  - apply Z.eqb_eq in H. subst M. unfold Rdiv. rewrite Rmult_0_l, sqrt_0. lra.
  - apply andb_true_iff in H. destruct H as [HM H]. apply Z.leb_le in HM.
    assert (HM' : (4503599627370496 <= IZR M)%R) by (apply IZR_le; auto).
    assert (K : exists B, (0 < B)%R /\ (IZR M * bpow radix2 e = IZR M * B)%R /\ (4 * (IZR M * B * (IZR M * B)) <= IZR q)%R
                /\ (IZR q <= 4 * ((IZR M + 1) * B * ((IZR M + 1) * B)))%R).
    { destruct (Z.leb_spec e 0).
      - apply andb_true_iff in H. destruct H as [H1 H2]. apply Z.leb_le, IZR_le in H1. apply Z.leb_le, IZR_le in H2.
        rewrite Z.shiftl_mul_pow2 in H1, H2 by lia.
        replace (-2 * e)%Z with (- e + - e)%Z in H1, H2 by lia. rewrite Z.pow_add_r in H1, H2 by lia.
        pose proof (pow2_pos (- e) ltac:(lia)) as P. rewrite bpow_neg by auto.
        set (Q := (2 ^ (- e))%Z) in *. rewrite !mult_IZR in *. rewrite !plus_IZR, !mult_IZR in H2.
        exists (/ IZR Q)%R. split; [apply Rinv_0_lt_compat; auto|]. split; auto.
        assert (E : (IZR q = IZR q * (IZR Q * IZR Q) * (/ IZR Q * / IZR Q))%R) by (field; lra).
        assert (P2 : (0 <= / IZR Q * / IZR Q)%R) by (left; apply Rmult_lt_0_compat; apply Rinv_0_lt_compat; auto).
        split; rewrite E.
        + replace (4 * (IZR M * / IZR Q * (IZR M * / IZR Q)))%R with (4 * (IZR M * IZR M) * (/ IZR Q * / IZR Q))%R by ring.
          apply Rmult_le_compat_r; lra.
        + replace (4 * ((IZR M + 1) * / IZR Q * ((IZR M + 1) * / IZR Q)))%R
            with (4 * (IZR M * IZR M + 2 * IZR M + 1) * (/ IZR Q * / IZR Q))%R by ring.
          apply Rmult_le_compat_r; lra.
      - apply andb_true_iff in H. destruct H as [H1 H2]. apply Z.leb_le, IZR_le in H1. apply Z.leb_le, IZR_le in H2.
        rewrite Z.shiftl_mul_pow2 in H1, H2 by lia.
        replace (2 * e)%Z with (e + e)%Z in H1, H2 by lia. rewrite Z.pow_add_r in H1, H2 by lia.
        pose proof (pow2_pos e ltac:(lia)) as P. rewrite bpow_IZR by lia. exists (IZR (2 ^ e)).
        set (Q := (2 ^ e)%Z) in *. rewrite !mult_IZR in *. rewrite !plus_IZR, !mult_IZR in H2.
        split; auto. split; auto. split; lra. }
    destruct K as (B & HB & -> & H1 & H2).
    set (y := sqrt (IZR q / 4)). assert (Hy : (0 <= y)%R) by apply sqrt_pos.
    assert (Ey : (y * y = IZR q / 4)%R) by (apply sqrt_sqrt; lra).
    assert (A : (IZR M * B <= y)%R) by (apply sq_le; lra).
    assert (A' : (y <= (IZR M + 1) * B)%R) by (apply sq_le; [apply Rmult_le_pos; lra|lra]).
    split; [lra|]. apply Rle_trans with B; [lra|].
    assert (4503599627370496 * B <= IZR M * B)%R by (apply Rmult_le_compat_r; lra). unfold u64. lra.
Qed.

(** ** The Wigner coefficients *)
Lemma C_fct n k : (k <= n)%nat -> Binomial.C n k = (INR (fact n) / (INR (fact k) * INR (fact (n - k))))%R.
Proof. reflexivity. Qed.

(** the entry with [ell + m = a] and [ell + mp = b] *)
Lemma entry_sq t a b : (a <= t)%nat -> (b <= t)%nat ->
  let W := Wigner_entry (Z.of_nat t) (2 * Z.of_nat b - Z.of_nat t) (2 * Z.of_nat a - Z.of_nat t) in
  (0 <= W)%R /\ (W * W = Binomial.C (t - Nat.min a b) (Nat.max a b - Nat.min a b) * Binomial.C (Nat.max a b) (Nat.max a b - Nat.min a b))%R.
Proof.
  intros Ha Hb W.
  assert (EW : W = Wigner_entry (Z.of_nat t) (2 * Z.of_nat b - Z.of_nat t) (2 * Z.of_nat a - Z.of_nat t)) by reflexivity.
  clearbody W. unfold Wigner_entry in EW. cbv zeta in EW.
  replace ((Z.of_nat t + (2 * Z.of_nat a - Z.of_nat t)) / 2)%Z with (Z.of_nat a) in EW
    by (replace (Z.of_nat t + (2 * Z.of_nat a - Z.of_nat t))%Z with (Z.of_nat a * 2)%Z by lia; rewrite Z.div_mul; lia).
  replace ((Z.of_nat t + (2 * Z.of_nat b - Z.of_nat t)) / 2)%Z with (Z.of_nat b) in EW
    by (replace (Z.of_nat t + (2 * Z.of_nat b - Z.of_nat t))%Z with (Z.of_nat b * 2)%Z by lia; rewrite Z.div_mul; lia).
  replace ((Z.of_nat t - (2 * Z.of_nat a - Z.of_nat t)) / 2)%Z with (Z.of_nat (t - a)) in EW
    by (replace (Z.of_nat t - (2 * Z.of_nat a - Z.of_nat t))%Z with (Z.of_nat (t - a) * 2)%Z by lia; rewrite Z.div_mul; lia).
  replace ((Z.of_nat t - (2 * Z.of_nat b - Z.of_nat t)) / 2)%Z with (Z.of_nat (t - b)) in EW
    by (replace (Z.of_nat t - (2 * Z.of_nat b - Z.of_nat t))%Z with (Z.of_nat (t - b) * 2)%Z by lia; rewrite Z.div_mul; lia).
  replace (Z.max 0 (2 * Z.of_nat b - Z.of_nat t - (2 * Z.of_nat a - Z.of_nat t)))%Z with (Z.of_nat (b - a) * 2)%Z in EW by lia.
  rewrite Z.div_mul in EW by lia.
  replace ((Z.of_nat t - (2 * Z.of_nat a - Z.of_nat t) - Z.of_nat (b - a) * 2) / 2)%Z with (Z.of_nat (t - Nat.max a b)) in EW
    by (replace (Z.of_nat t - (2 * Z.of_nat a - Z.of_nat t) - Z.of_nat (b - a) * 2)%Z with (Z.of_nat (t - Nat.max a b) * 2)%Z by lia;
        rewrite Z.div_mul; lia).
  assert (Hbin : forall n k, (k <= n)%nat -> bin (Z.of_nat n) (Z.of_nat k) = Binomial.C n k).
  { intros n k Hk. unfold bin. rewrite (proj2 (Z.leb_le 0 (Z.of_nat k))), (proj2 (Z.leb_le (Z.of_nat k) (Z.of_nat n))) by lia.
    cbn [andb]. rewrite !Nat2Z.id. auto. }
  rewrite !Hbin in EW by lia. unfold fct in EW. rewrite !Nat2Z.id in EW.
  assert (Cp : forall n k, (0 <= Binomial.C n k)%R).
  { intros n k. unfold Binomial.C, Rdiv. apply Rmult_le_pos; [apply pos_INR|].
    left. apply Rinv_0_lt_compat. apply Rmult_lt_0_compat; apply INR_fact_lt_0. }
  set (r := (INR (fact a) * INR (fact (t - a)) / (INR (fact b) * INR (fact (t - b))))%R) in EW.
  assert (Hr : (0 < r)%R).
  { unfold r, Rdiv. repeat apply Rmult_lt_0_compat; try apply INR_fact_lt_0. apply Rinv_0_lt_compat. apply Rmult_lt_0_compat; apply INR_fact_lt_0. }
  split.
  - rewrite EW. apply Rmult_le_pos; [apply Rmult_le_pos|]; auto. apply sqrt_pos.
  - rewrite EW. set (c1 := Binomial.C b (b - a)). set (c2 := Binomial.C (t - b) (t - Nat.max a b)).
    replace (sqrt r * c1 * c2 * (sqrt r * c1 * c2))%R with (sqrt r * sqrt r * (c1 * c1) * (c2 * c2))%R by ring.
    rewrite sqrt_sqrt by lra. clear - Ha Hb c1 c2 r. assert (F := INR_fact_neq_0).
    destruct (Nat.le_ge_cases a b) as [Hab|Hab].
    + rewrite (Nat.max_r a b), (Nat.min_l a b) in * by lia.
      assert (E2 : c2 = 1%R) by (unfold c2; rewrite (Nat.max_r a b) by lia; apply C_n_n). rewrite E2. unfold c1, r, Binomial.C.
      replace (b - (b - a))%nat with a by lia. replace (t - a - (b - a))%nat with (t - b)%nat by lia. field. auto.
    + rewrite (Nat.max_l a b), (Nat.min_r a b) in * by lia.
      assert (E1 : c1 = 1%R) by (unfold c1; replace (b - a)%nat with 0%nat by lia; apply C_n_0). rewrite E1. unfold c2, r, Binomial.C. rewrite (Nat.max_l a b) by lia.
      replace (a - (a - b))%nat with b by lia. replace (t - b - (a - b))%nat with (t - a)%nat by lia.
      replace (t - b - (t - a))%nat with (a - b)%nat by lia. field. auto.
Qed.

(** the square in the order of the check *)
Lemma entry_sqrt t a b : (t <= 64)%nat -> (a <= t)%nat -> (b <= t)%nat ->
  Wigner_entry (Z.of_nat t) (2 * Z.of_nat b - Z.of_nat t) (2 * Z.of_nat a - Z.of_nat t)
  = sqrt (IZR (4 * Wsq pascal t (Nat.max a b) (Nat.min a b)) / 4).
Proof.
  intros Ht Ha Hb. destruct (entry_sq t a b Ha Hb) as [W0 W2]. set (W := Wigner_entry _ _ _) in *.
  rewrite <- (sqrt_square W) by auto. f_equal. rewrite W2. unfold Wsq. rewrite !mult_IZR, !choose_ok by lia. field.
Qed.
Lemma Wsq_nonneg t a b : (t <= 64)%nat -> (b <= a <= t)%nat -> (0 <= Wsq pascal t a b)%Z.
Proof. intros. apply Z.mul_nonneg_nonneg; apply choose_nonneg; lia. Qed.
(** the symmetry under reversal *)
Lemma Wsq_reverse t a b : (t <= 64)%nat -> (b <= a <= t)%nat -> Wsq pascal t (t - b) (t - a) = Wsq pascal t a b.
Proof.
  intros. unfold Wsq. replace (t - (t - a))%nat with a by lia. replace (t - b - (t - a))%nat with (a - b)%nat by lia. lia.
Qed.
Lemma quarter_ok t a b : (t <= 64)%nat -> (t <= 2 * a)%nat -> (a <= t)%nat -> (t <= a + b)%nat -> (b <= a)%nat ->
  one_ulp_below (double_of (nth (a + b - t) (nth (Nat.div2 (2 * a - t)) (nth t Wigner_file_quarter []) []) (0, 0)%Z))
    (sqrt (IZR (4 * Wsq pascal t a b) / 4)).
Proof.
  intros Ht H1 H2 H3 H4. assert (K : Wigner_at pascal t a b = true).
  { apply Wigner_each; [exact Ht| |lia]. pose proof (Nat.div2_odd (S t)). destruct (Nat.odd (S t)); cbn [Nat.b2n] in *; lia. }
  unfold Wigner_at in K. apply sqrt_ok_close in K; [exact K|]. pose proof (Wsq_nonneg t a b). lia.
Qed.

Lemma half x : (2 * x / 2 = x)%Z.
Proof. rewrite Z.mul_comm. apply Z.div_mul. lia. Qed.
Lemma exception_ok t a b x p : (t <= 64)%nat -> (a <= t)%nat -> (b <= t)%nat ->
  In (Z.of_nat t, 2 * Z.of_nat b - Z.of_nat t, 2 * Z.of_nat a - Z.of_nat t, p)%Z x -> x = Wigner_file_exceptions ->
  one_ulp_below (double_of p) (sqrt (IZR (4 * Wsq pascal t (Nat.max a b) (Nat.min a b)) / 4)).
Proof.
  intros Ht Ha Hb Hin ->. pose proof exceptions_check_ok as K. rewrite forallb_forall in K.
  specialize (K _ Hin). unfold exception_at in K. cbv zeta in K. rewrite Nat2Z.id in K.
  replace (Z.of_nat t + (2 * Z.of_nat a - Z.of_nat t))%Z with (2 * Z.of_nat a)%Z in K by lia.
  replace (Z.of_nat t + (2 * Z.of_nat b - Z.of_nat t))%Z with (2 * Z.of_nat b)%Z in K by lia.
  rewrite !half, !Nat2Z.id in K. apply sqrt_ok_close in K; [exact K|].
  pose proof (Wsq_nonneg t (Nat.max a b) (Nat.min a b)). lia.
Qed.

Lemma quarter_Z t x y a b : (Z.of_nat t + y = 2 * Z.of_nat a)%Z -> (Z.of_nat t + x = 2 * Z.of_nat b)%Z -> (Z.abs x <= y)%Z -> (a <= t)%nat ->
  nth (Z.to_nat ((x + y) / 2)) (nth (Z.to_nat (y / 2)) (nth (Z.to_nat (Z.of_nat t)) Wigner_file_quarter []) []) (0, 0)%Z
  = nth (a + b - t) (nth (Nat.div2 (2 * a - t)) (nth t Wigner_file_quarter []) []) (0, 0)%Z.
Proof.
  intros Ea Eb Hxy Ha. rewrite Nat2Z.id.
  replace (x + y)%Z with (2 * Z.of_nat (a + b - t))%Z by lia. rewrite half, Nat2Z.id.
  replace (Z.to_nat (y / 2)) with (Nat.div2 (2 * a - t)); auto.
  rewrite Nat.div2_div. apply Nat2Z.inj. rewrite Nat2Z.inj_div, Z2Nat.id by (apply Z.div_pos; lia). f_equal. lia.
Qed.

Lemma stored_ok t a b : (t <= 64)%nat -> (a <= t)%nat -> (b <= t)%nat ->
  one_ulp_below (double_of (Wigner_stored (Z.of_nat t) (2 * Z.of_nat b - Z.of_nat t) (2 * Z.of_nat a - Z.of_nat t)))
    (Wigner_entry (Z.of_nat t) (2 * Z.of_nat b - Z.of_nat t) (2 * Z.of_nat a - Z.of_nat t)).
Proof.
  intros Ht Ha Hb. rewrite entry_sqrt by auto. unfold Wigner_stored.
  destruct (find _ _) as [[[[t' mp'] m'] p]|] eqn:E.
  - apply find_some in E. destruct E as [Hin E]. rewrite !andb_true_iff, !Z.eqb_eq in E. destruct E as [[-> ->] ->].
    eapply exception_ok; eauto.
  - clear E. set (mp := (2 * Z.of_nat b - Z.of_nat t)%Z). set (m := (2 * Z.of_nat a - Z.of_nat t)%Z).
    destruct (Z.leb_spec (Z.abs mp) (Z.abs m)).
    + destruct (Z.ltb_spec m 0).
      * rewrite (quarter_Z t (- mp) (- m) (t - a) (t - b)) by (unfold mp, m in *; lia).
        rewrite (Nat.max_r a b), (Nat.min_l a b) by (unfold mp, m in *; lia).
        rewrite <- (Wsq_reverse t b a) by lia. apply quarter_ok; unfold mp, m in *; lia.
      * rewrite (quarter_Z t mp m a b) by (unfold mp, m in *; lia).
        rewrite (Nat.max_l a b), (Nat.min_r a b) by (unfold mp, m in *; lia). apply quarter_ok; unfold mp, m in *; lia.
    + destruct (Z.ltb_spec mp 0).
      * rewrite (quarter_Z t (- m) (- mp) (t - b) (t - a)) by (unfold mp, m in *; lia).
        rewrite (Nat.max_l a b), (Nat.min_r a b) by (unfold mp, m in *; lia).
        rewrite <- (Wsq_reverse t a b) by lia. apply quarter_ok; unfold mp, m in *; lia.
      * rewrite (quarter_Z t m mp b a) by (unfold mp, m in *; lia).
        rewrite (Nat.max_r a b), (Nat.min_l a b) by (unfold mp, m in *; lia). apply quarter_ok; unfold mp, m in *; lia.
Qed.
