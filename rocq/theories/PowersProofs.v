Require Import ZArith Lia Reals Lra Bool.
From Coquelicot Require Import Complex.
From Verif Require Import Base BaseProofs CBase PowersModel.
Open Scope Z_scope.

Definition upd2 {A} (f : Z -> Z -> A) (i j : Z) (v : A) : Z -> Z -> A :=
  fun k l => if (k =? i) && (l =? j) then v else f k l.
Lemma upd2_same {A} (f : Z -> Z -> A) i j v : upd2 f i j v i j = v.
Proof. unfold upd2. rewrite !Z.eqb_refl. auto. Qed.
Lemma upd2_other {A} (f : Z -> Z -> A) i j v k l : k <> i \/ l <> j -> upd2 f i j v k l = f k l.
Proof. intros H. unfold upd2. destruct (Z.eqb_spec k i), (Z.eqb_spec l j); simpl; auto; lia. Qed.

Lemma rd2_ok {A} (a : arr2 A) i j :
  0 <= i < nrow a -> 0 <= j < ncol a -> rd2 a i j = Ok (get2 a i j).
Proof.
  intros. unfold rd2.
  replace (in_bounds (nrow a) i && in_bounds (ncol a) j) with true; auto.
  symmetry; apply andb_true_iff; rewrite !in_bounds_true; auto.
Qed.
Lemma wr2_ok {A} (a : arr2 A) i j v :
  0 <= i < nrow a -> 0 <= j < ncol a ->
  wr2 a i j v = Ok (mkarr2 (nrow a) (ncol a) (upd2 (get2 a) i j v)).
Proof.
  intros. unfold wr2.
  replace (in_bounds (nrow a) i && in_bounds (ncol a) j) with true; auto.
  symmetry; apply andb_true_iff; rewrite !in_bounds_true; auto.
Qed.

Lemma Ci_neq0 : Ci <> RtoC 0.
Proof. intro H. apply (f_equal snd) in H. simpl in H. lra. Qed.

Lemma div_Ci x y : ((x, y) / Ci)%C = (y, - x)%R.
Proof. unfold Cdiv, Cinv, Cmult; simpl. f_equal; field. Qed.

(** After at most three quarter turns the number lies in the first quadrant. *)
Lemma quadrant_ok fuel z theta : (3 <= fuel)%nat ->
  exists z' theta', quadrant fuel z theta = Ok (z', theta')
    /\ (0 <= Re z')%R /\ (0 <= Im z')%R
    /\ (theta' * z' = theta * z)%C /\ Cmod z' = Cmod z.
Proof.
  intros Hf. destruct z as [x y].
  assert (M1 : Cmod (y, - x)%R = Cmod (x, y)) by (unfold Cmod; simpl; f_equal; ring).
  assert (M2 : Cmod (- x, - y)%R = Cmod (x, y)) by (unfold Cmod; simpl; f_equal; ring).
  assert (M3 : Cmod (- y, x)%R = Cmod (x, y)) by (unfold Cmod; simpl; f_equal; ring).
  assert (MM : (- - x = x)%R) by ring.
  assert (E0 : forall f t, (0 <= x)%R -> (0 <= y)%R -> quadrant f (x, y) t = Ok ((x, y), t)).
  { intros f t Hx Hy. destruct f; simpl; destruct (Rlt_dec x 0), (Rlt_dec y 0); try lra; auto. }
  destruct fuel as [|[|[|fuel]]]; try lia.
  cbn [quadrant]. rewrite !div_Ci, MM. cbn [Re Im fst snd].
  repeat (destruct (Rlt_dec _ _); try lra);
    try (eexists _, _; split; [reflexivity|]; cbn [Re Im fst snd];
         repeat split; auto; try lra; destruct theta; apply C_eq; simpl; ring).
  all: destruct fuel; cbn [quadrant Re Im fst snd]; rewrite ?div_Ci; cbn [Re Im fst snd];
    repeat (destruct (Rlt_dec _ _); try lra);
    eexists _, _; (split; [reflexivity|]); cbn [Re Im fst snd];
         repeat split; auto; try lra; destruct theta; apply C_eq; simpl; ring.
Qed.

Section Row.
  Variables (x y : R).
  Hypothesis (Hx : (0 <= x)%R) (Hy : (0 <= y)%R) (H1 : Cmod (x, y) = 1%R).
  Let z : C := (x, y).
  Lemma unit_eq : (x * x + y * y = 1)%R.
  Proof. pose proof (Cmod_sqr (x, y)). rewrite H1 in H. simpl in H. lra. Qed.
  Lemma dc_eq : (- 2 * (Im (Csqrt z)) ^ 2 = x - 1)%R.
  Proof.
    unfold Csqrt, z. cbn [Re Im fst snd]. rewrite H1.
    destruct (Rle_dec 0 y); try lra. rewrite pow2_sqrt; [lra|].
    pose proof unit_eq. nra.
  Qed.
  Lemma dz_eq : let dc := (x - 1)%R in
    (RtoC dc * (RtoC 1 + RtoC 2 * z) + Ci * RtoC (sqrt (- dc * (2 + dc))))%C
    = (z * z - z)%C.
  Proof.
    cbv zeta. replace (- (x - 1) * (2 + (x - 1)))%R with (y * y)%R by (pose proof unit_eq; lra).
    rewrite sqrt_square by auto. pose proof unit_eq as U.
    apply C_eq; unfold z; simpl; nra.
  Qed.
  (** The Chebyshev three-term relation for powers. *)
  Lemma pow_rec n : (Cpow z (S (S n)) - Cpow z (S n)
    = (Cpow z (S n) - Cpow z n) + RtoC (2 * (x - 1)) * Cpow z (S n))%C.
  Proof.
    assert (E : (z * z = RtoC (2 * x) * z - RtoC 1)%C).
    { pose proof unit_eq. apply C_eq; unfold z; simpl; nra. }
    cbn [Cpow].
    replace (z * (z * Cpow z n))%C with (z * z * Cpow z n)%C by ring. rewrite E.
    replace (RtoC (2 * x)) with (RtoC 2 * RtoC x)%C by (rewrite <- RtoC_mult; auto).
    replace (RtoC (2 * (x - 1))) with (RtoC 2 * (RtoC x - RtoC 1))%C
      by (rewrite RtoC_mult, RtoC_minus; auto). ring.
  Qed.
End Row.

Lemma Cpow_shift z n : (Cpow z n * z)%C = Cpow z (S n).
Proof. cbn [Cpow]. ring. Qed.

(** Entry [m] of row [i] is [f m], other rows unchanged. *)
Lemma powers_row_ok fuel M zr i zp : (3 <= fuel)%nat -> 1 <= M ->
  0 <= i < alen zr -> nrow zp = alen zr -> ncol zp = M + 1 ->
  Cmod (aget zr i) = 1%R ->
  exists zp', powers_row fuel M zr i zp = Ok zp' /\ nrow zp' = nrow zp /\ ncol zp' = ncol zp
    /\ (forall k m, k <> i -> get2 zp' k m = get2 zp k m)
    /\ (forall m, 0 <= m <= M -> get2 zp' i m = Cpow (aget zr i) (Z.to_nat m)).
Proof.
  intros Hf HM Hi Hr Hc Hz. unfold powers_row. rewrite rd_ok by auto. cbn [bind].
  destruct (quadrant_ok fuel (aget zr i) (RtoC 1) Hf) as (z & th & -> & Hx & Hy & Et & Em).
  cbn [bind]. rewrite wr2_ok by lia. cbn [bind nrow ncol get2].
  rewrite wr2_ok by (cbn [nrow ncol]; lia). cbn [bind nrow ncol get2].
  rewrite rd2_ok by (cbn [nrow ncol]; lia). cbn [bind nrow ncol get2]. rewrite upd2_same.
  destruct z as [x y]. cbn [Re Im fst snd] in Hx, Hy. rewrite Hz in Em.
  rewrite dc_eq by auto. rewrite dz_eq by auto.
  set (z := (x, y) : C) in *.
  assert (Et' : aget zr i = (th * z)%C) by (rewrite Et; ring).
  rewrite Et'. clear Et Et'.
  set (t := RtoC (2 * (x - 1))).
  (* invariant *)
  set (P := fun (m : Z) (st : arr2 C * C * C) =>
    let '(a, dz, clock) := st in
    nrow a = nrow zp /\ ncol a = ncol zp
    /\ clock = Cpow th (Z.to_nat (m - 1))
    /\ dz = (Cpow z (Z.to_nat m) - Cpow z (Z.to_nat (m - 1)))%C
    /\ get2 a i (m - 1) = Cpow z (Z.to_nat (m - 1))
    /\ (forall j, 0 <= j < m - 1 -> get2 a i j = Cpow (th * z)%C (Z.to_nat j))
    /\ (forall k j, k <> i -> get2 a k j = get2 zp k j)).
  assert (P2 : P 2 (mkarr2 (nrow zp) (ncol zp) (upd2 (upd2 (get2 zp) i 0 (RtoC 1)) i 1 z),
                    (z * z - z)%C, th)).
  { unfold P. change (Z.to_nat 2) with 2%nat. change (Z.to_nat (2 - 1)) with 1%nat.
    cbn [Cpow nrow ncol get2]. repeat split; auto; try ring.
    - change (2 - 1) with 1. rewrite upd2_same. ring.
    - intros j Hj. assert (j = 0) by lia. subst j.
      rewrite upd2_other, upd2_same by lia. reflexivity.
    - intros k j Hk. rewrite !upd2_other by auto. auto. }
  destruct (for_range_inv P 2 (M + 1) (powers_step i t th) _ ltac:(lia) P2) as (st & E & HP).
  - intros m [[a dz] clock] Hm (Ha & Hb & -> & -> & Hd & He & Hg). unfold powers_step.
    rewrite rd2_ok by lia. cbn [bind]. rewrite wr2_ok by lia. cbn [bind].
    rewrite rd2_ok by (cbn [nrow ncol]; lia). cbn [bind get2]. rewrite upd2_same.
    rewrite rd2_ok by (cbn [nrow ncol]; lia). cbn [bind get2]. rewrite upd2_other by lia.
    rewrite wr2_ok by (cbn [nrow ncol]; lia). cbn [bind get2 nrow ncol].
    eexists; split; [reflexivity|]. unfold P. cbn [nrow ncol get2].
    replace (m + 1 - 1) with m by lia. rewrite Hd.
    replace (Cpow z (Z.to_nat (m - 1)) + (Cpow z (Z.to_nat m) - Cpow z (Z.to_nat (m - 1))))%C
      with (Cpow z (Z.to_nat m)) by ring.
    repeat split; auto.
    + replace (Z.to_nat m) with (S (Z.to_nat (m - 1))) by lia. apply Cpow_shift.
    + replace (Z.to_nat (m + 1)) with (S (S (Z.to_nat (m - 1)))) by lia.
      replace (Z.to_nat m) with (S (Z.to_nat (m - 1))) by lia.
      symmetry. apply (pow_rec x y Em).
    + rewrite upd2_other, upd2_same by lia. auto.
    + intros j Hj. destruct (Z.eq_dec j (m - 1)) as [->|Hne].
      * rewrite upd2_same, Cpow_mul. ring.
      * rewrite !upd2_other by lia. apply He; lia.
    + intros k j Hk. rewrite !upd2_other by auto. auto.
  - rewrite E. destruct st as [[a dz] clock]. destruct HP as (Ha & Hb & -> & _ & Hd & He & Hg).
    cbn [bind]. rewrite rd2_ok by lia. cbn [bind]. rewrite wr2_ok by lia.
    eexists; split; [reflexivity|]. cbn [nrow ncol get2]. repeat split; auto.
    + intros k m Hk. rewrite upd2_other by auto. auto.
    + intros m Hm. destruct (Z.eq_dec m M) as [->|Hne].
      * rewrite upd2_same. replace (M + 1 - 1) with M in Hd |- * by lia. rewrite Hd, Cpow_mul. ring.
      * rewrite upd2_other by lia. apply He; lia.
Qed.

Lemma complex_powers_ok fuel garbage z M : (3 <= fuel)%nat -> 1 <= M -> 0 <= alen z ->
  (forall i, 0 <= i < alen z -> Cmod (aget z i) = 1%R) ->
  exists zp, complex_powers fuel garbage z M = Ok zp /\ nrow zp = alen z /\ ncol zp = M + 1
    /\ forall i m, 0 <= i < alen z -> 0 <= m <= M -> get2 zp i m = Cpow (aget z i) (Z.to_nat m).
Proof.
  intros Hf HM Hn Hz. unfold complex_powers. destruct (M + 1 <? 0) eqn:E; [lia|].
  unfold complex_powers_fill.
  set (P := fun (n : Z) (a : arr2 C) => nrow a = alen z /\ ncol a = M + 1
     /\ forall i m, 0 <= i < n -> 0 <= m <= M -> get2 a i m = Cpow (aget z i) (Z.to_nat m)).
  destruct (for_range_inv P 0 (alen z) (powers_row fuel M z) (mkarr2 (alen z) (M + 1) garbage))
    as (zp & Ez & A & B & G); auto.
  - repeat split; auto. intros; lia.
  - intros i a Hi (A & B & G).
    destruct (powers_row_ok fuel M z i a) as (a' & E' & A' & B' & O & N); auto.
    exists a'; split; auto. repeat split; try congruence.
    intros k m Hk Hm. destruct (Z.eq_dec k i) as [->|Hne]; auto.
    rewrite O by auto. apply G; lia.
  - exists zp. auto.
Qed.

(** [M = 0]: the write to column 1 is outside the output. *)
Lemma complex_powers_M0 fuel garbage z : (3 <= fuel)%nat -> 1 <= alen z ->
  complex_powers fuel garbage z 0 = Err OutOfBounds.
Proof.
  intros Hf Hz. unfold complex_powers, complex_powers_fill.
  change (0 + 1 <? 0) with false. cbv iota. rewrite for_range_step by lia.
  unfold powers_row. rewrite rd_ok by lia. cbn [bind].
  destruct (quadrant_ok fuel (aget z 0) (RtoC 1) Hf) as (w & th & -> & _). cbn [bind].
  rewrite wr2_ok by (cbn [nrow ncol]; lia). cbn [bind nrow ncol].
  unfold wr2 at 1. cbn [nrow ncol get2 alen].
  replace (in_bounds (0 + 1) 1) with false by reflexivity. rewrite andb_false_r. reflexivity.
Qed.
