(** Reasoning principles for the primitives of [Base]. *)
Require Import ZArith Lia List Bool.
From Verif Require Import Base.
Import ListNotations.
Open Scope Z_scope.

Lemma bind_ok {A B} (x : res A) (f : A -> res B) b :
  bind x f = Ok b <-> exists a, x = Ok a /\ f a = Ok b.
Proof.
  destruct x as [a|e]; simpl; split.
  - intros H; exists a; auto.
  - intros (a' & H & H'); inversion H; subst; auto.
  - discriminate.
  - intros (a & H & _); discriminate.
Qed.

Lemma norm_index_nonneg len i : 0 <= i -> norm_index len i = i.
Proof. intros; unfold norm_index; destruct (i <? 0) eqn:E; lia. Qed.

Lemma in_bounds_true len i : in_bounds len i = true <-> 0 <= i < len.
Proof. unfold in_bounds; rewrite andb_true_iff, Z.leb_le, Z.ltb_lt; tauto. Qed.

Lemma rd_ok {A} (a : arr A) i : 0 <= i < alen a -> rd a i = Ok (aget a i).
Proof.
  intros H; unfold rd; rewrite norm_index_nonneg by lia.
  replace (in_bounds (alen a) i) with true; auto.
  symmetry; apply in_bounds_true; auto.
Qed.

Definition upd {A} (f : Z -> A) (i : Z) (v : A) : Z -> A :=
  fun k => if k =? i then v else f k.

Lemma upd_same {A} (f : Z -> A) i v : upd f i v i = v.
Proof. unfold upd; rewrite Z.eqb_refl; auto. Qed.
Lemma upd_other {A} (f : Z -> A) i v k : k <> i -> upd f i v k = f k.
Proof. intros; unfold upd; destruct (Z.eqb_spec k i); congruence. Qed.

Lemma wr_ok {A} (a : arr A) i v :
  0 <= i < alen a -> wr a i v = Ok (mkarr (alen a) (upd (aget a) i v)).
Proof.
  intros H; unfold wr; rewrite norm_index_nonneg by lia.
  replace (in_bounds (alen a) i) with true; auto.
  symmetry; apply in_bounds_true; auto.
Qed.

Lemma wr_oob {A} (a : arr A) i v :
  alen a <= i -> 0 <= i -> wr a i v = Err OutOfBounds.
Proof.
  intros H H0; unfold wr; rewrite norm_index_nonneg by lia.
  destruct (in_bounds (alen a) i) eqn:E; auto.
  apply in_bounds_true in E; lia.
Qed.

Lemma rd_oob {A} (a : arr A) i :
  alen a <= i -> 0 <= i -> rd a i = Err OutOfBounds.
Proof.
  intros H H0; unfold rd; rewrite norm_index_nonneg by lia.
  destruct (in_bounds (alen a) i) eqn:E; auto.
  apply in_bounds_true in E; lia.
Qed.

Lemma np_empty_ok {A} n (g : Z -> A) : 0 <= n -> np_empty n g = Ok (mkarr n g).
Proof. intros; unfold np_empty; destruct (n <? 0) eqn:E; auto; lia. Qed.

(** Invariant rule for a general loop. *)
Lemma for_loop_inv {S} (P : Z -> S -> Prop) step body : forall n i s,
  P i s ->
  (forall k s, 0 <= k < Z.of_nat n -> P (i + k * step) s ->
     exists s', body (i + k * step) s = Ok s' /\ P (i + (k + 1) * step) s') ->
  exists s', for_loop n i step body s = Ok s' /\ P (i + Z.of_nat n * step) s'.
Proof.
  induction n as [|n IH]; intros i s H0 Hs.
  - exists s; simpl; split; auto. replace (i + 0) with i by lia; auto.
  - destruct (Hs 0 s) as (s1 & E1 & P1); [lia | replace (i + 0 * step) with i by lia; auto |].
    replace (i + 0 * step) with i in E1 by lia.
    destruct (IH (i + step) s1) as (s' & E' & P').
    + replace (i + step) with (i + (0 + 1) * step) by lia; auto.
    + intros k sk Hk Pk.
      destruct (Hs (k + 1) sk) as (s2 & E2 & P2); [lia | |].
      * replace (i + (k + 1) * step) with (i + step + k * step) by lia; auto.
      * exists s2; split.
        -- replace (i + step + k * step) with (i + (k + 1) * step) by lia; auto.
        -- replace (i + step + (k + 1) * step) with (i + (k + 1 + 1) * step) by lia; auto.
    + exists s'; split.
      * simpl; rewrite E1; simpl; auto.
      * replace (i + Z.of_nat (Datatypes.S n) * step)
          with (i + step + Z.of_nat n * step) by lia; auto.
Qed.

Lemma for_range_inv {S} (P : Z -> S -> Prop) a b body s :
  a <= b -> P a s ->
  (forall i s, a <= i < b -> P i s -> exists s', body i s = Ok s' /\ P (i + 1) s') ->
  exists s', for_range a b body s = Ok s' /\ P b s'.
Proof.
  intros Hab H0 Hs; unfold for_range.
  destruct (for_loop_inv P 1 body (Z.to_nat (b - a)) a s H0) as (s' & E & P').
  - intros k sk Hk Pk. rewrite Z2Nat.id in Hk by lia.
    destruct (Hs (a + k * 1) sk) as (s1 & E1 & P1); [lia | auto |].
    exists s1; split; auto. replace (a + (k + 1) * 1) with (a + k * 1 + 1) by lia; auto.
  - exists s'; split; auto.
    replace b with (a + Z.of_nat (Z.to_nat (b - a)) * 1) by lia; auto.
Qed.

Lemma for_range_empty {S} a b body (s : S) : b <= a -> for_range a b body s = Ok s.
Proof. intros; unfold for_range; replace (Z.to_nat (b - a)) with O by lia; auto. Qed.

Lemma for_range_step {S} a b body (s : S) :
  a < b -> for_range a b body s = bind (body a s) (for_range (a + 1) b body).
Proof.
  intros; unfold for_range.
  replace (Z.to_nat (b - a)) with (Datatypes.S (Z.to_nat (b - (a + 1)))) by lia.
  reflexivity.
Qed.

(** Loops by steps of two from [-t] to [t], as in [range(-t, t+1, 2)]. *)
Lemma for_step2_inv {S} (P : Z -> S -> Prop) t body s :
  0 <= t -> P (-t) s ->
  (forall k s, 0 <= k <= t -> P (-t + 2 * k) s ->
     exists s', body (-t + 2 * k) s = Ok s' /\ P (-t + 2 * (k + 1)) s') ->
  exists s', for_step (-t) (t + 1) 2 body s = Ok s' /\ P (t + 2) s'.
Proof.
  intros Ht H0 Hs; unfold for_step.
  replace ((t + 1 - - t + 2 - 1) / 2) with (t + 1)
    by (apply (Z.div_unique_exact); lia).
  destruct (for_loop_inv P 2 body (Z.to_nat (t + 1)) (-t) s H0) as (s' & E & P').
  - intros k sk Hk Pk. rewrite Z2Nat.id in Hk by lia.
    replace (- t + k * 2) with (- t + 2 * k) in * by lia.
    replace (- t + (k + 1) * 2) with (- t + 2 * (k + 1)) by lia.
    apply Hs; auto; lia.
  - exists s'; split; auto.
    replace (t + 2) with (- t + Z.of_nat (Z.to_nat (t + 1)) * 2) by lia; auto.
Qed.

Lemma for_down_inv {S} (P : Z -> S -> Prop) a b body s :
  b <= a -> P a s ->
  (forall i s, b < i <= a -> P i s -> exists s', body i s = Ok s' /\ P (i - 1) s') ->
  exists s', for_down a b body s = Ok s' /\ P b s'.
Proof.
  intros Hab H0 Hs; unfold for_down.
  destruct (for_loop_inv P (-1) body (Z.to_nat (a - b)) a s H0) as (s' & E & P').
  - intros k sk Hk Pk. rewrite Z2Nat.id in Hk by lia.
    destruct (Hs (a + k * -1) sk) as (s1 & E1 & P1); [lia | auto |].
    exists s1; split; auto. replace (a + (k + 1) * -1) with (a + k * -1 - 1) by lia; auto.
  - exists s'; split; auto.
    replace b with (a + Z.of_nat (Z.to_nat (a - b)) * -1) by lia; auto.
Qed.

Lemma Ok_inj {A} (a b : A) : Ok a = Ok b -> a = b.
Proof. congruence. Qed.
