(** Finite sums over an interval of integers with values in R. *)
Require Import ZArith Lia Reals Lra Bool.

Open Scope R_scope.

(** [rsum a b f] is the sum of [f i] for [a <= i <= b]; it is zero when [b < a]. *)
Fixpoint rsum_n (f : Z -> R) (a : Z) (n : nat) : R :=
  match n with O => 0 | S n => rsum_n f a n + f (a + Z.of_nat n)%Z end.
Definition rsum (a b : Z) (f : Z -> R) : R := rsum_n f a (Z.to_nat (b - a + 1)).

Lemma rsum_empty a b f : (b < a)%Z -> rsum a b f = 0.
Proof. intros. unfold rsum. replace (Z.to_nat (b - a + 1)) with O by lia. reflexivity. Qed.

Lemma rsum_last a b f : (a <= b)%Z -> rsum a b f = rsum a (b - 1) f + f b.
Proof.
  intros. unfold rsum. replace (Z.to_nat (b - a + 1)) with (S (Z.to_nat (b - 1 - a + 1))) by lia.
  cbn [rsum_n]. do 2 f_equal. lia.
Qed.

(** Induction on the upper end. *)
Lemma rsum_ind (P : Z -> Prop) a :
  (forall b, (b < a)%Z -> P b) -> (forall b, (a <= b)%Z -> P (b - 1)%Z -> P b) -> forall b, P b.
Proof.
  intros H0 H1 b. destruct (Z_lt_ge_dec b a) as [L|G]; auto.
  replace b with (a - 1 + (b - a + 1))%Z by lia.
  assert (N : (0 <= b - a + 1)%Z) by lia. revert N. generalize (b - a + 1)%Z.
  apply natlike_ind.
  - apply H0; lia.
  - intros x Hx IH. apply H1; [lia|]. replace (a - 1 + Z.succ x - 1)%Z with (a - 1 + x)%Z by lia. auto.
Qed.

Lemma rsum_one a f : rsum a a f = f a.
Proof. rewrite rsum_last, rsum_empty by lia. ring. Qed.

Lemma rsum_ext a b f g : (forall i, (a <= i <= b)%Z -> f i = g i) -> rsum a b f = rsum a b g.
Proof.
  revert b. apply (rsum_ind (fun b => (forall i, (a <= i <= b)%Z -> f i = g i) -> rsum a b f = rsum a b g) a).
  - intros. now rewrite !rsum_empty.
  - intros b Hb IH H. rewrite (rsum_last a b f), (rsum_last a b g) by auto.
    rewrite IH, (H b) by (intros; try apply H; lia). auto.
Qed.

Lemma rsum_split a b c f : (a <= c + 1)%Z -> (c <= b)%Z ->
  rsum a b f = rsum a c f + rsum (c + 1) b f.
Proof.
  intros Ha. revert b.
  apply (rsum_ind (fun b => (c <= b)%Z -> rsum a b f = rsum a c f + rsum (c + 1) b f) (c + 1)%Z).
  - intros b Hb Hc. replace b with c by lia. rewrite (rsum_empty (c + 1) c) by lia. ring.
  - intros b Hb IH Hc. rewrite (rsum_last a b), (rsum_last (c + 1) b), IH by lia. ring.
Qed.

Lemma rsum_first a b f : (a <= b)%Z -> rsum a b f = f a + rsum (a + 1) b f.
Proof. intros. rewrite (rsum_split a b a), rsum_one by lia. auto. Qed.

Lemma rsum_zero a b f : (forall i, (a <= i <= b)%Z -> f i = 0) -> rsum a b f = 0.
Proof.
  revert b. apply (rsum_ind (fun b => (forall i, (a <= i <= b)%Z -> f i = 0) -> rsum a b f = 0) a).
  - intros. now rewrite rsum_empty.
  - intros b Hb IH H. rewrite (rsum_last a b), IH, H by (intros; try apply H; lia). ring.
Qed.

Lemma rsum_plus a b f g : rsum a b (fun i => f i + g i) = rsum a b f + rsum a b g.
Proof.
  revert b. apply rsum_ind with (a := a).
  - intros. rewrite !rsum_empty by auto. ring.
  - intros b Hb IH. rewrite !(rsum_last a b) by auto. rewrite IH. ring.
Qed.

Lemma rsum_scal a b k f : rsum a b (fun i => k * f i) = k * rsum a b f.
Proof.
  revert b. apply rsum_ind with (a := a).
  - intros. rewrite !rsum_empty by auto. ring.
  - intros b Hb IH. rewrite !(rsum_last a b) by auto. rewrite IH. ring.
Qed.

Lemma rsum_scal_r a b k f : rsum a b (fun i => f i * k) = rsum a b f * k.
Proof.
  rewrite (rsum_ext _ _ (fun i => f i * k) (fun i => k * f i)) by (intros; ring).
  rewrite rsum_scal. ring.
Qed.

Lemma rsum_opp a b f : rsum a b (fun i => - f i) = - rsum a b f.
Proof.
  rewrite (rsum_ext _ _ (fun i => - f i) (fun i => - 1 * f i)) by (intros; ring).
  rewrite rsum_scal. ring.
Qed.

Lemma rsum_minus a b f g : rsum a b (fun i => f i - g i) = rsum a b f - rsum a b g.
Proof.
  rewrite (rsum_ext _ _ (fun i => f i - g i) (fun i => f i + - g i)) by (intros; ring).
  rewrite rsum_plus, rsum_opp. ring.
Qed.

Lemma rsum_shift a b k f : rsum a b f = rsum (a + k) (b + k) (fun i => f (i - k)%Z).
Proof.
  revert b. apply rsum_ind with (a := a).
  - intros. rewrite !rsum_empty by lia. auto.
  - intros b Hb IH. rewrite (rsum_last a b), (rsum_last (a + k) (b + k)) by lia.
    rewrite IH. replace (b - 1 + k)%Z with (b + k - 1)%Z by lia.
    replace (b + k - k)%Z with b by lia. auto.
Qed.

Lemma rsum_rev a b f : rsum a b f = rsum (- b) (- a) (fun i => f (- i)%Z).
Proof.
  revert b. apply rsum_ind with (a := a).
  - intros. rewrite !rsum_empty by lia. auto.
  - intros b Hb IH. rewrite (rsum_last a b), (rsum_first (- b) (- a)) by lia.
    rewrite IH. replace (- (b - 1))%Z with (- b + 1)%Z by lia. rewrite Z.opp_involutive. ring.
Qed.

(** Reverse inside the same interval. *)
Lemma rsum_flip a b c f : c = (a + b)%Z -> rsum a b f = rsum a b (fun i => f (c - i)%Z).
Proof.
  intros ->. rewrite rsum_rev. rewrite (rsum_shift _ _ (a + b)).
  replace (- b + (a + b))%Z with a by lia. replace (- a + (a + b))%Z with b by lia.
  apply rsum_ext; intros. f_equal; lia.
Qed.

Lemma rsum_swap a b c d f :
  rsum a b (fun i => rsum c d (fun j => f i j)) = rsum c d (fun j => rsum a b (fun i => f i j)).
Proof.
  revert b. apply rsum_ind with (a := a).
  - intros. rewrite rsum_empty by auto. rewrite rsum_zero; auto. intros; now rewrite rsum_empty.
  - intros b Hb IH. rewrite rsum_last, IH, <- rsum_plus by auto.
    apply rsum_ext. intros. now rewrite (rsum_last a b) by auto.
Qed.

Lemma rsum_widen a b a' b' f : (a' <= a)%Z -> (b <= b')%Z ->
  (forall i, (a' <= i <= b')%Z -> ((i < a)%Z \/ (b < i)%Z) -> f i = 0) ->
  rsum a b f = rsum a' b' f.
Proof.
  intros Ha Hb H. destruct (Z_lt_ge_dec b a) as [L|G].
  - rewrite (rsum_empty a b) by auto. symmetry; apply rsum_zero. intros; apply H; lia.
  - rewrite (rsum_split a' b' (a - 1)) by lia. replace (a - 1 + 1)%Z with a by lia.
    rewrite (rsum_split a b' b) by lia.
    rewrite (rsum_zero a' (a - 1)), (rsum_zero (b + 1) b'); [ring| |]; intros; apply H; lia.
Qed.

Lemma rsum_delta a b k f : (a <= k <= b)%Z ->
  (forall i, (a <= i <= b)%Z -> i <> k -> f i = 0) -> rsum a b f = f k.
Proof.
  intros Hk H. rewrite <- (rsum_one k f). symmetry. apply rsum_widen; try lia.
  intros; apply H; lia.
Qed.

Lemma rsum_telescope a b f : (a <= b + 1)%Z ->
  rsum a b (fun i => f (i + 1)%Z - f i) = f (b + 1)%Z - f a.
Proof.
  revert b.
  apply (rsum_ind (fun b => (a <= b + 1)%Z -> rsum a b (fun i => f (i + 1)%Z - f i) = f (b + 1)%Z - f a) a).
  - intros. rewrite rsum_empty by auto. replace (b + 1)%Z with a by lia. ring.
  - intros b Hb IH _. rewrite rsum_last, IH by lia. replace (b - 1 + 1)%Z with b by lia. ring.
Qed.

(** Product of two sums. *)
Lemma rsum_mult a b c d f g :
  rsum a b f * rsum c d g = rsum a b (fun i => rsum c d (fun j => f i * g j)).
Proof.
  rewrite <- rsum_scal_r. apply rsum_ext. intros. now rewrite rsum_scal.
Qed.

(** Sum over a shifted window of a function that vanishes outside both windows. *)
Lemma rsum_window a b c d f :
  (forall i, (Z.min a c <= i <= Z.max b d)%Z -> ((i < a)%Z \/ (b < i)%Z) -> f i = 0) ->
  (forall i, (Z.min a c <= i <= Z.max b d)%Z -> ((i < c)%Z \/ (d < i)%Z) -> f i = 0) ->
  rsum a b f = rsum c d f.
Proof.
  intros H1 H2.
  rewrite (rsum_widen a b (Z.min a c) (Z.max b d)) by (auto; lia).
  rewrite (rsum_widen c d (Z.min a c) (Z.max b d)) by (auto; lia). auto.
Qed.

Lemma rsum_nonneg a b f : (forall i, (a <= i <= b)%Z -> 0 <= f i) -> 0 <= rsum a b f.
Proof.
  revert b. apply (rsum_ind (fun b => (forall i, (a <= i <= b)%Z -> 0 <= f i) -> 0 <= rsum a b f) a).
  - intros. rewrite rsum_empty by auto. lra.
  - intros b Hb IH H. rewrite (rsum_last a b) by auto.
    assert (0 <= rsum a (b - 1) f) by (apply IH; intros; apply H; lia).
    assert (0 <= f b) by (apply H; lia). lra.
Qed.

Lemma rsum_le a b f g : (forall i, (a <= i <= b)%Z -> f i <= g i) -> rsum a b f <= rsum a b g.
Proof.
  intros H. assert (0 <= rsum a b (fun i => g i - f i)) by (apply rsum_nonneg; intros i Hi; specialize (H i Hi); lra).
  rewrite rsum_minus in H0. lra.
Qed.

(** A sum of nonnegative terms that is zero has only zero terms. *)
Lemma rsum_zero_terms a b f : (forall i, (a <= i <= b)%Z -> 0 <= f i) -> rsum a b f = 0 ->
  forall i, (a <= i <= b)%Z -> f i = 0.
Proof.
  intros H E i Hi. rewrite (rsum_split a b (i - 1)) in E by lia.
  replace (i - 1 + 1)%Z with i in E by lia. rewrite (rsum_first i b) in E by lia.
  assert (0 <= rsum a (i - 1) f) by (apply rsum_nonneg; intros; apply H; lia).
  assert (0 <= rsum (i + 1) b f) by (apply rsum_nonneg; intros; apply H; lia).
  specialize (H i Hi). lra.
Qed.
