(** Finite sums over an interval of integers with values in C. *)
Require Import ZArith Lia Reals Lra Bool.
From Coquelicot Require Import Complex.
From Verif Require Import CBase.
Open Scope C_scope.

(** [csum a b f] is the sum of [f i] for [a <= i <= b]; it is zero when [b < a]. *)
Fixpoint csum_n (f : Z -> C) (a : Z) (n : nat) : C :=
  match n with O => RtoC 0 | S n => csum_n f a n + f (a + Z.of_nat n)%Z end.
Definition csum (a b : Z) (f : Z -> C) : C := csum_n f a (Z.to_nat (b - a + 1)).

Lemma csum_empty a b f : (b < a)%Z -> csum a b f = RtoC 0.
Proof. intros. unfold csum. replace (Z.to_nat (b - a + 1)) with O by lia. reflexivity. Qed.

Lemma csum_last a b f : (a <= b)%Z -> csum a b f = csum a (b - 1) f + f b.
Proof.
  intros. unfold csum. replace (Z.to_nat (b - a + 1)) with (S (Z.to_nat (b - 1 - a + 1))) by lia.
  cbn [csum_n]. do 2 f_equal. lia.
Qed.

(** Induction on the upper end. *)
Lemma csum_ind (P : Z -> Prop) a :
  (forall b, (b < a)%Z -> P b) -> (forall b, (a <= b)%Z -> P (b - 1)%Z -> P b) -> forall b, P b.
Proof.
  intros H0 H1 b. destruct (Z_lt_ge_dec b a) as [L|G]; auto.
  replace b with (a - 1 + (b - a + 1))%Z by lia.
  assert (N : (0 <= b - a + 1)%Z) by lia. revert N. generalize (b - a + 1)%Z.
  apply natlike_ind.
  - apply H0; lia.
  - intros x Hx IH. apply H1; [lia|]. replace (a - 1 + Z.succ x - 1)%Z with (a - 1 + x)%Z by lia. auto.
Qed.

Lemma csum_one a f : csum a a f = f a.
Proof. rewrite csum_last, csum_empty by lia. ring. Qed.

Lemma csum_ext a b f g : (forall i, (a <= i <= b)%Z -> f i = g i) -> csum a b f = csum a b g.
Proof.
  revert b. apply (csum_ind (fun b => (forall i, (a <= i <= b)%Z -> f i = g i) -> csum a b f = csum a b g) a).
  - intros. now rewrite !csum_empty.
  - intros b Hb IH H. rewrite (csum_last a b f), (csum_last a b g) by auto.
    rewrite IH, (H b) by (intros; try apply H; lia). auto.
Qed.

Lemma csum_split a b c f : (a <= c + 1)%Z -> (c <= b)%Z ->
  csum a b f = csum a c f + csum (c + 1) b f.
Proof.
  intros Ha. revert b.
  apply (csum_ind (fun b => (c <= b)%Z -> csum a b f = csum a c f + csum (c + 1) b f) (c + 1)%Z).
  - intros b Hb Hc. replace b with c by lia. rewrite (csum_empty (c + 1) c) by lia. ring.
  - intros b Hb IH Hc. rewrite (csum_last a b), (csum_last (c + 1) b), IH by lia. ring.
Qed.

Lemma csum_first a b f : (a <= b)%Z -> csum a b f = f a + csum (a + 1) b f.
Proof. intros. rewrite (csum_split a b a), csum_one by lia. auto. Qed.

Lemma csum_zero a b f : (forall i, (a <= i <= b)%Z -> f i = RtoC 0) -> csum a b f = RtoC 0.
Proof.
  revert b. apply (csum_ind (fun b => (forall i, (a <= i <= b)%Z -> f i = RtoC 0) -> csum a b f = RtoC 0) a).
  - intros. now rewrite csum_empty.
  - intros b Hb IH H. rewrite (csum_last a b), IH, H by (intros; try apply H; lia). ring.
Qed.

Lemma csum_plus a b f g : csum a b (fun i => f i + g i) = csum a b f + csum a b g.
Proof.
  revert b. apply csum_ind with (a := a).
  - intros. rewrite !csum_empty by auto. ring.
  - intros b Hb IH. rewrite !(csum_last a b) by auto. rewrite IH. ring.
Qed.

Lemma csum_scal a b k f : csum a b (fun i => k * f i) = k * csum a b f.
Proof.
  revert b. apply csum_ind with (a := a).
  - intros. rewrite !csum_empty by auto. ring.
  - intros b Hb IH. rewrite !(csum_last a b) by auto. rewrite IH. ring.
Qed.

Lemma csum_scal_r a b k f : csum a b (fun i => f i * k) = csum a b f * k.
Proof.
  rewrite (csum_ext _ _ (fun i => f i * k) (fun i => k * f i)) by (intros; ring).
  rewrite csum_scal. ring.
Qed.

Lemma csum_opp a b f : csum a b (fun i => - f i) = - csum a b f.
Proof.
  rewrite (csum_ext _ _ (fun i => - f i) (fun i => - RtoC 1 * f i)) by (intros; ring).
  rewrite csum_scal. ring.
Qed.

Lemma csum_minus a b f g : csum a b (fun i => f i - g i) = csum a b f - csum a b g.
Proof.
  rewrite (csum_ext _ _ (fun i => f i - g i) (fun i => f i + - g i)) by (intros; ring).
  rewrite csum_plus, csum_opp. ring.
Qed.

Lemma csum_shift a b k f : csum a b f = csum (a + k) (b + k) (fun i => f (i - k)%Z).
Proof.
  revert b. apply csum_ind with (a := a).
  - intros. rewrite !csum_empty by lia. auto.
  - intros b Hb IH. rewrite (csum_last a b), (csum_last (a + k) (b + k)) by lia.
    rewrite IH. replace (b - 1 + k)%Z with (b + k - 1)%Z by lia.
    replace (b + k - k)%Z with b by lia. auto.
Qed.

Lemma csum_rev a b f : csum a b f = csum (- b) (- a) (fun i => f (- i)%Z).
Proof.
  revert b. apply csum_ind with (a := a).
  - intros. rewrite !csum_empty by lia. auto.
  - intros b Hb IH. rewrite (csum_last a b), (csum_first (- b) (- a)) by lia.
    rewrite IH. replace (- (b - 1))%Z with (- b + 1)%Z by lia. rewrite Z.opp_involutive. ring.
Qed.

(** Reverse inside the same interval. *)
Lemma csum_flip a b c f : c = (a + b)%Z -> csum a b f = csum a b (fun i => f (c - i)%Z).
Proof.
  intros ->. rewrite csum_rev. rewrite (csum_shift _ _ (a + b)).
  replace (- b + (a + b))%Z with a by lia. replace (- a + (a + b))%Z with b by lia.
  apply csum_ext; intros. f_equal; lia.
Qed.

Lemma csum_swap a b c d f :
  csum a b (fun i => csum c d (fun j => f i j)) = csum c d (fun j => csum a b (fun i => f i j)).
Proof.
  revert b. apply csum_ind with (a := a).
  - intros. rewrite csum_empty by auto. rewrite csum_zero; auto. intros; now rewrite csum_empty.
  - intros b Hb IH. rewrite csum_last, IH, <- csum_plus by auto.
    apply csum_ext. intros. now rewrite (csum_last a b) by auto.
Qed.

Lemma csum_widen a b a' b' f : (a' <= a)%Z -> (b <= b')%Z ->
  (forall i, (a' <= i <= b')%Z -> ((i < a)%Z \/ (b < i)%Z) -> f i = RtoC 0) ->
  csum a b f = csum a' b' f.
Proof.
  intros Ha Hb H. destruct (Z_lt_ge_dec b a) as [L|G].
  - rewrite (csum_empty a b) by auto. symmetry; apply csum_zero. intros; apply H; lia.
  - rewrite (csum_split a' b' (a - 1)) by lia. replace (a - 1 + 1)%Z with a by lia.
    rewrite (csum_split a b' b) by lia.
    rewrite (csum_zero a' (a - 1)), (csum_zero (b + 1) b'); [ring| |]; intros; apply H; lia.
Qed.

Lemma csum_delta a b k f : (a <= k <= b)%Z ->
  (forall i, (a <= i <= b)%Z -> i <> k -> f i = RtoC 0) -> csum a b f = f k.
Proof.
  intros Hk H. rewrite <- (csum_one k f). symmetry. apply csum_widen; try lia.
  intros; apply H; lia.
Qed.

Lemma csum_telescope a b f : (a <= b + 1)%Z ->
  csum a b (fun i => f (i + 1)%Z - f i) = f (b + 1)%Z - f a.
Proof.
  revert b.
  apply (csum_ind (fun b => (a <= b + 1)%Z -> csum a b (fun i => f (i + 1)%Z - f i) = f (b + 1)%Z - f a) a).
  - intros. rewrite csum_empty by auto. replace (b + 1)%Z with a by lia. ring.
  - intros b Hb IH _. rewrite csum_last, IH by lia. replace (b - 1 + 1)%Z with b by lia. ring.
Qed.

(** Product of two sums. *)
Lemma csum_mult a b c d f g :
  csum a b f * csum c d g = csum a b (fun i => csum c d (fun j => f i * g j)).
Proof.
  rewrite <- csum_scal_r. apply csum_ext. intros. now rewrite csum_scal.
Qed.

(** Sum over a shifted window of a function that vanishes outside both windows. *)
Lemma csum_window a b c d f :
  (forall i, (Z.min a c <= i <= Z.max b d)%Z -> ((i < a)%Z \/ (b < i)%Z) -> f i = RtoC 0) ->
  (forall i, (Z.min a c <= i <= Z.max b d)%Z -> ((i < c)%Z \/ (d < i)%Z) -> f i = RtoC 0) ->
  csum a b f = csum c d f.
Proof.
  intros H1 H2.
  rewrite (csum_widen a b (Z.min a c) (Z.max b d)) by (auto; lia).
  rewrite (csum_widen c d (Z.min a c) (Z.max b d)) by (auto; lia). auto.
Qed.

Lemma csum_conj a b f : Cconj (csum a b f) = csum a b (fun i => Cconj (f i)).
Proof.
  revert b. apply csum_ind with (a := a).
  - intros. rewrite !csum_empty by auto. apply Cconj_RtoC.
  - intros b Hb IH. rewrite !(csum_last a b) by auto. rewrite Cconj_plus, IH. auto.
Qed.
