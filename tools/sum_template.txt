(** Finite sums over an interval of integers with values in @T@. *)
Require Import ZArith Lia Reals Lra Bool.
@IMPORT@
Open Scope @S@_scope.

(** [@t@sum a b f] is the sum of [f i] for [a <= i <= b]; it is zero when [b < a]. *)
Fixpoint @t@sum_n (f : Z -> @T@) (a : Z) (n : nat) : @T@ :=
  match n with O => @0@ | S n => @t@sum_n f a n + f (a + Z.of_nat n)%Z end.
Definition @t@sum (a b : Z) (f : Z -> @T@) : @T@ := @t@sum_n f a (Z.to_nat (b - a + 1)).

Lemma @t@sum_empty a b f : (b < a)%Z -> @t@sum a b f = @0@.
Proof. intros. unfold @t@sum. replace (Z.to_nat (b - a + 1)) with O by lia. reflexivity. Qed.

Lemma @t@sum_last a b f : (a <= b)%Z -> @t@sum a b f = @t@sum a (b - 1) f + f b.
Proof.
  intros. unfold @t@sum. replace (Z.to_nat (b - a + 1)) with (S (Z.to_nat (b - 1 - a + 1))) by lia.
  cbn [@t@sum_n]. do 2 f_equal. lia.
Qed.

(** Induction on the upper end. *)
Lemma @t@sum_ind (P : Z -> Prop) a :
  (forall b, (b < a)%Z -> P b) -> (forall b, (a <= b)%Z -> P (b - 1)%Z -> P b) -> forall b, P b.
Proof.
  intros H0 H1 b. destruct (Z_lt_ge_dec b a) as [L|G]; auto.
  replace b with (a - 1 + (b - a + 1))%Z by lia.
  assert (N : (0 <= b - a + 1)%Z) by lia. revert N. generalize (b - a + 1)%Z.
  apply natlike_ind.
  - apply H0; lia.
  - intros x Hx IH. apply H1; [lia|]. replace (a - 1 + Z.succ x - 1)%Z with (a - 1 + x)%Z by lia. auto.
Qed.

Lemma @t@sum_one a f : @t@sum a a f = f a.
Proof. rewrite @t@sum_last, @t@sum_empty by lia. ring. Qed.

Lemma @t@sum_ext a b f g : (forall i, (a <= i <= b)%Z -> f i = g i) -> @t@sum a b f = @t@sum a b g.
Proof.
  revert b. apply (@t@sum_ind (fun b => (forall i, (a <= i <= b)%Z -> f i = g i) -> @t@sum a b f = @t@sum a b g) a).
  - intros. now rewrite !@t@sum_empty.
  - intros b Hb IH H. rewrite (@t@sum_last a b f), (@t@sum_last a b g) by auto.
    rewrite IH, (H b) by (intros; try apply H; lia). auto.
Qed.

Lemma @t@sum_split a b c f : (a <= c + 1)%Z -> (c <= b)%Z ->
  @t@sum a b f = @t@sum a c f + @t@sum (c + 1) b f.
Proof.
  intros Ha. revert b.
  apply (@t@sum_ind (fun b => (c <= b)%Z -> @t@sum a b f = @t@sum a c f + @t@sum (c + 1) b f) (c + 1)%Z).
  - intros b Hb Hc. replace b with c by lia. rewrite (@t@sum_empty (c + 1) c) by lia. ring.
  - intros b Hb IH Hc. rewrite (@t@sum_last a b), (@t@sum_last (c + 1) b), IH by lia. ring.
Qed.

Lemma @t@sum_first a b f : (a <= b)%Z -> @t@sum a b f = f a + @t@sum (a + 1) b f.
Proof. intros. rewrite (@t@sum_split a b a), @t@sum_one by lia. auto. Qed.

Lemma @t@sum_zero a b f : (forall i, (a <= i <= b)%Z -> f i = @0@) -> @t@sum a b f = @0@.
Proof.
  revert b. apply (@t@sum_ind (fun b => (forall i, (a <= i <= b)%Z -> f i = @0@) -> @t@sum a b f = @0@) a).
  - intros. now rewrite @t@sum_empty.
  - intros b Hb IH H. rewrite (@t@sum_last a b), IH, H by (intros; try apply H; lia). ring.
Qed.

Lemma @t@sum_plus a b f g : @t@sum a b (fun i => f i + g i) = @t@sum a b f + @t@sum a b g.
Proof.
  revert b. apply @t@sum_ind with (a := a).
  - intros. rewrite !@t@sum_empty by auto. ring.
  - intros b Hb IH. rewrite !(@t@sum_last a b) by auto. rewrite IH. ring.
Qed.

Lemma @t@sum_scal a b k f : @t@sum a b (fun i => k * f i) = k * @t@sum a b f.
Proof.
  revert b. apply @t@sum_ind with (a := a).
  - intros. rewrite !@t@sum_empty by auto. ring.
  - intros b Hb IH. rewrite !(@t@sum_last a b) by auto. rewrite IH. ring.
Qed.

Lemma @t@sum_scal_r a b k f : @t@sum a b (fun i => f i * k) = @t@sum a b f * k.
Proof.
  rewrite (@t@sum_ext _ _ (fun i => f i * k) (fun i => k * f i)) by (intros; ring).
  rewrite @t@sum_scal. ring.
Qed.

Lemma @t@sum_opp a b f : @t@sum a b (fun i => - f i) = - @t@sum a b f.
Proof.
  rewrite (@t@sum_ext _ _ (fun i => - f i) (fun i => - @1@ * f i)) by (intros; ring).
  rewrite @t@sum_scal. ring.
Qed.

Lemma @t@sum_minus a b f g : @t@sum a b (fun i => f i - g i) = @t@sum a b f - @t@sum a b g.
Proof.
  rewrite (@t@sum_ext _ _ (fun i => f i - g i) (fun i => f i + - g i)) by (intros; ring).
  rewrite @t@sum_plus, @t@sum_opp. ring.
Qed.

Lemma @t@sum_shift a b k f : @t@sum a b f = @t@sum (a + k) (b + k) (fun i => f (i - k)%Z).
Proof.
  revert b. apply @t@sum_ind with (a := a).
  - intros. rewrite !@t@sum_empty by lia. auto.
  - intros b Hb IH. rewrite (@t@sum_last a b), (@t@sum_last (a + k) (b + k)) by lia.
    rewrite IH. replace (b - 1 + k)%Z with (b + k - 1)%Z by lia.
    replace (b + k - k)%Z with b by lia. auto.
Qed.

Lemma @t@sum_rev a b f : @t@sum a b f = @t@sum (- b) (- a) (fun i => f (- i)%Z).
Proof.
  revert b. apply @t@sum_ind with (a := a).
  - intros. rewrite !@t@sum_empty by lia. auto.
  - intros b Hb IH. rewrite (@t@sum_last a b), (@t@sum_first (- b) (- a)) by lia.
    rewrite IH. replace (- (b - 1))%Z with (- b + 1)%Z by lia. rewrite Z.opp_involutive. ring.
Qed.

(** Reverse inside the same interval. *)
Lemma @t@sum_flip a b c f : c = (a + b)%Z -> @t@sum a b f = @t@sum a b (fun i => f (c - i)%Z).
Proof.
  intros ->. rewrite @t@sum_rev. rewrite (@t@sum_shift _ _ (a + b)).
  replace (- b + (a + b))%Z with a by lia. replace (- a + (a + b))%Z with b by lia.
  apply @t@sum_ext; intros. f_equal; lia.
Qed.

Lemma @t@sum_swap a b c d f :
  @t@sum a b (fun i => @t@sum c d (fun j => f i j)) = @t@sum c d (fun j => @t@sum a b (fun i => f i j)).
Proof.
  revert b. apply @t@sum_ind with (a := a).
  - intros. rewrite @t@sum_empty by auto. rewrite @t@sum_zero; auto. intros; now rewrite @t@sum_empty.
  - intros b Hb IH. rewrite @t@sum_last, IH, <- @t@sum_plus by auto.
    apply @t@sum_ext. intros. now rewrite (@t@sum_last a b) by auto.
Qed.

Lemma @t@sum_widen a b a' b' f : (a' <= a)%Z -> (b <= b')%Z ->
  (forall i, (a' <= i <= b')%Z -> ((i < a)%Z \/ (b < i)%Z) -> f i = @0@) ->
  @t@sum a b f = @t@sum a' b' f.
Proof.
  intros Ha Hb H. destruct (Z_lt_ge_dec b a) as [L|G].
  - rewrite (@t@sum_empty a b) by auto. symmetry; apply @t@sum_zero. intros; apply H; lia.
  - rewrite (@t@sum_split a' b' (a - 1)) by lia. replace (a - 1 + 1)%Z with a by lia.
    rewrite (@t@sum_split a b' b) by lia.
    rewrite (@t@sum_zero a' (a - 1)), (@t@sum_zero (b + 1) b'); [ring| |]; intros; apply H; lia.
Qed.

Lemma @t@sum_delta a b k f : (a <= k <= b)%Z ->
  (forall i, (a <= i <= b)%Z -> i <> k -> f i = @0@) -> @t@sum a b f = f k.
Proof.
  intros Hk H. rewrite <- (@t@sum_one k f). symmetry. apply @t@sum_widen; try lia.
  intros; apply H; lia.
Qed.

Lemma @t@sum_telescope a b f : (a <= b + 1)%Z ->
  @t@sum a b (fun i => f (i + 1)%Z - f i) = f (b + 1)%Z - f a.
Proof.
  revert b.
  apply (@t@sum_ind (fun b => (a <= b + 1)%Z -> @t@sum a b (fun i => f (i + 1)%Z - f i) = f (b + 1)%Z - f a) a).
  - intros. rewrite @t@sum_empty by auto. replace (b + 1)%Z with a by lia. ring.
  - intros b Hb IH _. rewrite @t@sum_last, IH by lia. replace (b - 1 + 1)%Z with b by lia. ring.
Qed.

(** Product of two sums. *)
Lemma @t@sum_mult a b c d f g :
  @t@sum a b f * @t@sum c d g = @t@sum a b (fun i => @t@sum c d (fun j => f i * g j)).
Proof.
  rewrite <- @t@sum_scal_r. apply @t@sum_ext. intros. now rewrite @t@sum_scal.
Qed.

(** Sum over a shifted window of a function that vanishes outside both windows. *)
Lemma @t@sum_window a b c d f :
  (forall i, (Z.min a c <= i <= Z.max b d)%Z -> ((i < a)%Z \/ (b < i)%Z) -> f i = @0@) ->
  (forall i, (Z.min a c <= i <= Z.max b d)%Z -> ((i < c)%Z \/ (d < i)%Z) -> f i = @0@) ->
  @t@sum a b f = @t@sum c d f.
Proof.
  intros H1 H2.
  rewrite (@t@sum_widen a b (Z.min a c) (Z.max b d)) by (auto; lia).
  rewrite (@t@sum_widen c d (Z.min a c) (Z.max b d)) by (auto; lia). auto.
Qed.
