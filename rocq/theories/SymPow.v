(** Symmetric powers of a 2x2 complex matrix, by polynomial coefficients.

    [sp a b c d p n q] is the coefficient of [x^q y^(p+n-q)] in
    [(a x + b y)^p (c x + d y)^n].  Purely mathematical; nothing here models code. *)
Require Import ZArith Lia Reals Lra Bool.
From Coquelicot Require Import Complex.
Require Import Verif.CBase Verif.CSum Verif.Fact.
Open Scope C_scope.

Fixpoint sp0 (c d : C) (n : nat) (q : Z) : C :=
  match n with
  | O => if (q =? 0)%Z then RtoC 1 else RtoC 0
  | S n' => c * sp0 c d n' (q - 1)%Z + d * sp0 c d n' q
  end.
Fixpoint sp (a b c d : C) (p n : nat) (q : Z) : C :=
  match p with
  | O => sp0 c d n q
  | S p' => a * sp a b c d p' n (q - 1)%Z + b * sp a b c d p' n q
  end.

Lemma sp_S a b c d p n q :
  sp a b c d (S p) n q = a * sp a b c d p n (q - 1)%Z + b * sp a b c d p n q.
Proof. reflexivity. Qed.
Lemma sp_S2 a b c d p n q :
  sp a b c d p (S n) q = c * sp a b c d p n (q - 1)%Z + d * sp a b c d p n q.
Proof.
  revert q. induction p as [|p IH]; intros q; [reflexivity|].
  rewrite !sp_S, !IH. ring.
Qed.

Lemma sp0_out c d n q : ((q < 0) \/ (Z.of_nat n < q))%Z -> sp0 c d n q = RtoC 0.
Proof.
  revert q. induction n as [|n IH]; intros q H; simpl.
  - destruct (Z.eqb_spec q 0); auto; lia.
  - rewrite !IH by lia. ring.
Qed.
Lemma sp_out a b c d p n q : ((q < 0) \/ (Z.of_nat (p + n) < q))%Z -> sp a b c d p n q = RtoC 0.
Proof.
  revert q. induction p as [|p IH]; intros q H; [apply sp0_out; simpl in H; lia|].
  rewrite sp_S, !IH by lia. ring.
Qed.

(** The explicit coefficients. *)
Definition term (a b : C) (p i : Z) : C :=
  RtoC (bin p i) * Cpow a (Z.to_nat i) * Cpow b (Z.to_nat (p - i)).

Lemma term_step a b p i : (0 <= p)%Z ->
  term a b (p + 1) i = a * term a b p (i - 1) + b * term a b p i.
Proof.
  intros Hp. unfold term. rewrite bin_pascal by auto. rewrite RtoC_plus.
  destruct (Z_lt_ge_dec i 0) as [Hi|Hi]; [rewrite !(bin_out p) by lia; ring|].
  destruct (Z_lt_ge_dec (p + 1) i) as [Hj|Hj]; [rewrite !(bin_out p) by lia; ring|].
  destruct (Z.eq_dec i 0) as [->|Hi0].
  - rewrite (bin_out p (0 - 1)) by lia. replace (Z.to_nat (p + 1 - 0)) with (S (Z.to_nat (p - 0))) by lia.
    simpl (Cpow _ (S _)). ring.
  - replace (Z.to_nat i) with (S (Z.to_nat (i - 1))) by lia.
    replace (p - (i - 1))%Z with (p + 1 - i)%Z by lia.
    destruct (Z.eq_dec i (p + 1)) as [->|Hip].
    + rewrite (bin_out p (p + 1)) by lia. simpl (Cpow _ (S _)). ring.
    + replace (Z.to_nat (p + 1 - i)) with (S (Z.to_nat (p - i))) by lia. simpl (Cpow _ (S _)). ring.
Qed.
Lemma term_out a b p i : ((i < 0) \/ (p < i))%Z -> term a b p i = RtoC 0.
Proof. intros. unfold term. rewrite bin_out by auto. ring. Qed.
Lemma term_00 a b : term a b 0 0 = RtoC 1.
Proof. unfold term. rewrite bin_0 by lia. simpl. ring. Qed.

Lemma sp0_term c d n q : sp0 c d n q = term c d (Z.of_nat n) q.
Proof.
  revert q. induction n as [|n IH]; intros q.
  - simpl. destruct (Z.eqb_spec q 0) as [->|]; [symmetry; apply term_00|].
    symmetry. apply term_out. lia.
  - replace (Z.of_nat (S n)) with (Z.of_nat n + 1)%Z by lia. rewrite term_step by lia.
    simpl. now rewrite !IH.
Qed.

(** Closed form: the convolution of two binomial expansions, summed over any
    window that covers the support. *)
Lemma sp_closed a b c d p n q lo hi : (lo <= 0)%Z -> (Z.of_nat p <= hi)%Z ->
  sp a b c d p n q = csum lo hi (fun i => term a b (Z.of_nat p) i * term c d (Z.of_nat n) (q - i)).
Proof.
  revert q lo hi. induction p as [|p IH]; intros q lo hi Hlo Hhi.
  - rewrite (csum_delta _ _ 0); [|lia|].
    + change (Z.of_nat 0) with 0%Z. rewrite term_00, Z.sub_0_r. simpl. rewrite sp0_term. ring.
    + intros i _ Hi. rewrite term_out by lia. ring.
  - rewrite sp_S, (IH (q - 1)%Z (lo - 1)%Z (hi - 1)%Z), (IH q lo hi) by lia.
    rewrite (csum_shift (lo - 1) (hi - 1) 1).
    replace (lo - 1 + 1)%Z with lo by lia. replace (hi - 1 + 1)%Z with hi by lia.
    rewrite <- !csum_scal, <- csum_plus. apply csum_ext. intros i _.
    replace (Z.of_nat (S p)) with (Z.of_nat p + 1)%Z by lia. rewrite term_step by lia.
    replace (q - 1 - (i - 1))%Z with (q - i)%Z by lia. ring.
Qed.

(** The matrix product goes to the composition of substitutions. *)
Lemma sp_product a b c d a' b' c' d' p n r :
  let N := Z.of_nat (p + n) in
  sp (a * a' + b * c') (a * b' + b * d') (c * a' + d * c') (c * b' + d * d') p n r =
  csum 0 N (fun q => sp a b c d p n q * sp a' b' c' d' (Z.to_nat q) (Z.to_nat (N - q)) r).
Proof.
  remember (p + n)%nat as k. revert p n r Heqk. induction k as [|k IH]; intros p n r Hk N.
  - assert (p = O) as -> by lia. assert (n = O) as -> by lia. subst N.
    simpl Z.of_nat. rewrite csum_one. simpl. destruct (Z.eqb r 0); ring.
  - assert (G : forall x y (f : Z -> C), (forall q, (q < 0 \/ Z.of_nat k < q)%Z -> f q = RtoC 0) ->
      csum 0 N (fun q => (x * f (q - 1)%Z + y * f q) * sp a' b' c' d' (Z.to_nat q) (Z.to_nat (N - q)) r) =
      (x * a' + y * c') * csum 0 (Z.of_nat k) (fun q => f q * sp a' b' c' d' (Z.to_nat q) (Z.to_nat (Z.of_nat k - q)) (r - 1)%Z)
      + (x * b' + y * d') * csum 0 (Z.of_nat k) (fun q => f q * sp a' b' c' d' (Z.to_nat q) (Z.to_nat (Z.of_nat k - q)) r)).
    { intros x y f Hf.
      transitivity (csum 0 N (fun q => x * (f (q - 1)%Z * sp a' b' c' d' (Z.to_nat q) (Z.to_nat (N - q)) r))
         + csum 0 N (fun q => y * (f q * sp a' b' c' d' (Z.to_nat q) (Z.to_nat (N - q)) r))).
      { rewrite <- csum_plus. apply csum_ext. intros; ring. }
      rewrite !csum_scal.
      rewrite (csum_first 0 N) by (subst N; lia). rewrite (Hf (0 - 1)%Z) by lia.
      rewrite (csum_shift (0 + 1) N (-1)).
      rewrite (csum_last 0 N _ ltac:(subst N; lia)). rewrite (Hf N) by (subst N; lia).
      replace (0 + 1 + -1)%Z with 0%Z by lia. replace (N + -1)%Z with (Z.of_nat k) by (subst N; lia).
      replace (N - 1)%Z with (Z.of_nat k) by (subst N; lia).
      rewrite (csum_ext 0 (Z.of_nat k) (fun i => f (i - -1 - 1)%Z * sp a' b' c' d' (Z.to_nat (i - -1)) (Z.to_nat (N - (i - -1))) r)
        (fun i => a' * (f i * sp a' b' c' d' (Z.to_nat i) (Z.to_nat (Z.of_nat k - i)) (r - 1)%Z)
                  + b' * (f i * sp a' b' c' d' (Z.to_nat i) (Z.to_nat (Z.of_nat k - i)) r))).
      2:{ intros i Hi. replace (i - -1 - 1)%Z with i by lia.
          replace (Z.to_nat (i - -1)) with (S (Z.to_nat i)) by lia.
          replace (Z.to_nat (N - (i - -1))) with (Z.to_nat (Z.of_nat k - i)) by (subst N; lia).
          rewrite sp_S. ring. }
      rewrite (csum_ext 0 (Z.of_nat k) (fun i => f i * sp a' b' c' d' (Z.to_nat i) (Z.to_nat (N - i)) r)
        (fun i => c' * (f i * sp a' b' c' d' (Z.to_nat i) (Z.to_nat (Z.of_nat k - i)) (r - 1)%Z)
                  + d' * (f i * sp a' b' c' d' (Z.to_nat i) (Z.to_nat (Z.of_nat k - i)) r))).
      2:{ intros i Hi.
          replace (Z.to_nat (N - i)) with (S (Z.to_nat (Z.of_nat k - i))) by (subst N; lia).
          rewrite sp_S2. ring. }
      rewrite !csum_plus, !csum_scal. ring. }
    destruct p as [|p].
    + destruct n as [|n]; [lia|]. rewrite sp_S2.
      assert (E : k = (0 + n)%nat) by lia.
      rewrite (IH 0%nat n (r - 1)%Z E), (IH 0%nat n r E).
      rewrite (csum_ext 0 N (fun q => sp a b c d 0 (S n) q * _)
        (fun q => (c * sp a b c d 0 n (q - 1)%Z + d * sp a b c d 0 n q) * sp a' b' c' d' (Z.to_nat q) (Z.to_nat (N - q)) r)) by
        (intros; now rewrite sp_S2).
      rewrite G by (intros; apply sp_out; lia). ring.
    + rewrite sp_S. assert (E : k = (p + n)%nat) by lia.
      rewrite (IH p n (r - 1)%Z E), (IH p n r E).
      rewrite (csum_ext 0 N (fun q => sp a b c d (S p) n q * _)
        (fun q => (a * sp a b c d p n (q - 1)%Z + b * sp a b c d p n q) * sp a' b' c' d' (Z.to_nat q) (Z.to_nat (N - q)) r)) by
        (intros; now rewrite sp_S).
      rewrite G by (intros; apply sp_out; lia). ring.
Qed.

(** Identity matrix. *)
Lemma sp_one p n q : sp (RtoC 1) (RtoC 0) (RtoC 0) (RtoC 1) p n q =
  if (q =? Z.of_nat p)%Z then RtoC 1 else RtoC 0.
Proof.
  revert q. induction p as [|p IH]; intros q.
  - revert q. induction n as [|n IHn]; intros q; [reflexivity|].
    rewrite sp_S2, !IHn. destruct (Z.eqb_spec q (Z.of_nat 0)); ring.
  - rewrite sp_S, !IH.
    destruct (Z.eqb_spec (q - 1) (Z.of_nat p)), (Z.eqb_spec q (Z.of_nat p)), (Z.eqb_spec q (Z.of_nat (S p)));
      try lia; ring.
Qed.

(** Diagonal and antidiagonal matrices. *)
Lemma sp_diag a d p n q : sp a (RtoC 0) (RtoC 0) d p n q =
  if (q =? Z.of_nat p)%Z then Cpow a p * Cpow d n else RtoC 0.
Proof.
  revert q. induction p as [|p IH]; intros q.
  - revert q. induction n as [|n IHn]; intros q; [simpl; destruct (Z.eqb q 0); ring|].
    rewrite sp_S2, !IHn. destruct (Z.eqb_spec q (Z.of_nat 0)); simpl; ring.
  - rewrite sp_S, !IH.
    destruct (Z.eqb_spec (q - 1) (Z.of_nat p)), (Z.eqb_spec q (Z.of_nat p)), (Z.eqb_spec q (Z.of_nat (S p)));
      try lia; simpl; ring.
Qed.
Lemma sp_anti b c p n q : sp (RtoC 0) b c (RtoC 0) p n q =
  if (q =? Z.of_nat n)%Z then Cpow b p * Cpow c n else RtoC 0.
Proof.
  revert q. induction n as [|n IH]; intros q.
  - revert q. induction p as [|p IHp]; intros q; [simpl; destruct (Z.eqb q 0); ring|].
    rewrite sp_S, !IHp. destruct (Z.eqb_spec q (Z.of_nat 0)); simpl; ring.
  - rewrite sp_S2, !IH.
    destruct (Z.eqb_spec (q - 1) (Z.of_nat n)), (Z.eqb_spec q (Z.of_nat n)), (Z.eqb_spec q (Z.of_nat (S n)));
      try lia; simpl; ring.
Qed.

(** Exchanging the two variables and the two factors. *)
Lemma sp_reverse a b c d p n q :
  sp d c b a n p (Z.of_nat (p + n) - q)%Z = sp a b c d p n q.
Proof.
  revert q. induction p as [|p IH]; intros q.
  - revert q. induction n as [|n IHn]; intros q.
    + cbn [sp sp0]. destruct (Z.eqb_spec (Z.of_nat (0 + 0) - q) 0), (Z.eqb_spec q 0); auto; lia.
    + rewrite sp_S, sp_S2, <- !IHn.
      replace (Z.of_nat (0 + S n) - q - 1)%Z with (Z.of_nat (0 + n) - q)%Z by lia.
      replace (Z.of_nat (0 + S n) - q)%Z with (Z.of_nat (0 + n) - (q - 1))%Z by lia. ring.
  - rewrite sp_S, sp_S2, <- !IH.
    replace (Z.of_nat (S p + n) - q - 1)%Z with (Z.of_nat (p + n) - q)%Z by lia.
    replace (Z.of_nat (S p + n) - q)%Z with (Z.of_nat (p + n) - (q - 1))%Z by lia. ring.
Qed.

Lemma sp_conj a b c d p n q :
  Cconj (sp a b c d p n q) = sp (Cconj a) (Cconj b) (Cconj c) (Cconj d) p n q.
Proof.
  revert q. induction p as [|p IH]; intros q.
  - revert q. induction n as [|n IHn]; intros q.
    + simpl. destruct (Z.eqb q 0); apply Cconj_RtoC.
    + rewrite !sp_S2, Cconj_plus, !Cconj_mult, !IHn. auto.
  - rewrite !sp_S, Cconj_plus, !Cconj_mult, !IH. auto.
Qed.

(** Flipping the sign of the off-diagonal entries. *)
Lemma sp_offdiag_sign a b c d p n q :
  sp a (- b) (- c) d p n q = RtoC (sgn (Z.of_nat p - q)) * sp a b c d p n q.
Proof.
  revert q. induction p as [|p IH]; intros q.
  - revert q. induction n as [|n IHn]; intros q.
    + cbn [sp sp0]. destruct (Z.eqb_spec q 0) as [->|]; [|ring]. change (sgn (Z.of_nat 0 - 0)) with 1%R. ring.
    + rewrite !sp_S2, !IHn. replace (Z.of_nat 0 - (q - 1))%Z with (Z.of_nat 0 - q + 1)%Z by lia.
      rewrite sgn_succ, RtoC_opp. ring.
  - rewrite !sp_S, !IH. replace (Z.of_nat (S p) - q)%Z with (Z.of_nat p - q + 1)%Z by lia.
    replace (Z.of_nat p - (q - 1))%Z with (Z.of_nat p - q + 1)%Z by lia.
    rewrite sgn_succ, RtoC_opp. ring.
Qed.

(** Transposition, up to the weights of the monomial basis. *)
Lemma sp_transpose a b c d (N p q : Z) : (0 <= p <= N)%Z -> (0 <= q <= N)%Z ->
  RtoC (fct q * fct (N - q)) * sp a b c d (Z.to_nat p) (Z.to_nat (N - p)) q =
  RtoC (fct p * fct (N - p)) * sp a c b d (Z.to_nat q) (Z.to_nat (N - q)) p.
Proof.
  intros Hp Hq.
  rewrite (sp_closed a b c d _ _ q 0 N), (sp_closed a c b d _ _ p 0 N) by lia.
  rewrite <- !csum_scal. apply csum_ext. intros i Hi. unfold term.
  rewrite !Z2Nat.id by lia. rewrite !bin_fct by lia.
  destruct (Z_lt_ge_dec p i); [rewrite (ifct_neg (p - i)) by lia; rewrite !RtoC_mult; ring|].
  destruct (Z_lt_ge_dec q i); [rewrite (ifct_neg (q - i)) by lia; rewrite !RtoC_mult; ring|].
  replace (N - p - (q - i))%Z with (N - q - (p - i))%Z by lia.
  rewrite !RtoC_mult. ring.
Qed.
