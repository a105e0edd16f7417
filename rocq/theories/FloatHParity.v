(** The numbers of FloatHSpec.v under a change of sign of the sine or of the cosine, when rounding is odd. *)
Require Import ZArith Lia Reals Lra.
From Verif Require Import FloatHSpec.
Open Scope R_scope.
Set Bullet Behavior "Strict Subproofs".

Definition par (k : Z) (x : R) : R := if Z.even k then x else - x.
Lemma par_succ k x : par (k + 1) x = - par k x.
Proof. unfold par. rewrite Z.even_add. destruct (Z.even k); simpl; ring. Qed.
Lemma par_pred k x : par (k - 1) x = - par k x.
Proof. unfold par. rewrite Z.even_sub. destruct (Z.even k); simpl; ring. Qed.
Lemma par_opp k x : par (- k) x = par k x.
Proof. unfold par. now rewrite Z.even_opp. Qed.
Lemma par_eq k k' x : Z.even k = Z.even k' -> par k x = par k' x.
Proof. unfold par. now intros ->. Qed.
Lemma par_add k x : par (k + 2) x = par k x.
Proof. replace (k + 2)%Z with (k + 1 + 1)%Z by lia. rewrite !par_succ. ring. Qed.

Section Parity.
Variable rnd : R -> R.
Hypothesis odd : forall x, rnd (- x) = - rnd x.

Lemma mulNl x y : - x * y = - (x * y). Proof. ring. Qed.
Lemma mulNr x y : x * - y = - (x * y). Proof. ring. Qed.
Lemma divN x y : - x / y = - (x / y). Proof. unfold Rdiv. ring. Qed.
Lemma subN x y : - x - - y = - (x - y). Proof. ring. Qed.
Lemma addN x y : - x + - y = - (x + y). Proof. ring. Qed.
Ltac push := repeat first [rewrite mulNl | rewrite mulNr | rewrite divN | rewrite subN | rewrite addN | rewrite odd | rewrite Ropp_involutive].

Lemma par_mul k x y : par k x * y = par k (x * y). Proof. unfold par. destruct (Z.even k); ring. Qed.
Lemma par_mulr k x y : x * par k y = par k (x * y). Proof. unfold par. destruct (Z.even k); ring. Qed.
Lemma par_div k x y : par k x / y = par k (x / y). Proof. unfold par, Rdiv. destruct (Z.even k); ring. Qed.
Lemma par_sub k x y : par k x - par k y = par k (x - y). Proof. unfold par. destruct (Z.even k); ring. Qed.
Lemma par_plus k x y : par k x + par k y = par k (x + y). Proof. unfold par. destruct (Z.even k); ring. Qed.
Lemma par_rnd k x : rnd (par k x) = par k (rnd x). Proof. unfold par. destruct (Z.even k); auto. Qed.
Lemma par_neg k x : - par k x = par (k + 1) x. Proof. now rewrite par_succ. Qed.
Lemma negpar k x : par k (- x) = - par k x. Proof. unfold par. destruct (Z.even k); ring. Qed.
Ltac pp := repeat first [rewrite par_mul | rewrite par_mulr | rewrite par_div | rewrite par_sub | rewrite par_plus | rewrite par_rnd].

(** ** The sine *)
Section Sine.
Variables c s : R.
Lemma recf_sin n m x y : recf rnd c (- s) n m x y = recf rnd c s n m x y.
Proof. unfold recf. replace ((- s) ^ 2) with (s ^ 2) by ring. reflexivity. Qed.
Lemma rawf_sin n k : rawf rnd c (- s) n k = rawf rnd c s n k.
Proof.
  enough (A : rawf rnd c (- s) n k = rawf rnd c s n k /\ rawf rnd c (- s) n (S k) = rawf rnd c s n (S k)) by apply A.
  induction k as [|k (IH & IH')]; [split; reflexivity|]. split; [exact IH'|].
  change (recf rnd c (- s) n (n - Z.of_nat (S (S k))) (rawf rnd c (- s) n (S k)) (rawf rnd c (- s) n k)
    = recf rnd c s n (n - Z.of_nat (S (S k))) (rawf rnd c s n (S k)) (rawf rnd c s n k)).
  now rewrite recf_sin, IH, IH'.
Qed.
Lemma powf_sin i : powf rnd (- s) i = par (Z.of_nat i) (powf rnd s i).
Proof.
  induction i as [|i IH]; [reflexivity|]. cbn [powf]. rewrite IH. rewrite mulNr, par_mul, odd, par_rnd.
  rewrite Nat2Z.inj_succ. unfold Z.succ. now rewrite par_succ.
Qed.
Lemma preff_sin n i : preff rnd (- s) n i = par (Z.of_nat i) (preff rnd s n i).
Proof.
  induction i as [|i IH]; [reflexivity|]. cbn [preff]. rewrite IH. rewrite mulNr, par_mul, odd, par_rnd.
  rewrite Nat2Z.inj_succ. unfold Z.succ. now rewrite par_succ.
Qed.
Lemma H0f_sin n m : (0 <= m <= n)%Z -> H0f rnd c (- s) n m = par m (H0f rnd c s n m).
Proof.
  intros H. unfold H0f. rewrite !rawf_sin, recf_sin, powf_sin, preff_sin. rewrite !Z2Nat.id by lia.
  destruct (Z.eqb_spec m n) as [->|D]; [pp; reflexivity|].
  destruct (Z.eqb_spec n 1) as [->|D1]; [assert (m = 0%Z) as -> by lia; reflexivity|].
  destruct (Z.eqb_spec m 0) as [->|D0]; [reflexivity|]. pp. reflexivity.
Qed.
Lemma H1f_sin n m : (1 <= m <= n)%Z -> H1f rnd c (- s) n m = par (1 + m) (H1f rnd c s n m).
Proof.
  intros H. unfold H1f. rewrite !H0f_sin by lia. rewrite (par_succ m), (par_pred m), (Z.add_comm 1 m), mulNr, odd.
  rewrite par_succ. unfold par. destruct (Z.even m); push; reflexivity.
Qed.
Lemma upf_sin n k m : (Z.of_nat k <= n)%Z -> (1 <= n)%Z -> (Z.of_nat k - 1 <= m <= n)%Z ->
  upf rnd c (- s) n k m = par (Z.of_nat k + m) (upf rnd c s n k m).
Proof.
  intros Hk Hn Hm.
  enough (A : forall k, ((Z.of_nat k <= n)%Z -> forall m, (Z.of_nat k - 1 <= m <= n)%Z -> upf rnd c (- s) n k m = par (Z.of_nat k + m) (upf rnd c s n k m))
    /\ ((Z.of_nat (S k) <= n)%Z -> forall m, (Z.of_nat (S k) - 1 <= m <= n)%Z -> upf rnd c (- s) n (S k) m = par (Z.of_nat (S k) + m) (upf rnd c s n (S k) m)))
    by (now apply A).
  clear k m Hk Hm. induction k as [|k (IH & IH')].
  - split; intros Hk m Hm.
    + cbn [upf]. destruct (Z.ltb_spec m 0).
      * assert (m = -1)%Z as -> by lia. rewrite H0f_sin by lia. reflexivity.
      * rewrite H0f_sin by lia. reflexivity.
    + cbn [upf]. destruct (Z.eqb_spec m 0) as [->|D].
      * rewrite H0f_sin by lia. reflexivity.
      * rewrite H1f_sin by lia. reflexivity.
  - split; [exact IH'|]. intros Hk m Hm. specialize (IH ltac:(lia)). specialize (IH' ltac:(lia)).
    change (rnd (rnd (1 / dflt rnd n (Z.of_nat (S k))) * (if (m =? n)%Z
        then rnd (rnd (dflt rnd n (Z.of_nat (S k) - 1) * upf rnd c (- s) n k m) - rnd (dflt rnd n (m - 1) * upf rnd c (- s) n (S k) (m - 1)))
        else rnd (rnd (rnd (dflt rnd n (Z.of_nat (S k) - 1) * upf rnd c (- s) n k m) - rnd (dflt rnd n (m - 1) * upf rnd c (- s) n (S k) (m - 1)))
               + rnd (dflt rnd n m * upf rnd c (- s) n (S k) (m + 1)))))
      = par (Z.of_nat (S (S k)) + m) (rnd (rnd (1 / dflt rnd n (Z.of_nat (S k))) * (if (m =? n)%Z
        then rnd (rnd (dflt rnd n (Z.of_nat (S k) - 1) * upf rnd c s n k m) - rnd (dflt rnd n (m - 1) * upf rnd c s n (S k) (m - 1)))
        else rnd (rnd (rnd (dflt rnd n (Z.of_nat (S k) - 1) * upf rnd c s n k m) - rnd (dflt rnd n (m - 1) * upf rnd c s n (S k) (m - 1)))
               + rnd (dflt rnd n m * upf rnd c s n (S k) (m + 1))))))).
    rewrite IH by lia. rewrite (IH' (m - 1)%Z) by lia.
    replace (Z.of_nat (S k) + (m - 1))%Z with (Z.of_nat k + m)%Z by lia.
    replace (Z.of_nat (S (S k)) + m)%Z with (Z.of_nat k + m + 2)%Z by lia. rewrite par_add.
    destruct (Z.eqb_spec m n) as [->|D].
    + pp. reflexivity.
    + rewrite (IH' (m + 1)%Z) by lia. replace (Z.of_nat (S k) + (m + 1))%Z with (Z.of_nat k + m + 2)%Z by lia. rewrite par_add.
      pp. reflexivity.
Qed.
Lemma dnf_sin n k m : (Z.of_nat k <= n)%Z -> (1 <= n)%Z -> (Z.of_nat k - 1 <= m <= n)%Z ->
  dnf rnd c (- s) n k m = par (Z.of_nat k + m) (dnf rnd c s n k m).
Proof.
  intros Hk Hn Hm.
  enough (A : forall k, ((Z.of_nat k <= n)%Z -> forall m, (Z.of_nat k - 1 <= m <= n)%Z -> dnf rnd c (- s) n k m = par (Z.of_nat k + m) (dnf rnd c s n k m))
    /\ ((Z.of_nat (S k) <= n)%Z -> forall m, (Z.of_nat (S k) - 1 <= m <= n)%Z -> dnf rnd c (- s) n (S k) m = par (Z.of_nat (S k) + m) (dnf rnd c s n (S k) m)))
    by (now apply A).
  clear k m Hk Hm.
  assert (Step : forall k m x x', (Z.of_nat (S k) <= n)%Z -> (Z.of_nat (S k) - 1 <= m <= n)%Z ->
    (forall m, (Z.of_nat k - 1 <= m <= n)%Z -> dnf rnd c (- s) n k m = par (Z.of_nat k + m) (dnf rnd c s n k m)) ->
    x' = par (Z.of_nat (S k) + m) x ->
    rnd (rnd (1 / dflt rnd n (- Z.of_nat k - 1)) * (if (m =? n)%Z
        then rnd (rnd (dflt rnd n (- Z.of_nat k) * x') + rnd (dflt rnd n (m - 1) * dnf rnd c (- s) n k (m - 1)))
        else rnd (rnd (rnd (dflt rnd n (- Z.of_nat k) * x') + rnd (dflt rnd n (m - 1) * dnf rnd c (- s) n k (m - 1)))
               - rnd (dflt rnd n m * dnf rnd c (- s) n k (m + 1)))))
    = par (Z.of_nat (S k) + m) (rnd (rnd (1 / dflt rnd n (- Z.of_nat k - 1)) * (if (m =? n)%Z
        then rnd (rnd (dflt rnd n (- Z.of_nat k) * x) + rnd (dflt rnd n (m - 1) * dnf rnd c s n k (m - 1)))
        else rnd (rnd (rnd (dflt rnd n (- Z.of_nat k) * x) + rnd (dflt rnd n (m - 1) * dnf rnd c s n k (m - 1)))
               - rnd (dflt rnd n m * dnf rnd c s n k (m + 1))))))).
  { intros k m x x' Hk Hm IH ->. rewrite (IH (m - 1)%Z) by lia.
    replace (Z.of_nat (S k) + m)%Z with (Z.of_nat k + (m - 1) + 2)%Z by lia. rewrite !par_add.
    destruct (Z.eqb_spec m n) as [->|D].
    - pp. reflexivity.
    - rewrite (IH (m + 1)%Z) by lia. replace (Z.of_nat k + (m + 1))%Z with (Z.of_nat k + (m - 1) + 2)%Z by lia. rewrite par_add.
      pp. reflexivity. }
  assert (Z0 : forall m, (-1 <= m <= n)%Z -> dnf rnd c (- s) n 0 m = par (0 + m) (dnf rnd c s n 0 m)).
  { intros m Hm. cbn [dnf]. apply (upf_sin n 0 m); lia. }
  induction k as [|k (IH & IH')].
  - split; intros Hk m Hm; [now apply Z0|].
    refine (Step 0%nat m (upf rnd c s n 1 m) (upf rnd c (- s) n 1 m) Hk Hm _ _); [intros; apply Z0; lia|].
    apply (upf_sin n 1 m); lia.
  - split; [exact IH'|]. intros Hk m Hm. specialize (IH ltac:(lia)). specialize (IH' ltac:(lia)).
    refine (Step (S k) m (dnf rnd c s n k m) (dnf rnd c (- s) n k m) Hk Hm IH' _).
    rewrite IH by lia. replace (Z.of_nat (S (S k)) + m)%Z with (Z.of_nat k + m + 2)%Z by lia. now rewrite par_add.
Qed.
Lemma Hflt_sin n mp m : (Z.abs mp <= m <= n)%Z -> Hflt rnd c (- s) n mp m = par (mp + m) (Hflt rnd c s n mp m).
Proof.
  intros H. unfold Hflt. destruct (Z.eqb_spec n 0) as [->|D].
  { assert (mp = 0 /\ m = 0)%Z as (-> & ->) by lia. reflexivity. }
  destruct (Z.leb_spec 0 mp).
  - rewrite upf_sin by lia. now rewrite Z2Nat.id by lia.
  - rewrite dnf_sin by lia. rewrite Z2Nat.id by lia. apply par_eq. rewrite !Z.even_add, Z.even_opp. reflexivity.
Qed.
End Sine.

(** ** The cosine *)
Section Cosine.
Variables c s : R.
Lemma rawf_cos n k : rawf rnd (- c) s n k = par (Z.of_nat k) (rawf rnd c s n k).
Proof.
  enough (A : rawf rnd (- c) s n k = par (Z.of_nat k) (rawf rnd c s n k)
    /\ rawf rnd (- c) s n (S k) = par (Z.of_nat (S k)) (rawf rnd c s n (S k))) by apply A.
  induction k as [|k (IH & IH')].
  - split; [reflexivity|]. cbn [rawf]. change (par (Z.of_nat 1)) with (fun x => - x). cbv beta. push. reflexivity.
  - split; [exact IH'|].
    change (recf rnd (- c) s n (n - Z.of_nat (S (S k))) (rawf rnd (- c) s n (S k)) (rawf rnd (- c) s n k)
      = par (Z.of_nat (S (S k))) (recf rnd c s n (n - Z.of_nat (S (S k))) (rawf rnd c s n (S k)) (rawf rnd c s n k))).
    rewrite IH, IH'. unfold recf.
    replace (Z.of_nat (S k)) with (Z.of_nat k + 1)%Z by lia. replace (Z.of_nat (S (S k))) with (Z.of_nat k + 2)%Z by lia.
    rewrite par_succ, par_add. push. pp. reflexivity.
Qed.
Lemma H0f_cos n m : (1 <= n)%Z -> (0 <= m <= n)%Z -> H0f rnd (- c) s n m = par (n + m) (H0f rnd c s n m).
Proof.
  intros Hn H. unfold H0f. destruct (Z.eqb_spec m n) as [->|D].
  { rewrite rawf_cos. change (par (Z.of_nat 0)) with (fun x : R => x). cbv beta.
    rewrite (par_eq (n + n) 0) by (rewrite Z.add_diag, Z.even_mul; reflexivity). reflexivity. }
  destruct (Z.eqb_spec n 1) as [->|D1].
  { assert (m = 0%Z) as -> by lia. change (par (1 + 0)) with (fun x => - x). cbv beta. push. reflexivity. }
  destruct (Z.eqb_spec m 0) as [->|D0].
  - rewrite !rawf_cos. unfold recf. rewrite !Z2Nat.id by lia. replace (n - 1)%Z with (n - 2 + 1)%Z by lia.
    replace (n + 0)%Z with (n - 2 + 2)%Z by lia. rewrite par_succ, par_add. push. pp. reflexivity.
  - rewrite rawf_cos. rewrite Z2Nat.id by lia. pp. apply par_eq. rewrite Z.even_add, Z.even_sub. reflexivity.
Qed.
Lemma Hflt_cos n m : (0 <= m <= n)%Z -> Hflt rnd (- c) s n 0 m = par (n + m) (Hflt rnd c s n 0 m).
Proof.
  intros H. unfold Hflt. destruct (Z.eqb_spec n 0) as [->|D].
  { assert (m = 0)%Z as -> by lia. reflexivity. }
  cbn [Z.leb Z.compare Z.to_nat upf]. destruct (Z.ltb_spec m 0); [lia|]. simpl Z.leb. cbv iota. apply H0f_cos; lia.
Qed.
End Cosine.
End Parity.
