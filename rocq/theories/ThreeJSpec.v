(** The Wigner 3-j symbol with integer arguments, by Racah's closed formula.
    This file does not mention the program. *)
From Coq Require Import ZArith Reals Lia Lra Bool.
From Verif Require Import Fact RSum.
Local Open Scope R_scope.

(** The selection rules: the projections sum to zero, each is bounded by its [j], and the three
    [j] satisfy the triangle inequality. *)
Definition tj_allowed (j1 j2 j3 m1 m2 m3 : Z) : Prop :=
  (m1 + m2 + m3 = 0 /\ Z.abs m1 <= j1 /\ Z.abs m2 <= j2 /\ Z.abs m3 <= j3 /\
   j3 <= j1 + j2 /\ j2 <= j1 + j3 /\ j1 <= j2 + j3)%Z.

Definition tj_allowedb (j1 j2 j3 m1 m2 m3 : Z) : bool :=
  ((m1 + m2 + m3 =? 0) && (Z.abs m1 <=? j1) && (Z.abs m2 <=? j2) && (Z.abs m3 <=? j3) &&
   (j3 <=? j1 + j2) && (j2 <=? j1 + j3) && (j1 <=? j2 + j3))%Z.

(** The alternating sum in Racah's formula; [ifct n] is [1/n!], and 0 for negative [n]. *)
Definition racah_sum (j1 j2 j3 m1 m2 : Z) : R :=
  rsum 0 (j1 + j2 - j3) (fun k =>
    sgn k * ifct k * ifct (j1 + j2 - j3 - k) * ifct (j1 - m1 - k) * ifct (j2 + m2 - k)
    * ifct (j3 - j2 + m1 + k) * ifct (j3 - j1 - m2 + k)).

(** The triangle coefficient. *)
Definition tri2 (j1 j2 j3 : Z) : R :=
  fct (j1 + j2 - j3) * fct (j1 - j2 + j3) * fct (- j1 + j2 + j3) / fct (j1 + j2 + j3 + 1).

(** [threej j1 j2 j3 m1 m2 m3] is the symbol with columns (j1,m1), (j2,m2), (j3,m3). *)
Definition threej (j1 j2 j3 m1 m2 m3 : Z) : R :=
  if tj_allowedb j1 j2 j3 m1 m2 m3 then
    sgn (j1 - j2 - m3) * sqrt (tri2 j1 j2 j3)
    * sqrt (fct (j1 + m1) * fct (j1 - m1) * fct (j2 + m2) * fct (j2 - m2) * fct (j3 + m3) * fct (j3 - m3))
    * racah_sum j1 j2 j3 m1 m2
  else 0.

(** Clebsch-Gordan coefficient <j1 m1 j2 m2 | j3 m3>. *)
Definition cg (j1 m1 j2 m2 j3 m3 : Z) : R :=
  sgn (j1 - j2 + m3) * sqrt (IZR (2 * j3 + 1)) * threej j1 j2 j3 m1 m2 (- m3).

(** ** The three-term recurrence in the first angular momentum
    The family of symbols (j a b; -m-n m n) with [j] from [jlo a b m n] to [a + b]. *)
Definition jlo (a b m n : Z) : Z := Z.max (Z.abs (a - b)) (Z.abs (m + n)).
(** square of the off-diagonal coefficient; [M] is [m + n] *)
Definition A2 (j a b M : Z) : Z := ((j * j - (a - b) * (a - b)) * ((a + b + 1) * (a + b + 1) - j * j) * (j * j - M * M))%Z.
(** diagonal coefficient *)
Definition Bq (j a b m n : Z) : Z :=
  ((2 * j + 1) * ((m + n) * (a * (a + 1) - b * (b + 1)) - (m - n) * j * (j + 1)))%Z.

(** A symbol of the family vanishes, strictly inside the range and where the recurrence coefficients already decrease,
    although the family starts with a growing region and every symbol up to there is zero or at least as large as the one
    two places before.  No quadruple with this property is known; a search over all a, b <= 400 found none. *)
Definition late_zero (a b m n : Z) : Prop :=
  (Bq (jlo a b m n) a b m n < 0)%Z /\
  exists k, (jlo a b m n + 4 <= k <= a + b - 7)%Z /\
    (k * k * A2 (k + 1) a b (m + n) <= (k + 1) * (k + 1) * A2 k a b (m + n))%Z /\
    let w j := threej j a b (- m - n) m n in
    w k = 0 /\ forall i, (jlo a b m n + 2 <= i <= k)%Z -> w (i + 1)%Z = 0 \/ Rabs (w (i - 1)%Z) <= Rabs (w (i + 1)%Z).
