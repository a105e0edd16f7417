(** Property C61: the coefficient tables that are shipped.  The functions ending in 64 look their result up in the
    contents of the .npy files (TableData.v); [u64] is 2^-53. *)
Require Import ZArith Lia Reals Lra Bool List.
From Flocq Require Import Core.
From Verif Require Import Base IndexModel FloatIndexModel FloatPowersSpec TableData TableModel TableSpec.
From Verif Require TableProps.
Open Scope Z_scope.

(** ** C61 *)

(** Binomial coefficients: nearest double, exact below 2^53 *)
Theorem C61_binomial :
  forall n k, 0 <= n <= 64 -> 0 <= k <= n ->
    exists x, binomial_coefficient64 n k = Ok x /\
      let exact := Binomial.C (Z.to_nat n) (Z.to_nat k) in
      (Rabs (x - exact) <= u64 * exact)%R /\ ((exact < 2 ^ 53)%R -> x = exact).
Proof. exact TableProps.C61_binomial. Qed.
Print Assumptions C61_binomial.

(** Ladder operator coefficients and Wigner coefficients, for integer and half-integer arguments: at most one unit in the
    last place below the exact value, never above *)
Theorem C61_ladder :
  forall ell m : R, forall twoell twom : Z, ell = (IZR twoell / 2)%R -> m = (IZR twom / 2)%R ->
    0 <= twoell <= 64 -> - twoell <= twom <= twoell -> Z.even (twoell + twom) = true ->
    exists x, ladder_operator_coefficient64 ell m = Ok x /\
      one_ulp_below x (sqrt (ell * (ell + 1) - m * (m + 1))).
Proof. exact TableProps.C61_ladder. Qed.
Print Assumptions C61_ladder.
Theorem C61_Wigner :
  forall ell mp m : R, forall twoell lpmp lpm : Z,
    ell = (IZR twoell / 2)%R -> (ell + mp)%R = IZR lpmp -> (ell + m)%R = IZR lpm ->
    0 <= twoell <= 64 -> 0 <= lpmp <= twoell -> 0 <= lpm <= twoell ->
    let lmmp := twoell - lpmp in let lmm := twoell - lpm in
    let rho := Z.max 0 (lpmp - lpm) in
    let F n := INR (fact (Z.to_nat n)) in let Ch n k := Binomial.C (Z.to_nat n) (Z.to_nat k) in
    exists x, Wigner_coefficient64 ell mp m = Ok x /\
      one_ulp_below x (sqrt (F lpm * F lmm / (F lpmp * F lmmp)) * Ch lpmp rho * Ch lmmp (lmm - rho)%Z)%R.
Proof. exact TableProps.C61_Wigner. Qed.
Print Assumptions C61_Wigner.

(** They are not the nearest doubles, and a few that are integers are not exact. *)
Theorem C61_nearest_refuted :
  (exists x x', ladder_operator_coefficient64 1 0 = Ok x /\ is_double x' /\
     (Rabs (x' - sqrt (1 * (1 + 1) - 0 * (0 + 1))) < Rabs (x - sqrt (1 * (1 + 1) - 0 * (0 + 1))))%R) /\
  (exists x, Wigner_coefficient64 (49 / 2) (49 / 2) (47 / 2) = Ok x /\ x <> 7%R /\
     (sqrt (INR (fact 48) * INR (fact 1) / (INR (fact 49) * INR (fact 0))) * Binomial.C 49 1 * Binomial.C 0 0 = 7)%R).
Proof. exact TableProps.C61_nearest_refuted. Qed.
Print Assumptions C61_nearest_refuted.

(** ell = 7/2, mp = -3/2 and m = 5/2 is a case of C61_Wigner, ell = 7/2 and m = -3/2 one of C61_ladder. *)
Example C61_nonvacuous :
  (7 / 2 + - (3 / 2))%R = IZR 2 /\ (7 / 2 + 5 / 2)%R = IZR 6 /\ 0 <= 2 <= 7 /\ 0 <= 6 <= 7 /\ 0 <= 7 <= 64
  /\ - 7 <= -3 <= 7 /\ Z.even (7 + -3) = true.
Proof. repeat split; try lia; try lra. Qed.
