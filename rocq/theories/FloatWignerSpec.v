(** Vocabulary of the statements about the accuracy of Wigner_D_element and SWSH. *)
Require Import ZArith Reals.
From Coquelicot Require Import Complex.
From Verif Require Import Base CBase Fact RSum WignerSpec FloatPowersSpec FloatConvSpec FloatWignerModel.
Open Scope R_scope.

(** The sum of the moduli of the terms of Wigner's formula (WignerSpec.v): how large the numbers are that the formula adds *)
Definition Wigner_size (twoell twomp twom : Z) (Ra Rb : C) : R :=
  let lpp := ((twoell + twomp) / 2)%Z in
  let lmp := ((twoell - twomp) / 2)%Z in
  let lpm := ((twoell + twom) / 2)%Z in
  let lmm := ((twoell - twom) / 2)%Z in
  sqrt (fct lpm * fct lmm / (fct lpp * fct lmp))
  * rsum 0 twoell (fun rho =>
      bin lpp rho * bin lmp (lmm - rho)
      * Cmod Ra ^ Z.to_nat (lpp - rho) * Cmod Ra ^ Z.to_nat (lmm - rho)
      * Cmod Rb ^ Z.to_nat (rho - lpp + lpm) * Cmod Rb ^ Z.to_nat rho).

(** Accuracy of the library.  Modulus: two roundings.  Phase: some angle of the number, up to eight units of 2^-53. *)
Definition good_polar (polar : C -> R * R) : Prop :=
  forall z, Cmod z <= 2 ->
    Rabs (fst (polar z) - Cmod z) <= 2 * u64 * Cmod z + tiny64
    /\ exists phi, z = (RtoC (Cmod z) * cis phi)%C /\ Rabs phi <= PI /\ Rabs (snd (polar z) - phi) <= 8 * u64.
(** Powers: two roundings for every factor (a library function is better, repeated multiplication is not worse) *)
Definition good_pow (pow : R -> R -> R) : Prop :=
  forall x n, 0 < x <= 2 -> (0 <= n <= 64)%Z ->
    Rabs (pow x (IZR n) - powerRZ x n) <= 2 * (IZR n + 1) * u64 * powerRZ x n + 8 * tiny64.
(** From modulus and angle back to a number: four roundings *)
Definition good_rect (rect : R -> R -> C) : Prop :=
  forall r phi, Rabs r <= 2 ^ 300 -> Rabs phi <= 1000 ->
    Cmod (rect r phi - RtoC r * cis phi)%C <= 4 * u64 * Rabs r + 8 * tiny64.
(** A complex number to an integer power: sixteen roundings for every factor *)
Definition good_cpow (cpow : C -> Z -> C) : Prop :=
  forall z n, / 2 <= Cmod z <= 2 -> (Z.abs n <= 64)%Z ->
    Cmod (cpow z n - Cpowz z n)%C <= 16 * (IZR (Z.abs n) + 1) * u64 * Cmod (Cpowz z n).
Definition good_libm (lib : libm) : Prop :=
  (good_polar (lib_polar lib) /\ good_cpow (lib_cpow lib)) /\ good_pow (lib_pow lib) /\ good_rect (lib_rect lib).

(** The two complex parts of a rotor whose four components are doubles: of norm one up to eight units of 2^-53 *)
Definition nearly_unit (Ra Rb : C) : Prop := Rabs (Cmod Ra ^ 2 + Cmod Rb ^ 2 - 1) <= 8 * u64.

(** Rows that the shipped table covers: the indices of an element with 2l <= 64, or indices that no element has (for which
    the functions promise 0) *)
Definition D_rows_ok (indices : arr (Z * Z * Z)) : Prop :=
  forall i t mp m, (0 <= i < alen indices)%Z -> aget indices i = (t, mp, m) ->
    (D_indices t mp m /\ t <= 64)%Z \/ (t < Z.abs mp \/ t < Z.abs m)%Z.
Definition S_rows_ok (s : Z) (indices : arr (Z * Z)) : Prop :=
  forall i ell m, (0 <= i < alen indices)%Z -> aget indices i = (ell, m) -> (Z.abs m <= ell)%Z -> (Z.abs s <= ell)%Z -> (ell <= 32)%Z.
