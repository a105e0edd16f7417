(** Property C63: the accuracy of Wigner_D_matrices and of the evaluators over arrays of rotors in double precision.  The
    functions ending in 64 (FloatMatrixModel.v) round every operation and look the coefficients up in the shipped table;
    [u64] is 2^-53.  The functions of the C library are any functions as accurate as [good_libm] (FloatWignerSpec.v) asks. *)
Require Import ZArith Lia Reals Lra Bool.
From Coquelicot Require Import Complex.
From Verif Require Import Base CBase DRep WignerSpec IndexModel FloatIndexModel FloatPowersSpec FloatConvSpec FloatConvModel WignerModel FloatWignerModel FloatWignerSpec
  FloatMatrixModel FloatMatrixSpec.
From Verif Require FloatMatrixProps FloatWignerProps.
Open Scope R_scope.

(** ** C63 *)

(** Wigner_D_matrices: every entry, whichever of the four symmetric writes produced it and whatever the array held before *)
Theorem C63_matrices :
  forall lib g q ell_min ell_max, good_libm lib -> above_cutoff lib (qa q) (qb q) -> (0 <= ell_min <= ell_max + 1)%Z -> (ell_max <= 32)%Z ->
  exists out, Wigner_D_matrices64 lib g q ell_min ell_max = Ok out
    /\ alen out = LMpM_total_size ell_min ell_max
    /\ forall ell mp m, (ell_min <= ell <= ell_max)%Z -> (- ell <= mp <= ell)%Z -> (- ell <= m <= ell)%Z ->
         Cmod (aget out (LMpM_index ell mp m ell_min) - Wigner_formula (2 * ell) (2 * mp) (2 * m) (qa q) (qb q))%C
         <= (106 * IZR ell + 15) * u64 * Wigner_size (2 * ell) (2 * mp) (2 * m) (qa q) (qb q) + / 2 ^ 600.
Proof. exact FloatMatrixProps.C63_matrices. Qed.
Print Assumptions C63_matrices.
Theorem C63_matrices_rotor :
  forall lib g q ell_min ell_max, good_libm lib -> nearly_unit (qa q) (qb q) -> (0 <= ell_min <= ell_max + 1)%Z -> (ell_max <= 32)%Z ->
  exists out, Wigner_D_matrices64 lib g q ell_min ell_max = Ok out
    /\ alen out = LMpM_total_size ell_min ell_max
    /\ forall ell mp m, (ell_min <= ell <= ell_max)%Z -> (- ell <= mp <= ell)%Z -> (- ell <= m <= ell)%Z ->
         Cmod (aget out (LMpM_index ell mp m ell_min) - Wigner_formula (2 * ell) (2 * mp) (2 * m) (qa q) (qb q))%C
         <= 53 * IZR (2 * ell + 1) * u64 * 2 ^ Z.to_nat ell.
Proof. exact FloatMatrixProps.C63_matrices_rotor. Qed.
Print Assumptions C63_matrices_rotor.

(** One element, or one spin-weighted harmonic, of many rotors; the rotors of one array may take different branches *)
Theorem C63_elements :
  forall lib Rs ell mp m values, good_libm lib -> (0 <= alen Rs <= alen values)%Z -> (Z.abs mp <= ell -> Z.abs m <= ell -> ell <= 32)%Z ->
  (forall i, (0 <= i < alen Rs)%Z -> above_cutoff lib (qa (aget Rs i)) (qb (aget Rs i)) \/ nearly_unit (qa (aget Rs i)) (qb (aget Rs i))) ->
  exists out, Wigner_D_elements_core64 lib Rs ell mp m values = Ok out
    /\ alen out = alen values
    /\ (forall i, (0 <= i < alen Rs)%Z ->
         ((Z.abs mp <= ell)%Z -> (Z.abs m <= ell)%Z ->
            (above_cutoff lib (qa (aget Rs i)) (qb (aget Rs i)) ->
               Cmod (aget out i - Wigner_formula (2 * ell) (2 * mp) (2 * m) (qa (aget Rs i)) (qb (aget Rs i)))%C
               <= (74 * IZR ell + 15) * u64 * Wigner_size (2 * ell) (2 * mp) (2 * m) (qa (aget Rs i)) (qb (aget Rs i)) + / 2 ^ 600)
            /\ (nearly_unit (qa (aget Rs i)) (qb (aget Rs i)) ->
               Cmod (aget out i - Wigner_formula (2 * ell) (2 * mp) (2 * m) (qa (aget Rs i)) (qb (aget Rs i)))%C
               <= 37 * IZR (2 * ell + 1) * u64 * 2 ^ Z.to_nat ell))
         /\ (ell < Z.abs mp \/ ell < Z.abs m -> aget out i = RtoC 0)%Z)
    /\ (forall i, (alen Rs <= i)%Z -> aget out i = aget values i).
Proof. exact FloatMatrixProps.C63_elements. Qed.
Print Assumptions C63_elements.
Theorem C63_SWSHs :
  forall lib Rs s ell m values, good_libm lib -> (0 <= alen Rs <= alen values)%Z -> (Z.abs m <= ell -> Z.abs s <= ell -> ell <= 32)%Z ->
  (forall i, (0 <= i < alen Rs)%Z -> above_cutoff lib (qa (aget Rs i)) (qb (aget Rs i)) \/ nearly_unit (qa (aget Rs i)) (qb (aget Rs i))) ->
  exists out, SWSHs_core64 lib Rs s ell m values = Ok out
    /\ alen out = alen values
    /\ (forall i, (0 <= i < alen Rs)%Z ->
         ((Z.abs m <= ell)%Z -> (Z.abs s <= ell)%Z ->
            (above_cutoff lib (qa (aget Rs i)) (qb (aget Rs i)) ->
               Cmod (aget out i - RtoC (if Z.even s then 1 else -1)%R * RtoC (sqrt (IZR (2 * ell + 1) / (4 * PI)))
                                  * Wigner_formula (2 * ell) (2 * m) (2 * - s) (qa (aget Rs i)) (qb (aget Rs i)))%C
               <= ((74 * IZR ell + 22) * u64 * (sqrt (IZR (2 * ell + 1) / (4 * PI)) * Wigner_size (2 * ell) (2 * m) (2 * - s) (qa (aget Rs i)) (qb (aget Rs i))) + / 2 ^ 600)%R)
            /\ (nearly_unit (qa (aget Rs i)) (qb (aget Rs i)) ->
               Cmod (aget out i - RtoC (if Z.even s then 1 else -1)%R * RtoC (sqrt (IZR (2 * ell + 1) / (4 * PI)))
                                  * Wigner_formula (2 * ell) (2 * m) (2 * - s) (qa (aget Rs i)) (qb (aget Rs i)))%C
               <= (42 * IZR (2 * ell + 1) * u64 * sqrt (IZR (2 * ell + 1) / (4 * PI)) * 2 ^ Z.to_nat ell)%R))
         /\ (ell < Z.abs m \/ ell < Z.abs s -> aget out i = RtoC 0)%Z)
    /\ (forall i, (alen Rs <= i)%Z -> aget out i = aget values i).
Proof. exact FloatMatrixProps.C63_SWSHs. Qed.
Print Assumptions C63_SWSHs.

(** The rotor 3/5 + 4/5 y is a rotor, its parts are above the cut-off of a library that rounds exact functions once, the
    rotor 1 is below it, and the bound for l = 8 says something. *)
Example C63_nonvacuous :
  let q := mkquat (3 / 5) 0 (4 / 5) 0 in
  nearly_unit (qa q) (qb q) /\ good_libm FloatWignerProps.rounded_libm /\ above_cutoff FloatWignerProps.rounded_libm (qa q) (qb q)
  /\ (let one := mkquat 1 0 0 0 in nearly_unit (qa one) (qb one) /\ ~ above_cutoff FloatWignerProps.rounded_libm (qa one) (qb one))
  /\ 53 * IZR (2 * 8 + 1) * u64 * 2 ^ Z.to_nat 8 < / 10 ^ 10.
Proof.
  exact FloatMatrixProps.C63_example.
Qed.
