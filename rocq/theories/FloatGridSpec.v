(** Vocabulary of the statements about the arithmetic of Grid objects in double precision. *)
Require Import ZArith List Reals.
From Coquelicot Require Import Complex.
From Verif Require Import Base CBase ModesModel ModesSpec FloatIndexModel FloatPowersSpec FloatConvSpec FloatModesModel FloatModesSpec
  GridModel GridSpec GridUfuncSpec FloatGridModel.
Import ListNotations.
Open Scope Z_scope.

(** Accuracy of the C library: two roundings for hypot, four for csqrt (the root with non-negative real part).  Nothing is
    asked of cpow. *)
Definition good_hypot (hypot : R -> R -> R) : Prop :=
  forall z : C, (Rabs (hypot (Re z) (Im z) - Cmod z) <= 2 * u64 * Cmod z + tiny64)%R.
Definition principal_root (z w : C) : Prop := (w * w)%C = z /\ ((0 < Re w)%R \/ Re w = 0%R /\ (0 <= Im w)%R).
Definition good_csqrt (csqrt : C -> C) : Prop :=
  forall z w, principal_root z w -> (Cmod (csqrt z - w)%C <= 4 * u64 * Cmod w + tiny64)%R.
(** The compiled loops add the two products of each part of a complex product once each. *)
Definition good_way (w : grid_way) : Prop :=
  (forall idx, adds_all 2 2 (fst (w_mul w idx)) /\ adds_all 2 2 (snd (w_mul w idx)))
  /\ forall idx k, adds_all 2 2 (fst (w_pow w idx k)) /\ adds_all 2 2 (snd (w_pow w idx k)).

(** How far the value [z] of the result may be from the exact value, given the numbers that the inputs contribute *)
Definition near_product (a b z : C) : Prop := (Cmod (z - a * b)%C <= 3 * u64 * (Cmod a * Cmod b) + 4 * tiny64)%R.
Definition near_quotient (a b z : C) : Prop :=
  (/ 2 ^ 900 <= Cmod b <= 2 ^ 900)%R ->
  (Cmod (z - a / b)%C <= 18 * u64 * (Cmod a / Cmod b) + 3 * tiny64 * (1 + / Cmod b))%R.
Definition near_reciprocal (a z : C) : Prop :=
  (/ 2 ^ 900 <= Cmod a <= 2 ^ 900)%R -> (Cmod (z - / a)%C <= 11 * u64 * / Cmod a)%R.
Definition near_power (a : C) (e : Z) (z : C) : Prop :=
  (e = 0 -> z = RtoC 1)
  /\ (0 < e -> a = RtoC 0 -> z = RtoC 0)
  /\ (e = 1 -> z = a)
  /\ (Z.abs e < 100 ->
      let b := Cpow a (Z.to_nat (Z.abs e)) in
      (/ 2 ^ 800 <= Cmod b <= 2 ^ 800)%R ->
      (0 < e -> (Cmod (z - b)%C <= 4 * IZR e * u64 * Cmod b)%R)
      /\ (e < 0 -> (Cmod (z - / b)%C <= (4 * IZR (- e) + 20) * u64 * / Cmod b)%R)).
Definition near_modulus (a z : C) : Prop := Im z = 0%R /\ (Rabs (Re z - Cmod a) <= 2 * u64 * Cmod a + tiny64)%R.
Definition near (u : ufunc) (args : list operand) (l : list Z) (i j : Z) (z : C) : Prop :=
  match u, args with
  | u_positive, [a] => z = at_point a l i j
  | u_negative, [a] => (z + at_point a l i j)%C = RtoC 0
  | u_conjugate, [a] => z = Cconj (at_point a l i j)
  | u_absolute, [a] => near_modulus (at_point a l i j) z
  | u_square, [a] => near_product (at_point a l i j) (at_point a l i j) z
  | u_reciprocal, [a] => near_reciprocal (at_point a l i j) z
  | u_sqrt, [a] => exists w, principal_root (at_point a l i j) w /\ (Cmod (z - w)%C <= 4 * u64 * Cmod w + tiny64)%R
  | u_power, [a; x] => forall e, exponent x e -> near_power (at_point a l i j) e z
  | u_add, [a; b] => z = rounded (at_point a l i j + at_point b l i j)%C
  | u_subtract, [a; b] => z = rounded (at_point a l i j - at_point b l i j)%C
  | u_multiply, [a; b] => near_product (at_point a l i j) (at_point b l i j) z
  | u_divide, [a; b] => near_quotient (at_point a l i j) (at_point b l i j) z
  | _, _ => False
  end.

(** The rounded call ends as the exact one does: the same exception, or a Grid of the same shape and spin weight, or the same
    truth values, or the same of whatever else there is. *)
Definition same_outcome (r r64 : res gresult) : Prop :=
  match r, r64 with
  | Err e, Err e' => e' = e
  | Ok (RGrid g), Ok (RGrid g') => gspin g' = gspin g /\ gshape (gdata g') = gshape (gdata g)
  | Ok r, Ok r' => r' = r
  | _, _ => False
  end.
(** The same for the methods of algebra.py, with what holds between the entries *)
Definition same_grids (P : C -> C -> Prop) (r r64 : res grid) : Prop :=
  match r, r64 with
  | Err e, Err e' => e' = e
  | Ok g, Ok g' => gspin g' = gspin g /\ gshape (gdata g') = gshape (gdata g)
                   /\ forall idx, at_index (gshape (gdata g)) idx -> P (gval (gdata g) idx) (gval (gdata g') idx)
  | _, _ => False
  end.
