(** [LM_deduce_ell_max] with IEEE double-precision arithmetic (spherical_functions/__init__.py:165-169). *)
Require Import ZArith Reals.
From Flocq Require Import Core.
From Verif Require Import Base IndexModel.

(** Rounding to nearest, ties to even, in the binary64 format (precision 53, smallest
    exponent -1074).  Overflow to infinity is not part of this model; the arguments of the theorems are
    far below it. *)
Definition RN64 (x : R) : R := round radix2 (FLT_exp (-1074) 53) ZnearestE x.

(** [int(np.sqrt(n) - 1)]: numpy converts the integer to a double, takes the correctly rounded
    square root, the subtraction rounds again, and [int] truncates towards zero. *)
Definition float_isqrt_minus_1 (n : Z) : Z :=
  Ztrunc (RN64 (RN64 (R_sqrt.sqrt (RN64 (IZR n))) - 1)).

(** spherical_functions/__init__.py:165-169, floating point *)
Definition LM_deduce_ell_max_float (size ell_min : Z) : res Z :=
  LM_deduce_with float_isqrt_minus_1 size ell_min.
