(** Vocabulary of the statements about floating-point accuracy. *)
Require Import ZArith Reals.
From Coquelicot Require Import Complex.
From Verif Require Import CBase FloatIndexModel.
Open Scope R_scope.

(** Half the distance from 1 to the next double: the unit roundoff, 2^-53 *)
Definition u64 : R := / 9007199254740992.
(** A double-precision number (without overflow) *)
Definition is_double (x : R) : Prop := RN64 x = x.
(** Zero, or far enough from zero that its cube does not underflow *)
Definition resolved (x : R) : Prop := x = 0 \/ / 2 ^ 300 <= Rabs x.
(** A complex number stored in doubles whose modulus is 1 up to a few roundings *)
Definition near_unit (z : C) : Prop :=
  is_double (Re z) /\ is_double (Im z) /\ Rabs (Cmod z - 1) <= 4 * u64 /\ resolved (Re z) /\ resolved (Im z).
(** An implementation of the imaginary part of the square root, accurate to four roundings in the first quadrant *)
Definition good_sqrt (sqrt_im : C -> R) : Prop :=
  forall z, near_unit z -> 0 <= Re z -> 0 <= Im z ->
    Rabs (sqrt_im z - Im (Csqrt z)) <= 4 * u64 * Im (Csqrt z).
