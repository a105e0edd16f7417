(** Vocabulary of the statements about the shipped tables. *)
Require Import Reals.
From Verif Require Import FloatPowersSpec.
Open Scope R_scope.

(** [x] is [y] or less, by at most one unit in the last place (relatively, 2^-52) *)
Definition one_ulp_below (x y : R) : Prop := 0 <= y - x <= 2 * u64 * y.
