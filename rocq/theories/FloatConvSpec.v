(** Vocabulary of the statements about rounding in mode_conversions.py. *)
Require Import ZArith Reals.
From Flocq Require Import Core.
From Coquelicot Require Import Complex.
From Verif Require Import Base FloatPowersSpec.
Open Scope R_scope.

(** The smallest positive double, 2^-1074 *)
Definition tiny64 : R := bpow radix2 (-1074).
(** [x] is [y] up to [n] roundings (relative) and underflow, in each part *)
Definition close (n : R) (x y : R) : Prop := Rabs (x - y) <= n * u64 * Rabs y + 8 * tiny64.
Definition cclose (n : R) (x y : C) : Prop := close n (Re x) (Re y) /\ close n (Im x) (Im y).
(** An implementation of division, accurate to three roundings *)
Definition good_div (div : R -> R -> R) : Prop :=
  forall a k, / 2 <= Rabs k <= 2 ^ 60 -> div 0 k = 0 /\ Rabs (div a k - a / k) <= 3 * u64 * Rabs (a / k) + tiny64.
(** Both computations return an array, of the same length, with close entries *)
Definition array_close (n : R) (r64 r : res (arr C)) : Prop :=
  exists a64 a, r64 = Ok a64 /\ r = Ok a /\ alen a64 = alen a
    /\ forall k, (0 <= k < alen a)%Z -> cclose n (aget a64 k) (aget a k).
