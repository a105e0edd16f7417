(** Vocabulary of the statements about the accuracy of Wigner_D_matrices and of the evaluators over arrays of rotors. *)
Require Import ZArith Reals.
From Coquelicot Require Import Complex.
From Verif Require Import Base CBase FloatIndexModel FloatPowersModel FloatConvModel WignerModel FloatWignerModel FloatWignerSpec.
Open Scope R_scope.

(** Both complex parts are of moderate size and neither is taken for zero (WignerD/__init__.py:10) *)
Definition above_cutoff (lib : libm) (Ra Rb : C) : Prop :=
  (Cmod Ra <= 3 / 2 /\ Cmod Rb <= 3 / 2) /\ RN64 epsilon < fst (lib_polar lib Ra) /\ RN64 epsilon < fst (lib_polar lib Rb).
