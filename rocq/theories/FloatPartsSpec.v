(** Vocabulary of the statements about real and imaginary parts of Modes in double precision. *)
Require Import ZArith List Reals.
From Coquelicot Require Import Complex.
From Verif Require Import Base ModesModel ModesSpec FloatModesModel FloatModesSpec FloatPartsModel.
Open Scope Z_scope.

(** Every product is the sum of its two products of parts, in whatever order, fused or not *)
Definition good_parts_way (w : parts_way) : Prop :=
  forall idx k, adds_all 2 2 (fst (p_mul w idx k)) /\ adds_all 2 2 (snd (p_mul w idx k)).
(** The modes are those of a function with real values: f_(ell,-m) = (-1)^m conj f_(ell,m) *)
Definition real_valued (f : modes) (v : list Z -> Z -> Z -> C) : Prop :=
  forall idx ell m, at_index (lead (nd f)) idx -> 0 <= ell <= ellmax (md f) -> - ell <= m <= ell ->
    v idx ell (- m) = if Z.even m then Cconj (v idx ell m) else (- Cconj (v idx ell m))%C.
