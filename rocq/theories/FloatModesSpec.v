(** Vocabulary of the statements about Modes in double precision. *)
Require Import ZArith List Reals Permutation.
From Coquelicot Require Import Complex.
From Verif Require Import Base FloatIndexModel FloatModesModel FloatPowersSpec FloatConvSpec ModesModel ModesSpec.
Open Scope Z_scope.

(** [t] adds each of the products 0, ..., n-1 once, in whatever order, with at most [d] roundings for each of them *)
Definition adds_all (n : Z) (d : nat) (t : order) : Prop :=
  Permutation (terms t) (map Z.of_nat (seq 0 (Z.to_nat n))) /\ (depth t <= d)%nat.

(** [A] returns new modes (spin weight [s], ell_max and leading shape of [f]) that are [w] up to [n] roundings *)
Definition gives_close (n : R) (A : heap -> modes -> res (heap * modes)) (h : heap) (f : modes) (s : Z) (w : list Z -> Z -> Z -> C) : Prop :=
  exists h' r v, A h f = Ok (h', r) /\ new_modes h h' r s (ellmax (md f)) (lead (nd f)) v
    /\ forall idx ell m, at_index (lead (nd f)) idx -> 0 <= ell <= ellmax (md f) -> - ell <= m <= ell ->
         cclose n (v idx ell m) (w idx ell m).

(** Every entry is stored in doubles *)
Definition stored (h : heap) (f : modes) : Prop :=
  forall idx k, is_double (Re (mem h (buf (nd f)) idx k)) /\ is_double (Im (mem h (buf (nd f)) idx k)).
(** The complex number stored in doubles that is nearest to [z] *)
Definition rounded (z : C) : C := (RN64 (Re z), RN64 (Im z)).
