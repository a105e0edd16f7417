(** Property C62: the accuracy of Wigner_D_element and SWSH in double precision.  The functions ending in 64
    (FloatWignerModel.v) round every operation and look the coefficients up in the shipped table; [u64] is 2^-53.  The
    functions of the C library are any functions as accurate as [good_libm] (FloatWignerSpec.v) asks. *)
Require Import ZArith Lia Reals Lra Bool.
From Coquelicot Require Import Complex.
From Verif Require Import Base CBase WignerSpec IndexModel FloatIndexModel FloatPowersSpec FloatConvSpec WignerModel FloatWignerModel FloatWignerSpec.
From Verif Require FloatWignerProps.
Open Scope R_scope.

(** ** C62 *)

(** Whatever the norm of the quaternion: the error is a number of roundings proportional to l, relative to the size of the
    terms that Wigner's formula adds *)
Theorem C62_D :
  forall lib Ra Rb indices elements, good_libm lib -> Cmod Ra <= 3 / 2 -> Cmod Rb <= 3 / 2 ->
  RN64 epsilon < fst (lib_polar lib Ra) -> RN64 epsilon < fst (lib_polar lib Rb) ->
  (0 <= alen indices <= alen elements)%Z -> D_rows_ok indices ->
  exists out, Wigner_D_element_core64 lib Ra Rb indices elements = Ok out
    /\ alen out = alen elements
    /\ (forall i t mp m, (0 <= i < alen indices)%Z -> aget indices i = (t, mp, m) ->
         (D_indices t mp m ->
            Cmod (aget out i - Wigner_formula t mp m Ra Rb)%C <= (37 * IZR t + 15) * u64 * Wigner_size t mp m Ra Rb + / 2 ^ 600)
         /\ (t < Z.abs mp \/ t < Z.abs m -> aget out i = RtoC 0)%Z)
    /\ (forall i, (alen indices <= i)%Z -> aget out i = aget elements i).
Proof. exact FloatWignerProps.C62_D. Qed.
Print Assumptions C62_D.
Theorem C62_SWSH :
  forall lib Ra Rb s indices values, good_libm lib -> Cmod Ra <= 3 / 2 -> Cmod Rb <= 3 / 2 ->
  RN64 epsilon < fst (lib_polar lib Ra) -> RN64 epsilon < fst (lib_polar lib Rb) ->
  (0 <= alen indices <= alen values)%Z -> S_rows_ok s indices ->
  exists out, SWSH_core64 lib Ra Rb s indices values = Ok out
    /\ alen out = alen values
    /\ (forall i ell m, (0 <= i < alen indices)%Z -> aget indices i = (ell, m) ->
         ((Z.abs m <= ell)%Z -> (Z.abs s <= ell)%Z ->
            Cmod (aget out i - RtoC (if Z.even s then 1 else -1)%R * RtoC (sqrt (IZR (2 * ell + 1) / (4 * PI))) * Wigner_formula (2 * ell) (2 * m) (2 * - s) Ra Rb)%C
            <= ((74 * IZR ell + 22) * u64 * (sqrt (IZR (2 * ell + 1) / (4 * PI)) * Wigner_size (2 * ell) (2 * m) (2 * - s) Ra Rb) + / 2 ^ 600)%R)
         /\ (ell < Z.abs m \/ ell < Z.abs s -> aget out i = RtoC 0)%Z)
    /\ (forall i, (alen indices <= i)%Z -> aget out i = aget values i).
Proof. exact FloatWignerProps.C62_SWSH. Qed.
Print Assumptions C62_SWSH.

(** A rotor: the terms are at most sqrt 2 ^ (2l), and the branches for a part below the cut-off are as accurate as the others *)
Theorem C62_D_rotor :
  forall lib Ra Rb indices elements, good_libm lib -> nearly_unit Ra Rb ->
  (0 <= alen indices <= alen elements)%Z -> D_rows_ok indices ->
  exists out, Wigner_D_element_core64 lib Ra Rb indices elements = Ok out
    /\ alen out = alen elements
    /\ (forall i t mp m, (0 <= i < alen indices)%Z -> aget indices i = (t, mp, m) ->
         (D_indices t mp m ->
            Cmod (aget out i - Wigner_formula t mp m Ra Rb)%C <= 37 * (IZR t + 1) * u64 * sqrt 2 ^ Z.to_nat t)
         /\ (t < Z.abs mp \/ t < Z.abs m -> aget out i = RtoC 0)%Z)
    /\ (forall i, (alen indices <= i)%Z -> aget out i = aget elements i).
Proof. exact FloatWignerProps.C62_D_rotor. Qed.
Print Assumptions C62_D_rotor.
Theorem C62_SWSH_rotor :
  forall lib Ra Rb s indices values, good_libm lib -> nearly_unit Ra Rb ->
  (0 <= alen indices <= alen values)%Z -> S_rows_ok s indices ->
  exists out, SWSH_core64 lib Ra Rb s indices values = Ok out
    /\ alen out = alen values
    /\ (forall i ell m, (0 <= i < alen indices)%Z -> aget indices i = (ell, m) ->
         ((Z.abs m <= ell)%Z -> (Z.abs s <= ell)%Z ->
            Cmod (aget out i - RtoC (if Z.even s then 1 else -1)%R * RtoC (sqrt (IZR (2 * ell + 1) / (4 * PI))) * Wigner_formula (2 * ell) (2 * m) (2 * - s) Ra Rb)%C
            <= (42 * IZR (2 * ell + 1) * u64 * sqrt (IZR (2 * ell + 1) / (4 * PI)) * 2 ^ Z.to_nat ell)%R)
         /\ (ell < Z.abs m \/ ell < Z.abs s -> aget out i = RtoC 0)%Z)
    /\ (forall i, (alen indices <= i)%Z -> aget out i = aget values i).
Proof. exact FloatWignerProps.C62_SWSH_rotor. Qed.
Print Assumptions C62_SWSH_rotor.

(** There are such libraries: exact functions rounded once. *)
Example C62_library : good_libm FloatWignerProps.rounded_libm.
Proof. exact FloatWignerProps.rounded_libm_good. Qed.
(** The rotor 3/5 + 4/5 y: the row l = 8, m' = -3, m = 5, a row of spin 1/2, and a row that no element has. *)
Example C62_nonvacuous :
  nearly_unit (RtoC (3 / 5)) (RtoC (4 / 5))
  /\ (let rows := mkarr 3 (fun i => if i =? 0 then (16, -6, 10) else if i =? 1 then (1, 1, -1) else (2, 4, 0))%Z in
      D_rows_ok rows /\ S_rows_ok (-2) (mkarr 1 (fun _ => (8, -3)%Z)))
  /\ 37 * (IZR 16 + 1) * u64 * sqrt 2 ^ Z.to_nat 16 < / 10 ^ 10.
Proof.
  split; [|split].
  - unfold nearly_unit. rewrite !Cmod_R, (Rabs_pos_eq (3 / 5)), (Rabs_pos_eq (4 / 5)) by lra. replace ((3 / 5) ^ 2 + (4 / 5) ^ 2 - 1) with 0 by field.
    rewrite Rabs_R0. unfold u64. lra.
  - split.
    + intros i t mp m Hi. cbn [alen aget] in *.
      destruct (i =? 0)%Z; [|destruct (i =? 1)%Z]; intros [= <- <- <-]; [left|left|right]; unfold D_indices; cbn; repeat split; lia.
    + intros i ell m Hi [= <- <-]. cbn. lia.
  - change (Z.to_nat 16) with (2 * 8)%nat. rewrite pow_mult. replace (sqrt 2 ^ 2) with 2 by (rewrite <- Rsqr_pow2, Rsqr_sqrt; lra).
    unfold u64. simpl. lra.
Qed.
