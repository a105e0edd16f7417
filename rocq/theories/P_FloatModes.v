(** Property C64: the accuracy of SWSH_grid, Modes.evaluate and Modes.norm in double precision.  The functions ending in 64
    (FloatModesModel.v) round every operation; [u64] is 2^-53.  The functions of the C library are any functions as accurate as
    [good_libm] (FloatWignerSpec.v) asks.  Sums of products are taken in any order; [adds_all n d t] (FloatModesSpec.v) says
    that the order [t] takes each of the n products once and rounds none of them more than d times. *)
Require Import ZArith Lia List Reals Lra Bool Permutation.
From Coquelicot Require Import Complex.
From Verif Require Import Base CBase RSum CSum DRep WignerSpec IndexModel PowersModel FloatIndexModel FloatPowersSpec FloatConvSpec FloatConvModel WignerModel FloatWignerModel
  FloatWignerSpec ModesModel ModesSpec FloatModesModel FloatModesSpec.
From Verif Require FloatModesProps FloatWignerProps.
Import ListNotations.
Open Scope R_scope.

(** ** C64 *)

(** The table of harmonics at many rotors *)
Theorem C64_SWSH_grid :
  forall lib g Rs s ell_max, good_libm lib -> (0 <= ell_max <= 32)%Z -> (0 < alen Rs)%Z ->
  (forall i, (0 <= i < alen Rs)%Z -> nearly_unit (qa (aget Rs i)) (qb (aget Rs i))) ->
  exists out, SWSH_grid64 lib g Rs s ell_max = Ok out
    /\ nrow out = alen Rs /\ ncol out = ((ell_max + 1) ^ 2)%Z
    /\ forall i ell m, (0 <= i < alen Rs)%Z -> (0 <= ell <= ell_max)%Z -> (- ell <= m <= ell)%Z ->
         ((Z.abs s <= ell)%Z ->
            Cmod (get2 out i (ell * ell + (ell + m)) - RtoC (if Z.even s then 1 else -1)%R * RtoC (sqrt (IZR (2 * ell + 1) / (4 * PI)))
                    * Wigner_formula (2 * ell) (2 * m) (2 * - s) (qa (aget Rs i)) (qb (aget Rs i)))%C
            <= (42 * IZR (2 * ell + 1) * u64 * sqrt (IZR (2 * ell + 1) / (4 * PI)) * 2 ^ Z.to_nat ell)%R)
         /\ ((ell < Z.abs s)%Z -> get2 out i (ell * ell + (ell + m))%Z = RtoC 0).
Proof. exact FloatModesProps.C64_SWSH_grid. Qed.
Print Assumptions C64_SWSH_grid.

(** The value of a function at rotors: the errors of the harmonics and of the sum, relative to the moduli of the modes *)
Theorem C64_evaluate :
  forall lib ord d g h f Rs, good_libm lib -> wf h f -> (0 <= ellmax (md f) <= 32)%Z -> (0 < alen Rs)%Z ->
  (forall i, (0 <= i < alen Rs)%Z -> nearly_unit (qa (aget Rs i)) (qb (aget Rs i))) ->
  (forall idx i, adds_all (2 * (ellmax (md f) + 1) ^ 2) d (fst (ord idx i)) /\ adds_all (2 * (ellmax (md f) + 1) ^ 2) d (snd (ord idx i))) ->
  exists E, evaluate64 lib ord g h f Rs = Ok E
    /\ forall idx i, (0 <= i < alen Rs)%Z ->
         Cmod (E idx i - csum (Z.abs (spin (md f))) (ellmax (md f)) (fun ell => csum (- ell) ell (fun m => mode h f idx ell m
                * (RtoC (if Z.even (spin (md f)) then 1 else -1)%R * RtoC (sqrt (IZR (2 * ell + 1) / (4 * PI)))
                    * Wigner_formula (2 * ell) (2 * m) (2 * - spin (md f)) (qa (aget Rs i)) (qb (aget Rs i))))))%C
         <= u64 * rsum (Z.abs (spin (md f))) (ellmax (md f)) (fun ell => rsum (- ell) ell (fun m => Cmod (mode h f idx ell m)
                * (sqrt (IZR (2 * ell + 1) / (4 * PI)) * (42 * IZR (2 * ell + 1) * 2 ^ Z.to_nat ell + 3 / 2 * INR d)))) + / 2 ^ 1000.
Proof. exact FloatModesProps.C64_evaluate. Qed.
Print Assumptions C64_evaluate.

(** The norm has a small relative error however the squares are added *)
Theorem C64_norm :
  forall ord d h f, wf h f -> (0 <= ellmax (md f) < 2 ^ 29)%Z -> (d <= 4000)%nat ->
  (forall idx, adds_all (2 * (ellmax (md f) + 1) ^ 2) d (ord idx)) ->
  forall idx, let exact := sqrt (rsum 0 (ellmax (md f)) (fun ell => rsum (- ell) ell (fun m => Cmod (mode h f idx ell m) ^ 2))) in
    Rabs (norm64 ord h f idx - exact) <= (52 / 100 * INR d + 2) * u64 * exact + / 2 ^ 500.
Proof. exact FloatModesProps.C64_norm. Qed.
Print Assumptions C64_norm.

(** Modes of spin weight -1 up to l = 3 whose entries are 1 + 2i; three ways of adding their 32 products: one after the other
    with fused operations, one after the other from the end, and pairwise.  The bound says something. *)
Example C64_nonvacuous :
  wf FloatModesProps.example_heap FloatModesProps.example_modes
  /\ (let n := (2 * (ellmax (md FloatModesProps.example_modes) + 1) ^ 2)%Z in
        adds_all n 32 (FloatModesProps.forward 31 0) /\ adds_all n 32 (FloatModesProps.backward 31) /\ adds_all n 6 (FloatModesProps.pairwise 5 0))
  /\ good_libm FloatWignerProps.rounded_libm
  /\ (let q := mkquat (3 / 5) 0 (4 / 5) 0 in nearly_unit (qa q) (qb q))
  /\ u64 * (42 * IZR (2 * 3 + 1) * 2 ^ Z.to_nat 3 + 3 / 2 * INR 32) < / 10 ^ 12.
Proof.
  exact FloatModesProps.C64_example.
Qed.
