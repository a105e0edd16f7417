(** Property C70: the 3-j calculator in double precision, for every m.  The functions ending in 64 (FloatThreeJModel.v) round
    every operation; [fixed] are the integer widths of the compiled code, [u64] is 2^-53, [threej] is the exact symbol and
    [tj_allowed] are its selection rules (ThreeJSpec.v).  [calc_wf] calculators have any size and any contents: they may be new
    or left behind by other calls.  1447 is the largest j2 + j3 for which the 64-bit coefficients do not wrap around (C35). *)
Require Import ZArith Reals Lia Lra.
From Verif Require Import Base Fact ThreeJSpec Wigner3jModel Wigner3jSpec FloatPowersSpec FloatThreeJModel.
From Verif Require Import FloatIndexModel FloatThreeJRound.
From Verif Require FloatThreeJSameProps.
Open Scope Z_scope.

(** ** C70 *)

(** Two calculators of any sizes and with any histories give bitwise equal results, or both divide by zero. *)
Theorem C70_same :
  forall c1 c2 j2 j3 m2 m3, calc_wf c1 -> calc_wf c2 -> j2 + j3 < csize c1 -> j2 + j3 < csize c2 -> j2 + j3 <= 1447 ->
    (calculate64 fixed c1 j2 j3 m2 m3 = Err ZeroDivisionError /\ calculate64 fixed c2 j2 j3 m2 m3 = Err ZeroDivisionError)
    \/ exists d1 d2, calculate64 fixed c1 j2 j3 m2 m3 = Ok d1 /\ calculate64 fixed c2 j2 j3 m2 m3 = Ok d2 /\ csize d1 = csize c1 /\ csize d2 = csize c2
      /\ forall j, 0 <= j < csize c1 -> j < csize c2 -> exists x, returned d1 j = Ok x /\ returned d2 j = Ok x.
Proof. exact FloatThreeJSameProps.C70_same. Qed.
Print Assumptions C70_same.

(** A division by zero is the only exception possible.  Otherwise the entries that violate a selection rule are exactly 0, no entry
    exceeds 5/4, and the last one never has the wrong sign. *)
Theorem C70_entries :
  forall c j2 j3 m2 m3, calc_wf c -> j2 + j3 < csize c -> j2 + j3 <= 1447 ->
    calculate64 fixed c j2 j3 m2 m3 = Err ZeroDivisionError
    \/ exists c', calculate64 fixed c j2 j3 m2 m3 = Ok c' /\ calc_wf c' /\ csize c' = csize c
      /\ forall j, 0 <= j < csize c -> exists x, returned c' j = Ok x
        /\ (~ tj_allowed j j2 j3 (- m2 - m3) m2 m3 -> x = 0%R)
        /\ (Rabs x <= 5 / 4)%R
        /\ (j = j2 + j3 -> (0 <= sgn (j2 - j3 + m2 + m3) * x)%R).
Proof. exact FloatThreeJSameProps.C70_entries. Qed.
Print Assumptions C70_entries.

(** [Wigner3j] returns the entry of any calculator, ... *)
Theorem C70_Wigner3j :
  forall garbage c j1 j2 j3 m2 m3, calc_wf c -> j2 + j3 < csize c -> j2 + j3 <= 1447 -> j2 <= j1 -> j3 <= j1 ->
    tj_allowed j1 j2 j3 (- m2 - m3) m2 m3 ->
    Wigner3j64 fixed garbage j1 j2 j3 (- m2 - m3) m2 m3 = (do c' <- calculate64 fixed c j2 j3 m2 m3; returned c' j1).
Proof. exact FloatThreeJSameProps.C70_Wigner3j. Qed.
Print Assumptions C70_Wigner3j.

(** ... does not depend on the cyclic order of its columns if one j is the largest, nor on what the new workspace held, ... *)
Theorem C70_cyclic :
  forall g1 g2 j1 j2 j3 m1 m2 m3, j2 < j1 -> j3 < j1 -> j2 + j3 <= 1447 ->
    Wigner3j64 fixed g1 j1 j2 j3 m1 m2 m3 = Wigner3j64 fixed g2 j2 j3 j1 m2 m3 m1
    /\ Wigner3j64 fixed g1 j1 j2 j3 m1 m2 m3 = Wigner3j64 fixed g2 j3 j1 j2 m3 m1 m2.
Proof. exact FloatThreeJSameProps.C70_cyclic. Qed.
Print Assumptions C70_cyclic.

(** ... and is 0 wherever a selection rule is violated. *)
Theorem C70_any :
  forall garbage j1 j2 j3 m1 m2 m3, j1 + j2 + j3 - Z.max j1 (Z.max j2 j3) <= 1447 ->
    Wigner3j64 fixed garbage j1 j2 j3 m1 m2 m3 = Err ZeroDivisionError
    \/ exists x, Wigner3j64 fixed garbage j1 j2 j3 m1 m2 m3 = Ok x /\ (Rabs x <= 5 / 4)%R /\ (~ tj_allowed j1 j2 j3 m1 m2 m3 -> x = 0%R).
Proof. exact FloatThreeJSameProps.C70_any. Qed.
Print Assumptions C70_any.

(** Families of one or two symbols have a relative error of at most 12 units. *)
Theorem C70_short :
  forall c j2 j3 m2 m3, calc_wf c -> j2 + j3 < csize c -> j2 + j3 <= 151 -> Z.abs m2 <= j2 -> Z.abs m3 <= j3 ->
    j2 + j3 - 1 <= Z.max (Z.abs (j2 - j3)) (Z.abs (m2 + m3)) ->
    exists c', calculate64 fixed c j2 j3 m2 m3 = Ok c' /\ calc_wf c' /\ csize c' = csize c /\
      forall j, 0 <= j < csize c -> exists x, returned c' j = Ok x /\
        (Rabs (x - threej j j2 j3 (- m2 - m3) m2 m3) <= 12 * u64 * Rabs (threej j j2 j3 (- m2 - m3) m2 m3))%R.
Proof. exact FloatThreeJSameProps.C70_short. Qed.
Print Assumptions C70_short.

(** The double-precision model is the exact model with roundings inserted and nothing else changed. *)
Theorem C70_exact :
  (forall w c j2 j3 m2 m3, calculate_r RN64 w c j2 j3 m2 m3 = calculate64 w c j2 j3 m2 m3
     /\ calculate_r (fun x => x) w c j2 j3 m2 m3 = calculate w c j2 j3 m2 m3) /\
  (forall w g j1 j2 j3 m1 m2 m3, Wigner3j_r RN64 w g j1 j2 j3 m1 m2 m3 = Wigner3j64 w g j1 j2 j3 m1 m2 m3
     /\ Wigner3j_r (fun x => x) w g j1 j2 j3 m1 m2 m3 = Wigner3j w g j1 j2 j3 m1 m2 m3) /\
  (forall w g j1 m1 j2 m2 j3 m3, clebsch_gordan_r RN64 w g j1 m1 j2 m2 j3 m3 = clebsch_gordan64 w g j1 m1 j2 m2 j3 m3
     /\ clebsch_gordan_r (fun x => x) w g j1 m1 j2 m2 j3 m3 = clebsch_gordan w g j1 m1 j2 m2 j3 m3).
Proof. exact FloatThreeJRound.C70_exact. Qed.
Print Assumptions C70_exact.

(** A symbol with m <> 0 in its three cyclic orders *)
Example C70_nonvacuous :
  forall garbage, exists x, Wigner3j64 fixed garbage 2 1 1 (-1) 1 0 = Ok x /\ (0 < - x)%R
    /\ Wigner3j64 fixed garbage 1 1 2 1 0 (-1) = Ok x /\ Wigner3j64 fixed garbage 1 2 1 0 (-1) 1 = Ok x.
Proof.
  exact FloatThreeJSameProps.C70_example.
Qed.
(** Two calculators of different sizes, and a family of two symbols *)
Example C70_nonvacuous_calculator :
  forall garbage, exists c1 c2, calc_new 3 5 garbage = Ok c1 /\ calc_new 7 2 garbage = Ok c2 /\ calc_wf c1 /\ calc_wf c2 /\ csize c1 <> csize c2
    /\ 3 + 4 < csize c1 /\ 3 + 4 < csize c2 /\ 3 + 4 - 1 <= Z.max (Z.abs (3 - 4)) (Z.abs (2 + 4)).
Proof.
  intros g. eexists. eexists. split; [reflexivity|]. split; [reflexivity|]. split; [split; cbn; [lia|reflexivity]|].
  split; [split; cbn; [lia|reflexivity]|]. cbn. lia.
Qed.
