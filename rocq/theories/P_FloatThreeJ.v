(** Property C69: 3-j symbols with m1 = m2 = m3 = 0 in double precision.  The functions ending in 64 (FloatThreeJModel.v) round
    every operation; [fixed] are the integer widths of the compiled code, [u64] is 2^-53, [threej] and [cg] are the exact symbols
    (ThreeJSpec.v, Wigner3jSpec.v).  1447 is the largest j2 + j3 for which the 64-bit coefficients do not wrap around (C35). *)
Require Import ZArith Reals Lia Lra.
From Verif Require Import Base ThreeJSpec Wigner3jModel Wigner3jSpec FloatPowersSpec FloatThreeJModel.
From Verif Require FloatThreeJProps.
Open Scope Z_scope.

(** ** C69 *)

(** Every entry that a calculator returns has a relative error of at most 18 min(j2, j3) + 40 units; in particular the entries
    outside the triangle and those forbidden by parity are exactly 0, and no exception is raised. *)
Theorem C69_calculator :
  forall c j2 j3, calc_wf c -> 0 <= j2 -> 0 <= j3 -> j2 + j3 < csize c -> j2 + j3 <= 1447 ->
    exists c', calculate64 fixed c j2 j3 0 0 = Ok c' /\ calc_wf c' /\ csize c' = csize c /\
      forall j, 0 <= j < csize c -> exists x, returned c' j = Ok x /\
        (Rabs (x - threej j j2 j3 0 0 0) <= (18 * IZR (Z.min j2 j3) + 40) * u64 * Rabs (threej j j2 j3 0 0 0))%R.
Proof. exact FloatThreeJProps.C69_calculator. Qed.
Print Assumptions C69_calculator.

(** The same for single symbols, for arguments in any order *)
Theorem C69_Wigner3j :
  forall garbage j1 j2 j3, j1 + j2 + j3 - Z.max j1 (Z.max j2 j3) <= 1447 ->
    exists x, Wigner3j64 fixed garbage j1 j2 j3 0 0 0 = Ok x /\
      (Rabs (x - threej j1 j2 j3 0 0 0) <= (18 * IZR (Z.min j1 (Z.min j2 j3)) + 40) * u64 * Rabs (threej j1 j2 j3 0 0 0))%R.
Proof. exact FloatThreeJProps.C69_Wigner3j. Qed.
Print Assumptions C69_Wigner3j.

(** Zeros and signs are exact. *)
Theorem C69_sign :
  forall garbage j1 j2 j3, j1 + j2 + j3 - Z.max j1 (Z.max j2 j3) <= 1447 ->
    exists x, Wigner3j64 fixed garbage j1 j2 j3 0 0 0 = Ok x /\
      (threej j1 j2 j3 0 0 0 = 0 -> x = 0)%R /\ (0 < threej j1 j2 j3 0 0 0 -> 0 < x)%R /\ (threej j1 j2 j3 0 0 0 < 0 -> x < 0)%R.
Proof. exact FloatThreeJProps.C69_sign. Qed.
Print Assumptions C69_sign.
Theorem C69_parity :
  forall garbage j1 j2 j3, j1 + j2 + j3 - Z.max j1 (Z.max j2 j3) <= 1447 -> Z.odd (j1 + j2 + j3) = true ->
    Wigner3j64 fixed garbage j1 j2 j3 0 0 0 = Ok 0%R.
Proof. exact FloatThreeJProps.C69_parity. Qed.
Print Assumptions C69_parity.

(** Clebsch-Gordan coefficients *)
Theorem C69_clebsch_gordan :
  forall garbage j1 j2 j3, j1 + j2 + j3 - Z.max j1 (Z.max j2 j3) <= 1447 -> 0 <= j3 ->
    exists x, clebsch_gordan64 fixed garbage j1 0 j2 0 j3 0 = Ok x /\
      (Rabs (x - cg j1 0 j2 0 j3 0) <= (18 * IZR (Z.min j1 (Z.min j2 j3)) + 44) * u64 * Rabs (cg j1 0 j2 0 j3 0))%R.
Proof. exact FloatThreeJProps.C69_clebsch_gordan. Qed.
Print Assumptions C69_clebsch_gordan.

(** A symbol that is not 0, one that is 0 by parity, and a new calculator *)
Example C69_nonvacuous :
  forall garbage, exists x, Wigner3j64 fixed garbage 4 2 2 0 0 0 = Ok x /\ (0 < x)%R /\ Wigner3j64 fixed garbage 3 2 2 0 0 0 = Ok 0%R.
Proof.
  exact FloatThreeJProps.C69_example.
Qed.
Example C69_nonvacuous_calculator :
  forall garbage, exists c, calc_new 3 5 garbage = Ok c /\ calc_wf c /\ 3 + 5 < csize c.
Proof.
  intros g. eexists. split; [reflexivity|]. split; [split; cbn; [lia|reflexivity]|cbn; lia].
Qed.
