(** Property C73: 3-j symbols with a degree 0 or 1, or near the end of their family, in double precision, and products with functions
    of ell_max <= 1.  The functions ending in 64 (FloatThreeJModel.v, FloatMultModel.v) round every operation; [fixed] are the integer
    widths of the compiled code, [u64] is 2^-53, [threej] and [cg] are the exact symbols (ThreeJSpec.v).  151 is the largest sum of
    degrees for which the 32-bit coefficients do not wrap around (C35). *)
Require Import ZArith Reals List Lia Lra.
From Coquelicot Require Import Complex.
From Verif Require Import Base CBase Fact ThreeJSpec Wigner3jModel Wigner3jSpec ModesModel ModesSpec ModesProofs3 ModesProps2 MultModel MultSpec
  FloatPowersSpec FloatModesModel FloatModesSpec FloatThreeJModel FloatMultModel FloatMultSpec.
From Verif Require FloatThreeJThreeProps FloatMultProps2.
Import ListNotations.
Open Scope Z_scope.

(** ** C73 *)

(** A calculator of any size and contents: families of at most three symbols *)
Theorem C73_calculator :
  forall c j2 j3 m2 m3, calc_wf c -> j2 + j3 < csize c -> j2 + j3 <= 151 -> Z.abs m2 <= j2 -> Z.abs m3 <= j3 ->
    j2 + j3 - 2 <= Z.max (Z.abs (j2 - j3)) (Z.abs (m2 + m3)) ->
    exists c', calculate64 fixed c j2 j3 m2 m3 = Ok c' /\ calc_wf c' /\ csize c' = csize c /\
      forall j, 0 <= j < csize c -> exists x, returned c' j = Ok x /\
        (Rabs (x - threej j j2 j3 (- m2 - m3) m2 m3) <= 114 * u64 * Rabs (threej j j2 j3 (- m2 - m3) m2 m3))%R.
Proof. exact FloatThreeJThreeProps.C73_calculator. Qed.
Print Assumptions C73_calculator.

(** [Wigner3j] if one of the degrees is 0 or 1; outside the selection rules both numbers are 0. *)
Theorem C73_Wigner3j :
  forall garbage j1 j2 j3 m1 m2 m3, Z.min j1 (Z.min j2 j3) <= 1 -> j1 + j2 + j3 - Z.max j1 (Z.max j2 j3) <= 151 ->
    exists x, Wigner3j64 fixed garbage j1 j2 j3 m1 m2 m3 = Ok x /\
      (Rabs (x - threej j1 j2 j3 m1 m2 m3) <= 114 * u64 * Rabs (threej j1 j2 j3 m1 m2 m3))%R.
Proof. exact FloatThreeJThreeProps.C73_Wigner3j. Qed.
Print Assumptions C73_Wigner3j.

(** It vanishes exactly where the symbol does and has the sign of the symbol. *)
Theorem C73_sign :
  forall garbage j1 j2 j3 m1 m2 m3, Z.min j1 (Z.min j2 j3) <= 1 -> j1 + j2 + j3 - Z.max j1 (Z.max j2 j3) <= 151 ->
    exists x, Wigner3j64 fixed garbage j1 j2 j3 m1 m2 m3 = Ok x /\
      (threej j1 j2 j3 m1 m2 m3 = 0 <-> x = 0)%R /\ (0 < threej j1 j2 j3 m1 m2 m3 <-> 0 < x)%R /\ (threej j1 j2 j3 m1 m2 m3 < 0 <-> x < 0)%R.
Proof. exact FloatThreeJThreeProps.C73_sign. Qed.
Print Assumptions C73_sign.

(** [Wigner3j] if the m of the largest degree is at most two below the sum of the other degrees *)
Theorem C73_aligned :
  forall garbage j1 j2 j3 m1 m2 m3, j2 < j1 -> j3 < j1 -> j2 + j3 <= 151 -> j2 + j3 - 2 <= Z.abs m1 ->
    (exists x, Wigner3j64 fixed garbage j1 j2 j3 m1 m2 m3 = Ok x /\
      (Rabs (x - threej j1 j2 j3 m1 m2 m3) <= 114 * u64 * Rabs (threej j1 j2 j3 m1 m2 m3))%R) /\
    (exists x, Wigner3j64 fixed garbage j2 j3 j1 m2 m3 m1 = Ok x /\
      (Rabs (x - threej j2 j3 j1 m2 m3 m1) <= 114 * u64 * Rabs (threej j2 j3 j1 m2 m3 m1))%R) /\
    (exists x, Wigner3j64 fixed garbage j3 j1 j2 m3 m1 m2 = Ok x /\
      (Rabs (x - threej j3 j1 j2 m3 m1 m2) <= 114 * u64 * Rabs (threej j3 j1 j2 m3 m1 m2))%R).
Proof. exact FloatThreeJThreeProps.C73_aligned. Qed.
Print Assumptions C73_aligned.

(** [clebsch_gordan] if one of the degrees is 0 or 1 *)
Theorem C73_clebsch_gordan :
  forall garbage j1 m1 j2 m2 j3 m3, Z.min j1 (Z.min j2 j3) <= 1 -> j1 + j2 + j3 - Z.max j1 (Z.max j2 j3) <= 151 -> 0 <= j3 ->
    exists x, clebsch_gordan64 fixed garbage j1 m1 j2 m2 j3 m3 = Ok x /\
      (Rabs (x - cg j1 m1 j2 m2 j3 m3) <= 117 * u64 * Rabs (cg j1 m1 j2 m2 j3 m3))%R.
Proof. exact FloatThreeJThreeProps.C73_clebsch_gordan. Qed.
Print Assumptions C73_clebsch_gordan.

Open Scope R_scope.
(** The product of two Modes, one of which has ell_max <= 1: it exists, and its modes are accurate. *)
Theorem C73_product :
  forall way gs gm h f g tr sh, good_ways way -> wf h f -> wf h g -> (0 <= ellmax (md f))%Z -> (0 <= ellmax (md g))%Z -> (Z.min (ellmax (md f)) (ellmax (md g)) <= 1)%Z ->
  (ellmax (md f) + ellmax (md g) <= 151)%Z -> (0 <= product_ell_max f g tr)%Z -> broadcast (lead (nd f)) (lead (nd g)) = Some sh ->
  exists h' r, multiply64 fixed way gs gm h f g tr = Ok (h', r)
    /\ new_modes h h' r (spin (md f) + spin (md g)) (product_ell_max f g tr) sh (mode h' r)
    /\ forall idx l m, (0 <= l <= product_ell_max f g tr)%Z -> (- l <= m <= l)%Z ->
       let u := mode h f (bidx (lead (nd f)) idx) in let v := mode h g (bidx (lead (nd g)) idx) in
       let s1 := spin (md f) in let s2 := spin (md g) in let L1 := ellmax (md f) in let L2 := ellmax (md g) in
       Cmod (mode h' r idx l m - product_weight s1 L1 s2 L2 u v l m)%C
       <= (101 / 100 * pairs L1 L2 u v l m + 245) * u64 * abs_weight (product_coeff s1 s2) L1 L2 u v l m + underflow L1 L2 u v l m.
Proof. exact FloatThreeJThreeProps.C73_product. Qed.
Print Assumptions C73_product.

(** One symbol whose value is known, and a product *)
Example C73_nonvacuous :
  (forall garbage, exists x, Wigner3j64 fixed garbage 2 1 1 0 1 (-1) = Ok x /\ Rabs (x - / sqrt 30) <= 114 * u64) /\
  wf FloatThreeJThreeProps.dipole_heap FloatThreeJThreeProps.dipole_f /\ wf FloatThreeJThreeProps.dipole_heap FloatMultProps2.constant_g /\ good_ways FloatMultProps2.plain_way /\
  broadcast (lead (nd FloatThreeJThreeProps.dipole_f)) (lead (nd FloatMultProps2.constant_g)) = Some [2%Z] /\
  product_ell_max FloatThreeJThreeProps.dipole_f FloatMultProps2.constant_g None = 4%Z /\
  exists h' r, multiply64 fixed FloatMultProps2.plain_way (fun _ => 7) (fun _ => 8) FloatThreeJThreeProps.dipole_heap FloatThreeJThreeProps.dipole_f FloatMultProps2.constant_g None = Ok (h', r).
Proof.
  exact FloatThreeJThreeProps.C73_example.
Qed.
