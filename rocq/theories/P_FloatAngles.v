(** Property C66: quaternion_angles and theta_phi in double precision.  The functions ending in 64 (FloatAnglesModel.v) round
    every operation; [u64] is 2^-53.  [qa q] and [qb q] (DRep.v) are the complex parts w + iz and y + ix of the rotor. *)
Require Import ZArith List Reals.
From Coquelicot Require Import Complex.
From Verif Require Import Base CBase PowersModel DRep FloatIndexModel FloatPowersSpec FloatPowersModel FloatConvSpec QAnglesModel FloatAnglesModel.
From Verif Require FloatAnglesProps FloatPowersProps.
Import ListNotations.
Open Scope R_scope.

(** ** C66 *)

(** The three numbers of quaternion_angles, for a rotor of any norm whose parts are not extremely small or large *)
Theorem C66_angles :
  forall q, / 2 ^ 400 <= Cmod (qa q) <= 2 ^ 400 -> / 2 ^ 400 <= Cmod (qb q) <= 2 ^ 400 ->
  exists zb zp zm zb64 zp64 zm64, quaternion_angles q = Ok (zb, zp, zm) /\ quaternion_angles64 q = Ok (zb64, zp64, zm64)
    /\ Cmod (zb64 - zb)%C <= 13 * u64 /\ Cmod (zp64 - zp)%C <= 304 / 100 * u64 /\ Cmod (zm64 - zm)%C <= 304 / 100 * u64.
Proof. exact FloatAnglesProps.C66_angles. Qed.
Print Assumptions C66_angles.

(** The integer powers of the two phases, computed by complex_powers from the computed phases *)
Theorem C66_powers :
  forall sqrt_im fuel garbage q M, (3 <= fuel)%nat -> (1 <= M <= 2 ^ 36)%Z -> good_sqrt sqrt_im ->
  / 2 ^ 400 <= Cmod (qa q) <= 2 ^ 400 -> / 2 ^ 400 <= Cmod (qb q) <= 2 ^ 400 ->
  (qw q = 0 \/ / 2 ^ 299 * Cmod (qa q) <= Rabs (qw q)) -> (qz q = 0 \/ / 2 ^ 299 * Cmod (qa q) <= Rabs (qz q)) ->
  (qx q = 0 \/ / 2 ^ 299 * Cmod (qb q) <= Rabs (qx q)) -> (qy q = 0 \/ / 2 ^ 299 * Cmod (qb q) <= Rabs (qy q)) ->
  exists zb zp zm zb64 zp64 zm64 powers, quaternion_angles q = Ok (zb, zp, zm) /\ quaternion_angles64 q = Ok (zb64, zp64, zm64)
    /\ complex_powers64 sqrt_im fuel garbage (mkarr 2 (fun i => if (i =? 0)%Z then zp64 else zm64)) M = Ok powers
    /\ forall m, (0 <= m <= M)%Z ->
         Cmod (get2 powers 0 m - Cpow zp (Z.to_nat m))%C <= 154 * IZR m * u64
         /\ Cmod (get2 powers 1 m - Cpow zm (Z.to_nat m))%C <= 154 * IZR m * u64.
Proof. exact FloatAnglesProps.C66_powers. Qed.
Print Assumptions C66_powers.

(** When the squares of both components of one part underflow the call raises ZeroDivisionError ... *)
Theorem C66_underflow :
  forall q, (Rabs (qw q) <= / 2 ^ 538 /\ Rabs (qz q) <= / 2 ^ 538) \/ (Rabs (qx q) <= / 2 ^ 538 /\ Rabs (qy q) <= / 2 ^ 538) ->
  quaternion_angles64 q = Err ZeroDivisionError.
Proof. exact FloatAnglesProps.C66_underflow. Qed.
Print Assumptions C66_underflow.
(** ... although the rotor is not degenerate: exact arithmetic returns a value. *)
Theorem C66_underflow_refuted :
  exists q, is_double (qw q) /\ is_double (qx q) /\ is_double (qy q) /\ is_double (qz q) /\ (exists r, quaternion_angles q = Ok r)
    /\ quaternion_angles64 q = Err ZeroDivisionError.
Proof. exact FloatAnglesProps.C66_underflow_refuted. Qed.
Print Assumptions C66_underflow_refuted.

(** The grid of theta_phi *)
Theorem C66_grid :
  forall nt np, (2 <= nt <= 2 ^ 50)%Z -> (1 <= np <= 2 ^ 50)%Z ->
  exists e64, theta_phi64 nt np = Ok ([nt; np; 2%Z], e64)
    /\ (forall i j, (0 <= i < nt)%Z -> (0 <= j < np)%Z ->
          let theta := IZR i * PI / IZR (nt - 1) in let phi := 2 * PI * IZR j / IZR np in
          Rabs (e64 i j 0%Z - theta) <= 302 / 100 * u64 * theta /\ Rabs (e64 i j 1%Z - phi) <= 302 / 100 * u64 * phi)
    /\ (forall j, (0 <= j < np)%Z -> e64 0%Z j 0%Z = 0 /\ e64 (nt - 1)%Z j 0%Z = RN64 PI)
    /\ (forall i, (0 <= i < nt)%Z -> e64 i 0%Z 1%Z = 0)
    /\ (forall i j i' j', (0 <= i < i')%Z -> (i' < nt)%Z -> (0 <= j < np)%Z -> (0 <= j' < np)%Z -> e64 i j 0%Z < e64 i' j' 0%Z)
    /\ (forall i j i' j', (0 <= j < j')%Z -> (j' < np)%Z -> (0 <= i < nt)%Z -> (0 <= i' < nt)%Z -> e64 i j 1%Z < e64 i' j' 1%Z)
    /\ (forall i j, (0 <= i < nt)%Z -> (0 <= j < np)%Z -> 0 <= e64 i j 0%Z <= RN64 PI /\ 0 <= e64 i j 1%Z < RN64 (2 * RN64 PI)).
Proof. exact FloatAnglesProps.C66_grid. Qed.
Print Assumptions C66_grid.

(** The rotor 1 + 2i - j + 2^-100 k; the square root of C59; a grid of 181 by 360 points *)
Example C66_nonvacuous : let q := mkquat 1 2 (-1) (/ 2 ^ 100) in
  (/ 2 ^ 400 <= Cmod (qa q) <= 2 ^ 400) /\ (/ 2 ^ 400 <= Cmod (qb q) <= 2 ^ 400) /\
  (/ 2 ^ 299 * Cmod (qa q) <= Rabs (qw q)) /\ (/ 2 ^ 299 * Cmod (qa q) <= Rabs (qz q)) /\
  (/ 2 ^ 299 * Cmod (qb q) <= Rabs (qx q)) /\ (/ 2 ^ 299 * Cmod (qb q) <= Rabs (qy q)).
Proof.
  exact FloatAnglesProps.C66_example.
Qed.
Example C66_nonvacuous_powers : good_sqrt (fun z => RN64 (Im (Csqrt z))) /\ (2 <= 181 <= 2 ^ 50)%Z /\ (1 <= 360 <= 2 ^ 50)%Z.
Proof.
  split; [exact FloatPowersProps.C59_rounded_sqrt|]. split; split; discriminate.
Qed.
