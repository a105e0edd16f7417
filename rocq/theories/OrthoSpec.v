(** Statement-level definitions for the theorems about integrals over the sphere and over the rotation group. *)
Require Import ZArith List Reals.
From Coquelicot Require Import Hierarchy RInt Complex.
From Verif Require Import Base CBase CSum DRep IndexModel WignerModel WignerCallModel RotorSpec WignerSpec SWSHModel SWSHProofs ModesModel ModesSpec.
Open Scope R_scope.

(** [I] is the Riemann integral of the complex function [F] over [a, b]. *)
Definition is_CInt (F : R -> C) (a b : R) (I : C) : Prop :=
  is_RInt (fun t => Re (F t)) a b (Re I) /\ is_RInt (fun t => Im (F t)) a b (Im I).

(** [I] is the integral of [F theta phi] over the unit sphere: the iterated integral over phi in [0, 2 pi] and theta in
    [0, pi] with the area element sin(theta). *)
Definition sphere_integral (F : R -> R -> C) (I : C) : Prop :=
  exists G : R -> C, (forall theta, is_CInt (F theta) 0 (2 * PI) (G theta))
    /\ is_CInt (fun theta => G theta * RtoC (sin theta))%C 0 PI I.

(** [I] is the integral of [F alpha beta gamma] over the unit quaternions in Euler angles: alpha in [0, 2 pi], beta in
    [0, pi] with sin(beta), gamma in [0, 4 pi] so that both signs of the quaternion are covered. *)
Definition group_integral (F : R -> R -> R -> C) (I : C) : Prop :=
  exists G : R -> R -> C, (forall alpha beta, is_CInt (F alpha beta) 0 (4 * PI) (G alpha beta))
    /\ sphere_integral (fun beta alpha => G alpha beta) I.

(** The Wigner D function with doubled indices as a function of the Euler angles. *)
Definition D_function (twoell twomp twom : Z) (alpha beta gamma : R) : C :=
  Wigner_formula twoell twomp twom (qa (from_euler_angles alpha beta gamma)) (qb (from_euler_angles alpha beta gamma)).

(** The spin-weighted harmonic (s, ell, m) as a function of the direction. *)
Definition harmonic (s ell m : Z) (theta phi : R) : C :=
  SWSH_value s ell m (qa (direction_rotor theta phi)) (qb (direction_rotor theta phi)).

(** The function on the sphere that a Modes object stands for: the sum of its modes times the harmonics. *)
Definition sphere_function (h : heap) (f : modes) (idx : list Z) (theta phi : R) : C :=
  csum 0 (ellmax (md f)) (fun ell => csum (- ell) ell (fun m =>
    mode h f idx ell m * harmonic (spin (md f)) ell m theta phi))%C.
