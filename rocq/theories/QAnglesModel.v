(** Model of the function quaternion_angles of spherical_functions/recursions/__init__.py. *)
Require Import ZArith Reals.
From Coquelicot Require Import Complex.
From Verif Require Import Base CBase DRep.
Open Scope R_scope.

(** Division of a complex by a float in compiled code: raises ZeroDivisionError (numba's default error model). *)
Definition cdiv_float (z : C) (x : R) : res C := if Req_EM_T x 0 then Err ZeroDivisionError else Ok (z / RtoC x)%C.

(** recursions/__init__.py:13-34.  The components R[0], R[1], R[2], R[3] are w, x, y, z. *)
Definition quaternion_angles (q : quat) : res (C * C * C) :=
  let a := qw q ^ 2 + qz q ^ 2 in
  let b := qx q ^ 2 + qy q ^ 2 in
  let sqrta := sqrt a in
  let sqrtb := sqrt b in
  do zb <- cdiv_float (a - b, 2 * sqrta * sqrtb) (a + b);
  do zp <- cdiv_float (qw q, qz q) sqrta;
  do zm <- cdiv_float (qy q, - qx q) sqrtb;
  Ok (zb, zp, zm).
