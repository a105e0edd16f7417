(** Model of quaternion_angles (spherical_functions/recursions/__init__.py) and theta_phi (spherical_functions/__init__.py) in
    IEEE double arithmetic: [RN64] (FloatIndexModel.v) rounds the result of every operation.  Overflow and signed zeros are not
    part of the model. *)
Require Import ZArith List Reals Bool.
From Coquelicot Require Import Complex.
From Verif Require Import Base CBase DRep FloatIndexModel FloatConvModel.
Import ListNotations.
Open Scope R_scope.

(** Division of a complex by a float in compiled code.  The float is made complex with imaginary part 0; Smith's algorithm
    (numba/cpython/numbers.py, complex_div) then divides each part by the float. *)
Definition cdiv_float64 (z : C) (x : R) : res C :=
  if Req_EM_T x 0 then Err ZeroDivisionError else Ok (RN64 (Re z / x), RN64 (Im z / x)).

(** [R[i]**2 + R[j]**2] *)
Definition sum_squares64 (x y : R) : R := RN64 (RN64 (x * x) + RN64 (y * y)).

(** recursions/__init__.py:13-34.  The components R[0], R[1], R[2], R[3] are w, x, y, z.  Products with 1j and with 0, and
    additions of 0, are exact. *)
Definition quaternion_angles64 (q : quat) : res (C * C * C) :=
  let a := sum_squares64 (qw q) (qz q) in
  let b := sum_squares64 (qx q) (qy q) in
  let sqrta := RN64 (sqrt a) in
  let sqrtb := RN64 (sqrt b) in
  do zb <- cdiv_float64 (RN64 (a - b), RN64 (RN64 (2 * sqrta) * sqrtb)) (RN64 (a + b));
  do zp <- cdiv_float64 (qw q, qz q) sqrta;
  do zm <- cdiv_float64 (qy q, - qx q) sqrtb;
  Ok (zb, zp, zm).

(** [np.linspace(start, stop, num, endpoint)], as [linspace] (GridModel.v) *)
Definition linspace64 (start stop : R) (num : Z) (endpoint : bool) : res (arr R) :=
  if (num <? 0)%Z then Err ValueError else
  let div := (if endpoint then num - 1 else num)%Z in
  let delta := RN64 (stop - start) in
  Ok (mkarr num (fun i =>
        if endpoint && (1 <? num)%Z && (i =? num - 1)%Z then stop
        else if (0 <? div)%Z then RN64 (RN64 (RN64 (IZR i) * RN64 (delta / RN64 (IZR div))) + start)
        else RN64 (RN64 (RN64 (IZR i) * delta) + start))).
(** spherical_functions/__init__.py:295-316 *)
Definition theta_phi64 (n_theta n_phi : Z) : res (list Z * (Z -> Z -> Z -> R)) :=
  do theta <- linspace64 0 pi64 n_theta true;
  do phi <- (if (n_theta =? 0)%Z then Ok (mkarr 0 (fun _ => 0)) else linspace64 0 (RN64 (2 * pi64)) n_phi false);
  Ok (if (alen theta =? 0)%Z then [0%Z] else if (alen phi =? 0)%Z then [n_theta; 0%Z] else [n_theta; n_phi; 2%Z],
      fun i j k => if (k =? 0)%Z then aget theta i else aget phi j).
