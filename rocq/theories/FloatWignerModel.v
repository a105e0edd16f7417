(** Model of [_Wigner_D_element] (spherical_functions/WignerD/__init__.py:148-275) and [_SWSH]
    (spherical_functions/SWSH/__init__.py:91-234) in IEEE double arithmetic: [RN64] (FloatIndexModel.v) rounds the result of
    every operation, and the coefficients are the ones of the file that is shipped (TableModel.v).  Overflow and signed zeros
    are not part of the model. *)
Require Import ZArith Reals Bool.
From Coquelicot Require Import Complex.
From Verif Require Import Base CBase IndexModel FloatIndexModel FloatPowersModel FloatConvModel WignerModel TableModel.
Open Scope Z_scope.

(** The functions of the C library and of numba's runtime that the code calls: [cmath.polar], [**] of floats, [cmath.rect]
    and [**] of a complex number with an integer *)
Record libm : Type := mklibm {
  lib_polar : C -> R * R;
  lib_pow : R -> R -> R;
  lib_rect : R -> R -> C;
  lib_cpow : C -> Z -> C
}.

(** An integer converted to a double *)
Definition int64 (n : Z) : R := RN64 (IZR n).

(** spherical_functions/__init__.py:77-81, [_Wigner_coefficient] with the shipped table *)
Definition coeff64 (twoell twomp twom : Z) : res R :=
  do tab <- Wigner_file;
  do p <- Wigner_lookup tab twoell twomp twom; Ok (double_of p).

(** WignerD/__init__.py:231-232, 273-274; SWSH/__init__.py:184-185, 228-229 *)
Definition sum_step64 (x : R) (N1 N2 M rho : Z) (Sum : R) : res R :=
  if rho * (M + rho) =? 0 then Err ZeroDivisionError
  else Ok (RN64 (RN64 (Sum * RN64 (RN64 (x * int64 ((N1 - rho) * (N2 - rho))) / int64 (rho * (M + rho)))) + 1)).

(** [-ra * ra / (rb * rb)] *)
Definition ratio64 (ra rb : R) : R := RN64 (RN64 (- ra * ra) / RN64 (rb * rb)).

(** WignerD/__init__.py:182-189 and 192-197 *)
Definition D_elem_a064 (lib : libm) (Rb : C) (t : Z * Z * Z) : C :=
  let '(twoell, twomp, twom) := t in
  if negb (twomp =? - twom) || (Z.abs twomp >? twoell) || (Z.abs twom >? twoell) then RtoC 0
  else if (twoell - twom) mod 4 =? 0 then lib_cpow lib Rb twom else (- lib_cpow lib Rb twom)%C.
Definition D_elem_b064 (lib : libm) (Ra : C) (t : Z * Z * Z) : C :=
  let '(twoell, twomp, twom) := t in
  if negb (twomp =? twom) || (Z.abs twomp >? twoell) || (Z.abs twom >? twoell) then RtoC 0
  else lib_cpow lib Ra twom.

(** WignerD/__init__.py:204-233, one row, branch [ra < rb]; the product of a complex number and a float rounds each part *)
Definition D_elem_lt64 (lib : libm) (ra rb phia phib : R) (t : Z * Z * Z) : res C :=
  let '(twoell, twomp, twom) := t in
  let absRRatioSquared := ratio64 ra rb in
  if (Z.abs twomp >? twoell) || (Z.abs twom >? twoell) then Ok (RtoC 0) else
  let tworhoMin := Z.max 0 (- twomp - twom) in
  do c <- coeff64 twoell (- twomp) twom;
  let h := RN64 (int64 (twom + twomp) / 2) in
  let Prefactor :=
    lib_rect lib (RN64 (RN64 (c * lib_pow lib rb (RN64 (RN64 (int64 twoell - h) - int64 tworhoMin)))
                        * lib_pow lib ra (RN64 (h + int64 tworhoMin))))
                 (RN64 (RN64 (RN64 (phib * int64 (twom - twomp)) / 2) + RN64 (RN64 (phia * int64 (twom + twomp)) / 2))) in
  if C_is_zero Prefactor then Ok (RtoC 0) else
  let Prefactor := if negb ((twoell - twom - tworhoMin) mod 4 =? 0) then (Prefactor * RtoC (-1))%C else Prefactor in
  let tworhoMax := Z.min (twoell - twomp) (twoell - twom) in
  let twoN1 := twoell - twomp + 2 in
  let twoN2 := twoell - twom + 2 in
  let twoM := twom + twomp in
  do Sum <- for_down2 tworhoMax tworhoMin (sum_step64 absRRatioSquared twoN1 twoN2 twoM) 1%R;
  Ok (cscale64 Sum Prefactor).

(** WignerD/__init__.py:240-275, one row, branch [ra >= rb] *)
Definition D_elem_ge64 (lib : libm) (ra rb phia phib : R) (t : Z * Z * Z) : res C :=
  let '(twoell, twomp, twom) := t in
  let absRRatioSquared := ratio64 rb ra in
  if (Z.abs twomp >? twoell) || (Z.abs twom >? twoell) then Ok (RtoC 0) else
  let tworhoMin := Z.max 0 (twomp - twom) in
  do c <- coeff64 twoell twomp twom;
  let h := RN64 (int64 twom / 2) in
  let h' := RN64 (int64 twomp / 2) in
  let Prefactor :=
    lib_rect lib (RN64 (RN64 (c * lib_pow lib ra (RN64 (RN64 (RN64 (int64 twoell - h) + h') - int64 tworhoMin)))
                        * lib_pow lib rb (RN64 (RN64 (h - h') + int64 tworhoMin))))
                 (RN64 (RN64 (RN64 (phia * int64 (twom + twomp)) / 2) + RN64 (RN64 (phib * int64 (twom - twomp)) / 2))) in
  if C_is_zero Prefactor then Ok (RtoC 0) else
  let Prefactor := if negb (tworhoMin mod 4 =? 0) then (Prefactor * RtoC (-1))%C else Prefactor in
  let tworhoMax := Z.min (twoell + twomp) (twoell - twom) in
  let twoN1 := twoell + twomp + 2 in
  let twoN2 := twoell - twom + 2 in
  let twoM := twom - twomp in
  do Sum <- for_down2 tworhoMax tworhoMin (sum_step64 absRRatioSquared twoN1 twoN2 twoM) 1%R;
  Ok (cscale64 Sum Prefactor).

(** WignerD/__init__.py:148-275, [_Wigner_D_element]; [epsilon] is the double nearest 1e-15 (spherical_functions/__init__.py:35) *)
Definition Wigner_D_element_core64 (lib : libm) (Ra Rb : C) (indices : arr (Z * Z * Z)) (elements : arr C) : res (arr C) :=
  let N := alen indices in
  let '(ra, phia) := lib_polar lib Ra in
  let '(rb, phib) := lib_polar lib Rb in
  if Rleb ra (RN64 epsilon) then
    for_range 0 N (fun i elements => do t <- rd indices i; wr elements i (D_elem_a064 lib Rb t)) elements
  else if Rleb rb (RN64 epsilon) then
    for_range 0 N (fun i elements => do t <- rd indices i; wr elements i (D_elem_b064 lib Ra t)) elements
  else if Rltb ra rb then
    for_range 0 N (fun i elements =>
      do t <- rd indices i; do v <- D_elem_lt64 lib ra rb phia phib t; wr elements i v) elements
  else
    for_range 0 N (fun i elements =>
      do t <- rd indices i; do v <- D_elem_ge64 lib ra rb phia phib t; wr elements i v) elements.

(** SWSH/__init__.py:134 and so on: [math.sqrt((2 * ell + 1) / (4 * np.pi))] *)
Definition swsh_norm64 (ell : Z) : R := RN64 (sqrt (RN64 (int64 (2 * ell + 1) / RN64 (4 * pi64)))).

(** SWSH/__init__.py:129-137 and 140-148 *)
Definition S_elem_a064 (lib : libm) (Rb : C) (s : Z) (t : Z * Z) : C :=
  let '(ell, m) := t in
  if negb (m =? s) || (Z.abs m >? ell) || (Z.abs s >? ell) then RtoC 0
  else if ell mod 2 =? 0 then cscale64 (swsh_norm64 ell) (lib_cpow lib Rb (-2 * s))
  else cscale64 (- swsh_norm64 ell) (lib_cpow lib Rb (-2 * s)).
Definition S_elem_b064 (lib : libm) (Ra : C) (s : Z) (t : Z * Z) : C :=
  let '(ell, m) := t in
  if negb (m =? - s) || (Z.abs m >? ell) || (Z.abs s >? ell) then RtoC 0
  else if s mod 2 =? 0 then cscale64 (swsh_norm64 ell) (lib_cpow lib Ra (-2 * s))
  else cscale64 (- swsh_norm64 ell) (lib_cpow lib Ra (-2 * s)).

(** SWSH/__init__.py:153-190, one row, branch [ra < rb] *)
Definition S_elem_lt64 (lib : libm) (ra rb phia phib : R) (s : Z) (t : Z * Z) : res C :=
  let '(ell, m) := t in
  let absRRatioSquared := ratio64 ra rb in
  if (Z.abs m >? ell) || (Z.abs s >? ell) then Ok (RtoC 0) else
  let rhoMin := Z.max 0 (- m + s) in
  do c <- coeff64 (2 * ell) (2 * - m) (2 * - s);
  let Prefactor :=
    lib_rect lib (RN64 (RN64 (c * lib_pow lib rb (int64 (2 * ell + s - m - 2 * rhoMin)))
                        * lib_pow lib ra (int64 (- s + m + 2 * rhoMin))))
                 (RN64 (RN64 (phib * int64 (- s - m)) + RN64 (phia * int64 (- s + m)))) in
  if C_is_zero Prefactor then Ok (RtoC 0) else
  let Prefactor := if negb ((ell + rhoMin) mod 2 =? 0) then (Prefactor * RtoC (-1))%C else Prefactor in
  let rhoMax := Z.min (ell - m) (ell + s) in
  do Sum <- for_down rhoMax rhoMin (sum_step64 absRRatioSquared (ell - m + 1) (ell + s + 1) (- s + m)) 1%R;
  Ok (cscale64 Sum (cscale64 (swsh_norm64 ell) Prefactor)).

(** SWSH/__init__.py:196-234, one row, branch [ra >= rb] *)
Definition S_elem_ge64 (lib : libm) (ra rb phia phib : R) (s : Z) (t : Z * Z) : res C :=
  let '(ell, m) := t in
  let absRRatioSquared := ratio64 rb ra in
  if (Z.abs m >? ell) || (Z.abs s >? ell) then Ok (RtoC 0) else
  let rhoMin := Z.max 0 (m + s) in
  do c <- coeff64 (2 * ell) (2 * m) (2 * - s);
  let Prefactor :=
    lib_rect lib (RN64 (RN64 (c * lib_pow lib ra (int64 (2 * ell + s + m - 2 * rhoMin)))
                        * lib_pow lib rb (int64 (- s - m + 2 * rhoMin))))
                 (RN64 (RN64 (phia * int64 (- s + m)) + RN64 (phib * int64 (- s - m)))) in
  if C_is_zero Prefactor then Ok (RtoC 0) else
  let Prefactor := if negb ((rhoMin + s) mod 2 =? 0) then (Prefactor * RtoC (-1))%C else Prefactor in
  let rhoMax := Z.min (ell + m) (ell + s) in
  do Sum <- for_down rhoMax rhoMin (sum_step64 absRRatioSquared (ell + m + 1) (ell + s + 1) (- s - m)) 1%R;
  Ok (cscale64 Sum (cscale64 (swsh_norm64 ell) Prefactor)).

(** SWSH/__init__.py:91-234, [_SWSH] *)
Definition SWSH_core64 (lib : libm) (Ra Rb : C) (s : Z) (indices : arr (Z * Z)) (values : arr C) : res (arr C) :=
  let N := alen indices in
  let '(ra, phia) := lib_polar lib Ra in
  let '(rb, phib) := lib_polar lib Rb in
  if Rleb ra (RN64 epsilon) then
    for_range 0 N (fun i values => do t <- rd indices i; wr values i (S_elem_a064 lib Rb s t)) values
  else if Rleb rb (RN64 epsilon) then
    for_range 0 N (fun i values => do t <- rd indices i; wr values i (S_elem_b064 lib Ra s t)) values
  else if Rltb ra rb then
    for_range 0 N (fun i values =>
      do t <- rd indices i; do v <- S_elem_lt64 lib ra rb phia phib s t; wr values i v) values
  else
    for_range 0 N (fun i values =>
      do t <- rd indices i; do v <- S_elem_ge64 lib ra rb phia phib s t; wr values i v) values.
