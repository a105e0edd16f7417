(** Model of the evaluators in spherical_functions/WignerD/__init__.py.

    Floating point is replaced by exact real and complex arithmetic; [cmath.polar] and [cmath.rect] are exact.
    [tab] is the buffer loaded from Wigner_coefficients.npy. *)
Require Import ZArith Lia Reals Lra Bool.
From Coquelicot Require Import Complex.
From Verif Require Import Base CBase Fact DRep IndexModel.
Open Scope Z_scope.

(** spherical_functions/__init__.py:35 *)
Definition epsilon : R := (/ 10 ^ 15)%R.

(** spherical_functions/_generate_coefficients.py:45-49, the number stored for one index triple
    (mpmath's 128-digit arithmetic and the final rounding to double are replaced by exact reals). *)
Definition Wigner_entry (twoell twomp twom : Z) : R :=
  let tworho_min := Z.max 0 (twomp - twom) in
  (sqrt (fct ((twoell + twom) / 2) * fct ((twoell - twom) / 2)
         / (fct ((twoell + twomp) / 2) * fct ((twoell - twomp) / 2)))
   * bin ((twoell + twomp) / 2) (tworho_min / 2)
   * bin ((twoell - twomp) / 2) ((twoell - twom - tworho_min) / 2))%R.

(** spherical_functions/_generate_coefficients.py:14 *)
Definition binomial_entry (n k : Z) : R := bin n k.
(** spherical_functions/_generate_coefficients.py:23 *)
Definition ladder_entry (twoell twom : Z) : R :=
  sqrt (IZR (twoell * (twoell + 2) - twom * (twom + 2)) / 4).

(** Wigner_coefficients.npy as produced by _generate_coefficients.py:42-52 with [ell_max = L]
    (the shipped file has [L = 32]). *)
Definition is_Wigner_table (L : Z) (tab : arr R) : Prop :=
  exists garbage, gen_Wigner Wigner_entry garbage L = Ok tab.

(** spherical_functions/__init__.py:85-87; the arguments are integers here, so [round] is exact *)
Definition Wigner_coefficient (tab : arr R) (ell mp m : Z) : res R :=
  Wigner_lookup tab (2 * ell) (2 * mp) (2 * m).

(** [for i in range(a, b, -2)]: Python runs [max(0, ceil((a - b) / 2))] iterations. *)
Definition for_down2 {S} (a b : Z) (body : Z -> S -> res S) (s : S) : res S :=
  for_loop (Z.to_nat ((a - b + 1) / 2)) a (-2) body s.

(** The body of the summation loops: [Sum *= x * ((N1-rho)*(N2-rho)) / (rho*(M+rho)); Sum += 1]
    (WignerD/__init__.py:231-232, 273-274, 497-499, 565-567, 658-660, 671-673). *)
Definition sum_step (x : R) (N1 N2 M rho : Z) (Sum : R) : res R :=
  if rho * (M + rho) =? 0 then Err ZeroDivisionError
  else Ok (Sum * (x * IZR ((N1 - rho) * (N2 - rho)) / IZR (rho * (M + rho))) + 1)%R.

(** [z == 0.0j] *)
Definition C_is_zero (z : C) : bool :=
  if Req_EM_T (fst z) 0 then if Req_EM_T (snd z) 0 then true else false else false.
Definition R_is_zero (x : R) : bool := if Req_EM_T x 0 then true else false.
Definition Rleb (x y : R) : bool := if Rle_dec x y then true else false.
Definition Rltb (x y : R) : bool := if Rlt_dec x y then true else false.

(** WignerD/__init__.py:182-189, one row, branch [ra <= epsilon] *)
Definition D_elem_a0 (Rb : C) (t : Z * Z * Z) : C :=
  let '(twoell, twomp, twom) := t in
  if negb (twomp =? - twom) || (Z.abs twomp >? twoell) || (Z.abs twom >? twoell) then RtoC 0
  else if (twoell - twom) mod 4 =? 0 then Cpowz Rb twom else (- Cpowz Rb twom)%C.

(** WignerD/__init__.py:192-197, one row, branch [rb <= epsilon] *)
Definition D_elem_b0 (Ra : C) (t : Z * Z * Z) : C :=
  let '(twoell, twomp, twom) := t in
  if negb (twomp =? twom) || (Z.abs twomp >? twoell) || (Z.abs twom >? twoell) then RtoC 0
  else Cpowz Ra twom.

(** WignerD/__init__.py:204-233, one row, branch [ra < rb].  Python's [**] with a float exponent on a positive base is
    [Rpower]; [/2] is true division. *)
Definition D_elem_lt (tab : arr R) (ra rb phia phib : R) (t : Z * Z * Z) : res C :=
  let '(twoell, twomp, twom) := t in
  let absRRatioSquared := (- ra * ra / (rb * rb))%R in
  if (Z.abs twomp >? twoell) || (Z.abs twom >? twoell) then Ok (RtoC 0) else
  let tworhoMin := Z.max 0 (- twomp - twom) in
  do c <- Wigner_lookup tab twoell (- twomp) twom;
  let Prefactor :=
    crect (c * Rpower rb (IZR twoell - IZR (twom + twomp) / 2 - IZR tworhoMin)
             * Rpower ra (IZR (twom + twomp) / 2 + IZR tworhoMin))%R
          (phib * IZR (twom - twomp) / 2 + phia * IZR (twom + twomp) / 2)%R in
  if C_is_zero Prefactor then Ok (RtoC 0) else
  let Prefactor := if negb ((twoell - twom - tworhoMin) mod 4 =? 0)
                   then (Prefactor * RtoC (-1))%C else Prefactor in
  let tworhoMax := Z.min (twoell - twomp) (twoell - twom) in
  let twoN1 := twoell - twomp + 2 in
  let twoN2 := twoell - twom + 2 in
  let twoM := twom + twomp in
  do Sum <- for_down2 tworhoMax tworhoMin (sum_step absRRatioSquared twoN1 twoN2 twoM) 1%R;
  Ok (Prefactor * RtoC Sum)%C.

(** WignerD/__init__.py:240-275, one row, branch [ra >= rb] *)
Definition D_elem_ge (tab : arr R) (ra rb phia phib : R) (t : Z * Z * Z) : res C :=
  let '(twoell, twomp, twom) := t in
  let absRRatioSquared := (- rb * rb / (ra * ra))%R in
  if (Z.abs twomp >? twoell) || (Z.abs twom >? twoell) then Ok (RtoC 0) else
  let tworhoMin := Z.max 0 (twomp - twom) in
  do c <- Wigner_lookup tab twoell twomp twom;
  let Prefactor :=
    crect (c * Rpower ra (IZR twoell - IZR twom / 2 + IZR twomp / 2 - IZR tworhoMin)
             * Rpower rb (IZR twom / 2 - IZR twomp / 2 + IZR tworhoMin))%R
          (phia * IZR (twom + twomp) / 2 + phib * IZR (twom - twomp) / 2)%R in
  if C_is_zero Prefactor then Ok (RtoC 0) else
  let Prefactor := if negb (tworhoMin mod 4 =? 0)
                   then (Prefactor * RtoC (-1))%C else Prefactor in
  let tworhoMax := Z.min (twoell + twomp) (twoell - twom) in
  let twoN1 := twoell + twomp + 2 in
  let twoN2 := twoell - twom + 2 in
  let twoM := twom - twomp in
  do Sum <- for_down2 tworhoMax tworhoMin (sum_step absRRatioSquared twoN1 twoN2 twoM) 1%R;
  Ok (Prefactor * RtoC Sum)%C.

(** WignerD/__init__.py:148-275, [_Wigner_D_element] *)
Definition Wigner_D_element_core (tab : arr R) (Ra Rb : C) (indices : arr (Z * Z * Z)) (elements : arr C)
  : res (arr C) :=
  let N := alen indices in
  let ra := Cmod Ra in let phia := phase Ra in
  let rb := Cmod Rb in let phib := phase Rb in
  if Rleb ra epsilon then
    for_range 0 N (fun i elements => do t <- rd indices i; wr elements i (D_elem_a0 Rb t)) elements
  else if Rleb rb epsilon then
    for_range 0 N (fun i elements => do t <- rd indices i; wr elements i (D_elem_b0 Ra t)) elements
  else if Rltb ra rb then
    for_range 0 N (fun i elements =>
      do t <- rd indices i; do v <- D_elem_lt tab ra rb phia phib t; wr elements i v) elements
  else
    for_range 0 N (fun i elements =>
      do t <- rd indices i; do v <- D_elem_ge tab ra rb phia phib t; wr elements i v) elements.

(** The writes of one (ell, mp, m) iteration: the element itself and its images under the symmetries
    (WignerD/__init__.py:464-475 and 501-520; 532-543 and 569-588).
    [v] is the value for (mp, m) and [v2] is [Prefactor2 * Sum], i.e. the value of D_{mp,m} at the inverse rotor.
    In the code [v = Prefactor1 * Sum] and the images use [Prefactor1.conjugate() * Sum] and so on; [Sum] is real, so
    those are the conjugates of [v] and [v2]. *)
Definition D_symmetric_writes (i_ell ell mp m : Z) (P1 P2 : C) (Sum : R) (mat : arr C) : res (arr C) :=
  do mat <- wr mat (i_ell + linear_matrix_index ell mp m) (P1 * RtoC Sum)%C;
  if negb (Z.abs m =? Z.abs mp) then
    do mat <-
      (if (m + mp) mod 2 =? 0 then
         do mat <- wr mat (i_ell + linear_matrix_index ell (- mp) (- m)) (Cconj P1 * RtoC Sum)%C;
         wr mat (i_ell + linear_matrix_index ell (- m) (- mp)) (P2 * RtoC Sum)%C
       else
         do mat <- wr mat (i_ell + linear_matrix_index ell (- mp) (- m)) (- Cconj P1 * RtoC Sum)%C;
         wr mat (i_ell + linear_matrix_index ell (- m) (- mp)) (- P2 * RtoC Sum)%C);
    wr mat (i_ell + linear_matrix_index ell m mp) (Cconj P2 * RtoC Sum)%C
  else if negb (m =? 0) then
    (if (m + mp) mod 2 =? 0 then
       wr mat (i_ell + linear_matrix_index ell (- mp) (- m)) (Cconj P1 * RtoC Sum)%C
     else
       wr mat (i_ell + linear_matrix_index ell (- mp) (- m)) (- Cconj P1 * RtoC Sum)%C)
  else Ok mat.

(** The writes when the prefactor vanished (WignerD/__init__.py:463-474, 531-542). *)
Definition D_zero_writes (i_ell ell mp m : Z) (mat : arr C) : res (arr C) :=
  do mat <- wr mat (i_ell + linear_matrix_index ell mp m) (RtoC 0);
  if negb (Z.abs m =? Z.abs mp) then
    do mat <- wr mat (i_ell + linear_matrix_index ell (- mp) (- m)) (RtoC 0);
    do mat <- wr mat (i_ell + linear_matrix_index ell m mp) (RtoC 0);
    wr mat (i_ell + linear_matrix_index ell (- m) (- mp)) (RtoC 0)
  else if negb (m =? 0) then
    wr mat (i_ell + linear_matrix_index ell (- mp) (- m)) (RtoC 0)
  else Ok mat.

(** WignerD/__init__.py:449-520, one (ell, mp, m) of the branch [ra < rb] *)
Definition D_matrix_lt (tab : arr R) (ra rb phia phib : R) (i_ell ell mp m : Z) (mat : arr C) : res (arr C) :=
  let absRRatioSquared := (- ra * ra / (rb * rb))%R in
  let rhoMin := Z.max 0 (- mp - m) in
  do c <- Wigner_coefficient tab ell (- mp) m;
  let d := (c * powerRZ rb (2 * ell - m - mp - 2 * rhoMin) * powerRZ ra (m + mp + 2 * rhoMin))%R in
  if R_is_zero d then D_zero_writes i_ell ell mp m mat else
  let d := if negb ((ell + m + rhoMin) mod 2 =? 0) then (d * -1)%R else d in
  let P1 := crect d (phib * IZR (m - mp) + phia * IZR (m + mp)) in
  let P2 := crect d ((phib + PI) * IZR (m - mp) - phia * IZR (m + mp)) in
  let rhoMax := Z.min (ell - mp) (ell - m) in
  do Sum <- for_down rhoMax rhoMin (sum_step absRRatioSquared (ell - mp + 1) (ell - m + 1) (m + mp)) 1%R;
  D_symmetric_writes i_ell ell mp m P1 P2 Sum mat.

(** WignerD/__init__.py:523-588, one (ell, mp, m) of the branch [ra >= rb] *)
Definition D_matrix_ge (tab : arr R) (ra rb phia phib : R) (i_ell ell mp m : Z) (mat : arr C) : res (arr C) :=
  let absRRatioSquared := (- rb * rb / (ra * ra))%R in
  let rhoMin := Z.max 0 (mp - m) in
  do c <- Wigner_coefficient tab ell mp m;
  let d := (c * powerRZ ra (2 * ell - m + mp - 2 * rhoMin) * powerRZ rb (m - mp + 2 * rhoMin))%R in
  if R_is_zero d then D_zero_writes i_ell ell mp m mat else
  let d := if negb (rhoMin mod 2 =? 0) then (d * -1)%R else d in
  let P1 := crect d (phia * IZR (m + mp) + phib * IZR (m - mp)) in
  let P2 := crect d (- phia * IZR (m + mp) + (phib + PI) * IZR (m - mp)) in
  let rhoMax := Z.min (ell + mp) (ell - m) in
  do Sum <- for_down rhoMax rhoMin (sum_step absRRatioSquared (ell + mp + 1) (ell - m + 1) (m - mp)) 1%R;
  D_symmetric_writes i_ell ell mp m P1 P2 Sum mat.

(** WignerD/__init__.py:391-588, [_Wigner_D_matrices] *)
Definition Wigner_D_matrices_core (tab : arr R) (Ra Rb : C) (ell_min ell_max : Z) (mat : arr C) : res (arr C) :=
  let ra := Cmod Ra in let phia := phase Ra in
  let rb := Cmod Rb in let phib := phase Rb in
  if Rleb ra epsilon then
    for_range ell_min (ell_max + 1) (fun ell mat =>
      let i_ell := linear_matrix_offset ell ell_min in
      do mat <- for_range 0 ((2 * ell + 1) ^ 2) (fun i mat => wr mat (i_ell + i) (RtoC 0)) mat;
      for_range (- ell) (ell + 1) (fun mpmm mat =>
        let i_mpmm := linear_matrix_index ell mpmm (- mpmm) in
        wr mat (i_ell + i_mpmm)
           (if (ell + mpmm) mod 2 =? 0 then Cpowz Rb (-2 * mpmm) else (- Cpowz Rb (-2 * mpmm))%C)) mat) mat
  else if Rleb rb epsilon then
    for_range ell_min (ell_max + 1) (fun ell mat =>
      let i_ell := linear_matrix_offset ell ell_min in
      do mat <- for_range 0 ((2 * ell + 1) ^ 2) (fun i mat => wr mat (i_ell + i) (RtoC 0)) mat;
      for_range (- ell) (ell + 1) (fun mpm mat =>
        wr mat (i_ell + linear_matrix_diagonal_index ell mpm) (Cpowz Ra (2 * mpm))) mat) mat
  else if Rltb ra rb then
    for_range ell_min (ell_max + 1) (fun ell mat =>
      for_range (- ell) 1 (fun mp mat =>
        for_range mp (- mp + 1) (fun m mat =>
          D_matrix_lt tab ra rb phia phib (linear_matrix_offset ell ell_min) ell mp m mat) mat) mat) mat
  else
    for_range ell_min (ell_max + 1) (fun ell mat =>
      for_range (- ell) 1 (fun mp mat =>
        for_range mp (- mp + 1) (fun m mat =>
          D_matrix_ge tab ra rb phia phib (linear_matrix_offset ell ell_min) ell mp m mat) mat) mat) mat.

(** WignerD/__init__.py:344-388, [Wigner_D_matrices]; the arguments are integers here, so the integrality
    test passes. *)
Definition Wigner_D_matrices (tab : arr R) (garbage : Z -> C) (q : quat) (ell_min ell_max : Z) : res (arr C) :=
  do mat <- np_empty (LMpM_total_size ell_min ell_max) garbage;
  Wigner_D_matrices_core tab (qa q) (qb q) ell_min ell_max mat.

(** WignerD/__init__.py:591-673, [_Wigner_D_elements]: one (ell, mp, m), many rotors *)
Definition Wigner_D_elements_core (tab : arr R) (Rs : arr quat) (ell mp m : Z) (values : arr C) : res (arr C) :=
  let N := alen Rs in
  if (Z.abs m >? ell) || (Z.abs mp >? ell) then
    for_range 0 N (fun i values => wr values i (RtoC 0)) values
  else
    let rhoMin_a := Z.max 0 (mp - m) in
    let rhoMax_a := Z.min (ell + mp) (ell - m) in
    do ca <- Wigner_coefficient tab ell mp m;
    let coefficient_a := if negb (rhoMin_a mod 2 =? 0) then (ca * -1)%R else ca in
    let rhoMin_b := Z.max 0 (- m - mp) in
    let rhoMax_b := Z.min (ell - mp) (ell - m) in
    do cb <- Wigner_coefficient tab ell (- mp) m;
    let coefficient_b := if negb ((ell + m + rhoMin_b) mod 2 =? 0) then (cb * -1)%R else cb in
    for_range 0 N (fun i values =>
      do q <- rd Rs i;
      let Ra := (qw q, qz q) in let Rb := (qy q, qx q) in
      let ra := Cmod Ra in let phia := phase Ra in
      let rb := Cmod Rb in let phib := phase Rb in
      if Rleb ra epsilon then
        wr values i (if negb (mp =? - m) then RtoC 0
                     else if (ell + mp) mod 2 =? 0 then Cpowz Rb (-2 * mp) else (- Cpowz Rb (-2 * mp))%C)
      else if Rleb rb epsilon then
        wr values i (if negb (mp =? m) then RtoC 0 else Cpowz Ra (2 * mp))
      else if Rltb ra rb then
        let d := (coefficient_b * powerRZ rb (2 * ell - m - mp - 2 * rhoMin_b)
                                * powerRZ ra (m + mp + 2 * rhoMin_b))%R in
        if R_is_zero d then wr values i (RtoC 0) else
        let P1 := crect d (phib * IZR (m - mp) + phia * IZR (m + mp)) in
        do Sum <- for_down rhoMax_b rhoMin_b
                    (sum_step (- ra * ra / (rb * rb)) (ell - mp + 1) (ell - m + 1) (m + mp)) 1%R;
        wr values i (P1 * RtoC Sum)%C
      else
        let d := (coefficient_a * powerRZ ra (2 * ell - m + mp - 2 * rhoMin_a)
                                * powerRZ rb (m - mp + 2 * rhoMin_a))%R in
        if R_is_zero d then wr values i (RtoC 0) else
        let P1 := crect d (phia * IZR (m + mp) + phib * IZR (m - mp)) in
        do Sum <- for_down rhoMax_a rhoMin_a
                    (sum_step (- rb * rb / (ra * ra)) (ell + mp + 1) (ell - m + 1) (m - mp)) 1%R;
        wr values i (P1 * RtoC Sum)%C) values.
