(** Model of [_Wigner_D_matrices], [_Wigner_D_elements] (spherical_functions/WignerD/__init__.py:391-672) and [_SWSHs]
    (spherical_functions/SWSH/__init__.py:233-339) in IEEE double arithmetic, with the conventions of FloatWignerModel.v. *)
Require Import ZArith Reals Bool.
From Coquelicot Require Import Complex.
From Verif Require Import Base CBase DRep IndexModel FloatIndexModel FloatPowersModel FloatConvModel WignerModel TableModel FloatWignerModel.
Open Scope Z_scope.

(** [c * r1 ** e1 * r2 ** e2], rounded from left to right *)
Definition radius64 (lib : libm) (c r1 r2 : R) (e1 e2 : Z) : R :=
  RN64 (RN64 (c * lib_pow lib r1 (int64 e1)) * lib_pow lib r2 (int64 e2)).

(** WignerD/__init__.py:488-509 and 556-576: the writes of one (ell, mp, m) iteration *)
Definition D_symmetric_writes64 (i_ell ell mp m : Z) (P1 P2 : C) (Sum : R) (mat : arr C) : res (arr C) :=
  do mat <- wr mat (i_ell + linear_matrix_index ell mp m) (cscale64 Sum P1);
  if negb (Z.abs m =? Z.abs mp) then
    do mat <-
      (if (m + mp) mod 2 =? 0 then
         do mat <- wr mat (i_ell + linear_matrix_index ell (- mp) (- m)) (cscale64 Sum (Cconj P1));
         wr mat (i_ell + linear_matrix_index ell (- m) (- mp)) (cscale64 Sum P2)
       else
         do mat <- wr mat (i_ell + linear_matrix_index ell (- mp) (- m)) (cscale64 Sum (- Cconj P1)%C);
         wr mat (i_ell + linear_matrix_index ell (- m) (- mp)) (cscale64 Sum (- P2)%C));
    wr mat (i_ell + linear_matrix_index ell m mp) (cscale64 Sum (Cconj P2))
  else if negb (m =? 0) then
    (if (m + mp) mod 2 =? 0 then
       wr mat (i_ell + linear_matrix_index ell (- mp) (- m)) (cscale64 Sum (Cconj P1))
     else
       wr mat (i_ell + linear_matrix_index ell (- mp) (- m)) (cscale64 Sum (- Cconj P1)%C))
  else Ok mat.

(** WignerD/__init__.py:448-509, branch [ra < rb], one (ell, mp, m); the writes of zeros are those of WignerModel.v *)
Definition D_matrix_lt64 (lib : libm) (ra rb phia phib : R) (i_ell ell mp m : Z) (mat : arr C) : res (arr C) :=
  let rhoMin := Z.max 0 (- mp - m) in
  do c <- coeff64 (2 * ell) (2 * - mp) (2 * m);
  let d := radius64 lib c rb ra (2 * ell - m - mp - 2 * rhoMin) (m + mp + 2 * rhoMin) in
  if R_is_zero d then D_zero_writes i_ell ell mp m mat else
  let d := if negb ((ell + m + rhoMin) mod 2 =? 0) then (d * -1)%R else d in
  let P1 := lib_rect lib d (RN64 (RN64 (phib * int64 (m - mp)) + RN64 (phia * int64 (m + mp)))) in
  let P2 := lib_rect lib d (RN64 (RN64 (RN64 (phib + pi64) * int64 (m - mp)) - RN64 (phia * int64 (m + mp)))) in
  do Sum <- for_down (Z.min (ell - mp) (ell - m)) rhoMin
              (sum_step64 (ratio64 ra rb) (ell - mp + 1) (ell - m + 1) (m + mp)) 1%R;
  D_symmetric_writes64 i_ell ell mp m P1 P2 Sum mat.

(** WignerD/__init__.py:516-576, branch [ra >= rb], one (ell, mp, m) *)
Definition D_matrix_ge64 (lib : libm) (ra rb phia phib : R) (i_ell ell mp m : Z) (mat : arr C) : res (arr C) :=
  let rhoMin := Z.max 0 (mp - m) in
  do c <- coeff64 (2 * ell) (2 * mp) (2 * m);
  let d := radius64 lib c ra rb (2 * ell - m + mp - 2 * rhoMin) (m - mp + 2 * rhoMin) in
  if R_is_zero d then D_zero_writes i_ell ell mp m mat else
  let d := if negb (rhoMin mod 2 =? 0) then (d * -1)%R else d in
  let P1 := lib_rect lib d (RN64 (RN64 (phia * int64 (m + mp)) + RN64 (phib * int64 (m - mp)))) in
  let P2 := lib_rect lib d (RN64 (RN64 (- phia * int64 (m + mp)) + RN64 (RN64 (phib + pi64) * int64 (m - mp)))) in
  do Sum <- for_down (Z.min (ell + mp) (ell - m)) rhoMin
              (sum_step64 (ratio64 rb ra) (ell + mp + 1) (ell - m + 1) (m - mp)) 1%R;
  D_symmetric_writes64 i_ell ell mp m P1 P2 Sum mat.

(** WignerD/__init__.py:391-588, [_Wigner_D_matrices] *)
Definition Wigner_D_matrices_core64 (lib : libm) (Ra Rb : C) (ell_min ell_max : Z) (mat : arr C) : res (arr C) :=
  let '(ra, phia) := lib_polar lib Ra in
  let '(rb, phib) := lib_polar lib Rb in
  if Rleb ra (RN64 epsilon) then
    for_range ell_min (ell_max + 1) (fun ell mat =>
      let i_ell := linear_matrix_offset ell ell_min in
      do mat <- for_range 0 ((2 * ell + 1) ^ 2) (fun i mat => wr mat (i_ell + i) (RtoC 0)) mat;
      for_range (- ell) (ell + 1) (fun mpmm mat =>
        let i_mpmm := linear_matrix_index ell mpmm (- mpmm) in
        wr mat (i_ell + i_mpmm)
           (if (ell + mpmm) mod 2 =? 0 then lib_cpow lib Rb (-2 * mpmm) else (- lib_cpow lib Rb (-2 * mpmm))%C)) mat) mat
  else if Rleb rb (RN64 epsilon) then
    for_range ell_min (ell_max + 1) (fun ell mat =>
      let i_ell := linear_matrix_offset ell ell_min in
      do mat <- for_range 0 ((2 * ell + 1) ^ 2) (fun i mat => wr mat (i_ell + i) (RtoC 0)) mat;
      for_range (- ell) (ell + 1) (fun mpm mat =>
        wr mat (i_ell + linear_matrix_diagonal_index ell mpm) (lib_cpow lib Ra (2 * mpm))) mat) mat
  else if Rltb ra rb then
    for_range ell_min (ell_max + 1) (fun ell mat =>
      for_range (- ell) 1 (fun mp mat =>
        for_range mp (- mp + 1) (fun m mat =>
          D_matrix_lt64 lib ra rb phia phib (linear_matrix_offset ell ell_min) ell mp m mat) mat) mat) mat
  else
    for_range ell_min (ell_max + 1) (fun ell mat =>
      for_range (- ell) 1 (fun mp mat =>
        for_range mp (- mp + 1) (fun m mat =>
          D_matrix_ge64 lib ra rb phia phib (linear_matrix_offset ell ell_min) ell mp m mat) mat) mat) mat.

(** WignerD/__init__.py:344-388, [Wigner_D_matrices] with integer arguments *)
Definition Wigner_D_matrices64 (lib : libm) (garbage : Z -> C) (q : quat) (ell_min ell_max : Z) : res (arr C) :=
  do mat <- np_empty (LMpM_total_size ell_min ell_max) garbage;
  Wigner_D_matrices_core64 lib (qa q) (qb q) ell_min ell_max mat.

(** WignerD/__init__.py:591-672, [_Wigner_D_elements]; [Prefactor2], which it computes and does not use, is left out *)
Definition Wigner_D_elements_core64 (lib : libm) (Rs : arr quat) (ell mp m : Z) (values : arr C) : res (arr C) :=
  let N := alen Rs in
  if (Z.abs m >? ell) || (Z.abs mp >? ell) then
    for_range 0 N (fun i values => wr values i (RtoC 0)) values
  else
    let rhoMin_a := Z.max 0 (mp - m) in
    let rhoMax_a := Z.min (ell + mp) (ell - m) in
    do ca <- coeff64 (2 * ell) (2 * mp) (2 * m);
    let coefficient_a := if negb (rhoMin_a mod 2 =? 0) then (ca * -1)%R else ca in
    let rhoMin_b := Z.max 0 (- m - mp) in
    let rhoMax_b := Z.min (ell - mp) (ell - m) in
    do cb <- coeff64 (2 * ell) (2 * - mp) (2 * m);
    let coefficient_b := if negb ((ell + m + rhoMin_b) mod 2 =? 0) then (cb * -1)%R else cb in
    for_range 0 N (fun i values =>
      do q <- rd Rs i;
      let Ra := (qw q, qz q) in let Rb := (qy q, qx q) in
      let '(ra, phia) := lib_polar lib Ra in
      let '(rb, phib) := lib_polar lib Rb in
      if Rleb ra (RN64 epsilon) then
        wr values i (if negb (mp =? - m) then RtoC 0
                     else if (ell + mp) mod 2 =? 0 then lib_cpow lib Rb (-2 * mp) else (- lib_cpow lib Rb (-2 * mp))%C)
      else if Rleb rb (RN64 epsilon) then
        wr values i (if negb (mp =? m) then RtoC 0 else lib_cpow lib Ra (2 * mp))
      else if Rltb ra rb then
        let d := radius64 lib coefficient_b rb ra (2 * ell - m - mp - 2 * rhoMin_b) (m + mp + 2 * rhoMin_b) in
        if R_is_zero d then wr values i (RtoC 0) else
        let P1 := lib_rect lib d (RN64 (RN64 (phib * int64 (m - mp)) + RN64 (phia * int64 (m + mp)))) in
        do Sum <- for_down rhoMax_b rhoMin_b (sum_step64 (ratio64 ra rb) (ell - mp + 1) (ell - m + 1) (m + mp)) 1%R;
        wr values i (cscale64 Sum P1)
      else
        let d := radius64 lib coefficient_a ra rb (2 * ell - m + mp - 2 * rhoMin_a) (m - mp + 2 * rhoMin_a) in
        if R_is_zero d then wr values i (RtoC 0) else
        let P1 := lib_rect lib d (RN64 (RN64 (phia * int64 (m + mp)) + RN64 (phib * int64 (m - mp)))) in
        do Sum <- for_down rhoMax_a rhoMin_a (sum_step64 (ratio64 rb ra) (ell + mp + 1) (ell - m + 1) (m - mp)) 1%R;
        wr values i (cscale64 Sum P1)) values.

(** SWSH/__init__.py:233-339, [_SWSHs] *)
Definition SWSHs_core64 (lib : libm) (Rs : arr quat) (s ell m : Z) (values : arr C) : res (arr C) :=
  let N := alen Rs in
  if (Z.abs m >? ell) || (Z.abs s >? ell) then
    for_range 0 N (fun i values => wr values i (RtoC 0)) values
  else
    let constant := swsh_norm64 ell in
    let ell_even := ell mod 2 =? 0 in
    let s_even := s mod 2 =? 0 in
    let rhoMin_a := Z.max 0 (m + s) in
    let rhoMax_a := Z.min (ell + m) (ell + s) in
    do ca <- coeff64 (2 * ell) (2 * m) (2 * - s);
    let coefficient_a := if negb ((rhoMin_a + s) mod 2 =? 0) then (ca * -1)%R else ca in
    let rhoMin_b := Z.max 0 (- m + s) in
    let rhoMax_b := Z.min (ell - m) (ell + s) in
    do cb <- coeff64 (2 * ell) (2 * - m) (2 * - s);
    let coefficient_b := if negb ((ell + rhoMin_b) mod 2 =? 0) then (cb * -1)%R else cb in
    for_range 0 N (fun i values =>
      do q <- rd Rs i;
      let Ra := (qw q, qz q) in let Rb := (qy q, qx q) in
      let '(ra, phia) := lib_polar lib Ra in
      let '(rb, phib) := lib_polar lib Rb in
      if Rleb ra (RN64 epsilon) then
        wr values i (if negb (m =? s) then RtoC 0
                     else if ell_even then cscale64 constant (lib_cpow lib Rb (-2 * s))
                     else cscale64 (- constant) (lib_cpow lib Rb (-2 * s)))
      else if Rleb rb (RN64 epsilon) then
        wr values i (if negb (m =? - s) then RtoC 0
                     else if s_even then cscale64 constant (lib_cpow lib Ra (-2 * s))
                     else cscale64 (- constant) (lib_cpow lib Ra (-2 * s)))
      else if Rltb ra rb then
        if R_is_zero coefficient_b then wr values i (RtoC 0) else
        let P := lib_rect lib (radius64 lib coefficient_b rb ra (2 * ell + s - m - 2 * rhoMin_b) (- s + m + 2 * rhoMin_b))
                              (RN64 (RN64 (phib * int64 (- s - m)) + RN64 (phia * int64 (- s + m)))) in
        do Sum <- for_down rhoMax_b rhoMin_b (sum_step64 (ratio64 ra rb) (ell - m + 1) (ell + s + 1) (- s + m)) 1%R;
        wr values i (cscale64 Sum (cscale64 constant P))
      else
        if R_is_zero coefficient_a then wr values i (RtoC 0) else
        let P := lib_rect lib (radius64 lib coefficient_a ra rb (2 * ell + s + m - 2 * rhoMin_a) (- s - m + 2 * rhoMin_a))
                              (RN64 (RN64 (phia * int64 (- s + m)) + RN64 (phib * int64 (- s - m)))) in
        do Sum <- for_down rhoMax_a rhoMin_a (sum_step64 (ratio64 rb ra) (ell + m + 1) (ell + s + 1) (- s - m)) 1%R;
        wr values i (cscale64 Sum (cscale64 constant P))) values.
