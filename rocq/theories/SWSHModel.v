(** Model of spherical_functions/SWSH/__init__.py.  Exact real and complex arithmetic. *)
Require Import ZArith Lia Reals Lra Bool.
From Coquelicot Require Import Complex.
From Verif Require Import Base CBase Fact DRep IndexModel WignerModel PowersModel.
Open Scope Z_scope.

(** SWSH/__init__.py:134 and so on: [math.sqrt((2 * ell + 1) / (4 * np.pi))] *)
Definition swsh_norm (ell : Z) : R := sqrt (IZR (2 * ell + 1) / (4 * PI)).

(** SWSH/__init__.py:129-137, one row, branch [ra <= epsilon] *)
Definition S_elem_a0 (Rb : C) (s : Z) (t : Z * Z) : C :=
  let '(ell, m) := t in
  if negb (m =? s) || (Z.abs m >? ell) || (Z.abs s >? ell) then RtoC 0
  else if ell mod 2 =? 0 then (RtoC (swsh_norm ell) * Cpowz Rb (-2 * s))%C
  else (- RtoC (swsh_norm ell) * Cpowz Rb (-2 * s))%C.

(** SWSH/__init__.py:140-148, one row, branch [rb <= epsilon] *)
Definition S_elem_b0 (Ra : C) (s : Z) (t : Z * Z) : C :=
  let '(ell, m) := t in
  if negb (m =? - s) || (Z.abs m >? ell) || (Z.abs s >? ell) then RtoC 0
  else if s mod 2 =? 0 then (RtoC (swsh_norm ell) * Cpowz Ra (-2 * s))%C
  else (- RtoC (swsh_norm ell) * Cpowz Ra (-2 * s))%C.

(** SWSH/__init__.py:153-190, one row, branch [ra < rb] *)
Definition S_elem_lt (tab : arr R) (ra rb phia phib : R) (s : Z) (t : Z * Z) : res C :=
  let '(ell, m) := t in
  let absRRatioSquared := (- ra * ra / (rb * rb))%R in
  if (Z.abs m >? ell) || (Z.abs s >? ell) then Ok (RtoC 0) else
  let rhoMin := Z.max 0 (- m + s) in
  do c <- Wigner_coefficient tab ell (- m) (- s);
  let Prefactor :=
    crect (c * powerRZ rb (2 * ell + s - m - 2 * rhoMin) * powerRZ ra (- s + m + 2 * rhoMin))%R
          (phib * IZR (- s - m) + phia * IZR (- s + m))%R in
  if C_is_zero Prefactor then Ok (RtoC 0) else
  let Prefactor := if negb ((ell + rhoMin) mod 2 =? 0) then (Prefactor * RtoC (-1))%C else Prefactor in
  let rhoMax := Z.min (ell - m) (ell + s) in
  do Sum <- for_down rhoMax rhoMin (sum_step absRRatioSquared (ell - m + 1) (ell + s + 1) (- s + m)) 1%R;
  Ok (RtoC (swsh_norm ell) * Prefactor * RtoC Sum)%C.

(** SWSH/__init__.py:196-234, one row, branch [ra >= rb] *)
Definition S_elem_ge (tab : arr R) (ra rb phia phib : R) (s : Z) (t : Z * Z) : res C :=
  let '(ell, m) := t in
  let absRRatioSquared := (- rb * rb / (ra * ra))%R in
  if (Z.abs m >? ell) || (Z.abs s >? ell) then Ok (RtoC 0) else
  let rhoMin := Z.max 0 (m + s) in
  do c <- Wigner_coefficient tab ell m (- s);
  let Prefactor :=
    crect (c * powerRZ ra (2 * ell + s + m - 2 * rhoMin) * powerRZ rb (- s - m + 2 * rhoMin))%R
          (phia * IZR (- s + m) + phib * IZR (- s - m))%R in
  if C_is_zero Prefactor then Ok (RtoC 0) else
  let Prefactor := if negb ((rhoMin + s) mod 2 =? 0) then (Prefactor * RtoC (-1))%C else Prefactor in
  let rhoMax := Z.min (ell + m) (ell + s) in
  do Sum <- for_down rhoMax rhoMin (sum_step absRRatioSquared (ell + m + 1) (ell + s + 1) (- s - m)) 1%R;
  Ok (RtoC (swsh_norm ell) * Prefactor * RtoC Sum)%C.

(** SWSH/__init__.py:91-234, [_SWSH] *)
Definition SWSH_core (tab : arr R) (Ra Rb : C) (s : Z) (indices : arr (Z * Z)) (values : arr C) : res (arr C) :=
  let N := alen indices in
  let ra := Cmod Ra in let phia := phase Ra in
  let rb := Cmod Rb in let phib := phase Rb in
  if Rleb ra epsilon then
    for_range 0 N (fun i values => do t <- rd indices i; wr values i (S_elem_a0 Rb s t)) values
  else if Rleb rb epsilon then
    for_range 0 N (fun i values => do t <- rd indices i; wr values i (S_elem_b0 Ra s t)) values
  else if Rltb ra rb then
    for_range 0 N (fun i values =>
      do t <- rd indices i; do v <- S_elem_lt tab ra rb phia phib s t; wr values i v) values
  else
    for_range 0 N (fun i values =>
      do t <- rd indices i; do v <- S_elem_ge tab ra rb phia phib s t; wr values i v) values.

(** SWSH/__init__.py:237-345, [_SWSHs] *)
Definition SWSHs_core (tab : arr R) (Rs : arr quat) (s ell m : Z) (values : arr C) : res (arr C) :=
  let N := alen Rs in
  if (Z.abs m >? ell) || (Z.abs s >? ell) then
    for_range 0 N (fun i values => wr values i (RtoC 0)) values
  else
    let constant := swsh_norm ell in
    let ell_even := ell mod 2 =? 0 in
    let s_even := s mod 2 =? 0 in
    let rhoMin_a := Z.max 0 (m + s) in
    let rhoMax_a := Z.min (ell + m) (ell + s) in
    do ca <- Wigner_coefficient tab ell m (- s);
    let coefficient_a := if negb ((rhoMin_a + s) mod 2 =? 0) then (ca * -1)%R else ca in
    let rhoMin_b := Z.max 0 (- m + s) in
    let rhoMax_b := Z.min (ell - m) (ell + s) in
    do cb <- Wigner_coefficient tab ell (- m) (- s);
    let coefficient_b := if negb ((ell + rhoMin_b) mod 2 =? 0) then (cb * -1)%R else cb in
    for_range 0 N (fun i values =>
      do q <- rd Rs i;
      let Ra := (qw q, qz q) in let Rb := (qy q, qx q) in
      let ra := Cmod Ra in let phia := phase Ra in
      let rb := Cmod Rb in let phib := phase Rb in
      if Rleb ra epsilon then
        wr values i (if negb (m =? s) then RtoC 0
                     else if ell_even then (RtoC constant * Cpowz Rb (-2 * s))%C
                     else (- RtoC constant * Cpowz Rb (-2 * s))%C)
      else if Rleb rb epsilon then
        wr values i (if negb (m =? - s) then RtoC 0
                     else if s_even then (RtoC constant * Cpowz Ra (-2 * s))%C
                     else (- RtoC constant * Cpowz Ra (-2 * s))%C)
      else if Rltb ra rb then
        if R_is_zero coefficient_b then wr values i (RtoC 0) else
        let P := crect (coefficient_b * powerRZ rb (2 * ell + s - m - 2 * rhoMin_b)
                                      * powerRZ ra (- s + m + 2 * rhoMin_b))%R
                       (phib * IZR (- s - m) + phia * IZR (- s + m))%R in
        do Sum <- for_down rhoMax_b rhoMin_b
                    (sum_step (- ra * ra / (rb * rb)) (ell - m + 1) (ell + s + 1) (- s + m)) 1%R;
        wr values i (RtoC constant * P * RtoC Sum)%C
      else
        if R_is_zero coefficient_a then wr values i (RtoC 0) else
        let P := crect (coefficient_a * powerRZ ra (2 * ell + s + m - 2 * rhoMin_a)
                                      * powerRZ rb (- s - m + 2 * rhoMin_a))%R
                       (phia * IZR (- s + m) + phib * IZR (- s - m))%R in
        do Sum <- for_down rhoMax_a rhoMin_a
                    (sum_step (- rb * rb / (ra * ra)) (ell + m + 1) (ell + s + 1) (- s - m)) 1%R;
        wr values i (RtoC constant * P * RtoC Sum)%C) values.

(** SWSH/__init__.py:37-40, [SWSH(R, s, indices)] with one rotor and an (N,2) array of indices *)
Definition SWSH_indices (tab : arr R) (garbage : Z -> C) (q : quat) (s : Z) (indices : arr (Z * Z)) : res (arr C) :=
  do values <- np_empty (alen indices) garbage;
  SWSH_core tab (qa q) (qb q) s indices values.

(** SWSH/__init__.py:41-45, [SWSH(Rs, s, (ell, m))] with an array of rotors, flattened; the reshape of the result to
    the shape of [Rs] is not modelled *)
Definition SWSH_rotors (tab : arr R) (garbage : Z -> C) (Rs : arr quat) (s ell m : Z) : res (arr C) :=
  do values <- np_empty (alen Rs) garbage;
  SWSHs_core tab Rs s ell m values.

(** SWSH/__init__.py:48-88, [SWSH_grid]; the grid of rotors is flattened, the result is one row per rotor.  [np.nditer]
    without the flag 'zerosize_ok' raises ValueError on an empty array.  It visits the elements in the order of memory, but
    every visit writes only the row of its own element, so the order does not matter. *)
Definition SWSH_grid (tab : arr R) (lm_garbage : Z -> Z * Z) (Rs : arr quat) (s ell_max : Z) : res (arr2 C) :=
  do indices <- LM_range lm_garbage 0 ell_max;
  if alen Rs =? 0 then Err ValueError else
  for_range 0 (alen Rs) (fun i values =>
    do q <- rd Rs i;
    do row <- SWSH_core tab (qa q) (qb q) s indices (mkarr (ncol values) (get2 values i));
    Ok (mkarr2 (nrow values) (ncol values) (fun k l => if k =? i then aget row l else get2 values k l)))
    (mkarr2 (alen Rs) (alen indices) (fun _ _ => RtoC 0)).
