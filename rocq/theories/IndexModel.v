(** Model of the index arithmetic of the package.  All quantities are integers
    (Python ints / numba int64, see [OverflowModel] for the width); Python's [//] is
    [Z.div].  Definitions only. *)
Require Import ZArith List Bool.
From Verif Require Import Base.
Open Scope Z_scope.

(** ** (ell, m) layout *)

(** spherical_functions/__init__.py:121-141 *)
Definition LM_index (ell m ell_min : Z) : Z := ell * (ell + 1) - ell_min ^ 2 + m.

(** spherical_functions/__init__.py:144-162 *)
Definition LM_total_size (ell_min ell_max : Z) : Z :=
  ell_max * (ell_max + 2) - ell_min ^ 2 + 1.

(** spherical_functions/__init__.py:111-118 [_LM_range].  The two scalar writes
    [LM[i,0]=ell; LM[i,1]=m] are one write of a row. *)
Definition LM_range_fill (ell_min ell_max : Z) (LM : arr (Z * Z)) : res (arr (Z * Z)) :=
  do '(LM, _) <-
    for_range ell_min (ell_max + 1) (fun ell '(LM, i) =>
      for_range (- ell) (ell + 1) (fun m '(LM, i) =>
        do LM <- wr LM i (ell, m); Ok (LM, i + 1)) (LM, i)) (LM, 0);
  Ok LM.

(** spherical_functions/__init__.py:90-109 [LM_range]; [garbage] is the content of the
    [np.empty] buffer. *)
Definition LM_range (garbage : Z -> Z * Z) (ell_min ell_max : Z) : res (arr (Z * Z)) :=
  do LM <- np_empty (ell_max * (ell_max + 2) - ell_min ^ 2 + 1) garbage;
  LM_range_fill ell_min ell_max LM.

(** spherical_functions/__init__.py:165-169.  [isqrt_minus_1 n] stands for the value of
    [int(np.sqrt(n) - 1)], so that the exact and the floating-point square root share
    the rest of the function.  For negative [n], [np.sqrt] gives nan and [int(nan)]
    raises ValueError. *)
Definition LM_deduce_with (isqrt_minus_1 : Z -> Z) (size ell_min : Z) : res Z :=
  if size + ell_min ^ 2 <? 0 then Err ValueError else
  let ell_max := isqrt_minus_1 (size + ell_min ^ 2) in
  if negb (ell_max * (ell_max + 2) - ell_min ^ 2 + 1 =? size)
  then Err ValueError else Ok ell_max.

(** [int(np.sqrt(n) - 1)] with a real-number square root.  [int] truncates towards zero;
    [sqrt n - 1] is -1 for [n = 0] and non-negative for [n >= 1], so this is the floor. *)
Definition exact_isqrt_minus_1 (n : Z) : Z := Z.sqrt n - 1.

Definition LM_deduce_ell_max (size ell_min : Z) : res Z :=
  LM_deduce_with exact_isqrt_minus_1 size ell_min.

(** ** (ell, mp, m) layout *)

(** spherical_functions/__init__.py:245-268 *)
Definition LMpM_index (ell mp m ell_min : Z) : Z :=
  (((4 * ell + 6) * ell + 6 * mp + 5) * ell + ell_min * (1 - 4 * ell_min ^ 2) + 3 * (m + mp)) / 3.

(** spherical_functions/__init__.py:271-292 *)
Definition LMpM_total_size (ell_min ell_max : Z) : Z :=
  (((4 * ell_max + 12) * ell_max + 11) * ell_max + (-4 * ell_min ^ 2 + 1) * ell_min + 3) / 3.

(** spherical_functions/__init__.py:199-208 [_LMpM_range] *)
Definition LMpM_range_fill (ell_min ell_max : Z) (a : arr (Z * Z * Z)) : res (arr (Z * Z * Z)) :=
  do '(a, _) <-
    for_range ell_min (ell_max + 1) (fun ell '(a, i) =>
      for_range (- ell) (ell + 1) (fun mp '(a, i) =>
        for_range (- ell) (ell + 1) (fun m '(a, i) =>
          do a <- wr a i (ell, mp, m); Ok (a, i + 1)) (a, i)) (a, i)) (a, 0);
  Ok a.

(** spherical_functions/__init__.py:172-197 [LMpM_range] for integer arguments (the
    ValueError branch at 188-192 is for non-integers, see [LMpM_range_half_arg]). *)
Definition LMpM_range (garbage : Z -> Z * Z * Z) (ell_min ell_max : Z) : res (arr (Z * Z * Z)) :=
  do a <- np_empty ((ell_max * (11 + ell_max * (12 + 4 * ell_max))
                     + ell_min * (1 - 4 * ell_min ^ 2) + 3) / 3) garbage;
  LMpM_range_fill ell_min ell_max a.

(** The same function called with [ell_min = twoell_min/2], [ell_max = twoell_max/2]:
    the test [abs(round(x)-x) > 1e-10] of lines 188-192 is true exactly for odd
    doubled values. *)
Definition LMpM_range_half_arg (garbage : Z -> Z * Z * Z) (twoell_min twoell_max : Z)
  : res (arr (Z * Z * Z)) :=
  if Z.odd twoell_max || Z.odd twoell_min then Err ValueError
  else LMpM_range garbage (twoell_min / 2) (twoell_max / 2).

(** spherical_functions/__init__.py:232-242 [_LMpM_range_half_integer].  Rows are stored
    doubled: the code stores [twoell/2], [twomp/2], [twom/2] as floats, exactly. *)
Definition LMpM_half_fill (twoell_min twoell_max : Z) (a : arr (Z * Z * Z)) : res (arr (Z * Z * Z)) :=
  do '(a, _) <-
    for_range twoell_min (twoell_max + 1) (fun twoell '(a, i) =>
      for_step (- twoell) (twoell + 1) 2 (fun twomp '(a, i) =>
        for_step (- twoell) (twoell + 1) 2 (fun twom '(a, i) =>
          do a <- wr a i (twoell, twomp, twom); Ok (a, i + 1)) (a, i)) (a, i)) (a, 0);
  Ok a.

(** spherical_functions/__init__.py:211-229 [LMpM_range_half_integer], called with
    [ell_min = twoell_min/2] and [ell_max = twoell_max/2].  The size expression
    [((8*L+18)*L+13)*L+3-((8*l+6)*l+1)*l] at [L = T/2], [l = t/2] is the half of the integer below;
    [int] truncates ([Z.quot]) and [// 3] floors. *)
Definition LMpM_range_half_integer (garbage : Z -> Z * Z * Z) (twoell_min twoell_max : Z)
  : res (arr (Z * Z * Z)) :=
  let T := twoell_max in let t := twoell_min in
  do a <- np_empty (Z.quot (((2 * T + 9) * T + 13) * T + 6 - ((2 * t + 3) * t + 1) * t) 2 / 3) garbage;
  LMpM_half_fill twoell_min twoell_max a.

(** spherical_functions/__init__.py:77-79 *)
Definition Wigner_index (twoell twomp twom : Z) : Z :=
  twoell * ((2 * twoell + 3) * twoell + 1) / 6
  + (twoell + twomp) / 2 * (twoell + 1) + (twoell + twom) / 2.

(** ** Coefficient tables *)

(** spherical_functions/__init__.py:57-59, the index expression *)
Definition binomial_index (n k : Z) : Z := (n * (n + 1)) / 2 + k.

(** spherical_functions/__init__.py:65-67, the index expression *)
Definition ladder_index (twoell twom : Z) : Z := ((twoell + 2) * twoell + twom) / 2.

(** spherical_functions/_generate_coefficients.py:11-16; [f] is the stored number. *)
Definition gen_binomial {A} (f : Z -> Z -> A) (garbage : Z -> A) (ell_max : Z) : res (arr A) :=
  do a <- np_empty (((2 * ell_max + 1) * (2 * ell_max + 2)) / 2) garbage;
  do '(a, _) <-
    for_range 0 (2 * ell_max + 1) (fun n '(a, i) =>
      for_range 0 (n + 1) (fun k '(a, i) =>
        do a <- wr a i (f n k); Ok (a, i + 1)) (a, i)) (a, 0);
  Ok a.

(** spherical_functions/_generate_coefficients.py:20-25 *)
Definition gen_ladder {A} (f : Z -> Z -> A) (garbage : Z -> A) (ell_max : Z) : res (arr A) :=
  do a <- np_empty ((2 * ell_max + 3) * ell_max + 1) garbage;
  do '(a, _) <-
    for_range 0 (2 * ell_max + 1) (fun twoell '(a, i) =>
      for_step (- twoell) (twoell + 1) 2 (fun twom '(a, i) =>
        do a <- wr a i (f twoell twom); Ok (a, i + 1)) (a, i)) (a, 0);
  Ok a.

(** spherical_functions/_generate_coefficients.py:42-52 *)
Definition gen_Wigner {A} (f : Z -> Z -> Z -> A) (garbage : Z -> A) (ell_max : Z) : res (arr A) :=
  do a <- np_empty ((8 * ell_max ^ 3 + 18 * ell_max ^ 2 + 13 * ell_max + 3) / 3) garbage;
  do '(a, _) <-
    for_range 0 (2 * ell_max + 1) (fun twoell '(a, i) =>
      for_step (- twoell) (twoell + 1) 2 (fun twomp '(a, i) =>
        for_step (- twoell) (twoell + 1) 2 (fun twom '(a, i) =>
          do a <- wr a i (f twoell twomp twom); Ok (a, i + 1)) (a, i)) (a, i)) (a, 0);
  Ok a.

(** spherical_functions/__init__.py:57-59 *)
Definition binomial_lookup {A} (table : arr A) (n k : Z) : res A := rd table (binomial_index n k).
(** spherical_functions/__init__.py:65-67 *)
Definition ladder_lookup {A} (table : arr A) (twoell twom : Z) : res A := rd table (ladder_index twoell twom).
(** spherical_functions/__init__.py:81-83 *)
Definition Wigner_lookup {A} (table : arr A) (twoell twomp twom : Z) : res A :=
  rd table (Wigner_index twoell twomp twom).

(** ** Flattened matrices *)

(** spherical_functions/WignerD/__init__.py:278-293 *)
Definition linear_matrix_index (ell mp m : Z) : Z := (ell + m) + (ell + mp) * (2 * ell + 1).
(** spherical_functions/WignerD/__init__.py:296-311 *)
Definition linear_matrix_diagonal_index (ell mpm : Z) : Z := (ell + mpm) * (2 * ell + 2).
(** spherical_functions/WignerD/__init__.py:314-335 *)
Definition linear_matrix_offset (ell ell_min : Z) : Z :=
  ((4 * ell ^ 2 - 1) * ell - (4 * ell_min ^ 2 - 1) * ell_min) / 3.
(** spherical_functions/WignerD/__init__.py:338-340 *)
Definition total_size_D_matrices (ell_min ell_max : Z) : Z :=
  (((4 * ell_max + 12) * ell_max + 11) * ell_max + 3 - (4 * ell_min ^ 2 - 1) * ell_min) / 3.

(** ** The H wedge *)

(** spherical_functions/recursions/wignerH.py:57-59 *)
Definition wedge_size (ell_max : Z) : Z := (ell_max + 1) * (ell_max + 2) * (2 * ell_max + 3) / 6.

(** spherical_functions/recursions/wignerH.py:61-83 *)
Definition wedge_index (ell mp m : Z) : Z :=
  if mp >=? 0
  then (2 * ell * (ell + 1) * (ell + 2) + 3 * mp * (2 * ell - mp + 1) + 6 * m) / 6
  else (2 * ell * (ell + 1) * (ell + 2) + 3 * mp * (2 * ell + mp + 3) + 6 * m) / 6.

(** spherical_functions/recursions/wignerH.py:86-127; the returned list is a triple. *)
Definition wedgeify_index (ell mp m : Z) : Z * Z * Z :=
  if m <? - mp then
    if m <? mp then (ell, - mp, - m) else (ell, - m, - mp)
  else
    if m <? mp then (ell, m, mp) else (ell, mp, m).

(** spherical_functions/recursions/wignerH.py:130-135 *)
Definition sign (m : Z) : Z := if m >=? 0 then 1 else -1.

(** spherical_functions/recursions/wignerH.py:138-145 *)
Definition nm_index (n m : Z) : Z := m + n * (n + 1).
(** spherical_functions/recursions/wignerH.py:148-155 *)
Definition nabsm_index (n absm : Z) : Z := absm + (n * (n + 1)) / 2.
(** spherical_functions/recursions/wignerH.py:158-167 *)
Definition nmpm_index (n mp m : Z) : Z := (((4 * n + 6) * n + 6 * mp + 5) * n + 3 * (m + mp)) / 3.
