(** Model of spherical_functions/mode_conversions.py. *)
Require Import ZArith Lia Reals Lra Bool.
From Coquelicot Require Import Complex.
From Verif Require Import Base CBase IndexModel.
Open Scope Z_scope.

(** mode_conversions.py:9-12 *)
Definition constant_as_ell_0_mode (constant : C) : C := (constant * RtoC (sqrt (4 * PI)))%C.
(** mode_conversions.py:15-23 *)
Definition constant_from_ell_0_mode (modes : C) : C := (modes / RtoC (sqrt (4 * PI)))%C.

(** mode_conversions.py:26-49; the last axis of the array is the triple, leading axes are elementwise. *)
Definition vector_as_ell_1_modes (v : C * C * C) : C * C * C :=
  let '(x, y, z) := v in
  (((x + Ci * y) * RtoC (sqrt (2 * PI / 3)))%C,
   (z * RtoC (sqrt (4 * PI / 3)))%C,
   ((- x + Ci * y) * RtoC (sqrt (2 * PI / 3)))%C).

(** mode_conversions.py:52-62 *)
Definition vector_from_ell_1_modes (modes : C * C * C) : C * C * C :=
  let '(m0, m1, m2) := modes in
  (((m0 - m2) / (RtoC 2 * RtoC (sqrt (2 * PI / 3))))%C,
   ((m0 + m2) / (RtoC 2 * Ci * RtoC (sqrt (2 * PI / 3))))%C,
   (m1 / RtoC (sqrt (4 * PI / 3)))%C).

(** mode_conversions.py:96, 131, 166, 201, 223:
    [int(sqrt(len(modes) + LM_total_size(0, ell_min - 1))) - 1], with the integer square root. *)
Definition conv_ell_max (len ell_min : Z) : Z := Z.sqrt (len + LM_total_size 0 (ell_min - 1)) - 1.

(** The inner loop [for m in range(-ell, ell+1): out[i_mode] *= factor; i_mode += 1]. *)
Definition scale_block (factor : R) (ell : Z) (st : arr C * Z) : res (arr C * Z) :=
  for_range (- ell) (ell + 1) (fun m st =>
    let '(a, i_mode) := st in
    do x <- rd a i_mode;
    do a <- wr a i_mode (x * RtoC factor)%C;
    Ok (a, i_mode + 1)) st.

(** The inner loop with [/=]. *)
Definition unscale_block (factor : R) (ell : Z) (st : arr C * Z) : res (arr C * Z) :=
  for_range (- ell) (ell + 1) (fun m st =>
    let '(a, i_mode) := st in
    do x <- rd a i_mode;
    do a <- wr a i_mode (x / RtoC factor)%C;
    Ok (a, i_mode + 1)) st.

Definition ell_loop (step : Z -> arr C * Z -> res (arr C * Z)) (ell_min : Z) (modes : arr C) : res (arr C) :=
  do ' (a, _) <- for_range ell_min (conv_ell_max (alen modes) ell_min + 1) step (modes, 0);
  Ok a.

(** mode_conversions.py:100 *)
Definition eth_GHP_factor (s ell : Z) : R :=
  if ell <? Z.abs (s + 1) then 0%R else sqrt (IZR (ell - s) * IZR (ell + s + 1) / 2).
(** mode_conversions.py:65-104 *)
Definition eth_GHP (modes : arr C) (s ell_min : Z) : res (arr C) :=
  ell_loop (fun ell => scale_block (eth_GHP_factor s ell) ell) ell_min modes.

(** mode_conversions.py:135 *)
Definition ethbar_GHP_factor (s ell : Z) : R :=
  if ell <? Z.abs (s - 1) then 0%R else (- sqrt (IZR (ell + s) * IZR (ell - s + 1) / 2))%R.
(** mode_conversions.py:107-139 *)
Definition ethbar_GHP (modes : arr C) (s ell_min : Z) : res (arr C) :=
  ell_loop (fun ell => scale_block (ethbar_GHP_factor s ell) ell) ell_min modes.

(** mode_conversions.py:170 *)
Definition eth_NP_factor (s ell : Z) : R :=
  if ell <? Z.abs (s + 1) then 0%R else sqrt (IZR (ell - s) * IZR (ell + s + 1)).
(** mode_conversions.py:142-174 *)
Definition eth_NP (modes : arr C) (s ell_min : Z) : res (arr C) :=
  ell_loop (fun ell => scale_block (eth_NP_factor s ell) ell) ell_min modes.

(** mode_conversions.py:205 *)
Definition ethbar_NP_factor (s ell : Z) : R :=
  if ell <? Z.abs (s - 1) then 0%R else (- sqrt (IZR (ell + s) * IZR (ell - s + 1)))%R.
(** mode_conversions.py:177-209 *)
Definition ethbar_NP (modes : arr C) (s ell_min : Z) : res (arr C) :=
  ell_loop (fun ell => scale_block (ethbar_NP_factor s ell) ell) ell_min modes.

(** mode_conversions.py:212-235 *)
Definition ethbar_inverse_NP (modes : arr C) (s ell_min : Z) : res (arr C) :=
  ell_loop (fun ell st =>
    let term := (IZR (ell + s + 1) * IZR (ell - s))%R in
    if Rlt_dec 0 term then unscale_block (- sqrt term) ell st
    else Ok (fst st, snd st + 2 * ell + 1)) ell_min modes.
