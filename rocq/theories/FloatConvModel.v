(** Model of spherical_functions/mode_conversions.py in IEEE double arithmetic: [RN64] (FloatIndexModel.v) rounds the
    result of every operation.  Overflow and signed zeros are not part of the model. *)
Require Import ZArith Reals Bool.
From Flocq Require Import Core.
From Coquelicot Require Import Complex.
From Verif Require Import Base CBase IndexModel FloatIndexModel FloatPowersModel ConvModel.
Open Scope Z_scope.

(** Difference of complex numbers.  [div] is the division of a component by a real number: compiled scalar code
    divides, numpy-style array code multiplies by the reciprocal. *)
Definition csub64 (a b : C) : C := (RN64 (Re a - Re b), RN64 (Im a - Im b)).
Definition cdivr (div : R -> R -> R) (a : C) (k : R) : C := (div (Re a) k, div (Im a) k).

(** [math.pi] and the three constants [sqrt(4 * pi)], [sqrt(2 * pi / 3.)], [sqrt(4 * pi / 3.)] of mode_conversions.py:12-62 *)
Definition pi64 : R := RN64 PI.
Definition k00 : R := RN64 (sqrt (RN64 (4 * pi64))).
Definition k11 : R := RN64 (sqrt (RN64 (RN64 (2 * pi64) / 3))).
Definition k10 : R := RN64 (sqrt (RN64 (RN64 (4 * pi64) / 3))).

(** mode_conversions.py:9-12 and 15-23 *)
Definition constant_as64 (c : C) : C := cscale64 k00 c.
Definition constant_from64 (div : R -> R -> R) (m : C) : C := cdivr div m k00.

(** mode_conversions.py:26-49; products with 1j are exact *)
Definition vector_as64 (v : C * C * C) : C * C * C :=
  let '(x, y, z) := v in
  (cscale64 k11 (cadd64 x (Ci * y)%C), cscale64 k10 z, cscale64 k11 (cadd64 (- x)%C (Ci * y)%C)).

(** mode_conversions.py:52-62; the division by [2j * k] is one by [2 * k] followed by an exact one by 1j *)
Definition vector_from64 (div : R -> R -> R) (m : C * C * C) : C * C * C :=
  let '(m0, m1, m2) := m in
  (cdivr div (csub64 m0 m2) (RN64 (2 * k11)),
   (cdivr div (cadd64 m0 m2) (RN64 (2 * k11)) / Ci)%C,
   cdivr div m1 k10).

(** mode_conversions.py:96, 131, 166, 201, 223: [int(sqrt(len(modes) + LM_total_size(0, ell_min - 1))) - 1] *)
Definition conv_ell_max64 (len ell_min : Z) : Z :=
  Ztrunc (RN64 (sqrt (RN64 (IZR (len + LM_total_size 0 (ell_min - 1)))))) - 1.

(** The inner loops *)
Definition scale_block64 (factor : R) (ell : Z) (st : arr C * Z) : res (arr C * Z) :=
  for_range (- ell) (ell + 1) (fun m st =>
    let '(a, i_mode) := st in
    do x <- rd a i_mode;
    do a <- wr a i_mode (cscale64 factor x);
    Ok (a, i_mode + 1)) st.
Definition unscale_block64 (div : R -> R -> R) (factor : R) (ell : Z) (st : arr C * Z) : res (arr C * Z) :=
  for_range (- ell) (ell + 1) (fun m st =>
    let '(a, i_mode) := st in
    do x <- rd a i_mode;
    do a <- wr a i_mode (cdivr div x factor);
    Ok (a, i_mode + 1)) st.
Definition ell_loop64 (step : Z -> arr C * Z -> res (arr C * Z)) (ell_min : Z) (modes : arr C) : res (arr C) :=
  do ' (a, _) <- for_range ell_min (conv_ell_max64 (alen modes) ell_min + 1) step (modes, 0);
  Ok a.

(** [a * (b + 1.)] for integers [a], [b], which are converted to doubles *)
Definition int_product64 (a b : Z) : R := RN64 (RN64 (IZR a) * RN64 (RN64 (IZR b) + 1)).

(** mode_conversions.py:170 and 142-174 *)
Definition eth_NP_factor64 (s ell : Z) : R :=
  if ell <? Z.abs (s + 1) then 0%R else RN64 (sqrt (int_product64 (ell - s) (ell + s))).
Definition eth_NP64 (modes : arr C) (s ell_min : Z) : res (arr C) :=
  ell_loop64 (fun ell => scale_block64 (eth_NP_factor64 s ell) ell) ell_min modes.
(** mode_conversions.py:205 and 177-209 *)
Definition ethbar_NP_factor64 (s ell : Z) : R :=
  if ell <? Z.abs (s - 1) then 0%R else (- RN64 (sqrt (int_product64 (ell + s) (ell - s))))%R.
Definition ethbar_NP64 (modes : arr C) (s ell_min : Z) : res (arr C) :=
  ell_loop64 (fun ell => scale_block64 (ethbar_NP_factor64 s ell) ell) ell_min modes.
(** mode_conversions.py:100 and 65-104 *)
Definition eth_GHP_factor64 (s ell : Z) : R :=
  if ell <? Z.abs (s + 1) then 0%R else RN64 (sqrt (RN64 (int_product64 (ell - s) (ell + s) / 2))).
Definition eth_GHP64 (modes : arr C) (s ell_min : Z) : res (arr C) :=
  ell_loop64 (fun ell => scale_block64 (eth_GHP_factor64 s ell) ell) ell_min modes.
(** mode_conversions.py:135 and 107-139 *)
Definition ethbar_GHP_factor64 (s ell : Z) : R :=
  if ell <? Z.abs (s - 1) then 0%R else (- RN64 (sqrt (RN64 (int_product64 (ell + s) (ell - s) / 2))))%R.
Definition ethbar_GHP64 (modes : arr C) (s ell_min : Z) : res (arr C) :=
  ell_loop64 (fun ell => scale_block64 (ethbar_GHP_factor64 s ell) ell) ell_min modes.
(** mode_conversions.py:212-235; [term] is [(ell + spin_weight + 1.) * (ell - spin_weight)] *)
Definition ethbar_inverse_NP64 (div : R -> R -> R) (modes : arr C) (s ell_min : Z) : res (arr C) :=
  ell_loop64 (fun ell st =>
    let term := int_product64 (ell - s) (ell + s) in
    if Rlt_dec 0 term then unscale_block64 div (- RN64 (sqrt term)) ell st
    else Ok (fst st, snd st + 2 * ell + 1)) ell_min modes.
