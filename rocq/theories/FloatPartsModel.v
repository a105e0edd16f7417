(** Model of the real and imaginary part of Modes (spherical_functions/SWSH_modes/algebra.py) in IEEE double arithmetic: [RN64]
    (FloatIndexModel.v) rounds the result of every operation.  Overflow and signed zeros are not part of the model.  The
    conjugate (algebra.py:14-64) only copies, conjugates and negates, which is exact in doubles: its model is [conjugate] of
    ModesModel.v. *)
Require Import ZArith List Reals Bool.
From Coquelicot Require Import Complex.
From Verif Require Import Base CBase IndexModel PowersModel ModesModel FloatIndexModel FloatPowersModel FloatConvModel FloatModesModel.
Import ListNotations.
Open Scope Z_scope.

(** How the products and quotients of complex numbers are carried out, entry by entry of the array that is written *)
Record parts_way := mkpw { p_mul : list Z -> Z -> order * order; p_div : list Z -> Z -> bool * bool * bool }.

(** algebra.py:94-104; the division by 2 is numpy's complex division *)
Definition real_loop64 (w : parts_way) (s c : ndarray) (ell_max : Z) (h : heap) : res heap :=
  for_range 0 (ell_max + 1) (fun ell h =>
    let i := LM_index ell 0 0 in
    do v <- rdcol h s i;
    do h <- wrcol h c i (fun idx => RtoC (Re (v idx)));
    for_range 1 (ell + 1) (fun m h =>
      let i_p := LM_index ell m 0 in let i_n := LM_index ell (- m) 0 in
      do vp <- rdcol h s i_p;
      do vn <- rdcol h s i_n;
      if m mod 2 =? 0 then
        do h <- wrcol h c i_p (fun idx => cdiv64 (p_div w idx i_p) (cadd64 (vp idx) (Cconj (vn idx))) (RtoC 2));
        do x <- rdcol h c i_p;
        wrcol h c i_n (fun idx => Cconj (x idx))
      else
        do h <- wrcol h c i_p (fun idx => cdiv64 (p_div w idx i_p) (csub64 (vp idx) (Cconj (vn idx))) (RtoC 2));
        do x <- rdcol h c i_p;
        wrcol h c i_n (fun idx => - Cconj (x idx))%C) h) h.

(** algebra.py:73-107 *)
Definition real_func64 (w : parts_way) (h : heap) (self : modes) (inplace : bool) : res (heap * modes) :=
  if negb (spin (md self) =? 0) then Err ValueError else
  let s := nd self in
  let '(h, c) := if inplace then (h, s) else zeros_like h s in
  do h <- real_loop64 w s c (ellmax (md self)) h;
  if inplace then Ok (h, self) else construct h c (md self).

(** algebra.py:142-154; [-1j * x / 2] is a complex product and a complex quotient *)
Definition imag_loop64 (w : parts_way) (s c : ndarray) (ell_max : Z) (h : heap) : res heap :=
  for_range 0 (ell_max + 1) (fun ell h =>
    let i := LM_index ell 0 0 in
    do v <- rdcol h s i;
    do h <- wrcol h c i (fun idx => RtoC (Im (v idx)));
    for_range 1 (ell + 1) (fun m h =>
      let i_p := LM_index ell m 0 in let i_n := LM_index ell (- m) 0 in
      do vp <- rdcol h s i_p;
      do vn <- rdcol h s i_n;
      if m mod 2 =? 0 then
        do h <- wrcol h c i_p (fun idx => cdiv64 (p_div w idx i_p) (cmul64 (p_mul w idx i_p) (- Ci)%C (csub64 (vp idx) (Cconj (vn idx)))) (RtoC 2));
        do x <- rdcol h c i_p;
        wrcol h c i_n (fun idx => Cconj (x idx))
      else
        do h <- wrcol h c i_p (fun idx => cdiv64 (p_div w idx i_p) (cmul64 (p_mul w idx i_p) (- Ci)%C (cadd64 (vp idx) (Cconj (vn idx)))) (RtoC 2));
        do x <- rdcol h c i_p;
        wrcol h c i_n (fun idx => - Cconj (x idx))%C) h) h.

(** algebra.py:115-157 *)
Definition imag_func64 (w : parts_way) (h : heap) (self : modes) (inplace : bool) : res (heap * modes) :=
  if negb (spin (md self) =? 0) then Err ValueError else
  let s := nd self in
  let '(h, c) := if inplace then (h, s) else zeros_like h s in
  do h <- imag_loop64 w s c (ellmax (md self)) h;
  if inplace then Ok (h, self) else construct h c (md self).
