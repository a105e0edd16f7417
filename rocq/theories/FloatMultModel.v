(** Model of the product of two Modes objects in IEEE double arithmetic: spherical_functions/multiplication.py and
    SWSH_modes/algebra.py:237-261.  [RN64] (FloatIndexModel.v) rounds the result of every operation on floats; arrays and loops are
    those of MultModel.v, the 3-j calculators those of FloatThreeJModel.v.  A product of a float and a complex number is rounded
    once in each part (the compiled code makes the float complex: the products with 0 are exact).  [way] says how the real and the
    imaginary part of a complex product are added up (FloatModesModel.v), possibly differently from product to product.  Overflow
    and signed zeros are not part of the model. *)
Require Import ZArith List Reals Bool.
From Coquelicot Require Import Complex.
From Verif Require Import Base CBase IndexModel Wigner3jModel ModesModel MultModel FloatIndexModel FloatPowersModel FloatWignerModel FloatThreeJModel FloatModesModel.
Import ListNotations.
Open Scope Z_scope.

(** [fg[..., i] += e], as [addcol] *)
Definition addcol64 (h : heap) (fg : ndarray) (i : Z) (lf lg : list Z) (e : list Z -> C) : res heap :=
  if fits (broadcast lf lg) (lead fg) then
    do old <- rdcol_nb h fg i;
    wrcol_nb h fg i (fun idx => cadd64 (old idx) (e idx))
  else Err ValueError.

(** How complex products are added up: for ell1, m1, ell2, m2, ell3 and the place in the leading axes *)
Definition ways : Type := Z -> Z -> Z -> Z -> Z -> list Z -> order * order.

(** multiplication.py:19 and 22: [math.sqrt((2*ell1+1)/(4*math.pi))] is [swsh_norm64], and [math.sqrt(2*ell2+1)] *)
Definition sqrt_odd64 (ell : Z) : R := RN64 (sqrt (RN64 (IZR (2 * ell + 1)))).
(** multiplication.py:29-34; [math.pow(-1, n)] is exact *)
Definition factor64 (ell1 ell2 ell3 s_fg m3 : Z) (ws wm : R) : R :=
  RN64 (RN64 (RN64 (IZR (pm1 (ell1 + ell2 + ell3 + s_fg + m3)) * sqrt_odd64 ell3) * ws) * wm).

(** multiplication.py:8-35, as [mult_helper] *)
Definition mult_helper64 (w : widths) (way : ways) (gs gm : Z -> R) (h : heap)
    (f : ndarray) (ellmin_f ellmax_f s_f : Z)
    (g : ndarray) (ellmin_g ellmax_g s_g : Z)
    (fg : ndarray) (ellmin_fg ellmax_fg s_fg : Z) : res heap :=
  do sc <- calc_new ellmax_f ellmax_g gs;
  do mc <- calc_new ellmax_f ellmax_g gm;
  do '(h, _, _) <- for_range ellmin_f (ellmax_f + 1) (fun ell1 st =>
    let sqrt1 := swsh_norm64 ell1 in
    for_range (- ell1) (ell1 + 1) (fun m1 st =>
      do f1 <- rdcol_nb (fst (fst st)) f (LM_index ell1 m1 ellmin_f);
      let sum1 := fun idx => cscale64 sqrt1 (f1 idx) in
      for_range ellmin_g (ellmax_g + 1) (fun ell2 st =>
        let '(h, sc, mc) := st in
        let sqrt2 := sqrt_odd64 ell2 in
        do sc <- calculate64 w sc ell1 ell2 s_f s_g;
        do '(h, mc) <- for_range (- ell2) (ell2 + 1) (fun m2 st =>
          let '(h, mc) := st in
          do mc <- calculate64 w mc ell1 ell2 m1 m2;
          do g2 <- rdcol_nb h g (LM_index ell2 m2 ellmin_g);
          let sum2 := fun idx => cscale64 sqrt2 (g2 idx) in
          let m3 := m1 + m2 in
          do h <- for_range (Z.max (Z.abs m3) (Z.abs (ell1 - ell2))) (Z.min (ell1 + ell2) ellmax_fg + 1) (fun ell3 h =>
            do ws <- returned sc ell3;
            do wm <- returned mc ell3;
            let c := factor64 ell1 ell2 ell3 s_fg m3 ws wm in
            addcol64 h fg (LM_index ell3 m3 ellmin_fg) (lead f) (lead g)
              (fun idx => cmul64 (way ell1 m1 ell2 m2 ell3 idx) (cscale64 c (sum1 (bidx (lead f) idx))) (sum2 (bidx (lead g) idx)))) h;
          Ok (h, mc)) (h, mc);
        Ok (h, sc, mc)) st) st) (h, sc, mc);
  Ok h.

(** SWSH_modes/algebra.py:237-261, as [multiply] *)
Definition multiply64 (w : widths) (way : ways) (gs gm : Z -> R) (h : heap) (self other : modes) (tr : option (Z -> Z -> Z))
    : res (heap * modes) :=
  let s := nd self in let o := nd other in
  let new_s := spin (md self) + spin (md other) in
  let new_ell_max := product_ell_max self other tr in
  do _ <- rdcol h s 0;
  do _ <- rdcol h o 0;
  match broadcast (lead s) (lead o) with
  | None => Err ValueError
  | Some sh =>
    let '(h, new) := alloc h sh (LM_total_size 0 new_ell_max) (fun _ _ => RtoC 0) in
    do h <- mult_helper64 w way gs gm h s (ell_min_of self) (ellmax (md self)) (spin (md self))
                                o (ell_min_of other) (ellmax (md other)) (spin (md other))
                                new 0 new_ell_max new_s;
    construct h new (mkmeta new_s new_ell_max (truncator (md self)))
  end.

(** multiplication.py:38-109 [multiply] on plain arrays, as [multiply_arrays] *)
Definition multiply_arrays64 (w : widths) (way : ways) (gs gm : Z -> R) (h : heap)
    (f : ndarray) (ellmin_f ellmax_f s_f : Z) (g : ndarray) (ellmin_g ellmax_g s_g : Z)
    : res (heap * (ndarray * Z * Z * Z)) :=
  let s_fg := s_f + s_g in
  let ellmax_fg := ellmax_f + ellmax_g in
  let ellmin_fg := 0 in
  do _ <- rdcol h f 0;
  do _ <- rdcol h g 0;
  match broadcast (lead f) (lead g) with
  | None => Err ValueError
  | Some sh =>
    let '(h, fg) := alloc h sh (LM_total_size 0 ellmax_fg) (fun _ _ => RtoC 0) in
    do h <- mult_helper64 w way gs gm h f ellmin_f ellmax_f s_f g ellmin_g ellmax_g s_g fg ellmin_fg ellmax_fg s_fg;
    Ok (h, (fg, ellmin_fg, ellmax_fg, s_fg))
  end.
