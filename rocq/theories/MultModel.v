(** Model of spherical_functions/multiplication.py, of [Modes.multiply] by another Modes object
    (SWSH_modes/algebra.py:237-261) and of the Modes-by-Modes branch of [np.multiply] (SWSH_modes/ufuncs.py:88-117).
    Arithmetic is exact; the calculators are parametrised by the integer widths of Wigner3jModel. *)
Require Import ZArith List Reals Bool.
From Coquelicot Require Import Complex.
From Verif Require Import Base CBase IndexModel Wigner3jModel ModesModel.
Import ListNotations.
Open Scope Z_scope.

(** Column accesses inside jit-compiled code: there is no index check, so an index outside the axis is reported. *)
Definition rdcol_nb (h : heap) (a : ndarray) (i : Z) : res (list Z -> C) :=
  match rdcol h a i with Ok v => Ok v | Err _ => Err OutOfBounds end.
Definition wrcol_nb (h : heap) (a : ndarray) (i : Z) (v : list Z -> C) : res heap :=
  match wrcol h a i v with Ok h => Ok h | Err _ => Err OutOfBounds end.

(** Does a value of shape [sh] fit into a target of shape [ld] (same or broadcast to it)? *)
Definition fits (sh : option (list Z)) (ld : list Z) : bool :=
  match sh with
  | None => false
  | Some sh => match broadcast sh ld with
               | Some r => if list_eq_dec Z.eq_dec r ld then true else false
               | None => false
               end
  end.

(** [fg[..., i] += e], with [e] computed from columns of leading shapes [lf] and [lg] *)
Definition addcol (h : heap) (fg : ndarray) (i : Z) (lf lg : list Z) (e : list Z -> C) : res heap :=
  if fits (broadcast lf lg) (lead fg) then
    do old <- rdcol_nb h fg i;
    wrcol_nb h fg i (fun idx => old idx + e idx)%C
  else Err ValueError.

(** multiplication.py:8-35; [gs] and [gm] are what the two calculators find in memory *)
Definition mult_helper (w : widths) (gs gm : Z -> R) (h : heap)
    (f : ndarray) (ellmin_f ellmax_f s_f : Z)
    (g : ndarray) (ellmin_g ellmax_g s_g : Z)
    (fg : ndarray) (ellmin_fg ellmax_fg s_fg : Z) : res heap :=
  do sc <- calc_new ellmax_f ellmax_g gs;
  do mc <- calc_new ellmax_f ellmax_g gm;
  do '(h, _, _) <- for_range ellmin_f (ellmax_f + 1) (fun ell1 st =>
    let sqrt1 := sqrt (IZR (2 * ell1 + 1) / (4 * PI)) in
    for_range (- ell1) (ell1 + 1) (fun m1 st =>
      do f1 <- rdcol_nb (fst (fst st)) f (LM_index ell1 m1 ellmin_f);
      let sum1 := fun idx => (RtoC sqrt1 * f1 idx)%C in
      for_range ellmin_g (ellmax_g + 1) (fun ell2 st =>
        let '(h, sc, mc) := st in
        let sqrt2 := sqrt (IZR (2 * ell2 + 1)) in
        do sc <- calculate w sc ell1 ell2 s_f s_g;
        do '(h, mc) <- for_range (- ell2) (ell2 + 1) (fun m2 st =>
          let '(h, mc) := st in
          do mc <- calculate w mc ell1 ell2 m1 m2;
          do g2 <- rdcol_nb h g (LM_index ell2 m2 ellmin_g);
          let sum2 := fun idx => (RtoC sqrt2 * g2 idx)%C in
          let m3 := m1 + m2 in
          do h <- for_range (Z.max (Z.abs m3) (Z.abs (ell1 - ell2))) (Z.min (ell1 + ell2) ellmax_fg + 1) (fun ell3 h =>
            do ws <- returned sc ell3;
            do wm <- returned mc ell3;
            let c := (IZR (pm1 (ell1 + ell2 + ell3 + s_fg + m3)) * sqrt (IZR (2 * ell3 + 1)) * ws * wm)%R in
            addcol h fg (LM_index ell3 m3 ellmin_fg) (lead f) (lead g)
              (fun idx => RtoC c * sum1 (bidx (lead f) idx) * sum2 (bidx (lead g) idx))%C) h;
          Ok (h, mc)) (h, mc);
        Ok (h, sc, mc)) st) st) (h, sc, mc);
  Ok h.

(** multiplication.py:38-109 *)
Definition multiply_arrays (w : widths) (gs gm : Z -> R) (h : heap)
    (f : ndarray) (ellmin_f ellmax_f s_f : Z) (g : ndarray) (ellmin_g ellmax_g s_g : Z)
    : res (heap * (ndarray * Z * Z * Z)) :=
  let s_fg := s_f + s_g in
  let ellmax_fg := ellmax_f + ellmax_g in
  let ellmin_fg := 0 in
  do _ <- rdcol h f 0;
  do _ <- rdcol h g 0;
  match broadcast (lead f) (lead g) with
  | None => Err ValueError
  | Some sh =>
    let '(h, fg) := alloc h sh (LM_total_size 0 ellmax_fg) (fun _ _ => RtoC 0) in
    do h <- mult_helper w gs gm h f ellmin_f ellmax_f s_f g ellmin_g ellmax_g s_g fg ellmin_fg ellmax_fg s_fg;
    Ok (h, (fg, ellmin_fg, ellmax_fg, s_fg))
  end.

(** [metadata.get('multiplication_truncator', sum)] *)
Definition trunc_of (m : meta) : Z -> Z -> Z := match truncator m with Some t => t | None => Z.add end.

(** SWSH_modes/algebra.py:242-251 *)
Definition product_ell_max (self other : modes) (tr : option (Z -> Z -> Z)) : Z :=
  let L1 := ellmax (md self) in let L2 := ellmax (md other) in
  match tr with
  | Some t => t L1 L2
  | None => Z.max (trunc_of (md self) L1 L2) (trunc_of (md other) L1 L2)
  end.

(** SWSH_modes/algebra.py:237-261; the same code as ufuncs.py:89-114 when no [out] is given and [tr] is [None] *)
Definition multiply (w : widths) (gs gm : Z -> R) (h : heap) (self other : modes) (tr : option (Z -> Z -> Z))
    : res (heap * modes) :=
  let s := nd self in let o := nd other in
  let new_s := spin (md self) + spin (md other) in
  let new_ell_max := product_ell_max self other tr in
  do _ <- rdcol h s 0;
  do _ <- rdcol h o 0;
  match broadcast (lead s) (lead o) with
  | None => Err ValueError
  | Some sh =>
    let '(h, new) := alloc h sh (LM_total_size 0 new_ell_max) (fun _ _ => RtoC 0) in
    do h <- mult_helper w gs gm h s (ell_min_of self) (ellmax (md self)) (spin (md self))
                                o (ell_min_of other) (ellmax (md other)) (spin (md other))
                                new 0 new_ell_max new_s;
    construct h new (mkmeta new_s new_ell_max (truncator (md self)))
  end.

(** SWSH_modes/ufuncs.py:89-117 with [out=(o,)], [o] an ndarray or (the data of) a Modes object.  A Modes [o] is given
    the returned metadata (:115-117), so the result stands for it as well. *)
Definition np_multiply_out (w : widths) (gs gm : Z -> R) (h : heap) (f g : modes) (out : ndarray) : res (heap * modes) :=
  let s := nd f in let o := nd g in
  let new_s := spin (md f) + spin (md g) in
  let new_ell_max := product_ell_max f g None in
  do _ <- rdcol h s 0;
  do _ <- rdcol h o 0;
  match broadcast (lead s) (lead o) with
  | None => Err ValueError
  | Some _ =>
    do h <- mult_helper w gs gm h s (ell_min_of f) (ellmax (md f)) (spin (md f))
                                o (ell_min_of g) (ellmax (md g)) (spin (md g))
                                out 0 new_ell_max new_s;
    construct h out (mkmeta new_s new_ell_max (truncator (md f)))
  end.
